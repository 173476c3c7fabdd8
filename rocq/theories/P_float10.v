(* Property theorems C86: animations that turn or swing, and morphs between key curves, on doubles. *)
From Coq Require Import Reals Floats ZArith List Lra Lia String Sorted.
From Flocq Require Import Core BinarySingleNaN PrimFloat.
Require Import Verif.Base Verif.NumFloat Verif.NumR Verif.M_vector Verif.M_bbox Verif.M_transform Verif.M_bezier Verif.M_points Verif.M_colors Verif.M_elems Verif.M_group Verif.M_anim.
Require Import Verif.L_points Verif.S_float Verif.L_float Verif.L_float2 Verif.P_float Verif.P_float2 Verif.P_float3 Verif.P_multi Verif.P_float4 Verif.P_float5 Verif.P_float6 Verif.P_float7 Verif.P_float8 Verif.P_float9.
Import ListNotations.
Set Warnings "-inexact-float".
Local Open Scope R_scope.

(* ---------------- a point that circles ---------------- *)

Lemma add_flip (x y : float) : finite (x + y)%float -> finite (y + x)%float /\ val (y + x)%float = val (x + y)%float.
Proof.
  intros F. destruct (add_ok _ _ F) as (Fx & Fy & E).
  assert (F' : finite (y + x)%float) by (apply add_fin; auto; rewrite Rplus_comm, <- E; apply val_bound).
  split; [exact F'|]. destruct (add_ok _ _ F') as (_ & _ & ->). rewrite E. f_equal. ring.
Qed.
Lemma near_tau {TF : NumTrig float} k : accurate_trig k TF -> near 2 (2 * PI + tiny) tau (2 * PI).
Proof.
  intros Acc. unfold tau. ops. eapply near_weaken; [| |exact (near_mul _ _ _ _ _ _ _ _ (near_const 2 ltac:(vm_compute; discriminate)) (near_pi k Acc))]; [lia|cbn; lra].
Qed.
Lemma near_phase {TF : NumTrig float} k (t fr : float) : accurate_trig k TF ->
  near 4 ((9 * Rabs (val t) + tiny) * Rabs (val fr) + tiny) (t * tau * fr)%float (val t * (2 * PI) * val fr).
Proof.
  intros Acc. pose proof (near_mul _ _ _ _ _ _ _ _ (near_mul _ _ _ _ _ _ _ _ (near_leaf t) (near_tau k Acc)) (near_leaf fr)) as Q.
  eapply near_weaken; [| |exact Q]; [lia|]. pose proof tiny_small. pose proof PI_4.
  assert (Rabs (val t) * (2 * PI + tiny) <= Rabs (val t) * 9) by (apply Rmult_le_compat_l; [apply Rabs_pos|lra]).
  apply Rplus_le_compat_r, Rmult_le_compat_r; [apply Rabs_pos|]. lra.
Qed.
(* what one move of a plain point does *)
Lemma move_place (st st' : pstore float) point (q : float * float) r x0 y0 nm : nth_error st point = Some (NPoint x0 y0 nm) ->
  move st point q = (st', r) -> r = Ok tt /\ nth_error st' point = Some (NPoint (fst q) (snd q) nm).
Proof.
  intros N H. unfold move, pstep in H. rewrite N in H. cbn [bind fst snd] in H.
  pose proof (f_equal fst H) as H1. pose proof (f_equal snd H) as H2. cbn [fst snd] in H1, H2. subst st' r. split; [reflexivity|].
  rewrite nth_upd; [|apply nth_error_Some; rewrite N; discriminate]. rewrite Nat.eqb_refl. reflexivity.
Qed.
Lemma norm_swap a b : norm a b = norm b a.
Proof. unfold norm. f_equal. ring. Qed.

(* after each update the point is at the radius from where it was at first, at the angle of the
   clock; the offset is in radians *)
Theorem C86_circular {TF : NumTrig float} (k : nat) (o : pt float) (point : nat) (radius frequency offset t : float) (st st' : pstore float) (res : res unit) x0 y0 nm :
  accurate_trig k TF -> INR k * eps <= 1 -> nth_error st point = Some (NPoint x0 y0 nm) ->
  a_update (ACircular o point radius frequency offset) (TNum t) st = (st', res) ->
  exists x y, res = Ok tt /\ nth_error st' point = Some (NPoint x y nm) /\
  (finite x -> finite y ->
   Rabs (gap (valp (P x y)) (valp o) - Rabs (val radius)) <=
     eps * (2 * (INR k + 5) * Rabs (val radius) + Rabs (val (px o)) + Rabs (val (py o)) + 6 * tiny) /\
   let a := 2 * PI * val frequency * val t + val offset in
   gap (valp (P x y)) (P (val (px o) + val radius * sin a) (val (py o) + val radius * cos a)) <=
     eps * ((2 * (INR k + 5) + 6 * ((9 * Rabs (val t) + tiny) * Rabs (val frequency) + Rabs (val offset) + tiny)) * Rabs (val radius)
            + Rabs (val (px o)) + Rabs (val (py o)) + 6 * tiny)).
Proof.
  intros Acc Hk N H. cbn [a_update] in H. destruct (move_place _ _ _ _ _ _ _ _ N H) as [-> N']. cbn [fst snd] in N'. ops_in N'.
  do 2 eexists. split; [reflexivity|]. split; [exact N'|]. clear N' H. intros Fx Fy.
  set (th := (t * tau * frequency + offset)%float) in *.
  destruct (add_flip _ _ Fx) as [Fx' Ex]. destruct (add_flip _ _ Fy) as [Fy' Ey].
  unfold gap. cbn [valp px py]. rewrite <- Ex, <- Ey. split.
  - rewrite norm_swap. pose proof (at_radius k radius th (P (py o) (px o)) Acc Hk) as A. cbn [px py] in A. specialize (A Fy' Fx').
    cbn [fst snd px py] in A. eapply Rle_trans; [exact A|]. apply Req_le. ring.
  - set (a := 2 * PI * val frequency * val t + val offset).
    destruct (on_arc k radius (py o) (px o) th a Acc Hk Fy' Fx') as [Ft A].
    rewrite norm_swap, (Rplus_comm (val (px o))), (Rplus_comm (val (py o))). eapply Rle_trans; [exact A|].
    pose proof (near_add _ _ _ _ _ _ _ _ (near_phase k t frequency Acc) (near_leaf offset)) as Q.
    pose proof (near_use _ _ _ _ 6 _ Q ltac:(lia) ltac:(cbn; lra) (Rle_refl _) Ft) as U. fold th in U.
    replace (val t * (2 * PI) * val frequency + val offset) with a in U by (unfold a; ring).
    pose proof (Rmult_le_compat_l _ _ _ (Rabs_pos (val radius)) U) as W. lra.
Qed.

(* ---------------- a point that swings ---------------- *)

Lemma cos_lip a b : Rabs (cos a - cos b) <= Rabs (a - b).
Proof.
  set (h := (a - b) / 2). set (g := (a + b) / 2). replace a with (g + h) at 1 by (unfold g, h; field). replace b with (g - h) at 1 by (unfold g, h; field).
  rewrite cos_plus, cos_minus. replace (cos g * cos h - sin g * sin h - (cos g * cos h + sin g * sin h)) with (- (2 * (sin g * sin h))) by ring.
  replace (a - b) with (2 * h) by (unfold h; field). rewrite Rabs_Ropp, !Rabs_mult, (Rabs_right 2) by lra.
  assert (Rabs (sin g) <= 1) by (apply Rabs_le; pose proof (SIN_bound g); lra). pose proof (sin_abs h). pose proof (Rabs_pos (sin h)).
  pose proof (Rabs_pos (sin g)). assert (Rabs (sin g) * Rabs (sin h) <= 1 * Rabs h) by (apply Rmult_le_compat; auto). lra.
Qed.
Lemma half_val : finite (half : float) /\ val (half : float) = / 2.
Proof.
  unfold half. ops. assert (F : finite (float_ofZ 1 / float_ofZ 2)%float) by reflexivity. split; [exact F|].
  destruct (const_ok 1) as [F1 E1]; [vm_compute; discriminate|]. destruct (const_ok 2) as [F2 E2]; [vm_compute; discriminate|].
  destruct (div_ok _ _ F2 ltac:(rewrite E2; lra) F) as [_ ->]. rewrite E1, E2. replace (1 / 2) with (bpow radix2 (-1)) by (cbn; lra).
  assert (Q : rnd (bpow radix2 (-1)) = bpow radix2 (-1)) by (apply round_generic; [apply valid_rnd_N|apply generic_format_bpow; vm_compute; discriminate]).
  rewrite Q. cbn. lra.
Qed.
(* after each update the point is on the way from where it was at first to the target, half of
   one minus the cosine of the clock along; the offset is in degrees *)
Theorem C86_sinusoidal {TF : NumTrig float} (k : nat) (o g : pt float) (point target : nat) (frequency offset t : float) (st st' : pstore float) (res : res unit) x0 y0 nm :
  accurate_trig k TF -> (k <= 900)%nat -> nth_error st point = Some (NPoint x0 y0 nm) -> M_points.pos st target = Ok g ->
  a_update (ASinusoidal o point target frequency offset) (TNum t) st = (st', res) ->
  exists x y, res = Ok tt /\ nth_error st' point = Some (NPoint x y nm) /\
  let a := 2 * PI * val frequency * val t + radians (val offset) in
  let part := (1 - cos a) / 2 in
  let close (c c0 c1 : float) := finite c ->
    Rabs (val c - ((1 - part) * val c0 + part * val c1)) <=
      eps * ((INR k + 6) * (3 * Rabs (val c0) + 2 * Rabs (val c1) + 2 * tiny)
             + 3 * ((9 * Rabs (val t) + tiny) * Rabs (val frequency) + Rabs (val offset) + 3 * tiny) * Rabs (val c1 - val c0)) in
  close x (px o) (px g) /\ close y (py o) (py g).
Proof.
  intros Acc Hk N Hp H. cbn [a_update] in H. rewrite Hp in H. destruct (move_place _ _ _ _ _ _ _ _ N H) as [-> N']. cbn [fst snd] in N'. ops_in N'.
  do 2 eexists. split; [reflexivity|]. split; [exact N'|]. clear N' H. intros a part close.
  set (th := (t * tau * frequency + offset * tau / float_ofZ 360)%float) in *.
  destruct half_val as [Fh Eh]. destruct (const_ok 1) as [F1 E1]; [vm_compute; discriminate|]. destruct (const_ok 360) as [F360 E360]; [vm_compute; discriminate|].
  pose proof eps_pos. pose proof tiny_pos. pose proof tiny_small as Ts. pose proof PI_4. pose proof PI_RGT_0.
  assert (Nc : near k 1 (ncos th) (cos (val th))).
  { split; [apply Rabs_le; pose proof (COS_bound (val th)); lra|]. intros F. destruct Acc as [_ Acc]. destruct (proj2 (Acc th) F) as [_ B].
    eapply Rle_trans; [exact B|]. rewrite Rmult_1_r. pose proof (poly k eps eps_pos). lra. }
  assert (Nt : near (k + 2) (1 + tiny) ((float_ofZ 1 - ncos th) * half)%float ((1 - cos (val th)) * / 2)).
  { pose proof (near_leaf half) as Nh. rewrite Eh in Nh. rewrite Rabs_right in Nh by lra.
    pose proof (near_mul _ _ _ _ _ _ _ _ (near_sub _ _ _ _ _ _ _ _ (near_const 1 ltac:(vm_compute; discriminate)) Nc) Nh) as Q.
    eapply near_weaken; [| |exact Q]; [lia|cbn; lra]. }
  set (tt' := ((float_ofZ 1 - ncos th) * half)%float) in *. set (pt' := (1 - cos (val th)) * / 2) in *.
  assert (G : forall c0 c1, close ((float_ofZ 1 - tt') * c0 + tt' * c1)%float c0 c1); [|split; apply G].
  intros c0 c1 F.
  (* the angle *)
  destruct (add_ok _ _ F) as (Fa & Fb & _). destruct (mul_ok _ _ Fb) as (Ft & _ & _). destruct (mul_ok _ _ Ft) as (Fs & _ & _). destruct (sub_ok _ _ Fs) as (_ & Fc & _).
  destruct (proj2 (proj2 Acc th) Fc) as [Fth _].
  pose proof (near_div _ _ _ (float_ofZ 360) _ F360 ltac:(rewrite E360; lra) (near_mul _ _ _ _ _ _ _ _ (near_leaf offset) (near_tau k Acc))) as D.
  rewrite E360, (Rabs_right 360) in D by lra.
  pose proof (near_add _ _ _ _ _ _ _ _ (near_phase k t frequency Acc) D) as Q.
  assert (B : Rabs (val offset) * (2 * PI + tiny) <= Rabs (val offset) * 9) by (apply Rmult_le_compat_l; [apply Rabs_pos|lra]).
  set (A := (9 * Rabs (val t) + tiny) * Rabs (val frequency) + Rabs (val offset) + 3 * tiny). pose proof (Rabs_pos (val offset)).
  pose proof (near_use _ _ _ _ 6 A Q ltac:(lia) ltac:(cbn; lra) ltac:(unfold A; lra) Fth) as U. clear Q D.
  replace (val t * (2 * PI) * val frequency + val offset * (2 * PI) / 360) with a in U by (unfold a, radians; cbn [npi TrigR]; ops; field). fold th in U.
  (* the place *)
  pose proof (near_add _ _ _ _ _ _ _ _ (near_mul _ _ _ _ _ _ _ _ (near_sub _ _ _ _ _ _ _ _ (near_const 1 ltac:(vm_compute; discriminate)) Nt) (near_leaf c0)) (near_mul _ _ _ _ _ _ _ _ Nt (near_leaf c1))) as Q.
  assert (Q' : near (k + 5) (3 * Rabs (val c0) + 2 * Rabs (val c1) + 2 * tiny) ((float_ofZ 1 - tt') * c0 + tt' * c1)%float ((1 - pt') * val c0 + pt' * val c1)).
  { eapply near_weaken; [| |exact Q]; [lia|]. cbn [Z.abs]. pose proof (Rabs_pos (val c0)). pose proof (Rabs_pos (val c1)).
    assert ((1 + (1 + tiny)) * Rabs (val c0) <= 3 * Rabs (val c0)) by (apply Rmult_le_compat_r; lra). assert ((1 + tiny) * Rabs (val c1) <= 2 * Rabs (val c1)) by (apply Rmult_le_compat_r; lra). lra. }
  pose proof (near_use _ _ _ _ (INR k + 6) _ Q' ltac:(lia) ltac:(rewrite S_INR, plus_INR; cbn [INR]; lra) (Rle_refl _) F) as V1.
  set (v := val ((float_ofZ 1 - tt') * c0 + tt' * c1)%float) in *.
  replace (v - ((1 - part) * val c0 + part * val c1)) with ((v - ((1 - pt') * val c0 + pt' * val c1)) + (cos a - cos (val th)) / 2 * (val c1 - val c0)) by (unfold part, pt'; field).
  eapply Rle_trans; [apply Rabs_triang|]. rewrite Rabs_mult.
  assert (C : Rabs ((cos a - cos (val th)) / 2) <= 3 * eps * A).
  { unfold Rdiv. rewrite Rabs_mult, (Rabs_right (/ 2)) by lra. pose proof (cos_lip a (val th)) as L. rewrite (Rabs_minus_sym a) in L. lra. }
  pose proof (Rmult_le_compat_r _ _ _ (Rabs_pos (val c1 - val c0)) C). lra.
Qed.

(* ---------------- between two key curves ---------------- *)

(* the part of the way from one key time to the next *)
Lemma part_near (x s0 s1 : float) : finite x -> finite s0 -> finite s1 -> finite (x - s0)%float -> finite (s1 - s0)%float -> val s0 <= val x <= val s1 -> val s0 < val s1 ->
  finite ((x - s0) / (s1 - s0))%float ->
  Rabs (val ((x - s0) / (s1 - s0))%float - (val x - val s0) / (val s1 - val s0)) <= 5 * eps.
Proof.
  intros Fx F0 F1 Fn Fd Hx Hs Fq. pose proof (sub_not_zero _ _ Fd Hs) as Nz.
  destruct (div_ok _ _ Fd Nz Fq) as [_ E]. rewrite E. clear E.
  destruct (near_diff x s0) as [_ A]. specialize (A Fn). destruct (near_diff s1 s0) as [_ B]. specialize (B Fd). cbn [pow] in A, B.
  replace ((1 + eps) * 1 - 1) with eps in A, B by ring.
  rewrite (Rabs_right (val x - val s0)) in A by lra. rewrite (Rabs_right (val s1 - val s0)) in B by lra.
  set (n := val (x - s0)%float) in *. set (d := val (s1 - s0)%float) in *. set (u := val x - val s0) in *. set (w := val s1 - val s0) in *.
  assert (Hu : 0 <= u <= w) by (unfold u, w; lra). assert (Hw : 0 < w) by (unfold w; lra).
  pose proof eps_pos. pose proof eps_num as En. assert (E1 : eps <= / 1000) by (rewrite En; lra). pose proof tiny_pos. pose proof tiny_small.
  assert (Eu : eps * u <= eps * w) by (apply Rmult_le_compat_l; lra). assert (Ew : eps * w <= / 1000 * w) by (apply Rmult_le_compat_r; lra).
  apply Rabs_le_inv in A. apply Rabs_le_inv in B.
  assert (Hd : 999 / 1000 * w <= d) by lra. assert (D0 : 0 < d) by lra.
  pose proof (err_any (n / d)) as R1.
  assert (Q : Rabs (n / d - u / w) <= 3 * eps).
  { replace (n / d - u / w) with (((n - u) * w - u * (d - w)) / (d * w)) by (field; lra). unfold Rdiv. rewrite Rabs_mult, Rabs_inv.
    rewrite (Rabs_right (d * w)) by (apply Rle_ge, Rmult_le_pos; lra). apply Rmult_le_reg_r with (d * w); [apply Rmult_lt_0_compat; lra|].
    rewrite Rmult_assoc, Rinv_l, Rmult_1_r by (apply Rmult_integral_contrapositive; lra).
    assert (X : Rabs ((n - u) * w - u * (d - w)) <= eps * w * w + w * (eps * w)).
    { unfold Rminus at 1. eapply Rle_trans; [apply Rabs_triang|]. rewrite Rabs_Ropp, !Rabs_mult, (Rabs_right w), (Rabs_right u) by lra.
      apply Rplus_le_compat; [apply Rmult_le_compat_r; [lra|]|apply Rmult_le_compat; auto using Rabs_pos; try lra]; apply Rabs_le; lra. }
    eapply Rle_trans; [exact X|]. assert (0 <= eps * w) by (apply Rmult_le_pos; lra). assert (eps * w * (2 * w) <= eps * w * (3 * d)) by (apply Rmult_le_compat_l; lra). lra. }
  assert (Uw : 0 <= u / w <= 1).
  { split; [apply Rmult_le_pos; [lra|apply Rlt_le, Rinv_0_lt_compat; lra]|]. apply Rmult_le_reg_r with w; [lra|]. unfold Rdiv. rewrite Rmult_assoc, Rinv_l by lra. lra. }
  assert (Z : Rabs (n / d) <= 1 + 3 * eps). { replace (n / d) with ((n / d - u / w) + u / w) by ring. eapply Rle_trans; [apply Rabs_triang|]. rewrite (Rabs_right (u / w)) by lra. lra. }
  assert (R2 : eps * (Rabs (n / d) + tiny) <= eps * 2) by (apply Rmult_le_compat_l; lra).
  replace (rnd (n / d) - u / w) with ((rnd (n / d) - n / d) + (n / d - u / w)) by ring. eapply Rle_trans; [apply Rabs_triang|]. lra.
Qed.
(* one moved control point of many *)
Lemma cps_between_nth {F} {NF : Num F} (t : F) : forall now lo hi j n a b, nth_error now j = Some n -> nth_error lo j = Some a -> nth_error hi j = Some b ->
  nth_error (cps_between t now lo hi) j = Some (cp_between t n a b).
Proof.
  induction now as [|n0 now IH]; intros [|l lo] [|h hi] [|j] n a b; cbn [nth_error cps_between]; try discriminate.
  - intros E1 E2 E3. apply some_inj in E1, E2, E3. subst. reflexivity.
  - apply IH.
Qed.
Lemma cps_between_length {F} {NF : Num F} (t : F) : forall now lo hi, List.length (cps_between t now lo hi) = List.length now.
Proof. induction now as [|n0 now IH]; intros [|l lo] [|h hi]; cbn [cps_between List.length]; auto. Qed.

Theorem C86_multi (t_func : tfun float) (t : tval float) (m : multi float) (i : nat) (s0 s1 x : float) (lo hi : list (cpoint float)) :
  List.length (mm_steps m) = List.length (mm_curves m) -> Forall moderate (mm_steps m) -> Sorted Rlt (map val (mm_steps m)) ->
  t_func t = Ok (TNum x) -> finite x ->
  nth_error (mm_steps m) i = Some s0 -> nth_error (mm_steps m) (S i) = Some s1 ->
  nth_error (mm_curves m) i = Some lo -> nth_error (mm_curves m) (S i) = Some hi ->
  val s0 <= val x < val s1 ->
  exists m', mm_update t_func t m = Ok m' /\ List.length (mm_now m') = List.length (mm_now m) /\
  let part := (val x - val s0) / (val s1 - val s0) in
  forall j a b, (j < List.length (mm_now m))%nat -> nth_error lo j = Some a -> nth_error hi j = Some b ->
  exists c, nth_error (mm_now m') j = Some c /\
    Forall (fun co => finite (co c) ->
      Rabs (val (co c) - ((1 - part) * val (co a) + part * val (co b))) <= eps * (4 * Rabs (val (co a)) + 13 * Rabs (val (co b) - val (co a)) + 4 * tiny)) coords.
Proof.
  intros Ln Ms So Et Fx E0 E1 El Eh Hx. unfold mm_update. rewrite Et. cbn [bind].
  assert (Fs : Forall finite (mm_steps m)) by (eapply Forall_impl; [|exact Ms]; now intros ? []).
  assert (Li : (S i < List.length (mm_steps m))%nat) by (apply nth_error_Some; congruence).
  destruct (bisect_spec (map val (mm_steps m)) (val x) (sorted_le _ So)) as (B1 & B2 & B3).
  rewrite (bisect_val _ _ Fs Fx). set (idx := bisect_right (map val (mm_steps m)) (val x)) in *. rewrite map_length in *.
  assert (Nv : forall j y, nth_error (mm_steps m) j = Some y -> nth j (map val (mm_steps m)) 0 = val y).
  { intros j y H. apply nth_error_nth. now apply map_nth_error. }
  pose proof (Nv _ _ E0) as V0. pose proof (Nv _ _ E1) as V1.
  assert (Hi : idx = S i).
  { assert (A : ~ (idx <= i)%nat).
    { intros Le. specialize (B3 i ltac:(lia)). rewrite V0 in B3. lra. }
    assert (B : ~ (S i < idx)%nat) by (intros Lt; specialize (B2 (S i) Lt); rewrite V1 in B2; lra). lia. }
  rewrite Hi. destruct (Nat.leb_spec (List.length (mm_curves m)) (S i)) as [Le|Gt]; [lia|].
  rewrite El, Eh. replace (nth i (mm_steps m) (#0)%num) with s0 by (symmetry; now apply nth_error_nth).
  replace (nth (S i) (mm_steps m) (#0)%num) with s1 by (symmetry; now apply nth_error_nth).
  rewrite Forall_forall in Ms. pose proof (Ms s0 (nth_error_In _ _ E0)) as M0. pose proof (Ms s1 (nth_error_In _ _ E1)) as M1.
  assert (Mx : moderate x).
  { split; [exact Fx|]. destruct M0 as [_ G0], M1 as [_ G1]. apply Rabs_def2 in G0, G1. apply Rabs_def1; lra. }
  pose proof (moderate_sub _ _ M0 M1) as Fd. pose proof (moderate_sub _ _ M0 Mx) as Fn. assert (Lt : val s0 < val s1) by lra.
  unfold pydiv. cbn [neqb nsub ndiv nofZ NumFloat]. change (float_ofZ 0) with 0%float.
  assert (Eq : PrimFloat.eqb (s1 - s0) 0 = false).
  { rewrite eqb_ok by (auto; apply is_zero). rewrite (proj2 is_zero). pose proof (sub_not_zero _ _ Fd Lt) as Nz.
    unfold Reqb. destruct (Req_EM_T (val (s1 - s0)%float) 0); [contradiction|reflexivity]. }
  rewrite Eq. cbn [bind]. eexists. split; [reflexivity|]. cbn [mm_now]. split; [apply cps_between_length|].
  set (part := (val x - val s0) / (val s1 - val s0)). intros j a b Hj Ea Eb. destruct (nth_error (mm_now m) j) as [n|] eqn:En; [|apply nth_error_None in En; lia].
  eexists. split; [apply cps_between_nth; eassumption|].
  set (q := ((x - s0) / (s1 - s0))%float).
  assert (G : forall u w : float, finite (u + (w - u) * q)%float ->
    Rabs (val (u + (w - u) * q)%float - ((1 - part) * val u + part * val w)) <= eps * (4 * Rabs (val u) + 13 * Rabs (val w - val u) + 4 * tiny)).
  { intros u w F. destruct (add_ok _ _ F) as (_ & Fm & _). destruct (mul_ok _ _ Fm) as (_ & Fq & _).
    pose proof (part_near x s0 s1 Fx (proj1 M0) (proj1 M1) Fn Fd ltac:(lra) Lt Fq) as Hq. fold q part in Hq.
    pose proof eps_pos. pose proof eps_num as Ee. assert (Ep : eps <= / 1000) by (rewrite Ee; lra).
    assert (Hp : 0 <= part <= 1).
    { unfold part. split; [apply Rmult_le_pos; [lra|apply Rlt_le, Rinv_0_lt_compat; lra]|]. apply Rmult_le_reg_r with (val s1 - val s0); [lra|]. unfold Rdiv. rewrite Rmult_assoc, Rinv_l by lra. lra. }
    assert (Hq2 : Rabs (val q) <= 2). { replace (val q) with ((val q - part) + part) by ring. eapply Rle_trans; [apply Rabs_triang|]. rewrite (Rabs_right part) by lra. lra. }
    pose proof (near_use _ _ _ _ 4 _ (near_between u w q) ltac:(lia) ltac:(cbn; lra) (Rle_refl _) F) as N1.
    set (v := val (u + (w - u) * q)%float) in *. set (dd := Rabs (val w - val u)) in *.
    assert (D0 : 0 <= dd) by apply Rabs_pos. assert (K1 : dd * Rabs (val q) <= dd * 2) by (apply Rmult_le_compat_l; lra).
    assert (K2 : Rabs (val u) + dd * Rabs (val q) + tiny <= Rabs (val u) + 2 * dd + tiny) by lra.
    pose proof (Rmult_le_compat_l (4 * eps) _ _ ltac:(lra) K2) as K3.
    assert (K4 : Rabs ((val w - val u) * (val q - part)) <= dd * (5 * eps)) by (rewrite Rabs_mult; apply Rmult_le_compat_l; assumption).
    replace (v - ((1 - part) * val u + part * val w)) with ((v - (val u + (val w - val u) * val q)) + (val w - val u) * (val q - part)) by ring.
    eapply Rle_trans; [apply Rabs_triang|]. lra. }
  unfold coords, cp_between. repeat (apply Forall_cons; [cbn [cc cdl cdr px py vx vy p_add p_sub v_add v_sub v_mul]; ops; apply G|]). apply Forall_nil.
Qed.
(* a quarter of the way from the second of three key curves to the third *)
Definition three_keys : multi float :=
  let b : ebase float := EB "a" (PenBrush None None) true t_new in
  Multi [0; 1; 3]%float [one_cp 0 0; one_cp 4 8; one_cp 8 0]%float b (one_cp 0 0)%float (fun cps => ELeaf b (SCurve cps)).
Example C86_example_multi : exists (m' : multi float) (c : cpoint float), mm_update (fun t => Ok t) (TNum 1.5%float) three_keys = Ok m' /\ nth_error (mm_now m') 0%nat = Some c /\ Rabs (val (px (cc c)) - 5) <= / 2 ^ 45 /\ Rabs (val (py (cc c)) - 6) <= / 2 ^ 45.
Proof.
  assert (V : forall z, (Z.abs z <= 2 ^ 53)%Z -> val (float_ofZ z) = IZR z) by (intros z Hz; apply const_ok; exact Hz).
  pose proof (V 1%Z ltac:(vm_compute; discriminate)) as V1. pose proof (V 3%Z ltac:(vm_compute; discriminate)) as V3. pose proof (V 4%Z ltac:(vm_compute; discriminate)) as V4.
  pose proof (V 8%Z ltac:(vm_compute; discriminate)) as V8. pose proof (V 0%Z ltac:(vm_compute; discriminate)) as V0.
  change (float_ofZ 1) with 1%float in V1. change (float_ofZ 3) with 3%float in V3. change (float_ofZ 4) with 4%float in V4. change (float_ofZ 8) with 8%float in V8. change (float_ofZ 0) with 0%float in V0.
  assert (Vh : val 1.5%float = 3 / 2).
  { change 1.5%float with (float_ofZ 3 / float_ofZ 2)%float. destruct (const_ok 3) as [F3 E3]; [vm_compute; discriminate|].
    destruct (exactly_half 3 (float_ofZ 3) 3) as [_ E]; [|unfold max_whole; lia|exact E]. exact (exactly_const 3 ltac:(vm_compute; discriminate)). }
  destruct (C86_multi (fun t => Ok t) (TNum 1.5%float) three_keys 1 1%float 3%float 1.5%float (one_cp 4 8)%float (one_cp 8 0)%float) as (m' & E & _ & H); try reflexivity.
  - repeat constructor; apply moderate_small; reflexivity.
  - cbn [three_keys mm_steps map]. repeat constructor; apply before; reflexivity.
  - rewrite V1, V3, Vh. lra.
  - destruct (H 0%nat _ _ ltac:(cbn; lia) eq_refl eq_refl) as (c & Ec & Hc). exists m', c. split; [exact E|]. split; [exact Ec|].
    vm_compute in E. apply ok_inj in E. rewrite <- E in Ec. cbn [mm_now nth_error] in Ec. apply some_inj in Ec. rewrite <- Ec in *. clear E Ec H.
    inversion Hc as [|? ? H1 Hc1]; subst. inversion Hc1 as [|? ? H2 _]; subst. specialize (H1 eq_refl). specialize (H2 eq_refl).
    cbn [cc px py] in H1, H2 |- *. rewrite V1, V3, V4, V8, Vh in H1. rewrite V1, V3, V8, V0, Vh in H2.
    pose proof eps_num as En. pose proof eps_pos. pose proof tiny_pos. pose proof tiny_small.
    split; (eapply Rle_trans; [|match goal with |- _ <= ?r => instantiate (1 := eps * 200); rewrite En; cbn [pow]; lra end]).
    + replace 5 with ((1 - (3 / 2 - 1) / (3 - 1)) * 4 + (3 / 2 - 1) / (3 - 1) * 8) by field. eapply Rle_trans; [exact H1|]. apply Rmult_le_compat_l; [lra|]. rewrite !Rabs_right by lra. lra.
    + replace 6 with ((1 - (3 / 2 - 1) / (3 - 1)) * 8 + (3 / 2 - 1) / (3 - 1) * 0) by field. eapply Rle_trans; [exact H2|]. apply Rmult_le_compat_l; [lra|]. rewrite (Rabs_right 8), Rabs_left by lra. lra.
Qed.

(* ---------------- no overflow ---------------- *)

(* finite, and of magnitude at most B *)
Definition bd (B : R) (x : float) : Prop := finite x /\ Rabs (val x) <= B.
Lemma bd_add A B C x y : bd A x -> bd B y -> 1 <= A + B -> 2 * (A + B) <= C -> C <= 2 ^ 100 -> bd C (x + y)%float.
Proof.
  intros [Fx Hx] [Fy Hy] L1 L2 L3. assert (L : Rabs (val x + val y) <= A + B) by (eapply Rle_trans; [apply Rabs_triang|]; lra).
  assert (F : finite (x + y)%float) by (apply add_fin; auto; apply rnd_small; lra). split; [exact F|].
  destruct (add_ok _ _ F) as (_ & _ & ->). apply Rle_trans with (2 * (A + B)); [apply rnd_twice; lra|exact L2].
Qed.
Lemma bd_sub A B C x y : bd A x -> bd B y -> 1 <= A + B -> 2 * (A + B) <= C -> C <= 2 ^ 100 -> bd C (x - y)%float.
Proof.
  intros [Fx Hx] [Fy Hy] L1 L2 L3. assert (L : Rabs (val x - val y) <= A + B) by (unfold Rminus; eapply Rle_trans; [apply Rabs_triang|]; rewrite Rabs_Ropp; lra).
  assert (F : finite (x - y)%float) by (apply sub_fin; auto; apply rnd_small; lra). split; [exact F|].
  destruct (sub_ok _ _ F) as (_ & _ & ->). apply Rle_trans with (2 * (A + B)); [apply rnd_twice; lra|exact L2].
Qed.
Lemma bd_mul A B C x y : bd A x -> bd B y -> 1 <= A * B -> 2 * (A * B) <= C -> C <= 2 ^ 100 -> bd C (x * y)%float.
Proof.
  intros [Fx Hx] [Fy Hy] L1 L2 L3. assert (L : Rabs (val x * val y) <= A * B) by (rewrite Rabs_mult; apply Rmult_le_compat; auto using Rabs_pos).
  assert (F : finite (x * y)%float) by (apply mul_fin; auto; apply rnd_small; lra). split; [exact F|].
  destruct (mul_ok _ _ F) as (_ & _ & ->). apply Rle_trans with (2 * (A * B)); [apply rnd_twice; lra|exact L2].
Qed.
Lemma bd_const z : (Z.abs z <= max_whole)%Z -> bd (IZR (Z.abs z)) (float_ofZ z).
Proof. intros H. destruct (const_ok z H) as [F E]. split; [exact F|]. rewrite E, abs_IZR. lra. Qed.
Lemma bd_up A B x : bd A x -> A <= B -> bd B x.
Proof. intros [F H] L. split; [exact F|lra]. Qed.
Lemma bd_tau {TF : NumTrig float} k : accurate_trig k TF -> bd 32 tau.
Proof.
  intros [[Fp Ep] _]. pose proof PI_4. pose proof PI_RGT_0. pose proof eps_pos. pose proof eps_num as En. assert (E1 : eps <= 1) by (rewrite En; lra).
  assert (Bp : bd 8 npi).
  { split; [exact Fp|]. replace (val npi) with ((val npi - PI) + PI) by ring. eapply Rle_trans; [apply Rabs_triang|]. rewrite (Rabs_right PI) by lra.
    assert (eps * PI <= 1 * PI) by (apply Rmult_le_compat_r; lra). lra. }
  unfold tau. ops. pose proof (bd_const 2 ltac:(vm_compute; discriminate)) as B2. cbn [Z.abs] in B2. apply (bd_mul _ _ _ _ _ B2 Bp); [lra|lra|].
  assert (32 <= 2 ^ 100) by (apply Rle_trans with (2 ^ 5); [cbn [pow]; lra|apply Rle_pow; [lra|lia]]). lra.
Qed.
Lemma bd_trig {TF : NumTrig float} k (x : float) : accurate_trig k TF -> (forall x, finite x -> finite (nsin x) /\ finite (ncos x)) -> INR k * eps <= 1 ->
  finite x -> bd 2 (nsin x) /\ bd 2 (ncos x).
Proof.
  intros [_ Acc] Tot Hk F. destruct (Tot x F) as [Fs Fc]. destruct (Acc x) as [As Ac]. destruct (As Fs) as [_ Es]. destruct (Ac Fc) as [_ Ec].
  split; (split; [assumption|]).
  - replace (val (nsin x)) with ((val (nsin x) - sin (val x)) + sin (val x)) by ring. eapply Rle_trans; [apply Rabs_triang|].
    assert (Rabs (sin (val x)) <= 1) by (apply Rabs_le; pose proof (SIN_bound (val x)); lra). lra.
  - replace (val (ncos x)) with ((val (ncos x) - cos (val x)) + cos (val x)) by ring. eapply Rle_trans; [apply Rabs_triang|].
    assert (Rabs (cos (val x)) <= 1) by (apply Rabs_le; pose proof (COS_bound (val x)); lra). lra.
Qed.
(* animations of moderate points with moderate arguments give finite points *)
Theorem C86_animations_finite {TF : NumTrig float} (k : nat) (o g : pt float) (point target : nat) (radius frequency offset t : float) (st : pstore float) x0 y0 nm :
  accurate_trig k TF -> (forall x, finite x -> finite (nsin x) /\ finite (ncos x)) -> INR k * eps <= 1 ->
  nth_error st point = Some (NPoint x0 y0 nm) -> M_points.pos st target = Ok g ->
  Forall (fun x => finite x /\ Rabs (val x) <= 2 ^ 40) [px o; py o; px g; py g; radius; frequency; offset; t] ->
  (exists st' x y, a_update (ACircular o point radius frequency offset) (TNum t) st = (st', Ok tt) /\
     nth_error st' point = Some (NPoint x y nm) /\ finite x /\ finite y) /\
  (exists st' x y, a_update (ASinusoidal o point target frequency offset) (TNum t) st = (st', Ok tt) /\
     nth_error st' point = Some (NPoint x y nm) /\ finite x /\ finite y).
Proof.
  intros Acc Tot Hk N Hp Hb.
  repeat match goal with H : Forall _ (_ :: _) |- _ => let a := fresh "B" in let b := fresh "H" in inversion H as [|? ? a b]; clear H; subst end.
  repeat match goal with H : finite ?x /\ Rabs (val ?x) <= _ |- _ => change (bd (2 ^ 40) x) in H end.
  assert (P40 : 1000 <= 2 ^ 40) by (cbn [pow]; lra). assert (P80 : 2 ^ 80 = 2 ^ 40 * 2 ^ 40) by (rewrite <- pow_add; reflexivity).
  assert (P100 : 2 ^ 100 = 2 ^ 80 * 1048576) by (replace 100%nat with (80 + 20)%nat by lia; rewrite pow_add; cbn [pow]; lra).
  assert (P80' : 1000 * 2 ^ 40 <= 2 ^ 80) by (rewrite P80; apply Rmult_le_compat_r; lra).
  assert (Ph : bd (2 ^ 80 * 256) (t * tau * frequency)%float).
  { eapply bd_mul; [eapply (bd_mul (2 ^ 40) 32 (64 * 2 ^ 40)); [eassumption|exact (bd_tau k Acc)|lra..]|eassumption|..]; lra. }
  split.
  - cbn [a_update]. destruct (move st point _) as [st' r] eqn:E. destruct (move_place _ _ _ _ _ _ _ _ N E) as [-> N'].
    do 3 eexists. split; [reflexivity|]. split; [exact N'|]. cbn [fst snd]. ops.
    assert (Th : finite (t * tau * frequency + offset)%float) by (apply (bd_add _ (2 ^ 40) (2 ^ 100) _ _ Ph); [assumption|lra..]).
    destruct (bd_trig k _ Acc Tot Hk Th) as [Bs Bc].
    split; (eapply (bd_add (2 ^ 40) (4 * 2 ^ 40) (2 ^ 100)); [assumption|eapply (bd_mul (2 ^ 40) 2); [assumption|assumption|lra..]|lra..]).
  - cbn [a_update]. rewrite Hp. destruct (move st point _) as [st' r] eqn:E. destruct (move_place _ _ _ _ _ _ _ _ N E) as [-> N'].
    do 3 eexists. split; [reflexivity|]. split; [exact N'|]. cbn [fst snd]. ops.
    assert (Of : bd (2 ^ 80) (offset * tau / float_ofZ 360)%float).
    { pose proof (bd_mul (2 ^ 40) 32 (64 * 2 ^ 40) offset tau ltac:(assumption) (bd_tau k Acc) ltac:(lra) ltac:(lra) ltac:(lra)) as [F Bo].
      destruct (const_ok 360) as [F360 E360]; [vm_compute; discriminate|].
      assert (L : Rabs (val (offset * tau)%float / 360) <= 64 * 2 ^ 40).
      { unfold Rdiv. rewrite Rabs_mult, (Rabs_right (/ 360)) by lra. pose proof (Rabs_pos (val (offset * tau)%float)). lra. }
      assert (Fd : finite (offset * tau / float_ofZ 360)%float) by (apply div_fin; [exact F|rewrite E360; lra|rewrite E360; apply rnd_small; lra]).
      split; [exact Fd|]. destruct (div_ok _ _ F360 ltac:(rewrite E360; lra) Fd) as [_ ->]. rewrite E360. apply Rle_trans with (2 * (64 * 2 ^ 40)); [apply rnd_twice; lra|lra]. }
    assert (Th : finite (t * tau * frequency + offset * tau / float_ofZ 360)%float) by (apply (bd_add _ _ (2 ^ 100) _ _ Ph Of); lra).
    destruct (bd_trig k _ Acc Tot Hk Th) as [_ Bc]. pose proof (bd_const 1 ltac:(vm_compute; discriminate)) as Bone. cbn [Z.abs] in Bone.
    assert (Bh : bd 1 (half : float)) by (destruct half_val as [Fh Eh]; split; [exact Fh|rewrite Eh, Rabs_right; lra]).
    pose proof (bd_mul 6 1 12 _ _ (bd_sub 1 2 6 _ _ Bone Bc ltac:(lra) ltac:(lra) ltac:(lra)) Bh ltac:(lra) ltac:(lra) ltac:(lra)) as Bt.
    set (u := ((float_ofZ 1 - ncos _) * half)%float) in *.
    pose proof (bd_sub 1 12 26 _ _ Bone Bt ltac:(lra) ltac:(lra) ltac:(lra)) as Bu.
    split; (eapply (bd_add (52 * 2 ^ 40) (24 * 2 ^ 40) (2 ^ 100)); [eapply (bd_mul 26 (2 ^ 40)); [assumption|assumption|lra..]|eapply (bd_mul 12 (2 ^ 40)); [assumption|assumption|lra..]|lra..]).
Qed.
(* a point that circles (1, 2) and one that swings between (0, 0) and (8, 4) *)
Example C86_example_animations :
  let st : pstore float := [NPoint 1 2 None; NPoint 8 4 None]%float in
  (exists st' x y, @a_update float NumFloat BestTrig (ACircular (P 1 2)%float 0 5%float 3%float 0%float) (TNum 7%float) st = (st', Ok tt) /\
     nth_error st' 0%nat = Some (NPoint x y None) /\ finite x /\ finite y /\ Rabs (gap (valp (P x y)) (P 1 2) - 5) <= / 2 ^ 46) /\
  (exists st' x y, @a_update float NumFloat BestTrig (ASinusoidal (P 0 0)%float 0 1 3%float 0%float) (TNum 7%float) st = (st', Ok tt) /\
     nth_error st' 0%nat = Some (NPoint x y None) /\ finite x /\ finite y /\ Rabs (val x) <= / 2 ^ 38).
Proof.
  intros st. assert (N0 : nth_error st 0%nat = Some (NPoint 1%float 2%float None)) by reflexivity. assert (G0 : M_points.pos st 1%nat = Ok (P 8%float 4%float)) by reflexivity.
  assert (V : forall z, (Z.abs z <= 2 ^ 53)%Z -> val (float_ofZ z) = IZR z) by (intros z Hz; apply const_ok; exact Hz).
  pose proof (V 1%Z ltac:(vm_compute; discriminate)) as V1. pose proof (V 3%Z ltac:(vm_compute; discriminate)) as V3. pose proof (V 4%Z ltac:(vm_compute; discriminate)) as V4.
  pose proof (V 8%Z ltac:(vm_compute; discriminate)) as V8. pose proof (V 0%Z ltac:(vm_compute; discriminate)) as V0. pose proof (V 7%Z ltac:(vm_compute; discriminate)) as V7.
  pose proof (V 2%Z ltac:(vm_compute; discriminate)) as V2. pose proof (V 5%Z ltac:(vm_compute; discriminate)) as V5.
  change (float_ofZ 1) with 1%float in V1. change (float_ofZ 3) with 3%float in V3. change (float_ofZ 4) with 4%float in V4. change (float_ofZ 8) with 8%float in V8. change (float_ofZ 0) with 0%float in V0.
  change (float_ofZ 7) with 7%float in V7. change (float_ofZ 2) with 2%float in V2. change (float_ofZ 5) with 5%float in V5.
  pose proof eps_num as En. pose proof eps_pos. pose proof tiny_pos. pose proof tiny_small. assert (Hk : INR 2 * eps <= 1) by (cbn [INR]; rewrite En; lra).
  assert (P40 : 1000 <= 2 ^ 40) by (cbn [pow]; lra).
  assert (Bz : forall l, Forall (fun x => finite x /\ Rabs (val x) <= 1000) l -> Forall (fun x => finite x /\ Rabs (val x) <= 2 ^ 40) l).
  { intros l. apply Forall_impl. intros x [F B]. split; [exact F|lra]. }
  split.
  - destruct (@C86_animations_finite BestTrig 2 (P 1 2)%float (P 8 4)%float 0 1 5%float 3%float 0%float 7%float st 1%float 2%float None C79_best_trig C79_best_trig_total Hk eq_refl eq_refl) as [(st' & x & y & E & N & Fx & Fy) _].
    { apply Bz. cbn [px py]. repeat (apply Forall_cons; [split; [reflexivity|rewrite ?V0, ?V1, ?V2, ?V3, ?V4, ?V5, ?V7, ?V8, Rabs_right; lra]|]). apply Forall_nil. }
    exists st', x, y. repeat (split; [assumption|]).
    destruct (@C86_circular BestTrig 2 _ _ _ _ _ _ _ _ _ _ _ _ C79_best_trig Hk N0 E) as (x' & y' & _ & N' & H').
    rewrite N in N'. apply some_inj in N'. assert (x = x') by (match type of N' with NPoint ?a _ _ = NPoint ?b _ _ => change (match NPoint a y None with NPoint c _ _ => c | _ => a end = x'); rewrite N'; reflexivity end).
    assert (y = y') by (match type of N' with NPoint _ ?a _ = NPoint _ ?b _ => change (match NPoint x a None with NPoint _ c _ => c | _ => a end = y'); rewrite N'; reflexivity end).
    subst x' y'. destruct (H' Fx Fy) as [A _]. cbn [px py] in A. unfold valp in A at 2. cbn [px py] in A. rewrite V1, V2, V5, !(Rabs_right 5), (Rabs_right 1), (Rabs_right 2) in A by lra.
    eapply Rle_trans; [exact A|]. cbn [INR]. apply Rle_trans with (eps * 80); [apply Rmult_le_compat_l; lra|]. rewrite En. cbn [pow]. lra.
  - destruct (@C86_animations_finite BestTrig 2 (P 0 0)%float (P 8 4)%float 0 1 5%float 3%float 0%float 7%float st 1%float 2%float None C79_best_trig C79_best_trig_total Hk eq_refl eq_refl) as [_ (st' & x & y & E & N & Fx & Fy)].
    { apply Bz. cbn [px py]. repeat (apply Forall_cons; [split; [reflexivity|rewrite ?V0, ?V1, ?V2, ?V3, ?V4, ?V5, ?V7, ?V8, Rabs_right; lra]|]). apply Forall_nil. }
    exists st', x, y. repeat (split; [assumption|]).
    destruct (@C86_sinusoidal BestTrig 2 _ (P 8 4)%float _ _ _ _ _ _ _ _ _ _ _ C79_best_trig ltac:(lia) N0 G0 E) as (x' & y' & _ & N' & H' & _).
    rewrite N in N'. apply some_inj in N'. assert (x = x') by (match type of N' with NPoint ?a _ _ = NPoint ?b _ _ => change (match NPoint a y None with NPoint c _ _ => c | _ => a end = x'); rewrite N'; reflexivity end).
    subst x'. specialize (H' Fx). cbn [px py] in H'. rewrite V0, V3, V7, V8 in H'.
    assert (C : cos (2 * PI * 3 * 7 + radians 0) = 1).
    { unfold radians. ops. replace (2 * PI * 3 * 7 + 0 * (npi / 180)) with (0 + 2 * INR 21 * PI) by (cbn [INR]; ring). rewrite cos_period. apply cos_0. }
    rewrite C in H'. replace (val x - ((1 - (1 - 1) / 2) * 0 + (1 - 1) / 2 * 8)) with (val x) in H' by field.
    eapply Rle_trans; [exact H'|]. rewrite Rabs_R0, (Rabs_right 8), (Rabs_right 7), (Rabs_right 3), (Rabs_right (8 - 0)) by lra. cbn [INR].
    apply Rle_trans with (eps * 10000); [apply Rmult_le_compat_l; lra|]. rewrite En. cbn [pow]. lra.
Qed.
