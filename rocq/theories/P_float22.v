(* Property theorems C94: rounded rectangles on doubles stay inside their corners. *)
From Coq Require Import Reals Floats ZArith List Lra Lia String.
From Flocq Require Import Core BinarySingleNaN PrimFloat.
Require Import Verif.Base Verif.NumFloat Verif.NumR Verif.M_vector Verif.M_bbox Verif.M_transform Verif.M_bezier Verif.M_colors Verif.M_elems.
Require Import Verif.S_transform Verif.S_bezier Verif.L_transform Verif.L_bezier Verif.L_elems Verif.P_elems Verif.P_p1p2 Verif.P_rrect Verif.P_float5.
Require Import Verif.S_float Verif.L_real Verif.L_float Verif.L_float2 Verif.P_float Verif.P_ellipse Verif.P_float3 Verif.P_float7 Verif.P_float11 Verif.P_float12 Verif.P_float16.
Import ListNotations.
Set Warnings "-inexact-float".
Local Open Scope R_scope.

(* ------------------------------------------------------------------ *)
(** ** specification *)

(* math.hypot of a vector along an axis is the absolute value of its coordinate, as the C standard says *)
Definition axis_hypot (RF : NumRoot float) : Prop := forall x z : float, finite x -> finite z -> val z = 0 ->
  (finite (nhypot x z) /\ val (nhypot x z) = Rabs (val x)) /\ (finite (nhypot z x) /\ val (nhypot z x) = Rabs (val x)).
(* two coordinates of moderate size that are equal or not too close for the normal range *)
Definition side (m : R) (x y : float) : Prop :=
  (finite x /\ Rabs (val x) <= m) /\ (finite y /\ Rabs (val y) <= m) /\ (val x = val y \/ tiny <= Rabs (val x - val y)).
Definition between (e a b v : R) : Prop := Rmin a b - e <= v <= Rmax a b + e.
(* a control point: its coordinates are finite, its centre is in the rectangle, and its handles end in it up to [e] *)
Definition cp_in (e : R) (p q : pt float) (c : cpoint float) : Prop :=
  let x := between 0 (val (px p)) (val (px q)) in let y := between 0 (val (py p)) (val (py q)) in
  let x' := between e (val (px p)) (val (px q)) in let y' := between e (val (py p)) (val (py q)) in
  (finite (px (cc c)) /\ finite (py (cc c)) /\ finite (vx (cdl c)) /\ finite (vy (cdl c)) /\ finite (vx (cdr c)) /\ finite (vy (cdr c))) /\
  (x (val (px (cc c))) /\ y (val (py (cc c)))) /\
  (x' (val (px (cc c)) + val (vx (cdl c))) /\ y' (val (py (cc c)) + val (vy (cdl c)))) /\
  (x' (val (px (cc c)) + val (vx (cdr c))) /\ y' (val (py (cc c)) + val (vy (cdr c)))).

(* ------------------------------------------------------------------ *)
(** ** single operations *)

Lemma eps_small : eps <= / 1000.
Proof. pose proof eps_lt. assert (/ 2 ^ 40 <= / 1000) by (apply Rinv_le_contravar; [lra|cbv [pow]; lra]). lra. Qed.
Lemma tiny_little : tiny <= / 1000.
Proof. unfold tiny. apply Rinv_le_contravar; [lra|]. apply Rle_trans with (2 ^ 10); [cbv [pow]; lra|]. apply Rle_pow; [lra|lia]. Qed.
Lemma op_add x y : finite x -> finite y -> Rabs (val x + val y) <= bpow radix2 1010 -> finite (x + y)%float /\ val (x + y)%float = rnd (val x + val y).
Proof. intros A B H. assert (F : finite (x + y)%float) by (apply add_fin; auto; apply rnd_fits with 1010%Z; [lia|exact H]). split; [exact F|apply add_ok, F]. Qed.
Lemma op_sub x y : finite x -> finite y -> Rabs (val x - val y) <= bpow radix2 1010 -> finite (x - y)%float /\ val (x - y)%float = rnd (val x - val y).
Proof. intros A B H. assert (F : finite (x - y)%float) by (apply sub_fin; auto; apply rnd_fits with 1010%Z; [lia|exact H]). split; [exact F|apply sub_ok, F]. Qed.
Lemma op_mul x y : finite x -> finite y -> Rabs (val x * val y) <= bpow radix2 1010 -> finite (x * y)%float /\ val (x * y)%float = rnd (val x * val y).
Proof. intros A B H. assert (F : finite (x * y)%float) by (apply mul_fin; auto; apply rnd_fits with 1010%Z; [lia|exact H]). split; [exact F|apply mul_ok, F]. Qed.
Lemma op_div x y : finite x -> finite y -> val y <> 0 -> Rabs (val x / val y) <= bpow radix2 1010 -> finite (x / y)%float /\ val (x / y)%float = rnd (val x / val y).
Proof. intros A B N H. assert (F : finite (x / y)%float) by (apply div_fin; auto; apply rnd_fits with 1010%Z; [lia|exact H]). split; [exact F|now apply div_ok]. Qed.
Lemma rnd_pos r : 0 <= r -> 0 <= rnd r.
Proof. intros H. rewrite <- rnd_zero. now apply rnd_le. Qed.
Lemma rnd_up r : 0 <= r -> rnd r <= r + eps * (r + tiny).
Proof. intros H. pose proof (err_any r) as E. rewrite (Rabs_right r) in E by lra. apply Rabs_le_inv in E. lra. Qed.
Lemma rnd_sign s r : s = 1 \/ s = -1 -> rnd (s * r) = s * rnd r.
Proof. intros [->| ->]; [now rewrite !Rmult_1_l|]. replace (-1 * r) with (- r) by ring. rewrite rnd_opp. ring. Qed.
Lemma Rabs_m1 : Rabs (-1) = 1.
Proof. rewrite Rabs_left; lra. Qed.
Lemma rnd_1 : rnd 1 = 1.
Proof. apply (rnd_int 1). vm_compute. discriminate. Qed.
Lemma big_1010 m : m <= bpow radix2 1000 -> 4 * m <= bpow radix2 1010.
Proof. intros H. change 1010%Z with (10 + 1000)%Z. rewrite bpow_plus. change (bpow radix2 10) with 1024. pose proof (bpow_gt_0 radix2 1000). lra. Qed.
Lemma zero_ok : finite (float_ofZ 0) /\ val (float_ofZ 0) = 0.
Proof. apply const_ok. vm_compute. discriminate. Qed.
Lemma eq0_ok x : finite x -> PrimFloat.eqb x (float_ofZ 0) = Reqb (val x) 0.
Proof. intros F. destruct zero_ok as [F0 V0]. rewrite eqb_ok by assumption. now rewrite V0. Qed.

(* ------------------------------------------------------------------ *)
(** ** one leg of a corner *)

Section Leg.
Variables (m : R) (A B h : float).
Hypothesis (Hm : m <= bpow radix2 1000) (HS : side m A B) (Fh : finite h) (Vh : val h = Rabs (val (A - B)%float)).
Let D := Rabs (val A - val B).
Let L := (h / float_ofZ 2)%float.

Lemma dist_le : D <= 2 * m.
Proof. destruct HS as ([_ X] & [_ Y] & _). unfold D. eapply Rle_trans; [apply Rabs_triang|]. rewrite Rabs_Ropp. lra. Qed.
Lemma diff_ok : finite (A - B)%float /\ val (A - B)%float = rnd (val A - val B).
Proof. destruct HS as ([FA _] & [FB _] & _). apply op_sub; auto. pose proof dist_le. pose proof (big_1010 m Hm). fold D. pose proof (Rabs_pos (val A)). destruct HS as ([_ X] & _). lra. Qed.
Lemma diff_close : (1 - eps) * D <= val h <= (1 + eps) * D.
Proof.
  rewrite Vh, (proj2 diff_ok). pose proof (err_sum (val A) (- val B) (val_format A)) as E.
  assert (G : generic_format radix2 fexp64 (- val B)) by (apply generic_format_opp, val_format). specialize (E G).
  change (val A + - val B) with (val A - val B) in E. fold D in E.
  pose proof (Rabs_triang_inv (rnd (val A - val B)) (val A - val B)) as T1. pose proof (Rabs_triang_inv (val A - val B) (rnd (val A - val B))) as T2.
  rewrite (Rabs_minus_sym (val A - val B)) in T2. fold D in T1, T2. lra.
Qed.
Lemma len_ok : finite L /\ 0 <= val L <= 51 / 100 * D /\ (val A <> val B -> 0 < val L) /\ val L <= 2 * m.
Proof.
  pose proof diff_close as C. pose proof eps_pos as Ep. pose proof eps_small as Es. pose proof tiny_pos as Tp. pose proof tiny_little as Tl. pose proof dist_le as Dl.
  pose proof (Rabs_pos (val A - val B)) as D0. fold D in D0.
  assert (eD : 0 <= eps * D <= / 1000 * D) by (split; [apply Rmult_le_pos; lra|apply Rmult_le_compat_r; lra]).
  assert (M0 : 0 <= m) by (destruct HS as ([_ X] & _); pose proof (Rabs_pos (val A)); lra).
  assert (F2 : finite (float_ofZ 2) /\ val (float_ofZ 2) = 2) by (apply const_ok; vm_compute; discriminate). destruct F2 as [F2 V2].
  assert (O : finite L /\ val L = rnd (val h / 2)).
  { unfold L. rewrite <- V2. apply op_div; auto; rewrite V2; [lra|]. pose proof (big_1010 m Hm). rewrite Rabs_right by lra. lra. }
  destruct O as [FL VL]. rewrite VL. pose proof (err_any (val h / 2)) as E. rewrite (Rabs_right (val h / 2)) in E by lra. apply Rabs_le_inv in E.
  assert (eh : eps * (val h / 2) <= / 1000 * (val h / 2)) by (apply Rmult_le_compat_r; lra).
  assert (et : 0 <= eps * tiny <= / 1000 * tiny) by (split; [apply Rmult_le_pos; lra|apply Rmult_le_compat_r; lra]).
  split; [exact FL|]. destruct HS as (_ & _ & [Eq|Far]).
  - assert (Z : D = 0) by (unfold D; rewrite Eq, Rminus_diag_eq by reflexivity; apply Rabs_R0).
    assert (Zh : val h = 0) by (rewrite Z, Rmult_0_r in C; lra). rewrite Zh. replace (0 / 2) with 0 by lra. rewrite rnd_zero, Z. split; [lra|]. split; [contradiction|lra].
  - fold D in Far. split; [split; [apply rnd_pos; lra|lra]|]. split; [intros _; lra|]. lra.
Qed.

Variable s : R.
Hypothesis (Hs : s = 1 \/ s = -1) (Es : val A - val B = s * D).

Lemma quot_ok : val A <> val B -> finite ((A - B) / h)%float /\ val ((A - B) / h)%float = s.
Proof.
  intros N. destruct diff_ok as [Fd Vd]. rewrite Es, rnd_sign in Vd by exact Hs.
  assert (D0 : 0 < D) by (apply Rabs_pos_lt; lra). pose proof diff_close as C. pose proof eps_small. pose proof eps_pos.
  assert (Hp : 0 < val h) by nra.
  assert (Eh : val h = rnd D).
  { rewrite Vh, Vd, Rabs_mult. assert (0 <= rnd D) by (apply rnd_pos; lra). rewrite (Rabs_right (rnd D)) by lra. destruct Hs as [->| ->]; [rewrite Rabs_R1|rewrite Rabs_m1]; ring. }
  assert (Q : val (A - B)%float / val h = s) by (rewrite Vd, <- Eh; field; lra).
  assert (Q1 : Rabs s = 1) by (destruct Hs as [->| ->]; [apply Rabs_R1|apply Rabs_m1]).
  destruct (op_div (A - B)%float h Fd Fh ltac:(lra)) as [F V].
  { rewrite Q, Q1. change 1 with (bpow radix2 0). apply bpow_le. lia. }
  split; [exact F|]. rewrite V, Q. rewrite <- (Rmult_1_r s) at 1. rewrite rnd_sign by exact Hs. rewrite rnd_1. ring.
Qed.

(* the offset along the leg, and the control point and handles it gives; [sc] scales the outer handle *)
Variables (nr off k sc : float).
Hypothesis (Hn : 0 <= val nr <= val L) (Fo : finite off) (Vo : val off = s * val nr).
Hypothesis (Fk : finite k) (Hk : 0 <= val k <= 57 / 100).
Hypothesis (Fs : finite sc) (Hsc : 0 <= val sc <= 1) (Hsn : val sc * val nr <= 102 / 100 * (val L - val nr) + 2 * (eps * tiny) + eps * val nr).

Lemma leg_cp : 
  (finite (B + off)%float /\ finite (off * k * sc)%float /\ finite (- (off * k))%float) /\
  between 0 (val A) (val B) (val (B + off)%float) /\
  between (eps * m) (val A) (val B) (val (B + off)%float + val (off * k * sc)%float) /\
  between (eps * m) (val A) (val B) (val (B + off)%float + val (- (off * k))%float).
Proof.
  destruct len_ok as (FL & L1 & L2 & L3). pose proof eps_pos as Ep. pose proof eps_small as Esm. pose proof tiny_pos as Tp. pose proof tiny_little as Tl. pose proof dist_le as Dl. pose proof (big_1010 m Hm) as Big.
  pose proof (Rabs_pos (val A - val B)) as D0. fold D in D0. destruct HS as ([FA HA] & [FB HB] & Sd).
  set (n := val nr) in *. set (l := val L) in *. set (w := rnd (n * val k)). set (u := rnd (w * val sc)).
  assert (nk : 0 <= n * val k <= 57 / 100 * n) by (split; [apply Rmult_le_pos; lra|rewrite (Rmult_comm (57 / 100)); apply Rmult_le_compat_l; lra]).
  assert (f1 : 0 <= w <= n).
  { unfold w. split; [apply rnd_pos; lra|]. apply Rle_trans with (rnd n); [apply rnd_le; lra|]. unfold n. rewrite rnd_val. lra. }
  assert (f2 : w <= n * val k + eps * (n * val k + tiny)) by (apply rnd_up; lra).
  assert (fs : 0 <= (w * val sc) <= w) by (split; [apply Rmult_le_pos; lra|rewrite <- (Rmult_1_r w) at 2; apply Rmult_le_compat_l; lra]).
  assert (et : 0 <= eps * tiny <= / 1000 * tiny) by (split; [apply Rmult_le_pos; lra|apply Rmult_le_compat_r; lra]).
  assert (g1 : 0 <= u <= w * val sc + eps * (w * val sc + tiny)) by (split; [apply rnd_pos; lra|apply rnd_up; lra]).
  assert (fsn : w * val sc <= 58 / 100 * (val sc * n) + eps * tiny).
  { assert (E1 : eps * (n * val k) <= / 1000 * (n * val k)) by (apply Rmult_le_compat_r; lra).
    assert (E2 : w <= 58 / 100 * n + eps * tiny) by lra.
    apply Rle_trans with ((58 / 100 * n + eps * tiny) * val sc); [apply Rmult_le_compat_r; lra|].
    assert (eps * tiny * val sc <= eps * tiny * 1) by (apply Rmult_le_compat_l; lra). lra. }
  assert (en : 0 <= eps * n <= / 1000 * n) by (split; [apply Rmult_le_pos; lra|apply Rmult_le_compat_r; lra]).
  assert (Gb : n + u <= D).
  { destruct Sd as [Eq|Far].
    - assert (Z : D = 0) by (unfold D; rewrite Eq, Rminus_diag_eq by reflexivity; apply Rabs_R0).
      assert (n = 0) by lra. assert (w = 0) by lra. assert (G0 : u = 0) by (unfold u; replace w with 0; rewrite Rmult_0_l; apply rnd_zero). lra.
    - fold D in Far. assert (eps * (w * val sc) <= / 1000 * (w * val sc)) by (apply Rmult_le_compat_r; lra). lra. }
  assert (Mid : Rabs (val B + s * n) <= m).
  { apply Rabs_le_inv in HA. apply Rabs_le_inv in HB. apply Rabs_le. destruct Hs as [->| ->]; lra. }
  destruct (op_add B off FB Fo) as [Fc Vc]; [rewrite Vo; pose proof (Rabs_pos (val B)); lra|]. rewrite Vo in Vc.
  assert (Err : Rabs (val (B + off)%float - (val B + s * n)) <= eps * m).
  { rewrite Vc. assert (G : generic_format radix2 fexp64 (s * n)) by (rewrite <- Vo; apply val_format).
    pose proof (err_sum (val B) (s * n) (val_format B) G) as E. eapply Rle_trans; [exact E|]. apply Rmult_le_compat_l; lra. }
  assert (In : Rmin (val A) (val B) <= val (B + off)%float <= Rmax (val A) (val B)).
  { rewrite Vc. assert (R1 : forall x y, val x <= val B + s * n <= val y -> val x <= rnd (val B + s * n) <= val y).
    { intros x y [X Y]. rewrite <- (rnd_val x), <- (rnd_val y). split; now apply rnd_le. }
    destruct Hs as [->| ->]; [rewrite Rmin_right, Rmax_left by lra|rewrite Rmin_left, Rmax_right by lra]; apply R1; lra. }
  assert (M0 : 0 <= m) by (pose proof (Rabs_pos (val A)); lra).
  assert (Abs : forall r, Rabs (s * r) = Rabs r) by (intros r; rewrite Rabs_mult; destruct Hs as [->| ->]; [rewrite Rabs_R1|rewrite Rabs_m1]; ring).
  destruct (op_mul off k Fo Fk) as [Ff Vf].
  { rewrite Vo. fold n. rewrite Rmult_assoc, Abs, Rabs_right by lra. lra. }
  rewrite Vo, Rmult_assoc, rnd_sign in Vf by exact Hs. fold n w in Vf.
  destruct (op_mul (off * k)%float sc Ff Fs) as [Fg Vg].
  { rewrite Vf. rewrite Rmult_assoc, Abs, Rabs_right by lra. lra. }
  rewrite Vf, Rmult_assoc, rnd_sign in Vg by exact Hs. fold u in Vg.
  destruct (opp_ok (off * k)%float) as [Fp Vp].
  split; [split; [exact Fc|split; [exact Fg|now apply Fp]]|]. unfold between. split; [lra|]. rewrite Vg, Vp, Vf.
  apply Rabs_le_inv in Err. 
  destruct Hs as [->| ->]; [rewrite Rmin_right, Rmax_left by lra|rewrite Rmin_left, Rmax_right by lra]; lra.
Qed.
End Leg.

(* ------------------------------------------------------------------ *)
(** ** one corner *)

Lemma side_sym m x y : side m x y -> side m y x.
Proof. intros (A & B & C). split; [exact B|]. split; [exact A|]. destruct C as [C|C]; [left; now symmetry|right; now rewrite Rabs_minus_sym]. Qed.
Lemma side_m m x y : side m x y -> 0 <= m.
Proof. intros ([_ H] & _). pose proof (Rabs_pos (val x)). lra. Qed.
Lemma sign_of A B : exists s, (s = 1 \/ s = -1) /\ val A - val B = s * Rabs (val A - val B).
Proof. destruct (Rle_dec 0 (val A - val B)); [exists 1|exists (-1)]; (split; [tauto|]); [rewrite Rabs_right by lra|rewrite Rabs_left by lra]; ring. Qed.
Lemma same_diff y m : finite y -> Rabs (val y) <= m -> m <= bpow radix2 1000 -> finite (y - y)%float /\ val (y - y)%float = 0.
Proof.
  intros F H Hm. destruct (op_sub y y F F) as [G V]. { rewrite Rminus_diag_eq, Rabs_R0 by reflexivity. apply bpow_ge_0. }
  split; [exact G|]. rewrite V, Rminus_diag_eq by reflexivity. apply rnd_zero.
Qed.
Lemma zero_mul x y : finite x -> finite y -> val x = 0 -> finite (x * y)%float /\ val (x * y)%float = 0.
Proof.
  intros F G Z. destruct (op_mul x y F G) as [H V]; rewrite Z, Rmult_0_l in *; [rewrite Rabs_R0; apply bpow_ge_0|]. split; [exact H|]. rewrite V. apply rnd_zero.
Qed.
Lemma cross_cp m c o k sc : m <= bpow radix2 1000 -> finite c -> Rabs (val c) <= m -> finite o -> val o = 0 -> finite k -> finite sc ->
  (finite (c + o)%float /\ finite (o * k * sc)%float /\ finite (- (o * k))%float) /\
  val (c + o)%float = val c /\ val (o * k * sc)%float = 0 /\ val (- (o * k))%float = 0.
Proof.
  intros Hm Fc Hc Fo Vo Fk Fs. destruct (zero_mul o k Fo Fk Vo) as [F1 V1]. destruct (zero_mul (o * k)%float sc F1 Fs V1) as [F2 V2].
  destruct (opp_ok (o * k)%float) as [F3 V3].
  destruct (op_add c o Fc Fo) as [F4 V4]. { rewrite Vo, Rplus_0_r. pose proof (big_1010 m Hm). pose proof (Rabs_pos (val c)). lra. }
  split; [split; [exact F4|split; [exact F2|now apply F3]]|]. split; [rewrite V4, Vo, Rplus_0_r; apply rnd_val|]. split; [exact V2|rewrite V3, V1; ring].
Qed.

Section Corner.
Context {RF : NumRoot float}.
Hypothesis HR : axis_hypot RF.
Definition leg_vec (v : vec float) (len nr : float) : res (vec float) :=
  if neqb len (float_ofZ 0) then Ok (V (float_ofZ 0) (float_ofZ 0)) else let* u := v_unit v in Ok (v_mul u nr).

Lemma leg_vec_h m A B z s nr : m <= bpow radix2 1000 -> side m A B -> finite z -> val z = 0 -> (s = 1 \/ s = -1) -> val A - val B = s * Rabs (val A - val B) ->
  let v := V (A - B)%float z in let len := (v_length v / float_ofZ 2)%float in finite nr -> 0 <= val nr <= val len ->
  exists ox oz, leg_vec v len nr = Ok (V ox oz) /\ finite ox /\ val ox = s * val nr /\ finite oz /\ val oz = 0.
Proof.
  intros Hm HS Fz Vz Hs Es v len Fn Hn. destruct (diff_ok m A B Hm HS) as [Fd Vd]. destruct (HR (A - B)%float z Fd Fz Vz) as [[Fh Vh] _].
  destruct (len_ok m A B (nhypot (A - B)%float z) Hm HS Fh Vh) as (FL & L1 & L2 & L3). change (nhypot (A - B)%float z / float_ofZ 2)%float with len in *.
  unfold leg_vec. cbn [neqb NumFloat]. rewrite (eq0_ok len FL). destruct zero_ok as [F0 V0]. unfold Reqb. destruct (Req_EM_T (val len) 0) as [Z|NZ].
  - do 2 eexists. split; [reflexivity|]. rewrite V0. repeat split; try exact F0. assert (val nr = 0) by lra. rewrite H. ring.
  - assert (N : val A <> val B). { intros E. apply NZ. unfold Rminus in L1. rewrite E, Rplus_opp_r, Rabs_R0 in L1. lra. }
    destruct (quot_ok m A B (nhypot (A - B)%float z) Hm HS Fh Vh s Hs Es N) as [Fq Vq].
    pose proof (diff_close m A B (nhypot (A - B)%float z) Hm HS Vh) as C. assert (D0 : 0 < Rabs (val A - val B)) by (apply Rabs_pos_lt; lra). pose proof eps_small. pose proof eps_pos.
    assert (Hp : 0 < val (nhypot (A - B)%float z)) by nra.
    unfold v_unit, v_length, v. cbn [vx vy neqb NumFloat nofZ]. rewrite (eq0_ok _ Fh). unfold Reqb. destruct (Req_EM_T _ 0); [lra|]. cbn [bind v_mul vx vy].
    destruct (op_mul ((A - B) / nhypot (A - B)%float z)%float nr Fq Fn) as [Fm Vm].
    { rewrite Vq, Rabs_mult, (Rabs_right (val nr)) by lra. pose proof (big_1010 m Hm). pose proof (side_m m A B HS). destruct Hs as [->| ->]; [rewrite Rabs_R1|rewrite Rabs_m1]; lra. }
    rewrite Vq, (rnd_sign s _ Hs), rnd_val in Vm.
    destruct (op_div z (nhypot (A - B)%float z) Fz Fh) as [Fy Vy]; [lra|rewrite Vz; unfold Rdiv; rewrite Rmult_0_l, Rabs_R0; apply bpow_ge_0|].
    assert (Vy0 : val (z / nhypot (A - B)%float z)%float = 0) by (rewrite Vy, Vz; unfold Rdiv; rewrite Rmult_0_l; apply rnd_zero).
    destruct (zero_mul _ nr Fy Fn Vy0) as [Fw Vw].
    do 2 eexists. split; [reflexivity|]. cbn [nmul ndiv NumFloat]. repeat split; assumption.
Qed.
Lemma leg_vec_v m A B z s nr : m <= bpow radix2 1000 -> side m A B -> finite z -> val z = 0 -> (s = 1 \/ s = -1) -> val A - val B = s * Rabs (val A - val B) ->
  let v := V z (A - B)%float in let len := (v_length v / float_ofZ 2)%float in finite nr -> 0 <= val nr <= val len ->
  exists oz ox, leg_vec v len nr = Ok (V oz ox) /\ finite ox /\ val ox = s * val nr /\ finite oz /\ val oz = 0.
Proof.
  intros Hm HS Fz Vz Hs Es v len Fn Hn. destruct (diff_ok m A B Hm HS) as [Fd Vd]. destruct (HR (A - B)%float z Fd Fz Vz) as [_ [Fh Vh]].
  destruct (len_ok m A B (nhypot z (A - B)%float) Hm HS Fh Vh) as (FL & L1 & L2 & L3). change (nhypot z (A - B)%float / float_ofZ 2)%float with len in *.
  unfold leg_vec. cbn [neqb NumFloat]. rewrite (eq0_ok len FL). destruct zero_ok as [F0 V0]. unfold Reqb. destruct (Req_EM_T (val len) 0) as [Z|NZ].
  - do 2 eexists. split; [reflexivity|]. rewrite V0. repeat split; try exact F0. assert (val nr = 0) by lra. rewrite H. ring.
  - assert (N : val A <> val B). { intros E. apply NZ. unfold Rminus in L1. rewrite E, Rplus_opp_r, Rabs_R0 in L1. lra. }
    destruct (quot_ok m A B (nhypot z (A - B)%float) Hm HS Fh Vh s Hs Es N) as [Fq Vq].
    pose proof (diff_close m A B (nhypot z (A - B)%float) Hm HS Vh) as C. assert (D0 : 0 < Rabs (val A - val B)) by (apply Rabs_pos_lt; lra). pose proof eps_small. pose proof eps_pos.
    assert (Hp : 0 < val (nhypot z (A - B)%float)) by nra.
    unfold v_unit, v_length, v. cbn [vx vy neqb NumFloat nofZ]. rewrite (eq0_ok _ Fh). unfold Reqb. destruct (Req_EM_T _ 0); [lra|]. cbn [bind v_mul vx vy].
    destruct (op_mul ((A - B) / nhypot z (A - B)%float)%float nr Fq Fn) as [Fm Vm].
    { rewrite Vq, Rabs_mult, (Rabs_right (val nr)) by lra. pose proof (big_1010 m Hm). pose proof (side_m m A B HS). destruct Hs as [->| ->]; [rewrite Rabs_R1|rewrite Rabs_m1]; lra. }
    rewrite Vq, (rnd_sign s _ Hs), rnd_val in Vm.
    destruct (op_div z (nhypot z (A - B)%float) Fz Fh) as [Fy Vy]; [lra|rewrite Vz; unfold Rdiv; rewrite Rmult_0_l, Rabs_R0; apply bpow_ge_0|].
    assert (Vy0 : val (z / nhypot z (A - B)%float)%float = 0) by (rewrite Vy, Vz; unfold Rdiv; rewrite Rmult_0_l; apply rnd_zero).
    destruct (zero_mul _ nr Fy Fn Vy0) as [Fw Vw].
    do 2 eexists. split; [reflexivity|]. cbn [nmul ndiv NumFloat]. repeat split; assumption.
Qed.

(* the scale of the outer handle *)
Definition leg_scale (len nr : float) : res float := if neqb nr (float_ofZ 0) then Ok (float_ofZ 0) else pydiv (pymin (nsub len nr) nr) nr.
Lemma leg_scale_ok m len nr : m <= bpow radix2 1000 -> finite len -> val len <= 2 * m -> finite nr -> 0 <= val nr <= val len ->
  exists sc, leg_scale len nr = Ok sc /\ finite sc /\ 0 <= val sc <= 1 /\ val sc * val nr <= 102 / 100 * (val len - val nr) + 2 * (eps * tiny) + eps * val nr.
Proof.
  intros Hm FL HL Fn Hn. unfold leg_scale. cbn [neqb nsub NumFloat]. rewrite (eq0_ok nr Fn). unfold Reqb. destruct zero_ok as [F0 V0].
  pose proof eps_pos as Ep. pose proof eps_small as Es. pose proof tiny_pos as Tp. pose proof tiny_little as Tl.
  assert (et : 0 <= eps * tiny) by (apply Rmult_le_pos; lra).
  destruct (Req_EM_T (val nr) 0) as [Z|NZ].
  - eexists. split; [reflexivity|]. rewrite V0. split; [exact F0|]. split; [lra|]. rewrite Z, Rmult_0_l, Rmult_0_r. lra.
  - destruct (op_sub len nr FL Fn) as [Fq Vq]. { pose proof (big_1010 m Hm). rewrite Rabs_right by lra. lra. }
    assert (Q0 : 0 <= val (len - nr)%float) by (rewrite Vq; apply rnd_pos; lra).
    assert (Q1 : val (len - nr)%float <= (val len - val nr) + eps * ((val len - val nr) + tiny)) by (rewrite Vq; apply rnd_up; lra).
    destruct (val_min (len - nr)%float nr Fq Fn) as [Vm Fm]. set (mn := pymin (len - nr)%float nr) in *.
    assert (M1 : 0 <= val mn /\ val mn <= val nr /\ val mn <= val (len - nr)%float).
    { rewrite Vm. unfold pymin. cbn [nltb NumR]. unfold Rltb. destruct (Rlt_dec (val nr) (val (len - nr)%float)); lra. }
    destruct M1 as (M1 & M2 & M3). unfold pydiv. cbn [neqb NumFloat nofZ ndiv]. rewrite (eq0_ok nr Fn). unfold Reqb. destruct (Req_EM_T (val nr) 0); [contradiction|].
    assert (Np : 0 < val nr) by lra.
    assert (q0 : 0 <= val mn / val nr) by (apply Rmult_le_pos; [lra|apply Rlt_le, Rinv_0_lt_compat, Np]).
    assert (q1 : val mn / val nr <= 1) by (apply Rmult_le_reg_r with (val nr); [exact Np|]; unfold Rdiv; rewrite Rmult_assoc, Rinv_l by lra; lra).
    destruct (op_div mn nr Fm Fn NZ) as [Fs Vs]. { rewrite Rabs_right by lra. apply Rle_trans with 1; [exact q1|]. change 1 with (bpow radix2 0). apply bpow_le. lia. }
    eexists. split; [reflexivity|]. split; [exact Fs|]. rewrite Vs. split; [split; [now apply rnd_pos|rewrite <- rnd_1; now apply rnd_le]|].
    pose proof (rnd_up _ q0) as U.
    apply Rle_trans with ((val mn / val nr + eps * (val mn / val nr + tiny)) * val nr); [apply Rmult_le_compat_r; lra|].
    replace ((val mn / val nr + eps * (val mn / val nr + tiny)) * val nr) with (val mn + eps * val mn + eps * tiny * val nr) by (field; lra).
    assert (E1 : eps * val mn <= / 1000 * val mn) by (apply Rmult_le_compat_r; lra).
    assert (E2 : eps * (val len - val nr) <= / 1000 * (val len - val nr)) by (apply Rmult_le_compat_r; lra).
    assert (E3 : eps * tiny * val nr <= eps * 1 * val nr) by (apply Rmult_le_compat_r; [lra|]; apply Rmult_le_compat_l; lra).
    lra.
Qed.

Context {TF : NumTrig float}.
Variable m : R.
Hypothesis (Hm : m <= bpow radix2 1000) (Fb : finite bez_90) (Hb : Rabs (val bez_90 - bez_90) <= 8 * eps).
Lemma bez_ok : 0 <= val bez_90 <= 57 / 100.
Proof. pose proof bez_90_facts as [_ B]. cbv zeta in B. apply Rabs_le_inv in Hb. pose proof eps_small. lra. Qed.
Lemma inside_end e a b : 0 <= e -> between e a b b.
Proof. intros H. unfold between. pose proof (Rmin_r a b). pose proof (Rmax_r a b). lra. Qed.
Lemma inside_end' e a b x : 0 <= e -> x = b -> between e a b x.
Proof. intros H ->. now apply inside_end. Qed.

(* the two control points of a corner: [leg] is the offset of a control point from the corner *)
Definition leg_point (b : pt float) (v : vec float) (sc : float) : cpoint float := CP (p_add b v) (v_mul (v_mul v bez_90) sc) (v_neg (v_mul v bez_90)) "smooth".
Definition leg_point' (b : pt float) (v : vec float) (sc : float) : cpoint float := CP (p_add b v) (v_neg (v_mul v bez_90)) (v_mul (v_mul v bez_90) sc) "smooth".
Lemma swap_in e p q b v sc : cp_in e p q (leg_point b v sc) -> cp_in e p q (leg_point' b v sc).
Proof. unfold cp_in, leg_point, leg_point'. cbn [cc cdl cdr]. tauto. Qed.

Lemma leg_h_in A B Y y s nr ox oz sc : let z := (y - y)%float in let len := (nhypot (A - B)%float z / float_ofZ 2)%float in
  side m A B -> side m Y y -> (s = 1 \/ s = -1) -> val A - val B = s * Rabs (val A - val B) -> finite nr -> 0 <= val nr <= val len ->
  finite ox -> val ox = s * val nr -> finite oz -> val oz = 0 ->
  finite sc -> 0 <= val sc <= 1 -> val sc * val nr <= 102 / 100 * (val len - val nr) + 2 * (eps * tiny) + eps * val nr ->
  cp_in (eps * m) (P A Y) (P B y) (leg_point (P B y) (V ox oz) sc).
Proof.
  intros z len HS HT Hs Es Fn Hn Fo Vo Fz Vz Fs Hsc Hsn. destruct HT as (_ & [Fy Hy] & _). destruct (same_diff y m Fy Hy Hm) as [Fzz Vzz].
  destruct (diff_ok m A B Hm HS) as [Fd Vd]. destruct (HR (A - B)%float z Fd Fzz Vzz) as [[Fh Vh] _].
  destruct (leg_cp m A B _ Hm HS Fh Vh s Hs Es nr ox bez_90 sc Hn Fo Vo Fb bez_ok Fs Hsc Hsn) as ((F1 & F2 & F3) & I1 & I2 & I3).
  destruct (cross_cp m y oz bez_90 sc Hm Fy Hy Fz Vz Fb Fs) as ((G1 & G2 & G3) & W1 & W2 & W3).
  assert (E0 : 0 <= eps * m) by (apply Rmult_le_pos; [pose proof eps_pos; lra|exact (side_m m A B HS)]).
  unfold cp_in, leg_point. cbn [cc cdl cdr p_add v_mul v_neg px py vx vy nadd nmul nneg NumFloat].
  split; [tauto|]. split; [split; [exact I1|apply inside_end'; [lra|exact W1]]|].
  split; (split; [assumption|apply inside_end'; [lra|]]); rewrite W1, ?W2, ?W3; ring.
Qed.
Lemma leg_v_in A B X x s nr ox oz sc : let z := (x - x)%float in let len := (nhypot z (A - B)%float / float_ofZ 2)%float in
  side m A B -> side m X x -> (s = 1 \/ s = -1) -> val A - val B = s * Rabs (val A - val B) -> finite nr -> 0 <= val nr <= val len ->
  finite ox -> val ox = s * val nr -> finite oz -> val oz = 0 ->
  finite sc -> 0 <= val sc <= 1 -> val sc * val nr <= 102 / 100 * (val len - val nr) + 2 * (eps * tiny) + eps * val nr ->
  cp_in (eps * m) (P X A) (P x B) (leg_point (P x B) (V oz ox) sc).
Proof.
  intros z len HS HT Hs Es Fn Hn Fo Vo Fz Vz Fs Hsc Hsn. destruct HT as (_ & [Fx Hx] & _). destruct (same_diff x m Fx Hx Hm) as [Fzz Vzz].
  destruct (diff_ok m A B Hm HS) as [Fd Vd]. destruct (HR (A - B)%float z Fd Fzz Vzz) as [_ [Fh Vh]].
  destruct (leg_cp m A B _ Hm HS Fh Vh s Hs Es nr ox bez_90 sc Hn Fo Vo Fb bez_ok Fs Hsc Hsn) as ((F1 & F2 & F3) & I1 & I2 & I3).
  destruct (cross_cp m x oz bez_90 sc Hm Fx Hx Fz Vz Fb Fs) as ((G1 & G2 & G3) & W1 & W2 & W3).
  assert (E0 : 0 <= eps * m) by (apply Rmult_le_pos; [pose proof eps_pos; lra|exact (side_m m A B HS)]).
  unfold cp_in, leg_point. cbn [cc cdl cdr p_add v_mul v_neg px py vx vy nadd nmul nneg NumFloat].
  split; [tauto|]. split; [split; [apply inside_end'; [lra|exact W1]|exact I1]|].
  split; (split; [apply inside_end'; [lra|]|assumption]); rewrite W1, ?W2, ?W3; ring.
Qed.

Lemma rr_corner_eq radius a b c : rr_corner radius a b c =
  let lab := (v_length (p_sub a b) / float_ofZ 2)%float in let lcb := (v_length (p_sub c b) / float_ofZ 2)%float in
  let nr := pymin (pymin radius lab) lcb in
  let* ab := leg_vec (p_sub a b) lab nr in let* cb := leg_vec (p_sub c b) lcb nr in
  let* sab := leg_scale lab nr in let* scb := leg_scale lcb nr in
  Ok (leg_point b ab sab, leg_point' b cb scb, nleb nr radius).
Proof. reflexivity. Qed.
Lemma new_radius_ok radius l l' : finite radius -> 0 <= val radius -> finite l -> 0 <= val l -> finite l' -> 0 <= val l' ->
  let nr := pymin (pymin radius l) l' in finite nr /\ 0 <= val nr <= val l /\ 0 <= val nr <= val l'.
Proof.
  intros F H F1 H1 F2 H2 nr. destruct (val_min radius l F F1) as [V Fm]. destruct (val_min (pymin radius l) l' Fm F2) as [V' F'].
  split; [exact F'|]. unfold nr. rewrite V', V. unfold pymin. cbn [nltb NumR]. unfold Rltb. repeat destruct (Rlt_dec _ _); lra.
Qed.
Variable radius : float.
Hypothesis (Fr : finite radius) (Hr : 0 <= val radius).

Lemma corner_hv A B Y y : side m A B -> side m Y y -> exists c1 c2 clip, rr_corner radius (P A y) (P B y) (P B Y) = Ok (c1, c2, clip) /\
  cp_in (eps * m) (P A Y) (P B y) c1 /\ cp_in (eps * m) (P A Y) (P B y) c2.
Proof.
  intros HS HT. pose proof HS as (_ & [FB HB] & _). pose proof HT as (_ & [Fy Hy] & _).
  destruct (same_diff y m Fy Hy Hm) as [Fz Vz]. destruct (same_diff B m FB HB Hm) as [Fz' Vz'].
  destruct (diff_ok m A B Hm HS) as [Fd Vd]. destruct (HR (A - B)%float _ Fd Fz Vz) as [[Fh Vh] _].
  destruct (diff_ok m Y y Hm HT) as [Fd' Vd']. destruct (HR (Y - y)%float _ Fd' Fz' Vz') as [_ [Fh' Vh']].
  destruct (len_ok m A B _ Hm HS Fh Vh) as (FL & L1 & _ & L3). destruct (len_ok m Y y _ Hm HT Fh' Vh') as (FL' & L1' & _ & L3').
  destruct (new_radius_ok radius _ _ Fr Hr FL (proj1 L1) FL' (proj1 L1')) as (Fn & N1 & N2).
  destruct (sign_of A B) as (s & Hs & Es). destruct (sign_of Y y) as (s' & Hs' & Es').
  destruct (leg_vec_h m A B _ s _ Hm HS Fz Vz Hs Es Fn N1) as (ox & oz & E1 & Fo & Vo & Foz & Voz).
  destruct (leg_vec_v m Y y _ s' _ Hm HT Fz' Vz' Hs' Es' Fn N2) as (oz' & ox' & E2 & Fo' & Vo' & Foz' & Voz').
  destruct (leg_scale_ok m _ _ Hm FL L3 Fn N1) as (sc & E3 & Fs & S1 & S2). destruct (leg_scale_ok m _ _ Hm FL' L3' Fn N2) as (sc' & E4 & Fs' & S1' & S2').
  do 3 eexists. split.
  - rewrite rr_corner_eq. cbv zeta. unfold p_sub, v_length in *. cbn [px py vx vy nsub NumFloat] in *. rewrite E1. cbn [bind]. rewrite E2. cbn [bind]. rewrite E3. cbn [bind]. rewrite E4. cbn [bind]. reflexivity.
  - split.
    + exact (leg_h_in A B Y y s _ ox oz sc HS HT Hs Es Fn N1 Fo Vo Foz Voz Fs S1 S2).
    + apply swap_in. exact (leg_v_in Y y A B s' _ ox' oz' sc' HT HS Hs' Es' Fn N2 Fo' Vo' Foz' Voz' Fs' S1' S2').
Qed.
Lemma corner_vh A B Y y : side m A B -> side m Y y -> exists c1 c2 clip, rr_corner radius (P B Y) (P B y) (P A y) = Ok (c1, c2, clip) /\
  cp_in (eps * m) (P A Y) (P B y) c1 /\ cp_in (eps * m) (P A Y) (P B y) c2.
Proof.
  intros HS HT. pose proof HS as (_ & [FB HB] & _). pose proof HT as (_ & [Fy Hy] & _).
  destruct (same_diff y m Fy Hy Hm) as [Fz Vz]. destruct (same_diff B m FB HB Hm) as [Fz' Vz'].
  destruct (diff_ok m A B Hm HS) as [Fd Vd]. destruct (HR (A - B)%float _ Fd Fz Vz) as [[Fh Vh] _].
  destruct (diff_ok m Y y Hm HT) as [Fd' Vd']. destruct (HR (Y - y)%float _ Fd' Fz' Vz') as [_ [Fh' Vh']].
  destruct (len_ok m A B _ Hm HS Fh Vh) as (FL & L1 & _ & L3). destruct (len_ok m Y y _ Hm HT Fh' Vh') as (FL' & L1' & _ & L3').
  destruct (new_radius_ok radius _ _ Fr Hr FL' (proj1 L1') FL (proj1 L1)) as (Fn & N2 & N1).
  destruct (sign_of A B) as (s & Hs & Es). destruct (sign_of Y y) as (s' & Hs' & Es').
  destruct (leg_vec_h m A B _ s _ Hm HS Fz Vz Hs Es Fn N1) as (ox & oz & E1 & Fo & Vo & Foz & Voz).
  destruct (leg_vec_v m Y y _ s' _ Hm HT Fz' Vz' Hs' Es' Fn N2) as (oz' & ox' & E2 & Fo' & Vo' & Foz' & Voz').
  destruct (leg_scale_ok m _ _ Hm FL L3 Fn N1) as (sc & E3 & Fs & S1 & S2). destruct (leg_scale_ok m _ _ Hm FL' L3' Fn N2) as (sc' & E4 & Fs' & S1' & S2').
  do 3 eexists. split.
  - rewrite rr_corner_eq. cbv zeta. unfold p_sub, v_length in *. cbn [px py vx vy nsub NumFloat] in *. rewrite E2. cbn [bind]. rewrite E1. cbn [bind]. rewrite E4. cbn [bind]. rewrite E3. cbn [bind]. reflexivity.
  - split.
    + exact (leg_v_in Y y A B s' _ ox' oz' sc' HT HS Hs' Es' Fn N2 Fo' Vo' Foz' Voz' Fs' S1' S2').
    + apply swap_in. exact (leg_h_in A B Y y s _ ox oz sc HS HT Hs Es Fn N1 Fo Vo Foz Voz Fs S1 S2).
Qed.
End Corner.

(* ------------------------------------------------------------------ *)
(** ** merging points that coincide *)

Lemma merge_length {A} (x : A) : forall l i, List.length (set_nth i x l) = List.length l.
Proof. induction l as [|y l IH]; intros [|i]; cbn [set_nth List.length]; auto. Qed.
Lemma float_merge_Forall (Q : cpoint float -> Prop) :
  (forall b c, Q b -> Q c -> p_eqb (cc b) (cc c) = true -> Q (CP (cc b) (cdl b) (cdr c) (ckind b))) ->
  forall todo cps out cps' out', Forall Q cps -> rr_merge cps todo out = (cps', out') -> Forall Q cps'.
Proof.
  intros HQ. induction todo as [|[[ia ib] ic] todo IH]; intros cps out cps' out' H E; cbn [rr_merge] in E.
  - injection E as <- <-. auto.
  - destruct (nth_error cps ia) as [a|] eqn:Ea, (nth_error cps ib) as [b|] eqn:Eb, (nth_error cps ic) as [c|] eqn:Ec;
    try (injection E as <- <-; auto; fail).
    destruct (p_eqb (cc b) (cc c)) eqn:Q1.
    + eapply IH; [|exact E]. clear IH E. apply nth_error_In in Eb. apply nth_error_In in Ec. rewrite Forall_forall in H.
      pose proof (HQ b c (H b Eb) (H c Ec) Q1) as G.
      assert (Fl : forall l i, (forall x, In x l -> Q x) -> Forall Q (set_nth i (CP (cc b) (cdl b) (cdr c) (ckind b)) l)).
      { induction l as [|x l IH]; intros i Hl; [destruct i; constructor|]. destruct i; cbn [set_nth]; constructor; auto.
        - rewrite Forall_forall. intros; apply Hl; cbn; auto.
        - apply Hl. now left.
        - apply IH. intros; apply Hl. now right. }
      apply Fl. exact H.
    + destruct (p_eqb (cc b) (cc a)); eapply IH; eauto.
Qed.
Lemma merge_grows : forall todo (cps : list (cpoint float)) out cps' out', rr_merge cps todo out = (cps', out') -> List.length cps' = List.length cps /\ incl out out'.
Proof.
  induction todo as [|[[ia ib] ic] todo IH]; intros cps out cps' out' E; cbn [rr_merge] in E.
  - injection E as <- <-. split; [reflexivity|apply incl_refl].
  - destruct (nth_error cps ia) as [a|], (nth_error cps ib) as [b|], (nth_error cps ic) as [c|];
    try (injection E as <- <-; split; [reflexivity|apply incl_refl]; fail).
    assert (W : forall cps0, List.length cps0 = List.length cps -> rr_merge cps0 todo (out ++ [ib]) = (cps', out') -> List.length cps' = List.length cps /\ incl out out').
    { intros cps0 L E0. apply IH in E0. destruct E0 as [E1 E2]. split; [congruence|]. intros i Hi. apply E2, in_or_app. now left. }
    destruct (p_eqb (cc b) (cc c)); [apply (W _ (merge_length _ _ _) E)|]. destruct (p_eqb (cc b) (cc a)); [now apply IH in E|now apply (W cps)].
Qed.
Lemma p_eqb_vals (a b : pt float) : finite (px a) -> finite (py a) -> finite (px b) -> finite (py b) ->
  (p_eqb a b = true <-> val (px a) = val (px b) /\ val (py a) = val (py b)).
Proof.
  intros A B C D. unfold p_eqb. cbn [neqb NumFloat]. rewrite !eqb_ok by assumption. rewrite Bool.andb_true_iff. unfold Reqb.
  destruct (Req_EM_T _ _), (Req_EM_T _ _); split; intros [? ?]; try discriminate; try contradiction; auto.
Qed.
Lemma cp_in_glue e p q b c : cp_in e p q b -> cp_in e p q c -> p_eqb (cc b) (cc c) = true -> cp_in e p q (CP (cc b) (cdl b) (cdr c) (ckind b)).
Proof.
  intros ((B1 & B2 & B3 & B4 & B5 & B6) & BC & BL & BR) ((C1 & C2 & C3 & C4 & C5 & C6) & CC & CL & CR) E.
  apply p_eqb_vals in E; auto. destruct E as [E1 E2]. unfold cp_in. cbn [cc cdl cdr].
  split; [tauto|]. split; [exact BC|]. split; [exact BL|]. rewrite E1, E2. exact CR.
Qed.
(* the merging keeps at least one of four or more points *)
Lemma merge_keeps e p q a b c d cps out' cps' : Forall (cp_in e p q) (a :: b :: c :: d :: cps) ->
  rr_merge (a :: b :: c :: d :: cps) (iter_rotate3 (seq 0 (List.length (a :: b :: c :: d :: cps)))) [] = (cps', out') ->
  In 1%nat out' \/ In 2%nat out'.
Proof.
  intros H E.
  assert (T : exists todo, iter_rotate3 (seq 0 (List.length (a :: b :: c :: d :: cps))) = (0, 1, 2)%nat :: (1, 2, 3)%nat :: todo).
  { cbn [List.length seq]. unfold iter_rotate3, rotl. cbn [skipn firstn app combine]. destruct (seq 4 (List.length cps)); eexists; reflexivity. }
  destruct T as [todo T]. rewrite T in E. clear T. cbn [rr_merge nth_error] in E.
  assert (W : forall t c0 i, rr_merge c0 t [i] = (cps', out') -> In i out') by (intros t c0 i E0; apply merge_grows in E0; apply E0; now left).
  destruct (p_eqb (cc b) (cc c)) eqn:Q1.
  - left. apply W with (t := (1, 2, 3)%nat :: todo) (c0 := set_nth 1 (CP (cc b) (cdl b) (cdr c) (ckind b)) (a :: b :: c :: d :: cps)). exact E.
  - destruct (p_eqb (cc b) (cc a)) eqn:Q2.
    + right. destruct (p_eqb (cc c) (cc d)) eqn:Q3; [exact (W _ _ _ E)|]. destruct (p_eqb (cc c) (cc b)) eqn:Q4; [|exact (W _ _ _ E)].
      exfalso. pose proof (Forall_inv_tail H) as K1. pose proof (Forall_inv K1) as Hb. pose proof (Forall_inv (Forall_inv_tail K1)) as Hc.
      destruct Hb as ((B1 & B2 & _) & _). destruct Hc as ((C1 & C2 & _) & _). apply p_eqb_vals in Q4; auto.
      assert (Q5 : p_eqb (cc b) (cc c) = true) by (apply p_eqb_vals; auto; destruct Q4; auto). congruence.
    + left. exact (W ((1, 2, 3)%nat :: todo) (a :: b :: c :: d :: cps) 1%nat E).
Qed.

(* ------------------------------------------------------------------ *)
(** ** the theorem *)

Lemma between_comm e a b : between e a b = between e b a.
Proof. unfold between. rewrite (Rmin_comm a b), (Rmax_comm a b). reflexivity. Qed.
Lemma cp_in_swap e p q p' q' c : (px p' = px p /\ px q' = px q \/ px p' = px q /\ px q' = px p) -> (py p' = py p /\ py q' = py q \/ py p' = py q /\ py q' = py p) ->
  cp_in e p' q' c -> cp_in e p q c.
Proof.
  intros HX HY H. unfold cp_in in *. cbv zeta in *.
  assert (X : forall d, between d (val (px p')) (val (px q')) = between d (val (px p)) (val (px q))) by (intros d; destruct HX as [[-> ->]|[-> ->]]; [reflexivity|apply between_comm]).
  assert (Y : forall d, between d (val (py p')) (val (py q')) = between d (val (py p)) (val (py q))) by (intros d; destruct HY as [[-> ->]|[-> ->]]; [reflexivity|apply between_comm]).
  rewrite !X, !Y in H. exact H.
Qed.

(* A rounded rectangle on doubles: for any corners of moderate size whose sides are zero or not in the subnormal
   range, and any radius from zero on, it is built without an error and has control points; every coordinate is
   finite, every control point lies in the rectangle exactly, and every handle ends in it up to one rounding *)
Theorem C94_rounded_rect_doubles {RF : NumRoot float} {TF : NumTrig float} (m : R) (p1 p2 : pt float) (radius : float) :
  axis_hypot RF -> finite bez_90 -> Rabs (val bez_90 - bez_90) <= 8 * eps -> m <= 2 ^ 1000 ->
  side m (px p1) (px p2) -> side m (py p1) (py p2) -> finite radius -> 0 <= val radius ->
  exists cps, make_rounded_rect_cps p1 p2 radius = Ok cps /\ cps <> [] /\ Forall (cp_in (eps * m) p1 p2) cps.
Proof.
  intros HR Fb Hb Hm' SX SY Fr Hr. assert (Hm : m <= bpow radix2 1000) by (rewrite bpow_powerRZ; change (powerRZ (IZR radix2) 1000) with (2 ^ 1000); exact Hm'). clear Hm'.
  destruct p1 as [x1 y1], p2 as [x2 y2]. cbn [px py] in SX, SY. pose proof (side_sym _ _ _ SX) as SX'. pose proof (side_sym _ _ _ SY) as SY'.
  destruct (corner_hv HR m Hm Fb Hb radius Fr Hr x2 x1 y2 y1 SX' SY') as (a1 & a2 & k1 & E1 & A1 & A2).
  destruct (corner_vh HR m Hm Fb Hb radius Fr Hr x2 x1 y1 y2 SX' SY) as (b1 & b2 & k2 & E2 & B1 & B2).
  destruct (corner_hv HR m Hm Fb Hb radius Fr Hr x1 x2 y1 y2 SX SY) as (c1 & c2 & k3 & E3 & C1 & C2).
  destruct (corner_vh HR m Hm Fb Hb radius Fr Hr x1 x2 y2 y1 SX SY') as (d1 & d2 & k4 & E4 & D1 & D2).
  set (l := [a1; a2; b1; b2; c1; c2; d1; d2]).
  assert (Al : Forall (cp_in (eps * m) (P x1 y1) (P x2 y2)) l).
  { unfold l. repeat apply Forall_cons; try apply Forall_nil; (eapply cp_in_swap; [| |eassumption]); cbn [px py]; tauto. }
  assert (E : rr_corners radius (iter_rotate3m1 (corners (P x1 y1) (P x2 y2))) = Ok (l, (k1 || (k2 || (k3 || (k4 || false))))%bool)).
  { unfold corners, iter_rotate3m1, rotr1, rotl. cbn [rev app skipn firstn combine px py rr_corners]. rewrite E1. cbn [bind]. rewrite E2. cbn [bind]. rewrite E3. cbn [bind]. rewrite E4. reflexivity. }
  unfold make_rounded_rect_cps. rewrite E. cbn [bind]. destruct (k1 || (k2 || (k3 || (k4 || false))))%bool.
  - destruct (rr_merge l (iter_rotate3 (seq 0 (List.length l))) []) as [cps out] eqn:M. eexists. split; [reflexivity|].
    pose proof (merge_keeps _ _ _ _ _ _ _ _ _ _ Al M) as K. pose proof (proj1 (merge_grows _ _ _ _ _ M)) as Len.
    apply (float_merge_Forall (cp_in (eps * m) (P x1 y1) (P x2 y2)) (cp_in_glue _ _ _)) in M; [|exact Al]. split.
    + assert (Z : forall i, In i out -> (i < List.length cps)%nat -> flat_map (fun i => match nth_error cps i with Some c => [c] | None => [] end) out <> []).
      { intros i Hi Lt. destruct (nth_error cps i) as [c|] eqn:Ei; [|apply nth_error_None in Ei; lia].
        intros Em. assert (In c []) by (rewrite <- Em; apply in_flat_map; exists i; rewrite Ei; split; [exact Hi|now left]). contradiction. }
      unfold l in Len. cbn [List.length] in Len. destruct K as [K|K]; apply (Z _ K); lia.
    + rewrite Forall_forall in *. intros x Hx. apply in_flat_map in Hx. destruct Hx as (i & _ & Hx). destruct (nth_error cps i) as [c|] eqn:Ei; [|destruct Hx].
      destruct Hx as [<-|[]]. apply M. eapply nth_error_In; eauto.
  - eexists. split; [reflexivity|]. split; [discriminate|exact Al].
Qed.

(* ------------------------------------------------------------------ *)
(** ** drawing it *)

Lemma hull_between e a b x0 x1 x2 x3 t : 0 <= t <= 1 -> between e a b x0 -> between e a b x1 -> between e a b x2 -> between e a b x3 -> between e a b (cubic1 x0 x1 x2 x3 t).
Proof.
  intros Ht H0 H1 H2 H3. unfold between in *. pose proof (P_float4.exact_in_hull x0 x1 x2 x3 t _ _ Ht H0 H1 H2 H3) as H. cbv zeta in H.
  replace (cubic1 x0 x1 x2 x3 t) with ((1 - t) * ((1 - t) * (1 - t)) * x0 + 3 * ((1 - t) * (1 - t) * t) * x1 + 3 * ((1 - t) * (t * t)) * x2 + t * (t * t) * x3) by (unfold cubic1; ring). exact H.
Qed.
Lemma between_wider e a b x : 0 <= e -> between 0 a b x -> between e a b x.
Proof. unfold between. lra. Qed.
Lemma between_abs e a b x M : Rabs a <= M -> Rabs b <= M -> between e a b x -> Rabs x <= M + e.
Proof.
  intros A B [L H]. apply Rabs_le_inv in A. apply Rabs_le_inv in B. apply Rabs_le. revert L H. unfold Rmin, Rmax. destruct (Rle_dec a b); lra.
Qed.

(* A rounded rectangle drawn on doubles, under any transform: a path of at least one point comes out, and each of its
   points is close to the exact image of a point of the rectangle *)
Theorem C94_drawn {RF : NumRoot float} {TF : NumTrig float} (M s : R) (dc : dctx) (b : ebase float) (p1 p2 : pt float) (radius : float) (t : transform float) :
  axis_hypot RF -> finite bez_90 -> Rabs (val bez_90 - bez_90) <= 8 * eps -> M <= 2 ^ 1000 ->
  side M (px p1) (px p2) -> side M (py p1) (py p2) -> finite radius -> 0 <= val radius ->
  affine_mat (tmat (valt (e_xform b))) -> px (reach t (e_xform b) (P (4 * M) (4 * M))) <= s -> py (reach t (e_xform b) (P (4 * M) (4 * M))) <= s ->
  exists l, snd (leaf_paths dc b (SRRect p1 p2 radius) t) = Ok [Path (e_pb b) (e_closed b) l] /\ l <> [] /\
    forall q, In q l -> exists r : pt R,
      between (eps * M) (val (px p1)) (val (px p2)) (px r) /\ between (eps * M) (val (py p1)) (val (py p2)) (py r) /\
      close_by (210 * eps * (s + 4 * tiny)) q (p_xy (t_transform (valt t) (t_transform (valt (e_xform b)) r))).
Proof.
  intros HR Fb Hb Hm SX SY Fr Hr Af Sx Sy.
  destruct (C94_rounded_rect_doubles M p1 p2 radius HR Fb Hb Hm SX SY Fr Hr) as (cps & E & Ne & All).
  unfold leaf_paths. rewrite draw_space_pure. cbn [snd]. rewrite E. cbn [bind]. eexists. split; [reflexivity|].
  set (g := t_compose (tmat (e_xform b)) (t_push t)). set (g' := t_compose (tmat (valt (e_xform b))) (t_push (valt t))).
  pose proof (side_m _ _ _ SX) as M0. pose proof eps_pos as Ep. pose proof eps_small as Es. pose proof tiny_pos as Tp.
  assert (eM : 0 <= eps * M <= / 1000 * M) by (split; [apply Rmult_le_pos; lra|apply Rmult_le_compat_r; lra]).
  assert (Nm : nearm 3 (abs_dot (absm (tmat t)) (absm (tmat (e_xform b)))) (tmat g) (tmat g')) by exact (nearm_dot 0 0 _ _ _ _ _ _ (nearm_leaf (tmat t)) (nearm_leaf (tmat (e_xform b)))).
  unfold reach in Sx, Sy. set (Z := abs_dot (absm (tmat t)) (absm (tmat (e_xform b)))) in *.
  assert (N : Forall2 (nearf 7 (s + 3 * tiny) (t_transform g) (t_transform g')) cps (map valc cps)).
  { clear E Ne. induction All as [|c cps H _ IH]; [constructor|]. constructor; [|exact IH]. clear IH.
    destruct H as (_ & (X & Y) & (XL & YL) & (XR & YR)).
    destruct SX as ([_ x1] & [_ x2] & _). destruct SY as ([_ y1] & [_ y2] & _).
    pose proof (between_abs _ _ _ _ M x1 x2 X) as BX. pose proof (between_abs _ _ _ _ M y1 y2 Y) as BY.
    pose proof (between_abs _ _ _ _ M x1 x2 XL) as BXL. pose proof (between_abs _ _ _ _ M y1 y2 YL) as BYL.
    pose proof (between_abs _ _ _ _ M x1 x2 XR) as BXR. pose proof (between_abs _ _ _ _ M y1 y2 YR) as BYR.
    clear X Y XL YL XR YR x1 x2 y1 y2.
    destruct c as [[cx cy] [lx ly] [rx ry] kd]. cbn [cc cdl cdr px py vx vy] in *.
    assert (Dif : forall u v, Rabs (val u) <= M + 0 -> Rabs (val u + val v) <= M + eps * M -> Rabs (val u) + Rabs (val v) <= 4 * M).
    { intros u v Hu Huv. assert (Rabs (val v) <= Rabs (val u + val v) + Rabs (val u)).
      { replace (val v) with ((val u + val v) + - val u) at 1 by ring. eapply Rle_trans; [apply Rabs_triang|]. rewrite Rabs_Ropp. lra. } lra. }
    assert (Sum : forall u v, Rabs (val u) <= M + 0 -> Rabs (val u + val v) <= M + eps * M -> near 1 (4 * M) (u + v)%float (val u + val v)).
    { intros u v Hu Huv. eapply near_scaled; [exact (near_add 0 0 _ _ _ _ _ _ (near_leaf u) (near_leaf v))|lia|now apply Dif]. }
    assert (Cen : forall u, Rabs (val u) <= M + 0 -> near 1 (4 * M) u (val u)).
    { intros u Hu. eapply near_scaled; [apply near_leaf|lia|lra]. }
    assert (One : near 1 1 1%float 1) by (eapply (near_scaled 0); [apply (near_const 1); vm_compute; discriminate|lia|cbn; lra]).
    destruct Nm as (A0 & A1 & A2 & A3 & A4 & A5 & _). unfold mat_apply in Sx, Sy. cbn [px py] in Sx, Sy. ops_in Sx. ops_in Sy.
    assert (K : forall (x y : float) rx ry, near 1 (4 * M) x rx -> near 1 (4 * M) y ry -> nearp 7 (s + 3 * tiny) (t_transform g (P x y)) (t_transform g' (P rx ry))).
    { intros x y rx0 ry0 Nx Ny. unfold nearp, t_transform, mat_apply. cbn [px py]. ops.
      split; (eapply near_scaled; [apply (near_dot3 3 1); [eassumption|eassumption|eassumption|exact Nx|exact Ny|exact One]|lia|lra]). }
    unfold nearf, cp_l, cp_r, valc, valp, valv, p_add. cbn [cc cdl cdr px py vx vy]. ops.
    split; [|split]; apply K; auto. }
  pose proof (pair_near _ _ _ _ (path_points_near _ _ 20 true _ _ _ _ ltac:(vm_compute; discriminate) N)) as Q.
  rewrite drawn_bez in Q. split.
  - intros El. rewrite El in Q. assert (Q0 : forall l', Forall2 (near2 (7 + 15) (9 * (s + 3 * tiny) + 4 * tiny)) [] l' -> l' = []) by (intros l' H; now inversion H). apply Q0 in Q. clear Q0. revert Q.
    unfold drawn. destruct cps as [|c cps]; [congruence|]. cbn [map]. intros E0. apply map_eq_nil in E0. revert E0.
    cbn [path_segments app]. destruct (map valc cps) as [|c' cps']; cbn [app consecutive join_segs]; unfold seg_pts, samples; cbn [seq map app]; intros E0; inversion E0.
  - intros q Hq. assert (Ex : exists q', In q' (drawn (t_transform g') (map valc cps) true 20) /\ near2 22 (9 * (s + 3 * tiny) + 4 * tiny) q q').
    { clear - Q Hq. revert Hq. induction Q as [|x y l l' Hxy _ IH]; [intros []|]. intros [<-|Hq]; [exists y; split; [now left|exact Hxy]|].
      destruct (IH Hq) as (q' & I & Hn). exists q'. split; [now right|exact Hn]. }
    destruct Ex as (q' & Hq' & [Nx Ny]). apply drawn_affine in Hq'; [|apply transform_affine]. destruct Hq' as (r & Hr' & ->).
    exists r. destruct Hr' as (c1 & c2 & u & I & Hu & ->). apply in_path in I. destruct I as [I1 I2].
    apply in_map_iff in I1. destruct I1 as (d1 & <- & I1). apply in_map_iff in I2. destruct I2 as (d2 & <- & I2).
    rewrite Forall_forall in All. destruct (All d1 I1) as (_ & (X1 & Y1) & _ & (XR & YR)). destruct (All d2 I2) as (_ & (X2 & Y2) & (XL & YL) & _).
    split; [|split].
    + unfold segment, cubic, right_of, left_of, valc, valp, valv. cbn [cc cdl cdr px py vx vy]. apply hull_between; auto; apply between_wider; auto; lra.
    + unfold segment, cubic, right_of, left_of, valc, valp, valv. cbn [cc cdl cdr px py vx vy]. apply hull_between; auto; apply between_wider; auto; lra.
    + assert (Cp : t_transform g' (segment (valc d1) (valc d2) u) = t_transform (valt t) (t_transform (valt (e_xform b)) (segment (valc d1) (valc d2) u))).
      { unfold g'. rewrite compose_apply by exact Af. rewrite <- tt_lin. reflexivity. }
      rewrite Cp in Nx, Ny. 
      assert (0 <= s + 4 * tiny) by (destruct Nx as [Nx _]; match type of Nx with Rabs ?z <= _ => pose proof (Rabs_pos z) end; lra).
      replace (210 * eps * (s + 4 * tiny)) with (210 / 9 * eps * (9 * (s + 4 * tiny))) by field.
      split; intros F; (eapply near_use; [eassumption|lia|cbn; lra|lra|exact F]).
Qed.

(* ------------------------------------------------------------------ *)
(** ** the hypotheses can be met *)

(* the correctly rounded hypot is exact along the axes *)
Theorem C94_best_axis : axis_hypot BestRoot.
Proof.
  assert (G : forall x, finite x -> finite (round_to_float (Rabs (val x))) /\ val (round_to_float (Rabs (val x))) = Rabs (val x)).
  { intros x Fx. assert (Rr : rnd (Rabs (val x)) = Rabs (val x)) by (apply round_generic; [apply valid_rnd_N|apply generic_format_abs, val_format]).
    assert (Fin : finite (round_to_float (Rabs (val x)))).
    { apply finite_B. unfold round_to_float. rewrite Prim2B_B2Prim.
      pose proof (binary_normalize_correct prec emax Hprec Hmax mode_NE (ZnearestE (scaled_mantissa radix2 fexp64 (Rabs (val x)))) (cexp radix2 fexp64 (Rabs (val x))) false) as C.
      change (F2R _) with (rnd (Rabs (val x))) in C. cbv zeta in C. rewrite Rr in C.
      assert (G : round radix2 (SpecFloat.fexp prec emax) (round_mode mode_NE) (Rabs (val x)) = Rabs (val x)) by exact Rr.
      rewrite G in C. rewrite Rlt_bool_true in C; [apply C|]. rewrite Rabs_Rabsolu. apply abs_B2R_lt_emax. }
    split; [exact Fin|]. rewrite round_to_float_ok by exact Fin. exact Rr. }
  intros x z Fx Fz Z. cbn [nhypot BestRoot].
  assert (E1 : exact_length (V x z) = Rabs (val x)) by (unfold exact_length; cbn [vx vy]; rewrite Z; rewrite <- sqrt_Rsqr_abs; f_equal; unfold Rsqr; ring).
  assert (E2 : exact_length (V z x) = Rabs (val x)) by (unfold exact_length; cbn [vx vy]; rewrite Z; rewrite <- sqrt_Rsqr_abs; f_equal; unfold Rsqr; ring).
  rewrite E1, E2. split; apply G, Fx.
Qed.
Example C94_example : let p1 := P (float_ofZ 0) (float_ofZ 50) in let p2 := P (float_ofZ 100) (float_ofZ 0) in
  axis_hypot BestRoot /\ finite (@bez_90 float _ c_library) /\ Rabs (val (@bez_90 float _ c_library) - bez_90) <= 8 * eps /\
  side 100 (px p1) (px p2) /\ side 100 (py p1) (py p2) /\ finite (float_ofZ 10) /\ 0 <= val (float_ofZ 10).
Proof.
  pose proof tiny_little as Tl. assert (K : forall z, (Z.abs z <= 100)%Z -> finite (float_ofZ z) /\ val (float_ofZ z) = IZR z) by (intros z Hz; apply const_ok; unfold max_whole; lia).
  destruct (K 0%Z) as [F0 V0]; [lia|]. destruct (K 50%Z) as [F50 V50]; [lia|]. destruct (K 100%Z) as [F100 V100]; [lia|]. destruct (K 10%Z) as [F10 V10]; [lia|].
  cbv zeta. split; [exact C94_best_axis|]. split; [vm_compute; reflexivity|]. split; [exact c_library_accurate|].
  unfold side. cbn [px py]. rewrite V0, V50, V100, V10. rewrite (Rabs_right 0), (Rabs_right 50), (Rabs_right 100) by lra.
  replace (0 - 100) with (- (100)) by ring. replace (50 - 0) with 50 by ring. rewrite Rabs_Ropp, (Rabs_right 100), (Rabs_right 50) by lra.
  repeat match goal with |- _ /\ _ => split end; try assumption; try lra; right; lra.
Qed.
Example C94_example_drawn : let b := plain "r" (@t_new float _) in
  affine_mat (tmat (valt (e_xform b))) /\ px (reach t_new (e_xform b) (P (4 * 100) (4 * 100))) <= 403 /\ py (reach t_new (e_xform b) (P (4 * 100) (4 * 100))) <= 403.
Proof.
  assert (K : val (float_ofZ 0) = 0 /\ val (float_ofZ 1) = 1) by (split; apply const_ok; vm_compute; discriminate). destruct K as [V0 V1].
  cbv zeta. unfold plain, reach, affine_mat, mat_apply, abs_dot, mat_map, absm, mat_dot, t_new, mat_id, valt, valm.
  cbn [e_xform tmat m00 m01 m02 m10 m11 m12 m20 m21 m22 px py]. ops. rewrite V0, V1, Rabs_R0, Rabs_R1. pose proof tiny_pos. pose proof tiny_little. repeat split; lra.
Qed.
