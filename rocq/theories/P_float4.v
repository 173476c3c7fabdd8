(* Property theorems C81: ends, middles and key times on doubles. *)
From Coq Require Import Reals Floats ZArith List Lra Lia String Sorted.
From Flocq Require Import Core BinarySingleNaN PrimFloat.
Require Import Verif.Base Verif.NumFloat Verif.NumR Verif.M_vector Verif.M_bbox Verif.M_transform Verif.M_bezier Verif.M_points Verif.M_colors Verif.M_elems Verif.M_group Verif.M_anim.
Require Import Verif.L_points Verif.S_float Verif.L_float Verif.L_float2 Verif.P_float Verif.P_float2 Verif.P_float3 Verif.P_multi.
Import ListNotations.
Set Warnings "-inexact-float".
Local Open Scope R_scope.

(* x is a finite double of value r *)
Definition is (x : float) (r : R) : Prop := finite x /\ val x = r.
Lemma val_bound x : Rabs (val x) < bpow radix2 1024.
Proof. apply abs_B2R_lt_emax. Qed.
Lemma is_leaf x : finite x -> is x (val x).
Proof. split; auto. Qed.
Lemma is_one : is 1%float 1.
Proof. change 1%float with (float_ofZ 1). apply (const_ok 1). vm_compute. discriminate. Qed.
Lemma is_zero : is 0%float 0.
Proof. change 0%float with (float_ofZ 0). apply (const_ok 0). vm_compute. discriminate. Qed.
Lemma is_exact_add x y r s z : is x r -> is y s -> r + s = val z -> is (x + y)%float (r + s).
Proof.
  intros [Fx <-] [Fy <-] E. assert (Q : rnd (val x + val y) = val x + val y) by (rewrite E; apply rnd_val).
  assert (F : finite (x + y)%float) by (apply add_fin; auto; rewrite Q, E; apply val_bound).
  split; [exact F|]. destruct (add_ok _ _ F) as (_ & _ & ->). exact Q.
Qed.
Lemma is_exact_sub x y r s z : is x r -> is y s -> r - s = val z -> is (x - y)%float (r - s).
Proof.
  intros [Fx <-] [Fy <-] E. assert (Q : rnd (val x - val y) = val x - val y) by (rewrite E; apply rnd_val).
  assert (F : finite (x - y)%float) by (apply sub_fin; auto; rewrite Q, E; apply val_bound).
  split; [exact F|]. destruct (sub_ok _ _ F) as (_ & _ & ->). exact Q.
Qed.
Lemma is_exact_mul x y r s z : is x r -> is y s -> r * s = val z -> is (x * y)%float (r * s).
Proof.
  intros [Fx <-] [Fy <-] E. assert (Q : rnd (val x * val y) = val x * val y) by (rewrite E; apply rnd_val).
  assert (F : finite (x * y)%float) by (apply mul_fin; auto; rewrite Q, E; apply val_bound).
  split; [exact F|]. destruct (mul_ok _ _ F) as (_ & _ & ->). exact Q.
Qed.
Lemma is_mul1 x y : is x 1 -> finite y -> is (x * y)%float (val y).
Proof. intros H F. pose proof (is_exact_mul _ _ _ _ y H (is_leaf _ F) ltac:(ring)) as K. now rewrite Rmult_1_l in K. Qed.
Lemma is_mul0 x y : is x 0 -> finite y -> is (x * y)%float 0.
Proof. intros H F. pose proof (is_exact_mul _ _ _ _ 0%float H (is_leaf _ F)) as K. rewrite Rmult_0_l in K. apply K. symmetry. apply is_zero. Qed.
Lemma is_mul0r x y : finite x -> is y 0 -> is (x * y)%float 0.
Proof. intros F H. pose proof (is_exact_mul _ _ _ _ 0%float (is_leaf _ F) H) as K. rewrite Rmult_0_r in K. apply K. symmetry. apply is_zero. Qed.
Lemma is_add0 x y r : is x r -> is y 0 -> is (x + y)%float r.
Proof. intros H G. pose proof (is_exact_add _ _ _ _ x H G) as K. rewrite Rplus_0_r in K. apply K. destruct H. auto. Qed.
Lemma is_0add x y r : is x 0 -> is y r -> is (x + y)%float r.
Proof. intros H G. pose proof (is_exact_add _ _ _ _ y H G) as K. rewrite Rplus_0_l in K. apply K. destruct G. auto. Qed.
Lemma is_same x : finite x -> is (x - x)%float 0.
Proof.
  intros F. pose proof (is_exact_sub _ _ _ _ 0%float (is_leaf _ F) (is_leaf _ F)) as K.
  replace (val x - val x) with 0 in K by ring. apply K. symmetry. apply is_zero.
Qed.

(* ------------------------------------------------------------------ *)
(** ** linear animation: the ends *)

Theorem C81_linear_ends (o g : pt float) (point target : nat) (st : pstore float) x0 y0 nm :
  nth_error st point = Some (NPoint x0 y0 nm) -> M_points.pos st target = Ok g -> finitep o -> finitep g ->
  (exists st' x y, linear_update o point target (TNum 0%float) st = (st', Ok tt) /\ nth_error st' point = Some (NPoint x y nm) /\
     valp (P x y) = valp o) /\
  (exists st' x y, linear_update o point target (TNum 1%float) st = (st', Ok tt) /\ nth_error st' point = Some (NPoint x y nm) /\
     valp (P x y) = valp g).
Proof.
  intros N Hp [Ox Oy] [Gx Gy].
  assert (S0 : is (1 - 0)%float 1).
  { pose proof (is_exact_sub _ _ _ _ 1%float is_one is_zero) as K. rewrite Rminus_0_r in K. apply K. symmetry. apply is_one. }
  assert (S1 : is (1 - 1)%float 0) by (apply is_same, is_one).
  split.
  - destruct (linear_update o point target (TNum 0%float) st) as [st' r] eqn:E.
    destruct (linear_place _ _ _ _ _ _ _ _ _ _ _ N Hp E) as [-> Nn]. do 3 eexists. split; [reflexivity|]. split; [exact Nn|].
    unfold valp. cbn [px py]. f_equal; (apply is_add0; [apply is_mul1|apply is_mul0]; auto using is_zero).
  - destruct (linear_update o point target (TNum 1%float) st) as [st' r] eqn:E.
    destruct (linear_place _ _ _ _ _ _ _ _ _ _ _ N Hp E) as [-> Nn]. do 3 eexists. split; [reflexivity|]. split; [exact Nn|].
    unfold valp. cbn [px py]. f_equal; (apply is_0add; [apply is_mul0|apply is_mul1]; auto using is_one).
Qed.

(* ------------------------------------------------------------------ *)
(** ** morphs: the start, and a shape morphed to itself *)

(* the coordinates of a control point, whatever its kind *)
Definition place (c : cpoint float) : pt R * vec R * vec R := (valp (cc c), valv (cdl c), valv (cdr c)).
(* finite, and not so large that a difference could overflow *)
Definition moderate (x : float) : Prop := finite x /\ Rabs (val x) < bpow radix2 1023.
Definition moderate_cp (c : cpoint float) : Prop := Forall (fun co => moderate (co c)) coords.

Lemma double_format u : generic_format radix2 fexp64 u -> generic_format radix2 fexp64 (2 * u).
Proof.
  intros H. apply FLT_format_generic in H; [|reflexivity]. destruct H as [[m e] E B C]. cbn [Fnum Fexp] in *.
  apply generic_format_FLT. exists (Float radix2 m (e + 1)).
  - rewrite E. unfold F2R. cbn [Fnum Fexp]. rewrite bpow_plus. cbn. ring.
  - exact B.
  - cbn [Fexp]. lia.
Qed.
Lemma moderate_sub x y : moderate x -> moderate y -> finite (y - x)%float.
Proof.
  intros [Fx Hx] [Fy Hy]. apply sub_fin; auto.
  (* |y - x| <= the largest double, which rounding keeps *)
  assert (F0 : generic_format radix2 fexp64 (pred radix2 fexp64 (bpow radix2 1023))).
  { apply generic_format_pred. apply FLT_exp_valid. reflexivity. apply generic_format_bpow. unfold fexp64. cbn. lia. }
  set (u := pred radix2 fexp64 (bpow radix2 1023)) in *.
  assert (Ux : Rabs (val x) <= u). { apply pred_ge_gt; auto. apply FLT_exp_valid. reflexivity. apply generic_format_abs, val_format. apply generic_format_bpow. unfold fexp64; cbn; lia. }
  assert (Uy : Rabs (val y) <= u). { apply pred_ge_gt; auto. apply FLT_exp_valid. reflexivity. apply generic_format_abs, val_format. apply generic_format_bpow. unfold fexp64; cbn; lia. }
  assert (U2 : generic_format radix2 fexp64 (2 * u)).
  { now apply double_format. }
  assert (Lt : u < bpow radix2 1023). { apply pred_lt_id. pose proof (bpow_gt_0 radix2 1023). lra. }
  apply Rle_lt_trans with (2 * u).
  - assert (Rr : rnd (2 * u) = 2 * u) by (apply round_generic; [apply valid_rnd_N|exact U2]).
    assert (Rn : rnd (- (2 * u)) = - (2 * u)) by (apply round_generic; [apply valid_rnd_N|now apply generic_format_opp]).
    apply Rabs_le. apply Rabs_le_inv in Ux, Uy. split; [rewrite <- Rn|rewrite <- Rr]; apply rnd_le; lra.
  - change (bpow radix2 1024) with (bpow radix2 (1 + 1023)). rewrite bpow_plus. replace (bpow radix2 1) with 2 by reflexivity. lra.
Qed.
Lemma between_start t a b : is t 0 -> moderate a -> moderate b -> is (a + (b - a) * t)%float (val a).
Proof. intros H A B. apply is_add0; [apply is_leaf, A|]. apply is_mul0r; [now apply moderate_sub|exact H]. Qed.
Lemma between_same t a : finite t -> finite a -> is (a + (a - a) * t)%float (val a).
Proof. intros H A. apply is_add0; [apply is_leaf, A|]. apply is_mul0; [now apply is_same|exact H]. Qed.

Ltac coords_in H := unfold moderate_cp, coords in H;
  repeat match goal with X : Forall _ (_ :: _) |- _ => inversion X; clear X; subst end.
Theorem C81_morph_start (t : float) (now lo hi : list (cpoint float)) : finite t -> val t = 0 ->
  List.length now = List.length lo -> List.length lo = List.length hi -> Forall moderate_cp lo -> Forall moderate_cp hi ->
  map place (cps_between t now lo hi) = map place lo.
Proof.
  intros Ft Vt. revert lo hi. induction now as [|n now IH]; intros [|l lo] [|h hi] L1 L2 Ml Mh; try discriminate; [reflexivity|].
  inversion Ml as [|? ? M1 Ml']; subst. inversion Mh as [|? ? M2 Mh']; subst. cbn [cps_between map]. f_equal; [|apply IH; auto].
  coords_in M1. coords_in M2. unfold place, cp_between, valp, valv. cbn [cc cdl cdr px py vx vy p_add p_sub v_add v_sub v_mul]. ops.
  f_equal; [f_equal|]; f_equal; (apply between_start; [split|..]; assumption).
Qed.
Theorem C81_morph_same (t : float) (now lo : list (cpoint float)) : finite t ->
  List.length now = List.length lo -> Forall moderate_cp lo -> map place (cps_between t now lo lo) = map place lo.
Proof.
  intros Ft. revert lo. induction now as [|n now IH]; intros [|l lo] L1 Ml; try discriminate; [reflexivity|].
  inversion Ml as [|? ? M1 Ml']; subst. cbn [cps_between map]. f_equal; [|apply IH; auto].
  coords_in M1. unfold place, cp_between, valp, valv. cbn [cc cdl cdr px py vx vy p_add p_sub v_add v_sub v_mul]. ops.
  unfold moderate in *. f_equal; [f_equal|]; f_equal; (apply between_same; [assumption|tauto]).
Qed.

(* ------------------------------------------------------------------ *)
(** ** key curves *)

Lemma bisect_val (a : list float) (x : float) : Forall finite a -> finite x ->
  bisect_right a x = bisect_right (map val a) (val x).
Proof.
  intros Ha Hx. unfold bisect_right. rewrite map_length. 
  assert (G : forall n lo hi, bisect_go n a x lo hi = bisect_go n (map val a) (val x) lo hi); [|apply G].
  induction n as [|n IH]; intros lo hi; [reflexivity|]. cbn [bisect_go]. destruct (Nat.ltb lo hi); [|reflexivity].
  assert (E : (x <? nth ((lo + hi) / 2) a (#0))%num = (val x <? nth ((lo + hi) / 2) (map val a) (#0))%num).
  { cbn [nltb NumFloat NumR nofZ]. replace 0 with (val 0%float) by apply is_zero. change (float_ofZ 0) with 0%float.
    rewrite map_nth. apply ltb_ok; [exact Hx|]. destruct (Nat.lt_ge_cases ((lo + hi) / 2) (List.length a)) as [L|G].
    - rewrite Forall_forall in Ha. apply Ha, nth_In, L.
    - rewrite nth_overflow by exact G. apply is_zero. }
  rewrite E. destruct (val x <? nth ((lo + hi) / 2) (map val a) (#0))%num; apply IH.
Qed.
Lemma some_inj {A} (x y : A) : Some x = Some y -> x = y.
Proof. congruence. Qed.
Lemma sorted_le (l : list R) : Sorted Rlt l -> Sorted Rle l.
Proof. induction 1 as [|x l S IH H]; constructor; auto. destruct H; constructor. lra. Qed.
(* doubles of different values have a non-zero difference *)
Lemma sub_not_zero x y : finite (y - x)%float -> val x < val y -> val (y - x)%float <> 0.
Proof.
  intros F L E. destruct (near_diff y x) as [_ N]. specialize (N F). rewrite E in N. cbn [pow] in N.
  replace (0 - (val y - val x)) with (- (val y - val x)) in N by ring. rewrite Rabs_Ropp in N.
  rewrite Rabs_right in N by lra. replace ((1 + eps) * 1 - 1) with eps in N by ring.
  assert (eps <= / 2). { unfold eps. apply Rinv_le_contravar; [lra|]. pose proof (Rle_pow 2 1 53 ltac:(lra) ltac:(lia)) as Q. rewrite pow_1 in Q. exact Q. }
  pose proof (Rmult_le_compat_r (val y - val x) eps (/ 2) ltac:(lra) H). lra.
Qed.

(* On doubles too, exactly the key curve is shown at its time; before the first time the first,
   and from the last time on the last. *)
Theorem C81_keys (t_func : tfun float) (t : tval float) (m : multi float) (i : nat) (s x : float) (c : list (cpoint float)) :
  List.length (mm_steps m) = List.length (mm_curves m) -> Forall moderate (mm_steps m) -> Sorted Rlt (map val (mm_steps m)) ->
  Forall (Forall moderate_cp) (mm_curves m) -> Forall (fun c => List.length c = List.length (mm_now m)) (mm_curves m) ->
  t_func t = Ok (TNum x) -> nth_error (mm_steps m) i = Some s -> nth_error (mm_curves m) i = Some c -> finite x ->
  val x = val s \/ (i = 0%nat /\ val x < val s) \/ (S i = List.length (mm_steps m) /\ val s < val x) ->
  exists m', mm_update t_func t m = Ok m' /\ map place (mm_now m') = map place c /\
    mm_steps m' = mm_steps m /\ mm_curves m' = mm_curves m /\ mm_model m' = mm_tree m (mm_now m').
Proof.
  intros Ln Ms So Mc Lc Et Es Ec Fx Case. unfold mm_update. rewrite Et. cbn [bind].
  assert (Fs : Forall finite (mm_steps m)) by (eapply Forall_impl; [|exact Ms]; now intros ? []).
  assert (Li : (i < List.length (mm_steps m))%nat) by (apply nth_error_Some; congruence).
  destruct (bisect_spec (map val (mm_steps m)) (val x) (sorted_le _ So)) as (B1 & B2 & B3).
  rewrite (bisect_val _ _ Fs Fx). set (idx := bisect_right (map val (mm_steps m)) (val x)) in *. rewrite map_length in *.
  assert (Nv : forall j y, nth_error (mm_steps m) j = Some y -> nth j (map val (mm_steps m)) 0 = val y).
  { intros j y H. apply nth_error_nth. now apply map_nth_error. }
  assert (Str : forall j k, (j < k < List.length (mm_steps m))%nat -> nth j (map val (mm_steps m)) 0 < nth k (map val (mm_steps m)) 0).
  { clear - So. revert So. generalize (mm_steps m). induction l as [|a l IH]; intros So j k H; [cbn in H; lia|].
    cbn [map] in *. apply Sorted_StronglySorted in So; [|intros a1 a2 a3; lra]. inversion So as [|? ? S1 F1]; subst.
    destruct k as [|k]; [lia|]. destruct j as [|j]; cbn [nth List.length] in *.
    - rewrite Forall_forall in F1. apply F1. apply nth_In. rewrite map_length. lia.
    - apply IH; [now apply StronglySorted_Sorted|lia]. }
  pose proof (Nv _ _ Es) as Vi.
  assert (Now : forall lo hi t', In lo (mm_curves m) -> In hi (mm_curves m) -> map place (cps_between t' (mm_now m) lo hi) = map place c ->
    exists m', (let '(lo, hi, t') := (lo, hi, t') in Ok (Multi (mm_steps m) (mm_curves m) (mm_base m) (cps_between t' (mm_now m) lo hi) (mm_tree m))) = Ok m' /\
      map place (mm_now m') = map place c /\ mm_steps m' = mm_steps m /\ mm_curves m' = mm_curves m /\ mm_model m' = mm_tree m (mm_now m')).
  { intros lo hi t' _ _ E. eexists. split; [reflexivity|]. cbn [mm_now mm_steps mm_curves mm_model mm_tree]. auto. }
  assert (Ic : In c (mm_curves m)) by (eapply nth_error_In; eauto).
  rewrite Forall_forall in Mc, Lc.
  destruct idx as [|k] eqn:Ek.
  - (* before the first key *)
    assert (i = 0%nat).
    { destruct Case as [E|[[E _]|[E G]]]; [|exact E|].
      - specialize (B3 0%nat ltac:(lia)). destruct i; [reflexivity|]. specialize (Str 0%nat (S i) ltac:(lia)). lra.
      - specialize (B3 i ltac:(lia)). lra. }
    subst i. destruct (mm_curves m) as [|c0 l]; [discriminate|]. cbn in Ec. apply some_inj in Ec. subst c0. cbn [bind].
    apply (Now c c x); [now left|now left|]. apply C81_morph_same; [exact Fx|symmetry; apply Lc; now left|apply Mc; now left].
  - assert (k = i).
    { destruct (Nat.lt_trichotomy k i) as [L|[E|G]]; [|exact E|].
      - specialize (B3 i ltac:(lia)). destruct Case as [E|[[E _]|[E G]]]; [lra|lia|lra].
      - specialize (B2 k ltac:(lia)). specialize (Str i k ltac:(lia)). destruct Case as [E|[[E L]|[E L]]]; [lra|lra|lia]. }
    subst k. destruct (Nat.leb_spec (List.length (mm_curves m)) (S i)) as [Le|Gt].
    + destruct (exists_last (l := mm_curves m)) as (l & c' & El); [intros Z; rewrite Z in Ic; easy|].
      assert (c' = c).
      { rewrite El, app_length in *. cbn [List.length] in *. rewrite nth_error_app2 in Ec by lia. replace (i - List.length l)%nat with 0%nat in Ec by lia. cbn in Ec. congruence. }
      subst c'. rewrite El, rev_app_distr. cbn [rev app bind].
      rewrite <- El. apply (Now c c x); [exact Ic|exact Ic|]. apply C81_morph_same; [exact Fx|symmetry; now apply Lc|now apply Mc].
    + assert (Vx : val x = val s). { destruct Case as [E|[[E L]|[E L]]]; [exact E| |lia]. specialize (B2 i ltac:(lia)). lra. }
      destruct (nth_error (mm_curves m) (S i)) as [hi|] eqn:Ehi; [|apply nth_error_None in Ehi; lia].
      destruct (nth_error (mm_steps m) (S i)) as [s1|] eqn:Es1; [|apply nth_error_None in Es1; lia].
      rewrite Ec. replace (nth i (mm_steps m) (#0)%num) with s by (symmetry; now apply nth_error_nth).
      replace (nth (S i) (mm_steps m) (#0)%num) with s1 by (symmetry; now apply nth_error_nth).
      pose proof (Nv _ _ Es1) as V1. specialize (Str i (S i) ltac:(lia)). rewrite Vi, V1 in Str.
      rewrite Forall_forall in Ms. pose proof (Ms s (nth_error_In _ _ Es)) as Msi. pose proof (Ms s1 (nth_error_In _ _ Es1)) as Ms1.
      pose proof (moderate_sub _ _ Msi Ms1) as Fd. pose proof (sub_not_zero _ _ Fd Str) as Nz.
      assert (Z0 : is (x - s)%float 0).
      { pose proof (is_exact_sub _ _ _ _ 0%float (is_leaf _ Fx) (is_leaf _ (proj1 Msi))) as K.
        replace (val x - val s) with 0 in K by lra. apply K. symmetry. apply is_zero. }
      unfold pydiv. cbn [neqb nsub ndiv nofZ NumFloat]. change (float_ofZ 0) with 0%float.
      rewrite eqb_ok by (auto; apply is_zero). rewrite (proj2 is_zero).
      destruct (Reqb (val (s1 - s)) 0) eqn:Eq.
      { exfalso. apply Nz. unfold Reqb in Eq. destruct (Req_EM_T (val (s1 - s)) 0); [assumption|discriminate]. }
      cbn [bind]. apply (Now c hi ((x - s) / (s1 - s))%float); [exact Ic|eapply nth_error_In; eauto|].
      destruct Z0 as [Z0 Z0']. assert (Rz : rnd (val (x - s) / val (s1 - s)) = 0).
      { rewrite Z0'. unfold Rdiv. rewrite Rmult_0_l. apply rnd_zero. }
      assert (Fq : finite ((x - s) / (s1 - s))%float).
      { apply div_fin; auto. rewrite Rz, Rabs_R0. apply bpow_gt_0. }
      destruct (div_ok _ _ Fd Nz Fq) as [_ Vq]. rewrite Rz in Vq.
      apply C81_morph_start; auto.
      * symmetry; now apply Lc.
      * rewrite (Lc c Ic), (Lc hi); [reflexivity|]. eapply nth_error_In; eauto.
      * apply Mc. eapply nth_error_In; eauto.
Qed.

(* ------------------------------------------------------------------ *)
(** ** middles *)

Lemma mid_between (x y : float) (lo hi : R) : (exists u, lo = val u) -> (exists u, hi = val u) ->
  finite ((x + y) / float_ofZ 2)%float -> lo <= val x <= hi -> lo <= val y <= hi -> lo <= val ((x + y) / float_ofZ 2)%float <= hi.
Proof.
  intros [u Eu] [w Ew] F Hx Hy. destruct (const_ok 2) as [F2 V2]; [vm_compute; discriminate|].
  destruct (div_ok _ _ F2 ltac:(rewrite V2; apply IZR_neq; discriminate) F) as [Fs ->]. rewrite V2.
  destruct (add_ok _ _ Fs) as (_ & _ & ->).
  assert (R2 : forall u, rnd (2 * val u) = 2 * val u) by (intros; apply round_generic; [apply valid_rnd_N|apply double_format, val_format]).
  assert (2 * lo <= rnd (val x + val y)) by (rewrite Eu, <- R2; apply rnd_le; lra).
  assert (rnd (val x + val y) <= 2 * hi) by (rewrite Ew, <- R2; apply rnd_le; lra).
  split; [rewrite Eu, <- (rnd_val u)|rewrite Ew, <- (rnd_val w)]; apply rnd_le; lra.
Qed.
(* the centre of a box, when it is finite, is in the box *)
Theorem C81_centre_inside (xl yl xh yh : float) (c : pt float) :
  bbox_center (BB xl yl xh yh) = Ok c -> finitep c -> val xl <= val xh -> val yl <= val yh ->
  val xl <= val (px c) <= val xh /\ val yl <= val (py c) <= val yh.
Proof.
  intros E [Fx Fy] Hx Hy. cbn [bbox_center] in E. apply ok_inj in E. subst c. cbn [px py] in *.
  split; (apply mid_between; [eexists; reflexivity|eexists; reflexivity|assumption|lra|lra]).
Qed.
(* the middle of two points is between them *)
Theorem C81_mid_between (p q : pt float) : finitep (p_mid p q) ->
  Rmin (val (px p)) (val (px q)) <= val (px (p_mid p q)) <= Rmax (val (px p)) (val (px q)) /\
  Rmin (val (py p)) (val (py q)) <= val (py (p_mid p q)) <= Rmax (val (py p)) (val (py q)).
Proof.
  intros [Fx Fy].
  assert (Q : forall x y : float, (exists u, Rmin (val x) (val y) = val u) /\ (exists u, Rmax (val x) (val y) = val u)).
  { intros x y. unfold Rmin, Rmax. destruct (Rle_dec _ _); split; eexists; reflexivity. }
  split; (apply mid_between; [apply Q|apply Q|assumption| |]); split; auto using Rmin_l, Rmin_r, Rmax_l, Rmax_r.
Qed.
(* but the sum of the two sides may overflow: the centre of a box of finite coordinates is inf *)
Theorem C81_centre_overflow_refuted : exists (b : bbox float) (c : pt float), finiteb b /\ bbox_center b = Ok c /\ ~ finite (px c).
Proof. exists (BB 1e308 0 1.5e308 1)%float. eexists. split; [repeat split|]. split; [reflexivity|]. cbv [finite]. vm_compute. discriminate. Qed.

(* ------------------------------------------------------------------ *)
(** ** simple transforms *)

Lemma is_add_like x y x0 y0 : is x (val x0) -> is y (val y0) -> finite (x0 + y0)%float -> is (x + y)%float (val (x0 + y0)%float).
Proof.
  intros [Fx Ex] [Fy Ey] F. destruct (add_ok _ _ F) as (_ & _ & E).
  assert (F' : finite (x + y)%float). { apply add_fin; auto. rewrite Ex, Ey, <- E. apply val_bound. }
  split; [exact F'|]. destruct (add_ok _ _ F') as (_ & _ & ->). now rewrite Ex, Ey, E.
Qed.
Lemma is_mul_like x y x0 y0 : is x (val x0) -> is y (val y0) -> finite (x0 * y0)%float -> is (x * y)%float (val (x0 * y0)%float).
Proof.
  intros [Fx Ex] [Fy Ey] F. destruct (mul_ok _ _ F) as (_ & _ & E).
  assert (F' : finite (x * y)%float). { apply mul_fin; auto. rewrite Ex, Ey, <- E. apply val_bound. }
  split; [exact F'|]. destruct (mul_ok _ _ F') as (_ & _ & ->). now rewrite Ex, Ey, E.
Qed.
Lemma is_mulr1 x y : finite x -> is y 1 -> is (x * y)%float (val x).
Proof. intros F H. pose proof (is_exact_mul _ _ _ _ x (is_leaf _ F) H ltac:(ring)) as K. now rewrite Rmult_1_r in K. Qed.
Lemma is_keep x y r : is x r -> is y 1 -> is (x * y)%float r.
Proof. intros [F <-] H. now apply is_mulr1. Qed.
Ltac is_const := match goal with |- is (float_ofZ 0) 0 => apply is_zero | |- is (float_ofZ 1) 1 => apply is_one | |- is 0%float 0 => apply is_zero | |- is 1%float 1 => apply is_one end.

(* Transform() leaves a point where it is *)
Theorem C81_identity (p : pt float) : finitep p -> valp (t_transform t_new p) = valp p /\ finitep (t_transform t_new p).
Proof.
  intros [Fx Fy]. unfold t_transform, t_new, mat_id, mat_apply. cbn [tmat m00 m01 m02 m10 m11 m12]. ops.
  assert (X : is (float_ofZ 1 * px p + float_ofZ 0 * py p + float_ofZ 0 * float_ofZ 1)%float (val (px p))).
  { apply is_add0; [apply is_add0; [apply is_mul1|apply is_mul0]|apply is_mul0]; try assumption; try apply is_one; apply is_zero. }
  assert (Y : is (float_ofZ 0 * px p + float_ofZ 1 * py p + float_ofZ 0 * float_ofZ 1)%float (val (py p))).
  { apply is_add0; [apply is_0add; [apply is_mul0|apply is_mul1]|apply is_mul0]; try assumption; try apply is_one; apply is_zero. }
  unfold valp, finitep. cbn [px py]. rewrite (proj2 X), (proj2 Y). split; [reflexivity|]. split; [apply X|apply Y].
Qed.
(* Transform().translate(dx, dy) gives the same doubles as adding the vector *)
Theorem C81_translate (p : pt float) (dx dy : float) : finitep p -> finite dx -> finite dy -> finitep (p_add p (V dx dy)) ->
  valp (t_transform (t_translate dx dy t_new) p) = valp (p_add p (V dx dy)).
Proof.
  intros [Fx Fy] Gx Gy [Sx Sy]. cbn [p_add px py vx vy] in Sx, Sy.
  pose proof is_one as I1. pose proof is_zero as I0. change 1%float with (float_ofZ 1) in I1. change 0%float with (float_ofZ 0) in I0.
  assert (M : forall d x : float, finite d -> is x 1 ->
    is (float_ofZ 1 * float_ofZ 1 + float_ofZ 0 * float_ofZ 0 + d * float_ofZ 0)%float 1 /\
    is (float_ofZ 1 * float_ofZ 0 + float_ofZ 0 * float_ofZ 1 + d * float_ofZ 0)%float 0 /\
    is (float_ofZ 0 * float_ofZ 1 + float_ofZ 1 * float_ofZ 0 + d * float_ofZ 0)%float 0 /\
    is (float_ofZ 0 * float_ofZ 0 + float_ofZ 1 * float_ofZ 1 + d * float_ofZ 0)%float 1 /\
    is (float_ofZ 1 * float_ofZ 0 + float_ofZ 0 * float_ofZ 0 + d * float_ofZ 1)%float (val d) /\
    is (float_ofZ 0 * float_ofZ 0 + float_ofZ 1 * float_ofZ 0 + d * float_ofZ 1)%float (val d)).
  { intros d x Fd _. pose proof (is_mul0r d _ Fd I0) as D0. pose proof (is_mulr1 d _ Fd I1) as D1.
    pose proof (is_mul0 _ _ I0 (proj1 I0)) as Z00. pose proof (is_mul0 _ _ I0 (proj1 I1)) as Z01. pose proof (is_mul0r _ _ (proj1 I1) I0) as Z10.
    pose proof (is_mul1 _ _ I1 (proj1 I1)) as Z11. rewrite (proj2 I1) in Z11.
    repeat match goal with |- _ /\ _ => split end.
    - repeat apply is_add0; assumption.
    - repeat apply is_add0; assumption.
    - repeat apply is_add0; assumption.
    - apply is_add0; [apply is_0add|]; assumption.
    - apply is_0add; [apply is_add0|]; assumption.
    - apply is_0add; [apply is_add0|]; assumption. }
  destruct (M dx 1%float Gx is_one) as (A1 & A2 & A3 & A4 & A5 & A6). destruct (M dy 1%float Gy is_one) as (B1 & B2 & B3 & B4 & B5 & B6).
  unfold t_transform, t_translate, t_pre, t_new, mat_id, translate_mat, mat_dot, mat_apply, valp. cbn [tmat m00 m01 m02 m10 m11 m12 m20 m21 m22 px py p_add vx vy]. ops.
  f_equal.
  - apply is_add_like; [|apply is_keep; [exact A5|exact I1]|exact Sx].
    apply is_add0; [apply is_mul1; [exact A1|exact Fx]|apply is_mul0; [exact A2|exact Fy]].
  - apply is_add_like; [|apply is_keep; [exact B6|exact I1]|exact Sy].
    apply is_0add; [apply is_mul0; [exact B3|exact Fx]|apply is_mul1; [exact B4|exact Fy]].
Qed.
(* Transform().scale(sx, sy) multiplies the coordinates *)
Theorem C81_scale (p : pt float) (sx sy : float) : finitep p -> finite sx -> finite sy -> finitep (P (sx * px p) (sy * py p))%float ->
  valp (t_transform (t_scale sx sy t_new) p) = valp (P (sx * px p) (sy * py p))%float.
Proof.
  intros [Fx Fy] Gx Gy [Sx Sy]. cbn [px py] in Sx, Sy.
  pose proof is_one as I1. pose proof is_zero as I0. change 1%float with (float_ofZ 1) in I1. change 0%float with (float_ofZ 0) in I0.
  pose proof (is_mul0 _ _ I0 (proj1 I0)) as Z00. pose proof (is_mul0 _ _ I0 (proj1 I1)) as Z01.
  pose proof (is_mulr1 _ _ Gx I1) as X1. pose proof (is_mul0r _ _ Gx I0) as X0. pose proof (is_mulr1 _ _ Gy I1) as Y1. pose proof (is_mul0r _ _ Gy I0) as Y0.
  unfold t_transform, t_scale, t_pre, t_new, mat_id, scale_mat, mat_dot, mat_apply, valp. cbn [tmat m00 m01 m02 m10 m11 m12 m20 m21 m22 px py]. ops.
  f_equal.
  - apply is_add0; [apply is_add0|].
    + apply is_mul_like; [|apply is_leaf, Fx|exact Sx]. repeat apply is_add0; assumption.
    + apply is_mul0; [|exact Fy]. repeat apply is_add0; assumption.
    + apply is_mul0; [|apply I1]. repeat apply is_add0; assumption.
  - apply is_add0; [apply is_0add|].
    + apply is_mul0; [|exact Fx]. repeat apply is_add0; assumption.
    + apply is_mul_like; [|apply is_leaf, Fy|exact Sy]. apply is_add0; [apply is_0add|]; assumption.
    + apply is_mul0; [|apply I1]. repeat apply is_add0; assumption.
Qed.

(* ------------------------------------------------------------------ *)
(** ** curves *)

Lemma exact_in_hull (a b c d t : R) (lo hi : R) : 0 <= t <= 1 -> lo <= a <= hi -> lo <= b <= hi -> lo <= c <= hi -> lo <= d <= hi ->
  let s := 1 - t in lo <= s * (s * s) * a + 3 * (s * s * t) * b + 3 * (s * (t * t)) * c + t * (t * t) * d <= hi.
Proof.
  intros Ht Ha Hb Hc Hd s. assert (0 <= s) by (unfold s; lra).
  assert (W : s * (s * s) + 3 * (s * s * t) + 3 * (s * (t * t)) + t * (t * t) = 1) by (unfold s; ring).
  assert (W0 : 0 <= s * (s * s)) by (repeat apply Rmult_le_pos; lra).
  assert (W1 : 0 <= 3 * (s * s * t)) by (repeat apply Rmult_le_pos; lra).
  assert (W2 : 0 <= 3 * (s * (t * t))) by (repeat apply Rmult_le_pos; lra).
  assert (W3 : 0 <= t * (t * t)) by (repeat apply Rmult_le_pos; lra).
  set (w0 := s * (s * s)) in *. set (w1 := 3 * (s * s * t)) in *. set (w2 := 3 * (s * (t * t))) in *. set (w3 := t * (t * t)) in *.
  assert (L : forall w z, 0 <= w -> lo <= z <= hi -> w * lo <= w * z <= w * hi).
  { intros w z Hw Hz. split; apply Rmult_le_compat_l; lra. }
  pose proof (L w0 a W0 Ha). pose proof (L w1 b W1 Hb). pose proof (L w2 c W2 Hc). pose proof (L w3 d W3 Hd).
  replace lo with (w0 * lo + w1 * lo + w2 * lo + w3 * lo) by (replace (w0 * lo + w1 * lo + w2 * lo + w3 * lo) with ((w0 + w1 + w2 + w3) * lo) by ring; rewrite W; ring).
  replace hi with (w0 * hi + w1 * hi + w2 * hi + w3 * hi) by (replace (w0 * hi + w1 * hi + w2 * hi + w3 * hi) with ((w0 + w1 + w2 + w3) * hi) by ring; rewrite W; ring).
  lra.
Qed.
(* Sampled points of a curve are in any box of its control points, up to the rounding. *)
Theorem C81_samples_in_box (a b c d : pt float) (steps : Z) (xl yl xh yh m : R) (q : float * float) : (0 < steps <= 2 ^ 53)%Z ->
  (forall p, In p [a; b; c; d] -> xl <= val (px p) <= xh /\ yl <= val (py p) <= yh) ->
  (forall p, In p [a; b; c; d] -> Rabs (val (px p)) <= m /\ Rabs (val (py p)) <= m) ->
  In q (bez_xy a b c d steps) -> finite (fst q) -> finite (snd q) ->
  let slack := 11 * eps * (m + 4 * tiny) in
  xl - slack <= val (fst q) <= xh + slack /\ yl - slack <= val (snd q) <= yh + slack.
Proof.
  intros Hs Hb Hm I Fx Fy. cbv zeta. apply In_nth_error in I as [k Hk].
  destruct (C79_samples a b c d steps m Hs Hm) as [_ N]. destruct (N k q Hk) as (t & Ht & _ & Nx & Ny). specialize (Nx Fx). specialize (Ny Fy).
  destruct (Hb a) as [Hax Hay]; [cbn; auto|]. destruct (Hb b) as [Hbx Hby]; [cbn; auto|].
  destruct (Hb c) as [Hcx Hcy]; [cbn; auto|]. destruct (Hb d) as [Hdx Hdy]; [cbn; auto 6|].
  unfold bez_at in Nx, Ny. cbn [fst snd valp px py] in Nx, Ny. ops_in Nx. ops_in Ny.
  pose proof (exact_in_hull _ _ _ _ t xl xh Ht Hax Hbx Hcx Hdx) as X. pose proof (exact_in_hull _ _ _ _ t yl yh Ht Hay Hby Hcy Hdy) as Y. cbv zeta in X, Y.
  apply Rabs_le_inv in Nx, Ny. lra.
Qed.
(* without the slack it fails: all four control points at (0.1, 0.1), a sample to the right of it *)
Theorem C81_samples_exact_refuted : exists (p : pt float) (steps : Z) (q : float * float),
  (0 < steps <= 2 ^ 53)%Z /\ finitep p /\ In q (bez_xy p p p p steps) /\ finite (fst q) /\ val (px p) < val (fst q).
Proof.
  exists (P 0.1 0.1)%float, 5%Z. eexists. split; [split; [reflexivity|vm_compute; discriminate]|]. split; [split; reflexivity|].
  split; [right; left; reflexivity|].
  assert (F : finite (fst (bez_at (P 0.1 0.1) (P 0.1 0.1) (P 0.1 0.1) (P 0.1 0.1) (nofZ (Z.of_nat 1) / nofZ 5)%num))%float) by reflexivity.
  split; [exact F|].
  assert (F1 : finite 0.1%float) by reflexivity.
  pose proof (ltb_ok 0.1%float _ F1 F) as L. cbn [px].
  match type of L with ?l = _ => assert (T0 : l = true) by (vm_compute; reflexivity); rewrite T0 in L end.
  symmetry in L. unfold Rltb in L. destruct (Rlt_dec _ _) as [H|H] in L; [exact H|discriminate].
Qed.

Lemma val_abs x : val (PrimFloat.abs x) = Rabs (val x) /\ (finite x -> finite (PrimFloat.abs x)).
Proof. unfold val. rewrite !finite_B, abs_equiv, B2R_Babs, is_finite_Babs. auto. Qed.
Lemma moderate_small x : finite x -> PrimFloat.leb (PrimFloat.abs x) (float_ofZ (2 ^ 53)) = true -> moderate x.
Proof.
  intros F H. split; [exact F|]. destruct (val_abs x) as [V A]. destruct (const_ok (2 ^ 53)) as [Fc Vc]; [vm_compute; discriminate|].
  rewrite leb_ok in H by auto. rewrite V, Vc in H. unfold Rleb in H. destruct (Rle_dec _ _) as [L|L] in H; [|discriminate].
  eapply Rle_lt_trans; [exact L|]. change (IZR (2 ^ 53)) with (bpow radix2 53). apply bpow_lt. lia.
Qed.
Lemma different x y : finite x -> finite y -> PrimFloat.eqb x y = false -> val x <> val y.
Proof. intros F G H. rewrite eqb_ok in H by assumption. unfold Reqb in H. destruct (Req_EM_T _ _) in H; [discriminate|assumption]. Qed.
Lemma before x y : finite x -> finite y -> PrimFloat.ltb x y = true -> val x < val y.
Proof. intros F G H. rewrite ltb_ok in H by assumption. unfold Rltb in H. destruct (Rlt_dec _ _) in H; [assumption|discriminate]. Qed.

(* the end of a morph is not exact: from 1 to 1e-17, at t = 1 the point is at 0 *)
Theorem C81_morph_end_refuted : exists (now lo hi : cpoint float), moderate_cp lo /\ moderate_cp hi /\
  place (cp_between 1%float now lo hi) <> place hi.
Proof.
  pose (z := (V 0 0)%float). exists (CP (P 1 0) z z "smooth")%float, (CP (P 1 0) z z "smooth")%float, (CP (P 1e-17 0) z z "smooth")%float.
  split; [repeat constructor; apply moderate_small; reflexivity|]. split; [repeat constructor; apply moderate_small; reflexivity|].
  intros H. apply (f_equal (fun x => px (fst (fst x)))) in H. cbn [place fst valp px cc] in H. revert H.
  apply different; [reflexivity|reflexivity|]. vm_compute. reflexivity.
Qed.
(* and when the distance overflows, the start is lost as well: nan at t = 0 *)
Theorem C81_morph_overflow_refuted : exists (now lo hi : cpoint float),
  Forall (fun co => finite (co lo) /\ finite (co hi)) coords /\ ~ finite (px (cc (cp_between 0%float now lo hi))).
Proof.
  pose (z := (V 0 0)%float). exists (CP (P (-1e308) 0) z z "smooth")%float, (CP (P (-1e308) 0) z z "smooth")%float, (CP (P 1e308 0) z z "smooth")%float.
  split; [repeat constructor|]. unfold finite. vm_compute. discriminate.
Qed.
(* three key curves, the second at time 0.1: shown exactly *)
Definition one_cp (x y : float) : list (cpoint float) := [CP (P x y) (V 0 0)%float (V 0 0)%float "smooth"%string].
Definition some_multi : multi float :=
  let b : ebase float := EB "a" (PenBrush None None) true t_new in
  Multi [0; 0.1; 1]%float [one_cp 0.1 0.1; one_cp 0.7 0.3; one_cp (-5) 2e-30]%float b (one_cp 0.1 0.1)%float
        (fun cps => ELeaf b (SCurve cps)).
Lemma one_cp_moderate x y : moderate x -> moderate y -> Forall moderate_cp (one_cp x y).
Proof. intros H G. repeat constructor; auto; (first [apply H|apply G|reflexivity|idtac]); cbn [cdl cdr vx vy]; replace (val 0%float) with 0 by (symmetry; apply is_zero); rewrite Rabs_R0; apply bpow_gt_0. Qed.
Example C81_example_keys : exists m', mm_update (fun t => Ok t) (TNum 0.1%float) some_multi = Ok m' /\
  map place (mm_now m') = map place (one_cp 0.7 0.3).
Proof.
  destruct (C81_keys (fun t => Ok t) (TNum 0.1%float) some_multi 1 0.1%float 0.1%float (one_cp 0.7 0.3)%float) as (m' & E & H & _); try reflexivity.
  - repeat constructor; apply moderate_small; reflexivity.
  - cbn [some_multi mm_steps map]. repeat constructor; apply before; reflexivity.
  - repeat (apply Forall_cons; [apply one_cp_moderate; apply moderate_small; reflexivity|]). apply Forall_nil.
  - repeat (apply Forall_cons; [reflexivity|]). apply Forall_nil.
  - now left.
  - exists m'. auto.
Qed.
(* and the finite cases of the other theorems *)
Example C81_example_linear : finitep (P 0.1 0.2)%float /\ finitep (P 1e300 (-3))%float.
Proof. repeat split. Qed.
Example C81_example_morph : let z := (V 0.1 0.2)%float in moderate_cp (CP (P 0.1 0.3) z z "smooth")%float.
Proof. repeat constructor; apply moderate_small; reflexivity. Qed.
Example C81_example_translate : finitep (P 0.1 0.2)%float /\ finitep (p_add (P 0.1 0.2) (V 0.7 1e-3))%float /\ finitep (P (3.3 * 0.1) (7 * 0.2))%float.
Proof. repeat split. Qed.
Example C81_example_centre : exists c, bbox_center (BB 0.1 0.1 0.3 0.7)%float = Ok c /\ finitep c /\ finitep (p_mid (P 0.1 0.1) (P 0.3 0.7))%float.
Proof. eexists. split; [reflexivity|]. repeat split. Qed.
