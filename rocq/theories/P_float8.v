(* Property theorems C79, continued: rotations on doubles.  How accurate math.sin and math.cos are
   is a parameter, as the accuracy of math.hypot is in P_float7. *)
From Coq Require Import Reals Floats ZArith List Lra Lia String.
From Flocq Require Import Core BinarySingleNaN PrimFloat Relative.
Require Import Verif.Base Verif.NumFloat Verif.NumR Verif.M_vector Verif.M_bbox Verif.M_transform Verif.M_utils.
Require Import Verif.S_float Verif.L_float Verif.L_float2 Verif.P_float Verif.P_float2 Verif.P_float3 Verif.P_float5 Verif.P_float6 Verif.P_float7.
Import ListNotations.
Set Warnings "-inexact-float".
Local Open Scope R_scope.

(* math.pi is rounded correctly; math.sin and math.cos are off by at most k half-units of 1, and
   give no number for an infinite argument or nan *)
Definition accurate_trig (k : nat) (TF : NumTrig float) : Prop :=
  (finite npi /\ Rabs (val npi - PI) <= eps * PI) /\
  forall x : float, (finite (nsin x) -> finite x /\ Rabs (val (nsin x) - sin (val x)) <= INR k * eps) /\
                    (finite (ncos x) -> finite x /\ Rabs (val (ncos x) - cos (val x)) <= INR k * eps).

Definition norm (x y : R) : R := R_sqrt.sqrt (x * x + y * y).

(* ---------------- sines and cosines ---------------- *)

Lemma sin_abs x : Rabs (sin x) <= Rabs x.
Proof.
  destruct (Rtotal_order x 0) as [H|[->|H]].
  - rewrite <- (Rabs_Ropp x), <- (Rabs_Ropp (sin x)), <- sin_neg.
    destruct (Rle_dec (- x) 1) as [L|L].
    + pose proof (sin_lt_x (- x)). assert (0 <= sin (- x)) by (apply sin_ge_0; pose proof PI2_1; lra).
      rewrite !Rabs_right; lra.
    + rewrite (Rabs_right (- x)) by lra. pose proof (SIN_bound (- x)). apply Rle_trans with 1; [apply Rabs_le|]; lra.
  - rewrite sin_0. lra.
  - destruct (Rle_dec x 1) as [L|L].
    + pose proof (sin_lt_x x H). assert (0 <= sin x) by (apply sin_ge_0; pose proof PI2_1; lra).
      rewrite !Rabs_right; lra.
    + rewrite (Rabs_right x) by lra. pose proof (SIN_bound x). apply Rle_trans with 1; [apply Rabs_le|]; lra.
Qed.
Lemma sin_lip a b : Rabs (sin a - sin b) <= Rabs (a - b).
Proof.
  rewrite form4, !Rabs_mult, (Rabs_right 2) by lra.
  pose proof (sin_abs ((a - b) / 2)) as S. pose proof (COS_bound ((a + b) / 2)) as C.
  assert (Rabs (cos ((a + b) / 2)) <= 1) by (apply Rabs_le; lra).
  replace (Rabs (a - b)) with (2 * 1 * Rabs ((a - b) / 2)).
  - apply Rmult_le_compat; [|apply Rabs_pos| |exact S]; pose proof (Rabs_pos (cos ((a + b) / 2))); lra.
  - unfold Rdiv. rewrite Rabs_mult, (Rabs_right (/ 2)) by lra. lra.
Qed.
Lemma cos_lip a b : Rabs (cos a - cos b) <= Rabs (a - b).
Proof.
  rewrite !cos_sin. eapply Rle_trans; [apply sin_lip|]. replace (PI / 2 + a - (PI / 2 + b)) with (a - b) by ring. lra.
Qed.

Lemma radians_err {TF : NumTrig float} k (d : float) : accurate_trig k TF -> finite (radians d) ->
  Rabs (val (radians d) - radians (val d)) <= (1 + Rabs (val d) / 10) * eps.
Proof.
  intros [[F B] _] Fr. pose proof PI_RGT_0. pose proof eps_pos. pose proof tiny_pos.
  assert (N : near 1 PI npi PI).
  { split; [rewrite Rabs_right; lra|]. intros _. cbn [pow]. replace ((1 + eps) * 1 - 1) with eps by ring. exact B. }
  unfold radians in *. ops_in Fr. ops. cbn [nofZ NumFloat NumR npi TrigR] in *.
  destruct (const_ok 180) as [F180 E180]; [vm_compute; discriminate|].
  pose proof (near_div _ _ _ (float_ofZ 180) _ F180 ltac:(rewrite E180; lra) N) as D. rewrite E180 in D.
  pose proof (near_mul _ _ _ _ _ _ _ _ (near_leaf d) D) as M'.
  assert (R180 : Rabs 180 = 180) by (apply Rabs_right; lra). rewrite R180 in M'.
  pose proof (near_use _ _ _ _ 4 (Rabs (val d) * (PI / 180 + tiny) + tiny) M' ltac:(lia) ltac:(cbn; lra) ltac:(lra) Fr) as U.
  eapply Rle_trans; [exact U|]. pose proof (Rabs_pos (val d)) as Dp.
  assert (T : tiny <= / 100000).
  { pose proof tiny_le. assert (/ 2 ^ 60 <= / 100000) by (apply Rinv_le_contravar; [lra|]; cbv [pow]; lra). lra. }
  pose proof PI_4 as P4.
  assert (Rabs (val d) * (PI / 180 + tiny) <= Rabs (val d) * / 40) by (apply Rmult_le_compat_l; lra).
  assert (4 * (Rabs (val d) * (PI / 180 + tiny) + tiny) <= 1 + Rabs (val d) / 10) by lra.
  replace (4 * eps * (Rabs (val d) * (PI / 180 + tiny) + tiny)) with (4 * (Rabs (val d) * (PI / 180 + tiny) + tiny) * eps) by ring.
  apply Rmult_le_compat_r; lra.
Qed.

Lemma sin_err {TF : NumTrig float} k m (d : float) : accurate_trig k TF -> Rabs (val d) <= m -> finite (nsin (radians d)) ->
  Rabs (val (nsin (radians d)) - sin (radians (val d))) <= (INR k + 1 + m / 10) * eps.
Proof.
  intros A L F. destruct (proj1 (proj2 A (radians d)) F) as [Fr B]. pose proof (radians_err k d A Fr) as C.
  pose proof (sin_lip (val (radians d)) (radians (val d))) as D. pose proof eps_pos.
  replace (val (nsin (radians d)) - sin (radians (val d))) with
    ((val (nsin (radians d)) - sin (val (radians d))) + (sin (val (radians d)) - sin (radians (val d)))) by ring.
  eapply Rle_trans; [apply Rabs_triang|].
  assert ((1 + Rabs (val d) / 10) * eps <= (1 + m / 10) * eps) by (apply Rmult_le_compat_r; lra). lra.
Qed.
Lemma cos_err {TF : NumTrig float} k m (d : float) : accurate_trig k TF -> Rabs (val d) <= m -> finite (ncos (radians d)) ->
  Rabs (val (ncos (radians d)) - cos (radians (val d))) <= (INR k + 1 + m / 10) * eps.
Proof.
  intros A L F. destruct (proj2 (proj2 A (radians d)) F) as [Fr B]. pose proof (radians_err k d A Fr) as C.
  pose proof (cos_lip (val (radians d)) (radians (val d))) as D. pose proof eps_pos.
  replace (val (ncos (radians d)) - cos (radians (val d))) with
    ((val (ncos (radians d)) - cos (val (radians d))) + (cos (val (radians d)) - cos (radians (val d)))) by ring.
  eapply Rle_trans; [apply Rabs_triang|].
  assert ((1 + Rabs (val d) / 10) * eps <= (1 + m / 10) * eps) by (apply Rmult_le_compat_r; lra). lra.
Qed.

(* ---------------- lengths ---------------- *)

Lemma norm_pos x y : 0 <= norm x y. Proof. apply sqrt_pos. Qed.
Lemma norm_sq x y : norm x y * norm x y = x * x + y * y.
Proof. apply sqrt_sqrt. nra. Qed.
Lemma norm_triangle a b c d : norm (a + c) (b + d) <= norm a b + norm c d.
Proof.
  pose proof (triangle (a + c) (b + d) 0 0 c d) as T. unfold dist_euc, Rsqr in T. unfold norm.
  replace (a + c - 0) with (a + c) in T by ring. replace (b + d - 0) with (b + d) in T by ring.
  replace (a + c - c) with a in T by ring. replace (b + d - d) with b in T by ring.
  replace (c - 0) with c in T by ring. replace (d - 0) with d in T by ring. exact T.
Qed.
Lemma norm_sum a b : norm a b <= Rabs a + Rabs b.
Proof.
  pose proof (Rabs_pos a). pose proof (Rabs_pos b). unfold norm. rewrite <- (sqrt_square (Rabs a + Rabs b)) by lra.
  apply sqrt_le_1_alt. assert (a * a = Rabs a * Rabs a) by (rewrite <- Rabs_mult, Rabs_right; nra).
  assert (b * b = Rabs b * Rabs b) by (rewrite <- Rabs_mult, Rabs_right; nra). nra.
Qed.
Lemma sum_norm a b : Rabs a + Rabs b <= 3 / 2 * norm a b.
Proof.
  pose proof (Rabs_pos a). pose proof (Rabs_pos b). pose proof (norm_pos a b). pose proof (norm_sq a b) as Q.
  assert (A : a * a = Rabs a * Rabs a) by (rewrite <- Rabs_mult, Rabs_right; nra).
  assert (B : b * b = Rabs b * Rabs b) by (rewrite <- Rabs_mult, Rabs_right; nra). rewrite A, B in Q.
  pose proof (Rle_0_sqr (Rabs a - Rabs b)) as D. unfold Rsqr in D.
  apply Rnot_lt_le. intros C. assert ((3 / 2 * norm a b) * (3 / 2 * norm a b) < (Rabs a + Rabs b) * (Rabs a + Rabs b)) by (apply Rmult_le_0_lt_compat; lra). nra.
Qed.
Lemma norm_turn c s a b : norm (c * a + s * b) (- s * a + c * b) = norm c s * norm a b.
Proof. unfold norm. rewrite <- sqrt_mult by nra. f_equal. ring. Qed.
Lemma norm_turn_ccw c s a b : norm (c * a + - s * b) (s * a + c * b) = norm c s * norm a b.
Proof. unfold norm. rewrite <- sqrt_mult by nra. f_equal. ring. Qed.
Lemma norm_unit x : norm (cos x) (sin x) = 1.
Proof. unfold norm. replace (cos x * cos x + sin x * sin x) with 1; [apply sqrt_1|]. pose proof (sin2_cos2 x) as H. unfold Rsqr in H. lra. Qed.

(* ---------------- one column of the matrix, one call ---------------- *)

(* three products and two sums, from doubles *)
Lemma dot3_err (a b c x y z : float) : finite (a * x + b * y + c * z)%float ->
  finite a /\ finite b /\ finite c /\ finite x /\ finite y /\ finite z /\
  Rabs (val (a * x + b * y + c * z)%float - (val a * val x + val b * val y + val c * val z)) <=
    4 * eps * (Rabs (val a) * Rabs (val x) + Rabs (val b) * Rabs (val y) + Rabs (val c) * Rabs (val z) + 3 * tiny).
Proof.
  intros F. destruct (add_ok _ _ F) as (F1 & F2 & _). destruct (add_ok _ _ F1) as (F3 & F4 & _).
  destruct (mul_ok _ _ F2) as (? & ? & _). destruct (mul_ok _ _ F3) as (? & ? & _). destruct (mul_ok _ _ F4) as (? & ? & _).
  repeat (split; [assumption|]).
  pose proof (near_dot3 _ _ _ _ _ _ _ _ _ _ _ _ _ _ _ _ _ _ _ _ (near_leaf a) (near_leaf b) (near_leaf c) (near_leaf x) (near_leaf y) (near_leaf z)) as N.
  eapply (near_use _ _ _ _ 4 _ N); [lia|cbn; lra|apply Rle_refl|exact F].
Qed.
(* a turn, exact or not *)
Lemma turn_step (K S e : R) (cx sx X Y x y : R) (c s : R) (r1 r2 : R) : 0 <= K -> K * eps <= / 8 ->
  norm cx sx = 1 -> Rabs (c - cx) <= K * eps -> Rabs (s - sx) <= K * eps -> norm X Y <= S -> norm (x - X) (y - Y) <= e ->
  Rabs (r1 - (c * x + s * y)) <= 4 * eps * (Rabs c * Rabs x + Rabs s * Rabs y + 3 * tiny) ->
  Rabs (r2 - (- s * x + c * y)) <= 4 * eps * (Rabs s * Rabs x + Rabs c * Rabs y + 3 * tiny) ->
  norm (cx * X + sx * Y) (- sx * X + cx * Y) <= S + 2 * tiny /\
  norm (r1 - (cx * X + sx * Y)) (r2 - (- sx * X + cx * Y)) <= e + (2 * K + 14) * eps * (S + e + 2 * tiny).
Proof.
  intros HK Kb U Hc Hs HS He H1 H2. pose proof eps_pos as E. pose proof tiny_pos as Ty.
  pose proof (norm_pos x y) as Np. pose proof (norm_pos (x - X) (y - Y)) as Ep. pose proof (norm_pos X Y) as Sp.
  split; [rewrite norm_turn, U; lra|].
  assert (N : norm x y <= S + e).
  { replace x with (X + (x - X)) by ring. replace y with (Y + (y - Y)) by ring. eapply Rle_trans; [apply norm_triangle|lra]. }
  assert (Ux : forall a b, norm a b = 1 -> Rabs a <= 1).
  { intros a b Ha. pose proof (norm_sq a b) as Q. rewrite Ha in Q. apply Rabs_le. split; nra. }
  assert (Cx : Rabs cx <= 1) by (eapply Ux; exact U).
  assert (Sx : Rabs sx <= 1) by (apply (Ux sx cx); rewrite <- U; unfold norm; f_equal; ring).
  assert (Cb : Rabs c <= 9 / 8) by (replace c with ((c - cx) + cx) by ring; eapply Rle_trans; [apply Rabs_triang|lra]).
  assert (Sb : Rabs s <= 9 / 8) by (replace s with ((s - sx) + sx) by ring; eapply Rle_trans; [apply Rabs_triang|lra]).
  replace (r1 - (cx * X + sx * Y)) with ((r1 - (c * x + s * y)) + (((c - cx) * x + (s - sx) * y) + (cx * (x - X) + sx * (y - Y)))) by ring.
  replace (r2 - (- sx * X + cx * Y)) with ((r2 - (- s * x + c * y)) + ((- (s - sx) * x + (c - cx) * y) + (- sx * (x - X) + cx * (y - Y)))) by ring.
  eapply Rle_trans; [apply norm_triangle|]. 
  assert (T1 : norm (r1 - (c * x + s * y)) (r2 - (- s * x + c * y)) <= 14 * eps * (norm x y + 2 * tiny)).
  { eapply Rle_trans; [apply norm_sum|]. eapply Rle_trans; [apply Rplus_le_compat; [exact H1|exact H2]|].
    pose proof (sum_norm x y) as Q. pose proof (Rabs_pos x). pose proof (Rabs_pos y).
    assert (G : forall a b, Rabs a <= 9 / 8 -> 0 <= b -> Rabs a * b <= 9 / 8 * b) by (intros; apply Rmult_le_compat_r; lra).
    pose proof (G c (Rabs x) Cb ltac:(lra)). pose proof (G s (Rabs y) Sb ltac:(lra)). pose proof (G s (Rabs x) Sb ltac:(lra)). pose proof (G c (Rabs y) Cb ltac:(lra)).
    rewrite <- Rmult_plus_distr_l. rewrite (Rmult_comm 4 eps), (Rmult_comm 14 eps), !Rmult_assoc. apply Rmult_le_compat_l; lra. }
  assert (T2 : norm ((c - cx) * x + (s - sx) * y) (- (s - sx) * x + (c - cx) * y) <= 2 * K * eps * norm x y).
  { rewrite norm_turn. apply Rmult_le_compat_r; [exact Np|]. eapply Rle_trans; [apply norm_sum|lra]. }
  assert (T3 : norm (cx * (x - X) + sx * (y - Y)) (- sx * (x - X) + cx * (y - Y)) <= e) by (rewrite norm_turn, U; lra).
  pose proof (norm_triangle ((c - cx) * x + (s - sx) * y) (- (s - sx) * x + (c - cx) * y) (cx * (x - X) + sx * (y - Y)) (- sx * (x - X) + cx * (y - Y))) as T4.
  assert (2 * K * eps * norm x y <= 2 * K * eps * (S + e + 2 * tiny)) by (apply Rmult_le_compat_l; nra).
  assert (14 * eps * (norm x y + 2 * tiny) <= 14 * eps * (S + e + 2 * tiny)) by (apply Rmult_le_compat_l; lra).
  lra.
Qed.
Lemma shift_step (K S e Z : R) (X Y x y dx dy : R) (r1 r2 : R) : 0 <= K -> 0 <= Z <= 1 ->
  norm X Y <= S -> norm (x - X) (y - Y) <= e ->
  Rabs (r1 - (x + dx * Z)) <= 4 * eps * (Rabs x + Rabs dx * Z + 3 * tiny) ->
  Rabs (r2 - (y + dy * Z)) <= 4 * eps * (Rabs y + Rabs dy * Z + 3 * tiny) ->
  norm (X + dx * Z) (Y + dy * Z) <= S + Z * (Rabs dx + Rabs dy) + 2 * tiny /\
  norm (r1 - (X + dx * Z)) (r2 - (Y + dy * Z)) <= e + (2 * K + 14) * eps * (S + e + Z * (Rabs dx + Rabs dy) + 2 * tiny).
Proof.
  intros HK HZ HS He H1 H2. pose proof eps_pos as E. pose proof tiny_pos as Ty.
  pose proof (norm_pos x y) as Np. pose proof (norm_pos (x - X) (y - Y)) as Ep. pose proof (norm_pos X Y) as Sp.
  assert (D : norm (dx * Z) (dy * Z) <= Z * (Rabs dx + Rabs dy)).
  { eapply Rle_trans; [apply norm_sum|]. rewrite !Rabs_mult, (Rabs_right Z) by lra. lra. }
  split; [eapply Rle_trans; [apply norm_triangle|lra]|].
  assert (N : norm x y <= S + e).
  { replace x with (X + (x - X)) by ring. replace y with (Y + (y - Y)) by ring. eapply Rle_trans; [apply norm_triangle|lra]. }
  replace (r1 - (X + dx * Z)) with ((r1 - (x + dx * Z)) + (x - X)) by ring.
  replace (r2 - (Y + dy * Z)) with ((r2 - (y + dy * Z)) + (y - Y)) by ring.
  eapply Rle_trans; [apply norm_triangle|].
  assert (T1 : norm (r1 - (x + dx * Z)) (r2 - (y + dy * Z)) <= 14 * eps * (S + e + Z * (Rabs dx + Rabs dy) + 2 * tiny)).
  { eapply Rle_trans; [apply norm_sum|]. eapply Rle_trans; [apply Rplus_le_compat; [exact H1|exact H2]|].
    pose proof (sum_norm x y) as Q. pose proof (Rabs_pos dx). pose proof (Rabs_pos dy).
    assert (0 <= Z * (Rabs dx + Rabs dy)) by (apply Rmult_le_pos; lra).
    rewrite <- Rmult_plus_distr_l. rewrite (Rmult_comm 4 eps), (Rmult_comm 14 eps), !Rmult_assoc. apply Rmult_le_compat_l; lra. }
  assert (0 <= 2 * K * eps * (S + e + Z * (Rabs dx + Rabs dy) + 2 * tiny)).
  { pose proof (Rabs_pos dx). pose proof (Rabs_pos dy).
    assert (0 <= Z * (Rabs dx + Rabs dy)) by (apply Rmult_le_pos; lra). apply Rmult_le_pos; [apply Rmult_le_pos|]; lra. }
  lra.
Qed.

(* ---------------- any number of calls ---------------- *)

(* moves and turns by at most m degrees; calls that do not change the matrix *)
Definition rigid (m : R) (o : top float) : Prop :=
  match o with
  | OTranslate _ _ | OPush | OTransform _ => True
  | ORotate d | ORotateCcw d => Rabs (val d) <= m
  | _ => False
  end.
(* the way that the calls move *)
Fixpoint way (calls : list (top float)) : R :=
  match calls with
  | [] => 0
  | OTranslate dx dy :: r => Rabs (val dx) + Rabs (val dy) + way r
  | _ :: r => way r
  end.

Definition colinv (a : R) (n : nat) (S : R) (x y z : float) (X Y Z : R) : Prop :=
  norm X Y <= S /\ (finite z -> val z = Z) /\
  (finite x -> finite y -> norm (val x - X) (val y - Y) <= ((1 + a) ^ n - 1) * S).
Lemma colinv_step a n S S' d (x y z x' y' z' : float) X Y Z X' Y' : 0 <= a -> 0 <= S -> S + d + 2 * tiny = S' -> 0 <= d ->
  colinv a n S x y z X Y Z ->
  (finite x' -> finite y' -> finite x /\ finite y /\ finite z) -> (finite z' -> val z' = Z) ->
  norm X' Y' <= S' ->
  (finite x' -> finite y' -> forall e, norm (val x - X) (val y - Y) <= e -> norm (val x' - X') (val y' - Y') <= e + a * (S + e + d + 2 * tiny)) ->
  colinv a (Datatypes.S n) S' x' y' z' X' Y' Z.
Proof.
  intros Ha HS <- Hd (A & B & C) Hf Hz HN He. split; [exact HN|]. split; [exact Hz|]. intros F1 F2.
  destruct (Hf F1 F2) as (Fx & Fy & _). specialize (C Fx Fy). specialize (He F1 F2 _ C).
  eapply Rle_trans; [exact He|]. cbn [pow]. pose proof tiny_pos.
  assert (1 <= (1 + a) ^ n) by (apply pow_R1_Rle; lra). set (g := (1 + a) ^ n) in *. clearbody g. clear C He A B HN.
  assert (0 <= (g - 1) * (d + 2 * tiny)) by (apply Rmult_le_pos; lra).
  assert (0 <= a * ((g - 1) * (d + 2 * tiny))) by (apply Rmult_le_pos; lra). lra.
Qed.

Lemma last_row (x y z : float) : finite (float_ofZ 0 * x + float_ofZ 0 * y + float_ofZ 1 * z)%float ->
  finite z /\ val (float_ofZ 0 * x + float_ofZ 0 * y + float_ofZ 1 * z)%float = val z.
Proof.
  intros F. destruct (const_ok 0) as [_ E0]; [vm_compute; discriminate|]. destruct (const_ok 1) as [_ E1]; [vm_compute; discriminate|].
  destruct (add_ok _ _ F) as (F1 & F2 & ->). destruct (add_ok _ _ F1) as (F3 & F4 & ->).
  destruct (mul_ok _ _ F2) as (_ & Fz & ->). destruct (mul_ok _ _ F3) as (_ & _ & ->). destruct (mul_ok _ _ F4) as (_ & _ & ->).
  split; [exact Fz|]. rewrite E0, E1, !Rmult_0_l, Rmult_1_l, !rnd_zero, rnd_val, Rplus_0_r, rnd_zero, Rplus_0_l. apply rnd_val.
Qed.

Section Steps.
  Context {TF : NumTrig float} (k : nat) (m : R).
  Hypothesis Acc : accurate_trig k TF.
  Let K : R := INR k + 1 + m / 10.
  Let a : R := (2 * K + 14) * eps.
  Hypothesis Kb : K * eps <= / 8.

  Lemma colinv_turn n S d x y z X Y Z : Rabs (val d) <= m -> 0 <= S -> colinv a n S x y z X Y Z ->
    colinv a (Datatypes.S n) (S + 2 * tiny)
      (ncos (radians d) * x + nsin (radians d) * y + float_ofZ 0 * z)%float
      (- nsin (radians d) * x + ncos (radians d) * y + float_ofZ 0 * z)%float
      (float_ofZ 0 * x + float_ofZ 0 * y + float_ofZ 1 * z)%float
      (cos (radians (val d)) * X + sin (radians (val d)) * Y) (- sin (radians (val d)) * X + cos (radians (val d)) * Y) Z.
  Proof.
    intros L HS H. destruct (const_ok 0) as [_ E0]; [vm_compute; discriminate|].
    pose proof eps_pos. pose proof tiny_pos. pose proof (pos_INR k). pose proof (Rabs_pos (val d)).
    assert (HK : 0 <= K) by (unfold K; lra). assert (Ha : 0 <= a) by (unfold a; apply Rmult_le_pos; lra).
    apply (colinv_step a n S _ 0 x y z _ _ _ X Y Z _ _ Ha HS); [ring|lra|exact H| | | |].
    - intros F1 F2. destruct (dot3_err _ _ _ _ _ _ F1) as (? & ? & ? & ? & ? & ? & _). auto.
    - intros F. destruct (last_row _ _ _ F) as [Fz ->]. apply H, Fz.
    - rewrite norm_turn, norm_unit. pose proof (proj1 H). lra.
    - intros F1 F2 e He. destruct (dot3_err _ _ _ _ _ _ F1) as (Fc & Fs & _ & Fx & Fy & Fz & D1).
      destruct (dot3_err _ _ _ _ _ _ F2) as (_ & _ & _ & _ & _ & _ & D2).
      rewrite E0, Rabs_R0, !Rmult_0_l, !Rplus_0_r in D1, D2. rewrite (proj2 (opp_ok _)), Rabs_Ropp in D2.
      rewrite Rplus_0_r.
      eapply (turn_step K S e _ _ X Y (val x) (val y) (val (ncos (radians d))) (val (nsin (radians d)))); eauto using norm_unit.
      + eapply cos_err; eauto.
      + eapply sin_err; eauto.
      + apply H.
  Qed.
  Lemma colinv_turn_ccw n S d x y z X Y Z : Rabs (val d) <= m -> 0 <= S -> colinv a n S x y z X Y Z ->
    colinv a (Datatypes.S n) (S + 2 * tiny)
      (ncos (radians d) * x + - nsin (radians d) * y + float_ofZ 0 * z)%float
      (nsin (radians d) * x + ncos (radians d) * y + float_ofZ 0 * z)%float
      (float_ofZ 0 * x + float_ofZ 0 * y + float_ofZ 1 * z)%float
      (cos (radians (val d)) * X + - sin (radians (val d)) * Y) (sin (radians (val d)) * X + cos (radians (val d)) * Y) Z.
  Proof.
    intros L HS H. destruct (const_ok 0) as [_ E0]; [vm_compute; discriminate|].
    pose proof eps_pos. pose proof tiny_pos. pose proof (pos_INR k). pose proof (Rabs_pos (val d)).
    assert (HK : 0 <= K) by (unfold K; lra). assert (Ha : 0 <= a) by (unfold a; apply Rmult_le_pos; lra).
    apply (colinv_step a n S _ 0 x y z _ _ _ X Y Z _ _ Ha HS); [ring|lra|exact H| | | |].
    - intros F1 F2. destruct (dot3_err _ _ _ _ _ _ F1) as (? & ? & ? & ? & ? & ? & _). auto.
    - intros F. destruct (last_row _ _ _ F) as [Fz ->]. apply H, Fz.
    - rewrite norm_turn_ccw, norm_unit. pose proof (proj1 H). lra.
    - intros F1 F2 e He. destruct (dot3_err _ _ _ _ _ _ F1) as (Fc & Fs & _ & Fx & Fy & Fz & D1).
      destruct (dot3_err _ _ _ _ _ _ F2) as (Fs2 & _ & _ & _ & _ & _ & D2).
      rewrite E0, Rabs_R0, !Rmult_0_l, !Rplus_0_r in D1, D2. rewrite (proj2 (opp_ok _)) in D1.
      rewrite Rplus_0_r.
      pose proof (turn_step K S e (cos (radians (val d))) (- sin (radians (val d))) X Y (val x) (val y)
        (val (ncos (radians d))) (- val (nsin (radians d)))
        (val (ncos (radians d) * x + - nsin (radians d) * y + float_ofZ 0 * z)%float)
        (val (nsin (radians d) * x + ncos (radians d) * y + float_ofZ 0 * z)%float) HK Kb) as T.
      rewrite !Ropp_involutive in T. apply T.
      + rewrite <- (norm_unit (radians (val d))). unfold norm. f_equal. ring.
      + eapply cos_err; eauto.
      + replace (- val (nsin (radians d)) - - sin (radians (val d))) with (- (val (nsin (radians d)) - sin (radians (val d)))) by ring.
        rewrite Rabs_Ropp. exact (sin_err k m d Acc L Fs2).
      + apply H.
      + exact He.
      + exact D1.
      + rewrite Rabs_Ropp. exact D2.
  Qed.
  Lemma colinv_shift n S dx dy x y z X Y Z : 0 <= m -> 0 <= Z <= 1 -> 0 <= S -> colinv a n S x y z X Y Z ->
    colinv a (Datatypes.S n) (S + Z * (Rabs (val dx) + Rabs (val dy)) + 2 * tiny)
      (float_ofZ 1 * x + float_ofZ 0 * y + dx * z)%float (float_ofZ 0 * x + float_ofZ 1 * y + dy * z)%float
      (float_ofZ 0 * x + float_ofZ 0 * y + float_ofZ 1 * z)%float
      (X + val dx * Z) (Y + val dy * Z) Z.
  Proof.
    intros Hm HZ HS H. destruct (const_ok 0) as [_ E0]; [vm_compute; discriminate|]. destruct (const_ok 1) as [_ E1]; [vm_compute; discriminate|].
    pose proof eps_pos. pose proof tiny_pos. pose proof (pos_INR k). pose proof (Rabs_pos (val dx)). pose proof (Rabs_pos (val dy)).
    assert (HK : 0 <= K) by (unfold K; lra). assert (Ha : 0 <= a) by (unfold a; apply Rmult_le_pos; lra).
    assert (HD : 0 <= Z * (Rabs (val dx) + Rabs (val dy))) by (apply Rmult_le_pos; lra).
    apply (colinv_step a n S _ (Z * (Rabs (val dx) + Rabs (val dy))) x y z _ _ _ X Y Z _ _ Ha HS); [ring|exact HD|exact H| | | |].
    - intros F1 F2. destruct (dot3_err _ _ _ _ _ _ F1) as (? & ? & ? & ? & ? & ? & _). auto.
    - intros F. destruct (last_row _ _ _ F) as [Fz ->]. apply H, Fz.
    - eapply Rle_trans; [apply norm_triangle|]. pose proof (proj1 H).
      assert (norm (val dx * Z) (val dy * Z) <= Z * (Rabs (val dx) + Rabs (val dy))).
      { eapply Rle_trans; [apply norm_sum|]. rewrite !Rabs_mult, (Rabs_right Z) by lra. lra. }
      lra.
    - intros F1 F2 e He. destruct (dot3_err _ _ _ _ _ _ F1) as (_ & _ & _ & Fx & Fy & Fz & D1).
      destruct (dot3_err _ _ _ _ _ _ F2) as (_ & _ & _ & _ & _ & _ & D2).
      destruct H as (HN & Hz & _). rewrite (Hz Fz) in D1, D2. rewrite E0, E1, Rabs_R0, Rabs_R1, (Rabs_right Z) in D1, D2 by lra.
      rewrite !Rmult_0_l, !Rmult_1_l, Rplus_0_l in D2. rewrite !Rmult_0_l, !Rmult_1_l, !Rplus_0_r in D1. rewrite Rplus_0_l in D2.
      eapply (shift_step K S e Z X Y (val x) (val y)); eauto.
  Qed.
End Steps.

Lemma way_pos calls : 0 <= way calls.
Proof. induction calls as [|o r IH]; [cbn; lra|]. destruct o; cbn [way]; try exact IH. pose proof (Rabs_pos (val dx)). pose proof (Rabs_pos (val dy)). lra. Qed.
Lemma colinv_more a n S S' x y z X Y Z : 0 <= a -> 0 <= S <= S' -> colinv a n S x y z X Y Z -> colinv a (Datatypes.S n) S' x y z X Y Z.
Proof.
  intros Ha HS (A & B & C). split; [lra|]. split; [exact B|]. intros F1 F2. specialize (C F1 F2).
  eapply Rle_trans; [exact C|]. cbn [pow]. assert (1 <= (1 + a) ^ n) by (apply pow_R1_Rle; lra).
  set (g := (1 + a) ^ n) in *. clearbody g. apply Rmult_le_compat; nra.
Qed.
Lemma colinv_eq a n S x y z X Y Z X' Y' : colinv a n S x y z X Y Z -> X = X' -> Y = Y' -> colinv a n S x y z X' Y' Z.
Proof. intros H <- <-. exact H. Qed.
Definition unitz (j : nat) : R := match j with 0%nat | 1%nat => 0 | _ => 1 end.

Lemma rigid_run {TF : NumTrig float} (k : nat) (m : R) (j : nat) (calls : list (top float)) :
  accurate_trig k TF -> 0 <= m -> (INR k + 1 + m / 10) * eps <= / 8 -> Forall (rigid m) calls ->
  forall n S (t : transform float) (r : transform R), 0 <= S ->
  let a := (2 * (INR k + 1 + m / 10) + 14) * eps in
  colinv a n S (entry 0 j (tmat t)) (entry 1 j (tmat t)) (entry 2 j (tmat t)) (entry 0 j (tmat r)) (entry 1 j (tmat r)) (unitz j) ->
  entry 2 j (tmat r) = unitz j ->
  let t' := trun calls t in let r' := trun (map valop calls) r in
  colinv a (n + List.length calls) (S + unitz j * way calls + 2 * INR (List.length calls) * tiny)
    (entry 0 j (tmat t')) (entry 1 j (tmat t')) (entry 2 j (tmat t')) (entry 0 j (tmat r')) (entry 1 j (tmat r')) (unitz j).
Proof.
  intros Acc Hm Kb Hc. induction Hc as [|o calls Ho Hc IH]; intros n S t r HS a H Hr; cbv zeta.
  - cbn [trun fold_left map List.length way INR]. rewrite Nat.add_0_r.
    replace (S + unitz j * 0 + 2 * 0 * tiny) with S by ring. exact H.
  - pose proof tiny_pos. pose proof eps_pos. pose proof (pos_INR k).
    assert (Ha : 0 <= a) by (unfold a; apply Rmult_le_pos; lra).
    assert (HZ : 0 <= unitz j <= 1) by (destruct j as [|[|j]]; cbn; lra).
    assert (HW : way (o :: calls) = way [o] + way calls) by (destruct o; cbn [way]; ring).
    assert (Hone : 0 <= unitz j * way [o]) by (apply Rmult_le_pos; [lra|apply way_pos]).
    assert (G : colinv a (Datatypes.S n) (S + unitz j * way [o] + 2 * tiny)
        (entry 0 j (tmat (fst (tstep o t)))) (entry 1 j (tmat (fst (tstep o t)))) (entry 2 j (tmat (fst (tstep o t))))
        (entry 0 j (tmat (fst (tstep (valop o) r)))) (entry 1 j (tmat (fst (tstep (valop o) r)))) (unitz j) /\
      entry 2 j (tmat (fst (tstep (valop o) r))) = unitz j).
    { destruct o; cbn [rigid] in Ho; try contradiction; cbn [valop tstep fst way].
      - split.
        + pose proof (colinv_shift k m n S dx dy _ _ _ _ _ _ Hm HZ HS H) as Q. rewrite Rplus_0_r.
          unfold t_translate, t_pre. cbn [tmat].
          destruct j as [|[|j]]; cbn [entry] in *; unfold mat_dot, translate_mat; cbn [m00 m01 m02 m10 m11 m12 m20 m21 m22]; ops; rewrite ?Hr;
          refine (colinv_eq _ _ _ _ _ _ _ _ _ _ _ Q _ _); cbn [unitz]; ring.
        + unfold t_translate, t_pre. cbn [tmat].
          destruct j as [|[|j]]; cbn [entry] in *; unfold mat_dot, translate_mat; cbn [m00 m01 m02 m10 m11 m12 m20 m21 m22]; ops; rewrite ?Hr; cbn [unitz]; ring.
      - split.
        + pose proof (colinv_turn k m Acc Kb n S deg _ _ _ _ _ _ Ho HS H) as Q. rewrite Rmult_0_r, Rplus_0_r.
          unfold t_rotate, t_pre. cbn [tmat].
          destruct j as [|[|j]]; cbn [entry] in *; unfold mat_dot, rotate_mat; cbn [m00 m01 m02 m10 m11 m12 m20 m21 m22 nsin ncos TrigR]; ops; 
          refine (colinv_eq _ _ _ _ _ _ _ _ _ _ _ Q _ _); cbn [unitz]; ring.
        + unfold t_rotate, t_pre. cbn [tmat].
          destruct j as [|[|j]]; cbn [entry] in *; unfold mat_dot, rotate_mat; cbn [m00 m01 m02 m10 m11 m12 m20 m21 m22]; ops; rewrite ?Hr; cbn [unitz]; ring.
      - split.
        + pose proof (colinv_turn_ccw k m Acc Kb n S deg _ _ _ _ _ _ Ho HS H) as Q. rewrite Rmult_0_r, Rplus_0_r.
          unfold t_rotate_ccw, t_pre. cbn [tmat].
          destruct j as [|[|j]]; cbn [entry] in *; unfold mat_dot, rotate_mat_ccw; cbn [m00 m01 m02 m10 m11 m12 m20 m21 m22 nsin ncos TrigR]; ops; 
          refine (colinv_eq _ _ _ _ _ _ _ _ _ _ _ Q _ _); cbn [unitz]; ring.
        + unfold t_rotate_ccw, t_pre. cbn [tmat].
          destruct j as [|[|j]]; cbn [entry] in *; unfold mat_dot, rotate_mat_ccw; cbn [m00 m01 m02 m10 m11 m12 m20 m21 m22]; ops; rewrite ?Hr; cbn [unitz]; ring.
      - split; [|exact Hr]. apply colinv_more with S; [exact Ha|lra|exact H].
      - split; [|exact Hr]. apply colinv_more with S; [exact Ha|lra|exact H]. }
    destruct G as [G1 G2]. specialize (IH (Datatypes.S n) (S + unitz j * way [o] + 2 * tiny) _ _ ltac:(lra) G1 G2). cbv zeta in IH.
    cbn [List.length map]. unfold trun in *. cbn [fold_left].
    replace (n + Datatypes.S (List.length calls))%nat with (Datatypes.S n + List.length calls)%nat by lia.
    rewrite HW, S_INR.
    replace (S + unitz j * (way [o] + way calls) + 2 * (INR (List.length calls) + 1) * tiny) with
      (S + unitz j * way [o] + 2 * tiny + unitz j * way calls + 2 * INR (List.length calls) * tiny) by ring.
    exact IH.
Qed.

(* ---------------- the theorems ---------------- *)

(* error of one call, relative to the sizes: k half-units for each of sine and cosine, one for
   the angle in radians and a tenth for each degree, and the products and sums *)
Definition per_call (k : nat) (m : R) : R := (2 * (INR k + 1 + m / 10) + 14) * eps.

Lemma rigid_col {TF : NumTrig float} k m j calls : accurate_trig k TF -> 0 <= m -> (INR k + 1 + m / 10) * eps <= / 8 -> Forall (rigid m) calls ->
  let t := tmat (trun calls t_new) in let r := tmat (trun (map valop calls) (@t_new R _)) in
  colinv (per_call k m) (List.length calls) (1 - unitz j + unitz j * way calls + 2 * INR (List.length calls) * tiny)
    (entry 0 j t) (entry 1 j t) (entry 2 j t) (entry 0 j r) (entry 1 j r) (unitz j).
Proof.
  intros Acc Hm Kb Hc t r.
  assert (Z : forall z, (Z.abs z <= 2 ^ 53)%Z -> val (float_ofZ z) = IZR z) by (intros z Hz; apply const_ok; exact Hz).
  pose proof (Z 0%Z ltac:(vm_compute; discriminate)) as Z0. pose proof (Z 1%Z ltac:(vm_compute; discriminate)) as Z1.
  apply (rigid_run k m j calls Acc Hm Kb Hc 0 (1 - unitz j) t_new (@t_new R _)).
  - destruct j as [|[|j]]; cbn [unitz]; lra.
  - destruct j as [|[|j]]; cbn [entry t_new tmat mat_id m00 m01 m02 m10 m11 m12 m20 m21 m22 unitz]; ops; (split; [|split]);
      try (intros _; assumption);
      first [intros _ _; rewrite ?Z0, ?Z1; unfold norm; cbn [pow]; rewrite Rminus_diag_eq, Rminus_diag_eq by reflexivity;
               replace (0 * 0 + 0 * 0) with 0 by ring; rewrite sqrt_0; lra
            |unfold norm; match goal with |- R_sqrt.sqrt ?x <= _ => first [replace x with 1 by ring; rewrite sqrt_1; lra|replace x with 0 by ring; rewrite sqrt_0; lra] end].
  - destruct j as [|[|j]]; reflexivity.
Qed.
Lemma rigid_entry {TF : NumTrig float} k m j calls : accurate_trig k TF -> 0 <= m -> (INR k + 1 + m / 10) * eps <= / 8 -> Forall (rigid m) calls ->
  let t := tmat (trun calls t_new) in let r := tmat (trun (map valop calls) (@t_new R _)) in
  finite (entry 0 j t) -> finite (entry 1 j t) ->
  norm (val (entry 0 j t) - entry 0 j r) (val (entry 1 j t) - entry 1 j r) <=
    ((1 + per_call k m) ^ List.length calls - 1) * (1 - unitz j + unitz j * way calls + 2 * INR (List.length calls) * tiny).
Proof. intros Acc Hm Kb Hc t r. apply (rigid_col k m j calls Acc Hm Kb Hc). Qed.

(* After any number of moves and turns, the columns of the matrix - where the transform takes the
   unit vectors, and the origin - are this far from the exact ones. *)
Theorem C79_rotations {TF : NumTrig float} (k : nat) (m : R) (calls : list (top float)) :
  accurate_trig k TF -> 0 <= m -> (INR k + 1 + m / 10) * eps <= / 8 -> Forall (rigid m) calls ->
  let t := tmat (trun calls t_new) in let r := tmat (trun (map valop calls) (@t_new R _)) in
  let n := List.length calls in let growth := (1 + per_call k m) ^ n - 1 in
  (finite (m00 t) -> finite (m10 t) -> norm (val (m00 t) - m00 r) (val (m10 t) - m10 r) <= growth * (1 + 2 * INR n * tiny)) /\
  (finite (m01 t) -> finite (m11 t) -> norm (val (m01 t) - m01 r) (val (m11 t) - m11 r) <= growth * (1 + 2 * INR n * tiny)) /\
  (finite (m02 t) -> finite (m12 t) -> norm (val (m02 t) - m02 r) (val (m12 t) - m12 r) <= growth * (way calls + 2 * INR n * tiny)).
Proof.
  intros Acc Hm Kb Hc t r n growth. pose proof (rigid_entry k m 0 calls Acc Hm Kb Hc) as A.
  pose proof (rigid_entry k m 1 calls Acc Hm Kb Hc) as B. pose proof (rigid_entry k m 2 calls Acc Hm Kb Hc) as C.
  cbv zeta in A, B, C. cbn [entry unitz] in A, B, C. fold t r n growth in A, B, C.
  split; [|split]; intros F0 F1; [specialize (A F0 F1)|specialize (B F0 F1)|specialize (C F0 F1)].
  - replace (1 + 2 * INR n * tiny) with (1 - 0 + 0 * way calls + 2 * INR n * tiny) by ring. exact A.
  - replace (1 + 2 * INR n * tiny) with (1 - 0 + 0 * way calls + 2 * INR n * tiny) by ring. exact B.
  - replace (way calls + 2 * INR n * tiny) with (1 - 1 + 1 * way calls + 2 * INR n * tiny) by ring. exact C.
Qed.

Lemma growth_rate n a : 0 <= a -> INR n * a <= / 2 -> (1 + a) ^ n - 1 <= 2 * INR n * a.
Proof.
  intros Ha H. pose proof (pos_INR n) as N.
  assert (K : (1 + a) ^ n * (1 - INR n * a) <= 1).
  { clear H N. induction n as [|n IH]; [cbn; lra|]. rewrite S_INR. pose proof (pos_INR n). cbn [pow].
    assert (0 <= INR n * a) by (apply Rmult_le_pos; lra).
    assert ((1 + a) * (1 - (INR n + 1) * a) <= 1 - INR n * a) by nra.
    assert (1 <= (1 + a) ^ n) by (apply pow_R1_Rle; lra). nra. }
  assert (1 <= (1 + a) ^ n) by (apply pow_R1_Rle; lra). assert (0 <= INR n * a) by (apply Rmult_le_pos; lra).
  replace (2 * INR n * a) with (2 * (INR n * a)) by ring.
  set (u := INR n * a) in *. set (g := (1 + a) ^ n) in *. clearbody u g. clear Ha N.
  assert (0 <= u * (1 - 2 * u)) by (apply Rmult_le_pos; lra). apply Rmult_le_reg_r with (1 - u); lra.
Qed.
Lemma exact_columns calls m (r : transform R) :
  norm (m00 (tmat r)) (m10 (tmat r)) = 1 /\ norm (m01 (tmat r)) (m11 (tmat r)) = 1 /\ m20 (tmat r) = 0 /\ m21 (tmat r) = 0 ->
  Forall (rigid m) calls -> let r' := trun (map valop calls) r in
  norm (m00 (tmat r')) (m10 (tmat r')) = 1 /\ norm (m01 (tmat r')) (m11 (tmat r')) = 1 /\ m20 (tmat r') = 0 /\ m21 (tmat r') = 0.
Proof.
  intros H Hc. cbv zeta. revert r H. induction Hc as [|o calls Ho Hc IH]; intros r H; [exact H|].
  unfold trun in *. cbn [map fold_left]. apply IH. clear IH. destruct H as (A & B & C & D).
  destruct o; cbn [rigid] in Ho; try contradiction; cbn [valop tstep fst]; auto.
  - unfold t_translate, t_pre. cbn [tmat]. unfold mat_dot, translate_mat. cbn [m00 m01 m02 m10 m11 m12 m20 m21 m22]. ops. rewrite C, D.
    split; [refine (eq_trans _ A); f_equal; ring|]. split; [refine (eq_trans _ B); f_equal; ring|]. split; ring.
  - unfold t_rotate, t_pre. cbn [tmat]. unfold mat_dot, rotate_mat. cbn [m00 m01 m02 m10 m11 m12 m20 m21 m22 nsin ncos TrigR]. ops. rewrite C, D.
    rewrite !Rmult_0_r, !Rplus_0_r, !norm_turn, norm_unit, A, B. repeat split; ring.
  - unfold t_rotate_ccw, t_pre. cbn [tmat]. unfold mat_dot, rotate_mat_ccw. cbn [m00 m01 m02 m10 m11 m12 m20 m21 m22 nsin ncos TrigR]. ops. rewrite C, D.
    rewrite !Rmult_0_r, !Rplus_0_r, !norm_turn_ccw, norm_unit, A, B. repeat split; ring.
Qed.
(* so turning again and again stretches or shrinks nothing by more than this *)
Theorem C79_rotations_keep_length {TF : NumTrig float} (k : nat) (m : R) (calls : list (top float)) :
  accurate_trig k TF -> 0 <= m -> (INR k + 1 + m / 10) * eps <= / 8 -> Forall (rigid m) calls ->
  let t := tmat (trun calls t_new) in let n := INR (List.length calls) in n * per_call k m <= / 2 ->
  (finite (m00 t) -> finite (m10 t) -> Rabs (norm (val (m00 t)) (val (m10 t)) - 1) <= 2 * n * per_call k m * (1 + 2 * n * tiny)) /\
  (finite (m01 t) -> finite (m11 t) -> Rabs (norm (val (m01 t)) (val (m11 t)) - 1) <= 2 * n * per_call k m * (1 + 2 * n * tiny)).
Proof.
  intros Acc Hm Kb Hc t n Hn. destruct (C79_rotations k m calls Acc Hm Kb Hc) as (A & B & _). cbv zeta in A, B. fold t n in A, B.
  destruct (exact_columns calls m t_new) as (E0 & E1 & _); [cbn; unfold norm; repeat split; refine (eq_trans _ sqrt_1); f_equal; ring|exact Hc|].
  pose proof eps_pos. pose proof tiny_pos. pose proof (pos_INR k). pose proof (pos_INR (List.length calls)) as Np. fold n in Np.
  assert (Ha : 0 <= per_call k m) by (unfold per_call; apply Rmult_le_pos; lra).
  pose proof (growth_rate _ _ Ha Hn) as G. fold n in G.
  assert (D : forall x y X Y e, norm X Y = 1 -> norm (x - X) (y - Y) <= e -> Rabs (norm x y - 1) <= e).
  { intros x y X Y e U L. rewrite <- U. apply Rabs_le. 
    pose proof (norm_triangle X Y (x - X) (y - Y)) as T1. replace (X + (x - X)) with x in T1 by ring. replace (Y + (y - Y)) with y in T1 by ring.
    pose proof (norm_triangle x y (X - x) (Y - y)) as T2. replace (x + (X - x)) with X in T2 by ring. replace (y + (Y - y)) with Y in T2 by ring.
    assert (S : norm (X - x) (Y - y) = norm (x - X) (y - Y)) by (unfold norm; f_equal; ring). lra. }
  assert (0 <= 2 * n * tiny) by (apply Rmult_le_pos; lra).
  split; intros F0 F1; [apply (D _ _ _ _ _ E0); eapply Rle_trans; [exact (A F0 F1)|]|apply (D _ _ _ _ _ E1); eapply Rle_trans; [exact (B F0 F1)|]];
    apply Rmult_le_compat_r; lra.
Qed.

(* Vector.rotate *)
Lemma dot2_err (a b x y : float) : finite (a * x - b * y)%float ->
  finite a /\ finite b /\ Rabs (val (a * x - b * y)%float - (val a * val x - val b * val y)) <=
    4 * eps * (Rabs (val a) * Rabs (val x) + Rabs (val b) * Rabs (val y) + 3 * tiny).
Proof.
  intros F. destruct (sub_ok _ _ F) as (F3 & F4 & _). destruct (mul_ok _ _ F3) as (? & ? & _). destruct (mul_ok _ _ F4) as (? & ? & _).
  split; [assumption|]. split; [assumption|]. pose proof tiny_pos.
  eapply (near_use _ _ _ _ 4 _ (near_sub _ _ _ _ _ _ _ _ (near_mul _ _ _ _ _ _ _ _ (near_leaf a) (near_leaf x)) (near_mul _ _ _ _ _ _ _ _ (near_leaf b) (near_leaf y)))); [cbn; lia|cbn; lra|lra|exact F].
Qed.
Lemma dot2p_err (a b x y : float) : finite (a * x + b * y)%float ->
  finite a /\ finite b /\ Rabs (val (a * x + b * y)%float - (val a * val x + val b * val y)) <=
    4 * eps * (Rabs (val a) * Rabs (val x) + Rabs (val b) * Rabs (val y) + 3 * tiny).
Proof.
  intros F. destruct (add_ok _ _ F) as (F3 & F4 & _). destruct (mul_ok _ _ F3) as (? & ? & _). destruct (mul_ok _ _ F4) as (? & ? & _).
  split; [assumption|]. split; [assumption|]. pose proof tiny_pos.
  eapply (near_use _ _ _ _ 4 _ (near_add _ _ _ _ _ _ _ _ (near_mul _ _ _ _ _ _ _ _ (near_leaf a) (near_leaf x)) (near_mul _ _ _ _ _ _ _ _ (near_leaf b) (near_leaf y)))); [cbn; lia|cbn; lra|lra|exact F].
Qed.
Theorem C79_vector_rotate {TF : NumTrig float} (k : nat) (m : R) (v : vec float) (deg : float) :
  accurate_trig k TF -> Rabs (val deg) <= m -> (INR k + 1 + m / 10) * eps <= / 8 ->
  let w := v_rotate v deg in let w' := v_rotate (valv v) (val deg) in
  finite (vx w) -> finite (vy w) ->
  norm (val (vx w) - vx w') (val (vy w) - vy w') <= per_call k m * (exact_length v + 2 * tiny) /\
  Rabs (exact_length w - exact_length v) <= per_call k m * (exact_length v + 2 * tiny).
Proof.
  intros Acc L Kb w w' F0 F1. unfold w, w', v_rotate in *. cbn [vx vy valv] in *. ops_in F0. ops_in F1. ops.
  set (c := ncos (radians deg)) in *. set (s := nsin (radians deg)) in *. set (cx := ncos (radians (val deg))). set (sx := nsin (radians (val deg))).
  destruct (dot2_err _ _ _ _ F0) as (Fc & Fs & D1). destruct (dot2p_err _ _ _ _ F1) as (_ & _ & D2).
  pose proof eps_pos. pose proof tiny_pos. pose proof (pos_INR k). pose proof (Rabs_pos (val deg)).
  assert (HK : 0 <= INR k + 1 + m / 10) by lra.
  pose proof (turn_step _ (exact_length v) 0 cx (- sx) (val (vx v)) (val (vy v)) (val (vx v)) (val (vy v)) (val c) (- val s)
    (val (c * vx v - s * vy v)%float) (val (s * vx v + c * vy v)%float) HK Kb) as T.
  rewrite !Ropp_involutive in T.
  assert (U : norm cx (- sx) = 1) by (rewrite <- (norm_unit (radians (val deg))); unfold norm, cx, sx; cbn [nsin ncos TrigR]; f_equal; ring).
  destruct T as [_ T].
  - exact U.
  - exact (cos_err k m deg Acc L Fc).
  - replace (- val s - - sx) with (- (val s - sx)) by ring. rewrite Rabs_Ropp. exact (sin_err k m deg Acc L Fs).
  - apply Rle_refl.
  - unfold norm. rewrite !Rminus_diag_eq by reflexivity. replace (0 * 0 + 0 * 0) with 0 by ring. rewrite sqrt_0. lra.
  - replace (val c * val (vx v) + - val s * val (vy v)) with (val c * val (vx v) - val s * val (vy v)) by ring. rewrite Rabs_Ropp. exact D1.
  - rewrite Rabs_Ropp. exact D2.
  - replace (0 + (2 * (INR k + 1 + m / 10) + 14) * eps * (exact_length v + 0 + 2 * tiny)) with (per_call k m * (exact_length v + 2 * tiny)) in T by (unfold per_call; ring).
    replace (cx * val (vx v) - sx * val (vy v)) with (cx * val (vx v) + - sx * val (vy v)) by ring.
    split; [exact T|]. set (e := per_call k m * _) in *.
    assert (E : norm (cx * val (vx v) + - sx * val (vy v)) (sx * val (vx v) + cx * val (vy v)) = exact_length v).
    { rewrite norm_turn_ccw. unfold cx, sx. cbn [nsin ncos TrigR]. rewrite norm_unit. unfold exact_length, norm. ring. }
    rewrite <- E. unfold exact_length. cbn [vx vy].
    set (X := cx * val (vx v) + - sx * val (vy v)) in *. set (Y := sx * val (vx v) + cx * val (vy v)) in *.
    set (x := val (c * vx v - s * vy v)%float) in *. set (y := val (s * vx v + c * vy v)%float) in *.
    change (R_sqrt.sqrt (x * x + y * y)) with (norm x y). apply Rabs_le.
    pose proof (norm_triangle X Y (x - X) (y - Y)) as T1. replace (X + (x - X)) with x in T1 by ring. replace (Y + (y - Y)) with y in T1 by ring.
    pose proof (norm_triangle x y (X - x) (Y - y)) as T2. replace (x + (X - x)) with X in T2 by ring. replace (y + (Y - y)) with Y in T2 by ring.
    assert (S : norm (X - x) (Y - y) = norm (x - X) (y - Y)) by (unfold norm; f_equal; ring). lra.
Qed.

(* ---------------- correctly rounded functions are accurate ---------------- *)

Definition BestTrig : NumTrig float := {|
  npi := round_to_float PI;
  nsin := fun x => if PrimFloat.is_finite x then round_to_float (sin (val x)) else PrimFloat.nan;
  ncos := fun x => if PrimFloat.is_finite x then round_to_float (cos (val x)) else PrimFloat.nan;
  ntan := fun x => if PrimFloat.is_finite x then round_to_float (tan (val x)) else PrimFloat.nan;
  natan2 := fun y x => round_to_float (Ratan2 (val y) (val x)) |}.
Lemma round_to_float_finite r : Rabs r <= 2 ^ 100 -> finite (round_to_float r).
Proof.
  intros H. apply finite_B. unfold round_to_float. rewrite Prim2B_B2Prim.
  pose proof (binary_normalize_correct prec emax Hprec Hmax mode_NE (ZnearestE (scaled_mantissa radix2 fexp64 r)) (cexp radix2 fexp64 r) false) as C.
  change (F2R _) with (rnd r) in C. cbv zeta in C.
  assert (G : round radix2 (SpecFloat.fexp prec emax) (round_mode mode_NE) (rnd r) = rnd r).
  { apply round_generic; [apply valid_rnd_N|].
    apply (@generic_format_round radix2 fexp64 (@FLT_exp_valid (-1074) 53 prec_pos) ZnearestE). apply valid_rnd_N. }
  rewrite G in C. rewrite Rlt_bool_true in C; [apply C|]. apply rnd_small. exact H.
Qed.
Lemma pow100 : 4 <= 2 ^ 100.
Proof. assert ((2 : R) ^ 2 <= 2 ^ 100) by (apply Rle_pow; [lra|lia]). replace ((2 : R) ^ 2) with 4 in H by (cbv [pow]; lra). lra. Qed.
Theorem C79_best_trig : accurate_trig 2 BestTrig.
Proof.
  pose proof pow100. pose proof eps_pos. pose proof tiny_pos.
  assert (T1 : tiny <= 1) by (pose proof tiny_le; assert (/ 2 ^ 60 <= 1) by (rewrite <- Rinv_1; apply Rinv_le_contravar; [lra|apply pow_R1_Rle; lra]); lra).
  split.
  - assert (F : finite (round_to_float PI)) by (apply round_to_float_finite; pose proof PI_4; pose proof PI_RGT_0; rewrite Rabs_right; lra).
    split; [exact F|]. cbn [npi BestTrig]. rewrite (round_to_float_ok _ F).
    pose proof (relative_error_N_FLT radix2 (-1074) 53 eq_refl (fun x => negb (Z.even x)) PI) as Q.
    rewrite eps_bpow in Q. rewrite (Rabs_right PI) in Q by (pose proof PI_RGT_0; lra). apply Q.
    apply Rle_trans with 1; [|pose proof PI2_1; pose proof PI_RGT_0; lra]. change 1 with (bpow radix2 0). apply bpow_le. lia.
  - intros x. cbn [nsin ncos BestTrig]. destruct (PrimFloat.is_finite x) eqn:E; (split; [|]).
    + intros F. split; [exact E|]. rewrite (round_to_float_ok _ F). eapply Rle_trans; [apply err_any|].
      pose proof (SIN_bound (val x)). assert (Rabs (sin (val x)) <= 1) by (apply Rabs_le; lra). cbn [INR].
      replace ((1 + 1) * eps) with (eps * 2) by ring. apply Rmult_le_compat_l; lra.
    + intros F. split; [exact E|]. rewrite (round_to_float_ok _ F). eapply Rle_trans; [apply err_any|].
      pose proof (COS_bound (val x)). assert (Rabs (cos (val x)) <= 1) by (apply Rabs_le; lra). cbn [INR].
      replace ((1 + 1) * eps) with (eps * 2) by ring. apply Rmult_le_compat_l; lra.
    + intros F. vm_compute in F. discriminate.
    + intros F. vm_compute in F. discriminate.
Qed.

(* ---------------- no overflow ---------------- *)

Definition finite_args (o : top float) : Prop :=
  match o with OTranslate dx dy => finite dx /\ finite dy | ORotate d | ORotateCcw d => finite d | _ => True end.
Lemma rnd_twice r B : 1 <= B -> Rabs r <= B -> Rabs (rnd r) <= 2 * B.
Proof.
  intros HB H. pose proof (err_any r) as E. pose proof eps_num as N. pose proof tiny_le as T. pose proof tiny_pos.
  assert (/ 2 ^ 60 <= 1) by (rewrite <- Rinv_1; apply Rinv_le_contravar; [lra|apply pow_R1_Rle; lra]).
  replace (rnd r) with ((rnd r - r) + r) by ring. eapply Rle_trans; [apply Rabs_triang|].
  assert (eps * (Rabs r + tiny) <= / 2 * (B + 1)) by (apply Rmult_le_compat; rewrite ?N; pose proof (Rabs_pos r); lra). lra.
Qed.
Lemma dot3_fin (a b c x y z : float) (A B : R) : 1 <= A -> 1 <= B -> 10 * (A * B) <= 2 ^ 100 ->
  finite a -> finite b -> finite c -> finite x -> finite y -> finite z ->
  Rabs (val a) <= A -> Rabs (val b) <= A -> Rabs (val c) <= A -> Rabs (val x) <= B -> Rabs (val y) <= B -> Rabs (val z) <= B ->
  finite (a * x + b * y + c * z)%float.
Proof.
  intros HA HB H100 Fa Fb Fc Fx Fy Fz Ba Bb Bc Bx By Bz. assert (AB : 1 <= A * B) by nra.
  assert (Mf : forall u v, finite u -> finite v -> Rabs (val u) <= A -> Rabs (val v) <= B ->
    finite (u * v)%float /\ Rabs (val (u * v)%float) <= 2 * (A * B)).
  { intros u v Fu Fv Bu Bv. assert (L : Rabs (val u * val v) <= A * B) by (rewrite Rabs_mult; apply Rmult_le_compat; auto using Rabs_pos).
    assert (F : finite (u * v)%float) by (apply mul_fin; auto; apply rnd_small; lra).
    split; [exact F|]. destruct (mul_ok _ _ F) as (_ & _ & ->). apply rnd_twice; assumption. }
  destruct (Mf a x) as [F1 B1]; auto. destruct (Mf b y) as [F2 B2]; auto. destruct (Mf c z) as [F3 B3]; auto.
  assert (L4 : Rabs (val (a * x)%float + val (b * y)%float) <= 4 * (A * B)) by (eapply Rle_trans; [apply Rabs_triang|lra]).
  assert (F4 : finite (a * x + b * y)%float) by (apply add_fin; auto; apply rnd_small; lra).
  assert (B4 : Rabs (val (a * x + b * y)%float) <= 8 * (A * B)).
  { destruct (add_ok _ _ F4) as (_ & _ & ->). replace (8 * (A * B)) with (2 * (4 * (A * B))) by ring. apply rnd_twice; lra. }
  apply add_fin; auto. apply rnd_small. eapply Rle_trans; [apply Rabs_triang|lra].
Qed.
Lemma radians_fin {TF : NumTrig float} k (d : float) : accurate_trig k TF -> finite d -> Rabs (val d) <= 2 ^ 40 -> finite (radians d).
Proof.
  intros [[Fp Ep] _] Fd Bd. unfold radians. ops. destruct (const_ok 180) as [F180 E180]; [vm_compute; discriminate|].
  pose proof PI_4. pose proof PI_RGT_0. pose proof eps_num as N. assert (E1 : eps <= 1) by (rewrite N; lra). pose proof eps_pos.
  assert (Bp : Rabs (val npi) <= 8).
  { replace (val npi) with ((val npi - PI) + PI) by ring. eapply Rle_trans; [apply Rabs_triang|]. rewrite (Rabs_right PI) by lra.
    assert (eps * PI <= 1 * PI) by (apply Rmult_le_compat_r; lra). lra. }
  assert (L : Rabs (val npi / 180) <= 1).
  { unfold Rdiv. rewrite Rabs_mult, (Rabs_right (/ 180)) by lra. lra. }
  pose proof pow100.
  assert (F1 : finite (npi / float_ofZ 180)%float) by (apply div_fin; [exact Fp|rewrite E180; lra|rewrite E180; apply rnd_small; lra]).
  assert (B1 : Rabs (val (npi / float_ofZ 180)%float) <= 2).
  { destruct (div_ok _ _ F180 ltac:(rewrite E180; lra) F1) as [_ ->]. rewrite E180. replace 2 with (2 * 1) by ring. apply rnd_twice; lra. }
  apply mul_fin; [exact Fd|exact F1|]. apply rnd_small. rewrite Rabs_mult.
  apply Rle_trans with (2 ^ 40 * 2); [apply Rmult_le_compat; auto using Rabs_pos|].
  replace (2 ^ 40 * 2) with (2 ^ 41) by (cbn [pow]; ring). apply Rle_pow; [lra|lia].
Qed.
Lemma way_app a b : way (a ++ b) = way a + way b.
Proof. induction a as [|o a IH]; [cbn; ring|]. destruct o; cbn [way app]; rewrite IH; ring. Qed.
Lemma norm_ge x y : Rabs x <= norm x y /\ Rabs y <= norm x y.
Proof.
  pose proof (norm_pos x y) as N. pose proof (norm_sq x y) as Q.
  assert (G : forall u, u * u <= norm x y * norm x y -> Rabs u <= norm x y).
  { intros u Hu. apply Rnot_lt_le. intros C. assert (u * u = Rabs u * Rabs u) by (rewrite <- Rabs_mult, Rabs_right; nra). nra. }
  split; apply G; nra.
Qed.

(* With sines and cosines of all finite doubles, no matter how often one turns, nothing overflows. *)
Theorem C79_rotations_finite {TF : NumTrig float} (k : nat) (m : R) (calls : list (top float)) (i j : nat) :
  accurate_trig k TF -> (forall x, finite x -> finite (nsin x) /\ finite (ncos x)) ->
  0 <= m <= 2 ^ 40 -> (INR k + 1 + m / 10) * eps <= / 8 -> Forall (rigid m) calls -> Forall finite_args calls ->
  INR (List.length calls) * per_call k m <= / 2 -> way calls <= 2 ^ 40 ->
  finite (entry i j (tmat (trun calls t_new))).
Proof.
  intros Acc Tot Hm Kb. revert i j. induction calls as [|o calls IH] using rev_ind; intros i j Hr Hf Hn Hw.
  - destruct i as [|[|i]], j as [|[|j]]; vm_compute; reflexivity.
  - apply Forall_app in Hr. destruct Hr as [Hr Ho]. apply Forall_inv in Ho.
    apply Forall_app in Hf. destruct Hf as [Hf Hfo]. apply Forall_inv in Hfo.
    rewrite app_length, plus_INR in Hn. cbn [List.length INR] in Hn. rewrite way_app in Hw. pose proof (way_pos [o]) as Wo. pose proof (way_pos calls) as Wc.
    pose proof eps_pos. pose proof eps_num as En. pose proof tiny_pos. pose proof tiny_le as Tl. pose proof (pos_INR k). pose proof (pos_INR (List.length calls)) as Np.
    assert (Ha : 16 * eps <= per_call k m) by (unfold per_call; apply Rmult_le_compat_r; lra).
    assert (Hn' : INR (List.length calls) * per_call k m <= / 2) by lra.
    specialize (fun i j => IH i j Hr Hf Hn' ltac:(lra)).
    assert (Nb : 2 * INR (List.length calls) * tiny <= 1).
    { assert (INR (List.length calls) * (16 * eps) <= / 2).
      { eapply Rle_trans; [|exact Hn']. apply Rmult_le_compat_l; lra. }
      assert (Et : tiny <= eps) by (rewrite En; eapply Rle_trans; [exact Tl|]; apply Rinv_le_contravar; [lra|]; cbn [pow]; lra).
      assert (INR (List.length calls) * tiny <= INR (List.length calls) * eps) by (apply Rmult_le_compat_l; lra). lra. }
    assert (P40 : 1000 <= 2 ^ 40) by (cbn [pow]; lra).
    assert (Bnd : forall i j, Rabs (val (entry i j (tmat (trun calls t_new)))) <= 2 * (2 ^ 40 + 2)).
    { assert (C : forall j, Rabs (val (entry 0 j (tmat (trun calls t_new)))) <= 2 * (2 ^ 40 + 2) /\
        Rabs (val (entry 1 j (tmat (trun calls t_new)))) <= 2 * (2 ^ 40 + 2) /\ Rabs (val (entry 2 j (tmat (trun calls t_new)))) <= 2 * (2 ^ 40 + 2)).
      { intros j'. destruct (rigid_col k m j' calls Acc ltac:(lra) Kb Hr) as (A & Z & E). specialize (E (IH 0%nat j') (IH 1%nat j')). specialize (Z (IH 2%nat j')).
        assert (Uz : 0 <= unitz j' <= 1) by (destruct j' as [|[|j']]; cbn; lra).
        assert (SB : 1 - unitz j' + unitz j' * way calls + 2 * INR (List.length calls) * tiny <= 2 ^ 40 + 2) by (assert (unitz j' * way calls <= 1 * 2 ^ 40) by (apply Rmult_le_compat; lra); lra).
        assert (S0 : 0 <= 1 - unitz j' + unitz j' * way calls + 2 * INR (List.length calls) * tiny).
        { assert (0 <= unitz j' * way calls) by (apply Rmult_le_pos; lra). assert (0 <= 2 * INR (List.length calls) * tiny) by (apply Rmult_le_pos; lra). lra. }
        pose proof (growth_rate (List.length calls) (per_call k m) ltac:(lra) Hn') as G.
        set (S := 1 - unitz j' + _ + _) in *. set (g := (1 + per_call k m) ^ List.length calls - 1) in *.
        assert (g * S <= 1 * S) by (apply Rmult_le_compat_r; lra).
        set (x := val (entry 0 j' (tmat (trun calls t_new)))) in *. set (y := val (entry 1 j' (tmat (trun calls t_new)))) in *.
        set (X := entry 0 j' _) in A, E. set (Y := entry 1 j' _) in A, E.
        pose proof (norm_triangle X Y (x - X) (y - Y)) as T1. replace (X + (x - X)) with x in T1 by ring. replace (Y + (y - Y)) with y in T1 by ring.
        destruct (norm_ge x y). split; [lra|]. split; [lra|]. rewrite Z, Rabs_right by lra. lra. }
      intros [|[|i']] j'; apply C. }
    set (t := trun calls t_new) in *. unfold trun. rewrite fold_left_app. cbn [fold_left]. fold (trun calls (@t_new float _)). fold t.
    destruct (const_ok 0) as [F0 E0]; [vm_compute; discriminate|]. destruct (const_ok 1) as [F1 E1]; [vm_compute; discriminate|].
    assert (A0 : Rabs (val (float_ofZ 0)) <= 2 ^ 40) by (rewrite E0, Rabs_R0; lra).
    assert (A1 : Rabs (val (float_ofZ 1)) <= 2 ^ 40) by (rewrite E1, Rabs_R1; lra).
    assert (AB : 10 * (2 ^ 40 * (2 * (2 ^ 40 + 2))) <= 2 ^ 100).
    { replace 100%nat with (40 + 60)%nat by lia. rewrite pow_add. replace (10 * (2 ^ 40 * (2 * (2 ^ 40 + 2)))) with (2 ^ 40 * (20 * (2 ^ 40 + 2))) by ring.
      apply Rmult_le_compat_l; [lra|]. replace 60%nat with (40 + 20)%nat by lia. rewrite pow_add.
      assert (1000 <= 2 ^ 20) by (cbn [pow]; lra). nra. }
    assert (Step : forall a b c j', finite a -> finite b -> finite c -> Rabs (val a) <= 2 ^ 40 -> Rabs (val b) <= 2 ^ 40 -> Rabs (val c) <= 2 ^ 40 ->
      finite (a * entry 0 j' (tmat t) + b * entry 1 j' (tmat t) + c * entry 2 j' (tmat t))%float).
    { intros a b c j' Fa Fb Fc Ba Bb Bc. apply (dot3_fin _ _ _ _ _ _ (2 ^ 40) (2 * (2 ^ 40 + 2))); auto; lra. }
    assert (Trig : forall d, finite d -> Rabs (val d) <= m -> finite (nsin (radians d)) /\ finite (ncos (radians d)) /\ finite (- nsin (radians d))%float /\
      Rabs (val (nsin (radians d))) <= 2 ^ 40 /\ Rabs (val (ncos (radians d))) <= 2 ^ 40 /\ Rabs (val (- nsin (radians d))%float) <= 2 ^ 40).
    { intros d Fd Bd. pose proof (radians_fin k d Acc Fd ltac:(lra)) as Fr. destruct (Tot _ Fr) as [Fs Fc].
      pose proof (sin_err k m d Acc Bd Fs) as Es. pose proof (cos_err k m d Acc Bd Fc) as Ec.
      assert (Bs : Rabs (val (nsin (radians d))) <= 2).
      { replace (val (nsin (radians d))) with ((val (nsin (radians d)) - sin (radians (val d))) + sin (radians (val d))) by ring.
        eapply Rle_trans; [apply Rabs_triang|]. pose proof (SIN_bound (radians (val d))). assert (Rabs (sin (radians (val d))) <= 1) by (apply Rabs_le; lra). lra. }
      assert (Bc : Rabs (val (ncos (radians d))) <= 2).
      { replace (val (ncos (radians d))) with ((val (ncos (radians d)) - cos (radians (val d))) + cos (radians (val d))) by ring.
        eapply Rle_trans; [apply Rabs_triang|]. pose proof (COS_bound (radians (val d))). assert (Rabs (cos (radians (val d))) <= 1) by (apply Rabs_le; lra). lra. }
      split; [exact Fs|]. split; [exact Fc|]. split; [apply opp_ok; exact Fs|]. rewrite (proj2 (opp_ok _)), Rabs_Ropp. repeat split; lra. }
    destruct o; cbn [rigid finite_args way] in Ho, Hfo, Wo, Hw; try contradiction; cbn [tstep fst]; try apply IH.
    + destruct Hfo as [Fx Fy]. pose proof (Rabs_pos (val dx)). pose proof (Rabs_pos (val dy)).
      unfold t_translate, t_pre. cbn [tmat]. unfold mat_dot, translate_mat. cbn [m00 m01 m02 m10 m11 m12 m20 m21 m22]. ops.
      destruct i as [|[|i]], j as [|[|j]]; cbn [entry m00 m01 m02 m10 m11 m12 m20 m21 m22];
        first [apply (Step _ _ _ 0%nat)|apply (Step _ _ _ 1%nat)|apply (Step _ _ _ 2%nat)]; auto; lra.
    + destruct (Trig deg Hfo Ho) as (Fs & Fc & Fn & Bs & Bc & Bn).
      unfold t_rotate, t_pre. cbn [tmat]. unfold mat_dot, rotate_mat. cbn [m00 m01 m02 m10 m11 m12 m20 m21 m22]. ops.
      destruct i as [|[|i]], j as [|[|j]]; cbn [entry m00 m01 m02 m10 m11 m12 m20 m21 m22];
        first [apply (Step _ _ _ 0%nat)|apply (Step _ _ _ 1%nat)|apply (Step _ _ _ 2%nat)]; auto; lra.
    + destruct (Trig deg Hfo Ho) as (Fs & Fc & Fn & Bs & Bc & Bn).
      unfold t_rotate_ccw, t_pre. cbn [tmat]. unfold mat_dot, rotate_mat_ccw. cbn [m00 m01 m02 m10 m11 m12 m20 m21 m22]. ops.
      destruct i as [|[|i]], j as [|[|j]]; cbn [entry m00 m01 m02 m10 m11 m12 m20 m21 m22];
        first [apply (Step _ _ _ 0%nat)|apply (Step _ _ _ 1%nat)|apply (Step _ _ _ 2%nat)]; auto; lra.
Qed.
Theorem C79_best_trig_total (x : float) : finite x -> finite (@nsin float BestTrig x) /\ finite (@ncos float BestTrig x).
Proof.
  intros F. cbn [nsin ncos BestTrig]. unfold finite in F. rewrite F. pose proof pow100.
  pose proof (SIN_bound (val x)). pose proof (COS_bound (val x)). split; apply round_to_float_finite; apply Rabs_le; lra.
Qed.

(* turning a million times by a degree, and moving once: the bounds above speak of it, and are small *)
Definition million_turns : list (top float) := OTranslate 3%float 4%float :: repeat (ORotate 1%float) (1000 * 1000).
Example C79_example_turns : accurate_trig 2 BestTrig /\ (2 + 1 + 1 / 10) * eps <= / 8 /\ Forall (rigid 1) million_turns /\
  (forall i j, finite (entry i j (tmat (@trun float NumFloat BestTrig million_turns t_new)))) /\
  INR (List.length million_turns) * per_call 2 1 <= / 2 /\
  2 * INR (List.length million_turns) * per_call 2 1 <= / 2 ^ 26.
Proof.
  assert (L : INR (List.length million_turns) = 1000001).
  { unfold million_turns. cbn [List.length]. rewrite repeat_length, S_INR, mult_INR, INR_IZR_INZ. replace (Z.of_nat 1000) with 1000%Z by reflexivity. lra. }
  assert (V : val 1%float = 1) by (apply (const_ok 1); vm_compute; discriminate).
  assert (V3 : val 3%float = 3) by (apply (const_ok 3); vm_compute; discriminate).
  assert (V4 : val 4%float = 4) by (apply (const_ok 4); vm_compute; discriminate).
  assert (Ri : Forall (rigid 1) million_turns).
  { constructor; [exact I|]. apply Forall_forall. intros o Ho. apply repeat_spec in Ho. subst. cbn [rigid]. rewrite V, Rabs_R1. lra. }
  assert (Fi : Forall finite_args million_turns).
  { constructor; [split; reflexivity|]. apply Forall_forall. intros o Ho. apply repeat_spec in Ho. subst. reflexivity. }
  assert (W : way million_turns <= 7).
  { unfold million_turns. cbn [way]. assert (Z : forall n, way (repeat (ORotate 1%float) n) = 0) by (induction n; [reflexivity|exact IHn]).
    rewrite Z, V3, V4, !Rabs_right by lra. lra. }
  pose proof eps_num as En. assert (P : per_call 2 1 = (101 / 5) * eps) by (unfold per_call; cbn [INR]; field).
  assert (S1 : INR (List.length million_turns) * per_call 2 1 <= / 2) by (rewrite L, P, En; lra).
  split; [exact C79_best_trig|]. split; [rewrite En; lra|]. split; [exact Ri|]. split; [|split; [exact S1|]].
  - intros i j. apply (C79_rotations_finite 2 1); auto using C79_best_trig, C79_best_trig_total; [|rewrite En; cbn [INR]; lra|].
    + split; [lra|]. apply pow_R1_Rle. lra.
    + assert (7 <= 2 ^ 40) by (cbn [pow]; lra). lra.
  - rewrite L, P, En. cbn [pow]. lra.
Qed.
Theorem C79_vector_rotate_finite {TF : NumTrig float} (k : nat) (v : vec float) (deg : float) :
  accurate_trig k TF -> (forall x, finite x -> finite (nsin x) /\ finite (ncos x)) -> INR k * eps <= 1 ->
  finite deg -> Rabs (val deg) <= 2 ^ 40 -> finite (vx v) -> finite (vy v) -> Rabs (val (vx v)) <= 2 ^ 90 -> Rabs (val (vy v)) <= 2 ^ 90 ->
  finite (vx (v_rotate v deg)) /\ finite (vy (v_rotate v deg)).
Proof.
  intros Acc Tot Hk Fd Bd Fx Fy Bx By. pose proof (radians_fin k deg Acc Fd Bd) as Fr. destruct (Tot _ Fr) as [Fs Fc].
  destruct Acc as [_ Acc]. destruct (Acc (radians deg)) as [As Ac]. specialize (As Fs). specialize (Ac Fc). destruct As as [_ As], Ac as [_ Ac].
  assert (Bs : Rabs (val (nsin (radians deg))) <= 2).
  { replace (val (nsin (radians deg))) with ((val (nsin (radians deg)) - sin (val (radians deg))) + sin (val (radians deg))) by ring.
    eapply Rle_trans; [apply Rabs_triang|]. pose proof (SIN_bound (val (radians deg))). assert (Rabs (sin (val (radians deg))) <= 1) by (apply Rabs_le; lra). lra. }
  assert (Bc : Rabs (val (ncos (radians deg))) <= 2).
  { replace (val (ncos (radians deg))) with ((val (ncos (radians deg)) - cos (val (radians deg))) + cos (val (radians deg))) by ring.
    eapply Rle_trans; [apply Rabs_triang|]. pose proof (COS_bound (val (radians deg))). assert (Rabs (cos (val (radians deg))) <= 1) by (apply Rabs_le; lra). lra. }
  assert (P90 : 1 <= 2 ^ 90) by (apply pow_R1_Rle; lra).
  assert (P100 : 1024 * 2 ^ 90 = 2 ^ 100) by (replace 100%nat with (10 + 90)%nat by lia; rewrite pow_add; f_equal; cbn [pow]; ring).
  assert (Mf : forall u w, finite u -> finite w -> Rabs (val u) <= 2 -> Rabs (val w) <= 2 ^ 90 -> finite (u * w)%float /\ Rabs (val (u * w)%float) <= 4 * 2 ^ 90).
  { intros u w Fu Fw Bu Bw. assert (L : Rabs (val u * val w) <= 2 * 2 ^ 90) by (rewrite Rabs_mult; apply Rmult_le_compat; auto using Rabs_pos).
    assert (F : finite (u * w)%float) by (apply mul_fin; auto; apply rnd_small; lra).
    split; [exact F|]. destruct (mul_ok _ _ F) as (_ & _ & ->). replace (4 * 2 ^ 90) with (2 * (2 * 2 ^ 90)) by ring. apply rnd_twice; lra. }
  destruct (Mf _ _ Fc Fx Bc Bx) as [F1 B1]. destruct (Mf _ _ Fs Fy Bs By) as [F2 B2]. destruct (Mf _ _ Fs Fx Bs Bx) as [F3 B3]. destruct (Mf _ _ Fc Fy Bc By) as [F4 B4].
  unfold v_rotate. cbn [vx vy]. ops. split.
  - apply sub_fin; auto. apply rnd_small. unfold Rminus. eapply Rle_trans; [apply Rabs_triang|]. rewrite Rabs_Ropp. lra.
  - apply add_fin; auto. apply rnd_small. eapply Rle_trans; [apply Rabs_triang|]. lra.
Qed.
Example C79_example_vector_rotate : let w := @v_rotate float NumFloat BestTrig (V 3%float 4%float) 30%float in
  finite (vx w) /\ finite (vy w) /\ Rabs (exact_length w - 5) <= / 2 ^ 45.
Proof.
  assert (V3 : val 3%float = 3) by (apply (const_ok 3); vm_compute; discriminate).
  assert (V4 : val 4%float = 4) by (apply (const_ok 4); vm_compute; discriminate).
  assert (V30 : val 30%float = 30) by (apply (const_ok 30); vm_compute; discriminate).
  pose proof eps_num as En. pose proof eps_pos. pose proof tiny_pos. pose proof tiny_le as Tl.
  assert (T1 : tiny <= 1) by (eapply Rle_trans; [exact Tl|]; rewrite <- Rinv_1; apply Rinv_le_contravar; [lra|apply pow_R1_Rle; lra]).
  assert (P90 : 100 <= 2 ^ 90) by (replace 90%nat with (10 + 80)%nat by lia; rewrite pow_add; assert (1 <= 2 ^ 80) by (apply pow_R1_Rle; lra); cbn [pow] in *; lra).
  assert (P40 : 100 <= 2 ^ 40) by (cbn [pow]; lra).
  destruct (@C79_vector_rotate_finite BestTrig 2 (V 3%float 4%float) 30%float) as [Fx Fy];
    [exact C79_best_trig|exact C79_best_trig_total|cbn [INR]; rewrite En; lra|reflexivity|rewrite V30, Rabs_right; lra|reflexivity|reflexivity
    |cbn [vx]; rewrite V3, Rabs_right; lra|cbn [vy]; rewrite V4, Rabs_right; lra|].
  intros w. split; [exact Fx|]. split; [exact Fy|].
  assert (L5 : exact_length (V 3%float 4%float) = 5).
  { unfold exact_length. cbn [vx vy]. rewrite V3, V4. replace (3 * 3 + 4 * 4) with (5 * 5) by ring. apply sqrt_square. lra. }
  destruct (@C79_vector_rotate BestTrig 2 30 (V 3%float 4%float) 30%float) as [_ A];
    [exact C79_best_trig|rewrite V30, Rabs_right; lra|cbn [INR]; rewrite En; lra|exact Fx|exact Fy|].
  fold w in A. rewrite L5 in A. eapply Rle_trans; [exact A|]. unfold per_call. cbn [INR]. rewrite En.
  apply Rle_trans with ((2 * (1 + 1 + 1 + 30 / 10) + 14) * / 2 ^ 53 * 7); [|cbn [pow]; lra].
  apply Rmult_le_compat; cbn [pow]; lra.
Qed.
