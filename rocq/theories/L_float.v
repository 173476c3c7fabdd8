(* Lemmas on doubles: one operation is the rounded exact operation; errors of composed operations. *)
From Coq Require Import Reals Floats ZArith List Lra Lia Psatz.
From Flocq Require Import Core BinarySingleNaN PrimFloat Relative Plus_error.
Require Import Verif.Base Verif.NumFloat Verif.NumR Verif.S_float.
Local Open Scope R_scope.

Notation fexp64 := (FLT_exp (-1074) 53).
Notation rnd := (round radix2 fexp64 ZnearestE).
#[local] Instance prec_pos : Prec_gt_0 53 := eq_refl.

Lemma val_format x : generic_format radix2 fexp64 (val x).
Proof. apply generic_format_B2R. Qed.
Lemma finite_B x : finite x <-> BinarySingleNaN.is_finite (Prim2B x) = true.
Proof. unfold finite. now rewrite is_finite_equiv. Qed.

Lemma eps_pos : 0 < eps. Proof. unfold eps. apply Rinv_0_lt_compat. apply pow_lt. lra. Qed.
Lemma tiny_pos : 0 < tiny. Proof. unfold tiny. apply Rinv_0_lt_compat. apply pow_lt. lra. Qed.
Lemma bpow_pow n : bpow radix2 (Z.of_nat n) = 2 ^ n.
Proof.
  induction n as [|n IH]; [reflexivity|]. rewrite Nat2Z.inj_succ. unfold Z.succ. rewrite bpow_plus_1, IH. reflexivity.
Qed.
Lemma eps_bpow : / 2 * bpow radix2 (- (53) + 1) = eps.
Proof.
  unfold eps. replace (- (53) + 1)%Z with (Z.opp (Z.of_nat 52)) by reflexivity.
  rewrite bpow_opp, bpow_pow, <- Rinv_mult, tech_pow_Rmult. reflexivity.
Qed.
Lemma tiny_bpow : / 2 * bpow radix2 (-1074) = eps * tiny.
Proof.
  unfold eps, tiny. replace (-1074)%Z with (Z.opp (Z.of_nat 1074)) by reflexivity.
  rewrite bpow_opp, bpow_pow, <- !Rinv_mult, tech_pow_Rmult, <- pow_add. reflexivity.
Qed.

Lemma Bplus_finite (x y : binary_float 53 1024) : BinarySingleNaN.is_finite (@Bplus 53 1024 Hprec Hmax mode_NE x y) = true -> BinarySingleNaN.is_finite x = true /\ BinarySingleNaN.is_finite y = true.
Proof. destruct x as [| | |], y as [| | |]; cbn; auto; try discriminate; destruct (Bool.eqb _ _); discriminate. Qed.

Lemma overflow_not_finite (z : binary_float prec emax) b : B2SF z = binary_overflow prec emax mode_NE b -> BinarySingleNaN.is_finite z = false.
Proof. destruct z; auto; discriminate. Qed.

Lemma add_ok x y : finite (x + y)%float -> finite x /\ finite y /\ val (x + y)%float = rnd (val x + val y).
Proof.
  intros H. apply finite_B in H. rewrite add_equiv in H. destruct (Bplus_finite _ _ H) as [A B].
  split; [now apply finite_B|]. split; [now apply finite_B|]. unfold val. rewrite add_equiv.
  pose proof (Bplus_correct prec emax Hprec Hmax mode_NE _ _ A B) as C. destruct (Rlt_bool _ _); [apply C|].
  destruct C as [C _]. rewrite (overflow_not_finite _ _ C) in H. discriminate.
Qed.
Lemma sub_ok x y : finite (x - y)%float -> finite x /\ finite y /\ val (x - y)%float = rnd (val x - val y).
Proof.
  intros H. apply finite_B in H. rewrite sub_equiv in H.
  assert (BinarySingleNaN.is_finite (Prim2B x) = true /\ BinarySingleNaN.is_finite (Prim2B y) = true) as [A B].
  { destruct (Prim2B x) as [| | |], (Prim2B y) as [| | |]; cbn in H |- *; auto; try discriminate; destruct (Bool.eqb _ _); discriminate. }
  split; [now apply finite_B|]. split; [now apply finite_B|]. unfold val. rewrite sub_equiv.
  pose proof (Bminus_correct prec emax Hprec Hmax mode_NE _ _ A B) as C. destruct (Rlt_bool _ _); [apply C|].
  destruct C as [C _]. rewrite (overflow_not_finite _ _ C) in H. discriminate.
Qed.
Lemma mul_ok x y : finite (x * y)%float -> finite x /\ finite y /\ val (x * y)%float = rnd (val x * val y).
Proof.
  intros H. apply finite_B in H. rewrite mul_equiv in H.
  pose proof (Bmult_correct prec emax Hprec Hmax mode_NE (Prim2B x) (Prim2B y)) as C.
  destruct (Rlt_bool _ _); [|rewrite (overflow_not_finite _ _ C) in H; discriminate].
  destruct C as (C1 & C2 & _). rewrite C2 in H. apply andb_prop in H as [A B].
  split; [now apply finite_B|]. split; [now apply finite_B|]. unfold val. now rewrite mul_equiv.
Qed.
Lemma div_ok x y : finite y -> val y <> 0 -> finite (x / y)%float -> finite x /\ val (x / y)%float = rnd (val x / val y).
Proof.
  intros Hy Ny H. apply finite_B in H. rewrite div_equiv in H.
  pose proof (Bdiv_correct prec emax Hprec Hmax mode_NE (Prim2B x) (Prim2B y) Ny) as C.
  destruct (Rlt_bool _ _); [|rewrite (overflow_not_finite _ _ C) in H; discriminate].
  destruct C as (C1 & C2 & _). rewrite C2 in H.
  split; [now apply finite_B|]. unfold val. now rewrite div_equiv.
Qed.
Lemma opp_ok x : (finite (- x)%float <-> finite x) /\ val (- x)%float = - val x.
Proof.
  split.
  - rewrite !finite_B, opp_equiv, is_finite_Bopp. tauto.
  - unfold val. now rewrite opp_equiv, B2R_Bopp.
Qed.
(* the other direction: no overflow, then finite *)
Ltac no_overflow C H :=
  match type of C with context [Rlt_bool ?a ?b] =>
    let q := fresh in destruct (Rlt_bool_spec a b) as [q|q];
    [|exfalso; apply Rlt_not_le in H; apply H; exact q] end.
Lemma add_fin x y : finite x -> finite y -> Rabs (rnd (val x + val y)) < bpow radix2 1024 -> finite (x + y)%float.
Proof.
  intros A B H. apply finite_B in A, B. pose proof (Bplus_correct prec emax Hprec Hmax mode_NE _ _ A B) as C.
  apply finite_B. rewrite add_equiv. no_overflow C H. apply C.
Qed.
Lemma sub_fin x y : finite x -> finite y -> Rabs (rnd (val x - val y)) < bpow radix2 1024 -> finite (x - y)%float.
Proof.
  intros A B H. apply finite_B in A, B. pose proof (Bminus_correct prec emax Hprec Hmax mode_NE _ _ A B) as C.
  apply finite_B. rewrite sub_equiv. no_overflow C H. apply C.
Qed.
Lemma mul_fin x y : finite x -> finite y -> Rabs (rnd (val x * val y)) < bpow radix2 1024 -> finite (x * y)%float.
Proof.
  intros A B H. apply finite_B in A, B. pose proof (Bmult_correct prec emax Hprec Hmax mode_NE (Prim2B x) (Prim2B y)) as C.
  apply finite_B. rewrite mul_equiv. no_overflow C H.
  destruct C as (_ & -> & _). now rewrite A, B.
Qed.
Lemma div_fin x y : finite x -> val y <> 0 -> Rabs (rnd (val x / val y)) < bpow radix2 1024 -> finite (x / y)%float.
Proof.
  intros A Ny H. apply finite_B in A. pose proof (Bdiv_correct prec emax Hprec Hmax mode_NE (Prim2B x) (Prim2B y) Ny) as C.
  apply finite_B. rewrite div_equiv. no_overflow C H. destruct C as (_ & -> & _). exact A.
Qed.

(* errors of one operation *)
Lemma err_sum a b : generic_format radix2 fexp64 a -> generic_format radix2 fexp64 b ->
  Rabs (rnd (a + b) - (a + b)) <= eps * Rabs (a + b).
Proof.
  intros Ha Hb. destruct (@FLT_plus_error_N_ex radix2 (-1074) 53 prec_pos (fun x => negb (Z.even x)) a b Ha Hb) as (d & Hd & E).
  rewrite E. replace ((a + b) * (1 + d) - (a + b)) with (d * (a + b)) by ring. rewrite Rabs_mult.
  apply Rmult_le_compat_r; [apply Rabs_pos|]. eapply Rle_trans; [exact Hd|].
  unfold u_ro. rewrite eps_bpow. pose proof eps_pos. apply Rmult_le_reg_r with (1 + eps); [lra|].
  unfold Rdiv. rewrite Rmult_assoc, Rinv_l by lra. nra.
Qed.
Lemma err_any r : Rabs (rnd r - r) <= eps * (Rabs r + tiny).
Proof.
  destruct (error_N_FLT radix2 (-1074) 53 eq_refl (fun x => negb (Z.even x)) r) as (d & e & Hd & He & _ & E).
  rewrite E. rewrite eps_bpow in Hd. rewrite tiny_bpow in He.
  replace (r * (1 + d) + e - r) with (d * r + e) by ring.
  eapply Rle_trans; [apply Rabs_triang|]. rewrite Rabs_mult.
  pose proof (Rabs_pos r). pose proof (Rmult_le_compat_r (Rabs r) _ _ ltac:(lra) Hd). lra.
Qed.

(* n: how many roundings, A: the size of the data *)
Definition near (n : nat) (A : R) (x : float) (r : R) : Prop :=
  Rabs r <= A /\ (finite x -> Rabs (val x - r) <= ((1 + eps) ^ n - 1) * A).

Lemma pow1 n : 1 <= (1 + eps) ^ n.
Proof. apply pow_R1_Rle. pose proof eps_pos. lra. Qed.
Lemma powle n m : (n <= m)%nat -> (1 + eps) ^ n <= (1 + eps) ^ m.
Proof. intros. apply Rle_pow; auto. pose proof eps_pos. lra. Qed.

Lemma near_leaf x : near 0 (Rabs (val x)) x (val x).
Proof. split; [lra|]. intros _. replace (val x - val x) with 0 by ring. rewrite Rabs_R0. cbn. lra. Qed.
Lemma near_weaken n m A B x r : (n <= m)%nat -> A <= B -> near n A x r -> near m B x r.
Proof.
  intros Hn HA [H1 H2]. split; [lra|]. intros F. eapply Rle_trans; [apply H2, F|].
  pose proof (powle _ _ Hn). pose proof (pow1 n). pose proof (Rabs_pos r). apply Rmult_le_compat; lra.
Qed.
Lemma near_size n A x r : near n A x r -> finite x -> Rabs (val x) <= (1 + eps) ^ n * A.
Proof.
  intros [H1 H2] F. specialize (H2 F). replace (val x) with ((val x - r) + r) by ring.
  eapply Rle_trans; [apply Rabs_triang|]. lra.
Qed.
Lemma near_sum n m A B x y r s (z : float) (t : R) : near n A x r -> near m B y s ->
  (finite z -> finite x /\ finite y /\ Rabs (val z - t) <= eps * Rabs t /\ t = val x + val y) ->
  near (S (Nat.max n m)) (A + B) z (r + s).
Proof.
  intros X Y Z. set (k := Nat.max n m).
  apply near_weaken with (m := k) (B := A) in X; [|apply Nat.le_max_l|lra].
  apply near_weaken with (m := k) (B := B) in Y; [|apply Nat.le_max_r|lra].
  split; [destruct X, Y; eapply Rle_trans; [apply Rabs_triang|]; lra|].
  intros F. destruct (Z F) as (Fx & Fy & E & ->).
  pose proof (near_size _ _ _ _ X Fx) as Sx. pose proof (near_size _ _ _ _ Y Fy) as Sy.
  destruct X as [_ X], Y as [_ Y]. specialize (X Fx). specialize (Y Fy).
  assert (Rabs (val x + val y) <= (1 + eps) ^ k * A + (1 + eps) ^ k * B) as Sm by (eapply Rle_trans; [apply Rabs_triang|]; lra).
  replace (val z - (r + s)) with ((val z - (val x + val y)) + ((val x - r) + (val y - s))) by ring.
  eapply Rle_trans; [apply Rabs_triang|].
  pose proof (Rabs_triang (val x - r) (val y - s)). pose proof eps_pos.
  pose proof (Rmult_le_compat_l eps _ _ ltac:(lra) Sm). cbn [pow]. lra.
Qed.
Lemma near_add n m A B x y r s : near n A x r -> near m B y s -> near (S (Nat.max n m)) (A + B) (x + y)%float (r + s).
Proof.
  intros X Y. eapply near_sum; [exact X|exact Y|]. intros F. destruct (add_ok _ _ F) as (Fx & Fy & E).
  split; [auto|split; [auto|split; [|reflexivity]]]. rewrite E. apply err_sum; apply val_format.
Qed.
Lemma near_opp n A x r : near n A x r -> near n A (- x)%float (- r).
Proof.
  intros [H1 H2]. destruct (opp_ok x) as [Fo Vo]. split; [now rewrite Rabs_Ropp|]. intros F. apply Fo in F. specialize (H2 F).
  rewrite Vo. replace (- val x - - r) with (- (val x - r)) by ring. now rewrite Rabs_Ropp.
Qed.
Lemma near_sub n m A B x y r s : near n A x r -> near m B y s -> near (S (Nat.max n m)) (A + B) (x - y)%float (r - s).
Proof.
  intros X Y. unfold Rminus at 1. eapply near_sum; [exact X|exact (near_opp _ _ _ _ Y)|]. intros F. destruct (sub_ok _ _ F) as (Fx & Fy & E).
  destruct (opp_ok y) as [Fo Vo].
  split; [auto|split; [now apply Fo|split; [|reflexivity]]]. rewrite E. rewrite Vo.
  change (val x - val y) with (val x + - val y). apply err_sum; [apply val_format|apply generic_format_opp, val_format].
Qed.
Lemma near_round k C (z : float) (t r : R) (B : R) : Rabs r <= B -> 0 <= C ->
  Rabs (t - r) <= ((1 + eps) ^ k - 1) * B -> Rabs (val z - t) <= eps * (Rabs t + tiny) ->
  Rabs (val z - r) <= ((1 + eps) ^ (S k) - 1) * (B + tiny).
Proof.
  intros Hr _ Ht Hz. pose proof eps_pos. pose proof tiny_pos. pose proof (pow1 k).
  assert (Rabs t <= (1 + eps) ^ k * B) as St.
  { replace t with ((t - r) + r) by ring. eapply Rle_trans; [apply Rabs_triang|]. lra. }
  replace (val z - r) with ((val z - t) + (t - r)) by ring. eapply Rle_trans; [apply Rabs_triang|].
  pose proof (Rmult_le_compat_l eps _ _ ltac:(lra) St). cbn [pow].
  assert (eps * tiny <= ((1 + eps) * (1 + eps) ^ k - 1) * tiny).
  { apply Rmult_le_compat_r; [lra|]. assert (1 * (1 + eps) <= (1 + eps) * (1 + eps) ^ k) by (rewrite (Rmult_comm 1); apply Rmult_le_compat_l; lra). lra. }
  lra.
Qed.
Lemma near_mul n m A B x y r s : near n A x r -> near m B y s -> near (S (n + m)) (A * B + tiny) (x * y)%float (r * s).
Proof.
  intros X Y. pose proof tiny_pos. assert (Rabs (r * s) <= A * B) as Hrs.
  { rewrite Rabs_mult. destruct X, Y. apply Rmult_le_compat; auto using Rabs_pos. }
  split; [lra|]. intros F. destruct (mul_ok _ _ F) as (Fx & Fy & E).
  pose proof (near_size _ _ _ _ Y Fy) as Sy.
  destruct X as [X0 X], Y as [Y0 Y]. specialize (X Fx). specialize (Y Fy).
  apply near_round with (t := val x * val y) (C := 0); [exact Hrs|lra| |rewrite E; apply err_any].
  replace (val x * val y - r * s) with ((val x - r) * val y + r * (val y - s)) by ring.
  eapply Rle_trans; [apply Rabs_triang|]. rewrite !Rabs_mult.
  pose proof (Rmult_le_compat _ _ _ _ (Rabs_pos _) (Rabs_pos _) X Sy).
  pose proof (Rmult_le_compat _ _ _ _ (Rabs_pos _) (Rabs_pos _) X0 Y). rewrite pow_add. lra.
Qed.
Lemma near_div n A x y r : finite y -> val y <> 0 -> near n A x r -> near (S n) (A / Rabs (val y) + tiny) (x / y)%float (r / val y).
Proof.
  intros Fy Ny X. pose proof tiny_pos. pose proof (Rinv_0_lt_compat _ (Rabs_pos_lt _ Ny)) as P.
  assert (Rabs (r / val y) <= A / Rabs (val y)) as Hr.
  { unfold Rdiv. rewrite Rabs_mult, Rabs_Rinv by auto. apply Rmult_le_compat_r; [lra|]. apply X. }
  split; [lra|]. intros F. destruct (div_ok _ _ Fy Ny F) as (Fx & E). destruct X as [X0 X]. specialize (X Fx).
  apply near_round with (t := val x / val y) (C := 0); [exact Hr|lra| |rewrite E; apply err_any].
  replace (val x / val y - r / val y) with ((val x - r) * / val y) by (unfold Rdiv; ring).
  rewrite Rabs_mult, Rabs_Rinv by auto. unfold Rdiv. rewrite <- Rmult_assoc. apply Rmult_le_compat_r; lra.
Qed.

(* (1 + eps)^n - 1 is about n eps *)
Lemma bernoulli n : (1 + eps) ^ n * (1 - INR n * eps) <= 1.
Proof.
  induction n as [|n IH]; [cbn; lra|]. rewrite S_INR. cbn [pow]. pose proof eps_pos. pose proof (pow1 n).
  pose proof (pos_INR n). 
  assert ((1 + eps) * (1 - (INR n + 1) * eps) <= 1 - INR n * eps) by nra.
  assert ((1 + eps) ^ n * ((1 + eps) * (1 - (INR n + 1) * eps)) <= (1 + eps) ^ n * (1 - INR n * eps)) by (apply Rmult_le_compat_l; lra).
  nra.
Qed.
Lemma eps_lt : eps < / 2 ^ 40.
Proof. unfold eps. apply Rinv_lt_contravar; [apply Rmult_lt_0_compat; apply pow_lt; lra|]. apply Rlt_pow; [lra|lia]. Qed.
Lemma growth n : (n <= 1000)%nat -> (1 + eps) ^ n - 1 <= INR (S n) * eps.
Proof.
  intros H. pose proof (bernoulli n) as B. pose proof eps_pos. pose proof (pos_INR n).
  assert (INR n <= 1000) by (replace 1000 with (INR 1000) by (rewrite INR_IZR_INZ; reflexivity); apply le_INR; lia).
  assert (Hs : eps < / 10000000).
  { eapply Rlt_trans; [apply eps_lt|]. apply Rinv_lt_contravar; [lra|]. cbn. lra. }
  rewrite S_INR. set (k := INR n) in *. set (w := (1 + eps) ^ n) in *.
  assert (k * eps <= 1 / 10000) by nra.
  assert (1 <= (1 + (k + 1) * eps) * (1 - k * eps)).
  { replace ((1 + (k + 1) * eps) * (1 - k * eps)) with (1 + eps * (1 - (k + 1) * (k * eps))) by ring.
    assert ((k + 1) * (k * eps) <= 1) by nra. nra. }
  assert (w * (1 - k * eps) <= (1 + (k + 1) * eps) * (1 - k * eps)) by lra.
  assert (w <= 1 + (k + 1) * eps); [|lra]. apply Rmult_le_reg_r with (1 - k * eps); lra.
Qed.
