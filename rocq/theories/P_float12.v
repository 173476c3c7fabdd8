(* Property theorems C87: vector fields on doubles. *)
From Coq Require Import Reals Floats ZArith List Lra Lia Psatz Bool.
From Flocq Require Import Core BinarySingleNaN PrimFloat.
Require Import Verif.Base Verif.NumFloat Verif.NumR Verif.L_real Verif.M_vector Verif.M_bbox Verif.M_vecfield Verif.S_vecfield.
Require Import Verif.S_float Verif.L_float Verif.L_float2 Verif.P_float Verif.P_float4 Verif.P_float6 Verif.P_float9 Verif.P_float11 Verif.P_lookup.
Import ListNotations.
Set Warnings "-inexact-float".
Local Open Scope R_scope.

(* ---------------- sizes ---------------- *)

(* a finite double of magnitude at most 2^k *)
Definition sized (k : Z) (x : float) : Prop := finite x /\ Rabs (val x) <= bpow radix2 k.

Lemma rnd_bpow k : (-1000 <= k)%Z -> rnd (bpow radix2 k) = bpow radix2 k.
Proof. intros H. apply round_generic; [apply valid_rnd_N|]. apply generic_format_bpow. unfold fexp64, FLT_exp. lia. Qed.
Lemma rnd_abs_bpow k r : (-1000 <= k)%Z -> Rabs r <= bpow radix2 k -> Rabs (rnd r) <= bpow radix2 k.
Proof.
  intros Hk H. apply Rabs_le_inv in H. apply Rabs_le. split.
  - rewrite <- (rnd_bpow k Hk) at 1. rewrite <- rnd_opp. apply rnd_le. lra.
  - rewrite <- (rnd_bpow k Hk). apply rnd_le. lra.
Qed.
Lemma rnd_fits k r : (-1000 <= k < 1024)%Z -> Rabs r <= bpow radix2 k -> Rabs (rnd r) < bpow radix2 1024.
Proof. intros Hk H. apply Rle_lt_trans with (bpow radix2 k); [apply rnd_abs_bpow; [lia|exact H]|apply bpow_lt; lia]. Qed.
Lemma sized_le k l x : (k <= l)%Z -> sized k x -> sized l x.
Proof. intros H [F S]. split; [exact F|]. eapply Rle_trans; [exact S|]. apply bpow_le. lia. Qed.
Lemma sized_add k x y : (-1000 <= k < 1023)%Z -> sized k x -> sized k y -> sized (k + 1) (x + y)%float.
Proof.
  intros Hk [Fx Sx] [Fy Sy]. assert (B : Rabs (val x + val y) <= bpow radix2 (k + 1)).
  { rewrite bpow_plus. eapply Rle_trans; [apply Rabs_triang|]. change (bpow radix2 1) with 2. lra. }
  assert (F : finite (x + y)%float) by (apply add_fin; auto; apply rnd_fits with (k + 1)%Z; [lia|exact B]).
  split; [exact F|]. destruct (add_ok _ _ F) as (_ & _ & ->). apply rnd_abs_bpow; [lia|exact B].
Qed.
Lemma sized_sub k x y : (-1000 <= k < 1023)%Z -> sized k x -> sized k y -> sized (k + 1) (x - y)%float.
Proof.
  intros Hk [Fx Sx] [Fy Sy]. assert (B : Rabs (val x - val y) <= bpow radix2 (k + 1)).
  { rewrite bpow_plus. unfold Rminus. eapply Rle_trans; [apply Rabs_triang|]. rewrite Rabs_Ropp. change (bpow radix2 1) with 2. lra. }
  assert (F : finite (x - y)%float) by (apply sub_fin; auto; apply rnd_fits with (k + 1)%Z; [lia|exact B]).
  split; [exact F|]. destruct (sub_ok _ _ F) as (_ & _ & ->). apply rnd_abs_bpow; [lia|exact B].
Qed.
Lemma sized_mul k l x y : (-1000 <= k + l < 1024)%Z -> sized k x -> sized l y -> sized (k + l) (x * y)%float.
Proof.
  intros Hk [Fx Sx] [Fy Sy]. assert (B : Rabs (val x * val y) <= bpow radix2 (k + l)).
  { rewrite bpow_plus, Rabs_mult. apply Rmult_le_compat; auto using Rabs_pos. }
  assert (F : finite (x * y)%float) by (apply mul_fin; auto; apply rnd_fits with (k + l)%Z; [lia|exact B]).
  split; [exact F|]. destruct (mul_ok _ _ F) as (_ & _ & ->). apply rnd_abs_bpow; [lia|exact B].
Qed.
Lemma sized_div k x y : (-1000 <= k < 1024)%Z -> sized k x -> finite y -> 1 <= val y -> sized k (x / y)%float.
Proof.
  intros Hk [Fx Sx] Fy Sy. assert (B : Rabs (val x / val y) <= bpow radix2 k).
  { unfold Rdiv. rewrite Rabs_mult, (Rabs_right (/ _)) by (apply Rle_ge, Rlt_le, Rinv_0_lt_compat; lra).
    rewrite <- (Rmult_1_r (bpow radix2 k)). apply Rmult_le_compat; auto using Rabs_pos.
    - apply Rlt_le, Rinv_0_lt_compat; lra.
    - rewrite <- Rinv_1. apply Rinv_le_contravar; lra. }
  assert (N : val y <> 0) by lra.
  assert (F : finite (x / y)%float) by (apply div_fin; auto; apply rnd_fits with k; [lia|exact B]).
  split; [exact F|]. destruct (div_ok _ _ Fy N F) as (_ & ->). apply rnd_abs_bpow; [lia|exact B].
Qed.
Lemma nat_const n : (Z.of_nat n <= 2 ^ 50)%Z -> finite (float_ofZ (Z.of_nat n)) /\ val (float_ofZ (Z.of_nat n)) = INR n.
Proof. intros H. rewrite INR_IZR_INZ. apply const_ok. unfold max_whole. lia. Qed.
Lemma nat_sized n : (Z.of_nat n <= 2 ^ 50)%Z -> sized 50 (float_ofZ (Z.of_nat n)).
Proof.
  intros H. destruct (nat_const n H) as [F V]. split; [exact F|]. rewrite V, Rabs_right by (apply Rle_ge, pos_INR). rewrite INR_IZR_INZ.
  change (bpow radix2 50) with (IZR (2 ^ 50)). now apply IZR_le.
Qed.

(* ---------------- the coordinates of a mesh ---------------- *)

(* a side of a mesh: n coordinates from lo to hi *)
Definition side (lo hi : float) (n : nat) : Prop :=
  sized 960 lo /\ sized 960 hi /\ val lo < val hi /\ (2 <= n)%nat /\ (Z.of_nat n <= 2 ^ 50)%Z.
(* how far a coordinate may be off *)
Definition slack (lo hi : float) (n : nat) : R := 5 * eps * (Rabs (val lo) + 2 * (val hi - val lo) + INR n * tiny).
(* the step is more than twice that *)
Definition coarse (lo hi : float) (n : nat) : Prop := 2 * slack lo hi n < (val hi - val lo) / INR (n - 1).

Lemma side_const lo hi n : side lo hi n -> finite (float_ofZ (Z.of_nat (n - 1))) /\ val (float_ofZ (Z.of_nat (n - 1))) = INR (n - 1) /\ 1 <= INR (n - 1).
Proof.
  intros (_ & _ & _ & H1 & H2). destruct (nat_const (n - 1) ltac:(lia)) as [F V]. repeat split; auto. change 1 with (INR 1). apply le_INR. lia.
Qed.

Lemma linspace_sized lo hi n i : side lo hi n -> (i < n)%nat -> sized 1013 (linspace lo hi n i).
Proof.
  intros Sd Hi. destruct (side_const lo hi n Sd) as (Fd & Vd & Gd). destruct Sd as (Sl & Sh & L & N1 & N2).
  unfold linspace. replace (1 <? n)%nat with true by (symmetry; apply Nat.ltb_lt; lia). cbn [andb].
  destruct (Nat.eqb i (n - 1)); [apply sized_le with 960%Z; [lia|exact Sh]|]. cbv zeta. cbn [nofZ nadd nmul ndiv nsub neqb NumFloat].
  pose proof (nat_sized i ltac:(lia)) as Si. pose proof (sized_sub 960 hi lo ltac:(lia) Sh Sl) as Sw.
  pose proof (sized_div 961 _ _ ltac:(lia) Sw Fd ltac:(lra)) as Ss.
  pose proof (sized_div 50 _ _ ltac:(lia) Si Fd ltac:(lra)) as Sk.
  replace 1013%Z with (1012 + 1)%Z by lia. apply sized_add; [lia| |apply sized_le with 960%Z; [lia|exact Sl]].
  destruct (PrimFloat.eqb _ _).
  - apply sized_le with (50 + 961)%Z; [lia|]. apply sized_mul; [lia|exact Sk|exact Sw].
  - apply sized_le with (50 + 961)%Z; [lia|]. apply sized_mul; [lia|exact Si|exact Ss].
Qed.

Lemma linspace_close lo hi n i : side lo hi n -> (i < n)%nat -> Rabs (val (linspace lo hi n i) - node (val lo) (val hi) n i) <= slack lo hi n.
Proof.
  intros Sd Hi. pose proof (linspace_sized lo hi n i Sd Hi) as [F _]. pose proof (side_const lo hi n Sd) as (Fd & Vd & Gd). pose proof Sd as (Sl & Sh & L & N1 & N2).
  pose proof eps_pos. pose proof tiny_pos as Tp. pose proof tiny_small as Ts. pose proof (Rabs_pos (val lo)).
  assert (Nn : 2 <= INR n) by (change 2 with (INR 2); apply le_INR; lia).
  assert (Pt : 0 <= INR n * tiny) by (apply Rmult_le_pos; lra).
  revert F. unfold linspace. replace (1 <? n)%nat with true by (symmetry; apply Nat.ltb_lt; lia). cbn [andb].
  destruct (Nat.eqb_spec i (n - 1)) as [->|Ni].
  { intros _. unfold node, slack. replace (val hi - _) with 0 by (field; lra). rewrite Rabs_R0. apply Rmult_le_pos; lra. }
  cbv zeta. cbn [nofZ nadd nmul ndiv nsub neqb NumFloat].
  destruct (nat_const i ltac:(lia)) as [Fi Vi]. pose proof (pos_INR i) as Pi.
  assert (Ii : INR i + 1 <= INR (n - 1)) by (rewrite <- S_INR; apply le_INR; lia).
  assert (In : INR i + 1 <= INR n) by (rewrite <- S_INR; apply le_INR; lia).
  assert (Q : INR i / INR (n - 1) <= 1). { apply Rmult_le_reg_r with (INR (n - 1)); [lra|]. unfold Rdiv. rewrite Rmult_assoc, Rinv_l by lra. lra. }
  assert (Q0 : 0 <= INR i / INR (n - 1)) by (apply Rmult_le_pos; [lra|apply Rlt_le, Rinv_0_lt_compat; lra]).
  pose proof (near_diff hi lo) as Nw. rewrite (Rabs_right (val hi - val lo)) in Nw by lra.
  destruct (PrimFloat.eqb _ _); intros F.
  - pose proof (near_add _ _ _ _ _ _ _ _ (near_mul _ _ _ _ _ _ _ _ (near_div _ _ _ _ _ Fd ltac:(lra) (near_leaf (float_ofZ (Z.of_nat i)))) Nw) (near_leaf lo)) as K.
    rewrite Vi, Vd, (Rabs_right (INR i)), (Rabs_right (INR (n - 1))) in K by lra.
    replace (node (val lo) (val hi) n i) with (INR i / INR (n - 1) * (val hi - val lo) + val lo) by (unfold node; field; lra).
    eapply near_use; [exact K|lia|cbn; lra| |exact F].
    assert ((INR i / INR (n - 1) + tiny) * (val hi - val lo) <= 2 * (val hi - val lo)) by (apply Rmult_le_compat_r; lra).
    assert (2 * tiny <= INR n * tiny) by (apply Rmult_le_compat_r; lra). lra.
  - pose proof (near_add _ _ _ _ _ _ _ _ (near_mul _ _ _ _ _ _ _ _ (near_leaf (float_ofZ (Z.of_nat i))) (near_div _ _ _ _ _ Fd ltac:(lra) Nw)) (near_leaf lo)) as K.
    rewrite Vi, Vd, (Rabs_right (INR i)), (Rabs_right (INR (n - 1))) in K by lra.
    replace (node (val lo) (val hi) n i) with (INR i * ((val hi - val lo) / INR (n - 1)) + val lo) by (unfold node; field; lra).
    eapply near_use; [exact K|lia|cbn; lra| |exact F].
    replace (INR i * ((val hi - val lo) / INR (n - 1) + tiny)) with (INR i / INR (n - 1) * (val hi - val lo) + INR i * tiny) by (field; lra).
    assert (INR i / INR (n - 1) * (val hi - val lo) <= 1 * (val hi - val lo)) by (apply Rmult_le_compat_r; lra).
    assert ((INR i + 1) * tiny <= INR n * tiny) by (apply Rmult_le_compat_r; lra). lra.
Qed.

Lemma linspace_first lo hi n : side lo hi n -> is (linspace lo hi n 0) (val lo).
Proof.
  intros Sd. pose proof (side_const lo hi n Sd) as (Fd & Vd & Gd). pose proof Sd as (Sl & Sh & L & N1 & N2).
  unfold linspace. replace (1 <? n)%nat with true by (symmetry; apply Nat.ltb_lt; lia). cbn [andb].
  destruct (Nat.eqb_spec 0 (n - 1)); [lia|]. cbv zeta. change (nofZ (Z.of_nat 0)) with 0%float. cbn [nofZ nadd nmul ndiv nsub neqb NumFloat].
  pose proof (sized_sub 960 hi lo ltac:(lia) Sh Sl) as Sw.
  pose proof (sized_div 961 _ _ ltac:(lia) Sw Fd ltac:(lra)) as Ss.
  assert (Z0 : is (0 / float_ofZ (Z.of_nat (n - 1)))%float 0).
  { destruct is_zero as [F0 V0]. assert (F : finite (0 / float_ofZ (Z.of_nat (n - 1)))%float).
    { apply div_fin; auto; [lra|]. rewrite V0. unfold Rdiv. rewrite Rmult_0_l, rnd_zero, Rabs_R0. apply bpow_gt_0. }
    split; [exact F|]. destruct (div_ok _ _ Fd ltac:(lra) F) as [_ ->]. rewrite V0. unfold Rdiv. rewrite Rmult_0_l. apply rnd_zero. }
  assert (E : forall z, is z 0 -> is (z + lo)%float (val lo)).
  { intros z Hz. pose proof (is_exact_add z lo 0 (val lo) lo Hz (is_leaf _ (proj1 Sl)) ltac:(ring)) as K. now rewrite Rplus_0_l in K. }
  apply E. destruct (PrimFloat.eqb _ _); [apply is_mul0; [exact Z0|apply Sw]|apply is_mul0; [apply is_zero|apply Ss]].
Qed.

Lemma linspace_rising lo hi n i k : side lo hi n -> coarse lo hi n -> (i < k)%nat -> (k < n)%nat ->
  val (linspace lo hi n i) < val (linspace lo hi n k).
Proof.
  intros Sd C Hi Hk. pose proof (linspace_close lo hi n i Sd ltac:(lia)) as A. pose proof (linspace_close lo hi n k Sd Hk) as B.
  apply Rabs_le_inv in A. apply Rabs_le_inv in B. unfold coarse in C.
  assert (node (val lo) (val hi) n i + (val hi - val lo) / INR (n - 1) <= node (val lo) (val hi) n k).
  { destruct Sd as (_ & _ & L & N1 & _). pose proof (node_step (val lo) (val hi) n i N1). 
    destruct (Nat.eq_dec k (S i)) as [->|]; [lra|]. pose proof (node_mono (val lo) (val hi) n (S i) k N1 L ltac:(lia)). lra. }
  lra.
Qed.

(* ---------------- looking up ---------------- *)

Lemma count_split (d : nat -> R) x n : (forall i k, (i < k)%nat -> (k < n)%nat -> d i < d k) ->
  exists k, (k <= n)%nat /\ (forall i, (i < k)%nat -> d i < x) /\ (forall i, (k <= i < n)%nat -> x <= d i).
Proof.
  induction n as [|n IH]; intros H; [exists 0%nat; repeat split; intros; lia|].
  destruct IH as (k & K1 & K2 & K3); [intros; apply H; lia|].
  destruct (Rlt_dec (d n) x) as [L|L].
  - exists (S n). repeat split; [lia| |intros; lia]. intros i Hi. destruct (Nat.eq_dec i n) as [->|]; [exact L|].
    apply Rlt_trans with (d n); [apply H; lia|exact L].
  - exists k. repeat split; [lia|exact K2|]. intros i Hi. destruct (Nat.eq_dec i n) as [->|]; [lra|apply K3; lia].
Qed.
Lemma locate_split (c : nat -> float) x n : (2 <= n)%nat -> finite x -> (forall i, (i < n)%nat -> finite (c i)) ->
  (forall i k, (i < k)%nat -> (k < n)%nat -> val (c i) < val (c k)) ->
  let i := locate n c x in (i + 1 < n)%nat /\ (i <> 0%nat -> val (c i) < val x) /\ ((i + 2 < n)%nat -> val x <= val (c (S i))).
Proof.
  intros Hn Fx Fc H. destruct (count_split (fun i => val (c i)) (val x) n H) as (k & K1 & K2 & K3).
  unfold locate. cbn [nltb NumFloat].
  assert (E : filter (fun i => (c i <? x)%float) (seq 0 n) = filter (fun i => Rltb (val (c i)) (val x)) (seq 0 n)).
  { apply filter_ext_in. intros i Hi. apply in_seq in Hi. apply ltb_ok; [apply Fc; lia|exact Fx]. }
  rewrite E, (count_below (fun i => val (c i)) (val x) n k K1 K2) by (intros i Hi L; specialize (K3 i Hi); lra).
  repeat split; [lia|intros; apply K2; lia|intros; apply K3; lia].
Qed.

(* how far along its interval a coordinate is *)
Lemma part_close (a b x : float) : sized 1013 a -> sized 1013 b -> finite x -> val a < val b -> val a <= val x <= val b ->
  let s := ((x - a) / (b - a))%float in
  finite s /\ 0 <= val s <= 1 /\ Rabs (val s - part (val a) (val b) (val x)) <= 5 * eps /\
  (val x = val a -> val s = 0) /\ (val x = val b -> val s = 1).
Proof.
  intros Sa Sb Fx L Hx s. pose proof eps_pos as Ep. pose proof eps_num as En. pose proof tiny_pos as Tp. pose proof tiny_small as Ts.
  assert (Sx : sized 1013 x).
  { split; [exact Fx|]. destruct Sa as [_ A], Sb as [_ B]. apply Rabs_le_inv in A, B. apply Rabs_le. lra. }
  destruct (sized_sub 1013 x a ltac:(lia) Sx Sa) as [F1 _]. destruct (sized_sub 1013 b a ltac:(lia) Sb Sa) as [F2 _].
  pose proof (sub_not_zero a b F2 L) as Nz.
  destruct (sub_ok _ _ F1) as (_ & _ & V1). destruct (sub_ok _ _ F2) as (_ & _ & V2).
  set (p := val x - val a) in *. set (w := val b - val a) in *.
  assert (P0 : 0 <= rnd p) by (rewrite <- rnd_zero; apply rnd_le; unfold p; lra).
  assert (W0 : 0 < rnd w). { assert (0 <= rnd w) by (rewrite <- rnd_zero; apply rnd_le; unfold w; lra). rewrite V2 in Nz. lra. }
  assert (PW : rnd p <= rnd w) by (apply rnd_le; unfold p, w; lra).
  set (q := rnd p / rnd w). assert (Q : 0 <= q <= 1).
  { split; [apply Rmult_le_pos; [exact P0|apply Rlt_le, Rinv_0_lt_compat; exact W0]|].
    apply Rmult_le_reg_r with (rnd w); [exact W0|]. unfold q, Rdiv. rewrite Rmult_assoc, Rinv_l by lra. lra. }
  assert (RQ : 0 <= rnd q <= 1) by (split; [rewrite <- rnd_zero; apply rnd_le; lra|rewrite <- rnd_1; apply rnd_le; lra]).
  assert (Fs : finite s).
  { unfold s. apply div_fin; auto. rewrite V1, V2. fold q. rewrite Rabs_right by lra.
    apply Rle_lt_trans with (bpow radix2 0); [cbn; lra|apply bpow_lt; lia]. }
  destruct (div_ok _ _ F2 Nz Fs) as [_ Vs]. fold s in Vs. rewrite V1, V2 in Vs. fold q in Vs.
  split; [exact Fs|]. rewrite Vs. split; [exact RQ|]. split; [|split].
  - assert (E1 : Rabs (rnd p - p) <= eps * Rabs p) by (unfold p; unfold Rminus at 2 3; apply err_sum; [apply val_format|apply generic_format_opp, val_format]).
    assert (E2 : Rabs (rnd w - w) <= eps * Rabs w) by (unfold w; unfold Rminus at 2 3; apply err_sum; [apply val_format|apply generic_format_opp, val_format]).
    assert (Pw : 0 <= p <= w) by (unfold p, w; lra). assert (Ww : 0 < w) by (unfold w; lra).
    rewrite (Rabs_right p) in E1 by lra. rewrite (Rabs_right w) in E2 by lra.
    change (part (val a) (val b) (val x)) with (p / w).
    assert (D : Rabs (q - p / w) <= 3 * eps).
    { replace (q - p / w) with (((rnd p - p) * w - p * (rnd w - w)) / (rnd w * w)) by (unfold q; field; lra).
      assert (Pos : 0 < rnd w * w) by (apply Rmult_lt_0_compat; lra).
      unfold Rdiv. rewrite Rabs_mult, (Rabs_right (/ _)) by (apply Rle_ge, Rlt_le, Rinv_0_lt_compat; exact Pos).
      apply Rmult_le_reg_r with (rnd w * w); [exact Pos|]. rewrite Rmult_assoc, Rinv_l by lra. rewrite Rmult_1_r.
      assert (Rabs ((rnd p - p) * w - p * (rnd w - w)) <= 2 * eps * (w * w)).
      { unfold Rminus at 1. eapply Rle_trans; [apply Rabs_triang|]. rewrite Rabs_Ropp, !Rabs_mult, (Rabs_right w), (Rabs_right p) by lra.
        assert (Rabs (rnd p - p) * w <= eps * w * w) by (apply Rmult_le_compat_r; [lra|]; eapply Rle_trans; [exact E1|]; apply Rmult_le_compat_l; lra).
        assert (p * Rabs (rnd w - w) <= w * (eps * w)) by (apply Rmult_le_compat; try lra; apply Rabs_pos). lra. }
      apply Rabs_le_inv in E2. assert ((2 / 3) * w <= rnd w) by (assert (eps * w <= / 3 * w) by (apply Rmult_le_compat_r; [lra|rewrite En; lra]); lra).
      assert ((2 / 3 * w) * w <= rnd w * w) by (apply Rmult_le_compat_r; lra).
      assert (3 * eps * ((2 / 3 * w) * w) <= 3 * eps * (rnd w * w)) by (apply Rmult_le_compat_l; lra). lra. }
    pose proof (err_any q) as E. rewrite (Rabs_right q) in E by lra.
    assert (eps * (q + tiny) <= eps * 2) by (apply Rmult_le_compat_l; lra).
    replace (rnd q - p / w) with ((rnd q - q) + (q - p / w)) by ring. eapply Rle_trans; [apply Rabs_triang|]. lra.
  - intros E. unfold q, p. rewrite E, Rminus_diag_eq, rnd_zero by reflexivity. unfold Rdiv. rewrite Rmult_0_l. apply rnd_zero.
  - intros E. unfold q, p. rewrite E. fold w. unfold Rdiv. rewrite Rinv_r by lra. apply rnd_1.
Qed.

(* the formula at one place *)
Definition mix (v00 v01 v10 v11 s t : float) : float :=
  (v00 * (1 - s) * (1 - t) + v01 * (1 - s) * t + v10 * s * (1 - t) + v11 * s * t)%float.
Lemma is_unit_mul x y : finite x -> is y 0 \/ is y 1 -> is (x * y)%float (val x * val y).
Proof.
  intros F [H|H].
  - destruct H as [Fy E]. rewrite E, Rmult_0_r. apply is_mul0r; [exact F|now split].
  - destruct H as [Fy E]. rewrite E. apply (is_exact_mul x y (val x) 1 x); [now apply is_leaf|now split|ring].
Qed.
Lemma one_minus s : finite s -> val s = 0 \/ val s = 1 -> is (1 - s)%float (1 - val s).
Proof.
  intros F [E|E]; rewrite E.
  - apply (is_exact_sub 1 s 1 0 1%float); [apply is_one|now split|]. destruct is_one as [_ ->]. ring.
  - apply (is_exact_sub 1 s 1 1 0%float); [apply is_one|now split|]. destruct is_zero as [_ ->]. ring.
Qed.
Lemma mix_exact v00 v01 v10 v11 s t : finite v00 -> finite v01 -> finite v10 -> finite v11 -> finite s -> finite t ->
  val s = 0 \/ val s = 1 -> val t = 0 \/ val t = 1 ->
  finite (mix v00 v01 v10 v11 s t) /\
  (val s = 0 -> val t = 0 -> val (mix v00 v01 v10 v11 s t) = val v00) /\
  (val s = 0 -> val t = 1 -> val (mix v00 v01 v10 v11 s t) = val v01) /\
  (val s = 1 -> val t = 0 -> val (mix v00 v01 v10 v11 s t) = val v10) /\
  (val s = 1 -> val t = 1 -> val (mix v00 v01 v10 v11 s t) = val v11).
Proof.
  intros F0 F1 F2 F3 Fs Ft Hs Ht. pose proof (one_minus s Fs Hs) as Os. pose proof (one_minus t Ft Ht) as Ot.
  assert (Us : is s 0 \/ is s 1) by (destruct Hs; [left|right]; now split). assert (Ut : is t 0 \/ is t 1) by (destruct Ht; [left|right]; now split).
  assert (Us' : is (1 - s)%float 0 \/ is (1 - s)%float 1). { destruct Hs as [E|E]; rewrite E in Os; [right|left]; destruct Os as [A B]; split; auto; rewrite B; ring. }
  assert (Ut' : is (1 - t)%float 0 \/ is (1 - t)%float 1). { destruct Ht as [E|E]; rewrite E in Ot; [right|left]; destruct Ot as [A B]; split; auto; rewrite B; ring. }
  assert (Two : forall v a b, finite v -> is a 0 \/ is a 1 -> is b 0 \/ is b 1 -> is (v * a * b)%float (val v * val a * val b)).
  { intros v a b Fv Ua Ub. pose proof (is_unit_mul v a Fv Ua) as [A B]. pose proof (is_unit_mul (v * a)%float b A Ub) as [C D]. split; [exact C|]. now rewrite D, B. }
  pose proof (Two v00 _ _ F0 Us' Ut') as T0. pose proof (Two v01 _ _ F1 Us' Ut) as T1. pose proof (Two v10 _ _ F2 Us Ut') as T2. pose proof (Two v11 _ _ F3 Us Ut) as T3.
  destruct Os as [_ Os], Ot as [_ Ot]. rewrite Os in T0, T1. rewrite Ot in T0, T2. unfold mix.
  destruct Hs as [Es|Es], Ht as [Et|Et]; rewrite ?Es, ?Et in *.
  - replace (val v00 * (1 - 0) * (1 - 0)) with (val v00) in T0 by ring. replace (val v01 * (1 - 0) * 0) with 0 in T1 by ring. replace (val v10 * 0 * (1 - 0)) with 0 in T2 by ring. replace (val v11 * 0 * 0) with 0 in T3 by ring.
    destruct (is_add0 _ _ _ (is_add0 _ _ _ (is_add0 _ _ _ T0 T1) T2) T3) as [A B]. repeat split; auto; intros; lra.
  - replace (val v00 * (1 - 0) * (1 - 1)) with 0 in T0 by ring. replace (val v01 * (1 - 0) * 1) with (val v01) in T1 by ring. replace (val v10 * 0 * (1 - 1)) with 0 in T2 by ring. replace (val v11 * 0 * 1) with 0 in T3 by ring.
    destruct (is_add0 _ _ _ (is_add0 _ _ _ (is_0add _ _ _ T0 T1) T2) T3) as [A B]. repeat split; auto; intros; lra.
  - replace (val v00 * (1 - 1) * (1 - 0)) with 0 in T0 by ring. replace (val v01 * (1 - 1) * 0) with 0 in T1 by ring. replace (val v10 * 1 * (1 - 0)) with (val v10) in T2 by ring. replace (val v11 * 1 * 0) with 0 in T3 by ring.
    destruct (is_add0 _ _ _ (is_0add _ _ _ (is_0add _ _ _ T0 T1) T2) T3) as [A B]. repeat split; auto; intros; lra.
  - replace (val v00 * (1 - 1) * (1 - 1)) with 0 in T0 by ring. replace (val v01 * (1 - 1) * 1) with 0 in T1 by ring. replace (val v10 * 1 * (1 - 1)) with 0 in T2 by ring. replace (val v11 * 1 * 1) with (val v11) in T3 by ring.
    destruct (is_0add _ _ _ (is_add0 _ _ _ (is_0add _ _ _ T0 T1) T2) T3) as [A B]. repeat split; auto; intros; lra.
Qed.
Lemma near_rest s : finite s -> 0 <= val s <= 1 -> near 1 (1 - val s) (1 - s)%float (1 - val s).
Proof.
  intros F H. pose proof (near_diff 1 s) as N. destruct is_one as [_ V1]. rewrite V1, (Rabs_right (1 - val s)) in N by lra. exact N.
Qed.
Lemma mix_close M v00 v01 v10 v11 s t : M <= bpow radix2 1000 ->
  (forall v, In v [v00; v01; v10; v11] -> finite v /\ Rabs (val v) <= M) -> finite s -> finite t -> 0 <= val s <= 1 -> 0 <= val t <= 1 ->
  finite (mix v00 v01 v10 v11 s t) /\
  Rabs (val (mix v00 v01 v10 v11 s t) -
    (val v00 * (1 - val s) * (1 - val t) + val v01 * (1 - val s) * val t + val v10 * val s * (1 - val t) + val v11 * val s * val t)) <= 8 * eps * (M + 8 * tiny).
Proof.
  intros HM Hv Fs Ft Hs Ht. pose proof tiny_pos as Tp. pose proof eps_pos as Ep.
  assert (Z1 : sized 0 1) by (destruct is_one as [A B]; split; [exact A|rewrite B, Rabs_R1; cbn; lra]).
  assert (U : forall z, finite z -> 0 <= val z <= 1 -> sized 0 z /\ sized 0 (1 - z)%float).
  { intros z Fz Hz. assert (A : sized 0 z) by (split; [exact Fz|rewrite Rabs_right by lra; cbn; lra]). split; [exact A|].
    assert (B : finite (1 - z)%float) by (apply (sized_sub 0); auto; lia). split; [exact B|]. destruct (sub_ok _ _ B) as (_ & _ & ->).
    destruct is_one as [_ ->]. apply rnd_abs_bpow; [lia|]. rewrite Rabs_right by lra. cbn. lra. }
  destruct (U s Fs Hs) as [As Bs]. destruct (U t Ft Ht) as [At Bt].
  assert (Sv : forall v, In v [v00; v01; v10; v11] -> sized 1000 v) by (intros v I; destruct (Hv v I); split; auto; lra).
  assert (W : forall v a b, In v [v00; v01; v10; v11] -> sized 0 a -> sized 0 b -> sized 1000 (v * a * b)%float).
  { intros v a b I Sa Sb. apply (sized_mul 1000 0); [lia| |exact Sb]. apply (sized_mul 1000 0); [lia|now apply Sv|exact Sa]. }
  assert (F : finite (mix v00 v01 v10 v11 s t)).
  { unfold mix. apply (sized_add 1002); [lia| |apply sized_le with 1000%Z; [lia|apply W; auto; cbn; auto]].
    apply (sized_add 1001); [lia| |apply sized_le with 1000%Z; [lia|apply W; auto; cbn; auto]].
    apply (sized_add 1000); [lia|apply W; auto; cbn; auto|apply W; auto; cbn; auto]. }
  split; [exact F|].
  pose proof (near_rest s Fs Hs) as Rs. pose proof (near_rest t Ft Ht) as Rt.
  pose proof (near_leaf s) as Ls. pose proof (near_leaf t) as Lt. rewrite Rabs_right in Ls, Lt by lra.
  pose proof (near_mul _ _ _ _ _ _ _ _ (near_mul _ _ _ _ _ _ _ _ (near_leaf v00) Rs) Rt) as K0.
  pose proof (near_mul _ _ _ _ _ _ _ _ (near_mul _ _ _ _ _ _ _ _ (near_leaf v01) Rs) Lt) as K1.
  pose proof (near_mul _ _ _ _ _ _ _ _ (near_mul _ _ _ _ _ _ _ _ (near_leaf v10) Ls) Rt) as K2.
  pose proof (near_mul _ _ _ _ _ _ _ _ (near_mul _ _ _ _ _ _ _ _ (near_leaf v11) Ls) Lt) as K3.
  pose proof (near_add _ _ _ _ _ _ _ _ (near_add _ _ _ _ _ _ _ _ (near_add _ _ _ _ _ _ _ _ K0 K1) K2) K3) as K.
  eapply near_use; [exact K|cbn; lia|cbn; lra| |exact F].
  assert (B : forall v a b, In v [v00; v01; v10; v11] -> 0 <= a <= 1 -> 0 <= b <= 1 -> (Rabs (val v) * a + tiny) * b + tiny <= M * (a * b) + 2 * tiny).
  { intros v a b I Ha Hb. destruct (Hv v I) as [_ Hm]. assert (Rabs (val v) * (a * b) <= M * (a * b)) by (apply Rmult_le_compat_r; [apply Rmult_le_pos; lra|exact Hm]).
    assert (tiny * b <= tiny * 1) by (apply Rmult_le_compat_l; lra). lra. }
  pose proof (B v00 (1 - val s) (1 - val t) ltac:(cbn; auto) ltac:(lra) ltac:(lra)).
  pose proof (B v01 (1 - val s) (val t) ltac:(cbn; auto) ltac:(lra) ltac:(lra)).
  pose proof (B v10 (val s) (1 - val t) ltac:(cbn; auto) ltac:(lra) ltac:(lra)).
  pose proof (B v11 (val s) (val t) ltac:(cbn; auto) ltac:(lra) ltac:(lra)). lra.
Qed.
(* the blend of four numbers depends little on where it is taken *)
Lemma blend_move (v : arr R) i j M s t s' t' d : (forall a b, In a [i; S i] -> In b [j; S j] -> Rabs (v a b) <= M) ->
  0 <= s <= 1 -> 0 <= t' <= 1 -> Rabs (s - s') <= d -> Rabs (t - t') <= d -> Rabs (blend v i j s t - blend v i j s' t') <= 4 * M * d.
Proof.
  intros Hv Hs Ht Ds Dt.
  pose proof (Hv i j ltac:(cbn; auto) ltac:(cbn; auto)) as H0. pose proof (Hv i (S j) ltac:(cbn; auto) ltac:(cbn; auto)) as H1.
  pose proof (Hv (S i) j ltac:(cbn; auto) ltac:(cbn; auto)) as H2. pose proof (Hv (S i) (S j) ltac:(cbn; auto) ltac:(cbn; auto)) as H3.
  set (a := v i j) in *. set (b := v i (S j)) in *. set (c := v (S i) j) in *. set (e := v (S i) (S j)) in *.
  assert (M0 : 0 <= M) by (eapply Rle_trans; [apply Rabs_pos|exact H0]).
  replace (blend v i j s t - blend v i j s' t') with
    ((t - t') * ((1 - s) * (b - a) + s * (e - c)) + (s - s') * ((1 - t') * (c - a) + t' * (e - b))) by (unfold blend; fold a b c e; ring).
  assert (G : forall u p q, 0 <= u <= 1 -> Rabs p <= 2 * M -> Rabs q <= 2 * M -> Rabs ((1 - u) * p + u * q) <= 2 * M).
  { intros u p q Hu Hp Hq. eapply Rle_trans; [apply Rabs_triang|]. rewrite !Rabs_mult, (Rabs_right (1 - u)), (Rabs_right u) by lra.
    assert ((1 - u) * Rabs p <= (1 - u) * (2 * M)) by (apply Rmult_le_compat_l; lra). assert (u * Rabs q <= u * (2 * M)) by (apply Rmult_le_compat_l; lra). lra. }
  assert (D : forall p q, Rabs p <= M -> Rabs q <= M -> Rabs (p - q) <= 2 * M).
  { intros p q Hp Hq. unfold Rminus. eapply Rle_trans; [apply Rabs_triang|]. rewrite Rabs_Ropp. lra. }
  eapply Rle_trans; [apply Rabs_triang|]. rewrite !(Rabs_mult (_ - _) (_ + _)).
  pose proof (Rmult_le_compat _ _ _ _ (Rabs_pos _) (Rabs_pos _) Dt (G s (b - a) (e - c) Hs (D _ _ H1 H0) (D _ _ H3 H2))).
  pose proof (Rmult_le_compat _ _ _ _ (Rabs_pos _) (Rabs_pos _) Ds (G t' (c - a) (e - b) Ht (D _ _ H2 H0) (D _ _ H3 H1))). lra.
Qed.

(* ---------------- the theorems ---------------- *)

(* a mesh whose coordinates can be told apart *)
Definition fair_mesh (m : mesh float) : Prop :=
  side (m_xl m) (m_xh m) (m_steps m) /\ coarse (m_xl m) (m_xh m) (m_steps m) /\
  side (m_yl m) (m_yh m) (m_steps m) /\ coarse (m_yl m) (m_yh m) (m_steps m).
(* the field f has not been asked before and holds the arrays vx and vy of numbers no larger than M *)
Definition field_of (w : world float) (f : nat) (m : mesh float) (vx vy : arr float) (M : R) : Prop :=
  (exists v, nth_error (fields w) f = Some v /\ vf_interp v = None /\ vf_mesh v = m /\ arr_at w (vf_vx v) = vx /\ arr_at w (vf_vy v) = vy) /\
  (forall i j, (i < m_steps m)%nat -> (j < m_steps m)%nat -> finite (vx i j) /\ Rabs (val (vx i j)) <= M /\ finite (vy i j) /\ Rabs (val (vy i j)) <= M) /\
  M <= 2 ^ 1000.

(* The coordinates of a mesh: the first and the last are the edges of its box, the others are off
   the evenly spaced places by a few roundings at most. *)
Theorem C87_coordinates : forall (m : mesh float) i, side (m_xl m) (m_xh m) (m_steps m) -> side (m_yl m) (m_yh m) (m_steps m) -> (i < m_steps m)%nat ->
  finite (coord_x m i) /\ finite (coord_y m i) /\
  Rabs (val (coord_x m i) - node (val (m_xl m)) (val (m_xh m)) (m_steps m) i) <= slack (m_xl m) (m_xh m) (m_steps m) /\
  Rabs (val (coord_y m i) - node (val (m_yl m)) (val (m_yh m)) (m_steps m) i) <= slack (m_yl m) (m_yh m) (m_steps m) /\
  val (coord_x m 0) = val (m_xl m) /\ val (coord_y m 0) = val (m_yl m) /\
  coord_x m (m_steps m - 1) = m_xh m /\ coord_y m (m_steps m - 1) = m_yh m.
Proof.
  intros m i Sx Sy Hi. unfold coord_x, coord_y.
  split; [apply (linspace_sized _ _ _ _ Sx Hi)|]. split; [apply (linspace_sized _ _ _ _ Sy Hi)|].
  split; [now apply linspace_close|]. split; [now apply linspace_close|]. split; [apply (linspace_first _ _ _ Sx)|]. split; [apply (linspace_first _ _ _ Sy)|].
  destruct Sx as (_ & _ & _ & N & _). unfold linspace. replace (1 <? m_steps m)%nat with true by (symmetry; apply Nat.ltb_lt; lia).
  now rewrite Nat.eqb_refl.
Qed.

Lemma fair_ready m : fair_mesh m -> (1 <? m_steps m)%nat && ascending (m_steps m) (coord_x m) && ascending (m_steps m) (coord_y m) = true.
Proof.
  intros (Sx & Cx & Sy & Cy). assert (N : (2 <= m_steps m)%nat) by (now destruct Sx as (_ & _ & _ & N & _)).
  rewrite !andb_true_iff. split; [split; [apply Nat.ltb_lt; lia|]|]; apply forallb_forall; intros k Hk; apply in_seq in Hk; cbn [nltb NumFloat];
    unfold coord_x, coord_y.
  - rewrite ltb_ok by (apply (linspace_sized _ _ _ _ Sx); lia). apply Rltb_lt. apply linspace_rising; auto; lia.
  - rewrite ltb_ok by (apply (linspace_sized _ _ _ _ Sy); lia). apply Rltb_lt. apply linspace_rising; auto; lia.
Qed.
Lemma lookup_fair w f m vx vy M x y : field_of w f m vx vy M -> fair_mesh m ->
  snd (lookup f x y w) = Ok (rgi_eval (m_steps m) (coord_x m) (coord_y m) vx x y, rgi_eval (m_steps m) (coord_x m) (coord_y m) vy x y).
Proof.
  intros ((v & Ev & Iv & <- & <- & <-) & _) Fm. unfold lookup, interp_coords, on. rewrite Ev, Iv, (fair_ready _ Fm). reflexivity.
Qed.
Lemma transform_fair w f m vx vy M x y : field_of w f m vx vy M -> fair_mesh m ->
  snd (vf_transform f x y w) = Ok (x + rgi_eval (m_steps m) (coord_x m) (coord_y m) vx x y, y + rgi_eval (m_steps m) (coord_x m) (coord_y m) vy x y)%float.
Proof.
  intros ((v & Ev & Iv & <- & <- & <-) & _) Fm. unfold vf_transform, vf_transform_np_pts, interp_coords, on. rewrite Ev, Iv, (fair_ready _ Fm). reflexivity.
Qed.
Lemma eval_mix n cx cy v x y : rgi_eval n cx cy v x y =
  let i := locate n cx x in let j := locate n cy y in
  mix (v i j) (v i (S j)) (v (S i) j) (v (S i) (S j)) ((x - cx i) / (cx (S i) - cx i)) ((y - cy j) / (cy (S j) - cy j)).
Proof. reflexivity. Qed.

Lemma locate_side lo hi n x : side lo hi n -> coarse lo hi n -> finite x ->
  let c := linspace lo hi n in let i := locate n c x in
  (i + 1 < n)%nat /\ (i <> 0%nat -> val (c i) < val x) /\ ((i + 2 < n)%nat -> val x <= val (c (S i))).
Proof.
  intros Sd C Fx. apply locate_split; [now destruct Sd as (_ & _ & _ & N & _)|exact Fx|intros; now apply (linspace_sized lo hi n)|intros; now apply linspace_rising].
Qed.
Lemma locate_inside lo hi n x : side lo hi n -> coarse lo hi n -> finite x -> val lo <= val x <= val hi ->
  let c := linspace lo hi n in let i := locate n c x in (i + 1 < n)%nat /\ val (c i) <= val x <= val (c (S i)).
Proof.
  intros Sd C Fx Hx c i. destruct (locate_side lo hi n x Sd C Fx) as (A & B & D). fold c in A, B, D. fold i in A, B, D. split; [exact A|]. split.
  - destruct (Nat.eq_dec i 0) as [->|N]; [|apply Rlt_le; exact (B N)]. unfold c. destruct (linspace_first lo hi n Sd) as [_ ->]. lra.
  - destruct (le_lt_dec n (i + 2)) as [G|G]; [|auto]. replace (S i) with (n - 1)%nat by lia. unfold c, linspace.
    replace (1 <? n)%nat with true by (symmetry; apply Nat.ltb_lt; lia). rewrite Nat.eqb_refl. cbn [andb]. lra.
Qed.
(* at a node the interval found is one of its two neighbours *)
Lemma locate_node lo hi n a : side lo hi n -> coarse lo hi n -> (a < n)%nat ->
  let c := linspace lo hi n in let i := locate n c (c a) in (i + 1 < n)%nat /\ (a = i \/ a = S i).
Proof.
  intros Sd C Ha c i. destruct (locate_side lo hi n (c a) Sd C) as (A & B & D); [apply (linspace_sized lo hi n a Sd Ha)|]. fold c in A, B, D. fold i in A, B, D. split; [exact A|].
  assert (R0 : forall p q, (p < n)%nat -> (q < n)%nat -> val (c p) < val (c q) -> (p < q)%nat).
  { intros p q Hp Hq L. destruct (lt_eq_lt_dec p q) as [[?|<-]|G]; [assumption|lra|]. pose proof (linspace_rising lo hi n q p Sd C G Hp). fold c in H. lra. }
  assert (Up : (a <= S i)%nat).
  { destruct (le_lt_dec n (i + 2)); [lia|]. destruct (le_lt_dec a (S i)); [assumption|]. pose proof (linspace_rising lo hi n (S i) a Sd C ltac:(lia) Ha) as Q. exfalso. apply (Rlt_not_le _ _ Q). exact (D ltac:(lia)). }
  destruct (Nat.eq_dec i 0); [lia|]. specialize (B n0). pose proof (R0 i a ltac:(lia) Ha B). lia.
Qed.

Lemma eval_node m (v : arr float) i j : fair_mesh m -> (i < m_steps m)%nat -> (j < m_steps m)%nat ->
  (forall a b, (a < m_steps m)%nat -> (b < m_steps m)%nat -> finite (v a b)) ->
  is (rgi_eval (m_steps m) (coord_x m) (coord_y m) v (coord_x m i) (coord_y m j)) (val (v i j)).
Proof.
  intros (Sx & Cx & Sy & Cy) Hi Hj Fv. rewrite eval_mix. cbv zeta.
  destruct (locate_node _ _ _ i Sx Cx Hi) as [A B]. destruct (locate_node _ _ _ j Sy Cy Hj) as [A' B'].
  change (linspace (m_xl m) (m_xh m) (m_steps m)) with (coord_x m) in A, B. change (linspace (m_yl m) (m_yh m) (m_steps m)) with (coord_y m) in A', B'.
  set (a := locate _ (coord_x m) _) in *. set (b := locate _ (coord_y m) _) in *. clearbody a b.
  pose proof (linspace_rising _ _ _ a (S a) Sx Cx ltac:(lia) ltac:(lia)) as La. pose proof (linspace_rising _ _ _ b (S b) Sy Cy ltac:(lia) ltac:(lia)) as Lb.
  pose proof (linspace_sized _ _ _ a Sx ltac:(lia)) as Z1. pose proof (linspace_sized _ _ _ (S a) Sx ltac:(lia)) as Z2.
  pose proof (linspace_sized _ _ _ b Sy ltac:(lia)) as Z3. pose proof (linspace_sized _ _ _ (S b) Sy ltac:(lia)) as Z4.
  change (linspace (m_xl m) (m_xh m) (m_steps m)) with (coord_x m) in La, Z1, Z2. change (linspace (m_yl m) (m_yh m) (m_steps m)) with (coord_y m) in Lb, Z3, Z4.
  destruct (part_close (coord_x m a) (coord_x m (S a)) (coord_x m i) Z1 Z2) as (Fs & _ & _ & S0 & S1);
    [destruct B as [->| ->]; [apply Z1|apply Z2]|exact La|destruct B as [->| ->]; lra|].
  destruct (part_close (coord_y m b) (coord_y m (S b)) (coord_y m j) Z3 Z4) as (Ft & _ & _ & T0 & T1);
    [destruct B' as [->| ->]; [apply Z3|apply Z4]|exact Lb|destruct B' as [->| ->]; lra|].
  set (s := (_ / (coord_x m (S a) - _))%float) in *. set (t := (_ / (coord_y m (S b) - _))%float) in *.
  assert (Hs : val s = 0 \/ val s = 1) by (destruct B as [->| ->]; auto). assert (Ht : val t = 0 \/ val t = 1) by (destruct B' as [->| ->]; auto).
  destruct (mix_exact (v a b) (v a (S b)) (v (S a) b) (v (S a) (S b)) s t) as (Fm & M0 & M1 & M2 & M3); auto; try (apply Fv; lia).
  split; [exact Fm|]. destruct B as [->| ->], B' as [->| ->]; auto.
Qed.

(* At a node of the mesh a lookup gives the very numbers stored there, and a transform adds them
   with one rounding. *)
Theorem C87_node : forall (w : world float) f m vx vy M i j, field_of w f m vx vy M -> fair_mesh m -> (i < m_steps m)%nat -> (j < m_steps m)%nat ->
  (exists a b, snd (lookup f (coord_x m i) (coord_y m j) w) = Ok (a, b) /\ finite a /\ val a = val (vx i j) /\ finite b /\ val b = val (vy i j)) /\
  (exists p q, snd (vf_transform f (coord_x m i) (coord_y m j) w) = Ok (p, q) /\
     (finite p -> val p = rnd (val (coord_x m i) + val (vx i j))) /\ (finite q -> val q = rnd (val (coord_y m j) + val (vy i j)))).
Proof.
  intros w f m vx vy M i j H Fm Hi Hj.
  assert (Fv : forall a b, (a < m_steps m)%nat -> (b < m_steps m)%nat -> finite (vx a b) /\ finite (vy a b)) by (intros a b Ha Hb; destruct H as (_ & H & _); destruct (H a b Ha Hb) as (? & _ & ? & _); auto).
  destruct (eval_node m vx i j Fm Hi Hj) as [A1 A2]; [intros; now apply Fv|]. destruct (eval_node m vy i j Fm Hi Hj) as [B1 B2]; [intros; now apply Fv|].
  split.
  - rewrite (lookup_fair _ _ _ _ _ _ _ _ H Fm). do 2 eexists. split; [reflexivity|]. auto.
  - rewrite (transform_fair _ _ _ _ _ _ _ _ H Fm). do 2 eexists. split; [reflexivity|].
    split; intros F; destruct (add_ok _ _ F) as (_ & _ & ->); congruence.
Qed.

Lemma eval_blend m (v : arr float) M x y : fair_mesh m -> M <= 2 ^ 1000 ->
  (forall a b, (a < m_steps m)%nat -> (b < m_steps m)%nat -> finite (v a b) /\ Rabs (val (v a b)) <= M) ->
  finite x -> finite y -> val (m_xl m) <= val x <= val (m_xh m) -> val (m_yl m) <= val y <= val (m_yh m) ->
  let i := locate (m_steps m) (coord_x m) x in let j := locate (m_steps m) (coord_y m) y in
  finite (rgi_eval (m_steps m) (coord_x m) (coord_y m) v x y) /\
  Rabs (val (rgi_eval (m_steps m) (coord_x m) (coord_y m) v x y) -
    blend (fun a b => val (v a b)) i j (part (val (coord_x m i)) (val (coord_x m (S i))) (val x)) (part (val (coord_y m j)) (val (coord_y m (S j))) (val y)))
    <= 30 * eps * (M + 3 * tiny).
Proof.
  intros (Sx & Cx & Sy & Cy) HM Hv Fx Fy Hx Hy i j. rewrite eval_mix. cbv zeta. fold i j.
  pose proof eps_pos as Ep. pose proof tiny_pos as Tp.
  destruct (locate_inside _ _ _ x Sx Cx Fx Hx) as [A B]. destruct (locate_inside _ _ _ y Sy Cy Fy Hy) as [A' B'].
  change (linspace (m_xl m) (m_xh m) (m_steps m)) with (coord_x m) in A, B. change (linspace (m_yl m) (m_yh m) (m_steps m)) with (coord_y m) in A', B'.
  fold i in A, B. fold j in A', B'.
  pose proof (linspace_rising _ _ _ i (S i) Sx Cx ltac:(lia) ltac:(lia)) as La. pose proof (linspace_rising _ _ _ j (S j) Sy Cy ltac:(lia) ltac:(lia)) as Lb.
  pose proof (linspace_sized _ _ _ i Sx ltac:(lia)) as Z1. pose proof (linspace_sized _ _ _ (S i) Sx ltac:(lia)) as Z2.
  pose proof (linspace_sized _ _ _ j Sy ltac:(lia)) as Z3. pose proof (linspace_sized _ _ _ (S j) Sy ltac:(lia)) as Z4.
  change (linspace (m_xl m) (m_xh m) (m_steps m)) with (coord_x m) in La, Z1, Z2. change (linspace (m_yl m) (m_yh m) (m_steps m)) with (coord_y m) in Lb, Z3, Z4.
  destruct (part_close (coord_x m i) (coord_x m (S i)) x Z1 Z2 Fx La B) as (Fs & Us & Es & _).
  destruct (part_close (coord_y m j) (coord_y m (S j)) y Z3 Z4 Fy Lb B') as (Ft & Ut & Et & _).
  set (s := ((x - coord_x m i) / (coord_x m (S i) - coord_x m i))%float) in *. set (t := ((y - coord_y m j) / (coord_y m (S j) - coord_y m j))%float) in *.
  set (s' := part (val (coord_x m i)) _ _) in *. set (t' := part (val (coord_y m j)) _ _) in *.
  assert (Ut' : 0 <= t' <= 1).
  { unfold t', part. assert (0 < val (coord_y m (S j)) - val (coord_y m j)) by lra. split; [apply Rmult_le_pos; [lra|apply Rlt_le, Rinv_0_lt_compat; lra]|].
    apply Rmult_le_reg_r with (val (coord_y m (S j)) - val (coord_y m j)); [lra|]. unfold Rdiv. rewrite Rmult_assoc, Rinv_l by lra. lra. }
  assert (HM' : M <= bpow radix2 1000) by (change 1000%Z with (Z.of_nat 1000); rewrite bpow_pow; exact HM).
  assert (Ci : forall a b, In a [i; S i] -> In b [j; S j] -> finite (v a b) /\ Rabs (val (v a b)) <= M).
  { intros a b Ia Ib. apply Hv; cbn in Ia, Ib; lia. }
  destruct (mix_close M (v i j) (v i (S j)) (v (S i) j) (v (S i) (S j)) s t HM') as [Fm Em]; auto.
  { intros u Iu. cbn in Iu. destruct Iu as [<-|[<-|[<-|[<-|[]]]]]; apply Ci; cbn; auto. }
  split; [exact Fm|].
  pose proof (blend_move (fun a b => val (v a b)) i j M (val s) (val t) s' t' (5 * eps)) as Q.
  specialize (Q ltac:(intros; now apply Ci) Us Ut' Es Et).
  assert (Eb : blend (fun a b => val (v a b)) i j (val s) (val t) = val (v i j) * (1 - val s) * (1 - val t) + val (v i (S j)) * (1 - val s) * val t + val (v (S i) j) * val s * (1 - val t) + val (v (S i) (S j)) * val s * val t) by (unfold blend; ring).
  rewrite <- Eb in Em. set (z := val (mix _ _ _ _ _ _)) in *. set (b0 := blend _ i j (val s) (val t)) in *. set (b1 := blend _ i j s' t') in *.
  replace (z - b1) with ((z - b0) + (b0 - b1)) by ring. eapply Rle_trans; [apply Rabs_triang|].
  assert (0 <= M) by (eapply Rle_trans; [apply Rabs_pos|apply (Ci i j); cbn; auto]).
  assert (0 <= eps * M) by (apply Rmult_le_pos; lra). assert (0 <= eps * tiny) by (apply Rmult_le_pos; lra). lra.
Qed.

(* Inside the box a lookup gives, up to a few roundings, the blend of the four numbers stored
   around the place. *)
Theorem C87_blend : forall (w : world float) f m vx vy M x y, field_of w f m vx vy M -> fair_mesh m -> finite x -> finite y ->
  val (m_xl m) <= val x <= val (m_xh m) -> val (m_yl m) <= val y <= val (m_yh m) ->
  exists a b i j, snd (lookup f x y w) = Ok (a, b) /\ finite a /\ finite b /\ (i + 1 < m_steps m)%nat /\ (j + 1 < m_steps m)%nat /\
    val (coord_x m i) <= val x <= val (coord_x m (i + 1)) /\ val (coord_y m j) <= val y <= val (coord_y m (j + 1)) /\
    let s := part (val (coord_x m i)) (val (coord_x m (i + 1))) (val x) in
    let t := part (val (coord_y m j)) (val (coord_y m (j + 1))) (val y) in
    Rabs (val a - blend (fun p q => val (vx p q)) i j s t) <= 30 * eps * (M + 3 * tiny) /\
    Rabs (val b - blend (fun p q => val (vy p q)) i j s t) <= 30 * eps * (M + 3 * tiny).
Proof.
  intros w f m vx vy M x y H Fm Fx Fy Hx Hy. rewrite (lookup_fair _ _ _ _ _ _ _ _ H Fm). destruct H as (_ & H & HM).
  destruct (eval_blend m vx M x y Fm HM ltac:(intros a b Ha Hb; destruct (H a b Ha Hb) as (? & ? & _); auto) Fx Fy Hx Hy) as [A1 A2].
  destruct (eval_blend m vy M x y Fm HM ltac:(intros a b Ha Hb; destruct (H a b Ha Hb) as (_ & _ & ? & ?); auto) Fx Fy Hx Hy) as [B1 B2].
  destruct Fm as (Sx & Cx & Sy & Cy).
  destruct (locate_inside _ _ _ x Sx Cx Fx Hx) as [I1 I2]. destruct (locate_inside _ _ _ y Sy Cy Fy Hy) as [J1 J2].
  do 2 eexists. exists (locate (m_steps m) (coord_x m) x), (locate (m_steps m) (coord_y m) y). split; [reflexivity|].
  rewrite !Nat.add_1_r in *. split; [exact A1|]. split; [exact B1|]. split; [exact I1|]. split; [exact J1|]. split; [exact I2|]. split; [exact J2|]. cbv zeta. split; assumption.
Qed.

(* so it stays within the range of the numbers stored, up to those roundings *)
Theorem C87_between : forall (w : world float) f m vx vy M x y lo hi, field_of w f m vx vy M -> fair_mesh m -> finite x -> finite y ->
  val (m_xl m) <= val x <= val (m_xh m) -> val (m_yl m) <= val y <= val (m_yh m) ->
  (forall i j, (i < m_steps m)%nat -> (j < m_steps m)%nat -> lo <= val (vx i j) <= hi /\ lo <= val (vy i j) <= hi) ->
  exists a b, snd (lookup f x y w) = Ok (a, b) /\
    lo - 30 * eps * (M + 3 * tiny) <= val a <= hi + 30 * eps * (M + 3 * tiny) /\
    lo - 30 * eps * (M + 3 * tiny) <= val b <= hi + 30 * eps * (M + 3 * tiny).
Proof.
  intros w f m vx vy M x y lo hi H Fm Fx Fy Hx Hy Hr.
  destruct (C87_blend w f m vx vy M x y H Fm Fx Fy Hx Hy) as (a & b & i & j & E & _ & _ & Hi & Hj & Bx & By & A1 & A2).
  exists a, b. split; [exact E|]. destruct Fm as (Sx & Cx & Sy & Cy).
  pose proof (linspace_rising _ _ _ i (i + 1) Sx Cx ltac:(lia) ltac:(lia)) as La. pose proof (linspace_rising _ _ _ j (j + 1) Sy Cy ltac:(lia) ltac:(lia)) as Lb.
  assert (U : forall p q z, p < q -> p <= z <= q -> 0 <= part p q z <= 1).
  { intros p q z L Hz. unfold part. split; [apply Rmult_le_pos; [lra|apply Rlt_le, Rinv_0_lt_compat; lra]|].
    apply Rmult_le_reg_r with (q - p); [lra|]. unfold Rdiv. rewrite Rmult_assoc, Rinv_l by lra. lra. }
  pose proof (U _ _ _ La Bx) as Us. pose proof (U _ _ _ Lb By) as Ut.
  change (linspace (m_xl m) (m_xh m) (m_steps m)) with (coord_x m) in Us. change (linspace (m_yl m) (m_yh m) (m_steps m)) with (coord_y m) in Ut.
  cbv zeta in A1, A2. set (s := part _ _ (val x)) in *. set (t := part _ _ (val y)) in *.
  assert (G : forall v : arr float, (forall p q, (p < m_steps m)%nat -> (q < m_steps m)%nat -> lo <= val (v p q) <= hi) ->
    lo <= blend (fun p q => val (v p q)) i j s t <= hi).
  { intros v Hv. apply C63_between; auto; intros; apply Hv; lia. }
  pose proof (G vx ltac:(intros; now apply Hr)). pose proof (G vy ltac:(intros; now apply Hr)).
  apply Rabs_le_inv in A1, A2. lra.
Qed.

(* The conditions are met: a box of 10 by 10 with 6 steps, and a field with the same vector everywhere. *)
Lemma is_ten : is 10%float 10.
Proof. change 10%float with (float_ofZ 10). apply (const_ok 10). vm_compute. discriminate. Qed.
Lemma ten_side : side 0 10 6 /\ coarse 0 10 6.
Proof.
  destruct is_zero as [F0 V0]. destruct is_ten as [F1 V1]. pose proof eps_num as En. pose proof tiny_small as Ts. pose proof tiny_pos as Tp. pose proof eps_pos as Ep.
  assert (B : 10 <= bpow radix2 960) by (apply Rle_trans with (bpow radix2 4); [cbn; lra|apply bpow_le; lia]).
  split.
  - split; [split; [exact F0|rewrite V0, Rabs_R0; apply bpow_ge_0]|]. split; [split; [exact F1|rewrite V1, Rabs_right by lra; exact B]|].
    rewrite V0, V1. split; [lra|]. split; lia.
  - unfold coarse, slack. rewrite V0, V1, Rabs_R0. replace (INR (6 - 1)) with 5 by (cbn; lra). replace (INR 6) with 6 by (cbn; lra).
    assert (5 * eps * (0 + 2 * (10 - 0) + 6 * tiny) <= 5 * eps * 26) by (apply Rmult_le_compat_l; lra). rewrite En in *. lra.
Qed.
Example C87_fair : fair_mesh (Mesh 0 0 10 10 6)%float /\
  field_of (World [fun _ _ => 10; fun _ _ => 0]%float [VF (Mesh 0 0 10 10 6)%float 0 1 None]) 0 (Mesh 0 0 10 10 6)%float (fun _ _ => 10%float) (fun _ _ => 0%float) 10.
Proof.
  destruct ten_side as [A B]. split; [repeat split; apply A || apply B|]. split; [|split].
  - eexists. repeat split.
  - intros i j _ _. destruct is_zero as [F0 V0]. destruct is_ten as [F1 V1]. rewrite V0, V1, Rabs_R0, Rabs_right by lra. repeat split; auto; lra.
  - apply Rle_trans with (2 ^ 4); [lra|]. apply Rle_pow; [lra|lia].
Qed.

(* A mesh with too many steps for its box has the same coordinate twice; looking up in a field on
   it raises, although the box is a proper one. *)
Theorem C87_fine_refuted : exists (m : mesh float) (w : world float),
  PrimFloat.ltb (m_xl m) (m_xh m) = true /\ PrimFloat.ltb (m_yl m) (m_yh m) = true /\ m_steps m = 4%nat /\
  mesh_new (BB (m_xl m) (m_yl m) (m_xh m) (m_yh m)) 4 = Ok m /\ w = fst (vf_zeros m (World [] [])) /\
  coord_x m 1 = coord_x m 0 /\ forall x y, snd (lookup 0 x y w) = Raise ValueError.
Proof.
  exists (Mesh 1 0 0x1.0000000000001p+0 10 4)%float. eexists. repeat split; vm_compute; reflexivity.
Qed.
