(* Property theorems C93, continued: bounding boxes on doubles do not overflow within the same bounds as drawing. *)
From Coq Require Import Reals Floats ZArith List Lra Lia String.
From Flocq Require Import Core BinarySingleNaN PrimFloat.
Require Import Verif.Base Verif.NumFloat Verif.NumR Verif.M_vector Verif.M_bbox Verif.M_transform Verif.M_bezier Verif.M_colors Verif.M_elems Verif.M_group.
Require Import Verif.S_float Verif.L_float Verif.L_float2 Verif.S_group Verif.S_gdraw Verif.L_elems Verif.L_group Verif.L_gdraw Verif.P_float Verif.P_float3 Verif.P_float5 Verif.P_float9 Verif.P_float12 Verif.P_float16 Verif.P_float17 Verif.P_float18.
Import ListNotations.
Set Warnings "-inexact-float".
Local Open Scope R_scope.

Definition upto (k : Z) (p : pt R) : Prop := (0 <= px p <= bpow radix2 k) /\ (0 <= py p <= bpow radix2 k).

Lemma upto_le k l p : (k <= l)%Z -> upto k p -> upto l p.
Proof. intros H [A B]. pose proof (bpow_le radix2 _ _ H). split; lra. Qed.
Lemma upto_max k p q : upto k p -> upto k q -> upto k (pmax p q).
Proof.
  intros [A B] [C D]. unfold pmax, upto. cbn [px py].
  split; unfold Rmax; destruct (Rle_dec _ _); assumption.
Qed.
Lemma upto_fold {A} k (g : A -> pt R) (l : list A) : (forall a, In a l -> upto k (g a)) -> upto k (fold_right pmax (P 0 0) (map g l)).
Proof.
  induction l as [|a l IH]; intros H; cbn [map fold_right].
  - pose proof (bpow_ge_0 radix2 k). split; cbn [px py]; lra.
  - apply upto_max; [apply H; now left|apply IH; intros; apply H; now right].
Qed.

Lemma upto_stretch k n (m : mat float) p : (0 <= k)%Z -> (0 <= n)%Z -> sizedm k m -> upto n p -> upto (n + (k + 3)) (stretch m p).
Proof.
  intros Hk Hn (A & B & _) [X Y]. destruct A as ((_ & A0) & (_ & A1) & (_ & A2)), B as ((_ & B0) & (_ & B1) & (_ & B2)).
  pose proof tiny_pos as Tp. pose proof P_float9.tiny_small as Ts. pose proof eps_lt as El. pose proof eps_pos as Ep.
  assert (K1 : 1 <= bpow radix2 k) by (change 1 with (bpow radix2 0); now apply bpow_le).
  assert (N1 : 1 <= bpow radix2 n) by (change 1 with (bpow radix2 0); now apply bpow_le).
  assert (E : bpow radix2 (n + (k + 3)) = 8 * (bpow radix2 k * bpow radix2 n)).
  { rewrite !bpow_plus. change (bpow radix2 3) with 8. ring. }
  assert (Tl : tiny <= 1).
  { unfold tiny. rewrite <- Rinv_1. apply Rinv_le; [lra|]. apply pow_R1_Rle. lra. }
  assert (Q : forall a b c, Rabs (val a) <= bpow radix2 k -> Rabs (val b) <= bpow radix2 k -> Rabs (val c) <= bpow radix2 k ->
    0 <= Rabs (val a) * px p + Rabs (val b) * py p + Rabs (val c) + 3 * tiny <= bpow radix2 (n + (k + 3))).
  { intros a b c Ha Hb Hc. pose proof (Rabs_pos (val a)). pose proof (Rabs_pos (val b)). pose proof (Rabs_pos (val c)). rewrite E.
    assert (0 <= Rabs (val a) * px p <= bpow radix2 k * bpow radix2 n) by (split; [apply Rmult_le_pos; lra|apply Rmult_le_compat; lra]).
    assert (0 <= Rabs (val b) * py p <= bpow radix2 k * bpow radix2 n) by (split; [apply Rmult_le_pos; lra|apply Rmult_le_compat; lra]).
    assert (bpow radix2 k * 1 <= bpow radix2 k * bpow radix2 n) by (apply Rmult_le_compat_l; lra). lra. }
  unfold stretch, upto. cbn [px py]. split; apply Q; assumption.
Qed.

(* how far from the axes the numbers of a tree can take it *)
Lemma extent_upto k c : (0 <= k)%Z -> (0 <= c)%Z -> forall e, numbers_below k c e ->
  upto (c + 2 + (Z.of_nat (depth e) - 1) * (k + 3)) (extent e).
Proof.
  intros Hk Hc.
  assert (C2 : bpow radix2 (c + 2) = 4 * bpow radix2 c) by (rewrite bpow_plus; change (bpow radix2 2) with 4; ring).
  assert (S2 : forall x y : float, sized c x -> sized c y -> 0 <= Rabs (val x) + Rabs (val y) <= bpow radix2 (c + 2)).
  { intros x y [_ X] [_ Y]. pose proof (Rabs_pos (val x)). pose proof (Rabs_pos (val y)). lra. }
  assert (S3 : forall x y z : float, sized c x -> sized c y -> sized c z -> 0 <= Rabs (val x) + Rabs (val y) + Rabs (val z) <= bpow radix2 (c + 2)).
  { intros x y z [_ X] [_ Y] [_ Z]. pose proof (Rabs_pos (val x)). pose proof (Rabs_pos (val y)). pose proof (Rabs_pos (val z)). lra. }
  assert (Step : forall e d, (depth e <= d)%nat -> (1 <= depth e)%nat -> sizedm k (tmat (e_xform (e_base e))) -> upto (c + 2 + (Z.of_nat (depth e) - 1) * (k + 3)) (extent e) ->
    upto (c + 2 + (Z.of_nat (S d) - 1) * (k + 3)) (stretch (tmat (e_xform (e_base e))) (extent e))).
  { intros e d Hd H1 Sm U.
    assert (0 <= (Z.of_nat (depth e) - 1) * (k + 3))%Z by (apply Z.mul_nonneg_nonneg; lia).
    eapply upto_le; [|apply upto_stretch; [exact Hk| |exact Sm|exact U]; lia].
    assert (Z.of_nat (depth e) * (k + 3) <= (Z.of_nat (S d) - 1) * (k + 3))%Z by (apply Z.mul_le_mono_nonneg_r; lia). lia. }
  assert (D1 : forall e, (1 <= depth e)%nat) by (intros [| |]; cbn [depth]; lia).
  assert (Sx : forall e, numbers_below k c e -> sizedm k (tmat (e_xform (e_base e)))) by (intros [| |] W; apply W).
  induction e as [b s|b h l p IH|b o i IHo IHi] using elem_induction; intros W.
  - cbn [depth]. replace (c + 2 + (Z.of_nat 1 - 1) * (k + 3))%Z with (c + 2)%Z by lia. destruct W as [_ W]. destruct s as [cps|p q|p q r|p q]; cbn [extent].
    + apply upto_fold. intros x Ix. rewrite Forall_forall in W. destruct (W x Ix) as ([? ?] & [? ?] & [? ?]). split; cbn [spread px py]; apply S3; assumption.
    + destruct W as [[? ?] [? ?]]. split; cbn [px py]; apply S2; assumption.
    + destruct W.
    + destruct W as [[? ?] [? ?]]. split; cbn [px py]; apply S2; assumption.
  - destruct W as [_ W]. cbn [extent]. apply upto_fold. intros ke Ik. rewrite Forall_forall in IH.
    pose proof (all_in' (fun ke => numbers_below k c (snd ke)) l ke W Ik) as Wk.
    cbn [depth]. apply Step; auto. apply (max_in (fun ke => depth (snd ke)) l ke Ik).
  - destruct W as [_ [Wo Wi]]. cbn [extent depth]. apply upto_max.
    + eapply upto_le; [|exact (IHo Wo)].
      assert ((Z.of_nat (depth o) - 1) * (k + 3) <= (Z.of_nat (S (Nat.max (depth o) (fold_right Nat.max 0%nat (map depth i)))) - 1) * (k + 3))%Z by (apply Z.mul_le_mono_nonneg_r; lia). lia.
    + apply upto_fold. intros e Ie. rewrite Forall_forall in IHi. pose proof (all_in' (numbers_below k c) i e Wi Ie) as We.
      apply Step; auto. pose proof (max_in depth i e Ie). lia.
Qed.

Lemma outer_upto k c e : (0 <= k)%Z -> (0 <= c)%Z -> numbers_below k c e -> upto (c + 2 + Z.of_nat (depth e) * (k + 3)) (outer_extent e).
Proof.
  intros Hk Hc W. pose proof (extent_upto k c Hk Hc e W) as U.
  assert (D1 : (1 <= depth e)%nat) by (destruct e; cbn [depth]; lia).
  assert (0 <= (Z.of_nat (depth e) - 1) * (k + 3))%Z by (apply Z.mul_nonneg_nonneg; lia).
  replace (c + 2 + Z.of_nat (depth e) * (k + 3))%Z with (c + 2 + (Z.of_nat (depth e) - 1) * (k + 3) + (k + 3))%Z by ring.
  apply upto_stretch; auto; try lia. destruct e; apply W.
Qed.

Lemma below_no_overflow k c : (0 <= k)%Z -> (0 <= c)%Z -> forall e, (Z.of_nat (depth e) * (k + 3) + c + 2 <= 1000)%Z -> numbers_below k c e -> no_overflow e.
Proof.
  intros Hk Hc.
  assert (Sm : forall n p, (n <= 1000)%Z -> upto n p -> small p).
  { intros n p Hn [A B]. pose proof (bpow_le radix2 _ _ Hn) as L. unfold small. change 1000%nat with (Z.to_nat 1000). rewrite pow_bpow by lia. split; lra. }
  assert (Top : forall e, (Z.of_nat (depth e) * (k + 3) + c + 2 <= 1000)%Z -> numbers_below k c e ->
    finite_mat (tmat (e_xform (e_base e))) /\ small (extent e) /\ small (outer_extent e)).
  { intros e L W. split; [|split].
    - assert (S : sizedm k (tmat (e_xform (e_base e)))) by (destruct e; apply W).
      destruct S as (A & B & _). destruct A as ([? _] & [? _] & [? _]), B as ([? _] & [? _] & [? _]). unfold finite_mat. auto 10.
    - eapply Sm; [|apply (extent_upto k c Hk Hc e W)]. lia.
    - eapply Sm; [|apply (outer_upto k c e Hk Hc W)]. lia. }
  assert (Dl : forall d n, (d <= n)%nat -> (Z.of_nat (S n) * (k + 3) + c + 2 <= 1000)%Z -> (Z.of_nat d * (k + 3) + c + 2 <= 1000)%Z).
  { intros d n Hd L. assert (Z.of_nat d * (k + 3) <= Z.of_nat (S n) * (k + 3))%Z by (apply Z.mul_le_mono_nonneg_r; lia). lia. }
  assert (All : forall {A} (g : A -> Prop) (l : list A), (forall a, In a l -> g a) -> fold_right and True (map g l)).
  { intros A g l. induction l as [|a l IH]; cbn; [auto|]. intros H. split; [apply H; now left|apply IH; intros; apply H; now right]. }
  induction e as [b s|b h l p IH|b o i IHo IHi] using elem_induction; intros L W; pose proof (Top _ L W) as T0; (split; [exact T0|]); destruct W as [_ W].
  - destruct s as [cps|p q|p q r|p q].
    + intros x Ix. rewrite Forall_forall in W. destruct (W x Ix) as ([[? _] [? _]] & [[? _] [? _]] & [[? _] [? _]]). unfold P_float17.finitep. auto 10.
    + destruct W as [[[? _] [? _]] [[? _] [? _]]]. unfold P_float17.finitep. auto.
    + destruct W.
    + destruct W as [[[? _] [? _]] [[? _] [? _]]]. unfold P_float17.finitep. auto.
  - apply (All _ (fun ke => no_overflow (snd ke))). intros ke Ik. rewrite Forall_forall in IH. apply IH; auto.
    + eapply Dl; [|exact L]. apply (max_in (fun ke => depth (snd ke)) l ke Ik).
    + exact (all_in' (fun ke => numbers_below k c (snd ke)) l ke W Ik).
  - destruct W as [Wo Wi]. cbn [depth] in L. split.
    + apply IHo; auto. eapply Dl; [|exact L]. lia.
    + apply (All _ no_overflow). intros e Ie. rewrite Forall_forall in IHi. apply IHi; auto.
      * eapply Dl; [|exact L]. pose proof (max_in depth i e Ie). lia.
      * exact (all_in' (numbers_below k c) i e Wi Ie).
Qed.

(* When all transforms of a tree have entries up to 2^k, and all coordinates are up to 2^c, no operation of bbox() overflows
   (the condition of C92 is met), and its edges are as close to the exact ones as the sizes say. *)
Theorem C93_box e k c b b' : (0 <= k)%Z -> (0 <= c)%Z -> (Z.of_nat (depth e) * (k + 3) + c + 2 <= 1000)%Z -> (depth e <= 300)%nat ->
  numbers_below k c e -> elem_bbox e = Ok b -> elem_bbox (val_elem e) = Ok b' ->
  no_overflow e /\
  let d := INR (3 * depth e + 4) * eps * bpow radix2 (c + 2 + Z.of_nat (depth e) * (k + 3)) in box_close d d b b'.
Proof.
  intros Hk Hc L D W E E'. pose proof (below_no_overflow k c Hk Hc e L W) as O. split; [exact O|].
  pose proof (C92_box e b b' O D E E') as H. cbv zeta in *. destruct (outer_upto k c e Hk Hc W) as [[_ X] [_ Y]].
  assert (K : 0 <= INR (3 * depth e + 4) * eps) by (apply Rmult_le_pos; [apply pos_INR|pose proof eps_pos; lra]).
  pose proof (Rmult_le_compat_l _ _ _ K X) as X'. pose proof (Rmult_le_compat_l _ _ _ K Y) as Y'.
  destruct b as [|x1 y1 x2 y2], b' as [|u1 v1 u2 v2]; try exact H. cbn [box_close] in *. destruct H as (F & A1 & A2 & A3 & A4). repeat split; try apply F; lra.
Qed.

(* the picture of C92, which is 2 levels deep *)
Example C93_example_box : numbers_below 7 4 picture2 /\ (Z.of_nat (depth picture2) * (7 + 3) + 4 + 2 <= 1000)%Z /\ (depth picture2 <= 300)%nat /\
  elem_bbox picture2 = Ok (BB 100 50 124 60)%float /\ exists b', elem_bbox (val_elem picture2) = Ok b'.
Proof.
  assert (W : numbers_below 7 4 picture2).
  { assert (C : forall z k, (Z.abs z <= 2 ^ 53)%Z -> (0 <= k)%Z -> (Z.abs z <= 2 ^ k)%Z -> sized k (float_ofZ z)) by (intros; now apply sized_const).
    assert (A0 : sized 7 0%float) by (apply (C 0%Z); vm_compute; discriminate). assert (A1 : sized 7 1%float) by (apply (C 1%Z); vm_compute; discriminate).
    assert (A2 : sized 7 2%float) by (apply (C 2%Z); vm_compute; discriminate). assert (A3 : sized 7 100%float) by (apply (C 100%Z); vm_compute; discriminate).
    assert (A4 : sized 7 50%float) by (apply (C 50%Z); vm_compute; discriminate).
    assert (B0 : sized 4 0%float) by (apply (C 0%Z); vm_compute; discriminate). assert (B1 : sized 4 1%float) by (apply (C 1%Z); vm_compute; discriminate).
    assert (B2 : sized 4 2%float) by (apply (C 2%Z); vm_compute; discriminate). assert (B3 : sized 4 10%float) by (apply (C 10%Z); vm_compute; discriminate).
    assert (B4 : sized 4 5%float) by (apply (C 5%Z); vm_compute; discriminate). assert (B5 : sized 4 4%float) by (apply (C 4%Z); vm_compute; discriminate).
    unfold picture2, t_new, mat_id. cbn [numbers_below e_base e_xform plain tmat map fold_right snd]. unfold sizedm, sized2, sizedv. cbn [m00 m01 m02 m10 m11 m12 m20 m21 m22 px py]. ops.
    change (float_ofZ 0) with 0%float. change (float_ofZ 1) with 1%float.
    repeat match goal with |- _ /\ _ => split | |- True => exact I | |- Forall _ [] => constructor | |- Forall _ (_ :: _) => constructor; cbn [cc cdl cdr px py vx vy] | |- sized _ _ => assumption end. }
  destruct C92_example as (O & D & N & _ & _ & E & _).
  split; [exact W|]. rewrite D. split; [cbn; lia|]. split; [lia|]. split; [exact E|].
  pose proof (C92_fails_alike picture2 O ltac:(rewrite D; lia) N) as F. rewrite E in F.
  destruct (elem_bbox (val_elem picture2)) as [b'|]; [now exists b'|contradiction].
Qed.

(* ------------------------------------------------------------------ *)
(** ** the distances of C89 and C92 from the sizes alone *)

Definition uptom (k : Z) (m : mat R) : Prop :=
  let u x := 0 <= x <= bpow radix2 k in
  (u (m00 m) /\ u (m01 m) /\ u (m02 m)) /\ (u (m10 m) /\ u (m11 m) /\ u (m12 m)) /\ (u (m20 m) /\ u (m21 m) /\ u (m22 m)).

Lemma tiny_1 : tiny <= 1.
Proof. unfold tiny. rewrite <- Rinv_1. apply Rinv_le; [lra|]. apply pow_R1_Rle. lra. Qed.
Lemma bpow_1 k : (0 <= k)%Z -> 1 <= bpow radix2 k.
Proof. intros H. change 1 with (bpow radix2 0). now apply bpow_le. Qed.

Lemma uptom_abs k m : sizedm k m -> uptom k (absm m).
Proof.
  intros (A & B & C). destruct A as ([_ ?] & [_ ?] & [_ ?]), B as ([_ ?] & [_ ?] & [_ ?]), C as ([_ ?] & [_ ?] & [_ ?]).
  unfold uptom, absm. cbn [m00 m01 m02 m10 m11 m12 m20 m21 m22]. repeat split; try apply Rabs_pos; assumption.
Qed.
Lemma row_upto a k x1 x2 x3 y1 y2 y3 : 0 <= x1 <= bpow radix2 a -> 0 <= x2 <= bpow radix2 a -> 0 <= x3 <= bpow radix2 a ->
  0 <= y1 <= bpow radix2 k -> 0 <= y2 <= bpow radix2 k -> 0 <= y3 <= bpow radix2 k ->
  0 <= x1 * y1 + x2 * y2 + x3 * y3 <= 3 * (bpow radix2 a * bpow radix2 k).
Proof.
  intros X1 X2 X3 Y1 Y2 Y3.
  assert (Q : forall x y, 0 <= x <= bpow radix2 a -> 0 <= y <= bpow radix2 k -> 0 <= x * y <= bpow radix2 a * bpow radix2 k).
  { intros x y X Y. split; [apply Rmult_le_pos; lra|apply Rmult_le_compat; lra]. }
  pose proof (Q _ _ X1 Y1). pose proof (Q _ _ X2 Y2). pose proof (Q _ _ X3 Y3). lra.
Qed.
Lemma uptom_dot a k m n : (0 <= a)%Z -> (0 <= k)%Z -> uptom a m -> uptom k n -> uptom (a + (k + 3)) (abs_dot m n).
Proof.
  intros Ha Hk (A & B & C) (A' & B' & C'). destruct A as (? & ? & ?), B as (? & ? & ?), C as (? & ? & ?), A' as (? & ? & ?), B' as (? & ? & ?), C' as (? & ? & ?).
  pose proof tiny_pos as Tp. pose proof tiny_1 as T1. pose proof (bpow_1 a Ha) as A1. pose proof (bpow_1 k Hk) as K1.
  assert (E : bpow radix2 (a + (k + 3)) = 8 * (bpow radix2 a * bpow radix2 k)) by (rewrite !bpow_plus; change (bpow radix2 3) with 8; ring).
  assert (1 * 1 <= bpow radix2 a * bpow radix2 k) by (apply Rmult_le_compat; lra).
  assert (Q : forall x1 x2 x3 y1 y2 y3, 0 <= x1 <= bpow radix2 a -> 0 <= x2 <= bpow radix2 a -> 0 <= x3 <= bpow radix2 a ->
    0 <= y1 <= bpow radix2 k -> 0 <= y2 <= bpow radix2 k -> 0 <= y3 <= bpow radix2 k ->
    0 <= x1 * y1 + x2 * y2 + x3 * y3 + 3 * tiny <= bpow radix2 (a + (k + 3))).
  { intros x1 x2 x3 y1 y2 y3 X1 X2 X3 Y1 Y2 Y3. pose proof (row_upto a k x1 x2 x3 y1 y2 y3 X1 X2 X3 Y1 Y2 Y3). rewrite E. lra. }
  unfold uptom, abs_dot, mat_map, mat_dot. cbn [m00 m01 m02 m10 m11 m12 m20 m21 m22 nadd nmul NumR].
  split; [split; [|split]|split; [split; [|split]|split; [|split]]]; apply Q; assumption.
Qed.
Lemma uptom_apply a n m p : (0 <= a)%Z -> (0 <= n)%Z -> uptom a m -> upto n p -> px (mat_apply m p) <= bpow radix2 (a + n + 2) /\ py (mat_apply m p) <= bpow radix2 (a + n + 2).
Proof.
  intros Ha Hn (A & B & _) [X Y]. destruct A as (? & ? & ?), B as (? & ? & ?). pose proof (bpow_1 n Hn) as N1.
  assert (E : bpow radix2 (a + n + 2) = 4 * (bpow radix2 a * bpow radix2 n)) by (rewrite !bpow_plus; change (bpow radix2 2) with 4; ring).
  assert (0 < bpow radix2 a * bpow radix2 n) by (apply Rmult_lt_0_compat; apply bpow_gt_0).
  assert (O : 0 <= 1 <= bpow radix2 n) by lra.
  unfold mat_apply. cbn [px py nadd nmul nofZ NumR].
  split; match goal with |- ?x1 * ?y1 + ?x2 * ?y2 + ?x3 * ?y3 <= _ => pose proof (row_upto a n x1 x2 x3 y1 y2 y3 ltac:(assumption) ltac:(assumption) ltac:(assumption) X Y O) end; lra.
Qed.

Lemma all_of {A} (g : A -> Prop) (l : list A) : (forall a, In a l -> g a) -> fold_right and True (map g l).
Proof. induction l as [|a l IH]; cbn; [auto|]. intros H. split; [apply H; now left|apply IH; intros; apply H; now right]. Qed.

Section Sizes.
Context {TF : NumTrig float}.

(* the element is drawn within a power of two that can be told from the sizes of its numbers *)
Lemma below_within k c : (0 <= k)%Z -> (0 <= c)%Z -> Rabs (val bez_90 - bez_90) <= 8 * eps -> forall e a z N, (0 <= a)%Z -> uptom a z ->
  numbers_below k c e -> (a + Z.of_nat (depth e) * (k + 3) + c + 5 <= N)%Z -> within (bpow radix2 N) z e.
Proof.
  intros Hk Hc Hb. pose proof tiny_pos as Tp. pose proof tiny_1 as T1. pose proof (bpow_1 c Hc) as C1.
  assert (C3 : bpow radix2 (c + 3) = 8 * bpow radix2 c) by (rewrite bpow_plus; change (bpow radix2 3) with 8; ring).
  assert (S1 : forall x : float, sized c x -> 0 <= Rabs (val x) <= bpow radix2 c) by (intros x [_ X]; split; [apply Rabs_pos|exact X]).
  induction e as [b s|b h l p IH|b o i IHo IHi] using elem_induction; intros a z N Ha Uz [Sm W] L;
    pose proof (uptom_dot a k z _ Ha Hk Uz (uptom_abs k _ Sm)) as U'.
  - cbn [depth] in L.
    assert (Fin : forall p, upto (c + 3) p -> px (mat_apply (abs_dot z (absm (tmat (e_xform (e_base (ELeaf b s)))))) p) <= bpow radix2 N /\
                                   py (mat_apply (abs_dot z (absm (tmat (e_xform (e_base (ELeaf b s)))))) p) <= bpow radix2 N).
    { intros p Up. destruct (uptom_apply (a + (k + 3)) (c + 3) _ p ltac:(lia) ltac:(lia) U' Up) as [X Y].
      assert (N1 : (a + (k + 3) + (c + 3) + 2 <= N)%Z) by lia. pose proof (bpow_le radix2 _ _ N1) as N2. clear - X Y N2. split; eapply Rle_trans; eassumption. }
    destruct s as [cps|p q|p q r|p q]; cbn [within].
    + intros x Ix. apply Fin. rewrite Forall_forall in W. destruct (W x Ix) as ([A1 A2] & [B1 B2] & [D1 D2]). apply S1 in A1, A2, B1, B2, D1, D2.
      split; cbn [spread px py]; lra.
    + destruct W as [[A1 A2] [B1 B2]]. intros x y Ix Iy. apply Fin. apply S1 in A1, A2, B1, B2.
      split; cbn [px py]; [destruct Ix as [<-|[<-|[]]]|destruct Iy as [<-|[<-|[]]]]; lra.
    + destruct W.
    + destruct W as [[A1 A2] [B1 B2]]. split; [exact Hb|]. split; [apply A1|]. split; [apply A2|]. split; [apply B1|]. split; [apply B2|].
      apply Fin. apply S1 in A1, A2, B1, B2. split; cbn [px py]; lra.
  - cbn [within]. apply (all_of (fun ke => within _ _ (snd ke))). intros ke Ik. rewrite Forall_forall in IH.
    apply (IH ke Ik (a + (k + 3))%Z); [lia|exact U'|exact (all_in' (fun ke => numbers_below k c (snd ke)) l ke W Ik)|].
    pose proof (max_in (fun ke => depth (snd ke)) l ke Ik) as D. cbv beta in D. cbn [depth] in L.
    assert (Z.of_nat (S (depth (snd ke))) * (k + 3) <= Z.of_nat (S (fold_right Nat.max 0%nat (map (fun ke => depth (snd ke)) l))) * (k + 3))%Z by (apply Z.mul_le_mono_nonneg_r; lia). lia.
  - destruct W as [Wo Wi]. cbn [within]. cbn [depth] in L.
    assert (Dl : forall d, (d <= Nat.max (depth o) (fold_right Nat.max 0%nat (map depth i)))%nat -> (a + (k + 3) + Z.of_nat d * (k + 3) + c + 5 <= N)%Z).
    { intros d Hd. assert (Z.of_nat (S d) * (k + 3) <= Z.of_nat (S (Nat.max (depth o) (fold_right Nat.max 0%nat (map depth i)))) * (k + 3))%Z by (apply Z.mul_le_mono_nonneg_r; lia). lia. }
    split.
    + apply (IHo (a + (k + 3))%Z); [lia|exact U'|exact Wo|apply Dl; lia].
    + apply (all_of (within _ _)). intros e Ie. rewrite Forall_forall in IHi.
      apply (IHi e Ie (a + (k + 3))%Z); [lia|exact U'|exact (all_in' (numbers_below k c) i e Wi Ie)|apply Dl]. pose proof (max_in depth i e Ie). lia.
Qed.

Lemma size_90 : finite bez_90 -> Rabs (val bez_90 - bez_90) <= 8 * eps -> sized 0 bez_90.
Proof.
  intros F A. split; [exact F|]. rewrite P_ellipse.bez_90_R, P_float6.eps_num in A.
  assert (H : sqrt 2 * sqrt 2 = 2) by (apply sqrt_def; lra). pose proof (sqrt_pos 2).
  assert (14 / 10 <= sqrt 2 <= 15 / 10) by (split; nra). change (bpow radix2 0) with 1. apply Rabs_le_inv in A. apply Rabs_le. lra.
Qed.

(* Drawing on doubles, from the sizes alone: every coordinate is finite and within 3 d + 31 roundings, taken at the size
   2^(a + d (k + 3) + c + 10), of the exact one, d being the depth. *)
Theorem C93_drawn {RF : NumRoot float} (dc : dctx) (e : elem float) (m : transform float) (a k c : Z) :
  (0 <= a)%Z -> (0 <= k)%Z -> (0 <= c)%Z -> (a + Z.of_nat (depth e) * (k + 3) + c + 12 <= 1000)%Z -> (depth e <= 300)%nat ->
  finite bez_90 -> Rabs (val bez_90 - bez_90) <= 8 * eps -> (points_per_curve dc <= 2 ^ 53)%Z -> sizedm a (tmat m) -> numbers_below k c e ->
  let d := INR (3 * depth e + 31) * eps * bpow radix2 (a + Z.of_nat (depth e) * (k + 3) + c + 10) in
  match snd (elem_paths dc e m), snd (elem_paths dc (val_elem e) (valt m)) with
  | Ok l, Ok l' => Forall2 (fun p p' => p_closed p = p_closed p' /\
      Forall2 (fun xy xy' => finite (fst xy) /\ finite (snd xy) /\ Rabs (val (fst xy) - fst xy') <= d /\ Rabs (val (snd xy) - snd xy') <= d) (p_points p) (p_points p')) l l'
  | Raise x, Raise x' => x = x'
  | _, _ => False
  end.
Proof.
  intros Ha Hk Hc L D Fb Hb Hn Sm W d. set (s := bpow radix2 (a + Z.of_nat (depth e) * (k + 3) + c + 5)).
  assert (Wi : within s (absm (tmat m)) e) by (apply (below_within k c Hk Hc Hb e a); auto; [now apply uptom_abs|lia]).
  pose proof (C89_tree dc e m s Hn Wi) as T.
  destruct (snd (elem_paths dc e m)) as [l|] eqn:E; destruct (snd (elem_paths dc (val_elem e) (valt m))) as [l'|] eqn:E'; try exact T.
  assert (L' : (a + Z.of_nat (depth e) * (k + 2) + c + 12 <= 1000)%Z) by lia.
  pose proof (C93_close dc e m a k c s l l' Ha Hk Hc L' (size_90 Fb Hb) Hn Sm W Wi E E') as H. cbv zeta in H.
  assert (G : ((1 + eps) ^ (3 * depth e + 30) - 1) * (27 * s + 85 * tiny) <= d).
  { pose proof (growth (3 * depth e + 30) ltac:(lia)) as G. replace (S (3 * depth e + 30)) with (3 * depth e + 31)%nat in G by lia.
    pose proof eps_pos as Ep. pose proof (pow_R1_Rle (1 + eps) (3 * depth e + 30) ltac:(lra)) as P1. pose proof tiny_pos as Tp.
    assert (0 <= Z.of_nat (depth e) * (k + 3))%Z by (apply Z.mul_nonneg_nonneg; lia).
    assert (S32 : bpow radix2 (a + Z.of_nat (depth e) * (k + 3) + c + 10) = 32 * s).
    { unfold s. replace (a + Z.of_nat (depth e) * (k + 3) + c + 10)%Z with (5 + (a + Z.of_nat (depth e) * (k + 3) + c + 5))%Z by ring. rewrite bpow_plus. reflexivity. }
    assert (S1 : 1 <= s) by (apply bpow_1; lia).
    assert (T17 : 85 * tiny <= 5 * s).
    { pose proof P_float9.tiny_small. lra. }
    unfold d. rewrite S32. apply Rmult_le_compat; lra. }
  eapply weaker2; [|exact H]. intros p p' [C Q]. split; [exact C|]. eapply weaker2; [|exact Q].
  intros xy xy' (F1 & F2 & X & Y). split; [exact F1|]. split; [exact F2|]. lra.
Qed.

Lemma sized_new : sizedm 0 (tmat (@t_new float _)).
Proof.
  unfold sizedm, t_new, mat_id. cbn [tmat m00 m01 m02 m10 m11 m12 m20 m21 m22]. ops.
  assert (sized 0 (float_ofZ 0)) by (apply sized_const; vm_compute; discriminate). assert (sized 0 (float_ofZ 1)) by (apply sized_const; vm_compute; discriminate). tauto.
Qed.

(* What is drawn on doubles lies in the bounding box computed on doubles, up to roundings at a size that can be told from the
   numbers of the tree. *)
Theorem C93_inside {RF : NumRoot float} (dc : dctx) (e : elem float) (k c : Z) b ps p x y :
  (0 <= k)%Z -> (0 <= c)%Z -> (Z.of_nat (depth e) * (k + 3) + c + 12 <= 1000)%Z -> (depth e <= 300)%nat ->
  finite bez_90 -> Rabs (val bez_90 - bez_90) <= 8 * eps -> (points_per_curve dc <= 2 ^ 53)%Z -> numbers_below k c e ->
  no_holes e -> boxable (val_elem e) ->
  elem_bbox e = Ok b -> snd (elem_paths dc e t_new) = Ok ps -> In p ps -> In (x, y) (p_points p) ->
  let d := INR (6 * depth e + 35) * eps * bpow radix2 (Z.of_nat (depth e) * (k + 3) + c + 10) in
  match b with
  | BB xl yl xh yh => (finite x /\ finite y) /\ (val xl - d <= val x <= val xh + d) /\ (val yl - d <= val y <= val yh + d)
  | BNone => False
  end.
Proof.
  intros Hk Hc L D Fb Hb Hn W Nh Bx E Ep Ip Iq d. set (s := bpow radix2 (Z.of_nat (depth e) * (k + 3) + c + 5)).
  assert (D0 : (0 <= Z.of_nat (depth e) * (k + 3))%Z) by (apply Z.mul_nonneg_nonneg; lia).
  assert (Wi : within s (absm (tmat t_new)) e) by (apply (below_within k c Hk Hc Hb e 0); auto; [lia|apply uptom_abs, sized_new|lia]).
  pose proof (below_no_overflow k c Hk Hc e ltac:(lia) W) as O.
  pose proof (C92_drawn_inside dc e s b ps p x y O D Nh Bx Hn Wi E Ep Ip Iq) as K. cbv zeta in K.
  destruct (C93_finite dc e t_new 0 k c ps p x y ltac:(lia) Hk Hc ltac:(lia) (size_90 Fb Hb) Hn sized_new W Ep Ip Iq) as (Fx & Fy & _).
  destruct (outer_upto k c e Hk Hc W) as [[_ X] [_ Y]].
  assert (Ss : bpow radix2 (c + 2 + Z.of_nat (depth e) * (k + 3)) <= s) by (apply bpow_le; lia).
  assert (S32 : bpow radix2 (Z.of_nat (depth e) * (k + 3) + c + 10) = 32 * s).
  { unfold s. replace (Z.of_nat (depth e) * (k + 3) + c + 10)%Z with (5 + (Z.of_nat (depth e) * (k + 3) + c + 5))%Z by ring. rewrite bpow_plus. reflexivity. }
  assert (S1 : 1 <= s) by (apply bpow_1; lia).
  assert (T17 : 85 * tiny <= 5 * s) by (pose proof P_float9.tiny_small; lra).
  pose proof eps_pos as Ep0. pose proof tiny_pos as Tp. pose proof (pos_INR (3 * depth e + 4)) as I1. pose proof (pos_INR (3 * depth e + 31)) as I2.
  assert (Dd : d = INR (3 * depth e + 4) * eps * (32 * s) + INR (3 * depth e + 31) * eps * (32 * s)).
  { unfold d. rewrite S32. replace (6 * depth e + 35)%nat with ((3 * depth e + 4) + (3 * depth e + 31))%nat by lia. rewrite plus_INR. ring. }
  assert (K1 : 0 <= INR (3 * depth e + 4) * eps) by (apply Rmult_le_pos; lra). assert (K2 : 0 <= INR (3 * depth e + 31) * eps) by (apply Rmult_le_pos; lra).
  assert (X' : INR (3 * depth e + 4) * eps * px (outer_extent e) <= INR (3 * depth e + 4) * eps * (32 * s)) by (apply Rmult_le_compat_l; lra).
  assert (Y' : INR (3 * depth e + 4) * eps * py (outer_extent e) <= INR (3 * depth e + 4) * eps * (32 * s)) by (apply Rmult_le_compat_l; lra).
  assert (Z' : INR (3 * depth e + 31) * eps * (27 * s + 85 * tiny) <= INR (3 * depth e + 31) * eps * (32 * s)) by (apply Rmult_le_compat_l; lra).
  destruct b as [|xl yl xh yh]; [exact K|]. destruct K as [Kx Ky]. specialize (Kx Fx). specialize (Ky Fy).
  split; [auto|]. clearbody d. clear - Dd X' Y' Z' Kx Ky. lra.
Qed.
End Sizes.

(* the picture of C92 with the constant as the C library computes it *)
Example C93_example_inside : finite (@bez_90 float _ c_library) /\ Rabs (val (@bez_90 float _ c_library) - bez_90) <= 8 * eps /\
  sizedm 0 (tmat (@t_new float _)) /\ numbers_below 7 4 picture2 /\ (Z.of_nat (depth picture2) * (7 + 3) + 4 + 12 <= 1000)%Z /\ (depth picture2 <= 300)%nat /\
  no_holes picture2 /\ boxable (val_elem picture2) /\ elem_bbox picture2 = Ok (BB 100 50 124 60)%float /\
  exists l, snd (@elem_paths float _ _ c_library (DC false 20) picture2 t_new) = Ok l /\ List.length l = 3%nat.
Proof.
  destruct C92_example as (_ & D & N & B & _ & E & P). destruct C93_example_box as (W & _).
  rewrite D. split; [vm_compute; reflexivity|]. split; [exact c_library_accurate|]. split; [apply sized_new|]. split; [exact W|]. split; [cbn; lia|]. split; [lia|]. auto.
Qed.
