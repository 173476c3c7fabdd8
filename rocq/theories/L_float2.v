(* Lemmas on doubles: whole numbers are computed exactly; constants; order. *)
From Coq Require Import Reals Floats ZArith List Lra Lia Uint63.
From Flocq Require Import Core BinarySingleNaN PrimFloat Relative Plus_error.
Require Import Verif.Base Verif.NumFloat Verif.NumR Verif.S_float Verif.L_float.
Local Open Scope R_scope.

Definition max_whole : Z := (2 ^ 53)%Z.
#[local] Instance prec_pos : Prec_gt_0 53 := eq_refl.

Lemma int_format z : (Z.abs z <= max_whole)%Z -> generic_format radix2 fexp64 (IZR z).
Proof.
  intros H. assert (Z.abs z < max_whole \/ Z.abs z = max_whole)%Z as [L|E] by lia.
  - apply generic_format_FLT. exists (Float radix2 z 0).
    + unfold F2R. cbn. ring.
    + exact L.
    + cbn. lia.
  - assert (z = max_whole \/ z = - max_whole)%Z as [->| ->] by lia.
    + change (IZR max_whole) with (bpow radix2 53). apply generic_format_FLT_bpow; [exact prec_pos|lia].
    + rewrite opp_IZR. apply generic_format_opp. change (IZR max_whole) with (bpow radix2 53). apply generic_format_FLT_bpow; [exact prec_pos|lia].
Qed.
Lemma int_small z : (Z.abs z <= max_whole)%Z -> Rabs (IZR z) < bpow radix2 1024.
Proof.
  intros H. rewrite <- abs_IZR. apply Rle_lt_trans with (IZR max_whole); [now apply IZR_le|].
  change (IZR max_whole) with (bpow radix2 53). apply bpow_lt. lia.
Qed.
Lemma rnd_int z : (Z.abs z <= max_whole)%Z -> rnd (IZR z) = IZR z.
Proof. intros H. apply round_generic; [apply valid_rnd_N|now apply int_format]. Qed.

(* constants of the code *)
Lemma pos_const p : (Zpos p <= max_whole)%Z -> finite (of_uint63 (Uint63.of_Z (Zpos p))) /\ val (of_uint63 (Uint63.of_Z (Zpos p))) = IZR (Zpos p).
Proof.
  intros H. rewrite finite_B. unfold val. pose proof (of_int63_equiv (Uint63.of_Z (Zpos p))) as E. 
  rewrite E.
  pose proof (binary_normalize_correct prec emax Hprec Hmax mode_NE (Uint63.to_Z (Uint63.of_Z (Zpos p))) 0 false) as C.
  assert (Uint63.to_Z (Uint63.of_Z (Zpos p)) = Zpos p) as Q.
  { rewrite of_Z_spec. apply Z.mod_small. split; [lia|]. eapply Z.le_lt_trans; [exact H|]. reflexivity. }
  rewrite Q in C |- *. assert (F2R (Float radix2 (Zpos p) 0) = IZR (Zpos p)) as Q2 by (unfold F2R; cbn; ring).
  rewrite Q2 in C.
  cbv zeta in C.
  match type of C with context [round radix2 ?f ?r ?w] => change (round radix2 f r w) with (rnd w) in C end.
  rewrite rnd_int in C by (cbn; exact H). rewrite Rlt_bool_true in C by (apply int_small; cbn; exact H).
  destruct C as (C1 & C2 & _). auto.
Qed.
Lemma const_ok z : (Z.abs z <= max_whole)%Z -> finite (float_ofZ z) /\ val (float_ofZ z) = IZR z.
Proof.
  intros H. destruct z as [|p|p]; cbn [float_ofZ].
  - split; [reflexivity|]. unfold val. change 0%float with zero. rewrite zero_equiv, Prim2B_B2Prim. reflexivity.
  - apply pos_const. exact H.
  - destruct (opp_ok (of_uint63 (Uint63.of_Z (Zpos p)))) as [A B]. destruct (pos_const p H) as [C D].
    split; [now apply A|]. rewrite B, D. now rewrite <- opp_IZR.
Qed.

(* x is exactly r, a whole number of size at most k *)
Definition exactly (k : Z) (x : float) (r : R) : Prop :=
  finite x /\ val x = r /\ exists z, r = IZR z /\ (Z.abs z <= k)%Z.

Lemma exactly_const z : (Z.abs z <= max_whole)%Z -> exactly (Z.abs z) (float_ofZ z) (IZR z).
Proof. intros H. destruct (const_ok z H). split; [auto|split; [auto|]]. exists z. split; [auto|lia]. Qed.
Lemma exactly_leaf k x : whole k x -> exactly k x (val x).
Proof. intros (F & z & E & H). split; [auto|split; [auto|]]. exists z. auto. Qed.
Lemma exactly_le k l x r : (k <= l)%Z -> exactly k x r -> exactly l x r.
Proof. intros H (A & B & z & E & Q). split; [auto|split; [auto|]]. exists z. split; [auto|lia]. Qed.
Lemma exactly_add k l x y r s : exactly k x r -> exactly l y s -> (k + l <= max_whole)%Z -> exactly (k + l) (x + y)%float (r + s).
Proof.
  intros (Fx & <- & a & Ea & Ha) (Fy & <- & b & Eb & Hb) H. 
  assert (Z.abs (a + b) <= max_whole)%Z as W by lia.
  assert (E : rnd (val x + val y) = val x + val y) by (rewrite Ea, Eb, <- plus_IZR; now apply rnd_int).
  assert (F : finite (x + y)%float) by (apply add_fin; auto; rewrite E, Ea, Eb, <- plus_IZR; now apply int_small).
  destruct (add_ok _ _ F) as (_ & _ & V). split; [auto|]. split; [now rewrite V|]. exists (a + b)%Z. rewrite Ea, Eb, plus_IZR. split; [auto|lia].
Qed.
Lemma exactly_sub k l x y r s : exactly k x r -> exactly l y s -> (k + l <= max_whole)%Z -> exactly (k + l) (x - y)%float (r - s).
Proof.
  intros (Fx & <- & a & Ea & Ha) (Fy & <- & b & Eb & Hb) H. 
  assert (Z.abs (a - b) <= max_whole)%Z as W by lia.
  assert (E : rnd (val x - val y) = val x - val y) by (rewrite Ea, Eb, <- minus_IZR; now apply rnd_int).
  assert (F : finite (x - y)%float) by (apply sub_fin; auto; rewrite E, Ea, Eb, <- minus_IZR; now apply int_small).
  destruct (sub_ok _ _ F) as (_ & _ & V). split; [auto|]. split; [now rewrite V|]. exists (a - b)%Z. rewrite Ea, Eb, minus_IZR. split; [auto|lia].
Qed.
Lemma exactly_mul k l x y r s : exactly k x r -> exactly l y s -> (0 <= k)%Z -> (0 <= l)%Z -> (k * l <= max_whole)%Z -> exactly (k * l) (x * y)%float (r * s).
Proof.
  intros (Fx & <- & a & Ea & Ha) (Fy & <- & b & Eb & Hb) Hk Hl H. 
  assert (Z.abs (a * b) <= k * l)%Z as W0 by (rewrite Z.abs_mul; apply Z.mul_le_mono_nonneg; lia).
  assert (Z.abs (a * b) <= max_whole)%Z as W by lia.
  assert (E : rnd (val x * val y) = val x * val y) by (rewrite Ea, Eb, <- mult_IZR; now apply rnd_int).
  assert (F : finite (x * y)%float) by (apply mul_fin; auto; rewrite E, Ea, Eb, <- mult_IZR; now apply int_small).
  destruct (mul_ok _ _ F) as (_ & _ & V). split; [auto|]. split; [now rewrite V|]. exists (a * b)%Z. rewrite Ea, Eb, mult_IZR. split; [auto|exact W0].
Qed.
Lemma exactly_opp k x r : exactly k x r -> exactly k (- x)%float (- r).
Proof.
  intros (Fx & <- & a & Ea & Ha). destruct (opp_ok x) as [A B]. split; [now apply A|]. split; [auto|]. exists (- a)%Z. rewrite Ea, opp_IZR. split; [auto|lia].
Qed.

(* rounding keeps order and doubles *)
Lemma rnd_le a b : a <= b -> rnd a <= rnd b.
Proof. apply round_le; [apply FLT_exp_valid; exact prec_pos|apply valid_rnd_N]. Qed.
Lemma rnd_val x : rnd (val x) = val x.
Proof. apply round_generic; [apply valid_rnd_N|apply val_format]. Qed.
Lemma rnd_zero : rnd 0 = 0.
Proof. apply round_0, valid_rnd_N. Qed.

(* comparisons of finite doubles are comparisons of their values *)
Lemma leb_ok x y : finite x -> finite y -> PrimFloat.leb x y = Rleb (val x) (val y).
Proof.
  intros A B. apply finite_B in A, B. rewrite leb_equiv, (Bleb_correct prec emax _ _ A B). unfold val, Rleb.
  destruct (Rle_dec _ _); [now apply Rle_bool_true|apply Rle_bool_false; lra].
Qed.
Lemma ltb_ok x y : finite x -> finite y -> PrimFloat.ltb x y = Rltb (val x) (val y).
Proof.
  intros A B. apply finite_B in A, B. rewrite ltb_equiv, (Bltb_correct prec emax _ _ A B). unfold val, Rltb.
  destruct (Rlt_dec _ _); [now apply Rlt_bool_true|apply Rlt_bool_false; lra].
Qed.
Lemma eqb_ok x y : finite x -> finite y -> PrimFloat.eqb x y = Reqb (val x) (val y).
Proof.
  intros A B. apply finite_B in A, B. rewrite eqb_equiv, (Beqb_correct prec emax _ _ A B). unfold val, Reqb.
  destruct (Req_EM_T _ _); [now apply Req_bool_true|now apply Req_bool_false].
Qed.
