(* Property theorems C86, continued: time functions on doubles. *)
From Coq Require Import Reals Floats ZArith List Lra Lia Psatz.
From Flocq Require Import Core BinarySingleNaN PrimFloat Relative Plus_error.
Require Import Verif.Base Verif.NumFloat Verif.NumR Verif.L_ord Verif.M_vector Verif.M_bbox Verif.M_transform Verif.M_bezier Verif.M_points Verif.M_colors Verif.M_elems Verif.M_group Verif.M_anim.
Require Import Verif.S_float Verif.L_float Verif.L_float2 Verif.P_float Verif.P_float2 Verif.P_float3 Verif.P_multi Verif.P_float4 Verif.P_float5 Verif.P_float6 Verif.P_float7 Verif.P_float8 Verif.P_float9 Verif.P_float10.
Import ListNotations.
Set Warnings "-inexact-float".
Local Open Scope R_scope.

(* ---------------- knots ---------------- *)

(* the knots have finite times in increasing order *)
Fixpoint rising_knots (l : list (float * float)) : Prop :=
  match l with
  | [] => True
  | k :: r => finite (fst k) /\ match r with [] => True | k' :: _ => val (fst k) < val (fst k') end /\ rising_knots r
  end.

Lemma rising_after l : forall k, rising_knots (k :: l) -> forall k', In k' l -> finite (fst k') /\ val (fst k) < val (fst k').
Proof.
  induction l as [|a l IH]; intros k (Fk & L & H) k' I; [destruct I|].
  destruct I as [->|I]; [split; [apply H|exact L]|]. destruct (IH a H k' I) as [A B]. split; [exact A|lra].
Qed.
Lemma interp_first l k x : rising_knots (k :: l) -> finite x -> val x = val (fst k) -> interp_from k l x = snd k.
Proof.
  intros H Fx E. destruct l as [|k' l]; [reflexivity|]. cbn [interp_from nltb neqb NumFloat].
  destruct (rising_after _ _ H k' (or_introl eq_refl)) as [F' L]. destruct H as [Fk _].
  rewrite ltb_ok by auto. rewrite E. replace (Rltb _ _) with true by (symmetry; now apply Rltb_lt).
  rewrite eqb_ok, E by auto. replace (Reqb _ _) with true; [reflexivity|]. symmetry. unfold Reqb. destruct (Req_EM_T _ _); [reflexivity|contradiction].
Qed.
Lemma interp_knot l : forall k x k', rising_knots (k :: l) -> finite x -> In k' (k :: l) -> val x = val (fst k') -> interp_from k l x = snd k'.
Proof.
  induction l as [|a l IH]; intros k x k' H Fx I E.
  - destruct I as [->|[]]. reflexivity.
  - destruct I as [->|I]; [now apply interp_first|]. cbn [interp_from nltb neqb NumFloat].
    destruct (rising_after _ _ H a (or_introl eq_refl)) as [Fa La]. rewrite ltb_ok by auto.
    assert (N : Rltb (val x) (val (fst a)) = false).
    { apply Rltb_ge. destruct I as [->|I]; [lra|]. destruct H as (_ & _ & H). destruct (rising_after _ _ H k' I). lra. }
    rewrite N. apply IH; auto. now destruct H as (_ & _ & H).
Qed.
Lemma interp_end l : forall k k' x, rising_knots (k :: l ++ [k']) -> finite x -> val (fst k') <= val x -> interp_from k (l ++ [k']) x = snd k'.
Proof.
  induction l as [|a l IH]; intros k k' x H Fx L; cbn [app interp_from nltb NumFloat].
  - destruct (rising_after _ _ H k' (or_introl eq_refl)) as [F _]. rewrite ltb_ok by auto.
    replace (Rltb _ _) with false by (symmetry; now apply Rltb_ge). reflexivity.
  - destruct (rising_after _ _ H a (or_introl eq_refl)) as [F _]. rewrite ltb_ok by auto.
    assert (Hr : rising_knots (a :: l ++ [k'])) by (now destruct H as (_ & _ & H)).
    destruct (rising_after _ _ Hr k' ltac:(apply in_or_app; right; now left)) as [_ L'].
    replace (Rltb _ _) with false by (symmetry; apply Rltb_ge; lra). now apply IH.
Qed.

(* At the time of a knot the value is the very double given for the knot; before the first knot it
   is that of the first, and from the last one on that of the last. *)
Theorem C86_interpolate_exact : forall (curve : list (float * float)) (g : tfun float) (x : float),
  rising_knots curve -> tf_interpolate curve = Ok g -> finite x ->
  (forall k, In k curve -> val x = val (fst k) -> g (TNum x) = Ok (TNum (snd k))) /\
  (forall k r, curve = k :: r -> val x < val (fst k) -> g (TNum x) = Ok (TNum (snd k))) /\
  (forall k r, curve = r ++ [k] -> val (fst k) <= val x -> g (TNum x) = Ok (TNum (snd k))).
Proof.
  intros [|k0 l] g x H E Fx; [discriminate|]. cbn [tf_interpolate] in E. apply ok_inj in E. subst g. cbn [np_interp bind nltb NumFloat].
  assert (F0 : finite (fst k0)) by (now destruct H). rewrite ltb_ok by auto.
  assert (All : forall k, In k (k0 :: l) -> val (fst k0) <= val (fst k)).
  { intros k [<-|I]; [lra|]. destruct (rising_after _ _ H k I). lra. }
  repeat split.
  - intros k I Ek. pose proof (All k I). replace (Rltb _ _) with false by (symmetry; apply Rltb_ge; lra).
    now rewrite (interp_knot l k0 x k H Fx I Ek).
  - intros k r Ek L. injection Ek as <- <-. replace (Rltb _ _) with true by (symmetry; now apply Rltb_lt). reflexivity.
  - intros k r Ek L. assert (I : In k (k0 :: l)) by (rewrite Ek; apply in_or_app; right; now left).
    pose proof (All k I). replace (Rltb _ _) with false by (symmetry; apply Rltb_ge; lra).
    destruct r as [|a r]; cbn [app] in Ek.
    + injection Ek as -> ->. reflexivity.
    + injection Ek as <- ->. now rewrite (interp_end r k0 k x H Fx L).
Qed.

(* ---------------- ramps ---------------- *)

Lemma format_1 : generic_format radix2 fexp64 1.
Proof. change 1 with (bpow radix2 0). apply generic_format_bpow. unfold fexp64, FLT_exp. lia. Qed.
Lemma rnd_1 : rnd 1 = 1.
Proof. apply round_generic; [apply valid_rnd_N|exact format_1]. Qed.
Lemma succ_1 : succ radix2 fexp64 1 = 1 + 2 * eps.
Proof.
  rewrite succ_eq_pos by lra. f_equal. change 1 with (bpow radix2 0) at 1. rewrite ulp_bpow.
  change (fexp64 (0 + 1)) with (- (53) + 1)%Z. pose proof eps_bpow. lra.
Qed.
(* what is less than half a step above 1 rounds to at most 1 *)
Lemma rnd_near_1 v : v < 1 + eps -> rnd v <= 1.
Proof.
  intros H. apply round_N_le_midp; [apply FLT_exp_valid; exact prec_pos|exact format_1|]. rewrite succ_1. lra.
Qed.
(* the reciprocal of a double of at most 1, multiplied back, rounds to at most 1 *)
Lemma recip_back D : 0 < D <= 1 -> rnd (rnd (1 / D) * D) <= 1.
Proof.
  intros HD. apply rnd_near_1.
  destruct (relative_error_N_FLT'_ex radix2 (-1074) 53 prec_pos (fun x => negb (Z.even x)) (1 / D)) as (d & e & Hd & He & Z0 & E).
  unfold fexp64 in *. rewrite E. replace (((1 / D) * (1 + d) + e) * D) with (1 + d + e * D) by (field; lra).
  pose proof eps_pos. pose proof eps_num as En.
  assert (U : u_ro radix2 53 = eps) by (unfold u_ro; apply eps_bpow). rewrite U in Hd.
  assert (Q : eps / (1 + eps) < eps). { apply Rmult_lt_reg_r with (1 + eps); [lra|]. unfold Rdiv. rewrite Rmult_assoc, Rinv_l by lra. nra. }
  assert (B : / 2 * bpow radix2 (-1074) < eps).
  { rewrite tiny_bpow. pose proof tiny_small. nra. }
  apply Rabs_le_inv in Hd. apply Rabs_le_inv in He.
  destruct (Rmult_integral _ _ Z0) as [->| ->]; [|lra]. assert (e * D <= Rabs e * D) by (apply Rmult_le_compat_r; [lra|apply Rle_abs]).
  assert (Rabs e <= / 2 * bpow radix2 (-1074)) by (apply Rabs_le; lra). pose proof (Rabs_pos e). nra.
Qed.
Lemma rnd_unit r : Rabs r <= 2 -> Rabs (rnd r) < bpow radix2 1024.
Proof. intros H. apply rnd_small. eapply Rle_trans; [exact H|]. rewrite <- (pow_1 2) at 1. apply Rle_pow; [lra|lia]. Qed.
Lemma sub_unit a b : finite a -> finite b -> Rabs (val a - val b) <= 2 -> finite (a - b)%float /\ val (a - b)%float = rnd (val a - val b).
Proof. intros Fa Fb H. assert (F : finite (a - b)%float) by (apply sub_fin; auto using rnd_unit). split; [exact F|apply sub_ok, F]. Qed.
Lemma add_unit a b : finite a -> finite b -> Rabs (val a + val b) <= 2 -> finite (a + b)%float /\ val (a + b)%float = rnd (val a + val b).
Proof. intros Fa Fb H. assert (F : finite (a + b)%float) by (apply add_fin; auto using rnd_unit). split; [exact F|apply add_ok, F]. Qed.
Lemma mul_unit a b : finite a -> finite b -> Rabs (val a * val b) <= 2 -> finite (a * b)%float /\ val (a * b)%float = rnd (val a * val b).
Proof. intros Fa Fb H. assert (F : finite (a * b)%float) by (apply mul_fin; auto using rnd_unit). split; [exact F|apply mul_ok, F]. Qed.

(* between two knots of the same value *)
Lemma flat_seg (a b x c c' : float) : finite a -> finite b -> finite x -> finite c -> finite c' -> val c' = val c -> Rabs (val c) <= 1 ->
  0 <= val a <= val x -> val x < val b <= 1 ->
  finite ((c' - c) / (b - a) * (x - a) + c)%float /\ val ((c' - c) / (b - a) * (x - a) + c)%float = val c.
Proof.
  intros Fa Fb Fx Fc Fc' E H H1 H2.
  destruct (sub_unit c' c Fc' Fc) as [A1 A2]; [rewrite E, Rminus_diag_eq, Rabs_R0 by reflexivity; lra|]. rewrite E, Rminus_diag_eq, rnd_zero in A2 by reflexivity.
  destruct (sub_unit b a Fb Fa) as [B1 B2]; [apply Rabs_le; lra|]. pose proof (sub_not_zero a b B1 ltac:(lra)) as Nz.
  assert (D1 : finite ((c' - c) / (b - a))%float).
  { apply div_fin; auto. apply rnd_unit. rewrite A2. unfold Rdiv. rewrite Rmult_0_l, Rabs_R0. lra. }
  destruct (div_ok _ _ B1 Nz D1) as [_ D2]. rewrite A2 in D2. unfold Rdiv in D2. rewrite Rmult_0_l, rnd_zero in D2.
  destruct (sub_unit x a Fx Fa) as [X1 X2]; [apply Rabs_le; lra|].
  destruct (mul_unit _ _ D1 X1) as [M1 M2]; [rewrite D2, Rmult_0_l, Rabs_R0; lra|]. rewrite D2, Rmult_0_l, rnd_zero in M2.
  destruct (add_unit _ c M1 Fc) as [S1 S2]; [rewrite M2, Rplus_0_l; lra|]. split; [exact S1|]. rewrite S2, M2, Rplus_0_l. apply rnd_val.
Qed.

(* the height of the ramp over x, strictly between its ends *)
Definition slope_at (s e x : R) : R := rnd (rnd (1 / rnd (e - s)) * rnd (x - s)).
Lemma slope_unit s e x : 0 <= s -> s < e -> e <= 1 -> tiny <= e - s -> s <= x <= e -> 0 <= slope_at s e x <= 1.
Proof.
  intros H0 H1 H2 Ht Hx. unfold slope_at.
  assert (D : 0 < rnd (e - s) <= 1).
  { split; [|rewrite <- rnd_1; apply rnd_le; lra]. pose proof (err_any (e - s)) as E. rewrite (Rabs_right (e - s)) in E by lra. pose proof tiny_pos. pose proof eps_pos. pose proof eps_num as En.
    apply Rabs_le_inv in E. assert (eps * (e - s + tiny) <= / 1000 * (e - s + tiny)) by (apply Rmult_le_compat_r; [lra|rewrite En; lra]). lra. }
  assert (Sp : 0 <= rnd (1 / rnd (e - s))). { rewrite <- rnd_zero at 1. apply rnd_le. apply Rmult_le_pos; [lra|]. apply Rlt_le, Rinv_0_lt_compat. lra. }
  assert (X : 0 <= rnd (x - s)) by (rewrite <- rnd_zero; apply rnd_le; lra).
  assert (Y : rnd (x - s) <= rnd (e - s)) by (apply rnd_le; lra).
  split; [rewrite <- rnd_zero at 1; apply rnd_le, Rmult_le_pos; auto|].
  eapply Rle_trans; [|apply (recip_back _ D)]. apply rnd_le. apply Rmult_le_compat_l; auto.
Qed.
Lemma slope_mono s e x y : 0 <= s -> s < e -> x <= y -> slope_at s e x <= slope_at s e y.
Proof.
  intros H0 H1 Hx. unfold slope_at. apply rnd_le. apply Rmult_le_compat_l; [|apply rnd_le; lra]. rewrite <- rnd_zero at 1. apply rnd_le.
  assert (D : 0 <= rnd (e - s)) by (rewrite <- rnd_zero at 1; apply rnd_le; lra).
  destruct D as [D|<-]; [apply Rmult_le_pos; [lra|]; apply Rlt_le, Rinv_0_lt_compat; lra|]. unfold Rdiv. rewrite Rinv_0. lra.
Qed.
Lemma rnd_opp r : rnd (- r) = - rnd r.
Proof. apply round_NE_opp. Qed.
(* the rising and the falling segment *)
Lemma ramp_seg (a b x c c' : float) : finite a -> finite b -> finite x -> finite c -> finite c' ->
  0 <= val a <= val x -> val x < val b <= 1 -> tiny <= val b - val a ->
  let r := ((c' - c) / (b - a) * (x - a) + c)%float in
  (val c = 0 -> val c' = 1 -> finite r /\ val r = slope_at (val a) (val b) (val x)) /\
  (val c = 1 -> val c' = 0 -> finite r /\ val r = rnd (1 - slope_at (val a) (val b) (val x))).
Proof.
  intros Fa Fb Fx Fc Fc' H1 H2 Ht r.
  pose proof (slope_unit (val a) (val b) (val x) ltac:(lra) ltac:(lra) ltac:(lra) Ht ltac:(lra)) as U.
  destruct (sub_unit b a Fb Fa) as [B1 B2]; [apply Rabs_le; lra|]. pose proof (sub_not_zero a b B1 ltac:(lra)) as Nz.
  destruct (sub_unit x a Fx Fa) as [X1 X2]; [apply Rabs_le; lra|].
  assert (Tf : rnd tiny = tiny).
  { apply round_generic; [apply valid_rnd_N|]. replace tiny with (bpow radix2 (-1022)).
    - apply generic_format_bpow. unfold fexp64, FLT_exp. lia.
    - unfold tiny. change (-1022)%Z with (Z.opp (Z.of_nat 1022)). rewrite bpow_opp, bpow_pow. reflexivity. }
  assert (Dt : tiny <= rnd (val b - val a)) by (rewrite <- Tf; apply rnd_le; lra). pose proof tiny_pos as Tp.
  assert (Sb : Rabs (rnd (1 / rnd (val b - val a))) < bpow radix2 1024).
  { rewrite Rabs_right.
    - apply Rle_lt_trans with (bpow radix2 1022); [|apply bpow_lt; lia].
      replace (bpow radix2 1022) with (rnd (bpow radix2 1022)) by (apply round_generic; [apply valid_rnd_N|apply generic_format_bpow; unfold fexp64, FLT_exp; lia]).
      apply rnd_le. replace (bpow radix2 1022) with (/ tiny).
      + unfold Rdiv. rewrite Rmult_1_l. apply Rinv_le_contravar; lra.
      + unfold tiny. rewrite Rinv_inv. change 1022%Z with (Z.of_nat 1022). now rewrite bpow_pow.
    - apply Rle_ge. rewrite <- rnd_zero at 1. apply rnd_le. apply Rmult_le_pos; [lra|]. apply Rlt_le, Rinv_0_lt_compat. lra. }
  split; intros Ec Ec'.
  - destruct (sub_unit c' c Fc' Fc) as [A1 A2]; [rewrite Ec, Ec'; apply Rabs_le; lra|]. rewrite Ec, Ec' in A2. replace (1 - 0) with 1 in A2 by ring. rewrite rnd_1 in A2.
    assert (D1 : finite ((c' - c) / (b - a))%float) by (apply div_fin; auto; rewrite A2, B2; exact Sb).
    destruct (div_ok _ _ B1 Nz D1) as [_ D2]. rewrite A2, B2 in D2.
    assert (M1 : finite ((c' - c) / (b - a) * (x - a))%float).
    { apply mul_fin; auto. rewrite D2, X2. fold (slope_at (val a) (val b) (val x)). rewrite Rabs_right by lra. apply Rle_lt_trans with (bpow radix2 0); [cbn; lra|apply bpow_lt; lia]. }
    destruct (mul_ok _ _ M1) as (_ & _ & M2). rewrite D2, X2 in M2. fold (slope_at (val a) (val b) (val x)) in M2.
    destruct (add_unit _ c M1 Fc) as [S1 S2]; [rewrite M2, Ec; apply Rabs_le; lra|]. split; [exact S1|]. unfold r. rewrite S2, M2, Ec, Rplus_0_r. rewrite <- M2. apply rnd_val.
  - destruct (sub_unit c' c Fc' Fc) as [A1 A2]; [rewrite Ec, Ec'; apply Rabs_le; lra|]. rewrite Ec, Ec' in A2. replace (0 - 1) with (- (1)) in A2 by ring. rewrite rnd_opp, rnd_1 in A2.
    assert (Q : - (1) / rnd (val b - val a) = - (1 / rnd (val b - val a))) by (unfold Rdiv; ring).
    assert (D1 : finite ((c' - c) / (b - a))%float) by (apply div_fin; auto; rewrite A2, B2, Q, rnd_opp, Rabs_Ropp; exact Sb).
    destruct (div_ok _ _ B1 Nz D1) as [_ D2]. rewrite A2, B2, Q, rnd_opp in D2.
    assert (W : rnd (- rnd (1 / rnd (val b - val a)) * rnd (val x - val a)) = - slope_at (val a) (val b) (val x)) by (unfold slope_at; rewrite Ropp_mult_distr_l_reverse; apply rnd_opp).
    assert (M1 : finite ((c' - c) / (b - a) * (x - a))%float).
    { apply mul_fin; auto. rewrite D2, X2, W, Rabs_Ropp, Rabs_right by lra. apply Rle_lt_trans with (bpow radix2 0); [cbn; lra|apply bpow_lt; lia]. }
    destruct (mul_ok _ _ M1) as (_ & _ & M2). rewrite D2, X2, W in M2.
    destruct (add_unit _ c M1 Fc) as [S1 S2]; [rewrite M2, Ec; apply Rabs_le; lra|]. split; [exact S1|]. unfold r. rewrite S2, M2, Ec.
    now replace (- slope_at (val a) (val b) (val x) + 1) with (1 - slope_at (val a) (val b) (val x)) by ring.
Qed.

(* the height of the rising ramp *)
Definition ramp_height (s e x : R) : R := if Rle_dec x s then 0 else if Rle_dec e x then 1 else slope_at s e x.

Lemma ramps_val (start stop : float) : finite start -> finite stop -> 0 <= val start -> val start < val stop -> val stop <= 1 -> tiny <= val stop - val start ->
  exists up down, tf_ramp_up start stop = Ok up /\ tf_ramp_down start stop = Ok down /\
  forall t, finite t -> exists y z, up (TNum t) = Ok (TNum y) /\ down (TNum t) = Ok (TNum z) /\ finite y /\ finite z /\
    val y = ramp_height (val start) (val stop) (val t) /\ val z = rnd (1 - ramp_height (val start) (val stop) (val t)).
Proof.
  intros Fs Fe H0 H1 H2 Ht. unfold tf_ramp_up, tf_ramp_down. eexists. eexists. split; [reflexivity|]. split; [reflexivity|].
  intros t Ft. cbn [np_interp bind interp_from fst snd]. eexists. eexists. split; [reflexivity|]. split; [reflexivity|].
  destruct (const_ok 0 ltac:(vm_compute; discriminate)) as [F0 V0]. destruct (const_ok 1 ltac:(vm_compute; discriminate)) as [F1 V1].
  change (@nofZ float NumFloat) with float_ofZ. cbn [nltb neqb nadd nsub nmul ndiv NumFloat].
  set (c0 := float_ofZ 0) in *. set (c1 := float_ofZ 1) in *.
  rewrite !ltb_ok, !eqb_ok by auto. rewrite V0, V1. unfold ramp_height.
  assert (R0 : rnd (1 - 0) = 1) by (rewrite Rminus_0_r; exact rnd_1). assert (R1 : rnd (1 - 1) = 0) by (rewrite Rminus_diag_eq by reflexivity; exact rnd_zero).
  destruct (Rltb (val t) 0) eqn:A.
  { apply Rltb_lt in A. destruct (Rle_dec (val t) (val start)); [|lra]. rewrite R0. auto. }
  apply Rltb_ge in A.
  destruct (Rltb (val t) (val start)) eqn:B.
  { apply Rltb_lt in B. destruct (Rle_dec (val t) (val start)); [|lra]. rewrite R0.
    destruct (Reqb 0 (val t)); [auto|].
    destruct (flat_seg c0 start t c0 c0) as [P1 P2]; auto; try lra; [rewrite V0, Rabs_R0; lra|].
    destruct (flat_seg c0 start t c1 c1) as [Q1 Q2]; auto; try lra; [rewrite V1, Rabs_R1; lra|].
    rewrite V0 in P2. rewrite V1 in Q2. auto. }
  apply Rltb_ge in B.
  destruct (Rltb (val t) (val stop)) eqn:C.
  { apply Rltb_lt in C. destruct (Reqb (val start) (val t)) eqn:G.
    - unfold Reqb in G. destruct (Req_EM_T _ _) as [G'|]; [|discriminate]. destruct (Rle_dec (val t) (val start)); [|lra]. rewrite R0. auto.
    - assert (Ne : val start <> val t) by (unfold Reqb in G; destruct (Req_EM_T _ _); [discriminate|auto]).
      destruct (Rle_dec (val t) (val start)); [lra|]. destruct (Rle_dec (val stop) (val t)); [lra|].
      destruct (ramp_seg start stop t c0 c1 Fs Fe Ft F0 F1 ltac:(lra) ltac:(lra) Ht) as [P0 _]. destruct (P0 V0 V1) as [P1 P2].
      destruct (ramp_seg start stop t c1 c0 Fs Fe Ft F1 F0 ltac:(lra) ltac:(lra) Ht) as [_ Q0]. destruct (Q0 V1 V0) as [Q1 Q2]. auto. }
  apply Rltb_ge in C. destruct (Rle_dec (val t) (val start)); [lra|]. destruct (Rle_dec (val stop) (val t)); [|lra]. rewrite R1.
  destruct (Rltb (val t) 1) eqn:D; [|auto]. apply Rltb_lt in D. destruct (Reqb (val stop) (val t)); [auto|].
  destruct (flat_seg stop c1 t c1 c1) as [P1 P2]; auto; try lra; [rewrite V1, Rabs_R1; lra|].
  destruct (flat_seg stop c1 t c0 c0) as [Q1 Q2]; auto; try lra; [rewrite V0, Rabs_R0; lra|].
  rewrite V1 in P2. rewrite V0 in Q2. auto.
Qed.
Lemma height_unit s e x : 0 <= s -> s < e -> e <= 1 -> tiny <= e - s -> 0 <= ramp_height s e x <= 1.
Proof. intros. unfold ramp_height. destruct (Rle_dec x s); [lra|]. destruct (Rle_dec e x); [lra|]. apply slope_unit; auto; lra. Qed.
Lemma height_mono s e x y : 0 <= s -> s < e -> e <= 1 -> tiny <= e - s -> x <= y -> ramp_height s e x <= ramp_height s e y.
Proof.
  intros H0 H1 H2 Ht L. pose proof (height_unit s e x H0 H1 H2 Ht) as U. pose proof (height_unit s e y H0 H1 H2 Ht) as W. revert U W. unfold ramp_height.
  destruct (Rle_dec x s), (Rle_dec y s), (Rle_dec e x), (Rle_dec e y); intros; try lra. apply slope_mono; lra.
Qed.
Lemma slope_near s e x : generic_format radix2 fexp64 s -> generic_format radix2 fexp64 e -> generic_format radix2 fexp64 x ->
  0 <= s -> s < e -> e <= 1 -> tiny <= e - s -> s <= x <= e -> Rabs (slope_at s e x - (x - s) / (e - s)) <= 8 * eps.
Proof.
  intros Fs Fe Fx H0 H1 H2 Ht Hx. unfold slope_at.
  assert (A : Rabs (rnd (e - s) - (e - s)) <= eps * (e - s)).
  { pose proof (err_sum e (- s) Fe (generic_format_opp _ _ _ Fs)) as E. change (e + - s) with (e - s) in E. rewrite (Rabs_right (e - s)) in E by lra. exact E. }
  assert (B : Rabs (rnd (x - s) - (x - s)) <= eps * (x - s)).
  { pose proof (err_sum x (- s) Fx (generic_format_opp _ _ _ Fs)) as E. change (x + - s) with (x - s) in E. rewrite (Rabs_right (x - s)) in E by lra. exact E. }
  assert (D1 : rnd (e - s) <= 1) by (rewrite <- rnd_1; apply rnd_le; lra).
  assert (dD : rnd (x - s) <= rnd (e - s)) by (apply rnd_le; lra). assert (d0 : 0 <= rnd (x - s)) by (rewrite <- rnd_zero; apply rnd_le; lra).
  set (D := rnd (e - s)) in *. set (d := rnd (x - s)) in *. set (w := e - s) in *. set (u := x - s) in *.
  assert (Hu : 0 <= u <= w) by (unfold u, w; lra). assert (Hw : 0 < w) by (unfold w; lra).
  pose proof eps_pos. pose proof eps_num as En. assert (E1 : eps <= / 1000) by (rewrite En; lra). pose proof tiny_pos. pose proof tiny_small.
  assert (Eu : eps * u <= eps * w) by (apply Rmult_le_compat_l; lra). assert (Ew : eps * w <= / 1000 * w) by (apply Rmult_le_compat_r; lra).
  apply Rabs_le_inv in A. apply Rabs_le_inv in B.
  assert (HD : 999 / 1000 * w <= D) by lra. assert (D0 : 0 < D) by lra.
  (* the quotient of the rounded differences *)
  assert (Q : Rabs (d / D - u / w) <= 3 * eps).
  { replace (d / D - u / w) with (((d - u) * w - u * (D - w)) / (D * w)) by (field; lra). unfold Rdiv. rewrite Rabs_mult, Rabs_inv.
    rewrite (Rabs_right (D * w)) by (apply Rle_ge, Rmult_le_pos; lra). apply Rmult_le_reg_r with (D * w); [apply Rmult_lt_0_compat; lra|].
    rewrite Rmult_assoc, Rinv_l, Rmult_1_r by (apply Rmult_integral_contrapositive; lra).
    assert (X : Rabs ((d - u) * w - u * (D - w)) <= eps * w * w + w * (eps * w)).
    { unfold Rminus at 1. eapply Rle_trans; [apply Rabs_triang|]. rewrite Rabs_Ropp, !Rabs_mult, (Rabs_right w), (Rabs_right u) by lra.
      apply Rplus_le_compat; [apply Rmult_le_compat_r; [lra|]|apply Rmult_le_compat; auto using Rabs_pos; try lra]; apply Rabs_le; lra. }
    eapply Rle_trans; [exact X|]. assert (0 <= eps * w) by (apply Rmult_le_pos; lra). assert (eps * w * (2 * w) <= eps * w * (3 * D)) by (apply Rmult_le_compat_l; lra). lra. }
  (* the rounded reciprocal *)
  assert (I1 : 1 <= 1 / D). { unfold Rdiv. rewrite Rmult_1_l, <- Rinv_1. apply Rinv_le_contravar; lra. }
  pose proof (err_any (1 / D)) as S1. rewrite (Rabs_right (1 / D)) in S1 by lra. set (T0 := rnd (1 / D)) in *.
  assert (S2 : Rabs (T0 - 1 / D) <= 2 * eps * (1 / D)). { eapply Rle_trans; [exact S1|]. assert (eps * (1 / D + tiny) <= eps * (2 * (1 / D))) by (apply Rmult_le_compat_l; lra). lra. }
  assert (q1 : 0 <= d / D <= 1).
  { split; [apply Rmult_le_pos; [lra|apply Rlt_le, Rinv_0_lt_compat; lra]|]. apply Rmult_le_reg_r with D; [lra|]. unfold Rdiv. rewrite Rmult_assoc, Rinv_l by lra. lra. }
  assert (S3 : Rabs (T0 * d - d / D) <= 2 * eps).
  { replace (T0 * d - d / D) with ((T0 - 1 / D) * d) by (field; lra). rewrite Rabs_mult, (Rabs_right d) by lra.
    eapply Rle_trans; [apply Rmult_le_compat_r; [lra|exact S2]|]. replace (2 * eps * (1 / D) * d) with (2 * eps * (d / D)) by (field; lra). nra. }
  pose proof (err_any (T0 * d)) as S4.
  assert (S5 : Rabs (T0 * d) <= 1 + 2 * eps). { replace (T0 * d) with ((T0 * d - d / D) + d / D) by ring. eapply Rle_trans; [apply Rabs_triang|]. rewrite (Rabs_right (d / D)) by lra. lra. }
  assert (S6 : eps * (Rabs (T0 * d) + tiny) <= eps * 2) by (apply Rmult_le_compat_l; lra).
  replace (rnd (T0 * d) - u / w) with ((rnd (T0 * d) - T0 * d) + ((T0 * d - d / D) + (d / D - u / w))) by ring.
  eapply Rle_trans; [apply Rabs_triang|]. assert (Rabs (T0 * d - d / D + (d / D - u / w)) <= 5 * eps) by (eapply Rle_trans; [apply Rabs_triang|]; lra). lra.
Qed.

(* Ramps on doubles: the value never leaves the unit interval by rounding, is exactly 0 and 1 at
   the ends and beyond them, lies within eight units of rounding of the exact straight line in
   between, and the ramp down is the rounded difference of 1 and the ramp up. *)
Theorem C86_ramps : forall (start stop : float), finite start -> finite stop -> 0 <= val start -> val start < val stop -> val stop <= 1 -> tiny <= val stop - val start ->
  exists up down, tf_ramp_up start stop = Ok up /\ tf_ramp_down start stop = Ok down /\
  forall t, finite t -> exists y z, up (TNum t) = Ok (TNum y) /\ down (TNum t) = Ok (TNum z) /\ finite y /\ finite z /\
    0 <= val y <= 1 /\ 0 <= val z <= 1 /\ val z = val (1 - y)%float /\
    (val t <= val start -> val y = 0 /\ val z = 1) /\ (val stop <= val t -> val y = 1 /\ val z = 0) /\
    (val start <= val t <= val stop -> Rabs (val y - (val t - val start) / (val stop - val start)) <= 8 * eps).
Proof.
  intros s e Fs Fe H0 H1 H2 Ht. destruct (ramps_val s e Fs Fe H0 H1 H2 Ht) as (up & down & Eu & Ed & G).
  exists up, down. split; [exact Eu|]. split; [exact Ed|]. intros t Ft. destruct (G t Ft) as (y & z & Yu & Zd & Fy & Fz & Vy & Vz).
  pose proof (height_unit (val s) (val e) (val t) H0 H1 H2 Ht) as U.
  assert (R0 : rnd (1 - 0) = 1) by (rewrite Rminus_0_r; exact rnd_1). assert (R1 : rnd (1 - 1) = 0) by (rewrite Rminus_diag_eq by reflexivity; exact rnd_zero).
  exists y, z. split; [exact Yu|]. split; [exact Zd|]. split; [exact Fy|]. split; [exact Fz|].
  split; [rewrite Vy; exact U|]. split. { rewrite Vz. split; [rewrite <- rnd_zero; apply rnd_le; lra|eapply Rle_trans; [|apply Req_le, rnd_1]; apply rnd_le; lra]. }
  split. { destruct (const_ok 1 ltac:(vm_compute; discriminate)) as [F1 V1]. change (float_ofZ 1) with 1%float in *.
    destruct (sub_unit 1%float y F1 Fy) as [_ ->]; [rewrite V1, Vy; apply Rabs_le; lra|]. rewrite V1, Vy. exact Vz. }
  repeat split; try intros L; rewrite ?Vz, ?Vy; unfold ramp_height.
  - destruct (Rle_dec _ _); [reflexivity|lra].
  - destruct (Rle_dec _ _); [exact R0|lra].
  - destruct (Rle_dec _ _); [lra|]. destruct (Rle_dec _ _); [reflexivity|lra].
  - destruct (Rle_dec _ _); [lra|]. destruct (Rle_dec _ _); [exact R1|lra].
  - pose proof eps_pos. destruct (Rle_dec _ _).
    { replace (val t) with (val s) by lra. replace (0 - (val s - val s) / (val e - val s)) with 0 by (field; lra). rewrite Rabs_R0. lra. }
    destruct (Rle_dec _ _).
    { replace (val t) with (val e) by lra. replace (1 - (val e - val s) / (val e - val s)) with 0 by (field; lra). rewrite Rabs_R0. lra. }
    apply slope_near; auto using val_format.
Qed.
(* A ramp on doubles never turns back: a later time never gives a smaller value of the ramp up nor
   a larger one of the ramp down, rounding included. *)
Theorem C86_ramps_monotone : forall (start stop t1 t2 y1 y2 z1 z2 : float) up down,
  finite start -> finite stop -> 0 <= val start -> val start < val stop -> val stop <= 1 -> tiny <= val stop - val start ->
  tf_ramp_up start stop = Ok up -> tf_ramp_down start stop = Ok down -> finite t1 -> finite t2 -> val t1 <= val t2 ->
  up (TNum t1) = Ok (TNum y1) -> up (TNum t2) = Ok (TNum y2) -> down (TNum t1) = Ok (TNum z1) -> down (TNum t2) = Ok (TNum z2) ->
  val y1 <= val y2 /\ val z2 <= val z1.
Proof.
  intros s e t1 t2 y1 y2 z1 z2 up down Fs Fe H0 H1 H2 Ht Eu Ed F1 F2 L Y1 Y2 Z1 Z2.
  destruct (ramps_val s e Fs Fe H0 H1 H2 Ht) as (up' & down' & Eu' & Ed' & G). rewrite Eu in Eu'. rewrite Ed in Ed'. apply ok_inj in Eu', Ed'. subst up' down'.
  destruct (G t1 F1) as (a & b & A1 & B1 & _ & _ & A & B). destruct (G t2 F2) as (c & d & C1 & D1 & _ & _ & C & D).
  rewrite Y1 in A1. rewrite Z1 in B1. rewrite Y2 in C1. rewrite Z2 in D1. apply ok_inj in A1, B1, C1, D1.
  assert (I : forall p q : float, TNum p = TNum q -> p = q) by (intros p q X; exact (f_equal (fun v => match v with TNum p => p | _ => p end) X)).
  apply I in A1, B1, C1, D1. subst a b c d. rewrite A, B, C, D.
  pose proof (height_mono (val s) (val e) _ _ H0 H1 H2 Ht L). split; [lra|]. apply rnd_le. lra.
Qed.

(* ---------------- periodic functions ---------------- *)

Section Periodic.
  Context {TF : NumTrig float} (k : nat) (Acc : accurate_trig k TF).

  Lemma near_turn (t fr off : float) :
    near 5 (Rabs (val t) * (9 * Rabs (val fr) + Rabs (val off) + 2 * tiny) + tiny) (t * (tau * fr + radians off))%float (val t * (2 * PI * val fr + radians (val off))).
  Proof.
    pose proof tiny_small. pose proof tiny_pos. pose proof PI_4. pose proof (Rabs_pos (val t)). pose proof (Rabs_pos (val fr)). pose proof (Rabs_pos (val off)).
    eapply near_weaken; [| |exact (near_mul _ _ _ _ _ _ _ _ (near_leaf t) (near_add _ _ _ _ _ _ _ _ (near_mul _ _ _ _ _ _ _ _ (near_tau k Acc) (near_leaf fr)) (near_radians k off Acc)))]; [lia|].
    apply Rplus_le_compat_r, Rmult_le_compat_l; [lra|]. assert ((2 * PI + tiny) * Rabs (val fr) <= 9 * Rabs (val fr)) by (apply Rmult_le_compat_r; lra). lra.
  Qed.
  (* a wave of one of the two functions *)
  Lemma wave_close (trig : float -> float) (exact : R -> R) (t fr off sc sh : float) :
    (forall x, finite (trig x) -> finite x /\ Rabs (val (trig x) - exact (val x)) <= INR k * eps) -> (forall a, Rabs (exact a) <= 1) ->
    (forall a b, Rabs (exact a - exact b) <= Rabs (a - b)) -> (k <= 900)%nat ->
    let y := (trig (t * (tau * fr + radians off)) * sc + sh)%float in finite y ->
    Rabs (val y - (exact (val t * (2 * PI * val fr + radians (val off))) * val sc + val sh)) <=
      eps * ((INR k + 3) * (Rabs (val sc) + Rabs (val sh) + tiny) + 6 * Rabs (val sc) * (Rabs (val t) * (9 * Rabs (val fr) + Rabs (val off) + 2 * tiny) + tiny)).
  Proof.
    intros Ht Hb Hl Hk y Fy. set (th := (t * (tau * fr + radians off))%float) in *. set (a := val t * _).
    pose proof eps_pos. pose proof tiny_pos.
    assert (Nv : near k 1 (trig th) (exact (val th))).
    { split; [apply Hb|]. intros F. destruct (Ht th F) as [_ B]. eapply Rle_trans; [exact B|]. rewrite Rmult_1_r. pose proof (poly k eps eps_pos). lra. }
    destruct (add_ok _ _ Fy) as (Fm & _ & _). destruct (mul_ok _ _ Fm) as (Fv & _ & _). destruct (Ht th Fv) as [Fth _].
    pose proof (near_add _ _ _ _ _ _ _ _ (near_mul _ _ _ _ _ _ _ _ Nv (near_leaf sc)) (near_leaf sh)) as Q. fold y in Q.
    pose proof (near_use _ _ _ _ (INR k + 3) (Rabs (val sc) + Rabs (val sh) + tiny) Q ltac:(lia)) as U.
    assert (I3 : INR (Datatypes.S (Datatypes.S (Nat.max (Datatypes.S (k + 0)) 0))) <= INR k + 3).
    { rewrite Nat.max_0_r, Nat.add_0_r, !S_INR. lra. }
    specialize (U I3 ltac:(lra) Fy).
    pose proof (near_use _ _ _ _ 6 _ (near_turn t fr off) ltac:(lia) ltac:(cbn; lra) (Rle_refl _) Fth) as A. fold th a in A.
    set (W := Rabs (val t) * _ + tiny) in *.
    replace (val y - (exact a * val sc + val sh)) with ((val y - (exact (val th) * val sc + val sh)) + (exact (val th) - exact a) * val sc) by ring.
    eapply Rle_trans; [apply Rabs_triang|]. rewrite Rabs_mult.
    assert (Z : Rabs (exact (val th) - exact a) * Rabs (val sc) <= 6 * eps * W * Rabs (val sc)) by (apply Rmult_le_compat_r; [apply Rabs_pos|]; eapply Rle_trans; [apply Hl|exact A]).
    lra.
  Qed.
  Lemma wave_sin x : finite (nsin x) -> finite x /\ Rabs (val (nsin x) - sin (val x)) <= INR k * eps.
  Proof. destruct Acc as [_ A]. apply A. Qed.
  Lemma wave_cos x : finite (ncos x) -> finite x /\ Rabs (val (ncos x) - cos (val x)) <= INR k * eps.
  Proof. destruct Acc as [_ A]. apply A. Qed.
End Periodic.
Lemma sin_1 a : Rabs (sin a) <= 1.
Proof. apply Rabs_le. pose proof (SIN_bound a). lra. Qed.
Lemma cos_1 a : Rabs (cos a) <= 1.
Proof. apply Rabs_le. pose proof (COS_bound a). lra. Qed.

(* The periodic functions of time on doubles: the value is close to that of the exact formula
   f(t * (2 pi frequency + offset in radians)) * scale + shift, with an error that grows with the
   number of turns taken by time t. *)
Theorem C86_periodic {TF : NumTrig float} (k : nat) (frequency offset scale shift t : float) : accurate_trig k TF -> (k <= 900)%nat ->
  let a := val t * (2 * PI * val frequency + radians (val offset)) in
  let close (y : float) (wave : R -> R) := finite y ->
    Rabs (val y - (wave a * val scale + val shift)) <=
      eps * ((INR k + 3) * (Rabs (val scale) + Rabs (val shift) + tiny)
             + 6 * Rabs (val scale) * (Rabs (val t) * (9 * Rabs (val frequency) + Rabs (val offset) + 2 * tiny) + tiny)) in
  exists ys yc, tf_sin frequency offset scale shift (TNum t) = Ok (TNum ys) /\ tf_cos frequency offset scale shift (TNum t) = Ok (TNum yc) /\
    tf_sin_cos frequency offset scale shift (TNum t) = Ok (TPair ys yc) /\ close ys sin /\ close yc cos.
Proof.
  intros Acc Hk a close. do 2 eexists. split; [reflexivity|]. split; [reflexivity|]. split; [reflexivity|].
  split; intros F; ops_in F; ops.
  - apply (wave_close k Acc nsin sin); auto using wave_sin, sin_1, sin_lip.
  - apply (wave_close k Acc ncos cos); auto using wave_cos, cos_1, cos_lip.
Qed.

(* When the sine and cosine of the library never leave the interval from -1 to 1, a wave never
   leaves the rounded interval from shift - scale to shift + scale. *)
Theorem C86_periodic_range {TF : NumTrig float} (frequency offset scale shift t : float) :
  (forall x, finite x -> (finite (nsin x) /\ -1 <= val (nsin x) <= 1) /\ (finite (ncos x) /\ -1 <= val (ncos x) <= 1)) ->
  finite (t * (tau * frequency + radians offset))%float -> finite (shift - scale)%float -> finite (shift + scale)%float -> 0 <= val scale ->
  exists ys yc, tf_sin frequency offset scale shift (TNum t) = Ok (TNum ys) /\ tf_cos frequency offset scale shift (TNum t) = Ok (TNum yc) /\
    tf_sin_cos frequency offset scale shift (TNum t) = Ok (TPair ys yc) /\
    finite ys /\ finite yc /\
    val (shift - scale)%float <= val ys <= val (shift + scale)%float /\ val (shift - scale)%float <= val yc <= val (shift + scale)%float.
Proof.
  intros Lib Fth F1 F2 Hs. do 2 eexists. split; [reflexivity|]. split; [reflexivity|]. split; [reflexivity|]. ops.
  set (th := (t * (tau * frequency + radians offset))%float) in *.
  assert (G : forall v, finite v -> -1 <= val v <= 1 -> finite (v * scale + shift)%float /\ val (shift - scale)%float <= val (v * scale + shift)%float <= val (shift + scale)%float).
  { intros v Fv Hv. destruct (sub_ok _ _ F1) as (Fsh & Fsc & E1). destruct (add_ok _ _ F2) as (_ & _ & E2).
    assert (L : - val scale <= rnd (val v * val scale) <= val scale).
    { pose proof (rnd_le (- val scale) (val v * val scale) ltac:(nra)) as X. pose proof (rnd_le (val v * val scale) (val scale) ltac:(nra)) as Y.
      rewrite rnd_opp in X. rewrite rnd_val in X, Y. lra. }
    assert (Fm : finite (v * scale)%float).
    { apply mul_fin; auto. eapply Rle_lt_trans; [|exact (val_bound scale)]. rewrite (Rabs_right (val scale)) by lra. apply Rabs_le. lra. }
    destruct (mul_ok _ _ Fm) as (_ & _ & Em).
    assert (B : rnd (val shift - val scale) <= rnd (val (v * scale)%float + val shift) <= rnd (val shift + val scale)) by (rewrite Em; split; apply rnd_le; lra).
    assert (Fa : finite (v * scale + shift)%float).
    { apply add_fin; auto. rewrite <- E1, <- E2 in B. pose proof (val_bound (shift - scale)%float) as B1. pose proof (val_bound (shift + scale)%float) as B2.
      apply Rabs_def2 in B1. apply Rabs_def2 in B2. apply Rabs_def1; lra. }
    split; [exact Fa|]. destruct (add_ok _ _ Fa) as (_ & _ & ->). rewrite E1, E2. exact B. }
  destruct (Lib th Fth) as [[A1 A2] [B1 B2]]. destruct (G _ A1 A2). destruct (G _ B1 B2). auto.
Qed.

(* ---------------- examples ---------------- *)

Lemma quarter z : (Z.abs z <= 1000)%Z -> finite (float_ofZ z / float_ofZ 4)%float /\ val (float_ofZ z / float_ofZ 4)%float = IZR z / 4.
Proof.
  intros Hz. destruct (const_ok z) as [F V]; [unfold max_whole; lia|]. destruct (const_ok 4) as [F4 V4]; [vm_compute; discriminate|].
  assert (G : rnd (IZR z / 4) = IZR z / 4).
  { apply round_generic; [apply valid_rnd_N|]. apply generic_format_FLT. exists (Float radix2 z (-2)); cbn [Fnum Fexp].
    - unfold F2R. cbn [Fnum Fexp]. change (bpow radix2 (-2)) with (/ 4). reflexivity.
    - change (radix2 ^ 53)%Z with (2 ^ 53)%Z. lia.
    - lia. }
  assert (Nz : val (float_ofZ 4) <> 0) by (rewrite V4; lra).
  assert (Fd : finite (float_ofZ z / float_ofZ 4)%float).
  { apply div_fin; auto. rewrite V, V4, G. unfold Rdiv. rewrite Rabs_mult, (Rabs_right (/ 4)) by lra. rewrite <- abs_IZR.
    apply Rle_lt_trans with (bpow radix2 (Z.of_nat 10)); [|apply bpow_lt; lia]. rewrite bpow_pow. apply IZR_le in Hz. cbn [pow]. pose proof (IZR_le 0 (Z.abs z) ltac:(lia)). lra. }
  split; [exact Fd|]. destruct (div_ok _ _ F4 Nz Fd) as [_ ->]. now rewrite V, V4.
Qed.
(* knots at 0, 1 and 4, at the middle one *)
Example C86_example_interpolate : rising_knots [(0, 5); (1, 7); (4, 2)]%float /\
  exists g, tf_interpolate [(0, 5); (1, 7); (4, 2)]%float = Ok g /\ g (TNum 1%float) = Ok (TNum 7%float).
Proof.
  assert (H : rising_knots [(0, 5); (1, 7); (4, 2)]%float) by (cbn [rising_knots fst]; repeat (split; try exact I; try reflexivity; try (apply before; reflexivity))).
  split; [exact H|]. eexists. split; [reflexivity|].
  destruct (C86_interpolate_exact [(0, 5); (1, 7); (4, 2)]%float _ 1%float H eq_refl eq_refl) as [K _]. exact (K (1, 7)%float (or_intror (or_introl eq_refl)) eq_refl).
Qed.
(* the ramps from a quarter to three quarters, which are the default *)
Example C86_example_ramps : exists up down y z, tf_ramp_up 0.25%float 0.75%float = Ok up /\ tf_ramp_down 0.25%float 0.75%float = Ok down /\
  up (TNum 0.5%float) = Ok (TNum y) /\ down (TNum 0.5%float) = Ok (TNum z) /\ 0 <= val y <= 1 /\ Rabs (val y - / 2) <= 8 * eps.
Proof.
  destruct (quarter 1) as [F1 V1]; [lia|]. destruct (quarter 3) as [F3 V3]; [lia|]. destruct (quarter 2) as [F2 V2]; [lia|].
  change (float_ofZ 1 / float_ofZ 4)%float with 0.25%float in *. change (float_ofZ 3 / float_ofZ 4)%float with 0.75%float in *. change (float_ofZ 2 / float_ofZ 4)%float with 0.5%float in *.
  pose proof tiny_small.
  destruct (C86_ramps 0.25%float 0.75%float F1 F3) as (up & down & Eu & Ed & G); [rewrite ?V1, ?V3; lra..|].
  destruct (G 0.5%float F2) as (y & z & Yu & Zd & _ & _ & U & _ & _ & _ & _ & N). exists up, down, y, z. repeat (split; [assumption|]).
  rewrite V1, V2, V3 in N. specialize (N ltac:(lra)). replace ((2 / 4 - 1 / 4) / (3 / 4 - 1 / 4)) with (/ 2) in N by field. exact N.
Qed.
(* correctly rounded sines and cosines stay between -1 and 1 *)
Theorem C86_best_trig_range (x : float) : finite x ->
  (finite (@nsin float BestTrig x) /\ -1 <= val (@nsin float BestTrig x) <= 1) /\ (finite (@ncos float BestTrig x) /\ -1 <= val (@ncos float BestTrig x) <= 1).
Proof.
  intros F. destruct (C79_best_trig_total x F) as [Fs Fc]. split; (split; [assumption|]); cbn [nsin ncos BestTrig] in *; unfold finite in F; rewrite F in *.
  - rewrite (round_to_float_ok _ Fs). pose proof (SIN_bound (val x)). pose proof (rnd_le (- (1)) (sin (val x)) ltac:(lra)) as A. pose proof (rnd_le (sin (val x)) 1 ltac:(lra)) as B. rewrite rnd_opp in A. rewrite rnd_1 in A, B. lra.
  - rewrite (round_to_float_ok _ Fc). pose proof (COS_bound (val x)). pose proof (rnd_le (- (1)) (cos (val x)) ltac:(lra)) as A. pose proof (rnd_le (cos (val x)) 1 ltac:(lra)) as B. rewrite rnd_opp in A. rewrite rnd_1 in A, B. lra.
Qed.
(* three turns per unit of time, twice as high and raised by one, at time 7 *)
Example C86_example_periodic : exists ys yc, @tf_sin float NumFloat BestTrig 3%float 0%float 2%float 1%float (TNum 7%float) = Ok (TNum ys) /\
  @tf_cos float NumFloat BestTrig 3%float 0%float 2%float 1%float (TNum 7%float) = Ok (TNum yc) /\
  -1 <= val ys <= 3 /\ -1 <= val yc <= 3 /\ Rabs (val ys - 1) <= / 2 ^ 40 /\ Rabs (val yc - 3) <= / 2 ^ 40.
Proof.
  assert (V : forall z, (Z.abs z <= 2 ^ 53)%Z -> finite (float_ofZ z) /\ val (float_ofZ z) = IZR z) by (intros z Hz; apply const_ok; exact Hz).
  destruct (V 0%Z ltac:(vm_compute; discriminate)) as [F0 V0]. destruct (V 1%Z ltac:(vm_compute; discriminate)) as [F1 V1]. destruct (V 2%Z ltac:(vm_compute; discriminate)) as [F2 V2].
  destruct (V 3%Z ltac:(vm_compute; discriminate)) as [F3 V3]. destruct (V 7%Z ltac:(vm_compute; discriminate)) as [F7 V7]. destruct (V (-1)%Z ltac:(vm_compute; discriminate)) as [Fm Vm].
  destruct (V 180%Z ltac:(vm_compute; discriminate)) as [F180 V180].
  change (float_ofZ 0) with 0%float in *. change (float_ofZ 1) with 1%float in *. change (float_ofZ 2) with 2%float in *. change (float_ofZ 3) with 3%float in *. change (float_ofZ 7) with 7%float in *.
  assert (P10 : 1000000 <= 2 ^ 100) by (apply Rle_trans with (2 ^ 20); [cbn [pow]; lra|apply Rle_pow; [lra|lia]]).
  pose proof eps_num as En. pose proof eps_pos. pose proof tiny_pos. pose proof tiny_small. pose proof PI_4. pose proof PI_RGT_0.
  assert (Fth : finite (7 * (@tau float NumFloat BestTrig * 3 + @radians float NumFloat BestTrig 0))%float).
  { assert (Br : bd 2 (@radians float NumFloat BestTrig 0%float)).
    { unfold radians. ops. destruct C79_best_trig as [[Fp Ep] _].
      assert (Bp : Rabs (val (@npi float BestTrig) / 180) <= 1).
      { assert (Rabs (val (@npi float BestTrig)) <= 8).
        { replace (val (@npi float BestTrig)) with ((val (@npi float BestTrig) - PI) + PI) by ring. eapply Rle_trans; [apply Rabs_triang|]. rewrite (Rabs_right PI) by lra. assert (eps * PI <= 1 * PI) by (apply Rmult_le_compat_r; [lra|rewrite En; lra]). lra. }
        unfold Rdiv. rewrite Rabs_mult, (Rabs_right (/ 180)) by lra. lra. }
      assert (Nz : val (float_ofZ 180) <> 0) by (rewrite V180; lra).
      assert (Fd : finite (@npi float BestTrig / float_ofZ 180)%float) by (apply div_fin; auto; rewrite V180; apply rnd_unit; lra).
      assert (Fz : finite (0 * (@npi float BestTrig / float_ofZ 180))%float) by (apply mul_fin; auto; rewrite V0, Rmult_0_l; apply rnd_unit; rewrite Rabs_R0; lra).
      split; [exact Fz|]. destruct (mul_ok _ _ Fz) as (_ & _ & ->). rewrite V0, Rmult_0_l, rnd_zero, Rabs_R0. lra. }
    assert (B3 : bd 3 3%float) by (split; [exact F3|rewrite V3, Rabs_right; lra]). assert (B7 : bd 7 7%float) by (split; [exact F7|rewrite V7, Rabs_right; lra]).
    pose proof (bd_mul 32 3 192 _ _ (bd_tau 2 C79_best_trig) B3 ltac:(lra) ltac:(lra) ltac:(lra)) as B4.
    pose proof (bd_add 192 2 388 _ _ B4 Br ltac:(lra) ltac:(lra) ltac:(lra)) as B5. apply (bd_mul 7 388 6000 _ _ B7 B5); lra. }
  destruct (@C86_periodic_range BestTrig 3%float 0%float 2%float 1%float 7%float C86_best_trig_range Fth eq_refl eq_refl ltac:(lra)) as (ys & yc & Es & Ec & _ & Fs & Fc & Rs & Rc).
  destruct (@C86_periodic BestTrig 2 3%float 0%float 2%float 1%float 7%float C79_best_trig ltac:(lia)) as (ys' & yc' & Es' & Ec' & _ & Cs & Cc).
  assert (I : forall p q : float, Ok (TNum p) = Ok (TNum q) -> p = q) by (intros p q X; exact (f_equal (fun v => match v with Ok (TNum p) => p | _ => p end) X)).
  rewrite Es in Es'. rewrite Ec in Ec'. apply I in Es', Ec'. subst ys' yc'. specialize (Cs Fs). specialize (Cc Fc).
  change (1 - 2)%float with (float_ofZ (-1)) in *. change (1 + 2)%float with 3%float in *. rewrite Vm, V3 in *.
  exists ys, yc. repeat (split; [assumption|]).
  rewrite V0, V1, V2, V7 in *. rewrite ?(Rabs_right 2), ?(Rabs_right 1), ?(Rabs_right 7), ?(Rabs_right 3), ?Rabs_R0 in * by lra.
  assert (A : 7 * (2 * PI * 3 + radians 0) = 0 + 2 * INR 21 * PI) by (unfold radians; ops; cbn [INR npi TrigR]; field).
  rewrite A, sin_period, sin_0 in Cs. rewrite A, cos_period, cos_0 in Cc.
  assert (Bd : eps * ((INR 2 + 3) * (2 + 1 + tiny) + 6 * 2 * (7 * (9 * 3 + 0 + 2 * tiny) + tiny)) <= / 2 ^ 40).
  { cbn [INR]. apply Rle_trans with (eps * 4000); [apply Rmult_le_compat_l; lra|]. rewrite En. cbn [pow]. lra. }
  split.
  - replace (val ys - 1) with (val ys - (0 * 2 + 1)) by ring. eapply Rle_trans; [exact Cs|exact Bd].
  - replace (val yc - 3) with (val yc - (1 * 2 + 1)) by ring. eapply Rle_trans; [exact Cc|exact Bd].
Qed.
