(* Property theorems C79, continued: unit vectors and closest points on doubles. *)
From Coq Require Import Reals Floats ZArith List Lra Lia String.
From Flocq Require Import Core BinarySingleNaN PrimFloat.
Require Import Verif.Base Verif.NumFloat Verif.NumR Verif.L_real Verif.M_vector Verif.M_bbox Verif.M_transform Verif.M_bezier Verif.M_line.
Require Import Verif.M_points Verif.L_vector Verif.S_float Verif.L_float Verif.L_float2 Verif.P_float Verif.P_float2 Verif.P_float3 Verif.P_vector Verif.P_line Verif.P_float6.
Import ListNotations.
Set Warnings "-inexact-float".
Local Open Scope R_scope.

(* the exact length of a vector of doubles *)
Definition exact_length (v : vec float) : R := R_sqrt.sqrt (val (vx v) * val (vx v) + val (vy v) * val (vy v)).
(* math.hypot is off by at most k units for lengths in the normal range *)
Definition accurate_hypot (k : nat) (RF : NumRoot float) : Prop := forall v : vec float,
  finite (vx v) -> finite (vy v) -> finite (nhypot (vx v) (vy v)) -> tiny <= exact_length v ->
  Rabs (val (nhypot (vx v) (vy v)) - exact_length v) <= INR k * eps * exact_length v.

Lemma exact_length_R (v : vec float) : exact_length v = v_length (valv v).
Proof. reflexivity. Qed.
Lemma pow_bernoulli n : 1 + INR n * eps <= (1 + eps) ^ n.
Proof.
  pose proof eps_pos. induction n as [|n IH]; [cbn; lra|]. rewrite S_INR. cbn [pow]. pose proof (pos_INR n). 
  assert ((1 + eps) * (1 + INR n * eps) <= (1 + eps) * (1 + eps) ^ n) by (apply Rmult_le_compat_l; lra).
  assert (0 <= INR n * eps * eps) by (apply Rmult_le_pos; [apply Rmult_le_pos|]; lra). lra.
Qed.

Section Unit.
  Context {RF : NumRoot float}.
  Variable k : nat.
  Hypothesis Hk : (k <= 400)%nat.
  Hypothesis Acc : accurate_hypot k RF.
  Variable v : vec float.
  Hypothesis Fx : finite (vx v).
  Hypothesis Fy : finite (vy v).
  Hypothesis Fl : finite (v_length v).
  Hypothesis Big : tiny <= exact_length v.

  Lemma len_close : Rabs (val (v_length v) - exact_length v) <= INR k * eps * exact_length v /\ 0 < val (v_length v).
  Proof.
    pose proof (Acc v Fx Fy Fl Big) as A. split; [exact A|]. change (nhypot (vx v) (vy v)) with (v_length v) in A.
    pose proof tiny_pos. apply Rabs_le_inv in A.
    assert (INR k <= 400) by (apply (le_INR k 400) in Hk; cbn in Hk; lra). rewrite eps_num in A. pose proof (pos_INR k).
    assert (INR k * / 9007199254740992 <= / 100) by lra.
    assert (INR k * / 9007199254740992 * exact_length v <= / 100 * exact_length v) by (apply Rmult_le_compat_r; lra). lra.
  Qed.

  Lemma near_quot (x : float) : Rabs (val x) <= exact_length v ->
    near (k + 2) 1 (x / v_length v)%float (val x / exact_length v).
  Proof.
    intros Bx. destruct len_close as [A P]. pose proof tiny_pos as Tp. set (L := exact_length v) in *. set (l := val (v_length v)) in *.
    assert (Lp : 0 < L) by lra.
    assert (Q : Rabs (val x / L) <= 1).
    { unfold Rdiv. rewrite Rabs_mult, (Rabs_right (/ L)) by (apply Rle_ge, Rlt_le, Rinv_0_lt_compat; exact Lp).
      apply (Rmult_le_reg_r L); [exact Lp|]. rewrite Rmult_assoc, Rinv_l by lra. lra. }
    split; [exact Q|]. intros F. destruct (div_ok x (v_length v) Fl) as [_ V]; [fold l; lra|exact F|]. fold l in V.
    assert (K : INR k <= 400) by (pose proof (le_INR k 400 Hk) as X; cbn in X; lra). pose proof (pos_INR k) as K0.
    pose proof eps_num as N.
    (* the quotient by the computed length *)
    assert (D : Rabs (val x / l - val x / L) <= INR k * eps + / 4 * eps).
    { replace (val x / l - val x / L) with (- (val x / L) * ((l - L) / l)) by (field; lra).
      rewrite Rabs_mult, Rabs_Ropp. 
      assert (Rabs ((l - L) / l) <= INR k * eps + / 4 * eps).
      { unfold Rdiv. rewrite Rabs_mult, (Rabs_right (/ l)) by (apply Rle_ge, Rlt_le, Rinv_0_lt_compat; exact P).
        apply (Rmult_le_reg_r l); [exact P|]. rewrite Rmult_assoc, Rinv_l by lra. rewrite Rmult_1_r.
        eapply Rle_trans; [exact A|].
        assert (B : L * (1 - INR k * eps) <= l) by (apply Rabs_le_inv in A; lra).
        apply Rle_trans with ((INR k * eps + / 4 * eps) * (L * (1 - INR k * eps))).
        - replace ((INR k * eps + / 4 * eps) * (L * (1 - INR k * eps))) with (((INR k * eps + / 4 * eps) * (1 - INR k * eps)) * L) by ring.
          apply Rmult_le_compat_r; [lra|]. rewrite N.
          assert (INR k * INR k <= 160000) by nra. nra.
        - apply Rmult_le_compat_l; [|exact B]. rewrite N. nra. }
      rewrite <- (Rmult_1_l (INR k * eps + / 4 * eps)). apply Rmult_le_compat; auto using Rabs_pos. }
    pose proof (err_any (val x / l)) as E. rewrite <- V in E.
    assert (B : Rabs (val x / l) <= 1 + / 100).
    { replace (val x / l) with (val x / L + (val x / l - val x / L)) by ring. eapply Rle_trans; [apply Rabs_triang|]. rewrite N in D. lra. }
    pose proof tiny_le as Tl. assert (/ 2 ^ 60 <= / 100) by (apply Rinv_le_contravar; [lra|cbv [pow]; lra]).
    replace (val (x / v_length v)%float - val x / L) with ((val (x / v_length v)%float - val x / l) + (val x / l - val x / L)) by ring.
    eapply Rle_trans; [apply Rabs_triang|]. pose proof (pow_bernoulli (k + 2)) as Be. rewrite plus_INR in Be. cbn [INR] in Be.
    rewrite Rmult_1_r. pose proof eps_pos. nra.
  Qed.

  Lemma abs_x : Rabs (val (vx v)) <= exact_length v.
  Proof. unfold exact_length. rewrite <- sqrt_Rsqr_abs. apply sqrt_le_1_alt. unfold Rsqr. nra. Qed.
  Lemma abs_y : Rabs (val (vy v)) <= exact_length v.
  Proof. unfold exact_length. rewrite <- sqrt_Rsqr_abs. apply sqrt_le_1_alt. unfold Rsqr. nra. Qed.

  Lemma unit_float : v_unit v = Ok (V (vx v / v_length v)%float (vy v / v_length v)%float).
  Proof.
    unfold v_unit. destruct len_close as [_ P]. destruct (const_ok 0) as [F0 V0]; [unfold max_whole; lia|].
    cbn [neqb nofZ NumFloat]. rewrite eqb_ok by assumption. rewrite V0.
    destruct (Reqb (val (v_length v)) 0) eqn:E; [apply Reqb_eq in E; lra|]. reflexivity.
  Qed.
  Lemma unit_real : v_unit (valv v) = Ok (V (val (vx v) / exact_length v) (val (vy v) / exact_length v)).
  Proof. rewrite unit_R. rewrite <- exact_length_R. pose proof tiny_pos. destruct (Req_EM_T (exact_length v) 0); [lra|]. reflexivity. Qed.
End Unit.

(* unit() does not fail, each coordinate is within k + 3 units of that of the exact unit vector, and
   so is the length within twice that of 1 *)
Theorem C79_unit {RF : NumRoot float} (k : nat) (v : vec float) : (k <= 400)%nat -> accurate_hypot k RF ->
  finite (vx v) -> finite (vy v) -> finite (v_length v) -> tiny <= exact_length v ->
  exists u u', v_unit v = Ok u /\ v_unit (valv v) = Ok u' /\
    (finite (vx u) -> finite (vy u) ->
     Rabs (val (vx u) - vx u') <= INR (k + 3) * eps /\ Rabs (val (vy u) - vy u') <= INR (k + 3) * eps /\
     Rabs (v_length (valv u) - 1) <= 2 * INR (k + 3) * eps).
Proof.
  intros Hk Acc Fx Fy Fl Big. eexists _, _. split; [now apply (unit_float k)|]. split; [now apply unit_real|]. cbn [vx vy].
  intros Fu Fw.
  pose proof (near_quot k Hk Acc v Fx Fy Fl Big (vx v) (abs_x v)) as Nx.
  pose proof (near_quot k Hk Acc v Fx Fy Fl Big (vy v) (abs_y v)) as Ny.
  assert (Ex : Rabs (val (vx v / v_length v)%float - val (vx v) / exact_length v) <= INR (k + 3) * eps).
  { pose proof (near_use _ _ _ _ (INR (k + 3)) 1 Nx) as U. rewrite Rmult_1_r in U. apply U; [lia| |lra|exact Fu].
    apply Req_le. f_equal. lia. }
  assert (Ey : Rabs (val (vy v / v_length v)%float - val (vy v) / exact_length v) <= INR (k + 3) * eps).
  { pose proof (near_use _ _ _ _ (INR (k + 3)) 1 Ny) as U. rewrite Rmult_1_r in U. apply U; [lia| |lra|exact Fw].
    apply Req_le. f_equal. lia. }
  split; [exact Ex|]. split; [exact Ey|].
  set (u := V (vx v / v_length v)%float (vy v / v_length v)%float) in *.
  assert (NV : valv v <> V 0 0).
  { intros E. pose proof tiny_pos. assert (Z0 : exact_length v = 0) by (rewrite exact_length_R; now apply length_0). lra. }
  destruct (unit_ok (valv v) NV) as (u' & E' & L' & _). rewrite (unit_real v Big) in E'. apply ok_inj in E'.
  assert (Tri : forall a b : vec R, Rabs (v_length a - v_length b) <= Rabs (vx a - vx b) + Rabs (vy a - vy b)).
  { assert (Le : forall d : vec R, v_length d <= Rabs (vx d) + Rabs (vy d)).
    { intros [x y]. change (R_sqrt.sqrt (x * x + y * y) <= Rabs x + Rabs y). pose proof (Rabs_pos x). pose proof (Rabs_pos y).
      assert (S0 : forall z, z * z = Rabs z * Rabs z) by (intros z; rewrite <- Rabs_mult; symmetry; apply Rabs_right; nra).
      rewrite (S0 x), (S0 y), <- (sqrt_Rsqr (Rabs x + Rabs y)) by lra. apply sqrt_le_1_alt. unfold Rsqr. nra. }
    assert (Half : forall a b : vec R, v_length a - v_length b <= Rabs (vx a - vx b) + Rabs (vy a - vy b)).
    { intros [ax ay] [bx by0]. pose proof (C18_triangle_inequality (V bx by0) (V (ax - bx) (ay - by0))) as Q.
      replace (v_add (V bx by0) (V (ax - bx) (ay - by0))) with (V ax ay) in Q
        by (unfold v_add; cbn [vx vy nadd NumR]; f_equal; ring).
      pose proof (Le (V (ax - bx) (ay - by0))) as Q2. cbn [vx vy] in *. lra. }
    intros a b. pose proof (Half a b) as H1. pose proof (Half b a) as H2.
    rewrite (Rabs_minus_sym (vx b)), (Rabs_minus_sym (vy b)) in H2. apply Rabs_le. lra. }
  pose proof (Tri (valv u) u') as Q. rewrite L' in Q. rewrite <- E' in Q. cbn [valv vx vy u] in Q. lra.
Qed.

(* closest() on doubles: the exact nearest point, up to 2 k + 10 units relative to the coordinates *)
Theorem C79_closest {RF : NumRoot float} (k : nat) (l : line float) (p c : pt float) : (k <= 400)%nat -> accurate_hypot k RF ->
  finite (vx (ld l)) -> finite (vy (ld l)) -> finite (v_length (ld l)) -> tiny <= exact_length (ld l) ->
  closest l p = Ok c -> finitep c ->
  exists c', closest (vall l) (valp p) = Ok c' /\
    let way := Rabs (val (px p) - val (px (lo l))) + Rabs (val (py p) - val (py (lo l))) + 3 * tiny in
    Rabs (val (px c) - px c') <= INR (2 * k + 10) * eps * (Rabs (val (px (lo l))) + way) /\
    Rabs (val (py c) - py c') <= INR (2 * k + 10) * eps * (Rabs (val (py (lo l))) + way).
Proof.
  intros Hk Acc Fx Fy Fl Big Ec [Fcx Fcy]. unfold closest in *. rewrite (unit_float k Hk Acc _ Fx Fy Fl Big) in Ec. cbn [bind] in Ec.
  apply ok_inj in Ec. change (ld (vall l)) with (valv (ld l)). rewrite (unit_real _ Big). cbn [bind]. eexists. split; [reflexivity|]. cbv zeta.
  pose proof (near_quot k Hk Acc _ Fx Fy Fl Big (vx (ld l)) (abs_x _)) as Nx.
  pose proof (near_quot k Hk Acc _ Fx Fy Fl Big (vy (ld l)) (abs_y _)) as Ny.
  set (ux := (vx (ld l) / v_length (ld l))%float) in *. set (uy := (vy (ld l) / v_length (ld l))%float) in *.
  set (rx := val (vx (ld l)) / exact_length (ld l)) in *. set (ry := val (vy (ld l)) / exact_length (ld l)) in *.
  pose proof (near_diff (px p) (px (lo l))) as Dx. pose proof (near_diff (py p) (py (lo l))) as Dy.
  pose proof (near_add _ _ _ _ _ _ _ _ (near_mul _ _ _ _ _ _ _ _ Dx Nx) (near_mul _ _ _ _ _ _ _ _ Dy Ny)) as Dot.
  pose proof (near_add _ _ _ _ _ _ _ _ (near_leaf (px (lo l))) (near_mul _ _ _ _ _ _ _ _ Nx Dot)) as Cx.
  pose proof (near_add _ _ _ _ _ _ _ _ (near_leaf (py (lo l))) (near_mul _ _ _ _ _ _ _ _ Ny Dot)) as Cy.
  subst c. cbn [p_add v_mul v_dot p_sub px py vx vy] in *.
  set (way := Rabs (val (px p) - val (px (lo l))) + Rabs (val (py p) - val (py (lo l))) + 3 * tiny).
  split.
  - eapply (near_use _ _ _ _ (INR (2 * k + 10)) _ Cx); [lia|apply le_INR; lia|unfold way; lra|exact Fcx].
  - eapply (near_use _ _ _ _ (INR (2 * k + 10)) _ Cy); [lia|apply le_INR; lia|unfold way; lra|exact Fcy].
Qed.

(* ------------------------------------------------------------------ *)
(** ** the correctly rounded hypot meets the requirement *)

Definition round_to_float (r : R) : float :=
  B2Prim (BinarySingleNaN.binary_normalize prec emax Hprec Hmax mode_NE
    (ZnearestE (scaled_mantissa radix2 fexp64 r)) (cexp radix2 fexp64 r) false).
Definition BestRoot : NumRoot float := {|
  nsqrt := PrimFloat.sqrt; nhypot := fun x y => round_to_float (exact_length (V x y)) |}.

Lemma round_to_float_ok r : finite (round_to_float r) -> val (round_to_float r) = rnd r.
Proof.
  intros F. apply finite_B in F. unfold val, round_to_float in *. rewrite Prim2B_B2Prim in *.
  pose proof (binary_normalize_correct prec emax Hprec Hmax mode_NE (ZnearestE (scaled_mantissa radix2 fexp64 r)) (cexp radix2 fexp64 r) false) as C.
  change (F2R _) with (rnd r) in C. cbv zeta in C.
  assert (G : round radix2 (SpecFloat.fexp prec emax) (round_mode mode_NE) (rnd r) = rnd r).
  { apply round_generic; [apply valid_rnd_N|].
    apply (@generic_format_round radix2 fexp64 (@FLT_exp_valid (-1074) 53 prec_pos) ZnearestE). apply valid_rnd_N. }
  rewrite G in C. destruct (Rlt_bool _ _); [apply C|]. rewrite (overflow_not_finite _ _ C) in F. discriminate.
Qed.
Theorem C79_best_hypot : accurate_hypot 2 BestRoot.
Proof.
  intros [x y] Fx Fy F B. cbn [nhypot BestRoot vx vy] in *. rewrite (round_to_float_ok _ F).
  eapply Rle_trans; [apply err_any|]. pose proof eps_pos. pose proof tiny_pos.
  rewrite (Rabs_right (exact_length _)) by (apply Rle_ge, sqrt_pos). cbn [INR].
  replace ((1 + 1) * eps * exact_length (V x y)) with (eps * (exact_length (V x y) + exact_length (V x y))) by ring.
  apply Rmult_le_compat_l; lra.
Qed.
(* it is finite wherever the rounded length is in range, so the theorems above speak of it *)
Theorem C79_best_hypot_finite (v : vec float) : exact_length v <= 2 ^ 100 -> finite (@v_length float BestRoot v).
Proof.
  intros H. destruct v as [x y]. unfold v_length. cbn [nhypot BestRoot vx vy]. set (r := exact_length (V x y)) in *.
  apply finite_B. unfold round_to_float. rewrite Prim2B_B2Prim.
  pose proof (binary_normalize_correct prec emax Hprec Hmax mode_NE (ZnearestE (scaled_mantissa radix2 fexp64 r)) (cexp radix2 fexp64 r) false) as C.
  change (F2R _) with (rnd r) in C. cbv zeta in C.
  assert (G : round radix2 (SpecFloat.fexp prec emax) (round_mode mode_NE) (rnd r) = rnd r).
  { apply round_generic; [apply valid_rnd_N|].
    apply (@generic_format_round radix2 fexp64 (@FLT_exp_valid (-1074) 53 prec_pos) ZnearestE). apply valid_rnd_N. }
  rewrite G in C. rewrite Rlt_bool_true in C; [apply C|]. apply rnd_small.
  rewrite Rabs_right by (apply Rle_ge, sqrt_pos). exact H.
Qed.

Example C79_unit_example : let v := V (float_ofZ 3) (float_ofZ 4) in
  accurate_hypot 2 BestRoot /\ finite (vx v) /\ finite (vy v) /\ finite (@v_length float BestRoot v) /\ tiny <= exact_length v.
Proof.
  cbv zeta. split; [exact C79_best_hypot|]. cbn [vx vy]. split; [reflexivity|]. split; [reflexivity|].
  destruct (const_ok 3) as [_ E3]; [unfold max_whole; lia|]. destruct (const_ok 4) as [_ E4]; [unfold max_whole; lia|].
  assert (L : exact_length (V (float_ofZ 3) (float_ofZ 4)) = 5).
  { unfold exact_length. cbn [vx vy]. rewrite E3, E4. replace (3 * 3 + 4 * 4) with (5 * 5) by ring. apply sqrt_square. lra. }
  split; [apply C79_best_hypot_finite|]; rewrite L.
  - assert ((2 : R) ^ 3 <= 2 ^ 100) by (apply Rle_pow; [lra|lia]). replace ((2 : R) ^ 3) with 8 in H by (cbv [pow]; lra). lra.
  - pose proof tiny_le. assert (/ 2 ^ 60 <= 1) by (rewrite <- Rinv_1; apply Rinv_le_contravar; [lra|apply pow_R1_Rle; lra]). lra.
Qed.

Example C79_closest_example : let l := Ln (P (float_ofZ 1) (float_ofZ 2)) (V (float_ofZ 3) (float_ofZ 4)) in
  let p := P (float_ofZ 7) (float_ofZ (-5)) in
  accurate_hypot 2 BestRoot /\ finite (vx (ld l)) /\ finite (vy (ld l)) /\ finite (@v_length float BestRoot (ld l)) /\
  tiny <= exact_length (ld l) /\ exists c, @closest float NumFloat BestRoot l p = Ok c /\ finitep c.
Proof.
  cbv zeta. cbn [ld]. destruct C79_unit_example as (A & B & C & D & E). repeat (split; [assumption|]).
  assert (L : @v_length float BestRoot (V (float_ofZ 3) (float_ofZ 4)) = float_ofZ 5).
  { destruct (const_ok 3) as [_ E3]; [unfold max_whole; lia|]. destruct (const_ok 4) as [_ E4]; [unfold max_whole; lia|].
    destruct (const_ok 5) as [F5 E5]; [unfold max_whole; lia|].
    assert (X : exact_length (V (float_ofZ 3) (float_ofZ 4)) = 5).
    { unfold exact_length. cbn [vx vy]. rewrite E3, E4. replace (3 * 3 + 4 * 4) with (5 * 5) by ring. apply sqrt_square. lra. }
    assert (V5 : val (@v_length float BestRoot (V (float_ofZ 3) (float_ofZ 4))) = 5).
    { unfold v_length in *. cbn [nhypot BestRoot vx vy] in *. rewrite (round_to_float_ok _ D), X.
      apply (rnd_int 5). unfold max_whole. lia. }
    rewrite <- (B2Prim_Prim2B (v_length _)), <- (B2Prim_Prim2B (float_ofZ 5)). f_equal.
    apply finite_B in D, F5. unfold val in V5, E5.
    apply B2R_inj; [| |rewrite V5, E5; reflexivity].
    - destruct (Prim2B (v_length _)); try discriminate; [cbn in V5; lra|reflexivity].
    - destruct (Prim2B (float_ofZ 5)); try discriminate; [cbn in E5; lra|reflexivity]. }
  eexists. split.
  - unfold closest, v_unit. cbn [ld lo]. rewrite L. vm_compute. reflexivity.
  - split; vm_compute; reflexivity.
Qed.
