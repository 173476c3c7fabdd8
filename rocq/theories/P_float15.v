(* Property theorems C88: min_rotation on doubles. *)
From Coq Require Import Reals Floats ZArith List Lra Lia Psatz Bool.
From Flocq Require Import Core BinarySingleNaN PrimFloat Relative Plus_error Div_sqrt_error.
Require Import Verif.Base Verif.NumFloat Verif.NumR Verif.L_ord Verif.M_vector Verif.M_utils Verif.M_fmod.
Require Import Verif.S_float Verif.L_float Verif.L_float2 Verif.P_float Verif.P_float3 Verif.P_float4 Verif.P_float7 Verif.P_utils.
Import ListNotations.
Set Warnings "-inexact-float".
Local Open Scope R_scope.

(* what C promises of fmod: x - n*y without rounding, n the quotient cut to a whole number *)
Definition cut_remainder (x y : R) : R := x - IZR (Ztrunc (x / y)) * y.
Definition is_fmod (fmod : float -> float -> float) : Prop :=
  forall x y, finite x -> finite y -> val y <> 0 ->
  finite (fmod x y) /\ val (fmod x y) = cut_remainder (val x) (val y).

Lemma trunc_360 x : let m := cut_remainder x 360 in
  (0 <= x -> 0 <= m < 360) /\ (x <= 0 -> -360 < m <= 0).
Proof.
  cbv zeta. unfold cut_remainder. split; intros H.
  - rewrite Ztrunc_floor by lra. pose proof (Zfloor_lb (x / 360)). pose proof (Zfloor_ub (x / 360)). lra.
  - rewrite Ztrunc_ceil by lra. pose proof (Zceil_lb (x / 360)). pose proof (Zceil_ub (x / 360)). lra.
Qed.
Lemma trunc_small x : -360 < cut_remainder x 360 < 360.
Proof. destruct (trunc_360 x). destruct (Rle_dec 0 x); [|assert (x <= 0) by lra]; intuition lra. Qed.

(* ---------------- the same function ---------------- *)

(* Without rounding this is the function of C26. *)
Theorem C88_same_function : forall target source : R,
  min_rotation_float cut_remainder target source = min_rotation target source.
Proof.
  intros t s. destruct (C26_min_rotation t s) as (_ & _ & _ & U). apply U; unfold min_rotation_float, float_mod; cbn -[IZR].
  all: set (x := t - s + 180); pose proof (trunc_small x) as Sm;
    assert (C : exists k, cut_remainder x 360 = x + 360 * IZR k) by (exists (- Ztrunc (x / 360))%Z; unfold cut_remainder; rewrite opp_IZR; lra).
  all: set (m := cut_remainder x 360) in *; unfold Reqb, Rltb; destruct (Req_EM_T m 0), (Rlt_dec 360 0), (Rlt_dec m 0); try lra; cbn [Bool.eqb].
  all: try lra.
  all: destruct C as [k E]; subst x.
  - exists k. lra.
  - exists (k + 1)%Z. rewrite plus_IZR. lra.
  - exists k. lra.
Qed.

(* ---------------- on doubles ---------------- *)

Lemma c180 : finite (float_ofZ 180) /\ val (float_ofZ 180) = 180.
Proof. apply const_ok. unfold max_whole; lia. Qed.
Lemma c360 : finite (float_ofZ 360) /\ val (float_ofZ 360) = 360.
Proof. apply const_ok. unfold max_whole; lia. Qed.
Lemma c0 : finite (float_ofZ 0) /\ val (float_ofZ 0) = 0.
Proof. apply const_ok. unfold max_whole; lia. Qed.
Lemma rnd_z z : (Z.abs z <= 1000)%Z -> rnd (IZR z) = IZR z.
Proof. intros H. apply rnd_int. unfold max_whole. lia. Qed.
Lemma small_bound r : Rabs r <= 1000 -> Rabs r < bpow radix2 1024.
Proof. intros H. eapply Rle_lt_trans; [exact H|]. rewrite <- (Rabs_right 1000) by lra. apply int_small. unfold max_whole. lia. Qed.

(* the steps of the computation, for a difference [x] that is finite *)
Lemma steps fm (x : float) : is_fmod fm -> finite x ->
  let m := cut_remainder (val x) 360 in
  let n := if Rlt_dec m 0 then rnd (m + 360) else m in
  let r := (float_mod fm x (float_ofZ 360) - float_ofZ 180)%float in
  0 <= n <= 360 /\ finite r /\ val r = rnd (n - 180) /\ -180 <= val r <= 180.
Proof.
  intros H Fx. destruct c180 as [F180 V180], c360 as [F360 V360], c0 as [F0 V0].
  destruct (H x (float_ofZ 360) Fx F360) as [Fm Vm]; [rewrite V360; lra|]. rewrite V360 in Vm.
  cbv zeta. set (m := cut_remainder (val x) 360) in *. pose proof (trunc_small (val x)) as Sm. fold m in Sm.
  set (n := if Rlt_dec m 0 then rnd (m + 360) else m).
  assert (N : 0 <= n <= 360).
  { unfold n. destruct (Rlt_dec m 0); [|lra]. split.
    - rewrite <- rnd_zero. apply rnd_le. lra.
    - rewrite <- (rnd_z 360) at 2 by lia. apply rnd_le. lra. }
  assert (G : finite (float_mod fm x (float_ofZ 360)) /\ val (float_mod fm x (float_ofZ 360)) = n).
  { unfold float_mod. cbn [neqb nltb nadd nneg nofZ NumFloat]. rewrite eqb_ok, !ltb_ok by auto. rewrite V0, V360, Vm.
    unfold Reqb, Rltb, n. destruct (Req_EM_T m 0), (Rlt_dec 360 0), (Rlt_dec m 0); try lra; cbn [Bool.eqb].
    - split; [exact F0|lra].
    - assert (F : finite (fm x (float_ofZ 360) + float_ofZ 360)%float).
      { apply add_fin; auto. rewrite Vm, V360. unfold n in N. destruct (Rlt_dec m 0); [|lra]. apply small_bound. rewrite Rabs_right; lra. }
      destruct (add_ok _ _ F) as (_ & _ & E). rewrite Vm, V360 in E. now split.
    - now split. }
  destruct G as [Fn Vn].
  assert (B : -180 <= rnd (n - 180) <= 180).
  { split; [rewrite <- (rnd_z (-180)) by lia|rewrite <- (rnd_z 180) at 2 by lia]; apply rnd_le; lra. }
  assert (Fr : finite (float_mod fm x (float_ofZ 360) - float_ofZ 180)%float).
  { apply sub_fin; auto. rewrite Vn, V180. apply small_bound. apply Rabs_le. lra. }
  destruct (sub_ok _ _ Fr) as (_ & _ & E). rewrite Vn, V180 in E. rewrite E. auto.
Qed.

(* Every result is a finite number from -180 to 180. *)
Theorem C88_range : forall fmod, is_fmod fmod -> forall target source : float,
  finite (target - source + float_ofZ 180)%float ->
  let r := min_rotation_float fmod target source in finite r /\ -180 <= val r <= 180.
Proof. intros fm H t s F. destruct (steps fm _ H F) as (_ & Fr & _ & B). now split. Qed.

(* Adding the result to the source angle reaches the target angle, but for whole turns and an error
   of a few units in the last place of the difference of the angles. *)
Theorem C88_reaches : forall fmod, is_fmod fmod -> forall target source : float,
  finite (target - source + float_ofZ 180)%float ->
  exists k : Z, Rabs (val source + val (min_rotation_float fmod target source) - (val target + 360 * IZR k))
                <= eps * (3 * Rabs (val target - val source) + 720).
Proof.
  intros fm H t s F. destruct c180 as [F180 V180].
  destruct (add_ok _ _ F) as (Fd & _ & Ex). destruct (sub_ok _ _ Fd) as (Ft & Fs & Ed). rewrite V180 in Ex.
  destruct (steps fm _ H F) as (N & Fr & Er & _).
  unfold min_rotation_float. cbn [nsub nadd nofZ NumFloat].
  set (r := val (float_mod fm _ _ - _)%float) in *. set (x := val (t - s + float_ofZ 180)%float) in *.
  set (d := val (t - s)%float) in *. set (m := cut_remainder x 360) in *.
  set (n := if Rlt_dec m 0 then rnd (m + 360) else m) in *.
  set (e := val t - val s) in *.
  pose proof eps_pos as Ep. pose proof eps_lt as El. assert (Es : eps < 1) by (eapply Rlt_trans; [exact El|]; rewrite <- Rinv_1; apply Rinv_lt_contravar; [|apply Rlt_pow_R1; [lra|lia]]; rewrite Rmult_1_l; apply pow_lt; lra).
  assert (D1 : Rabs (d - e) <= eps * Rabs e).
  { rewrite Ed. unfold e. apply (err_sum (val t) (- val s)); [apply val_format|apply generic_format_opp, val_format]. }
  assert (D2 : Rabs (x - (d + 180)) <= eps * Rabs (d + 180)).
  { rewrite Ex. apply err_sum; [apply val_format|]. rewrite <- V180. apply val_format. }
  assert (Fm360 : generic_format radix2 fexp64 360) by (destruct c360 as [_ V]; rewrite <- V; apply val_format).
  assert (Fm180 : generic_format radix2 fexp64 180) by (rewrite <- V180; apply val_format).
  assert (Fmm : generic_format radix2 fexp64 m).
  { unfold m, cut_remainder. apply (@format_REM_ZR radix2 fexp64); [apply FLT_exp_valid; reflexivity|apply FLT_exp_monotone|apply val_format|exact Fm360]. }
  assert (Fn : generic_format radix2 fexp64 n).
  { unfold n. destruct (Rlt_dec m 0); [|exact Fmm]. apply generic_format_round; [apply FLT_exp_valid; reflexivity|apply valid_rnd_N]. }
  assert (D4 : Rabs (r - (n - 180)) <= eps * 180).
  { rewrite Er. eapply Rle_trans; [apply (err_sum n (-180)); [exact Fn|apply generic_format_opp; exact Fm180]|].
    apply Rmult_le_compat_l; [lra|]. apply Rabs_le. lra. }
  assert (D3 : exists k, Rabs (n - (m + 360 * IZR k)) <= eps * 360).
  { unfold n. pose proof (trunc_small x) as Sm. fold m in Sm. destruct (Rlt_dec m 0).
    - exists 1%Z. replace (m + 360 * 1) with (m + 360) by ring. eapply Rle_trans; [apply err_sum; [exact Fmm|exact Fm360]|].
      apply Rmult_le_compat_l; [lra|]. rewrite Rabs_right; lra.
    - exists 0%Z. replace (m - (m + 360 * 0)) with 0 by ring. rewrite Rabs_R0. lra. }
  destruct D3 as [k D3]. exists (k - Ztrunc (x / 360))%Z.
  assert (M' : m = x - 360 * IZR (Ztrunc (x / 360))) by (unfold m, cut_remainder; ring).
  rewrite minus_IZR. set (q := IZR (Ztrunc (x / 360))) in *.
  replace (val s + r - (val t + 360 * (IZR k - q))) with ((r - (n - 180)) + (n - (m + 360 * IZR k)) + (x - (d + 180)) + (d - e)) by (rewrite M'; unfold e; ring).
  assert (S1 : Rabs (d + 180) <= 2 * Rabs e + 180).
  { replace (d + 180) with ((d - e) + e + 180) by ring. pose proof (Rabs_pos e).
    eapply Rle_trans; [apply Rabs_triang|]. rewrite (Rabs_right 180) by lra.
    pose proof (Rabs_triang (d - e) e). nra. }
  assert (eps * Rabs (d + 180) <= eps * (2 * Rabs e + 180)) by (apply Rmult_le_compat_l; lra).
  eapply Rle_trans; [apply Rabs_triang|]. pose proof (Rabs_triang (r - (n - 180) + (n - (m + 360 * IZR k))) (x - (d + 180))).
  pose proof (Rabs_triang (r - (n - 180)) (n - (m + 360 * IZR k))). lra.
Qed.

(* On whole numbers of degrees nothing is rounded: the result is the one of C26. *)
Theorem C88_whole : forall fmod, is_fmod fmod -> forall target source : float,
  whole (2 ^ 51) target -> whole (2 ^ 51) source ->
  finite (min_rotation_float fmod target source) /\
  val (min_rotation_float fmod target source) = min_rotation (val target) (val source).
Proof.
  intros fm H t s Ht Hs.
  assert (X : exactly (2 ^ 51 + 2 ^ 51 + 180) (t - s + float_ofZ 180)%float (val t - val s + 180)).
  { apply exactly_add; [apply exactly_sub; [now apply exactly_leaf|now apply exactly_leaf|unfold max_whole; lia]|
      apply exactly_const; unfold max_whole; lia|unfold max_whole; lia]. }
  destruct X as (Fx & Vx & z & Ez & Bz). destruct (steps fm _ H Fx) as (N & Fr & Er & _).
  rewrite Vx in Er. split; [exact Fr|]. etransitivity; [exact Er|].
  rewrite <- C88_same_function. unfold min_rotation_float, float_mod. cbn -[IZR Ztrunc Rdiv val].
  set (x := val t - val s + 180) in *. pose proof (trunc_small x) as Sm.
  assert (Mz : exists w, cut_remainder x 360 = IZR w).
  { exists (z - Ztrunc (x / 360) * 360)%Z. rewrite minus_IZR, mult_IZR. unfold cut_remainder. rewrite Ez at 1. reflexivity. }
  destruct Mz as [w W]. rewrite W in *.
  assert (Bw : (Z.abs w <= 360)%Z). { destruct Sm as [A B]. apply lt_IZR in A. apply lt_IZR in B. lia. }
  assert (E1 : rnd (IZR w + 360) = IZR w + 360) by (rewrite <- plus_IZR; apply rnd_z; lia).
  assert (E2 : rnd (IZR w + 360 - 180) = IZR w + 360 - 180) by (rewrite <- plus_IZR, <- minus_IZR; apply rnd_z; lia).
  assert (E3 : rnd (IZR w - 180) = IZR w - 180) by (rewrite <- minus_IZR; apply rnd_z; lia).
  unfold Reqb, Rltb. destruct (Req_EM_T (IZR w) 0), (Rlt_dec 360 0), (Rlt_dec (IZR w) 0); try lra; cbn [Bool.eqb].
  all: rewrite ?E1, ?E2, ?E3; lra.
Qed.

(* ---------------- what fails ---------------- *)

(* Angles less than 2^-46 degrees apart count as the same. *)
Theorem C88_tiny_refuted : forall fmod, is_fmod fmod -> forall target source : float,
  finite target -> finite source -> Rabs (val target - val source) <= / 2 ^ 46 ->
  finite (min_rotation_float fmod target source) /\ val (min_rotation_float fmod target source) = 0.
Proof.
  intros fm H t s Ft Fs B. destruct c180 as [F180 V180].
  assert (Vu : val (0x1p-46)%float = / 2 ^ 46) by (unfold val; cbn; unfold F2R; cbn; lra).
  assert (Fu : finite (0x1p-46)%float) by reflexivity. set (u := (0x1p-46)%float) in *.
  assert (Up : rnd (180 + / 2 ^ 46) = 180).
  { rewrite <- V180 at 1. rewrite <- Vu. assert (E : (float_ofZ 180 + u)%float = float_ofZ 180) by reflexivity.
    destruct (add_ok (float_ofZ 180) u) as (_ & _ & A); [rewrite E; exact F180|]. rewrite <- A, E. exact V180. }
  assert (Dn : rnd (180 - / 2 ^ 46) = 180).
  { rewrite <- V180 at 1. rewrite <- Vu. assert (E : (float_ofZ 180 - u)%float = float_ofZ 180) by reflexivity.
    destruct (sub_ok (float_ofZ 180) u) as (_ & _ & A); [rewrite E; exact F180|]. rewrite <- A, E. exact V180. }
  assert (U0 : 0 < / 2 ^ 46 < 1).
  { split; [apply Rinv_0_lt_compat, pow_lt; lra|]. rewrite <- Rinv_1. apply Rinv_lt_contravar; [|apply Rlt_pow_R1; [lra|lia]]. rewrite Rmult_1_l. apply pow_lt. lra. }
  apply Rabs_le_inv in B.
  assert (Rd : - / 2 ^ 46 <= rnd (val t - val s) <= / 2 ^ 46).
  { rewrite <- Vu. split; [|rewrite <- (rnd_val u); apply rnd_le; rewrite Vu; lra].
    destruct (opp_ok u) as [_ Vo]. rewrite <- Vo, <- (rnd_val (- u)%float). apply rnd_le. rewrite Vo, Vu. lra. }
  assert (Fd : finite (t - s)%float) by (apply sub_fin; auto; apply small_bound, Rabs_le; lra).
  destruct (sub_ok _ _ Fd) as (_ & _ & Ed).
  assert (Rx : rnd (val (t - s)%float + 180) = 180).
  { apply Rle_antisym; [rewrite <- Up at 2|rewrite <- Dn at 1]; apply rnd_le; lra. }
  assert (Fx : finite (t - s + float_ofZ 180)%float) by (apply add_fin; auto; rewrite V180, Rx; apply small_bound; rewrite Rabs_right; lra).
  destruct (add_ok _ _ Fx) as (_ & _ & Ex). rewrite V180, Rx in Ex.
  destruct (steps fm _ H Fx) as (_ & Fr & Er & _). split; [exact Fr|].
  unfold min_rotation_float. cbn [nsub nadd nofZ NumFloat]. rewrite Er, Ex.
  assert (C : cut_remainder 180 360 = 180). { unfold cut_remainder. rewrite Ztrunc_floor by lra. rewrite (Zfloor_imp 0) by (simpl; lra). lra. }
  rewrite C. destruct (Rlt_dec 180 0); [lra|]. replace (180 - 180) with (IZR 0) by lra. apply rnd_zero.
Qed.

(* 180 itself is reached, which C26 rules out without rounding *)
Theorem C88_half_open_refuted : exists target source : float, finite target /\ finite source /\
  forall fmod, is_fmod fmod -> finite (min_rotation_float fmod target source) /\
  val (min_rotation_float fmod target source) = 180.
Proof.
  exists (-0x1.6800000000001p+7)%float, 0%float. split; [reflexivity|]. split; [reflexivity|]. intros fm H.
  assert (E : ((-0x1.6800000000001p+7) - 0 + float_ofZ 180)%float = (-0x1p-45)%float) by reflexivity.
  assert (Fx : finite (-0x1p-45)%float) by reflexivity.
  assert (Vx : val (-0x1p-45)%float = - / 2 ^ 45) by (unfold val; cbn; unfold F2R; cbn; lra).
  destruct (steps fm _ H Fx) as (_ & Fr & Er & _).
  unfold min_rotation_float. cbn [nsub nadd nofZ NumFloat]. rewrite E. split; [exact Fr|]. rewrite Er, Vx.
  assert (U0 : 0 < / 2 ^ 45 < 1).
  { split; [apply Rinv_0_lt_compat, pow_lt; lra|]. rewrite <- Rinv_1. apply Rinv_lt_contravar; [|apply Rlt_pow_R1; [lra|lia]]. rewrite Rmult_1_l. apply pow_lt. lra. }
  assert (C : cut_remainder (- / 2 ^ 45) 360 = - / 2 ^ 45).
  { unfold cut_remainder. rewrite Ztrunc_ceil by lra. rewrite (Zceil_imp 0) by (simpl; lra). lra. }
  rewrite C. destruct (Rlt_dec (- / 2 ^ 45) 0) as [_|N]; [|exfalso; apply N; lra].
  destruct c360 as [F360 V360].
  assert (E2 : (-0x1p-45 + float_ofZ 360)%float = float_ofZ 360) by reflexivity.
  destruct (add_ok (-0x1p-45)%float (float_ofZ 360)) as (_ & _ & A); [rewrite E2; exact F360|].
  rewrite E2, V360, Vx in A. rewrite <- A. replace (360 - 180) with (IZR 180) by lra. apply rnd_z. lia.
Qed.

(* ---------------- there is such an fmod ---------------- *)

Definition exact_fmod (x y : float) : float := round_to_float (cut_remainder (val x) (val y)).
Lemma cut_le x y : y <> 0 -> Rabs (cut_remainder x y) <= Rabs x.
Proof.
  intros Y. unfold cut_remainder. set (q := x / y). assert (E : x = q * y) by (unfold q; field; exact Y).
  rewrite E at 1 2. replace (q * y - IZR (Ztrunc q) * y) with ((q - IZR (Ztrunc q)) * y) by ring. rewrite !Rabs_mult.
  apply Rmult_le_compat_r; [apply Rabs_pos|]. destruct (Rle_dec 0 q).
  - rewrite Ztrunc_floor by lra. pose proof (Zfloor_lb q). assert (0 <= IZR (Zfloor q)) by (apply IZR_le; apply Zfloor_lub; simpl; lra). rewrite !Rabs_right; lra.
  - rewrite Ztrunc_ceil by lra. pose proof (Zceil_ub q). assert (IZR (Zceil q) <= 0) by (apply IZR_le; apply Zceil_glb; simpl; lra). rewrite !Rabs_left1; lra.
Qed.
Theorem C88_exact_fmod : is_fmod exact_fmod.
Proof.
  intros x y Fx Fy Y. set (r := cut_remainder (val x) (val y)).
  assert (G : rnd r = r).
  { apply round_generic; [apply valid_rnd_N|]. unfold r, cut_remainder.
    apply (@format_REM_ZR radix2 fexp64); [apply FLT_exp_valid; reflexivity|apply FLT_exp_monotone|apply val_format|apply val_format]. }
  assert (F : finite (round_to_float r)).
  { apply finite_B. unfold round_to_float. rewrite Prim2B_B2Prim.
    pose proof (binary_normalize_correct prec emax Hprec Hmax mode_NE (ZnearestE (scaled_mantissa radix2 fexp64 r)) (cexp radix2 fexp64 r) false) as C.
    change (F2R _) with (rnd r) in C. cbv zeta in C. rewrite G in C.
    change (round radix2 (SpecFloat.fexp prec emax) (round_mode mode_NE) r) with (rnd r) in C. rewrite G in C.
    rewrite Rlt_bool_true in C; [apply C|].
    eapply Rle_lt_trans; [apply cut_le; exact Y|]. apply finite_B in Fx. apply (abs_B2R_lt_emax prec emax). }
  split; [exact F|]. unfold exact_fmod. fold r. rewrite (round_to_float_ok _ F). exact G.
Qed.

Example C88_example : is_fmod exact_fmod /\ finite (0x1.4p+4 - 0x1.9999999999999p+3 + float_ofZ 180)%float /\
  whole (2 ^ 51) (float_ofZ (-340)) /\ whole (2 ^ 51) (float_ofZ 10) /\
  min_rotation (IZR (-340)) (IZR 10) = 10.
Proof.
  split; [exact C88_exact_fmod|]. split; [reflexivity|].
  assert (W : forall z, (Z.abs z <= 1000)%Z -> whole (2 ^ 51) (float_ofZ z)).
  { intros z Hz. destruct (const_ok z) as [A B]; [unfold max_whole; lia|]. split; [exact A|]. exists z. split; [exact B|lia]. }
  split; [apply W; lia|]. split; [apply W; lia|].
  destruct (C26_min_rotation (IZR (-340)) (IZR 10)) as (_ & _ & _ & U). symmetry. apply U; [|lra]. exists 1%Z. lra.
Qed.
