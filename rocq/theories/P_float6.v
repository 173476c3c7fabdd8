(* Property theorems C85: lines with whole-number coordinates on doubles. *)
From Coq Require Import Reals Floats ZArith List Lra Lia String.
From Flocq Require Import Core BinarySingleNaN PrimFloat.
Require Import Verif.Base Verif.NumFloat Verif.NumR Verif.L_real Verif.M_vector Verif.M_bbox Verif.M_transform Verif.M_bezier Verif.M_line.
Require Import Verif.M_points Verif.S_float Verif.L_float Verif.L_float2 Verif.P_float Verif.P_float2 Verif.P_float3 Verif.P_line.
Import ListNotations.
Set Warnings "-inexact-float".
Local Open Scope R_scope.

(* the line with the exact values, and lines through points with whole coordinates of up to about a
   million: the direction is the difference of two of them *)
Definition vall (l : line float) : line R := Ln (valp (lo l)) (valv (ld l)).
Definition whole_line (l : line float) : Prop := wholep (2 ^ 20) (lo l) /\ wholev (2 ^ 21) (ld l).

Lemma eps_num : eps = / 9007199254740992.
Proof. unfold eps. f_equal. cbv [pow]. lra. Qed.
Lemma tiny_le : tiny <= / 2 ^ 60.
Proof. unfold tiny. apply Rinv_le_contravar; [apply pow_lt; lra|apply Rle_pow; [lra|lia]]. Qed.
Lemma rnd_small r : Rabs r <= 2 ^ 100 -> Rabs (rnd r) < bpow radix2 1024.
Proof.
  intros H. apply Rle_lt_trans with (bpow radix2 (Z.of_nat 101)); [|apply bpow_lt; lia]. rewrite bpow_pow.
  pose proof (err_any r) as E. pose proof eps_num as N. pose proof tiny_le as T. pose proof tiny_pos.
  replace (rnd r) with (r + (rnd r - r)) by ring. eapply Rle_trans; [apply Rabs_triang|].
  replace (2 ^ 101) with (2 ^ 100 + 2 ^ 100) by (cbn [pow]; lra).
  apply Rplus_le_compat; [exact H|]. eapply Rle_trans; [exact E|]. rewrite N.
  assert (1 <= 2 ^ 100) by (apply pow_R1_Rle; lra).
  assert (tiny <= 1) by (eapply Rle_trans; [exact T|]; rewrite <- Rinv_1; apply Rinv_le_contravar; [lra|apply pow_R1_Rle; lra]).
  lra.
Qed.

(* the quotient of two whole numbers: its sign and whether it exceeds 1 are not disturbed *)
Lemma quot k x y r s : exactly k x r -> exactly k y s -> (k <= 2 ^ 50)%Z -> s <> 0 ->
  finite (x / y)%float /\ val (x / y)%float = rnd (r / s) /\ Rabs (r / s) <= 2 ^ 50 /\
  (val (x / y)%float < 0 <-> r / s < 0) /\ (1 < val (x / y)%float <-> 1 < r / s).
Proof.
  intros (Fx & Vx & a & Ea & Ha) (Fy & Vy & b & Eb & Hb) K S0.
  assert (B1 : (1 <= Z.abs b)%Z) by (destruct (Z.eq_dec b 0) as [->|]; [elim S0; rewrite Eb; reflexivity|lia]).
  assert (As : 1 <= Rabs s) by (rewrite Eb, <- abs_IZR; apply IZR_le; lia).
  assert (P50 : IZR (2 ^ 50) = 2 ^ 50) by (symmetry; exact (pow_IZR 2 50)).
  assert (Bs : Rabs s <= 2 ^ 50) by (rewrite Eb, <- abs_IZR, <- P50; apply IZR_le; lia).
  assert (Br : Rabs r <= 2 ^ 50) by (rewrite Ea, <- abs_IZR, <- P50; apply IZR_le; lia).
  assert (Low : forall z : Z, z <> 0%Z -> / 2 ^ 50 <= Rabs (IZR z / s)).
  { intros z Z0. unfold Rdiv. rewrite Rabs_mult, Rabs_inv.
    assert (1 <= Rabs (IZR z)) by (rewrite <- abs_IZR; apply IZR_le; lia).
    assert (/ 2 ^ 50 <= / Rabs s) by (apply Rinv_le_contravar; lra).
    assert (0 < / Rabs s) by (apply Rinv_0_lt_compat; lra).
    rewrite <- (Rmult_1_l (/ 2 ^ 50)). apply Rmult_le_compat; lra. }
  set (q := r / s) in *.
  assert (Bq : Rabs q <= 2 ^ 50).
  { unfold q, Rdiv. rewrite Rabs_mult, Rabs_inv.
    assert (0 < / Rabs s <= 1) by (split; [apply Rinv_0_lt_compat; lra|rewrite <- Rinv_1; apply Rinv_le_contravar; lra]).
    pose proof (Rabs_pos r). rewrite <- (Rmult_1_r (2 ^ 50)). apply Rmult_le_compat; lra. }
  assert (F : finite (x / y)%float).
  { apply div_fin; [exact Fx|rewrite Vy; exact S0|]. rewrite Vx, Vy. apply rnd_small. eapply Rle_trans; [exact Bq|].
    apply Rle_pow; [lra|lia]. }
  destruct (div_ok x y Fy) as [_ V]; [rewrite Vy; exact S0|exact F|]. rewrite Vx, Vy in V. fold q in V.
  split; [exact F|]. split; [exact V|]. split; [exact Bq|]. rewrite V.
  pose proof (err_any q) as E. pose proof eps_num as N. pose proof tiny_le as Tl. pose proof tiny_pos as Tp. rewrite N in E.
  assert (T60 : / 2 ^ 60 <= / 2 ^ 50 * / 1024).
  { rewrite <- Rinv_mult. apply Rinv_le_contravar; [|cbn [pow]; lra]. pose proof (pow_lt 2 50). lra. }
  assert (P50' : 0 < / 2 ^ 50) by (apply Rinv_0_lt_compat, pow_lt; lra).
  split; split; intros H.
  - destruct (Rlt_le_dec q 0) as [|Q]; [assumption|]. exfalso.
    pose proof (rnd_le 0 q Q) as O. rewrite rnd_zero in O. lra.
  - assert (A0 : a <> 0%Z) by (intros ->; unfold q in H; rewrite Ea in H; unfold Rdiv in H; rewrite Rmult_0_l in H; lra).
    specialize (Low a A0). rewrite <- Ea in Low. fold q in Low. rewrite (Rabs_left q H) in E, Low.
    apply Rabs_le_inv in E. lra.
  - destruct (Rlt_le_dec 1 q) as [|Q]; [assumption|]. exfalso.
    pose proof (rnd_le q 1 Q) as O. rewrite (rnd_int 1) in O by (unfold max_whole; lia). lra.
  - destruct (Rle_lt_dec 2 q) as [Q|Q].
    { pose proof (rnd_le 2 q Q) as O. rewrite (rnd_int 2) in O by (unfold max_whole; lia). lra. }
    assert (A0 : (a - b)%Z <> 0%Z).
    { intros Z0. assert (Z1 : a = b) by lia. subst b. unfold q in H. rewrite Ea, Eb in H. rewrite Eb in S0.
      unfold Rdiv in H. rewrite Rinv_r in H by exact S0. lra. }
    specialize (Low (a - b)%Z A0). rewrite minus_IZR, <- Ea, <- Eb in Low.
    replace ((r - s) / s) with (q - 1) in Low by (unfold q; field; exact S0).
    rewrite (Rabs_right (q - 1)) in Low by lra. rewrite (Rabs_right q) in E by lra. apply Rabs_le_inv in E.
    assert (/ 2 ^ 50 = 8 * / 9007199254740992) by (replace (2 ^ 50) with 1125899906842624 by (cbv [pow]; lra); lra).
    lra.
Qed.

(* a point at a rounded parameter *)
Lemma along (o d t : float) (q : R) : finite o -> finite d -> finite t ->
  Rabs (val o) <= 2 ^ 20 -> Rabs (val d) <= 2 ^ 21 -> Rabs q <= 2 ^ 50 -> val t = rnd q ->
  finite (o + d * t)%float /\
  Rabs (val (o + d * t)%float - (val o + val d * q)) <= 4 * eps * (Rabs (val o) + Rabs (val d * q)) + tiny.
Proof.
  intros Fo Fd Ft Bo Bd Bq Vt.
  pose proof eps_num as N. pose proof tiny_le as Tl. pose proof tiny_pos as Tp.
  pose proof (err_any q) as E0. rewrite <- Vt in E0.
  assert (T1 : tiny <= 1) by (eapply Rle_trans; [exact Tl|]; rewrite <- Rinv_1; apply Rinv_le_contravar; [lra|apply pow_R1_Rle; lra]).
  assert (E1 : Rabs (val d * val t - val d * q) <= eps * Rabs (val d * q) + eps * (2 ^ 21 * tiny)).
  { replace (val d * val t - val d * q) with (val d * (val t - q)) by ring. rewrite !Rabs_mult.
    apply Rle_trans with (Rabs (val d) * (eps * (Rabs q + tiny))).
    - apply Rmult_le_compat_l; [apply Rabs_pos|exact E0].
    - pose proof (Rmult_le_compat_r tiny _ _ (Rlt_le _ _ Tp) Bd) as Q. pose proof eps_pos. nra. }
  set (dq := val d * q) in *. 
  assert (Bdq : Rabs dq <= 2 ^ 71).
  { unfold dq. rewrite Rabs_mult. replace (2 ^ 71) with (2 ^ 21 * 2 ^ 50) by (rewrite <- pow_add; reflexivity).
    apply Rmult_le_compat; auto using Rabs_pos. }
  assert (P21 : (2 : R) ^ 21 = 2097152) by (cbv [pow]; lra). assert (P20 : (2 : R) ^ 20 = 1048576) by (cbv [pow]; lra).
  assert (P71 : (2 : R) ^ 71 <= 2 ^ 100 - 2 ^ 80).
  { replace (2 ^ 100) with (2 ^ 80 * 1048576) by (rewrite <- P20, <- pow_add; reflexivity).
    assert ((2 : R) ^ 71 <= 2 ^ 80) by (apply Rle_pow; [lra|lia]). assert (0 < (2 : R) ^ 80) by (apply pow_lt; lra). lra. }
  assert (P80 : 1208925819614629174706176 <= (2 : R) ^ 80) by (cbv [pow]; lra).
  assert (Bdt : Rabs (val d * val t) <= Rabs dq + (eps * Rabs dq + eps * (2 ^ 21 * tiny))).
  { replace (val d * val t) with (dq + (val d * val t - dq)) by ring. eapply Rle_trans; [apply Rabs_triang|]. lra. }
  rewrite N, P21 in *. rewrite P20 in Bo.
  assert (Fm : finite (d * t)%float).
  { apply mul_fin; [exact Fd|exact Ft|]. apply rnd_small. lra. }
  destruct (mul_ok d t Fm) as (_ & _ & Vm). pose proof (err_any (val d * val t)) as E2. rewrite <- Vm, N in E2.
  set (m := val (d * t)%float) in *.
  assert (Bm : Rabs m <= Rabs (val d * val t) + / 9007199254740992 * (Rabs (val d * val t) + tiny)).
  { replace m with (val d * val t + (m - val d * val t)) by ring. eapply Rle_trans; [apply Rabs_triang|]. lra. }
  assert (Bs : Rabs (val o + m) <= Rabs (val o) + Rabs m) by apply Rabs_triang.
  assert (Fp : finite (o + d * t)%float).
  { apply add_fin; [exact Fo|exact Fm|]. apply rnd_small. fold m. lra. }
  split; [exact Fp|].
  destruct (add_ok o (d * t)%float Fp) as (_ & _ & Vp). pose proof (err_any (val o + m)) as E3. fold m in Vp. rewrite <- Vp, N in E3.
  replace (val (o + d * t)%float - (val o + dq))
    with ((val (o + d * t)%float - (val o + m)) + (m - val d * val t) + (val d * val t - dq)) by ring.
  eapply Rle_trans; [apply Rabs_triang|]. eapply Rle_trans; [apply Rplus_le_compat_r, Rabs_triang|].
  pose proof (Rabs_pos (val o)). pose proof (Rabs_pos dq). lra.
Qed.

(* math.hypot, as far as needed: of numbers of size at most 1 it is finite and not grossly too large *)
Definition sane_hypot (RF : NumRoot float) : Prop := forall x y : float, finite x -> finite y ->
  Rabs (val x) <= 1 -> Rabs (val y) <= 1 ->
  finite (nhypot x y) /\ val (nhypot x y) <= 4 * (Rabs (val x) + Rabs (val y)).

Section Lines.
  Variables s o : line float.
  Hypothesis Ws : whole_line s.
  Hypothesis Wo : whole_line o.

  Let vs := vall s.
  Let vo := vall o.

  (* the parameter on o where the lines meet: numerator and denominator are exact *)
  Lemma param_exact : exactly (2 ^ 50) (v_dot (v_normal (ld s)) (p_sub (lo s) (lo o)))
      (v_dot (v_normal (ld vs)) (p_sub (lo vs) (lo vo))) /\
    exactly (2 ^ 50) (v_dot (v_normal (ld s)) (ld o)) (v_dot (v_normal (ld vs)) (ld vo)).
  Proof.
    destruct Ws as [[Wx Wy] [Wdx Wdy]], Wo as [[Ox Oy] [Odx Ody]].
    apply exactly_leaf in Wx, Wy, Wdx, Wdy, Ox, Oy, Odx, Ody.
    assert (SX : exactly (2 ^ 21) (px (lo s) - px (lo o))%float (val (px (lo s)) - val (px (lo o))))
      by (apply (exactly_sub _ _ _ _ _ _ Wx Ox); unfold max_whole; lia).
    assert (SY : exactly (2 ^ 21) (py (lo s) - py (lo o))%float (val (py (lo s)) - val (py (lo o))))
      by (apply (exactly_sub _ _ _ _ _ _ Wy Oy); unfold max_whole; lia).
    pose proof (exactly_opp _ _ _ Wdx) as Ndx.
    assert (D : forall a b c d a' b' c' d', exactly (2 ^ 21) a a' -> exactly (2 ^ 21) b b' -> exactly (2 ^ 21) c c' ->
              exactly (2 ^ 21) d d' -> exactly (2 ^ 50) (a * b + c * d)%float (a' * b' + c' * d')).
    { intros a b c d a' b' c' d' Ha Hb Hc Hd. apply exactly_le with (2 ^ 21 * 2 ^ 21 + 2 ^ 21 * 2 ^ 21)%Z; [lia|].
      apply exactly_add; [| |unfold max_whole; lia]; (apply exactly_mul; auto; unfold max_whole; lia). }
    split; apply D; assumption.
  Qed.
End Lines.

Lemma dot_normal_det (a b : line R) : v_dot (v_normal (ld a)) (ld b) = - det a b.
Proof. unfold det. change (vy (ld a) * vx (ld b) + - vx (ld a) * vy (ld b) = - (vx (ld a) * vy (ld b) - vy (ld a) * vx (ld b))). ring. Qed.

(* parallel is decided exactly *)
Theorem C85_parallel (s o : line float) : whole_line s -> whole_line o ->
  (parallel s o = true <-> collinear (ld (vall s)) (ld (vall o))).
Proof.
  intros [_ Hs] [_ Ho]. rewrite <- det_collinear.
  destruct (C80_dot_cross (ld s) (ld o) (2 ^ 21) (2 ^ 21) Hs Ho) as (_ & V & _ & (F & _)); [lia|].
  unfold parallel. cbn [neqb NumFloat]. destruct (const_ok 0) as [F0 V0]; [unfold max_whole; lia|].
  change (nofZ 0) with (float_ofZ 0). rewrite eqb_ok by assumption. rewrite V, V0, Reqb_eq. reflexivity.
Qed.

(* the parameter of o where the line meets s *)
Definition q_of (s o : line R) : R :=
  v_dot (v_normal (ld s)) (p_sub (lo s) (lo o)) / v_dot (v_normal (ld s)) (ld o).
Lemma q_of_eq (s o : line R) : det s o <> 0 ->
  q_of s o = ((vy (ld s)) * (px (lo s) - px (lo o)) - (vx (ld s)) * (py (lo s) - py (lo o))) / (- det s o).
Proof.
  intros D. unfold q_of. rewrite dot_normal_det. f_equal.
  change (vy (ld s) * (px (lo s) - px (lo o)) + - vx (ld s) * (py (lo s) - py (lo o))
    = vy (ld s) * (px (lo s) - px (lo o)) - vx (ld s) * (py (lo s) - py (lo o))). ring.
Qed.
Lemma det_swap (s o : line R) : det o s = - det s o.
Proof. unfold det. ring. Qed.
Lemma q_of_common (s o : line R) : det s o <> 0 -> at_param s (q_of o s) = at_param o (q_of s o).
Proof.
  intros D. rewrite (q_of_eq s o D), (q_of_eq o s) by (rewrite det_swap; lra). rewrite det_swap, Ropp_involutive.
  apply params_common. exact D.
Qed.
Lemma q_of_only (s o : line R) a b : det s o <> 0 -> at_param s a = at_param o b -> a = q_of o s /\ b = q_of s o.
Proof.
  intros D H. destruct (common_params s o a b H D) as [B A]. rewrite (q_of_eq s o D), (q_of_eq o s) by (rewrite det_swap; lra).
  rewrite det_swap, Ropp_involutive. split; assumption.
Qed.

(* how far a computed coordinate may be off: origin o, direction d, exact parameter q *)
Definition place_err (o d q : R) : R := 4 * eps * (Rabs o + Rabs (d * q)) + tiny.

(* the point of a line at the parameter where it meets another *)
Lemma meet (s o : line float) : whole_line s -> whole_line o -> det (vall s) (vall o) <> 0 ->
  let q := q_of (vall s) (vall o) in
  exists t, pydiv (v_dot (v_normal (ld s)) (p_sub (lo s) (lo o))) (v_dot (v_normal (ld s)) (ld o)) = Ok t /\
    finite t /\ val t = rnd q /\ (val t < 0 <-> q < 0) /\ (1 < val t <-> 1 < q) /\ Rabs q <= 2 ^ 50 /\
    finitep (p_add (lo o) (v_mul (ld o) t)) /\
    Rabs (val (px (p_add (lo o) (v_mul (ld o) t))) - px (at_param (vall o) q)) <= place_err (val (px (lo o))) (val (vx (ld o))) q /\
    Rabs (val (py (p_add (lo o) (v_mul (ld o) t))) - py (at_param (vall o) q)) <= place_err (val (py (lo o))) (val (vy (ld o))) q.
Proof.
  intros Hs Ho D q. destruct (param_exact s o Hs Ho) as [E1 E2].
  assert (Z0 : v_dot (v_normal (ld (vall s))) (ld (vall o)) <> 0) by (rewrite dot_normal_det; lra).
  destruct (quot _ _ _ _ _ E1 E2 (Z.le_refl _) Z0) as (F & V & B & Neg & One). fold (q_of (vall s) (vall o)) in V, B, Neg, One. fold q in V, B, Neg, One.
  exists (v_dot (v_normal (ld s)) (p_sub (lo s) (lo o)) / v_dot (v_normal (ld s)) (ld o))%float.
  split.
  { unfold pydiv. cbn [neqb NumFloat]. destruct (const_ok 0) as [F0 V0]; [unfold max_whole; lia|].
    change (nofZ 0) with (float_ofZ 0). rewrite eqb_ok by (try exact F0; exact (exactly_fin _ _ _ E2)).
    rewrite V0, (exactly_val _ _ _ E2).
    destruct (Reqb (v_dot (v_normal (ld (vall s))) (ld (vall o))) 0) eqn:Q; [|reflexivity].
    apply Reqb_eq in Q. contradiction. }
  set (t := (_ / _)%float) in *. split; [exact F|]. split; [exact V|]. split; [exact Neg|]. split; [exact One|]. split; [exact B|].
  destruct Ho as [[(Fx & zx & Ex & Bx) (Fy & zy & Ey & By)] [(Fdx & zdx & Edx & Bdx) (Fdy & zdy & Edy & Bdy)]].
  assert (Sz : forall z n, (Z.abs z <= 2 ^ Z.of_nat n)%Z -> Rabs (IZR z) <= 2 ^ n).
  { intros z n H. rewrite <- abs_IZR, pow_IZR. apply IZR_le. exact H. }
  destruct (along (px (lo o)) (vx (ld o)) t q Fx Fdx F) as [A1 A2];
    [rewrite Ex; apply Sz; exact Bx|rewrite Edx; apply Sz; exact Bdx|exact B|exact V|].
  destruct (along (py (lo o)) (vy (ld o)) t q Fy Fdy F) as [A3 A4];
    [rewrite Ey; apply Sz; exact By|rewrite Edy; apply Sz; exact Bdy|exact B|exact V|].
  split; [split; assumption|]. split; [exact A2|exact A4].
Qed.

(* intersection raises exactly for parallel lines; otherwise the point is close to the common point *)
Theorem C85_intersection (s o : line float) : whole_line s -> whole_line o ->
  (collinear (ld (vall s)) (ld (vall o)) -> intersection s o = Raise ParallelLineError) /\
  (~ collinear (ld (vall s)) (ld (vall o)) -> exists p q,
     intersection s o = Ok p /\ finitep p /\ on_line (vall s) (at_param (vall o) q) /\
     Rabs (val (px p) - px (at_param (vall o) q)) <= place_err (val (px (lo o))) (val (vx (ld o))) q /\
     Rabs (val (py p) - py (at_param (vall o) q)) <= place_err (val (py (lo o))) (val (vy (ld o))) q).
Proof.
  intros Hs Ho. pose proof (C85_parallel s o Hs Ho) as Hp. unfold parallel in Hp. unfold intersection.
  destruct (v_cross (ld s) (ld o) =? #0)%num.
  - split; [reflexivity|]. intros N. exfalso. apply N, Hp. reflexivity.
  - split; [intros C; apply Hp in C; discriminate|]. intros N. rewrite <- det_collinear in N.
    destruct (meet s o Hs Ho N) as (t & E & Ft & Vt & _ & _ & Bq & Fp & Ex & Ey).
    set (q := q_of (vall s) (vall o)) in *.
    exists (p_add (lo o) (v_mul (ld o) t)), q. cbv zeta. rewrite E. cbn [bind]. split; [reflexivity|]. split; [exact Fp|].
    split; [|split; [exact Ex|exact Ey]].
    exists (q_of (vall o) (vall s)). symmetry. exact (q_of_common _ _ N).
Qed.

Lemma segment_overlaps (s o : line float) : whole_line s -> whole_line o ->
  exists b, bbox_overlaps (segment_bbox s) (segment_bbox o) = Ok b /\ (b = true <-> boxes_overlap (vall s) (vall o)).
Proof.
  intros Hs Ho. destruct (overlaps_R (vall s) (vall o)) as (b & E & Hb). exists b. split; [|exact Hb]. rewrite <- E.
  assert (Q : forall l, whole_line l -> valb (segment_bbox l) = segment_bbox (vall l) /\ finiteb (segment_bbox l)).
  { intros l [[Lx Ly] [Dx Dy]]. unfold segment_bbox.
    destruct (C80_points_vectors (lo l) (lo l) (ld l) (ld l) (2 ^ 21) (2 ^ 21)) as [[V W] _]; try lia.
    all: try (split; eapply exactly_whole, exactly_le; [|apply exactly_leaf; eassumption| |apply exactly_leaf; eassumption]; lia).
    change (line_p2 (vall l)) with (p_add (valp (lo l)) (valv (ld l))). rewrite <- V.
    destruct W as [[Fx _] [Fy _]]. apply val_mkbbox; [exact (proj1 Lx)|exact (proj1 Ly)|exact Fx|exact Fy]. }
  destruct (Q s Hs) as [<- Fs]. destruct (Q o Ho) as [<- Fo].
  destruct (C80_boxes (segment_bbox s) (segment_bbox o) (lo s) Fs Fo) as (_ & _ & _ & _ & _ & _ & _ & _ & _ & R & _); [|exact R].
  destruct Hs as [[[A _] [B _]] _]. split; assumption.
Qed.

Lemma delta_ok : finite assert_delta /\ / 2 ^ 24 < val assert_delta.
Proof.
  assert (E1 : exactly (2 ^ 50) (float_ofZ 1) 1) by (eapply exactly_le; [|apply (exactly_const 1); unfold max_whole; lia]; lia).
  assert (E2 : exactly (2 ^ 50) (float_ofZ (10 ^ 7)) 10000000) by (eapply exactly_le; [|apply (exactly_const (10 ^ 7)); unfold max_whole; lia]; lia).
  destruct (quot _ _ _ _ _ E1 E2) as (F & V & _); [lia|lra|]. split; [exact F|].
  change (val assert_delta) with (val (float_ofZ 1 / float_ofZ (10 ^ 7))%float). rewrite V.
  pose proof (err_any (1 / 10000000)) as E. rewrite eps_num in E. rewrite (Rabs_right (1 / 10000000)) in E by lra.
  pose proof tiny_le as T1. pose proof tiny_pos. apply Rabs_le_inv in E.
  assert (/ 2 ^ 60 <= 1) by (rewrite <- Rinv_1; apply Rinv_le_contravar; [lra|apply pow_R1_Rle; lra]).
  replace (2 ^ 24) with 16777216 by (cbv [pow]; lra). lra.
Qed.

(* segments: every decision is exact, the assertion in the code never fails, and what is returned is
   close to the common point and its parameters *)
Theorem C85_segments {RF : NumRoot float} (s o : line float) : sane_hypot RF -> whole_line s -> whole_line o ->
  (~ boxes_overlap (vall s) (vall o) -> segment_intersection s o = Ok None) /\
  (boxes_overlap (vall s) (vall o) -> collinear (ld (vall s)) (ld (vall o)) ->
     segment_intersection s o = Raise ParallelLineError) /\
  (boxes_overlap (vall s) (vall o) -> ~ collinear (ld (vall s)) (ld (vall o)) ->
     (exists p a b qa qb, segment_intersection s o = Ok (Some (p, a, b)) /\
        at_param (vall s) qa = at_param (vall o) qb /\ 0 <= qa <= 1 /\ 0 <= qb <= 1 /\
        0 <= val a <= 1 /\ 0 <= val b <= 1 /\
        Rabs (val a - qa) <= 2 * eps /\ Rabs (val b - qb) <= 2 * eps /\
        Rabs (val (px p) - px (at_param (vall o) qb)) <= / 2 ^ 29 /\
        Rabs (val (py p) - py (at_param (vall o) qb)) <= / 2 ^ 29) \/
     (segment_intersection s o = Ok None /\
        forall a b, 0 <= a <= 1 -> 0 <= b <= 1 -> at_param (vall s) a <> at_param (vall o) b)).
Proof.
  intros Hy Hs Ho. destruct (segment_overlaps s o Hs Ho) as (ov & E & Hov). unfold segment_intersection. rewrite E. cbn [bind].
  destruct ov; cbn [negb]; [|split; [reflexivity|split; intros X; apply Hov in X; discriminate]].
  assert (B : boxes_overlap (vall s) (vall o)) by (apply Hov; reflexivity).
  split; [intros; contradiction|]. pose proof (C85_parallel s o Hs Ho) as Hp. destruct (parallel s o).
  { split; [reflexivity|]. intros _ N. exfalso. apply N, Hp. reflexivity. }
  split; [intros _ C; apply Hp in C; discriminate|]. intros _ N. rewrite <- det_collinear in N.
  assert (N' : det (vall o) (vall s) <> 0) by (rewrite det_swap; lra).
  destruct (meet s o Hs Ho N) as (tb & Eb & Fb & Vb & Nb & Ob & _ & Fpb & Xb & Yb). cbv zeta in Eb, Vb, Nb, Ob, Xb, Yb.
  destruct (meet o s Ho Hs N') as (ta & Ea & Fa & Va & Na & Oa & _ & Fpa & Xa & Ya). cbv zeta in Ea, Va, Na, Oa, Xa, Ya.
  set (qa := q_of (vall o) (vall s)) in *. set (qb := q_of (vall s) (vall o)) in *.
  pose proof (q_of_common _ _ N) as Com. fold qa qb in Com.
  assert (Only : forall a b, at_param (vall s) a = at_param (vall o) b -> a = qa /\ b = qb) by (intros a b; apply q_of_only; exact N).
  rewrite Eb. cbn [bind].
  destruct (const_ok 0) as [F0 V0]; [unfold max_whole; lia|]. destruct (const_ok 1) as [F1 V1]; [unfold max_whole; lia|].
  assert (Dec : forall t, finite t -> ((t <? #0)%num || ngtb t (#1)%num)%bool = false <-> 0 <= val t <= 1).
  { intros t Ft. unfold ngtb. cbn [nltb nofZ NumFloat]. rewrite !ltb_ok by assumption. rewrite V0, V1.
    rewrite Bool.orb_false_iff, !Rltb_ge. lra. }
  assert (Dn : forall t q, finite t -> (val t < 0 <-> q < 0) -> (1 < val t <-> 1 < q) ->
     ((t <? #0)%num || ngtb t (#1)%num)%bool = false <-> 0 <= q <= 1).
  { intros t q Ft A C. rewrite (Dec t Ft). split; intros [H1 H2].
    - split; apply Rnot_lt_le; intros X; [apply A in X|apply C in X]; lra.
    - split; apply Rnot_lt_le; intros X; [apply A in X|apply C in X]; lra. }
  destruct ((tb <? #0)%num || ngtb tb (#1)%num)%bool eqn:Ib.
  { right. split; [reflexivity|]. intros a b Ha Hb Q. destruct (Only a b Q) as [-> ->].
    apply (Dn tb qb Fb Nb Ob) in Hb. congruence. }
  assert (Qb : 0 <= qb <= 1) by (apply (Dn tb qb Fb Nb Ob); exact Ib). pose proof (proj1 (Dec tb Fb) Ib) as Tb.
  rewrite Ea. cbn [bind].
  destruct ((ta <? #0)%num || ngtb ta (#1)%num)%bool eqn:Ia.
  { right. split; [reflexivity|]. intros a b Ha Hb Q. destruct (Only a b Q) as [-> ->].
    apply (Dn ta qa Fa Na Oa) in Ha. congruence. }
  assert (Qa : 0 <= qa <= 1) by (apply (Dn ta qa Fa Na Oa); exact Ia). pose proof (proj1 (Dec ta Fa) Ia) as Ta.
  left. cbv zeta.
  assert (Pe : forall (u d : float) q, whole (2 ^ 20) u -> whole (2 ^ 21) d -> 0 <= q <= 1 -> place_err (val u) (val d) q <= / 2 ^ 29).
  { intros u d q (_ & zu & Eu & Bu) (_ & zd & Ed & Bd) Q. unfold place_err. rewrite Eu, Ed, Rabs_mult, <- !abs_IZR.
    apply IZR_le in Bu, Bd. change (IZR (2 ^ 20)) with 1048576 in Bu. change (IZR (2 ^ 21)) with 2097152 in Bd.
    rewrite (Rabs_right q) by lra. rewrite eps_num. pose proof tiny_le as Tl.
    assert (0 <= IZR (Z.abs zd)) by (apply IZR_le; lia). assert (IZR (Z.abs zd) * q <= 2097152) by nra.
    replace (2 ^ 29) with 536870912 by (cbv [pow]; lra).
    assert (/ 2 ^ 60 <= / 1099511627776) by (apply Rinv_le_contravar; [lra|cbv [pow]; lra]). lra. }
  destruct Hs as [[Wx Wy] [Wdx Wdy]], Ho as [[Ox Oy] [Odx Ody]].
  assert (Xb' := Rle_trans _ _ _ Xb (Pe _ _ _ Ox Odx Qb)). assert (Yb' := Rle_trans _ _ _ Yb (Pe _ _ _ Oy Ody Qb)).
  assert (Xa' := Rle_trans _ _ _ Xa (Pe _ _ _ Wx Wdx Qa)). assert (Ya' := Rle_trans _ _ _ Ya (Pe _ _ _ Wy Wdy Qa)).
  set (pb := p_add (lo o) (v_mul (ld o) tb)) in *. set (pa := p_add (lo s) (v_mul (ld s) ta)) in *.
  destruct Fpa as [Fxa Fya], Fpb as [Fxb Fyb].
  assert (Df : forall u v r : R, Rabs (u - r) <= / 2 ^ 29 -> Rabs (v - r) <= / 2 ^ 29 -> Rabs (u - v) <= / 268435456).
  { intros u v r H1 H2. replace (2 ^ 29) with 536870912 in * by (cbv [pow]; lra). apply Rabs_le_inv in H1, H2. apply Rabs_le. lra. }
  assert (Sub : forall u v : float, finite u -> finite v -> Rabs (val u - val v) <= / 268435456 ->
     finite (u - v)%float /\ Rabs (val (u - v)%float) <= / 134217728).
  { intros u v Fu Fv H.
    assert (F : finite (u - v)%float).
    { apply sub_fin; [exact Fu|exact Fv|]. apply rnd_small. eapply Rle_trans; [exact H|].
      assert (1 <= (2 : R) ^ 100) by (apply pow_R1_Rle; lra). lra. }
    split; [exact F|]. destruct (sub_ok u v F) as (_ & _ & V). rewrite V.
    pose proof (err_any (val u - val v)) as Er. rewrite eps_num in Er. pose proof tiny_le as Tl.
    assert (/ 2 ^ 60 <= / 1099511627776) by (apply Rinv_le_contravar; [lra|cbv [pow]; lra]).
    replace (rnd (val u - val v)) with ((val u - val v) + (rnd (val u - val v) - (val u - val v))) by ring.
    eapply Rle_trans; [apply Rabs_triang|]. lra. }
  assert (Dx : Rabs (val (px pa) - val (px pb)) <= / 268435456).
  { apply (Df _ _ (px (at_param (vall s) qa))); [exact Xa'|]. rewrite Com. exact Xb'. }
  assert (Dy : Rabs (val (py pa) - val (py pb)) <= / 268435456).
  { apply (Df _ _ (py (at_param (vall s) qa))); [exact Ya'|]. rewrite Com. exact Yb'. }
  destruct (Sub _ _ Fxa Fxb Dx) as [Fdx Sx]. destruct (Sub _ _ Fya Fyb Dy) as [Fdy Sy].
  destruct (Hy _ _ Fdx Fdy) as [Fh Bh]; [lra|lra|]. destruct delta_ok as [Fd Bd].
  replace (2 ^ 24) with 16777216 in Bd by (cbv [pow]; lra).
  assert (L : (v_length (p_sub pa pb) <? assert_delta)%num = true).
  { unfold v_length, p_sub. cbn [vx vy nsub nltb NumFloat]. rewrite ltb_ok by assumption. apply Rltb_lt. lra. }
  rewrite L. exists pb, ta, tb, qa, qb. split; [reflexivity|].
  assert (Te : forall t q, val t = rnd q -> 0 <= q <= 1 -> Rabs (val t - q) <= 2 * eps).
  { intros t q -> Q. eapply Rle_trans; [apply err_any|]. rewrite (Rabs_right q) by lra. pose proof tiny_le as Tl. pose proof eps_pos.
    assert (/ 2 ^ 60 <= 1) by (rewrite <- Rinv_1; apply Rinv_le_contravar; [lra|apply pow_R1_Rle; lra]). nra. }
  repeat (split; [first [exact Com|exact Qa|exact Qb|exact Ta|exact Tb|apply (Te _ _ Va Qa)|apply (Te _ _ Vb Qb)|exact Xb']|]).
  exact Yb'.
Qed.

(* ------------------------------------------------------------------ *)
(** ** which functions are sane as hypot *)

Lemma rnd_double r : 0 <= r -> 0 <= rnd r <= 2 * r.
Proof.
  intros H. split; [rewrite <- rnd_zero; now apply rnd_le|].
  destruct (@round_N_pt radix2 fexp64 (@FLT_exp_valid (-1074) 53 prec_pos) (fun x => negb (Z.even x)) r) as [_ N].
  specialize (N 0 (generic_format_0 radix2 fexp64)). fold ZnearestE in N. replace (0 - r) with (- r) in N by ring.
  rewrite Rabs_Ropp, (Rabs_right r) in N by lra. apply Rabs_le_inv in N. lra.
Qed.
Lemma sqrt_ok x : finite x -> 0 <= val x -> finite (PrimFloat.sqrt x) /\ val (PrimFloat.sqrt x) = rnd (R_sqrt.sqrt (val x)).
Proof.
  intros F P. apply finite_B in F. unfold val in *. rewrite finite_B, sqrt_equiv.
  destruct (Bsqrt_correct prec emax Hprec Hmax mode_NE (Prim2B x)) as (A & B & _). split; [|exact A]. rewrite B.
  destruct (Prim2B x) as [| | |[|] m e H]; auto; try discriminate. exfalso. cbn in P.
  pose proof (F2R_lt_0 radix2 (Float radix2 (Z.neg m) e)) as Q. cbn in Q. specialize (Q ltac:(lia)). cbn in P. lra.
Qed.

(* the square root of the rounded sum of the rounded squares *)
Theorem C85_naive_hypot : sane_hypot RootFloat.
Proof.
  intros x y Fx Fy Bx By. cbn [nhypot RootFloat].
  assert (H100 : 8 <= (2 : R) ^ 100) by (replace 8 with (2 ^ 3) by (cbv [pow]; lra); apply Rle_pow; [lra|lia]).
  assert (Sq : forall z, finite z -> Rabs (val z) <= 1 ->
     finite (z * z)%float /\ 0 <= val (z * z)%float <= 2 * (Rabs (val z) * Rabs (val z)) /\ Rabs (val z) * Rabs (val z) <= 1).
  { intros z Fz Bz. pose proof (Rabs_pos (val z)). assert (E : val z * val z = Rabs (val z) * Rabs (val z)).
    { rewrite <- Rabs_mult. symmetry. apply Rabs_right. nra. }
    assert (F : finite (z * z)%float).
    { apply mul_fin; auto. apply rnd_small. rewrite Rabs_mult. nra. }
    split; [exact F|]. destruct (mul_ok z z F) as (_ & _ & ->). rewrite E. split; [apply rnd_double; nra|nra]. }
  destruct (Sq x Fx Bx) as (F1 & B1 & C1). destruct (Sq y Fy By) as (F2 & B2 & C2).
  assert (F3 : finite (x * x + y * y)%float).
  { apply add_fin; auto. apply rnd_small. rewrite Rabs_right by lra. lra. }
  destruct (add_ok _ _ F3) as (_ & _ & V3). pose proof (rnd_double (val (x * x)%float + val (y * y)%float)) as D. rewrite <- V3 in D.
  specialize (D ltac:(lra)). destruct (sqrt_ok _ F3 (proj1 D)) as [F4 V4]. split; [exact F4|]. rewrite V4.
  assert (Q : R_sqrt.sqrt (val (x * x + y * y)%float) <= 2 * (Rabs (val x) + Rabs (val y))).
  { pose proof (Rabs_pos (val x)). pose proof (Rabs_pos (val y)).
    rewrite <- (sqrt_Rsqr (2 * (Rabs (val x) + Rabs (val y)))) by lra. apply sqrt_le_1_alt. unfold Rsqr. nra. }
  pose proof (rnd_double _ (sqrt_pos (val (x * x + y * y)%float))). lra.
Qed.

(* any function that is finite on such numbers and at most half of the true value off *)
Theorem C85_close_hypot (RF : NumRoot float) :
  (forall x y : float, finite x -> finite y -> Rabs (val x) <= 1 -> Rabs (val y) <= 1 -> finite (nhypot x y) /\
     Rabs (val (nhypot x y) - R_sqrt.sqrt (val x * val x + val y * val y)) <= R_sqrt.sqrt (val x * val x + val y * val y) / 2) ->
  sane_hypot RF.
Proof.
  intros H x y Fx Fy Bx By. destruct (H x y Fx Fy Bx By) as [F E]. split; [exact F|]. apply Rabs_le_inv in E.
  assert (Q : R_sqrt.sqrt (val x * val x + val y * val y) <= Rabs (val x) + Rabs (val y)).
  { pose proof (Rabs_pos (val x)). pose proof (Rabs_pos (val y)).
    assert (S0 : forall z, z * z = Rabs z * Rabs z) by (intros z; rewrite <- Rabs_mult; symmetry; apply Rabs_right; nra).
    rewrite (S0 (val x)), (S0 (val y)).
    rewrite <- (sqrt_Rsqr (Rabs (val x) + Rabs (val y))) by lra. apply sqrt_le_1_alt. unfold Rsqr. nra. }
  pose proof (sqrt_pos (val x * val x + val y * val y)). lra.
Qed.

(* lines through points with whole coordinates *)
Theorem C85_line_pts (a b : pt float) : wholep (2 ^ 20) a -> wholep (2 ^ 20) b ->
  whole_line (line_pts a b) /\ vall (line_pts a b) = line_pts (valp a) (valp b).
Proof.
  intros Ha Hb. pose proof Ha as [Ax Ay]. pose proof Hb as [Bx By].
  apply exactly_leaf in Ax, Ay, Bx, By.
  assert (E : valv (p_sub b a) = p_sub (valp b) (valp a) /\ wholev (2 ^ 21) (p_sub b a)).
  { pose proof (exactly_sub _ _ _ _ _ _ Bx Ax) as X. pose proof (exactly_sub _ _ _ _ _ _ By Ay) as Y.
    specialize (X ltac:(unfold max_whole; lia)). specialize (Y ltac:(unfold max_whole; lia)).
    split; [|split; eapply exactly_whole; eassumption].
    unfold p_sub, valv, valp. cbn [px py vx vy]. f_equal; [exact (exactly_val _ _ _ X)|exact (exactly_val _ _ _ Y)]. }
  destruct E as [E W]. split; [split; assumption|]. unfold vall, line_pts. cbn [lo ld]. f_equal. exact E.
Qed.

Definition fz (x y : Z) : pt float := P (float_ofZ x) (float_ofZ y).
Lemma fz_whole k x y : (Z.abs x <= k)%Z -> (Z.abs y <= k)%Z -> (k <= max_whole)%Z -> wholep k (fz x y) /\ valp (fz x y) = P (IZR x) (IZR y).
Proof.
  intros Hx Hy K. destruct (const_ok x) as [A B]; [lia|]. destruct (const_ok y) as [C D]; [lia|].
  split; [split; (split; [assumption|]); eexists; (split; [eassumption|assumption])|].
  unfold valp, fz. cbn [px py]. rewrite B, D. reflexivity.
Qed.

(* Not so for larger coordinates: with coordinates below 10^8 the assertion fails for segments that cross *)
Theorem C85_assertion_refuted : exists a b c d : Z * Z,
  let s := line_pts (fz (fst a) (snd a)) (fz (fst b) (snd b)) in
  let o := line_pts (fz (fst c) (snd c)) (fz (fst d) (snd d)) in
  Forall (fun p => Z.abs (fst p) < 10 ^ 8 /\ Z.abs (snd p) < 10 ^ 8)%Z [a; b; c; d] /\
  segment_intersection s o = Raise AssertionError /\
  (exists p q, 0 < p < 1 /\ 0 < q < 1 /\ at_param (vall s) p = at_param (vall o) q).
Proof.
  exists (-59600857, -59872960)%Z, (91353644, 97369103)%Z, (79048534, 85053708)%Z, (-73651300, -75370593)%Z.
  cbv zeta. cbn [fst snd].
  split; [repeat (constructor; [cbn [fst snd]; lia|]); constructor|]. split; [vm_compute; reflexivity|].
  assert (L : forall x y x' y', (Z.abs x < 10 ^ 8)%Z -> (Z.abs y < 10 ^ 8)%Z -> (Z.abs x' < 10 ^ 8)%Z -> (Z.abs y' < 10 ^ 8)%Z ->
     vall (line_pts (fz x y) (fz x' y')) = Ln (P (IZR x) (IZR y)) (V (IZR x' - IZR x) (IZR y' - IZR y))).
  { intros x y x' y' Hx Hy Hx' Hy'. unfold vall, line_pts. cbn [lo ld].
    destruct (fz_whole (10 ^ 8) x y) as [[A B] E]; [lia|lia|unfold max_whole; lia|].
    destruct (fz_whole (10 ^ 8) x' y') as [[C D] E']; [lia|lia|unfold max_whole; lia|].
    f_equal; [exact E|]. unfold valp in E, E'. cbn [px py] in E, E'.
    pose proof (f_equal px E) as E1. pose proof (f_equal py E) as E2. pose proof (f_equal px E') as E3. pose proof (f_equal py E') as E4.
    cbn [px py] in E1, E2, E3, E4.
    apply exactly_leaf in A, B, C, D. unfold valv, p_sub. cbn [vx vy].
    rewrite <- E1, <- E2, <- E3, <- E4. cbn [nsub NumFloat].
    f_equal; [eapply exactly_val, exactly_sub; [exact C|exact A|]|eapply exactly_val, exactly_sub; [exact D|exact B|]]; unfold max_whole; lia. }
  rewrite !L by lia.
  match goal with |- exists p q, _ /\ _ /\ at_param ?s p = at_param ?o q => set (S1 := s); set (O1 := o) end.
  assert (D : det S1 O1 <> 0) by (unfold det, S1, O1; cbn [ld vx vy]; lra).
  assert (Fr : forall n d : R, 0 < n * d -> n * d < d * d -> 0 < n / d < 1).
  { intros n d A B. assert (d <> 0) by (intros ->; lra). assert (DD : 0 < d * d) by lra.
    replace (n / d) with ((n * d) / (d * d)) by (field; assumption).
    split; [apply Rdiv_lt_0_compat; lra|]. apply (Rmult_lt_reg_r (d * d)); [lra|]. unfold Rdiv.
    rewrite Rmult_assoc, Rinv_l by lra. lra. }
  exists (q_of O1 S1), (q_of S1 O1). split; [|split; [|exact (q_of_common S1 O1 D)]].
  - rewrite q_of_eq by (rewrite det_swap; lra). apply Fr; unfold det, S1, O1; cbn [lo ld px py vx vy]; lra.
  - rewrite q_of_eq by exact D. apply Fr; unfold det, S1, O1; cbn [lo ld px py vx vy]; lra.
Qed.

(* nor for whole numbers near 2^53: lines that cross may count as parallel *)
Theorem C85_parallel_refuted : exists s o : line float,
  wholep (2 ^ 53) (lo s) /\ wholev (2 ^ 53) (ld s) /\ wholep (2 ^ 53) (lo o) /\ wholev (2 ^ 53) (ld o) /\
  parallel s o = true /\ intersection s o = Raise ParallelLineError /\ ~ collinear (ld (vall s)) (ld (vall o)).
Proof.
  exists (Ln (fz 0 0) (V (float_ofZ 4503599627370497) (float_ofZ 4503599627370496))),
         (Ln (fz 5 0) (V (float_ofZ 9007199254740992) (float_ofZ 9007199254740991))).
  cbn [lo ld].
  destruct (fz_whole (2 ^ 53) 0 0) as [W0 _]; [lia|lia|unfold max_whole; lia|].
  destruct (fz_whole (2 ^ 53) 5 0) as [W5 _]; [lia|lia|unfold max_whole; lia|].
  destruct (fz_whole (2 ^ 53) 4503599627370497 4503599627370496) as [W1 E1]; [lia|lia|unfold max_whole; lia|].
  destruct (fz_whole (2 ^ 53) 9007199254740992 9007199254740991) as [W2 E2]; [lia|lia|unfold max_whole; lia|].
  split; [exact W0|]. split; [exact W1|]. split; [exact W5|]. split; [exact W2|].
  split; [vm_compute; reflexivity|]. split; [vm_compute; reflexivity|].
  rewrite <- det_collinear. unfold det, vall. cbn [lo ld valv vx vy].
  pose proof (f_equal px E1) as A. pose proof (f_equal py E1) as B. pose proof (f_equal px E2) as C. pose proof (f_equal py E2) as D.
  unfold valp, fz in A, B, C, D. cbn [px py] in A, B, C, D. rewrite A, B, C, D. lra.
Qed.

Example C85_example :
  let s := line_pts (fz 0 0) (fz 30 10) in let o := line_pts (fz 10 (-5)) (fz 11 20) in
  whole_line s /\ whole_line o /\ boxes_overlap (vall s) (vall o) /\ ~ collinear (ld (vall s)) (ld (vall o)) /\
  exists p a b, segment_intersection s o = Ok (Some (p, a, b)).
Proof.
  cbv zeta.
  destruct (fz_whole (2 ^ 20) 0 0) as [W0 E0]; [lia|lia|unfold max_whole; lia|].
  destruct (fz_whole (2 ^ 20) 30 10) as [W1 E1]; [lia|lia|unfold max_whole; lia|].
  destruct (fz_whole (2 ^ 20) 10 (-5)) as [W2 E2]; [lia|lia|unfold max_whole; lia|].
  destruct (fz_whole (2 ^ 20) 11 20) as [W3 E3]; [lia|lia|unfold max_whole; lia|].
  destruct (C85_line_pts _ _ W0 W1) as [L1 V1]. destruct (C85_line_pts _ _ W2 W3) as [L2 V2].
  rewrite V1, V2, E0, E1, E2, E3. split; [exact L1|]. split; [exact L2|]. split.
  { unfold boxes_overlap, strictly_overlap, at_param, line_pts, p_sub. cbn [lo ld px py vx vy nsub NumR].
    unfold Rmin, Rmax. repeat destruct (Rle_dec _ _); lra. }
  split; [rewrite <- det_collinear; unfold det, line_pts, p_sub; cbn [lo ld px py vx vy nsub NumR]; lra|].
  eexists _, _, _. vm_compute. reflexivity.
Qed.
