(* C50: offsetting a vertex and a curve. *)
Require Import Verif.Base Verif.NumR Verif.L_real Verif.M_vector Verif.M_bbox Verif.M_transform Verif.M_bezier Verif.M_colors Verif.M_elems.
Require Import Verif.S_transform Verif.L_transform Verif.L_vector Verif.S_bezier Verif.L_bezier Verif.P_bezier Verif.S_elems Verif.L_elems Verif.P_elems.
From Coq Require Import String Reals List Lia Lra.
Import ListNotations.
Local Open Scope string_scope.
Local Open Scope list_scope.
Local Open Scope R_scope.

(* ---------------- what is meant ---------------- *)
Definition len (v : vec R) : R := sqrt (vx v * vx v + vy v * vy v).
(* direction of a vector *)
Definition dir (v : vec R) : vec R := V (vx v / len v) (vy v / len v).
(* signed distance of q from the line through o with unit direction u: positive to the right *)
Definition side_dist (o : pt R) (u : vec R) (q : pt R) : R := (px q - px o) * vy u - (py q - py o) * vx u.
(* sine of the angle from a to b, for unit vectors *)
Definition sin_between (a b : vec R) : R := vx a * vy b - vy a * vx b.
Definition nonzero (v : vec R) : Prop := vx v <> 0 \/ vy v <> 0.

(* ---------------- lemmas ---------------- *)
Lemma len_length v : v_length v = len v. Proof. reflexivity. Qed.
Lemma len_pos v : nonzero v -> 0 < len v.
Proof. intros H. unfold len. apply sqrt_lt_R0. destruct H; nra. Qed.
Lemma len_sq v : len v * len v = vx v * vx v + vy v * vy v.
Proof. unfold len. apply sqrt_sqrt. nra. Qed.
Lemma unit_dir v : nonzero v -> v_unit v = Ok (dir v).
Proof.
  intros H. rewrite unit_R. rewrite len_length. destruct (Req_EM_T (len v) 0) as [E|E]; [|reflexivity].
  pose proof (len_pos v H). lra.
Qed.
Lemma dir_unit v : nonzero v -> vx (dir v) * vx (dir v) + vy (dir v) * vy (dir v) = 1.
Proof.
  intros H. pose proof (len_pos v H). pose proof (len_sq v) as L. unfold dir. cbn [vx vy].
  replace (vx v / len v * (vx v / len v) + vy v / len v * (vy v / len v)) with ((vx v * vx v + vy v * vy v) / (len v * len v)) by (field; lra).
  rewrite <- L. field. lra.
Qed.
Lemma v_eqb_nonzero v : v_eqb v (V 0 0) = false <-> nonzero v.
Proof.
  unfold v_eqb, nonzero. cbn. unfold Reqb. destruct (Req_EM_T (vx v) 0), (Req_EM_T (vy v) 0); cbn; intuition congruence.
Qed.
Lemma v_eqb_zero v : v_eqb v (V 0 0) = true <-> ~ nonzero v.
Proof. rewrite <- v_eqb_nonzero. destruct (v_eqb v (V 0 0)); intuition congruence. Qed.

Definition eps : R := 1 / IZR (10 ^ 10).
Lemma eps_pos : 0 < eps. Proof. unfold eps. lra. Qed.

(* the vertex when it is not straight, with u and w the two directions *)
Definition bisector (u w : vec R) : vec R := dir (V (vx w + vx u) (vy w + vy u)).
Lemma sum_nonzero u w : sin_between u w <> 0 -> nonzero (V (vx w + vx u) (vy w + vy u)).
Proof.
  unfold sin_between, nonzero. cbn [vx vy]. intros H. destruct (Req_EM_T (vx w + vx u) 0) as [A|A]; [|auto].
  right. intros B. apply H. replace (vx w) with (- vx u) by lra. replace (vy w) with (- vy u) by lra. ring.
Qed.

Lemma offset_pt_R (dl dr : vec R) p off :
  offset_pt dl p dr off =
  if v_eqb dl (V 0 0) || v_eqb dr (V 0 0) then Ok p
  else let u := dir dl in let w := dir dr in
    if Rltb (Rabs (sin_between u w)) eps then Ok (P (px p + vy u * off) (py p + - vx u * off))
    else let v := bisector u w in
      let k := off / sin_between v u in
      let k := if Rltb 100 (Rabs k) then 100 else k in
      Ok (P (px p + vx v * k) (py p + vy v * k)).
Proof.
  unfold offset_pt. change (nofZ 0) with 0. destruct (v_eqb dl (V 0 0)) eqn:E1, (v_eqb dr (V 0 0)) eqn:E2; try reflexivity.
  apply v_eqb_nonzero in E1. apply v_eqb_nonzero in E2. cbn [orb].
  rewrite !unit_dir by auto. cbn [bind].
  set (u := dir dl). set (w := dir dr). cbv zeta. fold (sin_between u w).
  change (nltb (nabs (v_cross u w)) (ndiv (nofZ 1) (nofZ (10 ^ 10)))) with (Rltb (Rabs (sin_between u w)) eps).
  destruct (Rltb (Rabs (sin_between u w)) eps) eqn:E; [reflexivity|].
  assert (N : sin_between u w <> 0).
  { intros Q. rewrite Q, Rabs_R0 in E. pose proof eps_pos as H. apply Rltb_lt in H. congruence. }
  pose proof (sum_nonzero _ _ N) as NS.
  change (v_add w u) with (V (vx w + vx u) (vy w + vy u)). rewrite unit_dir by auto. cbn [bind].
  fold (bisector u w). set (v := bisector u w).
  change (v_cross v u) with (sin_between v u).
  assert (NV : sin_between v u <> 0).
  { unfold v, bisector, dir, sin_between. cbn [vx vy]. pose proof (len_pos _ NS) as L. cbn [vx vy] in L.
    set (L0 := len (V (vx w + vx u) (vy w + vy u))) in *. 
    replace ((vx w + vx u) / L0 * vy u - (vy w + vy u) / L0 * vx u) with (- sin_between u w / L0) by (unfold sin_between; field; lra).
    apply Rmult_integral_contrapositive. split; [lra|]. apply Rinv_neq_0_compat. lra. }
  rewrite pydiv_R by auto. cbn [bind]. reflexivity.
Qed.

Lemma bisector_sin u w : vx u * vx u + vy u * vy u = 1 -> vx w * vx w + vy w * vy w = 1 -> sin_between u w <> 0 ->
  sin_between (bisector u w) u = - sin_between u w / len (V (vx w + vx u) (vy w + vy u)) /\
  sin_between (bisector u w) w = sin_between u w / len (V (vx w + vx u) (vy w + vy u)).
Proof.
  intros Hu Hw N. pose proof (len_pos _ (sum_nonzero _ _ N)) as L.
  unfold bisector, dir, sin_between. cbn [vx vy] in *. set (L0 := len _) in *.
  split; field; lra.
Qed.

(* ------------------------------------------------------------------ *)
(** ** C50 *)

(* a vertex is always given a new position *)
Theorem C50_pt_total : forall (dl dr : vec R) (p : pt R) (off : R), exists q, offset_pt dl p dr off = Ok q.
Proof.
  intros. rewrite offset_pt_R. destruct (_ || _); [eauto|]. cbv zeta. destruct (Rltb _ _); eauto.
Qed.

(* zero handle: not moved *)
Theorem C50_pt_zero_handle : forall (dl dr : vec R) (p : pt R) (off : R),
  ~ nonzero dl \/ ~ nonzero dr -> offset_pt dl p dr off = Ok p.
Proof.
  intros dl dr p off H. rewrite offset_pt_R. rewrite <- !v_eqb_zero in H.
  destruct H as [-> | ->]; [|rewrite Bool.orb_true_r]; reflexivity.
Qed.

(* straight through (or straight back): off along the normal of the left handle *)
Theorem C50_pt_straight : forall (dl dr : vec R) (p : pt R) (off : R),
  nonzero dl -> nonzero dr -> Rabs (sin_between (dir dl) (dir dr)) < 1 / 10000000000 ->
  exists q, offset_pt dl p dr off = Ok q /\ side_dist p (dir dl) q = off /\
    (px q - px p) * vx dl + (py q - py p) * vy dl = 0 /\ sqrt (dist2 p q) = Rabs off.
Proof.
  intros dl dr p off Hl Hr H. rewrite offset_pt_R.
  pose proof (dir_unit dl Hl) as U. pose proof (len_pos dl Hl) as L.
  assert (Ev : vx dl = len dl * vx (dir dl) /\ vy dl = len dl * vy (dir dl)) by (unfold dir; cbn [vx vy]; split; field; lra).
  apply v_eqb_nonzero in Hl. apply v_eqb_nonzero in Hr. rewrite Hl, Hr. cbn [orb]. cbv zeta.
  replace (Rltb _ eps) with true by (symmetry; apply Rltb_lt; unfold eps; change (IZR (10 ^ 10)) with (IZR 10000000000); exact H).
  eexists. split; [reflexivity|]. unfold side_dist, dist2. cbn [px py]. destruct Ev as [-> ->]. set (u := dir dl) in *.
  assert (E : off * (vx u * vx u + vy u * vy u) = off) by (rewrite U; ring).
  split; [lra|]. split; [ring|].
  rewrite <- sqrt_Rsqr_abs. f_equal. unfold Rsqr.
  replace (off * off) with (off * off * (vx u * vx u + vy u * vy u)) by (rewrite U; ring). ring.
Qed.

(* an angle, not limited: on the lines at distance |off| from both sides, to the right of the left
   one and to the left of the right one for a positive offset *)
Theorem C50_pt_angled : forall (dl dr : vec R) (p : pt R) (off : R),
  nonzero dl -> nonzero dr ->
  let u := dir dl in let w := dir dr in let s := sin_between u w in
  1 / 10000000000 <= Rabs s ->
  Rabs off * len (V (vx u + vx w) (vy u + vy w)) <= 100 * Rabs s ->
  exists q, offset_pt dl p dr off = Ok q /\
    side_dist p u q = off /\ side_dist p w q = - off /\
    line_dist p u q = Rabs off /\ line_dist p w q = Rabs off.
Proof.
  intros dl dr p off Hl Hr u w s Hs Hlim. rewrite offset_pt_R.
  pose proof (dir_unit dl Hl) as U. pose proof (dir_unit dr Hr) as W.
  apply v_eqb_nonzero in Hl. apply v_eqb_nonzero in Hr. rewrite Hl, Hr. cbn [orb]. cbv zeta. fold u w s. fold u in U. fold w in W.
  replace (Rltb (Rabs s) eps) with false
    by (symmetry; destruct (Rltb (Rabs s) eps) eqn:E; auto; apply Rltb_lt in E; unfold eps in E; change (IZR (10 ^ 10)) with (IZR 10000000000) in E; lra).
  assert (N : s <> 0) by (intros Q; rewrite Q, Rabs_R0 in Hs; lra).
  destruct (bisector_sin u w U W N) as [B1 B2].
  pose proof (len_pos _ (sum_nonzero _ _ N)) as L.
  replace (len (V (vx u + vx w) (vy u + vy w))) with (len (V (vx w + vx u) (vy w + vy u))) in Hlim by (unfold len; cbn [vx vy]; f_equal; ring).
  set (L0 := len _) in *.
  assert (K : off / sin_between (bisector u w) u = - (off * L0 / s)) by (rewrite B1; fold s; field; split; lra).
  rewrite K.
  replace (Rltb 100 (Rabs (- (off * L0 / s)))) with false.
  2:{ symmetry. destruct (Rltb _ _) eqn:E; auto. apply Rltb_lt in E. rewrite Rabs_Ropp in E. unfold Rdiv in E.
      rewrite !Rabs_mult, Rabs_inv in E. rewrite (Rabs_right L0) in E by lra.
      assert (0 < Rabs s) by (apply Rabs_pos_lt; auto).
      apply (Rmult_lt_compat_r (Rabs s)) in E; auto. rewrite Rmult_assoc, Rinv_l, Rmult_1_r in E by lra. lra. }
  eexists. split; [reflexivity|].
  unfold line_dist, side_dist. cbn [px py]. set (v := bisector u w) in *.
  assert (S1 : sin_between v u * (- (off * L0 / s)) = off) by (rewrite B1; fold s; field; split; lra).
  assert (S2 : sin_between v w * (- (off * L0 / s)) = - off) by (rewrite B2; fold s; field; split; lra).
  unfold sin_between in S1, S2. set (k := - (off * L0 / s)) in *.
  assert (T1 : (px p + vx v * k - px p) * vy u - (py p + vy v * k - py p) * vx u = off) by lra.
  assert (T2 : (px p + vx v * k - px p) * vy w - (py p + vy v * k - py p) * vx w = - off) by lra.
  rewrite T1, T2. rewrite Rabs_Ropp. auto.
Qed.

Lemma bisector_unit u w : sin_between u w <> 0 ->
  vx (bisector u w) * vx (bisector u w) + vy (bisector u w) * vy (bisector u w) = 1.
Proof. intros N. apply dir_unit, sum_nonzero, N. Qed.

(* limited: exactly 100 away, between the two handles, at the same distance from both lines *)
Theorem C50_pt_limited : forall (dl dr : vec R) (p : pt R) (off : R),
  nonzero dl -> nonzero dr ->
  let u := dir dl in let w := dir dr in let s := sin_between u w in
  1 / 10000000000 <= Rabs s ->
  100 * Rabs s < Rabs off * len (V (vx u + vx w) (vy u + vy w)) ->
  exists q, offset_pt dl p dr off = Ok q /\ sqrt (dist2 p q) = 100 /\
    line_dist p u q = line_dist p w q /\ line_dist p u q < Rabs off /\
    0 <= (px q - px p) * vx u + (py q - py p) * vy u.
Proof.
  intros dl dr p off Hl Hr u w s Hs Hlim. rewrite offset_pt_R.
  pose proof (dir_unit dl Hl) as U. pose proof (dir_unit dr Hr) as W.
  apply v_eqb_nonzero in Hl. apply v_eqb_nonzero in Hr. rewrite Hl, Hr. cbn [orb]. cbv zeta. fold u w s. fold u in U. fold w in W.
  replace (Rltb (Rabs s) eps) with false
    by (symmetry; destruct (Rltb (Rabs s) eps) eqn:E; auto; apply Rltb_lt in E; unfold eps in E; change (IZR (10 ^ 10)) with (IZR 10000000000) in E; lra).
  assert (N : s <> 0) by (intros Q; rewrite Q, Rabs_R0 in Hs; lra).
  destruct (bisector_sin u w U W N) as [B1 B2]. pose proof (bisector_unit u w N) as BU.
  pose proof (len_pos _ (sum_nonzero _ _ N)) as L.
  replace (len (V (vx u + vx w) (vy u + vy w))) with (len (V (vx w + vx u) (vy w + vy u))) in Hlim by (unfold len; cbn [vx vy]; f_equal; ring).
  assert (Dot : 0 <= vx (bisector u w) * vx u + vy (bisector u w) * vy u).
  { unfold bisector, dir. cbn [vx vy]. set (L1 := len _) in *.
    replace ((vx w + vx u) / L1 * vx u + (vy w + vy u) / L1 * vy u) with ((vx w * vx u + vy w * vy u + (vx u * vx u + vy u * vy u)) / L1) by (field; lra).
    rewrite U. apply Rmult_le_pos; [|left; apply Rinv_0_lt_compat; auto].
    pose proof (Rle_0_sqr (vx w + vx u)) as Q1. pose proof (Rle_0_sqr (vy w + vy u)) as Q2. unfold Rsqr in Q1, Q2. lra. }
  set (L0 := len _) in *.
  assert (K : off / sin_between (bisector u w) u = - (off * L0 / s)) by (rewrite B1; fold s; field; split; lra).
  rewrite K. assert (Sp : 0 < Rabs s) by (apply Rabs_pos_lt; auto).
  replace (Rltb 100 (Rabs (- (off * L0 / s)))) with true.
  2:{ symmetry. apply Rltb_lt. rewrite Rabs_Ropp. unfold Rdiv.
      rewrite !Rabs_mult, Rabs_inv. rewrite (Rabs_right L0) by lra.
      apply Rmult_lt_reg_r with (Rabs s); auto. rewrite Rmult_assoc, Rinv_l, Rmult_1_r by lra. lra. }
  eexists. split; [reflexivity|].
  unfold line_dist, dist2. cbn [px py]. set (v := bisector u w) in *.
  split; [|split; [|split]].
  - replace 100 with (sqrt (100 * 100)) at 5 by (apply sqrt_square; lra). f_equal.
    replace (100 * 100) with (100 * 100 * (vx v * vx v + vy v * vy v)) by (rewrite BU; ring). ring.
  - replace ((px p + vx v * 100 - px p) * vy u - (py p + vy v * 100 - py p) * vx u) with (100 * sin_between v u) by (unfold sin_between; ring).
    replace ((px p + vx v * 100 - px p) * vy w - (py p + vy v * 100 - py p) * vx w) with (100 * sin_between v w) by (unfold sin_between; ring).
    rewrite B1, B2. replace (100 * (- sin_between u w / L0)) with (- (100 * (sin_between u w / L0))) by (field; lra). apply Rabs_Ropp.
  - replace ((px p + vx v * 100 - px p) * vy u - (py p + vy v * 100 - py p) * vx u) with (100 * sin_between v u) by (unfold sin_between; ring).
    rewrite B1. fold s. unfold Rdiv. rewrite !Rabs_mult, Rabs_Ropp, Rabs_inv, (Rabs_right 100), (Rabs_right L0) by lra.
    apply Rmult_lt_reg_r with L0; auto. rewrite <- Rmult_assoc. rewrite (Rmult_assoc _ (/ L0)), Rinv_l, Rmult_1_r by lra. exact Hlim.
  - replace ((px p + vx v * 100 - px p) * vx u + (py p + vy v * 100 - py p) * vy u) with (100 * (vx v * vx u + vy v * vy u)) by ring. lra.
Qed.

(* never further than the offset or the limit *)
Theorem C50_pt_bounded : forall (dl dr : vec R) (p q : pt R) (off : R),
  offset_pt dl p dr off = Ok q -> sqrt (dist2 p q) <= Rmax (Rabs off) 100.
Proof.
  intros dl dr p q off E.
  destruct (Bool.bool_dec (v_eqb dl (V 0 0) || v_eqb dr (V 0 0)) true) as [Z|Z].
  - rewrite offset_pt_R, Z in E. apply Ok_inj in E. subst q. unfold dist2.
    replace (_ + _) with 0 by ring. rewrite sqrt_0. apply Rle_trans with 100; [lra|apply Rmax_r].
  - apply Bool.not_true_is_false in Z. apply Bool.orb_false_iff in Z. destruct Z as [Z1 Z2].
    rewrite v_eqb_nonzero in Z1, Z2.
    destruct (Rlt_or_le (Rabs (sin_between (dir dl) (dir dr))) (1 / 10000000000)) as [H|H].
    + destruct (C50_pt_straight dl dr p off Z1 Z2 H) as (q' & E' & _ & _ & D). rewrite E in E'. apply Ok_inj in E'. subst q'.
      rewrite D. apply Rmax_l.
    + rewrite offset_pt_R in E. apply v_eqb_nonzero in Z1. apply v_eqb_nonzero in Z2. rewrite Z1, Z2 in E. cbn [orb] in E. cbv zeta in E.
      replace (Rltb _ eps) with false in E
        by (symmetry; destruct (Rltb _ eps) eqn:Q; auto; apply Rltb_lt in Q; unfold eps in Q; change (IZR (10 ^ 10)) with (IZR 10000000000) in Q; lra).
      assert (N : sin_between (dir dl) (dir dr) <> 0) by (intros Q; rewrite Q, Rabs_R0 in H; lra).
      pose proof (bisector_unit _ _ N) as BU. apply Ok_inj in E. subst q. unfold dist2. cbn [px py].
      set (v := bisector (dir dl) (dir dr)) in *. set (k := if Rltb _ _ then _ else _).
      replace (_ + _) with (k * k * (vx v * vx v + vy v * vy v)) by ring. rewrite BU, Rmult_1_r.
      change (k * k) with (Rsqr k). rewrite sqrt_Rsqr_abs. apply Rle_trans with 100; [|apply Rmax_r].
      unfold k. destruct (Rltb 100 _) eqn:Q; [rewrite Rabs_right; lra|].
      apply Rnot_lt_le. intros C. apply Rltb_lt in C. congruence.
Qed.

(* the limited point is always put between the handles, so for a sharp spike it can be on the side
   opposite to the offset: handles (1,0) and almost (1,0), offset 1, ends at signed distance -0.1 *)
Theorem C50_limit_side_refuted : exists (dl dr : vec R) (off : R) (q : pt R),
  nonzero dl /\ nonzero dr /\ 0 < off /\ offset_pt dl (P 0 0) dr off = Ok q /\ side_dist (P 0 0) (dir dl) q < 0.
Proof.
  set (w := V (999999 / 1000001) (2000 / 1000001)).
  assert (L1 : len (V 1 0) = 1) by (unfold len; cbn [vx vy]; replace (1 * 1 + 0 * 0) with 1 by ring; apply sqrt_1).
  assert (Lw : len w = 1) by (unfold len, w; cbn [vx vy]; replace (999999 / 1000001 * (999999 / 1000001) + 2000 / 1000001 * (2000 / 1000001)) with 1 by field; apply sqrt_1).
  assert (D1 : dir (V 1 0) = V 1 0) by (unfold dir; rewrite L1; cbn [vx vy]; f_equal; field).
  assert (Dw : dir w = w) by (unfold dir; rewrite Lw; unfold w; cbn [vx vy]; f_equal; field).
  assert (N1 : nonzero (V 1 0)) by (left; cbn [vx]; lra). assert (Nw : nonzero w) by (left; unfold w; cbn [vx]; lra).
  exists (V 1 0), w, 1. rewrite offset_pt_R.
  rewrite (proj2 (v_eqb_nonzero _) N1), (proj2 (v_eqb_nonzero _) Nw). cbn [orb]. cbv zeta. rewrite D1, Dw.
  assert (Es : sin_between (V 1 0) w = 2000 / 1000001) by (unfold sin_between, w; cbn [vx vy]; ring).
  assert (N : sin_between (V 1 0) w <> 0) by (rewrite Es; lra).
  rewrite Es. rewrite (Rabs_right (2000 / 1000001)) by lra.
  replace (Rltb _ eps) with false by (symmetry; destruct (Rltb _ eps) eqn:Q; auto; apply Rltb_lt in Q; unfold eps in Q; change (IZR (10 ^ 10)) with (IZR 10000000000) in Q; lra).
  destruct (bisector_sin (V 1 0) w) as [B1 _]; auto.
  { cbn [vx vy]. ring. } { unfold w. cbn [vx vy]. field. }
  assert (Hs : len (V (vx w + vx (V 1 0)) (vy w + vy (V 1 0))) < 2).
  { pose proof (len_sq (V (vx w + vx (V 1 0)) (vy w + vy (V 1 0)))) as Q. pose proof (len_pos _ (sum_nonzero _ _ N)) as Q'.
    set (L0 := len (V (vx w + vx (V 1 0)) (vy w + vy (V 1 0)))) in *. clearbody L0. unfold w in Q. cbn [vx vy] in Q.
    assert (L0 * L0 < 4) by lra. nra. }
  pose proof (len_pos _ (sum_nonzero _ _ N)) as Lp. set (L0 := len (V (vx w + vx (V 1 0)) (vy w + vy (V 1 0)))) in *. rewrite B1, Es.
  assert (HL : 1 < L0).
  { pose proof (len_sq (V (vx w + vx (V 1 0)) (vy w + vy (V 1 0)))) as Q. fold L0 in Q.
    unfold w in Q. cbn [vx vy] in Q. clearbody L0. assert (1 < L0 * L0) by lra. nra. }
  replace (Rltb 100 (Rabs (1 / (- (2000 / 1000001) / L0)))) with true.
  2:{ symmetry. apply Rltb_lt. replace (1 / (- (2000 / 1000001) / L0)) with (- (1000001 / 2000 * L0)) by (field; lra).
      rewrite Rabs_Ropp, Rabs_right by nra. lra. }
  eexists. split; [auto|]. split; [auto|]. split; [lra|]. split; [reflexivity|].
  unfold side_dist. cbn [px py vx vy].
  replace ((0 + vx (bisector (V 1 0) w) * 100 - 0) * 0 - (0 + vy (bisector (V 1 0) w) * 100 - 0) * 1) with (100 * sin_between (bisector (V 1 0) w) (V 1 0))
    by (unfold sin_between; cbn [vx vy]; ring).
  rewrite B1, Es. replace (100 * (- (2000 / 1000001) / L0)) with (- (200000 / 1000001 * / L0)) by (field; lra).
  pose proof (Rinv_0_lt_compat L0 Lp). nra.
Qed.

(* ---------------- the whole curve ---------------- *)
Lemma rotr1_length {A} (l : list A) : List.length (rotr1 l) = List.length l.
Proof.
  unfold rotr1. rewrite <- (rev_length l). destruct (rev l) as [|z r]; auto. cbn. rewrite rev_length. reflexivity.
Qed.
Lemma rotate3m1_mid {A} (l : list A) : map (fun x => snd (fst x)) (iter_rotate3m1 l) = l.
Proof.
  unfold iter_rotate3m1. 
  assert (G : forall (a b c : list A), List.length a = List.length b -> List.length c = List.length b ->
     map (fun x => snd (fst x)) (combine (combine a b) c) = b).
  { clear. intros a b. revert a. induction b as [|y b IH]; intros a c Ha Hc.
    - destruct a; [|discriminate]. reflexivity.
    - destruct a as [|x a]; [discriminate|]. destruct c as [|z c]; [discriminate|]. cbn. f_equal. apply IH; cbn in *; lia. }
  apply G; [apply rotr1_length|]. destruct l as [|a l]; auto. unfold rotl. cbn. rewrite app_length. cbn. lia.
Qed.

Lemma offset_cp_total off lmr : exists s, @offset_cp R _ _ off lmr = Ok s /\ ckind s = ckind (snd (fst lmr)) /\
  offset_pt (cdl (snd (fst lmr))) (cc (snd (fst lmr))) (cdr (snd (fst lmr))) off = Ok (cc s).
Proof.
  destruct lmr as [[cl cm] cr]. cbn [offset_cp fst snd]. cbv zeta.
  destruct (C50_pt_total (p_sub (cp_r cl) (cp_l cm)) (p_sub (cc cm) (cp_l cm)) (cp_l cm) off) as (q1 & ->).
  destruct (C50_pt_total (cdl cm) (cdr cm) (cc cm) off) as (q2 & E2).
  destruct (C50_pt_total (p_sub (cc cm) (cp_r cm)) (p_sub (cp_l cr) (cp_r cm)) (cp_r cm) off) as (q3 & ->).
  cbn [bind]. rewrite E2. cbn [bind]. eexists. split; [reflexivity|]. cbn. auto.
Qed.
Lemma mapM_offset off l : exists cps, mapM (@offset_cp R _ _ off) l = Ok cps /\
  Forall2 (fun lmr s => ckind s = ckind (snd (fst lmr)) /\
     offset_pt (cdl (snd (fst lmr))) (cc (snd (fst lmr))) (cdr (snd (fst lmr))) off = Ok (cc s)) l cps.
Proof.
  induction l as [|x l (cps & E & H)]; [exists []; cbn; auto|].
  destruct (offset_cp_total off x) as (s & Es & K). exists (s :: cps). cbn [mapM]. rewrite Es. cbn [bind]. rewrite E. cbn [bind].
  split; auto.
Qed.


(* the control points with the curve's own transform applied *)
Definition applied (x : transform R) (s : cpoint R) : cpoint R :=
  CP (t_transform x (cc s)) (p_sub (t_transform x (left_of s)) (t_transform x (cc s)))
     (p_sub (t_transform x (right_of s)) (t_transform x (cc s))) (ckind s).

Lemma compose_new (x : transform R) p : t_transform (t_compose (tmat x) (t_push t_new)) p = t_transform x p.
Proof.
  unfold t_transform, t_compose, t_push. cbn [tmat]. rewrite !apply_lin. unfold lin, mat_dot. cbn. f_equal; ring.
Qed.
Lemma mapM_applied x cps : mapM (cp_transform (t_transform (t_compose (tmat x) (t_push t_new))) true) cps = Ok (map (applied x) cps).
Proof.
  induction cps as [|s cps IH]; auto. cbn [mapM map]. rewrite IH. unfold cp_transform at 1. rewrite !compose_new. reflexivity.
Qed.
Lemma curve_offset_R (b : ebase R) cps off : wellformed b ->
  curve_offset b cps off =
  (let* c := offset_cps (map (applied (e_xform b)) cps) off in
   Ok (ELeaf (EB (e_name b ++ "_o") (e_pb b) (e_closed b) t_new) (SCurve c))).
Proof.
  intros W. unfold curve_offset, curve_transform. cbv zeta.
  rewrite (with_push_gen (fun m => m) (t_compose (tmat (e_xform b)))) by reflexivity. cbn [snd].
  rewrite mapM_applied. cbn [bind].
  assert (K : forall n, mk_base n (e_pb b) (e_closed b) None = Ok (EB n (e_pb b) (e_closed b) (@t_new R _))).
  { intros n. unfold mk_base. unfold wellformed in W. destruct (pb_filled (e_pb b)), (e_closed b); try reflexivity. discriminate W; auto. }
  rewrite K. cbn [bind]. destruct (offset_cps _ off); [|reflexivity]. cbn [bind]. rewrite K. reflexivity.
Qed.
Lemma offset_cps_R src (off : R) : exists order cps', (order = src \/ order = reverse_list src) /\
  offset_cps src off = Ok cps' /\ mapM (offset_cp off) (iter_rotate3m1 order) = Ok cps'.
Proof.
  unfold offset_cps. cbv zeta. destruct (nltb _ _).
  - destruct (mapM_offset off (iter_rotate3m1 (reverse_list src))) as (cps' & E & _). exists (reverse_list src), cps'. auto.
  - destruct (mapM_offset off (iter_rotate3m1 src)) as (cps' & E & _). exists src, cps'. auto.
Qed.

(* offset: same number of points, same kinds (backwards when the drawn control polygon runs
   clockwise), name + '_o', no transform of its own; every centre moves by offset_pt of its own
   handles and so at most by the offset or the limit *)
Theorem C50_offset_result : forall (b : ebase R) (cps : list (cpoint R)) (off : R), wellformed b ->
  exists order cps', (order = map (applied (e_xform b)) cps \/ order = reverse_list (map (applied (e_xform b)) cps)) /\
    curve_offset b cps off = Ok (ELeaf (EB (e_name b ++ "_o") (e_pb b) (e_closed b) t_new) (SCurve cps')) /\
    List.length cps' = List.length cps /\
    Forall2 (fun s s' => ckind s' = ckind s /\ offset_pt (cdl s) (cc s) (cdr s) off = Ok (cc s') /\
                         sqrt (dist2 (cc s) (cc s')) <= Rmax (Rabs off) 100) order cps'.
Proof.
  intros b cps off W. destruct (offset_cps_R (map (applied (e_xform b)) cps) off) as (order & cps' & Ho & E & Em).
  exists order, cps'. split; [auto|]. rewrite curve_offset_R, E by auto. split; [reflexivity|].
  destruct (mapM_offset off (iter_rotate3m1 order)) as (c & E' & F). rewrite Em in E'. apply Ok_inj in E'. subst c.
  assert (G : Forall2 (fun s s' => ckind s' = ckind s /\ offset_pt (cdl s) (cc s) (cdr s) off = Ok (cc s')) order cps').
  { rewrite <- (rotate3m1_mid order). clear E Em Ho. induction F; cbn; constructor; auto. }
  split.
  - assert (L : List.length order = List.length cps') by (clear -G; induction G; cbn; auto). rewrite <- L. destruct Ho as [->| ->]; unfold reverse_list; rewrite ?map_length, ?rev_length, ?map_length; reflexivity.
  - clear -G. induction G as [|s s' l l' [K H] G IH]; constructor; auto. split; auto. split; auto.
    eapply C50_pt_bounded; eauto.
Qed.

(* offset 0 gives the transformed curve back *)
Theorem C50_zero_offset : forall (b : ebase R) (cps : list (cpoint R)), wellformed b ->
  exists order, (order = map (applied (e_xform b)) cps \/ order = reverse_list (map (applied (e_xform b)) cps)) /\
    curve_offset b cps 0 = Ok (ELeaf (EB (e_name b ++ "_o") (e_pb b) (e_closed b) t_new) (SCurve order)).
Proof.
  intros b cps W. destruct (offset_cps_R (map (applied (e_xform b)) cps) 0) as (order & cps' & Ho & E & Em).
  exists order. split; [auto|]. rewrite curve_offset_R, E by auto. cbn [bind]. do 3 f_equal.
  assert (Z : forall (dl dr : vec R) p, offset_pt dl p dr 0 = Ok p).
  { intros dl dr [x y]. rewrite offset_pt_R. destruct (_ || _); auto. cbv zeta. destruct (Rltb _ eps).
    - f_equal. cbn [px py]. f_equal; ring.
    - unfold Rdiv. rewrite Rmult_0_l, Rabs_R0. replace (Rltb 100 0) with false.
      + f_equal. cbn [px py]. f_equal; ring.
      + symmetry. destruct (Rltb 100 0) eqn:Q; auto. apply Rltb_lt in Q. lra. }
  assert (ZC : forall lmr, @offset_cp R _ _ 0 lmr = Ok (snd (fst lmr))).
  { intros [[cl cm] cr]. cbn [offset_cp fst snd]. cbv zeta. rewrite !Z. cbn [bind]. f_equal.
    destruct cm as [[x y] [a c] [d e] k]. unfold p_sub, cp_l, cp_r, p_add. cbn. f_equal; f_equal; ring. }
  assert (ZM : forall l, mapM (@offset_cp R _ _ 0) l = Ok (map (fun x => snd (fst x)) l)).
  { induction l as [|x l IH]; auto. cbn [mapM map]. rewrite ZC, IH. reflexivity. }
  rewrite ZM, rotate3m1_mid in Em. apply Ok_inj in Em. auto.
Qed.

(* a polygon, given by control points without handles, is not moved at all *)
Theorem C50_polygon_refuted : forall (b : ebase R) (cps : list (cpoint R)) (off : R), wellformed b ->
  Forall (fun s => cdl s = V 0 0 /\ cdr s = V 0 0) cps ->
  exists order, (order = map (applied (e_xform b)) cps \/ order = reverse_list (map (applied (e_xform b)) cps)) /\
    curve_offset b cps off = Ok (ELeaf (EB (e_name b ++ "_o") (e_pb b) (e_closed b) t_new) (SCurve order)).
Proof.
  intros b cps off W H. destruct (offset_cps_R (map (applied (e_xform b)) cps) off) as (order & cps' & Ho & E & Em).
  exists order. split; [auto|]. rewrite curve_offset_R, E by auto. cbn [bind]. do 3 f_equal.
  assert (HO : Forall (fun s => cdl s = V 0 0 /\ cdr s = V 0 0) order).
  { assert (H1 : Forall (fun s => cdl s = V 0 0 /\ cdr s = V 0 0) (map (applied (e_xform b)) cps)).
    { rewrite Forall_map. eapply Forall_impl; [|exact H]. intros s [A B]. unfold applied, left_of, right_of. cbn [cdl cdr].
      rewrite A, B. cbn [vx vy]. rewrite !Rplus_0_r. unfold p_sub. destruct (cc s) as [x y]. cbn [px py].
      split; (apply vec_ext; cbn; ring). }
    destruct Ho as [->| ->]; auto. unfold reverse_list. rewrite Forall_map. apply Forall_rev.
    eapply Forall_impl; [|exact H1]. intros s [A B]. cbn. auto. }
  assert (NZ : ~ nonzero (V 0 0)) by (unfold nonzero; cbn [vx vy]; lra).
  assert (ZM : forall l, Forall (fun x : cpoint R * cpoint R * cpoint R => cdl (snd (fst x)) = V 0 0 /\ cdr (snd (fst x)) = V 0 0) l ->
     mapM (@offset_cp R _ _ off) l = Ok (map (fun x => snd (fst x)) l)).
  { induction l as [|[[cl cm] cr] l IH]; auto. intros F. inversion F as [|? ? [A B] F']. subst. cbn [fst snd] in A, B.
    cbn [mapM map]. rewrite IH by auto. cbn [offset_cp]. cbv zeta.
    assert (Sl : p_sub (cc cm) (cp_l cm) = V 0 0).
    { unfold p_sub, cp_l, p_add. rewrite A. apply vec_ext; cbn; ring. }
    assert (Sr : p_sub (cc cm) (cp_r cm) = V 0 0).
    { unfold p_sub, cp_r, p_add. rewrite B. apply vec_ext; cbn; ring. }
    rewrite Sl, Sr, A. rewrite !C50_pt_zero_handle by auto. cbn [bind fst snd]. do 2 f_equal.
    destruct cm as [[x y] dl dr k]. cbn [cdl cdr cc ckind] in *. subst dl dr. unfold p_sub, cp_l, cp_r, p_add. cbn. f_equal; f_equal; ring. }
  rewrite ZM, rotate3m1_mid in Em; [apply Ok_inj in Em; auto|].
  rewrite <- Forall_map with (f := fun x : cpoint R * cpoint R * cpoint R => snd (fst x)) (P := fun s => cdl s = V 0 0 /\ cdr s = V 0 0).
  rewrite rotate3m1_mid. exact HO.
Qed.

(* a right angle and its limit; a straight vertex *)
Example C50_nontrivial :
  nonzero (V 3 0) /\ nonzero (V 0 2) /\ sin_between (dir (V 3 0)) (dir (V 0 2)) = 1 /\
  Rabs 5 * len (V (vx (dir (V 3 0)) + vx (dir (V 0 2))) (vy (dir (V 3 0)) + vy (dir (V 0 2)))) <= 100 * Rabs 1 /\
  100 * Rabs 1 < Rabs 200 * len (V (vx (dir (V 3 0)) + vx (dir (V 0 2))) (vy (dir (V 3 0)) + vy (dir (V 0 2)))) /\
  sin_between (dir (V 3 0)) (dir (V (-2) 0)) = 0.
Proof.
  assert (L3 : len (V 3 0) = 3) by (unfold len; cbn [vx vy]; replace (3 * 3 + 0 * 0) with (3 * 3) by ring; apply sqrt_square; lra).
  assert (L2 : len (V 0 2) = 2) by (unfold len; cbn [vx vy]; replace (0 * 0 + 2 * 2) with (2 * 2) by ring; apply sqrt_square; lra).
  assert (D3 : dir (V 3 0) = V 1 0) by (unfold dir; rewrite L3; cbn [vx vy]; f_equal; field).
  assert (D2 : dir (V 0 2) = V 0 1) by (unfold dir; rewrite L2; cbn [vx vy]; f_equal; field).
  rewrite D3, D2. unfold nonzero, sin_between. cbn [vx vy].
  assert (Ls : 1 < len (V (1 + 0) (0 + 1)) < 2).
  { pose proof (len_sq (V (1 + 0) (0 + 1))) as Q. assert (P0 : 0 < len (V (1 + 0) (0 + 1))) by (apply len_pos; left; cbn [vx]; lra).
    cbn [vx vy] in Q. set (L0 := len _) in *. clearbody L0. split; nra. }
  rewrite !Rabs_right by lra. unfold dir. cbn [vx vy].
  split; [lra|]. split; [lra|]. split; [ring|]. split; [lra|]. split; [lra|].
  unfold Rdiv. ring.
Qed.

(* ---------------- orientation and handles ---------------- *)
Lemma rotl_nth {A} (l : list A) k i : (k <= List.length l)%nat -> (i < List.length l)%nat -> nth_error (rotl k l) i = nth_error l ((i + k) mod List.length l).
Proof.
  intros K I. unfold rotl. set (n := List.length l) in *. assert (Ls : List.length (skipn k l) = (n - k)%nat) by (rewrite skipn_length; reflexivity).
  assert (Sk : forall (m : list A) k j, nth_error (skipn k m) j = nth_error m (k + j)).
  { clear. induction m as [|a m IH]; intros [|k] j; cbn; auto. destruct j; reflexivity. }
  destruct (Nat.lt_ge_cases i (n - k)) as [H|H].
  - rewrite nth_error_app1 by lia. rewrite Sk, Nat.mod_small by lia. f_equal. lia.
  - rewrite nth_error_app2 by lia. rewrite Ls. replace ((i + k) mod n)%nat with (i - (n - k))%nat.
    + assert (Fi : forall (m : list A) k j, (j < k)%nat -> nth_error (firstn k m) j = nth_error m j).
      { clear. induction m as [|a m IH]; intros [|k] [|j] H; cbn; auto; try lia. apply IH. lia. }
      apply Fi. lia.
    + replace (i + k)%nat with ((i - (n - k)) + 1 * n)%nat by lia. rewrite Nat.mod_add by lia. symmetry. apply Nat.mod_small. lia.
Qed.
Lemma rotr1_rotl {A} (l : list A) : rotr1 l = rotl (List.length l - 1) l.
Proof.
  destruct l as [|a l] using rev_ind; [reflexivity|]. clear IHl. unfold rotr1, rotl. rewrite rev_app_distr. cbn [rev app]. rewrite rev_involutive, app_length. cbn [List.length].
  replace (List.length l + 1 - 1)%nat with (List.length l) by lia. rewrite skipn_app, skipn_all, Nat.sub_diag, firstn_app, firstn_all, Nat.sub_diag. cbn. now rewrite app_nil_r.
Qed.
Lemma combine_nth_error {A B} (l : list A) : forall (l' : list B) i a b, nth_error l i = Some a -> nth_error l' i = Some b -> nth_error (combine l l') i = Some (a, b).
Proof. induction l as [|x l IH]; intros [|y l'] [|i] a b; cbn; try discriminate; [congruence|]. apply IH. Qed.

(* the corners of the polygon through all handles and points *)
Definition outline (cps : list (cpoint R)) : list (pt R) := flat_map (fun s => [left_of s; cc s; right_of s]) cps.
Lemma outline_reverse cps : outline (reverse_list cps) = rev (outline cps).
Proof.
  unfold outline, reverse_list. induction cps as [|s cps IH]; [reflexivity|]. cbn [rev map flat_map]. rewrite map_app, flat_map_app, IH, rev_app_distr. cbn. reflexivity.
Qed.

(* offset walks the curve so that the polygon of its points and handles runs counter-clockwise:
   backwards just when its signed area is negative. Every point is offset with its own handles,
   and the end of every handle with the two directions in which that polygon leaves it *)
Theorem C50_offset_handles : forall (b : ebase R) (cps : list (cpoint R)) (off : R), wellformed b ->
  let src := map (applied (e_xform b)) cps in
  exists order cps', (0 <= polygon_area (outline src) /\ order = src \/ polygon_area (outline src) < 0 /\ order = reverse_list src) /\
    0 <= polygon_area (outline order) /\
    curve_offset b cps off = Ok (ELeaf (EB (e_name b ++ "_o") (e_pb b) (e_closed b) t_new) (SCurve cps')) /\
    List.length cps' = List.length cps /\
    let n := List.length cps in
    forall i before s after, (i < n)%nat -> nth_error order ((i + (n - 1)) mod n) = Some before -> nth_error order i = Some s -> nth_error order ((i + 1) mod n) = Some after ->
    exists s', nth_error cps' i = Some s' /\ ckind s' = ckind s /\
      offset_pt (p_sub (right_of before) (left_of s)) (left_of s) (p_sub (cc s) (left_of s)) off = Ok (left_of s') /\
      offset_pt (p_sub (left_of s) (cc s)) (cc s) (p_sub (right_of s) (cc s)) off = Ok (cc s') /\
      offset_pt (p_sub (cc s) (right_of s)) (right_of s) (p_sub (left_of after) (right_of s)) off = Ok (right_of s').
Proof.
  intros b cps off W src.
  assert (O : exists order, (0 <= polygon_area (outline src) /\ order = src \/ polygon_area (outline src) < 0 /\ order = reverse_list src) /\ offset_cps src off = mapM (offset_cp off) (iter_rotate3m1 order)).
  { unfold offset_cps. cbv zeta. change (flat_map _ src) with (outline src). destruct (nltb (polygon_area (outline src)) _) eqn:E; [change (Rltb (polygon_area (outline src)) 0 = true) in E|change (Rltb (polygon_area (outline src)) 0 = false) in E].
    - apply Rltb_lt in E. exists (reverse_list src). auto.
    - exists src. split; [left; split; auto|reflexivity]. destruct (Rlt_or_le (polygon_area (outline src)) 0) as [H|H]; auto. apply Rltb_lt in H. congruence. }
  destruct O as (order & O & E). destruct (mapM_offset off (iter_rotate3m1 order)) as (cps' & E' & F). exists order, cps'.
  assert (Lo : List.length order = List.length cps).
  { destruct O as [[_ ->]|[_ ->]]; unfold src, reverse_list; rewrite ?map_length, ?rev_length, ?map_length; reflexivity. }
  assert (Lc : List.length cps' = List.length cps).
  { rewrite <- Lo, <- (rotate3m1_mid order), map_length. clear - F. induction F; cbn; auto. }
  split; [exact O|]. split.
  { destruct O as [[H ->]|[H ->]]; auto. rewrite outline_reverse, area_rev. lra. }
  split; [rewrite curve_offset_R by auto; fold src; rewrite E, E'; reflexivity|]. split; [exact Lc|].
  intros n i before s after Hi Hb Hs Ha.
  assert (T : nth_error (iter_rotate3m1 order) i = Some (before, s, after)).
  { unfold iter_rotate3m1. apply combine_nth_error; [apply combine_nth_error; auto|].
    - rewrite rotr1_rotl, rotl_nth by lia. rewrite Lo. exact Hb.
    - rewrite rotl_nth by lia. rewrite Lo. exact Ha. }
  assert (G : forall l c j x, mapM (@offset_cp R _ _ off) l = Ok c -> nth_error l j = Some x -> exists y, nth_error c j = Some y /\ offset_cp off x = Ok y).
  { clear. induction l as [|a l IH]; intros c [|j] x; cbn [mapM nth_error]; try discriminate; destruct (offset_cp off a) as [y|] eqn:Ea; try discriminate; cbn [bind]; destruct (mapM (offset_cp off) l) as [ys|] eqn:El; try discriminate; cbn [bind]; intros E.
    - intros X. injection X as <-. injection E as <-. exists y. auto.
    - injection E as <-. intros X. cbn. eapply IH; eauto. }
  destruct (G _ _ _ _ E' T) as (s' & Es & Eo). exists s'. split; [exact Es|]. cbn [offset_cp] in Eo. cbv zeta in Eo.
  change (cp_r before) with (right_of before) in Eo. change (cp_l s) with (left_of s) in Eo. change (cp_r s) with (right_of s) in Eo. change (cp_l after) with (left_of after) in Eo.
  assert (Dl : p_sub (left_of s) (cc s) = cdl s) by (unfold p_sub, left_of; apply vec_ext; cbn; ring).
  assert (Dr : p_sub (right_of s) (cc s) = cdr s) by (unfold p_sub, right_of; apply vec_ext; cbn; ring). rewrite Dl, Dr.
  destruct (offset_pt (p_sub (right_of before) (left_of s)) (left_of s) (p_sub (cc s) (left_of s)) off) as [bo|]; [|discriminate]. cbn [bind] in Eo.
  destruct (offset_pt (cdl s) (cc s) (cdr s) off) as [co|]; [|discriminate]. cbn [bind] in Eo.
  destruct (offset_pt (p_sub (cc s) (right_of s)) (right_of s) (p_sub (left_of after) (right_of s)) off) as [d0|]; [|discriminate]. cbn [bind] in Eo.
  injection Eo as <-. cbn [ckind cc]. split; [reflexivity|]. destruct bo as [bx by_], co as [cx cy], d0 as [dx dy]. unfold left_of, right_of. cbn [cc cdl cdr px py vx vy p_sub].
  assert (Q : forall x y x' y' : R, x = x' -> y = y' -> Ok (P x y) = Ok (P x' y')) by (intros; subst; reflexivity).
  split; [apply Q; cbn; ring|]. split; [reflexivity|]. apply Q; cbn; ring.
Qed.
(* a curve that runs clockwise *)
Example C50_handles_ex : let b := EB "c" (PenBrush None None) true t_new : ebase R in
  wellformed b /\ polygon_area (outline [CP (P 0 0) (V 1 0) (V 0 1) "smooth"; CP (P 0 3) (V 0 (-1)) (V 1 0) "smooth"; CP (P 3 0) (V 0 1) (V (-1) 0) "smooth"]) < 0.
Proof.
  split; [unfold wellformed; cbn; congruence|]. unfold polygon_area, outline, left_of, right_of, iter_rotate2, rotl. cbn [flat_map app skipn firstn combine map cc cdl cdr px py vx vy]. rewrite pysum_R. cbn. lra.
Qed.
