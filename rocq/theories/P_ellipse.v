(* C41: the control points of ellipses. *)
Require Import Verif.Base Verif.NumR Verif.L_real Verif.M_vector Verif.M_bbox Verif.M_transform Verif.M_bezier Verif.M_colors Verif.M_elems.
Require Import Verif.L_ord Verif.S_bbox Verif.L_bbox Verif.S_transform Verif.L_transform Verif.L_vector Verif.S_bezier Verif.L_bezier Verif.P_bezier Verif.S_elems Verif.L_elems Verif.P_elems.
From Coq Require Import String Reals List Permutation Lia Lra.
Import ListNotations.
Local Open Scope string_scope.
Local Open Scope list_scope.
Local Open Scope R_scope.

Lemma tan_PI8 : tan (PI / 8) = sqrt 2 - 1.
Proof.
  set (s := sin (PI / 8)). set (c := cos (PI / 8)).
  assert (E4 : PI / 4 = 2 * (PI / 8)) by lra.
  assert (H1 : 2 * s * c = 1 / sqrt 2) by (unfold s, c; rewrite <- sin_2a, <- E4; apply sin_PI4).
  assert (H2 : c * c - s * s = 1 / sqrt 2) by (unfold s, c; rewrite <- cos_2a, <- E4; apply cos_PI4).
  assert (H3 : s * s + c * c = 1) by (unfold s, c; apply sin2_cos2).
  assert (Hc : 0 < c).
  { unfold c. apply cos_gt_0; pose proof PI_RGT_0; lra. }
  assert (Q : sqrt 2 * sqrt 2 = 2) by (apply sqrt_sqrt; lra).
  assert (Q0 : 0 < sqrt 2) by (apply sqrt_lt_R0; lra).
  assert (I : 1 / sqrt 2 = sqrt 2 / 2) by (field_simplify_eq; nra).
  unfold tan. fold s c. rewrite I in *.
  apply Rmult_eq_reg_r with c; [|lra]. unfold Rdiv. rewrite Rmult_assoc, Rinv_l, Rmult_1_r by lra.
  apply Rmult_eq_reg_r with c; [|lra]. nra.
Qed.

Lemma bez_90_R : @bez_90 R _ _ = 4 / 3 * (sqrt 2 - 1).
Proof.
  rewrite <- tan_PI8. unfold bez_90, radians. cbn. f_equal. f_equal. field.
Qed.

(* the number used for the handles: 4/3 (sqrt 2 - 1) *)
Lemma bez_90_facts : let k := @bez_90 R _ _ in 9 * k * k + 24 * k = 16 /\ 55 / 100 < k < 56 / 100.
Proof.
  intros k. unfold k. rewrite bez_90_R.
  assert (Q : sqrt 2 * sqrt 2 = 2) by (apply sqrt_sqrt; lra).
  assert (Q0 : 0 < sqrt 2) by (apply sqrt_lt_R0; lra).
  split; [nra|]. split; nra.
Qed.

(* ------------------------------------------------------------------ *)
(** ** C41 *)

(* four smooth control points at the axis ends; each handle is parallel to a side of the box, and
   the two handles of a point are opposite; k is 4/3 (sqrt 2 - 1) *)
Theorem C41_control_points : forall (c : pt R) (rx ry : R),
  let k := 4 / 3 * (sqrt 2 - 1) in
  make_ellipse_cps c rx (Some ry) =
  [ CP (P (px c + rx) (py c)) (V 0 (ry * k)) (V 0 (- (ry * k))) "smooth";
    CP (P (px c) (py c - ry)) (V (rx * k) 0) (V (- (rx * k)) 0) "smooth";
    CP (P (px c - rx) (py c)) (V 0 (- (ry * k))) (V 0 (ry * k)) "smooth";
    CP (P (px c) (py c + ry)) (V (- (rx * k)) 0) (V (rx * k) 0) "smooth" ] /\
  make_ellipse_cps c rx None = make_ellipse_cps c rx (Some rx).
Proof.
  intros c rx ry k. split; [|reflexivity]. unfold make_ellipse_cps. rewrite bez_90_R. fold k.
  destruct c as [x y]. unfold p_add, p_subv, v_mul, v_neg. cbn.
  repeat (f_equal; try ring).
Qed.

(* how far a point is from the ellipse with these half-axes: 1 on it, more outside *)
Definition ellipse_level (c : pt R) (rx ry : R) (p : pt R) : R :=
  ((px p - px c) / rx) ^ 2 + ((py p - py c) / ry) ^ 2.

(* all four quarter curves, exactly *)
Theorem C41_curve_level : forall (c : pt R) (rx ry t : R) (s e : cpoint R),
  rx <> 0 -> ry <> 0 -> In (s, e) (path_segments (make_ellipse_cps c rx (Some ry)) true) ->
  ellipse_level c rx ry (segment s e t) =
  1 + 2 * (3 - 2 * sqrt 2) ^ 2 * (t * (1 - t) * (1 - 2 * t)) ^ 2.
Proof.
  intros c rx ry t s e Hx Hy H.
  destruct (C41_control_points c rx ry) as [E _]. cbv zeta in E. rewrite E in H. clear E.
  set (k := 4 / 3 * (sqrt 2 - 1)) in H.
  assert (Q : sqrt 2 * sqrt 2 = 2) by (apply sqrt_sqrt; lra).
  assert (K : 9 * k * k + 24 * k - 16 = 0) by (unfold k; nra).
  assert (S2 : 3 - 2 * sqrt 2 = (2 - 3 * k) / 2) by (unfold k; field).
  rewrite S2. clearbody k. clear Q S2.
  assert (G : forall a b, a = cubic1 1 1 k 0 t -> b = cubic1 0 k 1 1 t ->
     a ^ 2 + b ^ 2 = 1 + 2 * ((2 - 3 * k) / 2) ^ 2 * (t * (1 - t) * (1 - 2 * t)) ^ 2).
  { intros a b -> ->.
    transitivity (1 + 2 * ((2 - 3 * k) / 2) ^ 2 * (t * (1 - t) * (1 - 2 * t)) ^ 2
                  + (9 * k * k + 24 * k - 16) * ((t * (1 - t)) ^ 2 / 2)).
    - unfold cubic1. field.
    - rewrite K. ring. }
  assert (G' : forall a b, a = cubic1 0 k 1 1 t -> b = cubic1 1 1 k 0 t ->
     a ^ 2 + b ^ 2 = 1 + 2 * ((2 - 3 * k) / 2) ^ 2 * (t * (1 - t) * (1 - 2 * t)) ^ 2).
  { intros a b Ha Hb. rewrite Rplus_comm. apply G; auto. }
  assert (Neg : forall z, z ^ 2 = (- z) ^ 2) by (intros; ring).
  unfold ellipse_level. cbn in H.
  destruct H as [H|[H|[H|[H|[]]]]]; injection H as <- <-.
  - (* right to bottom *)
    rewrite (Neg ((py _ - _) / ry)). apply G; unfold segment, cubic, cubic1, right_of, left_of; cbn [px py cc cdl cdr vx vy]; field; auto.
  - rewrite (Neg ((py _ - _) / ry)), (Neg ((px _ - _) / rx)). apply G'; unfold segment, cubic, cubic1, right_of, left_of; cbn [px py cc cdl cdr vx vy]; field; auto.
  - rewrite (Neg ((px _ - _) / rx)). apply G; unfold segment, cubic, cubic1, right_of, left_of; cbn [px py cc cdl cdr vx vy]; field; auto.
  - apply G'; unfold segment, cubic, cubic1, right_of, left_of; cbn [px py cc cdl cdr vx vy]; field; auto.
Qed.

(* so the drawn curve is never inside the true ellipse, at most 0.03% outside (the level is the
   square of the relative radius), and on it exactly at the ends and the middle of each quarter *)
Theorem C41_close_to_ellipse : forall (c : pt R) (rx ry t : R) (s e : cpoint R),
  rx <> 0 -> ry <> 0 -> 0 <= t <= 1 ->
  In (s, e) (path_segments (make_ellipse_cps c rx (Some ry)) true) ->
  1 <= ellipse_level c rx ry (segment s e t) <= (1 + 3 / 10000) ^ 2 /\
  (ellipse_level c rx ry (segment s e t) = 1 <-> t = 0 \/ t = 1 / 2 \/ t = 1).
Proof.
  intros c rx ry t s e Hx Hy Ht H. rewrite (C41_curve_level c rx ry t s e Hx Hy H).
  assert (Q : sqrt 2 * sqrt 2 = 2) by (apply sqrt_sqrt; lra).
  assert (Q0 : 0 < sqrt 2) by (apply sqrt_lt_R0; lra).
  set (w := 3 - 2 * sqrt 2). assert (W : 0 < w < 172 / 1000) by (unfold w; split; nra).
  set (g := t * (1 - t) * (1 - 2 * t)).
  assert (G : g ^ 2 <= 1 / 108).
  { unfold g. set (u := t * (1 - t)).
    replace (t * (1 - t) * (1 - 2 * t)) with (u * (1 - 2 * t)) by (unfold u; ring).
    assert (U : 0 <= u) by (unfold u; nra).
    replace ((u * (1 - 2 * t)) ^ 2) with (u ^ 2 * (1 - 4 * u)) by (unfold u; ring).
    (* 1/108 - u^2 + 4 u^3 = 4 (u - 1/6)^2 (u + 1/12) *)
    assert (0 <= 4 * (u - 1 / 6) ^ 2 * (u + 1 / 12)).
    { apply Rmult_le_pos; [|lra]. apply Rmult_le_pos; [lra|]. apply pow2_ge_0. }
    replace (4 * (u - 1 / 6) ^ 2 * (u + 1 / 12)) with (1 / 108 - u ^ 2 * (1 - 4 * u)) in H0 by field. lra. }
  assert (G0 : 0 <= g ^ 2) by apply pow2_ge_0.
  assert (W2 : 0 < w ^ 2) by nra. assert (W3 : w ^ 2 < 3 / 100) by nra.
  split; [split; nra|]. split.
  - intros E. assert (Z : g ^ 2 = 0) by nra. assert (Z' : g = 0) by nra.
    unfold g in Z'. apply Rmult_integral in Z'. destruct Z' as [Z'|Z'].
    + apply Rmult_integral in Z'. destruct Z'; [left|right; right]; lra.
    + right; left. lra.
  - intros [-> | [-> | ->]]; unfold g; field.
Qed.

(* the curve stays in the box of the half-axes *)
Theorem C41_in_box : forall (c p : pt R) (rx ry : R),
  on_path (make_ellipse_cps c rx (Some ry)) true p ->
  in_rect (P (px c - rx) (py c - ry)) (P (px c + rx) (py c + ry)) p.
Proof.
  intros c p rx ry (s & e & t & H & Ht & ->).
  assert (A : forall s, In s (make_ellipse_cps c rx (Some ry)) ->
    let bx := bbox_of_pts (P (px c - rx) (py c - ry)) (P (px c + rx) (py c + ry)) in
    holds bx (cc s) /\ holds bx (left_of s) /\ holds bx (right_of s)).
  { clear. destruct (C41_control_points c rx ry) as [E _]. cbv zeta in E. rewrite E. clear E.
    set (k := 4 / 3 * (sqrt 2 - 1)).
    assert (K : 0 <= k <= 1).
    { pose proof bez_90_facts as [_ B]. rewrite bez_90_R in B. fold k in B. lra. }
    clearbody k.
    assert (X : forall a r u, -1 <= u <= 1 -> within (a - r) (a + r) (a + r * u)).
    { intros a r u Hu. unfold within, Rmin, Rmax. destruct (Rle_dec (a - r) (a + r)); nra. }
    intros s H bx. unfold bx, holds.
    assert (Y : forall u v, -1 <= u <= 1 -> -1 <= v <= 1 ->
      in_box (bbox_of_pts (P (px c - rx) (py c - ry)) (P (px c + rx) (py c + ry))) (px c + rx * u) (py c + ry * v)).
    { intros u v Hu Hv. apply of_pts_in. split; apply X; auto. }
    assert (Z : forall u v x y, -1 <= u <= 1 -> -1 <= v <= 1 -> x = px c + rx * u -> y = py c + ry * v ->
      in_box (bbox_of_pts (P (px c - rx) (py c - ry)) (P (px c + rx) (py c + ry))) x y).
    { intros u v x y Hu Hv -> ->. auto. }
    destruct H as [<-|[<-|[<-|[<-|[]]]]]; cbn [cc left_of right_of px py cdl cdr vx vy]; (split; [|split]);
    [apply (Z 1 0)|apply (Z 1 k)|apply (Z 1 (-k))|
     apply (Z 0 (-1))|apply (Z k (-1))|apply (Z (-k) (-1))|
     apply (Z (-1) 0)|apply (Z (-1) (-k))|apply (Z (-1) k)|
     apply (Z 0 1)|apply (Z (-k) 1)|apply (Z k 1)]; try lra; ring. }
  apply in_path in H. destruct H as [Hs He]. destruct (A s Hs) as (A1 & _ & A3). destruct (A e He) as (B1 & B2 & _).
  assert (G : holds (bbox_of_pts (P (px c - rx) (py c - ry)) (P (px c + rx) (py c + ry))) (segment s e t)).
  { unfold segment. apply box_convex; auto. apply good_of_pts. }
  unfold holds in G. apply of_pts_in in G. exact G.
Qed.

Example C41_nontrivial : exists s e,
  In (s, e) (path_segments (make_ellipse_cps (P 1 2) 3 (Some 5)) true) /\ segment s e 0 = P 4 2.
Proof.
  destruct (C41_control_points (P 1 2) 3 5) as [E _]. cbv zeta in E. rewrite E.
  do 2 eexists. split; [left; reflexivity|]. unfold segment, cubic, cubic1, right_of, left_of. cbn. f_equal; ring.
Qed.
