Require Import Verif.L_real Verif.M_vector Verif.M_bbox Verif.S_bbox Verif.L_bbox Verif.L_bboxR.
Require Import Verif.M_transform Verif.S_transform Verif.L_transform.
From Coq Require Import List Lra Psatz.

(* ---------------- elementary calls as point maps ---------------- *)
Lemma translate_pt dx dy s p : affine_mat (tmat s) ->
  t_transform (t_translate dx dy s) p = shift dx dy (t_transform s p).
Proof.
  intros A. unfold t_transform, t_translate, t_pre. cbn. rewrite apply_dot by auto.
  rewrite !apply_lin. apply pt_ext; mat_unfold; ring.
Qed.
Lemma scale_pt sx sy s p : affine_mat (tmat s) ->
  t_transform (t_scale sx sy s) p = stretch sx sy (t_transform s p).
Proof.
  intros A. unfold t_transform, t_scale, t_pre. cbn. rewrite apply_dot by auto.
  rewrite !apply_lin. apply pt_ext; mat_unfold; ring.
Qed.
Lemma rotate_pt d s p : affine_mat (tmat s) ->
  t_transform (t_rotate d s) p = turn_cw d (t_transform s p).
Proof.
  intros A. unfold t_transform, t_rotate, t_pre. cbn. rewrite apply_dot by auto.
  rewrite !apply_lin. unfold turn_cw, turn_ccw. rewrite Ropp_mult_distr_l_reverse, cos_neg, sin_neg.
  apply pt_ext; mat_unfold; ring.
Qed.
Lemma rotate_ccw_pt d s p : affine_mat (tmat s) ->
  t_transform (t_rotate_ccw d s) p = turn_ccw d (t_transform s p).
Proof.
  intros A. unfold t_transform, t_rotate_ccw, t_pre. cbn. rewrite apply_dot by auto.
  rewrite !apply_lin. apply pt_ext; mat_unfold; ring.
Qed.
Lemma rotate_about_mat_pt d c q : mat_apply (rotate_about_mat d c) q = about c (turn_cw d) q.
Proof.
  unfold rotate_about_mat. change (mat_apply (tmat ?s) q) with (t_transform s q).
  rewrite translate_pt, rotate_pt, translate_pt by (cbn; auto with aff).
  unfold about. f_equal. f_equal. mat_unfold. f_equal; ring.
Qed.
Lemma rotate_about_pt d c s p : affine_mat (tmat s) ->
  t_transform (t_rotate_about d c s) p = about c (turn_cw d) (t_transform s p).
Proof.
  intros A. unfold t_transform, t_rotate_about. cbn [tmat]. rewrite apply_dot by auto.
  apply rotate_about_mat_pt.
Qed.

(* ---------------- rotations ---------------- *)
Lemma cs1 r : cos r * cos r = 1 - sin r * sin r.
Proof. pose proof (sin2_cos2 r). unfold Rsqr in *. lra. Qed.

Lemma turn_dist d p q : dist2 (turn_ccw d p) (turn_ccw d q) = dist2 p q.
Proof.
  unfold turn_ccw, dist2. cbn [px py]. set (r := d * (PI / 180)). pose proof (cs1 r) as E.
  transitivity ((cos r * cos r + sin r * sin r) * ((px p - px q) * (px p - px q) + (py p - py q) * (py p - py q)));
    [ring|rewrite E; ring].
Qed.
Lemma turn_turn a b p : turn_ccw a (turn_ccw b p) = turn_ccw (a + b) p.
Proof.
  unfold turn_ccw. cbn [px py]. rewrite Rmult_plus_distr_r, cos_plus, sin_plus.
  apply pt_ext; cbn [px py]; ring.
Qed.
Lemma turn_0 p : turn_ccw 0 p = p.
Proof. unfold turn_ccw. rewrite Rmult_0_l, cos_0, sin_0. apply pt_ext; cbn [px py]; ring. Qed.
Lemma turn_inv d p : turn_ccw (- d) (turn_ccw d p) = p.
Proof. rewrite turn_turn. replace (- d + d) with 0 by ring. apply turn_0. Qed.
Lemma turn_inv' d p : turn_ccw d (turn_ccw (- d) p) = p.
Proof. rewrite turn_turn. replace (d + - d) with 0 by ring. apply turn_0. Qed.
Lemma shift_dist a b p q : dist2 (shift a b p) (shift a b q) = dist2 p q.
Proof. unfold shift, dist2. cbn [px py]. ring. Qed.
Lemma about_dist c d p q : dist2 (about c (turn_cw d) p) (about c (turn_cw d) q) = dist2 p q.
Proof. unfold about, turn_cw. rewrite shift_dist, turn_dist, shift_dist. reflexivity. Qed.
Lemma about_fix c d : about c (turn_cw d) c = c.
Proof. unfold about, turn_cw, turn_ccw, shift. apply pt_ext; cbn [px py]; ring. Qed.

(* cw and ccw agree only for multiples of 180 degrees *)
Lemma turn_dir d p : (px p <> 0 \/ py p <> 0) ->
  (turn_cw d p = turn_ccw d p <-> exists k : Z, d = 180 * IZR k).
Proof.
  intros NZ. unfold turn_cw, turn_ccw. rewrite Ropp_mult_distr_l_reverse, cos_neg, sin_neg.
  set (r := d * (PI / 180)). pose proof PI_RGT_0 as HPI. split.
  - intros E. inversion E as [[E1 E2]].
    assert (S : sin r = 0) by (destruct NZ; nra).
    destruct (sin_eq_0_0 r S) as [k Hk]. exists k. unfold r in Hk.
    apply (Rmult_eq_reg_r (PI / 180)); [|lra]. rewrite Hk. field.
  - intros [k ->]. assert (S : sin r = 0).
    { apply sin_eq_0_1. exists k. unfold r. field. }
    rewrite S. apply pt_ext; cbn [px py]; ring.
Qed.

(* ---------------- scale_bbox ---------------- *)
(* the map of the plane that takes one box to another *)
Lemma scale_bbox_R a b c d e f g h s : affine_mat (tmat s) -> a < c -> b < d ->
  exists s', t_scale_bbox (BB a b c d) (BB e f g h) false s = (s', Ok tt) /\ affine_mat (tmat s') /\
    tstack s' = tstack s /\
    forall p, t_transform s' p =
      P (e + (px (t_transform s p) - a) * ((g - e) / (c - a)))
        (f + (py (t_transform s p) - b) * ((h - f) / (d - b))).
Proof.
  intros A H1 H2. unfold t_scale_bbox. cbn [bbox_width bbox_height].
  rewrite !pydiv_R by (cbn; lra).
  eexists. split; [reflexivity|]. split; [cbn; auto with aff|]. split; [reflexivity|].
  intros p. rewrite translate_pt, scale_pt, translate_pt by (cbn; auto with aff).
  apply pt_ext; unfold shift, stretch; cbn -[IZR]; field; lra.
Qed.

Lemma scale_bbox_keep_R a b c d e f g h s : affine_mat (tmat s) -> a < c -> b < d ->
  let k := Rmin ((g - e) / (c - a)) ((h - f) / (d - b)) in
  exists s', t_scale_bbox (BB a b c d) (BB e f g h) true s = (s', Ok tt) /\ affine_mat (tmat s') /\
    tstack s' = tstack s /\
    forall p, t_transform s' p =
      P ((e + g) / 2 + (px (t_transform s p) - (a + c) / 2) * k)
        ((f + h) / 2 + (py (t_transform s p) - (b + d) / 2) * k).
Proof.
  intros A H1 H2 k. unfold t_scale_bbox. cbn [bbox_width bbox_height].
  rewrite !pydiv_R by (cbn; lra). cbv zeta. rewrite pymin_R. 
  change (Rmin _ _) with k.
  eexists. split; [reflexivity|]. split; [cbn; auto with aff|]. split; [reflexivity|].
  intros p. rewrite translate_pt, scale_pt, translate_pt by (cbn; auto with aff).
  apply pt_ext; unfold shift, stretch; cbn -[IZR]; field; lra.
Qed.

Lemma lerp_in a c e g x : a < c -> e <= g -> a <= x <= c -> e <= e + (x - a) * ((g - e) / (c - a)) <= g.
Proof.
  intros H1 H2 Hx. assert (0 <= (x - a) / (c - a) <= 1).
  { split; [apply Rmult_le_pos; [lra|left; apply Rinv_0_lt_compat; lra]|].
    apply (Rmult_le_reg_r (c - a)); [lra|]. field_simplify; lra. }
  replace ((x - a) * ((g - e) / (c - a))) with ((g - e) * ((x - a) / (c - a))) by (field; lra).
  nra.
Qed.
Lemma centred_in a c e g k x : a < c -> e <= g -> 0 <= k -> k <= (g - e) / (c - a) -> a <= x <= c ->
  e <= (e + g) / 2 + (x - (a + c) / 2) * k <= g.
Proof.
  intros H1 H2 H3 H4 Hx. assert (k * (c - a) <= g - e).
  { apply (Rmult_le_compat_r (c - a)) in H4; [|lra]. replace ((g - e) / (c - a) * (c - a)) with (g - e) in H4 by (field; lra). lra. }
  split; nra.
Qed.

(* ---------------- simplify ---------------- *)
Definition tiny : R := 1 / 10 ^ 16.
Lemma near_zero_R v : near_zero v = true <-> Rabs v < tiny.
Proof.
  unfold near_zero, tiny. cbn -[IZR pow Z.pow]. rewrite Rltb_lt.
  replace (IZR (10 ^ 16)) with (10 ^ 16) by (rewrite pow_IZR; reflexivity). tauto.
Qed.
Lemma near_zero_0 : near_zero 0 = true.
Proof. apply near_zero_R. rewrite Rabs_R0. unfold tiny. apply Rdiv_lt_0_compat; [lra|apply pow_lt; lra]. Qed.
Lemma tiny_pos : 0 < tiny.
Proof. unfold tiny. apply Rdiv_lt_0_compat; [lra|apply pow_lt; lra]. Qed.
Definition clean (v : R) : Prop := v = 0 \/ tiny <= Rabs v.
Lemma flush_clean v : clean v -> flush v = v.
Proof.
  unfold flush. intros [->|H].
  - rewrite near_zero_0. reflexivity.
  - destruct (near_zero v) eqn:E; auto. apply near_zero_R in E. lra.
Qed.
Lemma near_clean v : clean v -> (near_zero v = true <-> v = 0).
Proof.
  intros [->|H]; [split; auto using near_zero_0|]. rewrite near_zero_R. split; [lra|].
  intros ->. rewrite Rabs_R0 in *. pose proof tiny_pos. lra.
Qed.
Lemma flush_near v : Rabs (flush v - v) < tiny.
Proof.
  unfold flush. destruct (near_zero v) eqn:E.
  - apply near_zero_R in E. cbn. rewrite Rminus_0_l, Rabs_Ropp. auto.
  - rewrite Rminus_diag_eq, Rabs_R0 by auto. apply tiny_pos.
Qed.

(* the matrix simplify() splits: the given one with near-zero linear entries set to 0 *)
Definition flushed (m : mat R) : mat R :=
  M (flush (m00 m)) (flush (m01 m)) (m02 m) (flush (m10 m)) (flush (m11 m)) (m12 m) 0 0 1.
Lemma simplify_product s xl ro : t_simplify s = (xl, ro) ->
  tmat (t_compose (tmat ro) xl) = flushed (tmat s).
Proof.
  unfold t_simplify. destruct (t_is_simple s); intros E; inversion E; subst;
    apply mat_ext; mat_unfold; unfold flushed; cbn; ring.
Qed.

(* ---------------- widths ---------------- *)
Definition column_len (x y : R) : R := sqrt (x * x + y * y).
Lemma width_R s w : t_transform_width s w =
  w * ((column_len (m00 (tmat s)) (m10 (tmat s)) + column_len (m01 (tmat s)) (m11 (tmat s))) / 2).
Proof.
  unfold t_transform_width, t_scale_vals. cbn -[IZR]. unfold column_len.
  rewrite !Rabs_pos_eq by apply sqrt_pos. field.
Qed.
Lemma width_images s w :
  t_transform_width s w =
  w * ((sqrt (dist2 (t_transform s (P 1 0)) (t_transform s (P 0 0))) +
        sqrt (dist2 (t_transform s (P 0 1)) (t_transform s (P 0 0)))) / 2).
Proof.
  rewrite width_R. unfold column_len. mat_unfold.
  do 4 f_equal; [|f_equal]; ring.
Qed.
Lemma width_of_isometry s s' w :
  (forall p q, dist2 (t_transform s' p) (t_transform s' q) = dist2 (t_transform s p) (t_transform s q)) ->
  t_transform_width s' w = t_transform_width s w.
Proof. intros H. rewrite !width_images, !H. reflexivity. Qed.

Lemma new_pt (p : pt R) : t_transform t_new p = p.
Proof. unfold t_transform. rewrite apply_lin. destruct p. mat_unfold. f_equal; ring. Qed.
Lemma untransform_mat {F} {NF : Num F} (s : transform F) p :
  tmat (fst (t_untransform s p)) = tmat s /\ tstack (fst (t_untransform s p)) = tstack s.
Proof.
  unfold t_untransform, t_inverse. destruct (tinv s); [auto|]. destruct (mat_inv (tmat s)); auto.
Qed.
