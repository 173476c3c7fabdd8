(* C37, C40: shapes given by two corners. *)
Require Import Verif.Base Verif.NumR Verif.L_real Verif.M_vector Verif.M_bbox Verif.M_transform Verif.M_bezier Verif.M_colors Verif.M_elems.
Require Import Verif.L_ord Verif.S_bbox Verif.L_bbox Verif.S_transform Verif.L_transform Verif.L_transform2 Verif.P_transform Verif.L_vector Verif.S_bezier Verif.L_bezier Verif.P_bezier Verif.S_elems Verif.L_elems Verif.P_elems Verif.P_ellipse Verif.L_rrect Verif.P_rrect.
From Coq Require Import String Reals List Permutation Lia Lra.
Import ListNotations.
Local Open Scope string_scope.
Local Open Scope list_scope.
Local Open Scope R_scope.

(* the two corners of a shape, and the shape with other corners *)
Definition two_corners {F} (s : shape F) : option (pt F * pt F) :=
  match s with
  | SCurve _ => None
  | SRect p1 p2 | SRRect p1 p2 _ | SEllipse p1 p2 => Some (p1, p2)
  end.
Definition put_corners {F} (s : shape F) (p1 p2 : pt F) : shape F :=
  match s with
  | SCurve cps => SCurve cps
  | SRect _ _ => SRect p1 p2
  | SRRect _ _ r => SRRect p1 p2 r
  | SEllipse _ _ => SEllipse p1 p2
  end.
(* a rounded rectangle has a radius that is not negative *)
Definition radius_ok (s : shape R) : Prop := match s with SRRect _ _ r => 0 <= r | _ => True end.

(* ------------------------------------------------------------------ *)
(** ** C40 *)

(* bbox_int is exactly the rectangle spanned by the corners *)
Theorem C40_bbox_int : forall (s : shape R) (p1 p2 : pt R), two_corners s = Some (p1, p2) ->
  exists bb, shape_bbox_int s = Ok bb /\ forall q, holds bb q <-> in_rect p1 p2 q.
Proof.
  intros s p1 p2 H. exists (bbox_of_pts p1 p2). split.
  - destruct s; cbn in H |- *; try discriminate; injection H as -> ->; reflexivity.
  - intros q. unfold holds. rewrite of_pts_in. reflexivity.
Qed.

(* bbox_int_update(b): then bbox_int() is b; the kind of shape and the radius stay *)
Theorem C40_update : forall (s : shape R) (p1 p2 : pt R) (xl yl xh yh : R),
  two_corners s = Some (p1, p2) -> xl <= xh -> yl <= yh ->
  exists s', shape_bbox_int_update s (BB xl yl xh yh) = Ok s' /\
    s' = put_corners s (P xl yl) (P xh yh) /\ shape_bbox_int s' = Ok (BB xl yl xh yh).
Proof.
  intros s p1 p2 xl yl xh yh H Hx Hy.
  assert (E : bbox_of_pts (P xl yl) (P xh yh) = BB xl yl xh yh).
  { unfold bbox_of_pts, mkbbox. rewrite !pymin_R, !pymax_R. cbn [px py].
    rewrite !Rmin_left, !Rmax_right by auto. reflexivity. }
  exists (put_corners s (P xl yl) (P xh yh)). split; [|split; [reflexivity|]];
  destruct s; cbn in H; try discriminate; try reflexivity; cbn [put_corners shape_bbox_int]; rewrite E; reflexivity.
Qed.
(* BBox(None) has no corners: nothing is changed; curves do not support it *)
Theorem C40_update_raises : forall (s : shape R) (cps : list (cpoint R)) (b : bbox R),
  (two_corners s <> None -> exists e, shape_bbox_int_update s BNone = Raise e) /\
  shape_bbox_int_update (SCurve cps) b = Raise ValueError.
Proof.
  intros s cps b. split; [|reflexivity]. destruct s; cbn; try congruence; intros _; eexists; reflexivity.
Qed.

Lemma tt_lin (s : transform R) p : t_transform s p = lin (tmat s) p.
Proof. unfold t_transform. apply apply_lin. Qed.

(* a rectangle draws its four corners in order and the first again *)
Theorem C40_rect_path : forall (dc : dctx) (b : ebase R) (x1 y1 x2 y2 : R) (m : transform R),
  affine_mat (tmat (e_xform b)) ->
  let f p := p_xy (t_transform m (t_transform (e_xform b) p)) in
  exists m', same_matrix m m' /\
    leaf_paths dc b (SRect (P x1 y1) (P x2 y2)) m =
    (m', Ok [Path (e_pb b) (e_closed b) [f (P x1 y1); f (P x1 y2); f (P x2 y2); f (P x2 y1); f (P x1 y1)]]).
Proof.
  intros dc b x1 y1 x2 y2 m A f. rewrite leaf_paths_rect. eexists. split; [|f_equal; do 3 f_equal].
  - split; reflexivity.
  - unfold corners, f. cbn [map app px py]. rewrite !compose_apply by auto.
    rewrite !tt_lin. reflexivity.
Qed.

Lemma ellipse_p1p2_R (p1 p2 : pt R) :
  make_ellipse_p1p2_cps p1 p2 =
  Ok (make_ellipse_cps (P ((px p1 + px p2) / 2) ((py p1 + py p2) / 2))
        (Rabs (px p2 - px p1) / 2) (Some (Rabs (py p2 - py p1) / 2))).
Proof.
  unfold make_ellipse_p1p2_cps, bbox_of_pts, mkbbox, bbox_center, bbox_width, bbox_height.
  rewrite !pymin_R, !pymax_R. cbn [bind].
  assert (S : forall a b, Rmin a b + Rmax a b = a + b) by (intros; unfold Rmin, Rmax; destruct (Rle_dec _ _); lra).
  assert (D : forall a b, Rmax a b - Rmin a b = Rabs (b - a)).
  { intros. unfold Rmin, Rmax, Rabs. destruct (Rle_dec _ _), (Rcase_abs _); lra. }
  change (@nadd R _) with Rplus. change (@nsub R _) with Rminus. change (@ndiv R _) with Rdiv. change (@nofZ R _) with IZR.
  rewrite !S, !D. reflexivity.
Qed.

Lemma half_box a b x : within ((a + b) / 2 - Rabs (b - a) / 2) ((a + b) / 2 + Rabs (b - a) / 2) x -> within a b x.
Proof.
  unfold within. unfold Rmin, Rmax, Rabs.
  destruct (Rcase_abs (b - a)); repeat destruct (Rle_dec _ _); lra.
Qed.

Lemma rr_merge_keeps (todo : list (nat * nat * nat)) : forall (cps : list (cpoint R)) out cps' out',
  rr_merge cps todo out = (cps', out') -> (exists tail, out' = out ++ tail) /\ List.length cps' = List.length cps.
Proof.
  assert (L : forall (l : list (cpoint R)) i x, List.length (set_nth i x l) = List.length l).
  { induction l as [|y l IH]; intros [|i] x; cbn; auto. }
  induction todo as [|[[ia ib] ic] todo IH]; intros cps out cps' out' E; cbn [rr_merge] in E.
  - injection E as <- <-. split; auto. exists []. rewrite app_nil_r. reflexivity.
  - assert (S0 : cps = cps' /\ out = out' -> (exists tail, out' = out ++ tail) /\ List.length cps' = List.length cps).
    { intros [-> ->]. split; auto. exists []. rewrite app_nil_r. reflexivity. }
    destruct (nth_error cps ia) as [a|], (nth_error cps ib) as [b|], (nth_error cps ic) as [c|];
    try (apply S0; split; congruence).
    destruct (p_eqb (cc b) (cc c)); [|destruct (p_eqb (cc b) (cc a))]; apply IH in E; destruct E as [[tail E1] E2].
    + split; [|rewrite E2; apply L]. exists (ib :: tail). rewrite E1, <- app_assoc. reflexivity.
    + split; auto. exists tail. auto.
    + split; auto. exists (ib :: tail). rewrite E1, <- app_assoc. reflexivity.
Qed.
Lemma merge_start (a0 b0 a1 b1 : cpoint R) l rest cps out :
  rr_merge (a0 :: b0 :: a1 :: b1 :: l) ((0, 1, 2)%nat :: (1, 2, 3)%nat :: rest) [] = (cps, out) ->
  exists i tail, out = i :: tail /\ (i < 4)%nat.
Proof.
  remember ((1, 2, 3)%nat :: rest) as todo eqn:T. intros E. cbn [rr_merge nth_error] in E.
  destruct (p_eqb (cc b0) (cc a1)) eqn:E1; [|destruct (p_eqb (cc b0) (cc a0)) eqn:E2].
  - apply rr_merge_keeps in E. destruct E as [[tail ->] _]. exists 1%nat, tail. split; [reflexivity|lia].
  - subst todo. cbn [rr_merge nth_error] in E.
    destruct (p_eqb (cc a1) (cc b1)) eqn:E3; [|destruct (p_eqb (cc a1) (cc b0)) eqn:E4].
    + apply rr_merge_keeps in E. destruct E as [[tail ->] _]. exists 2%nat, tail. split; [reflexivity|lia].
    + exfalso. apply p_eqb_R in E4. rewrite <- E4 in E1. 
      rewrite (proj2 (p_eqb_R (cc a1) (cc a1)) eq_refl) in E1. discriminate.
    + apply rr_merge_keeps in E. destruct E as [[tail ->] _]. exists 2%nat, tail. split; [reflexivity|lia].
  - apply rr_merge_keeps in E. destruct E as [[tail ->] _]. exists 1%nat, tail. split; [reflexivity|lia].
Qed.
Lemma merge_nonempty p1 p2 sx sy r mw mh : merge (rr8 p1 p2 sx sy r mw mh) <> [].
Proof.
  unfold merge, rr8.
  change (iter_rotate3 (seq 0 (List.length _))) with
    [(0, 1, 2); (1, 2, 3); (2, 3, 4); (3, 4, 5); (4, 5, 6); (5, 6, 7); (6, 7, 0); (7, 0, 1)]%nat.
  destruct (rr_merge _ _ []) as [cps out] eqn:E. pose proof (rr_merge_keeps _ _ _ _ _ E) as [_ L].
  apply merge_start in E. destruct E as (i & tail & -> & Hi). cbn [flat_map].
  destruct (nth_error cps i) eqn:N; [discriminate|]. apply nth_error_None in N. rewrite L in N. cbn in N. lia.
Qed.

(* everything drawn is the image, under the drawing matrix, of the image under the shape's own
   transform of a point of the rectangle of the corners *)
Theorem C40_drawn_in_box : forall (dc : dctx) (b : ebase R) (s : shape R) (p1 p2 : pt R) (m : transform R),
  affine_mat (tmat (e_xform b)) -> two_corners s = Some (p1, p2) -> radius_ok s ->
  exists m' pa, same_matrix m m' /\ leaf_paths dc b s m = (m', Ok [pa]) /\
    p_pb pa = e_pb b /\ p_closed pa = e_closed b /\ p_points pa <> [] /\
    forall q, In q (p_points pa) ->
      exists r, in_rect p1 p2 r /\ pt_of q = t_transform m (t_transform (e_xform b) r).
Proof.
  intros dc b s p1 p2 m A H Hr.
  assert (D : forall cps, cps <> [] -> (forall q, on_path cps true q -> in_rect p1 p2 q) ->
     let l := drawn (t_transform (t_compose (tmat (e_xform b)) m)) cps true 20 in
     l <> [] /\ forall q, In q l -> exists r, in_rect p1 p2 r /\ pt_of q = t_transform m (t_transform (e_xform b) r)).
  { intros cps N Hc l. split.
    - unfold l, drawn. destruct cps as [|c cps]; [congruence|]. intros E. apply map_eq_nil in E. revert E.
      cbn [path_segments app]. destruct cps as [|c' cps]; cbn [app consecutive join_segs]; unfold seg_pts, samples;
      cbn [seq map app]; intros E; inversion E.
    - intros q Hq. apply drawn_affine in Hq; [|apply transform_affine]. destruct Hq as (r & Hr' & ->).
      exists r. split; auto. rewrite compose_apply by auto. rewrite !tt_lin. unfold pt_of. cbn.
      destruct (lin (tmat m) (lin (tmat (e_xform b)) r)). reflexivity. }
  destruct s as [cps|q1 q2|q1 q2 ra|q1 q2]; [discriminate| | |]; cbn in H; injection H as -> ->.
  - rewrite leaf_paths_rect. do 2 eexists. split; [|split; [reflexivity|]]; [split; reflexivity|].
    cbn [p_pb p_closed p_points]. do 2 (split; [reflexivity|]). split; [discriminate|].
    intros q Hq. apply in_map_iff in Hq. destruct Hq as (r & <- & Hr'). exists r. split.
    + unfold corners in Hr'. unfold in_rect. destruct Hr' as [<-|[<-|[<-|[<-|[<-|[]]]]]]; cbn [px py]; auto using within_l, within_r.
    + rewrite compose_apply by auto. rewrite !tt_lin. unfold pt_of. cbn.
      destruct (lin (tmat m) (lin (tmat (e_xform b)) r)). reflexivity.
  - cbn in Hr. rewrite leaf_paths_rrect. destruct (C42_in_rect p1 p2 ra Hr) as (cps & E & _ & Hc). rewrite E. cbn [bind].
    destruct (D cps) as [D1 D2]; auto.
    { intros ->. rewrite make_rr_merge in E by auto. apply Ok_inj in E. revert E. apply merge_nonempty. }
    do 2 eexists. split; [|split; [reflexivity|]]; [split; reflexivity|].
    cbn [p_pb p_closed p_points]. auto.
  - rewrite leaf_paths_ellipse, ellipse_p1p2_R. cbn [bind].
    edestruct D as [D1 D2]; [| |do 2 eexists; split; [|split; [reflexivity|]]; [split; reflexivity|]; cbn [p_pb p_closed p_points]; split; [reflexivity|split; [reflexivity|split; [exact D1|exact D2]]]].
    + discriminate.
    + intros q Hq. apply C41_in_box in Hq. cbn [px py] in Hq. destruct Hq as [X Y]. split; apply half_box; auto.
Qed.

(* a rounded rectangle given by its lower right and upper left corner, in a sheared frame *)
Example C40_nontrivial :
  let s := SRRect (P 4 0) (P 1 2) (1 / 2) : shape R in
  let b := EB "r" ex_pb true (t_new6 1 2 3 0 1 0) : ebase R in
  affine_mat (tmat (e_xform b)) /\ two_corners s = Some (P 4 0, P 1 2) /\ radius_ok s /\
  shape_bbox_int s = Ok (BB 1 0 4 2) /\
  shape_bbox_int_update s (BB 0 0 5 6) = Ok (SRRect (P 0 0) (P 5 6) (1 / 2)).
Proof.
  intros s b. split; [repeat split|]. split; [reflexivity|]. split; [unfold radius_ok, s; lra|]. split; [|reflexivity].
  unfold s. cbn [shape_bbox_int]. unfold bbox_of_pts, mkbbox. rewrite !pymin_R, !pymax_R. cbn [px py].
  rewrite (Rmin_right 4 1), (Rmin_left 0 2), (Rmax_left 4 1), (Rmax_right 0 2) by lra. reflexivity.
Qed.
