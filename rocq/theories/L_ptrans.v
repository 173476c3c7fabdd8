(* Lemmas for transforming shapes given by two corners. *)
Require Import Verif.Base Verif.NumR Verif.L_real Verif.M_vector Verif.M_bbox Verif.M_transform Verif.M_bezier Verif.M_colors Verif.M_elems.
Require Import Verif.L_ord Verif.S_bbox Verif.L_bbox Verif.S_transform Verif.L_transform Verif.L_transform2 Verif.P_transform Verif.L_vector Verif.S_bezier Verif.L_bezier Verif.P_bezier Verif.S_elems Verif.L_elems Verif.P_elems Verif.P_ellipse Verif.L_rrect Verif.P_rrect Verif.P_p1p2.
From Coq Require Import String Reals List Permutation Lia Lra.
Import ListNotations.
Local Open Scope string_scope.
Local Open Scope list_scope.
Local Open Scope R_scope.

(* the matrix passed to transform() composed with the shape's own *)
Definition combined (b : ebase R) (m : transform R) : transform R := t_compose (tmat (e_xform b)) m.

Lemma mapM_pure {A B} (f : A -> res B) (g : A -> B) l : (forall a, f a = Ok (g a)) -> mapM f l = Ok (map g l).
Proof. intros H. induction l as [|a l IH]; auto. cbn. rewrite H. cbn. rewrite IH. reflexivity. Qed.

Lemma transform_pts_R b pts (m xl ro : transform R) : t_simplify (combined b (t_push m)) = (xl, ro) ->
  transform_pts b pts m =
  (T (tmat m) None (tstack m),
   let* pts := mapM (fun p => snd (t_untransform ro (t_transform (combined b (t_push m)) p))) pts in Ok (ro, pts)).
Proof.
  intros E. unfold transform_pts, with_push. fold (combined b (t_push m)). rewrite E. reflexivity.
Qed.

Lemma combined_mat b m : tmat (combined b (t_push m)) = tmat (combined b m).
Proof. reflexivity. Qed.
Lemma combined_lin b m p : affine_mat (tmat (e_xform b)) ->
  lin (tmat (combined b m)) p = lin (tmat m) (lin (tmat (e_xform b)) p).
Proof.
  intros A. rewrite <- !tt_lin. unfold combined. rewrite compose_apply by auto. rewrite !tt_lin. reflexivity.
Qed.
Lemma combined_affine b m : affine_mat (tmat m) -> affine_mat (tmat (e_xform b)) -> affine_mat (tmat (combined b m)).
Proof. intros. unfold combined. cbn [tmat t_compose]. apply affine_dot; auto. Qed.

(* a simple combined matrix: no residue, the points are mapped by it *)
Lemma pts_simple b pts (m : transform R) : t_is_simple (combined b m) = true ->
  exists ro, tmat ro = mat_id /\
  transform_pts b pts m = (T (tmat m) None (tstack m), Ok (ro, map (lin (tmat (combined b m))) pts)).
Proof.
  intros S. exists t_new. split; [reflexivity|].
  erewrite transform_pts_R; [|unfold t_simplify; change (t_is_simple (combined b (t_push m))) with (t_is_simple (combined b m)); rewrite S; reflexivity].
  rewrite (mapM_pure _ (lin (tmat (combined b m)))); [reflexivity|].
  intros p. rewrite tt_lin, combined_mat.
  destruct (untransform_ok t_new (lin (tmat (combined b m)) p)) as [H _].
  - split; [repeat split|constructor].
  - exact I.
  - destruct H as (s' & E & _); [unfold invertible; cbn; lra|].
    rewrite tt_lin in E. cbn [tmat t_new] in E. rewrite lin_id in E. rewrite E. reflexivity.
Qed.

Lemma invertible_lin (m : mat R) : invertible m -> forall u v, exists x y, m00 m * x + m01 m * y = u /\ m10 m * x + m11 m * y = v.
Proof.
  unfold invertible. intros H u v. set (D := m00 m * m11 m - m01 m * m10 m) in *.
  exists ((m11 m * u - m01 m * v) / D), ((m00 m * v - m10 m * u) / D). split; field_simplify_eq; auto; unfold D; ring.
Qed.

(* otherwise the linear part stays as residue, and the points are shifted *)
Lemma pts_general b pts (m : transform R) : affine_mat (tmat (combined b m)) -> clean_mat (tmat (combined b m)) ->
  t_is_simple (combined b m) = false -> invertible (tmat (combined b m)) ->
  exists ro dx dy, transform_pts b pts m = (T (tmat m) None (tstack m), Ok (ro, map (shift dx dy) pts)) /\
    affine_mat (tmat ro) /\ forall p, lin (tmat (combined b m)) p = lin (tmat ro) (shift dx dy p).
Proof.
  intros A C S I.
  destruct (t_simplify (combined b m)) as [xl ro] eqn:E.
  destruct (invertible_lin _ I (m02 (tmat (combined b m))) (m12 (tmat (combined b m)))) as (dx & dy & Hx & Hy).
  exists ro, dx, dy.
  assert (Ro : tmat ro = mat_of6 (m00 (tmat (combined b m))) (m01 (tmat (combined b m))) 0
                                 (m10 (tmat (combined b m))) (m11 (tmat (combined b m))) 0 /\ tstack ro = [] /\ tinv ro = None).
  { unfold t_simplify in E. rewrite S in E. injection E as _ <-.
    destruct C as (C1 & C2 & C3 & C4). cbn [tmat t_new6]. rewrite !flush_clean by auto. auto. }
  destruct Ro as (Ro & Rs & Ri).
  assert (L : forall p, lin (tmat (combined b m)) p = lin (tmat ro) (shift dx dy p)).
  { intros p. rewrite Ro. unfold lin, shift, mat_of6. cbn [m00 m01 m02 m10 m11 m12 px py].
    rewrite <- Hx at 1. rewrite <- Hy at 1. f_equal; cbn; ring. }
  split; [|split; [rewrite Ro; repeat split|exact L]].
  erewrite transform_pts_R by exact E.
  rewrite (mapM_pure _ (shift dx dy)); [reflexivity|].
  intros p. rewrite tt_lin, combined_mat, L.
  destruct (untransform_ok ro (shift dx dy p)) as [H _].
  - split; [rewrite Ro; repeat split|rewrite Rs; constructor].
  - unfold cache_ok. rewrite Ri. exact Logic.I.
  - destruct H as (s' & E' & _).
    + unfold invertible. rewrite Ro. cbn. exact I.
    + rewrite tt_lin in E'. rewrite E'. reflexivity.
Qed.

Lemma pts_singular b p pts (m : transform R) : clean_mat (tmat (combined b m)) ->
  t_is_simple (combined b m) = false -> ~ invertible (tmat (combined b m)) ->
  transform_pts b (p :: pts) m = (T (tmat m) None (tstack m), Raise LinAlgError).
Proof.
  intros C S I.
  destruct (t_simplify (combined b m)) as [xl ro] eqn:E.
  assert (Ro : tmat ro = mat_of6 (m00 (tmat (combined b m))) (m01 (tmat (combined b m))) 0
                                 (m10 (tmat (combined b m))) (m11 (tmat (combined b m))) 0 /\ tstack ro = [] /\ tinv ro = None).
  { unfold t_simplify in E. rewrite S in E. injection E as _ <-.
    destruct C as (C1 & C2 & C3 & C4). cbn [tmat t_new6]. rewrite !flush_clean by auto. auto. }
  destruct Ro as (Ro & Rs & Ri).
  erewrite transform_pts_R by exact E. cbn [mapM].
  destruct (untransform_ok ro (t_transform (combined b (t_push m)) p)) as [_ H].
  - split; [rewrite Ro; repeat split|rewrite Rs; constructor].
  - unfold cache_ok. rewrite Ri. exact Logic.I.
  - rewrite H; [reflexivity|]. unfold invertible in *. rewrite Ro. cbn. exact I.
Qed.

(* ------------------------------------------------------------------ *)
(** * The same loop of segments *)

Lemma quad_4 {A} (a b c d a' b' c' d' : A) : a = a' -> b = b' -> c = c' -> d = d' -> (a, b, c, d) = (a', b', c', d').
Proof. congruence. Qed.
Lemma pt_R (a b c d : R) : a = c -> b = d -> P a b = P c d.
Proof. congruence. Qed.

Ltac quads f := unfold quad, rquad, right_of, left_of; cbn [fst snd cc cdl cdr px py vx vy]; apply quad_4;
  apply (f_equal f); apply pt_R; cbn [px py]; ring.
Ltac seg_here f := first [left; quads f | right; quads f].
Ltac seg_in f :=
  first [ eexists; split; [left; reflexivity|seg_here f]
        | eexists; split; [right; left; reflexivity|seg_here f]
        | eexists; split; [right; right; left; reflexivity|seg_here f]
        | eexists; split; [right; right; right; left; reflexivity|seg_here f]
        | eexists; split; [right; right; right; right; left; reflexivity|seg_here f]
        | eexists; split; [right; right; right; right; right; left; reflexivity|seg_here f]
        | eexists; split; [right; right; right; right; right; right; left; reflexivity|seg_here f]
        | eexists; split; [right; right; right; right; right; right; right; left; reflexivity|seg_here f] ].
Ltac loops f := split; intros pq H; cbn [path_segments consecutive app] in H |- *; cbn [In] in H;
  repeat (destruct H as [<-|H]; [seg_in f|]); destruct H.

Definition ell (cx cy rx ry k : R) : list (cpoint R) :=
  [ CP (P (cx + rx) cy) (V 0 (ry * k)) (V 0 (- (ry * k))) "smooth";
    CP (P cx (cy - ry)) (V (rx * k) 0) (V (- (rx * k)) 0) "smooth";
    CP (P (cx - rx) cy) (V 0 (- (ry * k))) (V 0 (ry * k)) "smooth";
    CP (P cx (cy + ry)) (V (- (rx * k)) 0) (V (rx * k) 0) "smooth" ].

Lemma ell_cps p1 p2 : make_ellipse_p1p2_cps p1 p2 =
  Ok (ell ((px p1 + px p2) / 2) ((py p1 + py p2) / 2) (Rabs (px p2 - px p1) / 2) (Rabs (py p2 - py p1) / 2) (4 / 3 * (sqrt 2 - 1))).
Proof.
  rewrite ellipse_p1p2_R. destruct (C41_control_points (P ((px p1 + px p2) / 2) ((py p1 + py p2) / 2)) (Rabs (px p2 - px p1) / 2) (Rabs (py p2 - py p1) / 2)) as [E _].
  cbv zeta in E. rewrite E. reflexivity.
Qed.

Lemma ell_neg_x (f : pt R -> pt R) cx cy rx ry k :
  same_loop f f (path_segments (ell cx cy (- rx) ry k) true) (path_segments (ell cx cy rx ry k) true).
Proof. unfold ell. loops f. Qed.
Lemma ell_neg_y (f : pt R -> pt R) cx cy rx ry k :
  same_loop f f (path_segments (ell cx cy rx (- ry) k) true) (path_segments (ell cx cy rx ry k) true).
Proof. unfold ell. loops f. Qed.
Lemma ell_diag (f : pt R -> pt R) cx cy rx ry k a c e g :
  same_loop (fun p => f (P (a * px p + c) (e * py p + g))) f
    (path_segments (ell cx cy rx ry k) true) (path_segments (ell (a * cx + c) (e * cy + g) (a * rx) (e * ry) k) true).
Proof. unfold ell. loops f. Qed.
Lemma ell_anti (f : pt R -> pt R) cx cy rx ry k b c d g :
  same_loop (fun p => f (P (b * py p + c) (d * px p + g))) f
    (path_segments (ell cx cy rx ry k) true) (path_segments (ell (b * cy + c) (d * cx + g) (b * ry) (d * rx) k) true).
Proof. unfold ell. loops f. Qed.
Lemma ell_abs (f : pt R -> pt R) cx cy rx ry rx' ry' k : Rabs rx = Rabs rx' -> Rabs ry = Rabs ry' ->
  same_loop f f (path_segments (ell cx cy rx ry k) true) (path_segments (ell cx cy rx' ry' k) true).
Proof.
  intros Hx Hy.
  assert (X : rx = rx' \/ rx = - rx') by (unfold Rabs in Hx; destruct (Rcase_abs rx), (Rcase_abs rx'); lra).
  assert (Y : ry = ry' \/ ry = - ry') by (unfold Rabs in Hy; destruct (Rcase_abs ry), (Rcase_abs ry'); lra).
  assert (S0 : forall l, same_loop f f l l) by (intros l; split; intros pq H; exists pq; (split; [exact H|now left])).
  destruct X as [-> | ->], Y as [-> | ->]; auto using ell_neg_x, ell_neg_y.
  eapply same_loop_trans; [apply ell_neg_x|apply ell_neg_y].
Qed.

(* ---------------- rounded rectangles ---------------- *)

Lemma rr_diag (f : pt R -> pt R) x1 y1 sx sy r w h mw mh sa se l c g :
  0 < l -> let p1 := P x1 y1 in let p2 := P (x1 + sx * w) (y1 + sy * h) in
  let F := fun p : pt R => P (sa * l * px p + c) (se * l * py p + g) in
  same_loop (fun p => f (F p)) f
    (path_segments (rr_out r w h (rr8 p1 p2 sx sy r mw mh)) true)
    (path_segments (rr_out (l * r) (l * w) (l * h) (rr8 (F p1) (F p2) (sa * sx) (se * sy) (l * r) (l * mw) (l * mh))) true).
Proof.
  intros Hl p1 p2 F. unfold F, p1, p2. clear F p1 p2. unfold rr_out, rr8, glue, out_cp, cp_reversed. cbn [px py cc cdl cdr ckind].
  generalize (@bez_90 R _ _). intros k.
  assert (E : forall a b, l * a = l * b -> a = b) by (intros a b Q; apply Rmult_eq_reg_l with l; lra).
  destruct (Req_EM_T r 0) as [Z|Z], (Req_EM_T (l * r) 0) as [Z'|Z']; try (exfalso; subst; lra);
    try (exfalso; apply Z; apply E; lra);
  [loops f|];
  destruct (Req_EM_T (2 * r) w) as [Zw|Zw], (Req_EM_T (2 * (l * r)) (l * w)) as [Zw'|Zw'];
  try (exfalso; subst w; lra); try (exfalso; apply Zw; apply E; lra);
  destruct (Req_EM_T (2 * r) h) as [Zh|Zh], (Req_EM_T (2 * (l * r)) (l * h)) as [Zh'|Zh'];
  try (exfalso; subst h; lra); try (exfalso; apply Zh; apply E; lra); loops f.
Qed.

Lemma rr_anti (f : pt R -> pt R) x1 y1 sx sy r w h mw mh sb sd l c g :
  0 < l -> let p1 := P x1 y1 in let p2 := P (x1 + sx * w) (y1 + sy * h) in
  let F := fun p : pt R => P (sb * l * py p + c) (sd * l * px p + g) in
  same_loop (fun p => f (F p)) f
    (path_segments (rr_out r w h (rr8 p1 p2 sx sy r mw mh)) true)
    (path_segments (rr_out (l * r) (l * h) (l * w) (rr8 (F p1) (F p2) (sb * sy) (sd * sx) (l * r) (l * mh) (l * mw))) true).
Proof.
  intros Hl p1 p2 F. unfold F, p1, p2. clear F p1 p2. unfold rr_out, rr8, glue, out_cp, cp_reversed. cbn [px py cc cdl cdr ckind].
  generalize (@bez_90 R _ _). intros k.
  assert (E : forall a b, l * a = l * b -> a = b) by (intros a b Q; apply Rmult_eq_reg_l with l; lra).
  destruct (Req_EM_T r 0) as [Z|Z], (Req_EM_T (l * r) 0) as [Z'|Z']; try (exfalso; subst; lra);
    try (exfalso; apply Z; apply E; lra);
  [subst r; loops f|];
  destruct (Req_EM_T (2 * r) w) as [Zw|Zw], (Req_EM_T (2 * (l * r)) (l * w)) as [Zw'|Zw'];
  try (exfalso; subst w; lra); try (exfalso; apply Zw; apply E; lra);
  destruct (Req_EM_T (2 * r) h) as [Zh|Zh], (Req_EM_T (2 * (l * r)) (l * h)) as [Zh'|Zh'];
  try (exfalso; subst h; lra); try (exfalso; apply Zh; apply E; lra); try subst w; try subst h; loops f.
Qed.
