(* C37: transforming shapes given by two corners. *)
Require Import Verif.Base Verif.NumR Verif.L_real Verif.M_vector Verif.M_bbox Verif.M_transform Verif.M_bezier Verif.M_colors Verif.M_elems.
Require Import Verif.L_ord Verif.S_bbox Verif.L_bbox Verif.S_transform Verif.L_transform Verif.L_transform2 Verif.P_transform Verif.L_vector Verif.S_bezier Verif.L_bezier Verif.P_bezier Verif.S_elems Verif.L_elems Verif.P_elems Verif.P_ellipse Verif.L_rrect Verif.P_rrect Verif.P_p1p2 Verif.L_ptrans.
From Coq Require Import String Reals List Permutation Lia Lra.
Import ListNotations.
Local Open Scope string_scope.
Local Open Scope list_scope.
Local Open Scope R_scope.

Lemma simple_cases (b : ebase R) m : clean_mat (tmat (combined b m)) -> t_is_simple (combined b m) = true ->
  (m01 (tmat (combined b m)) = 0 /\ m10 (tmat (combined b m)) = 0) \/
  (m00 (tmat (combined b m)) = 0 /\ m11 (tmat (combined b m)) = 0).
Proof.
  intros (C1 & C2 & C3 & C4) S. unfold t_is_simple in S.
  rewrite Bool.orb_true_iff, !Bool.andb_true_iff, !near_clean in S by auto. exact S.
Qed.

(* the points drawn by the original, through the combined matrix *)
Lemma orig_fun (b : ebase R) (m d : transform R) p : affine_mat (tmat m) -> affine_mat (tmat (e_xform b)) ->
  t_transform (t_compose (tmat (e_xform b)) (t_compose (tmat m) d)) p = t_transform d (lin (tmat (combined b m)) p).
Proof.
  intros Am Ax. rewrite compose_apply, compose_apply by auto. rewrite combined_lin by auto. reflexivity.
Qed.

Lemma same_cps pb f f' cps cps' :
  same_loop f f' (path_segments cps true) (path_segments cps' true) ->
  same_paths (Ok [Path pb true (drawn f' cps' true 20)]) (Ok [Path pb true (drawn f cps true 20)]).
Proof.
  intros L. do 2 eexists. split; [reflexivity|]. split; [reflexivity|]. constructor; [|constructor].
  cbn [p_pb p_closed p_points]. split; [reflexivity|]. split; [reflexivity|].
  apply same_loop_pieces. apply same_loop_sym. exact L.
Qed.
Lemma same_loop_ext f g h k l l' : (forall p, f p = h p) -> (forall p, g p = k p) ->
  same_loop h k l l' -> same_loop f g l l'.
Proof.
  intros E1 E2.
  assert (X : forall (f g h k : pt R -> pt R) l l', (forall p, f p = h p) -> (forall p, g p = k p) -> covers h k l l' -> covers f g l l').
  { clear. intros f g h k l l' E1 E2 C pq H. destruct (C pq H) as (pq' & H' & S). exists pq'. split; auto.
    unfold same_seg, quad, rquad in *. rewrite !E1, !E2. exact S. }
  intros [A B]. split; eapply X; eauto.
Qed.

(* what is asked of the shape: a rounded rectangle has sides, and is scaled evenly when its
   transform is folded into the corners *)
Definition transformable (s : shape R) (M : transform R) : Prop :=
  match s with
  | SRRect p1 p2 r => 0 <= r /\ px p1 <> px p2 /\ py p1 <> py p2 /\ invertible (tmat M) /\
      (t_is_simple M = true -> even_scale (tmat M))
  | SRect _ _ | SEllipse _ _ => True
  | SCurve _ => False
  end.
Definition same_kind (s s' : shape R) : Prop :=
  match s, s' with
  | SRect _ _, SRect _ _ | SEllipse _ _, SEllipse _ _ | SRRect _ _ _, SRRect _ _ _ => True
  | _, _ => False
  end.

Lemma same_pieces_5 {A} (a b c d : A) : same_pieces [a; b; c; d; a] [a; d; c; b; a].
Proof.
  intros p q. unfold piece. cbn [consecutive In]. split.
  - intros [H|H]; repeat (destruct H as [H|H]; [injection H as <- <-; intuition|]); destruct H.
  - intros [H|H]; repeat (destruct H as [H|H]; [injection H as <- <-; intuition|]); destruct H.
Qed.

Lemma rect_result (b : ebase R) p1 p2 (m : transform R) ro q1 q2 :
  transform_pts b [p1; p2] m = (T (tmat m) None (tstack m), Ok (ro, [q1; q2])) ->
  leaf_transform b (SRect p1 p2) m = (T (tmat m) None (tstack m), Ok (ELeaf (EB (e_name b) (e_pb b) true ro) (SRect q1 q2))) /\
  leaf_transform b (SEllipse p1 p2) m = (T (tmat m) None (tstack m), Ok (ELeaf (EB (e_name b) (e_pb b) true ro) (SEllipse q1 q2))).
Proof.
  intros E. cbn [leaf_transform]. rewrite E. cbn [bind]. unfold mk_base.
  rewrite Bool.andb_false_r. split; reflexivity.
Qed.

Lemma rect_draws (dc : dctx) (b : ebase R) p1 p2 (m d ro : transform R) q1 q2 :
  affine_mat (tmat m) -> affine_mat (tmat (e_xform b)) -> affine_mat (tmat ro) -> e_closed b = true ->
  (map (lin (tmat ro)) (corners q1 q2) = map (lin (tmat (combined b m))) (corners p1 p2) \/
   map (lin (tmat ro)) (corners q1 q2) = map (lin (tmat (combined b m))) [p1; P (px p2) (py p1); p2; P (px p1) (py p2)]) ->
  same_paths (snd (leaf_paths dc (EB (e_name b) (e_pb b) true ro) (SRect q1 q2) d))
             (snd (leaf_paths dc b (SRect p1 p2) (t_compose (tmat m) d))).
Proof.
  intros Am Ax Ar Hc H. rewrite !leaf_paths_rect. cbn [snd e_xform e_pb e_closed]. do 2 eexists.
  split; [reflexivity|]. split; [reflexivity|]. constructor; [|constructor].
  cbn [p_pb p_closed p_points]. split; [reflexivity|]. split; [auto|].
  unfold corners in *. cbn [map app] in *. rewrite !orig_fun by auto. rewrite !compose_apply by auto.
  destruct H as [H|H]; injection H as E1 E2 E3 E4 E5 E6 E7 E8.
  - rewrite (pnt_ext (lin (tmat ro) q1) (lin (tmat (combined b m)) p1)) by auto.
    rewrite (pnt_ext (lin (tmat ro) q2) (lin (tmat (combined b m)) p2)) by auto.
    rewrite (pnt_ext (lin (tmat ro) (P (px q1) (py q2))) (lin (tmat (combined b m)) (P (px p1) (py p2)))) by auto.
    rewrite (pnt_ext (lin (tmat ro) (P (px q2) (py q1))) (lin (tmat (combined b m)) (P (px p2) (py p1)))) by auto.
    intros p q. reflexivity.
  - rewrite (pnt_ext (lin (tmat ro) q1) (lin (tmat (combined b m)) p1)) by auto.
    rewrite (pnt_ext (lin (tmat ro) q2) (lin (tmat (combined b m)) p2)) by auto.
    rewrite (pnt_ext (lin (tmat ro) (P (px q1) (py q2))) (lin (tmat (combined b m)) (P (px p2) (py p1)))) by auto.
    rewrite (pnt_ext (lin (tmat ro) (P (px q2) (py q1))) (lin (tmat (combined b m)) (P (px p1) (py p2)))) by auto.
    apply same_pieces_5.
Qed.

Lemma ellipse_draws (dc : dctx) (b : ebase R) p1 p2 (m d ro : transform R) q1 q2 (F : pt R -> pt R) cps cps' :
  affine_mat (tmat m) -> affine_mat (tmat (e_xform b)) -> affine_mat (tmat ro) -> e_closed b = true ->
  (forall p, lin (tmat (combined b m)) p = lin (tmat ro) (F p)) ->
  make_ellipse_p1p2_cps p1 p2 = Ok cps -> make_ellipse_p1p2_cps q1 q2 = Ok cps' ->
  (forall f, same_loop (fun p => f (F p)) f (path_segments cps true) (path_segments cps' true)) ->
  same_paths (snd (leaf_paths dc (EB (e_name b) (e_pb b) true ro) (SEllipse q1 q2) d))
             (snd (leaf_paths dc b (SEllipse p1 p2) (t_compose (tmat m) d))).
Proof.
  intros Am Ax Ar Hc HF E E' L. rewrite !leaf_paths_ellipse, E, E'. cbn [snd bind e_pb e_closed e_xform]. rewrite Hc.
  apply same_cps.
  eapply same_loop_ext; [| |apply (L (fun p => t_transform d (lin (tmat ro) p)))].
  - intros p. rewrite orig_fun by auto. rewrite HF. reflexivity.
  - intros p. rewrite compose_apply by auto. reflexivity.
Qed.
Lemma rrect_draws (dc : dctx) (b : ebase R) p1 p2 r (m d ro : transform R) q1 q2 r' (F : pt R -> pt R) cps cps' :
  affine_mat (tmat m) -> affine_mat (tmat (e_xform b)) -> affine_mat (tmat ro) -> e_closed b = true ->
  (forall p, lin (tmat (combined b m)) p = lin (tmat ro) (F p)) ->
  make_rounded_rect_cps p1 p2 r = Ok cps -> make_rounded_rect_cps q1 q2 r' = Ok cps' ->
  (forall f, same_loop (fun p => f (F p)) f (path_segments cps true) (path_segments cps' true)) ->
  same_paths (snd (leaf_paths dc (EB (e_name b) (e_pb b) true ro) (SRRect q1 q2 r') d))
             (snd (leaf_paths dc b (SRRect p1 p2 r) (t_compose (tmat m) d))).
Proof.
  intros Am Ax Ar Hc HF E E' L. rewrite !leaf_paths_rrect, E, E'. cbn [snd bind e_pb e_closed e_xform]. rewrite Hc.
  apply same_cps.
  eapply same_loop_ext; [| |apply (L (fun p => t_transform d (lin (tmat ro) p)))].
  - intros p. rewrite orig_fun by auto. rewrite HF. reflexivity.
  - intros p. rewrite compose_apply by auto. reflexivity.
Qed.

Lemma affine_id : affine_mat (@mat_id R _). Proof. repeat split. Qed.
Lemma affine_new (ro : transform R) : tmat ro = mat_id -> affine_mat (tmat ro).
Proof. intros ->. apply affine_id. Qed.

(* ellipses under the three kinds of map *)
Lemma ell_loop p1 p2 (F : pt R -> pt R) a e c g :
  (forall p, F p = P (a * px p + c) (e * py p + g)) \/ (forall p, F p = P (a * py p + c) (e * px p + g)) ->
  exists cps cps', make_ellipse_p1p2_cps p1 p2 = Ok cps /\ make_ellipse_p1p2_cps (F p1) (F p2) = Ok cps' /\
  forall f, same_loop (fun p => f (F p)) f (path_segments cps true) (path_segments cps' true).
Proof.
  assert (A2 : forall u v x y : R, Rabs (u * (x - y)) = Rabs v -> Rabs (u * (Rabs (x - y) / 2)) = Rabs (v / 2)).
  { intros u v x y Q. unfold Rdiv. rewrite !Rabs_mult, Rabs_Rabsolu, <- Q, Rabs_mult. ring. }
  intros [H|H]; do 2 eexists; (split; [apply ell_cps|]); (split; [apply ell_cps|]); intros f;
  rewrite !H; cbn [px py]; (eapply same_loop_trans; [eapply same_loop_ext; [|reflexivity|]; [intros p; rewrite H; reflexivity|]|]).
  - apply ell_diag.
  - eapply same_loop_trans; [apply ell_abs with (rx' := (a * px p2 + c - (a * px p1 + c)) / 2) (ry' := (e * py p2 + g - (e * py p1 + g)) / 2)|].
    + apply A2. f_equal. ring.
    + apply A2. f_equal. ring.
    + replace (a * ((px p1 + px p2) / 2) + c) with ((a * px p1 + c + (a * px p2 + c)) / 2) by field.
      replace (e * ((py p1 + py p2) / 2) + g) with ((e * py p1 + g + (e * py p2 + g)) / 2) by field.
      apply ell_abs; unfold Rdiv; rewrite !Rabs_mult, Rabs_Rabsolu; reflexivity.
  - apply ell_anti.
  - eapply same_loop_trans; [apply ell_abs with (rx' := (a * py p2 + c - (a * py p1 + c)) / 2) (ry' := (e * px p2 + g - (e * px p1 + g)) / 2)|].
    + apply A2. f_equal. ring.
    + apply A2. f_equal. ring.
    + replace (a * ((py p1 + py p2) / 2) + c) with ((a * py p1 + c + (a * py p2 + c)) / 2) by field.
      replace (e * ((px p1 + px p2) / 2) + g) with ((e * px p1 + g + (e * px p2 + g)) / 2) by field.
      apply ell_abs; unfold Rdiv; rewrite !Rabs_mult, Rabs_Rabsolu; reflexivity.
Qed.

Lemma Rmin_scale l a b : 0 < l -> Rmin (l * a) (l * b) = l * Rmin a b.
Proof. intros Hl. unfold Rmin. destruct (Rle_dec a b), (Rle_dec (l * a) (l * b)); try reflexivity; exfalso; nra. Qed.
Lemma towards_scale s l a b c : s = 1 \/ s = -1 -> 0 < l -> a <> b -> towards (s * l * a + c) (s * l * b + c) = s * towards a b.
Proof.
  intros [-> | ->] Hl N; unfold towards; destruct (Rle_dec a b), (Rle_dec _ (_ + c)); try lra; exfalso; nra.
Qed.
Lemma abs_scale s l x : s = 1 \/ s = -1 -> 0 < l -> Rabs (s * l * x) = l * Rabs x.
Proof.
  intros Hs Hl. rewrite !Rabs_mult. rewrite (Rabs_right l) by lra.
  destruct Hs as [-> | ->]; [rewrite Rabs_R1|rewrite Rabs_left by lra]; ring.
Qed.

Lemma rr_loop p1 p2 r (F : pt R -> pt R) sa se l c g : 0 <= r -> px p1 <> px p2 -> py p1 <> py p2 ->
  0 < l -> (sa = 1 \/ sa = -1) -> (se = 1 \/ se = -1) ->
  (forall p, F p = P (sa * l * px p + c) (se * l * py p + g)) \/ (forall p, F p = P (sa * l * py p + c) (se * l * px p + g)) ->
  exists cps cps', make_rounded_rect_cps p1 p2 r = Ok cps /\ make_rounded_rect_cps (F p1) (F p2) (l * r) = Ok cps' /\
  forall f, same_loop (fun p => f (F p)) f (path_segments cps true) (path_segments cps' true).
Proof.
  intros Hr Nx Ny Hl Sa Se H.
  assert (Lr : 0 <= l * r) by nra.
  assert (Mul : forall s a b d, (s = 1 \/ s = -1) -> a <> b -> s * l * a + d <> s * l * b + d).
  { intros s a b d [-> | ->] N Q; apply N; apply Rmult_eq_reg_l with l; lra. }
  destruct (towards_abs (px p1) (px p2)) as [Ex _]. destruct (towards_abs (py p1) (py p2)) as [Ey _].
  destruct p1 as [x1 y1], p2 as [x2 y2]. cbn [px py] in *.
  set (w := Rabs (x2 - x1)) in *. set (h := Rabs (y2 - y1)) in *.
  assert (X2 : x2 = x1 + towards x1 x2 * w) by lra. assert (Y2 : y2 = y1 + towards y1 y2 * h) by lra.
  destruct H as [H|H].
  - do 2 eexists. split; [apply rr_cases; auto|]. split; [apply rr_cases; auto; rewrite !H; cbn [px py]; auto|].
    intros f. cbn [px py].
    assert (W : rr_w (F (P x1 y1)) (F (P x2 y2)) = l * w).
    { unfold rr_w. rewrite !H. cbn [px py]. unfold w. rewrite <- (abs_scale sa) by auto. f_equal. ring. }
    assert (HH : rr_h (F (P x1 y1)) (F (P x2 y2)) = l * h).
    { unfold rr_h. rewrite !H. cbn [px py]. unfold h. rewrite <- (abs_scale se) by auto. f_equal. ring. }
    assert (RR : rr_r (F (P x1 y1)) (F (P x2 y2)) (l * r) = l * rr_r (P x1 y1) (P x2 y2) r).
    { unfold rr_r. rewrite W, HH. unfold rr_w, rr_h. cbn [px py]. fold w h.
      replace (l * w / 2) with (l * (w / 2)) by field. replace (l * h / 2) with (l * (h / 2)) by field.
      rewrite !Rmin_scale by auto. reflexivity. }
    rewrite W, HH, RR. set (r0 := rr_r (P x1 y1) (P x2 y2) r).
    change (rr_w (P x1 y1) (P x2 y2)) with w. change (rr_h (P x1 y1) (P x2 y2)) with h.
    replace (l * w / 2 - l * r0) with (l * (w / 2 - r0)) by field.
    replace (l * h / 2 - l * r0) with (l * (h / 2 - r0)) by field. rewrite !Rmin_scale by auto.
    assert (TX : towards (px (F (P x1 y1))) (px (F (P x2 y2))) = sa * towards x1 x2).
    { rewrite !H. cbn [px py]. apply towards_scale; auto. }
    assert (TY : towards (py (F (P x1 y1))) (py (F (P x2 y2))) = se * towards y1 y2).
    { rewrite !H. cbn [px py]. apply towards_scale; auto. }
    rewrite TX, TY. rewrite !H. cbn [px py].
    set (sx := towards x1 x2) in *. set (sy := towards y1 y2) in *. clearbody w h sx sy r0. subst x2 y2.
    eapply same_loop_ext; [|reflexivity|apply (rr_diag f x1 y1 sx sy r0 w h); auto].
    intros p. rewrite H. reflexivity.
  - do 2 eexists. split; [apply rr_cases; auto|]. split; [apply rr_cases; auto; rewrite !H; cbn [px py]; auto|].
    intros f. cbn [px py].
    assert (W : rr_w (F (P x1 y1)) (F (P x2 y2)) = l * h).
    { unfold rr_w. rewrite !H. cbn [px py]. unfold h. rewrite <- (abs_scale sa) by auto. f_equal. ring. }
    assert (HH : rr_h (F (P x1 y1)) (F (P x2 y2)) = l * w).
    { unfold rr_h. rewrite !H. cbn [px py]. unfold w. rewrite <- (abs_scale se) by auto. f_equal. ring. }
    assert (RR : rr_r (F (P x1 y1)) (F (P x2 y2)) (l * r) = l * rr_r (P x1 y1) (P x2 y2) r).
    { unfold rr_r. rewrite W, HH. unfold rr_w, rr_h. cbn [px py]. fold w h.
      replace (l * w / 2) with (l * (w / 2)) by field. replace (l * h / 2) with (l * (h / 2)) by field.
      rewrite !Rmin_scale by auto. rewrite (Rmin_comm (h / 2)). reflexivity. }
    rewrite W, HH, RR. set (r0 := rr_r (P x1 y1) (P x2 y2) r).
    change (rr_w (P x1 y1) (P x2 y2)) with w. change (rr_h (P x1 y1) (P x2 y2)) with h.
    replace (l * w / 2 - l * r0) with (l * (w / 2 - r0)) by field.
    replace (l * h / 2 - l * r0) with (l * (h / 2 - r0)) by field. rewrite !Rmin_scale by auto.
    assert (TX : towards (px (F (P x1 y1))) (px (F (P x2 y2))) = sa * towards y1 y2).
    { rewrite !H. cbn [px py]. apply towards_scale; auto. }
    assert (TY : towards (py (F (P x1 y1))) (py (F (P x2 y2))) = se * towards x1 x2).
    { rewrite !H. cbn [px py]. apply towards_scale; auto. }
    rewrite TX, TY. rewrite !H. cbn [px py].
    set (sx := towards x1 x2) in *. set (sy := towards y1 y2) in *. clearbody w h sx sy r0. subst x2 y2.
    eapply same_loop_ext; [|reflexivity|apply (rr_anti f x1 y1 sx sy r0 w h); auto].
    intros p. rewrite H. reflexivity.
Qed.

Lemma rrect_result (b : ebase R) p1 p2 r (m : transform R) ro q1 q2 q3 :
  transform_pts b [p1; p2; p_add p1 (V r 0)] m = (T (tmat m) None (tstack m), Ok (ro, [q1; q2; q3])) ->
  leaf_transform b (SRRect p1 p2 r) m =
  (T (tmat m) None (tstack m), Ok (ELeaf (EB (e_name b) (e_pb b) true ro) (SRRect q1 q2 (v_length (p_sub q3 q1))))).
Proof.
  intros E. cbn [leaf_transform]. change (@nofZ R _ 0) with 0. rewrite E. cbn [bind]. unfold mk_base.
  rewrite Bool.andb_false_r. reflexivity.
Qed.
Lemma length_axis (u v : R) : u * v = 0 -> v_length (V u v) = Rabs (u + v).
Proof.
  intros H. unfold v_length. cbn. rewrite <- sqrt_Rsqr_abs. f_equal. unfold Rsqr. lra.
Qed.

Lemma sign_abs (a : R) : a <> 0 -> exists s, (s = 1 \/ s = -1) /\ a = s * Rabs a.
Proof.
  intros H. unfold Rabs. destruct (Rcase_abs a); [exists (-1)|exists 1]; lra.
Qed.

(* ------------------------------------------------------------------ *)
(** ** C37 *)

(* the transformed copy draws, under any matrix, what the original draws under that matrix
   composed with the one given to transform(); it keeps name and pen, and if the combined matrix
   is simple (keeps the axes, C06) its own transform is the identity *)
Theorem C37_transform_draws : forall (b : ebase R) (s : shape R) (m : transform R),
  affine_mat (tmat m) -> affine_mat (tmat (e_xform b)) -> e_closed b = true ->
  let M := t_compose (tmat (e_xform b)) m in
  clean_mat (tmat M) -> t_is_simple M = true \/ invertible (tmat M) -> transformable s M ->
  exists m' b' s', leaf_transform b s m = (m', Ok (ELeaf b' s')) /\ same_matrix m m' /\
    e_name b' = e_name b /\ e_pb b' = e_pb b /\ e_closed b' = true /\ same_kind s s' /\
    (t_is_simple M = true -> tmat (e_xform b') = mat_id) /\
    (forall dc d, same_paths (snd (leaf_paths dc b' s' d)) (snd (leaf_paths dc b s (t_compose (tmat m) d)))).
Proof.
  intros b s m Am Ax Hc M C SI Ht. change M with (combined b m) in *. clear M.
  assert (AM : affine_mat (tmat (combined b m))) by (apply combined_affine; auto).
  assert (Fin : forall ro s', (t_is_simple (combined b m) = true -> tmat ro = mat_id) -> same_kind s s' ->
     leaf_transform b s m = (T (tmat m) None (tstack m), Ok (ELeaf (EB (e_name b) (e_pb b) true ro) s')) ->
     (forall dc d, same_paths (snd (leaf_paths dc (EB (e_name b) (e_pb b) true ro) s' d)) (snd (leaf_paths dc b s (t_compose (tmat m) d)))) ->
     exists m' b' s', leaf_transform b s m = (m', Ok (ELeaf b' s')) /\ same_matrix m m' /\
       e_name b' = e_name b /\ e_pb b' = e_pb b /\ e_closed b' = true /\ same_kind s s' /\
       (t_is_simple (combined b m) = true -> tmat (e_xform b') = mat_id) /\
       (forall dc d, same_paths (snd (leaf_paths dc b' s' d)) (snd (leaf_paths dc b s (t_compose (tmat m) d))))).
  { intros ro s' H1 H2 H3 H4. do 3 eexists. split; [exact H3|]. split; [split; reflexivity|].
    cbn [e_name e_pb e_closed e_xform]. auto 10. }
  destruct (t_is_simple (combined b m)) eqn:S.
  - (* simple *)
    assert (Li : forall p, lin (tmat (combined b m)) p = lin mat_id (lin (tmat (combined b m)) p))
      by (intros p; rewrite lin_id; reflexivity).
    assert (Co : (forall p, lin (tmat (combined b m)) p = P (m00 (tmat (combined b m)) * px p + m02 (tmat (combined b m))) (m11 (tmat (combined b m)) * py p + m12 (tmat (combined b m)))) \/
      (forall p, lin (tmat (combined b m)) p = P (m01 (tmat (combined b m)) * py p + m02 (tmat (combined b m))) (m10 (tmat (combined b m)) * px p + m12 (tmat (combined b m))))).
    { destruct (simple_cases b m C S) as [[Z1 Z2]|[Z1 Z2]]; [left|right]; intros p; unfold lin; rewrite Z1, Z2; f_equal; ring. }
    destruct s as [cps|p1 p2|p1 p2 r|p1 p2]; [destruct Ht| | |].
    + destruct (pts_simple b [p1; p2] m S) as (ro & Ero & E). cbn [map] in E.
      apply (Fin ro (SRect _ _) (fun _ => Ero) I (proj1 (rect_result _ _ _ _ _ _ _ E))).
      intros dc d. apply rect_draws; auto using affine_new. rewrite Ero.
      destruct Co as [Co|Co]; [left|right]; unfold corners; cbn [map]; rewrite !lin_id, !Co; reflexivity.
    + destruct Ht as (Hr & Nx & Ny & Inv & Ev). specialize (Ev S).
      destruct (pts_simple b [p1; p2; p_add p1 (V r 0)] m S) as (ro & Ero & E). cbn [map] in E.
      set (a := m00 (tmat (combined b m))) in *. set (e := m11 (tmat (combined b m))) in *.
      set (bb := m01 (tmat (combined b m))) in *. set (dd := m10 (tmat (combined b m))) in *.
      set (c := m02 (tmat (combined b m))) in *. set (g := m12 (tmat (combined b m))) in *.
      assert (NZ : a * e - bb * dd <> 0) by exact Inv. unfold even_scale in Ev. fold a e bb dd in Ev.
      assert (Sq : forall x y : R, x ^ 2 = y ^ 2 -> Rabs x = Rabs y).
      { intros x y Q. apply Rsqr_eq_abs_0. unfold Rsqr. nra. }
      destruct (simple_cases b m C S) as [[Z1 Z2]|[Z1 Z2]]; fold a e bb dd in Z1, Z2.
      * assert (Na : a <> 0) by (intros Q; apply NZ; rewrite Q, Z1; ring).
        assert (Ne : e <> 0) by (intros Q; apply NZ; rewrite Q, Z1; ring).
        destruct (sign_abs a Na) as (sa & Sa & Ea). destruct (sign_abs e Ne) as (se & Se & Ee).
        assert (Ae : Rabs e = Rabs a) by (apply Sq; rewrite Z1, Z2 in Ev; lra).
        rewrite Ae in Ee. assert (L0 : 0 < Rabs a) by (apply Rabs_pos_lt; auto).
        destruct (rr_loop p1 p2 r (lin (tmat (combined b m))) sa se (Rabs a) c g) as (cps & cps' & E1 & E2 & E3); auto.
        { left. intros p. unfold lin. fold a e bb dd c g. rewrite <- Ea, <- Ee, Z1, Z2. f_equal; ring. }
        assert (Rd : v_length (p_sub (lin (tmat (combined b m)) (p_add p1 (V r 0))) (lin (tmat (combined b m)) p1)) = Rabs a * r).
        { unfold p_sub, lin, p_add. cbn [px py vx vy]. fold a e bb dd c g.
          change (@nsub R _) with Rminus. change (@nadd R _) with Rplus. rewrite Z1, Z2.
          rewrite length_axis by ring. replace (Rabs a * r) with (Rabs (a * r)) by (rewrite Rabs_mult, (Rabs_right r) by lra; reflexivity). f_equal. ring. }
        rewrite <- Rd in E2.
        apply (Fin ro (SRRect _ _ _) (fun _ => Ero) I (rrect_result _ _ _ _ _ _ _ _ _ E)).
        intros dc d. eapply rrect_draws; eauto using affine_new. rewrite Ero. exact Li.
      * assert (Nb : bb <> 0) by (intros Q; apply NZ; rewrite Q, Z1; ring).
        assert (Nd : dd <> 0) by (intros Q; apply NZ; rewrite Q, Z1; ring).
        destruct (sign_abs bb Nb) as (sb & Sb & Eb). destruct (sign_abs dd Nd) as (sd & Sd & Ed).
        assert (Ae : Rabs bb = Rabs dd) by (apply Sq; rewrite Z1, Z2 in Ev; lra).
        rewrite Ae in Eb. assert (L0 : 0 < Rabs dd) by (apply Rabs_pos_lt; auto).
        destruct (rr_loop p1 p2 r (lin (tmat (combined b m))) sb sd (Rabs dd) c g) as (cps & cps' & E1 & E2 & E3); auto.
        { right. intros p. unfold lin. fold a e bb dd c g. rewrite <- Eb, <- Ed, Z1, Z2. f_equal; ring. }
        assert (Rd : v_length (p_sub (lin (tmat (combined b m)) (p_add p1 (V r 0))) (lin (tmat (combined b m)) p1)) = Rabs dd * r).
        { unfold p_sub, lin, p_add. cbn [px py vx vy]. fold a e bb dd c g.
          change (@nsub R _) with Rminus. change (@nadd R _) with Rplus. rewrite Z1, Z2.
          rewrite length_axis by ring. replace (Rabs dd * r) with (Rabs (dd * r)) by (rewrite Rabs_mult, (Rabs_right r) by lra; reflexivity). f_equal. ring. }
        rewrite <- Rd in E2.
        apply (Fin ro (SRRect _ _ _) (fun _ => Ero) I (rrect_result _ _ _ _ _ _ _ _ _ E)).
        intros dc d. eapply rrect_draws; eauto using affine_new. rewrite Ero. exact Li.
    + destruct (pts_simple b [p1; p2] m S) as (ro & Ero & E). cbn [map] in E.
      apply (Fin ro (SEllipse _ _) (fun _ => Ero) I (proj2 (rect_result _ _ _ _ _ _ _ E))).
      intros dc d.
      destruct Co as [Co|Co];
      [destruct (ell_loop p1 p2 (lin (tmat (combined b m))) _ _ _ _ (or_introl Co)) as (cps & cps' & E1 & E2 & E3)
      |destruct (ell_loop p1 p2 (lin (tmat (combined b m))) _ _ _ _ (or_intror Co)) as (cps & cps' & E1 & E2 & E3)];
      eapply ellipse_draws; eauto using affine_new; rewrite Ero; exact Li.
  - (* a residue *)
    destruct SI as [SI|Inv]; [discriminate|].
    assert (NS : forall ro : transform R, false = true -> tmat ro = mat_id) by discriminate.
    destruct s as [cps|p1 p2|p1 p2 r|p1 p2]; [destruct Ht| | |].
    + destruct (pts_general b [p1; p2] m AM C S Inv) as (ro & dx & dy & E & Ar & HL). cbn [map] in E.
      apply (Fin ro (SRect _ _) (NS ro) I (proj1 (rect_result _ _ _ _ _ _ _ E))).
      intros dc d. apply rect_draws; auto. left. unfold corners. cbn [map]. rewrite !HL. reflexivity.
    + destruct Ht as (Hr & Nx & Ny & _ & _).
      destruct (pts_general b [p1; p2; p_add p1 (V r 0)] m AM C S Inv) as (ro & dx & dy & E & Ar & HL). cbn [map] in E.
      assert (Rd : v_length (p_sub (shift dx dy (p_add p1 (V r 0))) (shift dx dy p1)) = 1 * r).
      { unfold p_sub, shift, p_add. cbn [px py vx vy]. change (@nsub R _) with Rminus. change (@nadd R _) with Rplus.
        rewrite length_axis by ring. replace (1 * r) with (Rabs r) by (rewrite Rabs_right; lra). f_equal. ring. }
      destruct (rr_loop p1 p2 r (shift dx dy) 1 1 1 dx dy) as (cps & cps' & E1 & E2 & E3); auto; try lra.
      { left. intros p. unfold shift. f_equal; ring. }
      rewrite <- Rd in E2.
      apply (Fin ro (SRRect _ _ _) (NS ro) I (rrect_result _ _ _ _ _ _ _ _ _ E)).
      intros dc d. eapply rrect_draws; eauto.
    + destruct (pts_general b [p1; p2] m AM C S Inv) as (ro & dx & dy & E & Ar & HL). cbn [map] in E.
      apply (Fin ro (SEllipse _ _) (NS ro) I (proj2 (rect_result _ _ _ _ _ _ _ E))).
      intros dc d.
      destruct (ell_loop p1 p2 (shift dx dy) 1 1 dx dy) as (cps & cps' & E1 & E2 & E3).
      { left. intros p. unfold shift. f_equal; ring. }
      eapply ellipse_draws; eauto.
Qed.

(* when the combined matrix neither keeps the axes nor can be inverted, the corners cannot be
   carried over: LinAlgError, and the caller's transform is as before *)
Theorem C37_singular : forall (b : ebase R) (s : shape R) (m : transform R),
  let M := t_compose (tmat (e_xform b)) m in
  clean_mat (tmat M) -> t_is_simple M = false -> ~ invertible (tmat M) ->
  match s with SCurve _ => False | _ => True end ->
  exists m', leaf_transform b s m = (m', Raise LinAlgError) /\ same_matrix m m'.
Proof.
  intros b s m M C S I Hs. exists (T (tmat m) None (tstack m)). split; [|split; reflexivity].
  destruct s as [cps|p1 p2|p1 p2 r|p1 p2]; [destruct Hs| | |]; cbn [leaf_transform]; rewrite pts_singular by auto; reflexivity.
Qed.

Lemma invertible_dec m : invertible m \/ ~ invertible m.
Proof. unfold invertible. destruct (Req_EM_T (m00 m * m11 m - m01 m * m10 m) 0); auto. Qed.

(* the new radius is the old one times the length of the image of the unit x vector if the matrix
   keeps the axes; otherwise it is the old one *)
Theorem C37_radius : forall (b b' : ebase R) (p1 p2 q1 q2 : pt R) (r r' : R) (m m' : transform R),
  affine_mat (tmat m) -> affine_mat (tmat (e_xform b)) -> 0 <= r ->
  let M := t_compose (tmat (e_xform b)) m in
  clean_mat (tmat M) -> leaf_transform b (SRRect p1 p2 r) m = (m', Ok (ELeaf b' (SRRect q1 q2 r'))) ->
  (t_is_simple M = true -> r' = r * sqrt (m00 (tmat M) ^ 2 + m10 (tmat M) ^ 2) /\ q1 = lin (tmat M) p1 /\ q2 = lin (tmat M) p2) /\
  (t_is_simple M = false -> r' = r /\ px q2 - px q1 = px p2 - px p1 /\ py q2 - py q1 = py p2 - py p1).
Proof.
  intros b b' p1 p2 q1 q2 r r' m m' Am Ax Hr M C E. change M with (combined b m) in *. clear M.
  split; intros S.
  - destruct (pts_simple b [p1; p2; p_add p1 (V r 0)] m S) as (ro & Ero & Ep). cbn [map] in Ep.
    rewrite (rrect_result _ _ _ _ _ _ _ _ _ Ep) in E.
    remember (v_length (p_sub (lin (tmat (combined b m)) (p_add p1 (V r 0))) (lin (tmat (combined b m)) p1))) as rr eqn:Er.
    apply (f_equal snd) in E. cbn [snd] in E. apply Ok_inj in E. injection E as <- <- <- <-.
    split; [|auto]. subst rr. unfold v_length, p_sub, lin, p_add. cbn [px py vx vy].
    change (@nsub R _) with Rminus. change (@nadd R _) with Rplus. change (@nmul R _) with Rmult. change (@nsqrt R _) with sqrt.
    match goal with |- _ = r * ?x => transitivity (sqrt (r ^ 2) * x); [|rewrite sqrt_pow2 by auto; reflexivity] end.
    rewrite <- sqrt_mult_alt by nra. apply (f_equal sqrt). ring.
  - destruct (invertible_dec (tmat (combined b m))) as [I|I].
    + destruct (pts_general b [p1; p2; p_add p1 (V r 0)] m (combined_affine _ _ Am Ax) C S I) as (ro & dx & dy & Ep & _ & _). cbn [map] in Ep.
      rewrite (rrect_result _ _ _ _ _ _ _ _ _ Ep) in E.
      remember (v_length (p_sub (shift dx dy (p_add p1 (V r 0))) (shift dx dy p1))) as rr eqn:Er.
      apply (f_equal snd) in E. cbn [snd] in E. apply Ok_inj in E. injection E as <- <- <- <-.
      split; [|unfold shift; cbn [px py]; split; ring]. subst rr.
      unfold p_sub, shift, p_add. cbn [px py vx vy]. change (@nsub R _) with Rminus. change (@nadd R _) with Rplus.
      rewrite length_axis by ring. rewrite Rabs_right; lra.
    + cbn [leaf_transform] in E. rewrite pts_singular in E by auto. discriminate.
Qed.

(* without the even scale the corners do not keep their shape: a 4x4 rectangle with corners of
   radius 1, made twice as wide, gets corners of radius 2, while what it drew has 2x1 corners *)
Theorem C37_uneven_refuted :
  let b := EB "rr" ex_pb true t_new : ebase R in
  let m := T (mat_of6 2 0 0 0 1 0) None [] : transform R in
  exists m' b' r', leaf_transform b (SRRect (P 0 0) (P 4 4) 1) m = (m', Ok (ELeaf b' (SRRect (P 0 0) (P 8 4) r'))) /\ r' = 2 /\
  forall dc, ~ same_paths (snd (leaf_paths dc b' (SRRect (P 0 0) (P 8 4) r') t_new))
                          (snd (leaf_paths dc b (SRRect (P 0 0) (P 4 4) 1) (t_compose (tmat m) t_new))).
Proof.
  intros b m.
  assert (CM : tmat (combined b m) = mat_of6 2 0 0 0 1 0).
  { unfold combined, b, m. cbn -[IZR]. unfold mat_dot, mat_of6. cbn -[IZR]. f_equal; ring. }
  assert (S : t_is_simple (combined b m) = true).
  { unfold t_is_simple. rewrite CM. cbn [m00 m01 m10 m11 mat_of6]. rewrite !near_zero_0. reflexivity. }
  destruct (pts_simple b [P 0 0; P 4 4; p_add (P 0 0) (V 1 0)] m S) as (ro & Ero & Ep). cbn [map] in Ep.
  pose proof (rrect_result _ _ _ _ _ _ _ _ _ Ep) as E. rewrite CM in E.
  replace (lin (mat_of6 2 0 0 0 1 0) (P 0 0)) with (P 0 0) in E by (unfold lin; cbn -[IZR]; f_equal; ring).
  replace (lin (mat_of6 2 0 0 0 1 0) (P 4 4)) with (P 8 4) in E by (unfold lin; cbn -[IZR]; f_equal; ring).
  do 3 eexists. split; [exact E|].
  assert (Rd : v_length (p_sub (lin (mat_of6 2 0 0 0 1 0) (p_add (P 0 0) (V 1 0))) (P 0 0)) = 2).
  { unfold p_sub, lin, p_add. cbn [px py vx vy m00 m01 m02 m10 m11 m12 mat_of6]. change (@nsub R _) with Rminus. change (@nadd R _) with Rplus.
    rewrite length_axis by ring. rewrite Rabs_right; lra. }
  split; [exact Rd|]. rewrite Rd.
  intros dc (x & y & Ex & Ey & Pic). rewrite leaf_paths_rrect in Ex, Ey. cbn [snd e_xform e_pb e_closed] in Ex, Ey.
  assert (A0 : forall a : R, 0 <= a -> Rabs (a - 0) = a) by (intros; rewrite Rminus_0_r, Rabs_right; lra).
  (* what the original draws *)
  assert (O : exists cps s e, make_rounded_rect_cps (P 0 0) (P 4 4) 1 = Ok cps /\ In (s, e) (path_segments cps true) /\
     cc s = P 1 0 /\ right_of s = P (1 - bez_90) 0 /\ left_of e = P 0 (1 - bez_90) /\ cc e = P 0 1).
  { assert (W : rr_w (P 0 0) (P 4 4) = 4) by (unfold rr_w; cbn [px py]; apply A0; lra).
    assert (H : rr_h (P 0 0) (P 4 4) = 4) by (unfold rr_h; cbn [px py]; apply A0; lra).
    assert (RR : rr_r (P 0 0) (P 4 4) 1 = 1) by (unfold rr_r; rewrite W, H; unfold Rmin; repeat destruct (Rle_dec _ _); lra).
    assert (T0 : towards 0 4 = 1) by (unfold towards; destruct (Rle_dec 0 4); lra).
    do 3 eexists. split; [apply rr_cases; cbn [px py]; lra|]. rewrite W, H, RR. cbn [px py]. rewrite T0.
    unfold rr8, rr_out. destruct (Req_EM_T 1 0); [lra|]. destruct (Req_EM_T (2 * 1) 4); [lra|].
    split; [cbn [path_segments app consecutive In]; do 7 right; left; reflexivity|].
    unfold right_of, left_of, out_cp, cp_reversed. cbn [cc cdl cdr px py vx vy].
    split; [|split; [|split]]; f_equal; ring. }
  destruct O as (cps & s & e & Ec & Hse & Q1 & Q2 & Q3 & Q4). rewrite Ec in Ey. cbn [bind] in Ey.
  apply Ok_inj in Ey. subst y.
  destruct (C42_in_rect (P 0 0) (P 8 4) 2) as (cps' & Ec' & _); [lra|]. rewrite Ec' in Ex. cbn [bind] in Ex.
  apply Ok_inj in Ex. subst x. inversion Pic as [|? ? ? ? H1 H2]. subst. clear Pic H2.
  cbn [p_pb p_closed p_points] in H1. destruct H1 as (_ & _ & H1).
  set (f := t_transform (t_compose (tmat (e_xform b)) (t_compose (tmat m) t_new))) in H1.
  assert (Hf : forall p, f p = P (2 * px p) (py p)).
  { intros p. unfold f. rewrite orig_fun by (repeat split). rewrite CM. unfold t_transform at 1. rewrite apply_lin. change (tmat t_new) with (@mat_id R _). rewrite lin_id. unfold lin. cbn -[IZR]. f_equal; ring. }
  (* a drawn point of the original: the middle of a corner *)
  set (q := P (2 - sqrt 2) (1 - sqrt 2 / 2)).
  assert (D : exists q', piece (drawn f cps true 20) (p_xy q) q').
  { eexists. apply drawn_pieces. exists (s, e), q.
    eexists. split; [exact Hse|]. split; [reflexivity|]. split; [reflexivity|].
    left. apply (nth_error_In _ 10). apply consecutive_nth; unfold seg_pts; change (nsteps 20) with 20%nat;
      [|apply samples_nth; lia].
    rewrite samples_nth by lia. cbn [fst snd]. rewrite !Hf, Q1, Q2, Q3, Q4. cbn [px py].
    unfold q. f_equal. replace (INR 10 / INR 20) with (1 / 2) by (cbn; field).
    rewrite bez_90_R. unfold cubic, cubic1. cbn [px py]. f_equal; field. }
  destruct D as (q' & D). apply H1 in D. apply drawn_pieces in D.
  destruct D as ([s' e'] & a & c & I' & Eq & _ & Pc).
  assert (Eq' : q = a).
  { destruct a as [ax ay]. unfold p_xy, q in Eq. cbn [px py] in Eq. injection Eq as E1 E2. unfold q. rewrite E1, E2. reflexivity. }
  subst a.
  assert (Ia : In q (seg_pts (t_transform (t_compose (tmat ro) t_new)) (nsteps 20) (s', e')))
    by (destruct Pc as [Pc|Pc]; apply in_consecutive in Pc; tauto).
  unfold seg_pts in Ia. apply samples_in in Ia; [|auto]. destruct Ia as (t & Ht & Eqt). cbn [fst snd] in Eqt.
  assert (Idn : forall p, t_transform (t_compose (tmat ro) t_new) p = p).
  { intros p. rewrite compose_apply by (apply affine_new; auto). rewrite Ero, lin_id.
    unfold t_transform. rewrite apply_lin. change (tmat t_new) with (@mat_id R _). apply lin_id. }
  rewrite !Idn in Eqt. change (q = segment s' e' t) in Eqt.
  assert (S2 : sqrt 2 * sqrt 2 = 2) by (apply sqrt_sqrt; lra).
  assert (B : 14 / 10 < sqrt 2 < 15 / 10) by (pose proof (sqrt_pos 2); split; nra).
  destruct (C42_outline (P 0 0) (P 8 4) 2 cps' s' e') as [(z & Hz & L)|[(z & Hz & L)|(z & Hz & L)]]; cbn [px py] in *; auto; try lra.
  - specialize (L t). rewrite <- Eqt in L. unfold q in L. cbn [px py] in L. lra.
  - specialize (L t). rewrite <- Eqt in L. unfold q in L. cbn [px py] in L. lra.
  - specialize (L t). rewrite <- Eqt in L. unfold q, ellipse_level in L. cbn [px py] in L.
    rewrite !A0 in L, Hz by lra.
    replace (Rmin 2 (Rmin (8 / 2) (4 / 2))) with 2 in L, Hz by (unfold Rmin; repeat destruct (Rle_dec _ _); lra).
    unfold towards in Hz. destruct (Rle_dec 0 8); [|lra]. destruct (Rle_dec 0 4); [|lra].
    assert (Small : 0 <= (t * (1 - t) * (1 - 2 * t)) ^ 2 <= 1).
    { assert (0 <= t * (1 - t) <= 1) by nra. assert (-1 <= 1 - 2 * t <= 1) by lra.
      set (a := t * (1 - t)) in *. set (c0 := 1 - 2 * t) in *. clearbody a c0. split; [apply pow2_ge_0|].
      replace ((a * c0) ^ 2) with (a ^ 2 * c0 ^ 2) by ring. assert (0 <= a ^ 2 <= 1) by nra. assert (0 <= c0 ^ 2 <= 1) by nra. nra. }
    set (u := (t * (1 - t) * (1 - 2 * t)) ^ 2) in *. clearbody u.
    assert (Zx : px z = 2 \/ px z = 6) by (destruct Hz as [<-|[<-|[<-|[<-|[]]]]]; cbn [px]; solve [left; lra|right; lra]).
    assert (Zy : py z = 2) by (destruct Hz as [<-|[<-|[<-|[<-|[]]]]]; cbn [py]; lra).
    rewrite Zy in L.
    assert (V : 0 <= 2 * (3 - 2 * sqrt 2) ^ 2 * u <= 1 / 10).
    { assert (0 <= (3 - 2 * sqrt 2) ^ 2 <= 4 / 100) by nra. split; nra. }
    destruct Zx as [Zx|Zx]; rewrite Zx in L; nra.
Qed.

(* a rotated rectangle, a doubled rounded rectangle and a turned one are such cases *)
Example C37_nontrivial :
  let b := EB "r" ex_pb true (t_new6 (3 / 5) (4 / 5) 1 (- (4 / 5)) (3 / 5) 0) : ebase R in
  let m := t_new6 2 0 0 0 2 0 : transform R in
  affine_mat (tmat m) /\ affine_mat (tmat (e_xform b)) /\
  let M := t_compose (tmat (e_xform b)) m in
  clean_mat (tmat M) /\ t_is_simple M = false /\ invertible (tmat M) /\
  transformable (SRRect (P 1 (-1)) (P (-3) 4) (1 / 5)) M /\
  let M' := t_compose (tmat m) (t_new6 0 1 3 (-1) 0 2) in
  clean_mat (tmat M') /\ t_is_simple M' = true /\
  transformable (SRRect (P 1 (-1)) (P (-3) 4) (1 / 5)) M'.
Proof.
  intros b m. split; [repeat split|]. split; [repeat split|]. intros M.
  assert (tiny < 1 / 2) as Ti by (unfold tiny; lra). pose proof tiny_pos as Tp.
  assert (EM : tmat M = mat_of6 (6 / 5) (8 / 5) 2 (- (8 / 5)) (6 / 5) 0).
  { unfold M, b, m. unfold t_compose, t_new6, mat_dot, mat_of6. cbn -[IZR Rdiv]. f_equal; field. }
  assert (Cl : forall v, 1 / 2 <= v \/ v <= - (1 / 2) -> clean v).
  { intros v H. right. unfold Rabs. destruct (Rcase_abs v); lra. }
  assert (CM : clean_mat (tmat M)).
  { rewrite EM. unfold clean_mat, mat_of6. cbn [m00 m01 m10 m11]. repeat split; apply Cl; lra. }
  assert (S : t_is_simple M = false).
  { destruct (t_is_simple M) eqn:E; auto. destruct (simple_cases b m CM E) as [[H _]|[H _]];
    change (combined b m) with M in H; rewrite EM in H; cbn [m00 m01 m10 m11 mat_of6] in H; lra. }
  assert (I : invertible (tmat M)) by (rewrite EM; unfold invertible, mat_of6; cbn [m00 m01 m10 m11]; lra).
  split; [auto|]. split; [auto|]. split; [auto|]. split; [unfold transformable; cbn [px py]; repeat split; try lra; [exact I|congruence]|].
  intros M'.
  assert (EM' : tmat M' = mat_of6 0 2 3 (-2) 0 2).
  { unfold M', m. unfold t_compose, t_new6, mat_dot, mat_of6. cbn -[IZR Rdiv]. f_equal; field. }
  split; [rewrite EM'; unfold clean_mat, mat_of6; cbn [m00 m01 m10 m11]; repeat split; solve [left; lra|apply Cl; lra]|].
  split.
  { unfold t_is_simple. rewrite EM'. unfold mat_of6. cbn [m00 m01 m10 m11]. rewrite !near_zero_0. apply Bool.orb_true_r. }
  unfold transformable. rewrite EM'. unfold invertible, even_scale, mat_of6. cbn [px py m00 m01 m10 m11].
  repeat split; try lra.
Qed.
