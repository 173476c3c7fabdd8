(* Lemmas about drawing and transforming simple elements, over the real numbers. *)
Require Import Verif.Base Verif.NumR Verif.L_real Verif.M_vector Verif.M_bbox Verif.M_transform Verif.M_bezier Verif.M_colors Verif.M_elems.
Require Import Verif.L_ord Verif.S_bbox Verif.L_bbox Verif.S_transform Verif.L_transform Verif.L_vector Verif.S_bezier Verif.L_bezier Verif.P_bezier Verif.S_elems.
From Coq Require Import Reals List Permutation Lia Lra.
Import ListNotations.
Open Scope R_scope.

Lemma with_push_pure {F} {NF : Num F} {A} (chain : transform F -> transform F) (r : transform F -> res A) (s : transform F) :
  tstack (chain (t_push s)) = tstack (t_push s) ->
  with_push chain (fun m => (m, r m)) s = (T (tmat s) None (tstack s), r (chain (t_push s))).
Proof.
  intros H. unfold with_push. unfold t_pop. rewrite H. reflexivity.
Qed.

Lemma draw_space_pure {F} {NF : Num F} {A} (x : transform F) (r : transform F -> res A) (s : transform F) :
  draw_space x (fun m => (m, r m)) s =
  (T (tmat s) None (tstack s), r (t_compose (tmat x) (t_push s))).
Proof. unfold draw_space. rewrite with_push_pure; reflexivity. Qed.

Lemma pair_up_flat (l : list (R * R)) : pair_up (xy_flatten l) = l.
Proof. induction l as [|[x y] l IH]; cbn; auto. f_equal. exact IH. Qed.

(* ElemCurve.paths is bez_path without a transform *)
Lemma curve_points_fold (f : list R * nat -> cpoint R * cpoint R -> list R * nat) steps l :
  (forall acc pq, f acc pq = (fst acc ++ skipn (snd acc) (bez (cc (fst pq)) (cp_r (fst pq)) (cp_l (snd pq)) (cc (snd pq)) steps), 2%nat)) ->
  forall acc : list (pt R),
  fst (fold_left f l (xy_flatten (map p_xy acc), 2%nat))
  = xy_flatten (map p_xy (acc ++ flat_map (fun pq => tl (seg_pts (fun p => p) (nsteps steps) pq)) l)).
Proof.
  intros Hf. induction l as [|[p q] l IH]; intros acc; cbn [fold_left flat_map].
  - rewrite app_nil_r. reflexivity.
  - rewrite Hf. cbn [fst snd]. unfold bez at 1. rewrite bez_xy_R, skip2_flat.
    rewrite <- xy_flatten_app, <- map_app.
    change (samples (cc p) (cp_r p) (cp_l q) (cc q) (nsteps steps)) with (seg_pts (fun p => p) (nsteps steps) (p, q)).
    rewrite IH. rewrite <- app_assoc. reflexivity.
Qed.

Lemma curve_points_R (cps : list (cpoint R)) (closed : bool) steps :
  curve_points cps closed steps =
  xy_flatten (map p_xy (join_segs (fun p => p) (nsteps steps) (path_segments cps closed))).
Proof.
  unfold curve_points. rewrite <- path_combine.
  destruct (combine cps (tl cps ++ (if closed then cps else []))) as [|[p q] r]; auto.
  cbn [fold_left fst snd app skipn].
  replace (bez (cc p) (cp_r p) (cp_l q) (cc q) steps)
    with (xy_flatten (map p_xy (seg_pts (fun p => p) (nsteps steps) (p, q))))
    by (unfold bez; rewrite bez_xy_R; reflexivity).
  rewrite curve_points_fold with (steps := steps). reflexivity.
  intros acc [a b]. reflexivity.
Qed.

Lemma curve_points_bez (cps : list (cpoint R)) (closed : bool) steps :
  curve_points cps closed steps = bez_path (fun p => p) cps closed steps.
Proof. rewrite curve_points_R, bez_path_R. reflexivity. Qed.

(* the points drawn by a list of control points under f *)
Definition drawn (f : pt R -> pt R) (cps : list (cpoint R)) (closed : bool) (steps : Z) : list (R * R) :=
  map p_xy (join_segs f (nsteps steps) (path_segments cps closed)).

Lemma drawn_bez f cps closed steps : pair_up (bez_path f cps closed steps) = drawn f cps closed steps.
Proof. rewrite bez_path_R, pair_up_flat. reflexivity. Qed.

Definition dc_steps (dc : dctx) : Z := if show_cps dc then 10%Z else points_per_curve dc.

Lemma seg_pts_ext f g n pq : (forall p, f p = g p) -> seg_pts f n pq = seg_pts g n pq.
Proof. intros H. unfold seg_pts. rewrite !H. reflexivity. Qed.
Lemma join_ext f g n l : (forall p, f p = g p) -> join_segs f n l = join_segs g n l.
Proof.
  intros H. destruct l as [|a l]; auto. cbn [join_segs]. rewrite (seg_pts_ext f g) by auto. f_equal.
  apply flat_map_ext. intros b. rewrite (seg_pts_ext f g); auto.
Qed.
Lemma drawn_ext f g cps closed steps : (forall p, f p = g p) -> drawn f cps closed steps = drawn g cps closed steps.
Proof. intros H. unfold drawn. rewrite (join_ext f g); auto. Qed.

Lemma leaf_paths_curve dc b cps (m : transform R) :
  leaf_paths dc b (SCurve cps) m =
  (T (tmat m) None (tstack m),
   Ok [Path (e_pb b) (e_closed b)
         (drawn (t_transform (t_compose (tmat (e_xform b)) m)) cps (e_closed b) (dc_steps dc))]).
Proof.
  unfold leaf_paths. rewrite draw_space_pure. f_equal.
  destruct (mapM_linear (t_transform (t_compose (tmat (e_xform b)) (t_push m))) cps) as (cps' & E & H).
  rewrite E. cbn [bind]. rewrite curve_points_bez, drawn_bez.
  pose proof (C33_linear_path _ (fun p => p) cps cps' (e_closed b) (dc_steps dc) E) as K.
  apply (f_equal pair_up) in K. rewrite !drawn_bez in K. fold (dc_steps dc).
  rewrite K. reflexivity.
Qed.

Lemma leaf_paths_rect dc b p1 p2 (m : transform R) :
  leaf_paths dc b (SRect p1 p2) m =
  (T (tmat m) None (tstack m),
   Ok [Path (e_pb b) (e_closed b)
         (map (fun p => p_xy (t_transform (t_compose (tmat (e_xform b)) m) p)) (corners p1 p2 ++ [p1]))]).
Proof. unfold leaf_paths. rewrite draw_space_pure. reflexivity. Qed.

Lemma leaf_paths_rrect dc b p1 p2 r (m : transform R) :
  leaf_paths dc b (SRRect p1 p2 r) m =
  (T (tmat m) None (tstack m),
   let* cps := make_rounded_rect_cps p1 p2 r in
   Ok [Path (e_pb b) (e_closed b)
         (drawn (t_transform (t_compose (tmat (e_xform b)) m)) cps true 20)]).
Proof.
  unfold leaf_paths. rewrite draw_space_pure. destruct (make_rounded_rect_cps p1 p2 r) as [cps|e]; auto.
  cbn [bind]. rewrite drawn_bez. reflexivity.
Qed.

Lemma leaf_paths_ellipse dc b p1 p2 (m : transform R) :
  leaf_paths dc b (SEllipse p1 p2) m =
  (T (tmat m) None (tstack m),
   let* cps := make_ellipse_p1p2_cps p1 p2 in
   Ok [Path (e_pb b) (e_closed b)
         (drawn (t_transform (t_compose (tmat (e_xform b)) m)) cps true 20)]).
Proof.
  unfold leaf_paths. rewrite draw_space_pure. destruct (make_ellipse_p1p2_cps p1 p2) as [cps|e]; auto.
  cbn [bind]. rewrite drawn_bez. reflexivity.
Qed.

Lemma compose_apply (m : transform R) x p : affine_mat x ->
  t_transform (t_compose x m) p = t_transform m (lin x p).
Proof. intros H. unfold t_transform, t_compose. cbn [tmat]. rewrite apply_dot by auto. rewrite (apply_lin x). reflexivity. Qed.

(* ------------------------------------------------------------------ *)
(** * Drawn points and drawn pieces *)

Lemma samples_in a b c d n q : (1 <= n)%nat -> In q (samples a b c d n) ->
  exists t, 0 <= t <= 1 /\ q = cubic a b c d t.
Proof.
  intros Hn H. apply In_nth_error in H. destruct H as (i & H).
  assert (Hi : (i <= n)%nat).
  { assert (i < length (samples a b c d n))%nat by (apply nth_error_Some; congruence).
    rewrite samples_length in H0. lia. }
  rewrite samples_nth in H by auto. injection H as <-. exists (INR i / INR n). split; auto.
  assert (0 < INR n) by (apply lt_0_INR; lia). assert (0 <= INR i) by apply pos_INR.
  assert (INR i <= INR n) by (apply le_INR; auto). split.
  - apply Rmult_le_pos; auto. left. apply Rinv_0_lt_compat. auto.
  - apply Rmult_le_reg_r with (INR n); auto. unfold Rdiv. rewrite Rmult_assoc, Rinv_l; lra.
Qed.

Lemma nsteps_pos steps : (1 <= nsteps steps)%nat.
Proof. unfold nsteps. lia. Qed.
#[global] Hint Resolve nsteps_pos : core.

Lemma join_in f n l q : In q (join_segs f n l) -> exists pq, In pq l /\ In q (seg_pts f n pq).
Proof.
  destruct l as [|pq l]; [intros []|]. cbn [join_segs]. rewrite in_app_iff. intros [H|H].
  - exists pq. split; auto. now left.
  - apply in_flat_map in H. destruct H as (pq' & H1 & H2). exists pq'. split; [now right|].
    destruct (seg_pts f n pq'); [destruct H2|]. now right.
Qed.

Lemma drawn_in f cps closed steps q : In q (drawn f cps closed steps) ->
  exists s e t, In (s, e) (path_segments cps closed) /\ 0 <= t <= 1 /\
    q = p_xy (cubic (f (cc s)) (f (right_of s)) (f (left_of e)) (f (cc e)) t).
Proof.
  unfold drawn. intros H. apply in_map_iff in H. destruct H as (p & <- & H).
  apply join_in in H. destruct H as ([s e] & H1 & H2). unfold seg_pts in H2. cbn [fst snd] in H2.
  apply samples_in in H2; auto. destruct H2 as (t & Ht & ->). exists s, e, t. auto.
Qed.

Lemma drawn_affine f cps closed steps q : is_affine f -> In q (drawn f cps closed steps) ->
  exists p, on_path cps closed p /\ q = p_xy (f p).
Proof.
  intros A H. apply drawn_in in H. destruct H as (s & e & t & H & Ht & ->).
  exists (segment s e t). split; [exists s, e, t; auto|]. unfold segment. rewrite cubic_affine by auto. reflexivity.
Qed.

Lemma consecutive_glue {A} (l : list A) x r :
  consecutive (l ++ x :: r) = consecutive (l ++ [x]) ++ consecutive (x :: r).
Proof.
  induction l as [|a l IH]; auto. destruct l as [|b l]; auto.
  change (consecutive ((a :: b :: l) ++ x :: r)) with ((a, b) :: consecutive ((b :: l) ++ x :: r)).
  change (consecutive ((a :: b :: l) ++ [x])) with ((a, b) :: consecutive ((b :: l) ++ [x])).
  rewrite IH. reflexivity.
Qed.

(* each segment starts where the one before it ends *)
Fixpoint chained {A} (l : list (A * A)) : Prop :=
  match l with
  | a :: ((b :: _) as r) => snd a = fst b /\ chained r
  | _ => True
  end.
Lemma chained_consecutive {A} (l : list A) : chained (consecutive l).
Proof.
  induction l as [|a l IH]; cbn; auto. destruct l as [|b l]; cbn; auto.
  destruct l as [|c l]; cbn; auto.
Qed.
Lemma chained_path {A} (l : list A) closed : chained (path_segments l closed).
Proof. unfold path_segments. destruct l; cbn; auto. apply chained_consecutive. Qed.

Lemma seg_pts_ends f n pq : (1 <= n)%nat ->
  exists mid, seg_pts f n pq = f (cc (fst pq)) :: mid ++ [f (cc (snd pq))].
Proof.
  intros H. unfold seg_pts. rewrite samples_split by auto. eexists. reflexivity.
Qed.

Lemma join_pieces_aux f n l : (1 <= n)%nat -> forall q, chained l ->
  match l with [] => True | a :: _ => fst a = q end ->
  consecutive (f (cc q) :: flat_map (fun pq => tl (seg_pts f n pq)) l)
  = flat_map (fun pq => consecutive (seg_pts f n pq)) l.
Proof.
  intros Hn. induction l as [|[s e] l IH]; intros q C Hq; auto.
  cbn [fst] in Hq. subst s. cbn [flat_map].
  destruct (seg_pts_ends f n (q, e) Hn) as (mid & E). cbn [fst snd] in E.
  rewrite E. cbn [tl].
  rewrite <- app_assoc. cbn [app].
  change (f (cc q) :: mid ++ f (cc e) :: flat_map (fun pq => tl (seg_pts f n pq)) l)
    with ((f (cc q) :: mid) ++ f (cc e) :: flat_map (fun pq => tl (seg_pts f n pq)) l).
  rewrite consecutive_glue. rewrite (IH e).
  - reflexivity.
  - destruct l as [|a l]; cbn; auto. apply C.
  - destruct l as [|a l]; auto. symmetry. apply C.
Qed.

Lemma join_pieces f n l : (1 <= n)%nat -> chained l ->
  consecutive (join_segs f n l) = flat_map (fun pq => consecutive (seg_pts f n pq)) l.
Proof.
  intros Hn C. destruct l as [|[s e] l]; auto.
  transitivity (consecutive (f (cc s) :: flat_map (fun pq => tl (seg_pts f n pq)) ((s, e) :: l))).
  - cbn [join_segs flat_map]. destruct (seg_pts_ends f n (s, e) Hn) as (mid & ->). reflexivity.
  - apply join_pieces_aux; auto.
Qed.

Lemma piece_map {A B} (g : A -> B) (l : list A) p q : piece (map g l) p q <->
  exists a b, p = g a /\ q = g b /\ piece l a b.
Proof.
  unfold piece. rewrite consecutive_map. split.
  - intros [H|H]; apply in_map_iff in H; destruct H as ([a b] & E & H); injection E as <- <-; eauto 10.
  - intros (a & b & -> & -> & [H|H]); [left|right]; apply in_map_iff; eexists; split; eauto; reflexivity.
Qed.

Lemma drawn_pieces f cps closed steps p q :
  piece (drawn f cps closed steps) p q <->
  exists pq a b, In pq (path_segments cps closed) /\ p = p_xy a /\ q = p_xy b /\
    piece (seg_pts f (nsteps steps) pq) a b.
Proof.
  unfold drawn. rewrite piece_map. unfold piece at 1. rewrite join_pieces by (auto using chained_path).
  setoid_rewrite in_flat_map. split.
  - intros (a & b & -> & -> & [(pq & H & K)|(pq & H & K)]); exists pq, a, b; unfold piece; auto.
  - intros (pq & a & b & H & -> & -> & [K|K]); exists a, b; repeat split; eauto.
Qed.

Lemma samples_rev a b c d n : (1 <= n)%nat -> samples d c b a n = rev (samples a b c d n).
Proof.
  intros Hn. apply nth_ext_error. intros i. destruct (Compare_dec.le_lt_dec i n) as [H|H].
  - rewrite samples_nth by auto.
    assert (E : nth_error (rev (samples a b c d n)) i = nth_error (samples a b c d n) (n - i)).
    { assert (Hl : (i < length (samples a b c d n))%nat) by (rewrite samples_length; lia).
      pose proof (nth_error_nth' (rev (samples a b c d n)) (P 0 0) (n := i)) as E1.
      rewrite rev_length in E1. rewrite E1 by auto. rewrite rev_nth by auto.
      rewrite <- nth_error_nth' by (rewrite samples_length; lia).
      rewrite samples_length. reflexivity. }
    rewrite E, samples_nth by lia. f_equal. rewrite cubic_rev. f_equal.
    rewrite minus_INR by auto. assert (INR n <> 0) by (apply not_0_INR; lia). field. auto.
  - rewrite (proj2 (nth_error_None _ _)) by (rewrite samples_length; lia).
    symmetry. apply nth_error_None. rewrite rev_length, samples_length. lia.
Qed.

Lemma piece_rev {A} (l : list A) p q : piece (rev l) p q <-> piece l p q.
Proof.
  unfold piece. rewrite consecutive_rev. setoid_rewrite <- in_rev. setoid_rewrite in_map_iff.
  split.
  - intros [([a b] & E & H)|([a b] & E & H)]; injection E as <- <-; auto.
  - intros [H|H]; [right|left]; eexists; split; try apply H; reflexivity.
Qed.

(* the four points that make a segment, and the same backwards *)
Definition quad (f : pt R -> pt R) (pq : cpoint R * cpoint R) :=
  (f (cc (fst pq)), f (right_of (fst pq)), f (left_of (snd pq)), f (cc (snd pq))).
Definition rquad (f : pt R -> pt R) (pq : cpoint R * cpoint R) :=
  (f (cc (snd pq)), f (left_of (snd pq)), f (right_of (fst pq)), f (cc (fst pq))).
Definition same_seg f f' pq pq' := quad f pq = quad f' pq' \/ quad f pq = rquad f' pq'.
Definition covers f f' l l' := forall pq, In pq l -> exists pq', In pq' l' /\ same_seg f f' pq pq'.

Lemma seg_piece f f' n pq pq' a b : (1 <= n)%nat -> same_seg f f' pq pq' ->
  piece (seg_pts f n pq) a b -> piece (seg_pts f' n pq') a b.
Proof.
  unfold same_seg, quad, rquad, seg_pts. intros Hn [H|H]; injection H as -> -> -> ->; auto.
  rewrite samples_rev by auto. rewrite piece_rev. auto.
Qed.

Lemma covers_pieces f f' cps cps' closed closed' steps :
  covers f f' (path_segments cps closed) (path_segments cps' closed') ->
  forall p q, piece (drawn f cps closed steps) p q -> piece (drawn f' cps' closed' steps) p q.
Proof.
  intros C p q. rewrite !drawn_pieces. intros (pq & a & b & H & -> & -> & K).
  destruct (C pq H) as (pq' & H' & S). exists pq', a, b. repeat split; auto.
  eapply seg_piece; eauto.
Qed.

Lemma same_seg_sym f f' pq pq' : same_seg f f' pq pq' -> same_seg f' f pq' pq.
Proof.
  unfold same_seg, quad, rquad. intros [H|H]; injection H as A B C D; rewrite A, B, C, D; auto.
Qed.
Lemma same_seg_trans f f' f'' a b c : same_seg f f' a b -> same_seg f' f'' b c -> same_seg f f'' a c.
Proof.
  unfold same_seg, quad, rquad. intros [H|H] [K|K]; injection H as A B C D; injection K as A' B' C' D';
  rewrite A, B, C, D, A', B', C', D'; auto.
Qed.
Definition same_loop f f' l l' := covers f f' l l' /\ covers f' f l' l.
Lemma same_loop_sym f f' l l' : same_loop f f' l l' -> same_loop f' f l' l.
Proof. intros [A B]. split; auto. Qed.
Lemma same_loop_trans f f' f'' a b c : same_loop f f' a b -> same_loop f' f'' b c -> same_loop f f'' a c.
Proof.
  assert (X : forall f f' f'' a b c, covers f f' a b -> covers f' f'' b c -> covers f f'' a c).
  { intros g g' g'' x y z H K pq I. destruct (H pq I) as (pq' & I' & S). destruct (K pq' I') as (pq'' & I'' & S').
    exists pq''. split; auto. eapply same_seg_trans; eauto. }
  intros [A B] [A' B']. split; eapply X; eauto.
Qed.
Lemma same_loop_pieces f f' cps cps' closed closed' steps :
  same_loop f f' (path_segments cps closed) (path_segments cps' closed') ->
  same_pieces (drawn f cps closed steps) (drawn f' cps' closed' steps).
Proof. intros [A B] p q. split; eapply covers_pieces; eauto. Qed.

(* rotating a closed list *)
Lemma loop_rot f (a : cpoint R) l :
  same_loop f f (path_segments (l ++ [a]) true) (path_segments (a :: l) true).
Proof.
  assert (E : forall pq, In pq (path_segments (l ++ [a]) true) <-> In pq (path_segments (a :: l) true)).
  { intros pq. destruct l as [|b l]; [reflexivity|].
    change (path_segments ((b :: l) ++ [a]) true) with (consecutive (((b :: l) ++ [a]) ++ [b])).
    change (path_segments (a :: b :: l) true) with ((a, b) :: consecutive ((b :: l) ++ [a])).
    rewrite <- app_assoc. change ([a] ++ [b]) with [a; b].
    rewrite (consecutive_app1 (b :: l) a b). rewrite in_app_iff. cbn [In app]. tauto. }
  split; intros pq H; exists pq; (split; [apply E; auto|left; reflexivity]).
Qed.
(* reversing it *)
Lemma loop_rev f (l : list (cpoint R)) :
  same_loop f f (path_segments (reverse_list l) true) (path_segments l true).
Proof.
  destruct l as [|a l].
  { split; intros pq []. }
  assert (E : forall pq, In pq (consecutive (reverse_list ((a :: l) ++ [a]))) <->
              In pq (map swap_rev (consecutive ((a :: l) ++ [a])))).
  { intros pq. rewrite reverse_segments. symmetry. apply in_rev. }
  assert (X : same_loop f f (path_segments (reverse_list (a :: l)) true) (consecutive (reverse_list ((a :: l) ++ [a])))).
  { unfold reverse_list. rewrite rev_app_distr. cbn [rev app map]. rewrite map_app. cbn [map].
    apply loop_rot. }
  eapply same_loop_trans; [exact X|].
  change (path_segments (a :: l) true) with (consecutive ((a :: l) ++ [a])).
  split.
  - intros pq H. apply E in H. apply in_map_iff in H. destruct H as ([s e] & <- & H).
    exists (s, e). split; auto. right. reflexivity.
  - intros [s e] H. exists (swap_rev (s, e)). split; [apply E; apply in_map; auto|]. right. reflexivity.
Qed.

Lemma with_push_gen {F} {NF : Num F} {A} (chain g : transform F -> transform F) (r : transform F -> res A) (s : transform F) :
  tstack (g (chain (t_push s))) = tstack (t_push s) ->
  with_push chain (fun m => (g m, r m)) s = (T (tmat s) None (tstack s), r (chain (t_push s))).
Proof. intros H. unfold with_push, t_pop. rewrite H. reflexivity. Qed.
