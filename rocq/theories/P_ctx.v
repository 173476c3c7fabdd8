(* C70: the drawing calls of a DrawingContext. *)
From Coq Require Import Reals Lra.
Require Import Verif.L_real.
Require Import Verif.Base Verif.NumR Verif.M_vector Verif.M_bbox Verif.M_transform Verif.S_transform Verif.M_bezier Verif.M_colors Verif.M_elems Verif.M_group Verif.M_draw Verif.M_ctx Verif.S_ctx Verif.P_transform.
From Coq Require Import ZArith String List Lia.
Import ListNotations.
Local Open Scope string_scope.
Local Open Scope list_scope.
Local Open Scope R_scope.

Section Any.
  Context {F : Type} {NF : Num F} {RF : NumRoot F} {TF : NumTrig F} {FF : NumFloor F}.

  Lemma nth_set_same {A} (d : A) : forall l i a, (i < List.length l)%nat -> nth i (set_nth i a l) d = a.
  Proof. induction l; intros [|i] x H; cbn in *; try lia; auto. apply IHl. lia. Qed.
  Lemma nth_set_other {A} (d : A) : forall l i j a, i <> j -> nth j (set_nth i a l) d = nth j l d.
  Proof. induction l; intros [|i] [|j] x H; cbn; auto; try congruence. Qed.
  Lemma length_set {A} : forall (l : list A) i a, List.length (set_nth i a l) = List.length l.
  Proof. induction l; intros [|i] x; cbn; auto. Qed.
  Lemma emit_draws l (c : canvas F) : (target c < List.length (images c))%nat -> draws l c (emit l c).
  Proof.
    intros H. unfold draws, calls, emit. cbn. rewrite nth_set_same by exact H. repeat split; auto using length_set.
    intros i N. apply nth_set_other. auto.
  Qed.
  Lemma draws_trans l l' (a b c : canvas F) : draws l a b -> draws l' b c -> draws (l ++ l') a c.
  Proof.
    intros (A & B & C & D & E) (A' & B' & C' & D' & E'). unfold draws. rewrite A', A, D', D, C', C, <- app_assoc.
    destruct E as (E1 & E2 & E3 & E4 & E5 & E6 & E7 & E8), E' as (F1 & F2 & F3 & F4 & F5 & F6 & F7 & F8).
    repeat split; try congruence. intros i N. rewrite B', B; auto. now rewrite D.
  Qed.

  (* A line is one call, from the image of one end to the image of the other *)
  Theorem C70_line : forall x1 y1 x2 y2 col w (c : canvas F), (target c < List.length (images c))%nat ->
    let m := t_transform (dmatrix c) in
    draws [CLine [(px (m (P x1 y1)), py (m (P x1 y1))); (px (m (P x2 y2)), py (m (P x2 y2)))] (Some col) w] c (ctx_line x1 y1 x2 y2 col w c).
  Proof. intros. now apply emit_draws. Qed.

  (* A polygon is one call with the images of the corners in order; without corners nothing is drawn *)
  Theorem C70_polygon : forall pts fill outline (c : canvas F), (target c < List.length (images c))%nat ->
    match pts with
    | [] => ctx_polygon pts fill outline c = (c, Raise ValueError)
    | _ => exists c', ctx_polygon pts fill outline c = (c', Ok tt) /\
        draws [COutlined (map (fun p => let q := t_transform (dmatrix c) p in (px q, py q)) pts) fill outline] c c'
    end.
  Proof.
    intros pts fill outline c H. destruct pts as [|p pts]; [reflexivity|]. eexists. split; [reflexivity|].
    assert (E : forall l, pairs (flat_map (fun p => let q := t_transform (dmatrix c) p in [px q; py q]) l) = map (fun p => let q := t_transform (dmatrix c) p in (px q, py q)) l).
    { induction l as [|a l IH]; [reflexivity|]. cbn. apply (f_equal (cons _)). exact IH. }
    rewrite E. now apply emit_draws.
  Qed.
End Any.

(* the pixel of a model point *)
Definition pixel (c : canvas R) (u v : R) : R * R := let p := t_transform (dmatrix c) (P u v) in (px p, py p).

Lemma segment_image (c : canvas R) x1 y1 x2 y2 q : on_segment (pixel c x1 y1) (pixel c x2 y2) q <->
  exists u v, on_segment (x1, y1) (x2, y2) (u, v) /\ q = pixel c u v.
Proof.
  unfold on_segment, pixel. destruct q as [qx qy]. cbn. split.
  - intros (t & H & A & B). exists (x1 + t * (x2 - x1)), (y1 + t * (y2 - y1)). split; [exists t; auto|]. rewrite A, B. f_equal; unfold t_transform, mat_apply; cbn; ring.
  - intros (u & v & (t & H & -> & ->) & E). injection E as -> ->. exists t. split; [exact H|]. split; unfold t_transform, mat_apply; cbn; ring.
Qed.
Lemma segment_h x1 x2 y u v : x1 <> x2 -> (on_segment (x1, y) (x2, y) (u, v) <-> v = y /\ Rmin x1 x2 <= u <= Rmax x1 x2).
Proof.
  intros N. unfold on_segment. cbn. split.
  - intros (t & H & -> & ->). split; [ring|]. unfold Rmin, Rmax. destruct (Rle_dec x1 x2); nra.
  - intros (-> & H). exists ((u - x1) / (x2 - x1)). assert (D : x2 - x1 <> 0) by lra. split; [|split; field; exact D].
    unfold Rmin, Rmax in H. destruct (Rle_dec x1 x2).
    + assert (0 < x2 - x1) by lra. split; [apply Rmult_le_reg_r with (x2 - x1)|apply Rmult_le_reg_r with (x2 - x1)]; auto; unfold Rdiv; rewrite Rmult_assoc, Rinv_l by exact D; lra.
    + assert (0 < x1 - x2) by lra. split; [apply Rmult_le_reg_r with (x1 - x2)|apply Rmult_le_reg_r with (x1 - x2)]; auto;
      replace ((u - x1) / (x2 - x1) * (x1 - x2)) with (x1 - u) by (field; exact D); lra.
Qed.
Lemma segment_swap a b x y u v : on_segment (a, b) (x, y) (u, v) <-> on_segment (b, a) (y, x) (v, u).
Proof. unfold on_segment. cbn. split; intros (t & H & A & B); exists t; auto. Qed.
Lemma segment_v y1 y2 x u v : y1 <> y2 -> (on_segment (x, y1) (x, y2) (u, v) <-> u = x /\ Rmin y1 y2 <= v <= Rmax y1 y2).
Proof. intros N. rewrite segment_swap. now apply segment_h. Qed.

Lemma square_cases r u v : 0 <= r -> on_square r u v <-> (v = r \/ v = - r) /\ - r <= u <= r \/ (u = r \/ u = - r) /\ - r <= v <= r.
Proof.
  intros H. unfold on_square, Rmax, Rabs. destruct (Rle_dec _ _); destruct (Rcase_abs u); destruct (Rcase_abs v); lra.
Qed.
Lemma axis_cases r u v : on_axis r u v <-> v = 0 /\ - r <= u <= r \/ u = 0 /\ - r <= v <= r.
Proof. unfold on_axis, Rabs. destruct (Rcase_abs u); destruct (Rcase_abs v); lra. Qed.

Lemma grid_calls (c : canvas R) : (target c < List.length (images c))%nat ->
  let seg x1 y1 x2 y2 col := CLine [pixel c x1 y1; pixel c x2 y2] (Some (CStr col)) 1 in
  let sq r col := [seg (-r) r r r col; seg r (-r) r r col; seg r (-r) (-r) (-r) col; seg (-r) (-r) (-r) r col] in
  draws ([seg 1000 0 (-1000) 0 "red"; seg 0 1000 0 (-1000) "red"] ++ sq 100 "black" ++ sq 50 "green" ++ sq 10 "blue") c (ctx_grid c).
Proof.
  intros H seg sq. unfold ctx_grid. cbn [fold_left].
  assert (K : forall l d x1 y1 x2 y2 col, draws l c d -> draws (l ++ [CLine [pixel c x1 y1; pixel c x2 y2] (Some (CStr col)) 1]) c (ctx_line x1 y1 x2 y2 (CStr col) 1 d)).
  { intros l d x1 y1 x2 y2 col D. eapply draws_trans; [exact D|]. destruct D as (_ & _ & L & T & _ & _ & _ & M & _).
    pose proof (C70_line x1 y1 x2 y2 (CStr col) 1%Z d) as Q. cbv zeta in Q. rewrite M in Q. apply Q. now rewrite L, T. }
  assert (D0 : draws [] c c) by (unfold draws; rewrite app_nil_r; repeat split; auto).
  pose proof (fun l d x1 y1 x2 y2 => K l d (IZR x1) (IZR y1) (IZR x2) (IZR y2)) as KZ.
  repeat match goal with |- draws _ c (ctx_line _ _ _ _ _ _ _) => idtac end.
  change (draws ((((((((((((((([] ++ [seg 1000 0 (-1000) 0 "red"]) ++ [seg 0 1000 0 (-1000) "red"])
    ++ [seg (-100) 100 100 100 "black"]) ++ [seg 100 (-100) 100 100 "black"]) ++ [seg 100 (-100) (-100) (-100) "black"]) ++ [seg (-100) (-100) (-100) 100 "black"])
    ++ [seg (-50) 50 50 50 "green"]) ++ [seg 50 (-50) 50 50 "green"]) ++ [seg 50 (-50) (-50) (-50) "green"]) ++ [seg (-50) (-50) (-50) 50 "green"])
    ++ [seg (-10) 10 10 10 "blue"]) ++ [seg 10 (-10) 10 10 "blue"]) ++ [seg 10 (-10) (-10) (-10) "blue"]) ++ [seg (-10) (-10) (-10) 10 "blue"])) c
    (fold_left (fun c rc => let '(r, col) := (rc : Z * string) in
      let c := ctx_line (IZR (-r)) (IZR r) (IZR r) (IZR r) (CStr col) 1 c in
      let c := ctx_line (IZR r) (IZR (-r)) (IZR r) (IZR r) (CStr col) 1 c in
      let c := ctx_line (IZR r) (IZR (-r)) (IZR (-r)) (IZR (-r)) (CStr col) 1 c in
      ctx_line (IZR (-r)) (IZR (-r)) (IZR (-r)) (IZR r) (CStr col) 1 c) [(100, "black"); (50, "green"); (10, "blue")]%Z
      (ctx_line (IZR 0) (IZR 1000) (IZR 0) (IZR (-1000)) (CStr "red") 1 (ctx_line (IZR 1000) (IZR 0) (IZR (-1000)) (IZR 0) (CStr "red") 1 c)))).
  cbn [fold_left]. repeat apply K. exact D0.
Qed.

Local Tactic Notation "pick" integer(n) := do 3 eexists; split; [cbn [In app]; do n right; left; reflexivity|].
Local Ltac range := unfold Rmin, Rmax; destruct (Rle_dec _ _); lra.

(* The grid: in red the points of the axes up to 1000, in black, green and blue the edges of the
   squares with half sides 100, 50 and 10, all mapped by the matrix; no other line is drawn *)
Theorem C70_grid : forall (c : canvas R), (target c < List.length (images c))%nat -> exists l, draws l c (ctx_grid c) /\
  (forall x, In x l -> exists a b col, x = CLine [a; b] (Some (CStr col)) 1 /\ In col ["red"; "black"; "green"; "blue"]) /\
  forall col q, inked l (CStr col) q <-> exists u v, q = pixel c u v /\
    (col = "red" /\ on_axis 1000 u v \/ col = "black" /\ on_square 100 u v \/ col = "green" /\ on_square 50 u v \/ col = "blue" /\ on_square 10 u v).
Proof.
  intros c H. eexists. split; [exact (grid_calls c H)|]. split.
  - intros x Hx. cbn in Hx. repeat (destruct Hx as [<-|Hx]; [do 3 eexists; split; [reflexivity|cbn; tauto]|]). destruct Hx.
  - intros col q. unfold inked. split.
    + intros (a & b & w & I & S). cbn [In app] in I.
      repeat (destruct I as [I|I]; [injection I as <- <- <- <-; apply segment_image in S as (u & v & S & ->); exists u, v; split; [reflexivity|];
        rewrite ?axis_cases, !square_cases by lra;
        first [apply segment_h in S; [|lra]|apply segment_v in S; [|lra]]; unfold Rmin, Rmax in S; destruct (Rle_dec _ _) in S; try lra; intuition lra|]).
      destruct I.
    + intros (u & v & -> & K). rewrite axis_cases, !square_cases in K by lra.
      assert (W : forall x1 y1 x2 y2, on_segment (x1, y1) (x2, y2) (u, v) -> on_segment (pixel c x1 y1) (pixel c x2 y2) (pixel c u v)) by (intros; apply segment_image; eauto).
      assert (Hh : forall x1 x2 y, x1 <> x2 -> v = y -> Rmin x1 x2 <= u <= Rmax x1 x2 -> on_segment (pixel c x1 y) (pixel c x2 y) (pixel c u v)) by (intros; apply W, segment_h; auto).
      assert (Hv : forall y1 y2 x, y1 <> y2 -> u = x -> Rmin y1 y2 <= v <= Rmax y1 y2 -> on_segment (pixel c x y1) (pixel c x y2) (pixel c u v)) by (intros; apply W, segment_v; auto).
      destruct K as [[-> [K|K]]|[[-> [[[K|K] K2]|[[K|K] K2]]]|[[-> [[[K|K] K2]|[[K|K] K2]]]|[-> [[[K|K] K2]|[[K|K] K2]]]]]].
      * do 3 eexists; split; [left; reflexivity|]. apply Hh; [lra|lra|range].
      * pick 1. apply Hv; [lra|lra|range].
      * pick 2. apply Hh; [lra|lra|range].
      * pick 4. apply Hh; [lra|lra|range].
      * pick 3. apply Hv; [lra|lra|range].
      * pick 5. apply Hv; [lra|lra|range].
      * pick 6. apply Hh; [lra|lra|range].
      * pick 8. apply Hh; [lra|lra|range].
      * pick 7. apply Hv; [lra|lra|range].
      * pick 9. apply Hv; [lra|lra|range].
      * pick 10. apply Hh; [lra|lra|range].
      * pick 12. apply Hh; [lra|lra|range].
      * pick 11. apply Hv; [lra|lra|range].
      * pick 13. apply Hv; [lra|lra|range].
Qed.

(* unscale_pt undoes scale_pt, and scale_pt undoes unscale_pt, when the matrix can be inverted;
   otherwise unscale_pt raises. Only the remembered inverse may change *)
Theorem C70_unscale : forall (c : canvas R) (a b d e f g : R) ops,
  Forall affine_args ops -> fresh_rotate_about ops false -> dmatrix c = trun ops (t_new6 a b d e f g) ->
  (invertible (tmat (dmatrix c)) -> forall x y,
     (exists c', unscale_pt (fst (scale_pt x y c)) (snd (scale_pt x y c)) c = (c', Ok (x, y)) /\ forall u v, scale_pt u v c' = scale_pt u v c) /\
     (exists c' u v, unscale_pt x y c = (c', Ok (u, v)) /\ scale_pt u v c = (x, y) /\ scale_pt u v c' = (x, y))) /\
  (~ invertible (tmat (dmatrix c)) -> forall x y, snd (unscale_pt x y c) = Raise LinAlgError).
Proof.
  intros c a b d e f g ops FA FR E. pose proof (C01_untransform_undoes_transform a b d e f g ops FA FR) as K. cbv zeta in K. rewrite <- E in K.
  destruct K as [K1 K2]. split.
  - intros I x y. split.
    + destruct (proj1 (K1 I (P x y))) as (s' & Es & Em & _). unfold unscale_pt, scale_pt. cbn [fst snd].
      replace (P (px (t_transform (dmatrix c) (P x y))) (py (t_transform (dmatrix c) (P x y)))) with (t_transform (dmatrix c) (P x y)) by (now destruct (t_transform (dmatrix c) (P x y))).
      rewrite Es. eexists. split; [reflexivity|]. intros u v. unfold t_transform. cbn. now rewrite Em.
    + destruct (proj2 (K1 I (P x y))) as (s' & [u v] & Es & Et). destruct (proj1 (K1 I (P u v))) as (s2 & Es2 & Em2 & _).
      rewrite Et, Es in Es2. injection Es2 as <-. unfold unscale_pt, scale_pt. rewrite Es. do 3 eexists. split; [reflexivity|].
      cbn [px py]. rewrite Et. split; [reflexivity|]. unfold t_transform. cbn. rewrite Em2. unfold t_transform in Et. now rewrite Et.
  - intros I x y. unfold unscale_pt. now rewrite (K2 I).
Qed.

(* set_matrix copies the other matrix; without one nothing changes *)
Theorem C70_set_matrix : forall (c : canvas R) (m : transform R) x y,
  ctx_set_matrix None c = c /\
  scale_pt x y (ctx_set_matrix (Some m) c) = (px (t_transform m (P x y)), py (t_transform m (P x y))) /\
  images (ctx_set_matrix (Some m) c) = images c /\ tstack (dmatrix (ctx_set_matrix (Some m) c)) = tstack (dmatrix c).
Proof. intros. repeat split. Qed.

(* a matrix that moves and stretches, with a history *)
Definition ex_ops : list (top R) := [OScale 2 3; OTranslate 5 7; ORotateAbout 90 (P 1 1)].
Example C70_hypotheses : let c := new_canvas (trun ex_ops (t_new6 1 0 0 0 1 0)) true : canvas R in
  (target c < List.length (images c))%nat /\ Forall affine_args ex_ops /\ fresh_rotate_about ex_ops false /\
  invertible (tmat (dmatrix (new_canvas (trun [OScale 2 3; OTranslate 5 7] (t_new6 1 0 0 0 1 0)) true))).
Proof.
  split; [cbn; lia|]. split; [repeat constructor|]. split; [cbn; auto|]. unfold invertible, trun, t_new6. cbn. unfold mat_dot, mat_of6, scale_mat, translate_mat. cbn. apply Rgt_not_eq. lra.
Qed.
Example C70_line_ex : let c := new_canvas (trun [OScale 2 3; OTranslate 5 7] (t_new6 1 0 0 0 1 0)) true : canvas R in
  draws [CLine [(5, 7); (25, 37)] (Some (CStr "red")) 2] c (ctx_line 0 0 10 10 (CStr "red") 2 c).
Proof.
  intros c. pose proof (C70_line 0 0 10 10 (CStr "red") 2%Z c ltac:(cbn; lia)) as K. cbv zeta in K.
  replace [(5, 7); (25, 37)] with [(px (t_transform (dmatrix c) (P 0 0)), py (t_transform (dmatrix c) (P 0 0))); (px (t_transform (dmatrix c) (P 10 10)), py (t_transform (dmatrix c) (P 10 10)))]; [exact K|].
  unfold t_transform, mat_apply. cbn. unfold mat_dot, mat_of6, scale_mat, translate_mat. cbn. repeat f_equal; lra.
Qed.
(* the stroke width in pixels is the mean of the lengths, in pixels, of a horizontal and a vertical
   line of that width, wherever they are *)
Theorem C70_stroke_width (w x y : R) (c : canvas R) : 0 <= w ->
  let d (p q : R * R) := sqrt ((fst p - fst q) * (fst p - fst q) + (snd p - snd q) * (snd p - snd q)) in
  ctx_stroke_width w c =
    (d (scale_pt (x + w) y c) (scale_pt x y c) + d (scale_pt x (y + w) c) (scale_pt x y c)) / 2.
Proof.
  intros Hw d. unfold ctx_stroke_width. rewrite C07_width_is_mean_length. unfold d, scale_pt, dist2. cbn [fst snd].
  unfold t_transform, mat_apply. cbn [px py]. 
  change (@nadd R NumR) with Rplus. change (@nmul R NumR) with Rmult. change (@nofZ R NumR 1) with 1.
  set (m := tmat (dmatrix c)).
  match goal with |- w * ((sqrt ?A + sqrt ?B) / 2) = (sqrt ?A' + sqrt ?B') / 2 =>
    replace A' with (w * w * A) by ring; replace B' with (w * w * B) by ring end.
  rewrite !(sqrt_mult_alt (w * w)) by nra. rewrite sqrt_square by exact Hw. field.
Qed.
Example C70_grid_ex : let c := new_canvas (trun [OScale 2 3; OTranslate 5 7] (t_new6 1 0 0 0 1 0)) true : canvas R in
  exists l, draws l c (ctx_grid c) /\ inked l (CStr "black") (205, 37) /\ ~ inked l (CStr "black") (5, 7).
Proof.
  intros c. destruct (C70_grid c ltac:(cbn; lia)) as (l & D & _ & K). exists l. split; [exact D|]. split.
  - apply K. exists 100, 10. split; [unfold pixel, t_transform, mat_apply; cbn; unfold mat_dot, mat_of6, scale_mat, translate_mat; cbn; f_equal; lra|]. right. left. split; [reflexivity|]. unfold on_square. rewrite !Rabs_right by lra. apply Rmax_left. lra.
  - intros I. apply K in I as (u & v & E & I). unfold pixel, t_transform, mat_apply in E; cbn in E; unfold mat_dot, mat_of6, scale_mat, translate_mat in E; cbn in E. injection E as E1 E2. assert (u = 0) by lra. assert (v = 0) by lra. subst.
    unfold on_square in I. rewrite Rabs_R0, Rmax_left in I by lra. destruct I as [[I _]|[[_ I]|[[I _]|[I _]]]]; try discriminate; lra.
Qed.
