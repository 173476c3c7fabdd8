(* C64: rotate_about_center, and that the hypotheses of the theorems of P_builder.v are met. *)
Require Import Verif.Base Verif.NumR Verif.L_real Verif.M_vector Verif.M_bbox Verif.M_transform Verif.M_bezier Verif.M_colors Verif.M_elems Verif.M_group Verif.M_builder.
Require Import Verif.L_ord Verif.S_bbox Verif.L_bbox Verif.L_bboxR Verif.S_transform Verif.L_transform Verif.L_transform2 Verif.P_transform Verif.L_vector Verif.S_bezier Verif.L_bezier Verif.P_bezier Verif.S_elems Verif.L_elems Verif.P_elems Verif.P_p1p2 Verif.L_ptrans.
Require Import Verif.S_group Verif.S_builder Verif.L_group Verif.P_gnames Verif.P_builder.
From Coq Require Import String Reals List Lia Lra Bool.
Import ListNotations.
Local Open Scope string_scope.
Local Open Scope list_scope.
Local Open Scope R_scope.

Definition middle (p q : pt R) : pt R := P ((px p + px q) / 2) ((py p + py q) / 2).

Lemma of_pts_min_max (p q : pt R) : bbox_of_pts p q =
  BB (Rmin (px p) (px q)) (Rmin (py p) (py q)) (Rmax (px p) (px q)) (Rmax (py p) (py q)).
Proof. unfold bbox_of_pts, mkbbox. rewrite !pymin_R, !pymax_R. destruct p, q; cbn. f_equal; unfold Rmin, Rmax; repeat destruct Rle_dec; lra. Qed.
Lemma add_min_max a b c d a' b' c' d' : a <= c -> b <= d -> bbox_add (BB a b c d) (BB a' b' c' d') =
  BB (Rmin a a') (Rmin b b') (Rmax c c') (Rmax d d') .
Proof.
  intros H1 H2. unfold bbox_add. cbn. unfold mkbbox. rewrite !pymin_R, !pymax_R.
  f_equal; unfold Rmin, Rmax; repeat destruct Rle_dec; lra.
Qed.
Lemma min_le_max a b : Rmin a b <= Rmax a b.
Proof. unfold Rmin, Rmax. destruct (Rle_dec a b); lra. Qed.
Lemma min_max_sum a b : Rmin a b + Rmax a b = a + b.
Proof. unfold Rmin, Rmax. destruct (Rle_dec a b); lra. Qed.
Lemma min_max_4 a b c d : a + b = c + d ->
  Rmin (Rmin a b) (Rmin c d) + Rmax (Rmax a b) (Rmax c d) = a + b.
Proof. intros H. unfold Rmin, Rmax. repeat destruct Rle_dec; lra. Qed.

Lemma ext_center (x : transform R) (p1 p2 : pt R) : exists bb,
  bbox_ext x (bbox_of_pts p1 p2) = Ok bb /\ bbox_center bb = Ok (lin (tmat x) (middle p1 p2)).
Proof.
  rewrite of_pts_min_max. unfold bbox_ext. cbn [bbox_pll bbox_phh bbox_plh bbox_phl bind].
  rewrite !of_pts_min_max, add_min_max by apply min_le_max. eexists. split; [reflexivity|].
  cbn [bbox_center]. rewrite !tt_lin. unfold lin. cbn [px py middle].
  set (a := Rmin (px p1) (px p2)). set (b := Rmin (py p1) (py p2)).
  set (c := Rmax (px p1) (px p2)). set (d := Rmax (py p1) (py p2)).
  rewrite !min_max_4 by ring.
  assert (Hx : a + c = px p1 + px p2) by apply min_max_sum.
  assert (Hy : b + d = py p1 + py p2) by apply min_max_sum.
  change (nofZ 2) with 2. cbn. f_equal. unfold middle. cbn [px py].
  replace (px p2) with (a + c - px p1) by lra. replace (py p2) with (b + d - py p1) by lra.
  f_equal; field.
Qed.

Lemma leaf_center (b : ebase R) s p1 p2 : two_corners s = Some (p1, p2) -> exists bb,
  elem_bbox (ELeaf b s) = Ok bb /\ bbox_center bb = Ok (lin (tmat (e_xform b)) (middle p1 p2)).
Proof.
  intros H. change (elem_bbox (ELeaf b s)) with (leaf_bbox b s). unfold leaf_bbox.
  destruct s; cbn in H; try discriminate; injection H as -> ->; cbn [shape_bbox_int bind]; apply ext_center.
Qed.

(* what transform_pts returns, when it returns *)
Lemma pts_any (b : ebase R) pts (m : transform R) ro qs : snd (transform_pts b pts m) = Ok (ro, qs) ->
  Forall2 (fun p q => lin (tmat ro) q = lin (tmat (combined b m)) p) pts qs.
Proof.
  destruct (t_simplify (combined b (t_push m))) as [xl ro'] eqn:E.
  rewrite (transform_pts_R b pts m xl ro' E). cbn [snd]. intros H.
  apply bind_ok in H as (qs' & H & E'). injection E' as -> ->.
  assert (Ro : affine_state ro /\ cache_ok ro).
  { unfold t_simplify in E. destruct (t_is_simple _); injection E as _ <-; repeat split; constructor. }
  destruct Ro as [A C]. revert qs H. induction pts as [|p pts IH]; intros qs H; cbn [mapM] in H.
  - injection H as <-. constructor.
  - apply bind_ok in H as (q & Hq & H). apply bind_ok in H as (qs1 & Hqs & H). injection H as <-.
    constructor; [|now apply IH].
    destruct (invertible_dec (tmat ro)) as [I|I].
    + rewrite tt_lin, combined_mat in Hq.
      destruct (invertible_lin _ I (px (lin (tmat (combined b m)) p) - m02 (tmat ro)) (py (lin (tmat (combined b m)) p) - m12 (tmat ro))) as (u & v & Hu & Hv).
      assert (El : lin (tmat ro) (P u v) = lin (tmat (combined b m)) p).
      { apply pnt_ext; unfold lin at 1; cbn [px py]; lra. }
      destruct (untransform_ok ro (P u v) A C) as [X _]. destruct (X I) as (s' & Es & _).
      rewrite tt_lin, El in Es. rewrite Es in Hq. cbn [snd] in Hq. injection Hq as <-. exact El.
    + destruct (untransform_ok ro (t_transform (combined b (t_push m)) p) A C) as [_ X]. rewrite X in Hq by exact I. discriminate.
Qed.

Lemma lin_middle m p q p' q' ro : lin ro p' = lin m p -> lin ro q' = lin m q -> lin ro (middle p' q') = lin m (middle p q).
Proof.
  unfold lin, middle. cbn [px py]. intros H1 H2. injection H1 as A1 B1. injection H2 as A2 B2. f_equal; lra.
Qed.

(* rotate_about_center keeps the centre of the box of a rectangle, rounded rectangle or
   ellipse, whatever the angle and whatever the transform of the shape *)
Theorem C64_rotate_center : forall (root g root' new : elem R) (bl : builder R) (b : ebase R) (s : shape R)
    (p1 p2 : pt R) (angle : R) (show : bool) (extra n : string),
  sound root -> reaches root (bl_path bl) g -> is_group g ->
  affine_mat (tmat (e_xform b)) -> two_corners s = Some (p1, p2) ->
  b_rotate bl (ELeaf b s) angle show extra root = (root', Ok (n, new)) ->
  exists bb bb' c, elem_bbox (ELeaf b s) = Ok bb /\ elem_bbox new = Ok bb' /\
    bbox_center bb = Ok c /\ bbox_center bb' = Ok c.
Proof.
  intros root g root' new bl b s p1 p2 angle show extra n Sr R G Ax Ht E.
  pose proof (C64_rotate_call root g bl b s angle show extra Sr R G) as X. rewrite E in X.
  destruct X as (bb & c & e & Eb & Ec & Et & Rn & _).
  destruct (leaf_center b s p1 p2 Ht) as (bb0 & Eb0 & Ec0). rewrite Eb in Eb0. injection Eb0 as <-.
  rewrite Ec in Ec0. injection Ec0 as Ec0.
  assert (K : exists b' s' q1 q2, e = ELeaf b' s' /\ two_corners s' = Some (q1, q2) /\
     lin (tmat (e_xform b')) (middle q1 q2) = c).
  { assert (Am : forall p, lin (tmat (combined b (t_rotate_about angle c t_new))) p = about c (turn_cw angle) (lin (tmat (e_xform b)) p)).
    { intros p. rewrite combined_lin by auto. rewrite <- !tt_lin. rewrite rotate_about_pt by (repeat split).
      f_equal. rewrite (tt_lin t_new). unfold lin. cbn. apply pnt_ext; cbn; ring. }
    assert (Fix : about c (turn_cw angle) c = c).
    { unfold about, turn_cw, turn_ccw, shift. apply pnt_ext; cbn [px py]; ring. }
    assert (Z : forall q1 q2 ro, lin (tmat ro) q1 = lin (tmat (combined b (t_rotate_about angle c t_new))) p1 ->
       lin (tmat ro) q2 = lin (tmat (combined b (t_rotate_about angle c t_new))) p2 ->
       lin (tmat ro) (middle q1 q2) = c).
    { intros q1 q2 ro H1 H2. rewrite (lin_middle _ _ _ _ _ _ H1 H2), Am, <- Ec0. exact Fix. }
    change (elem_transform (ELeaf b s)) with (leaf_transform b s) in Et.
    destruct s as [|a1 a2|a1 a2 r|a1 a2]; cbn in Ht; try discriminate; injection Ht as -> ->; unfold leaf_transform in Et.
    - destruct (transform_pts b [p1; p2] (t_rotate_about angle c t_new)) as [m' [[ro qs]|]] eqn:Ep; [|discriminate].
      assert (Fa := pts_any b [p1; p2] (t_rotate_about angle c t_new) ro qs). rewrite Ep in Fa. specialize (Fa eq_refl).
      inversion Fa as [|? q1 ? ? H1 Fb]; subst. inversion Fb as [|? q2 ? ? H2 Fc]; subst. inversion Fc; subst.
      cbn [snd bind] in Et. apply bind_ok in Et as (b' & Eb' & Et). apply Ok_inj in Et. subst e.
      unfold mk_base in Eb'. destruct (_ && _); [discriminate|]. apply Ok_inj in Eb'. subst b'.
      do 4 eexists. split; [reflexivity|]. split; [reflexivity|]. cbn [e_xform]. now apply Z.
    - destruct (transform_pts b [p1; p2; p_add p1 (V r (nofZ 0))] (t_rotate_about angle c t_new)) as [m' [[ro qs]|]] eqn:Ep; [|discriminate].
      assert (Fa := pts_any b [p1; p2; p_add p1 (V r (nofZ 0))] (t_rotate_about angle c t_new) ro qs). rewrite Ep in Fa. specialize (Fa eq_refl).
      inversion Fa as [|? q1 ? ? H1 Fb]; subst. inversion Fb as [|? q2 ? ? H2 Fc]; subst. inversion Fc as [|? q3 ? ? H3 Fd]; subst. inversion Fd; subst.
      cbn [snd bind] in Et. apply bind_ok in Et as (b' & Eb' & Et). apply Ok_inj in Et. subst e.
      unfold mk_base in Eb'. destruct (_ && _); [discriminate|]. apply Ok_inj in Eb'. subst b'.
      do 4 eexists. split; [reflexivity|]. split; [reflexivity|]. cbn [e_xform]. now apply Z.
    - destruct (transform_pts b [p1; p2] (t_rotate_about angle c t_new)) as [m' [[ro qs]|]] eqn:Ep; [|discriminate].
      assert (Fa := pts_any b [p1; p2] (t_rotate_about angle c t_new) ro qs). rewrite Ep in Fa. specialize (Fa eq_refl).
      inversion Fa as [|? q1 ? ? H1 Fb]; subst. inversion Fb as [|? q2 ? ? H2 Fc]; subst. inversion Fc; subst.
      cbn [snd bind] in Et. apply bind_ok in Et as (b' & Eb' & Et). apply Ok_inj in Et. subst e.
      unfold mk_base in Eb'. destruct (_ && _); [discriminate|]. apply Ok_inj in Eb'. subst b'.
      do 4 eexists. split; [reflexivity|]. split; [reflexivity|]. cbn [e_xform]. now apply Z. }
  destruct K as (b' & s' & q1 & q2 & -> & Hq & Hc).
  destruct new as [b2 s2| |]; cbn in Rn; try contradiction. destruct Rn as [-> ->].
  destruct (leaf_center (EB n (e_pb b') (e_closed b') (e_xform b')) s' q1 q2 Hq) as (bb' & Eb' & Ec').
  exists bb, bb', c. split; [exact Eb|]. split; [exact Eb'|]. split; [exact Ec|]. rewrite Ec'. cbn [e_xform]. now rewrite Hc.
Qed.

(* ------------------------------------------------------------------ *)
(** ** Curves *)

Definition ex_edge : penbrush R := mk_penbrush (Some (PAColor (CStr "black"))) None.
Definition ex_group : elem R := EGroup (EB "top" ex_edge false t_new) false [] [].
Definition ex_pens : by_shape (penbrush R) := ByShape ex_edge ex_edge ex_edge ex_edge ex_edge.
Definition ex_bl : builder R := Builder [] ex_pens "edge".
Definition corner (x y : R) : cpoint R := CP (P x y) (V 0 0) (V 0 0) "smooth".
Definition triangle : list (cpoint R) := [corner 0 0; corner 2 0; corner 0 2].
Definition ex_tri : ebase R := EB "t" ex_edge false t_new.

Lemma ex_group_sound : sound ex_group.
Proof. constructor; cbn; try easy; repeat constructor; try easy. Qed.

Lemma corner_box x y : cp_bbox (corner x y) = BB x y x y.
Proof.
  unfold cp_bbox, cp_l, cp_r, corner. cbn [cc cdl cdr]. rewrite of_pts_min_max.
  unfold bbox_grow, p_add. cbn. unfold mkbbox. rewrite ?pymin_R, ?pymax_R.
  f_equal; unfold Rmin, Rmax; repeat destruct Rle_dec; lra.
Qed.
Lemma tri_box x0 y0 x1 y1 x2 y2 : shape_bbox_int (SCurve [corner x0 y0; corner x1 y1; corner x2 y2]) =
  Ok (BB (Rmin (Rmin x0 x1) x2) (Rmin (Rmin y0 y1) y2) (Rmax (Rmax x0 x1) x2) (Rmax (Rmax y0 y1) y2)).
Proof.
  cbn [shape_bbox_int fold_left]. rewrite !corner_box. rewrite !add_min_max; try lra; auto;
  unfold Rmin, Rmax; repeat destruct Rle_dec; lra.
Qed.
Lemma new_lin p : t_transform (@t_new R _) p = p.
Proof. rewrite tt_lin. unfold lin. cbn. apply pnt_ext; cbn; ring. Qed.
Lemma ext_new (a b c d : R) : a <= c -> b <= d -> bbox_ext t_new (BB a b c d) = Ok (BB a b c d).
Proof.
  intros H1 H2. unfold bbox_ext. cbn [bbox_pll bbox_phh bbox_plh bbox_phl bind]. rewrite !new_lin, !of_pts_min_max.
  cbn [px py]. rewrite add_min_max by apply min_le_max. f_equal. f_equal; unfold Rmin, Rmax; repeat destruct Rle_dec; lra.
Qed.
Definition tri_center (x0 y0 x1 y1 x2 y2 : R) : pt R :=
  P ((Rmin (Rmin x0 x1) x2 + Rmax (Rmax x0 x1) x2) / 2) ((Rmin (Rmin y0 y1) y2 + Rmax (Rmax y0 y1) y2) / 2).
Lemma tri_bbox n x0 y0 x1 y1 x2 y2 : exists bb,
  elem_bbox (ELeaf (EB n ex_edge false t_new) (SCurve [corner x0 y0; corner x1 y1; corner x2 y2])) = Ok bb /\
  bbox_center bb = Ok (tri_center x0 y0 x1 y1 x2 y2).
Proof.
  eexists. split.
  - change (elem_bbox (ELeaf ?b ?s)) with (leaf_bbox b s). unfold leaf_bbox. rewrite tri_box. cbn [bind e_xform].
    apply ext_new; unfold Rmin, Rmax; repeat destruct Rle_dec; lra.
  - reflexivity.
Qed.

(* the corner of a curve with zero handles goes to a corner *)
Lemma corner_turn (f : pt R -> pt R) x y : cp_transform f true (corner x y) = Ok (corner (px (f (P x y))) (py (f (P x y)))).
Proof.
  unfold cp_transform, cp_l, cp_r, corner. cbn [cc cdl cdr ckind].
  replace (p_add (P x y) (V 0 0)) with (P x y) by (apply pnt_ext; cbn; ring).
  unfold p_sub. do 2 f_equal; [destruct (f (P x y)); reflexivity| |]; f_equal; cbn; ring.
Qed.

Lemma turn45 x y : t_transform (t_compose (tmat t_new) (t_push (t_rotate_about 45 (P 1 1) t_new))) (P x y) =
  P (1 + ((x - 1) + (y - 1)) / sqrt 2) (1 + ((y - 1) - (x - 1)) / sqrt 2).
Proof.
  rewrite compose_apply by (repeat split). rewrite <- tt_lin, new_lin.
  change (t_transform (t_push ?m)) with (t_transform m).
  rewrite rotate_about_pt by (repeat split). rewrite new_lin.
  assert (A : - (45) * (PI / 180) = - (PI / 4)) by field.
  unfold about, turn_cw, turn_ccw, shift. cbn [px py]. rewrite A, cos_neg, sin_neg, cos_PI4, sin_PI4.
  assert (0 < sqrt 2) by (apply sqrt_lt_R0; lra).
  apply pnt_ext; cbn [px py]; field; lra.
Qed.

(* a curve may move: this triangle, turned by 45 degrees about the centre of its box, has
   another box centre *)
Theorem C64_rotate_center_refuted :
  exists root' n new bb bb' c c', sound ex_group /\
    b_rotate ex_bl (ELeaf ex_tri (SCurve triangle)) 45 false "" ex_group = (root', Ok (n, new)) /\
    elem_bbox (ELeaf ex_tri (SCurve triangle)) = Ok bb /\ elem_bbox new = Ok bb' /\
    bbox_center bb = Ok c /\ bbox_center bb' = Ok c' /\ c <> c'.
Proof.
  destruct (tri_bbox "t" 0 0 2 0 0 2) as (bb & Eb & Ec).
  assert (C1 : tri_center 0 0 2 0 0 2 = P 1 1).
  { unfold tri_center. apply pnt_ext; cbn [px py]; unfold Rmin, Rmax; repeat destruct Rle_dec; lra. }
  rewrite C1 in Ec.
  set (T := fun x y => P (1 + ((x - 1) + (y - 1)) / sqrt 2) (1 + ((y - 1) - (x - 1)) / sqrt 2) : pt R).
  set (img := fun x y => corner (px (T x y)) (py (T x y))).
  assert (Et : snd (elem_transform (ELeaf ex_tri (SCurve triangle)) (t_rotate_about 45 (P 1 1) t_new)) =
               Ok (ELeaf (EB "t" ex_edge false t_new) (SCurve [img 0 0; img 2 0; img 0 2]))).
  { change (elem_transform (ELeaf ?b ?s)) with (leaf_transform b s). unfold leaf_transform, curve_transform, with_push, triangle.
    cbv beta iota zeta.
    change (e_xform ex_tri) with (@t_new R _). cbn [mapM]. rewrite !corner_turn. cbn [bind]. rewrite !turn45. reflexivity. }
  assert (Er : exists root', b_rotate ex_bl (ELeaf ex_tri (SCurve triangle)) 45 false "" ex_group =
     (root', Ok ("t_r", ELeaf (EB "t_r" ex_edge false t_new) (SCurve [img 0 0; img 2 0; img 0 2])))).
  { unfold b_rotate. change (elem_bbox (ELeaf ex_tri (SCurve triangle))) with (elem_bbox (ELeaf (EB "t" ex_edge false t_new) (SCurve [corner 0 0; corner 2 0; corner 0 2]))).
    rewrite Eb. cbn [bind]. rewrite Ec. cbn [bind]. rewrite Et. cbn [bind]. eexists. reflexivity. }
  destruct Er as (root' & Er).
  destruct (tri_bbox "t_r" (px (T 0 0)) (py (T 0 0)) (px (T 2 0)) (py (T 2 0)) (px (T 0 2)) (py (T 0 2))) as (bb' & Eb' & Ec').
  do 7 eexists. split; [apply ex_group_sound|]. split; [exact Er|]. split; [exact Eb|]. split; [exact Eb'|].
  split; [exact Ec|]. split; [exact Ec'|].
  unfold tri_center, T. cbn [px py]. intros X. injection X as X _.
  assert (S2 : 0 < / sqrt 2) by (apply Rinv_0_lt_compat, sqrt_lt_R0; lra).
  unfold Rdiv in X. replace ((0 - 1 + (0 - 1)) * / sqrt 2) with (- (2 * / sqrt 2)) in X by ring.
  replace ((2 - 1 + (0 - 1)) * / sqrt 2) with 0 in X by ring. replace ((0 - 1 + (2 - 1)) * / sqrt 2) with 0 in X by ring.
  revert X. unfold Rmin, Rmax. repeat destruct Rle_dec; lra.
Qed.

(* ------------------------------------------------------------------ *)
(** ** The hypotheses are met *)

Definition ex_calls : list (nat * bcall R) :=
  [ (0%nat, BGroup "g" None None);
    (1%nat, BShape "a" (SRect (P 0 0) (P 4 2)) KNone (Some true));
    (1%nat, BShape "a" (SRect (P 0 0) (P 4 2)) (KStr "edge") (Some true));
    (0%nat, BPoint "p" (P 1 2));
    (0%nat, BPoint "p" (P 3 4));                                                (* raises *)
    (0%nat, BShape "b" (SRect (P 0 0) (P 4 2)) (KStr "blue") (Some true)) ].    (* raises *)
Example C64_nontrivial : exists st0, b_init "top" ex_pens "edge" = Ok st0 /\
  let st := b_run ex_calls st0 in
  map bl_path (snd st) = [[]; ["g"]] /\
  (exists b, fst st = EGroup b false
     [("g", EGroup (EB "g" (e_pb b) false t_new) false
              [("a", ELeaf (EB "a" ex_edge true t_new) (SRect (P 0 0) (P 4 2)));
               ("rectangle#0", ELeaf (EB "rectangle#0" ex_edge true t_new) (SRect (P 0 0) (P 4 2)))] [])]
     [("p", P 1 2)]) /\
  snd (b_call ex_bl (BShape "b" (SRect (P 0 0) (P 4 2)) (KStr "blue") (Some true)) st) = Raise ValueError /\
  snd (b_call ex_bl (BShape "b" (SRect (P 0 0) (P 4 2)) KNone None) st) = Raise AssertionError /\
  snd (b_call ex_bl (BPoint "p" (P 3 4)) st) = Raise AssertionError /\
  elem_lookup (fst st) "g.rectangle#0" = Ok (ELeaf (EB "rectangle#0" ex_edge true t_new) (SRect (P 0 0) (P 4 2))).
Proof. eexists. split; [reflexivity|]. split; [reflexivity|]. split; [exists (EB "top" (mk_penbrush (Some (PAColor (CStr "default"))) None) false t_new); reflexivity|]. repeat split. Qed.

(* turning a rectangle, and marking the centre *)
Example C64_rotate_nontrivial : exists root' new,
  b_rotate ex_bl (ELeaf (EB "a" ex_edge true t_new) (SRect (P 0 0) (P 4 2))) 90 true "" ex_group = (root', Ok ("a_r", new)) /\
  member_keys root' = ["a_r"; "a_c"] /\ affine_mat (tmat (@t_new R _)).
Proof.
  destruct (leaf_center (EB "a" ex_edge true t_new) (SRect (P 0 0) (P 4 2)) (P 0 0) (P 4 2) eq_refl) as (bb & Eb & Ec).
  unfold b_rotate. rewrite Eb. cbn [bind]. rewrite Ec. cbn [bind].
  set (c := lin _ _).
  change (elem_transform (ELeaf ?b ?s)) with (leaf_transform b s). unfold leaf_transform.
  set (m := t_rotate_about 90 c t_new).
  assert (Si : t_is_simple (combined (EB "a" ex_edge true t_new) m) = true).
  { assert (L : forall p, lin (tmat (combined (EB "a" ex_edge true t_new) m)) p = about c (turn_cw 90) p).
    { intros p. rewrite combined_lin by (repeat split). change (tmat (e_xform _)) with (@mat_id R _). rewrite lin_id.
      unfold m. rewrite <- tt_lin, rotate_about_pt by (repeat split). now rewrite new_lin. }
    unfold t_is_simple. set (mm := tmat (combined _ _)) in *. clearbody mm. clear m. clearbody c.
    assert (A90 : - (90) * (PI / 180) = - (PI / 2)) by field.
    pose proof (L (P 0 0)) as L0. pose proof (L (P 1 0)) as L1. pose proof (L (P 0 1)) as L2.
    unfold lin, about, turn_cw, turn_ccw, shift in L0, L1, L2. cbn [px py] in L0, L1, L2.
    rewrite A90, cos_neg, sin_neg, cos_PI2, sin_PI2 in L0, L1, L2. injection L0 as E1 E2. injection L1 as E3 E4. injection L2 as E5 E6.
    assert (Z1 : m00 mm = 0) by lra. assert (Z2 : m11 mm = 0) by lra. rewrite Z1, Z2.
    assert (Nz : near_zero (F := R) 0 = true).
    { unfold near_zero. apply Rltb_lt. cbn -[IZR]. rewrite Rabs_R0. apply Rdiv_lt_0_compat; apply IZR_lt; reflexivity. }
    rewrite Nz. apply orb_true_r. }
  destruct (pts_simple (EB "a" ex_edge true t_new) [P 0 0; P 4 2] m Si) as (ro & _ & ->).
  cbn [map snd bind]. do 2 eexists. split; [reflexivity|]. split; [reflexivity|repeat split].
Qed.
