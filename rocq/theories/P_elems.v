(* C35-C42, C50: the simple elements. *)
Require Import Verif.Base Verif.NumR Verif.L_real Verif.M_vector Verif.M_bbox Verif.M_transform Verif.M_bezier Verif.M_colors Verif.M_elems.
Require Import Verif.L_ord Verif.S_bbox Verif.L_bbox Verif.S_transform Verif.L_transform Verif.L_vector Verif.S_bezier Verif.L_bezier Verif.P_bezier Verif.S_elems Verif.L_elems.
From Coq Require Import String Reals List Permutation Lia Lra.
Import ListNotations.
Local Open Scope string_scope.
Local Open Scope list_scope.
Local Open Scope R_scope.

Lemma Ok_inj {A} (a b : A) : Ok a = Ok b -> a = b.
Proof. congruence. Qed.

(* a box holds a point *)
Definition holds (b : bbox R) (p : pt R) : Prop := in_box b (px p) (py p).

Lemma okR (x : R) : ok x. Proof. exact I. Qed.
#[local] Hint Resolve okR : core.

Lemma of_pts_in (p q : pt R) x y :
  in_box (bbox_of_pts p q) x y <-> within (px p) (px q) x /\ within (py p) (py q) y.
Proof.
  unfold bbox_of_pts, mkbbox, in_box, le, within. rewrite !pymin_R, !pymax_R. cbn.
  rewrite !Rleb_le. tauto.
Qed.
Lemma good_of_pts (p q : pt R) : good (bbox_of_pts p q).
Proof. apply good_mk; auto. Qed.
Lemma within_l a b : within a b a. Proof. unfold within, Rmin, Rmax. destruct (Rle_dec a b); lra. Qed.
Lemma within_r a b : within a b b. Proof. unfold within, Rmin, Rmax. destruct (Rle_dec a b); lra. Qed.
#[local] Hint Resolve good_of_pts within_l within_r : core.

Lemma cp_bbox_good (s : cpoint R) : good (cp_bbox s).
Proof. unfold cp_bbox. apply good_grow; auto. split; auto. Qed.
#[local] Hint Resolve cp_bbox_good : core.
Lemma grow_R (b : bbox R) p x y : b <> BNone ->
  in_box b x y \/ (x = px p /\ y = py p) -> good b -> in_box (bbox_grow b p) x y.
Proof.
  destruct b as [|xl yl xh yh]; [congruence|]. intros _ H (_ & G1 & G2). revert H G1 G2.
  unfold in_box, bbox_grow, le. rewrite ?pymin_R, ?pymax_R. cbn. rewrite !Rleb_le.
  unfold Rmin, Rmax. repeat (destruct (Rle_dec _ _)); intros [H|[-> ->]] **; lra.
Qed.
Lemma grow_least (b c : bbox R) p : good b -> b <> BNone -> sub_box b c -> holds c p -> good c -> sub_box (bbox_grow b p) c.
Proof.
  intros G NB S H Gc x y _ _ I.
  pose proof (sub_box_corners G NB S) as K.
  destruct b as [|xl yl xh yh]; [congruence|]. destruct c as [|xl' yl' xh' yh']; [destruct K|].
  revert K H I. unfold holds, in_box, bbox_grow, le. rewrite ?pymin_R, ?pymax_R. cbn. rewrite !Rleb_le.
  unfold Rmin, Rmax. repeat (destruct (Rle_dec _ _)); lra.
Qed.

Lemma cp_bbox_holds (s : cpoint R) :
  holds (cp_bbox s) (cc s) /\ holds (cp_bbox s) (left_of s) /\ holds (cp_bbox s) (right_of s).
Proof.
  unfold holds, cp_bbox. split; [|split]; apply grow_R; auto; try discriminate; left; apply of_pts_in; split;
  first [apply within_l|apply within_r].
Qed.
Lemma cp_bbox_least (s : cpoint R) c : good c ->
  holds c (cc s) -> holds c (left_of s) -> holds c (right_of s) -> sub_box (cp_bbox s) c.
Proof.
  intros G H1 H2 H3. unfold cp_bbox. apply grow_least; auto. discriminate.
  intros x y _ _ I. apply of_pts_in in I. revert I H2 H3.
  change (cp_l s) with (left_of s). change (cp_r s) with (right_of s).
  destruct c as [|xl yl xh yh]; unfold holds, in_box, within, le; [tauto|]. cbn. rewrite !Rleb_le.
  unfold Rmin, Rmax. repeat (destruct (Rle_dec _ _)); lra.
Qed.

Lemma bbox_fold (l : list (cpoint R)) : forall b, good b ->
  let r := fold_left (fun bb cp => bbox_add bb (cp_bbox cp)) l b in
  good r /\ sub_box b r /\ (forall s, In s l -> sub_box (cp_bbox s) r) /\
  (forall c, good c -> sub_box b c -> (forall s, In s l -> sub_box (cp_bbox s) c) -> sub_box r c).
Proof.
  induction l as [|a l IH]; intros b G r.
  - repeat split; auto; try (intros ? ? ? ?; auto; fail). intros s [].
  - assert (G' : good (bbox_add b (cp_bbox a))) by (apply good_add; auto).
    destruct (IH _ G') as (R1 & R2 & R3 & R4). subst r. cbn [fold_left]. repeat split; auto.
    + eapply sub_trans; [|exact R2]. apply sub_add_l; auto.
    + intros s [<-|H]; auto. eapply sub_trans; [|exact R2]. apply sub_add_r; auto.
    + intros c Gc Hb Hs. apply R4; auto.
      * apply add_least; auto. apply Hs. now left.
      * intros s H. apply Hs. now right.
Qed.

(* ------------------------------------------------------------------ *)
(** ** C35 boxes of curves *)

(* bbox_int: the smallest box holding every centre and every handle point *)
Theorem C35_bbox_int : forall (cps : list (cpoint R)), cps <> [] ->
  exists bb, shape_bbox_int (SCurve cps) = Ok bb /\ good bb /\
    (forall s, In s cps -> holds bb (cc s) /\ holds bb (left_of s) /\ holds bb (right_of s)) /\
    (forall c, good c ->
       (forall s, In s cps -> holds c (cc s) /\ holds c (left_of s) /\ holds c (right_of s)) ->
       forall p, holds bb p -> holds c p).
Proof.
  intros [|a l] H; [congruence|]. eexists. split; [reflexivity|].
  destruct (bbox_fold l (cp_bbox a) (cp_bbox_good a)) as (R1 & R2 & R3 & R4).
  split; [exact R1|]. split.
  - assert (S : forall s, In s (a :: l) -> sub_box (cp_bbox s)
       (fold_left (fun bb cp => bbox_add bb (cp_bbox cp)) l (cp_bbox a))) by (intros s [<-|K]; auto).
    intros s K. apply S in K. destruct (cp_bbox_holds s) as (X & Y & Z). unfold holds in *. split; [|split]; apply K; auto.
  - intros c Gc Hc p Hp. apply (R4 c Gc); auto.
    + destruct (Hc a) as (X & Y & Z); [now left|]. apply cp_bbox_least; auto.
    + intros s K. destruct (Hc s) as (X & Y & Z); [now right|]. apply cp_bbox_least; auto.
Qed.

Theorem C35_bbox_empty : forall (b : ebase R),
  shape_bbox_int (SCurve (@nil (cpoint R))) = Raise IndexError /\ leaf_bbox b (SCurve []) = Raise IndexError.
Proof. intros. split; reflexivity. Qed.

Lemma box_convex (b : bbox R) p q r s t : 0 <= t <= 1 -> good b -> holds b p -> holds b q -> holds b r -> holds b s ->
  holds b (cubic p q r s t).
Proof.
  destruct b as [|xl yl xh yh]; unfold holds; [intros _ _ []|]. unfold in_box, le. cbn. rewrite !Rleb_le.
  intros Ht _ (A1 & A2 & A3 & A4) (B1 & B2 & B3 & B4) (C1 & C2 & C3 & C4) (D1 & D2 & D3 & D4).
  assert (L : forall a b0 c d k, k <= a -> k <= b0 -> k <= c -> k <= d -> k <= cubic1 a b0 c d t).
  { intros a b0 c d k Ha Hb Hc Hd.
    pose proof (cubic1_le (- a) (- b0) (- c) (- d) (- k) t Ht ltac:(lra) ltac:(lra) ltac:(lra) ltac:(lra)) as E.
    replace (cubic1 (- a) (- b0) (- c) (- d) t) with (- cubic1 a b0 c d t) in E by (unfold cubic1; ring). lra. }
  repeat split; auto; apply cubic1_le; auto.
Qed.

Lemma in_consecutive {A} (l : list A) a b : In (a, b) (consecutive l) -> In a l /\ In b l.
Proof.
  induction l as [|x l IH]; [intros []|]. destruct l as [|y l]; [intros []|].
  intros [E|H]; [injection E as -> ->; cbn; auto|]. apply IH in H. cbn in *. tauto.
Qed.
Lemma in_path {A} (l : list A) closed a b : In (a, b) (path_segments l closed) -> In a l /\ In b l.
Proof.
  destruct l as [|x l]; [intros []|]. unfold path_segments. intros H. apply in_consecutive in H.
  destruct closed; auto. rewrite !in_app_iff in H. cbn in *. tauto.
Qed.

Lemma corners_hull (x : transform R) (bo : bbox R) xl yl xh yh p :
  holds bo (t_transform x (P xl yl)) -> holds bo (t_transform x (P xh yh)) ->
  holds bo (t_transform x (P xl yh)) -> holds bo (t_transform x (P xh yl)) ->
  xl <= px p <= xh -> yl <= py p <= yh -> holds bo (t_transform x p).
Proof.
  destruct p as [u v]. unfold t_transform. rewrite !apply_lin. unfold lin, holds. cbn [px py].
  generalize (m00 (tmat x)) (m01 (tmat x)) (m02 (tmat x)) (m10 (tmat x)) (m11 (tmat x)) (m12 (tmat x)).
  intros a b c d e g. destruct bo as [|X Y X' Y']; [tauto|]. unfold in_box, le. cbn. rewrite !Rleb_le.
  assert (L : forall k a b c, k <= a*xl+b*yl+c -> k <= a*xh+b*yh+c -> k <= a*xl+b*yh+c -> k <= a*xh+b*yl+c ->
     xl <= u <= xh -> yl <= v <= yh -> k <= a*u+b*v+c).
  { clear. intros k a b c H1 H2 H3 H4 Hu Hv.
    destruct (Rle_dec 0 a), (Rle_dec 0 b); nra. }
  assert (U : forall k a b c, a*xl+b*yl+c <= k -> a*xh+b*yh+c <= k -> a*xl+b*yh+c <= k -> a*xh+b*yl+c <= k ->
     xl <= u <= xh -> yl <= v <= yh -> a*u+b*v+c <= k).
  { clear - L. intros k a b c H1 H2 H3 H4 Hu Hv.
    pose proof (L (- k) (- a) (- b) (- c)). lra. }
  intros (A1 & A2 & A3 & A4) (B1 & B2 & B3 & B4) (C1 & C2 & C3 & C4) (D1 & D2 & D3 & D4) Hu Hv.
  split; [|split; [|split]]; [apply L|apply U|apply L|apply U]; auto.
Qed.

Lemma bbox_ext_R (x : transform R) (bb bo : bbox R) : bbox_ext x bb = Ok bo ->
  good bo /\ forall p, holds bb p -> holds bo (t_transform x p).
Proof.
  destruct bb as [|xl yl xh yh]; [discriminate|]. unfold bbox_ext. cbn [bind bbox_pll bbox_phh bbox_plh bbox_phl].
  intros E. apply Ok_inj in E. subst bo. split.
  - apply good_add; auto.
  - intros p H. unfold holds in H. unfold in_box, le in H. cbn in H. rewrite !Rleb_le in H.
    apply corners_hull with (xl := xl) (yl := yl) (xh := xh) (yh := yh); try tauto;
    unfold holds; apply add_upper; auto; try exact I;
    [left|left|right|right]; apply of_pts_in; split; first [apply within_l|apply within_r].
Qed.

(* bbox() exists for every curve with a control point *)
Theorem C35_bbox_total : forall (b : ebase R) (cps : list (cpoint R)), cps <> [] ->
  exists bb, leaf_bbox b (SCurve cps) = Ok bb /\ good bb.
Proof.
  intros b cps H. destruct (C35_bbox_int cps H) as (bi & E & G & Hs & _).
  unfold leaf_bbox. rewrite E. cbn [bind].
  destruct cps as [|s cps]; [congruence|]. destruct (Hs s) as (K & _); [now left|].
  destruct bi as [|xl yl xh yh]; [destruct K|].
  destruct (bbox_ext (e_xform b) (BB xl yl xh yh)) as [bo|e] eqn:Eb; [|discriminate].
  exists bo. split; auto. apply (bbox_ext_R _ _ _ Eb).
Qed.

(* the whole curve, mapped by the transform of the element, lies in bbox() *)
Theorem C35_curve_in_bbox : forall (b : ebase R) (cps : list (cpoint R)) (bb : bbox R) (p : pt R),
  leaf_bbox b (SCurve cps) = Ok bb -> on_path cps (e_closed b) p -> holds bb (t_transform (e_xform b) p).
Proof.
  intros b cps bb p E (s & e & t & H & Ht & ->). apply in_path in H. destruct H as [Hs He].
  assert (N : cps <> []) by (intros ->; destruct Hs).
  destruct (C35_bbox_int cps N) as (bi & Ei & G & Hh & _).
  unfold leaf_bbox in E. rewrite Ei in E. cbn [bind] in E. apply bbox_ext_R in E. destruct E as [_ E].
  apply E. unfold segment. destruct (Hh s Hs) as (A & _ & C). destruct (Hh e He) as (A' & B' & _).
  apply box_convex; auto.
Qed.

(* every point drawn, whatever the drawing matrix and the number of steps, is the image under
   the drawing matrix of a point of the box *)
Theorem C35_drawn_in_bbox : forall (dc : dctx) (b : ebase R) (cps : list (cpoint R)) (m m' : transform R)
    (bb : bbox R) (ps : list (path R)) (p : path R) (q : R * R),
  affine_mat (tmat (e_xform b)) -> leaf_bbox b (SCurve cps) = Ok bb ->
  leaf_paths dc b (SCurve cps) m = (m', Ok ps) -> In p ps -> In q (p_points p) ->
  exists r, holds bb r /\ pt_of q = t_transform m r.
Proof.
  intros dc b cps m m' bb ps p q A Eb E Hp Hq.
  rewrite leaf_paths_curve in E. injection E as <- <-. destruct Hp as [<-|[]]. cbn [p_points] in Hq.
  apply drawn_affine in Hq; [|apply transform_affine]. destruct Hq as (r & Hr & ->).
  exists (t_transform (e_xform b) r). split; [eapply C35_curve_in_bbox; eauto|].
  rewrite compose_apply by auto. unfold t_transform at 3. rewrite apply_lin.
  unfold pt_of. cbn. destruct (t_transform m (lin (tmat (e_xform b)) r)). reflexivity.
Qed.

Definition ex_pb : penbrush R := PenBrush None (Some (Brush (CNum 1))).
Definition ex_cps : list (cpoint R) :=
  [CP (P 0 0) (V 0 0) (V 0 1) "smooth"; CP (P 1 0) (V 0 1) (V 0 0) "sharp"; CP (P 2 2) (V 1 0) (V 0 0) "sharp"].
Definition ex_x : transform R := T (mat_of6 2 1 0 0 1 5) None [].
Definition ex_b : ebase R := EB "a" ex_pb true ex_x.

Example C35_nontrivial : exists bb m' ps,
  affine_mat (tmat (e_xform ex_b)) /\ leaf_bbox ex_b (SCurve ex_cps) = Ok bb /\
  leaf_paths (DC false 7) ex_b (SCurve ex_cps) ex_x = (m', Ok ps) /\
  (forall p, In p ps -> List.length (p_points p) = 22%nat) /\ List.length ps = 1%nat.
Proof.
  destruct (C35_bbox_total ex_b ex_cps) as (bb & E & _); [discriminate|].
  exists bb. rewrite leaf_paths_curve. do 2 eexists. split; [repeat split|]. split; [exact E|].
  split; [reflexivity|]. split; [|reflexivity].
  intros p [<-|[]]. cbn [p_points]. unfold drawn. rewrite map_length, join_length. reflexivity.
Qed.

(* ------------------------------------------------------------------ *)
(** ** C36 transforming a curve *)

Lemma drawn_transformed f g cps cps' closed steps : mapM (cp_transform f true) cps = Ok cps' ->
  drawn g cps' closed steps = drawn (fun p => g (f p)) cps closed steps.
Proof.
  intros E. rewrite <- !drawn_bez. f_equal. apply C33_linear_path. exact E.
Qed.

Lemma mk_base_ok {F} {NF : Num F} (b : ebase F) name c x : wellformed b -> c = e_closed b ->
  mk_base name (e_pb b) c x = Ok (EB name (e_pb b) c (match x with Some x => x | None => t_new end)).
Proof.
  intros W ->. unfold mk_base. unfold wellformed in W. destruct (pb_filled (e_pb b)); cbn; auto.
  rewrite W by auto. reflexivity.
Qed.

Lemma lin_id (p : pt R) : lin mat_id p = p.
Proof. unfold lin. destruct p as [u v]. cbn. f_equal; ring. Qed.

(* what transform() returns, and that it leaves the matrix and its stack alone *)
Theorem C36_transform_result : forall (b : ebase R) (cps : list (cpoint R)) (m m' : transform R) (r : res (elem R)),
  leaf_transform b (SCurve cps) m = (m', r) ->
  same_matrix m m' /\
  (wellformed b -> exists cps', r = Ok (ELeaf (EB (e_name b) (e_pb b) (e_closed b) t_new) (SCurve cps')) /\
     List.length cps' = List.length cps /\ map ckind cps' = map ckind cps) /\
  (~ wellformed b -> r = Raise AssertionError).
Proof.
  intros b cps m m' r E. cbn [leaf_transform] in E. unfold curve_transform in E. cbv zeta in E.
  rewrite (with_push_gen (fun m => m) (t_compose (tmat (e_xform b)))) in E by reflexivity.
  injection E as <- <-. split; [split; reflexivity|].
  destruct (mapM_linear (t_transform (t_compose (tmat (e_xform b)) (t_push m))) cps) as (cps' & E & H).
  rewrite E. cbn [bind]. split.
  - intros W. rewrite mk_base_ok by auto. cbn [bind]. exists cps'. split; [reflexivity|].
    clear E. induction H as [|x y l l' (_ & _ & _ & K) H IH]; auto. destruct IH as [I1 I2].
    cbn. rewrite I1, I2, K. auto.
  - intros W. unfold mk_base, wellformed in *. destruct (pb_filled (e_pb b)); [|exfalso; apply W; congruence].
    destruct (e_closed b); [exfalso; apply W; auto|reflexivity].
Qed.

(* drawing the transformed curve under a matrix is drawing the original under that matrix
   composed with the one passed to transform() *)
Theorem C36_transform_draws : forall (dc : dctx) (b b' : ebase R) (cps : list (cpoint R)) (s' : shape R)
    (m m' d : transform R),
  affine_mat (tmat m) -> affine_mat (tmat (e_xform b)) ->
  leaf_transform b (SCurve cps) m = (m', Ok (ELeaf b' s')) ->
  snd (leaf_paths dc b' s' d) = snd (leaf_paths dc b (SCurve cps) (t_compose (tmat m) d)).
Proof.
  intros dc b b' cps s' m m' d Am Ax E. cbn [leaf_transform] in E. unfold curve_transform in E. cbv zeta in E.
  rewrite (with_push_gen (fun m => m) (t_compose (tmat (e_xform b)))) in E by reflexivity.
  injection E as _ E.
  destruct (mapM_linear (t_transform (t_compose (tmat (e_xform b)) (t_push m))) cps) as (cps' & Ec & _).
  rewrite Ec in E. cbn [bind] in E. destruct (mk_base _ _ _ _) as [nb|] eqn:Eb; [|discriminate].
  cbn [bind] in E. injection E as <- <-.
  unfold mk_base in Eb. destruct (_ && _); [discriminate|]. injection Eb as <-.
  rewrite !leaf_paths_curve. cbn [snd e_pb e_closed e_xform]. do 3 f_equal.
  rewrite (drawn_transformed _ _ _ _ _ _ Ec). apply drawn_ext. intros p.
  rewrite !compose_apply by (auto; repeat split). cbn [tmat t_new]. rewrite lin_id.
  unfold t_push, t_transform. cbn [tmat]. rewrite !apply_lin. reflexivity.
Qed.

(* so transform(identity) draws like the original *)
Theorem C36_transform_identity : forall (dc : dctx) (b : ebase R) (cps : list (cpoint R)) (d : transform R),
  wellformed b -> affine_mat (tmat (e_xform b)) ->
  exists cps', snd (leaf_transform b (SCurve cps) t_new)
               = Ok (ELeaf (EB (e_name b) (e_pb b) (e_closed b) t_new) (SCurve cps')) /\
    snd (leaf_paths dc (EB (e_name b) (e_pb b) (e_closed b) t_new) (SCurve cps') d)
    = snd (leaf_paths dc b (SCurve cps) d).
Proof.
  intros dc b cps d W A. destruct (leaf_transform b (SCurve cps) t_new) as [m' r] eqn:E.
  destruct (C36_transform_result _ _ _ _ _ E) as (_ & H & _). destruct (H W) as (cps' & -> & _).
  exists cps'. split; auto. rewrite (C36_transform_draws dc _ _ _ _ _ _ d) with (2 := A) (3 := E) by (repeat split).
  rewrite !leaf_paths_curve. cbn [snd]. do 3 f_equal. apply drawn_ext. intros p.
  rewrite !compose_apply by (auto; repeat split). cbn [tmat t_new]. rewrite lin_id. reflexivity.
Qed.

Example C36_nontrivial : exists m' b' s', wellformed ex_b /\ affine_mat (tmat ex_x) /\
  leaf_transform ex_b (SCurve ex_cps) ex_x = (m', Ok (ELeaf b' s')) /\ e_xform b' = t_new.
Proof.
  destruct (leaf_transform ex_b (SCurve ex_cps) ex_x) as [m' r] eqn:E.
  destruct (C36_transform_result _ _ _ _ _ E) as (_ & H & _).
  destruct H as (cps' & -> & _); [intros _; reflexivity|].
  do 3 eexists. split; [intros _; reflexivity|]. split; [repeat split|]. split; reflexivity.
Qed.
