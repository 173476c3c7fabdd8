(* Property theorems C77: untransforming lists of points, and the centre of an element. *)
Require Import Verif.Base Verif.NumR Verif.L_real Verif.M_vector Verif.M_bbox Verif.M_transform Verif.M_bezier Verif.M_colors Verif.M_elems Verif.M_group Verif.M_builder Verif.M_more.
Require Import Verif.L_ord Verif.S_bbox Verif.L_bbox Verif.L_bboxR Verif.S_transform Verif.L_transform Verif.L_transform2 Verif.P_transform Verif.L_vector Verif.S_bezier Verif.L_bezier Verif.P_bezier Verif.S_elems Verif.L_elems Verif.P_elems Verif.P_p1p2 Verif.L_ptrans.
Require Import Verif.S_group Verif.L_group Verif.S_gdraw Verif.L_gdraw Verif.P_gdraw Verif.P_gcopy Verif.P_builder Verif.P_brotate.
From Coq Require Import String Reals List Lia Lra Bool.
Import ListNotations.
Local Open Scope string_scope.
Local Open Scope list_scope.
Local Open Scope R_scope.

(* ------------------------------------------------------------------ *)
(** ** lists of points *)

(* a list is untransformed point by point, with the errors and the effect of a single call *)
Theorem C77_pointwise {F} {NF : Num F} (s : transform F) (l l' : list (pt F)) : 
  (snd (t_untransform_pts s l) = Ok l' <->
     l <> [] /\ Forall2 (fun p q => snd (t_untransform_pt s p) = Ok q) l l') /\
  (forall p, fst (t_untransform_pts s l) = fst (t_untransform_pt s p)) /\
  (forall e p, l <> [] -> (snd (t_untransform_pts s l) = Raise e <-> snd (t_untransform_pt s p) = Raise e)).
Proof.
  unfold t_untransform_pts, t_untransform_pt, t_untransform. destruct (t_inverse s) as [s' [i|e]]; cbn [fst snd bind].
  - split; [|split; [auto|]].
    + split.
      * destruct l as [|p l]; [discriminate|]. intros H. apply Ok_inj in H. subst l'. split; [discriminate|].
        remember (p :: l) as k. clear. induction k; cbn; constructor; auto.
      * intros [N H]. destruct l as [|p l]; [congruence|]. f_equal. clear N.
        induction H as [|a b k k' E _ IH]; [reflexivity|]. cbn [map]. apply Ok_inj in E. rewrite E. f_equal. exact IH.
    + intros e p N. destruct l; [congruence|]. split; discriminate.
  - split; [|split; [auto|intros x p _; split; intros H; injection H as ->; reflexivity]]. split; [discriminate|].
    intros [N H]. destruct H; [congruence|discriminate].
Qed.

(* after any history of calls on a Transform: what transform_pts gave is given back; a singular
   matrix raises LinAlgError, also for no points; no points raise ValueError otherwise *)
Theorem C77_round_trip (a b c d e f : R) (ops : list (top R)) :
  Forall affine_args ops -> fresh_rotate_about ops false ->
  let s := trun ops (t_new6 a b c d e f) in
  (invertible (tmat s) ->
     (forall l l', t_transform_pts s l = Ok l' ->
        exists s', t_untransform_pts s l' = (s', Ok l) /\ tmat s' = tmat s /\ tstack s' = tstack s) /\
     (forall l, l <> [] -> exists s' l', t_untransform_pts s l = (s', Ok l') /\ t_transform_pts s l' = Ok l) /\
     (exists s', t_untransform_pts s [] = (s', Raise ValueError) /\ tmat s' = tmat s)) /\
  (~ invertible (tmat s) -> forall l, t_untransform_pts s l = (s, Raise LinAlgError)).
Proof.
  intros FA FR s. destruct (C01_untransform_undoes_transform a b c d e f ops FA FR) as [C1 C2]. fold s in C1, C2.
  split.
  - intros I. specialize (C1 I).
    assert (X : exists s' i, t_inverse s = (s', Ok i) /\ tmat s' = tmat s /\ tstack s' = tstack s /\
              (forall p, mat_apply i (t_transform s p) = p) /\ (forall p, t_transform s (mat_apply i p) = p)).
    { destruct (t_inverse s) as [s' [i|x]] eqn:Ei.
      - exists s', i. split; [reflexivity|]. assert (U : forall p, t_untransform s p = (s', Ok (mat_apply i p))).
        { intros p. unfold t_untransform. rewrite Ei. reflexivity. }
        destruct (C1 (P 0 0)) as [(s1 & E1 & M1 & T1) _]. rewrite U in E1. injection E1 as <- _.
        split; [exact M1|]. split; [exact T1|]. split.
        + intros p. destruct (C1 p) as [(s2 & E2 & _) _]. rewrite U in E2. injection E2; auto.
        + intros p. destruct (C1 p) as [_ (s2 & q & E2 & Q)]. rewrite U in E2. injection E2 as _ <-. exact Q.
      - destruct (C1 (P 0 0)) as [(s1 & E1 & _) _]. unfold t_untransform in E1. rewrite Ei in E1. discriminate. }
    destruct X as (s' & i & Ei & M' & T' & L & Rr). unfold t_untransform_pts. rewrite Ei. cbn [bind]. split; [|split].
    + intros l l' E. unfold t_transform_pts in E. destruct l as [|p l]; [discriminate|]. apply Ok_inj in E. subst l'.
      exists s'. split; [|auto]. cbn [map]. f_equal. f_equal. f_equal; [apply L|].
      rewrite map_map. erewrite map_ext; [apply map_id|]. exact L.
    + intros l N. destruct l as [|p l]; [congruence|]. do 2 eexists. split; [reflexivity|]. unfold t_transform_pts. cbn [map].
      f_equal. f_equal; [apply Rr|]. rewrite map_map. erewrite map_ext; [apply map_id|]. exact Rr.
    + exists s'. auto.
  - intros I l. specialize (C2 I (P 0 0)). unfold t_untransform in C2. unfold t_untransform_pts.
    destruct (t_inverse s) as [s' [i|x]]; cbn [bind] in *; injection C2; intros; subst; try discriminate. congruence.
Qed.

(* ------------------------------------------------------------------ *)
(** ** the centre *)

(* there is a centre exactly if there is a box; it is the middle of the box and lies in it *)
Theorem C77_center (e : elem R) :
  (forall c, elem_center e = Ok c <-> exists xl yl xh yh, elem_bbox e = Ok (BB xl yl xh yh) /\ c = middle (P xl yl) (P xh yh)) /\
  (forall x, elem_center e = Raise x <-> elem_bbox e = Raise x) /\
  (forall c b, elem_center e = Ok c -> elem_bbox e = Ok b -> in_box b (px c) (py c)).
Proof.
  unfold elem_center. destruct (elem_bbox e) as [b|x] eqn:E; cbn [bind].
  - destruct (elem_bbox_good e b E) as [G N]. destruct b as [|xl yl xh yh]; [congruence|]. cbn [bbox_center].
    change (P ((xl + xh) / #2) ((yl + yh) / #2))%num with (P ((xl + xh) / 2) ((yl + yh) / 2)).
    split; [|split].
    + intros c. split.
      * intros H. apply Ok_inj in H. exists xl, yl, xh, yh. auto.
      * intros (a & b & c' & d & H & ->). injection H as -> -> -> ->. reflexivity.
    + intros x. split; discriminate.
    + intros c b H1 H2. apply Ok_inj in H1, H2. subst. cbn [good] in G. destruct G as (_ & A & B).
      unfold in_box, le in *. cbn in A, B |- *. rewrite !Rleb_le in *. lra.
  - split; [|split]; try (intros; split; intros H; try discriminate; congruence); try discriminate.
    intros c. split; [discriminate|]. intros (? & ? & ? & ? & H & _). discriminate.
Qed.

(* boxes inside the element *)
Lemma bbox_int_good (e : elem R) : forall bi, elem_bbox_int e = Ok bi -> good bi.
Proof.
  induction e as [b s|b h l p H|b o i Ho Hi] using elem_induction; intros bi E.
  - cbn [elem_bbox_int] in E. destruct s as [cps|p q|p q r|p q]; cbn [shape_bbox_int] in E.
    + destruct cps as [|c cps]; [discriminate|]. destruct (C35_bbox_int (c :: cps)) as (bb & Eb & G & _); [discriminate|].
      cbn [shape_bbox_int] in Eb. rewrite E in Eb. injection Eb as ->. exact G.
    + apply Ok_inj in E. subst. apply good_mk; exact I.
    + apply Ok_inj in E. subst. apply good_mk; exact I.
    + apply Ok_inj in E. subst. apply good_mk; exact I.
  - cbn [elem_bbox_int] in E. destruct l as [|ke l]; [discriminate|].
    assert (G : forall (l : list (string * elem R)) (acc bi : bbox R), good acc -> foldM (fun acc ke =>
                        let* bb := elem_bbox_int (snd ke) in
                        let* x := bbox_ext (e_xform (e_base (snd ke))) bb in
                        Ok (bbox_add acc x)) acc l = Ok bi -> good bi).
    { clear. induction l as [|ke l IH]; intros acc bi G E; cbn [foldM] in E; [apply Ok_inj in E; now subst|].
      destruct (elem_bbox_int (snd ke)) as [bb|]; cbn [bind] in E; [|discriminate].
      destruct (bbox_ext _ bb) as [x|] eqn:Ex; cbn [bind] in E; [|discriminate].
      eapply IH; [|exact E]. apply good_add; [exact G|]. exact (proj1 (bbox_ext_R _ _ _ Ex)). }
    eapply G; [|exact E]. exact I.
  - cbn [elem_bbox_int] in E. destruct (elem_bbox_int o) as [out|]; cbn [bind] in E; [|discriminate].
    destruct (foldM _ _ i) as [ins|]; cbn [bind] in E; [|discriminate].
    destruct (bbox_contains out ins) as [[|]|]; cbn [bind] in E; try discriminate. apply Ok_inj in E. subst. now apply Ho.
Qed.

Lemma center_int (e : elem R) bi : elem_bbox_int e = Ok bi ->
  elem_center e = match bi with
                  | BNone => Raise ValueError
                  | BB xl yl xh yh => Ok (t_transform (e_xform (e_base e)) (middle (P xl yl) (P xh yh)))
                  end.
Proof.
  intros E. pose proof (bbox_int_good e bi E) as G. unfold elem_center, elem_bbox. rewrite E. cbn [bind].
  destruct bi as [|xl yl xh yh]; [reflexivity|].
  cbn [good] in G. destruct G as (_ & A & B). unfold le in A, B. cbn in A, B. rewrite !Rleb_le in *.
  assert (Q : BB xl yl xh yh = bbox_of_pts (P xl yl) (P xh yh)).
  { rewrite of_pts_min_max. cbn [px py]. rewrite !Rmin_left, !Rmax_right by lra. reflexivity. }
  rewrite Q. destruct (ext_center (e_xform (e_base e)) (P xl yl) (P xh yh)) as (bb & -> & C). cbn [bind].
  rewrite C, tt_lin. reflexivity.
Qed.

Lemma ext_ext {F} {NF : Num F} (x y : transform F) bb : tmat x = tmat y -> bbox_ext x bb = bbox_ext y bb.
Proof. intros H. unfold bbox_ext, t_transform. rewrite H. reflexivity. Qed.
Lemma set_pb_box {F} {NF : Num F} pb (e : elem F) : elem_bbox_int (set_pb pb e) = elem_bbox_int e.
Proof. destruct e; reflexivity. Qed.
Lemma set_pb_xform {F} pb (e : elem F) : e_xform (e_base (set_pb pb e)) = e_xform (e_base e).
Proof. destruct e; reflexivity. Qed.

Lemma copy_bbox_int {F} {NF : Num F} (e : elem F) : forall e', elem_copy e = Ok e' -> elem_bbox_int e' = elem_bbox_int e.
Proof.
  induction e as [b s|b h l p H|b o i Ho Hi] using elem_induction; intros e' E.
  - apply leaf_copy in E. now subst.
  - cbn [elem_copy] in E. unfold mk_group_dict in E. destruct (mk_base _ _ _ _); cbn [bind] in E; [|discriminate].
    apply Ok_inj in E. subst. reflexivity.
  - cbn [elem_copy] in E. destruct (elem_copy o) as [o'|x] eqn:Eo; cbn [bind] in E; [|discriminate].
    destruct (collectM elem_copy i) as [i'|x] eqn:Ei; cbn [bind] in E; [|discriminate].
    unfold mk_holes in E. destruct (mk_base _ _ _ _); cbn [bind] in E; [|discriminate]. apply Ok_inj in E. subst e'.
    cbn [elem_bbox_int]. rewrite set_pb_box, (Ho _ eq_refl). destruct (elem_bbox_int o) as [out|]; cbn [bind]; [|reflexivity].
    erewrite foldM_two; [reflexivity|]. apply collect_iff in Ei. clear - Hi Ei.
    induction Ei as [|a a' l l' Ea _ IH]; [constructor|]. inversion Hi as [|? ? Ha Hl]; subst. cbn [map].
    constructor; [|now apply IH]. intros s. rewrite set_pb_box, (Ha _ Ea), set_pb_xform.
    destruct (elem_bbox_int a) as [bb|]; cbn [bind]; [|reflexivity].
    rewrite (ext_ext (e_xform (e_base a')) (e_xform (e_base a))); [reflexivity|]. apply copy_base in Ea. tauto.
Qed.

(* a copy has the same box and the same centre *)
Theorem C77_copy {F} {NF : Num F} (e e' : elem F) : elem_copy e = Ok e' ->
  elem_bbox e' = elem_bbox e /\ elem_center e' = elem_center e.
Proof.
  intros E. assert (Q : elem_bbox e' = elem_bbox e).
  { unfold elem_bbox. rewrite (copy_bbox_int e e' E). destruct (elem_bbox_int e); cbn [bind]; [|reflexivity].
    apply ext_ext. apply copy_base in E. tauto. }
  split; [exact Q|]. unfold elem_center. now rewrite Q.
Qed.

(* ------------------------------------------------------------------ *)
(** ** transformed elements *)

(* a matrix without rotation and shear *)
Definition upright (m : mat R) : Prop := affine_mat m /\ m01 m = 0 /\ m10 m = 0.
(* the elements whose centre follows every transform; curves do if nothing turns them *)
Definition follows (e : elem R) (m : transform R) : Prop :=
  affine_mat (tmat (e_xform (e_base e))) /\
  match e with
  | ELeaf b (SCurve _) => upright (tmat (e_xform b)) /\ upright (tmat m)
  | _ => True
  end.

(* min and max under x -> a x + k *)
Lemma min_line a k x y : Rmin (a * x + k) (a * y + k) = if Rle_dec 0 a then a * Rmin x y + k else a * Rmax x y + k.
Proof. unfold Rmin, Rmax. repeat destruct Rle_dec; nra. Qed.
Lemma max_line a k x y : Rmax (a * x + k) (a * y + k) = if Rle_dec 0 a then a * Rmax x y + k else a * Rmin x y + k.
Proof. unfold Rmin, Rmax. repeat destruct Rle_dec; nra. Qed.

(* the image of a box *)
Definition gbox (a k c l : R) (b : bbox R) : bbox R :=
  match b with
  | BNone => BNone
  | BB xl yl xh yh => BB (Rmin (a * xl + k) (a * xh + k)) (Rmin (c * yl + l) (c * yh + l))
                         (Rmax (a * xl + k) (a * xh + k)) (Rmax (c * yl + l) (c * yh + l))
  end.
Definition ordered (b : bbox R) : Prop := match b with BNone => False | BB xl yl xh yh => xl <= xh /\ yl <= yh end.
Lemma minmax4 a b c d : a <= b -> c <= d ->
  Rmin (Rmin a c) (Rmax b d) = Rmin a c /\ Rmax (Rmin a c) (Rmax b d) = Rmax b d.
Proof. intros. unfold Rmin, Rmax. repeat destruct Rle_dec; lra. Qed.
Lemma line4 a k x0 x1 u0 u1 : x0 <= x1 -> u0 <= u1 ->
  Rmin (a * Rmin x0 u0 + k) (a * Rmax x1 u1 + k) = Rmin (Rmin (a * x0 + k) (a * x1 + k)) (Rmin (a * u0 + k) (a * u1 + k)) /\
  Rmax (a * Rmin x0 u0 + k) (a * Rmax x1 u1 + k) = Rmax (Rmax (a * x0 + k) (a * x1 + k)) (Rmax (a * u0 + k) (a * u1 + k)).
Proof.
  intros A B. destruct (minmax4 x0 x1 u0 u1 A B) as [E1 E2].
  rewrite !min_line, !max_line, E1, E2, (Rmin_left x0 x1), (Rmax_right x0 x1), (Rmin_left u0 u1), (Rmax_right u0 u1) by lra.
  destruct (Rle_dec 0 a) as [P0|P0] eqn:Q; rewrite ?min_line, ?max_line, ?Q; auto.
Qed.
Lemma gbox_add a k c l b b' : ordered b -> ordered b' ->
  gbox a k c l (bbox_add b b') = bbox_add (gbox a k c l b) (gbox a k c l b') /\ ordered (bbox_add b b').
Proof.
  destruct b as [|x0 y0 x1 y1]; [intros []|]. destruct b' as [|u0 v0 u1 v1]; [intros _ []|].
  cbn [ordered gbox]. intros [A1 A2] [B1 B2]. rewrite !add_min_max by (auto using min_le_max). split.
  - cbn [gbox]. destruct (line4 a k x0 x1 u0 u1 A1 B1) as [-> ->]. destruct (line4 c l y0 y1 v0 v1 A2 B2) as [-> ->]. reflexivity.
  - cbn [ordered]. split; unfold Rmin, Rmax; repeat destruct Rle_dec; lra.
Qed.
Lemma grow_min_max xl yl xh yh p : bbox_grow (BB xl yl xh yh) p =
  BB (Rmin xl (px p)) (Rmin yl (py p)) (Rmax xh (px p)) (Rmax yh (py p)).
Proof. unfold bbox_grow. rewrite !pymin_R, !pymax_R. f_equal; unfold Rmin, Rmax; repeat destruct Rle_dec; lra. Qed.

Lemma cp_box_eq (s : cpoint R) : cp_bbox s =
  BB (Rmin (Rmin (px (left_of s)) (px (right_of s))) (px (cc s))) (Rmin (Rmin (py (left_of s)) (py (right_of s))) (py (cc s)))
     (Rmax (Rmax (px (left_of s)) (px (right_of s))) (px (cc s))) (Rmax (Rmax (py (left_of s)) (py (right_of s))) (py (cc s))).
Proof. unfold cp_bbox. rewrite of_pts_min_max, grow_min_max. reflexivity. Qed.
Lemma line3 a k x y z :
  Rmin (Rmin (a * x + k) (a * y + k)) (a * z + k) = Rmin (a * Rmin (Rmin x y) z + k) (a * Rmax (Rmax x y) z + k) /\
  Rmax (Rmax (a * x + k) (a * y + k)) (a * z + k) = Rmax (a * Rmin (Rmin x y) z + k) (a * Rmax (Rmax x y) z + k).
Proof.
  rewrite !min_line, !max_line.
  assert (H : Rmin (Rmin x y) z <= Rmax (Rmax x y) z) by (unfold Rmin, Rmax; repeat destruct Rle_dec; lra).
  rewrite (Rmin_left _ _ H), (Rmax_right _ _ H).
  destruct (Rle_dec 0 a); rewrite ?min_line, ?max_line; destruct (Rle_dec 0 a); try lra; auto.
Qed.
Definition upright_map (a k c l : R) (p : pt R) : pt R := P (a * px p + k) (c * py p + l).
Lemma cp_gbox a k c l (s s' : cpoint R) :
  cc s' = upright_map a k c l (cc s) -> left_of s' = upright_map a k c l (left_of s) -> right_of s' = upright_map a k c l (right_of s) ->
  cp_bbox s' = gbox a k c l (cp_bbox s) /\ ordered (cp_bbox s).
Proof.
  intros H1 H2 H3. rewrite !cp_box_eq, H1, H2, H3. unfold upright_map. cbn [px py gbox ordered]. split.
  - destruct (line3 a k (px (left_of s)) (px (right_of s)) (px (cc s))) as [-> ->].
    destruct (line3 c l (py (left_of s)) (py (right_of s)) (py (cc s))) as [-> ->]. reflexivity.
  - split; unfold Rmin, Rmax; repeat destruct Rle_dec; lra.
Qed.
Lemma fold_gbox a k c l cps cps' : Forall2 (fun s s' => cc s' = upright_map a k c l (cc s) /\
     left_of s' = upright_map a k c l (left_of s) /\ right_of s' = upright_map a k c l (right_of s)) cps cps' ->
  forall b, ordered b -> fold_left (fun bb cp => bbox_add bb (cp_bbox cp)) cps' (gbox a k c l b) =
    gbox a k c l (fold_left (fun bb cp => bbox_add bb (cp_bbox cp)) cps b) /\
    ordered (fold_left (fun bb cp => bbox_add bb (cp_bbox cp)) cps b).
Proof.
  induction 1 as [|s s' cps cps' (H1 & H2 & H3) _ IH]; intros b O; cbn [fold_left]; [auto|].
  destruct (cp_gbox a k c l s s' H1 H2 H3) as [-> Os]. destruct (gbox_add a k c l b (cp_bbox s) O Os) as [<- O']. now apply IH.
Qed.
Lemma center_gbox a k c l xl yl xh yh b : gbox a k c l (BB xl yl xh yh) = b ->
  bbox_center b = Ok (upright_map a k c l (middle (P xl yl) (P xh yh))).
Proof.
  intros <-. cbn [gbox bbox_center]. unfold upright_map, middle. cbn [px py].
  assert (D : forall x y : R, ((x + y) / #2)%num = (x + y) / 2) by reflexivity. rewrite !D. assert (D2 : forall z : R, (z / #2)%num = z / 2) by reflexivity.
  f_equal. apply pnt_ext; cbn [px py]; rewrite min_max_sum; rewrite ?D2; field.
Qed.

(* The centre of a transformed element is the transformed centre: for every matrix if it is a
   rectangle, rounded rectangle, ellipse, group or shape with holes; for a curve if neither its own
   transform nor the matrix turns or shears. *)
Theorem C77_center_follows (e e' : elem R) (m m' : transform R) (c : pt R) : follows e m ->
  elem_transform e m = (m', Ok e') -> elem_center e = Ok c -> elem_center e' = Ok (t_transform m c).
Proof.
  intros [Ax Fo] Et Ec.
  assert (Gr : forall bi, elem_bbox_int e' = elem_bbox_int e -> elem_bbox_int e = Ok bi ->
     tmat (e_xform (e_base e')) = tmat (combined (e_base e) m) -> elem_center e' = Ok (t_transform m c)).
  { intros bi Q Ei Qx. rewrite Ei in Q. rewrite (center_int e bi Ei) in Ec. rewrite (center_int e' bi Q).
    destruct bi as [|xl yl xh yh]; [discriminate|]. apply Ok_inj in Ec. subst c.
    rewrite !tt_lin, Qx, combined_lin by auto. reflexivity. }
  destruct e as [b s|b h l p|b o i].
  - change (elem_transform (ELeaf b s)) with (leaf_transform b s) in Et. cbn [e_base] in *.
    destruct (two_corners s) as [[p1 p2]|] eqn:Ht.
    + destruct (leaf_center b s p1 p2 Ht) as (bb & Eb & Cb). unfold elem_center in Ec. rewrite Eb in Ec. cbn [bind] in Ec.
      rewrite Cb in Ec. apply Ok_inj in Ec. subst c.
      assert (K : exists b' s' q1 q2, e' = ELeaf b' s' /\ two_corners s' = Some (q1, q2) /\
         lin (tmat (e_xform b')) (middle q1 q2) = lin (tmat m) (lin (tmat (e_xform b)) (middle p1 p2))).
      { assert (Z : forall q1 q2 ro, lin (tmat ro) q1 = lin (tmat (combined b m)) p1 -> lin (tmat ro) q2 = lin (tmat (combined b m)) p2 ->
           lin (tmat ro) (middle q1 q2) = lin (tmat m) (lin (tmat (e_xform b)) (middle p1 p2))).
        { intros q1 q2 ro H1 H2. rewrite (lin_middle _ _ _ _ _ _ H1 H2), combined_lin by auto. reflexivity. }
        destruct s as [|a1 a2|a1 a2 r|a1 a2]; cbn in Ht; try discriminate; injection Ht as -> ->; unfold leaf_transform in Et;
          match type of Et with (let (_, _) := transform_pts b ?pts m in _) = _ =>
            destruct (transform_pts b pts m) as [m2 [[ro qs]|]] eqn:Ep; [|discriminate];
            assert (Fa := pts_any b pts m ro qs); rewrite Ep in Fa; specialize (Fa eq_refl) end;
          inversion Fa as [|? q1 ? ? H1 Fb]; subst; inversion Fb as [|? q2 ? ? H2 Fc]; subst; inversion Fc as [|? q3 ? ? H3 Fd]; subst;
          try (inversion Fd; subst);
          cbn [snd bind] in Et; injection Et as _ Et; apply bind_ok in Et as (b' & Eb' & Et); apply Ok_inj in Et; subst e';
          unfold mk_base in Eb'; destruct (_ && _); try discriminate; apply Ok_inj in Eb'; subst b';
          do 4 eexists; (split; [reflexivity|]); (split; [reflexivity|]); cbn [e_xform]; now apply Z. }
      destruct K as (b' & s' & q1 & q2 & -> & Hq & Hc).
      destruct (leaf_center b' s' q1 q2 Hq) as (bb' & Eb' & Cb'). unfold elem_center. rewrite Eb'. cbn [bind].
      rewrite Cb', Hc, tt_lin. reflexivity.
    + destruct s as [cps| | |]; try discriminate. destruct Fo as [(_ & U1 & U2) (Am & V1 & V2)].
      cbn [leaf_transform] in Et. unfold curve_transform in Et. cbv zeta in Et.
      rewrite (with_push_gen (fun m => m) (t_compose (tmat (e_xform b)))) in Et by reflexivity. injection Et as _ Et.
      destruct (mapM_linear (t_transform (t_compose (tmat (e_xform b)) (t_push m))) cps) as (cps' & El & Hl).
      rewrite El in Et. cbn [bind] in Et. unfold mk_base in Et. destruct (_ && _); [discriminate|]. cbn [bind] in Et.
      apply Ok_inj in Et. subst e'.
      set (X := tmat (e_xform b)) in *. set (M := tmat m) in *.
      assert (Up : exists a k c0 l, (forall p, t_transform (t_compose X (t_push m)) p = upright_map a k c0 l p) /\
                 (forall p, lin M (lin X p) = upright_map a k c0 l p)).
      { exists (m00 M * m00 X), (m00 M * m02 X + m02 M), (m11 M * m11 X), (m11 M * m12 X + m12 M).
        assert (Q : forall p, lin M (lin X p) = upright_map (m00 M * m00 X) (m00 M * m02 X + m02 M) (m11 M * m11 X) (m11 M * m12 X + m12 M) p).
        { intros p. unfold upright_map. unfold lin at 2. unfold lin. cbn [px py]. rewrite U1, U2, V1, V2. apply pnt_ext; cbn [px py]; ring. }
        split; [|exact Q]. intros p. rewrite <- Q. rewrite compose_apply by auto. rewrite tt_lin. reflexivity. }
      destruct Up as (a & k & c0 & l & Up1 & Up2).
      assert (Hl' : Forall2 (fun s s' => cc s' = upright_map a k c0 l (cc s) /\ left_of s' = upright_map a k c0 l (left_of s) /\
                 right_of s' = upright_map a k c0 l (right_of s)) cps cps').
      { clear - Hl Up1. induction Hl as [|s s' x y (H1 & H2 & H3 & _) _ IH]; constructor; auto. rewrite <- !Up1. auto. }
      destruct Hl' as [|s s' x y (H1 & H2 & H3) Hl'']; [unfold elem_center in Ec; cbn in Ec; discriminate|].
      destruct (cp_gbox a k c0 l s s' H1 H2 H3) as [Es Os].
      destruct (fold_gbox a k c0 l x y Hl'' (cp_bbox s) Os) as [Ef Of]. rewrite <- Es in Ef.
      assert (I1 : elem_bbox_int (ELeaf b (SCurve (s :: x))) = Ok (fold_left (fun bb cp => bbox_add bb (cp_bbox cp)) x (cp_bbox s))) by reflexivity.
      rewrite (center_int _ _ I1) in Ec. set (B0 := fold_left _ x (cp_bbox s)) in *.
      destruct B0 as [|xl yl xh yh]; [destruct Of|]. apply Ok_inj in Ec. cbn [e_base] in Ec. subst c.
      match goal with |- elem_center ?e2 = _ => assert (I2 : elem_bbox_int e2 = Ok (gbox a k c0 l (BB xl yl xh yh))) by (rewrite <- Ef; reflexivity);
        rewrite (center_int _ _ I2) end.
      cbn [gbox e_base e_xform]. rewrite tt_lin, lin_id, !tt_lin. fold X M. rewrite Up2.
      pose proof (center_gbox a k c0 l xl yl xh yh _ eq_refl) as Q. cbn [gbox bbox_center] in Q. rewrite <- Q. reflexivity.
  - cbn [elem_transform] in Et. injection Et as _ Et. unfold mk_group_dict, mk_base in Et. destruct (_ && _); cbn [bind] in Et; [discriminate|].
    apply Ok_inj in Et. subst e'. destruct (elem_bbox_int (EGroup b h l p)) as [bi|] eqn:Ei.
    + eapply Gr; [exact Ei|reflexivity|reflexivity].
    + unfold elem_center, elem_bbox in Ec. rewrite Ei in Ec. discriminate.
  - cbn [elem_transform] in Et. injection Et as _ Et.
    destruct (elem_bbox_int (EHoles b o i)) as [bi|] eqn:Ei; [|unfold elem_center, elem_bbox in Ec; rewrite Ei in Ec; discriminate].
    destruct (elem_copy o) as [o'|] eqn:Eo; cbn [bind] in Et; [|discriminate].
    destruct (collectM elem_copy i) as [i'|] eqn:Eil; cbn [bind] in Et; [|discriminate].
    (* the copy of the element has these parts *)
    assert (Hc : exists ec, elem_copy (EHoles b o i) = Ok ec /\ elem_bbox_int ec = elem_bbox_int e' /\ tmat (e_xform (e_base e')) = tmat (combined b m)).
    { cbn [elem_copy]. rewrite Eo. cbn [bind]. rewrite Eil. cbn [bind]. unfold mk_holes, mk_base in *.
      destruct (_ && _); cbn [bind] in *; [discriminate|]. apply Ok_inj in Et. subst e'. eexists. split; [reflexivity|]. split; reflexivity. }
    destruct Hc as (ec & E1 & E2 & E3). eapply Gr; [rewrite <- E2, <- Ei; apply (copy_bbox_int _ _ E1)|reflexivity|exact E3].
Qed.

(* the hypotheses are met by a group that holds an ellipse *)
Example C77_nontrivial : let e := EGroup (EB "g" ex_edge false (t_new6 0 (-1) 3 1 0 4)) false
     [("a", ELeaf (EB "a" ex_edge true t_new) (SEllipse (P 0 0) (P 4 2)))] [] in
  let m := t_new6 1 1 0 0 1 0 in
  exists m' e' c, follows e m /\ elem_transform e m = (m', Ok e') /\ elem_center e = Ok c.
Proof.
  cbv zeta. do 3 eexists. split; [repeat split|]. split; [reflexivity|].
  erewrite center_int; [|cbn [elem_bbox_int foldM snd shape_bbox_int bind e_base e_xform]; rewrite of_pts_min_max; cbn [px py];
    rewrite ext_new by (apply min_le_max); cbn [bind]; reflexivity]. reflexivity.
Qed.
