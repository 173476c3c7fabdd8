(* Proofs about BBox over the real numbers. *)
Require Import Verif.L_real Verif.M_vector Verif.M_bbox Verif.S_bbox Verif.L_bbox.
From Coq Require Import List.

(* an affine map of the plane *)
Definition affine_map (T : pt R -> pt R) : Prop :=
  exists a b c d e f, forall p, T p = P (a * px p + b * py p + c) (d * px p + e * py p + f).

Lemma in_box_R xl yl xh yh (x y : R) :
  in_box (BB xl yl xh yh) x y <-> xl <= x <= xh /\ yl <= y <= yh.
Proof. simpl. unfold le. simpl. rewrite !Rleb_le. tauto. Qed.

Lemma good_R xl yl xh yh : good (BB xl yl xh yh) <-> xl <= xh /\ yl <= yh.
Proof. simpl. unfold le. simpl. rewrite !Rleb_le. tauto. Qed.

Lemma mkbbox_R x1 y1 x2 y2 :
  mkbbox x1 y1 x2 y2 = BB (Rmin x1 x2) (Rmin y1 y2) (Rmax x1 x2) (Rmax y1 y2).
Proof. unfold mkbbox. rewrite !pymin_R, !pymax_R. reflexivity. Qed.

(* == is equality *)
Lemma same_R (a b : bbox R) : same a b <-> a = b.
Proof.
  unfold same. destruct a, b; simpl; try (split; congruence).
  autorewrite with rbool. split.
  - intros (((-> & ->) & ->) & ->). reflexivity.
  - intros E. inversion E; auto.
Qed.

Lemma expand_R xl yl xh yh dx dy : xl <= xh -> yl <= yh ->
  bbox_expand (BB xl yl xh yh) dx (Some dy) =
  Ok (let ex := Rmax dx (- ((xh - xl) / 2)) in
      let ey := Rmax dy (- ((yh - yl) / 2)) in
      BB (xl - ex) (yl - ey) (xh + ex) (yh + ey)).
Proof.
  intros Hx Hy. unfold bbox_expand. rewrite mkbbox_R, !pymax_R. cbn -[IZR].
  replace (- (xh - xl) / 2) with (- ((xh - xl) / 2)) by lra.
  replace (- (yh - yl) / 2) with (- ((yh - yl) / 2)) by lra.
  f_equal. unfold Rmax, Rmin.
  destruct (Rle_dec dx (- ((xh - xl) / 2))), (Rle_dec dy (- ((yh - yl) / 2)));
    repeat match goal with |- context [Rle_dec ?a ?b] => destruct (Rle_dec a b) end; f_equal; lra.
Qed.

Lemma expand_none_arg (b : bbox R) dx : bbox_expand b dx None = bbox_expand b dx (Some dx).
Proof. reflexivity. Qed.

Lemma expand_spec b dx dy : good b -> b <> BNone ->
  exists b', bbox_expand b dx (Some dy) = Ok b' /\ good b' /\
    bbox_center b' = bbox_center b /\
    bbox_width b' = Rmax 0 (bbox_width b + 2 * dx) /\
    bbox_height b' = Rmax 0 (bbox_height b + 2 * dy) /\
    (0 <= dx -> 0 <= dy -> sub_box b b') /\
    (dx <= 0 -> dy <= 0 -> sub_box b' b).
Proof.
  destruct b as [|xl yl xh yh]; [congruence|]. rewrite good_R. intros [Hx Hy] _.
  rewrite expand_R by auto. eexists. split; [reflexivity|]. cbv zeta.
  unfold Rmax.
  destruct (Rle_dec dx (- ((xh - xl) / 2))), (Rle_dec dy (- ((yh - yl) / 2))); cbn -[IZR in_box good];
  (split; [apply good_R; lra|]);
  (split; [f_equal; f_equal; lra|]);
  (split; [destruct (Rle_dec 0 (xh - xl + 2 * dx)); lra|]);
  (split; [destruct (Rle_dec 0 (yh - yl + 2 * dy)); lra|]);
  split; intros Hdx Hdy x y _ _; rewrite !in_box_R; lra.
Qed.

Lemma expand_back b dx dy : good b -> b <> BNone -> 0 <= dx -> 0 <= dy ->
  exists b', bbox_expand b dx (Some dy) = Ok b' /\ bbox_expand b' (- dx) (Some (- dy)) = Ok b.
Proof.
  destruct b as [|xl yl xh yh]; [congruence|]. rewrite good_R. intros [Hx Hy] _ Hdx Hdy.
  rewrite expand_R by auto. eexists. split; [reflexivity|]. cbv zeta.
  rewrite (Rmax_left dx), (Rmax_left dy) by lra.
  rewrite expand_R by lra. cbv zeta. rewrite !Rmax_left by lra. f_equal. f_equal; lra.
Qed.

(* ---------------- transformed ---------------- *)
Definition pointwise (T : pt R -> pt R) (l : list (pt R)) : res (list (pt R)) := Ok (map T l).

Lemma transformed_R T xl yl xh yh :
  exists b', bbox_transformed (pointwise T) (BB xl yl xh yh) = Ok b' /\ good b' /\
    (forall p, In p [P xl yl; P xl yh; P xh yh; P xh yl] -> in_box b' (px (T p)) (py (T p))) /\
    (forall c, good c ->
       (forall p, In p [P xl yl; P xl yh; P xh yh; P xh yl] -> in_box c (px (T p)) (py (T p))) ->
       sub_box b' c).
Proof.
  exists (bbox_add (bbox_of_pts (T (P xl yl)) (T (P xl yh)))
                   (bbox_of_pts (T (P xh yh)) (T (P xh yl)))).
  split; [reflexivity|].
  set (A := bbox_of_pts (T (P xl yl)) (T (P xl yh))).
  set (B := bbox_of_pts (T (P xh yh)) (T (P xh yl))).
  assert (GA : good A) by (apply good_mk; simpl; auto).
  assert (GB : good B) by (apply good_mk; simpl; auto).
  assert (IN : forall p q : pt R, in_box (bbox_of_pts p q) (px p) (py p)
                         /\ in_box (bbox_of_pts p q) (px q) (py q)).
  { intros p q. unfold bbox_of_pts. rewrite mkbbox_R, !in_box_R.
    pose proof (Rmin_l (px p) (px q)). pose proof (Rmin_r (px p) (px q)).
    pose proof (Rmin_l (py p) (py q)). pose proof (Rmin_r (py p) (py q)).
    pose proof (Rmax_l (px p) (px q)). pose proof (Rmax_r (px p) (px q)).
    pose proof (Rmax_l (py p) (py q)). pose proof (Rmax_r (py p) (py q)). lra. }
  split; [apply good_add; auto|]. split.
  - intros p Hp. apply add_upper; simpl; auto.
    destruct Hp as [<-|[<-|[<-|[<-|[]]]]]; [left|left|right|right]; apply IN.
  - intros c Gc H. apply add_least; auto.
    + intros x y _ _. destruct c as [|xa ya xb yb].
      { exfalso. apply (H (P xl yl)); simpl; auto. }
      pose proof (H (P xl yl) ltac:(simpl; auto)) as H1.
      pose proof (H (P xl yh) ltac:(simpl; auto)) as H2.
      rewrite in_box_R in *. unfold A, bbox_of_pts. rewrite mkbbox_R, in_box_R.
      unfold Rmin, Rmax. destruct (Rle_dec _ _), (Rle_dec _ _); lra.
    + intros x y _ _. destruct c as [|xa ya xb yb].
      { exfalso. apply (H (P xl yl)); simpl; auto. }
      pose proof (H (P xh yh) ltac:(simpl; auto)) as H1.
      pose proof (H (P xh yl) ltac:(simpl; auto)) as H2.
      rewrite in_box_R in *. unfold B, bbox_of_pts. rewrite mkbbox_R, in_box_R.
      unfold Rmin, Rmax. destruct (Rle_dec _ _), (Rle_dec _ _); lra.
Qed.

(* a value on an interval is between the values at its ends, for an affine function *)
Lemma affine_interval a c l h x lo hi :
  l <= x <= h -> lo <= a * l + c <= hi -> lo <= a * h + c <= hi -> lo <= a * x + c <= hi.
Proof. intros. split; destruct (Rle_dec 0 a); nra. Qed.

Lemma affine_in_box T xl yl xh yh c x y : affine_map T -> good c ->
  xl <= x <= xh -> yl <= y <= yh ->
  (forall p, In p [P xl yl; P xl yh; P xh yh; P xh yl] -> in_box c (px (T p)) (py (T p))) ->
  in_box c (px (T (P x y))) (py (T (P x y))).
Proof.
  intros (a & b & k & d & e & f & HT) Gc Hx Hy H.
  destruct c as [|xa ya xb yb].
  { exfalso. apply (H (P xl yl)); simpl; auto. }
  pose proof (H (P xl yl) ltac:(simpl; auto)) as H1.
  pose proof (H (P xl yh) ltac:(simpl; auto)) as H2.
  pose proof (H (P xh yh) ltac:(simpl; auto)) as H3.
  pose proof (H (P xh yl) ltac:(simpl; auto 10)) as H4.
  clear H. rewrite in_box_R in *. rewrite !HT in *. simpl in *.
  split.
  - assert (xa <= b * yl + (a * x + k) <= xb).
    { replace (b * yl + (a * x + k)) with (a * x + (b * yl + k)) by lra.
      apply affine_interval with xl xh; auto; lra. }
    assert (xa <= b * yh + (a * x + k) <= xb).
    { replace (b * yh + (a * x + k)) with (a * x + (b * yh + k)) by lra.
      apply affine_interval with xl xh; auto; lra. }
    replace (a * x + b * y + k) with (b * y + (a * x + k)) by lra.
    apply affine_interval with yl yh; auto.
  - assert (ya <= e * yl + (d * x + f) <= yb).
    { replace (e * yl + (d * x + f)) with (d * x + (e * yl + f)) by lra.
      apply affine_interval with xl xh; auto; lra. }
    assert (ya <= e * yh + (d * x + f) <= yb).
    { replace (e * yh + (d * x + f)) with (d * x + (e * yh + f)) by lra.
      apply affine_interval with xl xh; auto; lra. }
    replace (d * x + e * y + f) with (e * y + (d * x + f)) by lra.
    apply affine_interval with yl yh; auto.
Qed.

Lemma transformed_encloses T b : affine_map T -> b <> BNone ->
  exists b', bbox_transformed (pointwise T) b = Ok b' /\ good b' /\
    (forall x y, in_box b x y -> in_box b' (px (T (P x y))) (py (T (P x y)))).
Proof.
  intros HT Hb. destruct b as [|xl yl xh yh]; [congruence|].
  destruct (transformed_R T xl yl xh yh) as (b' & E & G & IN & _).
  exists b'. split; auto. split; auto.
  intros x y Hin. rewrite in_box_R in Hin. destruct Hin. apply affine_in_box with xl yl xh yh; auto.
Qed.

Lemma area_inter_R a b : good a -> good b -> bbox_touches a b = true ->
  bbox_area (bbox_intersection a b) = 0.
Proof.
  intros Ga Gb T. destruct (touches_inter a b Ga Gb T) as [N E].
  destruct (bbox_intersection a b) as [|xl yl xh yh]; [congruence|].
  simpl in *. autorewrite with rbool in E. destruct E; subst; lra.
Qed.

Lemma fat_area (b : bbox R) : good b -> (fat b <-> 0 < bbox_area b).
Proof.
  destruct b as [|xl yl xh yh].
  - simpl. split; [tauto|lra].
  - rewrite good_R. simpl. unfold lt. simpl. rewrite !Rltb_lt. intros [? ?]. split; intros; [nra|].
    split; apply Rnot_le_lt; intro; nra.
Qed.
