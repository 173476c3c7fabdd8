(* Property theorems C09-C16: bounding boxes.
   C09-C14 hold for every ordered number type: they apply to exact numbers (OrdR) and to
   IEEE doubles other than NaN (OrdFloat).  C15 and C16 are about exact numbers. *)
Require Import Verif.Base Verif.NumR Verif.NumFloat Verif.L_ord Verif.L_real.
Require Import Verif.M_vector Verif.M_bbox Verif.S_bbox Verif.L_bbox Verif.L_bboxR.
From Coq Require Import List Permutation.
Set Implicit Arguments.

(* a == b for Python numbers *)
Definition eqn {F} {NF : Num F} (a b : F) : Prop := neqb a b = true.

(* ---------------------------------------------------------------- *)
(** ** C09 construction *)

(* The three ways to give two corners build the same box; its edges are the given
   coordinates, in order. *)
Theorem C09_construction_normalises {F} {NF : Num F} {OF : NumOrd F} (x1 y1 x2 y2 : F) :
  ok x1 -> ok y1 -> ok x2 -> ok y2 ->
  exists xl yl xh yh,
    bbox_new (ANum x1) (ANum y1) (Some x2) (Some y2) = Ok (BB xl yl xh yh) /\
    bbox_new (ATuple [x1; y1; x2; y2]) ANone None None = Ok (BB xl yl xh yh) /\
    bbox_new (APoint (P x1 y1)) (APoint (P x2 y2)) None None = Ok (BB xl yl xh yh) /\
    le xl xh /\ le yl yh /\
    ((eqn xl x1 /\ eqn xh x2) \/ (eqn xl x2 /\ eqn xh x1)) /\
    ((eqn yl y1 /\ eqn yh y2) \/ (eqn yl y2 /\ eqn yh y1)).
Proof.
  intros. do 4 eexists. split; [reflexivity|]. split; [reflexivity|]. split; [reflexivity|].
  unfold eqn. ord [x1; x2; y1; y2].
Qed.

(* For doubles and exact numbers alike the edges are literally two of the arguments. *)
Theorem C09_edges_are_arguments {F} {NF : Num F} (x1 y1 x2 y2 xl yl xh yh : F) :
  bbox_new (ANum x1) (ANum y1) (Some x2) (Some y2) = Ok (BB xl yl xh yh) ->
  (xl = x1 \/ xl = x2) /\ (xh = x1 \/ xh = x2) /\ (yl = y1 \/ yl = y2) /\ (yh = y1 \/ yh = y2).
Proof.
  simpl. unfold mkbbox, pymin, pymax. intros H. inversion H.
  repeat split; match goal with |- context [if ?c then _ else _] => destruct c end; auto.
Qed.

(* Which argument shapes are accepted, and what the others raise. *)
Inductive accepted {F} {NF : Num F} : barg F -> barg F -> option F -> option F -> Prop :=
| acc_none yl xh yh : accepted ANone yl xh yh
| acc_coords a b c d : accepted (ANum a) (ANum b) (Some c) (Some d)
| acc_points p q yh : (yh = None \/ exists n, yh = Some n /\ eqn n (nofZ 0)) ->
    accepted (APoint p) (APoint q) None yh
| acc_tuple a b c d xh yh :
    (xh = None \/ exists n, xh = Some n /\ eqn n (nofZ 0)) ->
    (yh = None \/ exists n, yh = Some n /\ eqn n (nofZ 0)) ->
    accepted (ATuple [a; b; c; d]) ANone xh yh.

Lemma truthy_false {F} {NF : Num F} (o : option F) :
  truthy o = false <-> (o = None \/ exists n, o = Some n /\ eqn n (nofZ 0)).
Proof.
  destruct o as [n|]; simpl; unfold eqn.
  - split.
    + intros H. right. exists n. split; auto. destruct (neqb n (nofZ 0)); auto.
    + intros [H|(m & E & H)]; [discriminate|]. inversion E; subst. rewrite H. reflexivity.
  - split; auto.
Qed.

Theorem C09_accepted_shapes {F} {NF : Num F} (xl yl : barg F) (xh yh : option F) :
  (accepted xl yl xh yh <-> exists b, bbox_new xl yl xh yh = Ok b) /\
  (~ accepted xl yl xh yh ->
   bbox_new xl yl xh yh = Raise TypeError \/
   (bbox_new xl yl xh yh = Raise ValueError /\ exists l, xl = ATuple l /\ length l <> 4%nat)) /\
  bbox_new ANone yl xh yh = Ok BNone.
Proof.
  assert (A : accepted xl yl xh yh -> exists b, bbox_new xl yl xh yh = Ok b).
  { destruct 1; simpl; eauto.
    - apply truthy_false in H. rewrite H. eauto.
    - apply truthy_false in H. apply truthy_false in H0. rewrite H, H0. simpl. eauto. }
  assert (B : accepted xl yl xh yh \/
              bbox_new xl yl xh yh = Raise TypeError \/
   (bbox_new xl yl xh yh = Raise ValueError /\ exists l, xl = ATuple l /\ length l <> 4%nat)).
  { destruct xl as [|n|p|l]; [left; constructor| | |].
    - destruct yl as [|m|q|l']; simpl; auto.
      + destruct (truthy xh || truthy yh); auto.
      + destruct xh; simpl; [destruct yh; auto; left; constructor|]. destruct (truthy yh); auto.
      + destruct xh; simpl; auto. destruct (truthy yh); auto.
      + destruct xh; simpl; auto. destruct (truthy yh); auto.
    - destruct yl as [|m|q|l']; simpl; auto.
      + destruct (truthy xh || truthy yh); auto.
      + destruct xh; simpl; auto. destruct (truthy yh); auto.
      + destruct xh; simpl; auto. destruct (truthy yh) eqn:E; auto.
        left. constructor. apply truthy_false; auto.
      + destruct xh; simpl; auto. destruct (truthy yh); auto.
    - destruct yl as [|m|q|l']; simpl; auto.
      + destruct (truthy xh || truthy yh) eqn:E; auto.
        apply orb_false_iff in E. destruct E as [E1 E2].
        apply truthy_false in E1. apply truthy_false in E2.
        destruct l as [|a [|b [|c [|d [|e l]]]]]; try (left; constructor; assumption);
          right; right; split; auto; eexists; split; eauto; simpl; lia.
      + destruct xh; simpl; auto. destruct (truthy yh); auto.
      + destruct xh; simpl; auto. destruct (truthy yh); auto.
      + destruct xh; simpl; auto. destruct (truthy yh); auto. }
  split; [split; auto|split; [|reflexivity]].
  - intros [b E]. destruct B as [B|[B|[B _]]]; auto; congruence.
  - intros H. destruct B as [B|B]; [contradiction|auto].
Qed.

(* Any box obtained through the interface has ordered edges and no NaN. *)
Theorem C09_boxes_stay_ordered {F} {NF : Num F} {OF : NumOrd F} (b : bbox F) :
  made b -> match b with
            | BNone => True
            | BB xl yl xh yh => (ok xl /\ ok yl /\ ok xh /\ ok yh) /\ le xl xh /\ le yl yh
            end.
Proof. exact (@made_good F NF OF b). Qed.

(* ---------------------------------------------------------------- *)
(** ** C10 union *)

Theorem C10_union_upper_bound {F} {NF : Num F} {OF : NumOrd F} (a b : bbox F) :
  good a -> good b ->
  sub_box a (bbox_add a b) /\ sub_box b (bbox_add a b) /\
  (a <> BNone -> b <> BNone ->
   bbox_contains (bbox_add a b) a = Ok true /\ bbox_contains (bbox_add a b) b = Ok true).
Proof.
  intros Ga Gb. split; [exact (sub_add_l a b Ga Gb)|]. split; [exact (sub_add_r a b Ga Gb)|].
  apply add_contains; auto.
Qed.

Theorem C10_union_least {F} {NF : Num F} {OF : NumOrd F} (a b c : bbox F) :
  good a -> good b -> good c -> sub_box a c -> sub_box b c -> sub_box (bbox_add a b) c.
Proof. exact (@add_least F NF OF a b c). Qed.

Theorem C10_union_laws {F} {NF : Num F} {OF : NumOrd F} (a b c : bbox F) :
  good a -> good b -> good c ->
  same (bbox_add a b) (bbox_add b a) /\
  same (bbox_add (bbox_add a b) c) (bbox_add a (bbox_add b c)) /\
  same (bbox_add a a) a /\
  same (bbox_add a BNone) a /\ same (bbox_add BNone a) a.
Proof.
  intros. split; [apply add_comm|split; [apply add_assoc|split; [apply add_idem|split;
    [apply add_none_r|apply add_none_l]]]]; auto.
Qed.

(* sum(boxes, BBox(None)) does not depend on the order of the boxes *)
Theorem C10_union_order_irrelevant {F} {NF : Num F} {OF : NumOrd F} (l l' : list (bbox F)) :
  Permutation l l' -> Forall good l ->
  same (fold_left bbox_add l BNone) (fold_left bbox_add l' BNone).
Proof. intros. apply fold_perm; simpl; auto. Qed.

(* ---------------------------------------------------------------- *)
(** ** C11 intersection *)

Theorem C11_intersection_common_points {F} {NF : Num F} {OF : NumOrd F} (a b : bbox F) (x y : F) :
  good a -> good b -> ok x -> ok y ->
  (in_box (bbox_intersection a b) x y <-> in_box a x y /\ in_box b x y).
Proof. exact (@inter_in F NF OF a b x y). Qed.

Theorem C11_intersection_none_iff {F} {NF : Num F} {OF : NumOrd F} (a b : bbox F) :
  good a -> good b ->
  (bbox_intersection a b = BNone <->
   ~ exists x y, ok x /\ ok y /\ in_box a x y /\ in_box b x y).
Proof.
  intros Ga Gb. rewrite inter_none by auto. split.
  - intros H (x & y & Hx & Hy & A & B). apply (H x y); auto.
  - intros H x y Hx Hy [A B]. apply H. exists x, y. auto.
Qed.

Theorem C11_intersection_laws {F} {NF : Num F} {OF : NumOrd F} (a b c : bbox F) :
  good a -> good b -> good c ->
  same (bbox_intersection a b) (bbox_intersection b a) /\
  same (bbox_intersection (bbox_intersection a b) c) (bbox_intersection a (bbox_intersection b c)) /\
  same (bbox_intersection a a) a /\
  same (bbox_intersection a (bbox_add a b)) a /\
  same (bbox_add a (bbox_intersection a b)) a /\
  good (bbox_intersection a b).
Proof.
  intros. split; [apply inter_comm|split; [apply inter_assoc|split; [apply inter_idem|split;
    [apply absorb_add|split; [apply absorb_inter|apply good_inter]]]]]; auto.
Qed.

(* ---------------------------------------------------------------- *)
(** ** C12 contains, touches, overlaps *)

Theorem C12_contains_all_points {F} {NF : Num F} {OF : NumOrd F} (a b : bbox F) :
  good a -> good b -> a <> BNone -> b <> BNone ->
  (bbox_contains a b = Ok true <-> sub_box b a) /\
  (bbox_contains a b = Ok false <-> ~ sub_box b a) /\
  (bbox_contains a b = Ok true -> same (bbox_intersection a b) b).
Proof.
  intros. destruct (@contains_iff F NF OF a b) as [A B]; auto.
  split; [exact A|split; [exact B|]]. apply contains_inter; auto.
Qed.

(* boxes that share a point either touch or overlap, and never both *)
Theorem C12_touch_or_overlap {F} {NF : Num F} {OF : NumOrd F} (a b : bbox F) :
  good a -> good b -> a <> BNone -> b <> BNone ->
  ((exists x y, ok x /\ ok y /\ in_box a x y /\ in_box b x y) <->
   (bbox_touches a b = true /\ bbox_overlaps a b = Ok false) \/
   (bbox_touches a b = false /\ bbox_overlaps a b = Ok true)).
Proof. exact (@touch_or_overlap F NF OF a b). Qed.

Theorem C12_touches_zero_area {F} {NF : Num F} {OF : NumOrd F} (a b : bbox F) :
  good a -> good b -> bbox_touches a b = true ->
  bbox_overlaps a b = Ok false /\
  bbox_intersection a b <> BNone /\ bbox_is_empty (bbox_intersection a b) = true.
Proof.
  intros. split; [apply touches_not_overlaps|apply touches_inter]; auto.
Qed.

Theorem C12_touches_area_is_zero (a b : bbox R) :
  good a -> good b -> bbox_touches a b = true -> bbox_area (bbox_intersection a b) = 0%R.
Proof. exact (@area_inter_R a b). Qed.

Theorem C12_symmetry {F} {NF : Num F} {OF : NumOrd F} (a b : bbox F) :
  good a -> good b ->
  bbox_touches a b = bbox_touches b a /\ bbox_overlaps a b = bbox_overlaps b a.
Proof. intros. split; [apply touches_sym|apply overlaps_sym]; auto. Qed.

(* for boxes of positive extent, overlapping is having a common part of positive extent *)
Theorem C12_overlaps_common_part {F} {NF : Num F} {OF : NumOrd F} (a b : bbox F) :
  good a -> good b -> fat a -> fat b ->
  (bbox_overlaps a b = Ok true <-> fat (bbox_intersection a b)).
Proof.
  intros. apply overlaps_fat; auto; destruct a, b; simpl in *; try tauto; congruence.
Qed.
Theorem C12_overlaps_positive_area (a b : bbox R) :
  good a -> good b -> (0 < bbox_area a)%R -> (0 < bbox_area b)%R ->
  (bbox_overlaps a b = Ok true <-> (0 < bbox_area (bbox_intersection a b))%R).
Proof.
  intros Ga Gb Ha Hb. rewrite <- fat_area in * by auto.
  rewrite <- fat_area by (apply good_inter; auto). apply C12_overlaps_common_part; auto.
Qed.

Theorem C12_touches_side_is_a_proper_edge {F} {NF : Num F} {OF : NumOrd F} (a b : bbox F) :
  good a -> good b -> fat a -> fat b ->
  (bbox_touches_side a b = true <->
   bbox_touches a b = true /\
   match bbox_intersection a b with
   | BNone => False
   | BB xl yl xh yh => lt xl xh \/ lt yl yh
   end).
Proof. exact (@touches_side_iff F NF OF a b). Qed.

(* ---------------------------------------------------------------- *)
(** ** C13 documented implications: what fails and what holds instead *)

Theorem C13_contains_pt_is_strict {F} {NF : Num F} {OF : NumOrd F} (b : bbox F) (p : pt F) :
  good b -> okp p -> (bbox_contains_pt b p = true <-> in_interior b (px p) (py p)).
Proof. exact (@contains_pt_iff F NF OF b p). Qed.

Theorem C13_touches_pt_is_open_edge {F} {NF : Num F} {OF : NumOrd F} (b : bbox F) (p : pt F) :
  good b -> okp p -> (bbox_touches_pt b p = true <-> on_open_edge b (px p) (py p)).
Proof. exact (@touches_pt_iff F NF OF b p). Qed.

(* "contains implies contains_pt of all corners" is false on doubles *)
Theorem C13_contains_corners_refuted :
  exists a b : bbox float, good a /\ good b /\ fat a /\ fat b /\
    bbox_contains a b = Ok true /\
    exists p, bbox_pll b = Ok p /\ bbox_contains_pt a p = false.
Proof.
  exists (BB 0 0 2 2)%float, (BB 0 0 1 1)%float.
  repeat (split; [vm_compute; auto; fail|]). eexists. split; [reflexivity|]. vm_compute. reflexivity.
Qed.

(* the four corners pass contains_pt exactly when the inner box avoids the border *)
Theorem C13_contains_corners_condition {F} {NF : Num F} {OF : NumOrd F} (a : bbox F) xl yl xh yh :
  good a -> good (BB xl yl xh yh) ->
  ((bbox_contains_pt a (P xl yl) = true /\ bbox_contains_pt a (P xl yh) = true /\
    bbox_contains_pt a (P xh yl) = true /\ bbox_contains_pt a (P xh yh) = true)
   <-> match a with
       | BNone => False
       | BB xl' yl' xh' yh' => lt xl' xl /\ lt xh xh' /\ lt yl' yl /\ lt yh yh'
       end).
Proof.
  destruct a as [|xl' yl' xh' yh']; simpl; intros; [intuition congruence|].
  ord [xl; yl; xh; yh; xl'; yl'; xh'; yh'].
Qed.

(* "touches implies touches_pt of some corner" is false on doubles *)
Theorem C13_touches_corner_refuted :
  exists a b : bbox float, good a /\ good b /\ fat a /\ fat b /\ bbox_touches a b = true /\
    forall p, bbox_pll b = Ok p \/ bbox_plh b = Ok p \/ bbox_phl b = Ok p \/ bbox_phh b = Ok p ->
      bbox_touches_pt a p = false.
Proof.
  exists (BB 0 0 1 1)%float, (BB 1 (-1) 2 2)%float.
  repeat (split; [vm_compute; auto; fail|]).
  intros p [H|[H|[H|H]]]; simpl in H; inversion H; subst; vm_compute; reflexivity.
Qed.

(* what holds: touching boxes share a point, and boxes of positive extent share only
   border points *)
Theorem C13_touches_shares_border {F} {NF : Num F} {OF : NumOrd F} (a b : bbox F) :
  good a -> good b -> bbox_touches a b = true ->
  (exists x y, ok x /\ ok y /\ in_box a x y /\ in_box b x y) /\
  (fat a -> fat b -> forall x y, ok x -> ok y -> in_box a x y -> in_box b x y ->
     ~ in_interior a x y /\ ~ in_interior b x y).
Proof.
  intros Ga Gb T. split; [apply touches_meets; auto|].
  intros Fa Fb x y Hx Hy A B. apply (@touches_shared F NF OF a b x y); auto.
Qed.

(* "touches excludes contains" is false on doubles *)
Theorem C13_touches_excludes_contains_refuted :
  exists a b : bbox float, good a /\ good b /\ fat a /\
    bbox_touches a b = true /\ bbox_contains a b = Ok true.
Proof.
  exists (BB 0 0 1 1)%float, (BB 1 0 1 1)%float. vm_compute. auto 10.
Qed.
(* what holds: it can only happen when the contained box has no area *)
Theorem C13_touches_contains_degenerate {F} {NF : Num F} {OF : NumOrd F} (a b : bbox F) :
  good a -> good b -> bbox_touches a b = true -> bbox_contains a b = Ok true ->
  bbox_is_empty b = true.
Proof.
  destruct a as [|xl yl xh yh], b as [|xl' yl' xh' yh']; simpl; intros Ga Gb T C; try discriminate.
  inversion C as [C']. clear C. ord [xl; yl; xh; yh; xl'; yl'; xh'; yh'].
Qed.

(* "overlaps means non-zero common area" is false on doubles for boxes without area *)
Theorem C13_overlaps_area_refuted :
  exists a b : bbox float, good a /\ good b /\
    bbox_overlaps a b = Ok true /\ bbox_area (bbox_intersection a b) = 0%float.
Proof. exists (BB 0 0 2 2)%float, (BB 1 (-1) 1 3)%float. vm_compute. auto 10. Qed.

(* "a partial overlap puts a corner of the other inside" is false on doubles (a cross) *)
Theorem C13_overlap_corner_refuted :
  exists a b : bbox float, good a /\ good b /\ fat a /\ fat b /\
    bbox_overlaps a b = Ok true /\ bbox_eqb (bbox_intersection a b) b = false /\
    forall p, bbox_pll b = Ok p \/ bbox_plh b = Ok p \/ bbox_phl b = Ok p \/ bbox_phh b = Ok p ->
      bbox_contains_pt a p = false.
Proof.
  exists (BB 0 1 3 2)%float, (BB 1 0 2 3)%float.
  repeat (split; [vm_compute; auto; fail|]).
  intros p [H|[H|[H|H]]]; simpl in H; inversion H; subst; vm_compute; reflexivity.
Qed.

(* Predicates with BBox(None): contains and overlaps raise instead of returning False. *)
Theorem C13_none_operands {F} {NF : Num F} (a b : bbox F) (p : pt F) :
  a = BNone \/ b = BNone ->
  bbox_contains a b = Raise ValueError /\ bbox_overlaps a b = Raise ValueError /\
  bbox_touches a b = false /\ bbox_touches_side a b = false /\
  bbox_intersection a b = BNone /\
  bbox_contains_pt (BNone (F := F)) p = false /\ bbox_touches_pt (BNone (F := F)) p = false.
Proof. intros [-> | ->]; [|destruct a]; simpl; auto 10. Qed.

(* ---------------------------------------------------------------- *)
(** ** C14 grow *)

Theorem C14_grow_bounding_box {F} {NF : Num F} {OF : NumOrd F} (ps : list (pt F)) :
  ps <> [] -> Forall okp ps ->
  exists xl yl xh yh,
    fold_left (@bbox_grow F NF) ps BNone = BB xl yl xh yh /\ good (BB xl yl xh yh) /\
    (forall p, In p ps -> in_box (BB xl yl xh yh) (px p) (py p)) /\
    (exists p, In p ps /\ px p = xl) /\ (exists p, In p ps /\ py p = yl) /\
    (exists p, In p ps /\ px p = xh) /\ (exists p, In p ps /\ py p = yh).
Proof.
  intros N G.
  pose proof (@grow_all_edges F NF ps BNone (or_introl N)) as E.
  pose proof (@good_grow_all F NF OF ps BNone I G) as GG.
  pose proof (fun p => @grow_all_has F NF OF ps BNone p I G) as IN.
  unfold grow_all in *. destruct (fold_left (@bbox_grow F NF) ps BNone) as [|xl yl xh yh]; [contradiction|].
  exists xl, yl, xh, yh. split; auto. split; auto. split; auto.
  destruct E as ([E1|[]] & [E2|[]] & [E3|[]] & [E4|[]]).
  apply in_map_iff in E1. apply in_map_iff in E2. apply in_map_iff in E3. apply in_map_iff in E4.
  destruct E1 as (p1 & A1 & B1), E2 as (p2 & A2 & B2), E3 as (p3 & A3 & B3), E4 as (p4 & A4 & B4).
  repeat split; eauto.
Qed.

(* the result depends only on which points occur: not on order, not on repetitions *)
Theorem C14_grow_set_only {F} {NF : Num F} {OF : NumOrd F} (ps qs : list (pt F)) :
  Forall okp ps -> Forall okp qs -> (forall p, In p ps <-> In p qs) ->
  same (fold_left (@bbox_grow F NF) ps BNone) (fold_left (@bbox_grow F NF) qs BNone).
Proof. exact (@grow_all_set F NF OF ps qs). Qed.

(* growing never loses a point, and grows no more than needed *)
Theorem C14_grow_monotone_least {F} {NF : Num F} {OF : NumOrd F} (b c : bbox F) (ps : list (pt F)) :
  good b -> Forall okp ps ->
  sub_box b (fold_left (@bbox_grow F NF) ps b) /\
  (good c -> sub_box b c -> (forall p, In p ps -> in_box c (px p) (py p)) ->
   sub_box (fold_left (@bbox_grow F NF) ps b) c).
Proof.
  intros Gb Gp. split.
  - intros x y Hx Hy. apply grow_all_keeps; auto.
  - intros Gc S H. apply grow_all_least; auto.
Qed.

(* growing by a point is union with the box of that point *)
Theorem C14_grow_is_union {F} {NF : Num F} {OF : NumOrd F} (b : bbox F) (p : pt F) :
  good b -> okp p -> same (bbox_grow b p) (bbox_add b (bbox_of_pts p p)).
Proof. exact (@grow_as_add F NF OF b p). Qed.

(* ---------------------------------------------------------------- *)
(** ** C15 expand *)

Theorem C15_expand (b : bbox R) (dx dy : R) : good b -> b <> BNone ->
  exists b', bbox_expand b dx (Some dy) = Ok b' /\ good b' /\
    bbox_center b' = bbox_center b /\
    bbox_width b' = Rmax 0 (bbox_width b + 2 * dx) /\
    bbox_height b' = Rmax 0 (bbox_height b + 2 * dy) /\
    (0 <= dx -> 0 <= dy -> sub_box b b') /\
    (dx <= 0 -> dy <= 0 -> sub_box b' b).
Proof. exact (expand_spec b dx dy). Qed.

Theorem C15_expand_default_y (b : bbox R) (dx : R) :
  bbox_expand b dx None = bbox_expand b dx (Some dx) /\
  bbox_expand (BNone (F := R)) dx None = Raise TypeError.
Proof. split; reflexivity. Qed.

Theorem C15_expand_and_back (b : bbox R) (dx dy : R) :
  good b -> b <> BNone -> 0 <= dx -> 0 <= dy ->
  exists b', bbox_expand b dx (Some dy) = Ok b' /\ bbox_expand b' (- dx) (Some (- dy)) = Ok b.
Proof. exact (expand_back b dx dy). Qed.

(* ---------------------------------------------------------------- *)
(** ** C16 transformed *)

(* [pointwise T] is any transformer that moves each point by T *)
Theorem C16_transformed_encloses (T : pt R -> pt R) (b : bbox R) :
  affine_map T -> b <> BNone ->
  exists b', bbox_transformed (pointwise T) b = Ok b' /\ good b' /\
    forall x y, in_box b x y -> in_box b' (px (T (P x y))) (py (T (P x y))).
Proof. exact (transformed_encloses T b). Qed.

(* no smaller box holds the four corners; this needs no affinity *)
Theorem C16_transformed_tight (T : pt R -> pt R) xl yl xh yh :
  exists b', bbox_transformed (pointwise T) (BB xl yl xh yh) = Ok b' /\ good b' /\
    (forall p, In p [P xl yl; P xl yh; P xh yh; P xh yl] -> in_box b' (px (T p)) (py (T p))) /\
    (forall c, good c ->
       (forall p, In p [P xl yl; P xl yh; P xh yh; P xh yl] -> in_box c (px (T p)) (py (T p))) ->
       sub_box b' c).
Proof. exact (transformed_R T xl yl xh yh). Qed.

Theorem C16_transformed_none (f : list (pt R) -> res (list (pt R))) :
  bbox_transformed f BNone = Raise ValueError.
Proof. reflexivity. Qed.

(* over exact numbers == is equality, so every [same] above can be read as = *)
Theorem C10_same_is_equality_exact (a b : bbox R) : same a b <-> a = b.
Proof. exact (same_R a b). Qed.

(* ---------------------------------------------------------------- *)
(** ** The hypotheses are met by ordinary boxes *)

Example good_float : good (BB 0 (-1) 2.5 3)%float /\ fat (BB 0 (-1) 2.5 3)%float.
Proof. vm_compute. auto 10. Qed.
Example good_real : good (BB 0 (-1) 2 3)%R.
Proof. apply good_R. lra. Qed.
Example made_float : made (bbox_grow (bbox_add (BB 0 0 1 1) (BB 2 (-1) 3 0)) (P 7 7))%float.
Proof.
  apply made_grow; [|vm_compute; auto].
  apply made_add.
  - apply made_coords with 0%float 0%float 1%float 1%float; reflexivity.
  - apply made_coords with 3%float 0%float 2%float (-1)%float; reflexivity.
Qed.
Example touching_float : good (BB 0 0 1 1)%float /\ good (BB 1 0 2 1)%float /\
  bbox_touches (BB 0 0 1 1)%float (BB 1 0 2 1)%float = true.
Proof. vm_compute. auto 10. Qed.
Example overlapping_float : bbox_overlaps (BB 0 0 2 2)%float (BB 1 1 3 3)%float = Ok true.
Proof. vm_compute. reflexivity. Qed.
Example containing_float : bbox_contains (BB 0 0 2 2)%float (BB 0 1 1 2)%float = Ok true.
Proof. vm_compute. reflexivity. Qed.
Example affine_shear : affine_map (fun p => P (1 * px p + 2 * py p + 3) (0 * px p + 1 * py p + -4)).
Proof. exists 1, 2, 3, 0, 1, (-4). reflexivity. Qed.
(* instances: exact and double *)
Example union_comm_float (a b : bbox float) : good a -> good b -> same (bbox_add a b) (bbox_add b a).
Proof. intros. apply (C10_union_laws a b b); auto. Qed.

