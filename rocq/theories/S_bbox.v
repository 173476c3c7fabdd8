(* What a bounding box means, independently of the methods of class BBox. *)
Require Import Verif.Base Verif.L_ord Verif.M_vector Verif.M_bbox.
From Coq Require Import List.
Set Implicit Arguments.

Section Spec.
  Context {F : Type} {NF : Num F} {OF : NumOrd F}.

  Definition le (a b : F) : Prop := nleb a b = true.
  Definition lt (a b : F) : Prop := nltb a b = true.

  (* the closed rectangle: edges included; BBox(None) holds no point *)
  Definition in_box (b : bbox F) (x y : F) : Prop :=
    match b with
    | BNone => False
    | BB xl yl xh yh => le xl x /\ le x xh /\ le yl y /\ le y yh
    end.

  (* the open rectangle *)
  Definition in_interior (b : bbox F) (x y : F) : Prop :=
    match b with
    | BNone => False
    | BB xl yl xh yh => lt xl x /\ lt x xh /\ lt yl y /\ lt y yh
    end.

  (* every coordinate takes part in the order (no NaN), low edges do not exceed high edges *)
  Definition good (b : bbox F) : Prop :=
    match b with
    | BNone => True
    | BB xl yl xh yh => (ok xl /\ ok yl /\ ok xh /\ ok yh) /\ le xl xh /\ le yl yh
    end.

  (* positive extent in both directions *)
  Definition fat (b : bbox F) : Prop :=
    match b with BNone => False | BB xl yl xh yh => lt xl xh /\ lt yl yh end.

  (* all points of a are points of b *)
  Definition sub_box (a b : bbox F) : Prop :=
    forall x y, ok x -> ok y -> in_box a x y -> in_box b x y.

  (* Python's == on boxes *)
  Definition same (a b : bbox F) : Prop := bbox_eqb a b = true.

  Definition okp (p : pt F) : Prop := ok (px p) /\ ok (py p).
End Spec.

(* Boxes a program can get from the public interface (without assigning to slots). *)
Section Made.
  Context {F : Type} {NF : Num F} {OF : NumOrd F}.

  Inductive made : bbox F -> Prop :=
  | made_none : made BNone
  | made_coords x1 y1 x2 y2 b : ok x1 -> ok y1 -> ok x2 -> ok y2 ->
      bbox_new (ANum x1) (ANum y1) (Some x2) (Some y2) = Ok b -> made b
  | made_tuple x1 y1 x2 y2 b : ok x1 -> ok y1 -> ok x2 -> ok y2 ->
      bbox_new (ATuple [x1; y1; x2; y2]) ANone None None = Ok b -> made b
  | made_points p q b : okp p -> okp q ->
      bbox_new (APoint p) (APoint q) None None = Ok b -> made b
  | made_copy b : made b -> made (bbox_copy b)
  | made_sort b b' : made b -> bbox_sort b = Ok b' -> made b'
  | made_add a b : made a -> made b -> made (bbox_add a b)
  | made_inter a b : made a -> made b -> made (bbox_intersection a b)
  | made_grow b p : made b -> okp p -> made (bbox_grow b p).
End Made.
