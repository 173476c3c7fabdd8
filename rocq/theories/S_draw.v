(* Notions used in the statements about drawing into a DrawingContext. *)
Require Import Verif.Base Verif.M_vector Verif.M_bbox Verif.M_transform Verif.M_bezier Verif.M_colors Verif.M_elems Verif.M_draw.
From Coq Require Import ZArith String List.
Import ListNotations.
Local Open Scope list_scope.

(* [c'] is [c] with the calls [l] made on the image that is drawn on; the matrix is the same *)
Definition drew {F} (c : canvas F) (l : list (cmd F)) (c' : canvas F) : Prop :=
  List.length (images c') = List.length (images c) /\
  (forall i, nth i (images c') [] = if Nat.eqb i (target c) then nth i (images c) [] ++ l else nth i (images c) []) /\
  target c' = target c /\ shadow c' = shadow c /\ shadow_offset c' = shadow_offset c /\
  shadow_color c' = shadow_color c /\
  tmat (dmatrix c') = tmat (dmatrix c) /\ tstack (dmatrix c') = tstack (dmatrix c) /\
  prod c' = prod c /\ ddebug c' = ddebug c /\ dcps c' = dcps c /\ ppc c' = ppc c.
(* the image drawn on exists *)
Definition sound {F} (c : canvas F) : Prop := (target c < List.length (images c))%nat.

(* round dots of diameter [w] *)
Inductive dots {F} {NF : Num F} (w : Z) (rim col : option (color F)) : list (F * F) -> list (cmd F) -> Prop :=
| dots_nil : dots w rim col [] []
| dots_cons x y l ds : dots w rim col l ds ->
    dots w rim col ((x, y) :: l)
      (CEllipse (nsub x (ndiv (nofZ w) (nofZ 2))) (nsub y (ndiv (nofZ w) (nofZ 2)))
                (nadd x (ndiv (nofZ w) (nofZ 2))) (nadd y (ndiv (nofZ w) (nofZ 2))) rim col :: ds).

(* How a path is drawn, from its pen and brush: [sc] the fill colour, [w] the width of its
   outline, [ds] what is added in debug mode. *)
Inductive picture {F} (pts : list (F * F)) (sc : option (color F)) (w : Z) (ds : list (cmd F)) : penbrush F -> list (cmd F) -> Prop :=
| pic_fill br : picture pts sc w ds (PenBrush None (Some br)) [CPolygon pts sc]
| pic_both p br z pts' : pts = z :: pts' ->
    picture pts sc w ds (PenBrush (Some p) (Some br))
      (CPolygon pts sc :: CLine (pts ++ [z]) (Some (bcolor (pbrush p))) w :: ds)
| pic_line p : picture pts sc w ds (PenBrush (Some p) None) (CLine pts (Some (bcolor (pbrush p))) w :: ds)
| pic_none : picture pts sc w ds (PenBrush None None) [CLine pts None 1%Z].

(* the polygons among the calls *)
Fixpoint fills {F} (l : list (cmd F)) : list (option (color F)) :=
  match l with
  | [] => []
  | CPolygon _ f :: l' => f :: fills l'
  | _ :: l' => fills l'
  end.
(* the squares among the calls: one for each point or control point shown *)
Fixpoint squares {F} (l : list (cmd F)) : list (F * F * F * F) :=
  match l with
  | [] => []
  | CRect a b c d _ _ :: l' => (a, b, c, d) :: squares l'
  | _ :: l' => squares l'
  end.

(* the widths of the lines among the calls *)
Fixpoint widths {F} (l : list (cmd F)) : list Z :=
  match l with
  | [] => []
  | CLine _ _ w :: l' => w :: widths l'
  | _ :: l' => widths l'
  end.
(* where the points and control points of a control path are *)
Definition places {F} (k : cpath F) : list (pt F) :=
  match k with KPoints l => l | KCps l => map cc l end.
(* (0, 0, 0, 0), the colour nothing is painted with *)
Definition clear_color {F} {NF : Num F} (t : color F) : Prop :=
  exists a b c d, t = CTuple [a; b; c; d] /\
    neqb a (nofZ 0) = true /\ neqb b (nofZ 0) = true /\ neqb c (nofZ 0) = true /\ neqb d (nofZ 0) = true.
