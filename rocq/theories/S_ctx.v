(* Specification of the drawing calls of a DrawingContext: what is drawn, as a set of points. *)
Require Import Verif.Base Verif.NumR Verif.M_vector Verif.M_bbox Verif.M_transform Verif.M_colors Verif.M_draw.
From Coq Require Import Reals String List.
Import ListNotations.
Local Open Scope R_scope.

(* q lies on the segment from a to b *)
Definition on_segment (a b q : R * R) : Prop :=
  exists t, 0 <= t <= 1 /\ fst q = fst a + t * (fst b - fst a) /\ snd q = snd a + t * (snd b - snd a).
(* q lies on a line that the calls draw in the colour col *)
Definition inked (l : list (cmd R)) (col : color R) (q : R * R) : Prop :=
  exists a b w, In (CLine [a; b] (Some col) w) l /\ on_segment a b q.

(* the calls made on the image that is drawn on *)
Definition calls {F} (c : canvas F) : list (cmd F) := nth (target c) (images c) [].
(* c' is c after the calls l *)
Definition draws {F} (l : list (cmd F)) (c c' : canvas F) : Prop :=
  calls c' = (calls c ++ l)%list /\ (forall i, i <> target c -> nth i (images c') [] = nth i (images c) []) /\ List.length (images c') = List.length (images c) /\
  target c' = target c /\ shadow c' = shadow c /\ shadow_offset c' = shadow_offset c /\ shadow_color c' = shadow_color c /\
  dmatrix c' = dmatrix c /\ prod c' = prod c /\ ddebug c' = ddebug c /\ dcps c' = dcps c /\ ppc c' = ppc c.

(* the edge of the square with half side r around the origin, and the parts of the axes *)
Definition on_square (r u v : R) : Prop := Rmax (Rabs u) (Rabs v) = r.
Definition on_axis (r u v : R) : Prop := (v = 0 /\ Rabs u <= r) \/ (u = 0 /\ Rabs v <= r).
