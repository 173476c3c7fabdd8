(* Notions used in the statements about elements, over the real numbers. *)
Require Import Verif.Base Verif.NumR Verif.M_vector Verif.M_bbox Verif.M_transform Verif.M_bezier Verif.M_colors Verif.M_elems.
Require Import Verif.S_transform Verif.S_bezier.
From Coq Require Import Reals List Permutation.
Import ListNotations.
Open Scope R_scope.

(* the matrix and the stack of saved matrices are as before *)
Definition same_matrix {F} (s s' : transform F) : Prop := tmat s' = tmat s /\ tstack s' = tstack s.

(* what the constructor of an element asserts: a filled element is closed *)
Definition wellformed {F} (b : ebase F) : Prop := pb_filled (e_pb b) = true -> e_closed b = true.

(* a point of the plane, from a pair of coordinates *)
Definition pt_of (xy : R * R) : pt R := P (fst xy) (snd xy).

(* the drawn line pieces of a path, without direction *)
Definition piece {A} (l : list A) (p q : A) : Prop :=
  In (p, q) (consecutive l) \/ In (q, p) (consecutive l).
Definition same_pieces {A} (l l' : list A) : Prop := forall p q, piece l p q <-> piece l' p q.
(* two lists of paths drawn with the same pens, in the same order, showing the same picture *)
Definition same_picture (a b : list (path R)) : Prop :=
  Forall2 (fun p q => p_pb p = p_pb q /\ p_closed p = p_closed q /\
                      same_pieces (p_points p) (p_points q)) a b.

(* the rectangle spanned by two corners *)
Definition within (a b x : R) : Prop := Rmin a b <= x <= Rmax a b.
Definition in_rect (p1 p2 q : pt R) : Prop :=
  within (px p1) (px p2) (px q) /\ within (py p1) (py p2) (py q).

(* direction from a to b along one axis: 1 or -1 *)
Definition towards (a b : R) : R := if Rle_dec a b then 1 else -1.
(* the eight points at distance r from the corners, along the sides *)
Definition corner_points (p1 p2 : pt R) (r : R) : list (pt R) :=
  let sx := towards (px p1) (px p2) in
  let sy := towards (py p1) (py p2) in
  [ P (px p1 + sx * r) (py p1); P (px p1) (py p1 + sy * r);
    P (px p1) (py p2 - sy * r); P (px p1 + sx * r) (py p2);
    P (px p2 - sx * r) (py p2); P (px p2) (py p2 - sy * r);
    P (px p2) (py p1 + sy * r); P (px p2 - sx * r) (py p1) ].

(* distance of a point from the line through [o] with unit direction [u] *)
Definition line_dist (o : pt R) (u : vec R) (q : pt R) : R :=
  Rabs ((px q - px o) * vy u - (py q - py o) * vx u).

(* length of the chord of a segment *)
Definition chord (s e : cpoint R) : R :=
  sqrt ((px (cc s) - px (cc e)) ^ 2 + (py (cc s) - py (cc e)) ^ 2).

(* both draw, and show the same picture *)
Definition same_paths (a b : res (list (path R))) : Prop :=
  exists x y, a = Ok x /\ b = Ok y /\ same_picture x y.
(* the images of the two unit vectors are equally long *)
Definition even_scale (m : mat R) : Prop := m00 m ^ 2 + m10 m ^ 2 = m01 m ^ 2 + m11 m ^ 2.

(* the cubics drawn by a list of control points, each as its four control points *)
Definition quadr := (pt R * pt R * pt R * pt R)%type.
Definition curve_of (pq : cpoint R * cpoint R) : quadr :=
  (cc (fst pq), right_of (fst pq), left_of (snd pq), cc (snd pq)).
Definition curves (cps : list (cpoint R)) (closed : bool) : list quadr := map curve_of (path_segments cps closed).
Definition at_t (q : quadr) (t : R) : pt R := let '(a, b, c, d) := q in cubic a b c d t.
(* the first and the second half of a cubic, each run through from 0 to 1 *)
Definition halves (q q1 q2 : quadr) : Prop :=
  forall u, at_t q1 u = at_t q (u / 2) /\ at_t q2 u = at_t q (1 / 2 + u / 2).
(* distance between the ends *)
Definition span (q : quadr) : R := let '(a, _, _, d) := q in sqrt (dist2 a d).
