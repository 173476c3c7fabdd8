(* What a cubic Bezier curve is, over the real numbers, independently of the code. *)
Require Import Verif.Base Verif.NumR Verif.M_vector Verif.M_bezier.
From Coq Require Import Reals List.
Open Scope R_scope.

(* the cubic with control points a b c d, Bernstein form *)
Definition cubic1 (a b c d t : R) : R :=
  (1 - t) ^ 3 * a + 3 * (1 - t) ^ 2 * t * b + 3 * (1 - t) * t ^ 2 * c + t ^ 3 * d.
Definition cubic (a b c d : pt R) (t : R) : pt R :=
  P (cubic1 (px a) (px b) (px c) (px d) t) (cubic1 (py a) (py b) (py c) (py d) t).

(* the handle points of a control point *)
Definition left_of (s : cpoint R) : pt R := P (px (cc s) + vx (cdl s)) (py (cc s) + vy (cdl s)).
Definition right_of (s : cpoint R) : pt R := P (px (cc s) + vx (cdr s)) (py (cc s) + vy (cdr s)).
(* the curve segment from one control point to the next *)
Definition segment (s e : cpoint R) (t : R) : pt R :=
  cubic (cc s) (right_of s) (left_of e) (cc e) t.

(* the segments of a path: consecutive control points, and the closing one *)
Fixpoint consecutive {A} (l : list A) : list (A * A) :=
  match l with
  | a :: ((b :: _) as r) => (a, b) :: consecutive r
  | _ => []
  end.
Definition path_segments {A} (cps : list A) (closed : bool) : list (A * A) :=
  match cps with
  | [] => []
  | a :: _ => consecutive (if closed then cps ++ [a] else cps)
  end.

(* a point of the curve drawn by the control points *)
Definition on_path (cps : list (cpoint R)) (closed : bool) (p : pt R) : Prop :=
  exists s e t, In (s, e) (path_segments cps closed) /\ 0 <= t <= 1 /\ p = segment s e t.

(* an affine map of the plane *)
Definition is_affine (f : pt R -> pt R) : Prop :=
  exists a b c d e g, forall p, f p = P (a * px p + b * py p + c) (d * px p + e * py p + g).

(* a flat coordinate list x0 y0 x1 y1 ... read as points *)
Fixpoint points_of (l : list R) : option (list (pt R)) :=
  match l with
  | [] => Some []
  | x :: y :: r => match points_of r with Some ps => Some (P x y :: ps) | None => None end
  | _ => None
  end.
