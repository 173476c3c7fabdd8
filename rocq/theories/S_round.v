(* Specification of rounding to n decimal places (n may be negative). *)
From Coq Require Import Reals ZArith.
Require Import Verif.M_vector.
Local Open Scope R_scope.

(* the distance between neighbours on the grid of n places *)
Definition unit_n (n : Z) : R := powerRZ 10 (- n).
Definition on_grid (n : Z) (x : R) : Prop := exists k : Z, x = IZR k * unit_n n.
(* y is a multiple of the unit nearest to x, and the even one of two that are equally near *)
Definition rounds_to (n : Z) (x y : R) : Prop :=
  exists k : Z, y = IZR k * unit_n n /\ (forall g, on_grid n g -> Rabs (y - x) <= Rabs (g - x)) /\
    ((exists g, on_grid n g /\ g <> y /\ Rabs (g - x) = Rabs (y - x)) -> Z.even k = true).
