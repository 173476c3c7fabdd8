(* The machine instance: IEEE 754 binary64, the representation behind Python floats. *)
From Coq Require Export Floats.
From Coq Require Import Uint63.
Require Export Verif.Base.
Set Implicit Arguments.

(* int -> float; exact below 2^53, which covers every literal in the code *)
Definition float_ofZ (z : Z) : float :=
  match z with
  | Z0 => 0%float
  | Zpos _ => PrimFloat.of_uint63 (Uint63.of_Z z)
  | Zneg p => PrimFloat.opp (PrimFloat.of_uint63 (Uint63.of_Z (Zpos p)))
  end.

#[global] Instance NumFloat : Num float := {|
  nofZ := float_ofZ; nadd := PrimFloat.add; nsub := PrimFloat.sub; nmul := PrimFloat.mul;
  ndiv := PrimFloat.div; nneg := PrimFloat.opp; nabs := PrimFloat.abs;
  neqb := PrimFloat.eqb; nltb := PrimFloat.ltb; nleb := PrimFloat.leb |}.

(* sqrt is correctly rounded as in Python; hypot is only an approximation of
   math.hypot (used to run examples and refutations; C85 is proved for every hypot that is not grossly wrong). *)
#[global] Instance RootFloat : NumRoot float := {|
  nsqrt := PrimFloat.sqrt;
  nhypot := fun x y => PrimFloat.sqrt (PrimFloat.add (PrimFloat.mul x x) (PrimFloat.mul y y)) |}.
