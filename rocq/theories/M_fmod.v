(* The operator % of Python floats, and min_rotation of /repo/x7/geom/utils.py with it.
   M_utils.min_rotation uses the floor of the exact quotient instead, which is what % is for
   numbers without rounding; P_float15.v shows that the two agree there. *)
Require Import Verif.Base.

Section Fmod.
  Context {F : Type} {NF : Num F}.
  Local Open Scope num_scope.
  (* C's fmod (external, see DESIGN.md) *)
  Variable fmod : F -> F -> F.

  (* float % float in CPython, for a divisor that is not zero: the remainder gets the sign of the
     divisor.  A remainder of zero also gets its sign, which is left out for positive divisors. *)
  Definition float_mod (x y : F) : F :=
    let m := fmod x y in
    if m =? #0 then if y <? #0 then - #0 else #0
    else if Bool.eqb (y <? #0) (m <? #0) then m else m + y.
  (* utils.py:22-31 min_rotation with float arguments *)
  Definition min_rotation_float (target source : F) : F :=
    float_mod (target - source + #180) (#360) - #180.
End Fmod.
