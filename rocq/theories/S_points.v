(* Specification of live points, independent of how xy() computes: where a point is and what it rests on. *)
Require Import Verif.Base Verif.M_vector Verif.M_points.

Section Spec.
  Context {F : Type} {NF : Num F}.
  Local Open Scope num_scope.
  Variable st : pstore F.

  (* the position an object has, read off the chain of bases it was built on *)
  Inductive located : nat -> pt F -> Prop :=
  | loc_point i x y n : nth_error st i = Some (NPoint x y n) -> located i (P x y)
  | loc_rel i dx dy b n p : nth_error st i = Some (NRel dx dy b n) -> located b p ->
      located i (P (dx + px p) (dy + py p))
  | loc_calc i b s n dx dy bb n' p : nth_error st i = Some (NCalc b s n) ->
      nth_error st b = Some (NRel dx dy bb n') -> located bb p ->
      located i (P (s * dx + px p) (s * dy + py p)).

  (* [rests i k]: following bases from i one arrives at the absolute point k *)
  Inductive rests : nat -> nat -> Prop :=
  | rest_point i x y n : nth_error st i = Some (NPoint x y n) -> rests i i
  | rest_rel i dx dy b n k : nth_error st i = Some (NRel dx dy b n) -> rests b k -> rests i k
  | rest_calc i b s n dx dy bb n' k : nth_error st i = Some (NCalc b s n) ->
      nth_error st b = Some (NRel dx dy bb n') -> rests bb k -> rests i k.

  (* [gain j i c]: the offset (dx, dy) of the relative point j enters the position of i with factor c *)
  Inductive gain (j : nat) : nat -> F -> Prop :=
  | gain_point i x y n : nth_error st i = Some (NPoint x y n) -> gain j i (#0)
  | gain_rel i dx dy b n c : nth_error st i = Some (NRel dx dy b n) -> gain j b c ->
      gain j i ((if Nat.eqb i j then #1 else #0) + c)
  | gain_calc i b s n dx dy bb n' c : nth_error st i = Some (NCalc b s n) ->
      nth_error st b = Some (NRel dx dy bb n') -> gain j bb c ->
      gain j i ((if Nat.eqb b j then s else #0) + c).

  (* i, or something i is built on, is a PointCalc whose base is another PointCalc *)
  Inductive calc_on_calc : nat -> Prop :=
  | cc_here i b s n b' s' n' : nth_error st i = Some (NCalc b s n) ->
      nth_error st b = Some (NCalc b' s' n') -> calc_on_calc i
  | cc_rel i dx dy b n : nth_error st i = Some (NRel dx dy b n) -> calc_on_calc b -> calc_on_calc i
  | cc_calc i b s n dx dy bb n' : nth_error st i = Some (NCalc b s n) ->
      nth_error st b = Some (NRel dx dy bb n') -> calc_on_calc bb -> calc_on_calc i.
End Spec.

(* the states a program can reach *)
Definition reachable {F} {NF : Num F} (st : pstore F) : Prop := exists ops, st = prun ops [].

(* an operation that assigns to object i *)
Definition assigns {F} (i : nat) (o : pop F) : Prop :=
  match o with PSetxy j _ _ | PSet j _ | PSetD j _ _ | PSetScale j _ => j = i | _ => False end.
