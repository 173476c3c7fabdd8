(* Shared vocabulary of the model: Python exceptions as values, the operations a
   Python number offers, and the few library helpers the code imports from
   x7.lib.iters (which is not part of /repo). *)
From Coq Require Export ZArith List Bool Lia.
Export ListNotations.
Set Implicit Arguments.

(* ------------------------------------------------------------------ *)
(** * Exceptions as values *)

(* One constructor per exception class raised (directly or by Python itself)
   in the modelled code. *)
Inductive exn :=
| TypeError | ValueError | ZeroDivisionError | AttributeError | IndexError
| KeyError | AssertionError | NotImplementedError | RecursionError
| LinAlgError            (* numpy.linalg.LinAlgError *)
| EmptyStackError        (* transform.py:18 *)
| ParallelLineError      (* geom.py:811 *)
| GeomInternalError      (* model.py:19 *)
| MorphError.            (* anim.py:288 *)

Inductive res (A : Type) :=
| Ok (a : A)
| Raise (e : exn).
Arguments Ok {A} a.
Arguments Raise {A} e.

Definition bind {A B} (m : res A) (k : A -> res B) : res B :=
  match m with Ok a => k a | Raise e => Raise e end.

Declare Scope res_scope.
Delimit Scope res_scope with res.
Notation "'let*' x ':=' m 'in' k" := (bind m (fun x => k))
  (at level 200, x pattern, right associativity) : res_scope.
Open Scope res_scope.

(* [x for x in ...] where evaluating an item may raise: stops at the first error. *)
Fixpoint mapM {A B} (f : A -> res B) (l : list A) : res (list B) :=
  match l with
  | [] => Ok []
  | a :: l' => let* b := f a in let* bs := mapM f l' in Ok (b :: bs)
  end.

(* ------------------------------------------------------------------ *)
(** * Numbers *)

(* What the code asks of a Python number.  [ndiv] is only used where the divisor
   is a non-zero literal; every other division goes through [pydiv]. *)
Class Num (F : Type) := {
  nofZ : Z -> F;
  nadd : F -> F -> F;
  nsub : F -> F -> F;
  nmul : F -> F -> F;
  ndiv : F -> F -> F;
  nneg : F -> F;
  nabs : F -> F;
  neqb : F -> F -> bool;
  nltb : F -> F -> bool;
  nleb : F -> F -> bool;
}.

(* math.sqrt, math.hypot *)
Class NumRoot (F : Type) := {
  nsqrt : F -> F;
  nhypot : F -> F -> F;
}.

(* math.pi and the trigonometric functions of module math, in radians *)
Class NumTrig (F : Type) := {
  npi : F;
  nsin : F -> F;
  ncos : F -> F;
  ntan : F -> F;
  natan2 : F -> F -> F;      (* natan2 y x *)
}.

(* math.floor *)
Class NumFloor (F : Type) := {
  nfloor : F -> Z;
}.

Declare Scope num_scope.
Delimit Scope num_scope with num.
Notation "a + b" := (nadd a b) : num_scope.
Notation "a - b" := (nsub a b) : num_scope.
Notation "a * b" := (nmul a b) : num_scope.
Notation "a / b" := (ndiv a b) : num_scope.
Notation "- a" := (nneg a) : num_scope.
Notation "a =? b" := (neqb a b) : num_scope.
Notation "a <? b" := (nltb a b) : num_scope.
Notation "a <=? b" := (nleb a b) : num_scope.
Notation "# z" := (nofZ z%Z) (at level 5, z at level 0) : num_scope.

Section PyNum.
  Context {F : Type} {NF : Num F}.
  Local Open Scope num_scope.

  (* Python's a / b on numbers *)
  Definition pydiv (a b : F) : res F :=
    if b =? #0 then Raise ZeroDivisionError else Ok (a / b).

  (* Python's min(a, b): keeps the first unless the second is smaller *)
  Definition pymin (a b : F) : F := if b <? a then b else a.
  (* Python's max(a, b): keeps the first unless the second is larger *)
  Definition pymax (a b : F) : F := if a <? b then b else a.

  (* sum(iterable): starts from 0 and adds left to right *)
  Definition pysum (l : list F) : F := fold_left nadd l (#0).

  (* a > b and a >= b are evaluated as b < a and b <= a *)
  Definition ngtb (a b : F) : bool := b <? a.
  Definition ngeb (a b : F) : bool := b <=? a.
End PyNum.

(* math.radians, math.degrees *)
Section Angles.
  Context {F : Type} {NF : Num F} {TF : NumTrig F}.
  Local Open Scope num_scope.
  Definition radians (d : F) : F := d * (npi / #180).
  Definition degrees (r : F) : F := r * (#180 / npi).
End Angles.

(* Python's a % b for a positive literal b *)
Section Mod.
  Context {F : Type} {NF : Num F} {FF : NumFloor F}.
  Local Open Scope num_scope.
  Definition pymod (a b : F) : F := a - nofZ (nfloor (a / b)) * b.
End Mod.

(* ------------------------------------------------------------------ *)
(** * x7.lib.iters (external, see the trusted base in DESIGN.md) *)

Section Iters.
  Context {A : Type}.
  (* the list started k places later, cyclically *)
  Definition rotl (k : nat) (l : list A) : list A := skipn k l ++ firstn k l.
  (* the list started one place earlier, cyclically *)
  Definition rotr1 (l : list A) : list A :=
    match rev l with [] => [] | z :: r => z :: rev r end.

  (* iter_rotate(l): (l0,l1), (l1,l2), ..., (l_last,l0) *)
  Definition iter_rotate2 (l : list A) : list (A * A) := combine l (rotl 1 l).
  (* iter_rotate(l, 3): (l0,l1,l2), ..., (l_last,l0,l1) *)
  Definition iter_rotate3 (l : list A) : list (A * A * A) :=
    combine (combine l (rotl 1 l)) (rotl 2 l).
  (* iter_rotate(l, 3, -1): (l_last,l0,l1), (l0,l1,l2), ... *)
  Definition iter_rotate3m1 (l : list A) : list (A * A * A) :=
    combine (combine (rotr1 l) l) (rotl 1 l).
End Iters.

(* t_range(steps, lo, hi): steps+1 evenly spaced values from lo to hi, both included.
   ([n] is the number of steps still to produce.) *)
Section TRange.
  Context {F : Type} {NF : Num F}.
  Local Open Scope num_scope.
  Definition t_range (steps : nat) (lo hi : F) : res (list F) :=
    match steps with
    | O => Raise ZeroDivisionError
    | _ => Ok (map (fun i => lo + (hi - lo) * (nofZ (Z.of_nat i) / nofZ (Z.of_nat steps)))
                   (seq 0 (S steps)))
    end.
  (* xy_flatten([(x,y),...]) = [x,y,...] *)
  Definition xy_flatten (l : list (F * F)) : list F := flat_map (fun p => [fst p; snd p]) l.
End TRange.
