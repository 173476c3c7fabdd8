(* Specification of doubles: the number a double stands for, and the two constants of their
   rounding.  [finite] is Python's math.isfinite. *)
From Coq Require Import Reals Floats ZArith List.
From Flocq Require Import BinarySingleNaN PrimFloat.
Require Import Verif.M_vector Verif.M_transform Verif.M_bezier Verif.M_bbox.
Import ListNotations.
Local Open Scope R_scope.

(* the exact value of a double; infinities and nan have none (0 stands in) *)
Definition val (x : float) : R := B2R (Prim2B x).
Definition finite (x : float) : Prop := PrimFloat.is_finite x = true.

(* half the distance from 1 to the next double, and the smallest normal double *)
Definition eps : R := / 2 ^ 53.
Definition tiny : R := / 2 ^ 1022.

(* values of structures *)
Definition valp (p : pt float) : pt R := P (val (px p)) (val (py p)).
Definition valv (v : vec float) : vec R := V (val (vx v)) (val (vy v)).
Definition valm (m : mat float) : mat R :=
  M (val (m00 m)) (val (m01 m)) (val (m02 m)) (val (m10 m)) (val (m11 m)) (val (m12 m))
    (val (m20 m)) (val (m21 m)) (val (m22 m)).
Definition valt (t : transform float) : transform R :=
  T (valm (tmat t)) (option_map valm (tinv t)) (List.map valm (tstack t)).
Definition valc (c : cpoint float) : cpoint R := CP (valp (cc c)) (valv (cdl c)) (valv (cdr c)) (ckind c).
Definition valb (b : bbox float) : bbox R :=
  match b with BNone => BNone | BB xl yl xh yh => BB (val xl) (val yl) (val xh) (val yh) end.

(* a double that is a whole number of magnitude at most k *)
Definition whole (k : Z) (x : float) : Prop := finite x /\ exists z, val x = IZR z /\ (Z.abs z <= k)%Z.

(* a box or a point with finite coordinates *)
Definition finitep (p : pt float) : Prop := finite (px p) /\ finite (py p).
Definition finiteb (b : bbox float) : Prop :=
  match b with BNone => True | BB xl yl xh yh => finite xl /\ finite yl /\ finite xh /\ finite yh end.

(* Whole-number matrices: the four entries of the linear part are at most [fst s], the two of the
   shift at most [snd s], and the last row is 0 0 1. *)
Definition wholem (s : Z * Z) (m : mat float) : Prop :=
  whole (fst s) (m00 m) /\ whole (fst s) (m01 m) /\ whole (snd s) (m02 m) /\
  whole (fst s) (m10 m) /\ whole (fst s) (m11 m) /\ whole (snd s) (m12 m) /\
  whole 0 (m20 m) /\ whole 0 (m21 m) /\ (finite (m22 m) /\ val (m22 m) = 1).
Definition wholep (k : Z) (p : pt float) : Prop := whole k (px p) /\ whole k (py p).
Definition wholev (k : Z) (v : vec float) : Prop := whole k (vx v) /\ whole k (vy v).

(* the values of the arguments of a call *)
Definition valop (o : top float) : top R :=
  match o with
  | OTranslate dx dy => OTranslate (val dx) (val dy)
  | OScale sx sy => OScale (val sx) (val sy)
  | ORotate d => ORotate (val d)
  | ORotateCcw d => ORotateCcw (val d)
  | ORotateAbout d c => ORotateAbout (val d) (valp c)
  | OCompose m => OCompose (valm m)
  | OComposeOuter m => OComposeOuter (valm m)
  | OReset => OReset
  | OSetMatrix m => OSetMatrix (valm m)
  | OScaleBBox a b k => OScaleBBox (valb a) (valb b) k
  | OPush => OPush
  | OPop => OPop
  | OTransform p => OTransform (valp p)
  | OUntransform p => OUntransform (valp p)
  end.
(* Sizes of the arguments of a call with whole-number arguments (rotations, scale_bbox and
   untransform are not among them), and the sizes of the entries it can lead to.  [b] is the size
   of the current matrix, [st] the sizes of the pushed ones. *)
Definition sized (s : Z * Z) (o : top float) : Prop :=
  match o with
  | OTranslate dx dy => whole (snd s) dx /\ whole (snd s) dy
  | OScale sx sy => whole (fst s) sx /\ whole (fst s) sy
  | OCompose m | OComposeOuter m | OSetMatrix m => wholem s m
  | OReset | OPush | OPop | OTransform _ => True
  | _ => False
  end.
Definition grow (s : Z * Z) (o : top float) (b : Z * Z) (st : list (Z * Z)) : (Z * Z) * list (Z * Z) :=
  let (a, d) := b in let (la, ld) := s in
  match o with
  | OTranslate _ _ => ((a, d + ld)%Z, st)
  | OScale _ _ => ((la * a, la * d)%Z, st)
  | OCompose _ => ((2 * a * la, 2 * a * ld + d)%Z, st)
  | OComposeOuter _ => ((2 * la * a, 2 * la * d + ld)%Z, st)
  | OReset => ((1, 0)%Z, st)
  | OSetMatrix _ => ((la, ld), st)
  | OPush => (b, b :: st)
  | OPop => match st with t :: st' => (t, st') | _ => (b, st) end
  | _ => (b, st)
  end.
(* no size ever passes 2^53 *)
Fixpoint fits (calls : list ((Z * Z) * top float)) (b : Z * Z) (st : list (Z * Z)) : Prop :=
  match calls with
  | nil => True
  | cons (s, o) r =>
      sized s o /\
      let (b', st') := grow s o b st in
      (fst b' <= 2 ^ 53)%Z /\ (snd b' <= 2 ^ 53)%Z /\ fits r b' st'
  end.
