(* Model of Vector, Point and their operators: /repo/x7/geom/geom.py 60-476.
   Names of points are left out here; they are part of the heap model (M_points.v). *)
Require Import Verif.Base.
Set Implicit Arguments.

(* class Vector, geom.py:60-76: two coordinates *)
Record vec (F : Type) := V { vx : F; vy : F }.
(* class Point, geom.py:420-434: two coordinates (name left out) *)
Record pt (F : Type) := P { px : F; py : F }.
Arguments V {F}. Arguments vx {F}. Arguments vy {F}.
Arguments P {F}. Arguments px {F}. Arguments py {F}.

Section Vector.
  Context {F : Type} {NF : Num F}.
  Local Open Scope num_scope.

  (* geom.py:85-87 __bool__; bool(x or y), a number is true when it is not 0 *)
  Definition v_bool (v : vec F) : bool := negb (vx v =? #0) || negb (vy v =? #0).
  (* geom.py:89-91 __eq__, for two plain Vectors *)
  Definition v_eqb (v w : vec F) : bool := (vx v =? vx w) && (vy v =? vy w).
  (* geom.py:96-97 copy, 99-100 fixed *)
  Definition v_copy (v : vec F) : vec F := V (vx v) (vy v).
  (* geom.py:109-110 xy *)
  Definition v_xy (v : vec F) : F * F := (vx v, vy v).
  (* geom.py:120-122 p *)
  Definition v_p (v : vec F) : pt F := P (vx v) (vy v).
  (* geom.py:153-156 normal *)
  Definition v_normal (v : vec F) : vec F := V (vy v) (- vx v).
  (* geom.py:158-162 dot *)
  Definition v_dot (s o : vec F) : F := vx s * vx o + vy s * vy o.
  (* geom.py:164-168 cross *)
  Definition v_cross (s o : vec F) : F := vx s * vy o - vy s * vx o.
  (* geom.py:179-186 __add__, vector operand *)
  Definition v_add (s o : vec F) : vec F := V (vx s + vx o) (vy s + vy o).
  (* geom.py:188-195 __sub__/sub_vector, vector operand: other.sub_vector(self) is self - other *)
  Definition v_sub (s o : vec F) : vec F := V (vx s - vx o) (vy s - vy o).
  (* geom.py:197-203 __mul__, __rmul__ *)
  Definition v_mul (v : vec F) (n : F) : vec F := V (vx v * n) (vy v * n).
  (* geom.py:205-207 __truediv__ *)
  Definition v_div (v : vec F) (n : F) : res (vec F) :=
    let* x := pydiv (vx v) n in let* y := pydiv (vy v) n in Ok (V x y).
  (* geom.py:209-211 __neg__ *)
  Definition v_neg (v : vec F) : vec F := V (- vx v) (- vy v).

  (* geom.py:436-438 Point.__eq__, for two unnamed Points *)
  Definition p_eqb (p q : pt F) : bool := (px p =? px q) && (py p =? py q).
  (* geom.py:458-460 Point.xy *)
  Definition p_xy (p : pt F) : F * F := (px p, py p).
  (* geom.py:454-456 Point.v *)
  Definition p_v (p : pt F) : vec F := V (px p) (py p).
  (* geom.py:310-313 add_vector, reached from both P+V (391-393) and V+P (179-181):
     the point's coordinates come first in the sums *)
  Definition p_add (p : pt F) (v : vec F) : pt F := P (px p + vx v) (py p + vy v).
  (* geom.py:404-408 __sub__, point operand *)
  Definition p_sub (p q : pt F) : vec F := V (px p - px q) (py p - py q).
  (* geom.py:404-408 __sub__, vector operand *)
  Definition p_subv (p : pt F) (v : vec F) : pt F := P (px p - vx v) (py p - vy v).
  (* geom.py:410-412 __neg__ *)
  Definition p_neg (p : pt F) : pt F := P (- px p) (- py p).
  (* geom.py:326-330 mid *)
  Definition p_mid (s o : pt F) : pt F := P ((px s + px o) / #2) ((py s + py o) / #2).

  (* geom.py:415-417 polygon_area *)
  Definition polygon_area (points : list (pt F)) : F :=
    pysum (map (fun ab => px (fst ab) * py (snd ab) - py (fst ab) * px (snd ab))
               (iter_rotate2 points)) / #2.
End Vector.

Section VectorRoot.
  Context {F : Type} {NF : Num F} {RF : NumRoot F}.
  Local Open Scope num_scope.
  (* geom.py:131-132 length *)
  Definition v_length (v : vec F) : F := nhypot (vx v) (vy v).
  (* geom.py:145-151 unit *)
  Definition v_unit (v : vec F) : res (vec F) :=
    let length := v_length v in
    if length =? #0 then Raise ZeroDivisionError
    else Ok (V (vx v / length) (vy v / length)).
  (* geom.py:93-94 Vector.close with an explicit max_delta *)
  Definition v_close (max_delta : F) (s o : vec F) : bool := v_length (v_sub s o) <? max_delta.
  (* geom.py:297-298 BasePoint.close with an explicit max_delta *)
  Definition p_close (max_delta : F) (s o : pt F) : bool := v_length (p_sub s o) <? max_delta.
  (* the default max_delta=1e-11 *)
  Definition close_delta : F := #1 / nofZ (10 ^ 11)%Z.
End VectorRoot.

Section VectorTrig.
  Context {F : Type} {NF : Num F} {TF : NumTrig F}.
  Local Open Scope num_scope.
  (* geom.py:134-136 angle *)
  Definition v_angle (v : vec F) : F := degrees (natan2 (vy v) (vx v)).
  (* geom.py:138-143 rotate *)
  Definition v_rotate (v : vec F) (deg : F) : vec F :=
    let rads := radians deg in
    let cos_a := ncos rads in
    let sin_a := nsin rads in
    V (cos_a * vx v - sin_a * vy v) (sin_a * vx v + cos_a * vy v).
End VectorTrig.

(* ------------------------------------------------------------------ *)
(** * Operator dispatch: what +, -, *, / do for each combination of operand kinds *)

Inductive value (F : Type) := VNum (n : F) | VVec (v : vec F) | VPt (p : pt F).
Arguments VNum {F}. Arguments VVec {F}. Arguments VPt {F}.

Section Dispatch.
  Context {F : Type} {NF : Num F}.
  Local Open Scope num_scope.

  (* a + b.  Vector.__add__ 179-186, BasePoint.__add__ 391-395; neither class defines
     __radd__, so number + vector is a TypeError. *)
  Definition op_add (a b : value F) : res (value F) :=
    match a, b with
    | VNum m, VNum n => Ok (VNum (m + n))
    | VVec v, VPt p => Ok (VPt (p_add p v))
    | VVec v, VVec w => Ok (VVec (v_add v w))
    | VPt p, VVec v => Ok (VPt (p_add p v))
    | _, _ => Raise TypeError
    end.

  (* a - b.  Vector.__sub__ 188-189 calls other.sub_vector: a number has none
     (AttributeError), a point returns NotImplemented 315-318 (TypeError).
     BasePoint.__sub__ 404-408 calls other.xy: a number has none (AttributeError). *)
  Definition op_sub (a b : value F) : res (value F) :=
    match a, b with
    | VNum m, VNum n => Ok (VNum (m - n))
    | VNum _, _ => Raise TypeError
    | VVec _, VNum _ => Raise AttributeError
    | VVec _, VPt _ => Raise TypeError
    | VVec v, VVec w => Ok (VVec (v_sub v w))
    | VPt _, VNum _ => Raise AttributeError
    | VPt p, VVec v => Ok (VPt (p_subv p v))
    | VPt p, VPt q => Ok (VVec (p_sub p q))
    end.

  (* a * b.  Vector.__mul__ 197-199 and __rmul__ 201-203 multiply the coordinates by
     whatever the other operand is.  For vector * vector each x * w is again a Vector
     (through __rmul__), so the product is a Vector whose coordinates are Vectors:
     the right summand of the result. *)
  Definition op_mul (a b : value F) : res (value F + vec (vec F)) :=
    match a, b with
    | VNum m, VNum n => Ok (inl (VNum (m * n)))
    | VVec v, VNum n => Ok (inl (VVec (v_mul v n)))
    | VNum n, VVec v => Ok (inl (VVec (v_mul v n)))
    | VVec v, VVec w => Ok (inr (V (v_mul w (vx v)) (v_mul w (vy v))))
    | _, _ => Raise TypeError
    end.

  (* a / b.  Vector.__truediv__ 205-207; no __rtruediv__. *)
  Definition op_div (a b : value F) : res (value F) :=
    match a, b with
    | VNum m, VNum n => let* q := pydiv m n in Ok (VNum q)
    | VVec v, VNum n => let* q := v_div v n in Ok (VVec q)
    | _, _ => Raise TypeError
    end.
End Dispatch.

(* ------------------------------------------------------------------ *)
(** * BasePoint.parse, geom.py:347-386 *)

Section Parse.
  Context {F A : Type}.   (* F: numbers; A: everything else an item or a third entry may be *)
  (* an item of the input sequence *)
  Inductive item := INum (n : F) | IPoint (p : pt F) | ITuple (len : nat) (contents : A) | IOther (a : A).
  (* an item of the output list: (a, y) built by parse, a point, or a tuple passed through *)
  Inductive parsed := PPair (x y : F) | PPoint (p : pt F) | PTuple (len : nat) (contents : A).

  (* The loop of parse; a tuple is represented by its length and its contents. *)
  Fixpoint parse (allow_thruples : bool) (pts : list item) : res (list parsed) :=
    match pts with
    | [] => Ok []
    | INum a :: rest =>
        match rest with
        | [] => Raise ValueError
        | INum y :: rest' =>
            let* out := parse allow_thruples rest' in Ok (PPair a y :: out)
        | _ => Raise ValueError
        end
    | IPoint p :: rest => let* out := parse allow_thruples rest in Ok (PPoint p :: out)
    | ITuple len c :: rest =>
        if (if allow_thruples then (len =? 2)%nat || (len =? 3)%nat else (len =? 2)%nat)
        then let* out := parse allow_thruples rest in Ok (PTuple len c :: out)
        else Raise ValueError
    | IOther _ :: _ => Raise ValueError
    end.
End Parse.
Arguments item : clear implicits.
Arguments parsed : clear implicits.
