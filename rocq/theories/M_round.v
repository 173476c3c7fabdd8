(* Model of rounding: Vector, VectorRelative, the points, BBox and ControlPoint
   (/repo/x7/geom/geom.py 103-107, 240-244, 304-308, 440-444, 622-623, /repo/x7/geom/bezier.py 94-96). *)
Require Import Verif.Base Verif.M_vector Verif.M_bbox Verif.M_points Verif.M_bezier Verif.M_draw.
From Coq Require Import ZArith String List.
Import ListNotations.
Set Implicit Arguments.
Local Open Scope list_scope.

Section Round.
  Context {F : Type} {NF : Num F} {FF : NumFloor F}.
  Local Open Scope num_scope.

  (* Python's round(x, n) without the errors of binary fractions: to the nearest multiple of 10^-n,
     halves to the even one.  round(x) and round(x, None) have the value of round(x, 0). *)
  Definition round_n (n : Z) (x : F) : F :=
    if (0 <=? n)%Z
    then nofZ (pyround (x * nofZ (10 ^ n)%Z)) / nofZ (10 ^ n)%Z
    else nofZ (pyround (x / nofZ (10 ^ (- n))%Z)) * nofZ (10 ^ (- n))%Z.

  (* geom.py:103-107 Vector.__round__, round *)
  Definition v_round (n : Z) (v : vec F) : vec F := V (round_n n (vx v)) (round_n n (vy v)).
  (* geom.py:440-444 Point.__round__, round, of a point without a name *)
  Definition p_round (n : Z) (p : pt F) : pt F := P (round_n n (px p)) (round_n n (py p)).
  (* geom.py:440-444 Point keeps its name; 304-308 the other points are fixed() first *)
  Definition point_round (n : Z) (st : pstore F) (i : nat) : pstore F * res nat :=
    match nth_error st i with
    | None => (st, Raise KeyError)
    | Some (NPoint x y nm) => (st ++ [NPoint (round_n n x) (round_n n y) nm], Ok (List.length st))
    | Some _ =>
        match pstep st (PFixed i) with
        | (st1, Ok j) =>
            match nth_error st1 j with
            | Some (NPoint x y nm) => (st1 ++ [NPoint (round_n n x) (round_n n y) nm], Ok (List.length st1))
            | _ => (st1, Raise KeyError)
            end
        | (st1, Raise e) => (st1, Raise e)
        end
    end.
  (* geom.py:240-244 VectorRelative.__round__, round *)
  Definition vrel_round (n : Z) (st : pstore F) (v : vrel) : pstore F * res vrel :=
    let (st1, r1) := point_round n st (vr_p1 v) in
    match r1 with
    | Raise e => (st1, Raise e)
    | Ok i =>
        let (st2, r2) := point_round n st1 (vr_p2 v) in
        (st2, let* j := r2 in Ok (VR i j))
    end.
  (* geom.py:622-623 BBox.__round__; round(None, n) raises *)
  Definition bbox_round (n : Z) (b : bbox F) : res (bbox F) :=
    match b with
    | BNone => Raise TypeError
    | BB xl yl xh yh => Ok (mkbbox (round_n n xl) (round_n n yl) (round_n n xh) (round_n n yh))
    end.
  (* bezier.py:94-96 ControlPoint.round *)
  Definition cp_round (n : Z) (c : cpoint F) : cpoint F :=
    CP (p_round n (cc c)) (v_round n (cdl c)) (v_round n (cdr c)) (ckind c).
End Round.
