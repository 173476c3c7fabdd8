(* Model of /repo/x7/geom/utils.py (the functions exported in __all__). *)
Require Import Verif.Base Verif.M_vector Verif.M_bbox Verif.M_transform.
Set Implicit Arguments.

Inductive direction := Ccw | Cw | DNone.

Section Utils.
  Context {F : Type} {NF : Num F} {RF : NumRoot F} {TF : NumTrig F} {FF : NumFloor F}.
  Local Open Scope num_scope.

  (* utils.py:22-31 min_rotation *)
  Definition min_rotation (target source : F) : F :=
    pymod (target - source + #180) (#360) - #180.

  (* utils.py:34-38 path_rotate, 41-44 path_rotate_ccw *)
  Definition path_rotate (path : list (pt F)) (angle : F) : list (pt F) :=
    let t := t_rotate angle t_new in map (t_transform t) path.
  Definition path_rotate_ccw (path : list (pt F)) (angle : F) : list (pt F) :=
    let t := t_rotate_ccw angle t_new in map (t_transform t) path.
  (* utils.py:47-53 path_translate; dxy is a Point or a Vector, given here by its coordinates *)
  Definition path_translate (path : list (pt F)) (dxy : vec F) : list (pt F) :=
    map (fun p => p_add p dxy) path.
  (* utils.py:56-63 path_to_xy, path_from_xy *)
  Definition path_to_xy (path : list (pt F)) : list (F * F) := map p_xy path.
  Definition path_from_xy (l : list (F * F)) : list (pt F) := map (fun xy => P (fst xy) (snd xy)) l.

  (* utils.py:78-87: the start and end angle actually used *)
  Definition arc_angles (sa ea : F) (d : direction) : F * F :=
    match d with
    | Ccw => let sa := pymod sa (#360) in
             let ea := pymod ea (#360) in
             (sa, if ea <? sa then ea + #360 else ea)
    | Cw => let sa := pymod sa (#360) in
            let ea := pymod ea (#360) in
            (if sa <? ea then sa + #360 else sa, ea)
    | DNone => (sa, ea)
    end.
  (* utils.py:66-90 arc; int() of a non-negative number is its floor *)
  Definition arc (r sa ea : F) (c : pt F) (steps : Z) (d : direction) : res (list (F * F)) :=
    let (sa, ea) := arc_angles sa ea d in
    let steps := if Z.ltb steps 0 then nfloor (nabs (ea - sa) + #1) else steps in
    let* ts := t_range (Z.to_nat steps) (radians sa) (radians ea) in
    Ok (map (fun t => (r * ncos t + px c, r * nsin t + py c)) ts).

  (* utils.py:93-117 arc2p *)
  Definition arc2p (r : F) (s e : pt F) (steps : Z) (side : F) : res (list (F * F)) :=
    let v := p_sub e s in
    let vl := v_length v / #2 in
    if ngtb vl r then Raise ValueError
    else if vl =? #0 then Raise ValueError
    else
      let mp := p_add s (v_mul v (#1 / #2)) in
      let* clv := v_unit (v_mul (v_normal v) side) in
      let cll := nsqrt (r * r - vl * vl) in
      let c := p_add mp (v_mul clv cll) in
      let sv := p_sub s c in
      let ev := p_sub e c in
      let* a := arc r (v_angle sv) (v_angle ev) c steps Ccw in
      Ok (path_to_xy [e; c; s] ++ a).

  (* utils.py:120-123 circle; tau is 2*pi *)
  Definition circle (r : F) (c : pt F) : res (list (F * F)) :=
    let* ts := t_range 360 (#0) (#2 * npi) in
    Ok (map (fun t => (r * ncos t + px c, r * nsin t + py c)) ts).

  (* utils.py:126-131 cross *)
  Definition cross (r : F) (c : pt F) : list (F * F) :=
    let r := r * (nsqrt (#2) / #2) in
    let vx := V r r in
    let vy := V (- r) r in
    map p_xy [p_subv c vx; p_add c vx; c; p_subv c vy; p_add c vy].
  (* utils.py:134-138 plus *)
  Definition plus (r : F) (c : pt F) : list (F * F) :=
    let vx := V r (#0) in
    let vy := V (#0) r in
    map p_xy [p_subv c vx; p_add c vx; c; p_subv c vy; p_add c vy].
End Utils.
