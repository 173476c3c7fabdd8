(* Model of bz_curve, bez_intersect and bez_intersect_new: /repo/x7/geom/bezier.py:111-113, 146-202.
   The library bezier is a parameter: Curve.intersect answers with the parameters of the two
   curves (the columns of the array), or raises NotImplementedError (None).
   Curve.evaluate_multi is taken to be the polynomial of the curve (M_bezier.bez_at).
   Plotting (do_plot) and the printed warning are left out. *)
Require Import Verif.Base Verif.M_vector Verif.M_bbox Verif.M_transform Verif.M_bezier.
Set Implicit Arguments.

Section Intersect.
  Context {F : Type} {NF : Num F}.
  Local Open Scope num_scope.
  (* the nodes of a cubic *)
  Record nodes := Nodes { n_a : pt F; n_b : pt F; n_c : pt F; n_d : pt F }.
  Variable intersect : nodes -> nodes -> option (list (F * F)).

  (* bezier.py:111-113 bz_curve *)
  Definition bz_curve (cp1 cp2 : cpoint F) : nodes := Nodes (cc cp1) (cp_r cp1) (cp_l cp2) (cc cp2).
  (* Curve.evaluate_multi at one parameter *)
  Definition evaluate (c : nodes) (t : F) : pt F :=
    let (x, y) := bez_at (n_a c) (n_b c) (n_c c) (n_d c) t in P x y.

  (* (t, s) in ((1, 0), (0, 1)), bezier.py:192 *)
  Definition at_joint (ts : F * F) : bool :=
    let (t, s) := ts in ((t =? #1) && (s =? #0)) || ((t =? #0) && (s =? #1)).

  (* bezier.py:169-202 bez_intersect_new *)
  Definition bez_intersect_new (endpoints : bool) (cpa1 cpa2 cpb1 cpb2 : cpoint F) : list (pt F * F * F) :=
    let curve_a := bz_curve cpa1 cpa2 in
    let curve_b := bz_curve cpb1 cpb2 in
    let intersections := match intersect curve_a curve_b with Some l => l | None => [] end in
    let intersections := if endpoints then intersections else filter (fun ts => negb (at_joint ts)) intersections in
    let points := map (fun ts => evaluate curve_a (fst ts)) intersections in
    map (fun pts => (fst pts, fst (snd pts), snd (snd pts))) (combine points intersections).

  (* zip( *l) of a list of pairs, as a list: no rows for no pairs *)
  Definition zip_pairs (l : list (F * F)) : list (list F) :=
    match l with [] => [] | _ => [map fst l; map snd l] end.

  (* bezier.py:146-166 bez_intersect: as_points=True *)
  Definition bez_intersect_points (endpoints : bool) (cpa1 cpa2 cpb1 cpb2 : cpoint F) : list (pt F) :=
    map (fun r => fst (fst r)) (bez_intersect_new endpoints cpa1 cpa2 cpb1 cpb2).
  (* as_points=False *)
  Definition bez_intersect_params (endpoints : bool) (cpa1 cpa2 cpb1 cpb2 : cpoint F) : list (list F) :=
    zip_pairs (map (fun r => (snd (fst r), snd r)) (bez_intersect_new endpoints cpa1 cpa2 cpb1 cpb2)).
End Intersect.
Arguments nodes : clear implicits.
Arguments Nodes {F}.
