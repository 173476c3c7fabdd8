(* The unit tests of /repo/tests/x7/geom/test_geom.py, test_transform.py, test_bezier.py,
   test_utils.py and test_vec_field.py that state values, with the model in place of the program.
   This checks the model, it proves nothing about it.  Where the tests ask for equality so do we;
   where they ask for almost equal, numbers may differ by 1 in 2^40.  The sines, cosines and arc
   tangents needed are a table of the values of the C library. *)
Require Import Verif.NumFloat Verif.M_vector Verif.M_bbox Verif.M_transform Verif.M_points Verif.M_line
  Verif.M_utils Verif.M_bezier Verif.M_elems Verif.M_group Verif.M_selfix.
Require Verif.M_vecfield.
From Coq Require Import String Floats.
Local Open Scope string_scope.
Local Open Scope list_scope.
Local Open Scope float_scope.

Definition near (a b : float) : bool := PrimFloat.leb (abs (a - b)) (0x1p-40 * (1 + abs b)).
Fixpoint table (l : list (float * float)) (x : float) : float :=
  match l with [] => nan | (k, v) :: l => if near x k then v else table l x end.
#[local] Instance TrigTable : NumTrig float := {|
  npi := 0x1.921fb54442d18p+1;
  nsin := table [(0, 0); (0x1.657184ae74487p-3, 0x1.63a1a7e0b7389p-3); (0x1.0c152382d7365p-2, 0x1.0907dc1930690p-2); (0x1.657184ae74487p-2, 0x1.5e3a8748a0bf5p-2); (0x1.0c152382d7365p-1, 0x1.fffffffffffffp-2); (0x1.4aa29abaf85cap-1, 0x1.342119455beb6p-1); (0x1.921fb54442d18p-1, 0x1.6a09e667f3bccp-1); (0x1.becde5da115a9p-1, 0x1.8836fa2cf5039p-1); (0x1.921fb54442d18p+0, 0x1.0000000000000p+0); (0x1.921fb54442d18p+1, 0x1.1a62633145c07p-53); (0x1.2d97c7f3321d2p+2, (-0x1.0000000000000p+0)); (0x1.921fb54442d18p+2, (-0x1.1a62633145c07p-52)); ((-0x1.921fb54442d18p-1), (-0x1.6a09e667f3bccp-1)); ((-0x1.921fb54442d18p+0), (-0x1.0000000000000p+0)); (0x1.921fb54442d18p+1, 0x1.1a62633145c07p-53)];
  ncos := table [(0, 0x1.0000000000000p+0); (0x1.657184ae74487p-3, 0x1.f838b8c811c17p-1); (0x1.0c152382d7365p-2, 0x1.ee8dd4748bf15p-1); (0x1.657184ae74487p-2, 0x1.e11f642522d1cp-1); (0x1.0c152382d7365p-1, 0x1.bb67ae8584cabp-1); (0x1.4aa29abaf85cap-1, 0x1.98e6c0ea27a14p-1); (0x1.921fb54442d18p-1, 0x1.6a09e667f3bcdp-1); (0x1.becde5da115a9p-1, 0x1.491b7523c161dp-1); (0x1.921fb54442d18p+0, 0x1.1a62633145c07p-54); (0x1.921fb54442d18p+1, (-0x1.0000000000000p+0)); (0x1.2d97c7f3321d2p+2, (-0x1.a79394c9e8a0ap-53)); (0x1.921fb54442d18p+2, 0x1.0000000000000p+0); ((-0x1.921fb54442d18p-1), 0x1.6a09e667f3bcdp-1); ((-0x1.921fb54442d18p+0), 0x1.1a62633145c07p-54); (0x1.921fb54442d18p+1, (-0x1.0000000000000p+0))];
  ntan := fun _ => nan;
  natan2 := fun y x => if PrimFloat.eqb y 0 then 0 else if PrimFloat.eqb x 0 then 0x1.921fb54442d18p+0 else if PrimFloat.eqb x y then 0x1.921fb54442d18p-1 else nan |}.
(* floor, for numbers below 1000 *)
#[local] Instance FloorSmall : NumFloor float := {|
  nfloor := fun x => fold_left (fun acc k => let z := (Z.of_nat k - 1000)%Z in
    if PrimFloat.leb (float_ofZ z) x then z else acc) (seq 0 2001) (-1000)%Z |}.
Definition pt_near (a b : pt float) : bool := near (px a) (px b) && near (py a) (py b).
Definition vec_near (a b : vec float) : bool := near (vx a) (vx b) && near (vy a) (vy b).
Definition xy_near (a b : float * float) : bool := near (fst a) (fst b) && near (snd a) (snd b).
Definition xy_eq (a b : float * float) : bool := PrimFloat.eqb (fst a) (fst b) && PrimFloat.eqb (snd a) (snd b).
Definition all2 {A B} (f : A -> B -> bool) : list A -> list B -> bool :=
  fix go a b := match a, b with [], [] => true | x :: a, y :: b => f x y && go a b | _, _ => false end.
Definition gives {A B} (f : A -> B -> bool) (r : res A) (b : B) : bool :=
  match r with Ok a => f a b | Raise _ => false end.
Definition fails {A} (r : res A) (e : exn) : Prop := match r with Raise x => x = e | Ok _ => False end.
Notation yes a := (a = true).
Notation no a := (a = false).
Ltac run := vm_compute; repeat split; reflexivity.
Definition f_eq : float -> float -> bool := PrimFloat.eqb.

(* ---- test_geom.py: vectors and points ---- *)
Example t_vec_ops :
  yes (v_eqb (v_add (V 1 2) (V 3 5)) (V 4 7)) /\ yes (v_eqb (v_mul (V 2 1) 2) (V 4 2)) /\
  yes (v_eqb (v_neg (V 3 (-4))) (V (-3) 4)) /\ yes (v_eqb (v_sub (V 5 6) (V 6 5)) (V (-1) 1)) /\
  yes (gives v_eqb (v_div (V 1 2) 2) (V 0.5 1)) /\ yes (f_eq (v_length (V 3 4)) 5) /\
  yes (v_eqb (v_normal (V 1 0)) (V 0 (-1))) /\ yes (v_eqb (v_normal (V 1 2)) (V 2 (-1))) /\
  yes (v_bool (V 0x1p-10 0)) /\ yes (v_bool (V 0 0x1p-10)) /\ no (v_bool (V 0 0)).
Proof. run. Qed.
Example t_vec_cross :
  yes (f_eq (v_cross (V 1 0) (V 0 1)) 1) /\ yes (f_eq (v_cross (V 1 0) (V 0 3)) 3) /\
  yes (f_eq (v_cross (V 1 0) (V 3 0)) 0) /\ yes (f_eq (v_cross (V 0 1) (V 1 0)) (-1)) /\
  yes (f_eq (v_cross (V 0 1) (V 2 0)) (-2)) /\ yes (f_eq (v_cross (V 1 1) (V (-1) 1)) 2) /\
  yes (f_eq (v_cross (V 1 1) (V 17 17)) 0) /\
  (let b := V 0 1 in yes (near (v_cross b (v_rotate b 10)) (v_cross (v_rotate b 10) (v_rotate b 20)))
    /\ yes (near (v_cross b (v_rotate b 30)) (v_cross (v_rotate b 20) (v_rotate b 50)))).
Proof. run. Qed.
Example t_vec_angle : yes (f_eq (v_angle (V 1 0)) 0) /\ yes (near (v_angle (V 1 1)) 45) /\ yes (near (v_angle (V 0 1)) 90).
Proof. run. Qed.
Example t_vec_rotate :
  yes (vec_near (v_rotate (V 1 0) 90) (V 0 1)) /\ yes (vec_near (v_rotate (V 1 0) 180) (V (-1) 0)) /\
  yes (vec_near (v_rotate (V 5 0) 270) (V 0 (-5))) /\ yes (vec_near (v_rotate (V 1 0) 360) (V 1 0)) /\
  yes (vec_near (v_rotate (v_rotate (v_rotate (v_rotate (v_rotate (V 2 3) 90) 45) 90) 45) 90) (V 2 3)) /\
  yes (vec_near (v_rotate (V 0 1) (-45)) (V 0x1.6a09e667f3bcdp-1 0x1.6a09e667f3bcdp-1)).
Proof. run. Qed.
Example t_vec_unit :
  yes (gives v_eqb (v_unit (V 0x1.999999999999ap-4 0)) (V 1 0)) /\ yes (gives v_eqb (v_unit (V 12 0)) (V 1 0)) /\
  yes (gives vec_near (v_unit (V 1 1)) (V 0x1.6a09e667f3bcdp-1 0x1.6a09e667f3bcdp-1)) /\ fails (v_unit (V 0 0)) ZeroDivisionError.
Proof. run. Qed.
Example t_vec_close :
  yes (v_close close_delta (V 1 2) (V 1 2)) /\ yes (v_close close_delta (V 1 2) (V 0x1.00000000057f6p+0 2)) /\
  no (v_close close_delta (V 1 2) (V 0x1.000000006df38p+0 2)) /\
  yes (p_close close_delta (P 1 2) (P 0x1.00000000057f6p+0 2)) /\ no (p_close close_delta (P 1 2) (P 0x1.000000006df38p+0 2)).
Proof. run. Qed.
Example t_vec_dot : yes (near (v_dot (V 0x1.199999999999ap+0 0x1.4051eb851eb85p+3) (V 2 3)) 0x1.01d70a3d70a3dp+5).
Proof. run. Qed.
Example t_pt_ops :
  fails (op_add (VPt (P 0 1)) (VPt (P 3 2))) TypeError /\ fails (op_sub (VVec (V 5 6)) (VPt (P 1 1))) TypeError /\
  fails (op_add (VVec (V 1 2)) (VNum 3)) TypeError /\ fails (op_add (VNum 3) (VVec (V 1 2))) TypeError /\
  yes (p_eqb (p_add (P 0 1) (V (-1) (-2))) (P (-1) (-1))) /\ yes (v_eqb (p_sub (P 3 2) (P 0 1)) (V 3 1)) /\
  yes (p_eqb (p_subv (P 0 1) (V (-1) (-2))) (P 1 3)) /\ yes (p_eqb (p_mid (P 1 2) (P 5 6)) (P 3 4)) /\
  yes (p_eqb (p_neg (P 3 (-4.5))) (P (-3) 4.5)).
Proof. run. Qed.
Example t_parse :
  parse (A:=nat) false [INum 3; INum 4; INum 5; INum 6] = Ok [PPair 3 4; PPair 5 6] /\
  parse (A:=nat) false [INum 11; INum 11; IPoint (P 10 10); INum 2; INum 4] = Ok [PPair 11 11; PPoint (P 10 10); PPair 2 4] /\
  parse (A:=nat) true [ITuple 3 7%nat; INum 2; INum 4] = Ok [PTuple 3 7%nat; PPair 2 4] /\
  fails (parse (A:=nat) false [ITuple 3 7%nat; INum 2; INum 4]) ValueError /\
  fails (parse (A:=nat) false [INum 3]) ValueError /\ fails (parse false [INum 3; IOther 7%nat]) ValueError /\
  fails (parse (A:=nat) true [ITuple 4 7%nat; INum 2; INum 4]) ValueError /\ fails (parse (F:=float) false [IOther 7%nat]) ValueError.
Proof. run. Qed.
Example t_live_points :
  let st := prun [PNew 1 1 None; PRel (-1) 1 0 None; PCalc 1 2 None; PCopy 2] [] in
  yes (gives p_eqb (pos st 2) (P (-1) 3)) /\ yes (M_points.points_eqb st 2 3) /\
  no (M_points.points_eqb (fst (pstep st (PSetScale 2 3))) 2 3).
Proof. run. Qed.
Example t_relative_points :
  let st := prun [PNew 1 1 None; PRel 2 3 0 (Some "example"); PCopy 1; PNew 1 1 None; PRel 2 3 3 (Some "example")] [] in
  yes (gives p_eqb (pos st 1) (P 3 4)) /\ yes (M_points.points_eqb st 1 2) /\ yes (M_points.points_eqb st 1 4) /\
  let st := fst (pstep st (PSetxy 0 2 2)) in
  yes (M_points.points_eqb st 1 2) /\ no (M_points.points_eqb st 1 4) /\ no (M_points.points_eqb (fst (pstep st (PSetD 1 4 3))) 1 2).
Proof. run. Qed.
Example t_fromxy :
  let st := prun [PNew 1 1 None; PFromxy 3 4 0; PRel 2 3 0 None; PRel 2 3.125 0 None] [] in
  yes (M_points.points_eqb st 1 2) /\ no (M_points.points_eqb st 1 3).
Proof. run. Qed.
Example t_fixed :
  let st := prun [PNew 1 2 None; PRel 4 3 0 (Some "yup"); PFixed 1; PNew 5 5 (Some "fixed_yup")] [] in
  yes (M_points.points_eqb st 2 3).
Proof. run. Qed.
Example t_vector_relative :
  let st := [NPoint 1 1 None; NPoint 3 4 None] in
  yes (gives v_eqb (vr_xy st (VR 0 1)) (V (-2) (-3))) /\ yes (gives v_eqb (vr_xy st (VR 1 0)) (V 2 3)) /\
  vr_bool st (VR 0 1) = Ok true /\ vr_bool st (VR 0 0) = Ok false.
Proof. run. Qed.

(* ---- test_geom.py: boxes ---- *)
Definition bt (b : bbox float) (l : list float) : bool :=
  match b with BB a b c d => all2 f_eq [a; b; c; d] l | BNone => false end.
Example t_bbox_init :
  yes (gives bt (bbox_new (ANum 1) (ANum 2) (Some 3) (Some 4)) [1; 2; 3; 4]) /\
  yes (gives bt (bbox_new (ATuple [3; 4; 1; 2]) ANone None None) [1; 2; 3; 4]) /\
  yes (gives bt (bbox_new (APoint (P 1 2)) (APoint (P 3 4)) None None) [1; 2; 3; 4]) /\
  fails (bbox_new (ATuple [3; 4; 1; 2]) (ANum 1) None None) TypeError /\
  fails (bbox_new (ATuple [3; 4; 1; 2]) ANone (Some 1) None) TypeError /\
  fails (bbox_new (ATuple [3; 4; 1; 2]) ANone None (Some 1)) TypeError /\
  fails (bbox_new (APoint (P 1 2)) (APoint (P 3 4)) None (Some 1)) TypeError.
Proof. run. Qed.
Example t_bbox_add :
  let b := BB 1 2 3 4 in let c := BB 0 1 4 5 in
  yes (bbox_eqb c (bbox_add b c)) /\ yes (bbox_eqb c (bbox_add c b)) /\ yes (bbox_eqb c (bbox_add c BNone)) /\
  yes (bbox_eqb c (bbox_add BNone c)) /\ yes (bbox_eqb (F:=float) BNone (bbox_add BNone BNone)).
Proof. run. Qed.
Example t_bbox_size :
  yes (f_eq (bbox_width (BB 1 2 3 6)) 2) /\ yes (f_eq (bbox_height (BB 1 2 3 6)) 4) /\
  yes (f_eq (bbox_area (BB 1 2 3 4)) 4) /\ yes (f_eq (bbox_area (BB 1 1 2 1)) 0) /\ yes (f_eq (bbox_area BNone) 0) /\
  yes (xy_eq (bbox_size (BB 1 1 1 2)) (0, 1)) /\ yes (xy_eq (bbox_size BNone) (0, 0)) /\
  yes (gives bbox_eqb (bbox_expand (BB 1 2 3 4) 1 (Some 2)) (BB 0 0 4 6)) /\
  yes (bbox_is_none (F:=float) BNone) /\ yes (bbox_is_empty (F:=float) BNone) /\ yes (bbox_is_empty (BB 1 1 2 1)).
Proof. run. Qed.
Example t_bbox_corners :
  let b := BB 1 2 3 4 in
  yes (gives p_eqb (bbox_pll b) (P 1 2)) /\ yes (gives p_eqb (bbox_plh b) (P 1 4)) /\
  yes (gives p_eqb (bbox_phl b) (P 3 2)) /\ yes (gives p_eqb (bbox_phh b) (P 3 4)) /\
  yes (gives p_eqb (bbox_center b) (P 2 3)) /\
  fails (bbox_pll (F:=float) BNone) ValueError /\ fails (bbox_plh (F:=float) BNone) ValueError /\
  fails (bbox_phl (F:=float) BNone) ValueError /\ fails (bbox_phh (F:=float) BNone) ValueError /\
  fails (bbox_center (F:=float) BNone) ValueError.
Proof. run. Qed.
Example t_bbox_grow :
  let b := bbox_grow (BB 1 2 3 4) (P 5 6) in let c := bbox_grow b (P 0 0) in
  yes (bt b [1; 2; 5; 6]) /\ yes (bt c [0; 0; 5; 6]) /\ yes (bt (bbox_grow c (P 2 2)) [0; 0; 5; 6]) /\
  yes (bt (bbox_grow BNone (P 0 3)) [0; 3; 0; 3]).
Proof. run. Qed.
Example t_bbox_transformed :
  yes (gives (fun b l => match b with BB x y z w => all2 near [x; y; z; w] l | BNone => false end)
    (bbox_transformed (t_transform_pts (t_rotate 90 t_new)) (BB 1 1 2 4)) [1; -2; 4; -1]).
Proof. run. Qed.
Example t_bbox_points :
  let b := BB 1 2 3 4 in
  map (bbox_contains_pt b) [P 2 3; P 1 3; P 3 3; P 2 4; P 2 2; P 0 3; P 4 3; P 2 5; P 2 1]
    = [true; false; false; false; false; false; false; false; false] /\
  map (bbox_touches_pt b) [P 2 3; P 1 3; P 3 3; P 2 4; P 2 2; P 0 3; P 4 3; P 2 5; P 2 1]
    = [false; true; true; true; true; false; false; false; false] /\
  no (bbox_contains_pt BNone (P 0 0)) /\ no (bbox_touches_pt BNone (P 0 0)).
Proof. run. Qed.
Definition holds_in (a b : bbox float) : Prop :=
  bbox_contains a b = Ok true /\ bbox_contains a a = Ok true /\ bbox_contains b b = Ok true /\ bbox_contains b a = Ok false.
Example t_bbox_contains :
  holds_in (BB 0 3 10 13) (BB 2 5 8 8) /\ holds_in (BB 0 3 10 13) (BB 0 5 8 8) /\ holds_in (BB 1 2 3 4) (BB 1 2 3 3) /\
  fails (bbox_contains BNone (BB 1 2 3 4)) ValueError /\ fails (bbox_contains (BB 1 2 3 4) BNone) ValueError.
Proof. run. Qed.
(* the picture of test_touches_side, column by column: 0 apart, 1 touching at a corner, 2 at a
   side, 3 overlapping *)
Definition meet (b c : bbox float) : nat :=
  match bbox_touches b c, bbox_touches_side b c, bbox_overlaps b c with
  | false, false, Ok false => 0 | true, false, Ok false => 1 | true, true, Ok false => 2 | false, false, Ok true => 3
  | _, _, _ => 4
  end%nat.
Definition grid6 : list (bbox float) :=
  flat_map (fun i => map (fun j => BB (float_ofZ i) (float_ofZ (10 + j)) (float_ofZ (i + 1)) (float_ofZ (11 + j)))
    [0; 1; 2; 3; 4; 5]%Z) [0; 1; 2; 3; 4; 5]%Z.
Definition picture : list nat :=
  [0;0;0;0;0;0; 0;1;2;2;1;0; 0;2;3;3;2;0; 0;2;3;3;2;0; 0;1;2;2;1;0; 0;0;0;0;0;0]%nat.
Example t_bbox_touches :
  map (meet (BB 2 12 4 14)) grid6 = picture /\ map (fun c => meet c (BB 2 12 4 14)) grid6 = picture /\
  no (bbox_touches (BB 2 12 4 14) (BB 2 12 4 14)) /\ no (bbox_touches (BB 2 12 4 14) BNone) /\
  no (bbox_touches BNone (BB 2 12 4 14)) /\ no (bbox_touches_side (BB 2 12 4 14) BNone) /\
  no (bbox_touches_side BNone (BB 2 12 4 14)) /\
  fails (bbox_overlaps (BB 2 12 4 14) BNone) ValueError /\ fails (bbox_overlaps BNone (BB 2 12 4 14)) ValueError.
Proof. run. Qed.
Example t_bbox_intersection :
  let b := BB 1 2 11 12 in let c := BB 2 4 20 40 in let d := BB 2 3 10 11 in
  yes (bbox_eqb (bbox_intersection b c) (BB 2 4 11 12)) /\ yes (bbox_eqb (bbox_intersection c b) (BB 2 4 11 12)) /\
  yes (bbox_eqb (bbox_intersection c c) c) /\
  yes (bbox_eqb (bbox_intersection b (BB 11 12 21 22)) (BB 11 12 11 12)) /\
  yes (bbox_eqb (bbox_intersection b (BB 0 12 2 22)) (BB 1 12 2 12)) /\
  yes (bbox_eqb (bbox_intersection d b) d) /\ yes (bbox_eqb (bbox_intersection b d) d) /\
  yes (bbox_is_none (bbox_intersection b (BB 20 30 40 50))) /\ yes (bbox_is_none (bbox_intersection (BB 20 30 40 50) b)) /\
  yes (bbox_is_none (bbox_intersection b BNone)) /\ yes (bbox_is_none (bbox_intersection BNone b)).
Proof. run. Qed.
Example t_bbox_items :
  map (bbox_getitem (BB 0 1 2 3)) [0; 1; 2; 3]%Z = [Ok (Some 0); Ok (Some 1); Ok (Some 2); Ok (Some 3)] /\
  fails (bbox_getitem (BB 0 1 2 3) 4) IndexError /\ fails (bbox_getitem (BB 0 1 2 3) (-5)) IndexError /\
  fails (bb_setitem 0 1 2 3 4 3) IndexError /\ fails (bb_setitem 0 1 2 3 (-5) 3) IndexError /\
  yes (gives bt (bb_setitem 0 1 2 3 2 102) [0; 1; 102; 3]) /\
  yes (gives bt (bbox_sort (BB 4 3 1 2)) [1; 2; 4; 3]).
Proof. run. Qed.

(* ---- test_geom.py: lines and polygons ---- *)
Definition seg_near (a : option (pt float * float * float)) (b : pt float * float * float) : bool :=
  match a with
  | Some (p, s, t) => let '(q, s', t') := b in pt_near p q && near s s' && near t t'
  | None => false
  end.
Definition seg_none (a : option (pt float * float * float)) (u : unit) : bool := match a with None => true | _ => false end.
Example t_lines :
  yes (p_eqb (line_p2 (Ln (P 1 2) (V 3 4))) (P 4 6)) /\ yes (p_eqb (line_mid (Ln (P 1 2) (V 2 4))) (P 2 4)) /\
  yes (line_eqb (line_add (Ln (P 1 2) (V 3 4)) (V 1 2)) (Ln (P 2 4) (V 3 4))) /\
  yes (line_eqb (line_sub (Ln (P 1 2) (V 3 4)) (V 1 2)) (Ln (P 0 0) (V 3 4))) /\
  yes (gives pt_near (closest (Ln (P 1 1) (V (-1) (-1))) (P 3 1)) (P 2 2)) /\
  yes (gives pt_near (intersection (Ln (P 0 0) (V 1 1)) (Ln (P 0 2) (V (-1) 1))) (P 1 1)) /\
  fails (intersection (Ln (P 0 0) (V 1 1)) (Ln (P 2 3) (V 2 2))) ParallelLineError /\
  yes (parallel (Ln (P 0 0) (V 1 1)) (Ln (P 1 2) (V 1 1))) /\
  yes (parallel (line_pts (P 0 0) (P 2 1)) (line_pts (P 1 2) (P 3 3))) /\
  yes (bbox_eqb (segment_bbox (line_pts (P 1 2) (P 3 4))) (BB 1 2 3 4)).
Proof. run. Qed.
Example t_segments :
  let l := line_pts (P 0 0) (P 2 2) in
  let o := line_pts (P 0x1.199999999999ap+0 0x1.ccccccccccccdp-1) (P 2 0) in
  yes (gives seg_near (segment_intersection l (line_pts (P 0 2) (P 2 0))) (P 1 1, 0.5, 0.5)) /\
  yes (gives seg_near (segment_intersection l (line_pts (P 1 1) (P 2 0))) (P 1 1, 0.5, 0)) /\
  yes (gives seg_near (segment_intersection l (line_pts (P 0 2) (P 1 1))) (P 1 1, 0.5, 1)) /\
  yes (gives seg_none (segment_intersection l o) tt) /\ yes (gives seg_none (segment_intersection o l) tt) /\
  yes (gives seg_none (segment_intersection l (line_pts (P 5 7) (P 9 9))) tt) /\
  fails (segment_intersection l (Ln (P 1 0) (V 2 2))) ParallelLineError /\
  fails (segment_intersection l (Ln (P 1 1) (V 2 2))) ParallelLineError.
Proof. run. Qed.
Example t_polygon :
  let square := [P 1 1; P 2 1; P 2 2; P 1 2] in
  yes (f_eq (polygon_area square) 1) /\ yes (f_eq (polygon_area (rev square)) (-1)) /\
  yes (f_eq (polygon_area [P 0 0; P 3 0; P 3 3; P 2 3; P 2 2; P 1 2; P 1 3; P 0 3]) 8).
Proof. run. Qed.

(* ---- test_transform.py ---- *)
Definition moves (t : transform float) (p q : pt float) : Prop := pt_near (t_transform t p) q = true.
Example t_rotate_cw : moves (t_rotate 90 t_new) (P (-1) 0) (P 0 1) /\ moves (t_rotate 270 t_new) (P (-1) 0) (P 0 (-1)) /\
  moves (t_rotate (-45) t_new) (P 1 0) (P 0x1.6a09e667f3bcdp-1 0x1.6a09e667f3bcdp-1).
Proof. run. Qed.
Example t_rotate_ccw_ : moves (t_rotate_ccw 90 t_new) (P 1 0) (P 0 1) /\ moves (t_rotate_ccw 270 t_new) (P 1 0) (P 0 (-1)) /\
  moves (t_rotate_ccw 45 t_new) (P 1 0) (P 0x1.6a09e667f3bcdp-1 0x1.6a09e667f3bcdp-1).
Proof. run. Qed.
Example t_scaling : moves (t_scale 2 3 t_new) (P 1 1) (P 2 3) /\
  yes (xy_eq (t_scale_vals (t_scale 2 3 t_new)) (2, 3)) /\
  yes (xy_near (t_scale_vals (t_rotate 15 (t_scale 2 3 t_new))) (2, 3)) /\
  yes (f_eq (t_transform_width (t_scale 2 3 t_new) 1) 2.5) /\ yes (near (t_transform_width (t_scale (-2) 3 t_new) 1) 2.5) /\
  yes (near (transformer_width (fun p => P (px p * 2 + 3) (py p * (-2) + 4)) 1) 2).
Proof. run. Qed.
Example t_composing :
  let t := t_scale 2 3 (t_translate 1 2 t_new) in let s := t_translate 1 2 (t_scale 2 3 t_new) in
  no (t_eqb t s) /\ yes (t_eqb t (t_compose_outer (tmat (t_scale 2 3 t_new)) (t_translate 1 2 t_new))) /\
  yes (t_eqb s (t_compose (tmat (t_scale 2 3 t_new)) (t_translate 1 2 t_new))).
Proof. run. Qed.
Example t_simple :
  yes (t_is_simple (F:=float) t_new) /\ yes (t_is_simple (t_translate 3 4 t_new)) /\
  (let t := t_translate 3 4 (t_rotate 90 t_new) in
   yes (t_is_simple t) /\ yes (t_is_simple (fst (t_simplify t))) /\ yes (t_is_simple (snd (t_simplify t)))) /\
  (let t := t_rotate_about 45 (P 1 2) t_new in
   no (t_is_simple t) /\ yes (t_is_simple (fst (t_simplify t))) /\ no (t_is_simple (snd (t_simplify t))) /\
   yes (t_eqb t (t_compose (tmat (snd (t_simplify t))) (fst (t_simplify t))))).
Proof. run. Qed.
Example t_stack :
  let t := t_new (F:=float) in
  let t1 := t_push t in
  List.length (tstack t1) = 1%nat /\ yes (t_eqb t1 t) /\ no (t_eqb (t_rotate 90 t1) t) /\
  yes (t_eqb (fst (t_pop (t_rotate 90 t1))) t) /\ tstack (fst (t_pop (t_rotate 90 t1))) = [] /\
  fails (snd (t_pop t)) EmptyStackError /\ fails (t_enter t) EmptyStackError /\
  yes (t_eqb (t_reset (t_rotate_about 37 (P 3 5) t)) t).
Proof. run. Qed.
Example t_untransforms :
  let t := t_translate 2.5 ((-0x1.b333333333333p+0)) (t_rotate_about 30 (P 1 2) t_new) in
  let (t2, r) := t_untransform t (t_transform t (P 3 7)) in
  yes (gives pt_near r (P 3 7)) /\ yes (gives pt_near (snd (t_untransform t2 (t_transform t2 (P 1 2)))) (P 1 2)).
Proof. run. Qed.
Example t_scale_box :
  let (t, r) := t_scale_bbox (BB 1 2 3 4) (BB 3 5 7 11) false t_new in
  let (u, s) := t_scale_bbox (BB 0 0 1 1) (BB 0 0 2 2) true t_new in
  r = Ok tt /\ s = Ok tt /\ yes (p_eqb (t_transform t (P 1 2)) (P 3 5)) /\ yes (p_eqb (t_transform t (P 3 4)) (P 7 11)) /\
  yes (p_eqb (t_transform u (P 0.5 0.5)) (P 1 1)) /\
  yes (gives (all2 f_eq) (t_transform_pts_flat t [P 1 2; P 3 4]) [3; 5; 7; 11]).
Proof. run. Qed.
Example t_canvas : let t := canvas_fit 1200 2 600 500 in
  yes (p_eqb (t_transform t (P 0 0)) (P 600 700)) /\ yes (p_eqb (t_transform t (P 5 5)) (P 610 690)).
Proof. run. Qed.
Example t_about :
  yes (p_eqb (t_transform (t_rotate_about 30 (P 1 2) t_new) (P 1 2)) (P 1 2)) /\
  moves (t_rotate_about 30 (P 1 2) t_new) (P 2 2) (p_add (t_transform (t_rotate 30 t_new) (P 1 0)) (V 1 2)) /\
  moves (t_rotate_about 90 (P 1 2) t_new) (P 2 2) (P 1 1) /\ moves (t_rotate_about 90 (P 1 2) t_new) (P 1 1) (P 0 2).
Proof. run. Qed.
Example t_inverses :
  yes (gives mat_eqb (mat_inv (M 1 0 0 0 2 0 0 0 1)) (M 1 0 0 0 0.5 0 0 0 1)) /\
  yes (gives mat_eqb (mat_inv (M 1 0 0 0 0.5 0 0 0 1)) (M 1 0 0 0 2 0 0 0 1)) /\
  yes (gives mat_eqb (mat_inv (M 0 1 0 1 0 0 0 0 1)) (M 0 1 0 1 0 0 0 0 1)) /\
  yes (gives mat_eqb (mat_inv (M 0 (-1) 0 1 0 0 0 0 1)) (M 0 1 0 (-1) 0 0 0 0 1)).
Proof. run. Qed.

(* ---- test_bezier.py ---- *)
Definition cp0 : cpoint float := CP (P 1 2) (V 3 4) (V 5 6) "smooth".
Definition cp_near (a b : cpoint float) : bool :=
  pt_near (cc a) (cc b) && vec_near (cdl a) (cdl b) && vec_near (cdr a) (cdr b) && (ckind a =? ckind b)%string.
Example t_cp :
  yes (p_eqb (cp_l cp0) (P 4 6)) /\ yes (p_eqb (cp_r cp0) (P 6 8)) /\
  yes (p_eqb (cp_l cp0) (cp_r (cp_reversed cp0))) /\ yes (p_eqb (cp_r cp0) (cp_l (cp_reversed cp0))) /\
  yes (cp_eqb cp0 cp0) /\ no (cp_eqb cp0 (CP (P 1 1) (V 3 4) (V 5 6) "smooth")) /\
  no (cp_eqb cp0 (CP (P 1 2) (V 1 4) (V 5 6) "smooth")) /\ no (cp_eqb cp0 (CP (P 1 2) (V 3 4) (V 1 6) "smooth")) /\
  no (cp_eqb cp0 (CP (P 1 2) (V 3 4) (V 5 6) "sharp")) /\
  yes (bbox_eqb (cp_bbox cp0) (BB 1 2 6 8)) /\
  yes (bbox_eqb (cp_bbox (CP (P 1 2) (V (-3) (-4)) (V 5 6) "smooth")) (BB (-2) (-2) 6 8)).
Proof. run. Qed.
Example t_cp_transform :
  let t := t_scale 2 2 (t_rotate 90 (t_translate 1 1 t_new)) in
  yes (gives cp_near (cp_transform (t_transform t) true (CP (P 0 0) (V 1 1) (V (-1) (-1)) "very-smooth"))
    (CP (P 2 (-2)) (V 2 (-2)) (V (-2) 2) "very-smooth")).
Proof. run. Qed.
(* the two arcs of the figure of eight cross at their middles; the halves do not cross *)
Definition crossing (a b c d : cpoint float) : list (pt float * float * float) :=
  if PrimFloat.eqb (px (cc a)) 0 && PrimFloat.eqb (px (cc b)) 2 && PrimFloat.eqb (px (cc c)) 2 then [(P 1 0, 0.5, 0.5)] else [].
Example t_self_intersect :
  bez_self_intersect (fun _ _ _ _ => []) [CP (P 0 0) (V 0 1) (V 0 (-1)) "smooth"; CP (P 2 0) (V 0 (-1)) (V 0 1) "smooth"] = Ok [] /\
  yes (gives (all2 (all2 cp_eqb))
    (bez_self_intersect crossing [CP (P 0 0) (V 0 (-1)) (V 0 1) "smooth"; CP (P 2 0) (V 0 (-1)) (V 0 1) "smooth"])
    [[CP (P 1 0) (V 0.5 0.25) (V 0.5 (-0.25)) "sharp"; CP (P 2 0) (V 0 (-0.5)) (V 0 0.5) "smooth"];
     [CP (P 1 0) (V (-0.5) 0.25) (V (-0.5) (-0.25)) "sharp"; CP (P 0 0) (V 0 (-0.5)) (V 0 0.5) "smooth"]]).
Proof. run. Qed.

(* ---- test_utils.py ---- *)
Example t_min_rotation :
  yes (f_eq (min_rotation 20 10) 10) /\ yes (f_eq (min_rotation (-340) 10) 10) /\ yes (f_eq (min_rotation 20 370) 10).
Proof. run. Qed.
Example t_paths :
  yes (all2 pt_near (path_rotate [P 0 0; P 1 0] (-90)) [P 0 0; P 0 1]) /\
  yes (all2 pt_near (path_rotate [P 0 0; P 1 0] (-45)) [P 0 0; P 0x1.6a09e667f3bcdp-1 0x1.6a09e667f3bcdp-1]) /\
  yes (all2 pt_near (path_rotate_ccw [P 0 1; P 1 0] 90) [P (-1) 0; P 0 1]) /\
  yes (all2 pt_near (path_rotate_ccw [P 0 1; P 1 0] 45) [P ((-0x1.6a09e667f3bcdp-1)) 0x1.6a09e667f3bcdp-1; P 0x1.6a09e667f3bcdp-1 0x1.6a09e667f3bcdp-1]) /\
  yes (all2 p_eqb (path_translate [P 0 0; P 1 2] (V 1 3)) [P 1 3; P 2 5]) /\
  yes (all2 p_eqb (path_translate [P 0 0; P 1 2] (V (-1) (-3))) [P (-1) (-3); P 0 (-1)]).
Proof. run. Qed.
Example t_circle :
  yes (gives (fun l u => (List.length l =? 361)%nat && xy_near (nth 180 l (9, 9)) (-1, 0)) (circle 1 (P 0 0)) tt) /\
  yes (gives (fun l u => (List.length l =? 361)%nat && xy_near (nth 180 l (9, 9)) (0, 0)) (circle 1 (P 1 0)) tt).
Proof. run. Qed.

(* ---- test_vec_field.py ---- *)
Import Verif.M_vecfield.
Definition mesh0 : mesh float := match mesh_new (BB 0 0 5 5) 6 with Ok m => m | Raise _ => Mesh 0 0 0 0 0%nat end.
Example t_mesh : yes (gives (fun m u =>
  f_eq (x_grid m 9%nat 9%nat) 4.5 && f_eq (y_grid m 9%nat 9%nat) 5.5 && (m_steps m =? 11)%nat) (mesh_new (BB 0 1 5 6) 11) tt).
Proof. run. Qed.
Definition field0 : world float :=
  fst (vf_make mesh0 (aset (aset zero_arr 0%nat 0%nat 1) 0%nat 1%nat 2) (aset (aset zero_arr 1%nat 0%nat 2) 1%nat 1%nat 4) (World [] [])).
Definition look (x y : float) : res (float * float) := snd (lookup 0 x y field0).
Example t_lookup :
  yes (gives xy_eq (look 0 0) (1, 0)) /\ yes (gives xy_eq (look 0 1) (2, 0)) /\ yes (gives xy_eq (look 1 0) (0, 2)) /\
  yes (gives xy_eq (look 1 1) (0, 4)) /\ yes (gives xy_eq (look 0 0.5) (1.5, 0)) /\ yes (gives xy_eq (look 1 0.5) (0, 3)) /\
  yes (gives xy_eq (look 0.5 0) (0.5, 1)) /\ yes (gives xy_eq (look 0.5 1) (1, 2)) /\ yes (gives xy_eq (look 0.5 0.5) (0.75, 1.5)).
Proof. run. Qed.
Example t_moved :
  yes (gives (all2 xy_eq) (snd (vf_transform_np_pts 0 [(0, 1)] field0)) [(2, 1)]) /\
  yes (gives (all2 xy_eq) (snd (vf_transform_np_pts 0 [(0, 0); (0, 1); (1, 0); (1, 1)] field0)) [(1, 0); (2, 1); (1, 2); (1, 5)]).
Proof. run. Qed.
Definition at11 (r : world float * res nat) : float * float :=
  match r with
  | (w, Ok f) => match nth_error (fields w) f with
                 | Some v => (arr_at w (vf_vx v) 1%nat 1%nat, arr_at w (vf_vy v) 1%nat 1%nat) | None => (nan, nan) end
  | _ => (nan, nan)
  end.
Example t_smoothed : yes (xy_near (at11 (vf_smoothed 0 field0)) (0x1.2b81c6de1ca8ep-5, 0x1.ffa85e661ba1bp-1)).
Proof. run. Qed.
Example t_scaled : yes (xy_eq (at11 (vf_scaled 0 2 (Some 5)
  (fst (vf_make mesh0 (aset zero_arr 1%nat 1%nat 10) (aset zero_arr 1%nat 1%nat 1) (World [] []))))) (20, 5)).
Proof. run. Qed.
