(* Generated from the values recorded in /repo/tests/x7/geom/test_model.td: the model, run on
   doubles, gives what the program gave when the tests were recorded.  This is a check of the
   model against the program, not a proof of anything about it.  The sines and tangents needed
   are a table of the values of the C library; numbers agree to 1 in 2^40, and texts agree
   exactly.  The images the tests draw are not compared. *)
Require Import Verif.NumFloat Verif.M_vector Verif.M_bbox Verif.M_transform Verif.M_bezier Verif.M_colors
  Verif.M_elems Verif.M_group Verif.M_draw Verif.M_dump.
From Coq Require Import String Floats.
Local Open Scope string_scope.
Local Open Scope list_scope.
Local Open Scope float_scope.

Definition near (a b : float) : bool := PrimFloat.leb (abs (a - b)) (0x1p-40 * (1 + abs b)).
Fixpoint table (l : list (float * float)) (x : float) : float :=
  match l with [] => nan | (k, v) :: l => if near x k then v else table l x end.

#[local] Instance TrigTable : NumTrig float := {|
  npi := 0x1.921fb54442d18p+1;
  nsin := table [(0x1.657184ae74487p-3, 0x1.63a1a7e0b7389p-3); (0x1.e61f813f2d814p-6, 0x1.e60d3f09014bfp-6); (0x1.2fd3b0c77c70dp-2, 0x1.2b637cf83d5c8p-2)];
  ncos := table [(0x1.657184ae74487p-3, 0x1.f838b8c811c17p-1); (0x1.e61f813f2d814p-6, 0x1.ffc64f5b36d46p-1); (0x1.2fd3b0c77c70dp-2, 0x1.e9a0c6e7bdb1fp-1)];
  ntan := table [(0x1.921fb54442d18p-2, 0x1.a827999fcef32p-2)];
  natan2 := fun _ _ => nan |}.


(* agreement of structures *)
Definition all2 {A B} (f : A -> B -> bool) : list A -> list B -> bool :=
  fix go a b := match a, b with [], [] => true | x :: a, y :: b => f x y && go a b | _, _ => false end.
Definition pt_near (a b : pt float) : bool := near (px a) (px b) && near (py a) (py b).
Definition vec_near (a b : vec float) : bool := near (vx a) (vx b) && near (vy a) (vy b).
Definition cp_near (a b : cpoint float) : bool :=
  pt_near (cc a) (cc b) && vec_near (cdl a) (cdl b) && vec_near (cdr a) (cdr b) && (ckind a =? ckind b)%string.
Definition xf_near (a b : transform float) : bool :=
  let m := tmat a in let n := tmat b in
  near (m00 m) (m00 n) && near (m01 m) (m01 n) && near (m02 m) (m02 n) &&
  near (m10 m) (m10 n) && near (m11 m) (m11 n) && near (m12 m) (m12 n) &&
  near (m20 m) (m20 n) && near (m21 m) (m21 n) && near (m22 m) (m22 n).
Definition base_near (a b : ebase float) : bool :=
  (e_name a =? e_name b)%string && pb_eqb (e_pb a) (e_pb b) && Bool.eqb (e_closed a) (e_closed b)
  && xf_near (e_xform a) (e_xform b).
Definition shape_near (a b : shape float) : bool :=
  match a, b with
  | SCurve a, SCurve b => all2 cp_near a b
  | SRect p q, SRect p' q' => pt_near p p' && pt_near q q'
  | SRRect p q r, SRRect p' q' r' => pt_near p p' && pt_near q q' && near r r'
  | SEllipse p q, SEllipse p' q' => pt_near p p' && pt_near q q'
  | _, _ => false
  end.
Fixpoint elem_near (a b : elem float) : bool :=
  match a, b with
  | ELeaf a s, ELeaf b t => base_near a b && shape_near s t
  | EGroup a h l p, EGroup b h' l' p' =>
      base_near a b && Bool.eqb h h' &&
      all2 (fun x y => (fst x =? fst y)%string && elem_near (snd x) (snd y)) l l' &&
      all2 (fun x y => (fst x =? fst y)%string && pt_near (snd x) (snd y)) p p'
  | _, _ => false
  end.
Definition bbox_near (a b : bbox float) : bool :=
  match a, b with
  | BB a b c d, BB a' b' c' d' => near a a' && near b b' && near c c' && near d d'
  | _, _ => false
  end.
Definition pair_near (a b : float * float) : bool := near (fst a) (fst b) && near (snd a) (snd b).
Definition path_near (a : path float) (b : penbrush float * bool * list (float * float)) : bool :=
  pb_eqb (p_pb a) (fst (fst b)) && Bool.eqb (p_closed a) (snd (fst b)) && all2 pair_near (p_points a) (snd b).
Definition cpath_pts (k : cpath float) (l : list (pt float)) : bool :=
  match k with KPoints k => all2 pt_near k l | KCps _ => false end.
Definition cpath_cps (k : cpath float) (l : list (cpoint float)) : bool :=
  match k with KCps k => all2 cp_near k l | KPoints _ => false end.
Definition yield_near (a b : string * elem float * transform float) : bool :=
  (fst (fst a) =? fst (fst b))%string && elem_near (snd (fst a)) (snd (fst b)) && xf_near (snd a) (snd b).
Definition gives {A B} (f : A -> B -> bool) (r : res A) (b : B) : bool :=
  match r with Ok a => f a b | Raise _ => false end.
Definition text_is (a b : string) : bool := (a =? b)%string.

(* what the tests do *)
Definition digi (e : elem float) : res (list (cpoint float)) :=
  match e with ELeaf _ s => shape_cps s | _ => Raise ValueError end.
Definition dc5 : dctx := DC false 5.
Definition at_origin (e : elem float) : elem float :=
  set_base (fun b => EB (e_name b) (e_pb b) (e_closed b) t_new) e.
Definition rot_a : transform float := t_rotate_about 0x1.b333333333333p+0 (P 2 (-1)) t_new.
Definition rot_b : transform float := t_rotate_about 10 (P 3 4) t_new.
Definition rot_c : transform float := t_rotate_about 10 (P 1 2) t_new.
Definition rot_d : transform float := t_rotate_about 17 (P 0x1.8cccccccccccdp+1 0x1.6666666666666p+0) t_new.
Definition shift12 : transform float := t_translate 1 2 t_new.


(* TestElem: r1 *)
Definition TestElem_r1 : elem float := (ELeaf (EB "r1" (PenBrush (Some (Pen (Brush (CStr "green")) 0)) (Some (Brush (CStr "yellow")))) true (t_new6 0x1.f838b8c811c17p-1 0x1.63a1a7e0b7389p-3 0 (-0x1.63a1a7e0b7389p-3) 0x1.f838b8c811c17p-1 0)) (SRect (P (-0x1.0000000000000p+0) (-0x1.0000000000000p+0)) (P 0x1.0000000000000p+2 0x1.0000000000000p+0))).
Example TestElem_r1_as_curves : gives (all2 elem_near) (elem_as_curves TestElem_r1)
  [(ELeaf (EB "r1" (PenBrush (Some (Pen (Brush (CStr "green")) 0)) (Some (Brush (CStr "yellow")))) true t_new) (SCurve [(CP (P (-0x1.289091601fc7dp+0) (-0x1.9f504ecfe3f35p-1)) (V 0 0) (V 0 0) "smooth"); (CP (P (-0x1.9f504ecfe3f35p-1) 0x1.289091601fc7dp+0) (V 0 0) (V 0 0) "smooth"); (CP (P 0x1.073969a30e9a8p+2 0x1.292e21ceb511cp-2) (V 0 0) (V 0 0) "smooth"); (CP (P 0x1.e1fe9e4a064dep+1 (-0x1.aded3054647d0p+0)) (V 0 0) (V 0 0) "smooth")]))] = true.
Proof. vm_compute. reflexivity. Qed.
Example TestElem_r1_as_digi_points : gives (all2 cp_near) (digi TestElem_r1)
  [(CP (P (-0x1.0000000000000p+0) (-0x1.0000000000000p+0)) (V 0 0) (V 0 0) "smooth"); (CP (P (-0x1.0000000000000p+0) 0x1.0000000000000p+0) (V 0 0) (V 0 0) "smooth"); (CP (P 0x1.0000000000000p+2 0x1.0000000000000p+0) (V 0 0) (V 0 0) "smooth"); (CP (P 0x1.0000000000000p+2 (-0x1.0000000000000p+0)) (V 0 0) (V 0 0) "smooth")] = true.
Proof. vm_compute. reflexivity. Qed.
Example TestElem_r1_bbox : gives bbox_near (elem_bbox TestElem_r1)
  (BB (-0x1.289091601fc7dp+0) (-0x1.aded3054647d0p+0) 0x1.073969a30e9a8p+2 0x1.289091601fc7dp+0) = true.
Proof. vm_compute. reflexivity. Qed.
Example TestElem_r1_bbox_int : gives bbox_near (elem_bbox_int TestElem_r1)
  (BB (-0x1.0000000000000p+0) (-0x1.0000000000000p+0) 0x1.0000000000000p+2 0x1.0000000000000p+0) = true.
Proof. vm_compute. reflexivity. Qed.
Example TestElem_r1_control_path : gives (all2 cpath_pts) (snd (elem_control_paths (at_origin TestElem_r1) t_new))
  [[(P (-0x1.0000000000000p+0) (-0x1.0000000000000p+0)); (P (-0x1.0000000000000p+0) 0x1.0000000000000p+0); (P 0x1.0000000000000p+2 0x1.0000000000000p+0); (P 0x1.0000000000000p+2 (-0x1.0000000000000p+0))]] = true.
Proof. vm_compute. reflexivity. Qed.
Example TestElem_r1_control_path_sdc : gives (all2 cpath_pts) (snd (elem_control_paths TestElem_r1 t_new))
  [[(P (-0x1.289091601fc7dp+0) (-0x1.9f504ecfe3f35p-1)); (P (-0x1.9f504ecfe3f35p-1) 0x1.289091601fc7dp+0); (P 0x1.073969a30e9a8p+2 0x1.292e21ceb511cp-2); (P 0x1.e1fe9e4a064dep+1 (-0x1.aded3054647d0p+0))]] = true.
Proof. vm_compute. reflexivity. Qed.
Example TestElem_r1_copy : gives elem_near (elem_copy TestElem_r1)
  (ELeaf (EB "r1" (PenBrush (Some (Pen (Brush (CStr "green")) 0)) (Some (Brush (CStr "yellow")))) true (t_new6 0x1.f838b8c811c17p-1 0x1.63a1a7e0b7389p-3 0 (-0x1.63a1a7e0b7389p-3) 0x1.f838b8c811c17p-1 0)) (SRect (P (-0x1.0000000000000p+0) (-0x1.0000000000000p+0)) (P 0x1.0000000000000p+2 0x1.0000000000000p+0))) = true.
Proof. vm_compute. reflexivity. Qed.
Example TestElem_r1_path : gives (all2 (fun a b => all2 pair_near (p_points a) b)) (snd (elem_paths dc5 TestElem_r1 t_new))
  [[((-0x1.289091601fc7dp+0), (-0x1.9f504ecfe3f35p-1)); ((-0x1.9f504ecfe3f35p-1), 0x1.289091601fc7dp+0); (0x1.073969a30e9a8p+2, 0x1.292e21ceb511cp-2); (0x1.e1fe9e4a064dep+1, (-0x1.aded3054647d0p+0)); ((-0x1.289091601fc7dp+0), (-0x1.9f504ecfe3f35p-1))]] = true.
Proof. vm_compute. reflexivity. Qed.
Example TestElem_r1_transform : gives elem_near (snd (elem_transform TestElem_r1 rot_a))
  (ELeaf (EB "r1" (PenBrush (Some (Pen (Brush (CStr "green")) 0)) (Some (Brush (CStr "yellow")))) true (t_new6 0x1.f55cb1363c413p-1 0x1.9f4ef20ccdda2p-3 0 (-0x1.9f4ef20ccdda2p-3) 0x1.f55cb1363c414p-1 0)) (SRect (P (-0x1.f6ccbc98a557ep-1) (-0x1.df4d53581f2f2p-1)) (P 0x1.0126686ceb550p+2 0x1.10595653f0688p+0))) = true.
Proof. vm_compute. reflexivity. Qed.
Example TestElem_r1_iter_elems : gives (all2 yield_near) (iter_collect TestElem_r1 (Some "root") shift12) [("root.r1", TestElem_r1, shift12)] = true.
Proof. vm_compute. reflexivity. Qed.
Example TestElem_r1_moved : match snd (elem_transform TestElem_r1 rot_d) with Ok o => negb (elem_eqb TestElem_r1 o) | _ => false end = true.
Proof. vm_compute. reflexivity. Qed.

(* TestElemCurve: c1 *)
Definition TestElemCurve_c1 : elem float := (ELeaf (EB "c1" (PenBrush (Some (Pen (Brush (CStr "black")) 0)) None) true t_new) (SCurve [(CP (P 0 0) (V 0 0x1.0000000000000p+0) (V 0 (-0x1.0000000000000p+0)) "smooth"); (CP (P 0x1.4000000000000p+3 0) (V 0 0x1.0000000000000p+0) (V 0 (-0x1.0000000000000p+0)) "smooth")])).
Example TestElemCurve_c1_control_points_transformed : gives (all2 cp_near) (let* l := digi TestElemCurve_c1 in mapM (cp_transform (t_transform rot_b) true) l)
  [(CP (P (-0x1.4c4bd238ec7ccp-1) 0x1.29d65ac84264cp-1) (V 0x1.63a1a7e0b7388p-3 0x1.f838b8c811c18p-1) (V (-0x1.63a1a7e0b7388p-3) (-0x1.f838b8c811c17p-1)) "smooth"); (CP (P 0x1.265eb6597c511p+3 (-0x1.279ee474c3d45p+0)) (V 0x1.63a1a7e0b7380p-3 0x1.f838b8c811c17p-1) (V (-0x1.63a1a7e0b7380p-3) (-0x1.f838b8c811c16p-1)) "smooth")] = true.
Proof. vm_compute. reflexivity. Qed.
Example TestElemCurve_c1_as_curves : gives (all2 elem_near) (elem_as_curves TestElemCurve_c1)
  [(ELeaf (EB "c1" (PenBrush (Some (Pen (Brush (CStr "black")) 0)) None) true t_new) (SCurve [(CP (P 0 0) (V 0 0x1.0000000000000p+0) (V 0 (-0x1.0000000000000p+0)) "smooth"); (CP (P 0x1.4000000000000p+3 0) (V 0 0x1.0000000000000p+0) (V 0 (-0x1.0000000000000p+0)) "smooth")]))] = true.
Proof. vm_compute. reflexivity. Qed.
Example TestElemCurve_c1_as_digi_points : gives (all2 cp_near) (digi TestElemCurve_c1)
  [(CP (P 0 0) (V 0 0x1.0000000000000p+0) (V 0 (-0x1.0000000000000p+0)) "smooth"); (CP (P 0x1.4000000000000p+3 0) (V 0 0x1.0000000000000p+0) (V 0 (-0x1.0000000000000p+0)) "smooth")] = true.
Proof. vm_compute. reflexivity. Qed.
Example TestElemCurve_c1_bbox : gives bbox_near (elem_bbox TestElemCurve_c1)
  (BB 0 (-0x1.0000000000000p+0) 0x1.4000000000000p+3 0x1.0000000000000p+0) = true.
Proof. vm_compute. reflexivity. Qed.
Example TestElemCurve_c1_bbox_int : gives bbox_near (elem_bbox_int TestElemCurve_c1)
  (BB 0 (-0x1.0000000000000p+0) 0x1.4000000000000p+3 0x1.0000000000000p+0) = true.
Proof. vm_compute. reflexivity. Qed.
Example TestElemCurve_c1_control_path : gives (all2 cpath_cps) (snd (elem_control_paths (at_origin TestElemCurve_c1) t_new))
  [[(CP (P 0 0) (V 0 0x1.0000000000000p+0) (V 0 (-0x1.0000000000000p+0)) "smooth"); (CP (P 0x1.4000000000000p+3 0) (V 0 0x1.0000000000000p+0) (V 0 (-0x1.0000000000000p+0)) "smooth")]] = true.
Proof. vm_compute. reflexivity. Qed.
Example TestElemCurve_c1_control_path_sdc : gives (all2 cpath_cps) (snd (elem_control_paths TestElemCurve_c1 t_new))
  [[(CP (P 0 0) (V 0 0x1.0000000000000p+0) (V 0 (-0x1.0000000000000p+0)) "smooth"); (CP (P 0x1.4000000000000p+3 0) (V 0 0x1.0000000000000p+0) (V 0 (-0x1.0000000000000p+0)) "smooth")]] = true.
Proof. vm_compute. reflexivity. Qed.
Example TestElemCurve_c1_copy : gives elem_near (elem_copy TestElemCurve_c1)
  (ELeaf (EB "c1" (PenBrush (Some (Pen (Brush (CStr "black")) 0)) None) true t_new) (SCurve [(CP (P 0 0) (V 0 0x1.0000000000000p+0) (V 0 (-0x1.0000000000000p+0)) "smooth"); (CP (P 0x1.4000000000000p+3 0) (V 0 0x1.0000000000000p+0) (V 0 (-0x1.0000000000000p+0)) "smooth")])) = true.
Proof. vm_compute. reflexivity. Qed.
Example TestElemCurve_c1_path : gives (all2 (fun a b => all2 pair_near (p_points a) b)) (snd (elem_paths dc5 TestElemCurve_c1 t_new))
  [[(0, 0); (0x1.0a3d70a3d70a5p+0, (-0x1.26e978d4fdf3dp-2)); (0x1.c28f5c28f5c2ap+1, (-0x1.26e978d4fdf38p-3)); (0x1.9eb851eb851ebp+2, 0x1.26e978d4fdf38p-3); (0x1.1eb851eb851ecp+3, 0x1.26e978d4fdf3cp-2); (0x1.4000000000000p+3, 0); (0x1.1eb851eb851edp+3, (-0x1.26e978d4fdf3dp-2)); (0x1.9eb851eb851ebp+2, (-0x1.26e978d4fdf38p-3)); (0x1.c28f5c28f5c2ap+1, 0x1.26e978d4fdf38p-3); (0x1.0a3d70a3d70a2p+0, 0x1.26e978d4fdf3cp-2); (0, 0)]] = true.
Proof. vm_compute. reflexivity. Qed.
Example TestElemCurve_c1_transform : gives elem_near (snd (elem_transform TestElemCurve_c1 rot_a))
  (ELeaf (EB "c1" (PenBrush (Some (Pen (Brush (CStr "black")) 0)) None) true t_new) (SCurve [(CP (P 0x1.f479683b4c340p-6 0x1.e27234bc6e920p-5) (V 0x1.e60d3f09014c0p-6 0x1.ffc64f5b36d46p-1) (V (-0x1.e60d3f09014bfp-6) (-0x1.ffc64f5b36d46p-1)) "smooth"); (CP (P 0x1.40d62e4d1feaep+3 (-0x1.e6f4019c25fa6p-3)) (V 0x1.e60d3f0901400p-6 0x1.ffc64f5b36d46p-1) (V (-0x1.e60d3f0901400p-6) (-0x1.ffc64f5b36d46p-1)) "smooth")])) = true.
Proof. vm_compute. reflexivity. Qed.
Example TestElemCurve_c1_fixed : gives elem_near (elem_copy TestElemCurve_c1)
  (ELeaf (EB "c1" (PenBrush (Some (Pen (Brush (CStr "black")) 0)) None) true t_new) (SCurve [(CP (P 0 0) (V 0 0x1.0000000000000p+0) (V 0 (-0x1.0000000000000p+0)) "smooth"); (CP (P 0x1.4000000000000p+3 0) (V 0 0x1.0000000000000p+0) (V 0 (-0x1.0000000000000p+0)) "smooth")])) = true.
Proof. vm_compute. reflexivity. Qed.
Example TestElemCurve_c1_iter_elems : gives (all2 yield_near) (iter_collect TestElemCurve_c1 (Some "root") shift12) [("root.c1", TestElemCurve_c1, shift12)] = true.
Proof. vm_compute. reflexivity. Qed.
Example TestElemCurve_c1_moved : match snd (elem_transform TestElemCurve_c1 rot_d) with Ok o => negb (elem_eqb TestElemCurve_c1 o) | _ => false end = true.
Proof. vm_compute. reflexivity. Qed.

(* TestElemCurve: c2 *)
Definition TestElemCurve_c2 : elem float := (ELeaf (EB "c2" (PenBrush (Some (Pen (Brush (CStr "black")) 0)) None) true t_new) (SCurve [(CP (P 0x1.4000000000000p+3 0) (V 0 0x1.0000000000000p+0) (V 0 (-0x1.0000000000000p+0)) "smooth"); (CP (P 0 0) (V 0 0x1.0000000000000p+0) (V 0 (-0x1.0000000000000p+0)) "smooth")])).
Example TestElemCurve_c2_control_points_transformed : gives (all2 cp_near) (let* l := digi TestElemCurve_c2 in mapM (cp_transform (t_transform rot_b) true) l)
  [(CP (P 0x1.265eb6597c511p+3 (-0x1.279ee474c3d45p+0)) (V 0x1.63a1a7e0b7380p-3 0x1.f838b8c811c17p-1) (V (-0x1.63a1a7e0b7380p-3) (-0x1.f838b8c811c16p-1)) "smooth"); (CP (P (-0x1.4c4bd238ec7ccp-1) 0x1.29d65ac84264cp-1) (V 0x1.63a1a7e0b7388p-3 0x1.f838b8c811c18p-1) (V (-0x1.63a1a7e0b7388p-3) (-0x1.f838b8c811c17p-1)) "smooth")] = true.
Proof. vm_compute. reflexivity. Qed.
Example TestElemCurve_c2_as_curves : gives (all2 elem_near) (elem_as_curves TestElemCurve_c2)
  [(ELeaf (EB "c2" (PenBrush (Some (Pen (Brush (CStr "black")) 0)) None) true t_new) (SCurve [(CP (P 0x1.4000000000000p+3 0) (V 0 0x1.0000000000000p+0) (V 0 (-0x1.0000000000000p+0)) "smooth"); (CP (P 0 0) (V 0 0x1.0000000000000p+0) (V 0 (-0x1.0000000000000p+0)) "smooth")]))] = true.
Proof. vm_compute. reflexivity. Qed.
Example TestElemCurve_c2_as_digi_points : gives (all2 cp_near) (digi TestElemCurve_c2)
  [(CP (P 0x1.4000000000000p+3 0) (V 0 0x1.0000000000000p+0) (V 0 (-0x1.0000000000000p+0)) "smooth"); (CP (P 0 0) (V 0 0x1.0000000000000p+0) (V 0 (-0x1.0000000000000p+0)) "smooth")] = true.
Proof. vm_compute. reflexivity. Qed.
Example TestElemCurve_c2_bbox : gives bbox_near (elem_bbox TestElemCurve_c2)
  (BB 0 (-0x1.0000000000000p+0) 0x1.4000000000000p+3 0x1.0000000000000p+0) = true.
Proof. vm_compute. reflexivity. Qed.
Example TestElemCurve_c2_bbox_int : gives bbox_near (elem_bbox_int TestElemCurve_c2)
  (BB 0 (-0x1.0000000000000p+0) 0x1.4000000000000p+3 0x1.0000000000000p+0) = true.
Proof. vm_compute. reflexivity. Qed.
Example TestElemCurve_c2_control_path : gives (all2 cpath_cps) (snd (elem_control_paths (at_origin TestElemCurve_c2) t_new))
  [[(CP (P 0x1.4000000000000p+3 0) (V 0 0x1.0000000000000p+0) (V 0 (-0x1.0000000000000p+0)) "smooth"); (CP (P 0 0) (V 0 0x1.0000000000000p+0) (V 0 (-0x1.0000000000000p+0)) "smooth")]] = true.
Proof. vm_compute. reflexivity. Qed.
Example TestElemCurve_c2_control_path_sdc : gives (all2 cpath_cps) (snd (elem_control_paths TestElemCurve_c2 t_new))
  [[(CP (P 0x1.4000000000000p+3 0) (V 0 0x1.0000000000000p+0) (V 0 (-0x1.0000000000000p+0)) "smooth"); (CP (P 0 0) (V 0 0x1.0000000000000p+0) (V 0 (-0x1.0000000000000p+0)) "smooth")]] = true.
Proof. vm_compute. reflexivity. Qed.
Example TestElemCurve_c2_copy : gives elem_near (elem_copy TestElemCurve_c2)
  (ELeaf (EB "c2" (PenBrush (Some (Pen (Brush (CStr "black")) 0)) None) true t_new) (SCurve [(CP (P 0x1.4000000000000p+3 0) (V 0 0x1.0000000000000p+0) (V 0 (-0x1.0000000000000p+0)) "smooth"); (CP (P 0 0) (V 0 0x1.0000000000000p+0) (V 0 (-0x1.0000000000000p+0)) "smooth")])) = true.
Proof. vm_compute. reflexivity. Qed.
Example TestElemCurve_c2_path : gives (all2 (fun a b => all2 pair_near (p_points a) b)) (snd (elem_paths dc5 TestElemCurve_c2 t_new))
  [[(0x1.4000000000000p+3, 0); (0x1.1eb851eb851edp+3, (-0x1.26e978d4fdf3dp-2)); (0x1.9eb851eb851ebp+2, (-0x1.26e978d4fdf38p-3)); (0x1.c28f5c28f5c2ap+1, 0x1.26e978d4fdf38p-3); (0x1.0a3d70a3d70a2p+0, 0x1.26e978d4fdf3cp-2); (0, 0); (0x1.0a3d70a3d70a5p+0, (-0x1.26e978d4fdf3dp-2)); (0x1.c28f5c28f5c2ap+1, (-0x1.26e978d4fdf38p-3)); (0x1.9eb851eb851ebp+2, 0x1.26e978d4fdf38p-3); (0x1.1eb851eb851ecp+3, 0x1.26e978d4fdf3cp-2); (0x1.4000000000000p+3, 0)]] = true.
Proof. vm_compute. reflexivity. Qed.
Example TestElemCurve_c2_transform : gives elem_near (snd (elem_transform TestElemCurve_c2 rot_a))
  (ELeaf (EB "c2" (PenBrush (Some (Pen (Brush (CStr "black")) 0)) None) true t_new) (SCurve [(CP (P 0x1.40d62e4d1feaep+3 (-0x1.e6f4019c25fa6p-3)) (V 0x1.e60d3f0901400p-6 0x1.ffc64f5b36d46p-1) (V (-0x1.e60d3f0901400p-6) (-0x1.ffc64f5b36d46p-1)) "smooth"); (CP (P 0x1.f479683b4c340p-6 0x1.e27234bc6e920p-5) (V 0x1.e60d3f09014c0p-6 0x1.ffc64f5b36d46p-1) (V (-0x1.e60d3f09014bfp-6) (-0x1.ffc64f5b36d46p-1)) "smooth")])) = true.
Proof. vm_compute. reflexivity. Qed.
Example TestElemCurve_c2_fixed : gives elem_near (elem_copy TestElemCurve_c2)
  (ELeaf (EB "c2" (PenBrush (Some (Pen (Brush (CStr "black")) 0)) None) true t_new) (SCurve [(CP (P 0x1.4000000000000p+3 0) (V 0 0x1.0000000000000p+0) (V 0 (-0x1.0000000000000p+0)) "smooth"); (CP (P 0 0) (V 0 0x1.0000000000000p+0) (V 0 (-0x1.0000000000000p+0)) "smooth")])) = true.
Proof. vm_compute. reflexivity. Qed.
Example TestElemCurve_c2_iter_elems : gives (all2 yield_near) (iter_collect TestElemCurve_c2 (Some "root") shift12) [("root.c2", TestElemCurve_c2, shift12)] = true.
Proof. vm_compute. reflexivity. Qed.
Example TestElemCurve_c2_moved : match snd (elem_transform TestElemCurve_c2 rot_d) with Ok o => negb (elem_eqb TestElemCurve_c2 o) | _ => false end = true.
Proof. vm_compute. reflexivity. Qed.

(* TestElemEllipse: e1 *)
Definition TestElemEllipse_e1 : elem float := (ELeaf (EB "e1" (PenBrush (Some (Pen (Brush (CStr "red")) 0)) (Some (Brush (CStr "blue")))) true t_new) (SEllipse (P 0x1.0000000000000p+0 (-0x1.0000000000000p+0)) (P (-0x1.8000000000000p+1) 0x1.0000000000000p+2))).
Example TestElemEllipse_e1_as_curves : gives (all2 elem_near) (elem_as_curves TestElemEllipse_e1)
  [(ELeaf (EB "e1" (PenBrush (Some (Pen (Brush (CStr "red")) 0)) (Some (Brush (CStr "blue")))) true t_new) (SCurve [(CP (P 0x1.0000000000000p+0 0x1.8000000000000p+0) (V 0 0x1.6176555a81caap+0) (V 0 (-0x1.6176555a81caap+0)) "smooth"); (CP (P (-0x1.0000000000000p+0) (-0x1.0000000000000p+0)) (V 0x1.1ac5111534a22p+0 0) (V (-0x1.1ac5111534a22p+0) 0) "smooth"); (CP (P (-0x1.8000000000000p+1) 0x1.8000000000000p+0) (V 0 (-0x1.6176555a81caap+0)) (V 0 0x1.6176555a81caap+0) "smooth"); (CP (P (-0x1.0000000000000p+0) 0x1.0000000000000p+2) (V (-0x1.1ac5111534a22p+0) 0) (V 0x1.1ac5111534a22p+0 0) "smooth")]))] = true.
Proof. vm_compute. reflexivity. Qed.
Example TestElemEllipse_e1_as_digi_points : gives (all2 cp_near) (digi TestElemEllipse_e1)
  [(CP (P 0x1.0000000000000p+0 0x1.8000000000000p+0) (V 0 0x1.6176555a81caap+0) (V 0 (-0x1.6176555a81caap+0)) "smooth"); (CP (P (-0x1.0000000000000p+0) (-0x1.0000000000000p+0)) (V 0x1.1ac5111534a22p+0 0) (V (-0x1.1ac5111534a22p+0) 0) "smooth"); (CP (P (-0x1.8000000000000p+1) 0x1.8000000000000p+0) (V 0 (-0x1.6176555a81caap+0)) (V 0 0x1.6176555a81caap+0) "smooth"); (CP (P (-0x1.0000000000000p+0) 0x1.0000000000000p+2) (V (-0x1.1ac5111534a22p+0) 0) (V 0x1.1ac5111534a22p+0 0) "smooth")] = true.
Proof. vm_compute. reflexivity. Qed.
Example TestElemEllipse_e1_bbox : gives bbox_near (elem_bbox TestElemEllipse_e1)
  (BB (-0x1.8000000000000p+1) (-0x1.0000000000000p+0) 0x1.0000000000000p+0 0x1.0000000000000p+2) = true.
Proof. vm_compute. reflexivity. Qed.
Example TestElemEllipse_e1_bbox_int : gives bbox_near (elem_bbox_int TestElemEllipse_e1)
  (BB (-0x1.8000000000000p+1) (-0x1.0000000000000p+0) 0x1.0000000000000p+0 0x1.0000000000000p+2) = true.
Proof. vm_compute. reflexivity. Qed.
Example TestElemEllipse_e1_control_path : gives (all2 cpath_cps) (snd (elem_control_paths (at_origin TestElemEllipse_e1) t_new))
  [[(CP (P 0x1.0000000000000p+0 0x1.8000000000000p+0) (V 0 0x1.6176555a81caap+0) (V 0 (-0x1.6176555a81caap+0)) "smooth"); (CP (P (-0x1.0000000000000p+0) (-0x1.0000000000000p+0)) (V 0x1.1ac5111534a22p+0 0) (V (-0x1.1ac5111534a22p+0) 0) "smooth"); (CP (P (-0x1.8000000000000p+1) 0x1.8000000000000p+0) (V 0 (-0x1.6176555a81caap+0)) (V 0 0x1.6176555a81caap+0) "smooth"); (CP (P (-0x1.0000000000000p+0) 0x1.0000000000000p+2) (V (-0x1.1ac5111534a22p+0) 0) (V 0x1.1ac5111534a22p+0 0) "smooth")]] = true.
Proof. vm_compute. reflexivity. Qed.
Example TestElemEllipse_e1_control_path_sdc : gives (all2 cpath_cps) (snd (elem_control_paths TestElemEllipse_e1 t_new))
  [[(CP (P 0x1.0000000000000p+0 0x1.8000000000000p+0) (V 0 0x1.6176555a81caap+0) (V 0 (-0x1.6176555a81caap+0)) "smooth"); (CP (P (-0x1.0000000000000p+0) (-0x1.0000000000000p+0)) (V 0x1.1ac5111534a22p+0 0) (V (-0x1.1ac5111534a22p+0) 0) "smooth"); (CP (P (-0x1.8000000000000p+1) 0x1.8000000000000p+0) (V 0 (-0x1.6176555a81caap+0)) (V 0 0x1.6176555a81caap+0) "smooth"); (CP (P (-0x1.0000000000000p+0) 0x1.0000000000000p+2) (V (-0x1.1ac5111534a22p+0) 0) (V 0x1.1ac5111534a22p+0 0) "smooth")]] = true.
Proof. vm_compute. reflexivity. Qed.
Example TestElemEllipse_e1_copy : gives elem_near (elem_copy TestElemEllipse_e1)
  (ELeaf (EB "e1" (PenBrush (Some (Pen (Brush (CStr "red")) 0)) (Some (Brush (CStr "blue")))) true t_new) (SEllipse (P 0x1.0000000000000p+0 (-0x1.0000000000000p+0)) (P (-0x1.8000000000000p+1) 0x1.0000000000000p+2))) = true.
Proof. vm_compute. reflexivity. Qed.
Example TestElemEllipse_e1_path : gives (all2 (fun a b => all2 pair_near (p_points a) b)) (snd (elem_paths dc5 TestElemEllipse_e1 t_new))
  [[(0x1.0000000000000p+0, 0x1.8000000000000p+0); (0x1.fc9b000d2a8abp-1, 0x1.4b829296da037p+0); (0x1.f298fa4437942p-1, 0x1.18304d0d142c5p+0); (0x1.e23d65bc7b393p-1, 0x1.cc66b3a286194p-1); (0x1.cbcbb98d49981p-1, 0x1.6b6bc6a3f66ecp-1); (0x1.af876ccdf6cdap-1, 0x1.0dc427fba27d1p-1); (0x1.8db3f695d6f78p-1, 0x1.6788590d66d2bp-2); (0x1.6694cdfc3e33ap-1, 0x1.7700a48949632p-3); (0x1.3a6d6a18809edp-1, 0x1.818e55750df3cp-6); (0x1.09814201f2572p-1, (-0x1.040a880084b36p-3)); (0x1.a827999fcef34p-2, (-0x1.12318007c2affp-2)); (0x1.34d103336847ap-2, (-0x1.97c32504ddd9cp-2)); (0x1.730b5ddab1ce1p-3, (-0x1.0908c49ea0c69p-1)); (0x1.b66457e2485c8p-5, (-0x1.403a017b4dc09p-1)); ((-0x1.4b4de9c47c3b8p-4), (-0x1.7120f43b4cb58p-1)); ((-0x1.c5a6e6586e5cdp-3), (-0x1.9b69480174810p-1)); ((-0x1.78ac710657179p-2), (-0x1.bebea7f09bfe0p-1)); ((-0x1.09ebc2e86b477p-1), (-0x1.daccbf2b9a078p-1)); ((-0x1.59e6e1ae86ad3p-1), (-0x1.ef3f38d545791p-1)); ((-0x1.ac041dbe299f1p-1), (-0x1.fbc1c010752d7p-1)); ((-0x1.0000000000000p+0), (-0x1.0000000000000p+0)); ((-0x1.29fdf120eb306p+0), (-0x1.fbc1c010752d6p-1)); ((-0x1.530c8f28bca97p+0), (-0x1.ef3f38d545793p-1)); ((-0x1.7b0a1e8bca5c2p+0), (-0x1.daccbf2b9a079p-1)); ((-0x1.a1d4e3be6a3a5p+0), (-0x1.bebea7f09bfe1p-1)); ((-0x1.c74b2334f2346p+0), (-0x1.9b69480174810p-1)); ((-0x1.eb4b2163b83c2p+0), (-0x1.7120f43b4cb57p-1)); ((-0x1.06d9915f89217p+1), (-0x1.403a017b4dc08p-1)); ((-0x1.1730b5ddab1cep+1), (-0x1.0908c49ea0c68p-1)); ((-0x1.269a20666d091p+1), (-0x1.97c32504ddd9dp-2)); ((-0x1.3504f333f9de6p+1), (-0x1.12318007c2affp-2)); ((-0x1.426050807c95dp+1), (-0x1.040a880084b30p-3)); ((-0x1.4e9b5a862027cp+1), 0x1.818e55750df40p-6); ((-0x1.59a5337f0f8cfp+1), 0x1.7700a48949632p-3); ((-0x1.636cfda575bdep+1), 0x1.6788590d66d2ap-2); ((-0x1.6be1db337db36p+1), 0x1.0dc427fba27d0p-1); ((-0x1.72f2ee6352661p+1), 0x1.6b6bc6a3f66edp-1); ((-0x1.788f596f1ece4p+1), 0x1.cc66b3a286194p-1); ((-0x1.7ca63e910de50p+1), 0x1.18304d0d142c4p+0); ((-0x1.7f26c0034aa2cp+1), 0x1.4b829296da037p+0); ((-0x1.8000000000000p+1), 0x1.8000000000000p+0); ((-0x1.7f26c0034aa2bp+1), 0x1.b47d6d6925fc8p+0); ((-0x1.7ca63e910de51p+1), 0x1.e7cfb2f2ebd3ep+0); ((-0x1.788f596f1ece4p+1), 0x1.0ce653175e79ap+1); ((-0x1.72f2ee6352661p+1), 0x1.25250e5702647p+1); ((-0x1.6be1db337db36p+1), 0x1.3c8ef6011760cp+1); ((-0x1.636cfda575bdep+1), 0x1.530ef4de53259p+1); ((-0x1.59a5337f0f8cfp+1), 0x1.688ff5b76b69dp+1); ((-0x1.4e9b5a862027cp+1), 0x1.7cfce35515e42p+1); ((-0x1.426050807c95ep+1), 0x1.9040a880084b5p+1); ((-0x1.3504f333f9de6p+1), 0x1.a2463000f8560p+1); ((-0x1.269a20666d08fp+1), 0x1.b2f864a09bbb3p+1); ((-0x1.1730b5ddab1cep+1), 0x1.c2423127a831ap+1); ((-0x1.06d9915f89217p+1), 0x1.d00e805ed3702p+1); ((-0x1.eb4b2163b83c4p+0), 0x1.dc483d0ed32d6p+1); ((-0x1.c74b2334f2346p+0), 0x1.e6da52005d204p+1); ((-0x1.a1d4e3be6a3a2p+0), 0x1.efafa9fc26ff9p+1); ((-0x1.7b0a1e8bca5c4p+0), 0x1.f6b32fcae681ep+1); ((-0x1.530c8f28bca97p+0), 0x1.fbcfce35515e4p+1); ((-0x1.29fdf120eb308p+0), 0x1.fef070041d4b6p+1); ((-0x1.0000000000000p+0), 0x1.0000000000000p+2); ((-0x1.ac041dbe299f0p-1), 0x1.fef070041d4b5p+1); ((-0x1.59e6e1ae86ad2p-1), 0x1.fbcfce35515e6p+1); ((-0x1.09ebc2e86b477p-1), 0x1.f6b32fcae681ep+1); ((-0x1.78ac710657177p-2), 0x1.efafa9fc26ffap+1); ((-0x1.c5a6e6586e5cep-3), 0x1.e6da52005d204p+1); ((-0x1.4b4de9c47c3bep-4), 0x1.dc483d0ed32d5p+1); (0x1.b66457e2485cbp-5, 0x1.d00e805ed3702p+1); (0x1.730b5ddab1ce2p-3, 0x1.c2423127a831ap+1); (0x1.34d103336847ep-2, 0x1.b2f864a09bbb4p+1); (0x1.a827999fcef33p-2, 0x1.a2463000f8560p+1); (0x1.09814201f2572p-1, 0x1.9040a880084b3p+1); (0x1.3a6d6a18809eep-1, 0x1.7cfce35515e41p+1); (0x1.6694cdfc3e33ap-1, 0x1.688ff5b76b69dp+1); (0x1.8db3f695d6f79p-1, 0x1.530ef4de5325ap+1); (0x1.af876ccdf6cdap-1, 0x1.3c8ef6011760cp+1); (0x1.cbcbb98d49980p-1, 0x1.25250e5702646p+1); (0x1.e23d65bc7b394p-1, 0x1.0ce653175e79ap+1); (0x1.f298fa4437941p-1, 0x1.e7cfb2f2ebd3dp+0); (0x1.fc9b000d2a8acp-1, 0x1.b47d6d6925fcap+0); (0x1.0000000000000p+0, 0x1.8000000000000p+0)]] = true.
Proof. vm_compute. reflexivity. Qed.
Example TestElemEllipse_e1_transform : gives elem_near (snd (elem_transform TestElemEllipse_e1 rot_a))
  (ELeaf (EB "e1" (PenBrush (Some (Pen (Brush (CStr "red")) 0)) (Some (Brush (CStr "blue")))) true (t_new6 0x1.ffc64f5b36d46p-1 0x1.e60d3f09014bfp-6 0 (-0x1.e60d3f09014bfp-6) 0x1.ffc64f5b36d46p-1 0)) (SEllipse (P 0x1.075e84575ad99p+0 (-0x1.e1657b6aa6bfap-1)) (P (-0x1.7c50bdd452933p+1) 0x1.03d35092ab280p+2))) = true.
Proof. vm_compute. reflexivity. Qed.
Example TestElemEllipse_e1_iter_elems : gives (all2 yield_near) (iter_collect TestElemEllipse_e1 (Some "root") shift12) [("root.e1", TestElemEllipse_e1, shift12)] = true.
Proof. vm_compute. reflexivity. Qed.
Example TestElemEllipse_e1_moved : match snd (elem_transform TestElemEllipse_e1 rot_d) with Ok o => negb (elem_eqb TestElemEllipse_e1 o) | _ => false end = true.
Proof. vm_compute. reflexivity. Qed.

(* TestElemEllipse: e2 *)
Definition TestElemEllipse_e2 : elem float := (ELeaf (EB "e2" (PenBrush (Some (Pen (Brush (CStr "red")) 0)) (Some (Brush (CStr "blue")))) true t_new) (SEllipse (P 0x1.0000000000000p+0 0x1.0000000000000p+1) (P 0x1.8000000000000p+1 (-0x1.0000000000000p+2)))).
Example TestElemEllipse_e2_as_curves : gives (all2 elem_near) (elem_as_curves TestElemEllipse_e2)
  [(ELeaf (EB "e2" (PenBrush (Some (Pen (Brush (CStr "red")) 0)) (Some (Brush (CStr "blue")))) true t_new) (SCurve [(CP (P 0x1.8000000000000p+1 (-0x1.0000000000000p+0)) (V 0 0x1.a827999fcef33p+0) (V 0 (-0x1.a827999fcef34p+0)) "smooth"); (CP (P 0x1.0000000000000p+1 (-0x1.0000000000000p+2)) (V 0x1.1ac5111534a20p-1 0) (V (-0x1.1ac5111534a22p-1) 0) "smooth"); (CP (P 0x1.0000000000000p+0 (-0x1.0000000000000p+0)) (V 0 (-0x1.a827999fcef34p+0)) (V 0 0x1.a827999fcef33p+0) "smooth"); (CP (P 0x1.0000000000000p+1 0x1.0000000000000p+1) (V (-0x1.1ac5111534a22p-1) 0) (V 0x1.1ac5111534a20p-1 0) "smooth")]))] = true.
Proof. vm_compute. reflexivity. Qed.
Example TestElemEllipse_e2_as_digi_points : gives (all2 cp_near) (digi TestElemEllipse_e2)
  [(CP (P 0x1.8000000000000p+1 (-0x1.0000000000000p+0)) (V 0 0x1.a827999fcef33p+0) (V 0 (-0x1.a827999fcef33p+0)) "smooth"); (CP (P 0x1.0000000000000p+1 (-0x1.0000000000000p+2)) (V 0x1.1ac5111534a22p-1 0) (V (-0x1.1ac5111534a22p-1) 0) "smooth"); (CP (P 0x1.0000000000000p+0 (-0x1.0000000000000p+0)) (V 0 (-0x1.a827999fcef33p+0)) (V 0 0x1.a827999fcef33p+0) "smooth"); (CP (P 0x1.0000000000000p+1 0x1.0000000000000p+1) (V (-0x1.1ac5111534a22p-1) 0) (V 0x1.1ac5111534a22p-1 0) "smooth")] = true.
Proof. vm_compute. reflexivity. Qed.
Example TestElemEllipse_e2_bbox : gives bbox_near (elem_bbox TestElemEllipse_e2)
  (BB 0x1.0000000000000p+0 (-0x1.0000000000000p+2) 0x1.8000000000000p+1 0x1.0000000000000p+1) = true.
Proof. vm_compute. reflexivity. Qed.
Example TestElemEllipse_e2_bbox_int : gives bbox_near (elem_bbox_int TestElemEllipse_e2)
  (BB 0x1.0000000000000p+0 (-0x1.0000000000000p+2) 0x1.8000000000000p+1 0x1.0000000000000p+1) = true.
Proof. vm_compute. reflexivity. Qed.
Example TestElemEllipse_e2_control_path : gives (all2 cpath_cps) (snd (elem_control_paths (at_origin TestElemEllipse_e2) t_new))
  [[(CP (P 0x1.8000000000000p+1 (-0x1.0000000000000p+0)) (V 0 0x1.a827999fcef33p+0) (V 0 (-0x1.a827999fcef34p+0)) "smooth"); (CP (P 0x1.0000000000000p+1 (-0x1.0000000000000p+2)) (V 0x1.1ac5111534a20p-1 0) (V (-0x1.1ac5111534a22p-1) 0) "smooth"); (CP (P 0x1.0000000000000p+0 (-0x1.0000000000000p+0)) (V 0 (-0x1.a827999fcef34p+0)) (V 0 0x1.a827999fcef33p+0) "smooth"); (CP (P 0x1.0000000000000p+1 0x1.0000000000000p+1) (V (-0x1.1ac5111534a22p-1) 0) (V 0x1.1ac5111534a20p-1 0) "smooth")]] = true.
Proof. vm_compute. reflexivity. Qed.
Example TestElemEllipse_e2_control_path_sdc : gives (all2 cpath_cps) (snd (elem_control_paths TestElemEllipse_e2 t_new))
  [[(CP (P 0x1.8000000000000p+1 (-0x1.0000000000000p+0)) (V 0 0x1.a827999fcef33p+0) (V 0 (-0x1.a827999fcef34p+0)) "smooth"); (CP (P 0x1.0000000000000p+1 (-0x1.0000000000000p+2)) (V 0x1.1ac5111534a20p-1 0) (V (-0x1.1ac5111534a22p-1) 0) "smooth"); (CP (P 0x1.0000000000000p+0 (-0x1.0000000000000p+0)) (V 0 (-0x1.a827999fcef34p+0)) (V 0 0x1.a827999fcef33p+0) "smooth"); (CP (P 0x1.0000000000000p+1 0x1.0000000000000p+1) (V (-0x1.1ac5111534a22p-1) 0) (V 0x1.1ac5111534a20p-1 0) "smooth")]] = true.
Proof. vm_compute. reflexivity. Qed.
Example TestElemEllipse_e2_copy : gives elem_near (elem_copy TestElemEllipse_e2)
  (ELeaf (EB "e2" (PenBrush (Some (Pen (Brush (CStr "red")) 0)) (Some (Brush (CStr "blue")))) true t_new) (SEllipse (P 0x1.0000000000000p+0 0x1.0000000000000p+1) (P 0x1.8000000000000p+1 (-0x1.0000000000000p+2)))) = true.
Proof. vm_compute. reflexivity. Qed.
Example TestElemEllipse_e2_path : gives (all2 (fun a b => all2 pair_near (p_points a) b)) (snd (elem_paths dc5 TestElemEllipse_e2 t_new))
  [[(0x1.8000000000000p+1, (-0x1.0000000000000p+0)); (0x1.7f936001a5514p+1, (-0x1.3efce9b160c8ap+0)); (0x1.7e531f4886f28p+1, (-0x1.7c92d6bd1afe4p+0)); (0x1.7c47acb78f671p+1, (-0x1.b88f2dd1af8a6p+0)); (0x1.79797731a9331p+1, (-0x1.f2bf559d9f577p+0)); (0x1.75f0ed99bed9bp+1, (-0x1.15785a67b5a75p+1)); (0x1.71b67ed2badedp+1, (-0x1.3078590aca2d3p+1)); (0x1.6cd299bf87c68p+1, (-0x1.4a465a0f4db24p+1)); (0x1.674dad431013ep+1, (-0x1.62c910cc80ab6p+1)); (0x1.613028403e4b0p+1, (-0x1.79e73099a38d9p+1)); (0x1.5a827999fcef3p+1, (-0x1.8f876ccdf6cdap+1)); (0x1.534d103336846p+1, (-0x1.a39078c0bae0bp+1)); (0x1.4b985aeed58e7p+1, (-0x1.b5e907c9303b9p+1)); (0x1.436cc8afc490cp+1, (-0x1.c677cd3e97536p+1)); (0x1.3ad2c858ee0f1p+1, (-0x1.d5237c78309cep+1)); (0x1.31d2c8cd3c8d2p+1, (-0x1.e1d2c8cd3c8d2p+1)); (0x1.287538ef9a8e8p+1, (-0x1.ec6c6594fb991p+1)); (0x1.1ec287a2f2970p+1, (-0x1.f4d70626ae357p+1)); (0x1.14c323ca2f2a6p+1, (-0x1.faf95dd994d78p+1)); (0x1.0a7f7c483acc2p+1, (-0x1.feba2004eff41p+1)); (0x1.0000000000000p+1, (-0x1.0000000000000p+2)); (0x1.eb01076f8a67bp+0, (-0x1.feba2004eff40p+1)); (0x1.d679b86ba1ab5p+0, (-0x1.faf95dd994d7ap+1)); (0x1.c27af0ba1ad1cp+0, (-0x1.f4d70626ae357p+1)); (0x1.af158e20cae31p+0, (-0x1.ec6c6594fb992p+1)); (0x1.9c5a6e6586e5dp+0, (-0x1.e1d2c8cd3c8d2p+1)); (0x1.8a5a6f4e23e1dp+0, (-0x1.d5237c78309ccp+1)); (0x1.79266ea076de9p+0, (-0x1.c677cd3e97536p+1)); (0x1.68cf4a2254e32p+0, (-0x1.b5e907c9303b9p+1)); (0x1.5965df9992f72p+0, (-0x1.a39078c0bae0cp+1)); (0x1.4afb0ccc0621ap+0, (-0x1.8f876ccdf6cdap+1)); (0x1.3d9faf7f836a4p+0, (-0x1.79e73099a38d7p+1)); (0x1.3164a579dfd85p+0, (-0x1.62c910cc80ab6p+1)); (0x1.265acc80f0732p+0, (-0x1.4a465a0f4db23p+1)); (0x1.1c93025a8a421p+0, (-0x1.3078590aca2d4p+1)); (0x1.141e24cc824cap+0, (-0x1.15785a67b5a75p+1)); (0x1.0d0d119cad9a0p+0, (-0x1.f2bf559d9f574p+0)); (0x1.0770a690e131bp+0, (-0x1.b88f2dd1af8a6p+0)); (0x1.0359c16ef21b0p+0, (-0x1.7c92d6bd1afe3p+0)); (0x1.00d93ffcb55d5p+0, (-0x1.3efce9b160c8cp+0)); (0x1.0000000000000p+0, (-0x1.0000000000000p+0)); (0x1.00d93ffcb55d5p+0, (-0x1.82062c9d3e6eap-1)); (0x1.0359c16ef21b1p+0, (-0x1.06da5285ca03bp-1)); (0x1.0770a690e131bp+0, (-0x1.1dc348b941d67p-2)); (0x1.0d0d119cad9a2p+0, (-0x1.a8154c4c15182p-5)); (0x1.141e24cc824cap+0, 0x1.5785a67b5a74cp-3); (0x1.1c93025a8a421p+0, 0x1.83c2c85651697p-2); (0x1.265acc80f0732p+0, 0x1.2919683d36c8bp-1); (0x1.3164a579dfd85p+0, 0x1.8b24433202ad4p-1); (0x1.3d9faf7f836a5p+0, 0x1.e79cc2668e35fp-1); (0x1.4afb0ccc0621ap+0, 0x1.1f0ed99bed9b3p+0); (0x1.5965df9992f71p+0, 0x1.4720f18175c16p+0); (0x1.68cf4a2254e31p+0, 0x1.6bd20f9260772p+0); (0x1.79266ea076de9p+0, 0x1.8cef9a7d2ea6cp+0); (0x1.8a5a6f4e23e1ep+0, 0x1.aa46f8f06139ap+0); (0x1.9c5a6e6586e5dp+0, 0x1.c3a5919a791a3p+0); (0x1.af158e20cae30p+0, 0x1.d8d8cb29f7320p+0); (0x1.c27af0ba1ad1dp+0, 0x1.e9ae0c4d5c6aep+0); (0x1.d679b86ba1ab5p+0, 0x1.f5f2bbb329af0p+0); (0x1.eb01076f8a67cp+0, 0x1.fd744009dfe81p+0); (0x1.0000000000000p+1, 0x1.0000000000000p+1); (0x1.0a7f7c483acc1p+1, 0x1.fd744009dfe81p+0); (0x1.14c323ca2f2a7p+1, 0x1.f5f2bbb329af3p+0); (0x1.1ec287a2f2970p+1, 0x1.e9ae0c4d5c6afp+0); (0x1.287538ef9a8eap+1, 0x1.d8d8cb29f7322p+0); (0x1.31d2c8cd3c8d2p+1, 0x1.c3a5919a791a3p+0); (0x1.3ad2c858ee0efp+1, 0x1.aa46f8f06139bp+0); (0x1.436cc8afc490bp+1, 0x1.8cef9a7d2ea6cp+0); (0x1.4b985aeed58e7p+1, 0x1.6bd20f9260772p+0); (0x1.534d103336849p+1, 0x1.4720f18175c16p+0); (0x1.5a827999fcef3p+1, 0x1.1f0ed99bed9b3p+0); (0x1.613028403e4aep+1, 0x1.e79cc2668e35bp-1); (0x1.674dad431013ep+1, 0x1.8b24433202ad4p-1); (0x1.6cd299bf87c68p+1, 0x1.2919683d36c8cp-1); (0x1.71b67ed2badeep+1, 0x1.83c2c85651699p-2); (0x1.75f0ed99bed9bp+1, 0x1.5785a67b5a74cp-3); (0x1.79797731a9331p+1, (-0x1.a8154c4c151a0p-5)); (0x1.7c47acb78f672p+1, (-0x1.1dc348b941d65p-2)); (0x1.7e531f4886f28p+1, (-0x1.06da5285ca03cp-1)); (0x1.7f936001a5516p+1, (-0x1.82062c9d3e6e9p-1)); (0x1.8000000000000p+1, (-0x1.0000000000000p+0))]] = true.
Proof. vm_compute. reflexivity. Qed.
Example TestElemEllipse_e2_transform : gives elem_near (snd (elem_transform TestElemEllipse_e2 rot_a))
  (ELeaf (EB "e2" (PenBrush (Some (Pen (Brush (CStr "red")) 0)) (Some (Brush (CStr "blue")))) true (t_new6 0x1.ffc64f5b36d46p-1 0x1.e60d3f09014bfp-6 0 (-0x1.e60d3f09014bfp-6) 0x1.ffc64f5b36d46p-1 0)) (SEllipse (P 0x1.075e84575ad99p+0 0x1.07a6a12556501p+1) (P 0x1.83af422bad6cbp+1 (-0x1.f8595edaa9affp+1)))) = true.
Proof. vm_compute. reflexivity. Qed.
Example TestElemEllipse_e2_iter_elems : gives (all2 yield_near) (iter_collect TestElemEllipse_e2 (Some "root") shift12) [("root.e2", TestElemEllipse_e2, shift12)] = true.
Proof. vm_compute. reflexivity. Qed.
Example TestElemEllipse_e2_moved : match snd (elem_transform TestElemEllipse_e2 rot_d) with Ok o => negb (elem_eqb TestElemEllipse_e2 o) | _ => false end = true.
Proof. vm_compute. reflexivity. Qed.

(* TestElemP1P2: r12 *)
Definition TestElemP1P2_r12 : elem float := (ELeaf (EB "r12" (PenBrush (Some (Pen (Brush (CStr "red")) 0)) (Some (Brush (CStr "blue")))) true t_new) (SRect (P 0x1.0000000000000p+0 (-0x1.0000000000000p+0)) (P (-0x1.8000000000000p+1) 0x1.0000000000000p+2))).
Example TestElemP1P2_r12_as_curves : gives (all2 elem_near) (elem_as_curves TestElemP1P2_r12)
  [(ELeaf (EB "r12" (PenBrush (Some (Pen (Brush (CStr "red")) 0)) (Some (Brush (CStr "blue")))) true t_new) (SCurve [(CP (P 0x1.0000000000000p+0 (-0x1.0000000000000p+0)) (V 0 0) (V 0 0) "smooth"); (CP (P 0x1.0000000000000p+0 0x1.0000000000000p+2) (V 0 0) (V 0 0) "smooth"); (CP (P (-0x1.8000000000000p+1) 0x1.0000000000000p+2) (V 0 0) (V 0 0) "smooth"); (CP (P (-0x1.8000000000000p+1) (-0x1.0000000000000p+0)) (V 0 0) (V 0 0) "smooth")]))] = true.
Proof. vm_compute. reflexivity. Qed.
Example TestElemP1P2_r12_as_digi_points : gives (all2 cp_near) (digi TestElemP1P2_r12)
  [(CP (P 0x1.0000000000000p+0 (-0x1.0000000000000p+0)) (V 0 0) (V 0 0) "smooth"); (CP (P 0x1.0000000000000p+0 0x1.0000000000000p+2) (V 0 0) (V 0 0) "smooth"); (CP (P (-0x1.8000000000000p+1) 0x1.0000000000000p+2) (V 0 0) (V 0 0) "smooth"); (CP (P (-0x1.8000000000000p+1) (-0x1.0000000000000p+0)) (V 0 0) (V 0 0) "smooth")] = true.
Proof. vm_compute. reflexivity. Qed.
Example TestElemP1P2_r12_bbox : gives bbox_near (elem_bbox TestElemP1P2_r12)
  (BB (-0x1.8000000000000p+1) (-0x1.0000000000000p+0) 0x1.0000000000000p+0 0x1.0000000000000p+2) = true.
Proof. vm_compute. reflexivity. Qed.
Example TestElemP1P2_r12_bbox_int : gives bbox_near (elem_bbox_int TestElemP1P2_r12)
  (BB (-0x1.8000000000000p+1) (-0x1.0000000000000p+0) 0x1.0000000000000p+0 0x1.0000000000000p+2) = true.
Proof. vm_compute. reflexivity. Qed.
Example TestElemP1P2_r12_control_path : gives (all2 cpath_pts) (snd (elem_control_paths (at_origin TestElemP1P2_r12) t_new))
  [[(P 0x1.0000000000000p+0 (-0x1.0000000000000p+0)); (P 0x1.0000000000000p+0 0x1.0000000000000p+2); (P (-0x1.8000000000000p+1) 0x1.0000000000000p+2); (P (-0x1.8000000000000p+1) (-0x1.0000000000000p+0))]] = true.
Proof. vm_compute. reflexivity. Qed.
Example TestElemP1P2_r12_control_path_sdc : gives (all2 cpath_pts) (snd (elem_control_paths TestElemP1P2_r12 t_new))
  [[(P 0x1.0000000000000p+0 (-0x1.0000000000000p+0)); (P 0x1.0000000000000p+0 0x1.0000000000000p+2); (P (-0x1.8000000000000p+1) 0x1.0000000000000p+2); (P (-0x1.8000000000000p+1) (-0x1.0000000000000p+0))]] = true.
Proof. vm_compute. reflexivity. Qed.
Example TestElemP1P2_r12_copy : gives elem_near (elem_copy TestElemP1P2_r12)
  (ELeaf (EB "r12" (PenBrush (Some (Pen (Brush (CStr "red")) 0)) (Some (Brush (CStr "blue")))) true t_new) (SRect (P 0x1.0000000000000p+0 (-0x1.0000000000000p+0)) (P (-0x1.8000000000000p+1) 0x1.0000000000000p+2))) = true.
Proof. vm_compute. reflexivity. Qed.
Example TestElemP1P2_r12_path : gives (all2 (fun a b => all2 pair_near (p_points a) b)) (snd (elem_paths dc5 TestElemP1P2_r12 t_new))
  [[(0x1.0000000000000p+0, (-0x1.0000000000000p+0)); (0x1.0000000000000p+0, 0x1.0000000000000p+2); ((-0x1.8000000000000p+1), 0x1.0000000000000p+2); ((-0x1.8000000000000p+1), (-0x1.0000000000000p+0)); (0x1.0000000000000p+0, (-0x1.0000000000000p+0))]] = true.
Proof. vm_compute. reflexivity. Qed.
Example TestElemP1P2_r12_transform : gives elem_near (snd (elem_transform TestElemP1P2_r12 rot_a))
  (ELeaf (EB "r12" (PenBrush (Some (Pen (Brush (CStr "red")) 0)) (Some (Brush (CStr "blue")))) true (t_new6 0x1.ffc64f5b36d46p-1 0x1.e60d3f09014bfp-6 0 (-0x1.e60d3f09014bfp-6) 0x1.ffc64f5b36d46p-1 0)) (SRect (P 0x1.075e84575ad99p+0 (-0x1.e1657b6aa6bfap-1)) (P (-0x1.7c50bdd452933p+1) 0x1.03d35092ab280p+2))) = true.
Proof. vm_compute. reflexivity. Qed.
Example TestElemP1P2_r12_iter_elems : gives (all2 yield_near) (iter_collect TestElemP1P2_r12 (Some "root") shift12) [("root.r12", TestElemP1P2_r12, shift12)] = true.
Proof. vm_compute. reflexivity. Qed.
Example TestElemP1P2_r12_moved : match snd (elem_transform TestElemP1P2_r12 rot_d) with Ok o => negb (elem_eqb TestElemP1P2_r12 o) | _ => false end = true.
Proof. vm_compute. reflexivity. Qed.

(* TestElemP1P2: e12 *)
Definition TestElemP1P2_e12 : elem float := (ELeaf (EB "e12" (PenBrush (Some (Pen (Brush (CStr "red")) 0)) (Some (Brush (CStr "blue")))) true t_new) (SEllipse (P 0x1.0000000000000p+0 0x1.0000000000000p+1) (P 0x1.8000000000000p+1 (-0x1.0000000000000p+2)))).
Example TestElemP1P2_e12_as_curves : gives (all2 elem_near) (elem_as_curves TestElemP1P2_e12)
  [(ELeaf (EB "e12" (PenBrush (Some (Pen (Brush (CStr "red")) 0)) (Some (Brush (CStr "blue")))) true t_new) (SCurve [(CP (P 0x1.8000000000000p+1 (-0x1.0000000000000p+0)) (V 0 0x1.a827999fcef33p+0) (V 0 (-0x1.a827999fcef34p+0)) "smooth"); (CP (P 0x1.0000000000000p+1 (-0x1.0000000000000p+2)) (V 0x1.1ac5111534a20p-1 0) (V (-0x1.1ac5111534a22p-1) 0) "smooth"); (CP (P 0x1.0000000000000p+0 (-0x1.0000000000000p+0)) (V 0 (-0x1.a827999fcef34p+0)) (V 0 0x1.a827999fcef33p+0) "smooth"); (CP (P 0x1.0000000000000p+1 0x1.0000000000000p+1) (V (-0x1.1ac5111534a22p-1) 0) (V 0x1.1ac5111534a20p-1 0) "smooth")]))] = true.
Proof. vm_compute. reflexivity. Qed.
Example TestElemP1P2_e12_as_digi_points : gives (all2 cp_near) (digi TestElemP1P2_e12)
  [(CP (P 0x1.8000000000000p+1 (-0x1.0000000000000p+0)) (V 0 0x1.a827999fcef33p+0) (V 0 (-0x1.a827999fcef33p+0)) "smooth"); (CP (P 0x1.0000000000000p+1 (-0x1.0000000000000p+2)) (V 0x1.1ac5111534a22p-1 0) (V (-0x1.1ac5111534a22p-1) 0) "smooth"); (CP (P 0x1.0000000000000p+0 (-0x1.0000000000000p+0)) (V 0 (-0x1.a827999fcef33p+0)) (V 0 0x1.a827999fcef33p+0) "smooth"); (CP (P 0x1.0000000000000p+1 0x1.0000000000000p+1) (V (-0x1.1ac5111534a22p-1) 0) (V 0x1.1ac5111534a22p-1 0) "smooth")] = true.
Proof. vm_compute. reflexivity. Qed.
Example TestElemP1P2_e12_bbox : gives bbox_near (elem_bbox TestElemP1P2_e12)
  (BB 0x1.0000000000000p+0 (-0x1.0000000000000p+2) 0x1.8000000000000p+1 0x1.0000000000000p+1) = true.
Proof. vm_compute. reflexivity. Qed.
Example TestElemP1P2_e12_bbox_int : gives bbox_near (elem_bbox_int TestElemP1P2_e12)
  (BB 0x1.0000000000000p+0 (-0x1.0000000000000p+2) 0x1.8000000000000p+1 0x1.0000000000000p+1) = true.
Proof. vm_compute. reflexivity. Qed.
Example TestElemP1P2_e12_control_path : gives (all2 cpath_cps) (snd (elem_control_paths (at_origin TestElemP1P2_e12) t_new))
  [[(CP (P 0x1.8000000000000p+1 (-0x1.0000000000000p+0)) (V 0 0x1.a827999fcef33p+0) (V 0 (-0x1.a827999fcef34p+0)) "smooth"); (CP (P 0x1.0000000000000p+1 (-0x1.0000000000000p+2)) (V 0x1.1ac5111534a20p-1 0) (V (-0x1.1ac5111534a22p-1) 0) "smooth"); (CP (P 0x1.0000000000000p+0 (-0x1.0000000000000p+0)) (V 0 (-0x1.a827999fcef34p+0)) (V 0 0x1.a827999fcef33p+0) "smooth"); (CP (P 0x1.0000000000000p+1 0x1.0000000000000p+1) (V (-0x1.1ac5111534a22p-1) 0) (V 0x1.1ac5111534a20p-1 0) "smooth")]] = true.
Proof. vm_compute. reflexivity. Qed.
Example TestElemP1P2_e12_control_path_sdc : gives (all2 cpath_cps) (snd (elem_control_paths TestElemP1P2_e12 t_new))
  [[(CP (P 0x1.8000000000000p+1 (-0x1.0000000000000p+0)) (V 0 0x1.a827999fcef33p+0) (V 0 (-0x1.a827999fcef34p+0)) "smooth"); (CP (P 0x1.0000000000000p+1 (-0x1.0000000000000p+2)) (V 0x1.1ac5111534a20p-1 0) (V (-0x1.1ac5111534a22p-1) 0) "smooth"); (CP (P 0x1.0000000000000p+0 (-0x1.0000000000000p+0)) (V 0 (-0x1.a827999fcef34p+0)) (V 0 0x1.a827999fcef33p+0) "smooth"); (CP (P 0x1.0000000000000p+1 0x1.0000000000000p+1) (V (-0x1.1ac5111534a22p-1) 0) (V 0x1.1ac5111534a20p-1 0) "smooth")]] = true.
Proof. vm_compute. reflexivity. Qed.
Example TestElemP1P2_e12_copy : gives elem_near (elem_copy TestElemP1P2_e12)
  (ELeaf (EB "e12" (PenBrush (Some (Pen (Brush (CStr "red")) 0)) (Some (Brush (CStr "blue")))) true t_new) (SEllipse (P 0x1.0000000000000p+0 0x1.0000000000000p+1) (P 0x1.8000000000000p+1 (-0x1.0000000000000p+2)))) = true.
Proof. vm_compute. reflexivity. Qed.
Example TestElemP1P2_e12_path : gives (all2 (fun a b => all2 pair_near (p_points a) b)) (snd (elem_paths dc5 TestElemP1P2_e12 t_new))
  [[(0x1.8000000000000p+1, (-0x1.0000000000000p+0)); (0x1.7f936001a5514p+1, (-0x1.3efce9b160c8ap+0)); (0x1.7e531f4886f28p+1, (-0x1.7c92d6bd1afe4p+0)); (0x1.7c47acb78f671p+1, (-0x1.b88f2dd1af8a6p+0)); (0x1.79797731a9331p+1, (-0x1.f2bf559d9f577p+0)); (0x1.75f0ed99bed9bp+1, (-0x1.15785a67b5a75p+1)); (0x1.71b67ed2badedp+1, (-0x1.3078590aca2d3p+1)); (0x1.6cd299bf87c68p+1, (-0x1.4a465a0f4db24p+1)); (0x1.674dad431013ep+1, (-0x1.62c910cc80ab6p+1)); (0x1.613028403e4b0p+1, (-0x1.79e73099a38d9p+1)); (0x1.5a827999fcef3p+1, (-0x1.8f876ccdf6cdap+1)); (0x1.534d103336846p+1, (-0x1.a39078c0bae0bp+1)); (0x1.4b985aeed58e7p+1, (-0x1.b5e907c9303b9p+1)); (0x1.436cc8afc490cp+1, (-0x1.c677cd3e97536p+1)); (0x1.3ad2c858ee0f1p+1, (-0x1.d5237c78309cep+1)); (0x1.31d2c8cd3c8d2p+1, (-0x1.e1d2c8cd3c8d2p+1)); (0x1.287538ef9a8e8p+1, (-0x1.ec6c6594fb991p+1)); (0x1.1ec287a2f2970p+1, (-0x1.f4d70626ae357p+1)); (0x1.14c323ca2f2a6p+1, (-0x1.faf95dd994d78p+1)); (0x1.0a7f7c483acc2p+1, (-0x1.feba2004eff41p+1)); (0x1.0000000000000p+1, (-0x1.0000000000000p+2)); (0x1.eb01076f8a67bp+0, (-0x1.feba2004eff40p+1)); (0x1.d679b86ba1ab5p+0, (-0x1.faf95dd994d7ap+1)); (0x1.c27af0ba1ad1cp+0, (-0x1.f4d70626ae357p+1)); (0x1.af158e20cae31p+0, (-0x1.ec6c6594fb992p+1)); (0x1.9c5a6e6586e5dp+0, (-0x1.e1d2c8cd3c8d2p+1)); (0x1.8a5a6f4e23e1dp+0, (-0x1.d5237c78309ccp+1)); (0x1.79266ea076de9p+0, (-0x1.c677cd3e97536p+1)); (0x1.68cf4a2254e32p+0, (-0x1.b5e907c9303b9p+1)); (0x1.5965df9992f72p+0, (-0x1.a39078c0bae0cp+1)); (0x1.4afb0ccc0621ap+0, (-0x1.8f876ccdf6cdap+1)); (0x1.3d9faf7f836a4p+0, (-0x1.79e73099a38d7p+1)); (0x1.3164a579dfd85p+0, (-0x1.62c910cc80ab6p+1)); (0x1.265acc80f0732p+0, (-0x1.4a465a0f4db23p+1)); (0x1.1c93025a8a421p+0, (-0x1.3078590aca2d4p+1)); (0x1.141e24cc824cap+0, (-0x1.15785a67b5a75p+1)); (0x1.0d0d119cad9a0p+0, (-0x1.f2bf559d9f574p+0)); (0x1.0770a690e131bp+0, (-0x1.b88f2dd1af8a6p+0)); (0x1.0359c16ef21b0p+0, (-0x1.7c92d6bd1afe3p+0)); (0x1.00d93ffcb55d5p+0, (-0x1.3efce9b160c8cp+0)); (0x1.0000000000000p+0, (-0x1.0000000000000p+0)); (0x1.00d93ffcb55d5p+0, (-0x1.82062c9d3e6eap-1)); (0x1.0359c16ef21b1p+0, (-0x1.06da5285ca03bp-1)); (0x1.0770a690e131bp+0, (-0x1.1dc348b941d67p-2)); (0x1.0d0d119cad9a2p+0, (-0x1.a8154c4c15182p-5)); (0x1.141e24cc824cap+0, 0x1.5785a67b5a74cp-3); (0x1.1c93025a8a421p+0, 0x1.83c2c85651697p-2); (0x1.265acc80f0732p+0, 0x1.2919683d36c8bp-1); (0x1.3164a579dfd85p+0, 0x1.8b24433202ad4p-1); (0x1.3d9faf7f836a5p+0, 0x1.e79cc2668e35fp-1); (0x1.4afb0ccc0621ap+0, 0x1.1f0ed99bed9b3p+0); (0x1.5965df9992f71p+0, 0x1.4720f18175c16p+0); (0x1.68cf4a2254e31p+0, 0x1.6bd20f9260772p+0); (0x1.79266ea076de9p+0, 0x1.8cef9a7d2ea6cp+0); (0x1.8a5a6f4e23e1ep+0, 0x1.aa46f8f06139ap+0); (0x1.9c5a6e6586e5dp+0, 0x1.c3a5919a791a3p+0); (0x1.af158e20cae30p+0, 0x1.d8d8cb29f7320p+0); (0x1.c27af0ba1ad1dp+0, 0x1.e9ae0c4d5c6aep+0); (0x1.d679b86ba1ab5p+0, 0x1.f5f2bbb329af0p+0); (0x1.eb01076f8a67cp+0, 0x1.fd744009dfe81p+0); (0x1.0000000000000p+1, 0x1.0000000000000p+1); (0x1.0a7f7c483acc1p+1, 0x1.fd744009dfe81p+0); (0x1.14c323ca2f2a7p+1, 0x1.f5f2bbb329af3p+0); (0x1.1ec287a2f2970p+1, 0x1.e9ae0c4d5c6afp+0); (0x1.287538ef9a8eap+1, 0x1.d8d8cb29f7322p+0); (0x1.31d2c8cd3c8d2p+1, 0x1.c3a5919a791a3p+0); (0x1.3ad2c858ee0efp+1, 0x1.aa46f8f06139bp+0); (0x1.436cc8afc490bp+1, 0x1.8cef9a7d2ea6cp+0); (0x1.4b985aeed58e7p+1, 0x1.6bd20f9260772p+0); (0x1.534d103336849p+1, 0x1.4720f18175c16p+0); (0x1.5a827999fcef3p+1, 0x1.1f0ed99bed9b3p+0); (0x1.613028403e4aep+1, 0x1.e79cc2668e35bp-1); (0x1.674dad431013ep+1, 0x1.8b24433202ad4p-1); (0x1.6cd299bf87c68p+1, 0x1.2919683d36c8cp-1); (0x1.71b67ed2badeep+1, 0x1.83c2c85651699p-2); (0x1.75f0ed99bed9bp+1, 0x1.5785a67b5a74cp-3); (0x1.79797731a9331p+1, (-0x1.a8154c4c151a0p-5)); (0x1.7c47acb78f672p+1, (-0x1.1dc348b941d65p-2)); (0x1.7e531f4886f28p+1, (-0x1.06da5285ca03cp-1)); (0x1.7f936001a5516p+1, (-0x1.82062c9d3e6e9p-1)); (0x1.8000000000000p+1, (-0x1.0000000000000p+0))]] = true.
Proof. vm_compute. reflexivity. Qed.
Example TestElemP1P2_e12_transform : gives elem_near (snd (elem_transform TestElemP1P2_e12 rot_a))
  (ELeaf (EB "e12" (PenBrush (Some (Pen (Brush (CStr "red")) 0)) (Some (Brush (CStr "blue")))) true (t_new6 0x1.ffc64f5b36d46p-1 0x1.e60d3f09014bfp-6 0 (-0x1.e60d3f09014bfp-6) 0x1.ffc64f5b36d46p-1 0)) (SEllipse (P 0x1.075e84575ad99p+0 0x1.07a6a12556501p+1) (P 0x1.83af422bad6cbp+1 (-0x1.f8595edaa9affp+1)))) = true.
Proof. vm_compute. reflexivity. Qed.
Example TestElemP1P2_e12_iter_elems : gives (all2 yield_near) (iter_collect TestElemP1P2_e12 (Some "root") shift12) [("root.e12", TestElemP1P2_e12, shift12)] = true.
Proof. vm_compute. reflexivity. Qed.
Example TestElemP1P2_e12_moved : match snd (elem_transform TestElemP1P2_e12 rot_d) with Ok o => negb (elem_eqb TestElemP1P2_e12 o) | _ => false end = true.
Proof. vm_compute. reflexivity. Qed.

(* TestElemRectangle: r1 *)
Definition TestElemRectangle_r1 : elem float := (ELeaf (EB "r1" (PenBrush (Some (Pen (Brush (CStr "red")) 0)) (Some (Brush (CStr "blue")))) true t_new) (SRect (P 0x1.0000000000000p+0 (-0x1.0000000000000p+0)) (P (-0x1.8000000000000p+1) 0x1.0000000000000p+2))).
Example TestElemRectangle_r1_as_curves : gives (all2 elem_near) (elem_as_curves TestElemRectangle_r1)
  [(ELeaf (EB "r1" (PenBrush (Some (Pen (Brush (CStr "red")) 0)) (Some (Brush (CStr "blue")))) true t_new) (SCurve [(CP (P 0x1.0000000000000p+0 (-0x1.0000000000000p+0)) (V 0 0) (V 0 0) "smooth"); (CP (P 0x1.0000000000000p+0 0x1.0000000000000p+2) (V 0 0) (V 0 0) "smooth"); (CP (P (-0x1.8000000000000p+1) 0x1.0000000000000p+2) (V 0 0) (V 0 0) "smooth"); (CP (P (-0x1.8000000000000p+1) (-0x1.0000000000000p+0)) (V 0 0) (V 0 0) "smooth")]))] = true.
Proof. vm_compute. reflexivity. Qed.
Example TestElemRectangle_r1_as_digi_points : gives (all2 cp_near) (digi TestElemRectangle_r1)
  [(CP (P 0x1.0000000000000p+0 (-0x1.0000000000000p+0)) (V 0 0) (V 0 0) "smooth"); (CP (P 0x1.0000000000000p+0 0x1.0000000000000p+2) (V 0 0) (V 0 0) "smooth"); (CP (P (-0x1.8000000000000p+1) 0x1.0000000000000p+2) (V 0 0) (V 0 0) "smooth"); (CP (P (-0x1.8000000000000p+1) (-0x1.0000000000000p+0)) (V 0 0) (V 0 0) "smooth")] = true.
Proof. vm_compute. reflexivity. Qed.
Example TestElemRectangle_r1_bbox : gives bbox_near (elem_bbox TestElemRectangle_r1)
  (BB (-0x1.8000000000000p+1) (-0x1.0000000000000p+0) 0x1.0000000000000p+0 0x1.0000000000000p+2) = true.
Proof. vm_compute. reflexivity. Qed.
Example TestElemRectangle_r1_bbox_int : gives bbox_near (elem_bbox_int TestElemRectangle_r1)
  (BB (-0x1.8000000000000p+1) (-0x1.0000000000000p+0) 0x1.0000000000000p+0 0x1.0000000000000p+2) = true.
Proof. vm_compute. reflexivity. Qed.
Example TestElemRectangle_r1_control_path : gives (all2 cpath_pts) (snd (elem_control_paths (at_origin TestElemRectangle_r1) t_new))
  [[(P 0x1.0000000000000p+0 (-0x1.0000000000000p+0)); (P 0x1.0000000000000p+0 0x1.0000000000000p+2); (P (-0x1.8000000000000p+1) 0x1.0000000000000p+2); (P (-0x1.8000000000000p+1) (-0x1.0000000000000p+0))]] = true.
Proof. vm_compute. reflexivity. Qed.
Example TestElemRectangle_r1_control_path_sdc : gives (all2 cpath_pts) (snd (elem_control_paths TestElemRectangle_r1 t_new))
  [[(P 0x1.0000000000000p+0 (-0x1.0000000000000p+0)); (P 0x1.0000000000000p+0 0x1.0000000000000p+2); (P (-0x1.8000000000000p+1) 0x1.0000000000000p+2); (P (-0x1.8000000000000p+1) (-0x1.0000000000000p+0))]] = true.
Proof. vm_compute. reflexivity. Qed.
Example TestElemRectangle_r1_copy : gives elem_near (elem_copy TestElemRectangle_r1)
  (ELeaf (EB "r1" (PenBrush (Some (Pen (Brush (CStr "red")) 0)) (Some (Brush (CStr "blue")))) true t_new) (SRect (P 0x1.0000000000000p+0 (-0x1.0000000000000p+0)) (P (-0x1.8000000000000p+1) 0x1.0000000000000p+2))) = true.
Proof. vm_compute. reflexivity. Qed.
Example TestElemRectangle_r1_path : gives (all2 (fun a b => all2 pair_near (p_points a) b)) (snd (elem_paths dc5 TestElemRectangle_r1 t_new))
  [[(0x1.0000000000000p+0, (-0x1.0000000000000p+0)); (0x1.0000000000000p+0, 0x1.0000000000000p+2); ((-0x1.8000000000000p+1), 0x1.0000000000000p+2); ((-0x1.8000000000000p+1), (-0x1.0000000000000p+0)); (0x1.0000000000000p+0, (-0x1.0000000000000p+0))]] = true.
Proof. vm_compute. reflexivity. Qed.
Example TestElemRectangle_r1_transform : gives elem_near (snd (elem_transform TestElemRectangle_r1 rot_a))
  (ELeaf (EB "r1" (PenBrush (Some (Pen (Brush (CStr "red")) 0)) (Some (Brush (CStr "blue")))) true (t_new6 0x1.ffc64f5b36d46p-1 0x1.e60d3f09014bfp-6 0 (-0x1.e60d3f09014bfp-6) 0x1.ffc64f5b36d46p-1 0)) (SRect (P 0x1.075e84575ad99p+0 (-0x1.e1657b6aa6bfap-1)) (P (-0x1.7c50bdd452933p+1) 0x1.03d35092ab280p+2))) = true.
Proof. vm_compute. reflexivity. Qed.
Example TestElemRectangle_r1_iter_elems : gives (all2 yield_near) (iter_collect TestElemRectangle_r1 (Some "root") shift12) [("root.r1", TestElemRectangle_r1, shift12)] = true.
Proof. vm_compute. reflexivity. Qed.
Example TestElemRectangle_r1_moved : match snd (elem_transform TestElemRectangle_r1 rot_d) with Ok o => negb (elem_eqb TestElemRectangle_r1 o) | _ => false end = true.
Proof. vm_compute. reflexivity. Qed.

(* TestElemRectangle: r2 *)
Definition TestElemRectangle_r2 : elem float := (ELeaf (EB "r2" (PenBrush (Some (Pen (Brush (CStr "red")) 0)) (Some (Brush (CStr "blue")))) true t_new) (SRect (P 0x1.0000000000000p+0 0x1.0000000000000p+1) (P 0x1.8000000000000p+1 (-0x1.0000000000000p+2)))).
Example TestElemRectangle_r2_as_curves : gives (all2 elem_near) (elem_as_curves TestElemRectangle_r2)
  [(ELeaf (EB "r2" (PenBrush (Some (Pen (Brush (CStr "red")) 0)) (Some (Brush (CStr "blue")))) true t_new) (SCurve [(CP (P 0x1.0000000000000p+0 0x1.0000000000000p+1) (V 0 0) (V 0 0) "smooth"); (CP (P 0x1.0000000000000p+0 (-0x1.0000000000000p+2)) (V 0 0) (V 0 0) "smooth"); (CP (P 0x1.8000000000000p+1 (-0x1.0000000000000p+2)) (V 0 0) (V 0 0) "smooth"); (CP (P 0x1.8000000000000p+1 0x1.0000000000000p+1) (V 0 0) (V 0 0) "smooth")]))] = true.
Proof. vm_compute. reflexivity. Qed.
Example TestElemRectangle_r2_as_digi_points : gives (all2 cp_near) (digi TestElemRectangle_r2)
  [(CP (P 0x1.0000000000000p+0 0x1.0000000000000p+1) (V 0 0) (V 0 0) "smooth"); (CP (P 0x1.0000000000000p+0 (-0x1.0000000000000p+2)) (V 0 0) (V 0 0) "smooth"); (CP (P 0x1.8000000000000p+1 (-0x1.0000000000000p+2)) (V 0 0) (V 0 0) "smooth"); (CP (P 0x1.8000000000000p+1 0x1.0000000000000p+1) (V 0 0) (V 0 0) "smooth")] = true.
Proof. vm_compute. reflexivity. Qed.
Example TestElemRectangle_r2_bbox : gives bbox_near (elem_bbox TestElemRectangle_r2)
  (BB 0x1.0000000000000p+0 (-0x1.0000000000000p+2) 0x1.8000000000000p+1 0x1.0000000000000p+1) = true.
Proof. vm_compute. reflexivity. Qed.
Example TestElemRectangle_r2_bbox_int : gives bbox_near (elem_bbox_int TestElemRectangle_r2)
  (BB 0x1.0000000000000p+0 (-0x1.0000000000000p+2) 0x1.8000000000000p+1 0x1.0000000000000p+1) = true.
Proof. vm_compute. reflexivity. Qed.
Example TestElemRectangle_r2_control_path : gives (all2 cpath_pts) (snd (elem_control_paths (at_origin TestElemRectangle_r2) t_new))
  [[(P 0x1.0000000000000p+0 0x1.0000000000000p+1); (P 0x1.0000000000000p+0 (-0x1.0000000000000p+2)); (P 0x1.8000000000000p+1 (-0x1.0000000000000p+2)); (P 0x1.8000000000000p+1 0x1.0000000000000p+1)]] = true.
Proof. vm_compute. reflexivity. Qed.
Example TestElemRectangle_r2_control_path_sdc : gives (all2 cpath_pts) (snd (elem_control_paths TestElemRectangle_r2 t_new))
  [[(P 0x1.0000000000000p+0 0x1.0000000000000p+1); (P 0x1.0000000000000p+0 (-0x1.0000000000000p+2)); (P 0x1.8000000000000p+1 (-0x1.0000000000000p+2)); (P 0x1.8000000000000p+1 0x1.0000000000000p+1)]] = true.
Proof. vm_compute. reflexivity. Qed.
Example TestElemRectangle_r2_copy : gives elem_near (elem_copy TestElemRectangle_r2)
  (ELeaf (EB "r2" (PenBrush (Some (Pen (Brush (CStr "red")) 0)) (Some (Brush (CStr "blue")))) true t_new) (SRect (P 0x1.0000000000000p+0 0x1.0000000000000p+1) (P 0x1.8000000000000p+1 (-0x1.0000000000000p+2)))) = true.
Proof. vm_compute. reflexivity. Qed.
Example TestElemRectangle_r2_path : gives (all2 (fun a b => all2 pair_near (p_points a) b)) (snd (elem_paths dc5 TestElemRectangle_r2 t_new))
  [[(0x1.0000000000000p+0, 0x1.0000000000000p+1); (0x1.0000000000000p+0, (-0x1.0000000000000p+2)); (0x1.8000000000000p+1, (-0x1.0000000000000p+2)); (0x1.8000000000000p+1, 0x1.0000000000000p+1); (0x1.0000000000000p+0, 0x1.0000000000000p+1)]] = true.
Proof. vm_compute. reflexivity. Qed.
Example TestElemRectangle_r2_transform : gives elem_near (snd (elem_transform TestElemRectangle_r2 rot_a))
  (ELeaf (EB "r2" (PenBrush (Some (Pen (Brush (CStr "red")) 0)) (Some (Brush (CStr "blue")))) true (t_new6 0x1.ffc64f5b36d46p-1 0x1.e60d3f09014bfp-6 0 (-0x1.e60d3f09014bfp-6) 0x1.ffc64f5b36d46p-1 0)) (SRect (P 0x1.075e84575ad99p+0 0x1.07a6a12556501p+1) (P 0x1.83af422bad6cbp+1 (-0x1.f8595edaa9affp+1)))) = true.
Proof. vm_compute. reflexivity. Qed.
Example TestElemRectangle_r2_iter_elems : gives (all2 yield_near) (iter_collect TestElemRectangle_r2 (Some "root") shift12) [("root.r2", TestElemRectangle_r2, shift12)] = true.
Proof. vm_compute. reflexivity. Qed.
Example TestElemRectangle_r2_moved : match snd (elem_transform TestElemRectangle_r2 rot_d) with Ok o => negb (elem_eqb TestElemRectangle_r2 o) | _ => false end = true.
Proof. vm_compute. reflexivity. Qed.

(* TestElemRectangleRounded: rr1 *)
Definition TestElemRectangleRounded_rr1 : elem float := (ELeaf (EB "rr1" (PenBrush (Some (Pen (Brush (CStr "red")) 0)) (Some (Brush (CStr "blue")))) true t_new) (SRRect (P 0x1.0000000000000p+0 (-0x1.0000000000000p+0)) (P (-0x1.8000000000000p+1) 0x1.0000000000000p+2) 0x1.999999999999ap-3)).
Example TestElemRectangleRounded_rr1_as_curves : gives (all2 elem_near) (elem_as_curves TestElemRectangleRounded_rr1)
  [(ELeaf (EB "rr1" (PenBrush (Some (Pen (Brush (CStr "red")) 0)) (Some (Brush (CStr "blue")))) true t_new) (SCurve [(CP (P 0x1.0000000000000p+0 (-0x1.999999999999ap-1)) (V 0 (-0x1.c46e81bb876a0p-4)) (V 0 0x1.c46e81bb876a0p-4) "smooth"); (CP (P 0x1.0000000000000p+0 0x1.e666666666666p+1) (V 0 (-0x1.c46e81bb876a0p-4)) (V 0 0x1.c46e81bb876a0p-4) "smooth"); (CP (P 0x1.999999999999ap-1 0x1.0000000000000p+2) (V 0x1.c46e81bb876a0p-4 0) (V (-0x1.c46e81bb876a0p-4) 0) "smooth"); (CP (P (-0x1.6666666666666p+1) 0x1.0000000000000p+2) (V 0x1.c46e81bb876a0p-4 0) (V (-0x1.c46e81bb876a0p-4) 0) "smooth"); (CP (P (-0x1.8000000000000p+1) 0x1.e666666666666p+1) (V 0 0x1.c46e81bb876a0p-4) (V 0 (-0x1.c46e81bb876a0p-4)) "smooth"); (CP (P (-0x1.8000000000000p+1) (-0x1.999999999999ap-1)) (V 0 0x1.c46e81bb876a0p-4) (V 0 (-0x1.c46e81bb876a0p-4)) "smooth"); (CP (P (-0x1.6666666666666p+1) (-0x1.0000000000000p+0)) (V (-0x1.c46e81bb876a0p-4) 0) (V 0x1.c46e81bb876a0p-4 0) "smooth"); (CP (P 0x1.999999999999ap-1 (-0x1.0000000000000p+0)) (V (-0x1.c46e81bb876a0p-4) 0) (V 0x1.c46e81bb876a0p-4 0) "smooth")]))] = true.
Proof. vm_compute. reflexivity. Qed.
Example TestElemRectangleRounded_rr1_as_digi_points : gives (all2 cp_near) (digi TestElemRectangleRounded_rr1)
  [(CP (P 0x1.0000000000000p+0 (-0x1.999999999999ap-1)) (V 0 (-0x1.c46e81bb8769dp-4)) (V 0 0x1.c46e81bb8769dp-4) "smooth"); (CP (P 0x1.0000000000000p+0 0x1.e666666666666p+1) (V 0 (-0x1.c46e81bb8769dp-4)) (V 0 0x1.c46e81bb8769dp-4) "smooth"); (CP (P 0x1.999999999999ap-1 0x1.0000000000000p+2) (V 0x1.c46e81bb8769dp-4 0) (V (-0x1.c46e81bb8769dp-4) 0) "smooth"); (CP (P (-0x1.6666666666666p+1) 0x1.0000000000000p+2) (V 0x1.c46e81bb8769dp-4 0) (V (-0x1.c46e81bb8769dp-4) 0) "smooth"); (CP (P (-0x1.8000000000000p+1) 0x1.e666666666666p+1) (V 0 0x1.c46e81bb8769dp-4) (V 0 (-0x1.c46e81bb8769dp-4)) "smooth"); (CP (P (-0x1.8000000000000p+1) (-0x1.999999999999ap-1)) (V 0 0x1.c46e81bb8769dp-4) (V 0 (-0x1.c46e81bb8769dp-4)) "smooth"); (CP (P (-0x1.6666666666666p+1) (-0x1.0000000000000p+0)) (V (-0x1.c46e81bb8769dp-4) 0) (V 0x1.c46e81bb8769dp-4 0) "smooth"); (CP (P 0x1.999999999999ap-1 (-0x1.0000000000000p+0)) (V (-0x1.c46e81bb8769dp-4) 0) (V 0x1.c46e81bb8769dp-4 0) "smooth")] = true.
Proof. vm_compute. reflexivity. Qed.
Example TestElemRectangleRounded_rr1_bbox : gives bbox_near (elem_bbox TestElemRectangleRounded_rr1)
  (BB (-0x1.8000000000000p+1) (-0x1.0000000000000p+0) 0x1.0000000000000p+0 0x1.0000000000000p+2) = true.
Proof. vm_compute. reflexivity. Qed.
Example TestElemRectangleRounded_rr1_bbox_int : gives bbox_near (elem_bbox_int TestElemRectangleRounded_rr1)
  (BB (-0x1.8000000000000p+1) (-0x1.0000000000000p+0) 0x1.0000000000000p+0 0x1.0000000000000p+2) = true.
Proof. vm_compute. reflexivity. Qed.
Example TestElemRectangleRounded_rr1_control_path : gives (all2 cpath_cps) (snd (elem_control_paths (at_origin TestElemRectangleRounded_rr1) t_new))
  [[(CP (P 0x1.0000000000000p+0 (-0x1.999999999999ap-1)) (V 0 (-0x1.c46e81bb876a0p-4)) (V 0 0x1.c46e81bb876a0p-4) "smooth"); (CP (P 0x1.0000000000000p+0 0x1.e666666666666p+1) (V 0 (-0x1.c46e81bb876a0p-4)) (V 0 0x1.c46e81bb876a0p-4) "smooth"); (CP (P 0x1.999999999999ap-1 0x1.0000000000000p+2) (V 0x1.c46e81bb876a0p-4 0) (V (-0x1.c46e81bb876a0p-4) 0) "smooth"); (CP (P (-0x1.6666666666666p+1) 0x1.0000000000000p+2) (V 0x1.c46e81bb876a0p-4 0) (V (-0x1.c46e81bb876a0p-4) 0) "smooth"); (CP (P (-0x1.8000000000000p+1) 0x1.e666666666666p+1) (V 0 0x1.c46e81bb876a0p-4) (V 0 (-0x1.c46e81bb876a0p-4)) "smooth"); (CP (P (-0x1.8000000000000p+1) (-0x1.999999999999ap-1)) (V 0 0x1.c46e81bb876a0p-4) (V 0 (-0x1.c46e81bb876a0p-4)) "smooth"); (CP (P (-0x1.6666666666666p+1) (-0x1.0000000000000p+0)) (V (-0x1.c46e81bb876a0p-4) 0) (V 0x1.c46e81bb876a0p-4 0) "smooth"); (CP (P 0x1.999999999999ap-1 (-0x1.0000000000000p+0)) (V (-0x1.c46e81bb876a0p-4) 0) (V 0x1.c46e81bb876a0p-4 0) "smooth")]] = true.
Proof. vm_compute. reflexivity. Qed.
Example TestElemRectangleRounded_rr1_control_path_sdc : gives (all2 cpath_cps) (snd (elem_control_paths TestElemRectangleRounded_rr1 t_new))
  [[(CP (P 0x1.0000000000000p+0 (-0x1.999999999999ap-1)) (V 0 (-0x1.c46e81bb876a0p-4)) (V 0 0x1.c46e81bb876a0p-4) "smooth"); (CP (P 0x1.0000000000000p+0 0x1.e666666666666p+1) (V 0 (-0x1.c46e81bb876a0p-4)) (V 0 0x1.c46e81bb876a0p-4) "smooth"); (CP (P 0x1.999999999999ap-1 0x1.0000000000000p+2) (V 0x1.c46e81bb876a0p-4 0) (V (-0x1.c46e81bb876a0p-4) 0) "smooth"); (CP (P (-0x1.6666666666666p+1) 0x1.0000000000000p+2) (V 0x1.c46e81bb876a0p-4 0) (V (-0x1.c46e81bb876a0p-4) 0) "smooth"); (CP (P (-0x1.8000000000000p+1) 0x1.e666666666666p+1) (V 0 0x1.c46e81bb876a0p-4) (V 0 (-0x1.c46e81bb876a0p-4)) "smooth"); (CP (P (-0x1.8000000000000p+1) (-0x1.999999999999ap-1)) (V 0 0x1.c46e81bb876a0p-4) (V 0 (-0x1.c46e81bb876a0p-4)) "smooth"); (CP (P (-0x1.6666666666666p+1) (-0x1.0000000000000p+0)) (V (-0x1.c46e81bb876a0p-4) 0) (V 0x1.c46e81bb876a0p-4 0) "smooth"); (CP (P 0x1.999999999999ap-1 (-0x1.0000000000000p+0)) (V (-0x1.c46e81bb876a0p-4) 0) (V 0x1.c46e81bb876a0p-4 0) "smooth")]] = true.
Proof. vm_compute. reflexivity. Qed.
Example TestElemRectangleRounded_rr1_copy : gives elem_near (elem_copy TestElemRectangleRounded_rr1)
  (ELeaf (EB "rr1" (PenBrush (Some (Pen (Brush (CStr "red")) 0)) (Some (Brush (CStr "blue")))) true t_new) (SRRect (P 0x1.0000000000000p+0 (-0x1.0000000000000p+0)) (P (-0x1.8000000000000p+1) 0x1.0000000000000p+2) 0x1.999999999999ap-3)) = true.
Proof. vm_compute. reflexivity. Qed.
Example TestElemRectangleRounded_rr1_path : gives (all2 (fun a b => all2 pair_near (p_points a) b)) (snd (elem_paths dc5 TestElemRectangleRounded_rr1 t_new))
  [[(0x1.0000000000000p+0, (-0x1.999999999999ap-1)); (0x1.0000000000000p+0, (-0x1.814591b99b420p-1)); (0x1.0000000000001p+0, (-0x1.4b7051977482ap-1)); (0x1.fffffffffffffp-1, (-0x1.f6c230ade1ea4p-2)); (0x1.0000000000001p+0, (-0x1.28be4a37b866bp-2)); (0x1.0000000000000p+0, (-0x1.9b1b70a01d6dap-5)); (0x1.fffffffffffffp-1, 0x1.c57fcaeb4a197p-3); (0x1.0000000000000p+0, 0x1.098e990ed54a7p-1); (0x1.0000000000000p+0, 0x1.ab92fcce3adc4p-1); (0x1.0000000000000p+0, 0x1.2a12ef6a9bd0ap+0); (0x1.0000000000000p+0, 0x1.8000000000000p+0); (0x1.fffffffffffffp-1, 0x1.d5ed1095642f8p+0); (0x1.0000000000000p+0, 0x1.151b40cc7148ep+1); (0x1.0000000000000p+0, 0x1.3d9c59bc4aad6p+1); (0x1.0000000000000p+0, 0x1.63a803514b5e5p+1); (0x1.0000000000000p+0, 0x1.866c6dc28075bp+1); (0x1.0000000000000p+0, 0x1.a517c946f70cep+1); (0x1.0000000000000p+0, 0x1.bed84615bc3d4p+1); (0x1.0000000000000p+0, 0x1.d2dc1465dd20bp+1); (0x1.0000000000000p+0, 0x1.e051646e66d08p+1); (0x1.0000000000000p+0, 0x1.e666666666666p+1); (0x1.ffa9199aeaa77p-1, 0x1.e87fe5a80bc26p+1); (0x1.fea8e5d39f289p-1, 0x1.ea8d6d8ed63bcp+1); (0x1.fd0623c60c528p-1, 0x1.ec8d4e53ca1e1p+1); (0x1.fac7928e20f5cp-1, 0x1.ee7dd82febb64p+1); (0x1.f7f3f147cbe16p-1, 0x1.f05d5b5c3f4f6p+1); (0x1.f491ff0efbe57p-1, 0x1.f22a2811c9363p+1); (0x1.f0a87aff9fd20p-1, 0x1.f3e28e898db69p+1); (0x1.ec3e2435a6765p-1, 0x1.f584defc911c8p+1); (0x1.e759b9ccfea26p-1, 0x1.f70f69a3d7b43p+1); (0x1.e201fae19725cp-1, 0x1.f8807eb865c97p+1); (0x1.dc3da68f5ed06p-1, 0x1.f9d66e733fa89p+1); (0x1.d6137bf244720p-1, 0x1.fb0f890d699d8p+1); (0x1.cf8a3a2636da4p-1, 0x1.fc2a1ebfe7f48p+1); (0x1.c8a8a04724d8ep-1, 0x1.fd247fc3bef96p+1); (0x1.c1756d70fd3dbp-1, 0x1.fdfcfc51f2f85p+1); (0x1.b9f760bfaed88p-1, 0x1.feb1e4a3883d7p+1); (0x1.b235394f2878ep-1, 0x1.ff4188f18314ap+1); (0x1.aa35b63b58eecp-1, 0x1.ffaa3974e7ca2p+1); (0x1.a1ff96a02f09cp-1, 0x1.ffea4666baa9ep+1); (0x1.999999999999ap-1, 0x1.0000000000000p+2); (0x1.84fbd75b66028p-1, 0x1.0000000000000p+2); (0x1.59c655b007f76p-1, 0x1.0000000000001p+2); (0x1.1a7bb81567bddp-1, 0x1.fffffffffffffp+1); (0x1.933d4412db37ap-2, 0x1.0000000000001p+2); (0x1.a6c6dc28075b8p-3, 0x1.0000000000000p+2); ((-0x1.6432b579a5800p-8), 0x1.fffffffffffffp+1); ((-0x1.e5343f5e260f3p-3), 0x1.0000000000000p+2); ((-0x1.eeb3497bb11ccp-2), 0x1.0000000000000p+2); ((-0x1.7a6b809ff8245p-1), 0x1.0000000000000p+2); ((-0x1.0000000000000p+0), 0x1.0000000000000p+2); ((-0x1.42ca3fb003edep+0), 0x1.fffffffffffffp+1); ((-0x1.84532da113b8cp+0), 0x1.0000000000000p+2); ((-0x1.c35978143b3e1p+0), 0x1.0000000000000p+2); ((-0x1.fe9bcd4a865a6p+0), 0x1.0000000000000p+2); ((-0x1.1a6c6dc28075bp+1), 0x1.0000000000000p+2); ((-0x1.3267a8825b670p+1), 0x1.0000000000000p+2); ((-0x1.469eee0559ef6p+1), 0x1.0000000000000p+2); ((-0x1.5671956c01fdep+1), 0x1.0000000000000p+2); ((-0x1.613ef5d6d980ap+1), 0x1.0000000000000p+2); ((-0x1.6666666666666p+1), 0x1.0000000000000p+2); ((-0x1.687fe5a80bc26p+1), 0x1.ffea4666baa9dp+1); ((-0x1.6a8d6d8ed63bcp+1), 0x1.ffaa3974e7ca4p+1); ((-0x1.6c8d4e53ca1e2p+1), 0x1.ff4188f183149p+1); ((-0x1.6e7dd82febb64p+1), 0x1.feb1e4a3883d9p+1); ((-0x1.705d5b5c3f4f6p+1), 0x1.fdfcfc51f2f86p+1); ((-0x1.722a2811c9361p+1), 0x1.fd247fc3bef94p+1); ((-0x1.73e28e898db69p+1), 0x1.fc2a1ebfe7f48p+1); ((-0x1.7584defc911c8p+1), 0x1.fb0f890d699d8p+1); ((-0x1.770f69a3d7b43p+1), 0x1.f9d66e733fa8bp+1); ((-0x1.78807eb865c97p+1), 0x1.f8807eb865c97p+1); ((-0x1.79d66e733fa8ap+1), 0x1.f70f69a3d7b40p+1); ((-0x1.7b0f890d699d9p+1), 0x1.f584defc911c8p+1); ((-0x1.7c2a1ebfe7f48p+1), 0x1.f3e28e898db69p+1); ((-0x1.7d247fc3bef96p+1), 0x1.f22a2811c9364p+1); ((-0x1.7dfcfc51f2f86p+1), 0x1.f05d5b5c3f4f7p+1); ((-0x1.7eb1e4a3883d8p+1), 0x1.ee7dd82febb62p+1); ((-0x1.7f4188f18314ap+1), 0x1.ec8d4e53ca1e2p+1); ((-0x1.7faa3974e7ca2p+1), 0x1.ea8d6d8ed63bbp+1); ((-0x1.7fea4666baa9ep+1), 0x1.e87fe5a80bc27p+1); ((-0x1.8000000000000p+1), 0x1.e666666666666p+1); ((-0x1.7ffffffffffffp+1), 0x1.e051646e66d07p+1); ((-0x1.8000000000001p+1), 0x1.d2dc1465dd20cp+1); ((-0x1.7fffffffffffep+1), 0x1.bed84615bc3d3p+1); ((-0x1.8000000000002p+1), 0x1.a517c946f70cep+1); ((-0x1.8000000000000p+1), 0x1.866c6dc28075bp+1); ((-0x1.7ffffffffffffp+1), 0x1.63a803514b5e5p+1); ((-0x1.8000000000001p+1), 0x1.3d9c59bc4aad7p+1); ((-0x1.8000000000000p+1), 0x1.151b40cc7148ep+1); ((-0x1.8000000000002p+1), 0x1.d5ed1095642f8p+0); ((-0x1.8000000000000p+1), 0x1.7ffffffffffffp+0); ((-0x1.8000000000000p+1), 0x1.2a12ef6a9bd08p+0); ((-0x1.8000000000000p+1), 0x1.ab92fcce3adc4p-1); ((-0x1.8000000000000p+1), 0x1.098e990ed54a6p-1); ((-0x1.8000000000000p+1), 0x1.c57fcaeb4a1a0p-3); ((-0x1.8000000000000p+1), (-0x1.9b1b70a01d6e8p-5)); ((-0x1.8000000000001p+1), (-0x1.28be4a37b866fp-2)); ((-0x1.7ffffffffffffp+1), (-0x1.f6c230ade1ea2p-2)); ((-0x1.8000000000000p+1), (-0x1.4b7051977482bp-1)); ((-0x1.8000000000000p+1), (-0x1.814591b99b421p-1)); ((-0x1.8000000000000p+1), (-0x1.999999999999ap-1)); ((-0x1.7fea4666baa9dp+1), (-0x1.a1ff96a02f09bp-1)); ((-0x1.7faa3974e7ca3p+1), (-0x1.aa35b63b58eecp-1)); ((-0x1.7f4188f183149p+1), (-0x1.b235394f2878dp-1)); ((-0x1.7eb1e4a3883d8p+1), (-0x1.b9f760bfaed8ap-1)); ((-0x1.7dfcfc51f2f86p+1), (-0x1.c1756d70fd3dcp-1)); ((-0x1.7d247fc3bef95p+1), (-0x1.c8a8a04724d8dp-1)); ((-0x1.7c2a1ebfe7f48p+1), (-0x1.cf8a3a2636da4p-1)); ((-0x1.7b0f890d699dap+1), (-0x1.d6137bf244720p-1)); ((-0x1.79d66e733fa8bp+1), (-0x1.dc3da68f5ed07p-1)); ((-0x1.78807eb865c97p+1), (-0x1.e201fae19725cp-1)); ((-0x1.770f69a3d7b41p+1), (-0x1.e759b9ccfea25p-1)); ((-0x1.7584defc911c8p+1), (-0x1.ec3e2435a6764p-1)); ((-0x1.73e28e898db69p+1), (-0x1.f0a87aff9fd20p-1)); ((-0x1.722a2811c9362p+1), (-0x1.f491ff0efbe58p-1)); ((-0x1.705d5b5c3f4f6p+1), (-0x1.f7f3f147cbe16p-1)); ((-0x1.6e7dd82febb62p+1), (-0x1.fac7928e20f5ap-1)); ((-0x1.6c8d4e53ca1e2p+1), (-0x1.fd0623c60c528p-1)); ((-0x1.6a8d6d8ed63bbp+1), (-0x1.fea8e5d39f287p-1)); ((-0x1.687fe5a80bc27p+1), (-0x1.ffa9199aeaa78p-1)); ((-0x1.6666666666666p+1), (-0x1.0000000000000p+0)); ((-0x1.613ef5d6d9809p+1), (-0x1.0000000000000p+0)); ((-0x1.5671956c01fdfp+1), (-0x1.0000000000001p+0)); ((-0x1.469eee0559ef6p+1), (-0x1.fffffffffffffp-1)); ((-0x1.3267a8825b66fp+1), (-0x1.0000000000001p+0)); ((-0x1.1a6c6dc28075bp+1), (-0x1.0000000000000p+0)); ((-0x1.fe9bcd4a865a5p+0), (-0x1.fffffffffffffp-1)); ((-0x1.c35978143b3e2p+0), (-0x1.0000000000000p+0)); ((-0x1.84532da113b8dp+0), (-0x1.0000000000000p+0)); ((-0x1.42ca3fb003edep+0), (-0x1.0000000000000p+0)); ((-0x1.fffffffffffffp-1), (-0x1.0000000000000p+0)); ((-0x1.7a6b809ff8242p-1), (-0x1.fffffffffffffp-1)); ((-0x1.eeb3497bb11cdp-2), (-0x1.0000000000000p+0)); ((-0x1.e5343f5e260f2p-3), (-0x1.0000000000000p+0)); ((-0x1.6432b579a5880p-8), (-0x1.0000000000000p+0)); (0x1.a6c6dc28075bap-3, (-0x1.0000000000000p+0)); (0x1.933d4412db37cp-2, (-0x1.0000000000000p+0)); (0x1.1a7bb81567bdcp-1, (-0x1.0000000000000p+0)); (0x1.59c655b007f76p-1, (-0x1.0000000000000p+0)); (0x1.84fbd75b66029p-1, (-0x1.0000000000000p+0)); (0x1.999999999999ap-1, (-0x1.0000000000000p+0)); (0x1.a1ff96a02f09bp-1, (-0x1.ffa9199aeaa77p-1)); (0x1.aa35b63b58eecp-1, (-0x1.fea8e5d39f289p-1)); (0x1.b235394f2878dp-1, (-0x1.fd0623c60c528p-1)); (0x1.b9f760bfaed8ap-1, (-0x1.fac7928e20f5cp-1)); (0x1.c1756d70fd3dcp-1, (-0x1.f7f3f147cbe16p-1)); (0x1.c8a8a04724d8dp-1, (-0x1.f491ff0efbe57p-1)); (0x1.cf8a3a2636da4p-1, (-0x1.f0a87aff9fd20p-1)); (0x1.d6137bf244720p-1, (-0x1.ec3e2435a6765p-1)); (0x1.dc3da68f5ed07p-1, (-0x1.e759b9ccfea26p-1)); (0x1.e201fae19725cp-1, (-0x1.e201fae19725cp-1)); (0x1.e759b9ccfea25p-1, (-0x1.dc3da68f5ed06p-1)); (0x1.ec3e2435a6764p-1, (-0x1.d6137bf244720p-1)); (0x1.f0a87aff9fd20p-1, (-0x1.cf8a3a2636da4p-1)); (0x1.f491ff0efbe58p-1, (-0x1.c8a8a04724d8ep-1)); (0x1.f7f3f147cbe16p-1, (-0x1.c1756d70fd3dbp-1)); (0x1.fac7928e20f5ap-1, (-0x1.b9f760bfaed88p-1)); (0x1.fd0623c60c528p-1, (-0x1.b235394f2878ep-1)); (0x1.fea8e5d39f287p-1, (-0x1.aa35b63b58eecp-1)); (0x1.ffa9199aeaa78p-1, (-0x1.a1ff96a02f09cp-1)); (0x1.0000000000000p+0, (-0x1.999999999999ap-1))]] = true.
Proof. vm_compute. reflexivity. Qed.
Example TestElemRectangleRounded_rr1_transform : gives elem_near (snd (elem_transform TestElemRectangleRounded_rr1 rot_a))
  (ELeaf (EB "rr1" (PenBrush (Some (Pen (Brush (CStr "red")) 0)) (Some (Brush (CStr "blue")))) true (t_new6 0x1.ffc64f5b36d46p-1 0x1.e60d3f09014bfp-6 0 (-0x1.e60d3f09014bfp-6) 0x1.ffc64f5b36d46p-1 0)) (SRRect (P 0x1.075e84575ad99p+0 (-0x1.e1657b6aa6bfap-1)) (P (-0x1.7c50bdd452933p+1) 0x1.03d35092ab280p+2) 0x1.9999999999990p-3)) = true.
Proof. vm_compute. reflexivity. Qed.
Example TestElemRectangleRounded_rr1_iter_elems : gives (all2 yield_near) (iter_collect TestElemRectangleRounded_rr1 (Some "root") shift12) [("root.rr1", TestElemRectangleRounded_rr1, shift12)] = true.
Proof. vm_compute. reflexivity. Qed.
Example TestElemRectangleRounded_rr1_moved : match snd (elem_transform TestElemRectangleRounded_rr1 rot_d) with Ok o => negb (elem_eqb TestElemRectangleRounded_rr1 o) | _ => false end = true.
Proof. vm_compute. reflexivity. Qed.

(* TestElemRectangleRounded: rr2 *)
Definition TestElemRectangleRounded_rr2 : elem float := (ELeaf (EB "rr2" (PenBrush (Some (Pen (Brush (CStr "red")) 0)) (Some (Brush (CStr "blue")))) true t_new) (SRRect (P 0x1.0000000000000p+0 0x1.0000000000000p+1) (P 0x1.8000000000000p+1 (-0x1.0000000000000p+2)) 0x1.0000000000000p+0)).
Example TestElemRectangleRounded_rr2_as_curves : gives (all2 elem_near) (elem_as_curves TestElemRectangleRounded_rr2)
  [(ELeaf (EB "rr2" (PenBrush (Some (Pen (Brush (CStr "red")) 0)) (Some (Brush (CStr "blue")))) true t_new) (SCurve [(CP (P 0x1.0000000000000p+0 0x1.0000000000000p+0) (V 0 0x1.1ac5111534a22p-1) (V 0 (-0x1.1ac5111534a22p-1)) "smooth"); (CP (P 0x1.0000000000000p+0 (-0x1.8000000000000p+1)) (V 0 0x1.1ac5111534a20p-1) (V 0 (-0x1.1ac5111534a20p-1)) "smooth"); (CP (P 0x1.0000000000000p+1 (-0x1.0000000000000p+2)) (V (-0x1.1ac5111534a22p-1) 0) (V 0x1.1ac5111534a20p-1 0) "smooth"); (CP (P 0x1.8000000000000p+1 (-0x1.8000000000000p+1)) (V 0 (-0x1.1ac5111534a20p-1)) (V 0 0x1.1ac5111534a20p-1) "smooth"); (CP (P 0x1.8000000000000p+1 0x1.0000000000000p+0) (V 0 (-0x1.1ac5111534a22p-1)) (V 0 0x1.1ac5111534a22p-1) "smooth"); (CP (P 0x1.0000000000000p+1 0x1.0000000000000p+1) (V 0x1.1ac5111534a20p-1 0) (V (-0x1.1ac5111534a22p-1) 0) "smooth")]))] = true.
Proof. vm_compute. reflexivity. Qed.
Example TestElemRectangleRounded_rr2_as_digi_points : gives (all2 cp_near) (digi TestElemRectangleRounded_rr2)
  [(CP (P 0x1.0000000000000p+0 0x1.0000000000000p+0) (V 0 0x1.1ac5111534a22p-1) (V 0 (-0x1.1ac5111534a22p-1)) "smooth"); (CP (P 0x1.0000000000000p+0 (-0x1.8000000000000p+1)) (V 0 0x1.1ac5111534a22p-1) (V 0 (-0x1.1ac5111534a22p-1)) "smooth"); (CP (P 0x1.0000000000000p+1 (-0x1.0000000000000p+2)) (V (-0x1.1ac5111534a22p-1) 0) (V 0x1.1ac5111534a22p-1 0) "smooth"); (CP (P 0x1.8000000000000p+1 (-0x1.8000000000000p+1)) (V 0 (-0x1.1ac5111534a22p-1)) (V 0 0x1.1ac5111534a22p-1) "smooth"); (CP (P 0x1.8000000000000p+1 0x1.0000000000000p+0) (V 0 (-0x1.1ac5111534a22p-1)) (V 0 0x1.1ac5111534a22p-1) "smooth"); (CP (P 0x1.0000000000000p+1 0x1.0000000000000p+1) (V 0x1.1ac5111534a22p-1 0) (V (-0x1.1ac5111534a22p-1) 0) "smooth")] = true.
Proof. vm_compute. reflexivity. Qed.
Example TestElemRectangleRounded_rr2_bbox : gives bbox_near (elem_bbox TestElemRectangleRounded_rr2)
  (BB 0x1.0000000000000p+0 (-0x1.0000000000000p+2) 0x1.8000000000000p+1 0x1.0000000000000p+1) = true.
Proof. vm_compute. reflexivity. Qed.
Example TestElemRectangleRounded_rr2_bbox_int : gives bbox_near (elem_bbox_int TestElemRectangleRounded_rr2)
  (BB 0x1.0000000000000p+0 (-0x1.0000000000000p+2) 0x1.8000000000000p+1 0x1.0000000000000p+1) = true.
Proof. vm_compute. reflexivity. Qed.
Example TestElemRectangleRounded_rr2_control_path : gives (all2 cpath_cps) (snd (elem_control_paths (at_origin TestElemRectangleRounded_rr2) t_new))
  [[(CP (P 0x1.0000000000000p+0 0x1.0000000000000p+0) (V 0 0x1.1ac5111534a22p-1) (V 0 (-0x1.1ac5111534a22p-1)) "smooth"); (CP (P 0x1.0000000000000p+0 (-0x1.8000000000000p+1)) (V 0 0x1.1ac5111534a20p-1) (V 0 (-0x1.1ac5111534a20p-1)) "smooth"); (CP (P 0x1.0000000000000p+1 (-0x1.0000000000000p+2)) (V (-0x1.1ac5111534a22p-1) 0) (V 0x1.1ac5111534a20p-1 0) "smooth"); (CP (P 0x1.8000000000000p+1 (-0x1.8000000000000p+1)) (V 0 (-0x1.1ac5111534a20p-1)) (V 0 0x1.1ac5111534a20p-1) "smooth"); (CP (P 0x1.8000000000000p+1 0x1.0000000000000p+0) (V 0 (-0x1.1ac5111534a22p-1)) (V 0 0x1.1ac5111534a22p-1) "smooth"); (CP (P 0x1.0000000000000p+1 0x1.0000000000000p+1) (V 0x1.1ac5111534a20p-1 0) (V (-0x1.1ac5111534a22p-1) 0) "smooth")]] = true.
Proof. vm_compute. reflexivity. Qed.
Example TestElemRectangleRounded_rr2_control_path_sdc : gives (all2 cpath_cps) (snd (elem_control_paths TestElemRectangleRounded_rr2 t_new))
  [[(CP (P 0x1.0000000000000p+0 0x1.0000000000000p+0) (V 0 0x1.1ac5111534a22p-1) (V 0 (-0x1.1ac5111534a22p-1)) "smooth"); (CP (P 0x1.0000000000000p+0 (-0x1.8000000000000p+1)) (V 0 0x1.1ac5111534a20p-1) (V 0 (-0x1.1ac5111534a20p-1)) "smooth"); (CP (P 0x1.0000000000000p+1 (-0x1.0000000000000p+2)) (V (-0x1.1ac5111534a22p-1) 0) (V 0x1.1ac5111534a20p-1 0) "smooth"); (CP (P 0x1.8000000000000p+1 (-0x1.8000000000000p+1)) (V 0 (-0x1.1ac5111534a20p-1)) (V 0 0x1.1ac5111534a20p-1) "smooth"); (CP (P 0x1.8000000000000p+1 0x1.0000000000000p+0) (V 0 (-0x1.1ac5111534a22p-1)) (V 0 0x1.1ac5111534a22p-1) "smooth"); (CP (P 0x1.0000000000000p+1 0x1.0000000000000p+1) (V 0x1.1ac5111534a20p-1 0) (V (-0x1.1ac5111534a22p-1) 0) "smooth")]] = true.
Proof. vm_compute. reflexivity. Qed.
Example TestElemRectangleRounded_rr2_copy : gives elem_near (elem_copy TestElemRectangleRounded_rr2)
  (ELeaf (EB "rr2" (PenBrush (Some (Pen (Brush (CStr "red")) 0)) (Some (Brush (CStr "blue")))) true t_new) (SRRect (P 0x1.0000000000000p+0 0x1.0000000000000p+1) (P 0x1.8000000000000p+1 (-0x1.0000000000000p+2)) 0x1.0000000000000p+0)) = true.
Proof. vm_compute. reflexivity. Qed.
Example TestElemRectangleRounded_rr2_path : gives (all2 (fun a b => all2 pair_near (p_points a) b)) (snd (elem_paths dc5 TestElemRectangleRounded_rr2 t_new))
  [[(0x1.0000000000000p+0, 0x1.0000000000000p+0); (0x1.0000000000000p+0, 0x1.cce303a21493ep-1); (0x1.0000000000001p+0, 0x1.8993e5c838372p-1); (0x1.fffffffffffffp-1, 0x1.37df54d585aeep-1); (0x1.0000000000001p+0, 0x1.b323fe5a2f81ep-2); (0x1.0000000000000p+0, 0x1.c1e24cc824c9ap-3); (0x1.fffffffffffffp-1, (-0x1.a040b88b374e0p-9)); (0x1.0000000000000p+0, (-0x1.ebaf38be2ad93p-3)); (0x1.0000000000000p+0, (-0x1.f33acd9fb50c2p-2)); (0x1.0000000000000p+0, (-0x1.7be85c365fe06p-1)); (0x1.0000000000000p+0, (-0x1.0000000000000p+0)); (0x1.fffffffffffffp-1, (-0x1.420bd1e4d00ffp+0)); (0x1.0000000000000p+0, (-0x1.83314c9812bd0p+0)); (0x1.0000000000000p+0, (-0x1.c28a18e83aa4ep+0)); (0x1.0000000000000p+0, (-0x1.ff2fdfa3ba644p+0)); (0x1.0000000000000p+0, (-0x1.1c1e24cc824cap+1)); (0x1.0000000000000p+0, (-0x1.36647fcb45f05p+1)); (0x1.0000000000000p+0, (-0x1.4df7d535616bbp+1)); (0x1.0000000000000p+0, (-0x1.6264f9720e0ddp+1)); (0x1.0000000000000p+0, (-0x1.7338c0e885250p+1)); (0x1.0000000000000p+0, (-0x1.8000000000000p+1)); (0x1.00d93ffcb55d5p+0, (-0x1.8a7f7c483acc2p+1)); (0x1.0359c16ef21b1p+0, (-0x1.94c323ca2f2a7p+1)); (0x1.0770a690e131bp+0, (-0x1.9ec287a2f296fp+1)); (0x1.0d0d119cad9a2p+0, (-0x1.a87538ef9a8ecp+1)); (0x1.141e24cc824cap+0, (-0x1.b1d2c8cd3c8d2p+1)); (0x1.1c93025a8a421p+0, (-0x1.bad2c858ee0efp+1)); (0x1.265acc80f0732p+0, (-0x1.c36cc8afc490cp+1)); (0x1.3164a579dfd85p+0, (-0x1.cb985aeed58e7p+1)); (0x1.3d9faf7f836a5p+0, (-0x1.d34d103336849p+1)); (0x1.4afb0ccc0621ap+0, (-0x1.da827999fcef3p+1)); (0x1.5965df9992f71p+0, (-0x1.e13028403e4aep+1)); (0x1.68cf4a2254e31p+0, (-0x1.e74dad431013dp+1)); (0x1.79266ea076de9p+0, (-0x1.ecd299bf87c68p+1)); (0x1.8a5a6f4e23e1ep+0, (-0x1.f1b67ed2badeep+1)); (0x1.9c5a6e6586e5dp+0, (-0x1.f5f0ed99bed9bp+1)); (0x1.af158e20cae30p+0, (-0x1.f9797731a9330p+1)); (0x1.c27af0ba1ad1dp+0, (-0x1.fc47acb78f672p+1)); (0x1.d679b86ba1ab5p+0, (-0x1.fe531f4886f28p+1)); (0x1.eb01076f8a67cp+0, (-0x1.ff936001a5516p+1)); (0x1.0000000000000p+1, (-0x1.0000000000000p+2)); (0x1.0a7f7c483acc1p+1, (-0x1.ff936001a5515p+1)); (0x1.14c323ca2f2a7p+1, (-0x1.fe531f4886f2ap+1)); (0x1.1ec287a2f2970p+1, (-0x1.fc47acb78f672p+1)); (0x1.287538ef9a8eap+1, (-0x1.f9797731a9332p+1)); (0x1.31d2c8cd3c8d2p+1, (-0x1.f5f0ed99bed9bp+1)); (0x1.3ad2c858ee0efp+1, (-0x1.f1b67ed2badedp+1)); (0x1.436cc8afc490bp+1, (-0x1.ecd299bf87c67p+1)); (0x1.4b985aeed58e7p+1, (-0x1.e74dad431013ep+1)); (0x1.534d103336849p+1, (-0x1.e13028403e4afp+1)); (0x1.5a827999fcef3p+1, (-0x1.da827999fcef3p+1)); (0x1.613028403e4aep+1, (-0x1.d34d103336848p+1)); (0x1.674dad431013ep+1, (-0x1.cb985aeed58e7p+1)); (0x1.6cd299bf87c68p+1, (-0x1.c36cc8afc490cp+1)); (0x1.71b67ed2badeep+1, (-0x1.bad2c858ee0f0p+1)); (0x1.75f0ed99bed9bp+1, (-0x1.b1d2c8cd3c8d2p+1)); (0x1.79797731a9331p+1, (-0x1.a87538ef9a8e9p+1)); (0x1.7c47acb78f672p+1, (-0x1.9ec287a2f2970p+1)); (0x1.7e531f4886f28p+1, (-0x1.94c323ca2f2a6p+1)); (0x1.7f936001a5516p+1, (-0x1.8a7f7c483acc2p+1)); (0x1.8000000000000p+1, (-0x1.8000000000000p+1)); (0x1.7ffffffffffffp+1, (-0x1.7338c0e88524fp+1)); (0x1.8000000000001p+1, (-0x1.6264f9720e0ddp+1)); (0x1.7fffffffffffep+1, (-0x1.4df7d535616bap+1)); (0x1.8000000000002p+1, (-0x1.36647fcb45f06p+1)); (0x1.8000000000000p+1, (-0x1.1c1e24cc824c9p+1)); (0x1.7ffffffffffffp+1, (-0x1.ff2fdfa3ba645p+0)); (0x1.8000000000001p+1, (-0x1.c28a18e83aa4ep+0)); (0x1.8000000000000p+1, (-0x1.83314c9812bcfp+0)); (0x1.8000000000002p+1, (-0x1.420bd1e4d0100p+0)); (0x1.8000000000000p+1, (-0x1.0000000000000p+0)); (0x1.8000000000000p+1, (-0x1.7be85c365fe03p-1)); (0x1.8000000000000p+1, (-0x1.f33acd9fb50c4p-2)); (0x1.8000000000000p+1, (-0x1.ebaf38be2ad96p-3)); (0x1.8000000000000p+1, (-0x1.a040b88b37580p-9)); (0x1.8000000000000p+1, 0x1.c1e24cc824c99p-3); (0x1.8000000000001p+1, 0x1.b323fe5a2f821p-2); (0x1.7ffffffffffffp+1, 0x1.37df54d585aeep-1); (0x1.8000000000000p+1, 0x1.8993e5c838372p-1); (0x1.8000000000000p+1, 0x1.cce303a21493ep-1); (0x1.8000000000000p+1, 0x1.0000000000000p+0); (0x1.7f936001a5514p+1, 0x1.14fef89075984p+0); (0x1.7e531f4886f28p+1, 0x1.298647945e54cp+0); (0x1.7c47acb78f671p+1, 0x1.3d850f45e52e1p+0); (0x1.79797731a9331p+1, 0x1.50ea71df351d4p+0); (0x1.75f0ed99bed9bp+1, 0x1.63a5919a791a3p+0); (0x1.71b67ed2badedp+1, 0x1.75a590b1dc1e1p+0); (0x1.6cd299bf87c68p+1, 0x1.86d9915f89218p+0); (0x1.674dad431013ep+1, 0x1.9730b5ddab1cep+0); (0x1.613028403e4b0p+1, 0x1.a69a20666d091p+0); (0x1.5a827999fcef3p+1, 0x1.b504f333f9de6p+0); (0x1.534d103336846p+1, 0x1.c26050807c95dp+0); (0x1.4b985aeed58e7p+1, 0x1.ce9b5a862027bp+0); (0x1.436cc8afc490cp+1, 0x1.d9a5337f0f8d0p+0); (0x1.3ad2c858ee0f1p+1, 0x1.e36cfda575bdep+0); (0x1.31d2c8cd3c8d2p+1, 0x1.ebe1db337db36p+0); (0x1.287538ef9a8e8p+1, 0x1.f2f2ee6352661p+0); (0x1.1ec287a2f2970p+1, 0x1.f88f596f1ece4p+0); (0x1.14c323ca2f2a6p+1, 0x1.fca63e910de50p+0); (0x1.0a7f7c483acc2p+1, 0x1.ff26c0034aa2bp+0); (0x1.0000000000000p+1, 0x1.0000000000000p+1); (0x1.eb01076f8a67bp+0, 0x1.ff26c0034aa2ap+0); (0x1.d679b86ba1ab5p+0, 0x1.fca63e910de51p+0); (0x1.c27af0ba1ad1cp+0, 0x1.f88f596f1ece4p+0); (0x1.af158e20cae31p+0, 0x1.f2f2ee6352662p+0); (0x1.9c5a6e6586e5dp+0, 0x1.ebe1db337db36p+0); (0x1.8a5a6f4e23e1dp+0, 0x1.e36cfda575bddp+0); (0x1.79266ea076de9p+0, 0x1.d9a5337f0f8cep+0); (0x1.68cf4a2254e32p+0, 0x1.ce9b5a862027bp+0); (0x1.5965df9992f72p+0, 0x1.c26050807c95ep+0); (0x1.4afb0ccc0621ap+0, 0x1.b504f333f9de6p+0); (0x1.3d9faf7f836a4p+0, 0x1.a69a20666d08ep+0); (0x1.3164a579dfd85p+0, 0x1.9730b5ddab1cep+0); (0x1.265acc80f0732p+0, 0x1.86d9915f89218p+0); (0x1.1c93025a8a421p+0, 0x1.75a590b1dc1e2p+0); (0x1.141e24cc824cap+0, 0x1.63a5919a791a3p+0); (0x1.0d0d119cad9a0p+0, 0x1.50ea71df351d2p+0); (0x1.0770a690e131bp+0, 0x1.3d850f45e52e2p+0); (0x1.0359c16ef21b0p+0, 0x1.298647945e54cp+0); (0x1.00d93ffcb55d5p+0, 0x1.14fef89075984p+0); (0x1.0000000000000p+0, 0x1.0000000000000p+0)]] = true.
Proof. vm_compute. reflexivity. Qed.
Example TestElemRectangleRounded_rr2_transform : gives elem_near (snd (elem_transform TestElemRectangleRounded_rr2 rot_a))
  (ELeaf (EB "rr2" (PenBrush (Some (Pen (Brush (CStr "red")) 0)) (Some (Brush (CStr "blue")))) true (t_new6 0x1.ffc64f5b36d46p-1 0x1.e60d3f09014bfp-6 0 (-0x1.e60d3f09014bfp-6) 0x1.ffc64f5b36d46p-1 0)) (SRRect (P 0x1.075e84575ad99p+0 0x1.07a6a12556501p+1) (P 0x1.83af422bad6cbp+1 (-0x1.f8595edaa9affp+1)) 0x1.ffffffffffffep-1)) = true.
Proof. vm_compute. reflexivity. Qed.
Example TestElemRectangleRounded_rr2_iter_elems : gives (all2 yield_near) (iter_collect TestElemRectangleRounded_rr2 (Some "root") shift12) [("root.rr2", TestElemRectangleRounded_rr2, shift12)] = true.
Proof. vm_compute. reflexivity. Qed.
Example TestElemRectangleRounded_rr2_moved : match snd (elem_transform TestElemRectangleRounded_rr2 rot_d) with Ok o => negb (elem_eqb TestElemRectangleRounded_rr2 o) | _ => false end = true.
Proof. vm_compute. reflexivity. Qed.

(* TestGroup: group1 *)
Definition TestGroup_group1 : elem float := (EGroup (EB "group1" (PenBrush (Some (Pen (Brush (CStr "default")) 0)) None) false t_new) false [("g1_rr1", (ELeaf (EB "g1_rr1" (PenBrush (Some (Pen (Brush (CStr "red")) 0)) None) true t_new) (SRRect (P 0x1.0000000000000p+0 (-0x1.0000000000000p+0)) (P (-0x1.8000000000000p+1) 0x1.0000000000000p+2) 0x1.999999999999ap-3)))] []).
Example TestGroup_group1_as_curves : gives (all2 elem_near) (elem_as_curves TestGroup_group1)
  [(ELeaf (EB "g1_rr1" (PenBrush (Some (Pen (Brush (CStr "red")) 0)) None) true t_new) (SCurve [(CP (P 0x1.0000000000000p+0 (-0x1.999999999999ap-1)) (V 0 (-0x1.c46e81bb876a0p-4)) (V 0 0x1.c46e81bb876a0p-4) "smooth"); (CP (P 0x1.0000000000000p+0 0x1.e666666666666p+1) (V 0 (-0x1.c46e81bb876a0p-4)) (V 0 0x1.c46e81bb876a0p-4) "smooth"); (CP (P 0x1.999999999999ap-1 0x1.0000000000000p+2) (V 0x1.c46e81bb876a0p-4 0) (V (-0x1.c46e81bb876a0p-4) 0) "smooth"); (CP (P (-0x1.6666666666666p+1) 0x1.0000000000000p+2) (V 0x1.c46e81bb876a0p-4 0) (V (-0x1.c46e81bb876a0p-4) 0) "smooth"); (CP (P (-0x1.8000000000000p+1) 0x1.e666666666666p+1) (V 0 0x1.c46e81bb876a0p-4) (V 0 (-0x1.c46e81bb876a0p-4)) "smooth"); (CP (P (-0x1.8000000000000p+1) (-0x1.999999999999ap-1)) (V 0 0x1.c46e81bb876a0p-4) (V 0 (-0x1.c46e81bb876a0p-4)) "smooth"); (CP (P (-0x1.6666666666666p+1) (-0x1.0000000000000p+0)) (V (-0x1.c46e81bb876a0p-4) 0) (V 0x1.c46e81bb876a0p-4 0) "smooth"); (CP (P 0x1.999999999999ap-1 (-0x1.0000000000000p+0)) (V (-0x1.c46e81bb876a0p-4) 0) (V 0x1.c46e81bb876a0p-4 0) "smooth")]))] = true.
Proof. vm_compute. reflexivity. Qed.
Example TestGroup_group1_bbox : gives bbox_near (elem_bbox TestGroup_group1)
  (BB (-0x1.8000000000000p+1) (-0x1.0000000000000p+0) 0x1.0000000000000p+0 0x1.0000000000000p+2) = true.
Proof. vm_compute. reflexivity. Qed.
Example TestGroup_group1_bbox_int : gives bbox_near (elem_bbox_int TestGroup_group1)
  (BB (-0x1.8000000000000p+1) (-0x1.0000000000000p+0) 0x1.0000000000000p+0 0x1.0000000000000p+2) = true.
Proof. vm_compute. reflexivity. Qed.
Example TestGroup_group1_control_paths : gives (all2 (fun k b => match b with inl l => cpath_pts k l | inr l => cpath_cps k l end)) (snd (elem_control_paths TestGroup_group1 t_new))
  [inr [(CP (P 0x1.0000000000000p+0 (-0x1.999999999999ap-1)) (V 0 (-0x1.c46e81bb876a0p-4)) (V 0 0x1.c46e81bb876a0p-4) "smooth"); (CP (P 0x1.0000000000000p+0 0x1.e666666666666p+1) (V 0 (-0x1.c46e81bb876a0p-4)) (V 0 0x1.c46e81bb876a0p-4) "smooth"); (CP (P 0x1.999999999999ap-1 0x1.0000000000000p+2) (V 0x1.c46e81bb876a0p-4 0) (V (-0x1.c46e81bb876a0p-4) 0) "smooth"); (CP (P (-0x1.6666666666666p+1) 0x1.0000000000000p+2) (V 0x1.c46e81bb876a0p-4 0) (V (-0x1.c46e81bb876a0p-4) 0) "smooth"); (CP (P (-0x1.8000000000000p+1) 0x1.e666666666666p+1) (V 0 0x1.c46e81bb876a0p-4) (V 0 (-0x1.c46e81bb876a0p-4)) "smooth"); (CP (P (-0x1.8000000000000p+1) (-0x1.999999999999ap-1)) (V 0 0x1.c46e81bb876a0p-4) (V 0 (-0x1.c46e81bb876a0p-4)) "smooth"); (CP (P (-0x1.6666666666666p+1) (-0x1.0000000000000p+0)) (V (-0x1.c46e81bb876a0p-4) 0) (V 0x1.c46e81bb876a0p-4 0) "smooth"); (CP (P 0x1.999999999999ap-1 (-0x1.0000000000000p+0)) (V (-0x1.c46e81bb876a0p-4) 0) (V 0x1.c46e81bb876a0p-4 0) "smooth")]] = true.
Proof. vm_compute. reflexivity. Qed.
Example TestGroup_group1_copy : gives elem_near (elem_copy TestGroup_group1)
  (EGroup (EB "group1" (PenBrush (Some (Pen (Brush (CStr "default")) 0)) None) false t_new) false [("g1_rr1", (ELeaf (EB "g1_rr1" (PenBrush (Some (Pen (Brush (CStr "red")) 0)) None) true t_new) (SRRect (P 0x1.0000000000000p+0 (-0x1.0000000000000p+0)) (P (-0x1.8000000000000p+1) 0x1.0000000000000p+2) 0x1.999999999999ap-3)))] []) = true.
Proof. vm_compute. reflexivity. Qed.
Example TestGroup_group1_iter_elems : gives (all2 yield_near) (iter_collect TestGroup_group1 (Some "t_root") shift12)
  [("t_root.group1.g1_rr1", (ELeaf (EB "g1_rr1" (PenBrush (Some (Pen (Brush (CStr "red")) 0)) None) true t_new) (SRRect (P 0x1.0000000000000p+0 (-0x1.0000000000000p+0)) (P (-0x1.8000000000000p+1) 0x1.0000000000000p+2) 0x1.999999999999ap-3)), (t_new6 0x1.0000000000000p+0 0 0x1.0000000000000p+0 0 0x1.0000000000000p+0 0x1.0000000000000p+1))] = true.
Proof. vm_compute. reflexivity. Qed.
Example TestGroup_group1_iter_elems_xf : gives (all2 elem_near) (snd (iter_transformed TestGroup_group1 (Some "t_root") rot_c))
  [(ELeaf (EB "t_root.group1.g1_rr1" (PenBrush (Some (Pen (Brush (CStr "red")) 0)) None) true (t_new6 0x1.f838b8c811c17p-1 0x1.63a1a7e0b7389p-3 0 (-0x1.63a1a7e0b7389p-3) 0x1.f838b8c811c17p-1 0)) (SRRect (P 0x1.4667e4d7b6254p-1 (-0x1.b6a62477aeaefp-1)) (P (-0x1.ae6606ca1276cp+1) 0x1.092b3b710a2a1p+2) 0x1.9999999999994p-3))] = true.
Proof. vm_compute. reflexivity. Qed.
Example TestGroup_group1_paths : gives (all2 path_near) (snd (elem_paths dc5 TestGroup_group1 t_new))
  [((PenBrush (Some (Pen (Brush (CStr "red")) 0)) None), true, [(0x1.0000000000000p+0, (-0x1.999999999999ap-1)); (0x1.0000000000000p+0, (-0x1.814591b99b420p-1)); (0x1.0000000000001p+0, (-0x1.4b7051977482ap-1)); (0x1.fffffffffffffp-1, (-0x1.f6c230ade1ea4p-2)); (0x1.0000000000001p+0, (-0x1.28be4a37b866bp-2)); (0x1.0000000000000p+0, (-0x1.9b1b70a01d6dap-5)); (0x1.fffffffffffffp-1, 0x1.c57fcaeb4a197p-3); (0x1.0000000000000p+0, 0x1.098e990ed54a7p-1); (0x1.0000000000000p+0, 0x1.ab92fcce3adc4p-1); (0x1.0000000000000p+0, 0x1.2a12ef6a9bd0ap+0); (0x1.0000000000000p+0, 0x1.8000000000000p+0); (0x1.fffffffffffffp-1, 0x1.d5ed1095642f8p+0); (0x1.0000000000000p+0, 0x1.151b40cc7148ep+1); (0x1.0000000000000p+0, 0x1.3d9c59bc4aad6p+1); (0x1.0000000000000p+0, 0x1.63a803514b5e5p+1); (0x1.0000000000000p+0, 0x1.866c6dc28075bp+1); (0x1.0000000000000p+0, 0x1.a517c946f70cep+1); (0x1.0000000000000p+0, 0x1.bed84615bc3d4p+1); (0x1.0000000000000p+0, 0x1.d2dc1465dd20bp+1); (0x1.0000000000000p+0, 0x1.e051646e66d08p+1); (0x1.0000000000000p+0, 0x1.e666666666666p+1); (0x1.ffa9199aeaa77p-1, 0x1.e87fe5a80bc26p+1); (0x1.fea8e5d39f289p-1, 0x1.ea8d6d8ed63bcp+1); (0x1.fd0623c60c528p-1, 0x1.ec8d4e53ca1e1p+1); (0x1.fac7928e20f5cp-1, 0x1.ee7dd82febb64p+1); (0x1.f7f3f147cbe16p-1, 0x1.f05d5b5c3f4f6p+1); (0x1.f491ff0efbe57p-1, 0x1.f22a2811c9363p+1); (0x1.f0a87aff9fd20p-1, 0x1.f3e28e898db69p+1); (0x1.ec3e2435a6765p-1, 0x1.f584defc911c8p+1); (0x1.e759b9ccfea26p-1, 0x1.f70f69a3d7b43p+1); (0x1.e201fae19725cp-1, 0x1.f8807eb865c97p+1); (0x1.dc3da68f5ed06p-1, 0x1.f9d66e733fa89p+1); (0x1.d6137bf244720p-1, 0x1.fb0f890d699d8p+1); (0x1.cf8a3a2636da4p-1, 0x1.fc2a1ebfe7f48p+1); (0x1.c8a8a04724d8ep-1, 0x1.fd247fc3bef96p+1); (0x1.c1756d70fd3dbp-1, 0x1.fdfcfc51f2f85p+1); (0x1.b9f760bfaed88p-1, 0x1.feb1e4a3883d7p+1); (0x1.b235394f2878ep-1, 0x1.ff4188f18314ap+1); (0x1.aa35b63b58eecp-1, 0x1.ffaa3974e7ca2p+1); (0x1.a1ff96a02f09cp-1, 0x1.ffea4666baa9ep+1); (0x1.999999999999ap-1, 0x1.0000000000000p+2); (0x1.84fbd75b66028p-1, 0x1.0000000000000p+2); (0x1.59c655b007f76p-1, 0x1.0000000000001p+2); (0x1.1a7bb81567bddp-1, 0x1.fffffffffffffp+1); (0x1.933d4412db37ap-2, 0x1.0000000000001p+2); (0x1.a6c6dc28075b8p-3, 0x1.0000000000000p+2); ((-0x1.6432b579a5800p-8), 0x1.fffffffffffffp+1); ((-0x1.e5343f5e260f3p-3), 0x1.0000000000000p+2); ((-0x1.eeb3497bb11ccp-2), 0x1.0000000000000p+2); ((-0x1.7a6b809ff8245p-1), 0x1.0000000000000p+2); ((-0x1.0000000000000p+0), 0x1.0000000000000p+2); ((-0x1.42ca3fb003edep+0), 0x1.fffffffffffffp+1); ((-0x1.84532da113b8cp+0), 0x1.0000000000000p+2); ((-0x1.c35978143b3e1p+0), 0x1.0000000000000p+2); ((-0x1.fe9bcd4a865a6p+0), 0x1.0000000000000p+2); ((-0x1.1a6c6dc28075bp+1), 0x1.0000000000000p+2); ((-0x1.3267a8825b670p+1), 0x1.0000000000000p+2); ((-0x1.469eee0559ef6p+1), 0x1.0000000000000p+2); ((-0x1.5671956c01fdep+1), 0x1.0000000000000p+2); ((-0x1.613ef5d6d980ap+1), 0x1.0000000000000p+2); ((-0x1.6666666666666p+1), 0x1.0000000000000p+2); ((-0x1.687fe5a80bc26p+1), 0x1.ffea4666baa9dp+1); ((-0x1.6a8d6d8ed63bcp+1), 0x1.ffaa3974e7ca4p+1); ((-0x1.6c8d4e53ca1e2p+1), 0x1.ff4188f183149p+1); ((-0x1.6e7dd82febb64p+1), 0x1.feb1e4a3883d9p+1); ((-0x1.705d5b5c3f4f6p+1), 0x1.fdfcfc51f2f86p+1); ((-0x1.722a2811c9361p+1), 0x1.fd247fc3bef94p+1); ((-0x1.73e28e898db69p+1), 0x1.fc2a1ebfe7f48p+1); ((-0x1.7584defc911c8p+1), 0x1.fb0f890d699d8p+1); ((-0x1.770f69a3d7b43p+1), 0x1.f9d66e733fa8bp+1); ((-0x1.78807eb865c97p+1), 0x1.f8807eb865c97p+1); ((-0x1.79d66e733fa8ap+1), 0x1.f70f69a3d7b40p+1); ((-0x1.7b0f890d699d9p+1), 0x1.f584defc911c8p+1); ((-0x1.7c2a1ebfe7f48p+1), 0x1.f3e28e898db69p+1); ((-0x1.7d247fc3bef96p+1), 0x1.f22a2811c9364p+1); ((-0x1.7dfcfc51f2f86p+1), 0x1.f05d5b5c3f4f7p+1); ((-0x1.7eb1e4a3883d8p+1), 0x1.ee7dd82febb62p+1); ((-0x1.7f4188f18314ap+1), 0x1.ec8d4e53ca1e2p+1); ((-0x1.7faa3974e7ca2p+1), 0x1.ea8d6d8ed63bbp+1); ((-0x1.7fea4666baa9ep+1), 0x1.e87fe5a80bc27p+1); ((-0x1.8000000000000p+1), 0x1.e666666666666p+1); ((-0x1.7ffffffffffffp+1), 0x1.e051646e66d07p+1); ((-0x1.8000000000001p+1), 0x1.d2dc1465dd20cp+1); ((-0x1.7fffffffffffep+1), 0x1.bed84615bc3d3p+1); ((-0x1.8000000000002p+1), 0x1.a517c946f70cep+1); ((-0x1.8000000000000p+1), 0x1.866c6dc28075bp+1); ((-0x1.7ffffffffffffp+1), 0x1.63a803514b5e5p+1); ((-0x1.8000000000001p+1), 0x1.3d9c59bc4aad7p+1); ((-0x1.8000000000000p+1), 0x1.151b40cc7148ep+1); ((-0x1.8000000000002p+1), 0x1.d5ed1095642f8p+0); ((-0x1.8000000000000p+1), 0x1.7ffffffffffffp+0); ((-0x1.8000000000000p+1), 0x1.2a12ef6a9bd08p+0); ((-0x1.8000000000000p+1), 0x1.ab92fcce3adc4p-1); ((-0x1.8000000000000p+1), 0x1.098e990ed54a6p-1); ((-0x1.8000000000000p+1), 0x1.c57fcaeb4a1a0p-3); ((-0x1.8000000000000p+1), (-0x1.9b1b70a01d6e8p-5)); ((-0x1.8000000000001p+1), (-0x1.28be4a37b866fp-2)); ((-0x1.7ffffffffffffp+1), (-0x1.f6c230ade1ea2p-2)); ((-0x1.8000000000000p+1), (-0x1.4b7051977482bp-1)); ((-0x1.8000000000000p+1), (-0x1.814591b99b421p-1)); ((-0x1.8000000000000p+1), (-0x1.999999999999ap-1)); ((-0x1.7fea4666baa9dp+1), (-0x1.a1ff96a02f09bp-1)); ((-0x1.7faa3974e7ca3p+1), (-0x1.aa35b63b58eecp-1)); ((-0x1.7f4188f183149p+1), (-0x1.b235394f2878dp-1)); ((-0x1.7eb1e4a3883d8p+1), (-0x1.b9f760bfaed8ap-1)); ((-0x1.7dfcfc51f2f86p+1), (-0x1.c1756d70fd3dcp-1)); ((-0x1.7d247fc3bef95p+1), (-0x1.c8a8a04724d8dp-1)); ((-0x1.7c2a1ebfe7f48p+1), (-0x1.cf8a3a2636da4p-1)); ((-0x1.7b0f890d699dap+1), (-0x1.d6137bf244720p-1)); ((-0x1.79d66e733fa8bp+1), (-0x1.dc3da68f5ed07p-1)); ((-0x1.78807eb865c97p+1), (-0x1.e201fae19725cp-1)); ((-0x1.770f69a3d7b41p+1), (-0x1.e759b9ccfea25p-1)); ((-0x1.7584defc911c8p+1), (-0x1.ec3e2435a6764p-1)); ((-0x1.73e28e898db69p+1), (-0x1.f0a87aff9fd20p-1)); ((-0x1.722a2811c9362p+1), (-0x1.f491ff0efbe58p-1)); ((-0x1.705d5b5c3f4f6p+1), (-0x1.f7f3f147cbe16p-1)); ((-0x1.6e7dd82febb62p+1), (-0x1.fac7928e20f5ap-1)); ((-0x1.6c8d4e53ca1e2p+1), (-0x1.fd0623c60c528p-1)); ((-0x1.6a8d6d8ed63bbp+1), (-0x1.fea8e5d39f287p-1)); ((-0x1.687fe5a80bc27p+1), (-0x1.ffa9199aeaa78p-1)); ((-0x1.6666666666666p+1), (-0x1.0000000000000p+0)); ((-0x1.613ef5d6d9809p+1), (-0x1.0000000000000p+0)); ((-0x1.5671956c01fdfp+1), (-0x1.0000000000001p+0)); ((-0x1.469eee0559ef6p+1), (-0x1.fffffffffffffp-1)); ((-0x1.3267a8825b66fp+1), (-0x1.0000000000001p+0)); ((-0x1.1a6c6dc28075bp+1), (-0x1.0000000000000p+0)); ((-0x1.fe9bcd4a865a5p+0), (-0x1.fffffffffffffp-1)); ((-0x1.c35978143b3e2p+0), (-0x1.0000000000000p+0)); ((-0x1.84532da113b8dp+0), (-0x1.0000000000000p+0)); ((-0x1.42ca3fb003edep+0), (-0x1.0000000000000p+0)); ((-0x1.fffffffffffffp-1), (-0x1.0000000000000p+0)); ((-0x1.7a6b809ff8242p-1), (-0x1.fffffffffffffp-1)); ((-0x1.eeb3497bb11cdp-2), (-0x1.0000000000000p+0)); ((-0x1.e5343f5e260f2p-3), (-0x1.0000000000000p+0)); ((-0x1.6432b579a5880p-8), (-0x1.0000000000000p+0)); (0x1.a6c6dc28075bap-3, (-0x1.0000000000000p+0)); (0x1.933d4412db37cp-2, (-0x1.0000000000000p+0)); (0x1.1a7bb81567bdcp-1, (-0x1.0000000000000p+0)); (0x1.59c655b007f76p-1, (-0x1.0000000000000p+0)); (0x1.84fbd75b66029p-1, (-0x1.0000000000000p+0)); (0x1.999999999999ap-1, (-0x1.0000000000000p+0)); (0x1.a1ff96a02f09bp-1, (-0x1.ffa9199aeaa77p-1)); (0x1.aa35b63b58eecp-1, (-0x1.fea8e5d39f289p-1)); (0x1.b235394f2878dp-1, (-0x1.fd0623c60c528p-1)); (0x1.b9f760bfaed8ap-1, (-0x1.fac7928e20f5cp-1)); (0x1.c1756d70fd3dcp-1, (-0x1.f7f3f147cbe16p-1)); (0x1.c8a8a04724d8dp-1, (-0x1.f491ff0efbe57p-1)); (0x1.cf8a3a2636da4p-1, (-0x1.f0a87aff9fd20p-1)); (0x1.d6137bf244720p-1, (-0x1.ec3e2435a6765p-1)); (0x1.dc3da68f5ed07p-1, (-0x1.e759b9ccfea26p-1)); (0x1.e201fae19725cp-1, (-0x1.e201fae19725cp-1)); (0x1.e759b9ccfea25p-1, (-0x1.dc3da68f5ed06p-1)); (0x1.ec3e2435a6764p-1, (-0x1.d6137bf244720p-1)); (0x1.f0a87aff9fd20p-1, (-0x1.cf8a3a2636da4p-1)); (0x1.f491ff0efbe58p-1, (-0x1.c8a8a04724d8ep-1)); (0x1.f7f3f147cbe16p-1, (-0x1.c1756d70fd3dbp-1)); (0x1.fac7928e20f5ap-1, (-0x1.b9f760bfaed88p-1)); (0x1.fd0623c60c528p-1, (-0x1.b235394f2878ep-1)); (0x1.fea8e5d39f287p-1, (-0x1.aa35b63b58eecp-1)); (0x1.ffa9199aeaa78p-1, (-0x1.a1ff96a02f09cp-1)); (0x1.0000000000000p+0, (-0x1.999999999999ap-1))])] = true.
Proof. vm_compute. reflexivity. Qed.
Example TestGroup_group1_transform : gives elem_near (snd (elem_transform TestGroup_group1 rot_a))
  (EGroup (EB "group1" (PenBrush (Some (Pen (Brush (CStr "default")) 0)) None) false (t_new6 0x1.ffc64f5b36d46p-1 0x1.e60d3f09014bfp-6 0x1.f479683b4c340p-6 (-0x1.e60d3f09014bfp-6) 0x1.ffc64f5b36d46p-1 0x1.e27234bc6e920p-5)) false [("g1_rr1", (ELeaf (EB "g1_rr1" (PenBrush (Some (Pen (Brush (CStr "red")) 0)) None) true t_new) (SRRect (P 0x1.0000000000000p+0 (-0x1.0000000000000p+0)) (P (-0x1.8000000000000p+1) 0x1.0000000000000p+2) 0x1.999999999999ap-3)))] []) = true.
Proof. vm_compute. reflexivity. Qed.
Example TestGroup_group1_moved : match snd (elem_transform TestGroup_group1 rot_d) with Ok o => negb (elem_eqb TestGroup_group1 o) | _ => false end = true.
Proof. vm_compute. reflexivity. Qed.

(* TestGroup: group2 *)
Definition TestGroup_group2 : elem float := (EGroup (EB "group2" (PenBrush (Some (Pen (Brush (CStr "default")) 0)) None) false t_new) false [("c1", (ELeaf (EB "c1" (PenBrush (Some (Pen (Brush (CStr "black")) 0)) None) true t_new) (SCurve [(CP (P 0 0) (V 0 0x1.0000000000000p+0) (V 0 (-0x1.0000000000000p+0)) "smooth"); (CP (P 0x1.4000000000000p+3 0) (V 0 0x1.0000000000000p+0) (V 0 (-0x1.0000000000000p+0)) "smooth")]))); ("c2", (ELeaf (EB "c2" (PenBrush (Some (Pen (Brush (CStr "black")) 0)) None) true t_new) (SCurve [(CP (P 0x1.4000000000000p+3 0) (V 0 0x1.0000000000000p+0) (V 0 (-0x1.0000000000000p+0)) "smooth"); (CP (P 0 0) (V 0 0x1.0000000000000p+0) (V 0 (-0x1.0000000000000p+0)) "smooth")]))); ("e1", (ELeaf (EB "e1" (PenBrush (Some (Pen (Brush (CStr "red")) 0)) (Some (Brush (CStr "blue")))) true t_new) (SEllipse (P 0x1.0000000000000p+0 (-0x1.0000000000000p+0)) (P (-0x1.8000000000000p+1) 0x1.0000000000000p+2)))); ("e2", (ELeaf (EB "e2" (PenBrush (Some (Pen (Brush (CStr "red")) 0)) (Some (Brush (CStr "blue")))) true t_new) (SEllipse (P 0x1.0000000000000p+0 0x1.0000000000000p+1) (P 0x1.8000000000000p+1 (-0x1.0000000000000p+2))))); ("r1", (ELeaf (EB "r1" (PenBrush (Some (Pen (Brush (CStr "red")) 0)) (Some (Brush (CStr "blue")))) true t_new) (SRect (P 0x1.0000000000000p+0 (-0x1.0000000000000p+0)) (P (-0x1.8000000000000p+1) 0x1.0000000000000p+2)))); ("r2", (ELeaf (EB "r2" (PenBrush (Some (Pen (Brush (CStr "red")) 0)) (Some (Brush (CStr "blue")))) true t_new) (SRect (P 0x1.0000000000000p+0 0x1.0000000000000p+1) (P 0x1.8000000000000p+1 (-0x1.0000000000000p+2))))); ("rr1", (ELeaf (EB "rr1" (PenBrush (Some (Pen (Brush (CStr "red")) 0)) (Some (Brush (CStr "blue")))) true t_new) (SRRect (P 0x1.0000000000000p+0 (-0x1.0000000000000p+0)) (P (-0x1.8000000000000p+1) 0x1.0000000000000p+2) 0x1.999999999999ap-3))); ("rr2", (ELeaf (EB "rr2" (PenBrush (Some (Pen (Brush (CStr "red")) 0)) (Some (Brush (CStr "blue")))) true t_new) (SRRect (P 0x1.0000000000000p+0 0x1.0000000000000p+1) (P 0x1.8000000000000p+1 (-0x1.0000000000000p+2)) 0x1.0000000000000p+0)))] []).
Example TestGroup_group2_as_curves : gives (all2 elem_near) (elem_as_curves TestGroup_group2)
  [(ELeaf (EB "c1" (PenBrush (Some (Pen (Brush (CStr "black")) 0)) None) true t_new) (SCurve [(CP (P 0 0) (V 0 0x1.0000000000000p+0) (V 0 (-0x1.0000000000000p+0)) "smooth"); (CP (P 0x1.4000000000000p+3 0) (V 0 0x1.0000000000000p+0) (V 0 (-0x1.0000000000000p+0)) "smooth")])); (ELeaf (EB "c2" (PenBrush (Some (Pen (Brush (CStr "black")) 0)) None) true t_new) (SCurve [(CP (P 0x1.4000000000000p+3 0) (V 0 0x1.0000000000000p+0) (V 0 (-0x1.0000000000000p+0)) "smooth"); (CP (P 0 0) (V 0 0x1.0000000000000p+0) (V 0 (-0x1.0000000000000p+0)) "smooth")])); (ELeaf (EB "e1" (PenBrush (Some (Pen (Brush (CStr "red")) 0)) (Some (Brush (CStr "blue")))) true t_new) (SCurve [(CP (P 0x1.0000000000000p+0 0x1.8000000000000p+0) (V 0 0x1.6176555a81caap+0) (V 0 (-0x1.6176555a81caap+0)) "smooth"); (CP (P (-0x1.0000000000000p+0) (-0x1.0000000000000p+0)) (V 0x1.1ac5111534a22p+0 0) (V (-0x1.1ac5111534a22p+0) 0) "smooth"); (CP (P (-0x1.8000000000000p+1) 0x1.8000000000000p+0) (V 0 (-0x1.6176555a81caap+0)) (V 0 0x1.6176555a81caap+0) "smooth"); (CP (P (-0x1.0000000000000p+0) 0x1.0000000000000p+2) (V (-0x1.1ac5111534a22p+0) 0) (V 0x1.1ac5111534a22p+0 0) "smooth")])); (ELeaf (EB "e2" (PenBrush (Some (Pen (Brush (CStr "red")) 0)) (Some (Brush (CStr "blue")))) true t_new) (SCurve [(CP (P 0x1.8000000000000p+1 (-0x1.0000000000000p+0)) (V 0 0x1.a827999fcef33p+0) (V 0 (-0x1.a827999fcef34p+0)) "smooth"); (CP (P 0x1.0000000000000p+1 (-0x1.0000000000000p+2)) (V 0x1.1ac5111534a20p-1 0) (V (-0x1.1ac5111534a22p-1) 0) "smooth"); (CP (P 0x1.0000000000000p+0 (-0x1.0000000000000p+0)) (V 0 (-0x1.a827999fcef34p+0)) (V 0 0x1.a827999fcef33p+0) "smooth"); (CP (P 0x1.0000000000000p+1 0x1.0000000000000p+1) (V (-0x1.1ac5111534a22p-1) 0) (V 0x1.1ac5111534a20p-1 0) "smooth")])); (ELeaf (EB "r1" (PenBrush (Some (Pen (Brush (CStr "red")) 0)) (Some (Brush (CStr "blue")))) true t_new) (SCurve [(CP (P 0x1.0000000000000p+0 (-0x1.0000000000000p+0)) (V 0 0) (V 0 0) "smooth"); (CP (P 0x1.0000000000000p+0 0x1.0000000000000p+2) (V 0 0) (V 0 0) "smooth"); (CP (P (-0x1.8000000000000p+1) 0x1.0000000000000p+2) (V 0 0) (V 0 0) "smooth"); (CP (P (-0x1.8000000000000p+1) (-0x1.0000000000000p+0)) (V 0 0) (V 0 0) "smooth")])); (ELeaf (EB "r2" (PenBrush (Some (Pen (Brush (CStr "red")) 0)) (Some (Brush (CStr "blue")))) true t_new) (SCurve [(CP (P 0x1.0000000000000p+0 0x1.0000000000000p+1) (V 0 0) (V 0 0) "smooth"); (CP (P 0x1.0000000000000p+0 (-0x1.0000000000000p+2)) (V 0 0) (V 0 0) "smooth"); (CP (P 0x1.8000000000000p+1 (-0x1.0000000000000p+2)) (V 0 0) (V 0 0) "smooth"); (CP (P 0x1.8000000000000p+1 0x1.0000000000000p+1) (V 0 0) (V 0 0) "smooth")])); (ELeaf (EB "rr1" (PenBrush (Some (Pen (Brush (CStr "red")) 0)) (Some (Brush (CStr "blue")))) true t_new) (SCurve [(CP (P 0x1.0000000000000p+0 (-0x1.999999999999ap-1)) (V 0 (-0x1.c46e81bb876a0p-4)) (V 0 0x1.c46e81bb876a0p-4) "smooth"); (CP (P 0x1.0000000000000p+0 0x1.e666666666666p+1) (V 0 (-0x1.c46e81bb876a0p-4)) (V 0 0x1.c46e81bb876a0p-4) "smooth"); (CP (P 0x1.999999999999ap-1 0x1.0000000000000p+2) (V 0x1.c46e81bb876a0p-4 0) (V (-0x1.c46e81bb876a0p-4) 0) "smooth"); (CP (P (-0x1.6666666666666p+1) 0x1.0000000000000p+2) (V 0x1.c46e81bb876a0p-4 0) (V (-0x1.c46e81bb876a0p-4) 0) "smooth"); (CP (P (-0x1.8000000000000p+1) 0x1.e666666666666p+1) (V 0 0x1.c46e81bb876a0p-4) (V 0 (-0x1.c46e81bb876a0p-4)) "smooth"); (CP (P (-0x1.8000000000000p+1) (-0x1.999999999999ap-1)) (V 0 0x1.c46e81bb876a0p-4) (V 0 (-0x1.c46e81bb876a0p-4)) "smooth"); (CP (P (-0x1.6666666666666p+1) (-0x1.0000000000000p+0)) (V (-0x1.c46e81bb876a0p-4) 0) (V 0x1.c46e81bb876a0p-4 0) "smooth"); (CP (P 0x1.999999999999ap-1 (-0x1.0000000000000p+0)) (V (-0x1.c46e81bb876a0p-4) 0) (V 0x1.c46e81bb876a0p-4 0) "smooth")])); (ELeaf (EB "rr2" (PenBrush (Some (Pen (Brush (CStr "red")) 0)) (Some (Brush (CStr "blue")))) true t_new) (SCurve [(CP (P 0x1.0000000000000p+0 0x1.0000000000000p+0) (V 0 0x1.1ac5111534a22p-1) (V 0 (-0x1.1ac5111534a22p-1)) "smooth"); (CP (P 0x1.0000000000000p+0 (-0x1.8000000000000p+1)) (V 0 0x1.1ac5111534a20p-1) (V 0 (-0x1.1ac5111534a20p-1)) "smooth"); (CP (P 0x1.0000000000000p+1 (-0x1.0000000000000p+2)) (V (-0x1.1ac5111534a22p-1) 0) (V 0x1.1ac5111534a20p-1 0) "smooth"); (CP (P 0x1.8000000000000p+1 (-0x1.8000000000000p+1)) (V 0 (-0x1.1ac5111534a20p-1)) (V 0 0x1.1ac5111534a20p-1) "smooth"); (CP (P 0x1.8000000000000p+1 0x1.0000000000000p+0) (V 0 (-0x1.1ac5111534a22p-1)) (V 0 0x1.1ac5111534a22p-1) "smooth"); (CP (P 0x1.0000000000000p+1 0x1.0000000000000p+1) (V 0x1.1ac5111534a20p-1 0) (V (-0x1.1ac5111534a22p-1) 0) "smooth")]))] = true.
Proof. vm_compute. reflexivity. Qed.
Example TestGroup_group2_bbox : gives bbox_near (elem_bbox TestGroup_group2)
  (BB (-0x1.8000000000000p+1) (-0x1.0000000000000p+2) 0x1.4000000000000p+3 0x1.0000000000000p+2) = true.
Proof. vm_compute. reflexivity. Qed.
Example TestGroup_group2_bbox_int : gives bbox_near (elem_bbox_int TestGroup_group2)
  (BB (-0x1.8000000000000p+1) (-0x1.0000000000000p+2) 0x1.4000000000000p+3 0x1.0000000000000p+2) = true.
Proof. vm_compute. reflexivity. Qed.
Example TestGroup_group2_control_paths : gives (all2 (fun k b => match b with inl l => cpath_pts k l | inr l => cpath_cps k l end)) (snd (elem_control_paths TestGroup_group2 t_new))
  [inr [(CP (P 0 0) (V 0 0x1.0000000000000p+0) (V 0 (-0x1.0000000000000p+0)) "smooth"); (CP (P 0x1.4000000000000p+3 0) (V 0 0x1.0000000000000p+0) (V 0 (-0x1.0000000000000p+0)) "smooth")]; inr [(CP (P 0x1.4000000000000p+3 0) (V 0 0x1.0000000000000p+0) (V 0 (-0x1.0000000000000p+0)) "smooth"); (CP (P 0 0) (V 0 0x1.0000000000000p+0) (V 0 (-0x1.0000000000000p+0)) "smooth")]; inr [(CP (P 0x1.0000000000000p+0 0x1.8000000000000p+0) (V 0 0x1.6176555a81caap+0) (V 0 (-0x1.6176555a81caap+0)) "smooth"); (CP (P (-0x1.0000000000000p+0) (-0x1.0000000000000p+0)) (V 0x1.1ac5111534a22p+0 0) (V (-0x1.1ac5111534a22p+0) 0) "smooth"); (CP (P (-0x1.8000000000000p+1) 0x1.8000000000000p+0) (V 0 (-0x1.6176555a81caap+0)) (V 0 0x1.6176555a81caap+0) "smooth"); (CP (P (-0x1.0000000000000p+0) 0x1.0000000000000p+2) (V (-0x1.1ac5111534a22p+0) 0) (V 0x1.1ac5111534a22p+0 0) "smooth")]; inr [(CP (P 0x1.8000000000000p+1 (-0x1.0000000000000p+0)) (V 0 0x1.a827999fcef33p+0) (V 0 (-0x1.a827999fcef34p+0)) "smooth"); (CP (P 0x1.0000000000000p+1 (-0x1.0000000000000p+2)) (V 0x1.1ac5111534a20p-1 0) (V (-0x1.1ac5111534a22p-1) 0) "smooth"); (CP (P 0x1.0000000000000p+0 (-0x1.0000000000000p+0)) (V 0 (-0x1.a827999fcef34p+0)) (V 0 0x1.a827999fcef33p+0) "smooth"); (CP (P 0x1.0000000000000p+1 0x1.0000000000000p+1) (V (-0x1.1ac5111534a22p-1) 0) (V 0x1.1ac5111534a20p-1 0) "smooth")]; inl [(P 0x1.0000000000000p+0 (-0x1.0000000000000p+0)); (P 0x1.0000000000000p+0 0x1.0000000000000p+2); (P (-0x1.8000000000000p+1) 0x1.0000000000000p+2); (P (-0x1.8000000000000p+1) (-0x1.0000000000000p+0))]; inl [(P 0x1.0000000000000p+0 0x1.0000000000000p+1); (P 0x1.0000000000000p+0 (-0x1.0000000000000p+2)); (P 0x1.8000000000000p+1 (-0x1.0000000000000p+2)); (P 0x1.8000000000000p+1 0x1.0000000000000p+1)]; inr [(CP (P 0x1.0000000000000p+0 (-0x1.999999999999ap-1)) (V 0 (-0x1.c46e81bb876a0p-4)) (V 0 0x1.c46e81bb876a0p-4) "smooth"); (CP (P 0x1.0000000000000p+0 0x1.e666666666666p+1) (V 0 (-0x1.c46e81bb876a0p-4)) (V 0 0x1.c46e81bb876a0p-4) "smooth"); (CP (P 0x1.999999999999ap-1 0x1.0000000000000p+2) (V 0x1.c46e81bb876a0p-4 0) (V (-0x1.c46e81bb876a0p-4) 0) "smooth"); (CP (P (-0x1.6666666666666p+1) 0x1.0000000000000p+2) (V 0x1.c46e81bb876a0p-4 0) (V (-0x1.c46e81bb876a0p-4) 0) "smooth"); (CP (P (-0x1.8000000000000p+1) 0x1.e666666666666p+1) (V 0 0x1.c46e81bb876a0p-4) (V 0 (-0x1.c46e81bb876a0p-4)) "smooth"); (CP (P (-0x1.8000000000000p+1) (-0x1.999999999999ap-1)) (V 0 0x1.c46e81bb876a0p-4) (V 0 (-0x1.c46e81bb876a0p-4)) "smooth"); (CP (P (-0x1.6666666666666p+1) (-0x1.0000000000000p+0)) (V (-0x1.c46e81bb876a0p-4) 0) (V 0x1.c46e81bb876a0p-4 0) "smooth"); (CP (P 0x1.999999999999ap-1 (-0x1.0000000000000p+0)) (V (-0x1.c46e81bb876a0p-4) 0) (V 0x1.c46e81bb876a0p-4 0) "smooth")]; inr [(CP (P 0x1.0000000000000p+0 0x1.0000000000000p+0) (V 0 0x1.1ac5111534a22p-1) (V 0 (-0x1.1ac5111534a22p-1)) "smooth"); (CP (P 0x1.0000000000000p+0 (-0x1.8000000000000p+1)) (V 0 0x1.1ac5111534a20p-1) (V 0 (-0x1.1ac5111534a20p-1)) "smooth"); (CP (P 0x1.0000000000000p+1 (-0x1.0000000000000p+2)) (V (-0x1.1ac5111534a22p-1) 0) (V 0x1.1ac5111534a20p-1 0) "smooth"); (CP (P 0x1.8000000000000p+1 (-0x1.8000000000000p+1)) (V 0 (-0x1.1ac5111534a20p-1)) (V 0 0x1.1ac5111534a20p-1) "smooth"); (CP (P 0x1.8000000000000p+1 0x1.0000000000000p+0) (V 0 (-0x1.1ac5111534a22p-1)) (V 0 0x1.1ac5111534a22p-1) "smooth"); (CP (P 0x1.0000000000000p+1 0x1.0000000000000p+1) (V 0x1.1ac5111534a20p-1 0) (V (-0x1.1ac5111534a22p-1) 0) "smooth")]] = true.
Proof. vm_compute. reflexivity. Qed.
Example TestGroup_group2_copy : gives elem_near (elem_copy TestGroup_group2)
  (EGroup (EB "group2" (PenBrush (Some (Pen (Brush (CStr "default")) 0)) None) false t_new) false [("c1", (ELeaf (EB "c1" (PenBrush (Some (Pen (Brush (CStr "black")) 0)) None) true t_new) (SCurve [(CP (P 0 0) (V 0 0x1.0000000000000p+0) (V 0 (-0x1.0000000000000p+0)) "smooth"); (CP (P 0x1.4000000000000p+3 0) (V 0 0x1.0000000000000p+0) (V 0 (-0x1.0000000000000p+0)) "smooth")]))); ("c2", (ELeaf (EB "c2" (PenBrush (Some (Pen (Brush (CStr "black")) 0)) None) true t_new) (SCurve [(CP (P 0x1.4000000000000p+3 0) (V 0 0x1.0000000000000p+0) (V 0 (-0x1.0000000000000p+0)) "smooth"); (CP (P 0 0) (V 0 0x1.0000000000000p+0) (V 0 (-0x1.0000000000000p+0)) "smooth")]))); ("e1", (ELeaf (EB "e1" (PenBrush (Some (Pen (Brush (CStr "red")) 0)) (Some (Brush (CStr "blue")))) true t_new) (SEllipse (P 0x1.0000000000000p+0 (-0x1.0000000000000p+0)) (P (-0x1.8000000000000p+1) 0x1.0000000000000p+2)))); ("e2", (ELeaf (EB "e2" (PenBrush (Some (Pen (Brush (CStr "red")) 0)) (Some (Brush (CStr "blue")))) true t_new) (SEllipse (P 0x1.0000000000000p+0 0x1.0000000000000p+1) (P 0x1.8000000000000p+1 (-0x1.0000000000000p+2))))); ("r1", (ELeaf (EB "r1" (PenBrush (Some (Pen (Brush (CStr "red")) 0)) (Some (Brush (CStr "blue")))) true t_new) (SRect (P 0x1.0000000000000p+0 (-0x1.0000000000000p+0)) (P (-0x1.8000000000000p+1) 0x1.0000000000000p+2)))); ("r2", (ELeaf (EB "r2" (PenBrush (Some (Pen (Brush (CStr "red")) 0)) (Some (Brush (CStr "blue")))) true t_new) (SRect (P 0x1.0000000000000p+0 0x1.0000000000000p+1) (P 0x1.8000000000000p+1 (-0x1.0000000000000p+2))))); ("rr1", (ELeaf (EB "rr1" (PenBrush (Some (Pen (Brush (CStr "red")) 0)) (Some (Brush (CStr "blue")))) true t_new) (SRRect (P 0x1.0000000000000p+0 (-0x1.0000000000000p+0)) (P (-0x1.8000000000000p+1) 0x1.0000000000000p+2) 0x1.999999999999ap-3))); ("rr2", (ELeaf (EB "rr2" (PenBrush (Some (Pen (Brush (CStr "red")) 0)) (Some (Brush (CStr "blue")))) true t_new) (SRRect (P 0x1.0000000000000p+0 0x1.0000000000000p+1) (P 0x1.8000000000000p+1 (-0x1.0000000000000p+2)) 0x1.0000000000000p+0)))] []) = true.
Proof. vm_compute. reflexivity. Qed.
Example TestGroup_group2_iter_elems : gives (all2 yield_near) (iter_collect TestGroup_group2 (Some "t_root") shift12)
  [("t_root.group2.c1", (ELeaf (EB "c1" (PenBrush (Some (Pen (Brush (CStr "black")) 0)) None) true t_new) (SCurve [(CP (P 0 0) (V 0 0x1.0000000000000p+0) (V 0 (-0x1.0000000000000p+0)) "smooth"); (CP (P 0x1.4000000000000p+3 0) (V 0 0x1.0000000000000p+0) (V 0 (-0x1.0000000000000p+0)) "smooth")])), (t_new6 0x1.0000000000000p+0 0 0x1.0000000000000p+0 0 0x1.0000000000000p+0 0x1.0000000000000p+1)); ("t_root.group2.c2", (ELeaf (EB "c2" (PenBrush (Some (Pen (Brush (CStr "black")) 0)) None) true t_new) (SCurve [(CP (P 0x1.4000000000000p+3 0) (V 0 0x1.0000000000000p+0) (V 0 (-0x1.0000000000000p+0)) "smooth"); (CP (P 0 0) (V 0 0x1.0000000000000p+0) (V 0 (-0x1.0000000000000p+0)) "smooth")])), (t_new6 0x1.0000000000000p+0 0 0x1.0000000000000p+0 0 0x1.0000000000000p+0 0x1.0000000000000p+1)); ("t_root.group2.e1", (ELeaf (EB "e1" (PenBrush (Some (Pen (Brush (CStr "red")) 0)) (Some (Brush (CStr "blue")))) true t_new) (SEllipse (P 0x1.0000000000000p+0 (-0x1.0000000000000p+0)) (P (-0x1.8000000000000p+1) 0x1.0000000000000p+2))), (t_new6 0x1.0000000000000p+0 0 0x1.0000000000000p+0 0 0x1.0000000000000p+0 0x1.0000000000000p+1)); ("t_root.group2.e2", (ELeaf (EB "e2" (PenBrush (Some (Pen (Brush (CStr "red")) 0)) (Some (Brush (CStr "blue")))) true t_new) (SEllipse (P 0x1.0000000000000p+0 0x1.0000000000000p+1) (P 0x1.8000000000000p+1 (-0x1.0000000000000p+2)))), (t_new6 0x1.0000000000000p+0 0 0x1.0000000000000p+0 0 0x1.0000000000000p+0 0x1.0000000000000p+1)); ("t_root.group2.r1", (ELeaf (EB "r1" (PenBrush (Some (Pen (Brush (CStr "red")) 0)) (Some (Brush (CStr "blue")))) true t_new) (SRect (P 0x1.0000000000000p+0 (-0x1.0000000000000p+0)) (P (-0x1.8000000000000p+1) 0x1.0000000000000p+2))), (t_new6 0x1.0000000000000p+0 0 0x1.0000000000000p+0 0 0x1.0000000000000p+0 0x1.0000000000000p+1)); ("t_root.group2.r2", (ELeaf (EB "r2" (PenBrush (Some (Pen (Brush (CStr "red")) 0)) (Some (Brush (CStr "blue")))) true t_new) (SRect (P 0x1.0000000000000p+0 0x1.0000000000000p+1) (P 0x1.8000000000000p+1 (-0x1.0000000000000p+2)))), (t_new6 0x1.0000000000000p+0 0 0x1.0000000000000p+0 0 0x1.0000000000000p+0 0x1.0000000000000p+1)); ("t_root.group2.rr1", (ELeaf (EB "rr1" (PenBrush (Some (Pen (Brush (CStr "red")) 0)) (Some (Brush (CStr "blue")))) true t_new) (SRRect (P 0x1.0000000000000p+0 (-0x1.0000000000000p+0)) (P (-0x1.8000000000000p+1) 0x1.0000000000000p+2) 0x1.999999999999ap-3)), (t_new6 0x1.0000000000000p+0 0 0x1.0000000000000p+0 0 0x1.0000000000000p+0 0x1.0000000000000p+1)); ("t_root.group2.rr2", (ELeaf (EB "rr2" (PenBrush (Some (Pen (Brush (CStr "red")) 0)) (Some (Brush (CStr "blue")))) true t_new) (SRRect (P 0x1.0000000000000p+0 0x1.0000000000000p+1) (P 0x1.8000000000000p+1 (-0x1.0000000000000p+2)) 0x1.0000000000000p+0)), (t_new6 0x1.0000000000000p+0 0 0x1.0000000000000p+0 0 0x1.0000000000000p+0 0x1.0000000000000p+1))] = true.
Proof. vm_compute. reflexivity. Qed.
Example TestGroup_group2_iter_elems_xf : gives (all2 elem_near) (snd (iter_transformed TestGroup_group2 (Some "t_root") rot_c))
  [(ELeaf (EB "t_root.group2.c1" (PenBrush (Some (Pen (Brush (CStr "black")) 0)) None) true t_new) (SCurve [(CP (P (-0x1.54131970dabb8p-2) 0x1.a1dbe1a0292d0p-3) (V 0x1.63a1a7e0b7389p-3 0x1.f838b8c811c18p-1) (V (-0x1.63a1a7e0b7388p-3) (-0x1.f838b8c811c17p-1)) "smooth"); (CP (P 0x1.3082dab184430p+3 (-0x1.884e95a4dfe11p+0)) (V 0x1.63a1a7e0b7380p-3 0x1.f838b8c811c17p-1) (V (-0x1.63a1a7e0b7380p-3) (-0x1.f838b8c811c16p-1)) "smooth")])); (ELeaf (EB "t_root.group2.c2" (PenBrush (Some (Pen (Brush (CStr "black")) 0)) None) true t_new) (SCurve [(CP (P 0x1.3082dab184430p+3 (-0x1.884e95a4dfe11p+0)) (V 0x1.63a1a7e0b7380p-3 0x1.f838b8c811c17p-1) (V (-0x1.63a1a7e0b7380p-3) (-0x1.f838b8c811c16p-1)) "smooth"); (CP (P (-0x1.54131970dabb8p-2) 0x1.a1dbe1a0292d0p-3) (V 0x1.63a1a7e0b7389p-3 0x1.f838b8c811c18p-1) (V (-0x1.63a1a7e0b7388p-3) (-0x1.f838b8c811c17p-1)) "smooth")])); (ELeaf (EB "t_root.group2.e1" (PenBrush (Some (Pen (Brush (CStr "red")) 0)) (Some (Brush (CStr "blue")))) true (t_new6 0x1.f838b8c811c17p-1 0x1.63a1a7e0b7389p-3 0 (-0x1.63a1a7e0b7389p-3) 0x1.f838b8c811c17p-1 0)) (SEllipse (P 0x1.4667e4d7b6254p-1 (-0x1.b6a62477aeaefp-1)) (P (-0x1.ae6606ca1276cp+1) 0x1.092b3b710a2a1p+2))); (ELeaf (EB "t_root.group2.e2" (PenBrush (Some (Pen (Brush (CStr "red")) 0)) (Some (Brush (CStr "blue")))) true (t_new6 0x1.f838b8c811c17p-1 0x1.63a1a7e0b7389p-3 0 (-0x1.63a1a7e0b7389p-3) 0x1.f838b8c811c17p-1 0)) (SEllipse (P 0x1.4667e4d7b6254p-1 0x1.125676e214545p+1) (P 0x1.5199f935ed896p+1 (-0x1.eda9891debabcp+1)))); (ELeaf (EB "t_root.group2.r1" (PenBrush (Some (Pen (Brush (CStr "red")) 0)) (Some (Brush (CStr "blue")))) true (t_new6 0x1.f838b8c811c17p-1 0x1.63a1a7e0b7389p-3 0 (-0x1.63a1a7e0b7389p-3) 0x1.f838b8c811c17p-1 0)) (SRect (P 0x1.4667e4d7b6254p-1 (-0x1.b6a62477aeaefp-1)) (P (-0x1.ae6606ca1276cp+1) 0x1.092b3b710a2a1p+2))); (ELeaf (EB "t_root.group2.r2" (PenBrush (Some (Pen (Brush (CStr "red")) 0)) (Some (Brush (CStr "blue")))) true (t_new6 0x1.f838b8c811c17p-1 0x1.63a1a7e0b7389p-3 0 (-0x1.63a1a7e0b7389p-3) 0x1.f838b8c811c17p-1 0)) (SRect (P 0x1.4667e4d7b6254p-1 0x1.125676e214545p+1) (P 0x1.5199f935ed896p+1 (-0x1.eda9891debabcp+1)))); (ELeaf (EB "t_root.group2.rr1" (PenBrush (Some (Pen (Brush (CStr "red")) 0)) (Some (Brush (CStr "blue")))) true (t_new6 0x1.f838b8c811c17p-1 0x1.63a1a7e0b7389p-3 0 (-0x1.63a1a7e0b7389p-3) 0x1.f838b8c811c17p-1 0)) (SRRect (P 0x1.4667e4d7b6254p-1 (-0x1.b6a62477aeaefp-1)) (P (-0x1.ae6606ca1276cp+1) 0x1.092b3b710a2a1p+2) 0x1.9999999999994p-3)); (ELeaf (EB "t_root.group2.rr2" (PenBrush (Some (Pen (Brush (CStr "red")) 0)) (Some (Brush (CStr "blue")))) true (t_new6 0x1.f838b8c811c17p-1 0x1.63a1a7e0b7389p-3 0 (-0x1.63a1a7e0b7389p-3) 0x1.f838b8c811c17p-1 0)) (SRRect (P 0x1.4667e4d7b6254p-1 0x1.125676e214545p+1) (P 0x1.5199f935ed896p+1 (-0x1.eda9891debabcp+1)) 0x1.0000000000002p+0))] = true.
Proof. vm_compute. reflexivity. Qed.
Example TestGroup_group2_paths : gives (all2 path_near) (snd (elem_paths dc5 TestGroup_group2 t_new))
  [((PenBrush (Some (Pen (Brush (CStr "black")) 0)) None), true, [(0, 0); (0x1.0a3d70a3d70a5p+0, (-0x1.26e978d4fdf3dp-2)); (0x1.c28f5c28f5c2ap+1, (-0x1.26e978d4fdf38p-3)); (0x1.9eb851eb851ebp+2, 0x1.26e978d4fdf38p-3); (0x1.1eb851eb851ecp+3, 0x1.26e978d4fdf3cp-2); (0x1.4000000000000p+3, 0); (0x1.1eb851eb851edp+3, (-0x1.26e978d4fdf3dp-2)); (0x1.9eb851eb851ebp+2, (-0x1.26e978d4fdf38p-3)); (0x1.c28f5c28f5c2ap+1, 0x1.26e978d4fdf38p-3); (0x1.0a3d70a3d70a2p+0, 0x1.26e978d4fdf3cp-2); (0, 0)]); ((PenBrush (Some (Pen (Brush (CStr "black")) 0)) None), true, [(0x1.4000000000000p+3, 0); (0x1.1eb851eb851edp+3, (-0x1.26e978d4fdf3dp-2)); (0x1.9eb851eb851ebp+2, (-0x1.26e978d4fdf38p-3)); (0x1.c28f5c28f5c2ap+1, 0x1.26e978d4fdf38p-3); (0x1.0a3d70a3d70a2p+0, 0x1.26e978d4fdf3cp-2); (0, 0); (0x1.0a3d70a3d70a5p+0, (-0x1.26e978d4fdf3dp-2)); (0x1.c28f5c28f5c2ap+1, (-0x1.26e978d4fdf38p-3)); (0x1.9eb851eb851ebp+2, 0x1.26e978d4fdf38p-3); (0x1.1eb851eb851ecp+3, 0x1.26e978d4fdf3cp-2); (0x1.4000000000000p+3, 0)]); ((PenBrush (Some (Pen (Brush (CStr "red")) 0)) (Some (Brush (CStr "blue")))), true, [(0x1.0000000000000p+0, 0x1.8000000000000p+0); (0x1.fc9b000d2a8abp-1, 0x1.4b829296da037p+0); (0x1.f298fa4437942p-1, 0x1.18304d0d142c5p+0); (0x1.e23d65bc7b393p-1, 0x1.cc66b3a286194p-1); (0x1.cbcbb98d49981p-1, 0x1.6b6bc6a3f66ecp-1); (0x1.af876ccdf6cdap-1, 0x1.0dc427fba27d1p-1); (0x1.8db3f695d6f78p-1, 0x1.6788590d66d2bp-2); (0x1.6694cdfc3e33ap-1, 0x1.7700a48949632p-3); (0x1.3a6d6a18809edp-1, 0x1.818e55750df3cp-6); (0x1.09814201f2572p-1, (-0x1.040a880084b36p-3)); (0x1.a827999fcef34p-2, (-0x1.12318007c2affp-2)); (0x1.34d103336847ap-2, (-0x1.97c32504ddd9cp-2)); (0x1.730b5ddab1ce1p-3, (-0x1.0908c49ea0c69p-1)); (0x1.b66457e2485c8p-5, (-0x1.403a017b4dc09p-1)); ((-0x1.4b4de9c47c3b8p-4), (-0x1.7120f43b4cb58p-1)); ((-0x1.c5a6e6586e5cdp-3), (-0x1.9b69480174810p-1)); ((-0x1.78ac710657179p-2), (-0x1.bebea7f09bfe0p-1)); ((-0x1.09ebc2e86b477p-1), (-0x1.daccbf2b9a078p-1)); ((-0x1.59e6e1ae86ad3p-1), (-0x1.ef3f38d545791p-1)); ((-0x1.ac041dbe299f1p-1), (-0x1.fbc1c010752d7p-1)); ((-0x1.0000000000000p+0), (-0x1.0000000000000p+0)); ((-0x1.29fdf120eb306p+0), (-0x1.fbc1c010752d6p-1)); ((-0x1.530c8f28bca97p+0), (-0x1.ef3f38d545793p-1)); ((-0x1.7b0a1e8bca5c2p+0), (-0x1.daccbf2b9a079p-1)); ((-0x1.a1d4e3be6a3a5p+0), (-0x1.bebea7f09bfe1p-1)); ((-0x1.c74b2334f2346p+0), (-0x1.9b69480174810p-1)); ((-0x1.eb4b2163b83c2p+0), (-0x1.7120f43b4cb57p-1)); ((-0x1.06d9915f89217p+1), (-0x1.403a017b4dc08p-1)); ((-0x1.1730b5ddab1cep+1), (-0x1.0908c49ea0c68p-1)); ((-0x1.269a20666d091p+1), (-0x1.97c32504ddd9dp-2)); ((-0x1.3504f333f9de6p+1), (-0x1.12318007c2affp-2)); ((-0x1.426050807c95dp+1), (-0x1.040a880084b30p-3)); ((-0x1.4e9b5a862027cp+1), 0x1.818e55750df40p-6); ((-0x1.59a5337f0f8cfp+1), 0x1.7700a48949632p-3); ((-0x1.636cfda575bdep+1), 0x1.6788590d66d2ap-2); ((-0x1.6be1db337db36p+1), 0x1.0dc427fba27d0p-1); ((-0x1.72f2ee6352661p+1), 0x1.6b6bc6a3f66edp-1); ((-0x1.788f596f1ece4p+1), 0x1.cc66b3a286194p-1); ((-0x1.7ca63e910de50p+1), 0x1.18304d0d142c4p+0); ((-0x1.7f26c0034aa2cp+1), 0x1.4b829296da037p+0); ((-0x1.8000000000000p+1), 0x1.8000000000000p+0); ((-0x1.7f26c0034aa2bp+1), 0x1.b47d6d6925fc8p+0); ((-0x1.7ca63e910de51p+1), 0x1.e7cfb2f2ebd3ep+0); ((-0x1.788f596f1ece4p+1), 0x1.0ce653175e79ap+1); ((-0x1.72f2ee6352661p+1), 0x1.25250e5702647p+1); ((-0x1.6be1db337db36p+1), 0x1.3c8ef6011760cp+1); ((-0x1.636cfda575bdep+1), 0x1.530ef4de53259p+1); ((-0x1.59a5337f0f8cfp+1), 0x1.688ff5b76b69dp+1); ((-0x1.4e9b5a862027cp+1), 0x1.7cfce35515e42p+1); ((-0x1.426050807c95ep+1), 0x1.9040a880084b5p+1); ((-0x1.3504f333f9de6p+1), 0x1.a2463000f8560p+1); ((-0x1.269a20666d08fp+1), 0x1.b2f864a09bbb3p+1); ((-0x1.1730b5ddab1cep+1), 0x1.c2423127a831ap+1); ((-0x1.06d9915f89217p+1), 0x1.d00e805ed3702p+1); ((-0x1.eb4b2163b83c4p+0), 0x1.dc483d0ed32d6p+1); ((-0x1.c74b2334f2346p+0), 0x1.e6da52005d204p+1); ((-0x1.a1d4e3be6a3a2p+0), 0x1.efafa9fc26ff9p+1); ((-0x1.7b0a1e8bca5c4p+0), 0x1.f6b32fcae681ep+1); ((-0x1.530c8f28bca97p+0), 0x1.fbcfce35515e4p+1); ((-0x1.29fdf120eb308p+0), 0x1.fef070041d4b6p+1); ((-0x1.0000000000000p+0), 0x1.0000000000000p+2); ((-0x1.ac041dbe299f0p-1), 0x1.fef070041d4b5p+1); ((-0x1.59e6e1ae86ad2p-1), 0x1.fbcfce35515e6p+1); ((-0x1.09ebc2e86b477p-1), 0x1.f6b32fcae681ep+1); ((-0x1.78ac710657177p-2), 0x1.efafa9fc26ffap+1); ((-0x1.c5a6e6586e5cep-3), 0x1.e6da52005d204p+1); ((-0x1.4b4de9c47c3bep-4), 0x1.dc483d0ed32d5p+1); (0x1.b66457e2485cbp-5, 0x1.d00e805ed3702p+1); (0x1.730b5ddab1ce2p-3, 0x1.c2423127a831ap+1); (0x1.34d103336847ep-2, 0x1.b2f864a09bbb4p+1); (0x1.a827999fcef33p-2, 0x1.a2463000f8560p+1); (0x1.09814201f2572p-1, 0x1.9040a880084b3p+1); (0x1.3a6d6a18809eep-1, 0x1.7cfce35515e41p+1); (0x1.6694cdfc3e33ap-1, 0x1.688ff5b76b69dp+1); (0x1.8db3f695d6f79p-1, 0x1.530ef4de5325ap+1); (0x1.af876ccdf6cdap-1, 0x1.3c8ef6011760cp+1); (0x1.cbcbb98d49980p-1, 0x1.25250e5702646p+1); (0x1.e23d65bc7b394p-1, 0x1.0ce653175e79ap+1); (0x1.f298fa4437941p-1, 0x1.e7cfb2f2ebd3dp+0); (0x1.fc9b000d2a8acp-1, 0x1.b47d6d6925fcap+0); (0x1.0000000000000p+0, 0x1.8000000000000p+0)]); ((PenBrush (Some (Pen (Brush (CStr "red")) 0)) (Some (Brush (CStr "blue")))), true, [(0x1.8000000000000p+1, (-0x1.0000000000000p+0)); (0x1.7f936001a5514p+1, (-0x1.3efce9b160c8ap+0)); (0x1.7e531f4886f28p+1, (-0x1.7c92d6bd1afe4p+0)); (0x1.7c47acb78f671p+1, (-0x1.b88f2dd1af8a6p+0)); (0x1.79797731a9331p+1, (-0x1.f2bf559d9f577p+0)); (0x1.75f0ed99bed9bp+1, (-0x1.15785a67b5a75p+1)); (0x1.71b67ed2badedp+1, (-0x1.3078590aca2d3p+1)); (0x1.6cd299bf87c68p+1, (-0x1.4a465a0f4db24p+1)); (0x1.674dad431013ep+1, (-0x1.62c910cc80ab6p+1)); (0x1.613028403e4b0p+1, (-0x1.79e73099a38d9p+1)); (0x1.5a827999fcef3p+1, (-0x1.8f876ccdf6cdap+1)); (0x1.534d103336846p+1, (-0x1.a39078c0bae0bp+1)); (0x1.4b985aeed58e7p+1, (-0x1.b5e907c9303b9p+1)); (0x1.436cc8afc490cp+1, (-0x1.c677cd3e97536p+1)); (0x1.3ad2c858ee0f1p+1, (-0x1.d5237c78309cep+1)); (0x1.31d2c8cd3c8d2p+1, (-0x1.e1d2c8cd3c8d2p+1)); (0x1.287538ef9a8e8p+1, (-0x1.ec6c6594fb991p+1)); (0x1.1ec287a2f2970p+1, (-0x1.f4d70626ae357p+1)); (0x1.14c323ca2f2a6p+1, (-0x1.faf95dd994d78p+1)); (0x1.0a7f7c483acc2p+1, (-0x1.feba2004eff41p+1)); (0x1.0000000000000p+1, (-0x1.0000000000000p+2)); (0x1.eb01076f8a67bp+0, (-0x1.feba2004eff40p+1)); (0x1.d679b86ba1ab5p+0, (-0x1.faf95dd994d7ap+1)); (0x1.c27af0ba1ad1cp+0, (-0x1.f4d70626ae357p+1)); (0x1.af158e20cae31p+0, (-0x1.ec6c6594fb992p+1)); (0x1.9c5a6e6586e5dp+0, (-0x1.e1d2c8cd3c8d2p+1)); (0x1.8a5a6f4e23e1dp+0, (-0x1.d5237c78309ccp+1)); (0x1.79266ea076de9p+0, (-0x1.c677cd3e97536p+1)); (0x1.68cf4a2254e32p+0, (-0x1.b5e907c9303b9p+1)); (0x1.5965df9992f72p+0, (-0x1.a39078c0bae0cp+1)); (0x1.4afb0ccc0621ap+0, (-0x1.8f876ccdf6cdap+1)); (0x1.3d9faf7f836a4p+0, (-0x1.79e73099a38d7p+1)); (0x1.3164a579dfd85p+0, (-0x1.62c910cc80ab6p+1)); (0x1.265acc80f0732p+0, (-0x1.4a465a0f4db23p+1)); (0x1.1c93025a8a421p+0, (-0x1.3078590aca2d4p+1)); (0x1.141e24cc824cap+0, (-0x1.15785a67b5a75p+1)); (0x1.0d0d119cad9a0p+0, (-0x1.f2bf559d9f574p+0)); (0x1.0770a690e131bp+0, (-0x1.b88f2dd1af8a6p+0)); (0x1.0359c16ef21b0p+0, (-0x1.7c92d6bd1afe3p+0)); (0x1.00d93ffcb55d5p+0, (-0x1.3efce9b160c8cp+0)); (0x1.0000000000000p+0, (-0x1.0000000000000p+0)); (0x1.00d93ffcb55d5p+0, (-0x1.82062c9d3e6eap-1)); (0x1.0359c16ef21b1p+0, (-0x1.06da5285ca03bp-1)); (0x1.0770a690e131bp+0, (-0x1.1dc348b941d67p-2)); (0x1.0d0d119cad9a2p+0, (-0x1.a8154c4c15182p-5)); (0x1.141e24cc824cap+0, 0x1.5785a67b5a74cp-3); (0x1.1c93025a8a421p+0, 0x1.83c2c85651697p-2); (0x1.265acc80f0732p+0, 0x1.2919683d36c8bp-1); (0x1.3164a579dfd85p+0, 0x1.8b24433202ad4p-1); (0x1.3d9faf7f836a5p+0, 0x1.e79cc2668e35fp-1); (0x1.4afb0ccc0621ap+0, 0x1.1f0ed99bed9b3p+0); (0x1.5965df9992f71p+0, 0x1.4720f18175c16p+0); (0x1.68cf4a2254e31p+0, 0x1.6bd20f9260772p+0); (0x1.79266ea076de9p+0, 0x1.8cef9a7d2ea6cp+0); (0x1.8a5a6f4e23e1ep+0, 0x1.aa46f8f06139ap+0); (0x1.9c5a6e6586e5dp+0, 0x1.c3a5919a791a3p+0); (0x1.af158e20cae30p+0, 0x1.d8d8cb29f7320p+0); (0x1.c27af0ba1ad1dp+0, 0x1.e9ae0c4d5c6aep+0); (0x1.d679b86ba1ab5p+0, 0x1.f5f2bbb329af0p+0); (0x1.eb01076f8a67cp+0, 0x1.fd744009dfe81p+0); (0x1.0000000000000p+1, 0x1.0000000000000p+1); (0x1.0a7f7c483acc1p+1, 0x1.fd744009dfe81p+0); (0x1.14c323ca2f2a7p+1, 0x1.f5f2bbb329af3p+0); (0x1.1ec287a2f2970p+1, 0x1.e9ae0c4d5c6afp+0); (0x1.287538ef9a8eap+1, 0x1.d8d8cb29f7322p+0); (0x1.31d2c8cd3c8d2p+1, 0x1.c3a5919a791a3p+0); (0x1.3ad2c858ee0efp+1, 0x1.aa46f8f06139bp+0); (0x1.436cc8afc490bp+1, 0x1.8cef9a7d2ea6cp+0); (0x1.4b985aeed58e7p+1, 0x1.6bd20f9260772p+0); (0x1.534d103336849p+1, 0x1.4720f18175c16p+0); (0x1.5a827999fcef3p+1, 0x1.1f0ed99bed9b3p+0); (0x1.613028403e4aep+1, 0x1.e79cc2668e35bp-1); (0x1.674dad431013ep+1, 0x1.8b24433202ad4p-1); (0x1.6cd299bf87c68p+1, 0x1.2919683d36c8cp-1); (0x1.71b67ed2badeep+1, 0x1.83c2c85651699p-2); (0x1.75f0ed99bed9bp+1, 0x1.5785a67b5a74cp-3); (0x1.79797731a9331p+1, (-0x1.a8154c4c151a0p-5)); (0x1.7c47acb78f672p+1, (-0x1.1dc348b941d65p-2)); (0x1.7e531f4886f28p+1, (-0x1.06da5285ca03cp-1)); (0x1.7f936001a5516p+1, (-0x1.82062c9d3e6e9p-1)); (0x1.8000000000000p+1, (-0x1.0000000000000p+0))]); ((PenBrush (Some (Pen (Brush (CStr "red")) 0)) (Some (Brush (CStr "blue")))), true, [(0x1.0000000000000p+0, (-0x1.0000000000000p+0)); (0x1.0000000000000p+0, 0x1.0000000000000p+2); ((-0x1.8000000000000p+1), 0x1.0000000000000p+2); ((-0x1.8000000000000p+1), (-0x1.0000000000000p+0)); (0x1.0000000000000p+0, (-0x1.0000000000000p+0))]); ((PenBrush (Some (Pen (Brush (CStr "red")) 0)) (Some (Brush (CStr "blue")))), true, [(0x1.0000000000000p+0, 0x1.0000000000000p+1); (0x1.0000000000000p+0, (-0x1.0000000000000p+2)); (0x1.8000000000000p+1, (-0x1.0000000000000p+2)); (0x1.8000000000000p+1, 0x1.0000000000000p+1); (0x1.0000000000000p+0, 0x1.0000000000000p+1)]); ((PenBrush (Some (Pen (Brush (CStr "red")) 0)) (Some (Brush (CStr "blue")))), true, [(0x1.0000000000000p+0, (-0x1.999999999999ap-1)); (0x1.0000000000000p+0, (-0x1.814591b99b420p-1)); (0x1.0000000000001p+0, (-0x1.4b7051977482ap-1)); (0x1.fffffffffffffp-1, (-0x1.f6c230ade1ea4p-2)); (0x1.0000000000001p+0, (-0x1.28be4a37b866bp-2)); (0x1.0000000000000p+0, (-0x1.9b1b70a01d6dap-5)); (0x1.fffffffffffffp-1, 0x1.c57fcaeb4a197p-3); (0x1.0000000000000p+0, 0x1.098e990ed54a7p-1); (0x1.0000000000000p+0, 0x1.ab92fcce3adc4p-1); (0x1.0000000000000p+0, 0x1.2a12ef6a9bd0ap+0); (0x1.0000000000000p+0, 0x1.8000000000000p+0); (0x1.fffffffffffffp-1, 0x1.d5ed1095642f8p+0); (0x1.0000000000000p+0, 0x1.151b40cc7148ep+1); (0x1.0000000000000p+0, 0x1.3d9c59bc4aad6p+1); (0x1.0000000000000p+0, 0x1.63a803514b5e5p+1); (0x1.0000000000000p+0, 0x1.866c6dc28075bp+1); (0x1.0000000000000p+0, 0x1.a517c946f70cep+1); (0x1.0000000000000p+0, 0x1.bed84615bc3d4p+1); (0x1.0000000000000p+0, 0x1.d2dc1465dd20bp+1); (0x1.0000000000000p+0, 0x1.e051646e66d08p+1); (0x1.0000000000000p+0, 0x1.e666666666666p+1); (0x1.ffa9199aeaa77p-1, 0x1.e87fe5a80bc26p+1); (0x1.fea8e5d39f289p-1, 0x1.ea8d6d8ed63bcp+1); (0x1.fd0623c60c528p-1, 0x1.ec8d4e53ca1e1p+1); (0x1.fac7928e20f5cp-1, 0x1.ee7dd82febb64p+1); (0x1.f7f3f147cbe16p-1, 0x1.f05d5b5c3f4f6p+1); (0x1.f491ff0efbe57p-1, 0x1.f22a2811c9363p+1); (0x1.f0a87aff9fd20p-1, 0x1.f3e28e898db69p+1); (0x1.ec3e2435a6765p-1, 0x1.f584defc911c8p+1); (0x1.e759b9ccfea26p-1, 0x1.f70f69a3d7b43p+1); (0x1.e201fae19725cp-1, 0x1.f8807eb865c97p+1); (0x1.dc3da68f5ed06p-1, 0x1.f9d66e733fa89p+1); (0x1.d6137bf244720p-1, 0x1.fb0f890d699d8p+1); (0x1.cf8a3a2636da4p-1, 0x1.fc2a1ebfe7f48p+1); (0x1.c8a8a04724d8ep-1, 0x1.fd247fc3bef96p+1); (0x1.c1756d70fd3dbp-1, 0x1.fdfcfc51f2f85p+1); (0x1.b9f760bfaed88p-1, 0x1.feb1e4a3883d7p+1); (0x1.b235394f2878ep-1, 0x1.ff4188f18314ap+1); (0x1.aa35b63b58eecp-1, 0x1.ffaa3974e7ca2p+1); (0x1.a1ff96a02f09cp-1, 0x1.ffea4666baa9ep+1); (0x1.999999999999ap-1, 0x1.0000000000000p+2); (0x1.84fbd75b66028p-1, 0x1.0000000000000p+2); (0x1.59c655b007f76p-1, 0x1.0000000000001p+2); (0x1.1a7bb81567bddp-1, 0x1.fffffffffffffp+1); (0x1.933d4412db37ap-2, 0x1.0000000000001p+2); (0x1.a6c6dc28075b8p-3, 0x1.0000000000000p+2); ((-0x1.6432b579a5800p-8), 0x1.fffffffffffffp+1); ((-0x1.e5343f5e260f3p-3), 0x1.0000000000000p+2); ((-0x1.eeb3497bb11ccp-2), 0x1.0000000000000p+2); ((-0x1.7a6b809ff8245p-1), 0x1.0000000000000p+2); ((-0x1.0000000000000p+0), 0x1.0000000000000p+2); ((-0x1.42ca3fb003edep+0), 0x1.fffffffffffffp+1); ((-0x1.84532da113b8cp+0), 0x1.0000000000000p+2); ((-0x1.c35978143b3e1p+0), 0x1.0000000000000p+2); ((-0x1.fe9bcd4a865a6p+0), 0x1.0000000000000p+2); ((-0x1.1a6c6dc28075bp+1), 0x1.0000000000000p+2); ((-0x1.3267a8825b670p+1), 0x1.0000000000000p+2); ((-0x1.469eee0559ef6p+1), 0x1.0000000000000p+2); ((-0x1.5671956c01fdep+1), 0x1.0000000000000p+2); ((-0x1.613ef5d6d980ap+1), 0x1.0000000000000p+2); ((-0x1.6666666666666p+1), 0x1.0000000000000p+2); ((-0x1.687fe5a80bc26p+1), 0x1.ffea4666baa9dp+1); ((-0x1.6a8d6d8ed63bcp+1), 0x1.ffaa3974e7ca4p+1); ((-0x1.6c8d4e53ca1e2p+1), 0x1.ff4188f183149p+1); ((-0x1.6e7dd82febb64p+1), 0x1.feb1e4a3883d9p+1); ((-0x1.705d5b5c3f4f6p+1), 0x1.fdfcfc51f2f86p+1); ((-0x1.722a2811c9361p+1), 0x1.fd247fc3bef94p+1); ((-0x1.73e28e898db69p+1), 0x1.fc2a1ebfe7f48p+1); ((-0x1.7584defc911c8p+1), 0x1.fb0f890d699d8p+1); ((-0x1.770f69a3d7b43p+1), 0x1.f9d66e733fa8bp+1); ((-0x1.78807eb865c97p+1), 0x1.f8807eb865c97p+1); ((-0x1.79d66e733fa8ap+1), 0x1.f70f69a3d7b40p+1); ((-0x1.7b0f890d699d9p+1), 0x1.f584defc911c8p+1); ((-0x1.7c2a1ebfe7f48p+1), 0x1.f3e28e898db69p+1); ((-0x1.7d247fc3bef96p+1), 0x1.f22a2811c9364p+1); ((-0x1.7dfcfc51f2f86p+1), 0x1.f05d5b5c3f4f7p+1); ((-0x1.7eb1e4a3883d8p+1), 0x1.ee7dd82febb62p+1); ((-0x1.7f4188f18314ap+1), 0x1.ec8d4e53ca1e2p+1); ((-0x1.7faa3974e7ca2p+1), 0x1.ea8d6d8ed63bbp+1); ((-0x1.7fea4666baa9ep+1), 0x1.e87fe5a80bc27p+1); ((-0x1.8000000000000p+1), 0x1.e666666666666p+1); ((-0x1.7ffffffffffffp+1), 0x1.e051646e66d07p+1); ((-0x1.8000000000001p+1), 0x1.d2dc1465dd20cp+1); ((-0x1.7fffffffffffep+1), 0x1.bed84615bc3d3p+1); ((-0x1.8000000000002p+1), 0x1.a517c946f70cep+1); ((-0x1.8000000000000p+1), 0x1.866c6dc28075bp+1); ((-0x1.7ffffffffffffp+1), 0x1.63a803514b5e5p+1); ((-0x1.8000000000001p+1), 0x1.3d9c59bc4aad7p+1); ((-0x1.8000000000000p+1), 0x1.151b40cc7148ep+1); ((-0x1.8000000000002p+1), 0x1.d5ed1095642f8p+0); ((-0x1.8000000000000p+1), 0x1.7ffffffffffffp+0); ((-0x1.8000000000000p+1), 0x1.2a12ef6a9bd08p+0); ((-0x1.8000000000000p+1), 0x1.ab92fcce3adc4p-1); ((-0x1.8000000000000p+1), 0x1.098e990ed54a6p-1); ((-0x1.8000000000000p+1), 0x1.c57fcaeb4a1a0p-3); ((-0x1.8000000000000p+1), (-0x1.9b1b70a01d6e8p-5)); ((-0x1.8000000000001p+1), (-0x1.28be4a37b866fp-2)); ((-0x1.7ffffffffffffp+1), (-0x1.f6c230ade1ea2p-2)); ((-0x1.8000000000000p+1), (-0x1.4b7051977482bp-1)); ((-0x1.8000000000000p+1), (-0x1.814591b99b421p-1)); ((-0x1.8000000000000p+1), (-0x1.999999999999ap-1)); ((-0x1.7fea4666baa9dp+1), (-0x1.a1ff96a02f09bp-1)); ((-0x1.7faa3974e7ca3p+1), (-0x1.aa35b63b58eecp-1)); ((-0x1.7f4188f183149p+1), (-0x1.b235394f2878dp-1)); ((-0x1.7eb1e4a3883d8p+1), (-0x1.b9f760bfaed8ap-1)); ((-0x1.7dfcfc51f2f86p+1), (-0x1.c1756d70fd3dcp-1)); ((-0x1.7d247fc3bef95p+1), (-0x1.c8a8a04724d8dp-1)); ((-0x1.7c2a1ebfe7f48p+1), (-0x1.cf8a3a2636da4p-1)); ((-0x1.7b0f890d699dap+1), (-0x1.d6137bf244720p-1)); ((-0x1.79d66e733fa8bp+1), (-0x1.dc3da68f5ed07p-1)); ((-0x1.78807eb865c97p+1), (-0x1.e201fae19725cp-1)); ((-0x1.770f69a3d7b41p+1), (-0x1.e759b9ccfea25p-1)); ((-0x1.7584defc911c8p+1), (-0x1.ec3e2435a6764p-1)); ((-0x1.73e28e898db69p+1), (-0x1.f0a87aff9fd20p-1)); ((-0x1.722a2811c9362p+1), (-0x1.f491ff0efbe58p-1)); ((-0x1.705d5b5c3f4f6p+1), (-0x1.f7f3f147cbe16p-1)); ((-0x1.6e7dd82febb62p+1), (-0x1.fac7928e20f5ap-1)); ((-0x1.6c8d4e53ca1e2p+1), (-0x1.fd0623c60c528p-1)); ((-0x1.6a8d6d8ed63bbp+1), (-0x1.fea8e5d39f287p-1)); ((-0x1.687fe5a80bc27p+1), (-0x1.ffa9199aeaa78p-1)); ((-0x1.6666666666666p+1), (-0x1.0000000000000p+0)); ((-0x1.613ef5d6d9809p+1), (-0x1.0000000000000p+0)); ((-0x1.5671956c01fdfp+1), (-0x1.0000000000001p+0)); ((-0x1.469eee0559ef6p+1), (-0x1.fffffffffffffp-1)); ((-0x1.3267a8825b66fp+1), (-0x1.0000000000001p+0)); ((-0x1.1a6c6dc28075bp+1), (-0x1.0000000000000p+0)); ((-0x1.fe9bcd4a865a5p+0), (-0x1.fffffffffffffp-1)); ((-0x1.c35978143b3e2p+0), (-0x1.0000000000000p+0)); ((-0x1.84532da113b8dp+0), (-0x1.0000000000000p+0)); ((-0x1.42ca3fb003edep+0), (-0x1.0000000000000p+0)); ((-0x1.fffffffffffffp-1), (-0x1.0000000000000p+0)); ((-0x1.7a6b809ff8242p-1), (-0x1.fffffffffffffp-1)); ((-0x1.eeb3497bb11cdp-2), (-0x1.0000000000000p+0)); ((-0x1.e5343f5e260f2p-3), (-0x1.0000000000000p+0)); ((-0x1.6432b579a5880p-8), (-0x1.0000000000000p+0)); (0x1.a6c6dc28075bap-3, (-0x1.0000000000000p+0)); (0x1.933d4412db37cp-2, (-0x1.0000000000000p+0)); (0x1.1a7bb81567bdcp-1, (-0x1.0000000000000p+0)); (0x1.59c655b007f76p-1, (-0x1.0000000000000p+0)); (0x1.84fbd75b66029p-1, (-0x1.0000000000000p+0)); (0x1.999999999999ap-1, (-0x1.0000000000000p+0)); (0x1.a1ff96a02f09bp-1, (-0x1.ffa9199aeaa77p-1)); (0x1.aa35b63b58eecp-1, (-0x1.fea8e5d39f289p-1)); (0x1.b235394f2878dp-1, (-0x1.fd0623c60c528p-1)); (0x1.b9f760bfaed8ap-1, (-0x1.fac7928e20f5cp-1)); (0x1.c1756d70fd3dcp-1, (-0x1.f7f3f147cbe16p-1)); (0x1.c8a8a04724d8dp-1, (-0x1.f491ff0efbe57p-1)); (0x1.cf8a3a2636da4p-1, (-0x1.f0a87aff9fd20p-1)); (0x1.d6137bf244720p-1, (-0x1.ec3e2435a6765p-1)); (0x1.dc3da68f5ed07p-1, (-0x1.e759b9ccfea26p-1)); (0x1.e201fae19725cp-1, (-0x1.e201fae19725cp-1)); (0x1.e759b9ccfea25p-1, (-0x1.dc3da68f5ed06p-1)); (0x1.ec3e2435a6764p-1, (-0x1.d6137bf244720p-1)); (0x1.f0a87aff9fd20p-1, (-0x1.cf8a3a2636da4p-1)); (0x1.f491ff0efbe58p-1, (-0x1.c8a8a04724d8ep-1)); (0x1.f7f3f147cbe16p-1, (-0x1.c1756d70fd3dbp-1)); (0x1.fac7928e20f5ap-1, (-0x1.b9f760bfaed88p-1)); (0x1.fd0623c60c528p-1, (-0x1.b235394f2878ep-1)); (0x1.fea8e5d39f287p-1, (-0x1.aa35b63b58eecp-1)); (0x1.ffa9199aeaa78p-1, (-0x1.a1ff96a02f09cp-1)); (0x1.0000000000000p+0, (-0x1.999999999999ap-1))]); ((PenBrush (Some (Pen (Brush (CStr "red")) 0)) (Some (Brush (CStr "blue")))), true, [(0x1.0000000000000p+0, 0x1.0000000000000p+0); (0x1.0000000000000p+0, 0x1.cce303a21493ep-1); (0x1.0000000000001p+0, 0x1.8993e5c838372p-1); (0x1.fffffffffffffp-1, 0x1.37df54d585aeep-1); (0x1.0000000000001p+0, 0x1.b323fe5a2f81ep-2); (0x1.0000000000000p+0, 0x1.c1e24cc824c9ap-3); (0x1.fffffffffffffp-1, (-0x1.a040b88b374e0p-9)); (0x1.0000000000000p+0, (-0x1.ebaf38be2ad93p-3)); (0x1.0000000000000p+0, (-0x1.f33acd9fb50c2p-2)); (0x1.0000000000000p+0, (-0x1.7be85c365fe06p-1)); (0x1.0000000000000p+0, (-0x1.0000000000000p+0)); (0x1.fffffffffffffp-1, (-0x1.420bd1e4d00ffp+0)); (0x1.0000000000000p+0, (-0x1.83314c9812bd0p+0)); (0x1.0000000000000p+0, (-0x1.c28a18e83aa4ep+0)); (0x1.0000000000000p+0, (-0x1.ff2fdfa3ba644p+0)); (0x1.0000000000000p+0, (-0x1.1c1e24cc824cap+1)); (0x1.0000000000000p+0, (-0x1.36647fcb45f05p+1)); (0x1.0000000000000p+0, (-0x1.4df7d535616bbp+1)); (0x1.0000000000000p+0, (-0x1.6264f9720e0ddp+1)); (0x1.0000000000000p+0, (-0x1.7338c0e885250p+1)); (0x1.0000000000000p+0, (-0x1.8000000000000p+1)); (0x1.00d93ffcb55d5p+0, (-0x1.8a7f7c483acc2p+1)); (0x1.0359c16ef21b1p+0, (-0x1.94c323ca2f2a7p+1)); (0x1.0770a690e131bp+0, (-0x1.9ec287a2f296fp+1)); (0x1.0d0d119cad9a2p+0, (-0x1.a87538ef9a8ecp+1)); (0x1.141e24cc824cap+0, (-0x1.b1d2c8cd3c8d2p+1)); (0x1.1c93025a8a421p+0, (-0x1.bad2c858ee0efp+1)); (0x1.265acc80f0732p+0, (-0x1.c36cc8afc490cp+1)); (0x1.3164a579dfd85p+0, (-0x1.cb985aeed58e7p+1)); (0x1.3d9faf7f836a5p+0, (-0x1.d34d103336849p+1)); (0x1.4afb0ccc0621ap+0, (-0x1.da827999fcef3p+1)); (0x1.5965df9992f71p+0, (-0x1.e13028403e4aep+1)); (0x1.68cf4a2254e31p+0, (-0x1.e74dad431013dp+1)); (0x1.79266ea076de9p+0, (-0x1.ecd299bf87c68p+1)); (0x1.8a5a6f4e23e1ep+0, (-0x1.f1b67ed2badeep+1)); (0x1.9c5a6e6586e5dp+0, (-0x1.f5f0ed99bed9bp+1)); (0x1.af158e20cae30p+0, (-0x1.f9797731a9330p+1)); (0x1.c27af0ba1ad1dp+0, (-0x1.fc47acb78f672p+1)); (0x1.d679b86ba1ab5p+0, (-0x1.fe531f4886f28p+1)); (0x1.eb01076f8a67cp+0, (-0x1.ff936001a5516p+1)); (0x1.0000000000000p+1, (-0x1.0000000000000p+2)); (0x1.0a7f7c483acc1p+1, (-0x1.ff936001a5515p+1)); (0x1.14c323ca2f2a7p+1, (-0x1.fe531f4886f2ap+1)); (0x1.1ec287a2f2970p+1, (-0x1.fc47acb78f672p+1)); (0x1.287538ef9a8eap+1, (-0x1.f9797731a9332p+1)); (0x1.31d2c8cd3c8d2p+1, (-0x1.f5f0ed99bed9bp+1)); (0x1.3ad2c858ee0efp+1, (-0x1.f1b67ed2badedp+1)); (0x1.436cc8afc490bp+1, (-0x1.ecd299bf87c67p+1)); (0x1.4b985aeed58e7p+1, (-0x1.e74dad431013ep+1)); (0x1.534d103336849p+1, (-0x1.e13028403e4afp+1)); (0x1.5a827999fcef3p+1, (-0x1.da827999fcef3p+1)); (0x1.613028403e4aep+1, (-0x1.d34d103336848p+1)); (0x1.674dad431013ep+1, (-0x1.cb985aeed58e7p+1)); (0x1.6cd299bf87c68p+1, (-0x1.c36cc8afc490cp+1)); (0x1.71b67ed2badeep+1, (-0x1.bad2c858ee0f0p+1)); (0x1.75f0ed99bed9bp+1, (-0x1.b1d2c8cd3c8d2p+1)); (0x1.79797731a9331p+1, (-0x1.a87538ef9a8e9p+1)); (0x1.7c47acb78f672p+1, (-0x1.9ec287a2f2970p+1)); (0x1.7e531f4886f28p+1, (-0x1.94c323ca2f2a6p+1)); (0x1.7f936001a5516p+1, (-0x1.8a7f7c483acc2p+1)); (0x1.8000000000000p+1, (-0x1.8000000000000p+1)); (0x1.7ffffffffffffp+1, (-0x1.7338c0e88524fp+1)); (0x1.8000000000001p+1, (-0x1.6264f9720e0ddp+1)); (0x1.7fffffffffffep+1, (-0x1.4df7d535616bap+1)); (0x1.8000000000002p+1, (-0x1.36647fcb45f06p+1)); (0x1.8000000000000p+1, (-0x1.1c1e24cc824c9p+1)); (0x1.7ffffffffffffp+1, (-0x1.ff2fdfa3ba645p+0)); (0x1.8000000000001p+1, (-0x1.c28a18e83aa4ep+0)); (0x1.8000000000000p+1, (-0x1.83314c9812bcfp+0)); (0x1.8000000000002p+1, (-0x1.420bd1e4d0100p+0)); (0x1.8000000000000p+1, (-0x1.0000000000000p+0)); (0x1.8000000000000p+1, (-0x1.7be85c365fe03p-1)); (0x1.8000000000000p+1, (-0x1.f33acd9fb50c4p-2)); (0x1.8000000000000p+1, (-0x1.ebaf38be2ad96p-3)); (0x1.8000000000000p+1, (-0x1.a040b88b37580p-9)); (0x1.8000000000000p+1, 0x1.c1e24cc824c99p-3); (0x1.8000000000001p+1, 0x1.b323fe5a2f821p-2); (0x1.7ffffffffffffp+1, 0x1.37df54d585aeep-1); (0x1.8000000000000p+1, 0x1.8993e5c838372p-1); (0x1.8000000000000p+1, 0x1.cce303a21493ep-1); (0x1.8000000000000p+1, 0x1.0000000000000p+0); (0x1.7f936001a5514p+1, 0x1.14fef89075984p+0); (0x1.7e531f4886f28p+1, 0x1.298647945e54cp+0); (0x1.7c47acb78f671p+1, 0x1.3d850f45e52e1p+0); (0x1.79797731a9331p+1, 0x1.50ea71df351d4p+0); (0x1.75f0ed99bed9bp+1, 0x1.63a5919a791a3p+0); (0x1.71b67ed2badedp+1, 0x1.75a590b1dc1e1p+0); (0x1.6cd299bf87c68p+1, 0x1.86d9915f89218p+0); (0x1.674dad431013ep+1, 0x1.9730b5ddab1cep+0); (0x1.613028403e4b0p+1, 0x1.a69a20666d091p+0); (0x1.5a827999fcef3p+1, 0x1.b504f333f9de6p+0); (0x1.534d103336846p+1, 0x1.c26050807c95dp+0); (0x1.4b985aeed58e7p+1, 0x1.ce9b5a862027bp+0); (0x1.436cc8afc490cp+1, 0x1.d9a5337f0f8d0p+0); (0x1.3ad2c858ee0f1p+1, 0x1.e36cfda575bdep+0); (0x1.31d2c8cd3c8d2p+1, 0x1.ebe1db337db36p+0); (0x1.287538ef9a8e8p+1, 0x1.f2f2ee6352661p+0); (0x1.1ec287a2f2970p+1, 0x1.f88f596f1ece4p+0); (0x1.14c323ca2f2a6p+1, 0x1.fca63e910de50p+0); (0x1.0a7f7c483acc2p+1, 0x1.ff26c0034aa2bp+0); (0x1.0000000000000p+1, 0x1.0000000000000p+1); (0x1.eb01076f8a67bp+0, 0x1.ff26c0034aa2ap+0); (0x1.d679b86ba1ab5p+0, 0x1.fca63e910de51p+0); (0x1.c27af0ba1ad1cp+0, 0x1.f88f596f1ece4p+0); (0x1.af158e20cae31p+0, 0x1.f2f2ee6352662p+0); (0x1.9c5a6e6586e5dp+0, 0x1.ebe1db337db36p+0); (0x1.8a5a6f4e23e1dp+0, 0x1.e36cfda575bddp+0); (0x1.79266ea076de9p+0, 0x1.d9a5337f0f8cep+0); (0x1.68cf4a2254e32p+0, 0x1.ce9b5a862027bp+0); (0x1.5965df9992f72p+0, 0x1.c26050807c95ep+0); (0x1.4afb0ccc0621ap+0, 0x1.b504f333f9de6p+0); (0x1.3d9faf7f836a4p+0, 0x1.a69a20666d08ep+0); (0x1.3164a579dfd85p+0, 0x1.9730b5ddab1cep+0); (0x1.265acc80f0732p+0, 0x1.86d9915f89218p+0); (0x1.1c93025a8a421p+0, 0x1.75a590b1dc1e2p+0); (0x1.141e24cc824cap+0, 0x1.63a5919a791a3p+0); (0x1.0d0d119cad9a0p+0, 0x1.50ea71df351d2p+0); (0x1.0770a690e131bp+0, 0x1.3d850f45e52e2p+0); (0x1.0359c16ef21b0p+0, 0x1.298647945e54cp+0); (0x1.00d93ffcb55d5p+0, 0x1.14fef89075984p+0); (0x1.0000000000000p+0, 0x1.0000000000000p+0)])] = true.
Proof. vm_compute. reflexivity. Qed.
Example TestGroup_group2_transform : gives elem_near (snd (elem_transform TestGroup_group2 rot_a))
  (EGroup (EB "group2" (PenBrush (Some (Pen (Brush (CStr "default")) 0)) None) false (t_new6 0x1.ffc64f5b36d46p-1 0x1.e60d3f09014bfp-6 0x1.f479683b4c340p-6 (-0x1.e60d3f09014bfp-6) 0x1.ffc64f5b36d46p-1 0x1.e27234bc6e920p-5)) false [("c1", (ELeaf (EB "c1" (PenBrush (Some (Pen (Brush (CStr "black")) 0)) None) true t_new) (SCurve [(CP (P 0 0) (V 0 0x1.0000000000000p+0) (V 0 (-0x1.0000000000000p+0)) "smooth"); (CP (P 0x1.4000000000000p+3 0) (V 0 0x1.0000000000000p+0) (V 0 (-0x1.0000000000000p+0)) "smooth")]))); ("c2", (ELeaf (EB "c2" (PenBrush (Some (Pen (Brush (CStr "black")) 0)) None) true t_new) (SCurve [(CP (P 0x1.4000000000000p+3 0) (V 0 0x1.0000000000000p+0) (V 0 (-0x1.0000000000000p+0)) "smooth"); (CP (P 0 0) (V 0 0x1.0000000000000p+0) (V 0 (-0x1.0000000000000p+0)) "smooth")]))); ("e1", (ELeaf (EB "e1" (PenBrush (Some (Pen (Brush (CStr "red")) 0)) (Some (Brush (CStr "blue")))) true t_new) (SEllipse (P 0x1.0000000000000p+0 (-0x1.0000000000000p+0)) (P (-0x1.8000000000000p+1) 0x1.0000000000000p+2)))); ("e2", (ELeaf (EB "e2" (PenBrush (Some (Pen (Brush (CStr "red")) 0)) (Some (Brush (CStr "blue")))) true t_new) (SEllipse (P 0x1.0000000000000p+0 0x1.0000000000000p+1) (P 0x1.8000000000000p+1 (-0x1.0000000000000p+2))))); ("r1", (ELeaf (EB "r1" (PenBrush (Some (Pen (Brush (CStr "red")) 0)) (Some (Brush (CStr "blue")))) true t_new) (SRect (P 0x1.0000000000000p+0 (-0x1.0000000000000p+0)) (P (-0x1.8000000000000p+1) 0x1.0000000000000p+2)))); ("r2", (ELeaf (EB "r2" (PenBrush (Some (Pen (Brush (CStr "red")) 0)) (Some (Brush (CStr "blue")))) true t_new) (SRect (P 0x1.0000000000000p+0 0x1.0000000000000p+1) (P 0x1.8000000000000p+1 (-0x1.0000000000000p+2))))); ("rr1", (ELeaf (EB "rr1" (PenBrush (Some (Pen (Brush (CStr "red")) 0)) (Some (Brush (CStr "blue")))) true t_new) (SRRect (P 0x1.0000000000000p+0 (-0x1.0000000000000p+0)) (P (-0x1.8000000000000p+1) 0x1.0000000000000p+2) 0x1.999999999999ap-3))); ("rr2", (ELeaf (EB "rr2" (PenBrush (Some (Pen (Brush (CStr "red")) 0)) (Some (Brush (CStr "blue")))) true t_new) (SRRect (P 0x1.0000000000000p+0 0x1.0000000000000p+1) (P 0x1.8000000000000p+1 (-0x1.0000000000000p+2)) 0x1.0000000000000p+0)))] []) = true.
Proof. vm_compute. reflexivity. Qed.
Example TestGroup_group2_moved : match snd (elem_transform TestGroup_group2 rot_d) with Ok o => negb (elem_eqb TestGroup_group2 o) | _ => false end = true.
Proof. vm_compute. reflexivity. Qed.

(* test_model.py:189-215 test_add_one: equal, not just near *)
Example add_one_1 : gives (list_eqb cp_eqb) (add_one [(CP (P 0 0) (V 0 0x1.0000000000000p+0) (V 0 (-0x1.0000000000000p+0)) "smooth"); (CP (P 0x1.4000000000000p+3 0) (V 0 0x1.0000000000000p+0) (V 0 (-0x1.0000000000000p+0)) "smooth"); (CP (P 0x1.4000000000000p+3 0x1.4000000000000p+3) (V 0x1.0000000000000p+0 0x1.0000000000000p+0) (V 0x1.0000000000000p+0 (-0x1.0000000000000p+0)) "smooth")])
  [(CP (P 0x1.5800000000000p+2 0x1.4000000000000p+2) (V 0x1.5000000000000p+1 0x1.2000000000000p+1) (V (-0x1.5000000000000p+1) (-0x1.2000000000000p+1)) "smooth"); (CP (P 0 0) (V 0 0x1.0000000000000p-1) (V 0 (-0x1.0000000000000p+0)) "smooth"); (CP (P 0x1.4000000000000p+3 0) (V 0 0x1.0000000000000p+0) (V 0 (-0x1.0000000000000p+0)) "smooth"); (CP (P 0x1.4000000000000p+3 0x1.4000000000000p+3) (V 0x1.0000000000000p+0 0x1.0000000000000p+0) (V 0x1.0000000000000p-1 (-0x1.0000000000000p-1)) "smooth")] = true.
Proof. vm_compute. reflexivity. Qed.
Example add_one_2 : gives (list_eqb cp_eqb) (let* l := add_one [(CP (P 0 0) (V 0 0x1.0000000000000p+0) (V 0 (-0x1.0000000000000p+0)) "smooth"); (CP (P 0x1.4000000000000p+3 0) (V 0 0x1.0000000000000p+0) (V 0 (-0x1.0000000000000p+0)) "smooth"); (CP (P 0x1.4000000000000p+3 0x1.4000000000000p+3) (V 0x1.0000000000000p+0 0x1.0000000000000p+0) (V 0x1.0000000000000p+0 (-0x1.0000000000000p+0)) "smooth")] in add_one l)
  [(CP (P 0x1.5800000000000p+2 0x1.4000000000000p+2) (V 0x1.5000000000000p+1 0x1.2000000000000p+1) (V (-0x1.5000000000000p+1) (-0x1.2000000000000p+1)) "smooth"); (CP (P 0 0) (V 0 0x1.0000000000000p-1) (V 0 (-0x1.0000000000000p+0)) "smooth"); (CP (P 0x1.4000000000000p+3 0) (V 0 0x1.0000000000000p+0) (V 0 (-0x1.0000000000000p-1)) "smooth"); (CP (P 0x1.4c00000000000p+3 0x1.4000000000000p+2) (V (-0x1.0000000000000p-3) (-0x1.6000000000000p+1)) (V 0x1.0000000000000p-3 0x1.6000000000000p+1) "smooth"); (CP (P 0x1.4000000000000p+3 0x1.4000000000000p+3) (V 0x1.0000000000000p-1 0x1.0000000000000p-1) (V 0x1.0000000000000p-1 (-0x1.0000000000000p-1)) "smooth")] = true.
Proof. vm_compute. reflexivity. Qed.

(* Texts.  Numbers are tokens: 0 and 1 are the floats 0.0 and 1.0, the others are given by
   the table, and the whole number n is the token 1000 + n. *)
Require Import Verif.M_repr.
From Coq Require Import ZArith.
Local Open Scope Z_scope.
#[local] Instance NumTok : Num Z := {|
  nofZ := fun z => z; nadd := Z.add; nsub := Z.sub; nmul := Z.mul; ndiv := Z.div; nneg := Z.opp;
  nabs := Z.abs; neqb := Z.eqb; nltb := Z.ltb; nleb := Z.leb |}.
Definition zshow (z : Z) : string :=
  match z with
  | 0 => "0.0" | 1 => "1.0"
  | 2 => "0.984807753012208" | 3 => "0.17364817766693033" | 4 => "-0.17364817766693033" | 5 => "0.2"
  | _ => let n := (z - 1000)%Z in if (n <? 0)%Z then "-" ++ decimal (Z.to_nat (- n)) else decimal (Z.to_nat n)
  end%string.
Definition z_TestElem_r1 : elem Z := (ELeaf (EB "r1" (PenBrush (Some (Pen (Brush (CStr "green")) 0)) (Some (Brush (CStr "yellow")))) true (t_new6 2 3 0 4 2 0)) (SRect (P (999) (999)) (P (1004) (1001)))).
Example TestElem_r1_dump : gives text_is (dump_text zshow z_TestElem_r1) "from x7.geom.geom import *
from x7.geom.model import *
from x7.geom.colors import *
from x7.geom.transform import *

pen_1 = PenBrush(Pen('green', 0.0), Brush('yellow'))
xform_1 = Transform((0.984807753012208, 0.17364817766693033, 0.0, -0.17364817766693033, 0.984807753012208, 0.0))

model = ElemRectangle('r1', pen_1, closed=True, xform=xform_1, p1=Point(-1, -1), p2=Point(4, 1))" = true.
Proof. vm_compute. reflexivity. Qed.
Example TestElem_r1_str : text_is (str_elem zshow zshow z_TestElem_r1) "ElemRectangle('r1', Point(-1, -1), Point(4, 1))" = true.
Proof. vm_compute. reflexivity. Qed.
Example TestElem_r1_repr : text_is (repr_elem zshow z_TestElem_r1) "ElemRectangle('r1', Point(-1, -1), Point(4, 1))" = true.
Proof. vm_compute. reflexivity. Qed.
Definition z_TestElemCurve_c1 : elem Z := (ELeaf (EB "c1" (PenBrush (Some (Pen (Brush (CStr "black")) 0)) None) true t_new) (SCurve [(CP (P (1000) (1000)) (V (1000) (1001)) (V (1000) (999)) "smooth"); (CP (P (1010) (1000)) (V (1000) (1001)) (V (1000) (999)) "smooth")])).
Example TestElemCurve_c1_dump : gives text_is (dump_text zshow z_TestElemCurve_c1) "from x7.geom.geom import *
from x7.geom.model import *
from x7.geom.colors import *
from x7.geom.transform import *

pen_1 = PenBrush(Pen('black', 0.0), None)

model = ElemCurve('c1', pen_1, closed=True, control_points=[
    ControlPoint(Point(0, 0), Vector(0, 1), Vector(0, -1), 'smooth'),
    ControlPoint(Point(10, 0), Vector(0, 1), Vector(0, -1), 'smooth'),
])" = true.
Proof. vm_compute. reflexivity. Qed.
Example TestElemCurve_c1_str : text_is (str_elem zshow zshow z_TestElemCurve_c1) "ElemCurve('c1', (Point(0, 0), Vector(0, 1), Vector(0, -1), 'smooth'), (Point(10, 0), Vector(0, 1), Vector(0, -1), 'smooth'))" = true.
Proof. vm_compute. reflexivity. Qed.
Example TestElemCurve_c1_repr : text_is (repr_elem zshow z_TestElemCurve_c1) "ElemCurve('c1', ControlPoint(Point(0, 0), Vector(0, 1), Vector(0, -1), 'smooth'), ControlPoint(Point(10, 0), Vector(0, 1), Vector(0, -1), 'smooth'))" = true.
Proof. vm_compute. reflexivity. Qed.
Definition z_TestElemCurve_c2 : elem Z := (ELeaf (EB "c2" (PenBrush (Some (Pen (Brush (CStr "black")) 0)) None) true t_new) (SCurve [(CP (P (1010) (1000)) (V (1000) (1001)) (V (1000) (999)) "smooth"); (CP (P (1000) (1000)) (V (1000) (1001)) (V (1000) (999)) "smooth")])).
Example TestElemCurve_c2_dump : gives text_is (dump_text zshow z_TestElemCurve_c2) "from x7.geom.geom import *
from x7.geom.model import *
from x7.geom.colors import *
from x7.geom.transform import *

pen_1 = PenBrush(Pen('black', 0.0), None)

model = ElemCurve('c2', pen_1, closed=True, control_points=[
    ControlPoint(Point(10, 0), Vector(0, 1), Vector(0, -1), 'smooth'),
    ControlPoint(Point(0, 0), Vector(0, 1), Vector(0, -1), 'smooth'),
])" = true.
Proof. vm_compute. reflexivity. Qed.
Example TestElemCurve_c2_str : text_is (str_elem zshow zshow z_TestElemCurve_c2) "ElemCurve('c2', (Point(10, 0), Vector(0, 1), Vector(0, -1), 'smooth'), (Point(0, 0), Vector(0, 1), Vector(0, -1), 'smooth'))" = true.
Proof. vm_compute. reflexivity. Qed.
Example TestElemCurve_c2_repr : text_is (repr_elem zshow z_TestElemCurve_c2) "ElemCurve('c2', ControlPoint(Point(10, 0), Vector(0, 1), Vector(0, -1), 'smooth'), ControlPoint(Point(0, 0), Vector(0, 1), Vector(0, -1), 'smooth'))" = true.
Proof. vm_compute. reflexivity. Qed.
Definition z_TestElemEllipse_e1 : elem Z := (ELeaf (EB "e1" (PenBrush (Some (Pen (Brush (CStr "red")) 0)) (Some (Brush (CStr "blue")))) true t_new) (SEllipse (P (1001) (999)) (P (997) (1004)))).
Example TestElemEllipse_e1_dump : gives text_is (dump_text zshow z_TestElemEllipse_e1) "from x7.geom.geom import *
from x7.geom.model import *
from x7.geom.colors import *
from x7.geom.transform import *

pen_1 = PenBrush(Pen('red', 0.0), Brush('blue'))

model = ElemEllipse('e1', pen_1, closed=True, p1=Point(1, -1), p2=Point(-3, 4))" = true.
Proof. vm_compute. reflexivity. Qed.
Example TestElemEllipse_e1_str : text_is (str_elem zshow zshow z_TestElemEllipse_e1) "ElemEllipse('e1', Point(1, -1), Point(-3, 4))" = true.
Proof. vm_compute. reflexivity. Qed.
Example TestElemEllipse_e1_repr : text_is (repr_elem zshow z_TestElemEllipse_e1) "ElemEllipse('e1', Point(1, -1), Point(-3, 4))" = true.
Proof. vm_compute. reflexivity. Qed.
Definition z_TestElemEllipse_e2 : elem Z := (ELeaf (EB "e2" (PenBrush (Some (Pen (Brush (CStr "red")) 0)) (Some (Brush (CStr "blue")))) true t_new) (SEllipse (P (1001) (1002)) (P (1003) (996)))).
Example TestElemEllipse_e2_dump : gives text_is (dump_text zshow z_TestElemEllipse_e2) "from x7.geom.geom import *
from x7.geom.model import *
from x7.geom.colors import *
from x7.geom.transform import *

pen_1 = PenBrush(Pen('red', 0.0), Brush('blue'))

model = ElemEllipse('e2', pen_1, closed=True, p1=Point(1, 2), p2=Point(3, -4))" = true.
Proof. vm_compute. reflexivity. Qed.
Example TestElemEllipse_e2_str : text_is (str_elem zshow zshow z_TestElemEllipse_e2) "ElemEllipse('e2', Point(1, 2), Point(3, -4))" = true.
Proof. vm_compute. reflexivity. Qed.
Example TestElemEllipse_e2_repr : text_is (repr_elem zshow z_TestElemEllipse_e2) "ElemEllipse('e2', Point(1, 2), Point(3, -4))" = true.
Proof. vm_compute. reflexivity. Qed.
Definition z_TestElemP1P2_r12 : elem Z := (ELeaf (EB "r12" (PenBrush (Some (Pen (Brush (CStr "red")) 0)) (Some (Brush (CStr "blue")))) true t_new) (SRect (P (1001) (999)) (P (997) (1004)))).
Example TestElemP1P2_r12_dump : gives text_is (dump_text zshow z_TestElemP1P2_r12) "from x7.geom.geom import *
from x7.geom.model import *
from x7.geom.colors import *
from x7.geom.transform import *

pen_1 = PenBrush(Pen('red', 0.0), Brush('blue'))

model = ElemRectangle('r12', pen_1, closed=True, p1=Point(1, -1), p2=Point(-3, 4))" = true.
Proof. vm_compute. reflexivity. Qed.
Example TestElemP1P2_r12_str : text_is (str_elem zshow zshow z_TestElemP1P2_r12) "ElemRectangle('r12', Point(1, -1), Point(-3, 4))" = true.
Proof. vm_compute. reflexivity. Qed.
Example TestElemP1P2_r12_repr : text_is (repr_elem zshow z_TestElemP1P2_r12) "ElemRectangle('r12', Point(1, -1), Point(-3, 4))" = true.
Proof. vm_compute. reflexivity. Qed.
Definition z_TestElemP1P2_e12 : elem Z := (ELeaf (EB "e12" (PenBrush (Some (Pen (Brush (CStr "red")) 0)) (Some (Brush (CStr "blue")))) true t_new) (SEllipse (P (1001) (1002)) (P (1003) (996)))).
Example TestElemP1P2_e12_dump : gives text_is (dump_text zshow z_TestElemP1P2_e12) "from x7.geom.geom import *
from x7.geom.model import *
from x7.geom.colors import *
from x7.geom.transform import *

pen_1 = PenBrush(Pen('red', 0.0), Brush('blue'))

model = ElemEllipse('e12', pen_1, closed=True, p1=Point(1, 2), p2=Point(3, -4))" = true.
Proof. vm_compute. reflexivity. Qed.
Example TestElemP1P2_e12_str : text_is (str_elem zshow zshow z_TestElemP1P2_e12) "ElemEllipse('e12', Point(1, 2), Point(3, -4))" = true.
Proof. vm_compute. reflexivity. Qed.
Example TestElemP1P2_e12_repr : text_is (repr_elem zshow z_TestElemP1P2_e12) "ElemEllipse('e12', Point(1, 2), Point(3, -4))" = true.
Proof. vm_compute. reflexivity. Qed.
Definition z_TestElemRectangle_r1 : elem Z := (ELeaf (EB "r1" (PenBrush (Some (Pen (Brush (CStr "red")) 0)) (Some (Brush (CStr "blue")))) true t_new) (SRect (P (1001) (999)) (P (997) (1004)))).
Example TestElemRectangle_r1_dump : gives text_is (dump_text zshow z_TestElemRectangle_r1) "from x7.geom.geom import *
from x7.geom.model import *
from x7.geom.colors import *
from x7.geom.transform import *

pen_1 = PenBrush(Pen('red', 0.0), Brush('blue'))

model = ElemRectangle('r1', pen_1, closed=True, p1=Point(1, -1), p2=Point(-3, 4))" = true.
Proof. vm_compute. reflexivity. Qed.
Example TestElemRectangle_r1_str : text_is (str_elem zshow zshow z_TestElemRectangle_r1) "ElemRectangle('r1', Point(1, -1), Point(-3, 4))" = true.
Proof. vm_compute. reflexivity. Qed.
Example TestElemRectangle_r1_repr : text_is (repr_elem zshow z_TestElemRectangle_r1) "ElemRectangle('r1', Point(1, -1), Point(-3, 4))" = true.
Proof. vm_compute. reflexivity. Qed.
Definition z_TestElemRectangle_r2 : elem Z := (ELeaf (EB "r2" (PenBrush (Some (Pen (Brush (CStr "red")) 0)) (Some (Brush (CStr "blue")))) true t_new) (SRect (P (1001) (1002)) (P (1003) (996)))).
Example TestElemRectangle_r2_dump : gives text_is (dump_text zshow z_TestElemRectangle_r2) "from x7.geom.geom import *
from x7.geom.model import *
from x7.geom.colors import *
from x7.geom.transform import *

pen_1 = PenBrush(Pen('red', 0.0), Brush('blue'))

model = ElemRectangle('r2', pen_1, closed=True, p1=Point(1, 2), p2=Point(3, -4))" = true.
Proof. vm_compute. reflexivity. Qed.
Example TestElemRectangle_r2_str : text_is (str_elem zshow zshow z_TestElemRectangle_r2) "ElemRectangle('r2', Point(1, 2), Point(3, -4))" = true.
Proof. vm_compute. reflexivity. Qed.
Example TestElemRectangle_r2_repr : text_is (repr_elem zshow z_TestElemRectangle_r2) "ElemRectangle('r2', Point(1, 2), Point(3, -4))" = true.
Proof. vm_compute. reflexivity. Qed.
Definition z_TestElemRectangleRounded_rr1 : elem Z := (ELeaf (EB "rr1" (PenBrush (Some (Pen (Brush (CStr "red")) 0)) (Some (Brush (CStr "blue")))) true t_new) (SRRect (P (1001) (999)) (P (997) (1004)) 5)).
Example TestElemRectangleRounded_rr1_dump : gives text_is (dump_text zshow z_TestElemRectangleRounded_rr1) "from x7.geom.geom import *
from x7.geom.model import *
from x7.geom.colors import *
from x7.geom.transform import *

pen_1 = PenBrush(Pen('red', 0.0), Brush('blue'))

model = ElemRectangleRounded('rr1', pen_1, closed=True, p1=Point(1, -1), p2=Point(-3, 4), radius=0.2)" = true.
Proof. vm_compute. reflexivity. Qed.
Example TestElemRectangleRounded_rr1_str : text_is (str_elem zshow zshow z_TestElemRectangleRounded_rr1) "ElemRectangleRounded('rr1', Point(1, -1), Point(-3, 4), 0.2)" = true.
Proof. vm_compute. reflexivity. Qed.
Example TestElemRectangleRounded_rr1_repr : text_is (repr_elem zshow z_TestElemRectangleRounded_rr1) "ElemRectangleRounded('rr1', Point(1, -1), Point(-3, 4), 0.2)" = true.
Proof. vm_compute. reflexivity. Qed.
Definition z_TestElemRectangleRounded_rr2 : elem Z := (ELeaf (EB "rr2" (PenBrush (Some (Pen (Brush (CStr "red")) 0)) (Some (Brush (CStr "blue")))) true t_new) (SRRect (P (1001) (1002)) (P (1003) (996)) (1001))).
Example TestElemRectangleRounded_rr2_dump : gives text_is (dump_text zshow z_TestElemRectangleRounded_rr2) "from x7.geom.geom import *
from x7.geom.model import *
from x7.geom.colors import *
from x7.geom.transform import *

pen_1 = PenBrush(Pen('red', 0.0), Brush('blue'))

model = ElemRectangleRounded('rr2', pen_1, closed=True, p1=Point(1, 2), p2=Point(3, -4), radius=1)" = true.
Proof. vm_compute. reflexivity. Qed.
Example TestElemRectangleRounded_rr2_str : text_is (str_elem zshow zshow z_TestElemRectangleRounded_rr2) "ElemRectangleRounded('rr2', Point(1, 2), Point(3, -4), 1)" = true.
Proof. vm_compute. reflexivity. Qed.
Example TestElemRectangleRounded_rr2_repr : text_is (repr_elem zshow z_TestElemRectangleRounded_rr2) "ElemRectangleRounded('rr2', Point(1, 2), Point(3, -4), 1)" = true.
Proof. vm_compute. reflexivity. Qed.
Definition z_TestGroup_group1 : elem Z := (EGroup (EB "group1" (PenBrush (Some (Pen (Brush (CStr "default")) 0)) None) false t_new) false [("g1_rr1", (ELeaf (EB "g1_rr1" (PenBrush (Some (Pen (Brush (CStr "red")) 0)) None) true t_new) (SRRect (P (1001) (999)) (P (997) (1004)) 5)))] []).
Example TestGroup_group1_dump : gives text_is (dump_text zshow z_TestGroup_group1) "from x7.geom.geom import *
from x7.geom.model import *
from x7.geom.colors import *
from x7.geom.transform import *

pen_1 = PenBrush(Pen('default', 0.0), None)
pen_2 = PenBrush(Pen('red', 0.0), None)

model = Group('group1', pen_1, closed=False, elems=[
    ElemRectangleRounded('g1_rr1', pen_2, closed=True, p1=Point(1, -1), p2=Point(-3, 4), radius=0.2),
])" = true.
Proof. vm_compute. reflexivity. Qed.
Example TestGroup_group1_str : text_is (str_elem zshow zshow z_TestGroup_group1) "Group(group1, 1 elems, 0 points)" = true.
Proof. vm_compute. reflexivity. Qed.
Example TestGroup_group1_repr : text_is (repr_elem zshow z_TestGroup_group1) "Group('group1', PenBrush(Pen('default', 0.0), None), False, Transform((1.0, 0.0, 0.0, 0.0, 1.0, 0.0)), {'g1_rr1': ElemRectangleRounded('g1_rr1', Point(1, -1), Point(-3, 4), 0.2)}, {})" = true.
Proof. vm_compute. reflexivity. Qed.
Definition z_TestGroup_group2 : elem Z := (EGroup (EB "group2" (PenBrush (Some (Pen (Brush (CStr "default")) 0)) None) false t_new) false [("c1", (ELeaf (EB "c1" (PenBrush (Some (Pen (Brush (CStr "black")) 0)) None) true t_new) (SCurve [(CP (P (1000) (1000)) (V (1000) (1001)) (V (1000) (999)) "smooth"); (CP (P (1010) (1000)) (V (1000) (1001)) (V (1000) (999)) "smooth")]))); ("c2", (ELeaf (EB "c2" (PenBrush (Some (Pen (Brush (CStr "black")) 0)) None) true t_new) (SCurve [(CP (P (1010) (1000)) (V (1000) (1001)) (V (1000) (999)) "smooth"); (CP (P (1000) (1000)) (V (1000) (1001)) (V (1000) (999)) "smooth")]))); ("e1", (ELeaf (EB "e1" (PenBrush (Some (Pen (Brush (CStr "red")) 0)) (Some (Brush (CStr "blue")))) true t_new) (SEllipse (P (1001) (999)) (P (997) (1004))))); ("e2", (ELeaf (EB "e2" (PenBrush (Some (Pen (Brush (CStr "red")) 0)) (Some (Brush (CStr "blue")))) true t_new) (SEllipse (P (1001) (1002)) (P (1003) (996))))); ("r1", (ELeaf (EB "r1" (PenBrush (Some (Pen (Brush (CStr "red")) 0)) (Some (Brush (CStr "blue")))) true t_new) (SRect (P (1001) (999)) (P (997) (1004))))); ("r2", (ELeaf (EB "r2" (PenBrush (Some (Pen (Brush (CStr "red")) 0)) (Some (Brush (CStr "blue")))) true t_new) (SRect (P (1001) (1002)) (P (1003) (996))))); ("rr1", (ELeaf (EB "rr1" (PenBrush (Some (Pen (Brush (CStr "red")) 0)) (Some (Brush (CStr "blue")))) true t_new) (SRRect (P (1001) (999)) (P (997) (1004)) 5))); ("rr2", (ELeaf (EB "rr2" (PenBrush (Some (Pen (Brush (CStr "red")) 0)) (Some (Brush (CStr "blue")))) true t_new) (SRRect (P (1001) (1002)) (P (1003) (996)) (1001))))] []).
Example TestGroup_group2_dump : gives text_is (dump_text zshow z_TestGroup_group2) "from x7.geom.geom import *
from x7.geom.model import *
from x7.geom.colors import *
from x7.geom.transform import *

pen_1 = PenBrush(Pen('default', 0.0), None)
pen_2 = PenBrush(Pen('black', 0.0), None)
pen_3 = PenBrush(Pen('red', 0.0), Brush('blue'))

model = Group('group2', pen_1, closed=False, elems=[
    ElemCurve('c1', pen_2, closed=True, control_points=[
        ControlPoint(Point(0, 0), Vector(0, 1), Vector(0, -1), 'smooth'),
        ControlPoint(Point(10, 0), Vector(0, 1), Vector(0, -1), 'smooth'),
    ]),
    ElemCurve('c2', pen_2, closed=True, control_points=[
        ControlPoint(Point(10, 0), Vector(0, 1), Vector(0, -1), 'smooth'),
        ControlPoint(Point(0, 0), Vector(0, 1), Vector(0, -1), 'smooth'),
    ]),
    ElemEllipse('e1', pen_3, closed=True, p1=Point(1, -1), p2=Point(-3, 4)),
    ElemEllipse('e2', pen_3, closed=True, p1=Point(1, 2), p2=Point(3, -4)),
    ElemRectangle('r1', pen_3, closed=True, p1=Point(1, -1), p2=Point(-3, 4)),
    ElemRectangle('r2', pen_3, closed=True, p1=Point(1, 2), p2=Point(3, -4)),
    ElemRectangleRounded('rr1', pen_3, closed=True, p1=Point(1, -1), p2=Point(-3, 4), radius=0.2),
    ElemRectangleRounded('rr2', pen_3, closed=True, p1=Point(1, 2), p2=Point(3, -4), radius=1),
])" = true.
Proof. vm_compute. reflexivity. Qed.
Example TestGroup_group2_str : text_is (str_elem zshow zshow z_TestGroup_group2) "Group(group2, 8 elems, 0 points)" = true.
Proof. vm_compute. reflexivity. Qed.
Example TestGroup_group2_repr : text_is (repr_elem zshow z_TestGroup_group2) "Group('group2', PenBrush(Pen('default', 0.0), None), False, Transform((1.0, 0.0, 0.0, 0.0, 1.0, 0.0)), {'c1': ElemCurve('c1', ControlPoint(Point(0, 0), Vector(0, 1), Vector(0, -1), 'smooth'), ControlPoint(Point(10, 0), Vector(0, 1), Vector(0, -1), 'smooth')), 'c2': ElemCurve('c2', ControlPoint(Point(10, 0), Vector(0, 1), Vector(0, -1), 'smooth'), ControlPoint(Point(0, 0), Vector(0, 1), Vector(0, -1), 'smooth')), 'e1': ElemEllipse('e1', Point(1, -1), Point(-3, 4)), 'e2': ElemEllipse('e2', Point(1, 2), Point(3, -4)), 'r1': ElemRectangle('r1', Point(1, -1), Point(-3, 4)), 'r2': ElemRectangle('r2', Point(1, 2), Point(3, -4)), 'rr1': ElemRectangleRounded('rr1', Point(1, -1), Point(-3, 4), 0.2), 'rr2': ElemRectangleRounded('rr2', Point(1, 2), Point(3, -4), 1)}, {})" = true.
Proof. vm_compute. reflexivity. Qed.
