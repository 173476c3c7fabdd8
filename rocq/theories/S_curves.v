(* Notions used in the statements about as_curves. *)
Require Import Verif.Base Verif.NumR Verif.M_vector Verif.M_bbox Verif.M_transform Verif.M_bezier Verif.M_colors Verif.M_elems.
Require Import Verif.S_transform Verif.S_elems.
From Coq Require Import String Reals List.
Import ListNotations.
Local Open Scope list_scope.
Local Open Scope R_scope.

(* every simple element of a tree, hidden or not, in order, with the map that the transforms
   of the element and of everything around it make together; [g] is what lies outside *)
Fixpoint leaves (e : elem R) (g : pt R -> pt R) : list (ebase R * shape R * (pt R -> pt R)) :=
  match e with
  | ELeaf b s => [(b, s, fun p => g (lin (tmat (e_xform b)) p))]
  | EGroup b _ l _ => flat_map (fun ke => leaves (snd ke) (fun p => g (lin (tmat (e_xform b)) p))) l
  | EHoles b o i =>
      leaves o (fun p => g (lin (tmat (e_xform b)) p)) ++
      flat_map (fun e => leaves e (fun p => g (lin (tmat (e_xform b)) p))) i
  end.
(* all transforms of the tree have the last row (0, 0, 1) *)
Inductive affine_tree : elem R -> Prop :=
| at_leaf b s : affine_mat (tmat (e_xform b)) -> affine_tree (ELeaf b s)
| at_group b h l p : affine_mat (tmat (e_xform b)) -> (forall k e, In (k, e) l -> affine_tree e) -> affine_tree (EGroup b h l p)
| at_holes b o i : affine_mat (tmat (e_xform b)) -> affine_tree o -> (forall e, In e i -> affine_tree e) -> affine_tree (EHoles b o i).
(* control point by control point, [f] maps the first list to the second *)
Definition mapped (f : pt R -> pt R) : list (cpoint R) -> list (cpoint R) -> Prop :=
  Forall2 (fun a a' => cc a' = f (cc a) /\ cp_l a' = f (cp_l a) /\ cp_r a' = f (cp_r a) /\ ckind a' = ckind a).
(* [c] is the curve of the element: same name, pens and closedness, its control points moved
   to where they are seen, and no transform of its own *)
Definition curve_of (x : ebase R * shape R * (pt R -> pt R)) (c : elem R) : Prop :=
  exists cps cps', shape_cps (snd (fst x)) = Ok cps /\ mapped (snd x) cps cps' /\
    c = ELeaf (EB (e_name (fst (fst x))) (e_pb (fst (fst x))) (e_closed (fst (fst x))) t_new) (SCurve cps').
(* what makes as_curves fail: an open filled element, or a shape without an outline *)
Definition curvable (x : ebase R * shape R * (pt R -> pt R)) : Prop :=
  (pb_filled (e_pb (fst (fst x))) = true -> e_closed (fst (fst x)) = true) /\
  exists cps, shape_cps (snd (fst x)) = Ok cps.
