(* Notions used in the statements about drawing trees of elements. *)
Require Import Verif.Base Verif.NumR Verif.M_vector Verif.M_bbox Verif.M_transform Verif.M_bezier Verif.M_colors Verif.M_elems.
Require Import Verif.S_transform Verif.S_bbox Verif.L_ord.
From Coq Require Import String Reals List.
Import ListNotations.
Local Open Scope list_scope.
Local Open Scope R_scope.

(* the leaves that are drawn, in drawing order, each with the product of the matrices around
   it; nothing inside a hidden group is drawn.  For trees without holes. *)
Fixpoint visible {F} {NF : Num F} (e : elem F) (acc : mat F) : list (ebase F * shape F * mat F) :=
  match e with
  | ELeaf b s => [(b, s, acc)]
  | EGroup b hidden l _ =>
      if hidden then [] else flat_map (fun ke => visible (snd ke) (mat_dot acc (tmat (e_xform b)))) l
  | EHoles _ _ _ => []
  end.

(* what drawing [e] under the matrix [M] gives does not depend on anything else in the
   drawing context: a matrix object holding just [M] *)
Definition only {F} (M : mat F) : transform F := T M None [].

(* trees whose box is meant to hold the picture: affine matrices, no negative radius, and the
   outside of a shape with holes not moved by a matrix of its own *)
Inductive boxable : elem R -> Prop :=
| bx_leaf b s : affine_mat (tmat (e_xform b)) ->
    match s with SRRect _ _ r => 0 <= r | _ => True end -> boxable (ELeaf b s)
| bx_group b h l p : affine_mat (tmat (e_xform b)) ->
    (forall k e, In (k, e) l -> boxable e) -> boxable (EGroup b h l p)
| bx_holes b o i : affine_mat (tmat (e_xform b)) -> boxable o -> tmat (e_xform (e_base o)) = mat_id ->
    (forall e, In e i -> boxable e) -> boxable (EHoles b o i).

(* a pen without a brush, and a brush without a pen *)
Definition pen_only {F} (pb : penbrush F) : penbrush F := PenBrush (pb_pen pb) None.
Definition brush_only {F} (pb : penbrush F) : penbrush F := PenBrush None (pb_brush pb).
(* a list repeated *)
Fixpoint times {A} (n : nat) (l : list A) : list A :=
  match n with O => [] | S n' => l ++ times n' l end.

(* ---------------- boxes ---------------- *)

(* [bb] is the least box around the boxes [bbs] *)
Definition least_around (bbs : list (bbox R)) (bb : bbox R) : Prop :=
  bb <> BNone /\ good bb /\ (forall x, In x bbs -> sub_box x bb) /\
  (forall c, good c -> (forall x, In x bbs -> sub_box x c) -> sub_box bb c).

(* ---------------- copies ---------------- *)

(* the parts of a shape with holes have the pens of the whole, as the constructor arranges *)
Inductive pens_shared {F} : elem F -> Prop :=
| ps_leaf b s : pens_shared (ELeaf b s)
| ps_group b h l p : (forall k e, In (k, e) l -> pens_shared e) -> pens_shared (EGroup b h l p)
| ps_holes b o i : pens_shared o -> e_pb (e_base o) = e_pb b ->
    (forall e, In e i -> pens_shared e /\ e_pb (e_base e) = e_pb b) -> pens_shared (EHoles b o i).

(* what can be copied: no filled group, no two-corner shape or filled shape that is open *)
Inductive copyable {F} : elem F -> Prop :=
| cy_leaf b s : (pb_filled (e_pb b) = true -> e_closed b = true) ->
    match s with SCurve _ => True | _ => e_closed b = true end -> copyable (ELeaf b s)
| cy_group b h l p : pb_filled (e_pb b) = false -> copyable (EGroup b h l p)
| cy_holes b o i : (pb_filled (e_pb b) = true -> e_closed b = true) -> copyable o ->
    (forall e, In e i -> copyable e) -> copyable (EHoles b o i).
