(* Notions used in the statements about GroupBuilder. *)
Require Import Verif.Base Verif.M_vector Verif.M_bbox Verif.M_transform Verif.M_bezier Verif.M_colors Verif.M_elems Verif.M_builder Verif.S_group.
From Coq Require Import String List.
Import ListNotations.
Local Open Scope string_scope.
Local Open Scope list_scope.

(* a tree of groups and leaves: in every group the names of the members are pairwise
   different, without dots, and known to the members, and so are the names of the points *)
Inductive sound {F} : elem F -> Prop :=
| so_leaf b s : sound (ELeaf b s)
| so_group b h l p : good_table l -> NoDup (keys p) -> (forall k, In k (keys p) -> ~ dotted_name k) ->
    (forall k e, In (k, e) l -> sound e) -> sound (EGroup b h l p).

(* [put root ks g root']: [root'] is [root] with [g] in the place reached by the names [ks];
   everything else is the same *)
Inductive put {F} : elem F -> list string -> elem F -> elem F -> Prop :=
| put_here e g : put e [] g g
| put_in b h l1 k c c' l2 p ks g : ~ In k (keys l1) -> put c ks g c' ->
    put (EGroup b h (l1 ++ (k, c) :: l2) p) (k :: ks) g (EGroup b h (l1 ++ (k, c') :: l2) p).

(* the five kinds *)
Definition kind_of {A} (t : by_shape A) (k : string) (a : A) : Prop :=
  (k = "edge" /\ a = s_edge t) \/ (k = "filled" /\ a = s_filled t) \/ (k = "clear" /\ a = s_clear t) \/
  (k = "edge_filled" /\ a = s_edge_filled t) \/ (k = "edge_clear" /\ a = s_edge_clear t).

(* what may happen to an element of the tree: a leaf stays the same, a group keeps its own
   attributes, its members in their order and its points, and may get more of both *)
Definition grown {F} (g g' : elem F) : Prop :=
  match g with
  | EGroup b h l p => exists l' p' ks qs, g' = EGroup b h l' p' /\ keys l' = keys l ++ ks /\ p' = p ++ qs
  | _ => g' = g
  end.
(* the same for everything in the tree, by the names leading to it *)
Definition all_grown {F} (root root' : elem F) : Prop :=
  forall ks e, reaches root ks e -> exists e', reaches root' ks e' /\ grown e e'.

(* [root'] is [root] with the member [e] added under the name [n] at the end of the group at
   [ks], and nothing else changed; the name is new there and has no dot *)
Definition added {F} (root root' : elem F) (ks : list string) (n : string) (e : elem F) : Prop :=
  exists b h l p, reaches root ks (EGroup b h l p) /\ put root ks (EGroup b h (l ++ [(n, e)]) p) root' /\
    reaches root' ks (EGroup b h (l ++ [(n, e)]) p) /\ ~ In n (keys l) /\ ~ dotted_name n.
(* the same for a point *)
Definition added_pt {F} (root root' : elem F) (ks : list string) (n : string) (q : pt F) : Prop :=
  exists b h l p, reaches root ks (EGroup b h l p) /\ put root ks (EGroup b h l (p ++ [(n, q)])) root' /\
    reaches root' ks (EGroup b h l (p ++ [(n, q)])) /\ ~ In n (keys p) /\ ~ dotted_name n.

(* the state between two calls: a sound tree in which every builder has its group *)
Definition ready {F} (st : bstate (F := F)) : Prop :=
  sound (fst st) /\ is_group (fst st) /\
  forall bl, In bl (snd st) -> exists g, reaches (fst st) (bl_path bl) g /\ is_group g.

(* the pens meant by the argument shape_kind of a call *)
Definition pens_of {F} (bl : builder F) (kind : kindarg F) (pb : penbrush F) : Prop :=
  match kind with
  | KPens p => pb = p
  | KStr k => (k <> "" /\ kind_of (bl_pens bl) k pb) \/ (k = "" /\ kind_of (bl_pens bl) (bl_kind bl) pb)
  | KNone => kind_of (bl_pens bl) (bl_kind bl) pb
  end.
(* shapes given by two corners and filled shapes have to be closed *)
Definition must_close {F} (s : shape F) (pb : penbrush F) : Prop :=
  pb_filled pb = true \/ match s with SCurve _ => False | _ => True end.
