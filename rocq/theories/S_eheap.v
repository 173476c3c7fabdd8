(* Specification of copies and undo: what an element looks like, which objects exist, which
   objects an operation is told to change. *)
Require Import Verif.Base Verif.M_vector Verif.M_bbox Verif.M_transform Verif.M_bezier Verif.M_colors
  Verif.M_points Verif.M_elems Verif.M_group Verif.M_eheap.
From Coq Require Import String.
Local Open Scope list_scope.

Section Values.
  Context {F : Type} {NF : Num F}.
  Notation heap := (heap F).
  (* the value an element has, as in M_elems: what xy() of its points gives, and so on *)
  Definition cp_value (h : heap) (i : nat) : option (cpoint F) :=
    match nth_error (h_cps h) i with
    | None => None
    | Some c =>
        match pos (h_pts h) (co_c c), nth_error (h_vecs h) (co_dl c), nth_error (h_vecs h) (co_dr c) with
        | Ok p, Some l, Some r => Some (CP p l r (co_kind c))
        | _, _, _ => None
        end
    end.
  Definition pt_value (h : heap) (i : nat) : option (pt F) :=
    match pos (h_pts h) i with Ok p => Some p | Raise _ => None end.
  Fixpoint all_some {A} (l : list (option A)) : option (list A) :=
    match l with
    | [] => Some []
    | Some a :: l' => match all_some l' with Some r => Some (a :: r) | None => None end
    | None :: _ => None
    end.
  Definition base_value (h : heap) (b : obase F) : option (ebase F) :=
    match nth_error (h_xfs h) (o_xform b) with
    | Some x => Some (EB (o_name b) (o_pb b) (o_closed b) x)
    | None => None
    end.
  Definition box_shape (k : boxkind F) (p q : pt F) : shape F :=
    match k with KRect => SRect p q | KEllipse => SEllipse p q | KRounded r => SRRect p q r end.
  (* curves and two-corner shapes *)
  Definition leaf_value (h : heap) (e : nat) : option (ebase F * shape F) :=
    match nth_error (h_els h) e with
    | Some (OCurve b cps) =>
        match base_value h b, all_some (map (cp_value h) cps) with
        | Some b, Some l => Some (b, SCurve l)
        | _, _ => None
        end
    | Some (OBox b k p q) =>
        match base_value h b, pt_value h p, pt_value h q with
        | Some b, Some p, Some q => Some (b, box_shape k p q)
        | _, _, _ => None
        end
    | _ => None
    end.
End Values.

(* the objects of a program *)
Inductive ref := RP (i : nat) | RV (i : nat) | RC (i : nat) | RX (i : nat) | RE (i : nat).

Section Refs.
  Context {F : Type} {NF : Num F}.
  Definition there (h : heap F) (r : ref) : Prop :=
    match r with
    | RP i => i < List.length (h_pts h)
    | RV i => i < List.length (h_vecs h)
    | RC i => i < List.length (h_cps h)
    | RX i => i < List.length (h_xfs h)
    | RE i => i < List.length (h_els h)
    end.
  (* r is the same object with the same contents *)
  Definition same (h h' : heap F) (r : ref) : Prop :=
    match r with
    | RP i => nth_error (h_pts h') i = nth_error (h_pts h) i
    | RV i => nth_error (h_vecs h') i = nth_error (h_vecs h) i
    | RC i => nth_error (h_cps h') i = nth_error (h_cps h) i
    | RX i => nth_error (h_xfs h') i = nth_error (h_xfs h) i
    | RE i => nth_error (h_els h') i = nth_error (h_els h) i
    end.
  (* made between h and h' *)
  Definition made (h h' : heap F) (r : ref) : Prop := ~ there h r /\ there h' r.

  (* the objects an operation is told to change; a control point or corner put into an
     element counts, since changing that element changes it *)
  Definition touches (o : hop F) : list ref :=
    match o with
    | HPt (PSetxy i _ _) | HPt (PSet i _) | HPt (PSetD i _ _) | HPt (PSetScale i _) => [RP i]
    | HPt _ | HVec _ | HCp _ _ _ _ | HXf _ | HBox _ _ _ _ _ _ _ | HGroup _ _ _ _ _ _ _ => []
    | HSetVec i _ => [RV i]
    | HSetCp i _ _ _ _ => [RC i]
    | HSetXf i _ => [RX i]
    | HCurve _ _ cps _ _ => map RC cps
    | HHoles _ _ o i _ _ => RE o :: map RE i
    | HBase e _ _ _ _ | HBoxUpdate e _ _ _ _ | HRadius e _ | HTable e _ _ _ | HParts e _ _ => [RE e]
    | HCorners e p q => [RE e; RP p; RP q]
    | HCps e cps => RE e :: map RC cps
    | HAdd g _ e => [RE g; RE e]
    | HCopy _ _ | HTransform _ _ _ => []
    | HRestore _ e _ => [RE e]
    end.
  (* no operation of the program is told to change an object of the set *)
  Definition spares (ours : ref -> Prop) (ops : list (hop F)) : Prop :=
    Forall (fun o => Forall (fun r => ~ ours r) (touches o)) ops.

  (* what a program can reach *)
  Definition hreach (h : heap F) : Prop := exists ops, h = hrun ops empty.

  (* e can take the values of c point by point: for a curve, as many control points, each an
     object of its own; for a two-corner shape, two different absolute points as corners *)
  Definition fits (h : heap F) (e c : nat) : Prop :=
    let absolute i := exists x y n, nth_error (h_pts h) i = Some (NPoint x y n) in
    match nth_error (h_els h) e, nth_error (h_els h) c with
    | Some (OCurve _ a), Some (OCurve _ b) =>
        List.length a = List.length b /\ NoDup a /\ Forall (fun i => there h (RC i)) a
    | Some (OBox _ _ p q), Some (OBox _ _ _ _) => p <> q /\ absolute p /\ absolute q
    | _, _ => False
    end.
End Refs.
