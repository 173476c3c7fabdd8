(* Transforms as Python objects: each Transform holds a reference to a Matrix object and a
   stack of references to Matrix objects; in-place updates go through those references
   (/repo/x7/geom/transform.py 36-53, 118-165, 190-253, 303-325). *)
Require Import Verif.Base Verif.M_vector Verif.M_bbox Verif.M_transform.
Set Implicit Arguments.

(* a Transform object: _mat (reference), _inverse (an array, never mutated), stack (references) *)
Record hobj (F : Type) := H { h_ref : nat; h_inv : option (mat F); h_stack : list nat }.
Arguments H {F}.
(* Matrix objects by address, Transform objects by index *)
Record heap (F : Type) := Heap { cells : list (mat F); objs : list (hobj F) }.
Arguments Heap {F}.

Fixpoint update {A} (l : list A) (i : nat) (a : A) : list A :=
  match l, i with
  | [], _ => []
  | _ :: r, O => a :: r
  | x :: r, S j => x :: update r j a
  end.

(* calls: [HCall i o] is a call on object i whose arguments are not Transforms;
   the others take another (or the same) object j as argument; [HCopy i] makes a new object *)
Inductive hop (F : Type) :=
| HNew | HCopy (i : nat) | HCall (i : nat) (o : top F)
| HComposeT (i j : nat) | HComposeOuterT (i j : nat) | HSetMatrixT (i j : nat).
Arguments HNew {F}. Arguments HCopy {F}. Arguments HComposeT {F}.
Arguments HComposeOuterT {F}. Arguments HSetMatrixT {F}.

Section Heap.
  Context {F : Type} {NF : Num F} {RF : NumRoot F} {TF : NumTrig F}.

  Definition cell (h : heap F) (r : nat) : mat F := nth r (cells h) mat_id.

  (* what object o currently means *)
  Definition view (h : heap F) (o : hobj F) : transform F :=
    T (cell h (h_ref o)) (h_inv o) (map (cell h) (h_stack o)).

  (* one call on object o (index i): the object's own fields and the Matrix cells change *)
  Definition hcall (h : heap F) (i : nat) (o : hobj F) (c : top F) : heap F :=
    let s := view h o in
    let s' := fst (tstep c s) in
    match c with
    | OReset | OSetMatrix _ =>
        (* self._mat = a new Matrix: transform.py:147-149, 162-165 *)
        Heap (cells h ++ [tmat s']) (update (objs h) i (H (length (cells h)) None (h_stack o)))
    | OPush =>
        (* self.stack.append(self._mat.copy()): transform.py:318 *)
        Heap (cells h ++ [cell h (h_ref o)])
             (update (objs h) i (H (h_ref o) (h_inv o) (length (cells h) :: h_stack o)))
    | OPop =>
        (* self._mat = self.stack.pop(): transform.py:322-325 *)
        match h_stack o with
        | [] => h
        | r :: st => Heap (cells h) (update (objs h) i (H r None st))
        end
    | _ =>
        (* self._mat.ndmat = ...: the Matrix object stays, its contents change *)
        Heap (update (cells h) (h_ref o) (tmat s'))
             (update (objs h) i (H (h_ref o) (tinv s') (h_stack o)))
    end.

  Definition hstep (h : heap F) (c : hop F) : heap F :=
    match c with
    | HNew => Heap (cells h ++ [mat_id]) (objs h ++ [H (length (cells h)) None []])
    | HCopy i =>
        (* copy(): transform.py:142-145; Transform(...) makes a Matrix, set_matrix another *)
        match nth_error (objs h) i with
        | None => h
        | Some o =>
            Heap (cells h ++ [tmat (t_copy (view h o))]) (objs h ++ [H (length (cells h)) None []])
        end
    | HCall i c =>
        match nth_error (objs h) i with None => h | Some o => hcall h i o c end
    | HComposeT i j =>
        match nth_error (objs h) i, nth_error (objs h) j with
        | Some o, Some u => hcall h i o (OCompose (cell h (h_ref u)))
        | _, _ => h
        end
    | HComposeOuterT i j =>
        match nth_error (objs h) i, nth_error (objs h) j with
        | Some o, Some u => hcall h i o (OComposeOuter (cell h (h_ref u)))
        | _, _ => h
        end
    | HSetMatrixT i j =>
        match nth_error (objs h) i, nth_error (objs h) j with
        | Some o, Some u => hcall h i o (OSetMatrix (cell h (h_ref u)))
        | _, _ => h
        end
    end.

  Definition hrun (cs : list (hop F)) (h : heap F) : heap F := fold_left hstep cs h.

  (* the meaning of object k, if it exists *)
  Definition meaning (h : heap F) (k : nat) : option (transform F) :=
    match nth_error (objs h) k with None => None | Some o => Some (view h o) end.
End Heap.
