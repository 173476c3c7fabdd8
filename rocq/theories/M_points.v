(* Live points: Point, PointRelative, PointCalc and VectorRelative as objects in a store
   (/repo/x7/geom/geom.py 214-271, 274-345, 420-534).
   Objects are numbered in order of creation; a base must exist before it is referred to. *)
Require Import Verif.Base Verif.M_vector.
From Coq Require Import String Ascii.
Set Implicit Arguments.

(* name=None or a string *)
Definition name := option string.

Inductive pnode (F : Type) :=
| NPoint (x y : F) (n : name)                        (* geom.py:431-434 *)
| NRel (dx dy : F) (base : nat) (n : name)           (* geom.py:480-484 *)
| NCalc (base : nat) (scale : F) (n : name).         (* geom.py:510-514 *)
Arguments NPoint {F}. Arguments NRel {F}. Arguments NCalc {F}.

Definition pstore (F : Type) := list (pnode F).

Section Points.
  Context {F : Type} {NF : Num F}.
  Local Open Scope list_scope.
  Local Open Scope num_scope.

  (* xy(): Point 458-460, PointRelative 504-506, PointCalc 532-534.  [fuel] bounds the
     recursion; a dangling reference cannot occur in Python and is a KeyError here, and so is
     running out of fuel, which does not happen with the fuel of [pos] below.
     PointCalc reads self.base.base and self.base.dx: a PointCalc has no dx. *)
  Fixpoint xy (fuel : nat) (st : pstore F) (i : nat) : res (pt F) :=
    match fuel with
    | O => Raise KeyError
    | S fuel =>
        match nth_error st i with
        | None => Raise KeyError
        | Some (NPoint x y _) => Ok (P x y)
        | Some (NRel dx dy b _) => let* p := xy fuel st b in Ok (P (dx + px p) (dy + py p))
        | Some (NCalc b scale _) =>
            match nth_error st b with
            | None => Raise KeyError
            | Some (NPoint _ _ _) => Raise AttributeError
            | Some (NRel dx dy bb _) =>
                let* p := xy fuel st bb in Ok (P (scale * dx + px p) (scale * dy + py p))
            | Some (NCalc bb _ _) => let* p := xy fuel st bb in Raise AttributeError
            end
        end
    end.
  Definition pos (st : pstore F) (i : nat) : res (pt F) := xy (S i) st i.

  (* name is truthy *)
  Definition has_name (n : name) : bool := match n with None => false | Some s => negb (String.eqb s "") end.
  Definition node_name (d : pnode F) : name :=
    match d with NPoint _ _ n | NRel _ _ _ n | NCalc _ _ n => n end.
  Definition name_eqb (a b : name) : bool :=
    match a, b with None, None => true | Some s, Some t => String.eqb s t | _, _ => false end.

  (* p == q: BasePoint 293-295, Point 436-438, PointRelative 489-494, PointCalc 522-527 *)
  Fixpoint node_eqb (fuel : nat) (st : pstore F) (i j : nat) : bool :=
    match fuel with
    | O => false
    | S fuel =>
        match nth_error st i, nth_error st j with
        | Some (NPoint x y n), Some (NPoint x' y' n') => name_eqb n n' && (x =? x') && (y =? y')
        | Some (NRel dx dy b n), Some (NRel dx' dy' b' n') =>
            name_eqb n n' && (dx =? dx') && (dy =? dy') && node_eqb fuel st b b'
        | Some (NCalc b s n), Some (NCalc b' s' n') =>
            name_eqb n n' && (s =? s') && node_eqb fuel st b b'
        | _, _ => false
        end
    end.
  Definition points_eqb (st : pstore F) (i j : nat) : bool := node_eqb (S i) st i j.

  (* operations of a program on its points *)
  Inductive pop :=
  | PNew (x y : F) (n : name)                         (* Point(x, y, name) *)
  | PRel (dx dy : F) (base : nat) (n : name)          (* PointRelative(dx, dy, base, name) *)
  | PFromxy (x y : F) (base : nat)                    (* PointRelative.fromxy 499-502 *)
  | PCalc (base : nat) (scale : F) (n : name)         (* PointCalc(base, scale, name) *)
  | PCopy (i : nat)                                   (* copy() 462-464, 496-497, 529-530 *)
  | PFixed (i : nat)                                  (* fixed() 320-321 *)
  | PSetxy (i : nat) (x y : F)                        (* Point.setxy 473-476 *)
  | PSet (i j : nat)                                  (* Point.set 469-471 and restore 466-467 *)
  | PSetD (i : nat) (dx dy : F)                       (* assignment to rel.dx, rel.dy *)
  | PSetScale (i : nat) (scale : F).                  (* assignment to calc.scale *)

  Definition upd (st : pstore F) (i : nat) (d : pnode F) : pstore F :=
    firstn i st ++ d :: skipn (S i) st.

  (* the store after the call and the new object's number, or the exception *)
  Definition pstep (st : pstore F) (o : pop) : pstore F * res nat :=
    let n := List.length st in
    match o with
    | PNew x y nm => (st ++ [NPoint x y nm], Ok n)
    | PRel dx dy b nm =>
        match nth_error st b with
        | None => (st, Raise KeyError)
        | Some _ => (st ++ [NRel dx dy b nm], Ok n)
        end
    | PFromxy x y b =>
        match pos st b with
        | Raise e => (st, Raise e)
        | Ok p => (st ++ [NRel (x - px p) (y - py p) b None], Ok n)
        end
    | PCalc b s nm =>
        (* assert hasattr(base, 'base'): geom.py:512 *)
        match nth_error st b with
        | None => (st, Raise KeyError)
        | Some (NPoint _ _ _) => (st, Raise AssertionError)
        | Some _ => (st ++ [NCalc b s nm], Ok n)
        end
    | PCopy i =>
        match nth_error st i with
        | None => (st, Raise KeyError)
        | Some (NPoint x y _) => (st ++ [NPoint x y None], Ok n)     (* the name is not passed on *)
        | Some (NRel dx dy b nm) => (st ++ [NRel dx dy b nm], Ok n)
        | Some (NCalc b s nm) => (st ++ [NCalc b s nm], Ok n)
        end
    | PFixed i =>
        match nth_error st i with
        | None => (st, Raise KeyError)
        | Some d =>
            match pos st i with
            | Raise e => (st, Raise e)
            | Ok p => (st ++ [NPoint (px p) (py p)
                         (if has_name (node_name d)
                          then Some (String.append "fixed_" (match node_name d with Some s => s | None => "" end))
                          else None)], Ok n)
            end
        end
    | PSetxy i x y =>
        match nth_error st i with
        | Some (NPoint _ _ nm) => (upd st i (NPoint x y nm), Ok i)
        | Some _ => (st, Raise AttributeError)
        | None => (st, Raise KeyError)
        end
    | PSet i j =>
        match nth_error st i with
        | Some (NPoint _ _ nm) =>
            match pos st j with
            | Raise e => (st, Raise e)
            | Ok p => (upd st i (NPoint (px p) (py p) nm), Ok i)
            end
        | Some _ => (st, Raise AttributeError)
        | None => (st, Raise KeyError)
        end
    | PSetD i dx dy =>
        match nth_error st i with
        | Some (NRel _ _ b nm) => (upd st i (NRel dx dy b nm), Ok i)
        | Some _ => (st, Ok i)      (* Python adds attributes nothing reads; simplified: with them a PointCalc could be
                                       the base of another PointCalc, which is left out *)
        | None => (st, Raise KeyError)
        end
    | PSetScale i s =>
        match nth_error st i with
        | Some (NCalc b _ nm) => (upd st i (NCalc b s nm), Ok i)
        | Some _ => (st, Ok i)
        | None => (st, Raise KeyError)
        end
    end.

  Definition prun (ops : list pop) (st : pstore F) : pstore F :=
    fold_left (fun s o => fst (pstep s o)) ops st.

  (* VectorRelative(p1, p2), geom.py:214-271: xy() is (p1 - p2).xy() *)
  Record vrel := VR { vr_p1 : nat; vr_p2 : nat }.
  Definition vr_xy (st : pstore F) (v : vrel) : res (vec F) :=
    let* p := pos st (vr_p1 v) in let* q := pos st (vr_p2 v) in Ok (p_sub p q).
  (* VectorRelative.__bool__ 232-235 *)
  Definition vr_bool (st : pstore F) (v : vrel) : res bool :=
    let* w := vr_xy st v in Ok (v_bool w).
  (* .p is inherited from Vector (120-122) and reads self._x, which was deleted *)
  Definition vr_p (v : vrel) : res (pt F) := Raise AttributeError.
End Points.
Arguments pop : clear implicits.
