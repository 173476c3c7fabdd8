(* Model of x7/geom/model.py: class GroupBuilder (lines 1186-1337).

   A builder works on a Group object that is, for the builders returned by group(), also a
   member of the group of another builder.  The model keeps one tree for the outermost builder
   and a builder is a position in it: the names leading from the root to its group.  That is
   faithful as long as each of these groups is reachable from the root at that place only,
   which holds when the builders are used through the calls modelled here: no call removes,
   renames or moves a member.

   Modelled: GroupBuilder(), point, add_pt, lookup_pt, lookup, elem_any, rect, rrect, ellipse,
   curve, group and rotate_about_center.  add(name, elem) is Group.add, see M_group.v.
   Not modelled: hide (sets an attribute nothing reads), draw, display, dump, iter_elems and
   replace, which hand the call to the group, and the TypeError for a wrong pens_by_shape. *)
Require Import Verif.Base Verif.M_vector Verif.M_bbox Verif.M_transform Verif.M_bezier Verif.M_colors Verif.M_elems Verif.M_group.
From Coq Require Import String List Bool.
Import ListNotations.
Local Open Scope string_scope.
Local Open Scope list_scope.

(* the argument shape_kind: None, a string or a PenBrush *)
Inductive kindarg (F : Type) := KNone | KStr (s : string) | KPens (p : penbrush F).
Arguments KNone {F}. Arguments KStr {F}. Arguments KPens {F}.

Section Builder.
  Context {F : Type} {NF : Num F} {RF : NumRoot F} {TF : NumTrig F}.
  Local Open Scope num_scope.

  (* model.py:1188-1201 GroupBuilder.__init__: pens_by_shape, default_shape_kind and the place
     of the_group *)
  Record builder := Builder { bl_path : list string; bl_pens : by_shape (penbrush F); bl_kind : string }.

  (* model.py:1201 Group(name, PenBrush('default')) *)
  Definition fresh_group (name : string) : res (elem F) :=
    mk_group name (mk_penbrush (Some (PAColor (CStr "default"))) None) false None [] [] false false.

  (* a change of the members and points of the group at a place; the objects on the way stay
     the same objects *)
  Fixpoint update_at (ks : list string)
      (f : list (string * elem F) -> list (string * pt F) -> res (list (string * elem F) * list (string * pt F)))
      (e : elem F) : res (elem F) :=
    match e with
    | EGroup b h l p =>
        match ks with
        | [] => let* lp := f l p in Ok (EGroup b h (fst lp) (snd lp))
        | k :: ks' =>
            match find_key k l with
            | None => Raise KeyError
            | Some c => let* c' := update_at ks' f c in Ok (EGroup b h (set_key k c' l) p)
            end
        end
    | _ => Raise AttributeError
    end.
  Fixpoint group_at (ks : list string) (e : elem F) : res (elem F) :=
    match ks with
    | [] => Ok e
    | k :: ks' =>
        match e with
        | EGroup _ _ l _ => match find_key k l with None => Raise KeyError | Some c => group_at ks' c end
        | _ => Raise AttributeError
        end
    end.

  (* the member added last, with the name it got *)
  Definition last_member (l : list (string * elem F)) : res (string * elem F) :=
    match rev l with [] => Raise IndexError | x :: _ => Ok x end.

  (* model.py:1212-1213 add: the new tree and the object added, which now has its new name *)
  Definition b_add (ks : list string) (name : string) (e : elem F) (root : elem F)
    : res (elem F * (string * elem F)) :=
    let* root' := update_at ks (fun l p => let* l' := group_add l name e false in Ok (l', p)) root in
    let* g := group_at ks root' in
    match g with
    | EGroup _ _ l _ => let* m := last_member l in Ok (root', m)
    | _ => Raise AttributeError
    end.

  (* model.py:1203-1207 point, add_pt *)
  Definition b_add_pt (ks : list string) (name : string) (q : pt F) (root : elem F) : res (elem F) :=
    update_at ks (fun l p => let* p' := group_add_pt p name q in Ok (l, p')) root.

  (* model.py:1222-1226: the pens and the value of closed *)
  Definition pick_pens (bl : builder) (kind : kindarg F) : res (penbrush F) :=
    match kind with
    | KPens pb => Ok pb
    | KNone | KStr "" => by_shape_get (bl_pens bl) (bl_kind bl)
    | KStr s => by_shape_get (bl_pens bl) s
    end.
  (* the classes called by model.py:1228 with name, penbrush, closed and their own arguments:
     359-363 ElemCurve, 554-560 ElemP1P2, 730-735 ElemRectangleRounded *)
  Definition construct (name : string) (pb : penbrush F) (closed : bool) (s : shape F) : res (elem F) :=
    let* _ := match s with
              | SCurve _ => Ok tt
              | _ => if closed then Ok tt else Raise AssertionError
              end in
    let* b := mk_base name pb closed None in
    Ok (ELeaf b s).
  (* model.py:1218-1231 elem_any *)
  Definition elem_any (bl : builder) (name : string) (kind : kindarg F) (closed : option bool) (s : shape F)
      (root : elem F) : res (elem F * (string * elem F)) :=
    let* pb := pick_pens bl kind in
    let closed := match closed with None => pb_filled pb | Some c => c end in
    let* e := construct name pb closed s in
    b_add (bl_path bl) name e root.

  (* model.py:1288-1293 group *)
  Definition b_group (bl : builder) (name : string) (pens : option (by_shape (penbrush F))) (kind : option string)
      (root : elem F) : res (elem F * builder) :=
    let pens := match pens with Some p => p | None => bl_pens bl end in
    let kind := match kind with None | Some "" => bl_kind bl | Some k => k end in
    let* g := fresh_group name in
    let* re := b_add (bl_path bl) name g root in
    Ok (fst re, Builder (bl_path bl ++ [fst (snd re)]) pens kind).

  (* model.py:1295-1305 rotate_about_center, for an element given with its present name.  The
     state is returned with the result: the second add may raise after the first. *)
  Definition b_rotate (bl : builder) (e : elem F) (angle : F) (show : bool) (extra : string)
      (root : elem F) : elem F * res (string * elem F) :=
    match (let* bb := elem_bbox e in
           let* c := bbox_center bb in
           let* new := snd (elem_transform e (t_rotate_about angle c t_new)) in
           let* rm := b_add (bl_path bl) (elem_name e ++ "_r" ++ extra)%string new root in
           Ok (c, rm)) with
    | Raise x => (root, Raise x)
    | Ok (c, (root', m)) =>
        if show then
          match elem_any bl (elem_name e ++ "_c" ++ extra)%string (KPens (e_pb (e_base e))) (Some true)
                  (SEllipse (p_subv c (V (#1) (#1))) (p_add c (V (#1) (#1)))) root' with
          | Raise x => (root', Raise x)
          | Ok (root'', _) => (root'', Ok m)
          end
        else (root', Ok m)
    end.

  (* ---------------- histories ---------------- *)

  (* a call on the i-th builder that exists; rotate_about_center of leaves only *)
  Inductive bcall :=
  | BPoint (name : string) (q : pt F)
  | BShape (name : string) (s : shape F) (kind : kindarg F) (closed : option bool)
  | BGroup (name : string) (pens : option (by_shape (penbrush F))) (kind : option string)
  | BRotate (b : ebase F) (s : shape F) (angle : F) (show : bool) (extra : string).

  (* the tree and the builders handed out so far *)
  Definition bstate : Type := elem F * list builder.
  Definition b_init (name : string) (pens : by_shape (penbrush F)) (kind : string) : res bstate :=
    let* g := fresh_group name in Ok (g, [Builder [] pens kind]).
  Definition b_call (bl : builder) (c : bcall) (st : bstate) : bstate * res unit :=
    let (root, bs) := st in
    match c with
    | BPoint name q =>
        match b_add_pt (bl_path bl) name q root with Ok r => ((r, bs), Ok tt) | Raise x => (st, Raise x) end
    | BShape name s kind closed =>
        match elem_any bl name kind closed s root with Ok (r, _) => ((r, bs), Ok tt) | Raise x => (st, Raise x) end
    | BGroup name pens kind =>
        match b_group bl name pens kind root with Ok (r, b) => ((r, bs ++ [b]), Ok tt) | Raise x => (st, Raise x) end
    | BRotate b s angle show extra =>
        let (r, res) := b_rotate bl (ELeaf b s) angle show extra root in
        ((r, bs), let* _ := res in Ok tt)
    end.
  Fixpoint b_run (calls : list (nat * bcall)) (st : bstate) : bstate :=
    match calls with
    | [] => st
    | (i, c) :: calls' =>
        match nth_error (snd st) i with
        | None => b_run calls' st
        | Some bl => b_run calls' (fst (b_call bl c st))
        end
    end.
End Builder.
Arguments builder : clear implicits.
Arguments bcall : clear implicits.
