(* Elements as objects that refer to other objects: which objects copy(), restore() and
   transform() share, and which they make anew (/repo/x7/geom/model.py, bezier.py).
   Points, vectors, control points, transforms and elements are numbered in order of
   creation, each kind by itself; the values an element stands for are in M_elems.v and
   M_group.v.  Vectors are plain Vectors (no VectorRelative). *)
Require Import Verif.Base Verif.M_vector Verif.M_bbox Verif.M_transform Verif.M_bezier Verif.M_colors
  Verif.M_points Verif.M_elems Verif.M_group.
From Coq Require Import String.
Set Implicit Arguments.
Local Open Scope string_scope.
Local Open Scope list_scope.

(* bezier.py:23-27: a control point refers to a point and two vectors *)
Record cpobj := CPO { co_c : nat; co_dl : nat; co_dr : nat; co_kind : string }.

(* model.py:138-144 *)
Record obase (F : Type) := OB { o_name : string; o_pb : penbrush F; o_closed : bool; o_xform : nat }.
Arguments OB {F}.

(* the classes derived from ElemP1P2, and what ElemRectangleRounded adds: model.py:633, 729, 787 *)
Inductive boxkind (F : Type) := KRect | KEllipse | KRounded (radius : F).
Arguments KRect {F}. Arguments KEllipse {F}. Arguments KRounded {F}.

Inductive eobj (F : Type) :=
| OCurve (b : obase F) (cps : list nat)                                (* model.py:363-366 *)
| OBox (b : obase F) (k : boxkind F) (p1 p2 : nat)                     (* model.py:554-559 *)
| OGroup (b : obase F) (hidden : bool) (elems points : list (string * nat))   (* model.py:817-839 *)
| OHoles (b : obase F) (outside : nat) (inside : list nat).            (* model.py:1016-1024 *)
Arguments OCurve {F}. Arguments OBox {F}. Arguments OGroup {F}. Arguments OHoles {F}.

Record heap (F : Type) := Heap {
  h_pts : pstore F; h_vecs : list (vec F); h_cps : list cpobj; h_xfs : list (transform F); h_els : list (eobj F) }.
Arguments Heap {F}.

(* self.elems[name] = elem, model.py:927: an entry keeps its place, a new one comes last *)
Fixpoint put_key (k : string) (a : nat) (l : list (string * nat)) : list (string * nat) :=
  match l with
  | [] => [(k, a)]
  | (k', a') :: l' => if (k =? k')%string then (k', a) :: l' else (k', a') :: put_key k a l'
  end.

Section Heap.
  Context {F : Type} {NF : Num F}.
  Local Open Scope num_scope.
  Notation heap := (heap F).

  Definition empty : heap := Heap [] [] [] [] [].

  (* a statement: the objects after it, and its value or exception *)
  Definition act (A : Type) := heap -> heap * res A.
  Definition ret {A} (a : A) : act A := fun h => (h, Ok a).
  Definition throw {A} (e : exn) : act A := fun h => (h, Raise e).
  Definition next {A B} (m : act A) (k : A -> act B) : act B :=
    fun h => let (h', r) := m h in match r with Ok a => k a h' | Raise e => (h', Raise e) end.
  Notation "'do' x <- m ; k" := (next m (fun x => k)) (at level 200, x pattern, right associativity).
  Definition when (b : bool) (e : exn) : act unit := if b then ret tt else throw e.

  (* reading: a number nobody handed out cannot occur in Python and is a KeyError here *)
  Definition rd {A} (f : heap -> list A) (i : nat) : act A :=
    fun h => (h, match nth_error (f h) i with Some a => Ok a | None => Raise KeyError end).
  Definition rd_pt := rd (@h_pts F).
  Definition rd_vec := rd (@h_vecs F).
  Definition rd_cp := rd (@h_cps F).
  Definition rd_xf := rd (@h_xfs F).
  Definition rd_el := rd (@h_els F).

  (* making and changing objects *)
  Definition on_pts (o : pop F) : act nat := fun h =>
    let (s, r) := pstep (h_pts h) o in (Heap s (h_vecs h) (h_cps h) (h_xfs h) (h_els h), r).
  Definition mk_vec (v : vec F) : act nat := fun h =>
    (Heap (h_pts h) (h_vecs h ++ [v]) (h_cps h) (h_xfs h) (h_els h), Ok (List.length (h_vecs h))).
  Definition mk_cp (c : cpobj) : act nat := fun h =>
    (Heap (h_pts h) (h_vecs h) (h_cps h ++ [c]) (h_xfs h) (h_els h), Ok (List.length (h_cps h))).
  Definition mk_xf (t : transform F) : act nat := fun h =>
    (Heap (h_pts h) (h_vecs h) (h_cps h) (h_xfs h ++ [t]) (h_els h), Ok (List.length (h_xfs h))).
  Definition mk_el (e : eobj F) : act nat := fun h =>
    (Heap (h_pts h) (h_vecs h) (h_cps h) (h_xfs h) (h_els h ++ [e]), Ok (List.length (h_els h))).
  Definition wr_vec (i : nat) (v : vec F) : act unit := fun h =>
    (Heap (h_pts h) (set_nth i v (h_vecs h)) (h_cps h) (h_xfs h) (h_els h), Ok tt).
  Definition wr_cp (i : nat) (c : cpobj) : act unit := fun h =>
    (Heap (h_pts h) (h_vecs h) (set_nth i c (h_cps h)) (h_xfs h) (h_els h), Ok tt).
  Definition wr_xf (i : nat) (t : transform F) : act unit := fun h =>
    (Heap (h_pts h) (h_vecs h) (h_cps h) (set_nth i t (h_xfs h)) (h_els h), Ok tt).
  Definition wr_el (i : nat) (e : eobj F) : act unit := fun h =>
    (Heap (h_pts h) (h_vecs h) (h_cps h) (h_xfs h) (set_nth i e (h_els h)), Ok tt).

  (* [f(x) for x in l] and: for x in l: f(x) *)
  Fixpoint each {A B} (f : A -> act B) (l : list A) : act (list B) :=
    match l with
    | [] => ret []
    | x :: l' => do y <- f x; do ys <- each f l'; ret (y :: ys)
    end.

  (* Vector.copy and fixed: geom.py:96-100 *)
  Definition copy_vec (i : nat) : act nat := do v <- rd_vec i; mk_vec v.

  (* bezier.py:55-57 ControlPoint.fixed *)
  Definition cp_fixed (i : nat) : act nat :=
    do a <- rd_cp i;
    do c <- on_pts (PFixed (co_c a));
    do l <- copy_vec (co_dl a);
    do r <- copy_vec (co_dr a);
    mk_cp (CPO c l r (co_kind a)).
  (* bezier.py:69-74 ControlPoint.restore *)
  Definition cp_restore (i j : nat) : act unit :=
    do b <- rd_cp j;
    do c <- on_pts (PCopy (co_c b));
    do l <- copy_vec (co_dl b);
    do r <- copy_vec (co_dr b);
    do a <- rd_cp i;
    wr_cp i (CPO c l r (co_kind b)).

  Definition eo_base (e : eobj F) : obase F :=
    match e with OCurve b _ => b | OBox b _ _ _ => b | OGroup b _ _ _ => b | OHoles b _ _ => b end.
  Definition with_base (e : eobj F) (b : obase F) : eobj F :=
    match e with
    | OCurve _ c => OCurve b c
    | OBox _ k p q => OBox b k p q
    | OGroup _ h l p => OGroup b h l p
    | OHoles _ o i => OHoles b o i
    end.

  (* model.py:138-144 Elem.__init__ *)
  Definition base_new (n : string) (pb : penbrush F) (closed : bool) (xform : option nat) : act (obase F) :=
    do x <- match xform with Some x => ret x | None => mk_xf t_new end;
    do _ <- when (negb (pb_filled pb && negb closed)) AssertionError;
    ret (OB n pb closed x).
  (* model.py:363-366 *)
  Definition curve_new n pb (cps : list nat) closed xform : act nat :=
    do b <- base_new n pb closed xform; mk_el (OCurve b cps).
  (* model.py:554-559, 634-637, 730-734, 788-791: the corners are fixed copies *)
  Definition box_new n pb (k : boxkind F) (p1 p2 : nat) closed xform : act nat :=
    do _ <- when closed AssertionError;
    do b <- base_new n pb true xform;
    do q1 <- on_pts (PFixed p1);
    do q2 <- on_pts (PFixed p2);
    mk_el (OBox b k q1 q2).
  (* model.py:817-839 with a dictionary of elements *)
  Definition group_new n pb hidden xform (elems points : list (string * nat)) closed : act nat :=
    do b <- base_new n pb closed xform; mk_el (OGroup b hidden elems points).
  (* elem.penbrush = penbrush *)
  Definition set_pen (pb : penbrush F) (e : nat) : act unit :=
    do o <- rd_el e; let b := eo_base o in wr_el e (with_base o (OB (o_name b) pb (o_closed b) (o_xform b))).
  (* model.py:1016-1024 *)
  Definition holes_new n pb (outside : nat) (inside : list nat) closed xform : act nat :=
    do b <- base_new n pb closed xform;
    do _ <- set_pen pb outside;
    do _ <- each (set_pen pb) inside;
    mk_el (OHoles b outside inside).

  Definition copy_xf (i : nat) : act nat := do x <- rd_xf i; mk_xf (t_copy x).

  (* copy(): model.py:377-385, 579-583, 745-749, 894-897, 1106-1109.  [limit] stands for
     Python's recursion limit; only shapes with holes recurse. *)
  Fixpoint e_copy (limit : nat) (e : nat) : act nat :=
    match limit with
    | O => throw RecursionError
    | S limit =>
        do o <- rd_el e;
        let b := eo_base o in
        match o with
        | OCurve _ cps =>
            do cs <- each cp_fixed cps;
            curve_new (o_name b) (o_pb b) cs (o_closed b) (Some (o_xform b))
        | OBox _ k p1 p2 =>
            do q1 <- on_pts (PCopy p1);
            do q2 <- on_pts (PCopy p2);
            box_new (o_name b) (o_pb b) k q1 q2 (o_closed b) (Some (o_xform b))
        | OGroup _ hidden elems points =>
            do x <- copy_xf (o_xform b);
            group_new (o_name b) (o_pb b) hidden (Some x) elems points false
        | OHoles _ outside inside =>
            do o' <- e_copy limit outside;
            do i' <- each (e_copy limit) inside;
            do x <- copy_xf (o_xform b);
            holes_new (o_name b) (o_pb b) o' i' (o_closed b) (Some x)
        end
    end.

  (* model.py:173-178 Elem.restore *)
  Definition base_restore (self other : nat) : act unit :=
    do s <- rd_el self;
    do o <- rd_el other;
    let b := eo_base o in
    do x <- copy_xf (o_xform b);
    wr_el self (with_base s (OB (o_name b) (o_pb b) (o_closed b) x)).

  (* for cp, ocp in zip(self.control_points, other.control_points): cp.restore(ocp) *)
  Fixpoint restore_cps (a b : list nat) : act unit :=
    match a, b with
    | i :: a', j :: b' => do _ <- cp_restore i j; restore_cps a' b'
    | _, _ => ret tt
    end.

  (* restore(): model.py:387-396, 585-589, 751-756, 899-905, 1111-1117.  A second element of
     another class is an AttributeError before anything is changed; in the code some of the
     fields are set before it is noticed. *)
  Definition e_restore (limit self other : nat) : act unit :=
    do s <- rd_el self;
    do o <- rd_el other;
    let b := eo_base o in
    match s, o with
    | OCurve _ cps, OCurve _ cps' =>
        do _ <- base_restore self other;
        if Nat.eqb (List.length cps) (List.length cps') then restore_cps cps cps' else throw GeomInternalError
    | OBox _ k p1 p2, OBox _ k' q1 q2 =>
        do _ <- base_restore self other;
        do _ <- on_pts (PSet p1 q1);
        do _ <- on_pts (PSet p2 q2);
        match k, k' with
        | KRounded _, KRounded r =>
            do s' <- rd_el self; wr_el self (OBox (eo_base s') (KRounded r) p1 p2)
        | KRounded _, _ => throw AttributeError
        | _, _ => ret tt
        end
    | OGroup sb _ _ _, OGroup _ hidden elems points =>
        wr_el self (OGroup (OB (o_name b) (o_pb b) (o_closed sb) (o_xform b)) hidden elems points)
    | OHoles _ _ inside, OHoles _ outside' _ =>
        do o' <- e_copy limit outside';
        do i' <- each (e_copy limit) inside;
        wr_el self (OHoles (OB (o_name b) (o_pb b) (o_closed b) (o_xform b)) o' i')
    | _, _ => throw AttributeError
    end.

  (* model.py:907-909 Group.transform, 1119-1123 ElemWithHoles.transform; m is the number of
     the matrix.  (transform() of the other classes makes new objects only: M_elems.v.) *)
  Definition e_transform (limit e m : nat) : act nat :=
    do o <- rd_el e;
    let b := eo_base o in
    match o with
    | OGroup _ hidden elems points =>
        do t <- rd_xf m; do s <- rd_xf (o_xform b);
        do x <- mk_xf (t_compose (tmat s) (t_copy t));
        group_new (o_name b) (o_pb b) hidden (Some x) elems points false
    | OHoles _ outside inside =>
        do t <- rd_xf m; do s <- rd_xf (o_xform b);
        do o' <- e_copy limit outside;
        do i' <- each (e_copy limit) inside;
        do x <- mk_xf (t_copy (t_compose (tmat s) (t_copy t)));
        holes_new (o_name b) (o_pb b) o' i' (o_closed b) (Some x)
    | _ => throw NotImplementedError
    end.

  (* ---------------- programs ---------------- *)

  (* what a program does with its objects *)
  Inductive hop :=
  | HPt (o : pop F)                                    (* points: M_points.v *)
  | HVec (v : vec F) | HSetVec (i : nat) (v : vec F)   (* Vector(...), v.set(...) *)
  | HCp (c dl dr : nat) (kind : string)                (* ControlPoint(...) *)
  | HSetCp (i c dl dr : nat) (kind : string)           (* cp.c = ..., cp.dl = ..., cp.dr = ..., cp.kind = ... *)
  | HXf (t : transform F) | HSetXf (i : nat) (t : transform F)   (* Transform(...), any method that changes one *)
  | HCurve (n : string) (pb : penbrush F) (cps : list nat) (closed : bool) (xform : option nat)
  | HBox (n : string) (pb : penbrush F) (k : boxkind F) (p1 p2 : nat) (closed : bool) (xform : option nat)
  | HGroup (n : string) (pb : penbrush F) (hidden : bool) (xform : option nat) (elems points : list (string * nat)) (closed : bool)
  | HHoles (n : string) (pb : penbrush F) (outside : nat) (inside : list nat) (closed : bool) (xform : option nat)
  | HBase (e : nat) (n : string) (pb : penbrush F) (closed : bool) (xform : nat)
      (* e.name = ..., e.penbrush = ..., e.closed = ..., e.xform = ... *)
  | HCps (e : nat) (cps : list nat)                    (* any change of the list e.control_points *)
  | HCorners (e p1 p2 : nat)                           (* e.p1 = ..., e.p2 = ... *)
  | HBoxUpdate (e : nat) (x1 y1 x2 y2 : F)             (* bbox_int_update: model.py:574-577 *)
  | HRadius (e : nat) (r : F)                          (* e.radius = r *)
  | HTable (e : nat) (hidden : bool) (elems points : list (string * nat))
      (* any change of e.hidden, e.elems, e.points, such as del e.elems[name] *)
  | HAdd (g : nat) (n : string) (e : nat)              (* g.elems[n] = e; e.name = n, as Group.add does: model.py:927-928 *)
  | HParts (e : nat) (outside : nat) (inside : list nat)   (* e.outside = ..., e.inside = ... *)
  | HCopy (limit e : nat)
  | HRestore (limit e other : nat)
  | HTransform (limit e m : nat).

  Definition unit_of {A} (m : act A) : act unit := do _ <- m; ret tt.

  Definition hstep (o : hop) : act unit :=
    match o with
    | HPt o => unit_of (on_pts o)
    | HVec v => unit_of (mk_vec v)
    | HSetVec i v => wr_vec i v
    | HCp c l r k => unit_of (mk_cp (CPO c l r k))
    | HSetCp i c l r k => wr_cp i (CPO c l r k)
    | HXf t => unit_of (mk_xf t)
    | HSetXf i t => wr_xf i t
    | HCurve n pb cps closed x => do _ <- each rd_cp cps; unit_of (curve_new n pb cps closed x)
    | HBox n pb k p1 p2 closed x => unit_of (box_new n pb k p1 p2 closed x)
    | HGroup n pb h x l p closed => unit_of (group_new n pb h x l p closed)
    | HHoles n pb o i closed x => unit_of (holes_new n pb o i closed x)
    | HBase e n pb closed x => do o <- rd_el e; wr_el e (with_base o (OB n pb closed x))
    | HCps e cps =>
        do o <- rd_el e;
        do _ <- each rd_cp cps;
        match o with OCurve b _ => wr_el e (OCurve b cps) | _ => throw AttributeError end
    | HCorners e p1 p2 =>
        do o <- rd_el e;
        do _ <- rd_pt p1; do _ <- rd_pt p2;
        match o with OBox b k _ _ => wr_el e (OBox b k p1 p2) | _ => throw AttributeError end
    | HBoxUpdate e x1 y1 x2 y2 =>
        do o <- rd_el e;
        match o with
        | OBox _ _ p1 p2 => do _ <- on_pts (PSetxy p1 x1 y1); unit_of (on_pts (PSetxy p2 x2 y2))
        | _ => throw ValueError
        end
    | HRadius e r =>
        do o <- rd_el e;
        match o with OBox b (KRounded _) p1 p2 => wr_el e (OBox b (KRounded r) p1 p2) | _ => throw AttributeError end
    | HTable e h l p =>
        do o <- rd_el e;
        match o with OGroup b _ _ _ => wr_el e (OGroup b h l p) | _ => throw AttributeError end
    | HAdd g n e =>
        do o <- rd_el g;
        match o with
        | OGroup b h l p =>
            do m <- rd_el e;
            do _ <- wr_el g (OGroup b h (put_key n e l) p);
            do m <- rd_el e;
            let b := eo_base m in wr_el e (with_base m (OB n (o_pb b) (o_closed b) (o_xform b)))
        | _ => throw AttributeError
        end
    | HParts e o i =>
        do x <- rd_el e;
        match x with OHoles b _ _ => wr_el e (OHoles b o i) | _ => throw AttributeError end
    | HCopy limit e => unit_of (e_copy limit e)
    | HRestore limit e other => e_restore limit e other
    | HTransform limit e m => unit_of (e_transform limit e m)
    end.
  (* an exception ends a statement, not the program *)
  Definition hrun (ops : list hop) (h : heap) : heap := fold_left (fun s o => fst (hstep o s)) ops h.
End Heap.
Notation "'do' x <- m ; k" := (next m (fun x => k)) (at level 200, x pattern, right associativity).
Arguments hop : clear implicits.
