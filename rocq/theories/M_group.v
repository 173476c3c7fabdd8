(* Model of the composite elements of /repo/x7/geom/model.py: Group, ElemWithHoles and
   GroupBuilder.
   Elements are values (trees).  An object that is a member of two groups, and the sharing
   that copies leave behind, are modelled in M_eheap.v.  Names are strings of characters. *)
Require Import Verif.Base Verif.M_vector Verif.M_bbox Verif.M_transform Verif.M_bezier Verif.M_colors Verif.M_elems.
From Coq Require Import String Ascii DecimalString DecimalNat.
Set Implicit Arguments.
Local Open Scope string_scope.
Local Open Scope list_scope.

(* ------------------------------------------------------------------ *)
(** * Strings and tables *)

(* '.' in name *)
Fixpoint has_dot (s : string) : bool :=
  match s with
  | EmptyString => false
  | String c s' => (c =? ".")%char || has_dot s'
  end.
(* name.rpartition('.')[2]: what follows the last dot *)
Fixpoint after_last_dot (s : string) : string :=
  match s with
  | EmptyString => EmptyString
  | String c s' => if has_dot s' then after_last_dot s' else if (c =? ".")%char then s' else s
  end.
(* tag.partition('.'): head and tail *)
Fixpoint partition_dot (s : string) : string * string :=
  match s with
  | EmptyString => (EmptyString, EmptyString)
  | String c s' =>
      if (c =? ".")%char then (EmptyString, s')
      else let (h, t) := partition_dot s' in (String c h, t)
  end.
(* '%d' % n *)
Definition decimal (n : nat) : string := NilEmpty.string_of_uint (Nat.to_uint n).
(* '%s#%d' % (name, num) *)
Definition numbered (name : string) (num : nat) : string := (name ++ "#" ++ decimal num)%string.

(* a dict with string keys: keys and values in insertion order *)
Fixpoint find_key {A} (k : string) (l : list (string * A)) : option A :=
  match l with
  | [] => None
  | (k', a) :: l' => if (k =? k')%string then Some a else find_key k l'
  end.
(* k in d *)
Definition has_key {A} (k : string) (l : list (string * A)) : bool :=
  match find_key k l with Some _ => true | None => false end.
(* del d[k] *)
Fixpoint del_key {A} (k : string) (l : list (string * A)) : list (string * A) :=
  match l with
  | [] => []
  | (k', a) :: l' => if (k =? k')%string then l' else (k', a) :: del_key k l'
  end.
(* the object stored under k was changed in place *)
Fixpoint set_key {A} (k : string) (a : A) (l : list (string * A)) : list (string * A) :=
  match l with
  | [] => []
  | (k', a') :: l' => if (k =? k')%string then (k', a) :: l' else (k', a') :: set_key k a l'
  end.

(* [while '%s#%d' % (name, num) in elems: num += 1], model.py:920-922.  The bound [fuel] is
   the number of entries plus one; L_group.v shows that it is never used up. *)
Fixpoint first_free {A} (fuel : nat) (name : string) (num : nat) (l : list (string * A)) : option string :=
  match fuel with
  | O => None
  | S fuel' =>
      if has_key (numbered name num) l then first_free fuel' name (S num) l
      else Some (numbered name num)
  end.

(* a for loop with an accumulator whose body may raise *)
Section FoldM.
  Context {A S : Type}.
  Variable f : S -> A -> res S.
  Fixpoint foldM (s : S) (l : list A) : res S :=
    match l with
    | [] => Ok s
    | a :: l' => let* s' := f s a in foldM s' l'
    end.
End FoldM.
(* a list comprehension whose items may raise *)
Section CollectM.
  Context {A B : Type}.
  Variable f : A -> res B.
  Fixpoint collectM (l : list A) : res (list B) :=
    match l with
    | [] => Ok []
    | a :: l' => let* b := f a in let* bs := collectM l' in Ok (b :: bs)
    end.
End CollectM.

(* a for loop whose body changes the state of the matrix and may raise *)
Section Loop.
  Context {F A S : Type}.
  Variable f : S -> A -> transform F -> transform F * res S.
  Fixpoint loop (s : S) (l : list A) (m : transform F) : transform F * res S :=
    match l with
    | [] => (m, Ok s)
    | a :: l' =>
        let (m1, r) := f s a m in
        match r with Ok s' => loop s' l' m1 | Raise x => (m1, Raise x) end
    end.
End Loop.

(* ------------------------------------------------------------------ *)
(** * Fields *)

Section Fields.
  Context {F : Type} {NF : Num F}.

  Definition set_base (f : ebase F -> ebase F) (e : elem F) : elem F :=
    match e with
    | ELeaf b s => ELeaf (f b) s
    | EGroup b h l p => EGroup (f b) h l p
    | EHoles b o i => EHoles (f b) o i
    end.
  Definition elem_name (e : elem F) : string := e_name (e_base e).
  (* elem.name = name *)
  Definition set_name (n : string) : elem F -> elem F :=
    set_base (fun b => EB n (e_pb b) (e_closed b) (e_xform b)).
  (* elem.penbrush = penbrush *)
  Definition set_pb (pb : penbrush F) : elem F -> elem F :=
    set_base (fun b => EB (e_name b) pb (e_closed b) (e_xform b)).

  (* type(elem).__name__ without a leading 'Elem', in lower case: model.py:915-918 *)
  Definition class_name (e : elem F) : string :=
    match e with
    | ELeaf _ (SCurve _) => "curve"
    | ELeaf _ (SRect _ _) => "rectangle"
    | ELeaf _ (SRRect _ _ _) => "rectanglerounded"
    | ELeaf _ (SEllipse _ _) => "ellipse"
    | EGroup _ _ _ _ => "group"
    | EHoles _ _ _ => "withholes"
    end.

  (* model.py:911-928 Group.add on the table of members; the duplicate test is kept although
     it cannot fail *)
  Definition table := list (string * elem F).
  Definition group_add (elems : table) (name : string) (e : elem F) (fixname : bool) : res table :=
    let* name :=
      if (fixname && has_dot name) || has_key name elems then
        let name := after_last_dot name in
        if has_key name elems then
          match first_free (S (List.length elems)) (class_name e) 0 elems with
          | Some n => Ok n
          | None => Raise RecursionError       (* not reached *)
          end
        else Ok name
      else Ok name in
    if has_dot name then Raise ValueError
    else if has_key name elems then Raise ValueError
    else Ok (elems ++ [(name, set_name name e)]).

  (* model.py:817-839 Group(name, penbrush, hidden, xform, elems, points, closed, fix_names) with
     a list of elements *)
  Definition mk_group (name : string) (pb : penbrush F) (hidden : bool) (xform : option (transform F))
      (l : list (elem F)) (points : list (string * pt F)) (closed fix_names : bool) : res (elem F) :=
    let* b := mk_base name pb closed xform in
    let* elems := foldM (fun t e => group_add t (elem_name e) e fix_names) [] l in
    Ok (EGroup b hidden elems points).
  (* the same with a dict of elements *)
  Definition mk_group_dict (name : string) (pb : penbrush F) (hidden : bool) (xform : option (transform F))
      (elems : table) (points : list (string * pt F)) (closed : bool) : res (elem F) :=
    let* b := mk_base name pb closed xform in
    Ok (EGroup b hidden elems points).

  (* model.py:1016-1024 ElemWithHoles(...): the children get the pens of the whole *)
  Definition mk_holes (name : string) (pb : penbrush F) (outside : elem F) (inside : list (elem F))
      (closed : bool) (xform : option (transform F)) : res (elem F) :=
    let* b := mk_base name pb closed xform in
    Ok (EHoles b (set_pb pb outside) (map (set_pb pb) inside)).
End Fields.

(* ------------------------------------------------------------------ *)
(** * Equality *)

Section Equality.
  Context {F : Type} {NF : Num F}.
  Local Open Scope num_scope.

  Fixpoint list_eqb {A} (f : A -> A -> bool) (a b : list A) : bool :=
    match a, b with
    | [], [] => true
    | x :: a', y :: b' => f x y && list_eqb f a' b'
    | _, _ => false
    end.
  Definition opt_eqb {A} (f : A -> A -> bool) (a b : option A) : bool :=
    match a, b with None, None => true | Some x, Some y => f x y | _, _ => false end.
  (* equality of Python values used as colours *)
  Definition color_eqb (a b : color F) : bool :=
    match a, b with
    | CStr s, CStr t => (s =? t)%string
    | CNum x, CNum y => x =? y
    | CTuple x, CTuple y => list_eqb neqb x y
    | _, _ => false
    end.
  (* colors.py:38-39, 59-60, 86-87 __eq__ of Brush, Pen and PenBrush *)
  Definition brush_eqb (a b : brush F) : bool := color_eqb (bcolor a) (bcolor b).
  Definition pen_eqb (a b : pen F) : bool := brush_eqb (pbrush a) (pbrush b) && (pwidth a =? pwidth b).
  Definition pb_eqb (a b : penbrush F) : bool :=
    opt_eqb pen_eqb (pb_pen a) (pb_pen b) && opt_eqb brush_eqb (pb_brush a) (pb_brush b).
  (* model.py:155-158 Elem.__eq__ *)
  Definition base_eqb (a b : ebase F) : bool :=
    (e_name a =? e_name b)%string && pb_eqb (e_pb a) (e_pb b)
    && Bool.eqb (e_closed a) (e_closed b) && t_eqb (e_xform a) (e_xform b).
  (* the remaining fields: model.py:374-375, 567-568, 742-743 *)
  Definition shape_eqb (a b : shape F) : bool :=
    match a, b with
    | SCurve x, SCurve y => list_eqb cp_eqb x y
    | SRect p q, SRect p' q' => p_eqb p p' && p_eqb q q'
    | SRRect p q r, SRRect p' q' r' => p_eqb p p' && p_eqb q q' && (r =? r')
    | SEllipse p q, SEllipse p' q' => p_eqb p p' && p_eqb q q'
    | _, _ => false
    end.
  (* equality of dicts with string keys: same size, and equal values under every key *)
  Definition points_eqb (a b : list (string * pt F)) : bool :=
    (List.length a =? List.length b)%nat &&
    forallb (fun kp => match find_key (fst kp) b with Some q => p_eqb (snd kp) q | None => false end) a.
  (* model.py:848-854 Group.__eq__, 1040-1045 ElemWithHoles.__eq__ *)
  Fixpoint elem_eqb (a b : elem F) {struct a} : bool :=
    match a, b with
    | ELeaf x s, ELeaf y t => base_eqb x y && shape_eqb s t
    | EGroup x h l p, EGroup y h' l' p' =>
        base_eqb x y && Bool.eqb h h'
        && ((List.length l =? List.length l')%nat &&
            forallb (fun ke => match find_key (fst ke) l' with
                               | Some e' => elem_eqb (snd ke) e'
                               | None => false
                               end) l)
        && points_eqb p p'
    | EHoles x o i, EHoles y o' i' =>
        base_eqb x y && elem_eqb o o'
        && (fix go (i i' : list (elem F)) : bool :=
              match i, i' with
              | [], [] => true
              | e :: r, e' :: r' => elem_eqb e e' && go r r'
              | _, _ => false
              end) i i'
    | _, _ => false
    end.
End Equality.

(* ------------------------------------------------------------------ *)
(** * Looking up and replacing *)

Section Lookup.
  Context {F : Type} {NF : Num F}.

  (* model.py:1168-1178 ElemWithHoles.lookup *)
  Definition holes_lookup (outside : elem F) (inside : list (elem F)) (tag : string) : res (elem F) :=
    let (head, tail) := partition_dot tag in
    if (head =? "outside")%string then
      if (tail =? elem_name outside)%string then Ok outside else Raise KeyError
    else if (head =? "inside")%string then
      match find (fun e => tail =? elem_name e)%string inside with
      | Some e => Ok e
      | None => Raise KeyError
      end
    else Raise KeyError.

  (* model.py:973-984 Group.lookup; the simple elements have no such method *)
  Fixpoint elem_lookup (e : elem F) (tag : string) {struct e} : res (elem F) :=
    match e with
    | ELeaf _ _ => Raise AttributeError
    | EHoles _ o i => holes_lookup o i tag
    | EGroup _ _ elems _ =>
        let (head, tail) := partition_dot tag in
        (fix find l :=
           match l with
           | [] => Raise KeyError
           | (k, item) :: l' =>
               if (head =? k)%string then
                 if (tail =? "")%string then Ok item
                 else match item with
                      | EGroup _ _ _ _ => elem_lookup item tail
                      | _ => Raise ValueError
                      end
               else find l'
           end) elems
    end.

  (* model.py:1003-1012 add_pt and lookup_pt; pt.name is set as well, but the plain points of
     the model have no name *)
  Definition group_add_pt (points : list (string * pt F)) (name : string) (p : pt F)
    : res (list (string * pt F)) :=
    if has_key name points then Raise AssertionError
    else if has_dot name then Raise AssertionError
    else Ok (points ++ [(name, p)]).
  Definition group_lookup_pt (points : list (string * pt F)) (name : string) : res (pt F) :=
    if has_dot name then Raise AssertionError
    else match find_key name points with Some p => Ok p | None => Raise KeyError end.

  (* model.py:986-1001 Group.replace.  [eqv] is the test [e == elem].  The snapshot
     list(self.elems.items()) drives the loop while [cur] is the table being changed.
     The new state of the tree is returned also when the call raises.  A curve's replace
     method (model.py:483-485) returns 0, the two-corner shapes have none, and
     ElemWithHoles.replace raises (1180-1183). *)
  Variable eqv : elem F -> bool.
  Variable repl : elem F.
  Fixpoint elem_replace (e : elem F) : elem F * res nat :=
    match e with
    | ELeaf _ _ => (e, Ok 0)
    | EHoles _ _ _ => (e, Raise NotImplementedError)
    | EGroup b h elems pts =>
        let (elems', r) :=
          (fix go (l : table (F:=F)) (cur : table) (count : nat) : table * res nat :=
             match l with
             | [] => (cur, Ok count)
             | (k, x) :: l' =>
                 if eqv x then
                   let cur := del_key k cur in
                   if has_key (elem_name repl) cur then (cur, Raise ValueError)
                   else match group_add cur (elem_name repl) repl false with
                        | Raise err => (cur, Raise err)
                        | Ok cur => go l' cur (S count)
                        end
                 else
                   let (x', r) := elem_replace x in
                   let cur := set_key k x' cur in
                   match r with
                   | Raise err => (cur, Raise err)
                   | Ok n => go l' cur (count + n)
                   end
             end) elems elems 0 in
        (EGroup b h elems' pts, r)
    end.
End Lookup.

(* ------------------------------------------------------------------ *)
(** * Deep iteration *)

Section Iter.
  Context {F : Type} {NF : Num F}.

  (* one yielded tuple: name, element, and the state of the matrix object at that moment.
     All tuples of one iteration carry the same matrix object. *)
  Local Notation yielded := (string * elem F * transform F)%type.

  (* the root a group hands to its members, model.py:957 *)
  Definition sub_root (root : option string) (name : string) : string :=
    match root with
    | None => name
    | Some r => if (r =? "")%string then name else (r ++ "." ++ name)%string
    end.

  (* model.py:345-347 Elem.iter_elems, 950-959 Group.iter_elems, 1146-1153
     ElemWithHoles.iter_elems: the generator run to its end.  [root] is None at the top. *)
  Fixpoint iter_elems (e : elem F) (root : option string) (m : transform F)
    : transform F * res (list yielded) :=
    match e with
    | ELeaf b _ =>
        (m, Ok [(((match root with Some r => r | None => "unknown" end) ++ "." ++ e_name b)%string, e, m)])
    | EGroup b _ elems _ =>
        let m1 := t_compose (tmat (e_xform b)) (t_push m) in
        let (m2, r) := loop (fun acc ke m =>
                               let (m', r) := iter_elems (snd ke) (Some (sub_root root (e_name b))) m in
                               (m', let* ys := r in Ok (acc ++ ys))) [] elems m1 in
        match r with
        | Raise x => (m2, Raise x)
        | Ok ys => let (m3, rp) := t_pop m2 in (m3, let* _ := rp in Ok ys)
        end
    | EHoles b outside inside =>
        with_push (t_compose (tmat (e_xform b)))
          (fun m1 =>
             let base := match root with
                         | None => e_name b
                         | Some r => if (r =? "")%string then e_name b
                                     else (r ++ "." ++ e_name b ++ ".")%string
                         end in
             let (m2, r) := iter_elems outside (Some (base ++ ".outside")%string) m1 in
             match r with
             | Raise x => (m2, Raise x)
             | Ok ys =>
                 loop (fun acc e m =>
                         let (m', r) := iter_elems e (Some (base ++ ".inside")%string) m in
                         (m', let* ys := r in Ok (acc ++ ys))) ys inside m2
             end) m
    end.

  (* list(e.iter_elems(root, matrix)): the matrices of the collected tuples are looked at
     after the end of the iteration, and they are all the one object *)
  Definition iter_collect (e : elem F) (root : option string) (m : transform F)
    : res (list (string * elem F * transform F)) :=
    let (m', r) := iter_elems e root m in
    let* ys := r in
    Ok (map (fun y => (fst y, m')) ys).

  (* the consumer takes k tuples and then drops the generator: the state of the matrix.
     Closing a generator raises GeneratorExit at the yield, which Group.iter_elems does not
     catch (no pop), so below groups only the matrix stays as it was at that yield.  This
     does not describe trees with an ElemWithHoles, whose with statement pops. *)
  Definition iter_abandon (e : elem F) (root : option string) (m : transform F) (k : nat)
    : option (transform F) :=
    match snd (iter_elems e root m) with
    | Ok ys => match nth_error ys k with Some y => Some (snd y) | None => None end
    | Raise _ => None
    end.
End Iter.

(* ------------------------------------------------------------------ *)
(** * Drawing, boxes, copies *)

Section Draw.
  Context {F : Type} {NF : Num F} {RF : NumRoot F} {TF : NumTrig F}.
  Local Open Scope num_scope.

  (* path.penbrush = pb *)
  Definition path_set_pb (pb : penbrush F) (p : path F) : path F := Path pb (p_closed p) (p_points p).
  (* model.py:109-121 Path.extend *)
  Definition path_extend (p : path F) (more : list (F * F)) (closed : bool) : res (path F) :=
    if closed then
      match rev (p_points p) with
      | [] => Raise IndexError
      | z :: _ => Ok (Path (p_pb p) (p_closed p) (p_points p ++ more ++ [z]))
      end
    else Ok (Path (p_pb p) (p_closed p) (p_points p ++ more)).

  (* model.py:856-866 Group.paths, 1047-1077 ElemWithHoles.paths *)
  Fixpoint elem_paths (dc : dctx) (e : elem F) (m : transform F) : transform F * res (list (path F)) :=
    match e with
    | ELeaf b s => leaf_paths dc b s m
    | EGroup b hidden elems _ =>
        if hidden then (m, Ok [])
        else
          with_push (fun m => m)
            (fun m => loop (fun acc ke m =>
                              let (m', r) := elem_paths dc (snd ke) m in
                              (m', let* ps := r in Ok (acc ++ ps)))
                           [] elems (t_compose (tmat (e_xform b)) m)) m
    | EHoles b outside inside =>
        draw_space (e_xform b)
          (fun m =>
             let (m, r) := elem_paths dc outside m in
             match r with
             | Raise x => (m, Raise x)
             | Ok [p0] =>
                 let edge_brush := mk_penbrush (option_map PAObj (pb_pen (e_pb b))) None in
                 let p0 := path_set_pb edge_brush p0 in
                 match pb_brush (e_pb b) with
                 | Some br =>
                     let fill_brush := mk_penbrush None (Some (BAObj br)) in
                     let fill_path := Path fill_brush (p_closed p0) (p_points p0) in
                     let (m, r) :=
                       loop (fun (acc : list (path F) * path F) e m =>
                               let (m, r) := elem_paths dc e m in
                               (m, let* paths := r in
                                   foldM (fun (ef : list (path F) * path F) path =>
                                            let edges := fst ef ++ map (path_set_pb edge_brush) paths in
                                            let* fill := path_extend (snd ef) (p_points path) true in
                                            Ok (edges, fill)) acc paths))
                            ([p0], fill_path) inside m in
                     (m, let* ef := r in Ok (snd ef :: fst ef))
                 | None =>
                     loop (fun acc e m =>
                             let (m, r) := elem_paths dc e m in
                             (m, let* paths := r in Ok (acc ++ map (path_set_pb edge_brush) paths)))
                          [p0] inside m
                 end
             | Ok _ => (m, Raise AssertionError)
             end) m
    end.

  (* model.py:883-889 Group.bbox_int, 1093-1101 ElemWithHoles.bbox_int *)
  Fixpoint elem_bbox_int (e : elem F) : res (bbox F) :=
    match e with
    | ELeaf _ s => shape_bbox_int s
    | EGroup _ _ elems _ =>
        match elems with
        | [] => Raise GeomInternalError
        | _ => foldM (fun acc ke =>
                        let* bb := elem_bbox_int (snd ke) in
                        let* x := bbox_ext (e_xform (e_base (snd ke))) bb in
                        Ok (bbox_add acc x)) BNone elems
        end
    | EHoles _ outside inside =>
        let* out := elem_bbox_int outside in
        let* ins := foldM (fun acc e =>
                             let* bb := elem_bbox_int e in
                             let* x := bbox_ext (e_xform (e_base e)) bb in
                             Ok (bbox_add acc x)) BNone inside in
        let* c := bbox_contains out ins in
        if c then Ok out else Raise AssertionError
    end.
  (* model.py:193-198 Elem.bbox *)
  Definition elem_bbox (e : elem F) : res (bbox F) :=
    let* bb := elem_bbox_int e in bbox_ext (e_xform (e_base e)) bb.

  (* copy: model.py:377-385 ElemCurve, 579-583 ElemP1P2, 745-749 ElemRectangleRounded (the
     two-corner constructors assert that closed is True), 894-897 Group, 1106-1109
     ElemWithHoles *)
  Fixpoint elem_copy (e : elem F) : res (elem F) :=
    match e with
    | ELeaf b s =>
        let* _ := match s with
                  | SCurve _ => Ok tt
                  | _ => if e_closed b then Ok tt else Raise AssertionError
                  end in
        let* b := mk_base (e_name b) (e_pb b) (e_closed b) (Some (e_xform b)) in
        Ok (ELeaf b s)
    | EGroup b hidden elems points =>
        mk_group_dict (e_name b) (e_pb b) hidden (Some (t_copy (e_xform b))) elems points false
    | EHoles b outside inside =>
        let* o := elem_copy outside in
        let* i := collectM elem_copy inside in
        mk_holes (e_name b) (e_pb b) o i (e_closed b) (Some (t_copy (e_xform b)))
    end.

  (* model.py:907-909 Group.transform, 1119-1123 ElemWithHoles.transform, on the state of the
     matrix passed in *)
  Definition elem_transform (e : elem F) (m : transform F) : transform F * res (elem F) :=
    match e with
    | ELeaf b s => leaf_transform b s m
    | EGroup b hidden elems points =>
        let xform := t_compose (tmat (e_xform b)) (t_copy m) in
        (m, mk_group_dict (e_name b) (e_pb b) hidden (Some xform) elems points false)
    | EHoles b outside inside =>
        let xform := t_compose (tmat (e_xform b)) (t_copy m) in
        (m, let* o := elem_copy outside in
            let* i := collectM elem_copy inside in
            mk_holes (e_name b) (e_pb b) o i (e_closed b) (Some (t_copy xform)))
    end.

  (* model.py:899-905 Group.restore: closed is not restored *)
  Definition group_restore (self other : elem F) : res (elem F) :=
    match self, other with
    | EGroup b _ _ _, EGroup b' h' elems' pts' =>
        Ok (EGroup (EB (e_name b') (e_pb b') (e_closed b) (e_xform b')) h' elems' pts')
    | _, _ => Raise AttributeError
    end.
  (* model.py:1111-1117 ElemWithHoles.restore: the holes are those of self *)
  Definition holes_restore (self other : elem F) : res (elem F) :=
    match self, other with
    | EHoles _ _ inside, EHoles b' outside' _ =>
        let* o := elem_copy outside' in
        let* i := collectM elem_copy inside in
        Ok (EHoles b' o i)
    | _, _ => Raise AttributeError
    end.

  (* model.py:354-356 Elem.as_curves, 880-881 Group.as_curves, 1089-1091
     ElemWithHoles.as_curves.  The group's own xform is the matrix handed to transform; it is
     pushed and popped, so its matrix is the same for every curve. *)
  Fixpoint elem_as_curves (e : elem F) : res (list (elem F)) :=
    match e with
    | ELeaf b s => leaf_as_curves b s
    | EGroup b _ elems _ =>
        foldM (fun acc ke =>
                 let* cs := elem_as_curves (snd ke) in
                 let* cs := mapM (fun c => snd (elem_transform c (e_xform b))) cs in
                 Ok (acc ++ cs)) [] elems
    | EHoles b outside inside =>
        let* co := elem_as_curves outside in
        let* co := mapM (fun c => snd (elem_transform c (e_xform b))) co in
        foldM (fun acc e =>
                 let* cs := elem_as_curves e in
                 let* cs := mapM (fun c => snd (elem_transform c (e_xform b))) cs in
                 Ok (acc ++ cs)) co inside
    end.

  (* model.py:961-971 Group.iter_elems_transformed and 1155-1166 ElemWithHoles: the elements
     yielded by the generator run to its end, with the state of the matrix *)
  Definition iter_transformed (e : elem F) (root : option string) (m : transform F)
    : transform F * res (list (elem F)) :=
    match e with
    | ELeaf _ _ => (m, Raise AttributeError)
    | EGroup b _ elems _ =>
        with_push (fun m => m)
          (fun m =>
             let root := sub_root root (e_name b) in
             loop (fun acc ke m =>
                     let (m, r) := elem_transform (snd ke) m in
                     (m, let* x := r in Ok (acc ++ [set_name (root ++ "." ++ elem_name x)%string x])))
                  [] elems (t_compose (tmat (e_xform b)) m)) m
    | EHoles b outside inside =>
        with_push (t_compose (tmat (e_xform b)))
          (fun m =>
             let base := sub_root root (e_name b) in
             let (m, r) := elem_transform outside m in
             match r with
             | Raise x => (m, Raise x)
             | Ok x =>
                 loop (fun acc e m =>
                         let (m, r) := elem_transform e m in
                         (m, let* x := r in
                             Ok (acc ++ [set_name (base ++ ".inside." ++ elem_name x)%string x])))
                      [set_name (base ++ ".outside." ++ elem_name x)%string x] inside m
             end) m
    end.
End Draw.
