(* Model of DumpContext and of dump() in /repo/x7/geom/model.py, and of the __repr__ methods
   they use (geom.py, bezier.py, colors.py, transform.py).
   Strings are strings of ASCII characters.  [show] is str(x) = repr(x) of a number. *)
Require Import Verif.Base Verif.M_vector Verif.M_bbox Verif.M_transform Verif.M_bezier Verif.M_colors
  Verif.M_elems Verif.M_group.
From Coq Require Import String Ascii.
Set Implicit Arguments.
Local Open Scope list_scope.
Local Open Scope string_scope.

(* ------------------------------------------------------------------ *)
(** * Python's repr *)

(* '\n'.join, ', '.join *)
Fixpoint join (sep : string) (l : list string) : string :=
  match l with
  | [] => ""
  | [s] => s
  | s :: l' => s ++ sep ++ join sep l'
  end.

Definition hexdigit (n : nat) : ascii := ascii_of_nat (if Nat.ltb n 10 then 48 + n else 87 + n).
Definition quote1 : ascii := "'".
Definition quote2 : ascii := """".
Definition bslash : ascii := "\".
Definition newline : string := String (ascii_of_nat 10) "".

(* one character of the repr of a string: backslash, the quote, tab, newline, return and the
   characters that are not printable are escaped *)
Definition escape (q c : ascii) : string :=
  let n := nat_of_ascii c in
  if Ascii.eqb c bslash || Ascii.eqb c q then String bslash (String c "")
  else if (n =? 9)%nat then String bslash "t"
  else if (n =? 10)%nat then String bslash "n"
  else if (n =? 13)%nat then String bslash "r"
  else if ((n <? 32) || (n =? 127))%nat
  then String bslash (String "x" (String (hexdigit (n / 16)%nat) (String (hexdigit (n mod 16)%nat) "")))
  else String c "".
Fixpoint escapes (q : ascii) (s : string) : string :=
  match s with EmptyString => "" | String c s' => escape q c ++ escapes q s' end.
Fixpoint has_char (q : ascii) (s : string) : bool :=
  match s with EmptyString => false | String c s' => Ascii.eqb c q || has_char q s' end.
(* repr(s) of a str: in single quotes unless it has one and no double quote *)
Definition repr_str (s : string) : string :=
  let q := if has_char quote1 s && negb (has_char quote2 s) then quote2 else quote1 in
  String q (escapes q s ++ String q "").

Definition repr_bool (b : bool) : string := if b then "True" else "False".
(* repr of a tuple *)
Definition repr_tuple (l : list string) : string :=
  match l with
  | [s] => "(" ++ s ++ ",)"
  | _ => "(" ++ join ", " l ++ ")"
  end.

(* ------------------------------------------------------------------ *)
(** * DumpContext *)

(* model.py:44-50; [d_vars] from the repr of a value to its name, [d_prefixes] counts *)
Record dump := Dump {
  d_depth : nat; d_lines : list string; d_vars : list (string * string);
  d_prefixes : list (string * nat); d_use : bool; d_imports : list string }.

(* model.py:37-42 *)
Definition default_imports : list string :=
  ["from x7.geom.geom import *"; "from x7.geom.model import *"; "from x7.geom.colors import *";
   "from x7.geom.transform import *"].
Definition dump_new (use_vars : bool) : dump := Dump 0 [] [] [] use_vars default_imports.

(* model.py:52-55 *)
Definition add_imports (l : list string) (d : dump) : dump :=
  Dump (d_depth d) (d_lines d) (d_vars d) (d_prefixes d) (d_use d)
    (fold_left (fun acc i => if existsb (String.eqb i) acc then acc else (acc ++ [i])%list) l (d_imports d)).

(* d[k] = v on a dict: replaces the value under an existing key *)
Fixpoint put {A} (k : string) (a : A) (l : list (string * A)) : list (string * A) :=
  match l with
  | [] => [(k, a)]
  | (k', a') :: l' => if (k =? k')%string then (k', a) :: l' else (k', a') :: put k a l'
  end.

(* model.py:77-85 set_var(value, prefix), given repr(value) *)
Definition set_var (value prefix : string) (d : dump) : dump * string :=
  if d_use d then
    match find_key value (d_vars d) with
    | Some n => (d, n)
    | None =>
        let k := match find_key prefix (d_prefixes d) with Some k => k | None => 0 end + 1 in
        let n := prefix ++ "_" ++ decimal k in
        (Dump (d_depth d) (d_lines d) (put value n (d_vars d)) (put prefix k (d_prefixes d)) true (d_imports d), n)
    end
  else (d, value).

(* '    ' * n: model.py:68-69 *)
Fixpoint indent (n : nat) : string := match n with O => "" | S n => "    " ++ indent n end.
Definition with_lines (l : list string) (d : dump) : dump :=
  Dump (d_depth d) l (d_vars d) (d_prefixes d) (d_use d) (d_imports d).
(* model.py:87-92 append, extend *)
Definition d_append (line : string) (d : dump) : dump :=
  with_lines (d_lines d ++ [(indent (d_depth d) ++ line)%string])%list d.
Definition d_extend (l : list string) (d : dump) : dump :=
  with_lines (d_lines d ++ map (fun s => indent (d_depth d) ++ s)%string l)%list d.
(* model.py:94-95 add_comma *)
Definition add_comma (d : dump) : res dump :=
  match rev (d_lines d) with
  | [] => Raise IndexError
  | s :: l => Ok (with_lines (rev l ++ [(s ++ ",")%string])%list d)
  end.
(* model.py:71-75 [with context: ...]; the depth is lowered again whatever happens *)
Definition set_depth (n : nat) (d : dump) : dump :=
  Dump n (d_lines d) (d_vars d) (d_prefixes d) (d_use d) (d_imports d).
Definition nested (f : dump -> res dump) (d : dump) : res dump :=
  let* d' := f (set_depth (S (d_depth d)) d) in Ok (set_depth (pred (d_depth d')) d').

(* Python's order of str *)
Definition str_leb (a b : string) : bool :=
  match String.compare a b with Gt => false | _ => true end.
(* sorted(l, key) for keys ordered by [leb]: stable *)
Section Sort.
  Context {A : Type}.
  Variable leb : A -> A -> bool.
  Fixpoint insert (a : A) (l : list A) : list A :=
    match l with
    | [] => [a]
    | b :: l' => if leb a b then a :: l else b :: insert a l'
    end.
  Definition sorted (l : list A) : list A := fold_right insert [] l.
End Sort.

(* model.py:57-66 output(just_lines=True) *)
Definition output_lines (d : dump) : string := join newline (d_lines d).
(* output(): the first line is changed for good *)
Definition output (d : dump) : dump * res string :=
  let vars := sorted (fun a b => if (snd a =? snd b)%string then str_leb (fst a) (fst b) else str_leb (snd a) (snd b)) (d_vars d) in
  let var_lines := (d_imports d ++ [""] ++ map (fun vn => snd vn ++ " = " ++ fst vn)%string vars ++ [""])%list in
  match d_lines d with
  | [] => (d, Raise IndexError)
  | s :: l =>
      let lines := ("model = " ++ s)%string :: l in
      (with_lines lines d, Ok (join newline (var_lines ++ lines)%list))
  end.

(* ------------------------------------------------------------------ *)
(** * repr of the objects, and dump *)

Section Dump.
  Context {F : Type} {NF : Num F}.
  Variable show : F -> string.
  Local Open Scope num_scope.

  (* geom.py:283-291 of an unnamed Point, 81-83 of a Vector *)
  Definition repr_pt (p : pt F) : string := "Point(" ++ show (px p) ++ ", " ++ show (py p) ++ ")".
  Definition repr_vec (v : vec F) : string := "Vector(" ++ show (vx v) ++ ", " ++ show (vy v) ++ ")".
  (* bezier.py:32-33 *)
  Definition repr_cp (c : cpoint F) : string :=
    "ControlPoint" ++ repr_tuple [repr_pt (cc c); repr_vec (cdl c); repr_vec (cdr c); repr_str (ckind c)].
  (* repr of a colour *)
  Definition repr_color (c : color F) : string :=
    match c with CStr s => repr_str s | CNum n => show n | CTuple l => repr_tuple (map show l) end.
  (* colors.py:44-45, 65-66, 121-122 *)
  Definition repr_brush (b : brush F) : string := "Brush(" ++ repr_color (bcolor b) ++ ")".
  Definition repr_pen (p : pen F) : string :=
    "Pen(" ++ repr_color (bcolor (pbrush p)) ++ ", " ++ show (pwidth p) ++ ")".
  Definition repr_opt {A} (f : A -> string) (o : option A) : string :=
    match o with Some a => f a | None => "None" end.
  Definition repr_pb (p : penbrush F) : string :=
    "PenBrush(" ++ repr_opt repr_pen (pb_pen p) ++ ", " ++ repr_opt repr_brush (pb_brush p) ++ ")".
  (* transform.py:132-133, 139-140 *)
  Definition repr_xf (t : transform F) : string :=
    let m := tmat t in
    "Transform(" ++ repr_tuple (map show [m00 m; m01 m; m02 m; m10 m; m11 m; m12 m]) ++ ")".

  (* repr of elements: model.py:371-372, 564-565, 739-740 *)
  Definition repr_leaf (b : ebase F) (s : shape F) : string :=
    match s with
    | SCurve l => "ElemCurve(" ++ repr_str (e_name b) ++ ", " ++ join ", " (map repr_cp l) ++ ")"
    | SRect p q => "ElemRectangle(" ++ join ", " [repr_str (e_name b); repr_pt p; repr_pt q] ++ ")"
    | SRRect p q r => "ElemRectangleRounded(" ++ join ", " [repr_str (e_name b); repr_pt p; repr_pt q; show r] ++ ")"
    | SEllipse p q => "ElemEllipse(" ++ join ", " [repr_str (e_name b); repr_pt p; repr_pt q] ++ ")"
    end.
  (* repr of a dict with string keys *)
  Definition repr_dict (l : list (string * string)) : string :=
    "{" ++ join ", " (map (fun kv => repr_str (fst kv) ++ ": " ++ snd kv) l) ++ "}".
  (* model.py:844-846, 1033-1038 *)
  Fixpoint repr_elem (e : elem F) : string :=
    match e with
    | ELeaf b s => repr_leaf b s
    | EGroup b h l p =>
        "Group(" ++ join ", " [repr_str (e_name b); repr_pb (e_pb b); repr_bool h; repr_xf (e_xform b);
          repr_dict (map (fun ke => (fst ke, repr_elem (snd ke))) l);
          repr_dict (map (fun kp => (fst kp, repr_pt (snd kp))) p)] ++ ")"
    | EHoles b o i =>
        "ElemWithHoles(" ++ join ", " [repr_str (e_name b); repr_pb (e_pb b); repr_elem o;
          "[" ++ join ", " (map repr_elem i) ++ "]"; repr_bool (e_closed b); repr_xf (e_xform b)] ++ ")"
    end.

  (* model.py:313-339 dump_elem: the class name, the keyword arguments with their reprs, and
     the name of a last argument that is left open as a list.  The classes of model.py have
     no ELEM_IMPORTS of their own (136). *)
  Definition dump_elem (cls : string) (b : ebase F) (args : list (string * string)) (final : option string)
      (d : dump) : dump :=
    let d := add_imports [] d in
    let (d, pen) := set_var (repr_pb (e_pb b)) "pen" d in
    let basic := cls ++ "(" ++ repr_str (e_name b) ++ ", " ++ pen ++ ", closed=" ++ repr_bool (e_closed b) ++ ", " in
    let (d, basic) :=
      if negb (t_eqb (e_xform b) t_new)
      then let (d, x) := set_var (repr_xf (e_xform b)) "xform" d in (d, basic ++ "xform=" ++ x ++ ", ")
      else (d, basic) in
    let last := match final with Some k => [k ++ "=["] | None => [] end in
    let args := join ", " (map (fun kv => fst kv ++ "=" ++ snd kv)%string args ++ last)%list in
    d_append (basic ++ args ++ match final with Some _ => "" | None => ")" end) d.

  (* model.py:541-547 ElemCurve.dump, 661-662, 783-784, 812-813 *)
  Definition dump_leaf (b : ebase F) (s : shape F) (d : dump) : res dump :=
    match s with
    | SCurve l =>
        let* d := nested (fun d => Ok (fold_left (fun d c => d_append (repr_cp c ++ ",") d) l d))
                    (dump_elem "ElemCurve" b [] (Some "control_points") d) in
        Ok (d_append "])" d)
    | SRect p q => Ok (dump_elem "ElemRectangle" b [("p1", repr_pt p); ("p2", repr_pt q)] None d)
    | SRRect p q r =>
        Ok (dump_elem "ElemRectangleRounded" b [("p1", repr_pt p); ("p2", repr_pt q); ("radius", show r)] None d)
    | SEllipse p q => Ok (dump_elem "ElemEllipse" b [("p1", repr_pt p); ("p2", repr_pt q)] None d)
    end.

  (* sorted(self.elems.items()): the keys differ, so the elements are not compared *)
  Definition by_name {A} (a b : string * A) : bool := str_leb (fst a) (fst b).
  (* model.py:940-949 Group.dump, 1136-1144 ElemWithHoles.dump: the parts, each with its dump *)
  Definition dump_parts (l : list (dump -> res dump)) (d : dump) : res dump :=
    foldM (fun d f => let* d := f d in add_comma d) d l.
  Fixpoint dump_el (e : elem F) : dump -> res dump :=
    match e with
    | ELeaf b s => dump_leaf b s
    | EGroup b h l p => fun d =>
        let* d := nested (dump_parts (map snd (sorted by_name (map (fun ke => (fst ke, dump_el (snd ke))) l))))
                    (dump_elem "Group" b [] (Some "elems") d) in
        Ok (d_append "])" d)
    | EHoles b o i => fun d =>
        let* d := nested (dump_parts (map dump_el i))
                    (dump_elem "ElemWithHoles" b [("outside", repr_elem o)] (Some "inside") d) in
        Ok (d_append "])" d)
    end.
  (* model.dump().output() *)
  Definition dump_text (e : elem F) : res string :=
    let* d := dump_el e (dump_new true) in snd (output d).
End Dump.
