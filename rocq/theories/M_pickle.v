(* Model of PicklerExtensionGeom.do_pickle in /repo/x7/geom/testing.py. *)
Require Import Verif.Base Verif.M_vector Verif.M_bbox Verif.M_transform Verif.M_bezier Verif.M_colors
  Verif.M_elems Verif.M_group Verif.M_dump.
From Coq Require Import String Ascii.
Set Implicit Arguments.
Local Open Scope list_scope.
Local Open Scope string_scope.

(* what str.lstrip() removes: space, tab to return, and the separators 28..31 *)
Definition is_space (c : ascii) : bool :=
  let n := nat_of_ascii c in
  ((n =? 32) || ((9 <=? n) && (n <=? 13)) || ((28 <=? n) && (n <=? 31)))%nat.
Fixpoint lstrip (s : string) : string :=
  match s with String c s' => if is_space c then lstrip s' else s | EmptyString => "" end.

Section Pickle.
  Context {F : Type} {NF : Num F}.
  Variable show : F -> string.

  (* the values that do_pickle tells apart; [DOther] is a value of any other type *)
  Inductive pydata :=
  | DElem (e : elem F) | DStr (s : string) | DXf (t : transform F)
  | DTuple (l : list pydata) | DList (l : list pydata) | DOther.

  (* isinstance(d, Elem) *)
  Definition is_elem (d : pydata) : option (elem F) := match d with DElem e => Some e | _ => None end.
  (* testing.py:43-48 *)
  Definition is_triple (d : pydata) : option (string * elem F * transform F) :=
    match d with DTuple [DStr s; DElem e; DXf t] => Some (s, e, t) | _ => None end.
  (* all(p(d) for d in data), with what p found out *)
  Fixpoint all_are {A} (p : pydata -> option A) (l : list pydata) : option (list A) :=
    match l with
    | [] => Some []
    | d :: l' => match p d, all_are p l' with Some a, Some r => Some (a :: r) | _, _ => None end
    end.

  (* testing.py:50-55 dump_one_elem *)
  Definition dump_one_elem (prefix : string) (e : elem F) : res string :=
    let* d := dump_el show e (set_depth (Nat.div (String.length prefix) 4) (dump_new false)) in
    Ok (lstrip (output_lines d)).

  (* testing.py:75: one tuple of the list, on one line or on several *)
  Definition dump_triple (prefix : string) (d : dump) (x : string * elem F * transform F) : res dump :=
    let '(s, e, t) := x in
    let* ed := dump_one_elem prefix e in
    if negb (has_char (ascii_of_nat 10) ed)
    then Ok (d_append ("(" ++ repr_str s ++ ", " ++ ed ++ ", " ++ repr_xf show t ++ "),") d)
    else
      let d := d_append ("(" ++ repr_str s ++ ",") d in
      let d := set_depth (d_depth d + 1) d in
      let* d := dump_el show e d in
      let* d := add_comma d in
      let d := d_append (repr_xf show t ++ "),") d in
      Ok (set_depth (d_depth d - 1) d).

  (* testing.py:61-69, 72-87: the brackets around the lines of the items *)
  Definition dump_list {A} (prefix : string) (item : dump -> A -> res dump) (l : list A) : res string :=
    let d := d_append "[" (dump_new false) in
    let* d := foldM item (set_depth (Nat.div (String.length prefix) 4 + 1) d) l in
    Ok (output_lines (d_append (prefix ++ "]") (set_depth 0 d))).

  (* testing.py:41-88; Ok None is the result None *)
  Definition do_pickle (data : pydata) (prefix : string) : res (option string) :=
    match data with
    | DElem e => let* s := dump_one_elem prefix e in Ok (Some s)
    | DList l =>
        match all_are is_elem l with
        | Some es =>
            let* s := dump_list prefix (fun d e => let* d := dump_el show e d in add_comma d) es in Ok (Some s)
        | None =>
            match all_are is_triple l with
            | Some ts => let* s := dump_list prefix (dump_triple prefix) ts in Ok (Some s)
            | None => Ok None
            end
        end
    | _ => Ok None
    end.
End Pickle.
Arguments DOther {F}.
Arguments DStr {F} s.
