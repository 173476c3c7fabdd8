(* Specification of pickled test data: what the text of a value is read back as. *)
Require Import Verif.Base Verif.M_vector Verif.M_bbox Verif.M_transform Verif.M_bezier Verif.M_colors
  Verif.M_elems Verif.M_group Verif.M_dump Verif.S_dump Verif.M_pickle.
From Coq Require Import String Ascii.
Local Open Scope list_scope.
Local Open Scope string_scope.

Section Pickled.
  Context {F : Type} {NF : Num F}.

  (* the value of the name x after executing the line  x = text *)
  Definition read_value (num_of : string -> option F) (text : string) : option value :=
    match lex ("x = " ++ text) with
    | None => None
    | Some ts =>
        match parse_program (List.length ts + 1) ts with
        | None => None
        | Some l => match exec num_of [] l with Some env => find_key "x" env | None => None end
        end
    end.

  (* an element, a list of elements, or a list of (string, element, transform), with elements
     that a dump can restore (S_dump) *)
  Definition plain_item (d : @pydata F) : Prop := match d with DElem e => dumpable e | _ => False end.
  Definition triple_item (d : @pydata F) : Prop := match d with DTuple [DStr _; DElem e; DXf _] => dumpable e | _ => False end.
  Definition picklable (d : @pydata F) : Prop :=
    match d with
    | DElem e => dumpable e
    | DList l => Forall plain_item l \/ Forall triple_item l
    | _ => False
    end.

  (* all numbers that are written are in [dom] *)
  Fixpoint data_in (dom : F -> Prop) (d : @pydata F) : Prop :=
    match d with
    | DElem e => elem_in dom e
    | DXf t => xf_in dom t
    | DTuple l | DList l => fold_right and True (map (data_in dom) l)
    | DStr _ | DOther => True
    end.

  (* the last row of a matrix is not written *)
  Definition written_xf (t : transform F) : transform F :=
    let m := tmat t in t_new6 (m00 m) (m01 m) (m02 m) (m10 m) (m11 m) (m12 m).
  Fixpoint restored (d : @pydata F) : value :=
    match d with
    | DElem e => VElem (reloaded e)
    | DStr s => VStr s
    | DXf t => VXf (written_xf t)
    | DTuple l => VTuple (map restored l)
    | DList l => VList (map restored l)
    | DOther => VNone
    end.
End Pickled.

(* text on several lines, all but the first moved to the right *)
Definition indented (w : string) (lines : list string) : string :=
  match lines with [] => "" | s :: l => join newline (s :: map (fun x => w ++ x) l) end.
