(* Specification of reading a repr back: the value of the text as a Python expression, with the
   classes of x7.geom in scope.  Objects are created in the store of points.  None: Python would
   raise, or the text goes beyond this part of Python. *)
Require Import Verif.Base Verif.M_vector Verif.M_bbox Verif.M_transform Verif.M_colors Verif.M_group Verif.M_points Verif.M_dump Verif.S_dump Verif.M_repr.
From Coq Require Import String Ascii.
Local Open Scope list_scope.
Local Open Scope string_scope.

(* the expression written in a text, read as the right side of an assignment *)
Definition read_expr (text : string) : option pexpr :=
  match lex ("x = " ++ text) with
  | None => None
  | Some ts => match parse_program (List.length ts + 1) ts with Some [(_, e)] => Some e | _ => None end
  end.

Section AllSt.
  Context {ST A B : Type}.
  Variable f : ST -> A -> option (ST * B).
  (* from left to right *)
  Fixpoint all_st (s : ST) (l : list A) : option (ST * list B) :=
    match l with
    | [] => Some (s, [])
    | a :: l' =>
        match f s a with
        | Some (s, b) => match all_st s l' with Some (s, bs) => Some (s, b :: bs) | None => None end
        | None => None
        end
    end.
End AllSt.

Section Values.
  Context {F : Type} {NF : Num F}.
  Variable num_of : string -> option F.

  Inductive gval :=
  | GNum (x : F) | GStr (s : string) | GNone | GTuple (l : list gval)
  | GPoint (i : nat) | GVec (v : vobj F) | GLine (origin : nat) (direction : vobj F)
  | GCtrl (c : nat) (dl dr : vobj F) (kind : string) | GBox (b : bbox F) | GXf (t : transform F).

  Definition made (r : pstore F * res nat) : option (pstore F * gval) :=
    match r with (st, Ok i) => Some (st, GPoint i) | _ => None end.
  Definition opt_name (l : list gval) : option name :=
    match l with [] | [GNone] => Some None | [GStr s] => Some (Some s) | _ => None end.
  Definition gnum (v : gval) : option F := match v with GNum x => Some x | _ => None end.
  Definition box_arg (v : gval) : option (option F) :=
    match v with GNum x => Some (Some x) | GNone => Some None | _ => None end.

  (* positional arguments (all classes but BBox) *)
  Definition construct (f : string) (args : list gval) (st : pstore F) : option (pstore F * gval) :=
    if f =? "Point" then
      match args with
      | GNum x :: GNum y :: r => match opt_name r with Some n => made (pstep st (PNew x y n)) | None => None end
      | _ => None
      end
    else if f =? "PointRelative" then
      match args with
      | GNum x :: GNum y :: GPoint b :: r => match opt_name r with Some n => made (pstep st (PRel x y b n)) | None => None end
      | _ => None
      end
    else if f =? "PointCalc" then
      match args with
      | GPoint b :: GNum s :: r => match opt_name r with Some n => made (pstep st (PCalc b s n)) | None => None end
      | _ => None
      end
    else if f =? "Vector" then
      match args with [GNum x; GNum y] => Some (st, GVec (OVec (V x y))) | _ => None end
    else if f =? "VectorRelative" then
      match args with [GPoint p; GPoint q] => Some (st, GVec (OVrel (VR p q))) | _ => None end
    else if f =? "Line" then
      match args with [GPoint o; GVec d] => Some (st, GLine o d) | _ => None end
    else if f =? "ControlPoint" then
      match args with [GPoint c; GVec l; GVec r; GStr k] => Some (st, GCtrl c l r k) | _ => None end
    else if f =? "Transform" then
      (* six numbers; rows of tuples do not make an array of floats *)
      match args with
      | [GTuple l] => match all gnum l with Some [a; b; c; d; e; g] => Some (st, GXf (t_new6 a b c d e g)) | _ => None end
      | _ => None
      end
    else None.
  (* BBox(xl=..., yl=..., xh=..., yh=...) *)
  Definition construct_box (l : list (string * gval)) : option (bbox F) :=
    match l with
    | [(k1, a); (k2, b); (k3, c); (k4, d)] =>
        if (k1 =? "xl") && (k2 =? "yl") && (k3 =? "xh") && (k4 =? "yh") then
          match box_arg a, box_arg b, box_arg c, box_arg d with
          | Some a, Some b, Some c, Some d =>
              let arg o := match o with Some x => ANum x | None => ANone end in
              match bbox_new (arg a) (arg b) c d with Ok b => Some b | Raise _ => None end
          | _, _, _, _ => None
          end
        else None
    | _ => None
    end.
  Definition keyed (l : list (option string * gval)) : option (list (string * gval)) :=
    all (fun a => match a with (Some k, v) => Some (k, v) | _ => None end) l.
  Definition unkeyed (l : list (option string * gval)) : option (list gval) :=
    all (fun a => match a with (None, v) => Some v | _ => None end) l.

  Fixpoint value_of (st : pstore F) (e : pexpr) : option (pstore F * gval) :=
    match e with
    | ENum neg s => match num_of s with Some x => Some (st, GNum (if neg then nneg x else x)) | None => None end
    | EStr s => Some (st, GStr s)
    | EName s => if s =? "None" then Some (st, GNone) else None
    | ETuple l => match all_st value_of st l with Some (st, l) => Some (st, GTuple l) | None => None end
    | EList _ => None
    | ECall f args =>
        match all_st (fun st a => match value_of st (snd a) with Some (st, v) => Some (st, (fst a, v)) | None => None end) st args with
        | None => None
        | Some (st, l) =>
            if f =? "BBox" then
              match keyed l with
              | Some l => match construct_box l with Some b => Some (st, GBox b) | None => None end
              | None => None
              end
            else match unkeyed l with Some l => construct f l st | None => None end
        end
    end.
  (* eval(text) with the objects of [st] in existence *)
  Definition evaluates (st : pstore F) (text : string) : option (pstore F * gval) :=
    match read_expr text with Some e => value_of st e | None => None end.

  (* eval(text) for a call PensByShape(key=PenBrush(...), ...): keywords only, each of the five at most once *)
  Definition pens_keys : list string := ["edge"; "filled"; "clear"; "edge_filled"; "edge_clear"].
  Definition read_pens (text : string) : option (by_shape (penbrush F)) :=
    match read_expr text with
    | Some (ECall f args) =>
        match all (fun a => match a with
                            | (Some k, e) => match eval num_of [] e with Some (VPenBrush p) => Some (k, p) | _ => None end
                            | _ => None
                            end) args with
        | Some l =>
            if (f =? "PensByShape") && forallb (fun k => existsb (String.eqb k) pens_keys) (map fst l) &&
               Nat.eqb (List.length (nodup string_dec (map fst l))) (List.length l)
            then let arg k := find_key k l in
                 Some (mk_pens (arg "edge") (arg "filled") (arg "clear") (arg "edge_filled") (arg "edge_clear"))
            else None
        | None => None
        end
    | _ => None
    end.
End Values.

Section Same.
  Context {F : Type}.
  (* point i of one store and point j of another are built in the same way from the same numbers and names *)
  Inductive same_point (st st' : pstore F) : nat -> nat -> Prop :=
  | same_abs i j x y n : nth_error st i = Some (NPoint x y n) -> nth_error st' j = Some (NPoint x y n) -> same_point st st' i j
  | same_rel i j dx dy n b b' : nth_error st i = Some (NRel dx dy b n) -> nth_error st' j = Some (NRel dx dy b' n) ->
      same_point st st' b b' -> same_point st st' i j
  | same_calc i j s n b b' : nth_error st i = Some (NCalc b s n) -> nth_error st' j = Some (NCalc b' s n) ->
      same_point st st' b b' -> same_point st st' i j.
  Definition same_vector (st st' : pstore F) (v w : vobj F) : Prop :=
    match v, w with
    | OVec v, OVec w => v = w
    | OVrel v, OVrel w => same_point st st' (vr_p1 v) (vr_p1 w) /\ same_point st st' (vr_p2 v) (vr_p2 w)
    | _, _ => False
    end.
  (* no name on the way down is the empty string, and all numbers on the way are in [dom] *)
  Variable dom : F -> Prop.
  Inductive readable (st : pstore F) : nat -> Prop :=
  | readable_abs i x y n : nth_error st i = Some (NPoint x y n) -> n <> Some "" -> dom x -> dom y -> readable st i
  | readable_rel i dx dy b n : nth_error st i = Some (NRel dx dy b n) -> n <> Some "" -> dom dx -> dom dy ->
      readable st b -> readable st i
  | readable_calc i b s n : nth_error st i = Some (NCalc b s n) -> n <> Some "" -> dom s -> readable st b -> readable st i.
  Definition readable_vector (st : pstore F) (v : vobj F) : Prop :=
    match v with
    | OVec v => dom (vx v) /\ dom (vy v)
    | OVrel v => readable st (vr_p1 v) /\ readable st (vr_p2 v)
    end.
End Same.
