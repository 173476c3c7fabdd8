(* Model of display() of the elements: /repo/x7/geom/model.py:533-539, 655-659, 776-781, 805-810,
   930-938, 1125-1134, 1318-1321.  The result is the list of the texts given to print, in order.
   [show] is str(x) of a number, [show2] is str(round(x, 2)). *)
Require Import Verif.Base Verif.M_vector Verif.M_bbox Verif.M_transform Verif.M_bezier Verif.M_colors
  Verif.M_elems Verif.M_group Verif.M_dump.
From Coq Require Import String.
Set Implicit Arguments.
Local Open Scope list_scope.
Local Open Scope string_scope.

Section Display.
  Context {F : Type} {NF : Num F}.
  Variables show show2 : F -> string.
  Local Open Scope num_scope.

  (* str of a colour: of a string the string itself *)
  Definition str_color (c : color F) : string :=
    match c with CStr s => s | CNum n => show n | CTuple l => repr_tuple (map show l) end.
  (* colors.py:112-119 PenBrush.__str__ *)
  Definition str_pb (p : penbrush F) : string :=
    let pen := match pb_pen p with
               | None => "None"
               | Some p => if pwidth p =? #1 then str_color (bcolor (pbrush p))
                           else "(" ++ str_color (bcolor (pbrush p)) ++ ", " ++ show (pwidth p) ++ ")"
               end in
    "PenBrush(" ++ pen ++ ", " ++ match pb_brush p with Some b => str_color (bcolor b) | None => "None" end ++ ")".
  (* transform.py:129-130 *)
  Definition str_xf (t : transform F) : string :=
    let m := tmat t in repr_tuple (map show2 [m00 m; m01 m; m02 m; m10 m; m11 m; m12 m]).
  (* geom.py:280-281 *)
  Definition str_pt (p : pt F) : string := repr_tuple [show (px p); show (py p)].
  (* str(p.round(2).xy()) *)
  Definition str_pt2 (p : pt F) : string := repr_tuple [show2 (px p); show2 (py p)].

  (* the line ' closed=... pen=...' *)
  Definition pen_line (prefix : string) (b : ebase F) : string :=
    prefix ++ " closed=" ++ repr_bool (e_closed b) ++ " pen=" ++ str_pb (e_pb b).
  (* model.py:533-539, 655-659, 776-781, 805-810 *)
  Definition display_leaf (detail : bool) (prefix : string) (b : ebase F) (s : shape F) : list string :=
    match s with
    | SCurve l =>
        (prefix ++ "ElemCurve: " ++ e_name b ++ " " ++ decimal (List.length l) ++ " points")
        :: if detail then pen_line prefix b :: map (fun cp => prefix ++ "  " ++ repr_cp show cp) l else []
    | SRect p q =>
        (prefix ++ "ElemRectangle: " ++ e_name b ++ " " ++ str_pt2 p ++ " " ++ str_pt2 q)
        :: if detail then [pen_line prefix b] else []
    | SRRect p q r =>
        (prefix ++ "ElemRectangleRounded: " ++ e_name b ++ " " ++ str_pt2 p ++ " " ++ str_pt2 q ++ " " ++ show2 r)
        :: if detail then [pen_line prefix b] else []
    | SEllipse p q =>
        (prefix ++ "ElemEllipse: " ++ e_name b ++ " " ++ str_pt2 p ++ " " ++ str_pt2 q)
        :: if detail then [pen_line prefix b] else []
    end.
  (* the line 'Transform: ...' of model.py:933-934 and 1128-1129 *)
  Definition xform_line (prefix : string) (b : ebase F) : list string :=
    if negb (t_eqb (e_xform b) t_new) then [prefix ++ "Transform: " ++ str_xf (e_xform b)] else [].
  (* model.py:930-938 Group.display, 1125-1134 ElemWithHoles.display *)
  Fixpoint display (detail : bool) (prefix : string) (e : elem F) : list string :=
    match e with
    | ELeaf b s => display_leaf detail prefix b s
    | EGroup b h l p =>
        (prefix ++ "ElemGroup: " ++ repr_str (e_name b) ++ " " ++ (if h then "hidden" else "visible"))
        :: (let prefix := (prefix ++ "  ")%string in
            xform_line prefix b
            ++ map (fun np => prefix ++ "Point: " ++ fst np ++ " " ++ str_pt (snd np))%string (sorted by_name p)
            ++ List.concat (map snd (sorted by_name (map (fun ke => (fst ke, display detail prefix (snd ke))) l))))%list
    | EHoles b o i =>
        (prefix ++ "ElemWithHoles: " ++ repr_str (e_name b))
        :: (let prefix := (prefix ++ "  ")%string in
            xform_line prefix b
            ++ [(prefix ++ "Outside:")%string] ++ display detail (prefix ++ "  ") o
            ++ [(prefix ++ "Outside:")%string] ++ List.concat (map (display detail (prefix ++ "  ")) i))%list
    end.
  (* model.py:1318-1321 GroupBuilder.display: the name of the builder and its group *)
  Definition display_builder (detail : bool) (prefix name : string) (g : elem F) : list string :=
    (prefix ++ "GroupBuilder: " ++ name) :: display detail (prefix ++ "  ") g.
End Display.
