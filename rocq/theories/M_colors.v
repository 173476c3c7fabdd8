(* Model of /repo/x7/geom/colors.py. *)
Require Import Verif.Base Verif.M_vector Verif.M_bbox Verif.M_transform.
From Coq Require Import String.
Set Implicit Arguments.
Local Open Scope string_scope.
Local Open Scope list_scope.

(* colors.py:6 Color: a string, a number, or a tuple of numbers *)
Inductive color (F : Type) := CStr (s : string) | CNum (n : F) | CTuple (l : list F).
Arguments CStr {F}. Arguments CNum {F}. Arguments CTuple {F}.

(* colors.py:34-37 Brush: a colour *)
Record brush (F : Type) := Brush { bcolor : color F }.
(* colors.py:49-58 Pen: a brush and a width *)
Record pen (F : Type) := Pen { pbrush : brush F; pwidth : F }.
(* colors.py:73-87 PenBrush: an optional pen and an optional brush *)
Record penbrush (F : Type) := PenBrush { pb_pen : option (pen F); pb_brush : option (brush F) }.
(* colors.py:20-23 Colors *)
Record colors (F : Type) := Colors { outline : option (color F); fill : option (color F) }.
Arguments Brush {F}. Arguments Pen {F}. Arguments PenBrush {F}. Arguments Colors {F}.

(* an argument that may be a Brush object or a colour *)
Inductive brusharg (F : Type) := BAObj (b : brush F) | BAColor (c : color F).
(* an argument that may be a Pen object, a colour, or a pair (brush or colour, width) *)
Inductive penarg (F : Type) := PAObj (p : pen F) | PAColor (c : color F) | PAPair (b : brusharg F) (w : F).
Arguments BAObj {F}. Arguments BAColor {F}. Arguments PAObj {F}. Arguments PAColor {F}. Arguments PAPair {F}.

Section Colors.
  Context {F : Type} {NF : Num F}.
  Local Open Scope num_scope.

  (* Python's truth value of a colour *)
  Definition color_true (c : color F) : bool :=
    match c with
    | CStr s => negb (s =? "")%string
    | CNum n => negb (n =? #0)
    | CTuple l => negb (List.length l =? 0)%nat
    end.
  (* Brush and Pen define neither __bool__ nor __len__: their objects are true *)
  Definition brusharg_true (b : brusharg F) : bool :=
    match b with BAObj _ => true | BAColor c => color_true c end.
  Definition penarg_true (p : penarg F) : bool :=
    match p with PAObj _ => true | PAColor c => color_true c | PAPair _ _ => true end.

  (* colors.py:16-17 _nocolor; the argument may be None *)
  Definition nocolor (c : option (color F)) : option (color F) :=
    match c with
    | Some (CStr s) => if (s =? "NoColor")%string then None else c
    | _ => c
    end.
  (* colors.py:21-23 Colors(outline, fill) *)
  Definition mk_colors (o f : option (color F)) : colors F := Colors (nocolor o) (nocolor f).
  (* colors.py:25-27 Colors.filled *)
  Definition colors_filled (c : colors F) : bool :=
    match fill c with None => false | Some f => color_true f end.

  (* colors.py:56-58 Pen(brush, width) *)
  Definition mk_pen (b : brusharg F) (w : F) : pen F :=
    match b with BAObj b => Pen b w | BAColor c => Pen (Brush c) w end.
  (* colors.py:69-70 Pen.replace *)
  Definition pen_replace (p : pen F) (b : option (brusharg F)) (w : option F) : pen F :=
    mk_pen (match b with
            | Some b => if brusharg_true b then b else BAObj (pbrush p)
            | None => BAObj (pbrush p)
            end)
           (match w with Some w => w | None => pwidth p end).

  (* colors.py:75-87 PenBrush(pen, brush).  A colour that is itself a tuple of two numbers
     is taken for a pair (colour, width). *)
  Definition mk_penbrush (p : option (penarg F)) (b : option (brusharg F)) : penbrush F :=
    PenBrush
      (match p with
       | None => None
       | Some (PAObj p) => Some p
       | Some (PAPair b w) => Some (mk_pen b w)
       | Some (PAColor (CTuple [a; w])) => Some (mk_pen (BAColor (CNum a)) w)
       | Some (PAColor c) => Some (mk_pen (BAColor c) (#0))
       end)
      (match b with
       | None => None
       | Some (BAObj b) => Some b
       | Some (BAColor c) => Some (Brush c)
       end).

  (* colors.py:92-98 filled, stroked *)
  Definition pb_filled (b : penbrush F) : bool := match pb_brush b with Some _ => true | None => false end.
  Definition pb_stroked (b : penbrush F) : bool := match pb_pen b with Some _ => true | None => false end.
  (* colors.py:100-106 fill_color, stroke_color *)
  Definition fill_color (b : penbrush F) : option (color F) :=
    match pb_brush b with Some b => Some (bcolor b) | None => None end.
  Definition stroke_color (b : penbrush F) : option (color F) :=
    match pb_pen b with Some p => Some (bcolor (pbrush p)) | None => None end.

  (* colors.py:128-133 PenBrush.replace; [pen or self.pen] with a false pen keeps self.pen *)
  Definition pb_replace (s : penbrush F) (p : option (penarg F)) (w : option F) (b : option (brusharg F))
    : res (penbrush F) :=
    let p_true := match p with Some p => penarg_true p | None => false end in
    let w_given := match w with Some _ => true | None => false end in
    if p_true && w_given then Raise ValueError
    else
      let p := match w, pb_pen s with
               | Some w, Some sp => Some (PAObj (mk_pen (BAObj (pbrush sp)) w))
               | _, _ => p
               end in
      let p := match p with
               | Some q => if penarg_true q then Some q else option_map PAObj (pb_pen s)
               | None => option_map PAObj (pb_pen s)
               end in
      let b := match b with
               | Some q => if brusharg_true q then Some q else option_map BAObj (pb_brush s)
               | None => option_map BAObj (pb_brush s)
               end in
      Ok (mk_penbrush p b).
End Colors.

Section ColorsWidth.
  Context {F : Type} {NF : Num F} {RF : NumRoot F}.
  Local Open Scope num_scope.
  (* colors.py:108-113 stroke_width; falls off the end (None) without a pen *)
  Definition stroke_width (b : penbrush F) (xform : transform F) : option F :=
    match pb_pen b with
    | None => None
    | Some p => Some (if ngtb (pwidth p) (#0) then pwidth p
                      else t_transform_width xform (- pwidth p))
    end.
End ColorsWidth.

(* colors.py:136-163 ColorsByShape and 197-224 PensByShape: five fields *)
Record by_shape (A : Type) := ByShape
  { s_edge : A; s_filled : A; s_clear : A; s_edge_filled : A; s_edge_clear : A }.
Arguments ByShape {A}.

(* colors.py:165-169 and 226-230 __getitem__ *)
Definition by_shape_get {A} (t : by_shape A) (kind : string) : res A :=
  if (kind =? "edge")%string then Ok (s_edge t)
  else if (kind =? "filled")%string then Ok (s_filled t)
  else if (kind =? "clear")%string then Ok (s_clear t)
  else if (kind =? "edge_filled")%string then Ok (s_edge_filled t)
  else if (kind =? "edge_clear")%string then Ok (s_edge_clear t)
  else Raise ValueError.

Section Shapes.
  Context {F : Type} {NF : Num F}.
  Local Open Scope num_scope.

  (* colors.py:207-213 PensByShape(...): a missing entry is the default pen *)
  Definition mk_pens (e f c ef ec : option (penbrush F)) : by_shape (penbrush F) :=
    let default := mk_penbrush (Some (PAObj (mk_pen (BAColor (CStr "black")) (#1)))) None in
    let pick x := match x with Some p => p | None => default end in
    ByShape (pick e) (pick f) (pick c) (pick ef) (pick ec).
  (* colors.py:232-233 replace_width *)
  Definition pens_replace_width (t : by_shape (penbrush F)) (w : option F) : res (by_shape (penbrush F)) :=
    let* e := pb_replace (s_edge t) None w None in
    let* f := pb_replace (s_filled t) None w None in
    let* c := pb_replace (s_clear t) None w None in
    let* ef := pb_replace (s_edge_filled t) None w None in
    let* ec := pb_replace (s_edge_clear t) None w None in
    Ok (mk_pens (Some e) (Some f) (Some c) (Some ef) (Some ec)).
  (* colors.py:235-275 PensByShape.make *)
  Definition pens_make (draft : bool) (col fill transparent : color F) (width : F)
    : by_shape (penbrush F) :=
    if draft then
      let pen := Some (mk_penbrush (Some (PAPair (BAColor col) (#0))) None) in
      mk_pens pen pen pen pen pen
    else
      let edge_pen := Some (PAObj (mk_pen (BAColor col) width)) in
      mk_pens (Some (mk_penbrush edge_pen None))
              (Some (mk_penbrush None (Some (BAColor col))))
              (Some (mk_penbrush None (Some (BAColor transparent))))
              (Some (mk_penbrush edge_pen (Some (BAColor fill))))
              (Some (mk_penbrush edge_pen (Some (BAColor transparent)))).
  (* colors.py:171-205 ColorsByShape.make *)
  Definition colors_make (draft : bool) (col fill transparent : color F) : by_shape (colors F) :=
    if draft then
      let c := mk_colors (Some col) None in ByShape c c c c c
    else
      ByShape (mk_colors (Some col) None) (mk_colors None (Some col)) (mk_colors None (Some transparent))
              (mk_colors (Some col) (Some fill)) (mk_colors (Some col) (Some transparent)).
End Shapes.
