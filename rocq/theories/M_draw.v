(* Drawing elements into a DrawingContext: Elem.draw and what it calls (model.py), and the
   layers and the shadow of a DrawingContext (drawing.py). *)
Require Import Verif.Base Verif.M_vector Verif.M_bbox Verif.M_transform Verif.M_bezier Verif.M_colors Verif.M_elems Verif.M_group.
From Coq Require Import ZArith String List.
Import ListNotations.
Local Open Scope string_scope.
Local Open Scope list_scope.
Set Implicit Arguments.

(* One call of PIL's ImageDraw; an image is the list of the calls made on it (PIL itself is
   external).  CBlur stands for make_shadow (drawing.py:26-38), which returns a new image made
   from the old one. *)
Inductive cmd (F : Type) :=
| CPolygon (pts : list (F * F)) (fill : option (color F))
| CLine (pts : list (F * F)) (fill : option (color F)) (width : Z)
| CEllipse (x0 y0 x1 y1 : F) (outline fill : option (color F))
| CRect (x0 y0 x1 y1 : F) (outline fill : option (color F))
| COutlined (pts : list (F * F)) (fill outline : option (color F))     (* polygon with an outline *)
| CBlur.
Arguments COutlined {F}. Arguments CPolygon {F}. Arguments CLine {F}. Arguments CEllipse {F}. Arguments CRect {F}. Arguments CBlur {F}.

(* a ControlPath (model.py:124-132): points, or control points *)
Inductive cpath (F : Type) := KPoints (l : list (pt F)) | KCps (l : list (cpoint F)).
Arguments KPoints {F}. Arguments KCps {F}.

(* drawing.py:47-67 the state of a DrawingContext.  [images]: all images made; the layer is
   image 0; [target]: the image self.draw draws on; [shadow]: self.shadow. *)
Record canvas (F : Type) := Canvas
  { images : list (list (cmd F)); target : nat; shadow : option nat; shadow_offset : Z * Z;
    shadow_color : option (color F); dmatrix : transform F;
    prod : bool; ddebug : bool; dcps : bool; ppc : Z }.
Arguments Canvas {F}.

Section Draw.
  Context {F : Type} {NF : Num F} {RF : NumRoot F} {TF : NumTrig F} {FF : NumFloor F}.
  Local Open Scope num_scope.

  (* drawing.py:47-67 DrawingContext(image, matrix, prod=prod) *)
  Definition new_canvas (m : transform F) (prod : bool) : canvas F :=
    Canvas [[]] 0 None (0, 0)%Z None m prod true false 80.

  Definition set_dmatrix (m : transform F) (c : canvas F) : canvas F :=
    Canvas (images c) (target c) (shadow c) (shadow_offset c) (shadow_color c) m (prod c) (ddebug c) (dcps c) (ppc c).
  Definition set_target (i : nat) (sc : option (color F)) (c : canvas F) : canvas F :=
    Canvas (images c) i (shadow c) (shadow_offset c) sc (dmatrix c) (prod c) (ddebug c) (dcps c) (ppc c).
  (* calls on self.draw *)
  Definition emit (l : list (cmd F)) (c : canvas F) : canvas F :=
    Canvas (set_nth (target c) (nth (target c) (images c) [] ++ l) (images c))
           (target c) (shadow c) (shadow_offset c) (shadow_color c) (dmatrix c) (prod c) (ddebug c) (dcps c) (ppc c).

  (* round(x): to the nearest integer, halves to the even one *)
  Definition pyround (x : F) : Z :=
    let n := nfloor x in
    let d := x - nofZ n in
    if d <? #1 / #2 then n else if #1 / #2 <? d then (n + 1)%Z else if Z.even n then n else (n + 1)%Z.
  (* max(1, round(path.penbrush.stroke_width(draw.matrix))), model.py:250 and 281; only for
     stroked pens, where stroke_width is not None *)
  Definition line_width (pb : penbrush F) (m : transform F) : Z :=
    match stroke_width pb m with None => 1%Z | Some w => Z.max 1 (pyround w) end.

  Definition transparent : color F := CTuple [#0; #0; #0; #0].     (* colors.py:4 *)
  (* model.py:254-257 *)
  Definition paint_fill (sc : option (color F)) (pb : penbrush F) : option (color F) :=
    match sc with
    | Some s => if color_true s && negb (opt_eqb color_eqb (fill_color pb) (Some transparent))
                then Some s else fill_color pb
    | None => fill_color pb
    end.
  (* model.py:272-290 draw_path_debug *)
  Definition debug_cmds (c : canvas F) (p : path F) : list (cmd F) :=
    if pb_stroked (p_pb p) then
      let rad := nofZ (line_width (p_pb p) (dmatrix c)) / #2 in
      if #2 <? rad then
        map (fun xy : F * F =>
               let (x, y) := xy in
               CEllipse (x - rad) (y - rad) (x + rad) (y + rad)
                 (if prod c then None else Some (CStr "red")) (stroke_color (p_pb p))) (p_points p)
      else []
    else [].
  (* model.py:243-269: the calls for one path, and the exception if there is one: [p[0]] of a
     path without points.  PIL is taken to accept every list of points. *)
  Definition path_cmds (c : canvas F) (p : path F) : list (cmd F) * res unit :=
    let pb := p_pb p in
    let width := if prod c && pb_stroked pb then line_width pb (dmatrix c) else 1%Z in
    let debug := if ddebug c then debug_cmds c p else [] in
    if pb_filled pb then
      let poly := CPolygon (p_points p) (paint_fill (shadow_color c) pb) in
      if pb_stroked pb then
        match p_points p with
        | [] => ([poly], Raise IndexError)
        | z :: _ => (poly :: CLine (p_points p ++ [z]) (stroke_color pb) width :: debug, Ok tt)
        end
      else (poly :: debug, Ok tt)
    else (CLine (p_points p) (stroke_color pb) width :: debug, Ok tt).
  Fixpoint draw_paths (ps : list (path F)) (c : canvas F) : canvas F * res unit :=
    match ps with
    | [] => (c, Ok tt)
    | p :: ps' =>
        let (l, r) := path_cmds c p in
        match r with
        | Ok _ => draw_paths ps' (emit l c)
        | Raise e => (emit l c, Raise e)
        end
    end.

  (* ---------------- control points ---------------- *)

  (* control_paths: model.py:526-531 ElemCurve, 622-627 ElemP1P2, 648-653 ElemRectangle *)
  Definition leaf_control_paths (b : ebase F) (s : shape F) (m : transform F)
    : transform F * res (list (cpath F)) :=
    draw_space (e_xform b)
      (fun m' =>
         (m',
          match s with
          | SRect p1 p2 => let* pts := t_transform_pts m' (corners p1 p2) in Ok [KPoints pts]
          | _ => let* cps := shape_cps s in
                 let* cps := mapM (cp_transform (t_transform m') true) cps in
                 Ok [KCps cps]
          end)) m.
  (* model.py:868-875 Group.control_paths, 1079-1084 ElemWithHoles.control_paths *)
  Fixpoint elem_control_paths (e : elem F) (m : transform F) : transform F * res (list (cpath F)) :=
    match e with
    | ELeaf b s => leaf_control_paths b s m
    | EGroup b hidden elems _ =>
        if hidden then (m, Ok [])
        else
          draw_space (e_xform b)
            (fun m => loop (fun acc ke m =>
                              let (m', r) := elem_control_paths (snd ke) m in
                              (m', let* ps := r in Ok (acc ++ ps))) [] elems m) m
    | EHoles b outside inside =>
        draw_space (e_xform b)
          (fun m =>
             let (m, r) := elem_control_paths outside m in
             match r with
             | Raise x => (m, Raise x)
             | Ok ps => loop (fun acc e m =>
                                let (m', r) := elem_control_paths e m in
                                (m', let* ps := r in Ok (acc ++ ps))) ps inside m
             end) m
    end.
  (* model.py:295-309 the calls draw_control_points makes for one control path *)
  Definition grey : option (color F) := Some (CStr "grey").
  Definition red : option (color F) := Some (CStr "red").
  Definition square (p : pt F) : cmd F :=
    CRect (px p + #5) (py p + #5) (px p - #5) (py p - #5) red grey.
  Definition disc (p : pt F) : cmd F :=
    CEllipse (px p - #5) (py p - #5) (px p + #5) (py p + #5) red grey.
  Definition cpath_cmds (k : cpath F) : list (cmd F) :=
    match k with
    | KPoints l => map square l
    | KCps l => flat_map (fun cp => [CLine [p_xy (cc cp); p_xy (cp_l cp)] grey 1;
                                     CLine [p_xy (cc cp); p_xy (cp_r cp)] grey 1;
                                     disc (cp_l cp); disc (cp_r cp); square (cc cp)]) l
    end.

  (* model.py:292-311 draw_control_points *)
  Definition draw_control_points (e : elem F) (c : canvas F) : canvas F * res unit :=
    let (m, r) := elem_control_paths e (dmatrix c) in
    match r with
    | Ok ks => (emit (flat_map cpath_cmds ks) (set_dmatrix m c), Ok tt)
    | Raise x => (set_dmatrix m c, Raise x)
    end.
  (* model.py:241-270 Elem.draw, the loop over self.paths(draw) *)
  Definition draw_all_paths (e : elem F) (c : canvas F) : canvas F * res unit :=
    let (m, r) := elem_paths (DC (dcps c) (ppc c)) e (dmatrix c) in
    match r with
    | Ok ps => draw_paths ps (set_dmatrix m c)
    | Raise x => (set_dmatrix m c, Raise x)
    end.
  (* model.py:226-270 Elem.draw *)
  Definition elem_draw (e : elem F) (c : canvas F) : canvas F * res unit :=
    if dcps c then
      let (c', r) := draw_control_points e c in
      match r with
      | Ok _ => draw_all_paths e c'
      | Raise x => (c', Raise x)
      end
    else draw_all_paths e c.

  (* ---------------- the shadow ---------------- *)

  (* drawing.py:93-96 alloc_shadow; an Image is true *)
  Definition alloc_shadow (offset : Z * Z) (c : canvas F) : canvas F :=
    match shadow c with
    | Some _ => c
    | None => Canvas (images c ++ [[]]) (target c) (Some (List.length (images c))) offset (shadow_color c)
                     (dmatrix c) (prod c) (ddebug c) (dcps c) (ppc c)
    end.
  (* drawing.py:98-111 shadow_draw with the default colour or another *)
  Definition shadow_draw (e : elem F) (col : color F) (c : canvas F) : canvas F * res unit :=
    let draw := target c in
    let c := alloc_shadow (4, -3)%Z c in
    match shadow c with
    | None => (c, Raise AttributeError)        (* not reached *)
    | Some i =>
        let (c, r) := elem_draw e (set_target i (Some col) c) in
        let c := set_target draw None c in
        match r with
        | Raise x => (c, Raise x)
        | Ok _ =>
            (Canvas (images c ++ [nth i (images c) [] ++ [CBlur]]) (target c) (Some (List.length (images c)))
                    (shadow_offset c) (shadow_color c) (dmatrix c) (prod c) (ddebug c) (dcps c) (ppc c), Ok tt)
        end
    end.
  (* drawing.py:74-82 image() without cropping: what lies over the background, the shadow first *)
  Definition composed (c : canvas F) : list (list (cmd F)) :=
    match shadow c with
    | None => [nth 0 (images c) []]
    | Some i => [nth i (images c) []; nth 0 (images c) []]
    end.
End Draw.
