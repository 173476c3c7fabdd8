(* The drawing calls of DrawingContext itself (drawing.py). *)
Require Import Verif.Base Verif.M_vector Verif.M_bbox Verif.M_transform Verif.M_bezier Verif.M_colors Verif.M_elems Verif.M_group Verif.M_draw.
From Coq Require Import ZArith String List.
Import ListNotations.
Local Open Scope string_scope.
Local Open Scope list_scope.
Set Implicit Arguments.

Section Ctx.
  Context {F : Type} {NF : Num F} {RF : NumRoot F} {TF : NumTrig F} {FF : NumFloor F}.
  Local Open Scope num_scope.

  (* drawing.py:120-121 *)
  Definition scale_pt (x y : F) (c : canvas F) : F * F :=
    let p := t_transform (dmatrix c) (P x y) in (px p, py p).
  (* drawing.py:123-124; the matrix may remember its inverse *)
  Definition unscale_pt (x y : F) (c : canvas F) : canvas F * res (F * F) :=
    let (m, r) := t_untransform (dmatrix c) (P x y) in
    (set_dmatrix m c, let* p := r in Ok (px p, py p)).
  (* drawing.py:116-118 with a Transform (which is true) or with None *)
  Definition ctx_set_matrix (m : option (transform F)) (c : canvas F) : canvas F :=
    match m with None => c | Some m => set_dmatrix (t_set_matrix (dmatrix c) (tmat m)) c end.
  (* drawing.py:89-91 *)
  Definition ctx_stroke_width (w : F) (c : canvas F) : F := t_transform_width (dmatrix c) w.

  (* drawing.py:126-129 *)
  Definition ctx_line (x1 y1 x2 y2 : F) (col : color F) (width : Z) (c : canvas F) : canvas F :=
    let p1 := scale_pt x1 y1 c in
    let p2 := scale_pt x2 y2 c in
    emit [CLine [p1; p2] (Some col) width] c.

  (* drawing.py:136-144; the flat list of numbers is taken in pairs by PIL *)
  Fixpoint pairs (l : list F) : list (F * F) :=
    match l with x :: y :: l' => (x, y) :: pairs l' | _ => [] end.
  Definition ctx_polygon (points : list (pt F)) (fill outline : option (color F)) (c : canvas F) : canvas F * res unit :=
    match t_transform_pts_flat (dmatrix c) points with
    | Ok l => (emit [COutlined (pairs l) fill outline] c, Ok tt)
    | Raise e => (c, Raise e)
    end.

  (* drawing.py:146-156; both parameters are unused *)
  Definition ctx_grid (c : canvas F) : canvas F :=
    let line (x1 y1 x2 y2 : Z) col := ctx_line (nofZ x1) (nofZ y1) (nofZ x2) (nofZ y2) (CStr col) 1 in
    let c := line 1000%Z 0%Z (-1000)%Z 0%Z "red" c in
    let c := line 0%Z 1000%Z 0%Z (-1000)%Z "red" c in
    fold_left (fun c rc =>
      let '(r, col) := (rc : Z * string) in
      let c := line (-r)%Z r r r col c in
      let c := line r (-r)%Z r r col c in
      let c := line r (-r)%Z (-r)%Z (-r)%Z col c in
      line (-r)%Z (-r)%Z (-r)%Z r col c) [(100, "black"); (50, "green"); (10, "blue")]%Z c.
End Ctx.
