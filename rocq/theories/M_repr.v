(* Model of repr() and str() of the geometry objects: /repo/x7/geom/geom.py, bezier.py, transform.py
   and colors.py.  Points are objects of a store (M_points).  [show] is str(x) = repr(x) of a
   number.  Subclasses, whose own names the texts would carry, are not modelled. *)
Require Import Verif.Base Verif.M_vector Verif.M_bbox Verif.M_transform Verif.M_bezier Verif.M_colors Verif.M_elems Verif.M_group Verif.M_points Verif.M_dump Verif.M_display.
From Coq Require Import String.
Set Implicit Arguments.
Local Open Scope list_scope.
Local Open Scope string_scope.

(* a Vector, or a VectorRelative between two points *)
Inductive vobj (F : Type) := OVec (v : vec F) | OVrel (v : vrel).
Arguments OVec {F}. Arguments OVrel {F}.

Section Repr.
  Context {F : Type} {NF : Num F}.
  Variables show show2 : F -> string.

  (* geom.py:287-288 _namestr *)
  Definition namestr (n : name) : string :=
    if has_name n then ", " ++ repr_str (match n with Some s => s | None => "" end) else "".
  (* geom.py:283-291 Point (the default _repr, with extra=''), 486-487 PointRelative,
     516-520 PointCalc.  [fuel] as in M_points.xy. *)
  Fixpoint repr_node (fuel : nat) (st : pstore F) (i : nat) : res string :=
    match fuel with
    | O => Raise KeyError
    | S fuel =>
        match nth_error st i with
        | None => Raise KeyError
        | Some (NPoint x y n) => Ok ("Point(" ++ show x ++ ", " ++ show y ++ "" ++ namestr n ++ ")")
        | Some (NRel dx dy b n) =>
            let* r := repr_node fuel st b in
            Ok ("PointRelative(" ++ show dx ++ ", " ++ show dy ++ ", " ++ r ++ namestr n ++ ")")
        | Some (NCalc b scale n) =>
            let* r := repr_node fuel st b in
            if has_name n
            then Ok ("PointCalc(" ++ r ++ ", " ++ show scale ++ ", " ++ repr_str (match n with Some s => s | None => "" end) ++ ")")
            else Ok ("PointCalc(" ++ r ++ ", " ++ show scale ++ ")")
        end
    end.
  Definition repr_point (st : pstore F) (i : nat) : res string := repr_node (S i) st i.
  (* geom.py:280-281 *)
  Definition str_point (st : pstore F) (i : nat) : res string :=
    let* p := pos st i in Ok (str_pt show p).

  (* geom.py:81-83 Vector, 229-230 VectorRelative *)
  Definition repr_vobj (st : pstore F) (v : vobj F) : res string :=
    match v with
    | OVec v => Ok (repr_vec show v)
    | OVrel v => let* a := repr_point st (vr_p1 v) in let* b := repr_point st (vr_p2 v) in
                 Ok ("VectorRelative(" ++ a ++ ", " ++ b ++ ")")
    end.
  (* geom.py:78-79 Vector, 226-227 VectorRelative *)
  Definition str_vobj (st : pstore F) (v : vobj F) : res string :=
    match v with
    | OVec v => Ok ("V" ++ repr_tuple [show (vx v); show (vy v)])
    | OVrel v => let* a := str_point st (vr_p1 v) in let* b := str_point st (vr_p2 v) in
                 Ok ("V(" ++ a ++ "-" ++ b ++ ")")
    end.

  (* geom.py:827-828 Line *)
  Definition repr_line (st : pstore F) (origin : nat) (direction : vobj F) : res string :=
    let* o := repr_point st origin in let* d := repr_vobj st direction in Ok ("Line(" ++ o ++ ", " ++ d ++ ")").
  (* geom.py:824-825: [show2] is str(round(x, 2)); a relative point is fixed before it is rounded (303-308), a vector
     between points is rounded to one between the rounded points (240-244) *)
  Definition str_line (st : pstore F) (origin : nat) (direction : vobj F) : res string :=
    let rounded i := let* p := pos st i in Ok (repr_tuple [show2 (px p); show2 (py p)]) in
    let* o := rounded origin in
    let* d := match direction with
              | OVec v => Ok ("V" ++ repr_tuple [show2 (vx v); show2 (vy v)])
              | OVrel v => let* a := rounded (vr_p1 v) in let* b := rounded (vr_p2 v) in Ok ("V(" ++ a ++ "-" ++ b ++ ")")
              end in
    Ok (o ++ " @ " ++ d).
  (* bezier.py:32-33, 29-30 ControlPoint *)
  Definition repr_ctrl (st : pstore F) (c : nat) (dl dr : vobj F) (kind : string) : res string :=
    let* c := repr_point st c in let* l := repr_vobj st dl in let* r := repr_vobj st dr in
    Ok ("ControlPoint" ++ repr_tuple [c; l; r; repr_str kind]).
  Definition str_ctrl (st : pstore F) (c : nat) (dl dr : vobj F) (kind : string) : res string :=
    let* c := repr_point st c in let* l := repr_vobj st dl in let* r := repr_vobj st dr in
    Ok (repr_tuple [c; l; r; repr_str kind]).

  (* geom.py:608-609, 605-606 BBox *)
  Definition repr_bbox (b : bbox F) : string :=
    let '(xl, yl, xh, yh) := match b with
                             | BNone => ("None", "None", "None", "None")
                             | BB xl yl xh yh => (show xl, show yl, show xh, show yh)
                             end in
    "BBox(xl=" ++ xl ++ ", yl=" ++ yl ++ ", xh=" ++ xh ++ ", yh=" ++ yh ++ ")".
  Definition str_bbox (b : bbox F) : string :=
    repr_tuple (match b with
                | BNone => ["None"; "None"; "None"; "None"]
                | BB xl yl xh yh => map show [xl; yl; xh; yh]
                end).

  (* transform.py:30-31, 27-28 Matrix *)
  Definition repr_matrix (m : mat F) : string :=
    "Transform(" ++ repr_tuple [repr_tuple (map show [m00 m; m01 m; m02 m]);
                                repr_tuple (map show [m10 m; m11 m; m12 m]);
                                repr_tuple (map show [m20 m; m21 m; m22 m])] ++ ")".
  Definition str_matrix (m : mat F) : string :=
    repr_tuple [repr_tuple (map show2 [m00 m; m01 m; m02 m]);
                repr_tuple (map show2 [m10 m; m11 m; m12 m]);
                repr_tuple (map show2 [m20 m; m21 m; m22 m])].

  (* colors.py:41-42 Brush, 62-63 Pen, 29-30 Colors *)
  Definition str_brush (b : brush F) : string := "Brush(" ++ str_color show (bcolor b) ++ ")".
  Definition str_pen (p : pen F) : string := "Pen(" ++ str_color show (bcolor (pbrush p)) ++ ", " ++ show (pwidth p) ++ ")".
  Definition repr_colors (outline fill : option (color F)) : string :=
    let s c := match c with Some c => str_color show c | None => "None" end in
    "Colors(" ++ s outline ++ ", " ++ s fill ++ ")".
  (* colors.py:219-226 PensByShape: keys, __str__ and __repr__ *)
  Definition pens_by_key (t : by_shape (penbrush F)) : list (string * penbrush F) :=
    [("edge", s_edge t); ("filled", s_filled t); ("clear", s_clear t); ("edge_filled", s_edge_filled t); ("edge_clear", s_edge_clear t)].
  Definition repr_pens (t : by_shape (penbrush F)) : string :=
    "PensByShape(" ++ join ", " (map (fun kp => fst kp ++ "=" ++ repr_pb show (snd kp)) (pens_by_key t)) ++ ")".
  Definition str_pens (t : by_shape (penbrush F)) : string :=
    "PensByShape(" ++ join "," (map (fun kp => str_pb show (snd kp)) (pens_by_key t)) ++ ")".
  (* str of elements.  A curve shows its control points rounded to two digits (bezier.py:29-30, 94-96) *)
  Definition str_cp (c : cpoint F) : string :=
    repr_tuple ["Point(" ++ show2 (px (cc c)) ++ ", " ++ show2 (py (cc c)) ++ ")";
                "Vector(" ++ show2 (vx (cdl c)) ++ ", " ++ show2 (vy (cdl c)) ++ ")";
                "Vector(" ++ show2 (vx (cdr c)) ++ ", " ++ show2 (vy (cdr c)) ++ ")"; repr_str (ckind c)].
  (* type(e).__name__ *)
  Definition class_of (e : elem F) : string :=
    match e with
    | ELeaf _ (SCurve _) => "ElemCurve" | ELeaf _ (SRect _ _) => "ElemRectangle"
    | ELeaf _ (SRRect _ _ _) => "ElemRectangleRounded" | ELeaf _ (SEllipse _ _) => "ElemEllipse"
    | EGroup _ _ _ _ => "Group" | EHoles _ _ _ => "ElemWithHoles"
    end.
  (* model.py:368-369, 561-562, 736-737, 841-842, 1026-1031 *)
  Definition str_elem (e : elem F) : string :=
    match e with
    | ELeaf b (SCurve l) => "ElemCurve(" ++ repr_str (e_name b) ++ ", " ++ join ", " (map str_cp l) ++ ")"
    | ELeaf b (SRect p q) => "ElemRectangle(" ++ repr_str (e_name b) ++ ", " ++ repr_pt show p ++ ", " ++ repr_pt show q ++ ")"
    | ELeaf b (SEllipse p q) => "ElemEllipse(" ++ repr_str (e_name b) ++ ", " ++ repr_pt show p ++ ", " ++ repr_pt show q ++ ")"
    | ELeaf b (SRRect p q r) =>
        "ElemRectangleRounded(" ++ repr_str (e_name b) ++ ", " ++ repr_pt show p ++ ", " ++ repr_pt show q ++ ", " ++ show r ++ ")"
    | EGroup b _ l p => "Group(" ++ e_name b ++ ", " ++ decimal (List.length l) ++ " elems, " ++ decimal (List.length p) ++ " points)"
    | EHoles b o i => "ElemWithHoles(" ++ e_name b ++ ", " ++ class_of o ++ ", [" ++ join ", " (map class_of i) ++ "])"
    end.
End Repr.
