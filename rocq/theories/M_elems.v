(* Model of the simple elements of /repo/x7/geom/model.py: ElemCurve, ElemRectangle,
   ElemRectangleRounded, ElemEllipse, and the type of element trees (Group and
   ElemWithHoles are in M_group.v).
   Elements are values here; which objects copies share is modelled in M_eheap.v. *)
Require Import Verif.Base Verif.M_vector Verif.M_bbox Verif.M_transform Verif.M_bezier Verif.M_colors.
From Coq Require Import String.
Set Implicit Arguments.
Local Open Scope string_scope.
Local Open Scope list_scope.

(* model.py:138-144 Elem.__init__: the fields every element has *)
Record ebase (F : Type) := EB { e_name : string; e_pb : penbrush F; e_closed : bool; e_xform : transform F }.
Arguments EB {F}.

(* the fields of the four simple classes: model.py:366 (control_points), 558-559 (p1, p2),
   734 (radius) *)
Inductive shape (F : Type) :=
| SCurve (cps : list (cpoint F))
| SRect (p1 p2 : pt F)
| SRRect (p1 p2 : pt F) (radius : F)
| SEllipse (p1 p2 : pt F).
Arguments SCurve {F}. Arguments SRect {F}. Arguments SRRect {F}. Arguments SEllipse {F}.

(* an element: a simple one, a Group (model.py:816-839; the dictionaries are lists of
   key and value in insertion order), or an ElemWithHoles (1015-1024) *)
Inductive elem (F : Type) :=
| ELeaf (b : ebase F) (s : shape F)
| EGroup (b : ebase F) (hidden : bool) (elems : list (string * elem F)) (points : list (string * pt F))
| EHoles (b : ebase F) (outside : elem F) (inside : list (elem F)).
Arguments ELeaf {F}. Arguments EGroup {F}. Arguments EHoles {F}.

(* model.py:98-107 Path; the points of a PIL ImagePath.Path as pairs *)
Record path (F : Type) := Path { p_pb : penbrush F; p_closed : bool; p_points : list (F * F) }.
Arguments Path {F}.

(* what paths() reads from the DrawingContext besides its matrix (drawing.py) *)
Record dctx := DC { show_cps : bool; points_per_curve : Z }.

Section Leaf.
  Context {F : Type} {NF : Num F}.
  Local Open Scope num_scope.

  Definition e_base (e : elem F) : ebase F :=
    match e with ELeaf b _ => b | EGroup b _ _ _ => b | EHoles b _ _ => b end.

  (* model.py:138-144 Elem.__init__: a filled element has to be closed *)
  Definition mk_base (name : string) (pb : penbrush F) (closed : bool) (xform : option (transform F))
    : res (ebase F) :=
    if pb_filled pb && negb closed then Raise AssertionError
    else Ok (EB name pb closed (match xform with Some x => x | None => t_new end)).

  (* [with matrix.push().<chain>: body] where the body may raise (transform.py:303-334);
     after push the stack is not empty, so __enter__ does not raise *)
  Definition with_push {A} (chain : transform F -> transform F)
      (body : transform F -> transform F * res A) (s : transform F) : transform F * res A :=
    let (s2, r) := body (chain (t_push s)) in
    let (s3, rp) := t_pop s2 in
    (s3, match rp with Raise e => Raise e | Ok _ => r end).
  (* model.py:160-166 draw_space *)
  Definition draw_space {A} (x : transform F) (body : transform F -> transform F * res A)
      (s : transform F) : transform F * res A :=
    with_push (t_compose (tmat x)) body s.

  (* ---------------- control points of the two-corner shapes ---------------- *)

  (* model.py:603-610 points *)
  Definition corners (p1 p2 : pt F) : list (pt F) := [p1; P (px p1) (py p2); p2; P (px p2) (py p1)].
  (* model.py:664-666 ElemRectangle.make_control_points *)
  Definition rect_cps (p1 p2 : pt F) : list (cpoint F) :=
    map (fun p => CP p (V (#0) (#0)) (V (#0) (#0)) "smooth") (corners p1 p2).
End Leaf.

Section LeafTrig.
  Context {F : Type} {NF : Num F} {RF : NumRoot F} {TF : NumTrig F}.
  Local Open Scope num_scope.

  (* model.py:670 and 714: 4/3 * tan(radians(90/4)) *)
  Definition bez_90 : F := #4 / #3 * ntan (radians (#90 / #4)).

  (* model.py:677-693: the two control points of one corner b with neighbours a and c;
     unit() is only called on a vector of non-zero length *)
  Definition rr_corner (radius : F) (a b c : pt F) : res (cpoint F * cpoint F * bool) :=
    let ab := p_sub a b in
    let cb := p_sub c b in
    let ab_len := v_length ab / #2 in
    let cb_len := v_length cb / #2 in
    let new_radius := pymin (pymin radius ab_len) cb_len in
    let clip := nleb new_radius radius in
    let* ab := if ab_len =? #0 then Ok (V (#0) (#0))
               else let* u := v_unit ab in Ok (v_mul u new_radius) in
    let* cb := if cb_len =? #0 then Ok (V (#0) (#0))
               else let* u := v_unit cb in Ok (v_mul u new_radius) in
    let* ab_scale := if new_radius =? #0 then Ok (#0)
                     else pydiv (pymin (ab_len - new_radius) new_radius) new_radius in
    let* cb_scale := if new_radius =? #0 then Ok (#0)
                     else pydiv (pymin (cb_len - new_radius) new_radius) new_radius in
    let bab := p_add b ab in
    let bcb := p_add b cb in
    let ab := v_mul ab bez_90 in
    let cb := v_mul cb bez_90 in
    Ok (CP bab (v_mul ab ab_scale) (v_neg ab) "smooth",
        CP bcb (v_neg cb) (v_mul cb cb_scale) "smooth",
        clip).

  (* model.py:674-693: all corners, and the flag clipped *)
  Fixpoint rr_corners (radius : F) (l : list (pt F * pt F * pt F)) : res (list (cpoint F) * bool) :=
    match l with
    | [] => Ok ([], false)
    | (a, b, c) :: l' =>
        let* r := rr_corner radius a b c in
        let '(c1, c2, clip) := r in
        let* r' := rr_corners radius l' in
        let (cps, clipped) := r' in
        Ok (c1 :: c2 :: cps, clip || clipped)
    end.

  (* replace the i-th entry *)
  Fixpoint set_nth {A} (i : nat) (x : A) (l : list A) : list A :=
    match l, i with
    | [], _ => []
    | _ :: l', O => x :: l'
    | y :: l', S i' => y :: set_nth i' x l'
    end.

  (* model.py:694-703: merge duplicates.  [cps] is the list of control point objects, which
     the loop mutates ([b.dr = c.dr]); [todo] lists the indices of (a, b, c) still to visit;
     [out] holds indices of the kept objects. *)
  Fixpoint rr_merge (cps : list (cpoint F)) (todo : list (nat * nat * nat)) (out : list nat)
    : list (cpoint F) * list nat :=
    match todo with
    | [] => (cps, out)
    | (ia, ib, ic) :: todo' =>
        match nth_error cps ia, nth_error cps ib, nth_error cps ic with
        | Some a, Some b, Some c =>
            if p_eqb (cc b) (cc c)
            then rr_merge (set_nth ib (CP (cc b) (cdl b) (cdr c) (ckind b)) cps) todo' (out ++ [ib])
            else if p_eqb (cc b) (cc a) then rr_merge cps todo' out
            else rr_merge cps todo' (out ++ [ib])
        | _, _, _ => (cps, out)          (* not reached: the indices are in range *)
        end
    end.

  (* model.py:669-704 make_rounded_rect_cps *)
  Definition make_rounded_rect_cps (p1 p2 : pt F) (radius : F) : res (list (cpoint F)) :=
    let* r := rr_corners radius (iter_rotate3m1 (corners p1 p2)) in
    let (cps, clipped) := r in
    if clipped then
      let (cps, out) := rr_merge cps (iter_rotate3 (seq 0 (List.length cps))) [] in
      Ok (flat_map (fun i => match nth_error cps i with Some c => [c] | None => [] end) out)
    else Ok cps.

  (* model.py:712-726 make_ellipse_cps *)
  Definition make_ellipse_cps (center : pt F) (r_x : F) (r_y : option F) : list (cpoint F) :=
    let r_y := match r_y with None => r_x | Some r => r end in
    let vr := V r_x (#0) in
    let vrb := v_mul vr bez_90 in
    let vu := V (#0) r_y in
    let vub := v_mul vu bez_90 in
    [ CP (p_add center vr) vub (v_neg vub) "smooth";
      CP (p_subv center vu) vrb (v_neg vrb) "smooth";
      CP (p_subv center vr) (v_neg vub) vub "smooth";
      CP (p_add center vu) (v_neg vrb) vrb "smooth" ].
  (* model.py:707-709 make_ellipse_p1p2_cps *)
  Definition make_ellipse_p1p2_cps (p1 p2 : pt F) : res (list (cpoint F)) :=
    let bb := bbox_of_pts p1 p2 in
    let* center := bbox_center bb in
    Ok (make_ellipse_cps center (bbox_width bb / #2) (Some (bbox_height bb / #2))).

  (* the control points of a simple element: as_digi_points, model.py:549-550, 629-630 *)
  Definition shape_cps (s : shape F) : res (list (cpoint F)) :=
    match s with
    | SCurve cps => Ok cps
    | SRect p1 p2 => Ok (rect_cps p1 p2)
    | SRRect p1 p2 r => make_rounded_rect_cps p1 p2 r
    | SEllipse p1 p2 => make_ellipse_p1p2_cps p1 p2
    end.

  (* ---------------- drawing ---------------- *)

  (* model.py:513-522 ElemCurve.paths, after control_points_transformed *)
  Definition curve_points (cps : list (cpoint F)) (closed : bool) (segments : Z) : list F :=
    let extra := if closed then cps else [] in
    fst (fold_left
           (fun (acc : list F * nat) pq =>
              let '(p, q) := pq in
              (fst acc ++ skipn (snd acc) (bez (cc p) (cp_r p) (cp_l q) (cc q) segments), 2%nat))
           (combine cps (tl cps ++ extra)) ([], 0%nat)).

  (* the pairs of a flat list: ImagePath.Path(flat) *)
  Fixpoint pair_up (l : list F) : list (F * F) :=
    match l with x :: y :: r => (x, y) :: pair_up r | _ => [] end.

  (* the paths of a simple element under the drawing matrix, whose state is threaded through:
     ElemCurve.paths 506-524, ElemRectangle.paths 639-646, ElemRectangleRounded.paths 767-774,
     ElemEllipse.paths 796-803.  dc.matrix is a Transform, so it is LINEAR. *)
  Definition leaf_paths (dc : dctx) (b : ebase F) (s : shape F) (m : transform F)
    : transform F * res (list (path F)) :=
    draw_space (e_xform b)
      (fun m' =>
         (m',
          match s with
          | SCurve cps =>
              let segments := if show_cps dc then 10%Z else points_per_curve dc in
              let* cps := mapM (cp_transform (t_transform m') true) cps in
              Ok [Path (e_pb b) (e_closed b) (pair_up (curve_points cps (e_closed b) segments))]
          | SRect p1 p2 =>
              let* pts := t_transform_pts m' (corners p1 p2) in
              match pts with
              | [] => Raise IndexError
              | p :: _ => Ok [Path (e_pb b) (e_closed b) (map p_xy (pts ++ [p]))]
              end
          | SRRect p1 p2 r =>
              let* cps := make_rounded_rect_cps p1 p2 r in
              Ok [Path (e_pb b) (e_closed b) (pair_up (bez_path (t_transform m') cps true 20))]
          | SEllipse p1 p2 =>
              let* cps := make_ellipse_p1p2_cps p1 p2 in
              Ok [Path (e_pb b) (e_closed b) (pair_up (bez_path (t_transform m') cps true 20))]
          end)) m.

  (* ---------------- bounding boxes ---------------- *)

  (* model.py:472-477 ElemCurve.bbox_int; 570-572 ElemP1P2.bbox_int *)
  Definition shape_bbox_int (s : shape F) : res (bbox F) :=
    match s with
    | SCurve [] => Raise IndexError
    | SCurve (c :: cps) => Ok (fold_left (fun bb cp => bbox_add bb (cp_bbox cp)) cps (cp_bbox c))
    | SRect p1 p2 | SRRect p1 p2 _ | SEllipse p1 p2 => Ok (bbox_of_pts p1 p2)
    end.
  (* model.py:193-198 Elem.bbox, from bbox_int; the corners of BBox(None) raise *)
  Definition bbox_ext (x : transform F) (bb : bbox F) : res (bbox F) :=
    let* pll := bbox_pll bb in
    let* phh := bbox_phh bb in
    let b1 := bbox_of_pts (t_transform x pll) (t_transform x phh) in
    let* plh := bbox_plh bb in
    let* phl := bbox_phl bb in
    let b2 := bbox_of_pts (t_transform x plh) (t_transform x phl) in
    Ok (bbox_add b1 b2).
  Definition leaf_bbox (b : ebase F) (s : shape F) : res (bbox F) :=
    let* bb := shape_bbox_int s in bbox_ext (e_xform b) bb.

  (* model.py:574-577 ElemP1P2.bbox_int_update: bbox.p1 and p2 are the corners pll and phh
     (p1 of BBox(None) raises before anything changes); 479-481 ElemCurve raises *)
  Definition shape_bbox_int_update (s : shape F) (bb : bbox F) : res (shape F) :=
    match s with
    | SCurve _ => Raise ValueError
    | SRect _ _ => let* q1 := bbox_pll bb in let* q2 := bbox_phh bb in Ok (SRect q1 q2)
    | SRRect _ _ r => let* q1 := bbox_pll bb in let* q2 := bbox_phh bb in Ok (SRRect q1 q2 r)
    | SEllipse _ _ => let* q1 := bbox_pll bb in let* q2 := bbox_phh bb in Ok (SEllipse q1 q2)
    end.

  (* ---------------- transforming ---------------- *)

  (* model.py:400-406 ElemCurve.transform, on the state of the matrix passed in *)
  Definition curve_transform (b : ebase F) (cps : list (cpoint F)) (m : transform F)
    : transform F * res (elem F) :=
    with_push (fun m => m)
      (fun m' =>
         let m' := t_compose (tmat (e_xform b)) m' in
         (m',
          let* cps := mapM (cp_transform (t_transform m') true) cps in
          let* b := mk_base (e_name b) (e_pb b) (e_closed b) None in
          Ok (ELeaf b (SCurve cps)))) m.

  (* model.py:591-596 ElemP1P2.transform_pts: the residual transform and the points *)
  Definition transform_pts (b : ebase F) (pts : list (pt F)) (m : transform F)
    : transform F * res (transform F * list (pt F)) :=
    with_push (t_compose (tmat (e_xform b)))
      (fun xform =>
         let (xlate, rotate) := t_simplify xform in
         (xform,
          let* pts := mapM (fun p => snd (t_untransform rotate (t_transform xform p))) pts in
          Ok (rotate, pts))) m.

  (* model.py:598-601 ElemP1P2.transform, 758-762 ElemRectangleRounded.transform;
     the constructor is called with its default closed=True *)
  Definition leaf_transform (b : ebase F) (s : shape F) (m : transform F)
    : transform F * res (elem F) :=
    match s with
    | SCurve cps => curve_transform b cps m
    | SRect p1 p2 =>
        let (m', r) := transform_pts b [p1; p2] m in
        (m', let* rp := r in
             match rp with
             | (rotate, [q1; q2]) =>
                 let* b := mk_base (e_name b) (e_pb b) true (Some rotate) in Ok (ELeaf b (SRect q1 q2))
             | _ => Raise ValueError
             end)
    | SEllipse p1 p2 =>
        let (m', r) := transform_pts b [p1; p2] m in
        (m', let* rp := r in
             match rp with
             | (rotate, [q1; q2]) =>
                 let* b := mk_base (e_name b) (e_pb b) true (Some rotate) in Ok (ELeaf b (SEllipse q1 q2))
             | _ => Raise ValueError
             end)
    | SRRect p1 p2 radius =>
        let (m', r) := transform_pts b [p1; p2; p_add p1 (V radius (#0))] m in
        (m', let* rp := r in
             match rp with
             | (rotate, [q1; q2; q1r]) =>
                 let* b := mk_base (e_name b) (e_pb b) true (Some rotate) in
                 Ok (ELeaf b (SRRect q1 q2 (v_length (p_sub q1r q1))))
             | _ => Raise ValueError
             end)
    end.

  (* model.py:354-356 Elem.as_curves for a simple element *)
  Definition leaf_as_curves (b : ebase F) (s : shape F) : res (list (elem F)) :=
    let* cps := shape_cps s in
    let* cps := mapM (cp_transform (t_transform (e_xform b)) true) cps in
    let* b := mk_base (e_name b) (e_pb b) (e_closed b) (Some t_new) in
    Ok [ELeaf b (SCurve cps)].
End LeafTrig.

(* ------------------------------------------------------------------ *)
(** * Editing curves *)

Section Edit.
  Context {F : Type} {NF : Num F} {RF : NumRoot F}.
  Local Open Scope num_scope.

  (* sorted() on (length, index): last entry, i.e. the largest length and among those the
     largest index; [best] is the last entry so far *)
  Fixpoint longest (l : list F) (idx : nat) (best : F * nat) : F * nat :=
    match l with
    | [] => best
    | d :: l' => longest l' (S idx) (if d <? fst best then best else (d, idx))
    end.

  (* model.py:487-504 add_one on the list of control points (distinct objects).  dists[-1] on an
     empty list is an IndexError.  bezier.py:69-74 restore copies all four fields. *)
  Definition add_one (cps : list (cpoint F)) : res (list (cpoint F)) :=
    match map (fun ab => v_length (p_sub (cc (fst ab)) (cc (snd ab)))) (iter_rotate2 cps) with
    | [] => Raise IndexError
    | d :: dists =>
        let left := (snd (longest dists 1 (d, 0%nat)) mod List.length cps)%nat in
        let right := ((left + 1) mod List.length cps)%nat in
        match nth_error cps left, nth_error cps right with
        | Some cl, Some cr =>
            let '(l, m, r) := bez_split_half cl cr in
            let cps := set_nth left (cp_copy l) cps in
            let cps := set_nth right (cp_copy r) cps in
            Ok (firstn right cps ++ m :: skipn right cps)
        | _, _ => Raise IndexError       (* not reached *)
        end
    end.

  (* the class attribute OFFSET_PT_LIMIT, model.py:361 *)
  Definition offset_pt_limit : F := #100.

  (* model.py:415-439 offset_pt *)
  Definition offset_pt (dl : vec F) (p : pt F) (dr : vec F) (offset : F) : res (pt F) :=
    if v_eqb dl (V (#0) (#0)) || v_eqb dr (V (#0) (#0)) then Ok p
    else
      let* dl := v_unit dl in
      let* dr := v_unit dr in
      if nabs (v_cross dl dr) <? #1 / nofZ (10 ^ 10)%Z then Ok (p_add p (v_mul (v_normal dl) offset))
      else
        let* v := v_unit (v_add dr dl) in
        let sin_theta := v_cross v dl in
        let* scale := pydiv offset sin_theta in
        let scale := if ngtb (nabs scale) offset_pt_limit then offset_pt_limit else scale in
        Ok (p_add p (v_mul v scale)).

  (* model.py:456-465 one control point of the offset curve *)
  Definition offset_cp (offset : F) (lmr : cpoint F * cpoint F * cpoint F) : res (cpoint F) :=
    let '(cl, cm, cr) := lmr in
    let a := cp_r cl in let b := cp_l cm in let c := cc cm in
    let d := cp_r cm in let e := cp_l cr in
    let* bo := offset_pt (p_sub a b) b (p_sub c b) offset in
    let* co := offset_pt (cdl cm) c (cdr cm) offset in
    let* do_ := offset_pt (p_sub c d) d (p_sub e d) offset in
    Ok (CP co (p_sub bo co) (p_sub do_ co) (ckind cm)).

  (* model.py:441-465 offset; [transformed] is the control point list of
     self.transform(Transform()) *)
  Definition offset_cps (transformed : list (cpoint F)) (offset : F) : res (list (cpoint F)) :=
    let points := flat_map (fun cp => [cp_l cp; cc cp; cp_r cp]) transformed in
    let x_cps := if polygon_area points <? #0 then reverse_list transformed else transformed in
    mapM (offset_cp offset) (iter_rotate3m1 x_cps).
End Edit.

Section Offset.
  Context {F : Type} {NF : Num F} {RF : NumRoot F} {TF : NumTrig F}.
  (* model.py:441-470 ElemCurve.offset *)
  Definition curve_offset (b : ebase F) (cps : list (cpoint F)) (offset : F) : res (elem F) :=
    let* e := snd (curve_transform b cps t_new) in
    match e with
    | ELeaf b' (SCurve cps') =>
        let* cps := offset_cps cps' offset in
        let* b := mk_base (e_name b ++ "_o")%string (e_pb b) (e_closed b) None in
        Ok (ELeaf b (SCurve cps))
    | _ => Raise TypeError               (* not reached *)
    end.
End Offset.
