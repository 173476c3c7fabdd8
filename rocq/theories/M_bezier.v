(* Model of ControlPoint, bez_split, bez and bez_path: /repo/x7/geom/bezier.py.
   The centre is a plain Point and the handles are plain Vectors (the relative kinds are
   modelled in M_points.v; every method below uses only their coordinates).
   bez_self_intersect is in M_selfix.v. *)
Require Import Verif.Base Verif.M_vector Verif.M_bbox Verif.M_transform.
From Coq Require Import String.
Set Implicit Arguments.

(* bezier.py:20-27: c, dl, dr, kind.  kind is any string. *)
Record cpoint (F : Type) := CP { cc : pt F; cdl : vec F; cdr : vec F; ckind : string }.
Arguments CP {F}. Arguments cc {F}. Arguments cdl {F}. Arguments cdr {F}. Arguments ckind {F}.

Local Open Scope string_scope.
Local Open Scope list_scope.

Section Bezier.
  Context {F : Type} {NF : Num F}.
  Local Open Scope num_scope.

  (* bezier.py:35-37 __eq__, both operands ControlPoints of plain parts *)
  Definition cp_eqb (s o : cpoint F) : bool :=
    p_eqb (cc s) (cc o) && v_eqb (cdl s) (cdl o) && v_eqb (cdr s) (cdr o)
    && (ckind s =? ckind o)%string.
  (* bezier.py:46-48 reversed *)
  Definition cp_reversed (s : cpoint F) : cpoint F := CP (cc s) (cdr s) (cdl s) (ckind s).
  (* bezier.py:50-53 reverse_list *)
  Definition reverse_list (cps : list (cpoint F)) : list (cpoint F) := map cp_reversed (rev cps).
  (* bezier.py:55-61 fixed and copy: for plain parts both rebuild the same values *)
  Definition cp_copy (s : cpoint F) : cpoint F :=
    CP (P (px (cc s)) (py (cc s))) (v_copy (cdl s)) (v_copy (cdr s)) (ckind s).
  (* bezier.py:100-108 the properties l and r *)
  Definition cp_l (s : cpoint F) : pt F := p_add (cc s) (cdl s).
  Definition cp_r (s : cpoint F) : pt F := p_add (cc s) (cdr s).
  (* bezier.py:63-67 bbox *)
  Definition cp_bbox (s : cpoint F) : bbox F :=
    bbox_grow (bbox_of_pts (cp_l s) (cp_r s)) (cc s).

  (* bezier.py:632-652 bez_split *)
  Definition bmid (t : F) (p q : pt F) : pt F := p_add p (v_mul (p_sub q p) t).
  Definition bez_split (cp1 cp2 : cpoint F) (t : F) : cpoint F * cpoint F * cpoint F :=
    let a := cc cp1 in let b := cp_r cp1 in let c := cp_l cp2 in let d := cc cp2 in
    let ab := bmid t a b in
    let bc := bmid t b c in
    let cd := bmid t c d in
    let abc := bmid t ab bc in
    let bcd := bmid t bc cd in
    let abcd := bmid t abc bcd in
    (CP a (cdl cp1) (p_sub ab a) "smooth",
     CP abcd (p_sub abc abcd) (p_sub bcd abcd) "smooth",
     CP d (p_sub cd d) (cdr cp2) "smooth").
  (* the default t=0.5 *)
  Definition bez_split_half (cp1 cp2 : cpoint F) : cpoint F * cpoint F * cpoint F :=
    bez_split cp1 cp2 (#1 / #2).

  (* bezier.py:663-674: one sample, in the order the code multiplies *)
  Definition bez_at (a b c d : pt F) (t : F) : F * F :=
    let t2 := t * t in
    let t3 := t * t2 in
    let s := #1 - t in
    let s2 := s * s in
    let s3 := s * s2 in
    let s2t := s2 * t in
    let st2 := s * t2 in
    (s3 * px a + #3 * s2t * px b + #3 * st2 * px c + t3 * px d,
     s3 * py a + #3 * s2t * py b + #3 * st2 * py c + t3 * py d).
  (* bezier.py:655-680 bez on four points, as_xy=True; range(1, steps) is empty for steps <= 1 *)
  Definition bez_xy (a b c d : pt F) (steps : Z) : list (F * F) :=
    (px a, py a)
    :: map (fun ti => bez_at a b c d (nofZ (Z.of_nat ti) / nofZ steps)) (seq 1 (Z.to_nat (steps - 1)))
    ++ [(px d, py d)].
  (* bezier.py:676-678 as_xy=False *)
  Definition bez (a b c d : pt F) (steps : Z) : list F := xy_flatten (bez_xy a b c d steps).

  (* bezier.py:683-701 bez_path; [f] is transform.transform_pt *)
  Definition bez_path (f : pt F -> pt F) (cps : list (cpoint F)) (closed : bool) (steps : Z) : list F :=
    match cps with
    | [] => []
    | _ =>
        let extra := if closed then cps else [] in
        fold_left
          (fun pts pq =>
             let '(p, q) := pq in
             let bez_pts := bez (f (cc p)) (f (cp_r p)) (f (cp_l q)) (f (cc q)) steps in
             match pts with
             | [] => pts ++ bez_pts
             | _ => pts ++ skipn 2 bez_pts
             end)
          (combine cps (tl cps ++ extra)) []
    end.
End Bezier.

Section BezierRoot.
  Context {F : Type} {NF : Num F} {RF : NumRoot F}.
  Local Open Scope num_scope.
  (* bezier.py:39-44 close *)
  Definition cp_close (max_delta : F) (s o : cpoint F) : bool :=
    (ckind s =? ckind o)%string && p_close max_delta (cc s) (cc o)
    && v_close max_delta (cdl s) (cdl o) && v_close max_delta (cdr s) (cdr o).

  (* bezier.py:76-93 transform; [f] is matrix.transform_pt, [linear] is matrix.LINEAR *)
  Definition cp_transform (f : pt F -> pt F) (linear : bool) (s : cpoint F) : res (cpoint F) :=
    let t_c := f (cc s) in
    let t_l := f (cp_l s) in
    let t_r := f (cp_r s) in
    let dl := p_sub t_l t_c in
    let dr := p_sub t_r t_c in
    if linear then Ok (CP t_c dl dr (ckind s))
    else if (ckind s =? "very-smooth")%string then
      let* dr := v_div (v_sub dr dl) (#2) in
      Ok (CP t_c (v_neg dr) dr (ckind s))
    else if (ckind s =? "smooth")%string then
      if v_bool dl || v_bool dr then
        let* direction := v_unit (v_sub dr dl) in
        Ok (CP t_c (v_mul direction (- v_length dl)) (v_mul direction (v_length dr)) (ckind s))
      else Ok (CP t_c dl dr (ckind s))
    else Ok (CP t_c dl dr (ckind s)).
End BezierRoot.
