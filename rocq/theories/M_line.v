(* Model of class Line: /repo/x7/geom/geom.py 811-904. *)
Require Import Verif.Base Verif.M_vector Verif.M_bbox.
Set Implicit Arguments.

(* geom.py:815-822 *)
Record line (F : Type) := Ln { lo : pt F; ld : vec F }.
Arguments Ln {F}. Arguments lo {F}. Arguments ld {F}.

Section Line.
  Context {F : Type} {NF : Num F} {RF : NumRoot F}.
  Local Open Scope num_scope.

  (* geom.py:817-822 Line(origin, point) and 853-855 from_pts *)
  Definition line_pts (a b : pt F) : line F := Ln a (p_sub b a).
  (* geom.py:830-833 __eq__ *)
  Definition line_eqb (a b : line F) : bool := p_eqb (lo a) (lo b) && v_eqb (ld a) (ld b).
  (* geom.py:835-845 p1, p2, midpoint; 0.5 is exact *)
  Definition line_p1 (l : line F) : pt F := lo l.
  Definition line_p2 (l : line F) : pt F := p_add (lo l) (ld l).
  Definition line_mid (l : line F) : pt F := p_add (lo l) (v_mul (ld l) (#1 / #2)).
  (* geom.py:847-851 line + vector, line - vector *)
  Definition line_add (l : line F) (v : vec F) : line F := Ln (p_add (lo l) v) (ld l).
  Definition line_sub (l : line F) (v : vec F) : line F := Ln (p_subv (lo l) v) (ld l).

  (* geom.py:857-863 closest *)
  Definition closest (l : line F) (p : pt F) : res (pt F) :=
    let to_point := p_sub p (lo l) in
    let* d_unit := v_unit (ld l) in
    let dot := v_dot to_point d_unit in
    Ok (p_add (lo l) (v_mul d_unit dot)).

  (* geom.py:878-879 parallel *)
  Definition parallel (a b : line F) : bool := v_cross (ld a) (ld b) =? #0.

  (* geom.py:865-873 intersection *)
  Definition intersection (a b : line F) : res (pt F) :=
    if v_cross (ld a) (ld b) =? #0 then Raise ParallelLineError
    else
      let normal := v_normal (ld a) in
      let* t_other := pydiv (v_dot normal (p_sub (lo a) (lo b))) (v_dot normal (ld b)) in
      Ok (p_add (lo b) (v_mul (ld b) t_other)).

  (* geom.py:875-876 segment_bbox *)
  Definition segment_bbox (l : line F) : bbox F :=
    let e := line_p2 l in mkbbox (px (lo l)) (py (lo l)) (px e) (py e).

  (* the literal 1e-7 of the assertion at geom.py:903 *)
  Definition assert_delta : F := #1 / nofZ (10 ^ 7)%Z.

  (* geom.py:881-904 segment_intersection *)
  Definition segment_intersection (s o : line F) : res (option (pt F * F * F)) :=
    let* ov := bbox_overlaps (segment_bbox s) (segment_bbox o) in
    if negb ov then Ok None
    else if parallel s o then Raise ParallelLineError
    else
      let self_normal := v_normal (ld s) in
      let* t_other := pydiv (v_dot self_normal (p_sub (lo s) (lo o))) (v_dot self_normal (ld o)) in
      if (t_other <? #0) || ngtb t_other (#1) then Ok None
      else
        let other_normal := v_normal (ld o) in
        let* t_self := pydiv (v_dot other_normal (p_sub (lo o) (lo s))) (v_dot other_normal (ld s)) in
        if (t_self <? #0) || ngtb t_self (#1) then Ok None
        else
          let p_other := p_add (lo o) (v_mul (ld o) t_other) in
          let p_self := p_add (lo s) (v_mul (ld s) t_self) in
          if v_length (p_sub p_self p_other) <? assert_delta
          then Ok (Some (p_add (lo o) (v_mul (ld o) t_other), t_self, t_other))
          else Raise AssertionError.
End Line.
