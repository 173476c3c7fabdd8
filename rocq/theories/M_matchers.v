(* Model of the test helpers in /repo/x7/geom/testing.py: all_subclasses, the extended matchers and
   the context manager of assertMatchPlot.
   x7.testing (almostEqualFloat, match) and matplotlib are parameters. *)
Require Import Verif.Base Verif.M_vector Verif.M_bbox Verif.M_transform Verif.M_bezier.
From Coq Require Import String.
Set Implicit Arguments.
Local Open Scope string_scope.
Local Open Scope list_scope.

(* testing.py:18-20: classes are numbers, [subs c] is c.__subclasses__().  The bound [fuel] is the
   depth of the class tree (P_matchers.v says what is enough). *)
Section Classes.
  Variable subs : nat -> list nat.
  Fixpoint all_subclasses (fuel c : nat) : list nat :=
    match fuel with
    | O => []
    | S fuel' => subs c ++ flat_map (all_subclasses fuel') (subs c)
    end.
End Classes.

Section Matchers.
  Context {F : Type} {NF : Num F} {RF : NumRoot F}.
  (* TestCase.almostEqualFloat(first, second, places, delta): True (None) or a message *)
  Variable almost : F -> F -> option Z -> option F -> option string.

  (* ', '.join of at most two messages *)
  Definition join2 (l : list string) : string :=
    match l with [] => "" | [a] => a | a :: b :: _ => (a ++ ", " ++ b)%string end.
  (* testing.py:119-127 ExtendedMatcherGeomXY.almost_equal; the coordinates of the two objects *)
  Definition geomxy_almost (first second : F * F) (places : option Z) (delta : option F) : option string :=
    let almost_x := almost (fst first) (fst second) None None in
    let almost_y := almost (snd first) (snd second) None None in
    let msg := match almost_x with Some m => [("x: " ++ m)%string] | None => [] end
               ++ match almost_y with Some m => [("y: " ++ m)%string] | None => [] end in
    match msg with [] => None | _ => Some (join2 msg) end.
  (* testing.py:129-131 explain_mismatch for points *)
  Definition point_explain (new_data old_data : pt F) : bool * option string :=
    (p_close close_delta new_data old_data, None).

  (* the attributes of a control point: c, dl, dr and kind *)
  Inductive attr := AtPt (p : pt F) | AtVec (v : vec F) | AtStr (s : string).
  (* n.close(o); a str has no method close *)
  Definition attr_close (n o : attr) : res bool :=
    match n, o with
    | AtPt p, AtPt q => Ok (p_close close_delta p q)
    | AtVec v, AtVec w => Ok (v_close close_delta v w)
    | AtStr _, _ => Raise AttributeError
    | _, _ => Raise TypeError
    end.
  (* all(...) stops at the first false *)
  Fixpoint all_close (l : list (attr * attr)) : res bool :=
    match l with
    | [] => Ok true
    | (n, o) :: l' => let* b := attr_close n o in if b then all_close l' else Ok false
    end.
  Definition cp_attrs (c : cpoint F) : list attr := [AtPt (cc c); AtVec (cdl c); AtVec (cdr c); AtStr (ckind c)].
  (* testing.py:104-109 ExtendedMatcherControlPoint.explain_mismatch *)
  Definition cp_explain (new_data old_data : cpoint F) : res (bool * option string) :=
    let* b := all_close (combine (cp_attrs new_data) (cp_attrs old_data)) in
    Ok (b, None).
End Matchers.

(* ------------------------------------------------------------------ *)
(** * assertMatchPlot *)

(* the two settings of matplotlib that are touched, and how many figures are open *)
Record plt := Plt { titley : option Z; titlepad : Z; figures : nat }.
(* what test_case.match answers *)
Inductive answer := ATrue | AExn (e : exn) | AMsg (m : string).
(* what comes out of the with statement: nothing, an exception of the body, an exception that match
   gave, a test failure, or an exception while the picture was taken *)
Inductive outcome := ODone | OBody (e : exn) | OMatchExn (e : exn) | OFailed (m : string) | OPicture (e : exn).
Section Plot.
  Variables Im : Type.
  (* fig_to_image of the current figure *)
  Variable picture : plt -> res Im.
  Variable matches : Im -> answer.
  (* the body of the with statement: what it plots, and whether it raises *)
  Variable body : plt -> plt * res unit.

  (* testing.py:172-177 __enter__ *)
  Definition plot_enter (s : plt) : plt := Plt (Some 1%Z) (-20)%Z (figures s).
  (* testing.py:179-189 __exit__, with the saved settings *)
  Definition plot_exit (saved_y : option Z) (saved_pad : Z) (s : plt) (r : res unit) : plt * outcome :=
    match picture s with
    | Raise e => (s, OPicture e)
    | Ok im =>
        let s := Plt saved_y saved_pad (figures s) in
        let a := matches im in
        let s := Plt (titley s) (titlepad s) (pred (figures s)) in
        (s, match a with
            | AExn e => OMatchExn e
            | AMsg m => OFailed m
            | ATrue => match r with Ok _ => ODone | Raise e => OBody e end
            end)
    end.
  (* with self.assertMatchPlot(...): body *)
  Definition match_plot (s : plt) : plt * outcome :=
    let (s', r) := body (plot_enter s) in plot_exit (titley s) (titlepad s) s' r.
End Plot.
