(* Model of plot() in /repo/x7/geom/plot_utils.py, of PlotViewer in /repo/x7/geom/plot_viewer.py, and
   of the two animated examples that use them (plot_viewer.py, utils.py).  matplotlib and tkinter
   are external: a picture is the list of the calls of plot() on the axes, tkinter's timers are a
   list of delays, taken from the front. *)
Require Import Verif.Base Verif.M_vector Verif.M_utils Verif.M_elems Verif.M_draw.
From Coq Require Import ZArith String List.
Import ListNotations.
Local Open Scope string_scope.
Local Open Scope list_scope.
Set Implicit Arguments.

(* one call axes.plot(coords..., color, label=..., linestyle=..., linewidth=..., solid_capstyle=...);
   [k_style] is the format string when there is one *)
Record pcall (F : Type) := PCall
  { k_coords : list (list F); k_style : option string; k_label : option string;
    k_linestyle : option string; k_linewidth : option F; k_capstyle : option string }.
Arguments PCall {F}.

(* what may be in a list of points: a point, whose iterator gives x and y (geom.py:344-345), or a
   tuple of numbers; LOther stands for anything that is no BasePoint and cannot be iterated *)
Inductive listed (F : Type) := LPoint (p : pt F) | LTuple (l : list F) | LOther.
Arguments LPoint {F}. Arguments LTuple {F}. Arguments LOther {F}.

Section Plot.
  Context {F : Type} {NF : Num F} {RF : NumRoot F} {TF : NumTrig F} {FF : NumFloor F}.
  Local Open Scope num_scope.

  (* utils.py:15-19 check_point_list *)
  Fixpoint check_point_list (l : list (listed F)) : res unit :=
    match l with
    | [] => Ok tt
    | LPoint _ :: l' => check_point_list l'
    | _ :: _ => Raise ValueError
    end.

  Definition row (i : listed F) : res (list F) :=
    match i with LPoint p => Ok [px p; py p] | LTuple l => Ok l | LOther => Raise TypeError end.
  (* zip( *rows ): as many tuples as the shortest row has numbers *)
  Definition zip_rows (rows : list (list F)) : list (list F) :=
    match rows with
    | [] => []
    | r :: rs =>
        map (fun k => map (fun r => nth k r (#0)) rows)
          (seq 0 (fold_left (fun n r => Nat.min n (List.length r)) rs (List.length r)))
    end.
  (* plot_utils.py:11-22 plot, on a given plotter *)
  Definition plot (xy : list (listed F)) (color : string) (label linestyle : option string) (linewidth : option F) : res (pcall F) :=
    let* rows := mapM row xy in
    Ok (PCall (zip_rows rows) (Some color) label linestyle linewidth
          (match linewidth with
           | Some w => if negb (w =? #0) && ngtb w (#1) then Some "round" else None
           | None => None
           end)).

  (* ---------------- PlotViewer ---------------- *)

  Variable St : Type.
  (* what update_func does to its state, the calls it makes on the axes, and how it ends *)
  Definition updater : Type := St -> St * (list (pcall F) * res unit).
  (* [axes]: what is on the axes; [pictures]: all that canvas.draw() has drawn; [timers]: pending
     calls of do_update *)
  Record viewer := Viewer { axes : list (pcall F); pictures : list (list (pcall F)); timers : list Z; vstate : St }.

  (* plot_viewer.py:35-39 do_update *)
  Definition do_update (u : updater) (delay : Z) (v : viewer) : viewer * res unit :=
    let '(s, (calls, r)) := u (vstate v) in
    match r with
    | Raise e => (Viewer calls (pictures v) (timers v) s, Raise e)
    | Ok _ => (Viewer calls (pictures v ++ [calls]) (timers v ++ [delay]) s, Ok tt)
    end.
  (* plot_viewer.py:18 round(1000/fps) *)
  Definition delay_ms (fps : F) : res Z := let* q := pydiv (#1000) fps in Ok (pyround q).
  (* plot_viewer.py:16-30 PlotViewer(update_func, fps); [None] is a false update_func.  Its stand-in
     update_example takes no arguments, and is called with one *)
  Definition plot_viewer (u : option updater) (fps : F) (s : St) : res (Z * (viewer * res unit)) :=
    let* delay := delay_ms fps in
    let u' := match u with Some u => u | None => fun s => (s, ([], Raise TypeError)) end in
    Ok (delay, do_update u' delay (Viewer [] [] [] s)).
  (* one timer of the main loop (plot_viewer.py:32-33, 39); tkinter prints an exception of the callback and
     goes on *)
  Definition tick (u : updater) (delay : Z) (v : viewer) : viewer :=
    match timers v with
    | [] => v
    | _ :: ts => fst (do_update u delay (Viewer (axes v) (pictures v) ts (vstate v)))
    end.
  Fixpoint ticks (u : updater) (delay : Z) (n : nat) (v : viewer) : viewer :=
    match n with O => v | S n' => ticks u delay n' (tick u delay v) end.
End Plot.
Arguments Viewer {F St}.

Section Examples.
  Context {F : Type} {NF : Num F} {RF : NumRoot F} {TF : NumTrig F} {FF : NumFloor F}.
  Local Open Scope num_scope.

  (* a function that only makes calls, as an updater; the calls made before a failure are left out *)
  Definition shows {St} (s : St) (r : res (list (pcall F))) : St * (list (pcall F) * res unit) :=
    match r with Ok l => (s, (l, Ok tt)) | Raise e => (s, ([], Raise e)) end.

  (* plot_viewer.py:45-49 moving_sine; the state is offset[0]; ax.plot without a style *)
  Definition moving_sine : updater (F := F) F := fun off =>
    shows (off + #1 / #10)
      (let* ts := t_range 40 (#0) (#2 * npi) in
       Ok [PCall (zip_rows (map (fun t => [t; nsin (t + off)]) ts)) None None None None None]).

  (* utils.py:151-154: the next angle *)
  Definition next_angle (a : Z) : Z := let r := ((a + 3) mod 360)%Z in if (r =? 0)%Z then (r + 3)%Z else r.
  Definition tuples (l : list (F * F)) : list (listed F) := map (fun xy => LTuple [fst xy; snd xy]) l.
  (* utils.py:161-176: one turn of the loop over sides *)
  Definition arc_side (angle : Z) (side : F) (color : string) (offset : F) : res (list (pcall F)) :=
    let yv := v_rotate (V (#0) (- #1)) (#0) in
    let ov := V offset offset in
    let p1 := p_add (v_p yv) ov in
    let p2 := p_add (v_p (v_rotate yv (nofZ angle))) ov in
    let r := #1 + #1 / #100000000 in
    let* a1 := arc2p r p1 p2 (-1) side in
    let* a2 := arc2p r p1 p2 (-1) (- side) in
    let* c1 := plot (tuples a1) "lightblue" None None None in
    let* c2 := plot (tuples a2) color None None None in
    let* c3 := plot [LPoint p1; LPoint p2] color None (Some ":") None in
    let mid := p_mid p1 p2 in
    let* u := v_unit (p_sub p2 p1) in
    let* c4 := plot [LPoint mid; LPoint (p_add mid (v_normal u))] "cyan" None None None in
    Ok [c1; c2; c3; c4].
  (* utils.py:144-178 arc_animate: arc_fun; the state is rotate[0], 3 at first.  Every use of it is a
     use of the angle before the step *)
  Definition arc_fun : updater (F := F) Z := fun angle =>
    shows (next_angle angle)
      (let* k1 := circle (#1 / #10) (P (- #4) (#4)) in
       let* c1 := plot (tuples k1) "lightgrey" None None None in
       let* k2 := circle (#1 / #10) (P (#4) (- #4)) in
       let* c2 := plot (tuples k2) "lightgrey" None None None in
       let* s1 := arc_side angle (#1) "blue" (- #1) in
       let* s2 := arc_side angle (- #1) "red" (#1) in
       Ok (c1 :: c2 :: s1 ++ s2)).
End Examples.
