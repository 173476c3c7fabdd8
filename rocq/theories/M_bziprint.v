(* Model of the texts of the self-intersection graph: BziNode.__str__, BziEdge.__repr__,
   BziGraph.print and what BziGraph.validate prints (/repo/x7/geom/bezier.py).
   [show] is str(x) of a number, [show2] is str(round(x, 2)).  The arrays of control points and the
   plots that debug=True shows as well, and what it prints of the walk (bezier.py:252-253, 343-345,
   373-418, 455-525), are left out. *)
Require Import Verif.Base Verif.M_vector Verif.M_bbox Verif.M_transform Verif.M_bezier Verif.M_colors
  Verif.M_elems Verif.M_group Verif.M_dump Verif.M_display Verif.M_selfix.
From Coq Require Import String.
Set Implicit Arguments.
Local Open Scope list_scope.
Local Open Scope string_scope.

Section BziPrint.
  Context {F : Type} {NF : Num F} {RF : NumRoot F}.
  Variables show show2 : F -> string.

  (* bezier.py:216-218 BziNode.center; nodes are numbers here and every number stands for a node,
     so the default is never used *)
  Definition center (nodes : list (F * F)) (n : nat) : pt F :=
    let xy := nth n nodes (nofZ 0, nofZ 0) in P (fst xy) (snd xy).
  (* bezier.py:213-214 *)
  Definition str_node (nodes : list (F * F)) (edges : list (edge F)) (n : nat) : string :=
    "Node@" ++ str_pt2 show2 (center nodes n) ++ ", " ++ decimal (List.length (node_edges edges n)) ++ " edges".
  (* bezier.py:293: the name given to the edge number i *)
  Definition edge_name (i : nat) : string := "e" ++ decimal i.
  (* bezier.py:255-261; None has no name *)
  Definition repr_edge (nodes : list (F * F)) (i : nat) (e : edge F) : res string :=
    match ed_ll e, ed_rr e with
    | Some ll, Some rr =>
        Ok ("Edge " ++ edge_name i ++ " " ++ (if ed_removed e then "-" else "+") ++ ": ll=" ++ edge_name ll
            ++ " l=" ++ str_pt2 show2 (center nodes (ed_left e)) ++ " cps=" ++ decimal (List.length (ed_cps e))
            ++ " r=" ++ str_pt2 show2 (center nodes (ed_right e)) ++ " rr=" ++ edge_name rr)
    | _, _ => Raise AttributeError
    end.

  (* what is printed until something is raised, and what is raised *)
  Fixpoint print_all (l : list (res string)) : list string * option exn :=
    match l with
    | [] => ([], None)
    | Raise e :: _ => ([], Some e)
    | Ok s :: l => let (out, o) := print_all l in (s :: out, o)
    end.
  (* bezier.py:323-328; print puts a space between its arguments *)
  Definition graph_print (nodes : list (F * F)) (edges : list (edge F)) : list string * option exn :=
    print_all
      (Ok ("Graph: " ++ decimal (List.length nodes) ++ " nodes, " ++ decimal (List.length edges) ++ " edges")%string
       :: map (fun k => Ok ("   Node@" ++ str_pt show (center nodes k) ++ ": " ++ str_node nodes edges k)%string)
              (seq 0 (List.length nodes))
       ++ map (fun ie => let* s := repr_edge nodes (fst ie) (snd ie) in Ok ("   " ++ s)%string)
              (combine (seq 0 (List.length edges)) edges))%list.

  (* bezier.py:302-321: the lines validate() prints.  The test of line 309 looks for an edge of
     node.edges in node.edges, so it never complains. *)
  Definition validate_lines (nodes : list (F * F)) (edges : list (edge F)) : list string :=
    let complaints :=
      (flat_map
        (fun n => let count := List.length (node_edges edges n) in
                  if negb (Nat.even count) || (count <? 4)%nat
                  then [("Invalid: node@" ++ str_pt show (center nodes n) ++ ": edge count=" ++ decimal count)%string] else [])
        (seq 0 (List.length nodes))
      ++ flat_map
           (fun e => match ed_ll e with None => ["Invalid: edge: missing left_left"] | _ => [] end
                     ++ match ed_rr e with None => ["Invalid: edge: missing right_right"] | _ => [] end) edges)%list in
    match complaints with [] => ["BziGraph: apparently valid"] | _ => complaints end.

  Variable solve : cpoint F -> cpoint F -> cpoint F -> cpoint F -> list (pt F * F * F).
  (* bezier.py:348-444: what graph.print() prints when debug=True and then validate(); None when
     the call ends before *)
  Definition self_ix_debug (orig : list (cpoint F)) : option (list string * option exn * list string) :=
    let segs := all_curves solve orig in
    let ans := answers solve segs in
    if negb (found ans) then None
    else
      let '(cpbs, r) := merge_all [] [] (map (fun ks => (snd ks, ixs_of ans (fst ks))) (combine (seq 0 (List.length segs)) segs)) in
      match (let* nodes := r in
             let* cpbs := rotate_first (close_up cpbs) in
             let* edges := build_graph cpbs in
             Ok (graph_print nodes edges, validate_lines nodes edges)) with
      | Ok r => Some r
      | Raise _ => None
      end.
End BziPrint.
