(* Model of the self-intersection code: BziNode, BziEdge, BziGraph, CpBool, bez_self_intersect
   (/repo/x7/geom/bezier.py) and ElemCurve.self_intersect (/repo/x7/geom/model.py).
   The curve solver (bez_intersect_new, bezier.py:169-202, on top of the library bezier) is a
   parameter [solve]: any answer whatever.  Printing and plotting (debug) are left out. *)
Require Import Verif.Base Verif.M_vector Verif.M_bbox Verif.M_transform Verif.M_bezier Verif.M_colors
  Verif.M_elems Verif.M_group Verif.M_dump.
From Coq Require Import String.
Set Implicit Arguments.
Local Open Scope string_scope.
Local Open Scope list_scope.

(* bezier.py:331-334; the node by its number.  [cb_src] is the place in the caller's list when
   [cb_cp] is the caller's own object (a fresh object has None). *)
Record cpbool (F : Type) := CB { cb_cp : cpoint F; cb_node : option nat; cb_src : option nat }.
Arguments CB {F}.
(* an entry of all_curves, bezier.py:352-361: the two control points (and where they come from) *)
Record seg (F : Type) := Seg { sg_a : cpoint F; sg_b : cpoint F; sg_sa : option nat; sg_sb : option nat }.
Arguments Seg {F}.
(* bezier.py:236-250; nodes and edges by their numbers in the graph *)
Record edge (F : Type) := Edge {
  ed_ll : option nat; ed_left : nat; ed_cps : list (cpoint F); ed_right : nat; ed_rr : option nat; ed_removed : bool }.
Arguments Edge {F}.

Section SelfIx.
  Context {F : Type} {NF : Num F} {RF : NumRoot F}.
  Local Open Scope num_scope.
  Variable solve : cpoint F -> cpoint F -> cpoint F -> cpoint F -> list (pt F * F * F).

  (* ---------------- finding the intersections ---------------- *)

  (* bezier.py:353-361: segments that cross themselves are halved *)
  Definition all_curves (orig : list (cpoint F)) : list (seg F) :=
    flat_map
      (fun ab =>
         let '((i, cpa), (j, cpb)) := ab in
         let '(l, middle, r) := bez_split_half cpa cpb in
         match solve l middle middle r with
         | [] => [Seg cpa cpb (Some i) (Some j)]
         | _ => [Seg l middle None None; Seg middle r None None]
         end)
      (iter_rotate2 (combine (seq 0 (List.length orig)) orig)).
  (* itertools.combinations(l, 2) *)
  Fixpoint pairs {A} (l : list A) : list (A * A) :=
    match l with [] => [] | a :: l' => map (pair a) l' ++ pairs l' end.
  (* bezier.py:365-371: the answers for each pair of segments *)
  Definition answers (segs : list (seg F)) : list (nat * nat * list (pt F * F * F)) :=
    map (fun ab => let '((i, a), (j, b)) := ab in (i, j, solve (sg_a a) (sg_b a) (sg_a b) (sg_b b)))
      (pairs (combine (seq 0 (List.length segs)) segs)).
  Definition found (ans : list (nat * nat * list (pt F * F * F))) : bool :=
    existsb (fun a => match snd a with [] => false | _ => true end) ans.
  (* the list a[2] of the segment number k: what the loop appends to it, in order *)
  Definition ix := (F * (F * F))%type.
  Definition ixs_of (ans : list (nat * nat * list (pt F * F * F))) (k : nat) : list ix :=
    flat_map
      (fun a =>
         let '(i, j, l) := a in
         (if (i =? k)%nat then map (fun x => let '(p, ta, tb) := x in (ta, p_xy p)) l else [])
         ++ (if (j =? k)%nat then map (fun x => let '(p, ta, tb) := x in (tb, p_xy p)) l else []))
      ans.
  (* sorted(intersections): < on (t, (x, y)) *)
  Definition ix_ltb (a b : ix) : bool :=
    let '(t, (x, y)) := a in
    let '(t', (x', y')) := b in
    if t =? t' then if x =? x' then y <? y' else x <? x' else t <? t'.
  Definition sort_ixs (l : list ix) : list ix := sorted (fun a b => negb (ix_ltb b a)) l.

  (* ---------------- control points with their nodes ---------------- *)

  (* bezier.py:277-280 BziGraph.node(xy, create=True): nodes are numbered in order of creation *)
  Fixpoint index_of (xy : F * F) (nodes : list (F * F)) : option nat :=
    match nodes with
    | [] => None
    | n :: l => if (fst xy =? fst n) && (snd xy =? snd n) then Some 0%nat
                else match index_of xy l with Some k => Some (S k) | None => None end
    end.
  Definition node_of (xy : F * F) (nodes : list (F * F)) : list (F * F) * nat :=
    match index_of xy nodes with
    | Some k => (nodes, k)
    | None => (nodes ++ [xy], List.length nodes)
    end.

  (* the literal 1e-10 *)
  Definition split_delta : F := #1 / nofZ (10 ^ 10)%Z.
  (* bezier.py:383-400: one segment cut at its intersections: the loop and the two appends after
     it.  The center of a node is the key under which it was created.  [bez_split] makes fresh
     objects, so after a cut neither end is the caller's object. *)
  Fixpoint expand (nodes : list (F * F)) (t : F) (a b : cpoint F) (sa sb : option nat) (next_node : option nat)
      (ixs : list ix) : res (list (F * F) * list (cpbool F)) :=
    match ixs with
    | [] => Ok (nodes, [CB a next_node sa; CB b None sb])
    | (t_ix, xy) :: ixs' =>
        let (nodes, node_ix) := node_of xy nodes in
        let center := nth node_ix nodes xy in
        let* u := pydiv (t_ix - t) (#1 - t) in
        let '(l, m, r) := bez_split a b u in
        if split_delta <? v_length (p_sub (cc m) (P (fst center) (snd center))) then Raise ValueError
        else
          let* more := expand nodes t_ix m r None None (Some node_ix) ixs' in
          Ok (fst more, CB l next_node None :: snd more)
    end.

  (* assignments to .dr and .dl of a control point *)
  Definition set_dr (d : vec F) (c : cpoint F) : cpoint F := CP (cc c) (cdl c) d (ckind c).
  Definition set_dl (d : vec F) (c : cpoint F) : cpoint F := CP (cc c) d (cdr c) (ckind c).
  Definition set_kind (k : string) (c : cpoint F) : cpoint F := CP (cc c) (cdl c) (cdr c) k.
  Definition on_cp (f : cpoint F -> cpoint F) (c : cpbool F) : cpbool F := CB (f (cb_cp c)) (cb_node c) (cb_src c).

  (* bezier.py:375-409 the loop over all_curves.  Returns the list built so far even when it
     raises, because that list holds the caller's objects as changed so far.  (Value level: the
     caller's control points are taken to be distinct objects, so an assignment reaches one
     entry of the list only.) *)
  Fixpoint merge_all (nodes : list (F * F)) (cpbs : list (cpbool F)) (curves : list (seg F * list ix))
      : list (cpbool F) * res (list (F * F)) :=
    match curves with
    | [] => (cpbs, Ok nodes)
    | (s, ixs) :: curves' =>
        match expand nodes (#0) (sg_a s) (sg_b s) (sg_sa s) (sg_sb s) None (sort_ixs ixs) with
        | Raise e => (cpbs, Raise e)
        | Ok (nodes, local) =>
            match rev cpbs, local with
            | last :: _, first :: rest =>
                if negb (p_eqb (cc (cb_cp last)) (cc (cb_cp first))) then (cpbs, Raise AssertionError)
                else
                  merge_all nodes
                    (removelast cpbs ++ on_cp (set_dr (cdr (cb_cp first))) last :: rest) curves'
            | _, _ => merge_all nodes (cpbs ++ local) curves'
            end
        end
    end.
  (* bezier.py:410-412: close the list up *)
  Definition close_up (cpbs : list (cpbool F)) : list (cpbool F) :=
    match cpbs, rev cpbs with
    | first :: rest, last :: _ => removelast (on_cp (set_dl (cdl (cb_cp last))) first :: rest)
    | _, _ => []
    end.
  (* the caller's control points as they are after the call *)
  Definition written_back (cpbs : list (cpbool F)) (orig : list (cpoint F)) : list (cpoint F) :=
    map
      (fun ic =>
         match find (fun c => match cb_src c with Some i => (i =? fst ic)%nat | None => false end) cpbs with
         | Some c => cb_cp c
         | None => snd ic
         end)
      (combine (seq 0 (List.length orig)) orig).

  (* bezier.py:417-419: rotate to put a node first; [0] of an empty list raises *)
  Fixpoint first_node_ix (cpbs : list (cpbool F)) : option nat :=
    match cpbs with
    | [] => None
    | c :: l => match cb_node c with
                | Some _ => Some 0%nat
                | None => match first_node_ix l with Some k => Some (S k) | None => None end
                end
    end.
  Definition rotate_first (cpbs : list (cpbool F)) : res (list (cpbool F)) :=
    match first_node_ix cpbs with
    | Some k => Ok (rotl k cpbs)
    | None => Raise IndexError
    end.

  (* ---------------- the graph ---------------- *)

  Definition set_rr (r : option nat) (e : edge F) : edge F :=
    Edge (ed_ll e) (ed_left e) (ed_cps e) (ed_right e) r (ed_removed e).
  Definition set_ll (l : option nat) (e : edge F) : edge F :=
    Edge l (ed_left e) (ed_cps e) (ed_right e) (ed_rr e) (ed_removed e).
  Definition set_removed (b : bool) (e : edge F) : edge F :=
    Edge (ed_ll e) (ed_left e) (ed_cps e) (ed_right e) (ed_rr e) b.
  Definition upd_at {A} (i : nat) (f : A -> A) (l : list A) : list A :=
    map (fun ia => if (fst ia =? i)%nat then f (snd ia) else snd ia) (combine (seq 0 (List.length l)) l).
  (* bezier.py:239-250 and 290-300 add_edge(left_left, left, cps, right, None) *)
  Definition add_edge (edges : list (edge F)) (ll : option nat) (left : option nat) (cps : list (cpoint F))
      (right : nat) : res (list (edge F)) :=
    if (List.length cps <? 2)%nat then Raise ValueError
    else
      match left with
      | None => Raise AttributeError
      | Some lnode =>
          let n := List.length edges in
          let edges := edges ++ [Edge ll lnode cps right None false] in
          Ok match ll with
             | None => edges
             | Some p => upd_at p (fun e => match ed_rr e with None => set_rr (Some n) e | _ => e end) edges
             end
      end.
  (* bezier.py:424-441 the loop over cpbs + cpbs[:1] *)
  Fixpoint make_edges (edges : list (edge F)) (current : list (cpoint F)) (prev_node prev_edge first_edge : option nat)
      (cpbs : list (cpbool F)) : res (list (edge F) * option nat * option nat) :=
    match cpbs with
    | [] => Ok (edges, prev_edge, first_edge)
    | c :: cpbs' =>
        match cb_node c with
        | None => make_edges edges (current ++ [cb_cp c]) prev_node prev_edge first_edge cpbs'
        | Some n =>
            match current with
            | [] => make_edges edges [cb_cp c] (Some n) prev_edge first_edge cpbs'
            | _ =>
                let* edges' := add_edge edges prev_edge prev_node (current ++ [cb_cp c]) n in
                let prev := Some (List.length edges) in
                make_edges edges' [cb_cp c] (Some n) prev
                  (match first_edge with None => prev | _ => first_edge end) cpbs'
            end
        end
    end.
  (* bezier.py:443-446: stitch up; with no edge at all, None has no right_right *)
  Definition stitch (r : list (edge F) * option nat * option nat) : res (list (edge F)) :=
    let '(edges, prev_edge, first_edge) := r in
    match prev_edge, first_edge with
    | Some p, Some f =>
        match option_map (@ed_rr F) (nth_error edges p), option_map (@ed_ll F) (nth_error edges f) with
        | Some None, Some None =>
            Ok (upd_at f (set_ll (Some p)) (upd_at p (set_rr (Some f)) edges))
        | _, _ => Raise AssertionError
        end
    | _, _ => Raise AttributeError
    end.
  Definition build_graph (cpbs : list (cpbool F)) : res (list (edge F)) :=
    let* r := make_edges [] [] None None None (cpbs ++ firstn 1 cpbs) in
    stitch r.
  (* node.edges, bezier.py:220-222 and 249-250: left, then right, in order of creation *)
  Definition node_edges (edges : list (edge F)) (n : nat) : list nat :=
    flat_map
      (fun ie => (if (ed_left (snd ie) =? n)%nat then [fst ie] else [])
                 ++ (if (ed_right (snd ie) =? n)%nat then [fst ie] else []))
      (combine (seq 0 (List.length edges)) edges).
  (* bezier.py:302-322 validate *)
  Definition validate (edges : list (edge F)) (n_nodes : nat) : bool :=
    forallb
      (fun n => let count := List.length (node_edges edges n) in
                Nat.even count && negb (count <? 4)%nat)
      (seq 0 n_nodes)
    && forallb (fun e => match ed_ll e, ed_rr e with Some _, Some _ => true | _, _ => false end) edges.

  (* ---------------- the walk ---------------- *)

  Definition onat_eqb (a b : option nat) : bool :=
    match a, b with Some x, Some y => (x =? y)%nat | None, None => true | _, _ => false end.
  (* bezier.py:224-229 any_edge *)
  Definition any_edge (edges : list (edge F)) (n : nat) (not_this_one : option nat) : option nat :=
    find
      (fun i => match nth_error edges i with
                | None => false
                | Some e => negb (ed_removed e) && (ed_right e =? n)%nat && negb (onat_eqb (ed_rr e) not_this_one)
                end)
      (node_edges edges n).
  (* bezier.py:283-288 any_node *)
  Definition any_node (edges : list (edge F)) (n_nodes : nat) : option nat :=
    find (fun n => match any_edge edges n None with Some _ => true | None => false end) (seq 0 n_nodes).
  (* bezier.py:468: match[0] *)
  Fixpoint first_match (edges : list (edge F)) (left : nat) (trail : list nat) : option nat :=
    match trail with
    | [] => None
    | i :: l =>
        if match nth_error edges i with Some e => (left =? ed_right e)%nat | None => false end then Some 0%nat
        else match first_match edges left l with Some k => Some (S k) | None => None end
    end.
  (* bezier.py:466-479 and 520-521: follow edges to the left until a node comes up again.
     Returns the edges of the cycle.  (Out of fuel: RecursionError, shown unreachable.) *)
  Fixpoint walk (fuel : nat) (edges : list (edge F)) (trail : list nat) (cur : option nat)
      : res (list (edge F) * list nat) :=
    match fuel with
    | O => Raise RecursionError
    | S fuel =>
        match cur with
        | None => Raise AttributeError
        | Some i =>
            match nth_error edges i with
            | None => Raise AttributeError
            | Some e =>
                let trail := trail ++ [i] in
                let edges := upd_at i (set_removed true) edges in
                match first_match edges (ed_left e) trail with
                | Some k =>
                    Ok (fold_left (fun es j => upd_at j (set_removed false) es) (firstn k trail) edges, skipn k trail)
                | None => walk fuel edges trail (any_edge edges (ed_left e) (Some i))
                end
            end
        end
    end.

  (* cps[0], cps[-1] and the assignments to them; an empty list raises *)
  Definition head_cp (l : list (cpoint F)) : res (cpoint F) :=
    match l with [] => Raise IndexError | c :: _ => Ok c end.
  Definition last_cp (l : list (cpoint F)) : res (cpoint F) := head_cp (rev l).
  (* the literal 1e-11 *)
  Definition join_delta : F := #1 / nofZ (10 ^ 11)%Z.
  (* bezier.py:483-513: one more edge joined on *)
  Definition join_edge (cps ecps : list (cpoint F)) : res (list (cpoint F)) :=
    let* c0 := head_cp cps in
    let* cz := last_cp cps in
    let* e0 := head_cp ecps in
    let* ez := last_cp ecps in
    if p_close join_delta (cc cz) (cc e0) then
      Ok (removelast cps ++ [set_kind "sharp" (set_dr (cdr e0) (cp_copy cz))] ++ tl ecps)
    else if p_close join_delta (cc c0) (cc e0) then Raise ValueError
    else if p_close join_delta (cc c0) (cc ez) then
      Ok (removelast ecps ++ [set_kind "sharp" (set_dr (cdr c0) (cp_copy ez))] ++ tl cps)
    else Raise ValueError.
  (* bezier.py:514-518 *)
  Definition close_curve (cps : list (cpoint F)) : res (list (cpoint F)) :=
    let* c0 := head_cp cps in
    let* cz := last_cp cps in
    Ok (removelast (set_kind "sharp" (set_dl (cdl cz) (cp_copy c0)) :: tl cps)).
  (* bezier.py:480-518: the curve of a cycle *)
  Definition curve_of (edges : list (edge F)) (cycle : list nat) : res (list (cpoint F)) :=
    match map (fun i => match nth_error edges i with Some e => ed_cps e | None => [] end) cycle with
    | [] => Raise IndexError
    | cps :: others =>
        let* cps := foldM join_edge cps others in
        close_curve cps
    end.

  (* bezier.py:458-526 the outer loop *)
  Fixpoint all_cycles (fuel : nat) (edges : list (edge F)) (n_nodes : nat) : res (list (list (cpoint F))) :=
    match any_node edges n_nodes with
    | None => Ok []
    | Some n =>
        match fuel with
        | O => Raise RecursionError
        | S fuel =>
            match any_edge edges n None with
            | None => Raise AttributeError
            | Some i =>
                match nth_error edges i with
                | None => Raise AttributeError
                | Some e =>
                    if (ed_right e =? n)%nat then
                      let* r := walk (S (List.length edges)) edges [] (Some i) in
                      let* curve := curve_of (fst r) (snd r) in
                      let* more := all_cycles fuel (fst r) n_nodes in
                      Ok (curve :: more)
                    else Raise NotImplementedError
                end
            end
        end
    end.

  (* bezier.py:348-526: the caller's control points after the call, and what it returns *)
  Definition bez_self_intersect_full (orig : list (cpoint F)) : list (cpoint F) * res (list (list (cpoint F))) :=
    let segs := all_curves orig in
    let ans := answers segs in
    if negb (found ans) then (orig, Ok [])
    else
      let '(cpbs, r) := merge_all [] [] (map (fun ks => (snd ks, ixs_of ans (fst ks))) (combine (seq 0 (List.length segs)) segs)) in
      match r with
      | Raise e => (written_back cpbs orig, Raise e)
      | Ok nodes =>
          let cpbs := close_up cpbs in
          (written_back cpbs orig,
           let* cpbs := rotate_first cpbs in
           let* edges := build_graph cpbs in
           all_cycles (List.length edges) edges (List.length nodes))
      end.
  Definition bez_self_intersect (orig : list (cpoint F)) : res (list (list (cpoint F))) :=
    snd (bez_self_intersect_full orig).

  (* bezier.py:443-444: what the call of validate() returns, which it also prints; None when the
     call is not reached *)
  Definition self_ix_verdict (orig : list (cpoint F)) : option bool :=
    let segs := all_curves orig in
    let ans := answers segs in
    if negb (found ans) then None
    else
      let '(cpbs, r) := merge_all [] [] (map (fun ks => (snd ks, ixs_of ans (fst ks))) (combine (seq 0 (List.length segs)) segs)) in
      match (let* nodes := r in
             let* cpbs := rotate_first (close_up cpbs) in
             let* edges := build_graph cpbs in
             Ok (validate edges (List.length nodes))) with
      | Ok b => Some b
      | Raise _ => None
      end.

  (* model.py:408-413 ElemCurve.self_intersect.  control_points_transformed makes fresh control
     points, so the element itself does not change. *)
  Definition curve_self_intersect (b : ebase F) (cps : list (cpoint F)) : res (list (ebase F * list (cpoint F))) :=
    let* xformed := mapM (cp_transform (t_transform (e_xform b)) true) cps in
    let* curves := bez_self_intersect xformed in
    mapM
      (fun ic =>
         let* b' := mk_base (e_name b ++ "_i" ++ decimal (fst ic))%string (e_pb b) (e_closed b) None in
         Ok (b', snd ic))
      (combine (seq 0 (List.length curves)) curves).
End SelfIx.
