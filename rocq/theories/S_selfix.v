(* What resolving the self-intersections of a closed curve means, independently of the code. *)
Require Import Verif.Base Verif.NumR Verif.M_vector Verif.M_bezier Verif.S_bezier.
From Coq Require Import Reals List String Permutation Sorting.Sorted PeanoNat.
Open Scope R_scope.
Open Scope list_scope.

(* ---- pieces of a segment ---- *)
(* the segments [part] follow the segment from s to e, one after the other: the k-th runs from
   parameter t_k to parameter t_k+1, and the parameters go from 0 to 1 *)
Definition follows (s e : cpoint R) (ts : list R) (part : list (cpoint R * cpoint R)) : Prop :=
  hd_error ts = Some 0 /\ last ts 0 = 1 /\
  Forall2 (fun ab tt => forall u, segment (fst ab) (snd ab) u = segment s e (fst tt + u * (snd tt - fst tt)))
    part (consecutive ts).
(* the parameters never go back *)
Definition ordered (ts : list R) : Prop := Forall (fun ab => fst ab <= snd ab) (consecutive ts).
(* the closed curve [fine] is the closed curve [orig] with control points added *)
Definition refines (orig fine : list (cpoint R)) : Prop :=
  exists parts, path_segments fine true = List.concat parts /\
    Forall2 (fun se part => exists ts, follows (fst se) (snd se) ts part) (path_segments orig true) parts.
Definition refines_in_order (orig fine : list (cpoint R)) : Prop :=
  exists parts, path_segments fine true = List.concat parts /\
    Forall2 (fun se part => exists ts, ordered ts /\ follows (fst se) (snd se) ts part) (path_segments orig true) parts.

(* ---- arcs put together ---- *)
(* where an arc ending in p is followed by one starting in q: one corner with both handles *)
Definition corner {F} (p q : cpoint F) : cpoint F := CP (cc p) (cdl p) (cdr q) "sharp".
Fixpoint glue {F} (arcs : list (list (cpoint F))) : list (cpoint F) :=
  match arcs with
  | [] => []
  | [a] => a
  | a :: rest =>
      match rev a, glue rest with
      | p :: _, q :: more => removelast a ++ corner p q :: more
      | _, _ => []
      end
  end.
(* and the end of the last with the start of the first, of which the place is kept *)
Definition ring {F} (arcs : list (list (cpoint F))) : list (cpoint F) :=
  match glue arcs with
  | [] => []
  | q :: more =>
      match rev more with
      | [] => []
      | p :: _ => CP (cc q) (cdl p) (cdr q) "sharp" :: removelast more
      end
  end.

(* ---- a closed curve taken apart ---- *)
Definition first_at (arc : list (cpoint R)) : pt R := match arc with [] => P 0 0 | c :: _ => cc c end.
Definition last_at (arc : list (cpoint R)) : pt R := first_at (rev arc).
Definition dist (p q : pt R) : R := sqrt ((px p - px q) ^ 2 + (py p - py q) ^ 2).

(* ---- what the curve solver is asked, and what it says ---- *)
Section Solver.
  (* an answer: the point, the parameter on the first segment, the parameter on the second *)
  Variable solve : cpoint R -> cpoint R -> cpoint R -> cpoint R -> list (pt R * R * R).
  (* the segments of the closed curve; one whose halves meet is taken as two *)
  Definition pieces (orig : list (cpoint R)) : list (cpoint R * cpoint R) :=
    flat_map
      (fun se =>
         let '(l, m, r) := bez_split (fst se) (snd se) (1 / 2) in
         match solve l m m r with [] => [se] | _ => [(l, m); (m, r)] end)
      (path_segments orig true).
  Definition ask (a b : cpoint R * cpoint R) : list (pt R * R * R) := solve (fst a) (snd a) (fst b) (snd b).
  (* the answers for all pairs of segments *)
  Fixpoint crossings (ps : list (cpoint R * cpoint R)) : list (pt R * R * R) :=
    match ps with
    | [] => []
    | a :: rest => flat_map (ask a) rest ++ crossings rest
    end.
  (* the answers for one segment: parameter on it, and point *)
  Definition on_first (x : pt R * R * R) : R * (R * R) := let '(p, ta, tb) := x in (ta, (px p, py p)).
  Definition on_second (x : pt R * R * R) : R * (R * R) := let '(p, ta, tb) := x in (tb, (px p, py p)).
  Definition visits (ps : list (cpoint R * cpoint R)) (k : nat) : list (R * (R * R)) :=
    match nth_error ps k with
    | None => []
    | Some c =>
        flat_map (fun a => map on_second (ask a c)) (firstn k ps)
        ++ flat_map (fun b => map on_first (ask c b)) (skipn (S k) ps)
    end.
End Solver.

(* ---- the result ---- *)
(* the arcs of one output curve, in order: each starts where the one before ends *)
Fixpoint linked_arcs (eps : R) (arcs : list (list (cpoint R))) : Prop :=
  match arcs with
  | a :: ((b :: _) as l) => dist (last_at a) (first_at b) < eps /\ linked_arcs eps l
  | _ => True
  end.
(* and the first starts where the last ends *)
Definition shut (eps : R) (arcs : list (list (cpoint R))) : Prop :=
  Rabs (px (last_at (last arcs [])) - px (first_at (hd [] arcs))) <= eps /\
  Rabs (py (last_at (last arcs [])) - py (first_at (hd [] arcs))) <= eps.

(* ---- answers one can rely on ---- *)
Section Reliable.
  Variable solve : cpoint R -> cpoint R -> cpoint R -> cpoint R -> list (pt R * R * R).
  Variable orig : list (cpoint R).
  Let ps := pieces solve orig.
  (* every reported point is on both segments, at the parameters given, up to eps *)
  Definition accurate (eps : R) : Prop :=
    forall k c t xy, nth_error ps k = Some c -> In (t, xy) (visits solve ps k) ->
      dist (segment (fst c) (snd c) t) (P (fst xy) (snd xy)) <= eps.
  (* no answer at the very end of a segment *)
  Definition before_end : Prop := forall k t xy, In (t, xy) (visits solve ps k) -> t < 1.
  Definition within : Prop := forall k t xy, In (t, xy) (visits solve ps k) -> 0 <= t <= 1.
  (* different reported points are far enough apart *)
  Definition separated (d : R) : Prop :=
    forall p q ta tb sa sb, In (p, ta, tb) (crossings solve ps) -> In (q, sa, sb) (crossings solve ps) ->
      p = q \/ d <= dist p q.
  (* the points in the order in which the closed curve comes to them *)
  Definition route (pts : list (R * R)) : Prop :=
    exists ls, Forall2 (fun k l => Permutation (visits solve ps k) l /\ StronglySorted (fun a b => fst a < fst b) l)
                 (seq 0 (List.length ps)) ls /\ pts = map snd (List.concat ls).
  (* it comes to each point exactly twice, and to an even number of points in between: so it is
     for every closed curve in the plane that crosses itself in simple crossings (Gauss) *)
  Definition twice_evenly (pts : list (R * R)) : Prop :=
    forall p, In p pts -> exists a b c, pts = a ++ p :: b ++ p :: c /\ ~ In p (a ++ b ++ c) /\ Nat.Even (List.length b).
End Reliable.
