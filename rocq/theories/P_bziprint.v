(* Property theorems C91: what debug=True and validate() print about the graph of a curve that
   crosses itself. *)
Require Import Verif.Base Verif.M_vector Verif.M_bezier Verif.M_group Verif.M_dump Verif.M_selfix Verif.M_bziprint
  Verif.S_bezier Verif.L_selfix Verif.P_graph.
From Coq Require Import List Arith Lia Bool String.
Import ListNotations.
Local Open Scope string_scope.
Local Open Scope list_scope.
Local Open Scope nat_scope.

(* ------------------------------------------------------------------ *)
(** ** specification *)

(* where, in a list of control points, nodes are met: the places counted from s *)
Fixpoint places {F} (s : nat) (l : list (cpbool F)) : list nat :=
  match l with
  | [] => []
  | c :: l => match cb_node c with Some _ => s :: places (S s) l | None => places (S s) l end
  end.

Section Spec.
  Context {F : Type}.
  Variables show show2 : F -> string.
  Variable zero : F.
  Definition tuple2 (sh : F -> string) (xy : F * F) : string := ("(" ++ sh (fst xy) ++ ", " ++ sh (snd xy) ++ ")")%string.
  Definition node_xy (nodes : list (F * F)) (k : nat) : F * F := nth k nodes (zero, zero).
  (* the line of a node: its key, where it is, and two edges for every time the curve meets it *)
  Definition node_line (nodes : list (F * F)) (curve : list (cpbool F)) (k : nat) : string :=
    ("   Node@" ++ tuple2 show (node_xy nodes k) ++ ": Node@" ++ tuple2 show2 (node_xy nodes k) ++ ", "
     ++ decimal (2 * times_met k curve) ++ " edges")%string.
  (* the line of the arc number i of the closed curve, between the meetings i and i + 1: its
     neighbours are the arcs before and after it, the last arc being before the first *)
  Definition edge_line (nodes : list (F * F)) (curve : list (cpbool F)) (i : nat) : string :=
    let met := nodes_met curve in
    let n := List.length met in
    let stops := places 0 curve ++ [List.length curve] in
    ("   Edge e" ++ decimal i ++ " +: ll=e" ++ decimal ((i + (n - 1)) mod n)
     ++ " l=" ++ tuple2 show2 (node_xy nodes (nth i met 0))
     ++ " cps=" ++ decimal (nth (S i) stops 0 - nth i stops 0 + 1)
     ++ " r=" ++ tuple2 show2 (node_xy nodes (nth ((i + 1) mod n) met 0))
     ++ " rr=e" ++ decimal ((i + 1) mod n))%string.
  Definition graph_lines (nodes : list (F * F)) (curve : list (cpbool F)) : list string :=
    ("Graph: " ++ decimal (List.length nodes) ++ " nodes, " ++ decimal (List.length (nodes_met curve)) ++ " edges")%string
    :: map (node_line nodes curve) (seq 0 (List.length nodes))
    ++ map (edge_line nodes curve) (seq 0 (List.length (nodes_met curve))).
End Spec.

(* ------------------------------------------------------------------ *)
(** ** lemmas *)

Section Lemmas.
  Context {F : Type} {NF : Num F}.

  Lemma print_all_ok (l : list string) : print_all (map (@Ok string) l) = (l, None).
  Proof. induction l as [|s l IH]; [reflexivity|]. cbn. now rewrite IH. Qed.

  Lemma tuple2_pt (sh : F -> string) nodes k :
    repr_tuple [sh (px (center nodes k)); sh (py (center nodes k))] = tuple2 sh (node_xy (nofZ 0) nodes k).
  Proof.
    assert (A : forall a b c : string, ((a ++ b) ++ c)%string = (a ++ b ++ c)%string) by (induction a; intros; cbn; congruence).
    unfold tuple2, node_xy, center, repr_tuple. cbn [join px py]. rewrite !A. reflexivity.
  Qed.
  Lemma str_pt_tuple (sh : F -> string) nodes k : M_display.str_pt sh (center nodes k) = tuple2 sh (node_xy (nofZ 0) nodes k).
  Proof. apply tuple2_pt. Qed.
  Lemma str_pt2_tuple (sh : F -> string) nodes k : M_display.str_pt2 sh (center nodes k) = tuple2 sh (node_xy (nofZ 0) nodes k).
  Proof. apply tuple2_pt. Qed.

  Lemma places_length (l : list (cpbool F)) : forall s, List.length (places s l) = List.length (nodes_met l).
  Proof.
    induction l as [|c l IH]; intros s; [reflexivity|]. cbn [places nodes_met flat_map]. fold (nodes_met l).
    destruct (cb_node c); cbn [app List.length]; now rewrite IH.
  Qed.
  Lemma places_app (l m : list (cpbool F)) : forall s, places s (l ++ m) = places s l ++ places (s + List.length l) m.
  Proof.
    induction l as [|c l IH]; intros s; cbn [app places List.length]; [now rewrite Nat.add_0_r|].
    rewrite IH. replace (s + S (List.length l)) with (S s + List.length l) by lia. now destruct (cb_node c).
  Qed.

  Lemma arcs_lengths (l : list (cpbool F)) : forall b cur from,
    map (fun a => List.length (snd (fst a))) (arcs cur from l)
    = map (fun ab => snd ab - fst ab + 1) (consecutive (b :: places (b + List.length cur) l)).
  Proof.
    induction l as [|c l IH]; intros b cur from; [reflexivity|]. cbn [arcs places].
    destruct (cb_node c) as [n|].
    - cbn [map fst snd]. rewrite (IH (b + List.length cur) [cb_cp c] n). cbn [List.length].
      rewrite Nat.add_1_r. rewrite app_length. cbn [List.length].
      change (consecutive (b :: b + List.length cur :: places (S (b + List.length cur)) l))
        with ((b, b + List.length cur) :: consecutive (b + List.length cur :: places (S (b + List.length cur)) l)).
      cbn [map fst snd]. f_equal. lia.
    - rewrite (IH b (cur ++ [cb_cp c]) from). rewrite app_length. cbn [List.length]. do 4 f_equal. lia.
  Qed.

  Lemma nth_consecutive {A} (l : list A) (d : A) : forall i, S i < List.length l ->
    nth_error (consecutive l) i = Some (nth i l d, nth (S i) l d).
  Proof.
    induction l as [|a l IH]; intros i H; cbn in H; [lia|]. destruct l as [|b l]; [cbn in H; lia|].
    change (consecutive (a :: b :: l)) with ((a, b) :: consecutive (b :: l)).
    destruct i as [|i]; [reflexivity|]. cbn [nth_error]. rewrite IH by (cbn in *; lia). reflexivity.
  Qed.

  Lemma rotate_first_node (l l' : list (cpbool F)) : rotate_first l = Ok l' ->
    exists c n rest, l' = c :: rest /\ cb_node c = Some n.
  Proof.
    unfold rotate_first. destruct (first_node_ix l) as [k|] eqn:E; [|discriminate]. intros H. injection H as <-.
    assert (K : exists c n r, skipn k l = c :: r /\ cb_node c = Some n).
    { revert k E. induction l as [|c l IH]; intros k E; [discriminate|]. cbn in E.
      destruct (cb_node c) as [n|] eqn:N; [injection E as <-; cbn; eauto|].
      destruct (first_node_ix l) as [j|]; [|discriminate]. injection E as <-. cbn. apply IH. reflexivity. }
    destruct K as (c & n & r & K & N). unfold rotl. rewrite K. exists c, n. eexists. split; [reflexivity|exact N].
  Qed.
End Lemmas.

(* ------------------------------------------------------------------ *)
(** ** the theorems *)

Section Print.
  Context {F : Type} {NF : Num F} {RF : NumRoot F}.
  Variables show show2 : F -> string.

  (* the graph of a closed curve starting at a node prints without failing, and the lines are those
     of the nodes and then of the arcs of the curve in order *)
  Theorem C91_print : forall (c : cpbool F) (n0 : nat) (rest : list (cpbool F)) (nodes : list (F * F)),
    cb_node c = Some n0 ->
    exists edges, build_graph (c :: rest) = Ok edges /\
      graph_print show show2 nodes edges = (graph_lines show show2 (nofZ 0) nodes (c :: rest), None).
  Proof.
    intros c n0 rest nodes Hc. destruct (C65_graph c n0 rest (List.length nodes) Hc) as (edges & B & K & _).
    exists edges. split; [exact B|]. rewrite (build_graph_spec c n0 rest Hc) in B. injection B as <-.
    set (raw := arcs [cb_cp c] n0 (rest ++ [c])) in *.
    set (W := nodes_met (c :: rest)).
    assert (EW : W = n0 :: nodes_met rest). { unfold W. cbn [nodes_met flat_map]. now rewrite Hc. }
    assert (ER : nodes_met (rest ++ [c]) = nodes_met rest ++ [n0]).
    { unfold nodes_met. rewrite flat_map_app. cbn. now rewrite Hc. }
    destruct (arcs_sides (rest ++ [c]) [cb_cp c] n0) as [Rs Ls]. fold raw in Rs, Ls.
    rewrite ER in Rs, Ls. change (n0 :: nodes_met rest ++ [n0]) with ((n0 :: nodes_met rest) ++ [n0]) in Ls.
    rewrite removelast_last, <- EW in Ls.
    assert (LR : List.length raw = List.length W). { rewrite <- Ls. now rewrite map_length. }
    assert (Cs : map (fun a => List.length (snd (fst a))) raw
                 = map (fun ab => snd ab - fst ab + 1) (consecutive (places 0 (c :: rest) ++ [List.length (c :: rest)]))).
    { unfold raw. rewrite (arcs_lengths (rest ++ [c]) 0). cbn [List.length Nat.add]. rewrite places_app.
      cbn [places]. rewrite Hc. cbn [places app List.length]. replace (1 + List.length rest) with (S (List.length rest)) by lia. reflexivity. }
    assert (ED : map (fun ie => let* s := repr_edge show2 nodes (fst ie) (snd ie) in Ok ("   " ++ s)%string)
                   (combine (seq 0 (List.length (linked raw))) (linked raw))
                 = map (@Ok string) (map (edge_line show2 (nofZ 0) nodes (c :: rest)) (seq 0 (List.length W)))).
    { apply nth_error_ext. intros i. rewrite !nth_error_map, nth_error_index. rewrite nth_error_linked, LR.
      destruct (le_lt_dec (List.length W) i) as [G|L].
      - rewrite (proj2 (nth_error_None raw i)) by lia.
        rewrite (proj2 (nth_error_None (seq 0 (List.length W)) i)) by (rewrite seq_length; lia). reflexivity.
      - assert (Es : nth_error (seq 0 (List.length W)) i = Some i).
        { rewrite (nth_error_nth' _ 0) by (rewrite seq_length; lia). now rewrite seq_nth by lia. }
        rewrite Es. destruct (nth_error raw i) as [[[l cps] r]|] eqn:Er; [|apply nth_error_None in Er; lia].
        cbn [option_map fst snd Nat.add]. unfold linked1. cbn [fst snd]. unfold repr_edge.
        cbn [ed_ll ed_left ed_cps ed_right ed_rr ed_removed bind].
        pose proof (f_equal (fun m => nth_error m i) Ls) as Li. cbv beta in Li. rewrite nth_error_map, Er in Li. cbn [option_map fst snd] in Li.
        pose proof (f_equal (fun m => nth_error m i) Rs) as Ri. cbv beta in Ri. rewrite nth_error_map, Er in Ri. cbn [option_map fst snd] in Ri.
        pose proof (f_equal (fun m => nth_error m i) Cs) as Ci. cbv beta in Ci. rewrite !nth_error_map, Er in Ci. cbn [option_map fst snd] in Ci.
        rewrite (nth_consecutive _ 0) in Ci by (rewrite app_length, places_length; fold W; cbn [List.length]; lia).
        cbn [option_map fst snd] in Ci. injection Ci as Ci.
        symmetry in Li, Ri. apply nth_error_nth with (d := 0) in Li.
        assert (Rr : r = nth ((i + 1) mod List.length W) W 0).
        { destruct (Nat.eq_dec (i + 1) (List.length W)) as [Q|N].
          - rewrite Q, Nat.mod_same by lia. rewrite EW in *. cbn [List.length] in Q. cbn [nth].
            rewrite nth_error_app2 in Ri by lia. replace (i - List.length (nodes_met rest)) with 0 in Ri by lia.
            now injection Ri as <-.
          - rewrite Nat.mod_small by lia. rewrite EW in *. cbn [List.length] in *. rewrite Nat.add_1_r. cbn [nth].
            rewrite nth_error_app1 in Ri by lia. now apply nth_error_nth with (d := 0) in Ri. }
        assert (Pv : (if i =? 0 then List.length W - 1 else i - 1) = (i + (List.length W - 1)) mod List.length W).
        { destruct (Nat.eqb_spec i 0) as [->|N].
          - rewrite Nat.mod_small; lia.
          - replace (i + (List.length W - 1)) with (i - 1 + 1 * List.length W) by lia.
            rewrite Nat.mod_add by lia. rewrite Nat.mod_small; lia. }
        assert (Nx : (if S i =? List.length W then 0 else S i) = (i + 1) mod List.length W).
        { destruct (Nat.eqb_spec (S i) (List.length W)) as [Q|N].
          - rewrite Nat.add_1_r, Q, Nat.mod_same; lia.
          - rewrite Nat.add_1_r, Nat.mod_small; lia. }
        unfold edge_line. fold W. cbv zeta. rewrite Pv, Nx, Ci, <- Rr, Li. unfold edge_name. rewrite !str_pt2_tuple. reflexivity. }
    unfold graph_print. rewrite ED.
    assert (EN : map (fun k => Ok ("   Node@" ++ M_display.str_pt show (center nodes k) ++ ": " ++ str_node show2 nodes (linked raw) k)%string)
                   (seq 0 (List.length nodes))
                 = map (@Ok string) (map (node_line show show2 (nofZ 0) nodes (c :: rest)) (seq 0 (List.length nodes)))).
    { rewrite map_map. apply map_ext. intros k. unfold node_line, str_node. rewrite K, str_pt_tuple, str_pt2_tuple. reflexivity. }
    rewrite EN. rewrite linked_length, LR.
    match goal with |- print_all (Ok ?h :: map (@Ok string) ?a ++ map (@Ok string) ?b) = _ =>
      replace (Ok h :: map (@Ok string) a ++ map (@Ok string) b) with (map (@Ok string) (h :: a ++ b)) by (cbn [map]; now rewrite map_app) end.
    apply print_all_ok.
  Qed.

  (* validate() prints its one good line exactly when it returns True; on the graph of a curve the
     complaints are one for every node met less than twice *)
  Theorem C91_validate : forall (nodes : list (F * F)) (edges : list (edge F)),
    validate_lines show nodes edges = ["BziGraph: apparently valid"] <-> validate edges (List.length nodes) = true.
  Proof.
    intros nodes edges. unfold validate_lines, validate.
    assert (A : flat_map (fun n => if negb (Nat.even (List.length (node_edges edges n))) || (List.length (node_edges edges n) <? 4)
                  then [("Invalid: node@" ++ M_display.str_pt show (center nodes n) ++ ": edge count=" ++ decimal (List.length (node_edges edges n)))%string] else [])
                  (seq 0 (List.length nodes)) = [] <->
                forallb (fun n => Nat.even (List.length (node_edges edges n)) && negb (List.length (node_edges edges n) <? 4)) (seq 0 (List.length nodes)) = true).
    { generalize (seq 0 (List.length nodes)). intros l. induction l as [|n l IH]; [now split|]. cbn [flat_map forallb].
      destruct (Nat.even _), (_ <? 4); cbn [negb orb andb app]; try (split; discriminate). exact IH. }
    assert (B : flat_map (fun e : edge F => match ed_ll e with None => ["Invalid: edge: missing left_left"] | _ => [] end
                     ++ match ed_rr e with None => ["Invalid: edge: missing right_right"] | _ => [] end) edges = [] <->
                forallb (fun e => match ed_ll e, ed_rr e with Some _, Some _ => true | _, _ => false end) edges = true).
    { clear. induction edges as [|e l IH]; [now split|]. cbn [flat_map forallb].
      destruct (ed_ll e), (ed_rr e); cbn [app andb]; try (split; discriminate). exact IH. }
    cbv zeta. rewrite andb_true_iff, <- A, <- B. clear A B.
    assert (NV : forall n l, In ("BziGraph: apparently valid") (flat_map (fun n => if negb (Nat.even (List.length (node_edges edges n))) || (List.length (node_edges edges n) <? 4)
                  then [("Invalid: node@" ++ M_display.str_pt show (center nodes n) ++ ": edge count=" ++ decimal (List.length (node_edges edges n)))%string] else [])
                  (seq n l)) -> False).
    { intros n l H. apply in_flat_map in H. destruct H as (k & _ & H). destruct (_ || _); [|destruct H].
      destruct H as [H|[]]. discriminate. }
    assert (NE : In ("BziGraph: apparently valid") (flat_map (fun e : edge F => match ed_ll e with None => ["Invalid: edge: missing left_left"] | _ => [] end
                     ++ match ed_rr e with None => ["Invalid: edge: missing right_right"] | _ => [] end) edges) -> False).
    { intros H. apply in_flat_map in H. destruct H as (e & _ & H). apply in_app_iff in H.
      destruct H as [H|H]; [destruct (ed_ll e)|destruct (ed_rr e)]; cbn in H; try tauto; destruct H as [H|[]]; discriminate. }
    specialize (NV 0 (List.length nodes)).
    match type of NV with In _ ?a -> _ => set (A := a) in * end.
    match type of NE with In _ ?b -> _ => set (B := b) in * end.
    split.
    - destruct A as [|s A]; cbn [app].
      + destruct B as [|s B]; [auto|]. intros H. injection H as -> _. destruct NE. now left.
      + intros H. injection H as -> _. destruct NV. now left.
    - intros [-> ->]. reflexivity.
  Qed.

  Theorem C91_complaints : forall (c : cpbool F) (n0 : nat) (rest : list (cpbool F)) (nodes : list (F * F)) edges,
    cb_node c = Some n0 -> build_graph (c :: rest) = Ok edges ->
    let bad := filter (fun n => times_met n (c :: rest) <? 2) (seq 0 (List.length nodes)) in
    validate_lines show nodes edges
    = match bad with
      | [] => ["BziGraph: apparently valid"]
      | _ => map (fun n => ("Invalid: node@" ++ tuple2 show (node_xy (nofZ 0) nodes n) ++ ": edge count="
                            ++ decimal (2 * times_met n (c :: rest)))%string) bad
      end.
  Proof.
    intros c n0 rest nodes edges Hc B. destruct (C65_graph c n0 rest (List.length nodes) Hc) as (edges' & B' & K & _).
    rewrite B in B'. injection B' as <-. rewrite (build_graph_spec c n0 rest Hc) in B. injection B as <-.
    set (raw := arcs [cb_cp c] n0 (rest ++ [c])) in *. cbv zeta. unfold validate_lines. cbv zeta.
    assert (E0 : flat_map (fun e : edge F => match ed_ll e with None => ["Invalid: edge: missing left_left"] | _ => [] end
                     ++ match ed_rr e with None => ["Invalid: edge: missing right_right"] | _ => [] end) (linked raw) = []).
    { clear K. pose proof (linked_closed raw) as H. rewrite forallb_forall in H. induction (linked raw) as [|e l IH]; [reflexivity|].
      cbn [flat_map]. rewrite IH by (intros; apply H; now right). specialize (H e (or_introl eq_refl)).
      destruct (ed_ll e), (ed_rr e); try discriminate. reflexivity. }
    rewrite E0, app_nil_r. clear E0.
    assert (E1 : flat_map (fun n => if negb (Nat.even (List.length (node_edges (linked raw) n))) || (List.length (node_edges (linked raw) n) <? 4)
                  then [("Invalid: node@" ++ M_display.str_pt show (center nodes n) ++ ": edge count=" ++ decimal (List.length (node_edges (linked raw) n)))%string] else [])
                  (seq 0 (List.length nodes))
                = map (fun n => ("Invalid: node@" ++ tuple2 show (node_xy (nofZ 0) nodes n) ++ ": edge count="
                            ++ decimal (2 * times_met n (c :: rest)))%string)
                    (filter (fun n => times_met n (c :: rest) <? 2) (seq 0 (List.length nodes)))).
    { generalize (seq 0 (List.length nodes)). intros l. induction l as [|n l IH]; [reflexivity|]. cbn [flat_map filter].
      rewrite IH, K. rewrite Nat.even_mul. cbn [Nat.even orb negb].
      replace (2 * times_met n (c :: rest) <? 4) with (times_met n (c :: rest) <? 2).
      2: { destruct (Nat.ltb_spec (times_met n (c :: rest)) 2), (Nat.ltb_spec (2 * times_met n (c :: rest)) 4); auto; lia. }
      destruct (times_met n (c :: rest) <? 2); [|reflexivity]. cbn [map app]. now rewrite str_pt_tuple. }
    rewrite E1. now destruct (filter _ _).
  Qed.

  (* with debug=True, whatever the solver answers, printing the graph never fails, and the graph
     printed is the one the curves are then taken from *)
  Theorem C91_debug : forall solve (orig : list (cpoint F)) lines raised verdict,
    self_ix_debug show show2 solve orig = Some (lines, raised, verdict) ->
    raised = None /\
    exists nodes curve edges,
      lines = graph_lines show show2 (nofZ 0) nodes curve /\ build_graph curve = Ok edges /\
      bez_self_intersect solve orig = all_cycles (List.length edges) edges (List.length nodes).
  Proof.
    intros solve orig lines raised verdict. unfold self_ix_debug, bez_self_intersect, bez_self_intersect_full. cbv zeta.
    destruct (negb _); [discriminate|].
    destruct (merge_all _ _ _) as [cpbs r]. destruct r as [nodes|e]; [|discriminate]. cbn [bind].
    cbn [snd]. destruct (rotate_first (close_up cpbs)) as [l|e] eqn:E; [|discriminate]. cbn [bind].
    destruct (rotate_first_node _ _ E) as (c & n & rest & -> & N).
    destruct (C91_print c n rest nodes N) as (edges & B & P1). rewrite B. cbn [bind]. rewrite P1.
    intros H. injection H as <- <- _. split; [reflexivity|]. exists nodes, (c :: rest), edges. auto.
  Qed.

  (* but the repr of an edge of a graph that is still being made does fail: an edge just added has
     no neighbour on its right *)
  Theorem C91_new_edge_fails : forall (edges edges' : list (edge F)) ll left cps right nodes,
    add_edge edges ll left cps right = Ok edges' -> (forall k, ll = Some k -> k < List.length edges) ->
    exists e, nth_error edges' (List.length edges) = Some e /\
      repr_edge show2 nodes (List.length edges) e = Raise AttributeError.
  Proof.
    intros edges edges' ll left cps right nodes H Hll. unfold add_edge in H. destruct (_ <? 2); [discriminate|].
    destruct left as [l|]; [|discriminate]. injection H as <-.
    exists (Edge ll l cps right None false). split.
    - destruct ll as [k|].
      + rewrite nth_error_upd_at. destruct (Nat.eqb_spec (List.length edges) k) as [Q|_]; [specialize (Hll k eq_refl); lia|].
        rewrite nth_error_app2, Nat.sub_diag by lia. reflexivity.
      + rewrite nth_error_app2, Nat.sub_diag by lia. reflexivity.
    - unfold repr_edge. cbn. now destruct ll.
  Qed.

  (* and so print() of an unfinished graph fails, at the first edge that lacks a neighbour *)
  Theorem C91_unfinished : forall (nodes : list (F * F)) (edges : list (edge F)),
    snd (graph_print show show2 nodes edges) =
      (if forallb (fun e => match ed_ll e, ed_rr e with Some _, Some _ => true | _, _ => false end) edges
       then None else Some AttributeError) /\
    (forall before e after, edges = before ++ e :: after ->
       forallb (fun e => match ed_ll e, ed_rr e with Some _, Some _ => true | _, _ => false end) before = true ->
       (ed_ll e = None \/ ed_rr e = None) ->
       List.length (fst (graph_print show show2 nodes edges)) = 1 + List.length nodes + List.length before).
  Proof.
    intros nodes edges. unfold graph_print.
    assert (N : forall (g : nat -> string) l m, print_all (map (fun k => Ok (g k)) l ++ m)
                = (map g l ++ fst (print_all m), snd (print_all m))).
    { intros g l m. induction l as [|k l IH]; cbn [map app]; [now destruct (print_all m)|]. cbn [print_all]. now rewrite IH. }
    cbn [print_all]. rewrite N. cbn [fst snd].
    set (pr := fun ie : nat * edge F => let* s := repr_edge show2 nodes (fst ie) (snd ie) in Ok ("   " ++ s)%string).
    split.
    - generalize 0. induction edges as [|e l IH]; intros k; [reflexivity|]. cbn [List.length seq combine map print_all forallb].
      unfold pr at 1. cbn [fst snd]. unfold repr_edge. destruct (ed_ll e), (ed_rr e); cbn [bind andb snd]; auto.
      specialize (IH (S k)). destruct (print_all (map pr _)). exact IH.
    - intros before e after -> Hb He. cbn [List.length]. rewrite app_length, map_length, seq_length.
      enough (H : forall k, List.length (fst (print_all (map pr (combine (seq k (List.length (before ++ e :: after))) (before ++ e :: after))))) = List.length before)
        by (rewrite H; lia).
      induction before as [|b l IH]; intros k.
      + cbn [app List.length seq combine map print_all]. unfold pr at 1. cbn [fst snd]. unfold repr_edge.
        destruct He as [-> | ->]; [reflexivity|]. now destruct (ed_ll e).
      + cbn [app List.length seq combine map print_all]. cbn [forallb] in Hb. apply andb_prop in Hb. destruct Hb as [H1 H2].
        unfold pr at 1. cbn [fst snd]. unfold repr_edge. destruct (ed_ll b), (ed_rr b); try discriminate. cbn [bind].
        specialize (IH H2 (S k)). destruct (print_all (map pr _)). cbn [fst List.length] in *. now rewrite IH.
  Qed.
End Print.

(* what is said of the graph of the call is never a complaint *)
Require Import Verif.NumR.
From Coq Require Import Reals.
Local Open Scope nat_scope.
Theorem C91_verdict : forall show show2 solve (orig : list (cpoint R)) lines raised verdict,
  self_ix_debug show show2 solve orig = Some (lines, raised, verdict) -> verdict = ["BziGraph: apparently valid"].
Proof.
  intros show show2 solve orig lines raised verdict. destruct (C65_verdict solve orig) as [V _]. revert V.
  unfold self_ix_debug, self_ix_verdict. cbv zeta. destruct (negb _); [discriminate|].
  destruct (merge_all _ _ _) as [cpbs r]. destruct r as [nodes|e]; [|discriminate]. cbn [bind].
  destruct (rotate_first (close_up cpbs)) as [l|e]; [|discriminate]. cbn [bind].
  destruct (build_graph l) as [edges|e]; [|discriminate]. cbn [bind]. intros V H. injection H as _ <-.
  apply C91_validate. destruct (validate edges (List.length nodes)); congruence.
Qed.

(* ------------------------------------------------------------------ *)
(** ** a figure of eight: one node met twice, two arcs *)
Require Import Verif.P_dump.
From Coq Require Import ZArith.
Local Open Scope nat_scope.
Definition zcp (x y : Z) : cpoint Z := CP (P x y) (V 0%Z 0%Z) (V 0%Z 0%Z) "smooth".
Definition eight : list (cpbool Z) :=
  [CB (zcp 1 2) (Some 0) None; CB (zcp 5 5) None None; CB (zcp 5 0) None None;
   CB (zcp 1 2) (Some 0) None; CB (zcp 0 9) None (Some 3)].
(* the graph of the figure of eight of C65 is printed *)
Example C91_ex_debug : exists lines raised verdict,
  self_ix_debug (fun _ => "1.0") (fun _ => "1.0") P_selfix.solve8 P_selfix.eight = Some (lines, raised, verdict).
Proof.
  pose proof C65_verdict_eight as V. revert V. unfold self_ix_debug, self_ix_verdict. cbv zeta.
  destruct (negb _); [discriminate|]. destruct (merge_all _ _ _) as [cpbs r]. destruct r as [nodes|e]; [|discriminate].
  cbn [bind]. destruct (rotate_first (close_up cpbs)) as [l|e]; [|discriminate]. cbn [bind].
  destruct (build_graph l) as [edges|e]; [|discriminate]. cbn [bind]. intros _.
  destruct (graph_print _ _ _ _) as [lines raised]. eauto.
Qed.
Example C91_ex_print :
  match build_graph eight with
  | Ok edges => graph_print showZ showZ [(1, 2)%Z] edges
  | Raise e => ([], Some e)
  end =
  (["Graph: 1 nodes, 2 edges";
    "   Node@(1, 2): Node@(1, 2), 4 edges";
    "   Edge e0 +: ll=e1 l=(1, 2) cps=4 r=(1, 2) rr=e1";
    "   Edge e1 +: ll=e0 l=(1, 2) cps=3 r=(1, 2) rr=e0"], None).
Proof. reflexivity. Qed.
Example C91_ex_validate :
  match build_graph eight with Ok edges => validate_lines showZ [(1, 2)%Z] edges | Raise e => [] end
  = ["BziGraph: apparently valid"].
Proof. reflexivity. Qed.
(* a node met once is complained of *)
Example C91_ex_complaint :
  match build_graph (CB (zcp 0 0) (Some 1) None :: eight) with
  | Ok edges => validate_lines showZ [(1, 2)%Z; (0, 0)%Z] edges
  | Raise e => []
  end = ["Invalid: node@(0, 0): edge count=2"].
Proof. reflexivity. Qed.
