(* Property theorems C65, continued: the graph that is built, and what validate() says of it. *)
Require Import Verif.Base Verif.M_vector Verif.M_bezier Verif.M_selfix Verif.L_selfix.
From Coq Require Import List Arith Lia Bool.
Import ListNotations.

(* the nodes met, in order, by the control points of the cut curve *)
Definition nodes_met {F} (l : list (cpbool F)) : list nat :=
  flat_map (fun c => match cb_node c with Some n => [n] | None => [] end) l.
Definition times_met {F} (n : nat) (l : list (cpbool F)) : nat := count_occ Nat.eq_dec (nodes_met l) n.

Section Graph.
  Context {F : Type} {NF : Num F}.

  Lemma count_app n (a b : list nat) : count_occ Nat.eq_dec (a ++ b) n = count_occ Nat.eq_dec a n + count_occ Nat.eq_dec b n.
  Proof. induction a as [|x a IH]; cbn; auto. destruct (Nat.eq_dec x n); lia. Qed.

  Lemma node_edges_count n (edges : list (edge F)) :
    length (node_edges edges n) = count_occ Nat.eq_dec (map (@ed_left F) edges) n + count_occ Nat.eq_dec (map (@ed_right F) edges) n.
  Proof.
    unfold node_edges. generalize 0. induction edges as [|e edges IH]; intros k; [reflexivity|].
    cbn [length seq combine flat_map map count_occ]. rewrite !app_length, IH. cbn [fst snd].
    destruct (Nat.eqb_spec (ed_left e) n), (Nat.eqb_spec (ed_right e) n), (Nat.eq_dec (ed_left e) n), (Nat.eq_dec (ed_right e) n);
      try congruence; cbn; lia.
  Qed.

  Lemma linked_sides (raw : list (nat * list (cpoint F) * nat)) :
    map (@ed_left F) (linked raw) = map (fun a => fst (fst a)) raw /\ map (@ed_right F) (linked raw) = map snd raw.
  Proof.
    unfold linked. generalize (length raw) at 1 3. intros len. generalize 0.
    induction raw as [|a raw IH]; intros k; [split; reflexivity|]. cbn [length seq combine map].
    destruct (IH (S k)) as [-> ->]. destruct a as [[x y] z]. split; reflexivity.
  Qed.
  Lemma arcs_sides (l : list (cpbool F)) : forall cur from,
    map snd (arcs cur from l) = nodes_met l /\
    map (fun a => fst (fst a)) (arcs cur from l) = removelast (from :: nodes_met l).
  Proof.
    induction l as [|c l IH]; intros cur from; [split; reflexivity|]. cbn [arcs nodes_met flat_map].
    fold (nodes_met l). destruct (cb_node c) as [n|]; [|apply IH]. cbn [app map snd fst].
    destruct (IH [cb_cp c] n) as [-> E]. rewrite E. split; reflexivity.
  Qed.

  Lemma count_removelast n (l : list nat) d : count_occ Nat.eq_dec (removelast (d :: l)) n + count_occ Nat.eq_dec [last l d] n
    = count_occ Nat.eq_dec (d :: l) n.
  Proof.
    rewrite <- count_app. f_equal. symmetry. rewrite (app_removelast_last d) at 1 by discriminate. f_equal. f_equal.
    destruct l; reflexivity.
  Qed.

  Lemma linked_closed (raw : list (nat * list (cpoint F) * nat)) :
    forallb (fun e => match ed_ll e, ed_rr e with Some _, Some _ => true | _, _ => false end) (linked raw) = true.
  Proof.
    apply forallb_forall. intros e He. unfold linked in He. apply in_map_iff in He. destruct He as (ka & <- & _). reflexivity.
  Qed.

  (* ------------------------------------------------------------------ *)
  (** ** the graph of a cut curve *)

  (* the curve starts at a node: every time a node is met adds two to the number of its edges, one
     coming in and one going out; and validate() is content exactly when every node is met at
     least twice *)
  Theorem C65_graph : forall (c : cpbool F) (n0 : nat) (rest : list (cpbool F)) (n_nodes : nat),
    cb_node c = Some n0 ->
    exists edges, build_graph (c :: rest) = Ok edges /\
      (forall n, length (node_edges edges n) = 2 * times_met n (c :: rest)) /\
      (validate edges n_nodes = true <-> forall n, n < n_nodes -> 2 <= times_met n (c :: rest)).
  Proof.
    intros c n0 rest N Hc. eexists. split; [exact (build_graph_spec c n0 rest Hc)|].
    set (raw := arcs [cb_cp c] n0 (rest ++ [c])).
    assert (K : forall n, length (node_edges (linked raw) n) = 2 * times_met n (c :: rest)).
    { intros n. rewrite node_edges_count. destruct (linked_sides raw) as [-> ->]. unfold raw.
      destruct (arcs_sides (rest ++ [c]) [cb_cp c] n0) as [-> ->].
      assert (E : nodes_met (rest ++ [c]) = nodes_met rest ++ [n0]).
      { unfold nodes_met. rewrite flat_map_app. cbn. now rewrite Hc. }
      rewrite E. change (n0 :: nodes_met rest ++ [n0]) with ((n0 :: nodes_met rest) ++ [n0]). rewrite removelast_last.
      unfold times_met. cbn [nodes_met flat_map]. rewrite Hc. fold (nodes_met rest). rewrite !count_app. cbn [app count_occ].
      destruct (Nat.eq_dec n0 n); lia. }
    split; [exact K|]. unfold validate. rewrite linked_closed, andb_true_r, forallb_forall. split; intros H n Hn.
    - specialize (H n). rewrite in_seq in H. specialize (H ltac:(lia)). cbv zeta in H. rewrite K in H.
      apply andb_prop in H. destruct H as [_ H]. apply negb_true_iff, Nat.ltb_ge in H. lia.
    - cbv zeta. rewrite in_seq in Hn. rewrite K. specialize (H n ltac:(lia)). apply andb_true_intro. split.
      + rewrite Nat.even_mul. reflexivity.
      + apply negb_true_iff, Nat.ltb_ge. lia.
  Qed.
End Graph.

(* ------------------------------------------------------------------ *)
(** ** the whole call *)
Require Import Verif.NumR Verif.S_selfix Verif.L_selfix4 Verif.L_selfix5 Verif.L_selfix6 Verif.L_selfix7.
From Coq Require Import Reals Permutation.
Local Open Scope nat_scope.

Lemma F2_flip {A B} (Q : A -> B -> Prop) l m : Forall2 Q l m -> Forall2 (fun b a => Q a b) m l.
Proof. induction 1; constructor; auto. Qed.

(* bez_self_intersect prints the verdict of validate() on the graph: whatever the solver answers,
   that is never a complaint; and when curves come out of a curve with crossings it was asked *)
Theorem C65_verdict : forall solve (orig : list (cpoint R)),
  self_ix_verdict solve orig <> Some false /\
  (forall curves, bez_self_intersect solve orig = Ok curves -> crossings solve (pieces solve orig) <> [] ->
     self_ix_verdict solve orig = Some true).
Proof.
  intros solve orig.
  assert (K : crossings solve (pieces solve orig) <> [] ->
     (exists e, bez_self_intersect solve orig = Raise e /\ self_ix_verdict solve orig = None) \/
     self_ix_verdict solve orig = Some true).
  { intros HX. destruct (stage_or solve orig HX) as [(e & E & _ & V)|(nodes & fine & raw & W & S)]; [left; eauto|right].
    rewrite (st_verdict _ _ _ _ _ _ S). f_equal. unfold validate. rewrite linked_closed, andb_true_r.
    apply forallb_forall. intros n Hn. rewrite in_seq in Hn. cbv zeta.
    assert (EL : length (node_edges (linked raw) n) = 2 * count_occ Nat.eq_dec W n).
    { rewrite node_edges_count. destruct (linked_sides raw) as [-> ->].
      rewrite (st_lefts _ _ _ _ _ _ S), (st_rights _ _ _ _ _ _ S). unfold rotl.
      rewrite count_app. pose proof (count_app n (firstn 1 W) (skipn 1 W)) as C. rewrite firstn_skipn in C. lia. }
    rewrite EL. apply andb_true_intro. split; [rewrite Nat.even_mul; reflexivity|]. apply negb_true_iff, Nat.ltb_ge.
    enough (2 <= count_occ Nat.eq_dec W n) by lia.
    destruct (nth_error nodes n) as [q|] eqn:Eq; [|apply nth_error_None in Eq; lia].
    pose proof (st_from _ _ _ _ _ _ S q (nth_error_In _ _ Eq)) as Q.
    apply in_map_iff in Q. destruct Q as (i & <- & Hi). apply in_flat_map in Hi. destruct Hi as (x & Hx & Hi).
    apply in_split in Hx. destruct Hx as (l1 & l2 & Ex).
    assert (PM : exists i1 i2 r, snd i1 = snd i /\ snd i2 = snd i /\ Permutation (flat_map both (crossings solve (pieces solve orig))) (i1 :: i2 :: r)).
    { destruct x as [[p ta] tb]. exists (ta, snd i), (tb, snd i), (flat_map both l1 ++ flat_map both l2).
      do 2 (split; [reflexivity|]). rewrite Ex, flat_map_app. cbn [flat_map].
      assert (Eb : both (p, ta, tb) = [(ta, snd i); (tb, snd i)]).
      { cbn in Hi |- *. destruct Hi as [<-|[<-|[]]]; reflexivity. }
      rewrite Eb. cbn [app]. rewrite <- Permutation_middle. constructor. symmetry. apply Permutation_middle. }
    destruct PM as (i1 & i2 & r & S1 & S2 & PM).
    pose proof (st_word _ _ _ _ _ _ S) as SW.
    assert (PL : Permutation (flat_map (fun k => sort_ixs (visits solve (pieces solve orig) k)) (seq 0 (length (pieces solve orig)))) (i1 :: i2 :: r)).
    { rewrite <- flat_map_sort_perm, (visits_perm solve _). exact PM. }
    destruct (Permutation_Forall2 PL (F2_flip _ _ _ SW)) as (W' & PW & FW).
    inversion FW as [|? w1 ? W1 H1 FW1]; subst. inversion FW1 as [|? w2 ? W2 H2 _]; subst.
    assert (I : forall w (j : R * (R * R)), nth_error nodes w = Some (snd j) -> snd j = snd i -> w = n).
    { intros w j Hw Hj. rewrite Hj in Hw. apply (proj1 (NoDup_nth_error nodes) (st_nodup _ _ _ _ _ _ S)).
      - apply nth_error_Some. congruence. - congruence. }
    rewrite (proj1 (Permutation_count_occ Nat.eq_dec _ _) PW n). rewrite (I w1 i1 H1 S1), (I w2 i2 H2 S2). cbn.
    destruct (Nat.eq_dec n n); [lia|congruence]. }
  split.
  - intros V. destruct (crossings solve (pieces solve orig)) as [|x xs] eqn:EX.
    + assert (found (answers solve (all_curves solve orig)) = false).
      { destruct (found _) eqn:Ef; [|reflexivity]. apply found_crossings in Ef. rewrite all_curves_pieces in Ef. congruence. }
      unfold self_ix_verdict in V. rewrite H in V. discriminate.
    + destruct K as [(e & _ & V')|V']; congruence.
  - intros curves E HX. destruct (K HX) as [(e & E' & _)|V]; congruence.
Qed.

Require Import Verif.P_selfix.
Local Open Scope nat_scope.
Example C65_verdict_eight : self_ix_verdict solve8 eight = Some true.
Proof.
  destruct C65_eight as (curves & E & _). exact (proj2 (C65_verdict solve8 eight) curves E (proj1 C65_hypotheses_nontrivial)).
Qed.
(* a node met once: validate() complains *)
Example C65_graph_complains : forall p : cpoint R, exists edges,
  build_graph [CB p (Some 0) None; CB p (Some 1) None; CB p None None; CB p (Some 0) None] = Ok edges /\
  length (node_edges edges 0) = 4 /\ validate edges 1 = true /\ validate edges 2 = false.
Proof. intros p. eexists. split; [reflexivity|]. repeat split. Qed.
