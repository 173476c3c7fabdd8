(* Lemmas about the self-intersection graph: building it and walking it. *)
Require Import Verif.Base Verif.M_vector Verif.M_bezier Verif.M_selfix.
From Coq Require Import List Lia PeanoNat Permutation.
Import ListNotations.

Lemma nth_error_ext {A} : forall (l l' : list A), (forall i, nth_error l i = nth_error l' i) -> l = l'.
Proof.
  induction l as [|a l IH]; intros [|b l'] H; auto.
  - specialize (H 0). discriminate.
  - specialize (H 0). discriminate.
  - pose proof (H 0) as E. injection E as ->. f_equal. apply IH. intro i. apply (H (S i)).
Qed.

Lemma nth_error_index {A} : forall (l : list A) s i,
  nth_error (combine (seq s (length l)) l) i = option_map (fun a => (s + i, a)) (nth_error l i).
Proof.
  induction l as [|a l IH]; intros s [|i]; cbn; auto.
  - rewrite Nat.add_0_r. reflexivity.
  - rewrite IH. destruct (nth_error l i); cbn; auto. do 2 f_equal. lia.
Qed.

Lemma upd_at_length {A} i (f : A -> A) l : length (upd_at i f l) = length l.
Proof. unfold upd_at. rewrite map_length, combine_length, seq_length. apply Nat.min_id. Qed.

Lemma nth_error_upd_at {A} (f : A -> A) l i j :
  nth_error (upd_at i f l) j = if j =? i then option_map f (nth_error l j) else nth_error l j.
Proof.
  unfold upd_at. rewrite nth_error_map, nth_error_index. destruct (nth_error l j); cbn; [|now destruct (j =? i)].
  now destruct (j =? i).
Qed.

Lemma nth_error_some_lt {A} (l : list A) i a : nth_error l i = Some a -> i < length l.
Proof. intro H. apply nth_error_Some. congruence. Qed.

Section Graph.
  Context {F : Type}.

  (* the arcs of a closed list of control points: from each node to the next *)
  Fixpoint arcs (cur : list (cpoint F)) (from : nat) (l : list (cpbool F)) : list (nat * list (cpoint F) * nat) :=
    match l with
    | [] => []
    | c :: l' =>
        match cb_node c with
        | None => arcs (cur ++ [cb_cp c]) from l'
        | Some n => (from, cur ++ [cb_cp c], n) :: arcs [cb_cp c] n l'
        end
    end.

  Definition chained (k : nat) (n : nat) (a : nat * list (cpoint F) * nat) : edge F :=
    Edge (if k =? 0 then None else Some (k - 1)) (fst (fst a)) (snd (fst a)) (snd a)
         (if S k =? n then None else Some (S k)) false.
  Definition chain (raw : list (nat * list (cpoint F) * nat)) : list (edge F) :=
    map (fun ka => chained (fst ka) (length raw) (snd ka)) (combine (seq 0 (length raw)) raw).
  Definition linked1 (k : nat) (n : nat) (a : nat * list (cpoint F) * nat) : edge F :=
    Edge (Some (if k =? 0 then n - 1 else k - 1)) (fst (fst a)) (snd (fst a)) (snd a)
         (Some (if S k =? n then 0 else S k)) false.
  Definition linked (raw : list (nat * list (cpoint F) * nat)) : list (edge F) :=
    map (fun ka => linked1 (fst ka) (length raw) (snd ka)) (combine (seq 0 (length raw)) raw).

  Lemma nth_error_chain raw i :
    nth_error (chain raw) i = option_map (chained i (length raw)) (nth_error raw i).
  Proof. unfold chain. rewrite nth_error_map, nth_error_index. now destruct (nth_error raw i). Qed.
  Lemma nth_error_linked raw i :
    nth_error (linked raw) i = option_map (linked1 i (length raw)) (nth_error raw i).
  Proof. unfold linked. rewrite nth_error_map, nth_error_index. now destruct (nth_error raw i). Qed.
  Lemma chain_length raw : length (chain raw) = length raw.
  Proof. unfold chain. rewrite map_length, combine_length, seq_length. apply Nat.min_id. Qed.
  Lemma linked_length raw : length (linked raw) = length raw.
  Proof. unfold linked. rewrite map_length, combine_length, seq_length. apply Nat.min_id. Qed.

  Definition prev_of (n : nat) : option nat := if n =? 0 then None else Some (n - 1).
  Definition first_of (n : nat) : option nat := if n =? 0 then None else Some 0.

  Lemma add_edge_chain raw left cps right : 2 <= length cps ->
    add_edge (chain raw) (prev_of (length raw)) (Some left) cps right = Ok (chain (raw ++ [(left, cps, right)])).
  Proof.
    intros Hc. unfold add_edge. rewrite (proj2 (Nat.ltb_ge _ _) Hc). f_equal.
    apply nth_error_ext. intro i. unfold prev_of. rewrite chain_length.
    assert (E : nth_error (chain raw ++ [Edge (prev_of (length raw)) left cps right None false]) i
            = if i <? length raw then option_map (chained i (length raw)) (nth_error raw i)
              else if i =? length raw then Some (Edge (prev_of (length raw)) left cps right None false) else None).
    { destruct (Nat.ltb_spec i (length raw)) as [L|L].
      - rewrite nth_error_app1 by (now rewrite chain_length). apply nth_error_chain.
      - rewrite nth_error_app2 by (now rewrite chain_length). rewrite chain_length.
        destruct (Nat.eqb_spec i (length raw)) as [->|N].
        + rewrite Nat.sub_diag. reflexivity.
        + destruct (i - length raw) as [|k] eqn:Q; [lia|]. destruct k; reflexivity. }
    assert (E2 : nth_error (chain (raw ++ [(left, cps, right)])) i
            = if i <? length raw then option_map (chained i (S (length raw))) (nth_error raw i)
              else if i =? length raw then Some (Edge (prev_of (length raw)) left cps right None false) else None).
    { rewrite nth_error_chain, app_length, Nat.add_1_r. destruct (Nat.ltb_spec i (length raw)) as [L|L].
      - rewrite nth_error_app1 by assumption. reflexivity.
      - rewrite nth_error_app2 by assumption. destruct (Nat.eqb_spec i (length raw)) as [Q|N].
        + rewrite Q, Nat.sub_diag. cbn [nth_error option_map]. unfold chained. rewrite Nat.eqb_refl. reflexivity.
        + destruct (i - length raw) as [|k] eqn:Q; [lia|]. destruct k; reflexivity. }
    rewrite E2. clear E2. unfold prev_of in E.
    destruct (Nat.eqb_spec (length raw) 0) as [Z|Z].
    - rewrite E. rewrite Z. destruct (Nat.ltb_spec i 0); [lia|]. reflexivity.
    - rewrite nth_error_upd_at, E. unfold prev_of. rewrite (proj2 (Nat.eqb_neq _ _) Z).
      destruct (Nat.eqb_spec i (length raw - 1)) as [->|N].
      + destruct (Nat.ltb_spec (length raw - 1) (length raw)) as [L|L]; [|lia].
        destruct (nth_error raw (length raw - 1)) as [a|]; [|reflexivity]. cbn [option_map]. f_equal.
        unfold chained. cbn [ed_rr]. replace (S (length raw - 1) =? length raw) with true by (symmetry; apply Nat.eqb_eq; lia).
        cbn [ed_rr set_rr]. unfold set_rr. cbn [ed_ll ed_left ed_cps ed_right ed_removed].
        replace (S (length raw - 1) =? S (length raw)) with false by (symmetry; apply Nat.eqb_neq; lia).
        f_equal. f_equal. lia.
      + destruct (Nat.ltb_spec i (length raw)) as [L|L].
        * destruct (nth_error raw i) as [a|]; [|reflexivity]. cbn [option_map]. f_equal. unfold chained. f_equal.
          replace (S i =? length raw) with false by (symmetry; apply Nat.eqb_neq; lia).
          replace (S i =? S (length raw)) with false by (symmetry; apply Nat.eqb_neq; lia). reflexivity.
        * reflexivity.
  Qed.

  Lemma make_edges_chain : forall l raw cur from, cur <> [] ->
    make_edges (chain raw) cur (Some from) (prev_of (length raw)) (first_of (length raw)) l
    = let raw' := raw ++ arcs cur from l in
      Ok (chain raw', prev_of (length raw'), first_of (length raw')).
  Proof.
    induction l as [|c l IH]; intros raw cur from Hc; cbn [make_edges arcs].
    - rewrite app_nil_r. reflexivity.
    - destruct (cb_node c) as [n|].
      + destruct cur as [|x cur]; [congruence|].
        rewrite add_edge_chain by (cbn; rewrite app_length; cbn; lia). cbn [bind].
        rewrite chain_length.
        specialize (IH (raw ++ [(from, (x :: cur) ++ [cb_cp c], n)]) [cb_cp c] n).
        rewrite app_length in IH. cbn [length] in IH. rewrite Nat.add_1_r in IH.
        assert (P1 : prev_of (S (length raw)) = Some (length raw)).
        { unfold prev_of. cbn. now rewrite Nat.sub_0_r. }
        assert (P2 : first_of (S (length raw)) = match first_of (length raw) with None => Some (length raw) | _ => first_of (length raw) end).
        { unfold first_of. cbn. destruct (length raw); reflexivity. }
        rewrite P1, P2 in IH. rewrite IH by discriminate. cbv zeta. rewrite <- app_assoc. reflexivity.
      + apply IH. destruct cur; discriminate.
  Qed.

  Lemma stitch_chain raw : raw <> [] ->
    stitch (chain raw, prev_of (length raw), first_of (length raw)) = Ok (linked raw).
  Proof.
    intro Hr. assert (L : length raw <> 0) by (destruct raw; [congruence|discriminate]).
    unfold stitch, prev_of, first_of. rewrite (proj2 (Nat.eqb_neq _ _) L). rewrite !nth_error_chain.
    destruct (nth_error raw (length raw - 1)) as [z|] eqn:Ez; [|apply nth_error_None in Ez; lia].
    destruct (nth_error raw 0) as [a|] eqn:Ea; [|apply nth_error_None in Ea; lia].
    cbn [option_map]. unfold chained at 1 2. cbn [ed_rr ed_ll].
    replace (S (length raw - 1) =? length raw) with true by (symmetry; apply Nat.eqb_eq; lia).
    cbn [Nat.eqb]. f_equal. apply nth_error_ext. intro i.
    rewrite !nth_error_upd_at, nth_error_chain, nth_error_linked.
    destruct (nth_error raw i) as [x|] eqn:Ei; [|now destruct (i =? 0), (i =? length raw - 1)].
    apply nth_error_some_lt in Ei. cbn [option_map].
    destruct (Nat.eqb_spec i (length raw - 1)) as [->|N].
    - cbn [option_map]. unfold chained, set_rr, set_ll, linked1. cbn [ed_ll ed_left ed_cps ed_right ed_removed ed_rr].
      replace (S (length raw - 1) =? length raw) with true by (symmetry; apply Nat.eqb_eq; lia).
      destruct (Nat.eqb_spec (length raw - 1) 0); reflexivity.
    - unfold chained, set_rr, set_ll, linked1.
      replace (S i =? length raw) with false by (symmetry; apply Nat.eqb_neq; lia).
      destruct (Nat.eqb_spec i 0); reflexivity.
  Qed.

  Lemma arcs_nonempty l c : forall cur from, cb_node c <> None -> In c l -> arcs cur from l <> [].
  Proof.
    induction l as [|d l IH]; intros cur from Hc []; cbn.
    - subst. destruct (cb_node c); [discriminate|congruence].
    - destruct (cb_node d); [discriminate|]. now apply IH.
  Qed.

  Lemma build_graph_spec c n rest : cb_node c = Some n ->
    build_graph (c :: rest) = Ok (linked (arcs [cb_cp c] n (rest ++ [c]))).
  Proof.
    intro Hc. unfold build_graph. cbn [firstn app make_edges]. rewrite Hc.
    pose proof (make_edges_chain (rest ++ [c]) [] [cb_cp c] n) as E. cbn [length chain combine seq map] in E.
    unfold prev_of at 1, first_of at 1 in E. cbn [Nat.eqb] in E. change (chain []) with (@nil (edge F)) in E.
    rewrite E by discriminate. cbv zeta. cbn [bind app]. apply stitch_chain.
    apply (arcs_nonempty _ c); [congruence|]. apply in_or_app. right. now left.
  Qed.
End Graph.
