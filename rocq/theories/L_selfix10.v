(* Lemmas: with answers one can rely on, every walk gets through and every cycle can be joined. *)
Require Import Verif.Base Verif.NumR Verif.L_real.
From Coq Require Import List Lia PeanoNat Permutation Bool Reals Lra String Sorting.Sorted.
Require Import Verif.M_vector Verif.M_bezier Verif.M_group Verif.M_dump Verif.M_selfix.
Require Import Verif.S_bezier Verif.L_bezier Verif.P_bezier Verif.S_selfix.
Require Import Verif.L_selfix Verif.L_selfix2 Verif.L_selfix3 Verif.L_selfix4 Verif.L_selfix5 Verif.L_selfix6 Verif.L_selfix7 Verif.L_selfix8 Verif.L_selfix9.
Import ListNotations.
Open Scope list_scope.
Open Scope nat_scope.

(* ---------------- words ---------------- *)
Lemma nth_error_mid {A} (a : list A) p b : nth_error (a ++ p :: b) (List.length a) = Some p.
Proof. rewrite nth_error_app2, Nat.sub_diag by lia. reflexivity. Qed.
Lemma twice_at {A} (p : A) a b c k : ~ In p (a ++ b ++ c) -> nth_error (a ++ p :: b ++ p :: c) k = Some p ->
  k = List.length a \/ k = List.length a + S (List.length b).
Proof.
  intros N H. destruct (Nat.lt_ge_cases k (List.length a)) as [L|L].
  - rewrite nth_error_app1 in H by auto. exfalso. apply N, in_or_app. left. now apply nth_error_In in H.
  - rewrite nth_error_app2 in H by auto. destruct (k - List.length a) as [|j] eqn:E; [left; lia|]. cbn [nth_error] in H.
    destruct (Nat.lt_ge_cases j (List.length b)) as [L'|L'].
    + rewrite nth_error_app1 in H by auto. exfalso. apply N, in_or_app. right. apply in_or_app. left. now apply nth_error_In in H.
    + rewrite nth_error_app2 in H by auto. destruct (j - List.length b) as [|i] eqn:E'; [right; lia|]. cbn [nth_error] in H.
      exfalso. apply N, in_or_app. right. apply in_or_app. right. now apply nth_error_In in H.
Qed.
Lemma partner (pts : list (R * R)) i : twice_evenly pts -> i < List.length pts ->
  exists j, j < List.length pts /\ j <> i /\ nth_error pts j = nth_error pts i /\
    (forall k, nth_error pts k = nth_error pts i -> k = i \/ k = j) /\ Nat.odd j = negb (Nat.odd i).
Proof.
  intros G Hi. destruct (nth_error pts i) as [p|] eqn:E; [|apply nth_error_None in E; lia].
  destruct (G p (nth_error_In _ _ E)) as (a & b & c & -> & N & Ev).
  assert (P1 : nth_error (a ++ p :: b ++ p :: c) (List.length a) = Some p) by apply nth_error_mid.
  assert (P2 : nth_error (a ++ p :: b ++ p :: c) (List.length a + S (List.length b)) = Some p).
  { replace (a ++ p :: b ++ p :: c) with ((a ++ p :: b) ++ p :: c) by (now rewrite <- app_assoc).
    replace (List.length a + S (List.length b)) with (List.length (a ++ p :: b)) by (rewrite app_length; reflexivity).
    apply nth_error_mid. }
  assert (O : Nat.odd (List.length a + S (List.length b)) = negb (Nat.odd (List.length a))).
  { destruct Ev as [h Eh]. rewrite Eh, Nat.odd_add, Nat.odd_succ.
    replace (Nat.even (2 * h)) with true; [now destruct (Nat.odd _)|]. symmetry. apply Nat.even_spec. now exists h. }
  destruct (twice_at p a b c i N E) as [->| ->].
  - exists (List.length a + S (List.length b)). split; [now apply nth_error_some_lt in P2|]. split; [lia|]. split; auto. split; auto.
    intros k Hk. now apply (twice_at p a b c).
  - exists (List.length a). split; [now apply nth_error_some_lt in P1|]. split; [lia|]. split; auto. split.
    + intros k Hk. destruct (twice_at p a b c k N Hk); auto.
    + rewrite O. now rewrite negb_involutive.
Qed.

Section Route.
  Variable solve : cpoint R -> cpoint R -> cpoint R -> cpoint R -> list (pt R * R * R).
  Variables (orig : list (cpoint R)) (nodes : list (R * R)) (fine : list (cpoint R))
    (raw : list (nat * list (cpoint R) * nat)) (W : list nat).
  Hypothesis S : staged solve orig nodes fine raw W.
  Let n := List.length raw.

  Lemma W_length : List.length W = n.
  Proof. rewrite <- (st_lefts _ _ _ _ _ _ S). apply map_length. Qed.
  Lemma lf_W i : i < n -> nth_error W i = Some (lf raw i).
  Proof.
    intro H. rewrite <- (st_lefts _ _ _ _ _ _ S), nth_error_map. unfold lf.
    destruct (nth_error raw i) eqn:E; [reflexivity|]. apply nth_error_None in E. unfold n in H. lia.
  Qed.
  Lemma rt_next i : i < n -> rt raw i = lf raw (nxt raw i).
  Proof.
    intro H. assert (E : nth_error (rotl 1 W) i = Some (rt raw i)).
    { rewrite <- (st_rights _ _ _ _ _ _ S), nth_error_map. unfold rt.
      destruct (nth_error raw i) eqn:E; [reflexivity|]. apply nth_error_None in E. unfold n in H. lia. }
    pose proof W_length as L. assert (L2 := lf_W (nxt raw i) (nxt_lt raw i H)).
    destruct W as [|w W'] eqn:EW; [cbn in L; unfold n in *; lia|]. unfold rotl in E. cbn [skipn firstn] in E.
    unfold nxt in L2 |- *. fold n in L2 |- *. cbn [List.length] in L. destruct (Nat.eqb_spec (Datatypes.S i) n) as [Q|Q].
    - rewrite nth_error_app2 in E by lia. replace (i - List.length W') with 0 in E by lia. cbn in E, L2. congruence.
    - rewrite nth_error_app1 in E by lia. cbn in L2. congruence.
  Qed.

  Variable pts : list (R * R).
  Hypothesis Rt : route solve orig pts.
  Lemma W_pts : Forall2 (fun w p => nth_error nodes w = Some p) W pts.
  Proof.
    destruct Rt as (ls & HL & ->). pose proof (st_word _ _ _ _ _ _ S) as H.
    replace (flat_map (fun k => sort_ixs (visits solve (pieces solve orig) k)) (seq 0 (List.length (pieces solve orig)))) with (List.concat ls) in H.
    - clear - H. revert H. generalize (List.concat ls). intro l. generalize W. induction l as [|a l IH]; intros W0 H; inversion H; subst; constructor; auto.
    - clear Rt H. revert HL. generalize (seq 0 (List.length (pieces solve orig))). intros ks HL. induction HL as [|k l ks ls [H1 H2] HL IH]; auto.
      cbn [List.concat flat_map]. rewrite IH. apply (f_equal (fun x => x ++ _)). apply strict_unique; [exact H2|apply sort_sorted|].
      exact (Permutation_trans (Permutation_sym H1) (sort_perm _)).
  Qed.
  Lemma same_node i j : i < n -> j < n -> (lf raw i = lf raw j <-> nth_error pts i = nth_error pts j).
  Proof.
    assert (G : forall i, i < n -> exists p, nth_error pts i = Some p /\ nth_error nodes (lf raw i) = Some p).
    { intros k Hk. pose proof (lf_W k Hk) as E. revert E. generalize (lf raw k). clear Hk. pose proof W_pts as H. revert k. clear - H.
      induction H as [|w p W' pts' Hw H IH]; intros [|k] v E; try discriminate; cbn in *.
      - injection E as <-. eauto.
      - now apply IH. }
    intros Hi Hj. destruct (G i Hi) as (p & P1 & P2), (G j Hj) as (q & Q1 & Q2). rewrite P1, Q1. split.
    - intro E. rewrite E in P2. congruence.
    - intro E. injection E as <-. pose proof (st_nodup _ _ _ _ _ _ S) as ND.
      rewrite NoDup_nth_error in ND. apply ND; [now apply nth_error_some_lt in P2|congruence].
  Qed.
  Hypothesis Tw : twice_evenly pts.
  Lemma pts_length : List.length pts = n.
  Proof. rewrite <- W_length. symmetry. exact (F2_length _ _ _ W_pts). Qed.
  Definition par (i : nat) : nat :=
    match find (fun j => negb (j =? i) && (lf raw j =? lf raw i)) (seq 0 n) with Some j => j | None => 0 end.
  Lemma par_spec i : i < n -> par i < n /\ par i <> i /\ lf raw (par i) = lf raw i /\
    (forall k, k < n -> lf raw k = lf raw i -> k = i \/ k = par i) /\ Nat.odd (par i) = negb (Nat.odd i).
  Proof.
    intro Hi. destruct (partner pts i Tw) as (j & J1 & J2 & J3 & J4 & J5); [now rewrite pts_length|]. rewrite pts_length in J1.
    assert (E : par i = j).
    { unfold par. destruct (find _ _) as [k|] eqn:E.
      - apply find_some in E. destruct E as [K1 K2]. apply in_seq in K1. apply andb_true_iff in K2. destruct K2 as [K2 K3].
        apply negb_true_iff, Nat.eqb_neq in K2. apply Nat.eqb_eq in K3. apply same_node in K3; try lia.
        destruct (J4 _ K3); congruence.
      - apply find_none with (x := j) in E; [|apply in_seq; lia]. exfalso.
        apply same_node in J3; auto. rewrite J3, Nat.eqb_refl, andb_true_r in E. apply negb_false_iff, Nat.eqb_eq in E. auto. }
    rewrite E. split; auto. split; auto. split; [now apply same_node|]. split; auto.
    intros k Hk Ek. apply J4. now apply same_node in Ek.
  Qed.

  Lemma never_attribute_error : all_cycles n (linked raw) (List.length nodes) <> Raise AttributeError.
  Proof.
    intro H. destruct (never_stuck raw rt_next par) with (N := List.length nodes) (fuel := n) (es := linked raw) as (cyc & G & E); auto.
    - intros i Hi. now apply par_spec.
    - intros i Hi. now apply par_spec.
    - intros i Hi. now apply par_spec.
    - intros i j Hi Hj. now apply par_spec.
    - intros i Hi. now apply par_spec.
    - fold n. rewrite <- W_length, (word_length _ _ _ _ _ _ S), <- Nat.negb_even. apply negb_false_iff, Nat.even_spec. now eexists.
    - apply like_linked.
    - intros j Hj. rewrite !rem_linked; auto; [tauto|]. apply (sg_lt raw par); auto. intros i Hi. now apply par_spec.
    - pose proof (cycle_error _ _ _ _ _ _ S cyc _ G E). discriminate.
  Qed.
End Route.
