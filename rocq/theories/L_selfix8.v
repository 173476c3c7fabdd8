(* Lemmas: from the cycles to the curves. *)
Require Import Verif.Base Verif.NumR Verif.L_real.
From Coq Require Import List Lia PeanoNat Permutation Bool Reals Lra String.
Require Import Verif.M_vector Verif.M_bezier Verif.M_group Verif.M_dump Verif.M_selfix.
Require Import Verif.S_bezier Verif.L_bezier Verif.P_bezier Verif.S_selfix.
Require Import Verif.L_selfix Verif.L_selfix2 Verif.L_selfix3 Verif.L_selfix4 Verif.L_selfix5 Verif.L_selfix6 Verif.L_selfix7.
Import ListNotations.
Open Scope R_scope.
Open Scope list_scope.

Definition dummy_cp : cpoint R := CP (P 0 0) (V 0 0) (V 0 0) EmptyString.

Section Main.
  Variable solve : cpoint R -> cpoint R -> cpoint R -> cpoint R -> list (pt R * R * R).
  Variables (orig : list (cpoint R)) (nodes : list (R * R)) (fine : list (cpoint R))
    (raw : list (nat * list (cpoint R) * nat)) (W : list nat).
  Hypothesis S : staged solve orig nodes fine raw W.
  Let n := List.length raw.
  Let arc i := nth i (map acps raw) [].
  Let farc i := if Nat.ltb i n then arc i else [dummy_cp; dummy_cp].

  Lemma raw_entry i : (i < n)%nat -> exists p mid z, arc i = p :: mid ++ [z] /\ cps_of raw i = arc i /\
    near_node solve orig nodes p (lf raw i) /\ near_node solve orig nodes z (rt raw i).
  Proof.
    intro Hi. destruct (nth_error raw i) as [a|] eqn:E; [|apply nth_error_None in E; unfold n in Hi; lia].
    pose proof (st_ends _ _ _ _ _ _ S) as H. rewrite Forall_forall in H.
    destruct (H a (nth_error_In _ _ E)) as (p & mid & z & H1 & H2 & H3).
    exists p, mid, z. unfold arc, cps_of, lf, rt. rewrite E.
    assert (Q : nth i (map acps raw) [] = acps a).
    { apply nth_error_nth. rewrite nth_error_map, E. reflexivity. }
    rewrite Q. auto.
  Qed.
  Lemma farc_long i : long (farc i).
  Proof.
    unfold farc. destruct (Nat.ltb_spec i n) as [L|L]; [|unfold long; cbn; lia].
    destruct (raw_entry i L) as (p & mid & z & -> & _). unfold long. cbn. rewrite app_length. cbn. lia.
  Qed.
  Lemma near_lt c k : near_node solve orig nodes c k -> (k < List.length nodes)%nat.
  Proof. intros (i & H & _). now apply nth_error_some_lt in H. Qed.

  Lemma farc_in l : Forall (fun i => (i < n)%nat) l -> map farc l = map arc l /\ map (cps_of raw) l = map farc l.
  Proof.
    intro H. split; apply map_ext_in; intros i Hi; rewrite Forall_forall in H; specialize (H _ Hi);
      unfold farc; rewrite (proj2 (Nat.ltb_lt i n) H); auto.
    destruct (raw_entry i H) as (_ & _ & _ & _ & E & _). exact E.
  Qed.
  Lemma farc_one i : (i < n)%nat -> cps_of raw i = farc i.
  Proof. intro H. destruct (farc_in [i]) as [_ E]; [auto|]. now injection E. Qed.

  Lemma cycle_result cyc curve : good_cycle raw cyc -> curve_of (linked raw) cyc = Ok curve ->
    exists O, Permutation O cyc /\ curve = ring (map arc O) /\ touching (map arc O).
  Proof.
    intros G H. rewrite (curve_of_arcs raw cyc (gc_lt _ _ G) (gc_some _ _ G)) in H.
    pose proof (gc_some _ _ G) as N. pose proof (gc_lt _ _ G) as L. fold n in L.
    assert (Q : bind (foldM join_edge (farc (hd 0%nat cyc)) (map farc (tl cyc))) close_curve = Ok curve).
    { destruct cyc as [|i cyc]; [congruence|]. cbn [hd tl] in *. inversion_clear L.
      rewrite <- (farc_one i) by auto. destruct (farc_in cyc) as [_ E]; auto. rewrite <- E. exact H. }
    destruct (cycle_curve farc farc_long cyc curve N Q) as (O & P1 & P2 & P3). exists O.
    assert (LO : Forall (fun i => (i < n)%nat) O) by (apply (Permutation_Forall (Permutation_sym P1)); auto).
    destruct (farc_in O LO) as [E _]. rewrite E in P2, P3. auto.
  Qed.
  Lemma cycle_error cyc e : good_cycle raw cyc -> curve_of (linked raw) cyc = Raise e -> e = ValueError.
  Proof.
    intros G H. rewrite (curve_of_arcs raw cyc (gc_lt _ _ G) (gc_some _ _ G)) in H.
    pose proof (gc_some _ _ G) as N. pose proof (gc_lt _ _ G) as L. fold n in L.
    assert (Q : bind (foldM join_edge (farc (hd 0%nat cyc)) (map farc (tl cyc))) close_curve = Raise e).
    { destruct cyc as [|i cyc]; [congruence|]. cbn [hd tl] in *. inversion_clear L.
      rewrite <- (farc_one i) by auto. destruct (farc_in cyc) as [_ E]; auto. rewrite <- E. exact H. }
    exact (cycle_raises farc farc_long cyc e N Q).
  Qed.

  (* ends of arcs *)
  Lemma starts_first (a : list (cpoint R)) p : starts a p -> first_at a = p.
  Proof. intros (c & l & -> & <-). reflexivity. Qed.
  Lemma ends_last (a : list (cpoint R)) p : ends a p -> last_at a = p.
  Proof. intros (c & l & -> & <-). unfold last_at. rewrite rev_app_distr. reflexivity. Qed.
  Lemma touch_dist a b : touch a b -> dist (last_at a) (first_at b) < 1 / 10 ^ 11.
  Proof.
    intros (p & q & E & St & C). rewrite (ends_last _ _ E), (starts_first _ _ St).
    replace (1 / 10 ^ 11) with (@join_delta R _) by (unfold join_delta; cbn; lra).
    destruct C as [C|C]; unfold p_close in C; apply Rltb_true in C.
    - now rewrite dist_length.
    - now rewrite dist_sym, dist_length.
  Qed.
  Lemma touching_linked : forall l, touching l -> linked_arcs (1 / 10 ^ 11) l.
  Proof.
    induction l as [|a [|b l] IH]; intro H; try exact I. destruct H as [H1 H2]. split; [now apply touch_dist|now apply IH].
  Qed.
  Lemma at_ends i : (i < n)%nat ->
    exists xy1 xy2, nth_error nodes (lf raw i) = Some xy1 /\ nth_error nodes (rt raw i) = Some xy2 /\
      dist (first_at (arc i)) (at_xy xy1) <= 1 / 10 ^ 10 /\ dist (last_at (arc i)) (at_xy xy2) <= 1 / 10 ^ 10.
  Proof.
    intro H. destruct (raw_entry i H) as (p & mid & z & E & _ & (i1 & N1 & D1 & _) & (i2 & N2 & D2 & _)).
    exists (snd i1), (snd i2). split; auto. split; auto. rewrite E. unfold last_at. rewrite rev_mid'. cbn [first_at].
    rewrite !dist_length. replace (1 / 10 ^ 10) with (@split_delta R _) by (unfold split_delta; cbn; lra). auto.
  Qed.

  Lemma last_map {A B} (f : A -> B) l d e : l <> [] -> last (map f l) e = f (last l d).
  Proof.
    induction l as [|a l IH]; intro N; [congruence|]. destruct l as [|b l]; auto.
    change (last (map f (a :: b :: l)) e) with (last (map f (b :: l)) e). rewrite IH by discriminate. reflexivity.
  Qed.

  Lemma cycle_shut cyc O : good_cycle raw cyc -> Permutation O cyc -> touching (map arc O) ->
    shut (INR (List.length O) * (21 / 10 ^ 11)) (map arc O).
  Proof.
    intros G HP HT.
    assert (NO : O <> []). { intros ->. apply Permutation_nil in HP. now apply (gc_some _ _ G). }
    pose proof (gc_lt _ _ G) as L. fold n in L.
    assert (GG : forall g, (forall p q, Rabs (g p - g q) <= v_length (p_sub p q)) ->
       Rabs (g (last_at (last (map arc O) [])) - g (first_at (hd [] (map arc O)))) <= INR (List.length O) * (21 / 10 ^ 11)).
    { intros g Hg.
      pose (s := fun i => g (first_at (arc i))). pose (z := fun i => g (last_at (arc i))).
      pose (c := fun k => match nth_error nodes k with Some xy => g (at_xy xy) | None => 0 end).
      rewrite (last_map arc O 0%nat []) by auto.
      replace (hd [] (map arc O)) with (arc (hd 0%nat O)) by (destruct O; [congruence|reflexivity]).
      replace (21 / 10 ^ 11) with (2 * (1 / 10 ^ 10) + 1 / 10 ^ 11) by lra.
      apply (gap s z c (lf raw) (rt raw) (1 / 10 ^ 10) (1 / 10 ^ 11) cyc O); auto.
      - apply (gc_some _ _ G).
      - lra.
      - pose proof (gc_back _ _ G) as B. clear - B. induction cyc as [|i [|j T] IH]; auto.
      - apply (gc_close _ _ G).
      - eapply Forall_impl; [|exact L]. intros k Hk. cbn beta in Hk. destruct (at_ends k Hk) as (xy1 & xy2 & N1 & N2 & D1 & D2).
        rewrite dist_length in D1, D2. unfold s, z, c. rewrite N1, N2. split; eapply Rle_trans; try apply Hg; auto.
      - clear - HT Hg. induction O as [|i [|j T] IH]; auto. destruct HT as [H1 H2]. split; [|now apply IH].
        apply touch_dist in H1. rewrite dist_length in H1. unfold s, z.
        eapply Rle_trans; [apply Hg|]. lra. }
    split; [apply (GG px), abs_px_le|apply (GG py), abs_py_le].
  Qed.
End Main.

