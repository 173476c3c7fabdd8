(* Lemmas: the points of a refined curve and of a ring of arcs. *)
Require Import Verif.Base Verif.NumR Verif.L_real.
From Coq Require Import List Lia PeanoNat Permutation Bool Reals Lra String Sorting.Sorted.
Require Import Verif.M_vector Verif.M_bezier Verif.M_group Verif.M_dump Verif.M_selfix.
Require Import Verif.S_bezier Verif.L_bezier Verif.P_bezier Verif.S_selfix.
Require Import Verif.L_selfix Verif.L_selfix2 Verif.L_selfix3 Verif.L_selfix4 Verif.L_selfix5 Verif.L_selfix6 Verif.L_selfix7 Verif.L_selfix8 Verif.L_selfix11.
Import ListNotations.
Open Scope list_scope.
Open Scope R_scope.

(* a point of one of the segments *)
Definition on_segs (l : list (cpoint R * cpoint R)) (p : pt R) : Prop :=
  exists s e t, In (s, e) l /\ 0 <= t <= 1 /\ p = segment s e t.
Lemma on_segs_app l m p : on_segs (l ++ m) p <-> on_segs l p \/ on_segs m p.
Proof.
  unfold on_segs. split.
  - intros (s & e & t & H & R). apply in_app_or in H. destruct H; [left|right]; eauto.
  - intros [(s & e & t & H & R)|(s & e & t & H & R)]; exists s, e, t; split; auto; apply in_or_app; auto.
Qed.
Lemma on_segs_concat ls p : on_segs (List.concat ls) p <-> exists l, In l ls /\ on_segs l p.
Proof.
  induction ls as [|l ls IH]; cbn [List.concat].
  - split; [intros (s & e & t & [] & _)|intros (l & [] & _)].
  - rewrite on_segs_app, IH. split.
    + intros [H|(m & H & K)]; [exists l|exists m]; split; auto; [now left|now right].
    + intros (m & [->|H] & K); [now left|right; eauto].
Qed.
Lemma on_segs_same l m p : Forall2 same_seg l m -> (on_segs l p <-> on_segs m p).
Proof.
  intro F. induction F as [|[s e] [s' e'] l m H F IH]; [tauto|].
  change ((s, e) :: l) with ([(s, e)] ++ l). change ((s', e') :: m) with ([(s', e')] ++ m). rewrite !on_segs_app, IH.
  assert (Q : on_segs [(s, e)] p <-> on_segs [(s', e')] p).
  { pose proof (fun u => same_seg_segment _ _ u H) as Q. cbn [fst snd] in Q. unfold on_segs. split.
    - intros (a & b & t & [E|[]] & R & ->). injection E as <- <-. exists s', e', t. split; [now left|]. split; auto.
    - intros (a & b & t & [E|[]] & R & ->). injection E as <- <-. exists s, e, t. split; [now left|]. split; auto. }
  tauto.
Qed.
Lemma on_segs_rotl k l p : on_segs (rotl k l) p <-> on_segs l p.
Proof. unfold rotl. rewrite on_segs_app. rewrite <- (firstn_skipn k l) at 3. rewrite on_segs_app. tauto. Qed.

(* ---------------- refined curves ---------------- *)
Lemma find_step : forall ts a t, ordered (a :: ts) -> a <= t <= last (a :: ts) 0 -> ts <> [] ->
  exists x y, In (x, y) (consecutive (a :: ts)) /\ x <= t <= y.
Proof.
  induction ts as [|b ts IH]; intros a t O H N; [congruence|]. cbn [consecutive] in O |- *.
  destruct (Rle_lt_dec t b) as [L|L].
  - exists a, b. split; [now left|lra].
  - destruct ts as [|c ts].
    + cbn in H. lra.
    + inversion_clear O. destruct (IH b t) as (x & y & I1 & I2); auto; [|discriminate|].
      * change (last (b :: c :: ts) 0) with (last (a :: b :: c :: ts) 0). lra.
      * exists x, y. split; auto. now right.
Qed.
Lemma step_range : forall ts a x y, ordered (a :: ts) -> In (x, y) (consecutive (a :: ts)) -> a <= x /\ x <= y /\ y <= last (a :: ts) 0.
Proof.
  assert (G : forall ts a, ordered (a :: ts) -> a <= last (a :: ts) 0).
  { induction ts as [|b ts IH]; intros a O; [cbn; lra|]. inversion_clear O. cbn [fst snd] in H.
    change (last (a :: b :: ts) 0) with (last (b :: ts) 0). specialize (IH b H0). lra. }
  induction ts as [|b ts IH]; intros a x y O H; [destruct H|]. pose proof O as O'. inversion_clear O. cbn [fst snd] in H0.
  change (last (a :: b :: ts) 0) with (last (b :: ts) 0). destruct H as [H|H].
  - injection H as <- <-. specialize (G ts b H1). lra.
  - destruct (IH b x y H1 H). lra.
Qed.
Lemma follows_points s e ts part p : ordered ts -> follows s e ts part -> (on_segs part p <-> on_segs [(s, e)] p).
Proof.
  intros O (H1 & H2 & H3). destruct ts as [|a ts]; [discriminate|]. injection H1 as ->.
  assert (N : ts <> []). { intros ->. cbn in H2. lra. }
  split.
  - intros (x & y & t & Hin & Ht & ->).
    assert (Q : exists c d, In (c, d) (consecutive (0 :: ts)) /\ segment x y t = segment s e (c + t * (d - c))).
    { clear - H3 Hin. revert Hin. induction H3 as [|[u v] [c d] l m Hh H3 IH]; [intros []|]; intros [E|Hin].
      - injection E as <- <-. exists c, d. split; [now left|apply Hh].
      - destruct (IH Hin) as (c' & d' & I1 & I2). exists c', d'. split; auto. now right. }
    destruct Q as (c & d & I1 & ->). destruct (step_range _ _ _ _ O I1) as (R1 & R2 & R3). rewrite H2 in R3.
    exists s, e, (c + t * (d - c)). split; [now left|]. split; auto.
    assert (0 <= t * (d - c)) by (apply Rmult_le_pos; lra).
    assert (t * (d - c) <= 1 * (d - c)) by (apply Rmult_le_compat_r; lra). lra.
  - intros (x & y & t & [E|[]] & Ht & ->). injection E as <- <-.
    destruct (find_step ts 0 t O) as (c & d & I1 & I2); auto; [rewrite H2; lra|].
    assert (Q : exists x y, In (x, y) part /\ forall u, segment x y u = segment s e (c + u * (d - c))).
    { clear - H3 I1. revert I1. induction H3 as [|[u v] [c' d'] l m Hh H3 IH]; [intros []|]; intros [E|I1].
      - injection E as -> ->. exists u, v. split; [now left|apply Hh].
      - destruct (IH I1) as (x & y & J1 & J2). exists x, y. split; auto. now right. }
    destruct Q as (x & y & J1 & J2). destruct (Req_dec c d) as [->|Ne].
    + exists x, y, 0. split; auto. split; [lra|]. rewrite J2. f_equal. lra.
    + exists x, y, ((t - c) / (d - c)). split; auto. split.
      * split; [apply Rmult_le_pos; [lra|apply Rlt_le, Rinv_0_lt_compat; lra]|]. apply (Rmult_le_reg_r (d - c)); [lra|].
        unfold Rdiv. rewrite Rmult_assoc, Rinv_l by lra. lra.
      * rewrite J2. f_equal. field. lra.
Qed.
Lemma refined_points orig fine p : refines_in_order orig fine -> (on_path fine true p <-> on_path orig true p).
Proof.
  intros (parts & E & F). change (on_segs (path_segments fine true) p <-> on_segs (path_segments orig true) p). rewrite E.
  clear E. induction F as [|[s e] part l parts (ts & O & Fo) F IH]; [tauto|]. cbn [List.concat].
  change ((s, e) :: l) with ([(s, e)] ++ l). rewrite !on_segs_app, IH. cbn [fst snd] in Fo.
  rewrite (follows_points s e ts part p O Fo). tauto.
Qed.

(* ---------------- rings ---------------- *)
Fixpoint meeting (L : list (list (cpoint R))) : Prop :=
  match L with
  | a :: ((b :: _) as l) => last_at a = first_at b /\ meeting l
  | _ => True
  end.
Lemma glue_segs : forall L, Forall long L -> meeting L -> Forall2 same_seg (consecutive (glue L)) (List.concat (map consecutive L)).
Proof.
  induction L as [|a L IH]; intros HL HM; [constructor|]. inversion HL as [|? ? La HL']; subst. destruct L as [|b L].
  - cbn. rewrite app_nil_r. apply same_refl.
  - destruct HM as [M1 M2]. destruct (long_split _ La) as (p & m & z & ->).
    destruct (glue_shape L b HL') as (q & m' & z' & b' & -> & E & _).
    rewrite (glue_cons (p :: m ++ [z]) ((q :: b') :: L) p m z q (m' ++ [z'])); auto; [|discriminate].
    specialize (IH HL' M2). rewrite E in IH. cbn [map List.concat].
    assert (Q : cc z = cc q). { unfold last_at in M1. rewrite rev_mid' in M1. exact M1. }
    change (p :: m ++ corner z q :: m' ++ [z']) with ((p :: m) ++ corner z q :: m' ++ [z']).
    rewrite consecutive_join. apply Forall2_app.
    + change (p :: m ++ [z]) with ((p :: m) ++ [z]). apply same_last; reflexivity.
    + eapply same_trans; [|exact IH]. apply (same_first (m' ++ [z']) (corner z q) q); auto.
Qed.
Lemma ring_segs L : L <> [] -> Forall long L -> meeting L -> last_at (last L []) = first_at (hd [] L) ->
  Forall2 same_seg (path_segments (ring L) true) (List.concat (map consecutive L)).
Proof.
  intros N HL HM HC. destruct L as [|a L]; [congruence|]. clear N.
  pose proof (glue_segs _ HL HM) as G. 
  destruct (glue_shape L a HL) as (p & m & z & a' & -> & E & l' & b' & E2 & _). rewrite E in G.
  eapply same_trans; [|exact G]. unfold ring. rewrite E.
  replace (rev (m ++ [z])) with (z :: rev m) by (now rewrite rev_app_distr).
  rewrite removelast_last. cbn [path_segments app]. rewrite E2 in HC. unfold last_at in HC. rewrite rev_app_distr in HC. cbn in HC.
  set (x := CP (cc p) (cdl z) (cdr p) "sharp").
  eapply same_trans; [apply (same_first (m ++ [x]) x p); reflexivity|].
  change (p :: m ++ [x]) with ((p :: m) ++ [x]). change (p :: m ++ [z]) with ((p :: m) ++ [z]).
  apply same_last; [|reflexivity]. symmetry. exact HC.
Qed.

(* ---------------- exact answers ---------------- *)
Section Exact.
  Variable solve : cpoint R -> cpoint R -> cpoint R -> cpoint R -> list (pt R * R * R).
  Variables (orig : list (cpoint R)) (nodes : list (R * R)) (fine : list (cpoint R))
    (raw : list (nat * list (cpoint R) * nat)) (W : list nat).
  Hypothesis S : staged solve orig nodes fine raw W.
  Let n := List.length raw.
  Let arc i := nth i (map acps raw) [].
  
  Hypothesis Acc : accurate solve orig 0.
  Hypothesis Sep : separated solve orig (1 / 10 ^ 11).

  Lemma E1 : 2 * 0 < 1 / 10 ^ 11. Proof. lra. Qed.
  Lemma E2 : 1 / 10 ^ 11 + 2 * 0 <= 1 / 10 ^ 11. Proof. lra. Qed.
  Lemma exact_ends i : (i < n)%nat -> exists p mid z xy1 xy2, arc i = p :: mid ++ [z] /\
    at_node nodes 0 p (lf raw i) /\ at_node nodes 0 z (rt raw i) /\
    nth_error nodes (lf raw i) = Some xy1 /\ nth_error nodes (rt raw i) = Some xy2 /\
    first_at (arc i) = at_xy xy1 /\ last_at (arc i) = at_xy xy2.
  Proof.
    intro H. destruct (raw_entry _ _ _ _ _ _ S i H) as (p & mid & z & E & _ & A & B). fold arc in E. fold (arc i) in E.
    apply (near_at _ _ _ _ Acc) in A, B. pose proof A as (xy1 & A1 & A2). pose proof B as (xy2 & B1 & B2).
    exists p, mid, z, xy1, xy2. repeat split; auto; rewrite E.
    - cbn. now apply dist_zero.
    - unfold last_at. rewrite rev_mid'. cbn. now apply dist_zero.
  Qed.
  Lemma exact_touch i j : (i < n)%nat -> (j < n)%nat -> touch (arc i) (arc j) -> rt raw i = lf raw j /\ last_at (arc i) = first_at (arc j).
  Proof.
    intros Hi Hj (p & q & En & St & C).
    destruct (exact_ends i Hi) as (a & m & z & x1 & x2 & Ei & A1 & A2 & A3 & A4 & A5 & A6).
    destruct (exact_ends j Hj) as (b & m' & z' & y1 & y2 & Ej & B1 & B2 & B3 & B4 & B5 & B6).
    assert (Ep : p = cc z). { destruct En as (c & l & Q & <-). rewrite Ei in Q. change (a :: m ++ [z]) with ((a :: m) ++ [z]) in Q. apply app_inj_tail in Q. now destruct Q as [_ ->]. }
    assert (Eq : q = cc b). { destruct St as (c & l & Q & <-). rewrite Ej in Q. now injection Q as ->. }
    subst p q.
    assert (E : rt raw i = lf raw j).
    { destruct C as [C|C].
      - exact (proj1 (close_iff _ _ _ _ _ _ S 0 _ Sep E1 E2 z b _ _ A2 B1) C).
      - symmetry. exact (proj1 (close_iff _ _ _ _ _ _ S 0 _ Sep E1 E2 b z _ _ B1 A2) C). }
    split; auto. rewrite A6, B5. rewrite E in A4. congruence.
  Qed.
  Lemma exact_meeting O : Forall (fun i => (i < n)%nat) O -> touching (map arc O) -> meeting (map arc O).
  Proof.
    induction O as [|i [|j O] IH]; intros HL HT; try exact I. destruct HT as [H1 H2].
    inversion_clear HL. split; [|now apply IH]. apply exact_touch; auto. now inversion H0.
  Qed.
  Lemma exact_shut cyc O : good_cycle raw cyc -> Permutation O cyc -> touching (map arc O) ->
    last_at (last (map arc O) []) = first_at (hd [] (map arc O)).
  Proof.
    intros G HP HT.
    assert (NO : O <> []). { intros ->. apply Permutation_nil in HP. now apply (gc_some _ _ G). }
    pose proof (gc_lt _ _ G) as L. fold n in L.
    assert (LO : Forall (fun i => (i < n)%nat) O) by (apply (Permutation_Forall (Permutation_sym HP)); auto).
    assert (GG : forall g : pt R -> R, g (last_at (last (map arc O) [])) = g (first_at (hd [] (map arc O)))).
    { intro g.
      pose (s := fun i => g (first_at (arc i))). pose (z := fun i => g (last_at (arc i))).
      pose (c := fun k => match nth_error nodes k with Some xy => g (at_xy xy) | None => 0 end).
      rewrite (last_map arc O 0%nat []) by auto.
      replace (hd [] (map arc O)) with (arc (hd 0%nat O)) by (destruct O; [congruence|reflexivity]).
      assert (Q : Rabs (z (last O 0%nat) - s (hd 0%nat O)) <= INR (List.length O) * (2 * 0 + 0)).
      { apply (gap s z c (lf raw) (rt raw) 0 0 cyc O); auto.
        - apply (gc_some _ _ G).
        - lra.
        - pose proof (gc_back _ _ G) as B. clear - B. induction cyc as [|i [|j T] IH]; auto.
        - apply (gc_close _ _ G).
        - eapply Forall_impl; [|exact L]. intros k Hk. cbn beta in Hk.
          destruct (exact_ends k Hk) as (p & mid & zz & xy1 & xy2 & _ & _ & _ & N1 & N2 & F1 & F2).
          unfold s, z, c. rewrite N1, N2, F1, F2. rewrite !(Rminus_diag_eq _ _ eq_refl), Rabs_R0. lra.
        - apply exact_meeting in HT; auto. clear - HT. induction O as [|i [|j T] IH]; try exact I. destruct HT as [H1 H2]. split; [|now apply IH].
          unfold s, z. rewrite H1, (Rminus_diag_eq _ _ eq_refl), Rabs_R0. lra. }
      replace (INR (List.length O) * (2 * 0 + 0)) with 0 in Q by ring.
      pose proof (Rabs_pos (z (last O 0%nat) - s (hd 0%nat O))).
      assert (Z : Rabs (z (last O 0%nat) - s (hd 0%nat O)) = 0) by lra.
      destruct (Req_dec (z (last O 0%nat) - s (hd 0%nat O)) 0) as [E|E]; [|apply Rabs_no_R0 in E; congruence].
      unfold s, z in E. lra. }
    destruct (last_at (last (map arc O) [])) as [x y] eqn:E1', (first_at (hd [] (map arc O))) as [x' y'] eqn:E2'.
    pose proof (GG px) as G1. pose proof (GG py) as G2. cbn in G1, G2. congruence.
  Qed.
  Lemma exact_ring cyc O p : good_cycle raw cyc -> Permutation O cyc -> touching (map arc O) ->
    (on_path (ring (map arc O)) true p <-> exists i, In i O /\ on_segs (consecutive (arc i)) p).
  Proof.
    intros G HP HT. pose proof (gc_lt _ _ G) as L. fold n in L.
    assert (LO : Forall (fun i => (i < n)%nat) O) by (apply (Permutation_Forall (Permutation_sym HP)); auto).
    assert (NO : O <> []). { intros ->. apply Permutation_nil in HP. now apply (gc_some _ _ G). }
    change (on_segs (path_segments (ring (map arc O)) true) p <-> exists i, In i O /\ on_segs (consecutive (arc i)) p).
    rewrite (on_segs_same _ (List.concat (map consecutive (map arc O)))).
    - rewrite on_segs_concat, map_map. split.
      + intros (l & Hl & Hp). apply in_map_iff in Hl. destruct Hl as (i & <- & Hi). eauto.
      + intros (i & Hi & Hp). exists (consecutive (arc i)). split; auto. now apply in_map_iff; eauto.
    - apply ring_segs.
      + destruct O; [congruence|discriminate].
      + apply Forall_map. eapply Forall_impl; [|exact LO]. intros i Hi. cbn beta in Hi.
        destruct (raw_entry _ _ _ _ _ _ S i Hi) as (a & m & z & E & _). unfold arc. rewrite E. unfold long. cbn. rewrite app_length. cbn. lia.
      + now apply exact_meeting.
      + now apply (exact_shut cyc).
  Qed.
End Exact.
