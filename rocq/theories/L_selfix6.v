(* Lemmas: the closed list of control points is the original curve refined. *)
Require Import Verif.Base Verif.NumR Verif.L_real.
From Coq Require Import List Lia PeanoNat Permutation Bool Reals Lra Sorting.Sorted.
Require Import Verif.M_vector Verif.M_bezier Verif.M_group Verif.M_dump Verif.M_selfix.
Require Import Verif.S_bezier Verif.L_bezier Verif.P_bezier Verif.L_dump2 Verif.S_selfix Verif.L_selfix Verif.L_selfix4 Verif.L_selfix5.
Import ListNotations.
Open Scope R_scope.

Lemma F2_impl {A B} (P Q : A -> B -> Prop) l m : (forall a b, P a b -> Q a b) -> Forall2 P l m -> Forall2 Q l m.
Proof. intros H F. induction F; constructor; auto. Qed.

(* ---------------- sorting ---------------- *)
Lemma ix_ltb_fst (a b : @ix R) : ix_ltb a b = true -> fst a <= fst b.
Proof.
  destruct a as [t [x y]], b as [t' [x' y']]. cbn [ix_ltb fst].
  destruct (neqb t t') eqn:E; [apply Reqb_true in E; intros; lra|]. intro H. apply Rltb_true in H. lra.
Qed.
Lemma ix_leb_fst (a b : @ix R) : negb (ix_ltb b a) = true -> fst a <= fst b.
Proof.
  intro H. apply negb_true_iff in H. destruct a as [t [x y]], b as [t' [x' y']]. cbn [ix_ltb fst] in *.
  destruct (neqb t' t) eqn:E; [apply Reqb_true in E; lra|]. now apply Rltb_false in H.
Qed.
Lemma sort_sorted (l : list (@ix R)) : StronglySorted (fun a b => fst a <= fst b) (sort_ixs l).
Proof.
  unfold sort_ixs. induction l as [|x l IH]; [constructor|].
  change (sorted (fun a b : @ix R => negb (ix_ltb b a)) (x :: l)) with (insert (fun a b : @ix R => negb (ix_ltb b a)) x (sorted (fun a b : @ix R => negb (ix_ltb b a)) l)).
  revert IH. generalize (sorted (fun a b : @ix R => negb (ix_ltb b a)) l). clear l. intros l IH.
  induction l as [|b l IL]; cbn [insert]; [repeat constructor|]. inversion IH as [|? ? S1 S2]; subst.
  destruct (negb (ix_ltb b x)) eqn:E.
  - apply ix_leb_fst in E. constructor; auto. constructor; auto.
    eapply Forall_impl; [|exact S2]. cbn. intros; lra.
  - apply negb_false_iff, ix_ltb_fst in E. constructor; auto.
    assert (P := insert_perm (fun a b : @ix R => negb (ix_ltb b a)) x l).
    apply (Permutation_Forall P). constructor; auto.
Qed.
Lemma sort_perm (l : list (@ix R)) : Permutation l (sort_ixs l).
Proof. apply sorted_perm. Qed.
Lemma strict_unique : forall (l1 l2 : list (@ix R)), StronglySorted (fun a b => fst a < fst b) l1 ->
  StronglySorted (fun a b => fst a <= fst b) l2 -> Permutation l1 l2 -> l1 = l2.
Proof.
  induction l1 as [|a l1 IH]; intros l2 S1 S2 P.
  - apply Permutation_nil in P. now subst.
  - destruct l2 as [|b l2]; [apply Permutation_sym, Permutation_nil in P; discriminate|].
    inversion S1 as [|? ? A1 A2]; subst. inversion S2 as [|? ? B1 B2]; subst.
    assert (a = b).
    { assert (Ia : In a (b :: l2)) by (apply (Permutation_in _ P); now left).
      assert (Ib : In b (a :: l1)) by (apply (Permutation_in _ (Permutation_sym P)); now left).
      destruct Ia as [Ia|Ia]; auto. destruct Ib as [Ib|Ib]; auto.
      rewrite Forall_forall in A2, B2. specialize (A2 _ Ib). specialize (B2 _ Ia). cbn in *. lra. }
    subst b. f_equal. apply IH; auto. now apply Permutation_cons_inv in P.
Qed.
Lemma ordered_ts (l : list (@ix R)) : StronglySorted (fun a b => fst a <= fst b) l ->
  Forall (fun i => 0 <= fst i <= 1) l -> ordered (0 :: map fst l ++ [1]).
Proof.
  intros H HF. unfold ordered.
  assert (G : forall t, 0 <= t <= 1 -> Forall (fun i : ix => t <= fst i) l -> Forall (fun ab : R * R => fst ab <= snd ab) (consecutive (t :: map fst l ++ [1]))).
  { induction H as [|a l S1 IH S2]; intros t Ht Hl.
    - cbn. constructor; [cbn; lra|constructor].
    - inversion_clear HF. inversion_clear Hl. cbn [map app consecutive]. constructor; [exact H1|].
      apply IH; auto. }
  apply G; [lra|]. eapply Forall_impl; [|exact HF]. cbn. intros; lra.
Qed.

(* ---------------- the chain of segments ---------------- *)
Fixpoint chseg (p : pt R) (l : list (seg R)) : Prop :=
  match l with [] => True | s :: l' => cc (sg_a s) = p /\ chseg (cc (sg_b s)) l' end.
Fixpoint endseg (p : pt R) (l : list (seg R)) : pt R :=
  match l with [] => p | s :: l' => endseg (cc (sg_b s)) l' end.
Lemma chseg_app : forall l l' p, chseg p l -> chseg (endseg p l) l' -> chseg p (l ++ l').
Proof. induction l as [|s l IH]; intros l' p H H'; cbn in *; auto. destruct H; auto. Qed.
Lemma endseg_app : forall l l' p, endseg p (l ++ l') = endseg (endseg p l) l'.
Proof. induction l as [|s l IH]; intros l' p; cbn; auto. Qed.

Lemma chain_consecutive (g : (nat * cpoint R) * (nat * cpoint R) -> list (seg R)) :
  (forall a b, chseg (cc (snd a)) (g (a, b)) /\ g (a, b) <> [] /\ forall p, endseg p (g (a, b)) = cc (snd b)) ->
  forall l a, chseg (cc (snd a)) (flat_map g (consecutive (a :: l))) /\
    (l <> [] -> endseg (cc (snd a)) (flat_map g (consecutive (a :: l))) = cc (snd (last l a))).
Proof.
  intro G. induction l as [|b l IH]; intro a; [split; [exact I|congruence]|].
  cbn [consecutive flat_map]. destruct (G a b) as (G1 & _ & G2). destruct (IH b) as [I1 I2]. split.
  - apply chseg_app; auto. rewrite G2. exact I1.
  - intros _. rewrite endseg_app, G2. destruct l as [|c l]; [reflexivity|].
    change (last (b :: c :: l) a) with (last (c :: l) a).
    assert (NE : c :: l <> []) by discriminate. etransitivity; [exact (I2 NE)|]. f_equal. f_equal. clear. revert c. induction l as [|d l IH]; intro c; auto. apply (IH d).
Qed.

Section Whole.
  Variable solve : cpoint R -> cpoint R -> cpoint R -> cpoint R -> list (pt R * R * R).
  Definition curves_of (segs : list (seg R)) : list (seg R * list (@ix R)) :=
    map (fun ks => (snd ks, ixs_of (answers solve segs) (fst ks))) (combine (seq 0 (length segs)) segs).

  Lemma chainedp_chseg : forall (segs : list (seg R)) ans s p,
    chseg p segs <-> chainedp p (map (fun ks => (snd ks, ixs_of ans (fst ks))) (combine (seq s (length segs)) segs)).
  Proof.
    induction segs as [|a segs IH]; intros ans s p; cbn; [tauto|]. unfold pt_a, pt_b. cbn. rewrite <- IH. tauto.
  Qed.
  Lemma end_of_endseg : forall (segs : list (seg R)) ans s p,
    end_of p (map (fun ks => (snd ks, ixs_of ans (fst ks))) (combine (seq s (length segs)) segs)) = endseg p segs.
  Proof. induction segs as [|a segs IH]; intros ans s p; cbn; auto. Qed.

  Lemma all_curves_chain orig a l : orig = a :: l ->
    chseg (cc a) (all_curves solve orig) /\ endseg (cc a) (all_curves solve orig) = cc a.
  Proof.
    intros ->. unfold all_curves. rewrite iter_rotate2_path. cbn [length seq combine path_segments].
    set (g := fun ab : nat * cpoint R * (nat * cpoint R) => _).
    assert (G : forall a b, chseg (cc (snd a)) (g (a, b)) /\ g (a, b) <> [] /\ forall p, endseg p (g (a, b)) = cc (snd b)).
    { clear. intros [i a] [j b]. unfold g, bez_split_half. destruct (bez_split a b (ndiv (nofZ 1) (nofZ 2))) as [[x m] y] eqn:E.
      pose proof (C31_split_shape _ _ _ _ _ _ E) as (S1 & S2 & S3 & S4 & _).
      destruct (solve x m m y); cbn; repeat split; auto; discriminate. }
    destruct (chain_consecutive g G (combine (seq 1 (length l)) l ++ [(0%nat, a)]) (0%nat, a)) as [C1 C2].
    cbn [snd] in *. split; auto. etransitivity; [apply C2; destruct (combine (seq 1 (length l)) l); discriminate|].
    rewrite last_last. reflexivity.
  Qed.

  Lemma curves_visits segs : Forall2 (fun ps cv => ends_of (fst cv) = fst ps /\ snd cv = visits solve (map ends_of segs) (snd ps))
    (combine (map ends_of segs) (seq 0 (length segs))) (curves_of segs).
  Proof.
    unfold curves_of.
    assert (G : forall all l s, Forall2 (fun (ps : (cpoint R * cpoint R) * nat) (cv : seg R * list (@ix R)) => ends_of (fst cv) = fst ps /\ snd cv = visits solve (map ends_of all) (snd ps))
       (combine (map ends_of l) (seq s (length l))) (map (fun ks => (snd ks, ixs_of (answers solve all) (fst ks))) (combine (seq s (length l)) l))).
    { intros all. induction l as [|a l IH]; intro s; cbn; constructor; auto. cbn. split; auto.
      apply (ixs_of_visits solve all 0 s). }
    apply G.
  Qed.

  Lemma flat_map_curves {B} (h : list (@ix R) -> list B) segs :
    flat_map (fun c => h (snd c)) (curves_of segs) = flat_map (fun k => h (visits solve (map ends_of segs) k)) (seq 0 (length segs)).
  Proof.
    pose proof (curves_visits segs) as H. revert H. generalize (curves_of segs). intro cv.
    assert (G : forall l s (cv : list (seg R * list (@ix R))), Forall2 (fun ps cv => ends_of (fst cv) = fst ps /\ snd cv = visits solve (map ends_of segs) (snd ps)) (combine (map ends_of l) (seq s (length l))) cv ->
       flat_map (fun c => h (snd c)) cv = flat_map (fun k => h (visits solve (map ends_of segs) k)) (seq s (length l))).
    { induction l as [|a l IH]; intros s cv' H; cbn in H; inversion H; subst; auto.
      cbn [length seq flat_map]. destruct H2 as [_ E]. cbn [snd] in E. f_equal; [|now apply IH]. f_equal. exact E. }
    intro H. now apply (G segs 0%nat).
  Qed.

  (* the pieces of the list follow the asked segments *)
  Lemma Forall2_concat_inv {A B} (P : A -> B -> Prop) : forall ys xs, Forall2 P xs (concat ys) ->
    exists xss, xs = concat xss /\ Forall2 (Forall2 P) xss ys.
  Proof.
    induction ys as [|y ys IH]; intros xs H; cbn in H.
    - inversion H. exists []. split; auto.
    - apply Forall2_app_inv_r in H. destruct H as (x1 & x2 & H1 & H2 & ->). destruct (IH _ H2) as (xss & -> & H3).
      exists (x1 :: xss). split; auto.
  Qed.
  Definition piece_ok (ps : list (cpoint R * cpoint R)) (pk : (cpoint R * cpoint R) * nat) (part : list (cpoint R * cpoint R)) : Prop :=
    follows (fst (fst pk)) (snd (fst pk)) (0 :: map fst (sort_ixs (visits solve ps (snd pk))) ++ [1]) part.
  Lemma follows_step A B part part' ts : Forall2 same_seg part part' -> Forall2 (step A B) part' (consecutive ts) ->
    hd_error ts = Some 0 -> last ts 0 = 1 -> follows A B ts part.
  Proof.
    intros H1 H2 H3 H4. split; [|split]; auto. revert H2. generalize (consecutive ts). intros cs H2. revert cs H2.
    induction H1 as [|x y xs ys Hxy H1 IH]; intros cs H2; inversion H2 as [|? z ? ? St Sts]; subst; constructor; auto.
    intro u. rewrite (same_seg_segment _ _ u Hxy). apply St.
  Qed.
  Lemma last_ts l : last (0 :: l ++ [1]) 0 = 1.
  Proof. change (0 :: l ++ [1]) with ((0 :: l) ++ [1]). apply last_last. Qed.

  Lemma parts_follow (Q : place) nodes segs locals xs :
    Forall2 (local_ok Q nodes) (curves_of segs) locals -> Forall2 same_seg xs (concat (map csegs locals)) ->
    exists parts, xs = concat parts /\
      Forall2 (piece_ok (map ends_of segs)) (combine (map ends_of segs) (seq 0 (length segs))) parts.
  Proof.
    intros HL HX. apply Forall2_concat_inv in HX. destruct HX as (parts & -> & HP). exists parts. split; auto.
    pose proof (curves_visits segs) as HV. revert HV HL HP.
    generalize (combine (map ends_of segs) (seq 0 (length segs))) (curves_of segs). intros pks cvs HV. revert locals parts.
    induction HV as [|pk cv pks cvs [E1 E2] HV IH]; intros locals parts HL HP; inversion HL; subst; cbn in HP; inversion HP; subst; constructor; eauto.
    destruct H1 as (_ & _ & _ & St). unfold piece_ok. rewrite <- E1, <- E2. cbn [ends_of fst snd].
    eapply follows_step; eauto. apply last_ts.
  Qed.

  (* two halves together follow the whole *)
  Lemma follows_halves a b x m y ts1 ts2 p1 p2 : bez_split a b (1 / 2) = (x, m, y) ->
    follows x m ts1 p1 -> follows m y ts2 p2 ->
    exists ts, follows a b ts (p1 ++ p2) /\ (ordered ts1 -> ordered ts2 -> ordered ts).
  Proof.
    intros E (A1 & A2 & A3) (B1 & B2 & B3).
    set (h1 := fun t => t / 2). set (h2 := fun t => 1 / 2 + t / 2).
    destruct ts1 as [|s1 ts1] using rev_ind; [discriminate|]. clear IHts1.
    rewrite last_last in A2. subst s1.
    destruct ts2 as [|s2 ts2]; [discriminate|]. injection B1 as ->.
    assert (C : consecutive (map h1 ts1 ++ (1 / 2) :: map h2 ts2) = consecutive (map h1 (ts1 ++ [1])) ++ consecutive (map h2 (0 :: ts2))).
    { rewrite consecutive_join. f_equal.
      - rewrite map_app. reflexivity.
      - cbn [map]. do 2 f_equal. unfold h2. lra. }
    exists (map h1 ts1 ++ (1 / 2) :: map h2 ts2). split; [split; [|split]|].
    - destruct ts1 as [|t ts1]; cbn in A1 |- *; injection A1 as A1.
      + lra.
      + f_equal. unfold h1. lra.
    - destruct (@exists_last _ (0 :: ts2)) as (l & z & Q); [discriminate|]. rewrite Q, last_last in B2. subst z.
      destruct ts2 as [|t ts2] using rev_ind.
      + destruct l as [|? [|? ?]]; cbn in Q; [injection Q as Q; lra|discriminate|discriminate].
      + change (0 :: ts2 ++ [t]) with ((0 :: ts2) ++ [t]) in Q. apply app_inj_tail in Q. destruct Q as [_ ->].
        rewrite map_app. cbn [map].
        replace (map h1 ts1 ++ 1 / 2 :: map h2 ts2 ++ [h2 1]) with ((map h1 ts1 ++ 1 / 2 :: map h2 ts2) ++ [h2 1]) by (now rewrite <- app_assoc).
        rewrite last_last. unfold h2. lra.
    - rewrite C. apply Forall2_app.
      + rewrite consecutive_map. clear - A3 E. revert A3. generalize (consecutive (ts1 ++ [1])). intros cs H. induction H; cbn; constructor; auto.
        intro u. cbn [fst snd]. rewrite H. destruct (C31_split_traces _ _ _ _ _ _ (fst y0 + u * (snd y0 - fst y0)) E) as [-> _].
        f_equal. unfold h1. lra.
      + rewrite consecutive_map. clear - B3 E. revert B3. generalize (consecutive (0 :: ts2)). intros cs H. induction H; cbn; constructor; auto.
        intro u. cbn [fst snd]. rewrite H. destruct (C31_split_traces _ _ _ _ _ _ (fst y0 + u * (snd y0 - fst y0)) E) as [_ ->].
        f_equal. unfold h2. lra.
    - unfold ordered. intros O1 O2. rewrite C. apply Forall_app. rewrite !consecutive_map. split; apply Forall_forall; intros ab Hab.
      + apply in_map_iff in Hab. destruct Hab as ([t1 t2] & <- & Hab). rewrite Forall_forall in O1. specialize (O1 _ Hab).
        cbn in *. unfold h1. lra.
      + apply in_map_iff in Hab. destruct Hab as ([t1 t2] & <- & Hab). rewrite Forall_forall in O2. specialize (O2 _ Hab).
        cbn in *. unfold h2. lra.
  Qed.

  Lemma group_parts : forall ses pks parts,
    map fst pks = flat_map
      (fun se : cpoint R * cpoint R =>
         let '(l, m, r) := bez_split (fst se) (snd se) (1 / 2) in
         match solve l m m r with [] => [se] | _ => [(l, m); (m, r)] end) ses ->
    forall (ts_of : (cpoint R * cpoint R) * nat -> list R),
    Forall2 (fun pk part => follows (fst (fst pk)) (snd (fst pk)) (ts_of pk) part) pks parts ->
    exists gs, concat parts = concat gs /\
      Forall2 (fun se part => exists ts, ((forall pk, In pk pks -> ordered (ts_of pk)) -> ordered ts) /\ follows (fst se) (snd se) ts part) ses gs.
  Proof.
    induction ses as [|[a b] ses IH]; intros pks parts E ts_of HF; cbn [flat_map fst snd] in E.
    - destruct pks; [|discriminate]. inversion HF. exists []. split; constructor.
    - destruct (bez_split a b (1 / 2)) as [[x m] y] eqn:Es. destruct (solve x m m y).
      + cbn in E. destruct pks as [|pk pks]; [discriminate|]. injection E as E0 E. inversion HF; subst.
        destruct (IH pks l' E ts_of H3) as (gs & G1 & G2). exists (y0 :: gs). split; [cbn; congruence|].
        constructor.
        * exists (ts_of pk). rewrite E0 in H1. split; auto. intro Q. apply Q. now left.
        * eapply F2_impl; [|exact G2]. intros se part (ts & T1 & T2). exists ts. split; auto. intro Q. apply T1. intros. apply Q. now right.
      + cbn in E. destruct pks as [|pk [|pk' pks]]; try discriminate. injection E as E0 E1 E. inversion HF as [|? y0 ? l1 H1 H3]; subst. inversion H3 as [|? y1 ? l2 H5 H6]; subst.
        destruct (IH pks l2 E ts_of H6) as (gs & G1 & G2).
        rewrite E0 in H1. rewrite E1 in H5. destruct (follows_halves _ _ _ _ _ _ _ _ _ Es H1 H5) as (ts & F1 & F2).
        exists ((y0 ++ y1) :: gs). split; [cbn; rewrite <- app_assoc; congruence|].
        constructor.
        * exists ts. split; auto. intro Q. apply F2; apply Q; [now left|right; now left].
        * eapply F2_impl; [|exact G2]. intros se part (ts' & T1 & T2). exists ts'. split; auto. intro Q. apply T1. intros. apply Q. right. now right.
  Qed.

  Lemma map_fst_combine {A B} : forall (l : list A) (m : list B), length l = length m -> map fst (combine l m) = l.
  Proof. induction l as [|a l IH]; intros [|b m] H; cbn in *; try discriminate; auto. f_equal. auto. Qed.

  Lemma refines_parts (Q : place) orig nodes locals fine :
    Forall2 (local_ok Q nodes) (curves_of (all_curves solve orig)) locals ->
    Forall2 same_seg (path_segments fine true) (concat (map csegs locals)) ->
    refines orig fine /\
    ((forall k t xy, In (t, xy) (visits solve (pieces solve orig) k) -> 0 <= t <= 1) -> refines_in_order orig fine).
  Proof.
    intros HL HX. destruct (parts_follow _ _ _ _ _ HL HX) as (parts & E & HP).
    rewrite all_curves_pieces in HP. unfold piece_ok in HP.
    apply (group_parts (path_segments orig true)) in HP.
    2: { rewrite map_fst_combine; [reflexivity|]. rewrite seq_length, <- all_curves_pieces, map_length. reflexivity. }
    destruct HP as (gs & G1 & G2). split.
    - exists gs. rewrite E, G1. split; auto. eapply F2_impl; [|exact G2]. intros se part (ts & _ & T). eauto.
    - intro HT. exists gs. rewrite E, G1. split; auto. eapply F2_impl; [|exact G2]. intros se part (ts & O & T). exists ts.
      split; auto. apply O. intros pk _. apply ordered_ts; [apply sort_sorted|].
      apply (Permutation_Forall (sort_perm _)). apply Forall_forall. intros [t xy] Hin. cbn. eapply HT. exact Hin.
  Qed.
End Whole.
