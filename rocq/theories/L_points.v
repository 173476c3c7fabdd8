(* Lemmas for live points. *)
Require Import Verif.Base Verif.M_vector Verif.M_points Verif.S_points.
From Coq Require Import List Lia Arith Wf_nat.
Import ListNotations.

Section L.
  Context {F : Type} {NF : Num F}.

  Definition base_of (d : pnode F) : option nat :=
    match d with NPoint _ _ _ => None | NRel _ _ b _ => Some b | NCalc b _ _ => Some b end.
  Definition wf (st : pstore F) : Prop :=
    forall i d, nth_error st i = Some d -> (forall b, base_of d = Some b -> b < i) /\
      (forall b s n, d = NCalc b s n -> forall x y m, nth_error st b <> Some (NPoint x y m)).

  Lemma nth_upd (st : pstore F) k d : k < length st -> forall j,
    nth_error (upd st k d) j = if j =? k then Some d else nth_error st j.
  Proof.
    intros Hk j. unfold upd.
    assert (L : length (firstn k st) = k) by (rewrite firstn_length; lia).
    destruct (Nat.eqb_spec j k) as [->|N].
    - rewrite nth_error_app2 by lia. rewrite L, Nat.sub_diag. reflexivity.
    - destruct (Nat.lt_ge_cases j k).
      + rewrite nth_error_app1 by lia. 
        rewrite <- (firstn_skipn k st) at 2. rewrite nth_error_app1 by lia. reflexivity.
      + rewrite nth_error_app2 by lia. rewrite L.
        destruct (j - k) as [|m] eqn:E; [lia|]. cbn [nth_error].
        rewrite <- (firstn_skipn (S k) st) at 2.
        rewrite nth_error_app2 by (rewrite firstn_length; lia).
        f_equal. rewrite firstn_length. lia.
  Qed.
  Lemma nth_lt (st : pstore F) i d : nth_error st i = Some d -> i < length st.
  Proof. intros H. apply nth_error_Some. congruence. Qed.

  Lemma wf_app st d : wf st -> (forall b, base_of d = Some b -> b < length st) ->
    (forall b s n, d = NCalc b s n -> forall x y m, nth_error st b <> Some (NPoint x y m)) -> wf (st ++ [d]).
  Proof.
    intros W Hd Hc i e H.
    assert (X : forall b, b < length st -> nth_error (st ++ [d]) b = nth_error st b)
      by (intros; apply nth_error_app1; auto).
    destruct (Nat.lt_ge_cases i (length st)).
    - rewrite X in H by auto. destruct (W i e H) as [W1 W2]. split; auto.
      intros b s n -> x y m. rewrite X by (specialize (W1 b eq_refl); lia). eapply W2; eauto.
    - rewrite nth_error_app2 in H by auto. destruct (i - length st) eqn:E; cbn in H; [|destruct n; discriminate].
      inversion H; subst. split.
      + intros b Hb. specialize (Hd b Hb). lia.
      + intros b s n -> x y m. rewrite X by (apply Hd; auto). eapply Hc; eauto.
  Qed.
  (* an assignment keeps kind and base *)
  Definition same_shape (d e : pnode F) : Prop :=
    match d, e with
    | NPoint _ _ _, NPoint _ _ _ => True
    | NRel _ _ b _, NRel _ _ b' _ => b = b'
    | NCalc b _ _, NCalc b' _ _ => b = b'
    | _, _ => False
    end.
  Lemma wf_upd st k d e : wf st -> nth_error st k = Some d -> same_shape d e -> wf (upd st k e).
  Proof.
    intros W Hk Sh i f. pose proof (nth_lt _ _ _ Hk) as Lk. rewrite nth_upd by auto.
    destruct (Nat.eqb_spec i k) as [->|N]; intros H.
    - inversion H; subst f. destruct (W k d Hk) as [W1 W2]. split.
      + intros b Hb. apply W1. destruct d, e; cbn in *; congruence || contradiction || auto.
      + intros b s n -> x y m. destruct d; cbn in Sh; try contradiction. subst.
        rewrite nth_upd by auto. destruct (Nat.eqb_spec b k).
        * subst. specialize (W1 k eq_refl). lia.
        * eapply W2; eauto.
    - destruct (W i f H) as [W1 W2]. split; auto.
      intros b s n -> x y m. rewrite nth_upd by auto. destruct (Nat.eqb_spec b k).
      + subst. intros C. inversion C; subst e. destruct d; cbn in Sh; try contradiction. eapply W2; eauto.
      + eapply W2; eauto.
  Qed.

  Lemma xy_fuel st : wf st -> forall f1 f2 i, i < f1 -> i < f2 -> xy f1 st i = xy f2 st i.
  Proof.
    intros W. induction f1 as [|f1 IH]; intros f2 i H1 H2; [lia|]. destruct f2 as [|f2]; [lia|].
    cbn [xy]. destruct (nth_error st i) as [d|] eqn:E; auto. pose proof (W i d E) as B.
    destruct d as [x y n|dx dy b n|b s n]; auto.
    - destruct B as [B _]. specialize (B b eq_refl). rewrite (IH f2 b) by lia. reflexivity.
    - destruct B as [B _]. specialize (B b eq_refl). destruct (nth_error st b) as [e|] eqn:Eb; auto.
      pose proof (W b e Eb) as [B2 _]. destruct e as [x y m|dx dy bb m|bb s' m]; auto.
      + specialize (B2 bb eq_refl). rewrite (IH f2 bb) by lia. reflexivity.
      + specialize (B2 bb eq_refl). rewrite (IH f2 bb) by lia. reflexivity.
  Qed.

  Lemma pos_eq st i : wf st -> pos st i =
    match nth_error st i with
    | None => Raise KeyError
    | Some (NPoint x y _) => Ok (P x y)
    | Some (NRel dx dy b _) => let* p := pos st b in Ok (P (dx + px p) (dy + py p))%num
    | Some (NCalc b scale _) =>
        match nth_error st b with
        | None => Raise KeyError
        | Some (NPoint _ _ _) => Raise AttributeError
        | Some (NRel dx dy bb _) =>
            let* p := pos st bb in Ok (P (scale * dx + px p) (scale * dy + py p))%num
        | Some (NCalc bb _ _) => let* p := pos st bb in Raise AttributeError
        end
    end.
  Proof.
    intros W. unfold pos at 1. cbn [xy]. destruct (nth_error st i) as [d|] eqn:E; auto.
    pose proof (W i d E) as [B _]. destruct d as [x y n|dx dy b n|b s n]; auto.
    - specialize (B b eq_refl). unfold pos. rewrite (xy_fuel st W i (S b) b) by lia. reflexivity.
    - specialize (B b eq_refl). destruct (nth_error st b) as [e|] eqn:Eb; auto.
      pose proof (W b e Eb) as [B2 _]. destruct e as [x y m|dx dy bb m|bb s' m]; auto;
        specialize (B2 bb eq_refl); unfold pos; rewrite (xy_fuel st W i (S bb) bb) by lia; reflexivity.
  Qed.

  Lemma pstep_wf st o : wf st -> wf (fst (pstep st o)).
  Proof.
    intros W. destruct o as [x y n|dx dy b n|x y b|b s n|i|i|i x y|i j|i dx dy|i s]; cbn [pstep].
    - apply wf_app; auto; [intros ? H; discriminate|discriminate].
    - destruct (nth_error st b) eqn:E; cbn [fst]; auto.
      apply wf_app; auto; [|discriminate]. intros b' H. inversion H; subst. eapply nth_lt; eauto.
    - destruct (pos st b) eqn:E; cbn [fst]; auto.
      apply wf_app; auto; [|discriminate]. intros b' H. inversion H; subst.
      destruct (nth_error st b') eqn:Eb; [eapply nth_lt; eauto|].
      rewrite pos_eq, Eb in E by auto. discriminate.
    - destruct (nth_error st b) as [e|] eqn:E; cbn [fst]; auto.
      destruct e; cbn [fst]; auto.
      + apply wf_app; auto.
        * intros b' H. inversion H; subst. eapply nth_lt; eauto.
        * intros b' s' n' H. inversion H; subst. congruence.
      + apply wf_app; auto.
        * intros b' H. inversion H; subst. eapply nth_lt; eauto.
        * intros b' s' n' H. inversion H; subst. congruence.
    - destruct (nth_error st i) as [e|] eqn:E; cbn [fst]; auto.
      destruct (W i e E) as [W1 W2]. pose proof (nth_lt _ _ _ E).
      destruct e; cbn [fst]; apply wf_app; auto; try (intros ? Hd; discriminate); try discriminate.
      + intros b' H'. specialize (W1 b' H'). lia.
      + intros b' H'. specialize (W1 b' H'). lia.
    - destruct (nth_error st i) as [e|] eqn:E; cbn [fst]; auto.
      destruct (pos st i); cbn [fst]; auto.
      apply wf_app; auto; [intros ? H; discriminate|discriminate].
    - destruct (nth_error st i) as [e|] eqn:E; cbn [fst]; auto.
      destruct e; cbn [fst]; auto. eapply wf_upd; eauto. exact I.
    - destruct (nth_error st i) as [e|] eqn:E; cbn [fst]; auto.
      destruct e; cbn [fst]; auto. destruct (pos st j); cbn [fst]; auto. eapply wf_upd; eauto. exact I.
    - destruct (nth_error st i) as [e|] eqn:E; cbn [fst]; auto.
      destruct e; cbn [fst]; auto. eapply wf_upd; eauto. reflexivity.
    - destruct (nth_error st i) as [e|] eqn:E; cbn [fst]; auto.
      destruct e; cbn [fst]; auto. eapply wf_upd; eauto. reflexivity.
  Qed.
  Lemma prun_wf ops : forall st, wf st -> wf (prun ops st).
  Proof.
    induction ops as [|o ops IH]; intros st W; auto. cbn. apply IH. apply pstep_wf; auto.
  Qed.
  Lemma wf_nil : wf [].
  Proof. intros i d H. destruct i; discriminate. Qed.
  Lemma reachable_wf st : reachable st -> wf st.
  Proof. intros [ops ->]. apply prun_wf, wf_nil. Qed.

  Lemma pos_located st : wf st -> forall i p, pos st i = Ok p <-> located st i p.
  Proof.
    intros W. induction i as [i IH] using lt_wf_ind. intros p. rewrite pos_eq by auto.
    destruct (nth_error st i) as [d|] eqn:E.
    2:{ split; [discriminate|intros L; destruct L; congruence]. }
    pose proof (W i d E) as [B Bc]. destruct d as [x y n|dx dy b n|b s n].
    - split.
      + intros H. inversion H. eapply loc_point; eauto.
      + intros L. inversion L; subst; congruence.
    - specialize (B b eq_refl). split.
      + destruct (pos st b) as [q|] eqn:Eb; cbn; [|discriminate].
        intros H. inversion H. eapply loc_rel; eauto. apply IH; auto.
      + intros L. inversion L; subst; try congruence. rewrite E in H. inversion H; subst.
        apply IH in H0; auto. rewrite H0. reflexivity.
    - specialize (B b eq_refl). destruct (nth_error st b) as [e|] eqn:Eb.
      2:{ split; [discriminate|]. intros L. inversion L; subst; congruence. }
      pose proof (W b e Eb) as [B2 _]. destruct e as [x y m|dx dy bb m|bb s' m].
      + split; [discriminate|]. intros L. inversion L; subst; congruence.
      + specialize (B2 bb eq_refl). split.
        * destruct (pos st bb) as [q|] eqn:Ebb; cbn; [|discriminate].
          intros H. inversion H. eapply loc_calc; eauto. apply IH; auto. lia.
        * intros L. inversion L; subst; try congruence. rewrite E in H. inversion H; subst.
          rewrite Eb in H0. inversion H0; subst. apply IH in H1; [|lia]. rewrite H1. reflexivity.
      + split; [destruct (pos st bb); discriminate|]. intros L. inversion L; subst; congruence.
  Qed.

  (* for existing objects the only failure is a PointCalc over a PointCalc *)
  Lemma pos_fails st : wf st -> forall i, i < length st ->
    (exists p, pos st i = Ok p) \/ (pos st i = Raise AttributeError /\ calc_on_calc st i).
  Proof.
    intros W. induction i as [i IH] using lt_wf_ind. intros Hi. rewrite pos_eq by auto.
    destruct (nth_error st i) as [d|] eqn:E; [|apply nth_error_None in E; lia].
    pose proof (W i d E) as [B Bc]. destruct d as [x y n|dx dy b n|b s n].
    - eauto.
    - specialize (B b eq_refl). destruct (IH b B ltac:(lia)) as [[p Hp]|[Hp C]]; rewrite Hp; cbn; eauto.
      right. split; auto. eapply cc_rel; eauto.
    - specialize (B b eq_refl). destruct (nth_error st b) as [e|] eqn:Eb; [|apply nth_error_None in Eb; lia].
      pose proof (W b e Eb) as [B2 _]. destruct e as [x y m|dx dy bb m|bb s' m].
      + exfalso. eapply Bc; eauto.
      + specialize (B2 bb eq_refl). destruct (IH bb ltac:(lia) ltac:(lia)) as [[p Hp]|[Hp C]]; rewrite Hp; cbn; eauto.
        right. split; auto. eapply cc_calc; eauto.
      + specialize (B2 bb eq_refl). right. split; [|eapply cc_here; eauto].
        destruct (IH bb ltac:(lia) ltac:(lia)) as [[p Hp]|[Hp C]]; rewrite Hp; reflexivity.
  Qed.
  Lemma calc_on_calc_fails st i p : wf st -> calc_on_calc st i -> pos st i <> Ok p.
  Proof.
    intros W C. revert p. induction C; intros p; rewrite pos_eq by auto; rewrite H.
    - rewrite H0. destruct (pos st b'); discriminate.
    - destruct (pos st b) as [q|]; [|discriminate]. exfalso. apply (IHC q); auto.
    - rewrite H0. destruct (pos st bb) as [q|]; [|discriminate]. exfalso. apply (IHC q); auto.
  Qed.

  (* appending an object disturbs no other *)
  Lemma wf_prefix st d : wf (st ++ [d]) -> wf st.
  Proof.
    intros W i e H. pose proof (nth_lt _ _ _ H).
    assert (X : forall b, b < length st -> nth_error (st ++ [d]) b = nth_error st b)
      by (intros; apply nth_error_app1; auto).
    destruct (W i e) as [W1 W2]; [rewrite X; auto|]. split; auto.
    intros b s n -> x y m. rewrite <- X by (specialize (W1 b eq_refl); lia). eapply W2; eauto.
  Qed.
  Lemma pos_app st d : wf (st ++ [d]) -> forall i, i < length st -> pos (st ++ [d]) i = pos st i.
  Proof.
    intros W. pose proof (wf_prefix _ _ W) as W'.
    assert (X : forall b, b < length st -> nth_error (st ++ [d]) b = nth_error st b)
      by (intros; apply nth_error_app1; auto).
    induction i as [i IH] using lt_wf_ind. intros Hi.
    rewrite (pos_eq _ i W), (pos_eq _ i W'), X by auto.
    destruct (nth_error st i) as [e|] eqn:E; auto. pose proof (W' i e E) as [B _].
    destruct e as [x y n|dx dy b n|b s n]; auto.
    - specialize (B b eq_refl). rewrite IH by lia. reflexivity.
    - specialize (B b eq_refl). rewrite X by lia. destruct (nth_error st b) as [e|] eqn:Eb; auto.
      pose proof (W' b e Eb) as [B2 _]. destruct e as [x y m|dx dy bb m|bb s' m]; auto;
        specialize (B2 bb eq_refl); rewrite IH by lia; reflexivity.
  Qed.

  (* what a step does to the store *)
  Lemma pstep_shape st o :
    (exists d, fst (pstep st o) = st ++ [d]) \/ fst (pstep st o) = st \/
    (exists k d e, fst (pstep st o) = upd st k e /\ nth_error st k = Some d /\ same_shape d e /\
        assigns k o /\ node_name d = node_name e).
  Proof.
    assert (U : forall k d e, nth_error st k = Some d -> same_shape d e -> assigns k o -> node_name d = node_name e ->
      exists k' d' e', upd st k e = upd st k' e' /\ nth_error st k' = Some d' /\ same_shape d' e' /\
        assigns k' o /\ node_name d' = node_name e') by (intros k d e; exists k, d, e; auto).
    Local Ltac fin := cbn [fst]; (left; eexists; reflexivity) || (right; left; reflexivity).
    destruct o as [x y n|dx dy b n|x y b|b s n|i|i|i x y|i j|i dx dy|i s]; cbn [pstep].
    - fin.
    - destruct (nth_error st b); fin.
    - destruct (pos st b); fin.
    - destruct (nth_error st b) as [[]|]; fin.
    - destruct (nth_error st i) as [[]|]; fin.
    - destruct (nth_error st i) as [d|]; try fin. destruct (pos st i); fin.
    - destruct (nth_error st i) as [[]|] eqn:E; try fin. right. right. eapply U; [exact E|exact I|reflexivity|reflexivity].
    - destruct (nth_error st i) as [[]|] eqn:E; try fin. destruct (pos st j); try fin.
      right. right. eapply U; [exact E|exact I|reflexivity|reflexivity].
    - destruct (nth_error st i) as [[]|] eqn:E; try fin. right. right. eapply U; [exact E|reflexivity|reflexivity|reflexivity].
    - destruct (nth_error st i) as [[]|] eqn:E; try fin. right. right. eapply U; [exact E|reflexivity|reflexivity|reflexivity].
  Qed.

  Lemma upd_length (st : pstore F) k d : k < length st -> length (upd st k d) = length st.
  Proof. intros H. unfold upd. rewrite app_length, firstn_length. cbn [length]. rewrite skipn_length. lia. Qed.
End L.
