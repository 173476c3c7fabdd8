Require Import Verif.Base Verif.M_vector Verif.M_bbox Verif.M_transform Verif.M_theap.
From Coq Require Import List Lia.

Lemma update_length {A} (l : list A) i a : length (update l i a) = length l.
Proof. revert i. induction l; destruct i; cbn; auto. Qed.
Lemma update_nth_error {A} (l : list A) i j a :
  nth_error (update l i a) j =
  if Nat.eqb i j then (match nth_error l j with None => None | Some _ => Some a end) else nth_error l j.
Proof.
  revert i j. induction l as [|x l IH]; destruct i, j; cbn; auto.
  destruct (Nat.eqb i j); auto.
Qed.
Lemma update_nth {A} (l : list A) i j a d :
  nth j (update l i a) d = if Nat.eqb i j && Nat.ltb j (length l) then a else nth j l d.
Proof.
  revert i j. induction l as [|x l IH]; destruct i, j; cbn; auto.
  - rewrite andb_false_r. reflexivity.
  - rewrite IH. reflexivity.
Qed.

Section L.
  Context {F : Type} {NF : Num F} {RF : NumRoot F} {TF : NumTrig F}.

  (* addresses used by an object *)
  Definition locs (o : hobj F) : list nat := h_ref o :: h_stack o.
  Definition disjoint (a b : list nat) : Prop := forall x, In x a -> In x b -> False.

  (* every object uses its own Matrix cells, and they exist *)
  Definition separated (h : heap F) : Prop :=
    (forall k o, nth_error (objs h) k = Some o ->
       NoDup (locs o) /\ forall r, In r (locs o) -> (r < length (cells h))%nat) /\
    (forall k k' o o', k <> k' -> nth_error (objs h) k = Some o -> nth_error (objs h) k' = Some o' ->
       disjoint (locs o) (locs o')).

  Definition same_cells (h h' : heap F) (o : hobj F) : Prop :=
    forall r, In r (locs o) -> cell h' r = cell h r.
  Lemma same_view h h' o : same_cells h h' o -> view h' o = view h o.
  Proof.
    intros S. unfold view. f_equal.
    - apply S. left; auto.
    - apply map_ext_in. intros r Hr. apply S. right; auto.
  Qed.

  Lemma cell_app cs ob ob' m r : (r < length cs)%nat ->
    cell (Heap (cs ++ [m]) ob) r = cell (Heap cs ob' : heap F) r.
  Proof. intros. unfold cell. cbn. apply app_nth1; auto. Qed.
  Lemma cell_new cs ob m : cell (Heap (cs ++ [m]) ob : heap F) (length cs) = m.
  Proof. unfold cell. cbn. rewrite app_nth2 by auto. rewrite Nat.sub_diag. reflexivity. Qed.
  Lemma cell_upd cs ob r m r' : (r < length cs)%nat ->
    cell (Heap (update cs r m) ob : heap F) r' = if Nat.eqb r r' then m else cell (Heap cs ob) r'.
  Proof.
    intros Hr. unfold cell. cbn. rewrite update_nth.
    destruct (Nat.eqb_spec r r') as [<-|]; [|reflexivity].
    apply Nat.ltb_lt in Hr. rewrite Hr. reflexivity.
  Qed.
  Lemma cell_objs cs ob ob' r : cell (Heap cs ob : heap F) r = cell (Heap cs ob') r.
  Proof. reflexivity. Qed.

  (* effect of replacing object i by o', with new cells: a general frame lemma *)
  Lemma sep_replace h cs' i o o' :
    separated h -> nth_error (objs h) i = Some o ->
    (length (cells h) <= length cs')%nat ->
    NoDup (locs o') ->
    (forall r, In r (locs o') -> (r < length cs')%nat) ->
    (forall r, In r (locs o') -> In r (locs o) \/ (length (cells h) <= r)%nat) ->
    separated (Heap cs' (update (objs h) i o')).
  Proof.
    intros [S1 S2] Hi Hlen ND HB HF. split; cbn.
    - intros k x Hk. rewrite update_nth_error in Hk. destruct (Nat.eqb_spec i k).
      + destruct (nth_error (objs h) k); inversion Hk; subst. auto.
      + destruct (S1 _ _ Hk) as [A B]. split; auto. intros r Hr. specialize (B r Hr). lia.
    - assert (G : forall k x, k <> i -> nth_error (objs h) k = Some x -> disjoint (locs o') (locs x)).
      { intros k x Hk Hx r H1 H2. destruct (HF r H1) as [H3|H3].
        - exact (S2 i k o x (not_eq_sym Hk) Hi Hx r H3 H2).
        - destruct (S1 _ _ Hx) as [_ B]. specialize (B r H2). lia. }
      intros k k' x y Hne Hx Hy. rewrite update_nth_error in Hx, Hy.
      destruct (Nat.eqb_spec i k), (Nat.eqb_spec i k'); subst; try congruence.
      + destruct (nth_error (objs h) k); inversion Hx; subst. apply G with k'; auto.
      + destruct (nth_error (objs h) k'); inversion Hy; subst. intros r H1 H2. apply (G k x) with r; auto.
      + apply (S2 k k'); auto.
  Qed.

  Lemma sep_append h cs' o' :
    separated h -> (length (cells h) <= length cs')%nat -> NoDup (locs o') ->
    (forall r, In r (locs o') -> (length (cells h) <= r < length cs')%nat) ->
    separated (Heap cs' (objs h ++ [o'])).
  Proof.
    intros [S1 S2] Hlen ND HB. 
    assert (G : forall k x, nth_error (objs h ++ [o']) k = Some x ->
        (k < length (objs h) /\ nth_error (objs h) k = Some x) \/ (k = length (objs h) /\ x = o')).
    { intros k x Hk. destruct (Nat.lt_ge_cases k (length (objs h))).
      - rewrite nth_error_app1 in Hk by auto. auto.
      - rewrite nth_error_app2 in Hk by auto. right.
        destruct (k - length (objs h))%nat as [|n] eqn:E; cbn in Hk.
        + inversion Hk. split; auto. lia.
        + destruct n; discriminate. }
    split; cbn.
    - intros k x Hk. apply G in Hk. destruct Hk as [[_ Hk]|[_ ->]].
      + destruct (S1 _ _ Hk) as [A B]. split; auto. intros r Hr. specialize (B r Hr). lia.
      + split; auto. intros r Hr. specialize (HB r Hr). lia.
    - intros k k' x y Hne Hx Hy r H1 H2. apply G in Hx. apply G in Hy.
      destruct Hx as [[_ Hx]|[Ex ->]], Hy as [[_ Hy]|[Ey ->]].
      + eapply (S2 k k'); eauto.
      + destruct (S1 _ _ Hx) as [_ B]. specialize (B r H1). specialize (HB r H2). lia.
      + destruct (S1 _ _ Hy) as [_ B]. specialize (B r H2). specialize (HB r H1). lia.
      + congruence.
  Qed.

  (* the calls that keep their Matrix object *)
  Definition in_place (c : top F) : bool :=
    match c with OReset | OSetMatrix _ | OPush | OPop => false | _ => true end.

  Lemma in_place_stack c s : in_place c = true -> tstack (fst (tstep c s)) = tstack s.
  Proof.
    destruct c; cbn -[t_scale_bbox]; intros E; try discriminate; auto.
    - unfold t_scale_bbox. destruct keep_aspect.
      + destruct (pydiv _ _); [|auto]. destruct (pydiv _ _); [|auto].
        destruct start; [auto|]. destruct target; reflexivity.
      + destruct start; [auto|]. destruct (pydiv _ _); [|reflexivity].
        destruct (pydiv _ _); [|reflexivity]. destruct target; reflexivity.
    - unfold t_untransform, t_inverse. destruct (tinv s); cbn; auto.
      destruct (mat_inv (tmat s)); reflexivity.
  Qed.

  Lemma hcall_spec h i o c : separated h -> nth_error (objs h) i = Some o ->
    separated (hcall h i o c) /\
    length (objs (hcall h i o c)) = length (objs h) /\
    meaning (hcall h i o c) i = Some (fst (tstep c (view h o))) /\
    (forall k, k <> i -> meaning (hcall h i o c) k = meaning h k).
  Proof.
    intros S Hi. pose proof S as [S1 S2].
    destruct (S1 _ _ Hi) as [ND BD].
    assert (Hr : (h_ref o < length (cells h))%nat) by (apply BD; left; auto).
    (* meaning of another object *)
    assert (Other : forall cs' o', (forall r k x, k <> i -> nth_error (objs h) k = Some x -> In r (locs x) ->
                       nth r cs' mat_id = nth r (cells h) mat_id) ->
              forall k, k <> i -> meaning (Heap cs' (update (objs h) i o')) k = meaning h k).
    { intros cs' o' HC k Hk. unfold meaning. cbn. rewrite update_nth_error.
      destruct (Nat.eqb_spec i k); [congruence|].
      destruct (nth_error (objs h) k) as [x|] eqn:Ex; auto. f_equal. apply same_view.
      intros r Hx. unfold cell. cbn. apply (HC r k x); auto. }
    assert (OtherApp : forall m o', forall k, k <> i ->
              meaning (Heap (cells h ++ [m]) (update (objs h) i o')) k = meaning h k).
    { intros m o'. apply Other. intros r k x Hk Hx Hrx. apply app_nth1.
      destruct (S1 _ _ Hx) as [_ B]. apply B; auto. }
    assert (Self : forall cs' o', meaning (Heap cs' (update (objs h) i o')) i
                     = Some (view (Heap cs' (update (objs h) i o')) o')).
    { intros. unfold meaning. cbn. rewrite update_nth_error, Nat.eqb_refl, Hi. reflexivity. }
    assert (NewLoc : forall r, In r (locs o) -> r <> length (cells h)).
    { intros r Hx. specialize (BD r Hx). lia. }
    assert (Place : in_place c = true ->
      hcall h i o c = Heap (update (cells h) (h_ref o) (tmat (fst (tstep c (view h o)))))
             (update (objs h) i (H (h_ref o) (tinv (fst (tstep c (view h o)))) (h_stack o)))).
    { destruct c; cbn; intros; try discriminate; reflexivity. }
    destruct (in_place c) eqn:EP.
    - rewrite (Place eq_refl). clear Place. set (s' := fst (tstep c (view h o))).
      split; [|split; [|split]].
      + apply sep_replace with o; auto.
        * rewrite update_length. auto.
        * intros r Hx. rewrite update_length. auto.
      + cbn. apply update_length.
      + rewrite Self. f_equal. unfold view at 1. cbn [h_ref h_inv h_stack].
        assert (E1 : cell (Heap (update (cells h) (h_ref o) (tmat s'))
                     (update (objs h) i (H (h_ref o) (tinv s') (h_stack o)))) (h_ref o) = tmat s').
        { rewrite cell_upd by auto. rewrite Nat.eqb_refl. reflexivity. }
        rewrite E1.
        assert (E2 : map (cell (Heap (update (cells h) (h_ref o) (tmat s'))
                     (update (objs h) i (H (h_ref o) (tinv s') (h_stack o))))) (h_stack o) = tstack s').
        { unfold s'. rewrite in_place_stack by auto. cbn. apply map_ext_in. intros r Hx.
          rewrite cell_upd by auto.
          destruct (Nat.eqb_spec (h_ref o) r); [|reflexivity].
          inversion ND; subst. contradiction. }
        rewrite E2. destruct s'; reflexivity.
      + apply Other. intros r k x Hk Hx Hrx. rewrite update_nth.
        destruct (Nat.eqb_spec (h_ref o) r); cbn; auto. subst. exfalso.
        apply (S2 i k o x) with (h_ref o); auto. left; auto.
    - assert (Stack : forall m ob, map (cell (Heap (cells h ++ [m]) ob)) (h_stack o) = map (cell h) (h_stack o)).
      { intros. apply map_ext_in. intros r Hx. rewrite cell_app with (ob' := objs h).
        - destruct h; reflexivity.
        - apply BD. right; auto. }
      destruct c; try discriminate; cbn [hcall].
      + (* reset *)
        split; [|split; [|split]].
        * apply sep_replace with o; auto.
          -- rewrite app_length. lia.
          -- inversion ND; subst. constructor; auto. cbn. intros Hx. apply (NewLoc (length (cells h))); auto. right; auto.
          -- intros r [<-|Hx]; rewrite app_length; cbn; [lia|]. specialize (BD r (or_intror Hx)). lia.
          -- intros r [<-|Hx]; [right; auto|left; right; auto].
        * cbn. apply update_length.
        * rewrite Self. f_equal. unfold view at 1. cbn [h_ref h_inv h_stack]. rewrite cell_new, Stack. reflexivity.
        * apply OtherApp.
      + (* set_matrix *)
        split; [|split; [|split]].
        * apply sep_replace with o; auto.
          -- rewrite app_length. lia.
          -- inversion ND; subst. constructor; auto. cbn. intros Hx. apply (NewLoc (length (cells h))); auto. right; auto.
          -- intros r [<-|Hx]; rewrite app_length; cbn; [lia|]. specialize (BD r (or_intror Hx)). lia.
          -- intros r [<-|Hx]; [right; auto|left; right; auto].
        * cbn. apply update_length.
        * rewrite Self. f_equal. unfold view at 1. cbn [h_ref h_inv h_stack]. rewrite cell_new, Stack. reflexivity.
        * apply OtherApp.
      + (* push *)
        split; [|split; [|split]].
        * apply sep_replace with o; auto.
          -- rewrite app_length. lia.
          -- inversion ND; subst. constructor.
             ++ cbn. intros [Hx|Hx]; [|contradiction]. apply (NewLoc (h_ref o)); auto. left; auto.
             ++ constructor; auto. intros Hx. apply (NewLoc (length (cells h))); auto. right; auto.
          -- intros r [<-|[<-|Hx]]; rewrite app_length; cbn; [lia|lia|]. specialize (BD r (or_intror Hx)). lia.
          -- intros r [<-|[<-|Hx]]; [left; left; auto|right; auto|left; right; auto].
        * cbn. apply update_length.
        * rewrite Self. f_equal. unfold view at 1. cbn [h_ref h_inv h_stack map].
          rewrite cell_new, Stack. rewrite cell_app with (ob' := objs h) by auto.
          destruct h; reflexivity.
        * apply OtherApp.
      + (* pop *)
        destruct (h_stack o) as [|r st] eqn:Est.
        * split; [split; auto|]. split; auto. split; auto.
          unfold meaning. rewrite Hi. f_equal. unfold view, tstep, t_pop. cbn. rewrite Est. reflexivity.
        * split; [|split; [|split]].
          -- apply sep_replace with o; auto.
             ++ inversion ND; subst. unfold locs. cbn [h_ref h_stack]. rewrite Est in *. auto.
             ++ intros r' Hx. apply BD. right. rewrite Est. exact Hx.
             ++ intros r' Hx. left. right. rewrite Est. exact Hx.
          -- cbn. apply update_length.
          -- rewrite Self. f_equal. unfold view, tstep, t_pop. cbn. rewrite Est. cbn.
             destruct h; reflexivity.
          -- apply Other. auto.
  Qed.

  Lemma new_spec h m : separated h ->
    let h' := Heap (cells h ++ [m]) (objs h ++ [H (length (cells h)) None []]) in
    separated h' /\ meaning h' (length (objs h)) = Some (T m None []) /\
    (forall k, (k < length (objs h))%nat -> meaning h' k = meaning h k).
  Proof.
    intros S h'. pose proof S as [S1 S2]. split; [|split].
    - apply sep_append; auto.
      + rewrite app_length. lia.
      + unfold locs. cbn. constructor; [intros []|constructor].
      + intros r [<-|[]]. cbn. rewrite app_length. cbn. lia.
    - unfold meaning, h'. cbn. rewrite nth_error_app2, Nat.sub_diag by lia. cbn. f_equal.
      unfold view. cbn [h_ref h_inv h_stack map]. rewrite cell_new. reflexivity.
    - intros k Hk. unfold meaning, h'. cbn. rewrite nth_error_app1 by auto.
      destruct (nth_error (objs h) k) as [x|] eqn:Ex; auto. f_equal. apply same_view.
      intros r Hr. rewrite cell_app with (ob' := objs h).
      + destruct h; reflexivity.
      + destruct (S1 _ _ Ex) as [_ B]. auto.
  Qed.

  Local Arguments hcall : simpl never.
  (* calls that change object k *)
  Definition targets (c : hop F) (k : nat) : Prop :=
    match c with
    | HNew | HCopy _ => False
    | HCall i _ | HComposeT i _ | HComposeOuterT i _ | HSetMatrixT i _ => i = k
    end.

  Lemma hstep_separated h c : separated h -> separated (hstep h c).
  Proof.
    intros S. destruct c; cbn.
    - apply (new_spec h mat_id S).
    - destruct (nth_error (objs h) i) as [o|] eqn:E; auto. apply (new_spec h _ S).
    - destruct (nth_error (objs h) i) eqn:E; auto. apply hcall_spec; auto.
    - destruct (nth_error (objs h) i) eqn:E; auto. destruct (nth_error (objs h) j) eqn:E2; auto. apply hcall_spec; auto.
    - destruct (nth_error (objs h) i) eqn:E; auto. destruct (nth_error (objs h) j) eqn:E2; auto. apply hcall_spec; auto.
    - destruct (nth_error (objs h) i) eqn:E; auto. destruct (nth_error (objs h) j) eqn:E2; auto. apply hcall_spec; auto.
  Qed.

  Lemma meaning_lt h k t : meaning h k = Some t -> (k < length (objs h))%nat.
  Proof.
    unfold meaning. destruct (nth_error (objs h) k) eqn:E; [|discriminate]. intros _.
    apply nth_error_Some. congruence.
  Qed.

  Lemma hstep_frame h c k t : separated h -> ~ targets c k -> meaning h k = Some t ->
    meaning (hstep h c) k = Some t.
  Proof.
    intros S NT HM. pose proof (meaning_lt _ _ _ HM) as HL. destruct c; cbn in *.
    - rewrite <- HM. apply (new_spec h mat_id S); auto.
    - destruct (nth_error (objs h) i) as [o|] eqn:E; auto. rewrite <- HM. apply (new_spec h _ S); auto.
    - destruct (nth_error (objs h) i) eqn:E; auto. rewrite <- HM. eapply hcall_spec; auto.
    - destruct (nth_error (objs h) i) eqn:E; auto. destruct (nth_error (objs h) j) eqn:E2; auto.
      rewrite <- HM. eapply hcall_spec; auto.
    - destruct (nth_error (objs h) i) eqn:E; auto. destruct (nth_error (objs h) j) eqn:E2; auto.
      rewrite <- HM. eapply hcall_spec; auto.
    - destruct (nth_error (objs h) i) eqn:E; auto. destruct (nth_error (objs h) j) eqn:E2; auto.
      rewrite <- HM. eapply hcall_spec; auto.
  Qed.

  Lemma hrun_separated cs : forall h, separated h -> separated (hrun cs h).
  Proof. induction cs; cbn; intros; auto. apply IHcs. apply hstep_separated; auto. Qed.

  Lemma hrun_frame cs : forall h k t, separated h -> (forall c, In c cs -> ~ targets c k) ->
    meaning h k = Some t -> meaning (hrun cs h) k = Some t.
  Proof.
    induction cs as [|c cs IH]; cbn; intros h k t S NT HM; auto.
    apply IH; auto using hstep_separated. apply hstep_frame; auto.
  Qed.

  Lemma copy_spec h i t : separated h -> meaning h i = Some t ->
    meaning (hstep h (HCopy i)) (length (objs h)) = Some (t_copy t) /\
    meaning (hstep h (HCopy i)) i = Some t.
  Proof.
    intros S HM. split.
    - unfold meaning in HM. cbn. destruct (nth_error (objs h) i) eqn:E; [|discriminate].
      inversion HM; subst. 
      destruct (new_spec h (tmat (t_copy (view h h0))) S) as (_ & A & _). exact A.
    - apply hstep_frame; auto.
  Qed.

  Lemma call_spec h i c t : separated h -> meaning h i = Some t ->
    meaning (hstep h (HCall i c)) i = Some (fst (tstep c t)).
  Proof.
    intros S HM. unfold meaning in HM. cbn. destruct (nth_error (objs h) i) as [o|] eqn:E; [|discriminate].
    inversion HM; subst. apply hcall_spec; auto.
  Qed.

  Lemma composeT_spec h i j t u : separated h -> meaning h i = Some t -> meaning h j = Some u ->
    meaning (hstep h (HComposeT i j)) i = Some (t_compose (tmat u) t) /\
    meaning (hstep h (HComposeOuterT i j)) i = Some (t_compose_outer (tmat u) t) /\
    meaning (hstep h (HSetMatrixT i j)) i = Some (t_set_matrix t (tmat u)).
  Proof.
    intros S HM HM2. unfold meaning in HM, HM2. cbn.
    destruct (nth_error (objs h) i) as [o|] eqn:E; [|discriminate].
    destruct (nth_error (objs h) j) as [o2|] eqn:E2; [|discriminate].
    inversion HM; inversion HM2; subst.
    split; [|split].
    - pose proof (hcall_spec h i o (OCompose (cell h (h_ref o2))) S E) as (_ & _ & A & _). exact A.
    - pose proof (hcall_spec h i o (OComposeOuter (cell h (h_ref o2))) S E) as (_ & _ & A & _). exact A.
    - pose proof (hcall_spec h i o (OSetMatrix (cell h (h_ref o2))) S E) as (_ & _ & A & _). exact A.
  Qed.

  Lemma separated_empty : separated (Heap [] []).
  Proof.
    split.
    - intros [|k] o Hk; discriminate.
    - intros [|k] k' o o' _ Hk; discriminate.
  Qed.
End L.
