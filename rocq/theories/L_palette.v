(* Lemmas on palettes. *)
Require Import Verif.Base Verif.M_group Verif.M_palette Verif.S_palette.
From Coq Require Import ZArith List Sorted Permutation Lia Bool.
Import ListNotations.
Local Open Scope Z_scope.

Lemma rgb_eqb_spec a b : rgb_eqb a b = true <-> a = b.
Proof.
  destruct a as [[r g] c], b as [[r' g'] c']. cbn. rewrite !andb_true_iff, !Z.eqb_eq. split.
  - intros [[-> ->] ->]. reflexivity.
  - intros E. injection E as -> -> ->. auto.
Qed.
Lemma rgb_eqb_refl a : rgb_eqb a a = true.
Proof. now apply rgb_eqb_spec. Qed.

(* the counts *)
Definition counts (seen : list rgb) (d : list (rgb * Z)) : Prop :=
  NoDup (map fst d) /\ forall c v, In (c, v) d <-> v = Z.of_nat (count_occ rgb_dec seen c) /\ In c seen.

Lemma bump_keys c d : forall k, In k (map fst (bump c d)) <-> k = c \/ In k (map fst d).
Proof.
  induction d as [|[k v] d IH]; intros k'; cbn; [intuition congruence|]. destruct (rgb_eqb k c) eqn:E; cbn.
  - apply rgb_eqb_spec in E. subst. intuition congruence.
  - rewrite IH. tauto.
Qed.
Lemma bump_nodup c d : NoDup (map fst d) -> NoDup (map fst (bump c d)).
Proof.
  induction d as [|[k v] d IH]; cbn; intros N; [repeat constructor; auto|]. inversion N; subst. destruct (rgb_eqb k c) eqn:E; cbn.
  - now constructor.
  - constructor; auto. rewrite bump_keys. intros [->|H]; [rewrite rgb_eqb_refl in E; discriminate|contradiction].
Qed.
Lemma bump_in c d : NoDup (map fst d) -> forall k v, In (k, v) (bump c d) <->
  (k <> c /\ In (k, v) d) \/ (k = c /\ ((exists w, In (c, w) d /\ v = w + 1) \/ (~ In c (map fst d) /\ v = 1))).
Proof.
  induction d as [|[k0 v0] d IH]; cbn; intros N k v.
  - split.
    + intros [E|[]]. injection E as -> ->. right. split; auto.
    + intros [[_ []]|[-> [(w & [] & _)|[_ ->]]]]. auto.
  - inversion N as [|? ? N1 N2]; subst. destruct (rgb_eqb k0 c) eqn:E; cbn.
    + apply rgb_eqb_spec in E. subst k0. split.
      * intros [E|H]; [injection E as <- <-; right; split; auto; left; eauto|]. left. split; auto. intros ->. apply N1, in_map_iff. exists (c, v). auto.
      * intros [[H [E|I]]|[-> [(w & [E|I] & ->)|[H _]]]].
        -- injection E as -> ->. contradiction.
        -- now right.
        -- injection E as ->. now left.
        -- exfalso. apply N1, in_map_iff. exists (c, w). auto.
        -- exfalso. apply H. now left.
    + assert (k0 <> c) by (intros ->; rewrite rgb_eqb_refl in E; discriminate). rewrite IH by auto. split.
      * intros [E'|[[H1 H2]|[-> [(w & H1 & ->)|[H1 ->]]]]]; [injection E' as -> ->; left; auto|left; auto| |].
        -- right. split; auto. left. eauto.
        -- right. split; auto. right. split; auto. intros [->|K]; contradiction.
      * intros [[H1 [H2|H2]]|[-> [(w & [H1|H1] & ->)|[H1 ->]]]]; [now left|right; left; auto| | |].
        -- injection H1 as -> ->. contradiction.
        -- right. right. split; auto. left. eauto.
        -- right. right. split; auto. right. split; auto.
Qed.

Lemma counts_bump seen d c : counts seen d -> counts (seen ++ [c]) (bump c d).
Proof.
  intros [N H]. split; [now apply bump_nodup|]. intros k v. rewrite bump_in by auto. rewrite count_occ_app, in_app_iff. cbn.
  destruct (rgb_dec c k) as [<-|D].
  - split.
    + intros [[X _]|[_ [(w & I & ->)|[I ->]]]]; [contradiction| |].
      * apply H in I as [-> I]. split; [lia|auto].
      * split; [|auto]. assert (count_occ rgb_dec seen c = 0)%nat; [|lia]. apply count_occ_not_In. intros J. apply I, in_map_iff.
        exists (c, Z.of_nat (count_occ rgb_dec seen c)). split; [reflexivity|]. apply H. auto.
    + intros [-> _]. right. split; auto. destruct (in_dec rgb_dec c seen) as [I|I].
      * left. eexists. split; [apply H; split; [reflexivity|exact I]|]. lia.
      * right. split; [|rewrite (proj1 (count_occ_not_In rgb_dec seen c) I); reflexivity]. intros J. apply in_map_iff in J as ([k w] & <- & J). apply H in J as [_ J]. contradiction.
  - rewrite Nat.add_0_r. split.
    + intros [[_ I]|[E _]]; [|congruence]. apply H in I as [-> I]. auto.
    + intros [-> [I|[E|[]]]]; [|congruence]. left. split; [congruence|]. now apply H.
Qed.
Lemma counts_histogram images : counts (concat images) (histogram images).
Proof.
  unfold histogram. assert (K : forall images seen d, counts seen d -> counts (seen ++ concat images) (fold_left (fun d im => fold_left (fun d c => bump c d) im d) images d)).
  { assert (K1 : forall im seen d, counts seen d -> counts (seen ++ im) (fold_left (fun d c => bump c d) im d)).
    { induction im as [|c im IH]; intros seen d H; cbn; [now rewrite app_nil_r|]. replace (seen ++ c :: im) with ((seen ++ [c]) ++ im) by (now rewrite <- app_assoc). apply IH. now apply counts_bump. }
    induction images0 as [|im ims IH]; intros seen d H; cbn; [now rewrite app_nil_r|]. rewrite app_assoc. apply IH. now apply K1. }
  apply (K images [] []). split; [constructor|]. intros c v. cbn. tauto.
Qed.

(* the order *)
Ltac zcmp := repeat match goal with
  | H : context [if ?a =? ?b then _ else _] |- _ => destruct (Z.eqb_spec a b)
  | |- context [if ?a =? ?b then _ else _] => destruct (Z.eqb_spec a b)
  | H : (_ <=? _) = true |- _ => apply Z.leb_le in H
  | H : (_ <=? _) = false |- _ => apply Z.leb_gt in H
  | |- (_ <=? _) = true => apply Z.leb_le
  end.
Lemma leb_trans a b c : entry_leb a b = true -> entry_leb b c = true -> entry_leb a c = true.
Proof. destruct a as [v [[r g] x]], b as [v' [[r' g'] x']], c as [v'' [[r'' g''] x'']]. cbn. intros. zcmp; subst; lia. Qed.
Lemma leb_total a b : entry_leb a b = false -> entry_leb b a = true.
Proof. destruct a as [v [[r g] x]], b as [v' [[r' g'] x']]. cbn. intros. zcmp; subst; try lia. Qed.
Lemma leb_antisym a b : entry_leb a b = true -> entry_leb b a = true -> a = b.
Proof. destruct a as [v [[r g] x]], b as [v' [[r' g'] x']]. cbn. intros. zcmp; subst; try lia. assert (x = x') by lia. now subst. Qed.

Lemma insert_perm a l : Permutation (insert_entry a l) (a :: l).
Proof. induction l as [|b l IH]; cbn; auto. destruct (entry_leb a b); auto. rewrite IH. apply perm_swap. Qed.
Lemma sort_perm l : Permutation (sort_entries l) l.
Proof. induction l as [|a l IH]; cbn; auto. now rewrite insert_perm, IH. Qed.
Definition le_entry a b := entry_leb a b = true.
Lemma insert_sorted a l : StronglySorted le_entry l -> StronglySorted le_entry (insert_entry a l).
Proof.
  induction l as [|b l IH]; cbn; intros H; [repeat constructor|]. inversion H as [|? ? S1 S2]; subst. destruct (entry_leb a b) eqn:E.
  - constructor; auto. constructor; auto. eapply Forall_impl; [|exact S2]. intros x Hx. now apply leb_trans with b.
  - constructor; auto. eapply Permutation_Forall; [symmetry; apply insert_perm|]. constructor; auto. now apply leb_total.
Qed.
Lemma sort_sorted l : StronglySorted le_entry (sort_entries l).
Proof. induction l; cbn; [constructor|]. now apply insert_sorted. Qed.
Lemma sorted_unique : forall l l', StronglySorted le_entry l -> StronglySorted le_entry l' -> Permutation l l' -> l = l'.
Proof.
  induction l as [|a l IH]; intros l' A B Pm; [now apply Permutation_nil in Pm|]. destruct l' as [|b l']; [now apply Permutation_sym, Permutation_nil in Pm|].
  inversion A as [|? ? A1 A2]; subst. inversion B as [|? ? B1 B2]; subst. rewrite Forall_forall in A2, B2.
  assert (a = b).
  { destruct (Permutation_in a Pm (or_introl eq_refl)) as [->|Ia]; auto. destruct (Permutation_in b (Permutation_sym Pm) (or_introl eq_refl)) as [->|Ib]; auto. apply leb_antisym; [now apply A2|now apply B2]. }
  subst b. f_equal. apply IH; auto. now apply Permutation_cons_inv in Pm.
Qed.

Lemma counts_perm seen seen' d d' : Permutation seen seen' -> counts seen d -> counts seen' d' -> Permutation d d'.
Proof.
  intros Pm [N H] [N' H']. apply NoDup_Permutation; [now apply NoDup_map_inv in N|now apply NoDup_map_inv in N'|].
  intros [c v]. rewrite H, H'. rewrite (proj1 (Permutation_count_occ rgb_dec seen seen') Pm c). split; intros [A B]; split; auto; [now apply (Permutation_in c Pm)|now apply (Permutation_in c (Permutation_sym Pm))].
Qed.
Lemma all_colors_perm images images' : Permutation (concat images) (concat images') -> all_colors images = all_colors images'.
Proof.
  intros Pm. unfold all_colors. apply (f_equal (@rev entry)). apply sorted_unique; auto using sort_sorted. rewrite !sort_perm. apply Permutation_map.
  eapply counts_perm; eauto using counts_histogram.
Qed.

Lemma all_colors_in images v c : In (v, c) (all_colors images) <-> v = Z.of_nat (uses images c) /\ In c (concat images).
Proof.
  unfold all_colors. rewrite <- in_rev. destruct (counts_histogram images) as [_ H]. split.
  - intros I. apply (Permutation_in _ (sort_perm _)) in I. apply in_map_iff in I as ([k w] & E & I). injection E as -> ->. now apply H.
  - intros K. apply (Permutation_in _ (Permutation_sym (sort_perm _))). apply in_map_iff. exists (c, v). split; [reflexivity|]. now apply H.
Qed.
Lemma all_colors_nodup images : NoDup (map snd (all_colors images)).
Proof.
  unfold all_colors. rewrite map_rev. apply NoDup_rev. eapply Permutation_NoDup; [apply Permutation_map, Permutation_sym, sort_perm|]. rewrite map_map. cbn.
  apply (counts_histogram images).
Qed.
Lemma strongly_app {A} (R : A -> A -> Prop) l l' : StronglySorted R l -> StronglySorted R l' -> (forall a b, In a l -> In b l' -> R a b) -> StronglySorted R (l ++ l').
Proof.
  induction l as [|a l IH]; cbn; intros H H' K; auto. inversion H as [|? ? S1 S2]; subst. constructor; [apply IH; auto|].
  apply Forall_app. split; auto. apply Forall_forall. intros b I. apply K; auto.
Qed.
Lemma strongly_rev {A} (R : A -> A -> Prop) l : StronglySorted R l -> StronglySorted (fun a b => R b a) (rev l).
Proof.
  induction l as [|a l IH]; cbn; intros H; [constructor|]. inversion H as [|? ? S1 S2]; subst. apply strongly_app; auto; [repeat constructor|].
  intros x y I [<-|[]]. rewrite Forall_forall in S2. apply S2. now apply in_rev.
Qed.
Lemma strongly_split {A} (R : A -> A -> Prop) l l' : StronglySorted R (l ++ l') -> StronglySorted R l /\ forall a b, In a l -> In b l' -> R a b.
Proof.
  induction l as [|a l IH]; cbn; intros H; [split; [constructor|intros ? ? []]|]. inversion H as [|? ? S1 S2]; subst. destruct (IH S1) as [I1 I2]. apply Forall_app in S2 as [F1 F2].
  split; [now constructor|]. intros x y [->|I] J; [rewrite Forall_forall in F2; auto|auto].
Qed.
Lemma entry_ahead images v c v' c' : In (v, c) (all_colors images) -> In (v', c') (all_colors images) -> c <> c' -> entry_leb (v', c') (v, c) = true -> ahead images c c'.
Proof.
  intros A B N H. apply all_colors_in in A as [-> _]. apply all_colors_in in B as [-> _]. unfold ahead. destruct c as [[r g] b], c' as [[r' g'] b']. cbn in H |- *. zcmp; try lia.
  - right. split; [lia|]. right. split; [lia|]. right. split; [lia|]. assert (b <> b') by congruence. lia.
Qed.
Lemma all_colors_ahead images : StronglySorted (ahead images) (map snd (all_colors images)).
Proof.
  assert (S0 : StronglySorted (fun a b => le_entry b a) (all_colors images)) by (apply strongly_rev, sort_sorted).
  pose proof (all_colors_nodup images) as N. assert (I : forall e, In e (all_colors images) -> In e (all_colors images)) by auto. revert S0 N I. generalize (all_colors images) at 1 2 3 5 as l.
  induction l as [|[v c] l IH]; cbn; intros S0 N I; [constructor|]. inversion S0 as [|? ? S1 S2]; subst. inversion N as [|? ? N1 N2]; subst. constructor; [apply IH; auto|].
  apply Forall_forall. intros c' J. pose proof J as J0. apply in_map_iff in J as ([v' c''] & E & J). cbn in E. subst c''. rewrite Forall_forall in S2. apply entry_ahead with v v'; auto.
  - intros ->. contradiction.
  - apply (S2 _ J).
Qed.

(* allocating colours *)
Lemma index_none c l : index_of c l = None <-> ~ In c l.
Proof.
  induction l as [|a l IH]; cbn; [tauto|]. destruct (rgb_eqb a c) eqn:E.
  - apply rgb_eqb_spec in E. split; [discriminate|]. intros H. exfalso. auto.
  - destruct (index_of c l); split; try discriminate; intros H.
    + exfalso. assert (~ In c l) as K by auto. apply IH in K. discriminate.
    + intros [->|I]; [rewrite rgb_eqb_refl in E; discriminate|]. now apply IH in I.
    + reflexivity.
Qed.
Lemma set_slot_app l a s c : set_slot (List.length l) c (l ++ a :: s) = (l ++ [c]) ++ s.
Proof. induction l; cbn; [reflexivity|]. now rewrite IHl. Qed.
Lemma alloc_all s : List.length s = 256%nat -> forall new old, NoDup (old ++ new) -> (List.length (old ++ new) <= 256)%nat ->
  foldM getcolor (Pal old (old ++ skipn (List.length old) s)) new = Ok (Pal (old ++ new) ((old ++ new) ++ skipn (List.length (old ++ new)) s)).
Proof.
  intros Ls. induction new as [|c new IH]; intros old N L; cbn [foldM]; [now rewrite app_nil_r|].
  assert (I : index_of c old = None). { apply index_none. intros I. apply NoDup_remove_2 in N. apply N, in_app_iff. auto. }
  rewrite app_length in L. cbn in L.
  assert (G : getcolor (Pal old (old ++ skipn (List.length old) s)) c = Ok (Pal (old ++ [c]) ((old ++ [c]) ++ skipn (List.length (old ++ [c])) s))).
  { unfold getcolor. cbn [pcolors slots]. rewrite I. destruct (Nat.ltb_spec (List.length old) 256) as [_|X]; [|lia].
    destruct (skipn (List.length old) s) as [|a s'] eqn:E.
    - exfalso. assert (Z := skipn_length (List.length old) s). rewrite E in Z. cbn in Z. lia.
    - rewrite set_slot_app. do 3 f_equal. rewrite app_length. cbn. replace (List.length old + 1)%nat with (S (List.length old)) by lia.
      clear - E. revert s E. induction (List.length old) as [|k IH]; intros s E; destruct s as [|x s]; try discriminate; cbn in *; [now injection E as _ ->|]. now apply IH. }
  rewrite G. cbn [bind]. replace (old ++ c :: new) with ((old ++ [c]) ++ new) in * by (now rewrite <- app_assoc). apply IH; auto. rewrite !app_length in *. cbn in *. lia.
Qed.
Lemma foldM_map {A B C} (f : C -> B -> res C) (g : A -> B) l : forall s, foldM (fun s a => f s (g a)) s l = foldM f s (map g l).
Proof. induction l; intros s; cbn; auto. destruct (f s (g a)); cbn; auto. Qed.
