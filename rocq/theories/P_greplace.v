(* C46: Group.replace. *)
Require Import Verif.Base Verif.M_vector Verif.M_bbox Verif.M_transform Verif.M_bezier Verif.M_colors Verif.M_elems Verif.M_group.
Require Import Verif.S_group Verif.L_group Verif.P_gnames.
From Coq Require Import String List Lia Bool.
Import ListNotations.
Local Open Scope string_scope.
Local Open Scope list_scope.
Local Open Scope nat_scope.

Lemma set_name_same {F} (e : elem F) : set_name (elem_name e) e = e.
Proof. destruct e as [[]|[]|[]]; reflexivity. Qed.
Lemma group_add_plain {F} (t : list (string * elem F)) (e : elem F) :
  has_key (elem_name e) t = false ->
  group_add t (elem_name e) e false =
  if has_dot (elem_name e) then Raise ValueError else Ok (t ++ [(elem_name e, e)]).
Proof. intros H. unfold group_add. rewrite H. cbn. rewrite H. now rewrite set_name_same. Qed.

Lemma del_key_mid {A} k (a : A) l l' : ~ In k (keys l) -> del_key k (l ++ (k, a) :: l') = l ++ l'.
Proof.
  induction l as [|[k' a'] l IH]; cbn; intros N; [now rewrite String.eqb_refl|].
  destruct (String.eqb_spec k k') as [->|D]; [exfalso; auto|]. rewrite IH; tauto.
Qed.
Lemma set_key_mid {A} k (a b : A) l l' : ~ In k (keys l) -> set_key k b (l ++ (k, a) :: l') = l ++ (k, b) :: l'.
Proof.
  induction l as [|[k' a'] l IH]; cbn; intros N; [now rewrite String.eqb_refl|].
  destruct (String.eqb_spec k k') as [->|D]; [exfalso; auto|]. rewrite IH; tauto.
Qed.

Section Replace.
  Context {F : Type}.
  Variable eqv : elem F -> bool.
  Variable repl : elem F.
  Notation hit := (fun ke : string * elem F => eqv (snd ke)).
  Notation rep := (elem_replace eqv repl).

  Fixpoint go (l cur : list (string * elem F)) (count : nat) : list (string * elem F) * res nat :=
    match l with
    | [] => (cur, Ok count)
    | (k, x) :: l' =>
        if eqv x then
          let cur := del_key k cur in
          if has_key (elem_name repl) cur then (cur, Raise ValueError)
          else match group_add cur (elem_name repl) repl false with
               | Raise err => (cur, Raise err)
               | Ok cur => go l' cur (S count)
               end
        else
          let (x', r) := rep x in
          let cur := set_key k x' cur in
          match r with
          | Raise err => (cur, Raise err)
          | Ok n => go l' cur (count + n)
          end
    end.
  Lemma rep_group b h l p : rep (EGroup b h l p) = let (l', r) := go l l 0 in (EGroup b h l' p, r).
  Proof. reflexivity. Qed.

  Definition kept (l : list (string * elem F)) : list (string * elem F) :=
    flat_map (fun ke => if eqv (snd ke) then [] else [(fst ke, replaced eqv repl (snd ke))]) l.
  Definition tail (l : list (string * elem F)) : list (string * elem F) :=
    if existsb hit l then [(elem_name repl, repl)] else [].
  Definition sum (l : list (string * elem F)) : nat :=
    list_sum (map (fun ke => if eqv (snd ke) then 1 else hits eqv (snd ke)) l).

  Lemma kept_keys l : keys (kept l) = keys (others eqv l).
  Proof.
    unfold kept, others, keys. induction l as [|[k x] l IH]; cbn; [reflexivity|].
    destruct (eqv x); cbn; [exact IH|now rewrite IH].
  Qed.
  Lemma others_in k l : In k (keys (others eqv l)) -> In k (keys l).
  Proof.
    unfold keys, others. rewrite !in_map_iff. intros (x & E & H). apply filter_In in H as [H _]. eauto.
  Qed.
  Lemma kept_app a b : kept (a ++ b) = kept a ++ kept b. Proof. apply flat_map_app. Qed.
  Lemma others_app a b : others eqv (a ++ b) = others eqv a ++ others eqv b. Proof. apply filter_app. Qed.
  Lemma others_cons k x l : others eqv ((k, x) :: l) = if eqv x then others eqv l else (k, x) :: others eqv l.
  Proof. unfold others. cbn. now destruct (eqv x). Qed.
  Lemma others_all l : existsb hit l = false -> others eqv l = l.
  Proof.
    induction l as [|[k x] l IH]; cbn; [reflexivity|]. intros H. apply orb_false_elim in H as [-> H].
    cbn. f_equal. auto.
  Qed.
  Lemma hits_none l : existsb hit l = false <-> filter hit l = [].
  Proof.
    induction l as [|[k x] l IH]; cbn; [easy|]. destruct (eqv x); cbn; [easy|exact IH].
  Qed.

  (* what is left to do may succeed *)
  Definition fine (done l : list (string * elem F)) : Prop :=
    (forall k e, In (k, e) l -> eqv e = false -> replaceable eqv repl e) /\
    (filter hit l = [] \/
     existsb hit done = false /\ List.length (filter hit l) = 1 /\
     ~ In (elem_name repl) (keys (others eqv (done ++ l))) /\ has_dot (elem_name repl) = false).

  Lemma go_fine l : forall done count,
    NoDup (keys (done ++ l)) ->
    (forall k e, In (k, e) l -> replaceable eqv repl e -> rep e = (replaced eqv repl e, Ok (hits eqv e))) ->
    fine done l ->
    go l (kept done ++ l ++ tail done) count = (kept (done ++ l) ++ tail (done ++ l), Ok (count + sum l)).
  Proof.
    induction l as [|[k x] l IH]; intros done count N H [Fi Fh].
    - cbn. unfold sum. cbn. now rewrite app_nil_r, Nat.add_0_r.
    - assert (E : done ++ (k, x) :: l = (done ++ [(k, x)]) ++ l) by now rewrite <- app_assoc.
      assert (Nk : ~ In k (keys (kept done))).
      { rewrite kept_keys. intros C. apply others_in in C. rewrite keys_app in N. cbn in N.
        apply NoDup_remove_2 in N. apply N, in_or_app. now left. }
      cbn [go]. unfold sum. cbn [map snd]. destruct (eqv x) eqn:X.
      + cbn [app]. rewrite del_key_mid by exact Nk.
        destruct Fh as [Fh|(F1 & F2 & F3 & F4)]; [cbn in Fh; rewrite X in Fh; discriminate|].
        cbn in F2. rewrite X in F2. cbn in F2. injection F2 as F2. apply length_zero_iff_nil in F2.
        assert (Td : tail done = []) by (unfold tail; now rewrite F1). rewrite Td, app_nil_r.
        pose proof F2 as Fe. apply hits_none in Fe.
        rewrite others_app, others_cons, X in F3.
        rewrite (others_all _ Fe) in F3.
        assert (K : has_key (elem_name repl) (kept done ++ l) = false).
        { apply has_key_false. rewrite keys_app, kept_keys. now rewrite keys_app in F3. }
        rewrite K. rewrite (group_add_plain _ _ K), F4.
        rewrite E. replace ((kept done ++ l) ++ [(elem_name repl, repl)])
          with (kept (done ++ [(k, x)]) ++ l ++ tail (done ++ [(k, x)])).
        2:{ unfold tail. rewrite existsb_app. cbn. rewrite X, orb_true_r. cbn.
            rewrite kept_app. cbn. rewrite X, app_nil_r. now rewrite app_assoc. }
        rewrite IH.
        * replace (S count + sum l) with (count + (1 + sum l)) by lia. reflexivity.
        * now rewrite <- E.
        * intros k' e' I'. apply H with k'. now right.
        * split; [intros k' e' I'; apply Fi with k'; now right|]. now left.
      + rewrite (H k x (or_introl eq_refl) (Fi _ _ (or_introl eq_refl) X)).
        cbn [app]. rewrite set_key_mid by exact Nk. rewrite E.
        replace (kept done ++ (k, replaced eqv repl x) :: l ++ tail done)
          with (kept (done ++ [(k, x)]) ++ l ++ tail (done ++ [(k, x)])).
        2:{ unfold tail. rewrite existsb_app. cbn. rewrite X, orb_false_r.
            rewrite kept_app. cbn. rewrite X. now rewrite <- app_assoc. }
        rewrite IH.
        * replace (count + hits eqv x + sum l) with (count + (hits eqv x + sum l)) by lia. reflexivity.
        * now rewrite <- E.
        * intros k' e' I'. apply H with k'. now right.
        * split; [intros k' e' I'; apply Fi with k'; now right|].
          cbn in Fh. rewrite X in Fh. destruct Fh as [Fh|(F1 & F2 & F3)]; [now left|].
          right. rewrite <- E. split; [|auto]. rewrite existsb_app. cbn. now rewrite F1, X.
  Qed.

  Lemma go_fine_conv l : forall done count cur n,
    NoDup (keys (done ++ l)) ->
    (forall k e, In (k, e) l -> eqv e = false ->
        (replaceable eqv repl e /\ rep e = (replaced eqv repl e, Ok (hits eqv e))) \/
        exists e' x, rep e = (e', Raise x)) ->
    go l (kept done ++ l ++ tail done) count = (cur, Ok n) -> fine done l.
  Proof.
    induction l as [|[k x] l IH]; intros done count cur n N H G.
    - split; [easy|now left].
    - assert (E : done ++ (k, x) :: l = (done ++ [(k, x)]) ++ l) by now rewrite <- app_assoc.
      assert (Nk : ~ In k (keys (kept done))).
      { rewrite kept_keys. intros C. apply others_in in C. rewrite keys_app in N. cbn in N.
        apply NoDup_remove_2 in N. apply N, in_or_app. now left. }
      cbn [go] in G. destruct (eqv x) eqn:X.
      + cbn [app] in G. rewrite del_key_mid in G by exact Nk.
        destruct (has_key (elem_name repl) (kept done ++ l ++ tail done)) eqn:K; [discriminate|].
        rewrite (group_add_plain _ _ K) in G.
        destruct (has_dot (elem_name repl)) eqn:D; [discriminate|].
        assert (F1 : existsb hit done = false).
        { destruct (existsb hit done) eqn:Ed; [|reflexivity]. apply has_key_false in K. exfalso. apply K.
          unfold tail. rewrite Ed. rewrite !keys_app. cbn. apply in_or_app. right. apply in_or_app. right. now left. }
        replace ((kept done ++ l ++ tail done) ++ [(elem_name repl, repl)])
          with (kept (done ++ [(k, x)]) ++ l ++ tail (done ++ [(k, x)])) in G.
        2:{ unfold tail. rewrite existsb_app. cbn. rewrite X, F1, orb_true_r, app_nil_r. cbn.
            rewrite kept_app. cbn. rewrite X, app_nil_r. now rewrite app_assoc. }
        apply IH in G; [|now rewrite <- E|intros k' e' I'; apply H with k'; now right].
        destruct G as [G1 G2].
        assert (Fe : filter hit l = []).
        { destruct G2 as [G2|(G2 & _)]; [exact G2|]. rewrite existsb_app in G2. cbn in G2.
          rewrite X, orb_true_r in G2. discriminate. }
        split.
        * intros k' e' [I'|I'] Z; [injection I' as <- <-; congruence|eauto].
        * right. split; [exact F1|]. cbn. rewrite X. cbn. rewrite Fe. split; [reflexivity|].
          split; [|exact D]. apply has_key_false in K. rewrite !keys_app, kept_keys in K.
          rewrite others_app, others_cons, X. rewrite (others_all l) by now apply hits_none.
          rewrite keys_app. intros C. apply K. apply in_or_app. apply in_app_or in C as [C|C]; [now left|].
          right. apply in_or_app. now left.
      + destruct (H k x (or_introl eq_refl) X) as [[Rx Ex]|(e' & y & Ex)]; rewrite Ex in G; [|discriminate].
        cbn [app] in G. rewrite set_key_mid in G by exact Nk.
        replace (kept done ++ (k, replaced eqv repl x) :: l ++ tail done)
          with (kept (done ++ [(k, x)]) ++ l ++ tail (done ++ [(k, x)])) in G.
        2:{ unfold tail. rewrite existsb_app. cbn. rewrite X, orb_false_r.
            rewrite kept_app. cbn. rewrite X. now rewrite <- app_assoc. }
        apply IH in G; [|now rewrite <- E|intros k' e' I'; apply H with k'; now right].
        destruct G as [G1 G2]. split.
        * intros k' e' [I'|I'] Z; [injection I' as <- <-; exact Rx|eauto].
        * cbn. rewrite X. destruct G2 as [G2|(G2 & G3 & G4 & G5)]; [now left|right].
          rewrite existsb_app in G2. apply orb_false_elim in G2 as [G2 _]. rewrite E. auto.
  Qed.

  Lemma fine_replaceable b h l p : fine [] l <-> replaceable eqv repl (EGroup b h l p).
  Proof.
    unfold fine. cbn [app]. rewrite has_dot_false. split.
    - intros [A B]. constructor; [exact A| |].
      + destruct B as [->|(_ & -> & _)]; cbn; lia.
      + intros (k & e & I & X). destruct B as [B|(_ & _ & B)]; [|exact B].
        apply hits_none in B. exfalso. assert (C : existsb hit l = true) by (apply existsb_exists; now exists (k, e)).
        congruence.
    - intros R. inversion R as [|? ? ? ? A B C]; subst. split; [exact A|].
      destruct (filter hit l) as [|[k e] [|]] eqn:E; [now left| |cbn in B; lia].
      right. split; [reflexivity|]. split; [reflexivity|]. apply C. exists k, e.
      apply (filter_In hit (k, e) l). rewrite E. now left.
  Qed.

  Lemma replace_dich (e : elem F) : tidy e ->
    (replaceable eqv repl e /\ rep e = (replaced eqv repl e, Ok (hits eqv e))) \/
    (~ replaceable eqv repl e /\ exists e' x, rep e = (e', Raise x)).
  Proof.
    induction e as [b s|b h l p IH|b o i IHo IHi] using elem_induction; intros T.
    - left. split; [constructor|reflexivity].
    - inversion T as [|? ? ? ? [G1 G2] TL|]; subst. rewrite Forall_forall in IH.
      assert (D : forall k e, In (k, e) l ->
         (replaceable eqv repl e /\ rep e = (replaced eqv repl e, Ok (hits eqv e))) \/
         (~ replaceable eqv repl e /\ exists e' x, rep e = (e', Raise x)))
        by (intros k e I; apply (IH _ I); eapply TL; eauto).
      rewrite rep_group. destruct (go l l 0) as [cur [n|x]] eqn:G.
      + assert (Fi : fine [] l).
        { apply (go_fine_conv l [] 0 cur n); [exact G1| |cbn; now rewrite app_nil_r].
          intros k e I _. destruct (D _ _ I) as [A|[_ A]]; auto. }
        left. split; [now apply fine_replaceable|].
        pose proof (go_fine l [] 0 G1) as Go. cbn in Go. rewrite app_nil_r in Go.
        rewrite Go in G; [injection G as <- <-; reflexivity| |exact Fi].
        intros k e I R. destruct (D _ _ I) as [[_ A]|[A _]]; [exact A|easy].
      + right. split; [|now eexists _, _]. intros R. apply (fine_replaceable b h l p) in R.
        pose proof (go_fine l [] 0 G1) as Go. cbn in Go. rewrite app_nil_r in Go.
        rewrite Go in G; [discriminate| |exact R].
        intros k e I R'. destruct (D _ _ I) as [[_ A]|[A _]]; [exact A|easy].
    - right. split; [|cbn; now eexists _, _]. intros R. inversion R.
  Qed.

  (* When replacing works: the number of elements replaced in the whole tree, and the tree
     afterwards. *)
  Theorem C46_replaces : forall (e : elem F), tidy e -> replaceable eqv repl e ->
    elem_replace eqv repl e = (replaced eqv repl e, Ok (hits eqv e)).
  Proof. intros e T R. destruct (replace_dich e T) as [[_ A]|[A _]]; [exact A|easy]. Qed.

  (* It works only then: two matches in a group, a clash of names, or an ElemWithHoles on
     the way always raise. *)
  Theorem C46_only_then : forall (e e' : elem F) (n : nat), tidy e ->
    elem_replace eqv repl e = (e', Ok n) -> replaceable eqv repl e /\ e' = replaced eqv repl e /\ n = hits eqv e.
  Proof.
    intros e e' n T H. destruct (replace_dich e T) as [[R A]|[_ (a & x & A)]]; rewrite A in H; [|discriminate].
    injection H as <- <-. auto.
  Qed.

  (* Afterwards the old elements are gone (they are simple elements here, and the
     replacement is not one of them), and each group has the others in the old order. *)
  Theorem C46_gone : forall (e x : elem F) (ks : list string),
    (forall y, eqv y = true -> ~ is_group y) -> eqv repl = false -> plain repl -> ~ is_group repl ->
    at_path (replaced eqv repl e) ks x -> eqv x = false.
  Proof.
    intros e x ks Hl Hr Pr Gr. revert ks.
    induction e as [b s|b h l p IH|b o i IHo IHi] using elem_induction; intros ks H.
    - inversion H.
    - assert (M : forall k y, In (k, y) (kept l ++ tail l) ->
         y = repl \/ exists z, In (k, z) l /\ eqv z = false /\ y = replaced eqv repl z).
      { intros k y I. apply in_app_or in I as [I|I].
        - apply in_flat_map in I as ([k' z] & I & J). cbn in J. destruct (eqv z) eqn:Z; [easy|].
          destruct J as [J|[]]. injection J as <- <-. right. eauto.
        - unfold tail in I. destruct (existsb hit l); [|easy]. destruct I as [I|[]]. injection I as _ <-. now left. }
      change (replaced eqv repl (EGroup b h l p)) with (EGroup b h (kept l ++ tail l) p) in H.
      rewrite Forall_forall in IH.
      inversion H as [? ? ? ? ? ? HI|? ? ? ? ? g ? ? HI HP]; subst.
      + destruct (M _ _ HI) as [->|(z & I & Z & ->)]; [exact Hr|].
        destruct z as [|b' h' l' p'|]; [exact Z| |exact Z].
        destruct (eqv (replaced eqv repl (EGroup b' h' l' p'))) eqn:Q; [|reflexivity].
        exfalso. exact (Hl _ Q Logic.I).
      + destruct (M _ _ HI) as [->|(z & I & Z & ->)].
        * apply at_path_group in HP. easy.
        * eapply (IH _ I). exact HP.
    - inversion H.
  Qed.

  (* Nothing is changed when nothing matches. *)
  Theorem C46_nothing : forall (e : elem F),
    (forall ks x, at_path e ks x -> eqv x = false) -> replaced eqv repl e = e /\ hits eqv e = 0.
  Proof.
    induction e as [b s|b h l p IH|b o i IHo IHi] using elem_induction; intros H; try (split; reflexivity).
    assert (Z : forall k x, In (k, x) l -> eqv x = false) by (intros k x I; apply (H [k]); now constructor).
    assert (Y : forall k x, In (k, x) l -> replaced eqv repl x = x /\ hits eqv x = 0).
    { rewrite Forall_forall in IH. intros k x I. apply (IH _ I). intros ks y A. apply (H (k :: ks)).
      eapply at_below; eauto. }
    assert (W : kept l = l /\ tail l = [] /\ sum l = 0).
    { clear IH H. unfold tail, sum, kept. induction l as [|[k x] l IH]; [repeat split|]. cbn.
      rewrite (Z k x) by now left. destruct (Y k x) as [-> ->]; [now left|]. cbn.
      destruct IH as (A & B & C); [intros; eapply Z; right; eauto|intros; eapply Y; right; eauto|].
      rewrite A. auto. }
    destruct W as (W1 & W2 & W3).
    change (replaced eqv repl (EGroup b h l p)) with (EGroup b h (kept l ++ tail l) p).
    rewrite W1, W2, app_nil_r. split; [reflexivity|exact W3].
  Qed.

  (* A clash of names with a later or earlier member is noticed after the old element was
     deleted: the call raises and the element is gone. *)
  Theorem C46_clash : forall (b : ebase F) (h : bool) (l1 l2 : list (string * elem F)) (p : list (string * pt F)) (k : string) (x : elem F),
    tidy (EGroup b h (l1 ++ (k, x) :: l2) p) -> eqv x = true ->
    (forall k' y, In (k', y) l1 -> eqv y = false /\ replaceable eqv repl y) ->
    In (e_name (e_base repl)) (keys l1) \/ In (e_name (e_base repl)) (keys l2) ->
    exists l', elem_replace eqv repl (EGroup b h (l1 ++ (k, x) :: l2) p) = (EGroup b h l' p, Raise ValueError) /\
               keys l' = keys l1 ++ keys l2 /\ ~ In k (keys l').
  Proof.
    intros b h l1 l2 p k x T X H1 C. inversion T as [|? ? ? ? [N _] TL|]; subst.
    rewrite rep_group.
    assert (Nk : ~ In k (keys l1 ++ keys l2)).
    { rewrite keys_app in N. cbn in N. now apply NoDup_remove_2 in N. }
    assert (K1 : forall l, (forall k' y, In (k', y) l -> eqv y = false /\ replaceable eqv repl y) -> others eqv l = l /\ existsb hit l = false).
    { clear. intros l H. assert (X : existsb hit l = false).
      { induction l as [|[k y] l IH]; [reflexivity|]. cbn. destruct (H k y) as [-> _]; [now left|].
        apply IH. intros; eapply H; right; eauto. }
      split; [now apply others_all|exact X]. }
    assert (St : forall l done count, NoDup (keys (done ++ l ++ (k, x) :: l2)) ->
       (forall k' y, In (k', y) (done ++ l) -> eqv y = false /\ replaceable eqv repl y /\ tidy y) ->
       exists count', go (l ++ (k, x) :: l2) (kept done ++ l ++ (k, x) :: l2) count =
                      go ((k, x) :: l2) (kept (done ++ l) ++ (k, x) :: l2) count').
    { clear - X. induction l as [|[k1 y] l IH]; intros done count N H; [rewrite app_nil_r; now exists count|].
      assert (E : done ++ (k1, y) :: l = (done ++ [(k1, y)]) ++ l) by now rewrite <- app_assoc.
      destruct (H k1 y) as (Y & R & Ty); [apply in_or_app; right; now left|].
      cbn [app go]. rewrite Y. rewrite (C46_replaces y Ty R).
      rewrite set_key_mid.
      2:{ rewrite kept_keys. intros C. apply others_in in C. rewrite keys_app in N. cbn in N.
          apply NoDup_remove_2 in N. apply N, in_or_app. now left. }
      replace (kept done ++ (k1, replaced eqv repl y) :: l ++ (k, x) :: l2)
        with (kept (done ++ [(k1, y)]) ++ l ++ (k, x) :: l2).
      2:{ rewrite kept_app. cbn. rewrite Y. now rewrite <- app_assoc. }
      rewrite E. apply IH.
      - cbn [app] in N. now rewrite <- app_assoc.
      - now rewrite <- E. }
    destruct (St l1 [] 0) as (c & Sc); [exact N| |].
    { intros k' y I. destruct (H1 _ _ I) as [A B]. split; [exact A|]. split; [exact B|].
      eapply TL. apply in_or_app. left. exact I. }
    change (kept []) with (@nil (string * elem F)) in Sc. cbn [app] in Sc. rewrite Sc.
    cbn [app go]. rewrite X. rewrite del_key_mid.
    2:{ rewrite kept_keys. destruct (K1 l1 H1) as [-> _]. intros I. apply Nk, in_or_app. now left. }
    assert (K : has_key (elem_name repl) (kept l1 ++ l2) = true).
    { apply has_key_spec. rewrite keys_app, kept_keys. destruct (K1 l1 H1) as [-> _]. apply in_or_app.
      exact C. }
    rewrite K. eexists. split; [reflexivity|]. rewrite keys_app, kept_keys. destruct (K1 l1 H1) as [-> _].
    split; [reflexivity|exact Nk].
  Qed.

  (* An ElemWithHoles that is reached and is not itself a match raises. *)
  Theorem C46_holes : forall (b : ebase F) (h : bool) (l1 l2 : list (string * elem F)) (p : list (string * pt F))
      (k : string) (bh : ebase F) (o : elem F) (i : list (elem F)),
    tidy (EGroup b h (l1 ++ (k, EHoles bh o i) :: l2) p) -> eqv (EHoles bh o i) = false ->
    exists e' x, elem_replace eqv repl (EGroup b h (l1 ++ (k, EHoles bh o i) :: l2) p) = (e', Raise x) /\
      ((forall k' y, In (k', y) l1 -> exists bb s, y = ELeaf bb s /\ eqv y = false) -> x = NotImplementedError).
  Proof.
    intros b h l1 l2 p k bh o i T X. destruct (replace_dich _ T) as [[R _]|[_ (e' & x & E)]].
    - inversion R as [|? ? ? ? A _ _]; subst.
      assert (C : replaceable eqv repl (EHoles bh o i)) by (apply (A k); [apply in_or_app; right; now left|exact X]).
      inversion C.
    - exists e', x. split; [exact E|]. intros L. rewrite rep_group in E.
      assert (St : forall l cur count, (forall k' y, In (k', y) l -> exists bb s, y = ELeaf bb s /\ eqv y = false) ->
         snd (go (l ++ (k, EHoles bh o i) :: l2) cur count) = Raise NotImplementedError).
      { clear - X. induction l as [|[k1 y] l IH]; intros cur count H; cbn [app go].
        - rewrite X. reflexivity.
        - destruct (H k1 y) as (bb & s & -> & ->); [now left|]. cbn [elem_replace]. apply IH.
          intros k' y' I. apply H with k'. now right. }
      specialize (St l1 (l1 ++ (k, EHoles bh o i) :: l2) 0 L).
      destruct (go _ _ 0) as [c r]. cbn in St. subst r. now injection E.
  Qed.
End Replace.

(* ---------------- the test e == elem, over the real numbers ---------------- *)
Require Import Verif.NumR Verif.L_real.
From Coq Require Import Reals.

(* the same name, pens, closed flag and matrix *)
Definition same_base (b b' : ebase R) : Prop :=
  e_name b = e_name b' /\ e_pb b = e_pb b' /\ e_closed b = e_closed b' /\ tmat (e_xform b) = tmat (e_xform b').

Local Notation reflects f := (forall a b, f a b = true <-> a = b) (only parsing).
Lemma R_reflects : reflects (@neqb R _).
Proof. intros a b. apply Reqb_eq. Qed.
Lemma list_reflects {A} (f : A -> A -> bool) : reflects f -> reflects (list_eqb f).
Proof.
  intros H a. induction a as [|x a IH]; intros [|y b]; cbn; try easy.
  rewrite andb_true_iff, H, IH. split; [intros [-> ->]; reflexivity|intros E; injection E; auto].
Qed.
Lemma opt_reflects {A} (f : A -> A -> bool) : reflects f -> reflects (opt_eqb f).
Proof. intros H [a|] [b|]; cbn; try easy. rewrite H. split; congruence. Qed.
Lemma color_reflects : reflects (@color_eqb R _).
Proof.
  intros [s|x|l] [t|y|l']; cbn; try easy.
  - rewrite String.eqb_eq. split; congruence.
  - rewrite R_reflects. split; congruence.
  - rewrite (list_reflects _ R_reflects). split; congruence.
Qed.
Lemma brush_reflects : reflects (@brush_eqb R _).
Proof. intros [a] [b]. unfold brush_eqb. cbn. rewrite color_reflects. split; congruence. Qed.
Lemma pen_reflects : reflects (@pen_eqb R _).
Proof.
  intros [a w] [b w']. unfold pen_eqb. cbn [pbrush pwidth]. rewrite andb_true_iff, brush_reflects, R_reflects.
  split; [intros [-> ->]; reflexivity|intros E; injection E; auto].
Qed.
Lemma pb_reflects : reflects (@pb_eqb R _).
Proof.
  intros [a w] [b w']. unfold pb_eqb. cbn [pb_pen pb_brush].
  rewrite andb_true_iff, (opt_reflects _ pen_reflects), (opt_reflects _ brush_reflects).
  split; [intros [-> ->]; reflexivity|intros E; injection E; auto].
Qed.
Lemma p_reflects : reflects (@p_eqb R _).
Proof.
  intros [a w] [b w']. unfold p_eqb. cbn [px py]. rewrite andb_true_iff, !R_reflects.
  split; [intros [-> ->]; reflexivity|intros E; injection E; auto].
Qed.
Lemma v_reflects : reflects (@v_eqb R _).
Proof.
  intros [a w] [b w']. unfold v_eqb. cbn [vx vy]. rewrite andb_true_iff, !R_reflects.
  split; [intros [-> ->]; reflexivity|intros E; injection E; auto].
Qed.
Lemma cp_reflects : reflects (@cp_eqb R _).
Proof.
  intros [a b c d] [a' b' c' d']. unfold cp_eqb. cbn [cc cdl cdr ckind].
  rewrite !andb_true_iff, p_reflects, !v_reflects, String.eqb_eq.
  split; [intros [[[-> ->] ->] ->]; reflexivity|intros E; injection E; auto].
Qed.
Lemma mat_reflects : reflects (@mat_eqb R _).
Proof.
  intros [a b c d e f g h i] [a1 b1 c1 d1 e1 f1 g1 h1 i1]. unfold mat_eqb. cbn [m00 m01 m02 m10 m11 m12 m20 m21 m22].
  rewrite !andb_true_iff, !R_reflects.
  split; [intros [[[[[[[[-> ->] ->] ->] ->] ->] ->] ->] ->]; reflexivity|intros E; injection E; intros; subst; repeat split].
Qed.
Lemma shape_reflects : reflects (@shape_eqb R _).
Proof.
  intros [l|p q|p q r|p q] [l'|p' q'|p' q' r'|p' q']; cbn; try easy;
    rewrite ?andb_true_iff, ?p_reflects, ?(list_reflects _ cp_reflects), ?R_reflects.
  - split; congruence.
  - split; [intros [-> ->]; reflexivity|intros E; injection E; auto].
  - split; [intros [[-> ->] ->]; reflexivity|intros E; injection E; auto].
  - split; [intros [-> ->]; reflexivity|intros E; injection E; auto].
Qed.
Lemma base_reflects (b b' : ebase R) : base_eqb b b' = true <-> same_base b b'.
Proof.
  unfold base_eqb, same_base, t_eqb.
  rewrite !andb_true_iff, String.eqb_eq, pb_reflects, Bool.eqb_true_iff, mat_reflects. tauto.
Qed.

(* Two simple elements are equal when they are of one class with the same fields; their
   transforms count by their matrix only.  An element never equals one of another class. *)
Theorem C46_equal : forall (b : ebase R) (s : shape R) (e : elem R),
  elem_eqb (ELeaf b s) e = true <-> exists b', e = ELeaf b' s /\ same_base b b'.
Proof.
  intros b s [b' s'|b' h l p|b' o i]; cbn [elem_eqb].
  - rewrite andb_true_iff, base_reflects, shape_reflects. split.
    + intros [A <-]. eauto.
    + intros (b'' & E & A). injection E as -> ->. auto.
  - split; [easy|]. intros (b'' & E & _). discriminate.
  - split; [easy|]. intros (b'' & E & _). discriminate.
Qed.
Lemma eqb_leaf_right (e : elem R) b s : elem_eqb e (ELeaf b s) = true -> exists b', e = ELeaf b' s /\ same_base b' b.
Proof.
  destruct e; cbn [elem_eqb]; try easy. rewrite andb_true_iff, base_reflects, shape_reflects.
  intros [A ->]. eauto.
Qed.

(* Group.replace(elem, replacement) of one simple element by another that differs from it:
   when it returns n, n elements equal to elem were replaced and no element of the tree is
   equal to elem any more. *)
Theorem C46_method : forall (g g' x : elem R) (bt br : ebase R) (st sr : shape R) (n : nat) (ks : list string),
  tidy g -> ~ (same_base br bt /\ sr = st) ->
  elem_replace (fun e => elem_eqb e (ELeaf bt st)) (ELeaf br sr) g = (g', Ok n) ->
  n = hits (fun e => elem_eqb e (ELeaf bt st)) g /\
  (at_path g' ks x -> elem_eqb x (ELeaf bt st) = false).
Proof.
  intros g g' x bt br st sr n ks T D H. apply C46_only_then in H; [|exact T]. destruct H as (_ & -> & ->).
  split; [reflexivity|]. intros P.
  refine (C46_gone _ (ELeaf br sr) g x ks _ _ _ _ P).
  - intros y Y. apply eqb_leaf_right in Y as (b' & -> & _). easy.
  - destruct (elem_eqb (ELeaf br sr) (ELeaf bt st)) eqn:E; [|reflexivity].
    exfalso. apply D. apply eqb_leaf_right in E as (b' & E & A). injection E as -> ->. auto.
  - constructor.
  - easy.
Qed.

(* a tree in which two elements are replaced, in two groups *)
Example C46_nontrivial :
  let old := fun e : elem R => elem_eqb e (ex_leaf "a") in
  let sub l := EGroup (EB "g" (PenBrush None None) false t_new) false l [] in
  let g := EGroup (EB "top" (PenBrush None None) false t_new) false
             [("a", ex_leaf "a"); ("c", ex_leaf "c"); ("g", sub [("a", ex_leaf "a"); ("b", ex_leaf "b")])] [] in
  tidy g /\ replaceable old (ex_leaf "z") g /\ hits old g = 2%nat /\
  replaced old (ex_leaf "z") g =
    EGroup (EB "top" (PenBrush None None) false t_new) false
      [("c", ex_leaf "c"); ("g", sub [("b", ex_leaf "b"); ("z", ex_leaf "z")]); ("z", ex_leaf "z")] [].
Proof.
  intros old sub g.
  assert (Ya : old (ex_leaf "a") = true).
  { apply C46_equal. eexists. split; [reflexivity|]. repeat split. }
  assert (Yn : forall n, n <> "a" -> old (ex_leaf n) = false).
  { intros n N. destruct (old (ex_leaf n)) eqn:E; [|reflexivity]. exfalso. apply C46_equal in E as (b' & E & A & _).
    injection E as <-. apply N. exact A. }
  assert (Yb := Yn "b" ltac:(discriminate)). assert (Yc := Yn "c" ltac:(discriminate)).
  assert (Yg : forall l, old (sub l) = false) by reflexivity.
  assert (Z : has_dot "z" = false) by reflexivity. apply has_dot_false in Z.
  split; [|split; [|split]].
  - constructor.
    + split; [repeat constructor; cbn; intuition discriminate|].
      intros k e [H|[H|[H|[]]]]; injection H as <- <-; (split; [now apply has_dot_false|reflexivity]).
    + intros k e [H|[H|[H|[]]]]; injection H as <- <-; try constructor.
      * split; [repeat constructor; cbn; intuition discriminate|].
        intros k e [H|[H|[]]]; injection H as <- <-; (split; [now apply has_dot_false|reflexivity]).
      * intros k e [H|[H|[]]]; injection H as <- <-; constructor.
  - constructor.
    + intros k e [H|[H|[H|[]]]] Q; injection H as <- <-; try constructor.
      * intros k e [H|[H|[]]] Q'; injection H as <- <-; constructor.
      * cbn [filter snd]. rewrite Ya, Yb. cbn. lia.
      * intros _. unfold others. cbn [filter snd]. rewrite Ya, Yb. cbn. split; [|exact Z].
        intuition discriminate.
    + cbn [filter snd]. rewrite Ya, Yc, Yg. cbn. lia.
    + intros _. unfold others. cbn [filter snd]. rewrite Ya, Yc, Yg. cbn. split; [|exact Z].
      intuition discriminate.
  - cbn [g hits sub map snd]. rewrite Ya, Yc, Yb. fold (sub [("a", @ex_leaf R _ "a"); ("b", ex_leaf "b")]).
    rewrite Yg. reflexivity.
  - cbn [g replaced sub flat_map existsb fst snd]. rewrite Ya, Yc, Yb.
    fold (sub [("a", @ex_leaf R _ "a"); ("b", ex_leaf "b")]). rewrite Yg. reflexivity.
Qed.
