(* Lemmas: when every node is visited twice with an even number of visits in between, the walk
   never gets stuck. *)
Require Import Verif.Base Verif.M_vector Verif.M_bezier Verif.M_group Verif.M_selfix Verif.L_selfix Verif.L_selfix2.
From Coq Require Import List Lia PeanoNat Permutation Bool.
Import ListNotations.

Section Gauss.
  Context {F : Type} {NF : Num F} {RF : NumRoot F}.
  Variable raw : list (nat * list (cpoint F) * nat).
  Let n := length raw.
  Notation lf := (lf raw). Notation rt := (rt raw). Notation nxt := (nxt raw).
  Hypothesis Hrt : forall i, i < n -> rt i = lf (nxt i).
  Variable par : nat -> nat.
  Hypothesis par_lt : forall i, i < n -> par i < n.
  Hypothesis par_ne : forall i, i < n -> par i <> i.
  Hypothesis par_lf : forall i, i < n -> lf (par i) = lf i.
  Hypothesis par_only : forall i j, i < n -> j < n -> lf j = lf i -> j = i \/ j = par i.
  Hypothesis par_odd : forall i, i < n -> Nat.odd (par i) = negb (Nat.odd i).
  Hypothesis n_even : Nat.odd n = false.

  Definition prv (i : nat) : nat := if i =? 0 then n - 1 else i - 1.
  Definition sg (i : nat) : nat := prv (par i).

  Lemma par_par i : i < n -> par (par i) = i.
  Proof.
    intro H. pose proof (par_lt i H) as H1. pose proof (par_lf i H) as H2.
    destruct (par_only (par i) i H1 H (eq_sym H2)) as [Q|Q]; [|auto]. exfalso. now apply (par_ne i H).
  Qed.
  Lemma nxt_lt i : i < n -> nxt i < n.
  Proof. intro H. unfold L_selfix2.nxt. fold n. destruct (Nat.eqb_spec (S i) n); lia. Qed.
  Lemma prv_lt i : i < n -> prv i < n.
  Proof. intro H. unfold prv. destruct (Nat.eqb_spec i 0); lia. Qed.
  Lemma nxt_prv i : i < n -> nxt (prv i) = i.
  Proof.
    intro H. unfold L_selfix2.nxt, prv. fold n. destruct (Nat.eqb_spec i 0) as [->|N].
    - destruct (Nat.eqb_spec (S (n - 1)) n); lia.
    - destruct (Nat.eqb_spec (S (i - 1)) n); lia.
  Qed.
  Lemma prv_nxt i : i < n -> prv (nxt i) = i.
  Proof.
    intro H. unfold L_selfix2.nxt, prv. fold n. destruct (Nat.eqb_spec (S i) n) as [N|N]; cbn [Nat.eqb]; lia.
  Qed.
  Lemma nxt_odd i : i < n -> Nat.odd (nxt i) = negb (Nat.odd i).
  Proof.
    intro H. unfold L_selfix2.nxt. fold n. destruct (Nat.eqb_spec (S i) n) as [N|N].
    - rewrite <- N, Nat.odd_succ in n_even. rewrite <- (Nat.negb_even i), n_even. reflexivity.
    - rewrite Nat.odd_succ. now rewrite <- (Nat.negb_odd i).
  Qed.
  Lemma sg_lt i : i < n -> sg i < n.
  Proof. intro H. apply prv_lt, par_lt, H. Qed.
  Lemma nxt_sg i : i < n -> nxt (sg i) = par i.
  Proof. intro H. apply nxt_prv, par_lt, H. Qed.
  Lemma sg_odd i : i < n -> Nat.odd (sg i) = Nat.odd i.
  Proof.
    intro H. pose proof (nxt_odd _ (sg_lt i H)) as Q. rewrite (nxt_sg i H), (par_odd i H) in Q.
    destruct (Nat.odd i), (Nat.odd (sg i)); cbn in Q; congruence.
  Qed.
  Lemma sg_inj i j : i < n -> j < n -> sg i = sg j -> i = j.
  Proof.
    intros Hi Hj E. rewrite <- (par_par i Hi), <- (par_par j Hj). f_equal.
    rewrite <- (nxt_sg i Hi), <- (nxt_sg j Hj). now rewrite E.
  Qed.
  Lemma rt_sg i : i < n -> rt (sg i) = lf i.
  Proof. intro H. rewrite (Hrt _ (sg_lt i H)), (nxt_sg i H). now apply par_lf. Qed.
  (* the edges that end where edge i starts *)
  Lemma into i m : i < n -> m < n -> rt m = lf i -> nxt m = i \/ m = sg i.
  Proof.
    intros Hi Hm E. rewrite (Hrt m Hm) in E. destruct (par_only i (nxt m) Hi (nxt_lt m Hm) E) as [Q|Q]; auto.
    right. unfold sg. rewrite <- Q. symmetry. now apply prv_nxt.
  Qed.
  Lemma any_edge_sg es i : like raw es -> i < n -> rem es (sg i) = false -> any_edge es (lf i) (Some i) = Some (sg i).
  Proof.
    intros H Hi R. destruct (any_edge es (lf i) (Some i)) as [k|] eqn:E.
    - destruct (any_edge_some raw _ _ _ _ H E) as (L & _ & T & N). destruct (into i k Hi L T) as [Q|Q]; congruence.
    - pose proof (any_edge_none raw _ _ _ _ H E (sg_lt i Hi) R (rt_sg i Hi)) as Q. injection Q as Q.
      rewrite (nxt_sg i Hi) in Q. exfalso. now apply (par_ne i Hi).
  Qed.

  (* the trail: each edge is sg of the one before *)
  Fixpoint steps (T : list nat) : Prop :=
    match T with
    | i :: ((j :: _) as l) => j = sg i /\ steps l
    | _ => True
    end.
  Lemma steps_snoc T i : steps (T ++ [i]) -> steps ((T ++ [i]) ++ [sg i]).
  Proof.
    induction T as [|a T IH]; intro H; [now split|]. destruct T as [|b T].
    - destruct H as [H _]. split; [exact H|]. now split.
    - cbn [app steps] in *. destruct H as [Ha Hb]. split; [exact Ha|]. now apply IH.
  Qed.
  Lemma steps_pred T m U : steps (T ++ m :: U) -> T <> [] -> exists a, In a T /\ m = sg a.
  Proof.
    induction T as [|a T IH]; intros H N; [congruence|]. destruct T as [|b T].
    - exists a. cbn in H. split; [now left|tauto].
    - destruct (IH) as (x & X1 & X2); [apply H|discriminate|]. exists x. split; auto. now right.
  Qed.
  Definition closed (P : nat -> Prop) : Prop := forall j, j < n -> (P (sg j) <-> P j).

  Lemma walk_total es0 : like raw es0 -> closed (fun j => rem es0 j = false) ->
    forall fuel es T i b,
    like raw es -> Forall (fun i => i < n) (T ++ [i]) -> NoDup (T ++ [i]) -> steps (T ++ [i]) ->
    Forall (fun j => Nat.odd j = b) (T ++ [i]) -> n < fuel + length T ->
    (forall j, rem es j = rem es0 j || existsb (Nat.eqb j) T) -> rem es0 i = false ->
    exists es' cyc, walk fuel es T (Some i) = Ok (es', cyc) /\ closed (fun j => In j cyc).
  Proof.
    intros H0 C0. induction fuel as [|fuel IH]; intros es T i b H HL ND ST HB HF Hrem Live.
    { pose proof (short_trail raw _ ND HL) as Q. rewrite app_length in Q. cbn in Q. fold n in Q. lia. }
    pose proof HL as HL'. apply Forall_app in HL'. destruct HL' as [HT Hi]. apply Forall_inv in Hi.
    cbn [walk]. rewrite (nth_like raw _ _ H Hi). cbn [ed_left].
    assert (H' : like raw (upd_at i (set_removed true) es)) by now apply like_upd.
    assert (Bi : Nat.odd i = b). { rewrite Forall_forall in HB. apply HB, in_or_app. right. now left. }
    destruct (first_match (upd_at i (set_removed true) es) (lf i) (T ++ [i])) as [k|] eqn:Em.
    - destruct (first_match_some raw _ _ _ _ H' HL Em) as (m & pre & post & E & <- & Rm & Pre).
      rewrite E, skipn_app_len, firstn_app_len. eexists _, _. split; [reflexivity|].
      assert (Min : In m (T ++ [i])). { rewrite E. apply in_or_app. right. now left. }
      rewrite Forall_forall in HL, HB.
      assert (Em' : m = sg i).
      { destruct (into i m Hi (HL _ Min) Rm) as [Q|Q]; auto. exfalso.
        pose proof (nxt_odd m (HL _ Min)) as O. rewrite Q, Bi, (HB _ Min) in O. now destruct b. }
      assert (Ep : pre = []).
      { destruct pre as [|x pre]; auto. exfalso. rewrite E in ST.
        destruct (steps_pred (x :: pre) m post ST) as (a & A1 & A2); [discriminate|].
        assert (Ain : In a (T ++ [i])). { rewrite E. apply in_or_app. now left. }
        assert (Ea : a = i). { apply sg_inj; auto. congruence. } subst a.
        (* i is last, so it cannot come before m *)
        clear - E ND A1. assert (Q : exists p, (x :: pre) ++ m :: post = p ++ [i] /\ In i p).
        { exists T. split; auto. 
          assert (L : last (m :: post) 0 = i).
          { transitivity (last ((x :: pre) ++ m :: post) 0).
            - generalize (x :: pre). intro l. induction l as [|y l IH]; auto. cbn [app]. rewrite IH. destruct l; reflexivity.
            - rewrite <- E. apply last_last. }
          rewrite E in ND. exfalso.
          assert (In i (m :: post)). { rewrite <- L. clear. generalize m. induction post as [|y p IH]; intro; [now left|]. right. apply IH. }
          clear - ND A1 H. induction (x :: pre) as [|y l IH]; [destruct A1|]. cbn [app] in ND. inversion_clear ND.
          destruct A1 as [->|A1]; [apply H0, in_or_app; now right|auto]. }
        destruct Q as (p & P1 & P2). rewrite <- E in P1. apply app_inj_tail in P1. destruct P1 as [-> _].
        apply NoDup_remove_2 in ND. apply ND. now rewrite app_nil_r. }
      subst pre. cbn [app] in E. rewrite <- E. intros j Hj. split.
      + intro Q. apply in_split in Q. destruct Q as (U & U' & EU). destruct U as [|x U].
        * assert (sg j = m) by (rewrite EU in E; now injection E). assert (j = i) by (apply sg_inj; auto; congruence).
          subst j. apply in_or_app. right. now left.
        * rewrite EU in ST. destruct (steps_pred (x :: U) (sg j) U' ST) as (a & A1 & A2); [discriminate|].
          assert (Ain : In a (T ++ [i])). { rewrite EU. apply in_or_app. now left. }
          assert (j = a) by (apply sg_inj; auto). now subst.
      + intro Q. apply in_split in Q. destruct Q as (U & U' & EU). destruct U' as [|y U'].
        * apply app_inj_tail in EU. destruct EU as [_ <-]. rewrite E. left. exact Em'.
        * rewrite EU. apply in_or_app. right. right. left. rewrite EU in ST. clear - ST.
          induction U as [|u U IH]; [apply ST|]. apply IH. cbn [app steps] in ST.
          destruct (U ++ j :: y :: U') eqn:Z; [destruct U; discriminate|]. apply ST.
    - apply (first_match_none raw _ _ _ H' HL) in Em.
      assert (Nin : ~ In (sg i) (T ++ [i])).
      { intro Q. rewrite Forall_forall in Em. apply (Em _ Q). now apply rt_sg. }
      assert (Ls : rem es0 (sg i) = false) by now apply C0.
      assert (Rm' : forall j, rem (upd_at i (set_removed true) es) j = rem es0 j || existsb (Nat.eqb j) (T ++ [i])).
      { intro j. rewrite (rem_upd raw) by auto. rewrite existsb_app. cbn [existsb]. rewrite orb_false_r, Hrem.
        destruct (j =? i); [now rewrite !orb_true_r|now rewrite !orb_false_r]. }
      rewrite any_edge_sg; auto.
      2: { rewrite Rm', Ls. cbn [orb]. apply not_true_is_false. intro Q. apply existsb_in in Q. contradiction. }
      apply (IH _ _ _ b); auto.
      + apply Forall_app. split; auto. constructor; auto. now apply sg_lt.
      + apply (Permutation_NoDup (Permutation_cons_append _ _)). now constructor.
      + now apply steps_snoc.
      + apply Forall_app. split; auto. constructor; auto. now rewrite sg_odd.
      + rewrite app_length. cbn [length]. lia.
  Qed.

  Lemma never_stuck N : forall fuel es, like raw es -> closed (fun j => rem es j = false) ->
    all_cycles fuel es N = Raise AttributeError ->
    exists cyc, good_cycle raw cyc /\ curve_of (linked raw) cyc = Raise AttributeError.
  Proof.
    induction fuel as [|fuel IH]; intros es H C E; cbn [all_cycles] in E.
    - destruct (any_node es N); discriminate.
    - destruct (any_node es N) as [m|] eqn:EN; [|discriminate].
      apply find_some in EN. destruct EN as [_ EN].
      destruct (any_edge es m None) as [i|] eqn:Q; [|discriminate]. clear EN.
      destruct (any_edge_some raw _ _ _ _ H Q) as (Li & Ri & Ti & _).
      rewrite (nth_like raw _ _ H Li) in E. cbn [ed_right] in E. rewrite Ti, Nat.eqb_refl in E.
      destruct (walk_total es H C (S (length es)) es [] i (Nat.odd i)) as (es' & cyc & W & CC); auto.
      + constructor; auto.
      + cbn [app]. constructor; [intros []|constructor].
      + exact I.
      + constructor; auto.
      + rewrite (like_length raw _ H). fold n. cbn. lia.
      + intro j. cbn. now rewrite orb_false_r.
      + pose proof (walk_start raw es i (S (length es)) H) as WS. rewrite (like_length raw _ H) in WS at 1.
        specialize (WS (Nat.lt_succ_diag_r _) Li Ri). rewrite W in WS, E. destruct WS as (H' & G & _ & _ & R').
        cbn [bind fst snd] in E. rewrite (curve_of_like raw es' cyc H' (gc_lt _ _ G)) in E.
        destruct (curve_of (linked raw) cyc) as [curve|e] eqn:Ec; cbn [bind] in E.
        * apply (IH es' H'); [|destruct (all_cycles fuel es' N); [discriminate|exact E]].
          intros j Hj. rewrite !R', !orb_false_iff, (C j Hj). 
          assert (EX : existsb (Nat.eqb (sg j)) cyc = false <-> existsb (Nat.eqb j) cyc = false).
          { rewrite <- !not_true_iff_false, !existsb_in. specialize (CC j Hj). tauto. }
          tauto.
        * injection E as ->. eauto.
  Qed.
End Gauss.
