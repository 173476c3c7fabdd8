(* Lemmas: what the call may change in the caller's control points. *)
Require Import Verif.Base.
From Coq Require Import List Lia PeanoNat Bool String.
Require Import Verif.M_vector Verif.M_bezier Verif.M_group Verif.M_dump Verif.M_selfix Verif.S_bezier Verif.L_bezier Verif.P_bezier Verif.L_selfix Verif.L_selfix5.
Import ListNotations.
Open Scope list_scope.

Section Inputs.
  Context {F : Type} {NF : Num F} {RF : NumRoot F}.
  Variable solve : cpoint F -> cpoint F -> cpoint F -> cpoint F -> list (pt F * F * F).
  Variable orig : list (cpoint F).
  Definition alike (a b : cpoint F) : Prop := cc a = cc b /\ ckind a = ckind b.
  Definition from (c : cpoint F) (s : option nat) : Prop :=
    match s with None => True | Some i => exists o, nth_error orig i = Some o /\ alike c o end.
  Definition all_from (l : list (cpbool F)) : Prop := Forall (fun c => from (cb_cp c) (cb_src c)) l.

  Lemma expand_from : forall ixs nodes t a b sa sb nn nodes' local, from a sa -> from b sb ->
    expand nodes t a b sa sb nn ixs = Ok (nodes', local) -> all_from local.
  Proof.
    induction ixs as [|[t_ix xy] ixs IH]; intros nodes t a b sa sb nn nodes' local Ha Hb H; cbn [expand] in H.
    - injection H as <- <-. repeat constructor; auto.
    - destruct (node_of xy nodes) as [nodes1 k]. destruct (pydiv _ _) as [u|e]; [|discriminate]. cbn [bind] in H.
      destruct (bez_split a b u) as [[l m] r]. destruct (nltb _ _); [discriminate|].
      destruct (expand nodes1 t_ix m r None None (Some k) ixs) as [[n2 loc]|e] eqn:E; [|discriminate]. cbn [bind fst snd] in H.
      injection H as <- <-. constructor; [exact I|]. eapply IH; [| |exact E]; exact I.
  Qed.
  Lemma from_set d c : from (cb_cp c) (cb_src c) -> from (cb_cp (on_cp (set_dr d) c)) (cb_src (on_cp (set_dr d) c)).
  Proof. destruct c as [cp nd [i|]]; cbn; auto. Qed.
  Lemma from_set_l d c : from (cb_cp c) (cb_src c) -> from (cb_cp (on_cp (set_dl d) c)) (cb_src (on_cp (set_dl d) c)).
  Proof. destruct c as [cp nd [i|]]; cbn; auto. Qed.
  Lemma removelast_from l : all_from l -> all_from (removelast l).
  Proof.
    intro H. induction H as [|c l Hc H IH]; [constructor|]. destruct l; [constructor|]. constructor; auto.
  Qed.
  Lemma merge_from : forall curves nodes cpbs, all_from cpbs ->
    Forall (fun c => from (sg_a (fst c)) (sg_sa (fst c)) /\ from (sg_b (fst c)) (sg_sb (fst c))) curves ->
    all_from (fst (merge_all nodes cpbs curves)).
  Proof.
    induction curves as [|[s ixs] curves IH]; intros nodes cpbs Hc HF; cbn [merge_all]; auto.
    inversion_clear HF as [|? ? [Ha Hb] HF']. cbn [fst] in Ha, Hb.
    destruct (expand nodes (nofZ 0) (sg_a s) (sg_b s) (sg_sa s) (sg_sb s) None (sort_ixs ixs)) as [[n1 local]|e] eqn:E; auto.
    assert (Hl := expand_from _ _ _ _ _ _ _ _ _ _ Ha Hb E).
    destruct (rev cpbs) as [|z rz] eqn:Ez; [apply IH; auto; apply Forall_app; auto|].
    destruct local as [|f rest]; [apply IH; auto; apply Forall_app; auto|].
    destruct (negb _); auto. apply IH; auto. apply Forall_app. split; [now apply removelast_from|].
    constructor; [|now inversion Hl]. apply from_set. unfold all_from in Hc. rewrite Forall_forall in Hc. apply Hc.
    apply in_rev. rewrite Ez. now left.
  Qed.
  Lemma close_from cpbs : all_from cpbs -> all_from (close_up cpbs).
  Proof.
    intro H. unfold close_up. destruct cpbs as [|f rest]; [constructor|]. destruct (rev (f :: rest)); [constructor|].
    apply removelast_from. inversion_clear H. constructor; auto.
  Qed.
  Lemma curves_from : Forall (fun s => from (sg_a s) (sg_sa s) /\ from (sg_b s) (sg_sb s)) (all_curves solve orig).
  Proof.
    unfold all_curves. rewrite iter_rotate2_path. apply Forall_forall. intros s Hs. apply in_flat_map in Hs.
    destruct Hs as ([[i a] [j b]] & Hin & Hs). 
    assert (G : forall k c, In (k, c) (combine (seq 0 (List.length orig)) orig) -> from c (Some k)).
    { intros k c Hk. apply In_nth_error in Hk. destruct Hk as [m Hm]. rewrite nth_error_index in Hm.
      destruct (nth_error orig m) eqn:E; [|discriminate]. injection Hm as <- <-. exists c0. split; auto. split; reflexivity. }
    assert (I2 : In (i, a) (combine (seq 0 (List.length orig)) orig) /\ In (j, b) (combine (seq 0 (List.length orig)) orig)).
    { revert Hin. generalize (combine (seq 0 (List.length orig)) orig). intros l Hin.
      destruct l as [|x l]; [destruct Hin|]. cbn [path_segments] in Hin.
      assert (Q : forall (m : list (nat * cpoint F)) u v, In (u, v) (consecutive m) -> In u m /\ In v m).
      { clear. induction m as [|a [|b m] IH]; intros u v H; [destruct H|destruct H|]. destruct H as [H|H].
        - injection H as <- <-. split; [now left|right; now left].
        - destruct (IH _ _ H). split; now right. }
      apply Q in Hin. destruct Hin as [H1 H2]. split; [apply in_app_or in H1; destruct H1 as [|[<-|[]]]; auto; now left|].
      apply in_app_or in H2; destruct H2 as [|[<-|[]]]; auto; now left. }
    destruct I2 as [I1 I2]. destruct (bez_split_half a b) as [[l m] r]. destruct (solve l m m r).
    - destruct Hs as [<-|[]]. cbn [sg_a sg_b sg_sa sg_sb]. split; now apply G.
    - destruct Hs as [<-|[<-|[]]]; cbn; auto.
  Qed.
  Lemma written_from cpbs : all_from cpbs -> Forall2 alike (written_back cpbs orig) orig.
  Proof.
    intro H. unfold written_back.
    assert (G : forall l s, (forall k o, nth_error l k = Some o -> nth_error orig (s + k) = Some o) ->
      Forall2 alike (map (fun ic => match find (fun c : cpbool F => match cb_src c with Some i => (i =? fst ic)%nat | None => false end) cpbs with
         | Some c => cb_cp c | None => snd ic end) (combine (seq s (List.length l)) l)) l).
    { induction l as [|o l IH]; intros s Hl; cbn [List.length seq combine map]; [constructor|]. constructor.
      - destruct (find _ cpbs) as [c|] eqn:E; [|split; reflexivity]. apply find_some in E. destruct E as [E1 E2].
        unfold all_from in H. rewrite Forall_forall in H. specialize (H c E1). cbn [fst] in E2.
        destruct (cb_src c) as [i|]; [|discriminate]. apply Nat.eqb_eq in E2. subst i. destruct H as (o' & H1 & H2).
        specialize (Hl 0 o eq_refl). rewrite Nat.add_0_r in Hl. assert (o' = o) by congruence. now subst.
      - apply IH. intros k o' Hk. specialize (Hl (S k) o' Hk). now rewrite Nat.add_succ_r in Hl. }
    apply (G orig 0). auto.
  Qed.
  Lemma inputs_alike : Forall2 alike (fst (bez_self_intersect_full solve orig)) orig.
  Proof.
    unfold bez_self_intersect_full. destruct (negb _); cbn [fst].
    - induction orig; constructor; auto. split; reflexivity.
    - set (curves := map _ _).
      assert (HF : all_from (fst (merge_all [] [] curves))).
      { apply merge_from; [constructor|]. unfold curves. apply Forall_map.
        apply Forall_forall. intros [k sg] Hk. cbn [fst snd].
        pose proof curves_from as C. rewrite Forall_forall in C. apply C. now apply in_combine_r in Hk. }
      destruct (merge_all [] [] curves) as [cpbs [nodes|e]]; cbn [fst] in *; apply written_from; auto.
      now apply close_from.
  Qed.
End Inputs.
