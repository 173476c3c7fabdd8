(* C64: GroupBuilder. *)
Require Import Verif.Base Verif.M_vector Verif.M_bbox Verif.M_transform Verif.M_bezier Verif.M_colors Verif.M_elems Verif.M_group Verif.M_builder.
Require Import Verif.S_group Verif.S_builder Verif.L_group Verif.P_gnames.
From Coq Require Import String List Lia Bool.
Import ListNotations.
Local Open Scope string_scope.
Local Open Scope list_scope.

Section Trees.
  Context {F : Type}.

  Lemma sound_tidy (e : elem F) : sound e -> tidy e /\ plain e.
  Proof. induction 1 as [|b h l p G N D _ IH]; split; constructor; auto; intros k e H; apply (IH k e H). Qed.

  Lemma split_key {A} k (l : list (string * A)) a : NoDup (keys l) -> In (k, a) l ->
    exists l1 l2, l = l1 ++ (k, a) :: l2 /\ ~ In k (keys l1).
  Proof.
    intros N H. apply in_split in H as (l1 & l2 & ->). exists l1, l2. split; [reflexivity|].
    unfold keys in N. rewrite map_app in N. apply NoDup_remove_2 in N. intros K. apply N. apply in_or_app. now left.
  Qed.
  Lemma set_key_split {A} k (a a' : A) l1 l2 : ~ In k (keys l1) ->
    set_key k a' (l1 ++ (k, a) :: l2) = l1 ++ (k, a') :: l2.
  Proof.
    induction l1 as [|[k' x] l1 IH]; cbn [app set_key]; intros N; [now rewrite String.eqb_refl|].
    destruct (String.eqb_spec k k') as [->|E]; [destruct N; now left|]. f_equal. apply IH. intros K. apply N. now right.
  Qed.

  Lemma grown_refl (e : elem F) : grown e e.
  Proof. destruct e as [|b h l p|]; cbn; auto. exists l, p, [], []. now rewrite !app_nil_r. Qed.
  Lemma grown_trans (a b c : elem F) : grown a b -> grown b c -> grown a c.
  Proof.
    destruct a as [|b1 h1 l1 p1|]; cbn; try (intros ->; cbn; auto; fail).
    intros (l & p & ks & qs & -> & K & ->). cbn. intros (l' & p' & ks' & qs' & -> & K' & ->).
    exists l', ((p1 ++ qs) ++ qs'), (ks ++ ks'), (qs ++ qs'). rewrite K', K, !app_assoc. auto.
  Qed.
  Lemma all_grown_refl (e : elem F) : all_grown e e.
  Proof. intros ks x R. exists x. split; [exact R|apply grown_refl]. Qed.
  Lemma all_grown_trans (a b c : elem F) : all_grown a b -> all_grown b c -> all_grown a c.
  Proof.
    intros H1 H2 ks x R. destruct (H1 ks x R) as (y & R1 & G1). destruct (H2 ks y R1) as (z & R2 & G2).
    exists z. split; [exact R2|now apply grown_trans with y].
  Qed.
  Lemma grown_group (a b : elem F) : grown a b -> is_group a -> is_group b.
  Proof. destruct a as [|b1 h1 l1 p1|]; cbn; try easy. now intros (l & p & ks & qs & -> & _). Qed.

  Lemma reaches_cons (root : elem F) k ks G : reaches root (k :: ks) G ->
    exists b h l p c, root = EGroup b h l p /\ In (k, c) l /\ reaches c ks G.
  Proof.
    intros [[E _]|R]; [discriminate|]. inversion R as [b h l p k' e Hi|b h l p k' g ks' e Hi Ha]; subst.
    - do 5 eexists. split; [reflexivity|]. split; [exact Hi|]. left. auto.
    - do 5 eexists. split; [reflexivity|]. split; [exact Hi|]. now right.
  Qed.
  Lemma reaches_step b h l p k (c : elem F) ks G : In (k, c) l -> reaches c ks G -> reaches (EGroup b h l p) (k :: ks) G.
  Proof. intros Hi [[-> ->]|R]; right; [now apply at_member|now apply at_below with c]. Qed.

  (* changing a group to one with more members or points, somewhere in a tree *)
  Lemma update_ok (f : list (string * elem F) -> list (string * pt F) -> res (list (string * elem F) * list (string * pt F)))
      b h l p l2 p2 : f l p = Ok (l ++ l2, p ++ p2) -> sound (EGroup b h (l ++ l2) (p ++ p2)) ->
    forall ks root, sound root -> reaches root ks (EGroup b h l p) ->
    exists root', update_at ks f root = Ok root' /\ put root ks (EGroup b h (l ++ l2) (p ++ p2)) root' /\ sound root' /\
      grown root root' /\ e_base root' = e_base root /\ group_at ks root' = Ok (EGroup b h (l ++ l2) (p ++ p2)) /\
      reaches root' ks (EGroup b h (l ++ l2) (p ++ p2)) /\ all_grown root root'.
  Proof.
    intros Ef So ks. induction ks as [|k ks IH]; intros root Sr R.
    - destruct R as [[_ <-]|R]; [|inversion R]. cbn [update_at]. rewrite Ef. cbn [bind fst snd].
      assert (Gr : grown (EGroup b h l p) (EGroup b h (l ++ l2) (p ++ p2))).
      { exists (l ++ l2), (p ++ p2), (keys l2), p2. repeat split. unfold keys. now rewrite map_app. }
      eexists. split; [reflexivity|]. split; [constructor|]. split; [exact So|]. split; [exact Gr|]. split; [reflexivity|].
      split; [reflexivity|]. split; [left; auto|].
      intros [|k2 ks2] g2 R2.
      { destruct R2 as [[_ ->]|R2]; [|inversion R2]. eexists. split; [left; split; reflexivity|exact Gr]. }
      apply reaches_cons in R2 as (b' & h' & l0 & p0 & c & E & Hi & R2). injection E as <- <- <- <-.
      exists g2. split; [|apply grown_refl]. apply reaches_step with c; auto. apply in_or_app. now left.
    - apply reaches_cons in R as (b0 & h0 & l0 & p0 & c & -> & Hi & R).
      inversion Sr as [|b' h' l0' p0' [G1 G2] N D Sl]; subst.
      destruct (IH c (Sl k c Hi) R) as (c' & E & Pu & Sc & Gw & Eb & Ga & Rc & Rk).
      destruct (split_key k l0 c G1 Hi) as (l3 & l4 & -> & Nk).
      cbn [update_at]. rewrite (find_key_some k _ G1 c Hi), E. cbn [bind]. rewrite set_key_split by exact Nk.
      assert (Kk : keys (l3 ++ (k, c') :: l4) = keys (l3 ++ (k, c) :: l4)) by (unfold keys; rewrite !map_app; reflexivity).
      assert (Hi' : In (k, c') (l3 ++ (k, c') :: l4)) by (apply in_or_app; right; now left).
      assert (Ho : forall k2 c2, In (k2, c2) (l3 ++ (k, c') :: l4) -> (k2, c2) = (k, c') \/ In (k2, c2) (l3 ++ (k, c) :: l4)).
      { intros k2 c2. rewrite !in_app_iff. cbn. intuition. }
      assert (Gr : grown (EGroup b0 h0 (l3 ++ (k, c) :: l4) p0) (EGroup b0 h0 (l3 ++ (k, c') :: l4) p0)).
      { exists (l3 ++ (k, c') :: l4), p0, [], []. rewrite Kk, !app_nil_r. auto. }
      eexists. split; [reflexivity|]. split; [now constructor|]. split.
      { constructor; auto.
        - split; [now rewrite Kk|]. intros k2 c2 H2. destruct (Ho k2 c2 H2) as [E2|E2]; [|now apply G2].
          injection E2 as -> ->. destruct (G2 k c Hi) as [Q1 Q2]. split; [exact Q1|congruence].
        - intros k2 c2 H2. destruct (Ho k2 c2 H2) as [E2|E2]; [injection E2 as -> ->; exact Sc|now apply (Sl k2)]. }
      split; [exact Gr|]. split; [reflexivity|]. split.
      { cbn [group_at]. rewrite (find_key_some k (l3 ++ (k, c') :: l4)) with (a := c'); auto. now rewrite Kk. }
      split; [now apply reaches_step with c'|].
      intros [|k2 ks2] g2 R2.
      { destruct R2 as [[_ ->]|R2]; [|inversion R2]. eexists. split; [left; split; reflexivity|exact Gr]. }
      apply reaches_cons in R2 as (b' & h' & l0 & p0' & c2 & E2 & Hi2 & R2). injection E2 as <- <- <- <-.
      apply in_app_or in Hi2 as [Hi2|[Hi2|Hi2]].
      + exists g2. split; [|apply grown_refl]. apply reaches_step with c2; auto. apply in_or_app. now left.
      + injection Hi2 as <- <-. destruct (Rk ks2 g2 R2) as (g2' & R3 & G3). exists g2'. split; [|exact G3].
        now apply reaches_step with c'.
      + exists g2. split; [|apply grown_refl]. apply reaches_step with c2; auto. apply in_or_app. right. now right.
  Qed.

  Lemma update_raise (f : list (string * elem F) -> list (string * pt F) -> res (list (string * elem F) * list (string * pt F)))
      b h l p x : f l p = Raise x ->
    forall ks root, sound root -> reaches root ks (EGroup b h l p) -> update_at ks f root = Raise x.
  Proof.
    intros Ef ks. induction ks as [|k ks IH]; intros root Sr R.
    - destruct R as [[_ <-]|R]; [|inversion R]. cbn [update_at]. now rewrite Ef.
    - apply reaches_cons in R as (b0 & h0 & l0 & p0 & c & -> & Hi & R).
      inversion Sr as [|b' h' l0' p0' [G1 G2] N D Sl]; subst.
      cbn [update_at]. rewrite (find_key_some k _ G1 c Hi), (IH c (Sl k c Hi) R). reflexivity.
  Qed.

  Lemma reached_sound (root g : elem F) ks : sound root -> reaches root ks g -> sound g.
  Proof.
    revert root. induction ks as [|k ks IH]; intros root Sr R.
    - destruct R as [[_ ->]|R]; [exact Sr|inversion R].
    - apply reaches_cons in R as (b0 & h0 & l0 & p0 & c & -> & Hi & R). inversion Sr; subst. eauto.
  Qed.
End Trees.

(* ------------------------------------------------------------------ *)
(** ** Adding to the group of a builder *)

Section Adds.
  Context {F : Type}.
  Definition keeps (root root' : elem F) : Prop :=
    sound root' /\ e_base root' = e_base root /\ grown root root' /\ all_grown root root'.
  Lemma keeps_trans a b c : keeps a b -> keeps b c -> keeps a c.
  Proof.
    intros (_ & B1 & G1 & A1) (S & B2 & G2 & A2). split; [exact S|]. split; [congruence|].
    split; [now apply grown_trans with b|now apply all_grown_trans with b].
  Qed.

  Lemma add_raises ks n (e : elem F) root b h l p x : sound root -> reaches root ks (EGroup b h l p) ->
    group_add l n e false = Raise x -> b_add ks n e root = Raise x.
  Proof.
    intros Sr R E. unfold b_add. rewrite (update_raise _ b h l p x); auto. now rewrite E.
  Qed.

  Lemma dotted_free (l : list (string * elem F)) n : good_table l -> dotted_name n -> ~ In n (keys l).
  Proof.
    intros [_ G] D K. unfold keys in K. apply in_map_iff in K as ([k e] & <- & H). destruct (G k e H). auto.
  Qed.

  Lemma add_ok ks n (e : elem F) root g : sound root -> sound e -> reaches root ks g -> is_group g ->
    (dotted_name n /\ b_add ks n e root = Raise ValueError) \/
    (~ dotted_name n /\ exists root' n' e', b_add ks n e root = Ok (root', (n', e')) /\ renamed n' e e' /\
       added root root' ks n' e' /\ keeps root root' /\
       (forall b h l p, g = EGroup b h l p -> ~ In n (keys l) -> n' = n)).
  Proof.
    intros Sr Se R G. destruct g as [|b h l p|]; try easy.
    pose proof (reached_sound _ _ _ Sr R) as Sg. inversion Sg as [|b' h' l0' p0' Gt N D Sl]; subst.
    destruct (group_add l n e false) as [l'|x] eqn:E.
    - right. split.
      { intros Dn. assert (X : group_add l n e false = Raise ValueError).
        { apply C43_raises. repeat split; auto. now apply dotted_free. }
        congruence. }
      destruct (C43_appends _ _ _ _ _ E) as (n' & e' & -> & Rn & Nn & Dn).
      destruct (update_ok (fun l p => let* l' := group_add l n e false in Ok (l', p)) b h l p [(n', e')] []) with (ks := ks) (root := root)
        as (root' & Eu & Pu & Sr' & Gw & Eb & Ga & Rr & Rk); auto; try rewrite !app_nil_r in *.
      { now rewrite E. }
      { constructor; auto.
        - eapply C43_add_keeps_table; eauto.
        - intros k x Hx. apply in_app_or in Hx as [Hx|[Hx|[]]]; [now apply (Sl k)|]. injection Hx as <- <-.
          destruct e as [b1 s1|b1 h1 l1 p1|b1 o1 i1], e' as [b2 s2|b2 h2 l2 p2|b2 o2 i2]; cbn in Rn; try contradiction.
          + constructor.
          + destruct Rn as (_ & -> & -> & ->). inversion Se; subst. constructor; auto.
          + inversion Se. }
      exists root', n', e'. split.
      { unfold b_add. rewrite Eu. cbn [bind]. rewrite Ga. cbn [bind]. unfold last_member. rewrite rev_app_distr. reflexivity. }
      split; [exact Rn|]. split.
      { exists b, h, l, p. auto 10. }
      split; [split; auto|].
      intros b0 h0 l0 p0 Eg Nn0. injection Eg as <- <- <- <-.
      destruct (C43_chosen_name _ _ _ _ _ _ _ E eq_refl) as [(_ & _ & H)|[([H|H] & _)|(s & j & Ls & Is & _)]]; auto; try contradiction.
      + exfalso. assert (X : group_add l n e false = Raise ValueError) by (apply C43_raises; repeat split; auto). congruence.
      + exfalso. destruct Ls as [_ [->|(a & ->)]]; [contradiction|].
        assert (X : group_add l (a ++ "." ++ s)%string e false = Raise ValueError) by (apply C43_raises; repeat split; auto; do 2 eexists; reflexivity).
        congruence.
    - left. pose proof E as E0. apply C43_raises in E as (-> & Dn & _). split; [exact Dn|]. eapply add_raises; eauto.
  Qed.
End Adds.

(* ------------------------------------------------------------------ *)
(** ** Pens by kind *)

Lemma kind_iff {A} (t : by_shape A) k a : by_shape_get t k = Ok a <-> kind_of t k a.
Proof.
  unfold by_shape_get, kind_of.
  repeat match goal with |- context [(k =? ?s)%string] => destruct (String.eqb_spec k s) as [->|?] end;
  split; intros H; try discriminate; try (injection H as <-);
  repeat match goal with H : _ \/ _ |- _ => destruct H end;
  repeat match goal with H : _ /\ _ |- _ => destruct H end; subst; try congruence; auto 10.
Qed.
Lemma kind_raise {A} (t : by_shape A) k x : by_shape_get t k = Raise x -> x = ValueError.
Proof.
  unfold by_shape_get.
  repeat match goal with |- context [(k =? ?s)%string] => destruct (k =? s)%string end; congruence.
Qed.

Section Calls.
  Context {F : Type} {NF : Num F} {RF : NumRoot F} {TF : NumTrig F}.

  Lemma pens_iff (bl : builder F) kind pb : pick_pens bl kind = Ok pb <-> pens_of bl kind pb.
  Proof.
    destruct kind as [|s|p]; cbn [pick_pens pens_of].
    - apply kind_iff.
    - destruct s as [|c s].
      + rewrite kind_iff. tauto.
      + rewrite kind_iff. split; [intros H; left; split; [discriminate|exact H]|]. intros [[_ H]|[N _]]; [exact H|discriminate N].
    - split; congruence.
  Qed.
  Lemma pens_raise (bl : builder F) kind x : pick_pens bl kind = Raise x -> x = ValueError.
  Proof. destruct kind as [|s|p]; cbn [pick_pens]; [apply kind_raise|destruct s; apply kind_raise|discriminate]. Qed.

  (* what the argument closed comes to *)
  Definition closing (closed : option bool) (pb : penbrush F) : bool :=
    match closed with Some c => c | None => pb_filled pb end.

  Lemma construct_cases name pb c (s : shape F) :
    (must_close s pb /\ c = false /\ construct name pb c s = Raise AssertionError) \/
    (~ (must_close s pb /\ c = false) /\ construct name pb c s = Ok (ELeaf (EB name pb c t_new) s)).
  Proof.
    unfold must_close, construct, mk_base. destruct c, (pb_filled pb), s; cbn; intuition congruence.
  Qed.

  (* A shape call: what it does when it succeeds, and when it raises. *)
  Theorem C64_shape_call : forall (root g : elem F) (bl : builder F) (name : string) (kind : kindarg F)
      (closed : option bool) (s : shape F),
    sound root -> reaches root (bl_path bl) g -> is_group g ->
    match elem_any bl name kind closed s root with
    | Ok (root', (n, e)) =>
        exists pb, pens_of bl kind pb /\ e = ELeaf (EB n pb (closing closed pb) t_new) s /\
          added root root' (bl_path bl) n e /\ sound root' /\ all_grown root root' /\
          ~ dotted_name name /\ (~ In name (member_keys g) -> n = name) /\
          (must_close s pb -> closing closed pb = true)
    | Raise x =>
        (x = ValueError /\ (forall pb, ~ pens_of bl kind pb)) \/
        (x = AssertionError /\ exists pb, pens_of bl kind pb /\ must_close s pb /\ closing closed pb = false) \/
        (x = ValueError /\ dotted_name name)
    end.
  Proof.
    intros root g bl name kind closed s Sr R G. unfold elem_any.
    destruct (pick_pens bl kind) as [pb|x] eqn:Ep; cbn [bind].
    2: { left. split; [now apply pens_raise in Ep|]. intros pb H. apply pens_iff in H. congruence. }
    apply pens_iff in Ep. fold (closing closed pb). 
    destruct (construct_cases name pb (closing closed pb) s) as [(Mc & Ec & ->)|(Nc & ->)]; cbn [bind].
    { right. left. split; [reflexivity|]. exists pb. auto. }
    destruct (add_ok (bl_path bl) name (ELeaf (EB name pb (closing closed pb) t_new) s) root g Sr (so_leaf _ _) R G)
      as [[Dn ->]|(Dn & root' & n & e & -> & Rn & Ad & (S' & _ & _ & Ag) & Nm)].
    - right. right. auto.
    - exists pb. split; [exact Ep|]. split.
      { destruct e as [b2 s2| |]; cbn in Rn; try contradiction. destruct Rn as [-> ->]. reflexivity. }
      split; [exact Ad|]. split; [exact S'|]. split; [exact Ag|]. split; [exact Dn|]. split.
      + destruct g as [|b h l p|]; try contradiction. cbn [member_keys]. intros H. eapply Nm; eauto.
      + intros Mc. destruct (closing closed pb); tauto.
  Qed.

  (* point and add_pt *)
  Theorem C64_point_call : forall (root : elem F) (bl : builder F) b h l p (name : string) (q : pt F),
    sound root -> reaches root (bl_path bl) (EGroup b h l p) ->
    match b_add_pt (bl_path bl) name q root with
    | Ok root' => added_pt root root' (bl_path bl) name q /\ sound root' /\ all_grown root root' /\
                  ~ In name (keys p) /\ ~ dotted_name name
    | Raise x => x = AssertionError /\ (In name (keys p) \/ dotted_name name)
    end.
  Proof.
    intros root bl b h l p name q Sr R. unfold b_add_pt.
    pose proof (reached_sound _ _ _ Sr R) as Sg. inversion Sg as [|b' h' l0' p0' Gt N D Sl]; subst.
    assert (X : forall x, group_add_pt p name q = Raise x -> x = AssertionError /\ (In name (keys p) \/ dotted_name name)).
    { unfold group_add_pt. destruct (has_key name p) eqn:K; [|destruct (has_dot name) eqn:Dn]; intros x E; try discriminate;
      injection E as <-; split; auto; [left; now apply has_key_spec|right; now apply has_dot_spec]. }
    destruct (group_add_pt p name q) as [p'|x] eqn:E.
    - assert (Q : p' = p ++ [(name, q)] /\ ~ In name (keys p) /\ ~ dotted_name name).
      { unfold group_add_pt in E. destruct (has_key name p) eqn:K; [discriminate|]. destruct (has_dot name) eqn:Dn; [discriminate|].
        injection E as <-. split; [reflexivity|]. split; [now apply has_key_false|now apply has_dot_false]. }
      destruct Q as (-> & Nn & Dn).
      destruct (update_ok (fun l p => let* p' := group_add_pt p name q in Ok (l, p')) b h l p [] [(name, q)]) with (ks := bl_path bl) (root := root)
        as (root' & -> & Pu & Sr' & Gw & Eb & Ga & Rr & Rk); auto; try rewrite !app_nil_r in *.
      { now rewrite E. }
      { constructor; auto.
        - unfold keys. rewrite map_app. cbn. now apply NoDup_snoc.
        - intros k. unfold keys. rewrite map_app, in_app_iff. intros [H|[<-|[]]]; auto. }
      split; [exists b, h, l, p; auto 10|]. auto.
    - rewrite (update_raise _ b h l p x); auto. now rewrite E.
  Qed.

  (* group(): a new empty group at the end, and a builder for it *)
  Theorem C64_group_call : forall (root g : elem F) (bl : builder F) (name : string)
      (pens : option (by_shape (penbrush F))) (kind : option string),
    sound root -> reaches root (bl_path bl) g -> is_group g ->
    match b_group bl name pens kind root with
    | Ok (root', bl') =>
        exists n b, bl_path bl' = bl_path bl ++ [n] /\
          bl_pens bl' = match pens with Some t => t | None => bl_pens bl end /\
          bl_kind bl' = match kind with Some k => if String.eqb k "" then bl_kind bl else k | None => bl_kind bl end /\
          added root root' (bl_path bl) n (EGroup b false [] []) /\
          reaches root' (bl_path bl') (EGroup b false [] []) /\
          e_name b = n /\ tmat (e_xform b) = mat_id /\ sound root' /\ all_grown root root' /\
          (~ In name (member_keys g) -> n = name)
    | Raise x => x = ValueError /\ dotted_name name
    end.
  Proof.
    intros root g bl name pens kind Sr R G. unfold b_group.
    assert (Ef : exists b, fresh_group (F := F) name = Ok (EGroup b false [] []) /\ e_name b = name /\ tmat (e_xform b) = mat_id).
    { eexists. split; [reflexivity|]. split; reflexivity. }
    destruct Ef as (b0 & -> & Nb & Xb). cbn [bind].
    assert (S0 : sound (EGroup b0 false [] [])) by (constructor; cbn; try easy; repeat constructor; try easy).
    destruct (add_ok (bl_path bl) name (EGroup b0 false [] []) root g Sr S0 R G) as [[Dn ->]|(Dn & root' & n & e & -> & Rn & Ad & (S' & _ & _ & Ag) & Nm)]; [cbn [bind]; auto|].
    cbn [bind fst snd bl_path bl_pens bl_kind].
    destruct e as [|b h l p|]; cbn in Rn; try contradiction. destruct Rn as (-> & -> & -> & ->).
    exists n, (EB n (e_pb b0) (e_closed b0) (e_xform b0)). split; [reflexivity|]. split; [reflexivity|].
    split; [destruct kind as [[|]|]; reflexivity|]. split; [exact Ad|]. split.
    { destruct Ad as (b1 & h1 & l1 & p1 & _ & _ & R1 & _). revert R1. clear.
      generalize (bl_path bl). intros ks R. revert root' R. induction ks as [|k ks IH]; intros root' R.
      - destruct R as [[_ <-]|R]; [|inversion R]. right. apply at_member. apply in_or_app. right. now left.
      - apply reaches_cons in R as (b3 & h3 & l3 & p3 & c & -> & Hi & R). cbn [app]. apply reaches_step with c; auto. }
    split; [reflexivity|]. split; [exact Xb|]. split; [exact S'|]. split; [exact Ag|].
    destruct g as [|b1 h1 l1 p1|]; try contradiction. intros H. eapply Nm; eauto.
  Qed.
End Calls.

Section History.
  Context {F : Type} {NF : Num F} {RF : NumRoot F} {TF : NumTrig F}.

  Lemma bind_ok {A B} (r : res A) (f : A -> res B) y : (let* x := r in f x) = Ok y -> exists x, r = Ok x /\ f x = Ok y.
  Proof. destruct r; cbn; [eauto|discriminate]. Qed.

  Lemma transform_leaf (b : ebase F) s m e : snd (elem_transform (ELeaf b s) m) = Ok e -> exists b' s', e = ELeaf b' s'.
  Proof.
    change (snd (leaf_transform b s m) = Ok e -> exists b' s', e = ELeaf b' s').
    assert (T : forall pts (k : transform F -> list (pt F) -> res (elem F)),
      (forall ro qs e, k ro qs = Ok e -> exists b' s', e = ELeaf b' s') ->
      snd (let (m', r) := transform_pts b pts m in (m', let* rp := r in k (fst rp) (snd rp))) = Ok e ->
      exists b' s', e = ELeaf b' s').
    { intros pts k Hk. destruct (transform_pts b pts m) as [m' r]. cbn [snd]. intros E.
      apply bind_ok in E as ([ro qs] & _ & E). eauto. }
    destruct s as [cps|p1 p2|p1 p2 r|p1 p2]; unfold leaf_transform.
    - unfold curve_transform, with_push. cbn. intros E. apply bind_ok in E as (cps' & _ & E). apply bind_ok in E as (b' & _ & E).
      injection E as <-. eauto.
    - intros E. apply (T [p1; p2] (fun ro qs => match qs with [q1; q2] => let* b := mk_base (e_name b) (e_pb b) true (Some ro) in Ok (ELeaf b (SRect q1 q2)) | _ => Raise ValueError end)).
      + intros ro [|q1 [|q2 [|]]] x H; try discriminate. apply bind_ok in H as (b' & _ & H). injection H as <-. eauto.
      + destruct (transform_pts b [p1; p2] m) as [m' [[ro qs]|]]; exact E.
    - intros E. apply (T [p1; p2; p_add p1 (V r (nofZ 0))] (fun ro qs => match qs with [q1; q2; q1r] => let* b := mk_base (e_name b) (e_pb b) true (Some ro) in Ok (ELeaf b (SRRect q1 q2 (v_length (p_sub q1r q1)))) | _ => Raise ValueError end)).
      + intros ro [|q1 [|q2 [|q3 [|]]]] x H; try discriminate. apply bind_ok in H as (b' & _ & H). injection H as <-. eauto.
      + destruct (transform_pts b [p1; p2; p_add p1 (V r (nofZ 0))] m) as [m' [[ro qs]|]]; exact E.
    - intros E. apply (T [p1; p2] (fun ro qs => match qs with [q1; q2] => let* b := mk_base (e_name b) (e_pb b) true (Some ro) in Ok (ELeaf b (SEllipse q1 q2)) | _ => Raise ValueError end)).
      + intros ro [|q1 [|q2 [|]]] x H; try discriminate. apply bind_ok in H as (b' & _ & H). injection H as <-. eauto.
      + destruct (transform_pts b [p1; p2] m) as [m' [[ro qs]|]]; exact E.
  Qed.

  Lemma dotted_suffix (n a x : string) : dotted_name (n ++ "_" ++ a ++ x)%string <-> dotted_name n \/ has_dot a = true \/ dotted_name x.
  Proof.
    rewrite <- !has_dot_spec, !has_dot_app. cbn [has_dot]. change (has_dot "_") with false.
    rewrite !orb_true_iff. intuition discriminate.
  Qed.

  (* rotate_about_center(elem): elem turned about the centre of its box, under a new name *)
  Theorem C64_rotate_call : forall (root g : elem F) (bl : builder F) (b : ebase F) (s : shape F) (angle : F)
      (show : bool) (extra : string),
    sound root -> reaches root (bl_path bl) g -> is_group g ->
    match b_rotate bl (ELeaf b s) angle show extra root with
    | (root', Ok (n, new)) =>
        exists bb c e, elem_bbox (ELeaf b s) = Ok bb /\ bbox_center bb = Ok c /\
          snd (elem_transform (ELeaf b s) (t_rotate_about angle c t_new)) = Ok e /\ renamed n e new /\
          sound root' /\ all_grown root root' /\ ~ dotted_name (e_name b) /\ ~ dotted_name extra /\
          if show then
            exists root1 n2, added root root1 (bl_path bl) n new /\
              added root1 root' (bl_path bl) n2
                (ELeaf (EB n2 (e_pb b) true t_new) (SEllipse (p_subv c (V (nofZ 1) (nofZ 1))) (p_add c (V (nofZ 1) (nofZ 1)))))
          else added root root' (bl_path bl) n new
    | (root', Raise x) => root' = root
    end.
  Proof.
    intros root g bl b s angle show extra Sr R G. unfold b_rotate.
    destruct (elem_bbox (ELeaf b s)) as [bb|x] eqn:Eb; cbn [bind]; [|reflexivity].
    destruct (bbox_center bb) as [c|x] eqn:Ec; cbn [bind]; [|reflexivity].
    destruct (snd (elem_transform (ELeaf b s) (t_rotate_about angle c t_new))) as [e|x] eqn:Et; cbn [bind]; [|reflexivity].
    destruct (transform_leaf _ _ _ _ Et) as (b' & s' & ->).
    change (elem_name (ELeaf b s)) with (e_name b).
    destruct (add_ok (bl_path bl) (e_name b ++ "_r" ++ extra)%string (ELeaf b' s') root g Sr (so_leaf _ _) R G)
      as [[Dn ->]|(Dn & root' & n & new & -> & Rn & Ad & K & Nm)]; cbn [bind]; [reflexivity|].
    assert (D1 : ~ dotted_name (e_name b) /\ ~ dotted_name extra).
    { split; intros X; apply Dn; apply (dotted_suffix (e_name b) "r" extra); auto. }
    destruct K as (S' & B' & Gw & Ag).
    destruct show.
    - destruct Ad as (b1 & h1 & l1 & p1 & R1 & Pu & R2 & Nn & Dn').
      pose proof (C64_shape_call root' _ bl (e_name b ++ "_c" ++ extra)%string (KPens (e_pb b)) (Some true)
        (SEllipse (p_subv c (V (nofZ 1) (nofZ 1))) (p_add c (V (nofZ 1) (nofZ 1)))) S' R2 Logic.I) as X.
      change (e_base (ELeaf b s)) with b.
      destruct (elem_any bl (e_name b ++ "_c" ++ extra)%string (KPens (e_pb b)) (Some true) _ root') as [[root2 [n2 e2]]|x].
      + destruct X as (pb & -> & -> & Ad2 & S2 & Ag2 & _).
        exists bb, c, (ELeaf b' s'). do 4 (split; auto). split; [exact S2|]. split; [now apply all_grown_trans with root'|].
        split; [tauto|]. split; [tauto|]. exists root', n2. split; [|exact Ad2]. exists b1, h1, l1, p1. auto.
      + exfalso. destruct X as [(_ & X)|[(_ & pb & _ & _ & X)|(_ & X)]].
        * apply (X (e_pb b)). reflexivity.
        * discriminate.
        * apply (dotted_suffix (e_name b) "c" extra) in X. cbn [has_dot] in X. destruct X as [X|[X|X]]; try tauto. discriminate.
    - exists bb, c, (ELeaf b' s'). do 4 (split; auto). split; [exact S'|]. split; [exact Ag|]. tauto.
  Qed.

  (* A call that raises leaves the tree and the builders as they were. *)
  Theorem C64_failed_call : forall (st st' : bstate) (bl : builder F) (c : bcall F) (x : exn),
    ready st -> In bl (snd st) -> b_call bl c st = (st', Raise x) -> st' = st.
  Proof.
    intros [root bs] st' bl c x (Sr & Gr & Hb) Hi. cbn [fst snd] in *. destruct (Hb bl Hi) as (g & R & G).
    destruct c as [name q|name s kind closed|name pens kind|b s angle show extra]; cbn [b_call].
    - destruct (b_add_pt (bl_path bl) name q root); congruence.
    - destruct (elem_any bl name kind closed s root) as [[]|]; congruence.
    - destruct (b_group bl name pens kind root) as [[]|]; congruence.
    - pose proof (C64_rotate_call root g bl b s angle show extra Sr R G) as X.
      destruct (b_rotate bl (ELeaf b s) angle show extra root) as [r [[n new]|y]]; cbn [bind]; [discriminate|].
      subst r. congruence.
  Qed.

  Lemma call_ready (st : bstate) (bl : builder F) (c : bcall F) : ready st -> In bl (snd st) ->
    let st' := fst (b_call bl c st) in
    ready st' /\ all_grown (fst st) (fst st') /\ exists more, snd st' = snd st ++ more.
  Proof.
    destruct st as [root bs]. intros (Sr & Gr & Hb) Hi. cbn [fst snd] in *. destruct (Hb bl Hi) as (g & R & G).
    assert (K : forall root' bs', sound root' -> all_grown root root' ->
       (forall bl', In bl' bs' -> exists g, reaches root' (bl_path bl') g /\ is_group g) ->
       ready (root', bs ++ bs') /\ all_grown root root' /\ exists more, bs ++ bs' = bs ++ more).
    { intros root' bs' S' A' B'. split; [|split; [exact A'|now exists bs']]. split; [exact S'|]. split; cbn [fst snd].
      - destruct (A' [] root) as (r & [[_ ->]|Rr] & Gw); [left; auto| |inversion Rr]. now apply grown_group with root.
      - intros bl' Hl. apply in_app_or in Hl as [Hl|Hl]; [|now apply B'].
        destruct (Hb bl' Hl) as (g1 & R1 & G1). destruct (A' _ _ R1) as (g2 & R2 & G2). exists g2. split; [exact R2|].
        now apply grown_group with g1. }
    assert (K0 : forall root', sound root' -> all_grown root root' ->
       ready (root', bs) /\ all_grown root root' /\ exists more, bs = bs ++ more).
    { intros root' S' A'. destruct (K root' [] S' A') as (K1 & K2 & K3); [easy|]. rewrite app_nil_r in *. auto. }
    assert (Z : ready (root, bs) /\ all_grown root root /\ exists more, bs = bs ++ more) by (apply K0; [exact Sr|apply all_grown_refl]).
    destruct c as [name q|name s kind closed|name pens kind|b s angle show extra]; cbn [b_call].
    - destruct g as [|b h l p|]; try contradiction.
      pose proof (C64_point_call root bl b h l p name q Sr R) as X.
      destruct (b_add_pt (bl_path bl) name q root) as [r|x]; cbn [fst snd]; [|exact Z].
      destruct X as (_ & S' & A' & _). now apply K0.
    - pose proof (C64_shape_call root g bl name kind closed s Sr R G) as X.
      destruct (elem_any bl name kind closed s root) as [[r [n e]]|x]; cbn [fst snd]; [|exact Z].
      destruct X as (pb & _ & _ & _ & S' & A' & _). now apply K0.
    - pose proof (C64_group_call root g bl name pens kind Sr R G) as X.
      destruct (b_group bl name pens kind root) as [[r bl']|x]; cbn [fst snd]; [|exact Z].
      destruct X as (n & b & Pa & _ & _ & _ & Rb & _ & _ & S' & A' & _). apply K; auto.
      intros bl2 [<-|[]]. eexists. split; [exact Rb|exact Logic.I].
    - pose proof (C64_rotate_call root g bl b s angle show extra Sr R G) as X.
      destruct (b_rotate bl (ELeaf b s) angle show extra root) as [r [[n new]|y]]; cbn [fst snd].
      + destruct X as (bb & c & e & _ & _ & _ & _ & S' & A' & _). now apply K0.
      + subst r. exact Z.
  Qed.

  (* After any calls on any of the builders handed out so far, whether they succeed or raise:
     all names are in order, every builder still has its group, and nothing made earlier is
     altered, moved or removed. *)
  Theorem C64_history : forall (calls : list (nat * bcall F)) (name : string) (pens : by_shape (penbrush F))
      (kind : string) (earlier : list (nat * bcall F)) (st0 : bstate),
    b_init name pens kind = Ok st0 ->
    let st := b_run earlier st0 in
    let st' := b_run calls st in
    ready st' /\ all_grown (fst st) (fst st') /\ exists more, snd st' = snd st ++ more.
  Proof.
    assert (K : forall (calls : list (nat * bcall F)) (st : bstate), ready st ->
       let st' := b_run calls st in
       ready st' /\ all_grown (fst st) (fst st') /\ exists more, snd st' = snd st ++ more).
    { induction calls as [|[i c] calls IH]; intros st Rd; cbn [b_run].
      - split; [exact Rd|]. split; [apply all_grown_refl|]. exists []. now rewrite app_nil_r.
      - destruct (nth_error (snd st) i) as [bl|] eqn:E; [|now apply IH]. apply nth_error_In in E.
        destruct (call_ready st bl c Rd E) as (R1 & A1 & m1 & M1). destruct (IH _ R1) as (R2 & A2 & m2 & M2).
        split; [exact R2|]. split; [now apply all_grown_trans with (fst (fst (b_call bl c st)))|].
        exists (m1 ++ m2). rewrite M2, M1. now rewrite app_assoc. }
    intros calls name pens kind earlier st0 E.
    assert (R0 : ready st0).
    { unfold b_init in E. destruct (fresh_group name) as [g|x] eqn:Ef; [|discriminate]. cbn [bind] in E. injection E as <-.
      assert (Eg : exists b, g = EGroup b false [] []).
      { cbv in Ef. injection Ef as <-. eauto. }
      destruct Eg as (b & ->). split; [|split].
      - constructor; cbn; try easy; repeat constructor; try easy.
      - exact Logic.I.
      - intros bl [<-|[]]. eexists. split; [left; split; reflexivity|exact Logic.I]. }
    cbn zeta. apply K. now apply (K earlier).
  Qed.

  (* What a call returned can be looked up again, from the builder's group by its name and
     from the outermost group by its dotted name. *)
  Theorem C64_lookup : forall (root root' g e : elem F) (ks : list string) (n : string),
    sound root' -> is_group root' -> added root root' ks n e -> ~ In "" (tl (ks ++ [n])) ->
    (forall k, In k ks -> ~ dotted_name k) ->
    (reaches root' ks g -> elem_lookup g n = Ok e) /\ elem_lookup root' (dotted (ks ++ [n])) = Ok e.
  Proof.
    intros root root' g e ks n Sr G (b & h & l & p & _ & _ & R & _ & Dn) Ne Dk.
    assert (At : at_path root' (ks ++ [n]) e).
    { clear - R. revert root' R. induction ks as [|k ks IH]; intros root' R.
      - destruct R as [[_ <-]|R]; [|inversion R]. apply at_member. apply in_or_app. right. now left.
      - apply reaches_cons in R as (b3 & h3 & l3 & p3 & c & -> & Hi & R). cbn [app]. apply at_below with c; auto. }
    split.
    - intros R2.
      assert (Eg : g = EGroup b h (l ++ [(n, e)]) p).
      { clear - Sr R R2. revert root' Sr R R2. induction ks as [|k ks IH]; intros root' Sr R R2.
        - destruct R as [[_ <-]|R]; [|inversion R]. destruct R2 as [[_ ->]|R2]; [reflexivity|inversion R2].
        - apply reaches_cons in R as (b3 & h3 & l3 & p3 & c & -> & Hi & R).
          apply reaches_cons in R2 as (b4 & h4 & l4 & p4 & c2 & E & Hi2 & R2). injection E as <- <- <- <-.
          inversion Sr as [|b' h' l0' p0' [G1 G2] N D Sl]; subst.
          pose proof (find_key_some k _ G1 c Hi). pose proof (find_key_some k _ G1 c2 Hi2). assert (c2 = c) by congruence. subst c2.
          exact (IH c (Sl k c Hi) R R2). }
      subst g. pose proof (reached_sound _ _ _ Sr R) as Sg.
      change n with (dotted [n]). apply C44_lookup_iff; [apply (sound_tidy _ Sg)|exact Logic.I|discriminate| |].
      + split; [intros k [<-|[]]; exact Dn|intros []].
      + apply at_member. apply in_or_app. right. now left.
    - apply C44_lookup_iff; [apply (sound_tidy _ Sr)|exact G|destruct ks; discriminate| |exact At].
      split; [|exact Ne]. intros k Hk. apply in_app_or in Hk as [Hk|[<-|[]]]; auto.
  Qed.
End History.
