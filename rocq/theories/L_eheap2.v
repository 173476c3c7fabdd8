(* Lemmas for copies and undo: what copying and restoring make. *)
Require Import Reals Lra.
Require Import Verif.Base Verif.NumR Verif.L_real Verif.M_vector Verif.M_bbox Verif.M_transform Verif.M_bezier Verif.M_colors
  Verif.M_points Verif.S_points Verif.L_points Verif.M_elems Verif.M_group Verif.M_eheap Verif.S_eheap Verif.L_eheap.
From Coq Require Import String Lia List.
Import ListNotations.
Local Open Scope list_scope.
Local Open Scope nat_scope.

Section Facts.
  Context {F : Type} {NF : Num F}.
  Notation heap := (heap F).
  Implicit Types h : heap.

  (* everything that exists in h is as it was *)
  Definition old h h' : Prop := forall r, there h r -> same h h' r /\ there h' r.
  Lemma old_refl h : old h h.
  Proof. intros r H. split; [destruct r; reflexivity|exact H]. Qed.
  Lemma old_trans h h1 h2 : old h h1 -> old h1 h2 -> old h h2.
  Proof.
    intros A B r H. destruct (A r H) as [S1 T1]. destruct (B r T1) as [S2 T2]. split; [|exact T2].
    destruct r; cbn in *; congruence.
  Qed.
  Lemma there_inv h : wf (h_pts h) -> inv (there h) h.
  Proof.
    intros W. split; [|split; [intros r H; exact H|exact W]]. intros e o E N. exfalso. apply N. cbn. eapply some_lt; eauto.
  Qed.
  Lemma tri0_old {A} (m : act A) Q h : (tri0 (there h) m Q) -> wf (h_pts h) -> old h (fst (m h)) /\ wf (h_pts (fst (m h))).
  Proof.
    intros H W. destruct (H h (there_inv h W) I) as ((_ & _ & W') & (R1 & _ & R2) & _). split; [|exact W'].
    intros r Hr. split; [auto|auto].
  Qed.

  (* control point i is made of an absolute point and two vectors, and has the value v *)
  Definition holds h i (v : cpoint F) : Prop :=
    exists c l r n, nth_error (h_cps h) i = Some (CPO c l r (ckind v)) /\
      nth_error (h_pts h) c = Some (NPoint (px (cc v)) (py (cc v)) n) /\
      nth_error (h_vecs h) l = Some (cdl v) /\ nth_error (h_vecs h) r = Some (cdr v).
  (* and all of it was made since h0 *)
  Definition owned h0 h i (v : cpoint F) : Prop :=
    exists c l r n, nth_error (h_cps h) i = Some (CPO c l r (ckind v)) /\
      nth_error (h_pts h) c = Some (NPoint (px (cc v)) (py (cc v)) n) /\
      nth_error (h_vecs h) l = Some (cdl v) /\ nth_error (h_vecs h) r = Some (cdr v) /\
      Forall (made h0 h) [RC i; RP c; RV l; RV r].
  Lemma owned_holds h0 h i v : owned h0 h i v -> holds h i v.
  Proof. intros (c & l & r & n & A & B & C & D & _). exists c, l, r, n. auto. Qed.
  Lemma holds_value h i v : holds h i v -> cp_value h i = Some v.
  Proof.
    intros (c & l & r & n & A & B & C & D). unfold cp_value. rewrite A. cbn [co_c co_dl co_dr co_kind].
    assert (pos (h_pts h) c = Ok (cc v)) as -> by (unfold pos; cbn [xy]; rewrite B; destruct (cc v); reflexivity).
    rewrite C, D. destruct v; reflexivity.
  Qed.
  Lemma holds_values h cs l : Forall2 (holds h) cs l -> all_some (map (cp_value h) cs) = Some l.
  Proof. induction 1 as [|i v cs l H _ IH]; [reflexivity|]. cbn. now rewrite (holds_value _ _ _ H), IH. Qed.
  Lemma owned_same h0 h1 h2 i v : owned h0 h1 i v -> (forall r, made h0 h1 r -> same h1 h2 r /\ there h2 r) -> owned h0 h2 i v.
  Proof.
    intros (c & l & r & n & A & B & C & D & E) H. exists c, l, r, n.
    inversion E as [|? ? E1 E2]; subst. inversion E2 as [|? ? E3 E4]; subst. inversion E4 as [|? ? E5 E6]; subst. inversion E6 as [|? ? E7 _]; subst.
    destruct (H _ E1) as [X1 Y1], (H _ E3) as [X2 Y2], (H _ E5) as [X3 Y3], (H _ E7) as [X4 Y4]. cbn [same] in *.
    rewrite X1, X2, X3, X4. split; [auto|]. split; [auto|]. split; [auto|]. split; [auto|].
    destruct E1, E3, E5, E7. repeat constructor; auto.
  Qed.
  Lemma located_old st st' : (forall i d, nth_error st i = Some d -> nth_error st' i = Some d) ->
    forall i (p : pt F), located st i p -> located st' i p.
  Proof. intros H i p. induction 1; [eapply loc_point|eapply loc_rel|eapply loc_calc]; eauto. Qed.
  Lemma old_pts h h' : old h h' -> forall i d, nth_error (h_pts h) i = Some d -> nth_error (h_pts h') i = Some d.
  Proof. intros O i d E. destruct (O (RP i)) as [S' _]; [cbn; eapply some_lt; eauto|]. cbn in S'. congruence. Qed.
  Lemma pos_old h h' i p : wf (h_pts h) -> wf (h_pts h') -> old h h' -> pos (h_pts h) i = Ok p -> pos (h_pts h') i = Ok p.
  Proof.
    intros W W' O E. apply (pos_located _ W) in E. apply (pos_located _ W'). eapply located_old; [|exact E]. now apply old_pts.
  Qed.
  Lemma cp_value_old h h' i v : wf (h_pts h) -> wf (h_pts h') -> old h h' -> cp_value h i = Some v -> cp_value h' i = Some v.
  Proof.
    intros W W' O. unfold cp_value. destruct (nth_error (h_cps h) i) as [c|] eqn:E; [|discriminate].
    destruct (O (RC i)) as [S' _]; [cbn; eapply some_lt; eauto|]. cbn in S'. rewrite S', E.
    destruct (pos (h_pts h) (co_c c)) as [p|] eqn:Ep; [|discriminate]. rewrite (pos_old _ _ _ _ W W' O Ep).
    destruct (nth_error (h_vecs h) (co_dl c)) eqn:El; [|discriminate]. destruct (O (RV (co_dl c))) as [S1 _]; [cbn; eapply some_lt; eauto|]. cbn in S1. rewrite S1, El.
    destruct (nth_error (h_vecs h) (co_dr c)) eqn:Er; [|discriminate]. destruct (O (RV (co_dr c))) as [S2 _]; [cbn; eapply some_lt; eauto|]. cbn in S2. now rewrite S2, Er.
  Qed.
  Lemma all_some_old h h' cps l : wf (h_pts h) -> wf (h_pts h') -> old h h' ->
    all_some (map (cp_value h) cps) = Some l -> all_some (map (cp_value h') cps) = Some l.
  Proof.
    intros W W' O. revert l. induction cps as [|i cps IH]; intros l; cbn [map all_some]; [auto|].
    destruct (cp_value h i) as [v|] eqn:E; [|discriminate]. rewrite (cp_value_old _ _ _ _ W W' O E).
    destruct (all_some (map (cp_value h) cps)) as [r|]; [|discriminate]. intros H. now rewrite (IH r eq_refl).
  Qed.

  Lemma nth_new2 {A} (l : list A) a b : nth_error ((l ++ [a]) ++ [b]) (List.length l) = Some a.
  Proof. rewrite nth_app_old by (rewrite app_length; cbn; lia). apply nth_app_new. Qed.

  (* ---------------- what copying a control point makes ---------------- *)
  Lemma cp_fixed_spec h0 h i v : wf (h_pts h) -> old h0 h -> cp_value h i = Some v ->
    exists h' j, cp_fixed i h = (h', Ok j) /\ old h h' /\ wf (h_pts h') /\ owned h0 h' j v /\ h_els h' = h_els h /\ h_xfs h' = h_xfs h.
  Proof.
    intros W G E. pose proof (tri0_old (cp_fixed i) _ h (t_cp_fixed _ i) W) as [O W']. revert O W'.
    unfold cp_value in E. destruct (nth_error (h_cps h) i) as [a|] eqn:Ea; [|discriminate].
    destruct (pos (h_pts h) (co_c a)) as [p|] eqn:Ep; [|discriminate].
    destruct (nth_error (h_vecs h) (co_dl a)) as [l|] eqn:El; [|discriminate]. destruct (nth_error (h_vecs h) (co_dr a)) as [r|] eqn:Er; [|discriminate].
    injection E as <-.
    assert (exists d, nth_error (h_pts h) (co_c a) = Some d) as [d Ed].
    { rewrite pos_eq in Ep by exact W. destruct (nth_error (h_pts h) (co_c a)); [eauto|discriminate]. }
    unfold cp_fixed, next, rd_cp, rd. cbn [h_cps]. rewrite Ea. unfold on_pts. cbn [pstep]. rewrite Ed, Ep. cbn [fst snd].
    unfold copy_vec, next, rd_vec, rd. cbn [h_vecs]. rewrite El. unfold mk_vec. cbn [h_vecs h_pts h_cps h_xfs h_els].
    rewrite (nth_app_old (h_vecs h) [l] (co_dr a)) by (eapply some_lt; eauto). rewrite Er. unfold mk_cp. cbn [fst snd h_vecs h_pts h_cps h_xfs h_els].
    intros O W'. do 2 eexists. split; [reflexivity|]. split; [exact O|]. split; [exact W'|]. split; [|split; reflexivity].
    exists (List.length (h_pts h)), (List.length (h_vecs h)), (List.length (h_vecs h ++ [l])). eexists. cbn [h_vecs h_pts h_cps ckind cc cdl cdr].
    split; [apply nth_app_new|]. split; [apply nth_app_new|]. split; [apply nth_new2|]. split; [apply nth_app_new|].
    assert (forall r0, there h0 r0 -> there h r0) as Gr by (intros r0 Hr; apply (G r0 Hr)).
    assert (List.length (h_cps h0) <= List.length (h_cps h)) as L1.
    { destruct (le_lt_dec (List.length (h_cps h0)) (List.length (h_cps h))) as [|L]; [auto|]. exfalso. pose proof (Gr (RC (List.length (h_cps h))) L) as X. cbn in X. lia. }
    assert (List.length (h_pts h0) <= List.length (h_pts h)) as L2.
    { destruct (le_lt_dec (List.length (h_pts h0)) (List.length (h_pts h))) as [|L]; [auto|]. exfalso. pose proof (Gr (RP (List.length (h_pts h))) L) as X. cbn in X. lia. }
    assert (List.length (h_vecs h0) <= List.length (h_vecs h)) as L3.
    { destruct (le_lt_dec (List.length (h_vecs h0)) (List.length (h_vecs h))) as [|L]; [auto|]. exfalso. pose proof (Gr (RV (List.length (h_vecs h))) L) as X. cbn in X. lia. }
    repeat constructor; cbn [there h_cps h_pts h_vecs]; rewrite ?app_length; cbn [List.length]; lia.
  Qed.
  Lemma each_fixed_spec h0 : forall cps h l, wf (h_pts h) -> old h0 h -> all_some (map (cp_value h) cps) = Some l ->
    exists h' cs, each cp_fixed cps h = (h', Ok cs) /\ old h h' /\ wf (h_pts h') /\ Forall2 (owned h0 h') cs l /\ h_els h' = h_els h /\ h_xfs h' = h_xfs h.
  Proof.
    induction cps as [|i cps IH]; intros h l W G E; cbn [map all_some] in E.
    - injection E as <-. exists h, []. split; [reflexivity|]. split; [apply old_refl|]. split; [exact W|]. split; [constructor|auto].
    - destruct (cp_value h i) as [v|] eqn:Ev; [|discriminate]. destruct (all_some (map (cp_value h) cps)) as [r|] eqn:Er; [|discriminate]. injection E as <-.
      destruct (cp_fixed_spec h0 h i v W G Ev) as (h1 & j & E1 & O1 & W1 & P1 & X1 & Y1).
      destruct (IH h1 r W1 (old_trans _ _ _ G O1) (all_some_old _ _ _ _ W W1 O1 Er)) as (h2 & cs & E2 & O2 & W2 & P2 & X2 & Y2).
      exists h2, (j :: cs). cbn [each]. unfold next at 1. rewrite E1. unfold next. rewrite E2. cbn [ret].
      split; [reflexivity|]. split; [eapply old_trans; eauto|]. split; [exact W2|]. split; [|split; congruence].
      constructor; [|exact P2]. eapply owned_same; [exact P1|]. intros q [_ T]. exact (O2 q T).
  Qed.

  (* ---------------- what restoring control points does ---------------- *)
  Definition but (a : list nat) h h' : Prop := forall r, there h r -> there h' r /\ ((forall i, In i a -> r <> RC i) -> same h h' r).
  Lemma holds_but a h h' i v : but a h h' -> ~ In i a -> holds h i v -> holds h' i v.
  Proof.
    intros Bt N (c & l & r & n & A & B & C & D). exists c, l, r, n.
    destruct (Bt (RC i)) as [_ S1]; [cbn; eapply some_lt; eauto|]. destruct (Bt (RP c)) as [_ S2]; [cbn; eapply some_lt; eauto|].
    destruct (Bt (RV l)) as [_ S3]; [cbn; eapply some_lt; eauto|]. destruct (Bt (RV r)) as [_ S4]; [cbn; eapply some_lt; eauto|].
    cbn in *. rewrite S1, S2, S3, S4; auto; try (intros; discriminate). intros j Hj E. injection E as ->. auto.
  Qed.
  Lemma cp_restore_spec h i j v : holds h j v -> there h (RC i) ->
    exists h', cp_restore i j h = (h', Ok tt) /\ but [i] h h' /\ holds h' i v /\ h_els h' = h_els h /\ h_xfs h' = h_xfs h.
  Proof.
    intros (c & l & r & n & A & B & C & D) Ti. unfold cp_restore, next, rd_cp, rd. rewrite A. unfold on_pts. cbn [co_c co_dl co_dr co_kind pstep].
    rewrite B. unfold copy_vec, next, rd_vec, rd. cbn [h_vecs h_pts h_cps h_xfs h_els]. rewrite C. unfold mk_vec. cbn [h_vecs h_pts h_cps h_xfs h_els].
    rewrite (nth_app_old (h_vecs h) [cdl v] r) by (eapply some_lt; eauto). rewrite D. cbn [h_vecs h_pts h_cps h_xfs h_els].
    destruct (nth_error (h_cps h) i) as [a|] eqn:Ea; [|apply nth_error_None in Ea; cbn in Ti; lia]. unfold wr_cp. cbn [h_vecs h_pts h_cps h_xfs h_els].
    eexists. split; [reflexivity|]. split; [|split; [|split; reflexivity]].
    - intros [k|k|k|k|k] T; cbn [there same h_vecs h_pts h_cps h_xfs h_els] in *; rewrite ?app_length, ?set_nth_length; cbn [List.length]; (split; [lia|]); intros N; try reflexivity.
      + now apply nth_app_old.
      + rewrite nth_app_old by (rewrite app_length; lia). now apply nth_app_old.
      + apply set_nth_other. intros ->. exact (N k (or_introl eq_refl) eq_refl).
    - exists (List.length (h_pts h)), (List.length (h_vecs h)), (List.length (h_vecs h ++ [cdl v])), None. cbn [h_vecs h_pts h_cps].
      split; [apply set_nth_same; exact Ti|]. split; [apply nth_app_new|]. split; [apply nth_new2|apply nth_app_new].
  Qed.
  Lemma restore_cps_spec : forall a b h l, NoDup a -> Forall (fun i => there h (RC i)) a -> (forall i, In i a -> ~ In i b) ->
    List.length a = List.length b -> Forall2 (holds h) b l ->
    exists h', restore_cps a b h = (h', Ok tt) /\ but a h h' /\ Forall2 (holds h') a l /\ h_els h' = h_els h /\ h_xfs h' = h_xfs h.
  Proof.
    induction a as [|i a IH]; intros [|j b] h l N T D L H; try discriminate L.
    - inversion H; subst. exists h. split; [reflexivity|]. split; [|split; [constructor|auto]]. intros r Hr. split; [auto|]. intros _. destruct r; reflexivity.
    - inversion H as [|? v ? l' Hv Hl]; subst. inversion N as [|? ? N1 N2]; subst. inversion T as [|? ? T1 T2]; subst.
      destruct (cp_restore_spec h i j v Hv T1) as (h1 & E1 & B1 & H1 & X1 & Y1).
      destruct (IH b h1 l') as (h2 & E2 & B2 & H2 & X2 & Y2); auto.
      + rewrite Forall_forall in *. intros k Hk. apply (B1 (RC k)). auto.
      + intros k Hk Hb. apply (D k); [now right|now right].
      + assert (forall k, In k b -> ~ In k [i]) as Nb. { intros k Hk [->|[]]. apply (D k); [now left|now right]. }
        clear - Hl B1 Nb. induction Hl as [|k v b l Hk Hl IHl]; constructor.
        * eapply holds_but; [exact B1|apply Nb; now left|exact Hk].
        * apply IHl. intros k' Hk'. apply Nb. now right.
      + exists h2. cbn [restore_cps]. unfold next. rewrite E1, E2. split; [reflexivity|]. split; [|split; [|split; congruence]].
        * intros r Hr. destruct (B1 r Hr) as [T3 S1]. destruct (B2 r T3) as [T4 S2]. split; [exact T4|]. intros Nr.
          assert (same h h1 r) as A1 by (apply S1; intros k [<-|[]]; apply Nr; now left).
          assert (same h1 h2 r) as A2 by (apply S2; intros k Hk; apply Nr; now right).
          destruct r; cbn in *; congruence.
        * constructor; [eapply holds_but; eauto|exact H2].
  Qed.
End Facts.

Lemma Forall2_impl_local {A B} (P Q : A -> B -> Prop) : (forall a b, P a b -> Q a b) -> forall l m, Forall2 P l m -> Forall2 Q l m.
Proof. intros H l m. induction 1; constructor; auto. Qed.

Section Copied.
  Context {F : Type} {NF : Num F}.
  Notation heap := (heap F).
  Implicit Types h : heap.

  Lemma old_length h h' : old h h' -> List.length (h_els h) <= List.length (h_els h') /\ List.length (h_pts h) <= List.length (h_pts h').
  Proof.
    intros O. split.
    - destruct (le_lt_dec (List.length (h_els h)) (List.length (h_els h'))) as [|L]; [auto|]. destruct (O (RE (List.length (h_els h'))) L) as [_ X]. cbn in X. lia.
    - destruct (le_lt_dec (List.length (h_pts h)) (List.length (h_pts h'))) as [|L]; [auto|]. destruct (O (RP (List.length (h_pts h'))) L) as [_ X]. cbn in X. lia.
  Qed.

  (* p is an absolute point made since h0 *)
  Definition own_pt h0 h i (p : pt F) : Prop := made h0 h (RP i) /\ exists n, nth_error (h_pts h) i = Some (NPoint (px p) (py p) n).
  (* c has the value (b, s), and is made of objects made since h0, but for the transform x *)
  Definition copied h0 h c x (b : ebase F) (s : shape F) : Prop :=
    made h0 h (RE c) /\ nth_error (h_xfs h0) x = Some (e_xform b) /\ nth_error (h_xfs h) x = Some (e_xform b) /\
    let ob := OB (e_name b) (e_pb b) (e_closed b) x in
    (exists cs l, nth_error (h_els h) c = Some (OCurve ob cs) /\ s = SCurve l /\ Forall2 (owned h0 h) cs l) \/
    (exists k i j p q, nth_error (h_els h) c = Some (OBox ob k i j) /\ s = box_shape k p q /\ own_pt h0 h i p /\ own_pt h0 h j q /\ i <> j).

  Definition copy_ok (b : ebase F) (s : shape F) : Prop :=
    (pb_filled (e_pb b) = true -> e_closed b = true) /\ ((forall l, s <> SCurve l) -> e_closed b = true).

  Lemma on_pts_fixed h i p : pos (h_pts h) i = Ok p -> (exists d, nth_error (h_pts h) i = Some d) ->
    exists n, on_pts (PFixed i) h = (Heap (h_pts h ++ [NPoint (px p) (py p) n]) (h_vecs h) (h_cps h) (h_xfs h) (h_els h), Ok (List.length (h_pts h))).
  Proof. intros E [d Ed]. unfold on_pts. cbn [pstep]. rewrite Ed, E. eexists. reflexivity. Qed.
  Lemma on_pts_copy h i p : wf (h_pts h) -> pos (h_pts h) i = Ok p ->
    exists d, on_pts (PCopy i) h = (Heap (h_pts h ++ [d]) (h_vecs h) (h_cps h) (h_xfs h) (h_els h), Ok (List.length (h_pts h))) /\
      pos (h_pts h ++ [d]) (List.length (h_pts h)) = Ok p /\ wf (h_pts h ++ [d]).
  Proof.
    intros W E. pose proof (pstep_wf (h_pts h) (PCopy i) W) as W'. unfold on_pts.
    assert (exists d0, nth_error (h_pts h) i = Some d0) as [d0 Ed]. { rewrite pos_eq in E by exact W. destruct (nth_error (h_pts h) i); [eauto|discriminate]. }
    cbn [pstep] in *. rewrite Ed in *. pose proof (proj1 (pos_located _ W i p) E) as L.
    assert (Old : forall d k q, located (h_pts h) k q -> located (h_pts h ++ [d]) k q).
    { intros d k q. apply located_old. intros a d' H. rewrite nth_app_old by (eapply some_lt; eauto). exact H. }
    assert (K : forall d k d', nth_error (h_pts h) k = Some d' -> nth_error (h_pts h ++ [d]) k = Some d').
    { intros d k d' H. rewrite nth_app_old by (eapply some_lt; eauto). exact H. }
    destruct d0 as [x y n|dx dy bs n|bs sc n]; eexists; (split; [reflexivity|]); (split; [|exact W']); apply (pos_located _ W').
    - inversion L; subst; try congruence. rewrite Ed in H. injection H as <- <- <-. eapply loc_point. apply nth_app_new.
    - inversion L; subst; try congruence. rewrite Ed in H. injection H as <- <- <- <-. eapply loc_rel; [apply nth_app_new|apply Old; assumption].
    - inversion L; subst; try congruence. rewrite Ed in H. injection H as <- <- <-. eapply loc_calc; [apply nth_app_new|apply K; eassumption|apply Old; assumption].
  Qed.

  Lemma copy_spec limit e h b s : wf (h_pts h) -> leaf_value h e = Some (b, s) ->
    (copy_ok b s -> exists c, snd (e_copy (S limit) e h) = Ok c) /\
    forall c, snd (e_copy (S limit) e h) = Ok c -> exists x, copied h (fst (e_copy (S limit) e h)) c x b s /\
      exists o o', nth_error (h_els h) e = Some o /\ o_xform (eo_base o) = x /\
        nth_error (h_els (fst (e_copy (S limit) e h))) c = Some o' /\ class o' = class o.
  Proof.
    intros W E. unfold leaf_value in E. destruct (nth_error (h_els h) e) as [[ob cps|ob k i j| |]|] eqn:Ee; try discriminate E.
    - destruct (base_value h ob) as [b'|] eqn:Eb; [|discriminate]. destruct (all_some (map (cp_value h) cps)) as [l|] eqn:El; [|discriminate]. injection E as <- <-.
      unfold base_value in Eb. destruct (nth_error (h_xfs h) (o_xform ob)) as [x|] eqn:Ex; [|discriminate]. injection Eb as <-.
      destruct (each_fixed_spec h cps h l W (old_refl h) El) as (h' & cs & E1 & O1 & W1 & P1 & X1 & Y1).
      assert (e_copy (S limit) e h = if negb (pb_filled (o_pb ob) && negb (o_closed ob))
        then mk_el (OCurve (OB (o_name ob) (o_pb ob) (o_closed ob) (o_xform ob)) cs) h' else (h', Raise AssertionError)) as ->.
      { cbn [e_copy]. unfold next at 1, rd_el, rd. rewrite Ee. cbn [eo_base]. unfold next at 1. rewrite E1.
        unfold curve_new, base_new, next, ret, when. destruct (negb _); reflexivity. }
      unfold copy_ok. cbn [e_pb e_closed e_xform e_name].
      destruct (negb (pb_filled (o_pb ob) && negb (o_closed ob))) eqn:Ef; cbn [fst snd].
      + split; [unfold mk_el; cbn; eauto|]. intros c Ec. unfold mk_el in *. cbn [fst snd] in *. injection Ec as <-. exists (o_xform ob). split.
        * split; [split; cbn [there h_els]; rewrite X1; [lia|rewrite app_length; cbn; lia]|]. cbn [e_xform e_name e_pb e_closed h_xfs h_els].
          split; [exact Ex|]. split; [now rewrite Y1|]. left. exists cs, l. split; [apply nth_app_new|]. split; [reflexivity|].
          eapply Forall2_impl_local; [|exact P1]. intros a v Ha. destruct Ha as (c & dl & dr & n & A1 & A2 & A3 & A4 & A5). exists c, dl, dr, n. cbn [h_cps h_pts h_vecs]. repeat (split; [assumption|]).
          eapply Forall_impl; [|exact A5]. intros r [M1 M2]. split; [exact M1|]. destruct r; cbn in *; auto. rewrite app_length. lia.
        * do 2 eexists. split; [reflexivity|]. split; [reflexivity|]. cbn [h_els]. split; [apply nth_app_new|reflexivity].
      + split; [|discriminate]. intros [C _]. exfalso. destruct (pb_filled (o_pb ob)), (o_closed ob); try discriminate. specialize (C eq_refl). discriminate.
    - destruct (base_value h ob) as [b'|] eqn:Eb; [|discriminate]. unfold pt_value in E. destruct (pos (h_pts h) i) as [p|] eqn:Ei; [|discriminate]. destruct (pos (h_pts h) j) as [q|] eqn:Ej; [|discriminate].
      injection E as <- <-. unfold base_value in Eb. destruct (nth_error (h_xfs h) (o_xform ob)) as [x|] eqn:Ex; [|discriminate]. injection Eb as <-.
      destruct (on_pts_copy h i p W Ei) as (d1 & E1 & Q1 & W1).
      set (h1 := Heap (h_pts h ++ [d1]) (h_vecs h) (h_cps h) (h_xfs h) (h_els h)) in *.
      assert (Ej1 : pos (h_pts h1) j = Ok q).
      { apply (pos_located _ W1). eapply located_old; [|apply (pos_located _ W), Ej]. intros a d' H. cbn. rewrite nth_app_old by (eapply some_lt; eauto). exact H. }
      destruct (on_pts_copy h1 j q W1 Ej1) as (d2 & E2 & Q2 & W2). cbn [h_pts h_vecs h_cps h_xfs h_els h1] in E2.
      set (h2 := Heap ((h_pts h ++ [d1]) ++ [d2]) (h_vecs h) (h_cps h) (h_xfs h) (h_els h)) in *. cbn [h_pts h_vecs h_cps h_xfs h_els h1] in E2, Q2, W2.
      assert (Q1' : pos (h_pts h2) (List.length (h_pts h)) = Ok p).
      { apply (pos_located _ W2). eapply located_old; [|apply (pos_located _ W1), Q1]. intros a d' H. cbn. rewrite nth_app_old by (eapply some_lt; eauto). exact H. }
      assert (EQ : e_copy (S limit) e h = box_new (o_name ob) (o_pb ob) k (List.length (h_pts h)) (List.length (h_pts h ++ [d1])) (o_closed ob) (Some (o_xform ob)) h2).
      { cbn [e_copy]. unfold next at 1, rd_el, rd. rewrite Ee. cbn [eo_base]. unfold next at 1. rewrite E1. unfold next. fold h1. rewrite E2. reflexivity. }
      rewrite EQ. clear EQ. unfold copy_ok, box_new, base_new. cbn [e_closed e_pb].
      destruct (o_closed ob) eqn:Ecl.
      + destruct (on_pts_fixed h2 (List.length (h_pts h)) p Q1') as (n1 & F1).
        { cbn. rewrite nth_new2. eauto. }
        set (h3 := Heap (h_pts h2 ++ [NPoint (px p) (py p) n1]) (h_vecs h2) (h_cps h2) (h_xfs h2) (h_els h2)).
        assert (W3 : wf (h_pts h3)). { apply wf_app; [exact W2|discriminate|discriminate]. }
        assert (Q2' : pos (h_pts h3) (List.length (h_pts h ++ [d1])) = Ok q).
        { apply (pos_located _ W3). eapply located_old; [|apply (pos_located _ W2), Q2]. intros a d' H. cbn. cbn in H. rewrite nth_app_old by (eapply some_lt; eauto). exact H. }
        destruct (on_pts_fixed h3 (List.length (h_pts h ++ [d1])) q Q2') as (n2 & F2).
        { cbn. rewrite nth_new2. eauto. }
        unfold next, when, ret. destruct (negb (pb_filled (o_pb ob) && negb true)) eqn:Ef; [|destruct (pb_filled (o_pb ob)); discriminate]. cbn [fst snd].
        rewrite F1. fold h3. rewrite F2. unfold mk_el. cbn [fst snd h_pts h_vecs h_cps h_xfs h_els h3 h2].
        split; [eauto|]. intros c Ec. injection Ec as <-. exists (o_xform ob). split.
        * split; [split; cbn [there h_els]; [lia|rewrite app_length; cbn; lia]|]. cbn [e_xform e_name e_pb e_closed h_xfs h_els].
          split; [exact Ex|]. split; [exact Ex|]. right. exists k. do 2 eexists. exists p, q. split; [apply nth_app_new|]. split; [reflexivity|]. unfold own_pt. cbn [h_pts].
          split; [|split]; [split; [split; cbn [there h_pts]; rewrite ?app_length; cbn [List.length]; lia|exists n1; apply nth_new2]
            |split; [split; cbn [there h_pts]; rewrite ?app_length; cbn [List.length]; lia|exists n2; apply nth_app_new]
            |rewrite !app_length; cbn [List.length]; lia].
        * do 2 eexists. split; [reflexivity|]. split; [reflexivity|]. cbn [h_els]. split; [apply nth_app_new|]. destruct k; reflexivity.
      + unfold next, when, throw. cbn [fst snd]. split; [|discriminate]. intros [_ C]. exfalso. assert (false = true) by (apply C; intros l0; destruct k; discriminate). discriminate.
  Qed.
End Copied.

Section Undo.
  Context {F : Type} {NF : Num F}.
  Notation heap := (heap F).
  Implicit Types h : heap.

  Lemma pos_point (st : pstore F) i x y n : nth_error st i = Some (NPoint x y n) -> pos st i = Ok (P x y).
  Proof. intros E. unfold pos. cbn [xy]. now rewrite E. Qed.
  Lemma copied_value h h1 c x b s : copied h h1 c x b s -> leaf_value h1 c = Some (b, s).
  Proof.
    intros (M1 & X0 & X1 & D). unfold leaf_value, base_value. destruct D as [(cs & l & E & -> & Ow)|(k & i & j & p & q & E & -> & [_ [n Ep]] & [_ [m Eq]] & _)]; rewrite E; cbn [o_xform o_name o_pb o_closed]; rewrite X1.
    - rewrite (holds_values h1 cs l); [destruct b; reflexivity|]. eapply Forall2_impl_local; [|exact Ow]. intros. eapply owned_holds; eauto.
    - unfold pt_value. rewrite (pos_point _ _ _ _ _ Ep), (pos_point _ _ _ _ _ Eq). destruct b, p, q; reflexivity.
  Qed.
  Lemma leaf_value_old h h' e b s : wf (h_pts h) -> wf (h_pts h') -> old h h' -> leaf_value h e = Some (b, s) -> leaf_value h' e = Some (b, s).
  Proof.
    intros W W' O. unfold leaf_value. destruct (nth_error (h_els h) e) as [o|] eqn:Ee; [|discriminate].
    destruct (O (RE e)) as [Se _]; [cbn; eapply some_lt; eauto|]. cbn in Se. rewrite Se, Ee.
    assert (forall ob b0, base_value h ob = Some b0 -> base_value h' ob = Some b0) as Bv.
    { intros ob b0. unfold base_value. destruct (nth_error (h_xfs h) (o_xform ob)) eqn:Ex; [|discriminate].
      destruct (O (RX (o_xform ob))) as [Sx _]; [cbn; eapply some_lt; eauto|]. cbn in Sx. now rewrite Sx, Ex. }
    destruct o as [ob cps|ob k p q| |]; try discriminate; destruct (base_value h ob) as [b0|] eqn:Eb; try discriminate; rewrite (Bv _ _ Eb).
    - destruct (all_some (map (cp_value h) cps)) as [l|] eqn:El; [|discriminate]. now rewrite (all_some_old _ _ _ _ W W' O El).
    - unfold pt_value. destruct (pos (h_pts h) p) eqn:Ep; [|discriminate]. destruct (pos (h_pts h) q) eqn:Eq; [|discriminate].
      now rewrite (pos_old _ _ _ _ W W' O Ep), (pos_old _ _ _ _ W W' O Eq).
  Qed.
  (* what exists refers to what exists *)
  Lemma made_inv h h1 : hreach h -> old h h1 -> wf (h_pts h1) -> inv (made h h1) h1.
  Proof.
    intros H O W1. split; [|split; [intros r [_ T]; exact T|exact W1]]. intros e o E N.
    destruct (lt_dec e (List.length (h_els h))) as [L|L].
    - destruct (O (RE e) L) as [Se _]. cbn in Se. rewrite E in Se. symmetry in Se. pose proof (hreach_valid h H e o Se) as V.
      destruct o; cbn [vobj clear] in *; auto.
      + eapply Forall_impl; [|exact V]. intros i T [M _]. exact (M T).
      + destruct V as [V1 V2]. split; intros [M _]; auto.
    - exfalso. apply N. split; cbn; [exact L|]. eapply some_lt; eauto.
  Qed.

  Lemma base_restore_spec h e c s o t : nth_error (h_els h) e = Some s -> nth_error (h_els h) c = Some o ->
    nth_error (h_xfs h) (o_xform (eo_base o)) = Some t ->
    base_restore e c h = (Heap (h_pts h) (h_vecs h) (h_cps h) (h_xfs h ++ [t_copy t])
      (set_nth e (with_base s (OB (o_name (eo_base o)) (o_pb (eo_base o)) (o_closed (eo_base o)) (List.length (h_xfs h)))) (h_els h)), Ok tt).
  Proof.
    intros Es Eo Et. unfold base_restore, next, rd_el, rd. rewrite Es, Eo. unfold copy_xf, next, rd_xf, rd. rewrite Et. reflexivity.
  Qed.

  Lemma restored h h1 h2 e c x b s t limit : copied h h1 c x b s -> (forall r, made h h1 r -> same h1 h2 r) -> (forall r, there h1 r -> there h2 r) ->
    sep (made h h1) h2 -> nth_error (h_xfs h2) x = Some t -> tmat t = tmat (e_xform b) -> fits h2 e c ->
    (exists oe o', nth_error (h_els h2) e = Some oe /\ nth_error (h_els h1) c = Some o' /\ class oe = class o') -> ~ made h h1 (RE e) ->
    exists h3 b', e_restore limit e c h2 = (h3, Ok tt) /\ leaf_value h3 e = Some (b', s) /\
      e_name b' = e_name b /\ e_pb b' = e_pb b /\ e_closed b' = e_closed b /\ tmat (e_xform b') = tmat (e_xform b).
  Proof.
    intros (M1 & _ & _ & D) Sm Gr Sp Et Tm Ft (oe & o' & Ee & Eo' & Ecl) Ne. pose proof (Sm _ M1) as Sc. cbn in Sc.
    pose proof (Sp e oe Ee Ne) as Cl. assert (Nec : e <> c) by (intros ->; auto).
    unfold fits in Ft. rewrite Ee in Ft.
    set (b' := EB (e_name b) (e_pb b) (e_closed b) (t_copy t)).
    assert (tmat (e_xform b') = tmat (e_xform b)) as Tb by (unfold b'; cbn; rewrite <- Tm; destruct t as [[] ? ?]; reflexivity).
    destruct D as [(cs & l & Ec & -> & Ow)|(k & i & j & p & q & Ec & -> & [Mi [n Ep]] & [Mj [m Eq]] & Dij)]; rewrite Ec in *; injection Eo' as <-.
    - destruct oe as [be a|? [] ? ?| |]; try discriminate Ecl. rewrite Sc in Ft. destruct Ft as (Le & Nd & Th).
      assert (Hs : Forall2 (holds h2) cs l).
      { eapply Forall2_impl_local; [|exact Ow]. intros a0 v Hv. eapply owned_holds, owned_same; [exact Hv|]. intros r Hr. split; [auto|]. apply Gr, Hr. }
      pose proof (base_restore_spec h2 e c _ _ t Ee Sc Et) as Eb. cbn [with_base eo_base o_name o_pb o_closed] in Eb.
      set (h2a := Heap (h_pts h2) _ _ _ _) in Eb.
      destruct (restore_cps_spec a cs h2a l) as (h3 & E3 & _ & H3 & X3 & Y3); auto.
      { intros i0 Hi Hc. cbn [clear] in Cl. rewrite Forall_forall in Cl. apply (Cl i0 Hi).
        clear - Ow Hc. induction Ow as [|a0 v cs l Ha Ow IH]; [destruct Hc|]. destruct Hc as [->|Hc]; [|auto].
        destruct Ha as (? & ? & ? & ? & _ & _ & _ & _ & Hm). inversion Hm; subst; assumption. }
      exists h3, b'. split; [|split; [|auto]].
      + unfold e_restore, next at 1 2, rd_el, rd. rewrite Ee, Sc. cbn [eo_base]. unfold next. rewrite Eb, Le, Nat.eqb_refl. exact E3.
      + unfold leaf_value. rewrite X3. cbn [h_els h2a]. rewrite set_nth_same by (eapply some_lt; eauto). unfold base_value. cbn [o_xform o_name o_pb o_closed]. rewrite Y3.
        cbn [h_xfs h2a]. rewrite nth_app_new. rewrite (holds_values h3 a l H3). reflexivity.
    - destruct oe as [be a|be ke pe qe| |]; [destruct k; discriminate Ecl| |destruct k; discriminate Ecl|destruct k; discriminate Ecl]. rewrite Sc in Ft. destruct Ft as (Dpq & (x1 & y1 & n1 & Pe) & (x2 & y2 & n2 & Qe)).
      cbn [clear] in Cl. destruct Cl as [Np Nq].
      pose proof (Sm _ Mi) as Si. pose proof (Sm _ Mj) as Sj. cbn in Si, Sj. rewrite Ep in Si. rewrite Eq in Sj.
      pose proof (base_restore_spec h2 e c _ _ t Ee Sc Et) as Eb. cbn [with_base eo_base o_name o_pb o_closed] in Eb.
      assert (Lp : pe < List.length (h_pts h2)) by (eapply some_lt; eauto). assert (Lq : qe < List.length (h_pts h2)) by (eapply some_lt; eauto).
      assert (Dj : j <> pe) by (intros ->; auto).
      set (ob' := OB (e_name b) (e_pb b) (e_closed b) (List.length (h_xfs h2))) in Eb.
      set (pts' := upd (upd (h_pts h2) pe (NPoint (px p) (py p) n1)) qe (NPoint (px q) (py q) n2)).
      assert (Fin : exists h3, e_restore limit e c h2 = (h3, Ok tt) /\ nth_error (h_els h3) e = Some (OBox ob' k pe qe) /\ h_pts h3 = pts' /\ h_xfs h3 = h_xfs h2 ++ [t_copy t]).
      { unfold e_restore, next at 1 2, rd_el, rd. rewrite Ee, Sc. cbn [eo_base]. unfold next. rewrite Eb. unfold on_pts at 1. cbn [pstep h_pts]. rewrite Pe, (pos_point _ _ _ _ _ Si).
        unfold on_pts. cbn [pstep h_pts]. rewrite nth_upd by auto. destruct (Nat.eqb_spec qe pe) as [->|_]; [congruence|]. rewrite Qe.
        rewrite (pos_point (upd _ _ _) j (px q) (py q) m) by (rewrite nth_upd by auto; destruct (Nat.eqb_spec j pe); [congruence|exact Sj]). cbn [px py h_vecs h_cps h_xfs h_els].
        assert (e < List.length (h_els h2)) by (eapply some_lt; eauto).
        destruct ke as [| |r], k as [| |r']; try discriminate Ecl.
        - eexists. split; [reflexivity|]. cbn [h_els h_pts h_xfs]. split; [now apply set_nth_same|]. split; reflexivity.
        - eexists. split; [reflexivity|]. cbn [h_els h_pts h_xfs]. split; [now apply set_nth_same|]. split; reflexivity.
        - cbn [h_els]. rewrite set_nth_same by auto. cbn [eo_base]. unfold wr_el. eexists. split; [reflexivity|]. cbn [h_els h_pts h_xfs]. split; [apply set_nth_same; now rewrite set_nth_length|]. split; reflexivity. }
      destruct Fin as (h3 & E3 & El3 & Ep3 & Ex3). exists h3, b'. split; [exact E3|]. split; [|auto].
      unfold leaf_value, base_value, pt_value. rewrite El3, Ex3. cbn [o_xform o_name o_pb o_closed ob']. rewrite nth_app_new, Ep3. unfold pts'.
      assert (Lq' : qe < List.length (upd (h_pts h2) pe (NPoint (px p) (py p) n1))) by (rewrite upd_length; auto).
      rewrite (pos_point _ pe (px p) (py p) n1), (pos_point _ qe (px q) (py q) n2).
      + destruct p, q. reflexivity.
      + rewrite nth_upd by auto. rewrite Nat.eqb_refl. reflexivity.
      + rewrite nth_upd by auto. destruct (Nat.eqb_spec pe qe); [congruence|]. rewrite nth_upd by auto. rewrite Nat.eqb_refl. reflexivity.
  Qed.
End Undo.
