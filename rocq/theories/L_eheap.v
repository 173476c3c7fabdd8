(* Lemmas for elements as objects: what statements change. *)
Require Import Verif.Base Verif.M_vector Verif.M_bbox Verif.M_transform Verif.M_bezier Verif.M_colors
  Verif.M_points Verif.S_points Verif.L_points Verif.M_elems Verif.M_group Verif.M_eheap Verif.S_eheap.
From Coq Require Import String Lia.
Local Open Scope list_scope.

Lemma set_nth_length {A} (a : A) : forall l i, List.length (set_nth i a l) = List.length l.
Proof. induction l as [|x l IH]; intros [|i]; cbn; auto. Qed.
Lemma set_nth_same {A} (a : A) : forall l i, i < List.length l -> nth_error (set_nth i a l) i = Some a.
Proof. induction l as [|x l IH]; intros [|i] H; cbn in *; try lia; auto. apply IH. lia. Qed.
Lemma set_nth_other {A} (a : A) : forall l i j, i <> j -> nth_error (set_nth i a l) j = nth_error l j.
Proof. induction l as [|x l IH]; intros [|i] [|j] H; cbn; auto; try congruence. Qed.
Lemma nth_app_old {A} (l l' : list A) i : i < List.length l -> nth_error (l ++ l') i = nth_error l i.
Proof. intros. now apply nth_error_app1. Qed.
Lemma nth_app_new {A} (l : list A) a : nth_error (l ++ [a]) (List.length l) = Some a.
Proof. rewrite nth_error_app2, Nat.sub_diag by lia. reflexivity. Qed.
Lemma some_lt {A} (l : list A) i a : nth_error l i = Some a -> i < List.length l.
Proof. intros H. apply nth_error_Some. congruence. Qed.

Section Frame.
  Context {F : Type} {NF : Num F}.
  Notation heap := (heap F).
  Implicit Types (h : heap) (P : heap -> Prop).

  (* the class of an element *)
  Definition class (o : eobj F) : nat :=
    match o with OCurve _ _ => 0 | OBox _ KRect _ _ => 1 | OBox _ KEllipse _ _ => 2 | OBox _ (KRounded _) _ _ => 3
               | OGroup _ _ _ _ => 4 | OHoles _ _ _ => 5 end.
  Definition cls h e : option nat := option_map class (nth_error (h_els h) e).

  Variable ours : ref -> Prop.

  (* the control points and corners an element changes when it is restored or updated *)
  Definition clear (o : eobj F) : Prop :=
    match o with
    | OCurve _ cps => Forall (fun i => ~ ours (RC i)) cps
    | OBox _ _ p q => ~ ours (RP p) /\ ~ ours (RP q)
    | _ => True
    end.
  Definition sep h : Prop := forall e o, nth_error (h_els h) e = Some o -> ~ ours (RE e) -> clear o.
  Definition bounded h : Prop := forall r, ours r -> there h r.
  Definition inv h : Prop := sep h /\ bounded h /\ wf (h_pts h).
  Definition grows h h' : Prop := forall r, there h r -> there h' r.
  Definition rel h h' : Prop :=
    (forall r, ours r -> same h h' r) /\ (forall e k, cls h e = Some k -> cls h' e = Some k) /\ grows h h'.

  Lemma rel_refl h : rel h h.
  Proof. split; [intros [] _; reflexivity|]. split; [auto|intros r; auto]. Qed.
  Lemma rel_trans h h1 h2 : rel h h1 -> rel h1 h2 -> rel h h2.
  Proof.
    intros (A & B & C) (A' & B' & C'). split; [|split].
    - intros r H. specialize (A r H). specialize (A' r H). destruct r; cbn in *; congruence.
    - auto.
    - intros r H. auto.
  Qed.

  Definition stable (P : heap -> Prop) : Prop := forall h h', rel h h' -> P h -> P h'.
  Definition tri {A} (P : heap -> Prop) (m : act A) (Q : A -> heap -> Prop) : Prop :=
    forall h, inv h -> P h ->
    inv (fst (m h)) /\ rel h (fst (m h)) /\ (forall a, snd (m h) = Ok a -> Q a (fst (m h))).

  Definition pure (X : Prop) : heap -> Prop := fun _ => X.
  Lemma stable_pure X : stable (fun _ => X).
  Proof. intros h h' _. auto. Qed.
  Lemma stable_and P Q : stable P -> stable Q -> stable (fun h => P h /\ Q h).
  Proof. intros A B h h' R [X Y]. split; eauto. Qed.
  Lemma stable_cls e k : stable (fun h => cls h e = Some k).
  Proof. intros h h' (_ & R & _) H. auto. Qed.

  Lemma tri_next {A B} P (m : act A) Q (k : A -> act B) R :
    stable P -> tri P m Q -> (forall a, tri (fun h => P h /\ Q a h) (k a) R) -> tri P (next m k) R.
  Proof.
    intros St Hm Hk h I Hp. unfold next. destruct (Hm h I Hp) as (I1 & R1 & Q1).
    destruct (m h) as [h1 [a|e]]; cbn [fst snd] in *.
    - destruct (Hk a h1 I1 (conj (St _ _ R1 Hp) (Q1 a eq_refl))) as (I2 & R2 & Q2).
      split; [auto|]. split; [eapply rel_trans; eauto|auto].
    - split; [auto|]. split; [auto|discriminate].
  Qed.
  Lemma tri_weaken {A} (P P' : heap -> Prop) (m : act A) (Q Q' : A -> heap -> Prop) : tri P m Q -> (forall h, P' h -> P h) -> (forall a h, Q a h -> Q' a h) -> tri P' m Q'.
  Proof. intros H A1 A2 h I Hp. destruct (H h I (A1 _ Hp)) as (I1 & R1 & Q1). split; [auto|]. split; auto. Qed.
  (* keep a stable fact across a statement *)
  Lemma tri_frame {A} (P : heap -> Prop) (m : act A) (Q : A -> heap -> Prop) (X : heap -> Prop) : stable X -> tri P m Q -> tri (fun h => P h /\ X h) m (fun a h => Q a h /\ X h).
  Proof. intros St H h I [Hp Hx]. destruct (H h I Hp) as (I1 & R1 & Q1). split; [auto|]. split; [auto|]. intros a E. split; [auto|]. eapply St; eauto. Qed.

  Lemma tri_ret {A} (a : A) P : tri P (ret a) (fun b h => b = a /\ P h).
  Proof. intros h I Hp. cbn. split; [auto|]. split; [apply rel_refl|]. intros b E. injection E as <-. auto. Qed.
  Lemma tri_throw {A} e P (Q : A -> heap -> Prop) : tri P (throw e) Q.
  Proof. intros h I Hp. cbn. split; [auto|]. split; [apply rel_refl|discriminate]. Qed.
  Lemma tri_when b e P : tri P (when b e) (fun _ h => True).
  Proof. unfold when. destruct b; [eapply tri_weaken; [apply tri_ret|exact (fun h H => H)|auto]|apply tri_throw]. Qed.
  Lemma tri_rd {A} (f : heap -> list A) i P : tri P (rd f i) (fun _ _ => True).
  Proof. intros h I Hp. cbn. split; [auto|]. split; [apply rel_refl|auto]. Qed.
  Lemma tri_rd_el e P : tri P (rd_el e) (fun o h => cls h e = Some (class o) /\ (~ ours (RE e) -> clear o)).
  Proof.
    intros h I Hp. cbn. split; [auto|]. split; [apply rel_refl|]. intros o. unfold cls.
    destruct (nth_error (h_els h) e) as [o'|] eqn:E; [|discriminate]. intros H. injection H as <-. split; [reflexivity|].
    intros N. destruct I as (S' & _). exact (S' e o' E N).
  Qed.

  Ltac lens := cbn [h_pts h_vecs h_cps h_xfs h_els there] in *; rewrite ?app_length, ?set_nth_length; cbn [List.length]; try lia.
  Ltac frame_cells := intros [ix|ix|ix|ix|ix] Hr; cbn [same h_pts h_vecs h_cps h_xfs h_els]; try reflexivity.
  Ltac cells_grow := intros [ix|ix|ix|ix|ix] Hi; lens.

  Lemma tri_mk_vec v P : tri P (mk_vec v) (fun _ _ => True).
  Proof.
    intros h (S' & B & W) Hp. cbn [mk_vec fst snd]. split; [|split; [|auto]].
    - split; [exact S'|]. split; [|exact W]. intros r H. specialize (B r H). destruct r; lens.
    - split; [|split; [auto|cells_grow]]. frame_cells. apply nth_app_old, (B _ Hr).
  Qed.
  Lemma tri_mk_cp c P : tri P (mk_cp c) (fun i _ => ~ ours (RC i)).
  Proof.
    intros h (S' & B & W) Hp. cbn [mk_cp fst snd]. split; [|split].
    - split; [exact S'|]. split; [|exact W]. intros r H. specialize (B r H). destruct r; lens.
    - split; [|split; [auto|cells_grow]]. frame_cells. apply nth_app_old, (B _ Hr).
    - intros i E O. injection E as <-. specialize (B _ O). cbn in B. lia.
  Qed.
  Lemma tri_mk_xf t P : tri P (mk_xf t) (fun i _ => ~ ours (RX i)).
  Proof.
    intros h (S' & B & W) Hp. cbn [mk_xf fst snd]. split; [|split].
    - split; [exact S'|]. split; [|exact W]. intros r H. specialize (B r H). destruct r; lens.
    - split; [|split; [auto|cells_grow]]. frame_cells. apply nth_app_old, (B _ Hr).
    - intros i E O. injection E as <-. specialize (B _ O). cbn in B. lia.
  Qed.
  Lemma tri_mk_el o P : clear o -> tri P (mk_el o) (fun i _ => ~ ours (RE i)).
  Proof.
    intros C h (S' & B & W) Hp. cbn [mk_el fst snd]. split; [|split].
    - split; [|split; [|exact W]].
      + intros e x E N. cbn [h_els] in E. destruct (Nat.eq_dec e (List.length (h_els h))) as [->|D].
        * rewrite nth_app_new in E. injection E as <-. exact C.
        * apply (S' e); [|exact N]. rewrite <- E. symmetry. apply nth_app_old. pose proof (some_lt _ _ _ E) as L. rewrite app_length in L. cbn in L. lia.
      + intros r H. specialize (B r H). destruct r; lens.
    - split; [|split; [|cells_grow]].
      + frame_cells. apply nth_app_old, (B _ Hr).
      + intros e k. unfold cls. cbn [h_els]. destruct (nth_error (h_els h) e) eqn:E; [|discriminate].
        rewrite nth_app_old by (eapply some_lt; eauto). now rewrite E.
    - intros i E O. injection E as <-. specialize (B _ O). cbn in B. lia.
  Qed.
  Lemma tri_wr_vec i v P : ~ ours (RV i) -> tri P (wr_vec i v) (fun _ _ => True).
  Proof.
    intros N h (S' & B & W) Hp. cbn [wr_vec fst snd]. split; [|split; [|auto]].
    - split; [exact S'|]. split; [|exact W]. intros r H. specialize (B r H). destruct r; lens.
    - split; [|split; [auto|cells_grow]]. frame_cells. apply set_nth_other. intros ->. auto.
  Qed.
  Lemma tri_wr_cp i v P : ~ ours (RC i) -> tri P (wr_cp i v) (fun _ _ => True).
  Proof.
    intros N h (S' & B & W) Hp. cbn [wr_cp fst snd]. split; [|split; [|auto]].
    - split; [exact S'|]. split; [|exact W]. intros r H. specialize (B r H). destruct r; lens.
    - split; [|split; [auto|cells_grow]]. frame_cells. apply set_nth_other. intros ->. auto.
  Qed.
  Lemma tri_wr_xf i v P : ~ ours (RX i) -> tri P (wr_xf i v) (fun _ _ => True).
  Proof.
    intros N h (S' & B & W) Hp. cbn [wr_xf fst snd]. split; [|split; [|auto]].
    - split; [exact S'|]. split; [|exact W]. intros r H. specialize (B r H). destruct r; lens.
    - split; [|split; [auto|cells_grow]]. frame_cells. apply set_nth_other. intros ->. auto.
  Qed.
  Lemma tri_wr_el e o P : ~ ours (RE e) -> clear o -> (forall h, P h -> cls h e = Some (class o)) ->
    tri P (wr_el e o) (fun _ _ => True).
  Proof.
    intros N C K h (S' & B & W) Hp. cbn [wr_el fst snd]. split; [|split; [|auto]].
    - split; [|split; [|exact W]].
      + intros e' x E N'. cbn [h_els] in E. destruct (Nat.eq_dec e e') as [<-|D].
        * destruct (lt_dec e (List.length (h_els h))) as [L|L].
          -- rewrite set_nth_same in E by auto. injection E as <-. exact C.
          -- pose proof (some_lt _ _ _ E) as L'. rewrite set_nth_length in L'. lia.
        * rewrite set_nth_other in E by auto. exact (S' e' x E N').
      + intros r H. specialize (B r H). destruct r; lens.
    - split; [|split; [|cells_grow]].
      + frame_cells. apply set_nth_other. intros ->. auto.
      + intros e' k H. destruct (Nat.eq_dec e e') as [<-|D].
        * rewrite (K _ Hp) in H. injection H as <-. unfold cls. cbn [h_els]. rewrite set_nth_same; [reflexivity|].
          specialize (K _ Hp). unfold cls in K. destruct (nth_error (h_els h) e) eqn:E; [|discriminate]. eapply some_lt; eauto.
        * unfold cls in *. cbn [h_els]. now rewrite set_nth_other by auto.
  Qed.

  (* which point an operation on points assigns to *)
  Definition assigned (o : pop F) : option nat :=
    match o with PSetxy i _ _ | PSet i _ | PSetD i _ _ | PSetScale i _ => Some i | _ => None end.
  Lemma pstep_shape st (o : pop F) :
    (exists d, fst (pstep st o) = st ++ [d] /\ snd (pstep st o) = Ok (List.length st)) \/
    fst (pstep st o) = st /\ (forall i, snd (pstep st o) = Ok i -> assigned o = Some i) \/
    exists i d, assigned o = Some i /\ i < List.length st /\ fst (pstep st o) = upd st i d /\ snd (pstep st o) = Ok i.
  Proof.
    destruct o as [x y n|dx dy b n|x y b|b s n|i|i|i x y|i j|i dx dy|i s]; cbn [pstep assigned].
    - left; eexists; split; reflexivity.
    - destruct (nth_error st b); [left; eexists; split; reflexivity|right; left; split; [auto|discriminate]].
    - destruct (pos st b); [left; eexists; split; reflexivity|right; left; split; [auto|discriminate]].
    - destruct (nth_error st b) as [[]|]; try (left; eexists; split; reflexivity); right; left; split; auto; discriminate.
    - destruct (nth_error st i) as [[]|]; try (left; eexists; split; reflexivity); right; left; split; auto; discriminate.
    - destruct (nth_error st i); [|right; left; split; [auto|discriminate]]. destruct (pos st i); [left; eexists; split; reflexivity|right; left; split; [auto|discriminate]].
    - destruct (nth_error st i) as [[]|] eqn:E; try (right; left; split; [auto|discriminate]). right; right. do 2 eexists. split; [reflexivity|]. split; [eapply some_lt; eauto|]. split; reflexivity.
    - destruct (nth_error st i) as [[]|] eqn:E; try (right; left; split; [auto|discriminate]). destruct (pos st j); [|right; left; split; [auto|discriminate]].
      right; right. do 2 eexists. split; [reflexivity|]. split; [eapply some_lt; eauto|]. split; reflexivity.
    - destruct (nth_error st i) as [[]|] eqn:E.
      2:{ right; right. do 2 eexists. split; [reflexivity|]. split; [eapply some_lt; eauto|]. split; reflexivity. }
      all: right; left; split; [reflexivity|]; cbn; intros ? H; congruence.
    - destruct (nth_error st i) as [[]|] eqn:E.
      3:{ right; right. do 2 eexists. split; [reflexivity|]. split; [eapply some_lt; eauto|]. split; reflexivity. }
      all: right; left; split; [reflexivity|]; cbn; intros ? H; congruence.
  Qed.
  Lemma tri_on_pts o P : (forall i, assigned o = Some i -> ~ ours (RP i)) -> tri P (on_pts o) (fun i _ => ~ ours (RP i)).
  Proof.
    intros N h (S' & B & W) Hp. unfold on_pts. pose proof (pstep_shape (h_pts h) o) as C. pose proof (pstep_wf (h_pts h) o W) as W'.
    destruct (pstep (h_pts h) o) as [st r]. cbn [fst snd] in *.
    destruct C as [(d & -> & ->)|[(-> & C)|(i & d & A & L & -> & ->)]].
    - split; [|split].
      + split; [exact S'|]. split; [|exact W']. intros q H. specialize (B q H). destruct q; lens.
      + split; [|split; [auto|cells_grow]]. frame_cells. apply nth_app_old, (B _ Hr).
      + intros k E O. injection E as <-. specialize (B _ O). cbn in B. lia.
    - split; [|split].
      + split; [exact S'|]. split; [exact B|exact W'].
      + destruct h. apply rel_refl.
      + intros k E. apply N, C, E.
    - split; [|split].
      + split; [exact S'|]. split; [|exact W']. intros q H. specialize (B q H). destruct q; lens. rewrite upd_length by auto. lia.
      + split; [|split; [auto|]].
        * frame_cells. rewrite nth_upd by auto. destruct (Nat.eqb_spec ix i) as [->|D]; [exfalso; eapply N; eauto|reflexivity].
        * intros [k|k|k|k|k] Hk; lens. rewrite upd_length by auto. lia.
      + intros k E. injection E as <-. auto.
  Qed.

  Lemma tri_each {A B} (f : A -> act B) P (Q : B -> Prop) : stable P -> forall l,
    (forall x, In x l -> tri P (f x) (fun b _ => Q b)) -> tri P (each f l) (fun r _ => Forall Q r).
  Proof.
    intros St. induction l as [|x l IH]; intros H; cbn [each].
    - eapply tri_weaken; [apply tri_ret|exact (fun h Hp => Hp)|]. intros a h [-> _]. constructor.
    - apply (tri_next _ _ (fun b _ => Q b)); [exact St|apply H; now left|]. intros b.
      apply (tri_next _ _ (fun r _ => Forall Q r)); [apply stable_and; [exact St|apply stable_pure]| |].
      + eapply tri_weaken; [apply IH; intros; apply H; now right|intros h [Hp _]; exact Hp|auto].
      + intros r. intros h I [[Hp Hb] Hr]. cbn. split; [auto|]. split; [apply rel_refl|]. intros a E. injection E as <-. now constructor.
  Qed.

  Definition tri0 {A} (m : act A) (Q : A -> Prop) : Prop := tri (fun _ => True) m (fun a _ => Q a).
  Definition tri1 {A} (e k : nat) (m : act A) (Q : A -> Prop) : Prop := tri (fun h => cls h e = Some k) m (fun a _ => Q a).
  Lemma tri01 {A} e k (m : act A) Q : tri0 m Q -> tri1 e k m Q.
  Proof. intros H. eapply tri_weaken; [exact H|intros; exact I|exact (fun _ _ X => X)]. Qed.
  Lemma tri0_next {A B} (m : act A) Q (k : A -> act B) R : tri0 m Q -> (forall a, Q a -> tri0 (k a) R) -> tri0 (next m k) R.
  Proof.
    intros Hm Hk. eapply tri_next; [apply stable_pure|exact Hm|]. intros a h I [_ Qa]. exact (Hk a Qa h I Logic.I).
  Qed.
  Lemma tri1_next {A B} e n (m : act A) Q (k : A -> act B) R : tri1 e n m Q -> (forall a, Q a -> tri1 e n (k a) R) -> tri1 e n (next m k) R.
  Proof.
    intros Hm Hk. eapply tri_next; [apply stable_cls|exact Hm|]. intros a h I [C Qa]. exact (Hk a Qa h I C).
  Qed.
  Lemma tri0_rd {A B} (f : heap -> list A) i (k : A -> act B) R : (forall a, tri0 (k a) R) -> tri0 (next (rd f i) k) R.
  Proof. intros H. apply (tri0_next _ (fun _ => True)); [apply tri_rd|auto]. Qed.
  Lemma tri1_rd {A B} e n (f : heap -> list A) i (k : A -> act B) R : (forall a, tri1 e n (k a) R) -> tri1 e n (next (rd f i) k) R.
  Proof. intros H. apply (tri1_next _ _ _ (fun _ => True)); [apply tri_rd|auto]. Qed.
  Lemma tri0_el {B} e (k : eobj F -> act B) R :
    (forall o, (~ ours (RE e) -> clear o) -> tri1 e (class o) (k o) R) -> tri0 (next (rd_el e) k) R.
  Proof.
    intros H. eapply tri_next; [apply stable_pure|apply tri_rd_el|]. intros o h I [_ [C N]]. exact (H o N h I C).
  Qed.
  Lemma tri1_el {B} e n e' (k : eobj F -> act B) R :
    (forall o, (~ ours (RE e') -> clear o) -> (e' = e -> class o = n) -> tri1 e n (k o) R) -> tri1 e n (next (rd_el e') k) R.
  Proof.
    intros H. eapply tri_next; [apply stable_cls|apply tri_rd_el|]. intros o h I [C [C' N]].
    refine (H o N _ h I C). intros ->. congruence.
  Qed.
  Lemma tri0_ret {A} (a : A) (Q : A -> Prop) : Q a -> tri0 (ret a) Q.
  Proof. intros H. eapply tri_weaken; [apply tri_ret|exact (fun _ X => X)|]. intros b h [-> _]. exact H. Qed.
  Lemma tri0_pts o (Q : nat -> Prop) : (forall i, assigned o = Some i -> ~ ours (RP i)) -> (forall i, ~ ours (RP i) -> Q i) -> tri0 (on_pts o) Q.
  Proof. intros H HQ. eapply (tri_weaken (fun _ => True)); [apply tri_on_pts, H|auto|cbn; auto]. Qed.
  Lemma tri0_wk {A} (m : act A) (Q Q' : A -> Prop) : tri0 m Q -> (forall a, Q a -> Q' a) -> tri0 m Q'.
  Proof. intros H HQ. eapply tri_weaken; [exact H|auto|cbn; intros; now apply HQ]. Qed.
  Lemma tri0_each {A B} (f : A -> act B) (Q : B -> Prop) l : (forall x, In x l -> tri0 (f x) Q) -> tri0 (each f l) (Forall Q).
  Proof. intros H. apply tri_each; [apply stable_pure|exact H]. Qed.
  Lemma tri1_wr e o (Q : unit -> Prop) : ~ ours (RE e) -> clear o -> Q tt -> tri1 e (class o) (wr_el e o) Q.
  Proof. intros N C HQ. eapply tri_weaken; [apply (tri_wr_el e o (fun h => cls h e = Some (class o))); auto|auto|]. intros [] _ _. exact HQ. Qed.
  Lemma tri0_unit {A} (m : act A) Q : tri0 m Q -> tri0 (unit_of m) (fun _ => True).
  Proof. intros H. eapply tri0_next; [exact H|]. intros. now apply tri0_ret. Qed.

  Lemma t_copy_vec i : tri0 (copy_vec i) (fun _ => True).
  Proof. apply tri0_rd. intros v. apply tri_mk_vec. Qed.
  Lemma t_copy_xf i : tri0 (copy_xf i) (fun _ => True).
  Proof. apply tri0_rd. intros v. eapply tri0_wk; [apply tri_mk_xf|auto]. Qed.
  Lemma t_cp_fixed i : tri0 (cp_fixed i) (fun j => ~ ours (RC j)).
  Proof.
    apply tri0_rd. intros a. eapply tri0_next; [apply (tri0_pts _ (fun _ => True)); [discriminate|auto]|]. intros c _.
    eapply tri0_next; [apply t_copy_vec|]. intros l _. eapply tri0_next; [apply t_copy_vec|]. intros r _. apply tri_mk_cp.
  Qed.
  Lemma t_cp_restore i j : ~ ours (RC i) -> tri0 (cp_restore i j) (fun _ => True).
  Proof.
    intros N. apply tri0_rd. intros a. eapply tri0_next; [apply (tri0_pts _ (fun _ => True)); [discriminate|auto]|]. intros c _.
    eapply tri0_next; [apply t_copy_vec|]. intros l _. eapply tri0_next; [apply t_copy_vec|]. intros r _. apply tri0_rd. intros b. now apply tri_wr_cp.
  Qed.
  Lemma t_base_new n pb closed x : tri0 (base_new n pb closed x) (fun _ => True).
  Proof.
    unfold base_new. apply (tri0_next _ (fun _ => True)).
    - destruct x; [now apply tri0_ret|eapply tri0_wk; [apply tri_mk_xf|auto]].
    - intros x' _. apply (tri0_next _ (fun _ => True)); [apply tri_when|]. intros _ _. now apply tri0_ret.
  Qed.
  Lemma t_curve_new n pb cps closed x : Forall (fun i => ~ ours (RC i)) cps -> tri0 (curve_new n pb cps closed x) (fun e => ~ ours (RE e)).
  Proof. intros H. eapply tri0_next; [apply t_base_new|]. intros b _. apply tri_mk_el. exact H. Qed.
  Lemma t_box_new n pb k p q closed x : tri0 (box_new n pb k p q closed x) (fun e => ~ ours (RE e)).
  Proof.
    apply (tri0_next _ (fun _ => True)); [apply tri_when|]. intros _ _. eapply tri0_next; [apply t_base_new|]. intros b _.
    eapply tri0_next; [apply (tri0_pts _ (fun i => ~ ours (RP i))); [discriminate|auto]|]. intros i Hi.
    eapply tri0_next; [apply (tri0_pts _ (fun i => ~ ours (RP i))); [discriminate|auto]|]. intros j Hj. apply tri_mk_el. split; auto.
  Qed.
  Lemma t_group_new n pb hd x l p closed : tri0 (group_new n pb hd x l p closed) (fun e => ~ ours (RE e)).
  Proof. eapply tri0_next; [apply t_base_new|]. intros b _. apply tri_mk_el. exact I. Qed.
  Lemma clear_with_base o b : clear (with_base o b) = clear o.
  Proof. destruct o; reflexivity. Qed.
  Lemma class_with_base o b : class (with_base o b) = class o.
  Proof. destruct o; reflexivity. Qed.
  Lemma t_set_pen pb e : ~ ours (RE e) -> tri0 (set_pen pb e) (fun _ => True).
  Proof.
    intros N. apply tri0_el. intros o C. cbv zeta. erewrite <- class_with_base. apply tri1_wr; auto. rewrite clear_with_base. auto.
  Qed.
  Lemma t_holes_new n pb o i closed x : ~ ours (RE o) -> Forall (fun e => ~ ours (RE e)) i ->
    tri0 (holes_new n pb o i closed x) (fun e => ~ ours (RE e)).
  Proof.
    intros No Ni. eapply tri0_next; [apply t_base_new|]. intros b _. eapply tri0_next; [apply t_set_pen, No|]. intros _ _.
    eapply tri0_next; [apply (tri0_each _ (fun _ => True))|].
    - intros e He. apply t_set_pen. rewrite Forall_forall in Ni. auto.
    - intros _ _. apply tri_mk_el. exact I.
  Qed.
  Lemma t_e_copy limit : forall e, tri0 (e_copy limit e) (fun c => ~ ours (RE c)).
  Proof.
    induction limit as [|limit IH]; intros e; cbn [e_copy]; [apply tri_throw|]. apply tri0_el. intros o _. apply tri01. cbv zeta.
    destruct o as [b cps|b k p q|b hd l p|b o i].
    - eapply tri0_next; [apply tri0_each; intros i _; apply t_cp_fixed|]. intros cs H. now apply t_curve_new.
    - eapply tri0_next; [apply (tri0_pts _ (fun _ => True)); [discriminate|auto]|]. intros p' _.
      eapply tri0_next; [apply (tri0_pts _ (fun _ => True)); [discriminate|auto]|]. intros q' _. apply t_box_new.
    - eapply tri0_next; [apply t_copy_xf|]. intros x _. apply t_group_new.
    - eapply tri0_next; [apply IH|]. intros o' Ho. eapply tri0_next; [apply tri0_each; intros x _; apply IH|]. intros i' Hi.
      eapply tri0_next; [apply t_copy_xf|]. intros x _. now apply t_holes_new.
  Qed.
  Lemma t_base_restore e c : ~ ours (RE e) -> tri0 (base_restore e c) (fun _ => True).
  Proof.
    intros N. apply tri0_el. intros o C. apply tri1_el. intros o' _ _. cbv zeta. eapply tri1_next; [apply tri01, t_copy_xf|]. intros x _.
    erewrite <- class_with_base. apply tri1_wr; auto. rewrite clear_with_base. auto.
  Qed.
  Lemma t_restore_cps : forall a b, Forall (fun i => ~ ours (RC i)) a -> tri0 (restore_cps a b) (fun _ => True).
  Proof.
    induction a as [|i a IH]; intros [|j b] H; cbn [restore_cps]; try (now apply tri0_ret). inversion H; subst.
    eapply tri0_next; [now apply t_cp_restore|]. intros _ _. now apply IH.
  Qed.
  Lemma t_e_restore limit e c : ~ ours (RE e) -> tri0 (e_restore limit e c) (fun _ => True).
  Proof.
    intros N. apply tri0_el. intros o C. apply tri1_el. intros o' _ _. cbv zeta. specialize (C N).
    destruct o as [b cps|b k p q|b hd l p|b o i], o' as [b' cps'|b' k' p' q'|b' hd' l' pt'|b' o' i']; try apply tri_throw.
    - apply tri01. eapply tri0_next; [now apply t_base_restore|]. intros _ _. destruct (Nat.eqb _ _); [|apply tri_throw]. now apply t_restore_cps.
    - destruct C as [C1 C2]. eapply tri1_next; [apply tri01; now apply t_base_restore|]. intros _ _.
      eapply tri1_next; [apply tri01, (tri0_pts _ (fun _ => True)); [|auto]; intros i E; injection E as <-; exact C1|]. intros _ _.
      eapply tri1_next; [apply tri01, (tri0_pts _ (fun _ => True)); [|auto]; intros i E; injection E as <-; exact C2|]. intros _ _.
      destruct k as [| |r]; [now apply tri01, tri0_ret|now apply tri01, tri0_ret|]. destruct k' as [| |r']; [apply tri_throw|apply tri_throw|].
      apply tri1_el. intros s' _ _. apply (tri1_wr e (OBox (eo_base s') (KRounded r') p q)); auto. split; auto.
    - apply (tri1_wr e (OGroup _ hd' l' pt')); try exact I; auto.
    - eapply tri1_next; [apply tri01, t_e_copy|]. intros o2 _.
      eapply tri1_next; [apply tri01, (tri0_each _ (fun _ => True)); intros x _; eapply tri0_wk; [apply t_e_copy|auto]|]. intros i2 _.
      apply (tri1_wr e (OHoles _ o2 i2)); try exact I; auto.
  Qed.
  Lemma t_e_transform limit e m : tri0 (e_transform limit e m) (fun c => ~ ours (RE c)).
  Proof.
    apply tri0_el. intros o _. apply tri01. cbv zeta. destruct o as [b cps|b k p q|b hd l p|b o i]; try apply tri_throw.
    - apply tri0_rd. intros t. apply tri0_rd. intros s. eapply tri0_next; [eapply tri0_wk; [apply tri_mk_xf|exact (fun _ _ => I)]|]. intros x _. apply t_group_new.
    - apply tri0_rd. intros t. apply tri0_rd. intros s. eapply tri0_next; [apply t_e_copy|]. intros o' Ho.
      eapply tri0_next; [apply tri0_each; intros x _; apply t_e_copy|]. intros i' Hi.
      eapply tri0_next; [eapply tri0_wk; [apply tri_mk_xf|exact (fun _ _ => I)]|]. intros x _. now apply t_holes_new.
  Qed.

  Lemma t_hstep o : Forall (fun r => ~ ours r) (touches o) -> tri0 (hstep o) (fun _ => True).
  Proof.
    intros T. destruct o as [o|v|i v|c l r k|i c l r k|t|i t|n pb cps closed x|n pb k p1 p2 closed x|n pb hd x l p closed|n pb o i closed x
      |e n pb closed x|e cps|e p q|e x1 y1 x2 y2|e r|e hd l p|g n e|e o i|lim e|lim e other|lim e m]; cbn [hstep touches] in *.
    - eapply tri0_unit, (tri0_pts _ (fun _ => True)); [|auto]. intros i E. destruct o; try discriminate E; injection E as ->; inversion T; auto.
    - eapply tri0_unit, tri_mk_vec.
    - inversion T; subst. now apply tri_wr_vec.
    - eapply tri0_unit, tri_mk_cp.
    - inversion T; subst. now apply tri_wr_cp.
    - eapply tri0_unit, tri_mk_xf.
    - inversion T; subst. now apply tri_wr_xf.
    - eapply tri0_next; [apply (tri0_each _ (fun _ => True)); intros c _; apply tri_rd|]. intros _ _. eapply tri0_unit, t_curve_new. exact (proj1 (Forall_map _ _ _) T).
    - eapply tri0_unit, t_box_new.
    - eapply tri0_unit, t_group_new.
    - inversion T; subst. eapply tri0_unit, t_holes_new; [auto|]. match goal with H : Forall _ (map _ _) |- _ => exact (proj1 (Forall_map _ _ _) H) end.
    - inversion T; subst. apply tri0_el. intros o C. erewrite <- class_with_base. apply tri1_wr; auto. rewrite clear_with_base. auto.
    - inversion T; subst. apply tri0_el. intros o C. eapply tri1_next; [apply tri01, (tri0_each _ (fun _ => True)); intros c _; apply tri_rd|]. intros _ _.
      destruct o; try apply tri_throw. apply (tri1_wr e (OCurve _ cps)); auto. cbn. match goal with H : Forall _ (map _ _) |- _ => exact (proj1 (Forall_map _ _ _) H) end.
    - inversion T as [|? ? T1 T2]; subst. inversion T2 as [|? ? T3 T4]; subst. inversion T4; subst. apply tri0_el. intros o C. apply tri1_rd. intros _. apply tri1_rd. intros _. destruct o as [|b k p1 p2| |]; try apply tri_throw.
      replace (class (OBox b k p1 p2)) with (class (OBox b k p q)) by (destruct k; reflexivity). apply (tri1_wr e (OBox b k p q)); [assumption|split; assumption|exact I].
    - inversion T; subst. apply tri0_el. intros [|b k p q| |] C; try apply tri_throw. destruct C as [C1 C2]; [assumption|]. apply tri01.
      eapply tri0_next; [apply (tri0_pts _ (fun _ => True)); [|auto]; intros i E; injection E as <-; exact C1|]. intros _ _.
      eapply tri0_unit, (tri0_pts _ (fun _ => True)); [|auto]; intros i E; injection E as <-; exact C2.
    - inversion T; subst. apply tri0_el. intros [|b [| |r'] p q| |] C; try apply tri_throw. apply (tri1_wr e (OBox b (KRounded r) p q)); [assumption|apply C; assumption|exact I].
    - inversion T; subst. apply tri0_el. intros [] C; try apply tri_throw. apply (tri1_wr e (OGroup _ hd l p)); try exact I; auto.
    - inversion T as [|? ? T1 T2]; subst. inversion T2; subst. apply tri0_el. intros [| |b hd l p|] C; try apply tri_throw.
      apply tri1_el. intros m _ _. eapply tri1_next; [apply (tri1_wr g (OGroup b hd (put_key n e l) p) (fun _ => True)); try exact I; auto|]. intros _ _.
      apply tri01. apply tri0_el. intros m' C'. cbv zeta. erewrite <- class_with_base. apply tri1_wr; auto. rewrite clear_with_base. auto.
    - inversion T; subst. apply tri0_el. intros [] C; try apply tri_throw. apply (tri1_wr e (OHoles _ o i)); try exact I; auto.
    - eapply tri0_unit, t_e_copy.
    - inversion T; subst. now apply t_e_restore.
    - eapply tri0_unit, t_e_transform.
  Qed.
  Lemma t_hrun ops : spares ours ops -> forall h, inv h -> inv (hrun ops h) /\ rel h (hrun ops h).
  Proof.
    unfold hrun. induction 1 as [|o ops T _ IH]; intros h Ih; cbn [fold_left]; [split; [auto|apply rel_refl]|].
    destruct (t_hstep o T h Ih I) as (I1 & R1 & _). destruct (IH _ I1) as [I2 R2]. split; [auto|]. eapply rel_trans; eauto.
  Qed.
End Frame.

(* ---------------- references lead somewhere ---------------- *)
Section Valid.
  Context {F : Type} {NF : Num F}.
  Notation heap := (heap F).
  Implicit Types (h : heap) (P : heap -> Prop).

  Definition vobj h (o : eobj F) : Prop :=
    match o with
    | OCurve _ cps => Forall (fun i => there h (RC i)) cps
    | OBox _ _ p q => there h (RP p) /\ there h (RP q)
    | _ => True
    end.
  Definition valid h : Prop := forall e o, nth_error (h_els h) e = Some o -> vobj h o.
  Definition mono P : Prop := forall h h', grows h h' -> P h -> P h'.
  Definition vt {A} P (m : act A) (Q : A -> heap -> Prop) : Prop := forall h, valid h -> P h ->
    valid (fst (m h)) /\ grows h (fst (m h)) /\ (forall a, snd (m h) = Ok a -> Q a (fst (m h))).
  Definition v0 {A} (m : act A) : Prop := vt (fun _ => True) m (fun _ _ => True).
  Lemma grows_refl h : grows h h. Proof. intros r; auto. Qed.
  Lemma vobj_mono o : mono (fun h => vobj h o).
  Proof.
    intros h h' G. destruct o; cbn [vobj]; auto.
    - intros H. eapply Forall_impl; [|exact H]. intros i Hi. exact (G _ Hi).
    - intros [A B]. split; [exact (G _ A)|exact (G _ B)].
  Qed.
  Lemma mono_true : mono (fun _ => True). Proof. intros h h' _ H. exact H. Qed.
  Lemma mono_and P Q : mono P -> mono Q -> mono (fun h => P h /\ Q h).
  Proof. intros A B h h' G [X Y]. split; eauto. Qed.
  Lemma mono_there r : mono (fun h => there h r). Proof. intros h h' G H. exact (G r H). Qed.
  Lemma vt_next {A B} P (m : act A) Q (k : A -> act B) R : mono P -> vt P m Q -> (forall a, vt (fun h => P h /\ Q a h) (k a) R) -> vt P (next m k) R.
  Proof.
    intros Mo Hm Hk h V Hp. unfold next. destruct (Hm h V Hp) as (V1 & G1 & Q1). destruct (m h) as [h1 [a|x]]; cbn [fst snd] in *.
    - destruct (Hk a h1 V1 (conj (Mo _ _ G1 Hp) (Q1 a eq_refl))) as (V2 & G2 & Q2). split; [auto|]. split; [intros r Hr; auto|auto].
    - split; [auto|]. split; [auto|discriminate].
  Qed.
  Lemma vt_wk {A} P P' (m : act A) (Q Q' : A -> heap -> Prop) : vt P m Q -> (forall h, P' h -> P h) -> (forall a h, Q a h -> Q' a h) -> vt P' m Q'.
  Proof. intros H A1 A2 h V Hp. destruct (H h V (A1 _ Hp)) as (V1 & G1 & Q1). split; [auto|]. split; auto. Qed.
  Lemma vt_v0 {A} P (m : act A) : v0 m -> vt P m (fun _ _ => True).
  Proof. intros H. eapply vt_wk; [exact H|intros; exact I|auto]. Qed.
  Lemma v0_of {A} (m : act A) Q : vt (fun _ => True) m Q -> v0 m.
  Proof. intros H. eapply vt_wk; [exact H|auto|intros; exact I]. Qed.
  Lemma v0_next {A B} (m : act A) (k : A -> act B) : v0 m -> (forall a, v0 (k a)) -> v0 (next m k).
  Proof. intros Hm Hk. eapply vt_next; [apply mono_true|exact Hm|]. intros a. apply vt_v0, Hk. Qed.
  Lemma vt_stay {A} P (m : act A) (Q : A -> heap -> Prop) : (forall h, fst (m h) = h) -> (forall h a, valid h -> P h -> snd (m h) = Ok a -> Q a h) -> vt P m Q.
  Proof. intros E HQ h V Hp. rewrite E. split; [auto|]. split; [apply grows_refl|eauto]. Qed.
  Lemma v_ret {A} (a : A) : v0 (ret a). Proof. apply vt_stay; auto. Qed.
  Lemma v_throw {A} e P Q : vt P (@throw F A e) Q. Proof. apply vt_stay; [auto|discriminate]. Qed.
  Lemma v_when b e : v0 (when b e : @act F unit). Proof. apply vt_stay; [|auto]. unfold when. destruct b; auto. Qed.
  Lemma v_rd {A} (f : heap -> list A) i : v0 (rd f i). Proof. apply vt_stay; auto. Qed.
  Lemma v_rd_el P e : vt P (rd_el e) (fun o h => vobj h o).
  Proof.
    apply vt_stay; [auto|]. intros h o V _. cbn. destruct (nth_error (h_els h) e) as [o'|] eqn:E; [|discriminate]. intros H. injection H as <-. exact (V e o' E).
  Qed.
  Lemma v_rd_cp P i : vt P (rd_cp i) (fun _ h => there h (RC i)).
  Proof. apply vt_stay; [auto|]. intros h o V _. cbn. destruct (nth_error (h_cps h) i) eqn:E; [|discriminate]. intros _. eapply some_lt; eauto. Qed.
  Lemma v_rd_pt P i : vt P (rd_pt i) (fun _ h => there h (RP i)).
  Proof. apply vt_stay; [auto|]. intros h o V _. cbn. destruct (nth_error (h_pts h) i) eqn:E; [|discriminate]. intros _. eapply some_lt; eauto. Qed.

  Ltac glens := intros [ix|ix|ix|ix|ix] Hi; cbn [there h_pts h_vecs h_cps h_xfs h_els] in *; rewrite ?app_length, ?set_nth_length; cbn [List.length]; try lia.
  Lemma valid_els h h' : valid h -> grows h h' -> h_els h' = h_els h -> valid h'.
  Proof. intros V G E e o H. rewrite E in H. eapply vobj_mono; [exact G|eauto]. Qed.
  Lemma v_mk_vec v : v0 (mk_vec v).
  Proof. intros h V _. cbn. assert (grows h (Heap (h_pts h) (h_vecs h ++ [v]) (h_cps h) (h_xfs h) (h_els h))) as G by glens. split; [eapply valid_els; eauto|]. auto. Qed.
  Lemma v_mk_xf v : v0 (mk_xf v).
  Proof. intros h V _. cbn. assert (grows h (Heap (h_pts h) (h_vecs h) (h_cps h) (h_xfs h ++ [v]) (h_els h))) as G by glens. split; [eapply valid_els; eauto|]. auto. Qed.
  Lemma v_mk_cp P c : vt P (mk_cp c) (fun i h => there h (RC i)).
  Proof.
    intros h V _. cbn [mk_cp fst snd]. assert (grows h (Heap (h_pts h) (h_vecs h) (h_cps h ++ [c]) (h_xfs h) (h_els h))) as G by glens.
    split; [eapply valid_els; eauto|]. split; [exact G|]. intros a E. injection E as <-. cbn. rewrite app_length. cbn. lia.
  Qed.
  Lemma v_wr_vec i v : v0 (wr_vec i v).
  Proof. intros h V _. cbn. assert (grows h (Heap (h_pts h) (set_nth i v (h_vecs h)) (h_cps h) (h_xfs h) (h_els h))) as G by glens. split; [eapply valid_els; eauto|]. auto. Qed.
  Lemma v_wr_cp i v : v0 (wr_cp i v).
  Proof. intros h V _. cbn. assert (grows h (Heap (h_pts h) (h_vecs h) (set_nth i v (h_cps h)) (h_xfs h) (h_els h))) as G by glens. split; [eapply valid_els; eauto|]. auto. Qed.
  Lemma v_wr_xf i v : v0 (wr_xf i v).
  Proof. intros h V _. cbn. assert (grows h (Heap (h_pts h) (h_vecs h) (h_cps h) (set_nth i v (h_xfs h)) (h_els h))) as G by glens. split; [eapply valid_els; eauto|]. auto. Qed.
  Lemma v_mk_el P o : (forall h, P h -> vobj h o) -> vt P (mk_el o) (fun _ _ => True).
  Proof.
    intros HP h V Hp. cbn [mk_el fst snd]. assert (grows h (Heap (h_pts h) (h_vecs h) (h_cps h) (h_xfs h) (h_els h ++ [o]))) as G by glens.
    split; [|split; [exact G|auto]]. intros e x E. cbn [h_els] in E. destruct (lt_dec e (List.length (h_els h))) as [L|L].
    - rewrite nth_app_old in E by auto. eapply vobj_mono; [exact G|]. eauto.
    - assert (e = List.length (h_els h)) as -> by (pose proof (some_lt _ _ _ E) as L'; rewrite app_length in L'; cbn in L'; lia).
      rewrite nth_app_new in E. injection E as <-. eapply vobj_mono; [exact G|]. auto.
  Qed.
  Lemma v_wr_el P e o : (forall h, P h -> vobj h o) -> vt P (wr_el e o) (fun _ _ => True).
  Proof.
    intros HP h V Hp. cbn [wr_el fst snd]. assert (grows h (Heap (h_pts h) (h_vecs h) (h_cps h) (h_xfs h) (set_nth e o (h_els h)))) as G by glens.
    split; [|split; [exact G|auto]]. intros e' x E. cbn [h_els] in E. destruct (Nat.eq_dec e e') as [<-|D].
    - rewrite set_nth_same in E by (pose proof (some_lt _ _ _ E) as L; rewrite set_nth_length in L; exact L). injection E as <-. eapply vobj_mono; [exact G|]. auto.
    - rewrite set_nth_other in E by auto. eapply vobj_mono; [exact G|]. eauto.
  Qed.
  Lemma v_on_pts P o : assigned o = None -> vt P (on_pts o) (fun i h => there h (RP i)).
  Proof.
    intros N h V Hp. unfold on_pts. pose proof (pstep_shape (h_pts h) o) as C. destruct (pstep (h_pts h) o) as [st r]. cbn [fst snd] in *.
    destruct C as [(d & -> & ->)|[(-> & C)|(i & d & A & _)]].
    - assert (grows h (Heap (h_pts h ++ [d]) (h_vecs h) (h_cps h) (h_xfs h) (h_els h))) as G by glens. split; [eapply valid_els; eauto|]. split; [exact G|].
      intros k E. injection E as <-. cbn. rewrite app_length. cbn. lia.
    - split; [eapply valid_els; [exact V|intros r'; destruct h; auto|reflexivity]|]. split; [intros r'; destruct h; auto|]. intros k E. apply C in E. congruence.
    - congruence.
  Qed.
  Lemma v_pts o : v0 (on_pts o).
  Proof.
    intros h V Hp. unfold on_pts. pose proof (pstep_shape (h_pts h) o) as C. destruct (pstep (h_pts h) o) as [st r]. cbn [fst snd] in *.
    destruct C as [(d & -> & ->)|[(-> & C)|(i & d & A & L & -> & _)]].
    - assert (grows h (Heap (h_pts h ++ [d]) (h_vecs h) (h_cps h) (h_xfs h) (h_els h))) as G by glens. split; [eapply valid_els; eauto|]. auto.
    - split; [eapply valid_els; [exact V|intros r'; destruct h; auto|reflexivity]|]. split; [intros r'; destruct h; auto|auto].
    - assert (grows h (Heap (upd (h_pts h) i d) (h_vecs h) (h_cps h) (h_xfs h) (h_els h))) as G by (glens; rewrite upd_length by auto; lia). split; [eapply valid_els; eauto|]. auto.
  Qed.
  Lemma v_each {A B} (f : A -> act B) P (Q : B -> heap -> Prop) l : mono P -> (forall b, mono (Q b)) -> (forall x, In x l -> vt P (f x) Q) ->
    vt P (each f l) (fun r h => Forall (fun b => Q b h) r).
  Proof.
    intros Mp Mq. induction l as [|x l IH]; intros H; cbn [each].
    - apply vt_stay; [auto|]. intros h a _ _ E. injection E as <-. constructor.
    - eapply vt_next; [exact Mp|apply H; now left|]. intros b. eapply vt_next; [apply mono_and; [exact Mp|apply Mq]| |].
      + eapply vt_wk; [apply IH; intros; apply H; now right|intros h [Hp _]; exact Hp|exact (fun _ _ X => X)].
      + intros r. apply vt_stay; [auto|]. intros h a _ [[_ Hb] Hr] E. injection E as <-. now constructor.
  Qed.
  Lemma v0_each {A B} (f : A -> act B) l : (forall x, v0 (f x)) -> v0 (each f l).
  Proof. intros H. eapply v0_of, v_each; [apply mono_true|intros; apply mono_true|intros; apply H]. Qed.

  Lemma v_copy_vec i : v0 (copy_vec i). Proof. apply v0_next; [apply v_rd|intros; apply v_mk_vec]. Qed.
  Lemma v_copy_xf i : v0 (copy_xf i). Proof. apply v0_next; [apply v_rd|intros; apply v_mk_xf]. Qed.
  Lemma v_cp_fixed i : vt (fun _ => True) (cp_fixed i) (fun j h => there h (RC j)).
  Proof.
    eapply vt_next; [apply mono_true|apply v_rd|]. intros a. eapply vt_next; [apply mono_and; apply mono_true|apply vt_v0, v_pts|]. intros c.
    eapply vt_next; [repeat apply mono_and; apply mono_true|apply vt_v0, v_copy_vec|]. intros l. eapply vt_next; [repeat apply mono_and; apply mono_true|apply vt_v0, v_copy_vec|]. intros r.
    apply v_mk_cp.
  Qed.
  Lemma v_cp_restore i j : v0 (cp_restore i j).
  Proof.
    apply v0_next; [apply v_rd|]. intros. apply v0_next; [apply v_pts|]. intros. apply v0_next; [apply v_copy_vec|]. intros. apply v0_next; [apply v_copy_vec|]. intros.
    apply v0_next; [apply v_rd|]. intros. apply v_wr_cp.
  Qed.
  Lemma v_base_new n pb closed x : v0 (base_new n pb closed x).
  Proof.
    apply v0_next; [destruct x; [apply v_ret|apply v_mk_xf]|]. intros. apply v0_next; [apply v_when|]. intros. apply v_ret.
  Qed.
  Lemma v_curve_new P n pb cps closed x : mono P -> (forall h, P h -> Forall (fun i => there h (RC i)) cps) -> vt P (curve_new n pb cps closed x) (fun _ _ => True).
  Proof. intros Mp H. eapply vt_next; [exact Mp|apply vt_v0, v_base_new|]. intros b. apply v_mk_el. intros h [Hp _]. exact (H h Hp). Qed.
  Lemma v_box_new n pb k p q closed x : v0 (box_new n pb k p q closed x).
  Proof.
    apply v0_next; [apply v_when|]. intros ?. apply v0_next; [apply v_base_new|]. intros b.
    eapply vt_next; [apply mono_true|apply v_on_pts; reflexivity|]. intros i. eapply vt_next; [apply mono_and; [apply mono_true|apply mono_there]|apply v_on_pts; reflexivity|]. intros j.
    apply v_mk_el. intros h [[_ A] B]. split; auto.
  Qed.
  Lemma v_group_new n pb hd x l p closed : v0 (group_new n pb hd x l p closed).
  Proof. apply v0_next; [apply v_base_new|]. intros. apply v_mk_el. intros; exact I. Qed.
  Lemma vobj_with_base h o b : vobj h (with_base o b) = vobj h o.
  Proof. destruct o; reflexivity. Qed.
  Lemma v_set_pen pb e : v0 (set_pen pb e).
  Proof. eapply vt_next; [apply mono_true|apply v_rd_el|]. intros o. apply v_wr_el. intros h [_ V]. now rewrite vobj_with_base. Qed.
  Lemma v_holes_new n pb o i closed x : v0 (holes_new n pb o i closed x).
  Proof.
    apply v0_next; [apply v_base_new|]. intros. apply v0_next; [apply v_set_pen|]. intros. apply v0_next; [apply v0_each; intros; apply v_set_pen|]. intros.
    apply v_mk_el. intros; exact I.
  Qed.
  Lemma v_e_copy limit : forall e, v0 (e_copy limit e).
  Proof.
    induction limit as [|limit IH]; intros e; cbn [e_copy]; [apply v_throw|]. apply v0_next; [apply v_rd|]. intros [b cps|b k p q|b hd l p|b o i]; cbv zeta.
    - eapply vt_next; [apply mono_true|apply v_each; [apply mono_true|intros; apply mono_there|intros; apply v_cp_fixed]|]. intros cs.
      apply v_curve_new; [|intros h [_ H]; exact H]. apply mono_and; [apply mono_true|]. intros h h' G H. eapply Forall_impl; [|exact H]. intros a. apply (G (RC a)).
    - apply v0_next; [apply v_pts|]. intros. apply v0_next; [apply v_pts|]. intros. apply v_box_new.
    - apply v0_next; [apply v_copy_xf|]. intros. apply v_group_new.
    - apply v0_next; [apply IH|]. intros. apply v0_next; [apply v0_each; intros; apply IH|]. intros. apply v0_next; [apply v_copy_xf|]. intros. apply v_holes_new.
  Qed.
  Lemma v_base_restore e c : v0 (base_restore e c).
  Proof.
    eapply vt_next; [apply mono_true|apply v_rd_el|]. intros o. eapply vt_next; [apply mono_and; [apply mono_true|apply vobj_mono]|apply vt_v0, v_rd|]. intros o'. cbv zeta.
    eapply vt_next; [apply mono_and; [apply mono_and; [apply mono_true|apply vobj_mono]|apply mono_true]|apply vt_v0, v_copy_xf|]. intros x.
    apply v_wr_el. intros h [[[_ V] _] _]. now rewrite vobj_with_base.
  Qed.
  Lemma v_restore_cps : forall a b, v0 (restore_cps a b : @act F unit).
  Proof. induction a as [|i a IH]; intros [|j b]; cbn [restore_cps]; try apply v_ret. apply v0_next; [apply v_cp_restore|]. intros. apply IH. Qed.
  Lemma v_e_restore limit e c : v0 (e_restore limit e c).
  Proof.
    eapply vt_next; [apply mono_true|apply v_rd_el|]. intros o. eapply vt_next; [apply mono_and; [apply mono_true|apply vobj_mono]|apply vt_v0, v_rd|]. intros o'. cbv zeta.
    destruct o as [b cps|b k p q|b hd l p|b o i], o' as [b' cps'|b' k' p' q'|b' hd' l' pt'|b' o' i']; try apply v_throw.
    - apply vt_v0. apply v0_next; [apply v_base_restore|]. intros. destruct (Nat.eqb _ _); [apply v_restore_cps|apply v_throw].
    - set (X := fun h => (True /\ vobj h (OBox b k p q)) /\ True). assert (mono X) as MX by (apply mono_and; [apply mono_and; [apply mono_true|apply vobj_mono]|apply mono_true]).
      eapply vt_next; [exact MX|apply vt_v0, v_base_restore|]. intros ?.
      eapply vt_next; [apply mono_and; [exact MX|apply mono_true]|apply vt_v0, v_pts|]. intros ?.
      eapply vt_next; [apply mono_and; [apply mono_and; [exact MX|apply mono_true]|apply mono_true]|apply vt_v0, v_pts|]. intros ?.
      destruct k as [| |r]; [apply vt_v0, v_ret|apply vt_v0, v_ret|]. destruct k' as [| |r']; [apply v_throw|apply v_throw|].
      eapply vt_next; [apply mono_and; [apply mono_and; [apply mono_and; [exact MX|apply mono_true]|apply mono_true]|apply mono_true]|apply vt_v0, v_rd|]. intros s'. apply v_wr_el.
      intros h [[[[[[_ V] _] _] _] _] _]. exact V.
    - apply v_wr_el. intros; exact I.
    - apply vt_v0. apply v0_next; [apply v_e_copy|]. intros. apply v0_next; [apply v0_each; intros; apply v_e_copy|]. intros. apply v_wr_el. intros; exact I.
  Qed.
  Lemma v_e_transform limit e m : v0 (e_transform limit e m).
  Proof.
    apply v0_next; [apply v_rd|]. intros [b cps|b k p q|b hd l p|b o i]; cbv zeta; try apply v_throw; (apply v0_next; [apply v_rd|]); intros t; (apply v0_next; [apply v_rd|]); intros s.
    - apply v0_next; [apply v_mk_xf|]. intros. apply v_group_new.
    - apply v0_next; [apply v_e_copy|]. intros. apply v0_next; [apply v0_each; intros; apply v_e_copy|]. intros. apply v0_next; [apply v_mk_xf|]. intros. apply v_holes_new.
  Qed.
  Lemma v_unit {A} (m : act A) : v0 m -> v0 (unit_of m).
  Proof. intros H. apply v0_next; [exact H|]. intros. apply v_ret. Qed.
  Lemma mono_cps cps : mono (fun h => Forall (fun i => there h (RC i)) cps).
  Proof. intros h h' G H. eapply Forall_impl; [|exact H]. intros a. apply (G (RC a)). Qed.
  Lemma v_rd_cps P cps : mono P -> vt P (each rd_cp cps) (fun _ h => Forall (fun i => there h (RC i)) cps).
  Proof.
    intros Mp. induction cps as [|i cps IH]; cbn [each].
    - apply vt_stay; [auto|]. intros. constructor.
    - eapply vt_next; [exact Mp|apply v_rd_cp|]. intros c. eapply vt_next; [apply mono_and; [exact Mp|apply mono_there]| |].
      + eapply vt_wk; [exact IH|intros h [Hp _]; exact Hp|exact (fun _ _ X => X)].
      + intros r. apply vt_stay; [auto|]. intros h a _ [[_ A] B] _. now constructor.
  Qed.
  Lemma v_hstep o : v0 (hstep o).
  Proof.
    destruct o as [o|v|i v|c l r k|i c l r k|t|i t|n pb cps closed x|n pb k p1 p2 closed x|n pb hd x l p closed|n pb o i closed x
      |e n pb closed x|e cps|e p q|e x1 y1 x2 y2|e r|e hd l p|g n e|e o i|lim e|lim e other|lim e m]; cbn [hstep].
    - apply v_unit, v_pts.
    - apply v_unit, v_mk_vec.
    - apply v_wr_vec.
    - apply v_unit. eapply v0_of, v_mk_cp.
    - apply v_wr_cp.
    - apply v_unit, v_mk_xf.
    - apply v_wr_xf.
    - eapply vt_next; [apply mono_true|apply v_rd_cps, mono_true|]. intros r. unfold unit_of.
      eapply vt_next; [apply mono_and; [apply mono_true|apply mono_cps]|apply v_curve_new; [apply mono_and; [apply mono_true|apply mono_cps]|intros h [_ H]; exact H]|]. intros ?. apply vt_v0, v_ret.
    - apply v_unit, v_box_new.
    - apply v_unit, v_group_new.
    - apply v_unit, v_holes_new.
    - eapply vt_next; [apply mono_true|apply v_rd_el|]. intros o. apply v_wr_el. intros h [_ V]. now rewrite vobj_with_base.
    - apply v0_next; [apply v_rd|]. intros o. eapply vt_next; [apply mono_true|apply v_rd_cps, mono_true|]. intros r.
      destruct o; try apply v_throw. apply v_wr_el. intros h [_ H]. exact H.
    - apply v0_next; [apply v_rd|]. intros o. eapply vt_next; [apply mono_true|apply v_rd_pt|]. intros ?.
      eapply vt_next; [apply mono_and; [apply mono_true|apply mono_there]|apply v_rd_pt|]. intros ?. destruct o; try apply v_throw. apply v_wr_el. intros h [[_ A] B]. split; auto.
    - apply v0_next; [apply v_rd|]. intros []; try apply v_throw. apply v0_next; [apply v_pts|]. intros. apply v_unit, v_pts.
    - eapply vt_next; [apply mono_true|apply v_rd_el|]. intros [|b [| |r'] p q| |]; try apply v_throw. apply v_wr_el. intros h [_ V]. exact V.
    - apply v0_next; [apply v_rd|]. intros []; try apply v_throw. apply v_wr_el. intros; exact I.
    - apply v0_next; [apply v_rd|]. intros []; try apply v_throw. apply v0_next; [apply v_rd|]. intros. apply v0_next; [apply v_wr_el; intros; exact I|]. intros.
      eapply vt_next; [apply mono_true|apply v_rd_el|]. intros o. apply v_wr_el. intros h [_ V]. now rewrite vobj_with_base.
    - apply v0_next; [apply v_rd|]. intros []; try apply v_throw. apply v_wr_el. intros; exact I.
    - apply v_unit, v_e_copy.
    - apply v_e_restore.
    - apply v_unit, v_e_transform.
  Qed.
  Lemma hreach_valid h : hreach h -> valid h.
  Proof.
    intros [ops ->]. unfold hrun. assert (valid (empty : heap)) as V by (intros [] o E; discriminate E). revert V. generalize (empty : heap).
    induction ops as [|o ops IH]; intros h V; cbn [fold_left]; [exact V|]. apply IH. apply (v_hstep o h V I).
  Qed.
End Valid.

Section Reach.
  Context {F : Type} {NF : Num F}.
  Notation heap := (heap F).
  Lemma inv_none (h : heap) : wf (h_pts h) -> inv (fun _ => False) h.
  Proof.
    intros W. split; [|split; [intros r []|exact W]]. intros e o _ _. destruct o; cbn; auto. apply Forall_forall. auto.
  Qed.
  Lemma spares_none (ops : list (hop F)) : spares (fun _ => False) ops.
  Proof. apply Forall_forall. intros o _. apply Forall_forall. auto. Qed.
  Lemma hreach_wf (h : heap) : hreach h -> wf (h_pts h).
  Proof. intros [ops ->]. apply (t_hrun _ ops (spares_none ops) empty). apply inv_none, wf_nil. Qed.
  Lemma class_kept (ops : list (hop F)) (h : heap) e k : wf (h_pts h) -> cls h e = Some k -> cls (hrun ops h) e = Some k.
  Proof. intros W. apply (t_hrun _ ops (spares_none ops) h). now apply inv_none. Qed.
End Reach.
