(* Proofs about BBox that use only the order. *)
Require Import Verif.Base Verif.L_ord Verif.M_vector Verif.M_bbox Verif.S_bbox.
From Coq Require Import List Permutation ZifyBool.
Set Implicit Arguments.

(* split conjunctions and existentials in the context *)
Ltac split_hyps :=
  repeat match goal with
         | H : _ /\ _ |- _ => destruct H
         | H : exists _, _ |- _ => destruct H
         end.
#[global] Hint Rewrite andb_true_iff orb_true_iff andb_false_iff orb_false_iff negb_true_iff
  negb_false_iff Z.leb_le Z.leb_gt Z.ltb_lt Z.ltb_ge Z.eqb_eq Z.eqb_neq : zbool.
(* decide an order goal on the listed numbers *)
Ltac ord l := unfold okp, le, lt, same, ngtb, ngeb in *; simpl in *; split_hyps; embed_list l;
              autorewrite with zbool in *; split_hyps; repeat split; intros; split_hyps; lia.
Ltac oke := unfold okp in *; split_hyps; repeat match goal with
        | |- ok (pymin _ _) => apply ok_pymin
        | |- ok (pymax _ _) => apply ok_pymax end; try assumption.

Section L.
  Context {F : Type} {NF : Num F} {OF : NumOrd F}.
  Implicit Types a b c : bbox F.

  Lemma good_mk x1 y1 x2 y2 : ok x1 -> ok y1 -> ok x2 -> ok y2 -> good (mkbbox x1 y1 x2 y2).
  Proof.
    intros. unfold good, mkbbox. split; [oke; repeat split; oke|]. ord [x1; x2; y1; y2].
  Qed.

  Lemma good_copy a : good a -> good (bbox_copy a).
  Proof. destruct a; simpl; auto. intros; split_hyps. apply good_mk; auto. Qed.

  Lemma good_add a b : good a -> good b -> good (bbox_add a b).
  Proof.
    destruct a, b; simpl; intros; split_hyps; auto; apply good_mk; oke.
  Qed.

  Lemma good_inter a b : good a -> good b -> good (bbox_intersection a b).
  Proof.
    destruct a, b; simpl; intros; split_hyps; auto.
    destruct (_ || _); simpl; auto. apply good_mk; oke.
  Qed.

  Lemma good_grow a p : good a -> okp p -> good (bbox_grow a p).
  Proof.
    destruct a as [|xl yl xh yh], p as [x y]; unfold okp; simpl; intros; split_hyps;
      (split; [repeat split; oke|]).
    - ord [x; y].
    - ord [xl; yl; xh; yh; x; y].
  Qed.

  Lemma made_good b : made b -> good b.
  Proof.
    induction 1; simpl; auto.
    - simpl in H3. inversion H3; subst. apply good_mk; auto.
    - simpl in H3. inversion H3; subst. apply good_mk; auto.
    - unfold okp in *; split_hyps. simpl in H1. inversion H1; subst. apply good_mk; auto.
    - apply good_copy; auto.
    - destruct b; simpl in *; try discriminate. inversion H0; subst. split_hyps. apply good_mk; auto.
    - apply good_add; auto.
    - apply good_inter; auto.
    - apply good_grow; auto.
  Qed.

  (* ---------------- == ---------------- *)
  Lemma same_refl a : good a -> same a a.
  Proof. destruct a as [|xl yl xh yh]; simpl; intros; [reflexivity|]. ord [xl; yl; xh; yh]. Qed.
  Lemma same_sym a b : good a -> good b -> same a b -> same b a.
  Proof.
    destruct a as [|xl yl xh yh], b as [|xl' yl' xh' yh']; simpl; intros; auto.
    ord [xl; yl; xh; yh; xl'; yl'; xh'; yh'].
  Qed.
  Lemma same_trans a b c : good a -> good b -> good c -> same a b -> same b c -> same a c.
  Proof.
    destruct a as [|xl yl xh yh], b as [|xl' yl' xh' yh'], c as [|xl2 yl2 xh2 yh2];
      simpl; intros; auto; try discriminate.
    ord [xl; yl; xh; yh; xl'; yl'; xh'; yh'; xl2; yl2; xh2; yh2].
  Qed.
  Lemma same_in a b x y : good a -> good b -> ok x -> ok y -> same a b -> (in_box a x y <-> in_box b x y).
  Proof.
    destruct a as [|xl yl xh yh], b as [|xl' yl' xh' yh']; simpl; intros; try tauto; try discriminate.
    ord [xl; yl; xh; yh; xl'; yl'; xh'; yh'; x; y].
  Qed.

  Lemma same_copy a : good a -> same (bbox_copy a) a.
  Proof. destruct a as [|xl yl xh yh]; simpl; intros; [reflexivity|]. ord [xl; yl; xh; yh]. Qed.

  (* ---------------- union ---------------- *)
  Lemma add_upper a b x y : good a -> good b -> ok x -> ok y ->
    in_box a x y \/ in_box b x y -> in_box (bbox_add a b) x y.
  Proof.
    destruct a as [|xl yl xh yh], b as [|xl' yl' xh' yh']; simpl; intros; try tauto.
    - ord [xl'; yl'; xh'; yh'; x; y].
    - ord [xl; yl; xh; yh; x; y].
    - ord [xl; yl; xh; yh; xl'; yl'; xh'; yh'; x; y].
  Qed.

  Lemma add_contains a b : good a -> good b -> a <> BNone -> b <> BNone ->
    bbox_contains (bbox_add a b) a = Ok true /\ bbox_contains (bbox_add a b) b = Ok true.
  Proof.
    destruct a as [|xl yl xh yh], b as [|xl' yl' xh' yh']; simpl; intros; try congruence.
    split; f_equal; ord [xl; yl; xh; yh; xl'; yl'; xh'; yh'].
  Qed.

  Lemma sub_box_corners a b : good a -> a <> BNone -> sub_box a b ->
    match a, b with
    | BB xl yl xh yh, BB xl' yl' xh' yh' => le xl' xl /\ le yl' yl /\ le xh xh' /\ le yh yh'
    | _, _ => False
    end.
  Proof.
    destruct a as [|xl yl xh yh]; simpl; intros Hg Hn Hs; [congruence|].
    destruct Hg as ((O1 & O2 & O3 & O4) & Lx & Ly).
    pose proof (Hs xl yl O1 O2) as A1. pose proof (Hs xh yh O3 O4) as A2.
    assert (I1 : in_box (BB xl yl xh yh) xl yl)
      by (simpl; repeat split; auto; apply ord_refl; auto).
    assert (I2 : in_box (BB xl yl xh yh) xh yh)
      by (simpl; repeat split; auto; apply ord_refl; auto).
    specialize (A1 I1). specialize (A2 I2).
    destruct b; simpl in *; tauto.
  Qed.

  Lemma add_least a b c : good a -> good b -> good c ->
    sub_box a c -> sub_box b c -> sub_box (bbox_add a b) c.
  Proof.
    intros Ga Gb Gc Ha Hb x y Hx Hy Hin.
    destruct a as [|xl yl xh yh].
    - apply Hb; auto. destruct b as [|xl' yl' xh' yh']; simpl in *; auto.
      ord [xl'; yl'; xh'; yh'; x; y].
    - pose proof (sub_box_corners Ga ltac:(congruence) Ha) as Ca.
      destruct b as [|xl' yl' xh' yh'].
      + apply Ha; auto. simpl in *. ord [xl; yl; xh; yh; x; y].
      + pose proof (sub_box_corners Gb ltac:(congruence) Hb) as Cb.
        destruct c as [|xl2 yl2 xh2 yh2]; [contradiction|]. clear Ha Hb. simpl in *.
        ord [xl; yl; xh; yh; xl'; yl'; xh'; yh'; xl2; yl2; xh2; yh2; x; y].
  Qed.

  (* boxes with the same points are == *)
  Lemma same_ext a b : good a -> good b ->
    (forall x y, ok x -> ok y -> (in_box a x y <-> in_box b x y)) -> same a b.
  Proof.
    intros Ga Gb H.
    destruct a as [|xl yl xh yh].
    - destruct b as [|xl yl xh yh]; [reflexivity|]. exfalso. simpl in Gb. split_hyps.
      apply (H xl yl); auto. simpl. unfold le. rewrite !ord_refl; auto.
    - assert (Sab : sub_box (BB xl yl xh yh) b) by (intros x y Hx Hy; apply H; auto).
      pose proof (sub_box_corners Ga ltac:(congruence) Sab) as C1.
      destruct b as [|xl' yl' xh' yh']; [contradiction|].
      assert (Sba : sub_box (BB xl' yl' xh' yh') (BB xl yl xh yh)) by (intros x y Hx Hy; apply H; auto).
      pose proof (sub_box_corners Gb ltac:(congruence) Sba) as C2.
      clear H Sab Sba. simpl in *. ord [xl; yl; xh; yh; xl'; yl'; xh'; yh'].
  Qed.

  Lemma add_comm a b : good a -> good b -> same (bbox_add a b) (bbox_add b a).
  Proof.
    destruct a as [|xl yl xh yh], b as [|xl' yl' xh' yh']; simpl; intros.
    - reflexivity.
    - ord [xl'; yl'; xh'; yh'].
    - ord [xl; yl; xh; yh].
    - ord [xl; yl; xh; yh; xl'; yl'; xh'; yh'].
  Qed.

  Lemma sub_add_l a b : good a -> good b -> sub_box a (bbox_add a b).
  Proof. intros Ga Gb x y Hx Hy H. apply add_upper; auto. Qed.
  Lemma sub_add_r a b : good a -> good b -> sub_box b (bbox_add a b).
  Proof. intros Ga Gb x y Hx Hy H. apply add_upper; auto. Qed.
  Lemma sub_trans a b c : sub_box a b -> sub_box b c -> sub_box a c.
  Proof. unfold sub_box. auto. Qed.

  Lemma add_assoc a b c : good a -> good b -> good c ->
    same (bbox_add (bbox_add a b) c) (bbox_add a (bbox_add b c)).
  Proof.
    intros Ga Gb Gc.
    assert (G1 := good_add _ _ Ga Gb). assert (G2 := good_add _ _ Gb Gc).
    assert (S1 : sub_box (bbox_add (bbox_add a b) c) (bbox_add a (bbox_add b c))).
    { apply add_least; auto using good_add.
      - apply add_least; auto using good_add, sub_add_l.
        eapply sub_trans; [apply sub_add_l; [exact Gb|exact Gc]|]. apply sub_add_r; auto.
      - eapply sub_trans; [apply sub_add_r; [exact Gb|exact Gc]|]. apply sub_add_r; auto. }
    assert (S2 : sub_box (bbox_add a (bbox_add b c)) (bbox_add (bbox_add a b) c)).
    { apply add_least; auto using good_add.
      - eapply sub_trans; [apply sub_add_l; [exact Ga|exact Gb]|]. apply sub_add_l; auto.
      - apply add_least; auto using good_add, sub_add_r.
        eapply sub_trans; [apply sub_add_r; [exact Ga|exact Gb]|]. apply sub_add_l; auto. }
    apply same_ext; auto using good_add.
    intros x y Hx Hy. split; auto.
  Qed.

  Lemma add_idem a : good a -> same (bbox_add a a) a.
  Proof. destruct a as [|xl yl xh yh]; simpl; intros; [reflexivity|]. ord [xl; yl; xh; yh]. Qed.

  Lemma add_none_r a : good a -> same (bbox_add a BNone) a.
  Proof. apply same_copy. Qed.
  Lemma add_none_l a : good a -> same (bbox_add BNone a) a.
  Proof. destruct a; [reflexivity|]. apply same_copy. Qed.

  Lemma add_proper a a' b b' : good a -> good a' -> good b -> good b' ->
    same a a' -> same b b' -> same (bbox_add a b) (bbox_add a' b').
  Proof.
    destruct a as [|xl yl xh yh], a' as [|xa ya xb yb], b as [|xl' yl' xh' yh'], b' as [|xc yc xd yd];
      simpl; intros; auto; try discriminate.
    - ord [xl'; yl'; xh'; yh'; xc; yc; xd; yd].
    - ord [xl; yl; xh; yh; xa; ya; xb; yb].
    - ord [xl; yl; xh; yh; xa; ya; xb; yb; xl'; yl'; xh'; yh'; xc; yc; xd; yd].
  Qed.

  Lemma good_fold l a : good a -> Forall good l -> good (fold_left bbox_add l a).
  Proof.
    revert a. induction l as [|b l IH]; simpl; intros a Ga Gl; auto.
    inversion Gl; subst. apply IH; auto. apply good_add; auto.
  Qed.

  Lemma fold_proper l a a' : good a -> good a' -> Forall good l -> same a a' ->
    same (fold_left bbox_add l a) (fold_left bbox_add l a').
  Proof.
    revert a a'. induction l as [|b l IH]; simpl; intros a a' Ga Ga' Gl S; auto.
    inversion Gl; subst. apply IH; auto using good_add.
    apply add_proper; auto using same_refl.
  Qed.

  Lemma Forall_perm {A} (Q : A -> Prop) l l' : Permutation l l' -> Forall Q l -> Forall Q l'.
  Proof. intros HP. rewrite !Forall_forall. intros H x Hx. apply H. eapply Permutation_in; [symmetry|]; eauto. Qed.

  Lemma fold_perm l l' : Permutation l l' -> forall a, good a -> Forall good l ->
    same (fold_left bbox_add l a) (fold_left bbox_add l' a).
  Proof.
    induction 1; simpl; intros a Ga Gl.
    - apply same_refl; auto.
    - inversion Gl; subst. apply IHPermutation; auto using good_add.
    - inversion Gl as [|? ? Gy Gl']; subst. inversion Gl' as [|? ? Gx Gl'']; subst.
      pose proof (good_add _ _ Gy Gx) as G1. pose proof (good_add _ _ Gx Gy) as G2.
      pose proof (good_add _ _ Ga G1) as G3. pose proof (good_add _ _ Ga G2) as G4.
      pose proof (good_add _ _ Ga Gx) as G5. pose proof (good_add _ _ Ga Gy) as G6.
      pose proof (good_add _ _ G5 Gy) as G7. pose proof (good_add _ _ G6 Gx) as G8.
      apply fold_proper; auto.
      eapply same_trans; [exact G8|exact G3|exact G7|apply add_assoc; auto|].
      eapply same_trans; [exact G3|exact G4|exact G7| |].
      + apply add_proper; auto; [apply same_refl; auto|apply add_comm; auto].
      + eapply same_sym; [exact G7|exact G4|]. apply add_assoc; auto.
    - assert (Gl' : Forall good l') by (eapply Forall_perm; eauto).
      assert (Gl'' : Forall good l'') by (eapply Forall_perm; eauto).
      eapply same_trans with (b := fold_left bbox_add l' a); try (apply good_fold; assumption).
      + apply IHPermutation1; auto.
      + apply IHPermutation2; auto.
  Qed.

  (* ---------------- intersection ---------------- *)
  Ltac inter := unfold bbox_intersection in *; simpl in *;
    match goal with |- context [if ?c then _ else _] => let E := fresh "E" in destruct c eqn:E end.

  Lemma inter_in a b x y : good a -> good b -> ok x -> ok y ->
    (in_box (bbox_intersection a b) x y <-> in_box a x y /\ in_box b x y).
  Proof.
    destruct a as [|xl yl xh yh], b as [|xl' yl' xh' yh']; simpl; intros; try tauto.
    inter; simpl; ord [xl; yl; xh; yh; xl'; yl'; xh'; yh'; x; y].
  Qed.

  Lemma inter_none a b : good a -> good b ->
    (bbox_intersection a b = BNone <-> forall x y, ok x -> ok y -> ~ (in_box a x y /\ in_box b x y)).
  Proof.
    intros Ga Gb. split.
    - intros E x y Hx Hy H. apply inter_in in H; auto. rewrite E in H. contradiction.
    - intros H. destruct (bbox_intersection a b) as [|xl yl xh yh] eqn:E; auto. exfalso.
      pose proof (good_inter a b Ga Gb) as G. rewrite E in G. simpl in G. split_hyps.
      apply (H xl yl); auto. apply inter_in; auto. rewrite E. simpl.
      unfold le. rewrite !ord_refl; auto.
  Qed.

  Lemma inter_comm a b : good a -> good b -> same (bbox_intersection a b) (bbox_intersection b a).
  Proof.
    destruct a as [|xl yl xh yh], b as [|xl' yl' xh' yh']; simpl; intros; try reflexivity.
    inter; inter; simpl; try reflexivity;
      try (exfalso; ord [xl; yl; xh; yh; xl'; yl'; xh'; yh']);
      ord [xl; yl; xh; yh; xl'; yl'; xh'; yh'].
  Qed.

  Lemma inter_idem a : good a -> same (bbox_intersection a a) a.
  Proof.
    destruct a as [|xl yl xh yh]; simpl; intros; [reflexivity|].
    inter; simpl; [exfalso|]; ord [xl; yl; xh; yh].
  Qed.

  Lemma inter_assoc a b c : good a -> good b -> good c ->
    same (bbox_intersection (bbox_intersection a b) c) (bbox_intersection a (bbox_intersection b c)).
  Proof.
    intros. apply same_ext; auto using good_inter.
    intros. rewrite !inter_in; auto using good_inter. tauto.
  Qed.

  Lemma absorb_add a b : good a -> good b -> same (bbox_intersection a (bbox_add a b)) a.
  Proof.
    intros. apply same_ext; auto using good_inter, good_add.
    intros. rewrite inter_in; auto using good_add.
    split; [tauto|]. intros. split; auto. apply add_upper; auto.
  Qed.

  Lemma absorb_inter a b : good a -> good b -> same (bbox_add a (bbox_intersection a b)) a.
  Proof.
    intros. apply same_ext; auto using good_inter, good_add.
    intros x y Hx Hy. split.
    - intros Hin. eapply (@add_least a (bbox_intersection a b) a); eauto using good_inter; intros u w Hu Hw; auto.
      rewrite inter_in; auto. tauto.
    - intros. apply add_upper; auto using good_inter.
  Qed.

  (* ---------------- contains ---------------- *)
  Lemma contains_iff a b : good a -> good b -> a <> BNone -> b <> BNone ->
    (bbox_contains a b = Ok true <-> sub_box b a) /\ 
    (bbox_contains a b = Ok false <-> ~ sub_box b a).
  Proof.
    intros Ga Gb Na Nb.
    destruct a as [|xl yl xh yh]; [congruence|]. destruct b as [|xl' yl' xh' yh']; [congruence|].
    assert (E : bbox_contains (BB xl yl xh yh) (BB xl' yl' xh' yh') = Ok true
                <-> sub_box (BB xl' yl' xh' yh') (BB xl yl xh yh)).
    { split.
      - intros E x y Hx Hy Hin. simpl in E. inversion E as [E']. clear E. simpl in *.
        ord [xl; yl; xh; yh; xl'; yl'; xh'; yh'; x; y].
      - intros S. pose proof (sub_box_corners Gb ltac:(congruence) S) as C. clear S. simpl in *. f_equal.
        ord [xl; yl; xh; yh; xl'; yl'; xh'; yh']. }
    split; auto. rewrite <- E. simpl. 
    destruct ((xl <=? xl') && (xh' <=? xh) && (yl <=? yl') && (yh' <=? yh))%num; split; intros; try congruence.
  Qed.

  Lemma contains_inter a b : good a -> good b -> bbox_contains a b = Ok true ->
    same (bbox_intersection a b) b.
  Proof.
    intros Ga Gb E. assert (a <> BNone /\ b <> BNone) as [Na Nb]
      by (destruct a, b; simpl in E; split; congruence).
    apply contains_iff in E; auto. apply same_ext; auto using good_inter.
    intros. rewrite inter_in; auto. split; [tauto|]. intros; split; auto.
  Qed.

  (* ---------------- touches / overlaps ---------------- *)
  Definition meets a b := exists x y, ok x /\ ok y /\ in_box a x y /\ in_box b x y.

  Lemma meets_coords xl yl xh yh xl' yl' xh' yh' :
    good (BB xl yl xh yh) -> good (BB xl' yl' xh' yh') ->
    (meets (BB xl yl xh yh) (BB xl' yl' xh' yh') <->
     le xl xh' /\ le xl' xh /\ le yl yh' /\ le yl' yh).
  Proof.
    intros Ga Gb. split.
    - intros (x & y & Hx & Hy & A & B). simpl in *.
      ord [xl; yl; xh; yh; xl'; yl'; xh'; yh'; x; y].
    - intros H. exists (pymax xl xl'), (pymax yl yl'). simpl in *.
      split_hyps. split; [oke|]. split; [oke|].
      ord [xl; yl; xh; yh; xl'; yl'; xh'; yh'].
  Qed.

  Lemma touch_or_overlap a b : good a -> good b -> a <> BNone -> b <> BNone ->
    (meets a b <->
     (bbox_touches a b = true /\ bbox_overlaps a b = Ok false) \/
     (bbox_touches a b = false /\ bbox_overlaps a b = Ok true)).
  Proof.
    intros Ga Gb Na Nb.
    destruct a as [|xl yl xh yh]; [congruence|]. destruct b as [|xl' yl' xh' yh']; [congruence|].
    rewrite meets_coords; auto. clear Na Nb. simpl in *.
    match goal with |- context [if ?c then _ else _] => destruct c eqn:E end.
    - split; intros H.
      + left; split; auto. ord [xl; yl; xh; yh; xl'; yl'; xh'; yh'].
      + destruct H as [[H _]|[_ H]]; [|congruence]. ord [xl; yl; xh; yh; xl'; yl'; xh'; yh'].
    - split; intros H.
      + right; split; auto. ord [xl; yl; xh; yh; xl'; yl'; xh'; yh'].
      + destruct H as [[_ H]|[H _]]; [congruence|]. ord [xl; yl; xh; yh; xl'; yl'; xh'; yh'].
  Qed.

  Lemma touches_not_overlaps a b : good a -> good b -> bbox_touches a b = true ->
    bbox_overlaps a b = Ok false.
  Proof.
    destruct a as [|xl yl xh yh], b as [|xl' yl' xh' yh']; simpl; intros; try discriminate.
    match goal with |- context [if ?c then _ else _] => destruct c eqn:E end; auto.
    exfalso. ord [xl; yl; xh; yh; xl'; yl'; xh'; yh'].
  Qed.

  Lemma touches_inter a b : good a -> good b -> bbox_touches a b = true ->
    bbox_intersection a b <> BNone /\ bbox_is_empty (bbox_intersection a b) = true.
  Proof.
    destruct a as [|xl yl xh yh], b as [|xl' yl' xh' yh']; simpl; intros; try discriminate.
    inter; simpl; [exfalso; ord [xl; yl; xh; yh; xl'; yl'; xh'; yh']|].
    split; [discriminate|]. ord [xl; yl; xh; yh; xl'; yl'; xh'; yh'].
  Qed.

  Lemma touches_sym a b : good a -> good b -> bbox_touches a b = bbox_touches b a.
  Proof.
    destruct a as [|xl yl xh yh], b as [|xl' yl' xh' yh']; simpl; intros; auto.
    ord [xl; yl; xh; yh; xl'; yl'; xh'; yh'].
  Qed.

  Lemma overlaps_sym a b : good a -> good b -> bbox_overlaps a b = bbox_overlaps b a.
  Proof.
    destruct a as [|xl yl xh yh], b as [|xl' yl' xh' yh']; simpl; intros; auto.
    unfold ngeb.
    destruct (xh' <=? xl)%num, (xh <=? xl')%num, (yh' <=? yl)%num, (yh <=? yl')%num; reflexivity.
  Qed.

  Lemma overlaps_fat a b : good a -> good b -> a <> BNone -> b <> BNone -> fat a -> fat b ->
    (bbox_overlaps a b = Ok true <-> fat (bbox_intersection a b)).
  Proof.
    destruct a as [|xl yl xh yh], b as [|xl' yl' xh' yh']; intros Ga Gb Na Nb Fa Fb; try congruence.
    clear Na Nb. simpl in *.
    match goal with |- context [if ?c then Ok false else _] => destruct c eqn:E end;
    match goal with |- context [if ?c then BNone else _] => destruct c eqn:E2 end; simpl; split; intros H;
      try congruence; try contradiction; try (exfalso; ord [xl; yl; xh; yh; xl'; yl'; xh'; yh']).
    ord [xl; yl; xh; yh; xl'; yl'; xh'; yh'].
  Qed.

  Lemma overlaps_iff a b : good a -> good b -> a <> BNone -> b <> BNone ->
    (bbox_overlaps a b = Ok true \/ bbox_overlaps a b = Ok false) /\
    (fat (bbox_intersection a b) -> bbox_overlaps a b = Ok true).
  Proof.
    destruct a as [|xl yl xh yh], b as [|xl' yl' xh' yh']; intros Ga Gb Na Nb; try congruence.
    clear Na Nb. simpl in *.
    match goal with |- context [if ?c then Ok false else _] => destruct c eqn:E end;
    match goal with |- context [if ?c then BNone else _] => destruct c eqn:E2 end; simpl; split; auto;
      intros; try contradiction; exfalso; ord [xl; yl; xh; yh; xl'; yl'; xh'; yh'].
  Qed.

  Lemma is_empty_fat a : good a -> (bbox_is_empty a = false <-> fat a).
  Proof.
    destruct a as [|xl yl xh yh]; simpl; intros; [intuition congruence|]. ord [xl; yl; xh; yh].
  Qed.

  Lemma contains_touches a b : good a -> good b ->
    bbox_contains a b = Ok true -> bbox_touches a b = true -> bbox_is_empty b = true \/ bbox_is_empty a = true.
  Proof.
    destruct a as [|xl yl xh yh], b as [|xl' yl' xh' yh']; simpl; intros Ga Gb C T; try discriminate.
    left. inversion C as [C']. clear C. ord [xl; yl; xh; yh; xl'; yl'; xh'; yh'].
  Qed.

  Lemma contains_touches_iff a b : good a -> good b -> bbox_contains a b = Ok true ->
    (bbox_touches a b = true <-> bbox_overlaps a b = Ok false).
  Proof.
    destruct a as [|xl yl xh yh], b as [|xl' yl' xh' yh']; simpl; intros Ga Gb C; try discriminate.
    inversion C as [C']. clear C. 
    match goal with |- context [if ?c then Ok false else _] => destruct c eqn:E end.
    - split; auto. intros _. ord [xl; yl; xh; yh; xl'; yl'; xh'; yh'].
    - split; [|congruence]. intros. exfalso. ord [xl; yl; xh; yh; xl'; yl'; xh'; yh'].
  Qed.

  Lemma contains_pt_iff a p : good a -> okp p ->
    (bbox_contains_pt a p = true <-> in_interior a (px p) (py p)).
  Proof.
    destruct a as [|xl yl xh yh], p as [x y]; simpl; intros; [intuition congruence|].
    ord [xl; yl; xh; yh; x; y].
  Qed.

  Definition on_open_edge b x y : Prop :=
    match b with
    | BNone => False
    | BB xl yl xh yh =>
        ((neqb x xl = true \/ neqb x xh = true) /\ lt yl y /\ lt y yh) \/
        ((neqb y yl = true \/ neqb y yh = true) /\ lt xl x /\ lt x xh)
    end.
  Lemma touches_pt_iff a p : good a -> okp p ->
    (bbox_touches_pt a p = true <-> on_open_edge a (px p) (py p)).
  Proof.
    destruct a as [|xl yl xh yh], p as [x y]; simpl; intros; [intuition congruence|].
    ord [xl; yl; xh; yh; x; y].
  Qed.

  (* touching boxes share only boundary points *)
  Lemma touches_shared a b x y : good a -> good b -> ok x -> ok y -> bbox_touches a b = true ->
    in_box a x y -> in_box b x y ->
    ~ (in_interior a x y /\ in_interior b x y) /\
    (fat a -> fat b -> ~ in_interior a x y /\ ~ in_interior b x y).
  Proof.
    destruct a as [|xl yl xh yh], b as [|xl' yl' xh' yh']; simpl; intros; try discriminate.
    ord [xl; yl; xh; yh; xl'; yl'; xh'; yh'; x; y].
  Qed.

  Lemma touches_meets a b : good a -> good b -> bbox_touches a b = true -> meets a b.
  Proof.
    intros Ga Gb T.
    assert (a <> BNone /\ b <> BNone) as [Na Nb] by (destruct a, b; simpl in T; split; congruence).
    apply touch_or_overlap; auto. left. split; auto. apply touches_not_overlaps; auto.
  Qed.

  Lemma touches_side_touches a b : good a -> good b -> bbox_touches_side a b = true -> bbox_touches a b = true.
  Proof.
    destruct a as [|xl yl xh yh], b as [|xl' yl' xh' yh']; simpl; intros; try discriminate.
    ord [xl; yl; xh; yh; xl'; yl'; xh'; yh'].
  Qed.

  (* for boxes of positive extent touches_side means the common part is a proper segment *)
  Lemma touches_side_iff a b : good a -> good b -> fat a -> fat b ->
    (bbox_touches_side a b = true <->
     bbox_touches a b = true /\
     match bbox_intersection a b with
     | BNone => False
     | BB xl yl xh yh => lt xl xh \/ lt yl yh
     end).
  Proof.
    destruct a as [|xl yl xh yh], b as [|xl' yl' xh' yh']; simpl; intros; try contradiction.
    inter; simpl; ord [xl; yl; xh; yh; xl'; yl'; xh'; yh'].
  Qed.

  (* ---------------- grow ---------------- *)
  Definition grow_all b (ps : list (pt F)) := fold_left (@bbox_grow F NF) ps b.

  Lemma grow_as_add b p : good b -> okp p -> same (bbox_grow b p) (bbox_add b (bbox_of_pts p p)).
  Proof.
    destruct b as [|xl yl xh yh], p as [x y]; unfold bbox_of_pts; simpl; intros.
    - ord [x; y].
    - ord [xl; yl; xh; yh; x; y].
  Qed.

  Lemma good_grow_all ps b : good b -> Forall okp ps -> good (grow_all b ps).
  Proof.
    revert b. induction ps as [|p ps IH]; simpl; intros b Gb Gp; auto.
    inversion Gp; subst. apply IH; auto. apply good_grow; auto.
  Qed.

  Lemma grow_keeps b p x y : good b -> okp p -> ok x -> ok y -> in_box b x y -> in_box (bbox_grow b p) x y.
  Proof.
    destruct b as [|xl yl xh yh], p as [x' y']; simpl; intros; try contradiction.
    ord [xl; yl; xh; yh; x; y; x'; y'].
  Qed.
  Lemma grow_has b p : good b -> okp p -> in_box (bbox_grow b p) (px p) (py p).
  Proof.
    destruct b as [|xl yl xh yh], p as [x y]; simpl; intros.
    - ord [x; y].
    - ord [xl; yl; xh; yh; x; y].
  Qed.
  Lemma grow_all_keeps ps b x y : good b -> Forall okp ps -> ok x -> ok y ->
    in_box b x y -> in_box (grow_all b ps) x y.
  Proof.
    revert b. induction ps as [|p ps IH]; simpl; intros b Gb Gp Hx Hy Hin; auto.
    inversion Gp; subst. apply IH; auto using good_grow, grow_keeps.
  Qed.
  Lemma grow_all_has ps b p : good b -> Forall okp ps -> In p ps -> in_box (grow_all b ps) (px p) (py p).
  Proof.
    revert b. induction ps as [|q ps IH]; simpl; intros b Gb Gp Hin; [tauto|].
    inversion Gp; subst. destruct Hin as [->|Hin].
    - apply grow_all_keeps; auto using good_grow, grow_has; apply H1.
    - apply IH; auto using good_grow.
  Qed.

  (* every edge coordinate is one of the points', or the start box's *)
  Lemma grow_all_edges ps b : ps <> [] \/ b <> BNone ->
    match grow_all b ps with
    | BNone => False
    | BB xl yl xh yh =>
        (In xl (map (@px F) ps) \/ match b with BNone => False | BB a _ _ _ => xl = a end) /\
        (In yl (map (@py F) ps) \/ match b with BNone => False | BB _ a _ _ => yl = a end) /\
        (In xh (map (@px F) ps) \/ match b with BNone => False | BB _ _ a _ => xh = a end) /\
        (In yh (map (@py F) ps) \/ match b with BNone => False | BB _ _ _ a => yh = a end)
    end.
  Proof.
    revert b. induction ps as [|p ps IH]; intros b.
    - simpl. intros [H|H]; [congruence|]. destruct b; [congruence|]. auto 10.
    - intros _. simpl. assert (N : bbox_grow b p <> BNone) by (destruct b; simpl; congruence).
      specialize (IH (bbox_grow b p) (or_intror N)). fold (grow_all (bbox_grow b p) ps).
      destruct (grow_all (bbox_grow b p) ps) as [|xl yl xh yh]; auto.
      destruct b as [|a1 a2 a3 a4]; simpl in IH |- *.
      + intuition congruence.
      + unfold pymin, pymax in IH. 
        destruct (nltb (px p) a1), (nltb (py p) a2), (nltb a3 (px p)), (nltb a4 (py p)); 
        intuition congruence.
  Qed.

  Lemma grow_all_least ps b c : good b -> good c -> Forall okp ps -> sub_box b c ->
    (forall p, In p ps -> in_box c (px p) (py p)) -> sub_box (grow_all b ps) c.
  Proof.
    revert b. induction ps as [|p ps IH]; simpl; intros b Gb Gc Gp S H; auto.
    inversion Gp; subst. apply IH; auto using good_grow.
    intros x y Hx Hy Hin.
    assert (Hp := H p (or_introl eq_refl)).
    destruct b as [|xl yl xh yh].
    - destruct p as [x' y'], c as [|xl2 yl2 xh2 yh2]; simpl in *; [contradiction|].
      clear S H IH. ord [x; y; x'; y'; xl2; yl2; xh2; yh2].
    - pose proof (sub_box_corners Gb ltac:(congruence) S) as C. clear S H IH.
      destruct p as [x' y'], c as [|xl2 yl2 xh2 yh2]; simpl in *; [contradiction|].
      ord [x; y; x'; y'; xl; yl; xh; yh; xl2; yl2; xh2; yh2].
  Qed.

  Lemma grow_all_set ps qs : Forall okp ps -> Forall okp qs ->
    (forall p, In p ps <-> In p qs) -> same (grow_all BNone ps) (grow_all BNone qs).
  Proof.
    intros Gp Gq H. apply same_ext; try (apply good_grow_all; simpl; auto; fail).
    intros x y Hx Hy. split; intros Hin.
    - eapply (@grow_all_least ps BNone (grow_all BNone qs)); eauto using good_grow_all; simpl; auto.
      + apply good_grow_all; simpl; auto.
      + intros u w _ _ Hn. contradiction.
      + intros p Hp. apply grow_all_has; simpl; auto. apply H; auto.
    - eapply (@grow_all_least qs BNone (grow_all BNone ps)); eauto using good_grow_all; simpl; auto.
      + apply good_grow_all; simpl; auto.
      + intros u w _ _ Hn. contradiction.
      + intros p Hp. apply grow_all_has; simpl; auto. apply H; auto.
  Qed.
End L.
