(* Ordered numbers: the laws the bounding-box theorems need, an order embedding into Z
   that turns such goals into linear arithmetic, and the two instances. *)
Require Import Verif.Base Verif.NumR Verif.NumFloat.
From Coq Require Import SpecFloat FloatAxioms.
Set Implicit Arguments.

(* [ok] says a value takes part in the order (for floats: it is not NaN). *)
Class NumOrd (F : Type) {NF : Num F} := {
  ok : F -> Prop;
  ord_refl : forall a, ok a -> nleb a a = true;
  ord_trans : forall a b c, ok a -> ok b -> ok c ->
      nleb a b = true -> nleb b c = true -> nleb a c = true;
  ord_total : forall a b, ok a -> ok b -> nleb a b = true \/ nleb b a = true;
  ord_ltb : forall a b, ok a -> ok b -> nltb a b = negb (nleb b a);
  ord_eqb : forall a b, ok a -> ok b -> neqb a b = nleb a b && nleb b a;
}.
Arguments NumOrd F {NF}.
Arguments ord_refl {F NF NumOrd a}.
Arguments ord_trans {F NF NumOrd a b c}.
Arguments ord_total {F NF NumOrd a b}.
Arguments ord_ltb {F NF NumOrd a b}.
Arguments ord_eqb {F NF NumOrd a b}.

Section Embed.
  Context {F : Type} {NF : Num F} {OF : NumOrd F}.

  Definition rank (l : list F) (a : F) : Z :=
    Z.of_nat (length (filter (fun b => nltb b a) l)).

  Lemma filter_le {A} (f g : A -> bool) (l : list A) :
    (forall x, In x l -> f x = true -> g x = true) ->
    (length (filter f l) <= length (filter g l))%nat.
  Proof.
    induction l as [|x l IH]; simpl; intros H; [lia|].
    assert (IH' := IH (fun y Hy => H y (or_intror Hy))).
    destruct (f x) eqn:E.
    - rewrite (H x (or_introl eq_refl) E). simpl. lia.
    - destruct (g x); simpl; lia.
  Qed.

  Lemma filter_lt {A} (f g : A -> bool) (l : list A) y :
    (forall x, In x l -> f x = true -> g x = true) ->
    In y l -> f y = false -> g y = true ->
    (length (filter f l) < length (filter g l))%nat.
  Proof.
    induction l as [|x l IH]; simpl; intros H Hy Ef Eg; [tauto|].
    destruct Hy as [->|Hy].
    - rewrite Ef, Eg. simpl.
      assert (length (filter f l) <= length (filter g l))%nat
        by (apply filter_le; intros; apply H; auto). lia.
    - assert (IH' := IH (fun z Hz => H z (or_intror Hz)) Hy Ef Eg).
      destruct (f x) eqn:E.
      + rewrite (H x (or_introl eq_refl) E). simpl. lia.
      + destruct (g x); simpl; lia.
  Qed.

  Lemma ok_in {l a} : Forall ok l -> In a l -> ok a.
  Proof. rewrite Forall_forall. auto. Qed.

  Lemma rank_leb {l} : Forall ok l ->
    forall a b, In a l -> In b l -> nleb a b = (rank l a <=? rank l b)%Z.
  Proof.
    intros Hl a b Ha Hb.
    pose proof (ok_in Hl Ha) as Oa. pose proof (ok_in Hl Hb) as Ob.
    destruct (nleb a b) eqn:E; symmetry.
    - apply Z.leb_le. unfold rank. apply Nat2Z.inj_le. apply filter_le.
      intros x Hx Hxa. pose proof (ok_in Hl Hx) as Ox.
      rewrite ord_ltb in Hxa by auto. rewrite ord_ltb by auto.
      destruct (nleb b x) eqn:E2; auto.
      rewrite (ord_trans Oa Ob Ox E E2) in Hxa. discriminate.
    - apply Z.leb_gt. unfold rank. apply Nat2Z.inj_lt.
      destruct (ord_total Oa Ob) as [C|C]; [congruence|].
      apply filter_lt with (y := b); auto.
      + intros x Hx Hxb. pose proof (ok_in Hl Hx) as Ox.
        rewrite ord_ltb in Hxb by auto. rewrite ord_ltb by auto.
        destruct (nleb a x) eqn:E2; auto.
        assert (Hbx : nleb b x = true) by exact (ord_trans Ob Oa Ox C E2).
        rewrite Hbx in Hxb. discriminate.
      + rewrite ord_ltb by auto. rewrite (ord_refl Ob). reflexivity.
      + rewrite ord_ltb by auto. rewrite E. reflexivity.
  Qed.

  (* Every finite set of ordered numbers embeds in Z, with min and max. *)
  Lemma embed {l : list F} : Forall ok l ->
    exists f : F -> Z,
      (forall a b, In a l -> In b l -> nleb a b = (f a <=? f b)%Z) /\
      (forall a b, In a l -> In b l -> nltb a b = (f a <? f b)%Z) /\
      (forall a b, In a l -> In b l -> neqb a b = (f a =? f b)%Z).
  Proof.
    intros Hl. exists (rank l).
    assert (L := rank_leb Hl).
    split; [exact L|split].
    - intros a b Ha Hb. rewrite ord_ltb by (eapply ok_in; eauto).
      rewrite (L _ _ Hb Ha). rewrite Z.leb_antisym, negb_involutive. reflexivity.
    - intros a b Ha Hb. rewrite ord_eqb by (eapply ok_in; eauto).
      rewrite (L _ _ Ha Hb), (L _ _ Hb Ha).
      destruct (Z.eqb_spec (rank l a) (rank l b)); destruct (Z.leb_spec (rank l a) (rank l b));
        destruct (Z.leb_spec (rank l b) (rank l a)); simpl; auto; lia.
  Qed.

  (* The same, as a set closed under Python's min and max. *)
  Lemma embed_set {l : list F} : Forall ok l ->
    exists (D : F -> Prop) (f : F -> Z),
      (forall a, In a l -> D a) /\
      (forall a b, D a -> D b -> D (pymin a b)) /\
      (forall a b, D a -> D b -> D (pymax a b)) /\
      (forall a b, D a -> D b -> nleb a b = (f a <=? f b)%Z) /\
      (forall a b, D a -> D b -> nltb a b = (f a <? f b)%Z) /\
      (forall a b, D a -> D b -> neqb a b = (f a =? f b)%Z) /\
      (forall a b, D a -> D b -> f (pymin a b) = Z.min (f a) (f b)) /\
      (forall a b, D a -> D b -> f (pymax a b) = Z.max (f a) (f b)).
  Proof.
    intros Hl. destruct (embed Hl) as (f & L & LT & EQ).
    exists (fun a => In a l), f. unfold pymin, pymax.
    split; [auto|]. split; [intros a b Ha Hb; destruct (nltb b a); auto|].
    split; [intros a b Ha Hb; destruct (nltb a b); auto|].
    split; [exact L|]. split; [exact LT|]. split; [exact EQ|].
    split; intros a b Ha Hb.
    - rewrite (LT _ _ Hb Ha). destruct (Z.ltb_spec (f b) (f a)); lia.
    - rewrite (LT _ _ Ha Hb). destruct (Z.ltb_spec (f a) (f b)); lia.
  Qed.

  Lemma ok_pymin a b : ok a -> ok b -> ok (pymin a b).
  Proof. unfold pymin. destruct (nltb b a); auto. Qed.
  Lemma ok_pymax a b : ok a -> ok b -> ok (pymax a b).
  Proof. unfold pymax. destruct (nltb a b); auto. Qed.
End Embed.

(* Turn an order goal on the (ok) numbers of list l, combined by Python's min and max,
   into linear arithmetic over Z. *)
Ltac in_dom :=
  match goal with
  | MIN : (forall a b, ?D a -> ?D b -> ?D (pymin a b)),
    MAX : (forall a b, ?D a -> ?D b -> ?D (pymax a b)) |- ?D _ =>
      repeat first [ assumption | apply MIN | apply MAX ]
  end.
Ltac embed_list l :=
  let D := fresh "D" in let f := fresh "f" in
  let I := fresh "I" in let MIN := fresh "MIN" in let MAX := fresh "MAX" in
  let L := fresh "L" in let LT := fresh "LT" in let EQ := fresh "EQ" in
  let FMIN := fresh "FMIN" in let FMAX := fresh "FMAX" in
  let H := fresh "H" in
  assert (H : Forall ok l) by (repeat constructor; assumption);
  destruct (embed_set H) as (D & f & I & MIN & MAX & L & LT & EQ & FMIN & FMAX); clear H;
  let rec pose_dom l' :=
    match l' with
    | ?x :: ?r => let K := fresh "K" in assert (K : D x) by (apply I; simpl; tauto); pose_dom r
    | _ => idtac
    end in
  pose_dom l; clear I;
  repeat match goal with
         | |- context [nleb ?a ?b] => rewrite (L a b) by in_dom
         | |- context [nltb ?a ?b] => rewrite (LT a b) by in_dom
         | |- context [neqb ?a ?b] => rewrite (EQ a b) by in_dom
         | K : context [nleb ?a ?b] |- _ => rewrite (L a b) in K by in_dom
         | K : context [nltb ?a ?b] |- _ => rewrite (LT a b) in K by in_dom
         | K : context [neqb ?a ?b] |- _ => rewrite (EQ a b) in K by in_dom
         end;
  repeat match goal with
         | |- context [f (pymin ?a ?b)] => rewrite (FMIN a b) by in_dom
         | |- context [f (pymax ?a ?b)] => rewrite (FMAX a b) by in_dom
         | K : context [f (pymin ?a ?b)] |- _ => rewrite (FMIN a b) in K by in_dom
         | K : context [f (pymax ?a ?b)] |- _ => rewrite (FMAX a b) in K by in_dom
         end;
  clear L LT EQ MIN MAX FMIN FMAX;
  repeat match goal with K : D ?x |- _ => clear K end;
  repeat match goal with
         | |- context [f ?x] => let z := fresh "z" in set (z := f x) in *; clearbody z
         end;
  clear D.

(* ------------------------------------------------------------------ *)
(** * Real numbers *)

Lemma Rleb_le x y : Rleb x y = true <-> (x <= y)%R.
Proof. unfold Rleb. destruct (Rle_dec x y); split; intros; auto; try discriminate; contradiction. Qed.
Lemma Rltb_lt x y : Rltb x y = true <-> (x < y)%R.
Proof. unfold Rltb. destruct (Rlt_dec x y); split; intros; auto; try discriminate; contradiction. Qed.
Lemma Reqb_eq x y : Reqb x y = true <-> x = y.
Proof. unfold Reqb. destruct (Req_EM_T x y); split; intros; auto; try discriminate; contradiction. Qed.
Lemma Rleb_gt x y : Rleb x y = false <-> (y < x)%R.
Proof. unfold Rleb. destruct (Rle_dec x y); split; intros; auto; try discriminate; lra. Qed.
Lemma Rltb_ge x y : Rltb x y = false <-> (y <= x)%R.
Proof. unfold Rltb. destruct (Rlt_dec x y); split; intros; auto; try discriminate; lra. Qed.
Lemma Reqb_neq x y : Reqb x y = false <-> x <> y.
Proof. unfold Reqb. destruct (Req_EM_T x y); split; intros; auto; try discriminate; contradiction. Qed.

#[global] Program Instance OrdR : NumOrd R := {| ok := fun _ => True |}.
Next Obligation. apply Rleb_le. lra. Qed.
Next Obligation. rewrite Rleb_le in *. lra. Qed.
Next Obligation. rewrite !Rleb_le. lra. Qed.
Next Obligation.
  unfold Rltb, Rleb. destruct (Rlt_dec a b), (Rle_dec b a); simpl; auto; lra.
Qed.
Next Obligation.
  unfold Reqb, Rleb. destruct (Req_EM_T a b), (Rle_dec a b), (Rle_dec b a); simpl; auto; lra.
Qed.

(* ------------------------------------------------------------------ *)
(** * binary64 floats: every value except NaN is ordered (with -0 equal to +0) *)

Definition not_nan (x : float) : Prop := PrimFloat.is_nan x = false.

Lemma not_nan_spec x : not_nan x -> Prim2SF x <> S754_nan.
Proof.
  unfold not_nan, PrimFloat.is_nan. rewrite eqb_spec. intros H E. rewrite E in H. discriminate.
Qed.

Definition sf_ok (s : spec_float) : Prop := s <> S754_nan.

Lemma sf_refl s : sf_ok s -> SFleb s s = true.
Proof.
  unfold sf_ok, SFleb. intros H. destruct s as [b|b| |b m e]; simpl; try congruence.
  - destruct b; reflexivity.
  - destruct b; rewrite Z.compare_refl, ?Pos.compare_cont_refl; reflexivity.
Qed.

Ltac sfcase :=
  repeat match goal with
         | s : spec_float |- _ => destruct s as [[]|[]| |[] ? ?]
         end; try congruence; simpl in *.
Ltac sfcmp :=
  repeat match goal with
         | |- context [Z.compare ?a ?b] => destruct (Z.compare_spec a b); subst; simpl in *
         | H : context [Z.compare ?a ?b] |- _ => destruct (Z.compare_spec a b); subst; simpl in *
         end;
  rewrite ?Pos.compare_cont_spec in *;
  repeat match goal with
         | |- context [Pos.compare ?a ?b] => destruct (Pos.compare_spec a b); subst; simpl in *
         | H : context [Pos.compare ?a ?b] |- _ => destruct (Pos.compare_spec a b); subst; simpl in *
         end;
  try reflexivity; try congruence; try lia; auto.

Lemma sf_trans a b c : sf_ok a -> sf_ok b -> sf_ok c ->
  SFleb a b = true -> SFleb b c = true -> SFleb a c = true.
Proof.
  unfold sf_ok, SFleb. intros. sfcase; sfcmp.
Qed.

Lemma sf_total a b : sf_ok a -> sf_ok b -> SFleb a b = true \/ SFleb b a = true.
Proof. unfold sf_ok, SFleb. intros. sfcase; sfcmp. Qed.

Lemma sf_ltb a b : sf_ok a -> sf_ok b -> SFltb a b = negb (SFleb b a).
Proof. unfold sf_ok, SFltb, SFleb. intros. sfcase; sfcmp. Qed.

Lemma sf_eqb a b : sf_ok a -> sf_ok b -> SFeqb a b = SFleb a b && SFleb b a.
Proof. unfold sf_ok, SFeqb, SFleb. intros. sfcase; sfcmp. Qed.

#[global] Program Instance OrdFloat : NumOrd float := {| ok := not_nan |}.
Next Obligation. rewrite leb_spec. apply sf_refl, not_nan_spec; auto. Qed.
Next Obligation.
  rewrite leb_spec in *. eapply sf_trans; [| | | eassumption | eassumption]; apply not_nan_spec; auto.
Qed.
Next Obligation. rewrite !leb_spec. apply sf_total; apply not_nan_spec; auto. Qed.
Next Obligation. rewrite ltb_spec, leb_spec. apply sf_ltb; apply not_nan_spec; auto. Qed.
Next Obligation. rewrite eqb_spec, !leb_spec. apply sf_eqb; apply not_nan_spec; auto. Qed.
