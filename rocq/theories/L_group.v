(* Lemmas about strings, tables and element trees. *)
Require Import Verif.Base Verif.M_vector Verif.M_bbox Verif.M_transform Verif.M_bezier Verif.M_colors Verif.M_elems Verif.M_group.
Require Import Verif.S_group.
From Coq Require Import String Ascii List Lia Bool DecimalString DecimalNat FinFun.
Import ListNotations.
Local Open Scope string_scope.
Local Open Scope list_scope.

(* ---------------- strings ---------------- *)

Lemma sapp_assoc (a b c : string) : ((a ++ b) ++ c = a ++ (b ++ c))%string.
Proof. induction a; cbn; congruence. Qed.
Lemma sapp_nil_r (a : string) : (a ++ "" = a)%string.
Proof. induction a; cbn; congruence. Qed.
Lemma sapp_inv_head (a b c : string) : (a ++ b = a ++ c)%string -> b = c.
Proof. induction a; cbn; intros H; [auto|]. injection H; auto. Qed.

Lemma has_dot_app (a b : string) : has_dot (a ++ b)%string = has_dot a || has_dot b.
Proof. induction a; cbn; [reflexivity|]. now rewrite IHa, orb_assoc. Qed.
Lemma has_dot_spec (s : string) : has_dot s = true <-> dotted_name s.
Proof.
  split.
  - induction s as [|c s IH]; cbn; [discriminate|]. intros H. apply orb_prop in H as [H|H].
    + apply Ascii.eqb_eq in H. subst c. now exists "", s.
    + destruct (IH H) as (a & b & ->). now exists (String c a), b.
  - intros (a & b & ->). rewrite has_dot_app. cbn. now rewrite orb_true_r.
Qed.
Lemma has_dot_false (s : string) : has_dot s = false <-> ~ dotted_name s.
Proof. rewrite <- has_dot_spec. destruct (has_dot s); split; congruence || tauto. Qed.

Lemma after_last_dot_spec (n : string) : last_part n (after_last_dot n).
Proof.
  unfold last_part. rewrite <- has_dot_false.
  induction n as [|c n [IH1 IH2]]; cbn [after_last_dot]; [split; [reflexivity|now left]|].
  destruct (has_dot n) eqn:D.
  - split; [exact IH1|]. destruct IH2 as [E|(a & E)].
    + exfalso. rewrite <- E in IH1. congruence.
    + right. exists (String c a). exact (f_equal (String c) E).
  - destruct (c =? ".")%char eqn:C.
    + apply Ascii.eqb_eq in C. subst c. split; [exact D|]. right. now exists "".
    + split; [|now left]. cbn. now rewrite C, D.
Qed.
Lemma last_part_unique n s s' : last_part n s -> last_part n s' -> s = s'.
Proof.
  intros [A [B|(a & B)]] [A' [B'|(a' & B')]]; subst.
  - congruence.
  - exfalso. apply A. now exists a', s'.
  - exfalso. apply A'. now exists a, s.
  - revert a' B'. induction a as [|c a IH]; intros [|c' a'] E; cbn in E.
    + now injection E.
    + injection E as _ E. exfalso. apply A. exists a', s'. exact E.
    + injection E as _ E. exfalso. apply A'. exists a, s. now symmetry.
    + injection E as _ E. eauto.
Qed.
Lemma after_last_dot_id n : has_dot n = false -> after_last_dot n = n.
Proof.
  intros H. apply (last_part_unique n); [apply after_last_dot_spec|].
  split; [now apply has_dot_false|now left].
Qed.

Lemma partition_dot_plain k : has_dot k = false -> partition_dot k = (k, "").
Proof.
  induction k as [|c k IH]; cbn; [reflexivity|]. intros H. apply orb_false_elim in H as [H1 H2].
  now rewrite H1, (IH H2).
Qed.
Lemma partition_dot_app k t : has_dot k = false -> partition_dot (k ++ "." ++ t)%string = (k, t).
Proof.
  induction k as [|c k IH]; [reflexivity|]. intros H. apply orb_false_elim in H as [H1 H2].
  change (String c k ++ "." ++ t)%string with (String c (k ++ "." ++ t)%string).
  cbn [partition_dot]. now rewrite H1, (IH H2).
Qed.
Lemma partition_dot_inv s h t : partition_dot s = (h, t) ->
  has_dot h = false /\ (s = h /\ t = "" \/ s = (h ++ "." ++ t)%string).
Proof.
  revert h t. induction s as [|c s IH]; intros h t; cbn.
  - intros E. injection E as <- <-. split; [reflexivity|now left].
  - destruct (c =? ".")%char eqn:C.
    + intros E. injection E as <- <-. apply Ascii.eqb_eq in C. subst c. split; [reflexivity|now right].
    + destruct (partition_dot s) as [h' t'] eqn:P. intros E. injection E as <- <-.
      destruct (IH _ _ eq_refl) as [A B]. split; [cbn; now rewrite C|].
      destruct B as [[-> ->]| ->]; [left|right]; auto.
Qed.

Lemma decimal_inj a b : decimal a = decimal b -> a = b.
Proof.
  unfold decimal. intros H. apply DecimalNat.Unsigned.to_uint_inj.
  assert (E : NilEmpty.uint_of_string (NilEmpty.string_of_uint (Nat.to_uint a)) =
              NilEmpty.uint_of_string (NilEmpty.string_of_uint (Nat.to_uint b))) by now rewrite H.
  rewrite !NilEmpty.usu in E. now injection E.
Qed.
Lemma numbered_inj n a b : numbered n a = numbered n b -> a = b.
Proof. unfold numbered. intros H. apply sapp_inv_head in H. injection H as H. now apply decimal_inj. Qed.
Lemma uint_no_dot (u : Decimal.uint) : has_dot (NilEmpty.string_of_uint u) = false.
Proof. induction u; cbn; auto. Qed.
Lemma numbered_no_dot n a : has_dot n = false -> has_dot (numbered n a) = false.
Proof. intros H. unfold numbered. rewrite !has_dot_app, H. cbn. apply uint_no_dot. Qed.

(* ---------------- tables ---------------- *)

Lemma find_key_in {A} k (l : list (string * A)) a : find_key k l = Some a -> In (k, a) l.
Proof.
  induction l as [|[k' a'] l IH]; cbn; [discriminate|].
  destruct (String.eqb_spec k k') as [->|N]; intros E; [injection E as ->; now left|right; auto].
Qed.
Lemma find_key_none {A} k (l : list (string * A)) : find_key k l = None <-> ~ In k (keys l).
Proof.
  induction l as [|[k' a'] l IH]; cbn; [tauto|].
  destruct (String.eqb_spec k k') as [->|N]; [split; [discriminate|tauto]|].
  rewrite IH. split; [intros H [E|E]; [congruence|auto]|tauto].
Qed.
Lemma find_key_some {A} k (l : list (string * A)) : NoDup (keys l) -> forall a, In (k, a) l -> find_key k l = Some a.
Proof.
  induction l as [|[k' a'] l IH]; cbn; intros N a H; [easy|].
  inversion N as [|? ? N1 N2]; subst. destruct H as [E|H].
  - injection E as -> ->. now rewrite String.eqb_refl.
  - destruct (String.eqb_spec k k') as [->|D]; [|auto].
    exfalso. apply N1. apply in_map_iff. now exists (k', a).
Qed.
Lemma has_key_spec {A} k (l : list (string * A)) : has_key k l = true <-> In k (keys l).
Proof.
  unfold has_key. destruct (find_key k l) eqn:E.
  - split; [|auto]. intros _. apply in_map_iff. eexists. split; [|eapply find_key_in; eauto]. reflexivity.
  - apply find_key_none in E. split; [discriminate|tauto].
Qed.
Lemma has_key_false {A} k (l : list (string * A)) : has_key k l = false <-> ~ In k (keys l).
Proof. rewrite <- has_key_spec. destruct (has_key k l); split; congruence || tauto. Qed.
Lemma keys_app {A} (a b : list (string * A)) : keys (a ++ b) = keys a ++ keys b.
Proof. apply map_app. Qed.
Lemma NoDup_snoc {A} (l : list A) x : NoDup l -> ~ In x l -> NoDup (l ++ [x]).
Proof.
  intros N H. rewrite <- (rev_involutive (l ++ [x])). apply NoDup_rev. rewrite rev_app_distr. cbn.
  constructor; [now rewrite <- in_rev|now apply NoDup_rev].
Qed.

(* first_free finds the least free number *)
Lemma first_free_some {A} fuel n num (l : list (string * A)) r : first_free fuel n num l = Some r ->
  exists j, r = numbered n j /\ num <= j /\ ~ In r (keys l) /\
            forall i, num <= i < j -> In (numbered n i) (keys l).
Proof.
  revert num. induction fuel as [|fuel IH]; intros num; cbn; [discriminate|].
  destruct (has_key (numbered n num) l) eqn:H.
  - intros E. apply IH in E as (j & E1 & E2 & E3 & E4). exists j. repeat split; auto; [lia|].
    intros i Hi. destruct (Nat.eq_dec i num) as [->|D]; [now apply has_key_spec|]. apply E4. lia.
  - intros E. injection E as <-. exists num. repeat split; auto; [now apply has_key_false|lia].
Qed.
Lemma first_free_taken {A} fuel n num (l : list (string * A)) : first_free fuel n num l = None ->
  forall i, num <= i < num + fuel -> In (numbered n i) (keys l).
Proof.
  revert num. induction fuel as [|fuel IH]; intros num; cbn; [intros _ i H; lia|].
  destruct (has_key (numbered n num) l) eqn:H; [|discriminate].
  intros E i Hi. destruct (Nat.eq_dec i num) as [->|D]; [now apply has_key_spec|]. apply (IH _ E). lia.
Qed.
Lemma first_free_total {A} n num (l : list (string * A)) : first_free (S (List.length l)) n num l <> None.
Proof.
  intros E. pose proof (first_free_taken _ _ _ _ E) as H.
  assert (I : incl (map (numbered n) (seq num (S (List.length l)))) (keys l)).
  { intros x Hx. apply in_map_iff in Hx as (i & <- & Hi). apply in_seq in Hi. now apply H. }
  apply NoDup_incl_length in I.
  - rewrite map_length, seq_length in I. unfold keys in I. rewrite map_length in I. lia.
  - apply Injective_map_NoDup; [|apply seq_NoDup]. intros a b. apply numbered_inj.
Qed.

(* ---------------- induction on trees ---------------- *)

Section ElemInd.
  Context {F : Type}.
  Variable Q : elem F -> Prop.
  Hypothesis HL : forall b s, Q (ELeaf b s).
  Hypothesis HG : forall b h l p, Forall (fun ke => Q (snd ke)) l -> Q (EGroup b h l p).
  Hypothesis HH : forall b o i, Q o -> Forall Q i -> Q (EHoles b o i).
  Fixpoint elem_induction (e : elem F) : Q e :=
    match e with
    | ELeaf b s => HL b s
    | EGroup b h l p =>
        HG b h l p
          ((fix go l : Forall (fun ke => Q (snd ke)) l :=
              match l with
              | [] => Forall_nil _
              | ke :: l' => Forall_cons ke (elem_induction (snd ke)) (go l')
              end) l)
    | EHoles b o i =>
        HH b o i (elem_induction o)
          ((fix go l : Forall Q l :=
              match l with
              | [] => Forall_nil _
              | e :: l' => Forall_cons e (elem_induction e) (go l')
              end) i)
    end.
End ElemInd.

Lemma renamed_set {F} n (e : elem F) : renamed n e (set_name n e).
Proof. destruct e; cbn; auto. Qed.
Lemma name_set {F} n (e : elem F) : e_name (e_base (set_name n e)) = n.
Proof. destruct e; reflexivity. Qed.

Lemma foldM_app {A S} (f : S -> A -> res S) s l l' :
  foldM f s (l ++ l') = let* s' := foldM f s l in foldM f s' l'.
Proof. revert s. induction l as [|a l IH]; intros s; cbn; [reflexivity|]. destruct (f s a); cbn; auto. Qed.
