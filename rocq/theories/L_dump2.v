(* Lemmas for dumps: variables, lines, and the induction over elements. *)
Require Import Verif.Base Verif.M_vector Verif.M_bbox Verif.M_transform Verif.M_bezier Verif.M_colors
  Verif.M_elems Verif.M_group Verif.S_group Verif.L_group Verif.M_dump Verif.S_dump Verif.L_dump.
From Coq Require Import String Ascii List Lia Bool DecimalString Permutation Sorted.
Import ListNotations.
Local Open Scope list_scope.
Local Open Scope string_scope.

(* ---------------- variables ---------------- *)

Lemma put_new {A} k (a : A) l : find_key k l = None -> put k a l = (l ++ [(k, a)])%list.
Proof.
  induction l as [|[k' a'] l IH]; cbn; [reflexivity|]. destruct (k =? k')%string; [discriminate|]. intros H. now rewrite IH.
Qed.
Lemma find_put {A} k (a : A) k' l : find_key k' (put k a l) = if (k' =? k)%string then Some a else find_key k' l.
Proof.
  induction l as [|[k2 a2] l IH]; cbn.
  - destruct (k' =? k)%string; reflexivity.
  - destruct (String.eqb_spec k k2) as [->|N]; cbn.
    + destruct (k' =? k2)%string; reflexivity.
    + destruct (String.eqb_spec k' k2) as [->|M'].
      * destruct (String.eqb_spec k2 k) as [->|_]; [contradiction|reflexivity].
      * exact IH.
Qed.

Definition var_name (prefix : string) (k : nat) : string := prefix ++ "_" ++ decimal k.
Lemma uint_digits (u : Decimal.uint) : forallb is_digit (list_ascii_of_string (NilEmpty.string_of_uint u)) = true.
Proof. induction u; cbn; auto. Qed.
Lemma split_last c : is_digit c = false -> forall p p' u u',
  forallb is_digit (list_ascii_of_string u) = true -> forallb is_digit (list_ascii_of_string u') = true ->
  p ++ String c u = p' ++ String c u' -> p = p' /\ u = u'.
Proof.
  intros C. assert (Q : forall q u u', forallb is_digit (list_ascii_of_string u) = true -> q ++ String c u' <> u).
  { intros q u u' U E. subst u. induction q as [|a q IH]; cbn in U; [rewrite C in U; discriminate|]. apply andb_prop in U as [_ U]. auto. }
  induction p as [|a p IH]; intros p' u u' U U' E; destruct p' as [|a' p']; cbn in E.
  - injection E as ->. auto.
  - injection E as _ E. symmetry in E. apply Q in E; auto. contradiction.
  - injection E as _ E. apply Q in E; auto. contradiction.
  - injection E as -> E. destruct (IH p' u u' U U' E) as [-> ->]. auto.
Qed.
Lemma var_name_inj p k p' k' : var_name p k = var_name p' k' -> p = p' /\ k = k'.
Proof.
  intros E. unfold var_name in E. apply (split_last "_"%char) in E; [|reflexivity|apply uint_digits|apply uint_digits].
  destruct E as [-> E]. split; [reflexivity|]. now apply decimal_inj.
Qed.

Definition vars_ok (d : dump) : Prop :=
  NoDup (keys (d_vars d)) /\ NoDup (map snd (d_vars d)) /\
  forall r n, In (r, n) (d_vars d) -> exists p k c, n = var_name p k /\ find_key p (d_prefixes d) = Some c /\ k <= c.
(* nothing but the variables and the counts differs *)
Definition same_rest (d d' : dump) : Prop :=
  d_depth d' = d_depth d /\ d_lines d' = d_lines d /\ d_use d' = d_use d /\ d_imports d' = d_imports d.
Definition grow (d d' : dump) : Prop := exists l, d_vars d' = (d_vars d ++ l)%list.
Lemma grow_refl d : grow d d. Proof. exists []. now rewrite app_nil_r. Qed.
Lemma grow_trans a b c : grow a b -> grow b c -> grow a c.
Proof. intros [l H] [l' H']. exists (l ++ l')%list. now rewrite H', H, app_assoc. Qed.
Lemma vars_ok_new u : vars_ok (dump_new u).
Proof. split; [constructor|]. split; [constructor|]. intros r n []. Qed.
Lemma set_var_spec r p d : vars_ok d -> d_use d = true ->
  let (d', n) := set_var r p d in
  vars_ok d' /\ same_rest d d' /\ In (r, n) (d_vars d') /\
  (d' = d \/ d_vars d' = (d_vars d ++ [(r, n)])%list /\ exists k, n = var_name p k).
Proof.
  intros (N1 & N2 & V) U. unfold set_var. rewrite U. destruct (find_key r (d_vars d)) as [n|] eqn:Fk.
  - split; [now split|]. split; [repeat split|]. split; [now apply find_key_in|]. now left.
  - set (c := match find_key p (d_prefixes d) with Some k => k | None => 0%nat end). change (p ++ "_" ++ decimal (c + 1)) with (var_name p (c + 1)).
    assert (Pv : d_vars (Dump (d_depth d) (d_lines d) (put r (var_name p (c + 1)) (d_vars d)) (put p (c + 1)%nat (d_prefixes d)) true (d_imports d)) = (d_vars d ++ [(r, var_name p (c + 1))])%list) by (cbn; now apply put_new).
    split; [|split; [repeat split; auto|split; [rewrite Pv; apply in_or_app; right; now left|right; split; [exact Pv|now exists (c + 1)%nat]]]].
    unfold vars_ok. rewrite Pv. split; [|split].
    + rewrite keys_app. apply NoDup_snoc; [exact N1|]. now apply find_key_none.
    + rewrite map_app. apply NoDup_snoc; [exact N2|]. intros H. apply in_map_iff in H as ([r' n'] & E & H). cbn in E. subst n'.
      destruct (V _ _ H) as (p' & k' & c' & E & Fc & L). apply var_name_inj in E as [-> <-]. unfold c in L. rewrite Fc in L. lia.
    + intros r' n' H. cbn [d_prefixes]. apply in_app_or in H as [H|[H|[]]].
      * destruct (V _ _ H) as (p' & k' & c' & E & Fc & L). exists p', k'. rewrite find_put. destruct (String.eqb_spec p' p) as [->|_]; [|now exists c'].
        exists (c + 1)%nat. split; [exact E|]. split; [reflexivity|]. unfold c. rewrite Fc. lia.
      * injection H as <- <-. exists p, (c + 1)%nat, (c + 1)%nat. rewrite find_put, String.eqb_refl. auto.
Qed.

(* ---------------- lines ---------------- *)

Definition ind (k : nat) (s : string) : string := indent k ++ s.
Definition unlines (l : list string) : string := fold_right (fun s r => s ++ newline ++ r) "" l.
Lemma unlines_app a b : unlines (a ++ b)%list = unlines a ++ unlines b.
Proof. induction a as [|s a IH]; cbn [unlines fold_right app]; [reflexivity|]. fold (unlines a) (unlines (a ++ b)%list). now rewrite IH, !sapp_assoc. Qed.
Lemma join_lines l s : join newline (l ++ [s])%list = unlines l ++ s.
Proof.
  induction l as [|a l IH]; [reflexivity|]. cbn [unlines fold_right]. fold (unlines l). rewrite !sapp_assoc, <- IH. cbn [app].
  destruct l; reflexivity.
Qed.
Lemma indent_add a b : indent (a + b) = indent a ++ indent b.
Proof. induction a as [|a IH]; [reflexivity|]. cbn [Nat.add indent]. now rewrite IH, sapp_assoc. Qed.
Lemma ind_ind a b s : ind a (ind b s) = ind (a + b) s.
Proof. unfold ind. now rewrite indent_add, sapp_assoc. Qed.
Lemma map_ind a b l : map (ind a) (map (ind b) l) = map (ind (a + b)) l.
Proof. rewrite map_map. apply map_ext. intros s. apply ind_ind. Qed.
Lemma lex_spaces k : forall a, LexC (indent k) [] a a.
Proof. induction k as [|k IH]; intros a acc n; [reflexivity|]. cbn [indent]. rewrite lexes_app. change (lexes (Lexer acc Idle (a + n) false) "    ") with (Some (Lexer acc Idle (a + n) false)). apply IH. Qed.
Lemma lex_newline : LexC newline [] 1 1. Proof. intros acc n. reflexivity. Qed.
Lemma lex_comma_newline : LexC ("," ++ newline) [TOp ","] 1 1. Proof. intros acc n. reflexivity. Qed.

(* ---------------- sorting ---------------- *)

Lemma insert_map {A B} (la : A -> A -> bool) (lb : B -> B -> bool) (f : A -> B) : (forall x y, lb (f x) (f y) = la x y) ->
  forall a l, insert lb (f a) (map f l) = map f (insert la a l).
Proof. intros H a l. induction l as [|b l IH]; cbn; [reflexivity|]. rewrite H. destruct (la a b); cbn; [reflexivity|]. now rewrite IH. Qed.
Lemma sorted_map {A B} (la : A -> A -> bool) (lb : B -> B -> bool) (f : A -> B) : (forall x y, lb (f x) (f y) = la x y) ->
  forall l, sorted lb (map f l) = map f (sorted la l).
Proof. intros H l. unfold sorted. induction l as [|a l IH]; cbn; [reflexivity|]. now rewrite IH, (insert_map la lb). Qed.
Lemma insert_perm {A} (leb : A -> A -> bool) a l : Permutation (a :: l) (insert leb a l).
Proof. induction l as [|b l IH]; cbn; [auto|]. destruct (leb a b); [auto|]. rewrite perm_swap. now constructor. Qed.
Lemma sorted_perm {A} (leb : A -> A -> bool) l : Permutation l (sorted leb l).
Proof. unfold sorted. induction l as [|a l IH]; cbn; [constructor|]. rewrite <- insert_perm. now constructor. Qed.
Lemma compare_gt_lt a b : String.compare a b = Gt -> String.compare b a = Lt.
Proof. intros H. rewrite String.compare_antisym, H. reflexivity. Qed.
Lemma str_leb_total a b : str_leb a b = true \/ str_leb b a = true.
Proof. unfold str_leb. destruct (String.compare a b) eqn:E; auto. rewrite (compare_gt_lt _ _ E). auto. Qed.
Lemma ascii_compare_lt a b : Ascii.compare a b = Lt <-> (N_of_ascii a < N_of_ascii b)%N.
Proof. unfold Ascii.compare. apply N.compare_lt_iff. Qed.
Lemma ascii_compare_refl a : Ascii.compare a a = Eq.
Proof. unfold Ascii.compare. apply N.compare_refl. Qed.
Lemma str_compare_refl a : String.compare a a = Eq.
Proof. induction a as [|x a IH]; cbn; [reflexivity|]. now rewrite ascii_compare_refl. Qed.
Lemma str_lt_trans : forall a b c, String.compare a b = Lt -> String.compare b c = Lt -> String.compare a c = Lt.
Proof.
  induction a as [|x a IH]; intros [|y b] [|z c]; cbn; auto; try discriminate.
  destruct (Ascii.compare x y) eqn:E1; destruct (Ascii.compare y z) eqn:E2; try discriminate; intros H1 H2.
  - apply Ascii.compare_eq_iff in E1. apply Ascii.compare_eq_iff in E2. subst. rewrite ascii_compare_refl. eauto.
  - apply Ascii.compare_eq_iff in E1. subst. now rewrite E2.
  - apply Ascii.compare_eq_iff in E2. subst. now rewrite E1.
  - apply ascii_compare_lt in E1, E2. assert (Ascii.compare x z = Lt) as -> by (apply ascii_compare_lt; exact (N.lt_trans _ _ _ E1 E2)). reflexivity.
Qed.
Lemma str_leb_trans a b c : str_leb a b = true -> str_leb b c = true -> str_leb a c = true.
Proof.
  unfold str_leb. destruct (String.compare a b) eqn:E1; try discriminate; destruct (String.compare b c) eqn:E2; try discriminate; intros _ _.
  - apply String.compare_eq_iff in E1, E2. subst. now rewrite str_compare_refl.
  - apply String.compare_eq_iff in E1. subst. now rewrite E2.
  - apply String.compare_eq_iff in E2. subst. now rewrite E1.
  - now rewrite (str_lt_trans a b c).
Qed.
Lemma sorted_sorted {A} (l : list (string * A)) : StronglySorted (fun a b => str_leb (fst a) (fst b) = true) (sorted by_name l).
Proof.
  induction l as [|x l IH]; [constructor|]. change (sorted by_name (x :: l)) with (insert by_name x (sorted by_name l)). revert IH. generalize (sorted by_name l). clear l. intros l IH.
  induction l as [|b l IL]; cbn; [repeat constructor|]. inversion IH as [|? ? S1 S2]; subst. unfold by_name at 1. destruct (str_leb (fst x) (fst b)) eqn:E.
  - constructor; [exact IH|]. constructor; [exact E|]. eapply Forall_impl; [|exact S2]. cbn. intros a H. eapply str_leb_trans; eauto.
  - constructor; [auto|]. assert (Forall (fun a => str_leb (fst b) (fst a) = true) (x :: l)).
    { constructor; [|exact S2]. destruct (str_leb_total (fst x) (fst b)); congruence. }
    eapply Permutation_Forall; [apply insert_perm|assumption].
Qed.
Lemma sorted_id {A} (l : list (string * A)) : StronglySorted (fun a b => str_leb (fst a) (fst b) = true) l -> sorted by_name l = l.
Proof.
  induction 1 as [|a l S1 IH S2]; [reflexivity|]. change (sorted by_name (a :: l)) with (insert by_name a (sorted by_name l)). rewrite IH. destruct S2 as [|b l H]; cbn; [reflexivity|]. unfold by_name. now rewrite H.
Qed.
