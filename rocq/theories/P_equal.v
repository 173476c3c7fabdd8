(* C72: equality of elements, and control points that are close. *)
From Coq Require Import Reals Lra.
Require Import Verif.L_real.
Require Import Verif.Base Verif.NumR Verif.M_vector Verif.M_bbox Verif.M_transform Verif.M_bezier Verif.M_colors Verif.M_elems Verif.M_group Verif.S_group Verif.L_group Verif.P_greplace.
From Coq Require Import String List Bool Lia Permutation.
Import ListNotations.
Local Open Scope string_scope.
Local Open Scope list_scope.

(* ---------------- specification ---------------- *)
(* every name is used once in each table, as in a dict *)
Inductive keyed {F} : elem F -> Prop :=
| keyed_leaf b s : keyed (ELeaf b s)
| keyed_group b h l p : NoDup (map fst l) -> NoDup (map fst p) -> (forall k e, In (k, e) l -> keyed e) -> keyed (EGroup b h l p)
| keyed_holes b o i : keyed o -> (forall e, In e i -> keyed e) -> keyed (EHoles b o i).

(* the same element: same class, name, pens, closedness, matrix and shape; groups have the same
   hidden flag, the same members under the same names and the same points under the same names *)
Inductive same_elem : elem R -> elem R -> Prop :=
| same_leaf b b' s : same_base b b' -> same_elem (ELeaf b s) (ELeaf b' s)
| same_group b b' h l l' p p' : same_base b b' -> (forall k, same_member (find_key k l) (find_key k l')) ->
    (forall k, find_key k p = find_key k p') -> same_elem (EGroup b h l p) (EGroup b' h l' p')
| same_holes b b' o o' i i' : same_base b b' -> same_elem o o' -> same_list i i' -> same_elem (EHoles b o i) (EHoles b' o' i')
with same_member : option (elem R) -> option (elem R) -> Prop :=
| same_none : same_member None None
| same_some e e' : same_elem e e' -> same_member (Some e) (Some e')
with same_list : list (elem R) -> list (elem R) -> Prop :=
| same_nil : same_list [] []
| same_cons e e' l l' : same_elem e e' -> same_list l l' -> same_list (e :: l) (e' :: l').

(* ---------------- dicts ---------------- *)
Section Dicts.
  Context {A : Type}.
  Lemma find_in k (a : A) l : find_key k l = Some a -> In (k, a) l.
  Proof. induction l as [|[k' b] l IH]; cbn; [discriminate|]. destruct (String.eqb_spec k k'); [intros E; injection E as ->; subst; auto|auto]. Qed.
  Lemma find_some_key k (l : list (string * A)) : find_key k l <> None <-> In k (map fst l).
  Proof.
    induction l as [|[k' b] l IH]; cbn; [tauto|]. destruct (String.eqb_spec k k').
    - subst. split; [auto|discriminate].
    - rewrite IH. split; [auto|]. intros [->|H]; [contradiction|auto].
  Qed.
  Lemma in_find k (a : A) l : NoDup (map fst l) -> In (k, a) l -> find_key k l = Some a.
  Proof.
    induction l as [|[k' b] l IH]; cbn; intros N; [intros []|intros [E|I]].
    - injection E as -> ->. now rewrite String.eqb_refl.
    - inversion N; subst. destruct (String.eqb_spec k k'); [|auto]. subst. exfalso. apply H1, in_map_iff. now exists (k', a).
  Qed.
  (* equality of dicts as Python computes it *)
  Lemma dict_spec (f : A -> A -> bool) (l l' : list (string * A)) : NoDup (map fst l) -> NoDup (map fst l') ->
    ((List.length l =? List.length l')%nat && forallb (fun ka => match find_key (fst ka) l' with Some b => f (snd ka) b | None => false end) l = true <->
     forall k, match find_key k l, find_key k l' with None, None => True | Some a, Some b => f a b = true | _, _ => False end).
  Proof.
    intros N N'. rewrite andb_true_iff, Nat.eqb_eq, forallb_forall. split.
    - intros [L H] k.
      assert (I : incl (map fst l) (map fst l')).
      { intros x I. apply in_map_iff in I as ([y a] & <- & I). specialize (H _ I). cbn in *. apply find_some_key. destruct (find_key y l'); congruence. }
      assert (I' : incl (map fst l') (map fst l)). { apply NoDup_length_incl; auto. rewrite !map_length. lia. }
      destruct (find_key k l) as [a|] eqn:E; destruct (find_key k l') as [b|] eqn:E'; auto.
      + apply find_in in E. specialize (H _ E). cbn in H. now rewrite E' in H.
      + apply find_in in E. specialize (H _ E). cbn in H. now rewrite E' in H.
      + assert (K : In k (map fst l)) by (apply I', find_some_key; congruence). apply find_some_key in K. contradiction.
    - intros H. split.
      + rewrite <- (map_length fst l), <- (map_length fst l'). apply Permutation_length, NoDup_Permutation; auto.
        intros k. rewrite <- !find_some_key. specialize (H k). destruct (find_key k l), (find_key k l'); split; try congruence; contradiction.
      + intros [k a] I. cbn. specialize (H k). rewrite (in_find k a l N I) in H. destruct (find_key k l'); [exact H|contradiction].
  Qed.
End Dicts.

Lemma p_reflects' (a b : pt R) : p_eqb a b = true <-> a = b.
Proof.
  pose proof (shape_reflects (SRect a a) (SRect b b)) as K. cbn in K. rewrite andb_true_iff in K. split.
  - intros E. assert (SRect a a = SRect b b) by (apply K; auto). congruence.
  - intros ->. apply K. reflexivity.
Qed.

(* == on elements is just that *)
Theorem C72_equal : forall a b : elem R, keyed a -> keyed b -> (elem_eqb a b = true <-> same_elem a b).
Proof.
  induction a as [x s|x h l p IH|x o i IHo IHi] using elem_induction; intros b Ka Kb; destruct b as [y t|y h' l' p'|y o' i']; cbn [elem_eqb];
    try (split; [discriminate|intros H; inversion H]).
  - rewrite andb_true_iff, base_reflects, shape_reflects. split; [intros [B ->]; now constructor|intros H; inversion H; auto].
  - inversion Ka as [|? ? ? ? N1 N2 N3|]; subst. inversion Kb as [|? ? ? ? N1' N2' N3'|]; subst.
    unfold points_eqb. rewrite !andb_true_iff, base_reflects, Bool.eqb_true_iff.
    rewrite <- (andb_true_iff (List.length l =? List.length l')%nat), <- (andb_true_iff (List.length p =? List.length p')%nat), !dict_spec by auto.
    assert (M1 : (forall k, match find_key k l, find_key k l' with None, None => True | Some a, Some b => elem_eqb a b = true | _, _ => False end) <-> (forall k, same_member (find_key k l) (find_key k l'))).
    { assert (X : forall k, match find_key k l, find_key k l' with None, None => True | Some a, Some b => elem_eqb a b = true | _, _ => False end <-> same_member (find_key k l) (find_key k l')).
      { intros k. destruct (find_key k l) as [a|] eqn:E; destruct (find_key k l') as [b|] eqn:E'; [|split; [intros []|intros H; inversion H]|split; [intros []|intros H; inversion H]|].
        - apply find_in in E, E'. rewrite Forall_forall in IH. pose proof (IH _ E b (N3 _ _ E) (N3' _ _ E')) as Q. cbn [snd] in Q. cbv iota beta. rewrite Q. split; [now constructor|intros H; now inversion H].
        - split; auto. intros _. constructor. }
      split; intros H k; apply X, H. }
    assert (M2 : (forall k, match find_key k p, find_key k p' with None, None => True | Some a, Some b => p_eqb a b = true | _, _ => False end) <-> (forall k, find_key k p = find_key k p')).
    { assert (X : forall k, match find_key k p, find_key k p' with None, None => True | Some a, Some b => p_eqb a b = true | _, _ => False end <-> find_key k p = find_key k p').
      { intros k. destruct (find_key k p) as [a|]; destruct (find_key k p') as [b|]; [|split; [intros []|discriminate]|split; [intros []|discriminate]|].
        - rewrite p_reflects'. split; congruence.
        - tauto. }
      split; intros H k; apply X, H. }
    rewrite M1, M2. split.
    + intros [[[A B] C] D]. subst h'. now constructor.
    + intros H. inversion H; subst. auto.
  - inversion Ka as [| |? ? ? K1 K2]; subst. inversion Kb as [| |? ? ? K1' K2']; subst.
    rewrite !andb_true_iff, base_reflects, (IHo o' K1 K1').
    match goal with |- context [?g i i' = true] => set (go := g) end.
    assert (G : forall i', (forall e, In e i -> keyed e) -> (forall e, In e i' -> keyed e) -> (go i i' = true <-> same_list i i')).
    { clear - IHi. induction IHi as [|e i He _ IHi]; intros [|e' i'] A B; cbn; try (split; [discriminate|intros H; inversion H]).
      - split; [intros _; constructor|reflexivity].
      - rewrite andb_true_iff, (He e' (A _ (or_introl eq_refl)) (B _ (or_introl eq_refl))). fold go. rewrite (IHi i' (fun e I => A e (or_intror I)) (fun e I => B e (or_intror I))).
        split; [intros []; now constructor|intros H; inversion H; auto]. }
    rewrite (G i' K2 K2'). split; [intros [[A B] C]; now constructor|intros H; inversion H; auto].
Qed.

(* It is an equivalence *)
Lemma base_refl (b : ebase R) : same_base b b.
Proof. repeat split. Qed.
Theorem C72_equivalence :
  (forall a : elem R, keyed a -> elem_eqb a a = true) /\
  (forall a b : elem R, keyed a -> keyed b -> elem_eqb a b = true -> elem_eqb b a = true) /\
  (forall a b c : elem R, keyed a -> keyed b -> keyed c -> elem_eqb a b = true -> elem_eqb b c = true -> elem_eqb a c = true).
Proof.
  assert (Rf : forall a : elem R, same_elem a a).
  { induction a as [x s|x h l p IH|x o i IHo IHi] using elem_induction; constructor; auto using base_refl.
    - intros k. destruct (find_key k l) as [e|] eqn:E; constructor. apply find_in in E. rewrite Forall_forall in IH. exact (IH _ E).
    - induction IHi; constructor; auto. }
  assert (Sy : forall a b, same_elem a b -> same_elem b a).
  { induction a as [x s|x h l p IH|x o i IHo IHi] using elem_induction; intros b H; inversion H; subst; constructor; auto;
      try (match goal with B : same_base _ _ |- _ => unfold same_base in *; intuition congruence end).
    - intros k. specialize (H6 k). destruct (find_key k l) as [e|] eqn:E; inversion H6; subst; constructor. apply find_in in E. rewrite Forall_forall in IH. now apply (IH _ E).
    - clear - H6 IHi. revert i' H6. induction IHi; intros i' H6; inversion H6; subst; constructor; auto. }
  assert (Tr : forall a b c, same_elem a b -> same_elem b c -> same_elem a c).
  { induction a as [x s|x h l p IH|x o i IHo IHi] using elem_induction; intros b c H H'; inversion H; subst; inversion H'; subst; constructor;
      try (match goal with B : same_base _ _, C : same_base _ _ |- _ => unfold same_base in *; intuition congruence end).
    - intros k. specialize (H6 k). specialize (H9 k). destruct (find_key k l) as [e|] eqn:E; destruct (find_key k l') as [e2|]; [|inversion H6|inversion H6|].
      + inversion H9; subst. constructor. inversion H6; subst. apply find_in in E. rewrite Forall_forall in IH. now apply (IH _ E) with e2.
      + inversion H9; subst. constructor.
    - now apply IHo with o'.
    - clear - H6 H9 IHi. revert i' i'0 H6 H9. induction IHi; intros i1 i2 A B; inversion A; subst; inversion B; subst; constructor; eauto. }
  split; [|split].
  - intros a K. now apply C72_equal.
  - intros a b Ka Kb H. apply C72_equal; auto. apply Sy. now apply C72_equal.
  - intros a b c Ka Kb Kc H H'. apply C72_equal; auto. apply Tr with b; now apply C72_equal.
Qed.

(* The order in which members and points were added does not count *)
Theorem C72_order : forall (b : ebase R) h l l' p p', keyed (EGroup b h l p) -> Permutation l l' -> Permutation p p' ->
  elem_eqb (EGroup b h l p) (EGroup b h l' p') = true.
Proof.
  intros b h l l' p p' K Pl Pp. inversion K as [|? ? ? ? N1 N2 N3|]; subst.
  assert (Q : forall A (m m' : list (string * A)), NoDup (map fst m) -> Permutation m m' -> forall k, find_key k m = find_key k m').
  { intros A m m' N Pm k. assert (N' : NoDup (map fst m')) by (eapply Permutation_NoDup; [apply Permutation_map; exact Pm|exact N]).
    destruct (find_key k m) as [a|] eqn:E.
    - symmetry. apply in_find; auto. eapply Permutation_in; [exact Pm|]. now apply find_in.
    - destruct (find_key k m') as [a|] eqn:E'; auto. apply find_in in E'. apply (Permutation_in _ (Permutation_sym Pm)) in E'. apply in_find in E'; auto. congruence. }
  assert (K' : keyed (EGroup b h l' p')).
  { constructor; [eapply Permutation_NoDup; [apply Permutation_map; exact Pl|exact N1]|eapply Permutation_NoDup; [apply Permutation_map; exact Pp|exact N2]|].
    intros k e I. apply (N3 k). eapply Permutation_in; [apply Permutation_sym; exact Pl|exact I]. }
  apply C72_equal; auto. pose proof (proj1 (C72_equal _ _ K K) (proj1 C72_equivalence _ K)) as S0. inversion S0; subst. constructor; auto using base_refl.
  - intros k. rewrite <- (Q _ l l' N1 Pl k). match goal with H : forall k, same_member _ _ |- _ => apply H end.
Qed.

(* ---------------- close ---------------- *)
Local Open Scope R_scope.
Definition distance (x y x' y' : R) : R := R_sqrt.sqrt ((x - x') * (x - x') + (y - y') * (y - y')).
Lemma distance_sym x y x' y' : distance x y x' y' = distance x' y' x y.
Proof. unfold distance. f_equal. ring. Qed.
Lemma distance_self x y : distance x y x y = 0.
Proof. unfold distance. replace ((x - x) * (x - x) + (y - y) * (y - y)) with 0 by ring. apply sqrt_0. Qed.
Lemma norm_triangle a b c d : R_sqrt.sqrt ((a + c) * (a + c) + (b + d) * (b + d)) <= R_sqrt.sqrt (a * a + b * b) + R_sqrt.sqrt (c * c + d * d).
Proof.
  set (u := R_sqrt.sqrt (a * a + b * b)). set (v := R_sqrt.sqrt (c * c + d * d)).
  assert (U : u * u = a * a + b * b) by (apply sqrt_sqrt; nra).
  assert (W : v * v = c * c + d * d) by (apply sqrt_sqrt; nra).
  assert (U0 : 0 <= u) by apply sqrt_pos. assert (V0 : 0 <= v) by apply sqrt_pos.
  rewrite <- (sqrt_square (u + v)) by lra. apply sqrt_le_1_alt.
  assert (K : a * c + b * d <= u * v).
  { destruct (Rle_dec (a * c + b * d) (u * v)) as [|N]; auto. exfalso. apply Rnot_le_lt in N. assert (P0 : 0 <= u * v) by nra.
    assert ((u * v) * (u * v) < (a * c + b * d) * (a * c + b * d)) by nra.
    assert (E : (u * v) * (u * v) = (a * a + b * b) * (c * c + d * d)) by (rewrite <- U, <- W; ring).
    pose proof (Rle_0_sqr (a * d - b * c)) as Sq. unfold Rsqr in Sq. rewrite E in H. lra. }
  nra.
Qed.
Lemma distance_triangle x y x' y' x'' y'' : distance x y x'' y'' <= distance x y x' y' + distance x' y' x'' y''.
Proof.
  unfold distance. eapply Rle_trans; [|apply norm_triangle]. right. f_equal. ring.
Qed.

(* Control points are close when the kinds are equal and the point and both handles are nearer
   than max_delta *)
Theorem C72_close : forall d (a b : cpoint R), cp_close d a b = true <->
  ckind a = ckind b /\ distance (px (cc a)) (py (cc a)) (px (cc b)) (py (cc b)) < d /\
  distance (vx (cdl a)) (vy (cdl a)) (vx (cdl b)) (vy (cdl b)) < d /\ distance (vx (cdr a)) (vy (cdr a)) (vx (cdr b)) (vy (cdr b)) < d.
Proof.
  intros d a b. unfold cp_close, p_close, v_close. rewrite !andb_true_iff, String.eqb_eq.
  assert (L : forall u, @nltb R _ u d = true <-> u < d) by (intros; apply Rltb_lt). rewrite !L. unfold distance. cbn. tauto.
Qed.
(* It is symmetric, holds for a point and itself when max_delta is positive, and deviations add up *)
Theorem C72_close_metric : forall d d' (a b c : cpoint R),
  cp_close d a b = cp_close d b a /\ (cp_close d a a = true <-> 0 < d) /\
  (cp_close d a b = true -> cp_close d' b c = true -> cp_close (d + d') a c = true).
Proof.
  intros d d' a b c. split; [|split].
  - apply eq_true_iff_eq. rewrite !C72_close. rewrite (distance_sym (px (cc a))), (distance_sym (vx (cdl a))), (distance_sym (vx (cdr a))). split; intros (H & ?); auto.
  - rewrite C72_close, !distance_self. tauto.
  - rewrite !C72_close. intros (A & B & C & D) (A' & B' & C' & D'). split; [congruence|].
    split; [|split]; (eapply Rle_lt_trans; [apply distance_triangle|apply Rplus_lt_compat; eassumption]).
Qed.
(* no max_delta > 0 makes it transitive *)
Theorem C72_close_not_transitive : forall d, 0 < d -> exists a b c : cpoint R, cp_close d a b = true /\ cp_close d b c = true /\ cp_close d a c = false.
Proof.
  intros d Hd. set (k x := CP (P x 0) (V 0 0) (V 0 0) "smooth" : cpoint R). exists (k 0), (k (d / 2)), (k d).
  assert (K : forall x y, cp_close d (k x) (k y) = true <-> Rabs (x - y) < d).
  { intros x y. rewrite C72_close. cbn. unfold distance. replace ((0 - 0) * (0 - 0)) with 0 by ring. rewrite !Rplus_0_r, sqrt_0. fold (Rsqr (x - y)). rewrite sqrt_Rsqr_abs. tauto. }
  split; [apply K; unfold Rabs; destruct (Rcase_abs _); lra|]. split; [apply K; unfold Rabs; destruct (Rcase_abs _); lra|].
  destruct (cp_close d (k 0) (k d)) eqn:E; auto. apply K in E. unfold Rabs in E. destruct (Rcase_abs _) in E; lra.
Qed.

(* groups filled in different orders, and a group with another point *)
Definition eq_leaf (n : string) : elem R := ELeaf (EB n (PenBrush None None) true t_new) (SRect (P 0 0) (P 1 1)).
Definition eq_group l p : elem R := EGroup (EB "g" (PenBrush None None) false t_new) false l p.
Example C72_ex :
  let g1 := eq_group [("a", eq_leaf "a"); ("b", eq_leaf "b")] [("p", P 1 2); ("q", P 3 4)] in
  let g2 := eq_group [("b", eq_leaf "b"); ("a", eq_leaf "a")] [("q", P 3 4); ("p", P 1 2)] in
  let g3 := eq_group [("b", eq_leaf "b"); ("a", eq_leaf "a")] [("q", P 3 4); ("p", P 1 5)] in
  keyed g1 /\ keyed g2 /\ keyed g3 /\ elem_eqb g1 g2 = true /\ elem_eqb g1 g3 = false.
Proof.
  intros g1 g2 g3. assert (K : forall l p, NoDup (map fst l) -> NoDup (map fst p) -> (forall k e, In (k, e) l -> e = eq_leaf "a" \/ e = eq_leaf "b") -> keyed (eq_group l p)).
  { intros l p A B C. constructor; auto. intros k e I. destruct (C k e I) as [->| ->]; constructor. }
  assert (N : forall a b : string, a <> b -> NoDup [a; b]) by (intros a b D; repeat constructor; cbn; intuition congruence).
  assert (K1 : keyed g1). { apply K; [apply N; discriminate|apply N; discriminate|]. intros k e [E|[E|[]]]; injection E as <- <-; auto. }
  assert (K2 : keyed g2). { apply K; [apply N; discriminate|apply N; discriminate|]. intros k e [E|[E|[]]]; injection E as <- <-; auto. }
  assert (K3 : keyed g3). { apply K; [apply N; discriminate|apply N; discriminate|]. intros k e [E|[E|[]]]; injection E as <- <-; auto. }
  split; [exact K1|]. split; [exact K2|]. split; [exact K3|]. split.
  - apply C72_order; [exact K1|apply perm_swap|apply perm_swap].
  - destruct (elem_eqb g1 g3) eqn:E; auto. apply (C72_equal g1 g3 K1 K3) in E. inversion E as [|? ? ? ? ? ? ? _ _ Q|]; subst. specialize (Q "p"). cbn in Q. injection Q as Q. lra.
Qed.
