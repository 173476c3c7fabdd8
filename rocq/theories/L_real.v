(* Working with the exact instance: boolean comparisons on R as propositions. *)
Require Export Verif.Base Verif.NumR Verif.L_ord.
From Coq Require Export Reals Lra.
Open Scope R_scope.

Lemma pymin_R x y : pymin x y = Rmin x y.
Proof.
  unfold pymin. simpl. unfold Rltb, Rmin.
  destruct (Rlt_dec y x), (Rle_dec x y); auto; lra.
Qed.
Lemma pymax_R x y : pymax x y = Rmax x y.
Proof.
  unfold pymax. simpl. unfold Rltb, Rmax.
  destruct (Rlt_dec x y), (Rle_dec x y); auto; lra.
Qed.

#[global] Hint Rewrite andb_true_iff orb_true_iff andb_false_iff orb_false_iff negb_true_iff
  negb_false_iff Rleb_le Rleb_gt Rltb_lt Rltb_ge Reqb_eq Reqb_neq : rbool.

(* destruct every comparison in sight *)
Ltac rcases :=
  repeat match goal with
  | |- context [Rleb ?a ?b] => let E := fresh "E" in destruct (Rleb a b) eqn:E
  | |- context [Rltb ?a ?b] => let E := fresh "E" in destruct (Rltb a b) eqn:E
  | |- context [Reqb ?a ?b] => let E := fresh "E" in destruct (Reqb a b) eqn:E
  | H : context [Rleb ?a ?b] |- _ => let E := fresh "E" in destruct (Rleb a b) eqn:E
  | H : context [Rltb ?a ?b] |- _ => let E := fresh "E" in destruct (Rltb a b) eqn:E
  | H : context [Reqb ?a ?b] |- _ => let E := fresh "E" in destruct (Reqb a b) eqn:E
  end; autorewrite with rbool in *.

Lemma Reqb_refl x : Reqb x x = true.
Proof. apply Reqb_eq. reflexivity. Qed.

(* Python's a / b on exact numbers *)
Lemma pydiv_R a b : b <> 0 -> pydiv a b = Ok (a / b).
Proof.
  intros H. unfold pydiv. simpl. destruct (Reqb b 0) eqn:E; auto.
  apply Reqb_eq in E. contradiction.
Qed.
Lemma pydiv_R0 (a : R) : pydiv a 0 = Raise ZeroDivisionError.
Proof. unfold pydiv. simpl. rewrite Reqb_refl. reflexivity. Qed.
