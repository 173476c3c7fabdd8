(* Property theorems C08, C17, C25, C44, C56, C61 and C74, continued: small functions. *)
Require Import Verif.Base Verif.NumR Verif.L_real Verif.M_vector Verif.M_bbox Verif.M_line Verif.M_transform Verif.M_elems Verif.M_group Verif.M_anim Verif.M_frames Verif.M_matchers.
Require Import Verif.S_transform Verif.S_group Verif.L_group Verif.L_vector Verif.P_transform Verif.P_gnames.
From Coq Require Import String Reals List ZArith Lia Lra Bool.
Import ListNotations.
Local Open Scope string_scope.
Local Open Scope list_scope.

(* ------------------------------------------------------------------ *)
(** ** the named points of a group *)

(* any calls of add_pt one after the other; those that raise change nothing *)
Fixpoint add_pts {F} (t : list (string * pt F)) (l : list (string * pt F)) : list (string * pt F) :=
  match l with
  | [] => t
  | (n, p) :: l' => add_pts (match group_add_pt t n p with Ok t' => t' | Raise _ => t end) l'
  end.
(* the first point that was added under a name *)
Fixpoint first_named {F} (n : string) (l : list (string * pt F)) : option (pt F) :=
  match l with
  | [] => None
  | (k, p) :: l' => if string_dec k n then Some p else first_named n l'
  end.

Lemma find_key_app {A} k (a b : list (string * A)) : find_key k (a ++ b) = match find_key k a with Some x => Some x | None => find_key k b end.
Proof. induction a as [|[k' x] a IH]; [reflexivity|]. cbn. destruct (k =? k')%string; auto. Qed.
Lemma find_has {A} k (t : list (string * A)) : has_key k t = match find_key k t with Some _ => true | None => false end.
Proof. unfold has_key. destruct (find_key k t); reflexivity. Qed.

(* whatever points are added, lookup_pt of a name gives the first one that was added under it; it
   refuses names with a dot, and there are none in the table *)
Lemma points_found : forall {F} (l : list (string * pt F)) (n : string),
  group_lookup_pt (add_pts [] l) n =
  if has_dot n then Raise AssertionError
  else match first_named n l with Some p => Ok p | None => Raise KeyError end.
Proof.
  intros F l n. unfold group_lookup_pt. destruct (has_dot n) eqn:D; [reflexivity|].
  assert (K : forall t, find_key n (add_pts t l) = match find_key n t with Some p => Some p | None => first_named n l end).
  { induction l as [|[k p] l IH]; intros t; cbn [add_pts first_named]; [destruct (find_key n t); reflexivity|].
    rewrite IH. unfold group_add_pt. rewrite find_has. destruct (find_key k t) as [q|] eqn:Ek.
    - destruct (find_key n t) eqn:En; [reflexivity|]. destruct (string_dec k n) as [->|]; [congruence|reflexivity].
    - destruct (has_dot k) eqn:Dk.
      + destruct (find_key n t) eqn:En; [reflexivity|]. destruct (string_dec k n) as [->|]; [congruence|reflexivity].
      + rewrite find_key_app. destruct (find_key n t); [reflexivity|]. cbn.
        destruct (String.eqb_spec n k), (string_dec k n); congruence. }
  rewrite K. reflexivity.
Qed.
Theorem C44_points : forall {F} (l : list (string * pt F)) (n : string),
  (dotted_name n -> group_lookup_pt (add_pts [] l) n = Raise AssertionError) /\
  (~ dotted_name n -> group_lookup_pt (add_pts [] l) n =
     match first_named n l with Some p => Ok p | None => Raise KeyError end).
Proof.
  intros F l n. rewrite points_found, <- has_dot_spec. destruct (has_dot n); split; congruence.
Qed.
(* add_pt raises exactly for a name with a dot or in use *)
Theorem C44_points_raise : forall {F} (l : list (string * pt F)) (n : string) (p : pt F),
  (exists t, group_add_pt (add_pts [] l) n p = Ok t) <-> (~ dotted_name n /\ first_named n l = None).
Proof.
  intros F l n p. pose proof (points_found l n) as L. unfold group_lookup_pt in L. unfold group_add_pt. rewrite find_has, <- has_dot_spec.
  destruct (has_dot n).
  - split; [intros [t E]|intros [E _]; congruence]. destruct (find_key _ _); discriminate.
  - destruct (find_key n (add_pts [] l)) as [q|], (first_named n l) as [q'|]; try discriminate.
    + split; [intros [t E]|intros [_ E]]; discriminate.
    + split; [intros _; split; congruence|intros _; eauto].
Qed.
Example C44_points_example :
  let l := [("a", P 1 2); ("b.c", P 3 4); ("a", P 5 6); ("d", P 7 8)]%R in
  map fst (add_pts [] l) = ["a"; "d"] /\ group_lookup_pt (add_pts [] l) "a" = Ok (P 1 2)%R /\
  group_lookup_pt (add_pts [] l) "b.c" = Raise AssertionError /\ group_lookup_pt (add_pts [] l) "e" = Raise KeyError.
Proof. repeat split. Qed.

(* ------------------------------------------------------------------ *)
(** ** the size of the frames of a scaled animation *)

(* scaled(k) for a whole k >= 2: as many frames, each side the side of the first frame divided by
   k, rounded down; a side shorter than k comes out as nothing.  scaled(1) keeps every frame as it
   is.  Otherwise 0 raises, and so does an animation without frames. *)
Theorem C61_scaled : forall (k : Z) (im : image) (ims : list image), (0 <= i_w im)%Z -> (0 <= i_h im)%Z -> (2 <= k)%Z ->
  exists x y, scaled_sizes k (im :: ims) = Ok (repeat (x, y) (List.length (im :: ims))) /\
    (k * x <= i_w im < k * (x + 1))%Z /\ (k * y <= i_h im < k * (y + 1))%Z /\
    ((i_w im < k)%Z <-> x = 0%Z) /\ ((i_h im < k)%Z <-> y = 0%Z).
Proof.
  intros k im ims Hw Hh Hk. unfold scaled_sizes. destruct (Z.eqb_spec k 1) as [->|N]; [lia|].
  destruct (Z.eqb_spec k 0); [lia|]. exists (i_w im / k)%Z, (i_h im / k)%Z.
  pose proof (Z.div_mod (i_w im) k ltac:(lia)). pose proof (Z.mod_pos_bound (i_w im) k ltac:(lia)).
  pose proof (Z.div_mod (i_h im) k ltac:(lia)). pose proof (Z.mod_pos_bound (i_h im) k ltac:(lia)).
  split. { f_equal. generalize (im :: ims) as l. intros l. induction l as [|a l IH]; [reflexivity|cbn; f_equal; exact IH]. }
  split; [lia|]. split; [lia|]. split; (split; [intros; apply Z.div_small; lia|intros E; rewrite E in *; lia]).
Qed.
Example C61_scaled_one : forall ims : list image, scaled_sizes 1 ims = Ok (map (fun im => (i_w im, i_h im)) ims).
Proof. reflexivity. Qed.
Theorem C61_scaled_raises : forall (k : Z) (ims : list image) e,
  scaled_sizes k ims = Raise e <->
  (k <> 1%Z /\ ims = [] /\ e = IndexError) \/ (ims <> [] /\ k = 0%Z /\ e = ZeroDivisionError).
Proof.
  intros k ims e. unfold scaled_sizes. destruct (Z.eqb_spec k 1) as [->|N].
  - split; [discriminate|]. intros [[E _]|(_ & E & _)]; [congruence|discriminate].
  - destruct ims as [|im ims].
    + split; [intros E; injection E as <-; left; auto|intros [(_ & _ & ->)|[E _]]; [reflexivity|congruence]].
    + destruct (Z.eqb_spec k 0) as [->|Z0].
      * split; [intros E; injection E as <-; right; repeat split; discriminate|].
        intros [(_ & E & _)|(_ & _ & ->)]; [discriminate|reflexivity].
      * split; [discriminate|]. intros [(_ & E & _)|(_ & E & _)]; [discriminate|congruence].
Qed.
Example C61_scaled_example :
  scaled_sizes 2 [Image 7 4 (fun _ _ => true); Image 10 20 (fun _ _ => false)] = Ok [(3, 2); (3, 2)]%Z /\
  scaled_sizes 1 [] = Ok [].
Proof. split; reflexivity. Qed.

(* ------------------------------------------------------------------ *)
(** ** lines, matrices as six numbers, points as vectors *)
Local Open Scope R_scope.

(* lines are equal exactly when they have the same two points: the same set of points is not
   enough *)
Theorem C25_lines : forall a b : line R,
  line_eqb a b = true <-> (line_p1 a = line_p1 b /\ line_p2 a = line_p2 b).
Proof.
  intros [[ax ay] [ux uy]] [[bx by'] [wx wy]]. unfold line_eqb, line_p1, line_p2, p_eqb, v_eqb, p_add. cbn.
  rewrite !andb_true_iff, !Reqb_eq. split.
  - intros [[-> ->] [-> ->]]. split; reflexivity.
  - intros [E1 E2]. injection E1 as -> ->. injection E2 as E2 E3. repeat split; lra.
Qed.
Theorem C25_lines_set_refuted : exists a b : line R, line_eqb a b = false /\
  forall p, (exists t, p = p_add (lo a) (v_mul (ld a) t)) <-> (exists t, p = p_add (lo b) (v_mul (ld b) t)).
Proof.
  exists (Ln (P 0 0) (V 1 1)), (Ln (P 0 0) (V 2 2)). split.
  - destruct (line_eqb _ _) eqn:E; [|reflexivity]. apply C25_lines in E. destruct E as [_ E]. unfold line_p2 in E. cbn in E. injection E as E _. lra.
  - intros [x y]. split; intros [t E]; unfold p_add, v_mul in *; cbn in *; injection E as -> ->.
    + exists (t / 2). f_equal; field.
    + exists (t * 2). f_equal; ring.
Qed.

(* Transform(t.as_6tuple()) is t again, without its stack *)
Theorem C08_six : forall s : transform R, affine_mat (tmat s) ->
  let '(a, b, c, d, e, f) := t_as6 s in
  t_eqb (t_new6 a b c d e f) s = true /\ tstack (t_new6 a b c d e f) = [] /\
  forall p, t_transform (t_new6 a b c d e f) p = t_transform s p.
Proof.
  intros [[a b c d e f g h i] inv st] (E1 & E2 & E3). cbn in *. subst. split; [|split; reflexivity].
  unfold t_eqb, mat_eqb. cbn. rewrite !(proj2 (Reqb_eq _ _) eq_refl). reflexivity.
Qed.
(* and on any numbers, doubles included, it moves points alike *)
Theorem C08_six_moves : forall {F} {NF : Num F} (s : transform F) (p : pt F),
  let '(a, b, c, d, e, f) := t_as6 s in t_transform (t_new6 a b c d e f) p = t_transform s p.
Proof. intros F NF [[a b c d e f g h i] inv st] [x y]. reflexivity. Qed.

(* v.p and p.v go back and forth, and a point is its vector from the origin *)
Theorem C17_conversions : forall (p : pt R) (v : vec R),
  v_p (p_v p) = p /\ p_v (v_p v) = v /\ v_xy (p_v p) = p_xy p /\ p_add (P 0 0) (p_v p) = p /\ p_sub p (P 0 0) = p_v p /\
  (forall q, p_sub p q = v_sub (p_v p) (p_v q)) /\ (p_add p v = v_p (v_add (p_v p) v)).
Proof.
  intros [px py] [vx vy]. unfold p_add, p_sub, v_p, p_v, v_sub, v_add, v_xy, p_xy. cbn.
  repeat split; try (f_equal; ring).
Qed.

(* ------------------------------------------------------------------ *)
(** ** identity functions of time; points explained *)

(* identity() returns whatever it is given; identity_xy() is xy(identity(), identity()) on numbers;
   on pairs, which only identity_xy accepts, it changes nothing, as it does on its own results *)
Theorem C56_identity : forall t : R,
  exists f, tf_xy tf_identity tf_identity = Ok f /\ f (TNum t) = tf_identity_xy (TNum t) /\
  (forall u v : tval R, tf_identity_xy u = Ok v -> tf_identity_xy v = Ok v) /\
  (forall v : tval R, tf_identity v = Ok v) /\
  (forall a b : R, f (TPair a b) = Raise TypeError /\ tf_identity_xy (TPair a b) = Ok (TPair a b)).
Proof.
  intros t. eexists. split; [reflexivity|]. split; [reflexivity|]. split; [|split; [reflexivity|split; reflexivity]].
  intros [a|a b|] v E; cbn in E; try discriminate; injection E as <-; reflexivity.
Qed.

(* explain_mismatch for points tells whether they are close, and never why not *)
Theorem C74_point_explain : forall a b : pt R,
  snd (point_explain a b) = None /\ (fst (point_explain a b) = true <-> sqrt (dist2 a b) < 1 / 10 ^ 11).
Proof.
  intros a b. split; [reflexivity|]. unfold point_explain, p_close, close_delta. cbn [fst nltb NumR]. rewrite Rltb_lt.
  replace (v_length (p_sub a b)) with (sqrt (dist2 a b)) by reflexivity.
  replace (ndiv (nofZ 1) (nofZ (10 ^ 11))) with (1 / 10 ^ 11); [reflexivity|]. cbn [ndiv nofZ NumR].
  replace (10 ^ 11) with (IZR (10 ^ 11)) by exact (eq_sym (pow_IZR 10 11)).
  cbn [ndiv nofZ NumR]. reflexivity.
Qed.
