(* Property theorems C17, C18, C20, C21 and part of C25: vectors, points, parse, polygon_area. *)
Require Import Verif.L_real Verif.M_vector Verif.L_vector.
From Coq Require Import List Lra Psatz.
Import ListNotations.

(* ---------------------------------------------------------------- *)
(** ** C17 operators *)

Inductive kind := KNum | KVec | KPt.
Definition kind_of {F} (v : value F) : kind :=
  match v with VNum _ => KNum | VVec _ => KVec | VPt _ => KPt end.

(* the table in the docstring of Vector, with the combinations it leaves out undefined *)
Definition add_kind (a b : kind) : option kind :=
  match a, b with
  | KNum, KNum => Some KNum | KVec, KVec => Some KVec
  | KVec, KPt => Some KPt | KPt, KVec => Some KPt
  | _, _ => None
  end.
Definition sub_kind (a b : kind) : option kind :=
  match a, b with
  | KNum, KNum => Some KNum | KVec, KVec => Some KVec
  | KPt, KVec => Some KPt | KPt, KPt => Some KVec
  | _, _ => None
  end.
(* vector * vector is accepted by the code and is left out here, see C17_vector_times_vector *)
Definition mul_kind (a b : kind) : option kind :=
  match a, b with
  | KNum, KNum => Some KNum | KVec, KNum => Some KVec | KNum, KVec => Some KVec
  | _, _ => None
  end.
Definition div_kind (a b : kind) : option kind :=
  match a, b with
  | KNum, KNum => Some KNum | KVec, KNum => Some KVec
  | _, _ => None
  end.

Theorem C17_add_kinds {F} {NF : Num F} (a b : value F) :
  match op_add a b with
  | Ok r => add_kind (kind_of a) (kind_of b) = Some (kind_of r)
  | Raise e => add_kind (kind_of a) (kind_of b) = None /\ e = TypeError
  end.
Proof. destruct a, b; cbn; auto. Qed.
Theorem C17_sub_kinds {F} {NF : Num F} (a b : value F) :
  match op_sub a b with
  | Ok r => sub_kind (kind_of a) (kind_of b) = Some (kind_of r)
  | Raise e => sub_kind (kind_of a) (kind_of b) = None /\
      (* a number on the right of a vector or point has no coordinates to read *)
      e = (match kind_of a, kind_of b with KNum, _ => TypeError | _, KNum => AttributeError | _, _ => TypeError end)
  end.
Proof. destruct a, b; cbn; auto. Qed.
Theorem C17_mul_kinds {F} {NF : Num F} (a b : value F) :
  (kind_of a <> KVec \/ kind_of b <> KVec) ->
  match op_mul a b with
  | Ok (inl r) => mul_kind (kind_of a) (kind_of b) = Some (kind_of r)
  | Ok (inr _) => False
  | Raise e => mul_kind (kind_of a) (kind_of b) = None /\ e = TypeError
  end.
Proof. destruct a, b; cbn; auto; intros [H|H]; congruence. Qed.
Theorem C17_div_kinds {F} {NF : Num F} (a b : value F) :
  match op_div a b with
  | Ok r => div_kind (kind_of a) (kind_of b) = Some (kind_of r)
  | Raise e => (div_kind (kind_of a) (kind_of b) = None /\ e = TypeError) \/
               (exists n, b = VNum n /\ neqb n (nofZ 0) = true /\ e = ZeroDivisionError)
  end.
Proof.
  destruct a, b; cbn; auto; unfold v_div, pydiv; destruct (neqb n0 (nofZ 0)) eqn:E || destruct (neqb n (nofZ 0)) eqn:E;
    cbn; eauto.
Qed.
(* V*V is not rejected: it makes a vector whose coordinates are vectors *)
Theorem C17_vector_times_vector {F} {NF : Num F} (v w : vec F) :
  op_mul (VVec v) (VVec w) = Ok (inr (V (v_mul w (vx v)) (v_mul w (vy v)))).
Proof. reflexivity. Qed.
(* the docstring's "V+-P -> P": the minus half is not supported *)
Theorem C17_vector_minus_point_refuted {F} {NF : Num F} (v : vec F) (p : pt F) :
  ~ exists r, op_sub (VVec v) (VPt p) = Ok r.
Proof. intros [r H]. discriminate. Qed.

(* every operator that is allowed works coordinate by coordinate, on numbers of any kind *)
Theorem C17_operator_values {F} {NF : Num F} (a b c d n : F) :
  op_add (VPt (P a b)) (VVec (V c d)) = Ok (VPt (P (nadd a c) (nadd b d))) /\
  op_add (VVec (V c d)) (VPt (P a b)) = Ok (VPt (P (nadd a c) (nadd b d))) /\
  op_add (VVec (V a b)) (VVec (V c d)) = Ok (VVec (V (nadd a c) (nadd b d))) /\
  op_sub (VPt (P a b)) (VPt (P c d)) = Ok (VVec (V (nsub a c) (nsub b d))) /\
  op_sub (VPt (P a b)) (VVec (V c d)) = Ok (VPt (P (nsub a c) (nsub b d))) /\
  op_sub (VVec (V a b)) (VVec (V c d)) = Ok (VVec (V (nsub a c) (nsub b d))) /\
  op_mul (VVec (V a b)) (VNum n) = Ok (inl (VVec (V (nmul a n) (nmul b n)))) /\
  op_mul (VNum n) (VVec (V a b)) = Ok (inl (VVec (V (nmul a n) (nmul b n)))) /\
  (neqb n (nofZ 0) = false -> op_div (VVec (V a b)) (VNum n) = Ok (VVec (V (ndiv a n) (ndiv b n)))) /\
  (neqb n (nofZ 0) = true -> op_div (VVec (V a b)) (VNum n) = Raise ZeroDivisionError).
Proof.
  repeat match goal with |- _ /\ _ => split end; try reflexivity; intros H; cbn [op_div v_div bind];
    unfold v_div, pydiv; cbn [vx vy]; rewrite H; reflexivity.
Qed.
(* the laws of an affine space, over exact numbers: what one operator does another undoes *)
Theorem C17_operator_laws (p q : pt R) (u v : vec R) :
  (op_sub (VPt q) (VPt p) = Ok (VVec v) <-> op_add (VPt p) (VVec v) = Ok (VPt q)) /\
  (op_sub (VPt q) (VVec v) = Ok (VPt p) <-> op_add (VPt p) (VVec v) = Ok (VPt q)) /\
  (forall w, op_sub (VVec w) (VVec u) = Ok (VVec v) <-> op_add (VVec u) (VVec v) = Ok (VVec w)) /\
  (forall n, n <> 0 -> (op_div (VVec u) (VNum n) = Ok (VVec v) <-> op_mul (VVec v) (VNum n) = Ok (inl (VVec u)))).
Proof.
  destruct p as [a b], q as [c d], u as [e f], v as [g h]. split; [|split; [|split]].
  - split; intros H; injection H as E1 E2; cbn; unfold p_add, p_sub, p_subv, v_add, v_sub; cbn; repeat f_equal; lra.
  - split; intros H; injection H as E1 E2; cbn; unfold p_add, p_sub, p_subv, v_add, v_sub; cbn; repeat f_equal; lra.
  - intros [x y]. split; intros H; injection H as E1 E2; cbn; unfold p_add, p_sub, p_subv, v_add, v_sub; cbn; repeat f_equal; lra.
  - intros n N. destruct (C17_operator_values e f g h n) as (_ & _ & _ & _ & _ & _ & _ & _ & D & _).
    rewrite D by (cbn; unfold Reqb; destruct (Req_EM_T n 0); [contradiction|reflexivity]).
    split; intros E; injection E as E1 E2; cbn in *; subst; cbn; unfold v_mul; cbn; repeat f_equal; field; assumption.
Qed.

(* values, over exact numbers *)
Theorem C17_affine_space (p q : pt R) (u v w : vec R) :
  p_add p (p_sub q p) = q /\ p_sub (p_add p v) p = v /\ p_subv (p_add p v) v = p /\
  p_add (p_add p v) w = p_add p (v_add v w) /\
  p_sub p p = V 0 0 /\ p_sub p q = v_neg (p_sub q p) /\
  v_add (p_sub p q) (p_sub q (p_add q v)) = p_sub p (p_add q v) /\
  v_add u v = v_add v u /\ v_add (v_add u v) w = v_add u (v_add v w) /\
  v_add u (V 0 0) = u /\ v_add u (v_neg u) = V 0 0 /\ v_sub u v = v_add u (v_neg v).
Proof.
  destruct p, q, u, v, w.
  repeat split; (apply pnt_ext || apply vec_ext); cbn -[IZR]; ring.
Qed.
Theorem C17_scalar_laws (u v : vec R) (a b : R) :
  v_mul (v_add u v) a = v_add (v_mul u a) (v_mul v a) /\
  v_mul u (a + b) = v_add (v_mul u a) (v_mul u b) /\
  v_mul (v_mul u a) b = v_mul u (a * b) /\ v_mul u 1 = u /\
  (b <> 0 -> v_div u b = Ok (v_mul u (/ b))) /\
  v_div u 0 = Raise ZeroDivisionError /\
  op_mul (VNum a) (VVec u) = op_mul (VVec u) (VNum a).
Proof.
  destruct u, v.
  split; [apply vec_ext; cbn -[IZR]; ring|]. split; [apply vec_ext; cbn -[IZR]; ring|].
  split; [apply vec_ext; cbn -[IZR]; ring|]. split; [apply vec_ext; cbn -[IZR]; ring|].
  split; [|split; [|reflexivity]].
  - intros H. unfold v_div. rewrite !pydiv_R by auto. reflexivity.
  - unfold v_div. rewrite !pydiv_R0. reflexivity.
Qed.
(* both orders of point and vector add the same way, on any number type *)
Theorem C17_add_commutes {F} {NF : Num F} (p : pt F) (v : vec F) :
  op_add (VPt p) (VVec v) = op_add (VVec v) (VPt p).
Proof. reflexivity. Qed.
(* mid is halfway *)
Theorem C17_mid (p q : pt R) :
  p_add p (v_mul (p_sub q p) (1 / 2)) = p_mid p q /\ p_mid p q = p_mid q p.
Proof. destruct p, q. split; apply pnt_ext; cbn -[IZR]; field. Qed.

(* ---------------------------------------------------------------- *)
(** ** C18 vector geometry *)

Theorem C18_length (v : vec R) (k : R) :
  0 <= v_length v /\ (v_length v = 0 <-> v = V 0 0) /\
  v_length v = sqrt (v_dot v v) /\ v_length (v_mul v k) = Rabs k * v_length v /\
  v_length (v_neg v) = v_length v.
Proof.
  split; [apply length_pos|]. split; [apply length_0|]. split; [reflexivity|]. split.
  - unfold v_length. cbn -[IZR].
    replace (vx v * k * (vx v * k) + vy v * k * (vy v * k)) with (k * k * (vx v * vx v + vy v * vy v)) by ring.
    rewrite sqrt_mult_alt by nra. f_equal. rewrite <- sqrt_Rsqr_abs. reflexivity.
  - unfold v_length. cbn -[IZR]. f_equal. ring.
Qed.
Theorem C18_triangle_inequality (u v : vec R) : v_length (v_add u v) <= v_length u + v_length v.
Proof.
  pose proof (length_pos u). pose proof (length_pos v). pose proof (length_pos (v_add u v)).
  pose proof (length_sq u). pose proof (length_sq v). pose proof (length_sq (v_add u v)) as E.
  cbn -[IZR v_length] in E.
  assert (C : vx u * vx v + vy u * vy v <= v_length u * v_length v).
  { destruct (Rle_dec (vx u * vx v + vy u * vy v) 0); [nra|].
    apply Rsqr_incr_0_var; [|nra]. unfold Rsqr.
    assert (v_length u * v_length v * (v_length u * v_length v) = (vx u * vx u + vy u * vy u) * (vx v * vx v + vy v * vy v))
      by (rewrite <- H2, <- H3; ring).
    pose proof (Rle_0_sqr (vx u * vy v - vy u * vx v)). unfold Rsqr in *. lra. }
  apply Rsqr_incr_0_var; [|lra]. unfold Rsqr. lra.
Qed.

Theorem C18_unit (v : vec R) :
  (v <> V 0 0 -> exists u, v_unit v = Ok u /\ v_length u = 1 /\
     0 < v_length v /\ v = v_mul u (v_length v)) /\
  (v = V 0 0 -> v_unit v = Raise ZeroDivisionError).
Proof.
  split.
  - intros H. destruct (unit_ok v H) as (u & E & L & Hx & Hy & Hp). exists u.
    split; auto. split; auto. split; auto. apply vec_ext; cbn -[v_length]; lra.
  - intros H. apply length_0 in H. rewrite unit_R. destruct (Req_EM_T (v_length v) 0); [reflexivity|contradiction].
Qed.

(* normal is the vector turned 90 degrees clockwise *)
Theorem C18_normal (v : vec R) :
  v_normal v = v_rotate v (-90) /\ v_dot v (v_normal v) = 0 /\ v_length (v_normal v) = v_length v /\
  v_cross v (v_normal v) = - v_dot v v.
Proof.
  split; [|split; [|split]].
  - unfold v_rotate, radians. cbn -[IZR]. replace (-90 * (PI / 180)) with (- (PI / 2)) by field.
    rewrite cos_neg, sin_neg, cos_PI2, sin_PI2. apply vec_ext; cbn -[IZR]; ring.
  - unfold v_dot, v_normal. cbn. ring.
  - unfold v_length. cbn. f_equal. ring.
  - unfold v_cross, v_dot, v_normal. cbn. ring.
Qed.

Theorem C18_dot_cross (u v w : vec R) (a b : R) :
  v_dot u v = v_dot v u /\ v_cross u v = - v_cross v u /\ v_cross u u = 0 /\
  v_dot (v_add (v_mul u a) (v_mul v b)) w = a * v_dot u w + b * v_dot v w /\
  v_cross (v_add (v_mul u a) (v_mul v b)) w = a * v_cross u w + b * v_cross v w /\
  v_dot u v * v_dot u v + v_cross u v * v_cross u v = (v_length u * v_length u) * (v_length v * v_length v).
Proof.
  rewrite !length_sq. unfold v_dot, v_cross. cbn -[IZR]. repeat split; ring.
Qed.

(* cross is zero exactly when the vectors are parallel *)
Theorem C18_cross_zero (u v : vec R) : u <> V 0 0 ->
  (v_cross u v = 0 <-> exists k, v = v_mul u k).
Proof.
  intros NZ. split.
  - intros H. unfold v_cross in H. cbn in H.
    destruct (Req_dec (vx u) 0) as [E|E].
    + destruct (Req_dec (vy u) 0) as [E2|E2]; [exfalso; apply NZ; apply vec_ext; auto|].
      exists (vy v / vy u). apply vec_ext; cbn -[IZR].
      * rewrite E. rewrite E in H. assert (vy u * vx v = 0) by lra. apply Rmult_integral in H0. lra.
      * field. auto.
    + exists (vx v / vx u). apply vec_ext; cbn -[IZR]; [field; auto|].
      apply (Rmult_eq_reg_l (vx u)); auto. field_simplify; auto. lra.
  - intros [k ->]. unfold v_cross. cbn. ring.
Qed.

Theorem C18_rotate (u v : vec R) (a b : R) :
  v_length (v_rotate v a) = v_length v /\
  v_dot (v_rotate u a) (v_rotate v a) = v_dot u v /\ v_cross (v_rotate u a) (v_rotate v a) = v_cross u v /\
  v_rotate (v_rotate v a) b = v_rotate v (a + b) /\ v_rotate v 0 = v.
Proof.
  assert (D : forall u v : vec R, v_dot (v_rotate u a) (v_rotate v a) = v_dot u v).
  { intros u0 v0. unfold v_dot, v_rotate. generalize (radians a); intros r; cbn -[IZR].
    pose proof (sin2_cos2 r). unfold Rsqr in H.
    transitivity ((sin r * sin r + cos r * cos r) * (vx u0 * vx v0 + vy u0 * vy v0)); [ring|rewrite H; ring]. }
  split; [|split; [apply D|split; [|split]]].
  - change (v_length ?w) with (sqrt (v_dot w w)). rewrite D. reflexivity.
  - unfold v_cross, v_rotate. generalize (radians a); intros r; cbn -[IZR].
    pose proof (sin2_cos2 r). unfold Rsqr in H.
    transitivity ((sin r * sin r + cos r * cos r) * (vx u * vy v - vy u * vx v)); [ring|rewrite H; ring].
  - unfold v_rotate, radians. cbn -[IZR]. rewrite Rmult_plus_distr_r, cos_plus, sin_plus.
    apply vec_ext; cbn [vx vy]; ring.
  - unfold v_rotate, radians. cbn -[IZR]. rewrite Rmult_0_l, cos_0, sin_0. apply vec_ext; cbn [vx vy]; ring.
Qed.

(* length and angle are polar coordinates; angle is the only value in (-180, 180] that fits *)
Theorem C18_polar (v : vec R) :
  v = V (v_length v * cos (radians (v_angle v))) (v_length v * sin (radians (v_angle v))) /\
  -180 < v_angle v <= 180 /\
  (v <> V 0 0 -> forall d, -180 < d <= 180 ->
     v = V (v_length v * cos (radians d)) (v_length v * sin (radians d)) -> d = v_angle v).
Proof.
  destruct (polar v) as [Hx Hy]. split; [apply vec_ext; auto|]. split; [apply angle_range|].
  intros NZ d Hd E. assert (L : v_length v <> 0) by (intros C; apply length_0 in C; auto).
  pose proof (angle_range v) as Ha. pose proof PI_RGT_0.
  assert (Ex := f_equal vx E). assert (Ey := f_equal vy E). cbn [vx vy] in Ex, Ey.
  assert (C : radians d = radians (v_angle v)).
  { apply cs_unique.
    - unfold radians. cbn -[IZR]. split; nra.
    - unfold radians. cbn -[IZR v_angle]. split; nra.
    - apply (Rmult_eq_reg_l (v_length v)); auto. lra.
    - apply (Rmult_eq_reg_l (v_length v)); auto. lra. }
  unfold radians in C. cbn -[IZR v_angle] in C. apply Rmult_eq_reg_r in C; auto. lra.
Qed.

Lemma cos_sin_mod (a b : R) : cos a = cos b -> sin a = sin b -> exists k : Z, a = b + 2 * IZR k * PI.
Proof.
  intros Hc Hs.
  assert (C : cos (a - b) = 1).
  { rewrite cos_minus, Hc, Hs. pose proof (sin2_cos2 b). unfold Rsqr in *. lra. }
  assert (S : sin ((a - b) / 2) = 0).
  { pose proof (cos_2a_sin ((a - b) / 2)) as E. replace (2 * ((a - b) / 2)) with (a - b) in E by field.
    rewrite C in E. assert (sin ((a - b) / 2) * sin ((a - b) / 2) = 0) by lra.
    apply Rmult_integral in H. tauto. }
  destruct (sin_eq_0_0 _ S) as [k Hk]. exists k. lra.
Qed.

(* rotate(d) adds d to the angle, modulo 360 *)
Theorem C18_rotate_adds_angle (v : vec R) (d : R) : v <> V 0 0 ->
  exists k : Z, v_angle (v_rotate v d) = v_angle v + d + 360 * IZR k.
Proof.
  intros NZ. destruct (polar v) as [Hx Hy]. destruct (polar (v_rotate v d)) as [Gx Gy].
  destruct (C18_rotate v v d 0) as (L & _). rewrite L in Gx, Gy.
  assert (LN : v_length v <> 0) by (intros C; apply length_0 in C; auto).
  pose proof PI_RGT_0.
  destruct (cos_sin_mod (radians (v_angle (v_rotate v d))) (radians (v_angle v) + radians d)) as [k Hk].
  - rewrite cos_plus. apply (Rmult_eq_reg_l (v_length v)); auto. rewrite <- Gx.
    change (vx (v_rotate v d)) with (cos (radians d) * vx v - sin (radians d) * vy v).
    rewrite Hx at 1. rewrite Hy at 1. ring.
  - rewrite sin_plus. apply (Rmult_eq_reg_l (v_length v)); auto. rewrite <- Gy.
    change (vy (v_rotate v d)) with (sin (radians d) * vx v + cos (radians d) * vy v).
    rewrite Hx at 1. rewrite Hy at 1. ring.
  - exists k. unfold radians in Hk. cbn -[IZR v_angle v_rotate] in Hk.
    apply (Rmult_eq_reg_r (PI / 180)); [|lra]. rewrite Hk. field.
Qed.

(* The docstring of angle says degrees from (0, 1): it is from (1, 0). *)
Theorem C18_angle_docstring_refuted :
  v_angle (V 0 1) = 90 /\ forall x, 0 < x -> v_angle (V x 0) = 0.
Proof.
  split.
  - unfold v_angle, degrees. cbn -[IZR]. unfold Ratan2. 
    destruct (Rlt_dec 0 0); [lra|]. destruct (Rlt_dec 0 0); [lra|]. destruct (Rlt_dec 0 1); [|lra].
    field. apply PI_neq0.
  - intros x Hx. unfold v_angle, degrees. cbn -[IZR]. unfold Ratan2. destruct (Rlt_dec 0 x); [|lra].
    replace (0 / x) with 0 by (field; lra). rewrite atan_0. ring.
Qed.

(* ---------------------------------------------------------------- *)
(** ** C20 parse *)

Section Grammar.
  Context {F A : Type}.
  Notation item := (item F A). Notation parsed := (parsed F A).
  Definition tuple_ok (allow : bool) (len : nat) : Prop :=
    if allow then len = 2%nat \/ len = 3%nat else len = 2%nat.
  (* the input splits into pairs of numbers, points and tuples of an allowed length *)
  Inductive grouping (allow : bool) : list item -> list parsed -> Prop :=
  | g_nil : grouping allow [] []
  | g_pair x y l o : grouping allow l o -> grouping allow (INum x :: INum y :: l) (PPair x y :: o)
  | g_point p l o : grouping allow l o -> grouping allow (IPoint p :: l) (PPoint p :: o)
  | g_tuple n c l o : tuple_ok allow n -> grouping allow l o ->
      grouping allow (ITuple n c :: l) (PTuple n c :: o).
  (* an input that cannot start with such a group *)
  Inductive offending (allow : bool) : list item -> Prop :=
  | o_lone x : offending allow [INum x]
  | o_notnum x i l : (forall y, i <> INum y) -> offending allow (INum x :: i :: l)
  | o_tuple n c l : ~ tuple_ok allow n -> offending allow (ITuple n c :: l)
  | o_other a l : offending allow (IOther a :: l).
  (* the input items a group stands for *)
  Definition ungroup (p : parsed) : list item :=
    match p with PPair x y => [INum x; INum y] | PPoint p => [IPoint p] | PTuple n c => [ITuple n c] end.
End Grammar.

Lemma tuple_test (allow : bool) n :
  ((if allow then (n =? 2)%nat || (n =? 3)%nat else (n =? 2)%nat) = true) <-> tuple_ok allow n.
Proof.
  destruct allow; cbn; [rewrite Bool.orb_true_iff, !Nat.eqb_eq|rewrite Nat.eqb_eq]; tauto.
Qed.
Lemma parse_len {F A} (allow : bool) (m : nat) : forall (l : list (item F A)), (length l <= m)%nat ->
  match parse allow l with
  | Ok out => grouping allow l out
  | Raise e => e = ValueError /\ exists pre rest out, l = pre ++ rest /\ grouping allow pre out /\ offending allow rest
  end.
Proof.
  induction m as [|m IH]; intros l Hl.
  - destruct l; [cbn; constructor|cbn in Hl; lia].
  - destruct l as [|i l]; [cbn; constructor|].
    assert (Ext : forall (pre0 : list (item F A)) (g : parsed F A) (l' : list (item F A)), (length l' <= m)%nat -> (forall l o, grouping allow l o -> grouping allow (pre0 ++ l) (g :: o)) ->
       match (let* out := parse allow l' in Ok (g :: out)) with
       | Ok out => grouping allow (pre0 ++ l') out
       | Raise e => e = ValueError /\ exists pre rest out, pre0 ++ l' = pre ++ rest /\ grouping allow pre out /\ offending allow rest
       end).
    { intros pre0 g l' Hl' Hg. specialize (IH l' Hl'). destruct (parse allow l') as [out|e]; cbn.
      - apply Hg; auto.
      - destruct IH as (-> & pre & rest & out & -> & G & O). split; auto.
        exists (pre0 ++ pre), rest, (g :: out). rewrite app_assoc. auto. }
    cbn in Hl. destruct i as [x|p|n c|a]; cbn [parse].
    + destruct l as [|j l].
      * split; auto. exists [], [INum x], []. repeat split; constructor.
      * destruct j as [y|p|n c|a].
        -- cbn in Hl. apply (Ext [INum x; INum y]); [lia|intros; constructor; auto].
        -- split; auto. exists [], (INum x :: IPoint p :: l), []. repeat split; try constructor. discriminate.
        -- split; auto. exists [], (INum x :: ITuple n c :: l), []. repeat split; try constructor. discriminate.
        -- split; auto. exists [], (INum x :: IOther a :: l), []. repeat split; try constructor. discriminate.
    + apply (Ext [IPoint p]); [lia|intros; constructor; auto].
    + pose proof (tuple_test allow n) as T.
      destruct (if allow then (n =? 2)%nat || (n =? 3)%nat else (n =? 2)%nat).
      * apply (Ext [ITuple n c]); [lia|intros; constructor; auto]. apply T; auto.
      * split; auto. exists [], (ITuple n c :: l), []. repeat split; try constructor. intros C. apply T in C. discriminate.
    + split; auto. exists [], (IOther a :: l), []. repeat split; constructor.
Qed.
Lemma grouping_parse {F A} (allow : bool) (l : list (item F A)) out :
  grouping allow l out -> parse allow l = Ok out.
Proof.
  induction 1; cbn; auto.
  - rewrite IHgrouping. reflexivity.
  - rewrite IHgrouping. reflexivity.
  - apply tuple_test in H. rewrite H, IHgrouping. reflexivity.
Qed.

Theorem C20_parse_exact {F A} (allow : bool) (l : list (item F A)) (out : list (parsed F A)) :
  parse allow l = Ok out <-> grouping allow l out.
Proof.
  split; [|apply grouping_parse].
  intros H. pose proof (parse_len allow (length l) l (Nat.le_refl _)) as G. rewrite H in G. exact G.
Qed.
Theorem C20_parse_flattens_back {F A} (allow : bool) (l : list (item F A)) out :
  parse allow l = Ok out -> concat (map ungroup out) = l.
Proof.
  intros H. apply C20_parse_exact in H. induction H; cbn; congruence.
Qed.
(* it raises only ValueError, when the part of the input after some complete groups cannot go on *)
Theorem C20_parse_errors {F A} (allow : bool) (l : list (item F A)) (e : exn) :
  parse allow l = Raise e <->
  e = ValueError /\ exists pre rest out, l = pre ++ rest /\ grouping allow pre out /\ offending allow rest.
Proof.
  split.
  - intros H. pose proof (parse_len allow (length l) l (Nat.le_refl _)) as G. rewrite H in G. exact G.
  - intros (-> & pre & rest & out & -> & G & O). induction G; cbn [app].
    + destruct O; cbn; auto.
      * destruct i; auto. exfalso. apply (H n); auto.
      * destruct (if allow then _ else _) eqn:E; auto. apply tuple_test in E. contradiction.
    + cbn. rewrite IHG. reflexivity.
    + cbn. rewrite IHG. reflexivity.
    + cbn. apply tuple_test in H. rewrite H, IHG. reflexivity.
Qed.
(* tuples of three are accepted exactly when allowed *)
Theorem C20_thruples {F A} (c : A) :
  parse true [@ITuple F A 3 c] = Ok [PTuple 3 c] /\ parse false [@ITuple F A 3 c] = Raise ValueError.
Proof. split; reflexivity. Qed.

(* ---------------------------------------------------------------- *)
(** ** C21 polygon_area *)

Theorem C21_area_rotation (k : nat) (l : list (pt R)) : polygon_area (skipn k l ++ firstn k l) = polygon_area l.
Proof. exact (area_rot k l). Qed.
Theorem C21_area_reversal (l : list (pt R)) : polygon_area (rev l) = - polygon_area l.
Proof. exact (area_rev l). Qed.
Lemma last_snoc (l : list (pt R)) (a d : pt R) : last (l ++ [a]) d = a.
Proof. apply last_last. Qed.
Theorem C21_area_translation (dx dy : R) (l : list (pt R)) :
  polygon_area (map (fun p => P (px p + dx) (py p + dy)) l) = polygon_area l.
Proof.
  destruct l as [|a l]; [reflexivity|]. cbn [map]. rewrite !area_psum. f_equal.
  pose proof (psum_shift dx dy (l ++ [a]) a) as E. cbn [map] in E. rewrite map_app in E. cbn [map] in E.
  rewrite E, last_snoc. ring.
Qed.
Theorem C21_area_linear (a b c d : R) (l : list (pt R)) :
  polygon_area (map (fun p => P (a * px p + b * py p) (c * px p + d * py p)) l) =
  (a * d - b * c) * polygon_area l.
Proof.
  destruct l as [|p l]; [cbn [map]; rewrite area_nil; ring|]. cbn [map]. rewrite !area_psum.
  pose proof (psum_linear a b c d (p :: l ++ [p])) as E. cbn [map] in E. rewrite map_app in E. cbn [map] in E.
  rewrite E. field.
Qed.
(* cutting along the chord from a to b *)
Theorem C21_area_chord (a b : pt R) (l1 l2 : list (pt R)) :
  polygon_area (a :: l1 ++ b :: l2) = polygon_area (a :: l1 ++ [b]) + polygon_area (b :: l2 ++ [a]).
Proof.
  rewrite !area_psum. rewrite <- !app_assoc. cbn [app].
  change (a :: l1 ++ b :: l2 ++ [a]) with ((a :: l1) ++ b :: l2 ++ [a]).
  change (a :: l1 ++ [b; a]) with ((a :: l1) ++ b :: [a]).
  change (b :: l2 ++ [a; b]) with ((b :: l2) ++ a :: [b]).
  rewrite (psum_app (a :: l1) b (l2 ++ [a])), (psum_app (a :: l1) b [a]), (psum_app (b :: l2) a [b]).
  assert (Z : psum [b; a] + psum [a; b] = 0) by (cbn [psum]; unfold crossp; lra).
  change (b :: l2 ++ [a]) with ((b :: l2) ++ [a]).
  generalize dependent (psum [b; a]); intros r1. generalize (psum [a; b]); intros r2.
  generalize (psum ((a :: l1) ++ [b])), (psum ((b :: l2) ++ [a])); intros; lra.
Qed.
Theorem C21_area_rectangle (x0 y0 x1 y1 : R) :
  polygon_area [P x0 y0; P x1 y0; P x1 y1; P x0 y1] = (x1 - x0) * (y1 - y0).
Proof. rewrite area_psum. cbn [psum app]. unfold crossp. cbn [px py]. field. Qed.
(* a triangle: half the cross product, positive exactly when c is to the left of a -> b *)
Definition triangle (a b c : pt R) : R := (px b - px a) * (py c - py a) - (py b - py a) * (px c - px a).
Theorem C21_area_triangle (a b c : pt R) : polygon_area [a; b; c] = triangle a b c / 2.
Proof. rewrite area_psum. cbn [psum app]. unfold crossp, triangle. cbn [px py]. field. Qed.
Theorem C21_area_degenerate (a b : pt R) :
  polygon_area (@nil (pt R)) = 0 /\ polygon_area [a] = 0 /\ polygon_area [a; b] = 0.
Proof.
  rewrite area_nil, !area_psum. cbn [psum app]. unfold crossp. repeat split; lra.
Qed.
(* any polygon is the signed sum of the triangles of a fan from any of its vertices or any point *)
Fixpoint fan (o : pt R) (l : list (pt R)) : R :=
  match l with
  | b :: (c :: _) as r => triangle o b c / 2 + fan o r
  | _ => 0
  end.
Theorem C21_area_fan (o a : pt R) (l : list (pt R)) : polygon_area (a :: l) = fan o (a :: l ++ [a]).
Proof.
  rewrite <- (C21_area_translation (- px o) (- py o)). cbn [map]. rewrite area_psum.
  assert (G : forall l, psum (map (fun p => P (px p + - px o) (py p + - py o)) l) / 2 = fan o l).
  { induction l0 as [|b l0 IH]; [cbn; lra|]. destruct l0 as [|c l0]; [cbn; lra|].
    cbn [map] in *. change (fan o (b :: c :: l0)) with (triangle o b c / 2 + fan o (c :: l0)). rewrite <- IH.
    match goal with |- psum (?x :: ?y :: ?r) / 2 = _ => change (psum (x :: y :: r)) with (crossp x y + psum (y :: r)) end.
    unfold crossp, triangle. cbn [px py]. field. }
  rewrite <- G. f_equal. cbn [map]. rewrite map_app. reflexivity.
Qed.

(* ---------------------------------------------------------------- *)
(** ** C25 equality and closeness of vectors and plain points *)

Theorem C25_close (d : R) (p q : pt R) (v w : vec R) : 0 < d ->
  p_close d p p = true /\ p_close d p q = p_close d q p /\
  v_close d v v = true /\ v_close d v w = v_close d w v /\
  (p_close d p q = true <-> sqrt ((px p - px q) * (px p - px q) + (py p - py q) * (py p - py q)) < d) /\
  (v_close d v w = true <-> sqrt ((vx v - vx w) * (vx v - vx w) + (vy v - vy w) * (vy v - vy w)) < d).
Proof.
  intros Hd. unfold p_close, v_close.
  assert (L0 : forall a b : R, v_length (V (a - a) (b - b)) = 0).
  { intros. apply length_0. apply vec_ext; cbn; ring. }
  assert (LS : forall a b c e : R, v_length (V (a - b) (c - e)) = v_length (V (b - a) (e - c))).
  { intros. unfold v_length. cbn. f_equal. ring. }
  unfold p_sub, v_sub. cbn -[v_length].
  rewrite !L0, (LS (px p)), (LS (vx v)). 
  repeat split; auto; try (apply Rltb_lt; auto).
  - intros H. apply Rltb_lt in H. unfold v_length in H. cbn in H.
    replace ((px p - px q) * (px p - px q) + (py p - py q) * (py p - py q))
      with ((px q - px p) * (px q - px p) + (py q - py p) * (py q - py p)) by ring. auto.
  - intros H. apply Rltb_lt. unfold v_length. cbn.
    replace ((px q - px p) * (px q - px p) + (py q - py p) * (py q - py p))
      with ((px p - px q) * (px p - px q) + (py p - py q) * (py p - py q)) by ring. auto.
  - intros H. apply Rltb_lt in H. unfold v_length in H. cbn in H.
    replace ((vx v - vx w) * (vx v - vx w) + (vy v - vy w) * (vy v - vy w))
      with ((vx w - vx v) * (vx w - vx v) + (vy w - vy v) * (vy w - vy v)) by ring. auto.
  - intros H. apply Rltb_lt. unfold v_length. cbn.
    replace ((vx w - vx v) * (vx w - vx v) + (vy w - vy v) * (vy w - vy v))
      with ((vx v - vx w) * (vx v - vx w) + (vy v - vy w) * (vy v - vy w)) by ring. auto.
Qed.
(* closeness is not transitive *)
Theorem C25_close_transitive_refuted :
  exists p q r : pt R, p_close 1 p q = true /\ p_close 1 q r = true /\ p_close 1 p r = false.
Proof.
  assert (L : forall a : R, v_length (V a 0) = Rabs a).
  { intros. unfold v_length. cbn. replace (a * a + 0 * 0) with (a * a) by ring. apply sqrt_Rsqr_abs. }
  exists (P 0 0), (P (1/2) 0), (P 1 0). unfold p_close, p_sub. cbn -[v_length IZR].
  replace (0 - 0) with 0 by ring. rewrite !L. split; [|split].
  - apply Rltb_lt. rewrite Rabs_left; lra.
  - apply Rltb_lt. rewrite Rabs_left; lra.
  - apply Rltb_ge. rewrite Rabs_left; lra.
Qed.
Theorem C25_vector_equality (v w : vec R) :
  (v_eqb v w = true <-> v = w) /\ (v_bool v = true <-> v <> V 0 0) /\ v_eqb (v_copy v) v = true.
Proof.
  unfold v_eqb, v_bool. cbn -[IZR]. split; [|split].
  - rewrite Bool.andb_true_iff, !Reqb_eq. split; [intros [? ?]; apply vec_ext; auto|intros ->; auto].
  - rewrite Bool.orb_true_iff, !Bool.negb_true_iff, !Reqb_neq. split.
    + intros H E. subst. cbn in H. lra.
    + intros H. destruct (Req_dec (vx v) 0); [right|left; auto]. intros E. apply H. apply vec_ext; auto.
  - rewrite !Reqb_refl. reflexivity.
Qed.

(* ---------------------------------------------------------------- *)
(** ** Examples *)
Example ex_nonzero : V 3 4 <> V 0 0.
Proof. intros H. inversion H. lra. Qed.
Example ex_parse : exists out, parse true [INum 1; INum 2; IPoint (P 3 4); @ITuple R nat 3 7%nat] = Ok out /\ length out = 3%nat.
Proof. eexists. split; reflexivity. Qed.
Example ex_offending : parse false [INum 1; INum 2; @ITuple R nat 3 7%nat] = Raise ValueError.
Proof. reflexivity. Qed.
