(* Property theorems C26-C29: module utils. *)
Require Import Verif.L_real Verif.M_vector Verif.M_transform Verif.M_utils Verif.L_vector Verif.S_transform
  Verif.L_transform Verif.L_transform2 Verif.P_transform.
From Coq Require Import List Lra Psatz Bool ZArith.
Import ListNotations.

(* two angles in degrees that look the same *)
Definition congruent (a b : R) : Prop := exists k : Z, a = b + 360 * IZR k.
Lemma congruent_refl a : congruent a a.
Proof. exists 0%Z. lra. Qed.
Lemma congruent_sym a b : congruent a b -> congruent b a.
Proof. intros [k ->]. exists (- k)%Z. rewrite opp_IZR. lra. Qed.
Lemma congruent_trans a b c : congruent a b -> congruent b c -> congruent a c.
Proof. intros [k ->] [m ->]. exists (k + m)%Z. rewrite plus_IZR. lra. Qed.
Lemma congruent_shift a b k : congruent a b -> congruent (a + 360 * IZR k) b.
Proof. intros [m ->]. exists (m + k)%Z. rewrite plus_IZR. lra. Qed.

Lemma pymod_R a : 0 <= pymod a 360 < 360 /\ congruent (pymod a 360) a.
Proof.
  unfold pymod. cbn -[IZR]. destruct (base_Int_part (a / 360)) as [A B]. split.
  - assert (a = 360 * (a / 360)) by field. lra.
  - exists (- Int_part (a / 360))%Z. rewrite opp_IZR. lra.
Qed.
(* a number strictly between -360 and 360 and congruent to 0 is 0 *)
Lemma congruent_small a b : congruent a b -> - 360 < a - b < 360 -> a = b.
Proof.
  intros [k ->] H. assert (-1 < IZR k < 1) by lra.
  assert (k = 0%Z). { destruct H0 as [A B]. apply lt_IZR in A, B. lia. }
  subst. lra.
Qed.

(* ---------------------------------------------------------------- *)
(** ** C26 min_rotation *)

Theorem C26_min_rotation (target source : R) :
  -180 <= min_rotation target source < 180 /\ congruent (min_rotation target source) (target - source) /\
  (forall a, congruent a (target - source) -> Rabs (min_rotation target source) <= Rabs a) /\
  (forall a, congruent a (target - source) -> -180 <= a < 180 -> a = min_rotation target source).
Proof.
  assert (A : -180 <= min_rotation target source < 180 /\ congruent (min_rotation target source) (target - source)).
  { unfold min_rotation. cbn -[IZR pymod]. destruct (pymod_R (target - source + 180)) as [Rg [k Hk]].
    split; [lra|]. exists k. lra. }
  destruct A as [Rg C]. split; auto. split; auto. split.
  - intros a Ha. assert (Cm : congruent (min_rotation target source) a) by (eapply congruent_trans; eauto using congruent_sym).
    destruct (Rle_dec (Rabs (min_rotation target source)) (Rabs a)) as [|N]; auto. exfalso. apply N.
    destruct (Req_dec (min_rotation target source) (-180)) as [E|E].
    + rewrite E in *. destruct Cm as [k Hk].
      assert (a = - (180 + 360 * IZR k)) by lra. rewrite H, Rabs_Ropp. replace (Rabs (-180)) with 180 by (rewrite Rabs_left; lra).
      destruct (Z_lt_le_dec k 0) as [K|K].
      * assert (IZR k <= -1) by (apply (IZR_le k (-1)); lia). rewrite Rabs_left; lra.
      * assert (0 <= IZR k) by (apply (IZR_le 0 k); lia). rewrite Rabs_right; lra.
    + assert (min_rotation target source = a); [|subst; lra].
      apply congruent_small; auto. apply Rnot_le_lt in N. unfold Rabs in N.
      repeat destruct (Rcase_abs _); lra.
  - intros a Ha Hr. apply congruent_small; [eapply congruent_trans; eauto using congruent_sym|lra].
Qed.
(* adding whole turns to either angle changes nothing *)
Theorem C26_min_rotation_periodic (target source : R) (k m : Z) :
  min_rotation (target + 360 * IZR k) (source + 360 * IZR m) = min_rotation target source.
Proof.
  destruct (C26_min_rotation target source) as (_ & _ & _ & U).
  destruct (C26_min_rotation (target + 360 * IZR k) (source + 360 * IZR m)) as (Rg & C & _ & _).
  apply U; auto. eapply congruent_trans; [exact C|]. exists (k - m)%Z. rewrite minus_IZR. lra.
Qed.
(* rotating by it takes the source direction to the target direction *)
Theorem C26_min_rotation_reaches (target source : R) :
  congruent (source + min_rotation target source) target.
Proof.
  destruct (C26_min_rotation target source) as (_ & [k H] & _). exists k. rewrite H. lra.
Qed.
(* exact opposites go clockwise: +180 is never returned *)
Theorem C26_opposites (s : R) : min_rotation (s + 180) s = -180 /\ min_rotation s (s + 180) = -180.
Proof.
  destruct (C26_min_rotation (s + 180) s) as (_ & _ & _ & U). destruct (C26_min_rotation s (s + 180)) as (_ & _ & _ & U').
  split; symmetry; [apply U|apply U']; try lra; [exists (-1)%Z|exists 0%Z]; lra.
Qed.

(* ---------------------------------------------------------------- *)
(** ** C27 arc and circle *)

(* the point at angle a (degrees) of the circle of radius r about c *)
Definition on_circle (c : pt R) (r a : R) : R * R := (px c + r * cos (a * (PI / 180)), py c + r * sin (a * (PI / 180))).
Definition cdist (c : pt R) (q : R * R) : R :=
  sqrt ((fst q - px c) * (fst q - px c) + (snd q - py c) * (snd q - py c)).

Lemma on_circle_dist c r a : cdist c (on_circle c r a) = Rabs r.
Proof.
  unfold cdist, on_circle. cbn [fst snd].
  replace (_ + _) with (r * r * (sin (a * (PI / 180)) * sin (a * (PI / 180)) + cos (a * (PI / 180)) * cos (a * (PI / 180)))) by ring.
  pose proof (sin2_cos2 (a * (PI / 180))) as E. unfold Rsqr in E. rewrite E, Rmult_1_r. apply sqrt_Rsqr_abs.
Qed.
Lemma cos_period_Z x k : cos (x + 2 * IZR k * PI) = cos x.
Proof.
  destruct k as [|p|p].
  - f_equal. lra.
  - rewrite <- (cos_period x (Pos.to_nat p)). rewrite INR_IZR_INZ, positive_nat_Z. reflexivity.
  - rewrite <- (cos_period (x + 2 * IZR (Z.neg p) * PI) (Pos.to_nat p)). rewrite INR_IZR_INZ, positive_nat_Z.
    f_equal. change (Z.neg p) with (- Z.pos p)%Z. rewrite opp_IZR. ring.
Qed.
Lemma sin_period_Z x k : sin (x + 2 * IZR k * PI) = sin x.
Proof.
  destruct k as [|p|p].
  - f_equal. lra.
  - rewrite <- (sin_period x (Pos.to_nat p)). rewrite INR_IZR_INZ, positive_nat_Z. reflexivity.
  - rewrite <- (sin_period (x + 2 * IZR (Z.neg p) * PI) (Pos.to_nat p)). rewrite INR_IZR_INZ, positive_nat_Z.
    f_equal. change (Z.neg p) with (- Z.pos p)%Z. rewrite opp_IZR. ring.
Qed.
Lemma on_circle_congruent c r a b : congruent a b -> on_circle c r a = on_circle c r b.
Proof.
  intros [k ->]. unfold on_circle. replace ((b + 360 * IZR k) * (PI / 180)) with (b * (PI / 180) + 2 * IZR k * PI) by field.
  rewrite cos_period_Z, sin_period_Z. reflexivity.
Qed.

Definition steps_of (steps : Z) (a b : R) : nat :=
  Z.to_nat (if Z.ltb steps 0 then Int_part (Rabs (b - a) + 1) else steps).

Lemma arc_R r sa ea c steps d : 
  let a := fst (arc_angles sa ea d) in let b := snd (arc_angles sa ea d) in
  let n := steps_of steps a b in
  arc r sa ea c steps d =
  match n with
  | O => Raise ZeroDivisionError
  | _ => Ok (map (fun i => on_circle c r (a + (b - a) * (INR i / INR n))) (seq 0 (S n)))
  end.
Proof.
  intros a b n. unfold arc. rewrite (surjective_pairing (arc_angles sa ea d)). fold a b.
  unfold t_range.
  match goal with |- context [Z.to_nat (if ?x then nfloor ?y else steps)] => change (Z.to_nat (if x then nfloor y else steps)) with n end.
  destruct n as [|n]; [reflexivity|]. cbn [bind]. f_equal. rewrite map_map. apply map_ext. intros i.
  unfold on_circle. rewrite !INR_IZR_INZ. change (@nofZ R _) with IZR. set (k := IZR (Z.of_nat (S n))). set (j := IZR (Z.of_nat i)).
  assert (Hk : k <> 0) by (apply not_0_IZR; lia). clearbody k j.
  match goal with |- context [ncos ?t] => replace t with ((a + (b - a) * (j / k)) * (PI / 180))
    by (unfold radians; cbn -[IZR]; field; auto) end.
  generalize ((a + (b - a) * (j / k)) * (PI / 180)). intros t. cbn. f_equal; ring.
Qed.

(* the angles actually used, in degrees *)
Lemma arc_angles_R (sa ea : R) (d : direction) :
  let a := fst (arc_angles sa ea d) in let b := snd (arc_angles sa ea d) in
  congruent a sa /\ congruent b ea /\
  match d with Ccw => a <= b < a + 360 | Cw => b <= a < b + 360 | DNone => a = sa /\ b = ea end.
Proof.
  destruct (pymod_R sa) as [Ra Ca], (pymod_R ea) as [Rb Cb].
  destruct d; cbn [arc_angles fst snd]; change (@nltb R _) with Rltb; change (@nadd R _) with Rplus; change (nofZ 360) with 360.
  - destruct (Rltb (pymod ea 360) (pymod sa 360)) eqn:E; autorewrite with rbool in E.
    + split; auto. split; [|lra]. replace (pymod ea 360 + 360) with (pymod ea 360 + 360 * 1) by lra. apply congruent_shift; auto.
    + split; auto. split; auto. lra.
  - destruct (Rltb (pymod sa 360) (pymod ea 360)) eqn:E; autorewrite with rbool in E.
    + split; [|split; [auto|lra]]. replace (pymod sa 360 + 360) with (pymod sa 360 + 360 * 1) by lra. apply congruent_shift; auto.
    + split; auto. split; auto. lra.
  - auto using congruent_refl.
Qed.

(* The whole description of arc: its points are the n+1 points at the angles a, ..., b in n equal steps,
   where a is the start angle and b the end angle up to whole turns and the turn from a to b is less
   than 360 degrees in the requested direction. *)
Theorem C27_arc (r sa ea : R) (c : pt R) (steps : Z) (d : direction) : steps <> 0%Z ->
  exists (a b : R) (n : nat) (pts : list (R * R)),
    arc r sa ea c steps d = Ok pts /\
    congruent a sa /\ congruent b ea /\
    (d = Ccw -> a <= b < a + 360) /\ (d = Cw -> b <= a < b + 360) /\ (d = DNone -> a = sa /\ b = ea) /\
    ((0 < steps)%Z -> n = Z.to_nat steps) /\
    ((steps < 0)%Z -> INR n <= Rabs (b - a) + 1 < INR n + 1) /\ (0 < n)%nat /\
    length pts = S n /\
    (forall i, (i <= n)%nat -> nth_error pts i = Some (on_circle c r (a + INR i * ((b - a) / INR n)))) /\
    nth_error pts 0 = Some (on_circle c r sa) /\ nth_error pts n = Some (on_circle c r ea) /\
    (forall q, In q pts -> cdist c q = Rabs r).
Proof.
  intros Hs. pose proof (arc_R r sa ea c steps d) as E. pose proof (arc_angles_R sa ea d) as A. cbv zeta in E, A.
  set (a := fst (arc_angles sa ea d)) in *. set (b := snd (arc_angles sa ea d)) in *. clearbody a b.
  destruct A as (Ca & Cb & Rg).
  set (n := steps_of steps a b) in *.
  assert (Hneg : (steps < 0)%Z -> INR n <= Rabs (b - a) + 1 < INR n + 1).
  { intros L. unfold n, steps_of. apply Z.ltb_lt in L. rewrite L.
    destruct (base_Int_part (Rabs (b - a) + 1)) as [B1 B2]. pose proof (Rabs_pos (b - a)).
    rewrite INR_IZR_INZ, Z2Nat.id; [lra|].
    assert (-1 < IZR (Int_part (Rabs (b - a) + 1))) as X by lra. apply (lt_IZR (-1)) in X. lia. }
  assert (Hn : (0 < n)%nat).
  { destruct (Z_lt_le_dec steps 0) as [L|L].
    - specialize (Hneg L). pose proof (Rabs_pos (b - a)). destruct n; [cbn in Hneg; lra|lia].
    - unfold n, steps_of. destruct (Z.ltb_spec steps 0); lia. }
  assert (Hpos : (0 < steps)%Z -> n = Z.to_nat steps).
  { intros L. unfold n, steps_of. destruct (Z.ltb_spec steps 0); [lia|reflexivity]. }
  clearbody n.
  assert (Hn' : INR n <> 0) by (apply not_0_INR; lia).
  assert (E' : arc r sa ea c steps d = Ok (map (fun i => on_circle c r (a + (b - a) * (INR i / INR n))) (seq 0 (S n)))).
  { rewrite E. destruct n; [lia|reflexivity]. }
  clear E. exists a, b, n. eexists. split; [exact E'|].
  assert (Nth : forall i, (i <= n)%nat -> nth_error (map (fun i => on_circle c r (a + (b - a) * (INR i / INR n))) (seq 0 (S n))) i =
      Some (on_circle c r (a + INR i * ((b - a) / INR n)))).
  { intros i Hi. rewrite nth_error_map, nth_error_nth' with (d := 0%nat) by (rewrite seq_length; lia).
    rewrite seq_nth by lia. rewrite Nat.add_0_l. cbn [option_map]. do 2 f_equal. field. auto. }
  split; auto. split; auto. split; [intros ->; auto|]. split; [intros ->; auto|]. split; [intros ->; auto|].
  split; [|split; auto; split; auto; split].
  - exact Hpos.
  - rewrite map_length, seq_length. reflexivity.
  - split; auto. split; [|split].
    + rewrite Nth by lia. f_equal. rewrite <- (on_circle_congruent c r a sa Ca). f_equal. cbn. lra.
    + rewrite Nth by lia. f_equal. rewrite <- (on_circle_congruent c r b ea Cb). f_equal. field. auto.
    + intros q Hq. apply in_map_iff in Hq. destruct Hq as (i & <- & _). apply on_circle_dist.
Qed.

Theorem C27_arc_no_steps (r sa ea : R) (c : pt R) (d : direction) : arc r sa ea c 0 d = Raise ZeroDivisionError.
Proof. rewrite arc_R. reflexivity. Qed.
(* angles that are equal up to whole turns give an arc that stays at its start (unless direction='none') *)
Theorem C27_arc_full_turn_degenerate (r sa ea : R) (c : pt R) (steps : Z) (d : direction) (pts : list (R * R)) :
  congruent sa ea -> d <> DNone -> arc r sa ea c steps d = Ok pts -> forall q, In q pts -> q = on_circle c r sa.
Proof.
  intros Cg Hd E q Hq.
  destruct (Z.eq_dec steps 0) as [->|N]; [rewrite C27_arc_no_steps in E; discriminate|].
  destruct (C27_arc r sa ea c steps d N) as (a & b & n & pts' & E' & Ca & Cb & H1 & H2 & _ & _ & _ & Hn & Ln & Nth & _).
  rewrite E in E'. inversion E'; subst pts'.
  assert (a = b).
  { assert (X : congruent a b) by (eapply congruent_trans; [exact Ca|]; eapply congruent_trans; [exact Cg|]; apply congruent_sym, Cb).
    destruct d; [destruct H1; auto|destruct H2; auto|contradiction].
    - apply congruent_small; auto; lra.
    - apply congruent_small; auto; lra. }
  apply In_nth_error in Hq. destruct Hq as [i Hi].
  assert (Hi' : (i < S n)%nat) by (rewrite <- Ln; apply nth_error_Some; congruence).
  rewrite Nth in Hi by lia. inversion Hi. subst b. rewrite <- (on_circle_congruent c r a sa Ca). f_equal.
  field. apply not_0_INR. lia.
Qed.
(* so arc(r, 0, 360) is a single repeated point, not a circle *)
Theorem C27_arc_is_circle_refuted (r : R) (c : pt R) (pts : list (R * R)) :
  arc r 0 360 c (-1) Ccw = Ok pts -> pts = [(px c + r, py c); (px c + r, py c)].
Proof.
  intros E. assert (N : (-1)%Z <> 0%Z) by lia.
  destruct (C27_arc r 0 360 c (-1) Ccw N) as (a & b & n & pts' & E' & Ca & Cb & H1 & _ & _ & _ & Hneg & Hn & Ln & _).
  rewrite E in E'. inversion E'; subst pts'.
  assert (Cg : congruent 0 360) by (exists (-1)%Z; lra).
  assert (a = b).
  { destruct H1; auto. apply congruent_small; [|lra].
    eapply congruent_trans; [exact Ca|]. eapply congruent_trans; [exact Cg|]. apply congruent_sym, Cb. }
  subst b. assert (n = 1%nat).
  { specialize (Hneg ltac:(lia)). replace (a - a) with 0 in Hneg by lra. rewrite Rabs_R0 in Hneg.
    destruct n as [|[|n]]; [lia|reflexivity|]. rewrite !S_INR in Hneg. pose proof (pos_INR n). lra. }
  subst n.
  assert (Q : forall q, In q pts -> q = (px c + r, py c)).
  { intros q Hq. rewrite (C27_arc_full_turn_degenerate r 0 360 c (-1) Ccw pts Cg ltac:(discriminate) E q Hq).
    unfold on_circle. rewrite Rmult_0_l, cos_0, sin_0. f_equal; ring. }
  destruct pts as [|p [|q [|]]]; try discriminate.
  rewrite (Q p), (Q q) by (cbn; auto). reflexivity.
Qed.

(* circle: 361 points one degree apart, the last equal to the first *)
Theorem C27_circle (r : R) (c : pt R) : exists pts, circle r c = Ok pts /\ length pts = 361%nat /\
  (forall i, (i <= 360)%nat -> nth_error pts i = Some (on_circle c r (INR i))) /\
  nth_error pts 0 = nth_error pts 360 /\ (forall q, In q pts -> cdist c q = Rabs r).
Proof.
  set (pts := map (fun i => on_circle c r (INR i)) (seq 0 361)).
  assert (E : circle r c = Ok pts).
  { unfold circle, t_range. change 360%nat with (S 359) at 1. cbv iota beta. cbn [bind]. f_equal.
    unfold pts. rewrite map_map. apply map_ext. intros i. unfold on_circle. rewrite INR_IZR_INZ.
    change (Z.of_nat 360) with 360%Z. change (@nofZ R _) with IZR. set (j := IZR (Z.of_nat i)). clearbody j.
    match goal with |- context [ncos ?t] => replace t with (j * (PI / 180)) by (cbn -[IZR]; field) end.
    generalize (j * (PI / 180)). intros t. cbn. f_equal; ring. }
  assert (Nth : forall i, (i <= 360)%nat -> nth_error pts i = Some (on_circle c r (INR i))).
  { intros i Hi. unfold pts. rewrite nth_error_map, nth_error_nth' with (d := 0%nat) by (rewrite seq_length; lia).
    rewrite seq_nth by lia. reflexivity. }
  exists pts. split; auto. split; [unfold pts; rewrite map_length, seq_length; reflexivity|]. split; auto.
  split.
  - rewrite !Nth by lia. f_equal. apply on_circle_congruent. exists (-1)%Z. rewrite !INR_IZR_INZ. cbn -[IZR]. lra.
  - intros q Hq. unfold pts in Hq. apply in_map_iff in Hq. destruct Hq as (i & <- & _). apply on_circle_dist.
Qed.

(* ---------------------------------------------------------------- *)
(** ** C28 arc2p *)

Lemma vlen_P (x y : R) : v_length (V x y) = sqrt (x * x + y * y).
Proof. reflexivity. Qed.
Definition pdist (p q : pt R) : R := sqrt ((px p - px q) * (px p - px q) + (py p - py q) * (py p - py q)).

(* positive when q is to the left of the ray from s to e *)
Definition leftness (s e q : pt R) : R := (px e - px s) * (py q - py s) - (py e - py s) * (px q - px s).


Lemma pdist_0 p q : pdist p q = 0 -> p = q.
Proof.
  unfold pdist. intros H. apply sqrt_eq_0 in H; [|apply sumsq_pos]. apply sumsq_0 in H. apply pnt_ext; lra.
Qed.
Lemma pdist_sq p q : pdist p q * pdist p q = (px p - px q) * (px p - px q) + (py p - py q) * (py p - py q).
Proof. unfold pdist. apply sqrt_sqrt, sumsq_pos. Qed.

Lemma arc2p_cases (r : R) (s e : pt R) (steps : Z) (side : R) :
  arc2p r s e steps side =
  if Rltb r (pdist s e / 2) then Raise ValueError
  else if Reqb (pdist s e / 2) 0 then Raise ValueError
  else
    let mp := p_add s (v_mul (p_sub e s) (1 / 2)) in
    let* clv := v_unit (v_mul (v_normal (p_sub e s)) side) in
    let c := p_add mp (v_mul clv (sqrt (r * r - pdist s e / 2 * (pdist s e / 2)))) in
    let* a := arc r (v_angle (p_sub s c)) (v_angle (p_sub e c)) c steps Ccw in
    Ok (path_to_xy [e; c; s] ++ a).
Proof.
  assert (L : v_length (p_sub e s) = pdist s e).
  { unfold v_length, pdist, p_sub. cbn. f_equal. ring. }
  unfold arc2p. rewrite L. reflexivity.
Qed.

Theorem C28_arc2p_errors (r : R) (s e : pt R) (steps : Z) (side : R) :
  (s = e \/ 2 * r < pdist s e -> arc2p r s e steps side = Raise ValueError) /\
  (s <> e -> pdist s e <= 2 * r -> side = 0 -> arc2p r s e steps side = Raise ZeroDivisionError).
Proof.
  rewrite arc2p_cases. split.
  - intros H. destruct (Rltb r (pdist s e / 2)) eqn:E1; [reflexivity|].
    destruct (Reqb (pdist s e / 2) 0) eqn:E2; [reflexivity|]. exfalso.
    autorewrite with rbool in E1, E2. destruct H as [->|H]; [|lra].
    apply E2. unfold pdist. replace (_ + _) with 0 by ring. rewrite sqrt_0. lra.
  - intros N Hr ->. destruct (Rltb r (pdist s e / 2)) eqn:E1.
    { exfalso. autorewrite with rbool in E1. lra. }
    destruct (Reqb (pdist s e / 2) 0) eqn:E2.
    { exfalso. autorewrite with rbool in E2. apply N, pdist_0. lra. }
    cbv zeta. rewrite unit_R. destruct (Req_EM_T _ 0) as [|C]; [reflexivity|].
    exfalso. apply C. apply length_0. apply vec_ext; cbn -[IZR]; ring.
Qed.

Theorem C28_arc2p_no_steps (r : R) (s e : pt R) (side : R) :
  s <> e -> pdist s e <= 2 * r -> arc2p r s e 0 side = Raise ZeroDivisionError.
Proof.
  intros N Hr. destruct (Req_dec side 0) as [->|Hs]; [apply C28_arc2p_errors; auto|].
  rewrite arc2p_cases. cbv zeta.
  destruct (Rltb r (pdist s e / 2)) eqn:E1.
  { exfalso. autorewrite with rbool in E1. lra. }
  destruct (Reqb (pdist s e / 2) 0) eqn:E2.
  { exfalso. autorewrite with rbool in E2. apply N, pdist_0. lra. }
  rewrite unit_R. destruct (Req_EM_T _ 0) as [|C]; [reflexivity|]. cbn [bind].
  unfold arc. destruct (arc_angles _ _ _). reflexivity.
Qed.

Theorem C28_arc2p (r : R) (s e : pt R) (steps : Z) (side : R) :
  s <> e -> pdist s e <= 2 * r -> side <> 0 -> steps <> 0%Z ->
  exists (c : pt R) (a : list (R * R)) (sa ea : R) (n : nat),
    arc2p r s e steps side = Ok ((px e, py e) :: (px c, py c) :: (px s, py s) :: a) /\
    pdist c s = r /\ pdist c e = r /\
    (0 < side -> leftness s e c <= 0) /\ (side < 0 -> 0 <= leftness s e c) /\
    (pdist s e < 2 * r -> leftness s e c <> 0) /\
    length a = S n /\ (0 < n)%nat /\ ((0 < steps)%Z -> n = Z.to_nat steps) /\
    nth_error a 0 = Some (px s, py s) /\ nth_error a n = Some (px e, py e) /\
    (forall q, In q a -> cdist c q = r) /\
    (forall i, (i <= n)%nat -> nth_error a i = Some (on_circle c r (sa + INR i * ((ea - sa) / INR n)))) /\
    (* counter-clockwise; a positive side goes the long way round, a negative one the short way *)
    (0 < side -> 180 <= ea - sa < 360) /\ (side < 0 -> 0 < ea - sa <= 180).
Proof.
  intros N Hr Hside Hst.
  assert (D0 : 0 < pdist s e).
  { destruct (Rle_lt_or_eq_dec 0 (pdist s e)) as [|E]; [apply sqrt_pos|auto|]. exfalso. apply N, pdist_0; auto. }
  assert (R0 : 0 < r) by lra.
  rewrite arc2p_cases. cbv zeta.
  replace (Rltb r (pdist s e / 2)) with false by (symmetry; apply Rltb_ge; lra).
  replace (Reqb (pdist s e / 2) 0) with false by (symmetry; apply Reqb_neq; lra).
  set (dx := px e - px s). set (dy := py e - py s).
  assert (Dsq : pdist s e * pdist s e = dx * dx + dy * dy) by (rewrite pdist_sq; unfold dx, dy; ring).
  set (w := v_mul (v_normal (p_sub e s)) side).
  assert (Wx : vx w = dy * side) by reflexivity. assert (Wy : vy w = - dx * side) by reflexivity.
  assert (Wn : w <> V 0 0).
  { intros C. rewrite C in Wx, Wy. cbn in Wx, Wy.
    assert (dy = 0) by (symmetry in Wx; apply Rmult_integral in Wx; tauto).
    assert (- dx = 0) by (symmetry in Wy; apply Rmult_integral in Wy; tauto).
    rewrite H in Dsq. replace dx with 0 in Dsq by lra. nra. }
  destruct (unit_ok w Wn) as (u & Eu & Lu & Ux & Uy & Lw). rewrite Eu. cbn [bind].
  pose proof (length_sq u) as Usq. rewrite Lu in Usq.
  set (h := sqrt (r * r - pdist s e / 2 * (pdist s e / 2))).
  assert (Hh : h * h = r * r - pdist s e / 2 * (pdist s e / 2)) by (apply sqrt_sqrt; nra).
  assert (Hh0 : 0 <= h) by apply sqrt_pos.
  assert (Hhp : pdist s e < 2 * r -> 0 < h) by (intros; apply sqrt_lt_R0; nra).
  set (c := p_add _ _).
  assert (Cx : px c = px s + dx / 2 + vx u * h) by (unfold c, dx; cbn -[IZR]; field).
  assert (Cy : py c = py s + dy / 2 + vy u * h) by (unfold c, dy; cbn -[IZR]; field).
  clearbody c h. clear Eu.
  assert (Perp : dx * vx u + dy * vy u = 0).
  { apply (Rmult_eq_reg_l (v_length w)); [|lra]. rewrite Rmult_0_r.
    transitivity (dx * (v_length w * vx u) + dy * (v_length w * vy u)); [ring|]. rewrite <- Ux, <- Uy, Wx, Wy. ring. }
  assert (Crs : v_length w * (dx * vy u - dy * vx u) = - side * (dx * dx + dy * dy)).
  { transitivity (dx * (v_length w * vy u) - dy * (v_length w * vx u)); [ring|]. rewrite <- Ux, <- Uy, Wx, Wy. ring. }
  assert (Lft : leftness s e c = h * (dx * vy u - dy * vx u)).
  { unfold leftness. fold dx dy. rewrite Cx, Cy. field. }
  assert (DD : 0 < dx * dx + dy * dy) by (rewrite <- Dsq; nra).
  assert (Sg1 : 0 < side -> dx * vy u - dy * vx u < 0).
  { intros. apply (Rmult_lt_reg_l (v_length w)); auto. rewrite Crs, Rmult_0_r.
    assert (0 < side * (dx * dx + dy * dy)) by (apply Rmult_lt_0_compat; auto). lra. }
  assert (Sg2 : side < 0 -> 0 < dx * vy u - dy * vx u).
  { intros. apply (Rmult_lt_reg_l (v_length w)); auto. rewrite Crs, Rmult_0_r.
    assert (0 < - side * (dx * dx + dy * dy)) by (apply Rmult_lt_0_compat; lra). lra. }
  assert (Rs : (px s - px c) * (px s - px c) + (py s - py c) * (py s - py c) = r * r).
  { rewrite Cx, Cy.
    transitivity ((dx * dx + dy * dy) / 4 + h * (dx * vx u + dy * vy u) + (vx u * vx u + vy u * vy u) * (h * h)); [field|].
    rewrite Perp, <- Usq, Hh, <- Dsq. field. }
  assert (Re : (px e - px c) * (px e - px c) + (py e - py c) * (py e - py c) = r * r).
  { replace (px e) with (px s + dx) by (unfold dx; ring). replace (py e) with (py s + dy) by (unfold dy; ring). rewrite Cx, Cy.
    transitivity ((dx * dx + dy * dy) / 4 - h * (dx * vx u + dy * vy u) + (vx u * vx u + vy u * vy u) * (h * h)); [field|].
    rewrite Perp, <- Usq, Hh, <- Dsq. field. }
  assert (Ls : v_length (p_sub s c) = r). { unfold v_length, p_sub. cbn. rewrite Rs. apply sqrt_square. lra. }
  assert (Le : v_length (p_sub e c) = r). { unfold v_length, p_sub. cbn. rewrite Re. apply sqrt_square. lra. }
  destruct (polar (p_sub s c)) as [Ps1 Ps2]. destruct (polar (p_sub e c)) as [Pe1 Pe2].
  rewrite Ls in Ps1, Ps2. rewrite Le in Pe1, Pe2.
  assert (Es : on_circle c r (v_angle (p_sub s c)) = (px s, py s)).
  { unfold on_circle. unfold radians in *. change (npi / nofZ 180)%num with (PI / 180) in *. change (@nmul R _) with Rmult in *.
    rewrite <- Ps1, <- Ps2. cbn. f_equal; ring. }
  assert (Ee : on_circle c r (v_angle (p_sub e c)) = (px e, py e)).
  { unfold on_circle. unfold radians in *. change (npi / nofZ 180)%num with (PI / 180) in *. change (@nmul R _) with Rmult in *.
    rewrite <- Pe1, <- Pe2. cbn. f_equal; ring. }
  destruct (C27_arc r (v_angle (p_sub s c)) (v_angle (p_sub e c)) c steps Ccw Hst)
    as (sa & ea & n & pts & E & Ca & Cb & Rg & _ & _ & Hpos & _ & Hn & Ln & Nth & N0 & Nn & Din).
  specialize (Rg eq_refl). rewrite E. cbn [bind].
  rewrite Es in N0. rewrite Ee in Nn.
  exists c, pts, sa, ea, n. split; [reflexivity|].
  assert (Sin : leftness s e c = r * r * sin ((ea - sa) * (PI / 180))).
  { assert (Qs : on_circle c r sa = (px s, py s)) by (rewrite <- Es; apply on_circle_congruent; auto).
    assert (Qe : on_circle c r ea = (px e, py e)) by (rewrite <- Ee; apply on_circle_congruent; auto).
    unfold on_circle in Qs, Qe. inversion Qs as [[S1 S2]]. inversion Qe as [[E1 E2]].
    unfold leftness. rewrite <- S1, <- S2, <- E1, <- E2.
    replace ((ea - sa) * (PI / 180)) with (ea * (PI / 180) - sa * (PI / 180)) by ring. rewrite sin_minus. ring. }
  assert (Rr : 0 < r * r) by nra.
  assert (Nsweep : ea - sa <> 0).
  { intros Z. apply N. assert (Hq : on_circle c r sa = on_circle c r ea) by (f_equal; lra).
    rewrite (on_circle_congruent c r sa _ Ca), (on_circle_congruent c r ea _ Cb), Es, Ee in Hq.
    inversion Hq. apply pnt_ext; auto. }
  pose proof PI_RGT_0 as Pp.
  split. { unfold pdist. rewrite <- Ls. unfold v_length, p_sub. cbn. f_equal. ring. }
  split. { unfold pdist. rewrite <- Le. unfold v_length, p_sub. cbn. f_equal. ring. }
  split. { intros Hp. rewrite Lft. specialize (Sg1 Hp). nra. }
  split. { intros Hp. rewrite Lft. specialize (Sg2 Hp). nra. }
  split. { intros Hp Z. rewrite Lft in Z. specialize (Hhp Hp). apply Rmult_integral in Z. destruct Z as [Z|Z]; [lra|].
    destruct (Rlt_dec 0 side) as [Y|Y]; [specialize (Sg1 Y); lra|]. assert (side < 0) as Y' by lra. specialize (Sg2 Y'). lra. }
  split; auto. split; auto. split; auto. split; auto. split; auto.
  split. { intros q Hq. rewrite (Din q Hq). apply Rabs_right. lra. }
  split; auto. split.
  - intros Hp. split; [|lra]. destruct (Rle_dec 180 (ea - sa)) as [|C]; auto. exfalso.
    assert (0 < sin ((ea - sa) * (PI / 180))) by (apply sin_gt_0; nra).
    specialize (Sg1 Hp). assert (leftness s e c <= 0) by (rewrite Lft; nra). nra.
  - intros Hp. split; [lra|]. destruct (Rle_dec (ea - sa) 180) as [|C]; auto. exfalso.
    assert (sin ((ea - sa) * (PI / 180)) < 0) by (apply sin_lt_0; nra).
    specialize (Sg2 Hp). assert (0 <= leftness s e c) by (rewrite Lft; nra). nra.
Qed.

(* ---------------------------------------------------------------- *)
(** ** C29 path helpers, cross and plus *)

Theorem C29_rigid (path : list (pt R)) (angle : R) (d : vec R) :
  path_rotate path angle = map (turn_cw angle) path /\
  path_rotate_ccw path angle = map (turn_ccw angle) path /\
  path_translate path d = map (S_transform.shift (vx d) (vy d)) path /\
  path_rotate_ccw (path_rotate path angle) angle = path /\
  path_rotate (path_rotate_ccw path angle) angle = path.
Proof.
  assert (A : forall p, path_rotate p angle = map (turn_cw angle) p).
  { intros p. unfold path_rotate. apply map_ext. intros q. rewrite rotate_pt by (cbn; auto with aff). rewrite new_pt. reflexivity. }
  assert (B : forall p, path_rotate_ccw p angle = map (turn_ccw angle) p).
  { intros p. unfold path_rotate_ccw. apply map_ext. intros q. rewrite rotate_ccw_pt by (cbn; auto with aff). rewrite new_pt. reflexivity. }
  split; [apply A|]. split; [apply B|]. split; [reflexivity|].
  rewrite !A, !B, !map_map. split.
  - rewrite <- (map_id path) at 2. apply map_ext. intros p. apply turn_inv'.
  - rewrite <- (map_id path) at 2. apply map_ext. intros p. apply turn_inv.
Qed.
(* distances between any two points of the path are kept *)
Theorem C29_distances (path : list (pt R)) (angle : R) (i j : nat) (p q p' q' : pt R) :
  nth_error path i = Some p -> nth_error path j = Some q ->
  (nth_error (path_rotate path angle) i = Some p' -> nth_error (path_rotate path angle) j = Some q' -> pdist p' q' = pdist p q) /\
  (nth_error (path_rotate_ccw path angle) i = Some p' -> nth_error (path_rotate_ccw path angle) j = Some q' -> pdist p' q' = pdist p q).
Proof.
  intros Hp Hq. destruct (C29_rigid path angle (V 0 0)) as (A & B & _). rewrite A, B.
  assert (T : forall a x y, pdist (turn_ccw a x) (turn_ccw a y) = pdist x y).
  { intros a x y. unfold pdist, turn_ccw. cbn [px py]. f_equal. set (t := a * (PI / 180)).
    pose proof (sin2_cos2 t) as E. unfold Rsqr in E.
    transitivity ((sin t * sin t + cos t * cos t) * ((px x - px y) * (px x - px y) + (py x - py y) * (py x - py y))); [ring|rewrite E; ring]. }
  rewrite !nth_error_map, Hp, Hq. cbn [option_map]. unfold turn_cw.
  split; intros E1 E2; inversion E1; inversion E2; apply T.
Qed.
Theorem C29_xy_roundtrip {F} (path : list (pt F)) (l : list (F * F)) :
  path_from_xy (path_to_xy path) = path /\ path_to_xy (path_from_xy l) = l.
Proof.
  unfold path_from_xy, path_to_xy. rewrite !map_map. split.
  - rewrite <- (map_id path) at 2. apply map_ext. intros []; reflexivity.
  - rewrite <- (map_id l) at 2. apply map_ext. intros []; reflexivity.
Qed.

(* cross and plus: c-a, c+a, c, c-b, c+b with a and b perpendicular and of length |r| *)
Theorem C29_cross_plus (r : R) (c : pt R) :
  (exists ax ay, ax = ay /\ sqrt (ax * ax + ay * ay) = Rabs r /\
     cross r c = [(px c - ax, py c - ay); (px c + ax, py c + ay); (px c, py c); (px c + ay, py c - ax); (px c - ay, py c + ax)]) /\
  plus r c = [(px c - r, py c); (px c + r, py c); (px c, py c); (px c, py c - r); (px c, py c + r)].
Proof.
  split.
  - exists (r * (sqrt 2 / 2)), (r * (sqrt 2 / 2)). split; auto. split.
    + replace (_ + _) with (r * r * (sqrt 2 * sqrt 2) / 2) by field. rewrite sqrt_sqrt by lra.
      replace (r * r * 2 / 2) with (r * r) by field. apply sqrt_Rsqr_abs.
    + unfold cross, p_xy, p_add, p_subv. cbn -[IZR]. repeat (f_equal; try ring).
  - unfold plus, p_xy, p_add, p_subv. cbn -[IZR]. repeat (f_equal; try ring).
Qed.

(* ---------------------------------------------------------------- *)
(** ** Examples *)
Example ex_arc2p : P 0 0 <> P 2 0 /\ pdist (P 0 0) (P 2 0) <= 2 * 3 /\ pdist (P 0 0) (P 2 0) < 2 * 3.
Proof.
  assert (D : pdist (P 0 0) (P 2 0) = 2).
  { unfold pdist. cbn [px py]. replace (_ + _) with (2 * 2) by ring. apply sqrt_square. lra. }
  rewrite D. split; [|lra]. intros E. inversion E. lra.
Qed.
Example ex_full_turn : congruent 0 360 /\ Ccw <> DNone.
Proof. split; [exists (-1)%Z; lra|discriminate]. Qed.
Example ex_min_rotation : min_rotation 350 10 = -20.
Proof. destruct (C26_min_rotation 350 10) as (_ & _ & _ & U). symmetry. apply U; [exists (-1)%Z; lra|lra]. Qed.
