(* Property theorems C79: how far results on doubles are from the exact results.
   Each compares the code on doubles with the code on exact numbers, for the same data. *)
From Coq Require Import Reals Floats ZArith List Lra Lia String.
From Flocq Require Import Core BinarySingleNaN PrimFloat.
Require Import Verif.Base Verif.NumFloat Verif.NumR Verif.M_vector Verif.M_bbox Verif.M_transform Verif.M_bezier.
Require Import Verif.S_float Verif.L_float Verif.L_float2.
Import ListNotations.
Local Open Scope R_scope.

(* absolute values of the data *)
Definition absp (p : pt float) : pt R := P (Rabs (val (px p))) (Rabs (val (py p))).
Definition absm (m : mat float) : mat R :=
  let a x := Rabs (val x) in
  M (a (m00 m)) (a (m01 m)) (a (m02 m)) (a (m10 m)) (a (m11 m)) (a (m12 m)) (a (m20 m)) (a (m21 m)) (a (m22 m)).

Lemma near_const z : (Z.abs z <= max_whole)%Z -> near 0 (IZR (Z.abs z)) (float_ofZ z) (IZR z).
Proof. intros H. destruct (const_ok z H) as [_ <-]. rewrite abs_IZR. destruct (const_ok z H) as [_ E]. rewrite <- E. apply near_leaf. Qed.
Lemma near_use n A x r K B : near n A x r -> (n <= 1000)%nat -> INR (S n) <= K -> A <= B -> finite x -> Rabs (val x - r) <= K * eps * B.
Proof.
  intros N Hn HK HA F. pose proof (growth n Hn) as G. pose proof eps_pos. destruct N as [N1 N2]. specialize (N2 F).
  pose proof (Rabs_pos r). pose proof (pow1 n). pose proof (pos_INR (S n)).
  eapply Rle_trans; [exact N2|]. apply Rmult_le_compat; try lra. eapply Rle_trans; [exact G|]. apply Rmult_le_compat_r; lra.
Qed.
Lemma near_diff x y : near 1 (Rabs (val x - val y)) (x - y)%float (val x - val y).
Proof.
  split; [lra|]. intros F. destruct (sub_ok _ _ F) as (_ & _ & ->). cbn [pow].
  replace (((1 + eps) * 1 - 1)) with eps by ring. change (val x - val y) with (val x + - val y).
  apply err_sum; [apply val_format|apply generic_format_opp, val_format].
Qed.
Lemma near_plus x y : near 1 (Rabs (val x + val y)) (x + y)%float (val x + val y).
Proof.
  split; [lra|]. intros F. destruct (add_ok _ _ F) as (_ & _ & ->). cbn [pow].
  replace (((1 + eps) * 1 - 1)) with eps by ring. apply err_sum; apply val_format.
Qed.

Ltac near_go :=
  lazymatch goal with
  | |- near _ _ (PrimFloat.add _ _) _ => eapply near_add; near_go
  | |- near _ _ (PrimFloat.sub _ _) _ => eapply near_sub; near_go
  | |- near _ _ (PrimFloat.mul _ _) _ => eapply near_mul; near_go
  | |- near _ _ (PrimFloat.opp _) _ => eapply near_opp; near_go
  | |- near _ _ (float_ofZ _) _ => eapply near_const; now vm_compute
  | |- near _ _ _ _ => eapply near_leaf
  end.
Ltac ops := cbn [nadd nsub nmul ndiv nneg nofZ NumFloat NumR].
Ltac ops_in H := cbn [nadd nsub nmul ndiv nneg nofZ NumFloat NumR] in H.

(* one operation on each coordinate: half a unit in the last place *)
Theorem C79_points_vectors (p q : pt float) (v w : vec float) (k : float) :
  (finite (px (p_add p v)) -> Rabs (val (px (p_add p v)) - px (p_add (valp p) (valv v))) <= eps * Rabs (px (p_add (valp p) (valv v)))) /\
  (finite (py (p_add p v)) -> Rabs (val (py (p_add p v)) - py (p_add (valp p) (valv v))) <= eps * Rabs (py (p_add (valp p) (valv v)))) /\
  (finite (vx (p_sub p q)) -> Rabs (val (vx (p_sub p q)) - vx (p_sub (valp p) (valp q))) <= eps * Rabs (vx (p_sub (valp p) (valp q)))) /\
  (finite (vy (p_sub p q)) -> Rabs (val (vy (p_sub p q)) - vy (p_sub (valp p) (valp q))) <= eps * Rabs (vy (p_sub (valp p) (valp q)))) /\
  (finite (vx (v_add v w)) -> Rabs (val (vx (v_add v w)) - vx (v_add (valv v) (valv w))) <= eps * Rabs (vx (v_add (valv v) (valv w)))) /\
  (finite (vy (v_add v w)) -> Rabs (val (vy (v_add v w)) - vy (v_add (valv v) (valv w))) <= eps * Rabs (vy (v_add (valv v) (valv w)))) /\
  (finite (vx (v_mul v k)) -> Rabs (val (vx (v_mul v k)) - vx (v_mul (valv v) (val k))) <= eps * (Rabs (vx (v_mul (valv v) (val k))) + tiny)) /\
  (finite (vy (v_mul v k)) -> Rabs (val (vy (v_mul v k)) - vy (v_mul (valv v) (val k))) <= eps * (Rabs (vy (v_mul (valv v) (val k))) + tiny)).
Proof.
  assert (A : forall x y, finite (x + y)%float -> Rabs (val (x + y)%float - (val x + val y)) <= eps * Rabs (val x + val y)).
  { intros x y F. destruct (near_plus x y) as [_ N]. specialize (N F). cbn [pow] in N. lra. }
  assert (B : forall x y, finite (x - y)%float -> Rabs (val (x - y)%float - (val x - val y)) <= eps * Rabs (val x - val y)).
  { intros x y F. destruct (near_diff x y) as [_ N]. specialize (N F). cbn [pow] in N. lra. }
  assert (C : forall x y, finite (x * y)%float -> Rabs (val (x * y)%float - (val x * val y)) <= eps * (Rabs (val x * val y) + tiny)).
  { intros x y F. destruct (mul_ok _ _ F) as (_ & _ & ->). apply err_any. }
  repeat split; first [apply A|apply B|apply C].
Qed.

Theorem C79_dot_cross (v w : vec float) :
  (finite (v_dot v w) -> Rabs (val (v_dot v w) - v_dot (valv v) (valv w)) <=
     3 * eps * (Rabs (val (vx v) * val (vx w)) + Rabs (val (vy v) * val (vy w)) + 2 * tiny)) /\
  (finite (v_cross v w) -> Rabs (val (v_cross v w) - v_cross (valv v) (valv w)) <=
     3 * eps * (Rabs (val (vx v) * val (vy w)) + Rabs (val (vy v) * val (vx w)) + 2 * tiny)).
Proof.
  split; intros F; (eapply near_use; [unfold v_dot, v_cross; ops; cbn [valv vx vy]; near_go|lia|cbn; lra| |exact F]); rewrite !Rabs_mult; lra.
Qed.

(* transform: four roundings; the size is that of the terms of the sum *)
Theorem C79_transform (m : transform float) (p : pt float) :
  let q := t_transform m p in let q' := t_transform (valt m) (valp p) in let s := mat_apply (absm (tmat m)) (absp p) in
  (finite (px q) -> Rabs (val (px q) - px q') <= 4 * eps * (px s + 3 * tiny)) /\
  (finite (py q) -> Rabs (val (py q) - py q') <= 4 * eps * (py s + 3 * tiny)).
Proof.
  cbv zeta. unfold t_transform, mat_apply. cbn [valt valm tmat valp px py absm absp m00 m01 m02 m10 m11 m12 m20 m21 m22]. ops.
  split; intros F; (eapply near_use; [near_go|cbn; lia|cbn; lra| |exact F]); cbn [Z.abs]; lra.
Qed.
(* the product of matrices, behind translate, scale, rotate, compose *)
Theorem C79_compose (a b : mat float) : Forall (fun e =>
    finite (fst e (mat_dot a b)) ->
    Rabs (val (fst e (mat_dot a b)) - snd e (mat_dot (valm a) (valm b))) <= 4 * eps * (snd e (mat_dot (absm a) (absm b)) + 3 * tiny))
  [(@m00 float, @m00 R); (@m01 float, @m01 R); (@m02 float, @m02 R); (@m10 float, @m10 R); (@m11 float, @m11 R);
   (@m12 float, @m12 R); (@m20 float, @m20 R); (@m21 float, @m21 R); (@m22 float, @m22 R)].
Proof.
  repeat (apply Forall_cons;
    [cbn [fst snd]; unfold mat_dot; cbn [valm absm m00 m01 m02 m10 m11 m12 m20 m21 m22]; ops;
     intros F; (eapply near_use; [near_go|cbn; lia|cbn; lra| |exact F]); lra|]).
  apply Forall_nil.
Qed.

(* ------------------------------------------------------------------ *)
(** ** curves *)

Lemma near_scaled n A x r n' A' : near n A x r -> (n <= n')%nat -> A <= A' -> near n' A' x r.
Proof. intros H Hn HA. eapply near_weaken; eauto. Qed.

(* one coordinate of a sample *)
Lemma near_bez (a b c d t : float) (m : R) : 0 <= val t <= 1 ->
  Rabs (val a) <= m -> Rabs (val b) <= m -> Rabs (val c) <= m -> Rabs (val d) <= m ->
  let s := (1 - t)%float in
  near 9 (m + 18 * (tiny * m) + 4 * tiny)
    (s * (s * s) * a + float_ofZ 3 * (s * s * t) * b + float_ofZ 3 * (s * (t * t)) * c + t * (t * t) * d)%float
    ((1 - val t) * ((1 - val t) * (1 - val t)) * val a + 3 * ((1 - val t) * (1 - val t) * val t) * val b
     + 3 * ((1 - val t) * (val t * val t)) * val c + val t * (val t * val t) * val d).
Proof.
  intros Ht Ha Hb Hc Hd s. pose proof tiny_pos.
  assert (Ns : near 1 (1 - val t) s (1 - val t)).
  { pose proof (near_diff 1%float t) as N. assert (val 1%float = 1) as E1.
    { change 1%float with (float_ofZ 1). apply (const_ok 1). vm_compute. discriminate. }
    rewrite E1 in N. rewrite (Rabs_right (1 - val t)) in N by lra. exact N. }
  assert (Nt : near 0 (val t) t (val t)).
  { pose proof (near_leaf t) as N. rewrite Rabs_right in N by lra. exact N. }
  assert (Lf : forall x, Rabs (val x) <= m -> near 0 m x (val x)).
  { intros x Hx. eapply near_weaken; [apply Nat.le_refl|exact Hx|apply near_leaf]. }
  assert (N3 : near 0 3 (float_ofZ 3) 3) by (apply (near_const 3); vm_compute; discriminate).
  set (w := val t) in *. assert (0 <= 1 - w) by lra. assert (0 <= m) by (pose proof (Rabs_pos (val a)); lra).
  assert (W : forall x, 0 <= x <= 1 -> x * tiny <= tiny) by (intros; nra).
  pose proof (near_mul _ _ _ _ _ _ _ _ Ns Ns) as S2. pose proof (near_mul _ _ _ _ _ _ _ _ Ns S2) as S3.
  pose proof (near_mul _ _ _ _ _ _ _ _ Nt Nt) as T2. pose proof (near_mul _ _ _ _ _ _ _ _ Nt T2) as T3.
  pose proof (near_mul _ _ _ _ _ _ _ _ S2 Nt) as S2T. pose proof (near_mul _ _ _ _ _ _ _ _ Ns T2) as ST2.
  pose proof (near_mul _ _ _ _ _ _ _ _ S3 (Lf a Ha)) as A1.
  pose proof (near_mul _ _ _ _ _ _ _ _ (near_mul _ _ _ _ _ _ _ _ N3 S2T) (Lf b Hb)) as A2.
  pose proof (near_mul _ _ _ _ _ _ _ _ (near_mul _ _ _ _ _ _ _ _ N3 ST2) (Lf c Hc)) as A3.
  pose proof (near_mul _ _ _ _ _ _ _ _ T3 (Lf d Hd)) as A4.
  pose proof (near_add _ _ _ _ _ _ _ _ (near_add _ _ _ _ _ _ _ _ (near_add _ _ _ _ _ _ _ _ A1 A2) A3) A4) as N.
  eapply near_scaled; [exact N|cbn; lia|]. clear - Ht H H0 H1.
  set (s := 1 - w) in *.
  assert (Q : s * (s * s) + 3 * (s * s * w) + 3 * (s * (w * w)) + w * (w * w) = 1) by (unfold s; ring).
  assert (s * tiny <= tiny) by (unfold s; nra). assert (w * tiny <= tiny) by nra.
  assert (K1 : s * (s * s + tiny) + tiny <= s * (s * s) + 2 * tiny) by lra.
  assert (K2 : 3 * ((s * s + tiny) * w + tiny) + tiny <= 3 * (s * s * w) + 7 * tiny) by lra.
  assert (K3 : 3 * (s * (w * w + tiny) + tiny) + tiny <= 3 * (s * (w * w)) + 7 * tiny) by lra.
  assert (K4 : w * (w * w + tiny) + tiny <= w * (w * w) + 2 * tiny) by lra.
  pose proof (Rmult_le_compat_r m _ _ H1 K1). pose proof (Rmult_le_compat_r m _ _ H1 K2).
  pose proof (Rmult_le_compat_r m _ _ H1 K3). pose proof (Rmult_le_compat_r m _ _ H1 K4).
  assert ((s * (s * s) + 3 * (s * s * w) + 3 * (s * (w * w)) + w * (w * w)) * m = m) by (rewrite Q; ring).
  lra.
Qed.

(* a sample on doubles is within eleven half-units of the exact point of the curve *)
Theorem C79_bez (a b c d : pt float) (t : float) (m : R) : 0 <= val t <= 1 ->
  (forall p, In p [a; b; c; d] -> Rabs (val (px p)) <= m /\ Rabs (val (py p)) <= m) ->
  let q := bez_at a b c d t in let q' := bez_at (valp a) (valp b) (valp c) (valp d) (val t) in
  (finite (fst q) -> Rabs (val (fst q) - fst q') <= 11 * eps * (m + 4 * tiny)) /\
  (finite (snd q) -> Rabs (val (snd q) - snd q') <= 11 * eps * (m + 4 * tiny)).
Proof.
  intros Ht Hm. cbv zeta. destruct (Hm a) as [Hax Hay]; [cbn; auto|]. destruct (Hm b) as [Hbx Hby]; [cbn; auto|].
  destruct (Hm c) as [Hcx Hcy]; [cbn; auto|]. destruct (Hm d) as [Hdx Hdy]; [cbn; auto 6|].
  assert (0 <= m) by (pose proof (Rabs_pos (val (px a))); lra).
  assert (Fin : forall x r, near 9 (m + 18 * (tiny * m) + 4 * tiny) x r -> finite x -> Rabs (val x - r) <= 11 * eps * (m + 4 * tiny)).
  { intros x r N F. pose proof tiny_pos. pose proof eps_pos.
    assert (Rabs (val x - r) <= 10 * eps * (m + 18 * (tiny * m) + 4 * tiny)) as Q.
    { eapply near_use; [exact N|lia|cbn; lra|lra|exact F]. }
    assert (tiny <= 1 / 180).
    { unfold tiny. apply Rle_trans with (/ 2 ^ 8).
      - apply Rinv_le_contravar; [apply pow_lt; lra|]. apply Rle_pow; [lra|]. lia.
      - cbn. lra. }
    assert (tiny * m <= m / 180) by nra.
    eapply Rle_trans; [exact Q|]. replace (11 * eps * (m + 4 * tiny)) with (10 * eps * (11 / 10 * (m + 4 * tiny))) by field.
    apply Rmult_le_compat_l; lra. }
  split; intros F; (apply Fin; [|exact F]); unfold bez_at; ops; cbn [fst snd valp px py].
  - exact (near_bez (px a) (px b) (px c) (px d) t m Ht Hax Hbx Hcx Hdx).
  - exact (near_bez (py a) (py b) (py c) (py d) t m Ht Hay Hby Hcy Hdy).
Qed.

(* bez: as many samples as on exact numbers; sample k is near the point of the curve for a
   parameter that is k / steps up to rounding *)
Lemma quotient k n : (0 <= k <= n)%Z -> (0 < n <= max_whole)%Z ->
  finite (float_ofZ k / float_ofZ n)%float /\ 0 <= val (float_ofZ k / float_ofZ n)%float <= 1 /\
  Rabs (val (float_ofZ k / float_ofZ n)%float - IZR k / IZR n) <= 2 * eps.
Proof.
  intros Hk Hn. destruct (const_ok k) as [Fk Vk]; [lia|]. destruct (const_ok n) as [Fn Vn]; [lia|].
  assert (0 < IZR n) by (apply IZR_lt; lia). assert (0 <= IZR k) by (apply IZR_le; lia). assert (IZR k <= IZR n) by (apply IZR_le; lia).
  assert (R01 : 0 <= IZR k / IZR n <= 1).
  { pose proof (Rinv_0_lt_compat _ H). unfold Rdiv. split; [nra|]. replace 1 with (IZR n * / IZR n) by (apply Rinv_r; lra). apply Rmult_le_compat_r; lra. }
  assert (Rn : 0 <= rnd (IZR k / IZR n) <= 1).
  { split; [rewrite <- rnd_zero; apply rnd_le; lra|]. rewrite <- (rnd_int 1) by (vm_compute; discriminate). apply rnd_le. lra. }
  assert (F : finite (float_ofZ k / float_ofZ n)%float).
  { apply div_fin; [auto|rewrite Vn; lra|]. rewrite Vk, Vn. apply Rle_lt_trans with 1; [rewrite Rabs_right; lra|].
    change 1 with (bpow radix2 0). apply bpow_lt. lia. }
  split; [exact F|]. destruct (div_ok _ _ Fn ltac:(rewrite Vn; lra) F) as [_ E]. rewrite E, Vk, Vn. split; [exact Rn|].
  eapply Rle_trans; [apply err_any|]. pose proof eps_pos. rewrite (Rabs_right (IZR k / IZR n)) by lra. 
  assert (tiny <= 1). { unfold tiny. rewrite <- Rinv_1. apply Rinv_le_contravar; [lra|]. apply pow_R1_Rle. lra. }
  nra.
Qed.

Lemma some_inj {A} (x y : A) : Some x = Some y -> x = y.
Proof. congruence. Qed.
Theorem C79_samples (a b c d : pt float) (steps : Z) (m : R) : (0 < steps <= 2 ^ 53)%Z ->
  (forall p, In p [a; b; c; d] -> Rabs (val (px p)) <= m /\ Rabs (val (py p)) <= m) ->
  List.length (bez_xy a b c d steps) = S (Z.to_nat steps) /\
  forall k q, nth_error (bez_xy a b c d steps) k = Some q -> exists t, 0 <= t <= 1 /\
    Rabs (t - INR k / IZR steps) <= 2 * eps /\
    let q' := bez_at (valp a) (valp b) (valp c) (valp d) t in
    (finite (fst q) -> Rabs (val (fst q) - fst q') <= 11 * eps * (m + 4 * tiny)) /\
    (finite (snd q) -> Rabs (val (snd q) - snd q') <= 11 * eps * (m + 4 * tiny)).
Proof.
  intros Hs Hm. change (2 ^ 53)%Z with max_whole in Hs. unfold bez_xy. split.
  - cbn [List.length]. rewrite app_length, map_length, seq_length. cbn [List.length]. lia.
  - pose proof eps_pos. pose proof tiny_pos. assert (0 < IZR steps) by (apply IZR_lt; lia).
    assert (0 <= m) by (destruct (Hm a) as [Q _]; [cbn; auto|]; pose proof (Rabs_pos (val (px a))); lra).
    assert (Z0 : forall x, Rabs (val x - val x) <= 11 * eps * (m + 4 * tiny)).
    { intros x. replace (val x - val x) with 0 by ring. rewrite Rabs_R0. apply Rmult_le_pos; lra. }
    intros k q Hk. destruct k as [|k]; cbn [nth_error] in Hk.
    + apply some_inj in Hk. subst q. exists 0. split; [lra|]. split.
      { cbn [INR]. unfold Rdiv. rewrite Rmult_0_l. replace (0 - 0) with 0 by ring. rewrite Rabs_R0. lra. }
      cbv zeta. unfold bez_at. ops. cbn [fst snd valp px py].
      split; intros _; (replace (_ + _) with (val (px a)) by ring) || (replace (_ + _) with (val (py a)) by ring); apply Z0.
    + destruct (Nat.lt_ge_cases k (Z.to_nat (steps - 1))) as [L|L].
      * rewrite nth_error_app1 in Hk by (rewrite map_length, seq_length; exact L).
        rewrite nth_error_map in Hk. destruct (nth_error (seq 1 _) k) as [i|] eqn:Ei; [|discriminate].
        assert (i = S k) as ->.
        { apply nth_error_nth with (d := O) in Ei. rewrite seq_nth in Ei by exact L. lia. }
        cbn [option_map] in Hk. apply some_inj in Hk. subst q.
        destruct (quotient (Z.of_nat (S k)) steps) as (F & R01 & E); [lia|lia|].
        exists (val (float_ofZ (Z.of_nat (S k)) / float_ofZ steps)%float). split; [exact R01|].
        split; [rewrite INR_IZR_INZ; exact E|]. apply (C79_bez a b c d _ m R01 Hm).
      * rewrite nth_error_app2 in Hk by (rewrite map_length, seq_length; exact L). rewrite map_length, seq_length in Hk.
        destruct (k - Z.to_nat (steps - 1))%nat as [|j] eqn:Ej; cbn [nth_error] in Hk; [|destruct j; discriminate].
        apply some_inj in Hk. subst q. exists 1. split; [lra|]. split.
        { assert (S k = Z.to_nat steps) as -> by lia. rewrite INR_IZR_INZ, Z2Nat.id by lia.
          unfold Rdiv. rewrite Rinv_r by lra. replace (1 - 1) with 0 by ring. rewrite Rabs_R0. lra. }
        cbv zeta. unfold bez_at. ops. cbn [fst snd valp px py].
        split; intros _; (replace (_ + _) with (val (px d)) by ring) || (replace (_ + _) with (val (py d)) by ring); apply Z0.
Qed.
