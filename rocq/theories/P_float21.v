(* Property theorems C79, continued: splitting a curve anywhere, on doubles. *)
From Coq Require Import Reals Floats ZArith List Lra Lia String.
From Flocq Require Import Core BinarySingleNaN PrimFloat.
Require Import Verif.Base Verif.NumFloat Verif.NumR Verif.M_vector Verif.M_bbox Verif.M_transform Verif.M_bezier.
Require Import Verif.S_float Verif.L_float Verif.L_float2 Verif.P_float Verif.P_float2 Verif.P_float3 Verif.P_float5 Verif.P_float9 Verif.P_float12 Verif.P_float17.
Import ListNotations.
Set Warnings "-inexact-float".
Local Open Scope R_scope.

Lemma fn_sub n m A B x y r s : (n <= 1000)%nat -> (m <= 1000)%nat -> A + B <= 2 ^ 1000 -> fn n A x r -> fn m B y s ->
  fn (S (Nat.max n m)) (A + B) (x - y)%float (r - s).
Proof.
  intros Hn Hm L [Fx Nx] [Fy Ny]. split; [|now apply near_sub].
  pose proof (near_size _ _ _ _ Nx Fx) as Sx. pose proof (near_size _ _ _ _ Ny Fy) as Sy.
  pose proof (near_pos _ _ _ _ Nx). pose proof (near_pos _ _ _ _ Ny). pose proof (pow_half n Hn). pose proof (pow_half m Hm).
  assert ((1 + eps) ^ n * A <= 2 * A) by (apply Rmult_le_compat_r; lra). assert ((1 + eps) ^ m * B <= 2 * B) by (apply Rmult_le_compat_r; lra).
  apply sub_fin; auto. apply rnd_fits with 1001%Z; [lia|]. eapply Rle_trans; [apply Rabs_triang|]. rewrite Rabs_Ropp.
  replace (bpow radix2 1001) with (2 * 2 ^ 1000); [lra|].
  change 1000%nat with (Z.to_nat 1000). rewrite pow_bpow by lia. change 1001%Z with (1 + 1000)%Z. rewrite bpow_plus. reflexivity.
Qed.

(* the point at [t] between two points *)
Lemma fn_between n A p q r s (t : float) : (n <= 900)%nat -> 3 * A <= 2 ^ 999 -> finite t -> 0 <= val t <= 1 -> fn n A p r -> fn n A q s ->
  fn (n + 3) (3 * A + tiny) (p + (q - p) * t)%float (r + (s - r) * val t).
Proof.
  intros Hn L Ft Ht P Q. pose proof (near_pos _ _ _ _ (proj2 P)) as A0. pose proof tiny_pos as T0. pose proof P_float9.tiny_small as Ts.
  assert (P999 : 1 <= 2 ^ 999) by (apply pow_R1_Rle; lra). assert (P1000 : 2 ^ 1000 = 2 * 2 ^ 999) by reflexivity.
  assert (Tn : fn 0 1 t (val t)) by (eapply fn_weaken; [| |apply fn_leaf; exact Ft]; [lia|rewrite Rabs_right; lra]).
  assert (D : fn (S n) (2 * A) (q - p)%float (s - r)).
  { eapply fn_weaken; [| |apply (fn_sub n n A A); try exact Q; try exact P; try lia; lra]; [lia|lra]. }
  assert (E : fn (S (S n)) (2 * A + tiny) ((q - p) * t)%float ((s - r) * val t)).
  { eapply fn_weaken; [| |apply (fn_mul (S n) 0 (2 * A) 1); try exact D; try exact Tn; try lia; lra]; [lia|lra]. }
  eapply fn_weaken; [| |apply (fn_add n (S (S n)) A (2 * A + tiny)); try exact P; try exact E; try lia; lra]; [lia|lra].
Qed.

(* Splitting at any t from 0 to 1: every coordinate of the three control points is finite and within 12 half-units of
   72 times the size of the data; the ends of the curve, and the handles that point away from it, are kept as they are. *)
Theorem C79_split_at (c1 c2 : cpoint float) (t : float) (m : R) : finite t -> 0 <= val t <= 1 -> m <= 2 ^ 990 ->
  Forall (fun co => (finite (co c1) /\ Rabs (val (co c1)) <= m) /\ finite (co c2) /\ Rabs (val (co c2)) <= m) coords ->
  let '(a, b, c) := bez_split c1 c2 t in
  let '(a', b', c') := bez_split (valc c1) (valc c2) (val t) in
  (cc a = cc c1 /\ cdl a = cdl c1 /\ cc c = cc c2 /\ cdr c = cdr c2) /\
  Forall2 (fun co co' =>
    (finite (co a) /\ Rabs (val (co a) - co' a') <= 12 * eps * (72 * m + 17 * tiny)) /\
    (finite (co b) /\ Rabs (val (co b) - co' b') <= 12 * eps * (72 * m + 17 * tiny)) /\
    (finite (co c) /\ Rabs (val (co c) - co' c') <= 12 * eps * (72 * m + 17 * tiny))) coords coords.
Proof.
  intros Ft Ht Lm H. unfold coords in H. repeat match goal with X : Forall _ (_ :: _) |- _ => inversion X; clear X; subst end.
  repeat match goal with X : _ /\ _ |- _ => destruct X end.
  assert (M0 : 0 <= m) by (pose proof (Rabs_pos (val (px (cc c1)))); lra). pose proof tiny_pos as T0. pose proof P_float9.tiny_small as Ts.
  assert (B999 : 200 * m + 100 * tiny <= 2 ^ 999).
  { assert (E : 2 ^ 999 = 512 * 2 ^ 990) by (change 999%nat with (9 + 990)%nat; rewrite pow_add; apply (f_equal (fun z => z * 2 ^ 990)); cbn; lra).
    assert (1 <= 2 ^ 990) by (apply pow_R1_Rle; lra). lra. }
  assert (B1000 : 2 ^ 1000 = 2 * 2 ^ 999) by reflexivity. remember (2 ^ 999) as w eqn:Ew.
  unfold bez_split. split; [auto|].
  assert (Use : forall x r, fn 11 (72 * m + 17 * tiny) x r -> finite x /\ Rabs (val x - r) <= 12 * eps * (72 * m + 17 * tiny)).
  { intros x r [F N]. split; [exact F|]. eapply near_use; [exact N|lia|cbn; lra|lra|exact F]. }
  assert (Leaf : forall n x, finite x -> Rabs (val x) <= m -> fn n (2 * m) x (val x)) by (intros n x Fx Hx; eapply fn_weaken; [| |apply fn_leaf; exact Fx]; [lia|lra]).
  assert (Co : forall (a0 ar d0 dl : float), finite a0 -> finite ar -> finite d0 -> finite dl -> Rabs (val a0) <= m -> Rabs (val ar) <= m -> Rabs (val d0) <= m -> Rabs (val dl) <= m ->
    let b := (a0 + ar)%float in let c := (d0 + dl)%float in let d := d0 in let a := a0 in
    let mid p q := (p + (q - p) * t)%float in
    let b' := val a0 + val ar in let c' := val d0 + val dl in let d' := val d0 in let a' := val a0 in
    let mid' p q := p + (q - p) * val t in
    let N := fn 11 (72 * m + 17 * tiny) in
    N (mid a b - a)%float (mid' a' b' - a') /\ N (mid c d - d)%float (mid' c' d' - d') /\
    N (mid (mid (mid a b) (mid b c)) (mid (mid b c) (mid c d))) (mid' (mid' (mid' a' b') (mid' b' c')) (mid' (mid' b' c') (mid' c' d'))) /\
    N (mid (mid a b) (mid b c) - mid (mid (mid a b) (mid b c)) (mid (mid b c) (mid c d)))%float
      (mid' (mid' a' b') (mid' b' c') - mid' (mid' (mid' a' b') (mid' b' c')) (mid' (mid' b' c') (mid' c' d'))) /\
    N (mid (mid b c) (mid c d) - mid (mid (mid a b) (mid b c)) (mid (mid b c) (mid c d)))%float
      (mid' (mid' b' c') (mid' c' d') - mid' (mid' (mid' a' b') (mid' b' c')) (mid' (mid' b' c') (mid' c' d')))).
  { intros a0 ar d0 dl Fa Fr Fd Fl Ha Hr Hd Hl. cbv zeta.
    assert (Na : fn 1 (2 * m) a0 (val a0)) by now apply Leaf. assert (Nd : fn 1 (2 * m) d0 (val d0)) by now apply Leaf.
    assert (Sum : forall x y, finite x -> finite y -> Rabs (val x) <= m -> Rabs (val y) <= m -> fn 1 (2 * m) (x + y)%float (val x + val y)).
    { intros x y Fx Fy Hx Hy. eapply fn_weaken; [| |apply (fn_add 0 0 (Rabs (val x)) (Rabs (val y))); try apply fn_leaf; auto; try lia; lra]; [lia|lra]. }
    pose proof (Sum a0 ar Fa Fr Ha Hr) as Nb. pose proof (Sum d0 dl Fd Fl Hd Hl) as Nc.
    assert (Bt : forall n A B p q r s, (n <= 900)%nat -> 3 * A <= w -> 3 * A + tiny <= B -> fn n A p r -> fn n A q s -> fn (n + 3) B (p + (q - p) * t)%float (r + (s - r) * val t)).
    { intros n A B p q r s Hn LA LB P Q. eapply fn_weaken; [apply Nat.le_refl|exact LB|]. apply fn_between; auto. rewrite <- Ew. exact LA. }
    pose proof (Bt 1%nat (2 * m) (6 * m + tiny) _ _ _ _ ltac:(lia) ltac:(lra) ltac:(lra) Na Nb) as Nab.
    pose proof (Bt 1%nat (2 * m) (6 * m + tiny) _ _ _ _ ltac:(lia) ltac:(lra) ltac:(lra) Nb Nc) as Nbc.
    pose proof (Bt 1%nat (2 * m) (6 * m + tiny) _ _ _ _ ltac:(lia) ltac:(lra) ltac:(lra) Nc Nd) as Ncd.
    pose proof (Bt 4%nat (6 * m + tiny) (18 * m + 4 * tiny) _ _ _ _ ltac:(lia) ltac:(lra) ltac:(lra) Nab Nbc) as Nabc.
    pose proof (Bt 4%nat (6 * m + tiny) (18 * m + 4 * tiny) _ _ _ _ ltac:(lia) ltac:(lra) ltac:(lra) Nbc Ncd) as Nbcd.
    pose proof (Bt 7%nat (18 * m + 4 * tiny) (54 * m + 13 * tiny) _ _ _ _ ltac:(lia) ltac:(lra) ltac:(lra) Nabc Nbcd) as Nabcd.
    assert (Sb : forall n k A B p q r s, (n <= 10)%nat -> (k <= 10)%nat -> A + B <= 72 * m + 17 * tiny -> fn n A p r -> fn k B q s -> fn 11 (72 * m + 17 * tiny) (p - q)%float (r - s)).
    { intros n k A B p q r s Hn Hk LA P Q. eapply fn_weaken; [| exact LA|apply (fn_sub n k A B); auto; try lia; lra]. lia. }
    split; [|split; [|split; [|split]]].
    - eapply Sb; [| | |exact Nab|exact Na]; [lia|lia|lra].
    - eapply Sb; [| | |exact Ncd|exact Nd]; [lia|lia|lra].
    - eapply fn_weaken; [| |exact Nabcd]; [lia|lra].
    - eapply Sb; [| | |exact Nabc|exact Nabcd]; [lia|lia|lra].
    - eapply Sb; [| | |exact Nbcd|exact Nabcd]; [lia|lia|lra]. }
  pose proof (Co (px (cc c1)) (vx (cdr c1)) (px (cc c2)) (vx (cdl c2))) as X. pose proof (Co (py (cc c1)) (vy (cdr c1)) (py (cc c2)) (vy (cdl c2))) as Y.
  cbv zeta in X, Y. destruct X as (X1 & X2 & X3 & X4 & X5); try assumption. destruct Y as (Y1 & Y2 & Y3 & Y4 & Y5); try assumption.
  assert (Same : forall x, finite x -> Rabs (val x) <= m -> fn 11 (72 * m + 17 * tiny) x (val x)) by (intros; eapply fn_weaken; [| |apply (Leaf 0%nat); assumption]; [lia|lra]).
  unfold coords. repeat (apply Forall2_cons; [split; [|split]; apply Use; first [exact X1|exact X2|exact X3|exact X4|exact X5|exact Y1|exact Y2|exact Y3|exact Y4|exact Y5|apply Same; assumption]|]).
  apply Forall2_nil.
Qed.

(* a curve from (0, 0) to (10, 5), split at a quarter *)
Example C79_example_split_at : finite 0.25%float /\ 0 <= val 0.25%float <= 1 /\ 16 <= 2 ^ 990 /\
  Forall (fun co => (finite (co (CP (P 0 0) (V 1 2) (V 2 1) "smooth")) /\ Rabs (val (co (CP (P 0 0) (V 1 2) (V 2 1) "smooth"))) <= 16) /\
                    finite (co (CP (P 10 5) (V 2 0) (V 2 0) "smooth")) /\ Rabs (val (co (CP (P 10 5) (V 2 0) (V 2 0) "smooth"))) <= 16)%float%string coords.
Proof.
  assert (C : forall z, (Z.abs z <= 16)%Z -> finite (float_ofZ z) /\ Rabs (val (float_ofZ z)) <= 16).
  { intros z Hz. destruct (const_ok z ltac:(unfold max_whole; lia)) as [F E]. split; [exact F|]. rewrite E, <- abs_IZR. now apply IZR_le. }
  split; [vm_compute; reflexivity|]. split.
  - assert (V : val 0.25%float = 1 / 4) by (unfold val, Prim2B; vm_compute; lra). lra.
  - split.
    + change 990%nat with (4 + 986)%nat. rewrite pow_add. assert (1 <= 2 ^ 986) by (apply pow_R1_Rle; lra). replace (2 ^ 4) with 16 by (cbn; lra). lra.
    + unfold coords. repeat (apply Forall_cons; [cbn [px py cc cdl cdr vx vy]; split; [first [apply (C 0%Z); lia|apply (C 1%Z); lia|apply (C 2%Z); lia]|first [apply (C 0%Z); lia|apply (C 10%Z); lia|apply (C 5%Z); lia|apply (C 2%Z); lia]]|]). apply Forall_nil.
Qed.
