(* Property theorems C87, continued: the fields that normalized(), smoothed() and uniform() make on
   doubles, from end to end. *)
From Coq Require Import Reals Floats ZArith List Lra Lia Psatz Bool.
From Flocq Require Import Core BinarySingleNaN PrimFloat.
Require Import Verif.Base Verif.NumFloat Verif.NumR Verif.L_real Verif.M_vector Verif.M_bbox Verif.M_vecfield Verif.S_vecfield.
Require Import Verif.S_float Verif.L_float Verif.L_float2 Verif.P_float Verif.P_float4 Verif.P_float6 Verif.P_float9 Verif.P_float11 Verif.P_lookup Verif.P_vecfield Verif.P_float12 Verif.P_float13.
Import ListNotations.
Set Warnings "-inexact-float".
Local Open Scope R_scope.

(* g is a field made new: it has two arrays of its own and no interpolator, and everything else is
   as it was *)
Definition made (w w' : world float) (g : nat) (v : vfield float) : Prop :=
  nth_error (fields w) g = None /\ nth_error (fields w') g = Some v /\ vf_interp v = None /\
  (forall f u, nth_error (fields w) f = Some u -> nth_error (fields w') f = Some u) /\
  (forall l, (l < length (arrays w))%nat -> arr_at w' l = arr_at w l /\ l <> vf_vx v /\ l <> vf_vy v) /\ vf_vx v <> vf_vy v.
Lemma make_made m a b (w : world float) : exists w' g v, vf_make m a b w = (w', Ok g) /\ made w w' g v /\ vf_mesh v = m /\
  arr_at w' (vf_vx v) = a /\ arr_at w' (vf_vy v) = b.
Proof.
  set (n := length (arrays w)). exists (fst (vf_make m a b w)), (length (fields w)), (VF m n (S n) None).
  split; [reflexivity|]. unfold vf_make. cbn [fst]. fold n. unfold made, arr_at. cbn [fields arrays vf_vx vf_vy vf_interp vf_mesh]. split; [|split; [reflexivity|]].
  - split; [apply nth_error_None; lia|]. split; [rewrite nth_error_app2, Nat.sub_diag by lia; reflexivity|]. split; [reflexivity|]. split; [|split].
    + intros f u E. rewrite nth_error_app1; [exact E|]. apply nth_error_Some. congruence.
    + intros l Hl. rewrite app_nth1 by assumption. repeat split; lia.
    + lia.
  - rewrite !app_nth2 by (fold n; lia). fold n. rewrite Nat.sub_diag. replace (S n - n)%nat with 1%nat by lia. split; reflexivity.
Qed.

(* normalized(): the new field holds the vectors divided by the length of the longest, up to
   twelve half-units; none is noticeably longer than 1, and one is about 1 long *)
Theorem C87_normalized_field : forall (w : world float) f u i0 j0, nth_error (fields w) f = Some u ->
  let n := m_steps (vf_mesh u) in let vx := arr_at w (vf_vx u) in let vy := arr_at w (vf_vy u) in
  (forall i j, (i < n)%nat -> (j < n)%nat -> sized 500 (vx i j) /\ sized 500 (vy i j)) ->
  (i0 < n)%nat -> (j0 < n)%nat -> / 2 ^ 400 <= Rabs (val (vx i0 j0)) \/ / 2 ^ 400 <= Rabs (val (vy i0 j0)) ->
  exists w' g v len, vf_normalized f w = (w', Ok g) /\ made w w' g v /\ vf_mesh v = vf_mesh u /\
    longest_is n (fun i j => val (vx i j)) (fun i j => val (vy i j)) len /\
    let ux := arr_at w' (vf_vx v) in let uy := arr_at w' (vf_vy v) in
    (forall i j, (i < n)%nat -> (j < n)%nat -> finite (ux i j) /\ finite (uy i j) /\
       Rabs (val (ux i j) - val (vx i j) / len) <= 12 * eps /\ Rabs (val (uy i j) - val (vy i j) / len) <= 12 * eps /\
       vlen (fun i j => val (ux i j)) (fun i j => val (uy i j)) i j <= 1 + 24 * eps) /\
    (exists i j, (i < n)%nat /\ (j < n)%nat /\ 1 - 24 * eps <= vlen (fun i j => val (ux i j)) (fun i j => val (uy i j)) i j).
Proof.
  intros w f u i0 j0 E n vx vy Hv Hi0 Hj0 Hb. destruct (C87_normalized n vx vy i0 j0 Hv Hi0 Hj0 Hb) as (len & ux & uy & L & N & A & B).
  unfold vf_normalized, on. rewrite E. fold n vx vy. rewrite N.
  destruct (make_made (vf_mesh u) ux uy w) as (w' & g & v & M0 & Md & Em & Ex & Ey).
  exists w', g, v, len. rewrite M0, Ex, Ey. exact (conj eq_refl (conj Md (conj Em (conj L (conj A B))))).
Qed.

(* uniform(magnitude): a new field on the mesh, whose components are between minus and plus the magnitude *)
Theorem C87_uniform_field : forall (msh : mesh float) (m : float) (random : nat -> float) (w : world float), finite m -> 0 <= val m <= 2 ^ 1000 ->
  (forall k, finite (random k) /\ 0 <= val (random k) < 1) ->
  exists w' g v, vf_uniform msh m random w = (w', Ok g) /\ made w w' g v /\ vf_mesh v = msh /\
    forall i j, finite (arr_at w' (vf_vx v) i j) /\ - val m <= val (arr_at w' (vf_vx v) i j) <= val m /\
      finite (arr_at w' (vf_vy v) i j) /\ - val m <= val (arr_at w' (vf_vy v) i j) <= val m.
Proof.
  intros msh m random w Fm Hm Hr. unfold vf_uniform.
  pose proof (fun i j => C87_uniform (m_steps msh) m random i j Fm Hm Hr) as U. destruct (uniform_arrays (m_steps msh) m random) as [ux uy]. cbn [fst snd].
  destruct (make_made msh ux uy w) as (w' & g & v & M0 & Md & Em & Ex & Ey). exists w', g, v. rewrite M0, Ex, Ey. auto.
Qed.

(* lengths of vectors close to each other are close *)
Lemma vlen_sum (x y : R) : R_sqrt.sqrt (x * x + y * y) <= Rabs x + Rabs y.
Proof.
  pose proof (Rabs_pos x). pose proof (Rabs_pos y). rewrite <- (R_sqrt.sqrt_square (Rabs x + Rabs y)) by lra. apply R_sqrt.sqrt_le_1_alt.
  assert (Rabs x * Rabs x = x * x) by (rewrite <- Rabs_mult; apply Rabs_right; nra).
  assert (Rabs y * Rabs y = y * y) by (rewrite <- Rabs_mult; apply Rabs_right; nra). nra.
Qed.
Lemma vlen_comp (x y : R) : Rabs x <= R_sqrt.sqrt (x * x + y * y) /\ Rabs y <= R_sqrt.sqrt (x * x + y * y).
Proof.
  split; rewrite <- R_sqrt.sqrt_Rsqr_abs; apply R_sqrt.sqrt_le_1_alt; unfold Rsqr; nra.
Qed.
Lemma vlen_tri (a b c d : R) : R_sqrt.sqrt (a * a + b * b) <= R_sqrt.sqrt (c * c + d * d) + R_sqrt.sqrt ((a - c) * (a - c) + (b - d) * (b - d)).
Proof.
  set (p := R_sqrt.sqrt (c * c + d * d)). set (q := R_sqrt.sqrt ((a - c) * (a - c) + (b - d) * (b - d))).
  assert (Hp : 0 <= p) by apply R_sqrt.sqrt_pos. assert (Hq : 0 <= q) by apply R_sqrt.sqrt_pos.
  assert (Sq : forall x y : R, 0 <= x * x + y * y) by (intros; nra).
  assert (Ep : p * p = c * c + d * d) by (apply R_sqrt.sqrt_sqrt, Sq).
  assert (Eq : q * q = (a - c) * (a - c) + (b - d) * (b - d)) by (apply R_sqrt.sqrt_sqrt, Sq).
  rewrite <- (R_sqrt.sqrt_square (p + q)) by lra. apply R_sqrt.sqrt_le_1_alt.
  assert (C : c * (a - c) + d * (b - d) <= p * q).
  { apply Rsqr_incr_0_var; [|now apply Rmult_le_pos]. unfold Rsqr. replace (p * q * (p * q)) with ((p * p) * (q * q)) by ring. rewrite Ep, Eq.
    pose proof (Rle_0_sqr (c * (b - d) - d * (a - c))) as Q. unfold Rsqr in Q. nra. }
  nra.
Qed.
Lemma vlen_close (a b c d e : R) : Rabs (a - c) <= e -> Rabs (b - d) <= e ->
  Rabs (R_sqrt.sqrt (a * a + b * b) - R_sqrt.sqrt (c * c + d * d)) <= 2 * e.
Proof.
  intros H1 H2. pose proof (vlen_tri a b c d) as A. pose proof (vlen_tri c d a b) as B.
  pose proof (vlen_sum (a - c) (b - d)) as X. pose proof (vlen_sum (c - a) (d - b)) as Y. rewrite (Rabs_minus_sym c a), (Rabs_minus_sym d b) in Y.
  apply Rabs_le. lra.
Qed.
(* and so are the lengths of the longest of two fields *)
Lemma longest_close n (ax ay bx by0 : arr R) e la lb :
  (forall i j, (i < n)%nat -> (j < n)%nat -> Rabs (ax i j - bx i j) <= e /\ Rabs (ay i j - by0 i j) <= e) ->
  longest_is n ax ay la -> longest_is n bx by0 lb -> Rabs (la - lb) <= 2 * e.
Proof.
  intros H ((ia & ja & Ia & Ja & Ea) & La) ((ib & jb & Ib & Jb & Eb) & Lb).
  destruct (H ia ja Ia Ja) as [P1 P2]. destruct (H ib jb Ib Jb) as [Q1 Q2].
  pose proof (vlen_close _ _ _ _ _ P1 P2) as X. pose proof (vlen_close _ _ _ _ _ Q1 Q2) as Y.
  fold (vlen ax ay ia ja) (vlen bx by0 ia ja) in X. fold (vlen ax ay ib jb) (vlen bx by0 ib jb) in Y.
  specialize (La ib jb Ib Jb). specialize (Lb ia ja Ia Ja). apply Rabs_le_inv in X, Y. apply Rabs_le. lra.
Qed.
(* a quotient by a length *)
Lemma over_close (s m ls lm e : R) : 0 < lm -> Rabs m <= lm -> Rabs (s - m) <= e -> Rabs (ls - lm) <= 2 * e -> 4 * e <= lm ->
  Rabs (s / ls - m / lm) <= 6 * e / lm.
Proof.
  intros Hl Hm Hs Hd He. pose proof (Rabs_pos (s - m)) as E0. apply Rabs_le_inv in Hd. assert (Lp : 0 < ls) by lra.
  replace (s / ls - m / lm) with (((s - m) * lm + m * (lm - ls)) / (ls * lm)) by (field; lra).
  unfold Rdiv. rewrite Rabs_mult, (Rabs_right (/ (ls * lm))) by (apply Rle_ge, Rlt_le, Rinv_0_lt_compat, Rmult_lt_0_compat; lra).
  assert (N : Rabs ((s - m) * lm + m * (lm - ls)) <= 3 * e * lm).
  { eapply Rle_trans; [apply Rabs_triang|]. rewrite !Rabs_mult, (Rabs_right lm) by lra. assert (Rabs (lm - ls) <= 2 * e) by (apply Rabs_le; lra).
    pose proof (Rabs_pos m). pose proof (Rabs_pos (lm - ls)). nra. }
  apply Rle_trans with (3 * e * lm * / (ls * lm)).
  - apply Rmult_le_compat_r; [|exact N]. apply Rlt_le, Rinv_0_lt_compat, Rmult_lt_0_compat; lra.
  - replace (3 * e * lm * / (ls * lm)) with (3 * e * / ls) by (field; lra). replace (6 * e * / lm) with (3 * e * (2 * / lm)) by ring.
    apply Rmult_le_compat_l; [lra|]. replace (2 * / lm) with (/ (lm / 2)) by (field; lra). apply Rinv_le_contravar; lra.
Qed.

(* smoothed(): the new field holds the weighted means of the neighbourhoods divided by the length of
   the longest of them; how close depends on how much cancels out in the means *)
Theorem C87_smoothed_field : forall (w : world float) f u (mx my : arr R) M len, nth_error (fields w) f = Some u ->
  let n := m_steps (vf_mesh u) in let vx := arr_at w (vf_vx u) in let vy := arr_at w (vf_vy u) in
  (forall i j, (i < n)%nat -> (j < n)%nat -> finite (vx i j) /\ Rabs (val (vx i j)) <= M /\ finite (vy i j) /\ Rabs (val (vy i j)) <= M) -> M <= 2 ^ 400 ->
  (forall i j, (i < n)%nat -> (j < n)%nat -> mean_at n (fun x y => val (vx x y)) i j (mx i j) /\ mean_at n (fun x y => val (vy x y)) i j (my i j)) ->
  longest_is n mx my len -> / 2 ^ 300 <= len -> 100 * eps * (M + 2 * tiny) <= len ->
  exists w' g v, vf_smoothed f w = (w', Ok g) /\ made w w' g v /\ vf_mesh v = vf_mesh u /\
    forall i j, (i < n)%nat -> (j < n)%nat ->
      finite (arr_at w' (vf_vx v) i j) /\ finite (arr_at w' (vf_vy v) i j) /\
      Rabs (val (arr_at w' (vf_vx v) i j) - mx i j / len) <= 12 * eps + 114 * eps * (M + 2 * tiny) / len /\
      Rabs (val (arr_at w' (vf_vy v) i j) - my i j / len) <= 12 * eps + 114 * eps * (M + 2 * tiny) / len.
Proof.
  intros w f u mx my M len E n vx vy Hv HM Hm HL Hlen Hcan. pose proof eps_pos as Ep. pose proof eps_num as En. pose proof tiny_pos as Tp. pose proof tiny_small as Ts.
  set (e := 19 * eps * (M + 2 * tiny)).
  assert (M900 : M <= 2 ^ 900) by (eapply Rle_trans; [exact HM|apply Rle_pow; [lra|lia]]).
  assert (One : 1 <= 2 ^ 400) by (apply pow_R1_Rle; lra).
  assert (Smo : forall (a : arr float) (ma : arr R), (forall i j, (i < n)%nat -> (j < n)%nat -> finite (a i j) /\ Rabs (val (a i j)) <= M) ->
    (forall i j, (i < n)%nat -> (j < n)%nat -> mean_at n (fun x y => val (a x y)) i j (ma i j)) ->
    forall i j, (i < n)%nat -> (j < n)%nat -> sized 500 (smooth_at n a i j) /\ Rabs (val (smooth_at n a i j) - ma i j) <= e).
  { intros a ma Ha Hma i j Hi Hj. destruct (C87_smoothed n a i j M Hi Hj M900) as (Fs & (m & Mn & Near) & Btw).
    { intros x y [Hx _] [Hy _]. now apply Ha. }
    rewrite (mean_unique _ _ _ _ _ _ (Hma i j Hi Hj) Mn). split; [|exact Near]. split; [exact Fs|].
    destruct (Btw (- M) M) as [B1 B2]. { intros x y [Hx _] [Hy _]. apply Rabs_le_inv. now apply Ha. }
    assert (M0 : 0 <= M) by (eapply Rle_trans; [apply Rabs_pos|apply (Ha i j Hi Hj)]).
    apply Rle_trans with (2 ^ 402); [|change 500%Z with (Z.of_nat 500); rewrite bpow_pow; apply Rle_pow; [lra|lia]].
    replace (2 ^ 402) with (4 * 2 ^ 400) by (rewrite (pow_add 2 2 400 : 2 ^ 402 = _); lra). apply Rabs_le. nra. }
  pose proof (Smo vx mx (fun i j Hi Hj => conj (proj1 (Hv i j Hi Hj)) (proj1 (proj2 (Hv i j Hi Hj)))) (fun i j Hi Hj => proj1 (Hm i j Hi Hj))) as Sx.
  pose proof (Smo vy my (fun i j Hi Hj => proj2 (proj2 (Hv i j Hi Hj))) (fun i j Hi Hj => proj2 (Hm i j Hi Hj))) as Sy. clear Smo.
  destruct HL as ((ia & ja & Ia & Ja & Ea) & Lmax).
  assert (M0 : 0 <= M) by (eapply Rle_trans; [apply Rabs_pos|apply (Hv ia ja Ia Ja)]).
  assert (E0 : 0 <= e) by (unfold e; apply Rmult_le_pos; lra).
  assert (E4 : 5 * e <= len) by (unfold e; lra).
  assert (T300 : 0 < / 2 ^ 300) by (apply Rinv_0_lt_compat, pow_lt; lra).
  assert (Big : / 2 ^ 400 <= Rabs (val (smooth_at n vx ia ja)) \/ / 2 ^ 400 <= Rabs (val (smooth_at n vy ia ja))).
  { destruct (Sx ia ja Ia Ja) as [_ Nx]. destruct (Sy ia ja Ia Ja) as [_ Ny]. pose proof (vlen_close _ _ _ _ _ Nx Ny) as C.
    fold (vlen mx my ia ja) in C. rewrite Ea in C. apply Rabs_le_inv in C. pose proof (vlen_sum (val (smooth_at n vx ia ja)) (val (smooth_at n vy ia ja))) as X.
    assert (Q : 10 * / 2 ^ 400 <= / 2 ^ 300).
    { replace (2 ^ 400) with (2 ^ 100 * 2 ^ 300) by (rewrite <- pow_add; reflexivity). rewrite Rinv_mult. 
      assert (10 * / 2 ^ 100 <= 1) by (apply Rmult_le_reg_r with (2 ^ 100); [apply pow_lt; lra|]; rewrite Rmult_assoc, Rinv_l by (apply pow_nonzero; lra);
        apply Rle_trans with (2 ^ 4); [lra|]; rewrite Rmult_1_l; apply Rle_pow; [lra|lia]). nra. }
    destruct (Rle_lt_dec (/ 2 ^ 400) (Rabs (val (smooth_at n vx ia ja)))); [now left|right]. lra. }
  destruct (C87_normalized n (smooth_at n vx) (smooth_at n vy) ia ja) as (ls & ux & uy & L & N & A & _); auto.
  { intros i j Hi Hj. split; [apply Sx|apply Sy]; assumption. }
  assert (Dl : Rabs (ls - len) <= 2 * e).
  { eapply longest_close; [|exact L|split; [exists ia, ja; eauto|exact Lmax]]. intros i j Hi Hj. split; [apply Sx|apply Sy]; assumption. }
  unfold vf_smoothed, on, smooth_arrays. rewrite E. fold n vx vy. rewrite N.
  destruct (make_made (vf_mesh u) ux uy w) as (w' & g & v & Mk & Md & Em & Ex & Ey). exists w', g, v. rewrite Mk, Ex, Ey.
  split; [reflexivity|]. split; [exact Md|]. split; [exact Em|]. intros i j Hi Hj. destruct (A i j Hi Hj) as (Fx & Fy & Ax & Ay & _).
  split; [exact Fx|]. split; [exact Fy|].
  destruct (vlen_comp (mx i j) (my i j)) as [Cx Cy]. fold (vlen mx my i j) in Cx, Cy. pose proof (Lmax i j Hi Hj).
  replace (114 * eps * (M + 2 * tiny) / len) with (6 * e / len) by (unfold e; field; lra).
  pose proof (over_close (val (smooth_at n vx i j)) (mx i j) ls len e ltac:(lra) ltac:(lra) (proj2 (Sx i j Hi Hj)) Dl ltac:(lra)) as Ox.
  pose proof (over_close (val (smooth_at n vy i j)) (my i j) ls len e ltac:(lra) ltac:(lra) (proj2 (Sy i j Hi Hj)) Dl ltac:(lra)) as Oy.
  apply Rabs_le_inv in Ax, Ay, Ox, Oy. split; apply Rabs_le; lra.
Qed.

(* a field of equal vectors meets what the theorems ask for *)
Example C87_smoothed_field_example : let ten : arr float := fun _ _ => 10%float in
  let w := fst (vf_make (Mesh 0%float 0%float 10%float 10%float 3) ten ten (World [] [])) in
  exists u, nth_error (fields w) 0 = Some u /\ m_steps (vf_mesh u) = 3%nat /\ arr_at w (vf_vx u) = ten /\ arr_at w (vf_vy u) = ten /\
  (forall i j, (i < 3)%nat -> (j < 3)%nat -> sized 500 (ten i j) /\ finite (ten i j) /\ Rabs (val (ten i j)) <= 10 /\ mean_at 3 (fun x y => val (ten x y)) i j 10) /\
  longest_is 3 (fun _ _ => 10) (fun _ _ => 10) (R_sqrt.sqrt 200) /\
  / 2 ^ 300 <= R_sqrt.sqrt 200 /\ 100 * eps * (10 + 2 * tiny) <= R_sqrt.sqrt 200 /\ 10 <= 2 ^ 400.
Proof.
  intros ten w. destruct is_ten as [F V]. pose proof eps_pos as Ep. pose proof eps_num as En. pose proof tiny_pos as Tp. pose proof tiny_small as Ts.
  assert (S10 : 10 <= R_sqrt.sqrt 200) by (rewrite <- (R_sqrt.sqrt_square 10) by lra; apply R_sqrt.sqrt_le_1_alt; lra).
  eexists. split; [reflexivity|]. split; [reflexivity|]. split; [reflexivity|]. split; [reflexivity|]. split; [|split; [|split; [|split]]].
  - intros i j Hi Hj. unfold ten. split; [split; [exact F|rewrite V, Rabs_right by lra; apply Rle_trans with (bpow radix2 4); [cbn; lra|apply bpow_le; lia]]|].
    split; [exact F|]. split; [rewrite V, Rabs_right by lra; lra|].
    pose proof (C62_mean 3 (fun _ _ => val 10%float) i j Hi Hj) as Mn.
    assert (Q : 10 <= smooth_at 3 (fun _ _ => val 10%float) i j <= 10) by (apply (C62_mean_between 3 _ i j _ 10 10 Hi Hj Mn); intros; rewrite V; lra).
    replace (smooth_at 3 (fun _ _ => val 10%float) i j) with 10 in Mn by lra. exact Mn.
  - unfold longest_is, vlen. replace (10 * 10 + 10 * 10) with 200 by ring. split; [exists 0%nat, 0%nat; repeat split; lia|intros; lra].
  - apply Rle_trans with 1; [|lra]. rewrite <- Rinv_1. apply Rinv_le_contravar; [lra|]. apply pow_R1_Rle. lra.
  - rewrite En. lra.
  - apply Rle_trans with (2 ^ 4); [lra|apply Rle_pow; [lra|lia]].
Qed.
