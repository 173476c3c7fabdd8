(* Property theorems C87, continued: normalizing vector fields on doubles. *)
From Coq Require Import Reals Floats ZArith List Lra Lia Psatz Bool.
From Flocq Require Import Core BinarySingleNaN PrimFloat Mult_error.
Require Import Verif.Base Verif.NumFloat Verif.NumR Verif.L_real Verif.M_vector Verif.M_bbox Verif.M_vecfield Verif.S_vecfield.
Require Import Verif.S_float Verif.L_float Verif.L_float2 Verif.P_float Verif.P_float4 Verif.P_float6 Verif.P_float9 Verif.P_float11 Verif.P_lookup Verif.P_vecfield Verif.P_float12.
Import ListNotations.
Set Warnings "-inexact-float".
Local Open Scope R_scope.

(* the square root is rounded once *)
Lemma sqrt_ok x : finite x -> 0 <= val x -> finite (PrimFloat.sqrt x) /\ val (PrimFloat.sqrt x) = rnd (R_sqrt.sqrt (val x)).
Proof.
  intros F H. apply finite_B in F. destruct (Bsqrt_correct prec emax Hprec Hmax mode_NE (Prim2B x)) as (A & B & _).
  assert (G : BinarySingleNaN.is_finite (Prim2B (PrimFloat.sqrt x)) = true).
  { rewrite sqrt_equiv, B. unfold val in H. destruct (Prim2B x) as [?| ?| |[|] m e Hb]; try discriminate F; try reflexivity.
    exfalso. cbn [B2R] in H. revert H. apply Rlt_not_le. apply F2R_lt_0. reflexivity. }
  split; [now apply finite_B|]. unfold val. rewrite sqrt_equiv. exact A.
Qed.

Lemma bpow_neg k : bpow radix2 (Z.opp (Z.of_nat k)) = / 2 ^ k.
Proof. now rewrite bpow_opp, bpow_pow. Qed.
Definition small : R := bpow radix2 (-480).
Lemma small_pos : 0 < small. Proof. apply bpow_gt_0. Qed.
Lemma small_tiny : 2 * tiny <= / 1000 * (small * small).
Proof.
  unfold small. rewrite <- bpow_plus. unfold tiny. rewrite <- bpow_neg. change (Z.opp (Z.of_nat 1022)) with (-1022)%Z. change (-480 + -480)%Z with (-960)%Z.
  apply Rle_trans with (/ 1024 * bpow radix2 (-960)).
  - change (/ 1024) with (bpow radix2 (-10)). change 2 with (bpow radix2 1). rewrite <- !bpow_plus. apply bpow_le. lia.
  - apply Rmult_le_compat_r; [apply bpow_ge_0|lra].
Qed.
Lemma small_eps : small <= eps * bpow radix2 (-420).
Proof.
  unfold small, eps. rewrite <- bpow_neg. change (Z.opp (Z.of_nat 53)) with (-53)%Z. rewrite <- bpow_plus. apply bpow_le. lia.
Qed.

(* the length computed for one vector *)
Lemma length_close x y : sized 500 x -> sized 500 y ->
  let g := PrimFloat.sqrt (x * x + y * y)%float in let l := R_sqrt.sqrt (val x * val x + val y * val y) in
  sized 501 g /\ 0 <= val g /\ Rabs (val g - l) <= 5 * eps * l + 3 * small.
Proof.
  intros Sx Sy g l. pose proof eps_pos as Ep. pose proof eps_num as En. pose proof tiny_pos as Tp. pose proof small_pos as Hp. pose proof small_tiny as Ht.
  pose proof (sized_mul 500 500 x x ltac:(lia) Sx Sx) as Sxx. pose proof (sized_mul 500 500 y y ltac:(lia) Sy Sy) as Syy.
  pose proof (sized_add (500 + 500) _ _ ltac:(lia) Sxx Syy) as [F Sz].
  pose proof (near_add _ _ _ _ _ _ _ _ (near_mul _ _ _ _ _ _ _ _ (near_leaf x) (near_leaf x)) (near_mul _ _ _ _ _ _ _ _ (near_leaf y) (near_leaf y))) as K.
  set (q := val x * val x + val y * val y) in *. set (z := (x * x + y * y)%float) in *.
  assert (Sq : forall r, 0 <= r * r) by (intros; nra).
  assert (Q0 : 0 <= q) by (unfold q; pose proof (Sq (val x)); pose proof (Sq (val y)); lra).
  assert (Z0 : 0 <= val z).
  { destruct (add_ok _ _ F) as (_ & _ & V). fold z in V. rewrite V. rewrite <- rnd_zero. apply rnd_le.
    destruct (mul_ok _ _ (proj1 Sxx)) as (_ & _ & ->). destruct (mul_ok _ _ (proj1 Syy)) as (_ & _ & ->).
    assert (0 <= rnd (val x * val x)) by (rewrite <- rnd_zero; apply rnd_le; auto). assert (0 <= rnd (val y * val y)) by (rewrite <- rnd_zero; apply rnd_le; auto). lra. }
  assert (E : Rabs (val z - q) <= 3 * eps * (q + 2 * tiny)).
  { eapply (near_use _ _ _ _ 3 (q + 2 * tiny) K); [lia|cbn; lra| |exact F].
    rewrite <- !Rabs_mult, !Rabs_right by (apply Rle_ge; auto). unfold q. lra. }
  destruct (sqrt_ok z F Z0) as [Fg Vg]. fold g in Fg, Vg. set (h := R_sqrt.sqrt (val z)) in *.
  assert (H0 : 0 <= h) by apply sqrt_pos. assert (L0 : 0 <= l) by apply sqrt_pos.
  assert (Hh : h * h = val z) by (apply sqrt_sqrt; exact Z0). assert (Hl : l * l = q) by (apply sqrt_sqrt; exact Q0).
  assert (G0 : 0 <= val g) by (rewrite Vg, <- rnd_zero; apply rnd_le; exact H0).
  assert (Eg : Rabs (val g - h) <= eps * (h + tiny)) by (rewrite Vg; pose proof (err_any h) as Q; rewrite (Rabs_right h) in Q by lra; exact Q).
  split; [|split; [exact G0|]].
  - split; [exact Fg|]. rewrite Vg. apply rnd_abs_bpow; [lia|]. rewrite Rabs_right by lra. rewrite (Rabs_right (val z)) in Sz by lra.
    destruct (Rle_dec h (bpow radix2 501)) as [|N]; [assumption|exfalso]. apply Rnot_le_lt in N.
    assert (bpow radix2 501 * bpow radix2 501 < h * h) by (pose proof (bpow_gt_0 radix2 501); apply Rmult_le_0_lt_compat; lra).
    rewrite <- bpow_plus, Hh in H. pose proof (bpow_le radix2 (500 + 500 + 1) (501 + 501) ltac:(lia)). lra.
  - assert (T2 : tiny <= small).
    { unfold tiny, small. rewrite <- bpow_neg. apply bpow_le. lia. }
    apply Rabs_le_inv in E, Eg.
    destruct (Rle_dec small l) as [Hs|Hs].
    + assert (SS : small * small <= l * l) by (apply Rmult_le_compat; lra).
      assert (Dq : Rabs (val z - q) <= 4 * eps * (l * l)).
      { apply Rabs_le. rewrite Hl in *. assert (3 * eps * (q + 2 * tiny) <= 3 * eps * (q + / 1000 * q)) by (apply Rmult_le_compat_l; lra).
        assert (0 <= eps * q) by (apply Rmult_le_pos; lra). lra. }
      assert (D : Rabs (h - l) <= 4 * eps * l).
      { assert (Lp : 0 < l) by lra. apply Rmult_le_reg_r with l; [exact Lp|].
        apply Rle_trans with (Rabs (h - l) * (h + l)); [apply Rmult_le_compat_l; [apply Rabs_pos|lra]|].
        rewrite <- (Rabs_right (h + l)) at 1 by lra. rewrite <- Rabs_mult. replace ((h - l) * (h + l)) with (val z - q) by (rewrite <- Hh, <- Hl; ring). lra. }
      apply Rabs_le_inv in D. assert (eps * l <= / 1000 * l) by (apply Rmult_le_compat_r; [lra|rewrite En; lra]).
      assert (Hb : h <= 2 * l) by lra.
      assert (X : Rabs (h - l) <= 3 * eps * l).
      { assert (Lp : 0 < l) by lra. assert (9 / 10 * l <= h) by lra. apply Rmult_le_reg_r with (19 / 10 * l); [lra|].
        apply Rle_trans with (Rabs (h - l) * (h + l)); [apply Rmult_le_compat_l; [apply Rabs_pos|lra]|].
        rewrite <- (Rabs_right (h + l)) at 1 by lra. rewrite <- Rabs_mult. replace ((h - l) * (h + l)) with (val z - q) by (rewrite <- Hh, <- Hl; ring).
        assert (0 <= eps * (l * l)) by (apply Rmult_le_pos; [lra|auto]). lra. }
      apply Rabs_le_inv in X. assert (eps * (h + tiny) <= eps * (2 * l) + small).
      { rewrite Rmult_plus_distr_l. apply Rplus_le_compat; [apply Rmult_le_compat_l; lra|]. assert (eps * tiny <= 1 * tiny) by (apply Rmult_le_compat_r; [lra|rewrite En; lra]). lra. }
      apply Rabs_le. lra.
    + apply Rnot_le_lt in Hs. assert (Qs : q < small * small) by (rewrite <- Hl; apply Rmult_le_0_lt_compat; lra).
      assert (Zs : h * h <= 2 * small * (2 * small)).
      { rewrite Hh. assert (3 * eps * (q + 2 * tiny) <= 1 * (q + 2 * tiny)) by (apply Rmult_le_compat_r; [lra|rewrite En; lra]).
        pose proof (Sq small). lra. }
      assert (Hb : h <= 2 * small).
      { destruct (Rle_dec h (2 * small)) as [|N]; [assumption|exfalso]. apply Rnot_le_lt in N.
        assert (2 * small * (2 * small) < h * h) by (apply Rmult_le_0_lt_compat; lra). lra. }
      assert (eps * (h + tiny) <= / 1000 * (h + tiny)) by (apply Rmult_le_compat_r; [lra|rewrite En; lra]).
      assert (0 <= eps * l) by (apply Rmult_le_pos; lra). apply Rabs_le. lra.
Qed.

(* the largest of finite numbers *)
Lemma fold_max_float (g : nat * nat -> float) l : forall a, finite a -> (forall x, In x l -> finite (g x)) ->
  let r := fold_left (fun acc ij => pymax acc (g ij)) l a in
  finite r /\ val a <= val r /\ (forall x, In x l -> val (g x) <= val r) /\ (r = a \/ exists x, In x l /\ r = g x).
Proof.
  induction l as [|y l IH]; intros a Fa Fl; cbn [fold_left]; [repeat split; auto; [lra|intros _ []]|].
  assert (Fy : finite (g y)) by (apply Fl; now left).
  assert (Mx : finite (pymax a (g y)) /\ val a <= val (pymax a (g y)) /\ val (g y) <= val (pymax a (g y)) /\ (pymax a (g y) = a \/ pymax a (g y) = g y)).
  { unfold pymax. cbn [nltb NumFloat]. rewrite ltb_ok by auto. destruct (Rltb (val a) (val (g y))) eqn:E; [apply Rltb_lt in E|apply Rltb_ge in E]; repeat split; auto; lra. }
  destruct Mx as (M1 & M2 & M3 & M4).
  destruct (IH (pymax a (g y)) M1 ltac:(intros; apply Fl; now right)) as (I0 & I1 & I2 & I3). set (r := fold_left _ l _) in *. clearbody r.
  split; [exact I0|]. split; [lra|]. split.
  - intros x [<-|Hx]; [lra|auto].
  - destruct I3 as [->|(x & Hx & E)]; [destruct M4 as [E|E]; [now left|right; exists y; split; [now left|exact E]]|right; exists x; split; [now right|exact E]].
Qed.
Lemma amax_float n (a : arr float) : (0 < n)%nat -> (forall i j, (i < n)%nat -> (j < n)%nat -> finite (a i j)) ->
  exists m, amax n a = Ok m /\ (exists i j, (i < n)%nat /\ (j < n)%nat /\ m = a i j) /\ (forall i j, (i < n)%nat -> (j < n)%nat -> val (a i j) <= val m).
Proof.
  intros Hn Fa. unfold amax. assert (In (0, 0)%nat (cells n)) as I0 by (apply in_cells; lia).
  pose proof (in_cells n) as C. destruct (cells n) as [|[i0 j0] l]; [destruct I0|]. clear I0.
  destruct (proj1 (C i0 j0) (or_introl eq_refl)) as [Hi0 Hj0].
  eexists. split; [reflexivity|]. destruct (fold_max_float (fun ij => a (fst ij) (snd ij)) l (a i0 j0)) as (F0 & F1 & F2 & F3); [auto|intros [i j] Hx; destruct (proj1 (C i j) (or_intror Hx)); apply Fa; assumption|].
  set (r := fold_left _ _ _) in *. clearbody r. split.
  - destruct F3 as [->|([i j] & Hx & ->)]; [eauto|]. destruct (proj1 (C i j) (or_intror Hx)). exists i, j. auto.
  - intros i j Hi Hj. destruct (proj2 (C i j) (conj Hi Hj)) as [E|Hx]; [injection E as -> ->; exact F1|exact (F2 _ Hx)].
Qed.

(* normalized() on doubles: every component is, up to a few roundings, the exact component
   divided by the exact length of the longest vector; so no vector is noticeably longer than 1,
   and one is about 1 long. *)
Theorem C87_normalized : forall n (vx vy : arr float) i0 j0,
  (forall i j, (i < n)%nat -> (j < n)%nat -> sized 500 (vx i j) /\ sized 500 (vy i j)) ->
  (i0 < n)%nat -> (j0 < n)%nat -> / 2 ^ 400 <= Rabs (val (vx i0 j0)) \/ / 2 ^ 400 <= Rabs (val (vy i0 j0)) ->
  exists len ux uy, longest_is n (fun i j => val (vx i j)) (fun i j => val (vy i j)) len /\ norm_arrays n vx vy = Ok (ux, uy) /\
    (forall i j, (i < n)%nat -> (j < n)%nat -> finite (ux i j) /\ finite (uy i j) /\
       Rabs (val (ux i j) - val (vx i j) / len) <= 12 * eps /\ Rabs (val (uy i j) - val (vy i j) / len) <= 12 * eps /\
       vlen (fun i j => val (ux i j)) (fun i j => val (uy i j)) i j <= 1 + 24 * eps) /\
    (exists i j, (i < n)%nat /\ (j < n)%nat /\ 1 - 24 * eps <= vlen (fun i j => val (ux i j)) (fun i j => val (uy i j)) i j).
Proof.
  intros n vx vy i0 j0 Hv Hi0 Hj0 Hbig.
  pose proof eps_pos as Ep. pose proof eps_num as En. pose proof tiny_pos as Tp. pose proof tiny_small as Ts. pose proof small_pos as Hp. pose proof small_eps as He.
  set (rx := fun i j => val (vx i j)). set (ry := fun i j => val (vy i j)).
  destruct (amax_spec n (vlen rx ry) ltac:(lia)) as (len & _ & (ia & ja & Hia & Hja & Ea) & Lmax).
  assert (Comp : forall i j, Rabs (rx i j) <= vlen rx ry i j /\ Rabs (ry i j) <= vlen rx ry i j).
  { intros i j. unfold vlen. split; (rewrite <- sqrt_Rsqr_abs; apply sqrt_le_1_alt; unfold Rsqr; nra). }
  assert (Lb : bpow radix2 (-400) <= len).
  { change (-400)%Z with (Z.opp (Z.of_nat 400)). rewrite bpow_neg. destruct (Comp i0 j0) as [C1 C2]. pose proof (Lmax i0 j0 Hi0 Hj0) as L1. cbv beta in L1. change (val (vx i0 j0)) with (rx i0 j0) in Hbig. change (val (vy i0 j0)) with (ry i0 j0) in Hbig. destruct Hbig; lra. }
  assert (Lp : 0 < len) by (pose proof (bpow_gt_0 radix2 (-400)); lra).
  assert (Sl : 3 * small <= eps * len).
  { assert (bpow radix2 (-420) <= / 1000 * len).
    { apply Rle_trans with (/ 1024 * bpow radix2 (-400)).
      - change (/ 1024) with (bpow radix2 (-10)). rewrite <- bpow_plus. apply bpow_le. lia.
      - pose proof (bpow_gt_0 radix2 (-400)). lra. }
    assert (eps * bpow radix2 (-420) <= eps * (/ 1000 * len)) by (apply Rmult_le_compat_l; lra).
    assert (0 < eps * len) by (apply Rmult_lt_0_compat; lra). lra. }
  assert (Mag : forall i j, (i < n)%nat -> (j < n)%nat -> sized 501 (magnitude vx vy i j) /\ 0 <= val (magnitude vx vy i j) /\ Rabs (val (magnitude vx vy i j) - vlen rx ry i j) <= 6 * eps * len).
  { intros i j Hi Hj. destruct (Hv i j Hi Hj) as [A B]. destruct (length_close (vx i j) (vy i j) A B) as (C & D & E).
    change (magnitude vx vy i j) with (PrimFloat.sqrt (vx i j * vx i j + vy i j * vy i j)%float). split; [exact C|]. split; [exact D|].
    fold (rx i j) (ry i j) in E. fold (vlen rx ry i j) in E. eapply Rle_trans; [exact E|]. specialize (Lmax i j Hi Hj).
    assert (5 * eps * vlen rx ry i j <= 5 * eps * len) by (apply Rmult_le_compat_l; lra). lra. }
  destruct (amax_float n (magnitude vx vy) ltac:(lia) ltac:(intros; now apply Mag)) as (G & EG & (ig & jg & Hig & Hjg & ->) & Gmax).
  set (G := magnitude vx vy ig jg) in *. destruct (Mag ig jg Hig Hjg) as ([FG SG] & G0 & Eg). fold G in FG, SG, G0, Eg.
  assert (Gl : Rabs (val G - len) <= 6 * eps * len).
  { apply Rabs_le_inv in Eg. specialize (Lmax ig jg Hig Hjg). specialize (Gmax ia ja Hia Hja). destruct (Mag ia ja Hia Hja) as (_ & _ & Em). apply Rabs_le_inv in Em. rewrite Ea in Em. apply Rabs_le. lra. }
  assert (eps * len <= / 1000 * len) by (apply Rmult_le_compat_r; [lra|rewrite En; lra]).
  assert (Gb : 99 / 100 * len <= val G <= 101 / 100 * len) by (apply Rabs_le_inv in Gl; lra).
  assert (Gp : 0 < val G) by lra.
  assert (Gbp : bpow radix2 (-401) <= val G).
  { replace (-401)%Z with (-1 + -400)%Z by lia. rewrite bpow_plus. change (bpow radix2 (-1)) with (/ 2). lra. }
  destruct is_one as [F1 V1].
  assert (Sr : sized 401 (1 / G)%float).
  { assert (B : Rabs (val 1 / val G) <= bpow radix2 401).
    { rewrite V1, Rabs_right by (apply Rle_ge, Rmult_le_pos; [lra|apply Rlt_le, Rinv_0_lt_compat; lra]).
      change 401%Z with (Z.opp (-401)). rewrite bpow_opp. unfold Rdiv. rewrite Rmult_1_l. apply Rinv_le_contravar; [apply bpow_gt_0|exact Gbp]. }
    assert (F : finite (1 / G)%float) by (apply div_fin; auto; [lra|]; apply rnd_fits with 401%Z; [lia|exact B]).
    split; [exact F|]. destruct (div_ok _ _ FG ltac:(lra) F) as [_ ->]. apply rnd_abs_bpow; [lia|exact B]. }
  (* one component *)
  assert (One : forall v, sized 500 v -> Rabs (val v) <= len -> finite (v * (1 / G))%float /\ Rabs (val (v * (1 / G))%float - val v / len) <= 12 * eps).
  { intros v Sv Hl. destruct (sized_mul 500 401 v _ ltac:(lia) Sv Sr) as [F _]. split; [exact F|].
    pose proof (near_mul _ _ _ _ _ _ _ _ (near_leaf v) (near_div _ _ _ _ _ FG ltac:(lra) (near_leaf 1))) as K.
    rewrite V1, Rabs_R1, (Rabs_right (val G)) in K by lra.
    assert (Iv : 0 < / val G) by (now apply Rinv_0_lt_compat).
    assert (Vg : Rabs (val v) * / val G <= 102 / 100).
    { apply Rmult_le_reg_r with (val G); [exact Gp|]. rewrite Rmult_assoc, Rinv_l by lra. lra. }
    assert (Vt : Rabs (val v) * tiny <= 1 / 100).
    { destruct Sv as [_ Sv]. apply Rle_trans with (bpow radix2 500 * tiny); [apply Rmult_le_compat_r; lra|].
      unfold tiny. rewrite <- bpow_neg, <- bpow_plus. apply Rle_trans with (bpow radix2 (-7)); [apply bpow_le; lia|]. cbn. lra. }
    assert (U : Rabs (val (v * (1 / G))%float - val v * (1 / val G)) <= 3 * eps * (104 / 100)).
    { eapply near_use; [exact K|lia|cbn; lra| |exact F]. unfold Rdiv. rewrite Rmult_1_l, Rmult_plus_distr_l. lra. }
    assert (D : Rabs (val v * (1 / val G) - val v / len) <= 7 * eps).
    { replace (val v * (1 / val G) - val v / len) with (val v * / val G * ((len - val G) * / len)) by (field; lra).
      rewrite !Rabs_mult, (Rabs_right (/ val G)) by lra. rewrite (Rabs_right (/ len)) by (apply Rle_ge, Rlt_le, Rinv_0_lt_compat; lra).
      assert (Rabs (len - val G) * / len <= 6 * eps).
      { apply Rmult_le_reg_r with len; [exact Lp|]. rewrite Rmult_assoc, Rinv_l by lra. rewrite Rabs_minus_sym. lra. }
      assert (0 <= Rabs (len - val G) * / len) by (apply Rmult_le_pos; [apply Rabs_pos|apply Rlt_le, Rinv_0_lt_compat; lra]).
      assert (0 <= Rabs (val v) * / val G) by (apply Rmult_le_pos; [apply Rabs_pos|lra]).
      eapply Rle_trans; [apply Rmult_le_compat; [exact H2| exact H1|exact Vg|exact H0]|]. lra. }
    replace (val (v * (1 / G))%float - val v / len) with ((val (v * (1 / G))%float - val v * (1 / val G)) + (val v * (1 / val G) - val v / len)) by ring.
    eapply Rle_trans; [apply Rabs_triang|]. lra. }
  unfold norm_arrays. rewrite EG. cbn [bind]. exists len. do 2 eexists. split; [split; [exists ia, ja; auto|exact Lmax]|]. split; [reflexivity|].
  cbn [nmul ndiv nofZ NumFloat]. change (float_ofZ 1) with 1%float.
  (* lengths: moving each component by d moves the length by at most 2 d *)
  assert (Len : forall a b c e d, Rabs (a - c) <= d -> Rabs (b - e) <= d -> R_sqrt.sqrt (a * a + b * b) <= R_sqrt.sqrt (c * c + e * e) + 2 * d).
  { intros a b c e d Ha Hb. assert (D0 : 0 <= d) by (eapply Rle_trans; [apply Rabs_pos|exact Ha]).
    pose proof (sqrt_pos (c * c + e * e)) as P0. pose proof (sqrt_sqrt (c * c + e * e) ltac:(nra)) as PP. set (r := R_sqrt.sqrt (c * c + e * e)) in *.
    assert (Cr : Rabs c <= r) by (unfold r; rewrite <- sqrt_Rsqr_abs; apply sqrt_le_1_alt; unfold Rsqr; nra).
    assert (Er : Rabs e <= r) by (unfold r; rewrite <- sqrt_Rsqr_abs; apply sqrt_le_1_alt; unfold Rsqr; nra).
    rewrite <- (sqrt_Rsqr (r + 2 * d)) by lra. apply sqrt_le_1_alt. unfold Rsqr.
    apply Rabs_le_inv in Ha, Hb, Cr, Er.
    assert (a * a <= c * c + 2 * r * d + d * d).
    { replace (a * a) with (c * c + (a - c) * (2 * c) + (a - c) * (a - c)) by ring.
      assert ((a - c) * (2 * c) <= d * (2 * r)) by (destruct (Rle_dec 0 c); [|destruct (Rle_dec 0 (a - c))]; nra).
      assert ((a - c) * (a - c) <= d * d) by nra. lra. }
    assert (b * b <= e * e + 2 * r * d + d * d).
    { replace (b * b) with (e * e + (b - e) * (2 * e) + (b - e) * (b - e)) by ring.
      assert ((b - e) * (2 * e) <= d * (2 * r)) by (destruct (Rle_dec 0 e); [|destruct (Rle_dec 0 (b - e))]; nra).
      assert ((b - e) * (b - e) <= d * d) by nra. lra. }
    assert (0 <= d * d) by nra. nra. }
  assert (Unit : forall i j, R_sqrt.sqrt (rx i j / len * (rx i j / len) + ry i j / len * (ry i j / len)) = vlen rx ry i j / len).
  { intros i j. replace (rx i j / len * (rx i j / len) + ry i j / len * (ry i j / len)) with ((rx i j * rx i j + ry i j * ry i j) * (/ len * / len)) by (unfold Rdiv; ring).
    assert (0 < / len) by (now apply Rinv_0_lt_compat). rewrite sqrt_mult by nra. rewrite sqrt_square by lra. reflexivity. }
  assert (All : forall i j, (i < n)%nat -> (j < n)%nat -> finite (vx i j * (1 / G))%float /\ finite (vy i j * (1 / G))%float /\
    Rabs (val (vx i j * (1 / G))%float - rx i j / len) <= 12 * eps /\ Rabs (val (vy i j * (1 / G))%float - ry i j / len) <= 12 * eps).
  { intros i j Hi Hj. destruct (Hv i j Hi Hj) as [A B]. destruct (Comp i j) as [C D]. specialize (Lmax i j Hi Hj).
    destruct (One (vx i j) A ltac:(fold (rx i j); lra)) as [O1 O2]. destruct (One (vy i j) B ltac:(fold (ry i j); lra)) as [O3 O4]. auto. }
  split.
  - intros i j Hi Hj. destruct (All i j Hi Hj) as (A1 & A2 & A3 & A4). repeat split; auto. unfold vlen.
    eapply Rle_trans; [apply (Len _ _ _ _ _ A3 A4)|]. rewrite Unit. specialize (Lmax i j Hi Hj).
    assert (vlen rx ry i j / len <= 1) by (apply Rmult_le_reg_r with len; [exact Lp|]; unfold Rdiv; rewrite Rmult_assoc, Rinv_l by lra; lra). lra.
  - exists ia, ja. split; [exact Hia|]. split; [exact Hja|]. destruct (All ia ja Hia Hja) as (_ & _ & A3 & A4). unfold vlen.
    rewrite Rabs_minus_sym in A3, A4. pose proof (Len _ _ _ _ _ A3 A4) as Q. rewrite Unit, Ea in Q. replace (len / len) with 1 in Q by (field; lra). lra.
Qed.
Example C87_normalized_example : sized 500 10 /\ sized 500 0 /\ / 2 ^ 400 <= Rabs (val 10).
Proof.
  destruct is_ten as [F V]. destruct is_zero as [F0 V0]. split; [|split].
  - split; [exact F|]. rewrite V, Rabs_right by lra. apply Rle_trans with (bpow radix2 4); [cbn; lra|apply bpow_le; lia].
  - split; [exact F0|]. rewrite V0, Rabs_R0. apply bpow_ge_0.
  - rewrite V, Rabs_right by lra. rewrite <- bpow_neg. apply Rle_trans with (bpow radix2 0); [apply bpow_le; lia|cbn; lra].
Qed.

(* ---------------- smoothing ---------------- *)

Lemma total_abs (v : arr float) l : 0 <= total (fun i j => Rabs (val (v i j))) l.
Proof. induction l as [|x l IH]; cbn [total fold_right]; [lra|]. pose proof (Rabs_pos (val (v (fst x) (snd x)))). unfold total in IH. lra. Qed.
Lemma sum_near (v : arr float) l : forall k A a r, near k A a r ->
  near (k + List.length l) (A + total (fun i j => Rabs (val (v i j))) l) (fold_left (fun u xy => nadd u (v (fst xy) (snd xy))) l a) (r + total (fun i j => val (v i j)) l).
Proof.
  induction l as [|x l IH]; intros k A a r H; cbn [fold_left List.length total fold_right].
  - rewrite Nat.add_0_r, !Rplus_0_r. exact H.
  - pose proof (near_add _ _ _ _ _ _ _ _ H (near_leaf (v (fst x) (snd x)))) as K. rewrite Nat.max_0_r in K. specialize (IH _ _ _ _ K).
    replace (k + S (List.length l))%nat with (S k + List.length l)%nat by lia. unfold total in *. rewrite <- !Rplus_assoc. exact IH.
Qed.
Lemma sum_sized (v : arr float) l : (forall x y, In (x, y) l -> sized 900 (v x y)) -> forall k a, (900 <= k)%Z -> (k + Z.of_nat (List.length l) < 1000)%Z -> sized k a ->
  sized (k + Z.of_nat (List.length l)) (fold_left (fun u xy => nadd u (v (fst xy) (snd xy))) l a).
Proof.
  induction l as [|[x y] l IH]; intros Hv k a H1 H2 Sa; cbn [fold_left List.length fst snd].
  - rewrite Z.add_0_r. exact Sa.
  - replace (k + Z.of_nat (S (List.length l)))%Z with (k + 1 + Z.of_nat (List.length l))%Z by lia.
    apply IH; [intros; apply Hv; now right|lia|cbn [List.length] in H2; lia|]. apply sized_add; [lia|exact Sa|]. apply sized_le with 900%Z; [lia|]. apply Hv. now left.
Qed.
Lemma neighbours_count n i j : (List.length (neighbours n i j) <= 16)%nat.
Proof.
  unfold neighbours. assert (N : forall k, (List.length (M_vecfield.near n k) <= 4)%nat) by (intros k; unfold M_vecfield.near; rewrite seq_length; lia).
  assert (Q : forall (l l' : list nat), List.length (flat_map (fun x => map (fun y => (x, y)) l') l) = (List.length l * List.length l')%nat).
  { induction l as [|a l IH]; intros l'; cbn [flat_map List.length]; [reflexivity|]. rewrite app_length, map_length, IH. reflexivity. }
  rewrite Q. pose proof (N i). pose proof (N j). nia.
Qed.

(* smoothed() on doubles, before it is normalized: every number is the weighted mean of the numbers
   around it, up to a few roundings, and so stays within their range up to those. *)
Theorem C87_smoothed : forall n (v : arr float) i j M, (i < n)%nat -> (j < n)%nat -> M <= 2 ^ 900 ->
  (forall x y, close n i x -> close n j y -> finite (v x y) /\ Rabs (val (v x y)) <= M) ->
  finite (smooth_at n v i j) /\
  (exists m, mean_at n (fun x y => val (v x y)) i j m /\ Rabs (val (smooth_at n v i j) - m) <= 19 * eps * (M + 2 * tiny)) /\
  (forall lo hi, (forall x y, close n i x -> close n j y -> lo <= val (v x y) <= hi) ->
     lo - 19 * eps * (M + 2 * tiny) <= val (smooth_at n v i j) <= hi + 19 * eps * (M + 2 * tiny)).
Proof.
  intros n v i j M Hi Hj HM Hv. pose proof eps_pos as Ep. pose proof tiny_pos as Tp.
  assert (Cl : forall x y, In (x, y) (neighbours n i j) -> finite (v x y) /\ Rabs (val (v x y)) <= M).
  { intros x y I. apply in_neighbours in I; auto. apply Hv; tauto. }
  assert (Ch : finite (v i j) /\ Rabs (val (v i j)) <= M) by (apply Hv; unfold close; lia).
  assert (HM' : M <= bpow radix2 900) by (change 900%Z with (Z.of_nat 900); rewrite bpow_pow; exact HM).
  pose proof (neighbours_count n i j) as Nc. set (l := neighbours n i j) in *. set (c := List.length l) in *.
  assert (Zc : finite (float_ofZ (Z.of_nat c + 19)) /\ val (float_ofZ (Z.of_nat c + 19)) = INR c + 19).
  { replace (INR c + 19) with (IZR (Z.of_nat c + 19)) by (rewrite plus_IZR, <- INR_IZR_INZ; reflexivity). apply const_ok. unfold max_whole. lia. }
  destruct Zc as [Fc Vc]. destruct (const_ok 19 ltac:(unfold max_whole; lia)) as [F19 V19]. pose proof (pos_INR c) as Pc.
  destruct is_zero as [F0 V0].
  assert (Z0 : sized 900 0) by (split; [exact F0|rewrite V0, Rabs_R0; apply bpow_ge_0]).
  pose proof (sum_sized v l ltac:(intros x y I; destruct (Cl x y I); split; [assumption|lra]) 900 0%float ltac:(lia) ltac:(lia) Z0) as Su.
  assert (S19 : sized 950 (float_ofZ 19 * v i j)%float).
  { apply sized_le with (5 + 900)%Z; [lia|]. apply sized_mul; [lia| |split; [apply Ch|destruct Ch; lra]]. split; [exact F19|]. rewrite V19, Rabs_right by lra. cbn. lra. }
  assert (Fs : finite (smooth_at n v i j)).
  { unfold smooth_at. cbv zeta. fold l. fold c. cbn [nadd nmul ndiv nofZ NumFloat]. change (20 - 1)%Z with 19%Z. change (float_ofZ 0) with 0%float.
    apply (sized_div 951); [lia| |exact Fc|lra]. apply (sized_add 950); [lia| |exact S19]. apply sized_le with (900 + Z.of_nat c)%Z; [lia|exact Su]. }
  assert (Nr : Rabs (val (smooth_at n v i j) - (total (fun x y => val (v x y)) l + 19 * val (v i j)) / (INR c + 19)) <= 19 * eps * (M + 2 * tiny)).
  { pose proof (sum_near v l _ _ _ _ (near_leaf 0)) as K. rewrite V0, Rabs_R0, !Rplus_0_l in K. cbn [Nat.add] in K. fold c in K.
    apply near_weaken with (m := 16%nat) (B := total (fun x y => Rabs (val (v x y))) l) in K; [|lia|lra].
    pose proof (near_div _ _ _ _ _ Fc ltac:(lra) (near_add _ _ _ _ _ _ _ _ K (near_mul _ _ _ _ _ _ _ _ (near_leaf (float_ofZ 19)) (near_leaf (v i j))))) as D.
    rewrite Vc, V19, (Rabs_right 19), (Rabs_right (INR c + 19)) in D by lra.
    eapply near_use; [exact D|cbn; lia|cbn; lra| |exact Fs].
    assert (T : total (fun x y => Rabs (val (v x y))) l <= INR c * M).
    { apply (total_bounds _ 0 M l). intros x y I. destruct (Cl x y I). split; [apply Rabs_pos|assumption]. }
    destruct Ch as [_ Ch]. assert (Q : (total (fun x y => Rabs (val (v x y))) l + (19 * Rabs (val (v i j)) + tiny)) / (INR c + 19) <= M + tiny).
    { apply Rmult_le_reg_r with (INR c + 19); [lra|]. unfold Rdiv. rewrite Rmult_assoc, Rinv_l by lra. nra. }
    lra. }
  assert (Mn : mean_at n (fun x y => val (v x y)) i j ((total (fun x y => val (v x y)) l + 19 * val (v i j)) / (INR c + 19))).
  { exists l. split; [apply nodup_neighbours|]. split; [intros x y; now apply in_neighbours|]. fold c. field. lra. }
  split; [exact Fs|]. split; [eexists; split; [exact Mn|exact Nr]|].
  intros lo hi B. pose proof (C62_mean_between n _ i j _ lo hi Hi Hj Mn B). apply Rabs_le_inv in Nr. lra.
Qed.
Example C87_smoothed_example : let v : arr float := fun _ _ => 10%float in
  10 <= 2 ^ 900 /\ (forall x y, close 3 1 x -> close 3 1 y -> finite (v x y) /\ Rabs (val (v x y)) <= 10).
Proof.
  intros v. split; [apply Rle_trans with (2 ^ 4); [lra|apply Rle_pow; [lra|lia]]|]. intros x y _ _. unfold v. destruct is_ten as [F V]. rewrite V, Rabs_right by lra. split; [exact F|lra].
Qed.

(* ---------------- random fields ---------------- *)

(* uniform(): the rounding never takes a component beyond the magnitude asked for *)
Theorem C87_uniform : forall n (m : float) (random : nat -> float) i j, finite m -> 0 <= val m <= 2 ^ 1000 ->
  (forall k, finite (random k) /\ 0 <= val (random k) < 1) ->
  let (ux, uy) := uniform_arrays n m random in
  finite (ux i j) /\ - val m <= val (ux i j) <= val m /\ finite (uy i j) /\ - val m <= val (uy i j) <= val m.
Proof.
  intros n m random i j Fm Hm Hr.
  assert (U : forall k, finite (- m + (m - - m) * random k)%float /\ - val m <= val (- m + (m - - m) * random k)%float <= val m).
  { intros k. destruct (Hr k) as [Fk Hk]. destruct (opp_ok m) as [Fo Vo].
    assert (Sm : sized 1000 m) by (split; [exact Fm|rewrite Rabs_right by lra; change 1000%Z with (Z.of_nat 1000); rewrite bpow_pow; lra]).
    assert (So : sized 1000 (- m)%float) by (split; [now apply Fo|rewrite Vo, Rabs_Ropp; apply Sm]).
    pose proof (sized_sub 1000 _ _ ltac:(lia) Sm So) as Sd. assert (Sk : sized 0 (random k)) by (split; [exact Fk|rewrite Rabs_right by lra; cbn; lra]).
    pose proof (sized_mul (1000 + 1) 0 _ _ ltac:(lia) Sd Sk) as Sp. 
    pose proof (sized_add (1000 + 1 + 0) _ _ ltac:(lia) (sized_le 1000 (1000 + 1 + 0) _ ltac:(lia) So) Sp) as [Fa _]. split; [exact Fa|].
    destruct (sub_ok _ _ (proj1 Sd)) as (_ & _ & Vd). destruct (mul_ok _ _ (proj1 Sp)) as (_ & _ & Vp). destruct (add_ok _ _ Fa) as (_ & _ & Va).
    rewrite Vo in Vd, Va. set (d := val (m - - m)%float) in *. set (p := val ((m - - m) * random k)%float) in *.
    assert (D2 : d = 2 * val m).
    { rewrite Vd. replace (val m - - val m) with (2 * val m) by ring. apply round_generic; [apply valid_rnd_N|]. rewrite Rmult_comm.
      apply (mult_bpow_pos_exact_FLT radix2 (-1074) 53 (val m) 1 (val_format m)). lia. }
    assert (P0 : 0 <= p) by (rewrite Vp, <- rnd_zero; apply rnd_le, Rmult_le_pos; lra).
    assert (P1 : p <= d).
    { rewrite Vp. unfold d at 2. rewrite <- (rnd_val (m - - m)%float). fold d. apply rnd_le. rewrite <- (Rmult_1_r d) at 2. apply Rmult_le_compat_l; lra. }
    rewrite Va. split.
    - rewrite <- Vo, <- (rnd_val (- m)%float) at 1. apply rnd_le. rewrite Vo. lra.
    - rewrite <- (rnd_val m). apply rnd_le. rewrite rnd_val. lra. }
  unfold uniform_arrays. cbn [nadd nsub nmul nneg NumFloat]. repeat split; apply U.
Qed.
Example C87_uniform_example : finite 10 /\ 0 <= val 10 <= 2 ^ 1000 /\ finite 0 /\ 0 <= val 0 < 1.
Proof.
  destruct is_ten as [F V]. destruct is_zero as [F0 V0]. rewrite V, V0. repeat split; auto; try lra.
Qed.
