Require Import Verif.L_real Verif.M_vector.
From Coq Require Import List Lra Psatz Permutation.
Import ListNotations.

Lemma vec_ext (a b : vec R) : vx a = vx b -> vy a = vy b -> a = b.
Proof. destruct a, b; cbn; intros; congruence. Qed.
Lemma pnt_ext (a b : pt R) : px a = px b -> py a = py b -> a = b.
Proof. destruct a, b; cbn; intros; congruence. Qed.

(* ---------------- lengths ---------------- *)
Lemma sumsq_pos x y : 0 <= x * x + y * y.
Proof. nra. Qed.
Lemma sumsq_0 x y : x * x + y * y = 0 <-> x = 0 /\ y = 0.
Proof. split; [intros; split; nra|intros [-> ->]; lra]. Qed.
Lemma length_sq v : v_length v * v_length v = vx v * vx v + vy v * vy v.
Proof. unfold v_length. cbn. apply sqrt_sqrt, sumsq_pos. Qed.
Lemma length_pos (v : vec R) : 0 <= v_length v.
Proof. apply sqrt_pos. Qed.
Lemma length_0 v : v_length v = 0 <-> v = V 0 0.
Proof.
  split.
  - intros H. pose proof (length_sq v) as E. rewrite H in E.
    assert (vx v * vx v + vy v * vy v = 0) by lra. apply sumsq_0 in H0. destruct H0.
    apply vec_ext; auto.
  - intros ->. unfold v_length. cbn. rewrite Rmult_0_l, Rplus_0_l. apply sqrt_0.
Qed.

Lemma unit_R v : v_unit v =
  if Req_EM_T (v_length v) 0 then Raise ZeroDivisionError
  else Ok (V (vx v / v_length v) (vy v / v_length v)).
Proof.
  unfold v_unit. cbn -[v_length]. change (Reqb ?a ?b) with (if Req_EM_T a b then true else false).
  destruct (Req_EM_T (v_length v) 0); reflexivity.
Qed.
Lemma unit_ok v : v <> V 0 0 ->
  exists u, v_unit v = Ok u /\ v_length u = 1 /\ vx v = v_length v * vx u /\ vy v = v_length v * vy u /\
    0 < v_length v.
Proof.
  intros H. rewrite unit_R. destruct (Req_EM_T (v_length v) 0) as [E|E].
  - apply length_0 in E. contradiction.
  - pose proof (length_pos v) as Hp. pose proof (length_sq v) as Hs.
    eexists. split; [reflexivity|]. cbn [vx vy].
    assert (L : 0 < v_length v) by lra.
    split; [|split; [field; lra|split; [field; lra|auto]]].
    unfold v_length at 1. cbn -[v_length].
    replace (vx v / v_length v * (vx v / v_length v) + vy v / v_length v * (vy v / v_length v))
      with ((vx v * vx v + vy v * vy v) / (v_length v * v_length v)) by (field; lra).
    rewrite <- Hs. replace (v_length v * v_length v / (v_length v * v_length v)) with 1 by (field; lra).
    apply sqrt_1.
Qed.

(* ---------------- atan2 ---------------- *)
Lemma hyp_pos x y : x <> 0 -> 0 < sqrt (x * x + y * y).
Proof. intros. apply sqrt_lt_R0. nra. Qed.

Lemma cos_sin_atan x y : 0 < x ->
  cos (atan (y / x)) = x / sqrt (x * x + y * y) /\ sin (atan (y / x)) = y / sqrt (x * x + y * y).
Proof.
  intros Hx. assert (Hh := hyp_pos x y ltac:(lra)).
  assert (E : sqrt (x * x + y * y) = x * sqrt (1 + (y / x)²)).
  { replace (x * x + y * y) with (x * x * (1 + (y / x)²)) by (unfold Rsqr; field; lra).
    rewrite sqrt_mult_alt by nra. f_equal. apply sqrt_square. lra. }
  assert (Hq : 0 < sqrt (1 + (y / x)²)).
  { apply sqrt_lt_R0. pose proof (Rle_0_sqr (y / x)). lra. }
  rewrite cos_atan, sin_atan, E. split; field; lra.
Qed.

Lemma atan2_polar x y : (x <> 0 \/ y <> 0) ->
  cos (Ratan2 y x) = x / sqrt (x * x + y * y) /\ sin (Ratan2 y x) = y / sqrt (x * x + y * y).
Proof.
  intros NZ. unfold Ratan2.
  destruct (Rlt_dec 0 x); [apply cos_sin_atan; auto|].
  destruct (Rlt_dec x 0).
  - assert (Hm := cos_sin_atan (- x) (- y) ltac:(lra)).
    replace (- y / - x) with (y / x) in Hm by (field; lra).
    replace (- x * - x + - y * - y) with (x * x + y * y) in Hm by ring.
    destruct Hm as [Hc Hs]. pose proof (hyp_pos x y ltac:(lra)) as Hh.
    destruct (Rle_dec 0 y).
    + rewrite neg_cos, neg_sin, Hc, Hs. split; field; lra.
    + replace (atan (y / x) - PI) with (- (PI - atan (y / x))) by ring.
      rewrite cos_neg, sin_neg, Rtrigo_facts.cos_pi_minus, Rtrigo_facts.sin_pi_minus, Hc, Hs.
      split; field; lra.
  - assert (x = 0) by lra. subst. 
    destruct (Rlt_dec 0 y); [|destruct (Rlt_dec y 0)].
    + rewrite cos_PI2, sin_PI2. replace (0 * 0 + y * y) with (y * y) by ring.
      rewrite sqrt_square by lra. split; field; lra.
    + rewrite cos_neg, sin_neg, cos_PI2, sin_PI2. replace (0 * 0 + y * y) with (- y * - y) by ring.
      rewrite sqrt_square by lra. split; field; lra.
    + exfalso. lra.
Qed.
Lemma atan2_range x y : - PI < Ratan2 y x <= PI.
Proof.
  unfold Ratan2. pose proof PI_RGT_0. pose proof (atan_bound (y / x)) as [B1 B2].
  destruct (Rlt_dec 0 x); [lra|]. destruct (Rlt_dec x 0).
  - destruct (Rle_dec 0 y).
    + assert (y / x <= 0). { unfold Rdiv. assert (/ x < 0) by (apply Rinv_lt_0_compat; auto). nra. }
      assert (atan (y / x) <= 0).
      { destruct H0 as [H0|H0]; [|rewrite H0, atan_0; lra].
        left. rewrite <- atan_0. apply atan_increasing; auto. }
      lra.
    + assert (0 < y / x). { unfold Rdiv. assert (/ x < 0) by (apply Rinv_lt_0_compat; auto). nra. }
      assert (0 < atan (y / x)) by (rewrite <- atan_0; apply atan_increasing; auto). lra.
  - destruct (Rlt_dec 0 y); [lra|]. destruct (Rlt_dec y 0); lra.
Qed.

Lemma polar (v : vec R) : 
  vx v = v_length v * cos (radians (v_angle v)) /\ vy v = v_length v * sin (radians (v_angle v)).
Proof.
  unfold v_angle, degrees, radians. cbn -[IZR v_length Ratan2].
  replace (Ratan2 (vy v) (vx v) * (180 / PI) * (PI / 180)) with (Ratan2 (vy v) (vx v))
    by (field; apply PI_neq0).
  destruct (Req_dec (vx v) 0) as [E|E]; [destruct (Req_dec (vy v) 0) as [E2|E2]|].
  - assert (L : v_length v = 0) by (apply length_0; apply vec_ext; auto). rewrite L. lra.
  - destruct (atan2_polar (vx v) (vy v) (or_intror E2)) as [-> ->].
    pose proof (length_sq v). pose proof (length_pos v).
    change (sqrt (vx v * vx v + vy v * vy v)) with (v_length v).
    assert (v_length v <> 0) by (intros C; apply length_0 in C; rewrite C in E2; cbn in E2; lra).
    split; field; auto.
  - destruct (atan2_polar (vx v) (vy v) (or_introl E)) as [-> ->].
    change (sqrt (vx v * vx v + vy v * vy v)) with (v_length v).
    assert (v_length v <> 0) by (intros C; apply length_0 in C; rewrite C in E; cbn in E; lra).
    split; field; auto.
Qed.
Lemma angle_range (v : vec R) : -180 < v_angle v <= 180.
Proof.
  unfold v_angle, degrees. cbn -[IZR Ratan2]. pose proof (atan2_range (vx v) (vy v)) as [A B].
  pose proof PI_RGT_0. set (a := Ratan2 (vy v) (vx v)) in *.
  assert (E : a * (180 / PI) = 180 * (a / PI)) by (field; lra). rewrite E.
  assert (-1 < a / PI <= 1).
  { assert (Q : a / PI * PI = a) by (field; lra).
    split; [apply (Rmult_lt_reg_r PI)|apply (Rmult_le_reg_r PI)]; lra. }
  lra.
Qed.

(* angle as unique solution *)
Lemma cs_unique a b : - PI < a <= PI -> - PI < b <= PI -> cos a = cos b -> sin a = sin b -> a = b.
Proof.
  intros Ha Hb Hc Hs.
  assert (C : cos (a - b) = 1).
  { rewrite cos_minus, Hc, Hs. pose proof (sin2_cos2 b). unfold Rsqr in *. lra. }
  assert (S : sin (a - b) = 0) by (rewrite sin_minus, Hc, Hs; ring).
  destruct (sin_eq_0_0 _ S) as [k Hk]. pose proof PI_RGT_0.
  assert (-2 < IZR k < 2). { split; apply (Rmult_lt_reg_r PI); lra. }
  assert (K : (k = -1 \/ k = 0 \/ k = 1)%Z).
  { destruct H0 as [H1 H2]. apply lt_IZR in H1. apply lt_IZR in H2. lia. }
  destruct K as [-> | [-> | ->]].
  - rewrite Hk in C. replace (-1 * PI) with (- PI) in C by ring. rewrite cos_neg, cos_PI in C. lra.
  - lra.
  - rewrite Hk in C. rewrite Rmult_1_l, cos_PI in C. lra.
Qed.

(* ---------------- polygon area ---------------- *)
Definition crossp (a b : pt R) : R := px a * py b - py a * px b.
(* sum of crossp over consecutive points of an open path *)
Fixpoint psum (l : list (pt R)) : R :=
  match l with
  | a :: (b :: _) as r => crossp a b + psum r
  | _ => 0
  end.
Lemma psum_app l x r : psum (l ++ x :: r) = psum (l ++ [x]) + psum (x :: r).
Proof.
  induction l as [|a l IH].
  - cbn. destruct r; lra.
  - cbn [app]. destruct l as [|b l].
    + cbn [app psum]. lra.
    + cbn [app] in *. change (crossp a b + psum (b :: l ++ x :: r) = crossp a b + psum (b :: l ++ [x]) + psum (x :: r)).
      rewrite IH. lra.
Qed.
Lemma pysum_R (l : list R) : pysum l = fold_right Rplus 0 l.
Proof.
  unfold pysum. cbn. assert (G : forall l a, fold_left Rplus l a = a + fold_right Rplus 0 l).
  { induction l0; intros; cbn; [lra|]. rewrite IHl0. lra. }
  rewrite G. lra.
Qed.
Lemma area_psum a l : polygon_area (a :: l) = psum (a :: l ++ [a]) / 2.
Proof.
  unfold polygon_area. rewrite pysum_R. unfold iter_rotate2, rotl. cbn -[IZR combine]. f_equal.
  assert (G : forall l x, fold_right Rplus 0
      (map (fun ab => px (fst ab) * py (snd ab) - py (fst ab) * px (snd ab)) (combine (x :: l) (l ++ [a])))
      = psum (x :: l ++ [a])).
  { induction l0 as [|b l0 IH]; intros x.
    - cbn. unfold crossp. lra.
    - change ((b :: l0) ++ [a]) with (b :: l0 ++ [a]).
      change (combine (x :: b :: l0) (b :: l0 ++ [a])) with ((x, b) :: combine (b :: l0) (l0 ++ [a])).
      cbn [map fold_right fst snd]. rewrite IH.
      change (psum (x :: b :: l0 ++ [a])) with (crossp x b + psum (b :: l0 ++ [a])). reflexivity. }
  apply G.
Qed.
Lemma area_nil : polygon_area (@nil (pt R)) = 0.
Proof. unfold polygon_area. cbn. lra. Qed.
Lemma psum_rev l : psum (rev l) = - psum l.
Proof.
  induction l as [|a l IH]; [cbn; lra|]. cbn [rev]. destruct l as [|b l]; [cbn; lra|].
  cbn [rev] in *. rewrite <- app_assoc. cbn [app]. rewrite psum_app, IH. cbn [psum]. unfold crossp. lra.
Qed.
(* translation adds a telescoping term *)
Lemma psum_shift dx dy l a : 
  psum (map (fun p => P (px p + dx) (py p + dy)) (a :: l)) =
  psum (a :: l) + dx * (py (last l a) - py a) - dy * (px (last l a) - px a).
Proof.
  revert a. induction l as [|b l IH]; intros a; [cbn; lra|].
  cbn [map] in *. change (crossp (P (px a + dx) (py a + dy)) (P (px b + dx) (py b + dy)) +
    psum (map (fun p => P (px p + dx) (py p + dy)) (b :: l)) =
    crossp a b + psum (b :: l) + dx * (py (last (b :: l) a) - py a) - dy * (px (last (b :: l) a) - px a)).
  cbn [map]. rewrite IH. 
  assert (E : last (b :: l) a = last l b).
  { clear. revert a b. induction l; intros; [reflexivity|]. change (last (a :: l) a0 = last (a :: l) b).
    destruct l; [reflexivity|]. cbn. cbn in IHl. rewrite (IHl a0 a), (IHl b a). reflexivity. }
  rewrite E. unfold crossp. cbn [px py]. ring.
Qed.
Lemma psum_linear a b c d l :
  psum (map (fun p => P (a * px p + b * py p) (c * px p + d * py p)) l) = (a * d - b * c) * psum l.
Proof.
  induction l as [|p l IH]; [cbn; lra|]. destruct l as [|q l]; [cbn; lra|].
  cbn [map] in *. change (psum (p :: q :: l)) with (crossp p q + psum (q :: l)).
  match goal with |- psum (?x :: ?y :: ?r) = _ => change (psum (x :: y :: r)) with (crossp x y + psum (y :: r)) end.
  rewrite IH. unfold crossp. cbn [px py]. ring.
Qed.
Lemma area_rot k (l : list (pt R)) : polygon_area (rotl k l) = polygon_area l.
Proof.
  assert (G : forall l1 l2 : list (pt R), polygon_area (l1 ++ l2) = polygon_area (l2 ++ l1)).
  { intros l1 l2. destruct l1 as [|a l1]; [rewrite app_nil_r; reflexivity|].
    destruct l2 as [|b l2]; [rewrite app_nil_r; reflexivity|].
    cbn [app]. rewrite !area_psum. f_equal.
    rewrite <- !app_assoc. cbn [app].
    change (psum ((a :: l1) ++ b :: (l2 ++ [a])) = psum ((b :: l2) ++ a :: (l1 ++ [b]))).
    rewrite psum_app, (psum_app (b :: l2)). cbn [app]. lra. }
  unfold rotl. rewrite G, firstn_skipn. reflexivity.
Qed.
Lemma area_rev (l : list (pt R)) : polygon_area (rev l) = - polygon_area l.
Proof.
  destruct l as [|a l]; [cbn [rev]; rewrite area_nil; lra|]. rewrite area_psum.
  transitivity (polygon_area (a :: rev l)).
  - cbn [rev]. rewrite <- (area_rot (length (rev l)) (rev l ++ [a])). f_equal.
    unfold rotl. rewrite skipn_app, skipn_all, Nat.sub_diag, firstn_app, firstn_all, Nat.sub_diag. cbn.
    rewrite app_nil_r. reflexivity.
  - rewrite area_psum.
    replace (a :: rev l ++ [a]) with (rev (a :: l ++ [a])).
    + rewrite psum_rev. lra.
    + cbn [rev]. rewrite rev_app_distr. reflexivity.
Qed.
