(* Property theorems C79, continued: points under moves and turns, and points of arcs and circles, on doubles. *)
From Coq Require Import Reals Floats ZArith List Lra Lia String.
From Flocq Require Import Core BinarySingleNaN PrimFloat.
Require Import Verif.Base Verif.NumFloat Verif.NumR Verif.M_vector Verif.M_bbox Verif.M_transform Verif.M_utils.
Require Import Verif.S_float Verif.L_float Verif.L_float2 Verif.P_float Verif.P_float2 Verif.P_float3 Verif.P_float5 Verif.P_float6 Verif.P_float7 Verif.P_float8.
Import ListNotations.
Set Warnings "-inexact-float".
Local Open Scope R_scope.

(* the distance between two exact points, and between the values of two double points *)
Definition gap (p q : pt R) : R := norm (px p - px q) (py p - py q).
Lemma gap_triangle a b c : gap a c <= gap a b + gap b c.
Proof.
  unfold gap. pose proof (norm_triangle (px a - px b) (py a - py b) (px b - px c) (py b - py c)) as T.
  replace (px a - px b + (px b - px c)) with (px a - px c) in T by ring. replace (py a - py b + (py b - py c)) with (py a - py c) in T by ring. exact T.
Qed.
Lemma gap_sym a b : gap a b = gap b a.
Proof. unfold gap, norm. f_equal. ring. Qed.
Lemma norm_times c a b : norm (a * c) (b * c) = Rabs c * norm a b.
Proof. unfold norm. rewrite <- sqrt_Rsqr_abs, <- sqrt_mult by (unfold Rsqr; nra). f_equal. unfold Rsqr. ring. Qed.

(* ---------------- images of points ---------------- *)

Definition reach (n : nat) (calls : list (top float)) (p : pt float) : R :=
  (Rabs (val (px p)) + Rabs (val (py p))) * (1 + 2 * INR n * tiny) + way calls + (2 * INR n + 2) * tiny.
Theorem C79_rigid_points {TF : NumTrig float} (k : nat) (m : R) (calls : list (top float)) (p : pt float) :
  accurate_trig k TF -> 0 <= m -> (INR k + 1 + m / 10) * eps <= / 8 -> Forall (rigid m) calls ->
  let n := List.length calls in INR n * per_call k m <= / 2 ->
  let q := t_transform (trun calls t_new) p in
  finite (px q) -> finite (py q) ->
  gap (valp q) (t_transform (trun (map valop calls) t_new) (valp p)) <= (2 * INR n * per_call k m + 16 * eps) * reach n calls p.
Proof.
  intros Acc Hm Kb Hc n Hn q Fx Fy.
  pose proof (rigid_col k m 0 calls Acc Hm Kb Hc) as (A0 & _ & C0). pose proof (rigid_col k m 1 calls Acc Hm Kb Hc) as (A1 & _ & C1). pose proof (rigid_col k m 2 calls Acc Hm Kb Hc) as (A2 & _ & C2).
  cbn [entry unitz] in *. fold n in A0, A1, A2, C0, C1, C2.
  set (t := tmat (trun calls t_new)) in *. set (r := tmat (trun (map valop calls) t_new)) in *.
  unfold q, t_transform, mat_apply in Fx, Fy. fold t in Fx, Fy. cbn [px py] in Fx, Fy. ops_in Fx. ops_in Fy.
  destruct (const_ok 1) as [_ E1]; [vm_compute; discriminate|].
  destruct (dot3_err _ _ _ _ _ _ Fx) as (F00 & F01 & F02 & _ & _ & _ & Ex). destruct (dot3_err _ _ _ _ _ _ Fy) as (F10 & F11 & F12 & _ & _ & _ & Ey).
  specialize (C0 F00 F10). specialize (C1 F01 F11). specialize (C2 F02 F12). rewrite E1 in Ex, Ey.
  unfold gap, q, t_transform, mat_apply. fold t r. cbn [valp px py]. ops.
  pose proof eps_pos. pose proof eps_num as En. pose proof tiny_pos. pose proof (pos_INR k). pose proof (pos_INR n) as Np.
  assert (Ha : 0 <= per_call k m) by (unfold per_call; apply Rmult_le_pos; lra).
  pose proof (growth_rate _ _ Ha Hn) as G. pose proof (way_pos calls) as Wp.
  assert (G0 : 0 <= (1 + per_call k m) ^ n - 1) by (assert (1 <= (1 + per_call k m) ^ n) by (apply pow_R1_Rle; lra); lra).
  set (g := (1 + per_call k m) ^ n - 1) in *. set (a := per_call k m) in *.
  assert (U0 : 0 <= 2 * INR n * tiny) by (apply Rmult_le_pos; lra). set (u := 2 * INR n * tiny) in *.
  replace (1 - 0 + 0 * way calls + u) with (1 + u) in * by ring. replace (1 - 1 + 1 * way calls + u) with (way calls + u) in * by ring.
  set (x := val (px p)) in *. set (y := val (py p)) in *. pose proof (Rabs_pos x) as X0. pose proof (Rabs_pos y) as Y0.
  assert (Ce : forall v w V' W' S, norm V' W' <= S -> 0 <= S -> norm (v - V') (w - W') <= g * S -> Rabs v <= 2 * S /\ Rabs w <= 2 * S).
  { intros v w V' W' S Q1 Q2 Q3. pose proof (norm_triangle V' W' (v - V') (w - W')) as T1. replace (V' + (v - V')) with v in T1 by ring. replace (W' + (w - W')) with w in T1 by ring.
    assert (g * S <= 1 * S) by (apply Rmult_le_compat_r; lra). destruct (norm_ge v w). split; lra. }
  destruct (Ce _ _ _ _ _ A0 ltac:(lra) C0) as [B00 B10]. destruct (Ce _ _ _ _ _ A1 ltac:(lra) C1) as [B01 B11]. destruct (Ce _ _ _ _ _ A2 ltac:(lra) C2) as [B02 B12].
  set (R0 := (Rabs x + Rabs y) * (1 + u) + way calls + u).
  assert (Sz : forall v0 v1 v2, v0 <= 2 * (1 + u) -> v1 <= 2 * (1 + u) -> v2 <= 2 * (way calls + u) -> v0 * Rabs x + v1 * Rabs y + v2 * Rabs 1 <= 2 * R0).
  { intros v0 v1 v2 Q1 Q2 Q3. rewrite Rabs_R1. pose proof (Rmult_le_compat_r _ _ _ X0 Q1). pose proof (Rmult_le_compat_r _ _ _ Y0 Q2). unfold R0. nra. }
  pose proof (Sz _ _ _ B00 B01 B02) as Sx. pose proof (Sz _ _ _ B10 B11 B12) as Sy.
  assert (RR : reach n calls p = R0 + 2 * tiny) by (unfold reach, R0, u; fold x y; ring). rewrite RR.
  assert (R00 : 0 <= R0) by (unfold R0; assert (0 <= (Rabs x + Rabs y) * (1 + u)) by (apply Rmult_le_pos; lra); lra).
  match type of Ex with Rabs (?v - ?w) <= _ => set (qx := v) in *; set (ex := w) in * end.
  match type of Ey with Rabs (?v - ?w) <= _ => set (qy := v) in *; set (ey := w) in * end.
  assert (Ex' : Rabs (qx - ex) <= 8 * eps * (R0 + 2 * tiny)).
  { eapply Rle_trans; [exact Ex|]. replace (8 * eps * (R0 + 2 * tiny)) with (4 * eps * (2 * R0 + 4 * tiny)) by ring. apply Rmult_le_compat_l; lra. }
  assert (Ey' : Rabs (qy - ey) <= 8 * eps * (R0 + 2 * tiny)).
  { eapply Rle_trans; [exact Ey|]. replace (8 * eps * (R0 + 2 * tiny)) with (4 * eps * (2 * R0 + 4 * tiny)) by ring. apply Rmult_le_compat_l; lra. }
  set (tx := m00 r * x + m01 r * y + m02 r * 1). set (ty := m10 r * x + m11 r * y + m12 r * 1).
  assert (T : norm (ex - tx) (ey - ty) <= g * R0).
  { replace (ex - tx) with ((val (m00 t) - m00 r) * x + ((val (m01 t) - m01 r) * y + (val (m02 t) - m02 r))) by (unfold ex, tx; ring).
    replace (ey - ty) with ((val (m10 t) - m10 r) * x + ((val (m11 t) - m11 r) * y + (val (m12 t) - m12 r))) by (unfold ey, ty; ring).
    eapply Rle_trans; [apply norm_triangle|]. rewrite norm_times.
    eapply Rle_trans; [apply Rplus_le_compat_l, norm_triangle|]. rewrite norm_times.
    pose proof (Rmult_le_compat_l _ _ _ X0 C0). pose proof (Rmult_le_compat_l _ _ _ Y0 C1).
    replace (g * R0) with (Rabs x * (g * (1 + u)) + (Rabs y * (g * (1 + u)) + g * (way calls + u))) by (unfold R0; ring). lra. }
  change (norm (qx - tx) (qy - ty) <= (2 * INR n * a + 16 * eps) * (R0 + 2 * tiny)).
  replace (qx - tx) with ((qx - ex) + (ex - tx)) by ring. replace (qy - ty) with ((qy - ey) + (ey - ty)) by ring.
  eapply Rle_trans; [apply norm_triangle|]. pose proof (norm_sum (qx - ex) (qy - ey)).
  assert (g * R0 <= 2 * INR n * a * (R0 + 2 * tiny)) by (apply Rmult_le_compat; lra). lra.
Qed.

(* in exact arithmetic such calls keep all distances *)
Lemma exact_rigid calls m (r : transform R) (p q : pt R) : Forall (rigid m) calls -> m20 (tmat r) = 0 -> m21 (tmat r) = 0 -> m22 (tmat r) = 1 ->
  gap (t_transform (trun (map valop calls) r) p) (t_transform (trun (map valop calls) r) q) = gap (t_transform r p) (t_transform r q).
Proof.
  intros Hc. revert r. induction Hc as [|o calls Ho Hc IH]; intros r A B C; [reflexivity|].
  unfold trun in *. cbn [map fold_left].
  destruct o; cbn [rigid] in Ho; try contradiction; cbn [valop tstep fst].
  - rewrite IH; unfold t_translate, t_pre; cbn [tmat]; unfold mat_dot, translate_mat; cbn [m20 m21 m22 m00 m01 m02 m10 m11 m12]; ops; rewrite ?A, ?B, ?C; try ring.
    unfold gap, t_transform, mat_apply. cbn [tmat m20 m21 m22 m00 m01 m02 m10 m11 m12 px py]. ops. rewrite ?A, ?B, ?C. f_equal; ring.
  - rewrite IH; unfold t_rotate, t_pre; cbn [tmat]; unfold mat_dot, rotate_mat; cbn [m20 m21 m22 m00 m01 m02 m10 m11 m12]; ops; rewrite ?A, ?B, ?C; try ring.
    unfold gap, t_transform, mat_apply. cbn [tmat m20 m21 m22 m00 m01 m02 m10 m11 m12 px py nsin ncos TrigR]. ops.
    set (c := cos _). set (s := sin _).
    match goal with |- norm ?a ?b = norm ?u ?v => replace a with (c * u + s * v) by ring; replace b with (- s * u + c * v) by ring end.
    rewrite norm_turn. unfold c, s. rewrite norm_unit. ring.
  - rewrite IH; unfold t_rotate_ccw, t_pre; cbn [tmat]; unfold mat_dot, rotate_mat_ccw; cbn [m20 m21 m22 m00 m01 m02 m10 m11 m12]; ops; rewrite ?A, ?B, ?C; try ring.
    unfold gap, t_transform, mat_apply. cbn [tmat m20 m21 m22 m00 m01 m02 m10 m11 m12 px py nsin ncos TrigR]. ops.
    set (c := cos _). set (s := sin _).
    match goal with |- norm ?a ?b = norm ?u ?v => replace a with (c * u + - s * v) by ring; replace b with (s * u + c * v) by ring end.
    rewrite norm_turn_ccw. unfold c, s. rewrite norm_unit. ring.
  - exact (IH (t_push r) A B C).
  - exact (IH r A B C).
Qed.
(* so on doubles the distance between two images is nearly that between the points *)
Theorem C79_rigid_distances {TF : NumTrig float} (k : nat) (m : R) (calls : list (top float)) (p1 p2 : pt float) :
  accurate_trig k TF -> 0 <= m -> (INR k + 1 + m / 10) * eps <= / 8 -> Forall (rigid m) calls ->
  let n := List.length calls in INR n * per_call k m <= / 2 ->
  let q1 := t_transform (trun calls t_new) p1 in let q2 := t_transform (trun calls t_new) p2 in
  finite (px q1) -> finite (py q1) -> finite (px q2) -> finite (py q2) ->
  Rabs (gap (valp q1) (valp q2) - gap (valp p1) (valp p2)) <=
    (2 * INR n * per_call k m + 16 * eps) * (reach n calls p1 + reach n calls p2).
Proof.
  intros Acc Hm Kb Hc n Hn q1 q2 F1 F2 F3 F4.
  pose proof (C79_rigid_points k m calls p1 Acc Hm Kb Hc Hn F1 F2) as A1. pose proof (C79_rigid_points k m calls p2 Acc Hm Kb Hc Hn F3 F4) as A2.
  fold q1 in A1. fold q2 in A2. fold n in A1, A2.
  set (e1 := t_transform _ (valp p1)) in A1. set (e2 := t_transform _ (valp p2)) in A2.
  assert (E : gap e1 e2 = gap (valp p1) (valp p2)).
  { unfold e1, e2. rewrite (exact_rigid calls m t_new _ _ Hc) by reflexivity. unfold gap, t_transform, mat_apply. cbn [t_new tmat mat_id m00 m01 m02 m10 m11 m12 px py]. ops. f_equal; ring. }
  rewrite <- E. pose proof (gap_triangle (valp q1) e1 (valp q2)). pose proof (gap_triangle e1 e2 (valp q2)).
  pose proof (gap_triangle e1 (valp q1) e2). pose proof (gap_triangle (valp q1) (valp q2) e2).
  rewrite (gap_sym e2 (valp q2)) in *. rewrite (gap_sym e1 (valp q1)) in *. apply Rabs_le. lra.
Qed.
(* path_rotate and path_rotate_ccw: one call *)
Theorem C79_path_rotate {TF : NumTrig float} (k : nat) (m : R) (path : list (pt float)) (deg : float) :
  accurate_trig k TF -> Rabs (val deg) <= m -> (INR k + 1 + m / 10) * eps <= / 8 -> per_call k m <= / 2 ->
  let close (p : pt float) (q : pt float) (e : pt R) :=
    finite (px q) -> finite (py q) ->
    gap (valp q) e <= (2 * per_call k m + 16 * eps) * ((Rabs (val (px p)) + Rabs (val (py p))) * (1 + 2 * tiny) + 4 * tiny) in
  (forall i p, nth_error path i = Some p -> exists q e, nth_error (path_rotate path deg) i = Some q /\
     nth_error (path_rotate (map valp path) (val deg)) i = Some e /\ close p q e) /\
  (forall i p, nth_error path i = Some p -> exists q e, nth_error (path_rotate_ccw path deg) i = Some q /\
     nth_error (path_rotate_ccw (map valp path) (val deg)) i = Some e /\ close p q e).
Proof.
  intros Acc Hd Kb Hn close. pose proof (Rabs_pos (val deg)).
  assert (G : forall o : top float, rigid m o -> way [o] = 0 -> forall p, close p (t_transform (trun [o] t_new) p) (t_transform (trun (map valop [o]) t_new) (valp p))).
  { intros o Ho Hw p Fx Fy. pose proof (C79_rigid_points k m [o] p Acc ltac:(lra) Kb ltac:(constructor; [exact Ho|constructor]) ltac:(cbn [List.length INR]; lra) Fx Fy) as A.
    eapply Rle_trans; [exact A|]. unfold reach. rewrite Hw. cbn [List.length INR]. apply Req_le. ring. }
  split; intros i p Hp.
  - exists (t_transform (trun [ORotate deg] t_new) p), (t_transform (trun (map valop [ORotate deg]) t_new) (valp p)).
    split; [unfold path_rotate; rewrite nth_error_map, Hp; reflexivity|]. split; [unfold path_rotate; rewrite !nth_error_map, Hp; reflexivity|].
    apply G; [exact Hd|reflexivity].
  - exists (t_transform (trun [ORotateCcw deg] t_new) p), (t_transform (trun (map valop [ORotateCcw deg]) t_new) (valp p)).
    split; [unfold path_rotate_ccw; rewrite nth_error_map, Hp; reflexivity|]. split; [unfold path_rotate_ccw; rewrite !nth_error_map, Hp; reflexivity|].
    apply G; [exact Hd|reflexivity].
Qed.

(* ---------------- arcs and circles ---------------- *)

(* one point of an arc, at an angle that may itself be off by d *)
Lemma on_arc {TF : NumTrig float} k (r cx cy t : float) (a : R) : accurate_trig k TF -> INR k * eps <= 1 ->
  let x := (r * ncos t + cx)%float in let y := (r * nsin t + cy)%float in finite x -> finite y ->
  finite t /\
  norm (val x - (val r * cos a + val cx)) (val y - (val r * sin a + val cy)) <=
    eps * (2 * (INR k + 5) * Rabs (val r) + Rabs (val cx) + Rabs (val cy) + 6 * tiny) + Rabs (val r) * Rabs (val t - a).
Proof.
  intros [_ Acc] Hk x y Fx Fy. destruct (Acc t) as [As Ac].
  destruct (add_ok _ _ Fx) as (F1 & _ & Vx). destruct (mul_ok _ _ F1) as (_ & Fc & Mx). destruct (add_ok _ _ Fy) as (F2 & _ & Vy). destruct (mul_ok _ _ F2) as (_ & Fs & My).
  destruct (As Fs) as [Ft Es]. destruct (Ac Fc) as [_ Ec]. split; [exact Ft|].
  pose proof eps_pos. pose proof eps_num as En. pose proof tiny_pos. pose proof (pos_INR k) as Kp. assert (E1 : eps <= / 2) by (rewrite En; lra).
  assert (One : forall (ff c v w : R), Rabs ff <= 1 -> Rabs (v - ff) <= INR k * eps -> w = rnd (rnd (val r * v) + c) -> Rabs (w - (val r * ff + c)) <= eps * ((INR k + 5) * Rabs (val r) + Rabs c + 3 * tiny)).
  { intros ff c v w Hf Hv ->. pose proof (Rabs_pos (val r)) as R0. pose proof (Rabs_pos c) as C0.
    assert (V2 : Rabs v <= 2) by (replace v with ((v - ff) + ff) by ring; eapply Rle_trans; [apply Rabs_triang|]; lra).
    pose proof (err_any (val r * v)) as A1. pose proof (err_any (rnd (val r * v) + c)) as A2.
    assert (P1 : Rabs (val r * v) <= 2 * Rabs (val r)) by (rewrite Rabs_mult, Rmult_comm; apply Rmult_le_compat_r; lra).
    assert (Q1 : Rabs (rnd (val r * v) - val r * v) <= eps * (2 * Rabs (val r) + tiny)) by (eapply Rle_trans; [exact A1|]; apply Rmult_le_compat_l; lra).
    assert (P2 : Rabs (rnd (val r * v)) <= 3 * Rabs (val r) + tiny).
    { replace (rnd (val r * v)) with ((rnd (val r * v) - val r * v) + val r * v) by ring. eapply Rle_trans; [apply Rabs_triang|].
      assert (eps * (2 * Rabs (val r) + tiny) <= / 2 * (2 * Rabs (val r) + tiny)) by (apply Rmult_le_compat_r; lra). lra. }
    assert (Q2 : Rabs (rnd (rnd (val r * v) + c) - (rnd (val r * v) + c)) <= eps * (3 * Rabs (val r) + Rabs c + 2 * tiny)).
    { eapply Rle_trans; [exact A2|]. apply Rmult_le_compat_l; [lra|]. pose proof (Rabs_triang (rnd (val r * v)) c). lra. }
    assert (Q3 : Rabs (val r * v - val r * ff) <= eps * (INR k * Rabs (val r))).
    { rewrite <- Rmult_minus_distr_l, Rabs_mult. replace (eps * (INR k * Rabs (val r))) with (Rabs (val r) * (INR k * eps)) by ring. apply Rmult_le_compat_l; assumption. }
    replace (rnd (rnd (val r * v) + c) - (val r * ff + c)) with ((rnd (rnd (val r * v) + c) - (rnd (val r * v) + c)) + ((rnd (val r * v) - val r * v) + (val r * v - val r * ff))) by ring.
    eapply Rle_trans; [apply Rabs_triang|]. eapply Rle_trans; [apply Rplus_le_compat_l, Rabs_triang|]. lra. }
  assert (Bc : Rabs (cos (val t)) <= 1) by (apply Rabs_le; pose proof (COS_bound (val t)); lra).
  assert (Bs : Rabs (sin (val t)) <= 1) by (apply Rabs_le; pose proof (SIN_bound (val t)); lra).
  pose proof (One _ (val cx) _ (val x) Bc Ec ltac:(unfold x; rewrite Vx, Mx; reflexivity)) as Hx.
  pose proof (One _ (val cy) _ (val y) Bs Es ltac:(unfold y; rewrite Vy, My; reflexivity)) as Hy.
  set (X := val r * cos (val t) + val cx) in *. set (Y := val r * sin (val t) + val cy) in *.
  replace (val x - (val r * cos a + val cx)) with ((val x - X) + (cos (val t) - cos a) * val r) by (unfold X; ring).
  replace (val y - (val r * sin a + val cy)) with ((val y - Y) + (sin (val t) - sin a) * val r) by (unfold Y; ring).
  eapply Rle_trans; [apply norm_triangle|]. rewrite norm_times. pose proof (norm_sum (val x - X) (val y - Y)).
  assert (Chord : norm (cos (val t) - cos a) (sin (val t) - sin a) <= Rabs (val t - a)).
  { set (h := (val t - a) / 2). set (g := (val t + a) / 2). replace (val t) with (g + h) by (unfold g, h; field). replace a with (g - h) at 1 2 by (unfold g, h; field).
    replace (g + h - a) with (h * 2) by (unfold g, h; field). rewrite cos_plus, cos_minus, sin_plus, sin_minus.
    match goal with |- norm ?u ?v <= _ => replace u with ((- sin g) * (2 * sin h)) by ring; replace v with (cos g * (2 * sin h)) by ring end.
    rewrite norm_times. replace (norm (- sin g) (cos g)) with 1.
    - rewrite !Rabs_mult, (Rabs_right 2) by lra. pose proof (sin_abs h). lra.
    - unfold norm. replace (- sin g * - sin g + cos g * cos g) with 1; [symmetry; apply sqrt_1|]. pose proof (sin2_cos2 g) as Q. unfold Rsqr in Q. lra. }
  pose proof (Rmult_le_compat_l _ _ _ (Rabs_pos (val r)) Chord). lra.
Qed.
(* every point of an arc or circle is at the radius from the centre *)
Definition on_circle (k : nat) (r : float) (c : pt float) (q : float * float) : Prop :=
  finite (fst q) -> finite (snd q) ->
  Rabs (norm (val (fst q) - val (px c)) (val (snd q) - val (py c)) - Rabs (val r)) <=
    eps * (2 * (INR k + 5) * Rabs (val r) + Rabs (val (px c)) + Rabs (val (py c)) + 6 * tiny).
Lemma at_radius {TF : NumTrig float} k (r t : float) (c : pt float) : accurate_trig k TF -> INR k * eps <= 1 ->
  on_circle k r c ((r * ncos t + px c)%float, (r * nsin t + py c)%float).
Proof.
  intros Acc Hk. cbn [fst snd]. intros Fx Fy. cbn [fst snd] in *. destruct (on_arc k r (px c) (py c) t (val t) Acc Hk Fx Fy) as [_ A].
  replace (val t - val t) with 0 in A by ring. rewrite Rabs_R0, Rmult_0_r, Rplus_0_r in A.
  set (x := val (r * ncos t + px c)%float) in *. set (y := val (r * nsin t + py c)%float) in *.
  assert (U : norm (cos (val t) * val r) (sin (val t) * val r) = Rabs (val r)) by (rewrite norm_times, norm_unit; ring).
  eapply Rle_trans; [|exact A]. rewrite <- U.
  set (X := cos (val t) * val r). set (Y := sin (val t) * val r). replace (x - (val r * cos (val t) + val (px c))) with ((x - val (px c)) - X) by (unfold X; ring).
  replace (y - (val r * sin (val t) + val (py c))) with ((y - val (py c)) - Y) by (unfold Y; ring).
  set (u := x - val (px c)). set (v := y - val (py c)). apply Rabs_le.
  pose proof (norm_triangle X Y (u - X) (v - Y)) as T1. replace (X + (u - X)) with u in T1 by ring. replace (Y + (v - Y)) with v in T1 by ring.
  pose proof (norm_triangle u v (X - u) (Y - v)) as T2. replace (u + (X - u)) with X in T2 by ring. replace (v + (Y - v)) with Y in T2 by ring.
  assert (S : norm (X - u) (Y - v) = norm (u - X) (v - Y)) by (unfold norm; f_equal; ring). lra.
Qed.
Lemma near_t_range j L H (lo hi : float) (lo' hi' : R) (i n : Z) : near j L lo lo' -> near j H hi hi' -> (0 <= i <= n)%Z -> (0 < n <= max_whole)%Z ->
  near (j + 4) (L + (H + L) * (1 + tiny) + tiny) (lo + (hi - lo) * (float_ofZ i / float_ofZ n))%float (lo' + (hi' - lo') * (IZR i / IZR n)).
Proof.
  intros Hl Hh Hi Hn. pose proof tiny_pos. destruct (const_ok n) as [Fn En]; [change (2 ^ 53)%Z with max_whole; lia|].
  assert (N0 : 0 < IZR n) by (apply IZR_lt; lia). assert (I0 : 0 <= IZR i <= IZR n) by (split; apply IZR_le; lia).
  pose proof (near_div _ _ _ (float_ofZ n) _ Fn ltac:(rewrite En; lra) (near_const i ltac:(lia))) as Q. rewrite En in Q.
  assert (Q1 : near 1 (1 + tiny) (float_ofZ i / float_ofZ n)%float (IZR i / IZR n)).
  { eapply near_weaken; [| |exact Q]; [lia|]. apply Rplus_le_compat_r. rewrite abs_IZR, !Rabs_right by lra.
    apply Rmult_le_reg_r with (IZR n); [lra|]. unfold Rdiv. rewrite Rmult_assoc, Rinv_l by lra. lra. }
  pose proof (near_mul _ _ _ _ _ _ _ _ (near_sub _ _ _ _ _ _ _ _ Hh Hl) Q1) as P1.
  eapply near_weaken; [| |exact (near_add _ _ _ _ _ _ _ _ Hl P1)]; [lia|lra].
Qed.
Lemma t_range_nth {F} {NF : Num F} N (lo hi : F) l i t : t_range N lo hi = Ok l -> nth_error l i = Some t ->
  (0 < N)%nat /\ List.length l = Datatypes.S N /\ (i <= N)%nat /\
  t = nadd lo (nmul (nsub hi lo) (ndiv (nofZ (Z.of_nat i)) (nofZ (Z.of_nat N)))).
Proof.
  unfold t_range. destruct N as [|N]; [discriminate|]. intros E H. apply ok_inj in E. subst l.
  assert (Li : (i < Datatypes.S (Datatypes.S N))%nat).
  { match type of H with nth_error ?m _ = _ => assert (A : nth_error m i <> None) by (rewrite H; discriminate) end.
    apply nth_error_Some in A. rewrite map_length, seq_length in A. exact A. }
  split; [lia|]. split; [rewrite map_length, seq_length; reflexivity|]. split; [lia|].
  rewrite nth_error_map in H. rewrite (nth_error_nth' _ 0%nat) in H by (rewrite seq_length; exact Li). rewrite seq_nth in H by exact Li. cbn [option_map] in H. injection H as <-. reflexivity.
Qed.
Lemma near_pi {TF : NumTrig float} k : accurate_trig k TF -> near 1 PI npi PI.
Proof.
  intros [[_ B] _]. pose proof PI_RGT_0. split; [rewrite Rabs_right; lra|]. intros _. cbn [pow]. replace ((1 + eps) * 1 - 1) with eps by ring. exact B.
Qed.
Lemma tiny_small : tiny <= / 100000.
Proof. pose proof tiny_le. assert (/ 2 ^ 60 <= / 100000) by (apply Rinv_le_contravar; [lra|]; cbv [pow]; lra). lra. Qed.
Lemma near_radians {TF : NumTrig float} k (d : float) : accurate_trig k TF -> near 3 (Rabs (val d) / 40 + tiny) (radians d) (radians (val d)).
Proof.
  intros Acc. pose proof (near_pi k Acc) as N. pose proof tiny_pos. pose proof tiny_small. pose proof PI_4. pose proof PI_RGT_0. pose proof (Rabs_pos (val d)) as D0.
  unfold radians. ops. cbn [npi TrigR]. destruct (const_ok 180) as [F180 E180]; [vm_compute; discriminate|].
  pose proof (near_div _ _ _ (float_ofZ 180) _ F180 ltac:(rewrite E180; lra) N) as D. rewrite E180 in D. rewrite (Rabs_right 180) in D by lra.
  pose proof (near_mul _ _ _ _ _ _ _ _ (near_leaf d) D) as M'. eapply near_weaken; [| |exact M']; [lia|].
  assert (Rabs (val d) * (PI / 180 + tiny) <= Rabs (val d) * / 40) by (apply Rmult_le_compat_l; lra). lra.
Qed.

(* an arc: the angles are those used after the direction is taken into account *)
Theorem C79_arc {TF : NumTrig float} {FF : NumFloor float} (k : nat) (r sa ea : float) (c : pt float) (steps : Z) (d : direction) l :
  accurate_trig k TF -> INR k * eps <= 1 -> arc r sa ea c steps d = Ok l ->
  Forall (on_circle k r c) l /\
  let '(sa', ea') := arc_angles sa ea d in let n := Z.of_nat (List.length l - 1) in
  forall i q, (n <= max_whole)%Z -> nth_error l i = Some q -> finite (fst q) -> finite (snd q) ->
  let a := radians (val sa') + (radians (val ea') - radians (val sa')) * (INR i / IZR n) in
  norm (val (fst q) - (val r * cos a + val (px c))) (val (snd q) - (val r * sin a + val (py c))) <=
    eps * ((2 * (INR k + 5) + Rabs (val sa') + Rabs (val ea') + 1) * Rabs (val r) + Rabs (val (px c)) + Rabs (val (py c)) + 6 * tiny).
Proof.
  intros Acc Hk. unfold arc. destruct (arc_angles sa ea d) as [sa' ea'].
  set (N := Z.to_nat _). destruct (t_range N (radians sa') (radians ea')) as [ts|] eqn:E; [|discriminate]. cbn [bind]. intros Hl. apply ok_inj in Hl. subst l.
  split; [apply Forall_map, Forall_forall; intros t _; ops; apply at_radius; assumption|].
  intros i q Hn Hq. rewrite nth_error_map in Hq. destruct (nth_error ts i) as [t|] eqn:Et; [|discriminate]. apply some_inj in Hq. subst q. cbn [fst snd]. ops. intros Fx Fy.
  destruct (t_range_nth _ _ _ _ _ _ E Et) as (N0 & Ln & Hi & Vt). rewrite map_length, Ln in *. replace (Datatypes.S N - 1)%nat with N in * by lia.
  destruct (on_arc k r (px c) (py c) t (radians (val sa') + (radians (val ea') - radians (val sa')) * (INR i / IZR (Z.of_nat N))) Acc Hk Fx Fy) as [Ft A].
  eapply Rle_trans; [exact A|]. clear A. pose proof eps_pos. pose proof tiny_pos. pose proof tiny_small as Ts.
  pose proof (near_t_range _ _ _ _ _ _ _ (Z.of_nat i) (Z.of_nat N) (near_radians k sa' Acc) (near_radians k ea' Acc) ltac:(lia) ltac:(lia)) as Q.
  rewrite <- INR_IZR_INZ in Q. ops_in Vt. rewrite Vt in Ft. pose proof (Rabs_pos (val sa')). pose proof (Rabs_pos (val ea')).
  pose proof (near_use _ _ _ _ 8 _ Q ltac:(lia) ltac:(cbn; lra) (Rle_refl _) Ft) as U. rewrite <- Vt in U.
  set (s := Rabs (val sa')) in *. set (e := Rabs (val ea')) in *.
  assert (B : s / 40 + tiny + (e / 40 + tiny + (s / 40 + tiny)) * (1 + tiny) + tiny <= (s + e + 1) / 8).
  { assert ((e / 40 + tiny + (s / 40 + tiny)) * (1 + tiny) <= (e / 40 + tiny + (s / 40 + tiny)) * 2) by (apply Rmult_le_compat_l; lra). lra. }
  assert (U' : Rabs (val t - (radians (val sa') + (radians (val ea') - radians (val sa')) * (INR i / IZR (Z.of_nat N)))) <= eps * (s + e + 1)).
  { eapply Rle_trans; [exact U|]. replace (eps * (s + e + 1)) with (8 * eps * ((s + e + 1) / 8)) by field. apply Rmult_le_compat_l; lra. }
  pose proof (Rmult_le_compat_l _ _ _ (Rabs_pos (val r)) U') as W. lra.
Qed.
(* circle: 361 points, at whole degrees *)
Theorem C79_circle {TF : NumTrig float} (k : nat) (r : float) (c : pt float) l :
  accurate_trig k TF -> INR k * eps <= 1 -> circle r c = Ok l ->
  List.length l = 361%nat /\ Forall (on_circle k r c) l /\
  forall i q, nth_error l i = Some q -> finite (fst q) -> finite (snd q) ->
  let a := radians (INR i) in
  norm (val (fst q) - (val r * cos a + val (px c))) (val (snd q) - (val r * sin a + val (py c))) <=
    eps * (2 * (INR k + 40) * Rabs (val r) + Rabs (val (px c)) + Rabs (val (py c)) + 6 * tiny).
Proof.
  intros Acc Hk. unfold circle. set (N := 360%nat). destruct (t_range N _ _) as [ts|] eqn:E; [|discriminate]. cbn [bind]. intros Hl. apply ok_inj in Hl. subst l.
  assert (Ln : List.length ts = 361%nat) by (unfold t_range, N in E; apply ok_inj in E; subst ts; rewrite map_length, seq_length; reflexivity).
  split; [rewrite map_length; exact Ln|]. split; [apply Forall_map, Forall_forall; intros t _; ops; apply at_radius; assumption|].
  intros i q Hq. rewrite nth_error_map in Hq. destruct (nth_error ts i) as [t|] eqn:Et; [|discriminate]. apply some_inj in Hq. subst q. cbn [fst snd]. ops. intros Fx Fy.
  destruct (t_range_nth _ _ _ _ _ _ E Et) as (N0 & _ & Hi & Vt). set (a := radians (INR i)) in *.
  assert (Va : a = 0 + (2 * PI - 0) * (IZR (Z.of_nat i) / IZR (Z.of_nat N))).
  { unfold a, N, radians. cbn [npi TrigR]. ops. replace (Z.of_nat 360) with 360%Z by reflexivity. rewrite INR_IZR_INZ. field. }
  destruct (on_arc k r (px c) (py c) t a Acc Hk Fx Fy) as [Ft A].
  eapply Rle_trans; [exact A|]. clear A. pose proof eps_pos. pose proof tiny_pos. pose proof tiny_small as Ts. pose proof PI_4. pose proof PI_RGT_0.
  assert (Z0 : near 2 0 (float_ofZ 0) 0) by (eapply near_weaken; [| |exact (near_const 0 ltac:(vm_compute; discriminate))]; [lia|cbn; lra]).
  assert (Z1 : near 2 (2 * PI + tiny) (float_ofZ 2 * npi)%float (2 * PI)).
  { eapply near_weaken; [| |exact (near_mul _ _ _ _ _ _ _ _ (near_const 2 ltac:(vm_compute; discriminate)) (near_pi k Acc))]; [lia|cbn; lra]. }
  pose proof (near_t_range _ _ _ _ _ _ _ (Z.of_nat i) (Z.of_nat N) Z0 Z1 ltac:(lia) ltac:(unfold N, max_whole; lia)) as Q.
  rewrite <- Va in Q. ops_in Vt. rewrite Vt in Ft.
  pose proof (near_use _ _ _ _ 7 9 Q ltac:(lia) ltac:(cbn; lra)) as U.
  assert (B : 0 + (2 * PI + tiny + 0) * (1 + tiny) + tiny <= 9).
  { assert ((2 * PI + tiny + 0) * (1 + tiny) <= 17 / 2 * (1 + / 100000)) by (apply Rmult_le_compat; lra). lra. }
  specialize (U B Ft). rewrite <- Vt in U. pose proof (Rmult_le_compat_l _ _ _ (Rabs_pos (val r)) U) as W.
  pose proof (Rmult_le_pos _ _ (Rlt_le _ _ eps_pos) (Rabs_pos (val r))). lra.
Qed.

(* ---------------- no overflow ---------------- *)

Lemma t_fin (lo hi : float) (i n : Z) : finite lo -> finite hi -> Rabs (val lo) <= 2 ^ 60 -> Rabs (val hi) <= 2 ^ 60 -> (0 <= i <= n)%Z -> (0 < n <= max_whole)%Z ->
  finite (lo + (hi - lo) * (float_ofZ i / float_ofZ n))%float.
Proof.
  intros Fl Fh Bl Bh Hi Hn. assert (P60 : 1 <= 2 ^ 60) by (apply pow_R1_Rle; lra).
  assert (P100 : 1000000 * 2 ^ 60 <= 2 ^ 100) by (replace 100%nat with (40 + 60)%nat by lia; rewrite pow_add; apply Rmult_le_compat_r; [lra|]; cbn [pow]; lra).
  destruct (const_ok n) as [Fn En]; [change (2 ^ 53)%Z with max_whole; lia|]. destruct (const_ok i) as [Fi Ei]; [change (2 ^ 53)%Z with max_whole; lia|].
  assert (N0 : 0 < IZR n) by (apply IZR_lt; lia). assert (I0 : 0 <= IZR i <= IZR n) by (split; apply IZR_le; lia).
  assert (Q : Rabs (IZR i / IZR n) <= 1).
  { rewrite Rabs_right by (apply Rle_ge, Rmult_le_pos; [lra|apply Rlt_le, Rinv_0_lt_compat; lra]).
    apply Rmult_le_reg_r with (IZR n); [lra|]. unfold Rdiv. rewrite Rmult_assoc, Rinv_l by lra. lra. }
  assert (F1 : finite (float_ofZ i / float_ofZ n)%float) by (apply div_fin; [exact Fi|rewrite En; lra|rewrite Ei, En; apply rnd_small; lra]).
  assert (B1 : Rabs (val (float_ofZ i / float_ofZ n)%float) <= 2).
  { destruct (div_ok _ _ Fn ltac:(rewrite En; lra) F1) as [_ ->]. rewrite Ei, En. replace 2 with (2 * 1) by ring. apply rnd_twice; lra. }
  assert (L2 : Rabs (val hi - val lo) <= 2 * 2 ^ 60) by (unfold Rminus; eapply Rle_trans; [apply Rabs_triang|]; rewrite Rabs_Ropp; lra).
  assert (F2 : finite (hi - lo)%float) by (apply sub_fin; auto; apply rnd_small; lra).
  assert (B2 : Rabs (val (hi - lo)%float) <= 4 * 2 ^ 60).
  { destruct (sub_ok _ _ F2) as (_ & _ & ->). replace (4 * 2 ^ 60) with (2 * (2 * 2 ^ 60)) by ring. apply rnd_twice; lra. }
  assert (L3 : Rabs (val (hi - lo)%float * val (float_ofZ i / float_ofZ n)%float) <= 8 * 2 ^ 60).
  { rewrite Rabs_mult. replace (8 * 2 ^ 60) with (4 * 2 ^ 60 * 2) by ring. apply Rmult_le_compat; auto using Rabs_pos. }
  assert (F3 : finite ((hi - lo) * (float_ofZ i / float_ofZ n))%float) by (apply mul_fin; auto; apply rnd_small; lra).
  assert (B3 : Rabs (val ((hi - lo) * (float_ofZ i / float_ofZ n))%float) <= 16 * 2 ^ 60).
  { destruct (mul_ok _ _ F3) as (_ & _ & ->). replace (16 * 2 ^ 60) with (2 * (8 * 2 ^ 60)) by ring. apply rnd_twice; lra. }
  apply add_fin; auto. apply rnd_small. eapply Rle_trans; [apply Rabs_triang|]. lra.
Qed.
Lemma arc_point_fin {TF : NumTrig float} k (r cx cy t : float) : accurate_trig k TF -> (forall x, finite x -> finite (nsin x) /\ finite (ncos x)) -> INR k * eps <= 1 ->
  finite r -> finite cx -> finite cy -> Rabs (val r) <= 2 ^ 60 -> Rabs (val cx) <= 2 ^ 60 -> Rabs (val cy) <= 2 ^ 60 -> finite t ->
  finite (r * ncos t + cx)%float /\ finite (r * nsin t + cy)%float.
Proof.
  intros [_ Acc] Tot Hk Fr Fx Fy Br Bx By Ft. destruct (Tot t Ft) as [Fs Fc]. destruct (Acc t) as [As Ac]. destruct (As Fs) as [_ Es]. destruct (Ac Fc) as [_ Ec].
  assert (P60 : 1 <= 2 ^ 60) by (apply pow_R1_Rle; lra).
  assert (P100 : 1000000 * 2 ^ 60 <= 2 ^ 100) by (replace 100%nat with (40 + 60)%nat by lia; rewrite pow_add; apply Rmult_le_compat_r; [lra|]; cbn [pow]; lra).
  assert (G : forall u c, finite u -> finite c -> Rabs (val u) <= 2 -> Rabs (val c) <= 2 ^ 60 -> finite (r * u + c)%float).
  { intros u c Fu Fc' Bu Bc. assert (L : Rabs (val r * val u) <= 2 * 2 ^ 60) by (rewrite Rabs_mult, Rmult_comm; apply Rmult_le_compat; auto using Rabs_pos).
    assert (F : finite (r * u)%float) by (apply mul_fin; auto; apply rnd_small; lra).
    assert (B : Rabs (val (r * u)%float) <= 2 * (2 * 2 ^ 60)) by (destruct (mul_ok _ _ F) as (_ & _ & ->); apply rnd_twice; lra).
    apply add_fin; auto. apply rnd_small. eapply Rle_trans; [apply Rabs_triang|]. lra. }
  split; apply G; auto.
  - replace (val (ncos t)) with ((val (ncos t) - cos (val t)) + cos (val t)) by ring. eapply Rle_trans; [apply Rabs_triang|].
    assert (Rabs (cos (val t)) <= 1) by (apply Rabs_le; pose proof (COS_bound (val t)); lra). lra.
  - replace (val (nsin t)) with ((val (nsin t) - sin (val t)) + sin (val t)) by ring. eapply Rle_trans; [apply Rabs_triang|].
    assert (Rabs (sin (val t)) <= 1) by (apply Rabs_le; pose proof (SIN_bound (val t)); lra). lra.
Qed.
Definition finite_pair (q : float * float) : Prop := finite (fst q) /\ finite (snd q).
Theorem C79_circle_finite {TF : NumTrig float} (k : nat) (r : float) (c : pt float) :
  accurate_trig k TF -> (forall x, finite x -> finite (nsin x) /\ finite (ncos x)) -> INR k * eps <= 1 ->
  finite r -> finite (px c) -> finite (py c) -> Rabs (val r) <= 2 ^ 60 -> Rabs (val (px c)) <= 2 ^ 60 -> Rabs (val (py c)) <= 2 ^ 60 ->
  exists l, circle r c = Ok l /\ Forall finite_pair l.
Proof.
  intros Acc Tot Hk Fr Fx Fy Br Bx By. eexists. split; [reflexivity|]. apply Forall_map, Forall_forall. intros t Ht. ops.
  apply in_map_iff in Ht. destruct Ht as (i & <- & Hi). apply in_seq in Hi. ops. apply (arc_point_fin k); auto.
  pose proof (proj1 Acc) as [Fp Ep]. pose proof PI_4. pose proof PI_RGT_0. pose proof eps_pos. pose proof eps_num as En. assert (E1 : eps <= 1) by (rewrite En; lra).
  destruct (const_ok 2) as [F2 V2]; [vm_compute; discriminate|]. destruct (const_ok 0) as [F0 V0]; [vm_compute; discriminate|].
  assert (Bp : Rabs (val npi) <= 8).
  { replace (val npi) with ((val npi - PI) + PI) by ring. eapply Rle_trans; [apply Rabs_triang|]. rewrite (Rabs_right PI) by lra.
    assert (eps * PI <= 1 * PI) by (apply Rmult_le_compat_r; lra). lra. }
  assert (P60 : 100 <= 2 ^ 60) by (cbn [pow]; lra). assert (P100 : 2 ^ 60 <= 2 ^ 100) by (apply Rle_pow; [lra|lia]).
  assert (L : Rabs (val (float_ofZ 2) * val npi) <= 16) by (rewrite V2, Rabs_mult, (Rabs_right 2) by lra; lra).
  assert (F : finite (float_ofZ 2 * npi)%float) by (apply mul_fin; auto; apply rnd_small; lra).
  apply t_fin; auto.
  - rewrite V0, Rabs_R0. lra.
  - destruct (mul_ok _ _ F) as (_ & _ & ->). apply Rle_trans with (2 * 16); [apply rnd_twice; lra|lra].
  - lia.
  - unfold max_whole; lia.
Qed.
Example C79_example_circle : exists l, @circle float NumFloat BestTrig 5%float (P 1%float 2%float) = Ok l /\ Forall finite_pair l /\
  Forall (fun q => Rabs (norm (val (fst q) - 1) (val (snd q) - 2) - 5) <= / 2 ^ 46) l.
Proof.
  assert (V : forall z, (Z.abs z <= 2 ^ 53)%Z -> val (float_ofZ z) = IZR z) by (intros z Hz; apply const_ok; exact Hz).
  pose proof (V 1%Z ltac:(vm_compute; discriminate)) as V1. pose proof (V 2%Z ltac:(vm_compute; discriminate)) as V2. pose proof (V 5%Z ltac:(vm_compute; discriminate)) as V5.
  change (float_ofZ 1) with 1%float in V1. change (float_ofZ 2) with 2%float in V2. change (float_ofZ 5) with 5%float in V5.
  pose proof eps_num as En. pose proof eps_pos. pose proof tiny_pos. pose proof tiny_small.
  assert (P60 : 100 <= 2 ^ 60) by (cbn [pow]; lra). assert (Hk : INR 2 * eps <= 1) by (cbn [INR]; rewrite En; lra).
  destruct (@C79_circle_finite BestTrig 2 5%float (P 1%float 2%float)) as (l & E & Fl);
    [exact C79_best_trig|exact C79_best_trig_total|exact Hk|reflexivity|reflexivity|reflexivity
    |rewrite V5, Rabs_right; lra|cbn [px]; rewrite V1, Rabs_right; lra|cbn [py]; rewrite V2, Rabs_right; lra|].
  exists l. split; [exact E|]. split; [exact Fl|].
  destruct (C79_circle 2 _ _ l C79_best_trig Hk E) as (_ & A & _). rewrite Forall_forall in *. intros q Hq. specialize (A q Hq). destruct (Fl q Hq) as [F1 F2].
  specialize (A F1 F2). cbn [px py] in A. rewrite V1, V2, V5, !(Rabs_right 5), !(Rabs_right 1), !(Rabs_right 2) in A by lra.
  eapply Rle_trans; [exact A|]. cbn [INR]. apply Rle_trans with (eps * 80); [apply Rmult_le_compat_l; lra|]. rewrite En. cbn [pow]. lra.
Qed.
Theorem C79_rigid_points_finite {TF : NumTrig float} (k : nat) (m : R) (calls : list (top float)) (p : pt float) :
  accurate_trig k TF -> (forall x, finite x -> finite (nsin x) /\ finite (ncos x)) ->
  0 <= m <= 2 ^ 40 -> (INR k + 1 + m / 10) * eps <= / 8 -> Forall (rigid m) calls -> Forall finite_args calls ->
  INR (List.length calls) * per_call k m <= / 2 -> way calls <= 2 ^ 40 ->
  finite (px p) -> finite (py p) -> Rabs (val (px p)) <= 2 ^ 40 -> Rabs (val (py p)) <= 2 ^ 40 ->
  let q := t_transform (trun calls t_new) p in finite (px q) /\ finite (py q).
Proof.
  intros Acc Tot Hm Kb Hr Hf Hn Hw Fx Fy Bx By.
  pose proof (fun i j => C79_rotations_finite k m calls i j Acc Tot Hm Kb Hr Hf Hn Hw) as Fin.
  pose proof eps_pos. pose proof eps_num as En. pose proof tiny_pos. pose proof (pos_INR k). pose proof (pos_INR (List.length calls)) as Np. pose proof (way_pos calls) as Wp.
  assert (Ha : 16 * eps <= per_call k m) by (unfold per_call; apply Rmult_le_compat_r; lra).
  assert (Nb : 2 * INR (List.length calls) * tiny <= 1).
  { assert (INR (List.length calls) * (16 * eps) <= / 2) by (eapply Rle_trans; [|exact Hn]; apply Rmult_le_compat_l; lra).
    assert (Et : tiny <= eps) by (rewrite En; eapply Rle_trans; [exact tiny_le|]; apply Rinv_le_contravar; [lra|]; cbn [pow]; lra).
    assert (INR (List.length calls) * tiny <= INR (List.length calls) * eps) by (apply Rmult_le_compat_l; lra). lra. }
  assert (P40 : 1000 <= 2 ^ 40) by (cbn [pow]; lra).
  assert (C : forall j, Rabs (val (entry 0 j (tmat (trun calls t_new)))) <= 2 * (2 ^ 40 + 2) /\ Rabs (val (entry 1 j (tmat (trun calls t_new)))) <= 2 * (2 ^ 40 + 2)).
  { intros j. destruct (rigid_col k m j calls Acc ltac:(lra) Kb Hr) as (A & _ & E). specialize (E (Fin 0%nat j) (Fin 1%nat j)).
    assert (Uz : 0 <= unitz j <= 1) by (destruct j as [|[|j]]; cbn; lra).
    assert (Uw : 0 <= unitz j * way calls <= 1 * 2 ^ 40) by (split; [apply Rmult_le_pos; lra|apply Rmult_le_compat; lra]).
    assert (U0 : 0 <= 2 * INR (List.length calls) * tiny) by (apply Rmult_le_pos; lra).
    pose proof (growth_rate (List.length calls) (per_call k m) ltac:(lra) Hn) as G.
    set (S := 1 - unitz j + _ + _) in *. set (g := (1 + per_call k m) ^ List.length calls - 1) in *.
    assert (S0 : 0 <= S <= 2 ^ 40 + 2) by (unfold S; lra). assert (g * S <= 1 * S) by (apply Rmult_le_compat_r; lra).
    set (x := val (entry 0 j (tmat (trun calls t_new)))) in *. set (y := val (entry 1 j (tmat (trun calls t_new)))) in *.
    set (X := entry 0 j _) in A, E. set (Y := entry 1 j _) in A, E.
    pose proof (norm_triangle X Y (x - X) (y - Y)) as T1. replace (X + (x - X)) with x in T1 by ring. replace (Y + (y - Y)) with y in T1 by ring.
    destruct (norm_ge x y). split; lra. }
  destruct (const_ok 1) as [F1 E1]; [vm_compute; discriminate|].
  assert (B1 : Rabs (val (float_ofZ 1)) <= 2 ^ 40) by (rewrite E1, Rabs_R1; lra).
  assert (AB : 10 * (2 * (2 ^ 40 + 2) * 2 ^ 40) <= 2 ^ 100).
  { replace 100%nat with (40 + 60)%nat by lia. rewrite pow_add. replace (10 * (2 * (2 ^ 40 + 2) * 2 ^ 40)) with (2 ^ 40 * (20 * (2 ^ 40 + 2))) by ring.
    apply Rmult_le_compat_l; [lra|]. replace 60%nat with (40 + 20)%nat by lia. rewrite pow_add. assert (1000 <= 2 ^ 20) by (cbn [pow]; lra). nra. }
  unfold t_transform, mat_apply. cbn [px py]. ops.
  split; apply (dot3_fin _ _ _ _ _ _ (2 * (2 ^ 40 + 2)) (2 ^ 40)); auto; try lra;
    first [apply (C 0%nat)|apply (C 1%nat)|apply (C 2%nat)|apply (Fin 0%nat 0%nat)|apply (Fin 0%nat 1%nat)|apply (Fin 0%nat 2%nat)|apply (Fin 1%nat 0%nat)|apply (Fin 1%nat 1%nat)|apply (Fin 1%nat 2%nat)].
Qed.
(* a hundred thousand moves and turns of two points *)
Definition round_trip : list (top float) := [OTranslate (-3)%float 4%float; ORotate 45%float; OTransform (P 1%float 2%float); ORotateCcw 44%float; OTranslate 3%float (-4)%float].
Fixpoint walk (n : nat) : list (top float) := match n with O => [] | S n => round_trip ++ walk n end.
Lemma walk_ok n : Forall (rigid 45) (walk n) /\ Forall finite_args (walk n) /\ way (walk n) = 14 * INR n /\ INR (List.length (walk n)) = 5 * INR n.
Proof.
  assert (V : forall z, (Z.abs z <= 2 ^ 53)%Z -> val (float_ofZ z) = IZR z) by (intros z Hz; apply const_ok; exact Hz).
  assert (VV : val (-3)%float = -3 /\ val 4%float = 4 /\ val 45%float = 45 /\ val 44%float = 44 /\ val 3%float = 3 /\ val (-4)%float = -4).
  { repeat split; [apply (V (-3)%Z)|apply (V 4%Z)|apply (V 45%Z)|apply (V 44%Z)|apply (V 3%Z)|apply (V (-4)%Z)]; vm_compute; discriminate. }
  destruct VV as (W1 & W2 & W3 & W4 & W5 & W6).
  induction n as [|n (A & B & C & D)]; [cbn; repeat split; auto; lra|]. cbn [walk]. split; [|split; [|split]].
  - apply Forall_app. split; [|exact A]. repeat constructor; cbn [rigid]; rewrite ?W3, ?W4, Rabs_right; lra.
  - apply Forall_app. split; [|exact B]. repeat constructor.
  - rewrite way_app, C, S_INR. unfold round_trip. cbn [way]. rewrite W1, W2, W5, W6, !(Rabs_right 3), !(Rabs_right 4), !Rabs_left by lra. lra.
  - rewrite app_length, plus_INR, D, S_INR. unfold round_trip. cbn [List.length INR]. lra.
Qed.
Example C79_example_walk : let t := @trun float NumFloat BestTrig (walk (100 * 200)) t_new in
  let q1 := t_transform t (P 1%float 2%float) in let q2 := t_transform t (P 4%float 6%float) in
  finite (px q1) /\ finite (py q1) /\ finite (px q2) /\ finite (py q2) /\
  Rabs (gap (valp q1) (valp q2) - 5) <= / 2 ^ 11.
Proof.
  assert (V : forall z, (Z.abs z <= 2 ^ 53)%Z -> val (float_ofZ z) = IZR z) by (intros z Hz; apply const_ok; exact Hz).
  assert (VV : val 1%float = 1 /\ val 2%float = 2 /\ val 4%float = 4 /\ val 6%float = 6).
  { repeat split; [apply (V 1%Z)|apply (V 2%Z)|apply (V 4%Z)|apply (V 6%Z)]; vm_compute; discriminate. }
  destruct VV as (W1 & W2 & W4 & W6). destruct (walk_ok (100 * 200)) as (A & B & C & D). revert A B C D. generalize (walk (100 * 200)). intros calls A B C D.
  assert (N : INR (100 * 200) = 20000) by (rewrite mult_INR, !INR_IZR_INZ; replace (Z.of_nat 100) with 100%Z by reflexivity; replace (Z.of_nat 200) with 200%Z by reflexivity; lra).
  rewrite N in C, D. pose proof eps_num as En. pose proof eps_pos. pose proof tiny_pos. pose proof tiny_small.
  assert (T : tiny <= / 2 ^ 60) by exact tiny_le.
  assert (Pc : per_call 2 45 = 29 * eps) by (unfold per_call; cbn [INR]; field).
  assert (Kb : (INR 2 + 1 + 45 / 10) * eps <= / 8) by (cbn [INR]; rewrite En; lra).
  assert (Hn : INR (List.length calls) * per_call 2 45 <= / 2) by (rewrite D, Pc, En; lra).
  assert (P40 : 10000000 <= 2 ^ 40) by (cbn [pow]; lra).
  destruct (@C79_rigid_points_finite BestTrig 2 45 calls (P 1%float 2%float)) as [F1 F2];
    [exact C79_best_trig|exact C79_best_trig_total|lra|exact Kb|exact A|exact B|exact Hn|rewrite C; lra|reflexivity|reflexivity|cbn [px]; rewrite W1, Rabs_right; lra|cbn [py]; rewrite W2, Rabs_right; lra|].
  destruct (@C79_rigid_points_finite BestTrig 2 45 calls (P 4%float 6%float)) as [F3 F4];
    [exact C79_best_trig|exact C79_best_trig_total|lra|exact Kb|exact A|exact B|exact Hn|rewrite C; lra|reflexivity|reflexivity|cbn [px]; rewrite W4, Rabs_right; lra|cbn [py]; rewrite W6, Rabs_right; lra|].
  intros t q1 q2. repeat (split; [assumption|]).
  pose proof (@C79_rigid_distances BestTrig 2 45 calls (P 1%float 2%float) (P 4%float 6%float) C79_best_trig ltac:(lra) Kb A Hn F1 F2 F3 F4) as G.
  cbv zeta in G. fold t q1 q2 in G.
  assert (G5 : gap (valp (P 1%float 2%float)) (valp (P 4%float 6%float)) = 5).
  { unfold gap. cbn [valp px py]. rewrite W1, W2, W4, W6. unfold norm. replace ((1 - 4) * (1 - 4) + (2 - 6) * (2 - 6)) with (5 * 5) by ring. apply sqrt_square. lra. }
  rewrite G5 in G. eapply Rle_trans; [exact G|]. unfold reach. rewrite D, C, Pc. cbn [px py]. rewrite W1, W2, W4, W6, !Rabs_right by lra.
  apply Rle_trans with ((2 * (5 * 20000) * (29 * eps) + 16 * eps) * 600000); [|rewrite En; cbn [pow]; lra].
  apply Rmult_le_compat_l; [lra|]. cbn [pow] in T. lra.
Qed.
