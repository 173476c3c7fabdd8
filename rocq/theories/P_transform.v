(* Property theorems C01-C08: transforms, over exact numbers. *)
Require Import Verif.Base Verif.NumR Verif.L_real.
Require Import Verif.M_vector Verif.M_bbox Verif.S_bbox Verif.L_bbox Verif.L_bboxR.
Require Import Verif.M_transform Verif.S_transform Verif.L_transform Verif.L_transform2.
Require Import Verif.M_theap Verif.L_theap.
From Coq Require Import List Lra Psatz.
Import ListNotations.

(* ---------------------------------------------------------------- *)
(** ** C01 untransform undoes transform *)

(* [invertible] is what a caller would call invertible: no two points have the same image *)
Theorem C01_invertible_is_injective (s : transform R) :
  invertible (tmat s) <-> (forall p q, t_transform s p = t_transform s q -> p = q).
Proof.
  unfold t_transform. split.
  - intros I p q E. rewrite !apply_lin in E. unfold lin, invertible in *.
    inversion E as [[E1 E2]]. clear E.
    set (a := m00 (tmat s)) in *. set (b := m01 (tmat s)) in *.
    set (d := m10 (tmat s)) in *. set (e := m11 (tmat s)) in *.
    pose proof (f_equal (fun v => e * v) E1) as F1. pose proof (f_equal (fun v => b * v) E2) as F2.
    pose proof (f_equal (fun v => d * v) E1) as F3. pose proof (f_equal (fun v => a * v) E2) as F4.
    cbv beta in *. apply pt_ext; apply (Rmult_eq_reg_l (a * e - b * d)); auto; lra.
  - intros I E. 
    set (m := tmat s) in *.
    (* the kernel contains (m01, -m00) and (m11, -m10) *)
    assert (K1 : P (m01 m) (- m00 m) = P 0 0).
    { apply I. rewrite !apply_lin. unfold lin. cbn [px py]. f_equal; lra. }
    assert (K2 : P (m11 m) (- m10 m) = P 0 0).
    { apply I. rewrite !apply_lin. unfold lin. cbn [px py]. f_equal; lra. }
    inversion K1 as [[A B]]. inversion K2 as [[C D]].
    assert (K3 : P 1 0 = P 0 0).
    { apply I. rewrite !apply_lin. unfold lin. cbn [px py]. f_equal; nra. }
    inversion K3. lra.
Qed.

Lemma fresh_no_stale ops : forall s c, (c = false -> tinv s = None) ->
  fresh_rotate_about ops c -> no_stale ops s.
Proof.
  induction ops as [|o ops IH]; intros s c H N; cbn; auto.
  destruct N as [N1 N2]. split.
  - destruct o; auto.
  - apply IH with (maybe_cached o c); auto. intros E. destruct o; cbn in E |- *; auto; try discriminate.
    + unfold t_scale_bbox. specialize (H E). destruct keep_aspect.
      * destruct (pydiv _ _); [|auto]. destruct (pydiv _ _); [|auto].
        destruct start; [auto|]. destruct target; reflexivity.
      * destruct start; [auto|]. destruct (pydiv _ _); [|reflexivity].
        destruct (pydiv _ _); [|reflexivity]. destruct target; reflexivity.
    + unfold t_pop. destruct (tstack s); cbn; auto.
Qed.

Lemma start_ok a b c d e f : affine_state (t_new6 a b c d e f) /\ cache_ok (t_new6 a b c d e f).
Proof. split; [split; [cbn; auto with aff|constructor]|exact I]. Qed.

(* After any history of calls on Transform((a,b,c,d,e,f)). *)
Theorem C01_untransform_undoes_transform (a b c d e f : R) (ops : list (top R)) :
  Forall affine_args ops -> fresh_rotate_about ops false ->
  let s := trun ops (t_new6 a b c d e f) in
  (invertible (tmat s) -> forall p,
     (exists s', t_untransform s (t_transform s p) = (s', Ok p) /\ tmat s' = tmat s /\ tstack s' = tstack s) /\
     (exists s' q, t_untransform s p = (s', Ok q) /\ t_transform s q = p)) /\
  (~ invertible (tmat s) -> forall p, t_untransform s p = (s, Raise LinAlgError)).
Proof.
  intros FA FR s. destruct (start_ok a b c d e f) as [S1 S2].
  assert (A : affine_state s) by (apply run_affine; auto).
  assert (C : cache_ok s).
  { apply run_cache; auto. apply fresh_no_stale with false; auto. }
  split.
  - intros I p. split; [apply (proj1 (untransform_ok s p A C)); auto|].
    destruct (inv_ok (tmat s) (proj1 A) I) as (i & E & _ & L & Rr).
    unfold t_untransform, t_inverse, t_transform. unfold cache_ok in C.
    destruct (tinv s) as [j|].
    + rewrite E in C. inversion C; subst. do 2 eexists. split; [reflexivity|]. apply Rr.
    + rewrite E. do 2 eexists. split; [reflexivity|]. apply Rr.
  - intros I p. apply (proj2 (untransform_ok s p A C)); auto.
Qed.

(* A history without rotate_about needs no condition. *)
Theorem C01_without_rotate_about (a b c d e f : R) (ops : list (top R)) :
  Forall affine_args ops -> (forall ang ctr, ~ In (ORotateAbout ang ctr) ops) ->
  let s := trun ops (t_new6 a b c d e f) in
  invertible (tmat s) -> forall p, exists s', t_untransform s (t_transform s p) = (s', Ok p).
Proof.
  intros FA NR s I p.
  assert (FR : forall l b, (forall ang ctr, ~ In (ORotateAbout ang ctr) l) -> fresh_rotate_about l b).
  { induction l as [|o l IH]; intros c0 H; cbn; auto. split.
    - destruct o; auto. exfalso. apply (H deg c1). left; auto.
    - apply IH. intros ang ctr Hin. apply (H ang ctr). right; auto. }
  destruct (C01_untransform_undoes_transform a b c d e f ops FA (FR ops false NR)) as [H _].
  destruct (H I p) as [(s' & E & _) _]. exists s'. exact E.
Qed.

(* What happens otherwise: with an inverse cached, rotate_about leaves untransform using
   the old matrix, so it undoes transform only at points the rotation did not move. *)
Theorem C01_stale_inverse (s : transform R) (ang : R) (c q0 : pt R) :
  affine_state s -> cache_ok s -> invertible (tmat s) ->
  let s1 := fst (t_untransform s q0) in
  let s2 := t_rotate_about ang c s1 in
  forall p, exists r, t_untransform s2 (t_transform s2 p) = (s2, Ok r) /\
    t_transform s r = t_transform s2 p /\
    (r = p <-> t_transform s2 p = t_transform s p).
Proof.
  intros A C I s1 s2 p.
  destruct (inv_ok (tmat s) (proj1 A) I) as (i & E & _ & L & Rr).
  assert (Hs1 : tinv s1 = Some i /\ tmat s1 = tmat s).
  { unfold s1, t_untransform, t_inverse. unfold cache_ok in C. destruct (tinv s) as [j|] eqn:Ej.
    - rewrite E in C. inversion C; subst. auto.
    - rewrite E. auto. }
  exists (mat_apply i (t_transform s2 p)).
  assert (H : t_transform s (mat_apply i (t_transform s2 p)) = t_transform s2 p) by apply Rr.
  split; [|split; auto].
  - unfold t_untransform at 1, t_inverse. unfold s2 at 1. cbn [tinv t_rotate_about].
    rewrite (proj1 Hs1). reflexivity.
  - split.
    + intros Ep. rewrite Ep in H. congruence.
    + intros Ep. rewrite Ep. unfold t_transform. apply L.
Qed.

(* The unrestricted claim is false. *)
Theorem C01_unrestricted_refuted :
  exists (ops : list (top R)) (p : pt R), Forall affine_args ops /\
    let s := trun ops t_new in
    invertible (tmat s) /\ exists s' q, t_untransform s (t_transform s p) = (s', Ok q) /\ q <> p.
Proof.
  exists [OUntransform (P 0 0); ORotateAbout 180 (P 0 0)], (P 1 0).
  split; [repeat constructor|].
  assert (A : affine_state t_new) by (split; [cbn; auto with aff|constructor]).
  assert (I : invertible (tmat (t_new (F := R)))) by (mat_unfold; lra).
  destruct (C01_stale_inverse t_new 180 (P 0 0) (P 0 0) A Logic.I I (P 1 0)) as (r & E1 & E2 & E3).
  assert (Run : trun [OUntransform (P 0 0); ORotateAbout 180 (P 0 0)] t_new
    = t_rotate_about 180 (P 0 0) (fst (t_untransform t_new (P 0 0)))).
  { unfold trun. cbn [fold_left tstep]. destruct (t_untransform t_new (P 0 0)). reflexivity. }
  rewrite Run. clear Run.
  assert (Aff : affine_mat (tmat (fst (t_untransform (t_new (F:=R)) (P 0 0))))).
  { rewrite (proj1 (untransform_mat t_new (P 0 0))). apply A. }
  assert (T180 : forall p : pt R, turn_cw 180 p = P (- px p) (- py p)).
  { intros p. unfold turn_cw, turn_ccw. replace (- (180) * (PI / 180)) with (- PI) by field.
    rewrite cos_neg, sin_neg, cos_PI, sin_PI. apply pt_ext; cbn [px py]; ring. }
  set (s2 := t_rotate_about 180 (P 0 0) (fst (t_untransform t_new (P 0 0)))) in *.
  assert (Hm : forall p, t_transform s2 p = P (- px p) (- py p)).
  { intros p. unfold s2. rewrite rotate_about_pt by exact Aff. unfold about. rewrite T180.
    assert (Id : t_transform (fst (t_untransform (t_new (F:=R)) (P 0 0))) p = p).
    { transitivity (t_transform t_new p); [|apply new_pt]. unfold t_transform.
      rewrite (proj1 (untransform_mat t_new (P 0 0))). reflexivity. }
    cbn [px py] in *. rewrite Id. unfold shift. apply pt_ext; cbn [px py]; ring. }
  split.
  - apply C01_invertible_is_injective. intros p q E. rewrite !Hm in E. inversion E.
    apply pt_ext; lra.
  - exists s2, r. split; auto. intros Hr. apply E3 in Hr. rewrite Hm, new_pt in Hr. cbn [px py] in Hr.
    apply (f_equal px) in Hr. cbn [px] in Hr. lra.
Qed.

(* ---------------------------------------------------------------- *)
(** ** C02 push, pop and with *)

(* The matrix and the saved matrices are back after a balanced sequence of calls between
   push and pop, exceptions caught by the caller or not. *)
Theorem C02_push_pop_restores (s : transform R) (ops : list (top R)) :
  balanced ops ->
  let s' := trun (OPush :: ops ++ [OPop]) s in
  tmat s' = tmat s /\ tstack s' = tstack s /\ (forall p, t_transform s' p = t_transform s p).
Proof.
  intros B s'. destruct (balanced_restore ops s B) as [E1 E2]. split; auto. split; auto.
  intros p. unfold t_transform, s'. rewrite E1. reflexivity.
Qed.

(* With-blocks: [with t.push().chain...: body].  The matrix is restored whether the body
   ends normally or raises, and the exception of the body comes out. *)
Theorem C02_with_restores (s s1 : transform R) (chain : list (top R)) (body : stmt R) :
  Forall (fun o => o <> OPush /\ o <> OPop) chain -> structured body ->
  run_chain chain (t_push s) = (s1, Ok tt) -> chains_ok body s1 ->
  tmat (fst (exec (SWith chain body) s)) = tmat s /\
  tstack (fst (exec (SWith chain body) s)) = tstack s /\
  snd (exec (SWith chain body) s) = snd (exec body s1).
Proof. intros. apply with_restores; auto. Qed.

(* If a chained call raises, the with-statement is not entered and the push stays. *)
Theorem C02_with_chain_raises (s s1 : transform R) (e : exn) (chain : list (top R)) (body : stmt R) :
  Forall (fun o => o <> OPush /\ o <> OPop) chain ->
  run_chain chain (t_push s) = (s1, Raise e) ->
  exec (SWith chain body) s = (s1, Raise e) /\ tstack s1 = tmat s :: tstack s.
Proof. intros. apply with_chain_raises; auto. Qed.

Theorem C02_with_always_restores_refuted :
  exists (s : transform R) (chain : list (top R)) (body : stmt R),
    Forall (fun o => o <> OPush /\ o <> OPop) chain /\ structured body /\
    tstack (fst (exec (SWith chain body) s)) <> tstack s.
Proof.
  exists t_new, [OScaleBBox (BB 0 0 0 1) (BB 0 0 1 1) true], SSkip.
  split; [repeat constructor; discriminate|]. split; [exact Logic.I|].
  cbn [exec run_chain tstep]. unfold t_scale_bbox. cbn [bbox_width bbox_height].
  replace (nsub 0 0) with 0 by (cbn; lra). rewrite pydiv_R0. cbn. discriminate.
Qed.

(* pop and with on an empty stack *)
Theorem C02_empty_stack (s : transform R) :
  tstack s = [] -> t_pop s = (s, Raise EmptyStackError) /\ t_enter s = Raise EmptyStackError.
Proof. intros E. unfold t_pop, t_enter. rewrite E. auto. Qed.

(* ---------------------------------------------------------------- *)
(** ** C03 call order *)

(* [srun ops] describes the calls as point maps, applied in call order (compose first). *)
Theorem C03_call_order (s : transform R) (ops : list (top R)) (f : pt R -> pt R) st :
  affine_state s -> Forall affine_args ops ->
  srun ops (t_transform s, map mat_apply (tstack s)) = Some (f, st) ->
  forall p, t_transform (trun ops s) p = f p.
Proof.
  intros A FA E.
  assert (R0 : rel s (t_transform s, map mat_apply (tstack s))).
  { split; auto. cbn [snd]. clear E A. induction (tstack s); constructor; auto. }
  destruct (run_rel ops s _ (f, st) A FA R0 E) as [H _]. exact H.
Qed.

(* the description covers every sequence without scale_bbox (see C05 for that) *)
Theorem C03_description_total (ops : list (top R)) :
  (forall a b k, ~ In (OScaleBBox a b k) ops) -> forall sp, exists sp', srun ops sp = Some sp'.
Proof.
  induction ops as [|o ops IH]; intros H sp; cbn; eauto.
  assert (N : exists s1, sstep o sp = Some s1).
  { destruct sp as [f st]. destruct o; cbn; eauto.
    - exfalso. apply (H start target keep_aspect). left; auto.
    - destruct st; eauto. }
  destruct N as [s1 ->]. apply IH. intros a b k Hin. apply (H a b k). right; auto.
Qed.

Theorem C03_stays_affine (a b c d e f : R) (ops : list (top R)) :
  Forall affine_args ops ->
  let m := tmat (trun ops (t_new6 a b c d e f)) in m20 m = 0 /\ m21 m = 0 /\ m22 m = 1.
Proof.
  intros FA. apply (run_affine ops (t_new6 a b c d e f)); auto. apply start_ok.
Qed.

(* midpoints, and affine combinations of any number of points *)
Fixpoint combination (l : list (R * pt R)) : pt R :=
  match l with
  | [] => P 0 0
  | (w, p) :: r => let q := combination r in P (w * px p + px q) (w * py p + py q)
  end.
Fixpoint weight (l : list (R * pt R)) : R :=
  match l with [] => 0 | (w, _) :: r => w + weight r end.

Theorem C03_affine_combinations (s : transform R) (l : list (R * pt R)) :
  weight l = 1 ->
  t_transform s (combination l) = combination (map (fun wp => (fst wp, t_transform s (snd wp))) l).
Proof.
  unfold t_transform.
  assert (G : forall l, combination (map (fun wp => (fst wp, mat_apply (tmat s) (snd wp))) l) =
      P (m00 (tmat s) * px (combination l) + m01 (tmat s) * py (combination l) + m02 (tmat s) * weight l)
        (m10 (tmat s) * px (combination l) + m11 (tmat s) * py (combination l) + m12 (tmat s) * weight l)).
  { induction l0 as [|[w p] r IH]; cbn [combination map weight fst snd].
    - cbn [px py]. f_equal; ring.
    - rewrite IH. rewrite apply_lin. unfold lin. cbn [px py]. f_equal; ring. }
  intros W. rewrite G, W, apply_lin. unfold lin. f_equal; ring.
Qed.

Theorem C03_midpoint (s : transform R) (p q : pt R) :
  t_transform s (P ((px p + px q) / 2) ((py p + py q) / 2)) =
  P ((px (t_transform s p) + px (t_transform s q)) / 2) ((py (t_transform s p) + py (t_transform s q)) / 2).
Proof. unfold t_transform. rewrite !apply_lin. unfold lin. cbn [px py]. f_equal; field. Qed.

(* ---------------------------------------------------------------- *)
(** ** C04 rotations *)

Theorem C04_directions (s : transform R) (d : R) (p : pt R) : affine_state s ->
  t_transform (t_rotate_ccw d s) p = turn_ccw d (t_transform s p) /\
  t_transform (t_rotate d s) p = turn_cw d (t_transform s p).
Proof. intros [A _]. split; [apply rotate_ccw_pt|apply rotate_pt]; auto. Qed.

(* 90 degrees counter-clockwise takes the x axis to the y axis *)
Theorem C04_ccw_means_ccw (x : R) : turn_ccw 90 (P x 0) = P 0 x /\ turn_cw 90 (P x 0) = P 0 (- x).
Proof.
  unfold turn_cw, turn_ccw. replace (90 * (PI / 180)) with (PI / 2) by field.
  replace (- (90) * (PI / 180)) with (- (PI / 2)) by field.
  rewrite cos_neg, sin_neg, cos_PI2, sin_PI2. cbn [px py]. split; f_equal; ring.
Qed.

Theorem C04_undo_each_other (s : transform R) (d : R) (p : pt R) : affine_state s ->
  t_transform (t_rotate d (t_rotate_ccw d s)) p = t_transform s p /\
  t_transform (t_rotate_ccw d (t_rotate d s)) p = t_transform s p.
Proof.
  intros [A _]. split.
  - rewrite rotate_pt, rotate_ccw_pt by (cbn; auto with aff). apply turn_inv.
  - rewrite rotate_ccw_pt, rotate_pt by (cbn; auto with aff). apply turn_inv'.
Qed.

(* The docstring of rotate ("Counterclockwise in degrees") holds exactly for multiples of 180. *)
Theorem C04_rotate_docstring_iff (d : R) (p : pt R) : (px p <> 0 \/ py p <> 0) ->
  (t_transform (t_rotate d t_new) p = turn_ccw d p <-> exists k : Z, d = 180 * IZR k).
Proof.
  intros NZ. rewrite rotate_pt by (cbn; auto with aff).
  rewrite new_pt. apply turn_dir; auto.
Qed.
Theorem C04_rotate_docstring_refuted :
  exists d p, t_transform (t_rotate d t_new) p <> turn_ccw d p.
Proof.
  exists 90, (P 1 0). intros E.
  apply C04_rotate_docstring_iff in E; [|left; cbn; lra].
  destruct E as [k Hk]. assert (H : IZR (2 * k) = IZR 1) by (rewrite mult_IZR; lra).
  apply eq_IZR in H. lia.
Qed.

Theorem C04_angles_add (s : transform R) (a b : R) (p : pt R) : affine_state s ->
  t_transform (t_rotate_ccw b (t_rotate_ccw a s)) p = t_transform (t_rotate_ccw (a + b) s) p /\
  t_transform (t_rotate b (t_rotate a s)) p = t_transform (t_rotate (a + b) s) p /\
  t_transform (t_rotate 360 s) p = t_transform s p.
Proof.
  intros [A _]. rewrite !rotate_ccw_pt, !rotate_pt by (cbn; auto with aff).
  unfold turn_cw. rewrite !turn_turn. split; [f_equal; ring|]. split; [f_equal; ring|].
  unfold turn_ccw. replace (- (360) * (PI / 180)) with (- (2 * PI)) by field.
  rewrite cos_neg, sin_neg, cos_2PI, sin_2PI. apply pt_ext; cbn [px py]; ring.
Qed.

Theorem C04_distances (s : transform R) (d : R) (c p q : pt R) : affine_state s ->
  dist2 (t_transform (t_rotate d s) p) (t_transform (t_rotate d s) q) =
    dist2 (t_transform s p) (t_transform s q) /\
  dist2 (t_transform (t_rotate_ccw d s) p) (t_transform (t_rotate_ccw d s) q) =
    dist2 (t_transform s p) (t_transform s q) /\
  dist2 (t_transform (t_rotate_about d c s) p) (t_transform (t_rotate_about d c s) q) =
    dist2 (t_transform s p) (t_transform s q).
Proof.
  intros [A _]. rewrite !rotate_pt, !rotate_ccw_pt, !rotate_about_pt by auto.
  split; [apply turn_dist|]. split; [apply turn_dist|apply about_dist].
Qed.

(* rotate_about keeps the centre, and turns the other points clockwise around it *)
Theorem C04_rotate_about (d : R) (c p : pt R) :
  t_transform (t_rotate_about d c t_new) c = c /\
  t_transform (t_rotate_about d c t_new) p =
    shift (px c) (py c) (turn_cw d (P (px p - px c) (py p - py c))).
Proof.
  rewrite !rotate_about_pt by (cbn; auto with aff). rewrite !new_pt. split; [apply about_fix|]. reflexivity.
Qed.

(* ---------------------------------------------------------------- *)
(** ** C05 scale_bbox *)

(* [S] is what scale_bbox adds after the transform as it was. *)
Theorem C05_scale_bbox (s : transform R) (a b c d e f g h : R) :
  affine_state s -> a < c -> b < d -> e <= g -> f <= h ->
  exists s' S, t_scale_bbox (BB a b c d) (BB e f g h) false s = (s', Ok tt) /\
    (forall p, t_transform s' p = S (t_transform s p)) /\
    S (P a b) = P e f /\ S (P c b) = P g f /\ S (P a d) = P e h /\ S (P c d) = P g h /\
    (forall x y, in_box (BB a b c d) x y -> in_box (BB e f g h) (px (S (P x y))) (py (S (P x y)))) /\
    affine_map S.
Proof.
  intros [A _] H1 H2 H3 H4. destruct (scale_bbox_R a b c d e f g h s A H1 H2) as (s' & E & _ & _ & F).
  exists s', (fun q => P (e + (px q - a) * ((g - e) / (c - a))) (f + (py q - b) * ((h - f) / (d - b)))).
  split; auto. split; [auto|]. cbn [px py].
  split; [f_equal; field; lra|]. split; [f_equal; field; lra|]. split; [f_equal; field; lra|].
  split; [f_equal; field; lra|]. split.
  - intros x y Hin. apply in_box_R in Hin. apply in_box_R. cbn [px py].
    pose proof (lerp_in a c e g x). pose proof (lerp_in b d f h y). lra.
  - exists ((g - e) / (c - a)), 0, (e - a * ((g - e) / (c - a))), 0, ((h - f) / (d - b)), (f - b * ((h - f) / (d - b))).
    intros p. cbn [px py]. f_equal; ring.
Qed.

Theorem C05_keep_aspect (s : transform R) (a b c d e f g h : R) :
  affine_state s -> a < c -> b < d -> e <= g -> f <= h ->
  exists s' S k, t_scale_bbox (BB a b c d) (BB e f g h) true s = (s', Ok tt) /\
    (forall p, t_transform s' p = S (t_transform s p)) /\
    0 <= k /\
    (forall p q, px (S p) - px (S q) = k * (px p - px q) /\ py (S p) - py (S q) = k * (py p - py q)) /\
    S (P ((a + c) / 2) ((b + d) / 2)) = P ((e + g) / 2) ((f + h) / 2) /\
    (forall x y, in_box (BB a b c d) x y -> in_box (BB e f g h) (px (S (P x y))) (py (S (P x y)))) /\
    (k * (c - a) = g - e \/ k * (d - b) = h - f).
Proof.
  intros [A _] H1 H2 H3 H4. destruct (scale_bbox_keep_R a b c d e f g h s A H1 H2) as (s' & E & _ & _ & F).
  set (k := Rmin ((g - e) / (c - a)) ((h - f) / (d - b))) in *.
  exists s', (fun q => P ((e + g) / 2 + (px q - (a + c) / 2) * k) ((f + h) / 2 + (py q - (b + d) / 2) * k)), k.
  assert (Q1 : 0 <= (g - e) / (c - a)) by (apply Rmult_le_pos; [lra|left; apply Rinv_0_lt_compat; lra]).
  assert (Q2 : 0 <= (h - f) / (d - b)) by (apply Rmult_le_pos; [lra|left; apply Rinv_0_lt_compat; lra]).
  assert (K0 : 0 <= k) by (apply Rmin_glb; auto).
  split; auto. split; auto. split; auto. cbn [px py].
  split; [intros; split; ring|]. split; [f_equal; ring|]. split.
  - intros x y Hin. apply in_box_R in Hin. apply in_box_R. cbn [px py].
    pose proof (Rmin_l ((g - e) / (c - a)) ((h - f) / (d - b))).
    pose proof (Rmin_r ((g - e) / (c - a)) ((h - f) / (d - b))).
    pose proof (centred_in a c e g k x). pose proof (centred_in b d f h k y). fold k in H, H0. lra.
  - unfold k, Rmin. destruct (Rle_dec _ _); [left|right]; field; lra.
Qed.

(* a start box of zero width or height *)
Theorem C05_zero_size (s : transform R) (a b c d : R) (target : bbox R) :
  affine_state s -> (a = c \/ b = d) ->
  t_scale_bbox (BB a b c d) target true s = (s, Raise ZeroDivisionError) /\
  (exists s', t_scale_bbox (BB a b c d) target false s = (s', Raise ZeroDivisionError) /\
     forall p, t_transform s' p = shift (- a) (- b) (t_transform s p)).
Proof.
  intros [A _] H. unfold t_scale_bbox. cbn [bbox_width bbox_height].
  assert (Hd : forall n m : R, pydiv n m = Raise ZeroDivisionError \/ pydiv n m = Ok (n / m)).
  { intros n m. destruct (Req_dec m 0); [subst; left; apply pydiv_R0|right; apply pydiv_R; auto]. }
  assert (Hz : a = c -> forall n : R, pydiv n (nsub c a) = Raise ZeroDivisionError).
  { intros -> n. replace (nsub c c) with 0 by (cbn; lra). apply pydiv_R0. }
  assert (Hz' : b = d -> forall n : R, pydiv n (nsub d b) = Raise ZeroDivisionError).
  { intros -> n. replace (nsub d d) with 0 by (cbn; lra). apply pydiv_R0. }
  split.
  - destruct (Hd (bbox_width target) (nsub c a)) as [-> | E]; auto.
    rewrite E. destruct H as [H|H]; [rewrite Hz in E by auto; discriminate|]. rewrite Hz' by auto. reflexivity.
  - eexists. split; [|intros p; apply translate_pt; auto].
    destruct (Hd (bbox_width target) (nsub c a)) as [-> | E]; [reflexivity|].
    rewrite E. destruct H as [H|H]; [rewrite Hz in E by auto; discriminate|]. rewrite Hz' by auto. reflexivity.
Qed.

(* ---------------------------------------------------------------- *)
(** ** C06 simplify *)

Definition clean_mat (m : mat R) : Prop :=
  clean (m00 m) /\ clean (m01 m) /\ clean (m10 m) /\ clean (m11 m).

(* xlate.compose(rotate) is the transform; in the simple case the second factor is the identity,
   otherwise the first is a translation and the second keeps the origin *)
Theorem C06_simplify_product (s xl ro : transform R) :
  affine_mat (tmat s) -> clean_mat (tmat s) -> t_simplify s = (xl, ro) ->
  tmat (t_compose (tmat ro) xl) = tmat s /\
  (t_is_simple s = true -> tmat ro = mat_id) /\
  (t_is_simple s = false ->
     (forall p, t_transform xl p = shift (m02 (tmat s)) (m12 (tmat s)) p) /\
     t_transform ro (P 0 0) = P 0 0).
Proof.
  intros (A1 & A2 & A3) (C1 & C2 & C3 & C4) E. split; [|split].
  - rewrite (simplify_product s xl ro E). unfold flushed. rewrite !flush_clean by auto.
    destruct (tmat s); cbn in *; subst; reflexivity.
  - unfold t_simplify in E. intros S. rewrite S in E. inversion E. reflexivity.
  - unfold t_simplify in E. intros S. rewrite S in E. inversion E. split.
    + intros p. unfold t_transform. rewrite apply_lin. mat_unfold. f_equal; ring.
    + unfold t_transform. rewrite apply_lin. mat_unfold. f_equal; ring.
Qed.

(* without the size condition the product still agrees up to 1e-16 in each linear entry *)
Theorem C06_simplify_close (s xl ro : transform R) :
  affine_mat (tmat s) -> t_simplify s = (xl, ro) ->
  let m := tmat (t_compose (tmat ro) xl) in
  affine_mat m /\ m02 m = m02 (tmat s) /\ m12 m = m12 (tmat s) /\
  Rabs (m00 m - m00 (tmat s)) < 1 / 10 ^ 16 /\ Rabs (m01 m - m01 (tmat s)) < 1 / 10 ^ 16 /\
  Rabs (m10 m - m10 (tmat s)) < 1 / 10 ^ 16 /\ Rabs (m11 m - m11 (tmat s)) < 1 / 10 ^ 16.
Proof.
  intros A E m. unfold m. rewrite (simplify_product s xl ro E).
  unfold affine_mat, flushed. cbn [m00 m01 m02 m10 m11 m12 m20 m21 m22].
  repeat split; apply flush_near.
Qed.

Theorem C06_is_simple (s : transform R) :
  clean_mat (tmat s) -> invertible (tmat s) ->
  (t_is_simple s = true <-> keeps_axes (t_transform s)).
Proof.
  intros (C1 & C2 & C3 & C4) I. unfold t_is_simple.
  rewrite Bool.orb_true_iff, !Bool.andb_true_iff, !near_clean by auto.
  unfold keeps_axes, t_transform. split.
  - intros H p q Hpq. rewrite !apply_lin. unfold lin. cbn [px py].
    destruct H as [[H1 H2]|[H1 H2]]; rewrite H1, H2; destruct Hpq as [-> | ->]; lra.
  - intros H. unfold invertible in I.
    pose proof (H (P 0 0) (P 1 0) (or_intror eq_refl)) as H1.
    pose proof (H (P 0 0) (P 0 1) (or_introl eq_refl)) as H2.
    rewrite !apply_lin in H1, H2. unfold lin in H1, H2. cbn [px py] in H1, H2.
    assert (D1 : m00 (tmat s) = 0 \/ m10 (tmat s) = 0) by lra.
    assert (D2 : m01 (tmat s) = 0 \/ m11 (tmat s) = 0) by lra.
    destruct D1 as [D1|D1], D2 as [D2|D2]; auto; exfalso; apply I; rewrite D1, D2; ring.
Qed.

(* ---------------------------------------------------------------- *)
(** ** C07 transform_width *)

Theorem C07_width_is_mean_length (s : transform R) (w : R) :
  t_transform_width s w =
  w * ((sqrt (dist2 (t_transform s (P 1 0)) (t_transform s (P 0 0))) +
        sqrt (dist2 (t_transform s (P 0 1)) (t_transform s (P 0 0)))) / 2).
Proof. exact (width_images s w). Qed.

Theorem C07_width_linear (s : transform R) (v w k : R) :
  t_transform_width s (k * w) = k * t_transform_width s w /\
  t_transform_width s (v + w) = t_transform_width s v + t_transform_width s w /\
  (0 <= w -> 0 <= t_transform_width s w).
Proof.
  rewrite !width_images. split; [ring|]. split; [ring|]. intros Hw. 
  pose proof (sqrt_pos (dist2 (t_transform s (P 1 0)) (t_transform s (P 0 0)))).
  pose proof (sqrt_pos (dist2 (t_transform s (P 0 1)) (t_transform s (P 0 0)))).
  apply Rmult_le_pos; lra.
Qed.

Theorem C07_width_rigid (s : transform R) (w dx dy d : R) (c : pt R) : affine_state s ->
  t_transform_width (t_translate dx dy s) w = t_transform_width s w /\
  t_transform_width (t_rotate d s) w = t_transform_width s w /\
  t_transform_width (t_rotate_ccw d s) w = t_transform_width s w /\
  t_transform_width (t_rotate_about d c s) w = t_transform_width s w.
Proof.
  intros A. split; [|split; [|split]]; apply width_of_isometry; intros p q;
    try apply (C04_distances s d c p q A).
  rewrite !translate_pt by apply A. apply shift_dist.
Qed.

Theorem C07_width_uniform_scale (s : transform R) (w k : R) : affine_state s ->
  t_transform_width (t_scale k k s) w = Rabs k * t_transform_width s w.
Proof.
  intros [A _]. rewrite !width_images, !scale_pt by auto.
  assert (E : forall p q, sqrt (dist2 (stretch k k p) (stretch k k q)) = Rabs k * sqrt (dist2 p q)).
  { intros p q. replace (dist2 (stretch k k p) (stretch k k q)) with (k * k * dist2 p q)
      by (unfold dist2, stretch; cbn [px py]; ring).
    rewrite sqrt_mult_alt by nra. f_equal. rewrite <- sqrt_Rsqr_abs. reflexivity. }
  rewrite !E. field.
Qed.

(* ---------------------------------------------------------------- *)
(** ** C08 copies and lists of points *)

(* Any number type.  [h] is a store of Transform objects; [meaning h k] is what object k
   computes with.  Every store a program builds is [separated] (first theorem). *)
Theorem C08_program_stores {F} {NF : Num F} {RF : NumRoot F} {TF : NumTrig F} (cs : list (hop F)) :
  separated (hrun cs (Heap [] [])).
Proof. apply hrun_separated. apply separated_empty. Qed.

Theorem C08_copy_independent {F} {NF : Num F} {RF : NumRoot F} {TF : NumTrig F}
    (h : heap F) (i : nat) (t : transform F) (later : list (hop F)) :
  separated h -> meaning h i = Some t ->
  let dup := length (objs h) in
  let h1 := hstep h (HCopy i) in
  (* the copy has the same matrix, no cached inverse and an empty stack; the original is unchanged *)
  meaning h1 dup = Some (T (tmat t) None []) /\ meaning h1 i = Some t /\
  (* calls that are not on the copy leave the copy alone, and the same for the original *)
  ((forall c, In c later -> ~ targets c dup) -> meaning (hrun later h1) dup = Some (T (tmat t) None [])) /\
  ((forall c, In c later -> ~ targets c i) -> meaning (hrun later h1) i = Some t).
Proof.
  intros S HM dup h1. destruct (copy_spec h i t S HM) as [E1 E2].
  assert (S1 : separated h1) by (apply hstep_separated; auto).
  split; [exact E1|]. split; [exact E2|]. split; intros NT.
  - eapply hrun_frame; eauto.
  - eapply hrun_frame; eauto.
Qed.

(* calls on stored objects do what the single-object model says, and touch no other object *)
Theorem C08_calls_are_local {F} {NF : Num F} {RF : NumRoot F} {TF : NumTrig F}
    (h : heap F) (i : nat) (c : top F) (t : transform F) :
  separated h -> meaning h i = Some t ->
  meaning (hstep h (HCall i c)) i = Some (fst (tstep c t)) /\
  (forall k u, k <> i -> meaning h k = Some u -> meaning (hstep h (HCall i c)) k = Some u).
Proof.
  intros S HM. split; [eapply call_spec; eauto|].
  intros k u NE HU. apply (hstep_frame h (HCall i c) k u S); [cbn; congruence|exact HU].
Qed.
Theorem C08_compose_with_object {F} {NF : Num F} {RF : NumRoot F} {TF : NumTrig F}
    (h : heap F) (i j : nat) (t u : transform F) :
  separated h -> meaning h i = Some t -> meaning h j = Some u ->
  meaning (hstep h (HComposeT i j)) i = Some (t_compose (tmat u) t) /\
  meaning (hstep h (HComposeOuterT i j)) i = Some (t_compose_outer (tmat u) t) /\
  meaning (hstep h (HSetMatrixT i j)) i = Some (t_set_matrix t (tmat u)) /\
  (forall k v c, In c [HComposeT i j; HComposeOuterT i j; HSetMatrixT i j] -> k <> i ->
     meaning h k = Some v -> meaning (hstep h c) k = Some v).
Proof.
  intros S HM HU. destruct (composeT_spec h i j t u S HM HU) as (A & B & C).
  split; auto. split; auto. split; auto.
  intros k v c Hc NE HV. apply (hstep_frame h c k v S); [|exact HV].
  cbn in Hc. destruct Hc as [<-|[<-|[<-|[]]]]; cbn; congruence.
Qed.

(* copy() == original *)
Theorem C08_copy_equal (s : transform R) : t_eqb (t_copy s) s = true /\ tstack (t_copy s) = [].
Proof.
  split; [|reflexivity]. unfold t_eqb, mat_eqb. cbn.
  rewrite !Reqb_refl. reflexivity.
Qed.

(* lists of points, any number type *)
Theorem C08_transform_pts {F} {NF : Num F} (s : transform F) (p : pt F) (pts : list (pt F)) :
  t_transform_pts s (p :: pts) = Ok (map (t_transform s) (p :: pts)) /\
  t_transform_pts_flat s (p :: pts) =
    Ok (concat (map (fun q => [px (t_transform s q); py (t_transform s q)]) (p :: pts))) /\
  t_transform_pts s [] = Raise ValueError /\ t_transform_pts_flat s [] = Raise ValueError.
Proof. split; [reflexivity|]. split; [|auto]. unfold t_transform_pts_flat. rewrite flat_map_concat_map. reflexivity. Qed.

(* boxes transformed by a Transform (C16 applied to this class) *)
Theorem C16_bbox_by_transform (s : transform R) (b : bbox R) : b <> BNone ->
  exists b', bbox_transformed (t_transform_pts s) b = Ok b' /\ good b' /\
    forall x y, in_box b x y ->
      in_box b' (px (t_transform s (P x y))) (py (t_transform s (P x y))).
Proof.
  intros NB. 
  assert (A : affine_map (t_transform s)).
  { exists (m00 (tmat s)), (m01 (tmat s)), (m02 (tmat s)), (m10 (tmat s)), (m11 (tmat s)), (m12 (tmat s)).
    intros p. unfold t_transform. rewrite apply_lin. reflexivity. }
  destruct (transformed_encloses (t_transform s) b A NB) as (b' & E & G).
  exists b'. split; [|exact G]. destruct b; [congruence|]. exact E.
Qed.

(* ---------------------------------------------------------------- *)
(** ** The hypotheses are met by ordinary programs *)

Definition ex_ops : list (top R) :=
  [OTranslate 1 2; ORotateAbout 30 (P 1 1); OUntransform (P 0 0); OPush; OScale 2 3; OCompose (mat_of6 1 1 0 0 1 5);
   ORotateAbout 10 (P 0 0); OPop; OTransform (P 3 3)].
Example ex_history : Forall affine_args ex_ops /\ fresh_rotate_about ex_ops false /\
  invertible (tmat (t_new (F := R))).
Proof.
  split; [repeat constructor|]. split; [cbn; tauto|]. mat_unfold. lra.
Qed.
Example ex_balanced : balanced [OTranslate 1 2; OPush; OScale 2 2; OPush; OReset; OPop; OPop; ORotate 5].
Proof.
  apply bal_op; try discriminate.
  apply (bal_block [OScale 2 2; OPush; OReset; OPop] [ORotate 5]).
  - apply bal_op; try discriminate. apply (bal_block [OReset] []); [apply bal_op; try discriminate; constructor|constructor].
  - apply bal_op; try discriminate. constructor.
Qed.
Example ex_with :
  let s : transform R := t_new in
  exists s1, run_chain [OTranslate 100 100; ORotate 45] (t_push s) = (s1, Ok tt) /\
    chains_ok (SSeq (SOp (OTransform (P 1 2))) (SWith [OScale 2 2] (SOp OReset))) s1 /\
    (* a body that raises *)
    chains_ok (SOp (OScaleBBox BNone BNone false)) s1 /\
    exists s2, exec (SOp (OScaleBBox BNone BNone false)) s1 = (s2, Raise TypeError).
Proof.
  eexists. split; [reflexivity|]. split; [cbn; auto|]. split; [exact Logic.I|].
  eexists. reflexivity.
Qed.
Example ex_store : exists t,
  meaning (hrun [HNew; HNew; HCall 0 (OTranslate 1 2); HCall 0 OPush; HComposeT 1 0] (Heap [] [])) 0 = Some t
  /\ tstack t <> [] /\ ~ targets (HComposeT (F := R) 1 0) 0.
Proof. eexists. split; [reflexivity|]. split; [discriminate|]. cbn. discriminate. Qed.
Example ex_clean : clean_mat (mat_of6 2 0 5 0 (-3) 7) /\ invertible (mat_of6 2 0 5 0 (-3) 7) /\
  clean_mat (mat_of6 1 2 5 3 4 7) /\ invertible (mat_of6 1 2 5 3 4 7).
Proof.
  assert (T : tiny <= 1).
  { unfold tiny. assert (1 <= 10 ^ 16) by (apply pow_R1_Rle; lra).
    apply (Rmult_le_reg_r (10 ^ 16)); [lra|]. field_simplify; lra. }
  assert (C : forall v, v = 0 \/ 1 <= v \/ v <= -1 -> clean v).
  { intros v [H|[H|H]]; [left; auto|right|right].
    - rewrite Rabs_pos_eq; lra.
    - rewrite Rabs_left; lra. }
  unfold clean_mat, invertible, mat_of6. cbn -[IZR].
  repeat split; try (apply C; lra); lra.
Qed.

