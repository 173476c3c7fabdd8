(* Property theorems C92: the bounding boxes of elements, on doubles. *)
From Coq Require Import Reals Floats ZArith List Lra Lia String.
From Flocq Require Import Core BinarySingleNaN PrimFloat.
Require Import Verif.Base Verif.NumFloat Verif.NumR Verif.M_vector Verif.M_bbox Verif.M_transform Verif.M_bezier Verif.M_colors Verif.M_elems Verif.M_group.
Require Import Verif.S_float Verif.L_float Verif.L_float2 Verif.S_bezier Verif.S_elems Verif.S_group Verif.S_gdraw Verif.S_bbox Verif.S_transform Verif.L_real Verif.L_bboxR Verif.L_elems Verif.L_group Verif.L_gdraw Verif.P_float Verif.P_float2 Verif.P_float3 Verif.P_float5 Verif.P_float9 Verif.P_float12 Verif.P_elems Verif.P_gdraw Verif.P_float16.
Import ListNotations.
Set Warnings "-inexact-float".
Local Open Scope R_scope.

(* ------------------------------------------------------------------ *)
(** ** specification *)

Definition pmax (p q : pt R) : pt R := P (Rmax (px p) (px q)) (Rmax (py p) (py q)).
(* how far from the axes a transform takes what is at most [s] from them *)
Definition stretch (m : mat float) (s : pt R) : pt R :=
  let a x := Rabs (val x) in
  P (a (m00 m) * px s + a (m01 m) * py s + a (m02 m) + 3 * tiny) (a (m10 m) * px s + a (m11 m) * py s + a (m12 m) + 3 * tiny).
(* how far from the axes the element is, before its own transform *)
Fixpoint extent (e : elem float) : pt R :=
  let placed e := stretch (tmat (e_xform (e_base e))) (extent e) in
  match e with
  | ELeaf _ (SCurve cps) => fold_right pmax (P 0 0) (map spread cps)
  | ELeaf _ (SRect p q) | ELeaf _ (SRRect p q _) | ELeaf _ (SEllipse p q) =>
      P (Rabs (val (px p)) + Rabs (val (px q))) (Rabs (val (py p)) + Rabs (val (py q)))
  | EGroup _ _ l _ => fold_right pmax (P 0 0) (map (fun ke => placed (snd ke)) l)
  | EHoles _ o i => pmax (extent o) (fold_right pmax (P 0 0) (map placed i))
  end.
Definition outer_extent (e : elem float) : pt R := stretch (tmat (e_xform (e_base e))) (extent e).

Definition finite_mat (m : mat float) : Prop :=
  finite (m00 m) /\ finite (m01 m) /\ finite (m02 m) /\ finite (m10 m) /\ finite (m11 m) /\ finite (m12 m).
Definition small (p : pt R) : Prop := px p <= 2 ^ 1000 /\ py p <= 2 ^ 1000.
Definition finitep (p : pt float) : Prop := finite (px p) /\ finite (py p).
(* all numbers of the element are finite, and it is nowhere so big that a coordinate could overflow *)
Fixpoint no_overflow (e : elem float) : Prop :=
  (finite_mat (tmat (e_xform (e_base e))) /\ small (extent e) /\ small (outer_extent e)) /\
  match e with
  | ELeaf _ (SCurve cps) => forall c, In c cps ->
      finitep (cc c) /\ finite (vx (cdl c)) /\ finite (vy (cdl c)) /\ finite (vx (cdr c)) /\ finite (vy (cdr c))
  | ELeaf _ (SRect p q) | ELeaf _ (SRRect p q _) | ELeaf _ (SEllipse p q) => finitep p /\ finitep q
  | EGroup _ _ l _ => fold_right and True (map (fun ke => no_overflow (snd ke)) l)
  | EHoles _ o i => no_overflow o /\ fold_right and True (map no_overflow i)
  end.

Fixpoint no_holes (e : elem float) : Prop :=
  match e with
  | ELeaf _ _ => True
  | EGroup _ _ l _ => fold_right and True (map (fun ke => no_holes (snd ke)) l)
  | EHoles _ _ _ => False
  end.

(* a box on doubles and one on exact numbers: all edges are close *)
Definition box_close (ex ey : R) (b : bbox float) (b' : bbox R) : Prop :=
  match b, b' with
  | BB xl yl xh yh, BB xl' yl' xh' yh' =>
      finiteb b /\ Rabs (val xl - xl') <= ex /\ Rabs (val yl - yl') <= ey /\ Rabs (val xh - xh') <= ex /\ Rabs (val yh - yh') <= ey
  | _, _ => False
  end.

(* the box with every edge moved outwards *)
Definition widened (dx dy : R) (b : bbox R) : bbox R :=
  match b with BNone => BNone | BB xl yl xh yh => BB (xl - dx) (yl - dy) (xh + dx) (yh + dy) end.

(* ------------------------------------------------------------------ *)
(** ** numbers that are finite and near *)

Definition fn (n : nat) (A : R) (x : float) (r : R) : Prop := finite x /\ near n A x r.

Lemma fn_weaken n m A B x r : (n <= m)%nat -> A <= B -> fn n A x r -> fn m B x r.
Proof. intros Hn HA [F N]. split; [exact F|]. eapply near_weaken; eassumption. Qed.
Lemma fn_leaf x : finite x -> fn 0 (Rabs (val x)) x (val x).
Proof. intros F. split; [exact F|apply near_leaf]. Qed.
Lemma near_pos n A x r : near n A x r -> 0 <= A.
Proof. intros [H _]. pose proof (Rabs_pos r). lra. Qed.

Lemma pow_half n : (n <= 1000)%nat -> (1 + eps) ^ n <= 2.
Proof.
  intros H. pose proof (growth n H) as G. pose proof eps_pos.
  assert (INR (S n) <= 1001) by (replace 1001 with (INR 1001) by (rewrite INR_IZR_INZ; reflexivity); apply le_INR; lia).
  assert (Hs : eps < / 10000000).
  { eapply Rlt_trans; [apply eps_lt|]. apply Rinv_lt_contravar; [lra|]. cbn. lra. }
  assert (INR (S n) * eps <= 1001 * / 10000000) by (apply Rmult_le_compat; [apply pos_INR|lra|assumption|lra]). lra.
Qed.
Lemma pow_bpow k : (0 <= k)%Z -> (2 : R) ^ Z.to_nat k = bpow radix2 k.
Proof. intros H. rewrite <- (Z2Nat.id k H) at 2. rewrite bpow_powerRZ. cbn [radix_val radix2]. now rewrite <- pow_powerRZ. Qed.

Lemma fn_add n m A B x y r s : (n <= 1000)%nat -> (m <= 1000)%nat -> A + B <= 2 ^ 1000 -> fn n A x r -> fn m B y s ->
  fn (S (Nat.max n m)) (A + B) (x + y)%float (r + s).
Proof.
  intros Hn Hm L [Fx Nx] [Fy Ny]. split; [|now apply near_add].
  pose proof (near_size _ _ _ _ Nx Fx) as Sx. pose proof (near_size _ _ _ _ Ny Fy) as Sy.
  pose proof (near_pos _ _ _ _ Nx). pose proof (near_pos _ _ _ _ Ny). pose proof (pow_half n Hn). pose proof (pow_half m Hm).
  assert ((1 + eps) ^ n * A <= 2 * A) by (apply Rmult_le_compat_r; lra). assert ((1 + eps) ^ m * B <= 2 * B) by (apply Rmult_le_compat_r; lra).
  apply add_fin; auto. apply rnd_fits with 1001%Z; [lia|]. eapply Rle_trans; [apply Rabs_triang|].
  replace (bpow radix2 1001) with (2 * 2 ^ 1000); [lra|].
  change 1000%nat with (Z.to_nat 1000). rewrite pow_bpow by lia. change 1001%Z with (1 + 1000)%Z. rewrite bpow_plus. reflexivity.
Qed.
Lemma fn_mul n m A B x y r s : (n <= 1000)%nat -> (m <= 1000)%nat -> A * B <= 2 ^ 1000 -> fn n A x r -> fn m B y s ->
  fn (S (n + m)) (A * B + tiny) (x * y)%float (r * s).
Proof.
  intros Hn Hm L [Fx Nx] [Fy Ny]. split; [|now apply near_mul].
  pose proof (near_size _ _ _ _ Nx Fx) as Sx. pose proof (near_size _ _ _ _ Ny Fy) as Sy.
  pose proof (near_pos _ _ _ _ Nx). pose proof (near_pos _ _ _ _ Ny). pose proof (pow_half n Hn). pose proof (pow_half m Hm).
  assert ((1 + eps) ^ n * A <= 2 * A) by (apply Rmult_le_compat_r; lra). assert ((1 + eps) ^ m * B <= 2 * B) by (apply Rmult_le_compat_r; lra).
  apply mul_fin; auto. apply rnd_fits with 1002%Z; [lia|]. rewrite Rabs_mult.
  apply Rle_trans with ((2 * A) * (2 * B)); [apply Rmult_le_compat; auto using Rabs_pos; lra|].
  replace (bpow radix2 1002) with (4 * 2 ^ 1000); [nra|].
  change 1000%nat with (Z.to_nat 1000). rewrite pow_bpow by lia. change 1002%Z with (2 + 1000)%Z. rewrite bpow_plus. reflexivity.
Qed.
Lemma fn_min n A x y r s : fn n A x r -> fn n A y s -> fn n A (pymin x y) (pymin r s).
Proof.
  intros [Fx [X1 X2]] [Fy [Y1 Y2]]. specialize (X2 Fx). specialize (Y2 Fy). destruct (val_min x y Fx Fy) as [E F].
  split; [exact F|]. split; [unfold pymin; now destruct (_ <? _)%num|]. intros _. rewrite E. unfold pymin. cbn [nltb NumR]. unfold Rltb.
  revert X2 Y2. generalize (((1 + eps) ^ n - 1) * A). intros e X2 Y2. apply Rabs_le_inv in X2, Y2.
  destruct (Rlt_dec (val y) (val x)), (Rlt_dec s r); apply Rabs_le; lra.
Qed.
Lemma fn_max n A x y r s : fn n A x r -> fn n A y s -> fn n A (pymax x y) (pymax r s).
Proof.
  intros [Fx [X1 X2]] [Fy [Y1 Y2]]. specialize (X2 Fx). specialize (Y2 Fy). destruct (val_max x y Fx Fy) as [E F].
  split; [exact F|]. split; [unfold pymax; now destruct (_ <? _)%num|]. intros _. rewrite E. unfold pymax. cbn [nltb NumR]. unfold Rltb.
  revert X2 Y2. generalize (((1 + eps) ^ n - 1) * A). intros e X2 Y2. apply Rabs_le_inv in X2, Y2.
  destruct (Rlt_dec (val x) (val y)), (Rlt_dec r s); apply Rabs_le; lra.
Qed.

(* ------------------------------------------------------------------ *)
(** ** points and boxes *)

Definition fp (n : nat) (s : pt R) (p : pt float) (p' : pt R) : Prop := fn n (px s) (px p) (px p') /\ fn n (py s) (py p) (py p').
Definition fb (n : nat) (s : pt R) (b : bbox float) (b' : bbox R) : Prop :=
  match b, b' with
  | BNone, BNone => True
  | BB xl yl xh yh, BB xl' yl' xh' yh' =>
      fn n (px s) xl xl' /\ fn n (py s) yl yl' /\ fn n (px s) xh xh' /\ fn n (py s) yh yh'
  | _, _ => False
  end.
Definition ple (p q : pt R) : Prop := px p <= px q /\ py p <= py q.
Lemma ple_refl p : ple p p. Proof. split; lra. Qed.
Lemma ple_trans p q r : ple p q -> ple q r -> ple p r. Proof. unfold ple. lra. Qed.
Lemma pmax_l p q : ple p (pmax p q). Proof. split; apply Rmax_l. Qed.
Lemma pmax_r p q : ple q (pmax p q). Proof. split; apply Rmax_r. Qed.

Lemma fb_weaken n m s t b b' : (n <= m)%nat -> ple s t -> fb n s b b' -> fb m t b b'.
Proof.
  intros Hn [Hx Hy]. destruct b, b'; cbn; auto. intros (A & B & C & D).
  split; [|split; [|split]]; (eapply fn_weaken; [exact Hn| |eassumption]; assumption).
Qed.
Lemma fb_mk n s xl yl xh yh xl' yl' xh' yh' :
  fn n (px s) xl xl' -> fn n (py s) yl yl' -> fn n (px s) xh xh' -> fn n (py s) yh yh' ->
  fb n s (mkbbox xl yl xh yh) (mkbbox xl' yl' xh' yh').
Proof. intros. unfold mkbbox. cbn [fb]. auto using fn_min, fn_max. Qed.
Lemma fb_of_pts n s p q p' q' : fp n s p p' -> fp n s q q' -> fb n s (bbox_of_pts p q) (bbox_of_pts p' q').
Proof. intros [A B] [C D]. apply fb_mk; assumption. Qed.
Lemma fb_add n s a b a' b' : fb n s a a' -> fb n s b b' -> fb n s (bbox_add a b) (bbox_add a' b').
Proof.
  intros HA HB. unfold bbox_add. destruct b, b'; cbn in HB; try contradiction.
  - destruct a, a'; cbn in HA |- *; try contradiction; auto. destruct HA as (?&?&?&?). apply fb_mk; assumption.
  - destruct HB as (?&?&?&?). destruct a, a'; cbn in HA; try contradiction.
    + cbn [bbox_copy]. apply fb_mk; assumption.
    + destruct HA as (?&?&?&?). apply fb_mk; auto using fn_min, fn_max.
Qed.
Lemma fb_grow n s a a' p p' : fb n s a a' -> fp n s p p' -> fb n s (bbox_grow a p) (bbox_grow a' p').
Proof.
  intros HA [Px Py]. unfold bbox_grow. destruct a, a'; cbn in HA |- *; try contradiction; auto.
  destruct HA as (?&?&?&?). auto using fn_min, fn_max.
Qed.

Lemma fp_apply n s (t : transform float) p p' : (n + 3 <= 1000)%nat -> finite_mat (tmat t) -> small (stretch (tmat t) s) -> fp n s p p' ->
  fp (n + 3) (stretch (tmat t) s) (t_transform t p) (t_transform (valt t) p').
Proof.
  intros Hn (F00 & F01 & F02 & F10 & F11 & F12) [Lx Ly] [Px Py]. cbn [stretch px py] in Lx, Ly.
  pose proof tiny_pos. pose proof (near_pos _ _ _ _ (proj2 Px)). pose proof (near_pos _ _ _ _ (proj2 Py)).
  destruct (const_ok 1 ltac:(vm_compute; discriminate)) as [F1 V1].
  assert (One : fn 0 1 (float_ofZ 1) 1). { split; [exact F1|]. apply (near_const 1). vm_compute. discriminate. }
  assert (K : forall a b c, finite a -> finite b -> finite c ->
    Rabs (val a) * px s + Rabs (val b) * py s + Rabs (val c) + 3 * tiny <= 2 ^ 1000 ->
    fn (n + 3) (Rabs (val a) * px s + Rabs (val b) * py s + Rabs (val c) + 3 * tiny)
      (a * px p + b * py p + c * float_ofZ 1)%float (val a * px p' + val b * py p' + val c * 1)).
  { intros a b c Fa Fb Fc L. pose proof (Rabs_pos (val a)). pose proof (Rabs_pos (val b)). pose proof (Rabs_pos (val c)).
    assert (0 <= Rabs (val a) * px s) by (apply Rmult_le_pos; lra). assert (0 <= Rabs (val b) * py s) by (apply Rmult_le_pos; lra).
    assert (A1 : fn (S (0 + n)) (Rabs (val a) * px s + tiny) (a * px p)%float (val a * px p')) by (apply fn_mul; auto using fn_leaf; try lia; lra).
    assert (A2 : fn (S (0 + n)) (Rabs (val b) * py s + tiny) (b * py p)%float (val b * py p')) by (apply fn_mul; auto using fn_leaf; try lia; lra).
    assert (A3 : fn (S (0 + 0)) (Rabs (val c) * 1 + tiny) (c * float_ofZ 1)%float (val c * 1)) by (apply fn_mul; auto using fn_leaf; try lia; lra).
    eapply fn_add in A2; [| | | |exact A1]; [|lia|lia|lra].
    eapply fn_add in A3; [| | | |exact A2]; [|lia|lia|lra].
    eapply fn_weaken; [| |exact A3]; [lia|lra]. }
  unfold fp, t_transform, mat_apply. cbn [tmat valt valm px py stretch m00 m01 m02 m10 m11 m12]. ops.
  split; apply K; assumption.
Qed.

Lemma fb_ext n s (t : transform float) b b' : (n + 3 <= 1000)%nat -> finite_mat (tmat t) -> small (stretch (tmat t) s) -> fb n s b b' ->
  both (fb (n + 3) (stretch (tmat t) s)) (bbox_ext t b) (bbox_ext (valt t) b').
Proof.
  intros Hn Fm L H. unfold bbox_ext. destruct b as [|xl yl xh yh], b' as [|xl' yl' xh' yh']; cbn in H; try contradiction; [reflexivity|].
  destruct H as (A & B & C & D). cbn [bbox_pll bbox_phh bbox_plh bbox_phl bind both].
  assert (K : forall x y x' y', fn n (px s) x x' -> fn n (py s) y y' -> fp (n + 3) (stretch (tmat t) s) (t_transform t (P x y)) (t_transform (valt t) (P x' y'))).
  { intros. apply fp_apply; auto. split; assumption. }
  apply fb_add; apply fb_of_pts; apply K; assumption.
Qed.

(* ------------------------------------------------------------------ *)
(** ** the elements *)

(* two results agree; when [nh] fails, the one computation may succeed and the other fail *)
Definition agree {X Y} (nh : Prop) (Q : X -> Y -> Prop) (r : res X) (r' : res Y) : Prop :=
  match r, r' with Ok x, Ok y => Q x y | Raise x, Raise y => nh -> x = y | _, _ => ~ nh end.
Lemma agree_bind {X Y X' Y'} nh (Q : X -> Y -> Prop) (Q' : X' -> Y' -> Prop) r r' g g' :
  agree nh Q r r' -> (forall x y, Q x y -> agree nh Q' (g x) (g' y)) -> agree nh Q' (bind r g) (bind r' g').
Proof.
  intros H G. destruct r as [x|], r' as [y|]; cbn in *; auto.
  - destruct (g x); cbn; tauto.
  - destruct (g' y); cbn; tauto.
Qed.
Lemma agree_weaken {X Y} (nh nh' : Prop) (Q Q' : X -> Y -> Prop) r r' : (nh' -> nh) -> (forall x y, Q x y -> Q' x y) -> agree nh Q r r' -> agree nh' Q' r r'.
Proof. intros I J. destruct r, r'; cbn; auto. Qed.
Lemma agree_fold {A B X Y} nh (Q : X -> Y -> Prop) (h : A -> B) (g : X -> A -> res X) (g' : Y -> B -> res Y) l :
  (forall a x y, In a l -> Q x y -> agree nh Q (g x a) (g' y (h a))) ->
  forall x y, Q x y -> agree nh Q (foldM g x l) (foldM g' y (map h l)).
Proof.
  induction l as [|a l IH]; intros G x y H; cbn; [exact H|]. eapply agree_bind; [apply G; [now left|exact H]|].
  intros x1 y1 H1. apply IH; [|exact H1]. intros; apply G; [now right|assumption].
Qed.
Lemma both_agree {X Y} nh (Q : X -> Y -> Prop) r r' : both Q r r' -> agree nh Q r r'.
Proof. destruct r, r'; cbn; tauto. Qed.
Lemma pmax_in {A} (g : A -> pt R) (l : list A) a : In a l -> ple (g a) (fold_right pmax (P 0 0) (map g l)).
Proof.
  induction l as [|b l IH]; cbn; [easy|]. intros [->|I]; [apply pmax_l|]. eapply ple_trans; [now apply IH|apply pmax_r].
Qed.
Lemma all_in {A} (g : A -> Prop) (l : list A) a : fold_right and True (map g l) -> In a l -> g a.
Proof. induction l as [|b l IH]; cbn; [easy|]. intros [H K] [->|I]; auto. Qed.
Lemma base_val e : e_base (val_elem e) = val_base (e_base e).
Proof. now destruct e. Qed.

Lemma cp_fb c : finitep (cc c) -> finite (vx (cdl c)) -> finite (vy (cdl c)) -> finite (vx (cdr c)) -> finite (vy (cdr c)) -> small (spread c) ->
  fb 3 (spread c) (cp_bbox c) (cp_bbox (valc c)).
Proof.
  destruct c as [[cx cy] [lx ly] [rx ry] k]. unfold finitep, small, spread. cbn [cc cdl cdr px py vx vy]. intros [F1 F2] F3 F4 F5 F6 [Lx Ly].
  pose proof (Rabs_pos (val cx)). pose proof (Rabs_pos (val cy)). pose proof (Rabs_pos (val lx)). pose proof (Rabs_pos (val ly)).
  pose proof (Rabs_pos (val rx)). pose proof (Rabs_pos (val ry)).
  assert (Sum : forall a b s, finite a -> finite b -> Rabs (val a) + Rabs (val b) <= s -> s <= 2 ^ 1000 -> fn 3 s (a + b)%float (val a + val b)).
  { intros a b s Fa Fb L K. eapply fn_weaken; [| |apply (fn_add 0 0 _ _ _ _ _ _ ltac:(lia) ltac:(lia) (Rle_trans _ _ _ L K) (fn_leaf a Fa) (fn_leaf b Fb))]; [lia|exact L]. }
  unfold cp_bbox. apply fb_grow; [apply fb_of_pts|]; unfold fp, cp_l, cp_r, p_add, valc, valp, valv; cbn [cc cdl cdr px py vx vy]; ops.
  - split; apply Sum; auto; lra.
  - split; apply Sum; auto; lra.
  - split; (eapply fn_weaken; [| |apply fn_leaf; assumption]; [lia|lra]).
Qed.

Lemma small_le p q : ple p q -> small q -> small p.
Proof. unfold ple, small. lra. Qed.

Lemma shape_fb b s : no_overflow (ELeaf b s) -> both (fb 3 (extent (ELeaf b s))) (shape_bbox_int s) (shape_bbox_int (val_shape s)).
Proof.
  intros [(_ & L & _) D]. destruct s as [cps|p q|p q r|p q].
  2-4: destruct D as [[? ?] [? ?]]; cbn [shape_bbox_int val_shape both]; apply fb_of_pts; unfold fp, valp; cbn [extent px py];
    split; (eapply fn_weaken; [| |apply fn_leaf; assumption]; [lia|]);
    pose proof (Rabs_pos (val (px p))); pose proof (Rabs_pos (val (py p))); pose proof (Rabs_pos (val (px q))); pose proof (Rabs_pos (val (py q))); lra.
  assert (K : forall c, In c cps -> fb 3 (extent (ELeaf b (SCurve cps))) (cp_bbox c) (cp_bbox (valc c))).
  { intros c I. pose proof (pmax_in spread cps c I) as S. destruct (D c I) as (? & ? & ? & ? & ?).
    eapply fb_weaken; [|exact S|apply cp_fb; auto]; [lia|]. eapply small_le; [exact S|exact L]. }
  revert K. generalize (extent (ELeaf b (SCurve cps))). intros t K. clear L D.
  destruct cps as [|c cps]; cbn [shape_bbox_int val_shape map both]; [reflexivity|].
  assert (H0 : fb 3 t (cp_bbox c) (cp_bbox (valc c))) by (apply K; now left). revert H0. generalize (cp_bbox c), (cp_bbox (valc c)).
  assert (K' : forall d, In d cps -> fb 3 t (cp_bbox d) (cp_bbox (valc d))) by (intros; apply K; now right). clear K.
  induction cps as [|d cps IH]; intros x y H; cbn [fold_left map]; [exact H|]. apply IH; [intros; apply K'; now right|].
  apply fb_add; [exact H|]. apply K'. now left.
Qed.

Lemma int_agree e : no_overflow e -> (depth e <= 300)%nat ->
  agree (no_holes e) (fb (3 * depth e) (extent e)) (elem_bbox_int e) (elem_bbox_int (val_elem e)).
Proof.
  assert (Step : forall e n s (nh : Prop) acc acc', no_overflow e -> (depth e <= 300)%nat -> (3 * depth e + 3 <= n)%nat -> ple (outer_extent e) s -> (nh -> no_holes e) ->
    agree (no_holes e) (fb (3 * depth e) (extent e)) (elem_bbox_int e) (elem_bbox_int (val_elem e)) ->
    fb n s acc acc' ->
    agree nh (fb n s) (let* bb := elem_bbox_int e in let* x := bbox_ext (e_xform (e_base e)) bb in Ok (bbox_add acc x))
      (let* bb := elem_bbox_int (val_elem e) in let* x := bbox_ext (e_xform (e_base (val_elem e))) bb in Ok (bbox_add acc' x))).
  { intros c n s nh acc acc' O Dp Hn Hs Hh IH Ha. rewrite base_val. cbn [val_base e_xform].
    assert (O' : finite_mat (tmat (e_xform (e_base c))) /\ small (extent c) /\ small (outer_extent c)) by (destruct c; exact (proj1 O)).
    destruct O' as (Fm & _ & Ls).
    eapply agree_bind; [eapply agree_weaken; [exact Hh|intros x y Hxy; exact Hxy|exact IH]|].
    intros bb bb' Hb. cbv beta. eapply agree_bind; [apply both_agree; apply fb_ext; [| | |exact Hb]; auto; lia|].
    intros x x' Hx. cbn [agree]. apply fb_add; [exact Ha|]. eapply fb_weaken; [exact Hn|exact Hs|exact Hx]. }
  induction e as [b s|b h l p IH|b o i IHo IHi] using elem_induction; intros O Dp.
  - apply both_agree. exact (shape_fb b s O).
  - destruct O as [_ O].
    assert (NH : no_holes (EGroup b h l p) -> forall ke, In ke l -> no_holes (snd ke)) by (intros Hn ke Ik; exact (all_in (fun ke => no_holes (snd ke)) l ke Hn Ik)).
    revert NH. generalize (no_holes (EGroup b h l p)). intros nh NH. cbn [val_elem elem_bbox_int]. destruct l as [|ke0 l0]; [cbn; auto|]. cbn [map]. 
    change ((fst ke0, val_elem (snd ke0)) :: map (fun ke => (fst ke, val_elem (snd ke))) l0) with (map (fun ke => (fst ke, val_elem (snd ke))) (ke0 :: l0)).
    set (l := ke0 :: l0) in *. clearbody l. apply agree_fold; [|exact I].
    intros ke x y Ik Hx. cbv beta. cbn [snd]. rewrite Forall_forall in IH.
    pose proof (max_in (fun ke => depth (snd ke)) l ke Ik) as D. cbn [depth] in Dp |- *. cbv beta in D.
    pose proof (all_in (fun ke => no_overflow (snd ke)) l ke O Ik) as Ok_. cbv beta in Ok_.
    apply Step; auto; try lia.
    + exact (pmax_in (fun ke => outer_extent (snd ke)) l ke Ik).
    + apply IH; auto. lia.
  - destruct O as [_ [Oo Oi]]. cbn [val_elem elem_bbox_int no_holes].
    cbn [depth] in Dp |- *. rewrite Forall_forall in IHi.
    eapply (agree_bind False (fb (3 * S (Nat.max (depth o) (fold_right Nat.max 0%nat (map depth i)))) (extent (EHoles b o i)))).
    { eapply agree_weaken; [intros []|intros x y Hxy|apply IHo; auto; lia]. eapply fb_weaken; [| |exact Hxy]; [lia|]. apply pmax_l. }
    intros bo bo' Hbo. cbv beta.
    eapply (agree_bind False (fb (3 * S (Nat.max (depth o) (fold_right Nat.max 0%nat (map depth i)))) (extent (EHoles b o i)))).
    { apply agree_fold; [|exact I]. intros e x y Ie Hx. pose proof (max_in depth i e Ie) as D. pose proof (all_in no_overflow i e Oi Ie) as Oe.
      apply Step; [exact Oe|lia|lia| |intros []|apply IHi; auto; lia|exact Hx].
      eapply ple_trans; [exact (pmax_in outer_extent i e Ie)|]. apply pmax_r. }
    intros bi bi' Hbi. cbv beta.
    destruct (bbox_contains bo bi) as [[]|], (bbox_contains bo' bi') as [[]|]; cbn; auto; try tauto.
Qed.

Lemma box_agree e : no_overflow e -> (depth e <= 300)%nat ->
  agree (no_holes e) (fb (3 * depth e + 3) (outer_extent e)) (elem_bbox e) (elem_bbox (val_elem e)).
Proof.
  intros O D. unfold elem_bbox. eapply agree_bind; [apply int_agree; assumption|]. intros x y H. cbv beta. apply both_agree.
  rewrite base_val. cbn [val_base e_xform].
  assert (O' : finite_mat (tmat (e_xform (e_base e))) /\ small (extent e) /\ small (outer_extent e)) by (destruct e; exact (proj1 O)).
  destruct O' as (Fm & _ & Ls). apply fb_ext; auto. lia.
Qed.

(* ------------------------------------------------------------------ *)
(** ** the theorems *)

(* The bounding box of an element computed on doubles has, edge by edge, the edges of the exact bounding box of the
   same element, up to a few units in the last place for each level of nesting. *)
Theorem C92_box e b b' : no_overflow e -> (depth e <= 300)%nat -> elem_bbox e = Ok b -> elem_bbox (val_elem e) = Ok b' ->
  let k := INR (3 * depth e + 4) * eps in
  box_close (k * px (outer_extent e)) (k * py (outer_extent e)) b b'.
Proof.
  intros O D E E'. pose proof (box_agree e O D) as H. rewrite E, E' in H. cbn [agree] in H. cbv zeta.
  assert (G : (1 + eps) ^ (3 * depth e + 3) - 1 <= INR (3 * depth e + 4) * eps).
  { pose proof (growth (3 * depth e + 3) ltac:(lia)) as G. replace (S (3 * depth e + 3)) with (3 * depth e + 4)%nat in G by lia. lra. }
  assert (K : forall A x r, fn (3 * depth e + 3) A x r -> Rabs (val x - r) <= INR (3 * depth e + 4) * eps * A).
  { intros A x r [Fx N]. pose proof (near_pos _ _ _ _ N). destruct N as [_ N]. specialize (N Fx).
    eapply Rle_trans; [exact N|]. apply Rmult_le_compat_r; assumption. }
  destruct b as [|xl yl xh yh], b' as [|xl' yl' xh' yh']; cbn in H; try contradiction.
  - exfalso. revert E. unfold elem_bbox. destruct (elem_bbox_int e) as [[]|]; cbn; discriminate.
  - destruct H as (A & B & C & C'). unfold box_close, finiteb. pose proof (proj1 A). pose proof (proj1 B). pose proof (proj1 C). pose proof (proj1 C').
    repeat split; auto.
Qed.

(* Without holes, the bounding box on doubles exists when the exact one does; the exception is the same otherwise. *)
Theorem C92_fails_alike e : no_overflow e -> (depth e <= 300)%nat -> no_holes e ->
  match elem_bbox e, elem_bbox (val_elem e) with
  | Ok _, Ok _ => True
  | Raise x, Raise y => x = y
  | _, _ => False
  end.
Proof.
  intros O D N. pose proof (box_agree e O D) as H. destruct (elem_bbox e), (elem_bbox (val_elem e)); cbn in H; auto.
Qed.

(* The exact picture lies in the bounding box computed on doubles, widened by the rounding errors. *)
Theorem C92_exact_inside (dc : dctx) e b ps p q : no_overflow e -> (depth e <= 300)%nat -> no_holes e -> boxable (val_elem e) ->
  elem_bbox e = Ok b -> snd (elem_paths dc (val_elem e) t_new) = Ok ps -> In p ps -> In q (p_points p) ->
  let k := INR (3 * depth e + 4) * eps in
  match b with
  | BB xl yl xh yh =>
      val xl - k * px (outer_extent e) <= fst q <= val xh + k * px (outer_extent e) /\
      val yl - k * py (outer_extent e) <= snd q <= val yh + k * py (outer_extent e)
  | BNone => False
  end.
Proof.
  intros O D N Bx E Ep Hp Hq. pose proof (C92_fails_alike e O D N) as Al. rewrite E in Al.
  destruct (elem_bbox (val_elem e)) as [b'|] eqn:E'; [|contradiction]. clear Al.
  pose proof (C92_box e b b' O D E E') as C. cbv zeta in C |- *.
  destruct (C47_drawn_in_box dc (val_elem e) Bx t_new b' ps p q E' Ep Hp Hq) as (r & Hr & Er).
  assert (X : r = pt_of q).
  { rewrite Er. unfold t_transform, t_new, mat_apply, mat_id. cbn [tmat m00 m01 m02 m10 m11 m12]. ops. destruct r as [u v]. cbn [px py]. f_equal; ring. }
  subst r. destruct b as [|xl yl xh yh], b' as [|xl' yl' xh' yh']; cbn [box_close] in C; try contradiction.
  destruct C as (_ & Cx & Cy & Cx' & Cy'). apply Rabs_le_inv in Cx, Cy, Cx', Cy'.
  unfold P_elems.holds, S_bbox.in_box, S_bbox.le in Hr. destruct q as [u v]. cbn [pt_of fst snd px py] in Hr. cbn [nleb NumR] in Hr. rewrite !Rleb_le in Hr. cbn [fst snd] in Hr |- *.
  revert Cx Cy Cx' Cy'. generalize (INR (3 * depth e + 4) * eps * px (outer_extent e)), (INR (3 * depth e + 4) * eps * py (outer_extent e)). intros. lra.
Qed.

(* All on doubles: what is drawn lies in the bounding box, up to the rounding errors of both. *)
Theorem C92_drawn_inside {TF : NumTrig float} {RF : NumRoot float} (dc : dctx) e s b ps p x y :
  no_overflow e -> (depth e <= 300)%nat -> no_holes e -> boxable (val_elem e) ->
  (points_per_curve dc <= 2 ^ 53)%Z -> within s (absm (tmat t_new)) e ->
  elem_bbox e = Ok b -> snd (elem_paths dc e t_new) = Ok ps -> In p ps -> In (x, y) (p_points p) ->
  let k := INR (3 * depth e + 4) * eps in
  let d := INR (3 * depth e + 31) * eps * (27 * s + 85 * tiny) in
  match b with
  | BB xl yl xh yh =>
      (finite x -> val xl - k * px (outer_extent e) - d <= val x <= val xh + k * px (outer_extent e) + d) /\
      (finite y -> val yl - k * py (outer_extent e) - d <= val y <= val yh + k * py (outer_extent e) + d)
  | BNone => False
  end.
Proof.
  intros O D N Bx Hn W E Ep Hp Hq. pose proof (C89_tree dc e t_new s Hn W) as T. rewrite Ep in T.
  assert (V : tmat (valt t_new) = tmat (@t_new R _)).
  { unfold t_new, mat_id. cbn [valt tmat valm mat_map m00]. destruct (const_ok 1 ltac:(vm_compute; discriminate)) as [_ V1]. destruct (const_ok 0 ltac:(vm_compute; discriminate)) as [_ V0]. 
    unfold valm, mat_map. cbn [m00 m01 m02 m10 m11 m12 m20 m21 m22]. ops. now rewrite V0, V1. }
  rewrite (proj2 (C47_matrix_kept dc (val_elem e) t_new (valt t_new)) V) in T.
  destruct (snd (elem_paths dc (val_elem e) t_new)) as [ps'|] eqn:Ep'; [|contradiction].
  assert (exists p' q, In p' ps' /\ In q (p_points p') /\ close_by (((1 + eps) ^ (3 * depth e + 30) - 1) * (27 * s + 85 * tiny)) (x, y) q) as (p' & q & Ip & Iq & C).
  { clear - T Hp Hq. induction T as [|a a' l l' [_ H] _ IH]; [destruct Hp|]. destruct Hp as [->|Hp].
    - assert (exists q, In q (p_points a') /\ close_by (((1 + eps) ^ (3 * depth e + 30) - 1) * (27 * s + 85 * tiny)) (x, y) q) as (q & Iq & Cq).
      { induction H as [|u u' m m' Hu _ IHm]; [destruct Hq|]. destruct Hq as [->|Hq]; [exists u'; split; [now left|exact Hu]|].
        destruct (IHm Hq) as (q & Iq & Cq). exists q. split; [now right|exact Cq]. }
      exists a', q. split; [now left|auto].
    - destruct (IH Hp) as (p' & q & A & B & C). exists p', q. split; [now right|auto]. }
  pose proof (C92_exact_inside dc e b ps' p' q O D N Bx E Ep' Ip Iq) as K. cbv zeta in K |- *.
  assert (G : (1 + eps) ^ (3 * depth e + 30) - 1 <= INR (3 * depth e + 31) * eps).
  { pose proof (growth (3 * depth e + 30) ltac:(lia)) as G. replace (S (3 * depth e + 30)) with (3 * depth e + 31)%nat in G by lia. lra. }
  assert (G0 : 0 <= (1 + eps) ^ (3 * depth e + 30) - 1).
  { pose proof eps_pos. pose proof (pow_R1_Rle (1 + eps) (3 * depth e + 30) ltac:(lra)). lra. }
  destruct b as [|xl yl xh yh]; [exact K|]. destruct C as [Cx Cy]. cbn [fst snd] in Cx, Cy.
  assert (L : forall z, Rabs z <= ((1 + eps) ^ (3 * depth e + 30) - 1) * (27 * s + 85 * tiny) -> Rabs z <= INR (3 * depth e + 31) * eps * (27 * s + 85 * tiny)).
  { intros z Hz. destruct (Rle_dec 0 (27 * s + 85 * tiny)); [eapply Rle_trans; [exact Hz|now apply Rmult_le_compat_r]|].
    exfalso. pose proof eps_pos. pose proof (Rlt_pow_R1 (1 + eps) (3 * depth e + 30) ltac:(lra) ltac:(lia)). pose proof (Rabs_pos z).
    pose proof (Rmult_lt_0_compat ((1 + eps) ^ (3 * depth e + 30) - 1) (- (27 * s + 85 * tiny)) ltac:(lra) ltac:(lra)). lra. }
  split; [intros F; specialize (L _ (Cx F))|intros F; specialize (L _ (Cy F))]; apply Rabs_le_inv in L; lra.
Qed.

Ltac max_go :=
  repeat match goal with |- context [Rmax ?a ?b] =>
    lazymatch a with context [Rmax _ _] => fail | _ => idtac end; lazymatch b with context [Rmax _ _] => fail | _ => idtac end;
    let B t := assert (0 <= Rmax a b <= t) by (split; [eapply Rle_trans; [|apply Rmax_l]; lra|apply Rmax_lub; lra]) in
    first [B 20 | B 50 | B 100 | B 200 | B 400]; generalize dependent (Rmax a b); intros end.
Definition holes_union {F} {NF : Num F} (i : list (elem F)) : res (bbox F) :=
  foldM (fun acc e => let* bb := elem_bbox_int e in let* x := bbox_ext (e_xform (e_base e)) bb in Ok (bbox_add acc x)) BNone i.
Lemma union_agree b o i : no_overflow (EHoles b o i) -> (depth (EHoles b o i) <= 300)%nat -> (forall e, In e i -> no_holes e) ->
  both (fb (3 * depth (EHoles b o i)) (extent (EHoles b o i))) (holes_union i) (holes_union (map val_elem i)).
Proof.
  intros [_ [_ Oi]] Dp Nh. cbn [depth] in Dp |- *. unfold holes_union.
  assert (K : forall r r' (Q : bbox float -> bbox R -> Prop), agree True Q r r' -> both Q r r').
  { intros r r' Q. destruct r, r'; cbn; tauto. }
  apply K. apply agree_fold; [|exact I]. intros e x y Ie Hx. cbv beta.
  pose proof (max_in depth i e Ie) as D. pose proof (all_in no_overflow i e Oi Ie) as Oe.
  rewrite base_val. cbn [val_base e_xform].
  assert (O' : finite_mat (tmat (e_xform (e_base e))) /\ small (extent e) /\ small (outer_extent e)) by (destruct e; exact (proj1 Oe)).
  destruct O' as (Fm & _ & Ls).
  eapply agree_bind; [eapply agree_weaken; [intros _; exact (Nh e Ie)|intros u v Huv; exact Huv|apply int_agree; [exact Oe|lia]]|].
  intros bb bb' Hb. cbv beta. eapply agree_bind; [apply both_agree; apply fb_ext; [| | |exact Hb]; auto; lia|].
  intros u u' Hu. cbn [agree]. apply fb_add; [exact Hx|]. eapply fb_weaken; [| |exact Hu]; [lia|].
  eapply ple_trans; [exact (pmax_in outer_extent i e Ie)|]. apply pmax_r.
Qed.

(* With holes that have none themselves: holes that are accepted stay inside, up to the rounding errors; holes that stay
   inside by more than the rounding errors are accepted. *)
Theorem C92_holes b o i out bbs : no_overflow (EHoles b o i) -> (depth (EHoles b o i) <= 300)%nat ->
  no_holes o -> (forall e, In e i -> no_holes e) -> i <> [] ->
  elem_bbox_int (val_elem o) = Ok out -> Forall2 (fun e x => elem_bbox (val_elem e) = Ok x) i bbs ->
  let k := INR (3 * depth (EHoles b o i) + 1) * eps in
  let dx := 2 * (k * px (extent (EHoles b o i))) in
  let dy := 2 * (k * py (extent (EHoles b o i))) in
  ((exists bb, elem_bbox (EHoles b o i) = Ok bb) -> forall x, In x bbs -> sub_box x (widened dx dy out)) /\
  ((forall x, In x bbs -> sub_box x (widened (- dx) (- dy) out)) -> exists bb, elem_bbox (EHoles b o i) = Ok bb).
Proof.
  intros O D No Ni Ne Eo Ei. set (e := EHoles b o i) in *. cbv zeta.
  assert (Ao : both (fb (3 * depth e) (extent e)) (elem_bbox_int o) (elem_bbox_int (val_elem o))).
  { pose proof O as O'. destruct O' as [_ [Oo _]]. cbn [e depth] in D. pose proof (int_agree o Oo ltac:(lia)) as A.
    destruct (elem_bbox_int o), (elem_bbox_int (val_elem o)); cbn [agree both] in A |- *; try tauto.
    eapply fb_weaken; [| |exact A]; [cbn [e depth]; lia|apply pmax_l]. }
  pose proof (union_agree b o i O D Ni) as Ai. fold e in Ai.
  assert (Eu : holes_union (map val_elem i) = Ok (fold_left bbox_add bbs BNone)).
  { assert (Ei' : Forall2 (fun e x => elem_bbox e = Ok x) (map val_elem i) bbs) by (clear - Ei; induction Ei; constructor; auto).
    unfold holes_union. rewrite (foldM_ext _ (fun acc a => let* x := elem_bbox a in Ok (bbox_add acc x))).
    2:{ intros s a. unfold elem_bbox. destruct (elem_bbox_int a); reflexivity. }
    rewrite fold_boxes, (proj2 (collect_iff _ _ _) Ei'). reflexivity. }
  rewrite Eo in Ao. rewrite Eu in Ai.
  assert (G : Forall good bbs /\ Forall (fun x => x <> BNone) bbs).
  { clear - Ei. induction Ei as [|a x l bbs E _ [IH1 IH2]]; [split; constructor|]. destruct (elem_bbox_good _ _ E). split; constructor; auto. }
  destruct G as [G Nn]. destruct (fold_least bbs G BNone I) as (Gu & Nu & _ & Du & Lu).
  assert (Nbb : bbs <> []) by (intros ->; inversion Ei; subst; congruence).
  assert (Nu' : fold_left bbox_add bbs BNone <> BNone).
  { apply Nu. right. destruct bbs as [|x bbs']; [congruence|]. inversion Nn; subst. now constructor. }
  revert Ai Gu Du Lu Nu'. generalize (fold_left bbox_add bbs BNone). clear Eu Nu. intros u Ai Gu Du Lu Nu.
  destruct (elem_bbox_int o) as [fo|] eqn:Fo; [|contradiction]. destruct (holes_union i) as [fu|] eqn:Fu; [|contradiction]. cbn [both] in Ao, Ai.
  destruct u as [|xl' yl' xh' yh']; [congruence|]. destruct fu as [|gxl gyl gxh gyh]; [contradiction|].
  destruct (bbox_int_good _ _ Eo) as [Go No']. destruct out as [|xl yl xh yh]; [congruence|]. destruct fo as [|fxl fyl fxh fyh]; [contradiction|].
  assert (K : forall A z r, fn (3 * depth e) A z r -> Rabs (val z - r) <= INR (3 * depth e + 1) * eps * A).
  { intros A z r [Fz N]. pose proof (near_pos _ _ _ _ N). destruct N as [_ N]. specialize (N Fz).
    eapply Rle_trans; [exact N|]. apply Rmult_le_compat_r; [assumption|].
    pose proof (growth (3 * depth e) ltac:(lia)) as Gr. replace (S (3 * depth e)) with (3 * depth e + 1)%nat in Gr by lia. lra. }
  destruct Ao as (Ax & Ay & Ax' & Ay'), Ai as (Bx & By & Bx' & By').
  pose proof (K _ _ _ Ax) as KAx. pose proof (K _ _ _ Ay) as KAy. pose proof (K _ _ _ Ax') as KAx'. pose proof (K _ _ _ Ay') as KAy'.
  pose proof (K _ _ _ Bx) as KBx. pose proof (K _ _ _ By) as KBy. pose proof (K _ _ _ Bx') as KBx'. pose proof (K _ _ _ By') as KBy'.
  clear K. apply Rabs_le_inv in KAx, KAy, KAx', KAy', KBx, KBy, KBx', KBy'.
  destruct Ax as [Ax _], Ay as [Ay _], Ax' as [Ax' _], Ay' as [Ay' _], Bx as [Bx _], By as [By _], Bx' as [Bx' _], By' as [By' _].
  assert (Ee : elem_bbox e = let* c := bbox_contains (BB fxl fyl fxh fyh) (BB gxl gyl gxh gyh) in
      bind (if c then Ok (BB fxl fyl fxh fyh) else Raise AssertionError) (bbox_ext (e_xform b))).
  { unfold elem_bbox, e. cbn [elem_bbox_int]. rewrite Fo. cbn [bind]. change (foldM _ BNone i) with (holes_union i). rewrite Fu. reflexivity. }
  cbn [bbox_contains bind] in Ee. cbn [nleb NumFloat] in Ee. rewrite !leb_ok in Ee by assumption.
  apply good_R in Gu. destruct Gu as [Gx Gy].
  revert KAx KAy KAx' KAy' KBx KBy KBx' KBy'. generalize (INR (3 * depth e + 1) * eps * px (extent e)), (INR (3 * depth e + 1) * eps * py (extent e)).
  intros dx dy KAx KAy KAx' KAy' KBx KBy KBx' KBy'. split.
  - intros [bb Eb]. rewrite Ee in Eb.
    destruct ((Rleb (val fxl) (val gxl) && Rleb (val gxh) (val fxh) && Rleb (val fyl) (val gyl) && Rleb (val gyh) (val fyh))%bool) eqn:T; [|discriminate].
    rewrite !Bool.andb_true_iff, !Rleb_le in T. intros x Hx p q Op Oq H. apply (Du x Hx p q Op Oq) in H. revert H.
    cbn [widened]. unfold S_bbox.in_box, S_bbox.le. cbn [nleb NumR]. rewrite !Rleb_le. lra.
  - intros H.
    assert (Sb : sub_box (BB xl' yl' xh' yh') (widened (- (2 * dx)) (- (2 * dy)) (BB xl yl xh yh))).
    { apply Lu; [|intros p q _ _ []|exact H]. cbn [widened]. apply good_R. destruct bbs as [|x bbs']; [congruence|].
      specialize (H x (or_introl eq_refl)). inversion G as [|? ? Gx1 _]; subst. inversion Nn as [|? ? Nx1 _]; subst. destruct x as [|a1 a2 a3 a4]; [congruence|].
      apply good_R in Gx1. specialize (H a1 a2 I I). revert H. cbn [widened]. unfold S_bbox.in_box, S_bbox.le. cbn [nleb NumR]. rewrite !Rleb_le. lra. }
    pose proof (Sb xl' yl' I I) as S1. pose proof (Sb xh' yh' I I) as S2. revert S1 S2. cbn [widened]. unfold S_bbox.in_box, S_bbox.le. cbn [nleb NumR]. rewrite !Rleb_le. intros S1 S2.
    assert (T : (Rleb (val fxl) (val gxl) && Rleb (val gxh) (val fxh) && Rleb (val fyl) (val gyl) && Rleb (val gyh) (val fyh))%bool = true).
    { rewrite !Bool.andb_true_iff, !Rleb_le. lra. }
    rewrite Ee, T. cbn. eexists. reflexivity.
Qed.

(* With holes, rounding may decide whether a hole is inside: here the hole ends at 1 + 2^-60, which is rounded to 1. *)
Definition tight : elem float :=
  (EHoles (plain "tight" t_new) (ELeaf (plain "out" t_new) (SRect (P 0 0) (P 1 1)))
    [ELeaf (plain "in" (T (M 1 0 1 0 1 0 0 0 1) None [])) (SRect (P 0 0) (P 0x1p-60 1))])%float%string.
Theorem C92_holes_refuted : no_overflow tight /\ (exists b, elem_bbox tight = Ok b) /\ elem_bbox (val_elem tight) = Raise AssertionError.
Proof.
  assert (C : forall z, (Z.abs z <= 2 ^ 53)%Z -> val (float_ofZ z) = IZR z) by (intros z Hz; apply const_ok; exact Hz).
  pose proof (C 0%Z ltac:(vm_compute; discriminate)) as V0. pose proof (C 1%Z ltac:(vm_compute; discriminate)) as V1.
  change (float_ofZ 0) with 0%float in V0. change (float_ofZ 1) with 1%float in V1.
  assert (Vh : 0 < val 0x1p-60%float <= 1).
  { unfold val. rewrite <- SF2R_B2SF, B2SF_Prim2B.
    replace (Prim2SF 0x1p-60%float) with (S754_finite false 4503599627370496 (-112)) by (vm_compute; reflexivity).
    cbn [SF2R]. unfold F2R. cbn. lra. }
  split; [|split].
  - pose proof tiny_pos as Tp. pose proof P_float9.tiny_small as Ts.
    assert (Big : 1000 <= 2 ^ 1000) by (apply Rle_trans with (2 ^ 10); [cbn; lra|apply Rle_pow; [lra|lia]]).
    unfold tight. cbn [no_overflow e_base e_xform plain map fold_right tmat].
    assert (Hs : forall p, px p <= 1000 -> py p <= 1000 -> small p) by (unfold small; intros; lra).
    assert (Ph : Rabs (val 0x1p-60%float) = val 0x1p-60%float) by (apply Rabs_right; lra).
    repeat match goal with |- _ /\ _ => split | |- True => exact I | |- small _ => apply Hs | |- finite_mat _ => unfold finite_mat | |- finitep _ => unfold finitep | |- finite _ => vm_compute; reflexivity end;
    cbn [outer_extent extent e_base e_xform plain map fold_right tmat];
    lazy beta iota zeta delta [outer_extent extent stretch pmax plain e_base e_xform t_new mat_id px py tmat m00 m01 m02 m10 m11 m12 nofZ NumFloat map fold_right];
    change (float_ofZ 0) with 0%float; change (float_ofZ 1) with 1%float;
    rewrite ?V0, ?V1, ?Ph, ?Rabs_R0, ?Rabs_R1; revert Tp Ts Vh; generalize tiny, (val 0x1p-60%float); clear; intros u h Tp Ts Vh;
    max_go; lra.
  - vm_compute. eexists. reflexivity.
  - unfold tight, elem_bbox. cbn [val_elem val_shape map].
    match goal with |- bind (elem_bbox_int (EHoles ?b ?o [?i])) _ = _ => 
      destruct (C49_box b o [i] (bbox_of_pts (valp (P 0 0)%float) (valp (P 1 1)%float)) [match elem_bbox i with Ok x => x | Raise _ => BNone end] eq_refl) as (_ & _ & K) end.
    { constructor; [reflexivity|constructor]. }
    rewrite K; [reflexivity|discriminate|]. eexists. split; [now left|]. intros S. cbn [elem_bbox] in S.
    match type of S with sub_box (match elem_bbox ?i with _ => _ end) _ => destruct (elem_bbox i) as [bo|] eqn:Eb; [|discriminate Eb] end.
    unfold elem_bbox in Eb. cbn [elem_bbox_int shape_bbox_int bind e_base val_base plain e_xform] in Eb. apply bbox_ext_R in Eb. destruct Eb as [_ Eb].
    specialize (Eb (P (val 0x1p-60%float) 1)).
    assert (H : P_elems.holds (bbox_of_pts (valp (P 0 0)%float) (valp (P 0x1p-60 1)%float)) (P (val 0x1p-60%float) 1)).
    { unfold P_elems.holds, bbox_of_pts, valp. cbn [px py]. rewrite mkbbox_R, V0, V1. unfold S_bbox.in_box, S_bbox.le. cbn [nleb NumR]. rewrite !Rleb_le.
      rewrite !Rmin_left, !Rmax_right by lra. lra. }
    specialize (Eb H). specialize (S _ _ I I Eb). revert S. unfold S_bbox.in_box, S_bbox.le, bbox_of_pts, valp, t_transform, mat_apply, valt, valm, mat_map.
    cbn [px py tmat m00 m01 m02 m10 m11 m12]. rewrite mkbbox_R, V0, V1. cbn [nleb NumR nofZ nadd nmul]. rewrite !Rleb_le, Rmax_right by lra. lra.
Qed.

(* the picture of C89 without the hole: a moved and enlarged group of a closed curve, a rectangle and an ellipse *)
Definition picture2 : elem float :=
  (EGroup (plain "all" (T (M 2 0 100 0 2 50 0 0 1) None [])) false
    [("curve", ELeaf (plain "curve" t_new) (SCurve [CP (P 0 0) (V 1 2) (V 2 1) "smooth"; CP (P 10 5) (V 2 0) (V 2 0) "smooth"]));
     ("rect", ELeaf (plain "rect" t_new) (SRect (P 0 0) (P 4 4)));
     ("ellipse", ELeaf (plain "ellipse" t_new) (SEllipse (P 0 0) (P 10 5)))] [])%float%string.
Example C92_example : no_overflow picture2 /\ depth picture2 = 2%nat /\ no_holes picture2 /\ boxable (val_elem picture2) /\
  @within c_library 1000 (absm (tmat t_new)) picture2 /\ elem_bbox picture2 = Ok (BB 100 50 124 60)%float /\
  exists l, snd (@elem_paths float _ _ c_library (DC false 20) picture2 t_new) = Ok l /\ List.length l = 3%nat.
Proof.
  assert (C : forall z, (Z.abs z <= 2 ^ 53)%Z -> val (float_ofZ z) = IZR z) by (intros z Hz; apply const_ok; exact Hz).
  pose proof (C 0%Z ltac:(vm_compute; discriminate)) as V0. pose proof (C 1%Z ltac:(vm_compute; discriminate)) as V1. pose proof (C 2%Z ltac:(vm_compute; discriminate)) as V2.
  pose proof (C 4%Z ltac:(vm_compute; discriminate)) as V4. pose proof (C 5%Z ltac:(vm_compute; discriminate)) as V5. pose proof (C 10%Z ltac:(vm_compute; discriminate)) as V10.
  pose proof (C 50%Z ltac:(vm_compute; discriminate)) as V50. pose proof (C 100%Z ltac:(vm_compute; discriminate)) as V100.
  change (float_ofZ 0) with 0%float in V0. change (float_ofZ 1) with 1%float in V1. change (float_ofZ 2) with 2%float in V2. change (float_ofZ 4) with 4%float in V4.
  change (float_ofZ 5) with 5%float in V5. change (float_ofZ 10) with 10%float in V10. change (float_ofZ 50) with 50%float in V50. change (float_ofZ 100) with 100%float in V100.
  pose proof tiny_pos as Tp. pose proof P_float9.tiny_small as Ts.
  assert (Rb : forall n : positive, Rabs (IZR (Zpos n)) = IZR (Zpos n)) by (intros n; apply Rabs_right; apply Rle_ge, IZR_le; lia).
  split; [|split; [reflexivity|split; [cbn; auto|split; [|split; [|split; [vm_compute; reflexivity|vm_compute; eexists; split; reflexivity]]]]]].
  - assert (Big : 1000 <= 2 ^ 1000) by (apply Rle_trans with (2 ^ 10); [cbn; lra|apply Rle_pow; [lra|lia]]).
    assert (Hs : forall p, px p <= 1000 -> py p <= 1000 -> small p) by (unfold small; intros; lra).
    unfold picture2. cbn [no_overflow e_base e_xform plain map fold_right tmat snd].
    repeat match goal with |- forall c, In c _ -> _ => let H := fresh in intros ? H; cbn [In] in H; repeat (destruct H as [<-|H]); [| |destruct H]
      | |- _ /\ _ => split | |- True => exact I | |- small _ => apply Hs | |- finite_mat _ => unfold finite_mat | |- finitep _ => unfold finitep | |- finite _ => vm_compute; reflexivity end;
    lazy beta iota zeta delta [outer_extent extent stretch spread cc cdl cdr vx vy pmax plain e_base e_xform t_new mat_id px py tmat m00 m01 m02 m10 m11 m12 nofZ NumFloat map fold_right snd];
    change (float_ofZ 0) with 0%float; change (float_ofZ 1) with 1%float;
    rewrite ?V0, ?V1, ?V2, ?V4, ?V5, ?V10, ?V50, ?V100, ?Rb, ?Rabs_R0; revert Tp Ts; generalize tiny; clear; intros u Tp Ts;
    max_go; lra.
  - assert (A : forall a b c d x y : float, affine_mat (valm (M a b c d x y 0 0 1)%float)).
    { intros. unfold affine_mat, valm, mat_map. cbn [m20 m21 m22]. rewrite V0, V1. auto. }
    unfold picture2. cbn [val_elem map fst snd]. constructor; [apply A|]. intros k e [H|[H|[H|[]]]]; apply (f_equal snd) in H; cbn [snd] in H; subst e; constructor; try apply A; exact I.
  - unfold picture2. cbn [within e_base e_xform plain map fold_right snd fst tmat].
  repeat match goal with |- _ /\ _ => split | |- True => exact I | |- forall _, _ => intros end;
    lazymatch goal with |- finite _ => vm_compute; reflexivity | |- Rabs _ <= 8 * eps => exact c_library_accurate | |- _ => idtac end;
    cbn [In px py] in *; repeat match goal with H : _ \/ _ |- _ => destruct H | H : False |- _ => destruct H end; subst;
    lazy beta iota zeta delta [t_new spread abs_dot mat_map absm mat_id mat_dot mat_apply cc cdl cdr px py vx vy tmat m00 m01 m02 m10 m11 m12 m20 m21 m22 nadd nmul nofZ NumR NumFloat];
    change (float_ofZ 0) with 0%float; change (float_ofZ 1) with 1%float;
    rewrite ?V0, ?V1, ?V2, ?V4, ?V5, ?V10, ?V50, ?V100, ?Rb, ?Rabs_R0;
    revert Tp Ts; generalize tiny; clear; intros u Tp Ts;
    assert (U2 : 0 <= u * u <= u) by nra; assert (U3 : 0 <= u * (u * u) <= u * 1) by (split; [apply Rmult_le_pos; lra|apply Rmult_le_compat_l; lra]); 
    assert (U4 : 0 <= u * (u * (u * u)) <= u * 1) by (split; [apply Rmult_le_pos; lra|apply Rmult_le_compat_l; lra]); lra.
Qed.
Example C92_example_holes : no_overflow tight /\ (depth tight <= 300)%nat /\
  match tight with
  | EHoles _ o i => no_holes o /\ (forall e, In e i -> no_holes e) /\ i <> [] /\
      exists out bbs, elem_bbox_int (val_elem o) = Ok out /\ Forall2 (fun e x => elem_bbox (val_elem e) = Ok x) i bbs
  | _ => False
  end.
Proof.
  split; [apply C92_holes_refuted|]. split; [cbn; lia|]. cbn [tight]. split; [exact I|]. split; [intros e [<-|[]]; exact I|]. split; [discriminate|].
  do 2 eexists. split; [reflexivity|]. constructor; [reflexivity|constructor].
Qed.
