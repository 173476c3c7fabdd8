(* Property theorems C80: whole-number coordinates are computed exactly on doubles. *)
From Coq Require Import Reals Floats ZArith List Lra Lia String.
From Flocq Require Import Core BinarySingleNaN PrimFloat.
Require Import Verif.Base Verif.NumFloat Verif.NumR Verif.M_vector Verif.M_bbox Verif.M_transform Verif.M_bezier.
Require Import Verif.M_points Verif.S_float Verif.L_float Verif.L_float2 Verif.P_float Verif.P_float2.
Import ListNotations.
Set Warnings "-inexact-float".
Local Open Scope R_scope.

Lemma whole_pos k x : whole k x -> (0 <= k)%Z.
Proof. intros (_ & z & _ & H). lia. Qed.
Lemma exactly_whole k x r : exactly k x r -> whole k x.
Proof. intros (F & E & z & Ez & H). split; [auto|]. exists z. split; [congruence|auto]. Qed.
Lemma exactly_val k x r : exactly k x r -> val x = r.
Proof. now intros (_ & H & _). Qed.
Lemma exactly_fin k x r : exactly k x r -> finite x.
Proof. now intros (H & _). Qed.

(* ------------------------------------------------------------------ *)
(** ** points and vectors *)

Theorem C80_points_vectors (p q : pt float) (v w : vec float) (k l : Z) :
  wholep k p -> wholep l q -> wholev l v -> wholev k w -> (k + l <= 2 ^ 53)%Z ->
  (valp (p_add p v) = p_add (valp p) (valv v) /\ wholep (k + l) (p_add p v)) /\
  (valv (p_sub p q) = p_sub (valp p) (valp q) /\ wholev (k + l) (p_sub p q)) /\
  (valv (v_add w v) = v_add (valv w) (valv v) /\ wholev (k + l) (v_add w v)) /\
  (valv (v_sub w v) = v_sub (valv w) (valv v) /\ wholev (k + l) (v_sub w v)) /\
  (valv (v_neg v) = v_neg (valv v) /\ wholev l (v_neg v)).
Proof.
  intros [Hp Hp'] [Hq Hq'] [Hv Hv'] [Hw Hw'] H.
  apply exactly_leaf in Hp, Hp', Hq, Hq', Hv, Hv', Hw, Hw'.
  pose proof (exactly_add _ _ _ _ _ _ Hp Hv H). pose proof (exactly_add _ _ _ _ _ _ Hp' Hv' H).
  pose proof (exactly_sub _ _ _ _ _ _ Hp Hq H). pose proof (exactly_sub _ _ _ _ _ _ Hp' Hq' H).
  pose proof (exactly_add _ _ _ _ _ _ Hw Hv H). pose proof (exactly_add _ _ _ _ _ _ Hw' Hv' H).
  pose proof (exactly_sub _ _ _ _ _ _ Hw Hv H). pose proof (exactly_sub _ _ _ _ _ _ Hw' Hv' H).
  pose proof (exactly_opp _ _ _ Hv). pose proof (exactly_opp _ _ _ Hv').
  unfold valp, valv, p_add, p_sub, v_add, v_sub, v_neg, wholep, wholev. cbn [px py vx vy]. ops.
  repeat match goal with |- _ /\ _ => split end;
    try (eapply exactly_whole; eassumption); f_equal; eapply exactly_val; eassumption.
Qed.

Theorem C80_dot_cross (v w : vec float) (k l : Z) : wholev k v -> wholev l w -> (2 * k * l <= 2 ^ 53)%Z ->
  val (v_dot v w) = v_dot (valv v) (valv w) /\ val (v_cross v w) = v_cross (valv v) (valv w) /\
  whole (2 * k * l) (v_dot v w) /\ whole (2 * k * l) (v_cross v w).
Proof.
  intros [Hv Hv'] [Hw Hw'] H. pose proof (whole_pos _ _ Hv) as K. pose proof (whole_pos _ _ Hw) as L.
  apply exactly_leaf in Hv, Hv', Hw, Hw'.
  assert (Q : (k * l <= max_whole)%Z) by (unfold max_whole; nia).
  assert (Q2 : (k * l + k * l <= max_whole)%Z) by (unfold max_whole; lia).
  pose proof (exactly_mul _ _ _ _ _ _ Hv Hw K L Q) as A. pose proof (exactly_mul _ _ _ _ _ _ Hv' Hw' K L Q) as B.
  pose proof (exactly_mul _ _ _ _ _ _ Hv Hw' K L Q) as C. pose proof (exactly_mul _ _ _ _ _ _ Hv' Hw K L Q) as D.
  pose proof (exactly_add _ _ _ _ _ _ A B Q2) as E. pose proof (exactly_sub _ _ _ _ _ _ C D Q2) as G.
  replace (k * l + k * l)%Z with (2 * k * l)%Z in * by ring.
  unfold v_dot, v_cross. ops. cbn [valv vx vy]. repeat split.
  - exact (exactly_val _ _ _ E).
  - exact (exactly_val _ _ _ G).
  - apply E.
  - apply (exactly_whole _ _ _ E).
  - apply G.
  - apply (exactly_whole _ _ _ G).
Qed.

(* ------------------------------------------------------------------ *)
(** ** transforms *)

Lemma dot3 k1 k2 k3 l1 l2 l3 a b c x y z r1 r2 r3 s1 s2 s3 :
  exactly k1 a r1 -> exactly k2 b r2 -> exactly k3 c r3 -> exactly l1 x s1 -> exactly l2 y s2 -> exactly l3 z s3 ->
  (k1 * l1 + k2 * l2 + k3 * l3 <= max_whole)%Z ->
  exactly (k1 * l1 + k2 * l2 + k3 * l3) (a * x + b * y + c * z)%float (r1 * s1 + r2 * s2 + r3 * s3).
Proof.
  intros A B C X Y Z H.
  assert (forall k x r, exactly k x r -> (0 <= k)%Z) as P0 by (intros ? ? ? (_ & _ & w & _ & Hw); lia).
  pose proof (P0 _ _ _ A). pose proof (P0 _ _ _ B). pose proof (P0 _ _ _ C). pose proof (P0 _ _ _ X). pose proof (P0 _ _ _ Y). pose proof (P0 _ _ _ Z).
  assert (0 <= k1 * l1)%Z by nia. assert (0 <= k2 * l2)%Z by nia. assert (0 <= k3 * l3)%Z by nia.
  apply exactly_add; [apply exactly_add| |]; try apply exactly_mul; auto; lia.
Qed.
Lemma exactly_01 : exactly 0 (float_ofZ 0) 0 /\ exactly 1 (float_ofZ 1) 1.
Proof. split; [apply (exactly_const 0)|apply (exactly_const 1)]; vm_compute; discriminate. Qed.
Lemma exactly_one x : finite x -> val x = 1 -> exactly 1 x 1.
Proof. intros F E. split; [auto|split; [auto|]]. exists 1%Z. split; [auto|lia]. Qed.

(* the nine entries of a product *)
Definition entries (s : Z * Z) (m : mat float) (n : mat R) : Prop :=
  exactly (fst s) (m00 m) (m00 n) /\ exactly (fst s) (m01 m) (m01 n) /\ exactly (snd s) (m02 m) (m02 n) /\
  exactly (fst s) (m10 m) (m10 n) /\ exactly (fst s) (m11 m) (m11 n) /\ exactly (snd s) (m12 m) (m12 n) /\
  exactly 0 (m20 m) (m20 n) /\ exactly 0 (m21 m) (m21 n) /\ (exactly 1 (m22 m) (m22 n) /\ m22 n = 1).
Lemma wholem_entries s m : wholem s m -> entries s m (valm m).
Proof.
  intros (A & B & C & D & E & F & G & H & I & J). unfold entries. cbn [valm m00 m01 m02 m10 m11 m12 m20 m21 m22].
  repeat match goal with |- _ /\ _ => split end; try (apply exactly_leaf; assumption); auto.
  rewrite J. now apply exactly_one.
Qed.
Lemma entries_wholem s m n : entries s m n -> wholem s m /\ valm m = n.
Proof.
  intros (A & B & C & D & E & F & G & H & I & J). split.
  - unfold wholem. repeat match goal with |- _ /\ _ => split end; try (eapply exactly_whole; eassumption).
    rewrite (exactly_val _ _ _ I). exact J.
  - destruct n as [n0 n1 n2 n3 n4 n5 n6 n7 n8]. unfold valm. cbn [m00 m01 m02 m10 m11 m12 m20 m21 m22] in *. f_equal; eapply exactly_val; eassumption.
Qed.
Lemma exactly_zero k x r : exactly k x r -> (k = 0)%Z -> r = 0.
Proof. intros (_ & _ & z & -> & H) ->. replace z with 0%Z by lia. reflexivity. Qed.
Lemma exactly_sharp k x r : exactly k x r -> r = 1 -> exactly 1 x r.
Proof. intros (A & B & _) ->. split; [auto|split; [auto|]]. exists 1%Z. split; [auto|lia]. Qed.
Lemma exactly_sharp0 k x r : exactly k x r -> r = 0 -> exactly 0 x r.
Proof. intros (A & B & _) ->. split; [auto|split; [auto|]]. exists 0%Z. split; [auto|lia]. Qed.

Lemma entries_pos s m n : entries s m n -> (0 <= fst s)%Z /\ (0 <= snd s)%Z.
Proof. intros ((_ & _ & z & _ & H) & _ & (_ & _ & z' & _ & H') & _). lia. Qed.

(* a product of whole matrices: general, and with the matrix of translate or of scale *)
Lemma dot_entries a d la ld (A : mat float) A' (B : mat float) B' : entries (a, d) A A' -> entries (la, ld) B B' ->
  (2 * a * la <= max_whole)%Z -> (2 * a * ld + d <= max_whole)%Z ->
  entries (2 * a * la, 2 * a * ld + d)%Z (mat_dot A B) (mat_dot A' B').
Proof.
  intros HA HB H1 H2. pose proof (entries_pos _ _ _ HA) as [P1 P2]. pose proof (entries_pos _ _ _ HB) as [P3 P4].
  destruct HA as (A0 & A1 & A2 & A3 & A4 & A5 & A6 & A7 & A8 & A9). destruct HB as (B0 & B1 & B2 & B3 & B4 & B5 & B6 & B7 & B8 & B9).
  cbn [fst snd] in *.
  pose proof (exactly_zero _ _ _ A6 eq_refl) as Z6. pose proof (exactly_zero _ _ _ A7 eq_refl) as Z7.
  pose proof (exactly_zero _ _ _ B6 eq_refl) as Y6. pose proof (exactly_zero _ _ _ B7 eq_refl) as Y7.
  assert (0 <= a * la)%Z by nia. assert (0 <= a * ld)%Z by nia.
  assert (M1 : (1 <= max_whole)%Z) by (vm_compute; discriminate).
  unfold entries, mat_dot. cbn [m00 m01 m02 m10 m11 m12 m20 m21 m22 fst snd]. ops.
  repeat match goal with |- _ /\ _ => split end.
  all: try (eapply exactly_le; [|eapply dot3; [eassumption|eassumption|eassumption|eassumption|eassumption|eassumption|lia]]; lia).
  rewrite Z6, Z7, A9, B9. ring.
Qed.

Lemma translate_entries a d l dx dy (B : mat float) B' : whole l dx -> whole l dy -> entries (a, d) B B' ->
  (a <= max_whole)%Z -> (d + l <= max_whole)%Z ->
  entries (a, d + l)%Z (mat_dot (translate_mat dx dy) B) (mat_dot (translate_mat (val dx) (val dy)) B').
Proof.
  intros Hx Hy HB H1 H2. pose proof (entries_pos _ _ _ HB) as [P3 P4]. pose proof (whole_pos _ _ Hx) as L0.
  apply exactly_leaf in Hx, Hy. destruct exactly_01 as [E0 E1].
  destruct HB as (B0 & B1 & B2 & B3 & B4 & B5 & B6 & B7 & B8 & B9). cbn [fst snd] in *.
  pose proof (exactly_zero _ _ _ B6 eq_refl) as Y6. pose proof (exactly_zero _ _ _ B7 eq_refl) as Y7.
  assert (M1 : (1 <= max_whole)%Z) by (vm_compute; discriminate).
  unfold entries, mat_dot, translate_mat. cbn [m00 m01 m02 m10 m11 m12 m20 m21 m22 fst snd]. ops.
  repeat match goal with |- _ /\ _ => split end.
  all: try (eapply exactly_le; [|eapply dot3; [eassumption|eassumption|eassumption|eassumption|eassumption|eassumption|lia]]; lia).
  rewrite B9. ring.
Qed.
Lemma scale_entries a d l sx sy (B : mat float) B' : whole l sx -> whole l sy -> entries (a, d) B B' ->
  (l * a <= max_whole)%Z -> (l * d <= max_whole)%Z ->
  entries (l * a, l * d)%Z (mat_dot (scale_mat sx sy) B) (mat_dot (scale_mat (val sx) (val sy)) B').
Proof.
  intros Hx Hy HB H1 H2. pose proof (entries_pos _ _ _ HB) as [P3 P4]. pose proof (whole_pos _ _ Hx) as L0.
  apply exactly_leaf in Hx, Hy. destruct exactly_01 as [E0 E1].
  destruct HB as (B0 & B1 & B2 & B3 & B4 & B5 & B6 & B7 & B8 & B9). cbn [fst snd] in *.
  pose proof (exactly_zero _ _ _ B6 eq_refl) as Y6. pose proof (exactly_zero _ _ _ B7 eq_refl) as Y7.
  assert (M1 : (1 <= max_whole)%Z) by (vm_compute; discriminate).
  unfold entries, mat_dot, scale_mat. cbn [m00 m01 m02 m10 m11 m12 m20 m21 m22 fst snd]. ops.
  repeat match goal with |- _ /\ _ => split end.
  all: try (eapply exactly_le; [|eapply dot3; [eassumption|eassumption|eassumption|eassumption|eassumption|eassumption|lia]]; lia).
  rewrite B9. ring.
Qed.

(* the point a whole-number matrix sends a whole-number point to *)
Theorem C80_transform (t : transform float) (p : pt float) (a d n : Z) :
  wholem (a, d) (tmat t) -> wholep n p -> (2 * a * n + d <= 2 ^ 53)%Z ->
  valp (t_transform t p) = t_transform (valt t) (valp p) /\ wholep (2 * a * n + d) (t_transform t p).
Proof.
  intros Hm [Hx Hy] H. pose proof (whole_pos _ _ Hx). apply wholem_entries in Hm. pose proof (entries_pos _ _ _ Hm) as [P1 P2].
  destruct Hm as (A0 & A1 & A2 & A3 & A4 & A5 & _). cbn [fst snd] in *. apply exactly_leaf in Hx, Hy. destruct exactly_01 as [_ E1].
  assert (0 <= a * n)%Z by nia. assert (W : (a * n + a * n + d * 1 <= max_whole)%Z) by (unfold max_whole; lia).
  pose proof (dot3 _ _ _ _ _ _ _ _ _ _ _ _ _ _ _ _ _ _ A0 A1 A2 Hx Hy E1 W) as X.
  pose proof (dot3 _ _ _ _ _ _ _ _ _ _ _ _ _ _ _ _ _ _ A3 A4 A5 Hx Hy E1 W) as Y.
  replace (a * n + a * n + d * 1)%Z with (2 * a * n + d)%Z in * by ring.
  split; [|split; eapply exactly_whole; eassumption].
  unfold t_transform, mat_apply, valp at 1. cbn [px py]. f_equal; [exact (exactly_val _ _ _ X)|exact (exactly_val _ _ _ Y)].
Qed.

(* any history of calls with whole-number arguments leads to exactly the exact matrix *)
Theorem C80_history {TR : NumTrig R} {TF : NumTrig float} (calls : list ((Z * Z) * top float)) :
  forall (b : Z * Z) (st : list (Z * Z)) (t : transform float),
  wholem b (tmat t) -> Forall2 wholem st (tstack t) -> (fst b <= 2 ^ 53)%Z -> (snd b <= 2 ^ 53)%Z -> fits calls b st ->
  valt (trun (map snd calls) t) = trun (map valop (map snd calls)) (valt t).
Proof.
  induction calls as [|[s o] calls IH]; intros b st t Hm Hs Wa Wd Hf; [reflexivity|].
  cbn [fits] in Hf. destruct Hf as [Hz Hf]. cbn [map snd]. unfold trun. cbn [fold_left]. fold (trun (map snd calls) (fst (tstep o t))).
  fold (trun (map valop (map snd calls)) (fst (tstep (valop o) (valt t)))).
  destruct (grow s o b st) as [b' st'] eqn:G. destruct Hf as (Wa' & Wd' & Hf).
  assert (Step : wholem b' (tmat (fst (tstep o t))) /\ Forall2 wholem st' (tstack (fst (tstep o t))) /\ valt (fst (tstep o t)) = fst (tstep (valop o) (valt t))).
  { pose proof (wholem_entries _ _ Hm) as He. destruct b as [a d], s as [la ld]. pose proof (entries_pos _ _ _ He) as [P1 P2]. cbn [fst snd] in *.
    destruct o; cbn [sized] in Hz; try contradiction; cbn [grow] in G.
    - injection G as <- <-. cbn [fst snd] in *. destruct Hz as [Hx Hy]. pose proof (whole_pos _ _ Hx).
      pose proof (translate_entries _ _ _ _ _ _ _ Hx Hy He Wa Wd') as K. apply entries_wholem in K as [K1 K2].
      split; [exact K1|]. split; [exact Hs|]. unfold valt. cbn [tstep fst valop t_translate t_pre tmat tinv tstack option_map]. now rewrite K2.
    - injection G as <- <-. cbn [fst snd] in *. destruct Hz as [Hx Hy].
      pose proof (scale_entries _ _ _ _ _ _ _ Hx Hy He Wa' Wd') as K. apply entries_wholem in K as [K1 K2].
      split; [exact K1|]. split; [exact Hs|]. unfold valt. cbn [tstep fst valop t_scale t_pre tmat tinv tstack option_map]. now rewrite K2.
    - injection G as <- <-. cbn [fst snd] in *. apply wholem_entries in Hz.
      pose proof (dot_entries _ _ _ _ _ _ _ _ He Hz Wa' Wd') as K. apply entries_wholem in K as [K1 K2].
      split; [exact K1|]. split; [exact Hs|]. unfold valt. cbn [tstep fst valop t_compose tmat tinv tstack option_map]. now rewrite K2.
    - injection G as <- <-. cbn [fst snd] in *. apply wholem_entries in Hz.
      pose proof (dot_entries _ _ _ _ _ _ _ _ Hz He Wa' Wd') as K. apply entries_wholem in K as [K1 K2].
      split; [exact K1|]. split; [exact Hs|]. unfold valt. cbn [tstep fst valop t_compose_outer t_pre tmat tinv tstack option_map]. now rewrite K2.
    - injection G as <- <-. destruct exactly_01 as [E0 E1].
      assert (K : entries (1, 0)%Z mat_id mat_id).
      { unfold entries, mat_id. cbn [m00 m01 m02 m10 m11 m12 m20 m21 m22 fst snd]. ops.
        repeat match goal with |- _ /\ _ => split end; auto; (eapply exactly_le; [|exact E0]; lia). }
      apply entries_wholem in K as [K1 K2]. split; [exact K1|]. split; [exact Hs|]. unfold valt. cbn [tstep fst valop t_reset tmat tinv tstack option_map]. now rewrite K2.
    - injection G as <- <-. split; [exact Hz|]. split; [exact Hs|]. reflexivity.
    - injection G as <- <-. split; [exact Hm|]. split; [constructor; assumption|]. reflexivity.
    - destruct t as [tm ti ts]. cbn [tmat tstack] in *. inversion Hs as [E1 E2|x y l l' Hxy Hs' E1 E2]; subst.
      + injection G as <- <-. split; [exact Hm|]. split; [constructor|]. reflexivity.
      + injection G as <- <-. split; [exact Hxy|]. split; [exact Hs'|]. reflexivity.
    - injection G as <- <-. split; [exact Hm|]. split; [exact Hs|]. reflexivity. }
  destruct Step as (S1 & S2 & S3). rewrite (IH b' st' _ S1 S2 Wa' Wd' Hf), S3. reflexivity.
Qed.

(* ------------------------------------------------------------------ *)
(** ** middles, areas *)

Lemma half_format z : (Z.abs z <= max_whole)%Z -> generic_format radix2 fexp64 (IZR z / 2).
Proof.
  intros H. assert (Z.abs z < max_whole \/ Z.abs z = max_whole)%Z as [L|E] by lia.
  - apply generic_format_FLT. exists (Float radix2 z (-1)).
    + unfold F2R. cbn. unfold Rdiv. reflexivity.
    + exact L.
    + cbn. lia.
  - assert (z = max_whole \/ z = - max_whole)%Z as [->| ->] by lia.
    + replace (IZR max_whole / 2) with (IZR (2 ^ 52)) by (unfold max_whole; replace (2 ^ 53)%Z with (2 ^ 52 * 2)%Z by reflexivity; rewrite mult_IZR; field).
      apply int_format. vm_compute. discriminate.
    + replace (IZR (- max_whole) / 2) with (IZR (- 2 ^ 52)) by (unfold max_whole; replace (- 2 ^ 53)%Z with (- 2 ^ 52 * 2)%Z by reflexivity; rewrite mult_IZR; field).
      apply int_format. vm_compute. discriminate.
Qed.
Lemma exactly_half k x r : exactly k x r -> (k <= max_whole)%Z -> finite (x / float_ofZ 2)%float /\ val (x / float_ofZ 2)%float = r / 2.
Proof.
  intros (F & <- & z & E & H) W. destruct (const_ok 2) as [F2 V2]; [vm_compute; discriminate|].
  assert (N2 : val (float_ofZ 2) <> 0) by (rewrite V2; apply IZR_neq; discriminate).
  assert (R0 : rnd (val x / val (float_ofZ 2)) = val x / 2).
  { rewrite V2, E. apply round_generic; [apply valid_rnd_N|apply half_format; lia]. }
  assert (Fd : finite (x / float_ofZ 2)%float).
  { apply div_fin; auto. rewrite R0, E. unfold Rdiv. rewrite Rabs_mult, (Rabs_right (/ 2)) by lra.
    pose proof (int_small z ltac:(lia)). pose proof (Rabs_pos (IZR z)). lra. }
  split; [exact Fd|]. destruct (div_ok _ _ F2 N2 Fd) as [_ ->]. exact R0.
Qed.

(* the point half way between two points, and the centre of a box *)
Theorem C80_mid (p q : pt float) (k l : Z) : wholep k p -> wholep l q -> (k + l <= 2 ^ 53)%Z ->
  finitep (p_mid p q) /\ valp (p_mid p q) = p_mid (valp p) (valp q).
Proof.
  intros [Hp Hp'] [Hq Hq'] H. apply exactly_leaf in Hp, Hp', Hq, Hq'.
  pose proof (exactly_add _ _ _ _ _ _ Hp Hq H) as X. pose proof (exactly_add _ _ _ _ _ _ Hp' Hq' H) as Y.
  destruct (exactly_half _ _ _ X H) as [X1 X2]. destruct (exactly_half _ _ _ Y H) as [Y1 Y2].
  split; [split; assumption|]. unfold valp, p_mid. cbn [px py]. ops. now rewrite X2, Y2.
Qed.
Theorem C80_box (xl yl xh yh : float) (k : Z) : whole k xl -> whole k yl -> whole k xh -> whole k yh -> (2 * k <= 2 ^ 53)%Z ->
  let b := BB xl yl xh yh in
  val (bbox_width b) = bbox_width (valb b) /\ val (bbox_height b) = bbox_height (valb b) /\
  (exists c, bbox_center b = Ok c /\ bbox_center (valb b) = Ok (valp c)) /\
  ((4 * k * k <= 2 ^ 53)%Z -> val (bbox_area b) = bbox_area (valb b)).
Proof.
  intros A B C D H. cbv zeta. pose proof (whole_pos _ _ A) as K.
  destruct (C80_mid (P xl yl) (P xh yh) k k) as [_ Mid]; [split; assumption|split; assumption|lia|].
  apply exactly_leaf in A, B, C, D. assert (W : (k + k <= max_whole)%Z) by (unfold max_whole; lia).
  pose proof (exactly_sub _ _ _ _ _ _ C A W) as X. pose proof (exactly_sub _ _ _ _ _ _ D B W) as Y.
  split; [exact (exactly_val _ _ _ X)|]. split; [exact (exactly_val _ _ _ Y)|]. split.
  - eexists. split; [reflexivity|]. cbn [valb bbox_center]. f_equal. symmetry. exact Mid.
  - intros W2. refine (exactly_val _ _ _ (exactly_mul _ _ _ _ _ _ X Y _ _ _)); unfold max_whole; lia.
Qed.

(* the area of a polygon of any number of corners *)
Lemma exactly_total (l : list (float * R)) : forall k n x r, (0 <= k)%Z -> exactly n x r ->
  Forall (fun xr => exactly k (fst xr) (snd xr)) l -> (n + k * Z.of_nat (List.length l) <= max_whole)%Z ->
  exactly (n + k * Z.of_nat (List.length l)) (fold_left PrimFloat.add (map fst l) x) (fold_left Rplus (map snd l) r).
Proof.
  induction l as [|[y s] l IH]; intros k n x r K Hx H W; cbn [map fold_left List.length fst snd] in *.
  - eapply exactly_le; [|exact Hx]. lia.
  - inversion H; subst. cbn [fst snd] in *. rewrite Nat2Z.inj_succ in W |- *.
    assert (0 <= k * Z.of_nat (List.length l))%Z by (apply Z.mul_nonneg_nonneg; lia).
    assert (Hs : exactly (n + k) (x + y)%float (r + s)) by (apply exactly_add; auto; lia).
    eapply exactly_le; [|eapply (IH k (n + k)%Z)]; auto; lia.
Qed.
Theorem C80_area (l : list (pt float)) (k : Z) : Forall (wholep k) l -> (2 * k * k * Z.of_nat (List.length l) <= 2 ^ 53)%Z ->
  finite (polygon_area l) /\ val (polygon_area l) = polygon_area (map valp l).
Proof.
  intros H W. destruct (l) as [|p0 l'] eqn:El.
  { destruct exactly_01 as [E0 _]. destruct (exactly_half _ _ _ E0) as [X Y]; [vm_compute; discriminate|]. split; [exact X|exact Y]. }
  rewrite <- El in *. assert (K : (0 <= k)%Z). { subst l. inversion H as [|? ? [Hx _]]. eapply whole_pos, Hx. }
  assert (L1 : (1 <= Z.of_nat (List.length l))%Z) by (subst l; cbn [List.length]; lia).
  assert (KK : (2 * k * k <= max_whole)%Z) by (unfold max_whole; nia).
  unfold polygon_area, pysum. rewrite rotate2_map, map_map.
  set (prs := iter_rotate2 l) in *.
  assert (Len : List.length prs = List.length l).
  { unfold prs, iter_rotate2, rotl. rewrite combine_length, app_length, skipn_length, firstn_length. subst l; cbn [List.length]; lia. }
  assert (Hpr : Forall (fun ab => wholep k (fst ab) /\ wholep k (snd ab)) prs).
  { apply Forall_forall. intros [a b] I. unfold prs, iter_rotate2 in I. rewrite Forall_forall in H.
    pose proof (in_combine_l _ _ _ _ I) as I1. pose proof (in_combine_r _ _ _ _ I) as I2. cbn [fst snd]. split; [now apply H|].
    apply H. unfold rotl in I2. apply in_app_or in I2 as [I2|I2].
    - rewrite <- (firstn_skipn 1 l). apply in_or_app. now right.
    - rewrite <- (firstn_skipn 1 l). apply in_or_app. now left. }
  clearbody prs.
  pose (f := fun ab : pt float * pt float => (px (fst ab) * py (snd ab) - py (fst ab) * px (snd ab))%float).
  pose (g := fun ab : pt float * pt float => val (px (fst ab)) * val (py (snd ab)) - val (py (fst ab)) * val (px (snd ab))).
  pose proof (exactly_total (map (fun ab => (f ab, g ab)) prs) (2 * k * k)%Z 0%Z 0%float 0) as T0.
  rewrite !map_map, map_length in T0. cbn [fst snd] in T0. rewrite Len in T0.
  assert (E : exactly (2 * k * k * Z.of_nat (List.length l)) (fold_left PrimFloat.add (map f prs) 0%float) (fold_left Rplus (map g prs) 0)).
  { eapply exactly_le; [|apply T0]; [lia|nia|apply exactly_01| |unfold max_whole; lia].
    clear -Hpr K KK. induction Hpr as [|ab prs [[A1 A2] [B1 B2]] _ IH]; [constructor|]. cbn [map]. constructor; [|exact IH]. cbn [fst snd].
    apply exactly_leaf in A1, A2, B1, B2. unfold f, g.
    replace (2 * k * k)%Z with (k * k + k * k)%Z in * by ring.
    apply exactly_sub; [apply exactly_mul| |]; try apply exactly_mul; auto; nia. }
  destruct (exactly_half _ _ _ E W) as [X Y]. split; [exact X|]. exact Y.
Qed.

(* ------------------------------------------------------------------ *)
(** ** boxes: comparisons lose nothing, whatever the coordinates *)

Lemma val_min a b : finite a -> finite b -> val (pymin a b) = pymin (val a) (val b) /\ finite (pymin a b).
Proof.
  intros A B. unfold pymin. cbn [nltb NumFloat NumR]. rewrite ltb_ok by assumption. now destruct (Rltb (val b) (val a)).
Qed.
Lemma val_max a b : finite a -> finite b -> val (pymax a b) = pymax (val a) (val b) /\ finite (pymax a b).
Proof.
  intros A B. unfold pymax. cbn [nltb NumFloat NumR]. rewrite ltb_ok by assumption. now destruct (Rltb (val a) (val b)).
Qed.
Lemma val_mkbbox a b c d : finite a -> finite b -> finite c -> finite d ->
  valb (mkbbox a b c d) = mkbbox (val a) (val b) (val c) (val d) /\ finiteb (mkbbox a b c d).
Proof.
  intros A B C D. unfold mkbbox. cbn [valb finiteb].
  destruct (val_min a c A C) as [-> F1]. destruct (val_min b d B D) as [-> F2]. destruct (val_max a c A C) as [-> F3]. destruct (val_max b d B D) as [-> F4]. auto.
Qed.
Theorem C80_boxes (a b : bbox float) (p : pt float) : finiteb a -> finiteb b -> finitep p ->
  (valb (bbox_add a b) = bbox_add (valb a) (valb b) /\ finiteb (bbox_add a b)) /\
  (valb (bbox_intersection a b) = bbox_intersection (valb a) (valb b) /\ finiteb (bbox_intersection a b)) /\
  (valb (bbox_grow a p) = bbox_grow (valb a) (valp p) /\ finiteb (bbox_grow a p)) /\
  bbox_eqb a b = bbox_eqb (valb a) (valb b) /\
  bbox_contains_pt a p = bbox_contains_pt (valb a) (valp p) /\
  bbox_contains a b = bbox_contains (valb a) (valb b) /\
  bbox_touches_pt a p = bbox_touches_pt (valb a) (valp p) /\
  bbox_touches_side a b = bbox_touches_side (valb a) (valb b) /\
  bbox_touches a b = bbox_touches (valb a) (valb b) /\
  bbox_overlaps a b = bbox_overlaps (valb a) (valb b) /\
  bbox_is_empty a = bbox_is_empty (valb a).
Proof.
  intros A B [Px Py].
  assert (Mk : forall a b c d, finite a -> finite b -> finite c -> finite d ->
    valb (mkbbox a b c d) = mkbbox (val a) (val b) (val c) (val d) /\ finiteb (mkbbox a b c d)) by (intros; now apply val_mkbbox).
  destruct a as [|a1 a2 a3 a4], b as [|b1 b2 b3 b4]; cbn [finiteb] in A, B; cbn [valb] in *.
  all: repeat match goal with X : _ /\ _ |- _ => destruct X end.
  all: unfold bbox_add, bbox_copy, bbox_intersection, bbox_grow, bbox_eqb, bbox_contains_pt, bbox_contains, bbox_touches_pt, bbox_touches_side, bbox_touches, bbox_overlaps, bbox_is_empty, ngeb, ngtb, valp;
    cbn [px py valb]; cbn [neqb nltb nleb NumFloat NumR].
  all: rewrite ?eqb_ok, ?ltb_ok, ?leb_ok by assumption.
  all: repeat match goal with |- _ /\ _ => split end; try reflexivity; try exact I; auto; try (now apply Mk).
  all: try (destruct (val_min a1 b1) as [<- ?]; [assumption|assumption|]; destruct (val_min a2 b2) as [<- ?]; [assumption|assumption|];
            destruct (val_max a3 b3) as [<- ?]; [assumption|assumption|]; destruct (val_max a4 b4) as [<- ?]; [assumption|assumption|]; now apply Mk).
  all: try (apply Mk; (try apply val_min; try apply val_max; assumption)).
  all: try (destruct (_ || _)%bool; [first [reflexivity|exact I]|];
            destruct (val_max a1 b1) as [V1 ?]; [assumption|assumption|]; destruct (val_max a2 b2) as [V2 ?]; [assumption|assumption|];
            destruct (val_min a3 b3) as [V3 ?]; [assumption|assumption|]; destruct (val_min a4 b4) as [V4 ?]; [assumption|assumption|];
            rewrite <- ?V1, <- ?V2, <- ?V3, <- ?V4; now apply Mk).
  all: try (cbn [valb finiteb]; first [f_equal|repeat split]; first [apply val_min|apply val_max]; assumption).
  all: cbn [finiteb]; auto.
  all: repeat match goal with |- _ /\ _ => split end; first [now apply val_min|now apply val_max].
Qed.

(* ------------------------------------------------------------------ *)
(** ** cases that meet the hypotheses *)

Lemma whole_const z k : (Z.abs z <= k)%Z -> (k <= max_whole)%Z -> whole k (float_ofZ z).
Proof. intros H W. destruct (const_ok z) as [F E]; [lia|]. split; [auto|]. exists z. auto. Qed.
Ltac whole_go := repeat match goal with |- _ /\ _ => split | |- Forall _ _ => constructor | |- Forall2 _ _ _ => constructor end;
  try (apply whole_const; [vm_compute; discriminate|vm_compute; discriminate]).
Notation "'f' z" := (float_ofZ z) (at level 5, z at level 0, only parsing).

(* a million units of movement and a zoom by a thousand *)
Definition some_calls : list ((Z * Z) * top float) :=
  [((1, 1000000)%Z, OTranslate (f 1000000) (f (-999999))); ((0, 0)%Z, OPush);
   ((1000, 0)%Z, OScale (f 1000) (f (-7))); ((3, 5)%Z, OCompose (mat_of6 (f 3) (f 0) (f 5) (f (-2)) (f 1) (f 4)));
   ((0, 0)%Z, OPop); ((2, 1)%Z, OComposeOuter (mat_of6 (f 2) (f 1) (f 1) (f 0) (f 1) (f 0)))].
Example C80_example_history {TR : NumTrig R} {TF : NumTrig float} :
  valt (trun (map snd some_calls) t_new) = trun (map valop (map snd some_calls)) (valt t_new).
Proof.
  apply (C80_history some_calls (1, 0)%Z []).
  - unfold wholem, t_new, mat_id. cbn [tmat fst snd m00 m01 m02 m10 m11 m12 m20 m21 m22]. ops. whole_go; apply (const_ok 1); vm_compute; discriminate.
  - constructor.
  - vm_compute; discriminate.
  - vm_compute; discriminate.
  - unfold some_calls. cbn [fits grow sized fst snd]. unfold wholem, mat_of6. cbn [fst snd m00 m01 m02 m10 m11 m12 m20 m21 m22]. ops.
    repeat match goal with |- _ /\ _ => split end; try exact I; try (vm_compute; discriminate); try (apply (const_ok 1); vm_compute; discriminate); whole_go.
Qed.
Example C80_example_transform : wholem (3, 5)%Z (mat_of6 (f 3) (f 0) (f 5) (f (-2)) (f 1) (f 4)) /\ wholep 1000000 (P (f 1000000) (f (-17))) /\
  (2 * 3 * 1000000 + 5 <= 2 ^ 53)%Z.
Proof.
  unfold wholem, mat_of6, wholep. cbn [px py fst snd m00 m01 m02 m10 m11 m12 m20 m21 m22]. ops.
  repeat match goal with |- _ /\ _ => split end; try (vm_compute; discriminate); try (apply (const_ok 1); vm_compute; discriminate); whole_go.
Qed.
(* a square of a million by a million: its area, to the unit *)
Example C80_example_area : val (polygon_area [P (f 0) (f 0); P (f 1000000) (f 0); P (f 1000000) (f 1000000); P (f 0) (f 1000000)]) = IZR (10 ^ 12).
Proof.
  destruct (C80_area [P (f 0) (f 0); P (f 1000000) (f 0); P (f 1000000) (f 1000000); P (f 0) (f 1000000)] 1000000) as [_ ->].
  - unfold wholep. cbn [px py]. whole_go; cbn [px py]; whole_go.
  - vm_compute. discriminate.
  - cbn [map]. unfold valp. cbn [px py]. rewrite (proj2 (const_ok 0 ltac:(vm_compute; discriminate))), (proj2 (const_ok 1000000 ltac:(vm_compute; discriminate))).
    unfold polygon_area, pysum, iter_rotate2, rotl. cbn [skipn firstn app combine map fold_left fst snd px py]. ops. lra.
Qed.
Example C80_example_mid : wholep 3 (P (f 3) (f (-2))) /\ wholep 8 (P (f 8) (f 8)) /\ (3 + 8 <= 2 ^ 53)%Z.
Proof. unfold wholep. cbn [px py]. repeat match goal with |- _ /\ _ => split end; try (vm_compute; discriminate); whole_go. Qed.
Example C80_example_boxes : finiteb (BB 0.1 0.2 0.3 0.7)%float /\ finiteb (BB 0.25 0 0.5 9)%float /\ finitep (P 0.3 0.4)%float /\
  bbox_overlaps (BB 0.1 0.2 0.3 0.7)%float (BB 0.25 0 0.5 9)%float = Ok true.
Proof. repeat split. Qed.
Example C80_example_vectors : wholev 1000 (V (f 1000) (f (-3))) /\ wholev 1000 (V (f 12) (f 999)) /\ (2 * 1000 * 1000 <= 2 ^ 53)%Z.
Proof. unfold wholev. cbn [vx vy]. repeat match goal with |- _ /\ _ => split end; try (vm_compute; discriminate); whole_go. Qed.

(* C79: results that are finite, and not exact *)
Section Doubles.
Local Open Scope float_scope.
Example C79_example_points : finite (px (p_add (P 0.1 0)%float (V 0.2 0)%float)) /\ (px (p_add (P 0.1 0) (V 0.2 0)) =? 0.3)%float = false.
Proof. split; reflexivity. Qed.
Example C79_example_transform : let m := t_new6 0.1 0.2 0.3 0.4 0.5 0.6 in let q := t_transform m (P 0.7 0.8)%float in
  finite (px q) /\ finite (py q).
Proof. split; reflexivity. Qed.
Example C79_example_compose : let m := mat_of6 0.1 0.2 0.3 0.4 0.5 0.6 in finite (m00 (mat_dot m m)) /\ finite (m12 (mat_dot m m)).
Proof. split; reflexivity. Qed.
Example C79_example_bez : let q := bez_at (P 0.1 0) (P 0.3 1) (P 0.7 1) (P 1 0) 0.3%float in finite (fst q) /\ finite (snd q).
Proof. split; reflexivity. Qed.
Example C79_example_area : finite (polygon_area [P 0.1 0; P 0.3 1; P 0.7 1; P 1 0])%float.
Proof. reflexivity. Qed.
Example C79_example_split : let '(a, b, c) := bez_split_half (CP (P 0.1 0) (V 0 0) (V 0.2 0.3) "smooth") (CP (P 1 0) (V 0.1 0.3) (V 0 0) "smooth") in
  finite (px (cc b)) /\ finite (vx (cdl b)).
Proof. split; reflexivity. Qed.
Example C79_example_relative : exists p, M_points.pos [NPoint 0.1 0.2 None; NRel 0.7 0.7 0 None; NCalc 1 0.3 None; NRel 0.1 0.1 2 None] 3 = Ok p /\ finite (px p) /\ finite (py p).
Proof. eexists. split; [vm_compute; reflexivity|]. split; reflexivity. Qed.
End Doubles.
