(* Property theorems C79, continued: any history of calls on a transform. *)
From Coq Require Import Reals Floats ZArith List Lra Lia String.
From Flocq Require Import Core BinarySingleNaN PrimFloat.
Require Import Verif.Base Verif.NumFloat Verif.NumR Verif.M_vector Verif.M_bbox Verif.M_transform Verif.M_bezier.
Require Import Verif.S_float Verif.L_float Verif.L_float2 Verif.P_float Verif.P_float2 Verif.P_float3.
Import ListNotations.
Set Warnings "-inexact-float".
Local Open Scope R_scope.

Definition mat_map {A B} (g : A -> B) (m : mat A) : mat B :=
  M (g (m00 m)) (g (m01 m)) (g (m02 m)) (g (m10 m)) (g (m11 m)) (g (m12 m)) (g (m20 m)) (g (m21 m)) (g (m22 m)).

(* the entry of a matrix in a row and a column *)
Definition entry {A} (i j : nat) (m : mat A) : A :=
  match i, j with
  | 0%nat, 0%nat => m00 m | 0%nat, 1%nat => m01 m | 0%nat, _ => m02 m
  | 1%nat, 0%nat => m10 m | 1%nat, 1%nat => m11 m | 1%nat, _ => m12 m
  | _, 0%nat => m20 m | _, 1%nat => m21 m | _, _ => m22 m
  end.

(* The sizes to compare an error with: the same calls with the absolute values of all numbers,
   so that nothing cancels, and a little more for each product that may be below the normal range.
   [fst] is the size of the current matrix, [snd] of the pushed ones. *)
Definition abs_dot (a b : mat R) : mat R := mat_map (fun x => x + 3 * tiny) (mat_dot a b).
Definition size_step (o : top float) (s : mat R * list (mat R)) : mat R * list (mat R) :=
  let a x := Rabs (val x) in let (m, st) := s in
  match o with
  | OTranslate dx dy => (abs_dot (translate_mat (a dx) (a dy)) m, st)
  | OScale sx sy => (abs_dot (scale_mat (a sx) (a sy)) m, st)
  | OCompose b => (abs_dot m (absm b), st)
  | OComposeOuter b => (abs_dot (absm b) m, st)
  | OReset => (mat_id, st)
  | OSetMatrix b => (absm b, st)
  | OPush => (m, m :: st)
  | OPop => match st with x :: r => (x, r) | [] => (m, st) end
  | _ => (m, st)
  end.
Definition size_of (ops : list (top float)) (t : transform float) : mat R :=
  fst (fold_left (fun s o => size_step o s) ops (absm (tmat t), map absm (tstack t))).
(* rotations, scale_bbox and untransform use functions other than sums and products *)
Definition arithmetic (o : top float) : Prop :=
  match o with ORotate _ | ORotateCcw _ | ORotateAbout _ _ | OScaleBBox _ _ _ | OUntransform _ => False | _ => True end.

Definition nearm (n : nat) (s : mat R) (m : mat float) (r : mat R) : Prop :=
  near n (m00 s) (m00 m) (m00 r) /\ near n (m01 s) (m01 m) (m01 r) /\ near n (m02 s) (m02 m) (m02 r) /\
  near n (m10 s) (m10 m) (m10 r) /\ near n (m11 s) (m11 m) (m11 r) /\ near n (m12 s) (m12 m) (m12 r) /\
  near n (m20 s) (m20 m) (m20 r) /\ near n (m21 s) (m21 m) (m21 r) /\ near n (m22 s) (m22 m) (m22 r).
Lemma nearm_le n k s m r : (n <= k)%nat -> nearm n s m r -> nearm k s m r.
Proof.
  intros L (A & B & C & D & E & F & G & H & I).
  repeat (split; [eapply near_weaken; [exact L|apply Rle_refl|eassumption]|]). eapply near_weaken; [exact L|apply Rle_refl|eassumption].
Qed.
Lemma nearm_leaf m : nearm 0 (absm m) m (valm m).
Proof. repeat (split; [apply near_leaf|]). apply near_leaf. Qed.
Lemma near_dot3 j k a1 a2 a3 b1 b2 b3 x1 x2 x3 y1 y2 y3 r1 r2 r3 s1 s2 s3 :
  near j a1 x1 r1 -> near j a2 x2 r2 -> near j a3 x3 r3 -> near k b1 y1 s1 -> near k b2 y2 s2 -> near k b3 y3 s3 ->
  near (j + k + 3) (a1 * b1 + a2 * b2 + a3 * b3 + 3 * tiny) (x1 * y1 + x2 * y2 + x3 * y3)%float (r1 * s1 + r2 * s2 + r3 * s3).
Proof.
  intros. eapply near_scaled; [eapply near_add; [eapply near_add|]; eapply near_mul; eassumption|lia|lra].
Qed.
Lemma nearm_dot j k sa sb (a b : mat float) ra rb : nearm j sa a ra -> nearm k sb b rb ->
  nearm (j + k + 3) (abs_dot sa sb) (mat_dot a b) (mat_dot ra rb).
Proof.
  intros (A0 & A1 & A2 & A3 & A4 & A5 & A6 & A7 & A8) (B0 & B1 & B2 & B3 & B4 & B5 & B6 & B7 & B8).
  unfold nearm, abs_dot, mat_map, mat_dot. cbn [m00 m01 m02 m10 m11 m12 m20 m21 m22]. ops.
  repeat (split; [apply near_dot3; assumption|]). apply near_dot3; assumption.
Qed.
Lemma nearm_translate dx dy : nearm 0 (translate_mat (Rabs (val dx)) (Rabs (val dy))) (translate_mat dx dy) (translate_mat (val dx) (val dy)).
Proof.
  unfold nearm, translate_mat. cbn [m00 m01 m02 m10 m11 m12 m20 m21 m22]. ops.
  repeat split; try apply near_leaf; first [apply (near_const 0)|apply (near_const 1)]; vm_compute; discriminate.
Qed.
Lemma nearm_scale dx dy : nearm 0 (scale_mat (Rabs (val dx)) (Rabs (val dy))) (scale_mat dx dy) (scale_mat (val dx) (val dy)).
Proof.
  unfold nearm, scale_mat. cbn [m00 m01 m02 m10 m11 m12 m20 m21 m22]. ops.
  repeat split; try apply near_leaf; first [apply (near_const 0)|apply (near_const 1)]; vm_compute; discriminate.
Qed.
Lemma nearm_id : nearm 0 mat_id mat_id mat_id.
Proof.
  unfold nearm, mat_id. cbn [m00 m01 m02 m10 m11 m12 m20 m21 m22]. ops.
  repeat split; first [apply (near_const 0)|apply (near_const 1)]; vm_compute; discriminate.
Qed.
Lemma nearm_entry n s m r i j : nearm n s m r -> near n (entry i j s) (entry i j m) (entry i j r).
Proof.
  intros (A & B & C & D & E & F & G & H & I). destruct i as [|[|i]], j as [|[|j]]; assumption.
Qed.

Definition nears (n : nat) (s : mat R * list (mat R)) (t : transform float) (r : transform R) : Prop :=
  nearm n (fst s) (tmat t) (tmat r) /\ List.length (snd s) = List.length (tstack t) /\ List.length (tstack r) = List.length (tstack t) /\
  forall k a b c, nth_error (snd s) k = Some a -> nth_error (tstack t) k = Some b -> nth_error (tstack r) k = Some c -> nearm n a b c.
Lemma nears_le n k s t r : (n <= k)%nat -> nears n s t r -> nears k s t r.
Proof.
  intros L (A & B & C & D). split; [eapply nearm_le; eassumption|]. split; [exact B|]. split; [exact C|].
  intros. eapply nearm_le; [exact L|]. eapply D; eassumption.
Qed.
Lemma nears_step {TR : NumTrig R} {TF : NumTrig float} n o s t r : arithmetic o -> nears n s t r ->
  nears (n + 3) (size_step o s) (fst (tstep o t)) (fst (tstep (valop o) r)).
Proof.
  intros Ha H. pose proof H as (A & B & C & D). destruct s as [m st]. cbn [fst snd] in *.
  destruct t as [tm ti ts], r as [rm ri rs]. cbn [tmat tstack] in *.
  assert (Same : forall a b c, nearm (n + 3) a b c -> forall i j, nears (n + 3) (a, st) (T b i ts) (T c j rs)).
  { intros a b c Hn i j. split; [exact Hn|]. split; [exact B|]. split; [exact C|]. cbn [fst snd tstack]. intros. eapply nearm_le; [|eapply D; eassumption]. lia. }
  destruct o; cbn [arithmetic] in Ha; try contradiction; cbn [size_step valop tstep fst].
  - apply Same. eapply nearm_le; [|apply nearm_dot; [apply nearm_translate|exact A]]. lia.
  - apply Same. eapply nearm_le; [|apply nearm_dot; [apply nearm_scale|exact A]]. lia.
  - apply Same. eapply nearm_le; [|apply nearm_dot; [exact A|apply nearm_leaf]]. lia.
  - apply Same. eapply nearm_le; [|apply nearm_dot; [apply nearm_leaf|exact A]]. lia.
  - apply Same. eapply nearm_le; [|apply nearm_id]. lia.
  - apply Same. eapply nearm_le; [|apply nearm_leaf]. lia.
  - unfold t_push. cbn [fst snd]. split; [cbn; eapply nearm_le; [|exact A]; lia|]. split; [cbn; congruence|]. split; [cbn; congruence|].
    cbn [fst snd tstack]. intros [|k] a b c; cbn [nth_error].
    + intros Ea Eb Ec. apply some_inj in Ea, Eb, Ec. subst. eapply nearm_le; [|exact A]. lia.
    + intros. eapply nearm_le; [|eapply D; eassumption]. lia.
  - unfold t_pop. cbn [tstack tmat].
    destruct st as [|x st], ts as [|y ts], rs as [|z rs]; try discriminate; cbn [fst snd]; [eapply nears_le; [|exact H]; lia|].
    split; [cbn [fst tmat]; eapply nearm_le; [|apply (D 0%nat); reflexivity]; lia|].
    split; [cbn; cbn in B; congruence|]. split; [cbn; cbn in C; congruence|].
    cbn [fst snd tstack]. intros k a b c Ea Eb Ec. eapply nearm_le; [|apply (D (S k)); [exact Ea|exact Eb|exact Ec]]. lia.
  - eapply nears_le; [|exact H]. lia.
Qed.
Lemma nears_run {TR : NumTrig R} {TF : NumTrig float} ops : forall n s t r, Forall arithmetic ops -> nears n s t r ->
  nears (n + 3 * List.length ops) (fold_left (fun s o => size_step o s) ops s) (trun ops t) (trun (map valop ops) r).
Proof.
  induction ops as [|o ops IH]; intros n s t r Ha H.
  - cbn. rewrite Nat.add_0_r. exact H.
  - inversion Ha as [|? ? Ho Hr]; subst. cbn [fold_left map List.length]. unfold trun. cbn [fold_left].
    eapply nears_le; [|apply (IH (n + 3)%nat); [exact Hr|apply nears_step; assumption]]. lia.
Qed.
Lemma nears_start t : nears 0 (absm (tmat t), map absm (tstack t)) t (valt t).
Proof.
  split; [apply nearm_leaf|]. cbn [fst snd valt tstack]. rewrite !map_length. split; [reflexivity|]. split; [reflexivity|].
  intros k a b c Ea Eb Ec. rewrite nth_error_map in Ea, Ec. rewrite Eb in Ea, Ec. cbn in Ea, Ec. apply some_inj in Ea, Ec. subst. apply nearm_leaf.
Qed.

(* After any number of calls, each entry of the matrix is as far from the exact one as three
   roundings for each call may make it, and no further. *)
Theorem C79_history {TR : NumTrig R} {TF : NumTrig float} (calls : list (top float)) (t : transform float) (i j : nat) :
  Forall arithmetic calls -> finite (entry i j (tmat (trun calls t))) ->
  Rabs (val (entry i j (tmat (trun calls t))) - entry i j (tmat (trun (map valop calls) (valt t)))) <=
  ((1 + eps) ^ (3 * List.length calls) - 1) * entry i j (size_of calls t).
Proof.
  intros Ha F. pose proof (nears_run calls 0 _ _ _ Ha (nears_start t)) as (A & _).
  apply (nearm_entry _ _ _ _ i j) in A. destruct A as [_ A]. exact (A F).
Qed.
(* and so is the point that the transform gives *)
Theorem C79_history_point {TR : NumTrig R} {TF : NumTrig float} (calls : list (top float)) (t : transform float) (p : pt float) :
  let q := t_transform (trun calls t) p in let q' := t_transform (trun (map valop calls) (valt t)) (valp p) in
  let s := mat_apply (size_of calls t) (absp p) in let n := (3 * List.length calls + 3)%nat in
  Forall arithmetic calls ->
  (finite (px q) -> Rabs (val (px q) - px q') <= ((1 + eps) ^ n - 1) * (px s + 3 * tiny)) /\
  (finite (py q) -> Rabs (val (py q) - py q') <= ((1 + eps) ^ n - 1) * (py s + 3 * tiny)).
Proof.
  cbv zeta. intros Ha. pose proof (nears_run calls 0 _ _ _ Ha (nears_start t)) as (A & _). fold (size_of calls t) in A.
  destruct A as (A0 & A1 & A2 & A3 & A4 & A5 & _). unfold t_transform, mat_apply, absp, valp. cbn [px py]. ops.
  assert (One : near 0 1 1%float 1) by (apply (near_const 1); vm_compute; discriminate).
  pose proof (near_leaf (px p)) as X. pose proof (near_leaf (py p)) as Y.
  pose proof (near_dot3 _ _ _ _ _ _ _ _ _ _ _ _ _ _ _ _ _ _ _ _ A0 A1 A2 X Y One) as [_ N1].
  pose proof (near_dot3 _ _ _ _ _ _ _ _ _ _ _ _ _ _ _ _ _ _ _ _ A3 A4 A5 X Y One) as [_ N2].
  rewrite Nat.add_0_r in N1, N2. split; [exact N1|exact N2].
Qed.
Lemma growth_any n : INR n * eps <= / 2 -> (1 + eps) ^ n - 1 <= 2 * INR n * eps.
Proof.
  intros H. pose proof eps_pos as E. pose proof (pos_INR n) as N.
  assert (K : (1 + eps) ^ n * (1 - INR n * eps) <= 1).
  { clear H N. induction n as [|n IH]; [cbn; lra|]. rewrite S_INR. pose proof (pos_INR n). cbn [pow].
    assert ((1 + eps) * (1 - (INR n + 1) * eps) <= 1 - INR n * eps) by nra.
    pose proof (pow1 n). nra. }
  pose proof (pow1 n). assert (0 <= INR n * eps) by nra. replace (2 * INR n * eps) with (2 * (INR n * eps)) by ring.
  set (u := INR n * eps) in *. set (g := (1 + eps) ^ n) in *. clearbody u g. clear E N.
  assert (0 <= u * (1 - 2 * u)) by (apply Rmult_le_pos; lra). apply Rmult_le_reg_r with (1 - u); lra.
Qed.
(* for fewer than 10^14 calls: at most six times 2^-53 of the size for each call *)
Theorem C79_history_linear {TR : NumTrig R} {TF : NumTrig float} (calls : list (top float)) (t : transform float) (i j : nat) :
  Forall arithmetic calls -> INR (List.length calls) <= 10 ^ 14 -> finite (entry i j (tmat (trun calls t))) ->
  Rabs (val (entry i j (tmat (trun calls t))) - entry i j (tmat (trun (map valop calls) (valt t)))) <=
  6 * INR (List.length calls) * eps * entry i j (size_of calls t).
Proof.
  intros Ha L F. pose proof (nears_run calls 0 _ _ _ Ha (nears_start t)) as (A & _). fold (size_of calls t) in A.
  apply (nearm_entry _ _ _ _ i j) in A. destruct A as [Hp _]. pose proof (Rabs_pos (entry i j (tmat (trun (map valop calls) (valt t))))).
  eapply Rle_trans; [apply C79_history; assumption|]. apply Rmult_le_compat_r; [lra|].
  pose proof (growth_any (3 * List.length calls)) as G. rewrite mult_INR in G. replace (INR 3) with 3 in G by (cbn; lra).
  eapply Rle_trans; [apply G|lra].
  unfold eps. apply Rmult_le_reg_r with (2 ^ 53); [apply pow_lt; lra|]. rewrite Rmult_assoc, Rinv_l by (apply pow_nonzero; lra). lra.
Qed.

Definition tenths : list (top float) :=
  [OTranslate 0.1%float 0.2%float; OPush; OScale 0.3%float (-7)%float; OCompose (M 0.1 0 0.7 0 0.1 0.9 0 0 1)%float; OPop; OPop; OTransform (P 1 2)%float;
   OComposeOuter (M 0.1 0.2 0.3 0 1 5 0 0 1)%float].
Example C79_example_history {TF : NumTrig float} : Forall arithmetic tenths /\ INR (List.length tenths) <= 10 ^ 14 /\
  (forall i j, finite (entry i j (tmat (trun tenths t_new)))).
Proof.
  split; [repeat constructor|]. split; [cbn; lra|].
  intros [|[|i]] [|[|j]]; vm_compute; reflexivity.
Qed.

(* ------------------------------------------------------------------ *)
(** ** scale_bbox *)

Lemma near_quotient n A x r y s : near n A x r -> near 1 (Rabs s) y s -> finite y -> val y <> 0 -> s <> 0 ->
  near (n + 3) (A / Rabs s + tiny) (x / y)%float (r / s).
Proof.
  intros X Y Fy Ny Ns. pose proof tiny_pos. pose proof eps_pos as E0. pose proof eps_lt as E1.
  assert (Es : eps <= / 2) by (eapply Rle_trans; [apply Rlt_le, E1|]; apply Rinv_le_contravar; [lra|]; rewrite <- (pow_1 2) at 1; apply Rle_pow; [lra|lia]).
  pose proof (Rinv_0_lt_compat _ (Rabs_pos_lt _ Ns)) as P.
  assert (Hr : Rabs (r / s) <= A / Rabs s).
  { unfold Rdiv. rewrite Rabs_mult, Rabs_Rinv by auto. apply Rmult_le_compat_r; [lra|]. apply X. }
  split; [lra|]. intros F. destruct (div_ok _ _ Fy Ny F) as (Fx & E).
  pose proof (near_size _ _ _ _ X Fx) as Sx.
  destruct X as [X0 X], Y as [_ Y]. specialize (X Fx). specialize (Y Fy). rewrite pow_1 in Y. replace (1 + eps - 1) with eps in Y by ring.
  replace (n + 3)%nat with (S (n + 2)) by lia.
  apply near_round with (t := val x / val y) (C := 0); [exact Hr|lra| |rewrite E; apply err_any].
  assert (Low : (1 - eps) * Rabs s <= Rabs (val y)).
  { pose proof (Rabs_triang_inv s (s - val y)) as Q. replace (s - (s - val y)) with (val y) in Q by ring. rewrite (Rabs_minus_sym s) in Q. lra. }
  assert (Inv : Rabs (/ val y - / s) <= eps / (1 - eps) * / Rabs s).
  { replace (/ val y - / s) with ((s - val y) * (/ val y * / s)) by (field; auto). rewrite !Rabs_mult, !Rabs_Rinv by auto. rewrite Rabs_minus_sym.
    assert (0 < Rabs s) by now apply Rabs_pos_lt. assert (0 < (1 - eps) * Rabs s) by (apply Rmult_lt_0_compat; lra).
    assert (/ Rabs (val y) <= / ((1 - eps) * Rabs s)) by (apply Rinv_le_contravar; lra).
    assert (0 < / Rabs (val y)) by (apply Rinv_0_lt_compat; lra).
    replace (eps / (1 - eps) * / Rabs s) with ((eps * Rabs s) * (/ ((1 - eps) * Rabs s) * / Rabs s)) by (field; split; lra).
    apply Rmult_le_compat; [apply Rabs_pos|apply Rlt_le, Rmult_lt_0_compat; lra|exact Y|]. apply Rmult_le_compat_r; lra. }
  replace (val x / val y - r / s) with ((val x - r) * / s + val x * (/ val y - / s)) by (unfold Rdiv; ring).
  eapply Rle_trans; [apply Rabs_triang|]. rewrite !Rabs_mult, (Rabs_Rinv s) by auto.
  pose proof (Rmult_le_compat _ _ _ _ (Rabs_pos _) (Rabs_pos _) Sx Inv) as Q1.
  pose proof (Rmult_le_compat_r (/ Rabs s) _ _ ltac:(lra) X) as Q2.
  assert (G : (1 + eps) ^ n - 1 + (1 + eps) ^ n * (eps / (1 - eps)) <= (1 + eps) ^ (n + 2) - 1).
  { rewrite pow_add. cbn [pow]. assert (K : eps / (1 - eps) <= (1 + eps) * ((1 + eps) * 1) - 1).
    { apply Rmult_le_reg_r with (1 - eps); [lra|]. unfold Rdiv. rewrite Rmult_assoc, Rinv_l by lra. nra. }
    pose proof (pow1 n). pose proof (Rmult_le_compat_l ((1 + eps) ^ n) _ _ ltac:(lra) K). lra. }
  assert (0 <= A / Rabs s) by (eapply Rle_trans; [apply Rabs_pos|exact Hr]).
  pose proof (Rmult_le_compat_r (A / Rabs s) _ _ ltac:(lra) G). unfold Rdiv in *. lra.
Qed.
Lemma nearm_scale_by n a b (x y : float) (r s : R) : near n a x r -> near n b y s -> nearm n (scale_mat a b) (scale_mat x y) (scale_mat r s).
Proof.
  intros X Y. unfold nearm, scale_mat. cbn [m00 m01 m02 m10 m11 m12 m20 m21 m22]. ops.
  assert (Z0 : near n 0 0%float 0) by (apply near_weaken with (n := 0%nat) (A := 0); [lia|lra|apply (near_const 0); vm_compute; discriminate]).
  assert (Z1 : near n 1 1%float 1) by (apply near_weaken with (n := 0%nat) (A := 1); [lia|lra|apply (near_const 1); vm_compute; discriminate]).
  repeat (split; [assumption|]). assumption.
Qed.
(* the sizes to compare the error of scale_bbox with: as above, from the exact ratios of the boxes *)
Definition fit_size (sxl syl sxh syh txl tyl txh tyh : float) (t : transform float) : mat R :=
  let ratio a b c d := Rabs ((val b - val a) / (val d - val c)) + tiny in
  abs_dot (translate_mat (Rabs (val txl)) (Rabs (val tyl)))
    (abs_dot (scale_mat (ratio txl txh sxl sxh) (ratio tyl tyh syl syh))
      (abs_dot (translate_mat (Rabs (val sxl)) (Rabs (val syl))) (absm (tmat t)))).
Lemma ratio_near a b c d : finite (b - a)%float -> (b - a =? 0)%float = false ->
  near 4 (Rabs ((val d - val c) / (val b - val a)) + tiny) ((d - c) / (b - a))%float ((val d - val c) / (val b - val a)) /\ val b - val a <> 0.
Proof.
  intros F N. assert (F0 : finite 0%float) by (vm_compute; reflexivity).
  rewrite (eqb_ok _ _ F F0) in N. assert (V0 : val 0%float = 0) by exact (proj2 (const_ok 0 ltac:(vm_compute; discriminate))).
  assert (Ny : val (b - a)%float <> 0).
  { intros E. rewrite E, V0 in N. unfold Reqb in N. destruct (Req_EM_T 0 0); [discriminate|congruence]. }
  assert (Ns : val b - val a <> 0).
  { intros E. apply Ny. destruct (sub_ok _ _ F) as (_ & _ & ->). rewrite E. apply round_0. typeclasses eauto. }
  split; [|exact Ns]. eapply near_scaled; [apply (near_quotient 1); [apply near_diff|apply near_diff|exact F|exact Ny|exact Ns]|lia|].
  unfold Rdiv. rewrite Rabs_mult, Rabs_Rinv by exact Ns. apply Rle_refl.
Qed.
(* On doubles, scale_bbox takes any point to within seventeen times 2^-53 of the size of the
   data of where the exact scale_bbox takes it. *)
Theorem C79_scale_bbox {TR : NumTrig R} {TF : NumTrig float} (sxl syl sxh syh txl tyl txh tyh : float) (t t' : transform float) (p : pt float) :
  let start := BB sxl syl sxh syh in let target := BB txl tyl txh tyh in
  let exact := fst (t_scale_bbox (valb start) (valb target) false (valt t)) in
  let q := t_transform t' p in let q' := t_transform exact (valp p) in
  let s := mat_apply (fit_size sxl syl sxh syh txl tyl txh tyh t) (absp p) in
  finite (bbox_width start) -> finite (bbox_height start) ->
  t_scale_bbox start target false t = (t', Ok tt) ->
  snd (t_scale_bbox (valb start) (valb target) false (valt t)) = Ok tt /\
  (finite (px q) -> Rabs (val (px q) - px q') <= 17 * eps * (px s + 3 * tiny)) /\
  (finite (py q) -> Rabs (val (py q) - py q') <= 17 * eps * (py s + 3 * tiny)).
Proof.
  cbv zeta. unfold t_scale_bbox. cbn [valb bbox_width bbox_height]. unfold pydiv. cbn [neqb nsub ndiv nofZ NumFloat NumR]. change (float_ofZ 0) with 0%float.
  intros Fw Fh. destruct (sxh - sxl =? 0)%float eqn:Nw; [discriminate|]. destruct (syh - syl =? 0)%float eqn:Nh; [discriminate|].
  intros E. assert (Et : t' = t_translate txl tyl (t_scale ((txh - txl) / (sxh - sxl))%float ((tyh - tyl) / (syh - syl))%float (t_translate (- sxl)%num (- syl)%num t))).
  { exact (eq_sym (f_equal fst E)). }
  subst t'. clear E.
  destruct (ratio_near _ _ txl txh Fw Nw) as [Rw Zw]. destruct (ratio_near _ _ tyl tyh Fh Nh) as [Rh Zh].
  assert (Bw : Reqb (val sxh - val sxl) 0 = false) by (unfold Reqb; destruct (Req_EM_T _ _); [contradiction|reflexivity]).
  assert (Bh : Reqb (val syh - val syl) 0 = false) by (unfold Reqb; destruct (Req_EM_T _ _); [contradiction|reflexivity]).
  rewrite Bw, Bh. split; [reflexivity|]. cbn [fst].
  assert (A : nearm 13 (fit_size sxl syl sxh syh txl tyl txh tyh t)
    (tmat (t_translate txl tyl (t_scale ((txh - txl) / (sxh - sxl))%float ((tyh - tyl) / (syh - syl))%float (t_translate (- sxl)%num (- syl)%num t))))
    (tmat (t_translate (val txl) (val tyl) (t_scale ((val txh - val txl) / (val sxh - val sxl)) ((val tyh - val tyl) / (val syh - val syl)) (t_translate (- val sxl)%num (- val syl)%num (valt t)))))).
  { unfold fit_size. apply (nearm_dot 0 10); [apply nearm_translate|]. apply (nearm_dot 4 3); [apply nearm_scale_by; assumption|].
    apply (nearm_dot 0 0); [|apply nearm_leaf].
    pose proof (nearm_translate (- sxl)%float (- syl)%float) as H. rewrite (proj2 (opp_ok sxl)), (proj2 (opp_ok syl)), !Rabs_Ropp in H. exact H. }
  revert A. generalize (fit_size sxl syl sxh syh txl tyl txh tyh t). intros sz A.
  unfold t_transform. set (mf := tmat (t_translate txl tyl _)) in *. set (mr := tmat (t_translate (val txl) (val tyl) _)) in *. clearbody mf mr.
  destruct A as (A0 & A1 & A2 & A3 & A4 & A5 & _). unfold mat_apply, absp, valp. cbn [px py]. ops.
  assert (One : near 0 1 1%float 1) by (apply (near_const 1); vm_compute; discriminate).
  pose proof (near_leaf (px p)) as X. pose proof (near_leaf (py p)) as Y.
  pose proof (near_dot3 _ _ _ _ _ _ _ _ _ _ _ _ _ _ _ _ _ _ _ _ A0 A1 A2 X Y One) as N1.
  pose proof (near_dot3 _ _ _ _ _ _ _ _ _ _ _ _ _ _ _ _ _ _ _ _ A3 A4 A5 X Y One) as N2.
  split; intros F; (eapply near_use; [first [exact N1|exact N2]|cbn; lia|cbn; lra|lra|exact F]).
Qed.
Lemma fit_exact (a b r s c d x y : R) :
  mat_apply (mat_dot (translate_mat c d) (mat_dot (scale_mat r s) (mat_dot (translate_mat (- a)%num (- b)%num) mat_id))) (P x y) =
  P ((x - a) * r + c) ((y - b) * s + d).
Proof.
  unfold mat_apply, mat_dot, mat_id, translate_mat, scale_mat. cbn [m00 m01 m02 m10 m11 m12 m20 m21 m22 px py].
  ops. f_equal; ring.
Qed.
Lemma valm_id : val 0%float = 0 -> val 1%float = 1 -> valm (tmat t_new) = mat_id.
Proof.
  intros V0 V1. unfold valm, t_new, mat_id. cbn [tmat m00 m01 m02 m10 m11 m12 m20 m21 m22]. cbn [nofZ NumFloat NumR].
  change (float_ofZ 0) with 0%float. change (float_ofZ 1) with 1%float. rewrite V0, V1. reflexivity.
Qed.
(* the corners of the box in particular *)
Theorem C79_scale_bbox_corners {TR : NumTrig R} {TF : NumTrig float} (sxl syl sxh syh txl tyl txh tyh : float) (t' : transform float) :
  let start := BB sxl syl sxh syh in let target := BB txl tyl txh tyh in
  let size p := mat_apply (fit_size sxl syl sxh syh txl tyl txh tyh t_new) (absp p) in
  finite (bbox_width start) -> finite (bbox_height start) ->
  t_scale_bbox start target false t_new = (t', Ok tt) ->
  Forall (fun pq : pt float * pt float => let (p, q) := pq in
    (finite (px (t_transform t' p)) -> Rabs (val (px (t_transform t' p)) - val (px q)) <= 17 * eps * (px (size p) + 3 * tiny)) /\
    (finite (py (t_transform t' p)) -> Rabs (val (py (t_transform t' p)) - val (py q)) <= 17 * eps * (py (size p) + 3 * tiny)))
  [(P sxl syl, P txl tyl); (P sxh syl, P txh tyl); (P sxl syh, P txl tyh); (P sxh syh, P txh tyh)].
Proof.
  cbv zeta. intros Fw Fh E. pose proof (C79_scale_bbox sxl syl sxh syh txl tyl txh tyh t_new t') as H. cbv zeta in H.
  assert (Exact : forall p q, valp q = t_transform (fst (t_scale_bbox (valb (BB sxl syl sxh syh)) (valb (BB txl tyl txh tyh)) false (valt t_new))) (valp p) ->
    (finite (px (t_transform t' p)) -> Rabs (val (px (t_transform t' p)) - val (px q)) <= 17 * eps * (px (mat_apply (fit_size sxl syl sxh syh txl tyl txh tyh t_new) (absp p)) + 3 * tiny)) /\
    (finite (py (t_transform t' p)) -> Rabs (val (py (t_transform t' p)) - val (py q)) <= 17 * eps * (py (mat_apply (fit_size sxl syl sxh syh txl tyl txh tyh t_new) (absp p)) + 3 * tiny))).
  { intros p q Q. specialize (H p Fw Fh E). rewrite <- Q in H. apply H. }
  assert (Zw : val sxh - val sxl <> 0 /\ val syh - val syl <> 0).
  { revert E. unfold t_scale_bbox, pydiv. cbn [bbox_width bbox_height]. cbn [neqb nsub ndiv nofZ NumFloat]. change (float_ofZ 0) with 0%float.
    destruct (sxh - sxl =? 0)%float eqn:Nw; [discriminate|]. destruct (syh - syl =? 0)%float eqn:Nh; [discriminate|]. intros _.
    split; [eapply (ratio_near _ _ 0%float 0%float Fw Nw)|eapply (ratio_near _ _ 0%float 0%float Fh Nh)]. }
  destruct Zw as [Zw Zh].
  assert (Bw : Reqb (val sxh - val sxl) 0 = false) by (unfold Reqb; destruct (Req_EM_T _ _); [contradiction|reflexivity]).
  assert (Bh : Reqb (val syh - val syl) 0 = false) by (unfold Reqb; destruct (Req_EM_T _ _); [contradiction|reflexivity]).
  assert (V0 : val 0%float = 0) by exact (proj2 (const_ok 0 ltac:(vm_compute; discriminate))).
  assert (V1 : val 1%float = 1) by exact (proj2 (const_ok 1 ltac:(vm_compute; discriminate))).
  assert (Val : forall x y, t_transform (fst (t_scale_bbox (valb (BB sxl syl sxh syh)) (valb (BB txl tyl txh tyh)) false (valt t_new))) (P x y) =
    P ((x - val sxl) * ((val txh - val txl) / (val sxh - val sxl)) + val txl) ((y - val syl) * ((val tyh - val tyl) / (val syh - val syl)) + val tyl)).
  { intros x y. unfold t_scale_bbox, pydiv. cbn [valb bbox_width bbox_height]. cbn [neqb nsub ndiv nofZ NumR]. rewrite Bw, Bh. cbn [fst].
    unfold t_transform, t_translate, t_scale, t_pre, valt. cbn [tmat]. rewrite (valm_id V0 V1). rewrite fit_exact. reflexivity. }
  repeat (apply Forall_cons; [apply Exact; unfold valp; cbn [px py]; rewrite Val; f_equal; field; assumption|]). apply Forall_nil.
Qed.
Example C79_example_scale_bbox {TF : NumTrig float} :
  let start := (BB 0.1 0.2 0.7 1.3)%float in let target := (BB (-3) 5 1e3 7.7)%float in
  finite (bbox_width start) /\ finite (bbox_height start) /\
  exists t', t_scale_bbox start target false t_new = (t', Ok tt) /\ finite (px (t_transform t' (P 0.7 1.3)%float)).
Proof.
  cbv zeta. split; [vm_compute; reflexivity|]. split; [vm_compute; reflexivity|].
  eexists. split; [vm_compute; reflexivity|vm_compute; reflexivity].
Qed.

(* ------------------------------------------------------------------ *)
(** ** the handles of a control point under a transform *)

(* A handle is computed as the difference of two transformed points, so its error is compared
   with how far from the origin the control point is, and not only with the handle's own length. *)
Theorem C79_handles (t : transform float) (c : cpoint float) :
  let far d := mat_apply (absm (tmat t)) (P (Rabs (val (px (cc c))) + Rabs (val (vx d))) (Rabs (val (py (cc c))) + Rabs (val (vy d)))) in
  exists c' e, cp_transform (t_transform t) true c = Ok c' /\ cp_transform (t_transform (valt t)) true (valc c) = Ok e /\ ckind c' = ckind c /\
  (finite (vx (cdl c')) -> Rabs (val (vx (cdl c')) - vx (cdl e)) <= 6 * eps * (2 * px (far (cdl c)) + 6 * tiny)) /\
  (finite (vy (cdl c')) -> Rabs (val (vy (cdl c')) - vy (cdl e)) <= 6 * eps * (2 * py (far (cdl c)) + 6 * tiny)) /\
  (finite (vx (cdr c')) -> Rabs (val (vx (cdr c')) - vx (cdr e)) <= 6 * eps * (2 * px (far (cdr c)) + 6 * tiny)) /\
  (finite (vy (cdr c')) -> Rabs (val (vy (cdr c')) - vy (cdr e)) <= 6 * eps * (2 * py (far (cdr c)) + 6 * tiny)).
Proof.
  cbv zeta. unfold cp_transform. do 2 eexists. split; [reflexivity|]. split; [reflexivity|]. split; [reflexivity|].
  assert (One : near 0 1 1%float 1) by (apply (near_const 1); vm_compute; discriminate).
  assert (One' : near 1 1 1%float 1) by (eapply near_scaled; [exact One|lia|lra]).
  pose proof (nearm_leaf (tmat t)) as (A0 & A1 & A2 & A3 & A4 & A5 & _).
  destruct c as [[x y] [lx ly] [rx ry] kd].
  assert (Sum : forall a b, near 1 (Rabs (val a) + Rabs (val b)) (a + b)%float (val a + val b)) by (intros a b; exact (near_add 0 0 _ _ _ _ _ _ (near_leaf a) (near_leaf b))).
  assert (Dif : forall a0 a1 a2 (f0 f1 f2 : float) r0 r1 r2 u v, near 0 a0 f0 r0 -> near 0 a1 f1 r1 -> near 0 a2 f2 r2 ->
    near 5 (2 * (a0 * (Rabs (val x) + Rabs (val u)) + a1 * (Rabs (val y) + Rabs (val v)) + a2 * 1) + 6 * tiny)
      (f0 * (x + u) + f1 * (y + v) + f2 * 1 - (f0 * x + f1 * y + f2 * 1))%float
      (r0 * (val x + val u) + r1 * (val y + val v) + r2 * 1 - (r0 * val x + r1 * val y + r2 * 1))).
  { intros a0 a1 a2 f0 f1 f2 r0 r1 r2 u v N0 N1 N2.
    eapply near_scaled; [apply near_sub; [apply (near_dot3 0 1); eauto|apply (near_dot3 0 0); eauto using near_leaf]|cbn; lia|].
    pose proof (Rabs_pos r0). pose proof (Rabs_pos r1). destruct N0 as [N0 _], N1 as [N1 _].
    pose proof (Rmult_le_pos a0 (Rabs (val u)) ltac:(lra) (Rabs_pos _)). pose proof (Rmult_le_pos a1 (Rabs (val v)) ltac:(lra) (Rabs_pos _)). lra. }
  unfold valc, cp_l, cp_r, t_transform, valt, valp, valv, p_add, p_sub, mat_apply. cbn [cc cdl cdr px py vx vy tmat]. ops.
  repeat split; (intros F; eapply near_use; [apply Dif; first [exact A0|exact A1|exact A2|exact A3|exact A4|exact A5]|lia|cbn; lra|lra|exact F]).
Qed.
(* "the identity leaves a handle as it is": far from the origin the handle is lost *)
Theorem C81_handles_identity_refuted : exists c c' : cpoint float,
  finite (px (cc c)) /\ cp_transform (t_transform t_new) true c = Ok c' /\ valp (cc c') = valp (cc c) /\
  vx (valv (cdl c)) = 1 /\ vx (valv (cdl c')) = 0.
Proof.
  exists (CP (P 1e16 0) (V 1 0) (V 1 0) "smooth"%string)%float. eexists.
  split; [vm_compute; reflexivity|]. split; [vm_compute; reflexivity|]. split; [reflexivity|].
  split; cbn [valv vx cdl].
  - exact (proj2 (const_ok 1 ltac:(vm_compute; discriminate))).
  - exact (proj2 (const_ok 0 ltac:(vm_compute; discriminate))).
Qed.
(* with whole numbers the handles are exact *)
Theorem C80_handles (t : transform float) (c : cpoint float) (a d n h : Z) :
  wholem (a, d) (tmat t) -> wholep n (cc c) -> wholev h (cdl c) -> wholev h (cdr c) ->
  (n + h <= 2 ^ 53)%Z -> (4 * a * (n + h) + 2 * d <= 2 ^ 53)%Z ->
  exists c', cp_transform (t_transform t) true c = Ok c' /\ cp_transform (t_transform (valt t)) true (valc c) = Ok (valc c').
Proof.
  intros Hm Hc Hl Hr H1 H2. unfold cp_transform. eexists. split; [reflexivity|].
  pose proof (whole_pos _ _ (proj1 Hc)) as Pn. pose proof (whole_pos _ _ (proj1 Hl)) as Ph.
  pose proof (entries_pos _ _ _ (wholem_entries _ _ Hm)) as [Pa Pd]. cbn [fst snd] in *.
  assert (0 <= a * n /\ 0 <= a * h)%Z as [? ?] by nia.
  assert (Hn : forall q, wholev h q -> valp (p_add (cc c) q) = p_add (valp (cc c)) (valv q) /\ wholep (n + h) (p_add (cc c) q)).
  { intros q Hq. destruct c as [[x y] ? ? ?], q as [u v]. destruct Hc as [Cx Cy], Hq as [Qx Qy]. cbn [cc px py vx vy] in *. apply exactly_leaf in Cx, Cy, Qx, Qy.
    pose proof (exactly_add _ _ _ _ _ _ Cx Qx H1) as X. pose proof (exactly_add _ _ _ _ _ _ Cy Qy H1) as Y.
    unfold p_add, valp, valv. cbn [px py vx vy]. ops. split; [f_equal; [exact (exactly_val _ _ _ X)|exact (exactly_val _ _ _ Y)]|].
    split; cbn [px py]; [exact (exactly_whole _ _ _ X)|exact (exactly_whole _ _ _ Y)]. }
  assert (Hd : forall q, wholev h q -> valv (p_sub (t_transform t (p_add (cc c) q)) (t_transform t (cc c))) =
    p_sub (t_transform (valt t) (p_add (valp (cc c)) (valv q))) (t_transform (valt t) (valp (cc c)))).
  { intros q Hq. destruct (Hn q Hq) as [Vq Wq]. destruct (C80_transform t _ a d _ Hm Wq) as [E1 [W1 W1']]; [lia|].
    destruct (C80_transform t _ a d _ Hm Hc) as [E2 [W2 W2']]; [lia|]. rewrite <- Vq, <- E1, <- E2.
    apply exactly_leaf in W1, W1', W2, W2'.
    assert (S1 : (2 * a * (n + h) + d + (2 * a * n + d) <= max_whole)%Z) by (unfold max_whole; lia).
    unfold valv, valp, p_sub. cbn [px py vx vy]. ops. f_equal; [exact (exactly_val _ _ _ (exactly_sub _ _ _ _ _ _ W1 W2 S1))|exact (exactly_val _ _ _ (exactly_sub _ _ _ _ _ _ W1' W2' S1))]. }
  destruct (C80_transform t _ a d _ Hm Hc) as [E2 _]; [lia|].
  unfold cp_l, cp_r, valc at 1 2 3 4 5 6 7. cbn [cc cdl cdr ckind]. rewrite <- E2. unfold valc. cbn [cc cdl cdr ckind].
  do 2 f_equal; [rewrite E2; symmetry; now apply Hd|rewrite E2; symmetry; now apply Hd].
Qed.
Notation "'f' z" := (float_ofZ z) (at level 5, z at level 0, only parsing).
Example C80_example_handles : let t := T (mat_of6 (f 3) (f 0) (f 5) (f (-2)) (f 1) (f 4)) None [] in
  let c := CP (P (f 1000000) (f (-17))) (V (f 300) (f 4)) (V (f (-300)) (f (-4))) "smooth"%string in
  wholem (3, 5)%Z (tmat t) /\ wholep 1000000 (cc c) /\ wholev 300 (cdl c) /\ wholev 300 (cdr c).
Proof.
  cbv zeta. unfold wholem, mat_of6, wholep, wholev. cbn [tmat cc cdl cdr px py vx vy fst snd m00 m01 m02 m10 m11 m12 m20 m21 m22]. ops.
  repeat match goal with |- _ /\ _ => split end; try (vm_compute; discriminate); try (apply (const_ok 1); vm_compute; discriminate); whole_go.
Qed.
