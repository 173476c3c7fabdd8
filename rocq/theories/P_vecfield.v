(* C62: vector field algebra. *)
From Coq Require Import Reals ZArith List Lia Lra Bool.
Require Import Verif.Base Verif.NumR Verif.NumFloat Verif.L_real Verif.M_vector Verif.M_bbox Verif.M_vecfield Verif.S_vecfield.
Import ListNotations.
Local Open Scope R_scope.

Lemma in_cells n i j : In (i, j) (cells n) <-> (i < n)%nat /\ (j < n)%nat.
Proof.
  unfold cells. rewrite in_flat_map. split.
  - intros (x & Hx & H). apply in_map_iff in H. destruct H as (y & E & Hy). injection E as -> ->.
    rewrite in_seq in *. lia.
  - intros [H1 H2]. exists i. rewrite in_seq. split; [lia|]. apply in_map_iff. exists j. split; [reflexivity|]. apply in_seq. lia.
Qed.

(* ---------------- normalizing ---------------- *)

Lemma fold_max (g : nat * nat -> R) l : forall a,
  a <= fold_left (fun acc ij => pymax acc (g ij)) l a /\
  (forall x, In x l -> g x <= fold_left (fun acc ij => pymax acc (g ij)) l a) /\
  (fold_left (fun acc ij => pymax acc (g ij)) l a = a \/ exists x, In x l /\ fold_left (fun acc ij => pymax acc (g ij)) l a = g x).
Proof.
  induction l as [|y l IH]; intros a; cbn [fold_left]; [repeat split; auto; [lra|intros _ []]|].
  destruct (IH (pymax a (g y))) as (I1 & I2 & I3). set (r := fold_left _ l _) in *. clearbody r.
  rewrite pymax_R in *. pose proof (Rmax_l a (g y)). pose proof (Rmax_r a (g y)). split; [lra|]. split.
  - intros x [<-|Hx]; [lra|auto].
  - destruct I3 as [E|(x & Hx & E)]; [|right; exists x; split; [now right|exact E]].
    unfold Rmax in E. destruct (Rle_dec a (g y)); [right; exists y; split; [now left|exact E]|now left].
Qed.
Lemma amax_spec n (a : arr R) : (0 < n)%nat -> exists m, amax n a = Ok m /\
  (exists i j, (i < n)%nat /\ (j < n)%nat /\ a i j = m) /\ (forall i j, (i < n)%nat -> (j < n)%nat -> a i j <= m).
Proof.
  intros Hn. unfold amax. assert (In (0, 0)%nat (cells n)) as I0 by (apply in_cells; lia).
  pose proof (in_cells n) as C. destruct (cells n) as [|[i0 j0] l]; [destruct I0|]. clear I0.
  eexists. split; [reflexivity|]. destruct (fold_max (fun ij => a (fst ij) (snd ij)) l (a i0 j0)) as (F1 & F2 & F3).
  set (r := fold_left _ _ _) in *. clearbody r. split.
  - destruct F3 as [->|([i j] & Hx & ->)].
    + destruct (proj1 (C i0 j0) (or_introl eq_refl)). eauto.
    + destruct (proj1 (C i j) (or_intror Hx)). exists i, j. auto.
  - intros i j Hi Hj. destruct (proj2 (C i j) (conj Hi Hj)) as [E|Hx]; [injection E as -> ->; exact F1|exact (F2 _ Hx)].
Qed.
Lemma vlen_nonneg vx vy i j : 0 <= vlen vx vy i j.
Proof. apply sqrt_pos. Qed.
Lemma vlen_zero vx vy i j : vlen vx vy i j = 0 <-> vx i j = 0 /\ vy i j = 0.
Proof.
  unfold vlen. split.
  - intros H. apply sqrt_eq_0 in H; [|nra]. nra.
  - intros [-> ->]. rewrite !Rmult_0_l, Rplus_0_l. apply sqrt_0.
Qed.
Lemma vlen_stretched n k vx vy vx' vy' i j : 0 <= k -> stretched n k vx vy vx' vy' -> (i < n)%nat -> (j < n)%nat ->
  vlen vx' vy' i j = k * vlen vx vy i j.
Proof.
  intros Hk H Hi Hj. unfold vlen. destruct (H i j Hi Hj) as [-> ->].
  replace (k * vx i j * (k * vx i j) + k * vy i j * (k * vy i j)) with (k * k * (vx i j * vx i j + vy i j * vy i j)) by ring.
  rewrite sqrt_mult by nra. now rewrite sqrt_square.
Qed.
Lemma norm_longest n vx vy : (0 < n)%nat -> exists m vx' vy', longest_is n vx vy m /\
  norm_arrays n vx vy = Ok (vx', vy') /\ stretched n (1 / m) vx vy vx' vy'.
Proof.
  intros Hn. unfold norm_arrays. destruct (amax_spec n (magnitude vx vy) Hn) as (m & E & H1 & H2). rewrite E. cbn [bind].
  exists m. do 2 eexists. split; [split; [exact H1|exact H2]|]. split; [reflexivity|]. intros i j _ _. cbn. split; apply Rmult_comm.
Qed.
Lemma nonzero_pos n vx vy m : nonzero n vx vy -> longest_is n vx vy m -> 0 < m.
Proof.
  intros (i & j & Hi & Hj & N) [_ L]. specialize (L i j Hi Hj). pose proof (vlen_nonneg vx vy i j).
  destruct (Req_dec (vlen vx vy i j) 0) as [Z|]; [|lra]. apply vlen_zero in Z. tauto.
Qed.
Lemma longest_unique n vx vy m m' : longest_is n vx vy m -> longest_is n vx vy m' -> m = m'.
Proof.
  intros [(i & j & Hi & Hj & E) L] [(i' & j' & Hi' & Hj' & E') L']. specialize (L _ _ Hi' Hj'). specialize (L' _ _ Hi Hj). lra.
Qed.
Lemma longest_stretched n k vx vy vx' vy' m : 0 <= k -> stretched n k vx vy vx' vy' -> longest_is n vx vy m -> longest_is n vx' vy' (k * m).
Proof.
  intros Hk S0 [(i & j & Hi & Hj & E) L]. split.
  - exists i, j. rewrite (vlen_stretched n k vx vy) by assumption. rewrite E. auto.
  - intros x y Hx Hy. rewrite (vlen_stretched n k vx vy) by assumption. apply Rmult_le_compat_l; auto.
Qed.

(* normalized() multiplies all vectors by one positive number, so that the longest has length 1. *)
Theorem C62_normalized : forall n vx vy, nonzero n vx vy ->
  exists k vx' vy', norm_arrays n vx vy = Ok (vx', vy') /\ 0 < k /\ stretched n k vx vy vx' vy' /\ longest_is n vx' vy' 1.
Proof.
  intros n vx vy N. assert (0 < n)%nat as Hn by (destruct N as (i & j & ? & _); lia).
  destruct (norm_longest n vx vy Hn) as (m & vx' & vy' & L & E & S0). pose proof (nonzero_pos _ _ _ _ N L) as Hm.
  assert (0 < 1 / m) as Hk by (apply Rdiv_lt_0_compat; lra).
  exists (1 / m), vx', vy'. split; [exact E|]. split; [exact Hk|]. split; [exact S0|].
  replace 1 with (1 / m * m) at 1 by (field; lra). eapply longest_stretched; [lra|exact S0|exact L].
Qed.
Lemma stretched_nonzero n k vx vy vx' vy' : 0 < k -> stretched n k vx vy vx' vy' -> nonzero n vx vy -> nonzero n vx' vy'.
Proof.
  intros Hk S0 (i & j & Hi & Hj & N). exists i, j. destruct (S0 i j Hi Hj) as [-> ->]. repeat split; auto.
  destruct N as [N|N]; [left|right]; apply Rmult_integral_contrapositive_currified; lra.
Qed.
(* A field stretched by a positive number has the same normalized field. *)
Theorem C62_normalized_stretched : forall n k vx vy vx' vy' ux uy ux' uy', 0 < k -> nonzero n vx vy ->
  stretched n k vx vy vx' vy' -> norm_arrays n vx vy = Ok (ux, uy) -> norm_arrays n vx' vy' = Ok (ux', uy') ->
  same_arr n ux ux' /\ same_arr n uy uy'.
Proof.
  intros n k vx vy vx' vy' ux uy ux' uy' Hk N S0 E E'. assert (0 < n)%nat as Hn by (destruct N as (i & j & ? & _); lia).
  destruct (norm_longest n vx vy Hn) as (m & a & b & L & E1 & S1). destruct (norm_longest n vx' vy' Hn) as (m' & a' & b' & L' & E1' & S1').
  rewrite E in E1. injection E1 as <- <-. rewrite E' in E1'. injection E1' as <- <-.
  pose proof (longest_unique _ _ _ _ _ (longest_stretched _ _ _ _ _ _ _ (Rlt_le _ _ Hk) S0 L) L') as <-.
  pose proof (nonzero_pos _ _ _ _ N L) as Hm.
  split; intros i j Hi Hj; destruct (S1 i j Hi Hj), (S1' i j Hi Hj), (S0 i j Hi Hj) as [Ex Ey]; [rewrite H, H1, Ex|rewrite H0, H2, Ey]; field; lra.
Qed.
Theorem C62_idempotent : forall n vx vy ux uy wx wy, nonzero n vx vy -> norm_arrays n vx vy = Ok (ux, uy) ->
  norm_arrays n ux uy = Ok (wx, wy) -> same_arr n ux wx /\ same_arr n uy wy.
Proof.
  intros n vx vy ux uy wx wy N E E'. destruct (C62_normalized n vx vy N) as (k & a & b & E1 & Hk & S0 & _).
  rewrite E in E1. injection E1 as <- <-. exact (C62_normalized_stretched n k vx vy ux uy ux uy wx wy Hk N S0 E E').
Qed.
(* numpy has no longest vector on an empty mesh *)
Theorem C62_empty : forall vx vy : arr R, norm_arrays 0 vx vy = Raise ValueError /\ smooth_arrays 0 vx vy = Raise ValueError.
Proof. intros; split; reflexivity. Qed.
(* On floats, a field of zeros normalized holds no numbers: each entry is different from itself. *)
Definition zero_field (n : nat) (vx vy : arr PrimFloat.float) : Prop :=
  forall i j, (i < n)%nat -> (j < n)%nat -> vx i j = PrimFloat.zero /\ vy i j = PrimFloat.zero.
Definition no_numbers (n : nat) (vx vy : arr PrimFloat.float) : Prop :=
  forall i j, (i < n)%nat -> (j < n)%nat -> neqb (vx i j) (vx i j) = false /\ neqb (vy i j) (vy i j) = false.
Lemma fold_zeros (g : nat * nat -> PrimFloat.float) l : (forall x, In x l -> g x = PrimFloat.zero) ->
  fold_left (fun acc ij => pymax acc (g ij)) l PrimFloat.zero = PrimFloat.zero.
Proof.
  induction l as [|x l IH]; intros H; [reflexivity|]. cbn [fold_left]. rewrite (H x (or_introl eq_refl)).
  replace (pymax PrimFloat.zero PrimFloat.zero) with PrimFloat.zero by (vm_compute; reflexivity). apply IH. intros y Hy. apply H. now right.
Qed.
Theorem C62_zero_refuted : forall n (vx vy : arr PrimFloat.float), (0 < n)%nat -> zero_field n vx vy ->
  exists ux uy, norm_arrays n vx vy = Ok (ux, uy) /\ no_numbers n ux uy.
Proof.
  intros n vx vy Hn Z. assert (E : amax n (magnitude vx vy) = Ok PrimFloat.zero).
  { assert (G : forall i j, In (i, j) (cells n) -> magnitude vx vy i j = PrimFloat.zero).
    { intros i j H. apply in_cells in H. unfold magnitude. destruct (Z i j) as [-> ->]; try apply H. vm_compute. reflexivity. }
    unfold amax. assert (In (0, 0)%nat (cells n)) as I0 by (apply in_cells; lia).
    destruct (cells n) as [|[i0 j0] l]; [destruct I0|]. rewrite (G i0 j0 (or_introl eq_refl)).
    rewrite (fold_zeros (fun ij => magnitude vx vy (fst ij) (snd ij))); [reflexivity|]. intros [i j] H. apply G. now right. }
  unfold norm_arrays. rewrite E. cbn [bind]. do 2 eexists. split; [reflexivity|].
  intros i j Hi Hj. destruct (Z i j Hi Hj) as [-> ->]. vm_compute. split; reflexivity.
Qed.
Example zero_field_met : zero_field 5 zero_arr zero_arr.
Proof. intros i j _ _. split; reflexivity. Qed.

(* ---------------- scaling, random fields ---------------- *)

Theorem C62_scaled : forall (vx vy : arr R) sx sy i j,
  fst (scale_arrays vx vy sx sy) i j = sx * vx i j /\
  snd (scale_arrays vx vy sx sy) i j = match sy with Some s => s | None => sx end * vy i j.
Proof. intros. cbn. split; apply Rmult_comm. Qed.
(* uniform(m): every component lies between -m and m *)
Theorem C62_uniform : forall n (m : R) (random : nat -> R), (forall k, 0 <= random k < 1) ->
  forall i j, Rabs (fst (uniform_arrays n m random) i j) <= Rabs m /\ Rabs (snd (uniform_arrays n m random) i j) <= Rabs m.
Proof.
  intros n m random Hr. assert (forall k, Rabs (- m + (m - - m) * random k) <= Rabs m) as U.
  { intros k. specialize (Hr k). unfold Rabs. destruct (Rcase_abs m), (Rcase_abs (- m + (m - - m) * random k)); nra. }
  intros i j. cbn. split; apply U.
Qed.

(* nothing between -m and m is left out: whatever the components to be had, some random numbers give them, and each
   component has a random number of its own *)
Theorem C62_uniform_any : forall n (m : R) (ax ay : nat -> nat -> R), 0 < m ->
  (forall i j, - m <= ax i j < m /\ - m <= ay i j < m) ->
  exists random : nat -> R, (forall k, 0 <= random k < 1) /\
    forall i j, (i < n)%nat -> (j < n)%nat ->
      fst (uniform_arrays n m random) i j = ax i j /\ snd (uniform_arrays n m random) i j = ay i j.
Proof.
  intros n m ax ay Hm H.
  exists (fun k => ((if Nat.even k then ax (k / 2 / n)%nat (k / 2 mod n)%nat else ay (k / 2 / n)%nat (k / 2 mod n)%nat) + m) / (2 * m)).
  split.
  - intros k. destruct (H (k / 2 / n)%nat (k / 2 mod n)%nat) as [A B].
    assert (U : forall x, - m <= x < m -> 0 <= (x + m) / (2 * m) < 1).
    { intros x X. split; [apply Rmult_le_pos; [lra|left; apply Rinv_0_lt_compat; lra]|].
      apply (Rmult_lt_reg_r (2 * m)); [lra|]. unfold Rdiv. rewrite Rmult_assoc, Rinv_l by lra. lra. }
    destruct (Nat.even k); apply U; auto.
  - intros i j Hi Hj. unfold uniform_arrays. cbn [fst snd].
    assert (D : forall b, (b < 2)%nat -> ((2 * (i * n + j) + b) / 2 / n)%nat = i /\ ((2 * (i * n + j) + b) / 2 mod n)%nat = j).
    { intros b Hb. replace ((2 * (i * n + j) + b) / 2)%nat with (i * n + j)%nat.
      - split; symmetry; [apply (Nat.div_unique _ _ i j)|apply (Nat.mod_unique _ _ i j)]; nia.
      - apply (Nat.div_unique _ _ _ b); lia. }
    destruct (D 0%nat) as [D1 D2]; [lia|]. destruct (D 1%nat) as [D3 D4]; [lia|]. rewrite Nat.add_0_r in D1, D2.
    rewrite D1, D2, D3, D4.
    replace (Nat.even (2 * (i * n + j))) with true by (symmetry; apply Nat.even_spec; exists (i * n + j)%nat; reflexivity).
    replace (Nat.even (2 * (i * n + j) + 1)) with false by (symmetry; rewrite Nat.add_1_r, Nat.even_succ, <- Nat.negb_even, (proj2 (Nat.even_spec _)); [reflexivity|exists (i * n + j)%nat; reflexivity]).
    cbn -[IZR]. split; field; lra.
Qed.

(* ---------------- smoothing ---------------- *)

Lemma in_near n i x : (i < n)%nat -> In x (near n i) <-> close n i x.
Proof. intros H. unfold near, close. rewrite in_seq. lia. Qed.
Lemma in_neighbours n i j x y : (i < n)%nat -> (j < n)%nat -> In (x, y) (neighbours n i j) <-> close n i x /\ close n j y.
Proof.
  intros Hi Hj. unfold neighbours. rewrite in_flat_map. split.
  - intros (a & Ha & H). apply in_map_iff in H. destruct H as (b & E & Hb). injection E as -> ->.
    rewrite in_near in * by assumption. auto.
  - intros [H1 H2]. exists x. split; [now apply in_near|]. apply in_map_iff. exists y. split; [reflexivity|now apply in_near].
Qed.
Lemma nodup_product (l l' : list nat) : NoDup l -> NoDup l' -> NoDup (flat_map (fun x => map (fun y => (x, y)) l') l).
Proof.
  intros H H'. induction H as [|x l N _ IH]; cbn [flat_map]; [constructor|].
  assert (forall a b : list (nat * nat), NoDup a -> NoDup b -> (forall z, In z a -> ~ In z b) -> NoDup (a ++ b)) as App.
  { intros a b Ha Hb D. induction Ha as [|z a Nz _ IHa]; cbn; [exact Hb|]. constructor.
    - rewrite in_app_iff. intros [K|K]; [auto|]. exact (D z (or_introl eq_refl) K).
    - apply IHa. intros y Hy. apply D. now right. }
  apply App; [|exact IH|].
  - clear - H'. induction H' as [|y l' N _ IH]; cbn; constructor; auto. rewrite in_map_iff. intros (z & E & Hz). injection E as ->. auto.
  - intros z Hz K. apply in_map_iff in Hz. destruct Hz as (y & <- & Hy). apply in_flat_map in K. destruct K as (a & Ha & K).
    apply in_map_iff in K. destruct K as (b & E & _). injection E as -> _. auto.
Qed.
Lemma nodup_neighbours n i j : NoDup (neighbours n i j).
Proof. apply nodup_product; apply seq_NoDup. Qed.
Lemma fold_total v l : forall a, fold_left (fun u xy => nadd u (v (fst xy) (snd xy))) l a = a + total v l.
Proof. induction l as [|x l IH]; intros a; cbn [fold_left total fold_right]; [lra|]. rewrite IH. cbn. unfold total. lra. Qed.
Lemma smooth_at_eq n (v : arr R) i j : smooth_at n v i j =
  (total v (neighbours n i j) + 19 * v i j) / (INR (length (neighbours n i j)) + 19).
Proof.
  unfold smooth_at. rewrite fold_total. cbn [nofZ nadd nmul ndiv NumR]. rewrite plus_IZR, <- INR_IZR_INZ. unfold Rdiv. f_equal. change (20 - 1)%Z with 19%Z. lra.
Qed.
(* before it is normalized, the smoothed field holds the means *)
Theorem C62_mean : forall n (v : arr R) i j, (i < n)%nat -> (j < n)%nat -> mean_at n v i j (smooth_at n v i j).
Proof.
  intros n v i j Hi Hj. exists (neighbours n i j). split; [apply nodup_neighbours|].
  split; [intros x y; now apply in_neighbours|]. rewrite smooth_at_eq. pose proof (pos_INR (length (neighbours n i j))). field. lra.
Qed.
Lemma mean_unique n v i j m m' : mean_at n v i j m -> mean_at n v i j m' -> m = m'.
Proof.
  intros (l & N & I & E) (l' & N' & I' & E').
  assert (forall x, In x l <-> In x l') as Eq by (intros [x y]; rewrite I, I'; reflexivity).
  assert (total v l = total v l' /\ length l = length l') as [T1 T2].
  { clear - N N' Eq. revert l' N' Eq. induction N as [|a l Na N IH]; intros l' N' Eq.
    - destruct l' as [|b l']; [auto|]. destruct (proj2 (Eq b) (or_introl eq_refl)).
    - destruct (in_split a l' (proj1 (Eq a) (or_introl eq_refl))) as (l1 & l2 & ->).
      apply NoDup_remove in N'. destruct N' as [N1 N2]. destruct (IH (l1 ++ l2) N1) as [I1 I2].
      { intros x. rewrite in_app_iff. specialize (Eq x). cbn [In] in Eq. rewrite in_app_iff in Eq. cbn [In] in Eq.
        rewrite in_app_iff in N2. split; [|intros H].
        - intros H. destruct (proj1 Eq (or_intror H)) as [|[->|]]; [now left|contradiction|now right].
        - destruct (proj2 Eq) as [->|]; tauto. }
      assert (forall a b, total v (a ++ b) = total v a + total v b) as Ta by (intros c d; unfold total; induction c as [|z c IHc]; cbn [app fold_right]; [|rewrite IHc]; lra).
      rewrite Ta in *. change (total v (a :: l)) with (v (fst a) (snd a) + total v l). change (total v (a :: l2)) with (v (fst a) (snd a) + total v l2).
      cbn [length]. rewrite app_length in *. cbn [length]. rewrite I1, I2. split; [lra|lia]. }
  rewrite T1, T2 in E. pose proof (pos_INR (length l')). nra.
Qed.
(* and so does a field of zeros smoothed *)
Theorem C62_zero_smoothed_refuted : forall n (vx vy : arr PrimFloat.float), (0 < n)%nat -> zero_field n vx vy ->
  exists ux uy, smooth_arrays n vx vy = Ok (ux, uy) /\ no_numbers n ux uy.
Proof.
  intros n vx vy Hn Z. unfold smooth_arrays. apply C62_zero_refuted; [exact Hn|].
  assert (G : forall v : arr PrimFloat.float, (forall i j, (i < n)%nat -> (j < n)%nat -> v i j = PrimFloat.zero) ->
    forall i j, (i < n)%nat -> (j < n)%nat -> smooth_at n v i j = PrimFloat.zero).
  { intros v H i j Hi Hj. unfold smooth_at.
    assert (U : fold_left (fun u xy => nadd u (v (fst xy) (snd xy))) (neighbours n i j) (nofZ 0) = PrimFloat.zero).
    { assert (K : forall x y, In (x, y) (neighbours n i j) -> v x y = PrimFloat.zero).
      { intros x y I. apply in_neighbours in I; [|assumption|assumption]. destruct I as [[X _] [Y _]]. apply H; assumption. }
      induction (neighbours n i j) as [|[x y] l IH]; [reflexivity|]. cbn [fold_left fst snd]. rewrite (K x y (or_introl eq_refl)).
      replace (nadd (nofZ 0) PrimFloat.zero) with (nofZ 0 : PrimFloat.float) by (vm_compute; reflexivity). apply IH. intros x' y' I. apply K. now right. }
    rewrite U, (H i j Hi Hj). set (c := List.length (neighbours n i j)).
    assert (C : (c <= 16)%nat).
    { unfold c, neighbours. assert (N : forall k, (List.length (near n k) <= 4)%nat) by (intros k; unfold near; rewrite seq_length; lia).
      pose proof (N i). pose proof (N j). assert (L : forall l : list nat, List.length (flat_map (fun x => map (fun y => (x, y)) (near n j)) l) = (List.length l * List.length (near n j))%nat) by (induction l as [|x l IH]; cbn [flat_map]; [reflexivity|rewrite app_length, map_length, IH; reflexivity]). rewrite L. nia. }
    do 17 (destruct c as [|c]; [vm_compute; reflexivity|]). lia. }
  intros i j Hi Hj. split; apply G; auto; intros; now apply Z.
Qed.
(* smoothed(): the means, all multiplied by one positive number so that the longest is 1 *)
Theorem C62_smoothed : forall n vx vy ux uy, nonzero n (smooth_at n vx) (smooth_at n vy) -> smooth_arrays n vx vy = Ok (ux, uy) ->
  longest_is n ux uy 1 /\ exists k, 0 < k /\ forall i j, (i < n)%nat -> (j < n)%nat ->
    exists mx my, mean_at n vx i j mx /\ mean_at n vy i j my /\ ux i j = k * mx /\ uy i j = k * my.
Proof.
  intros n vx vy ux uy N E. destruct (C62_normalized _ _ _ N) as (k & a & b & E1 & Hk & S0 & L). unfold smooth_arrays in E.
  rewrite E in E1. injection E1 as <- <-. split; [exact L|]. exists k. split; [exact Hk|]. intros i j Hi Hj.
  exists (smooth_at n vx i j), (smooth_at n vy i j). destruct (S0 i j Hi Hj). repeat split; auto; now apply C62_mean.
Qed.
Lemma total_bounds v lo hi l : (forall x y, In (x, y) l -> lo <= v x y <= hi) -> INR (length l) * lo <= total v l <= INR (length l) * hi.
Proof.
  induction l as [|[x y] l IH]; intros H; [cbn; lra|]. cbn [total fold_right fst snd]. fold (total v l).
  change (length ((x, y) :: l)) with (S (length l)). rewrite S_INR.
  pose proof (H x y (or_introl eq_refl)). destruct IH; [intros; apply H; now right|]. lra.
Qed.
(* the mean of a component lies between any bounds of that component near by *)
Theorem C62_mean_between : forall n v i j m lo hi, (i < n)%nat -> (j < n)%nat -> mean_at n v i j m ->
  (forall x y, close n i x -> close n j y -> lo <= v x y <= hi) -> lo <= m <= hi.
Proof.
  intros n v i j m lo hi Hi Hj (l & _ & I & E) B.
  destruct (total_bounds v lo hi l) as [T1 T2]; [intros x y H; apply I in H; apply B; tauto|].
  destruct (B i j) as [B1 B2]; [unfold close; lia|unfold close; lia|]. pose proof (pos_INR (length l)). nra.
Qed.
Lemma total_combine a b v w l : total (fun i j => a * v i j + b * w i j) l = a * total v l + b * total w l.
Proof. unfold total. induction l as [|x l IH]; cbn [fold_right]; [|rewrite IH]; lra. Qed.
Lemma mean_combine n a b v w i j m m' : (i < n)%nat -> (j < n)%nat -> mean_at n v i j m -> mean_at n w i j m' ->
  mean_at n (fun x y => a * v x y + b * w x y) i j (a * m + b * m').
Proof.
  intros Hi Hj M1 M2. pose proof (mean_unique _ _ _ _ _ _ M1 (C62_mean n v i j Hi Hj)) as ->. pose proof (mean_unique _ _ _ _ _ _ M2 (C62_mean n w i j Hi Hj)) as ->.
  exists (neighbours n i j). split; [apply nodup_neighbours|]. split; [intros x y; now apply in_neighbours|].
  rewrite !smooth_at_eq, total_combine. pose proof (pos_INR (length (neighbours n i j))). field. lra.
Qed.
(* the mean of vectors is no longer than the longest of them *)
Theorem C62_mean_length : forall n vx vy i j mx my r, (i < n)%nat -> (j < n)%nat -> mean_at n vx i j mx -> mean_at n vy i j my ->
  (forall x y, close n i x -> close n j y -> vlen vx vy x y <= r) -> sqrt (mx * mx + my * my) <= r.
Proof.
  intros n vx vy i j mx my r Hi Hj M1 M2 B. set (u := sqrt (mx * mx + my * my)).
  assert (0 <= u) as Hu by apply sqrt_pos. assert (u * u = mx * mx + my * my) as Eu by (apply sqrt_sqrt; nra).
  assert (0 <= r) as Hr by (specialize (B i j); pose proof (vlen_nonneg vx vy i j); assert (vlen vx vy i j <= r) by (apply B; unfold close; lia); lra).
  pose proof (mean_combine n mx my vx vy i j mx my Hi Hj M1 M2) as Mc.
  destruct (C62_mean_between n _ i j _ (- (u * r)) (u * r) Hi Hj Mc) as [_ K].
  - intros x y Hx Hy. specialize (B x y Hx Hy). pose proof (vlen_nonneg vx vy x y) as P0. unfold vlen in *.
    set (w := sqrt (vx x y * vx x y + vy x y * vy x y)) in *.
    assert (w * w = vx x y * vx x y + vy x y * vy x y) as Ew by (apply sqrt_sqrt; nra).
    assert (Rabs (mx * vx x y + my * vy x y) <= u * w) as A.
    { apply Rsqr_incr_0_var; [|nra]. rewrite <- Rsqr_abs. unfold Rsqr.
      replace (u * w * (u * w)) with ((u * u) * (w * w)) by ring. rewrite Eu, Ew.
      assert (0 <= (mx * vy x y - my * vx x y) * (mx * vy x y - my * vx x y)) by apply Rle_0_sqr. lra. }
    assert (u * w <= u * r) by (apply Rmult_le_compat_l; lra). clearbody w. unfold Rabs in A. destruct (Rcase_abs _); lra.
  - destruct (Req_dec u 0); [lra|]. rewrite <- Eu in K. apply Rmult_le_reg_l with u; lra.
Qed.
(* only entries near by matter *)
Theorem C62_local : forall n v w i j m, (i < n)%nat -> (j < n)%nat -> (forall x y, close n i x -> close n j y -> v x y = w x y) ->
  mean_at n v i j m -> mean_at n w i j m.
Proof.
  intros n v w i j m Hi Hj H (l & N & I & E). exists l. split; [exact N|]. split; [exact I|]. rewrite E.
  rewrite (H i j) by (unfold close; lia). f_equal. assert (forall x, In x l -> v (fst x) (snd x) = w (fst x) (snd x)) as Q.
  { intros [x y] Hx. apply I in Hx. now apply H. }
  clear - Q. induction l as [|x l IH]; cbn; [reflexivity|]. rewrite (Q x (or_introl eq_refl)). f_equal. apply IH. intros y Hy. apply Q. now right.
Qed.
(* a constant field stays constant, with vectors of length 1 *)
Theorem C62_constant : forall n a b, (0 < n)%nat -> (a <> 0 \/ b <> 0) ->
  exists ux uy, smooth_arrays n (fun _ _ => a) (fun _ _ => b) = Ok (ux, uy) /\
    forall i j, (i < n)%nat -> (j < n)%nat -> ux i j = a / sqrt (a * a + b * b) /\ uy i j = b / sqrt (a * a + b * b).
Proof.
  intros n a b Hn N0.
  assert (forall (c : R) i j, (i < n)%nat -> (j < n)%nat -> smooth_at n (fun _ _ => c) i j = c) as Sc.
  { intros c i j Hi Hj. destruct (C62_mean_between n (fun _ _ => c) i j _ c c Hi Hj (C62_mean n _ i j Hi Hj)); [intros; lra|lra]. }
  destruct (norm_longest n (smooth_at n (fun _ _ => a)) (smooth_at n (fun _ _ => b)) Hn) as (m & ux & uy & [(i0 & j0 & Hi0 & Hj0 & Em) _] & E & S0).
  exists ux, uy. split; [exact E|]. intros i j Hi Hj. destruct (S0 i j Hi Hj) as [-> ->]. rewrite !Sc by assumption.
  unfold vlen in Em. rewrite !Sc in Em by assumption. subst m. unfold Rdiv. split; ring.
Qed.
(* smoothing keeps the field of any positive stretching *)
Theorem C62_smoothed_stretched : forall n k vx vy vx' vy' ux uy ux' uy', 0 < k -> nonzero n (smooth_at n vx) (smooth_at n vy) ->
  stretched n k vx vy vx' vy' -> smooth_arrays n vx vy = Ok (ux, uy) -> smooth_arrays n vx' vy' = Ok (ux', uy') ->
  same_arr n ux ux' /\ same_arr n uy uy'.
Proof.
  intros n k vx vy vx' vy' ux uy ux' uy' Hk N S0 E E'. eapply C62_normalized_stretched; [exact Hk|exact N| |exact E|exact E'].
  assert (forall v v' : arr R, (forall i j, (i < n)%nat -> (j < n)%nat -> v' i j = k * v i j) ->
    forall i j, (i < n)%nat -> (j < n)%nat -> smooth_at n v' i j = k * smooth_at n v i j) as Q.
  { intros v v' H i j Hi Hj. apply (mean_unique n v' i j); [now apply C62_mean|].
    apply (C62_local n (fun x y => k * v x y + 0 * v x y)); auto.
    - intros x y [Hx _] [Hy _]. rewrite H by assumption. lra.
    - replace (k * smooth_at n v i j) with (k * smooth_at n v i j + 0 * smooth_at n v i j) by lra. apply mean_combine; auto; now apply C62_mean. }
  intros i j Hi Hj. split; apply Q; auto; intros x y Hx Hy; apply (S0 x y Hx Hy).
Qed.
(* Smoothing is lopsided: mirroring a field and smoothing it is not smoothing and mirroring. *)
Theorem C62_mirror_refuted : exists n (v : arr R), let mirror (a : arr R) : arr R := fun i j => a (n - 1 - i)%nat j in
  exists ux uy ux' uy', smooth_arrays n v v = Ok (ux, uy) /\ smooth_arrays n (mirror v) (mirror v) = Ok (ux', uy') /\
  exists i j, (i < n)%nat /\ (j < n)%nat /\ ux' i j <> mirror ux i j.
Proof.
  exists 3%nat. pose (v := (fun i j => if Nat.eqb i 2 then 1 else 0) : arr R). exists v.
  intros mirror. 
  assert (nonzero 3 (smooth_at 3 v) (smooth_at 3 v)) as N1.
  { exists 2%nat, 0%nat. repeat split; try lia. left. rewrite smooth_at_eq. cbn. lra. }
  assert (nonzero 3 (smooth_at 3 (mirror v)) (smooth_at 3 (mirror v))) as N2.
  { exists 2%nat, 0%nat. repeat split; try lia. left. rewrite smooth_at_eq. cbn. lra. }
  destruct (C62_normalized _ _ _ N1) as (k & ux & uy & E & Hk & S0 & _). destruct (C62_normalized _ _ _ N2) as (k' & ux' & uy' & E' & Hk' & S0' & _).
  exists ux, uy, ux', uy'. split; [exact E|]. split; [exact E'|]. 
  exists 2%nat, 0%nat. split; [lia|]. split; [lia|]. destruct (S0' 2%nat 0%nat) as [-> _]; try lia.
  unfold mirror at 2. destruct (S0 (3 - 1 - 2)%nat 0%nat) as [-> _]; try lia. rewrite !smooth_at_eq. cbn. lra.
Qed.

(* ---------------- equality ---------------- *)

Lemma arr_eqb_iff n (a b : arr R) : arr_eqb n a b = true <-> same_arr n a b.
Proof.
  unfold arr_eqb, same_arr. rewrite forallb_forall. split.
  - intros H i j Hi Hj. specialize (H (i, j) (proj2 (in_cells n i j) (conj Hi Hj))). now apply Reqb_eq in H.
  - intros H [i j] Hij. apply in_cells in Hij. apply Reqb_eq. apply H; tauto.
Qed.
Lemma vec_eqb_refl n (a : nat -> R) : vec_eqb n a a = true.
Proof. unfold vec_eqb. apply forallb_forall. intros i _. now apply Reqb_eq. Qed.
Lemma mesh_eqb_iff (a b : mesh R) : mesh_eqb a b = true <-> a = b.
Proof.
  split.
  - unfold mesh_eqb. destruct a, b. simpl. rewrite !andb_true_iff.
    intros [[[[[[[[H1 H2] H3] H4] H5] _] _] _] _]. apply Reqb_eq in H1, H2, H3, H4. apply Nat.eqb_eq in H5. now subst.
  - intros <-. unfold mesh_eqb. assert (forall x : R, neqb x x = true) as Q by (intros; now apply Reqb_eq).
    rewrite !Q, Nat.eqb_refl, !vec_eqb_refl. cbn [andb]. rewrite !(proj2 (arr_eqb_iff _ _ _)); [reflexivity| |]; intros i j _ _; reflexivity.
Qed.
(* fields are equal when they lie on the same box with the same steps and hold the same vectors *)
Theorem C62_equal : forall (w : world R) a b, vf_eqb w a b = true <->
  vf_mesh a = vf_mesh b /\ same_arr (m_steps (vf_mesh a)) (arr_at w (vf_vx a)) (arr_at w (vf_vx b)) /\
  same_arr (m_steps (vf_mesh a)) (arr_at w (vf_vy a)) (arr_at w (vf_vy b)).
Proof. intros w a b. unfold vf_eqb. rewrite !andb_true_iff, !arr_eqb_iff, mesh_eqb_iff. tauto. Qed.

(* a field on a mesh of four by four *)
Example C62_nontrivial : let vx := (fun i j => INR i - INR j) : arr R in let vy := (fun i j => 1) : arr R in
  nonzero 4 vx vy /\ nonzero 4 (smooth_at 4 vx) (smooth_at 4 vy) /\ stretched 4 3 vx vy (fun i j => 3 * vx i j) (fun i j => 3 * vy i j) /\
  mean_at 4 vx 1 2 (smooth_at 4 vx 1 2) /\
  (exists ux uy, norm_arrays 4 vx vy = Ok (ux, uy)) /\ (exists ux uy, smooth_arrays 4 vx vy = Ok (ux, uy)).
Proof.
  intros vx vy. assert (nonzero 4 vx vy) as N by (exists 0%nat, 0%nat; repeat split; try lia; right; unfold vy; lra).
  assert (nonzero 4 (smooth_at 4 vx) (smooth_at 4 vy)) as N2.
  { exists 0%nat, 0%nat. repeat split; try lia. right. rewrite smooth_at_eq. cbn. unfold vy. lra. }
  split; [exact N|]. split; [exact N2|]. split; [intros i j _ _; split; reflexivity|]. split; [apply C62_mean; lia|].
  destruct (C62_normalized _ _ _ N) as (k & a & b & E & _). destruct (C62_normalized _ _ _ N2) as (k' & a' & b' & E' & _).
  split; [exists a, b; exact E|exists a', b'; exact E'].
Qed.
