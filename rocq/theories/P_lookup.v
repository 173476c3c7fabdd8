(* C63: looking up vectors in a field. *)
From Coq Require Import Reals ZArith List Lia Lra Bool.
Require Import Verif.Base Verif.NumR Verif.NumFloat Verif.L_real Verif.M_vector Verif.M_bbox Verif.M_vecfield Verif.S_vecfield.
Import ListNotations.
Local Open Scope R_scope.

(* ---------------- the grid ---------------- *)

Lemma linspace_node lo hi n i : (2 <= n)%nat -> (i < n)%nat -> linspace lo hi n i = node lo hi n i.
Proof.
  intros Hn Hi. unfold linspace, node. assert (0 < INR (n - 1)) by (apply lt_0_INR; lia).
  replace (1 <? n)%nat with true by (symmetry; apply Nat.ltb_lt; lia). cbn [andb].
  destruct (Nat.eqb_spec i (n - 1)) as [->|N].
  - field. lra.
  - cbv zeta. cbn [nofZ nadd nmul ndiv nsub neqb NumR]. rewrite <- !INR_IZR_INZ.
    destruct (Reqb _ _); field; lra.
Qed.
Lemma node_step lo hi n i : (2 <= n)%nat -> node lo hi n (S i) - node lo hi n i = (hi - lo) / INR (n - 1).
Proof. intros Hn. unfold node. assert (0 < INR (n - 1)) by (apply lt_0_INR; lia). rewrite S_INR. field. lra. Qed.
Lemma step_pos lo hi n : (2 <= n)%nat -> lo < hi -> 0 < (hi - lo) / INR (n - 1).
Proof. intros Hn H. apply Rdiv_lt_0_compat; [lra|]. apply lt_0_INR. lia. Qed.
Lemma node_mono lo hi n i k : (2 <= n)%nat -> lo < hi -> (i < k)%nat -> node lo hi n i < node lo hi n k.
Proof.
  intros Hn H. pose proof (step_pos lo hi n Hn H) as Sp. induction 1 as [|k _ IH].
  - pose proof (node_step lo hi n i Hn). lra.
  - pose proof (node_step lo hi n k Hn). lra.
Qed.
Lemma ascending_iff lo hi n : (2 <= n)%nat -> ascending n (linspace lo hi n) = true <-> lo < hi.
Proof.
  intros Hn. unfold ascending. rewrite forallb_forall. split.
  - intros H. assert (In 0%nat (seq 0 (n - 1))) as I0 by (apply in_seq; lia). specialize (H 0%nat I0). apply Rltb_lt in H. rewrite !linspace_node in H by lia.
    pose proof (node_step lo hi n 0 Hn) as E. assert (0 < INR (n - 1)) as P0 by (apply lt_0_INR; lia).
    assert (0 < (hi - lo) / INR (n - 1)) as Q by lra. destruct (Rlt_dec lo hi); [assumption|exfalso].
    assert ((hi - lo) / INR (n - 1) * INR (n - 1) = hi - lo) by (field; lra). nra.
  - intros H k Hk. apply in_seq in Hk. apply Rltb_lt. rewrite !linspace_node by lia. apply node_mono; auto; lia.
Qed.
Lemma count_below (c : nat -> R) x n k : (k <= n)%nat -> (forall i, (i < k)%nat -> c i < x) -> (forall i, (k <= i < n)%nat -> ~ c i < x) ->
  length (filter (fun i => Rltb (c i) x) (seq 0 n)) = k.
Proof.
  intros Hk Lo Hi. replace n with (k + (n - k))%nat by lia. rewrite seq_app, filter_app, app_length.
  replace (length (filter _ (seq 0 k))) with k.
  - replace (filter _ (seq (0 + k) (n - k))) with (@nil nat); [cbn; lia|].
    symmetry. assert (forall l, (forall i, In i l -> (k <= i < n)%nat) -> filter (fun i => Rltb (c i) x) l = []) as Q.
    { induction l as [|i l IH]; intros H; cbn; [reflexivity|]. replace (Rltb (c i) x) with false.
      - apply IH. intros j Hj. apply H. now right.
      - symmetry. apply Rltb_ge. specialize (Hi i (H i (or_introl eq_refl))). lra. }
    apply Q. intros i H. apply in_seq in H. lia.
  - symmetry. assert (forall l, (forall i, In i l -> (i < k)%nat) -> filter (fun i => Rltb (c i) x) l = l) as Q.
    { induction l as [|i l IH]; intros H; cbn; [reflexivity|]. replace (Rltb (c i) x) with true.
      - f_equal. apply IH. intros j Hj. apply H. now right.
      - symmetry. apply Rltb_lt. apply Lo, H. now left. }
    rewrite Q; [apply seq_length|]. intros i H. apply in_seq in H. lia.
Qed.
(* the interval: the first reaches down, the last reaches up without end *)
Definition cell_of (lo hi : R) (n i : nat) (x : R) : Prop :=
  (i + 1 < n)%nat /\ (i <> 0%nat -> node lo hi n i < x) /\ ((i + 2 < n)%nat -> x <= node lo hi n (S i)).
Lemma locate_cell lo hi n i x : (2 <= n)%nat -> lo < hi -> cell_of lo hi n i x -> locate n (linspace lo hi n) x = i.
Proof.
  intros Hn H (C1 & C2 & C3). unfold locate. cbn [nltb NumR].
  assert (forall k, (k <= n)%nat -> (forall i, (i < k)%nat -> node lo hi n i < x) -> (forall i, (k <= i < n)%nat -> ~ node lo hi n i < x) ->
    length (filter (fun k => Rltb (linspace lo hi n k) x) (seq 0 n)) = k) as Cb.
  { intros k Hk A B. apply count_below; [exact Hk| |]; intros j Hj; rewrite linspace_node by lia; auto. }
  destruct (Nat.eq_dec (i + 2) n) as [En|Nn].
  - (* the last interval: the nodes below x are at least those up to i, when i is not 0 *)
    destruct (Rlt_dec (node lo hi n (S i)) x) as [L|L].
    + rewrite (Cb n); [lia|lia| |intros; lia]. intros j Hj. destruct (Nat.eq_dec j (S i)) as [->|]; [exact L|].
      apply Rlt_trans with (node lo hi n (S i)); [|exact L]. apply node_mono; auto; lia.
    + destruct (Nat.eq_dec i 0) as [->|Ni].
      * destruct (Rlt_dec (node lo hi n 0) x) as [L0|L0].
        -- rewrite (Cb 1%nat); [lia|lia| |]; intros j Hj; [replace j with 0%nat by lia; exact L0|replace j with 1%nat by lia; exact L].
        -- rewrite (Cb 0%nat); [lia|lia| |]; intros j Hj; [lia|]. destruct (Nat.eq_dec j 0) as [->|]; [exact L0|].
           pose proof (node_mono lo hi n 0 j Hn H ltac:(lia)). lra.
      * rewrite (Cb (S i)); [lia|lia| |]; intros j Hj.
        -- destruct (Nat.eq_dec j i) as [->|]; [auto|]. apply Rlt_trans with (node lo hi n i); [apply node_mono; auto; lia|auto].
        -- replace j with (S i) by lia. exact L.
  - assert (x <= node lo hi n (S i)) as U by (apply C3; lia).
    assert (forall j, (S i <= j < n)%nat -> ~ node lo hi n j < x) as Up.
    { intros j Hj. destruct (Nat.eq_dec j (S i)) as [->|]; [lra|]. pose proof (node_mono lo hi n (S i) j Hn H ltac:(lia)). lra. }
    destruct (Nat.eq_dec i 0) as [->|Ni].
    + destruct (Rlt_dec (node lo hi n 0) x) as [L0|L0].
      * rewrite (Cb 1%nat); [lia|lia| |exact Up]. intros j Hj. replace j with 0%nat by lia. exact L0.
      * rewrite (Cb 0%nat); [lia|lia|intros; lia|]. intros j Hj. destruct (Nat.eq_dec j 0) as [->|]; [exact L0|apply Up; lia].
    + rewrite (Cb (S i)); [lia|lia| |exact Up]. intros j Hj. destruct (Nat.eq_dec j i) as [->|]; [auto|].
      apply Rlt_trans with (node lo hi n i); [apply node_mono; auto; lia|auto].
Qed.
Lemma cell_exists lo hi n x : (2 <= n)%nat -> lo < hi -> exists i, cell_of lo hi n i x.
Proof.
  intros Hn H. assert (forall k, (k + 2 <= n)%nat -> (exists i, cell_of lo hi n i x) \/ (k = 0%nat \/ node lo hi n k < x)) as Q.
  { induction k as [|k IH]; intros Hk; [auto|]. destruct IH as [|Hk0]; [lia|auto|].
    destruct (Rlt_dec (node lo hi n (S k)) x) as [L|L]; [auto|]. left. exists k. split; [lia|]. split; [|intros; lra].
    intros Nk. destruct Hk0; [contradiction|assumption]. }
  destruct (Q (n - 2)%nat) as [|K]; [lia|assumption|]. exists (n - 2)%nat. split; [lia|]. split; [|intros; lia].
  intros Nk. destruct K; [contradiction|assumption].
Qed.

(* ---------------- looking up ---------------- *)


Lemma eval_cell (m : mesh R) v i j x y : on_mesh m ->
  cell_of (m_xl m) (m_xh m) (m_steps m) i x -> cell_of (m_yl m) (m_yh m) (m_steps m) j y ->
  rgi_eval (m_steps m) (coord_x m) (coord_y m) v x y =
  blend v i j (part (xnode m i) (xnode m (S i)) x) (part (ynode m j) (ynode m (S j)) y).
Proof.
  intros (Hn & Hx & Hy) Cx Cy. unfold rgi_eval.
  change (coord_x m) with (linspace (m_xl m) (m_xh m) (m_steps m)). change (coord_y m) with (linspace (m_yl m) (m_yh m) (m_steps m)).
  rewrite (locate_cell _ _ _ i x Hn Hx Cx), (locate_cell _ _ _ j y Hn Hy Cy).
  destruct Cx as (C1 & _ & _), Cy as (D1 & _ & _).
  rewrite !linspace_node by lia. unfold blend, part, xnode, ynode. cbn [nofZ nadd nmul ndiv nsub NumR]. ring.
Qed.
(* two ways to see the blend along a shared edge agree *)
Lemma blend_edge_x v i j t : blend v i j 1 t = blend v (S i) j 0 t.
Proof. unfold blend. ring. Qed.
Lemma blend_edge_y v i j s : blend v i j s 1 = blend v i (S j) s 0.
Proof. unfold blend. ring. Qed.
Lemma part_low a b : part a b a = 0.
Proof. unfold part, Rdiv. ring. Qed.
Lemma part_high a b : a < b -> part a b b = 1.
Proof. intros H. unfold part. field. lra. Qed.
Lemma xnode_lt m i : on_mesh m -> xnode m i < xnode m (S i).
Proof. intros (Hn & Hx & Hy). apply node_mono; auto; lia. Qed.
Lemma ynode_lt m i : on_mesh m -> ynode m i < ynode m (S i).
Proof. intros (Hn & Hx & Hy). apply node_mono; auto; lia. Qed.

Lemma eval_reach (m : mesh R) v i j x y : on_mesh m -> reach (xnode m) (m_steps m) i x -> reach (ynode m) (m_steps m) j y ->
  rgi_eval (m_steps m) (coord_x m) (coord_y m) v x y =
  blend v i j (part (xnode m i) (xnode m (S i)) x) (part (ynode m j) (ynode m (S j)) y).
Proof.
  intros Om (X1 & X2 & X3) (Y1 & Y2 & Y3).
  assert (exists i', cell_of (m_xl m) (m_xh m) (m_steps m) i' x /\ forall t,
    blend v i' j (part (xnode m i') (xnode m (S i')) x) t = blend v i j (part (xnode m i) (xnode m (S i)) x) t) as (i' & Ci & Ei).
  { destruct (Nat.eq_dec i 0) as [->|Ni]; [exists 0%nat; split; [split; [lia|split; [lia|exact X3]]|reflexivity]|].
    destruct (Rle_lt_or_eq_dec _ _ (X2 Ni)) as [L|E].
    - exists i. split; [split; [lia|split; [intros _; exact L|exact X3]]|reflexivity].
    - destruct i as [|i]; [contradiction|]. exists i. split.
      + split; [lia|]. split; [|intros _; fold (xnode m (S i)); lra]. intros _. rewrite <- E. apply xnode_lt. exact Om.
      + intros t. rewrite <- E, part_low, part_high by (apply xnode_lt; exact Om). apply blend_edge_x. }
  assert (exists j', cell_of (m_yl m) (m_yh m) (m_steps m) j' y /\ forall i s,
    blend v i j' s (part (ynode m j') (ynode m (S j')) y) = blend v i j s (part (ynode m j) (ynode m (S j)) y)) as (j' & Cj & Ej).
  { destruct (Nat.eq_dec j 0) as [->|Nj]; [exists 0%nat; split; [split; [lia|split; [lia|exact Y3]]|reflexivity]|].
    destruct (Rle_lt_or_eq_dec _ _ (Y2 Nj)) as [L|E].
    - exists j. split; [split; [lia|split; [intros _; exact L|exact Y3]]|reflexivity].
    - destruct j as [|j]; [contradiction|]. exists j. split.
      + split; [lia|]. split; [|intros _; fold (ynode m (S j)); lra]. intros _. rewrite <- E. apply ynode_lt. exact Om.
      + intros i0 s. rewrite <- E, part_low, part_high by (apply ynode_lt; exact Om). apply blend_edge_y. }
  rewrite (eval_cell m v i' j' x y Om Ci Cj), Ej. apply Ei.
Qed.

Lemma mesh_ready (m : mesh R) : on_mesh m ->
  (1 <? m_steps m)%nat && ascending (m_steps m) (coord_x m) && ascending (m_steps m) (coord_y m) = true.
Proof.
  intros (Hn & Hx & Hy). rewrite !andb_true_iff. split; [split; [apply Nat.ltb_lt; lia|]|]; now apply ascending_iff.
Qed.
Lemma lookup_fresh w f v x y : fresh_field w f v -> on_mesh (vf_mesh v) ->
  snd (lookup f x y w) = Ok (rgi_eval (m_steps (vf_mesh v)) (coord_x (vf_mesh v)) (coord_y (vf_mesh v)) (arr_at w (vf_vx v)) x y,
                             rgi_eval (m_steps (vf_mesh v)) (coord_x (vf_mesh v)) (coord_y (vf_mesh v)) (arr_at w (vf_vy v)) x y).
Proof.
  intros [E N] Om. unfold lookup, interp_coords, on. rewrite E, N. rewrite mesh_ready by exact Om. reflexivity.
Qed.

(* the vector at a node *)
Theorem C63_node : forall (w : world R) f v i j, fresh_field w f v -> on_mesh (vf_mesh v) ->
  (i < m_steps (vf_mesh v))%nat -> (j < m_steps (vf_mesh v))%nat ->
  snd (lookup f (xnode (vf_mesh v) i) (ynode (vf_mesh v) j) w) = Ok (arr_at w (vf_vx v) i j, arr_at w (vf_vy v) i j).
Proof.
  intros w f v i j Fr Om Hi Hj. rewrite (lookup_fresh _ _ _ _ _ Fr Om). set (m := vf_mesh v) in *.
  assert (forall a, rgi_eval (m_steps m) (coord_x m) (coord_y m) a (xnode m i) (ynode m j) = a i j) as Q.
  { intros a. pose proof (proj1 Om) as Hn.
    assert (exists i' s, reach (xnode m) (m_steps m) i' (xnode m i) /\ part (xnode m i') (xnode m (S i')) (xnode m i) = s /\
      ((s = 0 /\ i = i') \/ (s = 1 /\ i = S i'))) as (i' & s & Ri & Ps & Ds).
    { destruct (Nat.eq_dec (i + 1) (m_steps m)) as [El|Nl].
      - exists (i - 1)%nat, 1. pose proof (xnode_lt m (i - 1) Om) as L. replace (S (i - 1)) with i in * by lia.
        split; [split; [lia|split; [intros _; lra|intros; lia]]|]. split; [now apply part_high|right; split; [reflexivity|lia]].
      - exists i, 0. pose proof (xnode_lt m i Om) as L. split; [split; [lia|split; [intros _; lra|intros; lra]]|]. split; [apply part_low|left; auto]. }
    assert (exists j' t, reach (ynode m) (m_steps m) j' (ynode m j) /\ part (ynode m j') (ynode m (S j')) (ynode m j) = t /\
      ((t = 0 /\ j = j') \/ (t = 1 /\ j = S j'))) as (j' & t & Rj & Pt & Dt).
    { destruct (Nat.eq_dec (j + 1) (m_steps m)) as [El|Nl].
      - exists (j - 1)%nat, 1. pose proof (ynode_lt m (j - 1) Om) as L. replace (S (j - 1)) with j in * by lia.
        split; [split; [lia|split; [intros _; lra|intros; lia]]|]. split; [now apply part_high|right; split; [reflexivity|lia]].
      - exists j, 0. pose proof (ynode_lt m j Om) as L. split; [split; [lia|split; [intros _; lra|intros; lra]]|]. split; [apply part_low|left; auto]. }
    rewrite (eval_reach m a i' j' _ _ Om Ri Rj), Ps, Pt. unfold blend.
    destruct Ds as [[-> ->]|[-> ->]], Dt as [[-> ->]|[-> ->]]; ring. }
  rewrite !Q. reflexivity.
Qed.
(* between nodes, and past the edge of the mesh: the two-way linear blend of the four corners *)
Theorem C63_blend : forall (w : world R) f v i j x y, fresh_field w f v -> on_mesh (vf_mesh v) ->
  reach (xnode (vf_mesh v)) (m_steps (vf_mesh v)) i x -> reach (ynode (vf_mesh v)) (m_steps (vf_mesh v)) j y ->
  let s := part (xnode (vf_mesh v) i) (xnode (vf_mesh v) (S i)) x in
  let t := part (ynode (vf_mesh v) j) (ynode (vf_mesh v) (S j)) y in
  snd (lookup f x y w) = Ok (blend (arr_at w (vf_vx v)) i j s t, blend (arr_at w (vf_vy v)) i j s t).
Proof.
  intros w f v i j x y Fr Om Rx Ry s t. rewrite (lookup_fresh _ _ _ _ _ Fr Om).
  now rewrite !(eval_reach _ _ i j x y Om Rx Ry).
Qed.
(* every place is reached by some interval, so that C63_blend says what any lookup gives *)
Theorem C63_reach : forall m x y, on_mesh m -> exists i j, reach (xnode m) (m_steps m) i x /\ reach (ynode m) (m_steps m) j y.
Proof.
  intros m x y (Hn & Hx & Hy). destruct (cell_exists (m_xl m) (m_xh m) (m_steps m) x Hn Hx) as (i & I1 & I2 & I3).
  destruct (cell_exists (m_yl m) (m_yh m) (m_steps m) y Hn Hy) as (j & J1 & J2 & J3). exists i, j.
  split; (split; [assumption|split]); intros H; [apply Rlt_le, I2|apply I3|apply Rlt_le, J2|apply J3]; exact H.
Qed.
(* inside the mesh the components stay within those at the four corners *)
Theorem C63_between : forall v i j s t lo hi, 0 <= s <= 1 -> 0 <= t <= 1 ->
  (forall a b, (a = i \/ a = S i) -> (b = j \/ b = S j) -> lo <= v a b <= hi) -> lo <= blend v i j s t <= hi.
Proof.
  intros v i j s t lo hi Hs Ht B. unfold blend.
  pose proof (B i j (or_introl eq_refl) (or_introl eq_refl)). pose proof (B i (S j) (or_introl eq_refl) (or_intror eq_refl)).
  pose proof (B (S i) j (or_intror eq_refl) (or_introl eq_refl)). pose proof (B (S i) (S j) (or_intror eq_refl) (or_intror eq_refl)).
  assert (lo <= (1 - t) * v i j + t * v i (S j) <= hi) by nra. assert (lo <= (1 - t) * v (S i) j + t * v (S i) (S j) <= hi) by nra.
  generalize dependent ((1 - t) * v i j + t * v i (S j)). generalize dependent ((1 - t) * v (S i) j + t * v (S i) (S j)). intros; nra.
Qed.
(* a field that is a linear function of the place is looked up exactly, everywhere *)
Theorem C63_linear : forall (w : world R) f v (a b c : R) x y, fresh_field w f v -> on_mesh (vf_mesh v) ->
  (forall i j, (i < m_steps (vf_mesh v))%nat -> (j < m_steps (vf_mesh v))%nat ->
     arr_at w (vf_vx v) i j = a * xnode (vf_mesh v) i + b * ynode (vf_mesh v) j + c) ->
  exists vy, snd (lookup f x y w) = Ok (a * x + b * y + c, vy).
Proof.
  intros w f v a b c x y Fr Om L. destruct (C63_reach (vf_mesh v) x y Om) as (i & j & Ri & Rj).
  rewrite (C63_blend w f v i j x y Fr Om Ri Rj). cbv zeta. eexists. do 2 f_equal. destruct Ri as (Hi & _), Rj as (Hj & _).
  unfold blend. rewrite !L by lia. unfold part. pose proof (xnode_lt (vf_mesh v) i Om). pose proof (ynode_lt (vf_mesh v) j Om). field. lra.
Qed.
(* A box without width or height has no interpolation: lookup() raises. *)
Theorem C63_flat : forall (w : world R) f v x y, fresh_field w f v ->
  (m_xh (vf_mesh v) <= m_xl (vf_mesh v) \/ m_yh (vf_mesh v) <= m_yl (vf_mesh v)) -> (2 <= m_steps (vf_mesh v))%nat ->
  lookup f x y w = (w, Raise ValueError).
Proof.
  intros w f v x y [E N] Fl Hn. unfold lookup, interp_coords, on. rewrite E, N.
  destruct (_ && _ && _) eqn:A; [exfalso|reflexivity]. rewrite !andb_true_iff in A. destruct A as [[_ A1] A2].
  apply ascending_iff in A1; [|exact Hn]. apply ascending_iff in A2; [|exact Hn]. lra.
Qed.

(* ---------------- moving points ---------------- *)

(* transform(x, y) moves a point by the vector looked up there *)
Theorem C63_transform : forall (w : world R) f x y,
  fst (vf_transform f x y w) = fst (lookup f x y w) /\
  snd (vf_transform f x y w) = let* u := snd (lookup f x y w) in Ok (x + fst u, y + snd u).
Proof.
  intros w f x y. unfold vf_transform, vf_transform_np_pts, lookup, interp_coords, on.
  destruct (nth_error (fields w) f) as [v|]; [|split; reflexivity]. destruct (vf_interp v) as [[lx ly]|]; [split; reflexivity|].
  destruct (_ && _ && _); split; reflexivity.
Qed.
(* transform_pts() on a vector field never succeeds *)
Theorem C63_transform_pts : forall (w : world R) f pts, exists e, snd (vf_transform_pts f pts w) = Raise e.
Proof.
  intros w f [|p pts]; cbn [vf_transform_pts snd]; [eauto|]. unfold vf_transform_np_pts, interp_coords, on.
  destruct (nth_error (fields w) f) as [v|]; [|cbn; eauto]. destruct (vf_interp v) as [[lx ly]|]; [cbn; eauto|].
  destruct (_ && _ && _); cbn; eauto.
Qed.

(* ---------------- histories ---------------- *)

Lemma replace_len {A} (l : list A) i x : length (replace l i x) = length l.
Proof.
  unfold replace. rewrite app_length. rewrite <- (firstn_skipn i l) at 3. rewrite app_length. f_equal. now destruct (skipn i l).
Qed.
Lemma replace_nth {A} (l : list A) i x k : nth_error (replace l i x) k =
  if Nat.eqb k i then (if (i <? length l)%nat then Some x else None) else nth_error l k.
Proof.
  revert i k. induction l as [|y l IH]; intros [|i] [|k]; try reflexivity.
  - unfold replace. cbn. destruct (Nat.eqb k i); reflexivity.
  - specialize (IH i k). unfold replace in *. cbn [firstn skipn app nth_error Nat.eqb length]. exact IH.
Qed.
Lemma arr_at_nth (w : world R) l : (l < length (arrays w))%nat -> nth_error (arrays w) l = Some (arr_at w l).
Proof. intros H. unfold arr_at. now apply nth_error_nth'. Qed.
Lemma arr_at_some (w : world R) l a : nth_error (arrays w) l = Some a -> arr_at w l = a.
Proof. intros H. unfold arr_at. now apply nth_error_nth. Qed.

(* what is asked of a field before any lookup uses the arrays it has then *)
Theorem C63_first : forall (w : world R) f v x y u, fresh_field w f v -> snd (lookup f x y w) = Ok u ->
  nth_error (fields (fst (lookup f x y w))) f = Some (VF (vf_mesh v) (vf_vx v) (vf_vy v) (Some (vf_vx v, vf_vy v))) /\
  arrays (fst (lookup f x y w)) = arrays w.
Proof.
  intros w f v x y u [E N]. unfold lookup, interp_coords, on. rewrite E, N. destruct (_ && _ && _); [|discriminate].
  intros _. cbn [fst with_field fields arrays]. split; [|reflexivity]. rewrite replace_nth, Nat.eqb_refl.
  replace (f <? length (fields w))%nat with true; [reflexivity|]. symmetry. apply Nat.ltb_lt, nth_error_Some. congruence.
Qed.

Lemma make_arrays (m : mesh R) a b w : arrays (fst (vf_make m a b w)) = arrays w ++ [a; b].
Proof. reflexivity. Qed.
Definition grows (w w' : world R) : Prop :=
  (forall l, (l < length (arrays w))%nat -> nth_error (arrays w') l = nth_error (arrays w) l) /\
  (length (arrays w) <= length (arrays w'))%nat /\
  (forall f v lx ly, nth_error (fields w) f = Some v -> vf_interp v = Some (lx, ly) ->
     exists v', nth_error (fields w') f = Some v' /\ vf_mesh v' = vf_mesh v /\ vf_interp v' = Some (lx, ly)).
Lemma grows_refl w : grows w w.
Proof. split; [auto|]. split; [lia|]. intros; eauto. Qed.
Lemma grows_make m a b w : grows w (fst (vf_make m a b w)).
Proof.
  split; [|split].
  - intros l Hl. cbn. now rewrite nth_error_app1.
  - cbn. rewrite app_length. lia.
  - intros f v lx ly E I. exists v. split; [|auto]. cbn. rewrite nth_error_app1; [exact E|]. apply nth_error_Some. congruence.
Qed.
Lemma grows_field w f v v' : nth_error (fields w) f = Some v -> vf_mesh v' = vf_mesh v ->
  (forall p, vf_interp v = Some p -> vf_interp v' = Some p) -> grows w (with_field w f v').
Proof.
  intros E Em Ei. split; [auto|]. split; [auto|]. intros k u lx ly Eu Iu. cbn [with_field fields]. rewrite replace_nth.
  destruct (Nat.eqb_spec k f) as [->|]; [|eauto]. replace (f <? length (fields w))%nat with true.
  - exists v'. split; [reflexivity|]. rewrite E in Eu. injection Eu as <-. auto.
  - symmetry. apply Nat.ltb_lt, nth_error_Some. congruence.
Qed.
Lemma step_grows o w : match o with OpPut _ _ _ _ => True | _ => grows w (vstep o w) end.
Proof.
  destruct o as [m|m vx vy|f|f|f|f sx sy|f pts|f l|f l|l i j v]; cbn [vstep]; try exact I.
  - apply grows_make.
  - destruct (_ && _); [|apply grows_refl]. split; [auto|]. split; [auto|]. intros f u lx ly E I0. exists u. split; [|auto]. cbn.
    rewrite nth_error_app1; [exact E|]. apply nth_error_Some. congruence.
  - unfold vf_copy, on. destruct (nth_error _ _); [apply grows_make|apply grows_refl].
  - unfold vf_normalized, on. destruct (nth_error _ _); [|apply grows_refl]. destruct (norm_arrays _ _ _) as [[a b]|]; [apply grows_make|apply grows_refl].
  - unfold vf_smoothed, on. destruct (nth_error _ _); [|apply grows_refl]. destruct (smooth_arrays _ _ _) as [[a b]|]; [apply grows_make|apply grows_refl].
  - unfold vf_scaled, on. destruct (nth_error _ _); [|apply grows_refl]. destruct (scale_arrays _ _ _ _) as [a b]. apply grows_make.
  - unfold interp_coords, on. destruct (nth_error (fields w) f) as [v|] eqn:E; [|apply grows_refl].
    destruct (vf_interp v) as [[lx ly]|] eqn:Ei; [apply grows_refl|]. destruct (_ && _ && _); [|apply grows_refl]. cbn [fst].
    eapply grows_field; [exact E|reflexivity|]. intros p Hp. congruence.
  - destruct (negb _); [apply grows_refl|]. unfold on. destruct (nth_error (fields w) f) as [v|] eqn:E; [|apply grows_refl].
    cbn [fst]. eapply grows_field; [exact E|reflexivity|]. intros p Hp. exact Hp.
  - destruct (negb _); [apply grows_refl|]. unfold on. destruct (nth_error (fields w) f) as [v|] eqn:E; [|apply grows_refl].
    cbn [fst]. eapply grows_field; [exact E|reflexivity|]. intros p Hp. exact Hp.
Qed.
Lemma run_keeps ops : forall (w : world R) l, (l < length (arrays w))%nat ->
  (l < length (arrays (vrun ops w)))%nat /\ arr_at (vrun ops w) l = after_puts l ops (arr_at w l).
Proof.
  induction ops as [|o ops IH]; intros w l Hl; [split; [exact Hl|reflexivity]|].
  cbn [vrun fold_left]. change (fold_left (fun w o => vstep o w) ops (vstep o w)) with (vrun ops (vstep o w)).
  assert ((l < length (arrays (vstep o w)))%nat /\ arr_at (vstep o w) l =
    match o with OpPut k i j v => if Nat.eqb k l then aset (arr_at w l) i j v else arr_at w l | _ => arr_at w l end) as [L E].
  { pose proof (step_grows o w) as G. destruct o as [m|m vx vy|f|f|f|f sx sy|f pts|f k|f k|k i j v];
      try (destruct G as (G1 & G2 & _); split; [lia|apply arr_at_some; rewrite G1 by exact Hl; now apply arr_at_nth]).
    cbn [vstep arrays]. rewrite replace_len. split; [exact Hl|]. apply arr_at_some. cbn [arrays]. rewrite replace_nth, (Nat.eqb_sym l k).
    destruct (Nat.eqb_spec k l) as [->|]; [|now apply arr_at_nth]. apply Nat.ltb_lt in Hl. now rewrite Hl. }
  destruct (IH (vstep o w) l L) as [I1 I2]. split; [exact I1|]. rewrite I2, E. cbn [after_puts]. destruct o; reflexivity.
Qed.
Lemma run_field ops : forall (w : world R) f v lx ly, nth_error (fields w) f = Some v -> vf_interp v = Some (lx, ly) ->
  exists v', nth_error (fields (vrun ops w)) f = Some v' /\ vf_mesh v' = vf_mesh v /\ vf_interp v' = Some (lx, ly).
Proof.
  induction ops as [|o ops IH]; intros w f v lx ly E Ei; [eauto|].
  cbn [vrun fold_left]. change (fold_left (fun w o => vstep o w) ops (vstep o w)) with (vrun ops (vstep o w)).
  assert (exists v', nth_error (fields (vstep o w)) f = Some v' /\ vf_mesh v' = vf_mesh v /\ vf_interp v' = Some (lx, ly)) as (v' & E' & Em & Ei').
  { pose proof (step_grows o w) as G. destruct o; try (destruct G as (_ & _ & G3); eauto). cbn. eauto. }
  destruct (IH _ _ _ _ _ E' Ei') as (u & Eu & Emu & Eiu). exists u. split; [exact Eu|]. split; [congruence|exact Eiu].
Qed.
(* every array a field refers to exists *)
Theorem C63_valid : forall ops : list (@vop R), valid (vrun ops (World [] [])).
Proof.
  assert (forall o w, valid w -> valid (@vstep R NumR RootR o w)) as St.
  { assert (forall (w w' : world R), (length (arrays w) <= length (arrays w'))%nat -> forall l, refers w l -> refers w' l) as Mo by (unfold refers; intros; lia).
    assert (forall m a b (w : world R), valid w -> valid (fst (vf_make m a b w))) as Mk.
    { intros m a b w V f v E. cbn [vf_make fst fields] in E. assert (forall l, refers w l -> refers (fst (vf_make m a b w)) l) as Mo' by (apply Mo; rewrite make_arrays, app_length; lia).
      destruct (Nat.lt_ge_cases f (length (fields w))) as [L|L].
      - rewrite nth_error_app1 in E by exact L. destruct (V f v E) as (V1 & V2 & V3). repeat split; auto; intros; apply Mo', (V3 lx ly H); auto.
      - rewrite nth_error_app2 in E by exact L. destruct (f - length (fields w))%nat as [|[|]]; try discriminate. injection E as <-.
        unfold refers. rewrite make_arrays, app_length. cbn. repeat split; try lia; discriminate. }
    assert (forall (w : world R) f v, valid w -> refers w (vf_vx v) -> refers w (vf_vy v) ->
      (forall lx ly, vf_interp v = Some (lx, ly) -> refers w lx /\ refers w ly) -> valid (with_field w f v)) as Fd.
    { intros w f v V R1 R2 R3 k u E. cbn [with_field fields] in E. rewrite replace_nth in E. destruct (Nat.eqb k f); [|exact (V k u E)].
      destruct (_ <? _)%nat; [|discriminate]. injection E as <-. auto. }
    intros o w V. destruct o as [m|m vx vy|f|f|f|f sx sy|f pts|f l|f l|l i j v]; cbn [vstep].
    - now apply Mk.
    - destruct (has w vx && has w vy) eqn:Hs; [|exact V]. apply andb_true_iff in Hs. destruct Hs as [H1 H2]. apply Nat.ltb_lt in H1, H2.
      intros f u E. cbn [vf_over fst fields] in E. destruct (Nat.lt_ge_cases f (length (fields w))) as [L|L].
      + rewrite nth_error_app1 in E by exact L. exact (V f u E).
      + rewrite nth_error_app2 in E by exact L. destruct (f - length (fields w))%nat as [|[|]]; try discriminate. injection E as <-.
        repeat split; auto; discriminate.
    - unfold vf_copy, on. destruct (nth_error _ _); [now apply Mk|exact V].
    - unfold vf_normalized, on. destruct (nth_error _ _); [|exact V]. destruct (norm_arrays _ _ _) as [[a b]|]; [now apply Mk|exact V].
    - unfold vf_smoothed, on. destruct (nth_error _ _); [|exact V]. destruct (smooth_arrays _ _ _) as [[a b]|]; [now apply Mk|exact V].
    - unfold vf_scaled, on. destruct (nth_error _ _); [|exact V]. destruct (scale_arrays _ _ _ _) as [a b]. now apply Mk.
    - unfold interp_coords, on. destruct (nth_error (fields w) f) as [v|] eqn:E; [|exact V].
      destruct (vf_interp v) as [[lx ly]|] eqn:Ei; [exact V|]. destruct (_ && _ && _); [|exact V]. cbn [fst].
      destruct (V f v E) as (V1 & V2 & _). apply Fd; auto. intros lx ly H. injection H as <- <-. auto.
    - destruct (negb (has w l)) eqn:Hs; [exact V|]. apply negb_false_iff, Nat.ltb_lt in Hs. unfold on.
      destruct (nth_error (fields w) f) as [v|] eqn:E; [|exact V]. destruct (V f v E) as (V1 & V2 & V3). cbn [fst]. now apply Fd.
    - destruct (negb (has w l)) eqn:Hs; [exact V|]. apply negb_false_iff, Nat.ltb_lt in Hs. unfold on.
      destruct (nth_error (fields w) f) as [v|] eqn:E; [|exact V]. destruct (V f v E) as (V1 & V2 & V3). cbn [fst]. now apply Fd.
    - intros f u E. destruct (V f u E) as (V1 & V2 & V3). unfold refers. cbn [arrays]. rewrite replace_len. auto. }
  intros ops. assert (valid (World [] []) : Prop) as V0 by (intros [|f] v E; discriminate). revert V0. generalize (@World R [] []).
  induction ops as [|o ops IH]; intros w V; [exact V|]. apply IH, St, V.
Qed.
(* What a lookup gives after anything has happened since the first one: it goes on using the
   arrays the field had then, with whatever has been written into them, and takes no notice of
   other arrays assigned to the field. *)
Theorem C63_history : forall (w : world R) f v lx ly ops x y, valid w -> nth_error (fields w) f = Some v -> vf_interp v = Some (lx, ly) ->
  let n := m_steps (vf_mesh v) in let cx := coord_x (vf_mesh v) in let cy := coord_y (vf_mesh v) in
  snd (lookup f x y (vrun ops w)) =
  Ok (rgi_eval n cx cy (after_puts lx ops (arr_at w lx)) x y, rgi_eval n cx cy (after_puts ly ops (arr_at w ly)) x y).
Proof.
  intros w f v lx ly ops x y V E Ei n cx cy. destruct (V f v E) as (_ & _ & V3). destruct (V3 lx ly Ei) as [R1 R2].
  destruct (run_field ops w f v lx ly E Ei) as (u & Eu & Em & Eiu). unfold lookup, interp_coords, on. rewrite Eu, Eiu. cbn [map bind snd fst].
  rewrite (proj2 (run_keeps ops w lx R1)), (proj2 (run_keeps ops w ly R2)), Em. reflexivity.
Qed.
(* so without writing into these arrays lookups are as before *)
Theorem C63_stale : forall (w : world R) f v lx ly ops x y, valid w -> nth_error (fields w) f = Some v -> vf_interp v = Some (lx, ly) ->
  (forall l i j a, In (OpPut l i j a) ops -> l <> lx /\ l <> ly) ->
  snd (lookup f x y (vrun ops w)) = snd (lookup f x y w).
Proof.
  intros w f v lx ly ops x y V E Ei N. rewrite (C63_history w f v lx ly ops x y V E Ei).
  pose proof (C63_history w f v lx ly [] x y V E Ei) as H0. cbv zeta in H0. change (vrun [] w) with w in H0. rewrite H0.
  assert (forall l (a : arr R), (l = lx \/ l = ly) -> after_puts l ops a = a) as Q.
  { clear - N. induction ops as [|o ops IH]; intros l a Hl; [reflexivity|].
    assert (forall b, after_puts l ops b = b) as IH' by (intros b; apply IH; [intros; eapply N; right; eauto|exact Hl]).
    destruct o as [| | | | | | | | |k i j b]; cbn [after_puts]; rewrite IH'; try reflexivity.
    destruct (Nat.eqb_spec k l) as [->|]; [|reflexivity]. destruct (N l i j b (or_introl eq_refl)). tauto. }
  rewrite !Q by auto. reflexivity.
Qed.
(* copy(), normalized(), smoothed() and scaled() make one new field with two new arrays and no
   interpolators, and change nothing else. *)
Theorem C63_derived : forall (w w' : world R) f g sx sy,
  (vf_copy f w = (w', Ok g) \/ vf_normalized f w = (w', Ok g) \/ vf_smoothed f w = (w', Ok g) \/ vf_scaled f sx sy w = (w', Ok g)) ->
  exists v a b, nth_error (fields w) f = Some v /\
    arrays w' = arrays w ++ [a; b] /\ fields w' = fields w ++ [VF (vf_mesh v) (length (arrays w)) (S (length (arrays w))) None] /\
    g = length (fields w).
Proof.
  intros w w' f g sx sy H.
  assert (forall m a b, vf_make m a b w = (w', Ok g) -> arrays w' = arrays w ++ [a; b] /\ 
    fields w' = fields w ++ [VF m (length (arrays w)) (S (length (arrays w))) None] /\ g = length (fields w)) as Mk.
  { intros m a b E. unfold vf_make in E. injection E as <- <-. auto. }
  unfold vf_copy, vf_normalized, vf_smoothed, vf_scaled, on in H. destruct (nth_error (fields w) f) as [v|]; [|destruct H as [H|[H|[H|H]]]; discriminate].
  exists v. destruct H as [H|[H|[H|H]]].
  - do 2 eexists. split; [reflexivity|]. exact (Mk _ _ _ H).
  - destruct (norm_arrays _ _ _) as [[a b]|]; [|discriminate]. exists a, b. split; [reflexivity|]. exact (Mk _ _ _ H).
  - destruct (smooth_arrays _ _ _) as [[a b]|]; [|discriminate]. exists a, b. split; [reflexivity|]. exact (Mk _ _ _ H).
  - destruct (scale_arrays _ _ _ _) as [a b]. exists a, b. split; [reflexivity|]. exact (Mk _ _ _ H).
Qed.
(* A field made over given arrays shows those arrays, each in its place, also what is written to
   them after the field was made; no array is copied and no other field changes. *)
Theorem C63_over : forall (w w' : world R) m vx vy g i j, vf_over m vx vy w = (w', Ok g) -> on_mesh m ->
  (i < m_steps m)%nat -> (j < m_steps m)%nat ->
  arrays w' = arrays w /\ (forall h, (h < length (fields w))%nat -> h <> g /\ nth_error (fields w') h = nth_error (fields w) h) /\
  snd (lookup g (xnode m i) (ynode m j) w') = Ok (arr_at w vx i j, arr_at w vy i j) /\
  (forall later : list (arr R), snd (lookup g (xnode m i) (ynode m j) (World later (fields w'))) =
     Ok (nth vx later zero_arr i j, nth vy later zero_arr i j)).
Proof.
  intros w w' m vx vy g i j H Om Hi Hj. unfold vf_over in H. injection H as <- <-. cbn [arrays fields].
  split; [reflexivity|]. split; [intros h Hh; split; [lia|now rewrite nth_error_app1]|].
  assert (forall l, fresh_field (World l (fields w ++ [VF m vx vy None])) (length (fields w)) (VF m vx vy None)) as Fr.
  { intros l. split; [|reflexivity]. cbn [fields]. now rewrite nth_error_app2, Nat.sub_diag by lia. }
  split; [exact (C63_node _ _ _ i j (Fr (arrays w)) Om Hi Hj)|]. intros l. exact (C63_node _ _ _ i j (Fr l) Om Hi Hj).
Qed.
Example C63_over_nontrivial :
  let w := World [(fun i j : nat => INR i); (fun i j : nat => INR j)] [] in
  on_mesh (Mesh 0 0 1 1 3) /\ vf_over (Mesh 0 0 1 1 3) 1 0 w = (World (arrays w) [VF (Mesh 0 0 1 1 3) 1 0 None], Ok 0%nat).
Proof. cbv zeta. split; [unfold on_mesh; cbn; split; [lia|lra]|reflexivity]. Qed.
(* a copy is equal to the field it was made from *)
Theorem C63_copy_equal : forall (w w' : world R) f g, valid w -> vf_copy f w = (w', Ok g) ->
  exists v u, nth_error (fields w') f = Some v /\ nth_error (fields w') g = Some u /\ vf_mesh u = vf_mesh v /\
    arr_at w' (vf_vx u) = arr_at w' (vf_vx v) /\ arr_at w' (vf_vy u) = arr_at w' (vf_vy v) /\
    vf_vx u <> vf_vx v /\ vf_vy u <> vf_vy v.
Proof.
  intros w w' f g V H. unfold vf_copy, on in H. destruct (nth_error (fields w) f) as [v|] eqn:E; [|discriminate].
  destruct (V f v E) as (V1 & V2 & _). unfold refers in *. unfold vf_make in H. injection H as <- <-.
  exists v, (VF (vf_mesh v) (length (arrays w)) (S (length (arrays w))) None). cbn [fields vf_mesh vf_vx vf_vy].
  split; [rewrite nth_error_app1; [exact E|apply nth_error_Some; congruence]|].
  split; [rewrite nth_error_app2, Nat.sub_diag by lia; reflexivity|]. split; [reflexivity|].
  assert (forall l, (l < length (arrays w))%nat -> arr_at (World (arrays w ++ [arr_at w (vf_vx v); arr_at w (vf_vy v)]) (fields w ++ [VF (vf_mesh v) (length (arrays w)) (S (length (arrays w))) None])) l = arr_at w l) as Old.
  { intros l Hl. unfold arr_at at 1. cbn [arrays]. now rewrite app_nth1. }
  rewrite (Old _ V1), (Old _ V2).
  assert (forall a b fs, arr_at (World (arrays w ++ [a; b]) fs) (length (arrays w)) = a) as N1 by (intros; unfold arr_at; cbn [arrays]; rewrite app_nth2, Nat.sub_diag by lia; reflexivity).
  assert (forall a b fs, arr_at (World (arrays w ++ [a; b]) fs) (S (length (arrays w))) = b) as N2.
  { intros. unfold arr_at. cbn [arrays]. rewrite app_nth2 by lia. replace (S (length (arrays w)) - length (arrays w))%nat with 1%nat by lia. reflexivity. }
  rewrite N1, N2. split; [reflexivity|]. split; [reflexivity|]. split; lia.
Qed.

(* ---------------- failing expectations ---------------- *)

Definition ex63_mesh : mesh R := Mesh 0 0 2 2 3.
Lemma ex63_on : on_mesh ex63_mesh.
Proof. split; [cbn; lia|]. cbn. lra. Qed.
Lemma run_app (a b : list (@vop R)) w : vrun (a ++ b) w = vrun b (vrun a w).
Proof. apply fold_left_app. Qed.

(* A field and its copy need not give the same: a field that was asked before, and was given
   another array since, still answers from the old one, while its copy answers from the new. *)
Theorem C63_copy_refuted : exists ops (w' : world R) g, vf_copy 0 (vrun ops (World [] [])) = (w', Ok g) /\
  exists x y, snd (lookup 0 x y w') <> snd (lookup g x y w').
Proof.
  exists [OpZeros ex63_mesh; OpZeros ex63_mesh; OpPut 2 0 0 1; OpInterp 0 []; OpSetX 0 2].
  set (ops := [_; _; _; _; _]).
  assert (fields (vrun ops (World [] [])) = [VF ex63_mesh 2 1 (Some (0, 1)%nat); VF ex63_mesh 2 3 None]) as Ef.
  { unfold ops, vrun. cbn [fold_left vstep]. unfold vf_zeros, vf_make. cbn [fst fields arrays length app].
    unfold interp_coords, on. cbn [nth_error fields vf_mesh vf_interp]. rewrite mesh_ready by apply ex63_on. reflexivity. }
  assert (arrays (vrun ops (World [] [])) = [zero_arr; zero_arr; aset zero_arr 0 0 1; zero_arr]) as Ea.
  { unfold ops, vrun. cbn [fold_left vstep]. unfold vf_zeros, vf_make. cbn [fst fields arrays length app].
    unfold interp_coords, on. cbn [nth_error fields vf_mesh vf_interp]. rewrite mesh_ready by apply ex63_on. reflexivity. }
  destruct (vrun ops (World [] [])) as [ar fs]. cbn [arrays fields] in *. subst ar fs.
  eexists _, _. split; [reflexivity|]. exists (xnode ex63_mesh 0), (ynode ex63_mesh 0).
  assert (N : forall (v : arr R), rgi_eval (m_steps ex63_mesh) (coord_x ex63_mesh) (coord_y ex63_mesh) v (xnode ex63_mesh 0) (ynode ex63_mesh 0) = v 0%nat 0%nat).
  { intros v. pose proof (C63_node (World [v; zero_arr] [VF ex63_mesh 0 1 None]) 0 (VF ex63_mesh 0 1 None) 0 0 (conj eq_refl eq_refl) ex63_on) as H.
    specialize (H ltac:(cbn; lia) ltac:(cbn; lia)).
    rewrite (lookup_fresh (World [v; zero_arr] [VF ex63_mesh 0 1 None]) 0 (VF ex63_mesh 0 1 None) _ _ (conj eq_refl eq_refl) ex63_on) in H. injection H as H _. exact H. }
  rewrite (lookup_fresh _ (length [VF ex63_mesh 2 1 (Some (0, 1)%nat); VF ex63_mesh 2 3 None]) (VF ex63_mesh 4 5 None)); [|split; reflexivity|exact ex63_on].
  unfold lookup, interp_coords, on. cbn [nth_error fields vf_mesh vf_interp map fst snd bind app vf_vx vf_vy]. rewrite !N.
  unfold arr_at. cbn. intros H. injection H as H. lra.
Qed.

(* plot() and quiver() show the field mirrored on the diagonal: the arrow at a node is the
   vector that is looked up at the node with the indices exchanged. *)
Theorem C63_plot : forall (w : world R) f v, fresh_field w f v -> on_mesh (vf_mesh v) ->
  forall x y u, In ((x, y), u) (quiver w v) <->
    exists i j, (i < m_steps (vf_mesh v))%nat /\ (j < m_steps (vf_mesh v))%nat /\
      x = xnode (vf_mesh v) j /\ y = ynode (vf_mesh v) i /\
      snd (lookup f (xnode (vf_mesh v) i) (ynode (vf_mesh v) j) w) = Ok u.
Proof.
  intros w f v Fr Om x y u. unfold quiver. rewrite in_map_iff. split.
  - intros ([i j] & E & Hij). cbn [fst snd] in E. unfold cells in Hij. apply in_flat_map in Hij. destruct Hij as (a & Ha & Hb).
    apply in_map_iff in Hb. destruct Hb as (b & Eb & Hb). injection Eb as -> ->. apply in_seq in Ha, Hb.
    exists i, j. split; [lia|]. split; [lia|]. rewrite (C63_node w f v i j Fr Om) by lia. injection E as <- <- <-.
    unfold x_grid, y_grid, coord_x, coord_y. destruct Om as (Hn & _). rewrite !linspace_node by lia. repeat split.
  - intros (i & j & Hi & Hj & -> & -> & E). exists (i, j). rewrite (C63_node w f v i j Fr Om) in E by lia. injection E as <-. cbn [fst snd].
    split.
    + unfold x_grid, y_grid, coord_x, coord_y. destruct Om as (Hn & _). rewrite !linspace_node by lia. reflexivity.
    + unfold cells. apply in_flat_map. exists i. split; [apply in_seq; lia|]. apply in_map_iff. exists j. split; [reflexivity|apply in_seq; lia].
Qed.
Theorem C63_plot_refuted : exists (w : world R) f v x y u, fresh_field w f v /\ on_mesh (vf_mesh v) /\
  In ((x, y), u) (quiver w v) /\ snd (lookup f x y w) <> Ok u.
Proof.
  pose (a := aset zero_arr 0 1 1 : arr R). pose (v := VF ex63_mesh 0 1 None). pose (w := World [a; zero_arr] [v]).
  assert (fresh_field w 0 v) as Fr by (split; reflexivity).
  exists w, 0%nat, v, (xnode ex63_mesh 1), (ynode ex63_mesh 0), (1, 0). split; [exact Fr|]. split; [exact ex63_on|]. split.
  - apply (C63_plot w 0 v Fr ex63_on). exists 0%nat, 1%nat. split; [cbn; lia|]. split; [cbn; lia|]. split; [reflexivity|]. split; [reflexivity|].
    rewrite (C63_node w 0 v 0 1 Fr ex63_on) by (cbn; lia). reflexivity.
  - pose proof (C63_node w 0 v 1 0 Fr ex63_on) as H. specialize (H ltac:(cbn; lia) ltac:(cbn; lia)).
    change (vf_mesh v) with ex63_mesh in H. rewrite H. unfold arr_at. cbn. intros K. injection K as K. lra.
Qed.

(* a field on a mesh of three by three, before and after it is asked *)
Example C63_nontrivial :
  let w := vrun [OpZeros ex63_mesh; OpPut 0 1 1 5] (World [] []) : world R in
  let v := VF ex63_mesh 0 1 None in
  let w1 := fst (lookup 0 1 1 w) in
  fresh_field w 0 v /\ on_mesh (vf_mesh v) /\ valid w /\ (exists u, snd (lookup 0 1 1 w) = Ok u) /\
  reach (xnode ex63_mesh) 3 1 7 /\ valid w1 /\ (exists g w2, vf_copy 0 w1 = (w2, Ok g)) /\
  nth_error (fields w1) 0 = Some (VF ex63_mesh 0 1 (Some (0, 1)%nat)).
Proof.
  intros w v w1. assert (fresh_field w 0 v) as Fr by (split; reflexivity). assert (valid w) as V by apply C63_valid.
  assert (snd (lookup 0 1 1 w) = Ok (rgi_eval 3 (coord_x ex63_mesh) (coord_y ex63_mesh) (arr_at w 0) 1 1, rgi_eval 3 (coord_x ex63_mesh) (coord_y ex63_mesh) (arr_at w 1) 1 1)) as E
    by exact (lookup_fresh w 0 v 1 1 Fr ex63_on).
  destruct (C63_first w 0 v 1 1 _ Fr E) as [F1 F2]. split; [exact Fr|]. split; [exact ex63_on|]. split; [exact V|]. split; [eexists; exact E|].
  split.
  - split; [lia|]. split; [|intros; lia]. intros _. unfold xnode, node. cbn. lra.
  - split.
    + unfold w1. intros f u. pose proof (C63_valid [OpZeros ex63_mesh; OpPut 0 1 1 5; OpInterp 0 [(1, 1)]]) as V1.
      change (vrun [OpZeros ex63_mesh; OpPut 0 1 1 5; OpInterp 0 [(1, 1)]] (World [] [])) with (fst (interp_coords 0 [(1, 1)] w)) in V1.
      assert (fst (lookup 0 1 1 w) = fst (interp_coords 0 [(1, 1)] w)) as -> by (unfold lookup; destruct (interp_coords 0 [(1, 1)] w); reflexivity). apply V1.
    + split; [|exact F1]. unfold vf_copy, on. unfold w1 in *. rewrite F1. do 2 eexists. reflexivity.
Qed.
