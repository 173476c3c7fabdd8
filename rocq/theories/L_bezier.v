(* Lemmas about Bezier sampling. *)
Require Import Verif.Base Verif.NumR Verif.L_real Verif.M_vector Verif.M_bbox Verif.M_transform
  Verif.M_bezier Verif.S_bezier Verif.L_vector.
From Coq Require Import Reals Lra List Psatz.
Open Scope R_scope.

Lemma bez_at_R (a b c d : pt R) (t : R) : bez_at a b c d t = p_xy (cubic a b c d t).
Proof.
  unfold bez_at, cubic, cubic1, p_xy. cbn -[IZR pow]. f_equal; ring.
Qed.

Lemma cubic_0 a b c d : cubic a b c d 0 = a.
Proof. destruct a as [u v]. unfold cubic, cubic1. cbn [px py]. f_equal; ring. Qed.
Lemma cubic_1 a b c d : cubic a b c d 1 = d.
Proof. destruct d as [u v]. unfold cubic, cubic1. cbn [px py]. f_equal; ring. Qed.

(* the sample points of one segment *)
Definition samples (a b c d : pt R) (n : nat) : list (pt R) :=
  map (fun i => cubic a b c d (INR i / INR n)) (seq 0 (S n)).

Lemma samples_split a b c d n : (1 <= n)%nat ->
  samples a b c d n =
  a :: map (fun i => cubic a b c d (INR i / INR n)) (seq 1 (n - 1)) ++ [d].
Proof.
  intros Hn. unfold samples.
  replace (S n) with (1 + ((n - 1) + 1))%nat by lia.
  rewrite !seq_app, !map_app. cbn [seq map app].
  f_equal.
  - replace (INR 0) with 0 by reflexivity. unfold Rdiv. rewrite Rmult_0_l. apply cubic_0.
  - f_equal. f_equal.
    replace (0 + 1 + (n - 1))%nat with n by lia.
    replace (INR n / INR n) with 1. apply cubic_1.
    field. apply not_0_INR. lia.
Qed.

Definition nsteps (steps : Z) : nat := Z.to_nat (Z.max steps 1).

Lemma bez_xy_R a b c d steps : bez_xy a b c d steps = map p_xy (samples a b c d (nsteps steps)).
Proof.
  unfold bez_xy, nsteps. rewrite samples_split by lia.
  cbn [map]. f_equal. rewrite map_app, map_map. f_equal.
  destruct (Z_le_gt_dec steps 1) as [H|H].
  - replace (Z.to_nat (steps - 1)) with 0%nat by lia.
    replace (Z.to_nat (Z.max steps 1) - 1)%nat with 0%nat by lia. reflexivity.
  - replace (Z.to_nat (Z.max steps 1) - 1)%nat with (Z.to_nat (steps - 1)) by lia.
    apply map_ext. intros i.
    change (bez_at a b c d (IZR (Z.of_nat i) / IZR steps)
            = p_xy (cubic a b c d (INR i / INR (Z.to_nat (Z.max steps 1))))).
    rewrite bez_at_R. do 3 f_equal.
    + symmetry. apply INR_IZR_INZ.
    + f_equal. rewrite INR_IZR_INZ. f_equal. lia.
Qed.

Lemma samples_length a b c d n : length (samples a b c d n) = S n.
Proof. unfold samples. rewrite map_length, seq_length. reflexivity. Qed.

Lemma samples_nth a b c d n i : (i <= n)%nat ->
  nth_error (samples a b c d n) i = Some (cubic a b c d (INR i / INR n)).
Proof.
  intros H. unfold samples. rewrite nth_error_map.
  rewrite (nth_error_nth' _ 0%nat) by (rewrite seq_length; lia).
  rewrite seq_nth by lia. reflexivity.
Qed.

Lemma points_of_flat (ps : list (pt R)) : points_of (xy_flatten (map p_xy ps)) = Some ps.
Proof.
  induction ps as [|[x y] ps IH]; auto.
  cbn [map p_xy xy_flatten flat_map fst snd app px py points_of].
  change (flat_map _ (map p_xy ps)) with (xy_flatten (map p_xy ps)). rewrite IH. reflexivity.
Qed.

(* affine maps *)
Lemma cubic_affine f a b c d t : is_affine f -> f (cubic a b c d t) = cubic (f a) (f b) (f c) (f d) t.
Proof.
  intros (k1 & k2 & k3 & k4 & k5 & k6 & H). rewrite !H.
  unfold cubic, cubic1. cbn [px py]. f_equal; ring.
Qed.

Lemma transform_affine (s : transform R) : is_affine (t_transform s).
Proof.
  exists (m00 (tmat s)), (m01 (tmat s)), (m02 (tmat s)), (m10 (tmat s)), (m11 (tmat s)), (m12 (tmat s)).
  intros p. unfold t_transform, mat_apply. cbn -[IZR]. f_equal; ring.
Qed.

(* convexity *)
Lemma cubic1_le a b c d k t : 0 <= t <= 1 -> a <= k -> b <= k -> c <= k -> d <= k ->
  cubic1 a b c d t <= k.
Proof.
  intros Ht Ha Hb Hc Hd. unfold cubic1.
  assert (H1 : 0 <= (1 - t) ^ 3) by (apply pow_le; lra).
  assert (H2 : 0 <= (1 - t) ^ 2) by (apply pow_le; lra).
  assert (H3 : 0 <= t ^ 2) by (apply pow_le; lra).
  assert (H4 : 0 <= t ^ 3) by (apply pow_le; lra).
  assert (K1 : (1 - t) ^ 3 * a <= (1 - t) ^ 3 * k) by (apply Rmult_le_compat_l; lra).
  assert (K2 : 3 * (1 - t) ^ 2 * t * b <= 3 * (1 - t) ^ 2 * t * k).
  { apply Rmult_le_compat_l; auto. apply Rmult_le_pos; lra. }
  assert (K3 : 3 * (1 - t) * t ^ 2 * c <= 3 * (1 - t) * t ^ 2 * k).
  { apply Rmult_le_compat_l; auto. apply Rmult_le_pos; lra. }
  assert (K4 : t ^ 3 * d <= t ^ 3 * k) by (apply Rmult_le_compat_l; lra).
  replace k with ((1 - t) ^ 3 * k + 3 * (1 - t) ^ 2 * t * k + 3 * (1 - t) * t ^ 2 * k + t ^ 3 * k) by ring.
  lra.
Qed.

Lemma cubic1_lin u v k a b c d a' b' c' d' t :
  u * cubic1 a b c d t + v * cubic1 a' b' c' d' t + k =
  cubic1 (u * a + v * a' + k) (u * b + v * b' + k) (u * c + v * c' + k) (u * d + v * d' + k) t.
Proof. unfold cubic1. ring. Qed.

Lemma cubic_halfplane u v k a b c d t : 0 <= t <= 1 ->
  u * px a + v * py a <= k -> u * px b + v * py b <= k ->
  u * px c + v * py c <= k -> u * px d + v * py d <= k ->
  u * px (cubic a b c d t) + v * py (cubic a b c d t) <= k.
Proof.
  intros Ht Ha Hb Hc Hd. unfold cubic. cbn [px py].
  rewrite <- (Rplus_0_r (_ + _)), cubic1_lin.
  apply cubic1_le; auto; lra.
Qed.

(* ---- bez_path ---- *)
(* segments with their images *)
Definition seg_pts (f : pt R -> pt R) (n : nat) (pq : cpoint R * cpoint R) : list (pt R) :=
  samples (f (cc (fst pq))) (f (right_of (fst pq))) (f (left_of (snd pq))) (f (cc (snd pq))) n.

Lemma cp_r_R (s : cpoint R) : cp_r s = right_of s. Proof. reflexivity. Qed.
Lemma cp_l_R (s : cpoint R) : cp_l s = left_of s. Proof. reflexivity. Qed.

Definition join_segs (f : pt R -> pt R) (n : nat) (l : list (cpoint R * cpoint R)) : list (pt R) :=
  match l with
  | [] => []
  | pq :: r => seg_pts f n pq ++ flat_map (fun pq => tl (seg_pts f n pq)) r
  end.

Lemma skip2_flat (l : list (pt R)) : skipn 2 (xy_flatten (map p_xy l)) = xy_flatten (map p_xy (tl l)).
Proof. destruct l as [|[x y] l]; reflexivity. Qed.

Lemma xy_flatten_app {F} (a b : list (F * F)) : xy_flatten (a ++ b) = xy_flatten a ++ xy_flatten b.
Proof. unfold xy_flatten. apply flat_map_app. Qed.

Lemma bez_path_fold f steps l (acc : list (pt R)) : acc <> [] ->
  fold_left (fun pts pq => let '(p, q) := pq in
               let bez_pts := bez (f (cc p)) (f (cp_r p)) (f (cp_l q)) (f (cc q)) steps in
               match pts with [] => pts ++ bez_pts | _ => pts ++ skipn 2 bez_pts end)
            l (xy_flatten (map p_xy acc))
  = xy_flatten (map p_xy (acc ++ flat_map (fun pq => tl (seg_pts f (nsteps steps) pq)) l)).
Proof.
  revert acc; induction l as [|[p q] l IH]; intros acc Hacc; cbn [fold_left flat_map].
  - rewrite app_nil_r. reflexivity.
  - destruct acc as [|[x y] acc]; [congruence|].
    cbn [map p_xy px py xy_flatten flat_map fst snd app].
    change (flat_map (fun p0 : R * R => [fst p0; snd p0]) (map p_xy acc)) with (xy_flatten (map p_xy acc)).
    cbv zeta. unfold bez. rewrite bez_xy_R, skip2_flat.
    change (samples (f (cc p)) (f (cp_r p)) (f (cp_l q)) (f (cc q)) (nsteps steps))
      with (seg_pts f (nsteps steps) (p, q)).
    specialize (IH ((P x y :: acc) ++ tl (seg_pts f (nsteps steps) (p, q)))).
    rewrite <- app_assoc in IH. etransitivity; [|apply IH; discriminate].
    f_equal. rewrite map_app, xy_flatten_app. reflexivity.
Qed.

Lemma combine_tl {A} (l : list A) x : combine l (tl l ++ [x]) =
  match l with [] => [] | _ => consecutive (l ++ [x]) end.
Proof.
  destruct l as [|a l]; auto. revert a. induction l as [|b l IH]; intros a; auto.
  specialize (IH b). change ((a, b) :: combine (b :: l) (tl (b :: l) ++ [x]) = (a, b) :: consecutive ((b :: l) ++ [x])).
  rewrite IH. reflexivity.
Qed.
Lemma combine_tl_open {A} (l : list A) : combine l (tl l) = consecutive l.
Proof.
  induction l as [|a l IH]; auto. destruct l as [|b l]; auto.
  cbn [tl combine consecutive] in *. f_equal. exact IH.
Qed.
Lemma combine_firstn_app {A B} (l : list A) (r s : list B) : (length l <= length r)%nat ->
  combine l (r ++ s) = combine l r.
Proof.
  revert r; induction l as [|a l IH]; intros r H; auto.
  destruct r as [|b r]; cbn [length] in H; [lia|]. cbn [app combine]. f_equal. apply IH. lia.
Qed.

Lemma path_combine (cps : list (cpoint R)) (closed : bool) :
  combine cps (tl cps ++ (if closed then cps else [])) = path_segments cps closed.
Proof.
  destruct cps as [|a l]; auto. unfold path_segments. destruct closed.
  - replace (tl (a :: l) ++ a :: l) with ((tl (a :: l) ++ [a]) ++ l).
    + rewrite combine_firstn_app. exact (combine_tl (a :: l) a). cbn [tl]. rewrite app_length. cbn. lia.
    + rewrite <- app_assoc. reflexivity.
  - rewrite app_nil_r. apply combine_tl_open.
Qed.

Lemma bez_path_R f cps closed steps :
  bez_path f cps closed steps =
  xy_flatten (map p_xy (join_segs f (nsteps steps) (path_segments cps closed))).
Proof.
  unfold bez_path. rewrite <- path_combine.
  destruct cps as [|a l]; auto.
  destruct (combine (a :: l) (tl (a :: l) ++ (if closed then a :: l else (@nil (cpoint R))))) as [|[p q] r] eqn:E; auto.
  cbn [fold_left app].
  replace (bez (f (cc p)) (f (cp_r p)) (f (cp_l q)) (f (cc q)) steps)
    with (xy_flatten (map p_xy (seg_pts f (nsteps steps) (p, q))))
    by (unfold bez; rewrite bez_xy_R; reflexivity).
  rewrite bez_path_fold. reflexivity.
  unfold seg_pts, samples. discriminate.
Qed.

Lemma seg_pts_length f n pq : length (seg_pts f n pq) = S n.
Proof. apply samples_length. Qed.

Lemma tl_length {A} (l : list A) : length (tl l) = (length l - 1)%nat.
Proof. destruct l; cbn; lia. Qed.

Lemma flat_map_length {A B} (g : A -> list B) n l : (forall a, In a l -> length (g a) = n) ->
  length (flat_map g l) = (length l * n)%nat.
Proof.
  induction l as [|a l IH]; intros H; auto. cbn [flat_map length].
  rewrite app_length, H, IH by (cbn; auto; intros; apply H; cbn; auto). lia.
Qed.

Lemma join_length f n l : length (join_segs f n l) = match l with [] => 0%nat | _ => S (length l * n) end.
Proof.
  destruct l as [|pq l]; auto. cbn [join_segs]. rewrite app_length, seg_pts_length.
  rewrite (flat_map_length _ n). cbn [length]. lia.
  intros a _. rewrite tl_length, seg_pts_length. lia.
Qed.

Lemma nth_flat_map {A B} (g : A -> list B) n l k i a : (forall x, In x l -> length (g x) = n) ->
  nth_error l k = Some a -> (i < n)%nat -> nth_error (flat_map g l) (k * n + i) = nth_error (g a) i.
Proof.
  revert k; induction l as [|x l IH]; intros k Hl Hk Hi; [destruct k; discriminate|].
  cbn [flat_map]. destruct k as [|k].
  - injection Hk as ->. cbn [Nat.mul Nat.add]. apply nth_error_app1. rewrite Hl; cbn; auto.
  - cbn [nth_error] in Hk. rewrite nth_error_app2 by (rewrite Hl by (cbn; auto); lia).
    rewrite Hl by (cbn; auto).
    replace (S k * n + i - n)%nat with (k * n + i)%nat by lia.
    apply IH; auto. intros; apply Hl; cbn; auto.
Qed.

Lemma nth_tl {A} (l : list A) i : nth_error (tl l) i = nth_error l (S i).
Proof. destruct l; auto. destruct i; auto. Qed.

(* consecutive segments share their end *)
Lemma consecutive_chain {A} (l : list A) k a b c d :
  nth_error (consecutive l) k = Some (a, b) -> nth_error (consecutive l) (S k) = Some (c, d) -> b = c.
Proof.
  revert k; induction l as [|x l IH]; intros k H1 H2; [destruct k; discriminate|].
  destruct l as [|y l]; [destruct k; discriminate|].
  destruct k as [|k].
  - cbn in H1. injection H1 as -> ->. cbn [consecutive] in H2.
    destruct l as [|z l]; cbn in H2; [discriminate|]. congruence.
  - apply (IH k); assumption.
Qed.

Lemma path_chain {A} (cps : list A) closed k a b c d :
  nth_error (path_segments cps closed) k = Some (a, b) ->
  nth_error (path_segments cps closed) (S k) = Some (c, d) -> b = c.
Proof.
  unfold path_segments. destruct cps; [destruct k; discriminate|]. apply consecutive_chain.
Qed.

Lemma join_nth f n cps closed k i s e : (1 <= n)%nat ->
  nth_error (path_segments cps closed) k = Some (s, e) -> (i <= n)%nat ->
  nth_error (join_segs f n (path_segments cps closed)) (k * n + i) =
  Some (cubic (f (cc s)) (f (right_of s)) (f (left_of e)) (f (cc e)) (INR i / INR n)).
Proof.
  intros Hn Hk Hi.
  remember (path_segments cps closed) as l eqn:El.
  assert (Hc : forall k a b c d, nth_error l k = Some (a, b) -> nth_error l (S k) = Some (c, d) -> b = c).
  { subst l. intros. eapply path_chain; eassumption. }
  clear El cps closed.
  destruct l as [|pq l]; [destruct k; discriminate|].
  cbn [join_segs].
  assert (Hlen : forall x, In x l -> length (tl (seg_pts f n x)) = n).
  { intros x _. rewrite tl_length, seg_pts_length. lia. }
  destruct k as [|k].
  - injection Hk as ->. cbn [Nat.mul Nat.add]. rewrite nth_error_app1 by (rewrite seg_pts_length; lia).
    apply (samples_nth (f (cc s)) (f (right_of s)) (f (left_of e)) (f (cc e))). exact Hi.
  - destruct i as [|i].
    + (* the joint: last point of the previous segment *)
      replace (INR 0 / INR n) with 0 by (cbn [INR]; unfold Rdiv; ring). rewrite cubic_0.
      destruct (nth_error (pq :: l) k) as [[s' e']|] eqn:Ek.
      2:{ exfalso. apply nth_error_None in Ek. assert (Hx : nth_error (pq :: l) (S k) <> None) by congruence.
          apply nth_error_Some in Hx. lia. }
      assert (e' = s) by (eapply Hc; eassumption). subst e'.
      destruct k as [|k].
      * injection Ek as ->. replace (1 * n + 0)%nat with n by lia.
        rewrite nth_error_app1 by (rewrite seg_pts_length; lia).
        unfold seg_pts. rewrite samples_nth by lia. cbn [fst snd].
        replace (INR n / INR n) with 1. rewrite cubic_1. reflexivity.
        field. apply not_0_INR. lia.
      * cbn [nth_error] in Ek.
        rewrite nth_error_app2 by (rewrite seg_pts_length; nia).
        rewrite seg_pts_length.
        replace (S (S k) * n + 0 - S n)%nat with (k * n + (n - 1))%nat by nia.
        rewrite (nth_flat_map _ n l k (n - 1) (s', s) Hlen Ek) by lia.
        rewrite nth_tl. unfold seg_pts. rewrite samples_nth by lia. cbn [fst snd].
        replace (S (n - 1)) with n by lia.
        replace (INR n / INR n) with 1. rewrite cubic_1. reflexivity.
        field. apply not_0_INR. lia.
    + cbn [nth_error] in Hk.
      rewrite nth_error_app2 by (rewrite seg_pts_length; nia).
      rewrite seg_pts_length.
      replace (S k * n + S i - S n)%nat with (k * n + i)%nat by nia.
      rewrite (nth_flat_map _ n l k i (s, e) Hlen Hk) by lia.
      rewrite nth_tl. unfold seg_pts. rewrite samples_nth by lia. reflexivity.
Qed.

(* number and members of the segments *)
Lemma consecutive_length {A} (l : list A) : length (consecutive l) = (length l - 1)%nat.
Proof.
  induction l as [|a l IH]; auto. destruct l as [|b l]; auto.
  cbn [consecutive length] in *. lia.
Qed.
Lemma path_segments_length {A} (cps : list A) closed :
  length (path_segments cps closed) = if closed then length cps else (length cps - 1)%nat.
Proof.
  destruct cps as [|a l]; [destruct closed; reflexivity|]. unfold path_segments.
  rewrite consecutive_length. destruct closed; auto. rewrite app_length. cbn [length]. lia.
Qed.
Lemma consecutive_nth {A} (l : list A) k a b :
  nth_error l k = Some a -> nth_error l (S k) = Some b -> nth_error (consecutive l) k = Some (a, b).
Proof.
  revert k; induction l as [|x l IH]; intros k H1 H2; [destruct k; discriminate|].
  destruct l as [|y l]; [destruct k; discriminate|].
  destruct k as [|k].
  - cbn in *. congruence.
  - cbn [consecutive nth_error]. apply IH; assumption.
Qed.

(* reversal *)
Lemma cubic_rev a b c d t : cubic d c b a t = cubic a b c d (1 - t).
Proof. unfold cubic, cubic1. f_equal; ring. Qed.

Lemma consecutive_app1 {A} (l : list A) a b : consecutive (l ++ [a; b]) = consecutive (l ++ [a]) ++ [(a, b)].
Proof.
  induction l as [|x l IH]; auto. destruct l as [|y l].
  - reflexivity.
  - cbn [app consecutive] in *. rewrite IH. reflexivity.
Qed.
Lemma consecutive_rev {A} (l : list A) :
  consecutive (rev l) = rev (map (fun p => (snd p, fst p)) (consecutive l)).
Proof.
  induction l as [|a l IH]; auto. destruct l as [|b l]; auto.
  cbn [rev] in *. rewrite <- app_assoc. cbn [app]. rewrite consecutive_app1, IH. reflexivity.
Qed.
Lemma consecutive_map {A B} (g : A -> B) l :
  consecutive (map g l) = map (fun p => (g (fst p), g (snd p))) (consecutive l).
Proof.
  induction l as [|a l IH]; auto. destruct l as [|b l]; auto.
  cbn [map consecutive] in *. rewrite IH. reflexivity.
Qed.

(* splitting, one coordinate at a time *)
Definition lerp1 (t p q : R) : R := p + (q - p) * t.
Lemma split_left a b c d t u :
  cubic1 a (lerp1 t a b) (lerp1 t (lerp1 t a b) (lerp1 t b c))
    (lerp1 t (lerp1 t (lerp1 t a b) (lerp1 t b c)) (lerp1 t (lerp1 t b c) (lerp1 t c d))) u
  = cubic1 a b c d (u * t).
Proof. unfold cubic1, lerp1. ring. Qed.
Lemma split_right a b c d t u :
  cubic1 (lerp1 t (lerp1 t (lerp1 t a b) (lerp1 t b c)) (lerp1 t (lerp1 t b c) (lerp1 t c d)))
    (lerp1 t (lerp1 t b c) (lerp1 t c d)) (lerp1 t c d) d u
  = cubic1 a b c d (t + u * (1 - t)).
Proof. unfold cubic1, lerp1. ring. Qed.
Lemma split_mid a b c d t :
  lerp1 t (lerp1 t (lerp1 t a b) (lerp1 t b c)) (lerp1 t (lerp1 t b c) (lerp1 t c d))
  = cubic1 a b c d t.
Proof. unfold cubic1, lerp1. ring. Qed.
Lemma bmid_R (t : R) p q : bmid t p q = P (lerp1 t (px p) (px q)) (lerp1 t (py p) (py q)).
Proof. reflexivity. Qed.
(* a point plus the way to another point is the other point *)
Lemma add_sub_R (p q : pt R) : P (px p + vx (p_sub q p)) (py p + vy (p_sub q p)) = q.
Proof. destruct p as [a b], q as [c d]. unfold p_sub. cbn. f_equal; ring. Qed.
