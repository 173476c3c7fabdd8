(* Bezier curves: C30-C34. *)
Require Import Verif.Base Verif.NumR Verif.L_real Verif.M_vector Verif.M_bbox Verif.M_transform
  Verif.M_bezier Verif.S_bbox Verif.S_bezier Verif.L_vector Verif.L_bezier.
From Coq Require Import Reals Lra List Psatz String.
Open Scope R_scope.
Local Open Scope list_scope.

(* ------------------------------------------------------------------ *)
(** * C30: bez samples the cubic *)

(* for every kind of number, floats included: count, first and last point *)
Theorem C30_bez_count_and_ends : forall {F} {NF : Num F} (a b c d : pt F) (steps : Z),
  List.length (bez_xy a b c d steps) = (Z.to_nat (Z.max steps 1) + 1)%nat /\
  hd_error (bez_xy a b c d steps) = Some (px a, py a) /\
  last (bez_xy a b c d steps) (px a, py a) = (px d, py d).
Proof.
  intros F NF a b c d steps. unfold bez_xy. repeat split.
  - cbn [List.length]. rewrite app_length, map_length, seq_length. cbn [List.length]. lia.
  - rewrite app_comm_cons. apply last_last.
Qed.

(* the flat form lists the same coordinates *)
Theorem C30_bez_flat : forall (a b c d : pt R) (steps : Z),
  points_of (bez a b c d steps) = Some (map (fun xy => P (fst xy) (snd xy)) (bez_xy a b c d steps)).
Proof.
  intros. unfold bez. rewrite bez_xy_R, points_of_flat, map_map. f_equal.
  rewrite <- (map_id (samples _ _ _ _ _)) at 1. apply map_ext. intros [x y]; reflexivity.
Qed.

(* the i-th point is the curve at i/steps *)
Theorem C30_bez_samples : forall (a b c d : pt R) (steps : Z) (i : nat),
  (1 <= steps)%Z -> (Z.of_nat i <= steps)%Z ->
  nth_error (bez_xy a b c d steps) i =
  Some (let q := cubic a b c d (INR i / IZR steps) in (px q, py q)).
Proof.
  intros a b c d steps i H1 H2. rewrite bez_xy_R, nth_error_map, samples_nth by (unfold nsteps; lia).
  cbn [option_map]. unfold p_xy, nsteps. rewrite (INR_IZR_INZ (Z.to_nat _)).
  replace (Z.of_nat (Z.to_nat (Z.max steps 1))) with steps by lia. reflexivity.
Qed.

Example C30_samples_nontrivial :
  nth_error (bez_xy (P 0 0) (P 0 1) (P 1 1) (P 1 0) 2) 1 = Some (1 / 2, 3 / 4).
Proof.
  rewrite C30_bez_samples by (cbn; lia). cbv zeta. f_equal. unfold cubic, cubic1. cbn [px py INR].
  f_equal; field.
Qed.

(* every sampled point satisfies any linear inequality the four control points satisfy *)
Theorem C30_bez_halfplane : forall (a b c d : pt R) (steps : Z) (u v k x y : R),
  u * px a + v * py a <= k -> u * px b + v * py b <= k ->
  u * px c + v * py c <= k -> u * px d + v * py d <= k ->
  In (x, y) (bez_xy a b c d steps) -> u * x + v * y <= k.
Proof.
  intros a b c d steps u v k x y Ha Hb Hc Hd H. rewrite bez_xy_R in H.
  apply in_map_iff in H as ([x' y'] & E & H). injection E as -> ->.
  unfold samples in H. apply in_map_iff in H as (i & E & Hi).
  apply in_seq in Hi.
  assert (Hn : 0 < INR (nsteps steps)) by (apply lt_0_INR; unfold nsteps; lia).
  assert (Ht : 0 <= INR i / INR (nsteps steps) <= 1).
  { split.
    - apply Rmult_le_pos. apply pos_INR. apply Rlt_le, Rinv_0_lt_compat, Hn.
    - apply Rmult_le_reg_r with (INR (nsteps steps)); auto.
      unfold Rdiv. rewrite Rmult_assoc, Rinv_l, Rmult_1_r, Rmult_1_l by lra. apply le_INR. lia. }
  pose proof (cubic_halfplane u v k a b c d _ Ht Ha Hb Hc Hd) as K. rewrite E in K. exact K.
Qed.

(* hence in any box that holds the four control points *)
Theorem C30_bez_in_box : forall (a b c d : pt R) (steps : Z) (box : bbox R) (x y : R),
  in_box box (px a) (py a) -> in_box box (px b) (py b) ->
  in_box box (px c) (py c) -> in_box box (px d) (py d) ->
  In (x, y) (bez_xy a b c d steps) -> in_box box x y.
Proof.
  intros a b c d steps [|xl yl xh yh] x y; cbn [in_box]; unfold le; auto.
  change (@nleb R _) with Rleb. rewrite !Rleb_le. intros Ha Hb Hc Hd H.
  assert (G : forall u v k, u * px a + v * py a <= k -> u * px b + v * py b <= k ->
    u * px c + v * py c <= k -> u * px d + v * py d <= k -> u * x + v * y <= k).
  { intros u v k. intros. eapply C30_bez_halfplane; [| | | |exact H]; assumption. }
  pose proof (G (-1) 0 (- xl)). pose proof (G 1 0 xh). pose proof (G 0 (-1) (- yl)).
  pose proof (G 0 1 yh). lra.
Qed.

Example C30_box_nontrivial : in_box (BB 0 0 1 1) (1 / 2) (3 / 4).
Proof.
  apply (C30_bez_in_box (P 0 0) (P 0 1) (P 1 1) (P 1 0) 2); cbn; unfold le; cbn;
    rewrite ?Rleb_le; try lra.
  change (In (1/2, 3/4) (bez_xy (P 0 0) (P 0 1) (P 1 1) (P 1 0) 2)).
  eapply nth_error_In. apply C30_samples_nontrivial.
Qed.

(* sampling commutes with every affine map, in particular with every Transform *)
Theorem C30_bez_affine : forall (f : pt R -> pt R) (a b c d : pt R) (steps : Z),
  is_affine f ->
  bez_xy (f a) (f b) (f c) (f d) steps =
  map (fun xy => p_xy (f (P (fst xy) (snd xy)))) (bez_xy a b c d steps).
Proof.
  intros f a b c d steps Hf. rewrite !bez_xy_R, map_map. unfold samples. rewrite !map_map.
  apply map_ext. intros i. rewrite <- cubic_affine by assumption. f_equal.
Qed.

Theorem C30_transforms_are_affine : forall s : transform R, is_affine (t_transform s).
Proof. exact transform_affine. Qed.

(* ------------------------------------------------------------------ *)
(** * C31: bez_split preserves the curve *)

Theorem C31_split_traces : forall (s e l m r : cpoint R) (t u : R),
  bez_split s e t = (l, m, r) ->
  segment l m u = segment s e (u * t) /\
  segment m r u = segment s e (t + u * (1 - t)).
Proof.
  intros s e l m r t u H. injection H as <- <- <-.
  change (cp_r s) with (right_of s). change (cp_l e) with (left_of e).
  unfold segment. generalize (right_of s) (left_of e). intros b c.
  unfold right_of, left_of. cbn [cc cdl cdr].
  rewrite !add_sub_R. rewrite !bmid_R. unfold cubic. cbn [px py].
  rewrite !split_left, !split_right. split; reflexivity.
Qed.

(* together the halves show exactly the original segment *)
Theorem C31_split_same_points : forall (s e l m r : cpoint R) (t : R) (p : pt R),
  0 <= t <= 1 -> bez_split s e t = (l, m, r) ->
  ((exists u, 0 <= u <= 1 /\ p = segment s e u) <->
   (exists u, 0 <= u <= 1 /\ (p = segment l m u \/ p = segment m r u))).
Proof.
  intros s e l m r t p Ht H. split.
  - intros (u & Hu & ->). destruct (Rle_or_lt u t) as [Hle|Hlt].
    + destruct (Req_EM_T t 0) as [->|Ht0].
      * exists 0. split; [lra|]. left.
        destruct (C31_split_traces _ _ _ _ _ _ 0 H) as [-> _]. f_equal. lra.
      * exists (u / t). split.
        { split. apply Rmult_le_pos; try lra. apply Rlt_le, Rinv_0_lt_compat; lra.
          apply Rmult_le_reg_r with t; try lra. unfold Rdiv. rewrite Rmult_assoc, Rinv_l; lra. }
        left. destruct (C31_split_traces _ _ _ _ _ _ (u / t) H) as [-> _]. f_equal. field. exact Ht0.
    + assert (1 - t <> 0) by lra. exists ((u - t) / (1 - t)). split.
      { split. apply Rmult_le_pos; try lra. apply Rlt_le, Rinv_0_lt_compat; lra.
        apply Rmult_le_reg_r with (1 - t); try lra. unfold Rdiv. rewrite Rmult_assoc, Rinv_l; lra. }
      right. destruct (C31_split_traces _ _ _ _ _ _ ((u - t) / (1 - t)) H) as [_ ->]. f_equal. field. lra.
  - intros (u & Hu & [->| ->]).
    + exists (u * t). split; [nra|]. apply (C31_split_traces _ _ _ _ _ _ u H).
    + exists (t + u * (1 - t)). split; [nra|]. apply (C31_split_traces _ _ _ _ _ _ u H).
Qed.

(* end points and outer handles are kept, the split point is on the curve at t, and the
   handles at the split point are collinear, in the ratio t : 1 - t *)
Theorem C31_split_shape : forall (s e l m r : cpoint R) (t : R),
  bez_split s e t = (l, m, r) ->
  cc l = cc s /\ cdl l = cdl s /\ cc r = cc e /\ cdr r = cdr e /\
  cc m = segment s e t /\
  (vx (cdr l) = t * vx (cdr s) /\ vy (cdr l) = t * vy (cdr s)) /\
  (vx (cdl r) = (1 - t) * vx (cdl e) /\ vy (cdl r) = (1 - t) * vy (cdl e)) /\
  ((1 - t) * vx (cdl m) + t * vx (cdr m) = 0 /\ (1 - t) * vy (cdl m) + t * vy (cdr m) = 0).
Proof.
  intros s e l m r t H. injection H as <- <- <-.
  change (cp_r s) with (right_of s). change (cp_l e) with (left_of e).
  cbn [cc cdl cdr]. rewrite !bmid_R. unfold p_sub. cbn [vx vy px py].
  change (@nsub R _) with Rminus.
  unfold segment, cubic. rewrite <- !split_mid.
  repeat split; unfold right_of, left_of, lerp1; cbn [px py]; ring.
Qed.

(* the kind of all three points is smooth, whatever it was *)
Theorem C31_split_kinds : forall {F} {NF : Num F} (s e l m r : cpoint F) (t : F),
  bez_split s e t = (l, m, r) ->
  ckind l = "smooth"%string /\ ckind m = "smooth"%string /\ ckind r = "smooth"%string.
Proof. intros F NF s e l m r t H. injection H as <- <- <-. auto. Qed.

(* so a sharp corner is not kept by splitting *)
Theorem C31_split_keeps_kind_refuted :
  exists (s e l m r : cpoint R), bez_split s e (1 / 2) = (l, m, r) /\ ckind l <> ckind s.
Proof.
  exists (CP (P 0 0) (V 0 0) (V 1 0) "sharp"), (CP (P 3 0) (V (-1) 0) (V 0 0) "sharp").
  destruct (bez_split _ _ _) as [[l m] r] eqn:E. exists l, m, r. split; auto.
  apply C31_split_kinds in E as (-> & _). discriminate.
Qed.

Example C31_split_nontrivial : exists l m r,
  bez_split (CP (P 0 0) (V 0 0) (V 0 1) "smooth") (CP (P 1 0) (V 0 1) (V 0 0) "smooth") (1 / 2)
  = (l, m, r) /\ cc m = P (1 / 2) (3 / 4).
Proof.
  destruct (bez_split _ _ _) as [[l m] r] eqn:E. exists l, m, r. split; auto.
  apply C31_split_shape in E as (_ & _ & _ & _ & -> & _).
  unfold segment, cubic, cubic1, right_of, left_of. cbn [cc cdl cdr px py vx vy]. f_equal; field.
Qed.

(* ------------------------------------------------------------------ *)
(** * C32: reversing *)

Theorem C32_reversed : forall {F} {NF : Num F} (s : cpoint F),
  cc (cp_reversed s) = cc s /\ cdl (cp_reversed s) = cdr s /\ cdr (cp_reversed s) = cdl s /\
  ckind (cp_reversed s) = ckind s /\ cp_reversed (cp_reversed s) = s.
Proof. intros F NF [c l r k]. repeat split. Qed.

Theorem C32_reverse_list_involutive : forall {F} {NF : Num F} (cps : list (cpoint F)),
  reverse_list (reverse_list cps) = cps.
Proof.
  intros F NF cps. unfold reverse_list. rewrite <- map_rev, rev_involutive, map_map.
  rewrite <- (map_id cps) at 2. apply map_ext. intros [c l r k]. reflexivity.
Qed.

(* the segment between two reversed points is the segment run backwards *)
Theorem C32_segment_backwards : forall (s e : cpoint R) (t : R),
  segment (cp_reversed e) (cp_reversed s) t = segment s e (1 - t).
Proof. intros s e t. unfold segment. apply cubic_rev. Qed.

Definition swap_rev (pq : cpoint R * cpoint R) := (cp_reversed (snd pq), cp_reversed (fst pq)).

Lemma reverse_segments (cps : list (cpoint R)) :
  consecutive (reverse_list cps) = rev (map swap_rev (consecutive cps)).
Proof.
  unfold reverse_list. rewrite consecutive_map, consecutive_rev, <- map_rev, <- map_rev, map_map.
  reflexivity.
Qed.

Lemma nth_ext_error {A} (l l' : list A) : (forall i, nth_error l i = nth_error l' i) -> l = l'.
Proof.
  revert l'; induction l as [|a l IH]; intros [|b l'] H; auto.
  - specialize (H 0%nat). discriminate.
  - specialize (H 0%nat). discriminate.
  - f_equal. specialize (H 0%nat). cbn in H. congruence. apply IH. intros i. exact (H (S i)).
Qed.

(* samples of a chain of segments run backwards *)
Lemma join_backwards f n cps cps' closed closed' : (1 <= n)%nat ->
  path_segments cps' closed' = rev (map swap_rev (path_segments cps closed)) ->
  join_segs f n (path_segments cps' closed') = rev (join_segs f n (path_segments cps closed)).
Proof.
  intros Hn E.
  assert (Hlen : List.length (path_segments cps' closed') = List.length (path_segments cps closed)).
  { rewrite E, rev_length, map_length. reflexivity. }
  destruct (path_segments cps closed) as [|s0 l0] eqn:El0.
  { rewrite E. reflexivity. }
  rewrite <- El0 in *.
  set (L := List.length (path_segments cps closed)) in *.
  assert (HL : (1 <= L)%nat) by (subst L; rewrite El0; cbn; lia).
  assert (J1 : List.length (join_segs f n (path_segments cps closed)) = S (L * n)).
  { rewrite join_length. subst L. rewrite El0. reflexivity. }
  assert (J2 : List.length (join_segs f n (path_segments cps' closed')) = S (L * n)).
  { rewrite join_length, Hlen. destruct (path_segments cps' closed') eqn:E'; auto.
    rewrite <- Hlen in HL. cbn in HL. lia. }
  apply nth_ext_error. intros j.
  destruct (Nat.le_gt_cases j (L * n)) as [Hj|Hj].
  2:{ rewrite !(proj2 (nth_error_None _ _)); auto. rewrite rev_length, J1. lia. rewrite J2. lia. }
  (* write j as k * n + i with k < L, i <= n *)
  assert (Hki : exists k i, j = (k * n + i)%nat /\ (k < L)%nat /\ (i <= n)%nat).
  { destruct (Nat.eq_dec j (L * n)) as [->|Hne].
    - exists (L - 1)%nat, n. repeat split; try lia. nia.
    - exists (j / n)%nat, (j mod n)%nat. repeat split.
      + rewrite Nat.mul_comm. apply Nat.div_mod. lia.
      + apply Nat.div_lt_upper_bound; nia.
      + apply Nat.lt_le_incl, Nat.mod_upper_bound. lia. }
  destruct Hki as (k & i & -> & Hk & Hi).
  assert (Hs : exists s e, nth_error (path_segments cps closed) (L - 1 - k) = Some (s, e)).
  { destruct (nth_error (path_segments cps closed) (L - 1 - k)) as [[s e]|] eqn:Es; eauto.
    apply nth_error_None in Es. fold L in Es. lia. }
  destruct Hs as (s & e & Hs).
  assert (Hs' : nth_error (path_segments cps' closed') k = Some (cp_reversed e, cp_reversed s)).
  { rewrite E. rewrite <- map_rev, nth_error_map.
    assert (X : nth_error (rev (path_segments cps closed)) k = Some (s, e)).
    { assert (HR : (k < List.length (rev (path_segments cps closed)))%nat) by (rewrite rev_length; exact Hk).
      rewrite (nth_error_nth' _ (s, e) HR).
      rewrite rev_nth by (exact Hk). fold L. replace (L - S k)%nat with (L - 1 - k)%nat by lia.
      f_equal. apply nth_error_nth. exact Hs. }
    rewrite X. reflexivity. }
  rewrite (join_nth _ _ _ _ _ _ _ _ Hn Hs' Hi).
  symmetry.
  assert (HR : (k * n + i < List.length (rev (join_segs f n (path_segments cps closed))))%nat)
    by (rewrite rev_length, J1; lia).
  rewrite (nth_error_nth' _ (P 0 0) HR).
  rewrite rev_nth by (rewrite rev_length in HR; exact HR).
  rewrite J1. replace (S (L * n) - S (k * n + i))%nat with ((L - 1 - k) * n + (n - i))%nat by nia.
  f_equal. apply nth_error_nth.
  rewrite (join_nth f n cps closed (L - 1 - k) (n - i) s e Hn Hs) by lia.
  f_equal.
  change (right_of (cp_reversed e)) with (left_of e). change (left_of (cp_reversed s)) with (right_of s).
  change (cc (cp_reversed e)) with (cc e). change (cc (cp_reversed s)) with (cc s).
  rewrite cubic_rev. f_equal. rewrite minus_INR by lia. field. apply not_0_INR. lia.
Qed.

(* an open path of the reversed list lists the same points in the opposite order, at any
   density and under any map *)
Theorem C32_open_path_backwards : forall (f : pt R -> pt R) (cps : list (cpoint R)) (steps : Z),
  exists ps, points_of (bez_path f cps false steps) = Some ps /\
             points_of (bez_path f (reverse_list cps) false steps) = Some (rev ps).
Proof.
  intros f cps steps. exists (join_segs f (nsteps steps) (path_segments cps false)).
  rewrite !bez_path_R, !points_of_flat. split; auto. f_equal.
  apply join_backwards. unfold nsteps; lia.
  transitivity (consecutive (reverse_list cps)).
  - unfold path_segments. destruct (reverse_list cps); reflexivity.
  - rewrite reverse_segments. destruct cps; reflexivity.
Qed.

(* a closed path too, when both start at the same control point *)
Theorem C32_closed_path_backwards : forall (f : pt R -> pt R) (a : cpoint R) (cps : list (cpoint R)) (steps : Z),
  exists ps, points_of (bez_path f (a :: cps) true steps) = Some ps /\
             points_of (bez_path f (reverse_list (cps ++ [a])) true steps) = Some (rev ps).
Proof.
  intros f a cps steps. exists (join_segs f (nsteps steps) (path_segments (a :: cps) true)).
  rewrite !bez_path_R, !points_of_flat. split; auto. f_equal.
  apply join_backwards. unfold nsteps; lia.
  assert (E : reverse_list (cps ++ [a]) = cp_reversed a :: reverse_list cps).
  { unfold reverse_list. rewrite rev_app_distr. reflexivity. }
  unfold path_segments. rewrite E.
  rewrite <- reverse_segments. f_equal.
  unfold reverse_list. rewrite rev_app_distr. cbn [rev app map]. rewrite map_app. reflexivity.
Qed.

(* whatever the starting point, the closed curve of the reversed list is the same set of points *)
Theorem C32_same_curve : forall (cps : list (cpoint R)) (closed : bool) (p : pt R),
  on_path (reverse_list cps) closed p <-> on_path cps closed p.
Proof.
  assert (H : forall cps closed p, on_path cps closed p -> on_path (reverse_list cps) closed p).
  { intros cps closed p (s & e & t & Hin & Ht & ->).
    exists (cp_reversed e), (cp_reversed s), (1 - t). split; [|split].
    2: lra. 2:{ rewrite C32_segment_backwards. f_equal. lra. }
    destruct cps as [|a cps]; [contradiction|].
    destruct closed.
    - (* cyclic: the closing segment is first or last *)
      assert (G : forall l : list (cpoint R), l <> [] -> forall x,
                In x (path_segments l true) <->
                In x (consecutive l) \/ (exists z w, hd_error l = Some z /\ last l w = fst x /\ x = (last l w, z))).
      { intros l Hl x. destruct l as [|z l]; [congruence|].
        unfold path_segments. cbn [hd_error].
        destruct (exists_last Hl) as (l' & y & E). rewrite E, <- app_assoc. cbn [app].
        rewrite consecutive_app1. rewrite in_app_iff. cbn [In].
        split; intros [K|K]; auto.
        - right. exists z, z. rewrite last_last. destruct K as [<-|[]]. auto.
        - right. destruct K as (z' & w & Ez & _ & ->). injection Ez as <-. rewrite last_last. auto. }
      apply G in Hin; [|discriminate]. apply G.
      { unfold reverse_list. cbn [rev]. rewrite map_app. destruct (map cp_reversed (rev cps)); discriminate. }
      destruct Hin as [Hin|(z & w & Ez & _ & E)].
      + left. rewrite reverse_segments. rewrite <- in_rev. apply in_map_iff. exists (s, e). auto.
      + right. injection Ez as <-. injection E as -> ->.
        exists (cp_reversed (last (a :: cps) w)), (cp_reversed a).
        unfold reverse_list.
        assert (HL : last (map cp_reversed (rev (a :: cps))) (cp_reversed a) = cp_reversed a).
        { cbn [rev]. rewrite map_app. cbn [map]. apply last_last. }
        assert (Hh : hd_error (map cp_reversed (rev (a :: cps))) = Some (cp_reversed (last (a :: cps) w))).
        { destruct (exists_last (l := a :: cps)) as (l' & y & E); [discriminate|].
          rewrite E, rev_app_distr, last_last. reflexivity. }
        rewrite HL. auto.
    - change (In (s, e) (consecutive (a :: cps))) in Hin.
      assert (X : path_segments (reverse_list (a :: cps)) false = consecutive (reverse_list (a :: cps))).
      { unfold path_segments. destruct (reverse_list (a :: cps)); reflexivity. }
      rewrite X, reverse_segments. rewrite <- in_rev. apply in_map_iff. exists (s, e). auto. }
  intros cps closed p. split; auto.
  intros K. apply H in K. rewrite C32_reverse_list_involutive in K. exact K.
Qed.

Example C32_nontrivial :
  on_path [CP (P 0 0) (V 0 0) (V 0 1) "smooth"; CP (P 1 0) (V 0 1) (V 0 0) "sharp"] false (P (1/2) (3/4)).
Proof.
  eexists _, _, (1/2). split; [left; reflexivity|]. split; [lra|].
  unfold segment, cubic, cubic1, right_of, left_of. cbn [cc cdl cdr px py vx vy]. f_equal; field.
Qed.

(* ------------------------------------------------------------------ *)
(** * C33: ControlPoint.transform *)

Theorem C33_linear : forall (f : pt R -> pt R) (s : cpoint R),
  exists s', cp_transform f true s = Ok s' /\ ckind s' = ckind s /\
    cc s' = f (cc s) /\ left_of s' = f (left_of s) /\ right_of s' = f (right_of s).
Proof.
  intros f s. unfold cp_transform. eexists. split; [reflexivity|]. cbn [ckind cc].
  split; [reflexivity|]. split; [reflexivity|].
  unfold left_of, right_of. cbn [cc cdl cdr]. unfold p_sub. cbn -[IZR].
  change (P (px (cc s) + vx (cdl s)) (py (cc s) + vy (cdl s))) with (cp_l s).
  change (P (px (cc s) + vx (cdr s)) (py (cc s) + vy (cdr s))) with (cp_r s).
  destruct (f (cp_l s)) as [a b], (f (cp_r s)) as [c d], (f (cc s)) as [g h]. cbn [px py vx vy].
  split; f_equal; ring.
Qed.

(* the transformed control points draw the image of the original curve *)
Theorem C33_linear_draws_image : forall (f : pt R -> pt R) (s e s' e' : cpoint R) (t : R),
  is_affine f -> cp_transform f true s = Ok s' -> cp_transform f true e = Ok e' ->
  segment s' e' t = f (segment s e t).
Proof.
  intros f s e s' e' t Hf Hs He.
  destruct (C33_linear f s) as (s1 & Es & _ & Ec & El & Er). rewrite Es in Hs. injection Hs as ->.
  destruct (C33_linear f e) as (e1 & Ee & _ & Ec' & El' & Er'). rewrite Ee in He. injection He as ->.
  unfold segment. rewrite Ec, Er, El', Ec'. symmetry. apply cubic_affine. exact Hf.
Qed.

Lemma mapM_linear f (cps : list (cpoint R)) : exists cps',
  mapM (cp_transform f true) cps = Ok cps' /\
  Forall2 (fun s s' => cc s' = f (cc s) /\ left_of s' = f (left_of s) /\ right_of s' = f (right_of s)
                       /\ ckind s' = ckind s) cps cps'.
Proof.
  induction cps as [|s cps (cps' & E & H)]; [exists []; auto|].
  destruct (C33_linear f s) as (s' & Es & H1 & H2 & H3 & H4).
  exists (s' :: cps'). split; [|constructor; auto]. cbn [mapM]. rewrite Es. cbn [bind]. rewrite E. reflexivity.
Qed.

Lemma Forall2_consecutive {A B} (Rl : A -> B -> Prop) l l' : Forall2 Rl l l' ->
  Forall2 (fun p q => Rl (fst p) (fst q) /\ Rl (snd p) (snd q)) (consecutive l) (consecutive l').
Proof.
  induction 1 as [|a b l l' Hab H IH]; [constructor|].
  destruct H as [|c d l l' Hcd H]; [constructor|].
  cbn [consecutive] in *. constructor; auto.
Qed.
Lemma Forall2_path {A B} (Rl : A -> B -> Prop) l l' closed : Forall2 Rl l l' ->
  Forall2 (fun p q => Rl (fst p) (fst q) /\ Rl (snd p) (snd q)) (path_segments l closed) (path_segments l' closed).
Proof.
  intros H. destruct H as [|a b l l' Hab H]; [constructor|].
  apply Forall2_consecutive. destruct closed; [|constructor; auto].
  apply (Forall2_app (l1 := a :: l) (l1' := b :: l')); constructor; auto.
Qed.

(* drawing the transformed list under g is drawing the original under g after f *)
Theorem C33_linear_path : forall (f g : pt R -> pt R) (cps cps' : list (cpoint R)) (closed : bool) (steps : Z),
  mapM (cp_transform f true) cps = Ok cps' ->
  bez_path g cps' closed steps = bez_path (fun p => g (f p)) cps closed steps.
Proof.
  intros f g cps cps' closed steps H.
  destruct (mapM_linear f cps) as (c2 & E & H2). rewrite E in H. injection H as ->.
  rewrite !bez_path_R. do 2 f_equal.
  pose proof (Forall2_path _ _ _ closed H2) as K.
  assert (G : forall l l', Forall2 (fun p q => (cc (fst q) = f (cc (fst p)) /\
       left_of (fst q) = f (left_of (fst p)) /\ right_of (fst q) = f (right_of (fst p)) /\
       ckind (fst q) = ckind (fst p)) /\ (cc (snd q) = f (cc (snd p)) /\
       left_of (snd q) = f (left_of (snd p)) /\ right_of (snd q) = f (right_of (snd p)) /\
       ckind (snd q) = ckind (snd p))) l l' ->
     Forall2 (fun p q => seg_pts g (nsteps steps) q = seg_pts (fun x => g (f x)) (nsteps steps) p) l l').
  { intros l l'. induction 1 as [|[p1 p2] [q1 q2] l l' ((A1 & A2 & A3 & _) & (B1 & B2 & B3 & _)) _ IH]; constructor; auto.
    unfold seg_pts. cbn [fst snd] in *. rewrite A1, A3, B2, B1. reflexivity. }
  apply G in K. destruct K as [|p q l l' Hpq K]; auto.
  cbn [join_segs]. f_equal; auto.
  induction K as [|p2 q2 l l' Hpq2 K IH]; auto. cbn [flat_map]. rewrite IH, Hpq2. reflexivity.
Qed.

Example C33_path_nontrivial : exists cps',
  mapM (cp_transform (fun p => P (2 * px p + 1) (3 * py p)) true)
    [CP (P 0 0) (V 0 0) (V 0 1) "smooth"; CP (P 1 0) (V 0 1) (V 0 0) "sharp"] = Ok cps' /\
  List.length cps' = 2%nat.
Proof. eexists. split; reflexivity. Qed.

(* Non-linear transformers.  [dl] and [dr] are the images of the handles. *)
Definition img_dl (f : pt R -> pt R) (s : cpoint R) : vec R :=
  V (px (f (left_of s)) - px (f (cc s))) (py (f (left_of s)) - py (f (cc s))).
Definition img_dr (f : pt R -> pt R) (s : cpoint R) : vec R :=
  V (px (f (right_of s)) - px (f (cc s))) (py (f (right_of s)) - py (f (cc s))).

Theorem C33_very_smooth : forall (f : pt R -> pt R) (s : cpoint R),
  ckind s = "very-smooth"%string ->
  exists s', cp_transform f false s = Ok s' /\ cc s' = f (cc s) /\ ckind s' = ckind s /\
    vx (cdl s') = - vx (cdr s') /\ vy (cdl s') = - vy (cdr s') /\
    vx (cdr s') = (vx (img_dr f s) - vx (img_dl f s)) / 2 /\
    vy (cdr s') = (vy (img_dr f s) - vy (img_dl f s)) / 2.
Proof.
  intros f s Hk. unfold cp_transform. rewrite Hk. cbn [String.eqb Ascii.eqb Bool.eqb].
  unfold v_div. change (@nofZ R _ 2) with 2. rewrite !pydiv_R by lra. cbn [bind].
  eexists. split; [reflexivity|]. repeat split.
Qed.

(* a smooth point: both handles zero stay zero; otherwise lengths are kept and the handles
   point in opposite directions, along the difference of the images *)
Theorem C33_smooth : forall (f : pt R -> pt R) (s s' : cpoint R),
  ckind s = "smooth"%string -> cp_transform f false s = Ok s' ->
  cc s' = f (cc s) /\ ckind s' = ckind s /\
  v_length (cdl s') = v_length (img_dl f s) /\ v_length (cdr s') = v_length (img_dr f s) /\
  (exists u : vec R, exists a b : R, 0 <= a /\ 0 <= b /\
     cdr s' = V (a * vx u) (a * vy u) /\ cdl s' = V (- (b * vx u)) (- (b * vy u)) /\
     (img_dr f s <> img_dl f s ->
      exists k, 0 < k /\ k * vx u = vx (img_dr f s) - vx (img_dl f s) /\
                k * vy u = vy (img_dr f s) - vy (img_dl f s))).
Proof.
  intros f s s' Hk. unfold cp_transform. rewrite Hk.
  cbn [String.eqb Ascii.eqb Bool.eqb]. change (cp_l s) with (left_of s). change (cp_r s) with (right_of s).
  change (p_sub (f (left_of s)) (f (cc s))) with (img_dl f s).
  change (p_sub (f (right_of s)) (f (cc s))) with (img_dr f s).
  generalize (img_dl f s) (img_dr f s) (f (cc s)). intros dl dr c.
  destruct (v_bool dl || v_bool dr)%bool eqn:Eb.
  - rewrite unit_R. destruct (Req_EM_T (v_length (v_sub dr dl)) 0) as [E0|E0]; [discriminate|].
    destruct (unit_ok (v_sub dr dl)) as (u & Eu & Hlu & Hx & Hy & Hpos).
    { intros E. apply E0. apply length_0. exact E. }
    rewrite unit_R in Eu. destruct (Req_EM_T (v_length (v_sub dr dl)) 0) as [E1|E1]; [contradiction|].
    assert (Eu' : V (vx (v_sub dr dl) / v_length (v_sub dr dl)) (vy (v_sub dr dl) / v_length (v_sub dr dl)) = u)
      by congruence.
    rewrite Eu'. cbn [bind]. intros H. injection H as <-. cbn [cc ckind cdl cdr].
    split; auto. split; auto.
    assert (Hmul : forall k, v_length (v_mul u k) = Rabs k).
    { intros k. unfold v_length in *. cbn in *.
      replace (vx u * k * (vx u * k) + vy u * k * (vy u * k)) with (k * k * (vx u * vx u + vy u * vy u)) by ring.
      rewrite sqrt_mult_alt by nra. rewrite Hlu, Rmult_1_r. apply sqrt_Rsqr_abs. }
    assert (Hp : forall v : vec R, 0 <= v_length v) by (intros v; apply sqrt_pos).
    split; [|split].
    * rewrite Hmul. change (@nneg R _) with Ropp. rewrite Rabs_Ropp. apply Rabs_pos_eq, Hp.
    * rewrite Hmul. apply Rabs_pos_eq, Hp.
    * exists u, (v_length dr), (v_length dl). split; [apply Hp|]. split; [apply Hp|].
      unfold v_mul. split; [|split].
      { unfold v_length. cbn. apply vec_ext; cbn [vx vy]; ring. }
      { unfold v_length. cbn. apply vec_ext; cbn [vx vy]; ring. }
      intros _. exists (v_length (v_sub dr dl)). split; [exact Hpos|].
      cbn -[v_length v_sub] in Hx, Hy. split; [rewrite <- Hx|rewrite <- Hy]; reflexivity.
  - intros H. injection H as <-. cbn [cc ckind cdl cdr]. repeat split; auto.
    apply orb_false_iff in Eb as [E1 E2]. unfold v_bool in E1, E2.
    apply orb_false_iff in E1 as [E1 E1']. apply orb_false_iff in E2 as [E2 E2'].
    apply negb_false_iff, Reqb_eq in E1, E1', E2, E2'.
    change (@nofZ R _ 0) with 0 in *.
    exists (V 0 0), 0, 0. destruct dl as [a b], dr as [a' b']. cbn [vx vy] in *. subst.
    repeat split; try lra; try (f_equal; ring).
    intros N. exfalso. apply N. reflexivity.
Qed.

(* it raises ZeroDivisionError exactly when the images of the handles coincide and are not zero *)
Theorem C33_smooth_raises : forall (f : pt R -> pt R) (s : cpoint R) (e : exn),
  ckind s = "smooth"%string ->
  (cp_transform f false s = Raise e <->
   e = ZeroDivisionError /\ img_dl f s = img_dr f s /\ img_dl f s <> V 0 0).
Proof.
  intros f s e Hk. unfold cp_transform. rewrite Hk.
  cbn [String.eqb Ascii.eqb Bool.eqb]. change (cp_l s) with (left_of s). change (cp_r s) with (right_of s).
  change (p_sub (f (left_of s)) (f (cc s))) with (img_dl f s).
  change (p_sub (f (right_of s)) (f (cc s))) with (img_dr f s).
  generalize (img_dl f s) (img_dr f s) (f (cc s)). intros [a b] [a' b'] c.
  unfold v_bool, v_unit. cbn [vx vy].
  change (@neqb R _) with Reqb. change (@nofZ R _ 0) with 0.
  destruct (Reqb (v_length (v_sub (V a' b') (V a b))) 0) eqn:El.
  - apply Reqb_eq, length_0 in El. unfold v_sub in El. cbn in El. injection El as E1 E2.
    assert (a' = a) by lra. assert (b' = b) by lra. subst a' b'.
    destruct (Reqb a 0) eqn:Ea; [apply Reqb_eq in Ea|apply Reqb_neq in Ea];
    (destruct (Reqb b 0) eqn:Eb; [apply Reqb_eq in Eb|apply Reqb_neq in Eb]); cbn.
    + subst. split; [discriminate|]. intros (_ & _ & N). exfalso. apply N. reflexivity.
    + split; [intros H; injection H as <-; repeat split; congruence | intros (-> & _); reflexivity].
    + split; [intros H; injection H as <-; repeat split; congruence | intros (-> & _); reflexivity].
    + split; [intros H; injection H as <-; repeat split; congruence | intros (-> & _); reflexivity].
  - apply Reqb_neq in El. cbn [bind].
    split.
    + destruct (_ || _)%bool; discriminate.
    + intros (_ & E & _). exfalso. apply El. injection E as <- <-.
      unfold v_length, v_sub. cbn. replace ((a - a) * (a - a) + (b - b) * (b - b)) with 0 by ring.
      apply sqrt_0.
Qed.

(* every other kind keeps the images of its handles *)
Theorem C33_other_kinds : forall (f : pt R -> pt R) (s : cpoint R),
  ckind s <> "smooth"%string -> ckind s <> "very-smooth"%string ->
  cp_transform f false s = Ok (CP (f (cc s)) (img_dl f s) (img_dr f s) (ckind s)).
Proof.
  intros f s H1 H2. unfold cp_transform.
  rewrite (proj2 (String.eqb_neq _ _) H2), (proj2 (String.eqb_neq _ _) H1). reflexivity.
Qed.

Example C33_smooth_nontrivial : exists s',
  cp_transform (fun p => P (px p * px p) (py p)) false (CP (P 1 0) (V (-1) 0) (V 1 0) "smooth") = Ok s'.
Proof.
  destruct (cp_transform _ _ _) as [s'|e] eqn:E; [eauto|].
  exfalso. apply C33_smooth_raises in E; [|reflexivity]. destruct E as (_ & E & _).
  unfold img_dl, img_dr, left_of, right_of in E. cbn in E. injection E. lra.
Qed.
Example C33_raises_nontrivial : cp_transform (fun p => P (px p * px p) (py p)) false
   (CP (P 0 0) (V (-1) 0) (V 1 0) "smooth") = Raise ZeroDivisionError.
Proof.
  apply C33_smooth_raises; [reflexivity|]. unfold img_dl, img_dr, left_of, right_of. cbn.
  repeat split. f_equal; ring. intros H. injection H. lra.
Qed.

(* ------------------------------------------------------------------ *)
(** * C34: bez_path *)

(* the points of the path, all at once: how many there are, and that the k-th segment is
   sampled at i/steps from index k*steps on.  Since i ranges from 0 to steps included, the
   end of each segment is the start of the next. *)
Theorem C34_bez_path : forall (f : pt R -> pt R) (cps : list (cpoint R)) (closed : bool) (steps : Z),
  let n := Z.to_nat (Z.max steps 1) in
  let segs := if closed then List.length cps else (List.length cps - 1)%nat in
  exists ps, points_of (bez_path f cps closed steps) = Some ps /\
    List.length ps = match segs with 0%nat => 0%nat | _ => (segs * n + 1)%nat end /\
    forall k i s e, nth_error cps k = Some s ->
      (nth_error cps (S k) = Some e \/
       (closed = true /\ S k = List.length cps /\ hd_error cps = Some e)) ->
      (i <= n)%nat ->
      nth_error ps (k * n + i) =
      Some (cubic (f (cc s)) (f (right_of s)) (f (left_of e)) (f (cc e)) (INR i / INR n)).
Proof.
  intros f cps closed steps n segs.
  exists (join_segs f n (path_segments cps closed)).
  rewrite bez_path_R, points_of_flat. split; [reflexivity|]. split.
  - rewrite join_length. pose proof (path_segments_length cps closed) as E. fold segs in E.
    destruct (path_segments cps closed) as [|x l]; cbn [List.length] in *; rewrite <- E; lia.
  - intros k i s e Hs He Hi. apply join_nth; auto. subst n; lia.
    destruct cps as [|a cps]; [destruct k; discriminate|]. unfold path_segments.
    destruct closed.
    + apply consecutive_nth.
      * rewrite nth_error_app1; auto. apply nth_error_Some. congruence.
      * destruct He as [He|(_ & Hl & He)].
        -- rewrite nth_error_app1; auto. apply nth_error_Some. congruence.
        -- rewrite nth_error_app2 by lia. rewrite <- Hl, Nat.sub_diag. injection He as ->. reflexivity.
    + apply consecutive_nth; auto. destruct He as [He|(H & _)]; [exact He|discriminate].
Qed.

(* it visits every control point, in order, at multiples of steps *)
Theorem C34_visits_control_points : forall (f : pt R -> pt R) (cps : list (cpoint R)) (closed : bool) (steps : Z) ps k s,
  points_of (bez_path f cps closed steps) = Some ps ->
  (closed = true \/ (2 <= List.length cps)%nat) ->
  nth_error cps k = Some s ->
  nth_error ps (k * Z.to_nat (Z.max steps 1)) = Some (f (cc s)).
Proof.
  intros f cps closed steps ps k s Hps Hc Hs.
  destruct (C34_bez_path f cps closed steps) as (ps' & Hps' & _ & H).
  rewrite Hps in Hps'. injection Hps' as <-.
  set (n := Z.to_nat (Z.max steps 1)) in *.
  assert (Hn : INR n <> 0) by (apply not_0_INR; subst n; lia).
  assert (Hk : (k < List.length cps)%nat) by (apply nth_error_Some; congruence).
  destruct (Nat.eq_dec (S k) (List.length cps)) as [El|Nl].
  - destruct closed.
    + destruct cps as [|a cps']; [destruct k; discriminate|].
      rewrite <- (Nat.add_0_r (k * n)).
      rewrite (H k 0%nat s a Hs) by (auto; lia).
      f_equal. replace (INR 0 / INR n) with 0 by (cbn [INR]; unfold Rdiv; ring). apply cubic_0.
    + destruct Hc as [Hc|Hc]; [discriminate|].
      destruct k as [|k]; [lia|].
      destruct (nth_error cps k) as [s0|] eqn:E0.
      2:{ apply nth_error_None in E0. lia. }
      replace (S k * n)%nat with (k * n + n)%nat by lia.
      rewrite (H k n s0 s E0) by (auto; lia).
      f_equal. replace (INR n / INR n) with 1 by (field; auto). apply cubic_1.
  - destruct (nth_error cps (S k)) as [e|] eqn:Ee.
    2:{ apply nth_error_None in Ee. lia. }
    rewrite <- (Nat.add_0_r (k * n)).
    rewrite (H k 0%nat s e Hs) by (auto; lia).
    f_equal. replace (INR 0 / INR n) with 0 by (cbn [INR]; unfold Rdiv; ring). apply cubic_0.
Qed.

(* a closed path ends where it began *)
Theorem C34_closed_path_closes : forall (f : pt R -> pt R) (cps : list (cpoint R)) (steps : Z) ps p,
  points_of (bez_path f cps true steps) = Some ps -> hd_error ps = Some p ->
  last ps p = p.
Proof.
  intros f cps steps ps p Hps Hp.
  destruct (C34_bez_path f cps true steps) as (ps' & Hps' & Hl & H).
  rewrite Hps in Hps'. injection Hps' as <-.
  set (n := Z.to_nat (Z.max steps 1)) in *.
  assert (Hn : INR n <> 0) by (apply not_0_INR; subst n; lia).
  destruct cps as [|a cps].
  { cbn in Hps. injection Hps as <-. discriminate. }
  assert (E0 : nth_error ps (0 * n) = Some (f (cc a))).
  { eapply C34_visits_control_points; eauto. }
  assert (p = f (cc a)). { destruct ps; cbn in *; congruence. } subst p.
  cbn [List.length] in Hl. set (m := List.length cps) in *.
  destruct (nth_error (a :: cps) m) as [s|] eqn:Es.
  2:{ apply nth_error_None in Es. cbn in Es. subst m. lia. }
  assert (E1 : nth_error ps (m * n + n) = Some (f (cc a))).
  { rewrite (H m n s a Es) by (auto; right; repeat split; subst m; cbn; lia).
    f_equal. replace (INR n / INR n) with 1 by (field; auto). apply cubic_1. }
  destruct ps as [|q ps] using rev_ind; [destruct (m * n + n)%nat; discriminate|].
  rewrite last_last. rewrite app_length in Hl. cbn [List.length] in Hl.
  rewrite nth_error_app2 in E1 by nia.
  replace (m * n + n - List.length ps)%nat with 0%nat in E1 by nia. cbn in E1. congruence.
Qed.

(* nothing is drawn when there is no segment *)
Theorem C34_no_segment : forall {F} {NF : Num F} (f : pt F -> pt F) (steps : Z) (s : cpoint F),
  bez_path f [] true steps = [] /\ bez_path f [] false steps = [] /\ bez_path f [s] false steps = [].
Proof. intros. repeat split. Qed.

(* under an affine map, e.g. a Transform, each point drawn is the image of a point of the curve *)
Theorem C34_points_on_curve : forall (f : pt R -> pt R) (cps : list (cpoint R)) (closed : bool) (steps : Z) ps q,
  is_affine f -> points_of (bez_path f cps closed steps) = Some ps -> In q ps ->
  exists p, on_path cps closed p /\ q = f p.
Proof.
  intros f cps closed steps ps q Hf Hps Hq.
  rewrite bez_path_R, points_of_flat in Hps. injection Hps as <-.
  assert (G : forall pq, In pq (path_segments cps closed) -> In q (seg_pts f (nsteps steps) pq) ->
     exists p, on_path cps closed p /\ q = f p).
  { intros [s e] Hin H. unfold seg_pts, samples in H. cbn [fst snd] in H. apply in_map_iff in H as (i & E & Hi).
    apply in_seq in Hi.
    assert (Hn : 0 < INR (nsteps steps)) by (apply lt_0_INR; unfold nsteps; lia).
    exists (segment s e (INR i / INR (nsteps steps))). split.
    - exists s, e, (INR i / INR (nsteps steps)). split; auto. split; auto. split.
      + apply Rmult_le_pos. apply pos_INR. apply Rlt_le, Rinv_0_lt_compat, Hn.
      + apply Rmult_le_reg_r with (INR (nsteps steps)); auto.
        unfold Rdiv. rewrite Rmult_assoc, Rinv_l, Rmult_1_r, Rmult_1_l by lra. apply le_INR. lia.
    - unfold segment. rewrite cubic_affine by exact Hf. symmetry. exact E. }
  destruct (path_segments cps closed) as [|pq l] eqn:El; [contradiction|].
  cbn [join_segs] in Hq. apply in_app_iff in Hq as [Hq|Hq].
  - apply (G pq); cbn; auto.
  - apply in_flat_map in Hq as (pq' & Hin & Hq). apply (G pq'); cbn; auto.
Qed.

Example C34_nontrivial : exists ps,
  points_of (bez_path (fun p => p)
    [CP (P 0 0) (V 0 0) (V 0 1) "smooth"; CP (P 1 0) (V 0 1) (V 0 0) "sharp"; CP (P 2 2) (V 0 0) (V 0 0) "sharp"]
    true 5) = Some ps /\ List.length ps = 16%nat /\ nth_error ps 10 = Some (P 2 2).
Proof.
  set (cps := [_; _; _]). destruct (C34_bez_path (fun p => p) cps true 5) as (ps & E & L & _).
  exists ps. split; auto. split; [exact L|].
  apply (C34_visits_control_points (fun p => p) cps true 5 ps 2 (CP (P 2 2) (V 0 0) (V 0 0) "sharp") E); auto.
Qed.
