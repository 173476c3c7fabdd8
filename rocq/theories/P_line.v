(* Property theorems C22-C24: class Line. *)
Require Import Verif.L_real Verif.M_vector Verif.M_bbox Verif.M_line Verif.L_vector.
From Coq Require Import List Lra Psatz Bool.
Import ListNotations.

(* the point at parameter t of the line through o with direction d *)
Definition at_param (l : line R) (t : R) : pt R := P (px (lo l) + vx (ld l) * t) (py (lo l) + vy (ld l) * t).
Definition on_line (l : line R) (p : pt R) : Prop := exists t, p = at_param l t.
Definition dist (p q : pt R) : R := sqrt ((px p - px q) * (px p - px q) + (py p - py q) * (py p - py q)).
Definition zero_dir (l : line R) : Prop := vx (ld l) = 0 /\ vy (ld l) = 0.
Definition det (l m : line R) : R := vx (ld l) * vy (ld m) - vy (ld l) * vx (ld m).

(* ---------------------------------------------------------------- *)
(** ** C22 closest *)

Theorem C22_closest (l : line R) (p : pt R) : ~ zero_dir l ->
  exists q, closest l p = Ok q /\ on_line l q /\
    vx (ld l) * (px p - px q) + vy (ld l) * (py p - py q) = 0 /\
    (forall r, on_line l r -> dist p q <= dist p r) /\
    (forall r, on_line l r -> dist p r <= dist p q -> r = q).
Proof.
  intros NZ. assert (NV : ld l <> V 0 0). { intros E. apply NZ. unfold zero_dir. rewrite E. split; reflexivity. }
  destruct (unit_ok _ NV) as (u & E & L & Hx & Hy & Hp).
  pose proof (length_sq u) as Lu. rewrite L in Lu.
  unfold closest. rewrite E. cbn [bind].
  set (dot := v_dot (p_sub p (lo l)) u).
  assert (Ed : dot = (px p - px (lo l)) * vx u + (py p - py (lo l)) * vy u) by reflexivity.
  exists (p_add (lo l) (v_mul u dot)). split; [reflexivity|].
  set (q := p_add (lo l) (v_mul u dot)).
  assert (Qx : px q = px (lo l) + vx u * dot) by reflexivity.
  assert (Qy : py q = py (lo l) + vy u * dot) by reflexivity.
  assert (On : on_line l q).
  { exists (dot / v_length (ld l)). apply pnt_ext; unfold at_param; cbn [px py]; rewrite ?Qx, ?Qy, ?Hx, ?Hy; field; lra. }
  assert (Perp : vx u * (px p - px q) + vy u * (py p - py q) = 0).
  { rewrite Qx, Qy.
    transitivity (dot * (1 - (vx u * vx u + vy u * vy u))); [rewrite Ed; ring|rewrite <- Lu; ring]. }
  assert (Py : forall r, on_line l r -> (px p - px r) * (px p - px r) + (py p - py r) * (py p - py r) =
      ((px p - px q) * (px p - px q) + (py p - py q) * (py p - py q)) +
      ((px q - px r) * (px q - px r) + (py q - py r) * (py q - py r))).
  { intros r [t ->]. unfold at_param. cbn [px py].
    assert (Z : (px p - px q) * (px q - (px (lo l) + vx (ld l) * t)) + (py p - py q) * (py q - (py (lo l) + vy (ld l) * t)) = 0).
    { replace (px q - (px (lo l) + vx (ld l) * t)) with (vx u * (dot - v_length (ld l) * t)) by (rewrite Qx, Hx; ring).
      replace (py q - (py (lo l) + vy (ld l) * t)) with (vy u * (dot - v_length (ld l) * t)) by (rewrite Qy, Hy; ring).
      transitivity ((vx u * (px p - px q) + vy u * (py p - py q)) * (dot - v_length (ld l) * t)); [ring|rewrite Perp; ring]. }
    lra. }
  split; auto. split; [|split].
  - transitivity (v_length (ld l) * (vx u * (px p - px q) + vy u * (py p - py q))); [rewrite Hx, Hy; ring|rewrite Perp; ring].
  - intros r Hr. unfold dist. apply sqrt_le_1_alt. rewrite (Py r Hr). pose proof (sumsq_pos (px q - px r) (py q - py r)). lra.
  - intros r Hr Hd. unfold dist in Hd. apply sqrt_le_0 in Hd; try apply sumsq_pos. rewrite (Py r Hr) in Hd.
    assert ((px q - px r) * (px q - px r) + (py q - py r) * (py q - py r) = 0) by (pose proof (sumsq_pos (px q - px r) (py q - py r)); lra).
    apply sumsq_0 in H. apply pnt_ext; lra.
Qed.
Theorem C22_closest_zero (l : line R) (p : pt R) : zero_dir l -> closest l p = Raise ZeroDivisionError.
Proof.
  intros [Hx Hy]. unfold closest. rewrite unit_R. destruct (Req_EM_T _ _) as [|N]; [reflexivity|].
  exfalso. apply N. apply length_0. apply vec_ext; auto.
Qed.
(* a point of the line is its own closest point *)
Theorem C22_closest_idempotent (l : line R) (p : pt R) : ~ zero_dir l -> on_line l p -> closest l p = Ok p.
Proof.
  intros N H. destruct (C22_closest l p N) as (q & E & _ & _ & _ & U). rewrite E. f_equal. symmetry. apply U; auto.
  unfold dist. replace ((px p - px p) * (px p - px p) + (py p - py p) * (py p - py p)) with 0 by ring.
  rewrite sqrt_0. apply sqrt_pos.
Qed.

(* ---------------------------------------------------------------- *)
(** ** C23 intersection *)

(* parallel: one direction is a multiple of the other (zero directions included) *)
Definition collinear (v w : vec R) : Prop := exists a b, (a <> 0 \/ b <> 0) /\ a * vx v = b * vx w /\ a * vy v = b * vy w.
Lemma det_collinear (l m : line R) : det l m = 0 <-> collinear (ld l) (ld m).
Proof.
  unfold det. split.
  - intros H. unfold collinear. destruct (Req_dec (vx (ld m)) 0) as [E|E]; [destruct (Req_dec (vy (ld m)) 0) as [E2|E2]|].
    + exists 0, 1. split; [lra|]. split; lra.
    + exists (vy (ld m)), (vy (ld l)). split; [auto|]. split; [|ring].
      rewrite E. rewrite E in H. lra.
    + exists (vx (ld m)), (vx (ld l)). split; [auto|]. split; [ring|lra].
  - intros (a & b & [H|H] & Hx & Hy).
    + apply (Rmult_eq_reg_l a); auto.
      transitivity ((a * vx (ld l)) * vy (ld m) - (a * vy (ld l)) * vx (ld m)); [ring|]. rewrite Hx, Hy. ring.
    + apply (Rmult_eq_reg_l b); auto.
      transitivity (vx (ld l) * (b * vy (ld m)) - vy (ld l) * (b * vx (ld m))); [ring|]. rewrite <- Hx, <- Hy. ring.
Qed.
Lemma inter_R (l m : line R) : intersection l m =
  if Req_EM_T (det l m) 0 then Raise ParallelLineError
  else Ok (at_param m (((vy (ld l)) * (px (lo l) - px (lo m)) - (vx (ld l)) * (py (lo l) - py (lo m))) / (- det l m))).
Proof.
  unfold intersection, det. change (v_cross (ld l) (ld m)) with (vx (ld l) * vy (ld m) - vy (ld l) * vx (ld m)).
  change (@neqb R _ ?a ?b) with (Reqb a b). unfold Reqb at 1. change (nofZ 0) with 0.
  destruct (Req_EM_T (vx (ld l) * vy (ld m) - vy (ld l) * vx (ld m)) 0) as [E|N]; [reflexivity|].
  change (v_dot (v_normal (ld l)) (ld m)) with (vy (ld l) * vx (ld m) + - vx (ld l) * vy (ld m)).
  change (v_dot (v_normal (ld l)) (p_sub (lo l) (lo m))) with (vy (ld l) * (px (lo l) - px (lo m)) + - vx (ld l) * (py (lo l) - py (lo m))).
  rewrite pydiv_R by lra. cbn [bind]. f_equal.
  apply pnt_ext; unfold at_param, p_add, v_mul; cbn -[IZR]; f_equal; f_equal; field; lra.
Qed.
Lemma common_params (l m : line R) a b : at_param l a = at_param m b -> det l m <> 0 ->
  b = ((vy (ld l)) * (px (lo l) - px (lo m)) - (vx (ld l)) * (py (lo l) - py (lo m))) / (- det l m) /\
  a = ((vy (ld m)) * (px (lo m) - px (lo l)) - (vx (ld m)) * (py (lo m) - py (lo l))) / (det l m).
Proof.
  intros H D. unfold at_param in H. inversion H as [[Hx Hy]]. clear H.
  split.
  - apply (Rmult_eq_reg_r (- det l m)); [|lra]. unfold Rdiv. rewrite Rmult_assoc, Rinv_l, Rmult_1_r by lra. unfold det.
    apply (f_equal (Rmult (vy (ld l)))) in Hx. apply (f_equal (Rmult (vx (ld l)))) in Hy. lra.
  - apply (Rmult_eq_reg_r (det l m)); [|lra]. unfold Rdiv. rewrite Rmult_assoc, Rinv_l, Rmult_1_r by lra. unfold det.
    apply (f_equal (Rmult (vy (ld m)))) in Hx. apply (f_equal (Rmult (vx (ld m)))) in Hy. lra.
Qed.
Lemma params_common (l m : line R) : det l m <> 0 ->
  at_param l (((vy (ld m)) * (px (lo m) - px (lo l)) - (vx (ld m)) * (py (lo m) - py (lo l))) / (det l m)) =
  at_param m (((vy (ld l)) * (px (lo l) - px (lo m)) - (vx (ld l)) * (py (lo l) - py (lo m))) / (- det l m)).
Proof.
  intros D. apply pnt_ext; unfold at_param; cbn [px py]; unfold det in *; field; lra.
Qed.

Theorem C23_intersection (l m : line R) :
  (collinear (ld l) (ld m) -> intersection l m = Raise ParallelLineError) /\
  (~ collinear (ld l) (ld m) -> exists p, intersection l m = Ok p /\ on_line l p /\ on_line m p /\
     forall q, on_line l q -> on_line m q -> q = p).
Proof.
  rewrite <- det_collinear, inter_R. destruct (Req_EM_T (det l m) 0) as [E|N]; split; intros H; try contradiction; auto.
  eexists. split; [reflexivity|]. rewrite <- params_common at 1 by auto. split; [eexists; reflexivity|].
  split; [eexists; reflexivity|].
  intros q [a Ha] [b Hb]. destruct (common_params l m a b) as [<- _]; auto. congruence.
Qed.
Theorem C23_intersection_symmetric (l m : line R) : intersection l m = intersection m l.
Proof.
  destruct (C23_intersection l m) as [A B]. destruct (C23_intersection m l) as [C D].
  rewrite <- det_collinear in *. 
  assert (S : det l m = 0 <-> det m l = 0) by (unfold det; split; intros; lra).
  destruct (Req_dec (det l m) 0) as [E|N].
  - rewrite (A E). symmetry. apply C. tauto.
  - destruct (B N) as (p & Ep & P1 & P2 & U). destruct D as (q & Eq & Q1 & Q2 & U'); [tauto|].
    rewrite Ep, Eq. f_equal. auto.
Qed.
(* a line also "has no intersection" with itself: coincident lines raise too *)
Theorem C23_coincident (l : line R) : intersection l l = Raise ParallelLineError.
Proof. apply C23_intersection. exists 1, 1. split; [lra|]. split; ring. Qed.
(* parallel tells the same *)
Theorem C23_parallel (l m : line R) : parallel l m = true <-> collinear (ld l) (ld m).
Proof.
  rewrite <- det_collinear. unfold parallel. change (@neqb R _ ?a ?b) with (Reqb a b). rewrite Reqb_eq. reflexivity.
Qed.

(* ---------------------------------------------------------------- *)
(** ** C24 segment_intersection *)

Definition strictly_overlap (a b c d : R) : Prop := Rmin a b < Rmax c d /\ Rmin c d < Rmax a b.
(* the bounding boxes of the segments overlap *)
Definition boxes_overlap (s o : line R) : Prop :=
  strictly_overlap (px (at_param s 0)) (px (at_param s 1)) (px (at_param o 0)) (px (at_param o 1)) /\
  strictly_overlap (py (at_param s 0)) (py (at_param s 1)) (py (at_param o 0)) (py (at_param o 1)).

Lemma overlaps_R (s o : line R) : exists b, bbox_overlaps (segment_bbox s) (segment_bbox o) = Ok b /\
  (b = true <-> boxes_overlap s o).
Proof.
  unfold boxes_overlap, strictly_overlap, at_param. cbn [px py]. rewrite !Rmult_0_r, !Rplus_0_r, !Rmult_1_r.
  unfold segment_bbox, mkbbox, line_p2, bbox_overlaps, ngeb. rewrite !pymin_R, !pymax_R.
  unfold p_add. cbn [px py].
  match goal with |- context [if ?x then Ok false else Ok true] => exists (negb x); split; [destruct x; reflexivity|] end.
  change (@nleb R _) with Rleb. change (@nadd R _) with Rplus.
  rewrite Bool.negb_true_iff, !Bool.orb_false_iff, !Rleb_gt. tauto.
Qed.

Theorem C24_segment_intersection (s o : line R) :
  (~ boxes_overlap s o -> segment_intersection s o = Ok None) /\
  (boxes_overlap s o -> collinear (ld s) (ld o) -> segment_intersection s o = Raise ParallelLineError) /\
  (boxes_overlap s o -> ~ collinear (ld s) (ld o) ->
     (exists p a b, segment_intersection s o = Ok (Some (p, a, b)) /\
        0 <= a <= 1 /\ 0 <= b <= 1 /\ p = at_param s a /\ p = at_param o b) \/
     (segment_intersection s o = Ok None /\
        forall a b, 0 <= a <= 1 -> 0 <= b <= 1 -> at_param s a <> at_param o b)).
Proof.
  destruct (overlaps_R s o) as (ov & E & Hov). unfold segment_intersection. rewrite E. cbn [bind].
  rewrite <- det_collinear. pose proof (C23_parallel s o) as Hp. rewrite <- det_collinear in Hp.
  destruct ov; cbn [negb]; [|split; [reflexivity|split; intros; apply Hov in H; discriminate]].
  assert (B : boxes_overlap s o) by (apply Hov; reflexivity).
  split; [intros; contradiction|]. destruct (parallel s o).
  { split; [reflexivity|]. intros _ N. exfalso. apply N, Hp. reflexivity. }
  assert (D : det s o <> 0) by (intros C; apply Hp in C; discriminate).
  split; [intros; contradiction|]. intros _ _.
  change (v_dot (v_normal (ld s)) (ld o)) with (vy (ld s) * vx (ld o) + - vx (ld s) * vy (ld o)).
  change (v_dot (v_normal (ld o)) (ld s)) with (vy (ld o) * vx (ld s) + - vx (ld o) * vy (ld s)).
  change (v_dot (v_normal (ld s)) (p_sub (lo s) (lo o))) with (vy (ld s) * (px (lo s) - px (lo o)) + - vx (ld s) * (py (lo s) - py (lo o))).
  change (v_dot (v_normal (ld o)) (p_sub (lo o) (lo s))) with (vy (ld o) * (px (lo o) - px (lo s)) + - vx (ld o) * (py (lo o) - py (lo s))).
  unfold det in D. rewrite !pydiv_R by lra. cbn [bind].
  set (b := (vy (ld s) * (px (lo s) - px (lo o)) + _) / _).
  set (a := (vy (ld o) * (px (lo o) - px (lo s)) + _) / _).
  assert (Eb : b = ((vy (ld s)) * (px (lo s) - px (lo o)) - (vx (ld s)) * (py (lo s) - py (lo o))) / (- det s o))
    by (unfold b, det; field; lra).
  assert (Ea : a = ((vy (ld o)) * (px (lo o) - px (lo s)) - (vx (ld o)) * (py (lo o) - py (lo s))) / (det s o))
    by (unfold a, det; field; lra).
  assert (Com : at_param s a = at_param o b) by (rewrite Ea, Eb; apply params_common; auto).
  assert (Unq : forall a' b', at_param s a' = at_param o b' -> a' = a /\ b' = b).
  { intros a' b' H. destruct (common_params s o a' b' H D) as [H1 H2]. split; congruence. }
  clearbody a b. clear Ea Eb.
  change (@nltb R _) with Rltb. unfold ngtb. change (@nltb R _) with Rltb. change (nofZ 0) with 0. change (nofZ 1) with 1.
  destruct (Rltb b 0 || Rltb 1 b) eqn:Tb.
  { right. split; [reflexivity|]. intros a' b' Ha' Hb' H. destruct (Unq _ _ H) as [-> ->].
    apply Bool.orb_true_iff in Tb. rewrite !Rltb_lt in Tb. lra. }
  destruct (Rltb a 0 || Rltb 1 a) eqn:Ta.
  { right. split; [reflexivity|]. intros a' b' Ha' Hb' H. destruct (Unq _ _ H) as [-> ->].
    apply Bool.orb_true_iff in Ta. rewrite !Rltb_lt in Ta. lra. }
  apply Bool.orb_false_iff in Ta, Tb. rewrite !Rltb_ge in Ta, Tb.
  assert (Dz : v_length (p_sub (p_add (lo s) (v_mul (ld s) a)) (p_add (lo o) (v_mul (ld o) b))) = 0).
  { apply length_0. unfold at_param in Com. inversion Com. apply vec_ext; cbn -[IZR]; lra. }
  rewrite Dz. replace (Rltb 0 assert_delta) with true
    by (symmetry; apply Rltb_lt; unfold assert_delta; cbn -[IZR]; apply Rdiv_lt_0_compat; lra).
  left. exists (at_param o b), a, b. split; [reflexivity|]. repeat split; try lra; auto.
Qed.

(* in particular the assertion inside never fires *)
Theorem C24_no_assertion (s o : line R) (e : exn) : segment_intersection s o = Raise e -> e = ParallelLineError.
Proof.
  intros H. destruct (C24_segment_intersection s o) as (A & B & C).
  destruct (overlaps_R s o) as (ov & _ & Hov). destruct (Req_dec (det s o) 0) as [Z|Z]; destruct ov.
  - rewrite B in H; [congruence|tauto|apply det_collinear; auto].
  - rewrite A in H; [discriminate|]. intros X. apply Hov in X. discriminate.
  - destruct C as [(p & a & b & X & _)|[X _]]; try congruence; [tauto|]. rewrite <- det_collinear. auto.
  - rewrite A in H; [discriminate|]. intros X. apply Hov in X. discriminate.
Qed.

Lemma boxes_overlap_sym (s o : line R) : boxes_overlap s o <-> boxes_overlap o s.
Proof. unfold boxes_overlap, strictly_overlap. tauto. Qed.
Lemma collinear_sym v w : collinear v w <-> collinear w v.
Proof.
  split; intros (a & b & H & Hx & Hy); exists b, a; repeat split; auto; tauto.
Qed.
(* swapping the segments swaps the parameters *)
Theorem C24_symmetric (s o : line R) :
  segment_intersection o s =
  match segment_intersection s o with
  | Ok (Some (p, a, b)) => Ok (Some (p, b, a))
  | r => r
  end.
Proof.
  destruct (C24_segment_intersection s o) as (A & B & C).
  destruct (C24_segment_intersection o s) as (A' & B' & C').
  rewrite (boxes_overlap_sym o s), (collinear_sym (ld o)) in *.
  destruct (overlaps_R s o) as (ov & _ & Hov). destruct ov.
  2:{ assert (N : ~ boxes_overlap s o) by (intros X; apply Hov in X; discriminate). rewrite A, A'; auto. }
  assert (Ov : boxes_overlap s o) by (apply Hov; auto).
  destruct (Req_dec (det s o) 0) as [Z|Z].
  - apply det_collinear in Z. rewrite B, B'; auto.
  - assert (N : ~ collinear (ld s) (ld o)) by (rewrite <- det_collinear; auto).
    destruct (C Ov N) as [(p & a & b & -> & Ha & Hb & Pa & Pb)|[-> U]];
      destruct (C' Ov N) as [(p' & a' & b' & -> & Ha' & Hb' & Pa' & Pb')|[-> U']]; auto.
    + destruct (common_params s o a b) as [E1 E2]; [congruence|auto|].
      destruct (common_params s o b' a') as [E3 E4]; [congruence|auto|].
      assert (X1 : a' = b) by congruence. assert (X2 : b' = a) by congruence. clear E1 E2 E3 E4.
      rewrite X1, X2 in *. rewrite Pa', <- Pb. reflexivity.
    + exfalso. apply (U' b a); auto. congruence.
    + exfalso. apply (U b' a'); auto. congruence.
Qed.

(* Two segments that share an end point, and a T: the boxes only touch and nothing is reported. *)
Theorem C24_completeness_refuted :
  exists s o : line R, segment_intersection s o = Ok None /\ ~ collinear (ld s) (ld o) /\ at_param s 1 = at_param o 0.
Proof.
  exists (line_pts (P 0 0) (P 1 1)), (line_pts (P 1 1) (P 2 0)). split; [|split].
  - apply C24_segment_intersection. unfold boxes_overlap, strictly_overlap, at_param, line_pts, p_sub. cbn -[IZR].
    unfold Rmin, Rmax. repeat destruct (Rle_dec _ _); lra.
  - rewrite <- det_collinear. unfold det. cbn -[IZR]. lra.
  - apply pnt_ext; cbn -[IZR]; lra.
Qed.
Theorem C24_tee_refuted :
  exists s o : line R, segment_intersection s o = Ok None /\ ~ collinear (ld s) (ld o) /\ at_param s (1 / 2) = at_param o 0.
Proof.
  exists (line_pts (P 0 0) (P 2 0)), (line_pts (P 1 0) (P 1 1)). split; [|split].
  - apply C24_segment_intersection. unfold boxes_overlap, strictly_overlap, at_param, line_pts, p_sub. cbn -[IZR].
    unfold Rmin, Rmax. repeat destruct (Rle_dec _ _); lra.
  - rewrite <- det_collinear. unfold det. cbn -[IZR]. lra.
  - apply pnt_ext; cbn -[IZR]; lra.
Qed.

(* line through two points: the ends, the middle, translation *)
Theorem C24_ends (a b : pt R) (v : vec R) :
  line_p1 (line_pts a b) = a /\ line_p2 (line_pts a b) = b /\ line_mid (line_pts a b) = p_mid a b /\
  line_p1 (line_add (line_pts a b) v) = p_add a v /\ line_p2 (line_add (line_pts a b) v) = p_add b v /\
  line_sub (line_add (line_pts a b) v) v = line_pts a b.
Proof.
  destruct a, b, v. unfold line_sub, line_add, line_pts, line_mid, line_p1, line_p2.
  cbn [lo ld]. repeat split; try (apply pnt_ext; cbn -[IZR]; field).
  f_equal. apply pnt_ext; cbn -[IZR]; field.
Qed.

(* ---------------------------------------------------------------- *)
(** ** Examples *)
Example ex_line : ~ zero_dir (line_pts (P 0 0) (P 3 4)).
Proof. unfold zero_dir, line_pts, p_sub. cbn -[IZR]. lra. Qed.
(* two crossing diagonals *)
Example ex_crossing : boxes_overlap (line_pts (P 0 0) (P 2 2)) (line_pts (P 0 2) (P 2 0)) /\
  ~ collinear (ld (line_pts (P 0 0) (P 2 2))) (ld (line_pts (P 0 2) (P 2 0))).
Proof.
  split.
  - unfold boxes_overlap, strictly_overlap, at_param, line_pts, p_sub. cbn -[IZR].
    unfold Rmin, Rmax. repeat destruct (Rle_dec _ _); lra.
  - rewrite <- det_collinear. unfold det. cbn -[IZR]. lra.
Qed.
