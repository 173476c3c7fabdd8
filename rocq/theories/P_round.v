(* Property theorems C76: rounding of points, vectors, boxes and control points. *)
Require Import Verif.L_real Verif.M_vector Verif.M_bbox Verif.M_points Verif.S_points Verif.L_points Verif.M_bezier Verif.M_draw Verif.M_round Verif.S_round Verif.S_bbox.
From Coq Require Import List Lia Lra Reals ZArith String.
Import ListNotations.
Local Open Scope list_scope.
Local Open Scope R_scope.

Lemma pyround_half (x : R) : Rabs (IZR (pyround x) - x) <= 1 / 2 /\
  (Rabs (IZR (pyround x) - x) = 1 / 2 -> Z.even (pyround x) = true).
Proof.
  unfold pyround. change (@nfloor R _) with Int_part. change (nofZ (Int_part x)) with (IZR (Int_part x)).
  set (n := Int_part x). destruct (base_Int_part x) as [A B]. fold n in A, B.
  change (x - IZR n)%num with (x - IZR n). change (#1 / #2)%num with (1 / 2).
  change (nltb (x - IZR n) (1 / 2)) with (Rltb (x - IZR n) (1 / 2)). change (nltb (1 / 2) (x - IZR n)) with (Rltb (1 / 2) (x - IZR n)).
  clearbody n.
  destruct (Rltb (x - IZR n) (1 / 2)) eqn:C1.
  - apply Rltb_lt in C1. rewrite Rabs_left1 by lra. split; [lra|]. intros Q. lra.
  - apply Rltb_ge in C1. destruct (Rltb (1 / 2) (x - IZR n)) eqn:C2.
    + apply Rltb_lt in C2. rewrite plus_IZR, Rabs_right by lra. split; [lra|]. intros Q. lra.
    + apply Rltb_ge in C2. destruct (Z.even n) eqn:Ev.
      * rewrite Rabs_left1 by lra. split; [lra|auto].
      * rewrite plus_IZR, Rabs_right by lra. split; [lra|]. intros _. rewrite Z.even_add, Ev. reflexivity.
Qed.

Lemma unit_pos n : 0 < unit_n n.
Proof. unfold unit_n. apply powerRZ_lt. lra. Qed.

Lemma pow10_IZR (k : Z) : (0 <= k)%Z -> IZR (10 ^ k) = powerRZ 10 k.
Proof.
  intros H. destruct k as [|p|p]; [reflexivity| |lia].
  unfold powerRZ. rewrite <- (positive_nat_Z p) at 1. rewrite <- pow_IZR. reflexivity.
Qed.

Lemma round_eq n (x : R) : round_n n x = IZR (pyround (x / unit_n n)) * unit_n n.
Proof.
  unfold round_n, unit_n. destruct (0 <=? n)%Z eqn:E.
  - apply Z.leb_le in E.
    change (IZR (pyround (x * IZR (10 ^ n))) / IZR (10 ^ n) = IZR (pyround (x / powerRZ 10 (- n))) * powerRZ 10 (- n)).
    rewrite (pow10_IZR n E), powerRZ_neg'.
    assert (powerRZ 10 n <> 0) by (apply powerRZ_NOR; lra).
    replace (x / / powerRZ 10 n) with (x * powerRZ 10 n) by (field; auto). reflexivity.
  - apply Z.leb_gt in E.
    change (IZR (pyround (x / IZR (10 ^ (- n)))) * IZR (10 ^ (- n)) = IZR (pyround (x / powerRZ 10 (- n))) * powerRZ 10 (- n)).
    rewrite pow10_IZR by lia. reflexivity.
Qed.

Lemma near_half (k m : Z) (x : R) : Rabs (IZR k - x) <= 1 / 2 -> Rabs (IZR k - x) <= Rabs (IZR m - x).
Proof.
  intros H. destruct (Z.eq_dec k m) as [->|N]; [lra|].
  assert (1 <= Rabs (IZR k - IZR m)) as A.
  { rewrite <- minus_IZR, <- abs_IZR. apply IZR_le. lia. }
  assert (Rabs (IZR k - IZR m) <= Rabs (IZR k - x) + Rabs (IZR m - x)) as B.
  { replace (IZR k - IZR m) with ((IZR k - x) - (IZR m - x)) by ring.
    eapply Rle_trans; [apply Rabs_triang|]. rewrite Rabs_Ropp. lra. }
  lra.
Qed.
Lemma near_tie (k m : Z) (x : R) : Rabs (IZR k - x) <= 1 / 2 -> k <> m -> Rabs (IZR m - x) = Rabs (IZR k - x) ->
  Rabs (IZR k - x) = 1 / 2 /\ (m = k + 1 \/ m = k - 1)%Z.
Proof.
  intros H N E.
  assert (1 <= Rabs (IZR k - IZR m)) as A.
  { rewrite <- minus_IZR, <- abs_IZR. apply IZR_le. lia. }
  assert (Rabs (IZR k - IZR m) <= Rabs (IZR k - x) + Rabs (IZR m - x)) as B.
  { replace (IZR k - IZR m) with ((IZR k - x) - (IZR m - x)) by ring.
    eapply Rle_trans; [apply Rabs_triang|]. rewrite Rabs_Ropp. lra. }
  split; [lra|]. assert (Rabs (IZR k - IZR m) <= 1) as C by lra.
  rewrite <- minus_IZR, <- abs_IZR in C. apply le_IZR in C. lia.
Qed.
Lemma scale_abs n (k x : R) : Rabs (k * unit_n n - x) = unit_n n * Rabs (k - x / unit_n n).
Proof.
  pose proof (unit_pos n). replace (k * unit_n n - x) with (unit_n n * (k - x / unit_n n)) by (field; lra).
  rewrite Rabs_mult, (Rabs_right (unit_n n)) by lra. reflexivity.
Qed.

(* round gives the nearest multiple of the unit, the even one if there are two *)
Theorem C76_nearest (n : Z) (x : R) : rounds_to n x (round_n n x) /\ Rabs (round_n n x - x) <= unit_n n / 2.
Proof.
  rewrite round_eq. destruct (pyround_half (x / unit_n n)) as [A B]. pose proof (unit_pos n) as U. split.
  - exists (pyround (x / unit_n n)). split; [reflexivity|]. split.
    + intros g [m ->]. rewrite !scale_abs. apply Rmult_le_compat_l; [lra|]. apply near_half, A.
    + intros (g & [m ->] & Ng & E). rewrite !scale_abs in E. apply Rmult_eq_reg_l in E; [|lra].
      apply B. refine (proj1 (near_tie _ m _ A _ E)). intros Q. apply Ng. rewrite <- Q. reflexivity.
  - rewrite scale_abs. replace (unit_n n / 2) with (unit_n n * (1 / 2)) by lra.
    apply Rmult_le_compat_l; lra.
Qed.
(* ... and there is only one such number: the specification fixes the result *)
Theorem C76_unique (n : Z) (x y : R) : rounds_to n x y -> y = round_n n x.
Proof.
  intros (k & -> & A & B). destruct (C76_nearest n x) as [(m & E & C & D) _]. rewrite E in *.
  pose proof (unit_pos n) as U.
  destruct (Z.eq_dec k m) as [->|N]; [reflexivity|]. exfalso.
  assert (Rabs (IZR k * unit_n n - x) = Rabs (IZR m * unit_n n - x)) as Q.
  { apply Rle_antisym; [apply A|apply C]; eexists; reflexivity. }
  assert (IZR k * unit_n n <> IZR m * unit_n n) as Nk.
  { intros H. apply Rmult_eq_reg_r in H; [|lra]. apply eq_IZR in H. auto. }
  assert (Z.even k = true) by (apply B; exists (IZR m * unit_n n); repeat split; [eexists; reflexivity|auto|auto]).
  assert (Z.even m = true) by (apply D; exists (IZR k * unit_n n); repeat split; [eexists; reflexivity|auto|auto]).
  rewrite !scale_abs in Q. apply Rmult_eq_reg_l in Q; [|lra].
  assert (Rabs (IZR m - x / unit_n n) <= 1 / 2) as M2.
  { pose proof (C76_nearest n x) as [_ G]. rewrite E, scale_abs in G.
    apply Rmult_le_reg_l with (unit_n n); lra. }
  destruct (near_tie m k _ M2 ltac:(auto) Q) as [_ [->| ->]].
  - rewrite Z.even_add in *. destruct (Z.even m); discriminate.
  - rewrite Z.even_sub in *. destruct (Z.even m); discriminate.
Qed.
(* numbers on the grid, and only those, stay as they are; rounding twice is rounding once *)
Theorem C76_fixed_points (n : Z) (x : R) : round_n n x = x <-> on_grid n x.
Proof.
  split.
  - intros E. rewrite <- E, round_eq. eexists; reflexivity.
  - intros [k E]. symmetry. apply C76_unique. exists k. split; [exact E|]. split.
    + intros g _. replace (x - x) with 0 by ring. rewrite Rabs_R0. apply Rabs_pos.
    + intros (g & _ & Ng & Q). replace (x - x) with 0 in Q by ring. rewrite Rabs_R0 in Q.
      exfalso. apply Ng. apply Rminus_diag_uniq. destruct (Req_dec (g - x) 0) as [|Nz]; [auto|].
      apply Rabs_no_R0 in Nz. contradiction.
Qed.
Theorem C76_idempotent (n : Z) (x : R) : round_n n (round_n n x) = round_n n x.
Proof. apply C76_fixed_points. rewrite round_eq. eexists; reflexivity. Qed.
(* rounding keeps the order and the sign *)
Theorem C76_monotone (n : Z) (x y : R) : x <= y -> round_n n x <= round_n n y.
Proof.
  intros H. destruct (C76_nearest n x) as [(k & Ek & A & _) _]. destruct (C76_nearest n y) as [(m & Em & B & _) _].
  destruct (Rle_lt_dec (round_n n x) (round_n n y)) as [|L]; [auto|].
  assert (G1 : on_grid n (round_n n y)) by (eexists; exact Em).
  assert (G2 : on_grid n (round_n n x)) by (eexists; exact Ek).
  specialize (A _ G1). specialize (B _ G2). set (a := round_n n x) in *. set (b := round_n n y) in *.
  assert (x = y \/ x < y) as [->|Hl] by lra; [unfold a, b in L; lra|]. exfalso.
  assert (a + b <= 2 * x \/ 2 * x < a + b) as [C|C] by lra.
  - (* then x is at least as near to a, so y is nearer to a than to b *)
    assert (Rabs (a - y) < Rabs (b - y)); [|lra].
    rewrite (Rabs_left1 (b - y)) by lra. apply Rabs_def1; lra.
  - assert (Rabs (b - x) < Rabs (a - x)); [|lra].
    rewrite (Rabs_right (a - x)) by lra. apply Rabs_def1; lra.
Qed.
Theorem C76_odd (n : Z) (x : R) : round_n n (- x) = - round_n n x.
Proof.
  symmetry. apply C76_unique. destruct (C76_nearest n x) as [(k & E & A & B) _].
  exists (- k)%Z. split; [rewrite E, opp_IZR; ring|]. split.
  - intros g [m ->]. replace (- round_n n x - - x) with (- (round_n n x - x)) by ring.
    replace (IZR m * unit_n n - - x) with (- ((IZR (- m) * unit_n n) - x)) by (rewrite opp_IZR; ring).
    rewrite !Rabs_Ropp. apply A. eexists; reflexivity.
  - intros (g & [m ->] & Ng & Q). rewrite Z.even_opp. apply B. exists (IZR (- m) * unit_n n).
    split; [eexists; reflexivity|]. rewrite opp_IZR. split.
    + intros H. apply Ng. rewrite <- H. ring.
    + replace (- IZR m * unit_n n - x) with (- (IZR m * unit_n n - - x)) by ring.
      replace (round_n n x - x) with (- (- round_n n x - - x)) by ring. rewrite !Rabs_Ropp. exact Q.
Qed.
(* rounding does not commute with moving by the unit: halves go to the even neighbour *)
Theorem C76_shift_refuted : exists x : R, round_n 0 (x + 1) <> round_n 0 x + 1.
Proof.
  exists (1 / 2). assert (round_n 0 (1 / 2) = 0) as ->.
  { symmetry. apply C76_unique. exists 0%Z. unfold unit_n. cbn. split; [lra|]. split; [|auto].
    intros g [k ->]. unfold unit_n. cbn [Z.opp powerRZ]. rewrite Rmult_1_r.
    replace (0 - 1 / 2) with (- (1 / 2)) by lra. rewrite Rabs_Ropp, Rabs_right by lra.
    destruct (Z_lt_le_dec 0 k) as [L|L].
    - assert (1 <= IZR k) by (apply IZR_le; lia). rewrite Rabs_right; lra.
    - assert (IZR k <= 0) by (apply IZR_le; lia). rewrite Rabs_left1; lra. }
  assert (round_n 0 (1 / 2 + 1) = 2) as ->; [|lra].
  symmetry. apply C76_unique. exists 2%Z. unfold unit_n. cbn. split; [lra|]. split; [|auto].
  intros g [k ->]. unfold unit_n. cbn [Z.opp powerRZ]. rewrite Rmult_1_r.
  replace (2 - (1 / 2 + 1)) with (1 / 2) by lra. rewrite (Rabs_right (1 / 2)) by lra.
  destruct (Z_lt_le_dec 1 k) as [L|L].
  - assert (2 <= IZR k) by (apply IZR_le; lia). rewrite Rabs_right; lra.
  - assert (IZR k <= 1) by (apply IZR_le; lia). rewrite Rabs_left1; lra.
Qed.

(* ------------------------------------------------------------------ *)
(** ** points and vectors *)

(* round of any point of a program: a new, plain point at the rounded position; nothing else changes.
   A plain point passes its name on, the others prefix it as fixed() does. *)
Theorem C76_point (n : Z) (st : pstore R) (i : nat) (p : pt R) : reachable st -> located st i p ->
  exists st' j nm, point_round n st i = (st', Ok j) /\
    nth_error st' j = Some (NPoint (round_n n (px p)) (round_n n (py p)) nm) /\
    (forall k d, nth_error st k = Some d -> nth_error st' k = Some d) /\ (List.length st <= j)%nat /\
    (forall x y m, nth_error st i = Some (NPoint x y m) -> nm = m) /\
    (forall d, nth_error st i = Some d -> (forall x y m, d <> NPoint x y m) ->
       nm = match node_name d with
            | Some s => if String.eqb s "" then None else Some ("fixed_" ++ s)%string
            | None => None
            end).
Proof.
  intros Re L. assert (Q := proj2 (pos_located _ (reachable_wf _ Re) i p) L).
  unfold point_round. destruct (nth_error st i) as [d|] eqn:E; [|inversion L; congruence].
  assert (keep : forall (l : pstore R) k x, nth_error st k = Some x -> nth_error (st ++ l) k = Some x).
  { intros l k x H. rewrite nth_error_app1; [auto|]. apply nth_error_Some. congruence. }
  assert (last : forall (l : pstore R) x, nth_error (l ++ [x]) (List.length l) = Some x).
  { intros l x. rewrite nth_error_app2, Nat.sub_diag by lia. reflexivity. }
  assert (forall nm, nm = (if has_name (node_name d) then Some ("fixed_" ++ match node_name d with Some s => s | None => "" end)%string else None) ->
            nm = match node_name d with Some s => if String.eqb s "" then None else Some ("fixed_" ++ s)%string | None => None end) as NM.
  { intros nm ->. destruct (node_name d) as [s|]; cbn; auto. destruct (String.eqb s ""); reflexivity. }
  destruct d as [x y m|dx dy b m|b s m].
  - inversion L; try congruence. subst. rewrite E in H. injection H; intros; subst. cbn [px py].
    do 3 eexists. split; [reflexivity|]. split; [apply last|]. split; [intros; apply keep; auto|]. split; [lia|].
    split; [intros; congruence|]. intros d Hd Nd. exfalso. injection Hd; intros <-. exact (Nd _ _ _ eq_refl).
  - cbn [pstep]. rewrite E, Q, last. do 3 eexists. split; [reflexivity|]. split; [apply last|].
    split; [intros; rewrite <- app_assoc; apply keep; auto|]. split; [rewrite app_length; lia|].
    split; [intros; congruence|]. intros d Hd _. injection Hd; intros; subst. apply NM. reflexivity.
  - cbn [pstep]. rewrite E, Q, last. do 3 eexists. split; [reflexivity|]. split; [apply last|].
    split; [intros; rewrite <- app_assoc; apply keep; auto|]. split; [rewrite app_length; lia|].
    split; [intros; congruence|]. intros d Hd _. injection Hd; intros; subst. apply NM. reflexivity.
Qed.

(* both coordinates of vectors and points are rounded *)
Theorem C76_vector (n : Z) (v : vec R) :
  rounds_to n (vx v) (vx (v_round n v)) /\ rounds_to n (vy v) (vy (v_round n v)).
Proof. split; apply C76_nearest. Qed.

(* the rounded form of a difference of points: the difference of the rounded points, less than a unit and a bit away *)
Theorem C76_relative_vector (n : Z) (st : pstore R) (v : vrel) (p q : pt R) : reachable st ->
  located st (vr_p1 v) p -> located st (vr_p2 v) q ->
  exists st' w, vrel_round n st v = (st', Ok w) /\
    vr_xy st' w = Ok (V (round_n n (px p) - round_n n (px q)) (round_n n (py p) - round_n n (py q))) /\
    Rabs (round_n n (px p) - round_n n (px q) - (px p - px q)) <= unit_n n /\
    Rabs (round_n n (py p) - round_n n (py q) - (py p - py q)) <= unit_n n /\
    on_grid n (round_n n (px p) - round_n n (px q)) /\ on_grid n (round_n n (py p) - round_n n (py q)) /\
    (* it is made of new plain points, so that it does not follow the points of v any more *)
    (List.length st <= vr_p1 w)%nat /\ (List.length st <= vr_p2 w)%nat /\
    (exists x y m, nth_error st' (vr_p1 w) = Some (NPoint x y m)) /\
    (exists x y m, nth_error st' (vr_p2 w) = Some (NPoint x y m)).
Proof.
  intros Re Lp Lq. destruct (C76_point n st (vr_p1 v) p Re Lp) as (st1 & i & nm1 & E1 & N1 & K1 & G1 & _).
  unfold vrel_round. rewrite E1.
  (* the second point is still where it was *)
  assert (wf1 : reachable st1).
  { destruct Re as [ops ->]. unfold point_round in E1.
    destruct (nth_error (prun ops []) (vr_p1 v)) as [[x y m|dx dy b m|b s m]|] eqn:E; [| | |discriminate].
    - injection E1; intros _ <-. exists (ops ++ [PNew (round_n n x) (round_n n y) m]).
      unfold prun. rewrite fold_left_app. reflexivity.
    - destruct (pstep (prun ops []) (PFixed (vr_p1 v))) as [s1 [j|]] eqn:E'; [|discriminate].
      destruct (nth_error s1 j) as [[x y m'|? ? ? ?|? ? ?]|]; try discriminate. injection E1; intros _ <-.
      exists (ops ++ [PFixed (vr_p1 v); PNew (round_n n x) (round_n n y) m']).
      unfold prun. rewrite fold_left_app. cbn [fold_left]. fold (prun ops []). rewrite E'. reflexivity.
    - destruct (pstep (prun ops []) (PFixed (vr_p1 v))) as [s1 [j|]] eqn:E'; [|discriminate].
      destruct (nth_error s1 j) as [[x y m'|? ? ? ?|? ? ?]|]; try discriminate. injection E1; intros _ <-.
      exists (ops ++ [PFixed (vr_p1 v); PNew (round_n n x) (round_n n y) m']).
      unfold prun. rewrite fold_left_app. cbn [fold_left]. fold (prun ops []). rewrite E'. reflexivity. }
  assert (Lq' : located st1 (vr_p2 v) q).
  { clear - K1 Lq. induction Lq.
    - eapply loc_point; eauto.
    - eapply loc_rel; eauto.
    - eapply loc_calc; eauto. }
  destruct (C76_point n st1 (vr_p2 v) q wf1 Lq') as (st2 & j & nm2 & E2 & N2 & K2 & G2 & _).
  rewrite E2. cbn [bind]. exists st2, (VR i j). split; [reflexivity|].
  assert (QA : M_points.pos st2 i = Ok (P (round_n n (px p)) (round_n n (py p)))).
  { unfold M_points.pos. cbn [xy]. rewrite (K2 _ _ N1). reflexivity. }
  assert (QB : M_points.pos st2 j = Ok (P (round_n n (px q)) (round_n n (py q)))).
  { unfold M_points.pos. cbn [xy]. rewrite N2. reflexivity. }
  unfold vr_xy. cbn [vr_p1 vr_p2]. rewrite QA, QB. split; [reflexivity|].
  assert (D : forall a b : R, Rabs (round_n n a - round_n n b - (a - b)) <= unit_n n).
  { intros a b. destruct (C76_nearest n a) as [_ A]. destruct (C76_nearest n b) as [_ B].
    replace (round_n n a - round_n n b - (a - b)) with ((round_n n a - a) - (round_n n b - b)) by ring.
    eapply Rle_trans; [apply Rabs_triang|]. rewrite Rabs_Ropp. lra. }
  assert (Gd : forall a b : R, on_grid n (round_n n a - round_n n b)).
  { intros a b. rewrite !round_eq. eexists. rewrite <- Rmult_minus_distr_r, <- minus_IZR. reflexivity. }
  split; [apply D|]. split; [apply D|]. split; [apply Gd|]. split; [apply Gd|].
  assert (List.length st <= List.length st1)%nat.
  { destruct (Nat.le_gt_cases (List.length st) (List.length st1)) as [|W]; [auto|]. exfalso.
    assert (i < List.length st1)%nat by (apply nth_error_Some; congruence). lia. }
  cbn [vr_p1 vr_p2]. split; [lia|]. split; [lia|]. split; do 3 eexists; [apply K2, N1|exact N2].
Qed.
(* it is not the rounded difference: both points may be rounded the wrong way *)
Theorem C76_relative_vector_refuted : exists (st : pstore R) (v : vrel) (st' : pstore R) (w : vrel) (a b : vec R),
  reachable st /\ vrel_round 0 st v = (st', Ok w) /\ vr_xy st v = Ok a /\ vr_xy st' w = Ok b /\
  ~ rounds_to 0 (vx a) (vx b).
Proof.
  set (st := [NPoint (6 / 10) 0 None; NPoint (14 / 10) 0 None] : pstore R).
  assert (Re : reachable st) by (exists [PNew (6 / 10) 0 None; PNew (14 / 10) 0 None]; reflexivity).
  assert (K : forall (k : Z) (x : R), Rabs (IZR k - x) < 1 / 2 -> round_n 0 x = IZR k).
  { intros k x H. symmetry. apply C76_unique. exists k. unfold unit_n. cbn [Z.opp powerRZ]. split; [lra|]. split.
    - intros g [m ->]. unfold unit_n. cbn [Z.opp powerRZ]. rewrite Rmult_1_r. apply near_half. lra.
    - intros (g & [m ->] & Ng & Q). unfold unit_n in *. cbn [Z.opp powerRZ] in *. rewrite Rmult_1_r in *.
      assert (k <> m) as Nk by (intros ->; auto).
      destruct (near_tie k m x ltac:(lra) Nk Q). lra. }
  exists st, (VR 1 0), (st ++ [NPoint (round_n 0 (14 / 10)) (round_n 0 0) None] ++ [NPoint (round_n 0 (6 / 10)) (round_n 0 0) None]),
    (VR 2 3), (V (14 / 10 - 6 / 10) (0 - 0)), (V (round_n 0 (14 / 10) - round_n 0 (6 / 10)) (round_n 0 0 - round_n 0 0)).
  split; [exact Re|]. split; [reflexivity|]. split; [reflexivity|]. split; [reflexivity|].
  intros H. apply C76_unique in H. cbn [vx] in H.
  rewrite (K 1%Z (14 / 10)) in H by (apply Rabs_def1; lra). rewrite (K 1%Z (6 / 10)) in H by (apply Rabs_def1; lra).
  rewrite (K 1%Z (14 / 10 - 6 / 10)) in H by (apply Rabs_def1; lra). lra.
Qed.

(* ------------------------------------------------------------------ *)
(** ** boxes and control points *)

(* the rounded box is the box of the rounded corners; it contains the rounded form of every point of
   the box, and is at most half a unit smaller or larger on each side *)
Theorem C76_box (n : Z) (xl yl xh yh : R) : xl <= xh -> yl <= yh ->
  bbox_round n (BB xl yl xh yh) = Ok (BB (round_n n xl) (round_n n yl) (round_n n xh) (round_n n yh)) /\
  round_n n xl <= round_n n xh /\ round_n n yl <= round_n n yh /\
  (forall p, xl <= px p <= xh -> yl <= py p <= yh ->
     round_n n xl <= px (p_round n p) <= round_n n xh /\ round_n n yl <= py (p_round n p) <= round_n n yh) /\
  Rabs (round_n n xl - xl) <= unit_n n / 2 /\ Rabs (round_n n xh - xh) <= unit_n n / 2 /\
  Rabs (round_n n yl - yl) <= unit_n n / 2 /\ Rabs (round_n n yh - yh) <= unit_n n / 2.
Proof.
  intros Hx Hy. assert (Mx := C76_monotone n _ _ Hx). assert (My := C76_monotone n _ _ Hy).
  split; [|split; [auto|split; [auto|split]]].
  - cbn [bbox_round]. unfold mkbbox, pymin, pymax. f_equal.
    assert (L : forall a b : R, a <= b -> nltb b a = false) by (intros; apply Rltb_ge; auto).
    rewrite !(L _ _ Mx), !(L _ _ My).
    repeat (match goal with |- context [if nltb ?a ?b then _ else _] => destruct (nltb a b) eqn:? end); f_equal;
      repeat match goal with H : nltb _ _ = _ |- _ => first [apply Rltb_lt in H | apply Rltb_ge in H] end; lra.
  - intros p Px Py. cbn [p_round px py]. repeat split; apply C76_monotone; lra.
  - repeat split; apply C76_nearest.
Qed.
(* only BBox(None) cannot be rounded *)
Theorem C76_box_fails (n : Z) (b : bbox R) (e : exn) : bbox_round n b = Raise e <-> b = BNone /\ e = TypeError.
Proof. destruct b; cbn; split; try discriminate; [intros H; injection H; auto|intros [_ ->]; auto|intros [? _]; discriminate]. Qed.

(* the centre and the two handles of a control point are rounded, the kind is kept; the ends of the
   handles stay on the grid and move by at most one unit *)
Theorem C76_control_point (n : Z) (c : cpoint R) : let r := cp_round n c in
  rounds_to n (px (cc c)) (px (cc r)) /\ rounds_to n (py (cc c)) (py (cc r)) /\
  rounds_to n (vx (cdl c)) (vx (cdl r)) /\ rounds_to n (vy (cdl c)) (vy (cdl r)) /\
  rounds_to n (vx (cdr c)) (vx (cdr r)) /\ rounds_to n (vy (cdr c)) (vy (cdr r)) /\ ckind r = ckind c /\
  (forall h, In h [cp_l; cp_r] -> on_grid n (px (h r)) /\ on_grid n (py (h r)) /\
     Rabs (px (h r) - px (h c)) <= unit_n n /\ Rabs (py (h r) - py (h c)) <= unit_n n).
Proof.
  cbv zeta. do 6 (split; [apply C76_nearest|]). split; [reflexivity|].
  assert (D : forall a b : R, Rabs (round_n n a + round_n n b - (a + b)) <= unit_n n).
  { intros a b. destruct (C76_nearest n a) as [_ A]. destruct (C76_nearest n b) as [_ B].
    replace (round_n n a + round_n n b - (a + b)) with ((round_n n a - a) + (round_n n b - b)) by ring.
    eapply Rle_trans; [apply Rabs_triang|]. lra. }
  assert (Gd : forall a b : R, on_grid n (round_n n a + round_n n b)).
  { intros a b. rewrite !round_eq. eexists. rewrite <- Rmult_plus_distr_r, <- plus_IZR. reflexivity. }
  intros h [<-|[<-|[]]]; (split; [apply Gd|]; split; [apply Gd|]; split; apply D).
Qed.
(* handles that point in opposite directions still do: a smooth point with equal handles stays one *)
Theorem C76_control_point_mirror (n : Z) (c : cpoint R) : cdl c = v_neg (cdr c) -> cdl (cp_round n c) = v_neg (cdr (cp_round n c)).
Proof.
  intros H. unfold cp_round. cbn [cdl cdr]. rewrite H. unfold v_round, v_neg. cbn [vx vy].
  change (V (round_n n (- vx (cdr c))) (round_n n (- vy (cdr c))) = V (- round_n n (vx (cdr c))) (- round_n n (vy (cdr c)))).
  rewrite !C76_odd. reflexivity.
Qed.

(* hypotheses are met: a relative point, and a box that is not on the grid *)
Example C76_reachable : let st := [NPoint 1 2 (Some "a"%string); NRel (1 / 3) (1 / 3) 0 (Some "b"%string)] : pstore R in
  reachable st /\ located st 1 (P (1 / 3 + 1) (1 / 3 + 2)).
Proof.
  cbv zeta. split.
  - exists [PNew 1 2 (Some "a"%string); PRel (1 / 3) (1 / 3) 0%nat (Some "b"%string)]. reflexivity.
  - match goal with |- located ?st _ _ =>
      exact (loc_rel st 1 (1 / 3) (1 / 3) 0 _ (P 1 2) eq_refl (loc_point st 0 1 2 _ eq_refl)) end.
Qed.
