(* Rounded rectangles over the real numbers: the control points in closed form. *)
Require Import Verif.Base Verif.NumR Verif.L_real Verif.M_vector Verif.M_bbox Verif.M_transform Verif.M_bezier Verif.M_colors Verif.M_elems.
Require Import Verif.L_ord Verif.L_vector Verif.S_bezier Verif.L_bezier Verif.P_bezier Verif.S_elems Verif.L_elems Verif.P_elems Verif.P_ellipse.
From Coq Require Import String Reals List Permutation Lia Lra.
Import ListNotations.
Local Open Scope string_scope.
Local Open Scope list_scope.
Local Open Scope R_scope.

Notation k90 := (@bez_90 R _ _).

(* one of the two control points of a corner: at distance r from it in direction (ux, uy) *)
Definition out_cp (b : pt R) (ux uy r m : R) : cpoint R :=
  CP (P (px b + ux * r) (py b + uy * r)) (V (ux * (k90 * m)) (uy * (k90 * m)))
     (V (- (ux * (k90 * r))) (- (uy * (k90 * r)))) "smooth".

Definition pt_add (b : pt R) (ux uy d : R) : pt R := P (px b + ux * d) (py b + uy * d).

Lemma side_vec b ux uy A : p_sub (pt_add b ux uy A) b = V (ux * A) (uy * A).
Proof. unfold p_sub, pt_add. cbn. f_equal; ring. Qed.

Lemma side_len ux uy A : ux * ux + uy * uy = 1 -> 0 <= A -> v_length (V (ux * A) (uy * A)) = A.
Proof.
  intros U HA. unfold v_length. cbn.
  replace (ux * A * (ux * A) + uy * A * (uy * A)) with (A * A * (ux * ux + uy * uy)) by ring.
  rewrite U, Rmult_1_r. apply sqrt_square. auto.
Qed.

Lemma side_dir ux uy A r : ux * ux + uy * uy = 1 -> 0 <= A -> (A = 0 -> r = 0) ->
  (if Reqb (A / 2) 0 then Ok (V 0 0)
   else let* u := v_unit (V (ux * A) (uy * A)) in Ok (v_mul u r)) = Ok (V (ux * r) (uy * r)).
Proof.
  intros U HA H0. destruct (Reqb (A / 2) 0) eqn:E.
  - apply Reqb_eq in E. rewrite H0 by lra. do 2 f_equal; ring.
  - apply Reqb_neq in E. rewrite unit_R, side_len by auto. destruct (Req_EM_T A 0); [lra|].
    cbn [bind]. unfold v_mul. cbn. do 2 f_equal; field; auto.
Qed.

Lemma scale_R a r : 0 <= r ->
  (if Reqb r 0 then Ok 0 else pydiv (Rmin (a - r) r) r) = Ok (if Req_EM_T r 0 then 0 else Rmin (a - r) r / r).
Proof.
  intros Hr. destruct (Req_EM_T r 0) as [-> | N].
  - rewrite Reqb_refl. reflexivity.
  - rewrite (proj2 (Reqb_neq r 0) N). rewrite pydiv_R by auto. reflexivity.
Qed.
Lemma scale_mul a r : 0 <= a -> 0 <= r -> r * (if Req_EM_T r 0 then 0 else Rmin (a - r) r / r) = Rmin (a - r) r.
Proof.
  intros Ha Hr. destruct (Req_EM_T r 0) as [-> | N].
  - rewrite Rmin_right by lra. ring.
  - field. auto.
Qed.

Lemma rr_corner_R radius b ux uy A wx wy C : 0 <= radius ->
  ux * ux + uy * uy = 1 -> 0 <= A -> wx * wx + wy * wy = 1 -> 0 <= C ->
  let r := Rmin (Rmin radius (A / 2)) (C / 2) in
  rr_corner radius (pt_add b ux uy A) b (pt_add b wx wy C) =
  Ok (out_cp b ux uy r (Rmin (A / 2 - r) r), cp_reversed (out_cp b wx wy r (Rmin (C / 2 - r) r)), true).
Proof.
  intros Hr U HA W HC r. unfold rr_corner. rewrite !side_vec. cbv zeta.
  rewrite !side_len by auto. rewrite !pymin_R.
  change (@nofZ R _) with IZR. change (@ndiv R _) with Rdiv. change (@neqb R _) with Reqb. change (@nleb R _) with Rleb.
  fold r.
  assert (R0 : 0 <= r) by (unfold r, Rmin; repeat destruct (Rle_dec _ _); lra).
  assert (RA : r <= A / 2) by (unfold r, Rmin; repeat destruct (Rle_dec _ _); lra).
  assert (RC : r <= C / 2) by (unfold r, Rmin; repeat destruct (Rle_dec _ _); lra).
  assert (RR : r <= radius) by (unfold r, Rmin; repeat destruct (Rle_dec _ _); lra).
  clearbody r.
  rewrite (side_dir ux uy A r), (side_dir wx wy C r) by (auto; lra).
  cbn [bind].
  change (@nsub R _) with Rminus.
  rewrite !scale_R by auto. cbn [bind].
  rewrite (proj2 (Rleb_le r radius) RR).
  unfold out_cp, cp_reversed, p_add, v_mul, v_neg. cbn [px py vx vy cc cdl cdr ckind].
  change (@nmul R _) with Rmult. change (@nneg R _) with Ropp. change (@nadd R _) with Rplus.
  rewrite <- (scale_mul (A / 2) r) at 1 2 by lra. rewrite <- (scale_mul (C / 2) r) at 1 2 by lra.
  repeat (f_equal; try ring).
Qed.

(* the eight control points before merging *)
Definition rr8 (p1 p2 : pt R) (sx sy r mw mh : R) : list (cpoint R) :=
  let q1 := P (px p1) (py p2) in let q2 := P (px p2) (py p1) in
  [ out_cp p1 sx 0 r mw; cp_reversed (out_cp p1 0 sy r mh);
    out_cp q1 0 (- sy) r mh; cp_reversed (out_cp q1 sx 0 r mw);
    out_cp p2 (- sx) 0 r mw; cp_reversed (out_cp p2 0 (- sy) r mh);
    out_cp q2 0 sy r mh; cp_reversed (out_cp q2 (- sx) 0 r mw) ].

Lemma towards_abs a b : b - a = towards a b * Rabs (b - a) /\ towards a b * towards a b = 1.
Proof.
  unfold towards. destruct (Rle_dec a b).
  - rewrite Rabs_right by lra. lra.
  - rewrite Rabs_left by lra. lra.
Qed.

Lemma rr_corners_R radius p1 p2 : 0 <= radius ->
  let w := Rabs (px p2 - px p1) in let h := Rabs (py p2 - py p1) in
  let r := Rmin radius (Rmin (w / 2) (h / 2)) in
  rr_corners radius (iter_rotate3m1 (corners p1 p2)) =
  Ok (rr8 p1 p2 (towards (px p1) (px p2)) (towards (py p1) (py p2)) r (Rmin (w / 2 - r) r) (Rmin (h / 2 - r) r), true).
Proof.
  intros Hr w h r.
  destruct (towards_abs (px p1) (px p2)) as [Ex Sx]. destruct (towards_abs (py p1) (py p2)) as [Ey Sy].
  set (sx := towards (px p1) (px p2)) in *. set (sy := towards (py p1) (py p2)) in *.
  fold w in Ex. fold h in Ey.
  assert (Hw : 0 <= w) by apply Rabs_pos. assert (Hh : 0 <= h) by apply Rabs_pos.
  clearbody sx sy w h.
  destruct p1 as [x1 y1], p2 as [x2 y2]. cbn [px py] in *.
  change (iter_rotate3m1 (corners (P x1 y1) (P x2 y2))) with
    [(P x2 y1, P x1 y1, P x1 y2); (P x1 y1, P x1 y2, P x2 y2); (P x1 y2, P x2 y2, P x2 y1); (P x2 y2, P x2 y1, P x1 y1)].
  assert (M1 : forall a b, Rmin (Rmin radius a) b = Rmin radius (Rmin a b)) by (intros; symmetry; apply Rmin_assoc).
  assert (C0 : rr_corner radius (P x2 y1) (P x1 y1) (P x1 y2) =
     Ok (out_cp (P x1 y1) sx 0 r (Rmin (w / 2 - r) r), cp_reversed (out_cp (P x1 y1) 0 sy r (Rmin (h / 2 - r) r)), true)).
  { pose proof (rr_corner_R radius (P x1 y1) sx 0 w 0 sy h Hr ltac:(lra) Hw ltac:(lra) Hh) as E. cbv zeta in E.
    rewrite M1 in E. fold r in E. rewrite <- E. unfold pt_add. cbn [px py]. f_equal; f_equal; lra. }
  assert (C1 : rr_corner radius (P x1 y1) (P x1 y2) (P x2 y2) =
     Ok (out_cp (P x1 y2) 0 (-sy) r (Rmin (h / 2 - r) r), cp_reversed (out_cp (P x1 y2) sx 0 r (Rmin (w / 2 - r) r)), true)).
  { pose proof (rr_corner_R radius (P x1 y2) 0 (-sy) h sx 0 w Hr ltac:(lra) Hh ltac:(lra) Hw) as E. cbv zeta in E.
    rewrite M1, (Rmin_comm (h / 2)) in E. fold r in E. rewrite <- E. unfold pt_add. cbn [px py]. f_equal; f_equal; lra. }
  assert (C2 : rr_corner radius (P x1 y2) (P x2 y2) (P x2 y1) =
     Ok (out_cp (P x2 y2) (-sx) 0 r (Rmin (w / 2 - r) r), cp_reversed (out_cp (P x2 y2) 0 (-sy) r (Rmin (h / 2 - r) r)), true)).
  { pose proof (rr_corner_R radius (P x2 y2) (-sx) 0 w 0 (-sy) h Hr ltac:(lra) Hw ltac:(lra) Hh) as E. cbv zeta in E.
    rewrite M1 in E. fold r in E. rewrite <- E. unfold pt_add. cbn [px py]. f_equal; f_equal; lra. }
  assert (C3 : rr_corner radius (P x2 y2) (P x2 y1) (P x1 y1) =
     Ok (out_cp (P x2 y1) 0 sy r (Rmin (h / 2 - r) r), cp_reversed (out_cp (P x2 y1) (-sx) 0 r (Rmin (w / 2 - r) r)), true)).
  { pose proof (rr_corner_R radius (P x2 y1) 0 sy h (-sx) 0 w Hr ltac:(lra) Hh ltac:(lra) Hw) as E. cbv zeta in E.
    rewrite M1, (Rmin_comm (h / 2)) in E. fold r in E. rewrite <- E. unfold pt_add. cbn [px py]. f_equal; f_equal; lra. }
  cbn [rr_corners]. rewrite C0, C1, C2, C3. reflexivity.
Qed.

(* ------------------------------------------------------------------ *)
(** * Merging *)

Definition merge (cps : list (cpoint R)) : list (cpoint R) :=
  let (cps, out) := rr_merge cps (iter_rotate3 (seq 0 (List.length cps))) [] in
  flat_map (fun i => match nth_error cps i with Some c => [c] | None => [] end) out.

Lemma make_rr_merge radius p1 p2 : 0 <= radius ->
  let w := Rabs (px p2 - px p1) in let h := Rabs (py p2 - py p1) in
  let r := Rmin radius (Rmin (w / 2) (h / 2)) in
  make_rounded_rect_cps p1 p2 radius =
  Ok (merge (rr8 p1 p2 (towards (px p1) (px p2)) (towards (py p1) (py p2)) r (Rmin (w / 2 - r) r) (Rmin (h / 2 - r) r))).
Proof.
  intros Hr w h r. unfold make_rounded_rect_cps, merge. rewrite rr_corners_R by auto. cbn [bind].
  fold w h r. destruct (rr_merge _ _ _). reflexivity.
Qed.

(* the control point two coinciding ones are merged into *)
Definition glue (b c : cpoint R) : cpoint R := CP (cc b) (cdl b) (cdr c) (ckind b).

Definition differ (a b : cpoint R) : Prop := cc a <> cc b.
Definition agree (a b : cpoint R) : Prop := cc a = cc b.
Lemma p_eqb_R (p q : pt R) : p_eqb p q = true <-> p = q.
Proof.
  unfold p_eqb. cbn. rewrite Bool.andb_true_iff, !Reqb_eq. destruct p as [a b], q as [c d]; cbn. split.
  - intros [-> ->]. reflexivity.
  - intros H. injection H as -> ->. auto.
Qed.
Lemma differ_eqb a b : differ a b -> p_eqb (cc a) (cc b) = false /\ p_eqb (cc b) (cc a) = false.
Proof.
  unfold differ. intros H. split; apply Bool.not_true_is_false; rewrite p_eqb_R; congruence.
Qed.
Lemma agree_eqb a b : agree a b -> p_eqb (cc a) (cc b) = true /\ p_eqb (cc b) (cc a) = true.
Proof. unfold agree. intros H. split; rewrite p_eqb_R; congruence. Qed.

Ltac eqbs :=
  repeat match goal with
  | H : differ _ _ |- _ => apply differ_eqb in H; destruct H
  | H : agree _ _ |- _ => apply agree_eqb in H; destruct H
  end.
Lemma merge_step cps todo out ia ib ic a b c e :
  nth_error cps ia = Some a -> nth_error cps ib = Some b -> nth_error cps ic = Some c ->
  (p_eqb (cc b) (cc c) = true /\ e = 1%nat \/
   p_eqb (cc b) (cc c) = false /\ p_eqb (cc b) (cc a) = true /\ e = 2%nat \/
   p_eqb (cc b) (cc c) = false /\ p_eqb (cc b) (cc a) = false /\ e = 3%nat) ->
  rr_merge cps ((ia, ib, ic) :: todo) out =
  match e with
  | 1 => rr_merge (set_nth ib (glue b c) cps) todo (out ++ [ib])
  | 2 => rr_merge cps todo out
  | _ => rr_merge cps todo (out ++ [ib])
  end.
Proof.
  intros Ha Hb Hc H. cbn [rr_merge]. rewrite Ha, Hb, Hc.
  destruct H as [[-> ->]|[(-> & -> & ->)|(-> & -> & ->)]]; reflexivity.
Qed.
Ltac mstep_ e tac := erewrite (merge_step _ _ _ _ _ _ _ _ _ e); [|reflexivity|reflexivity|reflexivity|tac].
Ltac mstep :=
  first [ mstep_ 1%nat ltac:(left; split; [cbn [cc glue]; eassumption|reflexivity])
        | mstep_ 2%nat ltac:(right; left; split; [cbn [cc glue]; eassumption|split; [cbn [cc glue]; eassumption|reflexivity]])
        | mstep_ 3%nat ltac:(right; right; split; [cbn [cc glue]; eassumption|split; [cbn [cc glue]; eassumption|reflexivity]]) ];
  cbn [set_nth app].
Ltac mergecalc :=
  intros; eqbs; unfold merge;
  change (iter_rotate3 (seq 0 (List.length _))) with
    [(0, 1, 2); (1, 2, 3); (2, 3, 4); (3, 4, 5); (4, 5, 6); (5, 6, 7); (6, 7, 0); (7, 0, 1)]%nat;
  do 8 mstep; reflexivity.

(* no two neighbours coincide *)
Lemma merge_none (a0 b0 a1 b1 a2 b2 a3 b3 : cpoint R) : differ a0 b0 -> differ b0 a1 -> differ a1 b1 -> differ b1 a2 ->
  differ a2 b2 -> differ b2 a3 -> differ a3 b3 -> differ b3 a0 ->
  merge [a0; b0; a1; b1; a2; b2; a3; b3] = [b0; a1; b1; a2; b2; a3; b3; a0].
Proof. mergecalc. Qed.
(* the y sides vanish *)
Lemma merge_h (a0 b0 a1 b1 a2 b2 a3 b3 : cpoint R) : differ a0 b0 -> agree b0 a1 -> differ a1 b1 -> differ b1 a2 ->
  differ a2 b2 -> agree b2 a3 -> differ a3 b3 -> differ b3 a0 ->
  merge [a0; b0; a1; b1; a2; b2; a3; b3] = [glue b0 a1; b1; a2; glue b2 a3; b3; a0].
Proof. mergecalc. Qed.
(* the x sides vanish *)
Lemma merge_w (a0 b0 a1 b1 a2 b2 a3 b3 : cpoint R) : differ a0 b0 -> differ b0 a1 -> differ a1 b1 -> agree b1 a2 ->
  differ a2 b2 -> differ b2 a3 -> differ a3 b3 -> agree b3 a0 ->
  merge [a0; b0; a1; b1; a2; b2; a3; b3] = [b0; a1; glue b1 a2; b2; a3; glue b3 a0].
Proof. mergecalc. Qed.
(* all sides vanish *)
Lemma merge_wh (a0 b0 a1 b1 a2 b2 a3 b3 : cpoint R) : differ a0 b0 -> agree b0 a1 -> differ a1 b1 -> agree b1 a2 ->
  differ a2 b2 -> agree b2 a3 -> differ a3 b3 -> agree b3 a0 ->
  merge [a0; b0; a1; b1; a2; b2; a3; b3] = [glue b0 a1; glue b1 a2; glue b2 a3; glue b3 a0].
Proof. mergecalc. Qed.
(* the corners are not rounded *)
Lemma merge_corners (a0 b0 a1 b1 a2 b2 a3 b3 : cpoint R) : agree a0 b0 -> differ b0 a1 -> agree a1 b1 -> differ b1 a2 ->
  agree a2 b2 -> differ b2 a3 -> agree a3 b3 -> differ b3 a0 ->
  merge [a0; b0; a1; b1; a2; b2; a3; b3] = [glue a1 b1; glue a2 b2; glue a3 b3; glue a0 b0].
Proof. mergecalc. Qed.
