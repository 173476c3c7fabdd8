(* C42: the control points of rounded rectangles. *)
Require Import Verif.Base Verif.NumR Verif.L_real Verif.M_vector Verif.M_bbox Verif.M_transform Verif.M_bezier Verif.M_colors Verif.M_elems.
Require Import Verif.L_ord Verif.S_bbox Verif.L_bbox Verif.L_vector Verif.S_bezier Verif.L_bezier Verif.P_bezier Verif.S_elems Verif.L_elems Verif.P_elems Verif.P_ellipse Verif.L_rrect.
From Coq Require Import String Reals List Permutation Lia Lra.
Import ListNotations.
Local Open Scope string_scope.
Local Open Scope list_scope.
Local Open Scope R_scope.

Lemma towards_pm a b : towards a b = 1 \/ towards a b = -1.
Proof. unfold towards. destruct (Rle_dec a b); auto. Qed.

(* width, height and effective radius *)
Definition rr_w (p1 p2 : pt R) := Rabs (px p2 - px p1).
Definition rr_h (p1 p2 : pt R) := Rabs (py p2 - py p1).
Definition rr_r (p1 p2 : pt R) (radius : R) := Rmin radius (Rmin (rr_w p1 p2 / 2) (rr_h p1 p2 / 2)).

(* the result, case by case, from the eight unmerged points *)
Definition rr_out (r w h : R) (l : list (cpoint R)) : list (cpoint R) :=
  match l with
  | [a0; b0; a1; b1; a2; b2; a3; b3] =>
      if Req_EM_T r 0 then [glue a1 b1; glue a2 b2; glue a3 b3; glue a0 b0]
      else if Req_EM_T (2 * r) w then
        if Req_EM_T (2 * r) h then [glue b0 a1; glue b1 a2; glue b2 a3; glue b3 a0]
        else [b0; a1; glue b1 a2; b2; a3; glue b3 a0]
      else if Req_EM_T (2 * r) h then [glue b0 a1; b1; a2; glue b2 a3; b3; a0]
      else [b0; a1; b1; a2; b2; a3; b3; a0]
  | _ => []
  end.

Lemma rr_r_bounds p1 p2 radius : 0 <= radius ->
  0 <= rr_r p1 p2 radius /\ rr_r p1 p2 radius <= radius /\ 2 * rr_r p1 p2 radius <= rr_w p1 p2 /\ 2 * rr_r p1 p2 radius <= rr_h p1 p2.
Proof.
  intros H. unfold rr_r. assert (0 <= rr_w p1 p2) by apply Rabs_pos. assert (0 <= rr_h p1 p2) by apply Rabs_pos.
  unfold Rmin. repeat destruct (Rle_dec _ _); lra.
Qed.

Ltac centres := unfold differ, agree, out_cp, cp_reversed; cbn [cc px py]; first [intros Q; pose proof (f_equal px Q) as Q1; pose proof (f_equal py Q) as Q2; cbn [px py] in Q1, Q2; lra | f_equal; lra].

Lemma rr_cases p1 p2 radius : 0 <= radius -> px p1 <> px p2 -> py p1 <> py p2 ->
  let sx := towards (px p1) (px p2) in let sy := towards (py p1) (py p2) in
  let w := rr_w p1 p2 in let h := rr_h p1 p2 in let r := rr_r p1 p2 radius in
  make_rounded_rect_cps p1 p2 radius =
  Ok (rr_out r w h (rr8 p1 p2 sx sy r (Rmin (w / 2 - r) r) (Rmin (h / 2 - r) r))).
Proof.
  intros Hr Nx Ny sx sy w h r. etransitivity; [apply make_rr_merge; auto|].
  change (Ok (merge (rr8 p1 p2 sx sy r (Rmin (w / 2 - r) r) (Rmin (h / 2 - r) r)))
          = Ok (rr_out r w h (rr8 p1 p2 sx sy r (Rmin (w / 2 - r) r) (Rmin (h / 2 - r) r)))).
  destruct (rr_r_bounds p1 p2 radius Hr) as (R0 & R1 & R2 & R3). fold r w h in R0, R1, R2, R3.
  destruct (towards_abs (px p1) (px p2)) as [Ex _]. destruct (towards_abs (py p1) (py p2)) as [Ey _].
  fold (rr_w p1 p2) in Ex. fold (rr_h p1 p2) in Ey. fold sx w in Ex. fold sy h in Ey.
  assert (Sx : sx = 1 \/ sx = -1) by apply towards_pm. assert (Sy : sy = 1 \/ sy = -1) by apply towards_pm.
  assert (Hw : 0 < w) by (apply Rabs_pos_lt; lra). assert (Hh : 0 < h) by (apply Rabs_pos_lt; lra).
  clearbody w h r sx sy. f_equal. unfold rr8, rr_out.
  destruct (Req_EM_T r 0) as [Z|Z].
  { apply merge_corners; destruct Sx, Sy; subst sx sy; centres. }
  destruct (Req_EM_T (2 * r) w), (Req_EM_T (2 * r) h).
  - apply merge_wh; destruct Sx, Sy; subst sx sy; centres.
  - apply merge_w; destruct Sx, Sy; subst sx sy; centres.
  - apply merge_h; destruct Sx, Sy; subst sx sy; centres.
  - apply merge_none; destruct Sx, Sy; subst sx sy; centres.
Qed.

(* ------------------------------------------------------------------ *)
(** ** C42 *)

(* the number of points, and where they are: no two alike, and exactly the eight points at
   distance r from the corners along the sides, where r is the radius clipped to half of the
   shorter side *)
Theorem C42_points : forall (p1 p2 : pt R) (radius : R),
  0 <= radius -> px p1 <> px p2 -> py p1 <> py p2 ->
  let w := Rabs (px p2 - px p1) in let h := Rabs (py p2 - py p1) in
  let r := Rmin radius (Rmin (w / 2) (h / 2)) in
  exists cps, make_rounded_rect_cps p1 p2 radius = Ok cps /\
    NoDup (map cc cps) /\ (forall q, In q (map cc cps) <-> In q (corner_points p1 p2 r)) /\
    (0 < radius -> 2 * radius < w -> 2 * radius < h ->
       List.length cps = 8%nat /\ Permutation (map cc cps) (corner_points p1 p2 radius)) /\
    (radius = 0 -> List.length cps = 4%nat) /\
    (Rmin w h <= 2 * radius -> w <> h -> List.length cps = 6%nat) /\
    (Rmin w h <= 2 * radius -> w = h -> List.length cps = 4%nat) /\
    Forall (fun c => ckind c = "smooth") cps.
Proof.
  intros p1 p2 radius Hr Nx Ny w h r. eexists. split; [apply rr_cases; auto|].
  fold (rr_w p1 p2) (rr_h p1 p2) in w, h. fold w h. unfold r. clear r. fold (rr_r p1 p2 radius). unfold rr_r. fold w h.
  set (r := Rmin radius (Rmin (w / 2) (h / 2))).
  destruct (rr_r_bounds p1 p2 radius Hr) as (R0 & R1 & R2 & R3). unfold rr_r in R0, R1, R2, R3. fold w h in R0, R1, R2, R3.
  fold r in R0, R1, R2, R3.
  assert (Hw : 0 < w) by (apply Rabs_pos_lt; lra). assert (Hh : 0 < h) by (apply Rabs_pos_lt; lra).
  assert (Rr : 2 * radius <= w -> 2 * radius <= h -> r = radius).
  { intros. unfold r. apply Rmin_left. unfold Rmin. destruct (Rle_dec _ _); lra. }
  assert (Rm : Rmin w h <= 2 * radius -> 2 * r = Rmin w h).
  { unfold r, Rmin. repeat destruct (Rle_dec _ _); lra. }
  unfold corner_points.
  destruct (towards_abs (px p1) (px p2)) as [Ex _]. destruct (towards_abs (py p1) (py p2)) as [Ey _].
  fold (rr_w p1 p2) in Ex. fold (rr_h p1 p2) in Ey. fold w in Ex. fold h in Ey.
  pose proof (towards_pm (px p1) (px p2)) as Sx. pose proof (towards_pm (py p1) (py p2)) as Sy.
  set (sx := towards (px p1) (px p2)) in *. set (sy := towards (py p1) (py p2)) in *.
  clearbody w h r sx sy. clear Nx Ny. destruct p1 as [x1 y1], p2 as [x2 y2]. cbn [px py] in *.
  assert (X2 : x2 = x1 + sx * w) by lra. assert (Y2 : y2 = y1 + sy * h) by lra. clear Ex Ey. subst x2 y2.
  unfold rr8, rr_out.
  assert (IN : forall A B : list (pt R), (forall q, In q A -> In q B) -> (forall q, In q B -> In q A) -> forall q, In q A <-> In q B)
    by (intros; split; auto).
  destruct (Req_EM_T r 0) as [Z|Z]; [|destruct (Req_EM_T (2 * r) w) as [Zw|Zw], (Req_EM_T (2 * r) h) as [Zh|Zh]];
  unfold glue, out_cp, cp_reversed; cbn [map cc px py ckind List.length];
  (split; [repeat constructor; cbn [In];
           (let K := fresh in intros K; repeat (destruct K as [K|K]; [pose proof (f_equal px K) as K1; pose proof (f_equal py K) as K2; cbn [px py] in K1, K2; destruct Sx, Sy; subst sx sy; lra|]); exact K)
          |split; [apply IN; intros q K; cbn [In] in K |- *;
                   repeat match type of K with _ \/ _ => destruct K as [K|K] | False => destruct K end; subst q
                  |split; [intros H1 H2 H3|split; [intros H1|split; [intros H1 H2|split; [intros H1 H2|repeat constructor]]]]]]).
  all: try reflexivity.
  all: try (exfalso; first [lra | rewrite Rm in * by auto; unfold Rmin in *; repeat destruct (Rle_dec _ _); lra
                            | rewrite Rr in * by lra; lra
                            | specialize (Rm H1); unfold Rmin in *; repeat destruct (Rle_dec _ _); lra]; fail).
  all: match goal with
       | |- _ \/ _ => destruct Sx, Sy; subst sx sy; repeat first [left; f_equal; lra | right]
       | |- _ => idtac
       end.
  split; [reflexivity|]. rewrite Rr by lra.
  eapply perm_trans; [|apply Permutation_sym, Permutation_cons_append]. cbn [app].
  match goal with |- Permutation ?a ?b => replace a with b; [apply Permutation_refl|] end.
  repeat (f_equal; try lra).
Qed.

(* the corners themselves when the radius is zero, with no handles *)
Theorem C42_square : forall (p1 p2 : pt R), px p1 <> px p2 -> py p1 <> py p2 ->
  make_rounded_rect_cps p1 p2 0 =
  Ok (map (fun p => CP p (V 0 0) (V 0 0) "smooth")
        [P (px p1) (py p2); p2; P (px p2) (py p1); p1]).
Proof.
  intros p1 p2 Nx Ny. rewrite rr_cases by (auto; lra).
  assert (Z : rr_r p1 p2 0 = 0).
  { destruct (rr_r_bounds p1 p2 0) as (A & B & _); lra. }
  rewrite Z. unfold rr8, rr_out. destruct (Req_EM_T 0 0); [|lra].
  unfold glue, out_cp, cp_reversed. cbn [map cc cdl cdr ckind px py].
  assert (M : forall x, 0 <= x -> Rmin (x - 0) 0 = 0) by (intros; apply Rmin_right; lra).
  rewrite !M by (pose proof (Rabs_pos (px p2 - px p1)); pose proof (Rabs_pos (py p2 - py p1)); unfold rr_w, rr_h; lra).
  destruct p1 as [x1 y1], p2 as [x2 y2]. cbn [px py].
  repeat (f_equal; try lra).
Qed.

(* a radius of more than half of the shorter side is the same as half of it *)
Theorem C42_clipped : forall (p1 p2 : pt R) (radius : R),
  let lim := Rmin (Rabs (px p2 - px p1)) (Rabs (py p2 - py p1)) / 2 in
  lim <= radius -> make_rounded_rect_cps p1 p2 radius = make_rounded_rect_cps p1 p2 lim.
Proof.
  intros p1 p2 radius lim H.
  pose proof (Rabs_pos (px p2 - px p1)) as A. pose proof (Rabs_pos (py p2 - py p1)) as B.
  assert (L : 0 <= lim) by (unfold lim, Rmin; destruct (Rle_dec _ _); lra).
  rewrite !make_rr_merge by lra.
  assert (E : Rmin (Rabs (px p2 - px p1) / 2) (Rabs (py p2 - py p1) / 2) = lim).
  { unfold lim, Rmin. repeat destruct (Rle_dec _ _); lra. }
  rewrite !E. rewrite (Rmin_right radius lim) by lra. rewrite (Rmin_right lim lim) by lra. reflexivity.
Qed.

(* merging keeps any property of the handles that two coinciding points share *)
Lemma rr_merge_Forall (Q : cpoint R -> Prop) :
  (forall b c, Q b -> Q c -> cc b = cc c -> Q (glue b c)) ->
  forall todo cps out cps' out', Forall Q cps -> rr_merge cps todo out = (cps', out') -> Forall Q cps'.
Proof.
  intros HQ. induction todo as [|[[ia ib] ic] todo IH]; intros cps out cps' out' H E; cbn [rr_merge] in E.
  - injection E as <- <-. auto.
  - destruct (nth_error cps ia) as [a|] eqn:Ea, (nth_error cps ib) as [b|] eqn:Eb, (nth_error cps ic) as [c|] eqn:Ec;
    try (injection E as <- <-; auto; fail).
    destruct (p_eqb (cc b) (cc c)) eqn:Q1.
    + eapply IH; [|exact E]. apply p_eqb_R in Q1. clear IH E.
      apply nth_error_In in Eb. apply nth_error_In in Ec. rewrite Forall_forall in H.
      assert (G : Q (glue b c)) by (apply HQ; auto).
      assert (Fl : forall l i, (forall x, In x l -> Q x) -> Forall Q (set_nth i (glue b c) l)).
      { induction l as [|x l IH]; intros i Hl; [destruct i; constructor|]. destruct i; cbn [set_nth]; constructor; auto.
        - rewrite Forall_forall. intros; apply Hl; cbn; auto.
        - apply Hl. now left.
        - apply IH. intros; apply Hl. now right. }
      apply Fl. exact H.
    + destruct (p_eqb (cc b) (cc a)); eapply IH; eauto.
Qed.
Lemma merge_Forall (Q : cpoint R -> Prop) l :
  (forall b c, Q b -> Q c -> cc b = cc c -> Q (glue b c)) -> Forall Q l -> Forall Q (merge l).
Proof.
  intros HQ H. unfold merge. destruct (rr_merge l _ _) as [cps out] eqn:E.
  apply (rr_merge_Forall Q HQ) in E; auto. rewrite Forall_forall in *. intros x Hx.
  apply in_flat_map in Hx. destruct Hx as (i & _ & Hx). destruct (nth_error cps i) as [c|] eqn:Ei; [|destruct Hx].
  destruct Hx as [<-|[]]. apply E. eapply nth_error_In; eauto.
Qed.

Lemma within_ends a w s u v : (s = 1 \/ s = -1) -> 0 <= w -> u = a + s * v -> 0 <= v <= w -> within a (a + s * w) u.
Proof. intros [-> | ->] Hw -> Hv; unfold within, Rmin, Rmax; destruct (Rle_dec _ _); lra. Qed.

(* every point, every handle, and so the whole curve, is in the rectangle; the rectangle may be a
   line or a point here *)
Theorem C42_in_rect : forall (p1 p2 : pt R) (radius : R), 0 <= radius ->
  exists cps : list (cpoint R), make_rounded_rect_cps p1 p2 radius = Ok cps /\
    (forall s, In s cps -> in_rect p1 p2 (cc s) /\ in_rect p1 p2 (left_of s) /\ in_rect p1 p2 (right_of s)) /\
    (forall q, on_path cps true q -> in_rect p1 p2 q).
Proof.
  intros p1 p2 radius Hr. eexists. split; [apply make_rr_merge; auto|].
  destruct (rr_r_bounds p1 p2 radius Hr) as (R0 & R1 & R2 & R3).
  destruct (towards_abs (px p1) (px p2)) as [Ex _]. destruct (towards_abs (py p1) (py p2)) as [Ey _].
  pose proof (towards_pm (px p1) (px p2)) as Sx. pose proof (towards_pm (py p1) (py p2)) as Sy.
  pose proof (Rabs_pos (px p2 - px p1)) as Hw. pose proof (Rabs_pos (py p2 - py p1)) as Hh.
  change (Rmin radius _) with (rr_r p1 p2 radius). unfold rr_w, rr_h in R2, R3.
  set (w := Rabs (px p2 - px p1)) in *. set (h := Rabs (py p2 - py p1)) in *. set (r := rr_r p1 p2 radius) in *.
  set (sx := towards (px p1) (px p2)) in *. set (sy := towards (py p1) (py p2)) in *.
  clearbody w h r sx sy. clear R1.
  assert (MW : 0 <= Rmin (w / 2 - r) r <= w / 2 - r) by (unfold Rmin; destruct (Rle_dec _ _); lra).
  assert (MH : 0 <= Rmin (h / 2 - r) r <= h / 2 - r) by (unfold Rmin; destruct (Rle_dec _ _); lra).
  set (mw := Rmin (w / 2 - r) r) in *. set (mh := Rmin (h / 2 - r) r) in *. clearbody mw mh.
  destruct p1 as [x1 y1], p2 as [x2 y2]. cbn [px py] in *.
  assert (X2 : x2 = x1 + sx * w) by lra. assert (Y2 : y2 = y1 + sy * h) by lra. clear Ex Ey. subst x2 y2.
  set (p1 := P x1 y1). set (p2 := P (x1 + sx * w) (y1 + sy * h)).
  pose proof bez_90_facts as [_ K].
  set (Q := fun s : cpoint R => in_rect p1 p2 (cc s) /\ in_rect p1 p2 (left_of s) /\ in_rect p1 p2 (right_of s)).
  assert (A : Forall Q (merge (rr8 p1 p2 sx sy r mw mh))).
  { apply merge_Forall.
    - intros b c (B1 & B2 & B3) (C1 & C2 & C3) E. split; [exact B1|]. split; [exact B2|].
      unfold right_of, glue. cbn [cc cdr]. rewrite E. exact C3.
    - unfold rr8, out_cp, cp_reversed. set (k := k90) in *.
      assert (Kr : 0 <= k * r <= r) by nra. assert (Kw : 0 <= k * mw <= mw) by nra. assert (Kh : 0 <= k * mh <= mh) by nra.
      set (kr := k * r) in *. set (kw := k * mw) in *. set (kh := k * mh) in *. clearbody kr kw kh. clear K k.
      assert (X : forall v u, u = x1 + sx * v -> 0 <= v <= w -> within x1 (x1 + sx * w) u)
        by (intros; eapply within_ends; eauto).
      assert (Y : forall v u, u = y1 + sy * v -> 0 <= v <= h -> within y1 (y1 + sy * h) u)
        by (intros; eapply within_ends; eauto).
      assert (XX : forall u, (u = x1 + sx * 0 \/ u = x1 + sx * w \/ u = x1 + sx * r \/ u = x1 + sx * (w - r) \/
         u = x1 + sx * (r + kw) \/ u = x1 + sx * (r - kr) \/ u = x1 + sx * (w - r - kw) \/ u = x1 + sx * (w - r + kr)) ->
         within x1 (x1 + sx * w) u).
      { intros u [U|[U|[U|[U|[U|[U|[U|U]]]]]]]; eapply X; try exact U; lra. }
      assert (YY : forall u, (u = y1 + sy * 0 \/ u = y1 + sy * h \/ u = y1 + sy * r \/ u = y1 + sy * (h - r) \/
         u = y1 + sy * (r + kh) \/ u = y1 + sy * (r - kr) \/ u = y1 + sy * (h - r - kh) \/ u = y1 + sy * (h - r + kr)) ->
         within y1 (y1 + sy * h) u).
      { intros u [U|[U|[U|[U|[U|[U|[U|U]]]]]]]; eapply Y; try exact U; lra. }
      repeat (apply Forall_cons; [|]); [..|apply Forall_nil];
      unfold Q, in_rect, left_of, right_of, p1, p2; cbn [px py cc cdl cdr vx vy];
      (split; [|split]); (split; [apply XX|apply YY]);
      repeat first [left; ring | right]; ring. }
  rewrite Forall_forall in A. split; [exact A|].
  intros q (s & e & t & H & Ht & ->). apply in_path in H. destruct H as [Hs He].
  destruct (A s Hs) as (A1 & _ & A3). destruct (A e He) as (B1 & B2 & _).
  assert (G : holds (bbox_of_pts p1 p2) (segment s e t)).
  { unfold segment. apply box_convex; auto using good_of_pts; unfold holds; apply of_pts_in; auto. }
  unfold holds in G. apply of_pts_in in G. exact G.
Qed.

Lemma seg_x s e c t : px (cc s) = c -> vx (cdr s) = 0 -> vx (cdl e) = 0 -> px (cc e) = c -> px (segment s e t) = c.
Proof.
  intros A B C D. unfold segment, cubic, cubic1, right_of, left_of. cbn [px]. rewrite A, B, C, D. ring.
Qed.
Lemma seg_y s e c t : py (cc s) = c -> vy (cdr s) = 0 -> vy (cdl e) = 0 -> py (cc e) = c -> py (segment s e t) = c.
Proof.
  intros A B C D. unfold segment, cubic, cubic1, right_of, left_of. cbn [py]. rewrite A, B, C, D. ring.
Qed.

(* a quarter circle, as in C41 *)
Definition arc_bulge (t : R) : R := 1 + 2 * (3 - 2 * sqrt 2) ^ 2 * (t * (1 - t) * (1 - 2 * t)) ^ 2.
Lemma arc_core a b t : let k := @bez_90 R _ _ in
  (cubic1 a a (k * a) 0 t) ^ 2 + (cubic1 0 (k * b) b b t) ^ 2 = a ^ 2 * arc_bulge t + (b ^ 2 - a ^ 2) * (cubic1 0 k 1 1 t) ^ 2.
Proof.
  intros k. unfold arc_bulge.
  assert (Q : sqrt 2 * sqrt 2 = 2) by (apply sqrt_sqrt; lra).
  assert (K : 9 * k * k + 24 * k - 16 = 0) by (pose proof bez_90_facts as [K _]; fold k in K; lra).
  assert (S2 : 3 - 2 * sqrt 2 = (2 - 3 * k) / 2) by (unfold k; rewrite bez_90_R; field).
  rewrite S2. clearbody k.
  transitivity (a ^ 2 * (1 + 2 * ((2 - 3 * k) / 2) ^ 2 * (t * (1 - t) * (1 - 2 * t)) ^ 2)
                + (b ^ 2 - a ^ 2) * cubic1 0 k 1 1 t ^ 2
                + a ^ 2 * (9 * k * k + 24 * k - 16) * ((t * (1 - t)) ^ 2 / 2)).
  - unfold cubic1. field.
  - rewrite K. ring.
Qed.
Lemma arc_X k s e cx cy a b r t : k = @bez_90 R _ _ -> r <> 0 -> a ^ 2 = r ^ 2 -> b ^ 2 = r ^ 2 ->
  cc s = P (cx + a) cy -> cdr s = V 0 (k * b) -> cdl e = V (k * a) 0 -> cc e = P cx (cy + b) ->
  ellipse_level (P cx cy) r r (segment s e t) = arc_bulge t.
Proof.
  intros Ek Hr Ha Hb A B C D. pose proof (arc_core a b t) as E. cbv zeta in E. rewrite <- Ek in E. rewrite Ha, Hb in E.
  unfold ellipse_level, segment, right_of, left_of. rewrite A, B, C, D. cbn [px py vx vy cubic].
  clear Ek.
  replace (cubic1 (cx + a) (cx + a + 0) (cx + k * a) cx t - cx) with (cubic1 a a (k * a) 0 t) by (unfold cubic1; ring).
  replace (cubic1 cy (cy + k * b) (cy + b + 0) (cy + b) t - cy) with (cubic1 0 (k * b) b b t) by (unfold cubic1; ring).
  replace (arc_bulge t) with ((cubic1 a a (k * a) 0 t ^ 2 + cubic1 0 (k * b) b b t ^ 2) / r ^ 2)
    by (rewrite E; field; auto).
  field. auto.
Qed.
Lemma arc_Y k s e cx cy a b r t : k = @bez_90 R _ _ -> r <> 0 -> a ^ 2 = r ^ 2 -> b ^ 2 = r ^ 2 ->
  cc s = P cx (cy + b) -> cdr s = V (k * a) 0 -> cdl e = V 0 (k * b) -> cc e = P (cx + a) cy ->
  ellipse_level (P cx cy) r r (segment s e t) = arc_bulge t.
Proof.
  intros Ek Hr Ha Hb A B C D. pose proof (arc_core b a t) as E. cbv zeta in E. rewrite <- Ek in E. rewrite Ha, Hb in E.
  unfold ellipse_level, segment, right_of, left_of. rewrite A, B, C, D. cbn [px py vx vy cubic].
  clear Ek.
  replace (cubic1 (cy + b) (cy + b + 0) (cy + k * b) cy t - cy) with (cubic1 b b (k * b) 0 t) by (unfold cubic1; ring).
  replace (cubic1 cx (cx + k * a) (cx + a + 0) (cx + a) t - cx) with (cubic1 0 (k * a) a a t) by (unfold cubic1; ring).
  replace (arc_bulge t) with ((cubic1 b b (k * b) 0 t ^ 2 + cubic1 0 (k * a) a a t ^ 2) / r ^ 2)
    by (rewrite E; field; auto).
  field. auto.
Qed.

(* the outline: every piece between two control points runs along one of the sides, or rounds one
   of the corners with the same small bulge as the ellipses of C41, about the point at distance r
   from both sides of that corner *)
Theorem C42_outline : forall (p1 p2 : pt R) (radius : R) (cps : list (cpoint R)) (s e : cpoint R),
  0 <= radius -> px p1 <> px p2 -> py p1 <> py p2 ->
  let r := Rmin radius (Rmin (Rabs (px p2 - px p1) / 2) (Rabs (py p2 - py p1) / 2)) in
  let sx := towards (px p1) (px p2) in let sy := towards (py p1) (py p2) in
  make_rounded_rect_cps p1 p2 radius = Ok cps -> In (s, e) (path_segments cps true) ->
  (exists x, (x = px p1 \/ x = px p2) /\ forall t, px (segment s e t) = x) \/
  (exists y, (y = py p1 \/ y = py p2) /\ forall t, py (segment s e t) = y) \/
  (exists c, In c [ P (px p1 + sx * r) (py p1 + sy * r); P (px p1 + sx * r) (py p2 - sy * r);
                    P (px p2 - sx * r) (py p1 + sy * r); P (px p2 - sx * r) (py p2 - sy * r) ] /\
     forall t, ellipse_level c r r (segment s e t) =
               1 + 2 * (3 - 2 * sqrt 2) ^ 2 * (t * (1 - t) * (1 - 2 * t)) ^ 2).
Proof.
  intros p1 p2 radius cps s e Hr Nx Ny r sx sy E.
  rewrite (rr_cases p1 p2 radius Hr Nx Ny) in E. apply Ok_inj in E. subst cps.
  destruct (rr_r_bounds p1 p2 radius Hr) as (R0 & R1 & R2 & R3).
  change (rr_r p1 p2 radius) with r in *.
  destruct (towards_abs (px p1) (px p2)) as [Ex _]. destruct (towards_abs (py p1) (py p2)) as [Ey _].
  pose proof (towards_pm (px p1) (px p2)) as Sx. pose proof (towards_pm (py p1) (py p2)) as Sy.
  fold (rr_w p1 p2) in Ex. fold (rr_h p1 p2) in Ey. fold sx in Ex, Sx |- *. fold sy in Ey, Sy |- *.
  set (w := rr_w p1 p2) in *. set (h := rr_h p1 p2) in *.
  clearbody w h r sx sy. clear R1. 
  destruct p1 as [x1 y1], p2 as [x2 y2]. cbn [px py] in *.
  assert (X2 : x2 = x1 + sx * w) by lra. assert (Y2 : y2 = y1 + sy * h) by lra. clear Ex Ey. subst x2 y2.
  assert (SX : (sx * r) ^ 2 = r ^ 2) by (destruct Sx; subst sx; ring).
  assert (SY : (sy * r) ^ 2 = r ^ 2) by (destruct Sy; subst sy; ring).
  assert (SX' : (- (sx * r)) ^ 2 = r ^ 2) by (destruct Sx; subst sx; ring).
  assert (SY' : (- (sy * r)) ^ 2 = r ^ 2) by (destruct Sy; subst sy; ring).
  clear Sx Sy. unfold rr_out, rr8, glue, out_cp, cp_reversed. cbn [px py cc cdl cdr ckind].
  remember (@bez_90 R _ _) as k eqn:Ek.
  destruct (Req_EM_T r 0) as [Z|Z]; [|destruct (Req_EM_T (2 * r) w) as [Zw|Zw], (Req_EM_T (2 * r) h) as [Zh|Zh]];
  try subst w; try subst h; cbn [path_segments consecutive app];
  intros H; cbn [In] in H; repeat (destruct H as [H|H]; [injection H as <- <-|]); try (destruct H; fail);
  first [ left; exists x1; split; [now left|]; intros t; apply seg_x; cbn [px vx cc cdl cdr]; try rewrite Z; ring
        | left; exists (x1 + sx * w); split; [now right|]; intros t; apply seg_x; cbn [px vx cc cdl cdr]; try rewrite Z; ring
        | left; exists (x1 + sx * (2 * r)); split; [now right|]; intros t; apply seg_x; cbn [px vx cc cdl cdr]; ring
        | right; left; exists y1; split; [now left|]; intros t; apply seg_y; cbn [py vy cc cdl cdr]; try rewrite Z; ring
        | right; left; exists (y1 + sy * h); split; [now right|]; intros t; apply seg_y; cbn [py vy cc cdl cdr]; try rewrite Z; ring
        | right; left; exists (y1 + sy * (2 * r)); split; [now right|]; intros t; apply seg_y; cbn [py vy cc cdl cdr]; ring
        | right; right; eexists; split; [left; reflexivity|]; intros t;
          first [apply (arc_X k _ _ _ _ (- (sx * r)) (- (sy * r))); auto; cbn [cc cdl cdr]; f_equal; ring
            | apply (arc_Y k _ _ _ _ (- (sx * r)) (- (sy * r))); auto; cbn [cc cdl cdr]; f_equal; ring]
        | right; right; eexists; split; [right; left; reflexivity|]; intros t;
          first [apply (arc_X k _ _ _ _ (- (sx * r)) (sy * r)); auto; cbn [cc cdl cdr]; f_equal; ring
            | apply (arc_Y k _ _ _ _ (- (sx * r)) (sy * r)); auto; cbn [cc cdl cdr]; f_equal; ring]
        | right; right; eexists; split; [right; right; left; reflexivity|]; intros t;
          first [apply (arc_X k _ _ _ _ (sx * r) (- (sy * r))); auto; cbn [cc cdl cdr]; f_equal; ring
            | apply (arc_Y k _ _ _ _ (sx * r) (- (sy * r))); auto; cbn [cc cdl cdr]; f_equal; ring]
        | right; right; eexists; split; [right; right; right; left; reflexivity|]; intros t;
          first [apply (arc_X k _ _ _ _ (sx * r) (sy * r)); auto; cbn [cc cdl cdr]; f_equal; ring
            | apply (arc_Y k _ _ _ _ (sx * r) (sy * r)); auto; cbn [cc cdl cdr]; f_equal; ring]
        | idtac ].

Qed.

(* both sides at a corner agree: a rectangle without width *)
Lemma merge_line (a0 b0 a1 b1 a2 b2 a3 b3 : cpoint R) : agree a0 b0 -> differ b0 a1 -> agree a1 b1 -> agree b1 a2 ->
  agree a2 b2 -> differ b2 a3 -> agree a3 b3 -> agree b3 a0 ->
  merge [a0; b0; a1; b1; a2; b2; a3; b3] =
  [glue a1 b1; glue b1 a2; glue a2 b2; glue a3 b3; glue b3 a0; glue a0 b0].
Proof. mergecalc. Qed.

(* "merge duplicates" does not hold for a rectangle without width: six points at two places *)
Theorem C42_no_width_refuted : forall (p1 p2 : pt R) (radius : R),
  0 <= radius -> px p1 = px p2 -> py p1 <> py p2 ->
  exists cps, make_rounded_rect_cps p1 p2 radius = Ok cps /\ List.length cps = 6%nat /\
    ~ NoDup (map cc cps) /\ forall s, In s cps -> cc s = p1 \/ cc s = p2.
Proof.
  intros p1 p2 radius Hr Ex Ny.
  assert (Z : rr_r p1 p2 radius = 0).
  { destruct (rr_r_bounds p1 p2 radius Hr) as (A & B & C & D).
    assert (W : rr_w p1 p2 = 0) by (unfold rr_w; rewrite Ex, Rminus_diag_eq by auto; apply Rabs_R0). lra. }
  eexists. split; [apply make_rr_merge; auto|]. 
  change (Rmin radius (Rmin (Rabs (px p2 - px p1) / 2) (Rabs (py p2 - py p1) / 2))) with (rr_r p1 p2 radius).
  rewrite Z. destruct p1 as [x y1], p2 as [x2 y2]. cbn [px py] in *. subst x2. unfold rr8. cbn [px py].
  generalize (towards x x) (towards y1 y2) (Rmin (Rabs (x - x) / 2 - 0) 0) (Rmin (Rabs (y2 - y1) / 2 - 0) 0).
  intros sx sy mw mh.
  rewrite merge_line by centres. split; [reflexivity|]. cbn [map glue cc out_cp cp_reversed px py]. split.
  - intros N. inversion N as [|? ? N1 _]. apply N1. left. f_equal; ring.
  - intros s H. cbn [In] in H.
    repeat (destruct H as [<-|H]; [cbn [cc glue out_cp cp_reversed px py]; first [left; f_equal; ring | right; f_equal; ring]|]). destruct H.
Qed.

Example C42_nontrivial :
  (exists cps, make_rounded_rect_cps (P 1 (-1)) (P (-3) 4) (1 / 5) = Ok cps /\ List.length cps = 8%nat /\
     In (P 1 (-1 + 1 / 5)) (map cc cps)) /\
  (exists cps, make_rounded_rect_cps (P 1 2) (P 3 (-4)) 1 = Ok cps /\ List.length cps = 6%nat).
Proof.
  assert (W : forall a b, a < b -> Rabs (b - a) = b - a) by (intros; apply Rabs_right; lra).
  assert (W' : forall a b, b < a -> Rabs (b - a) = a - b) by (intros; rewrite Rabs_left; lra).
  split.
  - destruct (C42_points (P 1 (-1)) (P (-3) 4) (1 / 5)) as (cps & E & _ & H & L & _); cbn [px py] in *; try lra.
    exists cps. split; auto. rewrite (W' 1 (-3)), (W (-1) 4) in L by lra. rewrite (W' 1 (-3)), (W (-1) 4) in H by lra. split; [apply L; lra|].
    apply H. unfold corner_points. right. left. cbn [px py]. unfold towards.
    destruct (Rle_dec (-1) 4); [|lra]. f_equal. unfold Rmin. repeat destruct (Rle_dec _ _); lra.
  - destruct (C42_points (P 1 2) (P 3 (-4)) 1) as (cps & E & _ & _ & _ & _ & L & _); cbn [px py] in *; try lra.
    exists cps. split; auto. rewrite (W' 2 (-4)), (W 1 3) in L by lra. apply L; [|lra].
    unfold Rmin. destruct (Rle_dec _ _); lra.
Qed.
