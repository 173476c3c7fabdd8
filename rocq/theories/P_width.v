(* Property theorems C07, C62 and C63, continued: widths under any transformer, meshes and random fields. *)
Require Import Verif.Base Verif.NumR Verif.L_real Verif.M_vector Verif.M_bbox Verif.M_transform Verif.M_vecfield.
Require Import Verif.S_transform Verif.L_transform Verif.P_transform Verif.P_p1p2 Verif.S_vecfield Verif.P_vecfield Verif.P_lookup.
From Coq Require Import Reals List ZArith Lia Lra Psatz.
Import ListNotations.
Local Open Scope R_scope.

(* ---------------- the width any transformer gives ---------------- *)

Lemma diagonal : sqrt 2 / 2 * (sqrt 2 / 2) = 1 / 2.
Proof. pose proof (sqrt_sqrt 2 ltac:(lra)). nra. Qed.
Lemma width_dist f w : transformer_width f w =
  sqrt (dist2 (f (P (w * (sqrt 2 / 2)) (w * (sqrt 2 / 2)))) (f (P 0 0))).
Proof. unfold transformer_width. cbn. unfold dist2. reflexivity. Qed.

Lemma of6_dist a b c d e g p q :
  dist2 (t_transform (T (mat_of6 a b c d e g) None []) p) (t_transform (T (mat_of6 a b c d e g) None []) q) =
  (a * (px p - px q) + b * (py p - py q)) * (a * (px p - px q) + b * (py p - py q)) +
  (d * (px p - px q) + e * (py p - py q)) * (d * (px p - px q) + e * (py p - py q)).
Proof. rewrite !tt_lin. unfold dist2, lin. cbn. ring. Qed.

(* a transformer that multiplies all distances by k multiplies all widths by k *)
Theorem C07_any_similarity : forall (f : pt R -> pt R) (k w : R), 0 <= k ->
  (forall p q, dist2 (f p) (f q) = k * k * dist2 p q) -> transformer_width f w = k * Rabs w.
Proof.
  intros f k w Hk H. rewrite width_dist, H. unfold dist2; cbn [px py].
  replace (k * k * _) with ((k * w) * (k * w) * (2 * (sqrt 2 / 2 * (sqrt 2 / 2)))) by ring. rewrite diagonal.
  replace (k * w * (k * w) * (2 * (1 / 2))) with (Rsqr (k * w)) by (unfold Rsqr; field).
  rewrite sqrt_Rsqr_abs, Rabs_mult, (Rabs_pos_eq k) by auto. reflexivity.
Qed.
(* for a Transform it is the length of the image of the diagonal: linear in the size of the width *)
Theorem C07_any_affine : forall (s : transform R) (w : R),
  transformer_width (t_transform s) w = Rabs w * transformer_width (t_transform s) 1 /\
  transformer_width (t_transform s) 1 * transformer_width (t_transform s) 1 =
    dist2 (t_transform s (P 1 1)) (t_transform s (P 0 0)) / 2.
Proof.
  intros s w. rewrite !width_dist.
  assert (E : forall h, dist2 (t_transform s (P (h * (sqrt 2 / 2)) (h * (sqrt 2 / 2)))) (t_transform s (P 0 0)) =
     Rsqr h * (dist2 (t_transform s (P 1 1)) (t_transform s (P 0 0)) / 2)).
  { intros h. transitivity (h * h * (sqrt 2 / 2 * (sqrt 2 / 2)) * dist2 (t_transform s (P 1 1)) (t_transform s (P 0 0))).
    - unfold dist2, t_transform, mat_apply; cbn. ring.
    - rewrite diagonal. unfold Rsqr. field. }
  rewrite !E. set (d := dist2 _ _ / 2). assert (0 <= d).
  { unfold d, dist2. pose proof (Rle_0_sqr (px (t_transform s (P 1 1)) - px (t_transform s (P 0 0)))).
    pose proof (Rle_0_sqr (py (t_transform s (P 1 1)) - py (t_transform s (P 0 0)))). unfold Rsqr in *. lra. }
  replace (Rsqr 1 * d) with d by (unfold Rsqr; ring). split.
  - rewrite sqrt_mult_alt by apply Rle_0_sqr. now rewrite sqrt_Rsqr_abs.
  - now apply sqrt_sqrt.
Qed.
(* the two methods agree on uniform scales, rotations and mirrors in any order: whenever all
   distances are multiplied alike *)
Theorem C07_methods_agree : forall (s : transform R) (k w : R), 0 <= k -> 0 <= w ->
  (forall p q, dist2 (t_transform s p) (t_transform s q) = k * k * dist2 p q) ->
  t_transform_width s w = k * w /\ transformer_width (t_transform s) w = k * w.
Proof.
  intros s k w Hk Hw H. split.
  - rewrite C07_width_is_mean_length, !H. unfold dist2; cbn [px py].
    replace (k * k * ((1 - 0) * (1 - 0) + (0 - 0) * (0 - 0))) with (Rsqr k) by (unfold Rsqr; ring).
    replace (k * k * ((0 - 0) * (0 - 0) + (1 - 0) * (1 - 0))) with (Rsqr k) by (unfold Rsqr; ring).
    rewrite sqrt_Rsqr by auto. field.
  - rewrite (C07_any_similarity _ k) by auto. now rewrite Rabs_pos_eq.
Qed.
(* but both are described as scaling by the average of the scales, and they differ *)
Theorem C07_methods_agree_refuted : exists s : transform R, affine_state s /\
  t_transform_width s 1 = 2 /\ transformer_width (t_transform s) 1 = sqrt 5.
Proof.
  exists (T (mat_of6 1 0 0 0 3 0) None []). split; [split; [repeat split|constructor]|]. split.
  - rewrite C07_width_is_mean_length, !of6_dist. cbn [px py].
    match goal with |- _ * ((sqrt ?a + sqrt ?b) / 2) = _ => replace a with (Rsqr 1) by (unfold Rsqr; ring); replace b with (Rsqr 3) by (unfold Rsqr; ring) end.
    rewrite !sqrt_Rsqr by lra. field.
  - rewrite width_dist, of6_dist. f_equal. cbn [px py].
    transitivity (10 * (sqrt 2 / 2 * (sqrt 2 / 2))); [field|rewrite diagonal; field].
Qed.
(* and the image of the diagonal may be a point, so that a width vanishes *)
Theorem C07_any_affine_vanishes : exists s : transform R, affine_state s /\
  0 < t_transform_width s 1 /\ forall w, transformer_width (t_transform s) w = 0.
Proof.
  exists (T (mat_of6 1 (-1) 0 0 0 0) None []). split; [split; [repeat split|constructor]|]. split.
  - rewrite C07_width_is_mean_length, !of6_dist. cbn [px py].
    match goal with |- _ < _ * ((sqrt ?a + sqrt ?b) / 2) => replace a with (Rsqr 1) by (unfold Rsqr; ring); pose proof (sqrt_pos b) end.
    rewrite sqrt_Rsqr by lra. lra.
  - intros w. rewrite (proj1 (C07_any_affine _ w)), width_dist, of6_dist. cbn [px py].
    match goal with |- _ * sqrt ?a = _ => replace a with 0 by ring end. rewrite sqrt_0. ring.
Qed.
Example C07_similarity_example : exists s : transform R,
  (forall p q, dist2 (t_transform s p) (t_transform s q) = 5 * 5 * dist2 p q) /\ t_transform s (P 1 0) = P 4 5.
Proof.
  exists (T (mat_of6 3 (-4) 1 4 3 1) None []). split.
  - intros p q. rewrite of6_dist. unfold dist2. ring.
  - rewrite tt_lin. unfold lin. cbn. f_equal; ring.
Qed.

(* ---------------- the width a vector field gives ---------------- *)

(* half the diagonal of the square whose diagonal is the width *)
Definition half_diagonal (w : R) : R := w * (sqrt 2 / 2).

(* it is the distance between the images of two points that lie the width apart on the diagonal,
   each moved by the vector looked up there *)
Theorem C63_width : forall (w : world R) f v (width : R), fresh_field w f v -> on_mesh (vf_mesh v) ->
  let h := half_diagonal width in
  exists u0 u1, snd (lookup f 0 0 w) = Ok u0 /\ snd (lookup f h h w) = Ok u1 /\
  snd (vf_transform_width f width w) = Ok (sqrt (dist2 (P (h + fst u1) (h + snd u1)) (P (0 + fst u0) (0 + snd u0)))).
Proof.
  intros w f v width Fr Om h. pose proof (lookup_fresh w f v 0 0 Fr Om) as E0. pose proof (lookup_fresh w f v h h Fr Om) as E1.
  destruct (C63_first w f v 0 0 _ Fr E0) as [F1 F2]. do 2 eexists. split; [exact E0|]. split; [exact E1|].
  assert (E2 : snd (lookup f h h (fst (lookup f 0 0 w))) = snd (lookup f h h w)).
  { rewrite E1. unfold lookup at 1, interp_coords, on. rewrite F1. cbn [vf_interp vf_mesh map bind snd fst].
    unfold arr_at. rewrite F2. reflexivity. }
  rewrite E1 in E2. unfold vf_transform_width.
  destruct (C63_transform w f 0 0) as [A1 A2]. change (nofZ 0) with 0.
  destruct (vf_transform f 0 0 w) as [w1 r0]. cbn [fst snd] in A1, A2. subst w1. rewrite E0 in A2. cbn [bind] in A2. subst r0.
  destruct (C63_transform (fst (lookup f 0 0 w)) f h h) as [B1 B2].
  change (nmul width (ndiv (nsqrt (nofZ 2)) (nofZ 2))) with h.
  destruct (vf_transform f h h (fst (lookup f 0 0 w))) as [w2 r1]. cbn [fst snd] in B1, B2. rewrite E2 in B2. cbn [bind] in B2. subst r1.
  reflexivity.
Qed.
(* a field that is the same everywhere keeps widths *)
Theorem C63_width_constant : forall (w : world R) f v (width a b : R), fresh_field w f v -> on_mesh (vf_mesh v) ->
  (forall i j, (i < m_steps (vf_mesh v))%nat -> (j < m_steps (vf_mesh v))%nat ->
     arr_at w (vf_vx v) i j = a /\ arr_at w (vf_vy v) i j = b) ->
  snd (vf_transform_width f width w) = Ok (Rabs width).
Proof.
  intros w f v width a b Fr Om C.
  assert (L : forall x y, snd (lookup f x y w) = Ok (a, b)).
  { intros x y. destruct (C63_reach (vf_mesh v) x y Om) as (i & j & Ri & Rj). rewrite (C63_blend w f v i j x y Fr Om Ri Rj).
    cbv zeta. destruct Ri as (Hi & _), Rj as (Hj & _). unfold blend.
    destruct (C i j ltac:(lia) ltac:(lia)) as [-> ->]. destruct (C i (S j) ltac:(lia) ltac:(lia)) as [-> ->].
    destruct (C (S i) j ltac:(lia) ltac:(lia)) as [-> ->]. destruct (C (S i) (S j) ltac:(lia) ltac:(lia)) as [-> ->]. do 2 f_equal; ring. }
  destruct (C63_width w f v width Fr Om) as (u0 & u1 & E0 & E1 & ->). rewrite L in E0, E1. injection E0 as <-. injection E1 as <-.
  f_equal. rewrite <- sqrt_Rsqr_abs. f_equal. cbn [fst snd]. unfold dist2, half_diagonal, Rsqr. cbn [px py].
  transitivity (width * width * (2 * (sqrt 2 / 2 * (sqrt 2 / 2)))); [ring|]. rewrite diagonal. field.
Qed.

(* ---------------- meshes and random fields ---------------- *)

(* Mesh(bbox, steps): the nodes are evenly spaced from edge to edge of the box.  There is no mesh
   on the empty box, nor with a negative number of steps. *)
Theorem C62_mesh : forall (b : bbox R) (steps : Z),
  match mesh_new b steps with
  | Ok m => exists xl yl xh yh, b = BB xl yl xh yh /\ (0 <= steps)%Z /\ m_steps m = Z.to_nat steps /\
      forall i j, (i < m_steps m)%nat -> (j < m_steps m)%nat ->
        x_grid m i j = (if Z.eqb steps 1 then xl else node xl xh (Z.to_nat steps) j) /\
        y_grid m i j = (if Z.eqb steps 1 then yl else node yl yh (Z.to_nat steps) i)
  | Raise e => (b = BNone /\ e = TypeError) \/ (b <> BNone /\ (steps < 0)%Z /\ e = ValueError)
  end.
Proof.
  intros [|xl yl xh yh] steps; cbn [mesh_new]; [left; auto|]. destruct (Z.ltb_spec steps 0).
  - right. split; [discriminate|auto].
  - exists xl, yl, xh, yh. split; [reflexivity|]. split; [lia|]. split; [reflexivity|]. cbn [m_steps].
    intros i j Hi Hj. unfold x_grid, y_grid, coord_x, coord_y. cbn [m_xl m_xh m_yl m_yh m_steps].
    destruct (Z.eqb_spec steps 1) as [->|N].
    + change (Z.to_nat 1) with 1%nat in *. assert (i = 0%nat) as -> by lia. assert (j = 0%nat) as -> by lia.
      unfold linspace. cbn. split; ring.
    + rewrite !linspace_node by lia. split; reflexivity.
Qed.
(* on doubles too, a mesh of two or more steps ends exactly on the edge of the box *)
Theorem C62_mesh_edge : forall {F} {NF : Num F} (b : bbox F) (steps : Z) m i, mesh_new b steps = Ok m -> (2 <= steps)%Z ->
  exists xl yl xh yh, b = BB xl yl xh yh /\ x_grid m i (m_steps m - 1)%nat = xh /\ y_grid m (m_steps m - 1)%nat i = yh.
Proof.
  intros F NF [|xl yl xh yh] steps m i E H; [discriminate|]. cbn [mesh_new] in E. destruct (Z.ltb_spec steps 0); [lia|].
  injection E as <-. exists xl, yl, xh, yh. split; [reflexivity|]. unfold x_grid, y_grid, coord_x, coord_y, linspace. cbn [m_steps m_xh m_yh].
  replace (1 <? Z.to_nat steps)%nat with true by (symmetry; apply Nat.ltb_lt; lia). rewrite Nat.eqb_refl. split; reflexivity.
Qed.

(* uniform(m) makes a new field with components between -m and m, and leaves all others alone *)
Theorem C62_uniform_field : forall (msh : mesh R) (m : R) (random : nat -> R) (w : world R), (forall k, 0 <= random k < 1) ->
  exists w' g v, vf_uniform msh m random w = (w', Ok g) /\ fresh_field w' g v /\ vf_mesh v = msh /\
    (forall f u, nth_error (fields w) f = Some u -> nth_error (fields w') f = Some u) /\
    (forall l, refers w l -> arr_at w' l = arr_at w l) /\ ~ refers w (vf_vx v) /\ ~ refers w (vf_vy v) /\ vf_vx v <> vf_vy v /\
    forall i j, Rabs (arr_at w' (vf_vx v) i j) <= Rabs m /\ Rabs (arr_at w' (vf_vy v) i j) <= Rabs m.
Proof.
  intros msh m random w Hr. unfold vf_uniform, vf_make. do 3 eexists. split; [reflexivity|].
  set (n := length (arrays w)). split; [split; [cbn [fields]; rewrite nth_error_app2, Nat.sub_diag by lia; reflexivity|reflexivity]|].
  split; [reflexivity|]. split; [|split; [|split; [|split; [|split]]]].
  - intros f u E. cbn [fields]. rewrite nth_error_app1; [exact E|]. apply nth_error_Some. congruence.
  - intros l Hl. unfold arr_at. cbn [arrays]. now rewrite app_nth1.
  - unfold refers. cbn [vf_vx]. unfold n. lia.
  - unfold refers. cbn [vf_vy]. unfold n. lia.
  - cbn [vf_vx vf_vy]. lia.
  - intros i j. unfold arr_at. cbn [arrays vf_vx vf_vy]. rewrite !app_nth2 by (unfold n; lia). fold n. rewrite Nat.sub_diag.
    replace (S n - n)%nat with 1%nat by lia. cbn [nth]. apply C62_uniform. exact Hr.
Qed.

(* g is a new field v: it has arrays of its own, and all that was there before is as it was *)
Definition new_field (w w' : world R) (g : nat) (v : vfield R) : Prop :=
  fresh_field w' g v /\ (forall f u, nth_error (fields w) f = Some u -> nth_error (fields w') f = Some u /\ f <> g) /\
  (forall l, refers w l -> arr_at w' l = arr_at w l) /\
  ~ refers w (vf_vx v) /\ ~ refers w (vf_vy v) /\ vf_vx v <> vf_vy v /\ refers w' (vf_vx v) /\ refers w' (vf_vy v).
Lemma make_new m a b (w : world R) : exists w' g v, vf_make m a b w = (w', Ok g) /\ new_field w w' g v /\ vf_mesh v = m /\
  arr_at w' (vf_vx v) = a /\ arr_at w' (vf_vy v) = b.
Proof.
  set (n := length (arrays w)). exists (fst (vf_make m a b w)), (length (fields w)), (VF m n (S n) None).
  split; [reflexivity|]. unfold vf_make. cbn [fst]. fold n. unfold new_field, fresh_field, refers, arr_at.
  cbn [fields arrays]. split; [split|split; [reflexivity|cbn [vf_vx vf_vy]]].
  - rewrite nth_error_app2, Nat.sub_diag by lia. split; reflexivity.
  - cbn [vf_vx vf_vy]. split; [|split; [|rewrite app_length; cbn [length]; fold n; repeat split; lia]].
    + intros f u E. assert (f < length (fields w))%nat by (apply nth_error_Some; congruence).
      rewrite nth_error_app1 by assumption. split; [exact E|lia].
    + intros l Hl. now rewrite app_nth1.
  - rewrite !app_nth2 by (fold n; lia). fold n. rewrite Nat.sub_diag. replace (S n - n)%nat with 1%nat by lia. split; reflexivity.
Qed.
(* copy(), scaled(), normalized() and smoothed() make a new field on the mesh of the old one.
   Its entries are those of the old one: the same, multiplied by sx and sy (or by sx alone), all
   multiplied by one number so that the longest vector has length one, or the means around each
   place all multiplied so. *)
Theorem C62_copy_field : forall (w : world R) f u, nth_error (fields w) f = Some u ->
  exists w' g v, vf_copy f w = (w', Ok g) /\ new_field w w' g v /\ vf_mesh v = vf_mesh u /\
    forall i j, arr_at w' (vf_vx v) i j = arr_at w (vf_vx u) i j /\ arr_at w' (vf_vy v) i j = arr_at w (vf_vy u) i j.
Proof.
  intros w f u E. unfold vf_copy, on. rewrite E. destruct (make_new (vf_mesh u) (arr_at w (vf_vx u)) (arr_at w (vf_vy u)) w) as (w' & g & v & M0 & N & Em & Ex & Ey).
  exists w', g, v. rewrite Ex, Ey. auto.
Qed.
Theorem C62_scaled_field : forall (w : world R) f u sx sy, nth_error (fields w) f = Some u ->
  exists w' g v, vf_scaled f sx sy w = (w', Ok g) /\ new_field w w' g v /\ vf_mesh v = vf_mesh u /\
    forall i j, arr_at w' (vf_vx v) i j = sx * arr_at w (vf_vx u) i j /\
      arr_at w' (vf_vy v) i j = match sy with Some s => s | None => sx end * arr_at w (vf_vy u) i j.
Proof.
  intros w f u sx sy E. unfold vf_scaled, on. rewrite E.
  pose proof (C62_scaled (arr_at w (vf_vx u)) (arr_at w (vf_vy u)) sx sy) as Sc. destruct (scale_arrays _ _ _ _) as [a b]. cbn [fst snd] in Sc.
  destruct (make_new (vf_mesh u) a b w) as (w' & g & v & M0 & N & Em & Ex & Ey). exists w', g, v. rewrite Ex, Ey. auto.
Qed.
Theorem C62_normalized_field : forall (w : world R) f u, nth_error (fields w) f = Some u ->
  let n := m_steps (vf_mesh u) in S_vecfield.nonzero n (arr_at w (vf_vx u)) (arr_at w (vf_vy u)) ->
  exists w' g v k, vf_normalized f w = (w', Ok g) /\ new_field w w' g v /\ vf_mesh v = vf_mesh u /\ 0 < k /\
    stretched n k (arr_at w (vf_vx u)) (arr_at w (vf_vy u)) (arr_at w' (vf_vx v)) (arr_at w' (vf_vy v)) /\
    longest_is n (arr_at w' (vf_vx v)) (arr_at w' (vf_vy v)) 1.
Proof.
  intros w f u E n N0. unfold vf_normalized, on. rewrite E. fold n. destruct (C62_normalized _ _ _ N0) as (k & a & b & -> & Hk & S0 & L).
  destruct (make_new (vf_mesh u) a b w) as (w' & g & v & M0 & N & Em & Ex & Ey). exists w', g, v, k. rewrite Ex, Ey. auto 8.
Qed.
Theorem C62_smoothed_field : forall (w : world R) f u mx my, nth_error (fields w) f = Some u ->
  let n := m_steps (vf_mesh u) in
  (forall i j, (i < n)%nat -> (j < n)%nat -> mean_at n (arr_at w (vf_vx u)) i j (mx i j) /\ mean_at n (arr_at w (vf_vy u)) i j (my i j)) ->
  S_vecfield.nonzero n mx my ->
  exists w' g v k, vf_smoothed f w = (w', Ok g) /\ new_field w w' g v /\ vf_mesh v = vf_mesh u /\ 0 < k /\
    stretched n k mx my (arr_at w' (vf_vx v)) (arr_at w' (vf_vy v)) /\
    longest_is n (arr_at w' (vf_vx v)) (arr_at w' (vf_vy v)) 1.
Proof.
  intros w f u mx my E n Hm N0. unfold vf_smoothed, on, smooth_arrays. rewrite E. fold n.
  assert (Q : forall i j, (i < n)%nat -> (j < n)%nat -> mx i j = smooth_at n (arr_at w (vf_vx u)) i j /\ my i j = smooth_at n (arr_at w (vf_vy u)) i j).
  { intros i j Hi Hj. destruct (Hm i j Hi Hj) as [Mx My]. split; eapply mean_unique; try eassumption; now apply C62_mean. }
  assert (N1 : S_vecfield.nonzero n (smooth_at n (arr_at w (vf_vx u))) (smooth_at n (arr_at w (vf_vy u)))).
  { destruct N0 as (i & j & Hi & Hj & D). exists i, j. destruct (Q i j Hi Hj) as [<- <-]. auto. }
  destruct (C62_normalized _ _ _ N1) as (k & a & b & -> & Hk & S0 & L).
  destruct (make_new (vf_mesh u) a b w) as (w' & g & v & M0 & N & Em & Ex & Ey). exists w', g, v, k. rewrite Ex, Ey.
  repeat (split; [assumption|]). split; [|exact L]. intros i j Hi Hj. destruct (Q i j Hi Hj) as [-> ->]. now apply S0.
Qed.
Example C62_fields_met : exists (w : world R) u mx my, nth_error (fields w) 0 = Some u /\
  let n := m_steps (vf_mesh u) in S_vecfield.nonzero n (arr_at w (vf_vx u)) (arr_at w (vf_vy u)) /\ S_vecfield.nonzero n mx my /\
  (forall i j, (i < n)%nat -> (j < n)%nat -> mean_at n (arr_at w (vf_vx u)) i j (mx i j) /\ mean_at n (arr_at w (vf_vy u)) i j (my i j)).
Proof.
  pose (vx := (fun i j => INR i - INR j) : arr R). pose (vy := (fun i j => 1) : arr R).
  exists (World [vx; vy] [VF (Mesh 0 3 0 3 4) 0 1 None]), (VF (Mesh 0 3 0 3 4) 0 1 None), (smooth_at 4 vx), (smooth_at 4 vy).
  split; [reflexivity|]. destruct C62_nontrivial as (N0 & N1 & _). split; [exact N0|]. split; [exact N1|].
  intros i j Hi Hj. split; now apply C62_mean.
Qed.

Example C63_width_example :
  let w := vrun [OpZeros ex63_mesh] (World [] []) : world R in
  fresh_field w 0 (VF ex63_mesh 0 1 None) /\ on_mesh ex63_mesh /\ snd (vf_transform_width 0 7 w) = Ok 7.
Proof.
  intros w. assert (Fr : fresh_field w 0 (VF ex63_mesh 0 1 None)) by (split; reflexivity).
  split; [exact Fr|]. split; [exact ex63_on|].
  rewrite (C63_width_constant w 0 _ 7 0 0 Fr ex63_on) by (intros; split; reflexivity). f_equal. apply Rabs_pos_eq. lra.
Qed.
Example C62_mesh_example : exists m, mesh_new (BB 0 0 4 8) 3 = Ok m /\ x_grid m 0%nat 1%nat = 2 /\ y_grid m 1%nat 0%nat = 4 /\ x_grid m 0%nat 2%nat = 4.
Proof.
  eexists. split; [reflexivity|]. unfold x_grid, y_grid, coord_x, coord_y. cbn [m_steps m_xl m_xh m_yl m_yh].
  change (Z.to_nat 3) with 3%nat. rewrite !linspace_node by lia. unfold node. cbn [INR Nat.sub]. repeat split; field.
Qed.
