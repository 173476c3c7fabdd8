(* Property theorems C93: drawing on doubles does not overflow. *)
From Coq Require Import Reals Floats ZArith List Lra Lia String.
From Flocq Require Import Core BinarySingleNaN PrimFloat.
Require Import Verif.Base Verif.NumFloat Verif.NumR Verif.M_vector Verif.M_bbox Verif.M_transform Verif.M_bezier Verif.M_colors Verif.M_elems Verif.M_group.
Require Import Verif.S_float Verif.L_float Verif.L_float2 Verif.S_group Verif.S_gdraw Verif.L_elems Verif.L_group Verif.L_gdraw Verif.P_float Verif.P_ellipse Verif.P_float6 Verif.P_float3 Verif.P_float9 Verif.P_float12 Verif.P_float16.
Import ListNotations.
Set Warnings "-inexact-float".
Local Open Scope R_scope.

(* ------------------------------------------------------------------ *)
(** ** specification *)

(* finite, and of magnitude at most 2^k *)
Definition sized2 (k : Z) (p : pt float) : Prop := sized k (px p) /\ sized k (py p).
Definition sizedv (k : Z) (v : vec float) : Prop := sized k (vx v) /\ sized k (vy v).
Definition sizedm (k : Z) (m : mat float) : Prop :=
  (sized k (m00 m) /\ sized k (m01 m) /\ sized k (m02 m)) /\ (sized k (m10 m) /\ sized k (m11 m) /\ sized k (m12 m)) /\
  (sized k (m20 m) /\ sized k (m21 m) /\ sized k (m22 m)).
(* all transforms of the element have entries up to 2^k, all its coordinates are up to 2^c; no rounded rectangles *)
Fixpoint numbers_below (k c : Z) (e : elem float) : Prop :=
  sizedm k (tmat (e_xform (e_base e))) /\
  match e with
  | ELeaf _ (SCurve cps) => Forall (fun p => sized2 c (cc p) /\ sizedv c (cdl p) /\ sizedv c (cdr p)) cps
  | ELeaf _ (SRect p q) | ELeaf _ (SEllipse p q) => sized2 c p /\ sized2 c q
  | ELeaf _ (SRRect _ _ _) => False
  | EGroup _ _ l _ => fold_right and True (map (fun ke => numbers_below k c (snd ke)) l)
  | EHoles _ o i => numbers_below k c o /\ fold_right and True (map (numbers_below k c) i)
  end.

(* ------------------------------------------------------------------ *)
(** ** sizes of points, matrices and curves *)

Lemma sized_neg k x : sized k x -> sized k (- x)%float.
Proof. intros [F S]. destruct (opp_ok x) as [A B]. split; [now apply A|]. now rewrite B, Rabs_Ropp. Qed.
Lemma sized_min k x y : sized k x -> sized k y -> sized k (pymin x y).
Proof. intros. unfold pymin. now destruct (_ <? _)%num. Qed.
Lemma sized_max k x y : sized k x -> sized k y -> sized k (pymax x y).
Proof. intros. unfold pymax. now destruct (_ <? _)%num. Qed.
Lemma sized_const z k : (Z.abs z <= 2 ^ 53)%Z -> (0 <= k)%Z -> (Z.abs z <= 2 ^ k)%Z -> sized k (float_ofZ z).
Proof.
  intros Hz K L. destruct (const_ok z Hz) as [F E]. split; [exact F|]. rewrite E, <- abs_IZR.
  replace (bpow radix2 k) with (IZR (2 ^ k)); [now apply IZR_le|]. change 2%Z with (radix_val radix2). apply IZR_Zpower. exact K.
Qed.
Lemma sized_ratio n m : (0 <= n <= m)%Z -> (1 <= m)%Z -> (m <= 2 ^ 53)%Z -> sized 0 (float_ofZ n / float_ofZ m)%float.
Proof.
  intros H M L. destruct (const_ok n ltac:(unfold max_whole; lia)) as [Fn En]. destruct (const_ok m ltac:(unfold max_whole; lia)) as [Fm Em].
  assert (1 <= val (float_ofZ m)) by (rewrite Em; now apply IZR_le).
  assert (B : Rabs (val (float_ofZ n) / val (float_ofZ m)) <= bpow radix2 0).
  { rewrite En, Em in *. change (bpow radix2 0) with 1. rewrite Rabs_right by (apply Rle_ge, Rmult_le_pos; [apply IZR_le; lia|apply Rlt_le, Rinv_0_lt_compat; lra]).
    apply Rmult_le_reg_r with (IZR m); [lra|]. unfold Rdiv. rewrite Rmult_assoc, Rinv_l, Rmult_1_l, Rmult_1_r by lra. apply IZR_le. lia. }
  assert (N : val (float_ofZ m) <> 0) by lra.
  assert (F : finite (float_ofZ n / float_ofZ m)%float) by (apply div_fin; auto; apply rnd_fits with 0%Z; [lia|exact B]).
  split; [exact F|]. destruct (div_ok _ _ Fm N F) as (_ & ->). apply rnd_abs_bpow; [lia|exact B].
Qed.
Lemma sizedp_le k l p : (k <= l)%Z -> sized2 k p -> sized2 l p.
Proof. intros H [A B]. split; eapply sized_le; eassumption. Qed.

(* three products, added up *)
Lemma sized_row a c x1 x2 x3 y1 y2 y3 : (0 <= a)%Z -> (0 <= c)%Z -> (a + c + 2 < 1024)%Z -> sized a x1 -> sized a x2 -> sized a x3 -> sized c y1 -> sized c y2 -> sized c y3 ->
  sized (a + c + 2) (x1 * y1 + x2 * y2 + x3 * y3)%float.
Proof.
  intros Ha Hc L X1 X2 X3 Y1 Y2 Y3. replace (a + c + 2)%Z with ((a + c + 1) + 1)%Z by lia.
  apply sized_add; [lia|apply sized_add; [lia| |]|eapply sized_le with (k := (a + c)%Z); [lia|]]; apply sized_mul; auto; lia.
Qed.
Lemma sizedm_dot a k m x : (0 <= a)%Z -> (0 <= k)%Z -> (a + k + 2 < 1024)%Z -> sizedm a m -> sizedm k x -> sizedm (a + k + 2) (mat_dot m x).
Proof.
  intros Ha Hk L (A & B & C) (A' & B' & C'). destruct A as (? & ? & ?), B as (? & ? & ?), C as (? & ? & ?), A' as (? & ? & ?), B' as (? & ? & ?), C' as (? & ? & ?).
  unfold sizedm, mat_dot. cbn [m00 m01 m02 m10 m11 m12 m20 m21 m22]. ops. split; [split; [|split]|split; [split; [|split]|split; [|split]]]; apply sized_row; auto.
Qed.
Lemma sized_apply a c (t : transform float) p : (0 <= a)%Z -> (0 <= c)%Z -> (a + c + 2 < 1024)%Z -> sizedm a (tmat t) -> sized2 c p -> sized2 (a + c + 2) (t_transform t p).
Proof.
  intros Ha Hc L (A & B & _) [X Y]. destruct A as (? & ? & ?), B as (? & ? & ?).
  assert (O : sized c (float_ofZ 1)) by (apply sized_le with 0%Z; [lia|]; apply sized_const; vm_compute; discriminate).
  unfold sized2, t_transform, mat_apply. cbn [px py]. ops. split; apply sized_row; auto.
Qed.
Lemma sized_padd c p v : (0 <= c < 1023)%Z -> sized2 c p -> sizedv c v -> sized2 (c + 1) (p_add p v).
Proof. intros H [A B] [C D]. split; apply sized_add; auto; lia. Qed.

Lemma sized_bez_at c p q r s t : (0 <= c)%Z -> (c + 7 < 1024)%Z -> sized2 c p -> sized2 c q -> sized2 c r -> sized2 c s -> sized 0 t ->
  sized (c + 7) (fst (bez_at p q r s t)) /\ sized (c + 7) (snd (bez_at p q r s t)).
Proof.
  intros Hc L [Px Py] [Qx Qy] [Rx Ry] [Sx Sy] T. unfold bez_at. cbn [fst snd]. ops.
  assert (T2 : sized 0 (t * t)%float) by (apply (sized_mul 0 0); auto; lia).
  assert (T3 : sized 0 (t * (t * t))%float) by (apply (sized_mul 0 0); auto; lia).
  assert (S1 : sized 1 (float_ofZ 1 - t)%float) by (apply (sized_sub 0); auto; [lia|]; apply sized_const; vm_compute; discriminate).
  set (u := (float_ofZ 1 - t)%float) in *. clearbody u.
  assert (S2 : sized 2 (u * u)%float) by (apply (sized_mul 1 1); auto; lia).
  assert (S3 : sized 3 (u * (u * u))%float) by (apply (sized_mul 1 2); auto; lia).
  assert (S2T : sized 2 (u * u * t)%float) by (apply (sized_mul 2 0); auto; lia).
  assert (ST2 : sized 1 (u * (t * t))%float) by (apply (sized_mul 1 0); auto; lia).
  assert (K3 : sized 2 (float_ofZ 3)) by (apply sized_const; vm_compute; discriminate).
  assert (G : forall x1 x2 x3 x4, sized c x1 -> sized c x2 -> sized c x3 -> sized c x4 ->
    sized (c + 7) (u * (u * u) * x1 + float_ofZ 3 * (u * u * t) * x2 + float_ofZ 3 * (u * (t * t)) * x3 + t * (t * t) * x4)%float).
  { intros x1 x2 x3 x4 X1 X2 X3 X4. replace (c + 7)%Z with (c + 4 + 1 + 1 + 1)%Z by lia.
    assert (A1 : sized (c + 4) (u * (u * u) * x1)%float) by (apply sized_le with (3 + c)%Z; [lia|]; apply sized_mul; auto; lia).
    assert (A2 : sized (c + 4) (float_ofZ 3 * (u * u * t) * x2)%float) by (apply sized_le with (4 + c)%Z; [lia|]; apply sized_mul; auto; [lia|]; apply (sized_mul 2 2); auto; lia).
    assert (A3 : sized (c + 4) (float_ofZ 3 * (u * (t * t)) * x3)%float) by (apply sized_le with (3 + c)%Z; [lia|]; apply sized_mul; auto; [lia|]; apply (sized_mul 2 1); auto; lia).
    assert (A4 : sized (c + 4) (t * (t * t) * x4)%float) by (apply sized_le with (0 + c)%Z; [lia|]; apply sized_mul; auto; lia).
    apply sized_add; [lia|apply sized_add; [lia|apply sized_add; [lia|exact A1|exact A2]|]|]; (eapply sized_le; [|eassumption]; lia). }
  split; apply G; assumption.
Qed.
Lemma sized_bez c p q r s n : (0 <= c)%Z -> (c + 7 < 1024)%Z -> (n <= 2 ^ 53)%Z -> sized2 c p -> sized2 c q -> sized2 c r -> sized2 c s ->
  Forall (sized (c + 7)) (bez p q r s n).
Proof.
  intros Hc L Hn Hp Hq Hr Hs. unfold bez.
  assert (G : Forall (fun xy => sized (c + 7) (fst xy) /\ sized (c + 7) (snd xy)) (bez_xy p q r s n)).
  { unfold bez_xy. constructor; [|apply Forall_app; split].
    - destruct Hp. cbn [fst snd]. split; (eapply sized_le; [|eassumption]; lia).
    - apply Forall_forall. intros xy I. apply in_map_iff in I. destruct I as (i & <- & I). apply in_seq in I.
      apply sized_bez_at; auto. apply sized_ratio; lia.
    - constructor; [|constructor]. destruct Hs. cbn [fst snd]. split; (eapply sized_le; [|eassumption]; lia). }
  clear - G. induction G as [|[x y] l [A B] _ IH]; [constructor|]. cbn [xy_flatten]. cbn. constructor; [exact A|]. constructor; [exact B|exact IH].
Qed.
Lemma skipn_all {A} (Q : A -> Prop) n l : Forall Q l -> Forall Q (skipn n l).
Proof. revert l. induction n; intros l H; [exact H|]. destruct H; cbn; [constructor|now apply IHn]. Qed.
Definition sizedc (k : Z) (p : cpoint float) : Prop := sized2 k (cc p) /\ sized2 k (cp_l p) /\ sized2 k (cp_r p).
Lemma pairs_all {A} (Q : A -> Prop) l l' : Forall Q l -> Forall Q l' -> Forall (fun pq => Q (fst pq) /\ Q (snd pq)) (combine l l').
Proof. intros H. revert l'. induction H; intros l' H'; [constructor|]. destruct H'; cbn; constructor; auto. Qed.
Lemma neighbours_all {A} (Q : A -> Prop) (l : list A) (closed : bool) : Forall Q l ->
  Forall (fun pq => Q (fst pq) /\ Q (snd pq)) (combine l (tl l ++ if closed then l else [])).
Proof. intros H. apply pairs_all; [exact H|]. apply Forall_app. split; [destruct H; [constructor|assumption]|]. destruct closed; [exact H|constructor]. Qed.

Lemma sized_curve c cps closed n : (0 <= c)%Z -> (c + 7 < 1024)%Z -> (n <= 2 ^ 53)%Z -> Forall (sizedc c) cps ->
  Forall (sized (c + 7)) (curve_points cps closed n).
Proof.
  intros Hc L Hn H. unfold curve_points. cbv zeta. pose proof (neighbours_all _ cps closed H) as G. revert G.
  generalize (combine cps (tl cps ++ if closed then cps else [])). intros l G.
  assert (K : forall acc, Forall (sized (c + 7)) (fst acc) -> Forall (sized (c + 7)) (fst (fold_left
           (fun (acc : list float * nat) pq => let '(p, q) := pq in
              (fst acc ++ skipn (snd acc) (bez (cc p) (cp_r p) (cp_l q) (cc q) n), 2%nat)) l acc))).
  { induction G as [|[p q] l [Gp Gq] _ IH]; intros acc Ha; cbn [fold_left]; [exact Ha|]. apply IH. cbn [fst].
    apply Forall_app. split; [exact Ha|]. apply skipn_all. cbn [fst snd] in Gp, Gq. destruct Gp as (? & ? & ?), Gq as (? & ? & ?). apply sized_bez; auto. }
  apply K. constructor.
Qed.
Lemma sized_path c (g : pt float -> pt float) cps closed n : (0 <= c)%Z -> (c + 7 < 1024)%Z -> (n <= 2 ^ 53)%Z ->
  Forall (fun p => sized2 c (g (cc p)) /\ sized2 c (g (cp_l p)) /\ sized2 c (g (cp_r p))) cps ->
  Forall (sized (c + 7)) (bez_path g cps closed n).
Proof.
  intros Hc L Hn H. unfold bez_path. destruct cps as [|p0 cps0]; [constructor|]. set (cps := p0 :: cps0) in *. clearbody cps.
  pose proof (neighbours_all _ cps closed H) as G. cbv zeta. revert G. generalize (combine cps (tl cps ++ if closed then cps else [])). intros l G.
  assert (K : forall acc, Forall (sized (c + 7)) acc -> Forall (sized (c + 7)) (fold_left
           (fun pts pq => let '(p, q) := pq in let bez_pts := bez (g (cc p)) (g (cp_r p)) (g (cp_l q)) (g (cc q)) n in
              match pts with [] => pts ++ bez_pts | _ => pts ++ skipn 2 bez_pts end) l acc)).
  { induction G as [|[p q] l [Gp Gq] _ IH]; intros acc Ha; cbn [fold_left]; [exact Ha|]. apply IH. cbv zeta. cbn [fst snd] in Gp, Gq. destruct Gp as (? & ? & ?), Gq as (? & ? & ?).
    assert (B : Forall (sized (c + 7)) (bez (g (cc p)) (g (cp_r p)) (g (cp_l q)) (g (cc q)) n)) by (apply sized_bez; auto).
    destruct acc; apply Forall_app; (split; [exact Ha|]); [exact B|now apply skipn_all]. }
  apply K. constructor.
Qed.
Definition sizedxy (k : Z) (xy : float * float) : Prop := sized k (fst xy) /\ sized k (snd xy).
Lemma sized_pairs k l : Forall (sized k) l -> Forall (sizedxy k) (pair_up l).
Proof.
  assert (G : forall n l, (List.length l <= n)%nat -> Forall (sized k) l -> Forall (sizedxy k) (pair_up l)).
  { induction n; intros [|x [|y r]] Hl H; cbn in Hl; try (cbn; constructor; fail); try lia. cbn [pair_up].
    inversion H as [|? ? A H']; subst. inversion H' as [|? ? B H'']; subst. constructor; [split; assumption|]. apply IHn; [lia|assumption]. }
  intros H. exact (G _ l (le_n _) H).
Qed.

(* ------------------------------------------------------------------ *)
(** ** elements *)

Definition sized_paths (k : Z) (r : res (list (path float))) : Prop :=
  match r with Ok ps => Forall (fun p => Forall (sizedxy k) (p_points p)) ps | Raise _ => True end.
Lemma sized_paths_le k l r : (k <= l)%Z -> sized_paths k r -> sized_paths l r.
Proof.
  intros H. destruct r as [ps|]; [|trivial]. cbn. intros G. eapply Forall_impl; [|exact G]. intros p Gp. eapply Forall_impl; [|exact Gp].
  intros xy [A B]. split; eapply sized_le; eassumption.
Qed.

Section Tree.
Context {RF : NumRoot float} {TF : NumTrig float}.
Hypothesis bez_90_small : sized 0 (@bez_90 float _ _).

Lemma sized_ellipse c p q : (0 <= c)%Z -> (c + 3 < 1023)%Z -> sized2 c p -> sized2 c q ->
  exists l, make_ellipse_p1p2_cps p q = Ok l /\ Forall (sizedc (c + 3)) l.
Proof.
  intros Hc L [Px Py] [Qx Qy]. unfold make_ellipse_p1p2_cps, bbox_of_pts, mkbbox. cbn [bbox_center bind bbox_width bbox_height].
  eexists. split; [reflexivity|]. 
  assert (Two : finite (float_ofZ 2) /\ 1 <= val (float_ofZ 2)).
  { destruct (const_ok 2 ltac:(vm_compute; discriminate)) as [F E]. split; [exact F|]. rewrite E. lra. }
  destruct Two as [F2 V2].
  assert (Zr : forall k, (0 <= k)%Z -> sized k (float_ofZ 0)) by (intros k Hk; apply sized_le with 0%Z; [exact Hk|]; apply sized_const; vm_compute; discriminate).
  ops. set (xl := pymin (px p) (px q)). set (xh := pymax (px p) (px q)). set (yl := pymin (py p) (py q)). set (yh := pymax (py p) (py q)).
  assert (Xl : sized c xl) by now apply sized_min. assert (Xh : sized c xh) by now apply sized_max.
  assert (Yl : sized c yl) by now apply sized_min. assert (Yh : sized c yh) by now apply sized_max. clearbody xl xh yl yh.
  assert (Cx : sized (c + 1) ((xl + xh) / float_ofZ 2)%float) by (apply sized_div; auto; [lia|]; apply sized_add; auto; lia).
  assert (Cy : sized (c + 1) ((yl + yh) / float_ofZ 2)%float) by (apply sized_div; auto; [lia|]; apply sized_add; auto; lia).
  assert (Wx : sized (c + 1) ((xh - xl) / float_ofZ 2)%float) by (apply sized_div; auto; [lia|]; apply sized_sub; auto; lia).
  assert (Wy : sized (c + 1) ((yh - yl) / float_ofZ 2)%float) by (apply sized_div; auto; [lia|]; apply sized_sub; auto; lia).
  revert Cx Cy Wx Wy bez_90_small. generalize ((xl + xh) / float_ofZ 2)%float as cx, ((yl + yh) / float_ofZ 2)%float as cy, ((xh - xl) / float_ofZ 2)%float as wx, ((yh - yl) / float_ofZ 2)%float as wy.
  unfold make_ellipse_cps. generalize (@bez_90 float _ _) as bz. intros bz wy wx cy cx Cx Cy Wx Wy Bz.
  assert (Up : forall x, sized (c + 1) x -> sized (c + 2) x) by (intros x; apply sized_le; lia).
  assert (Mb : forall x, sized (c + 1) x -> sized (c + 1) (x * bz)%float).
  { intros x Hx. replace (c + 1)%Z with (c + 1 + 0)%Z by lia. apply sized_mul; auto; lia. }
  assert (Mz : sized (c + 1) (float_ofZ 0 * bz)%float) by (apply Mb, Zr; lia).
  assert (Z1 : sized (c + 1) (float_ofZ 0)) by (apply Zr; lia).
  assert (Ad : forall x y, sized (c + 1) x -> sized (c + 1) y -> sized (c + 2) (x + y)%float) by (intros x y Hx Hy; replace (c + 2)%Z with (c + 1 + 1)%Z by lia; apply sized_add; auto; lia).
  assert (Sb : forall x y, sized (c + 1) x -> sized (c + 1) y -> sized (c + 2) (x - y)%float) by (intros x y Hx Hy; replace (c + 2)%Z with (c + 1 + 1)%Z by lia; apply sized_sub; auto; lia).
  assert (Ad2 : forall x y, sized (c + 2) x -> sized (c + 1) y -> sized (c + 3) (x + y)%float) by (intros x y Hx Hy; replace (c + 3)%Z with (c + 2 + 1)%Z by lia; apply sized_add; auto; lia).
  assert (Up3 : forall x, sized (c + 2) x -> sized (c + 3) x) by (intros x; apply sized_le; lia).
  repeat (apply Forall_cons; [split; [|split]; unfold sized2, cp_l, cp_r, p_add, p_subv, v_mul, v_neg; cbn [cc cdl cdr px py vx vy]; ops; split; auto 8 using sized_neg|]).
  apply Forall_nil.
Qed.

Lemma sized_leaf dc b sh a k c (M : mat float) : (0 <= a)%Z -> (0 <= k)%Z -> (0 <= c)%Z -> (a + (k + 2) + c + 12 <= 1000)%Z ->
  (points_per_curve dc <= 2 ^ 53)%Z -> sizedm a M -> numbers_below k c (ELeaf b sh) ->
  sized_paths (a + (k + 2) + c + 12) (snd (leaf_paths dc b sh (only M))).
Proof.
  intros Ha Hk Hc L Hn Sm [Sx W]. cbn [e_base] in Sx. unfold leaf_paths. rewrite !draw_space_pure. cbn [snd].
  pose proof (sizedm_dot a k M (tmat (e_xform b)) Ha Hk ltac:(lia) Sm Sx) as Sd.
  set (t := t_compose (tmat (e_xform b)) (t_push (only M))). assert (St : sizedm (a + k + 2) (tmat t)) by exact Sd. clearbody t. clear Sd Sm Sx.
  set (n := (a + k + 2)%Z) in *. assert (En : n = (a + k + 2)%Z) by reflexivity. clearbody n.
  destruct sh as [cps|p q|p q r|p q]; [| |contradiction|].
  - set (steps := if show_cps dc then 10%Z else points_per_curve dc).
    assert (Ls : (steps <= 2 ^ 53)%Z) by (unfold steps; destruct (show_cps dc); [lia|exact Hn]).
    assert (E : exists l, mapM (cp_transform (t_transform t) true) cps = Ok l /\ Forall (sizedc (n + c + 5)) l).
    { clear - W St L Ha Hk Hc En. induction W as [|p cps (Sc & Sl & Sr) _ (l & El & Hl)]; [exists []; split; [reflexivity|constructor]|].
      cbn [mapM]. unfold cp_transform at 1. cbn [bind]. rewrite El. cbn [bind]. eexists. split; [reflexivity|]. constructor; [|exact Hl].
      assert (Tc : sized2 (n + c + 3) (t_transform t (cc p))) by (apply sizedp_le with (n + c + 2)%Z; [lia|apply sized_apply; auto; lia]).
      assert (Tl : sized2 (n + c + 3) (t_transform t (cp_l p))) by (replace (n + c + 3)%Z with (n + (c + 1) + 2)%Z by lia; apply sized_apply; auto; try lia; apply sized_padd; auto; lia).
      assert (Tr : sized2 (n + c + 3) (t_transform t (cp_r p))) by (replace (n + c + 3)%Z with (n + (c + 1) + 2)%Z by lia; apply sized_apply; auto; try lia; apply sized_padd; auto; lia).
      assert (D : forall u, sized2 (n + c + 3) u -> sizedv (n + c + 4) (p_sub u (t_transform t (cc p)))).
      { intros u [A B]. destruct Tc. replace (n + c + 4)%Z with (n + c + 3 + 1)%Z by lia. split; apply sized_sub; auto; lia. }
      assert (Tc4 : sized2 (n + c + 4) (t_transform t (cc p))) by (eapply sizedp_le; [|exact Tc]; lia).
      replace (n + c + 5)%Z with (n + c + 4 + 1)%Z by lia. unfold sizedc, cp_l, cp_r. cbn [cc cdl cdr].
      split; [eapply sizedp_le; [|exact Tc]; lia|]. split; apply sized_padd; auto; try lia; apply D; assumption. }
    destruct E as (l & -> & Hl). cbn [bind sized_paths]. constructor; [|constructor]. cbn [p_points].
    apply sized_pairs. replace (a + (k + 2) + c + 12)%Z with (n + c + 5 + 7)%Z by lia. apply sized_curve; auto; lia.
  - destruct W as [[Px Py] [Qx Qy]]. unfold corners, t_transform_pts. cbn [bind map app sized_paths]. constructor; [|constructor]. cbn [p_points map].
    assert (K : forall x y, sized c x -> sized c y -> sizedxy (a + (k + 2) + c + 12) (p_xy (t_transform t (P x y)))).
    { intros x y X Y. destruct (sized_apply n c t (P x y) ltac:(lia) Hc ltac:(lia) St (conj X Y)) as [A B]. split; (eapply sized_le; [|eassumption]; lia). }
    destruct p as [x1 y1], q as [x2 y2]. cbn [px py] in *. repeat (apply Forall_cons; [apply K; assumption|]). apply Forall_nil.
  - destruct W as [Sp Sq]. destruct (sized_ellipse c p q Hc ltac:(lia) Sp Sq) as (l & -> & Hl). cbn [bind sized_paths]. constructor; [|constructor]. cbn [p_points].
    apply sized_pairs. replace (a + (k + 2) + c + 12)%Z with (n + (c + 3) + 2 + 7)%Z by lia. apply sized_path; try lia.
    eapply Forall_impl; [|exact Hl]. intros cp (A & B & C). split; [|split]; apply sized_apply; auto; lia.
Qed.

Lemma paths_app k ps qs : sized_paths k (Ok ps) -> sized_paths k (Ok qs) -> sized_paths k (Ok (ps ++ qs)).
Proof. cbn. intros. now apply Forall_app. Qed.
Lemma fold_ok {A B} (Q : B -> Prop) (g : B -> A -> res B) l : (forall a x y, In a l -> Q x -> g x a = Ok y -> Q y) ->
  forall x y, Q x -> foldM g x l = Ok y -> Q y.
Proof.
  induction l as [|a l IH]; intros G x y H E; cbn in E; [injection E as <-; exact H|].
  destruct (g x a) as [z|] eqn:Ez; [|discriminate]. cbn in E. eapply IH; [|eapply G; [now left|exact H|exact Ez]|exact E].
  intros; eapply G; eauto. now right.
Qed.
Lemma all_in' {A} (g : A -> Prop) (l : list A) a : fold_right and True (map g l) -> In a l -> g a.
Proof. induction l as [|b l IH]; cbn; [easy|]. intros [H K] [->|I]; auto. Qed.

Lemma sized_tree dc k c : (0 <= k)%Z -> (0 <= c)%Z -> (points_per_curve dc <= 2 ^ 53)%Z -> forall e a (M : mat float), (0 <= a)%Z ->
  (a + Z.of_nat (depth e) * (k + 2) + c + 12 <= 1000)%Z -> sizedm a M -> numbers_below k c e ->
  sized_paths (a + Z.of_nat (depth e) * (k + 2) + c + 12) (pic dc e M).
Proof.
  intros Hk Hc Hn. induction e as [b s|b h l p IH|b o i IHo IHi] using elem_induction; intros a M Ha L Sm W.
  - rewrite pic_leaf. cbn [depth] in L |- *. rewrite Z.mul_1_l in *. apply sized_leaf; auto.
  - destruct W as [Sx W]. destruct h; [rewrite pic_hidden; constructor|]. rewrite pic_group. cbn [e_base] in Sx.
    set (N := (a + Z.of_nat (depth (EGroup b false l p)) * (k + 2) + c + 12)%Z) in *.
    destruct (foldM _ [] l) as [ps|] eqn:E; [|exact I].
    eapply (fold_ok (fun ps => sized_paths N (Ok ps))); [|constructor|exact E].
    intros ke x y Ik Hx Ey. cbv beta in Ey. rewrite Forall_forall in IH.
    pose proof (max_in (fun ke => depth (snd ke)) l ke Ik) as D. cbv beta in D.
    assert (Dn : (a + k + 2 + Z.of_nat (depth (snd ke)) * (k + 2) + c + 12 <= N)%Z).
    { unfold N. cbn [depth]. rewrite Nat2Z.inj_succ. assert (Z.of_nat (depth (snd ke)) * (k + 2) <= Z.of_nat (fold_right Nat.max 0%nat (map (fun ke => depth (snd ke)) l)) * (k + 2))%Z by (apply Z.mul_le_mono_nonneg_r; lia). lia. }
    assert (0 <= Z.of_nat (depth (snd ke)) * (k + 2))%Z by (apply Z.mul_nonneg_nonneg; lia).
    pose proof (IH ke Ik (a + k + 2)%Z (mat_dot M (tmat (e_xform b))) ltac:(lia) ltac:(lia) (sizedm_dot _ _ _ _ Ha Hk ltac:(lia) Sm Sx) (all_in' (fun ke => numbers_below k c (snd ke)) l ke W Ik)) as K.
    destruct (pic dc (snd ke) _) as [qs|]; [|discriminate]. cbn [bind] in Ey. injection Ey as <-. apply paths_app; [exact Hx|]. eapply sized_paths_le; [exact Dn|exact K].
  - destruct W as [Sx [Wo Wi]]. rewrite pic_holes. cbn [e_base] in Sx.
    set (N := (a + Z.of_nat (depth (EHoles b o i)) * (k + 2) + c + 12)%Z) in *.
    assert (Kn : forall d, (d <= Nat.max (depth o) (fold_right Nat.max 0%nat (map depth i)))%nat -> (a + k + 2 + Z.of_nat d * (k + 2) + c + 12 <= N)%Z /\ (0 <= Z.of_nat d * (k + 2))%Z).
    { intros d Hd. split; [|apply Z.mul_nonneg_nonneg; lia]. unfold N. cbn [depth]. rewrite Nat2Z.inj_succ.
      assert (Z.of_nat d * (k + 2) <= Z.of_nat (Nat.max (depth o) (fold_right Nat.max 0%nat (map depth i))) * (k + 2))%Z by (apply Z.mul_le_mono_nonneg_r; lia). lia. }
    destruct (Kn (depth o) ltac:(lia)) as [Do Do0].
    pose proof (sizedm_dot _ _ _ _ Ha Hk ltac:(lia) Sm Sx) as Sd. set (M' := mat_dot M (tmat (e_xform b))) in *.
    pose proof (IHo (a + k + 2)%Z M' ltac:(lia) ltac:(lia) Sd Wo) as Ko. apply (sized_paths_le _ N) in Ko; [|exact Do].
    assert (Ki : forall e, In e i -> sized_paths N (pic dc e M')).
    { intros e Ie. rewrite Forall_forall in IHi. pose proof (max_in depth i e Ie) as D. destruct (Kn (depth e) ltac:(lia)) as [De De0].
      eapply sized_paths_le; [exact De|]. apply IHi; auto; try lia. exact (all_in' (numbers_below k c) i e Wi Ie). }
    unfold holes_pic. destruct (pic dc o M') as [[|p0 [|p1 ps]]|]; cbn [bind]; try exact I.
    assert (P0 : Forall (sizedxy N) (p_points p0)) by (inversion Ko; assumption).
    assert (Sp : forall pb qs, sized_paths N (Ok qs) -> sized_paths N (Ok (map (path_set_pb pb) qs))).
    { intros pb qs H. cbn in *. apply Forall_map. eapply Forall_impl; [|exact H]. intros q Hq. exact Hq. }
    destruct (pb_brush (e_pb b)) as [br|].
    + destruct (foldM _ _ i) as [ef|] eqn:E; [|exact I]. cbn [bind].
      assert (G : sized_paths N (Ok (fst ef)) /\ Forall (sizedxy N) (p_points (snd ef))).
      { refine (fold_ok (fun ef => sized_paths N (Ok (fst ef)) /\ Forall (sizedxy N) (p_points (snd ef))) _ i _ _ _ _ E); [|split; [constructor; [exact P0|constructor]|exact P0]].
        intros e x y Ie Hx Ey. cbv beta in Ey. specialize (Ki e Ie). destruct (pic dc e M') as [qs|]; [|discriminate]. cbn [bind] in Ey. unfold hole_filled in Ey.
        eapply (fold_ok (fun ef => sized_paths N (Ok (fst ef)) /\ Forall (sizedxy N) (p_points (snd ef)))); [|exact Hx|exact Ey].
        intros q u v Iq [Hu Hf] Ev. cbv beta zeta in Ev. unfold path_extend in Ev. cbn [sized_paths] in Ki. rewrite Forall_forall in Ki. pose proof (Ki q Iq) as Hq.
        destruct (rev (p_points (snd u))) as [|z zs] eqn:Ez; [discriminate|]. cbn [bind] in Ev. injection Ev as <-. cbn [fst snd p_points].
        split; [apply paths_app; [exact Hu|]; apply Sp; apply Forall_forall; exact Ki|].
        apply Forall_app. split; [exact Hf|]. apply Forall_app. split; [exact Hq|]. constructor; [|constructor].
        rewrite Forall_forall in Hf. apply Hf. apply in_rev. rewrite Ez. now left. }
      destruct G. constructor; assumption.
    + destruct (foldM _ _ i) as [qs|] eqn:E; [|exact I].
      refine (fold_ok (fun qs => sized_paths N (Ok qs)) _ i _ _ _ _ E); [|constructor; [exact P0|constructor]].
      intros e x y Ie Hx Ey. cbv beta in Ey. specialize (Ki e Ie). destruct (pic dc e M') as [rs|]; [|discriminate]. cbn [bind] in Ey. injection Ey as <-.
      apply paths_app; [exact Hx|]. apply Sp. exact Ki.
Qed.
End Tree.

(* ------------------------------------------------------------------ *)
(** ** the theorems *)

(* When all transforms of a tree have entries up to 2^k, and all coordinates are up to 2^c, every coordinate that is drawn
   is finite: no operation overflows.  Its size grows by k + 2 binary digits for each level of nesting. *)
Theorem C93_finite {RF : NumRoot float} {TF : NumTrig float} (dc : dctx) (e : elem float) (m : transform float) (a k c : Z) ps p x y :
  (0 <= a)%Z -> (0 <= k)%Z -> (0 <= c)%Z -> (a + Z.of_nat (depth e) * (k + 2) + c + 12 <= 1000)%Z ->
  sized 0 (@bez_90 float _ _) -> (points_per_curve dc <= 2 ^ 53)%Z -> sizedm a (tmat m) -> numbers_below k c e ->
  snd (elem_paths dc e m) = Ok ps -> In p ps -> In (x, y) (p_points p) ->
  finite x /\ finite y /\ Rabs (val x) <= bpow radix2 (a + Z.of_nat (depth e) * (k + 2) + c + 12) /\
  Rabs (val y) <= bpow radix2 (a + Z.of_nat (depth e) * (k + 2) + c + 12).
Proof.
  intros Ha Hk Hc L Hb Hn Sm W E Ip Iq. rewrite (proj2 (paths_tame dc e m)) in E.
  pose proof (sized_tree Hb dc k c Hk Hc Hn e a (tmat m) Ha L Sm W) as K. rewrite E in K. cbn [sized_paths] in K.
  rewrite Forall_forall in K. specialize (K p Ip). rewrite Forall_forall in K. destruct (K (x, y) Iq) as [[A B] [C D]]. auto.
Qed.

(* so the errors of C89 hold for every coordinate *)
Theorem C93_close {RF : NumRoot float} {TF : NumTrig float} (dc : dctx) (e : elem float) (m : transform float) (a k c : Z) (s : R) ps ps' :
  (0 <= a)%Z -> (0 <= k)%Z -> (0 <= c)%Z -> (a + Z.of_nat (depth e) * (k + 2) + c + 12 <= 1000)%Z ->
  sized 0 (@bez_90 float _ _) -> (points_per_curve dc <= 2 ^ 53)%Z -> sizedm a (tmat m) -> numbers_below k c e -> within s (absm (tmat m)) e ->
  snd (elem_paths dc e m) = Ok ps -> snd (elem_paths dc (val_elem e) (valt m)) = Ok ps' ->
  let d := ((1 + eps) ^ (3 * depth e + 30) - 1) * (27 * s + 85 * tiny) in
  Forall2 (fun p p' => p_closed p = p_closed p' /\
    Forall2 (fun xy xy' => finite (fst xy) /\ finite (snd xy) /\ Rabs (val (fst xy) - fst xy') <= d /\ Rabs (val (snd xy) - snd xy') <= d) (p_points p) (p_points p')) ps ps'.
Proof.
  intros Ha Hk Hc L Hb Hn Sm W Wi E E'. cbv zeta. pose proof (C89_tree dc e m s Hn Wi) as T. rewrite E, E' in T.
  assert (F : forall p xy, In p ps -> In xy (p_points p) -> finite (fst xy) /\ finite (snd xy)).
  { intros p [x y] Ip Iq. destruct (C93_finite dc e m a k c ps p x y Ha Hk Hc L Hb Hn Sm W E Ip Iq) as (? & ? & _). auto. }
  clear - T F. induction T as [|p p' l l' [C H] _ IH]; constructor.
  - split; [exact C|]. assert (G : forall xy, In xy (p_points p) -> finite (fst xy) /\ finite (snd xy)) by (intros xy I; apply (F p); [now left|exact I]).
    clear - H G. induction H as [|xy xy' q q' [Cx Cy] _ IH]; constructor; [|apply IH; intros; apply G; now right].
    destruct (G xy (or_introl eq_refl)). auto.
  - apply IH. intros q xy Iq. apply F. now right.
Qed.

(* Without such bounds drawing overflows, although all numbers of the element are finite: twice 2^600. *)
Definition huge : elem float :=
  (EGroup (plain "all" (T (M 0x1p600 0 0 0 0x1p600 0 0 0 1) None [])) false
    [("rect", ELeaf (plain "rect" (T (M 0x1p600 0 0 0 0x1p600 0 0 0 1) None [])) (SRect (P 1 1) (P 2 2)))] [])%float%string.
Theorem C93_unbounded_refuted : numbers_below 600 1 huge /\
  exists p x y, snd (@elem_paths float _ _ c_library (DC false 20) huge t_new) = Ok [p] /\ In (x, y) (p_points p) /\ ~ finite x /\ ~ finite y.
Proof.
  split.
  - assert (C : forall z k, (Z.abs z <= 2 ^ 53)%Z -> (0 <= k)%Z -> (Z.abs z <= 2 ^ k)%Z -> sized k (float_ofZ z)) by (intros; now apply sized_const).
    assert (B : sized 600 0x1p600%float).
    { split; [vm_compute; reflexivity|]. unfold val. rewrite <- SF2R_B2SF, B2SF_Prim2B.
      replace (Prim2SF 0x1p600%float) with (S754_finite false 4503599627370496 548) by (vm_compute; reflexivity).
      cbn [SF2R]. unfold F2R. cbn [Fnum Fexp cond_Zopp]. change (IZR 4503599627370496) with (IZR (radix2 ^ 52)). rewrite IZR_Zpower by lia. rewrite <- bpow_plus.
      rewrite Rabs_right by (apply Rle_ge, bpow_ge_0). apply Rle_refl. }
    assert (Z0 : sized 600 0%float) by (apply (C 0%Z 600%Z); vm_compute; discriminate). assert (O0 : sized 600 1%float) by (apply (C 1%Z 600%Z); vm_compute; discriminate).
    assert (O1 : sized 1 1%float) by (apply (C 1%Z 1%Z); vm_compute; discriminate). assert (T1 : sized 1 2%float) by (apply (C 2%Z 1%Z); vm_compute; discriminate).
    unfold huge. cbn [numbers_below e_base e_xform plain tmat map fold_right snd]. unfold sizedm, sized2. cbn [m00 m01 m02 m10 m11 m12 m20 m21 m22 px py]. tauto.
  - vm_compute. do 3 eexists. split; [reflexivity|]. cbn [p_points]. split; [left; reflexivity|]. split; discriminate.
Qed.

(* the picture of C89 *)
Example C93_example : sized 0 (@bez_90 float _ c_library) /\ sizedm 0 (tmat (@t_new float _)) /\ numbers_below 7 4 picture /\ depth picture = 3%nat /\
  @within c_library 1000 (absm (tmat t_new)) picture /\
  exists l, snd (@elem_paths float _ _ c_library (DC false 20) picture t_new) = Ok l /\ List.length l = 5%nat.
Proof.
  assert (C : forall z k, (Z.abs z <= 2 ^ 53)%Z -> (0 <= k)%Z -> (Z.abs z <= 2 ^ k)%Z -> sized k (float_ofZ z)) by (intros; now apply sized_const).
  split; [|split; [|split; [|split; [reflexivity|destruct C89_example as (X1 & _ & X2); exact (conj X1 X2)]]]].
  - split; [vm_compute; reflexivity|]. pose proof c_library_accurate as A. rewrite bez_90_R, P_float6.eps_num in A.
    assert (H : sqrt 2 * sqrt 2 = 2) by (apply sqrt_def; lra). pose proof (sqrt_pos 2).
    assert (14 / 10 <= sqrt 2 <= 15 / 10) by (split; nra). change (bpow radix2 0) with 1. apply Rabs_le_inv in A. apply Rabs_le. lra.
  - unfold sizedm, t_new, mat_id. cbn [tmat m00 m01 m02 m10 m11 m12 m20 m21 m22]. ops.
    assert (sized 0 (float_ofZ 0)) by (apply C; vm_compute; discriminate). assert (sized 0 (float_ofZ 1)) by (apply C; vm_compute; discriminate). tauto.
  - assert (A0 : sized 7 0%float) by (apply (C 0%Z); vm_compute; discriminate). assert (A1 : sized 7 1%float) by (apply (C 1%Z); vm_compute; discriminate).
    assert (A2 : sized 7 2%float) by (apply (C 2%Z); vm_compute; discriminate). assert (A3 : sized 7 100%float) by (apply (C 100%Z); vm_compute; discriminate).
    assert (A4 : sized 7 50%float) by (apply (C 50%Z); vm_compute; discriminate).
    assert (B0 : sized 4 0%float) by (apply (C 0%Z); vm_compute; discriminate). assert (B1 : sized 4 1%float) by (apply (C 1%Z); vm_compute; discriminate).
    assert (B2 : sized 4 2%float) by (apply (C 2%Z); vm_compute; discriminate). assert (B3 : sized 4 10%float) by (apply (C 10%Z); vm_compute; discriminate).
    assert (B4 : sized 4 5%float) by (apply (C 5%Z); vm_compute; discriminate). assert (B5 : sized 4 4%float) by (apply (C 4%Z); vm_compute; discriminate).
    unfold picture, t_new, mat_id. cbn [numbers_below e_base e_xform plain tmat map fold_right snd]. unfold sizedm, sized2, sizedv. cbn [m00 m01 m02 m10 m11 m12 m20 m21 m22 px py]. ops.
    change (float_ofZ 0) with 0%float. change (float_ofZ 1) with 1%float.
    repeat match goal with |- _ /\ _ => split | |- True => exact I | |- Forall _ [] => constructor | |- Forall _ (_ :: _) => constructor; cbn [cc cdl cdr px py vx vy] | |- sized _ _ => assumption end.
Qed.
