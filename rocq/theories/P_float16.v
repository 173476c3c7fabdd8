(* Property theorems C89: the points drawn for an element, on doubles. *)
From Coq Require Import Reals Floats ZArith List Lra Lia String.
From Flocq Require Import Core BinarySingleNaN PrimFloat.
Require Import Verif.Base Verif.NumFloat Verif.NumR Verif.M_vector Verif.M_bbox Verif.M_transform Verif.M_bezier Verif.M_colors Verif.M_elems Verif.M_group.
Require Import Verif.S_float Verif.L_float Verif.L_float2 Verif.S_bezier Verif.S_elems Verif.S_group Verif.S_gdraw Verif.L_elems Verif.L_group Verif.L_gdraw Verif.P_ellipse Verif.P_float Verif.P_float2 Verif.P_float3 Verif.P_float5 Verif.P_float6 Verif.P_float9.
Import ListNotations.
Set Warnings "-inexact-float".
Local Open Scope R_scope.

(* ------------------------------------------------------------------ *)
(** ** the samples of a segment whose control points are already rounded *)

Lemma near_sample (a b c d t : float) (ra rb rc rd rt m : R) j : 0 <= rt <= 1 -> 0 <= val t <= 1 -> finite t -> Rabs (val t - rt) <= 2 * eps ->
  near j m a ra -> near j m b rb -> near j m c rc -> near j m d rd ->
  let s := (1 - t)%float in
  near (j + 15) (9 * m + 4 * tiny)
    (s * (s * s) * a + float_ofZ 3 * (s * s * t) * b + float_ofZ 3 * (s * (t * t)) * c + t * (t * t) * d)%float
    ((1 - rt) * ((1 - rt) * (1 - rt)) * ra + 3 * ((1 - rt) * (1 - rt) * rt) * rb
     + 3 * ((1 - rt) * (rt * rt)) * rc + rt * (rt * rt) * rd).
Proof.
  intros Hr Ht Ft Hd Na Nb Nc Nd s. pose proof tiny_pos as Tp. pose proof eps_pos as Ep.
  assert (Nt : near 2 1 t rt). { split; [rewrite Rabs_right; lra|]. intros _. cbn [pow]. nra. }
  assert (Ns : near 3 1 s (1 - rt)).
  { split; [rewrite Rabs_right; lra|]. intros F. destruct (near_diff 1%float t) as [_ N]. specialize (N F).
    assert (val 1%float = 1) as E1. { change 1%float with (float_ofZ 1). apply (const_ok 1). vm_compute. discriminate. }
    rewrite E1 in N. rewrite (Rabs_right (1 - val t)) in N by lra. fold s in N.
    replace (val s - (1 - rt)) with ((val s - (1 - val t)) + - (val t - rt)) by ring.
    eapply Rle_trans; [apply Rabs_triang|]. rewrite Rabs_Ropp. cbn [pow] in *. nra. }
  assert (N3 : near 0 3 (float_ofZ 3) 3) by (apply (near_const 3); vm_compute; discriminate).
  pose proof (near_mul _ _ _ _ _ _ _ _ Ns Ns) as S2. pose proof (near_mul _ _ _ _ _ _ _ _ Ns S2) as S3.
  pose proof (near_mul _ _ _ _ _ _ _ _ Nt Nt) as T2. pose proof (near_mul _ _ _ _ _ _ _ _ Nt T2) as T3.
  pose proof (near_mul _ _ _ _ _ _ _ _ S2 Nt) as S2T. pose proof (near_mul _ _ _ _ _ _ _ _ Ns T2) as ST2.
  pose proof (near_mul _ _ _ _ _ _ _ _ S3 Na) as A1.
  pose proof (near_mul _ _ _ _ _ _ _ _ (near_mul _ _ _ _ _ _ _ _ N3 S2T) Nb) as A2.
  pose proof (near_mul _ _ _ _ _ _ _ _ (near_mul _ _ _ _ _ _ _ _ N3 ST2) Nc) as A3.
  pose proof (near_mul _ _ _ _ _ _ _ _ T3 Nd) as A4.
  pose proof (near_add _ _ _ _ _ _ _ _ (near_add _ _ _ _ _ _ _ _ (near_add _ _ _ _ _ _ _ _ A1 A2) A3) A4) as N.
  eapply near_scaled; [exact N|clear; lia|].
  assert (0 <= m) by (destruct Na as [Na _]; pose proof (Rabs_pos ra); lra).
  assert (tiny <= 1 / 180).
  { unfold tiny. apply Rle_trans with (/ 2 ^ 8).
    - apply Rinv_le_contravar; [lra|]. apply Rle_pow; [lra|lia].
    - lra. }
  assert (tiny * m <= m / 180) by nra. lra.
Qed.

(* two coordinates, two pairs of coordinates *)
Definition near2 (n : nat) (A : R) (q : float * float) (q' : R * R) : Prop := near n A (fst q) (fst q') /\ near n A (snd q) (snd q').
Definition nearp (n : nat) (A : R) (p : pt float) (p' : pt R) : Prop := near n A (px p) (px p') /\ near n A (py p) (py p').

Lemma near_samples (a b c d : pt float) (ra rb rc rd : pt R) (steps : Z) m j : (steps <= max_whole)%Z ->
  nearp j m a ra -> nearp j m b rb -> nearp j m c rc -> nearp j m d rd ->
  Forall2 (near2 (j + 15) (9 * m + 4 * tiny)) (bez_xy a b c d steps) (bez_xy ra rb rc rd steps).
Proof.
  intros Hs [Ax Ay] [Bx By] [Cx Cy] [Dx Dy]. pose proof tiny_pos.
  assert (0 <= m) by (destruct Ax as [Na _]; pose proof (Rabs_pos (px ra)); lra).
  unfold bez_xy. constructor.
  { split; cbn [fst snd]; (eapply near_weaken; [| |eassumption]; [lia|lra]). }
  apply Forall2_app.
  2: { constructor; [|constructor]. split; cbn [fst snd]; (eapply near_weaken; [| |eassumption]; [lia|lra]). }
  assert (G : forall i, In i (seq 1 (Z.to_nat (steps - 1))) -> (1 <= i < 1 + Z.to_nat (steps - 1))%nat) by (intros i; apply in_seq).
  revert G. generalize (seq 1 (Z.to_nat (steps - 1))) as l. induction l as [|i l IH]; intros G; [constructor|].
  cbn [map]. constructor; [|apply IH; intros k Hk; apply G; right; exact Hk].
  specialize (G i (or_introl eq_refl)).
  destruct (quotient (Z.of_nat i) steps ltac:(lia) ltac:(lia)) as (F & V & Q).
  assert (0 < IZR steps) by (apply IZR_lt; lia). assert (0 <= IZR (Z.of_nat i)) by (apply IZR_le; lia). assert (IZR (Z.of_nat i) <= IZR steps) by (apply IZR_le; lia).
  assert (R01 : 0 <= IZR (Z.of_nat i) / IZR steps <= 1).
  { pose proof (Rinv_0_lt_compat _ H1). unfold Rdiv. split; [nra|]. replace 1 with (IZR steps * / IZR steps) by (apply Rinv_r; lra). apply Rmult_le_compat_r; lra. }
  unfold bez_at. split; cbn [fst snd]; ops; apply near_sample; assumption.
Qed.

(* ------------------------------------------------------------------ *)
(** ** lists of coordinates *)

Lemma flat_near n A l l' : Forall2 (near2 n A) l l' -> Forall2 (near n A) (xy_flatten l) (xy_flatten l').
Proof. induction 1 as [|[x y] [x' y'] l l' [Hx Hy] _ IH]; [constructor|]. cbn. constructor; [exact Hx|]. constructor; [exact Hy|exact IH]. Qed.
Lemma pair_near n A : forall l l', Forall2 (near n A) l l' -> Forall2 (near2 n A) (pair_up l) (pair_up l').
Proof.
  assert (G : forall k l l', (List.length l <= k)%nat -> Forall2 (near n A) l l' -> Forall2 (near2 n A) (pair_up l) (pair_up l')).
  { induction k as [|k IH]; intros l l' L H.
    - destruct H; [constructor|cbn in L; lia].
    - destruct H as [|x x' l l' Hx H]; [constructor|]. destruct H as [|y y' l l' Hy H]; [constructor|].
      cbn [pair_up]. constructor; [split; assumption|]. apply IH; [cbn in L; lia|exact H]. }
  intros l l'. exact (G (List.length l) l l' (le_n _)).
Qed.
Lemma skip_near {X Y} (Q : X -> Y -> Prop) k : forall l l', Forall2 Q l l' -> Forall2 Q (skipn k l) (skipn k l').
Proof. induction k as [|k IH]; intros l l' H; [exact H|]. destruct H; [constructor|]. cbn. apply IH. assumption. Qed.
Lemma combine_near {X Y} (Q : X -> Y -> Prop) l l' : Forall2 Q l l' -> forall k k', Forall2 Q k k' ->
  Forall2 (fun a b => Q (fst a) (fst b) /\ Q (snd a) (snd b)) (combine l k) (combine l' k').
Proof. induction 1 as [|x x' l l' Hx _ IH]; intros k k' K; [constructor|]. destruct K; [constructor|]. cbn. constructor; [split; assumption|apply IH; assumption]. Qed.
Lemma tl_near {X Y} (Q : X -> Y -> Prop) l l' : Forall2 Q l l' -> Forall2 Q (tl l) (tl l').
Proof. destruct 1; [constructor|assumption]. Qed.

Lemma weaker2 {X Y} (Q Q' : X -> Y -> Prop) l l' : (forall x y, Q x y -> Q' x y) -> Forall2 Q l l' -> Forall2 Q' l l'.
Proof. intros H. induction 1; constructor; auto. Qed.

(* the three points of a control point *)
Definition nearc (n : nat) (A : R) (c : cpoint float) (c' : cpoint R) : Prop :=
  nearp n A (cc c) (cc c') /\ nearp n A (cp_l c) (cp_l c') /\ nearp n A (cp_r c) (cp_r c').

Lemma curve_near n A steps closed cps cps' : (steps <= max_whole)%Z -> Forall2 (nearc n A) cps cps' ->
  Forall2 (near (n + 15) (9 * A + 4 * tiny)) (curve_points cps closed steps) (curve_points cps' closed steps).
Proof.
  intros Hs H. unfold curve_points.
  assert (C : Forall2 (fun a b => nearc n A (fst a) (fst b) /\ nearc n A (snd a) (snd b))
    (combine cps (tl cps ++ (if closed then cps else []))) (combine cps' (tl cps' ++ (if closed then cps' else [])))).
  { apply combine_near; [exact H|]. apply Forall2_app; [apply tl_near; exact H|]. destruct closed; [exact H|constructor]. }
  revert C. generalize (combine cps (tl cps ++ (if closed then cps else []))) as l, (combine cps' (tl cps' ++ (if closed then cps' else []))) as l'.
  intros l l' C.
  assert (G : forall acc acc' k, Forall2 (near (n + 15) (9 * A + 4 * tiny)) acc acc' ->
    Forall2 (near (n + 15) (9 * A + 4 * tiny))
      (fst (fold_left (fun (acc : list float * nat) pq => let '(p, q) := pq in
         (fst acc ++ skipn (snd acc) (bez (cc p) (cp_r p) (cp_l q) (cc q) steps), 2%nat)) l (acc, k)))
      (fst (fold_left (fun (acc : list R * nat) pq => let '(p, q) := pq in
         (fst acc ++ skipn (snd acc) (bez (cc p) (cp_r p) (cp_l q) (cc q) steps), 2%nat)) l' (acc', k)))).
  { induction C as [|[p q] [p' q'] l l' [(P1 & P2 & P3) (Q1 & Q2 & Q3)] _ IH]; intros acc acc' k I; [exact I|].
    cbn [fold_left fst snd]. apply IH. apply Forall2_app; [exact I|]. apply skip_near. unfold bez. apply flat_near.
    cbn [fst snd] in *. apply near_samples; assumption. }
  apply G. constructor.
Qed.

(* bez_path under a map: the points of the control points after the map *)
Definition nearf (n : nat) (A : R) (g : pt float -> pt float) (g' : pt R -> pt R) (c : cpoint float) (c' : cpoint R) : Prop :=
  nearp n A (g (cc c)) (g' (cc c')) /\ nearp n A (g (cp_l c)) (g' (cp_l c')) /\ nearp n A (g (cp_r c)) (g' (cp_r c')).
Lemma path_points_near n A steps closed g g' cps cps' : (steps <= max_whole)%Z -> Forall2 (nearf n A g g') cps cps' ->
  Forall2 (near (n + 15) (9 * A + 4 * tiny)) (bez_path g cps closed steps) (bez_path g' cps' closed steps).
Proof.
  intros Hs H. unfold bez_path.
  assert (C : Forall2 (fun a b => nearf n A g g' (fst a) (fst b) /\ nearf n A g g' (snd a) (snd b))
    (combine cps (tl cps ++ (if closed then cps else []))) (combine cps' (tl cps' ++ (if closed then cps' else [])))).
  { apply combine_near; [exact H|]. apply Forall2_app; [apply tl_near; exact H|]. destruct closed; [exact H|constructor]. }
  destruct H as [|c c' l l' _ _]; [constructor|]. revert C.
  generalize (combine (c :: l) (tl (c :: l) ++ (if closed then c :: l else []))) as k, (combine (c' :: l') (tl (c' :: l') ++ (if closed then c' :: l' else []))) as k'.
  intros k k' C. assert (I : Forall2 (near (n + 15) (9 * A + 4 * tiny)) (@nil float) (@nil R)) by constructor. revert I.
  generalize (@nil float) as acc, (@nil R) as acc'.
  induction C as [|[p q] [p' q'] k k' [(P1 & P2 & P3) (Q1 & Q2 & Q3)] _ IH]; intros acc acc' I; [exact I|].
  cbn [fold_left]. apply IH. cbn [fst snd] in *.
  assert (B : Forall2 (near (n + 15) (9 * A + 4 * tiny)) (bez (g (cc p)) (g (cp_r p)) (g (cp_l q)) (g (cc q)) steps)
    (bez (g' (cc p')) (g' (cp_r p')) (g' (cp_l q')) (g' (cc q')) steps)).
  { unfold bez. apply flat_near. apply near_samples; assumption. }
  destruct I as [|x x' acc acc' Hx I]; [exact B|].
  apply Forall2_app; [constructor; assumption|]. apply skip_near. exact B.
Qed.

(* ------------------------------------------------------------------ *)
(** ** control points under the drawing matrix *)

(* The size to compare an error with.  The matrices and the coordinates are replaced by their absolute
   values, so that nothing cancels; a handle counts with its own size on top of that of its point. *)
Definition reach (m x : transform float) (p : pt R) : pt R := mat_apply (abs_dot (absm (tmat m)) (absm (tmat x))) p.
Definition spread (c : cpoint float) : pt R :=
  let a v := Rabs (val v) in
  P (a (px (cc c)) + a (vx (cdl c)) + a (vx (cdr c))) (a (py (cc c)) + a (vy (cdl c)) + a (vy (cdr c))).

Lemma transformed_near {RF : NumRoot float} {RR : NumRoot R} k Z (t : transform float) (t' : transform R) (c : cpoint float) (s : R) :
  nearm k Z (tmat t) (tmat t') -> px (mat_apply Z (spread c)) <= s -> py (mat_apply Z (spread c)) <= s ->
  exists c1 c2, cp_transform (t_transform t) true c = Ok c1 /\ cp_transform (t_transform t') true (valc c) = Ok c2 /\
    nearc (k + 6) (3 * s + 9 * tiny) c1 c2.
Proof.
  intros (A0 & A1 & A2 & A3 & A4 & A5 & _) Hx Hy. unfold cp_transform. do 2 eexists. split; [reflexivity|]. split; [reflexivity|].
  assert (One : forall j, near j 1 1%float 1).
  { intros j. eapply (near_scaled 0); [apply (near_const 1); vm_compute; discriminate|lia|cbn; lra]. }
  pose proof tiny_pos as Tp. destruct c as [[cx cy] [lx ly] [rx ry] kd]. unfold spread in Hx, Hy. cbn [cc cdl cdr px py vx vy] in Hx, Hy.
  unfold mat_apply in Hx, Hy. cbn [px py] in Hx, Hy. ops_in Hx. ops_in Hy.
  assert (Sum : forall a b, near 1 (Rabs (val a) + Rabs (val b)) (a + b)%float (val a + val b)) by (intros a b; exact (near_add 0 0 _ _ _ _ _ _ (near_leaf a) (near_leaf b))).
  pose proof (Rabs_pos (val cx)). pose proof (Rabs_pos (val cy)). pose proof (Rabs_pos (val lx)). pose proof (Rabs_pos (val ly)).
  pose proof (Rabs_pos (val rx)). pose proof (Rabs_pos (val ry)).
  (* one row of the matrix *)
  assert (Row : forall a0 a1 a2 (f0 f1 f2 : float) r0 r1 r2, near k a0 f0 r0 -> near k a1 f1 r1 -> near k a2 f2 r2 ->
    a0 * (Rabs (val cx) + Rabs (val lx) + Rabs (val rx)) + a1 * (Rabs (val cy) + Rabs (val ly) + Rabs (val ry)) + a2 * 1 <= s ->
    near (k + 3) (s + 3 * tiny) (f0 * cx + f1 * cy + f2 * 1)%float (r0 * val cx + r1 * val cy + r2 * 1) /\
    forall u v, (u = lx /\ v = ly) \/ (u = rx /\ v = ry) ->
      near (k + 4) (s + 3 * tiny) (f0 * (cx + u) + f1 * (cy + v) + f2 * 1)%float (r0 * (val cx + val u) + r1 * (val cy + val v) + r2 * 1)).
  { intros a0 a1 a2 f0 f1 f2 r0 r1 r2 N0 N1 N2 L.
    assert (0 <= a0) by (destruct N0 as [N0 _]; pose proof (Rabs_pos r0); lra).
    assert (0 <= a1) by (destruct N1 as [N1 _]; pose proof (Rabs_pos r1); lra).
    assert (M0 : forall p q r, 0 <= p -> 0 <= q -> 0 <= r -> 0 <= p * q /\ 0 <= p * r) by (intros; split; nra).
    destruct (M0 a0 _ _ H5 H1 H3) as [K1 K2]. destruct (M0 a1 _ _ H6 H2 H4) as [K3 K4].
    split.
    - eapply near_scaled; [apply (near_dot3 k 0); [exact N0|exact N1|exact N2|apply near_leaf|apply near_leaf|apply One]|lia|lra].
    - intros u v [[-> ->]|[-> ->]]; (eapply near_scaled; [apply (near_dot3 k 1); [exact N0|exact N1|exact N2|apply Sum|apply Sum|apply One]|lia|lra]). }
  destruct (Row _ _ _ _ _ _ _ _ _ A0 A1 A2 Hx) as [Cx Ux]. destruct (Row _ _ _ _ _ _ _ _ _ A3 A4 A5 Hy) as [Cy Uy].
  assert (Hs : 0 <= s + 3 * tiny) by (destruct Cx as [Cx _]; eapply Rle_trans; [apply Rabs_pos|exact Cx]).
  assert (Re : forall e g rf rg, near (k + 3) (s + 3 * tiny) e rf -> near (k + 4) (s + 3 * tiny) g rg ->
    near (k + 6) (3 * s + 9 * tiny) (e + (g - e))%float (rf + (rg - rf))).
  { intros e g rf rg Nf Ng. eapply near_scaled; [apply near_add; [exact Nf|apply near_sub; [exact Ng|exact Nf]]|clear; lia|lra]. }
  unfold nearc, nearp, cp_l, cp_r, t_transform, t_compose, t_push, valc, valt, valp, valv, p_add, p_sub, mat_apply.
  cbn [cc cdl cdr px py vx vy tmat]. ops. 
  split; [|split]; split.
  - eapply near_scaled; [exact Cx|lia|lra].
  - eapply near_scaled; [exact Cy|lia|lra].
  - apply Re; [exact Cx|apply Ux; auto].
  - apply Re; [exact Cy|apply Uy; auto].
  - apply Re; [exact Cx|apply Ux; auto].
  - apply Re; [exact Cy|apply Uy; auto].
Qed.

(* ------------------------------------------------------------------ *)
(** ** what is drawn *)

(* a drawn point on doubles and one on exact numbers *)
Definition close_by (e : R) (q : float * float) (q' : R * R) : Prop :=
  (finite (fst q) -> Rabs (val (fst q) - fst q') <= e) /\ (finite (snd q) -> Rabs (val (snd q) - snd q') <= e).

(* A curve: as many points are drawn as with exact arithmetic, in the same order, and each is close to
   the exact one. *)
Theorem C89_curve {RF : NumRoot float} {RR : NumRoot R} {TF : NumTrig float} {TR : NumTrig R}
    (dc : dctx) (b : ebase float) (b' : ebase R) (cps : list (cpoint float)) (m : transform float) (s : R) :
  (points_per_curve dc <= 2 ^ 53)%Z -> e_closed b' = e_closed b -> e_xform b' = valt (e_xform b) ->
  (forall c, In c cps -> px (reach m (e_xform b) (spread c)) <= s /\ py (reach m (e_xform b) (spread c)) <= s) ->
  exists l l',
    snd (leaf_paths dc b (SCurve cps) m) = Ok [Path (e_pb b) (e_closed b) l] /\
    snd (leaf_paths dc b' (SCurve (map valc cps)) (valt m)) = Ok [Path (e_pb b') (e_closed b) l'] /\
    Forall2 (close_by (700 * eps * (s + 4 * tiny))) l l'.
Proof.
  intros Hn Hc Hx Hs. unfold leaf_paths. rewrite !draw_space_pure. cbn [snd]. rewrite Hc, Hx. cbn [valt tmat].
  change (T (valm (tmat m)) (option_map valm (tinv m)) (map valm (tstack m))) with (valt m).
  set (n := if show_cps dc then 10%Z else points_per_curve dc).
  assert (Ln : (n <= max_whole)%Z) by (unfold n; destruct (show_cps dc); [vm_compute; discriminate|exact Hn]).
  assert (E : exists l l', mapM (cp_transform (t_transform (t_compose (tmat (e_xform b)) (t_push m))) true) cps = Ok l /\
    mapM (cp_transform (t_transform (t_compose (valm (tmat (e_xform b))) (t_push (valt m)))) true) (map valc cps) = Ok l' /\
    Forall2 (nearc 9 (3 * s + 9 * tiny)) l l').
  { clear - Hs. induction cps as [|c cps IH].
    - exists [], []. repeat split; constructor.
    - destruct IH as (l & l' & E1 & E2 & N); [intros d Hd; apply Hs; right; exact Hd|].
      destruct (Hs c (or_introl eq_refl)) as [Sx Sy].
      destruct (transformed_near 3 _ (t_compose (tmat (e_xform b)) (t_push m)) (t_compose (valm (tmat (e_xform b))) (t_push (valt m))) c s
        (nearm_dot _ _ _ _ _ _ _ _ (nearm_leaf (tmat m)) (nearm_leaf (tmat (e_xform b)))) Sx Sy) as (c1 & c2 & F1 & F2 & Nc).
      exists (c1 :: l), (c2 :: l'). cbn [mapM map]. rewrite F1, F2. cbn [bind]. rewrite E1, E2. cbn [bind].
      split; [reflexivity|]. split; [reflexivity|]. constructor; assumption. }
  destruct E as (l & l' & -> & -> & N). cbn [bind]. eexists. eexists. split; [reflexivity|]. split; [reflexivity|].
  pose proof (pair_near _ _ _ _ (curve_near _ _ n (e_closed b) _ _ Ln N)) as Q.
  pose proof tiny_pos as Tp.
  eapply weaker2; [|exact Q]. intros [x y] [x' y'] [Nx Ny]. cbn [fst snd] in Nx, Ny.
  assert (0 <= s + 4 * tiny) by (destruct Nx as [Nx _]; pose proof (Rabs_pos x'); lra).
  replace (700 * eps * (s + 4 * tiny)) with (25 * eps * (28 * (s + 4 * tiny))) by ring.
  split; cbn [fst snd]; intros F; (eapply near_use; [eassumption|lia|cbn; lra|lra|exact F]).
Qed.

(* A rectangle: the four corners and the first one again. *)
Theorem C89_rectangle {RF : NumRoot float} {RR : NumRoot R} {TF : NumTrig float} {TR : NumTrig R}
    (dc : dctx) (b : ebase float) (b' : ebase R) (p1 p2 : pt float) (m : transform float) (s : R) :
  e_closed b' = e_closed b -> e_xform b' = valt (e_xform b) ->
  (forall x y, In x [px p1; px p2] -> In y [py p1; py p2] ->
     px (reach m (e_xform b) (P (Rabs (val x)) (Rabs (val y)))) <= s /\ py (reach m (e_xform b) (P (Rabs (val x)) (Rabs (val y)))) <= s) ->
  exists l l',
    snd (leaf_paths dc b (SRect p1 p2) m) = Ok [Path (e_pb b) (e_closed b) l] /\
    snd (leaf_paths dc b' (SRect (valp p1) (valp p2)) (valt m)) = Ok [Path (e_pb b') (e_closed b) l'] /\
    l' = map (fun p => p_xy (mat_apply (mat_dot (valm (tmat m)) (valm (tmat (e_xform b)))) p))
           [valp p1; P (val (px p1)) (val (py p2)); valp p2; P (val (px p2)) (val (py p1)); valp p1] /\
    Forall2 (close_by (7 * eps * (s + 3 * tiny))) l l'.
Proof.
  intros Hc Hx Hs. unfold leaf_paths. rewrite !draw_space_pure. cbn [snd]. rewrite Hc, Hx. cbn [valt tmat].
  change (T (valm (tmat m)) (option_map valm (tinv m)) (map valm (tstack m))) with (valt m).
  unfold corners, t_transform_pts. cbn [bind map app]. eexists. eexists. split; [reflexivity|]. split; [reflexivity|]. split; [reflexivity|].
  assert (K : forall x y, In x [px p1; px p2] -> In y [py p1; py p2] ->
    close_by (7 * eps * (s + 3 * tiny)) (p_xy (t_transform (t_compose (tmat (e_xform b)) (t_push m)) (P x y)))
      (p_xy (t_transform (t_compose (valm (tmat (e_xform b))) (t_push (valt m))) (P (val x) (val y))))).
  { intros x y Ix Iy. destruct (Hs x y Ix Iy) as [Sx Sy].
    pose proof (nearm_dot _ _ _ _ _ _ _ _ (nearm_leaf (tmat m)) (nearm_leaf (tmat (e_xform b)))) as (A0 & A1 & A2 & A3 & A4 & A5 & _).
    assert (One : near 0 1 1%float 1) by (apply (near_const 1); vm_compute; discriminate).
    unfold reach, mat_apply in Sx, Sy. cbn [px py] in Sx, Sy. ops_in Sx. ops_in Sy.
    unfold close_by, p_xy, t_transform, t_compose, t_push, mat_apply. cbn [tmat px py fst snd valt]. ops.
    split; intros F; (eapply near_use; [apply (near_dot3 3 0); [eassumption|eassumption|eassumption|apply near_leaf|apply near_leaf|exact One]|lia|cbn; lra|lra|exact F]). }
  destruct p1 as [x1 y1], p2 as [x2 y2]. cbn [px py valp] in *.
  repeat (apply Forall2_cons; [apply K; cbn; auto|]). apply Forall2_nil.
Qed.

(* ------------------------------------------------------------------ *)
(** ** trees of groups and shapes with holes *)

(* the element on exact numbers: every number is replaced by the number it stands for *)
Definition val_color (c : color float) : color R :=
  match c with CStr s => CStr s | CNum n => CNum (val n) | CTuple l => CTuple (map val l) end.
Definition val_brush (b : brush float) : brush R := Brush (val_color (bcolor b)).
Definition val_pen (p : pen float) : pen R := Pen (val_brush (pbrush p)) (val (pwidth p)).
Definition val_penbrush (p : penbrush float) : penbrush R := PenBrush (option_map val_pen (pb_pen p)) (option_map val_brush (pb_brush p)).
Definition val_base (b : ebase float) : ebase R := EB (e_name b) (val_penbrush (e_pb b)) (e_closed b) (valt (e_xform b)).
Definition val_shape (s : shape float) : shape R :=
  match s with
  | SCurve cps => SCurve (map valc cps)
  | SRect p q => SRect (valp p) (valp q)
  | SRRect p q r => SRRect (valp p) (valp q) (val r)
  | SEllipse p q => SEllipse (valp p) (valp q)
  end.
Fixpoint val_elem (e : elem float) : elem R :=
  match e with
  | ELeaf b s => ELeaf (val_base b) (val_shape s)
  | EGroup b h l p => EGroup (val_base b) h (map (fun ke => (fst ke, val_elem (snd ke))) l) (map (fun kp => (fst kp, valp (snd kp))) p)
  | EHoles b o i => EHoles (val_base b) (val_elem o) (map val_elem i)
  end.

(* how deep the element is nested *)
Fixpoint depth (e : elem float) : nat :=
  match e with
  | ELeaf _ _ => 1
  | EGroup _ _ l _ => S (fold_right Nat.max 0%nat (map (fun ke => depth (snd ke)) l))
  | EHoles _ o i => S (Nat.max (depth o) (fold_right Nat.max 0%nat (map depth i)))
  end.

(* Everything drawn for the element under a matrix of the absolute size [z] is at most [s] from the
   origin, even when the absolute values of all numbers are taken, so that nothing cancels.
   All leaves are curves, rectangles or ellipses.  The constant of the ellipse, 4/3 tan (pi/8), is accurate
   to a few units in the last place; it is computed by the C library. *)
Fixpoint within {TF : NumTrig float} (s : R) (z : mat R) (e : elem float) : Prop :=
  let z' := abs_dot z (absm (tmat (e_xform (e_base e)))) in
  let small p := px (mat_apply z' p) <= s /\ py (mat_apply z' p) <= s in
  match e with
  | ELeaf _ (SCurve cps) => forall c, In c cps -> small (spread c)
  | ELeaf _ (SRect p q) => forall x y, In x [px p; px q] -> In y [py p; py q] -> small (P (Rabs (val x)) (Rabs (val y)))
  | ELeaf _ (SEllipse p q) => Rabs (val bez_90 - bez_90) <= 8 * eps /\ finite (px p) /\ finite (py p) /\ finite (px q) /\ finite (py q) /\
      small (P (2 * (Rabs (val (px p)) + Rabs (val (px q))) + 4 * tiny) (2 * (Rabs (val (py p)) + Rabs (val (py q))) + 4 * tiny))
  | ELeaf _ (SRRect _ _ _) => False
  | EGroup _ _ l _ => fold_right and True (map (fun ke => within s z' (snd ke)) l)
  | EHoles _ o i => within s z' o /\ fold_right and True (map (within s z') i)
  end.

(* two results: both fail alike, or both succeed with related values *)
Definition both {X Y} (Q : X -> Y -> Prop) (r : res X) (r' : res Y) : Prop :=
  match r, r' with Ok x, Ok y => Q x y | Raise x, Raise y => x = y | _, _ => False end.
Lemma both_bind {X Y X' Y'} (Q : X -> Y -> Prop) (Q' : X' -> Y' -> Prop) r r' g g' :
  both Q r r' -> (forall x y, Q x y -> both Q' (g x) (g' y)) -> both Q' (bind r g) (bind r' g').
Proof. intros H G. destruct r, r'; cbn in *; try contradiction; auto. Qed.
Lemma both_fold {A B X Y} (K : A -> B -> Prop) (Q : X -> Y -> Prop) (g : X -> A -> res X) (g' : Y -> B -> res Y) l l' :
  Forall2 K l l' -> (forall x y a b, Q x y -> K a b -> both Q (g x a) (g' y b)) ->
  forall x y, Q x y -> both Q (foldM g x l) (foldM g' y l').
Proof.
  intros H G. induction H as [|a b l l' Hab _ IH]; intros x y Hx; [exact Hx|]. cbn [foldM].
  eapply both_bind; [apply G; eassumption|]. intros x' y' H'. apply IH, H'.
Qed.
Lemma rev_near {X Y} (Q : X -> Y -> Prop) l l' : Forall2 Q l l' -> Forall2 Q (rev l) (rev l').
Proof. induction 1; [constructor|]. cbn. apply Forall2_app; [assumption|]. constructor; [assumption|constructor]. Qed.

Definition path_near (n : nat) (A : R) (p : path float) (p' : path R) : Prop :=
  p_closed p = p_closed p' /\ Forall2 (near2 n A) (p_points p) (p_points p').
Lemma paths_weaken n n' A l l' : (n <= n')%nat -> Forall2 (path_near n A) l l' -> Forall2 (path_near n' A) l l'.
Proof.
  intros L. apply weaker2. intros p p' [E H]. split; [exact E|]. eapply weaker2; [|exact H].
  intros q q' [Hx Hy]. split; (eapply near_weaken; [exact L|apply Rle_refl|eassumption]).
Qed.
Lemma set_pb_near n A pb pb' l l' : Forall2 (path_near n A) l l' ->
  Forall2 (path_near n A) (map (path_set_pb pb) l) (map (path_set_pb pb') l').
Proof. induction 1 as [|p p' l l' H _ IH]; [constructor|]. cbn [map]. constructor; [exact H|exact IH]. Qed.
Lemma extend_near n A p p' q q' : path_near n A p p' -> Forall2 (near2 n A) q q' ->
  both (path_near n A) (path_extend p q true) (path_extend p' q' true).
Proof.
  intros [E H] Hq. unfold path_extend. pose proof (rev_near _ _ _ H) as K.
  destruct K as [|z z' r r' Hz _]; [reflexivity|]. cbn. split; [exact E|]. cbn [p_points].
  apply Forall2_app; [exact H|]. apply Forall2_app; [exact Hq|]. constructor; [exact Hz|constructor].
Qed.

Section Tree.
Context {RF : NumRoot float} {RR : NumRoot R} {TF : NumTrig float}.

Ltac ellipse_go :=
  lazymatch goal with
  | |- near _ _ (PrimFloat.add _ _) _ => eapply near_add; ellipse_go
  | |- near _ _ (PrimFloat.sub _ _) _ => eapply near_sub; ellipse_go
  | |- near _ _ (PrimFloat.mul _ _) _ => eapply near_mul; ellipse_go
  | |- near _ _ (PrimFloat.opp _) _ => eapply near_opp; ellipse_go
  | |- near _ _ _ _ => eassumption
  end.
(* the control points of an ellipse *)
Lemma ellipse_near (p q : pt float) : Rabs (val bez_90 - bez_90) <= 8 * eps -> finite (px p) -> finite (py p) -> finite (px q) -> finite (py q) ->
  exists l l', make_ellipse_p1p2_cps p q = Ok l /\ make_ellipse_p1p2_cps (valp p) (valp q) = Ok l' /\
  Forall2 (fun c c' => forall g g', In (g, g') [(@cc float, @cc R); (@cp_l float _, @cp_l R _); (@cp_r float _, @cp_r R _)] ->
    near 12 (2 * (Rabs (val (px p)) + Rabs (val (px q))) + 4 * tiny) (px (g c)) (px (g' c')) /\
    near 12 (2 * (Rabs (val (py p)) + Rabs (val (py q))) + 4 * tiny) (py (g c)) (py (g' c'))) l l'.
Proof.
  intros Hb F1 F2 F3 F4. unfold make_ellipse_p1p2_cps, bbox_of_pts.
  change (px (valp p)) with (val (px p)). change (py (valp p)) with (val (py p)). change (px (valp q)) with (val (px q)). change (py (valp q)) with (val (py q)).
  destruct (val_mkbbox (px p) (py p) (px q) (py q) F1 F2 F3 F4) as [<- _]. unfold mkbbox.
  assert (Ends : forall a b, finite a -> finite b -> Rabs (val (pymin a b)) + Rabs (val (pymax a b)) = Rabs (val a) + Rabs (val b)).
  { intros a b Fa Fb. unfold pymin, pymax. cbn [nltb NumFloat]. rewrite !ltb_ok by assumption. unfold Rltb.
    destruct (Rlt_dec (val b) (val a)), (Rlt_dec (val a) (val b)); try lra. assert (val a = val b) as -> by lra. reflexivity. }
  pose proof (Ends _ _ F1 F3) as Ex. pose proof (Ends _ _ F2 F4) as Ey.
  generalize dependent (pymin (px p) (px q)). intros xl Ex. generalize dependent (pymax (px p) (px q)). intros xh Ex.
  generalize dependent (pymin (py p) (py q)). intros yl Ey. generalize dependent (pymax (py p) (py q)). intros yh Ey.
  rewrite <- Ex, <- Ey. clear - Hb.
  cbn [bind bbox_center valb bbox_width bbox_height]. ops.
  assert (Nb : near 8 1 (@bez_90 float _ _) (@bez_90 R _ _)).
  { pose proof bez_90_facts as [_ B]. cbv zeta in B. split; [rewrite Rabs_right; lra|]. intros _. eapply Rle_trans; [exact Hb|].
    pose proof eps_pos. cbn [pow]. rewrite Rmult_1_r. assert (forall x, 0 <= x -> (1 + eps) * (1 + x) - 1 >= eps + x) by (intros; nra).
    replace ((1 + eps) * ((1 + eps) * ((1 + eps) * ((1 + eps) * ((1 + eps) * ((1 + eps) * ((1 + eps) * ((1 + eps) * 1)))))))) with ((1 + eps) ^ 8) by ring.
    assert (G : forall n, 1 + INR n * eps <= (1 + eps) ^ n).
    { induction n as [|n IH]; [cbn; lra|]. rewrite S_INR. cbn [pow]. pose proof (pos_INR n). nra. }
    specialize (G 8%nat). cbn [INR] in G. lra. }
  destruct (const_ok 2 ltac:(vm_compute; discriminate)) as [T2 V2].
  assert (Half : forall n A x r, near n A x r -> near (S n) (A / 2 + tiny) (x / float_ofZ 2)%float (r / 2)).
  { intros n A x r N. pose proof (near_div n A x (float_ofZ 2) r T2 ltac:(rewrite V2; lra) N) as K. rewrite V2 in K.
    rewrite Rabs_right in K by lra. exact K. }
  pose proof (Half _ _ _ _ (near_add _ _ _ _ _ _ _ _ (near_leaf xl) (near_leaf xh))) as Cx.
  pose proof (Half _ _ _ _ (near_add _ _ _ _ _ _ _ _ (near_leaf yl) (near_leaf yh))) as Cy.
  pose proof (Half _ _ _ _ (near_sub _ _ _ _ _ _ _ _ (near_leaf xh) (near_leaf xl))) as Wx.
  pose proof (Half _ _ _ _ (near_sub _ _ _ _ _ _ _ _ (near_leaf yh) (near_leaf yl))) as Wy.
  pose proof (Rabs_pos (val xl)). pose proof (Rabs_pos (val xh)). pose proof (Rabs_pos (val yl)). pose proof (Rabs_pos (val yh)).
  pose proof tiny_pos.
  eexists. eexists. split; [reflexivity|]. split; [reflexivity|]. unfold make_ellipse_cps.
  revert Cx Cy Wx Wy Nb. generalize ((xl + xh) / float_ofZ 2)%float as cx, ((yl + yh) / float_ofZ 2)%float as cy, ((xh - xl) / float_ofZ 2)%float as wx, ((yh - yl) / float_ofZ 2)%float as wy, (@bez_90 float _ _) as bz.
  generalize ((val xl + val xh) / 2) as rcx, ((val yl + val yh) / 2) as rcy, ((val xh - val xl) / 2) as rwx, ((val yh - val yl) / 2) as rwy, (@bez_90 R _ _) as rbz.
  intros rbz rwy rwx rcy rcx bz wy wx cy cx Cx Cy Wx Wy Nb.
  assert (Zr : near 0 0 (float_ofZ 0) 0) by (apply (near_const 0); vm_compute; discriminate).
  repeat apply Forall2_cons; [..|apply Forall2_nil]; intros g g' I; cbn [In] in I;
    (destruct I as [E|[E|[E|[]]]]; inversion E; subst g g'; clear E);
    unfold cp_l, cp_r, p_add, p_subv, v_mul, v_neg; cbn [cc cdl cdr px py vx vy]; ops;
    (split; (eapply near_scaled; [ellipse_go|cbn; lia|lra])).
Qed.

Lemma leaf_near dc b sh k z (M : mat float) (M' : mat R) s : (points_per_curve dc <= 2 ^ 53)%Z -> nearm k z M M' ->
  within s z (ELeaf b sh) ->
  both (Forall2 (path_near (k + 33) (27 * s + 85 * tiny)))
    (snd (leaf_paths dc b sh (only M))) (snd (leaf_paths dc (val_base b) (val_shape sh) (only M'))).
Proof.
  intros Hn Nm W. unfold leaf_paths. rewrite !draw_space_pure. cbn [snd val_base e_pb e_closed e_xform].
  pose proof (nearm_dot _ _ _ _ _ _ _ _ Nm (nearm_leaf (tmat (e_xform b)))) as Nd. replace (k + 0 + 3)%nat with (k + 3)%nat in Nd by lia.
  pose proof tiny_pos as Tp. cbn [within e_base] in W. set (Z := abs_dot z (absm (tmat (e_xform b)))) in *.
  set (t := t_compose (tmat (e_xform b)) (t_push (only M))). set (t' := t_compose (tmat (valt (e_xform b))) (t_push (only M'))).
  assert (Nt : nearm (k + 3) Z (tmat t) (tmat t')) by exact Nd. clearbody t t'. clear Nd Nm.
  destruct sh as [cps|p q|p q r|p q]; [| |contradiction|].
  - cbn [val_shape]. set (n := if show_cps dc then 10%Z else points_per_curve dc).
    assert (Ln : (n <= max_whole)%Z) by (unfold n; destruct (show_cps dc); [vm_compute; discriminate|exact Hn]).
    assert (E : exists l l', mapM (cp_transform (t_transform t) true) cps = Ok l /\
      mapM (cp_transform (t_transform t') true) (map valc cps) = Ok l' /\ Forall2 (nearc (k + 9) (3 * s + 9 * tiny)) l l').
    { clear - W Nt. induction cps as [|c cps IH].
      - exists [], []. repeat split; constructor.
      - destruct IH as (l & l' & E1 & E2 & N); [intros d Hd; apply W; right; exact Hd|].
        destruct (W c (or_introl eq_refl)) as [Sx Sy].
        destruct (transformed_near (k + 3) _ t t' c s Nt Sx Sy) as (c1 & c2 & F1 & F2 & Nc).
        exists (c1 :: l), (c2 :: l'). cbn [mapM map]. rewrite F1, F2. cbn [bind]. rewrite E1, E2. cbn [bind].
        split; [reflexivity|]. split; [reflexivity|]. constructor; [|exact N].
        replace (k + 9)%nat with (k + 3 + 6)%nat by lia. exact Nc. }
    destruct E as (l & l' & -> & -> & N). cbn [bind both]. constructor; [|constructor]. split; [reflexivity|]. cbn [p_points].
    pose proof (pair_near _ _ _ _ (curve_near _ _ n (e_closed b) _ _ Ln N)) as Q.
    eapply weaker2; [|exact Q]. intros x y [Nx Ny]. split; (eapply near_weaken; [| |eassumption]; [lia|lra]).
  - cbn [val_shape]. unfold corners, t_transform_pts. cbn [bind map app both]. constructor; [|constructor]. split; [reflexivity|]. cbn [p_points map].
    assert (K : forall x y, In x [px p; px q] -> In y [py p; py q] ->
      near2 (k + 33) (27 * s + 85 * tiny) (p_xy (t_transform t (P x y))) (p_xy (t_transform t' (P (val x) (val y))))).
    { intros x y Ix Iy. destruct (W x y Ix Iy) as [Sx Sy]. destruct Nt as (A0 & A1 & A2 & A3 & A4 & A5 & _).
      assert (One : near 0 1 1%float 1) by (apply (near_const 1); vm_compute; discriminate).
      unfold mat_apply in Sx, Sy. cbn [px py] in Sx, Sy. ops_in Sx. ops_in Sy.
      pose proof (near_dot3 _ _ _ _ _ _ _ _ _ _ _ _ _ _ _ _ _ _ _ _ A0 A1 A2 (near_leaf x) (near_leaf y) One) as Nx.
      pose proof (near_dot3 _ _ _ _ _ _ _ _ _ _ _ _ _ _ _ _ _ _ _ _ A3 A4 A5 (near_leaf x) (near_leaf y) One) as Ny.
      assert (0 <= s + 3 * tiny) by (destruct Nx as [Q _]; eapply Rle_trans; [apply Rabs_pos|]; eapply Rle_trans; [exact Q|lra]).
      unfold near2, p_xy, t_transform, mat_apply. cbn [px py fst snd]. ops.
      split; [eapply near_scaled; [exact Nx|lia|lra]|eapply near_scaled; [exact Ny|lia|lra]]. }
    destruct p as [x1 y1], q as [x2 y2]. cbn [px py valp] in *.
    repeat (apply Forall2_cons; [apply K; cbn; auto|]). apply Forall2_nil.
  - cbn [val_shape]. destruct W as (Hb & F1 & F2 & F3 & F4 & Sx & Sy).
    destruct (ellipse_near p q Hb F1 F2 F3 F4) as (l & l' & -> & -> & N). cbn [bind both]. constructor; [|constructor]. split; [reflexivity|]. cbn [p_points].
    assert (N' : Forall2 (nearf (k + 18) (s + 3 * tiny) (t_transform t) (t_transform t')) l l').
    { eapply weaker2; [|exact N]. intros c c' H.
      assert (One : near 0 1 1%float 1) by (apply (near_const 1); vm_compute; discriminate).
      assert (One' : near 12 1 1%float 1) by (eapply near_scaled; [exact One|lia|lra]).
      destruct Nt as (A0 & A1 & A2 & A3 & A4 & A5 & _). unfold mat_apply in Sx, Sy. cbn [px py] in Sx, Sy. ops_in Sx. ops_in Sy.
      assert (K : forall g g', In (g, g') [(@cc float, @cc R); (@cp_l float _, @cp_l R _); (@cp_r float _, @cp_r R _)] ->
        nearp (k + 18) (s + 3 * tiny) (t_transform t (g c)) (t_transform t' (g' c'))).
      { intros g g' I. destruct (H g g' I) as [Nx Ny]. unfold nearp, t_transform, mat_apply. cbn [px py]. ops.
        split; (eapply near_scaled; [apply (near_dot3 (k + 3) 12); [eassumption|eassumption|eassumption|exact Nx|exact Ny|exact One']|lia|lra]). }
      split; [|split]; apply K; cbn; auto. }
    pose proof (pair_near _ _ _ _ (path_points_near _ _ 20 true _ _ _ _ ltac:(vm_compute; discriminate) N')) as Q.
    destruct N' as [|c c' l l' [[[B _] _] _] _]; [constructor|].
    assert (0 <= s + 3 * tiny) by (eapply Rle_trans; [apply Rabs_pos|exact B]).
    eapply weaker2; [|exact Q]. intros x y [Nx Ny]. split; (eapply near_weaken; [| |eassumption]; [lia|lra]).
Qed.

Lemma max_in {A} (g : A -> nat) (l : list A) a : In a l -> (g a <= fold_right Nat.max 0%nat (map g l))%nat.
Proof. induction l as [|b l IH]; [intros []|]. intros [->|H]; cbn [map fold_right]; [lia|]. specialize (IH H). lia. Qed.
Lemma and_in {A} (g : A -> Prop) (l : list A) a : fold_right and True (map g l) -> In a l -> g a.
Proof. induction l as [|b l IH]; [intros _ []|]. cbn [map fold_right]. intros [Hb H] [->|I]; auto. Qed.

Lemma map_rel {X X' Y' : Type} (Q : X' -> Y' -> Prop) (g : X -> X') (h : X -> Y') (l : list X) : (forall x, In x l -> Q (g x) (h x)) -> Forall2 Q (map g l) (map h l).
Proof. induction l as [|a l IH]; intros H; [constructor|]. cbn [map]. constructor; [apply H; left; reflexivity|apply IH; intros x Hx; apply H; right; exact Hx]. Qed.

Lemma tree_near dc s : (points_per_curve dc <= 2 ^ 53)%Z -> forall e k z M M', nearm k z M M' -> within s z e ->
  both (Forall2 (path_near (k + 3 * depth e + 30) (27 * s + 85 * tiny))) (pic dc e M) (pic dc (val_elem e) M').
Proof.
  intros Hn. induction e as [b sh|b h l p IH|b o i IHo IHi] using elem_induction; intros k z M M' Nm W.
  - cbn [val_elem]. rewrite !pic_leaf. cbn [depth]. replace (k + 3 * 1 + 30)%nat with (k + 33)%nat by lia. apply leaf_near with (z := z); assumption.
  - cbn [val_elem]. destruct h; [rewrite !pic_hidden; constructor|]. rewrite !pic_group.
    pose proof (nearm_dot _ _ _ _ _ _ _ _ Nm (nearm_leaf (tmat (e_xform b)))) as Nd. replace (k + 0 + 3)%nat with (k + 3)%nat in Nd by lia.
    cbn [within e_base] in W. set (N := (k + 3 * depth (EGroup b false l p) + 30)%nat).
    assert (G : forall ke, In ke l -> both (Forall2 (path_near N (27 * s + 85 * tiny)))
      (pic dc (snd ke) (mat_dot M (tmat (e_xform b)))) (pic dc (val_elem (snd ke)) (mat_dot M' (tmat (e_xform (val_base b)))))).
    { intros ke I. rewrite Forall_forall in IH. specialize (IH ke I _ _ _ _ Nd (and_in (fun ke => within s _ (snd ke)) l ke W I)).
      pose proof (max_in (fun ke => depth (snd ke)) l ke I) as D.
      cbn [val_base e_xform valt tmat] in *. unfold both in *. destruct (pic dc (snd ke) _), (pic dc (val_elem (snd ke)) _); try exact IH.
      eapply paths_weaken; [|exact IH]. unfold N. cbn [depth]. lia. }
    clearbody N. clear - G.
    assert (F2 : Forall2 (fun a b' => both (Forall2 (path_near N (27 * s + 85 * tiny))) (pic dc (snd a) (mat_dot M (tmat (e_xform b))))
      (pic dc (snd b') (mat_dot M' (tmat (e_xform (val_base b)))))) l (map (fun ke => (fst ke, val_elem (snd ke))) l)).
    { pose proof (map_rel (fun a b' => both (Forall2 (path_near N (27 * s + 85 * tiny))) (pic dc (snd a) (mat_dot M (tmat (e_xform b))))
      (pic dc (snd b') (mat_dot M' (tmat (e_xform (val_base b)))))) (fun x : string * elem float => x) (fun ke => (fst ke, val_elem (snd ke))) l G) as Q. rewrite map_id in Q. exact Q. }
    eapply both_fold; [exact F2| |constructor]. intros x y a b' Hx Hab. cbn beta in Hab.
    eapply both_bind; [exact Hab|]. intros ps ps' Hp. cbn [both]. apply Forall2_app; assumption.
  - cbn [val_elem]. rewrite !pic_holes.
    pose proof (nearm_dot _ _ _ _ _ _ _ _ Nm (nearm_leaf (tmat (e_xform b)))) as Nd. replace (k + 0 + 3)%nat with (k + 3)%nat in Nd by lia.
    cbn [within e_base] in W. destruct W as [Wo Wi]. set (N := (k + 3 * depth (EHoles b o i) + 30)%nat).
    assert (Go : both (Forall2 (path_near N (27 * s + 85 * tiny))) (pic dc o (mat_dot M (tmat (e_xform b)))) (pic dc (val_elem o) (mat_dot M' (tmat (e_xform (val_base b)))))).
    { specialize (IHo _ _ _ _ Nd Wo). cbn [val_base e_xform valt tmat] in *. unfold both in *. destruct (pic dc o _), (pic dc (val_elem o) _); try exact IHo.
      eapply paths_weaken; [|exact IHo]. unfold N. cbn [depth]. lia. }
    assert (G : forall e, In e i -> both (Forall2 (path_near N (27 * s + 85 * tiny)))
      (pic dc e (mat_dot M (tmat (e_xform b)))) (pic dc (val_elem e) (mat_dot M' (tmat (e_xform (val_base b)))))).
    { intros e I. rewrite Forall_forall in IHi. specialize (IHi e I _ _ _ _ Nd (and_in (within s _) i e Wi I)).
      pose proof (max_in depth i e I) as D.
      cbn [val_base e_xform valt tmat] in *. unfold both in *. destruct (pic dc e _), (pic dc (val_elem e) _); try exact IHi.
      eapply paths_weaken; [|exact IHi]. unfold N. cbn [depth]. lia. }
    clearbody N. clear - Go G. set (Q := Forall2 (path_near N (27 * s + 85 * tiny))) in *.
    assert (F2 : Forall2 (fun a b' => both Q (pic dc a (mat_dot M (tmat (e_xform b)))) (pic dc b' (mat_dot M' (tmat (e_xform (val_base b)))))) i (map val_elem i)).
    { pose proof (map_rel (fun a b' => both Q (pic dc a (mat_dot M (tmat (e_xform b)))) (pic dc b' (mat_dot M' (tmat (e_xform (val_base b))))))
        (fun x : elem float => x) val_elem i G) as K. rewrite map_id in K. exact K. }
    unfold holes_pic. eapply both_bind; [exact Go|]. intros ps ps' Hp.
    destruct Hp as [|p0 p0' ps ps' H0 Hp]; [reflexivity|]. destruct Hp as [|p1 p1' ps ps' H1 Hp]; [|reflexivity].
    cbn [val_base e_pb val_penbrush pb_brush]. destruct (pb_brush (e_pb b)) as [br|]; cbn [option_map].
    + eapply both_bind.
      * eapply (both_fold _ (fun x y => Q (fst x) (fst y) /\ path_near N (27 * s + 85 * tiny) (snd x) (snd y))); [exact F2| |].
        -- intros x y a b' [Hx Hy] Hab. eapply both_bind; [exact Hab|]. intros qs qs' Hq. unfold hole_filled.
           assert (Hq' : Q (map (path_set_pb (edge_pb b)) qs) (map (path_set_pb (edge_pb (val_base b))) qs')) by (apply set_pb_near; exact Hq).
           eapply (both_fold (path_near N (27 * s + 85 * tiny)) (fun x y => Q (fst x) (fst y) /\ path_near N (27 * s + 85 * tiny) (snd x) (snd y))); [exact Hq| |split; assumption].
           intros x' y' q q' [Hx' Hy'] [_ Hqq]. eapply both_bind; [apply extend_near; eassumption|].
           intros f1 f2 Hf. cbn [both fst snd]. split; [apply Forall2_app; assumption|exact Hf].
        -- cbn [fst snd]. split; [constructor; [exact H0|constructor]|exact H0].
      * intros ef ef' [He Hf]. cbn [both]. constructor; assumption.
    + eapply both_fold; [exact F2| |constructor; [exact H0|constructor]].
      intros x y a b' Hx Hab. eapply both_bind; [exact Hab|]. intros qs qs' Hq. cbn [both].
      apply Forall2_app; [exact Hx|apply set_pb_near; exact Hq].
Qed.

(* The whole picture: drawing a tree of groups, shapes with holes, curves, rectangles and ellipses on doubles fails
   exactly when it fails on exact numbers, with the same exception.  Otherwise it gives as many paths, with
   as many points, in the same order; every coordinate that is a number is as near to the exact one as three
   roundings for each level of nesting and thirty more allow. *)
Theorem C89_tree (dc : dctx) (e : elem float) (m : transform float) (s : R) :
  (points_per_curve dc <= 2 ^ 53)%Z -> within s (absm (tmat m)) e ->
  match snd (elem_paths dc e m), snd (elem_paths dc (val_elem e) (valt m)) with
  | Ok l, Ok l' => Forall2 (fun p p' => p_closed p = p_closed p' /\
      Forall2 (close_by (((1 + eps) ^ (3 * depth e + 30) - 1) * (27 * s + 85 * tiny))) (p_points p) (p_points p')) l l'
  | Raise x, Raise x' => x = x'
  | _, _ => False
  end.
Proof.
  intros Hn W. rewrite (proj2 (paths_tame dc e m)), (proj2 (paths_tame dc (val_elem e) (valt m))).
  pose proof (tree_near dc s Hn e 0 _ _ _ (nearm_leaf (tmat m)) W) as H. cbn [valt tmat]. unfold both in H.
  destruct (pic dc e (tmat m)), (pic dc (val_elem e) (valm (tmat m))); try exact H.
  eapply weaker2; [|exact H]. intros p p' [E K]. split; [exact E|]. eapply weaker2; [|exact K].
  intros q q' [[_ Nx] [_ Ny]]. split; assumption.
Qed.
End Tree.

(* a picture: a moved and enlarged group of a closed curve, a rectangle with a hole, and an ellipse *)
Definition c_library : NumTrig float :=
  {| npi := 3.141592653589793%float; nsin x := x; ncos x := x; ntan _ := 0.41421356237309503%float; natan2 y x := x |}.
Definition plain (name : string) (t : transform float) : ebase float := EB name (PenBrush None (Some (Brush (CStr "red")))) true t.
Definition picture : elem float :=
  EGroup (plain "all" (T (M 2 0 100 0 2 50 0 0 1) None []))%float false
    [("curve", ELeaf (plain "curve" t_new) (SCurve [CP (P 0 0) (V 1 2) (V 2 1) "smooth"; CP (P 10 5) (V 2 0) (V 2 0) "smooth"]))%float;
     ("holes", EHoles (plain "holes" t_new) (ELeaf (plain "out" t_new) (SRect (P 0 0) (P 4 4))) [ELeaf (plain "in" t_new) (SRect (P 1 1) (P 2 2))])%float;
     ("ellipse", ELeaf (plain "ellipse" t_new) (SEllipse (P 0 0) (P 10 5)))%float]%string [].
Lemma c_library_accurate : Rabs (val (@bez_90 float _ c_library) - bez_90) <= 8 * eps.
Proof.
  rewrite bez_90_R. assert (E : @bez_90 float NumFloat c_library = 0x1.1ac5111534a21p-1%float) by (vm_compute; reflexivity). rewrite E.
  assert (V : val 0x1.1ac5111534a21p-1%float = 4974538787080737 / 9007199254740992).
  { unfold val. rewrite <- SF2R_B2SF, B2SF_Prim2B.
    replace (Prim2SF 0x1.1ac5111534a21p-1%float) with (S754_finite false 4974538787080737 (-53)) by (vm_compute; reflexivity).
    cbn [SF2R]. unfold F2R. cbn. lra. }
  rewrite V. clear E V. rewrite eps_num.
  assert (H : sqrt 2 * sqrt 2 = 2) by (apply sqrt_def; lra). pose proof (sqrt_pos 2).
  assert (14142135623730950 / 10000000000000000 <= sqrt 2 <= 14142135623730951 / 10000000000000000) by (split; nra).
  apply Rabs_le. lra.
Qed.
Example C89_example : @within c_library 1000 (absm (tmat t_new)) picture /\ depth picture = 3%nat /\
  exists l, snd (@elem_paths float _ _ c_library (DC false 20) picture t_new) = Ok l /\ List.length l = 5%nat.
Proof.
  split; [|split; [reflexivity|vm_compute; eexists; split; reflexivity]].
  assert (C : forall z, (Z.abs z <= 2 ^ 53)%Z -> val (float_ofZ z) = IZR z) by (intros z Hz; apply const_ok; exact Hz).
  pose proof (C 0%Z ltac:(vm_compute; discriminate)) as V0. pose proof (C 1%Z ltac:(vm_compute; discriminate)) as V1. pose proof (C 2%Z ltac:(vm_compute; discriminate)) as V2.
  pose proof (C 4%Z ltac:(vm_compute; discriminate)) as V4. pose proof (C 5%Z ltac:(vm_compute; discriminate)) as V5. pose proof (C 10%Z ltac:(vm_compute; discriminate)) as V10.
  pose proof (C 50%Z ltac:(vm_compute; discriminate)) as V50. pose proof (C 100%Z ltac:(vm_compute; discriminate)) as V100.
  change (float_ofZ 0) with 0%float in V0. change (float_ofZ 1) with 1%float in V1. change (float_ofZ 2) with 2%float in V2. change (float_ofZ 4) with 4%float in V4.
  change (float_ofZ 5) with 5%float in V5. change (float_ofZ 10) with 10%float in V10. change (float_ofZ 50) with 50%float in V50. change (float_ofZ 100) with 100%float in V100.
  pose proof tiny_pos as Tp. pose proof tiny_small as Ts.
  assert (Rb : forall n : positive, Rabs (IZR (Zpos n)) = IZR (Zpos n)) by (intros n; apply Rabs_right; apply Rle_ge, IZR_le; lia).
  unfold picture. cbn [within e_base e_xform plain map fold_right snd fst tmat].
  repeat match goal with |- _ /\ _ => split | |- True => exact I | |- forall _, _ => intros end;
    lazymatch goal with |- finite _ => vm_compute; reflexivity | |- Rabs _ <= 8 * eps => exact c_library_accurate | |- _ => idtac end;
    cbn [In px py] in *; repeat match goal with H : _ \/ _ |- _ => destruct H | H : False |- _ => destruct H end; subst;
    lazy beta iota zeta delta [t_new spread abs_dot mat_map absm mat_id mat_dot mat_apply cc cdl cdr px py vx vy tmat m00 m01 m02 m10 m11 m12 m20 m21 m22 nadd nmul nofZ NumR NumFloat];
    change (float_ofZ 0) with 0%float; change (float_ofZ 1) with 1%float;
    rewrite ?V0, ?V1, ?V2, ?V4, ?V5, ?V10, ?V50, ?V100, ?Rb, ?Rabs_R0;
    revert Tp Ts; generalize tiny; clear; intros u Tp Ts;
    assert (U2 : 0 <= u * u <= u) by nra; assert (U3 : 0 <= u * (u * u) <= u * 1) by (split; [apply Rmult_le_pos; lra|apply Rmult_le_compat_l; lra]); 
    assert (U4 : 0 <= u * (u * (u * u)) <= u * 1) by (split; [apply Rmult_le_pos; lra|apply Rmult_le_compat_l; lra]); lra.
Qed.

Example C89_example_curve : let m := T (M 2 0 100 0 2 50 0 0 1)%float None [] in
  (forall c, In c [CP (P 0 0) (V 1 2) (V 2 1) "smooth"; CP (P 10 5) (V 2 0) (V 2 0) "smooth"]%float%string ->
     px (reach m t_new (spread c)) <= 1000 /\ py (reach m t_new (spread c)) <= 1000) /\
  (forall x y, In x [1; 4]%float -> In y [2; 5]%float ->
     px (reach m t_new (P (Rabs (val x)) (Rabs (val y)))) <= 1000 /\ py (reach m t_new (P (Rabs (val x)) (Rabs (val y)))) <= 1000).
Proof.
  cbv zeta.
  assert (C : forall z, (Z.abs z <= 2 ^ 53)%Z -> val (float_ofZ z) = IZR z) by (intros z Hz; apply const_ok; exact Hz).
  pose proof (C 0%Z ltac:(vm_compute; discriminate)) as V0. pose proof (C 1%Z ltac:(vm_compute; discriminate)) as V1. pose proof (C 2%Z ltac:(vm_compute; discriminate)) as V2.
  pose proof (C 4%Z ltac:(vm_compute; discriminate)) as V4. pose proof (C 5%Z ltac:(vm_compute; discriminate)) as V5. pose proof (C 10%Z ltac:(vm_compute; discriminate)) as V10.
  pose proof (C 50%Z ltac:(vm_compute; discriminate)) as V50. pose proof (C 100%Z ltac:(vm_compute; discriminate)) as V100.
  change (float_ofZ 0) with 0%float in V0. change (float_ofZ 1) with 1%float in V1. change (float_ofZ 2) with 2%float in V2. change (float_ofZ 4) with 4%float in V4.
  change (float_ofZ 5) with 5%float in V5. change (float_ofZ 10) with 10%float in V10. change (float_ofZ 50) with 50%float in V50. change (float_ofZ 100) with 100%float in V100.
  pose proof tiny_pos as Tp. pose proof tiny_small as Ts.
  assert (Rb : forall n : positive, Rabs (IZR (Zpos n)) = IZR (Zpos n)) by (intros n; apply Rabs_right; apply Rle_ge, IZR_le; lia).
  unfold reach. split; intros; split;
    cbn [In px py] in *; repeat match goal with H : _ \/ _ |- _ => destruct H | H : False |- _ => destruct H end; subst;
    lazy beta iota zeta delta [t_new spread abs_dot mat_map absm mat_id mat_dot mat_apply cc cdl cdr px py vx vy tmat m00 m01 m02 m10 m11 m12 m20 m21 m22 nadd nmul nofZ NumR NumFloat];
    change (float_ofZ 0) with 0%float; change (float_ofZ 1) with 1%float;
    rewrite ?V0, ?V1, ?V2, ?V4, ?V5, ?V10, ?V50, ?V100, ?Rb, ?Rabs_R0;
    revert Tp Ts; generalize tiny; clear; intros u Tp Ts;
    assert (U2 : 0 <= u * u <= u) by nra; assert (U3 : 0 <= u * (u * u) <= u * 1) by (split; [apply Rmult_le_pos; lra|apply Rmult_le_compat_l; lra]); 
    assert (U4 : 0 <= u * (u * (u * u)) <= u * 1) by (split; [apply Rmult_le_pos; lra|apply Rmult_le_compat_l; lra]); lra.
Qed.

(* there is such a bound for every tree of curves and rectangles *)
Fixpoint only_curves (e : elem float) : Prop :=
  match e with
  | ELeaf _ (SCurve _) | ELeaf _ (SRect _ _) => True
  | ELeaf _ _ => False
  | EGroup _ _ l _ => fold_right and True (map (fun ke => only_curves (snd ke)) l)
  | EHoles _ o i => only_curves o /\ fold_right and True (map only_curves i)
  end.
Lemma within_le {TF : NumTrig float} s s' : s <= s' -> forall e z, within s z e -> within s' z e.
Proof.
  intros L. induction e as [b sh|b h l p IH|b o i IHo IHi] using elem_induction; intros z W; cbn [within] in *.
  - destruct sh as [cps|p q|p q r|p q].
    + intros c Hc. destruct (W c Hc). lra.
    + intros x y Hx Hy. destruct (W x y Hx Hy). lra.
    + contradiction.
    + destruct W as (W1 & W2 & W3 & W4 & W5 & W6 & W7). do 5 (split; [assumption|]). split; lra.
  - induction IH as [|ke l H _ K]; [exact I|]. cbn [map fold_right] in *. destruct W as [W1 W2]. split; [apply H, W1|apply K, W2].
  - destruct W as [Wo Wi]. split; [apply IHo, Wo|]. clear Wo. induction IHi as [|e i H _ K]; [exact I|]. cbn [map fold_right] in *. destruct Wi as [W1 W2]. split; [apply H, W1|apply K, W2].
Qed.
Lemma bound_of {A} (g : A -> pt R) (l : list A) : exists s, forall a, In a l -> px (g a) <= s /\ py (g a) <= s.
Proof.
  induction l as [|a l [s H]]; [exists 0; intros a []|]. exists (Rmax s (Rmax (px (g a)) (py (g a)))). intros b [<-|Hb].
  - pose proof (Rmax_r s (Rmax (px (g a)) (py (g a)))). pose proof (Rmax_l (px (g a)) (py (g a))). pose proof (Rmax_r (px (g a)) (py (g a))). lra.
  - destruct (H b Hb). pose proof (Rmax_l s (Rmax (px (g a)) (py (g a)))). lra.
Qed.
Theorem C89_bounded {TF : NumTrig float} (e : elem float) (z : mat R) : only_curves e -> exists s, within s z e.
Proof.
  revert z. induction e as [b sh|b h l p IH|b o i IHo IHi] using elem_induction; intros z W; cbn [within only_curves] in *.
  - destruct sh as [cps|p q|p q r|p q]; [| |contradiction|contradiction].
    + destruct (bound_of (fun c => mat_apply (abs_dot z (absm (tmat (e_xform (e_base (ELeaf b (SCurve cps))))))) (spread c)) cps) as [s H]. exists s. exact H.
    + destruct (bound_of (fun xy => mat_apply (abs_dot z (absm (tmat (e_xform (e_base (ELeaf b (SRect p q))))))) (P (Rabs (val (fst xy))) (Rabs (val (snd xy)))))
        (list_prod [px p; px q] [py p; py q])) as [s H]. exists s. intros x y Hx Hy. exact (H (x, y) (in_prod _ _ _ _ Hx Hy)).
  - set (z' := abs_dot z _). clearbody z'. induction IH as [|ke l H _ K]; [exists 0; exact I|]. cbn [map fold_right] in *.
    destruct W as [W1 W2]. destruct (H z' W1) as [s1 S1]. destruct (K W2) as [s2 S2]. exists (Rmax s1 s2). split; [eapply within_le; [apply Rmax_l|exact S1]|].
    clear - S2. induction l as [|k l IH]; [exact I|]. cbn [map fold_right] in *. destruct S2 as [A B]. split; [eapply within_le; [apply Rmax_r|exact A]|apply IH, B].
  - set (z' := abs_dot z _). clearbody z'. destruct W as [Wo Wi]. destruct (IHo z' Wo) as [s1 S1].
    assert (exists s2, fold_right and True (map (within s2 z') i)) as [s2 S2].
    { induction IHi as [|e i H _ K]; [exists 0; exact I|]. cbn [map fold_right] in *. destruct Wi as [W1 W2]. destruct (H z' W1) as [a A]. destruct (K W2) as [c C].
      exists (Rmax a c). split; [eapply within_le; [apply Rmax_l|exact A]|].
      clear - C. induction i as [|k l IH]; [exact I|]. cbn [map fold_right] in *. destruct C as [A B]. split; [eapply within_le; [apply Rmax_r|exact A]|apply IH, B]. }
    exists (Rmax s1 s2). split; [eapply within_le; [apply Rmax_l|exact S1]|].
    clear - S2. induction i as [|k l IH]; [exact I|]. cbn [map fold_right] in *. destruct S2 as [A B]. split; [eapply within_le; [apply Rmax_r|exact A]|apply IH, B].
Qed.

(* In terms of the curve itself: every drawn point is close to the image, under the exact matrices, of a
   point of the curve through the control points.  The bottom row of the matrices plays no part. *)
Theorem C89_on_curve {RF : NumRoot float} {TF : NumTrig float} 
    (dc : dctx) (b : ebase float) (cps : list (cpoint float)) (m : transform float) (s : R) :
  (points_per_curve dc <= 2 ^ 53)%Z ->
  (forall c, In c cps -> px (reach m (e_xform b) (spread c)) <= s /\ py (reach m (e_xform b) (spread c)) <= s) ->
  exists l, snd (leaf_paths dc b (SCurve cps) m) = Ok [Path (e_pb b) (e_closed b) l] /\
    forall x y, In (x, y) l -> exists p, on_path (map valc cps) (e_closed b) p /\
      let q := mat_apply (mat_dot (valm (tmat m)) (valm (tmat (e_xform b)))) p in
      (finite x -> Rabs (val x - px q) <= 700 * eps * (s + 4 * tiny)) /\
      (finite y -> Rabs (val y - py q) <= 700 * eps * (s + 4 * tiny)).
Proof.
  intros Hn Hs.
  destruct (C89_curve dc b (val_base b) cps m s Hn eq_refl eq_refl Hs) as (l & l' & E & E' & H).
  exists l. split; [exact E|]. intros x y I. rewrite leaf_paths_curve in E'. cbn [snd] in E'. apply ok_inj in E'.
  apply (f_equal (map (@p_points R))) in E'. cbn [map p_points] in E'. injection E' as E'.
  assert (exists q, In q l' /\ close_by (700 * eps * (s + 4 * tiny)) (x, y) q) as (q & Iq & [Qx Qy]).
  { clear - H I. induction H as [|a a' l l' Ha _ IH]; [destruct I|]. destruct I as [->|I]; [exists a'; split; [left; reflexivity|exact Ha]|].
    destruct (IH I) as (q & Iq & Hq). exists q. split; [right; exact Iq|exact Hq]. }
  rewrite <- E' in Iq. apply drawn_affine in Iq.
  - destruct Iq as (p & Hp & ->). exists p. split; [exact Hp|]. split; [exact Qx|exact Qy].
  - unfold t_transform, mat_apply. do 6 eexists. intros p. ops. rewrite !Rmult_1_r. reflexivity.
Qed.
