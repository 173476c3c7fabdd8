(* C67: as_curves. *)
From Coq Require Import String Reals ZArith List Lia Lra Bool.
Require Import Verif.Base Verif.NumR Verif.L_real Verif.M_vector Verif.M_bbox Verif.M_transform Verif.M_bezier Verif.M_colors Verif.M_elems Verif.M_group.
Require Import Verif.S_transform Verif.L_transform Verif.L_transform2 Verif.S_bezier Verif.P_bezier Verif.S_elems Verif.L_elems Verif.P_elems Verif.S_group Verif.S_gdraw Verif.L_group Verif.L_gdraw Verif.P_gdraw Verif.S_curves.
Import ListNotations.
Local Open Scope string_scope.
Local Open Scope list_scope.
Local Open Scope R_scope.

Definition same (p : pt R) : pt R := p.
Definition after (g : pt R -> pt R) (x : ebase R * shape R * (pt R -> pt R)) : ebase R * shape R * (pt R -> pt R) :=
  (fst x, fun p => g (snd x p)).

Lemma leaves_after (e : elem R) : forall g f, leaves e (fun p => g (f p)) = map (after g) (leaves e f).
Proof.
  induction e as [b s|b h l p IH|b o i IHo IHi] using elem_induction; intros g f; cbn [leaves].
  - reflexivity.
  - induction IH as [|[k e] l Hk _ IH]; cbn [flat_map snd]; [reflexivity|]. rewrite map_app, <- IH.
    f_equal. exact (Hk g (fun p => f (lin (tmat (e_xform b)) p))).
  - rewrite map_app. f_equal; [exact (IHo g (fun p => f (lin (tmat (e_xform b)) p)))|].
    induction IHi as [|e l Hk _ IH]; cbn [flat_map]; [reflexivity|]. rewrite map_app, <- IH.
    f_equal. exact (Hk g (fun p => f (lin (tmat (e_xform b)) p))).
Qed.
Lemma leaves_under e g : leaves e g = map (after g) (leaves e same).
Proof. exact (leaves_after e g same). Qed.
Lemma curvable_after g x : curvable (after g x) <-> curvable x.
Proof. reflexivity. Qed.
Lemma curvables_under e g : Forall curvable (leaves e g) <-> Forall curvable (leaves e same).
Proof. rewrite leaves_under, Forall_map. reflexivity. Qed.

Lemma linear_mapped f cps : exists cps', mapM (cp_transform f true) cps = Ok cps' /\ mapped f cps cps'.
Proof. destruct (mapM_linear f cps) as (cps' & E & H). exists cps'. split; [exact E|exact H]. Qed.
Lemma mapped_ext f f' a b : (forall p, f p = f' p) -> mapped f a b -> mapped f' a b.
Proof. intros E. induction 1 as [|x y l l' (H1 & H2 & H3 & H4) _ IH]; constructor; [|exact IH]. now rewrite <- !E. Qed.
Lemma mapped_trans f g a b c : mapped f a b -> mapped g b c -> mapped (fun p => g (f p)) a c.
Proof.
  intros H. revert c. induction H as [|x y l l' (H1 & H2 & H3 & H4) _ IH]; intros c K; inversion K as [|? z ? l'' (K1 & K2 & K3 & K4) K5]; subst; constructor.
  - now rewrite K1, K2, K3, K4, H1, H2, H3, H4.
  - now apply IH.
Qed.

Lemma transform_curve x c (m : transform R) : affine_mat (tmat m) -> curvable x -> curve_of x c ->
  exists c', snd (elem_transform c m) = Ok c' /\ curve_of (after (lin (tmat m)) x) c'.
Proof.
  intros Am [W _] (cps & cps1 & Es & Mp & ->). destruct x as [[b s] f]. cbn [fst snd] in *. cbn [elem_transform leaf_transform].
  unfold curve_transform. cbv zeta. rewrite (with_push_gen (fun m => m) (t_compose (tmat (e_xform (EB (e_name b) (e_pb b) (e_closed b) t_new))))) by reflexivity.
  cbn [snd]. destruct (linear_mapped (t_transform (t_compose (tmat (e_xform (EB (e_name b) (e_pb b) (e_closed b) t_new))) (t_push m))) cps1) as (cps2 & -> & Mp2).
  cbn [bind e_pb e_name e_closed]. rewrite (mk_base_ok b) by auto. cbn [bind]. eexists. split; [reflexivity|].
  exists cps, cps2. cbn [after fst snd]. split; [exact Es|]. split; [|reflexivity].
  apply (mapped_trans f (lin (tmat m)) cps cps1 cps2 Mp).
  eapply mapped_ext; [|exact Mp2]. intros p. cbn [e_xform]. rewrite compose_apply by (cbn; auto with aff).
  cbn [tmat t_new]. rewrite lin_id. unfold t_transform. now rewrite apply_lin.
Qed.
Lemma transform_curves xs cs (m : transform R) : affine_mat (tmat m) -> Forall curvable xs -> Forall2 curve_of xs cs ->
  exists cs', mapM (fun c => snd (elem_transform c m)) cs = Ok cs' /\ Forall2 curve_of (map (after (lin (tmat m))) xs) cs'.
Proof.
  intros Am W H. induction H as [|x c xs cs Hx _ IH]; [exists []; split; [reflexivity|constructor]|].
  inversion W as [|? ? W1 W2]; subst. destruct (transform_curve x c m Am W1 Hx) as (c' & E & Hc).
  destruct (IH W2) as (cs' & E' & Hcs). exists (c' :: cs'). split; [|constructor; assumption].
  cbn [mapM]. rewrite E. cbn [bind]. rewrite E'. reflexivity.
Qed.

(* one member of a group or shape with holes *)
Definition member_curves (x : transform R) (e : elem R) : res (list (elem R)) :=
  let* cs := elem_as_curves e in mapM (fun c => snd (elem_transform c x)) cs.
Lemma as_curves_group b h l p : elem_as_curves (EGroup b h l p) =
  foldM (fun acc ke => let* cs := member_curves (e_xform b) (snd ke) in Ok (acc ++ cs)) [] l.
Proof.
  cbn [elem_as_curves]. generalize (@nil (elem R)). induction l as [|[k e] l IH]; intros acc; cbn [foldM]; [reflexivity|].
  unfold member_curves at 1. cbn [snd]. destruct (elem_as_curves e) as [cs|x]; cbn [bind]; [|reflexivity].
  destruct (mapM _ cs) as [cs'|x]; cbn [bind]; [apply IH|reflexivity].
Qed.
Lemma as_curves_holes b o i : elem_as_curves (EHoles b o i) =
  let* co := member_curves (e_xform b) o in
  foldM (fun acc e => let* cs := member_curves (e_xform b) e in Ok (acc ++ cs)) co i.
Proof.
  cbn [elem_as_curves]. unfold member_curves at 1. destruct (elem_as_curves o) as [cs|x]; cbn [bind]; [|reflexivity].
  destruct (mapM _ cs) as [cs'|x]; cbn [bind]; [|reflexivity]. generalize cs'. clear cs cs'.
  induction i as [|e l IH]; intros acc; cbn [foldM]; [reflexivity|].
  unfold member_curves at 1. destruct (elem_as_curves e) as [cs|x]; cbn [bind]; [|reflexivity].
  destruct (mapM _ cs) as [cs'|x]; cbn [bind]; [apply IH|reflexivity].
Qed.

Definition served (e : elem R) : Prop :=
  (Forall curvable (leaves e same) -> exists cs, elem_as_curves e = Ok cs /\ Forall2 curve_of (leaves e same) cs) /\
  (forall cs, elem_as_curves e = Ok cs -> Forall curvable (leaves e same)).
Lemma member_served (x : transform R) e : affine_mat (tmat x) -> served e ->
  (Forall curvable (leaves e (lin (tmat x))) -> exists cs, member_curves x e = Ok cs /\ Forall2 curve_of (leaves e (lin (tmat x))) cs) /\
  (forall cs, member_curves x e = Ok cs -> Forall curvable (leaves e (lin (tmat x)))).
Proof.
  intros A [S1 S2]. unfold member_curves. split.
  - intros W. apply curvables_under in W. destruct (S1 W) as (cs & -> & H). cbn [bind]. destruct (transform_curves _ _ x A W H) as (cs' & E & H').
    exists cs'. split; [exact E|]. rewrite leaves_under. exact H'.
  - intros cs H. apply curvables_under. destruct (elem_as_curves e) as [cs0|] eqn:Ee; [|discriminate]. exact (S2 _ eq_refl).
Qed.
Lemma members_served {A} (get : A -> elem R) (x : transform R) (l : list A) : affine_mat (tmat x) -> (forall a, In a l -> served (get a)) ->
  (Forall curvable (flat_map (fun a => leaves (get a) (lin (tmat x))) l) -> forall acc,
     exists cs, foldM (fun acc a => let* cs := member_curves x (get a) in Ok (acc ++ cs)) acc l = Ok (acc ++ cs) /\
       Forall2 curve_of (flat_map (fun a => leaves (get a) (lin (tmat x))) l) cs) /\
  (forall acc cs, foldM (fun acc a => let* cs := member_curves x (get a) in Ok (acc ++ cs)) acc l = Ok cs ->
     Forall curvable (flat_map (fun a => leaves (get a) (lin (tmat x))) l)).
Proof.
  intros Ax. induction l as [|a l IH]; intros Sv; cbn [flat_map foldM].
  - split; [|constructor]. intros _ acc. exists []. rewrite app_nil_r. split; [reflexivity|constructor].
  - destruct (IH (fun a H => Sv a (or_intror H))) as [I1 I2]. destruct (member_served x (get a) Ax (Sv a (or_introl eq_refl))) as [M1 M2].
    rewrite Forall_app. split.
    + intros [W1 W2] acc. destruct (M1 W1) as (cs & E & H). rewrite E. cbn [bind]. destruct (I1 W2 (acc ++ cs)) as (cs' & E' & H').
      exists (cs ++ cs'). rewrite E', app_assoc. split; [reflexivity|now apply Forall2_app].
    + intros acc cs H. destruct (member_curves x (get a)) as [cs0|] eqn:Em; [|discriminate]. cbn [bind] in H. apply Forall_app; split; [exact (M2 _ eq_refl)|exact (I2 _ _ H)].
Qed.

Lemma all_served (e : elem R) : affine_tree e -> served e.
Proof.
  induction e as [b s|b h l p IH|b o i IHo IHi] using elem_induction; intros At; inversion At as [? ? Ax|? ? ? ? Ax Am|? ? ? Ax Ao Ai]; subst; unfold served.
  - cbn [leaves elem_as_curves]. unfold leaf_as_curves. split.
    + intros W. inversion W as [|? ? [W1 (cps & Es)] _]; subst. cbn [fst snd] in *. rewrite Es. cbn [bind].
      destruct (linear_mapped (t_transform (e_xform b)) cps) as (cps' & -> & Mp). cbn [bind].
      rewrite (mk_base_ok b) by auto. cbn [bind]. eexists. split; [reflexivity|]. constructor; [|constructor].
      exists cps, cps'. cbn [fst snd]. split; [exact Es|]. split; [|reflexivity].
      eapply mapped_ext; [|exact Mp]. intros p. unfold t_transform, same. now rewrite apply_lin.
    + intros cs H. constructor; [|constructor]. unfold curvable. cbn [fst snd].
      destruct (shape_cps s) as [cps|]; [|discriminate]. cbn [bind] in H. split; [|eauto].
      destruct (linear_mapped (t_transform (e_xform b)) cps) as (cps' & E & _). rewrite E in H. cbn [bind] in H.
      unfold mk_base in H. destruct (pb_filled (e_pb b)); [|discriminate]. destruct (e_closed b); [reflexivity|discriminate].
  - rewrite as_curves_group. cbn [leaves].
    destruct (members_served snd (e_xform b) l Ax) as [I1 I2].
    { intros [k e] Hk. rewrite Forall_forall in IH. exact (IH _ Hk (Am _ _ Hk)). }
    change (fun ke : string * elem R => leaves (snd ke) (fun p0 => same (lin (tmat (e_xform b)) p0)))
      with (fun ke : string * elem R => leaves (snd ke) (lin (tmat (e_xform b)))).
    split; [intros W; destruct (I1 W []) as (cs & E & Hc); exists cs; split; assumption|intros cs; apply I2].
  - rewrite as_curves_holes. cbn [leaves].
    destruct (member_served (e_xform b) o Ax (IHo Ao)) as [M1 M2].
    destruct (members_served (fun e => e) (e_xform b) i Ax) as [I1 I2].
    { intros e He. rewrite Forall_forall in IHi. exact (IHi _ He (Ai _ He)). }
    change (fun e : elem R => leaves e (fun p0 => same (lin (tmat (e_xform b)) p0)))
      with (fun e : elem R => leaves e (lin (tmat (e_xform b)))).
    change (fun p0 => same (lin (tmat (e_xform b)) p0)) with (lin (tmat (e_xform b))).
    rewrite Forall_app. split.
    + intros [W1 W2]. destruct (M1 W1) as (cs & -> & H). cbn [bind]. destruct (I1 W2 cs) as (cs' & E' & H').
      exists (cs ++ cs'). split; [exact E'|]. now apply Forall2_app.
    + intros cs H. destruct (member_curves (e_xform b) o) as [cs0|] eqn:Em; [|discriminate]. cbn [bind] in H. apply Forall_app; split; [exact (M2 _ eq_refl)|exact (I2 _ _ H)].
Qed.

(* as_curves() gives one curve for each simple element of the tree, in order: with its name,
   pens and closedness, its control points where they are seen, and no transform left. *)
Theorem C67_curves : forall (e : elem R) cs, affine_tree e -> elem_as_curves e = Ok cs ->
  Forall2 curve_of (leaves e (fun p => p)) cs.
Proof.
  intros e cs At E. destruct (all_served e At) as [S1 S2]. destruct (S1 (S2 _ E)) as (cs' & E' & H). rewrite E in E'. injection E' as <-. exact H.
Qed.
(* It succeeds exactly when no element is filled but open and every shape has an outline. *)
Theorem C67_succeeds : forall e : elem R, affine_tree e ->
  ((exists cs, elem_as_curves e = Ok cs) <-> Forall curvable (leaves e (fun p => p))).
Proof.
  intros e At. destruct (all_served e At) as [S1 S2]. split.
  - intros [cs E]. exact (S2 _ E).
  - intros W. destruct (S1 W) as (cs & E & _). eauto.
Qed.

(* ---------------- drawing the curves ---------------- *)

Lemma curve_drawn dc b cps f c (d : transform R) : curve_of (b, SCurve cps, f) c ->
  snd (elem_paths dc c d) = Ok [Path (e_pb b) (e_closed b) (drawn (fun p => t_transform d (f p)) cps (e_closed b) (dc_steps dc))].
Proof.
  intros (cps0 & cps' & Es & Mp & ->). cbn [fst snd shape_cps] in *. injection Es as <-.
  cbn [elem_paths]. rewrite leaf_paths_curve. cbn [snd e_pb e_closed e_xform]. do 3 f_equal.
  destruct (linear_mapped f cps) as (cps2 & E & Mp2).
  assert (cps2 = cps') as ->.
  { clear - Mp Mp2. revert cps' Mp. induction Mp2 as [|x y l l' (H1 & H2 & H3 & H4) _ IH]; intros l2 K;
      inversion K as [|? z ? l3 (K1 & K2 & K3 & K4) K5]; subst; [reflexivity|]. f_equal; [|now apply IH].
    assert (cc y = cc z) as E1 by congruence. assert (ckind y = ckind z) as E2 by congruence.
    assert (cp_l y = cp_l z) as E3 by congruence. assert (cp_r y = cp_r z) as E4 by congruence. clear - E1 E2 E3 E4.
    destruct y as [[a b] [u v] [u1 v1] k], z as [[a2 b2] [x y] [x1 y1] k2]. cbn in *.
    injection E1 as -> ->. injection E3 as E3 E3'. injection E4 as E4 E4'. subst k2.
    f_equal; f_equal; lra. }
  rewrite (drawn_transformed _ _ _ _ _ _ E). apply drawn_ext. intros p.
  rewrite compose_apply by (cbn; auto with aff). cbn [tmat t_new]. now rewrite lin_id.
Qed.

(* curves all through, in groups that are not hidden *)
Inductive shown_curves : elem R -> Prop :=
| sc_leaf b cps : shown_curves (ELeaf b (SCurve cps))
| sc_group b l p : (forall k e, In (k, e) l -> shown_curves e) -> shown_curves (EGroup b false l p).

(* Drawing the curves of a tree of curves, one after the other, is drawing the tree. *)
Theorem C67_draws : forall (dc : dctx) (e : elem R) cs (d : transform R), affine_tree e -> shown_curves e ->
  elem_as_curves e = Ok cs ->
  exists pss, Forall2 (fun c ps => snd (elem_paths dc c d) = Ok ps) cs pss /\ snd (elem_paths dc e d) = Ok (concat pss).
Proof.
  intros dc e cs d At Sh E. pose proof (C67_curves e cs At E) as Cs. clear E.
  rewrite (proj2 (paths_tame dc e d)).
  change (leaves e (fun p => p)) with (leaves e (fun p => same p)) in Cs.
  pose (f := same). change (fun p => same p) with f in Cs.
  assert (Hm : forall p, mat_apply (tmat d) p = t_transform d (f p)) by reflexivity. revert Hm.
  generalize (tmat d) as m0. clearbody f. revert cs f Cs At Sh.
  induction e as [b s|b h l p IH|b o i IHo IHi] using elem_induction; intros cs f Cs At Sh m0 Hm.
  - inversion Sh; subst. cbn [leaves] in Cs. inversion Cs as [|? c ? cs' Hc Hcs]; subst. inversion Hcs; subst.
    eexists [_]. split; [constructor; [exact (curve_drawn dc _ _ _ c d Hc)|constructor]|].
    rewrite pic_leaf, leaf_paths_curve. cbn [snd concat app]. do 3 f_equal. apply drawn_ext. intros p.
    inversion At; subst. rewrite compose_apply by assumption. unfold t_transform, t_push, only. cbn [tmat]. apply Hm.
  - inversion Sh as [|? ? ? Sm]; subst. inversion At as [|? ? ? ? Ab Am|]; subst. rewrite pic_group, fold_collect. cbn [app leaves] in *.
    clear At Sh.
    assert (exists pss, Forall2 (fun c ps => snd (elem_paths dc c d) = Ok ps) cs (concat pss) /\
      collectM (fun ke => pic dc (snd ke) (mat_dot m0 (tmat (e_xform b)))) l = Ok (map (@concat _) pss)) as (pss & H1 & H2).
    { revert cs Cs. induction IH as [|[k e] l Hk _ IH2]; intros cs Cs; cbn [flat_map snd] in Cs.
      - inversion Cs; subst. exists []. split; [constructor|reflexivity].
      - apply Forall2_app_inv_l in Cs. destruct Cs as (c1 & c2 & C1 & C2 & ->).
        destruct (Hk c1 _ C1 (Am _ _ (or_introl eq_refl)) (Sm _ _ (or_introl eq_refl)) (mat_dot m0 (tmat (e_xform b)))) as (ps & P1 & P2).
        { intros p0. rewrite apply_dot by assumption. rewrite Hm. now rewrite (apply_lin (tmat (e_xform b))). }
        destruct (IH2 (fun k e H => Sm k e (or_intror H)) (fun k e H => Am k e (or_intror H)) c2 C2) as (pss & Q1 & Q2).
        exists (ps :: pss). split; [cbn [concat]; now apply Forall2_app|]. cbn [collectM snd map]. cbn [snd] in P2. rewrite P2. cbn [bind]. now rewrite Q2. }
    exists (concat pss). split; [exact H1|]. rewrite H2. cbn [bind]. f_equal. clear. induction pss as [|ps pss IH]; cbn; [reflexivity|].
    now rewrite concat_app, IH.
  - inversion Sh.
Qed.

(* as_curves() pays no heed to [hidden]: a hidden group draws nothing, its curves do. *)
Theorem C67_hidden_refuted : exists (e c : elem R) (p : path R) (dc : dctx), affine_tree e /\
  elem_as_curves e = Ok [c] /\ snd (elem_paths dc e t_new) = Ok [] /\
  snd (elem_paths dc c t_new) = Ok [p].
Proof.
  pose (pb := PenBrush (Some (Pen (Brush (CStr "black")) 1)) None : penbrush R).
  pose (e := ELeaf (EB "e" pb false t_new) (SCurve [CP (P 0 0) (V 0 0) (V 1 0) "smooth"; CP (P 5 5) (V 0 0) (V 1 0) "smooth"])).
  pose (g := EGroup (EB "g" pb false t_new) true [("e", e)] []).
  assert (affine_tree g) as At.
  { constructor; [cbn; auto with aff|]. intros k x [E|[]]. injection E as <- <-. constructor. cbn; auto with aff. }
  destruct (proj2 (C67_succeeds g At)) as [cs E].
  { constructor; [|constructor]. split; [discriminate|]. eexists. reflexivity. }
  pose proof (C67_curves g cs At E) as H. cbn [leaves g flat_map snd e app] in H. inversion H as [|? c ? cs' Hc Hcs]; subst. inversion Hcs; subst.
  exists g, c. eexists. exists (DC false 7). split; [exact At|]. split; [exact E|]. split; [reflexivity|].
  exact (curve_drawn (DC false 7) _ _ _ c t_new Hc).
Qed.

(* a moved and scaled group with a curve and a shape with a hole *)
Definition ex67_b (n : string) : ebase R :=
  EB n (PenBrush (Some (Pen (Brush (CStr "black")) 1)) (Some (Brush (CStr "red")))) true (t_scale 2 3 (t_translate 1 5 t_new)).
Definition ex67 : elem R :=
  EGroup (ex67_b "g") false
    [("c", ELeaf (ex67_b "c") (SCurve ex_cps));
     ("h", EHoles (ex67_b "h") (ELeaf (ex67_b "o") (SRect (P 0 0) (P 9 9))) [ELeaf (ex67_b "i") (SRect (P 1 1) (P 2 2))])] [].
Example C67_nontrivial : exists c1 c2 c3, affine_tree ex67 /\ elem_as_curves ex67 = Ok [c1; c2; c3].
Proof.
  assert (forall n, affine_mat (tmat (e_xform (ex67_b n)))) as Ax by (intros n; cbn; auto with aff).
  assert (affine_tree ex67) as At.
  { constructor; [apply Ax|]. intros k y [E|[E|[]]]; injection E as <- <-.
    - constructor. apply Ax.
    - constructor; [apply Ax|constructor; apply Ax|]. intros y [<-|[]]. constructor. apply Ax. }
  destruct (proj2 (C67_succeeds ex67 At)) as [cs E].
  { repeat constructor; eexists; reflexivity. }
  pose proof (C67_curves ex67 cs At E) as H. cbn [leaves ex67 flat_map snd app] in H.
  inversion H as [|? c1 ? l1 _ H1]; subst. inversion H1 as [|? c2 ? l2 _ H2]; subst.
  inversion H2 as [|? c3 ? l3 _ H3]; subst. inversion H3; subst. exists c1, c2, c3. split; [exact At|exact E].
Qed.
(* and a tree of curves that is shown *)
Example C67_draws_nontrivial : exists c cs, affine_tree (EGroup (ex67_b "g") false [("c", ELeaf (ex67_b "c") (SCurve ex_cps))] []) /\
  shown_curves (EGroup (ex67_b "g") false [("c", ELeaf (ex67_b "c") (SCurve ex_cps))] []) /\
  elem_as_curves (EGroup (ex67_b "g") false [("c", ELeaf (ex67_b "c") (SCurve ex_cps))] []) = Ok (c :: cs).
Proof.
  set (e := EGroup _ _ _ _).
  assert (affine_tree e) as At.
  { constructor; [cbn; auto with aff|]. intros k y [E|[]]; injection E as <- <-. constructor. cbn; auto with aff. }
  destruct (proj2 (C67_succeeds e At)) as [cs E].
  { repeat constructor; eexists; reflexivity. }
  pose proof (C67_curves e cs At E) as H. cbn [leaves e flat_map snd app] in H. inversion H as [|? c1 ? l1 _ H1]; subst.
  exists c1, l1. split; [exact At|]. split; [|exact E]. constructor. intros k y [Ey|[]]; injection Ey as <- <-. constructor.
Qed.

(* A rectangle becomes a curve through its corners whose segments are its straight edges *)
Theorem C67_rectangle : forall x1 y1 x2 y2 : R, exists cps, shape_cps (SRect (P x1 y1) (P x2 y2)) = Ok cps /\
  map cc cps = [P x1 y1; P x1 y2; P x2 y2; P x2 y1] /\
  forall s e t, In (s, e) (path_segments cps true) -> (0 <= t <= 1)%R -> exists u, (0 <= u <= 1)%R /\
    segment s e t = P (px (cc s) + u * (px (cc e) - px (cc s))) (py (cc s) + u * (py (cc e) - py (cc s))).
Proof.
  intros x1 y1 x2 y2. eexists. split; [reflexivity|]. split; [reflexivity|]. intros s e t I Ht. exists (t * t * (3 - 2 * t))%R.
  split; [split; [apply Rmult_le_pos; [apply Rle_0_sqr|lra]|]|].
  - assert (0 <= (1 - t) * (1 - t) * (1 + 2 * t))%R by (apply Rmult_le_pos; [apply Rle_0_sqr|lra]). lra.
  - cbn in I. destruct I as [I|[I|[I|[I|[]]]]]; injection I as <- <-; unfold segment, cubic, cubic1, right_of, left_of; cbn [cc cdl cdr px py vx vy]; change (@nofZ R _ 0) with 0; f_equal; ring.
Qed.
