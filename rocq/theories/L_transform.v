Require Import Verif.L_real Verif.M_vector Verif.M_bbox Verif.S_bbox Verif.L_bbox Verif.L_bboxR.
Require Import Verif.M_transform Verif.S_transform.
From Coq Require Import List FunctionalExtensionality.

#[global] Arguments mat_apply {F NF} a p : simpl never.
#[global] Arguments mat_dot {F NF} a b : simpl never.
#[global] Arguments lin m p : simpl never.

Ltac mat_unfold :=
  repeat progress unfold t_transform, t_translate, t_scale, t_rotate, t_rotate_ccw, t_rotate_about, rotate_about_mat,
    t_compose, t_compose_outer, t_reset, t_set_matrix, t_pre, t_push, t_new, t_new6, mat_of6,
    translate_mat, scale_mat, rotate_mat, rotate_mat_ccw, mat_id, p_neg, mat_dot, mat_apply,
    affine_mat, invertible, lin, shift, stretch, turn_cw, turn_ccw, about, radians, dist2 in *;
  cbn -[IZR] in *.

Lemma mat_ext (a b : mat R) :
  m00 a = m00 b -> m01 a = m01 b -> m02 a = m02 b ->
  m10 a = m10 b -> m11 a = m11 b -> m12 a = m12 b ->
  m20 a = m20 b -> m21 a = m21 b -> m22 a = m22 b -> a = b.
Proof. destruct a, b; cbn; intros; congruence. Qed.
Lemma pt_ext (p q : pt R) : px p = px q -> py p = py q -> p = q.
Proof. destruct p, q; cbn; congruence. Qed.

Lemma apply_lin m p : mat_apply m p = lin m p.
Proof. unfold mat_apply, lin. cbn. f_equal; ring. Qed.

Lemma apply_dot a b p : affine_mat b -> mat_apply (mat_dot a b) p = mat_apply a (mat_apply b p).
Proof.
  intros (A & B & C). mat_unfold. rewrite A, B, C. f_equal; ring.
Qed.
Lemma affine_dot a b : affine_mat a -> affine_mat b -> affine_mat (mat_dot a b).
Proof.
  intros (A & B & C) (A' & B' & C'). mat_unfold. rewrite A, B, C, A', B', C'. repeat split; ring.
Qed.
Lemma affine_id : affine_mat mat_id.
Proof. mat_unfold. auto. Qed.
Lemma affine_translate dx dy : affine_mat (translate_mat dx dy).
Proof. mat_unfold. auto. Qed.
Lemma affine_scale dx dy : affine_mat (scale_mat dx dy).
Proof. mat_unfold. auto. Qed.
Lemma affine_rotate r : affine_mat (rotate_mat r).
Proof. mat_unfold. auto. Qed.
Lemma affine_rotate_ccw r : affine_mat (rotate_mat_ccw r).
Proof. mat_unfold. auto. Qed.
Lemma affine_rotate_about r c : affine_mat (rotate_about_mat r c).
Proof. mat_unfold. repeat split; ring. Qed.
Lemma affine_of6 a b c d e f : affine_mat (mat_of6 a b c d e f).
Proof. mat_unfold. auto. Qed.
#[global] Hint Resolve affine_dot affine_id affine_translate affine_scale affine_rotate affine_rotate_ccw
  affine_rotate_about affine_of6 : aff.

(* ---------------- inverse ---------------- *)
Lemma det_affine m : affine_mat m -> mat_det m = m00 m * m11 m - m01 m * m10 m.
Proof. intros (A & B & C). unfold mat_det. cbn. rewrite A, B, C. ring. Qed.

Lemma inv_ok m : affine_mat m -> invertible m ->
  exists i, mat_inv m = Ok i /\ affine_mat i /\
    (forall p, mat_apply i (mat_apply m p) = p) /\ (forall p, mat_apply m (mat_apply i p) = p).
Proof.
  intros Am Im. unfold mat_inv.
  destruct (neqb (mat_det m) (nofZ 0)) eqn:E.
  - change (Reqb (mat_det m) 0 = true) in E. apply Reqb_eq in E. rewrite det_affine in E by auto. contradiction.
  - eexists. split; [reflexivity|]. rewrite !det_affine by auto.
    destruct Am as (A & B & C). unfold invertible in Im. unfold affine_mat, mat_apply. cbn -[IZR].
    rewrite A, B, C. split; [repeat split; field; auto|].
    split; intros p; destruct p as [x y]; cbn -[IZR]; f_equal; field; auto.
Qed.

Lemma inv_singular m : affine_mat m -> ~ invertible m -> mat_inv m = Raise LinAlgError.
Proof.
  intros Am Im. unfold mat_inv. destruct (neqb (mat_det m) (nofZ 0)) eqn:E; auto.
  exfalso. apply Im. change (Reqb (mat_det m) 0 = false) in E. apply Reqb_neq in E. rewrite det_affine in E by auto. exact E.
Qed.

Lemma invertible_dec m : invertible m \/ ~ invertible m.
Proof. unfold invertible. destruct (Req_dec (m00 m * m11 m - m01 m * m10 m) 0); tauto. Qed.

(* ---------------- histories: affineness and the cache ---------------- *)
Definition affine_state (s : transform R) : Prop := affine_mat (tmat s) /\ Forall affine_mat (tstack s).
Definition cache_ok (s : transform R) : Prop :=
  match tinv s with None => True | Some i => mat_inv (tmat s) = Ok i end.

Lemma scale_bbox_affine a b k s : affine_state s -> affine_state (fst (t_scale_bbox a b k s)).
Proof.
  unfold affine_state, t_scale_bbox, t_translate, t_scale, t_pre. intros [A B].
  destruct k.
  - destruct (pydiv _ _); [|auto]. destruct (pydiv _ _); [|auto].
    destruct a; [auto|]. destruct b; cbn; auto 8 with aff.
  - destruct a; [auto|]. destruct (pydiv _ _); [|cbn; auto 8 with aff].
    destruct (pydiv _ _); [|cbn; auto 8 with aff]. destruct b; cbn; auto 10 with aff.
Qed.

Lemma step_affine o s : affine_state s -> affine_args o -> affine_state (fst (tstep o s)).
Proof.
  intros [A B] HA. destruct o; cbn -[t_scale_bbox] in *; try (split; cbn; auto with aff; fail).
  - apply scale_bbox_affine; split; auto.
  - unfold t_pop. destruct (tstack s) eqn:E; cbn; [split; rewrite ?E; auto|].
    inversion B; subst. split; auto.
  - unfold t_untransform, t_inverse. destruct (tinv s); cbn; [split; auto|].
    destruct (mat_inv (tmat s)); cbn; split; auto.
Qed.

Lemma run_affine ops : forall s, affine_state s -> Forall affine_args ops -> affine_state (trun ops s).
Proof.
  induction ops as [|o ops IH]; intros s A F; cbn; auto.
  inversion F; subst. apply IH; auto. apply step_affine; auto.
Qed.

Lemma scale_bbox_cache a b k s : cache_ok s -> cache_ok (fst (t_scale_bbox a b k s)).
Proof.
  intros C. unfold t_scale_bbox.
  destruct k.
  - destruct (pydiv _ _); [|auto]. destruct (pydiv _ _); [|auto].
    destruct a; [auto|]. destruct b; exact I.
  - destruct a; [auto|]. destruct (pydiv _ _); [|exact I].
    destruct (pydiv _ _); [|exact I]. destruct b; exact I.
Qed.

Lemma step_cache o s : cache_ok s ->
  (match o with ORotateAbout _ _ => tinv s = None | _ => True end) -> cache_ok (fst (tstep o s)).
Proof.
  intros C H. destruct o; try exact I; try exact C.
  - cbn. unfold cache_ok. cbn. rewrite H. exact I.
  - apply scale_bbox_cache; auto.
  - cbn. unfold t_pop. destruct (tstack s); [exact C|exact I].
  - cbn. unfold t_untransform, t_inverse. destruct (tinv s) eqn:E; cbn; [exact C|].
    destruct (mat_inv (tmat s)) eqn:E2; cbn; [|exact C]. exact E2.
Qed.

(* rotate_about is only called while no inverse is cached *)
Fixpoint no_stale (ops : list (top R)) (s : transform R) : Prop :=
  match ops with
  | [] => True
  | o :: rest =>
      (match o with ORotateAbout _ _ => tinv s = None | _ => True end) /\
      no_stale rest (fst (tstep o s))
  end.

Lemma run_cache ops : forall s, cache_ok s -> no_stale ops s -> cache_ok (trun ops s).
Proof.
  induction ops as [|o ops IH]; intros s C N; cbn; auto.
  destruct N as [N1 N2]. apply IH; auto. apply step_cache; auto.
Qed.

Lemma untransform_ok s p : affine_state s -> cache_ok s ->
  (invertible (tmat s) -> exists s', t_untransform s (t_transform s p) = (s', Ok p)
                                     /\ tmat s' = tmat s /\ tstack s' = tstack s) /\
  (~ invertible (tmat s) -> t_untransform s p = (s, Raise LinAlgError)).
Proof.
  intros [A B] C. unfold t_untransform, t_inverse. split.
  - intros I. destruct (inv_ok (tmat s) A I) as (i & E & _ & L & _).
    unfold cache_ok in C. destruct (tinv s) as [j|] eqn:Ej.
    + rewrite E in C. inversion C; subst. exists s. unfold t_transform, bind. rewrite L. auto.
    + rewrite E. eexists. unfold t_transform, bind. rewrite L. auto.
  - intros I. pose proof (inv_singular (tmat s) A I) as E.
    unfold cache_ok in C. destruct (tinv s) as [j|] eqn:Ej; [congruence|]. rewrite E. reflexivity.
Qed.

(* ---------------- refinement to point maps ---------------- *)
Definition rel (s : transform R) (sp : sstate) : Prop :=
  (forall p, t_transform s p = fst sp p) /\
  Forall2 (fun m g => forall p, mat_apply m p = g p) (tstack s) (snd sp).

Lemma step_rel o s sp sp' : affine_state s -> affine_args o -> rel s sp ->
  sstep o sp = Some sp' -> rel (fst (tstep o s)) sp'.
Proof.
  intros [A B] HA [R1 R2] E. destruct sp as [f st]. cbn in R1, R2.
  unfold t_transform in *.
  destruct o; cbn -[t_scale_bbox] in E, HA |- *; inversion E; subst; clear E.
  - split; auto. intros p. unfold t_transform. cbn. rewrite apply_dot, R1 by auto. rewrite apply_lin.
    unfold lin, shift, translate_mat. cbn -[IZR]. f_equal; ring.
  - split; auto. intros p. unfold t_transform. cbn. rewrite apply_dot, R1 by auto. rewrite apply_lin.
    unfold lin, stretch, scale_mat. cbn -[IZR]. f_equal; ring.
  - split; auto. intros p. unfold t_transform. cbn. rewrite apply_dot, R1 by auto. rewrite apply_lin.
    unfold lin, turn_cw, turn_ccw, rotate_mat, radians. cbn -[IZR].
    replace (- deg * (PI / 180)) with (- (deg * (PI / 180))) by ring.
    rewrite cos_neg, sin_neg. f_equal; ring.
  - split; auto. intros p. unfold t_transform. cbn. rewrite apply_dot, R1 by auto. rewrite apply_lin.
    unfold lin, turn_ccw, rotate_mat_ccw, radians. cbn -[IZR]. f_equal; ring.
  - split; auto. intros p. unfold t_transform. cbn [tmat t_rotate_about]. rewrite apply_dot, R1 by auto. rewrite apply_lin.
    unfold rotate_about_mat, p_neg, t_translate, t_rotate, t_pre, t_new, lin, about, turn_cw, turn_ccw,
      shift, rotate_mat, translate_mat, mat_id, mat_dot, radians. cbn -[IZR].
    replace (- deg * (PI / 180)) with (- (deg * (PI / 180))) by ring.
    rewrite cos_neg, sin_neg. f_equal; ring.
  - split; auto. intros p. unfold t_transform. cbn. rewrite apply_dot, R1 by auto. rewrite apply_lin. reflexivity.
  - split; auto. intros p. unfold t_transform. cbn. rewrite apply_dot, R1 by auto. apply apply_lin.
  - split; auto. intros p. unfold t_transform. cbn. rewrite apply_lin. unfold lin. cbn -[IZR]. destruct p; cbn; f_equal; ring.
  - split; auto. intros p. unfold t_transform. apply apply_lin.
  - split; cbn; auto.
  - unfold t_pop. inversion R2; subst; cbn.
    + inversion H0; subst. split; cbn; auto.
    + inversion H0; subst. split; cbn; auto.
  - split; auto.
  - unfold t_untransform, t_inverse. destruct (tinv s); cbn; [split; auto|].
    destruct (mat_inv (tmat s)); cbn; split; auto.
Qed.

Lemma run_rel ops : forall s sp sp', affine_state s -> Forall affine_args ops -> rel s sp ->
  srun ops sp = Some sp' -> rel (trun ops s) sp'.
Proof.
  induction ops as [|o ops IH]; intros s sp sp' A F R E; cbn in *.
  - inversion E; subst. auto.
  - inversion F; subst. destruct (sstep o sp) as [s1|] eqn:E1; [|discriminate].
    apply IH with s1; auto.
    + apply step_affine; auto.
    + eapply step_rel; eauto.
Qed.

(* ---------------- push / pop ---------------- *)
Lemma step_stack o s : o <> OPush -> o <> OPop -> tstack (fst (tstep o s)) = tstack s.
Proof.
  intros H1 H2. destruct o; try reflexivity; try congruence.
  - cbn -[t_scale_bbox]. unfold t_scale_bbox. destruct keep_aspect.
    + destruct (pydiv _ _); [|auto]. destruct (pydiv _ _); [|auto].
      destruct start; [auto|]. destruct target; reflexivity.
    + destruct start; [auto|]. destruct (pydiv _ _); [|reflexivity].
      destruct (pydiv _ _); [|reflexivity]. destruct target; reflexivity.
  - cbn. unfold t_untransform, t_inverse. destruct (tinv s); cbn; auto.
    destruct (mat_inv (tmat s)); reflexivity.
Qed.

Lemma trun_app a b s : trun (a ++ b) s = trun b (trun a s).
Proof. unfold trun. apply fold_left_app. Qed.

Lemma balanced_stack ops : balanced ops -> forall s, tstack (trun ops s) = tstack s.
Proof.
  induction 1; intros s.
  - reflexivity.
  - cbn. change (tstack (trun ops (fst (tstep o s))) = tstack s). rewrite IHbalanced. apply step_stack; auto.
  - change (tstack (trun (ops ++ OPop :: ops') (t_push s)) = tstack s).
    rewrite trun_app. cbn. change (fold_left (fun s0 o => fst (tstep o s0)) ops' ?x) with (trun ops' x).
    rewrite IHbalanced2. unfold t_pop. rewrite IHbalanced1. reflexivity.
Qed.

Lemma balanced_restore ops s : balanced ops ->
  tmat (trun (OPush :: ops ++ [OPop]) s) = tmat s /\ tstack (trun (OPush :: ops ++ [OPop]) s) = tstack s.
Proof.
  intros B. change (trun (OPush :: ops ++ [OPop]) s) with (trun (ops ++ [OPop]) (t_push s)).
  rewrite trun_app. cbn. unfold t_pop. rewrite balanced_stack by auto. cbn. auto.
Qed.

Lemma chain_stack chain : Forall (fun o => o <> OPush /\ o <> OPop) chain ->
  forall s, tstack (fst (run_chain chain s)) = tstack s.
Proof.
  induction 1 as [|o rest [H1 H2] _ IH]; intros s; cbn; auto.
  pose proof (step_stack o s H1 H2) as E. destruct (tstep o s) as [s' [u|e]]; cbn in *; auto.
  rewrite IH. auto.
Qed.

(* chained calls of with-statements succeed *)
Fixpoint chains_ok (p : stmt R) (s : transform R) : Prop :=
  match p with
  | SOp _ | SSkip => True
  | SSeq a b => chains_ok a s /\ (forall s' u, exec a s = (s', Ok u) -> chains_ok b s')
  | SWith chain body =>
      match run_chain chain (t_push s) with
      | (s', Ok _) => chains_ok body s'
      | (_, Raise _) => False
      end
  end.

Lemma exec_stack p : forall s, structured p -> chains_ok p s -> tstack (fst (exec p s)) = tstack s.
Proof.
  induction p; intros s S C; cbn in *.
  - destruct S. apply step_stack; auto.
  - reflexivity.
  - destruct S as [S1 S2], C as [C1 C2]. pose proof (IHp1 s S1 C1) as E1.
    destruct (exec p1 s) as [s' [u|e]]; cbn in *; auto.
    rewrite IHp2; auto. eapply C2. reflexivity.
  - destruct S as [S1 S2].
    pose proof (chain_stack chain S1 (t_push s)) as E.
    destruct (run_chain chain (t_push s)) as [s' [u|e]]; [|contradiction].
    cbn in E. unfold t_enter. rewrite E.
    pose proof (IHp s' S2 C) as E2. destruct (exec p s') as [s2 r]. cbn in E2.
    unfold t_pop. rewrite E2, E. reflexivity.
Qed.

Lemma with_restores chain body s : Forall (fun o => o <> OPush /\ o <> OPop) chain -> structured body ->
  forall s1, run_chain chain (t_push s) = (s1, Ok tt) -> chains_ok body s1 ->
  tmat (fst (exec (SWith chain body) s)) = tmat s /\
  tstack (fst (exec (SWith chain body) s)) = tstack s /\
  snd (exec (SWith chain body) s) = snd (exec body s1).
Proof.
  intros HC HB s1 E1 OKB. cbn.
  pose proof (chain_stack chain HC (t_push s)) as E. rewrite E1 in *. cbn in E.
  unfold t_enter. rewrite E.
  pose proof (exec_stack body s1 HB OKB) as E2. destruct (exec body s1) as [s2 r]. cbn in E2.
  unfold t_pop. rewrite E2, E. cbn. auto.
Qed.

Lemma with_chain_raises chain body s e s1 : Forall (fun o => o <> OPush /\ o <> OPop) chain ->
  run_chain chain (t_push s) = (s1, Raise e) ->
  exec (SWith chain body) s = (s1, Raise e) /\ tstack s1 = tmat s :: tstack s.
Proof.
  intros HC E1. cbn. rewrite E1. split; auto.
  pose proof (chain_stack chain HC (t_push s)) as E. rewrite E1 in E. exact E.
Qed.
