(* C48, C49: copying, transforming and restoring groups and shapes with holes; paths of shapes
   with holes. *)
Require Import Verif.Base Verif.NumR Verif.L_real Verif.L_ord Verif.M_vector Verif.M_bbox Verif.M_transform Verif.M_bezier Verif.M_colors Verif.M_elems Verif.M_group.
Require Import Verif.S_bbox Verif.L_bbox Verif.L_bboxR Verif.S_transform Verif.L_transform Verif.S_elems Verif.L_elems Verif.P_elems Verif.P_p1p2.
Require Import Verif.S_group Verif.S_gdraw Verif.L_group Verif.L_gdraw Verif.P_gdraw.
From Coq Require Import String Reals List Lia Lra Bool.
Import ListNotations.
Local Open Scope string_scope.
Local Open Scope list_scope.
Local Open Scope R_scope.

(* ------------------------------------------------------------------ *)
(** ** C48 copies *)

Section Copies.
  Context {F : Type} {NF : Num F} {RF : NumRoot F} {TF : NumTrig F}.

  Lemma copy_mat (x : transform F) : tmat (t_copy x) = tmat x. Proof. reflexivity. Qed.

  Lemma set_pb_id (e : elem F) pb : e_pb (e_base e) = pb -> set_pb pb e = e.
  Proof. intros <-. destruct e as [[n q c x] s|[n q c x] h l p|[n q c x] o i]; reflexivity. Qed.

  Lemma leaf_copy b s (e' : elem F) : elem_copy (ELeaf b s) = Ok e' -> e' = ELeaf b s.
  Proof.
    cbn [elem_copy]. unfold mk_base. destruct b as [n pb c x]. cbn [e_name e_pb e_closed e_xform].
    destruct s, c, (pb_filled pb); cbn; intros E; try discriminate; injection E as <-; reflexivity.
  Qed.

  Lemma copy_base (e e' : elem F) : elem_copy e = Ok e' ->
    e_name (e_base e') = e_name (e_base e) /\ e_pb (e_base e') = e_pb (e_base e) /\
    tmat (e_xform (e_base e')) = tmat (e_xform (e_base e)).
  Proof.
    destruct e as [b s|b h l p|b o i]; intros E.
    - apply leaf_copy in E. now subst.
    - cbn [elem_copy] in E. unfold mk_group_dict, mk_base in E. destruct (_ && _); cbn [bind] in E; [discriminate|].
      injection E as <-. cbn. auto.
    - cbn [elem_copy] in E. destruct (elem_copy o) as [o'|x]; cbn [bind] in E; [|discriminate].
      destruct (collectM elem_copy i) as [i'|x]; cbn [bind] in E; [|discriminate].
      unfold mk_holes, mk_base in E. destruct (_ && _); cbn [bind] in E; [discriminate|].
      injection E as <-. cbn. auto.
  Qed.

  Lemma foldM_two {A B S} (f : S -> A -> res S) (g : S -> B -> res S) l l' :
    Forall2 (fun a b => forall s, f s a = g s b) l l' -> forall s, foldM f s l = foldM g s l'.
  Proof. induction 1 as [|a b l l' H _ IH]; intros s; cbn; [reflexivity|]. rewrite H. destruct (g s b); cbn; auto. Qed.

  Lemma holes_pic_two dc (b b' : ebase F) o o' i i' M : e_pb b = e_pb b' -> pic dc o M = pic dc o' M ->
    Forall2 (fun e e' => pic dc e M = pic dc e' M) i i' -> holes_pic dc b o i M = holes_pic dc b' o' i' M.
  Proof.
    intros Eb Eo Hi. unfold holes_pic, edge_pb. rewrite Eo, Eb. destruct (pic dc o' M) as [ps|x]; cbn [bind]; [|reflexivity].
    destruct ps as [|p0 [|]]; auto. destruct (pb_brush (e_pb b')).
    - erewrite foldM_two; [reflexivity|]. clear -Hi. induction Hi as [|e e' l l' H _ IH]; constructor; auto.
      intros s. now rewrite H.
    - erewrite foldM_two; [reflexivity|]. clear -Hi. induction Hi as [|e e' l l' H _ IH]; constructor; auto.
      intros s. now rewrite H.
  Qed.

  Lemma copy_holes_parts (b : ebase F) o i o' i' : e_pb (e_base o) = e_pb b ->
    (forall e, In e i -> e_pb (e_base e) = e_pb b) -> elem_copy o = Ok o' -> collectM elem_copy i = Ok i' ->
    set_pb (e_pb b) o' = o' /\ map (set_pb (e_pb b)) i' = i'.
  Proof.
    intros Ho Hi Eo Ei. split; [apply set_pb_id; destruct (copy_base _ _ Eo) as (_ & -> & _); exact Ho|].
    apply collect_iff in Ei. induction Ei as [|e e' l l' E _ IH]; [reflexivity|]. cbn [map]. f_equal.
    - apply set_pb_id. destruct (copy_base _ _ E) as (_ & -> & _). apply Hi. now left.
    - apply IH. intros x Hx. apply Hi. now right.
  Qed.

  Lemma copy_pic dc (e : elem F) : pens_shared e -> forall e' M, elem_copy e = Ok e' -> pic dc e' M = pic dc e M.
  Proof.
    induction e as [b s|b h l p IH|b o i IHo IHi] using elem_induction; intros X e' M E.
    - apply leaf_copy in E. now subst.
    - cbn [elem_copy] in E. unfold mk_group_dict, mk_base in E. destruct (_ && _); cbn [bind] in E; [discriminate|].
      injection E as <-. destruct h; [reflexivity|]. rewrite !pic_group. reflexivity.
    - inversion X as [| |b' o' i' Xo Ho Xi]; subst. cbn [elem_copy] in E.
      destruct (elem_copy o) as [o'|x] eqn:Eo; cbn [bind] in E; [|discriminate].
      destruct (collectM elem_copy i) as [i'|x] eqn:Ei; cbn [bind] in E; [|discriminate].
      unfold mk_holes, mk_base in E. destruct (_ && _); cbn [bind] in E; [discriminate|]. injection E as <-.
      destruct (copy_holes_parts b o i o' i' Ho (fun e H => proj2 (Xi e H)) Eo Ei) as [-> ->].
      rewrite !pic_holes. cbn [e_xform]. rewrite copy_mat. apply holes_pic_two; auto.
      apply collect_iff in Ei. clear -Ei IHi Xi. induction Ei as [|e e' l l' E _ IH]; constructor.
      + inversion IHi; subst. apply H1; auto. apply (Xi e). now left.
      + inversion IHi; subst. apply IH; auto. intros x Hx. apply Xi. now right.
  Qed.
End Copies.

(* copy() succeeds exactly for trees without filled groups, open filled shapes or open
   two-corner shapes; otherwise it raises AssertionError.  (Members of groups are not copied,
   so nothing is asked of them.) *)
Theorem C48_copy_iff : forall {F} {NF : Num F} (e : elem F),
  (copyable e /\ exists e', elem_copy e = Ok e') \/ (~ copyable e /\ elem_copy e = Raise AssertionError).
Proof.
  intros F NF e. induction e as [b s|b h l p _|b o i IHo IHi] using elem_induction.
  - cbn [elem_copy]. unfold mk_base.
    destruct (pb_filled (e_pb b)) eqn:Ef, (e_closed b) eqn:Ec; cbn.
    + left. split; [constructor; rewrite ?Ec; auto; now destruct s|destruct s; cbn; eauto].
    + right. split; [inversion 1; subst; rewrite Ec in *; intuition congruence|destruct s; reflexivity].
    + left. split; [constructor; rewrite ?Ec; auto; now destruct s|destruct s; cbn; eauto].
    + destruct s; [left; split; [constructor; [congruence|exact I]|cbn; eauto]| | |];
        (right; split; [inversion 1; subst; congruence|reflexivity]).
  - cbn [elem_copy]. unfold mk_group_dict, mk_base. destruct (pb_filled (e_pb b)) eqn:Ef; cbn.
    + right. split; [inversion 1; congruence|reflexivity].
    + left. split; [now constructor|eauto].
  - cbn [elem_copy].
    assert (Ci : ((forall e, In e i -> copyable e) /\ exists i', collectM elem_copy i = Ok i') \/
                 (~ (forall e, In e i -> copyable e) /\ collectM elem_copy i = Raise AssertionError)).
    { clear IHo. induction IHi as [|e i He _ IH]; [left; split; [intros ? []|eexists; reflexivity]|].
      cbn [collectM]. destruct He as [[C (e' & ->)]|[C ->]]; cbn [bind].
      - destruct IH as [[Ci (i' & ->)]|[Ci ->]]; cbn [bind].
        + left. split; [intros x [<-|Hx]; auto|eauto].
        + right. split; [intros K; apply Ci; intros x Hx; apply K; now right|reflexivity].
      - right. split; [intros K; apply C, K; now left|reflexivity]. }
    destruct IHo as [[Co (o' & ->)]|[Co ->]]; cbn [bind]; [|right; split; [inversion 1; auto|reflexivity]].
    destruct Ci as [[Ci (i' & ->)]|[Ci ->]]; cbn [bind]; [|right; split; [inversion 1; auto|reflexivity]].
    unfold mk_holes, mk_base. destruct (pb_filled (e_pb b)) eqn:Ef, (e_closed b) eqn:Ec; cbn [bind andb negb].
    + left. split; [constructor; auto; congruence|eauto].
    + right. split; [inversion 1; subst; rewrite Ec in *; intuition congruence|reflexivity].
    + left. split; [constructor; auto; congruence|eauto].
    + left. split; [constructor; auto; congruence|eauto].
Qed.

(* a copy of a group has the same name, pens, visibility, members and points and the same
   matrix, with an empty stack; but it is always open, so a filled closed group has no copy *)
Theorem C48_group_copy : forall {F} {NF : Num F} (b : ebase F) h l p,
  (pb_filled (e_pb b) = true -> elem_copy (EGroup b h l p) = Raise AssertionError) /\
  (pb_filled (e_pb b) = false ->
   exists b', elem_copy (EGroup b h l p) = Ok (EGroup b' h l p) /\ e_name b' = e_name b /\ e_pb b' = e_pb b /\
     tmat (e_xform b') = tmat (e_xform b) /\ tstack (e_xform b') = [] /\ e_closed b' = false).
Proof.
  intros F NF b h l p. cbn [elem_copy]. unfold mk_group_dict, mk_base. split; intros ->; [reflexivity|].
  cbn. eexists. split; [reflexivity|]. cbn. auto.
Qed.

(* a copy draws what the original draws *)
Theorem C48_copy_draws : forall {F} {NF : Num F} {RF : NumRoot F} {TF : NumTrig F}
    (dc : dctx) (e e' : elem F) (m : transform F),
  pens_shared e -> elem_copy e = Ok e' -> snd (elem_paths dc e' m) = snd (elem_paths dc e m).
Proof.
  intros F NF RF TF dc e e' m X E. rewrite !(proj2 (paths_tame dc _ m)). now apply copy_pic.
Qed.

Lemma dot_assoc (a b c : mat R) : mat_dot (mat_dot a b) c = mat_dot a (mat_dot b c).
Proof. destruct a, b, c. unfold mat_dot. cbn. f_equal; ring. Qed.

(* transform(m) of a group or a shape with holes: m is not changed; it raises exactly when
   copying would; the result draws under any matrix d what the original draws under d.m.
   A transformed group is always open. *)
Theorem C48_transform : forall (e : elem R) (m : transform R), pens_shared e ->
  match e with ELeaf _ _ => False | _ => True end ->
  fst (elem_transform e m) = m /\
  ((copyable e /\ exists e', snd (elem_transform e m) = Ok e' /\
      e_name (e_base e') = e_name (e_base e) /\ e_pb (e_base e') = e_pb (e_base e) /\
      e_closed (e_base e') = (match e with EGroup _ _ _ _ => false | _ => e_closed (e_base e) end) /\
      forall dc d, snd (elem_paths dc e' d) = snd (elem_paths dc e (t_compose (tmat m) d))) \/
   (~ copyable e /\ snd (elem_transform e m) = Raise AssertionError)).
Proof.
  intros e m X NL. destruct e as [b s|b h l p|b o i]; [destruct NL| |].
  - split; [reflexivity|]. cbn [elem_transform snd]. unfold mk_group_dict, mk_base.
    destruct (pb_filled (e_pb b)) eqn:Ef; cbn [andb negb bind].
    + right. split; [inversion 1; congruence|reflexivity].
    + left. split; [now constructor|]. eexists. split; [reflexivity|]. cbn [e_base e_name e_pb e_closed].
      do 3 (split; [reflexivity|]). intros dc d. rewrite !(proj2 (paths_tame dc _ _)).
      destruct h; [reflexivity|]. rewrite !pic_group. apply foldM_ext. intros s a.
      cbn [e_xform t_compose tmat]. rewrite copy_mat, dot_assoc. reflexivity.
  - split; [reflexivity|]. pose proof (C48_copy_iff (EHoles b o i)) as [[C (c & E)]|[C E]].
    + left. split; [exact C|]. inversion X as [| |b' o' i' Xo Ho Xi]; subst.
      cbn [elem_copy elem_transform snd] in *.
      destruct (elem_copy o) as [o'|x] eqn:Eo; cbn [bind] in *; [|discriminate].
      destruct (collectM elem_copy i) as [i'|x] eqn:Ei; cbn [bind] in *; [|discriminate].
      unfold mk_holes, mk_base in *. destruct (pb_filled (e_pb b) && negb (e_closed b)); cbn [bind] in *; [discriminate|].
      eexists. split; [reflexivity|]. cbn [e_base e_name e_pb e_closed]. do 3 (split; [reflexivity|]).
      intros dc d. rewrite !(proj2 (paths_tame dc _ _)).
      destruct (copy_holes_parts b o i o' i' Ho (fun e H => proj2 (Xi e H)) Eo Ei) as [-> ->].
      rewrite !pic_holes. cbn [e_xform t_compose tmat]. rewrite ?copy_mat. cbn [tmat t_compose]. rewrite ?copy_mat, ?dot_assoc.
      apply holes_pic_two; auto; [now apply copy_pic|].
      apply collect_iff in Ei. clear -Ei Xi. induction Ei as [|e e' l l' E _ IH]; constructor.
      * apply copy_pic; auto. apply (Xi e). now left.
      * apply IH. intros x Hx. apply Xi. now right.
    + right. split; [exact C|]. cbn [elem_copy elem_transform snd] in *.
      destruct (elem_copy o) as [o'|x] eqn:Eo; cbn [bind] in *; [|congruence].
      destruct (collectM elem_copy i) as [i'|x] eqn:Ei; cbn [bind] in *; [|congruence].
      unfold mk_holes, mk_base in *. destruct (pb_filled (e_pb b) && negb (e_closed b)); cbn [bind] in *; [reflexivity|discriminate].
Qed.

(* g.restore(c) after c = g.copy(), whatever happened to g in between: g has again its name,
   pens, visibility, members and points and draws as before; but g.closed stays what it is *)
Theorem C48_restore : forall {F} {NF : Num F} {RF : NumRoot F} {TF : NumTrig F}
    (b b1 : ebase F) h h1 l l1 p p1 (c : elem F),
  elem_copy (EGroup b h l p) = Ok c ->
  exists b', group_restore (EGroup b1 h1 l1 p1) c = Ok (EGroup b' h l p) /\
    e_name b' = e_name b /\ e_pb b' = e_pb b /\ tmat (e_xform b') = tmat (e_xform b) /\ e_closed b' = e_closed b1 /\
    forall dc m, snd (elem_paths dc (EGroup b' h l p) m) = snd (elem_paths dc (EGroup b h l p) m).
Proof.
  intros F NF RF TF b b1 h h1 l l1 p p1 c E. cbn [elem_copy] in E. unfold mk_group_dict, mk_base in E.
  destruct (_ && _); cbn [bind] in E; [discriminate|]. injection E as <-. cbn [group_restore].
  eexists. split; [reflexivity|]. cbn [e_name e_pb e_xform e_closed]. do 4 (split; [reflexivity|]). intros dc m.
  rewrite !(proj2 (paths_tame dc _ m)). destruct h; [reflexivity|]. rewrite !pic_group. reflexivity.
Qed.

(* ------------------------------------------------------------------ *)
(** ** C49 shapes with holes *)

Section HolePaths.
  Context {F : Type} {NF : Num F} {RF : NumRoot F} {TF : NumTrig F}.

  Lemma extend_z (pb : penbrush F) c pts z more : path_extend (Path pb c (pts ++ [z])) more true =
    Ok (Path pb c (pts ++ [z] ++ more ++ [z])).
  Proof. unfold path_extend. cbn [p_points p_pb p_closed]. rewrite rev_app_distr. cbn. now rewrite <- app_assoc. Qed.

  Lemma hole_filled_eq (pb fb : penbrush F) c z paths : forall edges pts,
    hole_filled pb (edges, Path fb c (pts ++ [z])) paths =
    Ok (edges ++ times (List.length paths) (map (path_set_pb pb) paths),
        Path fb c (pts ++ [z] ++ concat (map (fun q => p_points q ++ [z]) paths))).
  Proof.
    unfold hole_filled. generalize (map (path_set_pb pb) paths). intros st.
    induction paths as [|pa paths IH]; intros edges pts; cbn [foldM].
    - cbn. now rewrite app_nil_r.
    - cbv zeta. cbn [fst snd]. rewrite extend_z. cbn [bind].
      replace (pts ++ [z] ++ p_points pa ++ [z]) with ((pts ++ [z] ++ p_points pa) ++ [z]) by now rewrite <- !app_assoc.
      rewrite IH. cbn [List.length times map concat]. f_equal. f_equal; [now rewrite <- app_assoc|].
      f_equal. rewrite <- !app_assoc. cbn. reflexivity.
  Qed.

  Lemma holes_filled_eq dc (M : mat F) pb fb c z i pss :
    Forall2 (fun e ps => pic dc e M = Ok ps) i pss -> forall edges pts,
    foldM (fun acc e => let* ps := pic dc e M in hole_filled pb acc ps) (edges, Path fb c (pts ++ [z])) i =
    Ok (edges ++ concat (map (fun ps => times (List.length ps) (map (path_set_pb pb) ps)) pss),
        Path fb c (pts ++ [z] ++ concat (map (fun q => p_points q ++ [z]) (concat pss)))).
  Proof.
    induction 1 as [|e ps i pss E _ IH]; intros edges pts; cbn [foldM].
    - cbn. now rewrite app_nil_r.
    - rewrite E. cbn [bind]. rewrite hole_filled_eq. cbn [bind].
      assert (Z : forall paths : list (path F), exists pts', pts ++ [z] ++ concat (map (fun q => p_points q ++ [z]) paths) = pts' ++ [z]).
      { intros paths. induction paths as [|q paths _] using rev_ind; [exists pts; reflexivity|].
        rewrite map_app, concat_app. cbn [map concat]. rewrite app_nil_r. eexists. rewrite !app_assoc. reflexivity. }
      destruct (Z ps) as (pts' & Ep). rewrite Ep, IH. cbn [map concat]. f_equal. f_equal; [now rewrite app_assoc|].
      f_equal. rewrite map_app, concat_app. rewrite !app_assoc. rewrite <- Ep. now rewrite !app_assoc.
  Qed.
End HolePaths.

(* the hypotheses of the next two theorems: the outside draws one path p0 and the holes draw
   the paths pss, all under the matrix of the whole *)
Definition parts_draw {F} {NF : Num F} {RF : NumRoot F} {TF : NumTrig F}
    (dc : dctx) (b : ebase F) (o : elem F) (i : list (elem F)) (m : transform F) (p0 : path F) (pss : list (list (path F))) : Prop :=
  let M' := only (mat_dot (tmat m) (tmat (e_xform b))) in
  snd (elem_paths dc o M') = Ok [p0] /\ Forall2 (fun e ps => snd (elem_paths dc e M') = Ok ps) i pss.

(* not filled: the outside and every path of every hole, each once, with the pen only *)
Theorem C49_unfilled : forall {F} {NF : Num F} {RF : NumRoot F} {TF : NumTrig F}
    (dc : dctx) (b : ebase F) o i (m : transform F) p0 pss,
  pb_brush (e_pb b) = None -> parts_draw dc b o i m p0 pss ->
  snd (elem_paths dc (EHoles b o i) m) =
  Ok (map (fun p => Path (pen_only (e_pb b)) (p_closed p) (p_points p)) (p0 :: concat pss)).
Proof.
  intros F NF RF TF dc b o i m p0 pss Nb [Eo Hi]. cbv zeta in *.
  rewrite (proj2 (paths_tame dc _ m)), pic_holes. unfold holes_pic. unfold pic at 1. rewrite Eo. cbn [bind]. rewrite Nb.
  set (M' := mat_dot (tmat m) (tmat (e_xform b))) in *.
  assert (G : forall acc, foldM (fun acc e => let* ps := pic dc e M' in Ok (acc ++ map (path_set_pb (edge_pb b)) ps)) acc i =
     Ok (acc ++ map (path_set_pb (edge_pb b)) (concat pss))).
  { clear -Hi. induction Hi as [|e ps i pss E _ IH]; intros acc; cbn [foldM]; [cbn; now rewrite app_nil_r|].
    unfold pic at 1. rewrite E. cbn [bind]. rewrite IH. cbn [concat]. now rewrite map_app, app_assoc. }
  rewrite G. reflexivity.
Qed.

(* filled: first one path with the brush only, running along the outside and then along every
   path of every hole, back to the end point of the outside after each; then the strokes,
   with the pen only: the outside once, and a hole made of k paths k times over *)
Theorem C49_filled : forall {F} {NF : Num F} {RF : NumRoot F} {TF : NumTrig F}
    (dc : dctx) (b : ebase F) o i (m : transform F) p0 pss pts z,
  pb_brush (e_pb b) <> None -> parts_draw dc b o i m p0 pss -> p_points p0 = pts ++ [z] ->
  let stroke p := Path (pen_only (e_pb b)) (p_closed p) (p_points p) in
  snd (elem_paths dc (EHoles b o i) m) =
  Ok (Path (brush_only (e_pb b)) (p_closed p0) (p_points p0 ++ concat (map (fun q => p_points q ++ [z]) (concat pss)))
      :: stroke p0 :: concat (map (fun ps => times (List.length ps) (map stroke ps)) pss)).
Proof.
  intros F NF RF TF dc b o i m p0 pss pts z Nb [Eo Hi] Ez stroke. cbv zeta in *.
  rewrite (proj2 (paths_tame dc _ m)), pic_holes. unfold holes_pic. unfold pic at 1. rewrite Eo. cbn [bind].
  destruct (pb_brush (e_pb b)) as [br|] eqn:Eb; [|congruence].
  rewrite Ez, (holes_filled_eq dc _ _ _ _ z i pss Hi). cbn [bind fst snd]. unfold brush_only. rewrite Eb, <- app_assoc. reflexivity.
Qed.

(* a hole drawn as one path is stroked once *)
Theorem C49_simple_holes : forall {F} (stroke : path F -> path F) (pss : list (list (path F))),
  Forall (fun ps => List.length ps = 1%nat) pss ->
  concat (map (fun ps => times (List.length ps) (map stroke ps)) pss) = map stroke (concat pss).
Proof.
  intros F stroke pss H. induction H as [|ps pss E _ IH]; [reflexivity|]. cbn [map concat]. rewrite IH, E. cbn [times].
  now rewrite app_nil_r, map_app.
Qed.

(* an outside that is not drawn as exactly one path cannot be drawn *)
Theorem C49_outside_one_path : forall {F} {NF : Num F} {RF : NumRoot F} {TF : NumTrig F}
    (dc : dctx) (b : ebase F) o i (m : transform F) ps,
  snd (elem_paths dc o (only (mat_dot (tmat m) (tmat (e_xform b))))) = Ok ps -> List.length ps <> 1%nat ->
  snd (elem_paths dc (EHoles b o i) m) = Raise AssertionError.
Proof.
  intros F NF RF TF dc b o i m ps E N. rewrite (proj2 (paths_tame dc _ m)), pic_holes. unfold holes_pic, pic. rewrite E.
  cbn [bind]. destruct ps as [|p0 [|p1 ps]]; try reflexivity. destruct N. reflexivity.
Qed.

(* restore(c): everything comes back except the holes, which are copies of the present ones *)
Theorem C49_restore : forall {F} {NF : Num F} (b b1 : ebase F) o o1 i i1 (c : elem F),
  pens_shared (EHoles b o i) -> elem_copy (EHoles b o i) = Ok c ->
  forall r, holes_restore (EHoles b1 o1 i1) c = Ok r ->
  exists b' o' i', r = EHoles b' o' i' /\ e_name b' = e_name b /\ e_pb b' = e_pb b /\ e_closed b' = e_closed b /\
    tmat (e_xform b') = tmat (e_xform b) /\ Forall2 (fun x y => elem_copy x = Ok y) i1 i'.
Proof.
  intros F NF b b1 o o1 i i1 c X E r Er. cbn [elem_copy] in E.
  destruct (elem_copy o) as [o'|x]; cbn [bind] in E; [|discriminate].
  destruct (collectM elem_copy i) as [i'|x]; cbn [bind] in E; [|discriminate].
  unfold mk_holes, mk_base in E. destruct (_ && _); cbn [bind] in E; [discriminate|]. injection E as <-.
  cbn [holes_restore] in Er. destruct (elem_copy (set_pb (e_pb b) o')) as [o2|x]; cbn [bind] in Er; [|discriminate].
  destruct (collectM elem_copy i1) as [i2|x] eqn:Ei; cbn [bind] in Er; [|discriminate]. injection Er as <-.
  do 3 eexists. split; [reflexivity|]. cbn. do 4 (split; [reflexivity|]). now apply collect_iff.
Qed.

(* so a hole changed after the copy is not restored *)
Theorem C49_restore_holes_refuted :
  let b := EB "h" ex_pb true t_new : ebase R in
  let rect p q := ELeaf (EB "r" ex_pb true t_new) (SRect p q) : elem R in
  let before := EHoles b (rect (P 0 0) (P 9 9)) [rect (P 1 1) (P 2 2)] in
  let after := EHoles b (rect (P 0 0) (P 9 9)) [rect (P 3 3) (P 4 4)] in
  exists c r, pens_shared before /\ elem_copy before = Ok c /\ holes_restore after c = Ok r /\
    (exists b' o', r = EHoles b' o' [rect (P 3 3) (P 4 4)]).
Proof.
  intros b rect before after. do 2 eexists. split.
  - constructor; [constructor|reflexivity|]. intros e [<-|[]]. split; [constructor|reflexivity].
  - split; [reflexivity|]. split; [reflexivity|]. do 2 eexists. reflexivity.
Qed.

(* the box does not hold the picture when the outside has a transform of its own *)
Theorem C49_box_refuted :
  let x := T (mat_of6 1 0 10 0 1 0) None [] : transform R in
  let rect n x p q := ELeaf (EB n ex_pb true x) (SRect p q) : elem R in
  let e := EHoles (EB "h" ex_pb true t_new) (rect "o" x (P 0 0) (P 4 4)) [rect "i" t_new (P 1 1) (P 2 2)] in
  forall dc, exists bb ps p q, elem_bbox e = Ok bb /\ snd (elem_paths dc e t_new) = Ok ps /\ In p ps /\ In q (p_points p) /\
    ~ holds bb (pt_of q).
Proof.
  intros x rect e dc.
  assert (Ti : forall q : pt R, t_transform (t_new : transform R) q = q).
  { intros q. unfold t_transform, t_new. cbn [tmat]. rewrite apply_lin. destruct q as [u v]. unfold lin, mat_id. cbn. f_equal; ring. }
  assert (Ei : elem_bbox_int e = Ok (bbox_of_pts (P 0 0) (P 4 4))).
  { destruct (C49_box (EB "h" ex_pb true t_new) (rect "o" x (P 0 0) (P 4 4)) [rect "i" t_new (P 1 1) (P 2 2)]
      (bbox_of_pts (P 0 0) (P 4 4)) [bbox_add (bbox_of_pts (P 1 1) (P 2 2)) (bbox_of_pts (P 1 2) (P 2 1))]) as (_ & K & _).
    - reflexivity.
    - constructor; [|constructor]. unfold elem_bbox. cbn [elem_bbox_int shape_bbox_int rect bind e_base e_xform].
      unfold bbox_of_pts at 1. rewrite mkbbox_R. unfold bbox_ext. cbn [bind bbox_pll bbox_phh bbox_plh bbox_phl px py].
      rewrite !Ti, !(Rmin_left 1 2), !(Rmax_right 1 2) by lra. reflexivity.
    - apply K; [discriminate|]. intros y [<-|[]]. apply add_least; try apply good_of_pts.
      + intros u v _ _. rewrite !of_pts_in. unfold within. cbn [px py]. rewrite !(Rmin_left 1 2), !(Rmax_right 1 2), !(Rmin_left 0 4), !(Rmax_right 0 4) by lra. lra.
      + intros u v _ _. rewrite !of_pts_in. unfold within. cbn [px py].
        rewrite !(Rmin_left 1 2), !(Rmax_right 1 2), !(Rmin_left 0 4), !(Rmax_right 0 4), (Rmin_right 2 1), (Rmax_left 2 1) by lra. lra. }
  assert (Eb : exists bb, elem_bbox e = Ok bb /\ sub_box bb (bbox_of_pts (P 0 0) (P 4 4))).
  { unfold elem_bbox. rewrite Ei. cbn [bind e]. cbn [e_base e_xform]. unfold bbox_of_pts at 1. rewrite mkbbox_R. unfold bbox_ext.
    cbn [bind bbox_pll bbox_phh bbox_plh bbox_phl px py]. rewrite !Ti, !(Rmin_left 0 4), !(Rmax_right 0 4) by lra.
    eexists. split; [reflexivity|]. apply add_least; try apply good_of_pts; intros u v _ _; rewrite !of_pts_in; unfold within; cbn [px py];
      rewrite !(Rmin_left 0 4), !(Rmax_right 0 4), ?(Rmin_right 4 0), ?(Rmax_left 4 0) by lra; lra. }
  destruct Eb as (bb & Eb & Hs).
  assert (A : affine_mat (tmat x)) by (repeat split).
  assert (A0 : affine_mat (tmat (t_new : transform R))) by (repeat split).
  set (M' := only (mat_dot (tmat (t_new : transform R)) (tmat (t_new : transform R)))).
  destruct (C40_rect_path dc (EB "o" ex_pb true x) 0 0 4 4 M' A) as (m1 & _ & P1). cbv zeta in P1.
  destruct (C40_rect_path dc (EB "i" ex_pb true t_new) 1 1 2 2 M' A0) as (m2 & _ & P2). cbv zeta in P2.
  assert (PD : exists pts z pss, parts_draw dc (EB "h" ex_pb true t_new) (rect "o" x (P 0 0) (P 4 4)) [rect "i" t_new (P 1 1) (P 2 2)] t_new
     (Path ex_pb true (pts ++ [z])) pss /\ z = p_xy (t_transform M' (t_transform x (P 0 0)))).
  { eexists [_; _; _; _], _, [_]. split; [|reflexivity]. unfold parts_draw. cbn [e_xform]. fold M'. split.
    - unfold rect. cbn [elem_paths]. rewrite P1. reflexivity.
    - constructor; [|constructor]. unfold rect. cbn [elem_paths]. rewrite P2. reflexivity. }
  destruct PD as (pts & z & pss & PD & Ez).
  exists bb. eexists. eexists. exists z. split; [exact Eb|]. split.
  - unfold e. eapply C49_filled; [cbn; discriminate|exact PD|reflexivity].
  - split; [left; reflexivity|]. split; [cbn [p_points]; rewrite !in_app_iff; left; right; now left|].
    intros H. apply Hs in H; try exact I. apply of_pts_in in H. destruct H as [H _]. revert H. subst z.
    unfold within. cbn [px py]. rewrite Rmin_left, Rmax_right by lra.
    unfold M'. rewrite (comp_apply t_new t_new) by exact A0. rewrite !Ti.
    unfold t_transform, x. cbn [tmat]. rewrite apply_lin. unfold lin, mat_of6, p_xy, pt_of. cbn. lra.
Qed.

(* ------------------------------------------------------------------ *)
(** ** Concrete cases *)

Definition ex_line_pb : penbrush R := PenBrush (Some (Pen (Brush (CNum 1)) 2)) None.
Definition ex_grp : elem R :=
  EGroup (EB "g" ex_line_pb false ex_x) false
    [("r", ELeaf (EB "r" ex_pb true ex_x) (SRect (P 0 0) (P 1 2)));
     ("s", EGroup (EB "s" ex_line_pb false ex_x) false [("e", ELeaf (EB "e" ex_pb true t_new) (SRect (P 0 0) (P 5 5)))] []);
     ("t", EGroup (EB "t" ex_line_pb false ex_x) true [] [])] [].

Example C47_nontrivial : forall dc, plain ex_grp /\ List.length (visible ex_grp mat_id) = 2%nat /\
  (exists ps, snd (elem_paths dc ex_grp ex_x) = Ok ps /\ List.length ps = 2%nat).
Proof.
  intros dc. split; [|split; [reflexivity|]].
  - constructor. intros k e [E|[E|[E|[]]]]; injection E as <- <-; [constructor| |constructor; intros ? ? []].
    constructor. intros k e [E|[]]; injection E as <- <-. constructor.
  - eexists. split.
    { rewrite (proj2 (paths_tame dc _ _)). unfold ex_grp. rewrite pic_group.
    cbn [foldM snd]. rewrite pic_leaf, leaf_paths_rect. cbn [snd bind]. rewrite pic_group. cbn [foldM snd].
    rewrite pic_leaf, leaf_paths_rect. cbn [snd bind]. rewrite pic_hidden. cbn [bind foldM app]. reflexivity. }
    reflexivity.
Qed.

Definition ex_grp2 : elem R :=
  EGroup (EB "g" ex_line_pb false ex_x) false
    [("r", ELeaf (EB "r" ex_pb true ex_x) (SRect (P 0 0) (P 1 2)));
     ("s", EGroup (EB "s" ex_line_pb false ex_x) false [("e", ELeaf (EB "e" ex_pb true t_new) (SRect (P 0 0) (P 5 5)))] [])] [].

Example C47_box_nontrivial : forall dc, boxable ex_grp2 /\
  (exists bb, elem_bbox ex_grp2 = Ok bb) /\
  (exists ps p q, snd (elem_paths dc ex_grp2 ex_x) = Ok ps /\ In p ps /\ In q (p_points p)).
Proof.
  assert (A : affine_mat (tmat ex_x)) by (repeat split). assert (A0 : affine_mat (tmat (t_new : transform R))) by (repeat split).
  intros dc. split; [|split].
  - constructor; [exact A|]. intros k e [E|[E|[]]]; injection E as <- <-; [constructor; [exact A|exact I]|].
    constructor; [exact A|]. intros k e [E|[]]; injection E as <- <-. constructor; [exact A0|exact I].
  - eexists. reflexivity.
  - do 3 eexists. split.
    + rewrite (proj2 (paths_tame dc _ _)). unfold ex_grp2. rewrite pic_group.
      cbn [foldM snd]. rewrite pic_leaf, leaf_paths_rect. cbn [snd bind]. rewrite pic_group. cbn [foldM snd].
      rewrite pic_leaf, leaf_paths_rect. cbn [snd bind foldM app]. reflexivity.
    + split; [left; reflexivity|left; reflexivity].
Qed.

Example C48_nontrivial : pens_shared ex_grp /\ copyable ex_grp /\
  exists e', snd (elem_transform ex_grp ex_x) = Ok e' /\ elem_copy ex_grp <> Raise AssertionError.
Proof.
  split; [|split].
  - constructor. intros k e [E|[E|[E|[]]]]; injection E as <- <-; [constructor| |constructor; intros ? ? []].
    constructor. intros k e [E|[]]; injection E as <- <-. constructor.
  - constructor. reflexivity.
  - eexists. split; [reflexivity|discriminate].
Qed.

(* a filled ring: an outside and two holes *)
Definition ex_ring : elem R :=
  EHoles (EB "h" ex_pb true ex_x) (ELeaf (EB "o" ex_pb true t_new) (SRect (P 0 0) (P 9 9)))
    [ELeaf (EB "a" ex_pb true t_new) (SRect (P 1 1) (P 2 2)); ELeaf (EB "b" ex_pb true t_new) (SRect (P 3 3) (P 4 4))].
Example C49_nontrivial : forall dc, exists p0 pss pts z,
  parts_draw dc (e_base ex_ring) (ELeaf (EB "o" ex_pb true t_new) (SRect (P 0 0) (P 9 9)))
    [ELeaf (EB "a" ex_pb true t_new) (SRect (P 1 1) (P 2 2)); ELeaf (EB "b" ex_pb true t_new) (SRect (P 3 3) (P 4 4))]
    ex_x p0 pss /\ p_points p0 = pts ++ [z] /\ List.length (concat pss) = 2%nat /\ pens_shared ex_ring /\ copyable ex_ring.
Proof.
  intros dc. eexists _, [_; _], [_; _; _; _], _. split.
  - split; [cbn [elem_paths]; rewrite leaf_paths_rect; reflexivity|].
    constructor; [|constructor; [|constructor]]; cbn [elem_paths]; rewrite leaf_paths_rect; reflexivity.
  - split; [reflexivity|]. split; [reflexivity|]. split.
    + constructor; [constructor|reflexivity|]. intros e [<-|[<-|[]]]; (split; [constructor|reflexivity]).
    + constructor; [reflexivity|constructor; [reflexivity|reflexivity]|].
      intros e [<-|[<-|[]]]; (constructor; reflexivity).
Qed.
