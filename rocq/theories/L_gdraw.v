(* Lemmas about drawing trees of elements. *)
Require Import Verif.Base Verif.M_vector Verif.M_bbox Verif.M_transform Verif.M_bezier Verif.M_colors Verif.M_elems Verif.M_group.
Require Import Verif.S_elems Verif.S_group Verif.S_gdraw Verif.L_elems Verif.L_group.
From Coq Require Import String List Lia Bool.
Import ListNotations.
Local Open Scope list_scope.

Section Draw.
  Context {F : Type} {NF : Num F} {RF : NumRoot F} {TF : NumTrig F}.

  Lemma sm_refl (m : transform F) : same_matrix m m. Proof. now split. Qed.
  Lemma sm_trans (a b c : transform F) : same_matrix a b -> same_matrix b c -> same_matrix a c.
  Proof. intros [A B] [C D]. split; congruence. Qed.

  (* the body of a loop that leaves the matrix alone and looks at nothing else *)
  Definition tame {A S} (f : S -> A -> transform F -> transform F * res S) (g : S -> A -> mat F -> res S) (a : A) :=
    forall s m, same_matrix m (fst (f s a m)) /\ snd (f s a m) = g s a (tmat m).

  Lemma loop_tame {A S} (f : S -> A -> transform F -> transform F * res S) g (l : list A) :
    Forall (tame f g) l -> forall s m,
    same_matrix m (fst (loop f s l m)) /\ snd (loop f s l m) = foldM (fun s a => g s a (tmat m)) s l.
  Proof.
    induction 1 as [|a l Ha _ IH]; intros s m; [split; [apply sm_refl|reflexivity]|].
    cbn [loop foldM]. destruct (Ha s m) as [E1 E2]. destruct (f s a m) as [m1 r]. cbn [fst snd] in *.
    subst r. destruct (g s a (tmat m)) as [s'|x]; cbn [bind]; [|split; [exact E1|reflexivity]].
    destruct (IH s' m1) as [K1 K2]. split; [eapply sm_trans; eauto|].
    rewrite K2. destruct E1 as [-> _]. reflexivity.
  Qed.

  Lemma with_push_tame {A} (chain : transform F -> transform F) (body : transform F -> transform F * res A) m :
    tstack (fst (body (chain (t_push m)))) = tstack (t_push m) ->
    with_push chain body m = (T (tmat m) None (tstack m), snd (body (chain (t_push m)))).
  Proof.
    intros K. unfold with_push. destruct (body (chain (t_push m))) as [s2 r]. cbn [fst snd] in *.
    unfold t_pop. rewrite K. reflexivity.
  Qed.

  Lemma leaf_pure dc b s (m : transform F) :
    leaf_paths dc b s m = (T (tmat m) None (tstack m), snd (leaf_paths dc b s (only (tmat m)))).
  Proof.
    unfold leaf_paths. rewrite !draw_space_pure. cbn [snd]. f_equal.
  Qed.

  (* one hole: what it adds to the strokes and to the filled path *)
  Definition hole_filled (pb : penbrush F) (ef : list (path F) * path F) (paths : list (path F)) :=
    foldM (fun (ef : list (path F) * path F) path =>
             let edges := fst ef ++ map (path_set_pb pb) paths in
             let* fill := path_extend (snd ef) (p_points path) true in
             Ok (edges, fill)) ef paths.

  Definition pic (dc : dctx) (e : elem F) (M : mat F) : res (list (path F)) := snd (elem_paths dc e (only M)).

  Definition edge_pb (b : ebase F) : penbrush F := pen_only (e_pb b).

  Definition holes_pic dc (b : ebase F) (outside : elem F) (inside : list (elem F)) (M : mat F) : res (list (path F)) :=
    let* r := pic dc outside M in
    match r with
    | [p0] =>
        match pb_brush (e_pb b) with
        | Some br =>
            let* ef := foldM (fun acc e => let* ps := pic dc e M in hole_filled (edge_pb b) acc ps)
                         ([path_set_pb (edge_pb b) p0], Path (PenBrush None (Some br)) (p_closed p0) (p_points p0)) inside in
            Ok (snd ef :: fst ef)
        | None => foldM (fun acc e => let* ps := pic dc e M in Ok (acc ++ map (path_set_pb (edge_pb b)) ps))
                    [path_set_pb (edge_pb b) p0] inside
        end
    | _ => Raise AssertionError
    end.

  Lemma edge_brush_is (b : ebase F) : mk_penbrush (option_map PAObj (pb_pen (e_pb b))) None = edge_pb b.
  Proof. unfold edge_pb, pen_only. destruct b as [n [[pn|] br] c x]; reflexivity. Qed.

  Definition tame_elem dc (e : elem F) := forall m,
    same_matrix m (fst (elem_paths dc e m)) /\ snd (elem_paths dc e m) = pic dc e (tmat m).

  Lemma holes_body dc b o i (IHo : tame_elem dc o) (IHi : Forall (tame_elem dc) i) m1 :
    let body := (fun m =>
             let (m, r) := elem_paths dc o m in
             match r with
             | Raise x => (m, Raise x)
             | Ok [p0] =>
                 let edge_brush := mk_penbrush (option_map PAObj (pb_pen (e_pb b))) None in
                 let p0 := path_set_pb edge_brush p0 in
                 match pb_brush (e_pb b) with
                 | Some br =>
                     let fill_brush := mk_penbrush None (Some (BAObj br)) in
                     let fill_path := Path fill_brush (p_closed p0) (p_points p0) in
                     let (m, r) :=
                       loop (fun (acc : list (path F) * path F) e m =>
                               let (m, r) := elem_paths dc e m in
                               (m, let* paths := r in
                                   foldM (fun (ef : list (path F) * path F) path =>
                                            let edges := fst ef ++ map (path_set_pb edge_brush) paths in
                                            let* fill := path_extend (snd ef) (p_points path) true in
                                            Ok (edges, fill)) acc paths))
                            ([p0], fill_path) i m in
                     (m, let* ef := r in Ok (snd ef :: fst ef))
                 | None =>
                     loop (fun acc e m =>
                             let (m, r) := elem_paths dc e m in
                             (m, let* paths := r in Ok (acc ++ map (path_set_pb edge_brush) paths)))
                          [p0] i m
                 end
             | Ok _ => (m, Raise AssertionError)
             end) in
    same_matrix m1 (fst (body m1)) /\ snd (body m1) = holes_pic dc b o i (tmat m1).
  Proof.
     cbv zeta. rewrite edge_brush_is. unfold holes_pic.
        destruct (IHo m1) as [E1 E2]. destruct (elem_paths dc o m1) as [m2 r]. cbn [fst snd] in *.
        subst r. destruct (pic dc o (tmat m1)) as [ps|x]; cbn [bind]; [|split; [exact E1|reflexivity]].
        destruct ps as [|p0 [|p1 ps]]; [split; [exact E1|reflexivity]| |split; [exact E1|reflexivity]].
        destruct (pb_brush (e_pb b)) as [br|].
        - set (body := fun (acc : list (path F) * path F) e m => _).
          assert (Tm : Forall (tame body (fun acc e M => let* ps := pic dc e M in hole_filled (edge_pb b) acc ps)) i).
          { rewrite Forall_forall in *. intros e He acc m3. destruct (IHi e He m3) as [K1 K2]. unfold body.
            destruct (elem_paths dc e m3) as [m4 r]. cbn [fst snd] in *. split; [exact K1|now rewrite K2]. }
          match goal with |- context [loop body ?s i m2] => destruct (loop_tame body _ i Tm s m2) as [L1 L2];
            destruct (loop body s i m2) as [m5 r] end.
          cbn [fst snd] in *. split; [eapply sm_trans; eauto|]. rewrite L2. destruct E1 as [-> _]. reflexivity.
        - set (body := fun (acc : list (path F)) e m => _).
          assert (Tm : Forall (tame body (fun acc e M => let* ps := pic dc e M in Ok (acc ++ map (path_set_pb (edge_pb b)) ps))) i).
          { rewrite Forall_forall in *. intros e He acc m3. destruct (IHi e He m3) as [K1 K2]. unfold body.
            destruct (elem_paths dc e m3) as [m4 r]. cbn [fst snd] in *. split; [exact K1|now rewrite K2]. }
          destruct (loop_tame body _ i Tm [path_set_pb (edge_pb b) p0] m2) as [L1 L2].
          split; [eapply sm_trans; eauto|]. rewrite L2. destruct E1 as [-> _]. reflexivity. 
  Qed.

  Lemma paths_tame dc (e : elem F) : tame_elem dc e.
  Proof.
    induction e as [b s|b h l p IH|b o i IHo IHi] using elem_induction; intros m.
    - cbn [elem_paths]. rewrite leaf_pure. split; [split; reflexivity|].
      unfold pic. cbn [elem_paths]. reflexivity.
    - cbn [elem_paths]. unfold pic. cbn [elem_paths]. destruct h; [split; [apply sm_refl|reflexivity]|].
      set (body := fun (acc : list (path F)) ke m => let (m', r) := elem_paths dc (snd ke) m in (m', let* ps := r in Ok (acc ++ ps))).
      assert (Tm : Forall (tame body (fun acc ke M => let* ps := pic dc (snd ke) M in Ok (acc ++ ps))) l).
      { rewrite Forall_forall in *. intros ke Hk acc m1. destruct (IH ke Hk m1) as [E1 E2]. unfold body.
        destruct (elem_paths dc (snd ke) m1) as [m2 r]. cbn [fst snd] in *. split; [exact E1|now rewrite E2]. }
      pose proof (loop_tame body _ l Tm) as L.
      rewrite !with_push_tame; try exact (proj2 (proj1 (L _ _))). cbn [fst snd]. split; [split; reflexivity|].
      rewrite (proj2 (L _ _)), (proj2 (L [] (t_compose _ (t_push (only _))))). reflexivity.
    - pose proof (fun m1 => holes_body dc b o i IHo IHi m1) as E. cbv zeta in E.
      unfold pic. cbn [elem_paths]. unfold draw_space.
      rewrite !with_push_tame; try exact (proj2 (proj1 (E _))). cbn [fst snd]. split; [split; reflexivity|].
      rewrite (proj2 (E _)), (proj2 (E (t_compose _ (t_push (only _))))). reflexivity.
  Qed.

  Lemma pic_leaf dc b s (M : mat F) : pic dc (ELeaf b s) M = snd (leaf_paths dc b s (only M)).
  Proof. reflexivity. Qed.
  Lemma pic_hidden dc b l p (M : mat F) : pic dc (EGroup b true l p) M = Ok [].
  Proof. reflexivity. Qed.

  Lemma pic_group dc b l p (M : mat F) : pic dc (EGroup b false l p) M =
    foldM (fun acc ke => let* ps := pic dc (snd ke) (mat_dot M (tmat (e_xform b))) in Ok (acc ++ ps)) [] l.
  Proof.
    unfold pic at 1. cbn [elem_paths].
    set (body := fun (acc : list (path F)) ke m => let (m', r) := elem_paths dc (snd ke) m in (m', let* ps := r in Ok (acc ++ ps))).
    assert (Tm : Forall (tame body (fun acc ke M => let* ps := pic dc (snd ke) M in Ok (acc ++ ps))) l).
    { apply Forall_forall. intros ke Hk acc m1. destruct (paths_tame dc (snd ke) m1) as [E1 E2]. unfold body.
      destruct (elem_paths dc (snd ke) m1) as [m2 r]. cbn [fst snd] in *. split; [exact E1|now rewrite E2]. }
    pose proof (loop_tame body _ l Tm) as L.
    rewrite with_push_tame; try exact (proj2 (proj1 (L _ _))). cbn [fst snd]. rewrite (proj2 (L _ _)). reflexivity.
  Qed.

  (* a loop that collects lists *)
  Lemma fold_collect {A B} (g : A -> res (list B)) (l : list A) : forall acc,
    foldM (fun acc a => let* ps := g a in Ok (acc ++ ps)) acc l =
    let* pss := collectM g l in Ok (acc ++ concat pss).
  Proof.
    induction l as [|a l IH]; intros acc; cbn [foldM collectM bind]; [cbn; now rewrite app_nil_r|].
    destruct (g a) as [ps|x]; cbn [bind]; [|reflexivity].
    rewrite IH. destruct (collectM g l) as [pss|x]; cbn [bind concat]; [|reflexivity]. now rewrite app_assoc.
  Qed.
  Lemma collect_iff {A B} (g : A -> res B) (l : list A) bs :
    collectM g l = Ok bs <-> Forall2 (fun a b => g a = Ok b) l bs.
  Proof.
    revert bs. induction l as [|a l IH]; intros bs; cbn [collectM].
    - split; [injection 1 as <-; constructor|inversion 1; reflexivity].
    - destruct (g a) as [b|x] eqn:E; cbn [bind].
      + destruct (collectM g l) as [bs'|x]; cbn [bind].
        * split; [injection 1 as <-; constructor; auto; now apply IH|].
          inversion 1 as [|? b' ? bs2 H1 H2]; subst. apply IH in H2. congruence.
        * split; [discriminate|]. inversion 1 as [|? b' ? bs2 H1 H2]; subst. apply IH in H2. discriminate.
      + split; [discriminate|]. inversion 1; subst. congruence.
  Qed.
  Lemma fold_collect_ok {A B} (g : A -> res (list B)) (l : list A) acc ps :
    foldM (fun acc a => let* ps := g a in Ok (acc ++ ps)) acc l = Ok ps <->
    exists pss, Forall2 (fun a b => g a = Ok b) l pss /\ ps = acc ++ concat pss.
  Proof.
    rewrite fold_collect. split.
    - destruct (collectM g l) as [pss|x] eqn:E; cbn [bind]; [|discriminate]. injection 1 as <-.
      exists pss. split; auto. now apply collect_iff.
    - intros (pss & H & ->). apply collect_iff in H. rewrite H. reflexivity.
  Qed.

  Lemma pic_holes dc b o i (M : mat F) :
    pic dc (EHoles b o i) M = holes_pic dc b o i (mat_dot M (tmat (e_xform b))).
  Proof.
    pose proof (fun m1 => holes_body dc b o i (paths_tame dc o) (proj2 (Forall_forall _ _) (fun e _ => paths_tame dc e)) m1) as E.
    cbv zeta in E. unfold pic. cbn [elem_paths]. unfold draw_space.
    rewrite with_push_tame; try exact (proj2 (proj1 (E _))). cbn [snd]. rewrite (proj2 (E _)). reflexivity.
  Qed.
End Draw.
