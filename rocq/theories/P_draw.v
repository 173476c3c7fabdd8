(* C66: what is drawn on the layers of a DrawingContext. *)
From Coq Require Import String Reals ZArith List Lia Lra Bool.
Require Import Verif.Base Verif.NumR Verif.NumFloat Verif.L_real Verif.M_vector Verif.M_bbox Verif.M_transform Verif.M_bezier Verif.M_colors Verif.M_elems Verif.M_group Verif.M_draw.
Require Import Verif.S_transform Verif.L_transform Verif.L_transform2 Verif.S_elems Verif.L_elems Verif.S_group Verif.S_gdraw Verif.S_draw Verif.L_group Verif.L_gdraw.
Import ListNotations.
Local Open Scope string_scope.
Local Open Scope list_scope.
Local Open Scope R_scope.

Section Generic.
  Context {F : Type} {NF : Num F} {RF : NumRoot F} {TF : NumTrig F} {FF : NumFloor F}.

  Lemma set_nth_len {A} i (x : A) l : List.length (set_nth i x l) = List.length l.
  Proof. revert i. induction l as [|y l IH]; intros [|i]; cbn; auto. Qed.
  Lemma set_nth_nth {A} i j (x d : A) l : (i < List.length l)%nat ->
    nth j (set_nth i x l) d = if Nat.eqb j i then x else nth j l d.
  Proof.
    revert i j. induction l as [|y l IH]; intros [|i] [|j] H; cbn in *; try lia; auto. apply IH. lia.
  Qed.
  Lemma drew_refl (c : canvas F) : drew c [] c.
  Proof.
    split; [reflexivity|]. split; [|repeat split; reflexivity]. intros i. destruct (Nat.eqb _ _); [now rewrite app_nil_r|reflexivity].
  Qed.
  Lemma drew_trans (a b c : canvas F) l l' : drew a l b -> drew b l' c -> drew a (l ++ l') c.
  Proof.
    intros (A0 & A1 & A2 & A3 & A4 & A5 & A6 & A7 & A8 & A9 & A10 & A11) (B0 & B1 & B2 & B3 & B4 & B5 & B6 & B7 & B8 & B9 & B10 & B11).
    split; [congruence|]. split; [|repeat split; congruence]. intros i. rewrite B1, A2, A1.
    destruct (Nat.eqb i (target a)); [now rewrite app_assoc|reflexivity].
  Qed.
  Lemma drew_sound (c c' : canvas F) l : drew c l c' -> sound c -> sound c'.
  Proof. intros (A0 & A1 & A2 & _). unfold sound. rewrite A0, A2. auto. Qed.
  Lemma emit_drew l (c : canvas F) : sound c -> drew c l (emit l c).
  Proof.
    intros So. split; [apply set_nth_len|]. split; [|repeat split; reflexivity]. intros i. cbn [emit images].
    rewrite set_nth_nth by exact So. destruct (Nat.eqb_spec i (target c)) as [->|]; reflexivity.
  Qed.
  Lemma matrix_drew m (c : canvas F) : same_matrix (dmatrix c) m -> drew c [] (set_dmatrix m c).
  Proof.
    intros [E1 E2]. split; [reflexivity|]. split.
    - intros i. cbn. destruct (Nat.eqb _ _); [now rewrite app_nil_r|reflexivity].
    - repeat split; try reflexivity; cbn; congruence.
  Qed.

  (* ---------------- control paths leave the matrix alone ---------------- *)

  Definition cpic (e : elem F) (m0 : mat F) : res (list (cpath F)) := snd (elem_control_paths e (only m0)).
  Lemma control_tame (e : elem F) : forall m,
    same_matrix m (fst (elem_control_paths e m)) /\ snd (elem_control_paths e m) = cpic e (tmat m).
  Proof.
    induction e as [b s|b h l p IH|b o i IHo IHi] using elem_induction; intros m.
    - cbn [elem_control_paths]. unfold cpic. cbn [elem_control_paths]. unfold leaf_control_paths. rewrite !draw_space_pure.
      split; [split; reflexivity|]. reflexivity.
    - cbn [elem_control_paths]. unfold cpic. cbn [elem_control_paths]. destruct h; [split; [apply sm_refl|reflexivity]|].
      set (body := fun (acc : list (cpath F)) ke m => let (m', r) := elem_control_paths (snd ke) m in (m', let* ps := r in Ok (acc ++ ps))).
      assert (Tm : Forall (tame body (fun acc ke m0 => let* ps := cpic (snd ke) m0 in Ok (acc ++ ps))) l).
      { rewrite Forall_forall in *. intros ke Hk acc m1. destruct (IH ke Hk m1) as [E1 E2]. unfold body.
        destruct (elem_control_paths (snd ke) m1) as [m2 r]. cbn [fst snd] in *. split; [exact E1|now rewrite E2]. }
      pose proof (loop_tame body _ l Tm) as L. unfold draw_space.
      rewrite !with_push_tame; try exact (proj2 (proj1 (L _ _))). cbn [fst snd]. split; [split; reflexivity|].
      rewrite (proj2 (L _ _)), (proj2 (L [] (t_compose _ (t_push (only _))))). reflexivity.
    - set (body := fun (acc : list (cpath F)) e m => let (m', r) := elem_control_paths e m in (m', let* ps := r in Ok (acc ++ ps))).
      assert (Tm : Forall (tame body (fun acc e m0 => let* ps := cpic e m0 in Ok (acc ++ ps))) i).
      { rewrite Forall_forall in *. intros e He acc m1. destruct (IHi e He m1) as [E1 E2]. unfold body.
        destruct (elem_control_paths e m1) as [m2 r]. cbn [fst snd] in *. split; [exact E1|now rewrite E2]. }
      pose proof (loop_tame body _ i Tm) as L.
      assert (K : forall m1, let b := (fun m => let (m, r) := elem_control_paths o m in
             match r with Raise x => (m, Raise x) | Ok ps => loop body ps i m end) in
             same_matrix m1 (fst (b m1)) /\ snd (b m1) =
             let* ps := cpic o (tmat m1) in foldM (fun s a => let* ps := cpic a (tmat m1) in Ok (s ++ ps)) ps i).
      { intros m1. cbv zeta. destruct (IHo m1) as [E1 E2]. destruct (elem_control_paths o m1) as [m2 r]. cbn [fst snd] in *. subst r.
        destruct (cpic o (tmat m1)) as [ps|x]; cbn [bind]; [|split; [exact E1|reflexivity]].
        destruct (L ps m2) as [L1 L2]. split; [eapply sm_trans; eauto|]. rewrite L2. destruct E1 as [-> _]. reflexivity. }
      cbv zeta in K. cbn [elem_control_paths]. unfold cpic. cbn [elem_control_paths]. unfold draw_space. fold body.
      rewrite !with_push_tame; try exact (proj2 (proj1 (K _))). cbn [fst snd]. split; [split; reflexivity|].
      rewrite (proj2 (K _)), (proj2 (K (t_compose _ (t_push (only _))))). reflexivity.
  Qed.

  (* ---------------- drawing paths ---------------- *)

  Lemma draw_paths_drew : forall ps (c : canvas F), sound c ->
    exists l, drew c l (fst (draw_paths ps c)).
  Proof.
    induction ps as [|p ps IH]; intros c So; cbn [draw_paths]; [exists []; apply drew_refl|].
    destruct (path_cmds c p) as [l [u|x]].
    - destruct (IH (emit l c) (drew_sound _ _ _ (emit_drew l c So) So)) as [l' D].
      exists (l ++ l'). eapply drew_trans; [|exact D]. now apply emit_drew.
    - exists l. now apply emit_drew.
  Qed.

  (* Drawing, also when it fails, only makes calls on the image that is drawn on: the other
     images, the matrix and the settings stay as they are. *)
  Theorem C66_only_target : forall (e : elem F) (c : canvas F), sound c ->
    exists l, drew c l (fst (elem_draw e c)).
  Proof.
    assert (forall e (c : canvas F), sound c -> exists l, drew c l (fst (draw_all_paths e c))) as Q.
    { intros e c So. unfold draw_all_paths.
      pose proof (proj1 (paths_tame (DC (dcps c) (ppc c)) e (dmatrix c))) as K.
      destruct (elem_paths (DC (dcps c) (ppc c)) e (dmatrix c)) as [m r]. cbn [fst] in K.
      pose proof (matrix_drew m c K) as D. destruct r as [ps|x]; [|exists []; exact D].
      destruct (draw_paths_drew ps (set_dmatrix m c) So) as [l D3].
      exists ([] ++ l). eapply drew_trans; eauto. }
    intros e c So. unfold elem_draw. destruct (dcps c); [|auto].
    assert (exists l, drew c l (fst (draw_control_points e c))) as [l D].
    { unfold draw_control_points.
      pose proof (proj1 (control_tame e (dmatrix c))) as K. destruct (elem_control_paths e (dmatrix c)) as [m r]. cbn [fst] in K.
      pose proof (matrix_drew m c K) as D. destruct r as [ks|x]; [|exists []; exact D].
      eexists. cbn [fst]. eapply drew_trans; [exact D|]. apply emit_drew. exact So. }
    destruct (draw_control_points e c) as [c1 [u|x]]; cbn [fst] in D; [|eauto].
    destruct (Q e c1 (drew_sound _ _ _ D So)) as [l' D']. exists (l ++ l'). eapply drew_trans; eauto.
  Qed.

  (* the two colours of a filled path *)
  Definition fill_of (c : canvas F) (pb : penbrush F) : option (color F) := paint_fill (shadow_color c) pb.
  Definition width_of (c : canvas F) (pb : penbrush F) : Z :=
    if prod c then line_width pb (dmatrix c) else 1%Z.
  Definition dotted_as (c : canvas F) (p : path F) (ds : list (cmd F)) : Prop :=
    if ddebug c && nltb (nofZ 2) (ndiv (nofZ (line_width (p_pb p) (dmatrix c))) (nofZ 2))
    then dots (line_width (p_pb p) (dmatrix c)) (if prod c then None else Some (CStr "red")) (stroke_color (p_pb p)) (p_points p) ds
    else ds = [].
  Definition pictured (c : canvas F) (p : path F) (l : list (cmd F)) : Prop :=
    exists ds, dotted_as c p ds /\ picture (p_points p) (fill_of c (p_pb p)) (width_of c (p_pb p)) ds (p_pb p) l.

  Lemma dots_map w rim col (l : list (F * F)) :
    dots w rim col l (map (fun xy : F * F => let (x, y) := xy in
      CEllipse (nsub x (ndiv (nofZ w) (nofZ 2))) (nsub y (ndiv (nofZ w) (nofZ 2))) (nadd x (ndiv (nofZ w) (nofZ 2))) (nadd y (ndiv (nofZ w) (nofZ 2))) rim col) l).
  Proof. induction l as [|[x y] l IH]; constructor; auto. Qed.
  Lemma dotted_exists (c : canvas F) p : exists ds, dotted_as c p ds.
  Proof. unfold dotted_as. destruct (_ && _); eexists; [apply dots_map|reflexivity]. Qed.
  Lemma path_cmds_pictured (c : canvas F) p l : path_cmds c p = (l, Ok tt) -> pictured c p l.
  Proof.
    intros H. unfold path_cmds in H. unfold pictured, width_of, fill_of.
    destruct (pb_stroked (p_pb p)) eqn:St.
    - exists (if ddebug c then debug_cmds c p else []). split.
      { unfold dotted_as, debug_cmds. rewrite St. destruct (ddebug c); cbn [andb]; [|reflexivity].
        destruct (nltb _ _) eqn:L; [apply dots_map|reflexivity]. }
      revert H. generalize (if ddebug c then debug_cmds c p else []). intros ds H. rewrite andb_true_r in H.
      destruct p as [[[pn|] [br|]] cl pts]; cbn [p_pb p_points pb_filled pb_stroked pb_pen pb_brush stroke_color] in *; try discriminate.
      + destruct pts as [|z pts]; [discriminate|]. injection H as <-. exact (pic_both (z :: pts) _ _ _ pn br z pts eq_refl).
      + injection H as <-. constructor.
    - destruct (dotted_exists c p) as [ds D]. exists ds. split; [exact D|].
      replace (if ddebug c then debug_cmds c p else []) with (@nil (cmd F)) in H
        by (unfold debug_cmds; rewrite St; now destruct (ddebug c)).
      rewrite andb_false_r in H.
      destruct p as [[[pn|] [br|]] cl pts]; cbn [p_pb p_points pb_filled pb_stroked pb_pen pb_brush stroke_color] in *; try discriminate.
      + injection H as <-. constructor.
      + injection H as <-. constructor.
  Qed.
  Lemma picture_fun pts sc w ds pb (l l' : list (cmd F)) : picture pts sc w ds pb l -> picture pts sc w ds pb l' -> l = l'.
  Proof. destruct 1; inversion 1; subst; try reflexivity. congruence. Qed.

  Lemma pictured_drew (a b : canvas F) l0 p l : drew a l0 b -> pictured b p l <-> pictured a p l.
  Proof.
    intros (A0 & A1 & A2 & A3 & A4 & A5 & A6 & A7 & A8 & A9 & A10 & A11).
    unfold pictured, dotted_as, width_of, fill_of, line_width, stroke_width, t_transform_width, t_scale_vals.
    rewrite A5, A6, A8, A9. tauto.
  Qed.
  Lemma draw_paths_pictured : forall ps (c c' : canvas F), sound c -> draw_paths ps c = (c', Ok tt) ->
    exists ls, Forall2 (pictured c) ps ls /\ drew c (concat ls) c'.
  Proof.
    induction ps as [|p ps IH]; intros c c' So H; cbn [draw_paths] in H.
    - injection H as <-. exists []. split; [constructor|apply drew_refl].
    - destruct (path_cmds c p) as [l [[]|x]] eqn:E; [|discriminate].
      pose proof (emit_drew l c So) as D. destruct (IH _ _ (drew_sound _ _ _ D So) H) as (ls & A & B).
      exists (l :: ls). split; [|cbn [concat]; eapply drew_trans; eauto].
      constructor; [now apply path_cmds_pictured|].
      clear - A D. induction A as [|q k ps ls Hq _ IHA]; constructor; [|exact IHA]. exact (proj1 (pictured_drew _ _ _ _ _ D) Hq).
  Qed.
  (* A drawing that succeeds draws each path of the element in turn, from its pen and brush:
     filled first, with the shadow colour unless transparent; then the outline, closed for
     filled paths; without a pen and a brush still a line, in no given colour. *)
  Theorem C66_calls : forall (e : elem F) (c c' : canvas F), sound c -> dcps c = false ->
    elem_draw e c = (c', Ok tt) ->
    exists ps ls, snd (elem_paths (DC false (ppc c)) e (dmatrix c)) = Ok ps /\
      Forall2 (pictured c) ps ls /\ drew c (concat ls) c'.
  Proof.
    intros e c c' So N H. unfold elem_draw in H. rewrite N in H. unfold draw_all_paths in H. rewrite N in H.
    pose proof (proj1 (paths_tame (DC false (ppc c)) e (dmatrix c))) as K.
    destruct (elem_paths (DC false (ppc c)) e (dmatrix c)) as [m [ps|x]]; [|discriminate]. cbn [fst snd] in *.
    pose proof (matrix_drew m c K) as D.
    destruct (draw_paths_pictured ps _ _ (drew_sound _ _ _ D So) H) as (ls & A & B).
    exists ps, ls. split; [reflexivity|]. split; [|exact (drew_trans _ _ _ _ _ D B)].
    clear - A D. induction A as [|q k ps ls Hq _ IHA]; constructor; [|exact IHA]. exact (proj1 (pictured_drew _ _ _ _ _ D) Hq).
  Qed.
  (* An element whose paths cannot be found draws nothing at all. *)
  Theorem C66_no_paths : forall (e : elem F) (c : canvas F) x, dcps c = false -> sound c ->
    snd (elem_paths (DC false (ppc c)) e (dmatrix c)) = Raise x ->
    snd (elem_draw e c) = Raise x /\ drew c [] (fst (elem_draw e c)).
  Proof.
    intros e c x N So H. unfold elem_draw, draw_all_paths. rewrite N.
    pose proof (proj1 (paths_tame (DC false (ppc c)) e (dmatrix c))) as K.
    destruct (elem_paths (DC false (ppc c)) e (dmatrix c)) as [m r]. cbn [fst snd] in *. subst r.
    split; [reflexivity|]. apply (matrix_drew m c K).
  Qed.

  (* ---------------- the shadow ---------------- *)

  Lemma fills_app (a b : list (cmd F)) : fills (a ++ b) = fills a ++ fills b.
  Proof. induction a as [|[]]; cbn; auto. now rewrite IHa. Qed.
  Lemma fills_dots w rim col pts (ds : list (cmd F)) : dots w rim col pts ds -> fills ds = [].
  Proof. induction 1; cbn; auto. Qed.
  Lemma picture_fills pts sc w ds pb (l : list (cmd F)) : picture pts sc w ds pb l -> fills ds = [] ->
    forall f, In f (fills l) -> f = sc.
  Proof. destruct 1; cbn; intros Hd f; rewrite ?Hd; cbn; intuition congruence. Qed.

  Definition shadow_image (c : canvas F) : list (cmd F) :=
    match shadow c with Some i => nth i (images c) [] | None => [] end.
  (* the shadow is an image other than the one drawn on *)
  Definition apart (c : canvas F) : Prop :=
    sound c /\ match shadow c with Some i => (i < List.length (images c))%nat /\ i <> target c | None => True end.

  Lemma alloc_apart (c : canvas F) off : apart c ->
    exists i, shadow (alloc_shadow off c) = Some i /\ (i < List.length (images (alloc_shadow off c)))%nat /\ i <> target c /\
      nth i (images (alloc_shadow off c)) [] = shadow_image c /\
      target (alloc_shadow off c) = target c /\ dmatrix (alloc_shadow off c) = dmatrix c /\
      (List.length (images c) <= List.length (images (alloc_shadow off c)))%nat /\
      (forall j, (j < List.length (images c))%nat -> nth j (images (alloc_shadow off c)) [] = nth j (images c) []) /\
      prod (alloc_shadow off c) = prod c /\ ddebug (alloc_shadow off c) = ddebug c /\
      dcps (alloc_shadow off c) = dcps c /\ ppc (alloc_shadow off c) = ppc c.
  Proof.
    intros [So A]. unfold alloc_shadow, shadow_image. unfold sound in So. destruct (shadow c) as [i|] eqn:E.
    - exists i. destruct A. repeat split; auto.
    - exists (List.length (images c)). cbn. rewrite app_length. cbn. repeat split; auto; try lia.
      + rewrite app_nth2, Nat.sub_diag by lia. reflexivity.
      + intros j Hj. now rewrite app_nth1.
  Qed.

  (* Whatever happens while drawing the shadow, afterwards the drawing goes on where it was and
     no shadow colour is set; every image made before, other than the shadow, is as it was. *)
  Theorem C66_shadow_restores : forall (e : elem F) col (c c' : canvas F) r, apart c ->
    shadow_draw e col c = (c', r) ->
    target c' = target c /\ shadow_color c' = None /\ tmat (dmatrix c') = tmat (dmatrix c) /\
    tstack (dmatrix c') = tstack (dmatrix c) /\ prod c' = prod c /\ dcps c' = dcps c /\ ppc c' = ppc c /\
    (forall j, (j < List.length (images c))%nat -> shadow c <> Some j -> nth j (images c') [] = nth j (images c) []) /\
    apart c'.
  Proof.
    intros e col c c' r Ap H. unfold shadow_draw in H.
    destruct (alloc_apart c (4, -3)%Z Ap) as (i & E1 & E2 & E3 & E4 & E5 & E6 & E7 & E8 & E9 & E10 & E11 & E12).
    set (c0 := alloc_shadow (4, -3)%Z c) in *.
    assert (forall j, shadow c <> Some j -> (j < List.length (images c))%nat -> j <> i) as Ne.
    { intros j Hj Hl ->. unfold c0, alloc_shadow in E1. destruct (shadow c) eqn:S0; [congruence|]. cbn in E1. injection E1 as <-. lia. }
    clearbody c0. rewrite E1 in H.
    set (c1 := set_target i (Some col) c0) in *.
    assert (sound c1) as So1 by exact E2.
    destruct (C66_only_target e c1 So1) as [l D].
    destruct (elem_draw e c1) as [c2 r2]. cbn [fst] in D.
    destruct D as (A0 & A1 & A2 & A3 & A4 & A5 & A6 & A7 & A8 & A9 & A10 & A11).
    destruct Ap as [So Ap]. unfold sound in So.
    assert (forall j, j <> i -> (j < List.length (images c))%nat -> nth j (images c2) [] = nth j (images c) []) as Keep.
    { intros j Hj Hl. rewrite A1. cbn [c1 set_target target images]. replace (Nat.eqb j i) with false by (symmetry; now apply Nat.eqb_neq).
      apply E8. exact Hl. }
    cbn [c1 set_target target images shadow shadow_color shadow_offset dmatrix prod ddebug dcps ppc] in *.
    destruct r2 as [u|x]; injection H as <- <-; cbn [set_target target images shadow shadow_color shadow_offset dmatrix prod ddebug dcps ppc].
    - split; [reflexivity|]. split; [reflexivity|]. split; [congruence|]. split; [congruence|]. split; [congruence|].
      split; [congruence|]. split; [congruence|]. split.
      + intros j Hj Hs. rewrite app_nth1 by lia. apply Keep; auto.
      + unfold apart, sound. cbn [target images shadow]. rewrite app_length. cbn [List.length]. repeat split; lia.
    - split; [reflexivity|]. split; [reflexivity|]. split; [congruence|]. split; [congruence|]. split; [congruence|].
      split; [congruence|]. split; [congruence|]. split.
      + intros j Hj Hs. apply Keep; auto.
      + unfold apart, sound. cbn [target images shadow set_target]. rewrite A3, A0, E1. repeat split; lia.
  Qed.
  Lemma clear_color_iff (t : color F) : color_eqb t transparent = true <-> clear_color t.
  Proof.
    unfold clear_color, transparent. split.
    - destruct t as [s|n|l]; cbn [color_eqb]; try discriminate. destruct l as [|a [|b [|c [|d [|z l]]]]]; cbn [list_eqb];
        rewrite ?andb_false_r; try discriminate.
      rewrite !andb_true_iff. intros (A & B & C & D & _). exists a, b, c, d. auto.
    - intros (a & b & c & d & -> & A & B & C & D). cbn [color_eqb list_eqb]. now rewrite A, B, C, D.
  Qed.
  (* Under a shadow colour a brush paints with that colour, unless its own is transparent: four
     zeros.  Without one it paints with its own. *)
  Theorem C66_fill : forall (c : canvas F) (p : path F) (br : brush F) l, pb_brush (p_pb p) = Some br ->
    pictured c p l -> exists col, fills l = [Some col] /\
      (shadow_color c = None -> col = bcolor br) /\
      (forall s, shadow_color c = Some s -> color_true s = true ->
         (clear_color (bcolor br) -> col = bcolor br) /\ (~ clear_color (bcolor br) -> col = s)).
  Proof.
    intros c p br l Eb (ds & Dd & Pc).
    assert (fills ds = []) as Fd.
    { unfold dotted_as in Dd. destruct (_ && _); [eapply fills_dots; eauto|now subst]. }
    assert (fills l = [fill_of c (p_pb p)]) as El.
    { clear Dd. revert Eb Pc. generalize (fill_of c (p_pb p)). generalize (width_of c (p_pb p)). generalize (p_pb p). intros pb w0 f0 Eb Pc.
      destruct Pc; cbn [pb_brush] in Eb; try discriminate; cbn [fills]; rewrite ?Fd; reflexivity. }
    rewrite El. unfold fill_of, paint_fill, fill_color. rewrite Eb. cbn [opt_eqb].
    destruct (shadow_color c) as [s|].
    - destruct (color_true s) eqn:Ts; cbn [andb].
      + destruct (color_eqb (bcolor br) transparent) eqn:Q; cbn [negb]; eexists; (split; [reflexivity|]); (split; [discriminate|]);
          intros s' Es _; injection Es as <-; rewrite <- clear_color_iff, Q; split; congruence.
      + eexists. split; [reflexivity|]. split; [discriminate|]. intros s' Es T'. congruence.
    - eexists. split; [reflexivity|]. split; [reflexivity|]. discriminate.
  Qed.
  (* When it succeeds, the shadow is what it was before, then what the element draws, with every
     filled path in the shadow colour or transparent, all of it blurred; also what was blurred
     before. *)
  Theorem C66_shadow : forall (e : elem F) col (c c' : canvas F), apart c -> dcps c = false ->
    shadow_draw e col c = (c', Ok tt) ->
    exists l, shadow_image c' = shadow_image c ++ l ++ [CBlur] /\
      (color_true col = true -> forall f, In f (fills l) ->
         f = Some col \/ exists t, f = Some t /\ clear_color t).
  Proof.
    intros e col c c' Ap Nc H. unfold shadow_draw in H.
    destruct (alloc_apart c (4, -3)%Z Ap) as (i & E1 & E2 & E3 & E4 & E5 & E6 & E7 & E8 & E9 & E10 & E11 & E12).
    set (c0 := alloc_shadow (4, -3)%Z c) in *. clearbody c0. rewrite E1 in H.
    set (c1 := set_target i (Some col) c0) in *.
    assert (sound c1) as So1 by exact E2.
    destruct (elem_draw e c1) as [c2 r2] eqn:D. destruct r2 as [[]|x]; [|discriminate].
    injection H as <-.
    destruct (C66_calls e c1 c2 So1 (eq_trans E11 Nc) D) as (ps & ls & _ & A & Dr).
    exists (concat ls). split.
    - unfold shadow_image at 1. cbn [shadow images set_target]. rewrite app_nth2, Nat.sub_diag by lia. cbn [nth].
      rewrite (proj1 (proj2 Dr)). cbn [c1 set_target target images]. rewrite Nat.eqb_refl, E4. now rewrite <- app_assoc.
    - intros Tc f Hf. clear - A Tc Hf.
      assert (exists p l, In f (fills l) /\ pictured c1 p l) as (p & l & Hl & ds & Dd & Pc).
      { induction A as [|p l ps ls Hp _ IH]; cbn [concat] in Hf; [destruct Hf|]. rewrite fills_app in Hf.
        apply in_app_or in Hf. destruct Hf; eauto. }
      assert (fills ds = []) as Fd.
      { unfold dotted_as in Dd. destruct (_ && _); [eapply fills_dots; eauto|now subst]. }
      pose proof (picture_fills _ _ _ _ _ _ Pc Fd f Hl) as ->. unfold fill_of, paint_fill. cbn [c1 set_target shadow_color].
      rewrite Tc. cbn [andb]. destruct (opt_eqb color_eqb (fill_color (p_pb p)) (Some transparent)) eqn:Q; cbn [negb]; [|now left].
      right. destruct (fill_color (p_pb p)) as [t|]; [|discriminate]. exists t. split; [reflexivity|]. now apply clear_color_iff.
  Qed.
  (* Two shadows: the first one is blurred twice. *)
  Theorem C66_shadow_twice : forall (e1 e2 : elem F) col1 col2 (m : transform F) pr c1 c2,
    shadow_draw e1 col1 (new_canvas m pr) = (c1, Ok tt) -> shadow_draw e2 col2 c1 = (c2, Ok tt) ->
    exists l1 l2, shadow_image c1 = l1 ++ [CBlur] /\ shadow_image c2 = l1 ++ [CBlur] ++ l2 ++ [CBlur] /\
      composed c2 = [l1 ++ [CBlur] ++ l2 ++ [CBlur]; []].
  Proof.
    intros e1 e2 col1 col2 m pr c1 c2 H1 H2.
    assert (apart (new_canvas m pr)) as A0 by (split; [unfold sound; cbn; lia|exact I]).
    destruct (C66_shadow_restores _ _ _ _ _ A0 H1) as (T1 & _ & _ & _ & _ & K1 & _ & L1 & A1).
    destruct (C66_shadow _ _ _ _ A0 eq_refl H1) as (l1 & S1 & _).
    destruct (C66_shadow_restores _ _ _ _ _ A1 H2) as (T2 & _ & _ & _ & _ & K2 & _ & L2 & A2).
    destruct (C66_shadow _ _ _ _ A1 K1 H2) as (l2 & S2 & _).
    cbn [new_canvas shadow_image shadow] in S1. change (shadow_image (new_canvas m pr)) with (@nil (cmd F)) in S1. cbn [app] in S1.
    exists l1, l2. split; [exact S1|]. assert (shadow_image c2 = l1 ++ [CBlur] ++ l2 ++ [CBlur]) as S3
      by (rewrite S2, S1, <- !app_assoc; reflexivity). split; [exact S3|].
    unfold composed. unfold shadow_image in S3. destruct (shadow c2) as [i|] eqn:E.
    - rewrite S3. f_equal. f_equal.
      assert (nth 0 (images c1) [] = []) as N1 by (apply (L1 0%nat); cbn; [lia|discriminate]).
      rewrite L2; [exact N1| |].
      + destruct A1 as [So _]. unfold sound in So. lia.
      + destruct A1 as [_ S4]. destruct (shadow c1) as [k|]; [|discriminate]. rewrite T1 in S4. cbn in S4. intros Q. injection Q as ->. lia.
    - destruct (l1 ++ [CBlur] ++ l2 ++ [CBlur]) eqn:Q; [|discriminate]. apply app_eq_nil in Q. destruct Q as [_ Q]. discriminate.
  Qed.
End Generic.

(* ------------------------------------------------------------------ *)
(** ** over the reals *)

Lemma pyround_R (x : R) : Rabs (IZR (pyround x) - x) <= 1 / 2 /\
  (Rabs (IZR (pyround x) - x) = 1 / 2 -> Z.even (pyround x) = true).
Proof.
  unfold pyround. change (@nfloor R _) with Int_part. change (nofZ (Int_part x)) with (IZR (Int_part x)).
  set (n := Int_part x). destruct (base_Int_part x) as [A B]. fold n in A, B.
  change (x - IZR n)%num with (x - IZR n). change (#1 / #2)%num with (1 / 2).
  change (nltb (x - IZR n) (1 / 2)) with (Rltb (x - IZR n) (1 / 2)). change (nltb (1 / 2) (x - IZR n)) with (Rltb (1 / 2) (x - IZR n)).
  clearbody n.
  destruct (Rltb (x - IZR n) (1 / 2)) eqn:C1.
  - apply Rltb_lt in C1. rewrite Rabs_left1 by lra. split; [lra|]. intros Q. lra.
  - apply Rltb_ge in C1. destruct (Rltb (1 / 2) (x - IZR n)) eqn:C2.
    + apply Rltb_lt in C2. rewrite plus_IZR, Rabs_right by lra. split; [lra|]. intros Q. lra.
    + apply Rltb_ge in C2. destruct (Z.even n) eqn:Ev.
      * rewrite Rabs_left1 by lra. split; [lra|auto].
      * rewrite plus_IZR, Rabs_right by lra. split; [lra|]. intros _. rewrite Z.even_add, Ev. reflexivity.
Qed.
(* the width a pen asks for: its own when positive, else scaled by the matrix of the context *)
Definition asked_width (p : pen R) (m : transform R) : R :=
  if Rltb 0 (pwidth p) then pwidth p else - pwidth p *
      ((sqrt (dist2 (t_transform m (P 1 0)) (t_transform m (P 0 0))) +
        sqrt (dist2 (t_transform m (P 0 1)) (t_transform m (P 0 0)))) / 2).
(* Outlines in production mode have the width asked for, rounded, and at least 1; in draft mode
   they have width 1. *)
Theorem C66_width : forall (c : canvas R) p br,
  let n := width_of c (PenBrush (Some p) br) in let w := asked_width p (dmatrix c) in
  (1 <= n)%Z /\
  (prod c = false -> n = 1%Z) /\
  (prod c = true -> (w < 3 / 2 -> n = 1%Z) /\ (1 / 2 <= w -> Rabs (IZR n - w) <= 1 / 2)).
Proof.
  intros c p br n w. unfold n, width_of. destruct (prod c); [|repeat split; try lia; intros; try lra; discriminate].
  assert (line_width (PenBrush (Some p) br) (dmatrix c) = Z.max 1 (pyround w)) as ->.
  { unfold line_width, stroke_width. cbn [pb_pen]. do 2 f_equal. unfold w, asked_width.
    change (ngtb (pwidth p) (#0)%num) with (Rltb 0 (pwidth p)). destruct (Rltb 0 (pwidth p)); [reflexivity|].
    rewrite width_images. reflexivity. }
  clearbody w. destruct (pyround_R w) as [A B]. split; [lia|]. split; [discriminate|]. intros _.
  assert (IZR (pyround w) - w <= 1 / 2 /\ - (1 / 2) <= IZR (pyround w) - w) as [A1 A2].
  { unfold Rabs in A. destruct (Rcase_abs _); split; lra. }
  split.
  - intros H. destruct (Z_lt_le_dec 1 (pyround w)) as [L|L]; [|lia]. exfalso.
    assert (2 <= pyround w)%Z as L' by lia. apply IZR_le in L'. lra.
  - intros H. destruct (Z_lt_le_dec (pyround w) 1) as [L|L]; [|rewrite Z.max_r by lia; exact A].
    rewrite Z.max_l by lia. assert (pyround w <= 0)%Z as L' by lia. apply IZR_le in L'.
    apply Rabs_le. lra.
Qed.

(* ---------------- groups ---------------- *)

(* drawing one element after the other *)
Fixpoint draw_each (l : list (elem R)) (c : canvas R) : canvas R * res unit :=
  match l with
  | [] => (c, Ok tt)
  | e :: l' => let (c', r) := elem_draw e c in
               match r with Ok _ => draw_each l' c' | Raise x => (c', Raise x) end
  end.

(* canvases on which the same is drawn *)
Definition alike (c d : canvas R) : Prop :=
  images c = images d /\ target c = target d /\ shadow_color c = shadow_color d /\ prod c = prod d /\ ddebug c = ddebug d /\
  forall pb, line_width pb (dmatrix c) = line_width pb (dmatrix d).
Lemma alike_emit c d l : alike c d -> alike (emit l c) (emit l d).
Proof. intros (A & B & C & D & E & G). unfold alike, emit. cbn. rewrite A, B. repeat split; auto. Qed.
Lemma alike_cmds c d p : alike c d -> path_cmds c p = path_cmds d p.
Proof. intros (A & B & C & D & E & G). unfold path_cmds, debug_cmds. rewrite C, D, E, !G. reflexivity. Qed.
Lemma alike_paths ps : forall c d, alike c d ->
  alike (fst (draw_paths ps c)) (fst (draw_paths ps d)) /\ snd (draw_paths ps c) = snd (draw_paths ps d).
Proof.
  induction ps as [|p ps IH]; intros c d A; cbn [draw_paths]; [auto|].
  rewrite (alike_cmds c d p A). destruct (path_cmds d p) as [l [u|x]]; [apply IH|cbn; split; [|reflexivity]]; now apply alike_emit.
Qed.
Lemma draw_paths_app ps qs (c : canvas R) : draw_paths (ps ++ qs) c =
  let (c', r) := draw_paths ps c in match r with Ok _ => draw_paths qs c' | Raise x => (c', Raise x) end.
Proof.
  revert c. induction ps as [|p ps IH]; intros c; cbn [draw_paths app]; [reflexivity|].
  destruct (path_cmds c p) as [l [u|x]]; auto.
Qed.
Lemma width_mat pb (m m' : transform R) : tmat m = tmat m' -> line_width pb m = line_width pb m'.
Proof. intros E. unfold line_width, stroke_width, t_transform_width, t_scale_vals. now rewrite E. Qed.
Lemma alike_matrix c m : tmat m = tmat (dmatrix c) -> alike c (set_dmatrix m c).
Proof. intros E. unfold alike. cbn. repeat split; auto. intros pb. symmetry. now apply width_mat. Qed.
Lemma alike_sym c d : alike c d -> alike d c.
Proof. intros (A & B & C & D & E & G). repeat split; auto. Qed.
Lemma alike_trans a b c : alike a b -> alike b c -> alike a c.
Proof. intros (A & B & C & D & E & G) (A' & B' & C' & D' & E' & G'). repeat split; try congruence. Qed.

Lemma draw_pic e (c : canvas R) : dcps c = false ->
  match pic (DC false (ppc c)) e (tmat (dmatrix c)) with
  | Ok ps => snd (elem_draw e c) = snd (draw_paths ps c) /\ alike (fst (elem_draw e c)) (fst (draw_paths ps c))
  | Raise x => snd (elem_draw e c) = Raise x /\ alike (fst (elem_draw e c)) c
  end.
Proof.
  intros N. unfold elem_draw, draw_all_paths. rewrite N. destruct (paths_tame (DC false (ppc c)) e (dmatrix c)) as [K1 K2].
  destruct (elem_paths (DC false (ppc c)) e (dmatrix c)) as [m r]. cbn [fst snd] in *. rewrite <- K2.
  destruct K1 as [K1 _]. destruct r as [ps|x].
  - destruct (alike_paths ps (set_dmatrix m c) c) as [A B]; [apply alike_sym, alike_matrix; auto|]. auto.
  - cbn [fst snd]. split; [reflexivity|]. apply alike_sym, alike_matrix. auto.
Qed.

Lemma draw_each_pic : forall l (c c1 : canvas R), sound c -> dcps c = false -> draw_each l c = (c1, Ok tt) ->
  exists pss, collectM (fun e => pic (DC false (ppc c)) e (tmat (dmatrix c))) l = Ok pss /\
    snd (draw_paths (concat pss) c) = Ok tt /\ alike c1 (fst (draw_paths (concat pss) c)).
Proof.
  induction l as [|e l IH]; intros c c1 So N H; cbn [draw_each] in H.
  - injection H as <-. exists []. repeat split; reflexivity.
  - destruct (elem_draw e c) as [c2 [u|x]] eqn:D; [|discriminate].
    pose proof (draw_pic e c N) as Q. rewrite D in Q. cbn [fst snd] in Q. cbn [collectM].
    destruct (pic (DC false (ppc c)) e (tmat (dmatrix c))) as [ps|x] eqn:Pc; [|destruct Q; discriminate].
    destruct Q as [Q1 Q2]. destruct (C66_only_target e c So) as [lc Dr]. rewrite D in Dr. cbn [fst] in Dr.
    destruct (IH c2 c1 (drew_sound _ _ _ Dr So)) as (pss & E1 & E2 & E3).
    { destruct Dr as (A0 & A1 & A2 & A3 & A4 & A5 & A6 & A7 & A8 & A9 & A10 & A11). congruence. }
    { exact H. }
    assert (ppc c2 = ppc c /\ tmat (dmatrix c2) = tmat (dmatrix c)) as [Y1 Y2].
    { destruct Dr as (A0 & A1 & A2 & A3 & A4 & A5 & A6 & A7 & A8 & A9 & A10 & A11). auto. }
    rewrite Y1, Y2 in E1. exists (ps :: pss). cbn [bind]. rewrite E1. cbn [bind concat]. split; [reflexivity|].
    rewrite draw_paths_app. destruct (draw_paths ps c) as [c3 r3]. cbn [fst snd] in *. subst r3.
    destruct (alike_paths (concat pss) c2 c3 Q2) as [Z1 Z2]. rewrite <- Z2. split; [exact E2|]. eapply alike_trans; eauto.
Qed.

(* A group whose transform does not change distances as drawn is drawn like its members, one
   after the other in the order they were added, with that transform in front. *)
Theorem C66_group : forall (b : ebase R) l p (c c1 : canvas R), sound c -> dcps c = false ->
  (forall q q', dist2 (t_transform (t_compose (tmat (e_xform b)) (dmatrix c)) q) (t_transform (t_compose (tmat (e_xform b)) (dmatrix c)) q')
                = dist2 (t_transform (dmatrix c) q) (t_transform (dmatrix c) q')) ->
  draw_each (map snd l) (set_dmatrix (t_compose (tmat (e_xform b)) (dmatrix c)) c) = (c1, Ok tt) ->
  exists c2, elem_draw (EGroup b false l p) c = (c2, Ok tt) /\ images c2 = images c1.
Proof.
  intros b l p c c1 So N Iso H.
  set (c0 := set_dmatrix (t_compose (tmat (e_xform b)) (dmatrix c)) c) in *.
  destruct (draw_each_pic (map snd l) c0 c1 So N H) as (pss & E1 & E2 & E3).
  pose proof (draw_pic (EGroup b false l p) c N) as Q. rewrite pic_group, fold_collect in Q. cbn [app] in Q.
  assert (collectM (fun ke => pic (DC false (ppc c)) (snd ke) (mat_dot (tmat (dmatrix c)) (tmat (e_xform b)))) l = Ok pss) as E4.
  { cbn [c0 set_dmatrix ppc dmatrix t_compose tmat] in E1. clear - E1. revert pss E1. induction l as [|[k e] l IH]; intros pss E1; cbn [map collectM snd] in *; [exact E1|].
    destruct (pic _ e _) as [ps|]; [|discriminate]. cbn [bind] in *. destruct (collectM _ (map snd l)) as [q|] eqn:C; [|discriminate].
    rewrite (IH _ eq_refl). exact E1. }
  rewrite E4 in Q. cbn [bind] in Q. destruct Q as [Q1 Q2].
  assert (alike c c0) as Al.
  { unfold alike, c0. cbn. repeat split; auto. intros pb. unfold line_width, stroke_width. destruct (pb_pen pb) as [pn|]; [|reflexivity].
    destruct (ngtb _ _); [reflexivity|]. do 2 f_equal. symmetry. apply width_of_isometry. exact Iso. }
  destruct (alike_paths (concat pss) c c0 Al) as [Z1 Z2].
  destruct (elem_draw (EGroup b false l p) c) as [c2 r2]. cbn [fst snd] in *. exists c2.
  split; [congruence|]. destruct Q2 as [-> _]. destruct Z1 as [-> _]. destruct E3 as [-> _]. reflexivity.
Qed.

Lemma widths_app {F} (a b : list (cmd F)) : widths (a ++ b) = widths a ++ widths b.
Proof. induction a as [|[]]; cbn; auto. now rewrite IHa. Qed.
Lemma widths_dots {F} {NF : Num F} w rim col pts (ds : list (cmd F)) : dots w rim col pts ds -> widths ds = [].
Proof. induction 1; cbn; auto. Qed.
Lemma widths_pictured (c : canvas R) p l pn : pictured c p l -> p_pb p = PenBrush (Some pn) None -> widths l = [width_of c (p_pb p)].
Proof.
  intros (ds & Dd & Pc) E. assert (widths ds = []) as Wd.
  { unfold dotted_as in Dd. destruct (_ && _); [eapply widths_dots; eauto|now subst]. }
  rewrite E in Pc. inversion Pc; subst. cbn. rewrite Wd, E. reflexivity.
Qed.
Lemma drew_calls (c c' : canvas R) l l' : drew c l c' -> nth (target c) (images c) [] = [] ->
  nth (target c) (images c') [] = l' -> l = l'.
Proof. intros (_ & A & _) E E'. rewrite A, Nat.eqb_refl, E in E'. exact E'. Qed.

(* The claim is false for other transforms: the width of an outline is scaled by the matrix of
   the context only, not by the transforms of the groups around the element. *)
Theorem C66_group_scaled_refuted : exists (b : ebase R) e (c c1 c2 : canvas R),
  sound c /\ dcps c = false /\
  draw_each [e] (set_dmatrix (t_compose (tmat (e_xform b)) (dmatrix c)) c) = (c1, Ok tt) /\
  elem_draw (EGroup b false [("e", e)] []) c = (c2, Ok tt) /\
  widths (nth 0 (images c1) []) = [10%Z] /\ widths (nth 0 (images c2) []) = [1%Z].
Proof.
  pose (pb := PenBrush (Some (Pen (Brush (CStr "black")) (-1))) None : penbrush R).
  pose (x := t_scale 10 10 t_new : transform R).
  pose (b := EB "g" pb false x). pose (e := ELeaf (EB "e" pb true t_new) (SRect (P 0 0) (P 1 1))).
  pose (c := new_canvas t_new true : canvas R).
  assert (forall m : transform R, exists ps, elem_paths (DC false 80) e m = (T (tmat m) None (tstack m), Ok ps) /\
     exists q, ps = [q] /\ p_pb q = pb) as Pe.
  { intros m. cbn [elem_paths e]. rewrite leaf_paths_rect. eexists. split; [reflexivity|]. eexists. split; reflexivity. }
  assert (forall c : canvas R, dcps c = false -> ppc c = 80%Z -> exists c', elem_draw e c = (c', Ok tt)) as Ok1.
  { intros d N Pp. unfold elem_draw, draw_all_paths. rewrite N, Pp. destruct (Pe (dmatrix d)) as (ps & -> & q & -> & Eq).
    cbn [draw_paths]. unfold path_cmds. rewrite Eq. cbn [pb pb_filled pb_brush pb_pen pb_stroked]. eexists. reflexivity. }
  set (c0 := set_dmatrix (t_compose (tmat (e_xform b)) (dmatrix c)) c).
  destruct (Ok1 c0 eq_refl eq_refl) as [c1 H1].
  assert (exists c2, elem_draw (EGroup b false [("e", e)] []) c = (c2, Ok tt)) as [c2 H2].
  { pose proof (draw_pic (EGroup b false [("e", e)] []) c eq_refl) as Q. rewrite pic_group, fold_collect in Q.
    cbn [collectM snd bind] in Q. unfold pic in Q. change (DC false (ppc c)) with (DC false 80) in Q.
    destruct (Pe (only (mat_dot (tmat (dmatrix c)) (tmat (e_xform b))))) as (ps & Ep & q & -> & Eq). rewrite Ep in Q.
    cbn [snd bind concat app] in Q. destruct Q as [Q _]. destruct (elem_draw (EGroup b false [("e", e)] []) c) as [c2 r]. cbn [snd] in Q.
    exists c2. f_equal. rewrite Q. cbn [draw_paths]. unfold path_cmds. rewrite Eq. reflexivity. }
  exists b, e, c, c1, c2. split; [unfold sound; cbn; lia|]. split; [reflexivity|].
  split; [cbn [draw_each]; fold c0; rewrite H1; reflexivity|]. split; [exact H2|].
  assert (forall (d d' : canvas R) f, elem_draw f d = (d', Ok tt) -> sound d -> dcps d = false -> target d = 0%nat -> nth 0 (images d) [] = [] ->
     (exists q, snd (elem_paths (DC false (ppc d)) f (dmatrix d)) = Ok [q] /\ p_pb q = pb) ->
     widths (nth 0 (images d') []) = [width_of d pb]) as W.
  { intros d d' f Hd So N Tg E0 (q & Eq & Epb). destruct (C66_calls f d d' So N Hd) as (ps & ls & E1 & A & D).
    rewrite Eq in E1. injection E1 as <-. inversion A as [|? l ? ls' A1 A2]; subst. inversion A2; subst.
    rewrite <- Tg in *. rewrite <- (drew_calls _ _ _ _ D E0 eq_refl). cbn [concat]. rewrite app_nil_r.
    rewrite (widths_pictured _ _ _ _ A1 Epb), Epb. reflexivity. }
  assert (affine_mat (tmat x)) as Ax by (cbn; auto with aff).
  split.
  - rewrite (W c0 c1 e H1); try reflexivity.
    + f_equal. destruct (C66_width c0 (Pen (Brush (CStr "black")) (-1)) None) as (_ & _ & K).
      destruct (K eq_refl) as [_ K2]. fold pb in K2.
      assert (asked_width (Pen (Brush (CStr "black")) (-1)) (dmatrix c0) = 10) as Ew.
      { unfold asked_width. cbn [pwidth]. replace (Rltb 0 (-1)) with false by (symmetry; apply Rltb_ge; lra).
        cbn [c0 set_dmatrix dmatrix b e_xform]. rewrite !compose_apply by exact Ax. rewrite <- !apply_lin.
        change (mat_apply (tmat x)) with (t_transform x). unfold x. rewrite !scale_pt by (cbn; auto with aff).
        cbn [c new_canvas dmatrix]. rewrite !new_pt. unfold dist2, stretch. cbn [px py].
        match goal with |- context [sqrt ?a + sqrt ?b'] =>
          replace a with (10 * 10) by ring; replace b' with (10 * 10) by ring end.
        rewrite sqrt_square by lra. lra. }
      rewrite Ew in K2. specialize (K2 ltac:(lra)). set (n := width_of c0 pb) in *. clearbody n.
      assert (IZR n - 10 <= 1 / 2 /\ - (1 / 2) <= IZR n - 10) by (unfold Rabs in K2; destruct (Rcase_abs _); split; lra).
      assert (n < 11)%Z by (apply lt_IZR; lra). assert (9 < n)%Z by (apply lt_IZR; lra). lia.
    + unfold sound; cbn; lia.
    + change (ppc c0) with 80%Z. destruct (Pe (dmatrix c0)) as (ps & -> & q & -> & Eq). exists q. split; [reflexivity|exact Eq].
  - rewrite (W c c2 _ H2); try reflexivity.
    + f_equal. destruct (C66_width c (Pen (Brush (CStr "black")) (-1)) None) as (_ & _ & K).
      destruct (K eq_refl) as [K1 _]. apply K1. unfold asked_width. cbn [pwidth]. replace (Rltb 0 (-1)) with false by (symmetry; apply Rltb_ge; lra).
      cbn [c new_canvas dmatrix]. rewrite !new_pt. unfold dist2. cbn [px py].
      match goal with |- context [sqrt ?a + sqrt ?b'] =>
        replace a with (1 * 1) by ring; replace b' with (1 * 1) by ring end.
      rewrite sqrt_square by lra. lra.
    + unfold sound; cbn; lia.
    + rewrite (proj2 (paths_tame _ _ _)), pic_group, fold_collect. cbn [collectM snd bind]. unfold pic. change (DC false (ppc c)) with (DC false 80).
      destruct (Pe (only (mat_dot (tmat (dmatrix c)) (tmat (e_xform b))))) as (ps & Ep & q & -> & Eq). rewrite Ep. cbn [snd bind concat app]. exists q. split; [reflexivity|exact Eq].
Qed.

(* ---------------- control points ---------------- *)

Lemma squares_app {F} (a b : list (cmd F)) : squares (a ++ b) = squares a ++ squares b.
Proof. induction a as [|[]]; cbn; auto. now rewrite IHa. Qed.
Lemma squares_concat {F} (ls : list (list (cmd F))) : (forall l, In l ls -> squares l = []) -> squares (concat ls) = [].
Proof. induction ls as [|l ls IH]; intros H; cbn; auto. rewrite squares_app, (H l), IH; auto; [intros; apply H; now right|now left]. Qed.
Lemma squares_dots {F} {NF : Num F} w rim col pts (ds : list (cmd F)) : dots w rim col pts ds -> squares ds = [].
Proof. induction 1; cbn; auto. Qed.
Lemma squares_pictured (c : canvas R) p l : pictured c p l -> squares l = [].
Proof.
  intros (ds & Dd & Pc). assert (squares ds = []) as Wd.
  { unfold dotted_as in Dd. destruct (_ && _); [eapply squares_dots; eauto|now subst]. }
  destruct Pc; cbn; auto.
Qed.
Definition square_at (p : pt R) : R * R * R * R := (px p + 5, py p + 5, px p - 5, py p - 5).
Lemma squares_cpath (k : cpath R) : squares (cpath_cmds k) = map square_at (places k).
Proof.
  destruct k as [l|l]; cbn [cpath_cmds places].
  - induction l as [|p l IH]; cbn [map squares square]; [reflexivity|]. f_equal. exact IH.
  - induction l as [|p l IH]; cbn [map flat_map app squares square disc]; [reflexivity|]. f_equal. exact IH.
Qed.
(* With show_cps, a square is drawn on every corner or control point, before anything else. *)
Theorem C66_control_points : forall (e : elem R) (c c' : canvas R), sound c -> dcps c = true ->
  elem_draw e c = (c', Ok tt) ->
  exists ks marks rest, snd (elem_control_paths e (dmatrix c)) = Ok ks /\ drew c (marks ++ rest) c' /\
    squares marks = map square_at (flat_map places ks) /\ squares rest = [].
Proof.
  intros e c c' So N H. unfold elem_draw in H. rewrite N in H. unfold draw_control_points in H.
  destruct (control_tame e (dmatrix c)) as [K _]. destruct (elem_control_paths e (dmatrix c)) as [m [ks|x]]; [|discriminate]. cbn [fst snd] in *.
  pose proof (matrix_drew m c K) as D0. pose proof (emit_drew (flat_map cpath_cmds ks) (set_dmatrix m c) So) as D1.
  pose proof (drew_trans _ _ _ _ _ D0 D1) as D2. cbn [app] in D2. set (c1 := emit _ _) in *. clearbody c1.
  unfold draw_all_paths in H.
  pose proof (proj1 (paths_tame (DC (dcps c1) (ppc c1)) e (dmatrix c1))) as K1.
  destruct (elem_paths (DC (dcps c1) (ppc c1)) e (dmatrix c1)) as [m1 [ps|x]]; [|discriminate]. cbn [fst] in K1.
  pose proof (matrix_drew m1 c1 K1) as D3.
  destruct (draw_paths_pictured ps _ _ (drew_sound _ _ _ D3 (drew_sound _ _ _ D2 So)) H) as (ls & A & B).
  exists ks, (flat_map cpath_cmds ks), (concat ls). split; [reflexivity|]. split.
  - eapply drew_trans; [exact D2|]. exact (drew_trans _ _ _ _ _ D3 B).
  - split.
    + clear. induction ks as [|k ks IH]; cbn [flat_map]; [reflexivity|]. now rewrite squares_app, map_app, squares_cpath, IH.
    + apply squares_concat. intros l Hl. clear - A Hl. induction A as [|p q ps ls Hp _ IH]; [destruct Hl|].
      destruct Hl as [->|Hl]; [eapply squares_pictured; eauto|auto].
Qed.
(* the corners of a rectangle, the middles of the control points of another shape *)
Definition marked (s : shape R) : res (list (pt R)) :=
  match s with SRect p1 p2 => Ok [p1; P (px p1) (py p2); p2; P (px p2) (py p1)]
             | _ => let* cps := shape_cps s in Ok (map cc cps) end.
Lemma leaf_places b s (m0 : mat R) :
  (let* ks := cpic (ELeaf b s) m0 in Ok (flat_map places ks)) =
  (let* ps := marked s in Ok (map (mat_apply (mat_dot m0 (tmat (e_xform b)))) ps)).
Proof.
  unfold cpic. cbn [elem_control_paths]. unfold leaf_control_paths. rewrite draw_space_pure. cbn [snd].
  change (tmat (only m0)) with m0.
  assert (forall cps : list (cpoint R), mapM (cp_transform (t_transform (t_compose (tmat (e_xform b)) (t_push (only m0)))) true) cps =
    Ok (map (fun cp => CP (mat_apply (mat_dot m0 (tmat (e_xform b))) (cc cp)) (p_sub (mat_apply (mat_dot m0 (tmat (e_xform b))) (cp_l cp)) (mat_apply (mat_dot m0 (tmat (e_xform b))) (cc cp)))
                           (p_sub (mat_apply (mat_dot m0 (tmat (e_xform b))) (cp_r cp)) (mat_apply (mat_dot m0 (tmat (e_xform b))) (cc cp))) (ckind cp)) cps)) as Q.
  { induction cps as [|cp cps IH]; cbn [mapM map]; [reflexivity|]. rewrite IH. reflexivity. }
  destruct s as [cps|p1 p2|p1 p2 r|p1 p2]; cbn [marked].
  - cbn [shape_cps bind]. rewrite Q. cbn [bind flat_map places]. rewrite app_nil_r, !map_map. reflexivity.
  - cbn [bind flat_map places corners t_transform_pts map app]. reflexivity.
  - destruct (shape_cps _) as [cps|x]; cbn [bind]; [|reflexivity]. rewrite Q. cbn [bind flat_map places]. rewrite app_nil_r, !map_map. reflexivity.
  - destruct (shape_cps _) as [cps|x]; cbn [bind]; [|reflexivity]. rewrite Q. cbn [bind flat_map places]. rewrite app_nil_r, !map_map. reflexivity.
Qed.
Lemma cpic_group b l p (m0 : mat R) : cpic (EGroup b false l p) m0 =
  foldM (fun acc ke => let* ps := cpic (snd ke) (mat_dot m0 (tmat (e_xform b))) in Ok (acc ++ ps)) [] l.
Proof.
  unfold cpic at 1. cbn [elem_control_paths].
  set (body := fun (acc : list (cpath R)) ke m => let (m', r) := elem_control_paths (snd ke) m in (m', let* ps := r in Ok (acc ++ ps))).
  assert (Tm : Forall (tame body (fun acc ke m0 => let* ps := cpic (snd ke) m0 in Ok (acc ++ ps))) l).
  { apply Forall_forall. intros ke Hk acc m1. destruct (control_tame (snd ke) m1) as [E1 E2]. unfold body.
    destruct (elem_control_paths (snd ke) m1) as [m2 r]. cbn [fst snd] in *. split; [exact E1|now rewrite E2]. }
  pose proof (loop_tame body _ l Tm) as L. unfold draw_space.
  rewrite with_push_tame; try exact (proj2 (proj1 (L _ _))). cbn [fst snd]. rewrite (proj2 (L _ _)). reflexivity.
Qed.
Lemma bind_assoc3 {A B C} (r : res A) (f : A -> res B) (g : B -> res C) :
  (let* y := (let* x := r in f x) in g y) = (let* x := r in let* y := f x in g y).
Proof. destruct r; reflexivity. Qed.
Lemma collect_app' {A B} (g : A -> res B) (l l' : list A) :
  collectM g (l ++ l') = let* a := collectM g l in let* b := collectM g l' in Ok (a ++ b).
Proof.
  induction l as [|x l IH]; cbn [app collectM]; [cbn; destruct (collectM g l'); reflexivity|].
  destruct (g x); cbn [bind]; [|reflexivity]. rewrite IH. destruct (collectM g l); cbn [bind]; [|reflexivity].
  destruct (collectM g l'); reflexivity.
Qed.
(* The places that are marked, for trees without holes: the corners and control points of the
   visible leaves, in order, each under the product of the transforms around it. *)
Theorem C66_places : forall (e : elem R) (m : transform R), plain e ->
  (let* ks := snd (elem_control_paths e m) in Ok (flat_map places ks)) =
  (let* pss := collectM (fun x => let '(b, s, m1) := x in
       let* ps := marked s in Ok (map (mat_apply (mat_dot m1 (tmat (e_xform b)))) ps)) (visible e (tmat m)) in
   Ok (concat pss)).
Proof.
  intros e m Pl. rewrite (proj2 (control_tame e m)). generalize (tmat m). clear m.
  induction e as [b s|b h l p IH|b o i IHo IHi] using elem_induction; intros m0.
  - rewrite leaf_places. cbn [visible collectM]. destruct (marked s); cbn [bind concat]; [now rewrite app_nil_r|reflexivity].
  - inversion Pl as [|b' h' l' p' Pm]; subst. cbn [visible]. destruct h; [reflexivity|].
    rewrite cpic_group, fold_collect. cbn [app]. rewrite bind_assoc3. cbn [bind]. generalize (mat_dot m0 (tmat (e_xform b))). intros m1. clear Pl m0.
    induction IH as [|[k e] l Hk _ IH]; [reflexivity|]. cbn [collectM flat_map snd].
    rewrite collect_app'. cbn [snd] in Hk. specialize (Hk (Pm k e (or_introl eq_refl)) m1).
    specialize (IH (fun k e H => Pm k e (or_intror H))).
    set (g := fun x : ebase R * shape R * mat R => _) in *.
    destruct (cpic e m1) as [ks|x], (collectM g (visible e m1)) as [a|y]; cbn [bind] in *; try discriminate; [|congruence].
    injection Hk as Hk.
    destruct (collectM (fun a => cpic (snd a) m1) l) as [kss|x], (collectM g (flat_map _ l)) as [z|y]; cbn [bind] in *;
      try discriminate; [|congruence]. injection IH as IH. cbn [concat]. rewrite flat_map_app, concat_app. congruence.
  - inversion Pl.
Qed.

(* A filled and stroked rectangle in a translated group, on the layer and as a shadow. *)
Example C66_nontrivial :
  let pb := PenBrush (Some (Pen (Brush (CStr "black")) 6)) (Some (Brush (CStr "blue"))) : penbrush R in
  let e := ELeaf (EB "e" pb true t_new) (SRect (P 0 0) (P 1 1)) in
  let b := EB "g" (PenBrush None None) false (t_translate 3 4 t_new) : ebase R in
  let c := new_canvas t_new true : canvas R in
  sound c /\ apart c /\ dcps c = false /\
  (forall q q', dist2 (t_transform (t_compose (tmat (e_xform b)) (dmatrix c)) q) (t_transform (t_compose (tmat (e_xform b)) (dmatrix c)) q')
                = dist2 (t_transform (dmatrix c) q) (t_transform (dmatrix c) q')) /\
  (exists c1, draw_each [e; e] (set_dmatrix (t_compose (tmat (e_xform b)) (dmatrix c)) c) = (c1, Ok tt)) /\
  (exists c1, elem_draw (EGroup b false [("e", e); ("f", e)] []) c = (c1, Ok tt)) /\
  (exists c1, shadow_draw e (CTuple [140; 140; 170; 255]) c = (c1, Ok tt)).
Proof.
  intros pb e b c.
  assert (forall d : canvas R, dcps d = false -> exists d', elem_draw e d = (d', Ok tt) /\ dcps d' = false) as K.
  { intros d N. unfold elem_draw, draw_all_paths. rewrite N. unfold e. cbn [elem_paths]. rewrite leaf_paths_rect.
    cbn [draw_paths]. unfold path_cmds. cbn [p_pb p_points e_pb pb pb_filled pb_stroked pb_pen pb_brush corners map app].
    eexists. split; [reflexivity|exact N]. }
  assert (affine_mat (tmat (e_xform b))) as Ax by (cbn; auto with aff).
  assert (Iso : forall q q', dist2 (t_transform (t_compose (tmat (e_xform b)) (dmatrix c)) q) (t_transform (t_compose (tmat (e_xform b)) (dmatrix c)) q')
                = dist2 (t_transform (dmatrix c) q) (t_transform (dmatrix c) q')).
  { intros q q'. rewrite !compose_apply by exact Ax. rewrite <- !apply_lin.
    change (mat_apply (tmat (e_xform b))) with (t_transform (e_xform b)). cbn [b e_xform c new_canvas dmatrix].
    rewrite !translate_pt by (cbn; auto with aff). rewrite !new_pt. unfold dist2, shift. cbn [px py]. ring. }
  assert (sound c) as So by (unfold sound; cbn; lia).
  assert (exists c1, draw_each (map snd [("e", e); ("f", e)]) (set_dmatrix (t_compose (tmat (e_xform b)) (dmatrix c)) c) = (c1, Ok tt)) as [c1 D].
  { cbn [map snd draw_each]. destruct (K (set_dmatrix (t_compose (tmat (e_xform b)) (dmatrix c)) c) eq_refl) as (d & -> & N).
    destruct (K d N) as (d2 & -> & _). eauto. }
  split; [exact So|]. split; [split; [exact So|exact I]|]. split; [reflexivity|]. split; [exact Iso|].
  split; [exists c1; exact D|]. split.
  - destruct (C66_group b [("e", e); ("f", e)] [] c c1 So eq_refl Iso D) as (c2 & E & _). eauto.
  - unfold shadow_draw. cbv zeta. cbn [c new_canvas alloc_shadow shadow].
    match goal with |- context [elem_draw e ?d] => destruct (K d eq_refl) as (d' & E & _); rewrite E end. eexists. reflexivity.
Qed.
