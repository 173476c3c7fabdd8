(* C47-C49: drawing, boxes and copies of groups and of shapes with holes. *)
Require Import Verif.Base Verif.NumR Verif.L_real Verif.L_ord Verif.M_vector Verif.M_bbox Verif.M_transform Verif.M_bezier Verif.M_colors Verif.M_elems Verif.M_group.
Require Import Verif.S_bbox Verif.L_bbox Verif.L_bboxR Verif.S_transform Verif.L_transform Verif.S_elems Verif.L_elems Verif.P_elems Verif.P_p1p2.
Require Import Verif.S_group Verif.S_gdraw Verif.L_group Verif.L_gdraw.
From Coq Require Import String Reals List Lia Lra Bool Permutation.
Import ListNotations.
Local Open Scope string_scope.
Local Open Scope list_scope.
Local Open Scope R_scope.

#[local] Hint Resolve okR : core.

(* ------------------------------------------------------------------ *)
(** ** C47 drawing trees *)

(* drawing anything - also when it raises - leaves the matrix and its stack as they were, and
   what is drawn depends on the current matrix only *)
Theorem C47_matrix_kept : forall {F} {NF : Num F} {RF : NumRoot F} {TF : NumTrig F}
    (dc : dctx) (e : elem F) (m m2 : transform F),
  same_matrix m (fst (elem_paths dc e m)) /\
  (tmat m2 = tmat m -> snd (elem_paths dc e m2) = snd (elem_paths dc e m)).
Proof.
  intros F NF RF TF dc e m m2. split; [apply paths_tame|]. intros E.
  rewrite !(proj2 (paths_tame dc e _)), E. reflexivity.
Qed.

Lemma collect_app {A B} (g : A -> res B) (l l' : list A) :
  collectM g (l ++ l') = let* a := collectM g l in let* b := collectM g l' in Ok (a ++ b).
Proof.
  induction l as [|x l IH]; cbn [app collectM]; [cbn; destruct (collectM g l'); reflexivity|].
  destruct (g x); cbn [bind]; [|reflexivity]. rewrite IH. destruct (collectM g l); cbn [bind]; [|reflexivity].
  destruct (collectM g l'); reflexivity.
Qed.

Section Tree.
  Context {F : Type} {NF : Num F} {RF : NumRoot F} {TF : NumTrig F}.

  Definition leaf_pic (dc : dctx) (x : ebase F * shape F * mat F) : res (list (path F)) :=
    let '(b, s, mx) := x in snd (leaf_paths dc b s (only mx)).

  Lemma pic_visible dc (e : elem F) : plain e -> forall M,
    pic dc e M = let* pss := collectM (leaf_pic dc) (visible e M) in Ok (concat pss).
  Proof.
    induction e as [b s|b h l p IH|b o i IHo IHi] using elem_induction; intros P M.
    - cbn [visible collectM leaf_pic]. rewrite pic_leaf.
      destruct (snd (leaf_paths dc b s (only M))); cbn [bind concat]; [now rewrite app_nil_r|reflexivity].
    - inversion P as [|b' h' l' p' Pl]; subst. cbn [visible]. destruct h; [reflexivity|].
      rewrite pic_group, fold_collect. cbn [app]. generalize (mat_dot M (tmat (e_xform b))). intros M'. clear P M.
      induction IH as [|[k e] l Hk _ IH]; [reflexivity|]. cbn [collectM flat_map snd].
      rewrite collect_app. cbn [snd] in Hk. rewrite (Hk (Pl k e (or_introl eq_refl)) M').
      specialize (IH (fun k e H => Pl k e (or_intror H))).
      destruct (collectM (leaf_pic dc) (visible e M')) as [a|x]; cbn [bind]; [|reflexivity].
      cbn [bind] in IH.
      destruct (collectM (fun a => pic dc (snd a) M') l) as [x|x], (collectM (leaf_pic dc) (flat_map _ l)) as [y|y]; cbn [bind] in *;
        try discriminate; try (injection IH as E); cbn [concat]; rewrite ?concat_app; congruence.
    - inversion P.
  Qed.
End Tree.

(* paths() of a tree without holes: the paths of the visible leaves, one leaf after the other in
   the order of insertion, each under the product of the transforms around it; it succeeds
   exactly when all those leaves can be drawn *)
Theorem C47_draws_leaves : forall {F} {NF : Num F} {RF : NumRoot F} {TF : NumTrig F}
    (dc : dctx) (e : elem F) (m : transform F) (ps : list (path F)), plain e ->
  (snd (elem_paths dc e m) = Ok ps <->
   exists pss, Forall2 (fun x p => snd (leaf_paths dc (fst (fst x)) (snd (fst x)) (only (snd x))) = Ok p)
                 (visible e (tmat m)) pss /\ ps = concat pss).
Proof.
  intros F NF RF TF dc e m ps P. rewrite (proj2 (paths_tame dc e m)), (pic_visible dc e P).
  assert (E : forall l pss, collectM (leaf_pic dc) l = Ok pss <->
    Forall2 (fun x p => snd (leaf_paths dc (fst (fst x)) (snd (fst x)) (only (snd x))) = Ok p) l pss).
  { intros l pss. rewrite collect_iff. split; (induction 1 as [|[[b s] mx] q l0 pss0 H0 _ IH]; constructor; [exact H0|exact IH]). }
  split.
  - destruct (collectM (leaf_pic dc) (visible e (tmat m))) as [pss|x] eqn:C; cbn [bind]; [|discriminate].
    injection 1 as <-. exists pss. split; [now apply E|reflexivity].
  - intros (pss & H & ->). apply E in H. rewrite H. reflexivity.
Qed.

(* a hidden group draws nothing, whatever it holds *)
Theorem C47_hidden : forall {F} {NF : Num F} {RF : NumRoot F} {TF : NumTrig F}
    (dc : dctx) (b : ebase F) l p (m : transform F), elem_paths dc (EGroup b true l p) m = (m, Ok []).
Proof. reflexivity. Qed.

(* ---------------- boxes ---------------- *)

Lemma elem_bbox_good (e : elem R) bb : elem_bbox e = Ok bb -> good bb /\ bb <> BNone.
Proof.
  unfold elem_bbox. destruct (elem_bbox_int e) as [bi|x]; cbn [bind]; [|discriminate]. intros E.
  split; [exact (proj1 (bbox_ext_R _ _ _ E))|]. destruct bi as [|xl yl xh yh]; [discriminate|].
  unfold bbox_ext in E. cbn [bind bbox_pll bbox_phh bbox_plh bbox_phl] in E. apply Ok_inj in E. subst. discriminate.
Qed.

Lemma fold_boxes {A} (g : A -> res (bbox R)) (l : list A) : forall acc,
  foldM (fun acc a => let* x := g a in Ok (bbox_add acc x)) acc l =
  let* bbs := collectM g l in Ok (fold_left bbox_add bbs acc).
Proof.
  induction l as [|a l IH]; intros acc; cbn [foldM collectM bind]; [reflexivity|].
  destruct (g a) as [x|x]; cbn [bind]; [|reflexivity]. rewrite IH.
  destruct (collectM g l); reflexivity.
Qed.

Lemma foldM_ext {A S} (f g : S -> A -> res S) (l : list A) : (forall s a, f s a = g s a) -> forall s,
  foldM f s l = foldM g s l.
Proof. intros H. induction l as [|a l IH]; intros s; cbn; [reflexivity|]. rewrite H. destruct (g s a); cbn; auto. Qed.

Lemma group_box_eq b h (l : list (string * elem R)) p : l <> [] ->
  elem_bbox_int (EGroup b h l p) =
  let* bbs := collectM (fun ke => elem_bbox (snd ke)) l in Ok (fold_left bbox_add bbs BNone).
Proof.
  intros N. rewrite <- fold_boxes. cbn [elem_bbox_int]. destruct l as [|ke l]; [congruence|].
  apply foldM_ext. intros s [k e]. unfold elem_bbox. cbn [snd]. destruct (elem_bbox_int e); reflexivity.
Qed.

Lemma add_not_none (a b : bbox R) : (a <> BNone \/ b <> BNone) -> bbox_add a b <> BNone.
Proof. destruct a, b; cbn; try discriminate. intros [H|H]; congruence. Qed.

Lemma fold_least (bbs : list (bbox R)) : Forall good bbs -> forall acc, good acc ->
  let bb := fold_left bbox_add bbs acc in
  good bb /\ (acc <> BNone \/ Exists (fun x => x <> BNone) bbs -> bb <> BNone) /\ sub_box acc bb /\
  (forall x, In x bbs -> sub_box x bb) /\
  (forall c, good c -> sub_box acc c -> (forall x, In x bbs -> sub_box x c) -> sub_box bb c).
Proof.
  induction 1 as [|y bbs Gy _ IH]; intros acc G; cbn [fold_left].
  - split; [exact G|]. split; [intros [H|H]; [exact H|inversion H]|]. split; [intros x z; auto|].
    split; [intros x []|intros c _ H _; exact H].
  - destruct (IH (bbox_add acc y)) as (A & B & C & D & E); [now apply good_add|].
    split; [exact A|]. split.
    + intros H. apply B. destruct H as [H|H]; [left; apply add_not_none; auto|].
      inversion H; subst; [left; apply add_not_none; auto|now right].
    + split; [eapply sub_trans; [|exact C]; now apply sub_add_l|]. split.
      * intros x [<-|Hx]; [|now apply D]. eapply sub_trans; [|exact C]. now apply sub_add_r.
      * intros c Gc Hc Hx. apply E; auto; [|intros x H; apply Hx; now right].
        apply add_least; auto. apply Hx. now left.
Qed.

Lemma least_unique bbs a b : least_around bbs a -> least_around bbs b -> a = b.
Proof.
  intros (_ & Ga & A1 & A2) (_ & Gb & B1 & B2). apply same_R. apply same_ext; auto.
  intros x y Hx Hy. split; [apply (A2 b Gb B1)|apply (B2 a Ga A1)]; auto.
Qed.

(* bbox_int() of a group is the least box around the boxes of its members; there is one exactly
   when the group is not empty and every member has a box *)
Theorem C47_group_box : forall (b : ebase R) (h : bool) (l : list (string * elem R)) p (bb : bbox R),
  elem_bbox_int (EGroup b h l p) = Ok bb <->
  l <> [] /\ exists bbs, Forall2 (fun ke x => elem_bbox (snd ke) = Ok x) l bbs /\ least_around bbs bb.
Proof.
  assert (K : forall (l : list (string * elem R)) bbs, l <> [] ->
    Forall2 (fun ke x => elem_bbox (snd ke) = Ok x) l bbs -> least_around bbs (fold_left bbox_add bbs BNone)).
  { intros l bbs N H.
    assert (G : Forall (fun x => good x /\ x <> BNone) bbs).
    { clear N. induction H as [|ke x l bbs E _ IH]; constructor; auto. now apply (elem_bbox_good (snd ke)). }
    assert (G' : Forall good bbs) by (eapply Forall_impl; [|exact G]; intros a [? _]; auto).
    destruct (fold_least bbs G' BNone I) as (A & B & _ & D & E). split; [|split; [exact A|split; [exact D|]]].
    - apply B. right. destruct H as [|ke x l bbs E' H]; [congruence|]. inversion G; subst. constructor. tauto.
    - intros c Gc Hc. apply E; auto. intros x y _ _ []. }
  intros b h l p bb. split.
  - intros E. assert (N : l <> []) by (intros ->; discriminate E). split; [exact N|].
    rewrite group_box_eq in E by exact N.
    destruct (collectM _ l) as [bbs|x] eqn:C; cbn [bind] in E; [|discriminate]. apply Ok_inj in E. subst bb.
    apply collect_iff in C. exists bbs. split; [exact C|]. now apply K with l.
  - intros (N & bbs & H & L). rewrite group_box_eq by exact N.
    pose proof (K l bbs N H) as L'. apply collect_iff in H. rewrite H. cbn [bind].
    now rewrite (least_unique _ _ _ L' L).
Qed.

(* an empty group has no box *)
Theorem C47_empty : forall (b : ebase R) (h : bool) p,
  elem_bbox_int (EGroup b h [] p) = Raise GeomInternalError /\ elem_bbox (EGroup b h [] p) = Raise GeomInternalError.
Proof. intros. split; reflexivity. Qed.

(* the order and the names of the members do not matter *)
Theorem C47_box_order : forall (b b' : ebase R) (h h' : bool) (l l' : list (string * elem R)) p p' (bb : bbox R),
  Permutation (map snd l) (map snd l') -> elem_bbox_int (EGroup b h l p) = Ok bb -> elem_bbox_int (EGroup b' h' l' p') = Ok bb.
Proof.
  intros b b' h h' l l' p p' bb P H. apply C47_group_box in H. destruct H as (N & bbs & H & L).
  apply C47_group_box. split.
  { intros ->. apply Permutation_sym, Permutation_nil in P. destruct l; [congruence|discriminate P]. }
  assert (H1 : Forall2 (fun e x => elem_bbox e = Ok x) (map snd l) bbs).
  { clear - H. induction H; cbn; constructor; auto. }
  assert (H2 : exists bbs', Forall2 (fun e x => elem_bbox e = Ok x) (map snd l') bbs' /\ Permutation bbs bbs').
  { clear - H1 P. revert bbs H1. generalize dependent (map snd l'). generalize (map snd l). clear l l'. intros l l' P. induction P as [|x l l' P IH|x y l|l l' l'' P1 IH1 P2 IH2]; intros bbs H.
    - inversion H. exists []. split; constructor.
    - inversion H as [|? bx ? bs E1 E2]; subst. destruct (IH _ E2) as (bs' & A & B).
      exists (bx :: bs'). split; constructor; auto.
    - inversion H as [|? bx ? bs E1 E2]; subst. inversion E2 as [|? by' ? bs2 E3 E4]; subst.
      exists (by' :: bx :: bs2). split; [repeat constructor; auto|constructor].
    - destruct (IH1 _ H) as (b1 & A & B). destruct (IH2 _ A) as (b2 & C & D). exists b2. split; [exact C|]. now transitivity b1. }
  destruct H2 as (bbs' & H2 & Pb). exists bbs'. split.
  - clear - H2. remember (map snd l') as ml eqn:E. revert l' E.
    induction H2; intros [|ke t'] E; try discriminate; [constructor|]. injection E as -> ->. constructor; auto.
  - destruct L as (A & B & C & D). split; [exact A|split; [exact B|split]].
    + intros x Hx. apply C. eapply Permutation_in; [symmetry; exact Pb|exact Hx].
    + intros c Gc Hc. apply D; auto. intros x Hx. apply Hc. eapply Permutation_in; eauto.
Qed.

(* ---------------- the picture lies in the box ---------------- *)

Lemma leaf_in_box dc b s bb m ps p q : boxable (ELeaf b s) -> elem_bbox (ELeaf b s) = Ok bb ->
  snd (leaf_paths dc b s m) = Ok ps -> In p ps -> In q (p_points p) ->
  exists r, holds bb r /\ pt_of q = t_transform m r.
Proof.
  intros X Eb E Hp Hq. inversion X as [b' s' A Hr| |]; subst.
  destruct (two_corners s) as [[p1 p2]|] eqn:C.
  - assert (Hr' : radius_ok s) by exact Hr.
    destruct (C40_drawn_in_box dc b s p1 p2 m A C Hr') as (m' & pa & _ & Ep & _ & _ & _ & Hin).
    rewrite Ep in E. injection E as <-. destruct Hp as [<-|[]]. destruct (Hin q Hq) as (r & Hr1 & Hr2).
    exists (t_transform (e_xform b) r). split; [|exact Hr2].
    unfold elem_bbox in Eb. cbn [elem_bbox_int e_base] in Eb.
    destruct (C40_bbox_int s p1 p2 C) as (bi & Ei & Hi). rewrite Ei in Eb. cbn [bind] in Eb.
    apply (bbox_ext_R _ _ _ Eb). now apply Hi.
  - destruct s as [cps| | |]; try discriminate C.
    destruct (leaf_paths dc b (SCurve cps) m) as [m' r] eqn:El. cbn [snd] in E. subst r.
    eapply C35_drawn_in_bbox; eauto.
Qed.

Lemma in_extend {F} (p : path F) more closed p' q : path_extend p more closed = Ok p' -> In q (p_points p') ->
  In q (p_points p) \/ In q more.
Proof.
  unfold path_extend. destruct closed.
  - destruct (rev (p_points p)) as [|z l] eqn:E; [discriminate|]. injection 1 as <-. cbn [p_points].
    rewrite !in_app_iff. intros [H|[H|[<-|[]]]]; auto. left. apply in_rev. rewrite E. now left.
  - injection 1 as <-. cbn [p_points]. rewrite in_app_iff. tauto.
Qed.

(* the points of the result of drawing one hole come from the outside and the hole *)
Lemma hole_points {F} {NF : Num F} (Q : F * F -> Prop) pb (ef ef' : list (path F) * path F) paths :
  hole_filled pb ef paths = Ok ef' ->
  (forall p q, In p (snd ef :: fst ef) -> In q (p_points p) -> Q q) ->
  (forall p q, In p paths -> In q (p_points p) -> Q q) ->
  (forall p q, In p (snd ef' :: fst ef') -> In q (p_points p) -> Q q).
Proof.
  unfold hole_filled. intros H H1 H2.
  assert (G : forall sub, (forall p, In p sub -> In p paths) -> forall ef, 
     foldM (fun (ef : list (path F) * path F) path =>
             let edges := fst ef ++ map (path_set_pb pb) paths in
             let* fill := path_extend (snd ef) (p_points path) true in
             Ok (edges, fill)) ef sub = Ok ef' ->
     (forall p q, In p (snd ef :: fst ef) -> In q (p_points p) -> Q q) ->
     forall p q, In p (snd ef' :: fst ef') -> In q (p_points p) -> Q q).
  { clear H H1 ef. induction sub as [|pa sub IH]; intros Hs ef H H1.
    - cbn [foldM] in H. injection H as <-. exact H1.
    - cbn [foldM] in H. cbv zeta in H.
      destruct (path_extend (snd ef) (p_points pa) true) as [fill|x] eqn:Ex; cbn [bind] in H; [|discriminate].
      eapply IH; [intros p Hp; apply Hs; now right|exact H|]. cbn [fst snd].
      intros p q [<-|Hp] Hq.
      + destruct (in_extend _ _ _ _ _ Ex Hq) as [K|K]; [apply (H1 (snd ef)); [now left|exact K]|].
        apply (H2 pa); [apply Hs; now left|exact K].
      + apply in_app_iff in Hp. destruct Hp as [Hp|Hp]; [apply (H1 p); [now right|exact Hq]|].
        apply in_map_iff in Hp. destruct Hp as (p0 & <- & Hp). apply (H2 p0); auto. }
  exact (G paths (fun p H => H) ef H H1).
Qed.

Lemma holes_points {F} {NF : Num F} {RF : NumRoot F} {TF : NumTrig F} (Q : F * F -> Prop) dc b o i (M : mat F) ps :
  holes_pic dc b o i M = Ok ps ->
  (forall ps' p q, pic dc o M = Ok ps' -> In p ps' -> In q (p_points p) -> Q q) ->
  (forall e ps' p q, In e i -> pic dc e M = Ok ps' -> In p ps' -> In q (p_points p) -> Q q) ->
  forall p q, In p ps -> In q (p_points p) -> Q q.
Proof.
  unfold holes_pic. intros E Ho Hi. destruct (pic dc o M) as [po|x] eqn:Eo; cbn [bind] in E; [|discriminate].
  destruct po as [|p0 [|p1 po]]; try discriminate.
  assert (H0 : forall q, In q (p_points p0) -> Q q) by (intros q; apply (Ho [p0]); auto; now left).
  destruct (pb_brush (e_pb b)) as [br|].
  - match type of E with (let* _ := foldM ?f ?s i in _) = _ => set (ff := f) in E; destruct (foldM ff s i) as [ef|x] eqn:Ef end;
      cbn [bind] in E; [|discriminate]. injection E as <-.
    match type of Ef with foldM _ ?s _ = _ => assert (S0 : forall p q, In p (snd s :: fst s) -> In q (p_points p) -> Q q) end.
    { cbn [fst snd]. intros p q [<-|[<-|[]]] Hq; apply H0; exact Hq. }
    revert Ef S0. generalize ([path_set_pb (edge_pb b) p0], Path (PenBrush None (Some br)) (p_closed p0) (p_points p0)).
    clear Eo Ho. revert Hi. induction i as [|e i IH]; intros Hi s Ef S0.
    + cbn in Ef. injection Ef as <-. exact S0.
    + cbn [foldM] in Ef. unfold ff at 1 in Ef. destruct (pic dc e M) as [pe|x] eqn:Ee; cbn [bind] in Ef; [|discriminate].
      destruct (hole_filled (edge_pb b) s pe) as [s'|x] eqn:Eh; cbn [bind] in Ef; [|discriminate].
      eapply IH; [intros e' ps' p q He'; apply Hi; now right|exact Ef|].
      eapply hole_points; eauto. intros p q. apply (Hi e pe); auto. now left.
  - assert (S0 : forall p q, In p [path_set_pb (edge_pb b) p0] -> In q (p_points p) -> Q q)
      by (intros p q [<-|[]]; apply H0).
    revert E S0. generalize ([path_set_pb (edge_pb b) p0]). clear Eo Ho. revert Hi.
    induction i as [|e i IH]; intros Hi s Ef S0.
    + cbn in Ef. injection Ef as <-. exact S0.
    + cbn [foldM] in Ef. destruct (pic dc e M) as [pe|x] eqn:Ee; cbn [bind] in Ef; [|discriminate].
      eapply IH; [intros e' ps' p q He'; apply Hi; now right|exact Ef|].
      intros p q Hp Hq. apply in_app_iff in Hp. destruct Hp as [Hp|Hp]; [now apply (S0 p)|].
      apply in_map_iff in Hp. destruct Hp as (p' & <- & Hp). apply (Hi e pe p' q); auto. now left.
Qed.

Lemma comp_apply (m x : transform R) r : affine_mat (tmat x) ->
  t_transform (only (mat_dot (tmat m) (tmat x))) r = t_transform m (t_transform x r).
Proof.
  intros A. unfold t_transform. cbn [tmat only]. now rewrite apply_dot.
Qed.

Lemma ext_id (o : elem R) bb : tmat (e_xform (e_base o)) = mat_id -> elem_bbox_int o = Ok bb -> bb <> BNone -> good bb ->
  elem_bbox o = Ok bb.
Proof.
  intros E Eb N G. unfold elem_bbox. rewrite Eb. cbn [bind]. destruct bb as [|xl yl xh yh]; [congruence|].
  unfold bbox_ext. cbn [bind bbox_pll bbox_phh bbox_plh bbox_phl]. f_equal.
  assert (Ti : forall q, t_transform (e_xform (e_base o)) q = q).
  { intros q. unfold t_transform. rewrite E, apply_lin. destruct q as [u v]. unfold lin, mat_id. cbn. f_equal; ring. }
  rewrite !Ti. apply good_R in G. destruct G as [Gx Gy]. unfold bbox_of_pts. cbn [px py]. rewrite !mkbbox_R.
  unfold bbox_add. rewrite !mkbbox_R, ?pymin_R, ?pymax_R.
  repeat (rewrite ?(Rmin_left xl xh), ?(Rmax_right xl xh), ?(Rmin_left yl yh), ?(Rmax_right yl yh),
           ?(Rmin_right yh yl), ?(Rmax_left yh yl) by auto).
  rewrite ?(Rmin_left xl xl), ?(Rmax_left xh xh), ?(Rmin_left yl yl), ?(Rmax_left yh yh) by lra.
  rewrite ?(Rmin_left xl xh), ?(Rmax_right xl xh), ?(Rmin_left yl yh), ?(Rmax_right yl yh) by auto. reflexivity.
Qed.

Lemma bbox_int_good (e : elem R) : forall bb, elem_bbox_int e = Ok bb -> good bb /\ bb <> BNone.
Proof.
  induction e as [b s|b h l p IH|b o i IHo IHi] using elem_induction; intros bb E.
  - cbn [elem_bbox_int] in E. destruct (two_corners s) as [[p1 p2]|] eqn:C.
    + assert (X : bb = bbox_of_pts p1 p2) by (destruct s; cbn in C; try discriminate; injection C as -> ->; apply Ok_inj in E; now subst).
      subst bb. split; [apply good_of_pts|discriminate].
    + destruct s as [cps| | |]; try discriminate C. destruct cps as [|c cps].
      * discriminate E.
      * destruct (C35_bbox_int (c :: cps)) as (bb' & E' & G & Hs & _); [discriminate|].
        rewrite E' in E. apply Ok_inj in E. subst bb'. split; [exact G|]. intros ->. destruct (Hs c) as (K & _); [now left|destruct K].
  - apply C47_group_box in E. destruct E as (_ & bbs & _ & (N & G & _)). auto.
  - cbn [elem_bbox_int] in E. destruct (elem_bbox_int o) as [bo|x]; cbn [bind] in E; [|discriminate].
    destruct (foldM _ BNone i) as [bi|x]; cbn [bind] in E; [|discriminate].
    destruct (bbox_contains bo bi) as [c|x]; cbn [bind] in E; [|discriminate].
    destruct c; [|discriminate]. apply Ok_inj in E. subst bb. now apply IHo.
Qed.

Lemma contains_sub (a b : bbox R) : bbox_contains a b = Ok true -> sub_box b a.
Proof.
  destruct a as [|xl yl xh yh], b as [|xl' yl' xh' yh']; cbn; try discriminate. intros E x y _ _.
  unfold in_box, le. cbn. apply Ok_inj in E. repeat (apply andb_prop in E; destruct E as [E ?]).
  rewrite !Rleb_le in *. lra.
Qed.
Lemma contains_iff (a b : bbox R) : good b -> a <> BNone -> b <> BNone ->
  exists c, bbox_contains a b = Ok c /\ (c = true <-> sub_box b a).
Proof.
  intros G Na Nb. destruct a as [|xl yl xh yh] eqn:Ea; [congruence|]. destruct b as [|xl' yl' xh' yh'] eqn:Eb; [congruence|].
  eexists. split; [reflexivity|]. split.
  - intros E. apply contains_sub. exact (f_equal Ok E).
  - intros H. apply good_R in G. destruct G as [Gx Gy].
    pose proof (H xl' yl' I I) as H1. pose proof (H xh' yh' I I) as H2. unfold in_box, le in *. cbn in *.
    rewrite !Rleb_le in *. rewrite !andb_true_iff, !Rleb_le. lra.
Qed.

Lemma holes_box_eq b (o : elem R) i : elem_bbox_int (EHoles b o i) =
  let* out := elem_bbox_int o in
  let* bbs := collectM elem_bbox i in
  let* c := bbox_contains out (fold_left bbox_add bbs BNone) in
  if c then Ok out else Raise AssertionError.
Proof.
  cbn [elem_bbox_int]. destruct (elem_bbox_int o) as [out|x]; cbn [bind]; [|reflexivity].
  rewrite (foldM_ext _ (fun acc a => let* x := elem_bbox a in Ok (bbox_add acc x))).
  2:{ intros s a. unfold elem_bbox. destruct (elem_bbox_int a); reflexivity. }
  rewrite fold_boxes. destruct (collectM elem_bbox i); reflexivity.
Qed.

(* bbox_int() of a shape with holes is the inner box of the outside; there is one exactly when
   there is at least one hole, everything has a box and the holes stay inside the outside's *)
Theorem C49_box : forall (b : ebase R) (o : elem R) (i : list (elem R)) (out : bbox R) (bbs : list (bbox R)),
  elem_bbox_int o = Ok out -> Forall2 (fun e x => elem_bbox e = Ok x) i bbs ->
  (i = [] -> elem_bbox_int (EHoles b o i) = Raise ValueError) /\
  (i <> [] -> (forall x, In x bbs -> sub_box x out) -> elem_bbox_int (EHoles b o i) = Ok out) /\
  (i <> [] -> (exists x, In x bbs /\ ~ sub_box x out) -> elem_bbox_int (EHoles b o i) = Raise AssertionError).
Proof.
  intros b o i out bbs Eo Hi. rewrite holes_box_eq, Eo. cbn [bind].
  pose proof (proj2 (collect_iff _ _ _) Hi) as C. rewrite C. cbn [bind].
  destruct (bbox_int_good _ _ Eo) as [Go No].
  assert (G : Forall good bbs /\ Forall (fun x => x <> BNone) bbs).
  { clear C. induction Hi as [|e x l bbs E _ [IH1 IH2]]; [split; constructor|].
    destruct (elem_bbox_good _ _ E). split; constructor; auto. }
  destruct G as [G N]. destruct (fold_least bbs G BNone I) as (A & B & _ & D & E).
  split; [|split].
  - intros ->. inversion Hi; subst. cbn [fold_left]. destruct out; reflexivity.
  - intros Ni Hs. assert (Nf : fold_left bbox_add bbs BNone <> BNone).
    { apply B. right. inversion Hi; subst; [congruence|]. inversion N; subst. now constructor. }
    destruct (contains_iff out (fold_left bbox_add bbs BNone)) as (c & Ec & Hc); auto.
    rewrite Ec. cbn [bind]. replace c with true; [reflexivity|]. symmetry. apply Hc. apply E; auto.
    intros x y _ _ [].
  - intros Ni (x & Hx & Hn). assert (Nf : fold_left bbox_add bbs BNone <> BNone).
    { apply B. right. inversion Hi; subst; [congruence|]. inversion N; subst. now constructor. }
    destruct (contains_iff out (fold_left bbox_add bbs BNone)) as (c & Ec & Hc); auto.
    rewrite Ec. cbn [bind]. destruct c; [|reflexivity]. exfalso. apply Hn.
    eapply sub_trans; [apply (D x Hx)|]. now apply Hc.
Qed.

Theorem C49_box_needs : forall (b : ebase R) (o : elem R) (i : list (elem R)) (bb : bbox R),
  elem_bbox_int (EHoles b o i) = Ok bb ->
  i <> [] /\ elem_bbox_int o = Ok bb /\ forall e, In e i -> exists x, elem_bbox e = Ok x /\ sub_box x bb.
Proof.
  intros b o i bb E. pose proof E as E0. rewrite holes_box_eq in E. destruct (elem_bbox_int o) as [out|x] eqn:Eo; cbn [bind] in E; [|discriminate].
  destruct (collectM elem_bbox i) as [bbs|x] eqn:C; cbn [bind] in E; [|discriminate].
  destruct (bbox_contains out (fold_left bbox_add bbs BNone)) as [c|x] eqn:Ec; cbn [bind] in E; [|discriminate].
  destruct c; [|discriminate]. apply Ok_inj in E. subst out.
  apply collect_iff in C. destruct (C49_box b o i bb bbs Eo C) as (K & _). split; [intros Z; rewrite (K Z) in E0; discriminate E0|].
  split; [reflexivity|]. intros e He. apply contains_sub in Ec.
  assert (G : Forall good bbs).
  { clear -C. induction C as [|a x l bbs E _ IH]; constructor; auto. apply (elem_bbox_good _ _ E). }
  destruct (fold_least bbs G BNone I) as (_ & _ & _ & D & _).
  clear -C He D Ec. revert D. generalize (fold_left bbox_add bbs BNone) Ec. intros f Ec' D. clear Ec.
  induction C as [|a x l bbs E _ IH]; [destruct He|]. destruct He as [->|He].
  - exists x. split; [exact E|]. eapply sub_trans; [apply D; now left|exact Ec'].
  - apply IH; auto. intros y Hy. apply D. now right.
Qed.

(* everything a tree draws lies in its bbox() *)
Theorem C47_drawn_in_box : forall (dc : dctx) (e : elem R), boxable e ->
  forall (m : transform R) (bb : bbox R) (ps : list (path R)) (p : path R) (q : R * R),
  elem_bbox e = Ok bb -> snd (elem_paths dc e m) = Ok ps -> In p ps -> In q (p_points p) ->
  exists r, holds bb r /\ pt_of q = t_transform m r.
Proof.
  intros dc e. induction e as [b s|b h l p IH|b o i IHo IHi] using elem_induction; intros X m bb ps pa q Eb E Hp Hq.
  - cbn [elem_paths] in E. eapply leaf_in_box; eauto.
  - inversion X as [|b' h' l' p' A Xl|]; subst. destruct h; [injection E as <-; destruct Hp|].
    rewrite (proj2 (paths_tame dc _ m)), pic_group in E.
    apply fold_collect_ok in E. destruct E as (pss & Hf & ->). cbn [app] in Hp.
    unfold elem_bbox in Eb. destruct (elem_bbox_int (EGroup b false l p)) as [bi|x] eqn:Ei; cbn [bind] in Eb; [|discriminate].
    apply C47_group_box in Ei. destruct Ei as (_ & bbs & Hb & (_ & _ & Hs & _)). cbn [e_base] in Eb.
    destruct (bbox_ext_R _ _ _ Eb) as [_ Hx].
    assert (K : exists r, holds bi r /\ pt_of q = t_transform (only (mat_dot (tmat m) (tmat (e_xform b)))) r).
    { clear Eb Hx X. revert bbs Hb Hs. induction Hf as [|[k e] ps l pss E Hf IHf]; intros bbs Hb Hs; [destruct Hp|].
      inversion Hb as [|? x ? bbs' E1 E2]; subst. inversion IH as [|? ? IH1 IH2]; subst. cbn [snd] in *.
      cbn [concat] in Hp. apply in_app_iff in Hp. destruct Hp as [Hp|Hp].
      - destruct (IH1 (Xl k e (or_introl eq_refl)) (only (mat_dot (tmat m) (tmat (e_xform b)))) x ps pa q E1 E Hp Hq) as (r & R1 & R2).
        exists r. split; [|exact R2]. apply (Hs x); auto. now left.
      - eapply IHf; eauto. + intros k' e' H. apply (Xl k' e'). now right. + intros y Hy. apply Hs. now right. }
    destruct K as (r & R1 & R2). exists (t_transform (e_xform b) r). split; [now apply Hx|].
    rewrite R2. now apply comp_apply.
  - inversion X as [| |b' o' i' A Xo Eid Xi]; subst.
    rewrite (proj2 (paths_tame dc _ m)), pic_holes in E.
    unfold elem_bbox in Eb. destruct (elem_bbox_int (EHoles b o i)) as [bi|x] eqn:Ei; cbn [bind] in Eb; [|discriminate].
    cbn [e_base] in Eb. destruct (bbox_ext_R _ _ _ Eb) as [_ Hx].
    destruct (C49_box_needs b o i bi Ei) as (_ & Eo & Hi). destruct (bbox_int_good _ _ Eo) as [Go No].
    pose proof (ext_id o bi Eid Eo No Go) as Eo'.
    set (M' := mat_dot (tmat m) (tmat (e_xform b))) in *.
    pose proof (holes_points (fun q => exists r, holds bi r /\ pt_of q = t_transform (only M') r) dc b o i M' ps E) as HP.
    destruct (HP) with (p := pa) (q := q) as (r & R1 & R2); auto.
    + intros ps' p' q' E' Hp' Hq'. eapply (IHo Xo (only M')); eauto.
    + intros e ps' p' q' He E' Hp' Hq'. rewrite Forall_forall in IHi. destruct (Hi e He) as (x & Ex & Hs).
      destruct (IHi e He (Xi e He) (only M') x ps' p' q' Ex E' Hp' Hq') as (r & R1 & R2).
      exists r. split; [|exact R2]. apply Hs; auto.
    + exists (t_transform (e_xform b) r). split; [now apply Hx|]. rewrite R2. now apply comp_apply.
Qed.
