(* Lemmas about cutting the segments at the intersections and chaining the pieces, over R. *)
Require Import Verif.Base Verif.NumR Verif.L_real.
From Coq Require Import List Lia PeanoNat Permutation Bool Reals Lra.
Require Import Verif.M_vector Verif.M_bezier Verif.M_group Verif.M_dump Verif.M_selfix.
Require Import Verif.S_bezier Verif.L_bezier Verif.P_bezier Verif.S_selfix Verif.L_selfix.
Import ListNotations.
Open Scope R_scope.

Lemma Reqb_true (x y : R) : neqb x y = true <-> x = y.
Proof. cbn. unfold Reqb. destruct (Req_EM_T x y); split; congruence. Qed.
Lemma Rltb_true (x y : R) : nltb x y = true <-> x < y.
Proof. cbn. unfold Rltb. destruct (Rlt_dec x y); split; congruence. Qed.
Lemma Rltb_false (x y : R) : nltb x y = false <-> y <= x.
Proof. cbn. unfold Rltb. destruct (Rlt_dec x y); split; intros; try congruence; lra. Qed.

(* ---------------- nodes ---------------- *)
Lemma index_of_some (xy : R * R) : forall nodes k, index_of xy nodes = Some k -> nth_error nodes k = Some xy.
Proof.
  induction nodes as [|a nodes IH]; intros k H; [discriminate|]. cbn [index_of] in H.
  destruct (neqb (fst xy) (fst a) && neqb (snd xy) (snd a))%bool eqn:E.
  - injection H as <-. apply andb_true_iff in E. destruct E as [E1 E2]. apply Reqb_true in E1, E2.
    destruct xy, a; cbn in *. congruence.
  - destruct (index_of xy nodes) as [k'|]; [|discriminate]. injection H as <-. now apply IH.
Qed.
Lemma index_of_none (xy : R * R) : forall nodes, index_of xy nodes = None -> ~ In xy nodes.
Proof.
  induction nodes as [|a nodes IH]; intros H; [auto|]. cbn [index_of] in H.
  destruct (neqb (fst xy) (fst a) && neqb (snd xy) (snd a))%bool eqn:E; [discriminate|].
  destruct (index_of xy nodes) as [k'|]; [discriminate|]. intros [->|Q]; [|now apply IH].
  rewrite (proj2 (Reqb_true _ _) eq_refl), (proj2 (Reqb_true _ _) eq_refl) in E. discriminate.
Qed.
Lemma node_of_spec (xy : R * R) nodes : exists ext, fst (node_of xy nodes) = nodes ++ ext /\
  nth_error (fst (node_of xy nodes)) (snd (node_of xy nodes)) = Some xy /\
  (NoDup nodes -> NoDup (nodes ++ ext)) /\ (forall q, In q ext -> q = xy).
Proof.
  unfold node_of. destruct (index_of xy nodes) as [k|] eqn:E; cbn [fst snd].
  - exists []. rewrite app_nil_r. split; [|split; [|split]]; auto using index_of_some. intros q [].
  - exists [xy]. split; [|split; [|split]]; auto.
    + rewrite nth_error_app2, Nat.sub_diag by lia. reflexivity.
    + intro ND. apply index_of_none in E. apply (Permutation_NoDup (Permutation_cons_append _ _)). now constructor.
    + intros q [Q|[]]. auto.
Qed.

(* ---------------- one segment ---------------- *)
Definition at_xy (xy : R * R) : pt R := P (fst xy) (snd xy).
(* a control point put at an intersection: its node is the reported point, and it is there *)
Definition place := @ix R -> pt R -> Prop.
Definition cut_at (Q : place) (nodes : list (R * R)) (c : cpbool R) (i : ix) : Prop :=
  exists k, cb_node c = Some k /\ nth_error nodes k = Some (snd i) /\
    v_length (p_sub (cc (cb_cp c)) (at_xy (snd i))) <= split_delta /\ Q i (cc (cb_cp c)).
Lemma cut_at_mono Q nodes ext c i : cut_at Q nodes c i -> cut_at Q (nodes ++ ext) c i.
Proof.
  intros (k & H1 & H2 & H3 & H4). exists k. split; [|split; [|split]]; auto. rewrite nth_error_app1; auto.
  now apply nth_error_some_lt in H2.
Qed.
Definition step (A B : cpoint R) (ab : cpoint R * cpoint R) (tt : R * R) : Prop :=
  forall u, segment (fst ab) (snd ab) u = segment A B (fst tt + u * (snd tt - fst tt)).

Lemma segment_0 (a b : cpoint R) : segment a b 0 = cc a.
Proof. unfold segment, cubic, cubic1. destruct (cc a). cbn. f_equal; ring. Qed.
(* why cutting a segment fails *)
Definition excuse (A B : cpoint R) (ixs : list (@ix R)) (e : exn) : Prop :=
  (e = ZeroDivisionError /\ exists i, In i ixs /\ fst i = 1) \/
  (e = ValueError /\ exists i, In i ixs /\ split_delta < v_length (p_sub (segment A B (fst i)) (at_xy (snd i)))).
Lemma expand_spec (Q : place) A B : forall ixs nodes t a b sa sb nn,
  (forall u, segment a b u = segment A B (t + u * (1 - t))) -> (forall i, In i ixs -> Q i (segment A B (fst i))) ->
  match expand nodes t a b sa sb nn ixs with
  | Raise e => (t = 1 /\ e = ZeroDivisionError) \/ excuse A B ixs e
  | Ok (nodes', local) =>
      (exists ext, nodes' = nodes ++ ext /\ (NoDup nodes -> NoDup nodes') /\ (forall q, In q ext -> In q (map snd ixs))) /\
      exists c0 mid cz, local = c0 :: mid ++ [cz] /\
        cc (cb_cp c0) = cc a /\ cdl (cb_cp c0) = cdl a /\ cb_node c0 = nn /\
        cc (cb_cp cz) = cc b /\ cdr (cb_cp cz) = cdr b /\ cb_node cz = None /\
        Forall2 (cut_at Q nodes') mid ixs /\
        Forall2 (step A B) (consecutive (map (@cb_cp R) local)) (consecutive (t :: map fst ixs ++ [1]))
  end.
Proof.
  induction ixs as [|[t_ix xy] ixs IH]; intros nodes t a b sa sb nn Hab HQ; cbn [expand].
  - split.
    + exists []. rewrite app_nil_r. repeat split; auto.
    + exists (CB a nn sa), [], (CB b None sb). repeat split; auto.
      cbn. repeat constructor. intro u. cbn. apply Hab.
  - destruct (node_of_spec xy nodes) as (ext & E1 & E2 & E3 & E4).
    destruct (node_of xy nodes) as [nodes1 k] eqn:EN. cbn [fst snd] in *. subst nodes1.
    unfold pydiv. destruct (neqb (nsub (nofZ 1) t) (nofZ 0)) eqn:Z; cbn [bind].
    { left. apply Reqb_true in Z. cbn in Z. split; auto. lra. }
    assert (Z' : 1 - t <> 0). { intro Q'. apply (proj2 (Reqb_true _ _)) in Q'. cbn in Z, Q'. congruence. } clear Z.
    set (u0 := ndiv (nsub t_ix t) (nsub (nofZ 1) t)).
    assert (U0 : u0 * (1 - t) = t_ix - t). { unfold u0. cbn. field. exact Z'. }
    destruct (bez_split a b u0) as [[l m] r] eqn:Es.
    rewrite (nth_error_nth (nodes ++ ext) k xy E2).
    pose proof (C31_split_shape _ _ _ _ _ _ Es) as (S1 & S2 & S3 & S4 & S5 & _).
    assert (T1 : forall u, segment l m u = segment A B (t + u * (t_ix - t))).
    { intro u. destruct (C31_split_traces _ _ _ _ _ _ u Es) as [-> _]. rewrite Hab. f_equal. rewrite Rmult_assoc, U0. ring. }
    assert (T2 : forall u, segment m r u = segment A B (t_ix + u * (1 - t_ix))).
    { intro u. destruct (C31_split_traces _ _ _ _ _ _ u Es) as [_ ->]. rewrite Hab. f_equal.
      replace ((u0 + u * (1 - u0)) * (1 - t)) with (u0 * (1 - t) + u * ((1 - t) - u0 * (1 - t))) by ring.
      rewrite U0. ring. }
    assert (Hm : cc m = segment A B t_ix).
    { rewrite <- (segment_0 m r), T2. f_equal. ring. }
    destruct (nltb split_delta (v_length (p_sub (cc m) (P (fst xy) (snd xy))))) eqn:Near.
    { right. right. split; auto. exists (t_ix, xy). split; [now left|]. cbn [fst snd]. rewrite <- Hm. now apply Rltb_true in Near. }
    apply Rltb_false in Near.
    specialize (IH (nodes ++ ext) t_ix m r None None (Some k) T2 (fun i Hi => HQ i (or_intror Hi))).
    destruct (expand (nodes ++ ext) t_ix m r None None (Some k) ixs) as [[nodes' local]|e].
    2: { cbn [bind]. right. destruct IH as [[I1 I2]|[[I1 (i & I2 & I3)]|[I1 (i & I2 & I3)]]].
         - left. split; auto. exists (t_ix, xy). split; [now left|auto].
         - left. split; auto. exists i. split; [now right|auto].
         - right. split; auto. exists i. split; [now right|auto]. }
    cbn [bind fst snd].
    destruct IH as ((ext' & -> & I1 & I2) & c0 & mid & cz & -> & J1 & J2 & J3 & J4 & J5 & J6 & J7 & J8).
    split.
    + exists (ext ++ ext'). rewrite <- app_assoc. split; [reflexivity|]. split.
      * intro ND. rewrite app_assoc. auto.
      * intros q Hq. cbn [map]. apply in_app_or in Hq. destruct Hq as [Hq|Hq]; [left; symmetry; now apply E4|right; now apply I2].
    + exists (CB l nn None), (c0 :: mid), cz. split; [reflexivity|]. cbn [cb_cp cb_node].
      repeat split; auto; try congruence.
      * constructor; auto. exists k. rewrite J3. split; auto. split; [|].
        { cbn [snd]. rewrite nth_error_app1; auto. now apply nth_error_some_lt in E2. }
        rewrite J1. split; [exact Near|]. rewrite Hm. apply (HQ (t_ix, xy)). now left.
      * cbn [map app fst] in J8 |- *. cbn [consecutive]. constructor; [|].
        { intro u. cbn [fst snd]. rewrite <- T1. unfold segment, left_of. rewrite J1, J2. reflexivity. }
        { exact J8. }
Qed.

(* ---------------- all the segments ---------------- *)
(* the same piece of curve, whatever the outer handles and the kinds *)
Definition same_seg (x y : cpoint R * cpoint R) : Prop :=
  cc (fst x) = cc (fst y) /\ cdr (fst x) = cdr (fst y) /\ cdl (snd x) = cdl (snd y) /\ cc (snd x) = cc (snd y).
Lemma same_seg_refl x : same_seg x x. Proof. unfold same_seg. auto. Qed.
Lemma same_seg_trans x y z : same_seg x y -> same_seg y z -> same_seg x z.
Proof. unfold same_seg. intuition congruence. Qed.
Lemma same_seg_segment x y u : same_seg x y -> segment (fst x) (snd x) u = segment (fst y) (snd y) u.
Proof. intros (H1 & H2 & H3 & H4). unfold segment, left_of, right_of. now rewrite H1, H2, H3, H4. Qed.
Lemma same_refl l : Forall2 same_seg l l.
Proof. induction l; constructor; auto using same_seg_refl. Qed.
Lemma same_trans : forall l m r, Forall2 same_seg l m -> Forall2 same_seg m r -> Forall2 same_seg l r.
Proof.
  intros l m r H. revert r. induction H; intros r H2; inversion H2; subst; constructor; eauto using same_seg_trans.
Qed.

Definition csegs (l : list (cpbool R)) : list (cpoint R * cpoint R) := consecutive (map (@cb_cp R) l).
Definition has_node (c : cpbool R) : bool := match cb_node c with Some _ => true | None => false end.
Definition merge2 (c l : list (cpbool R)) : list (cpbool R) :=
  match rev c, l with
  | z :: _, f :: rest => removelast c ++ on_cp (set_dr (cdr (cb_cp f))) z :: rest
  | _, _ => c ++ l
  end.
(* a list of at least two whose ends are not at nodes *)
Definition open2 (p q : pt R) (c : list (cpbool R)) : Prop :=
  exists f m z, c = f :: m ++ [z] /\ cb_node f = None /\ cb_node z = None /\ cc (cb_cp f) = p /\ cc (cb_cp z) = q.

Lemma rev_mid' {A} (p : A) m z : rev (p :: m ++ [z]) = z :: rev (p :: m).
Proof. change (p :: m ++ [z]) with ((p :: m) ++ [z]). now rewrite rev_app_distr. Qed.
Lemma removelast_mid' {A} (p : A) m z : removelast (p :: m ++ [z]) = p :: m.
Proof. change (p :: m ++ [z]) with ((p :: m) ++ [z]). rewrite removelast_last. reflexivity. Qed.

Lemma consecutive_join {A} : forall (l : list A) x r, consecutive (l ++ x :: r) = consecutive (l ++ [x]) ++ consecutive (x :: r).
Proof.
  induction l as [|a l IH]; intros x r; [reflexivity|]. destruct l as [|b l].
  - reflexivity.
  - cbn [app consecutive] in *. now rewrite IH.
Qed.

Lemma merge2_open p q q' s c l : open2 p q c -> open2 q q' l -> s = q -> open2 p q' (merge2 c l).
Proof.
  intros (f & m & z & -> & F1 & F2 & F3 & F4) (f' & m' & z' & -> & G1 & G2 & G3 & G4) _.
  unfold merge2. rewrite rev_mid', removelast_mid'.
  exists f, (m ++ on_cp (set_dr (cdr (cb_cp f'))) z :: m'), z'. split; [|auto].
  cbn [app]. f_equal. now rewrite <- app_assoc.
Qed.
Lemma same_last : forall l (x y : cpoint R), cc x = cc y -> cdl x = cdl y ->
  Forall2 same_seg (consecutive (l ++ [x])) (consecutive (l ++ [y])).
Proof.
  induction l as [|a l IH]; intros x y H1 H2; [constructor|]. destruct l as [|b l].
  - cbn. repeat constructor; cbn; auto.
  - cbn [app consecutive]. constructor; [apply same_seg_refl|]. now apply IH.
Qed.
Lemma same_first : forall l (x y : cpoint R), cc x = cc y -> cdr x = cdr y ->
  Forall2 same_seg (consecutive (x :: l)) (consecutive (y :: l)).
Proof.
  intros [|a l] x y H1 H2; [constructor|]. cbn [consecutive]. constructor; [|apply same_refl]. repeat split; auto.
Qed.
Lemma merge2_segs p q q' c l : open2 p q c -> open2 q q' l -> Forall2 same_seg (csegs (merge2 c l)) (csegs c ++ csegs l).
Proof.
  intros (f & m & z & -> & F1 & F2 & F3 & F4) (f' & m' & z' & -> & G1 & G2 & G3 & G4).
  unfold merge2. rewrite rev_mid', removelast_mid'. unfold csegs.
  set (c1 := map (@cb_cp R) (f :: m)). set (r1 := map (@cb_cp R) (m' ++ [z'])).
  replace (map (@cb_cp R) ((f :: m) ++ on_cp (set_dr (cdr (cb_cp f'))) z :: m' ++ [z']))
     with (c1 ++ set_dr (cdr (cb_cp f')) (cb_cp z) :: r1) by (unfold c1, r1; rewrite (map_app _ (f :: m)); reflexivity).
  replace (map (@cb_cp R) (f :: m ++ [z])) with (c1 ++ [cb_cp z]) by (unfold c1; cbn; rewrite !map_app; reflexivity).
  replace (map (@cb_cp R) (f' :: m' ++ [z'])) with (cb_cp f' :: r1) by reflexivity.
  rewrite consecutive_join. apply Forall2_app.
  - apply same_last; reflexivity.
  - apply same_first; [|reflexivity]. cbn. congruence.
Qed.
Lemma merge2_nodes p q q' c l : open2 p q c -> open2 q q' l ->
  filter has_node (merge2 c l) = filter has_node c ++ filter has_node l.
Proof.
  intros (f & m & z & -> & F1 & F2 & F3 & F4) (f' & m' & z' & -> & G1 & G2 & G3 & G4).
  unfold merge2. rewrite rev_mid', removelast_mid'.
  assert (Hn : forall d, has_node (on_cp d z) = false) by (intro; unfold has_node; cbn; now rewrite F2).
  assert (Hf : has_node f = false) by (unfold has_node; now rewrite F1).
  assert (Hz : has_node z = false) by (unfold has_node; now rewrite F2).
  assert (Hf' : has_node f' = false) by (unfold has_node; now rewrite G1).
  cbn [app filter]. rewrite Hf, Hf', !filter_app. cbn [filter]. rewrite Hn, Hz. rewrite app_nil_r, filter_app. reflexivity.
Qed.
Lemma merge2_length p q q' c l : open2 p q c -> open2 q q' l -> S (length (merge2 c l)) = (length c + length l)%nat.
Proof.
  intros (f & m & z & -> & _) (f' & m' & z' & -> & _). unfold merge2. rewrite rev_mid', removelast_mid'.
  cbn. rewrite !app_length. cbn. rewrite !app_length. cbn. lia.
Qed.

(* the segments, each cut at its intersections *)
Fixpoint expand_all (nodes : list (R * R)) (curves : list (seg R * list ix)) : res (list (R * R) * list (list (cpbool R))) :=
  match curves with
  | [] => Ok (nodes, [])
  | (s, ixs) :: curves' =>
      bind (expand nodes 0 (sg_a s) (sg_b s) (sg_sa s) (sg_sb s) None (sort_ixs ixs))
        (fun r => bind (expand_all (fst r) curves') (fun r' => Ok (fst r', snd r :: snd r')))
  end.
Definition pt_a (c : seg R * list (@ix R)) := cc (sg_a (fst c)).
Definition pt_b (c : seg R * list (@ix R)) := cc (sg_b (fst c)).
(* each segment starts where the one before ends *)
Fixpoint chainedp (p : pt R) (curves : list (seg R * list (@ix R))) : Prop :=
  match curves with
  | [] => True
  | c :: l => pt_a c = p /\ chainedp (pt_b c) l
  end.
Fixpoint end_of (p : pt R) (curves : list (seg R * list (@ix R))) : pt R :=
  match curves with [] => p | c :: l => end_of (pt_b c) l end.

Definition local_ok (Q : place) (nodes : list (R * R)) (c : seg R * list ix) (local : list (cpbool R)) : Prop :=
  open2 (pt_a c) (pt_b c) local /\
  Forall2 (cut_at Q nodes) (filter has_node local) (sort_ixs (snd c)) /\
  length local = S (S (length (sort_ixs (snd c)))) /\
  Forall2 (step (sg_a (fst c)) (sg_b (fst c))) (csegs local) (consecutive (0 :: map fst (sort_ixs (snd c)) ++ [1])).

Lemma F2_length {A B} (P : A -> B -> Prop) l m : Forall2 P l m -> length l = length m.
Proof. induction 1; cbn; auto. Qed.
Lemma filter_id {A} (f : A -> bool) l : Forall (fun a => f a = true) l -> filter f l = l.
Proof. induction 1; cbn; auto. now rewrite H, IHForall. Qed.

Lemma expand_local (Q : place) nodes c : (forall i, In i (sort_ixs (snd c)) -> Q i (segment (sg_a (fst c)) (sg_b (fst c)) (fst i))) ->
  match expand nodes 0 (sg_a (fst c)) (sg_b (fst c)) (sg_sa (fst c)) (sg_sb (fst c)) None (sort_ixs (snd c)) with
  | Raise e => excuse (sg_a (fst c)) (sg_b (fst c)) (sort_ixs (snd c)) e
  | Ok (nodes', local) =>
      (exists ext, nodes' = nodes ++ ext /\ (NoDup nodes -> NoDup nodes') /\ (forall q, In q ext -> In q (map snd (sort_ixs (snd c))))) /\
      local_ok Q nodes' c local
  end.
Proof.
  intro HQ. pose proof (expand_spec Q (sg_a (fst c)) (sg_b (fst c)) (sort_ixs (snd c)) nodes 0 (sg_a (fst c)) (sg_b (fst c))
                (sg_sa (fst c)) (sg_sb (fst c)) None) as H.
  assert (H0 : forall u, segment (sg_a (fst c)) (sg_b (fst c)) u = segment (sg_a (fst c)) (sg_b (fst c)) (0 + u * (1 - 0))).
  { intro u. f_equal. ring. }
  specialize (H H0 HQ). destruct (expand _ _ _ _ _ _ _ _) as [[nodes' local]|e].
  2: { destruct H as [[H _]|H]; auto. exfalso; lra. }
  destruct H as (Hext & c0 & mid & cz & -> & J1 & J2 & J3 & J4 & J5 & J6 & J7 & J8). split; auto.
  split; [|split; [|split]]; auto.
  - exists c0, mid, cz. auto.
  - cbn [filter]. unfold has_node at 1. rewrite J3. rewrite filter_app. cbn [filter]. unfold has_node at 2. rewrite J6, app_nil_r.
    rewrite filter_id; auto. clear - J7. induction J7; constructor; auto. destruct H as (k & E & _). unfold has_node. now rewrite E.
  - cbn. rewrite app_length. cbn. rewrite (F2_length _ _ _ J7). lia.
Qed.

Lemma local_ok_mono Q nodes ext c local : local_ok Q nodes c local -> local_ok Q (nodes ++ ext) c local.
Proof.
  intros (H1 & H2 & H3 & H4). split; [|split; [|split]]; auto. clear - H2. induction H2; constructor; auto using cut_at_mono.
Qed.

Definition placed (Q : place) (curves : list (seg R * list (@ix R))) : Prop :=
  Forall (fun c => forall i, In i (sort_ixs (snd c)) -> Q i (segment (sg_a (fst c)) (sg_b (fst c)) (fst i))) curves.
Definition excused (curves : list (seg R * list (@ix R))) (e : exn) : Prop :=
  exists c, In c curves /\ excuse (sg_a (fst c)) (sg_b (fst c)) (sort_ixs (snd c)) e.
Lemma expand_all_spec (Q : place) : forall curves nodes, placed Q curves ->
  match expand_all nodes curves with
  | Raise e => excused curves e
  | Ok (nodes', locals) =>
      (exists ext, nodes' = nodes ++ ext /\ (NoDup nodes -> NoDup nodes') /\
         (forall q, In q ext -> In q (flat_map (fun c => map snd (sort_ixs (snd c))) curves))) /\
      Forall2 (local_ok Q nodes') curves locals
  end.
Proof.
  induction curves as [|[s ixs] curves IH]; intros nodes HQ; cbn [expand_all].
  - split; [|constructor]. exists []. rewrite app_nil_r. repeat split; auto.
  - inversion_clear HQ as [|? ? HQ1 HQ2]. pose proof (expand_local Q nodes (s, ixs) HQ1) as E. cbn [fst snd] in E.
    destruct (expand _ _ _ _ _ _ _ _) as [[nodes1 local]|e]; cbn [bind fst snd].
    2: { exists (s, ixs). split; [now left|exact E]. }
    destruct E as ((ext & -> & E1 & E2) & E3). specialize (IH (nodes ++ ext) HQ2).
    destruct (expand_all (nodes ++ ext) curves) as [[nodes2 locals]|e]; cbn [bind fst snd].
    2: { destruct IH as (c & I1 & I2). exists c. split; [now right|exact I2]. }
    destruct IH as ((ext' & -> & I1 & I2) & I3). split.
    + exists (ext ++ ext'). rewrite app_assoc. split; auto. split; auto.
      intros q Hq. cbn [flat_map]. apply in_or_app. apply in_app_or in Hq. destruct Hq; [left|right]; auto.
    + constructor; auto. now apply local_ok_mono.
Qed.

Lemma p_eqb_refl (p : pt R) : p_eqb p p = true.
Proof. unfold p_eqb. apply andb_true_iff. split; apply Reqb_true; reflexivity. Qed.

Lemma merge_all_expand : forall curves nodes cpbs p q, open2 p q cpbs -> chainedp q curves ->
  match expand_all nodes curves with
  | Raise e => snd (merge_all nodes cpbs curves) = Raise e
  | Ok (nodes', locals) => merge_all nodes cpbs curves = (fold_left merge2 locals cpbs, Ok nodes')
  end.
Proof.
  induction curves as [|[s ixs] curves IH]; intros nodes cpbs p q Ho Hc; cbn [expand_all merge_all].
  - reflexivity.
  - pose proof (expand_local (fun _ _ => True) nodes (s, ixs) (fun _ _ => I)) as E. cbn [fst snd] in E.
    change (nofZ 0) with 0.
    destruct (expand nodes 0 (sg_a s) (sg_b s) (sg_sa s) (sg_sb s) None (sort_ixs ixs)) as [[nodes1 local]|e]; cbn [bind fst snd]; auto.
    destruct E as (_ & E). cbn [chainedp] in Hc. destruct Hc as [Hc1 Hc2].
    destruct E as (Ol & _). rewrite Hc1 in Ol.
    assert (M : open2 p (pt_b (s, ixs)) (merge2 cpbs local)) by (eapply merge2_open; eauto).
    specialize (IH nodes1 (merge2 cpbs local) _ _ M Hc2).
    assert (QQ : match rev cpbs with
             | [] => merge_all nodes1 (cpbs ++ local) curves
             | lst :: _ => match local with
                  | [] => merge_all nodes1 (cpbs ++ local) curves
                  | first :: rest =>
                      if negb (p_eqb (cc (cb_cp lst)) (cc (cb_cp first))) then (cpbs, Raise AssertionError)
                      else merge_all nodes1 (removelast cpbs ++ on_cp (set_dr (cdr (cb_cp first))) lst :: rest) curves
                  end end = merge_all nodes1 (merge2 cpbs local) curves).
    { destruct Ho as (f & m & z & -> & F1 & F2 & F3 & F4), Ol as (f' & m' & z' & -> & G1 & G2 & G3 & G4).
      unfold merge2. rewrite rev_mid'. rewrite F4, G3, p_eqb_refl. reflexivity. }
    rewrite QQ. destruct (expand_all nodes1 curves) as [[nodes2 locals]|e]; cbn [bind fst snd]; auto.
Qed.

(* what the chained pieces are, all together *)
Record woven (Q : place) (nodes : list (R * R)) (p q : pt R) (ixs : list (@ix R)) (segs : list (cpoint R * cpoint R)) (c : list (cpbool R)) : Prop := {
  wo_open : open2 p q c;
  wo_nodes : Forall2 (cut_at Q nodes) (filter has_node c) ixs;
  wo_segs : Forall2 same_seg (csegs c) segs }.

Lemma fold_merge (Q : place) nodes : forall curves locals p q ixs segs c,
  woven Q nodes p q ixs segs c -> chainedp q curves -> Forall2 (local_ok Q nodes) curves locals ->
  woven Q nodes p (end_of q curves) (ixs ++ flat_map (fun c => sort_ixs (snd c)) curves) (segs ++ concat (map csegs locals))
    (fold_left merge2 locals c).
Proof.
  induction curves as [|cv curves IH]; intros locals p q ixs segs c W Hc HF; inversion HF; subst; cbn [flat_map map concat fold_left end_of].
  - rewrite !app_nil_r. exact W.
  - destruct Hc as [Hc1 Hc2]. destruct W as [W1 W2 W3]. destruct H1 as (L1 & L2 & L3 & L4). rewrite Hc1 in L1.
    rewrite !app_assoc. apply IH; auto. constructor.
    + eapply merge2_open; eauto.
    + rewrite (merge2_nodes _ _ _ _ _ W1 L1). now apply Forall2_app.
    + eapply same_trans; [eapply merge2_segs; eauto|]. apply Forall2_app; auto. apply same_refl.
Qed.

Lemma merge_all_spec (Q : place) curves : placed Q curves -> curves <> [] -> (exists p, chainedp p curves) ->
  match merge_all [] [] curves with
  | (_, Raise e) => excused curves e
  | (cpbs, Ok nodes) =>
      NoDup nodes /\ (forall q, In q nodes -> In q (flat_map (fun c => map snd (sort_ixs (snd c))) curves)) /\
      exists locals p, chainedp p curves /\ Forall2 (local_ok Q nodes) curves locals /\
        woven Q nodes p (end_of p curves) (flat_map (fun c => sort_ixs (snd c)) curves) (concat (map csegs locals)) cpbs
  end.
Proof.
  intros HQ N [p Hc]. destruct curves as [|[s ixs] curves]; [congruence|]. clear N.
  pose proof (expand_all_spec Q ((s, ixs) :: curves) [] HQ) as EA. cbn [expand_all] in EA. cbn [merge_all rev].
  change (nofZ 0) with 0.
  pose proof (expand_local (fun _ _ => True) [] (s, ixs) (fun _ _ => I)) as EL. cbn [fst snd] in EL.
  destruct (expand [] 0 (sg_a s) (sg_b s) (sg_sa s) (sg_sb s) None (sort_ixs ixs)) as [[nodes1 local]|e]; cbn [bind fst snd] in *; auto.
  destruct EL as (_ & EL). pose proof Hc as Hc0. destruct Hc as [Hc1 Hc2].
  pose proof (proj1 EL) as Ol. rewrite Hc1 in Ol.
  assert (X : (let '(cpbs, r) := merge_all nodes1 ([] ++ local) curves in
               match r with Ok nodes => match expand_all nodes1 curves with Ok (n', ls) => n' = nodes /\ cpbs = fold_left merge2 ls local | _ => False end
                          | Raise e => expand_all nodes1 curves = Raise e end)).
  { pose proof (merge_all_expand curves nodes1 local _ _ Ol Hc2) as M. cbn [app].
    destruct (expand_all nodes1 curves) as [[n' ls]|e].
    - rewrite M. auto.
    - destruct (merge_all nodes1 local curves) as [cp r]. cbn in M. subst r. reflexivity. }
  destruct (merge_all nodes1 ([] ++ local) curves) as [cpbs [nodes|e]].
  - destruct (expand_all nodes1 curves) as [[n' ls]|e]; [|contradiction]. destruct X as [-> ->]. cbn [bind fst snd] in EA.
    destruct EA as ((ext & Ex & E1 & E2) & E3). cbn [app] in Ex. subst ext.
    split; [apply E1; constructor|]. split; [exact E2|].
    exists (local :: ls), p. split; [exact Hc0|]. split; [exact E3|].
    inversion E3 as [|x y xs ys LO LOs]; subst. cbn [map concat flat_map end_of].
    apply fold_merge; auto. destruct LO as (L1 & L2 & L3 & L4). constructor; auto. apply same_refl.
  - rewrite X in EA. cbn [bind] in EA. exact EA.
Qed.
