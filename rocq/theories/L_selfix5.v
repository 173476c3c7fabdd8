(* Lemmas about the solver's answers, the closed list of control points and its arcs. *)
Require Import Verif.Base Verif.NumR Verif.L_real.
From Coq Require Import List Lia PeanoNat Permutation Bool Reals Lra Sorting.Sorted.
Require Import Verif.M_vector Verif.M_bezier Verif.M_group Verif.M_dump Verif.M_selfix.
Require Import Verif.S_bezier Verif.L_bezier Verif.P_bezier Verif.L_dump2 Verif.S_selfix Verif.L_selfix Verif.L_selfix4.
Import ListNotations.
Open Scope R_scope.

(* ---------------- closing up ---------------- *)
Lemma close_up_spec (Q : place) nodes p ixs segs cpbs : woven Q nodes p p ixs segs cpbs ->
  exists f m, close_up cpbs = f :: m /\ cb_node f = None /\ cc (cb_cp f) = p /\
    Forall2 (cut_at Q nodes) (filter has_node (close_up cpbs)) ixs /\
    Forall2 same_seg (path_segments (map (@cb_cp R) (close_up cpbs)) true) segs.
Proof.
  intros [(f & m & z & -> & F1 & F2 & F3 & F4) W2 W3].
  unfold close_up. rewrite rev_mid'. set (f' := on_cp (set_dl (cdl (cb_cp z))) f). rewrite removelast_mid'.
  exists f', m. split; auto. split; [exact F1|]. split; [exact F3|].
  assert (N1 : has_node f' = false) by (unfold has_node, f'; cbn; now rewrite F1).
  assert (N2 : has_node f = false) by (unfold has_node; now rewrite F1).
  assert (N3 : has_node z = false) by (unfold has_node; now rewrite F2).
  cbn [filter] in *. rewrite filter_app in W2. cbn [filter] in W2. rewrite N1. rewrite N2, N3, app_nil_r in W2. split; auto.
  eapply same_trans; [|exact W3]. unfold csegs. cbn [map path_segments app].
  set (l := map (@cb_cp R) m). replace (map (@cb_cp R) (m ++ [z])) with (l ++ [cb_cp z]) by (unfold l; now rewrite map_app).
  apply same_trans with (consecutive (cb_cp f :: l ++ [cb_cp f'])).
  - apply same_first; reflexivity.
  - apply (same_last (cb_cp f :: l)); [cbn; congruence|reflexivity].
Qed.

(* ---------------- rotation ---------------- *)
Lemma first_node_ix_spec : forall l, 
  match first_node_ix l with
  | Some k => exists pre c n post, l = pre ++ c :: post /\ length pre = k /\ cb_node c = Some n /\ filter has_node pre = []
  | None => filter has_node l = []
  end.
Proof.
  induction l as [|c l IH]; [reflexivity|]. cbn [first_node_ix]. destruct (cb_node c) as [n|] eqn:E.
  - exists [], c, n, l. auto.
  - destruct (first_node_ix l) as [k|].
    + destruct IH as (pre & c' & n & post & -> & <- & E' & Q). exists (c :: pre), c', n, post.
      repeat split; auto. cbn. unfold has_node at 1. now rewrite E.
    + cbn. unfold has_node at 1. now rewrite E.
Qed.
Lemma rotate_first_spec l : filter has_node l <> [] ->
  exists pre c n post, l = pre ++ c :: post /\ rotate_first l = Ok (c :: post ++ pre) /\ cb_node c = Some n /\ filter has_node pre = [].
Proof.
  intro N. pose proof (first_node_ix_spec l) as H. unfold rotate_first. destruct (first_node_ix l) as [k|].
  - destruct H as (pre & c & n & post & -> & <- & E & Q). exists pre, c, n, post. repeat split; auto. f_equal.
    unfold rotl. clear. induction pre as [|x pre IH]; cbn; [now rewrite app_nil_r|].
    replace (skipn (length pre) (pre ++ c :: post)) with (c :: post).
    + replace (firstn (length pre) (pre ++ c :: post)) with pre; auto.
      clear. induction pre; cbn; congruence.
    + clear. induction pre; auto.
  - congruence.
Qed.
Lemma path_segments_rotate {A} (pre : list A) c post :
  path_segments (c :: post ++ pre) true = rotl (length pre) (path_segments (pre ++ c :: post) true).
Proof.
  assert (RL : forall (x y : list (A * A)), rotl (length x) (x ++ y) = y ++ x).
  { intros x y. unfold rotl. rewrite skipn_app, firstn_app, skipn_all, firstn_all, Nat.sub_diag. cbn. now rewrite app_nil_r. }
  destruct pre as [|x pre].
  - rewrite app_nil_r. cbn [length app]. unfold rotl. cbn. now rewrite app_nil_r.
  - unfold path_segments. cbn [app]. 
    replace (consecutive (c :: (post ++ x :: pre) ++ [c])) with (consecutive ((c :: post) ++ [x]) ++ consecutive (x :: pre ++ [c])).
    2: { rewrite <- consecutive_join. f_equal. cbn. now rewrite <- app_assoc. }
    replace (consecutive (x :: (pre ++ c :: post) ++ [x])) with (consecutive ((x :: pre) ++ [c]) ++ consecutive (c :: post ++ [x])).
    2: { rewrite <- consecutive_join. f_equal. cbn. now rewrite <- app_assoc. }
    replace (length (x :: pre)) with (length (consecutive ((x :: pre) ++ [c]))).
    + now rewrite RL.
    + rewrite consecutive_length, app_length. cbn. lia.
Qed.

(* ---------------- arcs ---------------- *)
Definition acps (a : nat * list (cpoint R) * nat) := snd (fst a).
Lemma arcs_partition : forall l cur from, cur <> [] -> (l = [] -> length cur = 1%nat) -> (forall d, has_node (last l d) = true \/ l = []) ->
  concat (map consecutive (map acps (arcs cur from l))) = consecutive (cur ++ map (@cb_cp R) l).
Proof.
  induction l as [|c l IH]; intros cur from N N1 HL; cbn [arcs].
  - cbn. rewrite app_nil_r. destruct cur as [|x [|y cur]]; auto. specialize (N1 eq_refl). cbn in N1. lia.
  - destruct (cb_node c) as [n|] eqn:E.
    + cbn [map concat acps fst snd]. rewrite IH; try discriminate; auto.
      * rewrite (consecutive_join cur (cb_cp c) (map (@cb_cp R) l)). reflexivity.
      * intro d. destruct l; auto. left. destruct (HL d) as [Q|Q]; [exact Q|discriminate].
    + rewrite IH.
      * rewrite <- app_assoc. reflexivity.
      * destruct cur; discriminate.
      * intros ->. destruct (HL c) as [Q|Q]; [|discriminate]. cbn in Q. unfold has_node in Q. rewrite E in Q. discriminate.
      * intro d. destruct l; auto. left. destruct (HL d) as [Q|Q]; [exact Q|discriminate].
Qed.

Section ArcEnds.
  Variable P : cpoint R -> nat -> Prop.
  Lemma arcs_ends : forall l cur from x m, cur = x :: m -> P x from ->
    (forall c n, In c l -> cb_node c = Some n -> P (cb_cp c) n) ->
    Forall (fun a => exists p mid z, acps a = p :: mid ++ [z] /\ P p (fst (fst a)) /\ P z (snd a)) (arcs cur from l).
  Proof.
    induction l as [|c l IH]; intros cur from x m -> Hx Hl; cbn [arcs]; [constructor|].
    destruct (cb_node c) as [n|] eqn:E.
    - constructor.
      + exists x, m, (cb_cp c). split; [reflexivity|]. split; auto. apply Hl; auto. now left.
      + apply (IH [cb_cp c] n (cb_cp c) []); auto; [apply Hl; auto; now left|]. intros. apply Hl; auto. now right.
    - apply (IH ((x :: m) ++ [cb_cp c]) from x (m ++ [cb_cp c])); auto. intros. apply Hl; auto. now right.
  Qed.
End ArcEnds.
Definition node_num (c : cpbool R) : nat := match cb_node c with Some n => n | None => 0 end.
Definition word (l : list (cpbool R)) : list nat := map node_num (filter has_node l).
Lemma word_cons_node c l n : cb_node c = Some n -> word (c :: l) = n :: word l.
Proof. intro E. unfold word. cbn. unfold has_node at 1. rewrite E. cbn. unfold node_num. now rewrite E. Qed.
Lemma word_cons_none c l : cb_node c = None -> word (c :: l) = word l.
Proof. intro E. unfold word. cbn. unfold has_node at 1. now rewrite E. Qed.
Lemma word_app a b : word (a ++ b) = word a ++ word b.
Proof. unfold word. now rewrite filter_app, map_app. Qed.
Lemma arcs_rights : forall l cur from, map snd (arcs cur from l) = word l.
Proof.
  induction l as [|c l IH]; intros cur from; cbn [arcs]; [reflexivity|]. destruct (cb_node c) as [n|] eqn:E.
  - rewrite (word_cons_node _ _ _ E). cbn. now rewrite IH.
  - rewrite (word_cons_none _ _ E). apply IH.
Qed.
Lemma arcs_lefts : forall l cur from, map (fun a => fst (fst a)) (arcs cur from l) = removelast (from :: word l).
Proof.
  induction l as [|c l IH]; intros cur from; cbn [arcs]; [reflexivity|]. destruct (cb_node c) as [n|] eqn:E.
  - rewrite (word_cons_node _ _ _ E). cbn [map fst snd]. rewrite IH. reflexivity.
  - rewrite (word_cons_none _ _ E). apply IH.
Qed.

(* ---------------- the segments of the curve ---------------- *)
Section Asked.
  Variable solve : cpoint R -> cpoint R -> cpoint R -> cpoint R -> list (pt R * R * R).
  Definition ends_of (s : seg R) : cpoint R * cpoint R := (sg_a s, sg_b s).
  
  Lemma iter_rotate2_path {A} (l : list A) : iter_rotate2 l = path_segments l true.
  Proof.
    destruct l as [|a l]; auto. unfold iter_rotate2, rotl, path_segments. cbn [skipn firstn].
    exact (combine_tl (a :: l) a).
  Qed.
  Lemma path_segments_map {A B} (g : A -> B) l c : path_segments (map g l) c = map (fun p => (g (fst p), g (snd p))) (path_segments l c).
  Proof.
    destruct l as [|a l]; auto. cbn [map path_segments]. rewrite <- consecutive_map. f_equal. destruct c; auto.
    cbn. now rewrite map_app.
  Qed.
  Lemma map_snd_index {A} (l : list A) : forall s, map snd (combine (seq s (length l)) l) = l.
  Proof. induction l; intro s; cbn; auto. now rewrite IHl. Qed.

  Lemma all_curves_pieces orig : map ends_of (all_curves solve orig) = pieces solve orig.
  Proof.
    unfold all_curves, pieces. rewrite iter_rotate2_path.
    rewrite <- (map_snd_index orig 0) at 3. rewrite path_segments_map.
    induction (path_segments (combine (seq 0 (length orig)) orig) true) as [|[[i a] [j b]] l IH]; auto.
    cbn [flat_map map fst snd]. rewrite map_app, IH. f_equal.
    unfold bez_split_half. change (ndiv (nofZ 1) (nofZ 2)) with (1 / 2).
    destruct (bez_split a b (1 / 2)) as [[x m] y]. destruct (solve x m m y); reflexivity.
  Qed.

  (* answers, with the numbers of the segments starting from s *)
  Lemma ixs_of_app (a b : list (nat * nat * list (pt R * R * R))) k : ixs_of (a ++ b) k = ixs_of a k ++ ixs_of b k.
  Proof. unfold ixs_of. apply flat_map_app. Qed.
  Definition answers_from (s : nat) (segs : list (seg R)) :=
    map (fun ab : nat * seg R * (nat * seg R) => let '((i, a), (j, b)) := ab in (i, j, solve (sg_a a) (sg_b a) (sg_a b) (sg_b b)))
      (pairs (combine (seq s (length segs)) segs)).

  Lemma answers_from_cons s a segs : answers_from s (a :: segs) =
    map (fun jb => (s, fst jb, ask solve (ends_of a) (ends_of (snd jb)))) (combine (seq (S s) (length segs)) segs)
    ++ answers_from (S s) segs.
  Proof.
    unfold answers_from. cbn [length seq combine pairs]. rewrite map_app, map_map. f_equal.
    apply map_ext. intros [j b]. reflexivity.
  Qed.
  Lemma crossings_answers : forall segs s, concat (map snd (answers_from s segs)) = crossings solve (map ends_of segs).
  Proof.
    induction segs as [|a segs IH]; intro s; [reflexivity|]. rewrite answers_from_cons, map_app, concat_app, IH.
    cbn [map crossings]. f_equal. rewrite map_map. cbn [snd].
    generalize (S s). clear. induction segs as [|b segs IH]; intro s; cbn; auto. now rewrite IH.
  Qed.
  Lemma found_crossings segs : found (answers solve segs) = true <-> crossings solve (map ends_of segs) <> [].
  Proof.
    rewrite <- (crossings_answers segs 0). change (answers solve segs) with (answers_from 0 segs).
    unfold found. induction (answers_from 0 segs) as [|[[i j] l] ans IH]; cbn [existsb map concat snd].
    - split; [discriminate|congruence].
    - destruct l; cbn; [exact IH|]. split; [discriminate|reflexivity].
  Qed.

  Lemma ixs_of_below : forall segs s k, (k < s)%nat -> ixs_of (answers_from s segs) k = [].
  Proof.
    induction segs as [|a segs IH]; intros s k L; [reflexivity|]. rewrite answers_from_cons, ixs_of_app, IH by lia.
    rewrite app_nil_r. assert (G : forall q, (k < q)%nat -> ixs_of (map (fun jb => (s, fst jb, ask solve (ends_of a) (ends_of (snd jb)))) (combine (seq q (length segs)) segs)) k = []).
    { clear IH. induction segs as [|b segs IH]; intros q Lq; [reflexivity|]. cbn [length seq combine map fst snd].
      unfold ixs_of. cbn [flat_map]. 
      replace (Nat.eqb s k) with false by (symmetry; apply Nat.eqb_neq; lia).
      replace (Nat.eqb q k) with false by (symmetry; apply Nat.eqb_neq; lia). cbn [app]. apply IH. lia. }
    apply G. lia.
  Qed.
  Lemma map_first l : map (fun x : pt R * R * R => let '(p, ta, _) := x in (ta, p_xy p)) l = map on_first l.
  Proof. apply map_ext. intros [[p ta] tb]. reflexivity. Qed.
  Lemma map_second l : map (fun x : pt R * R * R => let '(p, _, tb) := x in (tb, p_xy p)) l = map on_second l.
  Proof. apply map_ext. intros [[p ta] tb]. reflexivity. Qed.

  Lemma ixs_of_row a s segs : forall q, (s < q)%nat ->
    ixs_of (map (fun jb => (s, fst jb, ask solve (ends_of a) (ends_of (snd jb)))) (combine (seq q (length segs)) segs)) s
    = flat_map (fun b => map on_first (ask solve (ends_of a) b)) (map ends_of segs).
  Proof.
    induction segs as [|b segs IH]; intros q L; [reflexivity|]. cbn [length seq combine map fst snd].
    unfold ixs_of. cbn [flat_map]. rewrite Nat.eqb_refl.
    replace (Nat.eqb q s) with false by (symmetry; apply Nat.eqb_neq; lia). rewrite app_nil_r, map_first.
    f_equal. apply IH. lia.
  Qed.
  Lemma ixs_of_column a s : forall segs q k, (s < q)%nat ->
    ixs_of (map (fun jb => (s, fst jb, ask solve (ends_of a) (ends_of (snd jb)))) (combine (seq q (length segs)) segs)) (q + k)%nat
    = match nth_error (map ends_of segs) k with Some c => map on_second (ask solve (ends_of a) c) | None => [] end.
  Proof.
    induction segs as [|b segs IH]; intros q k L; [destruct k; reflexivity|]. cbn [length seq combine map fst snd].
    unfold ixs_of. cbn [flat_map].
    replace (Nat.eqb s (q + k)) with false by (symmetry; apply Nat.eqb_neq; lia). cbn [app].
    destruct k as [|k].
    - rewrite Nat.add_0_r, Nat.eqb_refl, map_second. cbn [nth_error].
      assert (G : forall r, (q < r)%nat -> ixs_of (map (fun jb => (s, fst jb, ask solve (ends_of a) (ends_of (snd jb)))) (combine (seq r (length segs)) segs)) q = []).
      { clear - L. induction segs as [|b segs IH]; intros r Lr; [reflexivity|]. cbn [length seq combine map fst snd].
        unfold ixs_of. cbn [flat_map].
        replace (Nat.eqb s q) with false by (symmetry; apply Nat.eqb_neq; lia).
        replace (Nat.eqb r q) with false by (symmetry; apply Nat.eqb_neq; lia). cbn [app]. apply IH. lia. }
      specialize (G (S q) (Nat.lt_succ_diag_r q)). unfold ixs_of in G. rewrite G. apply app_nil_r.
    - replace (Nat.eqb q (q + S k)) with false by (symmetry; apply Nat.eqb_neq; lia). cbn [app nth_error].
      specialize (IH (S q) k). replace (q + S k)%nat with (S q + k)%nat by lia. apply IH. lia.
  Qed.
  Lemma ixs_of_visits : forall segs s k, ixs_of (answers_from s segs) (s + k)%nat = visits solve (map ends_of segs) k.
  Proof.
    induction segs as [|a segs IH]; intros s k; [destruct k; reflexivity|]. rewrite answers_from_cons, ixs_of_app.
    destruct k as [|k].
    - rewrite Nat.add_0_r, ixs_of_below by lia. rewrite app_nil_r, ixs_of_row by lia.
      unfold visits. cbn [nth_error firstn flat_map app map skipn]. reflexivity.
    - replace (s + S k)%nat with (S s + k)%nat by lia. rewrite IH, ixs_of_column by lia.
      unfold visits. cbn [map nth_error firstn skipn flat_map].
      destruct (nth_error (map ends_of segs) k); auto. now rewrite app_assoc.
  Qed.

  (* every answer counts for two segments *)
  Definition both (x : pt R * R * R) : list (R * (R * R)) := [on_first x; on_second x].
  Lemma both_perm l : Permutation (map on_first l ++ map on_second l) (flat_map both l).
  Proof.
    induction l as [|x l IH]; cbn; auto. constructor. rewrite <- Permutation_middle. now constructor.
  Qed.
  Lemma flat_map_app_perm {A B} (f g : A -> list B) l : Permutation (flat_map (fun a => f a ++ g a) l) (flat_map f l ++ flat_map g l).
  Proof.
    induction l as [|a l IH]; cbn; auto. rewrite IH. rewrite <- !app_assoc. apply Permutation_app_head.
    rewrite !app_assoc. apply Permutation_app_tail. apply Permutation_app_comm.
  Qed.
  Lemma flat_map_flat_map {A B C} (f : A -> list B) (g : B -> list C) l : flat_map g (flat_map f l) = flat_map (fun a => flat_map g (f a)) l.
  Proof. induction l; cbn; auto. now rewrite flat_map_app, IHl. Qed.
  Lemma flat_map_ext_in' {A B} (f g : A -> list B) l : (forall a, In a l -> f a = g a) -> flat_map f l = flat_map g l.
  Proof. induction l; cbn; intros H; auto. rewrite H, IHl; auto. Qed.
  Lemma flat_map_nth {A B} (g : A -> list B) : forall (ps : list A),
    flat_map (fun k => match nth_error ps k with Some c => g c | None => [] end) (seq 0 (length ps)) = flat_map g ps.
  Proof.
    induction ps as [|a ps IH]; auto. cbn [length seq flat_map nth_error]. f_equal.
    rewrite <- seq_shift. rewrite flat_map_concat_map, map_map, <- flat_map_concat_map. exact IH.
  Qed.
  Lemma flat_map_perm_ext {A B} (f g : A -> list B) l : (forall a, Permutation (f a) (g a)) -> Permutation (flat_map f l) (flat_map g l).
  Proof. intro H. induction l; cbn; auto. now rewrite H, IHl. Qed.

  Lemma visits_perm : forall ps, Permutation (flat_map (visits solve ps) (seq 0 (length ps))) (flat_map both (crossings solve ps)).
  Proof.
    induction ps as [|a ps IH]; [constructor|].
    cbn [length seq flat_map crossings]. rewrite <- seq_shift.
    rewrite (flat_map_concat_map _ (map S _)), map_map, <- flat_map_concat_map.
    assert (E : flat_map (fun k => visits solve (a :: ps) (S k)) (seq 0 (length ps))
              = flat_map (fun k => match nth_error ps k with Some c => map on_second (ask solve a c) | None => [] end ++ visits solve ps k) (seq 0 (length ps))).
    { apply flat_map_ext_in'. intros k _. unfold visits. cbn [nth_error firstn skipn flat_map].
      destruct (nth_error ps k); auto. now rewrite app_assoc. }
    rewrite E. rewrite flat_map_app_perm, IH. rewrite (flat_map_nth (fun c => map on_second (ask solve a c))).
    rewrite flat_map_app. rewrite app_assoc. apply Permutation_app_tail.
    unfold visits. cbn [nth_error firstn skipn flat_map app].
    rewrite flat_map_flat_map. rewrite <- flat_map_app_perm. apply flat_map_perm_ext. intro b. apply both_perm.
  Qed.
End Asked.
