(* C58: MorphMultiStep. *)
From Coq Require Import String Reals List Sorted Permutation Lia Lra Bool.
Require Import Verif.Base Verif.NumR Verif.L_real Verif.M_vector Verif.M_bbox Verif.M_transform Verif.M_bezier Verif.M_colors Verif.M_elems Verif.M_group.
Require Import Verif.L_vector Verif.L_bbox Verif.L_bboxR Verif.S_bezier Verif.L_bezier Verif.S_elems Verif.L_elems Verif.P_elems Verif.P_addone Verif.S_group Verif.L_group Verif.P_greplace Verif.P_brotate.
Require Import Verif.M_anim Verif.S_anim Verif.P_time Verif.P_morph.
Import ListNotations.
Local Open Scope string_scope.
Local Open Scope list_scope.
Local Open Scope R_scope.

(* ---------------- sorted times ---------------- *)

Lemma strongly_app {A} (r : A -> A -> Prop) X a Y : StronglySorted r (X ++ a :: Y) -> Forall (fun z => r z a) X /\ Forall (r a) Y.
Proof.
  induction X as [|x X IH]; cbn; intros H; apply StronglySorted_inv in H as [H F]; [split; auto|].
  destruct (IH H) as [I J]. split; [|exact J]. constructor; auto. rewrite Forall_forall in F. apply F, in_or_app. right. now left.
Qed.
Lemma sorted_le_app X a Y : Sorted Rle (X ++ a :: Y) -> Forall (fun z => z <= a) X /\ Forall (Rle a) Y.
Proof. intros H. apply Sorted_StronglySorted in H; [now apply strongly_app|]. intros u v w. apply Rle_trans. Qed.
Lemma sorted_lt_app X a Y : Sorted Rlt (X ++ a :: Y) -> Forall (fun z => z < a) X /\ Forall (Rlt a) Y.
Proof. intros H. apply Sorted_StronglySorted in H; [now apply strongly_app|]. intros u v w. apply Rlt_trans. Qed.
Lemma sorted_nth (l : list R) : Sorted Rle l -> forall i j, (i <= j < List.length l)%nat -> nth i l 0 <= nth j l 0.
Proof.
  intros S i j [L1 L2]. destruct (Nat.eq_dec i j) as [->|N]; [apply Rle_refl|].
  destruct (nth_split l 0 (n := i)) as (X & Y & E & Len); [lia|]. rewrite E in S. apply sorted_le_app in S as [_ F].
  rewrite E at 2. rewrite Forall_forall in F. rewrite app_nth2 by lia.
  destruct (j - List.length X)%nat as [|k] eqn:K; [lia|]. cbn. apply F. apply nth_In.
  apply (f_equal (@List.length R)) in E. rewrite app_length in E. cbn in E. lia.
Qed.
Lemma bisect_go_spec (a : list R) (x : R) : (forall i j, (i <= j < List.length a)%nat -> nth i a 0 <= nth j a 0) ->
  forall fuel lo hi, (hi - lo < fuel)%nat -> (lo <= hi <= List.length a)%nat ->
  (forall j, (j < lo)%nat -> nth j a 0 <= x) -> (forall j, (hi <= j < List.length a)%nat -> x < nth j a 0) ->
  let r := bisect_go fuel a x lo hi in
  (lo <= r <= hi)%nat /\ (forall j, (j < r)%nat -> nth j a 0 <= x) /\ (forall j, (r <= j < List.length a)%nat -> x < nth j a 0).
Proof.
  intros Mono. induction fuel as [|fuel IH]; intros lo hi F B L H; [lia|]. cbn [bisect_go].
  destruct (Nat.ltb_spec lo hi) as [LH|LH].
  - set (mid := ((lo + hi) / 2)%nat).
    assert (Mid : (lo <= mid < hi)%nat).
    { unfold mid. split; [apply Nat.div_le_lower_bound; lia|apply Nat.div_lt_upper_bound; lia]. }
    clearbody mid. change (nltb x (nth mid a (nofZ 0))) with (Rltb x (nth mid a 0)). destruct (Rltb x (nth mid a 0)) eqn:E; autorewrite with rbool in E.
    + destruct (IH lo mid) as (I1 & I2 & I3); [lia|lia|exact L| |].
      * intros j J. apply Rlt_le_trans with (nth mid a 0); [exact E|]. apply Mono. lia.
      * split; [lia|]. split; assumption.
    + destruct (IH (S mid) hi) as (I1 & I2 & I3); [lia|lia| |exact H|].
      * intros j J. apply Rle_trans with (nth mid a 0); [apply Mono; lia|exact E].
      * split; [lia|]. split; assumption.
  - split; [lia|]. split; [exact L|]. intros j J. apply H. lia.
Qed.
(* bisect_right: how many times are not after x *)
Lemma bisect_spec (a : list R) (x : R) : Sorted Rle a -> let r := bisect_right a x in
  (r <= List.length a)%nat /\ (forall j, (j < r)%nat -> nth j a 0 <= x) /\ (forall j, (r <= j < List.length a)%nat -> x < nth j a 0).
Proof.
  intros S r. destruct (bisect_go_spec a x (sorted_nth a S) (Datatypes.S (List.length a)) 0 (List.length a)) as (A & B & C);
    [lia|lia|intros; lia|intros; lia|]. fold (bisect_right a x) in *. fold r in A, B, C. split; [lia|]. auto.
Qed.

(* ---------------- the constructor ---------------- *)

Lemma rotl_length {A} k (l : list A) : List.length (rotl k l) = List.length l.
Proof. unfold rotl. rewrite app_length, Nat.add_comm, <- app_length, firstn_skipn. reflexivity. Qed.
Lemma rot_segments {A} (X Y : list A) : Permutation (path_segments (X ++ Y) true) (path_segments (Y ++ X) true).
Proof.
  destruct X as [|x X]; [rewrite app_nil_r; reflexivity|]. destruct Y as [|y Y]; [rewrite app_nil_r; reflexivity|].
  unfold path_segments. cbn [app]. rewrite <- !app_assoc. cbn [app].
  change (x :: X ++ y :: Y ++ [x]) with ((x :: X) ++ y :: (Y ++ [x])). change (y :: Y ++ x :: X ++ [y]) with ((y :: Y) ++ x :: (X ++ [y])).
  rewrite (consecutive_glue (x :: X)), (consecutive_glue (y :: Y)). apply Permutation_app_comm.
Qed.
Lemma rot_path k (l : list (cpoint R)) p : on_path (rotl k l) true p <-> on_path l true p.
Proof.
  unfold on_path, rotl. pose proof (rot_segments (skipn k l) (firstn k l)) as H. rewrite firstn_skipn in H.
  split; intros (s & e & t & I & Q); exists s, e, t; (split; [|exact Q]).
  - eapply Permutation_in; eauto.
  - eapply Permutation_in; [apply Permutation_sym|]; eauto.
Qed.
Lemma nearest_spec : forall (l : list R) idx best, let r := nearest l idx best in
  fst r <= fst best /\ (forall d, In d l -> fst r <= d) /\ (r = best \/ (idx <= snd r)%nat /\ nth_error l (snd r - idx) = Some (fst r)).
Proof.
  induction l as [|d l IH]; intros idx best; cbn [nearest].
  - split; [apply Rle_refl|]. split; [easy|]. now left.
  - change (nltb d (fst best)) with (Rltb d (fst best)). destruct (Rltb d (fst best)) eqn:E; autorewrite with rbool in E.
    + destruct (IH (S idx) (d, idx)) as (A & B & C). cbn [fst] in A. split; [lra|]. split.
      * intros x [<-|I]; auto.
      * right. destruct C as [->|[C1 C2]]; [cbn [fst snd]; rewrite Nat.sub_diag; split; auto|].
        split; [lia|]. replace (snd _ - idx)%nat with (S (snd (nearest l (S idx) (d, idx)) - S idx)) by lia. exact C2.
    + destruct (IH (S idx) best) as (A & B & C). split; [exact A|]. split.
      * intros x [<-|I]; [lra|auto].
      * destruct C as [C|[C1 C2]]; [now left|]. right.
        split; [lia|]. replace (snd _ - idx)%nat with (S (snd (nearest l (S idx) best) - S idx)) by lia. exact C2.
Qed.

(* Forced: the curve starts with a control point nearest to the lower left corner of its box. *)
Theorem C58_first : forall (b : ebase R) (cps cps' : list (cpoint R)), rotate_cps b cps = Ok cps' ->
  exists xl yl xh yh first rest, leaf_bbox b (SCurve cps) = Ok (BB xl yl xh yh) /\ cps' = first :: rest /\
    Permutation cps' cps /\
    forall c, In c cps -> v_length (p_sub (P xl yl) (cc first)) <= v_length (p_sub (P xl yl) (cc c)).
Proof.
  intros b cps cps' H. unfold rotate_cps in H. destruct (leaf_bbox b _) as [[|xl yl xh yh]|]; cbn [bind bbox_pll] in H; try discriminate.
  destruct cps as [|c cps]; [discriminate|]. cbn [map] in H. set (f := fun cp : cpoint R => v_length (p_sub (P xl yl) (cc cp))) in *.
  change (v_length (p_sub (P xl yl) (cc c))) with (f c) in H. apply Ok_inj in H.
  destruct (nearest_spec (map f cps) 1 (f c, 0%nat)) as (A & B & C). cbn [fst snd] in A.
  set (r := nearest (map f cps) 1 (f c, 0%nat)) in *. clearbody r. subst cps'.
  assert (Nth : exists first, nth_error (c :: cps) (snd r) = Some first /\ f first = fst r).
  { destruct C as [->|[C1 C2]].
    - exists c. auto.
    - apply map_nth_error_rev || idtac. rewrite nth_error_map in C2. destruct (nth_error cps (snd r - 1)) as [z|] eqn:Z; [|discriminate].
      exists z. destruct (snd r) as [|k]; [lia|]. cbn in *. rewrite Nat.sub_0_r in Z. injection C2 as C2. auto. }
  destruct Nth as (first & Nth & Ff). apply nth_error_split in Nth as (X & Y & E & Len).
  exists xl, yl, xh, yh, first, (Y ++ X). split; [reflexivity|]. rewrite E. unfold rotl. rewrite <- Len.
  rewrite skipn_app, skipn_all, Nat.sub_diag, firstn_app, firstn_all, Nat.sub_diag. cbn [skipn firstn app]. rewrite app_nil_r.
  split; [reflexivity|]. split; [rewrite (Permutation_app_comm X (first :: Y)); reflexivity|].
  intros z I. change (f first <= f z). rewrite Ff. rewrite <- E in I. destruct I as [<-|I]; [exact A|]. apply B. now apply in_map.
Qed.

Lemma prepare_length n force (c : ebase R * list (cpoint R)) cps : prepare n force c = Ok cps ->
  List.length cps = Nat.max n (List.length (snd c)).
Proof.
  unfold prepare. intros H. destruct (grow_to n n (snd c)) as [g|] eqn:E; cbn [bind] in H; [|discriminate].
  apply grow_length in E; [|lia]. destruct force; [|apply Ok_inj in H; subst; exact E].
  apply C58_first in H as (? & ? & ? & ? & ? & ? & _ & _ & Pm & _). apply Permutation_length in Pm. lia.
Qed.
Lemma prepare_ok n force (c : ebase R * list (cpoint R)) : (2 <= List.length (snd c))%nat ->
  exists cps, prepare n force c = Ok cps /\ forall p, on_path cps true p <-> on_path (snd c) true p.
Proof.
  intros L. destruct (grow_ok n (snd c) L) as (g & E & Ln & Pth). unfold prepare. rewrite E. cbn [bind].
  destruct force; [|eauto]. unfold rotate_cps.
  destruct (C35_bbox_total (fst c) g) as (bb & Eb & G); [intros ->; cbn in Ln; lia|]. rewrite Eb. cbn [bind].
  destruct bb as [|xl yl xh yh].
  { exfalso. destruct (C35_bbox_int g) as (bi & Ei & Gi & Hs & _); [intros ->; cbn in Ln; lia|].
    unfold leaf_bbox in Eb. rewrite Ei in Eb. cbn [bind] in Eb. destruct g as [|s g]; [cbn in Ln; lia|].
    destruct (Hs s) as (K & _); [now left|]. destruct bi; [destruct K|]. unfold bbox_ext in Eb.
    cbn [bbox_pll bbox_phh bbox_plh bbox_phl bind] in Eb. apply Ok_inj in Eb.
    unfold bbox_of_pts in Eb. rewrite !mkbbox_R in Eb. discriminate. }
  cbn [bind bbox_pll]. destruct g as [|s g]; [cbn in Ln; lia|]. cbn [map]. eexists. split; [reflexivity|].
  intros p. rewrite rot_path. apply Pth.
Qed.

Lemma mapM_ok {A B} (f : A -> res B) (Q : A -> B -> Prop) l : (forall a, In a l -> exists b, f a = Ok b /\ Q a b) ->
  exists l', mapM f l = Ok l' /\ Forall2 Q l l'.
Proof.
  induction l as [|a l IH]; intros H; [exists []; split; [reflexivity|constructor]|].
  destruct (H a (or_introl eq_refl)) as (b & E & Hq). destruct IH as (l' & E' & F); [intros; apply H; now right|].
  exists (b :: l'). cbn [mapM]. rewrite E. cbn [bind]. rewrite E'. split; [reflexivity|constructor; auto].
Qed.
Lemma mapM_inv {A B} (f : A -> res B) : forall l l', mapM f l = Ok l' -> Forall2 (fun a b => f a = Ok b) l l'.
Proof.
  induction l as [|a l IH]; intros l' H; cbn [mapM] in H; [apply Ok_inj in H; subst; constructor|].
  destruct (f a) as [b|] eqn:E; cbn [bind] in H; [|discriminate]. destruct (mapM f l) as [r|] eqn:E'; cbn [bind] in H; [|discriminate].
  apply Ok_inj in H. subst l'. constructor; auto.
Qed.
Lemma max_ge : forall l n, (n <= fold_left Nat.max l n)%nat /\ forall x, In x l -> (x <= fold_left Nat.max l n)%nat.
Proof.
  induction l as [|a l IH]; intros n; cbn [fold_left]; [split; [lia|easy]|]. destruct (IH (Nat.max n a)) as [I J].
  split; [lia|]. intros x [<-|H]; [lia|auto].
Qed.

(* what holds of every MorphMultiStep that could be constructed *)
Definition sound (m : multi R) : Prop :=
  exists n, List.length (mm_steps m) = List.length (mm_curves m) /\ mm_curves m <> [] /\
    (forall c, In c (mm_curves m) -> List.length c = n) /\
    map ckind (mm_now m) = map ckind (hd [] (mm_curves m)).
Lemma construct_sound (model : elem R) src targets force m : mk_multi model src targets force = Ok m ->
  sound m /\ mm_steps m = 0 :: map fst targets /\ mm_now m = hd [] (mm_curves m) /\ mm_base m = fst src.
Proof.
  intros H. unfold mk_multi in H. destruct (curve_fixed src) as [first|] eqn:E; cbn [bind] in H; [|discriminate].
  apply fixed_inv in E as [_ ->]. set (all := (nofZ 0, src) :: targets) in *.
  set (n := fold_left Nat.max _ 0%nat) in *. destruct (mapM _ all) as [curves|] eqn:Em; cbn [bind] in H; [|discriminate].
  apply mapM_inv in Em. destruct curves as [|c0 curves]; [discriminate|].
  destruct (curve_fixed (fst src, c0)) as [now|] eqn:En; cbn [bind] in H; [|discriminate]. apply fixed_inv in En as [_ ->]. cbn [fst snd] in H.
  destruct (replace_curve _ _ _ _) as [tc|]; cbn [bind] in H; [|discriminate]. destruct (Nat.eqb (snd tc) 0); [discriminate|].
  apply Ok_inj in H. subst m. cbn [mm_steps mm_curves mm_now mm_base hd]. split; [|auto].
  exists n. cbn [mm_steps mm_curves mm_now hd]. split; [|split; [discriminate|split; [|reflexivity]]].
  - rewrite map_length. clear - Em. induction Em; cbn; auto.
  - assert (Mx : forall c, In c all -> (List.length (snd (snd c)) <= n)%nat).
    { intros c I. apply max_ge. apply in_map_iff. exists c. auto. }
    clearbody n. clear - Em Mx. intros c I. revert I. induction Em as [|a b l l' Hp F IH]; [easy|]. intros [<-|I].
    + apply prepare_length in Hp. pose proof (Mx a (or_introl eq_refl)). lia.
    + apply IH; auto. intros z Iz. apply Mx. now right.
Qed.

(* MorphMultiStep() for a source that is somewhere in the model (a tidy tree without shapes with
   holes): all key curves get the largest number of points and, being closed, look the same as
   before; the step times are 0 and the given ones; in the model the morphed curve stands in
   place of the source. *)
Theorem C58_construct : forall (model : elem R) (src : ebase R * list (cpoint R))
    (targets : list (R * (ebase R * list (cpoint R)))) (force : bool) ks,
  wellformed (fst src) -> (2 <= List.length (snd src))%nat ->
  (forall s c, In (s, c) targets -> (2 <= List.length (snd c))%nat) ->
  tidy model -> plain model -> at_path model ks (curve_elem src) ->
  exists m, mk_multi model src targets force = Ok m /\
    mm_steps m = 0 :: map fst targets /\
    Forall2 (fun given key => forall p, on_path key true p <-> on_path (snd given) true p) (src :: map snd targets) (mm_curves m) /\
    (forall c c', In c (mm_curves m) -> In c' (mm_curves m) -> List.length c = List.length c') /\
    mm_now m = hd [] (mm_curves m) /\
    (forall cps, mm_tree m cps = replaced (fun e => elem_eqb e (curve_elem src)) (curve_elem (fst src, cps)) model).
Proof.
  intros model src targets force ks W L1 L2 Td Pl A.
  assert (E : exists m, mk_multi model src targets force = Ok m /\
     Forall2 (fun given key => forall p, on_path key true p <-> on_path (snd given) true p) (src :: map snd targets) (mm_curves m) /\
     (forall cps, mm_tree m cps = replaced (fun e => elem_eqb e (curve_elem src)) (curve_elem (fst src, cps)) model)).
  { unfold mk_multi. rewrite fixed_ok by exact W. cbn [bind fst snd]. rewrite <- surjective_pairing.
    set (n := fold_left Nat.max _ 0%nat).
    destruct (mapM_ok (fun c => prepare n force (snd c)) (fun (c : R * (ebase R * list (cpoint R))) key => forall p, on_path key true p <-> on_path (snd (snd c)) true p)
      ((nofZ 0, src) :: targets)) as (curves & Em & F).
    { intros [s c] [I|I]; [injection I as <- <-; now apply prepare_ok|]. apply prepare_ok. cbn. eauto. }
    rewrite Em. cbn [bind]. destruct curves as [|c0 curves]; [inversion F|]. rewrite (fixed_ok (fst src, c0)) by exact W. cbn [bind fst snd].
    unfold replace_curve. change (fun e => elem_eqb e (curve_elem src)) with (equal_to (curve_elem src)).
    assert (Rp : forall x, elem_replace (equal_to (curve_elem src)) (curve_elem (fst src, x)) model =
      (replaced (equal_to (curve_elem src)) (curve_elem (fst src, x)) model, Ok (hits (equal_to (curve_elem src)) model))).
    { intros x. apply C46_replaces; [exact Td|]. now apply same_name_replaceable. }
    rewrite Rp. cbn [snd bind].
    assert (Hp : hits (equal_to (curve_elem src)) model <> 0%nat) by (eapply hits_pos; eauto; apply curve_eqb_refl).
    apply Nat.eqb_neq in Hp. rewrite Hp. eexists. split; [reflexivity|]. cbn [mm_curves mm_tree fst]. split.
    - change (src :: map snd targets) with (map snd ((nofZ 0 : R, src) :: targets)). clear - F. induction F; constructor; auto.
    - intros x. rewrite Rp. reflexivity. }
  destruct E as (m & E & F & T). exists m. split; [exact E|]. destruct (construct_sound _ _ _ _ _ E) as ((n & S1 & S2 & S3 & S4) & St & Nw & _).
  split; [exact St|]. split; [exact F|]. split; [intros c c' I I'; rewrite (S3 c I), (S3 c' I'); reflexivity|]. split; [exact Nw|exact T].
Qed.
Theorem C58_absent : forall (model : elem R) (src : ebase R * list (cpoint R)) (targets : list (R * (ebase R * list (cpoint R)))) (force : bool),
  wellformed (fst src) -> (2 <= List.length (snd src))%nat ->
  (forall s c, In (s, c) targets -> (2 <= List.length (snd c))%nat) ->
  tidy model -> plain model -> (forall ks x, at_path model ks x -> elem_eqb x (curve_elem src) = false) ->
  mk_multi model src targets force = Raise MorphError.
Proof.
  intros model src targets force W L1 L2 Td Pl H. unfold mk_multi. rewrite fixed_ok by exact W. cbn [bind fst snd]. rewrite <- surjective_pairing.
  set (n := fold_left Nat.max _ 0%nat).
  destruct (mapM_ok (fun c => prepare n force (snd c)) (fun (c : R * (ebase R * list (cpoint R))) key => True)
    ((nofZ 0, src) :: targets)) as (curves & Em & F).
  { intros [s c] I. destruct (prepare_ok n force c) as (k & K & _); [destruct I as [I|I]; [injection I as <- <-; auto|eauto]|]. cbn. eauto. }
  rewrite Em. cbn [bind]. destruct curves as [|c0 curves]; [inversion F|]. rewrite (fixed_ok (fst src, c0)) by exact W. cbn [bind fst snd].
  unfold replace_curve. change (fun e => elem_eqb e (curve_elem src)) with (equal_to (curve_elem src)).
  rewrite C46_replaces; [|exact Td|now apply same_name_replaceable]. cbn [snd bind].
  destruct (C46_nothing (equal_to (curve_elem src)) (curve_elem (fst src, c0)) model H) as [_ ->]. reflexivity.
Qed.

(* ---------------- updates ---------------- *)

Lemma between_bare f : forall now lo hi, List.length now = List.length lo -> List.length lo = List.length hi ->
  map bare (cps_between f now lo hi) = map bare (part_ways f lo hi) /\ map ckind (cps_between f now lo hi) = map ckind now.
Proof.
  induction now as [|n now IH]; intros [|l lo] [|h hi] L1 L2; try discriminate; [split; reflexivity|].
  cbn in L1, L2. injection L1 as L1. injection L2 as L2. destruct (IH lo hi L1 L2) as [I J].
  unfold part_ways. cbn [cps_between combine map fst snd]. split; f_equal; auto.
  destruct l as [[lx ly] [lv lw] [lp lq] lk], h as [[hx hy] [hv hw] [hp hq] hk].
  unfold bare, cp_between, part_way_cp, part_way, part_way_v, p_add, p_sub, v_add, v_sub, v_mul. cbn. f_equal; f_equal; ring.
Qed.
Lemma part_ways_same f (l : list (cpoint R)) : part_ways f l l = l.
Proof.
  unfold part_ways. induction l as [|s l IH]; [reflexivity|]. cbn [combine map fst snd]. rewrite IH. f_equal.
  destruct s as [[a b] [c d] [e g] k]. unfold part_way_cp, part_way, part_way_v. cbn. f_equal; f_equal; ring.
Qed.
Definition same_setup (m m' : multi R) : Prop :=
  mm_steps m' = mm_steps m /\ mm_curves m' = mm_curves m /\ mm_base m' = mm_base m /\ mm_tree m' = mm_tree m.
Lemma same_len {A B} (f : A -> B) l l' : map f l = map f l' -> List.length l = List.length l'.
Proof. intros H. apply (f_equal (@List.length B)) in H. now rewrite !map_length in H. Qed.
Lemma len_now (m : multi R) n : mm_curves m <> [] -> (forall c, In c (mm_curves m) -> List.length c = n) ->
  map ckind (mm_now m) = map ckind (hd [] (mm_curves m)) -> List.length (mm_now m) = n.
Proof. intros N H K. apply same_len in K. rewrite K. apply H. destruct (mm_curves m); [easy|]. now left. Qed.
Lemma put_sound (m : multi R) cps : sound m -> map ckind cps = map ckind (mm_now m) -> sound (Multi (mm_steps m) (mm_curves m) (mm_base m) cps (mm_tree m)).
Proof. intros (n & S1 & S2 & S3 & S4) K. exists n. cbn [mm_steps mm_curves mm_now]. repeat split; auto. congruence. Qed.
Lemma update_sound t_func t m m' : sound m -> mm_update t_func t m = Ok m' -> sound m' /\ same_setup m m'.
Proof.
  intros S H. unfold mm_update in H. destruct (t_func t) as [[f|a b|]|]; cbn [bind] in H; try discriminate.
  - match type of H with bind ?e _ = _ => destruct e as [[[lo hi] t']|] eqn:E end; cbn [bind] in H; [|discriminate].
    apply Ok_inj in H. subst m'. split; [|repeat split]. apply put_sound; [exact S|].
    destruct S as (n & S1 & S2 & S3 & S4). pose proof (len_now _ _ S2 S3 S4) as Ln.
    assert (I : In lo (mm_curves m) /\ In hi (mm_curves m)).
    { destruct (bisect_right (mm_steps m) f) as [|i].
      - destruct (mm_curves m) as [|c l]; [discriminate|]. apply Ok_inj in E. injection E as <- <- _. cbn. auto.
      - destruct (Nat.leb _ _).
        + destruct (rev (mm_curves m)) as [|c l] eqn:Er; [discriminate|]. apply Ok_inj in E. injection E as <- <- _.
          assert (In c (rev (mm_curves m))) by (rewrite Er; now left). rewrite <- in_rev in H. auto.
        + destruct (nth_error (mm_curves m) i) as [a|] eqn:Ea; [|discriminate].
          destruct (nth_error (mm_curves m) (S i)) as [b|] eqn:Eb; [|discriminate]. destruct (pydiv _ _) as [q|]; cbn [bind] in E; [|discriminate].
          apply Ok_inj in E. injection E as <- <- _. split; eapply nth_error_In; eauto. }
    apply between_bare; rewrite ?Ln, ?(S3 _ (proj1 I)), ?(S3 _ (proj2 I)); reflexivity.
  - apply Ok_inj in H. subst m'. split; [|repeat split]. apply put_sound; [exact S|]. apply away_kinds.
Qed.
Lemma run_sound t_func ts : forall m, sound m -> sound (mm_run t_func ts m) /\ same_setup m (mm_run t_func ts m).
Proof.
  induction ts as [|t ts IH]; intros m S; [split; [exact S|repeat split]|]. cbn [mm_run fold_left]. fold (mm_run t_func ts).
  destruct (mm_update t_func t m) as [m'|] eqn:E; [|now apply IH].
  destruct (update_sound _ _ _ _ S E) as [S' (A & B & C & D)]. change (sound (mm_run t_func ts m') /\ same_setup m (mm_run t_func ts m')).
  destruct (IH m' S') as [S'' (A' & B' & C' & D')]. split; [exact S''|]. unfold same_setup. repeat split; congruence.
Qed.

Lemma combine_split {A B} : forall (a : list A) (b : list B) i x y, List.length a = List.length b -> nth_error a i = Some x -> nth_error b i = Some y ->
  combine a b = combine (firstn i a) (firstn i b) ++ (x, y) :: combine (skipn (S i) a) (skipn (S i) b).
Proof.
  induction a as [|a0 a IH]; intros [|b0 b] [|i] x y L Ha Hb; try discriminate.
  - cbn in *. congruence.
  - cbn [nth_error firstn skipn combine app] in *. injection L as L. f_equal. now apply IH.
Qed.

(* After any history of updates, with the step times in order, update(t) shows the shape for the
   time x = t_func(t): the first key curve before its time, the last one from its time on, and in
   between every control point and handle moves straight from one key curve to the next; the
   kinds of the points are those of the first key curve.  No update raises. *)
Theorem C58_update : forall (model : elem R) src targets force m (t_func : tfun R) (ts : list (tval R)) (t : tval R) (x : R),
  mk_multi model src targets force = Ok m -> Sorted Rle (0 :: map fst targets) -> t_func t = Ok (TNum x) ->
  exists m' shape, mm_update t_func t (mm_run t_func ts m) = Ok m' /\
    key_shape (combine (mm_steps m) (mm_curves m)) x shape /\
    map bare (mm_now m') = map bare shape /\
    map ckind (mm_now m') = map ckind (hd [] (mm_curves m)) /\
    mm_steps m' = mm_steps m /\ mm_curves m' = mm_curves m /\ mm_model m' = mm_tree m (mm_now m').
Proof.
  intros model src targets force m tf ts t x H So E. destruct (construct_sound _ _ _ _ _ H) as (S & St & _ & _).
  rewrite <- St in So. clear H St. destruct (run_sound tf ts m S) as [S' (E1 & E2 & E3 & E4)].
  set (m1 := mm_run tf ts m) in *. clearbody m1. rewrite <- E1 in So. rewrite <- E1, <- E2, <- E4. clear S m E1 E2 E3 E4. rename m1 into m.
  destruct S' as (n & S1 & S2 & S3 & S4). pose proof (len_now _ _ S2 S3 S4) as Ln.
  assert (G : exists lo hi t' shape,
    (match bisect_right (mm_steps m) x with
     | O => match mm_curves m with c :: _ => Ok (c, c, x) | [] => Raise IndexError end
     | S i =>
         if Nat.leb (List.length (mm_curves m)) (bisect_right (mm_steps m) x) then
           match rev (mm_curves m) with c :: _ => Ok (c, c, x) | [] => Raise IndexError end
         else
           match nth_error (mm_curves m) i, nth_error (mm_curves m) (bisect_right (mm_steps m) x) with
           | Some lo, Some hi =>
               let* t' := pydiv (x - nth i (mm_steps m) 0) (nth (bisect_right (mm_steps m) x) (mm_steps m) 0 - nth i (mm_steps m) 0) in Ok (lo, hi, t')
           | _, _ => Raise IndexError
           end
     end) = Ok (lo, hi, t') /\ In lo (mm_curves m) /\ In hi (mm_curves m) /\ shape = part_ways t' lo hi /\ key_shape (combine (mm_steps m) (mm_curves m)) x shape).
  { destruct (bisect_spec (mm_steps m) x So) as (B1 & B2 & B3). set (idx := bisect_right (mm_steps m) x) in *. clearbody idx. destruct idx as [|i].
    - destruct (mm_curves m) as [|c l] eqn:Ec; [easy|]. destruct (mm_steps m) as [|s r] eqn:Es; [discriminate|].
      exists c, c, x, (part_ways x c c). repeat (split; [first [reflexivity|now left]|]). rewrite part_ways_same.
      apply (key_first _ _ (s, c) (combine r l)); [reflexivity|]. apply (B3 0%nat). cbn. lia.
    - destruct (Nat.leb_spec (List.length (mm_curves m)) (S i)) as [Le|Gt].
      + assert (i = pred (List.length (mm_curves m))) by lia.
        destruct (exists_last S2) as (l & c & Ec). assert (Ns : mm_steps m <> []) by (intros Z; rewrite Z in S1; destruct (mm_curves m); easy).
        destruct (exists_last Ns) as (r & s & Es). rewrite Ec, rev_app_distr. cbn [rev app].
        exists c, c, x, (part_ways x c c). split; [reflexivity|]. split; [apply in_or_app; right; now left|]. split; [apply in_or_app; right; now left|].
        split; [reflexivity|]. rewrite part_ways_same. rewrite Ec, Es, !app_length in S1. cbn in S1.
        apply (key_last _ _ (s, c) (combine r l)).
        * rewrite Es. clear - S1. assert (List.length r = List.length l) by lia. clear S1. revert l H. induction r as [|z r IH]; intros [|w l] H; try discriminate; auto.
          cbn. f_equal. apply IH. now injection H.
        * cbn [fst]. specialize (B2 i ltac:(lia)). rewrite Es, Ec, app_length in *. cbn in *. rewrite app_nth2 in B2 by lia.
          replace (i - List.length r)%nat with 0%nat in B2 by lia. exact B2.
      + destruct (nth_error (mm_curves m) i) as [lo|] eqn:Elo; [|apply nth_error_None in Elo; lia].
        destruct (nth_error (mm_curves m) (S i)) as [hi|] eqn:Ehi; [|apply nth_error_None in Ehi; lia].
        assert (Hlo : nth i (mm_steps m) 0 <= x) by (apply B2; lia). assert (Hhi : x < nth (S i) (mm_steps m) 0) by (apply B3; lia).
        set (s0 := nth i (mm_steps m) 0) in *. set (s1 := nth (S i) (mm_steps m) 0) in *.
        assert (N0 : nth_error (mm_steps m) i = Some s0) by (apply nth_error_nth'; lia).
        assert (N1 : nth_error (mm_steps m) (S i) = Some s1) by (apply nth_error_nth'; lia).
        rewrite pydiv_R by lra. cbn [bind]. exists lo, hi, ((x - s0) / (s1 - s0)), (part_ways ((x - s0) / (s1 - s0)) lo hi).
        split; [reflexivity|]. split; [eapply nth_error_In; eauto|]. split; [eapply nth_error_In; eauto|]. split; [reflexivity|].
        apply (key_between _ _ (combine (firstn i (mm_steps m)) (firstn i (mm_curves m))) (s0, lo) (s1, hi)
                 (combine (skipn (S (S i)) (mm_steps m)) (skipn (S (S i)) (mm_curves m)))); [|cbn; lra].
        rewrite (combine_split _ _ i s0 lo S1 N0 Elo). do 2 f_equal.
        apply nth_error_split in N1 as (X & Y & -> & LX). apply nth_error_split in Ehi as (X' & Y' & -> & LX').
        assert (Z : forall A (u v : list A) w, List.length u = S i -> skipn (S i) (u ++ w :: v) = w :: skipn (S (S i)) (u ++ w :: v)).
        { clear. intros A u v w L. rewrite !skipn_app, L, Nat.sub_diag. rewrite skipn_all2 by lia. rewrite (skipn_all2 u) by lia.
          replace (S (S i) - S i)%nat with 1%nat by lia. reflexivity. }
        rewrite (Z _ X Y s1 LX), (Z _ X' Y' hi LX'). reflexivity. }
  destruct G as (lo & hi & t' & shape & Eq & Ilo & Ihi & Sh & Key).
  unfold mm_update. rewrite E. cbn [bind].
  match goal with |- context [bind ?e _] => replace e with (Ok (lo, hi, t')) by (symmetry; exact Eq) end. cbn [bind].
  exists (Multi (mm_steps m) (mm_curves m) (mm_base m) (cps_between t' (mm_now m) lo hi) (mm_tree m)), shape.
  destruct (between_bare t' (mm_now m) lo hi) as [Bb Bk]; [rewrite Ln; symmetry; auto|rewrite (S3 lo), (S3 hi); auto|].
  cbn [mm_now mm_steps mm_curves mm_model mm_tree]. split; [reflexivity|]. split; [exact Key|]. split; [rewrite Bb, Sh; reflexivity|].
  split; [congruence|]. repeat (split; [reflexivity|]). reflexivity.
Qed.

(* At the time of a key curve exactly that curve is shown. *)
Theorem C58_keys : forall (keys : list (R * list (cpoint R))) (s : R) (c shape : list (cpoint R)),
  Sorted Rlt (map fst keys) -> (forall k k', In k keys -> In k' keys -> List.length (snd k) = List.length (snd k')) ->
  In (s, c) keys -> key_shape keys s shape -> shape = c.
Proof.
  intros keys s c shape So Ln I K. destruct K as [k r E L|k r E L|A k k' B E L].
  - exfalso. subst keys. cbn in So. apply (sorted_lt_app []) in So as [_ F]. destruct I as [->|I]; [cbn in L; lra|].
    rewrite Forall_forall in F. specialize (F s). assert (In s (map fst r)) by (apply in_map_iff; exists (s, c); auto). specialize (F H). lra.
  - subst keys. rewrite map_app in So. apply sorted_lt_app in So as [F _]. apply in_app_or in I as [I|[->|[]]]; [|reflexivity].
    exfalso. rewrite Forall_forall in F. specialize (F s (in_map fst _ _ I)). lra.
  - assert (Q : (s, c) = k).
    { subst keys. rewrite map_app in So. pose proof So as So'. apply sorted_lt_app in So as [F _].
      replace (map fst A ++ map fst (k :: k' :: B)) with ((map fst A ++ [fst k]) ++ fst k' :: map fst B) in So' by (rewrite <- app_assoc; reflexivity).
      apply sorted_lt_app in So' as [_ F']. rewrite Forall_forall in F, F'.
      apply in_app_or in I as [I|[I|[I|I]]].
      - specialize (F s (in_map fst _ _ I)). lra.
      - now symmetry.
      - subst k'. cbn in L. lra.
      - specialize (F' s (in_map fst _ _ I)). lra. }
    subst k. cbn [fst snd] in *. replace ((s - s) / (fst k' - s)) with 0 by (field; lra).
    assert (L2 : List.length c = List.length (snd k')).
    { apply (Ln (s, c) k'); subst keys; apply in_or_app; right; cbn; auto. }
    destruct (C57_ends c (snd k') true (P 0 0) L2) as [Z _]. exact Z.
Qed.

(* Every coordinate of every control point is the function drawn through its key values, so it
   stays within their range and does not jump. *)
Lemma part_ways_nth f lo hi j a : nth_error (part_ways f lo hi) j = Some a ->
  exists l h, nth_error lo j = Some l /\ nth_error hi j = Some h /\ a = part_way_cp f l h.
Proof.
  unfold part_ways. intros H. rewrite nth_error_map in H. destruct (nth_error (combine lo hi) j) as [[l h]|] eqn:E; [|discriminate].
  injection H as <-. exists l, h. revert lo hi E. induction j as [|j IH]; intros [|l0 lo] [|h0 hi] E; try discriminate; cbn in E.
  - injection E as -> ->. auto.
  - apply IH in E. exact E.
Qed.
Lemma coordinate_part_way co f a b : In co coordinates -> co (part_way_cp f a b) = co a + (co b - co a) * f.
Proof. intros [<-|[<-|[<-|[<-|[<-|[<-|[]]]]]]]; cbn; ring. Qed.
Definition track (co : cpoint R -> R) (j : nat) (keys : list (R * list (cpoint R))) : list (R * R) :=
  map (fun k => (fst k, co (nth j (snd k) (CP (P 0 0) (V 0 0) (V 0 0) "")))) keys.
Theorem C58_coordinate : forall (keys : list (R * list (cpoint R))) (x : R) (shape : list (cpoint R)) (j : nat) (a : cpoint R) co,
  key_shape keys x shape -> nth_error shape j = Some a -> In co coordinates ->
  drawn_through (track co j keys) x (co a).
Proof.
  intros keys x shape j a co K N I. unfold track.
  assert (Nt : forall l z, nth_error l j = Some z -> nth j l (CP (P 0 0) (V 0 0) (V 0 0) "") = z) by (intros; now apply nth_error_nth).
  destruct K as [k r -> L|k r -> L|A k k' B -> L].
  - rewrite <- (Nt _ _ N). exact (before _ x (fst k, co (nth j (snd k) (CP (P 0 0) (V 0 0) (V 0 0) ""))) _ eq_refl L).
  - rewrite <- (Nt _ _ N). refine (after _ x (fst k, co (nth j (snd k) (CP (P 0 0) (V 0 0) (V 0 0) ""))) _ _ L). now rewrite map_app.
  - apply part_ways_nth in N as (l & h & Nl & Nh & ->). rewrite coordinate_part_way by exact I. rewrite <- (Nt _ _ Nl), <- (Nt _ _ Nh).
    refine (amid _ x _ (fst k, co (nth j (snd k) (CP (P 0 0) (V 0 0) (V 0 0) ""))) (fst k', co (nth j (snd k') (CP (P 0 0) (V 0 0) (V 0 0) ""))) _ _ L).
    rewrite map_app. reflexivity.
Qed.
Lemma track_strict co j keys : Sorted Rlt (map fst keys) -> strictly_rising (track co j keys).
Proof.
  unfold track. induction keys as [|k [|k' keys] IH]; intros H; cbn; auto. cbn in H. apply Sorted_inv in H as [H F]. inversion F; subst.
  split; [assumption|]. now apply IH.
Qed.
Lemma slopes_exist l : strictly_rising l -> exists K, 0 <= K /\ slopes (- K) K l.
Proof.
  induction l as [|k [|k' l] IH]; intros H; try (exists 0; split; [lra|exact Logic.I]). destruct H as [H1 H2]. destruct (IH H2) as (K & K0 & Sl).
  set (K' := Rabs (snd k' - snd k) / (fst k' - fst k)).
  assert (P0 : 0 <= K') by (apply Rmult_le_pos; [apply Rabs_pos|left; apply Rinv_0_lt_compat; lra]).
  assert (Mono : forall J J' l0, strictly_rising l0 -> J <= J' -> slopes (- J) J l0 -> slopes (- J') J' l0).
  { intros J J'. induction l0 as [|a [|b l0] IHl]; auto. intros [S1 S2] LJ [[Q1 Q2] Q3]. split; [|now apply IHl]. 
    assert (J * (fst b - fst a) <= J' * (fst b - fst a)) by (apply Rmult_le_compat_r; lra). lra. }
  exists (Rmax K K'). split; [apply Rle_trans with K; [lra|apply Rmax_l]|]. split.
  - assert (E : K' * (fst k' - fst k) = Rabs (snd k' - snd k)) by (unfold K'; field; lra).
    assert (K' * (fst k' - fst k) <= Rmax K K' * (fst k' - fst k)) by (apply Rmult_le_compat_r; [lra|apply Rmax_r]).
    pose proof (Rle_abs (snd k' - snd k)). pose proof (Rle_abs (- (snd k' - snd k))). rewrite Rabs_Ropp in H3. lra.
  - apply (Mono K); auto. apply Rmax_l.
Qed.
Theorem C58_continuous : forall (keys : list (R * list (cpoint R))) (j : nat) co,
  Sorted Rlt (map fst keys) -> In co coordinates ->
  exists K, forall x1 x2 shape1 shape2 a1 a2, key_shape keys x1 shape1 -> key_shape keys x2 shape2 ->
    nth_error shape1 j = Some a1 -> nth_error shape2 j = Some a2 -> Rabs (co a1 - co a2) <= K * Rabs (x1 - x2).
Proof.
  intros keys j co So I. pose proof (track_strict co j keys So) as St. destruct (slopes_exist _ St) as (K & K0 & Sl).
  exists K. assert (W : forall x1 x2 y1 y2, x1 <= x2 -> drawn_through (track co j keys) x1 y1 -> drawn_through (track co j keys) x2 y2 ->
    Rabs (y1 - y2) <= K * Rabs (x1 - x2)).
  { intros x1 x2 y1 y2 L D1 D2. pose proof (C56_slopes _ _ _ _ _ _ _ St Sl ltac:(lra) L D1 D2).
    rewrite (Rabs_minus_sym x1), (Rabs_right (x2 - x1)) by lra. apply Rabs_le. lra. }
  intros x1 x2 s1 s2 a1 a2 K1 K2 N1 N2. pose proof (C58_coordinate _ _ _ _ _ _ K1 N1 I) as D1. pose proof (C58_coordinate _ _ _ _ _ _ K2 N2 I) as D2.
  destruct (Rle_dec x1 x2); [now apply W|]. rewrite (Rabs_minus_sym (co a1)), (Rabs_minus_sym x1). apply W; auto. lra.
Qed.
Theorem C58_range : forall (keys : list (R * list (cpoint R))) (j : nat) co (lo hi x : R) shape a,
  Sorted Rlt (map fst keys) -> In co coordinates ->
  (forall s c b, In (s, c) keys -> nth_error c j = Some b -> lo <= co b <= hi) ->
  (forall s c, In (s, c) keys -> (j < List.length c)%nat) ->
  key_shape keys x shape -> nth_error shape j = Some a -> lo <= co a <= hi.
Proof.
  intros keys j co lo hi x shape a So I B Ln K N. pose proof (C58_coordinate _ _ _ _ _ _ K N I) as D.
  apply (C56_range _ _ _ _ _ (strict_rising _ (track_strict co j keys So)) D).
  intros q Q. apply in_map_iff in Q as ([s c] & <- & Ik). cbn [fst snd]. apply (B s c); auto. apply nth_error_nth'. eauto.
Qed.

(* None hides the curve, a pair of times is refused. *)
Theorem C58_hidden : forall (model : elem R) src targets force m (t_func : tfun R) (ts : list (tval R)) (t : tval R),
  mk_multi model src targets force = Ok m -> t_func t = Ok THide ->
  exists m', mm_update t_func t (mm_run t_func ts m) = Ok m' /\
    mm_now m' = map (fun s => CP (P 1000000 1000000) (V 0 0) (V 0 0) (ckind s)) (hd [] (mm_curves m)).
Proof.
  intros model src targets force m tf ts t H E. destruct (construct_sound _ _ _ _ _ H) as (S & _).
  destruct (run_sound tf ts m S) as [(n & S1 & S2 & S3 & S4) (A & B & C & D)]. unfold mm_update. rewrite E. cbn [bind].
  eexists. split; [reflexivity|]. cbn [mm_now]. rewrite <- B. revert S4. generalize (mm_now (mm_run tf ts m)) (hd [] (mm_curves (mm_run tf ts m))). clear.
  induction l as [|a l IH]; intros [|b l'] K; try discriminate; auto. cbn [map] in *. injection K as K K'. f_equal; [|now apply IH].
  unfold cp_away. rewrite <- K. reflexivity.
Qed.
Theorem C58_pair : forall (t_func : tfun R) (t : tval R) (m : multi R) a b,
  t_func t = Ok (TPair a b) -> mm_update t_func t m = Raise TypeError /\ mm_run t_func [t] m = m.
Proof.
  intros tf t m a b E. assert (U : mm_update tf t m = Raise TypeError) by (unfold mm_update; rewrite E; reflexivity).
  split; [exact U|]. cbn. now rewrite U.
Qed.

(* restore() puts the source back, provided that nothing else in the model looks like the morphed
   curve at that moment. *)
Theorem C58_restore : forall (T : elem R) (src : ebase R * list (cpoint R)) (m : multi R),
  tidy T -> plain T -> e_name (mm_base m) = e_name (fst src) ->
  (forall cps, mm_tree m cps = replaced (fun e => elem_eqb e (curve_elem src)) (curve_elem (mm_base m, cps)) T) ->
  (forall ks x, at_path T ks x -> elem_eqb x (curve_elem (mm_base m, mm_now m)) = true -> elem_eqb x (curve_elem src) = true) ->
  fst (mm_restore src m) = replaced (fun e => elem_eqb e (curve_elem src)) (curve_elem src) T /\
  exists n, snd (mm_restore src m) = Ok n.
Proof.
  intros T src m Td Pl Nm HT H. unfold mm_restore, mm_model. rewrite HT.
  set (c := (mm_base m, mm_now m)) in *.
  change (fun e => elem_eqb e (curve_elem src)) with (equal_to (curve_elem src)).
  change (fun e => elem_eqb e (curve_elem c)) with (equal_to (curve_elem c)).
  assert (T2 : tidy (replaced (equal_to (curve_elem src)) (curve_elem c) T) /\ plain (replaced (equal_to (curve_elem src)) (curve_elem c) T)).
  { apply replaced_tidy; auto; constructor. }
  destruct T2 as [T2 P2].
  rewrite C46_replaces; [|exact T2|].
  - cbn [fst snd]. split; [|eauto]. apply replaced_back; auto.
  - apply same_name_replaceable; [symmetry; exact Nm|exact T2|exact P2].
Qed.

(* Forcing an open curve changes what is drawn: it is cut open at another place. *)
Theorem C58_open_refuted : exists (b : ebase R) (cps cps' : list (cpoint R)) (p : pt R),
  e_closed b = false /\ prepare (List.length cps) true (b, cps) = Ok cps' /\
  on_path cps false p /\ ~ on_path cps' false p.
Proof.
  pose (cps := [corner 4 0; corner 0 0; corner 4 4]).
  exists ex_tri, cps, [corner 0 0; corner 4 4; corner 4 0], (P 2 0).
  split; [reflexivity|]. split; [|split].
  - unfold prepare. cbn [List.length snd fst cps grow_to Nat.ltb Nat.leb bind]. unfold rotate_cps, leaf_bbox. unfold cps. rewrite tri_box. cbn [bind e_xform ex_tri].
    replace (Rmin (Rmin 4 0) 4) with 0 by (unfold Rmin; repeat destruct Rle_dec; lra).
    replace (Rmin (Rmin 0 0) 4) with 0 by (unfold Rmin; repeat destruct Rle_dec; lra).
    replace (Rmax (Rmax 4 0) 4) with 4 by (unfold Rmax; repeat destruct Rle_dec; lra).
    replace (Rmax (Rmax 0 0) 4) with 4 by (unfold Rmax; repeat destruct Rle_dec; lra).
    rewrite ext_new by lra. cbn [bind bbox_pll map].
    assert (D : forall x y, v_length (p_sub (P 0 0) (cc (corner x y))) = sqrt (x * x + y * y)).
    { intros x y. unfold v_length, p_sub, corner. cbn. f_equal. ring. }
    rewrite !D. replace (0 * 0 + 0 * 0) with 0 by ring. rewrite sqrt_0.
    replace (4 * 4 + 0 * 0) with (4 * 4) by ring. rewrite sqrt_square by lra.
    cbn [nearest fst]. change (nltb 0 4) with (Rltb 0 4).
    replace (Rltb 0 4) with true by (symmetry; apply Rltb_lt; lra). cbn [fst snd]. change (nltb ?u ?v) with (Rltb u v).
    replace (Rltb (sqrt (4 * 4 + 4 * 4)) 0) with false by (symmetry; apply Rltb_ge, sqrt_pos). reflexivity.
  - exists (corner 4 0), (corner 0 0), (1 / 2). split; [now left|]. split; [lra|].
    unfold segment, cubic, cubic1, right_of, left_of, corner. cbn. f_equal; lra.
  - intros (s & e & t & I & Ht & Q). cbn in I. destruct I as [I|[I|[]]]; injection I as <- <-;
      unfold segment, cubic, cubic1, right_of, left_of, corner in Q; cbn [px py vx vy cc cdl cdr] in Q; injection Q as Q1 Q2; nra.
Qed.

(* a closed triangle in the model, with key curves of three, four and two points *)
Example C58_nontrivial :
  let b := EB "a" (PenBrush None None) true t_new : ebase R in
  let src := (b, [corner 0 0; corner 4 0; corner 0 3]) in
  let targets := [(1 / 2, (b, [corner 0 0; corner 1 0; corner 1 1; corner 0 1])); (1, (b, [corner 0 0; corner 5 5]))] in
  let model := EGroup (EB "top" (PenBrush None None) false t_new) false [("a", curve_elem src)] [] : elem R in
  wellformed (fst src) /\ (2 <= List.length (snd src))%nat /\ (forall s c, In (s, c) targets -> (2 <= List.length (snd c))%nat) /\
  Sorted Rlt (0 :: map fst targets) /\ tidy model /\ plain model /\ at_path model ["a"] (curve_elem src).
Proof.
  intros b src targets model. split; [discriminate|]. split; [cbn; lia|]. split.
  { intros s c [H|[H|[]]]; injection H as <- <-; cbn; lia. }
  split; [cbn [map fst targets]; repeat (first [apply Sorted_nil|apply Sorted_cons|apply HdRel_nil|apply HdRel_cons]); lra|]. split; [|split].
  - constructor.
    + split; [repeat constructor; cbn; intuition discriminate|].
      intros k e [H|[]]; injection H as <- <-; (split; [now apply has_dot_false|reflexivity]).
    + intros k e [H|[]]; injection H as <- <-; constructor.
  - constructor. intros k e [H|[]]; injection H as <- <-. constructor.
  - constructor. now left.
Qed.
