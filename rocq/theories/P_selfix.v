(* Resolving self-intersections: bez_self_intersect. *)
Require Import Verif.Base Verif.NumR Verif.L_real.
From Coq Require Import List Lia PeanoNat Permutation Bool Reals Lra String Sorting.Sorted.
Require Import Verif.M_vector Verif.M_transform Verif.M_bezier Verif.M_elems Verif.M_group Verif.M_dump Verif.M_selfix Verif.L_group Verif.NumFloat.
Require Import Verif.S_bezier Verif.L_bezier Verif.P_bezier Verif.S_selfix.
Require Import Verif.L_selfix Verif.L_selfix2 Verif.L_selfix3 Verif.L_selfix4 Verif.L_selfix5 Verif.L_selfix6 Verif.L_selfix7 Verif.L_selfix8 Verif.L_selfix9 Verif.L_selfix10
  Verif.L_selfix11 Verif.L_selfix12 Verif.L_selfix13.
Import ListNotations.
Open Scope R_scope.
Open Scope list_scope.

(* ------------------------------------------------------------------ *)
(** * C65 *)

Lemma no_crossings solve (orig : list (cpoint R)) :
  crossings solve (pieces solve orig) = [] -> bez_self_intersect_full solve orig = (orig, Ok []).
Proof.
  intro H. unfold bez_self_intersect_full. destruct (found (answers solve (all_curves solve orig))) eqn:E; auto.
  apply found_crossings in E. rewrite all_curves_pieces in E. congruence.
Qed.

(* what a successful call returns when there are intersections: the closed curve with control
   points added (fine) is cut into arcs, two per answer of the solver, each running between
   reported points; every arc is used in exactly one output curve, exactly once; each output
   curve is the ring of its arcs, end on start *)
Theorem C65_arcs_used_once : forall solve (orig : list (cpoint R)) curves,
  bez_self_intersect solve orig = Ok curves ->
  crossings solve (pieces solve orig) <> [] ->
  exists (fine : list (cpoint R)) (arcs : list (list (cpoint R))) k (orders : list (list nat)),
    refines orig fine /\
    List.concat (map consecutive arcs) = rotl k (path_segments fine true) /\
    List.length arcs = (2 * List.length (crossings solve (pieces solve orig)))%nat /\
    Forall (fun arc => (2 <= List.length arc)%nat /\
              (exists p ta tb, In (p, ta, tb) (crossings solve (pieces solve orig)) /\ dist (first_at arc) p <= 1 / 10 ^ 10) /\
              (exists p ta tb, In (p, ta, tb) (crossings solve (pieces solve orig)) /\ dist (last_at arc) p <= 1 / 10 ^ 10)) arcs /\
    Permutation (List.concat orders) (seq 0 (List.length arcs)) /\
    Forall2 (fun order curve =>
               let parts := map (fun i => nth i arcs []) order in
               order <> [] /\ curve = ring parts /\ linked_arcs (1 / 10 ^ 11) parts /\
               shut (INR (List.length order) * (21 / 10 ^ 11)) parts) orders curves.
Proof.
  intros solve orig curves H HX. destruct (stage solve orig HX) as [(e & E & _)|(nodes & fine & raw & W & S)]; [congruence|].
  rewrite (st_run _ _ _ _ _ _ S) in H.
  assert (HN : forall i, (i < List.length raw)%nat -> (rt raw i < List.length nodes)%nat).
  { intros i Hi. destruct (raw_entry _ _ _ _ _ _ S i Hi) as (p & mid & z & _ & _ & _ & N). exact (near_lt _ _ _ _ _ N). }
  pose proof (all_cycles_spec raw (List.length nodes) HN (List.length raw) (linked raw) []) as AC.
  assert (A2 : forall j, (j < List.length raw)%nat -> rem (linked raw) j = existsb (Nat.eqb j) []) by (intros; now apply rem_linked).
  specialize (AC (like_linked raw) (NoDup_nil _) A2 (Forall_nil _)). cbn [List.length] in AC.
  specialize (AC ltac:(lia)). rewrite H in AC. destruct AC as (cycles & P1 & Gs & Cs). cbn [app] in P1.
  set (arcs := map acps raw).
  assert (LA : List.length arcs = List.length raw) by (unfold arcs; apply map_length).
  assert (XO : exists orders, Forall2 (@Permutation nat) orders cycles /\
     Forall2 (fun order curve =>
               let parts := map (fun i => nth i arcs []) order in
               order <> [] /\ curve = ring parts /\ linked_arcs (1 / 10 ^ 11) parts /\
               shut (INR (List.length order) * (21 / 10 ^ 11)) parts) orders curves).
  { clear - S Gs Cs. revert Gs. induction Cs as [|cyc curve cycles curves HC Cs IH]; intro Gs.
    - exists []. split; constructor.
    - inversion_clear Gs. destruct (IH H0) as (orders & Q1 & Q2).
      destruct (cycle_result _ _ _ _ _ _ S cyc curve H HC) as (O & O1 & O2 & O3).
      exists (O :: orders). split; constructor; auto. cbv zeta. split; [|split; [|split]]; auto.
      + intros ->. apply Permutation_nil in O1. now apply (gc_some _ _ H).
      + apply touching_linked. exact O3.
      + exact (cycle_shut _ _ _ _ _ _ S cyc O H O1 O3). }
  destruct XO as (orders & Q1 & Q2). destruct (st_part _ _ _ _ _ _ S) as [k Hk].
  exists fine, arcs, k, orders. split; [apply (st_refines _ _ _ _ _ _ S)|]. split; [exact Hk|].
  split; [|split; [|split]]; auto.
  - rewrite <- (word_length _ _ _ _ _ _ S), <- (st_lefts _ _ _ _ _ _ S). unfold arcs. now rewrite !map_length.
  - apply Forall_forall. intros arc Ha. apply In_nth with (d := []) in Ha. destruct Ha as (i & Li & Ei). rewrite LA in Li.
    destruct (at_ends _ _ _ _ _ _ S i Li) as (xy1 & xy2 & N1 & N2 & D1 & D2). fold arcs in D1, D2. rewrite Ei in D1, D2.
    assert (FX : forall k xy, nth_error nodes k = Some xy -> exists p ta tb, In (p, ta, tb) (crossings solve (pieces solve orig)) /\ at_xy xy = p).
    { intros k' xy Hn. apply nth_error_In in Hn. apply (st_from _ _ _ _ _ _ S) in Hn. apply in_map_iff in Hn.
      destruct Hn as (y & <- & Hy). apply in_flat_map in Hy. destruct Hy as ([[p ta] tb] & H1 & H2).
      exists p, ta, tb. split; auto. destruct p. destruct H2 as [<-|[<-|[]]]; reflexivity. }
    split; [|split].
    + destruct (raw_entry _ _ _ _ _ _ S i Li) as (p & mid & z & E & _). fold arcs in E. rewrite <- Ei, E. cbn. rewrite app_length. cbn. lia.
    + destruct (FX _ _ N1) as (p & ta & tb & I1 & <-). eauto 6.
    + destruct (FX _ _ N2) as (p & ta & tb & I1 & <-). eauto 6.
  - rewrite LA, <- P1. clear - Q1. induction Q1; cbn; auto. now apply Permutation_app.
Qed.

(* how a call fails once the curve is cut *)
Lemma run_errors solve (orig : list (cpoint R)) nodes fine raw W (S : staged solve orig nodes fine raw W) e :
  bez_self_intersect solve orig = Raise e ->
  (e = AttributeError /\ all_cycles (List.length raw) (linked raw) (List.length nodes) = Raise AttributeError) \/
  (e = ValueError /\ exists cyc, good_cycle raw cyc /\ curve_of (linked raw) cyc = Raise ValueError).
Proof.
  intro H. rewrite (st_run _ _ _ _ _ _ S) in H.
  assert (HN : forall i, (i < List.length raw)%nat -> (rt raw i < List.length nodes)%nat).
  { intros i Hi. destruct (raw_entry _ _ _ _ _ _ S i Hi) as (p & mid & z & _ & _ & _ & N). exact (near_lt _ _ _ _ _ N). }
  pose proof (all_cycles_spec raw (List.length nodes) HN (List.length raw) (linked raw) []) as AC.
  assert (A2 : forall j, (j < List.length raw)%nat -> rem (linked raw) j = existsb (Nat.eqb j) []) by (intros; now apply rem_linked).
  specialize (AC (like_linked raw) (NoDup_nil _) A2 (Forall_nil _)). cbn [List.length] in AC.
  specialize (AC ltac:(lia)). rewrite H in AC. destruct AC as [->|(cyc & G & _ & Ec)]; auto.
  right. pose proof (cycle_error _ _ _ _ _ _ S cyc e G Ec) as ->. split; auto. exists cyc. auto.
Qed.

(* whatever the solver says, the call ends, and only these errors can come out: ZeroDivisionError
   only when a parameter 1 is reported *)
Theorem C65_errors : forall solve (orig : list (cpoint R)) e,
  bez_self_intersect solve orig = Raise e ->
  (e = ZeroDivisionError /\ ~ before_end solve orig) \/ e = ValueError \/ e = AttributeError.
Proof.
  intros solve orig e H.
  destruct (crossings solve (pieces solve orig)) as [|x xs] eqn:EX.
  - apply no_crossings in EX. unfold bez_self_intersect in H. rewrite EX in H. discriminate.
  - assert (HX : crossings solve (pieces solve orig) <> []) by congruence.
    destruct (stage solve orig HX) as [(e' & E & Q)|(nodes & fine & raw & W & S)].
    + rewrite E in H. injection H as <-. destruct Q as (k & c & [t xy] & _ & I1 & [[-> Q]|[-> _]]); auto.
      left. split; auto. intro B. specialize (B k t xy I1). cbn in Q. lra.
    + destruct (run_errors _ _ _ _ _ _ S e H) as [[-> _]|[-> _]]; auto.
Qed.

(* a curve that comes to each reported point twice, with an even number of visits in between:
   the walk always finds an edge to go on with *)
Theorem C65_never_stuck : forall solve (orig : list (cpoint R)) pts,
  route solve orig pts -> twice_evenly pts -> bez_self_intersect solve orig <> Raise AttributeError.
Proof.
  intros solve orig pts HR HT H.
  destruct (crossings solve (pieces solve orig)) as [|x xs] eqn:EX.
  - apply no_crossings in EX. unfold bez_self_intersect in H. rewrite EX in H. discriminate.
  - assert (HX : crossings solve (pieces solve orig) <> []) by congruence.
    destruct (stage solve orig HX) as [(e' & E & Q)|(nodes & fine & raw & W & S)].
    + rewrite E in H. injection H as ->. destruct Q as (k & c & i & _ & _ & [[Q _]|[Q _]]); discriminate.
    + rewrite (st_run _ _ _ _ _ _ S) in H. exact (never_attribute_error _ _ _ _ _ _ S pts HR HT H).
Qed.

(* if moreover the answers are accurate, not at the very end of a segment, and the points are
   apart, the call succeeds *)
Theorem C65_succeeds : forall solve (orig : list (cpoint R)) pts,
  route solve orig pts -> twice_evenly pts ->
  accurate solve orig (4 / 10 ^ 12) -> before_end solve orig -> separated solve orig (2 / 10 ^ 11) ->
  exists curves, bez_self_intersect solve orig = Ok curves.
Proof.
  intros solve orig pts HR HT HA HB HS.
  destruct (bez_self_intersect solve orig) as [curves|e] eqn:H; [eauto|exfalso].
  destruct (crossings solve (pieces solve orig)) as [|x xs] eqn:EX.
  - apply no_crossings in EX. unfold bez_self_intersect in H. rewrite EX in H. discriminate.
  - assert (HX : crossings solve (pieces solve orig) <> []) by congruence.
    destruct (stage solve orig HX) as [(e' & E & Q)|(nodes & fine & raw & W & S)].
    + destruct Q as (k & c & [t xy] & N & I1 & [[_ Q]|[_ Q]]).
      * specialize (HB k t xy I1). cbn in Q. lra.
      * specialize (HA k c t xy N I1). rewrite <- dist_length in Q. cbn [fst snd] in Q.
        replace (@split_delta R _) with (1 / 10 ^ 10) in Q by (unfold split_delta; cbn; lra). unfold at_xy in Q. lra.
    + destruct (run_errors _ _ _ _ _ _ S e H) as [[-> _]|[-> (cyc & G & Ec)]].
      * exact (C65_never_stuck solve orig pts HR HT H).
      * destruct (cycle_joins _ _ _ _ _ _ S (4 / 10 ^ 12) (2 / 10 ^ 11) HA HS ltac:(lra) ltac:(lra) cyc G) as [r Er]. congruence.
Qed.

(* with exact answers nothing of the curve is lost and nothing is added *)
Theorem C65_same_points : forall solve (orig : list (cpoint R)) curves,
  bez_self_intersect solve orig = Ok curves -> crossings solve (pieces solve orig) <> [] ->
  accurate solve orig 0 -> within solve orig -> separated solve orig (1 / 10 ^ 11) ->
  forall p, (exists curve, In curve curves /\ on_path curve true p) <-> on_path orig true p.
Proof.
  intros solve orig curves H HX HA HW HS p.
  destruct (stage solve orig HX) as [(e & E & _)|(nodes & fine & raw & W & S)]; [congruence|].
  rewrite (st_run _ _ _ _ _ _ S) in H.
  assert (HN : forall i, (i < List.length raw)%nat -> (rt raw i < List.length nodes)%nat).
  { intros i Hi. destruct (raw_entry _ _ _ _ _ _ S i Hi) as (q & mid & z & _ & _ & _ & N). exact (near_lt _ _ _ _ _ N). }
  pose proof (all_cycles_spec raw (List.length nodes) HN (List.length raw) (linked raw) []) as AC.
  assert (A2 : forall j, (j < List.length raw)%nat -> rem (linked raw) j = existsb (Nat.eqb j) []) by (intros; now apply rem_linked).
  specialize (AC (like_linked raw) (NoDup_nil _) A2 (Forall_nil _)). cbn [List.length] in AC.
  specialize (AC ltac:(lia)). rewrite H in AC. destruct AC as (cycles & P1 & Gs & Cs). cbn [app] in P1.
  rewrite <- (refined_points orig fine p (st_order _ _ _ _ _ _ S HW)).
  destruct (st_part _ _ _ _ _ _ S) as [k Hk].
  change (on_path fine true p) with (on_segs (path_segments fine true) p). rewrite <- (on_segs_rotl k), <- Hk.
  rewrite on_segs_concat, map_map.
  assert (Each : forall cyc curve, good_cycle raw cyc -> curve_of (linked raw) cyc = Ok curve ->
     (on_path curve true p <-> exists i, In i cyc /\ on_segs (consecutive (nth i (map acps raw) [])) p)).
  { intros cyc curve G HC. destruct (cycle_result _ _ _ _ _ _ S cyc curve G HC) as (O & O1 & -> & O3).
    rewrite (exact_ring _ _ _ _ _ _ S HA HS cyc O p G O1 O3). split; intros (i & I1 & I2); exists i; split; auto.
    - now apply (Permutation_in i O1).
    - now apply (Permutation_in i (Permutation_sym O1)). }
  transitivity (exists i, In i (List.concat cycles) /\ on_segs (consecutive (nth i (map acps raw) [])) p).
  - clear - Gs Cs Each. induction Cs as [|cyc curve cycles curves HC Cs IH].
    + split; intros (x & [] & _).
    + inversion_clear Gs. specialize (IH H0). split.
      * intros (c & [<-|Hc] & Hp).
        { apply (Each cyc) in Hp; auto. destruct Hp as (i & I1 & I2). exists i. split; auto. cbn. apply in_or_app. now left. }
        { destruct (proj1 IH) as (i & I1 & I2); [eauto|]. exists i. split; auto. cbn. apply in_or_app. now right. }
      * intros (i & I1 & I2). cbn in I1. apply in_app_or in I1. destruct I1 as [I1|I1].
        { exists curve. split; [now left|]. apply (Each cyc); eauto. }
        { destruct (proj2 IH) as (c & C1 & C2); [eauto|]. exists c. split; auto. now right. }
  - split.
    + intros (i & I1 & I2). apply (Permutation_in i P1) in I1. apply in_seq in I1.
      eexists. split; [|exact I2]. apply in_map_iff.
      destruct (nth_error raw i) as [a|] eqn:E; [|apply nth_error_None in E; lia].
      exists a. split; [|now apply nth_error_In in E]. f_equal. symmetry. apply nth_error_nth. now rewrite nth_error_map, E.
    + intros (l & L1 & L2). apply in_map_iff in L1. destruct L1 as (a & <- & Ha). apply In_nth_error in Ha. destruct Ha as [i Hi].
      exists i. split.
      * apply (Permutation_in i (Permutation_sym P1)). apply in_seq. split; [lia|]. now apply nth_error_some_lt in Hi.
      * replace (nth i (map acps raw) []) with (acps a); auto. symmetry. apply nth_error_nth. now rewrite nth_error_map, Hi.
Qed.

(* no intersections, and only then: the empty list; and then nothing is changed *)
Theorem C65_no_crossings : forall solve (orig : list (cpoint R)),
  (crossings solve (pieces solve orig) = [] -> bez_self_intersect_full solve orig = (orig, Ok [])) /\
  (bez_self_intersect solve orig = Ok [] -> crossings solve (pieces solve orig) = []).
Proof.
  intros solve orig. split; [apply no_crossings|]. intro H.
  destruct (crossings solve (pieces solve orig)) as [|x xs] eqn:EX; auto.
  destruct (C65_arcs_used_once solve orig [] H ltac:(congruence)) as (fine & arcs & k & orders & _ & _ & L & _ & HP & F).
  inversion F; subst. apply Permutation_nil in HP. rewrite EX in L. destruct arcs; discriminate.
Qed.

(* the caller's control points: their number, places and kinds stay *)
Theorem C65_inputs : forall F (NF : Num F) (RF : NumRoot F) solve (orig : list (cpoint F)),
  Forall2 (fun after before => cc after = cc before /\ ckind after = ckind before)
    (fst (bez_self_intersect_full solve orig)) orig.
Proof. intros F NF RF solve orig. exact (inputs_alike solve orig). Qed.

(* ---------------- the element ---------------- *)
Lemma numbered_parts {F} {NF : Num F} (b : ebase F) : forall (curves : list (list (cpoint F))) s r,
  mapM (fun ic : nat * list (cpoint F) =>
         bind (mk_base (e_name b ++ "_i" ++ decimal (fst ic))%string (e_pb b) (e_closed b) None) (fun b' => Ok (b', snd ic)))
    (combine (seq s (List.length curves)) curves) = Ok r ->
  map snd r = curves /\ forall k e, nth_error r k = Some e ->
    e_name (fst e) = (e_name b ++ "_i" ++ decimal (s + k))%string /\
    e_pb (fst e) = e_pb b /\ e_closed (fst e) = e_closed b /\ e_xform (fst e) = t_new.
Proof.
  induction curves as [|c curves IH]; intros s r H; cbn [List.length seq combine mapM] in H.
  - injection H as <-. split; auto. intros [|k] e Q; discriminate.
  - unfold mk_base in H at 1. destruct (M_colors.pb_filled (e_pb b) && negb (e_closed b)); [discriminate|]. cbn [bind fst snd] in H.
    destruct (mapM _ _) as [r'|e] eqn:E in H; [|discriminate]. cbn [bind] in H. injection H as <-.
    destruct (IH _ _ E) as [<- G]. split; [reflexivity|]. intros [|k] e Q; cbn in Q.
    + injection Q as <-. cbn [fst e_name e_pb e_closed e_xform]. rewrite Nat.add_0_r. auto.
    + destruct (G k e Q) as (G1 & G2). rewrite Nat.add_succ_r. auto.
Qed.
(* the new elements: one per curve, numbered names, same pen and brush, no transform left *)
Theorem C65_element : forall F (NF : Num F) (RF : NumRoot F) solve (b : ebase F) cps r,
  curve_self_intersect solve b cps = Ok r ->
  exists moved, mapM (cp_transform (t_transform (e_xform b)) true) cps = Ok moved /\
    bez_self_intersect solve moved = Ok (map snd r) /\
    NoDup (map (fun e => e_name (fst e)) r) /\
    forall k e, nth_error r k = Some e ->
      e_name (fst e) = (e_name b ++ "_i" ++ decimal k)%string /\
      e_pb (fst e) = e_pb b /\ e_closed (fst e) = e_closed b /\ e_xform (fst e) = t_new.
Proof.
  intros F NF RF solve b cps r H. unfold curve_self_intersect in H.
  destruct (mapM _ cps) as [moved|e] in H |- *; [|discriminate]. cbn [bind] in H. exists moved. split; auto.
  destruct (bez_self_intersect solve moved) as [curves|e] eqn:E; [|discriminate]. cbn [bind] in H.
  destruct (numbered_parts b curves 0 r H) as [<- G]. split; auto. split; [|exact G].
  apply NoDup_nth_error. intros i j Hi Q. rewrite map_length in Hi. rewrite !nth_error_map in Q.
  destruct (nth_error r i) as [x|] eqn:Ei; [|apply nth_error_None in Ei; lia]. cbn in Q.
  destruct (nth_error r j) as [y|] eqn:Ej; [|discriminate]. injection Q as Q.
  destruct (G _ _ Ei) as [N1 _], (G _ _ Ej) as [N2 _]. rewrite N1, N2 in Q. apply sapp_inv_head in Q. injection Q as Q. now apply decimal_inj.
Qed.
(* and they draw what the element draws *)
Theorem C65_element_points : forall solve (b : ebase R) cps r moved,
  curve_self_intersect solve b cps = Ok r -> r <> [] ->
  mapM (cp_transform (t_transform (e_xform b)) true) cps = Ok moved ->
  accurate solve moved 0 -> within solve moved -> separated solve moved (1 / 10 ^ 11) ->
  forall p, (exists e, In e r /\ on_path (snd e) true p) <-> exists q, on_path cps true q /\ p = t_transform (e_xform b) q.
Proof.
  intros solve b cps r moved H N HM HA HW HS p.
  destruct (C65_element R _ _ solve b cps r H) as (moved' & E & HB & _). rewrite HM in E. injection E as <-.
  assert (HX : crossings solve (pieces solve moved) <> []).
  { intro Q. apply no_crossings in Q. unfold bez_self_intersect in HB. rewrite Q in HB. cbn in HB. injection HB as HB.
    symmetry in HB. now apply map_eq_nil in HB. }
  pose proof (C65_same_points solve moved (map snd r) HB HX HA HW HS p) as SP.
  transitivity (on_path moved true p); [|].
  - rewrite <- SP. split.
    + intros (e & E1 & E2). exists (snd e). split; auto. now apply in_map.
    + intros (c & C1 & C2). apply in_map_iff in C1. destruct C1 as (e & <- & Ee). eauto.
  - destruct (mapM_linear (t_transform (e_xform b)) cps) as (m' & E & F2). rewrite HM in E. injection E as <-.
    pose proof (Forall2_path _ _ _ true F2) as K. unfold on_path.
    assert (G : forall l l', Forall2 (fun p q => (cc (fst q) = t_transform (e_xform b) (cc (fst p)) /\
       left_of (fst q) = t_transform (e_xform b) (left_of (fst p)) /\ right_of (fst q) = t_transform (e_xform b) (right_of (fst p)) /\
       ckind (fst q) = ckind (fst p)) /\ (cc (snd q) = t_transform (e_xform b) (cc (snd p)) /\
       left_of (snd q) = t_transform (e_xform b) (left_of (snd p)) /\ right_of (snd q) = t_transform (e_xform b) (right_of (snd p)) /\
       ckind (snd q) = ckind (snd p))) l l' -> (on_segs l' p <-> exists q, on_segs l q /\ p = t_transform (e_xform b) q)).
    { intros l l' Z. induction Z as [|[p1 p2] [q1 q2] l l' ((A1 & A2 & A3 & _) & (B1 & B2 & B3 & _)) _ IH].
      - split; [intros (s & e & t & [] & _)|intros (q & (s & e & t & [] & _) & _)].
      - cbn [fst snd] in *.
        assert (SE : forall t, segment q1 q2 t = t_transform (e_xform b) (segment p1 p2 t)).
        { intro t. unfold segment. rewrite (cubic_affine _ _ _ _ _ _ (transform_affine (e_xform b))). now rewrite A1, A3, B2, B1. }
        change ((q1, q2) :: l') with ([(q1, q2)] ++ l'). rewrite on_segs_app, IH. split.
        + intros [(s & e & t & [Q|[]] & Ht & ->)|(q & Q1 & Q2)].
          * injection Q as <- <-. exists (segment p1 p2 t). split; [|apply SE]. exists p1, p2, t. split; [now left|auto].
          * exists q. split; auto. change ((p1, p2) :: l) with ([(p1, p2)] ++ l). apply on_segs_app. now right.
        + intros (q & Q1 & Q2). change ((p1, p2) :: l) with ([(p1, p2)] ++ l) in Q1. apply on_segs_app in Q1. destruct Q1 as [Q1|Q1].
          * left. destruct Q1 as (s & e & t & [Q|[]] & Ht & ->). injection Q as <- <-. exists q1, q2, t. split; [now left|]. split; auto. now rewrite SE.
          * right. eauto. }
    exact (G _ _ K).
Qed.

(* ---------------- a figure of eight ---------------- *)
Definition corner_at (x y : R) : cpoint R := CP (P x y) (V 0 0) (V 0 0) "sharp".
Definition eight : list (cpoint R) := [corner_at 0 0; corner_at 2 2; corner_at 2 0; corner_at 0 2].
(* the first and the third segment cross in the middle *)
Definition solve8 (a b c d : cpoint R) : list (pt R * R * R) :=
  if Req_EM_T (px (cc a)) 0 then if Req_EM_T (py (cc a)) 0 then
  if Req_EM_T (px (cc c)) 2 then if Req_EM_T (py (cc c)) 0 then [(P 1 1, 1 / 2, 1 / 2)]
  else [] else [] else [] else [].
Lemma mid_corner x y x' y' l m r : bez_split (corner_at x y) (corner_at x' y') (1 / 2) = (l, m, r) ->
  cc l = P x y /\ cc m = P ((x + x') / 2) ((y + y') / 2).
Proof.
  intro E. pose proof (C31_split_shape _ _ _ _ _ _ E) as (S1 & _). split; [rewrite S1; reflexivity|].
  destruct (C31_split_traces _ _ _ _ _ _ 0 E) as [_ T]. rewrite <- (segment_0 m r), T. 
  unfold segment, cubic, cubic1, corner_at, right_of, left_of. cbn [px py vx vy cc cdl cdr]. f_equal; field.
Qed.
Ltac decide8 := repeat (match goal with |- context [Req_EM_T ?x ?y] => destruct (Req_EM_T x y); try (exfalso; lra) end); auto.
Lemma eight_half x y x' y' : (x + x') / 2 <> 2 -> let '(l, m, r) := bez_split (corner_at x y) (corner_at x' y') (1 / 2) in solve8 l m m r = [].
Proof.
  intro N. destruct (bez_split (corner_at x y) (corner_at x' y') (1 / 2)) as [[l m] r] eqn:E. destruct (mid_corner _ _ _ _ _ _ _ E) as [E1 E2].
  unfold solve8. rewrite E1, E2. cbn [px py]. decide8.
Qed.
Lemma eight_half_y x y x' y' : (y + y') / 2 <> 0 -> let '(l, m, r) := bez_split (corner_at x y) (corner_at x' y') (1 / 2) in solve8 l m m r = [].
Proof.
  intro N. destruct (bez_split (corner_at x y) (corner_at x' y') (1 / 2)) as [[l m] r] eqn:E. destruct (mid_corner _ _ _ _ _ _ _ E) as [E1 E2].
  unfold solve8. rewrite E1, E2. cbn [px py]. decide8.
Qed.
Lemma eight_pieces : pieces solve8 eight = path_segments eight true.
Proof.
  unfold pieces, eight. cbn [path_segments app consecutive flat_map fst snd].
  pose proof (eight_half_y 0 0 2 2 ltac:(lra)) as H1. pose proof (eight_half_y 2 2 2 0 ltac:(lra)) as H2.
  pose proof (eight_half_y 2 0 0 2 ltac:(lra)) as H3. pose proof (eight_half_y 0 2 0 0 ltac:(lra)) as H4.
  destruct (bez_split (corner_at 0 0) (corner_at 2 2) (1 / 2)) as [[l1 m1] r1]. rewrite H1.
  destruct (bez_split (corner_at 2 2) (corner_at 2 0) (1 / 2)) as [[l2 m2] r2]. rewrite H2.
  destruct (bez_split (corner_at 2 0) (corner_at 0 2) (1 / 2)) as [[l3 m3] r3]. rewrite H3.
  destruct (bez_split (corner_at 0 2) (corner_at 0 0) (1 / 2)) as [[l4 m4] r4]. rewrite H4. reflexivity.
Qed.
Lemma ask8 x y x' y' u v u' v' : ask solve8 (corner_at x y, corner_at x' y') (corner_at u v, corner_at u' v')
  = if Req_EM_T x 0 then if Req_EM_T y 0 then if Req_EM_T u 2 then if Req_EM_T v 0 then [(P 1 1, 1 / 2, 1 / 2)] else [] else [] else [] else [].
Proof. reflexivity. Qed.
Lemma eight_crossings : crossings solve8 (pieces solve8 eight) = [(P 1 1, 1 / 2, 1 / 2)].
Proof.
  rewrite eight_pieces. unfold eight. cbn [path_segments app consecutive crossings flat_map]. rewrite !ask8. decide8.
Qed.
Lemma eight_visits k : visits solve8 (pieces solve8 eight) k =
  match k with 0%nat | 2%nat => [(1 / 2, (1, 1))] | _ => [] end.
Proof.
  rewrite eight_pieces. unfold eight, visits. cbn [path_segments app consecutive].
  destruct k as [|[|[|[|k]]]]; cbn [nth_error firstn skipn flat_map app]; rewrite ?ask8; try solve [decide8].
  now destruct k.
Qed.
Example C65_hypotheses_nontrivial :
  crossings solve8 (pieces solve8 eight) <> [] /\
  (exists pts, route solve8 eight pts /\ twice_evenly pts /\ pts <> []) /\
  accurate solve8 eight 0 /\ before_end solve8 eight /\ within solve8 eight /\ separated solve8 eight 1.
Proof.
  split; [rewrite eight_crossings; discriminate|]. split; [|split; [|split; [|split]]].
  - exists [(1, 1); (1, 1)]. split; [|split; [|discriminate]].
    + exists [[(1 / 2, (1, 1))]; []; [(1 / 2, (1, 1))]; []]. split; [|reflexivity].
      replace (List.length (pieces solve8 eight)) with 4%nat by (rewrite eight_pieces; reflexivity).
      repeat (constructor; [split; [rewrite eight_visits; apply Permutation_refl|repeat constructor]|]). constructor.
    + intros p [<-|[<-|[]]]; exists [], [], []; split; auto; split; auto; now exists 0%nat.
  - intros k c t xy Hc Hi. rewrite eight_visits in Hi. rewrite eight_pieces in Hc.
    destruct k as [|[|[|k]]]; try destruct Hi as [Hi|[]]; try contradiction; injection Hi as <- <-; cbn in Hc; injection Hc as <-.
    + apply Req_le. unfold dist. transitivity (R_sqrt.sqrt 0); [|apply sqrt_0]. apply f_equal.
      unfold segment, cubic, cubic1, corner_at, right_of, left_of. cbn [px py vx vy cc cdl cdr fst snd]. field.
    + apply Req_le. unfold dist. transitivity (R_sqrt.sqrt 0); [|apply sqrt_0]. apply f_equal.
      unfold segment, cubic, cubic1, corner_at, right_of, left_of. cbn [px py vx vy cc cdl cdr fst snd]. field.
  - intros k t xy Hi. rewrite eight_visits in Hi.
    destruct k as [|[|[|k]]]; try destruct Hi as [Hi|[]]; try contradiction; injection Hi as <- <-; lra.
  - intros k t xy Hi. rewrite eight_visits in Hi.
    destruct k as [|[|[|k]]]; try destruct Hi as [Hi|[]]; try contradiction; injection Hi as <- <-; lra.
  - intros p q ta tb sa sb Hp Hq. rewrite eight_crossings in Hp, Hq. destruct Hp as [Hp|[]], Hq as [Hq|[]]. left. congruence.
Qed.
Example C65_eight : exists curves, bez_self_intersect solve8 eight = Ok curves /\ curves <> [] /\
  forall p, (exists curve, In curve curves /\ on_path curve true p) <-> on_path eight true p.
Proof.
  destruct C65_hypotheses_nontrivial as (HX & (pts & H1 & H2 & _) & HA & HB & HW & HS).
  assert (HS' : forall d, d <= 1 -> separated solve8 eight d).
  { intros d Hd p q ta tb sa sb Hp Hq. destruct (HS p q ta tb sa sb Hp Hq); [now left|right; lra]. }
  destruct (C65_succeeds solve8 eight pts) as [curves E]; auto.
  - intros k c t xy Hc Hi. specialize (HA k c t xy Hc Hi). lra.
  - apply HS'. lra.
  - exists curves. split; auto. split.
    + intros ->. apply HX. now apply C65_no_crossings.
    + apply (C65_same_points solve8 eight curves E HX HA HW). apply HS'. lra.
Qed.

(* ---------------- what the claim must not say ---------------- *)
Section Floats.
  Local Open Scope float_scope.
  Definition fcp (x y : float) : cpoint float := CP (P x y) (V 0 0) (V 0 0) "sharp".
  Definition starts_at (x : float) (c : cpoint float) : bool := PrimFloat.eqb (px (cc c)) x.
  (* A solver that misses intersections: the curve comes to the reported points in the order
     A B A C B C, with one visit between the two visits to A. *)
  Definition gappy : list (cpoint float) :=
    [fcp 0 0; fcp 2 0; fcp 6 4; fcp (-4) (-4); fcp 20 36; fcp (-12) (-32); fcp 28 64].
  Definition solve_gappy (a b c d : cpoint float) : list (pt float * float * float) :=
    if starts_at 0 a && starts_at 6 c then [(P 1 0, 0.5, 0.5)]
    else if starts_at 2 a && starts_at 20 c then [(P 4 2, 0.5, 0.5)]
    else if starts_at (-4) a && starts_at (-12) c then [(P 8 16, 0.5, 0.5)]
    else [].
  (* a curve with handles; the first and the third segment cross *)
  Definition eight_f : list (cpoint float) :=
    [CP (P 0 0) (V 0 0) (V 0.5 0.5) "smooth"; CP (P 2 2) (V (-0.5) (-0.5)) (V 0 0) "smooth";
     CP (P 2 0) (V 0 0) (V (-0.5) 0.5) "smooth"; CP (P 0 2) (V 0.5 (-0.5)) (V 0 0) "smooth"].
  Definition solve_f (a b c d : cpoint float) : list (pt float * float * float) :=
    if starts_at 0 a && starts_at 2 c && PrimFloat.eqb (py (cc a)) 0 && PrimFloat.eqb (py (cc c)) 0 then [(P 1 1, 0.5, 0.5)] else [].
  Definition same_handles (l m : list (cpoint float)) : bool :=
    forallb (fun ab => PrimFloat.eqb (vx (cdr (fst ab))) (vx (cdr (snd ab)))) (combine l m).
End Floats.
(* a solver that misses an intersection can make the walk run into a missing edge *)
Theorem C65_missed_crossing_refuted : ~ (forall (solve : cpoint float -> cpoint float -> cpoint float -> cpoint float -> list (pt float * float * float)) orig,
  bez_self_intersect solve orig <> Raise AttributeError).
Proof. intro H. apply (H solve_gappy gappy). vm_compute. reflexivity. Qed.
(* the call is not free of side effects: it shortens handles of the control points passed in *)
Theorem C65_inputs_untouched_refuted : ~ (forall (solve : cpoint float -> cpoint float -> cpoint float -> cpoint float -> list (pt float * float * float)) orig,
  same_handles (fst (bez_self_intersect_full solve orig)) orig = true).
Proof. intro H. specialize (H solve_f eight_f). vm_compute in H. discriminate. Qed.
(* the figure of eight gives its two loops *)
Example C65_eight_float : exists a b, bez_self_intersect solve_f eight_f = Ok [a; b] /\ List.length a = 3%nat /\ List.length b = 3%nat.
Proof. eexists. eexists. split; [vm_compute; reflexivity|]. split; reflexivity. Qed.
