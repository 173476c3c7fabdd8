(* Lemmas: from the solver's answers to the arcs, and the size of the gaps. *)
Require Import Verif.Base Verif.NumR Verif.L_real.
From Coq Require Import List Lia PeanoNat Permutation Bool Reals Lra Sorting.Sorted.
Require Import Verif.M_vector Verif.M_bezier Verif.M_group Verif.M_dump Verif.M_selfix.
Require Import Verif.S_bezier Verif.L_bezier Verif.P_bezier Verif.L_dump2 Verif.S_selfix.
Require Import Verif.L_selfix Verif.L_selfix2 Verif.L_selfix3 Verif.L_selfix4 Verif.L_selfix5 Verif.L_selfix6.
Import ListNotations.
Open Scope R_scope.

Section Stage.
  Variable solve : cpoint R -> cpoint R -> cpoint R -> cpoint R -> list (pt R * R * R).

  (* where an answer is on its segment *)
  Definition spot (orig : list (cpoint R)) : place := fun i p =>
    exists k c, nth_error (pieces solve orig) k = Some c /\ In i (visits solve (pieces solve orig) k) /\
      p = segment (fst c) (snd c) (fst i).
  (* a control point is at a node *)
  Definition near_node (orig : list (cpoint R)) (nodes : list (R * R)) (c : cpoint R) (k : nat) : Prop :=
    exists i, nth_error nodes k = Some (snd i) /\ v_length (p_sub (cc c) (at_xy (snd i))) <= split_delta /\ spot orig i (cc c).
  (* an answer for which the curve cannot be cut *)
  Definition bad_answer (orig : list (cpoint R)) (e : exn) : Prop :=
    exists k c i, nth_error (pieces solve orig) k = Some c /\ In i (visits solve (pieces solve orig) k) /\
      ((e = ZeroDivisionError /\ fst i = 1) \/
       (e = ValueError /\ split_delta < v_length (p_sub (segment (fst c) (snd c) (fst i)) (at_xy (snd i))))).

  (* everything the graph is built from *)
  Record staged (orig : list (cpoint R)) (nodes : list (R * R)) (fine : list (cpoint R))
      (raw : list (nat * list (cpoint R) * nat)) (W : list nat) : Prop := {
    st_run : bez_self_intersect solve orig = all_cycles (length raw) (linked raw) (length nodes);
    st_verdict : self_ix_verdict solve orig = Some (validate (linked raw) (length nodes));
    st_refines : refines orig fine;
    st_order : (forall k t xy, In (t, xy) (visits solve (pieces solve orig) k) -> 0 <= t <= 1) -> refines_in_order orig fine;
    st_part : exists k, concat (map consecutive (map acps raw)) = rotl k (path_segments fine true);
    st_ends : Forall (fun a => exists p mid z, acps a = p :: mid ++ [z] /\ near_node orig nodes p (fst (fst a)) /\ near_node orig nodes z (snd a)) raw;
    st_nodup : NoDup nodes;
    st_from : forall q, In q nodes -> In q (map snd (flat_map both (crossings solve (pieces solve orig))));
    st_lefts : map (fun a => fst (fst a)) raw = W;
    st_rights : map snd raw = rotl 1 W;
    st_word : Forall2 (fun n i => nth_error nodes n = Some (snd i)) W
                (flat_map (fun k => sort_ixs (visits solve (pieces solve orig) k)) (seq 0 (length (pieces solve orig)))) }.

  Lemma flat_map_sort_perm ps l : Permutation (flat_map (visits solve ps) l) (flat_map (fun k => sort_ixs (visits solve ps k)) l).
  Proof. apply flat_map_perm_ext. intro k. apply sort_perm. Qed.

  Lemma curves_in orig c : In c (curves_of solve (all_curves solve orig)) -> exists k,
    nth_error (pieces solve orig) k = Some (sg_a (fst c), sg_b (fst c)) /\ snd c = visits solve (pieces solve orig) k.
  Proof.
    intro H. pose proof (curves_visits solve (all_curves solve orig)) as CV. rewrite all_curves_pieces in CV.
    assert (L : length (all_curves solve orig) = length (pieces solve orig)). { rewrite <- all_curves_pieces, map_length. reflexivity. }
    rewrite L in CV. revert CV H. generalize (curves_of solve (all_curves solve orig)). intro cv.
    set (ps := pieces solve orig) in *.
    assert (G : forall l s cv, Forall2 (fun (pk : (cpoint R * cpoint R) * nat) (cv : seg R * list (@ix R)) => ends_of (fst cv) = fst pk /\ snd cv = visits solve ps (snd pk))
        (combine l (seq s (length l))) cv -> In c cv -> exists k, nth_error l k = Some (sg_a (fst c), sg_b (fst c)) /\ snd c = visits solve ps (s + k)).
    { clear. induction l as [|p l IH]; intros s cv CV H; cbn [length seq combine] in CV; inversion CV as [|? ? ? ? [E1 E2] CV']; subst; [destruct H|].
      destruct H as [<-|H].
      - exists 0%nat. cbn [nth_error fst snd] in *. split; [now rewrite <- E1|]. now rewrite Nat.add_0_r.
      - destruct (IH _ _ CV' H) as (k & K1 & K2). exists (S k). split; [exact K1|]. rewrite K2. f_equal. lia. }
    intros CV H. exact (G ps 0%nat cv CV H).
  Qed.
  Lemma curves_placed orig : placed (spot orig) (curves_of solve (all_curves solve orig)).
  Proof.
    apply Forall_forall. intros c Hc i Hi. destruct (curves_in orig c Hc) as (k & K1 & K2).
    exists k, (sg_a (fst c), sg_b (fst c)). split; [exact K1|]. split; [|reflexivity].
    rewrite <- K2. exact (Permutation_in i (Permutation_sym (sort_perm (snd c))) Hi).
  Qed.
  Lemma curves_excused orig e : excused (curves_of solve (all_curves solve orig)) e -> bad_answer orig e.
  Proof.
    intros (c & Hc & E). destruct (curves_in orig c Hc) as (k & K1 & K2).
    assert (G : forall i, In i (sort_ixs (snd c)) -> In i (visits solve (pieces solve orig) k)).
    { intros i Hi. rewrite <- K2. exact (Permutation_in i (Permutation_sym (sort_perm (snd c))) Hi). }
    destruct E as [(E & i & I1 & I2)|(E & i & I1 & I2)]; exists k, (sg_a (fst c), sg_b (fst c)), i; auto.
  Qed.

  Lemma stage_or orig : crossings solve (pieces solve orig) <> [] ->
    (exists e, bez_self_intersect solve orig = Raise e /\ bad_answer orig e /\ self_ix_verdict solve orig = None) \/
    exists nodes fine raw W, staged orig nodes fine raw W.
  Proof.
    intro HX. set (segs := all_curves solve orig).
    assert (HF : found (answers solve segs) = true).
    { apply found_crossings. unfold segs. now rewrite all_curves_pieces. }
    assert (Eo : exists a l, orig = a :: l). { destruct orig as [|a l]; [exfalso; apply HX; reflexivity|eauto]. }
    destruct Eo as (a & l & Eo).
    destruct (all_curves_chain solve orig a l Eo) as [C1 C2]. fold segs in C1, C2.
    assert (NS : segs <> []).
    { intro Q. unfold segs in Q. apply HX. rewrite <- all_curves_pieces, Q. reflexivity. }
    pose proof (merge_all_spec (spot orig) (curves_of solve segs) (curves_placed orig)) as MS.
    assert (NC : curves_of solve segs <> []). { destruct segs; [congruence|]. unfold curves_of. cbn. discriminate. }
    specialize (MS NC). 
    assert (CH : chainedp (cc a) (curves_of solve segs)) by (now apply chainedp_chseg).
    specialize (MS (ex_intro (fun p => chainedp p (curves_of solve segs)) (cc a) CH)).
    assert (Run : bez_self_intersect solve orig =
        match snd (merge_all [] [] (curves_of solve segs)) with
        | Raise e => Raise e
        | Ok nodes => bind (rotate_first (close_up (fst (merge_all [] [] (curves_of solve segs)))))
             (fun cpbs => bind (build_graph cpbs) (fun edges => all_cycles (length edges) edges (length nodes)))
        end).
    { unfold bez_self_intersect, bez_self_intersect_full. fold segs. rewrite HF. cbn [negb].
      change (map (fun ks : nat * seg R => (snd ks, ixs_of (answers solve segs) (fst ks))) (combine (seq 0 (length segs)) segs)) with (curves_of solve segs).
      destruct (merge_all [] [] (curves_of solve segs)) as [cpbs [nodes|e]]; reflexivity. }
    assert (Say : self_ix_verdict solve orig =
        match snd (merge_all [] [] (curves_of solve segs)) with
        | Raise e => None
        | Ok nodes =>
            match bind (rotate_first (close_up (fst (merge_all [] [] (curves_of solve segs)))))
               (fun cpbs => bind (build_graph cpbs) (fun edges => Ok (validate edges (length nodes)))) with
            | Ok b => Some b | Raise _ => None end
        end).
    { unfold self_ix_verdict. fold segs. rewrite HF. cbn [negb].
      change (map (fun ks : nat * seg R => (snd ks, ixs_of (answers solve segs) (fst ks))) (combine (seq 0 (length segs)) segs)) with (curves_of solve segs).
      destruct (merge_all [] [] (curves_of solve segs)) as [cpbs [nodes|e]]; reflexivity. }
    destruct (merge_all [] [] (curves_of solve segs)) as [cpbs [nodes|e]]; cbn [fst snd] in Run, Say.
    2: { left. exists e. split; [exact Run|]. split; [|exact Say]. apply curves_excused. exact MS. }
    right. destruct MS as (ND & From & locals & p & Ch & LO & WO).
    assert (Ep : p = cc a). { destruct (curves_of solve segs); [congruence|]. destruct Ch, CH. congruence. } subst p.
    unfold curves_of in WO at 1. rewrite end_of_endseg, C2 in WO.
    destruct (close_up_spec _ _ _ _ _ _ WO) as (f & m & E1 & E2 & E3 & E4 & E5).
    set (fine := map (@cb_cp R) (close_up cpbs)) in *.
    rewrite (flat_map_curves solve sort_ixs) in E4.
    assert (LP : length segs = length (pieces solve orig)). { rewrite <- all_curves_pieces, map_length. reflexivity. }
    assert (EP : map ends_of segs = pieces solve orig) by apply all_curves_pieces.
    rewrite LP, EP in E4.
    assert (NF : filter has_node (close_up cpbs) <> []).
    { intro Q. rewrite Q in E4. apply F2_length in E4. cbn [length] in E4.
      assert (P2 : length (flat_map both (crossings solve (pieces solve orig))) = 0%nat).
      { etransitivity; [symmetry; exact (Permutation_length (visits_perm solve (pieces solve orig)))|].
        etransitivity; [exact (Permutation_length (flat_map_sort_perm (pieces solve orig) (seq 0 (length (pieces solve orig)))))|].
        symmetry. exact E4. }
      destruct (crossings solve (pieces solve orig)); [congruence|discriminate]. }
    destruct (rotate_first_spec _ NF) as (pre & c & n & post & S1 & S2 & S3 & S4).
    rewrite S2 in Run, Say. cbn [bind] in Run, Say. rewrite (build_graph_spec _ _ _ S3) in Run, Say. cbn [bind] in Run, Say.
    set (raw := arcs [cb_cp c] n ((post ++ pre) ++ [c])) in *.
    exists nodes, fine, raw, (word (close_up cpbs)).
    assert (Wd : word (close_up cpbs) = n :: word post).
    { rewrite S1, word_app. unfold word at 1. rewrite S4. cbn [map app]. now apply word_cons_node. }
    assert (Wpre : word pre = []) by (unfold word; now rewrite S4).
    destruct (refines_parts solve (spot orig) orig nodes locals fine) as [R1 R2]; auto.
    constructor; auto.
    - rewrite Run. f_equal. apply linked_length.
    - exists (length pre). unfold raw. rewrite arcs_partition.
      + assert (Ef : fine = map (@cb_cp R) pre ++ cb_cp c :: map (@cb_cp R) post) by (unfold fine; now rewrite S1, map_app).
        rewrite Ef, <- (map_length (@cb_cp R) pre).
        etransitivity; [|exact (path_segments_rotate (map (@cb_cp R) pre) (cb_cp c) (map (@cb_cp R) post))].
        unfold path_segments. cbn [app]. rewrite !map_app. reflexivity.
      + discriminate.
      + intro Q. destruct (post ++ pre); discriminate.
      + intro d. left. rewrite last_last. unfold has_node. now rewrite S3.
    - unfold raw.
      assert (NN : forall c' n', In c' (close_up cpbs) -> cb_node c' = Some n' -> near_node orig nodes (cb_cp c') n').
      { intros c' n' Hin Hn'. assert (Q : In c' (filter has_node (close_up cpbs))).
        { apply filter_In. split; auto. unfold has_node. now rewrite Hn'. }
        clear - E4 Q Hn'. induction E4 as [|x y xs ys Hxy]; [destruct Q|]. destruct Q as [<-|Q]; auto.
        destruct Hxy as (k & K1 & K2 & K3). exists y. split; [congruence|]. exact K3. }
      apply (arcs_ends (near_node orig nodes) ((post ++ pre) ++ [c]) [cb_cp c] n (cb_cp c) []); auto.
      + apply NN; auto. rewrite S1. apply in_or_app. right. now left.
      + intros c' n' Hin. apply NN. rewrite S1. apply in_app_or in Hin.
        destruct Hin as [Hin|[->|[]]]; [|apply in_or_app; right; now left].
        apply in_app_or in Hin. apply in_or_app. destruct Hin; [right; now right|now left].
    - intros q Hq. specialize (From q Hq). rewrite (flat_map_curves solve (fun l => map snd (sort_ixs l))), LP, EP in From.
      rewrite <- (Permutation_map snd (visits_perm solve (pieces solve orig))).
      rewrite flat_map_concat_map, concat_map, map_map, <- flat_map_concat_map.
      apply in_flat_map in From. destruct From as (k & K1 & K2). apply in_flat_map. exists k. split; auto.
      apply (Permutation_in _ (Permutation_map snd (Permutation_sym (sort_perm (visits solve (pieces solve orig) k))))). exact K2.
    - unfold raw. rewrite arcs_lefts, !word_app, Wpre, app_nil_r, (word_cons_node _ _ _ S3), Wd.
      change (word []) with (@nil nat). change (n :: word post ++ [n]) with ((n :: word post) ++ [n]). apply removelast_last.
    - unfold raw. rewrite arcs_rights, !word_app, Wpre, app_nil_r, (word_cons_node _ _ _ S3), Wd. reflexivity.
    - unfold word. clear - E4. revert E4. set (L := flat_map (fun k : nat => sort_ixs (visits solve (pieces solve orig) k)) (seq 0 (length (pieces solve orig)))).
      intro E4. induction E4 as [|x y xs ys Hxy]; [constructor|]. cbn [map]. constructor; auto. destruct Hxy as (k & K1 & K2 & _).
      unfold node_num. now rewrite K1.
  Qed.

  Lemma stage orig : crossings solve (pieces solve orig) <> [] ->
    (exists e, bez_self_intersect solve orig = Raise e /\ bad_answer orig e) \/
    exists nodes fine raw W, staged orig nodes fine raw W.
  Proof. intros H. destruct (stage_or orig H) as [(e & E & B & _)|S]; [left; eauto|now right]. Qed.

  Lemma word_length orig nodes fine raw W : staged orig nodes fine raw W ->
    length W = (2 * length (crossings solve (pieces solve orig)))%nat.
  Proof.
    intros S. rewrite (F2_length _ _ _ (st_word _ _ _ _ _ S)).
    rewrite <- (Permutation_length (flat_map_sort_perm _ _)), (Permutation_length (visits_perm solve _)).
    induction (crossings solve (pieces solve orig)); cbn in *; lia.
  Qed.
End Stage.

(* ---------------- gaps ---------------- *)
Section Gaps.
  Definition sumR (l : list R) : R := fold_right Rplus 0 l.
  Lemma sumR_perm l m : Permutation l m -> sumR l = sumR m.
  Proof. unfold sumR. induction 1; cbn; lra. Qed.

  Variables (s z : nat -> R) (c : nat -> R) (lfn rtn : nat -> nat) (delta eps : R).
  Fixpoint close_chain (O : list nat) : Prop :=
    match O with
    | i :: ((j :: _) as l) => Rabs (z i - s j) <= eps /\ close_chain l
    | _ => True
    end.
  Lemma telescope : forall O i d, close_chain (i :: O) ->
    Rabs (z (last (i :: O) d) - s i - sumR (map (fun k => z k - s k) (i :: O))) <= INR (length O) * eps.
  Proof.
    induction O as [|j O IH]; intros i d H.
    - cbn. replace (z i - s i - (z i - s i + 0)) with 0 by ring. rewrite Rabs_R0. lra.
    - destruct H as [H1 H2]. specialize (IH j d H2). change (last (i :: j :: O) d) with (last (j :: O) d).
      change (sumR (map (fun k => z k - s k) (i :: j :: O))) with ((z i - s i) + sumR (map (fun k => z k - s k) (j :: O))).
      change (length (j :: O)) with (S (length O)). rewrite S_INR.
      replace (z (last (j :: O) d) - s i - (z i - s i + sumR (map (fun k => z k - s k) (j :: O))))
        with ((z (last (j :: O) d) - s j - sumR (map (fun k => z k - s k) (j :: O))) - (z i - s j)) by ring.
      eapply Rle_trans; [apply Rabs_triang|]. rewrite Rabs_Ropp. lra.
  Qed.
  Fixpoint back (T : list nat) : Prop :=
    match T with
    | i :: ((j :: _) as l) => rtn j = lfn i /\ back l
    | _ => True
    end.
  Lemma cycle_sum : forall T i d, back (i :: T) ->
    Forall (fun k => Rabs (s k - c (lfn k)) <= delta /\ Rabs (z k - c (rtn k)) <= delta) (i :: T) ->
    Rabs (sumR (map (fun k => z k - s k) (i :: T)) - (c (rtn i) - c (lfn (last (i :: T) d)))) <= INR (length (i :: T)) * (2 * delta).
  Proof.
    induction T as [|j T IH]; intros i d H HF; inversion HF as [|? ? [F1 F2] HF']; subst.
    - cbn. replace (z i - s i + 0 - (c (rtn i) - c (lfn i))) with ((z i - c (rtn i)) - (s i - c (lfn i))) by ring.
      eapply Rle_trans; [apply Rabs_triang|]. rewrite Rabs_Ropp. lra.
    - destruct H as [H1 H2]. specialize (IH j d H2 HF'). change (last (i :: j :: T) d) with (last (j :: T) d).
      change (sumR (map (fun k => z k - s k) (i :: j :: T))) with ((z i - s i) + sumR (map (fun k => z k - s k) (j :: T))).
      change (length (i :: j :: T)) with (S (length (j :: T))). rewrite S_INR. rewrite H1 in IH.
      replace (z i - s i + sumR (map (fun k => z k - s k) (j :: T)) - (c (rtn i) - c (lfn (last (j :: T) d))))
        with ((sumR (map (fun k => z k - s k) (j :: T)) - (c (lfn i) - c (lfn (last (j :: T) d)))) + ((z i - c (rtn i)) - (s i - c (lfn i)))) by ring.
      eapply Rle_trans; [apply Rabs_triang|].
      assert (Rabs ((z i - c (rtn i)) - (s i - c (lfn i))) <= 2 * delta).
      { eapply Rle_trans; [apply Rabs_triang|]. rewrite Rabs_Ropp. lra. }
      lra.
  Qed.
  Lemma gap cyc O : cyc <> [] -> 0 <= eps -> back cyc -> rtn (hd 0%nat cyc) = lfn (last cyc 0%nat) ->
    Forall (fun k => Rabs (s k - c (lfn k)) <= delta /\ Rabs (z k - c (rtn k)) <= delta) cyc ->
    Permutation O cyc -> close_chain O ->
    Rabs (z (last O 0%nat) - s (hd 0%nat O)) <= INR (length O) * (2 * delta + eps).
  Proof.
    intros N He HB HC HF HP HO. destruct cyc as [|i T]; [congruence|].
    pose proof (cycle_sum T i 0%nat HB HF) as G1. cbn [hd] in HC. rewrite HC in G1.
    replace (c (lfn (last (i :: T) 0%nat)) - c (lfn (last (i :: T) 0%nat))) with 0 in G1 by ring. rewrite Rminus_0_r in G1.
    destruct O as [|o O]; [apply Permutation_nil in HP; discriminate|].
    pose proof (telescope O o 0%nat HO) as G2. cbn [hd].
    rewrite (sumR_perm _ _ (Permutation_map (fun k => z k - s k) HP)) in G2.
    rewrite <- (Permutation_length HP) in G1.
    set (X := sumR _) in *. set (Y := z (last (o :: O) 0%nat)) in *.
    replace (Y - s o) with ((Y - s o - X) + X) by ring. eapply Rle_trans; [apply Rabs_triang|].
    change (length (o :: O)) with (S (length O)) in *. rewrite S_INR in *. nra.
  Qed.
End Gaps.

Lemma abs_px_le (p q : pt R) : Rabs (px p - px q) <= v_length (p_sub p q).
Proof.
  unfold v_length, p_sub. cbn. rewrite <- sqrt_Rsqr_abs. apply sqrt_le_1_alt. unfold Rsqr.
  pose proof (Rle_0_sqr (py p - py q)). unfold Rsqr in *. lra.
Qed.
Lemma abs_py_le (p q : pt R) : Rabs (py p - py q) <= v_length (p_sub p q).
Proof.
  unfold v_length, p_sub. cbn. rewrite <- sqrt_Rsqr_abs. apply sqrt_le_1_alt. unfold Rsqr.
  pose proof (Rle_0_sqr (px p - px q)). unfold Rsqr in *. lra.
Qed.
Lemma dist_length (p q : pt R) : dist p q = v_length (p_sub p q).
Proof. unfold dist, v_length, p_sub. cbn. f_equal. ring. Qed.
Lemma dist_sym p q : dist p q = dist q p.
Proof. unfold dist. f_equal. ring. Qed.
