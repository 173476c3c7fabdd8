(* Property theorems C19 and C25: live points, their equality and copies. *)
Require Import Verif.L_real Verif.M_vector Verif.M_points Verif.S_points Verif.L_points Verif.L_vector Verif.NumFloat.
From Coq Require Import List Lia Lra Arith Wf_nat String Floats.
Import ListNotations.
Local Open Scope list_scope.

(* ---------------------------------------------------------------- *)
(** ** C19 where a live point is *)

(* xy() returns the position built from the current bases, whatever happened before *)
Theorem C19_position {F} {NF : Num F} (st : pstore F) (i : nat) (p : pt F) : reachable st ->
  (pos st i = Ok p <-> located st i p).
Proof. intros H. apply pos_located, reachable_wf, H. Qed.

(* ... and an existing object has a position unless it is built on a PointCalc over a PointCalc *)
Theorem C19_position_fails {F} {NF : Num F} (st : pstore F) (i : nat) : reachable st -> (i < List.length st)%nat ->
  (calc_on_calc st i -> pos st i = Raise AttributeError) /\
  (~ calc_on_calc st i -> exists p, pos st i = Ok p).
Proof.
  intros H Hi. pose proof (reachable_wf _ H) as W. destruct (pos_fails st W i Hi) as [[p Hp]|[Hp C]].
  - split; [|eauto]. intros C. exfalso. eapply calc_on_calc_fails; eauto.
  - split; [auto|]. intros N. contradiction.
Qed.

Lemma rests_unique {F} {NF : Num F} (st : pstore F) i k : rests st i k -> forall k', rests st i k' -> k = k'.
Proof.
  induction 1; intros k' R; inversion R; subst; try congruence.
  - rewrite H in H1. inversion H1; subst. auto.
  - rewrite H in H2. inversion H2; subst. rewrite H0 in H3. inversion H3; subst. auto.
Qed.
(* every point that has a position rests on exactly one absolute point *)
Theorem C19_rests {F} {NF : Num F} (st : pstore F) (i : nat) (p : pt F) : located st i p ->
  exists k x y n, rests st i k /\ nth_error st k = Some (NPoint x y n) /\ forall k', rests st i k' -> k' = k.
Proof.
  intros L. assert (exists k x y n, rests st i k /\ nth_error st k = Some (NPoint x y n)) as (k & x & y & n & R & E).
  { induction L.
    - exists i, x, y, n. split; auto. econstructor; eauto.
    - destruct IHL as (k & x & y & m & R & E). exists k, x, y, m. split; auto. eapply rest_rel; eauto.
    - destruct IHL as (k & x & y & m & R & E). exists k, x, y, m. split; auto. eapply rest_calc; eauto. }
  exists k, x, y, n. split; auto. split; auto. intros. eapply rests_unique; eauto.
Qed.

Lemma upd_point_pos {F} {NF : Num F} (st : pstore F) k x0 y0 n x y (i : nat) :
  wf st -> nth_error st k = Some (NPoint x0 y0 n) -> ~ rests st i k ->
  pos (upd st k (NPoint x y n)) i = pos st i.
Proof.
  intros W Hk. assert (W' : wf (upd st k (NPoint x y n))) by (eapply wf_upd; eauto; exact I).
  pose proof (nth_lt _ _ _ Hk) as Lk.
  induction i as [i IH] using lt_wf_ind. intros N.
  rewrite (pos_eq _ i W), (pos_eq _ i W'), nth_upd by auto.
  destruct (Nat.eqb_spec i k) as [->|Nk]; [exfalso; apply N; econstructor; eauto|].
  destruct (nth_error st i) as [e|] eqn:E; auto. pose proof (W i e E) as [B Bc].
  destruct e as [x1 y1 m|dx dy b m|b s m]; auto.
  - specialize (B b eq_refl). rewrite IH; auto. intros R. apply N. eapply rest_rel; eauto.
  - specialize (B b eq_refl). rewrite nth_upd by auto. destruct (Nat.eqb_spec b k) as [->|Nb].
    + exfalso. eapply Bc; eauto.
    + destruct (nth_error st b) as [e|] eqn:Eb; auto. pose proof (W b e Eb) as [B2 _].
      destruct e as [x1 y1 m1|dx dy bb m1|bb s' m1]; auto.
      * specialize (B2 bb eq_refl). rewrite IH; auto; [lia|]. intros R. apply N. eapply rest_calc; eauto.
      * specialize (B2 bb eq_refl). 
        (* the value does not matter here, only whether it fails *)
        assert (Fl : forall st1 : pstore F, (let* p := pos st1 bb in Raise AttributeError) =
             match pos st1 bb with Ok _ => Raise AttributeError | Raise e => @Raise (pt F) e end) by reflexivity.
        rewrite !Fl.
        destruct (pos_fails _ W bb ltac:(apply nth_lt in Eb; lia)) as [[p Hp]|[Hp _]]; rewrite Hp.
        -- destruct (pos_fails _ W' bb ltac:(rewrite upd_length by auto; apply nth_lt in Eb; lia)) as [[q Hq]|[Hq _]]; rewrite Hq; auto.
        -- destruct (pos_fails _ W' bb ltac:(rewrite upd_length by auto; apply nth_lt in Eb; lia)) as [[q Hq]|[Hq _]]; rewrite Hq; auto.
Qed.

(* Moving an absolute point leaves everything that does not rest on it where it was. *)
Theorem C19_move_others {F} {NF : Num F} (st : pstore F) (k i : nat) (x y : F) : reachable st ->
  ~ rests st i k -> pos (fst (pstep st (PSetxy k x y))) i = pos st i.
Proof.
  intros H N. cbn [pstep]. destruct (nth_error st k) as [[]|] eqn:E; cbn [fst]; auto.
  eapply upd_point_pos; eauto. apply reachable_wf, H.
Qed.

(* Moving an absolute point moves everything that rests on it by the same amount. *)
Theorem C19_move_dependents (st : pstore R) (k i : nat) (x0 y0 x y : R) (n : name) (p : pt R) : reachable st ->
  nth_error st k = Some (NPoint x0 y0 n) -> rests st i k -> pos st i = Ok p ->
  pos (fst (pstep st (PSetxy k x y))) i = Ok (P (px p + (x - x0)) (py p + (y - y0))).
Proof.
  intros H Hk Hr Hp. pose proof (reachable_wf _ H) as W. cbn [pstep]. rewrite Hk. cbn [fst].
  assert (W' : wf (upd st k (NPoint x y n))) by (eapply wf_upd; eauto; exact I).
  pose proof (nth_lt _ _ _ Hk) as Lk.
  apply (pos_located _ W) in Hp. apply (pos_located _ W').
  assert (X := nth_upd st k (NPoint x y n) Lk).
  revert p Hp. induction Hr; intros p L.
  - inversion L; subst; try congruence. rewrite Hk in H1. inversion H1; subst.
    replace (P _ _) with (P x y) by (apply pnt_ext; cbn; lra).
    eapply loc_point. rewrite X, Nat.eqb_refl. reflexivity.
  - inversion L; subst; try congruence. rewrite H0 in H1. inversion H1; subst.
    specialize (IHHr Hk W' Lk X _ H2).
    replace (P _ _) with (P (dx0 + px (P (px p0 + (x - x0)) (py p0 + (y - y0))))%num
                            (dy0 + py (P (px p0 + (x - x0)) (py p0 + (y - y0))))%num)
      by (apply pnt_ext; cbn; lra).
    eapply loc_rel; eauto. rewrite X. destruct (Nat.eqb_spec i k); [subst; congruence|eauto].
  - inversion L; subst; try congruence. rewrite H0 in H2. inversion H2; subst.
    rewrite H1 in H3. inversion H3; subst.
    specialize (IHHr Hk W' Lk X _ H4).
    replace (P _ _) with (P (s0 * dx0 + px (P (px p0 + (x - x0)) (py p0 + (y - y0))))%num
                            (s0 * dy0 + py (P (px p0 + (x - x0)) (py p0 + (y - y0))))%num)
      by (apply pnt_ext; cbn; lra).
    eapply loc_calc; eauto.
    + rewrite X. destruct (Nat.eqb_spec i k); [subst; congruence|eauto].
    + rewrite X. destruct (Nat.eqb_spec b0 k); [subst; congruence|eauto].
Qed.

(* Creating objects disturbs none of the existing ones. *)
Theorem C19_create_disturbs_nothing {F} {NF : Num F} (st : pstore F) (o : pop F) (i : nat) : reachable st ->
  (forall k, ~ assigns k o) -> (i < List.length st)%nat -> pos (fst (pstep st o)) i = pos st i.
Proof.
  intros H A Hi. pose proof (pstep_wf st o (reachable_wf _ H)) as W.
  destruct (pstep_shape st o) as [[d E]|[E|(k & d & e & _ & _ & _ & C & _)]].
  - rewrite E in *. apply pos_app; auto.
  - rewrite E. reflexivity.
  - exfalso. apply (A k C).
Qed.

(* the gain is a function of the object *)
Lemma gain_unique (st : pstore R) j i c : gain st j i c -> forall c', gain st j i c' -> c = c'.
Proof.
  induction 1; intros c' G; inversion G; subst; try congruence.
  - rewrite H in H1. inversion H1; subst. rewrite (IHgain _ H2). reflexivity.
  - rewrite H in H2. inversion H2; subst. rewrite H0 in H3. inversion H3; subst. rewrite (IHgain _ H4). reflexivity.
Qed.
(* Changing the offset of a relative point j by delta moves every object by its gain times delta:
   1 for j and what is relative to it, the scale for a PointCalc over j, 0 for the rest. *)
Theorem C19_set_offset (st : pstore R) (j i b : nat) (dx0 dy0 dx dy c : R) (n : name) (p : pt R) : reachable st ->
  nth_error st j = Some (NRel dx0 dy0 b n) -> gain st j i c -> pos st i = Ok p ->
  pos (fst (pstep st (PSetD j dx dy))) i = Ok (P (px p + c * (dx - dx0)) (py p + c * (dy - dy0))).
Proof.
  intros H Hk G Hp. pose proof (reachable_wf _ H) as W. cbn [pstep]. rewrite Hk. cbn [fst].
  assert (W' : wf (upd st j (NRel dx dy b n))) by (eapply wf_upd; eauto; reflexivity).
  pose proof (nth_lt _ _ _ Hk) as Lk.
  apply (pos_located _ W) in Hp. apply (pos_located _ W').
  assert (X := nth_upd st j (NRel dx dy b n) Lk).
  revert p Hp. induction G as [i x y m E|i dx1 dy1 b1 m c E G IH|i b1 s m dx1 dy1 bb m' c E Eb G IH]; intros p L.
  - inversion L as [i' x' y' m1 E1|i' dx' dy' b' m1 p' E1|i' b' s' m1 dx' dy' bb' m2 p' E1]; subst; rewrite E in E1; inversion E1; subst.
    replace (P _ _) with (P x' y') by (apply pnt_ext; cbn; lra).
    eapply loc_point. rewrite X. destruct (Nat.eqb_spec i j); [subst; congruence|eauto].
  - inversion L as [i' x' y' m1 E1|i' dx' dy' b' m1 p' E1 L1|i' b' s' m1 dx' dy' bb' m2 p' E1]; subst; rewrite E in E1; inversion E1; subst.
    specialize (IH _ L1).
    destruct (Nat.eqb_spec i j).
    + subst. rewrite Hk in E. inversion E; subst.
      replace (P _ _) with (P (dx + px (P (px p' + c * (dx - dx')) (py p' + c * (dy - dy'))))%num
                            (dy + py (P (px p' + c * (dx - dx')) (py p' + c * (dy - dy'))))%num)
      by (apply pnt_ext; cbn -[IZR]; lra).
      eapply loc_rel; eauto. rewrite X, Nat.eqb_refl. reflexivity.
    + replace (P _ _) with (P (dx' + px (P (px p' + c * (dx - dx0)) (py p' + c * (dy - dy0))))%num
                            (dy' + py (P (px p' + c * (dx - dx0)) (py p' + c * (dy - dy0))))%num)
      by (apply pnt_ext; cbn -[IZR]; lra).
      eapply loc_rel; eauto. rewrite X. destruct (Nat.eqb_spec i j); [congruence|eauto].
  - inversion L as [i' x' y' m1 E1|i' dx' dy' b' m1 p' E1 L1|i' b' s' m1 dx' dy' bb' m2 p' E1 Eb1 L1]; subst; rewrite E in E1; inversion E1; subst.
    rewrite Eb in Eb1. inversion Eb1; subst. specialize (IH _ L1).
    assert (Ei : nth_error (upd st j (NRel dx dy b n)) i = Some (NCalc b' s' m1)).
    { rewrite X. destruct (Nat.eqb_spec i j); [subst; congruence|eauto]. }
    destruct (Nat.eqb_spec b' j).
    + subst. rewrite Hk in Eb. inversion Eb; subst.
      replace (P _ _) with (P (s' * dx + px (P (px p' + c * (dx - dx')) (py p' + c * (dy - dy'))))%num
                            (s' * dy + py (P (px p' + c * (dx - dx')) (py p' + c * (dy - dy'))))%num)
      by (apply pnt_ext; cbn -[IZR]; lra).
      eapply loc_calc; eauto. rewrite X, Nat.eqb_refl. reflexivity.
    + replace (P _ _) with (P (s' * dx' + px (P (px p' + c * (dx - dx0)) (py p' + c * (dy - dy0))))%num
                            (s' * dy' + py (P (px p' + c * (dx - dx0)) (py p' + c * (dy - dy0))))%num)
      by (apply pnt_ext; cbn -[IZR]; lra).
      eapply loc_calc; eauto. rewrite X. destruct (Nat.eqb_spec b' j); [congruence|eauto].
Qed.
(* every point that has a position has a gain, so the theorem above covers all of them *)
Theorem C19_gain_total (st : pstore R) (j i : nat) (p : pt R) : located st i p -> exists c, gain st j i c.
Proof.
  induction 1.
  - eexists. eapply gain_point; eauto.
  - destruct IHlocated as [c G]. eexists. eapply gain_rel; eauto.
  - destruct IHlocated as [c G]. eexists. eapply gain_calc; eauto.
Qed.

(* PointRelative.fromxy makes a point that is where it was asked to be *)
Theorem C19_fromxy_exact (st : pstore R) (x y : R) (b k : nat) : reachable st ->
  snd (pstep st (PFromxy x y b)) = Ok k ->
  let st' := fst (pstep st (PFromxy x y b)) in
  pos st' k = Ok (P x y) /\
  exists dx dy, nth_error st' k = Some (NRel dx dy b None).
Proof.
  intros H E. pose proof (pstep_wf st (PFromxy x y b) (reachable_wf _ H)) as W. cbn [pstep] in *.
  destruct (pos st b) as [p|] eqn:Ep; cbn [fst snd] in *; [|discriminate]. inversion E; subst.
  assert (N : nth_error (st ++ [NRel (x - px p)%num (y - py p)%num b None]) (List.length st) = Some (NRel (x - px p)%num (y - py p)%num b None)).
  { rewrite nth_error_app2, Nat.sub_diag by lia. reflexivity. }
  split; [|eauto]. rewrite pos_eq, N by auto.
  assert (Hb : (b < List.length st)%nat).
  { destruct (W _ _ N) as [B _]. exact (B b eq_refl). }
  rewrite pos_app, Ep by auto. cbn. do 2 f_equal; lra.
Qed.
(* ... but only up to rounding in floating point *)
Theorem C19_fromxy_float_refuted : exists (st : pstore float) (x y : float),
  reachable st /\
  match pos (fst (pstep st (PFromxy x y 0))) 1 with
  | Ok p => PrimFloat.eqb (px p) x = false
  | Raise _ => False
  end.
Proof.
  exists (prun [PNew 100000000000000000%float 0%float None] []), 1%float, 0%float.
  split; [eexists; reflexivity|]. vm_compute. reflexivity.
Qed.

(* VectorRelative is the current difference; it follows moves of either end *)
Theorem C19_vector_relative (st : pstore R) (v : vrel) (k : nat) (x0 y0 x y : R) (n : name) (w : vec R) : reachable st ->
  nth_error st k = Some (NPoint x0 y0 n) -> vr_xy st v = Ok w ->
  let st' := fst (pstep st (PSetxy k x y)) in
  let d := V (x - x0) (y - y0) in
  (rests st (vr_p1 v) k -> ~ rests st (vr_p2 v) k -> vr_xy st' v = Ok (v_add w d)) /\
  (~ rests st (vr_p1 v) k -> rests st (vr_p2 v) k -> vr_xy st' v = Ok (v_sub w d)) /\
  (rests st (vr_p1 v) k -> rests st (vr_p2 v) k -> vr_xy st' v = Ok w) /\
  (~ rests st (vr_p1 v) k -> ~ rests st (vr_p2 v) k -> vr_xy st' v = Ok w).
Proof.
  intros H Hk Hv st' d. unfold vr_xy in *.
  destruct (pos st (vr_p1 v)) as [p|] eqn:E1; cbn [bind] in Hv; [|discriminate].
  destruct (pos st (vr_p2 v)) as [q|] eqn:E2; cbn [bind] in Hv; [|discriminate].
  inversion Hv; subst w.
  assert (M : forall i r, pos st i = Ok r -> rests st i k -> pos st' i = Ok (P (px r + (x - x0)) (py r + (y - y0))))
    by (intros; eapply C19_move_dependents; eauto).
  assert (N : forall i, ~ rests st i k -> pos st' i = pos st i) by (intros; apply C19_move_others; auto).
  repeat split; intros R1 R2.
  - rewrite (M _ _ E1 R1), (N _ R2), E2. cbn [bind]. f_equal. apply vec_ext; cbn; lra.
  - rewrite (M _ _ E2 R2), (N _ R1), E1. cbn [bind]. f_equal. apply vec_ext; cbn; lra.
  - rewrite (M _ _ E1 R1), (M _ _ E2 R2). cbn [bind]. f_equal. apply vec_ext; cbn; lra.
  - rewrite (N _ R1), (N _ R2), E1, E2. reflexivity.
Qed.
(* in every state it is p1 - p2, and its truth value is whether the ends differ *)
Theorem C19_vector_relative_value (st : pstore R) (v : vrel) : reachable st ->
  forall w, (vr_xy st v = Ok w <-> exists p q, located st (vr_p1 v) p /\ located st (vr_p2 v) q /\ w = V (px p - px q) (py p - py q)) /\
  (vr_xy st v = Ok w -> exists b, vr_bool st v = Ok b /\ (b = true <-> w <> V 0 0)).
Proof.
  intros H w. pose proof (reachable_wf _ H) as W. split.
  - unfold vr_xy. split.
    + destruct (pos st (vr_p1 v)) as [p|] eqn:E1; cbn [bind]; [|discriminate].
      destruct (pos st (vr_p2 v)) as [q|] eqn:E2; cbn [bind]; [|discriminate].
      intros E. inversion E. exists p, q. split; [apply pos_located; auto|]. split; [apply pos_located; auto|reflexivity].
    + intros (p & q & L1 & L2 & ->). apply (pos_located _ W) in L1, L2. rewrite L1, L2. reflexivity.
  - intros E. unfold vr_bool. rewrite E. cbn [bind]. eexists. split; [reflexivity|].
    unfold v_bool. cbn -[IZR]. rewrite Bool.orb_true_iff, !Bool.negb_true_iff, !Reqb_neq. split.
    + intros C D. subst. cbn in C. lra.
    + intros C. destruct (Req_dec (vx w) 0); [right|left; auto]. intros D. apply C. apply vec_ext; auto.
Qed.
(* .p, which works on a Vector, fails on a VectorRelative *)
Theorem C19_vector_relative_p_refuted {F} (v : vrel) : @vr_p F v = Raise AttributeError.
Proof. reflexivity. Qed.

(* ---------------------------------------------------------------- *)
(** ** C25 fixed, copy and equality of live points *)

Lemma prun_point {F} {NF : Num F} (ops : list (pop F)) : forall (st : pstore F) k x y n,
  nth_error st k = Some (NPoint x y n) -> (forall o, In o ops -> ~ assigns k o) ->
  nth_error (prun ops st) k = Some (NPoint x y n).
Proof.
  induction ops as [|o ops IH]; intros st k x y n E A; auto.
  cbn. apply IH; [|intros; apply A; right; auto].
  pose proof (nth_lt _ _ _ E) as Lk.
  destruct (pstep_shape st o) as [[d D]|[D|(j & d & e & D & Ej & _ & C & _)]]; rewrite D; auto.
  - rewrite nth_error_app1; auto.
  - rewrite nth_upd by (eapply nth_lt; eauto). destruct (Nat.eqb_spec k j); [|auto].
    subst. exfalso. apply (A o (or_introl eq_refl) C).
Qed.

(* fixed() makes an absolute point at the current position, named fixed_<name>, which stays there
   whatever is done afterwards to any other object *)
Theorem C25_fixed {F} {NF : Num F} (st : pstore F) (i k : nat) (ops : list (pop F)) : reachable st ->
  snd (pstep st (PFixed i)) = Ok k ->
  let st' := fst (pstep st (PFixed i)) in
  k = List.length st /\ pos st' k = pos st i /\
  (exists x y n, nth_error st' k = Some (NPoint x y n) /\
     (exists d, nth_error st i = Some d /\
       n = match node_name d with
           | Some s => if String.eqb s "" then None else Some (String.append "fixed_" s)
           | None => None
           end)) /\
  ((forall o, In o ops -> ~ assigns k o) -> pos (prun ops st') k = pos st i).
Proof.
  intros H E. pose proof (reachable_wf _ H) as W. pose proof (pstep_wf st (PFixed i) W) as W'.
  cbn [pstep] in *. destruct (nth_error st i) as [d|] eqn:Ei; cbn [fst snd] in *; [|discriminate].
  destruct (pos st i) as [p|] eqn:Ep; cbn [fst snd] in *; [|discriminate]. inversion E; subst k.
  match goal with |- context [st ++ [?d]] => set (nd := d) in *; assert (N : nth_error (st ++ [nd]) (List.length st) = Some nd)
    by (rewrite nth_error_app2, Nat.sub_diag by lia; reflexivity) end.
  cbv zeta. split; auto. split; [|split].
  - rewrite pos_eq, N by auto. cbn. destruct p; reflexivity.
  - unfold nd in *. do 3 eexists. split; [exact N|]. exists d. split; auto.
    unfold has_name. destruct (node_name d) as [s|]; auto. destruct (String.eqb s ""); reflexivity.
  - intros A. rewrite pos_eq by (apply prun_wf; auto).
    unfold nd in *. rewrite (prun_point ops _ _ _ _ _ N A). destruct p; reflexivity.
Qed.

(* copy() makes a new object at the same position; a copy of a relative point stays tied to the same base *)
Theorem C25_copy {F} {NF : Num F} (st : pstore F) (i k : nat) : reachable st ->
  snd (pstep st (PCopy i)) = Ok k ->
  let st' := fst (pstep st (PCopy i)) in
  k = List.length st /\ pos st' k = pos st i /\ pos st' i = pos st i /\
  (forall d, nth_error st i = Some d -> (forall x y n, d <> NPoint x y n) -> nth_error st' k = Some d).
Proof.
  intros H E. pose proof (reachable_wf _ H) as W. pose proof (pstep_wf st (PCopy i) W) as W'.
  assert (L : forall d, nth_error st i = Some d -> (i < List.length st)%nat) by (intros; eapply nth_lt; eauto).
  cbn [pstep] in *. destruct (nth_error st i) as [[x y n|dx dy b n|b s n]|] eqn:Ei; cbn [fst snd] in *; try discriminate;
    inversion E; subst k; specialize (L _ eq_refl); cbv zeta;
    match goal with |- context [st ++ [?d]] => set (nd := d) in *; assert (N : nth_error (st ++ [nd]) (List.length st) = Some nd)
      by (rewrite nth_error_app2, Nat.sub_diag by lia; reflexivity) end;
    (split; [reflexivity|]); (split; [|split; [apply pos_app; auto|]]);
    try (intros d Hd Hn; inversion Hd; subst; auto; exfalso; eapply Hn; reflexivity).
  - rewrite (pos_eq _ _ W'), (pos_eq _ i W), N, Ei. reflexivity.
  - rewrite (pos_eq _ _ W'), (pos_eq _ i W), N, Ei. unfold nd. 
    destruct (W _ _ Ei) as [B _]. specialize (B b eq_refl). rewrite pos_app by (auto; lia). reflexivity.
  - rewrite (pos_eq _ _ W'), (pos_eq _ i W), N, Ei. unfold nd.
    destruct (W _ _ Ei) as [B _]. specialize (B b eq_refl). rewrite nth_error_app1 by lia.
    destruct (nth_error st b) as [[x1 y1 m1|dx1 dy1 bb m1|bb s1 m1]|] eqn:Eb; auto;
      destruct (W _ _ Eb) as [B2 _]; specialize (B2 bb eq_refl); rewrite pos_app by (auto; lia); reflexivity.
Qed.

(* == on live points: reflexive, symmetric, and equal points are at equal positions *)
Lemma eqb_fuel (st : pstore R) : wf st -> forall f1 f2 i j, (i < f1)%nat -> (i < f2)%nat ->
  node_eqb f1 st i j = node_eqb f2 st i j.
Proof.
  intros W. induction f1 as [|f1 IH]; intros f2 i j H1 H2; [lia|]. destruct f2 as [|f2]; [lia|]. cbn [node_eqb].
  destruct (nth_error st i) as [d|] eqn:E; auto. pose proof (W i d E) as [B _].
  destruct d as [x y n|dx dy b n|b s n]; auto; destruct (nth_error st j) as [[x' y' n'|dx' dy' b' n'|b' s' n']|]; auto;
    specialize (B b eq_refl); rewrite (IH f2 b b') by lia; reflexivity.
Qed.
Lemma name_eqb_refl n : name_eqb n n = true.
Proof. destruct n; cbn; auto. apply String.eqb_refl. Qed.
Lemma name_eqb_eq n m : name_eqb n m = true <-> n = m.
Proof.
  destruct n, m; cbn; split; intros H; try discriminate; auto.
  - apply String.eqb_eq in H. congruence.
  - inversion H. apply String.eqb_refl.
Qed.
(* what equality means *)
Inductive same_point (st : pstore R) : nat -> nat -> Prop :=
| same_abs i j x y n : nth_error st i = Some (NPoint x y n) -> nth_error st j = Some (NPoint x y n) -> same_point st i j
| same_rel i j dx dy b b' n : nth_error st i = Some (NRel dx dy b n) -> nth_error st j = Some (NRel dx dy b' n) ->
    same_point st b b' -> same_point st i j
| same_calc i j s b b' n : nth_error st i = Some (NCalc b s n) -> nth_error st j = Some (NCalc b' s n) ->
    same_point st b b' -> same_point st i j.
Theorem C25_point_equality (st : pstore R) (i j : nat) : reachable st ->
  (points_eqb st i j = true <-> same_point st i j).
Proof.
  intros H. pose proof (reachable_wf _ H) as W. revert j. induction i as [i IH] using lt_wf_ind. intros j.
  unfold points_eqb. cbn [node_eqb]. destruct (nth_error st i) as [d|] eqn:E.
  2:{ split; [discriminate|]. intros S; inversion S; congruence. }
  pose proof (W i d E) as [B _].
  assert (IH' : forall b, (b < i)%nat -> forall b', node_eqb i st b b' = true <-> same_point st b b').
  { intros b Hb b'. rewrite (eqb_fuel st W i (S b)) by lia. apply IH; auto. }
  destruct d as [x y n|dx dy b n|b s n]; destruct (nth_error st j) as [[x' y' n'|dx' dy' b' n'|b' s' n']|] eqn:E';
    try (split; [discriminate|intros S; inversion S; congruence]).
  - rewrite !Bool.andb_true_iff, name_eqb_eq. change (@neqb R _) with Reqb. rewrite !Reqb_eq. split.
    + intros [[-> ->] ->]. eapply same_abs; eauto.
    + intros S; inversion S; try congruence. rewrite E in H0. rewrite E' in H1. inversion H0; inversion H1; subst; auto.
  - specialize (B b eq_refl). rewrite !Bool.andb_true_iff, name_eqb_eq. change (@neqb R _) with Reqb.
    rewrite !Reqb_eq, IH' by lia. split.
    + intros [[[-> ->] ->] S]. eapply same_rel; eauto.
    + intros S; inversion S; try congruence. rewrite E in H0. rewrite E' in H1. inversion H0; inversion H1; subst; auto.
  - specialize (B b eq_refl). rewrite !Bool.andb_true_iff, name_eqb_eq. change (@neqb R _) with Reqb.
    rewrite !Reqb_eq, IH' by lia. split.
    + intros [[-> ->] S]. eapply same_calc; eauto.
    + intros S; inversion S; try congruence. rewrite E in H0. rewrite E' in H1. inversion H0; inversion H1; subst; auto.
Qed.
Theorem C25_point_equality_laws (st : pstore R) (i j k : nat) : reachable st ->
  ((i < List.length st)%nat -> points_eqb st i i = true) /\
  (points_eqb st i j = points_eqb st j i) /\
  (points_eqb st i j = true -> points_eqb st j k = true -> points_eqb st i k = true) /\
  (points_eqb st i j = true -> pos st i = pos st j).
Proof.
  intros H. pose proof (reachable_wf _ H) as W.
  assert (Sy : forall i j, same_point st i j -> same_point st j i).
  { induction 1; [eapply same_abs|eapply same_rel|eapply same_calc]; eauto. }
  split; [|split; [|split]].
  - intros Hi. apply C25_point_equality; auto. induction i as [i IH] using lt_wf_ind.
    destruct (nth_error st i) as [d|] eqn:E; [|apply nth_error_None in E; lia]. pose proof (W i d E) as [B _].
    destruct d as [x y n|dx dy b n|b s n]; [eapply same_abs|eapply same_rel|eapply same_calc]; eauto;
      specialize (B b eq_refl); apply IH; lia.
  - apply Bool.eq_true_iff_eq. rewrite !C25_point_equality by auto. split; auto.
  - rewrite !C25_point_equality by auto. intros S1. revert k.
    induction S1; intros k S2; inversion S2; subst; try congruence.
    + rewrite H1 in H2. inversion H2; subst. eapply same_abs; eauto.
    + rewrite H1 in H2. inversion H2; subst. eapply same_rel; eauto.
    + rewrite H1 in H2. inversion H2; subst. eapply same_calc; eauto.
  - rewrite C25_point_equality by auto. intros S1.
    assert (G : forall m i j, (i <= m)%nat -> same_point st i j -> pos st i = pos st j).
    { clear S1 i j k. induction m as [|m IH]; intros i j Hm S1.
      - inversion S1 as [i' j' x y n E1 E2|i' j' dx dy b b' n E1 E2 S'|i' j' s b b' n E1 E2 S']; subst;
          rewrite (pos_eq _ i W), (pos_eq _ j W), E1, E2; auto;
          destruct (W _ _ E1) as [B _]; specialize (B b eq_refl); lia.
      - inversion S1 as [i' j' x y n E1 E2|i' j' dx dy b b' n E1 E2 S'|i' j' s b b' n E1 E2 S']; subst;
          rewrite (pos_eq _ i W), (pos_eq _ j W), E1, E2; auto; destruct (W _ _ E1) as [B _]; specialize (B b eq_refl).
        + rewrite (IH b b') by (auto; lia). reflexivity.
        + inversion S' as [i' j' x y n' F1 F2|i' j' dx dy bb bb' n' F1 F2 S''|i' j' s1 bb bb' n' F1 F2 S'']; subst;
            rewrite F1, F2; auto; destruct (W _ _ F1) as [B2 _]; specialize (B2 bb eq_refl);
            rewrite (IH bb bb') by (auto; lia); reflexivity. }
    eapply G; eauto.
Qed.
(* Point.copy drops the name, so the copy of a named Point is not equal to it *)
Theorem C25_copy_of_named_point_refuted (x y : R) (s : string) :
  let st := fst (pstep (fst (pstep [] (PNew x y (Some s)))) (PCopy 0)) in
  points_eqb st 0 1 = false /\ pos st 0 = pos st 1.
Proof. split; reflexivity. Qed.
(* ... and an unnamed one is *)
Theorem C25_copy_equal (st : pstore R) (i k : nat) (d : pnode R) : reachable st ->
  nth_error st i = Some d -> (node_name d = None \/ forall x y n, d <> NPoint x y n) ->
  snd (pstep st (PCopy i)) = Ok k -> points_eqb (fst (pstep st (PCopy i))) i k = true.
Proof.
  intros H E N S. assert (H' : reachable (fst (pstep st (PCopy i)))).
  { destruct H as [ops ->]. exists (ops ++ [PCopy i]). unfold prun. rewrite fold_left_app. reflexivity. }
  pose proof (nth_lt _ _ _ E) as Li. pose proof (reachable_wf _ H) as W. pose proof (W _ _ E) as [B _].
  cbn [pstep] in *. rewrite E in *.
  assert (G : forall e, reachable (st ++ [e]) -> e = d -> points_eqb (st ++ [e]) i (List.length st) = true).
  { intros e He ->. apply C25_point_equality; auto.
    assert (Ei : nth_error (st ++ [d]) i = Some d) by (rewrite nth_error_app1; auto).
    assert (Ek : nth_error (st ++ [d]) (List.length st) = Some d) by (rewrite nth_error_app2, Nat.sub_diag by lia; reflexivity).
    destruct (C25_point_equality_laws (st ++ [d]) i i i He) as (Rf & _).
    assert (S1 : same_point (st ++ [d]) i i) by (apply C25_point_equality; auto; apply Rf; rewrite app_length; lia).
    inversion S1 as [i' j' x y n E1 E2|i' j' dx dy b b' n E1 E2 S'|i' j' s b b' n E1 E2 S']; subst;
      rewrite Ei in E1; inversion E1; subst d.
    - eapply same_abs; eauto.
    - eapply same_rel; [exact Ei|exact Ek|]. rewrite Ei in E2. inversion E2; subst; auto.
    - eapply same_calc; [exact Ei|exact Ek|]. rewrite Ei in E2. inversion E2; subst; auto. }
  destruct d as [x y n|dx dy b n|b s n]; cbn [fst snd] in *; inversion S; subst; apply G; auto.
  destruct N as [N|N]; [cbn in N; subst; reflexivity|exfalso; eapply N; reflexivity].
Qed.

(* ---------------------------------------------------------------- *)
(** ** Example: a base, a relative point on it, a calculated point on that, and an unrelated point *)
Definition demo : list (pop R) :=
  [PNew 1 2 None; PRel 3 4 0 None; PCalc 1 (-1) None; PNew 7 8 (Some "q"%string); PRel 1 1 2 None].
Example ex_reachable : reachable (prun demo []).
Proof. eexists. reflexivity. Qed.
Example ex_rests : rests (prun demo []) 4 0 /\ ~ rests (prun demo []) 4 3 /\ exists c, gain (prun demo []) 1 4 c /\ c = -1.
Proof.
  assert (R0 : rests (prun demo []) 4 0).
  { eapply rest_rel; [reflexivity|]. eapply rest_calc; [reflexivity|reflexivity|]. eapply rest_point. reflexivity. }
  split; [exact R0|]. split.
  - intros R3. pose proof (rests_unique _ _ _ R0 _ R3). discriminate.
  - eexists. split.
    + eapply gain_rel; [reflexivity|]. eapply gain_calc; [reflexivity|reflexivity|]. eapply gain_point. reflexivity.
    + cbn -[IZR]. lra.
Qed.
Example ex_calc_on_calc :
  calc_on_calc (prun (demo ++ [PCalc 2 1 None]) []) 5.
Proof. eapply cc_here; reflexivity. Qed.
