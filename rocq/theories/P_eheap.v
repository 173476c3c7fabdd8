(* C39 and C48: copies, restoring, and what they share. *)
Require Import Reals Lra.
Require Import Verif.Base Verif.NumR Verif.L_real Verif.M_vector Verif.M_bbox Verif.M_transform Verif.M_bezier Verif.M_colors
  Verif.M_points Verif.S_points Verif.L_points Verif.M_elems Verif.M_group Verif.M_eheap Verif.S_eheap Verif.L_eheap Verif.L_eheap2.
From Coq Require Import String Lia List.
Import ListNotations.
Local Open Scope list_scope.
Local Open Scope nat_scope.

(* Copying and transforming change no object that exists. *)
Theorem C39_copy_changes_nothing : forall {F} {NF : Num F} (h : heap F) limit e r, hreach h -> there h r ->
  same h (fst (e_copy limit e h)) r.
Proof.
  intros F NF h limit e r H T. apply (tri0_old (e_copy limit e) _ h (t_e_copy _ limit e) (hreach_wf h H)). exact T.
Qed.
Theorem C48_transform_changes_nothing : forall {F} {NF : Num F} (h : heap F) limit e m r, hreach h -> there h r ->
  same h (fst (e_transform limit e m h)) r.
Proof.
  intros F NF h limit e m r H T. apply (tri0_old (e_transform limit e m) _ h (t_e_transform _ limit e m) (hreach_wf h H)). exact T.
Qed.

(* A curve or two-corner shape can be copied unless it is filled or has corners, and is open;
   the copy is a new element with the same value. *)
Theorem C39_copy : forall {F} {NF : Num F} (h : heap F) limit e b s, hreach h -> leaf_value h e = Some (b, s) ->
  (pb_filled (e_pb b) = true -> e_closed b = true) -> ((forall l, s <> SCurve l) -> e_closed b = true) ->
  exists h1 c, e_copy (S limit) e h = (h1, Ok c) /\ made h h1 (RE c) /\ leaf_value h1 c = Some (b, s) /\ leaf_value h1 e = Some (b, s).
Proof.
  intros F NF h limit e b s H E C1 C2. pose proof (hreach_wf h H) as W. destruct (copy_spec limit e h b s W E) as [A B].
  destruct (A (conj C1 C2)) as [c Ec]. destruct (B c Ec) as (x & Cp & _). destruct (tri0_old (e_copy (S limit) e) _ h (t_e_copy _ (S limit) e) W) as [O W'].
  destruct (e_copy (S limit) e h) as [h1 r]. cbn [fst snd] in *. subst r.
  exists h1, c. split; [reflexivity|]. split; [apply Cp|]. split.
  - now apply (copied_value h h1 c x).
  - now apply (leaf_value_old h h1).
Qed.

(* After copying, whatever the program does to other objects than those the copy is made of,
   restoring brings the element back, provided its transform object was not changed in place
   and the element still has as many control points, each its own object. *)
Theorem C39_undo : forall {F} {NF : Num F} (h h1 : heap F) limit e c b s, hreach h ->
  leaf_value h e = Some (b, s) -> e_copy limit e h = (h1, Ok c) ->
  forall ops, spares (made h h1) ops ->
  let h2 := hrun ops h1 in
  (forall o, nth_error (h_els h) e = Some o ->
     exists t, nth_error (h_xfs h2) (o_xform (eo_base o)) = Some t /\ tmat t = tmat (e_xform b)) ->
  fits h2 e c ->
  forall limit', exists h3 b', e_restore limit' e c h2 = (h3, Ok tt) /\ leaf_value h3 e = Some (b', s) /\
    e_name b' = e_name b /\ e_pb b' = e_pb b /\ e_closed b' = e_closed b /\ tmat (e_xform b') = tmat (e_xform b).
Proof.
  intros F NF h h1 limit e c b s H E Ec ops Sp h2 Hx Ft limit'.
  pose proof (hreach_wf h H) as W. destruct limit as [|limit]; [discriminate Ec|].
  destruct (copy_spec limit e h b s W E) as [_ B]. pose proof (tri0_old (e_copy (S limit) e) _ h (t_e_copy _ (S limit) e) W) as [O W1].
  rewrite Ec in *. cbn [fst snd] in *. destruct (B c eq_refl) as (x & Cp & o & o' & Eo & Ex & Eo' & Ecl).
  destruct (t_hrun _ ops Sp h1 (made_inv h h1 H O W1)) as ((S2 & B2 & W2) & (K2 & L2 & G2)). fold h2 in S2, B2, W2, K2, L2, G2.
  destruct (Hx o Eo) as (t & Et & Tm). rewrite Ex in Et. clear Hx.
  apply (restored h h1 h2 e c x b s t limit'); auto.
  - pose proof (L2 e (class o)) as L. destruct (O (RE e)) as [Se _]; [cbn; eapply some_lt; eauto|]. cbn in Se.
    unfold cls in L. rewrite Se, Eo in L. specialize (L eq_refl). destruct (nth_error (h_els h2) e) as [oe|]; [|discriminate]. injection L as L.
    exists oe, o'. split; [reflexivity|]. split; [exact Eo'|congruence].
  - intros [N _]. apply N. cbn. eapply some_lt; eauto.
Qed.

(* Whatever is done to the objects made since, the element copied stays as it is. *)
Theorem C39_copy_independent : forall {F} {NF : Num F} (h : heap F) limit e, hreach h ->
  forall ops, spares (there h) ops ->
  let h2 := hrun ops (fst (e_copy limit e h)) in
  (forall r, there h r -> same h h2 r) /\ forall e' v, leaf_value h e' = Some v -> leaf_value h2 e' = Some v.
Proof.
  intros F NF h limit e H ops Sp h2. pose proof (hreach_wf h H) as W.
  destruct (t_e_copy (there h) limit e h (there_inv h W) I) as (V1 & (K1 & _ & G1) & _).
  destruct (t_hrun _ ops Sp _ V1) as ((_ & _ & W2) & (K2 & _ & G2)). fold h2 in W2, K2, G2.
  assert (O : old h h2).
  { intros r T. split; [|auto]. specialize (K1 r T). specialize (K2 r T). destruct r; cbn in *; congruence. }
  split; [intros r T; apply O, T|]. intros e' [b s]. apply (leaf_value_old h h2 e'); auto.
Qed.

(* A curve with another number of control points: the name, pens, closed flag and transform
   are already those of the other curve when the exception is raised; nothing else changes. *)
Theorem C39_count : forall {F} {NF : Num F} (h : heap F) limit e c be a bc cs t,
  nth_error (h_els h) e = Some (OCurve be a) -> nth_error (h_els h) c = Some (OCurve bc cs) ->
  nth_error (h_xfs h) (o_xform bc) = Some t -> List.length a <> List.length cs ->
  exists h' x, e_restore limit e c h = (h', Raise GeomInternalError) /\
    nth_error (h_els h') e = Some (OCurve (OB (o_name bc) (o_pb bc) (o_closed bc) x) a) /\
    nth_error (h_xfs h') x = Some (t_copy t) /\ (forall r, there h r -> r <> RE e -> same h h' r).
Proof.
  intros F NF h limit e c be a bc cs t Ee Ec Et N. pose proof (base_restore_spec h e c _ _ t Ee Ec Et) as Eb. cbn [with_base eo_base] in Eb.
  eexists; eexists. split; [|split; [|split]].
  - unfold e_restore, next at 1 2, rd_el, rd. rewrite Ee, Ec. cbn [eo_base]. unfold next. rewrite Eb.
    apply Nat.eqb_neq in N. rewrite N. reflexivity.
  - cbn [h_els]. apply set_nth_same. eapply some_lt; eauto.
  - cbn [h_xfs]. apply nth_app_new.
  - intros [i|i|i|i|i] T Ne; cbn in *; try reflexivity; [now apply nth_app_old|]. apply set_nth_other. congruence.
Qed.

(* ---------------- groups ---------------- *)

(* The copy of a group is a new group with a new transform and the same members. *)
Theorem C48_copy_shares : forall {F} {NF : Num F} (h : heap F) limit e b hidden elems points t,
  nth_error (h_els h) e = Some (OGroup b hidden elems points) -> nth_error (h_xfs h) (o_xform b) = Some t ->
  (pb_filled (o_pb b) = true -> snd (e_copy (S limit) e h) = Raise AssertionError) /\
  (pb_filled (o_pb b) = false -> exists h1 c x, e_copy (S limit) e h = (h1, Ok c) /\ made h h1 (RE c) /\ made h h1 (RX x) /\
    nth_error (h_els h1) c = Some (OGroup (OB (o_name b) (o_pb b) false x) hidden elems points) /\
    nth_error (h_xfs h1) x = Some (t_copy t)).
Proof.
  intros F NF h limit e b hidden elems points t Ee Et.
  assert (E : e_copy (S limit) e h =
    (let h' := Heap (h_pts h) (h_vecs h) (h_cps h) (h_xfs h ++ [t_copy t]) (h_els h) in
     if pb_filled (o_pb b) then (h', Raise AssertionError) else
     (Heap (h_pts h) (h_vecs h) (h_cps h) (h_xfs h ++ [t_copy t]) (h_els h ++ [OGroup (OB (o_name b) (o_pb b) false (List.length (h_xfs h))) hidden elems points]),
      Ok (List.length (h_els h))))).
  { cbn [e_copy]. unfold next at 1, rd_el, rd. rewrite Ee. cbn [eo_base]. unfold next at 1, copy_xf. unfold next at 1, rd_xf, rd. rewrite Et.
    unfold mk_xf, group_new, next, base_new, next, ret, when. destruct (pb_filled (o_pb b)); reflexivity. }
  rewrite E. cbn zeta. split; intros ->; [reflexivity|]. eexists; exists (List.length (h_els h)), (List.length (h_xfs h)). split; [reflexivity|]. unfold made. cbn [there h_els h_xfs].
  rewrite !app_length. cbn [List.length]. split; [lia|]. split; [lia|]. split; apply nth_app_new.
Qed.

(* transform() of a group likewise. *)
Theorem C48_transform_shares : forall {F} {NF : Num F} (h : heap F) limit e m b hidden elems points t u,
  nth_error (h_els h) e = Some (OGroup b hidden elems points) -> nth_error (h_xfs h) (o_xform b) = Some t ->
  nth_error (h_xfs h) m = Some u -> pb_filled (o_pb b) = false ->
  exists h1 c x, e_transform limit e m h = (h1, Ok c) /\ made h h1 (RE c) /\ made h h1 (RX x) /\
    nth_error (h_els h1) c = Some (OGroup (OB (o_name b) (o_pb b) false x) hidden elems points) /\
    nth_error (h_xfs h1) x = Some (t_compose (tmat t) (t_copy u)).
Proof.
  intros F NF h limit e m b hidden elems points t u Ee Et Eu Fi.
  assert (E : e_transform limit e m h =
     (Heap (h_pts h) (h_vecs h) (h_cps h) (h_xfs h ++ [t_compose (tmat t) (t_copy u)]) (h_els h ++ [OGroup (OB (o_name b) (o_pb b) false (List.length (h_xfs h))) hidden elems points]),
      Ok (List.length (h_els h)))).
  { unfold e_transform. unfold next at 1, rd_el, rd. rewrite Ee. cbn [eo_base]. unfold next at 1, rd_xf, rd. rewrite Eu. unfold next at 1. rewrite Et.
    unfold mk_xf, group_new, next, base_new, next, ret, when. rewrite Fi. reflexivity. }
  rewrite E. eexists; exists (List.length (h_els h)), (List.length (h_xfs h)). split; [reflexivity|]. unfold made. cbn [there h_els h_xfs].
  rewrite !app_length. cbn [List.length]. split; [lia|]. split; [lia|]. split; apply nth_app_new.
Qed.

(* After copying a group, whatever the program does to other objects than the copy and its
   transform, restoring brings back the name, the pens, the table of members and the
   transform; closed stays as it is now, and so does every other object, members included. *)
Theorem C48_undo : forall {F} {NF : Num F} (h h1 : heap F) limit e c b hidden elems points t, hreach h ->
  nth_error (h_els h) e = Some (OGroup b hidden elems points) -> nth_error (h_xfs h) (o_xform b) = Some t ->
  e_copy limit e h = (h1, Ok c) ->
  forall ops, spares (made h h1) ops ->
  let h2 := hrun ops h1 in
  forall limit', exists h3 b2 x, e_restore limit' e c h2 = (h3, Ok tt) /\
    option_map eo_base (nth_error (h_els h2) e) = Some b2 /\
    nth_error (h_els h3) e = Some (OGroup (OB (o_name b) (o_pb b) (o_closed b2) x) hidden elems points) /\
    nth_error (h_xfs h3) x = Some (t_copy t) /\
    (forall r, r <> RE e -> same h2 h3 r).
Proof.
  intros F NF h h1 limit e c b hidden elems points t H Ee Et Ec ops Sp h2 limit'. pose proof (hreach_wf h H) as W.
  destruct limit as [|limit]; [discriminate Ec|]. destruct (C48_copy_shares h limit e b hidden elems points t Ee Et) as [A B].
  rewrite Ec in A, B. destruct (pb_filled (o_pb b)); [discriminate (A eq_refl)|]. destruct (B eq_refl) as (h1' & c' & x & E & Mc & Mx & Gc & Gx). injection E as <- <-. clear A B.
  pose proof (tri0_old (e_copy (S limit) e) _ h (t_e_copy _ (S limit) e) W) as [O W1]. rewrite Ec in O, W1. cbn [fst] in O, W1.
  destruct (t_hrun _ ops Sp h1 (made_inv h h1 H O W1)) as (_ & (K2 & L2 & _)). fold h2 in K2, L2.
  pose proof (K2 _ Mc) as Kc. pose proof (K2 _ Mx) as Kx. cbn in Kc, Kx. rewrite Gc in Kc. rewrite Gx in Kx.
  pose proof (L2 e (class (OGroup b hidden elems points))) as L. destruct (O (RE e)) as [Se _]; [cbn; eapply some_lt; eauto|]. cbn in Se.
  unfold cls in L. rewrite Se, Ee in L. specialize (L eq_refl). destruct (nth_error (h_els h2) e) as [oe|] eqn:E2; [|discriminate].
  destruct oe as [|? [] ? ?|b2 hd2 l2 p2|]; try discriminate L.
  eexists; exists b2; eexists. split.
  { unfold e_restore. unfold next at 1, rd_el, rd. rewrite E2. unfold next at 1. rewrite Kc. cbn [eo_base o_name o_pb o_xform]. unfold wr_el. reflexivity. }
  split; [reflexivity|]. cbn [h_els h_xfs]. split; [apply set_nth_same; eapply some_lt; eauto|]. split; [exact Kx|].
  intros [i|i|i|i|i] N; cbn in *; try reflexivity. apply set_nth_other. congruence.
Qed.

(* Copies of shapes with holes are deep: every part of the copy is new. *)
Lemma mk_el_there {F} (o : eobj F) h h' c : mk_el o h = (h', Ok c) -> there h' (RE c).
Proof. unfold mk_el. intros E. injection E as <- <-. cbn. rewrite app_length. cbn. lia. Qed.
Lemma next_ok {F A B} (m : act A) (k : A -> act B) (h h' : heap F) b : next m k h = (h', Ok b) ->
  exists h1 a, m h = (h1, Ok a) /\ k a h1 = (h', Ok b).
Proof. unfold next. destruct (m h) as [h1 [a|e]]; intros E; [eauto|discriminate]. Qed.
Lemma copy_there {F} {NF : Num F} limit e (h h' : heap F) c : e_copy limit e h = (h', Ok c) -> there h' (RE c).
Proof.
  destruct limit as [|limit]; [discriminate|]. cbn [e_copy]. intros E. apply next_ok in E as (h1 & o & _ & E).
  destruct o as [b cps|b k p q|b hd l p|b o i].
  - apply next_ok in E as (? & ? & _ & E). apply next_ok in E as (? & ? & _ & E). eapply mk_el_there; eauto.
  - do 6 (apply next_ok in E as (? & ? & _ & E)). eapply mk_el_there; eauto.
  - apply next_ok in E as (? & ? & _ & E). apply next_ok in E as (? & ? & _ & E). eapply mk_el_there; eauto.
  - do 6 (apply next_ok in E as (? & ? & _ & E)). eapply mk_el_there; eauto.
Qed.
Lemma tri0_step {F} {NF : Num F} {A} (h0 : heap F) (m : act A) Q (h h1 : heap F) a : tri0 (there h0) m Q -> inv (there h0) h -> m h = (h1, Ok a) ->
  inv (there h0) h1 /\ rel (there h0) h h1 /\ Q a.
Proof.
  intros T V E. destruct (T h V I) as (V' & R' & Q'). rewrite E in V', R', Q'. cbn in V', R', Q'. auto.
Qed.
Lemma each_copy_made {F} {NF : Num F} (h0 : heap F) limit : forall i (h h1 : heap F) i', inv (there h0) h -> each (e_copy limit) i h = (h1, Ok i') ->
  inv (there h0) h1 /\ rel (there h0) h h1 /\ Forall (fun c => made h0 h1 (RE c)) i'.
Proof.
  induction i as [|e i IH]; intros h h1 i' V E; cbn [each] in E.
  - injection E as <- <-. auto using rel_refl.
  - apply next_ok in E as (h2 & c & E1 & E). apply next_ok in E as (h3 & cs & E2 & E). injection E as <- <-.
    destruct (tri0_step h0 _ _ _ _ _ (t_e_copy _ limit e) V E1) as (V2 & R2 & N).
    destruct (IH _ _ _ V2 E2) as (V3 & R3 & Fm). split; [auto|]. split; [eapply rel_trans; eauto|]. constructor; [|auto].
    split; [exact N|]. destruct R3 as (_ & _ & G). apply G. eapply copy_there; eauto.
Qed.
Theorem C49_copy_deep : forall {F} {NF : Num F} (h h1 : heap F) limit e c b o i, hreach h ->
  nth_error (h_els h) e = Some (OHoles b o i) -> e_copy limit e h = (h1, Ok c) ->
  exists x o' i', nth_error (h_els h1) c = Some (OHoles (OB (o_name b) (o_pb b) (o_closed b) x) o' i') /\
    made h h1 (RX x) /\ made h h1 (RE o') /\ List.length i' = List.length i /\ Forall (fun j => made h h1 (RE j)) i'.
Proof.
  intros F NF h h1 limit e c b o i H Ee Ec. pose proof (hreach_wf h H) as W. destruct limit as [|limit]; [discriminate|].
  cbn [e_copy] in Ec. apply next_ok in Ec as (h2 & ob & E1 & Ec). unfold rd_el, rd in E1. rewrite Ee in E1. injection E1 as <- <-. cbn [eo_base] in Ec.
  apply next_ok in Ec as (h2 & o' & E2 & Ec). apply next_ok in Ec as (h3 & i' & E3 & Ec). apply next_ok in Ec as (h4 & x & E4 & Ec).
  destruct (tri0_step h _ _ _ _ _ (t_e_copy _ limit o) (there_inv h W) E2) as (V2 & R2 & N2). pose proof (copy_there _ _ _ _ _ E2) as T2.
  destruct (each_copy_made h limit i h2 h3 i' V2 E3) as (V3 & R3 & M3).
  destruct (tri0_step h _ _ _ _ _ (t_copy_xf _ (o_xform b)) V3 E4) as (V4 & R4 & _).
  assert (Mx : made h h4 (RX x)).
  { unfold copy_xf in E4. apply next_ok in E4 as (h5 & t & E5 & E4). unfold rd_xf, rd in E5. injection E5 as <- E5. unfold mk_xf in E4. injection E4 as <- <-. split; cbn.
    - destruct R2 as (_ & _ & G2), R3 as (_ & _ & G3). intros L. assert (there h3 (RX (List.length (h_xfs h3)))) as C by (apply G3, G2, L). cbn in C. lia.
    - rewrite app_length. cbn. lia. }
  assert (Li : List.length i' = List.length i).
  { clear - E3. revert h2 h3 i' E3. induction i as [|a i IH]; intros h2 h3 i' E; cbn [each] in E; [now injection E as <- <-|].
    apply next_ok in E as (? & y & _ & E). apply next_ok in E as (? & ys & E2 & E). injection E as <- <-. cbn. f_equal. eapply IH; eauto. }
  unfold holes_new in Ec. apply next_ok in Ec as (h5 & ob & E5 & Ec). apply next_ok in Ec as (h6 & ? & E6 & Ec). apply next_ok in Ec as (h7 & ? & E7 & Ec).
  assert (ob = OB (o_name b) (o_pb b) (o_closed b) x /\ h5 = h4) as [-> ->].
  { unfold base_new, next, ret, when in E5. destruct (negb _); [|discriminate]. injection E5 as <- <-. auto. }
  destruct (tri0_step h _ _ _ _ _ (t_set_pen _ (o_pb b) o' N2) V4 E6) as (V6 & R6 & _).
  assert (Tp : tri0 (there h) (each (set_pen (o_pb b)) i') (Forall (fun _ => True))).
  { apply tri0_each. intros j Hj. apply t_set_pen. rewrite Forall_forall in M3. apply (M3 j Hj). }
  destruct (tri0_step h _ _ _ _ _ Tp V6 E7) as (V7 & R7 & _).
  unfold mk_el in Ec. injection Ec as <- <-. exists x, o', i'.
  destruct R2 as (_ & _ & G2), R3 as (_ & _ & G3), R4 as (_ & _ & G4), R6 as (_ & _ & G6), R7 as (_ & _ & G7).
  assert (Up : forall r, there h7 r -> there (Heap (h_pts h7) (h_vecs h7) (h_cps h7) (h_xfs h7) (h_els h7 ++ [OHoles (OB (o_name b) (o_pb b) (o_closed b) x) o' i'])) r).
  { intros [j|j|j|j|j]; cbn; auto. rewrite app_length. cbn. lia. }
  split; [cbn; apply nth_app_new|]. split; [split; [apply Mx|apply Up, G7, G6, Mx]|]. split; [split; [exact N2|apply Up, G7, G6, G4, G3, T2]|]. split; [exact Li|].
  eapply Forall_impl; [|exact M3]. intros j [Nj Tj]. split; [exact Nj|apply Up, G7, G6, G4, Tj].
Qed.

(* ---------------- what is not undone ---------------- *)
Local Open Scope string_scope.
Definition ex_none : penbrush R := PenBrush None None.
(* three points, the last relative to the second; a curve through them *)
Definition ex_prog : list (hop R) :=
  [HPt (PNew 0%R 0%R None); HPt (PNew 1%R 2%R (Some "a")); HPt (PRel 3%R 4%R 1 None);
   HVec (V 0%R 0%R); HVec (V 1%R 0%R); HCp 0 0 1 "smooth"; HCp 1 0 1 "sharp"; HCp 2 0 1 "smooth";
   HXf t_new; HCurve "c" ex_none [0; 1; 2] false (Some 0)].
Definition ex_h : heap R := Eval lazy -[IZR Rplus] in hrun ex_prog empty.
Definition ex_h1 : heap R := Eval lazy -[IZR Rplus] in fst (e_copy 9 0 ex_h).
Ltac run := lazy -[IZR Rplus Rmult]; reflexivity.
(* edits: move points, replace vectors, reverse the list, rename, copy, restore *)
Definition ex_ops : list (hop R) :=
  [HPt (PSetxy 1 7%R 7%R); HSetVec 0 (V 5%R 5%R); HSetCp 2 0 1 1 "sharp"; HCps 0 [2; 1; 0]; HBase 0 "d" ex_none true 0;
   HCopy 9 0; HRestore 9 0 1; HPt (PSetxy 0 9%R 9%R); HCps 0 [1; 0; 2]].

Lemma ex_reach : hreach ex_h. Proof. exists ex_prog. run. Qed.
Example ex_value : leaf_value ex_h 0 = Some (EB "c" ex_none false t_new,
  SCurve [CP (P 0%R 0%R) (V 0%R 0%R) (V 1%R 0%R) "smooth"; CP (P 1%R 2%R) (V 0%R 0%R) (V 1%R 0%R) "sharp";
          CP (P (3 + 1)%R (4 + 2)%R) (V 0%R 0%R) (V 1%R 0%R) "smooth"]).
Proof. run. Qed.
Ltac spared := repeat first [apply Forall_nil | apply Forall_cons]; intros [Nm _]; apply Nm; cbn; lia.
Example ex_undo : exists c b s, leaf_value ex_h 0 = Some (b, s) /\ e_copy 9 0 ex_h = (ex_h1, Ok c) /\
  spares (made ex_h ex_h1) ex_ops /\ fits (hrun ex_ops ex_h1) 0 c /\
  nth_error (h_xfs (hrun ex_ops ex_h1)) 0 = Some t_new /\
  leaf_value (hrun ex_ops ex_h1) 0 <> leaf_value ex_h 0.
Proof.
  exists 1; eexists; eexists. split; [run|]. split; [run|]. split; [repeat (apply Forall_cons || apply Forall_nil); spared|].
  split; [|split; [run|]].
  - lazy -[IZR Rplus Rmult]. split; [reflexivity|]. split; [repeat constructor; cbn; intuition lia|]. repeat constructor; lia.
  - lazy -[IZR Rplus Rmult not]. intros E. injection E. intros. lra.
Qed.

(* the transform object is shared: an in-place change of it is not undone *)
Theorem C39_xform_refuted : exists (h h1 : heap R) e c b s ops, hreach h /\ leaf_value h e = Some (b, s) /\
  e_copy 1 e h = (h1, Ok c) /\ spares (made h h1) ops /\ fits (hrun ops h1) e c /\
  exists h3 b', e_restore 1 e c (hrun ops h1) = (h3, Ok tt) /\ leaf_value h3 e = Some (b', s) /\
    tmat (e_xform b') <> tmat (e_xform b).
Proof.
  exists ex_h, ex_h1, 0, 1; eexists; eexists; exists [HSetXf 0 (t_new6 2 0 0 0 2 0)%R]. split; [apply ex_reach|]. split; [run|]. split; [run|].
  split; [repeat (apply Forall_cons || apply Forall_nil); spared|]. split.
  - lazy -[IZR Rplus Rmult]. split; [reflexivity|]. split; [repeat constructor; cbn; intuition lia|]. repeat constructor; lia.
  - eexists; eexists. split; [run|]. split; [run|]. lazy -[IZR Rplus Rmult not]. intros E. injection E. intros. lra.
Qed.

(* names of centres are lost: after copying and restoring at once the centre at the same
   place is not equal to the old one *)
Theorem C39_names_refuted : exists (h h1 h3 : heap R) e c v i j, hreach h /\ leaf_value h e = Some v /\
  e_copy 1 e h = (h1, Ok c) /\ e_restore 1 e c h1 = (h3, Ok tt) /\ leaf_value h3 e = Some v /\
  option_map co_c (nth_error (h_cps h1) 1) = Some i /\ option_map co_c (nth_error (h_cps h3) 1) = Some j /\
  pos (h_pts h3) i = pos (h_pts h3) j /\ M_points.points_eqb (h_pts h3) i j = false.
Proof.
  exists ex_h, ex_h1, (fst (e_restore 1 0 1 ex_h1)), 0, 1; eexists; exists 1; eexists. split; [apply ex_reach|].
  do 7 (split; [run|]). run.
Qed.

(* a centre relative to another point no longer follows it *)
Theorem C39_relative_refuted : exists (h h1 h3 : heap R) e c v move, hreach h /\ leaf_value h e = Some v /\
  e_copy 1 e h = (h1, Ok c) /\ e_restore 1 e c h1 = (h3, Ok tt) /\ leaf_value h3 e = Some v /\
  touches move = [RP 1] /\
  leaf_value (hrun [move] h) e <> Some v /\ leaf_value (hrun [move] h3) e = Some v.
Proof.
  exists ex_h, ex_h1, (fst (e_restore 1 0 1 ex_h1)), 0, 1; eexists; exists (HPt (PSetxy 1 7%R 7%R)). split; [apply ex_reach|].
  do 5 (split; [run|]). split; [|run].
  lazy -[IZR Rplus Rmult not]. intros E. injection E. intros. lra.
Qed.

(* two groups sharing a curve *)
Definition ex_gprog : list (hop R) := ex_prog ++ [HGroup "g" ex_none false None [("c", 0)] [("p", 0)] true].
Definition ex_g : heap R := Eval lazy -[IZR Rplus] in hrun ex_gprog empty.
Definition ex_g1 : heap R := Eval lazy -[IZR Rplus] in fst (e_copy 9 1 ex_g).
Definition ex_gops : list (hop R) :=
  [HTable 1 true [] []; HBase 1 "other" ex_none false 0; HSetXf 1 (t_new6 2 0 0 0 2 0)%R; HCopy 9 1; HPt (PSetxy 1 7%R 7%R)].
Example ex_group_undo : exists b l p t, nth_error (h_els ex_g) 1 = Some (OGroup b false l p) /\ nth_error (h_xfs ex_g) (o_xform b) = Some t /\
  e_copy 9 1 ex_g = (ex_g1, Ok 2) /\ spares (made ex_g ex_g1) ex_gops /\ nth_error (h_els (hrun ex_gops ex_g1)) 1 = Some (OGroup (OB "other" ex_none false 0) true [] []).
Proof.
  eexists; eexists; eexists; eexists. split; [run|]. split; [run|]. split; [run|].
  split; [repeat (apply Forall_cons || apply Forall_nil); spared|]. run.
Qed.

(* restoring makes the group and the copy share the transform object, so an in-place change
   after the first undo is not undone by a second *)
Theorem C48_undo_twice_refuted : exists (h h1 h2 h3 : heap R) e c b l p t x b3 t3, hreach h /\
  nth_error (h_els h) e = Some (OGroup b false l p) /\ nth_error (h_xfs h) (o_xform b) = Some t /\
  e_copy 1 e h = (h1, Ok c) /\ e_restore 1 e c h1 = (h2, Ok tt) /\
  option_map (fun o => o_xform (eo_base o)) (nth_error (h_els h2) e) = Some x /\
  e_restore 1 e c (hrun [HSetXf x (t_new6 2 0 0 0 2 0)%R] h2) = (h3, Ok tt) /\
  nth_error (h_els h3) e = Some (OGroup b3 false l p) /\ nth_error (h_xfs h3) (o_xform b3) = Some t3 /\ tmat t3 <> tmat t.
Proof.
  exists ex_g, ex_g1, (fst (e_restore 1 1 2 ex_g1)). eexists. exists 1, 2. do 7 eexists. split; [exists ex_gprog; run|].
  do 8 (split; [run|]). lazy -[IZR Rplus Rmult not]. intros E. injection E. intros. lra.
Qed.

(* edits of a member are not undone: the members are shared *)
Theorem C48_member_refuted : exists (h h1 h3 : heap R) e c ops m v, hreach h /\ e_copy 1 e h = (h1, Ok c) /\
  spares (made h h1) ops /\ e_restore 1 e c (hrun ops h1) = (h3, Ok tt) /\
  (exists b l p, nth_error (h_els h) e = Some (OGroup b false l p) /\ In m (map snd l)) /\
  leaf_value h m = Some v /\ leaf_value h3 m <> Some v.
Proof.
  exists ex_g, ex_g1. eexists. exists 1, 2, [HPt (PSetxy 1 7%R 7%R)], 0. eexists. split; [exists ex_gprog; run|]. split; [run|].
  split; [repeat (apply Forall_cons || apply Forall_nil); spared|]. split; [run|]. split; [eexists; eexists; eexists; split; [run|cbn; auto]|].
  split; [run|]. lazy -[IZR Rplus Rmult not]. intros E. injection E. intros. lra.
Qed.
(* two curves as the parts of a shape with a hole *)
Definition ex_ringprog : list (hop R) :=
  ex_prog ++ [HCurve "o" ex_none [0; 1] true None; HCurve "i" ex_none [2; 1] true None; HHoles "r" ex_none 1 [2] true None].
Example ex_holes_copy : exists b h1, nth_error (h_els (hrun ex_ringprog empty)) 3 = Some (OHoles b 1 [2]) /\
  e_copy 9 3 (hrun ex_ringprog empty) = (h1, Ok 6) /\ exists b', nth_error (h_els h1) 6 = Some (OHoles b' 4 [5]).
Proof. eexists; eexists. split; [run|]. split; [run|]. eexists. run. Qed.

(* ------------------------------------------------------------------ *)
(** ** renaming and new pens leave the content alone *)

(* the same control points, corners, members or parts; name, pens, closed and transform may differ *)
Definition same_content {F} (o o' : eobj F) : Prop :=
  match o, o' with
  | OCurve _ c, OCurve _ c' => c' = c
  | OBox _ k p q, OBox _ k' p' q' => k' = k /\ p' = p /\ q' = q
  | OGroup _ h l p, OGroup _ h' l' p' => h' = h /\ l' = l /\ p' = p
  | OHoles _ a i, OHoles _ a' i' => a' = a /\ i' = i
  | _, _ => False
  end.
Lemma content_with_base {F} (o : eobj F) b : same_content o (with_base o b) /\ eo_base (with_base o b) = b.
Proof. destruct o; cbn; auto. Qed.
Lemma content_refl {F} (o : eobj F) : same_content o o.
Proof. destruct o; cbn; auto. Qed.
Lemma content_trans {F} (a b c : eobj F) : same_content a b -> same_content b c -> same_content a c.
Proof. destruct a, b, c; cbn; try contradiction; intuition congruence. Qed.
Lemma put_key_in k (v : nat) : forall l, In (k, v) (put_key k v l) /\ (forall n w, n <> k -> (In (n, w) (put_key k v l) <-> In (n, w) l)) /\
  (NoDup (map fst l) -> forall w, In (k, w) (put_key k v l) -> w = v).
Proof.
  induction l as [|[n w] l (I1 & I2 & I3)]; cbn [put_key].
  - split; [now left|]. split; [|intros _ w [E|[]]; congruence]. intros n w N. split; [intros [E|[]]; congruence|intros []].
  - destruct (String.eqb_spec k n) as [->|N].
    + split; [now left|]. split.
      * intros m x Nm. cbn. split; intros [E|I]; auto; congruence.
      * intros D x [E|I]; [congruence|]. cbn in D. inversion D as [|? ? D1 _]. exfalso. apply D1. apply in_map_iff. exists (n, x). auto.
    + split; [now right|]. split.
      * intros m x Nm. cbn. rewrite I2 by exact Nm. reflexivity.
      * intros D x [E|I]; [congruence|]. cbn in D. inversion D. auto.
Qed.

(* Adding an element to a group: the group gets the one entry and keeps the others, the element gets the name and keeps
   all else, and nothing else changes. *)
Theorem C48_add_keeps : forall {F} {NF : Num F} (h : heap F) g n e b hidden elems points m,
  nth_error (h_els h) g = Some (OGroup b hidden elems points) -> nth_error (h_els h) e = Some m -> g <> e ->
  exists h' elems' m', hstep (HAdd g n e) h = (h', Ok tt) /\
    nth_error (h_els h') g = Some (OGroup b hidden elems' points) /\
    In (n, e) elems' /\ (forall k j, k <> n -> (In (k, j) elems' <-> In (k, j) elems)) /\ (NoDup (map fst elems) -> forall j, In (n, j) elems' -> j = e) /\
    nth_error (h_els h') e = Some m' /\ same_content m m' /\ eo_base m' = OB n (o_pb (eo_base m)) (o_closed (eo_base m)) (o_xform (eo_base m)) /\
    (forall i, i <> g -> i <> e -> nth_error (h_els h') i = nth_error (h_els h) i) /\
    h_pts h' = h_pts h /\ h_vecs h' = h_vecs h /\ h_cps h' = h_cps h /\ h_xfs h' = h_xfs h.
Proof.
  intros F NF h g n e b hidden elems points m Eg Ee N.
  assert (Lg : g < List.length (h_els h)) by (apply nth_error_Some; congruence). assert (Le : e < List.length (h_els h)) by (apply nth_error_Some; congruence).
  cbn [hstep]. unfold next, rd_el, rd, wr_el. cbn [h_els h_pts h_vecs h_cps h_xfs]. rewrite Eg, Ee. cbn [h_els h_pts h_vecs h_cps h_xfs].
  rewrite set_nth_other by exact N. rewrite Ee. do 3 eexists. split; [reflexivity|]. cbn [h_els h_pts h_vecs h_cps h_xfs].
  destruct (put_key_in n e elems) as (K1 & K2 & K3). 
  split; [rewrite set_nth_other by auto; apply set_nth_same; exact Lg|]. split; [exact K1|]. split; [exact K2|]. split; [exact K3|].
  split; [apply set_nth_same; rewrite set_nth_length; exact Le|]. split; [apply content_with_base|]. split; [apply content_with_base|].
  split; [|auto]. intros i I1 I2. rewrite !set_nth_other by auto. reflexivity.
Qed.

(* A new shape with holes: every part gets the pens and keeps all else, and no other element changes. *)
Theorem C49_new_pens : forall {F} {NF : Num F} (h h' : heap F) n pb outside inside closed xform i,
  holes_new n pb outside inside closed xform h = (h', Ok i) ->
  (exists b, nth_error (h_els h') i = Some (OHoles b outside inside) /\ o_name b = n /\ o_pb b = pb /\ o_closed b = closed) /\
  forall j o, nth_error (h_els h) j = Some o -> exists o', nth_error (h_els h') j = Some o' /\
    (~ In j (outside :: inside) -> o' = o) /\ 
    (In j (outside :: inside) -> same_content o o' /\ eo_base o' = OB (o_name (eo_base o)) pb (o_closed (eo_base o)) (o_xform (eo_base o))).
Proof.
  intros F NF h h' n pb outside inside closed xform i.
  set (upd := fun (L : list nat) (a a' : heap F) => List.length (h_els a') = List.length (h_els a) /\
    forall j o, nth_error (h_els a) j = Some o -> exists o', nth_error (h_els a') j = Some o' /\ (~ In j L -> o' = o) /\
    (In j L -> same_content o o' /\ eo_base o' = OB (o_name (eo_base o)) pb (o_closed (eo_base o)) (o_xform (eo_base o)))).
  assert (One : forall x a a' u, set_pen pb x a = (a', Ok u) -> upd [x] a a').
  { intros x a a' u. unfold set_pen, next, rd_el, rd, wr_el. destruct (nth_error (h_els a) x) as [o|] eqn:Ex; [|discriminate]. cbn [h_els h_pts h_vecs h_cps h_xfs].
    intros E. injection E as <- _. split; [apply set_nth_length|]. cbn [h_els]. intros j o' Ej. destruct (Nat.eq_dec x j) as [->|Nx].
    - assert (o' = o) by congruence. subst o'. eexists. split; [apply set_nth_same; apply nth_error_Some; congruence|]. split; [intros C; exfalso; apply C; now left|]. intros _. apply content_with_base.
    - exists o'. split; [now rewrite set_nth_other|]. split; [reflexivity|]. intros [C|[]]. congruence. }
  assert (Comp : forall L L' a b c, upd L a b -> upd L' b c -> upd (L ++ L')%list a c).
  { intros L L' a b c [L1 U1] [L2 U2]. split; [congruence|]. intros j o Ej. destruct (U1 j o Ej) as (o1 & E1 & N1 & I1). destruct (U2 j o1 E1) as (o2 & E2 & N2 & I2).
    exists o2. split; [exact E2|]. split.
    - intros C. rewrite (N2 ltac:(intros X; apply C, in_or_app; auto)). apply N1. intros X; apply C, in_or_app; auto.
    - intros C. destruct (in_dec Nat.eq_dec j L') as [Y|Y].
      + destruct (I2 Y) as [S2 B2]. destruct (in_dec Nat.eq_dec j L) as [Z|Z].
        * destruct (I1 Z) as [S1 B1]. split; [eapply content_trans; eauto|]. rewrite B2, B1. reflexivity.
        * rewrite (N1 Z) in *. auto.
      + rewrite (N2 Y). apply I1. apply in_app_or in C. tauto. }
  assert (All : forall L a a' u, each (set_pen pb) L a = (a', Ok u) -> upd L a a').
  { induction L as [|x L IH]; intros a a' u E; cbn [each] in E.
    - injection E as <- _. split; [reflexivity|]. intros j o Ej. exists o. split; [exact Ej|]. split; [reflexivity|intros []].
    - unfold next in E at 1. destruct (set_pen pb x a) as [a1 [u1|]] eqn:E1; [|discriminate]. unfold next in E. destruct (each (set_pen pb) L a1) as [a2 [u2|]] eqn:E2; [|discriminate].
      injection E as <- _. apply (Comp [x] L a a1 a2); [eapply One; eauto|eapply IH; eauto]. }
  assert (New : forall a a' b, base_new n pb closed xform a = (a', Ok b) -> h_els a' = h_els a /\ o_name b = n /\ o_pb b = pb /\ o_closed b = closed).
  { intros a a' b. unfold base_new, next, when, ret, mk_xf. destruct xform; destruct (negb (pb_filled pb && negb closed)); cbn; intros E; inversion E; subst; cbn; auto. }
  unfold holes_new. intros E. unfold next in E at 1. destruct (base_new n pb closed xform h) as [h1 [b|]] eqn:E1; [|discriminate].
  unfold next in E at 1. destruct (set_pen pb outside h1) as [h2 [u2|]] eqn:E2; [|discriminate].
  unfold next in E. destruct (each (set_pen pb) inside h2) as [h3 [u3|]] eqn:E3; [|discriminate].
  unfold mk_el in E. injection E as <- <-. cbn [h_els]. destruct (New _ _ _ E1) as (Q1 & Q2 & Q3 & Q4).
  split; [exists b; split; [rewrite nth_error_app2, Nat.sub_diag by auto; reflexivity|auto]|].
  destruct (Comp [outside] inside h1 h2 h3 (One _ _ _ _ E2) (All _ _ _ _ E3)) as [Len U]. rewrite Q1 in U, Len.
  intros j o Ej. destruct (U j o Ej) as (o' & Eo & No & Io). exists o'. split; [|split; [exact No|exact Io]].
  rewrite nth_error_app1; [exact Eo|]. rewrite Len. apply nth_error_Some. congruence.
Qed.

(* a group of one member becomes a member itself, and then a part of a shape with holes *)
Example C48_example_add : let pb := PenBrush None None in let b n := OB n pb true 0 in
  let h : heap R := Heap [] [] [] [] [OGroup (b "outer"%string) false [] []; OGroup (b "inner"%string) false [("leaf"%string, 2)] []; OCurve (b "leaf"%string) []] in
  nth_error (h_els h) 0 = Some (OGroup (b "outer"%string) false [] []) /\ nth_error (h_els h) 1 = Some (OGroup (b "inner"%string) false [("leaf"%string, 2)] []) /\
  exists h', holes_new "hole"%string pb 1 [2] true (Some 0) h = (h', Ok 3).
Proof. cbv zeta. split; [reflexivity|]. split; [reflexivity|]. eexists. reflexivity. Qed.

(* ------------------------------------------------------------------ *)
(** ** restoring a shape with holes *)

Lemma copy_value {F} {NF : Num F} limit e (h h1 : heap F) c : wf (h_pts h) -> e_copy limit e h = (h1, Ok c) ->
  wf (h_pts h1) /\ old h h1 /\ made h h1 (RE c) /\ forall v, leaf_value h e = Some v -> leaf_value h1 c = Some v.
Proof.
  intros W E. destruct (tri0_old (e_copy limit e) _ h (t_e_copy _ limit e) W) as [O W1]. pose proof (copy_there _ _ _ _ _ E) as T.
  destruct (tri0_step h _ _ _ _ _ (t_e_copy _ limit e) (there_inv h W) E) as (_ & _ & N).
  destruct limit as [|limit]; [discriminate|]. rewrite E in O, W1. cbn [fst] in O, W1.
  split; [exact W1|]. split; [exact O|]. split; [split; auto|]. intros [b s] Ev.
  destruct (copy_spec limit e h b s W Ev) as [_ B]. rewrite E in B. destruct (B c eq_refl) as (x & Cp & _). exact (copied_value _ _ _ _ _ _ Cp).
Qed.
Lemma each_copy_value {F} {NF : Num F} limit : forall i (h h1 : heap F) i', wf (h_pts h) -> each (e_copy limit) i h = (h1, Ok i') ->
  wf (h_pts h1) /\ old h h1 /\ Forall2 (fun e c => made h h1 (RE c) /\ forall v, leaf_value h e = Some v -> leaf_value h1 c = Some v) i i'.
Proof.
  induction i as [|e i IH]; intros h h1 i' W E; cbn [each] in E.
  - injection E as <- <-. split; [exact W|]. split; [apply old_refl|constructor].
  - apply next_ok in E as (h2 & c & E1 & E). apply next_ok in E as (h3 & cs & E2 & E). injection E as <- <-.
    destruct (copy_value _ _ _ _ _ W E1) as (W2 & O2 & [N2 T2] & V2). destruct (IH _ _ _ W2 E2) as (W3 & O3 & F3).
    split; [exact W3|]. split; [eapply old_trans; eauto|]. constructor.
    + split; [split; [exact N2|apply O3, T2]|]. intros [b s] Ev. apply (leaf_value_old h2 h3 c b s W2 W3 O3). auto.
    + clear - F3 O2 W W2. induction F3 as [|x y l l' [[N T] V] _ IH']; constructor; [|exact IH']. split; [split; [intros C; apply N, O2, C|exact T]|].
      intros [b s] Ev. apply V. apply (leaf_value_old h h2 x b s W W2 O2 Ev).
Qed.

(* restore(c) on a shape with holes: name, pens, closed flag and the very transform object of
   c; the outside is a new copy of the outside of c; the holes are new copies, one by one, of
   the holes self has now and not of those of c; every other object stays as it is. *)
Theorem C49_restore_objects : forall {F} {NF : Num F} (h h' : heap F) limit e c b o i b' o' i', hreach h ->
  nth_error (h_els h) e = Some (OHoles b o i) -> nth_error (h_els h) c = Some (OHoles b' o' i') ->
  e_restore limit e c h = (h', Ok tt) ->
  exists o2 i2, nth_error (h_els h') e = Some (OHoles b' o2 i2) /\
    (made h h' (RE o2) /\ forall v, leaf_value h o' = Some v -> leaf_value h' o2 = Some v) /\
    Forall2 (fun x y => made h h' (RE y) /\ forall v, leaf_value h x = Some v -> leaf_value h' y = Some v) i i2 /\
    (forall r, there h r -> r <> RE e -> same h h' r).
Proof.
  intros F NF h h' limit e c b o i b' o' i' H Ee Ec E. pose proof (hreach_wf h H) as W. unfold e_restore in E.
  unfold next at 1, rd_el, rd in E. rewrite Ee in E. unfold next at 1 in E. rewrite Ec in E. cbn [eo_base] in E. 
  apply next_ok in E as (h1 & o2 & E1 & E). apply next_ok in E as (h2 & i2 & E2 & E).
  destruct (copy_value _ _ _ _ _ W E1) as (W1 & O1 & [N1 T1] & V1). destruct (each_copy_value _ _ _ _ _ W1 E2) as (W2 & O2 & F2).
  pose proof (old_trans _ _ _ O1 O2) as O12. assert (Te : there h (RE e)) by (cbn; eapply some_lt; eauto).
  unfold wr_el in E. injection E as <-. exists o2, i2.
  set (n := OHoles (OB (o_name b') (o_pb b') (o_closed b') (o_xform b')) o2 i2).
  assert (Lv : forall y, y <> e -> leaf_value (Heap (h_pts h2) (h_vecs h2) (h_cps h2) (h_xfs h2) (set_nth e n (h_els h2))) y = leaf_value h2 y).
  { intros y Ny. unfold leaf_value. cbn [h_els]. rewrite set_nth_other by auto. reflexivity. }
  assert (Nw : forall y, made h h2 (RE y) -> y <> e /\ made h (Heap (h_pts h2) (h_vecs h2) (h_cps h2) (h_xfs h2) (set_nth e n (h_els h2))) (RE y)).
  { intros y [Ny Ty]. split; [intros ->; auto|]. split; [exact Ny|]. cbn in *. now rewrite set_nth_length. }
  split; [cbn [h_els]; rewrite set_nth_same by (apply (O12 (RE e)), Te); unfold n; destruct b'; reflexivity|]. split; [|split].
  - destruct (Nw o2) as [Ny M2]; [split; [exact N1|apply O2, T1]|]. split; [exact M2|]. intros [vb s] Ev. rewrite Lv by auto. apply (leaf_value_old h1 h2); auto.
  - clear E2. clearbody n. clear - F2 Lv Nw O1 W W1. induction F2 as [|x y l l' [[N T] V] _ IH]; constructor; [|exact IH].
    destruct (Nw y) as [Ny M2]; [split; [intros C; apply N, O1, C|exact T]|]. split; [exact M2|]. intros [vb s] Ev. rewrite Lv by auto. apply V. apply (leaf_value_old h h1); auto.
  - intros r Tr Nr. destruct (O12 r Tr) as [Sr _]. destruct r as [j|j|j|j|j]; cbn in *; auto. rewrite set_nth_other by congruence. exact Sr.
Qed.
(* the ring above, copied, then restored from its copy: the parts 1 and 2 give way to new ones *)
Example C49_example_restore : let h := hrun (ex_ringprog ++ [HCopy 9 3])%list empty in hreach h /\
  (exists b b', nth_error (h_els h) 3 = Some (OHoles b 1 [2]) /\ nth_error (h_els h) 6 = Some (OHoles b' 4 [5])) /\
  (exists v, leaf_value h 4 = Some v) /\ (exists v, leaf_value h 2 = Some v) /\
  exists h', e_restore 9 3 6 h = (h', Ok tt).
Proof.
  cbv zeta. split; [eexists; reflexivity|]. split; [eexists; eexists; split; run|]. split; [eexists; run|]. split; [eexists; run|]. eexists. run.
Qed.

(* new pens change the elements only, and the new shape takes the transform object given *)
Lemma holes_new_rest {F} {NF : Num F} n pb outside inside closed x (h h' : heap F) k :
  holes_new n pb outside inside closed (Some x) h = (h', Ok k) ->
  h_pts h' = h_pts h /\ h_vecs h' = h_vecs h /\ h_cps h' = h_cps h /\ h_xfs h' = h_xfs h /\ k = List.length (h_els h) /\
  List.length (h_els h') = S (List.length (h_els h)) /\
  nth_error (h_els h') k = Some (OHoles (OB n pb closed x) outside inside).
Proof.
  set (keeps := fun a a' : heap F => h_pts a' = h_pts a /\ h_vecs a' = h_vecs a /\ h_cps a' = h_cps a /\ h_xfs a' = h_xfs a /\ List.length (h_els a') = List.length (h_els a)).
  assert (One : forall y a a' u, set_pen pb y a = (a', Ok u) -> keeps a a').
  { intros y a a' u. unfold set_pen, next, rd_el, rd, wr_el. destruct (nth_error (h_els a) y); [|discriminate]. intros E. injection E as <- _. unfold keeps. cbn. rewrite set_nth_length. auto. }
  assert (Tr : forall a1 a2 a3, keeps a1 a2 -> keeps a2 a3 -> keeps a1 a3).
  { unfold keeps. intros a1 a2 a3 (?&?&?&?&?) (?&?&?&?&?). repeat split; congruence. }
  assert (All : forall l a a' u, each (set_pen pb) l a = (a', Ok u) -> keeps a a').
  { induction l as [|y l IH]; intros a a' u E; cbn [each] in E; [injection E as <- _; unfold keeps; auto|].
    apply next_ok in E as (a1 & ? & E1 & E). apply next_ok in E as (a2 & ? & E2 & E). injection E as <- _. eauto. }
  unfold holes_new. intros E. apply next_ok in E as (h1 & b & E1 & E). apply next_ok in E as (h2 & ? & E2 & E). apply next_ok in E as (h3 & ? & E3 & E).
  unfold base_new, next, ret, when in E1. destruct (negb _); [|discriminate]. injection E1 as <- <-.
  destruct (Tr _ _ _ (One _ _ _ _ E2) (All _ _ _ _ E3)) as (K1 & K2 & K3 & K4 & K5). unfold mk_el in E. injection E as <- <-. cbn [h_pts h_vecs h_cps h_xfs h_els].
  do 4 (split; [assumption|]). split; [assumption|]. split; [rewrite app_length; cbn; lia|apply nth_app_new].
Qed.

(* transform() of a shape with holes: a new shape of the same name, pens and closed flag with
   a new transform object, the product of the matrix and its own; every part is a new copy
   with the pens of the whole, the holes in order. *)
Theorem C49_transform_objects : forall {F} {NF : Num F} (h h' : heap F) limit e m c b o i t u, hreach h ->
  nth_error (h_els h) e = Some (OHoles b o i) -> nth_error (h_xfs h) (o_xform b) = Some t -> nth_error (h_xfs h) m = Some u ->
  e_transform limit e m h = (h', Ok c) ->
  let part x y := made h h' (RE y) /\ forall n p k f s, leaf_value h x = Some (EB n p k f, s) -> leaf_value h' y = Some (EB n (o_pb b) k f, s) in
  exists x w o2 i2, nth_error (h_els h') c = Some (OHoles (OB (o_name b) (o_pb b) (o_closed b) x) o2 i2) /\
    made h h' (RE c) /\ made h h' (RX x) /\ nth_error (h_xfs h') x = Some w /\ tmat w = mat_dot (tmat u) (tmat t) /\
    part o o2 /\ Forall2 part i i2.
Proof.
  intros F NF h h' limit e m c b o i t u H Ee Et Eu E part. pose proof (hreach_wf h H) as W. unfold e_transform in E.
  unfold next at 1, rd_el, rd in E. rewrite Ee in E. cbn [eo_base] in E. unfold next at 1, rd_xf, rd in E. rewrite Eu in E. unfold next at 1 in E. rewrite Et in E.
  apply next_ok in E as (h1 & o2 & E1 & E). apply next_ok in E as (h2 & i2 & E2 & E). apply next_ok in E as (h3 & x & E3 & E).
  destruct (copy_value _ _ _ _ _ W E1) as (W1 & O1 & [N1 T1] & V1). destruct (each_copy_value _ _ _ _ _ W1 E2) as (W2 & O2 & F2).
  pose proof (old_trans _ _ _ O1 O2) as O12. unfold mk_xf in E3. injection E3 as <- <-.
  set (h3 := Heap (h_pts h2) (h_vecs h2) (h_cps h2) (h_xfs h2 ++ [t_copy (t_compose (tmat t) (t_copy u))]) (h_els h2)) in *.
  assert (O3 : old h2 h3).
  { intros [j|j|j|j|j] Hj; cbn in *; auto. rewrite app_length. split; [now apply nth_error_app1|lia]. }
  assert (W3 : wf (h_pts h3)) by exact W2.
  destruct (holes_new_rest _ _ _ _ _ _ _ _ _ E) as (K1 & K2 & K3 & K4 & Kc & Kl & Ke). destruct (C49_new_pens _ _ _ _ _ _ _ _ _ E) as [_ Pn].
  assert (Lv : forall y n p k f s, In y (o2 :: i2) -> leaf_value h2 y = Some (EB n p k f, s) -> leaf_value h' y = Some (EB n (o_pb b) k f, s)).
  { intros y n p k f s Iy Ev. apply (leaf_value_old h2 h3) in Ev; auto. clear - Ev Iy Pn K1 K2 K3 K4.
    unfold leaf_value in *. destruct (nth_error (h_els h3) y) as [oy|] eqn:Ey; [|discriminate]. destruct (Pn y oy Ey) as (oy' & -> & _ & Hy). destruct (Hy Iy) as [Sc Bs].
    assert (Cv : forall l, map (cp_value h') l = map (cp_value h3) l). { intros l. apply map_ext. intros a. unfold cp_value. rewrite K1, K2, K3. reflexivity. }
    assert (Pv : forall a, pt_value h' a = pt_value h3 a). { intros a. unfold pt_value. now rewrite K1. }
    assert (Bv : forall ob ob' v, eo_base oy = ob -> eo_base oy' = ob' -> base_value h3 ob = Some v -> base_value h' ob' = Some (EB (e_name v) (o_pb b) (e_closed v) (e_xform v))).
    { intros ob ob' v <- <-. rewrite Bs. unfold base_value. cbn [o_xform o_name o_pb o_closed]. rewrite K4. destruct (nth_error (h_xfs h3) _); [|discriminate]. intros X. injection X as <-. reflexivity. }
    destruct oy as [ob cps|ob kd a q| |]; try discriminate; destruct oy' as [ob' cps'|ob' kd' a' q'| |]; try (now destruct Sc); cbn [same_content] in Sc.
    - subst cps'. rewrite Cv. destruct (base_value h3 ob) as [v|] eqn:Eb; [|discriminate]. rewrite (Bv ob ob' v eq_refl eq_refl Eb). destruct (all_some _); [|discriminate]. injection Ev as -> <-. reflexivity.
    - destruct Sc as (-> & -> & ->). rewrite !Pv. destruct (base_value h3 ob) as [v|] eqn:Eb; [|discriminate]. rewrite (Bv ob ob' v eq_refl eq_refl Eb). destruct (pt_value h3 a); [|discriminate]. destruct (pt_value h3 q); [|discriminate]. injection Ev as -> <-. reflexivity. }
  assert (Up : forall y, there h2 (RE y) -> there h' (RE y)). { intros y Hy. cbn in *. rewrite Kl. cbn. lia. }
  destruct (old_length _ _ O12) as [Le _].
  exists (List.length (h_xfs h2)), (t_copy (t_compose (tmat t) (t_copy u))), o2, i2.
  split; [exact Ke|]. split; [split; cbn; rewrite ?Kl, ?Kc; cbn; lia|]. split.
  { split; [intros C; destruct (O12 _ C) as [_ X]; cbn in X; lia|]. cbn. rewrite K4. cbn. rewrite app_length. cbn. lia. }
  split; [rewrite K4; apply nth_app_new|]. split; [reflexivity|]. split.
  - split; [split; [exact N1|apply Up, O2, T1]|]. intros n p k f s Ev. apply (Lv o2 n p k f s); [now left|]. apply (leaf_value_old h1 h2); auto.
  - assert (Sub : forall y, In y i2 -> In y (o2 :: i2)) by (intros; now right). revert Lv Sub. generalize (o2 :: i2). clear E2 E Pn Ke Ee. subst part.
    intros L Lv. induction F2 as [|y z l l' [[N T] V] _ IH]; intros Sub; constructor; [|apply IH; intros; apply Sub; now right].
    split; [split; [intros C; apply N, O1, C|apply Up, T]|]. intros n p k f s Ev. apply (Lv z n p k f s); [apply Sub; now left|]. apply V. apply (leaf_value_old h h1); auto.
Qed.
Example C49_example_transform : let h := hrun (ex_ringprog ++ [HXf (t_new6 2 0 0 0 3 1)%R])%list empty in hreach h /\
  exists b, nth_error (h_els h) 3 = Some (OHoles b 1 [2]) /\ (exists t, nth_error (h_xfs h) (o_xform b) = Some t) /\
  (exists v, leaf_value h 1 = Some v) /\ exists m u, nth_error (h_xfs h) m = Some u /\ exists h' c, e_transform 9 3 m h = (h', Ok c).
Proof.
  cbv zeta. split; [eexists; reflexivity|]. eexists. split; [run|]. split; [eexists; run|]. split; [eexists; run|]. exists 4. eexists. split; [run|]. eexists; eexists. run.
Qed.
