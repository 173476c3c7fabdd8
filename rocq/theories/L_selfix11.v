(* Lemmas: with answers one can rely on, every cycle can be joined, and nothing of the curve is
   lost or added. *)
Require Import Verif.Base Verif.NumR Verif.L_real.
From Coq Require Import List Lia PeanoNat Permutation Bool Reals Lra String Sorting.Sorted.
Require Import Verif.M_vector Verif.M_bezier Verif.M_group Verif.M_dump Verif.M_selfix.
Require Import Verif.S_bezier Verif.L_bezier Verif.P_bezier Verif.S_selfix.
Require Import Verif.L_selfix Verif.L_selfix2 Verif.L_selfix3 Verif.L_selfix4 Verif.L_selfix5 Verif.L_selfix6 Verif.L_selfix7 Verif.L_selfix8.
Import ListNotations.
Open Scope list_scope.
Open Scope R_scope.

Lemma dist_triangle (p q r : pt R) : dist p r <= dist p q + dist q r.
Proof.
  pose proof (triangle (px p) (py p) (px r) (py r) (px q) (py q)) as H. unfold dist_euc, Rsqr in H. unfold dist.
  replace (((px p - px r) ^ 2 + (py p - py r) ^ 2)) with ((px p - px r) * (px p - px r) + (py p - py r) * (py p - py r)) by ring.
  replace (((px p - px q) ^ 2 + (py p - py q) ^ 2)) with ((px p - px q) * (px p - px q) + (py p - py q) * (py p - py q)) by ring.
  replace (((px q - px r) ^ 2 + (py q - py r) ^ 2)) with ((px q - px r) * (px q - px r) + (py q - py r) * (py q - py r)) by ring.
  exact H.
Qed.
Lemma dist_zero (p q : pt R) : dist p q <= 0 -> p = q.
Proof.
  intro H. unfold dist in H. pose proof (sqrt_pos ((px p - px q) ^ 2 + (py p - py q) ^ 2)) as H1.
  assert (E : sqrt ((px p - px q) ^ 2 + (py p - py q) ^ 2) = 0) by lra.
  assert (NN : 0 <= (px p - px q) ^ 2 /\ 0 <= (py p - py q) ^ 2) by (split; apply pow2_ge_0).
  apply sqrt_eq_0 in E; [|lra]. destruct p as [x y], q as [x' y']. cbn [px py] in *.
  assert (x - x' = 0). { apply Rsqr_eq_0. unfold Rsqr. lra. }
  assert (y - y' = 0). { apply Rsqr_eq_0. unfold Rsqr. lra. }
  f_equal; lra.
Qed.

Lemma last_any {A} (l : list A) : forall a x y, last (a :: l) x = last (a :: l) y.
Proof. induction l as [|b l IH]; intros; [reflexivity|]. cbn [last] in *. apply (IH b). Qed.

Section Reliable.
  Variable solve : cpoint R -> cpoint R -> cpoint R -> cpoint R -> list (pt R * R * R).
  Variables (orig : list (cpoint R)) (nodes : list (R * R)) (fine : list (cpoint R))
    (raw : list (nat * list (cpoint R) * nat)) (W : list nat).
  Hypothesis S : staged solve orig nodes fine raw W.
  Let n := List.length raw.
  Let arc i := nth i (map acps raw) [].

  Lemma node_reported k xy : nth_error nodes k = Some xy ->
    exists p ta tb, In (p, ta, tb) (crossings solve (pieces solve orig)) /\ at_xy xy = p.
  Proof.
    intro Hn. apply nth_error_In in Hn. apply (st_from _ _ _ _ _ _ S) in Hn. apply in_map_iff in Hn.
    destruct Hn as (y & <- & Hy). apply in_flat_map in Hy. destruct Hy as ([[p ta] tb] & H1 & H2).
    exists p, ta, tb. split; auto. destruct p. destruct H2 as [<-|[<-|[]]]; reflexivity.
  Qed.

  Variables (eps d : R).
  Hypothesis Acc : accurate solve orig eps.
  Hypothesis Sep : separated solve orig d.
  Hypothesis E1 : 2 * eps < 1 / 10 ^ 11.
  Hypothesis E2 : 1 / 10 ^ 11 + 2 * eps <= d.

  Definition at_node (c : cpoint R) (k : nat) : Prop :=
    exists xy, nth_error nodes k = Some xy /\ dist (cc c) (at_xy xy) <= eps.
  Lemma near_at c k : near_node solve orig nodes c k -> at_node c k.
  Proof.
    intros ([t xy] & N & _ & (j & p & J1 & J2 & J3)). exists xy. split; [exact N|]. rewrite J3. exact (Acc j p t xy J1 J2).
  Qed.
  Lemma delta_eq : (@join_delta R _) = 1 / 10 ^ 11.
  Proof. unfold join_delta. cbn. lra. Qed.
  Lemma close_iff p q a b : at_node p a -> at_node q b -> (p_close join_delta (cc p) (cc q) = true <-> a = b).
  Proof.
    intros (xy & A1 & A2) (xy' & B1 & B2). unfold p_close. rewrite (Rltb_true), <- dist_length, delta_eq. split.
    - intro H. destruct (node_reported _ _ A1) as (r & ta & tb & I1 & R1), (node_reported _ _ B1) as (r' & sa & sb & I2 & R2).
      assert (E : xy = xy').
      { destruct (Sep _ _ _ _ _ _ I1 I2) as [Q|Q].
        - rewrite <- R1, <- R2 in Q. destruct xy, xy'. unfold at_xy in Q. cbn in Q. congruence.
        - exfalso. rewrite <- R1, <- R2 in Q.
          pose proof (dist_triangle (at_xy xy) (cc p) (at_xy xy')). pose proof (dist_triangle (cc p) (cc q) (at_xy xy')).
          rewrite (dist_sym (at_xy xy) (cc p)) in *. lra. }
      subst xy'. pose proof (st_nodup _ _ _ _ _ _ S) as ND. rewrite NoDup_nth_error in ND.
      apply ND; [now apply nth_error_some_lt in A1|congruence].
    - intros <-. rewrite A1 in B1. injection B1 as <-.
      pose proof (dist_triangle (cc p) (at_xy xy) (cc q)). rewrite (dist_sym (at_xy xy) (cc q)) in *. lra.
  Qed.
  Lemma not_close p q a b : at_node p a -> at_node q b -> a <> b -> p_close join_delta (cc p) (cc q) = false.
  Proof. intros A B N. apply not_true_is_false. intro H. now apply (close_iff p q a b) in H. Qed.

  Definition spans (cps : list (cpoint R)) (s e : nat) : Prop :=
    exists p m z, cps = p :: m ++ [z] /\ at_node p s /\ at_node z e.
  Lemma join_prepend cps ec s e s' : spans cps s e -> spans ec s' s -> s' <> e -> s' <> s ->
    exists r, join_edge cps ec = Ok r /\ spans r s' e.
  Proof.
    intros (p & m & z & -> & A1 & A2) (p' & m' & z' & -> & B1 & B2) N1 N2.
    unfold join_edge, last_cp. rewrite !rev_mid', !removelast_mid'. cbn [head_cp bind tl].
    rewrite (not_close z p' e s'), (not_close p p' s s'), (proj2 (close_iff p z' s s A1 B2) eq_refl); auto.
    eexists. split; [reflexivity|]. exists p', (m' ++ [set_kind "sharp" (set_dr (cdr p) (cp_copy z'))] ++ m), z.
    split; auto. cbn [app]. f_equal. rewrite <- !app_assoc. reflexivity.
  Qed.
  Lemma join_append cps ec s e t : spans cps s e -> spans ec e t -> exists r, join_edge cps ec = Ok r /\ spans r s t.
  Proof.
    intros (p & m & z & -> & A1 & A2) (p' & m' & z' & -> & B1 & B2).
    unfold join_edge, last_cp. rewrite !rev_mid', !removelast_mid'. cbn [head_cp bind tl].
    rewrite (proj2 (close_iff z p' e e A2 B1) eq_refl).
    eexists. split; [reflexivity|]. exists p, (m ++ [set_kind "sharp" (set_dr (cdr p') (cp_copy z))] ++ m'), z'.
    split; auto. cbn [app]. f_equal. rewrite <- !app_assoc. reflexivity.
  Qed.
  Lemma arc_spans i : (i < n)%nat -> spans (cps_of raw i) (lf raw i) (rt raw i).
  Proof.
    intro H. destruct (raw_entry _ _ _ _ _ _ S i H) as (p & mid & z & E & E' & A & B).
    exists p, mid, z. rewrite E'. split; [exact E|]. split; now apply near_at.
  Qed.
  Lemma fold_ok i0 : forall l i cps, spans cps (lf raw i) (rt raw i0) -> backward raw (i :: l) ->
    Forall (fun j => (j < n)%nat) l -> NoDup (rt raw i0 :: map (rt raw) l) -> lf raw (last l i) = rt raw i0 ->
    exists r s e, foldM join_edge cps (map (cps_of raw) l) = Ok r /\ spans r s e.
  Proof.
    induction l as [|j l IH]; intros i cps Sp HB HL ND HC.
    - exists cps, (lf raw i), (rt raw i0). auto.
    - destruct HB as [Hj HB]. inversion_clear HL as [|? ? Lj HL']. cbn [map foldM].
      pose proof (arc_spans j Lj) as Sj. rewrite Hj in Sj.
      destruct l as [|k l].
      + cbn [last] in HC. rewrite HC in Sj.
        destruct (join_append _ _ _ _ _ Sp Sj) as (r & -> & Sr). cbn [bind map foldM]. eauto.
      + pose proof (proj1 HB) as Hk. cbn [map] in ND. rewrite <- Hk in Sj.
        destruct (join_prepend _ _ _ _ _ Sp Sj) as (r & -> & Sr).
        * intro Q. inversion_clear ND. apply H. right. left. exact Q.
        * intro Q. inversion_clear ND. inversion_clear H0. apply H1. left. congruence.
        * cbn [bind]. apply (IH j); auto.
          { rewrite <- Hk. exact Sr. }
          { inversion_clear ND. inversion_clear H0. constructor; auto. intro Q. apply H. now right. }
          { rewrite <- HC. change (last (j :: k :: l) i) with (last (k :: l) i). apply (f_equal (lf raw)). apply last_any. }
  Qed.
  Lemma cycle_joins cyc : good_cycle raw cyc -> exists r, curve_of (linked raw) cyc = Ok r.
  Proof.
    intro G. rewrite (curve_of_arcs raw cyc (gc_lt _ _ G) (gc_some _ _ G)).
    pose proof (gc_some _ _ G). pose proof (gc_lt _ _ G) as L. pose proof (gc_back _ _ G) as B.
    pose proof (gc_close _ _ G) as C. pose proof (gc_nodup _ _ G) as ND.
    destruct cyc as [|i l]; [congruence|]. cbn [hd tl map] in *. inversion_clear L as [|? ? Li HL].
    destruct (fold_ok i l i (cps_of raw i) (arc_spans i Li) B HL ND) as (r & s & e & -> & (p & m & z & -> & _)).
    - rewrite C. destruct l as [|a l]; [reflexivity|]. change (last (i :: a :: l) 0%nat) with (last (a :: l) 0%nat). apply (f_equal (lf raw)). apply last_any.
    - cbn [bind]. unfold close_curve, last_cp. rewrite rev_mid'. cbn. eauto.
  Qed.
End Reliable.
