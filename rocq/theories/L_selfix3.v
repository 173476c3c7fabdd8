(* Lemmas about joining the arcs of a cycle. *)
Require Import Verif.Base Verif.M_vector Verif.M_bezier Verif.M_group Verif.M_selfix Verif.L_selfix Verif.S_selfix.
From Coq Require Import List Lia PeanoNat Permutation Bool.
Import ListNotations.

Section Join.
  Context {F : Type} {NF : Num F} {RF : NumRoot F}.
  Notation cps := (list (cpoint F)).

  Definition long (a : cps) : Prop := 2 <= length a.
  (* an arc of at least two points: first, middle, last *)
  Lemma long_split (a : cps) : long a -> exists p m z, a = p :: m ++ [z].
  Proof.
    unfold long. destruct a as [|p l]; cbn; [lia|]. intro H. destruct (@exists_last _ l) as (m & z & ->).
    - destruct l; [cbn in H; lia|discriminate].
    - eauto.
  Qed.
  Lemma rev_mid p m (z : cpoint F) : rev (p :: m ++ [z]) = z :: rev (p :: m).
  Proof. change (p :: m ++ [z]) with ((p :: m) ++ [z]). now rewrite rev_app_distr. Qed.
  Lemma removelast_mid p m (z : cpoint F) : removelast (p :: m ++ [z]) = p :: m.
  Proof. change (p :: m ++ [z]) with ((p :: m) ++ [z]). rewrite removelast_last. reflexivity. Qed.

  (* the shape of glued arcs: first of the first, last of the last *)
  Lemma glue_shape : forall L (a : cps), Forall long (a :: L) ->
    exists p m z a', a = p :: a' /\ glue (a :: L) = p :: m ++ [z] /\
      exists l' b', last (a :: L) [] = b' ++ [z] /\ l' = b'.
  Proof.
    induction L as [|b L IH]; intros a HL.
    - inversion HL as [|x y La _]; subst. destruct (long_split _ La) as (p & m & z & ->).
      exists p, m, z, (m ++ [z]). cbn. repeat split. exists (p :: m), (p :: m). auto.
    - inversion HL as [|x y La HL']; subst. destruct (IH b HL') as (q & m & z & b' & -> & E & l' & b'' & E2 & _).
      destruct (long_split _ La) as (p & m1 & z1 & ->).
      exists p, (m1 ++ corner z1 q :: m), z, (m1 ++ [z1]). split; [reflexivity|]. split.
      + change (glue ((p :: m1 ++ [z1]) :: (q :: b') :: L)) with
          (match rev (p :: m1 ++ [z1]), glue ((q :: b') :: L) with
           | p0 :: _, q0 :: more => removelast (p :: m1 ++ [z1]) ++ corner p0 q0 :: more | _, _ => [] end).
        rewrite E, rev_mid, removelast_mid. cbn. now rewrite <- app_assoc.
      + exists b'', b''. split; auto.
  Qed.

  Definition first_cp (d : cpoint F) (a : cps) := hd d a.
  Lemma glue_ends L d : L <> [] -> Forall long L ->
    long (glue L) /\ hd d (glue L) = hd d (hd [] L) /\ last (glue L) d = last (last L []) d.
  Proof.
    intros N HL. destruct L as [|a L]; [congruence|]. clear N.
    destruct (glue_shape L a HL) as (p & m & z & a' & -> & E & l' & b' & E2 & _).
    rewrite E. split; [|split].
    - unfold long. cbn. rewrite app_length. cbn. lia.
    - reflexivity.
    - rewrite E2. change (p :: m ++ [z]) with ((p :: m) ++ [z]). rewrite !last_last. reflexivity.
  Qed.

  Lemma glue_cons (a : cps) L p m z q g : a = p :: m ++ [z] -> L <> [] -> glue L = q :: g ->
    glue (a :: L) = p :: m ++ corner z q :: g.
  Proof.
    intros -> N E. destruct L as [|b L]; [congruence|].
    change (glue ((p :: m ++ [z]) :: b :: L)) with
      (match rev (p :: m ++ [z]), glue (b :: L) with
       | p0 :: _, q0 :: more => removelast (p :: m ++ [z]) ++ corner p0 q0 :: more | _, _ => [] end).
    rewrite E, rev_mid, removelast_mid. reflexivity.
  Qed.
  Lemma glue_snoc : forall L (e : cps) p m z q e', L <> [] -> Forall long L -> e = q :: e' ->
    glue L = p :: m ++ [z] -> glue (L ++ [e]) = p :: m ++ corner z q :: e'.
  Proof.
    induction L as [|a L IH]; intros e p m z q e' N HL -> E; [congruence|].
    inversion HL as [|x y La HL']; subst. destruct L as [|b L].
    - cbn [glue] in E. subst a. cbn [app]. rewrite (glue_cons _ [q :: e'] p m z q e'); auto; discriminate.
    - destruct (glue_shape L b HL') as (q1 & m1 & z1 & b' & Eb & E1 & _).
      destruct (long_split _ La) as (p0 & m0 & z0 & ->).
      rewrite (glue_cons _ (b :: L) p0 m0 z0 q1 (m1 ++ [z1])) in E; auto; try discriminate.
      assert (IH' := IH (q :: e') q1 m1 z1 q e'). 
      change ((p0 :: m0 ++ [z0]) :: b :: L) with ([p0 :: m0 ++ [z0]] ++ b :: L).
      rewrite <- app_assoc. cbn [app].
      rewrite (glue_cons _ (b :: L ++ [q :: e']) p0 m0 z0 q1 (m1 ++ corner z1 q :: e')); auto; try discriminate.
      + injection E as -> E.
        replace (m0 ++ corner z0 q1 :: m1 ++ [z1]) with ((m0 ++ corner z0 q1 :: m1) ++ [z1]) in E by (now rewrite <- app_assoc).
        apply app_inj_tail in E. destruct E as [<- <-]. now rewrite <- app_assoc.
      + apply IH'; auto. discriminate.
  Qed.

  Lemma cp_copy_id (c : cpoint F) : cp_copy c = c.
  Proof. destruct c as [[x y] [a b] [u v] k]. reflexivity. Qed.

  Definition starts (a : cps) (p : pt F) := exists c l, a = c :: l /\ cc c = p.
  Definition ends (a : cps) (p : pt F) := exists c l, a = l ++ [c] /\ cc c = p.
  (* the end of a is next to the start of b, in one of the ways the code looks at it *)
  Definition touch (a b : cps) : Prop :=
    exists p q, ends a p /\ starts b q /\ (p_close join_delta p q = true \/ p_close join_delta q p = true).

  Lemma glue_starts L : L <> [] -> Forall long L -> forall p, starts (glue L) p <-> starts (hd [] L) p.
  Proof.
    intros N HL p. destruct L as [|a L]; [congruence|].
    destruct (glue_shape L a HL) as (q & m & z & a' & -> & E & _). rewrite E. unfold starts. cbn [hd].
    split; intros (c & l & Q & <-); injection Q as <- _; eauto.
  Qed.

  Lemma join_edge_glue L (e : cps) r : L <> [] -> Forall long L -> long e -> join_edge (glue L) e = Ok r ->
    (r = glue (L ++ [e]) /\ touch (last L []) e) \/ (r = glue (e :: L) /\ touch e (hd [] L)).
  Proof.
    intros N HL He H. destruct L as [|a L]; [congruence|]. clear N.
    destruct (glue_shape L a HL) as (p & m & z & a' & Ea & E & l' & b' & E2 & _).
    destruct (long_split _ He) as (q & me & ze & Ee).
    unfold join_edge, last_cp in H. rewrite E, Ee in H. rewrite !rev_mid in H. cbn [head_cp bind] in H.
    rewrite !cp_copy_id, !removelast_mid in H. cbn [tl app] in H.
    destruct (p_close join_delta (cc z) (cc q)) eqn:C1.
    - left. injection H as <-. split.
      + rewrite (glue_snoc (a :: L) e p m z q (me ++ [ze])); auto; discriminate.
      + exists (cc z), (cc q). repeat split; [exists z, b'; auto|exists q, (me ++ [ze]); auto|auto].
    - destruct (p_close join_delta (cc p) (cc q)); [discriminate|].
      destruct (p_close join_delta (cc p) (cc ze)) eqn:C3; [|discriminate].
      right. injection H as <-. split.
      + rewrite (glue_cons e (a :: L) q me ze p (m ++ [z])); auto; discriminate.
      + exists (cc ze), (cc p). repeat split; [exists ze, (q :: me); auto|exists p, a'; auto|auto].
  Qed.

  Fixpoint touching (L : list cps) : Prop :=
    match L with
    | a :: ((b :: _) as l) => touch a b /\ touching l
    | _ => True
    end.
  Lemma touching_snoc L e : touching L -> (L <> [] -> touch (last L []) e) -> touching (L ++ [e]).
  Proof.
    induction L as [|a L IH]; intros H HL; [exact I|]. destruct L as [|b L].
    - cbn. split; auto. apply HL. discriminate.
    - cbn [app touching] in *. destruct H. split; auto. apply IH; auto. intros _. apply HL. discriminate.
  Qed.

  Variable f : nat -> cps.
  Hypothesis f_long : forall i, long (f i).

  Lemma Forall_f O : Forall long (map f O).
  Proof. apply Forall_forall. intros a Ha. apply in_map_iff in Ha. destruct Ha as (i & <- & _). auto. Qed.

  Lemma join_all : forall others O r, O <> [] -> touching (map f O) ->
    foldM join_edge (glue (map f O)) (map f others) = Ok r ->
    exists O', Permutation O' (O ++ others) /\ r = glue (map f O') /\ touching (map f O') /\ O' <> [].
  Proof.
    induction others as [|e others IH]; intros O r N T H; cbn [map foldM] in H.
    - injection H as <-. exists O. rewrite app_nil_r. auto.
    - destruct (join_edge (glue (map f O)) (f e)) as [r1|] eqn:E; [|discriminate]. cbn [bind] in H.
      assert (N' : map f O <> []) by (destruct O; [congruence|discriminate]).
      destruct (join_edge_glue _ _ _ N' (Forall_f O) (f_long e) E) as [[-> Ht]|[-> Ht]].
      + replace (map f O ++ [f e]) with (map f (O ++ [e])) in H by now rewrite map_app.
        destruct (IH (O ++ [e]) r) as (O' & P & Q); auto.
        * destruct O; discriminate.
        * rewrite map_app. cbn [map]. apply touching_snoc; auto.
        * exists O'. split; auto. rewrite <- app_assoc in P. exact P.
      + change (f e :: map f O) with (map f (e :: O)) in H.
        destruct (IH (e :: O) r) as (O' & P & Q); auto; try discriminate.
        * destruct O; [exact I|]. cbn [map touching]. split; auto.
        * exists O'. split; auto. rewrite P. cbn. apply Permutation_middle.
  Qed.

  Lemma close_curve_ring L : L <> [] -> Forall long L -> close_curve (glue L) = Ok (ring L).
  Proof.
    intros N HL. destruct L as [|a L]; [congruence|].
    destruct (glue_shape L a HL) as (p & m & z & a' & Ea & E & _). unfold ring, close_curve, last_cp.
    rewrite E, rev_mid. cbn [head_cp bind]. rewrite rev_app_distr. cbn [rev app tl]. f_equal.
    rewrite cp_copy_id. rewrite removelast_mid, removelast_last. reflexivity.
  Qed.

  Lemma cycle_curve cyc r : cyc <> [] ->
    bind (foldM join_edge (f (hd 0 cyc)) (map f (tl cyc))) close_curve = Ok r ->
    exists O, Permutation O cyc /\ r = ring (map f O) /\ touching (map f O).
  Proof.
    intros N H. destruct cyc as [|i cyc]; [congruence|]. cbn [hd tl] in H.
    destruct (foldM join_edge (f i) (map f cyc)) as [g|] eqn:E; [|discriminate]. cbn [bind] in H.
    destruct (join_all cyc [i] g) as (O & P & -> & T & NO); auto; try discriminate.
    { cbn. exact I. }
    rewrite close_curve_ring in H.
    - injection H as <-. exists O. auto.
    - destruct O; [congruence|discriminate].
    - apply Forall_f.
  Qed.

  Lemma join_edge_raises a b e : long a -> long b -> join_edge a b = Raise e -> e = ValueError.
  Proof.
    intros Ha Hb. destruct (long_split _ Ha) as (p & m & z & ->), (long_split _ Hb) as (p1 & m1 & z1 & ->).
    unfold join_edge, last_cp. rewrite !rev_mid. cbn [head_cp bind].
    destruct (p_close _ _ _); [discriminate|]. destruct (p_close _ _ _); [congruence|].
    destruct (p_close _ _ _); congruence.
  Qed.
  Lemma cycle_raises cyc e : cyc <> [] ->
    bind (foldM join_edge (f (hd 0 cyc)) (map f (tl cyc))) close_curve = Raise e -> e = ValueError.
  Proof.
    intros N H. destruct cyc as [|i cyc]; [congruence|]. cbn [hd tl] in H. clear N.
    assert (G : forall others O, O <> [] -> touching (map f O) ->
              bind (foldM join_edge (glue (map f O)) (map f others)) close_curve = Raise e -> e = ValueError).
    { clear H cyc. induction others as [|x others IH]; intros O N T H; cbn [map foldM] in H.
      - cbn [bind] in H. rewrite close_curve_ring in H; [discriminate| |apply Forall_f]. destruct O; [congruence|discriminate].
      - assert (N' : map f O <> []) by (destruct O; [congruence|discriminate]).
        destruct (join_edge (glue (map f O)) (f x)) as [r1|e1] eqn:E; cbn [bind] in H.
        + destruct (join_edge_glue _ _ _ N' (Forall_f O) (f_long x) E) as [[-> Ht]|[-> Ht]].
          * replace (map f O ++ [f x]) with (map f (O ++ [x])) in H by now rewrite map_app.
            apply (IH (O ++ [x])); auto; [destruct O; discriminate|].
            rewrite map_app. cbn [map]. apply touching_snoc; auto.
          * change (f x :: map f O) with (map f (x :: O)) in H.
            apply (IH (x :: O)); auto; try discriminate.
            destruct O; [exact I|]. cbn [map touching]. split; auto.
        + injection H as ->. apply join_edge_raises in E; auto.
          destruct (@glue_ends (map f O) (hd (CP (P (nofZ 0) (nofZ 0)) (V (nofZ 0) (nofZ 0)) (V (nofZ 0) (nofZ 0)) String.EmptyString) (f i)) N' (Forall_f O)). auto. }
    apply (G cyc [i]); auto; try discriminate. exact I.
  Qed.
End Join.
