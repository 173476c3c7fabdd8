(* Lemmas about the walk over the self-intersection graph. *)
Require Import Verif.Base Verif.M_vector Verif.M_bezier Verif.M_group Verif.M_selfix Verif.L_selfix.
From Coq Require Import List Lia PeanoNat Permutation Bool.
Import ListNotations.

Section Walk.
  Context {F : Type}.
  Variable raw : list (nat * list (cpoint F) * nat).
  Let n := length raw.

  Definition lf (i : nat) : nat := match nth_error raw i with Some a => fst (fst a) | None => 0 end.
  Definition rt (i : nat) : nat := match nth_error raw i with Some a => snd a | None => 0 end.
  Definition cps_of (i : nat) : list (cpoint F) := match nth_error raw i with Some a => snd (fst a) | None => [] end.
  Definition nxt (i : nat) : nat := if S i =? n then 0 else S i.
  Definition rem (es : list (edge F)) (i : nat) : bool := match nth_error es i with Some e => ed_removed e | None => true end.
  (* the graph of the arcs, with some edges removed *)
  Definition like (es : list (edge F)) : Prop := map (set_removed false) es = linked raw.

  Lemma like_linked : like (linked raw).
  Proof.
    unfold like. apply nth_error_ext. intro i. rewrite nth_error_map, nth_error_linked.
    destruct (nth_error raw i); reflexivity.
  Qed.
  Lemma like_length es : like es -> length es = n.
  Proof. intro H. rewrite <- (map_length (set_removed false)), H. apply linked_length. Qed.
  Lemma nth_like es i : like es -> i < n ->
    nth_error es i = Some (Edge (Some (if i =? 0 then n - 1 else i - 1)) (lf i) (cps_of i) (rt i) (Some (nxt i)) (rem es i)).
  Proof.
    intros H Hi. pose proof (f_equal (fun l => nth_error l i) H) as E. cbn beta in E.
    rewrite nth_error_map, nth_error_linked in E. unfold rem, lf, rt, cps_of, nxt.
    destruct (nth_error raw i) as [a|] eqn:Q; [|apply nth_error_None in Q; unfold n in Hi; lia].
    destruct (nth_error es i) as [e|]; [|discriminate]. cbn in E. injection E as E1 E2 E3 E4 E5.
    destruct e; cbn in *. subst. reflexivity.
  Qed.
  Lemma rem_linked i : i < n -> rem (linked raw) i = false.
  Proof.
    intro H. unfold rem. rewrite nth_error_linked.
    destruct (nth_error raw i) eqn:Q; [reflexivity|apply nth_error_None in Q; unfold n in H; lia].
  Qed.
  Lemma rem_lt es i : like es -> rem es i = false -> i < n.
  Proof.
    intros H E. unfold rem in E. destruct (nth_error es i) eqn:Q; [|discriminate].
    apply nth_error_some_lt in Q. now rewrite (like_length _ H) in Q.
  Qed.
  Lemma like_upd es i b : like es -> like (upd_at i (set_removed b) es).
  Proof.
    unfold like. intro H. rewrite <- H. apply nth_error_ext. intro j.
    rewrite !nth_error_map, nth_error_upd_at. destruct (j =? i); auto. now destruct (nth_error es j).
  Qed.
  Lemma rem_upd es i b j : like es -> i < n ->
    rem (upd_at i (set_removed b) es) j = if j =? i then b else rem es j.
  Proof.
    intros H Hi. unfold rem. rewrite nth_error_upd_at. destruct (Nat.eqb_spec j i) as [->|]; auto.
    rewrite (nth_like _ _ H Hi). reflexivity.
  Qed.

  Lemma in_node_edges es i m : like es -> In i (node_edges es m) <-> i < n /\ (lf i = m \/ rt i = m).
  Proof.
    intro H. unfold node_edges. rewrite in_flat_map. split.
    - intros ([j e] & Hin & Hi). cbn [fst snd] in Hi.
      apply In_nth_error in Hin. destruct Hin as [k Hk]. rewrite nth_error_index in Hk. cbn [Nat.add] in Hk.
      destruct (nth_error es k) as [e'|] eqn:Q; [|discriminate]. injection Hk as <- <-.
      pose proof (nth_error_some_lt _ _ _ Q) as L. rewrite (like_length _ H) in L.
      rewrite (nth_like _ _ H L) in Q. injection Q as <-. cbn [ed_left ed_right] in Hi.
      apply in_app_or in Hi. destruct Hi as [Hi|Hi].
      + destruct (Nat.eqb_spec (lf k) m); [|destruct Hi]. destruct Hi as [<-|[]]. auto.
      + destruct (Nat.eqb_spec (rt k) m); [|destruct Hi]. destruct Hi as [<-|[]]. auto.
    - intros [L Hm]. exists (i, Edge (Some (if i =? 0 then n - 1 else i - 1)) (lf i) (cps_of i) (rt i) (Some (nxt i)) (rem es i)).
      split.
      + apply nth_error_In with i. rewrite nth_error_index, (nth_like _ _ H L). reflexivity.
      + cbn [fst snd ed_left ed_right]. apply in_or_app. destruct Hm as [<-|<-]; rewrite Nat.eqb_refl; [left|right]; now left.
  Qed.

  Lemma onat_eqb_true a b : onat_eqb a b = true <-> a = b.
  Proof.
    destruct a as [a|], b as [b|]; cbn; split; intro H; try congruence.
    - apply Nat.eqb_eq in H. congruence.
    - injection H as ->. apply Nat.eqb_refl.
  Qed.

  Lemma any_edge_some es m no i : like es -> any_edge es m no = Some i ->
    i < n /\ rem es i = false /\ rt i = m /\ Some (nxt i) <> no.
  Proof.
    intros H E. apply find_some in E. destruct E as [Hin E]. apply (in_node_edges _ _ _ H) in Hin. destruct Hin as [L _].
    rewrite (nth_like _ _ H L) in E. cbn [ed_removed ed_right ed_rr] in E.
    apply andb_true_iff in E as [E E3]. apply andb_true_iff in E as [E1 E2].
    apply negb_true_iff in E1, E3. apply Nat.eqb_eq in E2. repeat split; auto.
    intro Q. apply onat_eqb_true in Q. congruence.
  Qed.
  Lemma any_edge_none es m no i : like es -> any_edge es m no = None -> i < n -> rem es i = false -> rt i = m ->
    Some (nxt i) = no.
  Proof.
    intros H E L R Hm. apply find_none with (x := i) in E; [|apply in_node_edges; auto].
    rewrite (nth_like _ _ H L) in E. cbn [ed_removed ed_right ed_rr] in E. rewrite R, Hm, Nat.eqb_refl in E.
    apply negb_false_iff in E. now apply onat_eqb_true in E.
  Qed.

  Lemma first_match_some es T x k : like es -> Forall (fun i => i < n) T -> first_match es x T = Some k ->
    exists i pre post, T = pre ++ i :: post /\ length pre = k /\ rt i = x /\ Forall (fun j => rt j <> x) pre.
  Proof.
    intros H HT. revert k. induction HT as [|i T L HT IH]; intros k E; [discriminate|]. cbn in E.
    rewrite (nth_like _ _ H L) in E. cbn [ed_right] in E. destruct (Nat.eqb_spec x (rt i)) as [->|N].
    - injection E as <-. exists i, [], T. auto.
    - destruct (first_match es x T) as [k'|]; [|discriminate]. injection E as <-.
      destruct (IH _ eq_refl) as (j & pre & post & -> & <- & R & A). exists j, (i :: pre), post.
      repeat split; auto.
  Qed.
  Lemma first_match_none es T x : like es -> Forall (fun i => i < n) T -> first_match es x T = None ->
    Forall (fun i => rt i <> x) T.
  Proof.
    intros H HT. induction HT as [|i T L HT IH]; intros E; [constructor|]. cbn in E.
    rewrite (nth_like _ _ H L) in E. cbn [ed_right] in E. destruct (Nat.eqb_spec x (rt i)) as [->|N]; [discriminate|].
    destruct (first_match es x T); [discriminate|]. constructor; auto.
  Qed.

  (* going backwards: each edge ends where the one before it starts *)
  Fixpoint backward (T : list nat) : Prop :=
    match T with
    | i :: ((j :: _) as l) => rt j = lf i /\ backward l
    | _ => True
    end.
  Lemma backward_snoc T i : backward T -> (T <> [] -> rt i = lf (last T 0)) -> backward (T ++ [i]).
  Proof.
    intros HB. induction T as [|a T IH]; intros HL; [exact I|].
    destruct T as [|b T].
    - cbn. split; auto. apply HL. discriminate.
    - cbn [app backward] in *. destruct HB as [HB1 HB2]. split; auto. apply IH; auto.
      intros _. apply HL. discriminate.
  Qed.
  Lemma backward_app_r T U : backward (T ++ U) -> backward U.
  Proof.
    induction T as [|a T IH]; auto. intro H. apply IH. cbn [app] in H.
    destruct (T ++ U) as [|b l]; [exact I|]. apply H.
  Qed.

  Lemma rem_unremove : forall L es j, like es -> Forall (fun i => i < n) L ->
    like (fold_left (fun es j => upd_at j (set_removed false) es) L es) /\
    rem (fold_left (fun es j => upd_at j (set_removed false) es) L es) j
    = if existsb (Nat.eqb j) L then false else rem es j.
  Proof.
    induction L as [|i L IH]; intros es j H HL; cbn [fold_left existsb]; auto.
    inversion_clear HL. destruct (IH (upd_at i (set_removed false) es) j) as [I1 I2]; auto using like_upd.
    split; auto. rewrite I2, rem_upd by auto. destruct (existsb (Nat.eqb j) L); destruct (j =? i); auto.
  Qed.

  Lemma last_snoc_in {A} (T : list A) i d : last (T ++ [i]) d = i.
  Proof. apply last_last. Qed.

  Lemma skipn_app_len {A} (a b : list A) : skipn (length a) (a ++ b) = b.
  Proof. induction a; auto. Qed.
  Lemma firstn_app_len {A} (a b : list A) : firstn (length a) (a ++ b) = a.
  Proof. induction a; cbn; congruence. Qed.

  Lemma existsb_in (j : nat) L : existsb (Nat.eqb j) L = true <-> In j L.
  Proof.
    rewrite existsb_exists. split.
    - intros (x & Hx & E). apply Nat.eqb_eq in E. now subst.
    - intro H. exists j. split; auto. apply Nat.eqb_refl.
  Qed.

  Lemma short_trail (T : list nat) : NoDup T -> Forall (fun i => i < n) T -> length T <= n.
  Proof.
    intros ND L. rewrite <- (seq_length n 0). apply NoDup_incl_length; auto.
    intros i Hi. apply in_seq. rewrite Forall_forall in L. specialize (L _ Hi). lia.
  Qed.

  Record good_cycle (cyc : list nat) : Prop := {
    gc_some : cyc <> [];
    gc_lt : Forall (fun i => i < n) cyc;
    gc_back : backward cyc;
    gc_close : rt (hd 0 cyc) = lf (last cyc 0);
    gc_nodup : NoDup (map rt cyc) }.

  (* what one walk does, whatever the state it starts from *)
  Lemma walk_spec es0 : like es0 -> forall fuel es T cur,
    like es -> Forall (fun i => i < n) T -> NoDup T -> backward T -> NoDup (map rt T) ->
    n < fuel + length T ->
    (forall i, cur = Some i -> i < n /\ rem es i = false /\ (T <> [] -> rt i = lf (last T 0)) /\ ~ In (rt i) (map rt T)) ->
    (forall j, rem es j = rem es0 j || existsb (Nat.eqb j) T) -> Forall (fun j => rem es0 j = false) T ->
    match walk fuel es T cur with
    | Raise e => e = AttributeError
    | Ok (es', cyc) =>
        like es' /\ good_cycle cyc /\ NoDup cyc /\ Forall (fun j => rem es0 j = false) cyc /\
        (forall j, rem es' j = rem es0 j || existsb (Nat.eqb j) cyc)
    end.
  Proof.
    intros H0. induction fuel as [|fuel IH]; intros es T cur H HT ND HB NR HF Hcur Hrem Hfresh.
    { pose proof (short_trail _ ND HT). lia. }
    cbn [walk]. destruct cur as [i|]; [|reflexivity].
    destruct (Hcur i eq_refl) as (Li & Ri & Hi & Ni). clear Hcur.
    rewrite (nth_like _ _ H Li). cbn [ed_left].
    assert (H' : like (upd_at i (set_removed true) es)) by now apply like_upd.
    assert (NiT : ~ In i T). { intro Q. apply Ni. now apply in_map. }
    assert (HT' : Forall (fun i => i < n) (T ++ [i])). { apply Forall_app. split; auto. }
    assert (ND' : NoDup (T ++ [i])).
    { apply (Permutation_NoDup (Permutation_cons_append T i)). now constructor. }
    assert (HB' : backward (T ++ [i])) by (apply backward_snoc; auto).
    assert (NR' : NoDup (map rt (T ++ [i]))).
    { rewrite map_app. cbn [map]. apply (Permutation_NoDup (Permutation_cons_append _ _)). now constructor. }
    assert (Fr' : Forall (fun j => rem es0 j = false) (T ++ [i])).
    { apply Forall_app. split; auto. constructor; auto. rewrite Hrem in Ri. now apply orb_false_iff in Ri. }
    assert (Rm' : forall j, rem (upd_at i (set_removed true) es) j = rem es0 j || existsb (Nat.eqb j) (T ++ [i])).
    { intro j. rewrite rem_upd by auto. rewrite existsb_app. cbn [existsb]. rewrite orb_false_r, Hrem.
      destruct (j =? i); [now rewrite !orb_true_r|now rewrite !orb_false_r]. }
    destruct (first_match (upd_at i (set_removed true) es) (lf i) (T ++ [i])) as [k|] eqn:Em.
    - destruct (first_match_some _ _ _ _ H' HT' Em) as (m & pre & post & E & <- & Rm & Pre).
      rewrite E, skipn_app_len, firstn_app_len. rewrite E in HT', ND', HB', NR', Fr', Rm'.
      apply Forall_app in HT', Fr'. destruct HT' as [HT1 HT2], Fr' as [Fr1 Fr2].
      assert (Dis : forall j, In j pre -> ~ In j (m :: post)).
      { intros j J1 J2. apply in_split in J1. destruct J1 as (p1 & p2 & ->).
        rewrite <- app_assoc in ND'. cbn in ND'. apply NoDup_remove_2 in ND'. apply ND'.
        apply in_or_app. right. apply in_or_app. now right. }
      split; [|split; [|split; [|split]]].
      + apply (rem_unremove pre _ 0); auto.
      + constructor; auto.
        * discriminate.
        * now apply backward_app_r in HB'.
        * cbn [hd]. rewrite Rm. f_equal. rewrite <- (last_snoc_in T i 0), E.
          clear. induction pre as [|a pre IH]; auto. cbn [app]. destruct (pre ++ m :: post) eqn:Q; auto.
          destruct pre; discriminate.
        * rewrite map_app in NR'. clear - NR'. induction (map rt pre); auto. apply IHl. now inversion NR'.
      + clear - ND'. induction pre; auto. apply IHpre. now inversion ND'.
      + auto.
      + intro j. destruct (rem_unremove pre (upd_at i (set_removed true) es) j H' HT1) as [_ ->].
        rewrite Rm', existsb_app. destruct (existsb (Nat.eqb j) pre) eqn:Ej; [|reflexivity].
        apply existsb_in in Ej. symmetry. apply orb_false_iff. split.
        * rewrite Forall_forall in Fr1. now apply Fr1.
        * apply not_true_is_false. intro Q. apply existsb_in in Q. now apply (Dis j).
    - apply (first_match_none _ _ _ H' HT') in Em.
      apply IH; auto.
      + rewrite app_length. cbn [length]. lia.
      + intros j Ej. destruct (any_edge_some _ _ _ _ H' Ej) as (Lj & Rj & Tj & _).
        split; [|split; [|split]]; auto.
        * intros _. rewrite last_snoc_in. exact Tj.
        * rewrite Tj. intro Q. apply in_map_iff in Q. destruct Q as (x & Qx & Qin).
          rewrite Forall_forall in Em. now apply (Em x).
  Qed.

  Lemma walk_start es i fuel : like es -> n < fuel -> i < n -> rem es i = false ->
    match walk fuel es [] (Some i) with
    | Raise e => e = AttributeError
    | Ok (es', cyc) =>
        like es' /\ good_cycle cyc /\ NoDup cyc /\ Forall (fun j => rem es j = false) cyc /\
        (forall j, rem es' j = rem es j || existsb (Nat.eqb j) cyc)
    end.
  Proof.
    intros H HF Hi Ri. apply (walk_spec es H fuel es [] (Some i)); auto using NoDup_nil, Forall_nil.
    - exact I.
    - cbn [map]. apply NoDup_nil.
    - cbn [length]. lia.
    - intros j E. injection E as <-. repeat split; auto; try tauto.
    - intro j. cbn. now rewrite orb_false_r.
  Qed.

  Context {NF : Num F} {RF : NumRoot F}.

  Lemma curve_of_like es cyc : like es -> Forall (fun i => i < n) cyc ->
    curve_of es cyc = curve_of (linked raw) cyc.
  Proof.
    intros H L. unfold curve_of.
    replace (map (fun i => match nth_error es i with Some e => ed_cps e | None => [] end) cyc)
       with (map (fun i => match nth_error (linked raw) i with Some e => ed_cps e | None => [] end) cyc); auto.
    apply map_ext_in. intros i Hi. rewrite Forall_forall in L. specialize (L _ Hi).
    rewrite (nth_like _ _ H L), (nth_like _ _ like_linked L). reflexivity.
  Qed.
  Lemma curve_of_arcs cyc : Forall (fun i => i < n) cyc -> cyc <> [] ->
    curve_of (linked raw) cyc
    = bind (foldM join_edge (cps_of (hd 0 cyc)) (map cps_of (tl cyc))) close_curve.
  Proof.
    intros L N. unfold curve_of.
    replace (map (fun i => match nth_error (linked raw) i with Some e => ed_cps e | None => [] end) cyc) with (map cps_of cyc).
    - destruct cyc; [congruence|reflexivity].
    - apply map_ext_in. intros i Hi. rewrite Forall_forall in L. specialize (L _ Hi).
      rewrite (nth_like _ _ like_linked L). reflexivity.
  Qed.

  (* every live edge is found *)
  Lemma any_node_none es N : like es -> (forall i, i < n -> rt i < N) -> any_node es N = None ->
    forall i, i < n -> rem es i = true.
  Proof.
    intros H HN E i Hi. destruct (rem es i) eqn:R; auto. exfalso.
    apply find_none with (x := rt i) in E; [|apply in_seq; specialize (HN i Hi); lia].
    destruct (any_edge es (rt i) None) eqn:Q; [discriminate|].
    pose proof (any_edge_none _ _ _ i H Q Hi R eq_refl). discriminate.
  Qed.

  Lemma all_cycles_spec N : (forall i, i < n -> rt i < N) -> forall fuel es done,
    like es -> NoDup done -> (forall j, j < n -> rem es j = existsb (Nat.eqb j) done) -> Forall (fun i => i < n) done ->
    n <= fuel + length done ->
    match all_cycles fuel es N with
    | Raise e => e = AttributeError \/ exists cyc, good_cycle cyc /\ NoDup cyc /\ curve_of (linked raw) cyc = Raise e
    | Ok curves =>
        exists cycles, Permutation (done ++ concat cycles) (seq 0 n) /\ Forall good_cycle cycles /\
          Forall2 (fun cyc curve => curve_of (linked raw) cyc = Ok curve) cycles curves
    end.
  Proof.
    intros HN. induction fuel as [|fuel IH]; intros es done H ND Hrem HL HF; cbn [all_cycles].
    - destruct (any_node es N) as [m|] eqn:E.
      + exfalso. apply find_some in E. destruct E as [_ E].
        destruct (any_edge es m None) as [i|] eqn:Q; [|discriminate].
        destruct (any_edge_some _ _ _ _ H Q) as (Li & Ri & _). rewrite Hrem in Ri by auto.
        assert (Q2 : incl (seq 0 n) done).
        { apply NoDup_length_incl; auto.
          - rewrite seq_length. lia.
          - intros j Hj. apply in_seq. rewrite Forall_forall in HL. specialize (HL _ Hj). lia. }
        assert (Q3 : In i done) by (apply Q2, in_seq; lia).
        apply existsb_in in Q3. congruence.
      + exists []. cbn. rewrite app_nil_r. split; [|split; constructor].
        apply NoDup_Permutation; auto using seq_NoDup. intro j. rewrite in_seq. split.
        * intro Hj. rewrite Forall_forall in HL. specialize (HL _ Hj). lia.
        * intros [_ Hj]. apply existsb_in. rewrite <- Hrem by auto. now apply (any_node_none _ N).
    - destruct (any_node es N) as [m|] eqn:E.
      + apply find_some in E. destruct E as [_ E].
        destruct (any_edge es m None) as [i|] eqn:Q; [|discriminate]. clear E.
        destruct (any_edge_some _ _ _ _ H Q) as (Li & Ri & Ti & _).
        rewrite (nth_like _ _ H Li). cbn [ed_right]. rewrite Ti, Nat.eqb_refl.
        pose proof (walk_start es i (S (length es)) H) as W. rewrite (like_length _ H) in W |- *.
        specialize (W (Nat.lt_succ_diag_r _) Li Ri).
        destruct (walk (S n) es [] (Some i)) as [[es' cyc]|e]; [|cbn [bind]; now left].
        destruct W as (H' & G & NDc & Live & Hrem'). cbn [bind fst snd].
        rewrite (curve_of_like es' cyc H' (gc_lt _ G)).
        destruct (curve_of (linked raw) cyc) as [curve|e] eqn:Ec; cbn [bind]; [|right; exists cyc; auto].
        assert (NDall : NoDup (done ++ cyc)).
        { clear - ND NDc Live Hrem HL. induction done as [|a done IH]; [exact NDc|].
          assert (Q : forall j, j < n -> rem es j = true \/ ~ In j (a :: done)).
          { intros j Hj. rewrite Hrem by auto. destruct (existsb (Nat.eqb j) (a :: done)) eqn:E; auto.
            right. rewrite <- existsb_in. congruence. }
          clear Hrem IH. revert Q. 
          assert (G : forall d, NoDup d -> Forall (fun i => i < n) d -> (forall j, j < n -> rem es j = true \/ ~ In j d) -> NoDup (d ++ cyc)).
          { induction d as [|b d IHd]; intros N1 L1 Q; [exact NDc|]. inversion_clear N1. inversion_clear L1.
            cbn. constructor.
            - rewrite in_app_iff. intros [C|C]; [auto|]. destruct (Q b H1) as [C2|C2].
              + rewrite Forall_forall in Live. rewrite (Live _ C) in C2. discriminate.
              + apply C2. now left.
            - apply IHd; auto. intros j Hj. destruct (Q j Hj); auto. right. intro. apply H3. now right. }
          intro Q. apply G; auto. }
        specialize (IH es' (done ++ cyc) H' NDall).
        assert (I1 : forall j, j < n -> rem es' j = existsb (Nat.eqb j) (done ++ cyc)).
        { intros j Hj. rewrite Hrem', Hrem by auto. now rewrite existsb_app. }
        assert (I2 : Forall (fun i => i < n) (done ++ cyc)). { apply Forall_app. split; auto. apply (gc_lt _ G). }
        assert (I3 : n <= fuel + length (done ++ cyc)).
        { rewrite app_length. pose proof (gc_some _ G). destruct cyc; [congruence|]. cbn. lia. }
        specialize (IH I1 I2 I3).
        destruct (all_cycles fuel es' N) as [more|e]; cbn [bind]; [|exact IH].
        destruct IH as (cycles & P & Gs & C). exists (cyc :: cycles). cbn [concat]. rewrite app_assoc.
        split; [exact P|]. split; constructor; auto.
      + exists []. cbn. rewrite app_nil_r. split; [|split; constructor].
        apply NoDup_Permutation; auto using seq_NoDup. intro j. rewrite in_seq. split.
        * intro Hj. rewrite Forall_forall in HL. specialize (HL _ Hj). lia.
        * intros [_ Hj]. apply existsb_in. rewrite <- Hrem by auto. now apply (any_node_none _ N).
  Qed.
End Walk.
