(* C57: Morph. *)
From Coq Require Import String Reals List Permutation Lia Lra Bool.
Require Import Verif.Base Verif.NumR Verif.L_real Verif.M_vector Verif.M_bbox Verif.M_transform Verif.M_bezier Verif.M_colors Verif.M_elems Verif.M_group.
Require Import Verif.L_vector Verif.S_bezier Verif.L_bezier Verif.S_elems Verif.P_elems Verif.P_addone Verif.S_group Verif.L_group Verif.P_greplace.
Require Import Verif.M_anim Verif.S_anim.
Import ListNotations.
Local Open Scope string_scope.
Local Open Scope list_scope.
Local Open Scope R_scope.

(* ---------------- growing ---------------- *)

Lemma set_nth_length {A} (x : A) : forall l i, List.length (set_nth i x l) = List.length l.
Proof. induction l as [|y l IH]; intros [|i]; cbn; auto. Qed.
Lemma add_one_length (cps cps' : list (cpoint R)) : add_one cps = Ok cps' -> List.length cps' = S (List.length cps).
Proof.
  intros H. unfold add_one in H. destruct (map _ _) as [|d dists]; [discriminate|].
  destruct (nth_error cps _) as [cl|]; [|discriminate]. destruct (nth_error cps _) as [cr|]; [|discriminate].
  destruct (bez_split_half cl cr) as [[l m] r]. apply Ok_inj in H. subst cps'.
  rewrite app_length. cbn [List.length]. rewrite Nat.add_succ_r, <- app_length, firstn_skipn, !set_nth_length. reflexivity.
Qed.
Lemma grow_length : forall fuel n (cps cps' : list (cpoint R)), (n <= List.length cps + fuel)%nat ->
  grow_to fuel n cps = Ok cps' -> List.length cps' = Nat.max n (List.length cps).
Proof.
  induction fuel as [|fuel IH]; intros n cps cps' L H; cbn [grow_to] in H.
  - apply Ok_inj in H. subst. lia.
  - destruct (Nat.ltb_spec (List.length cps) n).
    + destruct (add_one cps) as [c|] eqn:E; cbn [bind] in H; [|discriminate]. apply add_one_length in E.
      apply IH in H; lia.
    + apply Ok_inj in H. subst. lia.
Qed.
Lemma grow_many : forall fuel n (cps : list (cpoint R)), (n <= List.length cps + fuel)%nat ->
  grow_to fuel n cps = add_many (n - List.length cps) cps.
Proof.
  induction fuel as [|fuel IH]; intros n cps L; cbn [grow_to].
  - replace (n - List.length cps)%nat with 0%nat by lia. reflexivity.
  - destruct (Nat.ltb_spec (List.length cps) n).
    + replace (n - List.length cps)%nat with (S (n - S (List.length cps))) by lia. cbn [add_many].
      destruct (add_one cps) as [c|] eqn:E; cbn [bind]; [|reflexivity]. apply add_one_length in E.
      rewrite IH by lia. rewrite E. reflexivity.
    + replace (n - List.length cps)%nat with 0%nat by lia. reflexivity.
Qed.
Lemma grow_ok n (cps : list (cpoint R)) : (2 <= List.length cps)%nat ->
  exists cps', grow_to n n cps = Ok cps' /\ List.length cps' = Nat.max n (List.length cps) /\
    (forall p, on_path cps' true p <-> on_path cps true p).
Proof.
  intros L. rewrite grow_many by lia. destruct (C38_repeated (n - List.length cps) cps L) as (c & E & Len & Pth & _).
  exists c. split; [exact E|]. split; [lia|exact Pth].
Qed.

(* ---------------- the tree ---------------- *)

Lemma copies_R (l : list (cpoint R)) : map cp_copy l = l.
Proof. induction l; cbn; [reflexivity|]. now rewrite cp_copy_R, IHl. Qed.
Lemma fixed_ok (c : ebase R * list (cpoint R)) : wellformed (fst c) -> curve_fixed c = Ok (fst c, snd c).
Proof.
  intros W. unfold curve_fixed. rewrite (mk_base_ok (fst c)) by auto. cbn [bind]. rewrite copies_R.
  destruct (fst c); reflexivity.
Qed.
Lemma fixed_inv (c c' : ebase R * list (cpoint R)) : curve_fixed c = Ok c' -> wellformed (fst c) /\ c' = c.
Proof.
  unfold curve_fixed, mk_base, wellformed. intros H. destruct c as [[n pb cl x] l]. cbn [fst snd e_name e_pb e_closed e_xform] in *.
  destruct (pb_filled pb && negb cl) eqn:E; [discriminate|]. cbn [bind] in H. apply Ok_inj in H. subst c'. rewrite copies_R.
  split; [|reflexivity]. intros Hp. rewrite Hp in E. cbn in E. now destruct cl.
Qed.

Definition equal_to (x e : elem R) : bool := elem_eqb e x.
Arguments equal_to : simpl never.
Lemma keys_filter {A} (f : string * A -> bool) (l : list (string * A)) : NoDup (keys l) -> NoDup (keys (filter f l)).
Proof.
  unfold keys. induction l as [|[k e] l IH]; cbn; [auto|]. intros ND. apply NoDup_cons_iff in ND as [N ND].
  destruct (f (k, e)); cbn; auto. constructor; auto. intros I. apply N.
  apply in_map_iff in I as ([k' e'] & Q & I). cbn in Q. subst k'. apply filter_In in I as [I _]. apply in_map_iff. exists (k, e'). auto.
Qed.
Lemma curve_eqb_refl (c : ebase R * list (cpoint R)) : elem_eqb (curve_elem c) (curve_elem c) = true.
Proof. apply C46_equal. exists (fst c). split; [reflexivity|]. repeat split. Qed.
Lemma curve_eqb_name (c : ebase R * list (cpoint R)) e : equal_to (curve_elem c) e = true ->
  exists b s, e = ELeaf b s /\ e_name b = e_name (fst c).
Proof. intros H. apply eqb_leaf_right in H as (b & -> & N & _). eauto. Qed.

Lemma table_unique {A} (l : list (string * A)) k a b : NoDup (keys l) -> In (k, a) l -> In (k, b) l -> a = b.
Proof.
  induction l as [|[k' x] l IH]; [easy|]. cbn. intros N H1 H2. apply NoDup_cons_iff in N as [N N'].
  assert (I : forall y, In (k', y) l -> False) by (intros y Iy; apply N, in_map_iff; exists (k', y); auto).
  destruct H1 as [H1|H1], H2 as [H2|H2].
  - congruence.
  - injection H1 as -> ->. destruct (I _ H2).
  - injection H2 as -> ->. destruct (I _ H1).
  - auto.
Qed.
Lemma in_others {F} eqv (l : list (string * elem F)) k e : In (k, e) (others eqv l) <-> In (k, e) l /\ eqv e = false.
Proof. unfold others. rewrite filter_In. cbn. destruct (eqv e); cbn; intuition discriminate. Qed.

(* replacing a curve by one of the same name always works in a tidy tree without holes *)
Lemma same_name_replaceable (c : ebase R * list (cpoint R)) (r : elem R) (T : elem R) :
  e_name (e_base r) = e_name (fst c) -> tidy T -> plain T -> replaceable (equal_to (curve_elem c)) r T.
Proof.
  intros Nm. induction T as [b s|b h l p IH|b o i _ _] using elem_induction; intros Td Pl.
  - constructor.
  - inversion Td as [|? ? ? ? [ND G] TL|]; subst. inversion Pl as [|? ? ? ? PL]; subst. rewrite Forall_forall in IH.
    assert (K : forall k e, In (k, e) l -> equal_to (curve_elem c) e = true -> k = e_name (fst c)).
    { intros k e I E. destruct (G k e I) as [_ N]. apply curve_eqb_name in E as (b' & s & -> & E). cbn in N. congruence. }
    constructor.
    + intros k e I _. apply (IH _ I); [now apply (TL k)|now apply (PL k)].
    + assert (H : forall m : list (string * elem R), (forall k e, In (k, e) m -> k = e_name (fst c)) -> NoDup (keys m) -> (List.length m <= 1)%nat).
      { intros [|[k1 e1] [|[k2 e2] m]] Hk Nd; cbn; try lia. exfalso. cbn in Nd. apply NoDup_cons_iff in Nd as [Nd _]. apply Nd.
        left. rewrite (Hk k1 e1), (Hk k2 e2); auto; cbn; auto. }
      apply H.
      * intros k e I. apply filter_In in I as [I E]. eauto.
      * now apply keys_filter.
    + intros (k & e & I & E). pose proof (K k e I E) as Q. rewrite Nm, <- Q. split.
      * intros J. apply in_map_iff in J as ([k' e'] & Q' & J). cbn in Q'. subst k'. apply in_others in J as [J E'].
        rewrite (table_unique _ _ _ _ ND I J) in E. congruence.
      * apply (G k e I).
  - inversion Pl.
Qed.
Lemma replaced_group {F} eqv (r : elem F) b h l p : replaced eqv r (EGroup b h l p) = EGroup b h
  (flat_map (fun ke => if eqv (snd ke) then [] else [(fst ke, replaced eqv r (snd ke))]) l
   ++ (if existsb (fun ke => eqv (snd ke)) l then [(e_name (e_base r), r)] else [])) p.
Proof. reflexivity. Qed.
Lemma replaced_name {F} eqv (r e : elem F) : e_base (replaced eqv r e) = e_base e.
Proof. destruct e; reflexivity. Qed.
(* the result is again such a tree *)
Lemma replaced_tidy (c : ebase R * list (cpoint R)) (r : elem R) (T : elem R) :
  e_name (e_base r) = e_name (fst c) -> tidy r -> plain r -> tidy T -> plain T ->
  tidy (replaced (equal_to (curve_elem c)) r T) /\ plain (replaced (equal_to (curve_elem c)) r T).
Proof.
  intros Nm Tr Pr. induction T as [b s|b h l p IH|b o i _ _] using elem_induction; intros Td Pl.
  - cbn. split; constructor.
  - pose proof (same_name_replaceable c r _ Nm Td Pl) as Rp. inversion Rp as [|? ? ? ? _ _ Cl]; subst.
    inversion Td as [|? ? ? ? [ND G] TL|]; subst. inversion Pl as [|? ? ? ? PL]; subst. rewrite Forall_forall in IH.
    rewrite replaced_group. set (l' := _ ++ _).
    assert (M : forall k e, In (k, e) l' -> (k = e_name (e_base r) /\ e = r /\ existsb (fun ke => equal_to (curve_elem c) (snd ke)) l = true) \/
        exists x, In (k, x) l /\ equal_to (curve_elem c) x = false /\ e = replaced (equal_to (curve_elem c)) r x).
    { intros k e I. apply in_app_or in I as [I|I].
      - apply in_flat_map in I as ([k' x] & I & J). cbn in J. destruct (equal_to _ x) eqn:E; [easy|].
        destruct J as [J|[]]. injection J as <- <-. right. eauto.
      - destruct (existsb _ l) eqn:E; [|easy]. destruct I as [I|[]]. injection I as <- <-. left. auto. }
    assert (X : existsb (fun ke => equal_to (curve_elem c) (snd ke)) l = true -> exists k e, In (k, e) l /\ equal_to (curve_elem c) e = true).
    { intros E. apply existsb_exists in E as ([k e] & I & E). eauto. }
    split; constructor.
    + split.
      * assert (Kk : keys l' = keys (others (equal_to (curve_elem c)) l) ++ (if existsb (fun ke => equal_to (curve_elem c) (snd ke)) l then [e_name (e_base r)] else [])).
        { unfold l', keys. rewrite map_app. f_equal; [|destruct (existsb _ l); reflexivity].
          clear. induction l as [|[k e] l IH]; [reflexivity|]. cbn. unfold others. cbn. destruct (equal_to _ e); cbn; [exact IH|]. f_equal. exact IH. }
        rewrite Kk. assert (NO : NoDup (keys (others (equal_to (curve_elem c)) l))).
        { now apply keys_filter. }
        destruct (existsb _ l) eqn:E; [|now rewrite app_nil_r].
        destruct (Cl (X eq_refl)) as [N _].
        apply (Permutation_NoDup (Permutation_cons_append _ _)). constructor; auto.
      * intros k e I. destruct (M k e I) as [(-> & -> & E)|(x & Ix & E & ->)].
        -- destruct (Cl (X E)) as [_ N]. split; [exact N|reflexivity].
        -- destruct (G k x Ix) as [N Q]. split; [exact N|]. rewrite replaced_name. exact Q.
    + intros k e I. destruct (M k e I) as [(-> & -> & E)|(x & Ix & E & ->)]; [exact Tr|].
      apply (IH _ Ix); [now apply (TL k)|now apply (PL k)].
    + intros k e I. destruct (M k e I) as [(-> & -> & E)|(x & Ix & E & ->)]; [exact Pr|].
      apply (IH _ Ix); [now apply (TL k)|now apply (PL k)].
  - inversion Pl.
Qed.
(* replacing and replacing back *)
Lemma replaced_back (s m r : ebase R * list (cpoint R)) (T : elem R) : plain T ->
  (forall ks x, at_path T ks x -> elem_eqb x (curve_elem m) = true -> elem_eqb x (curve_elem s) = true) ->
  replaced (equal_to (curve_elem m)) (curve_elem r) (replaced (equal_to (curve_elem s)) (curve_elem m) T) =
  replaced (equal_to (curve_elem s)) (curve_elem r) T.
Proof.
  induction T as [b x|b h l p IH|b o i _ _] using elem_induction; intros Pl H.
  - reflexivity.
  - inversion Pl as [|? ? ? ? PL]; subst. rewrite Forall_forall in IH. rewrite !replaced_group.
    set (eS := equal_to (curve_elem s)). set (eM := equal_to (curve_elem m)).
    set (T1 := if existsb (fun ke => eS (snd ke)) l then [(e_name (e_base (curve_elem m)), curve_elem m)] else []).
    set (K1 := flat_map (fun ke => if eS (snd ke) then [] else [(fst ke, replaced eS (curve_elem m) (snd ke))]) l).
    assert (K : flat_map (fun ke => if eM (snd ke) then [] else [(fst ke, replaced eM (curve_elem r) (snd ke))]) K1 =
                flat_map (fun ke => if eS (snd ke) then [] else [(fst ke, replaced eS (curve_elem r) (snd ke))]) l /\
                existsb (fun ke => eM (snd ke)) K1 = false).
    { unfold K1. assert (Q : forall l0, (forall k x, In (k, x) l0 -> In (k, x) l) ->
        flat_map (fun ke => if eM (snd ke) then [] else [(fst ke, replaced eM (curve_elem r) (snd ke))])
          (flat_map (fun ke => if eS (snd ke) then [] else [(fst ke, replaced eS (curve_elem m) (snd ke))]) l0) =
        flat_map (fun ke => if eS (snd ke) then [] else [(fst ke, replaced eS (curve_elem r) (snd ke))]) l0 /\
        existsb (fun ke => eM (snd ke)) (flat_map (fun ke => if eS (snd ke) then [] else [(fst ke, replaced eS (curve_elem m) (snd ke))]) l0) = false);
        [|now apply Q].
      induction l0 as [|[k x] l0 IH0]; intros Sub; [split; reflexivity|]. cbn [flat_map snd fst].
      destruct IH0 as [I1 I2]; [intros; apply Sub; now right|].
      pose proof (Sub k x (or_introl eq_refl)) as Ix.
      destruct (eS x) eqn:E; [cbn [app]; split; assumption|]. cbn [app flat_map snd fst existsb].
      assert (EM : eM (replaced eS (curve_elem m) x) = false).
      { destruct x as [bx sx|bx hx lx px|bx ox ix]; [|reflexivity|reflexivity].
        change (eM (ELeaf bx sx) = false). destruct (eM (ELeaf bx sx)) eqn:Z; [|reflexivity].
        rewrite <- E. symmetry. apply (H [k]); [now constructor|exact Z]. }
      rewrite EM. cbn [app orb]. split; [|exact I2]. f_equal; [|exact I1]. f_equal.
      apply (IH _ Ix); [now apply (PL k)|]. intros ks y A. apply (H (k :: ks)). eapply at_below; eauto. }
    destruct K as [K K2]. rewrite flat_map_app, K, existsb_app, K2. cbn [orb].
    f_equal. rewrite <- app_assoc. f_equal. unfold T1. destruct (existsb _ l); cbn [flat_map existsb snd app orb]; [|reflexivity].
    replace (eM (curve_elem m)) with true by (symmetry; apply curve_eqb_refl). reflexivity.
  - inversion Pl.
Qed.

(* ---------------- the constructor ---------------- *)

(* the number of matches in a tree that contains the curve *)
Lemma hits_pos (s : ebase R * list (cpoint R)) (T : elem R) ks x : at_path T ks x -> equal_to (curve_elem s) x = true ->
  hits (equal_to (curve_elem s)) T <> 0%nat.
Proof.
  intros A E. induction A as [b h l p k e I|b h l p k g ks e I A IH]; cbn [hits].
  - apply in_split in I as (l1 & l2 & ->). rewrite map_app, list_sum_app. cbn. rewrite E. lia.
  - specialize (IH E). apply in_split in I as (l1 & l2 & ->). rewrite map_app, list_sum_app. cbn.
    destruct (equal_to (curve_elem s) g); lia.
Qed.

(* Morph() with force, for a source that is somewhere in the model (a tidy tree without shapes
   with holes): both curves get the larger number of points and, being closed, look the same;
   in the model the morphed curve, looking like the source, stands in place of the source. *)
Theorem C57_construct : forall (model : list (cpoint R) -> list (cpoint R) -> elem R)
    (src : ebase R * list (cpoint R)) (tgt : list (cpoint R)),
  wellformed (fst src) -> (2 <= List.length (snd src))%nat -> (2 <= List.length tgt)%nat ->
  (forall a b, tidy (model a b) /\ plain (model a b) /\ exists ks, at_path (model a b) ks (curve_elem (fst src, a))) ->
  exists m, mk_morph model src tgt true = Ok m /\
    fst (m_orig m) = fst src /\ m_now m = snd (m_orig m) /\
    List.length (snd (m_orig m)) = Nat.max (List.length (snd src)) (List.length tgt) /\
    List.length (m_target m) = Nat.max (List.length (snd src)) (List.length tgt) /\
    (forall p, on_path (snd (m_orig m)) true p <-> on_path (snd src) true p) /\
    (forall p, on_path (m_target m) true p <-> on_path tgt true p) /\
    (forall cps, m_tree m cps = replaced (fun e => elem_eqb e (curve_elem (m_orig m))) (curve_elem (fst src, cps))
                                  (model (snd (m_orig m)) (m_target m))).
Proof.
  intros model [b cps] tgt W L1 L2 HM. cbn [fst snd] in *.
  destruct (grow_ok (List.length tgt) cps L1) as (c & E1 & N1 & P1).
  destruct (grow_ok (List.length c) tgt L2) as (d & E2 & N2 & P2).
  unfold mk_morph. cbn [snd fst]. rewrite E1. cbn [bind]. rewrite E2. cbn [bind]. rewrite (fixed_ok (b, c)) by exact W. cbn [bind fst snd].
  replace (Nat.eqb (List.length c) (List.length d)) with true by (symmetry; apply Nat.eqb_eq; lia). cbn [negb].
  destruct (HM c d) as (Td & Pl & ks & A). unfold replace_curve.
  assert (Rp : forall x, elem_replace (equal_to (curve_elem (b, c))) (curve_elem (b, x)) (model c d) =
    (replaced (equal_to (curve_elem (b, c))) (curve_elem (b, x)) (model c d), Ok (hits (equal_to (curve_elem (b, c))) (model c d)))).
  { intros x. apply C46_replaces; [exact Td|]. apply same_name_replaceable; auto. }
  change (fun e => elem_eqb e (curve_elem (b, c))) with (equal_to (curve_elem (b, c))). rewrite Rp. cbn [snd bind].
  assert (Hp : hits (equal_to (curve_elem (b, c))) (model c d) <> 0%nat).
  { eapply hits_pos; eauto. apply curve_eqb_refl. }
  apply Nat.eqb_neq in Hp. rewrite Hp. eexists. split; [reflexivity|]. cbn [m_orig m_target m_now m_tree fst snd].
  repeat (split; [first [reflexivity|lia|assumption]|]). intros x. rewrite Rp. reflexivity.
Qed.

(* what holds of every Morph that could be constructed *)
Lemma construct_inv (model : list (cpoint R) -> list (cpoint R) -> elem R) src tgt force m : mk_morph model src tgt force = Ok m ->
  List.length (snd (m_orig m)) = List.length (m_target m) /\ m_now m = snd (m_orig m).
Proof.
  intros H. unfold mk_morph in H. destruct (if force then _ else _) as [c|]; cbn [bind] in H; [|discriminate].
  destruct (if force then _ else _) as [d|]; cbn [bind] in H; [|discriminate].
  destruct (curve_fixed _) as [now|] eqn:E; cbn [bind] in H; [|discriminate]. apply fixed_inv in E as [_ ->].
  destruct (Nat.eqb_spec (List.length c) (List.length d)) as [L|]; cbn [negb] in H; [|discriminate].
  destruct (replace_curve _ _ _ _) as [tc|]; cbn [bind] in H; [|discriminate].
  destruct (Nat.eqb (snd tc) 0); [discriminate|]. apply Ok_inj in H. subst m. cbn. auto.
Qed.

(* Without force, curves with different numbers of points are refused. *)
Theorem C57_mismatch : forall (model : list (cpoint R) -> list (cpoint R) -> elem R) (src : ebase R * list (cpoint R)) (tgt : list (cpoint R)),
  wellformed (fst src) -> List.length (snd src) <> List.length tgt -> mk_morph model src tgt false = Raise MorphError.
Proof.
  intros model src tgt W N. unfold mk_morph. cbn [bind]. rewrite (fixed_ok (fst src, snd src)) by exact W. cbn [bind].
  apply Nat.eqb_neq in N. rewrite N. reflexivity.
Qed.
(* A source that is not in the model is refused. *)
Theorem C57_absent : forall (model : list (cpoint R) -> list (cpoint R) -> elem R) (src : ebase R * list (cpoint R)) (tgt : list (cpoint R)),
  wellformed (fst src) -> List.length (snd src) = List.length tgt ->
  tidy (model (snd src) tgt) -> plain (model (snd src) tgt) ->
  (forall ks x, at_path (model (snd src) tgt) ks x -> elem_eqb x (curve_elem src) = false) ->
  mk_morph model src tgt false = Raise MorphError.
Proof.
  intros model [b c] tgt W N Td Pl H. unfold mk_morph. cbn [bind fst snd] in *. rewrite (fixed_ok (b, c)) by exact W. cbn [bind fst snd].
  apply Nat.eqb_eq in N. rewrite N. cbn [negb]. unfold replace_curve.
  change (fun e => elem_eqb e (curve_elem (b, c))) with (equal_to (curve_elem (b, c))).
  rewrite C46_replaces; [|exact Td|now apply same_name_replaceable]. cbn [snd bind].
  destruct (C46_nothing (equal_to (curve_elem (b, c))) (curve_elem (b, c)) (model c tgt) H) as [_ ->]. reflexivity.
Qed.

(* ---------------- updates ---------------- *)

Definition sound (m : morph R) : Prop :=
  List.length (snd (m_orig m)) = List.length (m_target m) /\ map ckind (m_now m) = map ckind (snd (m_orig m)).
Definition same_setup (m m' : morph R) : Prop :=
  m_orig m' = m_orig m /\ m_target m' = m_target m /\ m_base m' = m_base m /\ m_tree m' = m_tree m.
Lemma between_R f now lo hi : ckind now = ckind lo -> cp_between f now lo hi = part_way_cp f lo hi.
Proof.
  intros K. destruct now as [nc nl nr nk], lo as [[lx ly] [lv lw] [lp lq] lk], hi as [[hx hy] [hv hw] [hp hq] hk]. cbn in K. subst nk.
  unfold cp_between, part_way_cp, part_way, part_way_v, p_add, p_sub, v_add, v_sub, v_mul. cbn. f_equal; f_equal; ring.
Qed.
Lemma betweens_R f : forall now lo hi, map ckind now = map ckind lo -> List.length lo = List.length hi ->
  cps_between f now lo hi = part_ways f lo hi.
Proof.
  induction now as [|n now IH]; intros [|l lo] [|h hi] K L; try discriminate; auto.
  cbn in K, L. injection K as K K'. injection L as L. unfold part_ways. cbn [cps_between combine map fst snd].
  rewrite between_R by exact K. f_equal. now apply IH.
Qed.
Lemma part_ways_kinds f lo hi : List.length lo = List.length hi -> map ckind (part_ways f lo hi) = map ckind lo.
Proof.
  unfold part_ways. revert hi. induction lo as [|l lo IH]; intros [|h hi] L; try discriminate; auto.
  cbn in *. f_equal. apply IH. now injection L.
Qed.
Lemma away_kinds (l : list (cpoint R)) : map ckind (map cp_away l) = map ckind l.
Proof. rewrite map_map. reflexivity. Qed.
Lemma update_sound t_func t m m' : sound m -> m_update t_func t m = Ok m' -> sound m' /\ same_setup m m'.
Proof.
  intros [S1 S2] H. unfold m_update in H. destruct (t_func t) as [[f|a b|]|]; cbn [bind] in H; try discriminate;
    apply Ok_inj in H; subst m'; unfold sound, same_setup; cbn [m_orig m_target m_now m_base m_tree]; repeat split; auto.
  - rewrite betweens_R by auto. now apply part_ways_kinds.
  - rewrite away_kinds. exact S2.
Qed.
Lemma run_sound t_func ts : forall m, sound m -> sound (m_run t_func ts m) /\ same_setup m (m_run t_func ts m).
Proof.
  induction ts as [|t ts IH]; intros m S; [split; [exact S|repeat split]|]. cbn [m_run fold_left]. fold (m_run t_func ts).
  destruct (m_update t_func t m) as [m'|] eqn:E; [|now apply IH].
  destruct (update_sound _ _ _ _ S E) as [S' (A & B & C & D)]. change (sound (m_run t_func ts m') /\ same_setup m (m_run t_func ts m')).
  destruct (IH m' S') as [S'' (A' & B' & C' & D')]. split; [exact S''|]. unfold same_setup. repeat split; congruence.
Qed.
Lemma sound_new (model : list (cpoint R) -> list (cpoint R) -> elem R) src tgt force m : mk_morph model src tgt force = Ok m -> sound m.
Proof. intros H. apply construct_inv in H as [L N]. split; [exact L|]. now rewrite N. Qed.

(* After any history of updates, update(t) puts every control point and both its handles at the
   fraction f = t_func(t) of the way from the source to the target; nothing else changes. *)
Theorem C57_update : forall (model : list (cpoint R) -> list (cpoint R) -> elem R) src tgt force m (t_func : tfun R) (ts : list (tval R)) (t : tval R) (f : R),
  mk_morph model src tgt force = Ok m -> t_func t = Ok (TNum f) ->
  exists m', m_update t_func t (m_run t_func ts m) = Ok m' /\
    m_now m' = part_ways f (snd (m_orig m)) (m_target m) /\
    m_orig m' = m_orig m /\ m_target m' = m_target m /\
    m_model m' = m_tree m (m_now m').
Proof.
  intros model src tgt force m tf ts t f H E. pose proof (sound_new _ _ _ _ _ H) as S.
  destruct (run_sound tf ts m S) as [[S1 S2] (A & B & C & D)]. unfold m_update. rewrite E. cbn [bind].
  eexists. split; [reflexivity|]. unfold m_model. cbn [m_now m_orig m_target m_tree].
  rewrite betweens_R by auto. rewrite A, B, D. auto.
Qed.
(* f = 0 is the source and f = 1 the target; only the kinds of the points remain those of the
   source *)
Lemma consecutive_map {A B} (g : A -> B) l : consecutive (map g l) = map (fun ab => (g (fst ab), g (snd ab))) (consecutive l).
Proof. induction l as [|a [|b l] IH]; auto. cbn in *. now rewrite IH. Qed.
Lemma bare_path (l : list (cpoint R)) c p : on_path (map bare l) c p <-> on_path l c p.
Proof.
  unfold on_path. assert (E : path_segments (map bare l) c = map (fun ab => (bare (fst ab), bare (snd ab))) (path_segments l c)).
  { destruct l as [|a l]; [reflexivity|]. unfold path_segments. cbn [map]. destruct c.
    - change ((bare a :: map bare l) ++ [bare a]) with (map bare (a :: l) ++ map bare [a]). rewrite <- map_app. apply consecutive_map.
    - apply (consecutive_map bare (a :: l)). }
  rewrite E. split.
  - intros (s & e & t & I & Ht & Q). apply in_map_iff in I as ([s' e'] & Q' & I). cbn in Q'. injection Q' as <- <-.
    exists s', e', t. auto.
  - intros (s & e & t & I & Ht & Q). exists (bare s), (bare e), t. split; [|auto]. apply in_map_iff. exists (s, e). auto.
Qed.
Theorem C57_ends : forall (lo hi : list (cpoint R)) (closed : bool) (p : pt R), List.length lo = List.length hi ->
  part_ways 0 lo hi = lo /\ (on_path (part_ways 1 lo hi) closed p <-> on_path hi closed p).
Proof.
  intros lo hi c p L.
  assert (E0 : part_ways 0 lo hi = lo).
  { revert hi L. induction lo as [|l lo IH]; intros [|h hi] L; try discriminate; auto. unfold part_ways in *. cbn [combine map fst snd]. f_equal.
    - destruct l as [[a b] [a1 b1] [a2 b2] k]. unfold part_way_cp, part_way, part_way_v. cbn. f_equal; f_equal; ring.
    - apply IH. now injection L. }
  assert (E1 : map bare (part_ways 1 lo hi) = map bare hi).
  { revert hi L E0. induction lo as [|l lo IH]; intros [|h hi] L E0; try discriminate; auto. unfold part_ways in *. cbn [combine map fst snd]. f_equal.
    - destruct l as [[a b] [a1 b1] [a2 b2] k], h as [[c1 d1] [c2 d2] [c3 d3] k']. unfold bare, part_way_cp, part_way, part_way_v. cbn. f_equal; f_equal; ring.
    - apply IH; [now injection L|]. cbn in E0. now injection E0. }
  split; [exact E0|]. rewrite <- (bare_path (part_ways _ _ _)), E1. apply bare_path.
Qed.
(* None parks every control point at (1e6, 1e6) without handles *)
Theorem C57_hidden : forall (model : list (cpoint R) -> list (cpoint R) -> elem R) src tgt force m (t_func : tfun R) (ts : list (tval R)) (t : tval R),
  mk_morph model src tgt force = Ok m -> t_func t = Ok THide ->
  exists m', m_update t_func t (m_run t_func ts m) = Ok m' /\
    m_now m' = map (fun s => CP (P 1000000 1000000) (V 0 0) (V 0 0) (ckind s)) (snd (m_orig m)) /\
    (forall closed p, on_path (m_now m') closed p -> p = P 1000000 1000000).
Proof.
  intros model src tgt force m tf ts t H E. pose proof (sound_new _ _ _ _ _ H) as S.
  destruct (run_sound tf ts m S) as [[S1 S2] (A & B & C & D)]. unfold m_update. rewrite E. cbn [bind].
  eexists. split; [reflexivity|]. cbn [m_now].
  assert (G : map cp_away (m_now (m_run tf ts m)) = map (fun s => CP (P 1000000 1000000) (V 0 0) (V 0 0) (ckind s)) (snd (m_orig m))).
  { rewrite <- A. revert S2. generalize (m_now (m_run tf ts m)) (snd (m_orig (m_run tf ts m))). clear.
    induction l as [|a l IH]; intros [|b l'] K; try discriminate; auto. cbn [map] in *. injection K as K K'. f_equal; [|now apply IH]. unfold cp_away. rewrite <- K. reflexivity. }
  split; [exact G|]. rewrite G. intros closed p (s & e & u & I & Hu & ->).
  assert (Q : forall x, In x (map (fun s : cpoint R => CP (P 1000000 1000000) (V 0 0) (V 0 0) (ckind s)) (snd (m_orig m))) ->
     cc x = P 1000000 1000000 /\ cdl x = V 0 0 /\ cdr x = V 0 0).
  { intros x X. apply in_map_iff in X as (z & <- & _). auto. }
  set (l := map _ (snd (m_orig m))) in *. clearbody l. 
  assert (J : In s l /\ In e l).
  { destruct l as [|a l]; [destruct I|]. unfold path_segments in I.
    assert (Cs : forall X (z : list X) u v, In (u, v) (consecutive z) -> In u z /\ In v z).
    { intros X. induction z as [|y [|y' z] IHz]; intros u0 v0; try easy. intros [Z|Z]; [injection Z as <- <-; cbn; auto|].
      destruct (IHz u0 v0 Z). split; right; auto. }
    apply Cs in I. destruct closed; [|exact I]. destruct I as [I1 I2]. apply in_app_or in I1, I2.
    cbn in I1, I2. split; [destruct I1 as [I1|[<-|[]]]|destruct I2 as [I2|[<-|[]]]]; cbn; auto. }
  destruct (Q s (proj1 J)) as (s1 & s2 & s3), (Q e (proj2 J)) as (e1 & e2 & e3).
  unfold segment, right_of, left_of. rewrite s1, s3, e1, e2. unfold cubic, cubic1. cbn [px py vx vy]. f_equal; ring.
Qed.
(* A pair of times cannot be used, and leaves the curve as it is. *)
Theorem C57_pair : forall (t_func : tfun R) (t : tval R) (m : morph R) a b,
  t_func t = Ok (TPair a b) -> m_update t_func t m = Raise TypeError /\ m_run t_func [t] m = m.
Proof.
  intros tf t m a b E. assert (U : m_update tf t m = Raise TypeError) by (unfold m_update; rewrite E; reflexivity).
  split; [exact U|]. cbn. now rewrite U.
Qed.

(* restore() puts the source back wherever the morph is, as if it had been replaced by itself,
   provided that nothing else in the model looks like the morph at that moment. *)
Theorem C57_restore : forall (T : elem R) (m : morph R),
  tidy T -> plain T -> e_name (m_base m) = e_name (fst (m_orig m)) ->
  (forall cps, m_tree m cps = replaced (fun e => elem_eqb e (curve_elem (m_orig m))) (curve_elem (m_base m, cps)) T) ->
  (forall ks x, at_path T ks x -> elem_eqb x (curve_elem (m_base m, m_now m)) = true -> elem_eqb x (curve_elem (m_orig m)) = true) ->
  fst (m_restore m) = replaced (fun e => elem_eqb e (curve_elem (m_orig m))) (curve_elem (m_orig m)) T /\
  exists n, snd (m_restore m) = Ok n.
Proof.
  intros T m Td Pl Nm HT H. unfold m_restore, m_model. rewrite HT.
  set (o := m_orig m) in *. set (c := (m_base m, m_now m)) in *.
  change (fun e => elem_eqb e (curve_elem o)) with (equal_to (curve_elem o)).
  change (fun e => elem_eqb e (curve_elem c)) with (equal_to (curve_elem c)).
  assert (T2 : tidy (replaced (equal_to (curve_elem o)) (curve_elem c) T) /\ plain (replaced (equal_to (curve_elem o)) (curve_elem c) T)).
  { apply replaced_tidy; auto; constructor. }
  destruct T2 as [T2 P2].
  rewrite C46_replaces; [|exact T2|].
  - cbn [fst snd]. split; [|eauto]. apply replaced_back; auto.
  - apply same_name_replaceable; [symmetry; exact Nm|exact T2|exact P2].
Qed.
(* Another element that happens to equal the morph is lost: it is replaced by the source too. *)
Theorem C57_restore_refuted : exists (T : elem R) (m : morph R) (x : elem R),
  tidy T /\ plain T /\ e_name (m_base m) = e_name (fst (m_orig m)) /\
  (forall cps, m_tree m cps = replaced (fun e => elem_eqb e (curve_elem (m_orig m))) (curve_elem (m_base m, cps)) T) /\
  at_path T ["g"; "a"] x /\ elem_eqb x (curve_elem (m_orig m)) = false /\
  at_path (fst (m_restore m)) ["g"; "a"] (curve_elem (m_orig m)).
Proof.
  pose (b := EB "a" (PenBrush None None) false t_new : ebase R).
  pose (c1 := [CP (P 0 0) (V 0 0) (V 0 0) "sharp"] : list (cpoint R)).
  pose (c2 := [CP (P 1 0) (V 0 0) (V 0 0) "sharp"] : list (cpoint R)).
  pose (sub := EGroup (EB "g" (PenBrush None None) false t_new) false [("a", curve_elem (b, c2))] [] : elem R).
  pose (T := EGroup (EB "top" (PenBrush None None) false t_new) false [("a", curve_elem (b, c1)); ("g", sub)] [] : elem R).
  pose (m := Morph (b, c1) c2 b c2 (fun cps => replaced (fun e => elem_eqb e (curve_elem (b, c1))) (curve_elem (b, cps)) T)).
  assert (Td : tidy T).
  { constructor.
    - split; [repeat constructor; cbn; intuition discriminate|].
      intros k e [H|[H|[]]]; injection H as <- <-; (split; [now apply has_dot_false|reflexivity]).
    - intros k e [H|[H|[]]]; injection H as <- <-; [constructor|]. constructor.
      + split; [repeat constructor; cbn; intuition discriminate|].
        intros k e [H|[]]; injection H as <- <-; (split; [now apply has_dot_false|reflexivity]).
      + intros k e [H|[]]; injection H as <- <-; constructor. }
  assert (Pl : plain T).
  { constructor. intros k e [H|[H|[]]]; injection H as <- <-; [constructor|]. constructor.
    intros k e [H|[]]; injection H as <- <-; constructor. }
  assert (E21 : elem_eqb (curve_elem (b, c2)) (curve_elem (b, c1)) = false).
  { destruct (elem_eqb _ _) eqn:E; [|reflexivity]. exfalso. apply C46_equal in E as (b' & E & _). injection E. lra. }
  exists T, m, (curve_elem (b, c2)). split; [exact Td|]. split; [exact Pl|]. split; [reflexivity|]. split; [reflexivity|].
  split; [eapply at_below; [right; left; reflexivity|]; constructor; now left|]. split; [exact E21|].
  unfold m_restore, m_model.
  change (fun e => elem_eqb e (curve_elem (m_base m, m_now m))) with (equal_to (curve_elem (b, c2))).
  change (m_tree m (m_now m)) with (replaced (equal_to (curve_elem (b, c1))) (curve_elem (b, c2)) T).
  change (m_orig m) with (b, c1).
  assert (T2 : tidy (replaced (equal_to (curve_elem (b, c1))) (curve_elem (b, c2)) T) /\ plain (replaced (equal_to (curve_elem (b, c1))) (curve_elem (b, c2)) T)).
  { apply replaced_tidy; auto; constructor. }
  rewrite C46_replaces; [|exact (proj1 T2)|now apply same_name_replaceable]. cbn [fst].
  assert (A1 : equal_to (curve_elem (b, c1)) (curve_elem (b, c1)) = true) by apply curve_eqb_refl.
  assert (A2 : equal_to (curve_elem (b, c2)) (curve_elem (b, c2)) = true) by apply curve_eqb_refl.
  assert (Sub : replaced (equal_to (curve_elem (b, c1))) (curve_elem (b, c2)) sub = sub).
  { unfold sub. rewrite replaced_group. cbn [flat_map existsb snd fst].
    replace (equal_to (curve_elem (b, c1)) (curve_elem (b, c2))) with false by (symmetry; exact E21). reflexivity. }
  unfold T. rewrite replaced_group. cbn [flat_map existsb snd fst]. rewrite A1.
  replace (equal_to (curve_elem (b, c1)) sub) with false by reflexivity. rewrite Sub. cbn [app orb].
  rewrite replaced_group. cbn [flat_map existsb snd fst app]. replace (equal_to (curve_elem (b, c2)) sub) with false by reflexivity.
  eapply at_below; [left; reflexivity|]. unfold sub. rewrite replaced_group. cbn [flat_map existsb snd fst]. rewrite A2. cbn [app orb].
  constructor. now left.
Qed.

(* a closed triangle in a group inside the model, morphed to a curve with five points *)
Example C57_nontrivial :
  let c x y := CP (P x y) (V 0 0) (V 0 0) "sharp" : cpoint R in
  let b := EB "a" (PenBrush None None) true t_new : ebase R in
  let src := (b, [c 0 0; c 4 0; c 0 3]) in
  let tgt := [c 0 0; c 1 0; c 2 2; c 1 5; c 0 3] in
  let group n l := EGroup (EB n (PenBrush None None) false t_new) false l [] : elem R in
  let model (x y : list (cpoint R)) := group "top" [("g", group "g" [("a", curve_elem (b, x))])] in
  wellformed (fst src) /\ (2 <= List.length (snd src))%nat /\ (2 <= List.length tgt)%nat /\
  (forall x y, tidy (model x y) /\ plain (model x y) /\ exists ks, at_path (model x y) ks (curve_elem (fst src, x))).
Proof.
  intros c b src tgt group model. split; [discriminate|]. split; [cbn; lia|]. split; [cbn; lia|]. intros x y. split; [|split].
  - constructor.
    + split; [repeat constructor; cbn; intuition discriminate|].
      intros k e [H|[]]; injection H as <- <-; (split; [now apply has_dot_false|reflexivity]).
    + intros k e [H|[]]; injection H as <- <-. constructor.
      * split; [repeat constructor; cbn; intuition discriminate|].
        intros k e [H|[]]; injection H as <- <-; (split; [now apply has_dot_false|reflexivity]).
      * intros k e [H|[]]; injection H as <- <-; constructor.
  - constructor. intros k e [H|[]]; injection H as <- <-. constructor. intros k e [H|[]]; injection H as <- <-; constructor.
  - exists ["g"; "a"]. eapply at_below; [now left|]. constructor. now left.
Qed.
