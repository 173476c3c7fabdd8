(* C38: add_one splits one segment of a closed curve and leaves what is drawn. *)
Require Import Verif.Base Verif.NumR Verif.L_real Verif.M_vector Verif.M_bbox Verif.M_transform Verif.M_bezier Verif.M_colors Verif.M_elems.
Require Import Verif.S_transform Verif.L_transform Verif.L_vector Verif.S_bezier Verif.L_bezier Verif.P_bezier Verif.S_elems Verif.L_elems Verif.P_elems.
From Coq Require Import String Reals List Permutation Lia Lra.
Import ListNotations.
Local Open Scope string_scope.
Local Open Scope list_scope.
Local Open Scope R_scope.

Lemma longest_spec (l : list R) : forall idx (best : R * nat),
  let r := longest l idx best in
  fst best <= fst r /\ (forall x, In x l -> x <= fst r) /\
  (r = best \/ (idx <= snd r)%nat /\ nth_error l (snd r - idx) = Some (fst r)).
Proof.
  induction l as [|d l IH]; intros idx best; cbn zeta.
  - cbn. split; [lra|]. split; [intros x []|now left].
  - cbn [longest]. specialize (IH (S idx) (if (d <? fst best)%num then best else (d, idx))). cbv zeta in IH.
    set (r := longest l (S idx) _) in *. destruct IH as (A & B & C).
    change (d <? fst best)%num with (Rltb d (fst best)) in *.
    destruct (Rltb d (fst best)) eqn:E.
    + apply Rltb_lt in E. split; [auto|]. split; [intros x [<-|H]; [lra|auto]|].
      destruct C as [C|[C1 C2]]; [now left|]. right. split; [lia|].
      replace (snd r - idx)%nat with (S (snd r - S idx)) by lia. exact C2.
    + assert (fst best <= d) by (destruct (Rle_or_lt (fst best) d) as [|H]; auto; apply Rltb_lt in H; congruence).
      cbn [fst snd] in *. split; [lra|]. split; [intros x [<-|H0]; auto|].
      right. destruct C as [C|[C1 C2]].
      * rewrite C. cbn [fst snd]. rewrite Nat.sub_diag. split; auto.
      * split; [lia|]. replace (snd r - idx)%nat with (S (snd r - S idx)) by lia. exact C2.
Qed.

Lemma iter_rotate2_path (cps : list (cpoint R)) : iter_rotate2 cps = path_segments cps true.
Proof.
  destruct cps as [|a l]; auto. unfold iter_rotate2, rotl, path_segments. cbn [skipn firstn].
  exact (combine_tl (a :: l) a).
Qed.

Lemma set_nth_app {A} (X Y : list A) a v : set_nth (List.length X) v (X ++ a :: Y) = X ++ v :: Y.
Proof. induction X as [|x X IH]; cbn; auto. now rewrite IH. Qed.
Lemma cp_copy_R (s : cpoint R) : cp_copy s = s.
Proof. destruct s as [[u v] [a b] [c d] k]. reflexivity. Qed.

Lemma consecutive_at {A} (X Y : list A) a b : consecutive (X ++ a :: b :: Y) = consecutive (X ++ [a]) ++ (a, b) :: consecutive (b :: Y).
Proof. rewrite consecutive_glue. reflexivity. Qed.

(* the curves before a point depend on its left handle only, those after it on its right handle *)
Lemma curves_ends (Y : list (cpoint R)) : forall y y' z z',
  cc y = cc y' -> right_of y = right_of y' -> cc z = cc z' -> left_of z = left_of z' ->
  map curve_of (consecutive (y :: Y ++ [z])) = map curve_of (consecutive (y' :: Y ++ [z'])).
Proof.
  induction Y as [|x Y IH]; intros y y' z z' E1 E2 E3 E4.
  - cbn. unfold curve_of. cbn [fst snd]. rewrite E1, E2, E3, E4. reflexivity.
  - cbn [app]. cbn [consecutive map]. unfold curve_of at 1 3. cbn [fst snd]. rewrite E1, E2. f_equal.
    apply IH; auto.
Qed.

Lemma span_chord (s e : cpoint R) : v_length (p_sub (cc s) (cc e)) = span (curve_of (s, e)).
Proof. unfold v_length, p_sub, span, curve_of, dist2. cbn. f_equal. Qed.

Lemma split_half_facts (s e l m r : cpoint R) : bez_split_half s e = (l, m, r) ->
  (cc l = cc s /\ left_of l = left_of s) /\ (cc r = cc e /\ right_of r = right_of e) /\
  cc m = segment s e (1 / 2) /\ halves (curve_of (s, e)) (curve_of (l, m)) (curve_of (m, r)) /\
  ckind l = "smooth" /\ ckind m = "smooth" /\ ckind r = "smooth".
Proof.
  unfold bez_split_half. change (ndiv (nofZ 1) (nofZ 2)) with (1 / 2). intros H.
  destruct (C31_split_shape _ _ _ _ _ _ H) as (A & B & C & D & E & _).
  destruct (C31_split_kinds _ _ _ _ _ _ H) as (K1 & K2 & K3).
  split; [|split; [|split; [|split; [|split; [|split]]]]]; auto.
  - unfold left_of. rewrite A, B. auto.
  - unfold right_of. rewrite C, D. auto.
  - intros u. destruct (C31_split_traces _ _ _ _ _ _ u H) as [T1 T2].
    unfold at_t, curve_of. cbn [fst snd]. fold (segment l m u) (segment m r u) (segment s e (u / 2)) (segment s e (1 / 2 + u / 2)).
    rewrite T1, T2. split; f_equal; field.
Qed.

(* where the split happens, in terms of the list *)
Lemma add_one_cases (cps : list (cpoint R)) : (2 <= List.length cps)%nat ->
  exists cps' cl cr l m r,
    add_one cps = Ok cps' /\ bez_split_half cl cr = (l, m, r) /\
    (forall pq, In pq (path_segments cps true) -> span (curve_of pq) <= span (curve_of (cl, cr))) /\
    ((exists X Y, cps = X ++ cl :: cr :: Y /\ cps' = X ++ l :: m :: r :: Y) \/
     (exists Y, cps = cr :: Y ++ [cl] /\ cps' = m :: r :: Y ++ [l])).
Proof.
  intros Hn. unfold add_one. rewrite iter_rotate2_path.
  set (D := map (fun ab => v_length (p_sub (cc (fst ab)) (cc (snd ab)))) (path_segments cps true)).
  assert (LD : List.length D = List.length cps).
  { unfold D. rewrite map_length. destruct cps as [|a t]; auto. unfold path_segments. rewrite consecutive_length, app_length. cbn. lia. }
  destruct D as [|d0 D'] eqn:ED; [cbn in LD; lia|].
  pose proof (longest_spec D' 1 (d0, 0%nat)) as (L1 & L2 & L3). cbv zeta in *.
  set (k := longest D' 1 (d0, 0%nat)) in *. cbn [fst snd] in *.
  assert (Hk : nth_error D (snd k) = Some (fst k)).
  { rewrite ED. destruct L3 as [->|[A B]]; [reflexivity|].
    replace (snd k) with (S (snd k - 1)) by lia. exact B. }
  assert (Hb : forall x, In x D -> x <= fst k) by (rewrite ED; intros x [<-|H]; auto).
  assert (Kn : (snd k < List.length cps)%nat) by (rewrite <- LD, <- ED; apply nth_error_Some; congruence).
  rewrite (Nat.mod_small (snd k)) by lia.
  unfold D in Hk. rewrite nth_error_map in Hk.
  destruct (nth_error (path_segments cps true) (snd k)) as [[s e]|] eqn:Es; [|discriminate]. cbn in Hk. injection Hk as Hk.
  assert (Hmax : forall pq, In pq (path_segments cps true) -> span (curve_of pq) <= span (curve_of (s, e))).
  { intros [a b] H. rewrite <- !span_chord. 
    change (v_length (p_sub (cc s) (cc e))) with (nsqrt (nadd (nmul (nsub (px (cc s)) (px (cc e))) (nsub (px (cc s)) (px (cc e)))) (nmul (nsub (py (cc s)) (py (cc e))) (nsub (py (cc s)) (py (cc e)))))).
    unfold v_length in Hk. cbn in Hk |- *. rewrite Hk. apply Hb. unfold D. apply in_map_iff. exists (a, b). split; auto. }
  clear L1 L2 L3 Hb Hk LD.
  destruct (bez_split_half s e) as [[l m] r] eqn:Eh.
  destruct (Nat.eq_dec (snd k) (List.length cps - 1)) as [Last|NotLast].
  - (* closing segment *)
    destruct (@exists_last _ cps) as (t & cl & Ecps); [intros Q; rewrite Q in Hn; cbn in Hn; lia|]. rewrite Ecps in *. clear cps Ecps D ED.
    destruct t as [|cr Y]; [cbn in Hn; lia|].
    rewrite app_length in Last, Kn, Hn |- *. cbn [List.length] in Last, Kn, Hn |- *.
    assert (Se : s = cl /\ e = cr).
    { unfold path_segments in Es. cbn [app] in Es. rewrite <- app_assoc in Es. cbn [app] in Es.
      change (cr :: Y ++ [cl; cr]) with ((cr :: Y) ++ [cl; cr]) in Es.
      rewrite consecutive_app1 in Es. rewrite nth_error_app2 in Es by (rewrite consecutive_length, app_length; cbn; lia).
      rewrite consecutive_length, app_length in Es. cbn [List.length] in Es.
      replace (snd k - (S (List.length Y) + 1 - 1))%nat with 0%nat in Es by lia. injection Es as <- <-. auto. }
    destruct Se as [-> ->].
    replace ((snd k + 1) mod (S (List.length Y) + 1))%nat with 0%nat
      by (replace (snd k + 1)%nat with (1 * (S (List.length Y) + 1))%nat by lia; symmetry; apply Nat.mod_mul; lia).
    replace (snd k) with (List.length (cr :: Y)) by (cbn; lia).
    rewrite nth_error_app2 by lia. rewrite Nat.sub_diag. cbn [nth_error app]. rewrite Eh.
    change (cr :: Y ++ [cl]) with ((cr :: Y) ++ [cl]). rewrite set_nth_app. cbn [app set_nth firstn skipn].
    do 6 eexists. split; [reflexivity|]. split; [exact Eh|]. split; [auto|]. right. exists Y. rewrite !cp_copy_R. auto.
  - destruct (nth_error_split cps (snd k)) with (a := s) as (X & T & EX & LX).
    { unfold path_segments in Es. destruct cps as [|a t]; [cbn in Hn; lia|].
      assert (Q : nth_error (a :: t) (snd k) <> None) by (apply nth_error_Some; lia).
      destruct (nth_error (a :: t) (snd k)) as [x|] eqn:Ex; [|congruence].
      assert (Q' : nth_error (a :: t) (S (snd k)) <> None) by (apply nth_error_Some; lia).
      destruct (nth_error (a :: t) (S (snd k))) as [y|] eqn:Ey; [|congruence].
      rewrite (consecutive_nth _ _ x y) in Es by (rewrite nth_error_app1 by lia; auto). congruence. }
    assert (T <> []) by (intros ->; subst cps; rewrite app_length in *; cbn in *; lia).
    destruct T as [|y Y]; [congruence|]. subst cps.
    assert (y = e).
    { assert (E' : path_segments (X ++ s :: y :: Y) true = consecutive ((X ++ s :: y :: Y) ++ [hd s X])) by (destruct X; reflexivity).
      rewrite E' in Es. rewrite <- app_assoc in Es. cbn [app] in Es. rewrite consecutive_at in Es.
      rewrite nth_error_app2 in Es by (rewrite consecutive_length, app_length; cbn; lia).
      rewrite consecutive_length, app_length in Es. cbn [List.length] in Es.
      replace (snd k - (List.length X + 1 - 1))%nat with 0%nat in Es by lia. injection Es as ->. reflexivity. }
    subst y.
    rewrite (Nat.mod_small (snd k + 1)) by (rewrite app_length in *; cbn in *; lia).
    rewrite <- LX. rewrite nth_error_app2 by lia. rewrite Nat.sub_diag. cbn [nth_error].
    rewrite nth_error_app2 by lia. replace (List.length X + 1 - List.length X)%nat with 1%nat by lia. cbn [nth_error].
    rewrite Eh. rewrite set_nth_app, !cp_copy_R.
    replace (X ++ l :: e :: Y) with ((X ++ [l]) ++ e :: Y) by (rewrite <- app_assoc; reflexivity).
    replace (List.length X + 1)%nat with (List.length (X ++ [l])) by (rewrite app_length; reflexivity).
    rewrite set_nth_app. rewrite firstn_app, Nat.sub_diag, firstn_all, skipn_app, Nat.sub_diag, skipn_all. cbn [firstn skipn app].
    do 6 eexists. split; [reflexivity|]. split; [exact Eh|]. split; [auto|]. left. exists X, Y. split; auto.
    rewrite app_nil_r, <- app_assoc. reflexivity.
Qed.

(* ------------------------------------------------------------------ *)
(** ** C38 *)

(* one of the longest segments is replaced by its two halves, in place (the closing segment:
   its second half comes first); everything else drawn is untouched *)
Theorem C38_splits_longest : forall (cps : list (cpoint R)), (2 <= List.length cps)%nat ->
  exists cps' A q B q1 q2,
    add_one cps = Ok cps' /\ List.length cps' = S (List.length cps) /\
    curves cps true = A ++ q :: B /\ (forall q', In q' (curves cps true) -> span q' <= span q) /\
    halves q q1 q2 /\
    (curves cps' true = A ++ q1 :: q2 :: B \/ B = [] /\ curves cps' true = q2 :: A ++ [q1]) /\
    Permutation (map cc cps') (at_t q (1 / 2) :: map cc cps).
Proof.
  intros cps Hn. destruct (add_one_cases cps Hn) as (cps' & cl & cr & l & m & r & E & Eh & Hm & Hc).
  destruct (split_half_facts _ _ _ _ _ Eh) as ((L1 & L2) & (R1 & R2) & M1 & Hh & _).
  assert (Hm' : forall q', In q' (curves cps true) -> span q' <= span (curve_of (cl, cr))).
  { intros q' H. apply in_map_iff in H. destruct H as (pq & <- & H). auto. }
  exists cps'.
  destruct Hc as [(X & Y & -> & ->)|(Y & -> & ->)].
  - set (z := hd cl X). set (z' := hd l X).
    assert (Z : cc z = cc z' /\ left_of z = left_of z') by (unfold z, z'; destruct X; cbn; auto).
    assert (P1 : path_segments (X ++ cl :: cr :: Y) true = consecutive (X ++ [cl]) ++ (cl, cr) :: consecutive (cr :: Y ++ [z])).
    { rewrite <- consecutive_at. unfold z. destruct X; cbn [path_segments app hd]; rewrite <- ?app_assoc; reflexivity. }
    assert (P2 : path_segments (X ++ l :: m :: r :: Y) true = consecutive (X ++ [l]) ++ (l, m) :: (m, r) :: consecutive (r :: Y ++ [z'])).
    { change ((m, r) :: consecutive (r :: Y ++ [z'])) with (consecutive (m :: r :: Y ++ [z'])).
      rewrite <- consecutive_at. unfold z'. destruct X; cbn [path_segments app hd]; rewrite <- ?app_assoc; reflexivity. }
    exists (map curve_of (consecutive (X ++ [cl]))), (curve_of (cl, cr)), (map curve_of (consecutive (cr :: Y ++ [z]))), (curve_of (l, m)), (curve_of (m, r)).
    split; [exact E|]. split; [rewrite !app_length; cbn; lia|].
    split; [unfold curves; rewrite P1, map_app; reflexivity|]. split; [auto|]. split; [auto|]. split.
    + left. unfold curves. rewrite P2, map_app. cbn [map]. f_equal; [|do 2 f_equal].
      * destruct X as [|x X]; [reflexivity|]. apply curves_ends; auto.
      * destruct Z. apply curves_ends; auto.
    + rewrite !map_app. cbn [map]. rewrite L1, R1, M1. symmetry.
      apply (Permutation_trans (l' := map cc X ++ segment cl cr (1 / 2) :: cc cl :: cc cr :: map cc Y)).
      * apply Permutation_middle.
      * apply Permutation_app_head. apply perm_swap.
  - assert (P1 : path_segments (cr :: Y ++ [cl]) true = consecutive (cr :: Y ++ [cl]) ++ [(cl, cr)]).
    { cbn [path_segments]. change (cr :: Y ++ [cl]) with ((cr :: Y) ++ [cl]). rewrite <- app_assoc. apply consecutive_app1. }
    assert (P2 : path_segments (m :: r :: Y ++ [l]) true = (m, r) :: consecutive (r :: Y ++ [l]) ++ [(l, m)]).
    { cbn [path_segments]. change ((m :: r :: Y ++ [l]) ++ [m]) with (m :: ((r :: Y) ++ [l]) ++ [m]). rewrite <- app_assoc.
      change ((r :: Y) ++ [l] ++ [m]) with (r :: Y ++ [l; m]). cbn [consecutive]. f_equal.
      apply (consecutive_app1 (r :: Y)). }
    exists (map curve_of (consecutive (cr :: Y ++ [cl]))), (curve_of (cl, cr)), [], (curve_of (l, m)), (curve_of (m, r)).
    split; [exact E|]. split; [cbn; rewrite !app_length; cbn; lia|].
    split; [unfold curves; rewrite P1, map_app; reflexivity|]. split; [auto|]. split; [auto|]. split.
    + right. split; [reflexivity|]. unfold curves. rewrite P2. cbn [map]. rewrite map_app. cbn [map]. do 2 f_equal.
      apply curves_ends; auto.
    + cbn [map]. rewrite !map_app. cbn [map]. rewrite L1, R1, M1. reflexivity.
Qed.

Lemma on_path_curves cps closed p :
  on_path cps closed p <-> exists q t, In q (curves cps closed) /\ 0 <= t <= 1 /\ p = at_t q t.
Proof.
  split.
  - intros (s & e & t & H & Ht & ->). exists (curve_of (s, e)), t. split; [apply in_map; auto|]. auto.
  - intros (q & t & H & Ht & ->). apply in_map_iff in H. destruct H as ([s e] & <- & H). exists s, e, t. auto.
Qed.
Lemma halves_points q q1 q2 p : halves q q1 q2 ->
  ((exists t, 0 <= t <= 1 /\ p = at_t q t) <-> (exists t, 0 <= t <= 1 /\ (p = at_t q1 t \/ p = at_t q2 t))).
Proof.
  intros H. split.
  - intros (t & Ht & ->). destruct (Rle_or_lt t (1 / 2)).
    + exists (2 * t). split; [lra|]. left. rewrite (proj1 (H _)). f_equal. field.
    + exists (2 * t - 1). split; [lra|]. right. rewrite (proj2 (H _)). f_equal. field.
  - intros (t & Ht & [->| ->]).
    + exists (t / 2). split; [lra|]. apply H.
    + exists (1 / 2 + t / 2). split; [lra|]. apply H.
Qed.

(* the closed curve is the same set of points *)
Theorem C38_same_curve : forall (cps cps' : list (cpoint R)), (2 <= List.length cps)%nat ->
  add_one cps = Ok cps' -> forall p, on_path cps' true p <-> on_path cps true p.
Proof.
  intros cps cps' Hn E p. destruct (C38_splits_longest cps Hn) as (c & A & q & B & q1 & q2 & E' & _ & E1 & _ & Hh & E2 & _).
  rewrite E in E'. apply Ok_inj in E'. subst c. rewrite !on_path_curves.
  pose proof (halves_points q q1 q2 p Hh) as HP.
  assert (I : forall x, In x (curves cps' true) <-> x = q1 \/ x = q2 \/ In x A \/ In x B).
  { intros x. destruct E2 as [->|[-> ->]].
    - rewrite in_app_iff. cbn. intuition.
    - cbn. rewrite in_app_iff. cbn. intuition. }
  assert (I0 : forall x, In x (curves cps true) <-> x = q \/ In x A \/ In x B).
  { intros x. rewrite E1, in_app_iff. cbn. intuition. }
  split.
  - intros (x & t & H & Ht & ->). apply I in H. destruct H as [->|[->|H]].
    + destruct HP as [_ HP]. destruct HP as (u & Hu & Eu); [eauto|]. exists q, u. rewrite I0. auto.
    + destruct HP as [_ HP]. destruct HP as (u & Hu & Eu); [eauto|]. exists q, u. rewrite I0. auto.
    + exists x, t. rewrite I0. auto.
  - intros (x & t & H & Ht & ->). apply I0 in H. destruct H as [->|H].
    + destruct HP as [HP _]. destruct HP as (u & Hu & [Eu|Eu]); [eauto| |].
      * exists q1, u. rewrite I. auto.
      * exists q2, u. rewrite I. auto.
    + exists x, t. rewrite I. auto.
Qed.

(* calling it k times, as Morph does *)
Fixpoint add_many (k : nat) (cps : list (cpoint R)) : res (list (cpoint R)) :=
  match k with
  | O => Ok cps
  | S k => let* cps := add_one cps in add_many k cps
  end.
Theorem C38_repeated : forall (k : nat) (cps : list (cpoint R)), (2 <= List.length cps)%nat ->
  exists cps', add_many k cps = Ok cps' /\ List.length cps' = (List.length cps + k)%nat /\
    (forall p, on_path cps' true p <-> on_path cps true p) /\
    (exists new, Permutation (map cc cps') (new ++ map cc cps) /\ forall p, In p new -> on_path cps true p).
Proof.
  induction k as [|k IH]; intros cps Hn.
  - exists cps. cbn. split; auto. split; [lia|]. split; [reflexivity|]. exists []. split; [reflexivity|intros p []].
  - cbn [add_many]. destruct (C38_splits_longest cps Hn) as (c & A & q & B & q1 & q2 & E & Ln & E1 & _ & _ & _ & Pm).
    rewrite E. cbn [bind]. destruct (IH c) as (cps' & E' & Ln' & Hp & new & Pn & Hnew); [lia|].
    exists cps'. split; auto. split; [lia|]. split.
    + intros p. rewrite Hp. apply C38_same_curve; auto.
    + exists (new ++ [at_t q (1 / 2)]). split.
      * rewrite Pn, Pm, <- app_assoc. reflexivity.
      * intros p H. apply in_app_iff in H. destruct H as [H|[<-|[]]].
        { apply (C38_same_curve cps c Hn E). auto. }
        { apply on_path_curves. exists q, (1 / 2). rewrite E1. split; [apply in_app_iff; right; now left|]. split; [lra|reflexivity]. }
Qed.

(* the ends of the split segment and the new point are smooth afterwards; other kinds are kept *)
Theorem C38_kinds : forall (cps cps' : list (cpoint R)), (2 <= List.length cps)%nat ->
  add_one cps = Ok cps' ->
  exists A B, (map ckind cps' = A ++ "smooth" :: "smooth" :: "smooth" :: B /\
               exists k1 k2, map ckind cps = A ++ k1 :: k2 :: B) \/
              (map ckind cps' = "smooth" :: "smooth" :: A ++ ["smooth"] /\
               exists k1 k2, map ckind cps = k2 :: A ++ [k1]).
Proof.
  intros cps cps' Hn E. destruct (add_one_cases cps Hn) as (c & cl & cr & l & m & r & E' & Eh & _ & Hc).
  rewrite E in E'. apply Ok_inj in E'. subst c.
  destruct (split_half_facts _ _ _ _ _ Eh) as (_ & _ & _ & _ & K1 & K2 & K3).
  destruct Hc as [(X & Y & -> & ->)|(Y & -> & ->)].
  - exists (map ckind X), (map ckind Y). left. rewrite !map_app. cbn [map]. rewrite K1, K2, K3. eauto.
  - exists (map ckind Y), []. right. cbn [map]. rewrite !map_app. cbn [map]. rewrite K1, K2, K3. eauto.
Qed.
(* so a sharp corner is lost *)
Theorem C38_kinds_kept_refuted : exists (cps cps' : list (cpoint R)),
  (2 <= List.length cps)%nat /\ add_one cps = Ok cps' /\
  Forall (fun c => ckind c = "sharp") cps /\ Forall (fun c => ckind c = "smooth") cps'.
Proof.
  pose (cps := [CP (P 0 0) (V 0 0) (V 0 0) "sharp"; CP (P 1 0) (V 0 0) (V 0 0) "sharp"] : list (cpoint R)).
  assert (Hn : (2 <= List.length cps)%nat) by (cbn; lia).
  destruct (add_one_cases cps Hn) as (c & cl & cr & l & m & r & E' & Eh & _ & Hc).
  destruct (split_half_facts _ _ _ _ _ Eh) as (_ & _ & _ & _ & K1 & K2 & K3).
  exists cps, c. split; auto. split; auto. split; [repeat constructor|].
  destruct Hc as [(X & Y & Ex & ->)|(Y & Ex & ->)].
  - apply (f_equal (@List.length _)) in Ex. rewrite app_length in Ex. cbn in Ex.
    destruct X; [|cbn in Ex; lia]. destruct Y; [|cbn in Ex; lia]. repeat constructor; auto.
  - apply (f_equal (@List.length _)) in Ex. cbn in Ex. rewrite app_length in Ex. cbn in Ex.
    destruct Y; [|cbn in Ex; lia]. repeat constructor; auto.
Qed.

Theorem C38_empty : add_one (@nil (cpoint R)) = Raise IndexError.
Proof. reflexivity. Qed.

(* an open curve: the closing segment, which is not drawn, can be the one that is split; half of
   it is drawn afterwards *)
Theorem C38_open_refuted :
  let c x y := CP (P x y) (V 0 0) (V 0 0) "sharp" : cpoint R in
  let cps := [c 0 0; c 1 1; c 2 0] in
  exists cps', add_one cps = Ok cps' /\ on_path cps' false (P 1 0) /\ ~ on_path cps false (P 1 0).
Proof.
  intros c cps. assert (Hn : (2 <= List.length cps)%nat) by (cbn; lia).
  destruct (add_one_cases cps Hn) as (cps' & cl & cr & l & m & r & E & Eh & Hm & Hc).
  exists cps'. split; [exact E|].
  assert (B : 2 <= span (curve_of (cl, cr))).
  { eapply Rle_trans; [|apply (Hm (c 2 0, c 0 0)); cbn; auto].
    unfold span, curve_of, dist2. cbn [fst snd cc px py c]. replace ((2 - 0) * (2 - 0) + (0 - 0) * (0 - 0)) with (2 ^ 2) by ring.
    rewrite sqrt_pow2; lra. }
  assert (S2 : forall x, x = 2 -> ~ 2 <= sqrt x).
  { intros x -> H. pose proof (sqrt_sqrt 2 ltac:(lra)). nra. }
  destruct Hc as [(X & Y & Ex & _)|(Y & Ex & ->)].
  { exfalso. destruct X as [|x [|y X]].
    - injection Ex as <- <- <-. revert B. apply S2. unfold dist2. cbn. ring.
    - injection Ex as <- <- <- <-. revert B. apply S2. unfold dist2. cbn. ring.
    - apply (f_equal (@List.length _)) in Ex. cbn in Ex. rewrite app_length in Ex. cbn in Ex. lia. }
  destruct Y as [|y [|y' Y]]; [discriminate| |apply (f_equal (@List.length _)) in Ex; cbn in Ex; rewrite app_length in Ex; cbn in Ex; lia].
  injection Ex as <- <- <-. destruct (split_half_facts _ _ _ _ _ Eh) as (_ & _ & M1 & _).
  split.
  - exists m, r, 0. split; [cbn; auto|]. split; [lra|]. unfold segment, cubic, cubic1. rewrite M1. unfold segment, cubic, cubic1, right_of, left_of, c.
    cbn -[IZR]. f_equal; field.
  - intros (s & e & t & H & Ht & Q). cbn in H. destruct H as [H|[H|[]]]; injection H as <- <-;
    unfold segment, cubic, cubic1, right_of, left_of, c in Q; cbn [cc cdl cdr px py vx vy] in Q; injection Q as Q1 Q2.
    + assert (t ^ 2 * (3 - 2 * t) = 1) by lra. assert (t ^ 2 * (3 - 2 * t) = 0) by lra. lra.
    + assert ((1 - t) ^ 2 * (1 + 2 * t) = 0) by lra. assert ((1 - t) ^ 2 * (1 + 2 * t) = 1) by lra. lra.
Qed.

(* a closed curve of one point: both halves are written to the same control point, and the loop
   changes its shape *)
Theorem C38_one_point_refuted :
  let cps := [CP (P 0 0) (V 0 4) (V 4 0) "smooth"] : list (cpoint R) in
  exists cps' p, add_one cps = Ok cps' /\ on_path cps' true p /\ ~ on_path cps true p.
Proof.
  intros cps.
  assert (E : add_one cps = Ok [CP (P (3 / 2) (3 / 2)) (V (1 / 2) (- (1 / 2))) (V (- (1 / 2)) (1 / 2)) "smooth"; CP (P 0 0) (V 0 2) (V 4 0) "smooth"]).
  { unfold add_one, cps. cbn -[IZR bez_split_half]. unfold bez_split_half, bez_split, cp_copy, bmid, cp_r, cp_l, p_add, p_sub, v_copy. cbn -[IZR].
    apply f_equal. apply f_equal2; [|apply f_equal2; [|reflexivity]]; f_equal; try (f_equal; field); reflexivity. }
  (* the middle of the new first half *)
  eexists. exists (P (39 / 16) (9 / 16)). split; [exact E|]. split.
  - eexists _, _, (1 / 2). split; [cbn; right; left; reflexivity|]. split; [lra|].
    unfold segment, cubic, cubic1, right_of, left_of. cbn -[IZR]. f_equal; field.
  - intros (s & e & t & H & Ht & Q). cbn in H. destruct H as [H|[]]. injection H as <- <-.
    unfold segment, cubic, cubic1, right_of, left_of in Q. cbn [cc cdl cdr px py vx vy] in Q. injection Q as Q1 Q2.
    (* x = 12 t (1-t)^2 never reaches 39/16 *)
    assert (12 * t * (1 - t) ^ 2 <= 16 / 9); [|lra].
    assert (0 <= (t - 1 / 3) ^ 2 * (4 / 3 - t)) by (apply Rmult_le_pos; [apply pow2_ge_0|lra]). lra.
Qed.

(* three points, the longest segment in the middle; four calls *)
Example C38_nontrivial :
  let c x y k := CP (P x y) (V 1 0) (V 0 1) k : cpoint R in
  let cps := [c 0 0 "sharp"; c 1 1 "smooth"; c 5 0 "sharp"] in
  (2 <= List.length cps)%nat /\ exists cps', add_many 4 cps = Ok cps' /\ List.length cps' = 7%nat.
Proof.
  intros c cps. split; [cbn; lia|]. destruct (C38_repeated 4 cps) as (cps' & E & L & _); [cbn; lia|]. exists cps'. auto.
Qed.
