(* C45: iter_elems yields every leaf once with its accumulated transform. *)
Require Import Verif.Base Verif.M_vector Verif.M_bbox Verif.M_transform Verif.M_bezier Verif.M_colors Verif.M_elems Verif.M_group.
Require Import Verif.S_group Verif.L_group Verif.P_gnames Verif.S_elems.
From Coq Require Import String List Lia Bool.
Import ListNotations.
Local Open Scope string_scope.
Local Open Scope list_scope.
Local Open Scope nat_scope.

(* a yielded tuple shows this leaf, and the matrix object is in this state *)
Definition shows {F} (st : list (mat F)) (y : string * elem F * transform F) (x : elem F * mat F * nat) : Prop :=
  let '(n, e, m) := y in let '(e', acc, depth) := x in
  e = e' /\ tmat m = acc /\ List.length (tstack m) = depth /\ exists more, tstack m = more ++ st.

Section Iter.
  Context {F : Type} {NF : Num F}.

  Lemma same_refl (m : transform F) : same_matrix m m. Proof. now split. Qed.
  Lemma same_trans (a b c : transform F) : same_matrix a b -> same_matrix b c -> same_matrix a c.
  Proof. intros [A B] [C D]. split; congruence. Qed.
  Lemma shows_weaken st (more : list (mat F)) ys xs :
    Forall2 (shows (more ++ st)) ys xs -> Forall2 (shows st) ys xs.
  Proof.
    induction 1 as [|[[n e] m] [[e' acc] d] ys xs H _ IH]; constructor; [|exact IH].
    destruct H as (A & B & C & more' & D). repeat split; auto. exists (more' ++ more). now rewrite <- app_assoc.
  Qed.

  (* the loop over a list of elements *)
  Lemma iter_loop {A} (sub : A -> elem F) (root : string) :
    forall (l : list A),
    Forall (fun a => forall root m, exists m' ys, iter_elems (sub a) root m = (m', Ok ys) /\ same_matrix m m' /\
              Forall2 (shows (tstack m)) ys (leaves (sub a) (tmat m) (List.length (tstack m)))) l ->
    forall acc m, exists m' ys,
      loop (fun acc a m => let (m', r) := iter_elems (sub a) (Some root) m in
                           (m', let* ys := r in Ok (acc ++ ys))) acc l m = (m', Ok (acc ++ ys)) /\
      same_matrix m m' /\
      Forall2 (shows (tstack m)) ys (flat_map (fun a => leaves (sub a) (tmat m) (List.length (tstack m))) l).
  Proof.
    induction 1 as [|a l H _ IH]; intros acc m; cbn [loop flat_map].
    - exists m, []. rewrite app_nil_r. split; [reflexivity|]. split; [apply same_refl|constructor].
    - destruct (H (Some root) m) as (m1 & y1 & -> & [S1 S1'] & F1). cbn [bind].
      destruct (IH (acc ++ y1) m1) as (m2 & y2 & -> & S2 & F2).
      exists m2, (y1 ++ y2). rewrite app_assoc. split; [reflexivity|].
      split; [eapply same_trans; [split; eassumption|exact S2]|].
      rewrite S1, S1' in F2. now apply Forall2_app.
  Qed.

  Lemma iter_spec (e : elem F) : forall root m, exists m' ys,
    iter_elems e root m = (m', Ok ys) /\ same_matrix m m' /\
    Forall2 (shows (tstack m)) ys (leaves e (tmat m) (List.length (tstack m))).
  Proof.
    induction e as [b s|b h l p IH|b o i IHo IHi] using elem_induction; intros root m.
    - cbn. eexists m, _. split; [reflexivity|]. split; [apply same_refl|].
      constructor; [|constructor]. split; [reflexivity|]. split; [reflexivity|]. split; [reflexivity|]. now exists [].
    - cbn [iter_elems leaves].
      destruct (iter_loop snd (sub_root root (e_name b)) l IH [] (t_compose (tmat (e_xform b)) (t_push m)))
        as (m2 & ys & E & [_ S] & Fa).
      rewrite E. cbn [app]. unfold t_pop. rewrite S. cbn.
      eexists _, ys. split; [reflexivity|]. split; [split; reflexivity|].
      apply (shows_weaken _ [tmat m]). exact Fa.
    - cbn [iter_elems leaves]. unfold with_push.
      destruct (IHo (Some ((match root with
                         | None => e_name b
                         | Some r => if (r =? "")%string then e_name b
                                     else (r ++ "." ++ e_name b ++ ".")%string
                         end) ++ ".outside")%string) (t_compose (tmat (e_xform b)) (t_push m)))
        as (m1 & y1 & E1 & [S1 S1'] & F1).
      rewrite E1.
      destruct (iter_loop (fun e => e) ((match root with
                         | None => e_name b
                         | Some r => if (r =? "")%string then e_name b
                                     else (r ++ "." ++ e_name b ++ ".")%string
                         end) ++ ".inside")%string i IHi y1 m1) as (m2 & y2 & E2 & [S2 S2'] & F2).
      rewrite E2. unfold t_pop. rewrite S2', S1'. cbn.
      eexists _, (y1 ++ y2). split; [reflexivity|]. split; [split; reflexivity|].
      apply (shows_weaken _ [tmat m]). apply Forall2_app; [exact F1|].
      rewrite S1, S1' in F2. exact F2.
  Qed.

  (* Deep iteration never fails; it yields the leaves of the tree in drawing order, each
     with the matrix of the caller times the matrices of everything around the leaf; at the
     end the matrix and its stack are as before. *)
  Theorem C45_yields : forall (e : elem F) (root : option string) (m : transform F),
    exists m' ys, iter_elems e root m = (m', Ok ys) /\ same_matrix m m' /\
      map (fun y => (snd (fst y), tmat (snd y), List.length (tstack (snd y)))) ys
        = leaves e (tmat m) (List.length (tstack m)).
  Proof.
    intros e root m. destruct (iter_spec e root m) as (m' & ys & E & S & H).
    exists m', ys. split; [exact E|]. split; [exact S|].
    clear E. induction H as [|[[n x] t] [[x' acc] d] ys xs (A & B & C & _) _ IH]; cbn; [reflexivity|].
    now rewrite IH, A, B, C.
  Qed.

  (* The names in a tree without holes: the names on the way from the top, joined by dots,
     after the root if one is given. *)
  Lemma iter_names_loop (r : string) : forall (l : list (string * elem F)),
    Forall (fun ke => forall r m ys, r <> "" -> snd (iter_elems (snd ke) (Some r) m) = Ok ys ->
              map (fun y => fst (fst y)) ys = map (fun ns => dotted (r :: ns)) (leaf_names (snd ke))) l ->
    r <> "" ->
    forall acc m ys,
      snd (loop (fun acc ke m => let (m', r) := iter_elems (snd ke) (Some r) m in
                           (m', let* ys := r in Ok (acc ++ ys))) acc l m) = Ok ys ->
      map (fun y => fst (fst y)) ys =
      map (fun y => fst (fst y)) acc ++ map (fun ns => dotted (r :: ns)) (flat_map (fun ke => leaf_names (snd ke)) l).
  Proof.
    induction 1 as [|ke l H _ IH]; intros N acc m ys; cbn [loop flat_map].
    - cbn. intros E. injection E as <-. now rewrite app_nil_r.
    - destruct (iter_elems (snd ke) (Some r) m) as [m1 [y1|x]] eqn:E1; cbn [bind]; [|discriminate].
      intros E. apply IH in E; [|exact N]. rewrite E, !map_app, <- app_assoc.
      assert (X : snd (iter_elems (snd ke) (Some r) m) = Ok y1) by now rewrite E1.
      apply f_equal. apply (f_equal (fun z => z ++ _)). exact (H _ _ _ N X).
  Qed.
  Lemma dotted_join r n ns : dotted ((r ++ "." ++ n)%string :: ns) = dotted (r :: n :: ns).
  Proof.
    rewrite (dotted_cons r (n :: ns)) by discriminate.
    destruct ns; [reflexivity|]. rewrite !dotted_cons by discriminate. now rewrite !sapp_assoc.
  Qed.
  Lemma sub_root_nonempty r n : r <> "" -> sub_root (Some r) n = (r ++ "." ++ n)%string.
  Proof. intros N. unfold sub_root. destruct (String.eqb_spec r ""); [easy|reflexivity]. Qed.
  Lemma join_nonempty r n : r <> "" -> (r ++ "." ++ n)%string <> "".
  Proof. destruct r; [easy|discriminate]. Qed.

  Lemma iter_pop (b : ebase F) (m2 : transform F) (r : res (list (string * elem F * transform F))) ys :
    snd (match r with
         | Raise x => (m2, Raise x)
         | Ok ys => let (m3, rp) := t_pop m2 in (m3, let* _ := rp in Ok ys)
         end) = Ok ys -> r = Ok ys.
  Proof. destruct r; [|discriminate]. unfold t_pop. destruct (tstack m2); cbn; [discriminate|auto]. Qed.

  Lemma iter_names (e : elem F) : plain e -> forall r m ys, r <> "" ->
    snd (iter_elems e (Some r) m) = Ok ys ->
    map (fun y => fst (fst y)) ys = map (fun ns => dotted (r :: ns)) (leaf_names e).
  Proof.
    induction e as [b s|b h l p IH|b o i IHo IHi] using elem_induction; intros Pl r m ys N H.
    - cbn in H. injection H as <-. reflexivity.
    - cbn [iter_elems] in H.
      destruct (loop _ _ _ _) as [m2 rr] eqn:E in H. apply (iter_pop b) in H. subst rr.
      apply (f_equal snd) in E. cbn [snd] in E.
      rewrite sub_root_nonempty in E by exact N.
      apply iter_names_loop in E; [|inversion Pl; subst; rewrite Forall_forall in *|now apply join_nonempty].
      + rewrite E. cbn [app map leaf_names]. rewrite map_map. apply map_ext. intros ns. apply dotted_join.
      + intros [k x] Hx. apply (IH _ Hx). eapply H0; eauto.
    - inversion Pl.
  Qed.
  Theorem C45_names : forall (b : ebase F) (h : bool) (l : list (string * elem F)) (p : list (string * pt F))
      (root : option string) (m m' : transform F) ys,
    plain (EGroup b h l p) ->
    match root with None => e_name b <> "" | Some r => r <> "" end ->
    iter_elems (EGroup b h l p) root m = (m', Ok ys) ->
    map (fun y => fst (fst y)) ys =
    map (fun ns => dotted (match root with None => ns | Some r => r :: ns end)) (leaf_names (EGroup b h l p)).
  Proof.
    intros b h l p root m m' ys Pl N H. apply (f_equal snd) in H. cbn [snd] in H.
    destruct root as [r|]; [now apply (iter_names (EGroup b h l p)) with (m := m)|].
    cbn [iter_elems] in H. destruct (loop _ _ _ _) as [m2 rr] eqn:E in H. apply (iter_pop b) in H. subst rr.
    apply (f_equal snd) in E. cbn [snd sub_root] in E.
    apply iter_names_loop in E; [|inversion Pl; subst; rewrite Forall_forall|exact N].
    - rewrite E. cbn [app map leaf_names]. rewrite map_map. reflexivity.
    - intros [k x] Hx r m0 y Nr Hy. eapply iter_names; eauto.
  Qed.

  (* Every leaf reported below plain groups can be looked up by its reported name without
     the root. *)
  Lemma iter_lookup_aux (b : ebase F) h l p : tidy (EGroup b h l p) -> plain (EGroup b h l p) ->
    forall root, sub_root root (e_name b) <> "" -> forall m m' ys n x s,
    iter_elems (EGroup b h l p) root m = (m', Ok ys) -> In (n, x, s) ys ->
    exists ks, at_path (EGroup b h l p) ks x /\ n = dotted (sub_root root (e_name b) :: ks).
  Proof.
    remember (EGroup b h l p) as g eqn:Eg. revert b h l p Eg.
    induction g as [b0 s0| b' h' l' p' IH |b0 o0 i0 Io Ii] using elem_induction; intros b h l p Eg T Pl root N m m' ys n x s H I; try easy.
    injection Eg as -> -> -> ->. cbn [iter_elems] in H.
    destruct (loop _ _ _ _) as [m2 rr] eqn:E in H. apply (f_equal snd) in H. apply (iter_pop b) in H. subst rr.
    inversion T as [|? ? ? ? [G1 G2] TL|]; subst. inversion Pl as [|? ? ? ? PL]; subst.
    set (r := sub_root root (e_name b)) in *.
    assert (Sub : forall l0, (forall ke, In ke l0 -> In ke l) -> forall acc m m2 ys,
      loop (fun acc ke m => let (m', r) := iter_elems (snd ke) (Some r) m in
                           (m', let* ys := r in Ok (acc ++ ys))) acc l0 m = (m2, Ok ys) ->
      In (n, x, s) ys -> In (n, x, s) acc \/
        exists ke m m' ys, In ke l /\ iter_elems (snd ke) (Some r) m = (m', Ok ys) /\ In (n, x, s) ys).
    { induction l0 as [|ke l0 IHl]; intros Inc acc m0 m1 y0; cbn [loop].
      - intros X. injection X as _ <-. auto.
      - destruct (iter_elems (snd ke) (Some r) m0) as [m3 [y3|]] eqn:E3; cbn [bind]; [|discriminate].
        intros X Y. eapply IHl in X; [|intros; apply Inc; now right|exact Y].
        destruct X as [X|X]; [|right; exact X]. apply in_app_or in X as [X|X]; [now left|].
        right. exists ke, m0, m3, y3. split; [apply Inc; now left|auto]. }
    destruct (Sub l (fun _ H => H) _ _ _ _ E I) as [[]|([k e] & m0 & m1 & y1 & Hin & Hit & Hy)].
    cbn [snd] in Hit. destruct (G2 _ _ Hin) as [_ Nk].
    destruct e as [be se|be he le pe|be oe ie].
    - cbn in Hit. injection Hit as _ <-. destruct Hy as [Hy|[]]. injection Hy as <- <- <-.
      exists [k]. split; [now constructor|]. cbn in Nk. now rewrite Nk.
    - rewrite Forall_forall in IH. cbn in Nk.
      destruct (IH _ Hin be he le pe eq_refl (TL _ _ Hin) (PL _ _ Hin) (Some r)
                 ltac:(rewrite sub_root_nonempty by exact N; now apply join_nonempty) _ _ _ _ _ _ Hit Hy)
        as (ks & A & B).
      exists (k :: ks). split; [eapply at_below; eauto|].
      rewrite B, sub_root_nonempty, Nk by exact N. apply dotted_join.
    - specialize (PL _ _ Hin). inversion PL.
  Qed.
  Theorem C45_lookup : forall (b : ebase F) (h : bool) (l : list (string * elem F)) (p : list (string * pt F))
      (m m' : transform F) ys n x s,
    tidy (EGroup b h l p) -> plain (EGroup b h l p) -> named (EGroup b h l p) -> e_name b <> "" ->
    iter_elems (EGroup b h l p) None m = (m', Ok ys) -> In (n, x, s) ys ->
    exists tag, n = (e_name b ++ "." ++ tag)%string /\ elem_lookup (EGroup b h l p) tag = Ok x.
  Proof.
    intros b h l p m m' ys n x s T Pl Nm N H I.
    destruct (iter_lookup_aux b h l p T Pl None N _ _ _ _ _ _ H I) as (ks & A & B).
    exists (dotted ks). split; [rewrite B; apply dotted_cons; eapply at_path_nonnil; eauto|].
    apply C44_lookup_iff; auto; [exact Logic.I|eapply at_path_nonnil; eauto|].
    split.
    - clear - T A. induction A as [b1 h1 l1 p1 k e HI|b1 h1 l1 p1 k g ks e HI _ IH];
        inversion T as [|? ? ? ? [_ G] TL|]; subst; intros k' [<-|Hk]; try easy;
        try (apply (G _ _ HI)). eapply IH; eauto.
    - intros X. apply (Nm _ _ A). destruct ks; [easy|now right].
  Qed.

  (* A list of the tuples shows the final matrix, the one of the caller, in every entry. *)
  Theorem C45_collected : forall (e : elem F) (root : option string) (m : transform F),
    exists ys, iter_collect e root m = Ok ys /\
      map (fun y => (snd (fst y), tmat (snd y))) ys =
      map (fun x => (fst (fst x), tmat m)) (leaves e (tmat m) (List.length (tstack m))).
  Proof.
    intros e root m. destruct (iter_spec e root m) as (m' & ys & E & [S _] & H).
    unfold iter_collect. rewrite E. cbn. eexists. split; [reflexivity|].
    rewrite map_map. clear E. induction H as [|[[n x] t] [[x' acc] d] ys xs (A & B & C & _) _ IH]; cbn; [reflexivity|].
    cbn in IH. now rewrite IH, A, S.
  Qed.

  (* Dropping the iteration of a group early leaves the matrix pushed. *)
  Theorem C45_abandoned : forall (b : ebase F) (h : bool) (l : list (string * elem F)) (p : list (string * pt F))
      (root : option string) (m s : transform F) (k : nat),
    iter_abandon (EGroup b h l p) root m k = Some s ->
    exists more, more <> [] /\ tstack s = more ++ tstack m.
  Proof.
    intros b h l p root m s k. unfold iter_abandon. cbn [iter_elems].
    destruct (iter_loop snd (sub_root root (e_name b)) l
               ltac:(apply Forall_forall; intros; apply iter_spec) []
               (t_compose (tmat (e_xform b)) (t_push m))) as (m2 & ys & E & [_ S] & Fa).
    rewrite E. cbn [app]. unfold t_pop. rewrite S. cbn.
    destruct (nth_error ys k) as [y|] eqn:Y; [|discriminate]. intros X. injection X as <-.
    apply nth_error_In in Y. clear E S.
    induction Fa as [|[[n e] t] [[x' acc] d] ys xs (_ & _ & _ & mo & D) _ IH]; [easy|].
    destruct Y as [<-|Y]; [|auto]. exists (mo ++ [tmat m]). split; [now destruct mo|].
    cbn. rewrite D, <- app_assoc. reflexivity.
  Qed.
End Iter.

(* The names an ElemWithHoles with a root reports contain an empty component. *)
Theorem C45_hole_names_refuted : forall {F} {NF : Num F},
  exists (g : elem F) n x s m', tidy g /\ is_group g /\
    iter_elems g None t_new = (m', Ok [(n, x, s)]) /\
    n = "g.w..outside.a" /\ elem_lookup g "w..outside.a" = Raise ValueError.
Proof.
  intros F NF.
  exists (EGroup (EB "g" (PenBrush None None) false t_new) false
            [("w", EHoles (EB "w" (PenBrush None None) true t_new) (ex_leaf "a") [])] []).
  do 4 eexists. split.
  - constructor.
    + split; [repeat constructor; easy|]. intros k e [H|[]]. injection H as <- <-.
      split; [now apply has_dot_false|reflexivity].
    + intros k e [H|[]]. injection H as <- <-. repeat constructor. easy.
  - split; [exact I|]. split; [reflexivity|]. split; reflexivity.
Qed.

Example C45_nontrivial : forall {F} {NF : Num F},
  tidy (@ex_tree F NF) /\ plain (@ex_tree F NF) /\ named (@ex_tree F NF) /\
  map (fun x => fst (fst x)) (leaves (@ex_tree F NF) mat_id 0) = [ex_leaf "a"; ex_leaf "b"] /\
  map dotted (leaf_names (@ex_tree F NF)) = ["top.a"; "top.g.b"] /\
  exists s, iter_abandon (@ex_tree F NF) None t_new 1 = Some s /\ List.length (tstack s) = 2.
Proof.
  intros F NF. split; [apply ex_tree_tidy|]. split.
  - constructor. intros k e [H|[H|[]]]; injection H as <- <-; constructor.
    intros k e [H|[]]. injection H as <- <-. constructor.
  - split.
    + intros ks e H. inversion H as [? ? ? ? ? ? HI|? ? ? ? ? g ? ? HI HP]; subst.
      * destruct HI as [HI|[HI|[]]]; injection HI as <- <-; cbn; intuition discriminate.
      * destruct HI as [HI|[HI|[]]]; injection HI as <- <-; [inversion HP|].
        inversion HP as [? ? ? ? ? ? HI|? ? ? ? ? g ? ? HI HP']; subst.
        -- destruct HI as [HI|[]]; injection HI as <- <-; cbn; intuition discriminate.
        -- destruct HI as [HI|[]]; injection HI as <- <-. inversion HP'.
    + split; [reflexivity|]. split; [reflexivity|]. eexists. split; reflexivity.
Qed.
