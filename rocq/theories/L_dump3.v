(* Lemmas for dumps: what the lines of a dumped element mean. *)
Require Import Verif.Base Verif.M_vector Verif.M_bbox Verif.M_transform Verif.M_bezier Verif.M_colors
  Verif.M_elems Verif.M_group Verif.S_group Verif.L_group Verif.M_dump Verif.S_dump Verif.L_dump Verif.L_dump2.
From Coq Require Import String Ascii List Lia Bool DecimalString Permutation Sorted.
Import ListNotations.
Local Open Scope list_scope.
Local Open Scope string_scope.

Lemma ident_var p k : ident p = true -> ident (var_name p k) = true.
Proof.
  destruct p as [|c p]; [discriminate|]. cbn. intros H. apply andb_prop in H as [-> H]. cbn. revert H.
  induction p as [|a p IH]; cbn; intros H.
  - unfold decimal. generalize (Nat.to_uint k). induction u; cbn; auto.
  - apply andb_prop in H as [-> H]. cbn. auto.
Qed.
Lemma add_imports_nil d : add_imports [] d = d.
Proof. destruct d; reflexivity. Qed.

Section Elements.
  Context {F : Type} {NF : Num F}.
  Variables (show : F -> string) (num_of : string -> option F).
  Notation rb := (rb show num_of).
  Variable use : bool.                  (* use_vars *)
  Notation value := (@value F).
  Notation env := (list (string * value)).
  Notation Means := (Means num_of).
  Notation Args := (Args num_of).

  (* the variables are pens and transforms *)
  Definition vals_ok (d : dump) : Prop := forall r n, In (r, n) (d_vars d) ->
    ((exists p, pb_in rb p /\ r = repr_pb show p) /\ exists k, n = var_name "pen" k) \/
    ((exists t, xf_in rb t /\ r = repr_xf show t) /\ exists k, n = var_name "xform" k).
  Definition wf (d : dump) : Prop := (d_use d = use /\ (use = false -> d_vars d = [])) /\ vars_ok d /\ vals_ok d.
  Definition env_ok (E : env) (d : dump) : Prop := plain E /\
    forall r n, In (r, n) (d_vars d) -> exists v, Means E r v /\ find_key n E = Some v.
  Lemma env_ok_grow E d d' : grow d d' -> env_ok E d' -> env_ok E d.
  Proof. intros [l H] [A B]. split; [exact A|]. intros r n I. apply B. rewrite H. apply in_or_app. now left. Qed.
  Lemma env_ok_vars E d d' : d_vars d = d_vars d' -> env_ok E d' -> env_ok E d.
  Proof. intros H. apply env_ok_grow. exists []. now rewrite app_nil_r. Qed.
  Lemma wf_new : wf (dump_new use).
  Proof. split; [split; reflexivity|]. split; [apply vars_ok_new|]. intros r n []. Qed.
  Lemma wf_lines l d : wf d -> wf (with_lines l d).
  Proof. intros H. exact H. Qed.
  Lemma wf_depth n d : wf d -> wf (set_depth n d).
  Proof. intros H. exact H. Qed.

  Lemma var_means E d r n v : wf d -> env_ok E d -> n = r \/ In (r, n) (d_vars d) -> Means E r v -> Means E n v.
  Proof.
    intros (_ & _ & V) [PE O] [->|I] M; [exact M|]. destruct (O _ _ I) as (w & Mw & Fk). rewrite (means_same num_of E r v w M Mw).
    apply m_var; auto; destruct (V _ _ I) as [[_ [k ->]]|[_ [k ->]]]; try reflexivity; now apply ident_var.
  Qed.

  Definition xarg (b : ebase F) : list (option string * value) :=
    if t_eqb (e_xform b) t_new then [] else [(Some "xform", VXf (plain_xf (e_xform b)))].
  Definition base_args (b : ebase F) : list (option string * value) :=
    ((None, VStr (e_name b)) :: (None, VPenBrush (e_pb b)) :: (Some "closed", VBool (e_closed b)) :: xarg b)%list.

  Lemma set_var_wf r p d : wf d ->
    ((p = "pen" /\ exists x, pb_in rb x /\ r = repr_pb show x) \/ (p = "xform" /\ exists x, xf_in rb x /\ r = repr_xf show x)) ->
    exists d' n, set_var r p d = (d', n) /\ wf d' /\ same_rest d d' /\ grow d d' /\ (n = r \/ In (r, n) (d_vars d')).
  Proof.
    intros ((U & U0) & V & W) R. destruct use eqn:Hu.
    2: { exists d, r. unfold set_var. rewrite U. split; [reflexivity|]. split; [split; [now rewrite Hu|now split]|]. split; [repeat split|]. split; [apply grow_refl|now left]. }
    pose proof (set_var_spec r p d V U) as H. destruct (set_var r p d) as [d' n]. exists d', n. destruct H as (A & B & C & D).
    split; [reflexivity|]. split; [|split; [exact B|split; [|now right]]].
    - split; [destruct B as (_ & _ & -> & _); rewrite Hu; split; [exact U|discriminate]|]. split; [exact A|]. intros r' n' I. destruct D as [->|[E [k K]]]; [auto|]. rewrite E in I. apply in_app_or in I as [I|[I|[]]]; [auto|].
      injection I as <- <-. destruct R as [[-> R]|[-> R]]; [left|right]; eauto.
    - destruct D as [->|[E _]]; [apply grow_refl|]. eexists. exact E.
  Qed.
  Lemma same_rest_trans a b c : same_rest a b -> same_rest b c -> same_rest a c.
  Proof. intros (A & B & C & D) (A' & B' & C' & D'). repeat split; congruence. Qed.

  Lemma dump_elem_spec cls b args final d : wf d -> base_in rb b -> exists d1 pre,
    dump_elem show cls b args final d =
      d_append (cls ++ "(" ++ pre ++ join ", " (map (fun kv => (fst kv ++ "=" ++ snd kv)%string) args ++ match final with Some k => [(k ++ "=[")%string] | None => [] end)%list
                 ++ match final with Some _ => "" | None => ")" end) d1 /\
    wf d1 /\ same_rest d d1 /\ grow d d1 /\
    forall E, env_ok E d1 -> forall r l, Args E ")" r l -> Args E ")" (pre ++ r) (base_args b ++ l)%list.
  Proof.
    intros W [HB HX]. unfold dump_elem. rewrite add_imports_nil.
    destruct (set_var_wf (repr_pb show (e_pb b)) "pen" d W) as (d1 & n & -> & W1 & S1 & G1 & I1); [left; eauto|].
    assert (K : forall E, env_ok E d1 -> forall r l, Args E ")" r l ->
      Args E ")" (repr_str (e_name b) ++ ", " ++ n ++ ", " ++ "closed=" ++ repr_bool (e_closed b) ++ ", " ++ r)
        ((None, VStr (e_name b)) :: (None, VPenBrush (e_pb b)) :: (Some "closed", VBool (e_closed b)) :: l)).
    { intros E O r l A. apply (a_cons num_of E ")" None _ _ ", "); auto using lex_comma, m_str.
      apply (a_cons num_of E ")" None n _ ", "); auto using lex_comma.
      - eapply var_means; eauto. apply m_pb; auto. apply O.
      - apply (a_cons num_of E ")" (Some "closed") (repr_bool (e_closed b)) _ ", "); auto using lex_comma, m_bool. }
    unfold base_args, xarg. destruct (t_eqb (e_xform b) t_new) eqn:X; cbn [negb].
    - exists d1, (repr_str (e_name b) ++ ", " ++ n ++ ", " ++ "closed=" ++ repr_bool (e_closed b) ++ ", "). split; [|split; [exact W1|split; [exact S1|split; [exact G1|]]]].
      + f_equal. rewrite !sapp_assoc. cbn. rewrite !sapp_assoc. reflexivity.
      + intros E O r l A. rewrite !sapp_assoc. cbn [app]. apply K; auto.
    - destruct (set_var_wf (repr_xf show (e_xform b)) "xform" d1 W1) as (d2 & x & -> & W2 & S2 & G2 & I2); [right; eauto|].
      exists d2, (repr_str (e_name b) ++ ", " ++ n ++ ", " ++ "closed=" ++ repr_bool (e_closed b) ++ ", " ++ "xform=" ++ x ++ ", ").
      split; [|split; [exact W2|split; [eapply same_rest_trans; eauto|split; [eapply grow_trans; eauto|]]]].
      + f_equal. rewrite !sapp_assoc. cbn. rewrite !sapp_assoc. reflexivity.
      + intros E O r l A. rewrite !sapp_assoc. cbn [app]. apply K; [eapply env_ok_grow; eauto|].
        rewrite <- ?sapp_assoc. rewrite !sapp_assoc. apply (a_cons num_of E ")" (Some "xform") x _ ", "); auto using lex_comma.
        eapply var_means; eauto. apply m_xf; auto. apply O.
  Qed.

  Lemma a_white E c w r l : LexC w [] 1 1 -> Args E c r l -> Args E c (w ++ r) l.
  Proof. intros W (items & ts & L & R). exists items, ts. split; [|exact R]. change ts with ([] ++ ts)%list. eapply lex_cc; eauto. Qed.
  Lemma a_item E k s v r l : Means E s v -> Args E "]" r l -> Args E "]" (ind k s ++ "," ++ newline ++ r) ((None, v) :: l).
  Proof.
    intros M A. replace ("," ++ newline ++ r) with (("," ++ newline) ++ r) by (now rewrite sapp_assoc).
    apply (a_cons num_of E "]" None); auto using lex_comma_newline. unfold ind. apply m_white; auto. apply (lex_spaces k 0).
  Qed.

  (* ---------------- the constructors give the element back ---------------- *)

  Lemma mk_base_ok (b : ebase F) : sound_base b ->
    mk_base (e_name b) (e_pb b) (e_closed b) (if t_eqb (e_xform b) t_new then None else Some (plain_xf (e_xform b))) = Ok (reload_base b).
  Proof.
    intros H. unfold mk_base, reload_base, reload_xf, plain_xf, sound_base in *. destruct (pb_filled (e_pb b)); [rewrite H by reflexivity|]; cbn [negb andb]; destruct (t_eqb _ _); reflexivity.
  Qed.
  Lemma leaf_of_ok (b : ebase F) s : sound_base b ->
    leaf_of (e_name b) (e_pb b) (e_closed b) (if t_eqb (e_xform b) t_new then None else Some (plain_xf (e_xform b))) s = Some (VElem (ELeaf (reload_base b) s)).
  Proof. intros H. unfold leaf_of. now rewrite mk_base_ok. Qed.
  Lemma box_of_ok (b : ebase F) s : sound_base b -> e_closed b = true ->
    box_of (e_name b) (e_pb b) (Some (VBool (e_closed b))) (if t_eqb (e_xform b) t_new then None else Some (VXf (plain_xf (e_xform b)))) s = Some (VElem (ELeaf (reload_base b) s)).
  Proof.
    intros H C. unfold box_of. cbn [opt_bool]. pose proof (leaf_of_ok b s H) as L. rewrite C in *. destruct (t_eqb _ _); exact L.
  Qed.
  Lemma all_map {A B C} (f : B -> option C) (g : A -> B) (h : A -> C) l : (forall a, f (g a) = Some (h a)) -> all f (map g l) = Some (map h l).
  Proof. intros H. induction l as [|a l IH]; cbn; [reflexivity|]. now rewrite H, IH. Qed.

  Lemma call_curve (b : ebase F) l : sound_base b ->
    call "ElemCurve" (base_args b ++ [(Some "control_points", VList (map (@VCp F) l))])%list = Some (VElem (ELeaf (reload_base b) (SCurve l))).
  Proof.
    intros H. unfold base_args, xarg. rewrite <- (leaf_of_ok b (SCurve l) H).
    assert (A : all as_cp (map (@VCp F) l) = Some l) by (rewrite (all_map _ _ (fun c => c)), map_id; auto).
    destruct (t_eqb (e_xform b) t_new); cbn -[all leaf_of]; rewrite A; reflexivity.
  Qed.
  Lemma call_rect (b : ebase F) p q : sound_base b -> e_closed b = true ->
    call "ElemRectangle" (base_args b ++ [(Some "p1", VPoint p); (Some "p2", VPoint q)])%list = Some (VElem (ELeaf (reload_base b) (SRect p q))).
  Proof. intros H C. unfold base_args, xarg. rewrite <- (box_of_ok b _ H C). destruct (t_eqb (e_xform b) t_new); reflexivity. Qed.
  Lemma call_ellipse (b : ebase F) p q : sound_base b -> e_closed b = true ->
    call "ElemEllipse" (base_args b ++ [(Some "p1", VPoint p); (Some "p2", VPoint q)])%list = Some (VElem (ELeaf (reload_base b) (SEllipse p q))).
  Proof. intros H C. unfold base_args, xarg. rewrite <- (box_of_ok b _ H C). destruct (t_eqb (e_xform b) t_new); reflexivity. Qed.
  Lemma call_rrect (b : ebase F) p q r : sound_base b -> e_closed b = true ->
    call "ElemRectangleRounded" (base_args b ++ [(Some "p1", VPoint p); (Some "p2", VPoint q); (Some "radius", VNum r)])%list = Some (VElem (ELeaf (reload_base b) (SRRect p q r))).
  Proof. intros H C. unfold base_args, xarg. rewrite <- (box_of_ok b _ H C). destruct (t_eqb (e_xform b) t_new); reflexivity. Qed.

  Lemma set_name_same (e : elem F) : set_name (elem_name e) e = e.
  Proof. destruct e as [[] s|[] h l p|[] o i]; reflexivity. Qed.
  Lemma add_all : forall (es : list (elem F)) (t : list (string * elem F)), NoDup (keys t ++ map elem_name es)%list -> Forall (fun e => has_dot (elem_name e) = false) es ->
    foldM (fun t e => group_add t (elem_name e) e false) t es = Ok (t ++ map (fun e => (elem_name e, e)) es)%list.
  Proof.
    induction es as [|e es IH]; intros t N D; cbn [foldM map]; [now rewrite app_nil_r|]. inversion D as [|? ? D1 D2]; subst.
    assert (K : has_key (elem_name e) t = false).
    { apply has_key_false. intros I. cbn in N. apply NoDup_remove_2 in N. apply N. apply in_or_app. now left. }
    unfold group_add at 1. cbn [andb orb]. rewrite K. cbn [bind]. rewrite D1, K. cbn [bind]. rewrite set_name_same, IH; auto.
    - now rewrite <- app_assoc.
    - rewrite keys_app, <- app_assoc. exact N.
  Qed.
  Lemma call_group (b : ebase F) es : sound_base b -> NoDup (map elem_name es) -> Forall (fun e => has_dot (elem_name e) = false) es ->
    call "Group" (base_args b ++ [(Some "elems", VList (map (@VElem F) es))])%list = Some (VElem (EGroup (reload_base b) false (map (fun e => (elem_name e, e)) es) [])).
  Proof.
    intros H N D. unfold base_args, xarg. pose proof (mk_base_ok b H) as B.
    assert (A : all as_elem (map (@VElem F) es) = Some es) by (rewrite (all_map _ _ (fun c => c)), map_id; auto).
    destruct (t_eqb (e_xform b) t_new); cbn -[all mk_group]; rewrite A; unfold mk_group; rewrite B; cbn [bind]; rewrite add_all by assumption; reflexivity.
  Qed.

  (* ---------------- the induction ---------------- *)

  Definition text (k : nat) (body : list string) (last : string) : string := unlines (map (ind k) body) ++ ind k last.
  (* the dump of [e] adds the lines [body ++ [last]], whose meaning is [reloaded e] *)
  Definition dumps (e : elem F) : Prop := forall d, wf d -> dumpable e -> elem_in rb e -> exists d' body last,
    dump_el show e d = Ok d' /\ wf d' /\ grow d d' /\ d_depth d' = d_depth d /\ d_imports d' = d_imports d /\
    d_lines d' = (d_lines d ++ map (ind (d_depth d)) body ++ [ind (d_depth d) last])%list /\
    forall E, env_ok E d' -> forall k, Means E (text k body last) (VElem (reloaded e)).

  Lemma add_comma_snoc l s d : d_lines d = (l ++ [s])%list -> add_comma d = Ok (with_lines (l ++ [(s ++ ",")%string])%list d).
  Proof. intros H. unfold add_comma. rewrite H, rev_app_distr. cbn. now rewrite rev_involutive. Qed.

  Lemma parts_dump : forall es, Forall (fun e => dumps e /\ dumpable e /\ elem_in rb e) es -> forall d, wf d -> exists d' lines,
    dump_parts (map (dump_el show) es) d = Ok d' /\ wf d' /\ grow d d' /\ d_depth d' = d_depth d /\ d_imports d' = d_imports d /\
    d_lines d' = (d_lines d ++ map (ind (d_depth d)) lines)%list /\
    forall E, env_ok E d' -> forall k w, LexC w [] 1 1 ->
      Args E "]" (unlines (map (ind k) lines) ++ w ++ "]") (map (fun v => (None, v)) (map (fun e => VElem (reloaded e)) es)).
  Proof.
    induction es as [|e es IH]; intros H d W.
    - exists d, []. cbn [map dump_parts foldM]. repeat split; auto using grow_refl; try apply W; [now rewrite app_nil_r|].
      intros E O k w L. cbn. apply a_nil; auto.
    - inversion H as [|? ? (H1 & H2 & H0) H3]; subst. destruct (H1 d W H2 H0) as (d1 & body & last & D1 & W1 & G1 & Dp1 & Im1 & L1 & M1).
      set (d2 := with_lines ((d_lines d ++ map (ind (d_depth d)) body) ++ [(ind (d_depth d) last ++ ",")%string])%list d1).
      assert (W2 : wf d2) by exact W1. destruct (IH H3 d2 W2) as (d3 & lines & D3 & W3 & G3 & Dp3 & Im3 & L3 & M3).
      exists d3, ((body ++ [(last ++ ",")%string]) ++ lines)%list. split; [|split; [exact W3|split; [eapply grow_trans; [exact G1|exact G3]|split; [now rewrite Dp3|split; [now rewrite Im3|split]]]]].
      + unfold dump_parts. cbn [map foldM]. rewrite D1. cbn [bind]. rewrite (add_comma_snoc (d_lines d ++ map (ind (d_depth d)) body)%list (ind (d_depth d) last)) by (rewrite L1; now rewrite app_assoc).
        cbn [bind]. exact D3.
      + rewrite L3. cbn [d_lines d2 with_lines d_depth]. rewrite Dp1, !map_app. cbn [map]. rewrite <- !app_assoc. cbn [app]. do 3 f_equal. unfold ind. now rewrite sapp_assoc.
      + intros E O k w L. rewrite !map_app, !unlines_app. cbn [map unlines fold_right]. rewrite !sapp_assoc.
        assert (M2 := M1 E (env_ok_grow E d1 d3 G3 O) k). unfold text in M2.
        replace (unlines (map (ind k) body) ++ ind k (last ++ ",") ++ newline ++ "" ++ unlines (map (ind k) lines) ++ w ++ "]")
          with (ind 0 (unlines (map (ind k) body) ++ ind k last) ++ "," ++ newline ++ unlines (map (ind k) lines) ++ w ++ "]").
        * apply a_item; auto.
        * unfold ind. cbn. rewrite !sapp_assoc. reflexivity.
  Qed.

  Lemma fold_append (f : cpoint F -> string) : forall l d, let d' := fold_left (fun d c => d_append (f c) d) l d in
    d' = with_lines (d_lines d ++ map (ind (d_depth d)) (map f l))%list d.
  Proof.
    induction l as [|c l IH]; intros d; cbn [fold_left map].
    - cbn. rewrite app_nil_r. destruct d; reflexivity.
    - cbv zeta. rewrite IH. unfold d_append, with_lines. cbn [d_lines d_depth d_vars d_prefixes d_use d_imports]. rewrite <- app_assoc. reflexivity.
  Qed.
  Lemma cps_args E : plain E -> forall l k w, Forall (cp_in rb) l -> LexC w [] 1 1 ->
    Args E "]" (unlines (map (ind k) (map (fun c => repr_cp show c ++ ",") l)) ++ w ++ "]") (map (fun v => (None, v)) (map (@VCp F) l)).
  Proof.
    intros PE l k w Hl L. induction Hl as [|c l Hc Hl IH]; cbn [map]; [apply a_nil; auto|]. cbn [unlines fold_right]. fold (unlines (map (ind k) (map (fun c => repr_cp show c ++ ",") l))).
    replace ((ind k (repr_cp show c ++ ",") ++ newline ++ unlines (map (ind k) (map (fun c => repr_cp show c ++ ",") l))) ++ w ++ "]")
      with (ind k (repr_cp show c) ++ "," ++ newline ++ unlines (map (ind k) (map (fun c => repr_cp show c ++ ",") l)) ++ w ++ "]") by (unfold ind; now rewrite !sapp_assoc).
    apply a_item; auto. now apply m_cp.
  Qed.

  (* a header, lines one level deeper and a closing line *)
  Lemma bracket_means E k cls pre key lines b (vs : list value) v :
    plain E -> ident cls = true -> first_in "px" cls = false -> ident key = true ->
    (forall r l, Args E ")" r l -> Args E ")" (pre ++ r) (base_args b ++ l)%list) ->
    (forall k w, LexC w [] 1 1 -> Args E "]" (unlines (map (ind k) lines) ++ w ++ "]") (map (fun v => (None, v)) vs)) ->
    call cls (base_args b ++ [(Some key, VList vs)])%list = Some v ->
    Means E (text k ((cls ++ "(" ++ pre ++ key ++ "=[") :: map (ind 1) lines) "])") v.
  Proof.
    intros PE Ic Fc Ik Hp Hl Hc. unfold text. cbn [map unlines fold_right]. fold (unlines (map (ind k) (map (ind 1) lines))). rewrite map_ind.
    replace ((ind k (cls ++ "(" ++ pre ++ key ++ "=[") ++ newline ++ unlines (map (ind (k + 1)) lines)) ++ ind k "])")
      with (indent k ++ (cls ++ "(" ++ pre ++ kws (Some key) ++ ("[" ++ newline ++ unlines (map (ind (k + 1)) lines) ++ indent k ++ "]") ++ ")")).
    - apply m_white; [apply (lex_spaces k 0)|]. eapply m_call; eauto. apply Hp. apply a_one; auto. apply m_list. apply a_white; [apply lex_newline|]. apply Hl. apply (lex_spaces k 1).
    - unfold ind, kws. rewrite !sapp_assoc. reflexivity.
  Qed.

  Lemma kw_args E c k s v r l : kw_ok (Some k) = true -> (c = ")" \/ c = "]")%char -> Means E s v -> Args E c r l ->
    Args E c ((k ++ "=" ++ s) ++ ", " ++ r) ((Some k, v) :: l).
  Proof.
    intros K C M A. replace ((k ++ "=" ++ s) ++ ", " ++ r) with (kws (Some k) ++ s ++ ", " ++ r) by (cbn [kws]; now rewrite !sapp_assoc).
    apply a_cons; auto using lex_comma.
  Qed.
  Lemma kw_last E c k s v : kw_ok (Some k) = true -> (c = ")" \/ c = "]")%char -> Means E s v ->
    Args E c ((k ++ "=" ++ s) ++ String c "") [(Some k, v)].
  Proof.
    intros K C M. replace ((k ++ "=" ++ s) ++ String c "") with (kws (Some k) ++ s ++ String c "") by (cbn [kws]; now rewrite !sapp_assoc).
    apply a_one; auto.
  Qed.

  Lemma args_assoc E c x y z l : Args E c (x ++ y ++ z) l -> Args E c ((x ++ y) ++ z) l.
  Proof. now rewrite sapp_assoc. Qed.
  Lemma box_means E cls pre args b (l : list (option string * value)) v :
    plain E -> ident cls = true -> first_in "px" cls = false ->
    (forall r l, Args E ")" r l -> Args E ")" (pre ++ r) (base_args b ++ l)%list) ->
    Args E ")" (args ++ ")") l -> call cls (base_args b ++ l)%list = Some v ->
    Means E (cls ++ "(" ++ pre ++ args ++ ")") v.
  Proof. intros PE I Fc A B C. eapply m_call; eauto. Qed.

  (* a dump on one line *)
  Lemma line_dumps d d1 hdr e : wf d1 -> same_rest d d1 -> grow d d1 ->
    (forall E, env_ok E d1 -> Means E hdr (VElem (reloaded e))) ->
    dump_el show e d = Ok (d_append hdr d1) ->
    exists d' body last, dump_el show e d = Ok d' /\ wf d' /\ grow d d' /\ d_depth d' = d_depth d /\ d_imports d' = d_imports d /\
    d_lines d' = (d_lines d ++ map (ind (d_depth d)) body ++ [ind (d_depth d) last])%list /\
    forall E, env_ok E d' -> forall k, Means E (text k body last) (VElem (reloaded e)).
  Proof.
    intros W (A & B & C & D) G M Eq. exists (d_append hdr d1), [], hdr. split; [exact Eq|]. split; [exact W|]. split; [exact G|]. split; [exact A|]. split; [exact D|].
    split; [cbn; rewrite A, B; reflexivity|]. intros E O k. unfold text. cbn. unfold ind. apply m_white; [apply (lex_spaces k 0)|]. apply M. exact O.
  Qed.
  Lemma fold_and {A} (Q : A -> Prop) l : fold_right and True (map Q l) -> Forall Q l.
  Proof. induction l as [|a l IH]; cbn; constructor; tauto. Qed.

  Lemma reloaded_name (e : elem F) : elem_name (reloaded e) = elem_name e.
  Proof. destruct e; reflexivity. Qed.

  Theorem all_dumps : forall e, dumps e.
  Proof.
    apply elem_induction.
    - intros b s d W [Sb Hs] [HB HN]. destruct s as [l|p q|p q r|p q]; cbn [dump_el dump_leaf]; cbn in HN.
      + destruct (dump_elem_spec "ElemCurve" b [] (Some "control_points") d W HB) as (d1 & pre & -> & W1 & S1 & G1 & A1). cbn [map app join].
        set (hdr := "ElemCurve" ++ "(" ++ pre ++ ("control_points" ++ "=[") ++ "").
        unfold nested. cbn [bind]. rewrite fold_append. cbn [bind].
        destruct S1 as (Dp & Ln & Us & Im).
        eexists _, (("ElemCurve" ++ "(" ++ pre ++ "control_points" ++ "=[") :: map (ind 1) (map (fun c => repr_cp show c ++ ",") l)), "])".
        split; [reflexivity|]. split; [exact W1|]. split; [exact G1|]. split; [exact Dp|]. split; [exact Im|]. split.
        * unfold d_append, with_lines, set_depth. cbn [d_depth d_lines d_vars d_prefixes d_use d_imports Nat.pred map]. rewrite Dp, Ln, map_ind, Nat.add_1_r. unfold hdr. rewrite sapp_nil_r.
          rewrite <- !app_assoc. reflexivity.
        * intros E O k. assert (O1 : env_ok E d1) by exact O. eapply bracket_means; eauto; [apply O|intros; apply cps_args; auto; apply O|]. now apply call_curve.
      + destruct (dump_elem_spec "ElemRectangle" b [("p1", repr_pt show p); ("p2", repr_pt show q)] None d W HB) as (d1 & pre & Eq & W1 & S1 & G1 & A1).
        eapply (line_dumps d d1 _ (ELeaf b (SRect p q))); eauto; [|cbn [dump_el dump_leaf]; rewrite Eq; reflexivity]. intros E O. apply box_means with (b := b) (l := [(Some "p1", VPoint p); (Some "p2", VPoint q)]); auto; [apply O| |now apply call_rect].
        cbn [map fst snd app join]. apply args_assoc. apply kw_args; auto; [apply m_pt; [apply O|apply HN]|]. apply kw_last; auto. apply m_pt; [apply O|apply HN].
      + destruct (dump_elem_spec "ElemRectangleRounded" b [("p1", repr_pt show p); ("p2", repr_pt show q); ("radius", show r)] None d W HB) as (d1 & pre & Eq & W1 & S1 & G1 & A1).
        eapply (line_dumps d d1 _ (ELeaf b (SRRect p q r))); eauto; [|cbn [dump_el dump_leaf]; rewrite Eq; reflexivity]. intros E O. apply box_means with (b := b) (l := [(Some "p1", VPoint p); (Some "p2", VPoint q); (Some "radius", VNum r)]); auto; [apply O| |now apply call_rrect].
        cbn [map fst snd app join]. apply args_assoc. apply kw_args; auto; [apply m_pt; [apply O|apply HN]|]. apply args_assoc. apply kw_args; auto; [apply m_pt; [apply O|apply HN]|]. apply kw_last; auto. now apply m_num, HN.
      + destruct (dump_elem_spec "ElemEllipse" b [("p1", repr_pt show p); ("p2", repr_pt show q)] None d W HB) as (d1 & pre & Eq & W1 & S1 & G1 & A1).
        eapply (line_dumps d d1 _ (ELeaf b (SEllipse p q))); eauto; [|cbn [dump_el dump_leaf]; rewrite Eq; reflexivity]. intros E O. apply box_means with (b := b) (l := [(Some "p1", VPoint p); (Some "p2", VPoint q)]); auto; [apply O| |now apply call_ellipse].
        cbn [map fst snd app join]. apply args_assoc. apply kw_args; auto; [apply m_pt; [apply O|apply HN]|]. apply kw_last; auto. apply m_pt; [apply O|apply HN].
    - intros b h l p IH d W (Sb & N & Hm) [HB HN]. apply fold_and in Hm. apply fold_and in HN. cbn [dump_el].
      set (es := map snd (sorted by_name l)).
      assert (Hs : map snd (sorted by_name (map (fun ke => (fst ke, dump_el show (snd ke))) l)) = map (dump_el show) es).
      { rewrite (sorted_map by_name by_name (fun ke => (fst ke, dump_el show (snd ke)))) by reflexivity. unfold es. now rewrite !map_map. }
      rewrite Hs. clear Hs.
      assert (Hr : reloaded (EGroup b h l p) = EGroup (reload_base b) false (map (fun e => (elem_name e, e)) (map reloaded es)) []).
      { cbn [reloaded]. f_equal. rewrite (sorted_map by_name by_name (fun ke => (fst ke, reloaded (snd ke)))) by reflexivity. unfold es. rewrite !map_map.
        apply map_ext_in. intros ke I. rewrite Forall_forall in Hm. destruct (Hm ke) as (K & _); [eapply Permutation_in; [symmetry; apply sorted_perm|exact I]|]. now rewrite reloaded_name, K. }
      rewrite Hr. clear Hr.
      assert (Hp : Permutation (map snd l) es) by (unfold es; apply Permutation_map, sorted_perm).
      assert (Hes : Forall (fun e => dumps e /\ dumpable e /\ elem_in rb e) es).
      { eapply Permutation_Forall; [exact Hp|]. apply Forall_map. rewrite Forall_forall in *. intros ke I. split; [now apply IH|split; [now apply Hm|now apply HN]]. }
      assert (Hn : map elem_name (map snd l) = keys l).
      { unfold keys. rewrite map_map. apply map_ext_in. intros ke I. rewrite Forall_forall in Hm. symmetry. now apply Hm. }
      assert (Hnd : NoDup (map elem_name (map reloaded es))).
      { rewrite map_map. rewrite (map_ext _ _ reloaded_name). eapply Permutation_NoDup; [apply Permutation_map; exact Hp|]. now rewrite Hn. }
      assert (Hdot : Forall (fun e => has_dot (elem_name e) = false) (map reloaded es)).
      { apply Forall_map. eapply Permutation_Forall; [exact Hp|]. apply Forall_map. rewrite Forall_forall in *. intros ke I. rewrite reloaded_name. destruct (Hm ke I) as (<- & D & _). exact D. }
      destruct (dump_elem_spec "Group" b [] (Some "elems") d W HB) as (d1 & pre & -> & W1 & S1 & G1 & A1). cbn [map app join].
      set (hdr := "Group" ++ "(" ++ pre ++ ("elems" ++ "=[") ++ "").
      destruct (parts_dump es Hes (set_depth (S (d_depth (d_append hdr d1))) (d_append hdr d1)) W1) as (d2 & lines & P2 & W2 & G2 & Dp2 & Im2 & L2 & M2).
      unfold nested. rewrite P2. cbn [bind]. destruct S1 as (Dp & Ln & Us & Im).
      eexists _, (("Group" ++ "(" ++ pre ++ "elems" ++ "=[") :: map (ind 1) lines), "])".
      split; [reflexivity|]. split; [exact W2|]. split; [eapply grow_trans; [exact G1|exact G2]|].
      split; [cbn; rewrite Dp2; exact Dp|]. split; [cbn; rewrite Im2; exact Im|]. split.
      + unfold d_append at 1. cbn [d_lines d_depth with_lines set_depth]. rewrite L2, Dp2. unfold d_append, with_lines, set_depth. cbn [d_depth d_lines d_vars d_prefixes d_use d_imports Nat.pred map]. rewrite Dp, Ln, map_ind, Nat.add_1_r. unfold hdr. rewrite sapp_nil_r.
        rewrite <- !app_assoc. reflexivity.
      + intros E O k. assert (O2 : env_ok E d2) by exact O. assert (O1 : env_ok E d1) by (eapply env_ok_grow; [exact G2|exact O2]).
        eapply bracket_means with (vs := map (@VElem F) (map reloaded es)); eauto; [apply O| |].
        * intros k' w L. rewrite !map_map. specialize (M2 E O2 k' w L). rewrite !map_map in M2. exact M2.
        * now apply call_group.
    - intros b o i _ _ d W [] _.
  Qed.
End Elements.
