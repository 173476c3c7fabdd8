(* Lemmas for dumps: texts that can be read but not executed. *)
Require Import Verif.Base Verif.M_vector Verif.M_bbox Verif.M_transform Verif.M_bezier Verif.M_colors
  Verif.M_elems Verif.M_group Verif.S_group Verif.L_group Verif.M_dump Verif.S_dump Verif.L_dump Verif.L_dump2 Verif.L_dump3 Verif.L_dump4.
From Coq Require Import String Ascii List Lia Bool DecimalString Permutation Sorted.
Import ListNotations.
Local Open Scope list_scope.
Local Open Scope string_scope.

Section Fails.
  Context {F : Type} {NF : Num F}.
  Variables (show : F -> string) (num_of : string -> option F).
  Notation rb := (rb show num_of).
  Notation value := (@value F).
  Notation env := (list (string * value)).
  Notation Means := (Means num_of).
  Notation Args := (Args num_of).

  (* the text is an expression, and evaluating it raises *)
  Definition Fails (E : env) (s : string) : Prop := exists e ts, Lex s ts 0 0 /\ Parses e ts /\ eval num_of E e = None.
  Definition FArgs (E : env) (c : ascii) (s : string) : Prop := exists items ts,
    LexC s ts 1 0 /\ Items c items ts /\ all (arg_eval num_of E) items = None.

  Lemma f_call E f r : ident f = true -> FArgs E ")" r -> Fails E (f ++ "(" ++ r).
  Proof.
    intros Id (items & ts & Lx & It & Al). exists (ECall f items), (TName f :: TOp "(" :: ts). split; [|split; [now apply p_call|]].
    - apply LexC_Lex. change (TName f :: TOp "(" :: ts) with ([TName f] ++ (([TOp "("] ++ ts)))%list. eapply lex_oc; [now apply lex_ident| |reflexivity].
      eapply lex_cc; [apply lex_open|exact Lx].
    - cbn [S_dump.eval]. unfold arg_eval in Al. rewrite Al. now destruct (has_key f E).
  Qed.
  Lemma f_class E f r l : ident f = true -> Args E ")" r l -> call f l = None -> Fails E (f ++ "(" ++ r).
  Proof.
    intros Id (items & ts & Lx & It & Al) Cl. exists (ECall f items), (TName f :: TOp "(" :: ts). split; [|split; [now apply p_call|]].
    - apply LexC_Lex. change (TName f :: TOp "(" :: ts) with ([TName f] ++ (([TOp "("] ++ ts)))%list. eapply lex_oc; [now apply lex_ident| |reflexivity].
      eapply lex_cc; [apply lex_open|exact Lx].
    - cbn [S_dump.eval]. unfold arg_eval in Al. rewrite Al, Cl. now destruct (has_key f E).
  Qed.
  Lemma f_head E c k s sep r l : (c = ")" \/ c = "]")%char -> kw_ok k = true -> LexC sep [TOp ","] 1 1 -> soft sep = true ->
    Fails E s -> Args E c r l -> FArgs E c (kws k ++ s ++ sep ++ r).
  Proof.
    intros C K Ls So (e & ts & L & Pr & Ev) (items & ts' & L' & It & Al). exists ((k, e) :: items), ((kwt k ++ ts) ++ TOp "," :: ts')%list.
    split; [|split; [now apply i_cons|cbn; unfold arg_eval at 1; cbn; now rewrite Ev]].
    rewrite <- app_assoc. eapply lex_cc; [now apply lex_kw|]. change (TOp "," :: ts') with ([TOp ","] ++ ts')%list.
    eapply lex_oc; [exact (Lex_shift _ _ 0 0 1 L)|eapply lex_cc; [exact Ls|exact L']|destruct sep; [discriminate|exact So]].
  Qed.
  Lemma f_tail E c k s v sep r : (c = ")" \/ c = "]")%char -> kw_ok k = true -> LexC sep [TOp ","] 1 1 -> soft sep = true ->
    Means E s v -> FArgs E c r -> FArgs E c (kws k ++ s ++ sep ++ r).
  Proof.
    intros C K Ls So (e & ts & L & Pr & Ev) (items & ts' & L' & It & Al). exists ((k, e) :: items), ((kwt k ++ ts) ++ TOp "," :: ts')%list.
    split; [|split; [now apply i_cons|cbn; unfold arg_eval at 1; cbn; now rewrite Ev, Al]].
    rewrite <- app_assoc. eapply lex_cc; [now apply lex_kw|]. change (TOp "," :: ts') with ([TOp ","] ++ ts')%list.
    eapply lex_oc; [exact (Lex_shift _ _ 0 0 1 L)|eapply lex_cc; [exact Ls|exact L']|destruct sep; [discriminate|exact So]].
  Qed.
  Lemma f_white E w s : LexC w [] 0 0 -> Fails E s -> Fails E (w ++ s).
  Proof. intros W (e & ts & L & R). exists e, ts. split; [|exact R]. change ts with ([] ++ ts)%list. eapply lex_co; [exact W|exact L]. Qed.

  (* the repr of a simple element does not give the element back: its class wants a pen *)
  Lemma f_leaf E b s : plain E -> shape_in rb s -> Fails E (repr_leaf show b s).
  Proof.
    intros PE N. destruct s as [l|p q|p q r|p q]; cbn [repr_leaf]; cbn in N.
    - destruct l as [|c l].
      + apply (f_class E "ElemCurve" (repr_str (e_name b) ++ ", " ++ ")") [(None, VStr (e_name b))]); [reflexivity| |reflexivity].
        apply (a_cons num_of E ")" None _ _ ", "); auto using lex_comma, m_str. apply (a_nil num_of E ")" ""); auto. intros acc n; reflexivity.
      + inversion N as [|? ? Nc Nl]; subst.
        assert (A : Args E ")" (join ", " (map (repr_cp show) (c :: l)) ++ ")") (map (fun v => (None, v)) (map (@VCp F) (c :: l)))).
        { apply a_join; auto. clear Nc Nl. revert N. generalize (c :: l). intros l0 N. induction N; cbn [map]; constructor; [now apply m_cp|assumption]. }
        rewrite <- ?sapp_assoc. rewrite !sapp_assoc.
        apply (f_class E "ElemCurve" (repr_str (e_name b) ++ ", " ++ join ", " (map (repr_cp show) (c :: l)) ++ ")") ((None, VStr (e_name b)) :: map (fun v => (None, v)) (map (@VCp F) (c :: l)))); [reflexivity| |].
        * apply (a_cons num_of E ")" None _ _ ", "); auto using lex_comma, m_str.
        * cbn -[call]. clear.
          assert (P : forall r, exists o, bind_args ["name"; "penbrush"; "control_points"; "closed"; "xform"] ((None, VStr (e_name b)) :: (None, VCp c) :: map (fun v => (None, v)) r)%list = o /\
             forall x, o = Some x -> exists y, x = Some (VStr (e_name b)) :: Some (VCp c) :: y).
          { intros r. eexists. split; [reflexivity|]. intros x H. unfold bind_args in H. cbn [positional] in H.
            set (p := positional (map (fun v : value => (None, v)) r)) in *. destruct (keywords _); [|discriminate]. destruct (_ && _ && _); [|discriminate].
            injection H as <-. cbn. eauto. }
          destruct (P (map (@VCp F) l)) as (o & Eo & Ho). unfold call. cbn [String.eqb Ascii.eqb Bool.eqb]. rewrite Eo. destruct o as [x|]; [|reflexivity].
          destruct (Ho x eq_refl) as [y ->]. reflexivity.
    - apply (f_class E "ElemRectangle" (join ", " [repr_str (e_name b); repr_pt show p; repr_pt show q] ++ ")") (map (fun v => (None, v)) [VStr (e_name b); VPoint p; VPoint q])); [reflexivity| |reflexivity].
      apply a_join; auto. repeat constructor; [apply m_str|apply m_pt|apply m_pt]; auto; apply N.
    - apply (f_class E "ElemRectangleRounded" (join ", " [repr_str (e_name b); repr_pt show p; repr_pt show q; show r] ++ ")") (map (fun v => (None, v)) [VStr (e_name b); VPoint p; VPoint q; VNum r])); [reflexivity| |reflexivity].
      apply a_join; auto. repeat constructor; [apply m_str|apply m_pt|apply m_pt|apply m_num]; auto; apply N.
    - apply (f_class E "ElemEllipse" (join ", " [repr_str (e_name b); repr_pt show p; repr_pt show q] ++ ")") (map (fun v => (None, v)) [VStr (e_name b); VPoint p; VPoint q])); [reflexivity| |reflexivity].
      apply a_join; auto. repeat constructor; [apply m_str|apply m_pt|apply m_pt]; auto; apply N.
  Qed.

  (* ---------------- with holes anywhere ---------------- *)

  (* [Out E s r]: the text is an expression whose evaluation has the result r *)
  Definition Out (E : env) (s : string) (r : option value) : Prop := exists e ts, Lex s ts 0 0 /\ Parses e ts /\ eval num_of E e = r.
  Definition AOut (E : env) (c : ascii) (s : string) (r : option (list (option string * value))) : Prop := exists items ts,
    LexC s ts 1 0 /\ Items c items ts /\ all (arg_eval num_of E) items = r.
  Definition POut (E : env) (s : string) (r : option (list value)) : Prop := exists es ts,
    LexC s ts 1 0 /\ Items "]" (map (fun e => (None, e)) es) ts /\ all (eval num_of E) es = r.

  Lemma o_call E f r x : ident f = true -> AOut E ")" r x -> exists y, Out E (f ++ "(" ++ r) y /\ (x = None -> y = None).
  Proof.
    intros Id (items & ts & Lx & It & Al). eexists. split.
    - exists (ECall f items), (TName f :: TOp "(" :: ts). split; [|split; [now apply p_call|reflexivity]].
      apply LexC_Lex. change (TName f :: TOp "(" :: ts) with ([TName f] ++ (([TOp "("] ++ ts)))%list. eapply lex_oc; [now apply lex_ident| |reflexivity].
      eapply lex_cc; [apply lex_open|exact Lx].
    - intros ->. cbn [S_dump.eval]. unfold arg_eval in Al. rewrite Al. now destruct (has_key f E).
  Qed.
  Lemma ao_cons E c k s v sep r x : (c = ")" \/ c = "]")%char -> kw_ok k = true -> LexC sep [TOp ","] 1 1 -> soft sep = true ->
    Out E s v -> AOut E c r x -> exists y, AOut E c (kws k ++ s ++ sep ++ r) y /\ (v = None \/ x = None -> y = None).
  Proof.
    intros C K Ls So (e & ts & L & Pr & Ev) (items & ts' & L' & It & Al). eexists. split.
    - exists ((k, e) :: items), ((kwt k ++ ts) ++ TOp "," :: ts')%list. split; [|split; [now apply i_cons|reflexivity]].
      rewrite <- app_assoc. eapply lex_cc; [now apply lex_kw|]. change (TOp "," :: ts') with ([TOp ","] ++ ts')%list.
      eapply lex_oc; [exact (Lex_shift _ _ 0 0 1 L)|eapply lex_cc; [exact Ls|exact L']|destruct sep; [discriminate|exact So]].
    - intros H. cbn [all]. unfold arg_eval at 1. cbn [fst snd]. rewrite Ev, Al. destruct H as [-> | ->]; [reflexivity|now destruct v].
  Qed.
  Lemma ao_one E c k s v : (c = ")" \/ c = "]")%char -> kw_ok k = true -> Out E s v -> exists y, AOut E c (kws k ++ s ++ String c "") y /\ (v = None -> y = None).
  Proof.
    intros C K (e & ts & L & Pr & Ev). eexists. split.
    - exists [(k, e)], ((kwt k ++ ts) ++ [TOp c])%list. split; [|split; [now apply i_one|reflexivity]].
      rewrite <- app_assoc. eapply lex_cc; [now apply lex_kw|]. destruct (lex_close c C). eapply lex_oc; [exact (Lex_shift _ _ 0 0 1 L)| |]; auto.
    - intros H. cbn [all]. unfold arg_eval. cbn [fst snd]. now rewrite Ev, H.
  Qed.
  Lemma po_nil E w : LexC w [] 1 1 -> POut E (w ++ "]") (Some []).
  Proof.
    intros W. exists [], [TOp "]"]. split; [|split; [apply i_nil|reflexivity]]. change [TOp "]"] with ([] ++ [TOp "]"])%list. eapply lex_cc; [exact W|]. apply (lex_close "]"). now right.
  Qed.
  Lemma po_cons E k s v r x : Out E s v -> POut E r x -> exists y, POut E (ind k s ++ "," ++ newline ++ r) y /\ (v = None \/ x = None -> y = None).
  Proof.
    intros (e & ts & L & Pr & Ev) (items & ts' & L' & It & Al). eexists. split.
    - exists (e :: items), (ts ++ TOp "," :: ts')%list. split; [|split; [apply (i_cons "]" None e ts); auto|reflexivity]].
      unfold ind. rewrite sapp_assoc. change (ts ++ TOp "," :: ts')%list with ([] ++ (ts ++ [TOp ","] ++ ts'))%list. eapply lex_cc; [apply (lex_spaces k 1)|].
      replace ("," ++ newline ++ r) with (("," ++ newline) ++ r) by (now rewrite sapp_assoc).
      eapply lex_oc; [exact (Lex_shift _ _ 0 0 1 L)|eapply lex_cc; [apply lex_comma_newline|exact L']|reflexivity].
    - intros H. cbn [all]. rewrite Ev, Al. destruct H as [-> | ->]; [reflexivity|now destruct v].
  Qed.
  Lemma po_white E w r x : LexC w [] 1 1 -> POut E r x -> POut E (w ++ r) x.
  Proof. intros W (items & ts & L & R). exists items, ts. split; [|exact R]. change ts with ([] ++ ts)%list. eapply lex_cc; eauto. Qed.
  Lemma o_list E r x : POut E r x -> exists y, Out E ("[" ++ r) y /\ (x = None -> y = None).
  Proof.
    intros (es & ts & L & It & Al). eexists. split.
    - exists (EList es), (TOp "[" :: ts). split; [|split; [now apply p_list|reflexivity]].
      apply LexC_Lex; change (TOp "[" :: ts) with ([TOp "["] ++ ts)%list; eapply lex_cc; [apply lex_open2|exact L].
    - intros ->. cbn [S_dump.eval]. now rewrite Al.
  Qed.
  Lemma o_white E w s r : LexC w [] 0 0 -> Out E s r -> Out E (w ++ s) r.
  Proof. intros W (e & ts & L & R). exists e, ts. split; [|exact R]. change ts with ([] ++ ts)%list. eapply lex_co; [exact W|exact L]. Qed.
  Lemma o_means E s v : Means E s v -> Out E s (Some v).
  Proof. auto. Qed.

  Notation wf := (wf show num_of true).
  Notation env_ok := (env_ok num_of).
  Lemma dump_elem_out cls b args final d : wf d -> base_in rb b -> exists d1 pre,
    dump_elem show cls b args final d =
      d_append (cls ++ "(" ++ pre ++ join ", " (map (fun kv => (fst kv ++ "=" ++ snd kv)%string) args ++ match final with Some k => [(k ++ "=[")%string] | None => [] end)%list
                 ++ match final with Some _ => "" | None => ")" end) d1 /\
    wf d1 /\ same_rest d d1 /\ grow d d1 /\
    forall E, env_ok E d1 -> forall r x, AOut E ")" r x -> exists y, AOut E ")" (pre ++ r) y /\ (x = None -> y = None).
  Proof.
    intros W [HB HX]. unfold dump_elem. rewrite add_imports_nil.
    destruct (set_var_wf show num_of true (repr_pb show (e_pb b)) "pen" d W) as (d1 & n & -> & W1 & S1 & G1 & I1); [left; eauto|].
    assert (K : forall E, env_ok E d1 -> forall r x, AOut E ")" r x ->
      exists y, AOut E ")" (repr_str (e_name b) ++ ", " ++ n ++ ", " ++ "closed=" ++ repr_bool (e_closed b) ++ ", " ++ r) y /\ (x = None -> y = None)).
    { intros E O r x A.
      destruct (ao_cons E ")" (Some "closed") (repr_bool (e_closed b)) (Some (VBool (e_closed b))) ", " r x) as (y1 & A1 & N1); auto using lex_comma; [apply o_means, m_bool|].
      destruct (ao_cons E ")" None n (Some (VPenBrush (e_pb b))) ", " ("closed=" ++ repr_bool (e_closed b) ++ ", " ++ r) y1) as (y2 & A2 & N2); auto using lex_comma.
      { apply o_means. eapply var_means; eauto. apply m_pb; auto. apply O. }
      destruct (ao_cons E ")" None (repr_str (e_name b)) (Some (VStr (e_name b))) ", " (n ++ ", " ++ "closed=" ++ repr_bool (e_closed b) ++ ", " ++ r) y2) as (y3 & A3 & N3); [now left|reflexivity|apply lex_comma|reflexivity|apply o_means, m_str|exact A2|].
      exists y3. split; [exact A3|]. intros Hx. apply N3. right. apply N2. right. apply N1. now right. }
    destruct (t_eqb (e_xform b) t_new) eqn:X; cbn [negb].
    - exists d1, (repr_str (e_name b) ++ ", " ++ n ++ ", " ++ "closed=" ++ repr_bool (e_closed b) ++ ", "). split; [|split; [exact W1|split; [exact S1|split; [exact G1|]]]].
      + f_equal. rewrite !sapp_assoc. cbn. rewrite !sapp_assoc. reflexivity.
      + intros E O r x A. rewrite !sapp_assoc. cbn [app]. now apply K.
    - destruct (set_var_wf show num_of true (repr_xf show (e_xform b)) "xform" d1 W1) as (d2 & xn & -> & W2 & S2 & G2 & I2); [right; eauto|].
      exists d2, (repr_str (e_name b) ++ ", " ++ n ++ ", " ++ "closed=" ++ repr_bool (e_closed b) ++ ", " ++ "xform=" ++ xn ++ ", ").
      split; [|split; [exact W2|split; [eapply same_rest_trans; eauto|split; [eapply grow_trans; eauto|]]]].
      + f_equal. rewrite !sapp_assoc. cbn. rewrite !sapp_assoc. reflexivity.
      + intros E O r x A. rewrite !sapp_assoc. cbn [app].
        destruct (ao_cons E ")" (Some "xform") xn (Some (VXf (plain_xf (e_xform b)))) ", " r x) as (y1 & A1 & N1); auto using lex_comma.
        { apply o_means. eapply var_means; eauto. apply m_xf; auto. apply O. }
        destruct (K E (env_ok_grow num_of E d1 d2 G2 O) _ y1 A1) as (y2 & A2 & N2). exists y2. split; [exact A2|]. intros Hx. apply N2, N1. now right.
  Qed.

  Definition reads (e : elem F) : Prop := forall d, wf d -> simple_outsides e -> elem_in rb e -> exists d' body last,
    dump_el show e d = Ok d' /\ wf d' /\ grow d d' /\ d_depth d' = d_depth d /\ d_imports d' = d_imports d /\
    d_lines d' = (d_lines d ++ map (ind (d_depth d)) body ++ [ind (d_depth d) last])%list /\
    forall E, env_ok E d' -> forall k, exists r, Out E (text k body last) r /\ (holed e = true -> r = None).

  Lemma parts_read : forall es, Forall (fun e => reads e /\ simple_outsides e /\ elem_in rb e) es -> forall d, wf d -> exists d' lines,
    dump_parts (map (dump_el show) es) d = Ok d' /\ wf d' /\ grow d d' /\ d_depth d' = d_depth d /\ d_imports d' = d_imports d /\
    d_lines d' = (d_lines d ++ map (ind (d_depth d)) lines)%list /\
    forall E, env_ok E d' -> forall k w, LexC w [] 1 1 ->
      exists r, POut E (unlines (map (ind k) lines) ++ w ++ "]") r /\ (existsb holed es = true -> r = None).
  Proof.
    induction es as [|e es IH]; intros H d W.
    - exists d, []. cbn [map dump_parts foldM]. repeat split; auto using grow_refl; try apply W; [now rewrite app_nil_r|].
      intros E O k w L. exists (Some []). split; [cbn; now apply po_nil|discriminate].
    - inversion H as [|? ? (H1 & H2 & H0) H3]; subst. destruct (H1 d W H2 H0) as (d1 & body & last & D1 & W1 & G1 & Dp1 & Im1 & L1 & M1).
      set (d2 := with_lines ((d_lines d ++ map (ind (d_depth d)) body) ++ [(ind (d_depth d) last ++ ",")%string])%list d1).
      assert (W2 : wf d2) by exact W1. destruct (IH H3 d2 W2) as (d3 & lines & D3 & W3 & G3 & Dp3 & Im3 & L3 & M3).
      exists d3, ((body ++ [(last ++ ",")%string]) ++ lines)%list. split; [|split; [exact W3|split; [eapply grow_trans; [exact G1|exact G3]|split; [now rewrite Dp3|split; [now rewrite Im3|split]]]]].
      + unfold dump_parts. cbn [map foldM]. rewrite D1. cbn [bind]. rewrite (add_comma_snoc (d_lines d ++ map (ind (d_depth d)) body)%list (ind (d_depth d) last)) by (rewrite L1; now rewrite app_assoc).
        cbn [bind]. exact D3.
      + rewrite L3. cbn [d_lines d2 with_lines d_depth]. rewrite Dp1, !map_app. cbn [map]. rewrite <- !app_assoc. cbn [app]. do 3 f_equal. unfold ind. now rewrite sapp_assoc.
      + intros E O k w L. rewrite !map_app, !unlines_app. cbn [map unlines fold_right]. rewrite !sapp_assoc.
        destruct (M1 E (env_ok_grow num_of E d1 d3 G3 O) k) as (r1 & O1 & N1). unfold text in O1.
        destruct (M3 E O k w L) as (r2 & O2 & N2).
        destruct (po_cons E 0 _ r1 _ r2 O1 O2) as (y & Oy & Ny). exists y.
        replace (unlines (map (ind k) body) ++ ind k (last ++ ",") ++ newline ++ "" ++ unlines (map (ind k) lines) ++ w ++ "]")
          with (ind 0 (unlines (map (ind k) body) ++ ind k last) ++ "," ++ newline ++ unlines (map (ind k) lines) ++ w ++ "]") by (unfold ind; cbn; rewrite !sapp_assoc; reflexivity).
        split; [exact Oy|]. cbn [existsb]. intros B. apply Ny. apply orb_prop in B as [B|B]; auto.
  Qed.

  (* a class with its parts in brackets; [mid] are arguments between the base and the parts *)
  Lemma bracket_out E k cls pre mid key lines (bad bad' : Prop) :
    ident cls = true -> ident key = true ->
    (forall r x, AOut E ")" r x -> exists y, AOut E ")" (pre ++ r) y /\ (x = None -> y = None)) ->
    (forall r x, AOut E ")" r x -> exists y, AOut E ")" (mid ++ r) y /\ (x = None \/ bad' -> y = None)) ->
    (forall k w, LexC w [] 1 1 -> exists r, POut E (unlines (map (ind k) lines) ++ w ++ "]") r /\ (bad -> r = None)) ->
    exists r, Out E (text k ((cls ++ "(" ++ pre ++ mid ++ key ++ "=[") :: map (ind 1) lines) "])") r /\ (bad \/ bad' -> r = None).
  Proof.
    intros Ic Ik Hp Hm Hl. unfold text. cbn [map unlines fold_right]. fold (unlines (map (ind k) (map (ind 1) lines))). rewrite map_ind.
    destruct (Hl (k + 1) (indent k)) as (r1 & O1 & N1); [apply (lex_spaces k 1)|].
    destruct (o_list E _ _ (po_white E newline _ _ lex_newline O1)) as (r2 & O2 & N2).
    destruct (ao_one E ")" (Some key) ("[" ++ newline ++ unlines (map (ind (k + 1)) lines) ++ indent k ++ "]") r2) as (r3 & O3 & N3); [now left|exact Ik|exact O2|].
    destruct (Hm _ _ O3) as (r4 & O4 & N4). destruct (Hp _ _ O4) as (r5 & O5 & N5). destruct (o_call E cls _ r5 Ic O5) as (r6 & O6 & N6).
    exists r6. split.
    - replace ((ind k (cls ++ "(" ++ pre ++ mid ++ key ++ "=[") ++ newline ++ unlines (map (ind (k + 1)) lines)) ++ ind k "])")
        with (indent k ++ (cls ++ "(" ++ pre ++ mid ++ kws (Some key) ++ ("[" ++ newline ++ unlines (map (ind (k + 1)) lines) ++ indent k ++ "]") ++ ")")).
      + apply o_white; [apply (lex_spaces k 0)|exact O6].
      + unfold ind, kws. rewrite !sapp_assoc. reflexivity.
    - intros [A|A]; apply N6, N5, N4; [left; apply N3, N2, N1, A|right; exact A].
  Qed.

  Lemma line_reads d d1 hdr e : wf d1 -> same_rest d d1 -> grow d d1 -> holed e = false ->
    (forall E, env_ok E d1 -> exists r, Out E hdr r) ->
    dump_el show e d = Ok (d_append hdr d1) ->
    exists d' body last, dump_el show e d = Ok d' /\ wf d' /\ grow d d' /\ d_depth d' = d_depth d /\ d_imports d' = d_imports d /\
    d_lines d' = (d_lines d ++ map (ind (d_depth d)) body ++ [ind (d_depth d) last])%list /\
    forall E, env_ok E d' -> forall k, exists r, Out E (text k body last) r /\ (holed e = true -> r = None).
  Proof.
    intros W (A & B & C & D) G Hh M Eq. exists (d_append hdr d1), [], hdr. split; [exact Eq|]. split; [exact W|]. split; [exact G|]. split; [exact A|]. split; [exact D|].
    split; [cbn; rewrite A, B; reflexivity|]. intros E O k. destruct (M E O) as [r Or]. exists r. split; [|rewrite Hh; discriminate].
    unfold text. cbn. unfold ind. apply o_white; [apply (lex_spaces k 0)|exact Or].
  Qed.
  Lemma box_out E cls pre args l : ident cls = true ->
    (forall r x, AOut E ")" r x -> exists y, AOut E ")" (pre ++ r) y /\ (x = None -> y = None)) ->
    Args E ")" (args ++ ")") l -> exists r, Out E (cls ++ "(" ++ pre ++ args ++ ")") r.
  Proof.
    intros I A B. destruct (A (args ++ ")") (Some l) B) as (y & O & _). destruct (o_call E cls _ y I O) as (r & Or & _). now exists r.
  Qed.
  Lemma cps_out E : plain E -> forall l k w, Forall (cp_in rb) l -> LexC w [] 1 1 ->
    exists r, POut E (unlines (map (ind k) (map (fun c => repr_cp show c ++ ",") l)) ++ w ++ "]") r.
  Proof.
    intros PE l k w N W. destruct (cps_args show num_of E PE l k w N W) as (items & ts & L & It & Al).
    destruct (all_none num_of E items _ Al) as (es & -> & A). exists (Some (map (@VCp F) l)), es, ts. auto.
  Qed.
  Lemma no_mid E : forall r x, AOut E ")" r x -> exists y, AOut E ")" ("" ++ r) y /\ (x = None \/ False -> y = None).
  Proof. intros r x A. exists x. split; [exact A|tauto]. Qed.

  Theorem all_read : forall e, reads e.
  Proof.
    apply elem_induction.
    - intros b s d W _ [HB HN]. destruct s as [l|p q|p q r|p q]; cbn in HN.
      + cbn [dump_el dump_leaf]. destruct (dump_elem_out "ElemCurve" b [] (Some "control_points") d W HB) as (d1 & pre & -> & W1 & S1 & G1 & A1). cbn [map app join].
        set (hdr := "ElemCurve" ++ "(" ++ pre ++ ("control_points" ++ "=[") ++ "").
        unfold nested. cbn [bind]. rewrite fold_append. cbn [bind].
        destruct S1 as (Dp & Ln & Us & Im).
        eexists _, (("ElemCurve" ++ "(" ++ pre ++ "" ++ "control_points" ++ "=[") :: map (ind 1) (map (fun c => repr_cp show c ++ ",") l)), "])".
        split; [reflexivity|]. split; [exact W1|]. split; [exact G1|]. split; [exact Dp|]. split; [exact Im|]. split.
        * unfold d_append, with_lines, set_depth. cbn [d_depth d_lines d_vars d_prefixes d_use d_imports Nat.pred map]. rewrite Dp, Ln, map_ind, Nat.add_1_r. unfold hdr. rewrite sapp_nil_r.
          rewrite <- !app_assoc. reflexivity.
        * intros E O k. assert (O1 : env_ok E d1) by exact O.
          destruct (bracket_out E k "ElemCurve" pre "" "control_points" (map (fun c => repr_cp show c ++ ",") l) False False) as (r & Or & _); auto using no_mid.
          { intros k' w L. destruct (cps_out E (proj1 O) l k' w HN L) as [r Or]. exists r. split; [exact Or|tauto]. }
          exists r. split; [exact Or|discriminate].
      + destruct (dump_elem_out "ElemRectangle" b [("p1", repr_pt show p); ("p2", repr_pt show q)] None d W HB) as (d1 & pre & Eq & W1 & S1 & G1 & A1).
        eapply (line_reads d d1 _ (ELeaf b (SRect p q))); eauto; [|cbn [dump_el dump_leaf]; rewrite Eq; reflexivity]. intros E O. apply box_out with (l := [(Some "p1", VPoint p); (Some "p2", VPoint q)]); auto.
        cbn [map fst snd app join]. apply args_assoc. apply kw_args; auto; [apply m_pt; [apply O|apply HN]|]. apply kw_last; auto. apply m_pt; [apply O|apply HN].
      + destruct (dump_elem_out "ElemRectangleRounded" b [("p1", repr_pt show p); ("p2", repr_pt show q); ("radius", show r)] None d W HB) as (d1 & pre & Eq & W1 & S1 & G1 & A1).
        eapply (line_reads d d1 _ (ELeaf b (SRRect p q r))); eauto; [|cbn [dump_el dump_leaf]; rewrite Eq; reflexivity]. intros E O. apply box_out with (l := [(Some "p1", VPoint p); (Some "p2", VPoint q); (Some "radius", VNum r)]); auto.
        cbn [map fst snd app join]. apply args_assoc. apply kw_args; auto; [apply m_pt; [apply O|apply HN]|]. apply args_assoc. apply kw_args; auto; [apply m_pt; [apply O|apply HN]|]. apply kw_last; auto. now apply m_num, HN.
      + destruct (dump_elem_out "ElemEllipse" b [("p1", repr_pt show p); ("p2", repr_pt show q)] None d W HB) as (d1 & pre & Eq & W1 & S1 & G1 & A1).
        eapply (line_reads d d1 _ (ELeaf b (SEllipse p q))); eauto; [|cbn [dump_el dump_leaf]; rewrite Eq; reflexivity]. intros E O. apply box_out with (l := [(Some "p1", VPoint p); (Some "p2", VPoint q)]); auto.
        cbn [map fst snd app join]. apply args_assoc. apply kw_args; auto; [apply m_pt; [apply O|apply HN]|]. apply kw_last; auto. apply m_pt; [apply O|apply HN].
    - intros b h l p IH d W Hm [HB HN]. cbn [simple_outsides] in Hm. apply fold_and in Hm. apply fold_and in HN. cbn [dump_el].
      set (es := map snd (sorted by_name l)).
      assert (Hs : map snd (sorted by_name (map (fun ke => (fst ke, dump_el show (snd ke))) l)) = map (dump_el show) es).
      { rewrite (sorted_map by_name by_name (fun ke => (fst ke, dump_el show (snd ke)))) by reflexivity. unfold es. now rewrite !map_map. }
      rewrite Hs. clear Hs.
      assert (Hp : Permutation (map snd l) es) by (unfold es; apply Permutation_map, sorted_perm).
      assert (Hes : Forall (fun e => reads e /\ simple_outsides e /\ elem_in rb e) es).
      { eapply Permutation_Forall; [exact Hp|]. apply Forall_map. rewrite Forall_forall in *. intros ke I. split; [now apply IH|split; [now apply Hm|now apply HN]]. }
      assert (Hh : holed (EGroup b h l p) = true -> existsb holed es = true).
      { cbn [holed]. rewrite !existsb_exists. intros (ke & I & Q). exists (snd ke). split; [|exact Q]. eapply Permutation_in; [exact Hp|]. now apply in_map. }
      destruct (dump_elem_out "Group" b [] (Some "elems") d W HB) as (d1 & pre & -> & W1 & S1 & G1 & A1). cbn [map app join].
      set (hdr := "Group" ++ "(" ++ pre ++ ("elems" ++ "=[") ++ "").
      destruct (parts_read es Hes (set_depth (S (d_depth (d_append hdr d1))) (d_append hdr d1)) W1) as (d2 & lines & P2 & W2 & G2 & Dp2 & Im2 & L2 & M2).
      unfold nested. rewrite P2. cbn [bind]. destruct S1 as (Dp & Ln & Us & Im).
      eexists _, (("Group" ++ "(" ++ pre ++ "" ++ "elems" ++ "=[") :: map (ind 1) lines), "])".
      split; [reflexivity|]. split; [exact W2|]. split; [eapply grow_trans; [exact G1|exact G2]|].
      split; [cbn; rewrite Dp2; exact Dp|]. split; [cbn; rewrite Im2; exact Im|]. split.
      + unfold d_append at 1. cbn [d_lines d_depth with_lines set_depth]. rewrite L2, Dp2. unfold d_append, with_lines, set_depth. cbn [d_depth d_lines d_vars d_prefixes d_use d_imports Nat.pred map]. rewrite Dp, Ln, map_ind, Nat.add_1_r. unfold hdr. rewrite sapp_nil_r.
        rewrite <- !app_assoc. reflexivity.
      + intros E O k. assert (O2 : env_ok E d2) by exact O. assert (O1 : env_ok E d1) by (eapply env_ok_grow; [exact G2|exact O2]).
        destruct (bracket_out E k "Group" pre "" "elems" lines (existsb holed es = true) False) as (r & Or & Nr); auto using no_mid.
        exists r. split; [exact Or|]. intros B. apply Nr. left. now apply Hh.
    - intros b o i _ IH d W [Ho Hm] (HB & HO & HN). apply fold_and in Hm. apply fold_and in HN. destruct o as [ob os| |]; try (destruct Ho; fail). cbn [dump_el].
      assert (Hes : Forall (fun e => reads e /\ simple_outsides e /\ elem_in rb e) i).
      { rewrite Forall_forall in *. intros e I. auto. }
      destruct (dump_elem_out "ElemWithHoles" b [("outside", repr_elem show (ELeaf ob os))] (Some "inside") d W HB) as (d1 & pre & -> & W1 & S1 & G1 & A1). cbn [map app join fst snd].
      set (mid := "outside=" ++ repr_elem show (ELeaf ob os) ++ ", ").
      set (hdr := "ElemWithHoles" ++ "(" ++ pre ++ _ ++ "").
      assert (Eh : hdr = "ElemWithHoles" ++ "(" ++ pre ++ mid ++ "inside" ++ "=[").
      { unfold hdr, mid. cbn [join]. rewrite !sapp_nil_r, !sapp_assoc. reflexivity. }
      destruct (parts_read i Hes (set_depth (S (d_depth (d_append hdr d1))) (d_append hdr d1)) W1) as (d2 & lines & P2 & W2 & G2 & Dp2 & Im2 & L2 & M2).
      unfold nested. rewrite P2. cbn [bind]. destruct S1 as (Dp & Ln & Us & Im).
      eexists _, (hdr :: map (ind 1) lines), "])".
      split; [reflexivity|]. split; [exact W2|]. split; [eapply grow_trans; [exact G1|exact G2]|].
      split; [cbn; rewrite Dp2; exact Dp|]. split; [cbn; rewrite Im2; exact Im|]. split.
      + unfold d_append at 1. cbn [d_lines d_depth with_lines set_depth]. rewrite L2, Dp2. unfold d_append, with_lines, set_depth. cbn [d_depth d_lines d_vars d_prefixes d_use d_imports Nat.pred map]. rewrite Dp, Ln, map_ind, Nat.add_1_r.
        rewrite <- !app_assoc. reflexivity.
      + intros E O k. assert (O2 : env_ok E d2) by exact O. assert (O1 : env_ok E d1) by (eapply env_ok_grow; [exact G2|exact O2]).
        rewrite Eh. destruct (bracket_out E k "ElemWithHoles" pre mid "inside" lines (existsb holed i = true) True) as (r & Or & Nr); auto.
        * intros r x A. destruct (ao_cons E ")" (Some "outside") (repr_elem show (ELeaf ob os)) None ", " r x) as (y & Oy & Ny); auto using lex_comma.
          { apply f_leaf; [apply O|apply HO]. }
          exists y. split; [|auto]. unfold mid. rewrite !sapp_assoc. exact Oy.
        * exists r. split; [exact Or|]. auto.
  Qed.

  Theorem load_fails e : simple_outsides e -> elem_in rb e -> holed e = true -> exists s, dump_text show e = Ok s /\ load num_of s = None.
  Proof.
    intros D N Hh. destruct (all_read e (dump_new true) (wf_new show num_of true) D N) as (d & body & last & Eq & (U & (K1 & K2 & V) & W) & G & _ & Im & L & M).
    cbn [dump_new d_depth d_imports d_lines app] in *. unfold dump_text. rewrite Eq. cbn [bind].
    set (vars := sorted (fun a b => if (snd a =? snd b)%string then str_leb (fst a) (fst b) else str_leb (snd a) (snd b)) (d_vars d)).
    assert (Pv : Permutation (d_vars d) vars) by apply sorted_perm.
    destruct (vars_of show num_of d W vars) as (l & vs & El & Fo); [intros x I; eapply Permutation_in; [symmetry; exact Pv|exact I]|].
    assert (L' : d_lines d = (body ++ [last])%list) by (rewrite L; unfold ind; cbn; f_equal; rewrite <- (map_id body) at 2; now apply map_ext).
    exists (unlines (default_imports ++ [""])%list ++ unlines (map (fun s => s_name s ++ " = " ++ s_text s) l) ++ newline ++ "model = " ++ text 0 body last). split.
    - unfold output. fold vars. assert (Hm : map (fun s => s_name s ++ " = " ++ s_text s) l = map (fun vn => snd vn ++ " = " ++ fst vn)%string vars) by (rewrite <- El, map_map; reflexivity).
      rewrite Hm, <- (output_text vars default_imports body last), Im, L'. destruct (body ++ [last])%list eqn:B; [destruct body; discriminate|]. reflexivity.
    - assert (Nn : NoDup (map s_name l)).
      { assert (map s_name l = map snd vars) as -> by (rewrite <- El, map_map; reflexivity). eapply Permutation_NoDup; [apply Permutation_map; exact Pv|exact K2]. }
      assert (Henv : forall E, plain E -> Forall2 (fun s v => find_key (s_name s) E = Some v) l vs -> env_ok E d).
      { intros E PE New. split; [exact PE|]. intros r n I. assert (Iv : In (r, n) vars) by (eapply Permutation_in; eauto). clear - El Fo New Iv PE.
        rewrite <- El in Iv. clear El. revert New Iv. induction Fo as [|s v l vs (A & B & C) Fo IH]; intros New Iv; [destruct Iv|]. inversion New; subst.
        destruct Iv as [Eq|Iv]; [injection Eq as <- <-; exists v; auto|auto]. }
      destruct (exec_vars num_of l vs [] Fo Nn) as (E0 & Ex & PE0 & _ & New0); [intros k []|].
      destruct (M E0 (Henv E0 PE0 New0) 0) as (r & (me & mts & Lm & Pm & Ev) & Nr). rewrite (Nr Hh) in Ev.
      set (m := Stm "model" (text 0 body last) mts me).
      assert (Om : stm_ok m) by (repeat split; auto; try discriminate; apply Pm).
      assert (Ol : Forall stm_ok l) by (clear - Fo; induction Fo as [|s v l vs (A & _) _ IH]; constructor; auto).
      assert (Oa : Forall stm_ok (l ++ [m])%list) by (apply Forall_app; split; [exact Ol|constructor; [exact Om|constructor]]).
      unfold load, lex. rewrite lexes_app, lex_imports, lexes_app, (lex_stms l _ Ol), lexes_app.
      change (lexes (Lexer (rev (stm_tokens l) ++ rev import_tokens)%list Idle 0 true) newline) with (Some (Lexer (rev (stm_tokens l) ++ rev import_tokens)%list Idle 0 true)).
      destruct (lex_stmt "model" (text 0 body last) mts (rev (stm_tokens l) ++ rev import_tokens)%list eq_refl Lm) as (st & A & B).
      change ("model = " ++ text 0 body last) with ("model" ++ " = " ++ text 0 body last). rewrite A. cbv zeta. rewrite B. cbn [l_mode l_depth l_bol l_toks Nat.eqb].
      assert (T : rev (TNewline :: rev (TName "model" :: TOp "=" :: mts) ++ rev (stm_tokens l) ++ rev import_tokens)%list = (import_tokens ++ stm_tokens (l ++ [m]))%list).
      { cbn [rev]. rewrite !rev_app_distr, !rev_involutive. unfold stm_tokens. rewrite flat_map_app. cbn [flat_map s_name s_toks m]. unfold stmt. cbn [rev app]. rewrite <- !app_assoc. cbn [app]. reflexivity. }
      rewrite T. set (toks := (import_tokens ++ stm_tokens (l ++ [m]))%list).
      assert (Lt : List.length toks + 1 = 7 + (22 + List.length (stm_tokens (l ++ [m]))) + (List.length import_tokens + 1 - 29)) by (unfold toks; rewrite app_length; cbn; lia).
      rewrite Lt. unfold toks. rewrite <- Nat.add_assoc, parse_imports, parse_stms; [|exact Oa|cbn; lia].
      rewrite map_app, exec_app, Ex. cbn [map exec s_name s_expr m]. now rewrite Ev.
  Qed.
End Fails.
