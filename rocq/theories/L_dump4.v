(* Lemmas for dumps: executing the whole text. *)
Require Import Verif.Base Verif.M_vector Verif.M_bbox Verif.M_transform Verif.M_bezier Verif.M_colors
  Verif.M_elems Verif.M_group Verif.S_group Verif.L_group Verif.M_dump Verif.S_dump Verif.L_dump Verif.L_dump2 Verif.L_dump3.
From Coq Require Import String Ascii List Lia Bool DecimalString Permutation Sorted.
Import ListNotations.
Local Open Scope list_scope.
Local Open Scope string_scope.

Definition import_tokens : list token := Eval vm_compute in
  match lexes (Lexer [] Idle 0 true) (unlines (default_imports ++ [""])%list) with Some l => rev (l_toks l) | None => [] end.
Lemma lex_imports : lexes (Lexer [] Idle 0 true) (unlines (default_imports ++ [""])%list) = Some (Lexer (rev import_tokens) Idle 0 true).
Proof. vm_compute. reflexivity. Qed.
Lemma parse_imports fuel rest : parse_program (7 + fuel) (import_tokens ++ rest)%list = parse_program (3 + fuel) rest.
Proof. reflexivity. Qed.

Definition stmt (n : string) (ts : list token) : list token := (TName n :: TOp "=" :: ts ++ [TNewline])%list.
Lemma lex_stmt n r ts acc : ident n = true -> Lex r ts 0 0 -> exists st,
  lexes (Lexer acc Idle 0 true) (n ++ " = " ++ r) = Some st /\ flush st = Lexer (rev (TName n :: TOp "=" :: ts) ++ acc)%list Idle 0 false.
Proof.
  intros I L. destruct (L (TOp "=" :: TName n :: acc) 0%nat) as (st & A & B). exists st. split.
  - rewrite lexes_app, lexes_ident by exact I. cbn -[lexes]. change (String " " (String "=" (String " " r))) with (" = " ++ r). rewrite lexes_app.
    change (lexes (Lexer acc (InName n) 0 false) " = ") with (Some (Lexer (TOp "=" :: TName n :: acc) Idle 0 false)). exact A.
  - rewrite B. cbn [rev]. rewrite <- !app_assoc. reflexivity.
Qed.
Lemma lex_line n r ts acc : ident n = true -> Lex r ts 0 0 ->
  lexes (Lexer acc Idle 0 true) ((n ++ " = " ++ r) ++ newline) = Some (Lexer (rev (stmt n ts) ++ acc)%list Idle 0 true).
Proof.
  intros I L. destruct (lex_stmt n r ts acc I L) as (st & A & B). rewrite lexes_app, A. rewrite lexes_soft; [|now rewrite B|reflexivity]. rewrite B. cbn [lexes newline].
  unfold stmt. cbn [rev]. rewrite rev_app_distr. reflexivity.
Qed.

(* the statements of a program: name, text, tokens, expression *)
Record stm := Stm { s_name : string; s_text : string; s_toks : list token; s_expr : pexpr }.
Definition stm_ok (s : stm) : Prop := ident (s_name s) = true /\ s_name s <> "from" /\ Lex (s_text s) (s_toks s) 0 0 /\ Parses (s_expr s) (s_toks s).
Definition stm_tokens (l : list stm) : list token := flat_map (fun s => stmt (s_name s) (s_toks s)) l.
Lemma lex_stms : forall l acc, Forall stm_ok l ->
  lexes (Lexer acc Idle 0 true) (unlines (map (fun s => s_name s ++ " = " ++ s_text s) l)) = Some (Lexer (rev (stm_tokens l) ++ acc)%list Idle 0 true).
Proof.
  induction l as [|s l IH]; intros acc H; [reflexivity|]. inversion H as [|? ? (I & _ & L & _) H2]; subst. cbn [map unlines fold_right]. fold (unlines (map (fun s => s_name s ++ " = " ++ s_text s) l)).
  rewrite <- sapp_assoc, lexes_app, (lex_line _ _ _ acc I L), (IH _ H2). unfold stm_tokens. cbn [flat_map]. now rewrite rev_app_distr, <- app_assoc.
Qed.
Lemma parse_assign v r fuel : v <> "from" -> parse_program (S fuel) (TName v :: TOp "=" :: r) =
  match parse_expr fuel r with
  | Some (e, TNewline :: r) => match parse_program fuel r with Some l => Some ((v, e) :: l) | None => None end
  | _ => None
  end.
Proof.
  intros N. cbn [parse_program].
  destruct v as [|a v]; [reflexivity|]. destruct a as [[] [] [] [] [] [] [] []]; try reflexivity.
  destruct v as [|a v]; [reflexivity|]. destruct a as [[] [] [] [] [] [] [] []]; try reflexivity.
  destruct v as [|a v]; [reflexivity|]. destruct a as [[] [] [] [] [] [] [] []]; try reflexivity.
  destruct v as [|a v]; [reflexivity|]. destruct a as [[] [] [] [] [] [] [] []]; try reflexivity.
  destruct v as [|a v]; [contradiction N; reflexivity|reflexivity].
Qed.
Lemma parse_stms : forall l fuel, Forall stm_ok l -> List.length (stm_tokens l) < fuel ->
  parse_program fuel (stm_tokens l) = Some (map (fun s => (s_name s, s_expr s)) l).
Proof.
  induction l as [|s l IH]; intros fuel H Lf; (destruct fuel as [|fuel]; [lia|]); [reflexivity|].
  inversion H as [|? ? (I & N & L & [_ Pr]) H2]; subst. change (stm_tokens (s :: l)) with (stmt (s_name s) (s_toks s) ++ stm_tokens l)%list in *.
  unfold stmt in *. cbn [app List.length] in *. rewrite <- app_assoc in *. rewrite app_length in Lf. cbn [app List.length] in Lf.
  rewrite parse_assign by exact N. rewrite Pr; [|lia|exact I0 || exact Logic.I]. cbn [app]. rewrite IH; [reflexivity|exact H2|lia].
Qed.

Section Load.
  Context {F : Type} {NF : Num F}.
  Variables (show : F -> string) (num_of : string -> option F).
  Notation rb := (rb show num_of).
  Notation value := (@value F).
  Notation env := (list (string * value)).
  Notation Means := (Means num_of).

  Lemma means_expr E s v e ts : Means E s v -> Lex s ts 0 0 -> Parses e ts -> eval num_of E e = Some v.
  Proof.
    intros (e' & ts' & L' & [_ Pr'] & Ev') L [_ Pr].
    destruct (L [] 0) as (st & A & B), (L' [] 0) as (st' & A' & B'). rewrite A in A'. injection A' as <-. rewrite B in B'. injection B' as B'.
    rewrite !app_nil_r in B'. apply (f_equal (@rev _)) in B'. rewrite !rev_involutive in B'. subst ts'.
    specialize (Pr [] (S (List.length ts)) (Nat.lt_succ_diag_r _) I). rewrite (Pr' [] (S (List.length ts)) (Nat.lt_succ_diag_r _) I) in Pr. injection Pr as ->. exact Ev'.
  Qed.

  (* a variable and its value *)
  Definition var_stm (s : stm) (v : value) : Prop := stm_ok s /\ first_in "px" (s_name s) = true /\ forall E, plain E -> Means E (s_text s) v.
  Lemma plain_cons (E : env) n v : plain E -> first_in "px" n = true -> plain ((n, v) :: E).
  Proof. intros PE H k [<-|I]; auto. Qed.
  Lemma exec_vars : forall l vs E, Forall2 var_stm l vs -> NoDup (map s_name l) -> plain E -> exists E',
    exec num_of E (map (fun s => (s_name s, s_expr s)) l) = Some E' /\ plain E' /\
    (forall k, ~ In k (map s_name l) -> find_key k E' = find_key k E) /\
    Forall2 (fun s v => find_key (s_name s) E' = Some v) l vs.
  Proof.
    intros l vs E H. revert E. induction H as [|s v l vs (Ok & Fi & Me) H IH]; intros E N PE.
    - exists E. repeat split; auto.
    - inversion N as [|? ? N1 N2]; subst. destruct (IH ((s_name s, v) :: E) N2 (plain_cons E _ v PE Fi)) as (E' & Ex & PE' & Old & New).
      exists E'. destruct Ok as (_ & _ & L & Pr). cbn [map exec]. rewrite (means_expr E _ v _ _ (Me E PE) L Pr). split; [exact Ex|]. split; [exact PE'|]. split.
      + intros k K. cbn in K. rewrite Old by tauto. cbn. destruct (String.eqb_spec k (s_name s)) as [->|_]; [tauto|reflexivity].
      + constructor; [|exact New]. rewrite Old by exact N1. cbn. now rewrite String.eqb_refl.
  Qed.
  Lemma exec_app : forall a b E, exec num_of E (a ++ b)%list = match exec num_of E a with Some E' => exec num_of E' b | None => None end.
  Proof. induction a as [|[n e] a IH]; intros b E; cbn; [reflexivity|]. destruct (eval num_of E e); auto. Qed.

  Lemma var_of d r n : vals_ok show num_of d -> In (r, n) (d_vars d) -> exists s v, s_name s = n /\ s_text s = r /\ var_stm s v.
  Proof.
    intros V I. assert (exists v, forall E, plain E -> Means E r v) as [v Hv].
    { destruct (V _ _ I) as [[(p & Hp & ->) _]|[(t & Ht & ->) _]]; eexists; intros E PE; [now apply m_pb|now apply m_xf]. }
    destruct (Hv []) as (e & ts & L & Pr & _); [intros k []|]. exists (Stm n r ts e), v. repeat split; auto; cbn; try apply Pr.
    - destruct (V _ _ I) as [[_ [k ->]]|[_ [k ->]]]; now apply ident_var.
    - destruct (V _ _ I) as [[_ [k ->]]|[_ [k ->]]]; discriminate.
    - destruct (V _ _ I) as [[_ [k ->]]|[_ [k ->]]]; reflexivity.
  Qed.
  Lemma vars_of d : vals_ok show num_of d -> forall vars, (forall x, In x vars -> In x (d_vars d)) -> exists l vs,
    map (fun s => (s_text s, s_name s)) l = vars /\ Forall2 var_stm l vs.
  Proof.
    intros V. induction vars as [|[r n] vars IH]; intros H; [exists [], []; split; constructor|].
    destruct IH as (l & vs & E & Fo); [intros x I; apply H; now right|]. destruct (var_of d r n V) as (s & v & <- & <- & Hs); [apply H; now left|].
    exists (s :: l), (v :: vs). split; [cbn; now rewrite E|now constructor].
  Qed.

  Lemma output_text vars imports body last :
    join newline ((imports ++ [""] ++ map (fun vn => snd vn ++ " = " ++ fst vn)%string vars ++ [""]) ++
      match (body ++ [last])%list with [] => [] | s :: l => ("model = " ++ s)%string :: l end)%list =
    unlines (imports ++ [""])%list ++ unlines (map (fun vn => snd vn ++ " = " ++ fst vn)%string vars) ++ newline ++ "model = " ++ text 0 body last.
  Proof.
    assert (T : text 0 body last = unlines body ++ last) by (unfold text; f_equal; f_equal; rewrite <- (map_id body) at 2; now apply map_ext). rewrite T.
    assert (H : forall pre : list string, join newline (pre ++ match (body ++ [last])%list with [] => [] | s :: l => ("model = " ++ s)%string :: l end)%list = unlines pre ++ "model = " ++ unlines body ++ last).
    { intros pre. destruct body as [|s body]; cbn [app].
      - now rewrite join_lines.
      - change (("model = " ++ s)%string :: body ++ [last])%list with ((("model = " ++ s)%string :: body) ++ [last])%list. rewrite app_assoc, join_lines, unlines_app, sapp_assoc. reflexivity. }
    rewrite H. rewrite !unlines_app. change (unlines [""]) with newline. rewrite !sapp_assoc. reflexivity.
  Qed.

  Lemma load_program l vs me mts v : Forall2 var_stm l vs -> NoDup (map s_name l) -> forall mt,
    Lex mt mts 0 0 -> Parses me mts ->
    (forall E, plain E -> Forall2 (fun s v => find_key (s_name s) E = Some v) l vs -> eval num_of E me = Some (VElem v)) ->
    load num_of (unlines (default_imports ++ [""])%list ++ unlines (map (fun s => s_name s ++ " = " ++ s_text s) l) ++ newline ++ "model = " ++ mt) = Some v.
  Proof.
    intros H N mt L Pr Ev. set (m := Stm "model" mt mts me).
    assert (Om : stm_ok m) by (repeat split; auto; try discriminate; apply Pr).
    assert (Ol : Forall stm_ok l) by (clear - H; induction H as [|s v l vs (A & _) _ IH]; constructor; auto).
    assert (Oa : Forall stm_ok (l ++ [m])%list) by (apply Forall_app; split; [exact Ol|constructor; [exact Om|constructor]]).
    unfold load, lex. rewrite lexes_app, lex_imports, lexes_app, (lex_stms l _ Ol), lexes_app.
    change (lexes (Lexer (rev (stm_tokens l) ++ rev import_tokens)%list Idle 0 true) newline) with (Some (Lexer (rev (stm_tokens l) ++ rev import_tokens)%list Idle 0 true)).
    destruct (lex_stmt "model" mt mts (rev (stm_tokens l) ++ rev import_tokens)%list eq_refl L) as (st & A & B).
    change ("model = " ++ mt) with ("model" ++ " = " ++ mt). rewrite A. cbv zeta. rewrite B. cbn [l_mode l_depth l_bol l_toks Nat.eqb].
    assert (T : rev (TNewline :: rev (TName "model" :: TOp "=" :: mts) ++ rev (stm_tokens l) ++ rev import_tokens)%list = (import_tokens ++ stm_tokens (l ++ [m]))%list).
    { cbn [rev]. rewrite !rev_app_distr, !rev_involutive. unfold stm_tokens. rewrite flat_map_app. cbn [flat_map s_name s_toks m]. unfold stmt. cbn [rev app]. rewrite <- !app_assoc. cbn [app]. reflexivity. }
    rewrite T. set (toks := (import_tokens ++ stm_tokens (l ++ [m]))%list).
    assert (Lt : List.length toks + 1 = 7 + (22 + List.length (stm_tokens (l ++ [m]))) + (List.length import_tokens + 1 - 29)) by (unfold toks; rewrite app_length; cbn; lia).
    rewrite Lt. unfold toks. rewrite <- Nat.add_assoc, parse_imports, parse_stms; [|exact Oa|cbn; lia].
    rewrite map_app, exec_app. destruct (exec_vars l vs [] H N) as (E' & -> & PE' & _ & New); [intros k []|].
    cbn [map exec s_name s_expr m]. rewrite (Ev E' PE' New). reflexivity.
  Qed.

  Theorem load_dump e : dumpable e -> elem_in rb e -> exists s, dump_text show e = Ok s /\ load num_of s = Some (reloaded e).
  Proof.
    intros D N. destruct (all_dumps show num_of true e (dump_new true) (wf_new show num_of true) D N) as (d & body & last & Eq & (U & (K1 & K2 & V) & W) & G & _ & Im & L & M).
    cbn [dump_new d_depth d_imports d_lines app] in *. unfold dump_text. rewrite Eq. cbn [bind].
    set (vars := sorted (fun a b => if (snd a =? snd b)%string then str_leb (fst a) (fst b) else str_leb (snd a) (snd b)) (d_vars d)).
    assert (Pv : Permutation (d_vars d) vars) by apply sorted_perm.
    destruct (vars_of d W vars) as (l & vs & El & Fo); [intros x I; eapply Permutation_in; [symmetry; exact Pv|exact I]|].
    assert (L' : d_lines d = (body ++ [last])%list) by (rewrite L; unfold ind; cbn; f_equal; rewrite <- (map_id body) at 2; now apply map_ext).
    exists (unlines (default_imports ++ [""])%list ++ unlines (map (fun s => s_name s ++ " = " ++ s_text s) l) ++ newline ++ "model = " ++ text 0 body last). split.
    - unfold output. fold vars. assert (Hm : map (fun s => s_name s ++ " = " ++ s_text s) l = map (fun vn => snd vn ++ " = " ++ fst vn)%string vars) by (rewrite <- El, map_map; reflexivity).
      rewrite Hm, <- (output_text vars default_imports body last), Im, L'. destruct (body ++ [last])%list eqn:B; [destruct body; discriminate|]. reflexivity.
    - assert (Nn : NoDup (map s_name l)).
      { assert (map s_name l = map snd vars) as -> by (rewrite <- El, map_map; reflexivity). eapply Permutation_NoDup; [apply Permutation_map; exact Pv|exact K2]. }
      assert (Henv : forall E, plain E -> Forall2 (fun s v => find_key (s_name s) E = Some v) l vs -> env_ok num_of E d).
      { intros E PE New. split; [exact PE|]. intros r n I. assert (Iv : In (r, n) vars) by (eapply Permutation_in; eauto). clear - El Fo New Iv PE.
        rewrite <- El in Iv. clear El. revert New Iv. induction Fo as [|s v l vs (A & B & C) Fo IH]; intros New Iv; [destruct Iv|]. inversion New; subst.
        destruct Iv as [Eq|Iv]; [injection Eq as <- <-; exists v; auto|auto]. }
      (* the meaning of the element, in the environment of its variables *)
      destruct (exec_vars l vs [] Fo Nn) as (E0 & _ & PE0 & _ & New0); [intros k []|].
      destruct (M E0 (Henv E0 PE0 New0) 0) as (me & mts & Lm & Pm & _).
      eapply (load_program l vs me mts); eauto. intros E PE New. eapply means_expr; eauto.
  Qed.
End Load.

(* numbers of a domain are numbers of a larger one *)
Section Mono.
  Context {F : Type} {NF : Num F}.
  Variables d d' : F -> Prop.
  Hypothesis H : forall x, d x -> d' x.
  Lemma pt_mono p : pt_in d p -> pt_in d' p.
  Proof. unfold pt_in. intuition auto. Qed.
  Lemma cp_mono c : cp_in d c -> cp_in d' c.
  Proof. unfold cp_in, vec_in. intros (A & B & C). split; [now apply pt_mono|]. intuition auto. Qed.
  Lemma color_mono c : color_in d c -> color_in d' c.
  Proof. destruct c; cbn; auto. apply Forall_impl. exact H. Qed.
  Lemma pb_mono p : pb_in d p -> pb_in d' p.
  Proof.
    unfold pb_in, pen_in. intros [A B]. split; [destruct (pb_pen p); [destruct A; split; auto using color_mono|auto]|destruct (pb_brush p); auto using color_mono].
  Qed.
  Lemma xf_mono t : xf_in d t -> xf_in d' t.
  Proof. apply Forall_impl. exact H. Qed.
  Lemma elem_mono : forall e, elem_in d e -> elem_in d' e.
  Proof.
    assert (B : forall b : ebase F, base_in d b -> base_in d' b) by (intros b [X Y]; split; auto using pb_mono, xf_mono).
    apply (elem_induction (fun e => elem_in d e -> elem_in d' e)).
    - intros b s [X Y]. split; [now apply B|]. destruct s; cbn in *; try (intuition auto using pt_mono; fail). eapply Forall_impl; [|exact Y]. exact cp_mono.
    - intros b h l p IH [X Y]. split; [now apply B|]. revert Y. induction IH as [|ke l I1 I2 IH]; cbn; [auto|]. intros [Y1 Y2]. auto.
    - intros b o i Io IH (X & Y & Z). split; [now apply B|]. split; [now apply Io|]. revert Z. induction IH as [|e l I1 I2 IH]; cbn; [auto|]. intros [Y1 Y2]. auto.
  Qed.
End Mono.
