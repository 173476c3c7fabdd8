(* Lemmas for dumps: reading texts back. *)
Require Import Verif.Base Verif.M_vector Verif.M_bbox Verif.M_transform Verif.M_bezier Verif.M_colors
  Verif.M_elems Verif.M_group Verif.S_group Verif.L_group Verif.M_dump Verif.S_dump.
From Coq Require Import String Ascii List Lia Bool DecimalString Permutation.
Import ListNotations.
Local Open Scope list_scope.
Local Open Scope string_scope.

(* ---------------- lexing ---------------- *)

Lemma lexes_app : forall s s' l, lexes l (s ++ s') = match lexes l s with Some l' => lexes l' s' | None => None end.
Proof. induction s as [|c s IH]; intros s' l; cbn; [reflexivity|]. destruct (step l c); auto. Qed.

(* s is read as the tokens ts, from a to b open brackets; the last token may still be open *)
Definition Lex (s : string) (ts : list token) (a b : nat) : Prop := forall acc n, exists st,
  lexes (Lexer acc Idle (a + n) false) s = Some st /\ flush st = Lexer (rev ts ++ acc)%list Idle (b + n) false.
Definition LexC (s : string) (ts : list token) (a b : nat) : Prop := forall acc n,
  lexes (Lexer acc Idle (a + n) false) s = Some (Lexer (rev ts ++ acc)%list Idle (b + n) false).
Lemma LexC_Lex s ts a b : LexC s ts a b -> Lex s ts a b.
Proof. intros H acc n. eexists. split; [apply H|reflexivity]. Qed.
Lemma Lex_shift s ts a b k : Lex s ts a b -> Lex s ts (k + a) (k + b).
Proof. intros H acc n. replace (k + a + n) with (a + (k + n)) by lia. replace (k + b + n) with (b + (k + n)) by lia. apply H. Qed.
Lemma LexC_shift s ts a b k : LexC s ts a b -> LexC s ts (k + a) (k + b).
Proof. intros H acc n. replace (k + a + n) with (a + (k + n)) by lia. replace (k + b + n) with (b + (k + n)) by lia. apply H. Qed.

(* characters that end a name or a number *)
Definition delim (c : ascii) : bool :=
  negb (is_letter c || is_digit c || (nat_of_ascii c =? 46)%nat || is_in c "+-").
Definition soft (s : string) : bool := match s with String c _ => delim c | EmptyString => false end.
Lemma step_delim st c : l_mode (flush st) = Idle -> delim c = true -> step st c = step_idle (flush st) c.
Proof.
  intros M D. unfold delim in D. apply negb_true_iff in D. apply orb_false_elim in D as [D D4]. apply orb_false_elim in D as [D D3]. apply orb_false_elim in D as [D1 D2].
  unfold flush in M. unfold step. destruct st as [ts m d b]. cbn [l_mode l_toks l_depth] in *. destruct m; try discriminate M; unfold flush; cbn [l_mode l_toks l_depth].
  - reflexivity.
  - now rewrite D1, D2.
  - rewrite D1, D2, D3, D4. reflexivity.
Qed.
Lemma lexes_soft st s : l_mode (flush st) = Idle -> soft s = true -> lexes st s = lexes (flush st) s.
Proof.
  destruct s as [|c s]; [discriminate|]. intros M D. cbn [soft] in D. cbn [lexes]. rewrite (step_delim st c M D).
  rewrite (step_delim (flush st) c); auto; unfold flush; destruct st as [ts [] d b]; auto.
Qed.
Lemma lex_cc s t a b s' t' c : LexC s t a b -> LexC s' t' b c -> LexC (s ++ s') (t ++ t')%list a c.
Proof. intros A B acc n. rewrite lexes_app, A, B, rev_app_distr, app_assoc. reflexivity. Qed.
Lemma lex_co s t a b s' t' c : LexC s t a b -> Lex s' t' b c -> Lex (s ++ s') (t ++ t')%list a c.
Proof. intros A B acc n. rewrite lexes_app, A. destruct (B (rev t ++ acc)%list n) as (st & E & G). exists st. split; [exact E|]. now rewrite G, rev_app_distr, app_assoc. Qed.
Lemma lex_oc s t a b s' t' c : Lex s t a b -> LexC s' t' b c -> soft s' = true -> LexC (s ++ s') (t ++ t')%list a c.
Proof.
  intros A B D acc n. rewrite lexes_app. destruct (A acc n) as (st & E & G). rewrite E. rewrite lexes_soft by (auto; now rewrite G). rewrite G, B, rev_app_distr, app_assoc. reflexivity.
Qed.

Lemma lexes_name : forall s acc t d b, forallb (fun c => is_letter c || is_digit c) (list_ascii_of_string s) = true ->
  lexes (Lexer acc (InName t) d b) s = Some (Lexer acc (InName (t ++ s)) d (match s with EmptyString => b | _ => false end)).
Proof.
  induction s as [|c s IH]; intros acc t d b H; cbn [lexes]; [now rewrite sapp_nil_r|]. cbn in H. apply andb_prop in H as [H1 H2].
  unfold step. cbn [l_mode]. rewrite H1. cbn [l_toks l_depth]. rewrite IH by exact H2. unfold add. rewrite sapp_assoc. cbn. destruct s; reflexivity.
Qed.
(* identifiers *)
Definition ident (s : string) : bool :=
  match s with
  | EmptyString => false
  | String c s' => is_letter c && forallb (fun c => is_letter c || is_digit c) (list_ascii_of_string s')
  end.
Lemma letter_cases c : is_letter c = true -> (nat_of_ascii c =? 32)%nat = false /\ (nat_of_ascii c =? 10)%nat = false.
Proof.
  unfold is_letter. intros H. split; apply Nat.eqb_neq; intros E; rewrite E in H; discriminate.
Qed.
Lemma step_letter acc d b c : is_letter c = true -> step (Lexer acc Idle d b) c = Some (Lexer acc (InName (String c "")) d false).
Proof. intros H. destruct (letter_cases c H) as [A B]. unfold step, step_idle. cbn [l_mode]. now rewrite A, B, H. Qed.
Lemma lexes_ident s acc d b : ident s = true -> lexes (Lexer acc Idle d b) s = Some (Lexer acc (InName s) d false).
Proof.
  destruct s as [|c s]; [discriminate|]. intros H. apply andb_prop in H as [H1 H2]. cbn [lexes]. rewrite (step_letter acc d b c H1), lexes_name by exact H2. destruct s; reflexivity.
Qed.
Lemma lex_ident s : ident s = true -> Lex s [TName s] 0 0.
Proof. intros H acc n. eexists. split; [now apply lexes_ident|reflexivity]. Qed.

Definition isq (q : ascii) : bool := Ascii.eqb q quote1 || Ascii.eqb q quote2.
Lemma lex_escape q c acc t d : isq q = true -> lexes (Lexer acc (InStr q t) d false) (escape q c) = Some (Lexer acc (InStr q (add t c)) d false).
Proof.
  intros Q. apply orb_prop in Q as [Q|Q]; apply Ascii.eqb_eq in Q; subst q; destruct c as [[] [] [] [] [] [] [] []]; reflexivity.
Qed.
Lemma lex_escapes q : isq q = true -> forall s acc t d, lexes (Lexer acc (InStr q t) d false) (escapes q s) = Some (Lexer acc (InStr q (t ++ s)) d false).
Proof.
  intros Q. induction s as [|c s IH]; intros acc t d; cbn [escapes]; [cbn; now rewrite sapp_nil_r|].
  rewrite lexes_app, lex_escape, IH by exact Q. unfold add. now rewrite sapp_assoc.
Qed.
Lemma lex_repr s : LexC (repr_str s) [TStr s] 0 0.
Proof.
  intros acc n. unfold repr_str. set (q := if _ && _ then quote2 else quote1). assert (Q : isq q = true) by (unfold q; destruct (_ && _); reflexivity). clearbody q.
  cbn [lexes]. assert (step (Lexer acc Idle (0 + n) false) q = Some (Lexer acc (InStr q "") (0 + n) false)) as ->.
  { apply orb_prop in Q as [Q|Q]; apply Ascii.eqb_eq in Q; subst q; reflexivity. }
  rewrite lexes_app, lex_escapes by exact Q. cbn [lexes append]. unfold step. cbn [l_mode]. rewrite Ascii.eqb_refl. reflexivity.
Qed.

(* ---------------- parsing ---------------- *)

Definition stop (ts : list token) : Prop :=
  match ts with TOp "(" :: _ | TOp "=" :: _ | TStr _ :: _ => False | _ => True end.
Definition starts (ts : list token) : Prop :=
  match ts with
  | [] => False
  | TOp c :: _ => c <> ")"%char /\ c <> "]"%char
  | TName _ :: TOp "=" :: _ => False
  | _ => True
  end.
Definition Parses (e : pexpr) (ts : list token) : Prop := starts ts /\
  forall rest fuel, List.length ts < fuel -> stop rest -> parse_expr fuel (ts ++ rest)%list = Some (e, rest).
Definition Items (close : ascii) (l : list (option string * pexpr)) (ts : list token) : Prop :=
  exists comma, forall rest fuel, List.length ts < fuel -> parse_items fuel close (ts ++ rest)%list = Some (l, comma, rest).

Lemma p_num s : Parses (ENum false s) [TNum s].
Proof. split; [exact I|]. intros rest [|fuel] L _; [cbn in L; lia|]. reflexivity. Qed.
Lemma p_neg s : Parses (ENum true s) [TOp "-"; TNum s].
Proof. split; [split; discriminate|]. intros rest [|fuel] L _; [cbn in L; lia|]. reflexivity. Qed.
Lemma p_str s : Parses (EStr s) [TStr s].
Proof. split; [exact I|]. intros rest [|fuel] L St; [cbn in L; lia|]. cbn. destruct rest as [|[| | | |] rest]; try reflexivity. destruct St. Qed.
Lemma p_name s : Parses (EName s) [TName s].
Proof.
  split; [exact I|]. intros rest [|fuel] L St; [cbn in L; lia|]. cbn. destruct rest as [|[| | |c|] rest]; try reflexivity.
  destruct c as [[] [] [] [] [] [] [] []]; try reflexivity; destruct St.
Qed.
Lemma p_call f l ts : Items ")" l ts -> Parses (ECall f l) (TName f :: TOp "(" :: ts).
Proof.
  intros [comma H]. split; [exact I|]. intros rest [|fuel] L _; [cbn in L; lia|]. cbn. rewrite H by (cbn in L; lia). reflexivity.
Qed.
Lemma no_kw_map l : no_kw (map (fun e => (None, e)) l) = Some l.
Proof.
  unfold no_kw. assert (forallb (fun a : option string * pexpr => match fst a with None => true | Some _ => false end) (map (fun e => (None, e)) l) = true) as -> by (induction l; auto).
  rewrite map_map. cbn. now rewrite map_id.
Qed.
Lemma p_list l ts : Items "]" (map (fun e => (None, e)) l) ts -> Parses (EList l) (TOp "[" :: ts).
Proof.
  intros [comma H]. split; [split; discriminate|]. intros rest [|fuel] L _; [cbn in L; lia|]. cbn. rewrite H by (cbn in L; lia). now rewrite no_kw_map.
Qed.
Lemma p_tuple l ts : List.length l <> 1%nat -> Items ")" (map (fun e => (None, e)) l) ts -> Parses (ETuple l) (TOp "(" :: ts).
Proof.
  intros N [comma H]. split; [split; discriminate|]. intros rest [|fuel] L _; [cbn in L; lia|]. cbn. rewrite H by (cbn in L; lia). rewrite no_kw_map.
  destruct l as [|a [|b l]]; try reflexivity. cbn in N. lia.
Qed.
Definition kwt (k : option string) : list token := match k with Some k => [TName k; TOp "="] | None => [] end.
Lemma i_nil c : Items c [] [TOp c].
Proof. exists false. intros rest [|fuel] L; [cbn in L; lia|]. cbn. now rewrite Ascii.eqb_refl. Qed.
(* the first item *)
Lemma parse_first c k ts rest fuel : (c = ")" \/ c = "]")%char -> starts ts -> (rest = [] -> False) -> stop rest ->
  parse_items (S fuel) c ((kwt k ++ ts) ++ rest)%list =
    match parse_expr fuel (ts ++ rest)%list with
    | Some (e, TOp c' :: r) =>
        if Ascii.eqb c' c then Some ([(k, e)], false, r)
        else if Ascii.eqb c' "," then
          match parse_items fuel c r with Some (l, comma, r) => Some ((k, e) :: l, match l with [] => true | _ => comma end, r) | None => None end
        else None
    | _ => None
    end.
Proof.
  intros C St Ne Sr. destruct k as [k|]; cbn [kwt app]; [reflexivity|].
  destruct ts as [|t ts]; [destruct St|]. cbn [app parse_items].
  destruct t as [s|s|s|o|]; try reflexivity.
  - destruct ts as [|u ts]; cbn [app].
    + destruct rest as [|[| | |o|] rest]; try reflexivity. destruct o as [[] [] [] [] [] [] [] []]; try reflexivity; destruct Sr.
    + destruct u as [| | |o|]; try reflexivity. destruct o as [[] [] [] [] [] [] [] []]; try reflexivity; destruct St.
  - cbn in St. destruct (Ascii.eqb_spec o c) as [->|_]; [|reflexivity]. exfalso. intuition congruence.
Qed.
Lemma i_one c k e ts : (c = ")" \/ c = "]")%char -> Parses e ts -> Items c [(k, e)] ((kwt k ++ ts) ++ [TOp c])%list.
Proof.
  intros C [St H]. exists false. intros rest [|fuel] L; [lia|]. rewrite <- app_assoc. rewrite parse_first; auto; [|discriminate|destruct C as [-> | ->]; exact I].
  rewrite H; [|rewrite !app_length in L; cbn in L; lia|destruct C as [-> | ->]; exact I]. cbn [app]. now rewrite Ascii.eqb_refl.
Qed.
Lemma i_cons c k e ts l ts' : (c = ")" \/ c = "]")%char -> Parses e ts -> Items c l ts' -> Items c ((k, e) :: l) ((kwt k ++ ts) ++ TOp "," :: ts')%list.
Proof.
  intros C [St H] [comma I']. exists (match l with [] => true | _ => comma end). intros rest [|fuel] L; [lia|]. rewrite <- app_assoc. rewrite parse_first; auto; [|discriminate|exact I].
  rewrite !app_length in L. cbn in L. rewrite H; [|lia|exact I]. cbn [app].
  destruct (Ascii.eqb_spec "," c) as [<-|_]; [exfalso; destruct C; discriminate|]. cbn. rewrite I' by lia. reflexivity.
Qed.
(* (x,) *)
Lemma p_tuple1 e ts : Parses e ts -> Parses (ETuple [e]) (TOp "(" :: (ts ++ [TOp ","; TOp ")"])%list).
Proof.
  intros [St H]. split; [split; discriminate|]. intros rest [|fuel] L _; [cbn in L; lia|]. cbn [app parse_expr].
  cbn in L. rewrite app_length in L. cbn in L. destruct fuel as [|fuel]; [lia|].
  rewrite <- app_assoc. rewrite (parse_first ")" None ts); auto; [|discriminate|exact I]. rewrite H; [|lia|exact I].
  cbn [app]. destruct fuel as [|fuel]; [lia|]. reflexivity.
Qed.

(* ---------------- meaning of texts ---------------- *)

Lemma all_app {A B} (f : A -> option B) a b x y : all f a = Some x -> all f b = Some y -> all f (a ++ b)%list = Some (x ++ y)%list.
Proof.
  revert x. induction a as [|u a IH]; cbn; intros x E G; [injection E as <-; exact G|].
  destruct (f u); [|discriminate]. destruct (all f a); [|discriminate]. injection E as <-. now rewrite (IH _ eq_refl G).
Qed.
Lemma all_forall {A B} (f : A -> option B) a x : Forall2 (fun a b => f a = Some b) a x -> all f a = Some x.
Proof. induction 1 as [|u v a x E _ IH]; cbn; [reflexivity|]. now rewrite E, IH. Qed.

(* the variables of a dump begin with p or x, classes and constants with capitals *)
Definition first_in (chars n : string) : bool := match n with String c _ => is_in c chars | EmptyString => false end.
Definition plain {A} (env : list (string * A)) : Prop := forall k, In k (keys env) -> first_in "px" k = true.

Section Means.
  Context {F : Type} {NF : Num F}.
  Variables (show : F -> string) (num_of : string -> option F).
  (* the text of a number is read back as the number *)
  Definition rb (x : F) : Prop := (literal (show x) /\ num_of (show x) = Some x) \/
    exists s y, show x = String "-" s /\ literal s /\ num_of s = Some y /\ nneg y = x.
  Notation value := (@value F).
  Notation eval := (eval num_of).
  Notation env := (list (string * value)).

  Definition arg_eval (E : env) (a : option string * pexpr) : option (option string * value) :=
    match eval E (snd a) with Some v => Some (fst a, v) | None => None end.
  Definition Means (E : env) (s : string) (v : value) : Prop := exists e ts, Lex s ts 0 0 /\ Parses e ts /\ eval E e = Some v.
  Definition Args (E : env) (close : ascii) (s : string) (l : list (option string * value)) : Prop := exists items ts,
    LexC s ts 1 0 /\ Items close items ts /\ all (arg_eval E) items = Some l.

  Lemma means_same E s v w : Means E s v -> Means E s w -> v = w.
  Proof.
    intros (e & ts & L & [_ Pr] & Ev) (e' & ts' & L' & [_ Pr'] & Ev').
    destruct (L [] 0) as (st & A & B), (L' [] 0) as (st' & A' & B'). rewrite A in A'. injection A' as <-. rewrite B in B'. injection B' as B'.
    rewrite !app_nil_r in B'. apply (f_equal (@rev _)) in B'. rewrite !rev_involutive in B'. subst ts'.
    specialize (Pr [] (S (List.length ts)) (Nat.lt_succ_diag_r _) I). rewrite (Pr' [] (S (List.length ts)) (Nat.lt_succ_diag_r _) I) in Pr. injection Pr as ->. congruence.
  Qed.

  Lemma m_num E x : rb x -> Means E (show x) (VNum x).
  Proof.
    intros RB. destruct RB as [[[Hd L] N]|(s & y & Es & [Hd L] & N & Ey)].
    - exists (ENum false (show x)), [TNum (show x)]. split; [|split; [apply p_num|cbn; now rewrite N]].
      intros acc n. eexists. split; [apply L|reflexivity].
    - exists (ENum true s), [TOp "-"; TNum s]. rewrite Es. split; [|split; [apply p_neg|cbn; rewrite N; now rewrite Ey]].
      intros acc n. eexists. split; [cbn [lexes]; cbn -[lexes]; apply L|reflexivity].
  Qed.
  Lemma m_str E s : Means E (repr_str s) (VStr s).
  Proof. exists (EStr s), [TStr s]. split; [apply LexC_Lex, lex_repr|]. split; [apply p_str|reflexivity]. Qed.
  Lemma m_none E : Means E "None" VNone.
  Proof. exists (EName "None"), [TName "None"]. split; [now apply lex_ident|]. split; [apply p_name|reflexivity]. Qed.
  Lemma m_bool E b : Means E (repr_bool b) (VBool b).
  Proof. exists (EName (repr_bool b)), [TName (repr_bool b)]. destruct b; (split; [now apply lex_ident|]); (split; [apply p_name|reflexivity]). Qed.
  Lemma m_var E n v : ident n = true -> first_in "px" n = true -> find_key n E = Some v -> Means E n v.
  Proof.
    intros Id Fi Fk. exists (EName n), [TName n]. split; [now apply lex_ident|]. split; [apply p_name|]. cbn.
    destruct (String.eqb_spec n "None") as [->|_]; [discriminate|]. destruct (String.eqb_spec n "True") as [->|_]; [discriminate|].
    destruct (String.eqb_spec n "False") as [->|_]; [discriminate|]. exact Fk.
  Qed.
  Lemma lex_open : LexC "(" [TOp "("] 0 1. Proof. intros acc n. reflexivity. Qed.
  Lemma lex_open2 : LexC "[" [TOp "["] 0 1. Proof. intros acc n. reflexivity. Qed.
  Lemma m_call E f r l v : ident f = true -> first_in "px" f = false -> plain E -> Args E ")" r l -> call f l = Some v -> Means E (f ++ "(" ++ r) v.
  Proof.
    intros Id Fi Pl (items & ts & Lx & It & Al) Cl. exists (ECall f items), (TName f :: TOp "(" :: ts). split; [|split; [now apply p_call|]].
    - apply LexC_Lex. change (TName f :: TOp "(" :: ts) with ([TName f] ++ (([TOp "("] ++ ts)))%list. eapply lex_oc; [now apply lex_ident| |reflexivity].
      eapply lex_cc; [apply lex_open|exact Lx].
    - cbn [S_dump.eval]. assert (has_key f E = false) as ->.
      { apply has_key_false. intros K. rewrite (Pl _ K) in Fi. discriminate. }
      unfold arg_eval in Al. rewrite Al. exact Cl.
  Qed.
  Lemma lex_close c : (c = ")" \/ c = "]")%char -> LexC (String c "") [TOp c] 1 0 /\ soft (String c "") = true.
  Proof. intros [-> | ->]; split; try reflexivity; intros acc n; reflexivity. Qed.
  Lemma a_nil E c w : (c = ")" \/ c = "]")%char -> LexC w [] 1 1 -> Args E c (w ++ String c "") [].
  Proof.
    intros C W. exists [], [TOp c]. split; [|split; [apply i_nil|reflexivity]]. change [TOp c] with ([] ++ [TOp c])%list. eapply lex_cc; [exact W|]. now apply lex_close.
  Qed.
  Definition kws (k : option string) : string := match k with Some k => k ++ "=" | None => "" end.
  Definition kw_ok (k : option string) : bool := match k with Some k => ident k | None => true end.
  Lemma lex_kw k : kw_ok k = true -> LexC (kws k) (kwt k) 1 1.
  Proof.
    destruct k as [k|]; cbn; intros H; [|intros acc n; reflexivity]. change [TName k; TOp "="] with ([TName k] ++ [TOp "="])%list.
    apply (lex_oc k [TName k] 1 1); [exact (Lex_shift _ _ 0 0 1 (lex_ident k H))|intros acc n; reflexivity|reflexivity].
  Qed.
  Lemma a_one E c k s v : (c = ")" \/ c = "]")%char -> kw_ok k = true -> Means E s v -> Args E c (kws k ++ s ++ String c "") [(k, v)].
  Proof.
    intros C K (e & ts & L & Pr & Ev). exists [(k, e)], ((kwt k ++ ts) ++ [TOp c])%list. split; [|split; [now apply i_one|cbn; unfold arg_eval; cbn; now rewrite Ev]].
    rewrite <- app_assoc. eapply lex_cc; [now apply lex_kw|]. destruct (lex_close c C). eapply lex_oc; [exact (Lex_shift _ _ 0 0 1 L)| |]; auto.
  Qed.
  Lemma a_cons E c k s v sep r l : (c = ")" \/ c = "]")%char -> kw_ok k = true -> LexC sep [TOp ","] 1 1 -> soft sep = true ->
    Means E s v -> Args E c r l -> Args E c (kws k ++ s ++ sep ++ r) ((k, v) :: l).
  Proof.
    intros C K Ls So (e & ts & L & Pr & Ev) (items & ts' & L' & It & Al). exists ((k, e) :: items), ((kwt k ++ ts) ++ TOp "," :: ts')%list.
    split; [|split; [now apply i_cons|cbn; unfold arg_eval at 1; cbn; now rewrite Ev, Al]].
    rewrite <- app_assoc. eapply lex_cc; [now apply lex_kw|]. change (TOp "," :: ts') with ([TOp ","] ++ ts')%list.
    eapply lex_oc; [exact (Lex_shift _ _ 0 0 1 L)|eapply lex_cc; [exact Ls|exact L']|destruct sep; [discriminate|exact So]].
  Qed.
  Lemma all_none E : forall items (l : list value), all (arg_eval E) items = Some (map (fun v => (None, v)) l) ->
    exists es, items = map (fun e => (None, e)) es /\ all (eval E) es = Some l.
  Proof.
    induction items as [|[k e] items IH]; intros [|v l] H; cbn in H; try discriminate.
    - now exists [].
    - unfold arg_eval at 1 in H. cbn [fst snd] in H. destruct (eval E e); [|discriminate]. destruct (all (arg_eval E) items); discriminate.
    - unfold arg_eval at 1 in H. cbn [fst snd] in H. destruct (eval E e) as [w|] eqn:Ev; [|discriminate]. destruct (all (arg_eval E) items) as [r|] eqn:Al; [|discriminate].
      injection H as -> -> ->. destruct (IH l eq_refl) as (es & -> & A). exists (e :: es). split; [reflexivity|]. cbn. now rewrite Ev, A.
  Qed.
  Lemma m_list E r l : Args E "]" r (map (fun v => (None, v)) l) -> Means E ("[" ++ r) (VList l).
  Proof.
    intros (items & ts & L & It & Al). destruct (all_none E items l Al) as (es & -> & A). exists (EList es), (TOp "[" :: ts).
    split; [apply LexC_Lex; change (TOp "[" :: ts) with ([TOp "["] ++ ts)%list; eapply lex_cc; [apply lex_open2|exact L]|].
    split; [now apply p_list|]. cbn. now rewrite A.
  Qed.
  Lemma all_length {A B} (f : A -> option B) : forall a x, all f a = Some x -> List.length a = List.length x.
  Proof. induction a as [|u a IH]; cbn; intros x H; [now injection H as <-|]. destruct (f u); [|discriminate]. destruct (all f a); [|discriminate]. injection H as <-. cbn. now rewrite (IH _ eq_refl). Qed.
  Lemma m_tuple E r l : List.length l <> 1%nat -> Args E ")" r (map (fun v => (None, v)) l) -> Means E ("(" ++ r) (VTuple l).
  Proof.
    intros N (items & ts & L & It & Al). destruct (all_none E items l Al) as (es & -> & A). exists (ETuple es), (TOp "(" :: ts).
    split; [apply LexC_Lex; change (TOp "(" :: ts) with ([TOp "("] ++ ts)%list; eapply lex_cc; [apply lex_open|exact L]|].
    split; [apply p_tuple; [now rewrite (all_length _ _ _ A)|exact It]|]. cbn. now rewrite A.
  Qed.
  Lemma m_white E w s v : LexC w [] 0 0 -> Means E s v -> Means E (w ++ s) v.
  Proof. intros W (e & ts & L & R). exists e, ts. split; [|exact R]. change ts with ([] ++ ts)%list. eapply lex_co; [exact W|exact L]. Qed.
  Lemma lex_comma : LexC ", " [TOp ","] 1 1. Proof. intros acc n. reflexivity. Qed.

  (* comma-separated positional arguments *)
  Lemma a_join E c : (c = ")" \/ c = "]")%char -> forall ss vs, Forall2 (Means E) ss vs ->
    Args E c (join ", " ss ++ String c "") (map (fun v => (None, v)) vs).
  Proof.
    intros C ss vs H. induction H as [|s v ss vs Hs H IH]; [apply (a_nil E c ""); [exact C|intros acc n; reflexivity]|].
    destruct H as [|s' v' ss vs Hs' H].
    - cbn [join map]. apply (a_one E c None s v); auto.
    - change (join ", " (s :: s' :: ss)) with (s ++ ", " ++ join ", " (s' :: ss)). rewrite !sapp_assoc. cbn [map].
      apply (a_cons E c None s v ", "); auto. apply lex_comma.
  Qed.
  Lemma m_repr_tuple E ss vs : Forall2 (Means E) ss vs -> Means E (repr_tuple ss) (VTuple vs).
  Proof.
    intros H. destruct H as [|s v ss vs Hs H]; [apply m_tuple; [discriminate|]; apply (a_join E ")" (or_introl eq_refl) [] []); constructor|].
    destruct H as [|s' v' ss vs Hs' H].
    - cbn [repr_tuple]. destruct Hs as (e & ts & L & Pr & Ev). exists (ETuple [e]), (TOp "(" :: (ts ++ [TOp ","; TOp ")"])%list). split; [|split; [now apply p_tuple1|cbn; now rewrite Ev]].
      apply LexC_Lex. change (TOp "(" :: ts ++ [TOp ","; TOp ")"])%list with ([TOp "("] ++ (ts ++ [TOp ","; TOp ")"]))%list.
      eapply lex_cc; [apply lex_open|]. eapply lex_oc; [exact (Lex_shift _ _ 0 0 1 L)|intros acc n; reflexivity|reflexivity].
    - apply m_tuple; [cbn; lia|]. apply (a_join E ")" (or_introl eq_refl) (s :: s' :: ss) (v :: v' :: vs)). auto.
  Qed.

  (* the reprs *)
  Variable E : env.
  Hypothesis PE : plain E.
  Lemma m_class f ss vs v : ident f = true -> first_in "px" f = false -> Forall2 (Means E) ss vs ->
    call f (map (fun v => (None, v)) vs) = Some v -> Means E (f ++ "(" ++ join ", " ss ++ ")") v.
  Proof. intros Id Fi H C. eapply m_call; eauto. apply a_join; auto. Qed.
  Lemma m_pt p : pt_in rb p -> Means E (repr_pt show p) (VPoint p).
  Proof.
    destruct p as [x y]. intros [Hx Hy]. cbn in Hx, Hy. apply (m_call E "Point" (show x ++ ", " ++ show y ++ ")") [(None, VNum x); (None, VNum y)]); auto.
    apply (a_cons E ")" None (show x) (VNum x) ", "); auto using lex_comma, m_num. apply (a_one E ")" None); auto using m_num.
  Qed.
  Lemma m_vec p : vec_in rb p -> Means E (repr_vec show p) (VVec p).
  Proof.
    destruct p as [x y]. intros [Hx Hy]. cbn in Hx, Hy. apply (m_call E "Vector" (show x ++ ", " ++ show y ++ ")") [(None, VNum x); (None, VNum y)]); auto.
    apply (a_cons E ")" None (show x) (VNum x) ", "); auto using lex_comma, m_num. apply (a_one E ")" None); auto using m_num.
  Qed.
  Lemma m_cp c : cp_in rb c -> Means E (repr_cp show c) (VCp c).
  Proof.
    destruct c as [c l r k]. intros (Hc & Hl & Hr). unfold repr_cp. cbn [cc cdl cdr ckind].
    apply (m_class "ControlPoint" [repr_pt show c; repr_vec show l; repr_vec show r; repr_str k] [VPoint c; VVec l; VVec r; VStr k]); auto.
    repeat constructor; auto using m_pt, m_vec, m_str.
  Qed.
  Lemma all_nums l : all as_num (map (@VNum F) l) = Some l.
  Proof. induction l as [|x l IH]; cbn; [reflexivity|now rewrite IH]. Qed.
  Lemma m_nums l : Forall rb l -> Forall2 (Means E) (map show l) (map (@VNum F) l).
  Proof. intros H. induction H; constructor; auto using m_num. Qed.
  Definition color_value (c : color F) : value := match c with CStr s => VStr s | CNum n => VNum n | CTuple l => VTuple (map (@VNum F) l) end.
  Lemma m_color c : color_in rb c -> Means E (repr_color show c) (color_value c).
  Proof. destruct c as [s|n|l]; cbn; intros H; auto using m_str, m_num. now apply m_repr_tuple, m_nums. Qed.
  Lemma as_color_value c : as_color (color_value c) = Some c.
  Proof. destruct c as [s|n|l]; cbn; auto. now rewrite all_nums. Qed.
  Lemma m_brush b : color_in rb (bcolor b) -> Means E (repr_brush show b) (VBrush b).
  Proof.
    destruct b as [c]. intros Hc. unfold repr_brush. cbn [bcolor]. apply (m_call E "Brush" (repr_color show c ++ ")") [(None, color_value c)]); auto.
    - apply (a_one E ")" None); auto using m_color.
    - cbn. now rewrite as_color_value.
  Qed.
  Lemma m_pen p : pen_in rb p -> Means E (repr_pen show p) (VPen p).
  Proof.
    destruct p as [[c] w]. intros [Hc Hw]. cbn in Hc, Hw. unfold repr_pen. cbn [bcolor pbrush pwidth].
    apply (m_call E "Pen" (repr_color show c ++ ", " ++ show w ++ ")") [(None, color_value c); (None, VNum w)]); auto.
    - apply (a_cons E ")" None _ _ ", "); auto using lex_comma, m_color. apply (a_one E ")" None); auto using m_num.
    - cbn. assert (as_brush (color_value c) = Some (Brush c)) as ->; [|reflexivity].
      unfold as_brush. pose proof (as_color_value c) as H. destruct c; cbn in *; auto. now rewrite H.
  Qed.
  Definition opt_value {A} (f : A -> value) (o : option A) : value := match o with Some a => f a | None => VNone end.
  Lemma m_pb p : pb_in rb p -> Means E (repr_pb show p) (VPenBrush p).
  Proof.
    destruct p as [p b]. intros [Hp Hb]. cbn in Hp, Hb. unfold repr_pb. cbn [pb_pen pb_brush].
    apply (m_call E "PenBrush" (repr_opt (repr_pen show) p ++ ", " ++ repr_opt (repr_brush show) b ++ ")") [(None, opt_value (@VPen F) p); (None, opt_value (@VBrush F) b)]); auto.
    - apply (a_cons E ")" None _ _ ", "); try reflexivity; auto using lex_comma; [destruct p; [now apply m_pen|apply m_none]|].
      apply (a_one E ")" None); auto. destruct b; [now apply m_brush|apply m_none].
    - destruct p, b; reflexivity.
  Qed.
  Definition plain_xf (t : transform F) : transform F :=
    let m := tmat t in t_new6 (m00 m) (m01 m) (m02 m) (m10 m) (m11 m) (m12 m).
  Lemma m_xf t : xf_in rb t -> Means E (repr_xf show t) (VXf (plain_xf t)).
  Proof.
    unfold repr_xf, plain_xf, xf_in. cbv zeta. set (l := [m00 _; _; _; _; _; _]).
    intros H. apply (m_call E "Transform" (repr_tuple (map show l) ++ ")") [(None, VTuple (map (@VNum F) l))]); auto.
    apply (a_one E ")" None); auto. now apply m_repr_tuple, m_nums.
  Qed.
End Means.
