(* Lemmas for reading reprs back. *)
Require Import Verif.Base Verif.M_vector Verif.M_bbox Verif.M_transform Verif.M_colors Verif.M_group Verif.L_group Verif.M_points Verif.S_points Verif.L_points Verif.M_dump Verif.S_dump Verif.L_dump Verif.L_dump4
  Verif.M_display Verif.M_repr Verif.S_repr.
From Coq Require Import String Ascii List Lia Bool Arith.
Import ListNotations.
Local Open Scope string_scope.
Local Open Scope list_scope.

Definition Reads (s : string) (e : pexpr) : Prop := exists ts, Lex s ts 0 0 /\ Parses e ts.
Definition ReadsArgs (s : string) (l : list (option string * pexpr)) : Prop := exists ts, LexC s ts 1 0 /\ Items ")" l ts.

Lemma reads_expr s e : Reads s e -> read_expr s = Some e.
Proof.
  intros (ts & L & Pr). unfold read_expr, lex. destruct (lex_stmt "x" s ts [] eq_refl L) as (st & A & B).
  change ("x = " ++ s)%string with ("x" ++ " = " ++ s)%string. rewrite A. rewrite B. cbn [l_mode l_depth l_bol l_toks Nat.eqb].
  rewrite app_nil_r.
  assert (E : rev (TNewline :: rev (TName "x" :: TOp "=" :: ts)) = stm_tokens [Stm "x" s ts e]).
  { change (rev (TNewline :: rev (TName "x" :: TOp "=" :: ts))) with (rev (rev (TName "x" :: TOp "=" :: ts)) ++ [TNewline]).
    rewrite rev_involutive. unfold stm_tokens. cbn [flat_map s_name s_toks]. unfold stmt. now rewrite app_nil_r. }
  rewrite E. rewrite parse_stms; [reflexivity| |lia]. constructor; [|constructor]. repeat split; auto; try apply Pr. discriminate.
Qed.
Lemma reads_det s e e' : Reads s e -> Reads s e' -> e = e'.
Proof. intros A B. apply reads_expr in A, B. congruence. Qed.

Lemma r_str s : Reads (repr_str s) (EStr s).
Proof. exists [TStr s]. split; [apply LexC_Lex, lex_repr|apply p_str]. Qed.
Lemma r_none : Reads "None" (EName "None").
Proof. exists [TName "None"]. split; [now apply lex_ident|apply p_name]. Qed.
Lemma r_args : forall k s e, kw_ok k = true -> Reads s e -> ReadsArgs (kws k ++ s ++ ")")%string [(k, e)].
Proof.
  intros k s e K (ts & L & Pr). exists ((kwt k ++ ts) ++ [TOp ")"]). split; [|apply i_one; auto].
  rewrite <- app_assoc. eapply lex_cc; [now apply lex_kw|]. destruct (lex_close ")" (or_introl eq_refl)). eapply lex_oc; [exact (Lex_shift _ _ 0 0 1 L)| |]; auto.
Qed.
Lemma r_more k s e r l : kw_ok k = true -> Reads s e -> ReadsArgs r l -> ReadsArgs (kws k ++ s ++ ", " ++ r)%string ((k, e) :: l).
Proof.
  intros K (ts & L & Pr) (ts' & L' & It). exists ((kwt k ++ ts) ++ TOp "," :: ts'). split; [|apply i_cons; auto].
  rewrite <- app_assoc. eapply lex_cc; [now apply lex_kw|]. change (TOp "," :: ts') with ([TOp ","] ++ ts').
  eapply lex_oc; [exact (Lex_shift _ _ 0 0 1 L)|eapply lex_cc; [exact lex_comma|exact L']|reflexivity].
Qed.
Lemma r_call f r l : ident f = true -> ReadsArgs r l -> Reads (f ++ "(" ++ r)%string (ECall f l).
Proof.
  intros Id (ts & L & It). exists (TName f :: TOp "(" :: ts). split; [|now apply p_call].
  apply LexC_Lex. change (TName f :: TOp "(" :: ts) with ([TName f] ++ (([TOp "("] ++ ts))). eapply lex_oc; [now apply lex_ident| |reflexivity].
  eapply lex_cc; [apply lex_open|exact L].
Qed.
Definition args (es : list pexpr) : list (option string * pexpr) := map (fun e => (None, e)) es.
Lemma r_join ss es : Forall2 Reads ss es -> es <> [] -> ReadsArgs (join ", " ss ++ ")")%string (args es).
Proof.
  intros H. induction H as [|s e ss es Hs H IH]; [congruence|]. intros _. destruct H as [|s' e' ss es Hs' H].
  - cbn [join args map]. apply (r_args None s e); auto.
  - change (join ", " (s :: s' :: ss)) with (s ++ ", " ++ join ", " (s' :: ss))%string. rewrite !sapp_assoc. cbn [args map].
    apply (r_more None s e); auto. apply IH. discriminate.
Qed.
Lemma r_class f ss es : ident f = true -> Forall2 Reads ss es -> es <> [] -> Reads (f ++ "(" ++ join ", " ss ++ ")")%string (ECall f (args es)).
Proof. intros Id H N. apply r_call; auto. apply r_join; auto. Qed.
Lemma r_tuple ss es : Forall2 Reads ss es -> (2 <= List.length es)%nat -> Reads (repr_tuple ss) (ETuple es).
Proof.
  intros H N. destruct (r_join ss es H) as (ts & L & It); [destruct es; [cbn in N; lia|discriminate]|].
  exists (TOp "(" :: ts). split; [|apply p_tuple; [lia|exact It]].
  assert (repr_tuple ss = ("(" ++ join ", " ss ++ ")")%string) as -> by (destruct H as [|? ? ? ? ? [|]]; cbn in N; try lia; reflexivity).
  apply LexC_Lex. change (TOp "(" :: ts) with ([TOp "("] ++ ts). eapply lex_cc; [apply lex_open|exact L].
Qed.

Ltac flat := repeat (cbn [join append namestr has_name]; rewrite ?sapp_assoc); cbn [join append].
Ltac class f ss := match goal with |- Reads ?t _ => replace t with (f ++ "(" ++ join ", " ss ++ ")")%string by (flat; reflexivity) end;
  apply r_class; [reflexivity|auto using r_str|discriminate].

Section Read.
  Context {F : Type} {NF : Num F}.
  Variables (dom : F -> Prop) (show : F -> string) (num_of : string -> option F).
  Hypothesis RB : reads_back_on dom show num_of.
  Notation value_of := (value_of num_of).

  Lemma r_num x : dom x -> exists e, Reads (show x) e /\ forall st, value_of st e = Some (st, GNum x).
  Proof.
    intros Dx. destruct (RB x Dx) as [[[Hd L] N]|(s & y & Es & [Hd L] & N & Ey)].
    - exists (ENum false (show x)). split; [exists [TNum (show x)]; split; [|apply p_num]|intros st; cbn; now rewrite N].
      intros acc n. eexists. split; [apply L|reflexivity].
    - exists (ENum true s). rewrite Es. split; [exists [TOp "-"; TNum s]; split; [|apply p_neg]|intros st; cbn; rewrite N; now rewrite Ey].
      intros acc n. eexists. split; [cbn [lexes]; cbn -[lexes]; apply L|reflexivity].
  Qed.

  (* ---------------- values of calls ---------------- *)
  Lemma v_args st es st' vs : all_st value_of st es = Some (st', vs) ->
    all_st (fun st a => match value_of st (snd a) with Some (st, v) => Some (st, (fst a, v)) | None => None end) st (args es) =
      Some (st', map (fun v => (None, v)) vs).
  Proof.
    revert st vs. induction es as [|e es IH]; intros st vs H; cbn in *; [now injection H as <- <-|].
    destruct (value_of st e) as [[st1 v]|]; [|discriminate]. destruct (all_st value_of st1 es) as [[st2 l]|] eqn:E; [|discriminate].
    injection H as <- <-. fold (args es). now rewrite (IH _ _ E).
  Qed.
  Lemma unkeyed_map (vs : list (@gval F)) : unkeyed (map (fun v => (None, v)) vs) = Some vs.
  Proof. unfold unkeyed. induction vs as [|v vs IH]; cbn; [reflexivity|]. now rewrite IH. Qed.
  Lemma v_call f es st st' vs : (f =? "BBox") = false -> all_st value_of st es = Some (st', vs) ->
    value_of st (ECall f (args es)) = construct f vs st'.
  Proof. intros N H. cbn [S_repr.value_of]. rewrite (v_args _ _ _ _ H), N, unkeyed_map. reflexivity. Qed.

  Lemma nth_mid {A} (a b : list A) i : i < List.length a -> nth_error (a ++ b) i = nth_error a i.
  Proof. intros. now apply nth_error_app1. Qed.
  Lemma same_more (st old new more : pstore F) i j : same_point st (old ++ new) i j -> same_point st (old ++ new ++ more) i j.
  Proof.
    rewrite app_assoc. intros H. induction H as [i j x y n A B|i j dx dy n b b' A B C IH|i j s n b b' A B C IH].
    - eapply same_abs; [exact A|]. rewrite nth_error_app1; [exact B|]. apply nth_error_Some. congruence.
    - eapply same_rel; [exact A| |exact IH]. rewrite nth_error_app1; [exact B|]. apply nth_error_Some. congruence.
    - eapply same_calc; [exact A| |exact IH]. rewrite nth_error_app1; [exact B|]. apply nth_error_Some. congruence.
  Qed.
  Lemma same_lt (st st' : pstore F) i j : same_point st st' i j -> j < List.length st'.
  Proof. intros H; destruct H; apply nth_error_Some; congruence. Qed.

  Lemma opt_name_none : opt_name (F := F) [] = Some None. Proof. reflexivity. Qed.
  Lemma name_cases (n : name) : n <> Some "" -> n = None \/ exists s, n = Some s /\ has_name n = true.
  Proof. destruct n as [s|]; [|now left]. intros N. right. exists s. split; auto. cbn. destruct (String.eqb_spec s ""); [congruence|reflexivity]. Qed.

  (* what the texts of a point and of a vector are read as *)
  Definition reads_point (st : pstore F) (i : nat) (s : string) : Prop := exists e, Reads s e /\
    forall st0, exists new j, value_of st0 e = Some (st0 ++ new, GPoint j) /\
      forall old, List.length old = List.length st0 -> same_point st (old ++ new) i j.
  Definition reads_vector (st : pstore F) (v : vobj F) (s : string) : Prop := exists e, Reads s e /\
    forall st0, exists new w, value_of st0 e = Some (st0 ++ new, GVec w) /\
      forall old, List.length old = List.length st0 -> same_vector st (old ++ new) v w.

  Lemma r_abs st i x y n : nth_error st i = Some (NPoint x y n) -> n <> Some "" -> dom x -> dom y ->
    reads_point st i ("Point(" ++ show x ++ ", " ++ show y ++ "" ++ namestr n ++ ")")%string.
  Proof.
    intros Hi Hn Dx Dy. destruct (r_num x Dx) as (ex & Rx & Vx), (r_num y Dy) as (ey & Ry & Vy).
    destruct (name_cases n Hn) as [->|(s & -> & T)].
    - exists (ECall "Point" (args [ex; ey])). split.
      + class "Point" [show x; show y].
      + intros st0. exists [NPoint x y None], (List.length st0). rewrite (v_call "Point" _ _ st0 [GNum x; GNum y]); [|reflexivity|cbn; now rewrite Vx, Vy]. split; [reflexivity|].
        intros old L. eapply same_abs; [exact Hi|]. rewrite nth_error_app2 by lia. now rewrite L, Nat.sub_diag.
    - exists (ECall "Point" (args [ex; ey; EStr s])). split.
      + unfold namestr. rewrite T. class "Point" [show x; show y; repr_str s].
      + intros st0. exists [NPoint x y (Some s)], (List.length st0). rewrite (v_call "Point" _ _ st0 [GNum x; GNum y; GStr s]); [|reflexivity|cbn; now rewrite Vx, Vy]. split; [reflexivity|].
        intros old L. eapply same_abs; [exact Hi|]. rewrite nth_error_app2 by lia. now rewrite L, Nat.sub_diag.
  Qed.
  Lemma r_rel st i dx dy b n r : nth_error st i = Some (NRel dx dy b n) -> n <> Some "" -> dom dx -> dom dy -> reads_point st b r ->
    reads_point st i ("PointRelative(" ++ show dx ++ ", " ++ show dy ++ ", " ++ r ++ namestr n ++ ")")%string.
  Proof.
    intros Hi Hn Dx Dy (eb & Rb & Vb). destruct (r_num dx Dx) as (ex & Rx & Vx), (r_num dy Dy) as (ey & Ry & Vy).
    assert (X : forall st0 new j, (forall old, List.length old = List.length st0 -> same_point st (old ++ new) b j) ->
       nth_error (st0 ++ new) j <> None /\
       forall old, List.length old = List.length st0 -> same_point st (old ++ new ++ [NRel dx dy j n]) i (List.length (st0 ++ new))).
    { intros st0 new j Sm. split; [apply nth_error_Some, (same_lt st _ b), Sm; auto|]. intros old L. eapply same_rel; [exact Hi| |apply same_more, Sm, L].
      rewrite app_assoc, nth_error_app2; rewrite ?app_length, ?L; [|lia]. now rewrite Nat.sub_diag. }
    destruct (name_cases n Hn) as [->|(s & -> & T)].
    - exists (ECall "PointRelative" (args [ex; ey; eb])). split.
      + class "PointRelative" [show dx; show dy; r].
      + intros st0. destruct (Vb st0) as (new & j & Ev & Sm). destruct (X st0 new j Sm) as [Nj Sm'].
        exists (new ++ [NRel dx dy j None]), (List.length (st0 ++ new)). rewrite (v_call "PointRelative" _ _ (st0 ++ new) [GNum dx; GNum dy; GPoint j]); [|reflexivity|cbn; now rewrite Vx, Vy, Ev].
        split; [|exact Sm']. cbn -[app List.length]. destruct (nth_error (st0 ++ new) j); [|congruence]. cbn. now rewrite app_assoc.
    - exists (ECall "PointRelative" (args [ex; ey; eb; EStr s])). split.
      + unfold namestr. rewrite T. class "PointRelative" [show dx; show dy; r; repr_str s].
      + intros st0. destruct (Vb st0) as (new & j & Ev & Sm). destruct (X st0 new j Sm) as [Nj Sm'].
        exists (new ++ [NRel dx dy j (Some s)]), (List.length (st0 ++ new)). rewrite (v_call "PointRelative" _ _ (st0 ++ new) [GNum dx; GNum dy; GPoint j; GStr s]); [|reflexivity|cbn; now rewrite Vx, Vy, Ev].
        split; [|exact Sm']. cbn -[app List.length]. destruct (nth_error (st0 ++ new) j); [|congruence]. cbn. now rewrite app_assoc.
  Qed.
  Lemma r_calc st i b sc n r : nth_error st i = Some (NCalc b sc n) -> n <> Some "" -> dom sc -> (forall x y m, nth_error st b <> Some (NPoint x y m)) ->
    reads_point st b r ->
    reads_point st i (if has_name n then "PointCalc(" ++ r ++ ", " ++ show sc ++ ", " ++ repr_str (match n with Some s => s | None => "" end) ++ ")"
                      else "PointCalc(" ++ r ++ ", " ++ show sc ++ ")")%string.
  Proof.
    intros Hi Hn Ds NP (eb & Rb & Vb). destruct (r_num sc Ds) as (ex & Rx & Vx).
    assert (X : forall st0 new j, (forall old, List.length old = List.length st0 -> same_point st (old ++ new) b j) ->
       match nth_error (st0 ++ new) j with Some (NRel _ _ _ _) | Some (NCalc _ _ _) => True | _ => False end /\
       forall old, List.length old = List.length st0 -> same_point st (old ++ new ++ [NCalc j sc n]) i (List.length (st0 ++ new))).
    { intros st0 new j Sm. split.
      - destruct (Sm st0 eq_refl) as [? ? x y m A B|? ? dx dy m b1 b1' A B C|? ? s m b1 b1' A B C]; [destruct (NP _ _ _ A)|now rewrite B|now rewrite B].
      - intros old L. eapply same_calc; [exact Hi| |apply same_more, Sm, L].
        rewrite app_assoc, nth_error_app2; rewrite ?app_length, ?L; [|lia]. now rewrite Nat.sub_diag. }
    destruct (name_cases n Hn) as [->|(s & -> & T)].
    - exists (ECall "PointCalc" (args [eb; ex])). split.
      + class "PointCalc" [r; show sc].
      + intros st0. destruct (Vb st0) as (new & j & Ev & Sm). destruct (X st0 new j Sm) as [Nj Sm'].
        exists (new ++ [NCalc j sc None]), (List.length (st0 ++ new)). rewrite (v_call "PointCalc" _ _ (st0 ++ new) [GPoint j; GNum sc]); [|reflexivity|cbn; now rewrite Ev, Vx].
        split; [|exact Sm']. cbn -[app List.length]. destruct (nth_error (st0 ++ new) j) as [[]|]; try destruct Nj; cbn; now rewrite app_assoc.
    - exists (ECall "PointCalc" (args [eb; ex; EStr s])). split.
      + rewrite T. class "PointCalc" [r; show sc; repr_str s].
      + intros st0. destruct (Vb st0) as (new & j & Ev & Sm). destruct (X st0 new j Sm) as [Nj Sm'].
        exists (new ++ [NCalc j sc (Some s)]), (List.length (st0 ++ new)). rewrite (v_call "PointCalc" _ _ (st0 ++ new) [GPoint j; GNum sc; GStr s]); [|reflexivity|cbn; now rewrite Ev, Vx].
        split; [|exact Sm']. cbn -[app List.length]. destruct (nth_error (st0 ++ new) j) as [[]|]; try destruct Nj; cbn; now rewrite app_assoc.
  Qed.
  Lemma r_node st : wf st -> forall fuel i, readable dom st i -> i < fuel -> exists s, repr_node show fuel st i = Ok s /\ reads_point st i s.
  Proof.
    intros W. induction fuel as [|fuel IH]; intros i Nm L; [lia|]. cbn [repr_node].
    destruct Nm as [i x y n Hi Hn Dx Dy|i dx dy b n Hi Hn Dx Dy Nb|i b s n Hi Hn Ds Nb]; rewrite Hi.
    - eexists. split; [reflexivity|]. now apply r_abs.
    - destruct (W i _ Hi) as [W1 _]. specialize (W1 b eq_refl). destruct (IH b Nb ltac:(lia)) as (r & -> & R). cbn [bind].
      eexists. split; [reflexivity|]. now apply (r_rel st i dx dy b n r).
    - destruct (W i _ Hi) as [W1 W2]. specialize (W1 b eq_refl). destruct (IH b Nb ltac:(lia)) as (r & -> & R). cbn [bind].
      eexists. split; [|now apply (r_calc st i b s n r Hi Hn Ds (W2 b s n eq_refl))]. destruct (has_name n); reflexivity.
  Qed.
  Lemma r_point st i : wf st -> readable dom st i -> exists s, repr_point show st i = Ok s /\ reads_point st i s.
  Proof. intros W N. apply r_node; auto. Qed.

  Lemma same_shift (st old new more : pstore F) i j : same_point st (old ++ new) i j -> same_point st ((old ++ new) ++ more) i j.
  Proof. rewrite <- app_assoc. apply same_more. Qed.
  Lemma r_vobj st v : wf st -> readable_vector dom st v -> exists s, repr_vobj show st v = Ok s /\ reads_vector st v s.
  Proof.
    intros W. destruct v as [[x y]|[p q]]; cbn [readable_vector repr_vobj vx vy vr_p1 vr_p2].
    - intros [Dx Dy]. destruct (r_num x Dx) as (ex & Rx & Vx), (r_num y Dy) as (ey & Ry & Vy). eexists. split; [reflexivity|].
      exists (ECall "Vector" (args [ex; ey])). split.
      + unfold repr_vec. class "Vector" [show x; show y].
      + intros st0. exists [], (OVec (V x y)). rewrite (v_call "Vector" _ _ st0 [GNum x; GNum y]); [|reflexivity|cbn; now rewrite Vx, Vy]. split; [cbn; now rewrite app_nil_r|].
        intros old L. reflexivity.
    - intros [Np Nq]. destruct (r_point st p W Np) as (a & -> & ea & Ra & Va), (r_point st q W Nq) as (b & -> & eb & Rb & Vb). cbn [bind]. eexists. split; [reflexivity|].
      exists (ECall "VectorRelative" (args [ea; eb])). split.
      + class "VectorRelative" [a; b].
      + intros st0. destruct (Va st0) as (n1 & j1 & E1 & S1). destruct (Vb (st0 ++ n1)) as (n2 & j2 & E2 & S2).
        exists (n1 ++ n2), (OVrel (VR j1 j2)). rewrite (v_call "VectorRelative" _ _ ((st0 ++ n1) ++ n2) [GPoint j1; GPoint j2]); [|reflexivity|cbn; now rewrite E1, E2].
        split; [cbn; now rewrite app_assoc|]. intros old L. split; cbn.
        * apply same_more, S1, L.
        * rewrite app_assoc. apply S2. rewrite !app_length. lia.
  Qed.

  Lemma evals s e st : Reads s e -> evaluates num_of st s = value_of st e.
  Proof. intros R. unfold evaluates. now rewrite (reads_expr _ _ R). Qed.

  (* a text of keyword arguments *)
  Lemma r_kw k s e : kw_ok (Some k) = true -> Reads s e -> ReadsArgs ((k ++ "=" ++ s) ++ ")")%string [(Some k, e)].
  Proof. intros K R. rewrite !sapp_assoc. replace (k ++ "=" ++ s ++ ")")%string with (kws (Some k) ++ s ++ ")")%string by (cbn [kws]; now rewrite sapp_assoc). now apply r_args. Qed.
  Lemma r_kws k s e r l : kw_ok (Some k) = true -> Reads s e -> ReadsArgs r l -> ReadsArgs (k ++ "=" ++ s ++ ", " ++ r)%string ((Some k, e) :: l).
  Proof. intros K R A. replace (k ++ "=" ++ s ++ ", " ++ r)%string with (kws (Some k) ++ s ++ ", " ++ r)%string by (cbn [kws]; now rewrite sapp_assoc). now apply r_more. Qed.

  Lemma r_nums l : Forall dom l -> exists es, Forall2 Reads (map show l) es /\ List.length es = List.length l /\
    forall st, all_st value_of st es = Some (st, map (@GNum F) l).
  Proof.
    intros H. induction H as [|x l Dx H (es & A & B & C)]; [exists []; repeat split; constructor|].
    destruct (r_num x Dx) as (e & R & V). exists (e :: es). split; [now constructor|]. split; [cbn; now rewrite B|]. intros st. cbn. now rewrite V, C.
  Qed.
  Lemma r_tuple_nums l : Forall dom l -> 2 <= List.length l -> exists e, Reads (repr_tuple (map show l)) e /\
    forall st, value_of st e = Some (st, GTuple (map (@GNum F) l)).
  Proof.
    intros H N. destruct (r_nums l H) as (es & A & B & C). exists (ETuple es). split; [apply r_tuple; [exact A|lia]|].
    intros st. cbn [S_repr.value_of]. now rewrite C.
  Qed.
End Read.
