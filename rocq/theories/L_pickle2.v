(* Lemmas for pickled test data: what the text means. *)
Require Import Verif.Base Verif.M_vector Verif.M_bbox Verif.M_transform Verif.M_bezier Verif.M_colors
  Verif.M_elems Verif.M_group Verif.S_group Verif.L_group Verif.M_dump Verif.S_dump
  Verif.L_dump Verif.L_dump2 Verif.L_dump3 Verif.L_dump4 Verif.M_pickle Verif.S_pickle Verif.L_pickle.
From Coq Require Import String Ascii List Lia Bool DecimalString Permutation Sorted.
Import ListNotations.
Local Open Scope list_scope.
Local Open Scope string_scope.

Lemma length_indent k : String.length (indent k) = 4 * k.
Proof. induction k; [reflexivity|]. cbn -[Nat.mul]. rewrite IHk. lia. Qed.
Lemma depth_indent k : Nat.div (String.length (indent k)) 4 = k.
Proof. rewrite length_indent, Nat.mul_comm. apply Nat.div_mul. lia. Qed.
Lemma lstrip_indent k s : lstrip (indent k ++ s) = lstrip s.
Proof. induction k; [reflexivity|]. exact IHk. Qed.
Lemma lstrip_letter c s : is_letter c = true -> lstrip (String c s) = String c s.
Proof. intros H. cbn. replace (is_space c) with false; [reflexivity|]. destruct c as [[] [] [] [] [] [] [] []]; cbn in *; auto; discriminate. Qed.
Lemma join_cons sep s l : join sep (s :: l) = match l with [] => s | _ => s ++ sep ++ join sep l end.
Proof. destruct l; reflexivity. Qed.
Lemma join_append sep s t l : join sep ((s ++ t) :: l) = s ++ join sep (t :: l).
Proof. rewrite !join_cons. destruct l; [reflexivity|]. now rewrite sapp_assoc. Qed.

Lemma white_means {F} {NF : Num F} (num_of : string -> option F) E w s v : LexC w [] 0 0 -> Means num_of E (w ++ s) v -> Means num_of E s v.
Proof.
  intros W (e & ts & L & R). exists e, ts. split; [|exact R]. intros acc n. specialize (L acc n). rewrite lexes_app in L. rewrite (W acc n) in L. exact L.
Qed.

Section Pickled.
  Context {F : Type} {NF : Num F}.
  Variables (show : F -> string) (num_of : string -> option F).
  Notation env := (list (string * @value F)).
  Notation Means := (Means num_of).
  Notation Args := (Args num_of).
  Hypothesis OL : forall x, one_line (show x).

  (* the lines of one element, first line and others *)
  Lemma one_elem c s l e k : flat_lines show e c s l ->
    dump_one_elem show (indent k) e = Ok (join newline (String c s :: map (ind k) l)).
  Proof.
    intros (Lc & _ & _ & D). unfold dump_one_elem. rewrite depth_indent, D by reflexivity. cbn [bind dump_new set_depth with_lines d_lines d_depth app map].
    unfold output_lines. cbn [with_lines d_lines]. apply (f_equal Ok). unfold ind at 1. rewrite join_append, lstrip_indent.
    rewrite join_cons. destruct (map (ind k) l) eqn:M; [now apply lstrip_letter|]. cbn [append]. rewrite lstrip_letter by exact Lc. reflexivity.
  Qed.
  Lemma join_newline_char s l : one_line (join newline (s :: l)) -> l = [].
  Proof.
    rewrite join_cons. destruct l; [reflexivity|]. unfold one_line. rewrite has_app. intros H. apply orb_false_elim in H as [_ H]. discriminate.
  Qed.

  Notation rb := (rb show num_of).
  Lemma no_vars_env (E : env) d : plain E -> d_vars d = [] -> env_ok num_of E d.
  Proof. intros PE V. split; [exact PE|]. rewrite V. intros r n []. Qed.
  Lemma wf_false k l : wf show num_of false (Dump k l [] [] false default_imports).
  Proof. split; [split; reflexivity|]. split; [apply (vars_ok_new false)|]. intros r n []. Qed.

  (* what an element's lines mean, at any indentation *)
  Lemma elem_means c s l e : flat_lines show e c s l -> dumpable e -> elem_in rb e -> forall E, plain E -> forall k,
    Means E (join newline (map (ind k) (String c s :: l))) (VElem (reloaded e)).
  Proof.
    intros (Lc & _ & _ & D) H N E PE k.
    destruct (all_dumps show num_of false e (dump_new false) (wf_new show num_of false) H N) as (d' & body & last & Eq & W & _ & Dp & _ & Ln & M).
    rewrite D in Eq by reflexivity. injection Eq as <-. cbn [with_lines d_lines d_depth dump_new app] in Ln.
    change (map (ind 0) (String c s :: l) = (map (ind 0) body ++ [ind 0 last])%list) in Ln.
    change ([ind 0 last]) with (map (ind 0) [last]) in Ln. rewrite <- map_app in Ln. apply map_ind_inj in Ln. rewrite Ln, map_app. cbn [map].
    rewrite join_lines. apply (M E). now apply no_vars_env.
  Qed.
  Lemma elem_means0 c s l e : flat_lines show e c s l -> dumpable e -> elem_in rb e -> forall E, plain E -> forall k,
    Means E (join newline (String c s :: map (ind k) l)) (VElem (reloaded e)).
  Proof.
    intros Fl H N E PE k. apply (white_means num_of E (indent k)); [apply (lex_spaces k 0)|]. rewrite <- join_append. exact (elem_means c s l e Fl H N E PE k).
  Qed.

  (* the items of a list *)
  Definition item_lines {A} (item : string -> dump -> A -> res dump) (a : A) (lines : list string) : Prop :=
    Forall one_line lines /\
    forall k d, d_use d = false -> item (indent k) d a = Ok (with_lines (d_lines d ++ map (ind (d_depth d)) lines)%list d).
  Definition item_means {A} (val : A -> @value F) (a : A) (lines : list string) : Prop :=
    forall E, plain E -> forall k, exists t, unlines (map (ind k) lines) = t ++ "," ++ newline /\ Means E t (val a).

  Lemma items_flat {A} item (l : list A) liness : Forall2 (item_lines item) l liness -> forall k d, d_use d = false ->
    foldM (item (indent k)) d l = Ok (with_lines (d_lines d ++ map (ind (d_depth d)) (List.concat liness))%list d).
  Proof.
    intros H k. induction H as [|a ls l liness [_ Hi] H IH]; intros d U; cbn [foldM List.concat].
    - cbn. rewrite app_nil_r. destruct d; reflexivity.
    - rewrite Hi by exact U. cbn [bind]. rewrite IH by exact U. rewrite map_app, app_assoc. reflexivity.
  Qed.
  Definition list_lines (liness : list (list string)) : list string := ("[" :: map (ind 1) (List.concat liness) ++ ["]"])%list.
  Lemma list_flat {A} item (l : list A) liness : Forall2 (item_lines item) l liness -> forall k,
    dump_list (indent k) (item (indent k)) l = Ok (indented (indent k) (list_lines liness)).
  Proof.
    intros H k. unfold dump_list. rewrite (items_flat _ _ _ H) by reflexivity. cbn [bind]. apply (f_equal Ok). unfold output_lines, d_append, with_lines, set_depth, indented, list_lines, dump_new.
    cbn [d_depth d_lines d_vars d_prefixes d_use d_imports app map indent append]. apply f_equal. apply f_equal. rewrite depth_indent, map_app. cbn [map]. change (fun x => indent k ++ x) with (ind k). rewrite map_ind. reflexivity.
  Qed.
  Lemma items_means {A} (val : A -> @value F) l liness : Forall2 (item_means val) l liness -> forall E, plain E -> forall k w, LexC w [] 1 1 ->
    Args E "]" (unlines (map (ind k) (List.concat liness)) ++ w ++ "]") (map (fun v => (None, v)) (map val l)).
  Proof.
    intros H E PE k w L. induction H as [|a ls l liness Hm H IH]; cbn [map List.concat]; [apply a_nil; auto|].
    destruct (Hm E PE k) as (t & Et & Mt). rewrite map_app, unlines_app, Et, !sapp_assoc. apply (a_item num_of E 0 t); auto.
  Qed.
  Lemma list_means {A} (val : A -> @value F) l liness : Forall2 (item_means val) l liness -> forall E, plain E -> forall k,
    Means E (indented (indent k) (list_lines liness)) (VList (map val l)).
  Proof.
    intros H E PE k. unfold indented, list_lines. cbn [app]. rewrite map_app. change (fun x => indent k ++ x) with (ind k). rewrite map_ind. cbn [map].
    change ("[" :: map (ind (k + 1)) (List.concat liness) ++ [ind k "]"])%list with (("[" :: map (ind (k + 1)) (List.concat liness)) ++ [ind k "]"])%list. rewrite join_lines.
    cbn [unlines fold_right]. fold (unlines (map (ind (k + 1)) (List.concat liness))). unfold ind at 2. rewrite !sapp_assoc. apply m_list. apply a_white; [apply lex_newline|]. apply items_means; auto. apply (lex_spaces k 1).
  Qed.

  (* an element of a list *)
  Lemma elem_item e : exists c s l, flat_lines show e c s l /\ item_lines (fun _ d e => let* d := dump_el show e d in add_comma d) e (comma_last (String c s :: l)).
  Proof.
    destruct (all_flat show OL e) as (c & s & l & Fl). exists c, s, l. split; [exact Fl|]. destruct Fl as (_ & O & Ol & D). destruct (comma_lines c s l) as (l' & <- & Hl & Cm).
    split; [auto|]. intros k d U. rewrite D by exact U. cbn [bind]. rewrite (Cm (d_depth d) _ (d_lines d)) by reflexivity. reflexivity.
  Qed.
  Lemma unlines_comma k l : l <> [] -> unlines (map (ind k) (comma_last l)) = join newline (map (ind k) l) ++ "," ++ newline.
  Proof.
    intros N. destruct (@exists_last _ l N) as (b & x & ->).
    assert (Cl : comma_last (b ++ [x])%list = (b ++ [(x ++ ",")%string])%list).
    { clear. induction b as [|y b IH]; [reflexivity|]. cbn [app comma_last]. rewrite IH. destruct b; reflexivity. }
    rewrite Cl, !map_app. cbn [map]. rewrite join_lines, unlines_app. cbn [unlines fold_right]. unfold ind. rewrite !sapp_assoc. reflexivity.
  Qed.
  Lemma elem_item_means c s l e : flat_lines show e c s l -> dumpable e -> elem_in rb e -> item_means (fun e => VElem (reloaded e)) e (comma_last (String c s :: l)).
  Proof.
    intros Fl H N E PE k. eexists. split; [apply unlines_comma; discriminate|]. now apply elem_means.
  Qed.

  (* a tuple of a list *)
  Definition triple_value (x : string * elem F * transform F) : @value F :=
    let '(s, e, t) := x in VTuple [VStr s; VElem (reloaded e); VXf (written_xf t)].
  Definition triple_lines (n : string) (t : transform F) (c : ascii) (s : string) (l : list string) : list string :=
    match l with
    | [] => ["(" ++ repr_str n ++ ", " ++ String c s ++ ", " ++ repr_xf show t ++ "),"]
    | _ => ("(" ++ repr_str n ++ ",") :: map (ind 1) (comma_last (String c s :: l)) ++ [ind 1 (repr_xf show t ++ "),")]
    end.
  Lemma triple_item_lines n e t : exists c s l, flat_lines show e c s l /\ item_lines (dump_triple show) (n, e, t) (triple_lines n t c s l).
  Proof.
    destruct (elem_item e) as (c & s & l & Fl & [Ol It]). exists c, s, l. split; [exact Fl|]. destruct (Fl) as (_ & O & Ol' & D). split.
    - unfold triple_lines. destruct l.
      + repeat constructor. repeat (apply ol_app; [first [reflexivity|apply ol_repr|exact O|apply ol_xf; exact OL]|]). reflexivity.
      + constructor; [repeat (apply ol_app; [first [reflexivity|apply ol_repr]|]); reflexivity|]. apply Forall_app. split.
        * apply Forall_map. eapply Forall_impl; [|exact Ol]. intros x Hx. exact Hx.
        * repeat constructor. apply ol_app; [apply ol_indent|]. apply ol_app; [apply ol_xf; exact OL|reflexivity].
    - intros k d U. unfold dump_triple. rewrite (one_elem c s l e k Fl). cbn [bind]. destruct l as [|s2 l].
      + cbn [map join]. unfold one_line, nl in O. rewrite O. reflexivity.
      + replace (has_char (ascii_of_nat 10) (join newline (String c s :: map (ind k) (s2 :: l)))) with true.
        2: { cbn [map]. rewrite join_cons. change (ascii_of_nat 10) with nl. rewrite has_app. symmetry. apply orb_true_r. }
        cbn [negb]. set (d1 := set_depth _ _). specialize (It k d1 U). cbv beta in It.
        destruct (dump_el show e d1) as [d2|]; [|discriminate]. cbn [bind] in It |- *. rewrite It. cbn [bind]. apply (f_equal Ok).
        unfold d1, triple_lines, d_append, with_lines, set_depth. cbn [d_depth d_lines d_vars d_prefixes d_use d_imports map].
        rewrite Nat.add_sub, map_app, map_ind. cbn [map]. rewrite ind_ind, <- !app_assoc. reflexivity.
  Qed.
  Lemma triple_means E a b c va vb vc : forall sep1 sep2, (LexC sep1 [TOp ","] 1 1 /\ soft sep1 = true) -> (LexC sep2 [TOp ","] 1 1 /\ soft sep2 = true) ->
    Means E a va -> Means E b vb -> Means E c vc -> Means E ("(" ++ a ++ sep1 ++ b ++ sep2 ++ c ++ ")") (VTuple [va; vb; vc]).
  Proof.
    intros sep1 sep2 [L1 S1] [L2 S2] A B C. apply m_tuple; [discriminate|]. cbn [map]. apply (a_cons num_of E ")" None a); auto. apply (a_cons num_of E ")" None b); auto. apply (a_one num_of E ")" None c); auto.
  Qed.
  Lemma triple_item_means n t c s l e : flat_lines show e c s l -> dumpable e -> elem_in rb e -> xf_in rb t -> item_means triple_value (n, e, t) (triple_lines n t c s l).
  Proof.
    intros Fl H N NX E PE k. unfold triple_lines, triple_value. destruct l as [|s2 l].
    - exists (indent k ++ "(" ++ repr_str n ++ ", " ++ String c s ++ ", " ++ repr_xf show t ++ ")"). split.
      + cbn [map unlines fold_right]. unfold ind. rewrite !sapp_assoc. cbn [append]. rewrite ?sapp_assoc. cbn [append]. rewrite ?sapp_assoc. reflexivity.
      + apply m_white; [apply (lex_spaces k 0)|]. apply triple_means; auto using lex_comma, m_str; [|now apply m_xf].
        exact (elem_means0 c s [] e Fl H N E PE 0).
    - exists (indent k ++ "(" ++ repr_str n ++ ("," ++ newline) ++ join newline (map (ind (k + 1)) (String c s :: s2 :: l)) ++ ("," ++ newline) ++ ind (k + 1) (repr_xf show t) ++ ")"). split.
      + cbn [map]. rewrite map_app, map_ind. cbn [unlines fold_right]. fold (unlines (map (ind (k + 1)) (comma_last (String c s :: s2 :: l)) ++ map (ind k) [ind 1 (repr_xf show t ++ "),")])%list).
        rewrite unlines_app, unlines_comma by discriminate. cbn [map unlines fold_right]. rewrite ind_ind. unfold ind. rewrite ?sapp_assoc. cbn [append]. rewrite ?sapp_assoc. cbn [append]. rewrite ?sapp_assoc. reflexivity.
      + apply m_white; [apply (lex_spaces k 0)|]. apply triple_means; auto using lex_comma_newline, m_str.
        * exact (elem_means c s (s2 :: l) e Fl H N E PE (k + 1)).
        * apply m_white; [apply (lex_spaces (k + 1) 0)|now apply m_xf].
  Qed.

  (* reading a meaningful text *)
  Lemma read_means text v : (forall E, plain E -> Means E text v) -> read_value num_of text = Some v.
  Proof.
    intros H. assert (PE : @plain (@value F) []) by (intros k []). destruct (H [] PE) as (e & ts & L & Pr & Ev).
    unfold read_value, lex. destruct (lex_stmt "x" text ts [] eq_refl L) as (st & A & B).
    change ("x = " ++ text) with ("x" ++ " = " ++ text). rewrite A. cbv zeta. rewrite B. cbn [l_mode l_depth l_bol l_toks Nat.eqb].
    set (m := Stm "x" text ts e). assert (Om : stm_ok m) by (repeat split; auto; try discriminate; apply Pr).
    assert (T : rev (TNewline :: rev (TName "x" :: TOp "=" :: ts) ++ [])%list = stm_tokens [m]).
    { rewrite app_nil_r. unfold stm_tokens. cbn [flat_map s_name s_toks m]. unfold stmt. rewrite app_nil_r. change (TName "x" :: TOp "=" :: ts ++ [TNewline])%list with ((TName "x" :: TOp "=" :: ts) ++ [TNewline])%list.
      cbn [rev]. change (rev (TName "x" :: TOp "=" :: ts)) with ((rev ts ++ [TOp "="]) ++ [TName "x"])%list. rewrite !rev_app_distr, rev_involutive. reflexivity. }
    rewrite T, parse_stms; [|constructor; [exact Om|constructor]|lia]. cbn [map exec s_name s_expr m]. rewrite Ev. reflexivity.
  Qed.
End Pickled.
