(* C43: Group.add keeps names unique.  C44: lookup finds exactly the nested elements. *)
Require Import Verif.Base Verif.M_vector Verif.M_bbox Verif.M_transform Verif.M_bezier Verif.M_colors Verif.M_elems Verif.M_group.
Require Import Verif.S_group Verif.L_group.
From Coq Require Import String List Lia Bool.
Import ListNotations.
Local Open Scope string_scope.
Local Open Scope list_scope.

(* ---------------- C43 ---------------- *)

Lemma class_no_dot {F} (e : elem F) : has_dot (class_name e) = false.
Proof. destruct e as [b []| |]; reflexivity. Qed.

(* the name add() settles on *)
Lemma add_name {F} (t : list (string * elem F)) n e fix_ : exists n',
  group_add t n e fix_ =
    (if has_dot n' then Raise ValueError
     else if has_key n' t then Raise ValueError else Ok (t ++ [(n', set_name n' e)])) /\
  ((fix_ && has_dot n) || has_key n t = false /\ n' = n \/
   (fix_ && has_dot n) || has_key n t = true /\ has_dot n' = false /\ has_key n' t = false /\
   (n' = after_last_dot n \/
    has_key (after_last_dot n) t = true /\
    exists j, n' = numbered (class_name e) j /\
              forall i, i < j -> In (numbered (class_name e) i) (keys t))).
Proof.
  unfold group_add.
  destruct ((fix_ && has_dot n) || has_key n t) eqn:C.
  - destruct (has_key (after_last_dot n) t) eqn:K.
    + destruct (first_free _ _ _ _) as [r|] eqn:E; [|now apply first_free_total in E].
      exists r. split; [reflexivity|]. right. split; [reflexivity|].
      apply first_free_some in E as (j & -> & _ & E3 & E4).
      split; [apply numbered_no_dot, class_no_dot|]. split; [now apply has_key_false|].
      right. split; [reflexivity|]. exists j. split; [reflexivity|]. intros i Hi. apply E4. lia.
    + exists (after_last_dot n). split; [reflexivity|]. right. split; [reflexivity|].
      split; [apply has_dot_false, after_last_dot_spec|]. split; [exact K|now left].
  - exists n. split; [reflexivity|now left].
Qed.

(* when add() raises: the name has a dot, it is not to be fixed, and it is not taken *)
Theorem C43_raises : forall {F} (t : list (string * elem F)) (n : string) (e : elem F) (fixname : bool) (x : exn),
  group_add t n e fixname = Raise x <->
  x = ValueError /\ dotted_name n /\ fixname = false /\ ~ In n (keys t).
Proof.
  intros F t n e f x. destruct (add_name t n e f) as (n' & -> & [[C ->]|(C & D & K & _)]).
  - apply orb_false_elim in C as [C K]. rewrite K. rewrite <- has_dot_spec, <- has_key_false.
    destruct (has_dot n) eqn:D.
    + split; [intros E; injection E as <-|intros (-> & _); reflexivity].
      destruct f; [discriminate|]. auto.
    + split; [discriminate|]. intros (_ & E & _). discriminate.
  - rewrite D, K. split; [discriminate|]. intros (_ & A & -> & B).
    apply has_key_false in B. rewrite B in C. discriminate.
Qed.

(* what a successful add does: everything before is kept, one element is put at the end
   under a name nobody had, and it is told its name *)
Theorem C43_appends : forall {F} (t t' : list (string * elem F)) (n : string) (e : elem F) (fixname : bool),
  group_add t n e fixname = Ok t' ->
  exists n' e', t' = t ++ [(n', e')] /\ renamed n' e e' /\ ~ In n' (keys t) /\ ~ dotted_name n'.
Proof.
  intros F t t' n e f H. destruct (add_name t n e f) as (n' & E & _). rewrite E in H.
  destruct (has_dot n') eqn:D; [discriminate|]. destruct (has_key n' t) eqn:K; [discriminate|].
  injection H as <-. exists n', (set_name n' e). split; [reflexivity|]. split; [apply renamed_set|].
  split; [now apply has_key_false|now apply has_dot_false].
Qed.

(* the name chosen: the given one if it is free and has no dot; otherwise its last part if
   that is free; otherwise the class name with the least free number *)
Theorem C43_chosen_name : forall {F} (t t' : list (string * elem F)) (n n' : string) (e e' : elem F) (fixname : bool),
  group_add t n e fixname = Ok t' -> t' = t ++ [(n', e')] ->
  (~ In n (keys t) /\ ~ dotted_name n /\ n' = n) \/
  ((In n (keys t) \/ dotted_name n) /\ last_part n n') \/
  (exists s j, last_part n s /\ In s (keys t) /\ n' = numbered (class_name e) j /\
               forall i, i < j -> In (numbered (class_name e) i) (keys t)).
Proof.
  intros F t t' n n' e e' f H E. destruct (add_name t n e f) as (m & E' & C). rewrite E' in H.
  destruct (has_dot m) eqn:D; [discriminate|]. destruct (has_key m t) eqn:K; [discriminate|].
  injection H as <-. apply app_inv_head in E. injection E as -> <-.
  destruct C as [[_ ->]|(C & _ & _ & [->|(A & j & -> & B)])].
  - left. rewrite <- has_key_false, <- has_dot_false. auto.
  - right. left. split; [|apply after_last_dot_spec].
    apply orb_prop in C as [C|C]; [|left; now apply has_key_spec].
    right. apply andb_prop in C as [_ C]. now apply has_dot_spec.
  - right. right. exists (after_last_dot n), j. split; [apply after_last_dot_spec|].
    split; [now apply has_key_spec|]. auto.
Qed.

(* the table stays good *)
Theorem C43_add_keeps_table : forall {F} (t t' : list (string * elem F)) (n : string) (e : elem F) (fixname : bool),
  good_table t -> group_add t n e fixname = Ok t' -> good_table t'.
Proof.
  intros F t t' n e f [G1 G2] H. destruct (C43_appends _ _ _ _ _ H) as (n' & e' & -> & R & N & D).
  split.
  - rewrite keys_app. cbn. now apply NoDup_snoc.
  - intros k x Hx. apply in_app_or in Hx as [Hx|[Hx|[]]]; [now apply G2|].
    injection Hx as <- <-. split; [exact D|]. destruct e, e'; cbn in R; try easy; destruct R as [-> _]; reflexivity.
Qed.

(* a group that started empty (or was built from a list) and had any number of adds, some
   of which may have raised, has a good table *)
Fixpoint add_all {F} (t : list (string * elem F)) (l : list (string * elem F * bool)) : list (string * elem F) :=
  match l with
  | [] => t
  | (n, e, f) :: l' =>
      add_all (match group_add t n e f with Ok t' => t' | Raise _ => t end) l'
  end.
Theorem C43_any_adds : forall {F} {NF : Num F} (l : list (string * elem F * bool)) (es : list (elem F))
    (name : string) (pb : penbrush F) (hidden closed fix_names : bool) (x : option (transform F))
    (pts pts' : list (string * pt F)) (b : ebase F) (h : bool) (t : list (string * elem F)),
  mk_group name pb hidden x es pts closed fix_names = Ok (EGroup b h t pts') ->
  good_table t /\ good_table (add_all t l) /\
  List.length t = List.length es /\
  exists more, add_all t l = t ++ more.
Proof.
  intros F NF l es name pb hidden closed fx x pts pts' b h t H.
  assert (A : forall l (t : list (string * elem F)), good_table t -> good_table (add_all t l)).
  { clear. induction l as [|[[n e] f] l IH]; intros t G; cbn; [exact G|]. apply IH.
    destruct (group_add t n e f) eqn:E; [|exact G]. eapply C43_add_keeps_table; eauto. }
  assert (B : forall l (t : list (string * elem F)), exists more, add_all t l = t ++ more).
  { clear. induction l as [|[[n e] f] l IH]; intros t; cbn; [exists []; now rewrite app_nil_r|].
    destruct (IH (match group_add t n e f with Ok t' => t' | Raise _ => t end)) as [m ->].
    destruct (group_add t n e f) eqn:E; [|now exists m].
    destruct (C43_appends _ _ _ _ _ E) as (n' & e' & -> & _). rewrite <- app_assoc. eauto. }
  assert (D : forall es (t t' : list (string * elem F)), good_table t ->
            foldM (fun t e => group_add t (elem_name e) e fx) t es = Ok t' ->
            good_table t' /\ List.length t' = (List.length t + List.length es)%nat).
  { clear. induction es as [|e es IH]; intros t t' G; cbn.
    - intros E. injection E as <-. split; [exact G|lia].
    - destruct (group_add t (elem_name e) e fx) eqn:E; cbn; [|discriminate]. intros H.
      apply IH in H; [|eapply C43_add_keeps_table; eauto].
      destruct (C43_appends _ _ _ _ _ E) as (n' & e' & -> & _). rewrite app_length in H. cbn in H.
      destruct H as [H1 H2]. split; [exact H1|lia]. }
  unfold mk_group in H. destruct (mk_base name pb closed x); cbn in H; [|discriminate].
  destruct (foldM _ _ _) as [t0|] eqn:E; cbn in H; [|discriminate]. injection H as _ _ -> _.
  assert (G0 : @good_table F []) by (split; [constructor|intros ? ? []]).
  destruct (D _ _ _ G0 E) as [G L].
  split; [exact G|]. split; [auto|]. split; [exact L|auto].
Qed.

Example ex_leaf {F} {NF : Num F} (n : string) : elem F :=
  ELeaf (EB n (PenBrush None None) false t_new) (SCurve []).
Example C43_nontrivial : forall {F} {NF : Num F},
  exists t, mk_group "g" (PenBrush None None) false None
    [ex_leaf "a"; ex_leaf "a"; ex_leaf "x.b"; ex_leaf "a"] [] false true
      = Ok (EGroup (EB "g" (PenBrush None None) false t_new) false t []) /\
    keys t = ["a"; "curve#0"; "b"; "curve#1"] /\
    group_add t "c.d" (ex_leaf "c.d") false = Raise ValueError.
Proof. intros. eexists. split; [reflexivity|]. split; reflexivity. Qed.

(* ---------------- C44 ---------------- *)

Lemma lookup_group {F} b h (l : list (string * elem F)) p tag :
  elem_lookup (EGroup b h l p) tag =
  let (head, tail) := partition_dot tag in
  match find_key head l with
  | None => Raise KeyError
  | Some item => if (tail =? "")%string then Ok item
                 else match item with EGroup _ _ _ _ => elem_lookup item tail | _ => Raise ValueError end
  end.
Proof.
  cbn [elem_lookup]. destruct (partition_dot tag) as [head tail].
  induction l as [|[k item] l IH]; cbn; [reflexivity|]. destruct (head =? k)%string; [reflexivity|exact IH].
Qed.

Lemma dotted_cons k ks : ks <> [] -> dotted (k :: ks) = (k ++ "." ++ dotted ks)%string.
Proof. destruct ks; [easy|]. reflexivity. Qed.
Lemma dotted_empty ks : ~ In "" ks -> dotted ks = "" -> ks = [].
Proof.
  destruct ks as [|k ks]; [reflexivity|]. intros N E. exfalso. apply N. left.
  destruct ks; cbn in E; [congruence|]. destruct k; [reflexivity|discriminate].
Qed.
Lemma partition_dotted k ks : ~ dotted_name k -> partition_dot (dotted (k :: ks)) = (k, dotted ks).
Proof.
  intros D. apply has_dot_false in D. destruct ks as [|k' ks]; [now apply partition_dot_plain|].
  rewrite dotted_cons by discriminate. now apply partition_dot_app.
Qed.

Lemma at_path_group {F} (g : elem F) ks e : at_path g ks e -> is_group g.
Proof. destruct 1; exact I. Qed.
Lemma at_path_nonnil {F} (g : elem F) ks e : at_path g ks e -> ks <> [].
Proof. now destruct 1. Qed.

(* one step of a lookup along dotted names *)
Lemma lookup_step {F} b h (l : list (string * elem F)) p k ks : ~ dotted_name k -> ~ In "" ks ->
  elem_lookup (EGroup b h l p) (dotted (k :: ks)) =
  match find_key k l with
  | None => Raise KeyError
  | Some item => match ks with
                 | [] => Ok item
                 | _ => match item with EGroup _ _ _ _ => elem_lookup item (dotted ks) | _ => Raise ValueError end
                 end
  end.
Proof.
  intros D N. rewrite lookup_group, partition_dotted by exact D. destruct (find_key k l); [|reflexivity].
  destruct ks as [|k' ks]; [reflexivity|].
  destruct (String.eqb_spec (dotted (k' :: ks)) ""); [|reflexivity].
  apply dotted_empty in e0; [discriminate|exact N].
Qed.

(* names that can be asked for: without dots, and only the first may be empty *)
Definition askable (ks : list string) : Prop := (forall k, In k ks -> ~ dotted_name k) /\ ~ In "" (tl ks).

Theorem C44_lookup_iff : forall {F} (g e : elem F) (ks : list string),
  tidy g -> is_group g -> ks <> [] -> askable ks ->
  (elem_lookup g (dotted ks) = Ok e <-> at_path g ks e).
Proof.
  intros F g e ks T G N [D E]. revert g T G. induction ks as [|k ks IH]; [easy|]. intros g T G.
  destruct g as [|b h l p|]; try easy. inversion T as [|? ? ? ? [GT1 GT2] TL|]; subst.
  rewrite lookup_step; [|apply D; now left|exact E].
  assert (D' : forall k, In k ks -> ~ dotted_name k) by (intros; apply D; now right).
  split.
  - destruct (find_key k l) as [item|] eqn:K; [|discriminate]. apply find_key_in in K.
    destruct ks as [|k' ks].
    + intros H. injection H as ->. now constructor.
    + destruct item as [|b' h' l' p'|]; try discriminate. intros H.
      apply at_below with (g := EGroup b' h' l' p'); [exact K|]. apply IH; try easy.
      * intros Hx. apply E. now right.
      * eapply TL; eauto.
  - intros H. inversion H as [? ? ? ? ? ? HI|? ? ? ? ? g ? ? HI HP]; subst.
    + rewrite (find_key_some _ _ GT1 _ HI). reflexivity.
    + rewrite (find_key_some _ _ GT1 _ HI). pose proof (at_path_group _ _ _ HP) as G'.
      pose proof (at_path_nonnil _ _ _ HP) as N'. destruct ks as [|k' ks]; [easy|].
      destruct g as [|b' h' l' p'|]; try easy. apply IH; try easy.
      * intros Hx. apply E. now right.
      * eapply TL; eauto.
Qed.

(* the errors: KeyError when some name on the way is unknown, ValueError when the way goes
   through something that is not a group *)
Theorem C44_key_error : forall {F} (g : elem F) (ks : list string),
  tidy g -> is_group g -> ks <> [] -> askable ks ->
  (elem_lookup g (dotted ks) = Raise KeyError <->
   exists pre k post g', ks = pre ++ k :: post /\ reaches g pre g' /\ is_group g' /\ ~ In k (member_keys g')).
Proof.
  intros F g ks T G N [D E]. revert g T G. induction ks as [|k ks IH]; [easy|]. intros g T G.
  destruct g as [|b h l p|]; try easy. inversion T as [|? ? ? ? [GT1 GT2] TL|]; subst.
  rewrite lookup_step; [|apply D; now left|exact E].
  assert (D' : forall k, In k ks -> ~ dotted_name k) by (intros; apply D; now right).
  assert (E' : ~ In "" (tl ks)) by (intros Hx; apply E; destruct ks; [easy|now right]).
  split.
  - destruct (find_key k l) as [item|] eqn:K.
    + apply find_key_in in K. destruct ks as [|k' ks]; [discriminate|].
      destruct item as [|b' h' l' p'|]; try discriminate. intros H.
      apply IH in H; try easy; [|eapply TL; eauto].
      destruct H as (pre & k0 & post & g' & -> & R & G' & M).
      exists (k :: pre), k0, post, g'. split; [reflexivity|]. split; [|auto]. right.
      destruct R as [[-> ->]|R]; [now constructor|]. eapply at_below; eauto.
    + intros _. apply find_key_none in K. exists [], k, ks, (EGroup b h l p).
      split; [reflexivity|]. split; [now left|]. split; [exact I|exact K].
  - intros (pre & k0 & post & g' & Ek & R & G' & M).
    destruct pre as [|k1 pre]; cbn in Ek; injection Ek as -> ->.
    + destruct R as [[_ ->]|R]; [|now apply at_path_nonnil in R]. cbn in M.
      apply find_key_none in M. now rewrite M.
    + destruct R as [[R _]|R]; [discriminate|].
      inversion R as [? ? ? ? ? ? HI|? ? ? ? ? g ? ? HI HP]; subst.
      * rewrite (find_key_some _ _ GT1 _ HI). cbn [app]. destruct g' as [|b' h' l' p'|]; try easy.
        apply IH; try easy; [eapply TL; eauto|].
        exists [], k0, post, (EGroup b' h' l' p'). repeat split; auto. now left.
      * rewrite (find_key_some _ _ GT1 _ HI).
        pose proof (at_path_group _ _ _ HP) as G2. destruct g as [|b' h' l' p'|]; try easy.
        destruct (pre ++ k0 :: post) as [|z zs] eqn:Z; [now destruct pre|].
        apply IH; try easy; [eapply TL; eauto|]. rewrite <- Z.
        exists pre, k0, post, g'. repeat split; auto. now right.
Qed.

Theorem C44_value_error : forall {F} (g : elem F) (ks : list string),
  tidy g -> is_group g -> ks <> [] -> askable ks ->
  (elem_lookup g (dotted ks) = Raise ValueError <->
   exists pre k post e, ks = pre ++ k :: post /\ at_path g pre e /\ ~ is_group e).
Proof.
  intros F g ks T G N [D E]. revert g T G. induction ks as [|k ks IH]; [easy|]. intros g T G.
  destruct g as [|b h l p|]; try easy. inversion T as [|? ? ? ? [GT1 GT2] TL|]; subst.
  rewrite lookup_step; [|apply D; now left|exact E].
  assert (D' : forall k, In k ks -> ~ dotted_name k) by (intros; apply D; now right).
  assert (E' : ~ In "" (tl ks)) by (intros Hx; apply E; destruct ks; [easy|now right]).
  split.
  - destruct (find_key k l) as [item|] eqn:K; [|discriminate].
    apply find_key_in in K. destruct ks as [|k' ks]; [discriminate|].
    intros H. destruct item as [b' s'|b' h' l' p'|b' o' i'].
    + exists [k], k', ks, (ELeaf b' s'). split; [reflexivity|]. split; [now constructor|easy].
    + apply IH in H; try easy; [|eapply TL; eauto].
      destruct H as (pre & k0 & post & e & Ek & R & G').
      exists (k :: pre), k0, post, e. rewrite Ek. split; [reflexivity|]. split; [|auto].
      eapply at_below; eauto.
    + exists [k], k', ks, (EHoles b' o' i'). split; [reflexivity|]. split; [now constructor|easy].
  - intros (pre & k0 & post & e & Ek & R & G').
    inversion R as [? ? ? ? ? ? HI|? ? ? ? ? g ? ? HI HP]; subst; cbn [app] in Ek; injection Ek as -> ->.
    + rewrite (find_key_some _ _ GT1 _ HI). destruct e; easy.
    + rewrite (find_key_some _ _ GT1 _ HI).
      pose proof (at_path_group _ _ _ HP) as G2. destruct g as [|b' h' l' p'|]; try easy.
      destruct (ks0 ++ k0 :: post) as [|z zs] eqn:Z; [now destruct ks0|].
      apply IH; try easy; [eapply TL; eauto|]. rewrite <- Z.
      exists ks0, k0, post, e. auto.
Qed.

(* lookup with any tag at all: what it returns is a nested element, and the tag is its
   dotted path, up to one trailing dot *)
Theorem C44_any_tag : forall {F} (g : elem F) (tag : string), is_group g ->
  match elem_lookup g tag with
  | Ok e => exists ks, at_path g ks e /\ (tag = dotted ks \/ tag = (dotted ks ++ ".")%string)
  | Raise x => x = KeyError \/ x = ValueError
  end.
Proof.
  intros F g. induction g as [| b h l p IH |] using elem_induction; intros tag G; try easy.
  rewrite lookup_group. destruct (partition_dot tag) as [head tail] eqn:Pt.
  apply partition_dot_inv in Pt as [_ Pt].
  destruct (find_key head l) as [item|] eqn:K; [|now left]. apply find_key_in in K.
  destruct (String.eqb_spec tail "") as [->|N].
  - exists [head]. split; [now constructor|]. destruct Pt as [[-> _]| ->]; [now left|now right].
  - destruct Pt as [[_ ->]| ->]; [easy|].
    destruct item as [|b' h' l' p'|]; [now right| |now right].
    rewrite Forall_forall in IH. specialize (IH _ K tail I). cbn [snd] in IH.
    destruct (elem_lookup _ tail) as [e|x]; [|exact IH].
    destruct IH as (ks & A & B). exists (head :: ks). split; [eapply at_below; eauto|].
    rewrite dotted_cons by (eapply at_path_nonnil; eauto).
    destruct B as [->| ->]; [now left|right]. now rewrite !sapp_assoc.
Qed.

(* looking inside an ElemWithHoles: only with its own lookup method *)
Theorem C44_holes : forall {F} (b : ebase F) (o e : elem F) (i : list (elem F)) (tag : string),
  elem_lookup (EHoles b o i) tag = Ok e ->
  (e = o /\ (tag = ("outside." ++ e_name (e_base o))%string \/ tag = "outside" /\ e_name (e_base o) = "")) \/
  (In e i /\ (tag = ("inside." ++ e_name (e_base e))%string \/ tag = "inside" /\ e_name (e_base e) = "")).
Proof.
  intros F b o e i tag. cbn [elem_lookup]. unfold holes_lookup.
  destruct (partition_dot tag) as [head tail] eqn:Pt. apply partition_dot_inv in Pt as [_ Pt].
  destruct (String.eqb_spec head "outside") as [->|].
  - destruct (String.eqb_spec tail (elem_name o)) as [->|]; [|discriminate].
    intros H. injection H as ->. left. split; [reflexivity|].
    destruct Pt as [[-> E]| ->]; [right|left]; auto.
  - destruct (String.eqb_spec head "inside") as [->|]; [|discriminate].
    destruct (find _ i) as [x|] eqn:Fd; [|discriminate]. intros H. injection H as ->.
    apply find_some in Fd as [Fi Fe]. apply String.eqb_eq in Fe. right. split; [exact Fi|].
    destruct Pt as [[-> E]| ->]; [right|left]; auto.
    + split; [reflexivity|]. unfold elem_name in Fe. congruence.
    + now rewrite Fe.
Qed.

Example ex_tree {F} {NF : Num F} : elem F :=
  EGroup (EB "top" (PenBrush None None) false t_new) false
    [("a", ex_leaf "a");
     ("g", EGroup (EB "g" (PenBrush None None) false t_new) false [("b", ex_leaf "b")] [])] [].
Lemma ex_leaf_tidy {F} {NF : Num F} k n (e : elem F) : In (k, e) [(n, ex_leaf n)] -> tidy e.
Proof. intros [H|[]]. injection H as <- <-. constructor. Qed.
Example ex_tree_tidy {F} {NF : Num F} : tidy (@ex_tree F NF).
Proof.
  assert (A : forall n, has_dot n = false -> good_table [(n, @ex_leaf F NF n)]).
  { intros n D. split; [constructor; [easy|constructor]|]. intros k e [H|[]]. injection H as <- <-.
    split; [now apply has_dot_false|reflexivity]. }
  constructor.
  - split; [repeat constructor; cbn; intuition discriminate|].
    intros k e [H|[H|[]]]; injection H as <- <-; split; try reflexivity; now apply has_dot_false.
  - intros k e [H|[H|[]]]; injection H as <- <-; constructor; [now apply A|].
    intros k' e'. apply ex_leaf_tidy.
Qed.
Example C44_nontrivial : forall {F} {NF : Num F},
  tidy (@ex_tree F NF) /\ is_group (@ex_tree F NF) /\ askable ["g"; "b"] /\
  elem_lookup (@ex_tree F NF) "g.b" = Ok (ex_leaf "b") /\
  elem_lookup (@ex_tree F NF) "g.c" = Raise KeyError /\
  elem_lookup (@ex_tree F NF) "a.b" = Raise ValueError.
Proof.
  intros. split; [apply ex_tree_tidy|]. split; [exact I|]. split.
  - split; [|cbn; intuition discriminate].
    intros k [<-|[<-|[]]]; now apply has_dot_false.
  - repeat split.
Qed.
