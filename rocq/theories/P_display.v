(* C75: display, and the order of the members in display and dump. *)
Require Import Verif.Base Verif.M_vector Verif.M_bbox Verif.M_transform Verif.M_bezier Verif.M_colors Verif.M_elems Verif.M_group Verif.L_group
  Verif.M_dump Verif.L_dump2 Verif.M_display.
From Coq Require Import String List Bool Lia Permutation Sorted.
Import ListNotations.
Local Open Scope string_scope.
Local Open Scope list_scope.

(* ---------------- specification ---------------- *)
(* the same tree, but the tables of its groups are filled in another order; when [deep] also inside
   the outside of shapes with holes *)
Inductive shuffled {F} (deep : bool) : elem F -> elem F -> Prop :=
| shuffled_leaf b s : shuffled deep (ELeaf b s) (ELeaf b s)
| shuffled_group b h l l' p p' : NoDup (map fst l) -> NoDup (map fst p) ->
    Permutation (map fst l) (map fst l') -> (forall k e e', In (k, e) l -> In (k, e') l' -> shuffled deep e e') ->
    Permutation p p' -> shuffled deep (EGroup b h l p) (EGroup b h l' p')
| shuffled_holes b o i i' : shuffled_list deep i i' -> shuffled deep (EHoles b o i) (EHoles b o i')
| shuffled_holes_deep b o o' i i' : deep = true -> shuffled deep o o' -> shuffled_list deep i i' -> shuffled deep (EHoles b o i) (EHoles b o' i')
with shuffled_list {F} (deep : bool) : list (elem F) -> list (elem F) -> Prop :=
| shuffled_nil : shuffled_list deep [] []
| shuffled_cons e e' i i' : shuffled deep e e' -> shuffled_list deep i i' -> shuffled_list deep (e :: i) (e' :: i').

(* the element at a place inside a tree, and how far its lines are indented: two spaces for each
   group around it, four for each shape with holes *)
Inductive inside {F} : elem F -> string -> elem F -> Prop :=
| inside_here e : inside e "" e
| inside_member b h l p k e pre x : In (k, e) l -> inside e pre x -> inside (EGroup b h l p) ("  " ++ pre) x
| inside_outside b o i pre x : inside o pre x -> inside (EHoles b o i) ("    " ++ pre) x
| inside_hole b o i e pre x : In e i -> inside e pre x -> inside (EHoles b o i) ("    " ++ pre) x.

(* how many lines are shown *)
Definition total {A} (f : A -> nat) : list A -> nat := fix go l := match l with [] => 0 | a :: l' => f a + go l' end.
Section Count.
  Context {F : Type} {NF : Num F}.
  Definition moved (b : ebase F) : nat := if t_eqb (e_xform b) t_new then 0 else 1.
  Fixpoint lines_of (detail : bool) (e : elem F) : nat :=
    match e with
    | ELeaf _ (SCurve l) => 1 + if detail then 1 + List.length l else 0
    | ELeaf _ _ => 1 + if detail then 1 else 0
    | EGroup b _ l p => 1 + moved b + List.length p + total (fun ke => lines_of detail (snd ke)) l
    | EHoles b o i => 3 + moved b + lines_of detail o + total (lines_of detail) i
    end.
End Count.

(* ---------------- lists ---------------- *)
Lemma sorted_unique {A} (l l' : list (string * A)) : NoDup (map fst l) -> Permutation l l' -> sorted by_name l = sorted by_name l'.
Proof.
  intros N Pm. assert (G : forall m m' : list (string * A), NoDup (map fst m) -> Permutation m m' ->
    StronglySorted (fun a b => str_leb (fst a) (fst b) = true) m -> StronglySorted (fun a b => str_leb (fst a) (fst b) = true) m' -> m = m').
  { clear. induction m as [|a m IH]; intros m' N Pm S S'.
    - now apply Permutation_nil in Pm.
    - destruct m' as [|b m']; [now apply Permutation_sym, Permutation_nil in Pm|].
      assert (E : a = b).
      { assert (Ia : In a (b :: m')) by (eapply Permutation_in; [exact Pm|now left]).
        assert (Ib : In b (a :: m)) by (eapply Permutation_in; [symmetry; exact Pm|now left]).
        destruct Ia as [->|Ia]; [reflexivity|]. destruct Ib as [->|Ib]; [reflexivity|].
        inversion S as [|? ? _ S2]; subst. inversion S' as [|? ? _ S2']; subst. rewrite Forall_forall in S2, S2'.
        specialize (S2 _ Ib). specialize (S2' _ Ia).
        assert (K : fst a = fst b). { unfold str_leb in *. destruct (String.compare (fst a) (fst b)) eqn:E1; try discriminate; [now apply String.compare_eq_iff|].
          rewrite String.compare_antisym, E1 in S2'. discriminate. }
        exfalso. cbn in N. inversion N as [|? ? N1 _]; subst. apply N1. rewrite K. apply in_map_iff. eauto. }
      subst b. f_equal. apply IH; [now inversion N|eapply Permutation_cons_inv; exact Pm|now inversion S|now inversion S']. }
  apply G; try apply sorted_sorted.
  - eapply Permutation_NoDup; [apply Permutation_map, sorted_perm|exact N].
  - rewrite <- !sorted_perm. exact Pm.
Qed.
Lemma nodup_keys {A} (l : list (string * A)) k a b : NoDup (map fst l) -> In (k, a) l -> In (k, b) l -> a = b.
Proof.
  induction l as [|[k' c] l IH]; cbn; [intros _ []|]. intros N [E|I] [E'|I']; inversion N; subst; try congruence; auto.
  - injection E as -> ->. exfalso. apply H1, in_map_iff. now exists (k, b).
  - injection E' as -> ->. exfalso. apply H1, in_map_iff. now exists (k, a).
Qed.
(* two tables with the same keys, and values with the same image *)
Lemma tables_perm {A B} (f : A -> B) (l l' : list (string * A)) : NoDup (map fst l) -> Permutation (map fst l) (map fst l') ->
  (forall k e e', In (k, e) l -> In (k, e') l' -> f e = f e') ->
  Permutation (map (fun ke => (fst ke, f (snd ke))) l) (map (fun ke => (fst ke, f (snd ke))) l').
Proof.
  intros N Pm H. assert (N' : NoDup (map fst l')) by (eapply Permutation_NoDup; eauto). apply NoDup_Permutation.
  - apply (NoDup_map_inv fst). now rewrite map_map.
  - apply (NoDup_map_inv fst). now rewrite map_map.
  - intros [k b]. rewrite !in_map_iff. split; intros ([k' e] & E & I); cbn in E; injection E as -> <-.
    + assert (K : In k (map fst l')) by (eapply Permutation_in; [exact Pm|apply in_map_iff; now exists (k, e)]).
      apply in_map_iff in K as ([k2 e'] & E & I'). cbn in E. subst k2. exists (k, e'). split; [|exact I']. cbn. f_equal. symmetry. eauto.
    + assert (K : In k (map fst l)) by (eapply Permutation_in; [symmetry; exact Pm|apply in_map_iff; now exists (k, e)]).
      apply in_map_iff in K as ([k2 e'] & E & I'). cbn in E. subst k2. exists (k, e'). split; [|exact I']. cbn. f_equal. eauto.
Qed.
Lemma tables_sorted {A B} (f : A -> B) (l l' : list (string * A)) : NoDup (map fst l) -> Permutation (map fst l) (map fst l') ->
  (forall k e e', In (k, e) l -> In (k, e') l' -> f e = f e') ->
  sorted by_name (map (fun ke => (fst ke, f (snd ke))) l) = sorted by_name (map (fun ke => (fst ke, f (snd ke))) l').
Proof. intros N Pm H. apply sorted_unique; [now rewrite map_map|]. now apply tables_perm. Qed.
Lemma total_perm {A} (f : A -> nat) l l' : Permutation l l' -> total f l = total f l'.
Proof. induction 1; cbn; lia. Qed.
Lemma total_map {A B} (f : B -> nat) (g : A -> B) l : total f (map g l) = total (fun a => f (g a)) l.
Proof. induction l; cbn; auto. Qed.
Lemma length_concat {A} (l : list (list A)) : List.length (List.concat l) = total (@List.length A) l.
Proof. induction l; cbn; [reflexivity|]. rewrite app_length. lia. Qed.
Lemma total_ext {A} (f g : A -> nat) l : Forall (fun a => f a = g a) l -> total f l = total g l.
Proof. induction 1; cbn; lia. Qed.

Section Display.
  Context {F : Type} {NF : Num F}.
  Variables show show2 : F -> string.
  Let disp := display show show2.

  (* the prefix is put before every line, and nothing else depends on it *)
  Theorem C75_prefix : forall detail (e : elem F) prefix,
    disp detail prefix e = map (fun s => (prefix ++ s)%string) (disp detail "" e).
  Proof.
    intros detail. refine (elem_induction _ _ _ _).
    - intros b s prefix. unfold disp. cbn [display]. destruct s; cbn [display_leaf map]; destruct detail; cbn [map]; try reflexivity.
      rewrite map_map. reflexivity.
    - intros b h l p IH prefix. unfold disp in *. cbn [display map]. f_equal. rewrite !map_app, map_map. f_equal; [|f_equal].
      + unfold xform_line. destruct (negb _); cbn [map]; [now rewrite !sapp_assoc|reflexivity].
      + apply map_ext. intros [n q]. now rewrite !sapp_assoc.
      + rewrite concat_map, map_map.
        assert (E : forall q, map (fun ke : string * elem F => (fst ke, display show show2 detail (q ++ "  ") (snd ke))) l =
          map (fun kd : string * list string => (fst kd, map (fun s => (q ++ s)%string) (snd kd))) (map (fun ke => (fst ke, display show show2 detail ("" ++ "  ") (snd ke))) l)).
        { intros q. rewrite map_map. apply map_ext_in. intros [k e] I. cbn [fst snd]. rewrite Forall_forall in IH. specialize (IH _ I). cbn [snd] in IH.
          rewrite (IH (q ++ "  ")%string), (IH ("" ++ "  ")%string), map_map. f_equal. apply map_ext. intros s. now rewrite !sapp_assoc. }
        rewrite (E prefix), (sorted_map by_name by_name) by reflexivity. rewrite !map_map. reflexivity.
    - intros b o i IHo IH prefix. unfold disp in *. cbn [display map]. f_equal. rewrite !map_app. cbn [map]. f_equal; [|f_equal; [|f_equal; [|f_equal]]].
      + unfold xform_line. destruct (negb _); cbn [map]; [now rewrite !sapp_assoc|reflexivity].
      + now rewrite !sapp_assoc.
      + rewrite (IHo ((prefix ++ "  ") ++ "  ")%string), (IHo (("" ++ "  ") ++ "  ")%string), map_map. apply map_ext. intros s. now rewrite !sapp_assoc.
      + now rewrite !sapp_assoc.
      + rewrite concat_map, map_map. f_equal. apply map_ext_in. intros e I. rewrite Forall_forall in IH. specialize (IH _ I).
        rewrite (IH ((prefix ++ "  ") ++ "  ")%string), (IH (("" ++ "  ") ++ "  ")%string), map_map. apply map_ext. intros s. now rewrite !sapp_assoc.
  Qed.

  (* the number of lines *)
  Theorem C75_lines : forall detail prefix (e : elem F), List.length (disp detail prefix e) = lines_of detail e.
  Proof.
    intros detail prefix e. revert e prefix. refine (elem_induction _ _ _ _).
    - intros b s prefix. unfold disp. destruct s; cbn [display display_leaf lines_of]; destruct detail; cbn [List.length]; rewrite ?map_length; reflexivity.
    - intros b h l p IH prefix. unfold disp in *. cbn [display lines_of List.length]. rewrite !app_length, map_length, length_concat, total_map.
      rewrite <- (Permutation_length (sorted_perm by_name p)). rewrite <- (total_perm _ _ _ (sorted_perm by_name _)), total_map. cbn [snd].
      rewrite (total_ext _ (fun ke => lines_of detail (snd ke))) by (eapply Forall_impl; [|exact IH]; cbn; auto).
      unfold xform_line, moved. destruct (t_eqb _ _); cbn; lia.
    - intros b o i IHo IH prefix. unfold disp in *. cbn [display lines_of List.length]. rewrite !app_length, length_concat, total_map, IHo. cbn [List.length].
      rewrite (total_ext _ (lines_of detail)) by (eapply Forall_impl; [|exact IH]; cbn; auto).
      unfold xform_line, moved. destruct (t_eqb _ _); cbn; lia.
  Qed.

  (* a builder: its name, then its group with the same detail, indented by two spaces *)
  Theorem C75_builder : forall detail prefix name (g : elem F),
    hd_error (display_builder show show2 detail prefix name g) = Some (prefix ++ "GroupBuilder: " ++ name)%string /\
    tl (display_builder show show2 detail prefix name g) = map (fun s => (prefix ++ "  " ++ s)%string) (disp detail "" g) /\
    List.length (display_builder show show2 detail prefix name g) = S (lines_of detail g).
  Proof.
    intros detail prefix name g. unfold display_builder. cbn [hd_error tl List.length]. split; [reflexivity|].
    fold (disp detail (prefix ++ "  ")%string g). rewrite C75_lines, C75_prefix. split; [|reflexivity].
    apply map_ext. intros s. now rewrite sapp_assoc.
  Qed.

  (* every element of the tree, also in hidden groups, is shown, in consecutive lines *)
  Theorem C75_shows_all : forall detail prefix (e x : elem F) pre, inside e pre x ->
    exists before after, disp detail prefix e = before ++ disp detail (prefix ++ pre) x ++ after.
  Proof.
    intros detail prefix e x pre H. revert prefix. induction H as [e|b h l p k e pre x I _ IH|b o i pre x _ IH|b o i e pre x I _ IH]; intros prefix; unfold disp in *.
    - exists [], []. now rewrite app_nil_r, sapp_nil_r.
    - destruct (IH (prefix ++ "  ")%string) as (a & c & E). rewrite sapp_assoc in E. cbn [display].
      set (m := map (fun ke => (fst ke, display show show2 detail (prefix ++ "  ") (snd ke))) l).
      assert (J : In (display show show2 detail (prefix ++ "  ") e) (map snd (sorted by_name m))).
      { apply in_map_iff. exists (k, display show show2 detail (prefix ++ "  ") e). split; [reflexivity|]. eapply Permutation_in; [apply sorted_perm|].
        apply in_map_iff. now exists (k, e). }
      apply in_split in J as (m1 & m2 & ->). rewrite concat_app. cbn [List.concat]. rewrite E.
      cbv zeta. match goal with |- context [?hd :: (?u ++ ?v ++ _)] => exists (hd :: (u ++ v ++ List.concat m1 ++ a)), (c ++ List.concat m2) end.
      cbn [app]. f_equal. now rewrite <- !app_assoc.
    - destruct (IH ((prefix ++ "  ") ++ "  ")%string) as (a & c & E). rewrite !sapp_assoc in E. cbn [display]. rewrite !sapp_assoc. cbn [append] in *. rewrite E.
      cbv zeta. match goal with |- context [?hd :: (?u ++ ?v ++ (a ++ _ ++ c) ++ ?w)] => exists (hd :: (u ++ v ++ a)), (c ++ w) end.
      cbn [app]. f_equal. now rewrite <- !app_assoc.
    - destruct (IH ((prefix ++ "  ") ++ "  ")%string) as (a & c & E). rewrite !sapp_assoc in E. cbn [display]. rewrite !sapp_assoc. cbn [append] in *.
      apply in_split in I as (i1 & i2 & ->). rewrite map_app, concat_app. cbn [map List.concat]. rewrite E.
      cbv zeta. match goal with |- context [?hd :: (?u ++ ?v ++ ?w ++ ?x ++ ?y ++ (a ++ _ ++ c) ++ ?z)] => exists (hd :: (u ++ v ++ w ++ x ++ y ++ a)), (c ++ z) end.
      cbn [app]. f_equal. do 4 (rewrite <- ?app_assoc; cbn [app]). reflexivity.
  Qed.

  (* what is shown does not depend on the order in which the groups were filled *)
  Theorem C75_order : forall detail prefix (e e' : elem F), shuffled true e e' -> disp detail prefix e = disp detail prefix e'.
  Proof.
    intros detail prefix e. revert e prefix. refine (elem_induction _ _ _ _).
    - intros b s prefix e' H. inversion H; subst. reflexivity.
    - intros b h l p IH prefix e' H. inversion H as [|? ? ? l' ? p' N Np Pm Q Pp| |]; subst. unfold disp in *. cbn [display].
      rewrite (sorted_unique p p' Np Pp). rewrite (tables_sorted (display show show2 detail (prefix ++ "  ")) l l' N Pm); [reflexivity|].
      intros k x x' I I'. rewrite Forall_forall in IH. exact (IH _ I (prefix ++ "  ")%string x' (Q _ _ _ I I')).
    - intros b o i IHo IH prefix e' H.
      assert (G : forall i', shuffled_list true i i' -> map (disp detail ((prefix ++ "  ") ++ "  ")) i = map (disp detail ((prefix ++ "  ") ++ "  ")) i').
      { clear - IH. induction IH as [|x i Hx _ IHi]; intros i' S; inversion S; subst; [reflexivity|]. cbn [map]. f_equal; auto. }
      inversion H; subst; unfold disp in *; cbn [display].
      + now rewrite (G i').
      + now rewrite (G i'), (IHo _ o').
  Qed.

  (* nor does the text written by dump, when the outside of a shape with holes is left alone *)
  Theorem C75_dump_order : forall (e e' : elem F), shuffled false e e' -> forall d, dump_el show e d = dump_el show e' d.
  Proof.
    assert (X : forall (e e' : elem F), shuffled false e e' -> dump_el show e = dump_el show e').
    { refine (elem_induction _ _ _ _).
      - intros b s e' H. inversion H; subst. reflexivity.
      - intros b h l p IH e' H. inversion H as [|? ? ? l' ? p' N Np Pm Q Pp| |]; subst. cbn [dump_el].
        rewrite (tables_sorted (dump_el show) l l' N Pm); [reflexivity|].
        intros k x x' I I'. rewrite Forall_forall in IH. exact (IH _ I x' (Q _ _ _ I I')).
      - intros b o i IHo IH e' H.
        assert (G : forall i', shuffled_list false i i' -> map (dump_el show) i = map (dump_el show) i').
        { clear - IH. induction IH as [|x i Hx _ IHi]; intros i' S; inversion S; subst; [reflexivity|]. cbn [map]. f_equal; auto. }
        inversion H; subst; [|discriminate]. cbn [dump_el]. now rewrite (G i'). }
    intros e e' H d. now rewrite (X e e' H).
  Qed.

  (* the holes are announced by the same line as the outside *)
  Theorem C75_holes : forall detail prefix b o (i : list (elem F)),
    exists header, disp detail prefix (EHoles b o i) =
      header ++ [(prefix ++ "  Outside:")%string] ++ disp detail (prefix ++ "    ") o ++
      [(prefix ++ "  Outside:")%string] ++ List.concat (map (disp detail (prefix ++ "    ")) i) /\
      (List.length header <= 2)%nat.
  Proof.
    intros detail prefix b o i. unfold disp. cbn [display]. rewrite !sapp_assoc. cbn [append].
    exists ((prefix ++ "ElemWithHoles: " ++ repr_str (e_name b))%string :: xform_line show2 (prefix ++ "  ") b). split; [reflexivity|].
    unfold xform_line. destruct (negb _); cbn; lia.
  Qed.
End Display.

(* ---------------- examples ---------------- *)
Require Import Verif.P_dump.
Section Examples.
  Local Open Scope Z_scope.
  Let pb : penbrush Z := PenBrush (Some (Pen (Brush (CStr "red")) 1)) None.
  Let r (n : string) : elem Z := ELeaf (EB n pb true t_new) (SRect (P 0 0) (P 2 3)).
  Let g (l : list (string * elem Z)) : elem Z := EGroup (EB "g" pb false t_new) true l [("p", P 1 1)].
  Definition ex_show (z : Z) : string := if (z <? 0)%Z then "-" else decimal (Z.to_nat z).
  Example C75_ex_shuffled : shuffled true (g [("a", r "a"); ("b", r "b")]) (g [("b", r "b"); ("a", r "a")]).
  Proof.
    constructor.
    - repeat constructor; cbn; intuition discriminate.
    - repeat constructor; cbn; intuition discriminate.
    - cbn. constructor.
    - intros k e e' I I'. cbn in I, I'. destruct I as [I|[I|[]]], I' as [I'|[I'|[]]]; injection I as <- <-; injection I' as E; subst; try discriminate; constructor.
    - reflexivity.
  Qed.
  Example C75_ex_display : display ex_show ex_show true "> " (EHoles (EB "h" pb true t_new) (r "o") [g [("b", r "b"); ("a", r "a")]]) =
    ["> ElemWithHoles: 'h'"; ">   Outside:"; ">     ElemRectangle: o (0, 0) (2, 3)"; ">      closed=True pen=PenBrush(red, None)";
     ">   Outside:"; ">     ElemGroup: 'g' hidden"; ">       Point: p (1, 1)";
     ">       ElemRectangle: a (0, 0) (2, 3)"; ">        closed=True pen=PenBrush(red, None)";
     ">       ElemRectangle: b (0, 0) (2, 3)"; ">        closed=True pen=PenBrush(red, None)"].
  Proof. vm_compute. reflexivity. Qed.
  Example C75_ex_inside : inside (EHoles (EB "h" pb true t_new) (r "o") [g [("b", r "b"); ("a", r "a")]]) ("    " ++ "  " ++ "") (r "a").
  Proof. eapply inside_hole; [now left|]. eapply inside_member; [now right; left|]. constructor. Qed.
End Examples.
(* dump does depend on the order inside the outside of a shape with holes, which it writes as repr *)
Theorem C75_dump_order_refuted : exists e e' : elem Z, shuffled true e e' /\ dump_text ex_show e <> dump_text ex_show e'.
Proof.
  pose (pb := @PenBrush Z None None).
  pose (r := fun n => ELeaf (EB n pb true t_new) (SRect (P 0 0)%Z (P 2 3)%Z)).
  pose (g := fun l : list (string * elem Z) => EGroup (EB "g" pb false t_new) false l []).
  exists (EHoles (EB "h" pb true t_new) (g [("a", r "a"); ("b", r "b")]) []), (EHoles (EB "h" pb true t_new) (g [("b", r "b"); ("a", r "a")]) []).
  split.
  - apply shuffled_holes_deep; [reflexivity| |constructor]. constructor.
    + repeat constructor; cbn; intuition discriminate.
    + constructor.
    + cbn. constructor.
    + intros k e e' I I'. cbn in I, I'. destruct I as [I|[I|[]]], I' as [I'|[I'|[]]]; injection I as <- <-; injection I' as E; subst; try discriminate; constructor.
    + constructor.
  - vm_compute. discriminate.
Qed.
