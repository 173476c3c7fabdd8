(* C69: text of test data. *)
Require Import Verif.Base Verif.M_vector Verif.M_bbox Verif.M_transform Verif.M_bezier Verif.M_colors
  Verif.M_elems Verif.M_group Verif.S_group Verif.L_group Verif.M_dump Verif.S_dump
  Verif.L_dump Verif.L_dump2 Verif.L_dump3 Verif.L_dump4 Verif.P_dump Verif.M_pickle Verif.S_pickle Verif.L_pickle Verif.L_pickle2.
From Coq Require Import String Ascii List Lia Bool ZArith DecimalString DecimalZ Permutation Sorted.
Import ListNotations.
Local Open Scope list_scope.
Local Open Scope string_scope.

Section All.
  Context {F : Type} {NF : Num F}.
  Variable show : F -> string.

  Lemma all_are_some {A} (p : @pydata F -> option A) l r : all_are p l = Some r -> Forall2 (fun d a => p d = Some a) l r.
  Proof.
    revert r. induction l as [|d l IH]; intros r H; cbn in H; [injection H as <-; constructor|].
    destruct (p d) eqn:Pd; [|discriminate]. destruct (all_are p l); [|discriminate]. injection H as <-. constructor; auto.
  Qed.
  Lemma plain_are dom l : Forall plain_item l -> fold_right and True (map (data_in dom) l) -> exists es, all_are is_elem l = Some es /\ Forall (fun e => dumpable e /\ elem_in dom e) es /\ map restored l = map (fun e => VElem (reloaded e)) es.
  Proof.
    intros H. induction H as [|d l Hd H IH]; [exists []; repeat split; constructor|]. intros [Nd Nl]. destruct (IH Nl) as (es & A & B & C). destruct d; try destruct Hd. exists (e :: es). cbn. rewrite A, C. repeat split. now constructor.
  Qed.
  Lemma triples_are dom l : Forall triple_item l -> fold_right and True (map (data_in dom) l) -> exists ts, all_are is_triple l = Some ts /\ Forall (fun x => dumpable (snd (fst x)) /\ elem_in dom (snd (fst x)) /\ xf_in dom (snd x)) ts /\ map restored l = map triple_value ts.
  Proof.
    intros H. induction H as [|d l Hd H IH]; [exists []; repeat split; constructor|]. intros [Nd Nl]. destruct (IH Nl) as (ts & A & B & C).
    destruct d as [| | |[|[] [|[] [|[] [|]]]]| |]; try destruct Hd. exists ((s, e, t) :: ts). cbn. rewrite A, C. repeat split. cbn in Nd. constructor; [cbn; tauto|exact B].
  Qed.
  Lemma triples_not_plain l : l <> [] -> Forall triple_item l -> all_are (@is_elem F) l = None.
  Proof.
    intros N H. destruct H as [|d l Hd H]; [contradiction|]. destruct d; try destruct Hd. reflexivity.
  Qed.
  Lemma choose {A B} (R : A -> B -> Prop) l : Forall (fun a => exists b, R a b) l -> exists l', Forall2 R l l'.
  Proof. intros H. induction H as [|a l (b & Hb) H (l' & IH)]; [exists []; constructor|]. exists (b :: l'). now constructor. Qed.

  Theorem C69_text_reads_back : forall (dom : F -> Prop) (num_of : string -> option F), (forall x, has_char (ascii_of_nat 10) (show x) = false) -> reads_back_on dom show num_of ->
    forall data k, picklable data -> data_in dom data -> exists s, do_pickle show data (indent k) = Ok (Some s) /\ read_value num_of s = Some (restored data).
  Proof.
    intros dom num_of OL RB data k H N. assert (Ne := elem_mono dom _ RB). assert (Nx := xf_mono dom _ RB). destruct data as [e|s|t|l|l|]; try destruct H.
    - destruct (all_flat show OL e) as (c & s & l & Fl). eexists. split; [cbn [do_pickle]; rewrite (one_elem show c s l e k Fl); reflexivity|].
      apply read_means. intros E PE. apply elem_means0 with (e := e) (show := show); auto.
    - destruct (plain_are dom l H N) as (es & A & D & R). cbn [do_pickle restored]. rewrite A, R.
      destruct (choose (fun e ls => item_lines (fun _ d e => let* d := dump_el show e d in add_comma d) e ls /\ item_means num_of (fun e => VElem (reloaded e)) e ls) es) as (liness & Fo).
      { eapply Forall_impl; [|exact D]. intros e [De Dn]. destruct (elem_item show OL e) as (c & s & ls & Fl & It). eexists. split; [exact It|]. apply elem_item_means with (show := show); auto. }
      eexists. split; [rewrite (list_flat (fun _ d e => let* d := dump_el show e d in add_comma d) es liness); [reflexivity|]|].
      + clear - Fo. induction Fo as [|? ? ? ? []]; constructor; auto.
      + apply read_means. intros E PE. apply list_means; auto. clear - Fo. induction Fo as [|? ? ? ? []]; constructor; auto.
    - destruct (triples_are dom l H N) as (ts & A & D & R). cbn [do_pickle restored].
      destruct l as [|d0 l0].
      + exists (indented (indent k) (list_lines [])). split; [exact (f_equal (fun r => let* s := r in Ok (Some s)) (list_flat (fun _ d e => let* d := dump_el show e d in add_comma d) [] [] (Forall2_nil _) k))|].
        apply read_means. intros E PE. exact (list_means num_of (fun v => v) [] [] (Forall2_nil _) E PE k).
      + rewrite triples_not_plain, A, R; [|discriminate|exact H].
        destruct (choose (fun x ls => item_lines (dump_triple show) x ls /\ item_means num_of triple_value x ls) ts) as (liness & Fo).
        { eapply Forall_impl; [|exact D]. intros [[n e] t] (De & Dn & Dt). cbn in De, Dn, Dt. destruct (triple_item_lines show OL n e t) as (c & s & ls & Fl & It). eexists. split; [exact It|]. apply triple_item_means; auto. }
        eexists. split; [rewrite (list_flat (dump_triple show) ts liness); [reflexivity|]|].
        * clear - Fo. induction Fo as [|? ? ? ? []]; constructor; auto.
        * apply read_means. intros E PE. apply list_means; auto. clear - Fo. induction Fo as [|? ? ? ? []]; constructor; auto.
  Qed.

  (* The prefix moves all lines but the first to the right and changes nothing else *)
  Theorem C69_prefix_indents : (forall x, has_char (ascii_of_nat 10) (show x) = false) -> forall data, do_pickle show data "" = Ok None /\ (forall k, do_pickle show data (indent k) = Ok None) \/
    exists lines, Forall (fun s => has_char (ascii_of_nat 10) s = false) lines /\ lines <> [] /\ do_pickle show data "" = Ok (Some (join newline lines)) /\
      forall k, do_pickle show data (indent k) = Ok (Some (indented (indent k) lines)).
  Proof.
    intros OL.
    assert (K : forall (r : nat -> res (option string)), (exists lines, Forall (fun s => has_char (ascii_of_nat 10) s = false) lines /\ lines <> [] /\ forall k, r k = Ok (Some (indented (indent k) lines))) ->
      exists lines, Forall (fun s => has_char (ascii_of_nat 10) s = false) lines /\ lines <> [] /\ r 0%nat = Ok (Some (join newline lines)) /\ forall k, r k = Ok (Some (indented (indent k) lines))).
    { intros r (lines & A & N & B). exists lines. repeat split; auto. rewrite B. unfold indented. destruct lines; [contradiction|]. cbn [indent append]. now rewrite map_id. }
    intros data. destruct data as [e|s|t|l|l|]; try (left; split; reflexivity).
    - right. apply (K (fun k => do_pickle show (DElem e) (indent k))). destruct (all_flat show OL e) as (c & s & l & Fl). exists (String c s :: l). destruct (Fl) as (_ & O & Ol & _). split; [now constructor|]. split; [discriminate|].
      intros k. cbn [do_pickle]. rewrite (one_elem show c s l e k Fl). reflexivity.
    - destruct (all_are is_elem l) as [es|] eqn:A; [|destruct (all_are is_triple l) as [ts|] eqn:B].
      + right. apply (K (fun k => do_pickle show (DList l) (indent k))).
        destruct (choose (fun e ls => item_lines (fun _ d e => let* d := dump_el show e d in add_comma d) e ls) es) as (liness & Fo).
        { apply Forall_forall. intros e _. destruct (elem_item show OL e) as (c & s & ls & Fl & It). eauto. }
        exists (list_lines liness). split; [|split; [discriminate|]].
        * constructor; [reflexivity|]. apply Forall_app. split; [|repeat constructor]. apply Forall_map. clear - Fo. induction Fo as [|? ? ? ? [I _]]; cbn; [constructor|]. apply Forall_app. auto.
        * intros k. cbn [do_pickle]. rewrite A. rewrite (list_flat _ es liness Fo). reflexivity.
      + right. apply (K (fun k => do_pickle show (DList l) (indent k))).
        destruct (choose (fun e ls => item_lines (dump_triple show) e ls) ts) as (liness & Fo).
        { apply Forall_forall. intros [[n e] t] _. destruct (triple_item_lines show OL n e t) as (c & s & ls & Fl & It). eauto. }
        exists (list_lines liness). split; [|split; [discriminate|]].
        * constructor; [reflexivity|]. apply Forall_app. split; [|repeat constructor]. apply Forall_map. clear - Fo. induction Fo as [|? ? ? ? [I _]]; cbn; [constructor|]. apply Forall_app. auto.
        * intros k. cbn [do_pickle]. rewrite A, B. rewrite (list_flat _ ts liness Fo). reflexivity.
      + left. cbn [do_pickle]. rewrite A, B. auto.
  Qed.

  (* None exactly for the values that are neither an element, nor a list of elements, nor a
     list of (string, element, transform) tuples *)
  Theorem C69_none_iff : (forall x, has_char (ascii_of_nat 10) (show x) = false) -> forall data k, do_pickle show data (indent k) = Ok None <->
    match data with
    | DElem _ => False
    | DList l => ~ Forall (fun d => exists e, d = DElem e) l /\ ~ Forall (fun d => exists s e t, d = DTuple [DStr s; DElem e; DXf t]) l
    | _ => True
    end.
  Proof.
    intros OL data k.
    assert (N : forall A (p : @pydata F -> option A) (Q : @pydata F -> Prop), (forall d, (exists a, p d = Some a) <-> Q d) -> forall l, all_are p l = None <-> ~ Forall Q l).
    { intros A p Q HQ. induction l as [|d l IH]; cbn; [split; [discriminate|intros H; destruct H; constructor]|]. specialize (HQ d). destruct (p d) as [a|].
      - destruct (all_are p l).
        + split; [discriminate|]. intros H. destruct IH as [_ IH]. enough (X : ~ Forall Q l) by discriminate (IH X). intros X. apply H. constructor; [apply HQ; eauto|exact X].
        + split; [|reflexivity]. intros _ H. inversion H; subst. now apply IH.
      - split; [|reflexivity]. intros _ H. inversion H as [|? ? H1 _]; subst. apply HQ in H1 as [a H1]. discriminate. }
    assert (N1 := N _ (@is_elem F) (fun d => exists e, d = DElem e)). assert (N2 := N _ (@is_triple F) (fun d => exists s e t, d = DTuple [DStr s; DElem e; DXf t])). clear N.
    assert (H1 : forall d : @pydata F, (exists a, is_elem d = Some a) <-> exists e, d = DElem e).
    { intros d. split; [intros [a H]; destruct d; try discriminate; eauto|intros [e ->]; cbn; eauto]. }
    assert (H2 : forall d : @pydata F, (exists a, is_triple d = Some a) <-> exists s e t, d = DTuple [DStr s; DElem e; DXf t]).
    { intros d. split; [intros [a H]; destruct d as [| | |[|[] [|[] [|[] [|]]]]| |]; try discriminate; eauto|intros (s & e & t & ->); cbn; eauto]. }
    specialize (N1 H1). specialize (N2 H2).
    destruct data as [e|s|t|l|l|]; try (split; [exact (fun _ => I)|reflexivity]).
    - split; [|intros []]. destruct (all_flat show OL e) as (c & s & l & Fl). cbn [do_pickle]. rewrite (one_elem show c s l e k Fl). discriminate.
    - destruct (C69_prefix_indents OL (DList l)) as [[_ X]|(lines & _ & _ & _ & X)]; specialize (X k); rewrite X; cbn [do_pickle] in X; rewrite <- N1, <- N2; split.
      + intros _. destruct (all_are is_elem l) as [es|]; [destruct (dump_list _ _ _); discriminate|]. split; [reflexivity|]. destruct (all_are is_triple l); [destruct (dump_list _ _ _); discriminate|reflexivity].
      + reflexivity.
      + discriminate.
      + intros [A B]. rewrite A, B in X. discriminate.
  Qed.
End All.

(* data like that of the project's own tests *)
Local Open Scope Z_scope.
Definition curve : elem Z := ELeaf (EB "c" pb1 false t_new) (SCurve [CP (P 1 2) (V 0 0) (V 1 1) "smooth"; CP (P 1 2) (V 0 0) (V 1 1) "sharp"]).
Definition rect : elem Z := ELeaf (EB "r" pb1 true t_new) (SRect (P 1 2) (P (-3) 4)).
Definition data1 : @pydata Z := DList [DTuple [DStr "one"; DElem rect; DXf t_new]; DTuple [DStr "two"; DElem curve; DXf (t_new6 1 2 3 4 5 6)]].
Lemma shows_one_line z : has_char (ascii_of_nat 10) (showZ z) = false.
Proof.
  assert (D : forall u, has_char (ascii_of_nat 10) (NilZero.string_of_uint u) = false).
  { intros u. unfold NilZero.string_of_uint. destruct u; [reflexivity|..]; cbn; induction u; cbn; auto. }
  unfold showZ. destruct (Z.to_int z); cbn [NilZero.string_of_int]; [apply D|]. cbn. apply D.
Qed.
Example C69_hypotheses : (forall x, has_char (ascii_of_nat 10) (showZ x) = false) /\ reads_back showZ readZ /\ picklable data1 /\ data_in (fun _ => True) data1.
Proof.
  split; [exact shows_one_line|]. split; [exact C68_ints_read_back|]. split; [|cbn; unfold base_in, pb_in, pen_in, xf_in, cp_in, pt_in, vec_in; cbn; repeat (split || constructor || auto)]. right. repeat constructor; cbn; unfold sound_base; cbn; auto; discriminate.
Qed.
Example C69_ex_text : do_pickle showZ data1 "    " = Ok (Some (join newline
  ["[";
   "        ('one', ElemRectangle('r', PenBrush(Pen((1, -2, 3), 2), None), closed=True, p1=Point(1, 2), p2=Point(-3, 4)), Transform((1, 0, 0, 0, 1, 0))),";
   "        ('two',";
   "            ElemCurve('c', PenBrush(Pen((1, -2, 3), 2), None), closed=False, control_points=[";
   "                ControlPoint(Point(1, 2), Vector(0, 0), Vector(1, 1), 'smooth'),";
   "                ControlPoint(Point(1, 2), Vector(0, 0), Vector(1, 1), 'sharp'),";
   "            ]),";
   "            Transform((1, 2, 3, 4, 5, 6))),";
   "    ]"])).
Proof. vm_compute. reflexivity. Qed.
Example C69_ex_read : match do_pickle showZ data1 "    " with Ok (Some s) => read_value readZ s | _ => None end =
  Some (VList [VTuple [VStr "one"; VElem rect; VXf t_new]; VTuple [VStr "two"; VElem curve; VXf (t_new6 1 2 3 4 5 6)]]).
Proof. vm_compute. reflexivity. Qed.
