(* str() of elements: which facts about the element its text tells *)
Require Import Verif.Base Verif.M_vector Verif.M_bezier Verif.M_transform Verif.M_colors Verif.M_elems Verif.M_group Verif.M_dump Verif.M_round Verif.M_repr Verif.L_group Verif.P_dump.
From Coq Require Import String Ascii DecimalString List Lia ZArith.
Import ListNotations.
Local Open Scope string_scope.

Fixpoint no_char (x : ascii) (s : string) : bool :=
  match s with "" => true | String y r => if ascii_dec x y then false else no_char x r end.
Lemma no_char_app x a b : no_char x (a ++ b) = (no_char x a && no_char x b)%bool.
Proof. induction a as [|y a IH]; [reflexivity|]. cbn. destruct (ascii_dec x y); [reflexivity|exact IH]. Qed.
Lemma no_char_has x a b : no_char x (a ++ String x b) = false.
Proof. induction a as [|y a IH]; cbn; [destruct (ascii_dec x x); congruence|]. destruct (ascii_dec x y); [reflexivity|exact IH]. Qed.
(* a string is split in only one way at the last occurrence of a character *)
Lemma split_last x : forall a a' b b', no_char x b = true -> no_char x b' = true -> a ++ String x b = a' ++ String x b' -> a = a' /\ b = b'.
Proof.
  induction a as [|y a IH]; intros [|y' a'] b b' H H' E; cbn in E; injection E.
  - intros ->. split; reflexivity.
  - intros -> ->. rewrite no_char_has in H. discriminate.
  - intros <- ->. rewrite no_char_has in H'. discriminate.
  - intros E' ->. destruct (IH _ _ _ H H' E') as [-> ->]. split; reflexivity.
Qed.
Lemma split_first x : forall a a' b b', no_char x a = true -> no_char x a' = true -> a ++ String x b = a' ++ String x b' -> a = a' /\ b = b'.
Proof.
  induction a as [|y a IH]; intros [|y' a'] b b' H H' E; cbn in E, H, H'; injection E.
  - intros ->. split; reflexivity.
  - intros _ <-. destruct (ascii_dec x x); congruence.
  - intros _ ->. destruct (ascii_dec x x); congruence.
  - intros E' ->. destruct (ascii_dec x y'); [discriminate|]. destruct (IH _ _ _ H H' E') as [-> ->]. split; reflexivity.
Qed.
Lemma uint_no_char u : no_char " " (NilEmpty.string_of_uint u) = true.
Proof. induction u; cbn; auto. Qed.
Lemma decimal_no_space n : no_char " " (decimal n) = true.
Proof. apply uint_no_char. Qed.
Lemma str_app_nil_r s : s ++ "" = s.
Proof. induction s as [|c s IH]; cbn; [reflexivity|]. now rewrite IH. Qed.
Lemma join_classes : forall l l', Forall (fun s => no_char "," s = true /\ s <> "") l -> Forall (fun s => no_char "," s = true /\ s <> "") l' ->
  join ", " l = join ", " l' -> l = l'.
Proof.
  assert (NC : forall x r, no_char "," (x ++ ", " ++ r) = false) by (intros x r; apply no_char_has).
  induction l as [|a l IH]; intros [|a' l'] H H' E.
  - reflexivity.
  - exfalso. apply Forall_inv in H'. destruct H' as [_ N]. destruct l'; cbn in E; destruct a'; cbn in E; congruence.
  - exfalso. apply Forall_inv in H. destruct H as [_ N]. destruct l; cbn in E; destruct a; cbn in E; congruence.
  - pose proof (Forall_inv H) as [A _]. pose proof (Forall_inv H') as [A' _]. apply Forall_inv_tail in H, H'.
    destruct l as [|b l], l' as [|b' l'].
    + cbn in E. now subst.
    + exfalso. change (join ", " (a' :: b' :: l')) with (a' ++ ", " ++ join ", " (b' :: l')) in E. cbn [join] in E. rewrite E in A. rewrite NC in A. discriminate.
    + exfalso. change (join ", " (a :: b :: l)) with (a ++ ", " ++ join ", " (b :: l)) in E. cbn [join] in E. rewrite <- E in A'. rewrite NC in A'. discriminate.
    + change (join ", " (a' :: b' :: l')) with (a' ++ String "," (" " ++ join ", " (b' :: l'))) in E.
      change (join ", " (a :: b :: l)) with (a ++ String "," (" " ++ join ", " (b :: l))) in E.
      destruct (split_first _ _ _ _ _ A A' E) as [-> E']. injection E' as E'. f_equal. apply IH; assumption.
Qed.

Section Str.
  Context {F : Type} {NF : Num F}.
  Variables show show2 : F -> string.

  (* the text of a group tells its name and how many elements and points it has, whatever the name *)
  Theorem C83_str_group b h l p b' h' l' p' :
    str_elem show show2 (EGroup b h l p) = str_elem show show2 (EGroup b' h' l' p') <->
    e_name b = e_name b' /\ List.length l = List.length l' /\ List.length p = List.length p'.
  Proof.
    split; [|intros (A & B & C); cbn [str_elem]; rewrite A, B, C; reflexivity].
    cbn [str_elem]. intros E. apply sapp_inv_head in E.
    assert (Sh : forall n u w, n ++ ", " ++ decimal u ++ " elems, " ++ decimal w ++ " points)" =
      ((((n ++ ",") ++ String " " (decimal u)) ++ String " " "elems,") ++ String " " (decimal w)) ++ String " " "points)").
    { intros. rewrite !sapp_assoc. reflexivity. }
    rewrite !Sh in E. apply split_last in E; try reflexivity. destruct E as [E _].
    apply split_last in E; try apply decimal_no_space. destruct E as [E Ep].
    apply split_last in E; try reflexivity. destruct E as [E _].
    apply split_last in E; try apply decimal_no_space. destruct E as [E El].
    apply split_last in E; try reflexivity. destruct E as [E _].
    repeat split; [exact E|apply decimal_inj; exact El|apply decimal_inj; exact Ep].
  Qed.

  Lemma class_char (e : elem F) : no_char "," (class_of e) = true /\ no_char " " (class_of e) = true /\ no_char "[" (class_of e) = true /\ class_of e <> "".
  Proof. destruct e as [b [ | | | ]| | ]; cbn; repeat split; discriminate. Qed.
  (* of the same class *)
  Definition same_class (e e' : elem F) : Prop :=
    match e, e' with
    | ELeaf _ (SCurve _), ELeaf _ (SCurve _) | ELeaf _ (SRect _ _), ELeaf _ (SRect _ _)
    | ELeaf _ (SRRect _ _ _), ELeaf _ (SRRect _ _ _) | ELeaf _ (SEllipse _ _), ELeaf _ (SEllipse _ _)
    | EGroup _ _ _ _, EGroup _ _ _ _ | EHoles _ _ _, EHoles _ _ _ => True
    | _, _ => False
    end.
  Lemma class_same (e e' : elem F) : class_of e = class_of e' <-> same_class e e'.
  Proof. destruct e as [b [ | | | ]| | ], e' as [b' [ | | | ]| | ]; cbn; split; auto; try discriminate; tauto. Qed.
  Lemma classes_same (l l' : list (elem F)) : map (@class_of F) l = map (@class_of F) l' <-> Forall2 same_class l l'.
  Proof.
    revert l'. induction l as [|e l IH]; intros [|e' l']; cbn [map]; split; intros H; try discriminate; try (now inversion H); auto.
    - injection H as H1 H2. constructor; [now apply class_same|now apply IH].
    - inversion H; subst. f_equal; [now apply class_same|now apply IH].
  Qed.
  (* that of an element with holes tells its name and of which classes its outside and its holes are *)
  Theorem C83_str_holes b o i b' o' i' :
    str_elem show show2 (EHoles b o i) = str_elem show show2 (EHoles b' o' i') <->
    e_name b = e_name b' /\ same_class o o' /\ Forall2 same_class i i'.
  Proof.
    rewrite <- class_same, <- classes_same.
    split; [|intros (A & B & C); cbn [str_elem]; rewrite A, B, C; reflexivity].
    cbn [str_elem]. intros E. apply sapp_inv_head in E.
    assert (Nj : forall l, no_char "[" (join ", " (map (@class_of F) l)) = true).
    { induction l as [|e l IH]; [reflexivity|]. destruct l as [|e' l]; [apply class_char|].
      change (join ", " (map (@class_of F) (e :: e' :: l))) with (class_of e ++ ", " ++ join ", " (map (@class_of F) (e' :: l))).
      rewrite no_char_app. replace (no_char "[" (class_of e)) with true by (symmetry; apply class_char). exact IH. }
    assert (Sh : forall n u w, n ++ ", " ++ u ++ ", [" ++ w ++ "])" = (((n ++ ",") ++ String " " (u ++ ",")) ++ " ") ++ String "[" (w ++ "])")).
    { intros. rewrite !sapp_assoc. cbn [append]. rewrite !sapp_assoc. reflexivity. }
    rewrite !Sh in E. apply split_last in E; [|rewrite no_char_app, Nj; reflexivity|rewrite no_char_app, Nj; reflexivity]. destruct E as [E Ei].
    assert (Ei' : join ", " (map (@class_of F) i) = join ", " (map (@class_of F) i')).
    { assert (S1 : forall w, w ++ "])" = (w ++ "]") ++ String ")" "") by (intros; rewrite sapp_assoc; reflexivity).
      rewrite !S1 in Ei. apply split_last in Ei; try reflexivity. destruct Ei as [Ei _]. apply split_last in Ei; try reflexivity. apply Ei. }
    apply join_classes in Ei'; [|apply Forall_map, Forall_forall; intros; split; apply class_char|apply Forall_map, Forall_forall; intros; split; apply class_char].
    apply split_last in E; try reflexivity. destruct E as [E _].
    apply split_last in E; [|rewrite no_char_app; replace (no_char " " (class_of o)) with true by (symmetry; apply class_char); reflexivity
                           |rewrite no_char_app; replace (no_char " " (class_of o')) with true by (symmetry; apply class_char); reflexivity].
    destruct E as [E Eo]. apply split_last in E; try reflexivity. apply split_last in Eo; try reflexivity.
    repeat split; [apply E|apply Eo|exact Ei'].
  Qed.

  (* the text of a rectangle or ellipse is its repr; that of a curve is its repr with coordinates rounded to two digits and
     control points written without their class *)
  Theorem C83_str_shapes b s : match s with SCurve _ => False | _ => True end -> str_elem show show2 (ELeaf b s) = repr_elem show (ELeaf b s).
  Proof. destruct s; intros H; [destruct H| | | ]; cbn [str_elem repr_elem repr_leaf join]; rewrite ?sapp_assoc; reflexivity. Qed.
End Str.

Theorem C83_str_curve {F} {NF : Num F} {FF : NumFloor F} (show show2 : F -> string) b l : (forall x, show2 x = show (round_n 2 x)) ->
  exists ts, Forall2 (fun c t => repr_cp show (cp_round 2 c) = "ControlPoint" ++ t) l ts /\
    str_elem show show2 (ELeaf b (SCurve l)) = "ElemCurve(" ++ repr_str (e_name b) ++ ", " ++ join ", " ts ++ ")".
Proof.
  intros Hs. exists (map (str_cp show2) l). split; [|reflexivity].
  induction l as [|c l IH]; constructor; [|exact IH].
  unfold repr_cp, str_cp, cp_round, repr_pt, repr_vec, p_round, v_round. cbn [cc cdl cdr ckind px py vx vy]. rewrite !Hs. reflexivity.
Qed.

(* a name that looks like the rest of such a text, a curve with coordinates that are rounded, and holes *)
Definition ebz (n : string) : ebase Z := EB n (PenBrush None None) true (@t_new Z _).
Example C83_example_str :
  str_elem showZ showZ (EGroup (ebz "a, 3 elems, 1 points)") false [("r", ELeaf (ebz "r") (SRect (P 1 2) (P 3 4)))] [])%Z = "Group(a, 3 elems, 1 points), 1 elems, 0 points)" /\
  str_elem showZ showZ (EHoles (ebz "h") (ELeaf (ebz "o") (SCurve [])) [ELeaf (ebz "i") (SEllipse (P 1 2) (P 3 4)); ELeaf (ebz "j") (SRect (P 1 2) (P 3 4))])%Z =
    "ElemWithHoles(h, ElemCurve, [ElemEllipse, ElemRectangle])" /\
  str_elem showZ (fun _ => "0.13") (ELeaf (ebz "c") (SCurve [CP (P 1 2) (V 3 4) (V 5 6) "sharp"]))%Z =
    "ElemCurve('c', (Point(0.13, 0.13), Vector(0.13, 0.13), Vector(0.13, 0.13), 'sharp'))".
Proof. repeat split; vm_compute; reflexivity. Qed.
