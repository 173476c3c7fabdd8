(* Lemmas for pickled test data. *)
Require Import Verif.Base Verif.M_vector Verif.M_bbox Verif.M_transform Verif.M_bezier Verif.M_colors
  Verif.M_elems Verif.M_group Verif.S_group Verif.L_group Verif.M_dump Verif.S_dump
  Verif.L_dump Verif.L_dump2 Verif.L_dump3 Verif.L_dump4 Verif.M_pickle Verif.S_pickle.
From Coq Require Import String Ascii List Lia Bool DecimalString Permutation Sorted.
Import ListNotations.
Local Open Scope list_scope.
Local Open Scope string_scope.

(* ---------------- no line breaks within a line ---------------- *)

Definition nl : ascii := ascii_of_nat 10.
Definition one_line (s : string) : Prop := has_char nl s = false.
Lemma has_app c s t : has_char c (s ++ t) = has_char c s || has_char c t.
Proof. induction s; cbn; [reflexivity|]. now rewrite IHs, orb_assoc. Qed.
Lemma ol_app s t : one_line s -> one_line t -> one_line (s ++ t).
Proof. unfold one_line. intros H H'. now rewrite has_app, H, H'. Qed.
Lemma ol_join sep l : one_line sep -> Forall one_line l -> one_line (join sep l).
Proof.
  intros S H. induction H as [|s l H Hl IH]; [reflexivity|]. cbn [join]. destruct l; [exact H|]. repeat apply ol_app; auto.
Qed.
Lemma ol_escape q c : isq q = true -> one_line (escape q c).
Proof.
  intros Q. unfold isq in Q. apply orb_prop in Q as [Q|Q]; apply Ascii.eqb_eq in Q; subst q; destruct c as [[] [] [] [] [] [] [] []]; reflexivity.
Qed.
Lemma ol_repr s : one_line (repr_str s).
Proof.
  unfold repr_str. set (q := if _ : bool then _ else _). assert (Q : isq q = true) by (unfold q; destruct (_ && _); reflexivity). clearbody q.
  assert (Hq : Ascii.eqb q nl = false) by (unfold isq in Q; apply orb_prop in Q as [Q|Q]; apply Ascii.eqb_eq in Q; subst q; reflexivity).
  assert (E : one_line (escapes q s)) by (induction s; [reflexivity|]; cbn; apply ol_app; auto using ol_escape).
  unfold one_line in *. cbn [has_char]. rewrite Hq, has_app, E. cbn [has_char]. now rewrite Hq.
Qed.
Lemma ol_indent k : one_line (indent k).
Proof. induction k; [reflexivity|]. exact IHk. Qed.

Lemma ind_inj k a b : ind k a = ind k b -> a = b.
Proof. unfold ind. induction k; cbn; auto. intros H. injection H. auto. Qed.
Lemma map_ind_inj k : forall a b, map (ind k) a = map (ind k) b -> a = b.
Proof. induction a as [|x a IH]; intros [|y b] H; try discriminate; auto. injection H as H1 H2. apply ind_inj in H1. f_equal; auto. Qed.

(* ---------------- dumps without variables ---------------- *)

Section Flat.
  Context {F : Type} {NF : Num F}.
  Variable show : F -> string.
  Hypothesis OL : forall x, one_line (show x).

  Lemma ol_tuple l : Forall one_line l -> one_line (repr_tuple l).
  Proof.
    intros H. assert (J : one_line (join ", " l)) by now apply ol_join. unfold repr_tuple. destruct l as [|a [|b l]]; [reflexivity| |].
    - apply ol_app; [reflexivity|]. apply ol_app; [now inversion H|reflexivity].
    - apply ol_app; [reflexivity|]. apply ol_app; [exact J|reflexivity].
  Qed.
  Lemma ol_pt p : one_line (repr_pt show p).
  Proof. unfold repr_pt. repeat (apply ol_app; [reflexivity || apply OL|]). reflexivity. Qed.
  Lemma ol_vec p : one_line (repr_vec show p).
  Proof. unfold repr_vec. repeat (apply ol_app; [reflexivity || apply OL|]). reflexivity. Qed.
  Lemma ol_cp c : one_line (repr_cp show c).
  Proof. unfold repr_cp. apply ol_app; [reflexivity|]. apply ol_tuple. repeat constructor; auto using ol_pt, ol_vec, ol_repr. Qed.
  Lemma ol_shows l : Forall one_line (map show l).
  Proof. apply Forall_map. apply Forall_forall. intros x _. apply OL. Qed.
  Lemma ol_color c : one_line (repr_color show c).
  Proof. destruct c; cbn; auto using ol_repr, ol_tuple, ol_shows. Qed.
  Lemma ol_pb p : one_line (repr_pb show p).
  Proof.
    unfold repr_pb. apply ol_app; [reflexivity|]. apply ol_app; [destruct (pb_pen p) as [[b w]|]; cbn [repr_opt]; [|reflexivity]|].
    - unfold repr_pen. apply ol_app; [reflexivity|]. apply ol_app; [apply ol_color|]. apply ol_app; [reflexivity|]. apply ol_app; [apply OL|reflexivity].
    - apply ol_app; [reflexivity|]. apply ol_app; [|reflexivity]. destruct (pb_brush p); cbn [repr_opt]; [|reflexivity]. unfold repr_brush. apply ol_app; [reflexivity|]. apply ol_app; [apply ol_color|reflexivity].
  Qed.
  Lemma ol_xf t : one_line (repr_xf show t).
  Proof. unfold repr_xf. apply ol_app; [reflexivity|]. apply ol_app; [|reflexivity]. apply ol_tuple, ol_shows. Qed.
  Lemma ol_bool b : one_line (repr_bool b). Proof. destruct b; reflexivity. Qed.
  Lemma ol_dict l : Forall (fun kv => one_line (snd kv)) l -> one_line (repr_dict l).
  Proof.
    intros H. unfold repr_dict. apply ol_app; [reflexivity|]. apply ol_app; [|reflexivity]. apply ol_join; [reflexivity|]. apply Forall_map.
    eapply Forall_impl; [|exact H]. intros kv Hk. apply ol_app; [apply ol_repr|]. apply ol_app; [reflexivity|exact Hk].
  Qed.
  Lemma ol_elem : forall e, one_line (repr_elem show e).
  Proof.
    apply elem_induction.
    - intros b s. cbn [repr_elem]. destruct s; cbn [repr_leaf]; (apply ol_app; [reflexivity|]).
      + apply ol_app; [apply ol_repr|]. apply ol_app; [reflexivity|]. apply ol_app; [|reflexivity]. apply ol_join; [reflexivity|]. apply Forall_map, Forall_forall. intros c _. apply ol_cp.
      + apply ol_app; [|reflexivity]. apply ol_join; [reflexivity|]. repeat constructor; auto using ol_repr, ol_pt.
      + apply ol_app; [|reflexivity]. apply ol_join; [reflexivity|]. repeat constructor; auto using ol_repr, ol_pt.
      + apply ol_app; [|reflexivity]. apply ol_join; [reflexivity|]. repeat constructor; auto using ol_repr, ol_pt.
    - intros b h l p IH. cbn [repr_elem]. apply ol_app; [reflexivity|]. apply ol_app; [|reflexivity]. apply ol_join; [reflexivity|].
      repeat constructor; auto using ol_repr, ol_pb, ol_bool, ol_xf; apply ol_dict; apply Forall_map.
      + eapply Forall_impl; [|exact IH]. auto.
      + apply Forall_forall. intros kp _. apply ol_pt.
    - intros b o i IHo IHi. cbn [repr_elem]. apply ol_app; [reflexivity|]. apply ol_app; [|reflexivity]. apply ol_join; [reflexivity|].
      repeat constructor; auto using ol_repr, ol_pb, ol_bool, ol_xf. apply ol_app; [reflexivity|]. apply ol_app; [|reflexivity]. apply ol_join; [reflexivity|]. now apply Forall_map.
  Qed.

  (* without variables the lines of an element depend on nothing else *)
  Definition flat_lines (e : elem F) (c : ascii) (s : string) (l : list string) : Prop :=
    is_letter c = true /\ one_line (String c s) /\ Forall one_line l /\
    forall d, d_use d = false -> dump_el show e d = Ok (with_lines (d_lines d ++ map (ind (d_depth d)) (String c s :: l))%list d).
  Lemma with_lines_twice a b d : with_lines a (with_lines b d) = with_lines a d.
  Proof. reflexivity. Qed.
  Definition header (cls : string) (b : ebase F) (args : list (string * string)) (final : option string) : string :=
    cls ++ ("(" ++ repr_str (e_name b) ++ ", " ++ repr_pb show (e_pb b) ++ ", closed=" ++ repr_bool (e_closed b) ++ ", " ++
      (if negb (t_eqb (e_xform b) t_new) then "xform=" ++ repr_xf show (e_xform b) ++ ", " else "") ++
      join ", " (map (fun kv => fst kv ++ "=" ++ snd kv)%string args ++ match final with Some k => [(k ++ "=[")%string] | None => [] end)%list ++
      match final with Some _ => "" | None => ")" end).
  Lemma dump_elem_header cls b args final d : d_use d = false -> dump_elem show cls b args final d = d_append (header cls b args final) d.
  Proof.
    intros U. unfold dump_elem, header. rewrite add_imports_nil. unfold set_var. rewrite U. destruct (negb _); [rewrite U|]; (apply f_equal2; [|reflexivity]); rewrite !sapp_assoc; cbn; rewrite !sapp_assoc; cbn; rewrite ?sapp_assoc; reflexivity.
  Qed.
  Lemma ol_header cls b args final : one_line cls -> Forall (fun kv => one_line (fst kv) /\ one_line (snd kv)) args ->
    match final with Some k => one_line k | None => True end -> one_line (header cls b args final).
  Proof.
    intros O Ha Hf. unfold header. repeat (apply ol_app; [first [exact O|reflexivity|apply ol_repr|apply ol_pb|apply ol_bool]|]). apply ol_app; [|apply ol_app].
    - destruct (negb _); [|reflexivity]. apply ol_app; [reflexivity|]. apply ol_app; [apply ol_xf|reflexivity].
    - apply ol_join; [reflexivity|]. apply Forall_app. split.
      + apply Forall_map. eapply Forall_impl; [|exact Ha]. intros kv [A B]. apply ol_app; [exact A|]. apply ol_app; [reflexivity|exact B].
      + destruct final; repeat constructor. apply ol_app; [exact Hf|reflexivity].
    - destruct final; reflexivity.
  Qed.
  Lemma append_lines s d : d_append s d = with_lines (d_lines d ++ map (ind (d_depth d)) [s])%list d.
  Proof. reflexivity. Qed.

  Definition flat (e : elem F) : Prop := exists c s l, flat_lines e c s l.
  Lemma line_flat e cls b args final : (exists c s, cls = String c s /\ is_letter c = true) -> one_line cls -> Forall (fun kv => one_line (fst kv) /\ one_line (snd kv)) args ->
    match final with Some k => one_line k | None => True end -> (forall d, dump_el show e d = Ok (dump_elem show cls b args final d)) -> flat e.
  Proof.
    intros (c & s & E & Lc) O Ha Hf D. pose proof (ol_header cls b args final O Ha Hf) as H. subst cls. exists c. eexists. exists []. split; [exact Lc|]. split; [exact H|]. split; [constructor|].
    intros d U. rewrite D, dump_elem_header by exact U. reflexivity.
  Qed.
  (* a header, inner lines one level deeper, and the closing line *)
  Lemma block_flat e cls b args k inner (f : dump -> res dump) : (exists c s, cls = String c s /\ is_letter c = true) -> one_line cls -> Forall (fun kv => one_line (fst kv) /\ one_line (snd kv)) args ->
    one_line k -> Forall one_line inner ->
    (forall d, d_use d = false -> f d = Ok (with_lines (d_lines d ++ map (ind (d_depth d)) inner)%list d)) ->
    (forall d, dump_el show e d = let* d := nested f (dump_elem show cls b args (Some k) d) in Ok (d_append "])" d)) -> flat e.
  Proof.
    intros (c & s & E & Lc) O Ha Hf Hi Hfl D. pose proof (ol_header cls b args (Some k) O Ha Hf) as H. subst cls. exists c. eexists. exists (map (ind 1) inner ++ ["])"])%list. split; [exact Lc|]. split; [exact H|]. split.
    - apply Forall_app. split; [|repeat constructor]. apply Forall_map. eapply Forall_impl; [|exact Hi]. intros x Hx. apply ol_app; [apply ol_indent|exact Hx].
    - intros d U. rewrite D, dump_elem_header by exact U. unfold nested. rewrite Hfl by exact U. cbn [bind].
      apply (f_equal Ok). unfold d_append, with_lines, set_depth. cbn [d_depth d_lines d_vars d_prefixes d_use d_imports Nat.pred map]. rewrite map_app, map_ind, Nat.add_1_r. rewrite <- !app_assoc. reflexivity.
  Qed.

  (* the lines of the parts, with a comma after each *)
  Lemma comma_lines c s l : exists l', l' = comma_last (String c s :: l) /\ (Forall one_line (String c s :: l) -> Forall one_line l') /\ forall k d pre,
    d_lines d = (pre ++ map (ind k) (String c s :: l))%list -> add_comma d = Ok (with_lines (pre ++ map (ind k) l')%list d).
  Proof.
    eexists. split; [reflexivity|]. assert (Q : exists b x, (String c s :: l = b ++ [x])%list) by (destruct (@exists_last _ (String c s :: l)) as (b & x & Q); [discriminate|eauto]).
    destruct Q as (b & x & ->). assert (Cl : comma_last (b ++ [x])%list = (b ++ [(x ++ ",")%string])%list).
    { clear. induction b as [|y b IH]; [reflexivity|]. cbn [app comma_last]. rewrite IH. destruct b; reflexivity. }
    rewrite Cl. split.
    - intros H. apply Forall_app in H as [H1 H2]. apply Forall_app. split; [exact H1|]. repeat constructor. apply ol_app; [now inversion H2|reflexivity].
    - intros k d pre E. rewrite map_app in E. rewrite app_assoc in E. cbn [map] in E. rewrite (add_comma_snoc _ _ d E), map_app. cbn [map]. rewrite <- app_assoc. unfold ind. rewrite sapp_assoc. reflexivity.
  Qed.
  Lemma parts_flat es : Forall flat es -> exists lines, Forall one_line lines /\ forall d, d_use d = false ->
    dump_parts (map (dump_el show) es) d = Ok (with_lines (d_lines d ++ map (ind (d_depth d)) lines)%list d).
  Proof.
    intros H. induction H as [|e es (c & s & l & _ & O & Ol & D) H (lines & Il & IH)].
    - exists []. split; [constructor|]. intros d U. cbn. rewrite app_nil_r. destruct d; reflexivity.
    - destruct (comma_lines c s l) as (l' & _ & Hl' & Cm). exists (l' ++ lines)%list. split; [apply Forall_app; split; auto|].
      intros d U. unfold dump_parts in *. cbn [map foldM]. rewrite D by exact U. cbn [bind].
      rewrite (Cm (d_depth d) _ (d_lines d)) by reflexivity. cbn [bind]. rewrite IH by exact U. rewrite map_app, app_assoc. reflexivity.
  Qed.

  Theorem all_flat : forall e, flat e.
  Proof.
    apply elem_induction.
    - intros b s. destruct s as [l|p q|p q r|p q].
      + eapply (block_flat _ "ElemCurve" b [] "control_points" (map (fun c => repr_cp show c ++ ",") l)); [eauto|reflexivity|constructor|reflexivity| | |reflexivity].
        * apply Forall_map, Forall_forall. intros c _. apply ol_app; [apply ol_cp|reflexivity].
        * intros d U. cbv beta. now rewrite fold_append.
      + eapply (line_flat _ "ElemRectangle" b); [eauto|reflexivity| | |intros; reflexivity]; [|exact I]. repeat constructor; apply ol_pt.
      + eapply (line_flat _ "ElemRectangleRounded" b); [eauto|reflexivity| | |intros; reflexivity]; [|exact I]. repeat (apply Forall_cons || apply Forall_nil); (split; [reflexivity|first [apply ol_pt|apply OL]]).
      + eapply (line_flat _ "ElemEllipse" b); [eauto|reflexivity| | |intros; reflexivity]; [|exact I]. repeat constructor; apply ol_pt.
    - intros b h l p IH. set (es := map snd (sorted by_name l)).
      assert (Hs : map snd (sorted by_name (map (fun ke => (fst ke, dump_el show (snd ke))) l)) = map (dump_el show) es).
      { rewrite (sorted_map by_name by_name (fun ke => (fst ke, dump_el show (snd ke)))) by reflexivity. unfold es. now rewrite !map_map. }
      assert (Hes : Forall flat es). { eapply Permutation_Forall; [apply Permutation_map, sorted_perm|]. now apply Forall_map. }
      destruct (parts_flat es Hes) as (lines & Ol & D).
      eapply (block_flat _ "Group" b [] "elems" lines); [eauto|reflexivity|constructor|reflexivity|exact Ol| |].
      2: { intros d. cbn [dump_el]. reflexivity. }
      rewrite Hs. exact D.
    - intros b o i _ IH. destruct (parts_flat i IH) as (lines & Ol & D).
      eapply (block_flat _ "ElemWithHoles" b [("outside", repr_elem show o)] "inside" lines); [eauto|reflexivity| |reflexivity|exact Ol| |].
      3: { intros d. cbn [dump_el]. reflexivity. }
      + repeat constructor. apply ol_elem.
      + exact D.
  Qed.
End Flat.
