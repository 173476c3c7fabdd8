(* Lemmas for dumps: histories of a context, and the layout of the lines. *)
Require Import Verif.Base Verif.M_vector Verif.M_bbox Verif.M_transform Verif.M_bezier Verif.M_colors
  Verif.M_elems Verif.M_group Verif.S_group Verif.L_group Verif.M_dump Verif.S_dump Verif.L_dump Verif.L_dump2 Verif.L_dump3.
From Coq Require Import String Ascii List Lia Bool DecimalString Permutation Sorted.
Import ListNotations.
Local Open Scope list_scope.
Local Open Scope string_scope.

(* ---------------- histories ---------------- *)

(* with variables: every name given is in the table, and the table has nothing else *)
Definition hist_ok (st : dump * list (string * string)) : Prop :=
  d_use (fst st) = true /\ vars_ok (fst st) /\ forall r n, In (r, n) (d_vars (fst st)) <-> In (r, n) (snd st).
Lemma hist_same d d' names : d_use d' = d_use d -> d_vars d' = d_vars d -> d_prefixes d' = d_prefixes d -> hist_ok (d, names) -> hist_ok (d', names).
Proof. intros A B C H. unfold hist_ok, vars_ok in *. cbn [fst snd] in *. now rewrite A, B, C. Qed.
Lemma hist_step st o : hist_ok st -> hist_ok (do_op st o).
Proof.
  destruct st as [d names]. intros H. destruct o; cbn [do_op]; try (eapply hist_same; [| | |exact H]; reflexivity).
  - destruct H as (U & V & I). cbn [fst snd] in *. pose proof (set_var_spec value prefix d V U) as S. destruct (set_var value prefix d) as [d' n].
    destruct S as (A & (_ & _ & B & _) & C & D). split; [cbn; congruence|]. split; [exact A|]. cbn [fst snd]. intros r m. rewrite in_app_iff. cbn [In].
    destruct D as [->|[E _]].
    + rewrite I. split; [auto|]. intros [J|[J|[]]]; [auto|]. injection J as <- <-. now apply I.
    + rewrite E, in_app_iff, I. cbn [In]. tauto.
  - unfold add_comma. destruct (rev (d_lines d)); [exact H|]. eapply hist_same; [| | |exact H]; reflexivity.
  - unfold output. destruct (d_lines d); [exact H|]. eapply hist_same; [| | |exact H]; reflexivity.
Qed.
Lemma hist_all l : hist_ok (history true l).
Proof.
  unfold history. assert (H : hist_ok (dump_new true, [])) by (split; [reflexivity|split; [apply vars_ok_new|reflexivity]]).
  revert H. generalize (dump_new true, [] : list (string * string)). induction l as [|o l IH]; intros st H; cbn [fold_left]; [exact H|]. apply IH. now apply hist_step.
Qed.
Lemma hist_off l : let st := history false l in d_use (fst st) = false /\ d_vars (fst st) = [] /\ forall r n, In (r, n) (snd st) -> n = r.
Proof.
  unfold history. assert (H : d_use (fst (dump_new false, [] : list (string * string))) = false /\ d_vars (fst (dump_new false, [] : list (string * string))) = [] /\
    forall r n, In (r, n) (snd (dump_new false, [] : list (string * string))) -> n = r) by (split; [reflexivity|split; [reflexivity|intros r n []]]).
  revert H. generalize (dump_new false, [] : list (string * string)). induction l as [|o l IH]; intros [d names] H; cbn [fold_left]; [exact H|]. apply IH. clear IH.
  destruct o; cbn [do_op]; try exact H.
  - destruct H as (U & V & I). unfold set_var. cbn [fst snd] in *. rewrite U. cbn [fst snd]. split; [exact U|]. split; [exact V|]. intros r n J. apply in_app_or in J as [J|[J|[]]]; [auto|]. now injection J as <- <-.
  - unfold add_comma. destruct (rev (d_lines d)); exact H.
  - unfold output. destruct (d_lines d); exact H.
Qed.
Lemma NoDup_fst_inj {A B} (l : list (A * B)) a b b' : NoDup (map fst l) -> In (a, b) l -> In (a, b') l -> b = b'.
Proof.
  induction l as [|[x y] l IH]; cbn; intros N H H'; [destruct H|]. inversion N as [|? ? N1 N2]; subst. destruct H as [H|H], H' as [H'|H']; auto; try congruence.
  - injection H as -> ->. destruct N1. apply in_map_iff. now exists (a, b').
  - injection H' as -> ->. destruct N1. apply in_map_iff. now exists (a, b).
Qed.
Lemma NoDup_snd_inj {A B} (l : list (A * B)) a a' b : NoDup (map snd l) -> In (a, b) l -> In (a', b) l -> a = a'.
Proof.
  induction l as [|[x y] l IH]; cbn; intros N H H'; [destruct H|]. inversion N as [|? ? N1 N2]; subst. destruct H as [H|H], H' as [H'|H']; auto; try congruence.
  - injection H as -> ->. destruct N1. apply in_map_iff. now exists (a', b).
  - injection H' as -> ->. destruct N1. apply in_map_iff. now exists (a, b).
Qed.

(* ---------------- layout ---------------- *)

Lemma ends_app suf s : ends_with suf (s ++ suf) = true.
Proof. induction s as [|c s IH]; cbn [append]; [destruct suf; cbn [ends_with]; now rewrite String.eqb_refl|]. cbn [ends_with]. rewrite IH. apply orb_true_r. Qed.
Lemma ends_inv suf s : ends_with suf s = true -> exists p, s = p ++ suf.
Proof.
  induction s as [|c s IH]; cbn [ends_with]; intros H; apply orb_prop in H as [H|H]; try discriminate; try (apply String.eqb_eq in H; exists ""; exact H).
  destruct (IH H) as [p ->]. now exists (String c p).
Qed.
Definition last_of (s : string) : option ascii := last (map Some (list_ascii_of_string s)) None.
Lemma last_of_app p s : last_of (p ++ s) = match last_of s with Some c => Some c | None => last_of p end.
Proof.
  unfold last_of. revert s. assert (L : forall (l : list (option ascii)) d, l <> [] -> last l d = last l None).
  { induction l as [|x [|y l] IH]; intros d H; [congruence|reflexivity|]. change (last (x :: y :: l) d) with (last (y :: l) d). rewrite IH by discriminate. reflexivity. }
  induction p as [|c p IH]; intros s; cbn [append list_ascii_of_string map].
  - cbn. destruct (last (map Some (list_ascii_of_string s)) None); reflexivity.
  - specialize (IH s). destruct (p ++ s)%string as [|a q] eqn:E.
    + destruct p; [|discriminate]. cbn in E. subst s. reflexivity.
    + assert (K : forall (q : string) x, last (x :: map Some (list_ascii_of_string (String a q))) None = last (map Some (list_ascii_of_string (String a q))) None) by reflexivity.
      rewrite K, IH. destruct (last (map Some (list_ascii_of_string s)) None) eqn:Es; [reflexivity|].
      destruct p as [|b p]; [|reflexivity]. cbn in E. subst s. exfalso. clear - Es L. cbn [list_ascii_of_string map] in Es. revert a Es. induction q as [|b q IH]; intros a Es; [discriminate|]. apply (IH b). exact Es.
Qed.
Lemma ends_not_opens s c : last_of s = Some c -> (c = "["%char -> False) -> opens s = false.
Proof.
  intros L N. unfold opens. destruct (ends_with "=[" s) eqn:E; [|reflexivity]. apply ends_inv in E as [p ->]. rewrite last_of_app in L. cbn in L. injection L as <-. now destruct N.
Qed.

Lemma strip_deeper s : strip (deeper s) = strip s.
Proof. reflexivity. Qed.
Lemma strip_indent k s : strip (ind k s) = strip s.
Proof. induction k as [|k IH]; [reflexivity|]. change (strip (deeper (ind k s)) = strip s). now rewrite strip_deeper. Qed.
Lemma closes_ind k s : closes (ind k s) = closes s.
Proof. unfold closes. now rewrite strip_indent. Qed.
Lemma ends_ind_gen w s suf : (exists c r, suf = String c r /\ is_in c " " = false) -> (forall c, is_in c w = true -> c = " "%char) -> ends_with suf (w ++ s) = ends_with suf s.
Proof.
  intros (c & r & -> & C) W. induction w as [|a w IH]; [reflexivity|]. cbn [append ends_with]. rewrite IH; [|intros x X; apply W; unfold is_in in *; cbn; rewrite X; apply orb_true_r].
  assert (a = " "%char) as -> by (apply W; unfold is_in; cbn; now rewrite Ascii.eqb_refl).
  destruct (String.eqb_spec (String " " (w ++ s)) (String c r)) as [E|_]; [|reflexivity]. injection E as <- _. discriminate.
Qed.
Lemma opens_deeper s : opens (deeper s) = opens s.
Proof.
  unfold opens, deeper. apply ends_ind_gen; [now exists "="%char, "["|]. intros c. unfold is_in. cbn. rewrite !orb_false_r. intros H. repeat (apply orb_prop in H as [H|H]); now apply Ascii.eqb_eq in H.
Qed.
Lemma opens_ind k s : opens (ind k s) = opens s.
Proof. induction k as [|k IH]; [reflexivity|]. change (opens (deeper (ind k s)) = opens s). now rewrite opens_deeper. Qed.
Lemma count_map f g l : (forall s, f (g s) = f s) -> count f (map g l) = count f l.
Proof. intros H. unfold count. induction l as [|a l IH]; cbn; [reflexivity|]. rewrite H. destruct (f a); cbn; now rewrite IH. Qed.
Lemma count_app f a b : count f (a ++ b)%list = count f a + count f b.
Proof. unfold count. rewrite filter_app. apply app_length. Qed.
Lemma count_concat f l : count f (List.concat l) = list_sum (map (count f) l).
Proof. induction l as [|a l IH]; [reflexivity|]. cbn [List.concat map]. rewrite count_app, IH. reflexivity. Qed.

(* the first line begins a name, the last closes *)
Definition tidy (l : list string) : Prop := exists b s, l = (b ++ [s])%list /\ opens s = false /\ closes (s ++ ",") = closes s /\ last_of s = Some ")"%char.
Lemma comma_last_snoc b s : comma_last (b ++ [s])%list = (b ++ [(s ++ ",")%string])%list.
Proof. induction b as [|a b IH]; [reflexivity|]. cbn [app comma_last]. rewrite IH. destruct b; reflexivity. Qed.

Section Layout.
  Context {F : Type} {NF : Num F}.
  Variable show : F -> string.
  Scheme layout_rect := Induction for layout Sort Prop with layouts_rect := Induction for layouts Sort Prop.

  Lemma closes_not_comma s : closes s = false -> last_of s = Some ")"%char -> closes (s ++ ",") = false.
  Proof.
    unfold closes. intros H L. apply orb_false_elim in H as [H1 H2]. apply String.eqb_neq in H1, H2.
    assert (K : strip s <> "" -> strip (s ++ ",") = strip s ++ ",").
    { clear. induction s as [|c s IH]; cbn; [congruence|]. destruct (Ascii.eqb c " "); auto. }
    destruct (string_dec (strip s) "") as [E|N].
    - exfalso. clear - E L. induction s as [|c s IH]; [discriminate|]. cbn in E. destruct (Ascii.eqb_spec c " ") as [->|_]; [|discriminate]. destruct s as [|b s]; [discriminate L|]. apply IH; auto.
    - rewrite K by exact N. apply orb_false_intro; apply String.eqb_neq; intros E.
      + destruct (strip s) as [|a [|b [|c t]]]; cbn in E; try discriminate.
      + apply H1. destruct (strip s) as [|a [|b [|c t]]]; cbn in E; try discriminate; [congruence|]. destruct t; discriminate E.
  Qed.
  Lemma layout_tidy e l : layout show e l -> tidy l.
  Proof.
    intros H. assert (C : forall hd mid, tidy (hd :: mid ++ ["])"])%list) by (intros hd mid; exists (hd :: mid), "])"; repeat split; reflexivity).
    destruct H; try apply C. assert (L : last_of line = Some ")"%char) by (apply ends_inv in H1 as [p ->]; now rewrite last_of_app).
    exists [], line. split; [reflexivity|]. split; [eapply ends_not_opens; [exact L|discriminate]|]. split; [rewrite H2; now apply closes_not_comma|exact L].
  Qed.
  Lemma comma_counts l : tidy l -> count opens (comma_last l) = count opens l /\ count closes (comma_last l) = count closes l.
  Proof.
    intros (b & s & -> & O & C & L). rewrite comma_last_snoc, !count_app. unfold count at 2 4 6 8. cbn [filter].
    assert (O' : opens (s ++ ",") = false) by (eapply ends_not_opens; [now rewrite last_of_app|discriminate]).
    rewrite C, O, O'. destruct (closes s); split; reflexivity.
  Qed.
  Lemma closes_head c s : is_letter c = true -> closes (String c s) = false.
  Proof.
    intros H. unfold closes. cbn [strip]. destruct (Ascii.eqb_spec c " ") as [->|_]; [discriminate|].
    apply orb_false_intro; apply String.eqb_neq; intros E; injection E as -> _; discriminate.
  Qed.
  Lemma opens_closes hd : strip hd = hd -> opens hd = true -> closes hd = false.
  Proof.
    intros S O. unfold closes. rewrite S. apply orb_false_intro; apply String.eqb_neq; intros ->; discriminate.
  Qed.
  Lemma block_counts hd mid : strip hd = hd -> opens hd = true -> count opens mid = count closes mid ->
    count opens (hd :: map deeper mid ++ ["])"])%list = count closes (hd :: map deeper mid ++ ["])"])%list.
  Proof.
    intros S O E. change (hd :: map deeper mid ++ ["])"])%list with ([hd] ++ map deeper mid ++ ["])"])%list. rewrite !count_app, !count_map by (intros; apply opens_deeper || reflexivity).
    unfold count at 1 4. cbn [filter]. rewrite O, (opens_closes hd S O). rewrite E. cbn. lia.
  Qed.
  Lemma layout_balanced e l : layout show e l -> count opens l = count closes l.
  Proof.
    revert e l. apply (layout_rect F show (fun e l _ => count opens l = count closes l)
      (fun es ls _ => count opens (List.concat (map comma_last ls)) = count closes (List.concat (map comma_last ls)))).
    - intros b s line Hs Hst He Hc. unfold count. cbn [filter]. rewrite Hc. apply ends_inv in He as [p ->]. rewrite (ends_not_opens _ ")"%char); [reflexivity|now rewrite last_of_app|discriminate].
    - intros b l hd S O. rewrite <- (map_map (fun c => (repr_cp show c ++ ",")%string) deeper). apply block_counts; auto.
      unfold count. induction l as [|c l IH]; [reflexivity|]. cbn [map filter].
      rewrite (ends_not_opens _ ","%char) by (rewrite ?last_of_app; reflexivity || discriminate). unfold repr_cp at 2. cbn [append]. rewrite closes_head by reflexivity. exact IH.
    - intros b h l p hd parts S O H IH. now apply block_counts.
    - intros b o i hd parts S O H IH. now apply block_counts.
    - reflexivity.
    - intros e es lines parts H IH H' IH'. cbn [map List.concat]. rewrite !count_app. destruct (comma_counts lines (layout_tidy e lines H)) as [-> ->]. congruence.
  Qed.

  (* the dump has that layout *)
  Definition lays (e : elem F) : Prop := forall d, exists d' new, dump_el show e d = Ok d' /\ d_depth d' = d_depth d /\
    d_lines d' = (d_lines d ++ map (ind (d_depth d)) new)%list /\ layout show e new.
  Lemma set_var_depth r p d : d_depth (fst (set_var r p d)) = d_depth d /\ d_lines (fst (set_var r p d)) = d_lines d.
  Proof. unfold set_var. destruct (d_use d); [|auto]. destruct (find_key r (d_vars d)); auto. Qed.
  Lemma dump_elem_line cls b args final d : exists d1 mid, dump_elem show cls b args final d =
      d_append (cls ++ "(" ++ mid ++ join ", " (map (fun kv => (fst kv ++ "=" ++ snd kv)%string) args ++ match final with Some k => [(k ++ "=[")%string] | None => [] end)%list
                 ++ match final with Some _ => "" | None => ")" end) d1 /\ d_depth d1 = d_depth d /\ d_lines d1 = d_lines d.
  Proof.
    unfold dump_elem. rewrite add_imports_nil. pose proof (set_var_depth (repr_pb show (e_pb b)) "pen" d) as H. destruct (set_var (repr_pb show (e_pb b)) "pen" d) as [d1 n]. cbn [fst] in H.
    destruct (negb (t_eqb (e_xform b) t_new)).
    - pose proof (set_var_depth (repr_xf show (e_xform b)) "xform" d1) as H'. destruct (set_var (repr_xf show (e_xform b)) "xform" d1) as [d2 x]. cbn [fst] in H'.
      eexists d2, (repr_str (e_name b) ++ ", " ++ n ++ ", closed=" ++ repr_bool (e_closed b) ++ ", " ++ "xform=" ++ x ++ ", "). split; [f_equal; rewrite !sapp_assoc; reflexivity|]. destruct H, H'. split; congruence.
    - eexists d1, (repr_str (e_name b) ++ ", " ++ n ++ ", closed=" ++ repr_bool (e_closed b) ++ ", "). split; [f_equal; rewrite !sapp_assoc; reflexivity|]. exact H.
  Qed.
  Lemma parts_lay : forall es, Forall lays es -> forall d, exists d' parts, dump_parts (map (dump_el show) es) d = Ok d' /\ d_depth d' = d_depth d /\
    d_lines d' = (d_lines d ++ map (ind (d_depth d)) (List.concat (map comma_last parts)))%list /\ layouts show es parts.
  Proof.
    induction es as [|e es IH]; intros H d.
    - exists d, []. split; [reflexivity|]. split; [reflexivity|]. split; [cbn; now rewrite app_nil_r|constructor].
    - inversion H as [|? ? H1 H2]; subst. destruct (H1 d) as (d1 & new & E1 & Dp & Ln & La). destruct (layout_tidy e new La) as (b & s & -> & _).
      rewrite map_app, app_assoc in Ln. cbn [map] in Ln. destruct (IH H2 (with_lines ((d_lines d ++ map (ind (d_depth d)) b) ++ [(ind (d_depth d) s ++ ",")%string])%list d1)) as (d2 & parts & E2 & Dp2 & Ln2 & La2).
      exists d2, ((b ++ [s])%list :: parts). split; [|split; [|split]].
      + unfold dump_parts. cbn [map foldM]. rewrite E1. cbn [bind]. rewrite (add_comma_snoc _ _ _ Ln). cbn [bind]. exact E2.
      + rewrite Dp2. exact Dp.
      + rewrite Ln2. cbn [d_lines d_depth with_lines map List.concat]. rewrite comma_last_snoc, !map_app, Dp. cbn [map]. rewrite <- !app_assoc. cbn [app]. do 3 f_equal. unfold ind. now rewrite sapp_assoc.
      + now constructor.
  Qed.
  Lemma lays_block cls key b args (d : dump) (f : dump -> res dump) e mk :
    (forall d, exists d' mid, f d = Ok d' /\ d_depth d' = d_depth d /\ d_lines d' = (d_lines d ++ map (ind (d_depth d)) mid)%list /\ mk mid) ->
    (exists c s, cls = String c s /\ is_letter c = true) ->
    (forall hd mid, strip hd = hd -> opens hd = true -> mk mid -> layout show e (hd :: map deeper mid ++ ["])"])%list) ->
    exists d' new, (let* d := nested f (dump_elem show cls b args (Some key) d) in Ok (d_append "])" d)) = Ok d' /\ d_depth d' = d_depth d /\
    d_lines d' = (d_lines d ++ map (ind (d_depth d)) new)%list /\ layout show e new.
  Proof.
    intros Hf (c & s & -> & Lc) Hl. destruct (dump_elem_line (String c s) b args (Some key) d) as (d1 & mid & -> & Dp & Ln).
    set (hd := String c s ++ "(" ++ mid ++ _ ++ ""). unfold nested. destruct (Hf (set_depth (S (d_depth (d_append hd d1))) (d_append hd d1))) as (d2 & mid2 & E2 & Dp2 & Ln2 & Mk). rewrite E2. cbn [bind].
    eexists _, (hd :: map deeper mid2 ++ ["])"])%list. split; [reflexivity|]. split; [cbn; rewrite Dp2; exact Dp|]. split.
    - unfold d_append at 1. cbn [d_lines d_depth with_lines set_depth]. rewrite Ln2, Dp2. unfold d_append, with_lines, set_depth. cbn [d_depth d_lines Nat.pred map]. rewrite Dp, Ln, map_app. cbn [map].
      change deeper with (ind 1). rewrite map_ind, Nat.add_1_r. rewrite <- !app_assoc. reflexivity.
    - apply Hl; auto.
      + unfold hd. cbn [append strip]. destruct (Ascii.eqb_spec c " ") as [->|_]; [discriminate|reflexivity].
      + unfold hd, opens. rewrite sapp_nil_r. assert (J : forall l k, exists p, join ", " (l ++ [(k ++ "=[")%string])%list = p ++ "=[").
        { clear. intros l k. induction l as [|a l [p IH]]; [now exists k|]. cbn [app join]. destruct (l ++ [(k ++ "=[")%string])%list eqn:E; [destruct l; discriminate|]. rewrite IH. exists (a ++ ", " ++ p). now rewrite !sapp_assoc. }
        destruct (J (map (fun kv : string * string => (fst kv ++ "=" ++ snd kv)%string) args) key) as [p ->].
        replace (String c s ++ "(" ++ mid ++ p ++ "=[") with ((String c s ++ "(" ++ mid ++ p) ++ "=[") by (now rewrite !sapp_assoc). apply ends_app.
  Qed.
  Lemma lays_box cls b args s (d : dump) : (exists c s, cls = String c s /\ is_letter c = true) -> match s with SCurve _ => False | _ => True end ->
    dump_leaf show b s d = Ok (dump_elem show cls b args None d) ->
    exists d' new, dump_leaf show b s d = Ok d' /\ d_depth d' = d_depth d /\ d_lines d' = (d_lines d ++ map (ind (d_depth d)) new)%list /\ layout show (ELeaf b s) new.
  Proof.
    intros (c & r & -> & Lc) Hs Eq. rewrite Eq. destruct (dump_elem_line (String c r) b args None d) as (d1 & mid & -> & Dp & Ln).
    set (line := String c r ++ "(" ++ mid ++ _ ++ ")"). exists (d_append line d1), [line]. split; [reflexivity|]. split; [exact Dp|]. split; [cbn; rewrite Dp, Ln; reflexivity|].
    constructor; auto.
    - unfold line. cbn [append strip]. destruct (Ascii.eqb_spec c " ") as [->|_]; [discriminate|reflexivity].
    - unfold line. set (x := join _ _). replace (String c r ++ "(" ++ mid ++ x ++ ")") with ((String c r ++ "(" ++ mid ++ x) ++ ")") by (now rewrite !sapp_assoc). apply ends_app.
    - unfold line. cbn [append]. now apply closes_head.
  Qed.
  Theorem all_lays : forall e, lays e.
  Proof.
    apply elem_induction.
    - intros b s d. cbn [dump_el]. destruct s as [l|p q|p q r|p q].
      + cbn [dump_leaf]. eapply lays_block with (mk := fun mid => mid = map (fun c => (repr_cp show c ++ ",")%string) l).
        * intros d0. rewrite fold_append. eexists _, _. split; [reflexivity|]. split; [reflexivity|]. split; reflexivity.
        * now exists "E"%char, "lemCurve".
        * intros hd mid S O ->. rewrite map_map. now constructor.
      + eapply lays_box; [|exact I|reflexivity]. now exists "E"%char, "lemRectangle".
      + eapply lays_box; [|exact I|reflexivity]. now exists "E"%char, "lemRectangleRounded".
      + eapply lays_box; [|exact I|reflexivity]. now exists "E"%char, "lemEllipse".
    - intros b h l p IH d. cbn [dump_el]. set (es := map snd (sorted by_name l)).
      assert (Hs : map snd (sorted by_name (map (fun ke => (fst ke, dump_el show (snd ke))) l)) = map (dump_el show) es).
      { rewrite (sorted_map by_name by_name (fun ke => (fst ke, dump_el show (snd ke)))) by reflexivity. unfold es. now rewrite !map_map. }
      rewrite Hs. assert (Hes : Forall lays es) by (eapply Permutation_Forall; [unfold es; apply Permutation_map, sorted_perm|]; now apply Forall_map).
      eapply lays_block with (mk := fun mid => exists parts, mid = List.concat (map comma_last parts) /\ layouts show es parts).
      + intros d0. destruct (parts_lay es Hes d0) as (d' & parts & E & Dp & Ln & La). exists d', (List.concat (map comma_last parts)). eauto 10.
      + now exists "G"%char, "roup".
      + intros hd mid S O (parts & -> & La). now constructor.
    - intros b o i _ IH d. cbn [dump_el]. eapply lays_block with (mk := fun mid => exists parts, mid = List.concat (map comma_last parts) /\ layouts show i parts).
      + intros d0. destruct (parts_lay i IH d0) as (d' & parts & E & Dp & Ln & La). exists d', (List.concat (map comma_last parts)). eauto 10.
      + now exists "E"%char, "lemWithHoles".
      + intros hd mid S O (parts & -> & La). now constructor.
  Qed.
End Layout.
