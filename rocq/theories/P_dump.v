(* C51, C52, C68: DumpContext, the layout of a dump, and reading a dump back. *)
Require Import Verif.Base Verif.M_vector Verif.M_bbox Verif.M_transform Verif.M_bezier Verif.M_colors
  Verif.M_elems Verif.M_group Verif.S_group Verif.L_group Verif.M_dump Verif.S_dump
  Verif.L_dump Verif.L_dump2 Verif.L_dump3 Verif.L_dump4 Verif.L_dump5 Verif.L_dump6.
From Coq Require Import String Ascii List Lia Bool ZArith DecimalString DecimalZ Permutation Sorted.
Import ListNotations.
Local Open Scope list_scope.
Local Open Scope string_scope.

(* ------------------------------------------------------------------ *)
(** * C51: names of variables *)

(* Whatever is done with a context, two set_var calls return the same name exactly when they
   were given the same repr: names do not change, and different reprs never share one. *)
Theorem C51_names_follow_reprs : forall ops r n r' n',
  let names := snd (history true ops) in In (r, n) names -> In (r', n') names -> (r = r' <-> n = n').
Proof.
  intros ops r n r' n' names H H'. destruct (hist_all ops) as (_ & (N1 & N2 & _) & I). unfold names in *. apply I in H, H'. split; intros <-.
  - eapply NoDup_fst_inj; eauto.
  - eapply NoDup_snd_inj; eauto.
Qed.
(* the name is the prefix of the first call with that repr, an underscore and a number *)
Theorem C51_name_of_prefix : forall ops r p,
  (forall n, ~ In (r, n) (snd (history true ops))) ->
  exists k, snd (history true (ops ++ [OSet r p])%list) = (snd (history true ops) ++ [(r, (p ++ "_" ++ decimal k)%string)])%list.
Proof.
  intros ops r p N. unfold history. rewrite fold_left_app. cbn [fold_left]. fold (history true ops). destruct (hist_all ops) as (U & V & I).
  destruct (history true ops) as [d names]. cbn [fst snd do_op] in *. pose proof (set_var_spec r p d V U) as S. destruct (set_var r p d) as [d' n]. cbn [snd].
  destruct S as (_ & _ & In' & [->|[E [k ->]]]); [apply I in In'; destruct (N _ In')|]. exists k. reflexivity.
Qed.
Theorem C51_off_gives_repr : forall ops r n, In (r, n) (snd (history false ops)) -> n = r.
Proof. intros ops. apply (hist_off ops). Qed.

(* output() writes the imports, each variable exactly once and the lines; nothing else changes
   except that the first line gets "model = " in front *)
Theorem C51_output_lists_once : forall ops, let (d, names) := history true ops in forall first rest, d_lines d = first :: rest -> exists vars,
  NoDup vars /\ (forall r n, In (r, n) vars <-> In (r, n) names) /\
  snd (output d) = Ok (join newline (d_imports d ++ [""] ++ map (fun vn => snd vn ++ " = " ++ fst vn)%string vars ++ [""] ++ ("model = " ++ first)%string :: rest)%list).
Proof.
  intros ops. destruct (hist_all ops) as (U & (N1 & N2 & V) & I). destruct (history true ops) as [d names]. cbn [fst snd] in *. intros first rest E.
  exists (sorted (fun a b => if (snd a =? snd b)%string then str_leb (fst a) (fst b) else str_leb (snd a) (snd b)) (d_vars d)).
  set (vars := sorted _ _). assert (Pm : Permutation (d_vars d) vars) by apply sorted_perm. split; [|split].
  - eapply Permutation_NoDup; [exact Pm|]. eapply NoDup_map_inv. exact N1.
  - intros r n. rewrite <- I. split; apply Permutation_in; [symmetry|]; exact Pm.
  - unfold output. fold vars. rewrite E. cbn [snd]. rewrite <- !app_assoc. reflexivity.
Qed.
(* calling output() again gives another text *)
Theorem C51_output_again_refuted : forall d first rest, d_lines d = first :: rest ->
  snd (output (fst (output d))) <> snd (output d) /\ d_lines (fst (output (fst (output d)))) = ("model = model = " ++ first)%string :: rest.
Proof.
  intros d first rest E. unfold output. rewrite E. cbn [fst snd d_lines with_lines d_vars d_imports]. split; [|reflexivity].
  set (pre := (d_imports d ++ _)%list). clearbody pre. intros H. injection H as H.
  assert (K : forall (l l' : list string) a b, join newline (l ++ a :: l')%list = join newline (l ++ b :: l')%list -> String.length a = String.length b).
  { assert (L : forall s t, String.length (s ++ t) = String.length s + String.length t) by (induction s; cbn; auto).
    intros l l' a b Hj. apply (f_equal String.length) in Hj. induction l as [|x l IH]; cbn [app join] in Hj.
    - destruct l' as [|y l']; cbn [join] in Hj; [exact Hj|]. rewrite !L in Hj. lia.
    - destruct (l ++ a :: l')%list as [|y1 q1] eqn:Q1; [destruct l; discriminate|]. destruct (l ++ b :: l')%list as [|y2 q2] eqn:Q2; [destruct l; discriminate|].
      rewrite !L in Hj. apply IH. lia. }
  apply K in H. cbn in H. lia.
Qed.
Theorem C51_output_of_nothing : forall d, d_lines d = [] -> output d = (d, Raise IndexError).
Proof. intros d E. unfold output. now rewrite E. Qed.

Example C51_ex : snd (history true [OSet "1" "pen"; OSet "2" "pen_1"; OAppend "x"; OSet "3" "pen"; OOutput; OSet "1" "xform"; OSet "4" "pen_1"]) =
  [("1", "pen_1"); ("2", "pen_1_1"); ("3", "pen_2"); ("1", "pen_1"); ("4", "pen_1_2")].
Proof. reflexivity. Qed.

(* ------------------------------------------------------------------ *)
(** * C52: layout *)

(* Dumping any element onto any context succeeds, leaves the depth as it was, and adds lines
   that are indented by that depth and laid out as S_dump.layout says *)
Theorem C52_layout : forall {F} {NF : Num F} (show : F -> string) e d, exists d' new,
  dump_el show e d = Ok d' /\ d_depth d' = d_depth d /\
  d_lines d' = (d_lines d ++ map (fun s => indent (d_depth d) ++ s)%string new)%list /\ layout show e new.
Proof. intros F NF show e d. apply all_lays. Qed.
Theorem C52_balanced : forall {F} {NF : Num F} (show : F -> string) e d d' new,
  dump_el show e d = Ok d' -> d_lines d' = (d_lines d ++ new)%list -> count opens new = count closes new.
Proof.
  intros F NF show e d d' new E L. destruct (all_lays show e d) as (d2 & new' & E' & _ & L' & La). rewrite E in E'. injection E' as <-. rewrite L in L'. apply app_inv_head in L'. subst new.
  rewrite !count_map by (intros; apply opens_ind || apply closes_ind). eapply layout_balanced; eauto.
Qed.

(* ------------------------------------------------------------------ *)
(** * C68: reading a dump back *)

(* For numbers whose texts are read back as they were, executing the dump of an element gives
   the element that S_dump.reloaded describes *)
Theorem C68_load_dump : forall {F} {NF : Num F} (dom : F -> Prop) (show : F -> string) (num_of : string -> option F),
  reads_back_on dom show num_of -> forall e, dumpable e -> elem_in dom e -> exists s, dump_text show e = Ok s /\ load num_of s = Some (reloaded e).
Proof. intros F NF dom show num_of RB e D N. exact (load_dump show num_of e D (elem_mono dom _ RB e N)). Qed.

(* what reloaded does: nothing to shapes, names, pens and closedness; the members of a group
   are the same ones in name order *)
Theorem C68_members_kept : forall {F} {NF : Num F} b h (l : list (string * elem F)) p, exists l',
  reloaded (EGroup b h l p) = EGroup (reload_base b) false l' [] /\
  Permutation (map (fun ke => (fst ke, reloaded (snd ke))) l) l' /\
  StronglySorted (fun x y => str_leb (fst x) (fst y) = true) l'.
Proof. intros F NF b h l p. eexists. split; [reflexivity|]. split; [apply sorted_perm|apply sorted_sorted]. Qed.

(* an element in the form that a dump gives comes back equal *)
Fixpoint canonical {F} {NF : Num F} (e : elem F) : Prop :=
  match e with
  | ELeaf b _ => reload_xf (e_xform b) = e_xform b
  | EGroup b h l p => reload_xf (e_xform b) = e_xform b /\ h = false /\ p = [] /\
      StronglySorted (fun x y => str_leb (fst x) (fst y) = true) l /\ fold_right and True (map (fun ke => canonical (snd ke)) l)
  | EHoles _ _ _ => True
  end.
Lemma canonical_reloaded {F} {NF : Num F} : forall e : elem F, canonical e -> reloaded e = e.
Proof.
  apply (elem_induction (fun e : elem F => canonical e -> reloaded e = e)).
  - intros [n pb c x] s H. cbn in *. unfold reload_base. cbn. now rewrite H.
  - intros [n pb c x] h l p IH (H & -> & -> & Hs & Hc). cbn [reloaded]. unfold reload_base. cbn in H |- *. rewrite H. f_equal.
    assert (Hm : map (fun ke => (fst ke, reloaded (snd ke))) l = l).
    { rewrite <- (map_id l) at 2. apply map_ext_in. intros [k m] I. cbn. f_equal. rewrite Forall_forall in IH. apply fold_and in Hc. rewrite Forall_forall in Hc. apply (IH _ I), (Hc _ I). }
    rewrite Hm. now apply sorted_id.
  - reflexivity.
Qed.
Theorem C68_round_trip : forall {F} {NF : Num F} (dom : F -> Prop) (show : F -> string) (num_of : string -> option F),
  reads_back_on dom show num_of -> forall e, dumpable e -> elem_in dom e -> canonical e -> exists s, dump_text show e = Ok s /\ load num_of s = Some e.
Proof.
  intros F NF dom show num_of RB e D N C. destruct (C68_load_dump dom show num_of RB e D N) as (s & A & B). exists s. split; [exact A|]. now rewrite (canonical_reloaded e C) in B.
Qed.
(* Python's ints, with the operations a dump uses *)
#[export] Instance NumZ : Num Z :=
  {| nofZ := fun z => z; nadd := Z.add; nsub := Z.sub; nmul := Z.mul; ndiv := Z.div; nneg := Z.opp;
     nabs := Z.abs; neqb := Z.eqb; nltb := Z.ltb; nleb := Z.leb |}.
Definition showZ (z : Z) : string := NilZero.string_of_int (Z.to_int z).
Definition readZ (s : string) : option Z := option_map Z.of_uint (NilZero.uint_of_string s).
Lemma digits_num : forall s acc t d b, forallb is_digit (list_ascii_of_string s) = true ->
  lexes (Lexer acc (InNum t) d b) s = Some (Lexer acc (InNum (t ++ s)) d (match s with EmptyString => b | _ => false end)).
Proof.
  induction s as [|c s IH]; intros acc t d b H; cbn [lexes]; [now rewrite sapp_nil_r|]. cbn in H. apply andb_prop in H as [H1 H2].
  unfold step. cbn [l_mode]. rewrite H1, orb_true_r. cbn [orb l_toks l_depth]. rewrite IH by exact H2. unfold add. rewrite sapp_assoc. cbn. destruct s; reflexivity.
Qed.
Lemma digit_cases c : is_digit c = true -> (nat_of_ascii c =? 32)%nat = false /\ (nat_of_ascii c =? 10)%nat = false /\ is_letter c = false.
Proof. destruct c as [[] [] [] [] [] [] [] []]; cbn; auto; discriminate. Qed.
Lemma literal_digits c s : forallb is_digit (list_ascii_of_string (String c s)) = true -> literal (String c s).
Proof.
  intros H. cbn in H. apply andb_prop in H as [H1 H2]. split; [now exists c, s|]. intros ts k b. cbn [lexes]. destruct (digit_cases c H1) as (A & B & C).
  unfold step, step_idle. cbn [l_mode]. rewrite A, B, C, H1. cbn [l_toks l_depth]. rewrite digits_num by exact H2. destruct s; reflexivity.
Qed.
Lemma zero_digits u : literal (NilZero.string_of_uint u).
Proof.
  unfold NilZero.string_of_uint. pose proof (uint_digits u) as H. destruct u; [now apply literal_digits|..]; cbn in *; now apply literal_digits.
Qed.
Theorem C68_ints_read_back : reads_back showZ readZ.
Proof.
  assert (Nn : forall p, Pos.to_uint p <> Decimal.Nil).
  { intros p E. pose proof (DecimalPos.Unsigned.of_to p) as H. rewrite E in H. discriminate. }
  intros z _. destruct z as [|p|p].
  - left. split; [apply (zero_digits (Decimal.D0 Decimal.Nil))|reflexivity].
  - left. unfold showZ, readZ. cbn [Z.to_int NilZero.string_of_int]. split; [apply zero_digits|]. rewrite NilZero.usu by apply Nn. cbn. f_equal. exact (DecimalZ.of_to (Zpos p)).
  - right. exists (NilZero.string_of_uint (Pos.to_uint p)), (Zpos p). split; [reflexivity|]. split; [apply zero_digits|]. split; [|reflexivity].
    unfold readZ. rewrite NilZero.usu by apply Nn. cbn. f_equal. exact (DecimalZ.of_to (Zpos p)).
Qed.

Local Open Scope Z_scope.
Definition pb1 : penbrush Z := PenBrush (Some (Pen (Brush (CTuple [1; -2; 3])) 2)) None.
Definition pb2 : penbrush Z := PenBrush None (Some (Brush (CStr "it's \ red"))).
Definition drawing : elem Z := EGroup (EB "g" pb1 false t_new) false
  [("a", ELeaf (EB "a" pb2 true t_new) (SRect (P 1 2) (P (-3) 4)));
   ("b", EGroup (EB "b" pb1 true t_new) false [] []);
   ("c'", ELeaf (EB "c'" pb1 false (t_new6 1 2 3 4 5 (-6)))
            (SCurve [CP (P 1 2) (V 0 0) (V 1 1) "smooth"; CP (P 1 2) (V 0 0) (V 1 1) "sharp"]))] [].
Example C68_ex : dumpable drawing /\ elem_in (fun _ => True) drawing /\ canonical drawing.
Proof.
  split; [|split].
  - cbn. unfold sound_base. cbn. repeat split; auto; try discriminate; repeat constructor; cbn; intuition discriminate.
  - unfold elem_in, base_in, pb_in, pen_in, xf_in, shape_in, cp_in, pt_in, vec_in. cbn. repeat (split || constructor || auto).
  - cbn. repeat split; auto; repeat constructor.
Qed.
Example C68_ex_text : dump_text showZ drawing = Ok (join newline
  ["from x7.geom.geom import *"; "from x7.geom.model import *"; "from x7.geom.colors import *"; "from x7.geom.transform import *"; "";
   "pen_1 = PenBrush(Pen((1, -2, 3), 2), None)";
   "pen_2 = PenBrush(None, Brush(""it's \\ red""))";
   "xform_1 = Transform((1, 2, 3, 4, 5, -6))"; "";
   "model = Group('g', pen_1, closed=False, elems=[";
   "    ElemRectangle('a', pen_2, closed=True, p1=Point(1, 2), p2=Point(-3, 4)),";
   "    Group('b', pen_1, closed=True, elems=[";
   "    ]),";
   "    ElemCurve(""c'"", pen_1, closed=False, xform=xform_1, control_points=[";
   "        ControlPoint(Point(1, 2), Vector(0, 0), Vector(1, 1), 'smooth'),";
   "        ControlPoint(Point(1, 2), Vector(0, 0), Vector(1, 1), 'sharp'),";
   "    ]),";
   "])"]).
Proof. vm_compute. reflexivity. Qed.
Example C68_ex_load : match dump_text showZ drawing with Ok s => load readZ s | Raise _ => None end = Some drawing.
Proof. vm_compute. reflexivity. Qed.

(* what a dump loses *)
Theorem C68_hidden_lost_refuted : forall {F} {NF : Num F} (dom : F -> Prop) (show : F -> string) (num_of : string -> option F), reads_back_on dom show num_of ->
  forall b l p, dumpable (EGroup b true l p) -> elem_in dom (EGroup b true l p) -> exists s e, dump_text show (EGroup b true l p) = Ok s /\ load num_of s = Some e /\ e <> EGroup b true l p /\
    match e with EGroup _ h _ p' => h = false /\ p' = [] | _ => False end.
Proof.
  intros F NF dom show num_of RB b l p D N. destruct (C68_load_dump dom show num_of RB _ D N) as (s & A & B). exists s, (reloaded (EGroup b true l p)). split; [exact A|]. split; [exact B|].
  split; [discriminate|split; reflexivity].
Qed.
(* the drawing order of members follows their names, not the order in which they were added *)
Theorem C68_order_lost_refuted : let a := ELeaf (EB "a" pb1 true t_new) (SRect (P 0 0) (P 1 1)) in let b := ELeaf (EB "b" pb1 true t_new) (SRect (P 0 0) (P 2 2)) in
  mk_group "g" pb1 false None [b; a] [] false false = Ok (EGroup (EB "g" pb1 false t_new) false [("b", b); ("a", a)] []) /\
  match dump_text showZ (EGroup (EB "g" pb1 false t_new) false [("b", b); ("a", a)] []) with Ok s => load readZ s | Raise _ => None end =
  Some (EGroup (EB "g" pb1 false t_new) false [("a", a); ("b", b)] []).
Proof. vm_compute. auto. Qed.
(* The dump of an element with holes, or of a group with one anywhere in it, cannot be executed:
   the outside is written as its repr, in which the pen is missing. *)
Theorem C68_holes_refuted : forall {F} {NF : Num F} (dom : F -> Prop) (show : F -> string) (num_of : string -> option F), reads_back_on dom show num_of ->
  forall e, simple_outsides e -> holed e = true -> elem_in dom e -> exists s, dump_text show e = Ok s /\ load num_of s = None.
Proof. intros F NF dom show num_of RB e D H N. exact (load_fails show num_of e D (elem_mono dom _ RB e N) H). Qed.
Example C68_holes_ex :
  let o := ELeaf (EB "o" pb2 true t_new) (SCurve [CP (P 0 0) (V 0 0) (V 1 1) "smooth"; CP (P 5 5) (V 0 0) (V 1 1) "sharp"]) in
  let i := ELeaf (EB "i" pb2 true t_new) (SRect (P 1 1) (P 2 2)) in
  let h := EHoles (EB "h" pb2 true t_new) o [i] in let g := EGroup (EB "g" pb1 false t_new) false [("a", i); ("h", h)] [] in
  mk_holes "h" pb2 o [i] true None = Ok h /\ simple_outsides g /\ holed g = true /\ elem_in (fun _ => True) g.
Proof.
  split; [reflexivity|]. split; [cbn; tauto|]. split; [reflexivity|].
  unfold elem_in, base_in, pb_in, pen_in, xf_in, shape_in, cp_in, pt_in, vec_in. cbn. repeat (split || constructor || auto).
Qed.

(* ------------------------------------------------------------------ *)
(** ** the import lines *)

Lemma add_one_import (acc : list string) i : NoDup acc -> let r := if existsb (String.eqb i) acc then acc else (acc ++ [i])%list in
  NoDup r /\ (exists more, r = acc ++ more)%list /\ forall j, In j r <-> In j acc \/ j = i.
Proof.
  intros N. destruct (existsb (String.eqb i) acc) eqn:E; cbv zeta.
  - apply existsb_exists in E as (k & Ik & Ek). apply String.eqb_eq in Ek as <-. split; [exact N|]. split; [exists []; now rewrite app_nil_r|]. intros j. split; [auto|]. intros [H| ->]; auto.
  - assert (Ni : ~ In i acc). { intros C. assert (X : existsb (String.eqb i) acc = true) by (apply existsb_exists; exists i; split; [exact C|apply String.eqb_refl]). congruence. }
    split; [apply (Permutation_NoDup (Permutation_cons_append acc i)); now constructor|]. split; [eauto|]. intros j. rewrite in_app_iff. cbn [In]. intuition.
Qed.
Lemma add_imports_spec : forall l d, NoDup (d_imports d) -> let d' := add_imports l d in
  NoDup (d_imports d') /\ (exists more, d_imports d' = d_imports d ++ more)%list /\ forall j, In j (d_imports d') <-> In j (d_imports d) \/ In j l.
Proof.
  intros l d. unfold add_imports. cbn [d_imports]. generalize (d_imports d) as acc. induction l as [|i l IH]; intros acc N; cbn [fold_left].
  - split; [exact N|]. split; [exists []; now rewrite app_nil_r|]. cbn. tauto.
  - destruct (add_one_import acc i N) as (N1 & [m1 E1] & I1). destruct (IH _ N1) as (N2 & [m2 E2] & I2). split; [exact N2|]. split.
    + exists (m1 ++ m2)%list. now rewrite E2, E1, app_assoc.
    + intros j. rewrite I2, I1. cbn [In]. intuition.
Qed.
Lemma op_imports st o : NoDup (d_imports (fst st)) -> let st' := do_op st o in
  NoDup (d_imports (fst st')) /\ (exists more, d_imports (fst st') = d_imports (fst st) ++ more)%list /\
  forall j, In j (d_imports (fst st')) <-> In j (d_imports (fst st)) \/ exists l, o = OImports l /\ In j l.
Proof.
  destruct st as [d names]. cbn [fst]. intros N.
  assert (Same : forall d', d_imports d' = d_imports d -> (forall l, o <> OImports l) -> NoDup (d_imports d') /\ (exists more, d_imports d' = d_imports d ++ more)%list /\
    forall j, In j (d_imports d') <-> In j (d_imports d) \/ exists l, o = OImports l /\ In j l).
  { intros d' E No. rewrite E. split; [exact N|]. split; [exists []; now rewrite app_nil_r|]. intros j. split; [auto|]. intros [H|(l & C & _)]; [auto|destruct (No l C)]. }
  destruct o as [r p|s|l|l| | | |]; cbn [do_op]; cbv zeta; try (apply Same; [reflexivity|discriminate]).
  - unfold set_var. destruct (d_use d); [destruct (find_key r (d_vars d))|]; apply Same; reflexivity || discriminate.
  - cbn [fst]. destruct (add_imports_spec l d N) as (A & B & C). split; [exact A|]. split; [exact B|]. intros j. rewrite C. split; intros [H|H]; auto; right; [exists l; auto|]. destruct H as (l' & E & H). now injection E as <-.
  - unfold add_comma. destruct (rev (d_lines d)); apply Same; reflexivity || discriminate.
  - unfold output. destruct (d_lines d); apply Same; reflexivity || discriminate.
Qed.

(* Whatever is done with a context: the four standard imports come first, every line asked for
   is there once and no other, and a line keeps its place when more are added. *)
Theorem C51_imports : forall use ops,
  let imports ops := d_imports (fst (history use ops)) in
  let standard := ["from x7.geom.geom import *"; "from x7.geom.model import *"; "from x7.geom.colors import *"; "from x7.geom.transform import *"] in
  (exists more, imports ops = standard ++ more)%list /\ NoDup (imports ops) /\
  (forall j, In j (imports ops) <-> In j standard \/ exists l, In (OImports l) ops /\ In j l) /\
  (forall later, exists more, imports (ops ++ later) = imports ops ++ more)%list.
Proof.
  intros use ops imports standard.
  assert (G : forall ops st, NoDup (d_imports (fst st)) -> let st' := fold_left do_op ops st in NoDup (d_imports (fst st')) /\
    (exists more, d_imports (fst st') = d_imports (fst st) ++ more)%list /\ forall j, In j (d_imports (fst st')) <-> In j (d_imports (fst st)) \/ exists l, In (OImports l) ops /\ In j l).
  { clear. induction ops as [|o ops IH]; intros st N; cbn [fold_left].
    - split; [exact N|]. split; [exists []; now rewrite app_nil_r|]. intros j. split; [auto|]. intros [H|(l & [] & _)]. exact H.
    - destruct (op_imports st o N) as (N1 & [m1 E1] & I1). destruct (IH _ N1) as (N2 & [m2 E2] & I2). split; [exact N2|]. split.
      + exists (m1 ++ m2)%list. now rewrite E2, E1, app_assoc.
      + intros j. rewrite I2, I1. split.
        * intros [[H|(l & -> & H)]|(l & H & H')]; [auto|right; exists l; cbn; auto|right; exists l; cbn; auto].
        * intros [H|(l & [->|H] & H')]; [auto|left; right; eauto|right; eauto]. }
  assert (N0 : NoDup (d_imports (fst (dump_new use, [] : list (string * string))))).
  { cbn. repeat constructor; cbn; intuition discriminate. }
  destruct (G ops _ N0) as (A & B & C). split; [exact B|]. split; [exact A|]. split; [exact C|].
  intros later. unfold imports, history. rewrite fold_left_app. apply (G later _ A).
Qed.
Example C51_example_imports : d_imports (fst (history true [OImports ["import a"; "import b"; "import a"]; OAppend "x"; OOutput; OImports ["import b"; "from x7.geom.model import *"]])) =
  ["from x7.geom.geom import *"; "from x7.geom.model import *"; "from x7.geom.colors import *"; "from x7.geom.transform import *"; "import a"; "import b"].
Proof. reflexivity. Qed.
