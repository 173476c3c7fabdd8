(* C68, C83 on doubles: a way to write every finite double so that it is read back, and so the
   theorems about dumps and reprs for drawings in doubles. *)
Require Import Verif.Base Verif.NumFloat Verif.M_vector Verif.M_bbox Verif.M_transform Verif.M_bezier Verif.M_colors Verif.M_elems Verif.M_group Verif.M_points Verif.S_points
  Verif.L_group Verif.M_dump Verif.S_dump Verif.L_dump Verif.L_dump2 Verif.L_dump3 Verif.L_dump4 Verif.P_dump Verif.M_repr Verif.S_repr Verif.L_repr Verif.P_repr.
From Coq Require Import String Ascii List Lia Bool Arith ZArith Floats DecimalString DecimalPos DecimalZ DecimalNat.
Import ListNotations.
Local Open Scope Z_scope.
Local Open Scope string_scope.

(* ------------------------------------------------------------------ *)
(** ** exact decimal texts *)

(* m * 2^e as a decimal literal: m*2^e with exponent -0, or m*5^(-e) with exponent e *)
Definition digits (p : positive) : string := NilZero.string_of_uint (Pos.to_uint p).
Definition show_pos (m : positive) (e : Z) : string :=
  match e with
  | Zneg k => digits (m * 5 ^ k) ++ "e-" ++ digits k
  | Zpos k => digits (m * 2 ^ k) ++ "e-0"
  | Z0 => digits m ++ "e-0"
  end.
Definition show_double (x : float) : string :=
  match Prim2SF x with
  | S754_zero false => "0e-0"
  | S754_zero true => "-0e-0"
  | S754_finite false m e => show_pos m e
  | S754_finite true m e => "-" ++ show_pos m e
  | S754_infinity false => "inf"
  | S754_infinity true => "-inf"
  | S754_nan => "nan"
  end.
(* reading an unsigned decimal literal with a negative exponent whose value is a double *)
Fixpoint split_e (s : string) : option (string * string) :=
  match s with
  | EmptyString => None
  | String c s => if Ascii.eqb c "e" then Some ("", s) else match split_e s with Some (a, b) => Some (String c a, b) | None => None end
  end.
Definition read_double (s : string) : option float :=
  match split_e s with
  | Some (a, String "-" b) =>
      match NilZero.uint_of_string a, NilZero.uint_of_string b with
      | Some n, Some k =>
          match Z.of_uint n, Z.of_uint k with
          | Zpos n, Z0 => let e := Z.log2 (Zpos n) - 52 in
              match Zpos n / 2 ^ e with Zpos m => Some (SF2Prim (S754_finite false m e)) | _ => None end
          | Zpos n, Zpos k =>
              match Zpos n / 5 ^ Zpos k with Zpos m => Some (SF2Prim (S754_finite false m (Zneg k))) | _ => None end
          | Z0, _ => Some 0%float
          | _, _ => None
          end
      | _, _ => None
      end
  | _ => None
  end.
Definition finite_double (x : float) : Prop := match Prim2SF x with S754_zero _ | S754_finite _ _ _ => True | _ => False end.

Lemma digits_digits p : forallb is_digit (list_ascii_of_string (digits p)) = true.
Proof.
  unfold digits, NilZero.string_of_uint. pose proof (uint_digits (Pos.to_uint p)) as H. destruct (Pos.to_uint p); auto.
Qed.
Lemma to_uint_nonnil p : Pos.to_uint p <> Decimal.Nil.
Proof. intros E. pose proof (DecimalPos.Unsigned.of_to p) as H. rewrite E in H. discriminate. Qed.
Lemma digits_read p : option_map Z.of_uint (NilZero.uint_of_string (digits p)) = Some (Zpos p).
Proof. unfold digits. rewrite NilZero.usu by apply to_uint_nonnil. cbn. f_equal. exact (DecimalZ.of_to (Zpos p)). Qed.
Lemma digits_cons p : exists c s, digits p = String c s /\ is_digit c = true.
Proof.
  pose proof (digits_digits p) as H. destruct (digits p) as [|c s] eqn:E.
  - exfalso. unfold digits, NilZero.string_of_uint in E. destruct (Pos.to_uint p); discriminate.
  - cbn in H. apply andb_prop in H as [H _]. eauto.
Qed.
Lemma split_digits s t : forallb is_digit (list_ascii_of_string s) = true -> split_e (s ++ String "e" t) = Some (s, t).
Proof.
  induction s as [|c s IH]; intros H; [reflexivity|]. cbn in H. apply andb_prop in H as [H1 H2]. cbn [append split_e].
  destruct (Ascii.eqb_spec c "e") as [->|_]; [discriminate|]. now rewrite IH.
Qed.
Lemma last_app t c : last_char (t ++ String c "") = Some c.
Proof.
  unfold last_char. induction t as [|a t IH]; [reflexivity|]. cbn [append list_ascii_of_string map]. destruct (list_ascii_of_string (t ++ String c "")) as [|b l] eqn:E.
  - destruct t; discriminate.
  - cbn [map] in *. exact IH.
Qed.
Lemma literal_exp d k : (exists c s, d = String c s /\ is_digit c = true) -> forallb is_digit (list_ascii_of_string d) = true -> forallb is_digit (list_ascii_of_string k) = true ->
  literal (d ++ "e-" ++ k).
Proof.
  intros (c & s & -> & C) D K. split; [now exists c, (s ++ "e-" ++ k)|]. intros ts n b.
  assert (L : literal (String c s)) by now apply literal_digits. destruct L as [_ L]. rewrite lexes_app, (L ts n b).
  assert (S1 : forall t b, step (Lexer ts (InNum t) n b) "e" = Some (Lexer ts (InNum (t ++ "e")) n false)) by reflexivity.
  assert (S2 : forall t b, step (Lexer ts (InNum (t ++ "e")) n b) "-" = Some (Lexer ts (InNum ((t ++ "e") ++ "-")) n false)).
  { intros t b'. unfold step. cbn [l_mode l_toks l_depth]. unfold after_e. rewrite last_app. reflexivity. }
  change ("e-" ++ k) with (String "e" (String "-" k)). cbn [lexes]. rewrite S1, S2.
  rewrite digits_num by exact K. rewrite !sapp_assoc. destruct k; reflexivity.
Qed.

Lemma size_digits p : digits2_pos p = Pos.size p.
Proof. induction p; cbn; congruence. Qed.
Lemma log2_size p : Z.log2 (Zpos p) = Zpos (Pos.size p) - 1.
Proof. destruct p; cbn [Z.log2 Pos.size]; rewrite ?Pos2Z.inj_succ; lia. Qed.
Lemma canonical_log m e : valid_binary (S754_finite false m e) = true -> 0 <= e -> Z.log2 (Zpos m) = 52.
Proof.
  intros V E. rewrite log2_size. unfold valid_binary, SpecFloat.valid_binary, bounded, canonical_mantissa, fexp in V. rewrite size_digits in V. apply andb_prop in V as [V _]. apply Zeq_bool_eq in V.
  change (SpecFloat.emin prec emax) with (-1074) in V. change prec with 53 in V. lia.
Qed.
Lemma read_show_pos m e : valid_binary (S754_finite false m e) = true -> literal (show_pos m e) /\ read_double (show_pos m e) = Some (SF2Prim (S754_finite false m e)).
Proof.
  intros V.
  assert (Big : forall p e, 0 <= e -> Zpos p = Zpos m * 2 ^ e -> valid_binary (S754_finite false m e) = true ->
    literal (digits p ++ "e-0") /\ read_double (digits p ++ "e-0") = Some (SF2Prim (S754_finite false m e))).
  { clear e V. intros p e E P V. split.
    - apply (literal_exp (digits p) "0"); [apply digits_cons|apply digits_digits|reflexivity].
    - unfold read_double. rewrite (split_digits (digits p) "-0") by apply digits_digits. pose proof (digits_read p) as R.
      destruct (NilZero.uint_of_string (digits p)) as [u|]; [|discriminate]. cbn [option_map] in R. injection R as ->.
      change (NilZero.uint_of_string "0") with (Some (Decimal.D0 Decimal.Nil)). cbv iota. change (Z.of_uint (Decimal.D0 Decimal.Nil)) with 0. cbv beta iota zeta. rewrite P, Z.log2_mul_pow2 by lia. rewrite (canonical_log m e V E). replace (e + 52 - 52) with e by lia.
      rewrite Z.div_mul by (apply Z.pow_nonzero; lia). reflexivity. }
  destruct e as [|k|k]; cbn [show_pos].
  - apply Big; auto; lia.
  - apply Big; auto; [lia|]. now rewrite Pos2Z.inj_mul, Pos2Z.inj_pow.
  - split; [apply literal_exp; [apply digits_cons|apply digits_digits|apply digits_digits]|].
    unfold read_double. change ("e-" ++ digits k) with (String "e" (String "-" (digits k))). rewrite split_digits by apply digits_digits.
    pose proof (digits_read (m * 5 ^ k)) as R. destruct (NilZero.uint_of_string (digits (m * 5 ^ k))) as [u|]; [|discriminate]. cbn [option_map] in R. injection R as ->.
    pose proof (digits_read k) as R. destruct (NilZero.uint_of_string (digits k)) as [u'|]; [|discriminate]. cbn [option_map] in R. injection R as ->.
    rewrite Pos2Z.inj_mul, Pos2Z.inj_pow, Z.div_mul by (apply Z.pow_nonzero; lia). reflexivity.
Qed.
(* Every finite double has a text that is read back as it: the hypothesis of C68, C69 and C83 is
   met by the doubles, with the infinities and nan left out *)
Theorem C68_doubles_read_back : reads_back_on finite_double show_double read_double.
Proof.
  intros x Fx. unfold finite_double, show_double in *. pose proof (Prim2SF_valid x) as V. pose proof (SF2Prim_Prim2SF x) as B. destruct (Prim2SF x) as [[]|[]| |[] m e] eqn:E; try destruct Fx.
  - right. exists "0e-0", 0%float. split; [reflexivity|]. split; [apply (literal_exp "0" "0"); [now exists "0"%char, ""|reflexivity..]|]. split; [reflexivity|]. rewrite <- B. reflexivity.
  - left. split; [apply (literal_exp "0" "0"); [now exists "0"%char, ""|reflexivity..]|]. rewrite <- B. reflexivity.
  - right. assert (V' : valid_binary (S754_finite false m e) = true) by exact V. destruct (read_show_pos m e V') as [L R]. exists (show_pos m e), (SF2Prim (S754_finite false m e)).
    split; [reflexivity|]. split; [exact L|]. split; [exact R|]. apply Prim2SF_inj. change (nneg (SF2Prim (S754_finite false m e))) with (- SF2Prim (S754_finite false m e))%float. rewrite opp_spec, Prim2SF_SF2Prim by exact V'. now rewrite E.
  - left. destruct (read_show_pos m e V) as [L R]. split; [exact L|]. now rewrite R, B.
Qed.
Theorem C68_doubles : forall e : elem float, dumpable e -> elem_in finite_double e ->
  exists s, dump_text show_double e = Ok s /\ load read_double s = Some (reloaded e).
Proof. exact (C68_load_dump finite_double show_double read_double C68_doubles_read_back). Qed.
(* a point of finite doubles comes back equal *)
Theorem C83_doubles : forall (st : pstore float) i, reachable st -> readable finite_double st i -> exists s, repr_point show_double st i = Ok s /\
  exists new j, evaluates read_double st s = Some ((st ++ new)%list, GPoint j) /\ points_eqb (st ++ new)%list i j = true.
Proof.
  apply (C83_equal finite_double show_double read_double C68_doubles_read_back).
  intros x Fx. change (PrimFloat.eqb x x = true). rewrite eqb_spec. unfold finite_double in Fx. unfold SFeqb. destruct (Prim2SF x) as [[]|[]| |[] m e]; try destruct Fx; cbn; rewrite ?Z.compare_refl; try reflexivity;
    change (Pos.compare_cont Eq m m) with (Pos.compare m m); rewrite Pos.compare_refl; reflexivity.
Qed.
(* the infinities and nan are written as names that mean nothing when read *)
Theorem C83_infinite_refuted : forall x num_of st, ~ finite_double x -> exists s, repr_point show_double [NPoint x 0%float None] 0 = Ok s /\ evaluates num_of st s = None.
Proof.
  intros x num_of st Fx. unfold finite_double in Fx. eexists. split; [reflexivity|]. unfold show_double.
  destruct (Prim2SF x) as [[]|[]| |[] m e]; try (destruct (Fx I)); vm_compute; reflexivity.
Qed.

Local Open Scope float_scope.
Set Warnings "-inexact-float".
Definition drawing_doubles : elem float := EGroup (EB "g" (PenBrush (Some (Pen (Brush (CTuple [0.1; -2.5; 3])) 0.3)) None) false t_new) false
  [("a", ELeaf (EB "a" (PenBrush None (Some (Brush (CStr "red")))) true (t_new6 0.7 0 1e300 (-0x1p-1074) 0.9 1e17)) (SRect (P 0.1 0.2) (P (-0.3) (-0))));
   ("b", ELeaf (EB "b" (PenBrush None None) false t_new) (SCurve [CP (P 1.1 2.2) (V 0 0.1) (V 1 1e-5) "smooth"]))]%list [].
Example C68_doubles_ex : dumpable drawing_doubles /\ elem_in finite_double drawing_doubles /\ canonical drawing_doubles.
Proof.
  split; [|split].
  - cbn. unfold sound_base. cbn. repeat split; auto; try discriminate; repeat constructor; cbn; intuition discriminate.
  - unfold elem_in, base_in, pb_in, pen_in, xf_in, shape_in, cp_in, pt_in, vec_in. cbn -[finite_double]. repeat (split || constructor || (vm_compute; exact I)).
  - vm_compute. repeat split; auto; repeat constructor.
Qed.
Example C68_doubles_text : show_double 0.1 = "10000000000000000555111512312578270211815834045410156250e-56" /\ show_double 1e17 = "100000000000000000e-0" /\
  read_double "10000000000000000555111512312578270211815834045410156250e-56" = Some 0.1.
Proof. repeat split; vm_compute; reflexivity. Qed.
Example C68_doubles_load : match dump_text show_double drawing_doubles with Ok s => load read_double s | Raise _ => None end = Some drawing_doubles.
Proof. vm_compute. reflexivity. Qed.
