(* C74: the helpers for tests. *)
From Coq Require Import Reals Lra.
Require Import Verif.L_real.
Require Import Verif.Base Verif.NumR Verif.M_vector Verif.M_bbox Verif.M_transform Verif.M_bezier Verif.M_matchers.
From Coq Require Import List Bool Lia String Relations.
Import ListNotations.
Local Open Scope string_scope.
Local Open Scope list_scope.

(* ---------------- classes ---------------- *)
(* the answer holds exactly the proper descendants, whatever the shape of the hierarchy *)
Theorem C74_subclasses : forall (subs : nat -> list nat) (height : nat -> nat),
  (forall c d, In d (subs c) -> height d < height c)%nat ->
  forall fuel c, (height c < fuel)%nat ->
  forall d, In d (all_subclasses subs fuel c) <-> clos_trans nat (fun x y => In x (subs y)) d c.
Proof.
  intros subs height H. induction fuel as [|fuel IH]; intros c L d; [lia|]. cbn [all_subclasses]. rewrite in_app_iff, in_flat_map. split.
  - intros [I|(e & I & J)]; [now apply t_step|]. apply t_trans with e; [|now apply t_step]. apply IH; auto. specialize (H _ _ I). lia.
  - intros T. apply Operators_Properties.clos_trans_t1n_iff, Operators_Properties.clos_t1n_trans, Operators_Properties.clos_trans_tn1_iff in T.
    inversion T as [I|e ? I J]; subst; [now left|right]. exists e. split; [exact I|]. apply IH; [specialize (H _ _ I); lia|].
    now apply Operators_Properties.clos_trans_tn1_iff.
Qed.
(* a diamond: 0 above 1 and 2, both above 3 *)
Example C74_ex_diamond : let subs := fun c => match c with 0 => [1; 2] | 1 => [3] | 2 => [3] | _ => [] end%nat in
  forall d, In d (all_subclasses subs 4 0) <-> (d = 1 \/ d = 2 \/ d = 3)%nat.
Proof. intros subs d. cbn. intuition lia. Qed.

(* ---------------- points and vectors ---------------- *)
Section Points.
  Variable almost : R -> R -> option Z -> option R -> option string.
  (* equal exactly when both coordinates are, by the default tolerance; the message names the
     coordinates that differ, x first; places and delta do not matter *)
  Theorem C74_points_equal : forall p q places delta,
    geomxy_almost almost p q places delta = None <->
    almost (fst p) (fst q) None None = None /\ almost (snd p) (snd q) None None = None.
  Proof.
    intros p q places delta. unfold geomxy_almost. destruct (almost (fst p) (fst q) None None), (almost (snd p) (snd q) None None); cbn; intuition congruence.
  Qed.
  Theorem C74_points_message : forall p q places delta m,
    geomxy_almost almost p q places delta = Some m <->
    (exists mx, almost (fst p) (fst q) None None = Some mx /\ almost (snd p) (snd q) None None = None /\ m = ("x: " ++ mx)%string) \/
    (exists my, almost (fst p) (fst q) None None = None /\ almost (snd p) (snd q) None None = Some my /\ m = ("y: " ++ my)%string) \/
    (exists mx my, almost (fst p) (fst q) None None = Some mx /\ almost (snd p) (snd q) None None = Some my /\
       m = ("x: " ++ mx ++ ", y: " ++ my)%string).
  Proof.
    intros p q places delta m. unfold geomxy_almost.
    destruct (almost (fst p) (fst q) None None) as [mx|], (almost (snd p) (snd q) None None) as [my|]; cbn -[append].
    - split.
      + intros E. injection E as <-. right; right. exists mx, my. repeat split.
      + intros [(a & A & B & C)|[(a & A & B & C)|(a & b & A & B & C)]]; try congruence. injection A as ->. injection B as ->. subst. reflexivity.
    - split.
      + intros E. injection E as <-. left. eauto.
      + intros [(a & A & B & C)|[(a & A & B & C)|(a & b & A & B & C)]]; congruence.
    - split.
      + intros E. injection E as <-. right; left. eauto.
      + intros [(a & A & B & C)|[(a & A & B & C)|(a & b & A & B & C)]]; congruence.
    - split; [discriminate|]. intros [(a & A & B & C)|[(a & A & B & C)|(a & b & A & B & C)]]; congruence.
  Qed.
End Points.
(* unittest's rule: equal when the difference is below half a unit of the last place (7 places when
   none are given), or at most delta *)
Definition by_places (a b : R) (places : option Z) (delta : option R) : option string :=
  let ok := match delta with
            | Some d => Rleb (Rabs (a - b)) d
            | None => Rltb (Rabs (a - b) * IZR (10 ^ match places with Some n => n | None => 7%Z end)) (1 / 2)
            end in
  if ok then None else Some "differ".
(* places and delta are ignored *)
Theorem C74_places_refuted : exists p q : R * R, 
  by_places (fst p) (fst q) (Some 0%Z) None = None /\ by_places (snd p) (snd q) (Some 0%Z) None = None /\
  geomxy_almost by_places p q (Some 0%Z) None <> None /\
  by_places (fst p) (fst q) None (Some 1%R) = None /\ by_places (snd p) (snd q) None (Some 1%R) = None /\
  geomxy_almost by_places p q None (Some 1%R) <> None.
Proof.
  exists (0, 0)%R, (1/4, 0)%R. unfold by_places, geomxy_almost. cbn [fst snd].
  replace (Rabs (0 - 0)) with 0%R by (rewrite Rminus_0_r, Rabs_R0; reflexivity).
  replace (Rabs (0 - 1/4)) with (1/4)%R by (unfold Rabs; destruct Rcase_abs; lra).
  change (10 ^ 0)%Z with 1%Z. change (10 ^ 7)%Z with 10000000%Z.
  assert (A : forall a b, (a < b)%R -> Rltb a b = true) by (intros; now apply Rltb_lt).
  assert (B : forall a b, (a <= b)%R -> Rleb a b = true) by (intros; now apply Rleb_le).
  assert (C : forall a b, (b <= a)%R -> Rltb a b = false) by (intros; now apply Rltb_ge).
  rewrite (A (1/4 * 1)%R), (A (0 * 1)%R), (C (1/4 * 10000000)%R), (B (1/4)%R), (B 0%R) by lra. cbn -[append].
  repeat split; discriminate.
Qed.

(* ---------------- control points ---------------- *)
(* explain_mismatch never says that two control points match: it raises when all of c, dl and dr
   are close, and says False otherwise *)
Theorem C74_control_points : forall (n o : cpoint R),
  let close a b := (R_sqrt.sqrt ((fst a - fst b) * (fst a - fst b) + (snd a - snd b) * (snd a - snd b)) < 1 / 10 ^ 11)%R in
  let all := close (px (cc n), py (cc n)) (px (cc o), py (cc o)) /\ close (vx (cdl n), vy (cdl n)) (vx (cdl o), vy (cdl o)) /\
    close (vx (cdr n), vy (cdr n)) (vx (cdr o), vy (cdr o)) in
  (all /\ cp_explain n o = Raise AttributeError) \/ (~ all /\ cp_explain n o = Ok (false, None)).
Proof.
  intros n o close all.
  assert (D : @close_delta R _ = (1 / 10 ^ 11)%R) by (unfold close_delta; cbn; lra).
  assert (Cv : forall v w : vec R, v_close close_delta v w = true <-> close (vx v, vy v) (vx w, vy w)).
  { intros v w. unfold v_close, close. rewrite Rltb_lt, D. reflexivity. }
  assert (Cp : forall p q : pt R, p_close close_delta p q = true <-> close (px p, py p) (px q, py q)).
  { intros p q. unfold p_close, close. rewrite Rltb_lt, D. reflexivity. }
  unfold all. rewrite <- Cp, <- !Cv. unfold cp_explain, cp_attrs. cbn [combine all_close attr_close bind].
  destruct (p_close close_delta (cc n) (cc o)); cbn [bind]; [|right; split; [intuition discriminate|reflexivity]].
  destruct (v_close close_delta (cdl n) (cdl o)); cbn [bind]; [|right; split; [intuition discriminate|reflexivity]].
  destruct (v_close close_delta (cdr n) (cdr o)); cbn [bind]; [left; auto|right; split; [intuition discriminate|reflexivity]].
Qed.
(* so equal control points are not explained as a match *)
Theorem C74_control_points_refuted : forall n : cpoint R, cp_explain n n = Raise AttributeError.
Proof.
  intros n. destruct (C74_control_points n n) as [[_ E]|[N _]]; [exact E|exfalso]. apply N. cbn [fst snd].
  assert (Z : forall a b : R, (R_sqrt.sqrt ((a - a) * (a - a) + (b - b) * (b - b)) < 1 / 10 ^ 11)%R).
  { intros a b. replace ((a - a) * (a - a) + (b - b) * (b - b))%R with 0%R by ring. rewrite R_sqrt.sqrt_0. lra. }
  auto.
Qed.
Example C74_ex_control_points : cp_explain (CP (P 0 0) (V 0 0) (V 0 0) "s") (CP (P 1 0) (V 0 0) (V 0 0) "s")%R = Ok (false, None).
Proof.
  destruct (C74_control_points (CP (P 0 0) (V 0 0) (V 0 0) "s") (CP (P 1 0) (V 0 0) (V 0 0) "s")%R) as [[(H & _) _]|[_ E]]; [exfalso|exact E].
  cbn [fst snd px py vx vy cc cdl cdr] in H. replace ((0 - 1) * (0 - 1) + (0 - 0) * (0 - 0))%R with 1%R in H by ring. rewrite R_sqrt.sqrt_1 in H. lra.
Qed.

(* ---------------- assertMatchPlot ---------------- *)
Section Plots.
  Variables (Im : Type) (picture : plt -> res Im) (matches : Im -> answer) (body : plt -> plt * res unit).
  (* the settings are as before and one figure is closed, whatever the body does and whatever the
     comparison says; what comes out: an exception or a failure of the comparison first, then an
     exception of the body.  The body is run with the title settings 1 and -20. *)
  Theorem C74_plot_settings : forall s s1 r im, body (Plt (Some 1%Z) (-20)%Z (figures s)) = (s1, r) -> picture s1 = Ok im ->
    exists out, match_plot picture matches body s = (Plt (titley s) (titlepad s) (figures s1 - 1), out) /\
      (out = ODone <-> matches im = ATrue /\ r = Ok tt) /\
      (forall e, matches im = AExn e -> out = OMatchExn e) /\ (forall m, matches im = AMsg m -> out = OFailed m) /\
      (forall e, matches im = ATrue -> r = Raise e -> out = OBody e).
  Proof.
    intros s s1 r im B Pc. unfold match_plot, plot_enter, plot_exit. rewrite B, Pc. cbn [titley titlepad figures].
    eexists. split; [rewrite Nat.sub_1_r; reflexivity|].
    destruct (matches im), r as [[]|]; repeat split; try congruence; try (intros (A & C); congruence); intros; try discriminate; intuition congruence.
  Qed.
End Plots.
(* if the picture cannot be taken the settings are left changed *)
Theorem C74_plot_settings_refuted : exists (picture : plt -> res unit) matches body s,
  let r := match_plot picture matches body s in snd r = OPicture ValueError /\ titley (fst r) <> titley s.
Proof. exists (fun _ => Raise ValueError), (fun _ => ATrue), (fun s => (s, Ok tt)), (Plt None 6 1). split; [reflexivity|discriminate]. Qed.
Example C74_ex_plot : match_plot (fun s => Ok (titlepad s)) (fun pad => if Z.eqb pad (-20) then ATrue else AMsg "no")
  (fun s => (s, Raise ValueError)) (Plt None 6 1) = (Plt None 6 0, OBody ValueError).
Proof. reflexivity. Qed.
