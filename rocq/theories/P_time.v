(* C56: time functions. *)
Require Import Verif.Base Verif.NumR Verif.L_real Verif.M_vector Verif.M_points Verif.M_anim Verif.S_anim.
From Coq Require Import Reals List Lra Lia.
Import ListNotations.
Local Open Scope list_scope.
Local Open Scope R_scope.

(* ---------------- interpolate ---------------- *)

Lemma rising_tail k l : rising (k :: l) -> rising l.
Proof. destruct l; [easy|]. intros [_ H]; exact H. Qed.
Lemma strict_rising l : strictly_rising l -> rising l.
Proof.
  induction l as [|k [|k' l] IH]; try easy. intros [H1 H2]. split; [lra|auto].
Qed.
Lemma strict_tail k l : strictly_rising (k :: l) -> strictly_rising l.
Proof. destruct l; [easy|]. intros [_ H]; exact H. Qed.
Lemma strict_app A k k' B : strictly_rising (A ++ k :: k' :: B) -> fst k < fst k'.
Proof.
  induction A as [|a A IH]; [intros [H _]; exact H|]. intros H. apply IH. exact (strict_tail a _ H).
Qed.
Lemma rising_app A B : rising (A ++ B) -> rising B.
Proof. induction A; auto. intros H. apply IHA. exact (rising_tail _ _ H). Qed.
(* everything before is earlier *)
Lemma rising_le A k B : rising (A ++ k :: B) -> forall a, In a A -> fst a <= fst k.
Proof.
  induction A as [|a A IH]; [easy|]. intros H b [<-|I].
  - destruct A as [|a' A]; [destruct H as [H _]; exact H|]. destruct H as [H H'].
    apply Rle_trans with (fst a'); [exact H|]. apply (IH H'). now left.
  - apply IH; auto. exact (rising_tail _ _ H).
Qed.

Definition ival (l : list (R * R)) (x : R) : R :=
  match l with [] => 0 | k :: r => if Rltb x (fst k) then snd k else interp_from k r x end.
Lemma np_interp_R (l : list (R * R)) (x : R) : l <> [] -> np_interp l x = Ok (ival l x).
Proof. destruct l; [easy|]. reflexivity. Qed.

Lemma line_eq (v w a b x : R) : a < b -> (w - v) / (b - a) * (x - a) + v = v + (w - v) * ((x - a) / (b - a)).
Proof. intros H. field. lra. Qed.
Lemma seg_R (k k' : R * R) x : fst k <= x < fst k' ->
  (if Reqb (fst k) x then snd k else (snd k' - snd k) / (fst k' - fst k) * (x - fst k) + snd k) =
  snd k + (snd k' - snd k) * ((x - fst k) / (fst k' - fst k)).
Proof.
  intros H. destruct (Reqb (fst k) x) eqn:E; [|apply line_eq; lra].
  apply Reqb_eq in E. subst x. field. lra.
Qed.

Lemma interp_from_drawn : forall r k x, rising (k :: r) -> fst k <= x -> drawn_through (k :: r) x (interp_from k r x).
Proof.
  induction r as [|k' r IH]; intros k x H Hx.
  - cbn [interp_from]. apply after with []; auto.
  - cbn [interp_from]. change (nltb x (fst k')) with (Rltb x (fst k')). destruct (Rltb x (fst k')) eqn:E.
    + apply Rltb_lt in E. change (drawn_through (k :: k' :: r) x
        (if Reqb (fst k) x then snd k else (snd k' - snd k) / (fst k' - fst k) * (x - fst k) + snd k)).
      rewrite seg_R by lra. apply amid with [] r; [reflexivity|lra].
    + apply Rltb_ge in E. destruct (IH k' x (rising_tail _ _ H) E) as [q s Q L|q s Q L|A q q' B Q L].
      * exfalso. injection Q as <- <-. lra.
      * apply after with (k :: s); [rewrite Q; reflexivity|exact L].
      * apply amid with (k :: A) B; [rewrite Q; reflexivity|exact L].
Qed.
Lemma ival_drawn l x : l <> [] -> rising l -> drawn_through l x (ival l x).
Proof.
  intros N H. destruct l as [|k r]; [easy|]. unfold ival. destruct (Rltb x (fst k)) eqn:E.
  - apply Rltb_lt in E. apply before with r; auto.
  - apply Rltb_ge in E. apply interp_from_drawn; auto.
Qed.

(* the value is determined *)
Lemma drawn_split l x y : rising l -> drawn_through l x y ->
  forall A B, l = A ++ B -> (forall a, In a A -> fst a <= x) -> (forall b, In b B -> x < fst b) ->
  match rev A, B with
  | [], [] => False
  | [], b :: _ => y = snd b
  | a :: _, [] => y = snd a
  | a :: _, b :: _ => y = snd a + (snd b - snd a) * ((x - fst a) / (fst b - fst a))
  end.
Proof.
  intros H D A B E HA HB. destruct D as [k r Q L|k r Q L|C k k' D Q L].
  - destruct A as [|a A].
    + cbn in E. subst l. destruct B; [discriminate|]. injection E as -> _. reflexivity.
    + exfalso. rewrite Q in E. injection E as -> _. specialize (HA a (or_introl eq_refl)). lra.
  - destruct (rev A) as [|a A'] eqn:R.
    + apply (f_equal (@rev _)) in R. rewrite rev_involutive in R. cbn in R. subst A. cbn in E. subst B l.
      exfalso. assert (x < fst k) by (apply HB, in_or_app; right; now left). lra.
    + destruct B as [|b B].
      * rewrite app_nil_r in E. apply (f_equal (@rev _)) in E. rewrite R, Q, rev_app_distr in E. cbn in E.
        injection E as <- _. reflexivity.
      * exfalso. assert (I : exists B', b :: B = B' ++ [k]).
        { rewrite Q in E. destruct (exists_last (l := b :: B)) as (B' & z & Z); [easy|]. rewrite Z in E.
          rewrite app_assoc in E. apply app_inj_tail in E as [_ ->]. exists B'. exact Z. }
        destruct I as [B' I]. assert (x < fst k) by (apply HB; rewrite I; apply in_or_app; right; now left). lra.
  - subst l. assert (G : A = C ++ [k] /\ B = k' :: D).
    { assert (HC : forall a, In a C -> fst a <= x) by (intros a I; pose proof (rising_le _ _ _ H a I); lra).
      assert (HD : forall a, In a D -> x < fst a).
      { intros a I. apply in_split in I as (D1 & D2 & ->).
        assert (H' : rising ((C ++ k :: k' :: D1) ++ a :: D2)) by (rewrite <- app_assoc; exact H).
        pose proof (rising_le _ _ _ H' k') as Z. assert (fst k' <= fst a); [|lra].
        apply Z. apply in_or_app; right; right; now left. }
      clear H. revert A E HA. induction C as [|c C IH]; intros A E HA.
      - destruct A as [|a A]; cbn in E.
        + exfalso. subst B. specialize (HB k (or_introl eq_refl)). lra.
        + injection E as <- E. destruct A as [|a A]; cbn in E.
          * subst B. split; reflexivity.
          * exfalso. injection E as <- _. specialize (HA k' (or_intror (or_introl eq_refl))). lra.
      - destruct A as [|a A]; cbn in E.
        + exfalso. subst B. specialize (HB c (or_introl eq_refl)). specialize (HC c (or_introl eq_refl)). lra.
        + injection E as <- E. destruct (IH (fun a I => HC a (or_intror I)) A E) as [-> ->]; [intros; apply HA; now right|].
          split; reflexivity. }
    destruct G as [-> ->]. rewrite rev_app_distr. cbn. reflexivity.
Qed.
Lemma split_at l x : rising l -> exists A B, l = A ++ B /\ (forall a, In a A -> fst a <= x) /\ (forall b, In b B -> x < fst b).
Proof.
  induction l as [|k l IH]; intros H.
  - exists [], []. repeat split; easy.
  - destruct (Rle_dec (fst k) x) as [L|L].
    + destruct (IH (rising_tail _ _ H)) as (A & B & -> & HA & HB). exists (k :: A), B. repeat split; auto.
      intros a [<-|I]; auto.
    + exists [], (k :: l). repeat split; [easy|]. intros b [<-|I]; [lra|].
      apply in_split in I as (l1 & l2 & ->). pose proof (rising_le (k :: l1) b l2 H k (or_introl eq_refl)). lra.
Qed.
Lemma drawn_unique l x y z : rising l -> drawn_through l x y -> drawn_through l x z -> y = z.
Proof.
  intros H D1 D2. destruct (split_at l x H) as (A & B & E & HA & HB).
  pose proof (drawn_split l x y H D1 A B E HA HB) as G1. pose proof (drawn_split l x z H D2 A B E HA HB) as G2.
  destruct (rev A), B; try easy; congruence.
Qed.

(* interpolate(curve) is the function drawn through the knots, for a single time and for each
   of a pair of times. *)
Theorem C56_interpolate : forall (curve : list (R * R)), curve <> [] -> rising curve ->
  exists f, tf_interpolate curve = Ok f /\
    (forall x : R, exists y, f (TNum x) = Ok (TNum y) /\ forall z, drawn_through curve x z <-> z = y) /\
    (forall x1 x2 y1 y2 : R, f (TPair x1 x2) = Ok (TPair y1 y2) <->
       f (TNum x1) = Ok (TNum y1) /\ f (TNum x2) = Ok (TNum y2)) /\
    f THide = Raise TypeError.
Proof.
  intros l N H. unfold tf_interpolate. destruct l as [|k r] eqn:El; [easy|]. rewrite <- El in *. clear El.
  eexists. split; [reflexivity|]. split; [|split].
  - intros x. rewrite (np_interp_R l x N). cbn [bind]. exists (ival l x). split; [reflexivity|]. intros z. split.
    + intros D. eapply drawn_unique; eauto. now apply ival_drawn.
    + intros ->. now apply ival_drawn.
  - intros x1 x2 y1 y2. rewrite !(np_interp_R l _ N). cbn [bind]. split.
    + intros E. injection E as -> ->. auto.
    + intros [E1 E2]. injection E1 as ->. injection E2 as ->. reflexivity.
  - reflexivity.
Qed.
Theorem C56_interpolate_empty : tf_interpolate (@nil (R * R)) = Raise ValueError.
Proof. reflexivity. Qed.

(* It passes through its knots, *)
Theorem C56_knots : forall (curve : list (R * R)) (k : R * R), strictly_rising curve -> In k curve ->
  drawn_through curve (fst k) (snd k).
Proof.
  intros l k H I. apply in_split in I as (A & B & ->). destruct B as [|k' B].
  - apply after with A; [reflexivity|lra].
  - pose proof (strict_app _ _ _ _ H) as L.
    replace (snd k) with (snd k + (snd k' - snd k) * ((fst k - fst k) / (fst k' - fst k))) by (field; lra).
    apply amid with A B; [reflexivity|lra].
Qed.
(* is constant outside them, *)
Theorem C56_outside : forall (k k' : R * R) (l : list (R * R)) (x y : R), rising (k :: l ++ [k']) ->
  drawn_through (k :: l ++ [k']) x y -> (x < fst k -> y = snd k) /\ (fst k' <= x -> y = snd k').
Proof.
  intros k k' l x y H D. split; intros L; eapply drawn_unique; eauto.
  - now apply before with (l ++ [k']).
  - now apply after with (k :: l).
Qed.
(* and stays between the values of neighbouring knots. *)
Theorem C56_between : forall (A : list (R * R)) (k k' : R * R) (B : list (R * R)) (x y : R),
  rising (A ++ k :: k' :: B) -> drawn_through (A ++ k :: k' :: B) x y -> fst k <= x < fst k' ->
  Rmin (snd k) (snd k') <= y <= Rmax (snd k) (snd k').
Proof.
  intros A k k' B x y H D L.
  rewrite (drawn_unique _ _ _ _ H D (amid _ _ A k k' B eq_refl L)).
  assert (S : 0 <= (x - fst k) / (fst k' - fst k) <= 1).
  { split; [apply Rmult_le_pos; [lra|left; apply Rinv_0_lt_compat; lra]|].
    apply Rmult_le_reg_r with (fst k' - fst k); [lra|]. field_simplify; lra. }
  set (s := (x - fst k) / (fst k' - fst k)) in *. clearbody s.
  unfold Rmin, Rmax. destruct (Rle_dec (snd k) (snd k')); nra.
Qed.
(* So it never leaves the range of the values. *)
Theorem C56_range : forall (curve : list (R * R)) (x y lo hi : R), rising curve -> drawn_through curve x y ->
  (forall k, In k curve -> lo <= snd k <= hi) -> lo <= y <= hi.
Proof.
  intros l x y lo hi H D R. pose proof D as D'. destruct D as [k r Q L|k r Q L|A k k' B Q L]; subst l.
  - apply R. now left.
  - apply R, in_or_app. right. now left.
  - pose proof (C56_between A k k' B x _ H D' L) as G.
    pose proof (R k ltac:(apply in_or_app; right; now left)).
    pose proof (R k' ltac:(apply in_or_app; right; right; now left)).
    revert G. unfold Rmin, Rmax. destruct (Rle_dec (snd k) (snd k')); lra.
Qed.

(* Between two times the value changes no faster than between the knots: it is continuous, and
   monotone when the values of the knots are. *)
Fixpoint slopes (lo hi : R) (l : list (R * R)) : Prop :=
  match l with
  | k :: (k' :: _) as l' => lo * (fst k' - fst k) <= snd k' - snd k <= hi * (fst k' - fst k) /\ slopes lo hi l'
  | _ => True
  end.
Lemma interp_at_first r k : strictly_rising (k :: r) -> interp_from k r (fst k) = snd k.
Proof.
  destruct r as [|k' r]; [reflexivity|]. intros [H _]. cbn [interp_from].
  change (nltb (fst k) (fst k')) with (Rltb (fst k) (fst k')). change (neqb (fst k) (fst k)) with (Reqb (fst k) (fst k)).
  apply Rltb_lt in H. rewrite H, Reqb_refl. reflexivity.
Qed.
Lemma seg_slope (k k' : R * R) lo hi x y : fst k < fst k' -> x <= y ->
  lo * (fst k' - fst k) <= snd k' - snd k <= hi * (fst k' - fst k) ->
  lo * (y - x) <= (snd k + (snd k' - snd k) * ((y - fst k) / (fst k' - fst k))) - (snd k + (snd k' - snd k) * ((x - fst k) / (fst k' - fst k))) <= hi * (y - x).
Proof.
  intros L Hxy S.
  replace ((snd k + (snd k' - snd k) * ((y - fst k) / (fst k' - fst k))) - (snd k + (snd k' - snd k) * ((x - fst k) / (fst k' - fst k))))
    with ((snd k' - snd k) / (fst k' - fst k) * (y - x)) by (field; lra).
  assert (G : lo <= (snd k' - snd k) / (fst k' - fst k) <= hi).
  { split; apply Rmult_le_reg_r with (fst k' - fst k); try lra; field_simplify; lra. }
  set (s := (snd k' - snd k) / (fst k' - fst k)) in *. clearbody s. split; apply Rmult_le_compat_r; lra.
Qed.
Lemma slopes_from : forall r k x y lo hi, strictly_rising (k :: r) -> slopes lo hi (k :: r) -> lo <= 0 <= hi ->
  fst k <= x <= y -> lo * (y - x) <= interp_from k r y - interp_from k r x <= hi * (y - x).
Proof.
  induction r as [|k' r IH]; intros k x y lo hi H S Z L.
  - cbn [interp_from]. split; nra.
  - pose proof H as [Hk Ht]. destruct S as [S1 S2].
    assert (Seg : forall z, fst k <= z < fst k' -> interp_from k (k' :: r) z = snd k + (snd k' - snd k) * ((z - fst k) / (fst k' - fst k))).
    { intros z Lz. rewrite <- seg_R by lra. cbn [interp_from]. change (nltb z (fst k')) with (Rltb z (fst k')).
      replace (Rltb z (fst k')) with true by (symmetry; apply Rltb_lt; lra). reflexivity. }
    assert (Rest : forall z, fst k' <= z -> interp_from k (k' :: r) z = interp_from k' r z).
    { intros z Lz. cbn [interp_from]. change (nltb z (fst k')) with (Rltb z (fst k')).
      replace (Rltb z (fst k')) with false by (symmetry; apply Rltb_ge; lra). reflexivity. }
    destruct (Rlt_dec y (fst k')) as [Ly|Ly].
    + rewrite !Seg by lra. apply seg_slope; lra.
    + rewrite (Rest y) by lra. destruct (Rlt_dec x (fst k')) as [Lx|Lx].
      * rewrite (Seg x) by lra.
        pose proof (IH k' (fst k') y lo hi Ht S2 Z ltac:(lra)) as I. rewrite (interp_at_first r k' Ht) in I.
        pose proof (seg_slope k k' lo hi x (fst k') Hk ltac:(lra) S1) as J.
        replace (snd k + (snd k' - snd k) * ((fst k' - fst k) / (fst k' - fst k))) with (snd k') in J by (field; lra).
        set (u := snd k + (snd k' - snd k) * ((x - fst k) / (fst k' - fst k))) in *. clearbody u.
        set (v := interp_from k' r y) in *. clearbody v.
        assert (lo * (y - x) = lo * (y - fst k') + lo * (fst k' - x)) by ring.
        assert (hi * (y - x) = hi * (y - fst k') + hi * (fst k' - x)) by ring. lra.
      * rewrite (Rest x) by lra. apply IH; auto; lra.
Qed.
Theorem C56_slopes : forall (curve : list (R * R)) (lo hi x1 x2 y1 y2 : R),
  strictly_rising curve -> slopes lo hi curve -> lo <= 0 <= hi -> x1 <= x2 ->
  drawn_through curve x1 y1 -> drawn_through curve x2 y2 ->
  lo * (x2 - x1) <= y2 - y1 <= hi * (x2 - x1).
Proof.
  intros l lo hi x1 x2 y1 y2 H S Z L D1 D2.
  assert (N : l <> []).
  { intros ->. destruct D1 as [k r Q|k r Q|A k k' B Q]; [discriminate|destruct r; discriminate|destruct A; discriminate]. }
  assert (H' := strict_rising _ H).
  rewrite (drawn_unique _ _ _ _ H' D1 (ival_drawn _ _ N H')), (drawn_unique _ _ _ _ H' D2 (ival_drawn _ _ N H')).
  destruct l as [|k r]; [easy|]. unfold ival.
  destruct (Rltb x1 (fst k)) eqn:E1, (Rltb x2 (fst k)) eqn:E2; autorewrite with rbool in *.
  - split; nra.
  - pose proof (slopes_from r k (fst k) x2 lo hi H S Z ltac:(lra)) as I. rewrite (interp_at_first r k H) in I.
    set (v := interp_from k r x2) in *. clearbody v.
    assert (lo * (x2 - x1) <= lo * (x2 - fst k)) by nra. assert (hi * (x2 - fst k) <= hi * (x2 - x1)) by nra. lra.
  - lra.
  - apply slopes_from; auto; lra.
Qed.
Fixpoint values_rising (l : list (R * R)) : Prop :=
  match l with
  | k :: (k' :: _) as l' => snd k <= snd k' /\ values_rising l'
  | _ => True
  end.
Lemma slopes_weaken lo hi hi' l : strictly_rising l -> hi <= hi' -> slopes lo hi l -> slopes lo hi' l.
Proof.
  intros H L. induction l as [|k [|k' l] IH]; try easy. intros [S1 S2]. destruct H as [H1 H2]. split; [|auto].
  assert (hi * (fst k' - fst k) <= hi' * (fst k' - fst k)) by (apply Rmult_le_compat_r; lra). lra.
Qed.
Theorem C56_monotone : forall (curve : list (R * R)) (x1 x2 y1 y2 : R),
  strictly_rising curve -> values_rising curve -> x1 <= x2 ->
  drawn_through curve x1 y1 -> drawn_through curve x2 y2 -> y1 <= y2.
Proof.
  intros l x1 x2 y1 y2 H V L D1 D2.
  assert (G : exists hi, 0 <= hi /\ slopes 0 hi l).
  { clear D1 D2. induction l as [|k [|k' l] IH]; [exists 0; split; [lra|exact I]|exists 0; split; [lra|exact I]|].
    destruct H as [H1 H2], V as [V1 V2]. destruct (IH H2 V2) as (hi & Hh & S).
    set (s := (snd k' - snd k) / (fst k' - fst k)).
    assert (Es : s * (fst k' - fst k) = snd k' - snd k) by (unfold s; field; lra).
    exists (Rmax hi s). pose proof (Rmax_l hi s). pose proof (Rmax_r hi s). split; [lra|]. split.
    - assert (s * (fst k' - fst k) <= Rmax hi s * (fst k' - fst k)) by (apply Rmult_le_compat_r; lra). lra.
    - apply slopes_weaken with hi; auto. }
  destruct G as (hi & Hh & S). pose proof (C56_slopes l 0 hi x1 x2 y1 y2 H S ltac:(lra) L D1 D2). lra.
Qed.

(* ---------------- ramps ---------------- *)

(* ramp_up rises from 0 at start to 1 at end on a straight line, and ramp_down is 1 less it. *)
Theorem C56_ramps : forall (start stop : R), 0 <= start -> start < stop -> stop <= 1 ->
  exists up down, tf_ramp_up start stop = Ok up /\ tf_ramp_down start stop = Ok down /\
  forall t : R, exists y : R, up (TNum t) = Ok (TNum y) /\ down (TNum t) = Ok (TNum (1 - y)) /\
    (t <= start -> y = 0) /\ (stop <= t -> y = 1) /\
    (start <= t <= stop -> y * (stop - start) = t - start).
Proof.
  intros s e H0 H1 H2. unfold tf_ramp_up, tf_ramp_down. eexists. eexists. split; [reflexivity|]. split; [reflexivity|].
  intros t. rewrite !np_interp_R by easy. cbn [bind].
  set (y := ival _ _) at 1. exists y. split; [reflexivity|].
  assert (G : y = (if Rle_dec t s then 0 else if Rle_dec e t then 1 else (t - s) / (e - s)) /\
              ival [(0, 1); (s, 1); (e, 0); (1, 0)] t = 1 - (if Rle_dec t s then 0 else if Rle_dec e t then 1 else (t - s) / (e - s))).
  { unfold y, ival. cbn -[Rdiv IZR]. clear y.
    assert (Z : forall u v w : R, (u - u) / v * w + u = u) by (intros; unfold Rdiv; ring).
    rewrite !Z.
    destruct (Rltb t 0) eqn:E0; autorewrite with rbool in E0.
    { destruct (Rle_dec t s); [|lra]. split; ring. }
    destruct (Rltb t s) eqn:E1; autorewrite with rbool in E1.
    { destruct (Rle_dec t s); [|lra]. destruct (Reqb 0 t); split; ring. }
    destruct (Rltb t e) eqn:E2; autorewrite with rbool in E2.
    { destruct (Reqb s t) eqn:E3; autorewrite with rbool in E3.
      - subst t. destruct (Rle_dec s s); [|lra]. split; ring.
      - destruct (Rle_dec t s); [lra|]. destruct (Rle_dec e t); [lra|]. split; field; lra. }
    destruct (Rle_dec t s); [lra|]. destruct (Rle_dec e t); [|lra].
    destruct (Rltb t 1), (Reqb e t); split; ring. }
  destruct G as [G1 G2]. split; [rewrite G1, <- G2; reflexivity|]. clearbody y. subst y. clear G2.
  split; [|split]; intros L; destruct (Rle_dec t s); try lra; destruct (Rle_dec e t); try lra; try (field; lra).
Qed.
Theorem C56_ramp_monotone : forall (start stop t1 t2 y1 y2 : R) up, 0 <= start -> start < stop -> stop <= 1 ->
  tf_ramp_up start stop = Ok up -> t1 <= t2 -> up (TNum t1) = Ok (TNum y1) -> up (TNum t2) = Ok (TNum y2) ->
  0 <= y1 <= y2 /\ y2 <= 1.
Proof.
  intros s e t1 t2 y1 y2 up H0 H1 H2 E L E1 E2.
  destruct (C56_ramps s e H0 H1 H2) as (u & d & Eu & _ & G). rewrite E in Eu. injection Eu as <-.
  destruct (G t1) as (z1 & F1 & _ & A1 & B1 & C1). destruct (G t2) as (z2 & F2 & _ & A2 & B2 & C2).
  rewrite E1 in F1. rewrite E2 in F2. injection F1 as <-. injection F2 as <-.
  destruct (Rle_dec t1 s), (Rle_dec e t1), (Rle_dec t2 s), (Rle_dec e t2);
    try specialize (A1 ltac:(lra)); try specialize (B1 ltac:(lra)); try specialize (C1 ltac:(lra));
    try specialize (A2 ltac:(lra)); try specialize (B2 ltac:(lra)); try specialize (C2 ltac:(lra)); try lra; try nra.
Qed.

(* ---------------- the others ---------------- *)

(* hide_if gives None exactly when the value is below the threshold *)
Theorem C56_hide_if : forall (f : tfun R) (threshold : R) (t : tval R) (a : R), f t = Ok (TNum a) ->
  (tf_hide_if f threshold t = Ok THide <-> a < threshold) /\
  (tf_hide_if f threshold t = Ok (TNum a) <-> threshold <= a).
Proof.
  intros f th t a E. unfold tf_hide_if. rewrite E. cbn [bind].
  change (nltb a th) with (Rltb a th). destruct (Rltb a th) eqn:L; autorewrite with rbool in *;
    split; split; intros; try discriminate; try lra; auto.
Qed.
(* and cannot be used with pairs or with something that hides already *)
Theorem C56_hide_if_pair : forall (f : tfun R) (threshold : R) (t : tval R),
  (f t = Ok THide \/ exists a b, f t = Ok (TPair a b)) -> tf_hide_if f threshold t = Raise TypeError.
Proof. intros f th t [E|(a & b & E)]; unfold tf_hide_if; rewrite E; reflexivity. Qed.

(* xy puts two functions side by side, provided that both give a number at 0 *)
Theorem C56_xy : forall (fx fy : tfun R) (a0 b0 : R), fx (TNum 0) = Ok (TNum a0) -> fy (TNum 0) = Ok (TNum b0) ->
  exists f, tf_xy fx fy = Ok f /\
    forall t a b, f t = Ok (TPair a b) <-> fx t = Ok (TNum a) /\ fy t = Ok (TNum b).
Proof.
  intros fx fy a0 b0 E1 E2. unfold tf_xy. change (nofZ 0 : R) with 0. rewrite E1. cbn [bind]. rewrite E2. cbn [bind].
  eexists. split; [reflexivity|]. intros t a b. cbn beta.
  destruct (fx t) as [[x|x y|]|], (fy t) as [[x'|x' y'|]|]; cbn [bind]; split; try discriminate; try (intros [? ?]; discriminate).
  - intros E. injection E as -> ->. auto.
  - intros [E E']. injection E as ->. injection E' as ->. reflexivity.
Qed.
Theorem C56_xy_asserts : forall (fx fy : tfun R), (forall a, fx (TNum 0) <> Ok (TNum a)) ->
  (exists v, fx (TNum 0) = Ok v) -> tf_xy fx fy = Raise AssertionError.
Proof.
  intros fx fy N [v E]. unfold tf_xy. change (nofZ 0 : R) with 0. rewrite E. cbn [bind].
  destruct v as [a|a b|]; try reflexivity. destruct (N a E).
Qed.

(* sin and cos with offset 0: [frequency] periods of the given amplitude around [shift] while t
   runs from 0 to 1 *)
Theorem C56_sin_cos : forall (f scale shift t : R),
  tf_sin f 0 scale shift (TNum t) = Ok (TNum (sin (2 * PI * f * t) * scale + shift)) /\
  tf_cos f 0 scale shift (TNum t) = Ok (TNum (cos (2 * PI * f * t) * scale + shift)) /\
  tf_sin_cos f 0 scale shift (TNum t) =
    Ok (TPair (sin (2 * PI * f * t) * scale + shift) (cos (2 * PI * f * t) * scale + shift)).
Proof.
  intros f s h t. unfold tf_sin, tf_cos, tf_sin_cos, tf_periodic, tau, radians.
  cbn [nadd nmul ndiv nofZ npi nsin ncos NumR TrigR].
  replace (t * (2 * PI * f + 0 * (PI / 180))) with (2 * PI * f * t) by field. auto.
Qed.
(* With an offset they do not start at that phase, as documented: the offset is added to the
   frequency, and at t = 0 it makes no difference at all. *)
Theorem C56_offset_at_zero : forall (f offset scale shift : R),
  tf_sin f offset scale shift (TNum 0) = Ok (TNum shift) /\
  tf_cos f offset scale shift (TNum 0) = Ok (TNum (scale + shift)).
Proof.
  intros f o s h. unfold tf_sin, tf_cos, tf_periodic. cbn [nadd nmul nsin ncos NumR TrigR].
  rewrite Rmult_0_l, sin_0, cos_0. split; do 2 f_equal; ring.
Qed.
Theorem C56_offset_refuted : exists (f offset t y : R),
  tf_sin f offset 1 0 (TNum t) = Ok (TNum y) /\ y <> sin (2 * PI * f * t + offset * (PI / 180)) * 1 + 0 /\
  y <> sin (f * t + offset * (PI / 180)) * 1 + 0.
Proof.
  exists 1, 90, 0, 0. destruct (C56_offset_at_zero 1 90 1 0) as [E _]. split; [exact E|].
  replace (2 * PI * 1 * 0 + 90 * (PI / 180)) with (PI / 2) by field.
  replace (1 * 0 + 90 * (PI / 180)) with (PI / 2) by field. rewrite sin_PI2. lra.
Qed.
(* what they do compute: the offset changes the frequency, by offset/360 *)
Theorem C56_offset_is_frequency : forall (f offset scale shift t : R),
  tf_sin f offset scale shift (TNum t) = tf_sin (f + offset / 360) 0 scale shift (TNum t) /\
  tf_cos f offset scale shift (TNum t) = tf_cos (f + offset / 360) 0 scale shift (TNum t) /\
  tf_sin_cos f offset scale shift (TNum t) = tf_sin_cos (f + offset / 360) 0 scale shift (TNum t).
Proof.
  intros f o s h t. unfold tf_sin, tf_cos, tf_sin_cos, tf_periodic, tau, radians.
  cbn [nadd nmul ndiv nofZ npi nsin ncos NumR TrigR].
  replace (t * (2 * PI * f + o * (PI / 180))) with (t * (2 * PI * (f + o / 360) + 0 * (PI / 180))) by field. auto.
Qed.
(* sin_cos goes around a circle *)
Theorem C56_sin_cos_circle : forall (f offset scale shift t x y : R),
  tf_sin_cos f offset scale shift (TNum t) = Ok (TPair x y) ->
  (x - shift) * (x - shift) + (y - shift) * (y - shift) = scale * scale.
Proof.
  intros f o s h t x y E. unfold tf_sin_cos in E. cbn [nadd nmul nsin ncos NumR TrigR] in E.
  set (a := t * (tau * f + radians o)) in E. clearbody a. injection E as <- <-.
  pose proof (sin2_cos2 a) as S. unfold Rsqr in S.
  replace ((sin a * s + h - h) * (sin a * s + h - h) + (cos a * s + h - h) * (cos a * s + h - h))
    with (s * s * (sin a * sin a + cos a * cos a)) by ring. rewrite S. ring.
Qed.

(* a curve with four knots *)
Example C56_nontrivial :
  let curve := [(0, 1); (1 / 2, 3); (1, 2); (2, 2)] in
  strictly_rising curve /\ drawn_through curve (1 / 4) 2 /\ drawn_through curve 1 2 /\ slopes (-2) 4 curve.
Proof.
  intros curve. assert (S : strictly_rising curve) by (cbn; repeat split; lra). split; [exact S|]. split; [|split].
  - replace 2 with (1 + (3 - 1) * ((1 / 4 - 0) / (1 / 2 - 0))) by field.
    apply (amid curve (1 / 4) [] (0, 1) (1 / 2, 3) [(1, 2); (2, 2)]); [reflexivity|cbn; lra].
  - apply (C56_knots curve (1, 2) S). cbn. auto.
  - cbn. repeat split; lra.
Qed.
