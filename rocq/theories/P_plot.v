(* Property theorems C90: plots of points, and the windows that redraw them. *)
From Coq Require Import String Reals ZArith List Lia Lra Psatz Bool.
Require Import Verif.Base Verif.NumR Verif.L_real Verif.M_vector Verif.M_transform Verif.M_utils Verif.M_elems Verif.M_draw Verif.M_plot
  Verif.L_vector Verif.P_utils Verif.P_draw.
Import ListNotations.
Local Open Scope string_scope.
Local Open Scope list_scope.
Local Open Scope R_scope.

(* ---------------- lists of points ---------------- *)

(* check_point_list() accepts lists of points and nothing else. *)
Theorem C90_check {F} : forall l : list (listed F),
  (check_point_list l = Ok tt <-> exists ps, l = map LPoint ps) /\
  (check_point_list l = Ok tt \/ check_point_list l = Raise ValueError).
Proof.
  induction l as [|i l [IH1 IH2]]; cbn [check_point_list].
  - split; [split; [exists []; reflexivity|reflexivity]|now left].
  - destruct i as [p|t| ].
    + split; [|exact IH2]. rewrite IH1. split.
      * intros [ps ->]. exists (p :: ps). reflexivity.
      * intros [[|q ps] E]; [discriminate|]. injection E as _ E. eauto.
    + split; [|now right]. split; [discriminate|]. intros [[|q ps] E]; discriminate.
    + split; [|now right]. split; [discriminate|]. intros [[|q ps] E]; discriminate.
Qed.

Section Plot.
  Context {F : Type} {NF : Num F}.

  Lemma rows_points (ps : list (pt F)) : mapM (@row F) (map LPoint ps) = Ok (map (fun p => [px p; py p]) ps).
  Proof. induction ps as [|p ps IH]; [reflexivity|]. cbn [map mapM row bind]. rewrite IH. reflexivity. Qed.
  Lemma rows_tuples (l : list (F * F)) : mapM (@row F) (tuples l) = Ok (map (fun xy => [fst xy; snd xy]) l).
  Proof. unfold tuples. induction l as [|p l IH]; [reflexivity|]. cbn [map mapM row bind]. rewrite IH. reflexivity. Qed.
  Lemma min_all (n : nat) (rs : list (list F)) : (forall r, In r rs -> List.length r = n) ->
    fold_left (fun n r => Nat.min n (List.length r)) rs n = n.
  Proof.
    induction rs as [|r rs IH]; intros H; [reflexivity|]. cbn [fold_left]. rewrite (H r) by now left. rewrite Nat.min_id.
    apply IH. intros. apply H. now right.
  Qed.
  Lemma zip_two {A} (g h : A -> F) (l : list A) : l <> [] -> zip_rows (map (fun a => [g a; h a]) l) = [map g l; map h l].
  Proof.
    destruct l as [|a l]; [congruence|]. intros _. unfold zip_rows. cbn [map].
    rewrite (min_all 2) by (intros r Hr; apply in_map_iff in Hr; destruct Hr as (b & <- & _); reflexivity).
    cbn [List.length seq map nth]. rewrite !map_map. reflexivity.
  Qed.

  (* Rows of any lengths: one list of numbers for each place that all rows have. *)
  Theorem C90_columns : forall rows : list (list F), rows <> [] ->
    (forall r, In r rows -> (List.length (zip_rows rows) <= List.length r)%nat) /\
    (exists r, In r rows /\ List.length (zip_rows rows) = List.length r) /\
    (forall k c, nth_error (zip_rows rows) k = Some c -> List.length c = List.length rows /\
       forall j r, nth_error rows j = Some r -> nth_error c j = nth_error r k).
  Proof.
    intros [|r rs] N; [congruence|]. clear N. unfold zip_rows. set (m := fold_left _ rs _).
    assert ((m <= List.length r)%nat /\ (forall q, In q rs -> (m <= List.length q)%nat) /\
            (m = List.length r \/ exists q, In q rs /\ m = List.length q)) as (M0 & M1 & M2).
    { unfold m. clear m. generalize (List.length r). induction rs as [|q rs IH]; intros n; cbn [fold_left].
      - split; [lia|]. split; [intros q []|now left].
      - destruct (IH (Nat.min n (List.length q))) as (A & B & C). split; [lia|]. split.
        + intros p [<-|Hp]; [lia|auto].
        + destruct C as [C|(p & Hp & C)]; [|right; exists p; split; [now right|exact C]].
          destruct (Nat.min_spec n (List.length q)) as [[_ E]|[_ E]]; rewrite E in C at 2; [now left|right; exists q; split; [now left|exact C]]. }
    clearbody m. rewrite map_length, seq_length.
    assert (forall q, In q (r :: rs) -> (m <= List.length q)%nat) as Ma by (intros q [<-|Hq]; auto).
    split; [exact Ma|]. split.
    { destruct M2 as [->|(q & Hq & ->)]; [exists r; split; [now left|reflexivity]|exists q; split; [now right|reflexivity]]. }
    intros k c H. rewrite nth_error_map in H. destruct (nth_error (seq 0 m) k) as [k'|] eqn:E; [|discriminate].
    assert ((k < m)%nat /\ k' = k) as [Lk ->].
    { assert (k < List.length (seq 0 m))%nat by (apply nth_error_Some; congruence). rewrite seq_length in *.
      split; [lia|]. apply (nth_error_nth _ _ 0%nat) in E. rewrite seq_nth in E by lia. lia. }
    cbn [option_map] in H. injection H as <-.
    change (nth k r (#0)%num :: map (fun r0 => nth k r0 (#0)%num) rs) with (map (fun r0 => nth k r0 (#0)%num) (r :: rs)).
    split; [apply map_length|]. intros j q Hj. rewrite nth_error_map, Hj. cbn [option_map]. symmetry. apply nth_error_nth'.
    apply nth_error_In in Hj. specialize (Ma q Hj). lia.
  Qed.

  (* plot() of points, or of pairs of numbers, is one call with all x and all y in order. *)
  Theorem C90_plot : forall (ps : list (pt F)) color label style w, ps <> [] ->
    exists c, plot (map LPoint ps) color label style w = Ok c /\ k_coords c = [map px ps; map py ps] /\
      k_style c = Some color /\ k_label c = label /\ k_linestyle c = style /\ k_linewidth c = w /\
      plot (tuples (map p_xy ps)) color label style w = Ok c.
  Proof.
    intros ps color label style w N. unfold plot. rewrite rows_points, rows_tuples. cbn [bind]. eexists. split; [reflexivity|].
    cbn [k_coords k_style k_label k_linestyle k_linewidth]. rewrite map_map.
    change (fun x => [fst (p_xy x); snd (p_xy x)]) with (fun x : pt F => [px x; py x]).
    repeat split. apply zip_two, N.
  Qed.
  (* of no points it is a call without coordinates; something that is neither point nor tuple raises *)
  Theorem C90_plot_none : forall color label style w,
    (exists c, @plot F _ [] color label style w = Ok c /\ k_coords c = []) /\
    forall l, In LOther l -> @plot F _ l color label style w = Raise TypeError.
  Proof.
    intros color label style w. split; [eexists; split; reflexivity|]. intros l H. unfold plot.
    assert (mapM (@row F) l = Raise TypeError) as ->; [|reflexivity].
    induction l as [|i l IH]; [destruct H|]. cbn [mapM]. destruct i as [p|t| ]; [| |reflexivity];
      (destruct H as [H|H]; [discriminate|]); cbn [row bind]; rewrite (IH H); reflexivity.
  Qed.
End Plot.
(* The ends of a line are round exactly when it is wider than 1. *)
Theorem C90_round_ends : forall (l : list (listed R)) color label style w c, plot l color label style w = Ok c ->
  (k_capstyle c = Some "round" <-> exists x, w = Some x /\ 1 < x) /\ (k_capstyle c = None \/ k_capstyle c = Some "round").
Proof.
  intros l color label style w c. unfold plot. destruct (mapM _ l) as [rows|]; [|discriminate]. cbn [bind]. intros H. injection H as <-.
  cbn [k_capstyle]. destruct w as [x|]; [|split; [split; [discriminate|intros (x & E & _); discriminate]|now left]].
  unfold ngtb. cbn [neqb nltb nofZ NumR]. destruct (Reqb x 0) eqn:E0; cbn [negb andb].
  - autorewrite with rbool in E0. subst x. split; [|now left]. split; [discriminate|]. intros (y & E & L). injection E as <-. lra.
  - destruct (Rltb 1 x) eqn:E1; autorewrite with rbool in E1; (split; [|auto]); split; try discriminate; eauto.
    intros (y & E & L). injection E as <-. lra.
Qed.

(* ---------------- the window ---------------- *)

Section Viewer.
  Context {F : Type} {NF : Num F} {FF : NumFloor F} {St : Type}.
  (* the state before call number n of the update function, and what that call puts on the axes *)
  Fixpoint before (u : updater (F := F) St) (n : nat) (s : St) : St :=
    match n with O => s | S n' => fst (u (before u n' s)) end.
  Definition picture_at (u : updater (F := F) St) (s : St) (n : nat) : list (pcall F) := fst (snd (u (before u n s))).
  Definition ends (u : updater (F := F) St) (s : St) (n : nat) : res unit := snd (snd (u (before u n s))).

  Lemma update_ok u delay (v : viewer (F := F) St) : snd (snd (u (vstate v))) = Ok tt ->
    do_update u delay v = (Viewer (fst (snd (u (vstate v)))) (pictures v ++ [fst (snd (u (vstate v)))]) (timers v ++ [delay]) (fst (u (vstate v))), Ok tt).
  Proof. unfold do_update. destruct (u (vstate v)) as [s [c r]]. cbn [fst snd]. intros ->. reflexivity. Qed.
  Lemma update_bad u delay (v : viewer (F := F) St) e : snd (snd (u (vstate v))) = Raise e ->
    do_update u delay v = (Viewer (fst (snd (u (vstate v)))) (pictures v) (timers v) (fst (u (vstate v))), Raise e).
  Proof. unfold do_update. destruct (u (vstate v)) as [s [c r]]. cbn [fst snd]. intros ->. reflexivity. Qed.
  Lemma ticks_last u delay n (v : viewer (F := F) St) : ticks u delay (S n) v = tick u delay (ticks u delay n v).
  Proof. revert v. induction n as [|n IH]; intros v; [reflexivity|]. change (ticks u delay (S (S n)) v) with (ticks u delay (S n) (tick u delay v)). rewrite IH. reflexivity. Qed.
  Lemma seq_last n : seq 0 (S n) = seq 0 n ++ [n].
  Proof. rewrite seq_S. reflexivity. Qed.

  (* As long as the update function does not fail, a new window and n timers show n + 1 pictures,
     one for each call and nothing left of the one before, and exactly one timer is set. *)
  Theorem C90_viewer : forall (u : updater St) fps s d v r n,
    plot_viewer (Some u) fps s = Ok (d, (v, r)) -> (forall k, (k <= n)%nat -> ends u s k = Ok tt) ->
    r = Ok tt /\ let w := ticks u d n v in
      pictures w = map (picture_at u s) (seq 0 (S n)) /\ axes w = picture_at u s n /\ timers w = [d] /\ vstate w = before u (S n) s.
  Proof.
    intros u fps s d v r n H A. unfold plot_viewer in H. destruct (delay_ms fps) as [d'|]; [|discriminate]. cbn [bind] in H.
    rewrite update_ok in H by exact (A 0%nat (Nat.le_0_l _)). injection H as <- <- <-. split; [reflexivity|]. cbv zeta.
    induction n as [|n IH]; [cbn [ticks pictures axes timers vstate app]; repeat split; reflexivity|].
    rewrite ticks_last. destruct IH as (P1 & P2 & P3 & P4); [intros; apply A; lia|].
    unfold tick. rewrite P3. rewrite update_ok; cbn [vstate]; rewrite P4; [|apply (A (S n)); lia].
    cbn [fst pictures axes timers vstate app]. rewrite P1. split; [|repeat split; reflexivity].
    rewrite (seq_last (S n)), map_app. reflexivity.
  Qed.
  (* When it fails, the pictures shown so far stay the last ones, whatever the main loop does. *)
  Theorem C90_viewer_stops : forall (u : updater St) fps s d v r n e m,
    plot_viewer (Some u) fps s = Ok (d, (v, r)) -> (forall k, (k <= n)%nat -> ends u s k = Ok tt) -> ends u s (S n) = Raise e ->
    let w := ticks u d (S n + m) v in
    pictures w = map (picture_at u s) (seq 0 (S n)) /\ axes w = picture_at u s (S n) /\ timers w = [].
  Proof.
    intros u fps s d v r n e m H A B. cbv zeta. destruct (C90_viewer u fps s d v r n H A) as [_ (P1 & P2 & P3 & P4)].
    assert (forall w : viewer St, timers w = [] -> ticks u d m w = w) as St0.
    { clear. induction m as [|m IH]; intros w T; [reflexivity|]. cbn [ticks]. unfold tick. rewrite T. apply IH, T. }
    assert (forall a b (w : viewer St), ticks u d (a + b) w = ticks u d b (ticks u d a w)) as Ad.
    { clear. intros a. induction a as [|a IH]; intros b w; [reflexivity|]. cbn [Nat.add ticks]. apply IH. }
    assert (timers (ticks u d (S n) v) = [] /\ pictures (ticks u d (S n) v) = map (picture_at u s) (seq 0 (S n)) /\ axes (ticks u d (S n) v) = picture_at u s (S n)) as (T & Q & X).
    { rewrite ticks_last. unfold tick. rewrite P3. rewrite (update_bad u d _ e); cbn [vstate]; rewrite P4; [|exact B].
      cbn [fst pictures axes timers]. repeat split; [exact P1]. }
    rewrite Ad, St0 by exact T. repeat split; assumption.
  Qed.
  (* A function that fails at once lets the constructor fail; without a function it always does,
     although update_func may be left out according to the code that replaces it. *)
  Theorem C90_viewer_fails : forall (u : updater St) fps s d v r e, plot_viewer (Some u) fps s = Ok (d, (v, r)) ->
    ends u s 0 = Raise e -> r = Raise e /\ timers v = [] /\ pictures v = [].
  Proof.
    intros u fps s d v r e H B. unfold plot_viewer in H. destruct (delay_ms fps) as [d'|]; [|discriminate]. cbn [bind] in H.
    rewrite (update_bad u d' _ e) in H by exact B. injection H as <- <- <-. auto.
  Qed.
  Theorem C90_default_refuted : forall fps (s : St) d v r, plot_viewer (F := F) None fps s = Ok (d, (v, r)) -> r = Raise TypeError.
  Proof.
    intros fps s d v r H. unfold plot_viewer in H. destruct (delay_ms fps) as [d'|]; [|discriminate]. cbn in H. now injection H as <- <- <-.
  Qed.
End Viewer.
(* The delay is the time of a frame in milliseconds, rounded; no rate of zero. *)
Theorem C90_delay : forall fps : R,
  (fps = 0 -> delay_ms fps = Raise ZeroDivisionError) /\
  (fps <> 0 -> exists d, delay_ms fps = Ok d /\ Rabs (IZR d - 1000 / fps) <= 1 / 2).
Proof.
  intros fps. unfold delay_ms. split.
  - intros ->. rewrite pydiv_R0. reflexivity.
  - intros N. rewrite pydiv_R by exact N. cbn [bind]. eexists. split; [reflexivity|]. apply pyround_R.
Qed.

(* ---------------- the examples ---------------- *)

Lemma t_range_40 (lo hi : R) (g : nat -> R) : (forall i, (lo + (hi - lo) * (nofZ (Z.of_nat i) / nofZ (Z.of_nat 40)))%num = g i) ->
  t_range 40 lo hi = Ok (map g (seq 0 41)).
Proof. intros H. unfold t_range. rewrite (map_ext _ g); [reflexivity|exact H]. Qed.
(* Every frame of the moving sine shows one period of it, in 41 points, a tenth further. *)
Theorem C90_sine : forall n, exists xs ys, picture_at moving_sine 0 n = [PCall [xs; ys] None None None None None] /\
  ends moving_sine 0 n = Ok tt /\ List.length xs = 41%nat /\ List.length ys = 41%nat /\
  forall i, (i <= 40)%nat -> let t := 2 * PI * INR i / 40 in nth i xs 0 = t /\ nth i ys 0 = sin (t + INR n / 10).
Proof.
  intros n. assert (before moving_sine n 0 = INR n / 10) as B.
  { induction n as [|n IH]; [cbn; lra|]. cbn [before]. rewrite IH. unfold moving_sine, shows. cbn [t_range bind fst].
    cbn [nadd ndiv nofZ NumR]. rewrite S_INR. lra. }
  unfold picture_at, ends. rewrite B. unfold moving_sine, shows.
  assert (t_range 40 (#0)%num (#2 * npi)%num = Ok (map (fun i => 2 * PI * INR i / 40) (seq 0 41))) as ->.
  { apply t_range_40. intros i. cbn [nadd nsub nmul ndiv nofZ npi NumR TrigR]. rewrite <- INR_IZR_INZ.
    change (IZR (Z.of_nat 40)) with 40. field. }
  cbn [bind fst snd].
  rewrite zip_two by discriminate. do 2 eexists. split; [reflexivity|]. split; [reflexivity|].
  rewrite !map_length, seq_length. split; [reflexivity|]. split; [reflexivity|]. intros i Hi.
  split.
  - apply nth_error_nth. rewrite map_id. rewrite nth_error_map. 
    assert (nth_error (seq 0 41) i = Some i) as ->; [|reflexivity]. rewrite (nth_error_nth' _ 0%nat) by (rewrite seq_length; lia). rewrite seq_nth by lia. reflexivity.
  - apply nth_error_nth. rewrite !nth_error_map.
    assert (nth_error (seq 0 41) i = Some i) as ->; [|reflexivity]. rewrite (nth_error_nth' _ 0%nat) by (rewrite seq_length; lia). rewrite seq_nth by lia. reflexivity.
Qed.

(* The angle of the arcs goes up by 3 degrees a frame and leaves out 0. *)
Theorem C90_angles : forall n, before (F := R) arc_fun n 3%Z = (3 * (Z.of_nat n mod 119) + 3)%Z /\ (0 < before (F := R) arc_fun n 3 < 360)%Z.
Proof.
  assert (forall n, before (F := R) arc_fun n 3%Z = (3 * (Z.of_nat n mod 119) + 3)%Z) as A.
  { induction n as [|n IH]; [reflexivity|]. cbn [before]. rewrite IH.
    assert (forall a, fst (arc_fun (F := R) a) = next_angle a) as E by (intros a; unfold arc_fun, shows; destruct (bind _ _); reflexivity).
    rewrite E. unfold next_angle. replace (Z.of_nat (S n)) with (Z.of_nat n + 1)%Z by lia.
    rewrite <- (Zplus_mod_idemp_l (Z.of_nat n) 1 119). pose proof (Z.mod_pos_bound (Z.of_nat n) 119 ltac:(lia)) as Bd.
    set (k := (Z.of_nat n mod 119)%Z) in *. clearbody k. destruct (Z.eq_dec k 118) as [->|Nk]; [reflexivity|].
    rewrite !Z.mod_small by lia. destruct (Z.eqb_spec (3 * k + 3 + 3) 0); lia. }
  intros n. split; [apply A|]. rewrite A. pose proof (Z.mod_pos_bound (Z.of_nat n) 119 ltac:(lia)). lia.
Qed.

Lemma cos_lt_1 a : 0 < a < 360 -> cos (radians a) < 1.
Proof.
  intros H. change (radians a) with (a * (PI / 180)). replace (a * (PI / 180)) with (2 * (a * (PI / 360))) by field.
  rewrite cos_2a_sin. pose proof PI_RGT_0. assert (0 < sin (a * (PI / 360))).
  { apply sin_gt_0; nra. }
  nra.
Qed.
(* a plot with all the points of a list, in order *)
Definition plots (pts : list (R * R)) (color : string) (style : option string) (c : pcall R) : Prop :=
  c = PCall [map fst pts; map snd pts] (Some color) None style None None.
Lemma plot_tuples l color style : l <> [] -> exists c, plot (tuples l) color None style None = Ok c /\ plots l color style c.
Proof. intros N. unfold plot. rewrite rows_tuples. cbn [bind]. eexists. split; [reflexivity|]. unfold plots. now rewrite zip_two. Qed.

(* An arc from p1 to p2 of radius r, the long or the short way round, after its two radii. *)
Definition joins (r : R) (p1 p2 : pt R) (long : bool) (pts : list (R * R)) : Prop :=
  exists c a sa ea n, pts = (px p2, py p2) :: (px c, py c) :: (px p1, py p1) :: a /\ pdist c p1 = r /\ pdist c p2 = r /\
    List.length a = S n /\ (0 < n)%nat /\ nth_error a 0 = Some (px p1, py p1) /\ nth_error a n = Some (px p2, py p2) /\
    (forall i, (i <= n)%nat -> nth_error a i = Some (on_circle c r (sa + INR i * ((ea - sa) / INR n)))) /\
    if long then 180 <= ea - sa < 360 else 0 < ea - sa <= 180.
Lemma arc_joins r s e side : s <> e -> pdist s e <= 2 * r -> side <> 0 -> exists pts, arc2p r s e (-1) side = Ok pts /\
  joins r s e (if Rlt_dec 0 side then true else false) pts.
Proof.
  intros N D Hs. destruct (C28_arc2p r s e (-1) side N D Hs ltac:(lia)) as (c & a & sa & ea & n & E & D1 & D2 & _ & _ & _ & L & Hn & _ & N0 & Nn & _ & Nth & Lo & Sh).
  eexists. split; [exact E|]. exists c, a, sa, ea, n. repeat (split; [first [reflexivity|assumption]|]).
  destruct (Rlt_dec 0 side); [apply Lo; assumption|apply Sh; lra].
Qed.

(* What one side of the example shows: two arcs between the same points, the chord, dotted, and a unit vector across
   it in its middle. *)
Definition side_shown (p1 p2 : pt R) (light_long : bool) (color : string) (l : list (pcall R)) : Prop :=
  exists a1 a2 u c1 c2 c3 c4, l = [c1; c2; c3; c4] /\
    joins (1 + 1 / 100000000) p1 p2 light_long a1 /\ plots a1 "lightblue" None c1 /\
    joins (1 + 1 / 100000000) p1 p2 (negb light_long) a2 /\ plots a2 color None c2 /\
    plots [(px p1, py p1); (px p2, py p2)] color (Some ":") c3 /\
    (vx u * vx u + vy u * vy u = 1 /\ vx u * (px p2 - px p1) + vy u * (py p2 - py p1) = 0) /\
    plots [((px p1 + px p2) / 2, (py p1 + py p2) / 2); ((px p1 + px p2) / 2 + vx u, (py p1 + py p2) / 2 + vy u)] "cyan" None c4.
Lemma side_ok (a : Z) (side o : R) color : (0 < a < 360)%Z -> side = 1 \/ side = -1 ->
  exists l, arc_side a side color o = Ok l /\
    side_shown (P o (o - 1)) (P (o + sin (radians (IZR a))) (o - cos (radians (IZR a)))) (if Rlt_dec 0 side then true else false) color l.
Proof.
  intros Ha Hs. assert (0 < IZR a < 360) as Hr by (split; apply IZR_lt; lia). pose proof (cos_lt_1 _ Hr) as C1.
  set (p1 := P o (o - 1)). set (p2 := P (o + sin (radians (IZR a))) (o - cos (radians (IZR a)))).
  unfold arc_side. cbv zeta.
  assert (v_rotate (V (#0) (- #1))%num (#0)%num = V 0 (-1)) as ->.
  { unfold v_rotate. cbn [vx vy]. cbn [nadd nsub nmul nneg nofZ ncos nsin NumR TrigR]. change (radians 0) with (0 * (PI / 180)).
    rewrite Rmult_0_l, cos_0, sin_0. f_equal; ring. }
  assert (p_add (v_p (V 0 (-1))) (V o o) = p1) as -> by (unfold p_add, v_p, p1; cbn [vx vy px py]; cbn [nadd NumR]; f_equal; ring).
  assert (p_add (v_p (v_rotate (V 0 (-1)) (nofZ a))) (V o o) = p2) as ->.
  { unfold p_add, v_p, v_rotate, p2. cbn [vx vy px py]. cbn [nadd nsub nmul nofZ ncos nsin NumR TrigR]. f_equal; ring. }
  set (r := (#1 + #1 / #100000000)%num). assert (r = 1 + 1 / 100000000) as Er by reflexivity. clearbody r.
  set (cs := cos (radians (IZR a))) in *. set (sn := sin (radians (IZR a))) in *.
  assert (sn * sn + cs * cs = 1) as Sq by (pose proof (sin2_cos2 (radians (IZR a))) as Q; unfold Rsqr in Q; exact Q). clearbody cs sn.
  assert (p1 <> p2) as N by (intros E; injection E as E1 E2; lra).
  assert (pdist p1 p2 <= 2 * r) as D.
  { unfold pdist, p1, p2. cbn [px py]. match goal with |- R_sqrt.sqrt ?e <= _ => replace e with (sn * sn + cs * cs + 1 - 2 * cs) by ring end. apply Rle_trans with (R_sqrt.sqrt (Rsqr 2)).
    - apply sqrt_le_1_alt. unfold Rsqr. assert (-1 <= cs) by nra. lra.
    - rewrite sqrt_Rsqr by lra. lra. }
  assert (side <> 0) as S0 by (destruct Hs; lra).
  destruct (arc_joins r p1 p2 side N D S0) as (a1 & -> & J1). cbn [bind].
  destruct (arc_joins r p1 p2 (- side) N D ltac:(lra)) as (a2 & E2 & J2). change (@nneg R _ side) with (- side). rewrite E2. cbn [bind].
  assert ((if Rlt_dec 0 (- side) then true else false) = negb (if Rlt_dec 0 side then true else false)) as Ng.
  { destruct (Rlt_dec 0 side), (Rlt_dec 0 (- side)); cbn; auto; lra. }
  rewrite Ng in J2.
  destruct (plot_tuples a1 "lightblue" None) as (c1 & -> & K1). { destruct J1 as (c & a' & sa & ea & n & -> & _). discriminate. }
  cbn [bind]. destruct (plot_tuples a2 color None) as (c2 & -> & K2). { destruct J2 as (c & a' & sa & ea & n & -> & _). discriminate. }
  cbn [bind].
  destruct (plot_tuples [(px p1, py p1); (px p2, py p2)] color (Some ":")) as (c3 & F3 & K3); [discriminate|].
  change (plot [LPoint p1; LPoint p2] color None (Some ":") None) with (plot (tuples [(px p1, py p1); (px p2, py p2)]) color None (Some ":") None).
  rewrite F3. cbn [bind]. rewrite unit_R.
  assert (v_length (p_sub p2 p1) * v_length (p_sub p2 p1) = 2 - 2 * cs) as L2.
  { rewrite length_sq. unfold p_sub, p1, p2. cbn [px py vx vy]. cbn [nsub NumR]. transitivity (sn * sn + cs * cs + 1 - 2 * cs); [ring|lra]. }
  set (len := v_length (p_sub p2 p1)) in *. clearbody len.
  destruct (Req_EM_T len 0) as [E|Ln]; [rewrite E in L2; lra|]. cbn [bind].
  set (u := v_normal _). 
  assert (u = V ((1 - cs) / len) (- (sn / len))) as Eu.
  { unfold u, v_normal, p_sub, p1, p2. cbn [px py vx vy]. cbn [nsub ndiv nneg NumR]. f_equal; field; exact Ln. }
  destruct (plot_tuples [((px p1 + px p2) / 2, (py p1 + py p2) / 2); ((px p1 + px p2) / 2 + vx u, (py p1 + py p2) / 2 + vy u)] "cyan" None) as (c4 & F4 & K4); [discriminate|].
  change (plot [LPoint (p_mid p1 p2); LPoint (p_add (p_mid p1 p2) u)] "cyan" None None None) with
    (plot (tuples [((px p1 + px p2) / 2, (py p1 + py p2) / 2); ((px p1 + px p2) / 2 + vx u, (py p1 + py p2) / 2 + vy u)]) "cyan" None None None).
  rewrite F4. cbn [bind]. eexists. split; [reflexivity|].
  rewrite Er in J1, J2. exists a1, a2, u, c1, c2, c3, c4. repeat (split; [first [reflexivity|assumption]|]). split; [|exact K4].
  rewrite Eu. unfold p1, p2. cbn [vx vy px py]. split.
  - assert ((1 - cs) * (1 - cs) + sn * sn = len * len) as Q by nra. 
    replace ((1 - cs) / len * ((1 - cs) / len) + - (sn / len) * - (sn / len)) with (((1 - cs) * (1 - cs) + sn * sn) / (len * len)) by (field; exact Ln).
    rewrite Q. field. exact Ln.
  - field. exact Ln.
Qed.

(* Every frame of the example draws two small circles and two sides, and no frame fails: the
   angle is never 0, and the points are never too far apart for the radius. *)
Theorem C90_arcs : forall n, let a := radians (IZR (3 * (Z.of_nat n mod 119) + 3)) in
  let p o := P o (o - 1) in let q o := P (o + sin a) (o - cos a) in
  ends arc_fun 3%Z n = Ok tt /\ exists g1 g2 blue red k1 k2, picture_at arc_fun 3%Z n = g1 :: g2 :: blue ++ red /\
    plots k1 "lightgrey" None g1 /\ (forall xy, In xy k1 -> cdist (P (-4) 4) xy = 1 / 10) /\
    plots k2 "lightgrey" None g2 /\ (forall xy, In xy k2 -> cdist (P 4 (-4)) xy = 1 / 10) /\
    side_shown (p (-1)) (q (-1)) true "blue" blue /\ side_shown (p 1) (q 1) false "red" red.
Proof.
  intros n a p q. destruct (C90_angles n) as [An Rg]. unfold ends, picture_at. 
  assert (a = radians (IZR (before (F := R) arc_fun n 3%Z))) as Ea by (unfold a; now rewrite An).
  set (z := before arc_fun n 3%Z) in *. clearbody z. clearbody a. unfold arc_fun.
  destruct (C27_circle (1 / 10) (P (-4) 4)) as (k1 & E1 & L1 & _ & _ & D1). destruct (C27_circle (1 / 10) (P 4 (-4))) as (k2 & E2 & L2 & _ & _ & D2).
  change (circle (#1 / #10)%num (P (- #4) (#4))%num) with (circle (1 / 10) (P (-4) 4)).
  change (circle (#1 / #10)%num (P (#4) (- #4))%num) with (circle (1 / 10) (P 4 (-4))). rewrite E1, E2. cbn [bind].
  destruct (plot_tuples k1 "lightgrey" None) as (g1 & F1 & K1); [intros ->; discriminate|]. destruct (plot_tuples k2 "lightgrey" None) as (g2 & F2 & K2); [intros ->; discriminate|].
  rewrite F1, F2. cbn [bind].
  destruct (side_ok z 1 (-1) "blue" Rg (or_introl eq_refl)) as (bl & Eb & Sb).
  destruct (side_ok z (-1) 1 "red" Rg (or_intror eq_refl)) as (rd & Ed & Sd).
  change (arc_side z (#1)%num "blue" (- #1)%num) with (arc_side z 1 "blue" (-1)). change (arc_side z (- #1)%num "red" (#1)%num) with (arc_side z (-1) "red" 1).
  rewrite Eb, Ed. cbn [bind shows fst snd]. split; [reflexivity|].
  rewrite <- Ea in Sb, Sd. destruct (Rlt_dec 0 1) as [_|]; [|lra]. destruct (Rlt_dec 0 (-1)) as [|_]; [lra|].
  rewrite Rabs_pos_eq in D1, D2 by lra.
  exists g1, g2, bl, rd, k1, k2. repeat (split; [first [reflexivity|assumption]|]). assumption.
Qed.
(* So its window goes on for as long as the main loop runs. *)
Theorem C90_arcs_run : forall (fps : R) n, fps <> 0 -> exists d v, plot_viewer (Some arc_fun) fps 3%Z = Ok (d, (v, Ok tt)) /\
  pictures (ticks arc_fun d n v) = map (picture_at arc_fun 3%Z) (seq 0 (S n)) /\ timers (ticks arc_fun d n v) = [d].
Proof.
  intros fps n N. destruct (proj2 (C90_delay fps) N) as (d & Ed & _).
  destruct (plot_viewer (Some arc_fun) fps 3%Z) as [[d' [v r]]|] eqn:E; [|unfold plot_viewer in E; rewrite Ed in E; discriminate].
  destruct (C90_viewer arc_fun fps 3%Z d' v r n E) as (-> & P1 & _ & P3 & _); [intros k _; exact (proj1 (C90_arcs k))|].
  exists d', v. auto.
Qed.

Example C90_nontrivial :
  plot [LPoint (P 1 2); LTuple [3; 4; 5]; LPoint (P 6 7)] "red" None None (Some 2)
    = Ok (PCall [[1; 3; 6]; [2; 4; 7]] (Some "red") None None (Some 2) (Some "round")) /\
  check_point_list [LPoint (P 1 2); LTuple [3; 4]] = Raise ValueError /\
  (exists d v, plot_viewer (Some moving_sine) 60 0 = Ok (d, (v, Ok tt))) /\
  (let u := fun s : nat => (S s, ([] : list (pcall R), if (s <? 2)%nat then Ok tt else Raise ZeroDivisionError)) in
   ends u 0%nat 1 = Ok tt /\ ends u 0%nat 2 = Raise ZeroDivisionError).
Proof.
  split; [|split; [reflexivity|split; [|split; reflexivity]]].
  - unfold plot. cbn [mapM row bind zip_rows fold_left List.length Nat.min seq map nth px py]. unfold ngtb. cbn [neqb nltb nofZ NumR].
    replace (Reqb 2 0) with false by (symmetry; apply Reqb_neq; lra). replace (Rltb 1 2) with true by (symmetry; apply Rltb_lt; lra). reflexivity.
  - destruct (proj2 (C90_delay 60) ltac:(lra)) as (d & Ed & _). destruct (plot_viewer (Some moving_sine) 60 0) as [[d' [v r]]|] eqn:E; [|unfold plot_viewer in E; rewrite Ed in E; discriminate].
    destruct (C90_viewer moving_sine 60 0 d' v r 0%nat E) as [-> _]; [intros k Hk; replace k with 0%nat by lia; destruct (C90_sine 0) as (x & y & _ & Q & _); exact Q|]. eauto.
Qed.
