(* C73: where two curves meet. *)
From Coq Require Import Reals Lra.
Require Import Verif.L_real.
Require Import Verif.Base Verif.NumR Verif.M_vector Verif.M_bbox Verif.M_transform Verif.M_bezier Verif.S_bezier Verif.L_bezier Verif.M_intersect
  Verif.M_colors Verif.M_elems Verif.M_group Verif.M_dump Verif.M_selfix Verif.S_selfix Verif.P_selfix.
From Coq Require Import List Bool Lia String Permutation.
Import ListNotations.
Local Open Scope R_scope.

(* ---------------- specification ---------------- *)
(* what the library is trusted with: its answers are parameters at which the cubics agree *)
Definition cubic_of (n : nodes R) (t : R) : pt R := cubic (n_a n) (n_b n) (n_c n) (n_d n) t.
Definition sound (intersect : nodes R -> nodes R -> option (list (R * R))) : Prop :=
  forall a b l t s, intersect a b = Some l -> In (t, s) l -> 0 <= t <= 1 /\ 0 <= s <= 1 /\ cubic_of a t = cubic_of b s.
(* for these two curves it answers, and with every common point *)
Definition finds_all (intersect : nodes R -> nodes R -> option (list (R * R))) (a b : nodes R) : Prop :=
  exists l, intersect a b = Some l /\
    forall t s, 0 <= t <= 1 -> 0 <= s <= 1 -> cubic_of a t = cubic_of b s -> In (t, s) l.
(* the end of one curve is the start of the other *)
Definition joint (t s : R) : Prop := (t = 1 /\ s = 0) \/ (t = 0 /\ s = 1).

Lemma at_joint_spec t s : at_joint (t, s) = true <-> joint t s.
Proof. unfold at_joint, joint. rewrite orb_true_iff, !andb_true_iff, !Reqb_eq. reflexivity. Qed.

Lemma combine_map {A B} (f : A -> B) (l : list A) : combine (map f l) l = map (fun a => (f a, a)) l.
Proof. induction l; cbn; congruence. Qed.

Lemma new_spec ix ep a1 a2 b1 b2 : bez_intersect_new ix ep a1 a2 b1 b2 =
  map (fun ts => (segment a1 a2 (fst ts), fst ts, snd ts))
    (filter (fun ts => ep || negb (at_joint ts)) (match ix (bz_curve a1 a2) (bz_curve b1 b2) with Some l => l | None => [] end)).
Proof.
  unfold bez_intersect_new. set (l := match ix _ _ with Some l => l | None => [] end).
  assert (E : (if ep then l else filter (fun ts => negb (at_joint ts)) l) = filter (fun ts => ep || negb (at_joint ts)) l).
  { destruct ep; [|reflexivity]. cbn [orb]. induction l as [|a l IH]; [reflexivity|]. cbn [filter]. now rewrite <- IH. }
  rewrite E, combine_map, map_map. apply map_ext. intros [t s]. cbn [fst snd]. unfold evaluate. rewrite bez_at_R. reflexivity.
Qed.

(* ---------------- C73 ---------------- *)

(* every answer is a point of both curves, at the parameters that are given *)
Theorem C73_common_points : forall ix ep a1 a2 b1 b2 p t s, sound ix ->
  In (p, t, s) (bez_intersect_new ix ep a1 a2 b1 b2) ->
  0 <= t <= 1 /\ 0 <= s <= 1 /\ p = segment a1 a2 t /\ p = segment b1 b2 s.
Proof.
  intros ix ep a1 a2 b1 b2 p t s H I. rewrite new_spec in I. apply in_map_iff in I as ([t' s'] & E & I).
  cbn [fst snd] in E. injection E as <- <- <-. apply filter_In in I as [I _].
  destruct (ix (bz_curve a1 a2) (bz_curve b1 b2)) as [l|] eqn:El; [|destruct I].
  destruct (H _ _ _ _ _ El I) as (Ht & Hs & Hp). repeat split; try lra. exact Hp.
Qed.

(* the answers are those of the library in its order, and without [endpoints] just those at a
   joint are left out; no answers when the library gives up *)
Theorem C73_answers : forall ix ep a1 a2 b1 b2 l, ix (bz_curve a1 a2) (bz_curve b1 b2) = Some l ->
  (forall t s, In (t, s) (map (fun r => (snd (fst r), snd r)) (bez_intersect_new ix ep a1 a2 b1 b2)) <->
     In (t, s) l /\ (ep = true \/ ~ joint t s)) /\
  (ep = true \/ (forall t s, In (t, s) l -> ~ joint t s) ->
   map (fun r => (snd (fst r), snd r)) (bez_intersect_new ix ep a1 a2 b1 b2) = l).
Proof.
  intros ix ep a1 a2 b1 b2 l E. rewrite new_spec, E, map_map. cbn [fst snd].
  rewrite (map_ext _ (fun x => x)) by (intros []; reflexivity). rewrite map_id. split.
  - intros t s. rewrite filter_In, orb_true_iff, negb_true_iff, <- not_true_iff_false, at_joint_spec. reflexivity.
  - intros H. clear E. induction l as [|[t s] l IH]; [reflexivity|]. cbn [filter].
    assert (K : ep || negb (at_joint (t, s)) = true).
    { destruct H as [->|H]; [reflexivity|]. rewrite orb_true_iff, negb_true_iff, <- not_true_iff_false, at_joint_spec. right. apply H. now left. }
    rewrite K. f_equal. apply IH. destruct H as [H|H]; [now left|right]. intros t' s' I. apply H. now right.
Qed.

(* all common points of the curves, when the library finds all of them *)
Theorem C73_all_found : forall ix ep a1 a2 b1 b2, finds_all ix (bz_curve a1 a2) (bz_curve b1 b2) -> forall t s,
  0 <= t <= 1 -> 0 <= s <= 1 -> segment a1 a2 t = segment b1 b2 s -> ep = true \/ ~ joint t s ->
  In (segment a1 a2 t, t, s) (bez_intersect_new ix ep a1 a2 b1 b2).
Proof.
  intros ix ep a1 a2 b1 b2 (l & El & C) t s Ht Hs E J.
  rewrite new_spec, El. apply in_map_iff. exists (t, s). split; [reflexivity|]. apply filter_In. split; [now apply C|].
  rewrite orb_true_iff, negb_true_iff, <- not_true_iff_false, at_joint_spec. exact J.
Qed.

Theorem C73_gives_up : forall ix ep (a1 a2 b1 b2 : cpoint R), ix (bz_curve a1 a2) (bz_curve b1 b2) = None ->
  bez_intersect_new ix ep a1 a2 b1 b2 = [] /\ bez_intersect_points ix ep a1 a2 b1 b2 = [] /\ bez_intersect_params ix ep a1 a2 b1 b2 = [].
Proof. intros ix ep a1 a2 b1 b2 E. unfold bez_intersect_points, bez_intersect_params. rewrite new_spec, E. auto. Qed.

(* the two forms of bez_intersect: the points, or one row of parameters for each curve *)
Theorem C73_forms : forall ix ep (a1 a2 b1 b2 : cpoint R),
  let r := bez_intersect_new ix ep a1 a2 b1 b2 in
  (r = [] /\ bez_intersect_points ix ep a1 a2 b1 b2 = [] /\ bez_intersect_params ix ep a1 a2 b1 b2 = []) \/
  (exists ts ss, bez_intersect_params ix ep a1 a2 b1 b2 = [ts; ss] /\
     Datatypes.length ts = Datatypes.length r /\ Datatypes.length ss = Datatypes.length r /\
     Datatypes.length (bez_intersect_points ix ep a1 a2 b1 b2) = Datatypes.length r /\
     forall i p t s, nth_error r i = Some (p, t, s) <->
       nth_error (bez_intersect_points ix ep a1 a2 b1 b2) i = Some p /\ nth_error ts i = Some t /\ nth_error ss i = Some s).
Proof.
  intros ix ep a1 a2 b1 b2 r. unfold bez_intersect_points, bez_intersect_params. fold r. destruct r as [|x r']; [left; auto|right].
  set (q := x :: r'). exists (map (fun r => snd (fst r)) q), (map snd q). split; [|rewrite !map_length; repeat split; auto].
  - unfold zip_pairs. unfold q at 1. cbn [map]. unfold q. cbn [map]. now rewrite !map_map.
  - rename H into E. rewrite nth_error_map, E. reflexivity.
  - rewrite nth_error_map, H. reflexivity.
  - rewrite nth_error_map, H. reflexivity.
  - rewrite !nth_error_map. destruct (nth_error q i) as [[[p' t'] s']|]; cbn; intros (A & B & C); congruence.
Qed.

(* exchanging the curves exchanges the parameters, when the library does the same *)
Theorem C73_swap : forall ix ep a1 a2 b1 b2 p t s, sound ix ->
  (forall a b, ix b a = option_map (map (fun ts => (snd ts, fst ts))) (ix a b)) ->
  In (p, t, s) (bez_intersect_new ix ep a1 a2 b1 b2) -> In (p, s, t) (bez_intersect_new ix ep b1 b2 a1 a2).
Proof.
  intros ix ep a1 a2 b1 b2 p t s H W I. destruct (C73_common_points _ _ _ _ _ _ _ _ _ H I) as (_ & _ & P1 & P2).
  rewrite new_spec in *. rewrite W. apply in_map_iff in I as ([t' s'] & E & I). cbn [fst snd] in E. injection E as E1 <- <-.
  apply filter_In in I as [I J]. apply in_map_iff. exists (s', t'). cbn [fst snd]. split; [now rewrite <- P2|]. apply filter_In. split.
  - destruct (ix (bz_curve a1 a2) (bz_curve b1 b2)) as [l|]; [|destruct I]. cbn [option_map]. apply in_map_iff. now exists (t', s').
  - rewrite orb_true_iff in *. destruct J as [J|J]; [now left|right]. rewrite negb_true_iff, <- not_true_iff_false, at_joint_spec in *. unfold joint in *. tauto.
Qed.

(* ---------------- in the self-intersection walk ---------------- *)
Lemma sound_visits ix orig k c t xy : sound ix ->
  let solve := bez_intersect_new ix false in let ps := pieces solve orig in
  nth_error ps k = Some c -> In (t, xy) (visits solve ps k) ->
  0 <= t <= 1 /\ segment (fst c) (snd c) t = P (fst xy) (snd xy).
Proof.
  intros H solve ps Nk I. unfold visits in I. rewrite Nk in I. apply in_app_or in I as [I|I]; apply in_flat_map in I as (d & _ & I);
    apply in_map_iff in I as ([[p ta] tb] & E & I); unfold on_first, on_second in E; injection E as <- <-; cbn [fst snd];
    apply (C73_common_points ix false) in I as (Ht & Hs & P1 & P2); auto; split; auto.
  - rewrite <- P2. now destruct p.
  - rewrite <- P1. now destruct p.
Qed.
(* the answers have the exactness that C65_same_points and C65_succeeds ask for: with a sound
   library the curves that bez_self_intersect returns are together the curve it was given *)
Theorem C73_self_intersect : forall ix (orig : list (cpoint R)), sound ix ->
  let solve := bez_intersect_new ix false in
  accurate solve orig 0 /\ within solve orig /\
  forall curves, bez_self_intersect solve orig = Ok curves -> crossings solve (pieces solve orig) <> [] ->
  separated solve orig (1 / 10 ^ 11) ->
  forall p, (exists curve, In curve curves /\ on_path curve true p) <-> on_path orig true p.
Proof.
  intros ix orig H solve.
  assert (A : accurate solve orig 0).
  { intros k c t xy Nk I. destruct (sound_visits ix orig k c t xy H Nk I) as [_ ->]. unfold dist. cbn [px py].
    replace ((fst xy - fst xy) ^ 2 + (snd xy - snd xy) ^ 2) with 0 by ring. rewrite R_sqrt.sqrt_0. lra. }
  assert (W : within solve orig).
  { intros k t xy I. destruct (nth_error (pieces solve orig) k) as [c|] eqn:Nk.
    - now destruct (sound_visits ix orig k c t xy H Nk I).
    - unfold visits in I. rewrite Nk in I. destruct I. }
  split; [exact A|]. split; [exact W|]. intros curves E N S p. now apply (C65_same_points solve orig).
Qed.

(* ---------------- the documentation ---------------- *)
Definition vertex (x y : R) : cpoint R := CP (P x y) (V 0 0) (V 0 0) "sharp"%string.
(* two curves with a common start, or a common end: without [endpoints] ("Include endpoints in
   intersection set") it is still in the answer of any library that finds the common points *)
Theorem C73_endpoints_refuted : forall ix a1 a2 b1 b2, finds_all ix (bz_curve a1 a2) (bz_curve b1 b2) ->
  (cc a1 = cc b1 -> In (cc a1, 0, 0) (bez_intersect_new ix false a1 a2 b1 b2)) /\
  (cc a2 = cc b2 -> In (cc a2, 1, 1) (bez_intersect_new ix false a1 a2 b1 b2)).
Proof.
  intros ix a1 a2 b1 b2 Co.
  assert (E0 : forall a b, segment a b 0 = cc a).
  { intros [[x y] d e k] [[x' y'] d' e' k']. unfold segment, cubic, cubic1, right_of, left_of. cbn [cc cdl cdr px py vx vy]. f_equal; ring. }
  assert (E1 : forall a b, segment a b 1 = cc b).
  { intros [[x y] d e k] [[x' y'] d' e' k']. unfold segment, cubic, cubic1, right_of, left_of. cbn [cc cdl cdr px py vx vy]. f_equal; ring. }
  split; intros E.
  - rewrite <- (E0 a1 a2) at 1. apply C73_all_found; auto; try lra; [rewrite !E0; exact E | right; unfold joint; lra].
  - rewrite <- (E1 a1 a2) at 1. apply C73_all_found; auto; try lra; [rewrite !E1; exact E | right; unfold joint; lra].
Qed.

(* ---------------- examples ---------------- *)
(* a library that is sound: it answers only for one pair of curves, the diagonals of the unit square *)
Definition diag1 : nodes R := Nodes (P 0 0) (P 0 0) (P 1 1) (P 1 1).
Definition diag2 : nodes R := Nodes (P 0 1) (P 0 1) (P 1 0) (P 1 0).
Definition node_eqb (a b : nodes R) : bool :=
  p_eqb (n_a a) (n_a b) && p_eqb (n_b a) (n_b b) && p_eqb (n_c a) (n_c b) && p_eqb (n_d a) (n_d b).
Definition ex_lib (a b : nodes R) : option (list (R * R)) :=
  if node_eqb a diag1 && node_eqb b diag2 then Some [(1/2, 1/2)] else Some [].
Lemma p_eqb_R (a b : pt R) : p_eqb a b = true -> a = b.
Proof. destruct a, b. unfold p_eqb. cbn. rewrite andb_true_iff, !Reqb_eq. intros [-> ->]. reflexivity. Qed.
Lemma node_eqb_R a b : node_eqb a b = true -> a = b.
Proof.
  destruct a, b. unfold node_eqb. cbn. rewrite !andb_true_iff. intros [[[A B] C] D].
  apply p_eqb_R in A. apply p_eqb_R in B. apply p_eqb_R in C. apply p_eqb_R in D. congruence.
Qed.
Example C73_ex_sound : sound ex_lib.
Proof.
  intros a b l t s E I. unfold ex_lib in E. destruct (node_eqb a diag1 && node_eqb b diag2) eqn:N; injection E as <-; [|destruct I].
  apply andb_true_iff in N as [A B]. apply node_eqb_R in A. apply node_eqb_R in B. subst. destruct I as [I|[]]. injection I as <- <-.
  repeat split; try lra. unfold cubic_of, cubic, cubic1, diag1, diag2. cbn [n_a n_b n_c n_d px py]. f_equal; lra.
Qed.
Lemma p_eqb_refl_R (a : pt R) : p_eqb a a = true.
Proof. destruct a. unfold p_eqb. cbn. now rewrite andb_true_iff, !Reqb_eq. Qed.
Lemma bz_corner x y x' y' : bz_curve (vertex x y) (vertex x' y') = Nodes (P x y) (P x y) (P x' y') (P x' y').
Proof. unfold bz_curve, vertex, cp_r, cp_l, p_add. cbn. f_equal; f_equal; ring. Qed.
Example C73_ex_meet : bez_intersect_new ex_lib false (vertex 0 0) (vertex 1 1) (vertex 0 1) (vertex 1 0) = [(P (1/2) (1/2), 1/2, 1/2)].
Proof.
  rewrite new_spec, !bz_corner. unfold ex_lib, node_eqb. fold diag1 diag2. rewrite !p_eqb_refl_R. cbn [andb filter].
  assert (J : at_joint (1/2, 1/2)%R = false). { apply not_true_iff_false. rewrite at_joint_spec. unfold joint. lra. }
  rewrite J. cbn [orb negb map fst snd]. f_equal. f_equal. f_equal. unfold segment, cubic, cubic1, right_of, left_of, vertex. cbn [cc cdl cdr px py vx vy]. f_equal; lra.
Qed.
(* and on these it finds everything *)
Example C73_ex_all : finds_all ex_lib (bz_curve (vertex 0 0) (vertex 1 1)) (bz_curve (vertex 0 1) (vertex 1 0)).
Proof.
  rewrite !bz_corner. exists [(1/2, 1/2)]. split.
  { unfold ex_lib, node_eqb. fold diag1 diag2. now rewrite !p_eqb_refl_R. }
  intros t s Ht Hs E. unfold cubic_of, cubic, cubic1 in E. cbn [n_a n_b n_c n_d px py] in E. injection E as Ex Ey.
  assert (Ft : (2 * t - 1) * (2 * t * (1 - t) + 1) = 0) by nra. assert (Fs : (2 * s - 1) * (2 * s * (1 - s) + 1) = 0) by nra.
  assert (0 <= t * (1 - t)) by nra. assert (0 <= s * (1 - s)) by nra.
  apply Rmult_integral in Ft. apply Rmult_integral in Fs. left. f_equal; lra.
Qed.
(* a figure of eight, whose first and third segments cross *)
Definition side1 : nodes R := Nodes (P 0 0) (P 0 0) (P 2 2) (P 2 2).
Definition side3 : nodes R := Nodes (P 2 0) (P 2 0) (P 0 2) (P 0 2).
Definition lib8 (a b : nodes R) : option (list (R * R)) :=
  if node_eqb a side1 && node_eqb b side3 then Some [(1/2, 1/2)] else Some [].
Example C73_ex_sound8 : sound lib8.
Proof.
  intros a b l t s E I. unfold lib8 in E. destruct (node_eqb a side1 && node_eqb b side3) eqn:N; injection E as <-; [|destruct I].
  apply andb_true_iff in N as [A B]. apply node_eqb_R in A. apply node_eqb_R in B. subst. destruct I as [I|[]]. injection I as <- <-.
  repeat split; try lra. unfold cubic_of, cubic, cubic1, side1, side3. cbn [n_a n_b n_c n_d px py]. f_equal; lra.
Qed.
Lemma half8 x y x' y' : (y + y') / 2 <> 0 ->
  let '(l, m, r) := bez_split (corner_at x y) (corner_at x' y') (1 / 2) in bez_intersect_new lib8 false l m m r = [].
Proof.
  intros N. destruct (bez_split (corner_at x y) (corner_at x' y') (1 / 2)) as [[l m] r] eqn:E. destruct (mid_corner _ _ _ _ _ _ _ E) as [E1 E2].
  rewrite new_spec. unfold lib8. destruct (node_eqb (bz_curve m r) side3) eqn:B; [|rewrite andb_false_r; reflexivity].
  exfalso. apply node_eqb_R in B. unfold bz_curve, side3 in B. injection B as B _ _ _ _ _. rewrite E2 in B. cbn [px py] in B. injection B as _ B. lra.
Qed.
Lemma pieces8 : pieces (bez_intersect_new lib8 false) eight = path_segments eight true.
Proof.
  unfold pieces, eight. cbn [path_segments app consecutive flat_map fst snd].
  pose proof (half8 0 0 2 2 ltac:(lra)) as H1. pose proof (half8 2 2 2 0 ltac:(lra)) as H2.
  pose proof (half8 2 0 0 2 ltac:(lra)) as H3. pose proof (half8 0 2 0 0 ltac:(lra)) as H4.
  destruct (bez_split (corner_at 0 0) (corner_at 2 2) (1 / 2)) as [[l1 m1] r1]. rewrite H1.
  destruct (bez_split (corner_at 2 2) (corner_at 2 0) (1 / 2)) as [[l2 m2] r2]. rewrite H2.
  destruct (bez_split (corner_at 2 0) (corner_at 0 2) (1 / 2)) as [[l3 m3] r3]. rewrite H3.
  destruct (bez_split (corner_at 0 2) (corner_at 0 0) (1 / 2)) as [[l4 m4] r4]. rewrite H4. reflexivity.
Qed.
Lemma asked8 x y x' y' u v u' v' : ask (bez_intersect_new lib8 false) (corner_at x y, corner_at x' y') (corner_at u v, corner_at u' v')
  = if node_eqb (Nodes (P x y) (P x y) (P x' y') (P x' y')) side1 && node_eqb (Nodes (P u v) (P u v) (P u' v') (P u' v')) side3
    then [(P 1 1, 1/2, 1/2)] else [].
Proof.
  unfold ask. cbn [fst snd]. rewrite new_spec, !bz_corner.
  unfold lib8. destruct (node_eqb _ side1 && node_eqb _ side3) eqn:E; [|reflexivity].
  apply andb_true_iff in E as [A _]. apply node_eqb_R in A. unfold side1 in A. injection A; intros; subst.
  assert (J : at_joint (1/2, 1/2)%R = false). { apply not_true_iff_false. rewrite at_joint_spec. unfold joint. lra. }
  cbn [filter]. rewrite J. cbn [orb negb map fst snd]. repeat apply f_equal2; auto. unfold segment, cubic, cubic1, right_of, left_of, corner_at. cbn [cc cdl cdr px py vx vy]. f_equal; lra.
Qed.
Lemma node_neq a b : a <> b -> node_eqb a b = false.
Proof. intros H. apply not_true_iff_false. intros E. now apply H, node_eqb_R. Qed.
Ltac ask8_no := rewrite (node_neq (Nodes _ _ _ _) side1) by (unfold side1; intros E8; injection E8; intros; lra).
Ltac ask8_no3 := rewrite (node_neq (Nodes _ _ _ _) side3) by (unfold side3; intros E8; injection E8; intros; lra).
Lemma node_refl a : node_eqb a a = true.
Proof. destruct a. unfold node_eqb. now rewrite !p_eqb_refl_R. Qed.
Lemma side1_refl : node_eqb (Nodes (P 0 0) (P 0 0) (P 2 2) (P 2 2)) side1 = true. Proof. apply node_refl. Qed.
Lemma side3_refl : node_eqb (Nodes (P 2 0) (P 2 0) (P 0 2) (P 0 2)) side3 = true. Proof. apply node_refl. Qed.
Ltac asks8 := rewrite !asked8, ?side1_refl, ?side3_refl; repeat ask8_no; repeat ask8_no3; cbn [andb]; rewrite ?andb_false_r; cbn [andb app map on_first on_second]; auto.
Lemma crossings8 : crossings (bez_intersect_new lib8 false) (pieces (bez_intersect_new lib8 false) eight) = [(P 1 1, 1/2, 1/2)].
Proof. rewrite pieces8. unfold eight. cbn [path_segments app consecutive crossings flat_map]. asks8. Qed.
Lemma visits8 k : visits (bez_intersect_new lib8 false) (pieces (bez_intersect_new lib8 false) eight) k =
  match k with 0%nat | 2%nat => [(1/2, (1, 1))] | _ => [] end.
Proof.
  rewrite pieces8. unfold eight, visits. cbn [path_segments app consecutive].
  destruct k as [|[|[|[|k]]]]; cbn [nth_error firstn skipn flat_map app]; try solve [asks8]. now destruct k.
Qed.
Example C73_ex_self : exists curves, bez_self_intersect (bez_intersect_new lib8 false) eight = Ok curves /\
  crossings (bez_intersect_new lib8 false) (pieces (bez_intersect_new lib8 false) eight) <> [] /\
  separated (bez_intersect_new lib8 false) eight (1 / 10 ^ 11) /\
  forall p, (exists curve, In curve curves /\ on_path curve true p) <-> on_path eight true p.
Proof.
  destruct (C73_self_intersect lib8 eight C73_ex_sound8) as (A & W & K). set (solve := bez_intersect_new lib8 false) in *.
  assert (S : forall d, separated solve eight d).
  { intros d p q ta tb sa sb Hp Hq. unfold solve in *. rewrite crossings8 in Hp, Hq. destruct Hp as [Hp|[]], Hq as [Hq|[]]. left. congruence. }
  assert (N : crossings solve (pieces solve eight) <> []) by (unfold solve; rewrite crossings8; discriminate).
  destruct (C65_succeeds solve eight [(1, 1); (1, 1)]) as [curves E].
  - exists [[(1 / 2, (1, 1))]; []; [(1 / 2, (1, 1))]; []]. split; [|reflexivity]. unfold solve.
    replace (List.length (pieces (bez_intersect_new lib8 false) eight)) with 4%nat by (rewrite pieces8; reflexivity).
    repeat (constructor; [split; [rewrite visits8; apply Permutation_refl|repeat constructor]|]). constructor.
  - intros p [<-|[<-|[]]]; exists [], [], []; split; auto; split; auto; now exists 0%nat.
  - intros k c t xy Hc Hi. specialize (A k c t xy Hc Hi). lra.
  - intros k t xy Hi. unfold solve in Hi. rewrite visits8 in Hi.
    destruct k as [|[|[|k]]]; try destruct Hi as [Hi|[]]; try contradiction; injection Hi as <- <-; lra.
  - apply S.
  - exists curves. split; [exact E|]. split; [exact N|]. split; [apply S|]. now apply K.
Qed.

(* two sides of a square from the same corner: the only common point is the corner *)
Example C73_ex_corner : let ix := fun _ _ : nodes R => Some [(0, 0)] in
  finds_all ix (bz_curve (vertex 0 0) (vertex 1 0)) (bz_curve (vertex 0 0) (vertex 0 1)) /\
  In (P 0 0, 0, 0) (bez_intersect_new ix false (vertex 0 0) (vertex 1 0) (vertex 0 0) (vertex 0 1)).
Proof.
  intros ix.
  assert (C : finds_all ix (bz_curve (vertex 0 0) (vertex 1 0)) (bz_curve (vertex 0 0) (vertex 0 1))).
  { rewrite !bz_corner. exists [(0, 0)]. split; [reflexivity|]. intros t s Ht Hs E. left.
    unfold cubic_of, cubic, cubic1 in E. cbn [n_a n_b n_c n_d px py] in E. injection E as Ex Ey.
    assert (Ft : t * t * (3 - 2 * t) = 0) by nra. assert (Fs : s * s * (3 - 2 * s) = 0) by nra.
    apply Rmult_integral in Ft as [Ft|Ft]; [|lra]. apply Rmult_integral in Fs as [Fs|Fs]; [|lra].
    apply Rmult_integral in Ft. apply Rmult_integral in Fs. f_equal; lra. }
  split; [exact C|]. exact (proj1 (C73_endpoints_refuted ix _ _ _ _ C) eq_refl).
Qed.
