(* Property theorems C79, continued: morphs, animations, areas, split curves. *)
From Coq Require Import Reals Floats ZArith List Lra Lia String.
From Flocq Require Import Core BinarySingleNaN PrimFloat.
Require Import Verif.Base Verif.NumFloat Verif.NumR Verif.M_vector Verif.M_bbox Verif.M_transform Verif.M_bezier Verif.M_points Verif.M_anim.
Require Import Verif.L_points Verif.S_float Verif.L_float Verif.L_float2 Verif.P_float.
Import ListNotations.
Local Open Scope R_scope.

(* one coordinate of o + (t - o) * k *)
Lemma near_between (a b k : float) : near 3 (Rabs (val a) + Rabs (val b - val a) * Rabs (val k) + tiny) (a + (b - a) * k)%float (val a + (val b - val a) * val k).
Proof.
  eapply near_scaled; [eapply near_add; [apply near_leaf|eapply near_mul; [apply near_diff|apply near_leaf]]|cbn; lia|lra].
Qed.
(* a morph, between two control points: each coordinate of the point and of both handles *)
Theorem C79_morph (t : float) (now a b : cpoint float) : Forall (fun co : (cpoint float -> float) * (cpoint R -> R) =>
    let x := fst co (cp_between t now a b) in
    finite x ->
    Rabs (val x - snd co (cp_between (val t) (valc now) (valc a) (valc b))) <=
      4 * eps * (Rabs (val (fst co a)) + Rabs (val (fst co b) - val (fst co a)) * Rabs (val t) + tiny))
  [(fun c => px (cc c), fun c => px (cc c)); (fun c => py (cc c), fun c => py (cc c));
   (fun c => vx (cdl c), fun c => vx (cdl c)); (fun c => vy (cdl c), fun c => vy (cdl c));
   (fun c => vx (cdr c), fun c => vx (cdr c)); (fun c => vy (cdr c), fun c => vy (cdr c))].
Proof.
  repeat (apply Forall_cons; [cbv zeta; cbn [fst snd]; intros F; eapply near_use; [apply near_between|lia|cbn; lra|lra|exact F]|]).
  apply Forall_nil.
Qed.
(* a linear animation: between the starting place and the target *)
Lemma linear_place (o g : pt float) (point target : nat) (t : float) (st st' : pstore float) (r : res unit) x0 y0 nm :
  nth_error st point = Some (NPoint x0 y0 nm) -> M_points.pos st target = Ok g ->
  linear_update o point target (TNum t) st = (st', r) ->
  r = Ok tt /\
  nth_error st' point = Some (NPoint ((1 - t) * px o + t * px g) ((1 - t) * py o + t * py g) nm)%float.
Proof.
  intros N Hp H. unfold linear_update in H. rewrite Hp in H. unfold move, pstep in H. rewrite N in H. cbn [bind fst snd] in H.
  pose proof (f_equal fst H) as H1. pose proof (f_equal snd H) as H2. cbn [fst snd] in H1, H2. subst st' r. split; [reflexivity|].
  rewrite nth_upd; [|apply nth_error_Some; rewrite N; discriminate]. rewrite Nat.eqb_refl. reflexivity.
Qed.
Theorem C79_linear (o g : pt float) (point target : nat) (t : float) (st st' : pstore float) (r : res unit) x0 y0 nm :
  nth_error st point = Some (NPoint x0 y0 nm) -> M_points.pos st target = Ok g ->
  linear_update o point target (TNum t) st = (st', r) ->
  exists x y, r = Ok tt /\ nth_error st' point = Some (NPoint x y nm) /\
  (finite x -> Rabs (val x - ((1 - val t) * val (px o) + val t * val (px g))) <=
     4 * eps * (Rabs (1 - val t) * Rabs (val (px o)) + Rabs (val t) * Rabs (val (px g)) + 2 * tiny)) /\
  (finite y -> Rabs (val y - ((1 - val t) * val (py o) + val t * val (py g))) <=
     4 * eps * (Rabs (1 - val t) * Rabs (val (py o)) + Rabs (val t) * Rabs (val (py g)) + 2 * tiny)).
Proof.
  intros N Hp H. destruct (linear_place _ _ _ _ _ _ _ _ _ _ _ N Hp H) as [-> N'].
  do 2 eexists. split; [reflexivity|]. split; [exact N'|].
  assert (E1 : val 1%float = 1).
  { change 1%float with (float_ofZ 1). apply (const_ok 1). vm_compute. discriminate. }
  assert (Q : forall a b : float, near 3 (Rabs (1 - val t) * Rabs (val a) + Rabs (val t) * Rabs (val b) + 2 * tiny)
                ((1 - t) * a + t * b)%float ((1 - val t) * val a + val t * val b)).
  { intros a b. pose proof (near_diff 1%float t) as D. rewrite E1 in D.
    eapply near_scaled; [eapply near_add; [eapply near_mul; [exact D|apply near_leaf]|eapply near_mul; apply near_leaf]|cbn; lia|lra]. }
  split; intros F; (eapply near_use; [apply Q|lia|cbn; lra|lra|exact F]).
Qed.

(* ------------------------------------------------------------------ *)
(** ** points that depend on others *)

Definition valn (d : pnode float) : pnode R :=
  match d with
  | NPoint x y n => NPoint (val x) (val y) n
  | NRel dx dy b n => NRel (val dx) (val dy) b n
  | NCalc b s n => NCalc b (val s) n
  end.
Definition absn (d : pnode float) : pnode R :=
  match d with
  | NPoint x y n => NPoint (Rabs (val x)) (Rabs (val y)) n
  | NRel dx dy b n => NRel (Rabs (val dx)) (Rabs (val dy)) b n
  | NCalc b s n => NCalc b (Rabs (val s)) n
  end.
Lemma ok_inj {A} (x y : A) : Ok x = Ok y -> x = y.
Proof. congruence. Qed.
Lemma near_xy (st : pstore float) : forall fuel i p, xy fuel st i = Ok p ->
  exists p' a, xy fuel (map valn st) i = Ok p' /\ xy fuel (map absn st) i = Ok a /\ (0 < fuel)%nat /\
    near fuel (px a + INR fuel * tiny) (px p) (px p') /\ near fuel (py a + INR fuel * tiny) (py p) (py p').
Proof.
  pose proof tiny_pos as T0.
  induction fuel as [|fuel IH]; intros i p H; [discriminate|]. cbn [xy] in H |- *. rewrite !nth_error_map. rewrite S_INR.
  assert (If : 0 <= INR fuel) by apply pos_INR. assert (IT : 0 <= INR fuel * tiny) by (apply Rmult_le_pos; lra).
  destruct (nth_error st i) as [[x y n|dx dy b n|b s n]|]; cbn [option_map valn absn] in *; try discriminate.
  - injection H as <-. do 2 eexists. split; [reflexivity|]. split; [reflexivity|]. split; [lia|]. cbn [px py].
    split; (eapply near_weaken; [|apply Rle_refl|]; [apply Nat.le_0_l|]); (eapply near_weaken; [apply Nat.le_refl| |apply near_leaf]); lra.
  - destruct (xy fuel st b) as [q|] eqn:E; cbn [bind] in H; [|discriminate]. apply IH in E as (p' & a & -> & -> & L & Nx & Ny).
    cbn [bind]. do 2 eexists. split; [reflexivity|]. split; [reflexivity|]. split; [lia|].
    apply ok_inj in H. subst p. cbn [px py]. ops.
    split; (eapply near_scaled; [eapply near_add; [apply near_leaf|eassumption]|cbn; lia|lra]).
  - rewrite !nth_error_map. destruct (nth_error st b) as [[x y m|dx dy bb m|bb s' m]|]; cbn [option_map valn absn] in *; try discriminate.
    + destruct (xy fuel st bb) as [q|] eqn:E; cbn [bind] in H; [|discriminate]. apply IH in E as (p' & a & -> & -> & L & Nx & Ny).
      cbn [bind]. do 2 eexists. split; [reflexivity|]. split; [reflexivity|]. split; [lia|].
      apply ok_inj in H. subst p. cbn [px py]. ops.
      split; (eapply near_scaled; [eapply near_add; [eapply near_mul; apply near_leaf|eassumption]|lia|lra]).
    + destruct (xy fuel st bb); cbn [bind] in H; discriminate.
Qed.
(* the position of a point at the end of any chain of relative and calculated points: the size is
   the sum of the absolute offsets along the chain (the position in the store of absolute values) *)
Theorem C79_relative (st : pstore float) (i : nat) (p : pt float) : M_points.pos st i = Ok p ->
  exists p' a, M_points.pos (map valn st) i = Ok p' /\ M_points.pos (map absn st) i = Ok a /\
  (finite (px p) -> Rabs (val (px p) - px p') <= ((1 + eps) ^ (S i) - 1) * (px a + INR (S i) * tiny)) /\
  (finite (py p) -> Rabs (val (py p) - py p') <= ((1 + eps) ^ (S i) - 1) * (py a + INR (S i) * tiny)).
Proof.
  intros H. apply near_xy in H as (p' & a & E & E' & _ & [_ Nx] & [_ Ny]). exists p', a. auto.
Qed.

(* ------------------------------------------------------------------ *)
(** ** areas *)

(* the sizes of the products *)
Definition area_size (l : list (pt R)) : R :=
  fold_right (fun ab s => Rabs (px (fst ab)) * Rabs (py (snd ab)) + Rabs (py (fst ab)) * Rabs (px (snd ab)) + 2 * tiny + s) 0
             (iter_rotate2 l).
Lemma near_total : forall (l : list (float * R)) (Bs : list R) k n A x r, (k <= n)%nat -> near n A x r ->
  Forall2 (fun xr B => near k B (fst xr) (snd xr)) l Bs ->
  near (n + List.length l) (fold_left Rplus Bs A) (fold_left PrimFloat.add (map fst l) x) (fold_left Rplus (map snd l) r).
Proof.
  induction l as [|[y s] l IH]; intros Bs k n A x r Hk Hx H; inversion H; subst; cbn [map fold_left List.length fst snd] in *.
  - eapply near_weaken; [|apply Rle_refl|exact Hx]. lia.
  - eapply near_weaken; [|apply Rle_refl|eapply (IH _ k (S n))]; [lia|lia| |eassumption].
    eapply near_weaken; [|apply Rle_refl|eapply near_add; eassumption]. lia.
Qed.
Lemma rotate2_map {A B} (f : A -> B) (l : list A) : iter_rotate2 (map f l) = map (fun ab => (f (fst ab), f (snd ab))) (iter_rotate2 l).
Proof.
  unfold iter_rotate2, rotl. rewrite skipn_map, firstn_map, <- map_app. generalize (skipn 1 l ++ firstn 1 l). intros m. revert m.
  induction l as [|a l IH]; intros [|b m]; cbn; try reflexivity. f_equal. apply IH.
Qed.
Theorem C79_area (l : list (pt float)) : finite (polygon_area l) ->
  Rabs (val (polygon_area l) - polygon_area (map valp l)) <= ((1 + eps) ^ (List.length l + 3) - 1) * (area_size (map valp l) / 2 + tiny).
Proof.
  intros F. unfold polygon_area in *. set (prs := iter_rotate2 l) in *.
  pose (f := fun ab : pt float * pt float => (px (fst ab) * py (snd ab) - py (fst ab) * px (snd ab))%float).
  pose (g := fun ab : pt float * pt float => val (px (fst ab)) * val (py (snd ab)) - val (py (fst ab)) * val (px (snd ab))).
  pose (h := fun ab : pt float * pt float => Rabs (val (px (fst ab))) * Rabs (val (py (snd ab))) + Rabs (val (py (fst ab))) * Rabs (val (px (snd ab))) + 2 * tiny).
  assert (N : near (2 + List.length prs) (fold_left Rplus (map h prs) 0) (fold_left PrimFloat.add (map f prs) 0%float) (fold_left Rplus (map g prs) 0)).
  { pose proof (near_total (map (fun ab => (f ab, g ab)) prs) (map h prs) 2 2 0 0%float 0) as K.
    rewrite !map_map, map_length in K. cbn [fst snd] in K. apply K; [lia| |].
    - eapply near_weaken; [|apply Rle_refl|apply (near_const 0); vm_compute; discriminate]. lia.
    - clear. induction prs as [|ab prs IH]; [constructor|]. cbn [map]. constructor; [|exact IH]. cbn [fst snd].
      unfold f, g, h. eapply near_scaled; [eapply near_sub; eapply near_mul; apply near_leaf|cbn; lia|lra]. }
  destruct (const_ok 2) as [F2 V2]; [vm_compute; discriminate|].
  assert (Np : near (S (2 + List.length prs)) (fold_left Rplus (map h prs) 0 / 2 + tiny)
     (fold_left PrimFloat.add (map f prs) 0 / float_ofZ 2)%float (fold_left Rplus (map g prs) 0 / 2)).
  { pose proof (near_div _ _ _ (float_ofZ 2) _ F2 ltac:(rewrite V2; lra) N) as K. rewrite V2 in K. rewrite (Rabs_right 2) in K by lra. exact K. }
  destruct Np as [_ Np]. specialize (Np F).
  replace (List.length l + 3)%nat with (S (2 + List.length prs)).
  2: { unfold prs, iter_rotate2, rotl. rewrite combine_length, app_length, skipn_length, firstn_length. destruct l; cbn [List.length]; lia. }
  assert (E : area_size (map valp l) = fold_left Rplus (map h prs) 0).
  { unfold area_size. rewrite rotate2_map. fold prs. rewrite fold_symmetric; [|intros; ring|intros; ring]. clear.
    induction prs as [|ab prs IH]; [reflexivity|]. cbn [map fold_right fst snd]. rewrite IH. reflexivity. }
  rewrite E. replace (pysum _ / #2)%num with (fold_left Rplus (map g prs) 0 / 2); [exact Np|].
  unfold pysum. rewrite rotate2_map, map_map. reflexivity.
Qed.

(* ------------------------------------------------------------------ *)
(** ** splitting a curve in the middle *)

Lemma near_mid n A p q r s : near n A p r -> near n A q s ->
  near (n + 3) (2 * A + tiny) (p + (q - p) * (1 / 2))%float (r + (s - r) * (1 / 2)).
Proof.
  intros H H'. assert (E : (1 / 2 = 0.5)%float) by reflexivity. assert (V5 : val 0.5%float = 1 / 2).
  { unfold val, Prim2B. vm_compute. lra. }
  rewrite E. eapply near_scaled.
  - eapply near_add; [exact H|]. eapply near_mul; [eapply near_sub; eassumption|]. rewrite <- V5. apply near_leaf.
  - lia.
  - rewrite V5, Rabs_right by lra. lra.
Qed.
Definition coords {F} : list (cpoint F -> F) :=
  [fun c => px (cc c); fun c => py (cc c); fun c => vx (cdl c); fun c => vy (cdl c); fun c => vx (cdr c); fun c => vy (cdr c)].
Lemma near_zero n A x : 0 <= A -> Rabs (val x) <= A -> near n A x (val x).
Proof. intros H H'. eapply near_weaken; [|exact H'|apply near_leaf]. lia. Qed.

(* every coordinate of the three control points that bez_split gives *)
Theorem C79_split (c1 c2 : cpoint float) (m : R) :
  Forall (fun co => Rabs (val (co c1)) <= m /\ Rabs (val (co c2)) <= m) coords ->
  let '(a, b, c) := bez_split_half c1 c2 in
  let '(a', b', c') := bez_split_half (valc c1) (valc c2) in
  Forall2 (fun co co' =>
    (finite (co a) -> Rabs (val (co a) - co' a') <= 12 * eps * (24 * m + 10 * tiny)) /\
    (finite (co b) -> Rabs (val (co b) - co' b') <= 12 * eps * (24 * m + 10 * tiny)) /\
    (finite (co c) -> Rabs (val (co c) - co' c') <= 12 * eps * (24 * m + 10 * tiny))) coords coords.
Proof.
  intros H. unfold coords in H. repeat match goal with X : Forall _ (_ :: _) |- _ => inversion X; clear X; subst end.
  repeat match goal with X : _ /\ _ |- _ => destruct X end.
  assert (M0 : 0 <= m) by (pose proof (Rabs_pos (val (px (cc c1)))); lra). pose proof tiny_pos as T0.
  unfold bez_split_half, bez_split.
  assert (Use : forall x r, near 11 (24 * m + 10 * tiny) x r -> finite x -> Rabs (val x - r) <= 12 * eps * (24 * m + 10 * tiny)).
  { intros x r N F. eapply near_use; [exact N|lia|cbn; lra|lra|exact F]. }
  (* one coordinate at a time: a, b = a + handle, c = d + handle, d *)
  assert (Co : forall (a0 ar d0 dl : float), Rabs (val a0) <= m -> Rabs (val ar) <= m -> Rabs (val d0) <= m -> Rabs (val dl) <= m ->
    let b := (a0 + ar)%float in let c := (d0 + dl)%float in let d := d0 in let a := a0 in
    let mid p q := (p + (q - p) * (1 / 2))%float in
    let b' := val a0 + val ar in let c' := val d0 + val dl in let d' := val d0 in let a' := val a0 in
    let mid' p q := p + (q - p) * (1 / 2) in
    let N := near 11 (24 * m + 10 * tiny) in
    N (mid a b - a)%float (mid' a' b' - a') /\ N (mid c d - d)%float (mid' c' d' - d') /\
    N (mid (mid (mid a b) (mid b c)) (mid (mid b c) (mid c d))) (mid' (mid' (mid' a' b') (mid' b' c')) (mid' (mid' b' c') (mid' c' d'))) /\
    N (mid (mid a b) (mid b c) - mid (mid (mid a b) (mid b c)) (mid (mid b c) (mid c d)))%float
      (mid' (mid' a' b') (mid' b' c') - mid' (mid' (mid' a' b') (mid' b' c')) (mid' (mid' b' c') (mid' c' d'))) /\
    N (mid (mid b c) (mid c d) - mid (mid (mid a b) (mid b c)) (mid (mid b c) (mid c d)))%float
      (mid' (mid' b' c') (mid' c' d') - mid' (mid' (mid' a' b') (mid' b' c')) (mid' (mid' b' c') (mid' c' d')))).
  { intros a0 ar d0 dl Ha Hr Hd Hl. cbv zeta.
    assert (Na : near 1 (2 * m) a0 (val a0)) by (apply near_zero; lra).
    assert (Nd : near 1 (2 * m) d0 (val d0)) by (apply near_zero; lra).
    assert (Nb : near 1 (2 * m) (a0 + ar)%float (val a0 + val ar)).
    { eapply near_scaled; [eapply near_add; apply (near_zero 0 m); assumption|cbn; lia|lra]. }
    assert (Nc : near 1 (2 * m) (d0 + dl)%float (val d0 + val dl)).
    { eapply near_scaled; [eapply near_add; apply (near_zero 0 m); assumption|cbn; lia|lra]. }
    pose proof (near_mid _ _ _ _ _ _ Na Nb) as Nab. pose proof (near_mid _ _ _ _ _ _ Nb Nc) as Nbc. pose proof (near_mid _ _ _ _ _ _ Nc Nd) as Ncd.
    pose proof (near_mid _ _ _ _ _ _ Nab Nbc) as Nabc. pose proof (near_mid _ _ _ _ _ _ Nbc Ncd) as Nbcd.
    pose proof (near_mid _ _ _ _ _ _ Nabc Nbcd) as Nabcd.
    split; [|split; [|split; [|split]]].
    - eapply near_scaled; [eapply near_sub; [exact Nab|exact Na]|cbn; lia|lra].
    - eapply near_scaled; [eapply near_sub; [exact Ncd|exact Nd]|cbn; lia|lra].
    - eapply near_scaled; [exact Nabcd|cbn; lia|lra].
    - eapply near_scaled; [eapply near_sub; [exact Nabc|exact Nabcd]|cbn; lia|lra].
    - eapply near_scaled; [eapply near_sub; [exact Nbcd|exact Nabcd]|cbn; lia|lra]. }
  pose proof (Co (px (cc c1)) (vx (cdr c1)) (px (cc c2)) (vx (cdl c2))) as X. pose proof (Co (py (cc c1)) (vy (cdr c1)) (py (cc c2)) (vy (cdl c2))) as Y.
  cbv zeta in X, Y. destruct X as (X1 & X2 & X3 & X4 & X5); try assumption. destruct Y as (Y1 & Y2 & Y3 & Y4 & Y5); try assumption.
  assert (Same : forall x, Rabs (val x) <= m -> near 11 (24 * m + 10 * tiny) x (val x)) by (intros; apply near_zero; lra).
  unfold coords. repeat (apply Forall2_cons; [split; [|split]; apply Use; first [exact X1|exact X2|exact X3|exact X4|exact X5|exact Y1|exact Y2|exact Y3|exact Y4|exact Y5|apply Same; assumption]|]).
  apply Forall2_nil.
Qed.
