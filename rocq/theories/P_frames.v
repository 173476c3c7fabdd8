(* C59 frame schedule, C60 canvas mapping, C61 autocrop. *)
From Coq Require Import Reals ZArith Lra Lia List Permutation Bool.
Require Import Verif.Base Verif.NumR Verif.NumFloat Verif.L_real.
Require Import Verif.M_vector Verif.M_bbox Verif.M_transform Verif.M_points Verif.M_anim Verif.M_frames.
Require Import Verif.S_transform Verif.S_points Verif.S_anim Verif.L_transform Verif.L_transform2 Verif.L_bboxR Verif.P_panim.
Import ListNotations.
Local Open Scope R_scope.

Lemma zrange_length n : length (zrange n) = Z.to_nat n.
Proof. unfold zrange. now rewrite map_length, seq_length. Qed.
Lemma zrange_in n x : In x (zrange n) <-> (0 <= x < n)%Z.
Proof.
  unfold zrange. rewrite in_map_iff. split.
  - intros [k [<- H]]. apply in_seq in H. lia.
  - intros H. exists (Z.to_nat x). split; [lia|]. apply in_seq. lia.
Qed.
Lemma zrange_none n : (n <= 0)%Z -> zrange n = [].
Proof. intros H. unfold zrange. replace (Z.to_nat n) with 0%nat by lia. reflexivity. Qed.

(* ---------------- C59 ---------------- *)

Section Schedule.
  Context {F : Type} {NF : Num F} {RF : NumRoot F} {TF : NumTrig F}.
  Variable I : Type.
  Variable draw : pstore F -> res I.

  (* the time of frame i of n *)
  Definition frame_time (n : Z) (i : nat) : F := (nofZ (Z.of_nat i) / nofZ n)%num.

  Lemma frames_run anims : forall ts st st' ims, build_frames I draw anims ts st = (st', Ok ims) ->
    length ims = length ts /\
    forall i im, nth_error ims i = Some im ->
      exists st1, h_run anims (map TNum (firstn (S i) ts)) st = (st1, Ok tt) /\ draw st1 = Ok im.
  Proof.
    induction ts as [|t ts IH]; intros st st' ims H; cbn [build_frames] in H.
    - injection H as <- <-. split; [reflexivity|]. intros [|i] im E; discriminate.
    - unfold build_one in H. destruct (h_update anims (TNum t) st) as [s1 [u|e]] eqn:U; [|discriminate].
      destruct (draw s1) as [im0|e] eqn:D; [|discriminate].
      destruct (build_frames I draw anims ts s1) as [s2 [l|e]] eqn:B; [|discriminate].
      cbn [bind] in H. injection H as <- <-. destruct (IH _ _ _ B) as [L N].
      split; [cbn; now rewrite L|]. intros [|i] im E; cbn [nth_error] in E.
      + injection E as <-. exists s1. split; [|exact D]. destruct u.
        cbn [firstn map h_run]. rewrite U. destruct ts; reflexivity.
      + destruct (N _ _ E) as [st1 [Q W]]. exists st1. split; [|exact W].
        change (firstn (S (S i)) (t :: ts)) with (t :: firstn (S i) ts). cbn [map h_run]. rewrite U. exact Q.
  Qed.

  (* build_all(n) makes n frames and remembers them; frame i is drawn after updating the
     animations with 0/n, 1/n, ..., i/n in turn. *)
  Theorem C59_frames : forall anims n st old st' ims now,
    build_all I draw anims n (st, old) = ((st', now), Ok ims) ->
    now = ims /\ length ims = Z.to_nat n /\
    forall i im, nth_error ims i = Some im ->
      exists st1, h_run anims (map (fun k => TNum (frame_time n k)) (seq 0 (S i))) st = (st1, Ok tt) /\
                  draw st1 = Ok im.
  Proof.
    intros anims n st old st' ims now H. unfold build_all in H. cbn [fst snd] in H.
    destruct (build_frames _ _ _ _ _) as [s1 [l|e]] eqn:B; [|discriminate]. injection H as <- <- <-.
    destruct (frames_run _ _ _ _ _ B) as [L N]. rewrite map_length, zrange_length in L.
    split; [reflexivity|]. split; [exact L|]. intros i im E. destruct (N _ _ E) as [st1 [Q W]].
    exists st1. split; [|exact W]. rewrite <- Q. f_equal.
    assert (i < length l)%nat as Hi by (apply nth_error_Some; congruence). rewrite L in Hi.
    unfold zrange. rewrite map_map, firstn_map, map_map.
    replace (seq 0 (Z.to_nat n)) with (seq 0 (S i) ++ seq (S i) (Z.to_nat n - S i))
      by (rewrite <- seq_app; f_equal; lia).
    rewrite firstn_app, seq_length, Nat.sub_diag, firstn_O, app_nil_r, firstn_all2 by (rewrite seq_length; lia).
    reflexivity.
  Qed.

  (* When no animation moves a point that another reads, the frames do not depend on each
     other: build_all(n) gives exactly the images build_one(i/n) would give on its own. *)
  Lemma frames_alone anims st (im : F -> I) (R0 : reachable st) (Ind : independent st anims) :
    forall ts ts0 st1 r, h_run anims (map TNum ts0) st = (st1, r) ->
    (forall t, In t ts -> exists st', build_one I draw anims t st = (st', Ok (im t))) ->
    exists st', build_frames I draw anims ts st1 = (st', Ok (map im ts)).
  Proof.
    assert (forall ts ts0 s1 r, h_run anims ts0 st = (s1, r) ->
      (forall t, In t ts -> exists st', build_one I draw anims t st = (st', Ok (im t))) ->
      r = Ok tt -> exists st', build_frames I draw anims ts s1 = (st', Ok (map im ts))) as K.
    { induction ts as [|t ts IH]; intros ts0 s1 r H A ->; [eexists; reflexivity|].
      destruct (A t (or_introl eq_refl)) as [st' E]. unfold build_one in E.
      destruct (h_update anims (TNum t) st) as [u [[]|e]] eqn:U; [|discriminate]. injection E as <- D.
      pose proof (C55_last_time _ _ _ _ _ _ _ R0 Ind H U) as U1.
      assert (h_run anims (ts0 ++ [TNum t]) st = (u, Ok tt)) as H'.
      { revert H U1. clear. intros H U1. revert st H. induction ts0 as [|x l IH]; intros st H; cbn [h_run app] in *.
        - injection H as <-. rewrite U1. reflexivity.
        - destruct (h_update anims x st) as [s2 [w|e]]; [auto|discriminate]. }
      destruct (IH _ _ _ H' (fun t' Ht => A t' (or_intror Ht)) eq_refl) as [s3 B].
      exists s3. cbn [build_frames map]. unfold build_one. rewrite U1, D, B. reflexivity. }
    intros ts ts0 st1 r H A. destruct ts0 as [|t0 ts0].
    - cbn in H. injection H as <- <-. eapply (K ts [] st); eauto. reflexivity.
    - destruct ts as [|t ts]; [eexists; reflexivity|].
      destruct r as [[]|e]; [eauto|].
      (* an earlier update failed: still the next one starts from there *)
      destruct (A t (or_introl eq_refl)) as [st' E]. unfold build_one in E.
      destruct (h_update anims (TNum t) st) as [u [[]|e']] eqn:U; [|discriminate]. injection E as <- D.
      pose proof (C55_last_time _ _ _ _ _ _ _ R0 Ind H U) as U1.
      assert (h_run anims [TNum t] st = (u, Ok tt)) as H1 by (cbn [h_run]; rewrite U; reflexivity).
      destruct (K ts _ _ _ H1 (fun t' Ht => A t' (or_intror Ht)) eq_refl) as [s3 B].
      exists s3. cbn [build_frames map]. unfold build_one. rewrite U1, D, B. reflexivity.
  Qed.
  Theorem C59_alone : forall anims n st old (im : nat -> I),
    reachable st -> independent st anims ->
    (forall i, (Z.of_nat i < n)%Z -> exists st', build_one I draw anims (frame_time n i) st = (st', Ok (im i))) ->
    exists st', build_all I draw anims n (st, old) = ((st', map im (seq 0 (Z.to_nat n))), Ok (map im (seq 0 (Z.to_nat n)))).
  Proof.
    intros anims n st old im R0 Ind A. unfold build_all. cbn [fst snd].
    pose (g := fun t => match build_one I draw anims t st with (_, Ok x) => Some x | _ => None end).
    destruct (Z_lt_le_dec 0 n) as [Hn|Hn].
    - pose (im' := fun t => match g t with Some x => x | None => im O end).
      assert (forall i, (Z.of_nat i < n)%Z -> im' (frame_time n i) = im i) as E.
      { intros i Hi. destruct (A i Hi) as [s' B]. unfold im', g. rewrite B. reflexivity. }
      destruct (frames_alone anims st im' R0 Ind (map (frame_time n) (seq 0 (Z.to_nat n))) [] st (Ok tt) eq_refl) as [s' B].
      { intros t Ht. apply in_map_iff in Ht. destruct Ht as [i [<- Hi]]. apply in_seq in Hi.
        rewrite E by lia. apply A. lia. }
      exists s'. unfold zrange. rewrite map_map.
      change (map (fun x : nat => (nofZ (Z.of_nat x) / nofZ n)%num) (seq 0 (Z.to_nat n))) with (map (frame_time n) (seq 0 (Z.to_nat n))).
      rewrite B.
      assert (map im' (map (frame_time n) (seq 0 (Z.to_nat n))) = map im (seq 0 (Z.to_nat n))) as ->.
      { rewrite map_map. apply map_ext_in. intros i Hi. apply in_seq in Hi. apply E. lia. }
      reflexivity.
    - exists st. rewrite zrange_none by lia. replace (Z.to_nat n) with O by lia. reflexivity.
  Qed.

  (* No steps, no frames; and when a frame cannot be made the images made before stay. *)
  Theorem C59_no_steps : forall anims n st old, (n <= 0)%Z ->
    build_all I draw anims n (st, old) = ((st, []), Ok []).
  Proof. intros anims n st old H. unfold build_all. now rewrite zrange_none. Qed.
  Theorem C59_error : forall anims n st old s' e,
    build_all I draw anims n (st, old) = (s', Raise e) -> snd s' = old.
  Proof.
    intros anims n st old s' e H. unfold build_all in H. cbn [fst snd] in H.
    destruct (build_frames _ _ _ _ _) as [s1 [l|x]]; [discriminate|]. now injection H as <- _.
  Qed.
End Schedule.

(* SimpleAnimation over the reals *)
Definition step_time (lo hi : R) (steps : Z) (k : nat) : R := lo + INR k * ((hi - lo) / IZR steps).
Definition twice {A} (l : list A) : list A := flat_map (fun x => [x; x]) l.

Lemma simple_ok (I : Type) (d : R -> I * option exn) lo size : forall l images (im : R -> I),
  (forall z, In z l -> d (lo + IZR z * size) = (im (lo + IZR z * size), None)) ->
  simple_loop I d lo size l images = (images ++ twice (map (fun z => im (lo + IZR z * size)) l), Ok tt).
Proof.
  induction l as [|z l IH]; intros images im A; cbn [simple_loop map twice flat_map app].
  - now rewrite app_nil_r.
  - change (lo + nofZ z * size)%num with (lo + IZR z * size). rewrite (A z (or_introl eq_refl)).
    rewrite (IH _ im) by (intros; apply A; now right). rewrite <- !app_assoc. reflexivity.
Qed.
Lemma simple_app (I : Type) (d : R -> I * option exn) lo size : forall l l' images images',
  simple_loop I d lo size l images = (images', Ok tt) ->
  simple_loop I d lo size (l ++ l') images = simple_loop I d lo size l' images'.
Proof.
  induction l as [|z l IH]; intros l' images images' H; cbn [simple_loop app] in *.
  - now injection H as <-.
  - destruct (d _) as [x [e|]]; [discriminate|]. eauto.
Qed.
Lemma twice_length {A} (l : list A) : length (twice l) = (2 * length l)%nat.
Proof. unfold twice. induction l as [|x l IH]; cbn [flat_map app length]; [reflexivity|]. rewrite IH. lia. Qed.

(* t_low and t_high must differ; either may be the larger one. *)
Theorem C59_simple_range : forall lo hi : R,
  (lo = hi -> mk_simple lo hi = Raise AssertionError) /\ (lo <> hi -> mk_simple lo hi = Ok tt).
Proof.
  intros lo hi. unfold mk_simple. cbn [neqb NumR]. unfold Reqb. destruct (Req_EM_T lo hi); split; congruence.
Qed.
(* draw_func is called at steps + 1 evenly spaced times from t_low to t_high, and each frame
   is kept twice. *)
Theorem C59_simple : forall (I : Type) (d : R -> I * option exn) (im : R -> I) lo hi steps (old : list I),
  (0 < steps)%Z ->
  (forall k, (Z.of_nat k <= steps)%Z -> d (step_time lo hi steps k) = (im (step_time lo hi steps k), None)) ->
  animate I d lo hi steps old =
    (old ++ twice (map (fun k => im (step_time lo hi steps k)) (seq 0 (S (Z.to_nat steps)))), Ok tt).
Proof.
  intros I d im lo hi steps old Hs A. unfold animate.
  rewrite pydiv_R by (apply not_0_IZR; lia).
  rewrite (simple_ok I d lo _ _ _ im).
  - unfold zrange. rewrite map_map. replace (Z.to_nat (steps + 1)) with (S (Z.to_nat steps)) by lia.
    f_equal. f_equal. f_equal. apply map_ext. intros k. unfold step_time. now rewrite INR_IZR_INZ.
  - intros z Hz. apply zrange_in in Hz. specialize (A (Z.to_nat z)). unfold step_time in A.
    rewrite INR_IZR_INZ, Z2Nat.id in A by lia. apply A. lia.
Qed.
Theorem C59_simple_ends : forall lo hi steps, (0 < steps)%Z ->
  step_time lo hi steps 0 = lo /\ step_time lo hi steps (Z.to_nat steps) = hi /\
  forall k, step_time lo hi steps (S k) - step_time lo hi steps k = (hi - lo) / IZR steps.
Proof.
  intros lo hi steps Hs. unfold step_time. assert (0 < IZR steps) by (apply IZR_lt; lia).
  repeat split.
  - cbn [INR]. lra.
  - rewrite INR_IZR_INZ, Z2Nat.id by lia. field. lra.
  - intros k. rewrite S_INR. lra.
Qed.
(* The documentation asks for one frame for each of the steps + 1 times; there are twice as
   many, and when draw_func fails the frame it was drawing is kept once. *)
Theorem C59_one_frame_each_refuted : forall (I : Type) (d : R -> I * option exn) (im : R -> I) lo hi steps (old : list I),
  (0 < steps)%Z ->
  (forall k, (Z.of_nat k <= steps)%Z -> d (step_time lo hi steps k) = (im (step_time lo hi steps k), None)) ->
  exists images, animate I d lo hi steps old = (images, Ok tt) /\
    length images = (length old + 2 * (Z.to_nat steps + 1))%nat /\
    length images <> (length old + (Z.to_nat steps + 1))%nat.
Proof.
  intros I d im lo hi steps old Hs A. rewrite (C59_simple I d im) by assumption. eexists. split; [reflexivity|].
  rewrite app_length, twice_length, map_length, seq_length. lia.
Qed.
Theorem C59_simple_failure : forall (I : Type) (d : R -> I * option exn) (im : R -> I) lo hi steps (old : list I) j x e,
  (0 < steps)%Z -> (Z.of_nat j <= steps)%Z ->
  (forall k, (k < j)%nat -> d (step_time lo hi steps k) = (im (step_time lo hi steps k), None)) ->
  d (step_time lo hi steps j) = (x, Some e) ->
  animate I d lo hi steps old =
    (old ++ twice (map (fun k => im (step_time lo hi steps k)) (seq 0 j)) ++ [x], Raise e).
Proof.
  intros I d im lo hi steps old j x e Hs Hj A B. unfold animate.
  rewrite pydiv_R by (apply not_0_IZR; lia).
  unfold zrange. replace (Z.to_nat (steps + 1)) with (j + S (Z.to_nat steps - j))%nat by lia.
  rewrite seq_app, map_app. cbn [Nat.add].
  erewrite simple_app.
  2: { apply (simple_ok I d lo _ _ _ im). intros z Hz. apply in_map_iff in Hz. destruct Hz as [k [<- Hk]].
       apply in_seq in Hk. specialize (A k). unfold step_time in A. rewrite INR_IZR_INZ in A. apply A. lia. }
  cbn [seq map simple_loop].
  match goal with |- context [d ?t] => replace (d t) with (x, Some e)
    by (rewrite <- B; f_equal; unfold step_time; rewrite INR_IZR_INZ; reflexivity) end.
  rewrite <- app_assoc, map_map. do 4 f_equal. apply map_ext. intros k. unfold step_time. now rewrite INR_IZR_INZ.
Qed.
Theorem C59_simple_none : forall (I : Type) (d : R -> I * option exn) lo hi steps (old : list I),
  (steps <= 0)%Z ->
  animate I d lo hi steps old = (old, if (steps =? 0)%Z then Raise ZeroDivisionError else Ok tt).
Proof.
  intros I d lo hi steps old H. unfold animate. destruct (Z.eqb_spec steps 0) as [->|N].
  - now rewrite pydiv_R0.
  - rewrite pydiv_R by (apply not_0_IZR; lia). rewrite zrange_none by lia. reflexivity.
Qed.
(* In floating point the last frame need not be at t_high. *)
Theorem C59_last_time_refuted : exists (lo hi : PrimFloat.float) (steps : Z),
  mk_simple lo hi = Ok tt /\ (0 < steps)%Z /\
  exists images, animate PrimFloat.float (fun t => (t, None)) lo hi steps [] = (images, Ok tt) /\
    (last images lo =? hi)%num = false.
Proof.
  exists PrimFloat.zero, PrimFloat.one, 49%Z. split; [reflexivity|]. split; [lia|].
  eexists. split; [vm_compute; reflexivity|]. vm_compute. reflexivity.
Qed.

(* a point on its way to another; every frame can be drawn, and the store itself is the image *)
Example C59_nontrivial :
  let st : pstore R := prun [PNew 0 0 None; PNew 4 0 None] [] in
  let anims := [ALinear (P 0 0) 0%nat 1%nat] in
  reachable st /\ independent st anims /\
  (forall t : R, exists st', build_one (pt R) (fun s => pos s 0) anims t st = (st', Ok (P (4 * t) 0))) /\
  exists st', build_all (pt R) (fun s => pos s 0) anims 4 (st, []) =
    ((st', [P 0 0; P 1 0; P 2 0; P 3 0]), Ok [P 0 0; P 1 0; P 2 0; P 3 0]).
Proof.
  intros st anims. assert (reachable st) as Rs by (eexists; reflexivity).
  assert (independent st anims) as Is.
  { intros a [<-|[]]. cbn [a_point a_target steady]. split; [cbn; eauto|]. split; [exact I|].
    intros q b Q Ib H. injection Q as <-. destruct Ib as [<-|[]]. cbn [a_point] in H.
    inversion H as [? ? ? ? E|? ? ? ? ? ? E|? ? ? ? ? ? ? ? ? E]; subst; cbn in E; discriminate. }
  assert (forall t : R, exists st', build_one (pt R) (fun s => pos s 0) anims t st = (st', Ok (P (4 * t) 0))) as Bs.
  { intros t. eexists. unfold build_one. cbn -[IZR]. f_equal. f_equal. f_equal; ring. }
  split; [exact Rs|]. split; [exact Is|]. split; [exact Bs|].
  pose proof (C59_alone (pt R) (fun s => pos s 0) anims 4 st [] (fun i => P (INR i) 0) Rs Is) as H.
  change (seq 0 (Z.to_nat 4)) with [0; 1; 2; 3]%nat in H. cbn [map INR] in H.
  destruct H as [s' H].
  - intros i _. destruct (Bs (frame_time 4 i)) as [s' B]. exists s'. rewrite B. do 3 f_equal.
    unfold frame_time. cbn [ndiv nofZ NumR]. rewrite INR_IZR_INZ. field.
  - exists s'. replace (1 + 1 + 1) with 3 in H by ring. replace (1 + 1) with 2 in H by ring. exact H.
Qed.

(* ---------------- C60 ---------------- *)

Lemma div_nonneg a b : 0 <= a -> 0 < b -> 0 <= a / b.
Proof. intros A B. apply Rmult_le_pos; [exact A|]. left. now apply Rinv_0_lt_compat. Qed.

Theorem C60_canvas_fit : forall height zoom zx zy (p : pt R),
  t_transform (canvas_fit height zoom zx zy) p = P (zoom * px p + zx) (height - (zoom * py p + zy)).
Proof.
  intros height zoom zx zy p. unfold canvas_fit.
  rewrite translate_pt, scale_pt, translate_pt, scale_pt by (cbn; auto 8 with aff). rewrite new_pt.
  apply pt_ext; unfold shift, stretch; cbn -[IZR]; ring.
Qed.
Lemma canvas_affine height zoom zx zy : affine_mat (tmat (canvas_fit (F:=R) height zoom zx zy)).
Proof. unfold canvas_fit. cbn. auto 8 with aff. Qed.
Lemma step_matrix_R w h xl yl xh yh : 0 <= w -> 0 <= h -> xl < xh -> yl < yh ->
  exists m, step_matrix w h (BB xl yl xh yh) = (m, Ok tt) /\ affine_mat (tmat m) /\
    forall x y, t_transform m (P x y) = P ((x - xl) * (w / (xh - xl))) ((- y - yl) * (h / (yh - yl))).
Proof.
  intros Hw Hh Hx Hy. unfold step_matrix. rewrite mkbbox_R. change (#0)%num with 0. change (#1)%num with 1.
  rewrite (Rmin_left 0 w), (Rmin_left 0 h), (Rmax_right 0 w), (Rmax_right 0 h) by assumption.
  destruct (scale_bbox_R xl yl xh yh 0 0 w h _ (canvas_affine h 1 0 h) Hx Hy) as [m [E [A [_ T]]]].
  exists m. split; [exact E|]. split; [exact A|]. intros x y. rewrite T, C60_canvas_fit. cbn [px py].
  apply pt_ext; cbn [px py]; field; lra.
Qed.
(* What the drawing matrix does to every point. *)
Theorem C60_step_matrix : forall w h xl yl xh yh, 0 <= w -> 0 <= h -> xl < xh -> yl < yh ->
  exists m, step_matrix w h (BB xl yl xh yh) = (m, Ok tt) /\
    forall x y, t_transform m (P x y) = P ((x - xl) * (w / (xh - xl))) ((- y - yl) * (h / (yh - yl))).
Proof. intros w h xl yl xh yh A B C D. destruct (step_matrix_R w h xl yl xh yh A B C D) as [m [E [_ T]]]. eauto. Qed.
(* draw_bbox is mapped onto the image exactly when it is symmetric about y = 0; then its top
   left corner is the pixel origin and its bottom right corner the far corner of the image. *)
Theorem C60_onto : forall w h xl yl xh yh m, 0 < w -> 0 < h -> xl < xh -> yl < yh ->
  step_matrix w h (BB xl yl xh yh) = (m, Ok tt) ->
  ((forall X Y, (0 <= X <= w /\ 0 <= Y <= h) <->
      exists x y, xl <= x <= xh /\ yl <= y <= yh /\ t_transform m (P x y) = P X Y) <-> yl + yh = 0).
Proof.
  intros w h xl yl xh yh m Hw Hh Hx Hy E.
  destruct (step_matrix_R w h xl yl xh yh) as [m' [E' [_ T]]]; try lra.
  rewrite E in E'. injection E' as <-. clear E. split.
  - intros H.
    assert (0 <= (- yl - yl) * (h / (yh - yl)) <= h) as B1.
    { apply (H ((xl - xl) * (w / (xh - xl))) _). exists xl, yl. rewrite T. repeat split; lra. }
    assert (0 <= (- yh - yl) * (h / (yh - yl)) <= h) as B2.
    { apply (H ((xl - xl) * (w / (xh - xl))) _). exists xl, yh. rewrite T. repeat split; lra. }
    set (k := h / (yh - yl)) in *. assert (0 < k) by (apply Rdiv_lt_0_compat; lra).
    assert (h = k * (yh - yl)) as K by (unfold k; field; lra). clearbody k. subst h.
    destruct B1 as [_ B1]. destruct B2 as [B2 _].
    assert (- yl - yl <= yh - yl) by (apply Rmult_le_reg_r with k; lra).
    assert (0 <= - yh - yl) by (apply Rmult_le_reg_r with k; lra). lra.
  - intros S0 X Y. replace yl with (- yh) in * by lra. split.
    + intros [HX HY]. exists (xl + X * ((xh - xl) / w)), (yh - Y * ((2 * yh) / h)).
      assert (0 <= X / w <= 1) as BX by (split; [apply div_nonneg; lra|apply Rmult_le_reg_r with w; [lra|field_simplify; lra]]).
      assert (0 <= Y / h <= 1) as BY by (split; [apply div_nonneg; lra|apply Rmult_le_reg_r with h; [lra|field_simplify; lra]]).
      replace (X * ((xh - xl) / w)) with ((xh - xl) * (X / w)) by (field; lra).
      replace (Y * (2 * yh / h)) with (2 * yh * (Y / h)) by (field; lra).
      split; [nra|]. split; [nra|]. rewrite T. apply pt_ext; cbn [px py]; field; lra.
    + intros [x [y [Bx [By Q]]]]. rewrite T in Q. injection Q as <- <-.
      pose proof (lerp_in xl xh 0 w x Hx ltac:(lra) Bx).
      pose proof (lerp_in (- yh) yh 0 h (- y) Hy ltac:(lra) ltac:(lra)). rewrite !Rplus_0_l, !Rminus_0_r in *. lra.
Qed.
Theorem C60_corners : forall w h xl xh r m, 0 < w -> 0 < h -> xl < xh -> 0 < r ->
  step_matrix w h (BB xl (- r) xh r) = (m, Ok tt) ->
  t_transform m (P xl r) = P 0 0 /\ t_transform m (P xh (- r)) = P w h.
Proof.
  intros w h xl xh r m Hw Hh Hx Hr E.
  destruct (step_matrix_R w h xl (- r) xh r) as [m' [E' [_ T]]]; try lra.
  rewrite E in E'. injection E' as <-. rewrite !T. split; apply pt_ext; cbn [px py]; field; lra.
Qed.
(* A box without width or height cannot be mapped. *)
Theorem C60_flat : forall w h xl yl xh yh : R, xl = xh \/ yl = yh ->
  exists m, step_matrix w h (BB xl yl xh yh) = (m, Raise ZeroDivisionError).
Proof.
  intros w h xl yl xh yh H. unfold step_matrix, t_scale_bbox. cbn [bbox_width bbox_height].
  destruct (Req_dec xl xh) as [->|N]; eexists.
  - replace (xh - xh)%num with 0 by (cbn; ring). rewrite pydiv_R0. reflexivity.
  - destruct H as [H|H]; [contradiction|subst yl]. rewrite pydiv_R by (cbn; lra).
    replace (yh - yh)%num with 0 by (cbn; ring). rewrite pydiv_R0. reflexivity.
Qed.
Example C60_nontrivial : exists m, step_matrix 400 200 (BB (-100) (-50) 300 50) = (m, Ok tt) /\
  t_transform m (P 100 25) = P 200 50.
Proof.
  destruct (C60_step_matrix 400 200 (-100) (-50) 300 50) as [m [E T]]; try lra.
  exists m. split; [exact E|]. rewrite T. apply pt_ext; cbn [px py]; field.
Qed.

(* ---------------- C61 ---------------- *)

(* (x, y) is a pixel of the image that is not zero *)
Definition shown (im : image) (x y : Z) : Prop :=
  (0 <= x < i_w im)%Z /\ (0 <= y < i_h im)%Z /\ i_on im x y = true.
Definition in_zbox (b : box) (x y : Z) : Prop :=
  let '(x0, y0, x1, y1) := b in (x0 <= x < x1)%Z /\ (y0 <= y < y1)%Z.
Definition sized (w h : Z) (im : image) : Prop := i_w im = w /\ i_h im = h.

Lemma lit_shown im x y : lit im x y = true <-> shown im x y.
Proof.
  unfold lit, shown. rewrite !andb_true_iff, !Z.leb_le, !Z.ltb_lt. tauto.
Qed.
(* the box is the smallest one around a set of pixels *)
Definition hull (b : box) (S0 : Z -> Z -> Prop) : Prop :=
  let '(x0, y0, x1, y1) := b in
  (forall x y, S0 x y -> (x0 <= x < x1 /\ y0 <= y < y1)%Z) /\
  (exists y, S0 x0 y) /\ (exists x, S0 x y0) /\ (exists y, S0 (x1 - 1)%Z y) /\ (exists x, S0 x (y1 - 1)%Z).
Lemma hull_max a b A B : hull a A -> hull b B -> hull (bbox_max a b) (fun x y => A x y \/ B x y).
Proof.
  destruct a as [[[a0 a1] a2] a3], b as [[[b0 b1] b2] b3]. unfold bbox_max, hull.
  intros [Ha [[a0' A0] [[a1' A1] [[a2' A2] [a3' A3]]]]] [Hb [[b0' B0] [[b1' B1] [[b2' B2] [b3' B3]]]]].
  split; [intros x y [H|H]; [specialize (Ha _ _ H)|specialize (Hb _ _ H)]; lia|].
  repeat split.
  - destruct (Z.min_dec a0 b0) as [->| ->]; eauto.
  - destruct (Z.min_dec a1 b1) as [->| ->]; eauto.
  - destruct (Z.max_dec a2 b2) as [->| ->]; eauto.
  - destruct (Z.max_dec a3 b3) as [->| ->]; eauto.
Qed.
Lemma hull_ext b A B : (forall x y, A x y <-> B x y) -> hull b A -> hull b B.
Proof. destruct b as [[[b0 b1] b2] b3]. unfold hull. intros E. setoid_rewrite E. auto. Qed.
Lemma hull_unique a b A : hull a A -> hull b A -> a = b.
Proof.
  destruct a as [[[a0 a1] a2] a3], b as [[[b0 b1] b2] b3]. unfold hull.
  intros [Ha [[a0' A0] [[a1' A1] [[a2' A2] [a3' A3]]]]] [Hb [[b0' B0] [[b1' B1] [[b2' B2] [b3' B3]]]]].
  pose proof (Ha _ _ B0). pose proof (Ha _ _ B1). pose proof (Ha _ _ B2). pose proof (Ha _ _ B3).
  pose proof (Hb _ _ A0). pose proof (Hb _ _ A1). pose proof (Hb _ _ A2). pose proof (Hb _ _ A3).
  repeat f_equal; lia.
Qed.
Lemma getbbox_spec im :
  match getbbox im with
  | Some b => hull b (shown im)
  | None => forall x y, ~ shown im x y
  end.
Proof.
  unfold getbbox.
  set (l := filter _ _). assert (forall x y, In (x, y) l <-> shown im x y) as L.
  { intros x y. unfold l. rewrite filter_In, in_prod_iff, !zrange_in. unfold shown. cbn. tauto. }
  clearbody l. destruct l as [|p l].
  - intros x y H. apply L in H. destruct H.
  - cbv beta.
    assert (forall l b A, hull b A ->
      hull (fold_left (fun b q => bbox_max b (fst q, snd q, fst q + 1, snd q + 1)%Z) l b)
           (fun x y => A x y \/ In (x, y) l)) as K.
    { clear. induction l as [|q l IH]; intros b A H; cbn [fold_left].
      - eapply hull_ext; [|exact H]. intros; cbn; tauto.
      - assert (hull (fst q, snd q, fst q + 1, snd q + 1)%Z (fun x y => (x, y) = q)) as H1.
        { destruct q as [u v]. cbn [fst snd hull]. repeat split; try (injection H0 as -> ->; lia);
            eexists; f_equal; lia. }
        eapply hull_ext; [|apply IH; apply (hull_max _ _ _ _ H H1)]. intros x y. cbn [In].
        intuition congruence. }
    eapply hull_ext; [|apply (K l _ (fun x y => (x, y) = p))].
    + intros x y. rewrite <- L. cbn [In]. intuition congruence.
    + destruct p as [u v]. cbn [fst snd hull]. repeat split; try (injection H as -> ->; lia);
        eexists; f_equal; lia.
Qed.
(* getbbox as modelled is the smallest box around the pixels that are not zero. *)
Theorem C61_getbbox : forall im,
  (getbbox im = None <-> forall x y, ~ shown im x y) /\
  (forall b, getbbox im = Some b <-> hull b (shown im)).
Proof.
  intros im. pose proof (getbbox_spec im) as H. destruct (getbbox im) as [b|].
  - split.
    + split; [discriminate|]. intros N. destruct b as [[[x0 y0] x1] y1]. destruct H as [_ [[y Y] _]]. elim (N _ _ Y).
    + intros c. split; [intros E; now injection E as <-|]. intros Hc. f_equal. eapply hull_unique; eauto.
  - split; [tauto|]. intros [[[x0 y0] x1] y1]. split; [discriminate|]. intros [_ [[y Y] _]]. elim (H _ _ Y).
Qed.

Lemma max_loop_spec : forall l b A, hull b A ->
  (forall im, In im l -> exists x y, shown im x y) ->
  exists c, max_loop (Some b) l = Ok (Some c) /\ hull c (fun x y => A x y \/ exists im, In im l /\ shown im x y).
Proof.
  induction l as [|im l IH]; intros b A H N; cbn [max_loop].
  - exists b. split; [reflexivity|]. eapply hull_ext; [|exact H]. intros x y. split; [tauto|].
    intros [?|[i [[] _]]]; auto.
  - pose proof (getbbox_spec im) as G. destruct (getbbox im) as [b'|].
    + destruct (IH _ _ (hull_max _ _ _ _ H G)) as [c [E Hc]]; [intros; apply N; now right|].
      exists c. split; [exact E|]. eapply hull_ext; [|exact Hc]. intros x y. cbn beta. split.
      * intros [[?|?]|[i [Hi Si]]]; [auto|right; exists im; split; [now left|auto]|right; exists i; split; [now right|auto]].
      * intros [?|[i [[<-|Hi] Si]]]; eauto.
    + destruct (N im (or_introl eq_refl)) as [x [y Sh]]. elim (G _ _ Sh).
Qed.
Lemma max_loop_none : forall l bb, (bb = None \/ exists im, In im l /\ forall x y, ~ shown im x y) -> l <> [] ->
  max_loop bb l = Raise TypeError.
Proof.
  induction l as [|im l IH]; intros bb H N; [congruence|]. cbn [max_loop].
  destruct bb as [a|]; [|reflexivity]. pose proof (getbbox_spec im) as G. destruct (getbbox im) as [b|]; [|reflexivity].
  destruct H as [H|[i [[<-|Hi] B]]]; [discriminate| |].
  - destruct b as [[[x0 y0] x1] y1]. destruct G as [_ [[y Y] _]]. elim (B _ _ Y).
  - apply IH; [eauto|]. intros ->. destruct Hi.
Qed.
Lemma max_bbox_spec self im l :
  (forall i, In i (im :: l) -> exists x y, shown i x y) ->
  exists c, max_bbox self (im :: l) = Ok (Some c) /\ hull c (fun x y => exists i, In i (im :: l) /\ shown i x y).
Proof.
  intros N. unfold max_bbox. pose proof (getbbox_spec im) as G. destruct (getbbox im) as [b|].
  - destruct (max_loop_spec l b _ G) as [c [E H]]; [intros; apply N; now right|].
    exists c. split; [exact E|]. eapply hull_ext; [|exact H]. intros x y. cbn beta. split.
    + intros [?|[i [Hi Si]]]; [exists im|exists i]; (split; [|assumption]); [now left|now right].
    + intros [i [[<-|Hi] Si]]; eauto.
  - destruct (N im (or_introl eq_refl)) as [x [y Sh]]. elim (G _ _ Sh).
Qed.

(* max_bbox() is about the images given, or about the builder's own if none are given: the
   smallest box around all that is shown on any of them. *)
Theorem C61_max_bbox : forall self images asked, (images <> [] -> asked = images) -> (images = [] -> asked = self) ->
  (asked = [] -> max_bbox self images = Raise IndexError) /\
  (asked <> [] -> (forall i, In i asked -> exists x y, shown i x y) ->
   exists c, max_bbox self images = Ok (Some c) /\ hull c (fun x y => exists i, In i asked /\ shown i x y)).
Proof.
  intros self images asked A B.
  assert (max_bbox self images = max_bbox self asked) as ->.
  { destruct images as [|i l]; [|rewrite A by discriminate; reflexivity]. rewrite (B eq_refl). now destruct self. }
  assert (asked = [] -> self = []) as E.
  { intros ->. destruct images as [|i l]; [symmetry; auto|]. discriminate A. discriminate. }
  split; [intros ->; now rewrite (E eq_refl)|].
  destruct asked as [|i l]; [congruence|]. intros _ N. exact (max_bbox_spec self i l N).
Qed.
Example C61_max_bbox_nontrivial :
  let im := Image 9 9 (fun x y => (x =? 4)%Z && (y =? 5)%Z) in
  (exists x y, shown im x y) /\ max_bbox [im] [] = Ok (Some (4, 5, 5, 6)%Z).
Proof. cbv zeta. split; [exists 4%Z, 5%Z; repeat split; cbn; lia|vm_compute; reflexivity]. Qed.

(* save_animation can crop exactly when there are frames and none of them is blank. *)
Theorem C61_blank : forall images,
  (exists r, autocrop images = Ok r) <-> (images <> [] /\ forall im, In im images -> exists x y, shown im x y).
Proof.
  intros [|im l]; cbn [autocrop]; [split; [intros [r H]; discriminate|tauto]|]. split.
  - intros [r H]. split; [discriminate|]. intros i Hi.
    destruct (getbbox i) as [[[[x0 y0] x1] y1]|] eqn:Gi.
    { pose proof (getbbox_spec i) as Q. rewrite Gi in Q. destruct Q as [_ [[y Y] _]]. eauto. }
    exfalso. pose proof (getbbox_spec i) as Q. rewrite Gi in Q. unfold max_bbox in H. destruct l as [|j l].
    + destruct Hi as [->|[]]. cbn [max_loop] in H. rewrite Gi in H. discriminate.
    + rewrite max_loop_none in H; [discriminate| |discriminate]. destruct Hi as [->|Hi]; [left; exact Gi|right; eauto].
  - intros [_ N]. destruct (max_bbox_spec (im :: l) im l N) as [[[[x0 y0] x1] y1] [E _]]. rewrite E. cbn [bind]. eauto.
Qed.
Theorem C61_blank_refuted : exists im1 im2,
  (exists x y, shown im1 x y) /\ autocrop [im1; im2] = Raise TypeError /\ exists r, autocrop [im1] = Ok r.
Proof.
  exists (Image 2 2 (fun _ _ => true)), (Image 2 2 (fun _ _ => false)). split.
  - exists 0%Z, 0%Z. unfold shown. cbn. repeat split; lia.
  - split; [vm_compute; reflexivity|]. apply C61_blank. split; [discriminate|].
    intros i [<-|[]]. exists 0%Z, 0%Z. unfold shown. cbn. repeat split; lia.
Qed.

(* The box lies inside the image and is not empty; it holds every pixel within 16 of one that
   is shown in any frame; and it is no larger than that. *)
Theorem C61_box : forall w h images x0 y0 x1 y1 frames,
  (forall im, In im images -> sized w h im) ->
  autocrop images = Ok ((x0, y0, x1, y1), frames) ->
  (0 <= x0 < x1 /\ x1 <= w /\ 0 <= y0 < y1 /\ y1 <= h)%Z /\
  (forall im x y x' y', In im images -> shown im x y -> (Z.abs (x' - x) <= 16)%Z -> (Z.abs (y' - y) <= 16)%Z ->
     (0 <= x' < w)%Z -> (0 <= y' < h)%Z -> in_zbox (x0, y0, x1, y1) x' y') /\
  (x0 = 0%Z \/ exists im y, In im images /\ shown im (x0 + 16)%Z y) /\
  (y0 = 0%Z \/ exists im x, In im images /\ shown im x (y0 + 16)%Z) /\
  (x1 = w \/ exists im y, In im images /\ shown im (x1 - 17)%Z y) /\
  (y1 = h \/ exists im x, In im images /\ shown im x (y1 - 17)%Z).
Proof.
  intros w h images x0 y0 x1 y1 frames Hs H.
  destruct (proj1 (C61_blank images) (ex_intro _ _ H)) as [Ne N]. destruct images as [|im l]; [congruence|].
  cbn [autocrop] in H. destruct (max_bbox_spec (im :: l) im l N) as [[[[a b] c] d] [E [HA [[ya A] [[xb B] [[yc C] [xd D]]]]]]].
  rewrite E in H. cbn [bind] in H. destruct (Hs im (or_introl eq_refl)) as [Ew Eh]. rewrite Ew, Eh in H.
  injection H as <- <- <- <- _.
  assert (forall i x y, In i (im :: l) -> shown i x y -> (0 <= x < w /\ 0 <= y < h)%Z) as In_.
  { intros i x y Hi [X [Y _]]. destruct (Hs i Hi) as [-> ->] || (destruct (Hs i Hi) as [Q1 Q2]; rewrite Q1 in X; rewrite Q2 in Y); auto. }
  destruct A as [ia [Ia A]], B as [ib [Ib B]], C as [ic [Ic C]], D as [id_ [Id D]].
  pose proof (In_ _ _ _ Ia A). pose proof (In_ _ _ _ Ib B). pose proof (In_ _ _ _ Ic C). pose proof (In_ _ _ _ Id D).
  pose proof (HA _ _ (ex_intro _ ia (conj Ia A))). pose proof (HA _ _ (ex_intro _ ib (conj Ib B))).
  split; [lia|]. split.
  { intros i x y x' y' Hi Sh. pose proof (HA x y (ex_intro _ i (conj Hi Sh))). unfold in_zbox. lia. }
  split; [destruct (Z_le_gt_dec (a - 16) 0); [left; lia|right; exists ia, ya; split; [exact Ia|];
          replace (Z.max 0 (a - 16) + 16)%Z with a by lia; exact A]|].
  split; [destruct (Z_le_gt_dec (b - 16) 0); [left; lia|right; exists ib, xb; split; [exact Ib|];
          replace (Z.max 0 (b - 16) + 16)%Z with b by lia; exact B]|].
  split; [destruct (Z_le_gt_dec w (c + 16)); [left; lia|right; exists ic, yc; split; [exact Ic|];
          replace (Z.min w (c + 16) - 17)%Z with (c - 1)%Z by lia; exact C]|].
  destruct (Z_le_gt_dec h (d + 16)); [left; lia|right; exists id_, xd; split; [exact Id|];
          replace (Z.min h (d + 16) - 17)%Z with (d - 1)%Z by lia; exact D].
Qed.
(* Every frame is cut to the same size and shows what it showed, moved by the corner of the
   box; no pixel is lost. *)
Theorem C61_frames : forall w h images x0 y0 x1 y1 frames,
  (forall im, In im images -> sized w h im) ->
  autocrop images = Ok ((x0, y0, x1, y1), frames) ->
  Forall2 (fun im im' => sized (x1 - x0) (y1 - y0) im' /\
             forall x y, shown im x y <-> shown im' (x - x0)%Z (y - y0)%Z) images frames.
Proof.
  intros w h images x0 y0 x1 y1 frames Hs H.
  destruct (C61_box _ _ _ _ _ _ _ _ Hs H) as [B [K _]].
  assert (frames = map (crop (x0, y0, x1, y1)) images) as ->.
  { destruct images as [|im l]; [discriminate|]. cbn [autocrop] in H.
    destruct (max_bbox _ _) as [[[[[a b] c] d]|]|]; cbn [bind] in H; try discriminate.
    injection H as <- <- <- <- <-. reflexivity. }
  assert (forall l, incl l images -> Forall2 (fun im im' => sized (x1 - x0) (y1 - y0) im' /\
             forall x y, shown im x y <-> shown im' (x - x0)%Z (y - y0)%Z) l (map (crop (x0, y0, x1, y1)) l)) as Q.
  2: { apply Q. apply incl_refl. }
  induction l as [|im l IH]; intros I0; cbn [map]; constructor.
  - split; [split; reflexivity|]. intros x y. unfold crop, shown at 2. cbn [i_w i_h i_on].
    rewrite lit_shown. replace (x - x0 + x0)%Z with x by lia. replace (y - y0 + y0)%Z with y by lia.
    split; [|tauto]. intros Sh. assert (In im images) as Hi by (apply I0; now left).
    destruct (Hs _ Hi) as [Ew Eh]. pose proof Sh as [X [Y _]]. rewrite Ew in X. rewrite Eh in Y.
    destruct (K im x y x y Hi Sh) as [? ?]; try lia. split; [lia|]. split; [lia|]. exact Sh.
  - apply IH. intros z Hz. apply I0. now right.
Qed.
(* The order of the frames does not matter. *)
Theorem C61_order : forall w h images images' b frames, Permutation images images' ->
  (forall im, In im images -> sized w h im) ->
  autocrop images = Ok (b, frames) -> exists frames', autocrop images' = Ok (b, frames').
Proof.
  intros w h images images' b frames Hp Hs H.
  destruct (proj1 (C61_blank images) (ex_intro _ _ H)) as [Ne N].
  destruct images as [|im l]; [congruence|]. destruct images' as [|im' l'].
  { apply Permutation_sym, Permutation_nil in Hp. discriminate. }
  assert (forall i, In i (im' :: l') -> In i (im :: l)) as S1 by (intros i; apply Permutation_in; now apply Permutation_sym).
  assert (forall i, In i (im :: l) -> In i (im' :: l')) as S2 by (intros i; now apply Permutation_in).
  cbn [autocrop] in *. destruct (max_bbox_spec (im :: l) im l N) as [c [E Hc]].
  destruct (max_bbox_spec (im' :: l') im' l' (fun i Hi => N i (S1 i Hi))) as [c' [E' Hc']].
  assert (c' = c) as ->.
  { eapply hull_unique; [exact Hc'|]. eapply hull_ext; [|exact Hc]. intros x y. split; intros [i [Hi Si]]; eauto. }
  destruct (Hs im (or_introl eq_refl)) as [Ew Eh]. destruct (Hs im' (S1 im' (or_introl eq_refl))) as [Ew' Eh'].
  rewrite E in H. rewrite E', Ew', Eh'. rewrite Ew, Eh in H. cbn [bind] in *. destruct c as [[[x0 y0] x1] y1].
  injection H as <- _. eauto.
Qed.
Ltac pairs := f_equal; [f_equal; [f_equal|]|]; lia.
(* bbox_max does not depend on the order either. *)
Theorem C61_bbox_max : forall a b c,
  bbox_max a b = bbox_max b a /\ bbox_max a (bbox_max b c) = bbox_max (bbox_max a b) c /\ bbox_max a a = a /\
  forall x y, in_zbox a x y -> in_zbox (bbox_max a b) x y.
Proof.
  intros [[[a0 a1] a2] a3] [[[b0 b1] b2] b3] [[[c0 c1] c2] c3]. unfold bbox_max, in_zbox.
  split; [pairs|]. split; [pairs|]. split; [pairs|]. intros x y. lia.
Qed.

(* int(x) drops the fraction *)
Lemma pyint_R x : (0 <= x -> IZR (pyint x) <= x < IZR (pyint x) + 1 /\ (0 <= pyint x)%Z) /\
                  (x < 0 -> IZR (pyint x) - 1 < x <= IZR (pyint x) /\ (pyint x <= 0)%Z).
Proof.
  unfold pyint. change (x <? #0)%num with (Rltb x 0). change (@nfloor R _) with Int_part. split; intros H.
  - replace (Rltb x 0) with false by (symmetry; apply Rltb_ge; lra).
    destruct (base_Int_part x) as [A B]. split; [lra|]. apply le_IZR, Rnot_lt_le. intros C.
    assert (Int_part x < 0)%Z as D by (now apply lt_IZR). assert (Int_part x <= -1)%Z as E by lia.
    apply IZR_le in E. lra.
  - replace (Rltb x 0) with true by (symmetry; apply Rltb_lt; lra). change (- x)%num with (- x).
    destruct (base_Int_part (- x)) as [A B]. rewrite opp_IZR. split; [lra|].
    assert (0 <= Int_part (- x))%Z; [|lia]. apply le_IZR, Rnot_lt_le. intros C.
    assert (Int_part (- x) <= -1)%Z as E by (apply lt_IZR in C; lia). apply IZR_le in E. lra.
Qed.
Theorem C61_crop_to_pixels : forall (m : transform R) c0 c1 c2 c3 x0 y0 x1 y1,
  crop_to_pixels m c0 c1 c2 c3 = (x0, y0, x1, y1) ->
  (x0 <= x1 /\ y0 <= y1)%Z /\
  crop_to_pixels m c2 c3 c0 c1 = (x0, y0, x1, y1) /\
  (let p := t_transform m (P c0 c1) in let q := t_transform m (P c2 c3) in
   Rabs (IZR x0 - Rmin (px p) (px q)) < 1 /\ Rabs (IZR x1 - Rmax (px p) (px q)) < 1 /\
   Rabs (IZR y0 - Rmin (py p) (py q)) < 1 /\ Rabs (IZR y1 - Rmax (py p) (py q)) < 1).
Proof.
  intros m c0 c1 c2 c3 x0 y0 x1 y1 H. unfold crop_to_pixels in *. cbv zeta in *.
  set (p := t_transform m (P c0 c1)) in *. set (q := t_transform m (P c2 c3)) in *. clearbody p q. injection H as <- <- <- <-.
  split; [lia|]. split; [pairs|].
  assert (forall a, Rabs (IZR (pyint a) - a) < 1) as K.
  { intros a. destruct (pyint_R a) as [A B]. apply Rabs_def1; destruct (Rle_lt_dec 0 a) as [C|C];
      [destruct (A C)|destruct (B C)|destruct (A C)|destruct (B C)]; lra. }
  assert (forall a b, a <= b -> (pyint a <= pyint b)%Z) as Mo.
  { intros a b Hab. destruct (pyint_R a) as [A1 A2], (pyint_R b) as [B1 B2].
    destruct (Rle_lt_dec 0 a) as [C|C].
    - destruct (A1 C), (B1 ltac:(lra)). assert (pyint a < pyint b + 1)%Z; [|lia]. apply lt_IZR. rewrite plus_IZR. lra.
    - destruct (A2 C). destruct (Rle_lt_dec 0 b) as [E|E].
      + destruct (B1 E). lia.
      + destruct (B2 E). assert (pyint a < pyint b + 1)%Z; [|lia]. apply lt_IZR. rewrite plus_IZR. lra. }
  assert (forall a b, Rabs (IZR (Z.min (pyint a) (pyint b)) - Rmin a b) < 1 /\
                      Rabs (IZR (Z.max (pyint a) (pyint b)) - Rmax a b) < 1) as Q.
  { intros a b. destruct (Rle_dec a b) as [C|C].
    - rewrite Rmin_left, Rmax_right, Z.min_l, Z.max_r by auto. auto.
    - apply Rnot_le_lt, Rlt_le in C. rewrite Rmin_right, Rmax_left, Z.min_r, Z.max_l by auto. auto. }
  destruct (Q (px p) (px q)), (Q (py p) (py q)). auto.
Qed.
(* All frames together last no longer than asked, and less than one millisecond per frame short. *)
Theorem C61_duration : forall duration n, 0 <= duration -> (0 < n)%nat ->
  exists ms, ms_per_frame duration n = Ok ms /\ (0 <= ms)%Z /\
    INR n * IZR ms <= 1000 * duration < INR n * (IZR ms + 1).
Proof.
  intros duration n Hd Hn. unfold ms_per_frame. assert (0 < INR n) by (now apply lt_0_INR).
  change (nofZ (Z.of_nat n)) with (IZR (Z.of_nat n)). rewrite <- INR_IZR_INZ, pydiv_R by lra. cbn [bind].
  change (#1000 * duration)%num with (1000 * duration).
  eexists. split; [reflexivity|]. set (d := 1000 * duration / INR n).
  assert (0 <= d) by (apply div_nonneg; lra).
  assert (1000 * duration = INR n * d) as E by (unfold d; field; lra).
  destruct (pyint_R d) as [A _]. destruct (A ltac:(assumption)) as [B C]. split; [exact C|]. rewrite E.
  clearbody d. nra.
Qed.
Example C61_nontrivial :
  let im1 := Image 100 50 (fun x y => (x =? 40)%Z && (y =? 45)%Z) in
  let im2 := Image 100 50 (fun x y => (x =? 60)%Z && (y =? 30)%Z) in
  (forall im, In im [im1; im2] -> sized 100 50 im) /\
  exists frames, autocrop [im1; im2] = Ok ((24, 14, 77, 50)%Z, frames).
Proof.
  cbv zeta. split; [intros im [<-|[<-|[]]]; split; reflexivity|]. eexists.
  unfold autocrop, max_bbox, max_loop.
  replace (getbbox (Image 100 50 (fun x y => (x =? 40)%Z && (y =? 45)%Z))) with (Some (40, 45, 41, 46)%Z) by (vm_compute; reflexivity).
  replace (getbbox (Image 100 50 (fun x y => (x =? 60)%Z && (y =? 30)%Z))) with (Some (60, 30, 61, 31)%Z) by (vm_compute; reflexivity).
  reflexivity.
Qed.
