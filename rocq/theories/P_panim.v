(* C55: animations of points. *)
From Coq Require Import Reals List Lra Lia.
Require Import Verif.Base Verif.NumR Verif.L_real Verif.L_vector Verif.M_vector Verif.M_points Verif.S_points Verif.L_points Verif.P_points.
Require Import Verif.M_anim Verif.S_anim.
Import ListNotations.
Local Open Scope list_scope.

Section Agree.
  Context {F : Type} {NF : Num F} {TF : NumTrig F}.
  Implicit Types (st : pstore F) (l : list (anim F)).

  (* the stores differ at most in where the plain points in [D] are *)
  Definition agree (D : nat -> Prop) st st1 : Prop :=
    List.length st = List.length st1 /\
    forall i, nth_error st i = nth_error st1 i \/
      (D i /\ exists x y x' y' n, nth_error st i = Some (NPoint x y n) /\ nth_error st1 i = Some (NPoint x' y' n)).
  Lemma agree_refl D st : agree D st st.
  Proof. split; auto. Qed.
  Lemma agree_sym D st st1 : agree D st st1 -> agree D st1 st.
  Proof.
    intros [L H]. split; auto. intros i. destruct (H i) as [E|(d & x & y & x' & y' & n & E & E')]; auto.
    right. split; auto. exists x', y', x, y, n. auto.
  Qed.
  Lemma agree_trans D a b c : agree D a b -> agree D b c -> agree D a c.
  Proof.
    intros [L1 H1] [L2 H2]. split; [congruence|]. intros i.
    destruct (H1 i) as [E|(d & x & y & x' & y' & n & E & E')], (H2 i) as [G|(d2 & u & v & u' & v' & m & G & G')].
    - left. congruence.
    - right. split; auto. exists u, v, u', v', m. split; congruence.
    - right. split; auto. exists x, y, x', y', n. split; congruence.
    - right. split; auto. rewrite E' in G. injection G as <- <- <-. exists x, y, u', v', n. auto.
  Qed.
  Lemma agree_weaken (D D' : nat -> Prop) st st1 : (forall i, D i -> D' i) -> agree D st st1 -> agree D' st st1.
  Proof. intros W [L H]. split; auto. intros i. destruct (H i) as [E|[d X]]; auto. Qed.
  Lemma agree_none (D : nat -> Prop) st st1 : (forall i, ~ D i) -> agree D st st1 -> st = st1.
  Proof.
    intros N [L H]. assert (E : forall i, nth_error st i = nth_error st1 i).
    { intros i. destruct (H i) as [E|[d _]]; auto. destruct (N i d). }
    clear H. revert st1 L E. induction st as [|d st IH]; intros [|e st1] L E; try discriminate; auto.
    f_equal; [specialize (E 0%nat); injection E; auto|]. apply IH; [now injection L|]. intros i. exact (E (S i)).
  Qed.
  Lemma agree_upd (D : nat -> Prop) st p x y x' y' n : D p -> nth_error st p = Some (NPoint x y n) ->
    agree D st (upd st p (NPoint x' y' n)).
  Proof.
    intros Dp E. pose proof (nth_lt _ _ _ E) as L. split; [now rewrite upd_length|].
    intros i. rewrite nth_upd by auto. destruct (Nat.eqb_spec i p) as [->|N]; auto.
    right. split; auto. exists x, y, x', y', n. auto.
  Qed.
  Lemma agree_point D st st1 p x y n : agree D st st1 -> nth_error st p = Some (NPoint x y n) ->
    exists x' y', nth_error st1 p = Some (NPoint x' y' n).
  Proof.
    intros [_ H] E. destruct (H p) as [G|(_ & a & b & x' & y' & m & G & G')].
    - exists x, y. congruence.
    - rewrite E in G. injection G as <- <- <-. eauto.
  Qed.
  Lemma agree_node D st st1 i d : agree D st st1 -> nth_error st i = Some d -> (forall x y n, d <> NPoint x y n) ->
    nth_error st1 i = Some d.
  Proof.
    intros [_ H] E N. destruct (H i) as [G|(_ & a & b & x' & y' & m & G & G')]; [congruence|].
    rewrite E in G. injection G as ->. destruct (N a b m eq_refl).
  Qed.
  Lemma agree_rests D st st1 i k : agree D st st1 -> rests st i k -> rests st1 i k.
  Proof.
    intros A H. induction H.
    - destruct (agree_point _ _ _ _ _ _ _ A H) as (x' & y' & E). econstructor; eauto.
    - eapply rest_rel; eauto. eapply agree_node; eauto; discriminate.
    - eapply rest_calc; eauto; eapply agree_node; eauto; discriminate.
  Qed.
  Lemma agree_located (D : nat -> Prop) st st1 i p : agree D st st1 -> (forall k, D k -> ~ rests st i k) ->
    located st i p -> located st1 i p.
  Proof.
    intros A N H. induction H.
    - destruct A as [_ A]. destruct (A i) as [E|(d & _)]; [econstructor; rewrite <- E; eauto|].
      destruct (N i d). econstructor; eauto.
    - assert (N' : forall k, D k -> ~ rests st b k) by (intros k d R; apply (N k d); eapply rest_rel; eauto).
      specialize (IHlocated N'). eapply loc_rel; eauto. eapply agree_node; eauto; discriminate.
    - assert (N' : forall k, D k -> ~ rests st bb k) by (intros k d R; apply (N k d); eapply rest_calc; eauto).
      specialize (IHlocated N'). eapply loc_calc; eauto; eapply agree_node; eauto; discriminate.
  Qed.
  Lemma agree_calc D st st1 i : agree D st st1 -> calc_on_calc st i -> calc_on_calc st1 i.
  Proof.
    intros A H. induction H.
    - eapply cc_here; eapply agree_node; eauto; discriminate.
    - eapply cc_rel; eauto. eapply agree_node; eauto; discriminate.
    - eapply cc_calc; eauto; eapply agree_node; eauto; discriminate.
  Qed.
  Lemma agree_pos (D : nat -> Prop) st st1 i : wf st -> wf st1 -> agree D st st1 ->
    (forall k, D k -> ~ rests st i k) -> pos st1 i = pos st i.
  Proof.
    intros W W1 A N. destruct (Nat.lt_ge_cases i (List.length st)) as [L|L].
    - destruct (pos_fails st W i L) as [[p E]|[E C]]; rewrite E.
      + apply pos_located; auto. eapply agree_located; eauto. now apply pos_located.
      + destruct A as [EL H]. destruct (pos_fails st1 W1 i) as [[p E']|[E' _]]; [lia| |exact E'].
        exfalso. eapply (calc_on_calc_fails st1); eauto. eapply agree_calc; eauto. split; eauto.
    - rewrite !pos_eq by auto. destruct A as [EL _].
      assert (E : nth_error st i = None) by (apply nth_error_None; lia). rewrite E.
      assert (E1 : nth_error st1 i = None) by (apply nth_error_None; lia). rewrite E1. reflexivity.
  Qed.

  (* the coordinates an update is about to set *)
  Definition a_goal (a : anim F) (t : tval F) st : res (F * F) :=
    match a with
    | AGeneric o p f => let* q := pos st p in f t o q
    | ALinear o p target =>
        let* q := pos st target in
        match t with
        | THide => Raise TypeError
        | TNum a => Ok ((#1 - a) * px o + a * px q, (#1 - a) * py o + a * py q)%num
        | TPair a b => Ok ((#1 - a) * px o + a * px q, (#1 - b) * py o + b * py q)%num
        end
    | ALinearFunc o p target f =>
        let* t := f t in
        let* q := pos st target in
        match t with
        | THide => Raise TypeError
        | TNum a => Ok ((#1 - a) * px o + a * px q, (#1 - a) * py o + a * py q)%num
        | TPair a b => Ok ((#1 - a) * px o + a * px q, (#1 - b) * py o + b * py q)%num
        end
    | ASinusoidal o p target frequency offset =>
        match t with
        | TNum t =>
            let t := ((#1 - ncos (t * tau * frequency + offset * tau / #360)) * half)%num in
            let* q := pos st target in
            Ok ((#1 - t) * px o + t * px q, (#1 - t) * py o + t * py q)%num
        | _ => Raise TypeError
        end
    | ACircular o p radius frequency offset =>
        match t with
        | TNum t => let theta := (t * tau * frequency + offset)%num in
                    Ok (px o + radius * nsin theta, py o + radius * ncos theta)%num
        | _ => Raise TypeError
        end
    end.
  Lemma update_goal a t st :
    a_update a t st = match a_goal a t st with Ok q => move st (a_point a) q | Raise e => (st, Raise e) end.
  Proof.
    destruct a as [o p f|o p q|o p q f|o p q w s|o p r w s]; cbn [a_update a_goal a_point].
    - destruct (pos st p) as [x|]; cbn [bind]; [|reflexivity]. destruct (f t o x); reflexivity.
    - unfold linear_update. destruct (pos st q) as [x|]; cbn [bind]; [|reflexivity]. destruct t; reflexivity.
    - destruct (f t) as [t'|]; cbn [bind]; [|reflexivity]. unfold linear_update.
      destruct (pos st q) as [x|]; cbn [bind]; [|reflexivity]. destruct t'; reflexivity.
    - destruct t; try reflexivity. destruct (pos st q); reflexivity.
    - destruct t; reflexivity.
  Qed.
  Lemma move_point st p q x y n : nth_error st p = Some (NPoint x y n) ->
    move st p q = (upd st p (NPoint (fst q) (snd q) n), Ok tt).
  Proof. intros E. unfold move. cbn [pstep]. rewrite E. reflexivity. Qed.

  Lemma goal_agree (D : nat -> Prop) a t st st1 : wf st -> wf st1 -> agree D st st1 ->
    (exists x y n, nth_error st (a_point a) = Some (NPoint x y n)) -> steady a ->
    (forall q k, a_target a = Some q -> D k -> ~ rests st q k) ->
    a_goal a t st1 = a_goal a t st.
  Proof.
    intros W W1 A (x & y & n & E) S N.
    assert (G : forall q, a_target a = Some q -> pos st1 q = pos st q) by (intros; eapply agree_pos; eauto).
    destruct a as [o p f|o p q|o p q f|o p q w s|o p r w s]; cbn [a_goal a_target steady a_point] in *;
      rewrite ?(G _ eq_refl); try reflexivity.
    destruct (agree_point _ _ _ _ _ _ _ A E) as (x' & y' & E').
    rewrite !pos_eq by auto. rewrite E, E'. cbn [bind]. apply S.
  Qed.

  (* one update keeps the rest *)
  Lemma update_agree a t st st' r : (exists x y n, nth_error st (a_point a) = Some (NPoint x y n)) ->
    a_update a t st = (st', r) -> agree (fun i => i = a_point a) st st'.
  Proof.
    intros (x & y & n & E) H. rewrite update_goal in H. destruct (a_goal a t st) as [q|].
    - rewrite (move_point _ _ _ _ _ _ E) in H. injection H as <- _. eapply agree_upd; eauto.
    - injection H as <- _. apply agree_refl.
  Qed.
  Lemma update_wf a t st st' r : wf st -> a_update a t st = (st', r) -> wf st'.
  Proof.
    intros W H. rewrite update_goal in H. destruct (a_goal a t st) as [q|]; [|injection H as <- _; exact W].
    unfold move in H. pose proof (pstep_wf st (PSetxy (a_point a) (fst q) (snd q)) W) as W'.
    destruct (pstep st _) as [s r']. injection H as <- _. exact W'.
  Qed.
  Definition plain_points st l := forall a, In a l -> exists x y n, nth_error st (a_point a) = Some (NPoint x y n).
  Lemma plain_agree D st st1 l : agree D st st1 -> plain_points st l -> plain_points st1 l.
  Proof.
    intros A H a I. destruct (H a I) as (x & y & n & E). destruct (agree_point _ _ _ _ _ _ _ A E) as (x' & y' & E'). eauto.
  Qed.
  Lemma h_update_agree l t : forall st st' r, plain_points st l -> h_update l t st = (st', r) ->
    agree (fun i => In i (map a_point l)) st st'.
  Proof.
    induction l as [|a l IH]; intros st st' r Pl H; cbn [h_update] in H.
    - injection H as <- _. apply agree_refl.
    - destruct (a_update a t st) as [s1 r1] eqn:E.
      assert (A : agree (fun i => In i (map a_point (a :: l))) st s1).
      { eapply agree_weaken; [|eapply update_agree; [apply Pl; now left|exact E]]. intros i ->. now left. }
      destruct r1 as [u|e]; [|injection H as <- _; exact A].
      eapply agree_trans; [exact A|]. eapply agree_weaken; [intros i X; right; exact X|].
      apply IH with r; [|exact H]. apply (plain_agree _ _ _ _ A). intros b I. apply Pl. now right.
  Qed.
  Lemma h_update_wf l t : forall st st' r, wf st -> h_update l t st = (st', r) -> wf st'.
  Proof.
    induction l as [|a l IH]; intros st st' r W H; cbn [h_update] in H; [injection H as <- _; exact W|].
    destruct (a_update a t st) as [s1 r1] eqn:E. pose proof (update_wf _ _ _ _ _ W E).
    destruct r1; [eauto|injection H as <- _; auto].
  Qed.
  Lemma h_run_agree l ts : forall st st' r, plain_points st l -> h_run l ts st = (st', r) ->
    agree (fun i => In i (map a_point l)) st st'.
  Proof.
    induction ts as [|t ts IH]; intros st st' r Pl H; cbn [h_run] in H.
    - injection H as <- _. apply agree_refl.
    - destruct (h_update l t st) as [s1 r1] eqn:E. pose proof (h_update_agree _ _ _ _ _ Pl E) as A.
      destruct r1; [|injection H as <- _; exact A]. eapply agree_trans; [exact A|]. eapply IH; eauto. eapply plain_agree; eauto.
  Qed.
  Lemma h_run_wf l ts : forall st st' r, wf st -> h_run l ts st = (st', r) -> wf st'.
  Proof.
    induction ts as [|t ts IH]; intros st st' r W H; cbn [h_run] in H; [injection H as <- _; exact W|].
    destruct (h_update l t st) as [s1 r1] eqn:E. pose proof (h_update_wf _ _ _ _ _ W E). destruct r1; [eauto|injection H as <- _; auto].
  Qed.

  (* two stores that differ only in animated points are the same after a successful update *)
  Lemma h_update_same l : forall (D0 D : nat -> Prop) t st0 st st1 st',
    wf st0 -> wf st -> wf st1 -> plain_points st l ->
    agree D0 st0 st -> agree D st st1 -> (forall i, D i -> D0 i) ->
    (forall a, In a l -> D0 (a_point a) /\ steady a /\ forall q k, a_target a = Some q -> D0 k -> ~ rests st0 q k) ->
    h_update l t st = (st', Ok tt) ->
    exists st1', h_update l t st1 = (st1', Ok tt) /\ agree (fun i => D i /\ ~ In i (map a_point l)) st' st1'.
  Proof.
    induction l as [|a l IH]; intros D0 D t st0 st st1 st' W0 W W1 Pl A0 A Sub HL H; cbn [h_update] in *.
    - injection H as <-. exists st1. split; [reflexivity|]. eapply agree_weaken; [|exact A]. intros i d. split; auto.
    - destruct (HL a (or_introl eq_refl)) as (Da & Sa & Ta).
      assert (G : a_goal a t st1 = a_goal a t st).
      { apply (goal_agree D); auto; [apply Pl; now left|]. intros q k Q Dk R. apply (Ta q k Q (Sub _ Dk)).
        eapply agree_rests; [apply agree_sym; exact A0|exact R]. }
      destruct (a_update a t st) as [s r] eqn:E. destruct (a_update a t st1) as [s1 r1] eqn:E1.
      pose proof (update_wf _ _ _ _ _ W E) as Ws. pose proof (update_wf _ _ _ _ _ W1 E1) as Ws1.
      destruct r as [[]|e]; [|discriminate].
      assert (As : agree D0 st s).
      { eapply agree_weaken; [|eapply update_agree; [apply Pl; now left|exact E]]. intros i ->. exact Da. }
      assert (Key : r1 = Ok tt /\ agree (fun i => D i /\ i <> a_point a) s s1).
      { rewrite update_goal in E, E1. rewrite G in E1. destruct (a_goal a t st) as [q|e]; [|discriminate].
        destruct (Pl a (or_introl eq_refl)) as (x & y & n & N). destruct (agree_point _ _ _ _ _ _ _ A N) as (x' & y' & N').
        rewrite (move_point _ _ _ _ _ _ N) in E. rewrite (move_point _ _ _ _ _ _ N') in E1.
        injection E as <-. injection E1 as <- <-. split; [reflexivity|].
        pose proof (nth_lt _ _ _ N) as L. pose proof (nth_lt _ _ _ N') as L'. destruct A as [AL AN].
        split; [rewrite !upd_length by auto; exact AL|]. intros i. rewrite !nth_upd by auto.
        destruct (Nat.eqb_spec i (a_point a)) as [->|Ni]; auto. destruct (AN i) as [Q|(d & Q)]; auto. }
      destruct Key as [-> As1].
      destruct (IH D0 (fun i => D i /\ i <> a_point a) t st0 s s1 st') as (st1' & H1 & A1); auto.
      + apply (plain_agree _ _ _ _ As). intros b I. apply Pl. now right.
      + eapply agree_trans; eauto.
      + intros i [d _]. auto.
      + intros b I. apply HL. now right.
      + exists st1'. split; [exact H1|]. eapply agree_weaken; [|exact A1].
        intros i [[d n] I]. split; [exact d|]. cbn. intros [<-|X]; auto.
  Qed.

  (* Whatever updates were made before, whether they succeeded or not, an update that works on
     the untouched points leaves every point where it would be without them. *)
  Theorem C55_last_time : forall st l (ts : list (tval F)) (t : tval F) st1 r st',
    reachable st -> independent st l ->
    h_run l ts st = (st1, r) -> h_update l t st = (st', Ok tt) ->
    h_update l t st1 = (st', Ok tt).
  Proof.
    intros st l ts t st1 r st' R I H E. pose proof (reachable_wf _ R) as W.
    assert (Pl : plain_points st l) by (intros a Ia; apply (I a Ia)).
    pose proof (h_run_agree _ _ _ _ _ Pl H) as A. pose proof (h_run_wf _ _ _ _ _ W H) as W1.
    destruct (h_update_same l (fun i => In i (map a_point l)) (fun i => In i (map a_point l)) t st st st1 st')
      as (st1' & E1 & A1); auto.
    - apply agree_refl.
    - intros a Ia. destruct (I a Ia) as (_ & S & T). split; [now apply in_map|]. split; [exact S|].
      intros q k Q Ik. apply in_map_iff in Ik as (b & <- & Ib). now apply T.
    - rewrite E1. f_equal. symmetry. eapply agree_none; [|exact A1]. intros i [X Y]. auto.
  Qed.
  (* Points that do not hang on an animated point never move. *)
  Theorem C55_others : forall st l (ts : list (tval F)) st1 r i,
    reachable st -> independent st l -> h_run l ts st = (st1, r) ->
    (forall a, In a l -> ~ rests st i (a_point a)) -> pos st1 i = pos st i.
  Proof.
    intros st l ts st1 r i R I H N. pose proof (reachable_wf _ R) as W.
    assert (Pl : plain_points st l) by (intros a Ia; apply (I a Ia)).
    eapply agree_pos; eauto.
    - eapply h_run_wf; eauto.
    - eapply h_run_agree; eauto.
    - intros k Ik. apply in_map_iff in Ik as (b & <- & Ib). auto.
  Qed.
  (* Only plain points can be animated, and the position at that moment is remembered. *)
  Theorem C55_constructor : forall st (i : nat) (f : pt F -> anim F) (d : pnode F), nth_error st i = Some d ->
    match d with
    | NPoint x y _ => mk_anim st i f = Ok (f (P x y))
    | _ => mk_anim st i f = Raise ValueError
    end.
  Proof. intros st i f d E. unfold mk_anim. rewrite E. destruct d; reflexivity. Qed.
End Agree.

(* ---------------- where the points are ---------------- *)

Local Open Scope R_scope.
Implicit Types (st : pstore R).

Lemma mix_part_way (s : R) (o q : pt R) :
  P ((1 - s) * px o + s * px q) ((1 - s) * py o + s * py q) = part_way s o q.
Proof. unfold part_way. f_equal; ring. Qed.
Lemma goal_shows a t st : wf st -> (exists x y n, nth_error st (a_point a) = Some (NPoint x y n)) -> steady a ->
  forall x y, a_goal a t st = Ok (x, y) <-> shows st a t (P x y).
Proof.
  intros W (x0 & y0 & n & N) S x y.
  assert (Lin : forall o p target t, 
     (let* q := pos st target in
        match t with
        | THide => Raise TypeError
        | TNum a => Ok ((#1 - a) * px o + a * px q, (#1 - a) * py o + a * py q)%num
        | TPair a b => Ok ((#1 - a) * px o + a * px q, (#1 - b) * py o + b * py q)%num
        end) = Ok (x, y) <-> shows st (ALinear o p target) t (P x y)).
  { intros o p target u. split.
    - destruct (pos st target) as [q|] eqn:E; cbn [bind]; [|discriminate]. apply pos_located in E; auto.
      destruct u as [b|b c|]; [| |discriminate]; intros Q; injection Q as <- <-; cbn [nadd nsub nmul nofZ NumR].
      + rewrite mix_part_way. now constructor.
      + replace (P _ _) with (P (px (part_way b o q)) (py (part_way c o q))); [now constructor|].
        unfold part_way. cbn. f_equal; ring.
    - intros H. inversion H as [|? ? ? b q L|? ? ? b c q L| | |]; subst; apply pos_located in L; auto; rewrite L; cbn [bind];
        unfold part_way; cbn [px py nadd nsub nmul nofZ NumR]; do 2 f_equal; ring. }
  destruct a as [o p f|o p q|o p q f|o p q w s|o p r w s]; cbn [a_goal steady a_point] in *.
  - rewrite pos_eq, N by auto. cbn [bind]. split.
    + intros E. constructor. intros now. rewrite <- E. apply S.
    + intros H. inversion H; subst. auto.
  - apply Lin.
  - split.
    + destruct (f t) as [t'|] eqn:E; cbn [bind]; [|discriminate]. intros H. econstructor; eauto. now apply (Lin o p q t').
    + intros H. inversion H as [| | |? ? ? ? ? t' ? E L| |]; subst. rewrite E. cbn [bind]. now apply (Lin o p q t').
  - assert (Ph : forall u : R, ((#1 - ncos (u * tau * w + s * tau / #360)) * half)%num = (1 - cos (2 * PI * (w * u + s / 360))) / 2).
    { intros u. unfold half, tau. cbn [nadd nsub nmul ndiv nofZ npi ncos NumR TrigR].
      replace (u * (2 * PI) * w + s * (2 * PI) / 360) with (2 * PI * (w * u + s / 360)) by field. field. }
    split.
    + destruct t as [u|u v|]; try discriminate. destruct (pos st q) as [z|] eqn:E; cbn [bind]; [|discriminate].
      apply pos_located in E; auto. rewrite Ph. intros Q. injection Q as <- <-. cbn [nadd nsub nmul nofZ NumR].
      rewrite mix_part_way. now constructor.
    + intros H. inversion H as [| | | |? ? ? ? ? u z L|]; subst. apply pos_located in L; auto. rewrite L. cbn [bind].
      rewrite Ph. cbn [nadd nsub nmul nofZ NumR]. unfold part_way. cbn [px py]. do 2 f_equal; ring.
  - assert (Ph : forall u : R, (u * tau * w + s)%num = 2 * PI * w * u + s).
    { intros u. unfold tau. cbn [nadd nmul nofZ npi NumR TrigR]. ring. }
    split.
    + destruct t as [u|u v|]; try discriminate. rewrite Ph. intros Q. injection Q as <- <-. constructor.
    + intros H. inversion H; subst. rewrite Ph. reflexivity.
Qed.
Lemma shows_agree D st st1 a t p : agree D st st1 -> (forall q k, a_target a = Some q -> D k -> ~ rests st q k) ->
  shows st a t p -> shows st1 a t p.
Proof.
  intros A N H. assert (L : forall o p target t r, (forall k, D k -> ~ rests st target k) ->
    shows st (ALinear o p target) t r -> shows st1 (ALinear o p target) t r).
  { intros o p' q u r Nq Hl. inversion Hl; subst; constructor; eapply agree_located; eauto. }
  destruct H; try (constructor; eapply agree_located; eauto; intros; eapply N; eauto; reflexivity).
  - now constructor.
  - econstructor; [eassumption|]. apply L; auto.
Qed.

(* After an update each animated point is where its animation shows it at that time; and the
   update works when each animation has something to show.  The points are those just before
   the update; the history before it is arbitrary. *)
Lemma h_update_positions : forall l (D : nat -> Prop) t st0 st,
  wf st0 -> wf st -> plain_points st l -> agree D st0 st -> NoDup (map a_point l) ->
  (forall a, In a l -> D (a_point a) /\ steady a /\ forall q k, a_target a = Some q -> D k -> ~ rests st0 q k) ->
  ((exists st', h_update l t st = (st', Ok tt)) <-> (forall a, In a l -> exists p, shows st0 a t p)) /\
  (forall st', h_update l t st = (st', Ok tt) -> forall a, In a l -> exists p, shows st0 a t p /\ pos st' (a_point a) = Ok p).
Proof.
  induction l as [|a l IH]; intros D t st0 st W0 W Pl A ND HL; cbn [h_update].
  - split; [|easy]. split; [easy|]. intros _. eauto.
  - destruct (HL a (or_introl eq_refl)) as (Da & Sa & Ta).
    assert (Sh : forall x y, a_goal a t st = Ok (x, y) <-> shows st0 a t (P x y)).
    { intros x y. rewrite goal_shows; auto; [|apply Pl; now left]. split; intros H.
      - eapply shows_agree; [apply agree_sym; exact A| |exact H]. intros q k Q Dk R. apply (Ta q k Q Dk).
        eapply agree_rests; [apply agree_sym; exact A|exact R].
      - eapply shows_agree; eauto. }
    destruct (Pl a (or_introl eq_refl)) as (x0 & y0 & n & N).
    rewrite update_goal. destruct (a_goal a t st) as [[x y]|e] eqn:G.
    + rewrite (move_point _ _ _ _ _ _ N). cbn [fst snd].
      set (s := upd st (a_point a) (NPoint x y n)).
      assert (As : agree D st s) by (eapply agree_upd; eauto).
      assert (Ws : wf s) by (eapply wf_upd; eauto; exact I).
      apply NoDup_cons_iff in ND as [Na ND'].
      destruct (IH D t st0 s) as [I1 I2]; auto.
      { apply (plain_agree _ _ _ _ As). intros b Ib. apply Pl. now right. }
      { eapply agree_trans; eauto. }
      { intros b Ib. apply HL. now right. }
      assert (Sa' : shows st0 a t (P x y)) by now apply Sh.
      split.
      * rewrite I1. split; intros H b; [intros [<-|Ib]; eauto|intros Ib; apply H; now right].
      * intros st' H b [<-|Ib]; [|eauto]. exists (P x y). split; [exact Sa'|].
        assert (Pls : plain_points s l) by (apply (plain_agree _ _ _ _ As); intros b Ib; apply Pl; now right).
        pose proof (h_update_agree _ _ _ _ _ Pls H) as [_ Q].
        pose proof (h_update_wf _ _ _ _ _ Ws H) as W'. rewrite pos_eq by auto.
        destruct (Q (a_point a)) as [Q'|[Q' _]]; [|contradiction]. rewrite <- Q'. unfold s.
        rewrite nth_upd, Nat.eqb_refl by (eapply nth_lt; eauto). reflexivity.
    + split; [|intros st' Q; discriminate]. split; [intros [st' Q]; discriminate|].
      intros H. destruct (H a (or_introl eq_refl)) as [[x y] S]. apply Sh in S. discriminate.
Qed.
Theorem C55_positions : forall st (l : list (anim R)) (ts : list (tval R)) (t : tval R) st1 r,
  reachable st -> independent st l -> NoDup (map a_point l) -> h_run l ts st = (st1, r) ->
  ((exists st', h_update l t st1 = (st', Ok tt)) <-> (forall a, In a l -> exists p, shows st a t p)) /\
  (forall st', h_update l t st1 = (st', Ok tt) ->
     forall a, In a l -> exists p, shows st a t p /\ pos st' (a_point a) = Ok p).
Proof.
  intros st l ts t st1 r R I ND H. pose proof (reachable_wf _ R) as W.
  assert (Pl : plain_points st l) by (intros a Ia; apply (I a Ia)).
  pose proof (h_run_agree _ _ _ _ _ Pl H) as A.
  apply (h_update_positions l (fun i => In i (map a_point l))); auto.
  - eapply h_run_wf; eauto.
  - eapply plain_agree; eauto.
  - intros a Ia. destruct (I a Ia) as (_ & S & T). split; [now apply in_map|]. split; [exact S|].
    intros q k Q Ik. apply in_map_iff in Ik as (b & <- & Ib). now apply T.
Qed.

(* ---------------- what is shown ---------------- *)

(* an animation shows at most one position at a time *)
Theorem C55_shows_one : forall st a t p q, reachable st -> shows st a t p -> shows st a t q -> p = q.
Proof.
  intros st a t p q R. pose proof (reachable_wf _ R) as W.
  assert (U : forall i a b, located st i a -> located st i b -> a = b).
  { intros i x y X Y. apply pos_located in X; auto. apply pos_located in Y; auto. congruence. }
  assert (L : forall o i j t p q, shows st (ALinear o i j) t p -> shows st (ALinear o i j) t q -> p = q).
  { intros o i j u x y X Y. inversion X; subst; inversion Y; subst;
      match goal with A : located st j ?u, B : located st j ?v |- _ => rewrite (U _ _ _ A B) end; reflexivity. }
  intros H1 H2. destruct H1.
  - inversion H2 as [? ? ? ? ? ? E'| | | | |]; subst. pose proof (eq_trans (eq_sym (H o)) (E' o)) as E. injection E as -> ->. reflexivity.
  - eapply L; eauto. now constructor.
  - eapply L; eauto. now constructor.
  - inversion H2; subst. assert (t'0 = t') by congruence. subst. eapply L; eauto.
  - inversion H2; subst. match goal with A : located st target ?u, B : located st target ?v |- _ => rewrite (U _ _ _ A B) end. reflexivity.
  - inversion H2; subst. reflexivity.
Qed.

(* AnimationLinear: at the remembered position for 0, at the target for 1, always on the line *)
Theorem C55_linear : forall st o i target q t, located st target q ->
  shows st (ALinear o i target) (TNum 0) o /\ shows st (ALinear o i target) (TNum 1) q /\
  exists p, shows st (ALinear o i target) (TNum t) p /\
    (px p - px o) * (py q - py o) = (py p - py o) * (px q - px o).
Proof.
  intros st o i target q t L. repeat split.
  - replace o with (part_way 0 o q) at 2; [now constructor|]. destruct o. unfold part_way. cbn. f_equal; ring.
  - replace q with (part_way 1 o q); [now constructor|]. destruct q. unfold part_way. cbn. f_equal; ring.
  - exists (part_way t o q). split; [now constructor|]. unfold part_way. cbn. ring.
Qed.
(* AnimationSinusoidal: on the segment between both, back after each period; without offset it
   starts at the remembered position and is at the target after half a period *)
Theorem C55_sinusoidal : forall st o i target w s q t, located st target q ->
  exists u, 0 <= u <= 1 /\ shows st (ASinusoidal o i target w s) (TNum t) (part_way u o q) /\
    forall k : Z, w <> 0 -> shows st (ASinusoidal o i target w s) (TNum (t + IZR k / w)) (part_way u o q).
Proof.
  intros st o i target w s q t L. exists ((1 - cos (2 * PI * (w * t + s / 360))) / 2).
  pose proof (COS_bound (2 * PI * (w * t + s / 360))). split; [lra|]. split; [now constructor|].
  intros k Hw.
  replace (cos (2 * PI * (w * t + s / 360))) with (cos (2 * PI * (w * (t + IZR k / w) + s / 360))); [now constructor|].
  replace (2 * PI * (w * (t + IZR k / w) + s / 360)) with (2 * PI * (w * t + s / 360) + 2 * IZR k * PI) by (field; exact Hw).
  destruct (Z_le_gt_dec 0 k) as [Hk|Hk].
  - rewrite <- (Z2Nat.id k Hk), <- INR_IZR_INZ. apply cos_period.
  - set (x := 2 * PI * (w * t + s / 360)). replace x with (x + 2 * IZR k * PI + 2 * INR (Z.to_nat (- k)) * PI) at 2.
    + symmetry. apply cos_period.
    + rewrite INR_IZR_INZ, Z2Nat.id by lia. rewrite opp_IZR. ring.
Qed.
Theorem C55_sinusoidal_ends : forall st o i target w q, located st target q -> w <> 0 ->
  shows st (ASinusoidal o i target w 0) (TNum 0) o /\
  shows st (ASinusoidal o i target w 0) (TNum (1 / (2 * w))) q.
Proof.
  intros st o i target w q L Hw. split.
  - replace o with (part_way ((1 - cos (2 * PI * (w * 0 + 0 / 360))) / 2) o q) at 2; [now constructor|].
    replace (2 * PI * (w * 0 + 0 / 360)) with 0 by field. rewrite cos_0. destruct o. unfold part_way. cbn. f_equal; field.
  - replace q with (part_way ((1 - cos (2 * PI * (w * (1 / (2 * w)) + 0 / 360))) / 2) o q); [now constructor|].
    replace (2 * PI * (w * (1 / (2 * w)) + 0 / 360)) with PI by (field; auto). rewrite cos_PI. destruct q. unfold part_way. cbn. f_equal; field.
Qed.
(* AnimationCircular: at distance |radius| from the remembered position; the offset is in
   radians, not in degrees as that of AnimationSinusoidal *)
Theorem C55_circular : forall st o i r w s t p, shows st (ACircular o i r w s) (TNum t) p ->
  sqrt ((px p - px o) * (px p - px o) + (py p - py o) * (py p - py o)) = Rabs r.
Proof.
  intros st o i r w s t p H. inversion H; subst. cbn [px py].
  set (a := 2 * PI * w * t + s). replace (_ + _) with (r * r * ((sin a)² + (cos a)²)) by (unfold Rsqr; ring).
  rewrite sin2_cos2, Rmult_1_r. change (r * r) with (r²). apply sqrt_Rsqr_abs.
Qed.
Theorem C55_circular_offset : forall st o i r w t p,
  (shows st (ACircular o i r w PI) (TNum t) p <-> shows st (ACircular o i (- r) w 0) (TNum t) p).
Proof.
  intros st o i r w t p. assert (E : P (px o + r * sin (2 * PI * w * t + PI)) (py o + r * cos (2 * PI * w * t + PI)) =
    P (px o + - r * sin (2 * PI * w * t + 0)) (py o + - r * cos (2 * PI * w * t + 0))).
  { rewrite neg_sin, neg_cos, Rplus_0_r. f_equal; ring. }
  split; intros H; inversion H; subst; [rewrite E|rewrite <- E]; constructor.
Qed.

(* ---------------- a target that is itself animated ---------------- *)

(* a goes to b and b goes to c: the second update at the same time moves a on *)
Theorem C55_animated_target_refuted :
  let st : pstore R := prun [PNew 0 0 None; PNew 1 0 None; PNew 2 0 None] [] in
  let l := [ALinear (P 0 0) 0%nat 1%nat; ALinear (P 1 0) 1%nat 2%nat] in
  exists st1 st2, reachable st /\ h_update l (TNum 1) st = (st1, Ok tt) /\ h_update l (TNum 1) st1 = (st2, Ok tt) /\
    pos st1 0 = Ok (P 1 0) /\ pos st2 0 = Ok (P 2 0).
Proof.
  intros st l. do 2 eexists. split; [eexists; reflexivity|]. split; [reflexivity|]. split; [reflexivity|].
  split; cbn; do 2 f_equal; ring.
Qed.
(* three animations with a target hanging on a point that is not animated *)
Example C55_nontrivial :
  let st : pstore R := prun [PNew 0 0 None; PNew 1 0 None; PNew 2 0 None; PRel 1 1 2 None; PNew 5 5 None] [] in
  let l := [ALinear (P 0 0) 0%nat 3%nat; ACircular (P 1 0) 1%nat 2 1 0; AGeneric (P 5 5) 4%nat (fun _ o _ => Ok (px o, 0))] in
  reachable st /\ independent st l /\ NoDup (map a_point l) /\
  forall t : R, (forall a, In a l -> exists p, shows st a (TNum t) p).
Proof.
  intros st l. assert (R3 : forall k, rests st 3 k -> k = 2%nat).
  { intros k H. inversion H as [? ? ? ? E|? ? ? ? ? ? E H'|? ? ? ? ? ? ? ? ? E]; subst; cbn in E; try discriminate.
    injection E as <- <- <- <-. inversion H' as [? ? ? ? E|? ? ? ? ? ? E|? ? ? ? ? ? ? ? ? E]; subst; cbn in E; try discriminate. reflexivity. }
  split; [eexists; reflexivity|]. split; [|split].
  - intros a [<-|[<-|[<-|[]]]]; cbn [a_point a_target steady].
    + split; [cbn; eauto|]. split; [exact I|]. intros q b Q Ib H. injection Q as <-. apply R3 in H.
      destruct Ib as [<-|[<-|[<-|[]]]]; cbn in H; discriminate.
    + split; [cbn; eauto|]. split; [exact I|]. discriminate.
    + split; [cbn; eauto|]. split; [reflexivity|]. discriminate.
  - repeat constructor; cbn; intuition discriminate.
  - intros t a [<-|[<-|[<-|[]]]]; eexists.
    + constructor. eapply loc_rel; [reflexivity|]. eapply loc_point. reflexivity.
    + constructor.
    + constructor. reflexivity.
Qed.
