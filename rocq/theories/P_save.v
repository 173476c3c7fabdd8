(* Property theorems C78: what saving an animation writes. *)
Require Import Verif.Base Verif.NumR Verif.L_real Verif.M_vector Verif.M_bbox Verif.M_transform Verif.M_points Verif.M_anim Verif.M_frames Verif.P_frames Verif.M_save.
From Coq Require Import String Reals List Lia Lra ZArith.
Import ListNotations.
Local Open Scope string_scope.
Local Open Scope list_scope.
Local Open Scope R_scope.

(* the animations that were written: path, frames, milliseconds per frame *)
Definition animations {I J} (l : list (effect I J)) : list (string * list (I + J) * Z) :=
  flat_map (fun e => match e with
                     | EGif p f _ ms => [(p, f, ms)]
                     | EWriteGif p f ms => [(p, f, ms)]
                     | _ => []
                     end) l.
(* where the output goes: to the path given, unless there is none or it is empty *)
Definition goes_to (o : option string) (default p : string) : Prop :=
  match o with Some s => (s <> "" /\ p = s) \/ (s = "" /\ p = default) | None => p = default end.

Lemma goes o d : goes_to o d (path_of o d).
Proof.
  unfold goes_to, path_of. destruct o as [s|]; [|reflexivity]. destruct (String.eqb_spec s ""); auto.
Qed.
Lemma pr_none {I J} (o : option string) p : animations (if no_path o then [EPrint p] else [] : list (effect I J)) = [].
Proof. destruct (no_path o); reflexivity. Qed.
Lemma animations_app {I J} (a b : list (effect I J)) : animations (a ++ b) = animations a ++ animations b.
Proof. unfold animations. apply flat_map_app. Qed.

Lemma simple_ms (t : R) : 0 <= t -> (0 <= pyint (t * 1000)%R)%Z /\ IZR (pyint (t * 1000)) <= 1000 * t < IZR (pyint (t * 1000)) + 1.
Proof.
  intros H. destruct (pyint_R (t * 1000)) as [A _]. destruct (A ltac:(lra)) as [B C]. split; [exact C|]. lra.
Qed.

(* SimpleAnimation: on macOS and Linux one file with all frames in order, each shown for the time
   asked, rounded down to a millisecond *)
Theorem C78_simple (I J : Type) (pl : platform) (images : list I) (t : R) (output : option string) :
  pl = Darwin \/ pl = Linux -> images <> [] -> 0 <= t ->
  exists eff p ms, simple_save J pl images t output = (eff, Ok tt) /\
    animations eff = [(p, map inl images, ms)] /\ goes_to output "/tmp/sa.gif" p /\
    IZR ms <= 1000 * t < IZR ms + 1 /\
    (* the path is announced exactly if it was not given *)
    (In (EPrint p) eff <-> output = None \/ output = Some "").
Proof.
  intros Hp Hi Ht. destruct images as [|im images]; [congruence|].
  assert (Pr : forall (x : list (effect I J)), (forall q, ~ In (EPrint q) x) ->
     (In (EPrint (path_of output "/tmp/sa.gif")) ((if no_path output then [EPrint (path_of output "/tmp/sa.gif")] else []) ++ x) <->
      output = None \/ output = Some "")).
  { intros x Hx. rewrite in_app_iff. destruct output as [s|]; cbn [no_path path_of].
    - destruct (String.eqb_spec s "").
      + subst. cbn. tauto.
      + split; [intros [[]|W]; exfalso; eapply Hx; eauto|]. intros [?|E]; [discriminate|]. injection E; intros; congruence.
    - cbn. tauto. }
  destruct Hp as [->| ->]; cbn [simple_save]; do 3 eexists; (split; [reflexivity|]); rewrite animations_app, pr_none;
    (split; [reflexivity|]); (split; [apply goes|]);
    (split; [change (t * #1000)%num with (t * 1000); apply (proj2 (simple_ms t Ht))|]);
    apply Pr; intros q; cbn; intuition discriminate.
Qed.
(* without frames, and on other systems, an exception and no file *)
Theorem C78_simple_fails (I J : Type) (pl : platform) (images : list I) (t : R) (output : option string) eff e :
  simple_save J pl images t output = (eff, Raise e) ->
  animations eff = [] /\
  ((pl = Darwin \/ pl = Linux) /\ images = [] /\ e = IndexError \/ pl <> Darwin /\ pl <> Linux /\ e = NotImplementedError).
Proof.
  intros H. destruct pl; cbn [simple_save] in H; [destruct images|destruct images| |]; try discriminate;
    injection H as <- <-; rewrite pr_none; (split; [reflexivity|]); [left|left|right|right]; repeat split; auto; discriminate.
Qed.
(* animate() and save_animation(): every picture is in the file twice (C59), so that the animation
   lasts twice as long as steps + 1 pictures of frame_display_time *)
Theorem C78_simple_length_refuted (I J : Type) (d : R -> I * option exn) (im : R -> I) lo hi steps (t : R) (pl : platform) output :
  (0 < steps)%Z -> pl = Darwin \/ pl = Linux -> 0 <= t ->
  (forall k, (Z.of_nat k <= steps)%Z -> d (step_time lo hi steps k) = (im (step_time lo hi steps k), None)) ->
  exists images eff p frames ms, animate I d lo hi steps [] = (images, Ok tt) /\
    simple_save J pl images t output = (eff, Ok tt) /\ animations eff = [(p, frames, ms)] /\
    List.length frames = (2 * S (Z.to_nat steps))%nat.
Proof.
  intros Hs Hp Ht Hd. rewrite (C59_simple I d im lo hi steps [] Hs Hd). cbn [app].
  set (l := twice (map (fun k => im (step_time lo hi steps k)) (seq 0 (S (Z.to_nat steps))))).
  destruct (C78_simple I J pl l t output Hp) as (eff & p & ms & E & A & _); [discriminate|exact Ht|].
  exists l, eff, p, (map inl l), ms. split; [reflexivity|]. split; [exact E|]. split; [exact A|].
  assert (Q : forall (x : list I), List.length (twice x) = (2 * List.length x)%nat).
  { induction x as [|a x IH]; [reflexivity|]. cbn [twice flat_map app List.length] in *. unfold twice in IH. rewrite IH. lia. }
  unfold l. rewrite map_length, Q, map_length, seq_length. reflexivity.
Qed.

Section BuilderSave.
  Variables I J : Type.
  Variable prepared : list I -> res (list J).
  Variable rgb : J -> J.
  Variable palette_frames : list J -> res (list J).
  (* cropping, scaling and choosing colours keep the number of frames (C61_frames, C71) *)
  Hypothesis prepared_length : forall l l', prepared l = Ok l' -> List.length l' = List.length l.
  Hypothesis palette_length : forall l l', palette_frames l = Ok l' -> List.length l' = List.length l.
  Notation save := (builder_save (F := R) prepared rgb palette_frames).

  (* Builder: on macOS and iOS one file; the frames given, or else those of the builder, in order;
     together they last as long as asked, up to a millisecond per frame *)
  Theorem C78_builder (pl : platform) (own images : list I) (duration : R) (output : option string) eff :
    pl = Darwin \/ pl = Ios -> 0 <= duration -> save pl own images duration output = (eff, Ok tt) ->
    exists p source ims frames ms, animations eff = [(p, map inr frames, ms)] /\
      goes_to output (match pl with Darwin => "/tmp/anim.gif" | _ => "anim.gif" end) p /\
      (images = [] -> source = own) /\ (images <> [] -> source = images) /\
      prepared source = Ok ims /\ palette_frames (map rgb ims) = Ok frames /\
      List.length frames = List.length source /\ source <> [] /\
      INR (List.length frames) * IZR ms <= 1000 * duration < INR (List.length frames) * (IZR ms + 1).
  Proof.
    intros Hp Hd E. unfold builder_save in E.
    set (source := match images with [] => own | _ => images end) in *.
    destruct source as [|s0 source'] eqn:Es; [discriminate|].
    destruct (prepared (s0 :: source')) as [ims|] eqn:Ep; [|discriminate].
    pose proof (prepared_length _ _ Ep) as Lp.
    assert (Hn : (0 < List.length ims)%nat) by (rewrite Lp; cbn; lia).
    destruct (C61_duration duration (List.length ims) Hd Hn) as (ms & Em & _ & Hm). rewrite Em in E.
    destruct (palette_frames (map rgb ims)) as [frames|] eqn:Ef; [|discriminate].
    pose proof (palette_length _ _ Ef) as Lf. rewrite map_length in Lf.
    assert (So : images = [] -> s0 :: source' = own) by (intros ->; unfold source in Es; auto).
    assert (Si : images <> [] -> s0 :: source' = images) by (intros N; unfold source in Es; destruct images; [congruence|auto]).
    exists (path_of output (tmp_anim pl)), (s0 :: source'), ims, frames, ms. 
    destruct frames as [|f0 frames]; [cbn in Lf; lia|].
    destruct ims as [|i0 ims]; [cbn in Hn; lia|].
    rewrite Lf. split; [|split; [|split; [auto|split; [auto|split; [auto|split; [exact Ef|split; [exact Lp|split; [discriminate|exact Hm]]]]]]]].
    - destruct Hp as [->| ->]; cbn [map] in E; injection E as <-; rewrite animations_app, pr_none; reflexivity.
    - destruct Hp as [->| ->]; apply goes.
  Qed.
  (* on other systems, Linux among them, it succeeds without writing anything *)
  Theorem C78_builder_writes_refuted (pl : platform) (own images : list I) (duration : R) (output : option string) eff r :
    pl = Linux \/ pl = OtherPlatform -> save pl own images duration output = (eff, r) -> animations eff = [].
  Proof.
    intros Hp E. unfold builder_save in E. destruct (match images with [] => own | _ => images end);
      [injection E as <- _; apply pr_none|].
    destruct (prepared _) as [ims|]; [|injection E as <- _; apply pr_none].
    destruct (ms_per_frame _ _); [|injection E as <- _; apply pr_none].
    destruct (palette_frames _); [|injection E as <- _; apply pr_none].
    destruct Hp as [->| ->]; injection E as <- _; apply pr_none.
  Qed.
  (* an exception leaves no file, and there is one if there are no frames *)
  Theorem C78_builder_fails (pl : platform) (own images : list I) (duration : R) (output : option string) eff r :
    save pl own images duration output = (eff, r) ->
    (forall e, r = Raise e -> animations eff = []) /\ (own = [] -> images = [] -> r = Raise IndexError).
  Proof.
    intros E. split.
    - intros e ->. unfold builder_save in E. destruct (match images with [] => own | _ => images end);
        [injection E as <- _; apply pr_none|].
      destruct (prepared _) as [ims|]; [|injection E as <- _; apply pr_none].
      destruct (ms_per_frame _ _); [|injection E as <- _; apply pr_none].
      destruct (palette_frames _) as [fr|]; [|injection E as <- _; apply pr_none].
      destruct pl; [destruct (map rgb ims), fr| |destruct fr|]; try discriminate; injection E as <- _; apply pr_none.
    - intros -> ->. cbn in E. now injection E.
  Qed.
  (* on macOS the file that is optimized and shown is not the one written, unless that is /tmp/anim.gif *)
  Theorem C78_builder_shows_refuted (own : list I) (duration : R) (output : string) eff p f ms :
    output <> "" -> save Darwin own [] duration (Some output) = (eff, Ok tt) -> animations eff = [(p, f, ms)] ->
    p = output /\ forall from to, In (EOptimize from to) eff -> from = "/tmp/anim.gif".
  Proof.
    intros Ho E A. unfold builder_save in E. destruct own as [|s0 own]; [discriminate|].
    destruct (prepared _) as [ims|]; [|discriminate]. destruct (ms_per_frame _ _); [|discriminate].
    destruct (palette_frames _) as [fr|]; [|discriminate]. cbn [no_path path_of] in E.
    destruct (String.eqb_spec output ""); [contradiction|].
    destruct (map rgb ims), fr; try discriminate. injection E as <-. cbn [app] in *. cbn in A.
    injection A as <- _ _. split; [reflexivity|]. intros from to H. cbn in H.
    repeat (destruct H as [H|H]; [try discriminate; injection H; auto|]). destruct H.
  Qed.

  (* run(): saves exactly the frames it built; if building fails nothing is written *)
  Theorem C78_run (draw : pstore R -> res I) pl anims steps duration output st old s' eff r :
    builder_run prepared rgb palette_frames draw pl anims steps duration output (st, old) = (s', (eff, r)) ->
    (exists ims, build_all I draw anims steps (st, old) = (s', Ok ims) /\ snd s' = ims /\
       (eff, r) = save pl ims [] duration output) \/
    (exists e, build_all I draw anims steps (st, old) = (s', Raise e) /\ eff = [] /\ r = Raise e /\ snd s' = old).
  Proof.
    unfold builder_run. destruct (build_all I draw anims steps (st, old)) as [[st1 now] [ims|e]] eqn:B; intros H.
    - left. exists ims. pose proof (C59_frames _ _ _ _ _ _ _ _ _ B) as (Q & _). injection H as <- H. subst now.
      split; [reflexivity|]. split; [reflexivity|]. symmetry. exact H.
    - right. exists e. pose proof (C59_error _ _ _ _ _ _ _ _ B) as Q. injection H as <- <- <-. auto.
  Qed.
End BuilderSave.

(* the hypotheses are met *)
Example C78_nontrivial : exists eff p ms, 
  builder_save (F := R) (fun l : list nat => Ok l) (fun x => x) (fun l => Ok l) Darwin [3; 5; 7]%nat [] 2 (Some "out.gif") = (eff, Ok tt) /\
  animations eff = [(p, map inr [3; 5; 7]%nat, ms)].
Proof.
  unfold builder_save. cbn [List.length].
  destruct (C61_duration 2 3) as (ms & Em & _); [lra|lia|]. rewrite Em. do 3 eexists. split; reflexivity.
Qed.
