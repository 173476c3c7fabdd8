(* Property theorems C71, continued: images with a transparent colour. *)
From Coq Require Import ZArith List Lia Bool.
Require Import Verif.Base Verif.M_palette Verif.M_transp.
Import ListNotations.
Local Open Scope Z_scope.

(* What is assumed of PIL's conversion to a palette of n colours: one index for each pixel, at most
   n entries in the palette, every index in it, and pixels of one colour get one index. *)
Definition fair_adaptive (adaptive : Z -> list rgb -> res (list nat * list rgb)) : Prop :=
  forall n im, 1 <= n <= 256 -> exists idx pal, adaptive n im = Ok (idx, pal) /\ List.length idx = List.length im /\
    Z.of_nat (List.length pal) <= n /\ Forall (fun i => (i < List.length pal)%nat) idx /\
    (forall j k c, nth_error im j = Some c -> nth_error im k = Some c -> nth_error idx j = nth_error idx k).

(* pixel j of the result is transparent *)
Definition clear_at (p : pimage) (j : nat) : Prop := nth_error (p_index p) j = Some (p_clear p).

(* the common part *)
Lemma clear_spec adaptive n im : fair_adaptive adaptive -> 1 <= n <= 256 -> im <> [] ->
  exists p, (let* q := adaptive n im in clear_first q) = Ok p /\ List.length (p_index p) = List.length im /\
    Z.of_nat (List.length (p_palette p)) <= n /\ (p_clear p < List.length (p_palette p))%nat /\
    (forall j c, nth_error im j = Some c -> hd_error im = Some c -> clear_at p j).
Proof.
  intros A Hn NE. destruct (A n im Hn) as (idx & pal & E & L & S & B & C). rewrite E. cbn [bind]. unfold clear_first. cbn [fst snd].
  destruct im as [|c0 im]; [contradiction|]. destruct idx as [|i idx]; [discriminate|].
  eexists. split; [reflexivity|]. cbn [p_index p_palette p_clear]. split; [exact L|]. split; [exact S|]. split; [now apply Forall_inv in B|].
  intros j c J H. cbn in H. injection H as ->. unfold clear_at. cbn [p_index p_clear]. rewrite (C j 0%nat c J eq_refl). reflexivity.
Qed.

(* All pixels with the colour of the upper left one become transparent, whatever their alpha was;
   the palette has one colour less than asked for. *)
Theorem C71_transparent : forall adaptive im colors, fair_adaptive adaptive -> 2 <= colors <= 257 -> im <> [] ->
  exists p, rgba_to_transparent adaptive ModeRGBA im colors = Ok p /\ List.length (p_index p) = List.length im /\
    Z.of_nat (List.length (p_palette p)) <= colors - 1 /\ clear_at p 0 /\
    (forall j c a c0 a0, nth_error im j = Some (c, a) -> nth_error im 0 = Some (c0, a0) -> c = c0 -> clear_at p j) /\
    rgb_to_transparent_adaptive adaptive ModeRGB (map fst im) colors = Ok p.
Proof.
  intros adaptive im colors A Hc NE. destruct (clear_spec adaptive (colors - 1) (map fst im) A ltac:(lia)) as (p & E & L & S & _ & C).
  { intros X. apply NE. now apply map_eq_nil in X. }
  rewrite map_length in L. exists p. split; [exact E|]. split; [exact L|]. split; [exact S|]. split; [|split; [|exact E]].
  - destruct im as [|[c a] im]; [contradiction|]. now apply (C 0%nat c).
  - intros j c a c0 a0 J J0 <-. apply (C j c).
    + apply (map_nth_error fst j im J).
    + destruct im as [|[c' a'] im]; [discriminate|]. cbn in *. injection J0 as -> ->. reflexivity.
Qed.

(* The alpha of the pixels does not matter at all. *)
Theorem C71_alpha_ignored : forall adaptive im im' colors, map fst im = map fst im' ->
  rgba_to_transparent adaptive ModeRGBA im colors = rgba_to_transparent adaptive ModeRGBA im' colors.
Proof. intros adaptive im im' colors E. unfold rgba_to_transparent. now rewrite E. Qed.

(* Other modes and empty images are refused. *)
Theorem C71_transparent_raises : forall adaptive,
  (forall m im colors, m <> ModeRGBA -> rgba_to_transparent adaptive m im colors = Raise AssertionError) /\
  (forall m im colors, m <> ModeRGB -> rgb_to_transparent_adaptive adaptive m im colors = Raise AssertionError) /\
  (fair_adaptive adaptive -> forall colors, 2 <= colors <= 257 -> rgba_to_transparent adaptive ModeRGBA [] colors = Raise IndexError /\
     rgb_to_transparent_adaptive adaptive ModeRGB [] colors = Raise IndexError).
Proof.
  intros adaptive. split; [intros [] im colors H; try reflexivity; contradiction|]. split; [intros [] im colors H; try reflexivity; contradiction|].
  intros A colors Hc. unfold rgba_to_transparent, rgb_to_transparent_adaptive. cbn [map].
  destruct (A (colors - 1) [] ltac:(lia)) as (idx & pal & E & L & _). destruct idx; [|discriminate].
  assert (X : (let* p := adaptive (colors - 1) [] in clear_first p) = Raise IndexError) by (rewrite E; reflexivity).
  split; exact X.
Qed.

(* a conversion that meets the contract: the palette holds the colours met first, all others share
   its last entry *)
Fixpoint place (c : rgb) (l : list rgb) : nat :=
  match l with [] => 0%nat | a :: l' => if rgb_eqb a c then 0%nat else S (place c l') end.
Fixpoint firsts (l : list rgb) : list rgb :=
  match l with [] => [] | c :: l' => c :: filter (fun x => negb (rgb_eqb c x)) (firsts l') end.
Definition first_colours (n : Z) (im : list rgb) : res (list nat * list rgb) :=
  let pal := firstn (Z.to_nat n) (firsts im) in
  Ok (map (fun c => Nat.min (place c pal) (List.length pal - 1)) im, pal).
Lemma first_colours_fair : fair_adaptive first_colours.
Proof.
  intros n im Hn. do 2 eexists. split; [reflexivity|]. split; [apply map_length|]. split; [rewrite firstn_length; lia|]. split.
  - apply Forall_forall. intros i I. apply in_map_iff in I. destruct I as (c & <- & I). rewrite firstn_length.
    assert (0 < List.length (firsts im))%nat by (destruct im; [destruct I|cbn; lia]). lia.
  - intros j k c J K. now rewrite (map_nth_error _ j im J), (map_nth_error _ k im K).
Qed.

(* So a pixel that was transparent may show, and an opaque one may vanish; and the index kept free,
   colors - 1, is never the transparent one. *)
Theorem C71_keeps_transparency_refuted : exists adaptive, fair_adaptive adaptive /\
  (exists im p j c, rgba_to_transparent adaptive ModeRGBA im 256 = Ok p /\ nth_error im j = Some (c, 0) /\ ~ clear_at p j) /\
  (exists im p j c, rgba_to_transparent adaptive ModeRGBA im 256 = Ok p /\ nth_error im j = Some (c, 255) /\ clear_at p j).
Proof.
  exists first_colours. split; [exact first_colours_fair|]. split.
  - exists [((255, 0, 0), 255); ((0, 0, 255), 0)], (PImage [0; 1]%nat [(255, 0, 0); (0, 0, 255)] 0%nat), 1%nat, (0, 0, 255).
    split; [vm_compute; reflexivity|]. split; [reflexivity|]. intros H. discriminate H.
  - exists [((255, 0, 0), 255); ((0, 0, 255), 0)], (PImage [0; 1]%nat [(255, 0, 0); (0, 0, 255)] 0%nat), 0%nat, (255, 0, 0).
    split; [vm_compute; reflexivity|]. split; reflexivity.
Qed.
Theorem C71_reserved_unused : forall adaptive im colors p, fair_adaptive adaptive -> 2 <= colors <= 257 ->
  rgba_to_transparent adaptive ModeRGBA im colors = Ok p -> Z.of_nat (p_clear p) < colors - 1.
Proof.
  intros adaptive im colors p A Hc E. destruct im as [|x im]; [rewrite (proj1 (proj2 (proj2 (C71_transparent_raises adaptive)) A colors Hc)) in E; discriminate|].
  destruct (clear_spec adaptive (colors - 1) (map fst (x :: im)) A ltac:(lia) ltac:(discriminate)) as (q & E' & _ & S & C & _).
  unfold rgba_to_transparent in E. rewrite E' in E. injection E as ->. lia.
Qed.
(* the hypotheses are met *)
Example C71_transparent_example : exists p, rgba_to_transparent first_colours ModeRGBA [((1, 2, 3), 255); ((9, 9, 9), 255); ((1, 2, 3), 7)] 256 = Ok p /\
  p_index p = [0; 1; 0]%nat /\ p_clear p = 0%nat.
Proof. eexists. split; [vm_compute; reflexivity|]. split; reflexivity. Qed.
