(* C71: the palette of a GIF and the colours of its frames. *)
Require Import Verif.Base Verif.M_group Verif.M_palette Verif.S_palette Verif.L_palette Verif.NumFloat.
From Coq Require Import ZArith Floats List Sorted Permutation Lia Bool.
Import ListNotations.
Local Open Scope Z_scope.

(* The starting palette: black, white, and a ramp; the last entry stays black *)
Definition ramp (n : nat) : rgb :=
  let c := Z.of_nat n in
  if c =? 0 then (0, 0, 0) else if c =? 1 then (255, 255, 255) else if c =? 255 then (0, 0, 0)
  else (c + 1, (c + 129) mod 256, (499 - c) mod 256).
Theorem C71_palette_image :
  (exists p, palette_image false = Ok p /\ slots p = map ramp (seq 0 256) /\ pcolors p = map ramp (seq 0 255) /\ NoDup (pcolors p)) /\
  (exists p, palette_image true = Ok p /\ slots p = (0, 0, 0) :: (255, 255, 255) :: repeat (0, 0, 0) 254).
Proof.
  split; eexists; (split; [vm_compute; reflexivity|]).
  - split; [vm_compute; reflexivity|]. split; [vm_compute; reflexivity|]. cbn [pcolors].
    match goal with |- NoDup ?l => assert (E : nodup rgb_dec l = l) by (vm_compute; reflexivity); rewrite <- E; apply NoDup_nodup end.
  - vm_compute. reflexivity.
Qed.

Lemma nodup_left {A} (l l' : list A) : NoDup (l ++ l') -> NoDup l.
Proof. induction l as [|a l IH]; cbn; intros N; [constructor|]. inversion N; subst. constructor; auto. intros I. apply H1, in_app_iff. auto. Qed.
Lemma make_palette_eq images : make_palette images = Ok (Pal (map snd (firstn 256 (all_colors images)))
  (map snd (firstn 256 (all_colors images)) ++ skipn (List.length (map snd (firstn 256 (all_colors images)))) (map ramp (seq 0 256)))).
Proof.
  unfold make_palette. destruct C71_palette_image as [(p & -> & E & _) _]. cbn [bind]. rewrite E.
  etransitivity; [exact (foldM_map getcolor (fun e : entry => snd e) (firstn 256 (all_colors images)) _)|]. apply (alloc_all (map ramp (seq 0 256)) ltac:(vm_compute; reflexivity) (map snd (firstn 256 (all_colors images))) []).
  - change (NoDup (map snd (firstn 256 (all_colors images)))). rewrite <- firstn_map. pose proof (all_colors_nodup images) as N. rewrite <- (firstn_skipn 256 (map snd (all_colors images))) in N.
    now apply nodup_left in N.
  - change (List.length (map snd (firstn 256 (all_colors images))) <= 256)%nat. rewrite map_length. apply firstn_le_length.
Qed.

(* The palette begins with the colours that occur most often in all frames together (at equal
   counts the larger tuple), as many as there are up to 256; the other entries are as at the start *)
Theorem C71_make_palette : forall images, exists p chosen, make_palette images = Ok p /\ best_colours images chosen /\
  slots p = chosen ++ skipn (List.length chosen) (map ramp (seq 0 256)).
Proof.
  intros images. rewrite make_palette_eq. do 2 eexists. split; [reflexivity|]. split; [|reflexivity].
  rewrite <- firstn_map. set (l := map snd (all_colors images)).
  assert (I : forall c, In c l <-> In c (concat images)).
  { intros c. subst l. rewrite in_map_iff. split; [intros ([v k] & <- & I); now apply all_colors_in in I|]. intros I. exists (Z.of_nat (uses images c), c). split; [reflexivity|]. now apply all_colors_in. }
  pose proof (all_colors_ahead images) as A. fold l in A. rewrite <- (firstn_skipn 256 l) in A. apply strongly_split in A as [A1 A2].
  split; [exact A1|]. split; [|split].
  - intros c J. apply I. rewrite <- (firstn_skipn 256 l). apply in_app_iff. auto.
  - apply firstn_le_length.
  - intros c J N. apply I in J. rewrite <- (firstn_skipn 256 l) in J. apply in_app_iff in J as [J|J]; [contradiction|]. split; [|intros d D; now apply A2].
    rewrite firstn_length. destruct (Nat.le_gt_cases 256 (List.length l)); [now apply Nat.min_l|]. rewrite skipn_all2 in J by lia. destruct J.
Qed.

(* Only how often each colour occurs matters *)
Theorem C71_palette_order : forall images images', Permutation (concat images) (concat images') -> make_palette images = make_palette images'.
Proof. intros images images' Pm. rewrite !make_palette_eq. now rewrite (all_colors_perm images images' Pm). Qed.

Lemma ahead_irrefl images c : ~ ahead images c c.
Proof. unfold ahead. destruct c as [[r g] b]. cbn. lia. Qed.
Lemma best_nodup images l : best_colours images l -> NoDup l.
Proof.
  intros (H & _). induction H; constructor; auto. intros I. rewrite Forall_forall in H0. now apply (ahead_irrefl images a), H0.
Qed.
Lemma few_all images l : best_colours images l -> (List.length (nodup rgb_dec (concat images)) <= 256)%nat -> forall c, In c (concat images) -> In c l.
Proof.
  intros B L c I. destruct (in_dec rgb_dec c l) as [|N]; auto. exfalso. pose proof (best_nodup _ _ B) as ND. destruct B as (_ & B1 & _ & B2). destruct (B2 c I N) as [E _].
  assert (K : (List.length (c :: l) <= List.length (nodup rgb_dec (concat images)))%nat).
  { apply NoDup_incl_length; [now constructor|]. intros x [<-|J]; apply nodup_In; auto. }
  cbn in K. lia.
Qed.

(* an indexed frame with a transparent index shows the picture im: every pixel has its colour, and
   just those in the colour of the upper left pixel are transparent *)
Definition shows (slots : list rgb) (im : list rgb) (frame : list nat * nat) : Prop :=
  map (fun i => nth i slots (0, 0, 0)) (fst frame) = im /\
  forall j c, nth_error im j = Some c -> (nth_error (fst frame) j = Some (snd frame) <-> hd_error im = Some c).
(* what remains of a frame after resizing: pixels that are not opaque become black *)
Definition on_black (im : list rgba) : list rgb := map (fun p => if 255 <=? alpha p then colour p else (0, 0, 0)) im.

Section Gif.
  Variable resize : list rgba -> list rgba.
  Variable over : rgba -> rgba -> rgba.
  Variable nearest : list rgb -> rgb -> nat.
  Hypothesis over_opaque : forall d c, over d (c, 255) = (c, 255).
  Hypothesis over_clear : forall d c, over d (c, 0) = d.
  Hypothesis nearest_exact : forall s c, In c s -> nth_error s (nearest s c) = Some c.

  (* Alpha becomes 0 or 255, 255 just where it was; colours stay *)
  Theorem C71_binary_alpha : forall im,
    map colour (resize_for_gif resize im) = map colour (resize im) /\
    Forall2 (fun a b => (alpha b = 0 \/ alpha b = 255) /\ (alpha b = 255 <-> 255 <= alpha a)) (resize im) (resize_for_gif resize im).
  Proof.
    intros im. unfold resize_for_gif. generalize (resize im) as l. intros l. split.
    - rewrite map_map. reflexivity.
    - induction l as [|[c a] l IH]; cbn; constructor; auto. cbn. destruct (Z.ltb_spec a 255); split; auto; lia.
  Qed.

  Lemma composed_is im : composed_black over (resize_for_gif resize im) = on_black (resize im).
  Proof.
    unfold composed_black, resize_for_gif, on_black. rewrite map_map. apply map_ext. intros [c a]. cbn. destruct (Z.ltb_spec a 255); destruct (Z.leb_spec 255 a); try lia.
    - now rewrite over_clear.
    - now rewrite over_opaque.
  Qed.

  Lemma shows_frame p im : (forall c, In c im -> In c (slots p)) -> im <> [] -> exists f, rgb_to_transparent nearest p im = Ok f /\ shows (slots p) im f.
  Proof.
    intros H N. destruct im as [|c0 im]; [contradiction|]. unfold rgb_to_transparent. cbn [map]. eexists. split; [reflexivity|].
    assert (E : forall c, In c (c0 :: im) -> nth_error (slots p) (nearest (slots p) c) = Some c) by auto.
    split; cbn [fst snd].
    - change (map (fun i => nth i (slots p) (0, 0, 0)) (map (nearest (slots p)) (c0 :: im)) = c0 :: im). rewrite map_map. rewrite <- (map_id (c0 :: im)) at 2. apply map_ext_in. intros c I. now apply nth_error_nth, E.
    - intros j c J. cbn [hd_error]. change (nearest (slots p) c0 :: map (nearest (slots p)) im) with (map (nearest (slots p)) (c0 :: im)). rewrite (map_nth_error _ j _ J). split.
      + intros X. injection X as X. pose proof (E c (nth_error_In _ _ J)) as A. rewrite X in A. rewrite (E c0 (or_introl eq_refl)) in A. exact A.
      + intros X. injection X as ->. reflexivity.
  Qed.

  (* With at most 256 colours in all frames together, the GIF shows every frame as it is; each
     frame is transparent where it has the colour of its upper left pixel *)
  Theorem C71_gif_frames : forall images, (forall im, In im images -> resize im <> []) ->
    (List.length (nodup rgb_dec (concat (map (fun im => on_black (resize im)) images))) <= 256)%nat ->
    exists s frames, gif_frames resize over nearest images = Ok (s, frames) /\ Forall2 (fun im f => shows s (on_black (resize im)) f) images frames.
  Proof.
    intros images NE L. unfold gif_frames. rewrite map_map. rewrite (map_ext _ (fun im => on_black (resize im)) composed_is).
    destruct (C71_make_palette (map (fun im => on_black (resize im)) images)) as (p & chosen & -> & B & E). cbn [bind].
    assert (K : forall ims, (forall im, In im ims -> In im images) -> exists frames, mapM (rgb_to_transparent nearest p) (map (fun im => on_black (resize im)) ims) = Ok frames /\ Forall2 (fun im f => shows (slots p) (on_black (resize im)) f) ims frames).
    { induction ims as [|im ims IH]; intros H; cbn; [eexists; split; [reflexivity|constructor]|].
      destruct (shows_frame p (on_black (resize im))) as (f & -> & S1).
      - intros c I. rewrite E. apply in_app_iff. left. apply (few_all _ _ B L). apply in_concat. eexists. split; [|exact I]. apply in_map_iff. exists im. split; [reflexivity|]. apply H. now left.
      - intros X. apply (NE im (H im (or_introl eq_refl))). unfold on_black in X. now apply map_eq_nil in X.
      - destruct IH as (fs & -> & Sf); [intros; apply H; now right|]. eexists. split; [reflexivity|]. now constructor. }
    destruct (K images (fun _ H => H)) as (fs & -> & S1). do 2 eexists. split; [reflexivity|]. exact S1.
  Qed.

  (* With any number of colours: an empty frame raises, else every frame has all its pixels *)
  Theorem C71_gif_total : forall images,
    ((exists im, In im images /\ resize im = []) -> gif_frames resize over nearest images = Raise IndexError) /\
    ((forall im, In im images -> resize im <> []) -> exists s frames, gif_frames resize over nearest images = Ok (s, frames) /\ List.length s = 256%nat /\
       Forall2 (fun im f => List.length (fst f) = List.length (resize im) /\ hd_error (fst f) = Some (snd f)) images frames).
  Proof.
    intros images. unfold gif_frames. rewrite map_map. rewrite (map_ext _ (fun im => on_black (resize im)) composed_is).
    destruct (C71_make_palette (map (fun im => on_black (resize im)) images)) as (p & chosen & -> & B & E). cbn [bind]. split.
    - intros (im & I & R0). assert (K : mapM (rgb_to_transparent nearest p) (map (fun im => on_black (resize im)) images) = Raise IndexError); [|now rewrite K].
      clear - I R0. induction images as [|x l IH]; [destruct I|]. cbn. destruct I as [->|I]; [now rewrite R0|]. unfold rgb_to_transparent at 1. destruct (map (nearest (slots p)) (on_black (resize x))); cbn; [reflexivity|]. now rewrite IH.
    - intros NE. assert (K : exists frames, mapM (rgb_to_transparent nearest p) (map (fun im => on_black (resize im)) images) = Ok frames /\
        Forall2 (fun im f => List.length (fst f) = List.length (resize im) /\ hd_error (fst f) = Some (snd f)) images frames).
      { clear E B. induction images as [|x l IH]; cbn; [eexists; split; [reflexivity|constructor]|]. destruct IH as (fs & -> & F); [intros; apply NE; now right|].
        unfold rgb_to_transparent. destruct (map (nearest (slots p)) (on_black (resize x))) as [|i is] eqn:X.
        - exfalso. apply map_eq_nil in X. unfold on_black in X. apply map_eq_nil in X. now apply (NE x (or_introl eq_refl)).
        - cbn. eexists. split; [reflexivity|]. constructor; auto. cbn [fst snd]. split; [|reflexivity]. rewrite <- X. unfold on_black. now rewrite !map_length. }
      destruct K as (fs & -> & F). do 2 eexists. split; [reflexivity|]. split; auto. rewrite E, app_length, skipn_length, map_length, seq_length. destruct B as (_ & _ & B & _). lia.
  Qed.
End Gif.

(* image_fix_palette *)
Lemma set_byte_nth l : forall i v j, (i < List.length l)%nat -> nth j (set_byte i v l) 0 = if (j =? i)%nat then v else nth j l 0.
Proof. induction l as [|a l IH]; intros [|i] v [|j] H; cbn in *; try lia; auto. apply IH. lia. Qed.
Lemma set_byte_length l : forall i v, List.length (set_byte i v l) = List.length l.
Proof. induction l as [|a l IH]; intros [|i] v; cbn; auto. Qed.

(* the entry that replaces one with colour channels r g b and alpha a *)
Definition fixed (pal : list Z) (n c : nat) : Z :=
  let a := channel pal n 3 in
  if (a =? 0) || (a =? 255) then channel pal n c
  else match c with 0%nat => 64 * a / 255 | 1%nat => 128 * a / 255 | 2%nat => a | _ => 255 end.
Lemma fix_entry_ok pal n : (4 * n + 3 < List.length pal)%nat -> exists pal', fix_entry pal n = Ok pal' /\ List.length pal' = List.length pal /\
  (forall c, (c < 4)%nat -> channel pal' n c = fixed pal n c) /\ (forall j, (j < 4 * n \/ 4 * n + 4 <= j)%nat -> nth j pal' 0 = nth j pal 0).
Proof.
  intros L. unfold fix_entry, fixed, channel. replace (n * 4)%nat with (4 * n)%nat by lia. rewrite (nth_error_nth' pal 0 L).
  set (a := nth (4 * n + 3) pal 0). destruct (Z.eqb_spec a 0) as [E0|N0]; [cbn; eexists; split; [reflexivity|auto]|]. destruct (Z.eqb_spec a 255) as [E1|N1]; [cbn; eexists; split; [reflexivity|auto]|].
  cbn [negb andb orb]. eexists. split; [reflexivity|]. split; [now rewrite !set_byte_length|]. split.
  - intros c H. rewrite !set_byte_nth by (rewrite ?set_byte_length; lia). destruct c as [|[|[|[|c]]]]; try lia; repeat match goal with |- context [Nat.eqb ?x ?y] => destruct (Nat.eqb_spec x y); try lia end; auto.
    unfold fix_byte. rewrite Z.mul_comm, Z.div_mul by lia. reflexivity.
  - intros j H. rewrite !set_byte_nth by (rewrite ?set_byte_length; lia). repeat match goal with |- context [Nat.eqb ?x ?y] => destruct (Nat.eqb_spec x y); try lia end; auto.
Qed.

(* Every entry that is neither opaque nor clear becomes opaque, in a blue as light as it was
   opaque (its own colour is lost); all others stay *)
Theorem C71_fix_palette : forall pal, (1024 <= List.length pal)%nat -> exists pal', image_fix_palette pal = Ok pal' /\ List.length pal' = List.length pal /\
  (forall n c, (n < 256)%nat -> (c < 4)%nat -> channel pal' n c = fixed pal n c) /\ (forall j, (1024 <= j)%nat -> nth j pal' 0 = nth j pal 0).
Proof.
  intros pal L. unfold image_fix_palette.
  assert (K : forall k i q, (i + k = 256)%nat -> List.length q = List.length pal -> (forall n c, (n < i)%nat -> (c < 4)%nat -> channel q n c = fixed pal n c) -> (forall j, (4 * i <= j)%nat -> nth j q 0 = nth j pal 0) ->
    exists pal', foldM fix_entry q (seq i k) = Ok pal' /\ List.length pal' = List.length pal /\ (forall n c, (n < 256)%nat -> (c < 4)%nat -> channel pal' n c = fixed pal n c) /\ (forall j, (1024 <= j)%nat -> nth j pal' 0 = nth j pal 0)).
  { induction k as [|k IH]; intros i q E Lq D U; cbn [seq foldM].
    - assert (i = 256%nat) by lia. subst i. exists q. repeat split; auto.
    - destruct (fix_entry_ok q i) as (q' & -> & L' & A & B); [lia|]. cbn [bind]. apply IH; [lia|lia| |].
      + intros n c Hn Hc. destruct (Nat.eq_dec n i) as [->|N].
        * rewrite A by auto. unfold fixed, channel. rewrite !U by lia. reflexivity.
        * unfold channel. rewrite B by lia. apply D; lia.
      + intros j H. rewrite B by lia. apply U. lia. }
  apply (K 256%nat 0%nat pal); auto. intros n c H. lia.
Qed.
Theorem C71_fix_palette_again : forall pal pal', image_fix_palette pal = Ok pal' -> image_fix_palette pal' = Ok pal' /\
  forall n, (n < 256)%nat -> channel pal' n 3 = (if channel pal n 3 =? 0 then 0 else 255).
Proof.
  intros pal pal' H. assert (L : (1024 <= List.length pal)%nat).
  { destruct (Nat.le_gt_cases 1024 (List.length pal)) as [|G]; auto. exfalso.
    assert (K : forall k i q q', (i + k = 256)%nat -> List.length q = List.length pal -> foldM fix_entry q (seq i k) = Ok q' -> (0 < k)%nat -> False).
    { induction k as [|k IH]; intros i q q' E Lq F P0; [lia|]. cbn [seq foldM] in F. destruct (Nat.le_gt_cases (List.length q) (4 * i + 3)) as [X|X].
      - unfold fix_entry in F. replace (i * 4 + 3)%nat with (4 * i + 3)%nat in F by lia. now rewrite (proj2 (nth_error_None q (4 * i + 3)) X) in F.
      - destruct (fix_entry_ok q i X) as (q1 & E1 & L1 & _). rewrite E1 in F. cbn [bind] in F. destruct k as [|k]; [|apply (IH (S i) q1 q'); auto; lia].
        assert (i = 255%nat) by lia. subst i. lia. }
    apply (K 256%nat 0%nat pal pal'); auto. lia. }
  destruct (C71_fix_palette pal L) as (p1 & E1 & L1 & A & _). rewrite E1 in H. injection H as ->.
  assert (A3 : forall n, (n < 256)%nat -> channel pal' n 3 = (if channel pal n 3 =? 0 then 0 else 255)).
  { intros n Hn. rewrite A by lia. unfold fixed. destruct (Z.eqb_spec (channel pal n 3) 0); cbn; auto. destruct (Z.eqb_spec (channel pal n 3) 255); cbn; auto. }
  split; auto. destruct (C71_fix_palette pal') as (p2 & E2 & L2 & A2 & B2); [lia|]. rewrite E2. f_equal. apply nth_ext with 0 0; auto. intros j Hj.
  destruct (Nat.le_gt_cases 1024 j) as [G|G]; [now apply B2|]. pose proof (Nat.div_mod_eq j 4) as D. pose proof (Nat.mod_upper_bound j 4 ltac:(lia)) as M0.
  assert (Hn : (j / 4 < 256)%nat) by (apply Nat.div_lt_upper_bound; lia). specialize (A2 (j / 4) (j mod 4) Hn M0)%nat. unfold channel at 1 in A2. rewrite <- D in A2. rewrite A2. unfold fixed.
  rewrite A3 by auto. destruct (channel pal (j / 4) 3 =? 0); cbn [Z.eqb Pos.eqb orb]; unfold channel; now rewrite <- D.
Qed.
(* a shorter palette raises *)
Theorem C71_fix_palette_short : forall pal, (List.length pal < 1024)%nat -> image_fix_palette pal = Raise IndexError.
Proof.
  intros pal G. unfold image_fix_palette.
  assert (K : forall k i q, (i + k = 256)%nat -> List.length q = List.length pal -> (0 < k)%nat -> foldM fix_entry q (seq i k) = Raise IndexError).
  { induction k as [|k IH]; intros i q E Lq P0; [lia|]. cbn [seq foldM]. destruct (Nat.le_gt_cases (List.length q) (4 * i + 3)) as [X|X].
    - unfold fix_entry. replace (i * 4 + 3)%nat with (4 * i + 3)%nat by lia. now rewrite (proj2 (nth_error_None q (4 * i + 3)) X).
    - destruct (fix_entry_ok q i X) as (q1 & E1 & L1 & _). rewrite E1. cbn [bind]. apply IH; lia. }
  apply K; auto. lia.
Qed.

(* int() of a float: towards zero *)
Definition float_int (f : PrimFloat.float) : Z :=
  match FloatOps.Prim2SF f with
  | SpecFloat.S754_finite s m e => let z := if 0 <=? e then Zpos m * 2 ^ e else Zpos m / 2 ^ (- e) in if s then - z else z
  | _ => 0
  end.
(* the float computation int(color * alpha / 255) gives the same bytes *)
Lemma fix_byte_float : forall color alpha, In color [64; 128; 255] -> 0 <= alpha < 256 -> float_int (ndiv (nofZ (color * alpha)) (nofZ 255) ) = fix_byte color alpha.
Proof.
  assert (K : forallb (fun c => forallb (fun a => float_int (ndiv (nofZ (c * Z.of_nat a)) (nofZ 255) ) =? fix_byte c (Z.of_nat a)) (seq 0 256)) [64; 128; 255] = true) by (vm_compute; reflexivity).
  intros c a I H. rewrite forallb_forall in K. specialize (K c I). rewrite forallb_forall in K. specialize (K (Z.to_nat a)). rewrite Z2Nat.id in K by lia. apply Z.eqb_eq, K, in_seq. lia.
Qed.

(* two frames with three colours *)
Definition ex_images : list (list rgb) := [[(9, 9, 9); (1, 2, 3); (1, 2, 3)]; [(9, 9, 10); (1, 2, 3)]].
Example C71_palette_ex : exists p, make_palette ex_images = Ok p /\ firstn 4 (slots p) = [(1, 2, 3); (9, 9, 10); (9, 9, 9); (4, 132, 240)].
Proof. eexists. split; vm_compute; reflexivity. Qed.
Example C71_order_ex : Permutation (concat ex_images) (concat (rev ex_images)).
Proof. cbn. apply (Permutation_app_comm [(9, 9, 9); (1, 2, 3); (1, 2, 3)] [(9, 9, 10); (1, 2, 3)]). Qed.
(* functions that keep the contracts, and frames *)
Definition ex_over (d s : rgba) : rgba := if alpha s =? 255 then s else if alpha s =? 0 then d else s.
Definition ex_nearest (s : list rgb) (c : rgb) : nat := match index_of c s with Some i => i | None => 0%nat end.
Example C71_contracts : (forall d c, ex_over d (c, 255) = (c, 255)) /\ (forall d c, ex_over d (c, 0) = d) /\
  (forall s c, In c s -> nth_error s (ex_nearest s c) = Some c).
Proof.
  split; [reflexivity|]. split; [reflexivity|]. intros s c. unfold ex_nearest. induction s as [|a s IH]; cbn; [intros []|]. intros I. destruct (rgb_eqb a c) eqn:E.
  - apply rgb_eqb_spec in E. now subst.
  - destruct I as [->|I]; [rewrite rgb_eqb_refl in E; discriminate|]. specialize (IH I). destruct (index_of c s) eqn:X; [exact IH|]. apply index_none in X. contradiction.
Qed.
Definition ex_frames : list (list rgba) := [[(9, 9, 9, 255); (1, 2, 3, 254); (1, 2, 3, 255)]; [(0, 0, 0, 255); (1, 2, 3, 0); (7, 7, 7, 255)]].
Example C71_gif_ex : (forall im, In im ex_frames -> im <> []) /\ (List.length (nodup rgb_dec (concat (map (fun im => on_black im) ex_frames))) <= 256)%nat /\
  exists s, gif_frames (fun im => im) ex_over ex_nearest ex_frames = Ok (s, [([1; 0; 3], 1); ([0; 0; 2], 0)])%nat.
Proof.
  split; [intros im [<-|[<-|[]]]; discriminate|]. split; [vm_compute; lia|]. eexists. vm_compute. reflexivity.
Qed.
Example C71_fix_ex : (1024 <= List.length (repeat 128 1024))%nat /\ exists p, image_fix_palette (repeat 128 1024) = Ok p /\ firstn 5 p = [32; 64; 128; 255; 32].
Proof. split; [vm_compute; lia|]. eexists. split; vm_compute; reflexivity. Qed.
