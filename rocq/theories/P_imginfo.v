(* What image_info prints: C84. *)
Require Import Verif.Base Verif.M_frames Verif.M_imginfo Verif.S_imginfo Verif.P_frames.
From Coq Require Import ZArith List Bool Lia.
Import ListNotations.
Local Open Scope Z_scope.

Section Rows.
  Variable A : Type.
  Variable eqb : A -> A -> bool.
  Hypothesis eqb_spec : forall a b, eqb a b = true <-> a = b.

  Let eqb_refl a : eqb a a = true. Proof. apply eqb_spec. reflexivity. Qed.
  Let eqb_neq a b : a <> b -> eqb a b = false.
  Proof. intros N. destruct (eqb a b) eqn:E; [|reflexivity]. apply eqb_spec in E. contradiction. Qed.

  (* the three situations the loop can be in: nothing or a pixel in front, one background pixel in
     front, dots in front *)
  Lemma row_loop_spec zero vals :
    (forall data, (data = [] \/ exists v d, data = Cpixel v :: d /\ v <> zero) ->
       exists d, row_shown A zero vals d /\ row_loop A eqb zero data vals = rev data ++ d) /\
    (forall data n l, vals = repeat zero n ++ l -> hd_error l <> Some zero ->
       exists d, row_shown A zero l d /\
         row_loop A eqb zero (Cpixel zero :: data) vals
         = rev data ++ Cpixel zero :: (if (n =? 0)%nat then d else Cdots :: d)) /\
    (forall data n l, vals = repeat zero n ++ l -> hd_error l <> Some zero ->
       exists d, row_shown A zero l d /\
         row_loop A eqb zero (Cdots :: data) vals = rev data ++ Cdots :: d).
  Proof.
    induction vals as [|val vals [IH1 [IH2 IH3]]].
    - split; [|split].
      + intros data _. exists []. split; [constructor|]. cbn. rewrite app_nil_r. reflexivity.
      + intros data n l E H. destruct n; [|discriminate]. cbn in E. subst l. exists []. split; [constructor|].
        reflexivity.
      + intros data n l E H. destruct n; [|discriminate]. cbn in E. subst l. exists []. split; [constructor|].
        reflexivity.
    - assert (R : forall l : list A, exists n r, l = repeat zero n ++ r /\ hd_error r <> Some zero).
      { induction l as [|a l [n [r [E H]]]].
        - exists O, []. split; [reflexivity|discriminate].
        - destruct (eqb a zero) eqn:Z.
          + apply eqb_spec in Z. subst a. exists (S n), r. split; [cbn; rewrite E; reflexivity|exact H].
          + exists O, (a :: l). split; [reflexivity|]. cbn. intros Q. injection Q as ->. rewrite eqb_refl in Z. discriminate. }
      split; [|split].
      + intros data D.
        destruct (eqb val zero) eqn:Z.
        * apply eqb_spec in Z. subst val. destruct (R vals) as [n [r [E H]]].
          destruct (IH2 data n r E H) as [d [S1 S2]].
          exists (Cpixel zero :: (if (n =? 0)%nat then d else Cdots :: d)). split.
          { rewrite E. destruct n; [apply row_one; assumption|apply row_run; assumption]. }
          rewrite <- S2. cbn [row_loop]. f_equal.
          destruct D as [->|[v [d' [-> N]]]]; [reflexivity|]. rewrite eqb_refl. cbn. rewrite (eqb_neq _ _ N). reflexivity.
        * assert (N : val <> zero) by (intros ->; rewrite eqb_refl in Z; discriminate).
          destruct (IH1 (Cpixel val :: data)) as [d [S1 S2]]; [right; eauto|].
          exists (Cpixel val :: d). split; [apply row_pixel; assumption|].
          replace (rev data ++ Cpixel val :: d) with (rev (Cpixel val :: data) ++ d) by (cbn; rewrite <- app_assoc; reflexivity).
          rewrite <- S2. cbn [row_loop]. f_equal.
          destruct D as [->|[v [d' [-> M]]]]; [reflexivity|]. rewrite Z. reflexivity.
      + intros data n l E H. destruct n as [|n]; cbn in E.
        * subst l. cbn in H. assert (N : val <> zero) by (intros ->; apply H; reflexivity).
          destruct (IH1 (Cpixel val :: Cpixel zero :: data)) as [d [S1 S2]]; [right; eauto|].
          exists (Cpixel val :: d). split; [apply row_pixel; assumption|].
          cbn [row_loop]. rewrite (eqb_neq _ _ N). cbn [negb]. rewrite S2. cbn. rewrite <- !app_assoc. reflexivity.
        * injection E as -> E. destruct (IH3 (Cpixel zero :: data) n l E H) as [d [S1 S2]].
          exists d. split; [exact S1|]. cbn [row_loop]. rewrite !eqb_refl. cbn [negb]. rewrite S2.
          cbn. rewrite <- app_assoc. reflexivity.
      + intros data n l E H. destruct n as [|n]; cbn in E.
        * subst l. cbn in H. assert (N : val <> zero) by (intros ->; apply H; reflexivity).
          destruct (IH1 (Cpixel val :: Cdots :: data)) as [d [S1 S2]]; [right; eauto|].
          exists (Cpixel val :: d). split; [apply row_pixel; assumption|].
          cbn [row_loop]. rewrite (eqb_neq _ _ N). cbn [negb]. rewrite S2. cbn. rewrite <- !app_assoc. reflexivity.
        * injection E as -> E. destruct (IH3 data n l E H) as [d [S1 S2]].
          exists d. split; [exact S1|]. cbn [row_loop]. rewrite !eqb_refl. cbn [negb]. exact S2.
  Qed.
End Rows.

(* A row is printed pixel by pixel, runs of the background collapsed, and this says what is printed. *)
Theorem C84_row : forall A (eqb : A -> A -> bool), (forall a b, eqb a b = true <-> a = b) ->
  forall zero vals d, row_loop A eqb zero [] vals = d <-> row_shown A zero vals d.
Proof.
  intros A eqb Q zero vals d.
  destruct (row_loop_spec A eqb Q zero vals) as [H _]. destruct (H [] (or_introl eq_refl)) as [d0 [S1 S2]].
  cbn in S2. rewrite S2. split; [intros <-; exact S1|]. intros S3. clear - S1 S3.
  assert (HD : forall n (l : list A) z, hd_error l <> Some z -> forall n' l', hd_error l' <> Some z ->
             repeat z n ++ l = repeat z n' ++ l' -> n = n' /\ l = l').
  { induction n as [|n IH]; intros l z N [|n'] l' N' E; cbn in E.
    - auto.
    - subst l. elim N. reflexivity.
    - subst l'. elim N'. reflexivity.
    - injection E as E. destruct (IH l z N n' l' N' E) as [-> ->]. auto. }
  revert d S3. induction S1 as [|v l d0 N SH IH|l d0 N SH IH|n l d0 N SH IH]; intros d' S3.
  - inversion S3. reflexivity.
  - inversion S3; subst; try congruence. f_equal. auto.
  - inversion S3 as [|v0 l0 d1 N0 T E1 E2|l0 d1 N0 T E1 E2|n0 l0 d1 N0 T E1 E2]; subst; try congruence.
    + f_equal. auto.
    + exfalso. apply N. reflexivity.
  - inversion S3 as [|v0 l0 d1 N0 T E1 E2|l0 d1 N0 T E1 E2|n0 l0 d1 N0 T E1 E2]; subst; try congruence.
    + exfalso. apply N0. reflexivity.
    + destruct (HD n0 l0 zero N0 n l N E1) as [Q1 ->]. do 2 f_equal. auto.
Qed.

(* No pixel other than the background is lost, repeated or moved. *)
Theorem C84_pixels : forall A (eqb : A -> A -> bool), (forall a b, eqb a b = true <-> a = b) ->
  forall zero vals,
    filter (fun v => negb (eqb v zero)) (pixels A (row_loop A eqb zero [] vals))
    = filter (fun v => negb (eqb v zero)) vals.
Proof.
  intros A eqb Q zero vals. pose proof (proj1 (C84_row A eqb Q zero vals _) eq_refl) as H.
  remember (row_loop A eqb zero [] vals) as d. clear Heqd.
  assert (Z : eqb zero zero = true) by (apply Q; reflexivity).
  induction H as [|v l d N SH IH|l d N SH IH|n l d N SH IH]; cbn.
  - reflexivity.
  - change (flat_map _ d) with (pixels A d). rewrite IH. reflexivity.
  - change (flat_map _ d) with (pixels A d). rewrite Z. exact IH.
  - change (flat_map _ d) with (pixels A d). rewrite Z. cbn. rewrite IH.
    induction n as [|n IHn]; cbn; [reflexivity|]. rewrite Z. exact IHn.
Qed.

(* ---------------- The palette ---------------- *)

Lemma byte_lines_spec A l : forall total idx, -10 <= total -> 
  byte_lines A total idx l
  = let keep := filter (fun b => negb (snd b =? 0)) (combine (seq idx (length l)) l) in
    let room := Z.to_nat (9 - total) in
    map (fun b => Lbyte (fst b) (snd b)) (firstn room keep)
    ++ (if (total <? 10) && (room <? length keep)%nat then [Ldots] else []).
Proof.
  induction l as [|v l IH]; intros total idx T; cbn [byte_lines length seq combine filter snd].
  - cbv zeta. rewrite firstn_nil. cbn. rewrite andb_false_r. reflexivity.
  - destruct (v =? 0) eqn:V; cbn [negb]; [rewrite IH by lia; reflexivity|].
    rewrite IH by lia. cbv zeta. set (keep := filter _ (combine (seq (S idx) (length l)) l)). cbn [length].
    destruct (10 <=? total + 1) eqn:L; [apply Z.leb_le in L|apply Z.leb_gt in L].
    + replace (Z.to_nat (9 - (total + 1))) with O by lia. replace (Z.to_nat (9 - total)) with O by lia.
      cbn [firstn map app]. replace (total + 1 <? 10) with false by (symmetry; apply Z.ltb_ge; lia). cbn [andb].
      rewrite app_nil_r. replace ((0 <? S (length keep))%nat) with true by reflexivity. rewrite andb_true_r.
      destruct (total + 1 =? 10) eqn:E; [apply Z.eqb_eq in E|apply Z.eqb_neq in E].
      * replace (total <? 10) with true by (symmetry; apply Z.ltb_lt; lia). reflexivity.
      * replace (total <? 10) with false by (symmetry; apply Z.ltb_ge; lia). reflexivity.
    + replace (Z.to_nat (9 - total)) with (S (Z.to_nat (9 - (total + 1)))) by lia.
      cbn [firstn map app fst snd]. f_equal. f_equal.
      replace (total + 1 <? 10) with true by (symmetry; apply Z.ltb_lt; lia).
      replace (total <? 10) with true by (symmetry; apply Z.ltb_lt; lia). reflexivity.
Qed.

Lemma color_at_ok p n : (n < 256)%nat -> (256 * p_channels p <= length (p_colors p))%nat ->
  color_at p n = Ok (planar_color (p_channels p) (p_colors p) n).
Proof.
  intros N L. unfold color_at, planar_color.
  assert (H : forall ks, (forall k, In k ks -> (k < p_channels p)%nat) ->
    mapM (fun cn => match nth_error (p_colors p) (n + cn * 256) with Some v => Ok v | None => Raise IndexError end) ks
    = Ok (map (fun c => nth (n + 256 * c) (p_colors p) 0) ks)).
  { induction ks as [|k ks IH]; intros K; [reflexivity|]. cbn [mapM map].
    rewrite (nth_error_nth' (p_colors p) 0) by (specialize (K k (or_introl eq_refl)); nia).
    cbn [bind]. rewrite IH by (intros; apply K; right; assumption). cbn [bind].
    replace (n + k * 256)%nat with (n + 256 * k)%nat by lia. reflexivity. }
  apply H. intros k K. apply in_seq in K. lia.
Qed.

Lemma color_lines_spec A p ns : forall total, 0 <= total ->
  (forall n, In n ns -> (n < 256)%nat) -> (256 * p_channels p <= length (p_colors p))%nat ->
  color_lines A p total ns
  = (let keep := filter (fun c => existsb (fun v => negb (v =? 0)) (snd c))
                   (map (fun n => (n, planar_color (p_channels p) (p_colors p) n)) ns) in
     let room := Z.to_nat (19 - total) in
     map (fun c => Lcolor (fst c) (snd c)) (firstn room keep)
     ++ (if (total <? 20) && (room <? length keep)%nat then [Ldots] else []), Ok tt).
Proof.
  induction ns as [|n ns IH]; intros total T H L; cbn [color_lines map filter snd].
  - cbv zeta. rewrite firstn_nil. cbn. rewrite andb_false_r. reflexivity.
  - rewrite color_at_ok by (auto using in_eq).
    destruct (existsb _ (planar_color (p_channels p) (p_colors p) n)) eqn:V.
    2: { apply IH; auto. intros; apply H; right; assumption. }
    cbv zeta. rewrite IH; [|lia|intros; apply H; right; assumption|exact L]. cbv zeta. f_equal.
    set (keep := filter _ (map _ ns)). cbn [length].
    destruct (20 <=? total + 1) eqn:B; [apply Z.leb_le in B|apply Z.leb_gt in B].
    + replace (Z.to_nat (19 - (total + 1))) with O by lia. replace (Z.to_nat (19 - total)) with O by lia.
      cbn [firstn map app]. replace (total + 1 <? 20) with false by (symmetry; apply Z.ltb_ge; lia). cbn [andb].
      rewrite app_nil_r. replace ((0 <? S (length keep))%nat) with true by reflexivity. rewrite andb_true_r.
      destruct (total + 1 =? 20) eqn:E; [apply Z.eqb_eq in E|apply Z.eqb_neq in E].
      * replace (total <? 20) with true by (symmetry; apply Z.ltb_lt; lia). reflexivity.
      * replace (total <? 20) with false by (symmetry; apply Z.ltb_ge; lia). reflexivity.
    + replace (Z.to_nat (19 - total)) with (S (Z.to_nat (19 - (total + 1)))) by lia.
      cbn [firstn map app fst snd]. f_equal. f_equal.
      replace (total + 1 <? 20) with true by (symmetry; apply Z.ltb_lt; lia).
      replace (total <? 20) with true by (symmetry; apply Z.ltb_lt; lia). reflexivity.
Qed.

(* The palette is listed: its first nineteen bytes that are not 0, its first nineteen colours that
   are not black, each followed by dots exactly when there are more. *)
Theorem C84_palette : forall A p,
  (0 < p_channels p)%nat -> (length (p_bytes p) <= 256 * p_channels p)%nat ->
  (256 * p_channels p <= length (p_colors p))%nat ->
  image_info_palette A (Some p)
  = (listing A (fun b => Lbyte (fst b) (snd b)) (nonzero_bytes (p_bytes p))
     ++ listing A (fun c => Lcolor (fst c) (snd c))
          (planar_colors (p_channels p) (length (p_bytes p) / p_channels p) (p_colors p)), Ok tt).
Proof.
  intros A p C B L. unfold image_info_palette.
  replace ((p_channels p =? 0)%nat) with false by (symmetry; apply Nat.eqb_neq; lia).
  rewrite color_lines_spec; [|lia| |exact L].
  - rewrite byte_lines_spec by lia. reflexivity.
  - intros n N. apply in_seq in N.
    assert (Q : (length (p_bytes p) / p_channels p <= 256)%nat).
    { transitivity ((256 * p_channels p) / p_channels p)%nat; [apply Nat.div_le_mono; lia|].
      rewrite Nat.div_mul by lia. lia. }
    lia.
Qed.

(* An image whose palette has an alpha channel cannot be described: getpalette() gives three
   channels of 256 entries, and the fourth is looked for behind them. *)
Theorem C84_alpha_palette_refuted : forall A eqb xs ys px bbox p,
  p_channels p = 4%nat -> (4 <= length (p_bytes p))%nat -> length (p_colors p) = 768%nat ->
  snd (image_info A eqb xs ys px bbox (Some p)) = Raise IndexError.
Proof.
  intros A eqb xs ys px bbox p C B L. unfold image_info, image_info_palette. rewrite C. cbn [Nat.eqb].
  assert (Q : (1 <= length (p_bytes p) / 4)%nat) by (apply Nat.div_le_lower_bound; lia).
  destruct (length (p_bytes p) / 4)%nat as [|k]; [lia|]. cbn [seq color_lines].
  assert (R : color_at p 0 = Raise IndexError).
  { unfold color_at. rewrite C. cbn [seq mapM].
    rewrite !(nth_error_nth' (p_colors p) 0) by (rewrite L; lia). cbn [bind].
    rewrite (proj2 (nth_error_None _ _)) by (rewrite L; lia). reflexivity. }
  rewrite R. reflexivity.
Qed.

(* The colours are read as if all reds came first: a palette stored as red, green, blue, red, ...
   (whose bytes are its colours) is listed with colours it does not contain. *)
Theorem C84_interleaved_refuted : exists p n c,
  p_channels p = 3%nat /\ p_bytes p = p_colors p /\ length (p_colors p) = 768%nat /\
  In (Lcolor n c) (fst (image_info_palette Z (Some p))) /\
  forall m, (m < 256)%nat ->
    c <> [nth (3 * m) (p_colors p) 0; nth (3 * m + 1) (p_colors p) 0; nth (3 * m + 2) (p_colors p) 0].
Proof.
  pose (bs := [9; 8; 7] ++ repeat 0 765).
  exists (Palette 3 bs bs), 0%nat, [9; 0; 0]. split; [reflexivity|]. split; [reflexivity|]. split; [reflexivity|].
  split; [vm_compute; tauto|]. intros m M. cbn [p_colors].
  destruct m as [|m]; [discriminate|]. intros E. apply (f_equal (hd 0)) in E. change (9 = nth (3 * S m) ([9; 8; 7] ++ repeat 0 765) 0) in E.
  rewrite app_nth2 in E by (cbn [length]; lia). rewrite nth_repeat in E. discriminate.
Qed.

(* ---------------- The whole ---------------- *)

Lemma zrange_map lo n : map (fun i => lo + i) (zrange n) = map (fun i => lo + Z.of_nat i) (seq 0 (Z.to_nat n)).
Proof. unfold zrange. rewrite map_map. reflexivity. Qed.

(* image_info of an image with a palette it can list prints, after the palette, the rows from two
   above the first row with a pixel that is not 0 to three below, as far as they are in the image,
   each cut after 256 pixels; the background is the upper left pixel.  In particular the first row
   with such a pixel is printed. *)
Theorem C84_rows : forall A eqb im px pal out,
  (forall a b, eqb a b = true <-> a = b) ->
  0 < i_w im -> 0 < i_h im -> image_info_palette A pal = (out, Ok tt) ->
  exists rows,
    image_info A eqb (i_w im) (i_h im) px (getbbox im) pal = (out ++ rows, Ok tt) /\
    (forall k r, nth_error rows k = Some r <->
       exists d, r = Lrow (Z.max 0 (match getbbox im with Some (_, y, _, _) => y | None => 0 end - 2) + Z.of_nat k) d /\
         Z.max 0 (match getbbox im with Some (_, y, _, _) => y | None => 0 end - 2) + Z.of_nat k
           < Z.min (i_h im) (match getbbox im with Some (_, y, _, _) => y | None => 0 end + 4) /\
         row_shown A (px 0 0)
           (map (fun x => px (Z.of_nat x)
                  (Z.max 0 (match getbbox im with Some (_, y, _, _) => y | None => 0 end - 2) + Z.of_nat k))
              (seq 0 (Z.to_nat (Z.min 256 (i_w im))))) d) /\
    (forall x y, shown im x y -> (forall x' y', shown im x' y' -> y <= y') -> exists d, In (Lrow y d) rows).
Proof.
  intros A eqb im px pal out Q W H P. unfold image_info. rewrite P.
  replace ((i_w im <=? 0) || (i_h im <=? 0)) with false
    by (symmetry; apply orb_false_iff; split; apply Z.leb_gt; lia).
  set (low := match getbbox im with Some (_, y, _, _) => y | None => 0 end).
  assert (E : forall (f : Z -> list (line A) * res unit),
    (let '(_, low_y, _, _) := match getbbox im with Some b => b | None => (0, 0, 0, 0) end in f low_y) = f low).
  { intros f. subst low. destruct (getbbox im) as [[[[b0 b1] b2] b3]|]; reflexivity. }
  rewrite E. clear E. cbv zeta. rewrite zrange_map, map_map.
  eexists. split; [reflexivity|].
  assert (K : forall k r, nth_error (map (fun i => Lrow (Z.max 0 (low - 2) + Z.of_nat i)
       (row_loop A eqb (px 0 0) [] (map (fun x => px x (Z.max 0 (low - 2) + Z.of_nat i)) (zrange (Z.min 256 (i_w im))))))
       (seq 0 (Z.to_nat (Z.min (i_h im) (low + 4) - Z.max 0 (low - 2))))) k = Some r <->
       exists d, r = Lrow (Z.max 0 (low - 2) + Z.of_nat k) d /\
         Z.max 0 (low - 2) + Z.of_nat k < Z.min (i_h im) (low + 4) /\
         row_shown A (px 0 0)
           (map (fun x => px (Z.of_nat x) (Z.max 0 (low - 2) + Z.of_nat k)) (seq 0 (Z.to_nat (Z.min 256 (i_w im))))) d).
  { intros k r.
    assert (MZ : map (fun x => px x (Z.max 0 (low - 2) + Z.of_nat k)) (zrange (Z.min 256 (i_w im)))
       = map (fun x => px (Z.of_nat x) (Z.max 0 (low - 2) + Z.of_nat k)) (seq 0 (Z.to_nat (Z.min 256 (i_w im))))).
    { unfold zrange. rewrite map_map. reflexivity. }
    set (N := Z.to_nat (Z.min (i_h im) (low + 4) - Z.max 0 (low - 2))).
    rewrite nth_error_map. destruct (Nat.lt_ge_cases k N) as [B|B].
    - rewrite (nth_error_nth' (seq 0 N) O) by (rewrite seq_length; exact B). rewrite seq_nth by exact B. cbn [option_map Nat.add].
      rewrite MZ. split.
      + intros R. injection R as <-. eexists. split; [reflexivity|]. split; [subst N; lia|].
        apply (C84_row A eqb Q). reflexivity.
      + intros [d [-> [_ S1]]]. apply (C84_row A eqb Q) in S1. rewrite S1. reflexivity.
    - rewrite (proj2 (nth_error_None _ _)) by (rewrite seq_length; exact B). cbn. split; [discriminate|].
      intros [d [_ [B' _]]]. subst N. lia. }
  split; [exact K|].
  intros x y S1 S2.
  assert (Y : low = y).
  { subst low. destruct (getbbox im) as [[[[b0 b1] b2] b3]|] eqn:G.
    - apply (proj2 (C61_getbbox im)) in G. unfold hull in G. destruct G as [G1 [_ [[x' G2] _]]].
      specialize (G1 _ _ S1). specialize (S2 _ _ G2). lia.
    - pose proof (proj1 (proj1 (C61_getbbox im)) G x y). contradiction. }
  destruct S1 as [X1 [Y1 _]].
  pose (k := Z.to_nat (y - Z.max 0 (low - 2))).
  assert (KE : Z.max 0 (low - 2) + Z.of_nat k = y) by (subst k; lia).
  eexists. apply (nth_error_In _ k). apply K. eexists. rewrite KE. split; [reflexivity|]. split; [lia|].
  apply (C84_row A eqb Q). reflexivity.
Qed.

Example C84_row_example :
  row_loop Z Z.eqb 0 [] [0; 0; 0; 5; 0; 6; 7; 0; 0] =
    [Cpixel 0; Cdots; Cpixel 5; Cpixel 0; Cpixel 6; Cpixel 7; Cpixel 0; Cdots] /\
  (forall a b, Z.eqb a b = true <-> a = b).
Proof. split; [reflexivity|]. exact Z.eqb_eq. Qed.
Example C84_palette_example :
  let bs := [0; 1; 0; 2] ++ repeat 0 252 ++ [3] ++ repeat 0 255 ++ repeat 0 256 in
  let p := Palette 3 bs bs in
  (0 < p_channels p)%nat /\ (length (p_bytes p) <= 256 * p_channels p)%nat /\
  (256 * p_channels p <= length (p_colors p))%nat /\
  image_info_palette Z (Some p)
  = ([Lbyte 1 1; Lbyte 3 2; Lbyte 256 3; Lcolor 0 [0; 3; 0]; Lcolor 1 [1; 0; 0]; Lcolor 3 [2; 0; 0]], Ok tt).
Proof.
  cbv zeta. split; [cbn; lia|]. split; [apply Nat.leb_le; reflexivity|].
  split; [apply Nat.leb_le; reflexivity|]. vm_compute. reflexivity.
Qed.
Example C84_alpha_example :
  let p := Palette 4 (repeat 1 1024) (repeat 1 768) in
  p_channels p = 4%nat /\ (4 <= length (p_bytes p))%nat /\ length (p_colors p) = 768%nat.
Proof. cbv zeta. split; [reflexivity|]. split; [apply Nat.leb_le; reflexivity|reflexivity]. Qed.
Example C84_rows_example :
  let im := Image 4 9 (fun x y => (x =? 2) && (y =? 5)) in
  0 < i_w im /\ 0 < i_h im /\ shown im 2 5 /\ (forall x y, shown im x y -> 5 <= y) /\
  fst (image_info Z Z.eqb 4 9 (fun x y => if i_on im x y then 7 else 0) (getbbox im) (Some (Palette 3 (repeat 0 768) (repeat 0 768))))
  = [Lrow 3 [Cpixel 0; Cdots]; Lrow 4 [Cpixel 0; Cdots]; Lrow 5 [Cpixel 0; Cdots; Cpixel 7; Cpixel 0];
     Lrow 6 [Cpixel 0; Cdots]; Lrow 7 [Cpixel 0; Cdots]; Lrow 8 [Cpixel 0; Cdots]].
Proof.
  cbv zeta. split; [reflexivity|]. split; [reflexivity|]. split; [unfold shown; cbn; lia|].
  split; [|vm_compute; reflexivity]. intros x y [_ [_ H]]. cbn in H. apply andb_true_iff in H. lia.
Qed.
