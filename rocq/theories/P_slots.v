(* Property theorems C82: the four numbers of a box, read and written by index.
   They hold for every number type; the order after sort for every ordered one. *)
Require Import Verif.Base Verif.NumR Verif.NumFloat Verif.L_ord Verif.L_real.
Require Import Verif.M_vector Verif.M_bbox Verif.S_bbox Verif.L_bbox Verif.P_bbox.
From Coq Require Import List ZArith Lia.
Import ListNotations.
Local Open Scope Z_scope.

(* ------------------------------------------------------------------ *)
(** ** specification: four places 0..3, also called -4..-1 *)

Definition place (i : Z) : option Z := if (-4 <=? i) && (i <? 4) then Some (i mod 4) else None.
Definition coordinate {F} (xl yl xh yh : F) (k : Z) : F :=
  if k =? 0 then xl else if k =? 1 then yl else if k =? 2 then xh else yh.
(* the last value written to place k, or what was there at first *)
Fixpoint last_written {F} (writes : list (Z * F)) (k : Z) (before : F) : F :=
  match writes with
  | [] => before
  | (i, v) :: rest =>
      last_written rest k (match place i with Some k' => if k' =? k then v else before | None => before end)
  end.
(* a program that writes b[i] = v one after the other and goes on after an exception *)
Definition write_one {F} {NF : Num F} (b : bbox F) (w : Z * F) : bbox F :=
  match b with
  | BNone => BNone
  | BB xl yl xh yh => match bb_setitem xl yl xh yh (fst w) (snd w) with Ok b' => b' | Raise _ => b end
  end.

Lemma place_cases i : (exists k, (i = k \/ i = k - 4) /\ 0 <= k < 4 /\ place i = Some k) \/ ((i < -4 \/ 4 <= i) /\ place i = None).
Proof.
  unfold place. destruct (Z.leb_spec (-4) i), (Z.ltb_spec i 4); cbn [andb]; try (right; split; [lia|reflexivity]).
  left. exists (i mod 4). pose proof (Z.mod_pos_bound i 4 ltac:(lia)) as B. pose proof (Z.div_mod i 4 ltac:(lia)) as D.
  split; [|split; [exact B|reflexivity]]. assert (i / 4 = 0 \/ i / 4 = -1) by lia. lia.
Qed.
Ltac four k := assert (k = 0 \/ k = 1 \/ k = 2 \/ k = 3) as [-> | [-> | [-> | ->]]] by lia.

(* b[i] *)
Theorem C82_read {F} {NF : Num F} (xl yl xh yh : F) (i : Z) :
  bbox_getitem (BB xl yl xh yh) i =
    (match place i with Some k => Ok (Some (coordinate xl yl xh yh k)) | None => Raise IndexError end) /\
  bbox_getitem (@BNone F) i = (match place i with Some _ => Ok None | None => Raise IndexError end).
Proof.
  destruct (place_cases i) as [(k & [-> | ->] & B & ->)|[C ->]].
  - four k; split; reflexivity.
  - four k; split; reflexivity.
  - unfold bbox_getitem. destruct (Z.ltb_spec i 0).
    + destruct (Z.ltb_spec (i + 4) 0); [split; reflexivity|lia].
    + destruct (Z.ltb_spec i 0); [lia|]. assert (N : (4 <= Z.to_nat i)%nat) by lia.
      rewrite (proj2 (nth_error_None [Some xl; Some yl; Some xh; Some yh] (Z.to_nat i)) N).
      rewrite (proj2 (nth_error_None [@None F; None; None; None] (Z.to_nat i)) N). split; reflexivity.
Qed.
(* b[i] = v changes that number and no other, or raises and changes none *)
Theorem C82_write {F} {NF : Num F} (xl yl xh yh v : F) (i : Z) :
  match place i with
  | Some k => exists a b c d, bb_setitem xl yl xh yh i v = Ok (BB a b c d) /\
      forall j, 0 <= j < 4 -> coordinate a b c d j = if k =? j then v else coordinate xl yl xh yh j
  | None => bb_setitem xl yl xh yh i v = Raise IndexError
  end.
Proof.
  destruct (place_cases i) as [(k & [-> | ->] & B & ->)|[C ->]].
  1, 2: four k; do 4 eexists; (split; [reflexivity|]); intros j Hj; four j; reflexivity.
  unfold bb_setitem. assert (E : forall z, (z < 0 \/ 4 <= z) -> match z with 0 => Ok (BB v yl xh yh) | 1 => Ok (BB xl v xh yh) | 2 => Ok (BB xl yl v yh) | 3 => Ok (BB xl yl xh v) | _ => Raise IndexError end = Raise IndexError).
  { intros z Hz. destruct z as [|[[q|q|]|[q|q|]|]|q]; try reflexivity; lia. }
  apply E. destruct (Z.ltb_spec i 0); lia.
Qed.
(* after any sequence of writes, some of which may raise *)
Theorem C82_history {F} {NF : Num F} (writes : list (Z * F)) : forall xl yl xh yh : F,
  exists a b c d, fold_left write_one writes (BB xl yl xh yh) = BB a b c d /\
  forall i k, place i = Some k ->
    bbox_getitem (fold_left write_one writes (BB xl yl xh yh)) i = Ok (Some (last_written writes k (coordinate xl yl xh yh k))).
Proof.
  induction writes as [|[i v] ws IH]; intros xl yl xh yh.
  - do 4 eexists. split; [reflexivity|]. intros i k E. cbn [fold_left last_written]. destruct (C82_read xl yl xh yh i) as [R _]. now rewrite E in R.
  - cbn [fold_left]. unfold write_one at 2 4. cbn [fst snd]. pose proof (C82_write xl yl xh yh v i) as W.
    destruct (place i) as [k'|] eqn:Pi.
    + destruct W as (a & b & c & d & E & H). rewrite E. destruct (IH a b c d) as (a' & b' & c' & d' & E' & H').
      exists a', b', c', d'. split; [exact E'|]. intros j k Pj. rewrite (H' j k Pj). cbn [last_written]. rewrite Pi.
      rewrite H; [reflexivity|]. destruct (place_cases j) as [(m & _ & B & Pm)|[_ Pm]]; rewrite Pm in Pj; [inversion Pj; subst; exact B|discriminate].
    + rewrite W. destruct (IH xl yl xh yh) as (a' & b' & c' & d' & E' & H'). exists a', b', c', d'. split; [exact E'|].
      intros j k Pj. rewrite (H' j k Pj). cbn [last_written]. now rewrite Pi.
Qed.

(* "a box is always ordered": not after a write, until sort() *)
Theorem C82_ordered_refuted : exists (b : bbox R) (w : Z * R), good b /\ ~ good (write_one b w).
Proof.
  exists (BB 0%R 0%R 1%R 1%R), (0, 2%R). split.
  - split; [repeat split|]. unfold le. cbn [nleb NumR]. split; apply Rleb_le; lra.
  - cbn. intros (_ & H & _). unfold le in H. cbn [nleb NumR] in H. apply Rleb_le in H. lra.
Qed.
(* sort() puts each pair in order and keeps the two numbers (of two equal ones, such as 0.0 and
   -0.0, the first); sorting again changes nothing *)
Definition in_order {F} {NF : Num F} (x y a c : F) : Prop :=
  (a = x /\ c = y) \/ (a = y /\ c = x) \/ (a = x /\ c = x /\ eqn x y).
Lemma sort_pair {F} {NF : Num F} {OF : NumOrd F} (x y : F) : ok x -> ok y ->
  le (pymin x y) (pymax x y) /\ in_order x y (pymin x y) (pymax x y) /\ pymin (pymin x y) (pymax x y) = pymin x y /\ pymax (pymin x y) (pymax x y) = pymax x y.
Proof.
  intros Ox Oy. unfold pymin, pymax, in_order, le, eqn.
  rewrite (ord_ltb Oy Ox), (ord_ltb Ox Oy). rewrite (ord_eqb Ox Oy).
  destruct (nleb x y) eqn:A, (nleb y x) eqn:B; cbn [negb andb].
  - rewrite (ord_ltb Ox Ox), (ord_refl Ox). cbn. auto 10.
  - rewrite (ord_ltb Oy Ox), (ord_ltb Ox Oy), A, B. cbn. auto 10.
  - rewrite (ord_ltb Oy Ox), (ord_ltb Ox Oy), A, B. cbn. auto 10.
  - destruct (ord_total Ox Oy); congruence.
Qed.
Theorem C82_sort {F} {NF : Num F} {OF : NumOrd F} (xl yl xh yh : F) : ok xl -> ok yl -> ok xh -> ok yh ->
  exists a b c d, bbox_sort (BB xl yl xh yh) = Ok (BB a b c d) /\ le a c /\ le b d /\
    in_order xl xh a c /\ in_order yl yh b d /\ bbox_sort (BB a b c d) = Ok (BB a b c d).
Proof.
  intros O1 O2 O3 O4. unfold bbox_sort, mkbbox. destruct (sort_pair xl xh O1 O3) as (A1 & A2 & A3 & A4).
  destruct (sort_pair yl yh O2 O4) as (B1 & B2 & B3 & B4).
  do 4 eexists. split; [reflexivity|]. rewrite A3, A4, B3, B4. auto 10.
Qed.
Theorem C82_sort_ordered {F} {NF : Num F} {OF : NumOrd F} (b : bbox F) : good b -> b <> BNone ->
  exists b', bbox_sort b = Ok b' /\ bbox_eqb b' b = true /\ bbox_eqb (bbox_copy b) b' = true.
Proof.
  destruct b as [|xl yl xh yh]; [congruence|]. intros ((O1 & O2 & O3 & O4) & L1 & L2) _. eexists. split; [reflexivity|].
  unfold bbox_copy, mkbbox, bbox_eqb, le in *. ord [xl; yl; xh; yh].
Qed.
Theorem C82_none {F} {NF : Num F} : bbox_sort (@BNone F) = Raise TypeError /\
  (forall b : bbox F, bbox_is_none b = true <-> bbox_eqb b BNone = true) /\ bbox_size (@BNone F) = (nofZ 0, nofZ 0).
Proof. split; [reflexivity|]. split; [|reflexivity]. intros [|]; cbn; intuition. Qed.
(* size: how far apart the edges are; it is positive in both directions exactly when the box is
   not empty *)
Theorem C82_size (b : bbox R) : good b ->
  (match b with BNone => bbox_size b = (0, 0)%R | BB xl yl xh yh => bbox_size b = (xh - xl, yh - yl)%R end) /\
  (0 <= fst (bbox_size b) /\ 0 <= snd (bbox_size b))%R /\
  (bbox_is_empty b = false <-> (0 < fst (bbox_size b) /\ 0 < snd (bbox_size b))%R) /\
  bbox_area b = (fst (bbox_size b) * snd (bbox_size b))%R.
Proof.
  destruct b as [|xl yl xh yh]; cbn [good bbox_size bbox_width bbox_height bbox_is_empty bbox_area fst snd].
  - intros _. unfold bbox_size. cbn. split; [reflexivity|]. split; [lra|]. split; [|lra]. split; [discriminate|lra].
  - intros (_ & L1 & L2). unfold le in *. cbn [nleb NumR] in *. apply Rleb_le in L1, L2. unfold bbox_size. cbn.
    split; [reflexivity|]. split; [lra|]. split; [|reflexivity]. rewrite Bool.orb_false_iff, !Reqb_neq. lra.
Qed.

(* equality: the same four numbers, which for boxes in order is the same set of points *)
Definition covers (b : bbox R) (x y : R) : Prop :=
  match b with BNone => False | BB xl yl xh yh => (xl <= x <= xh /\ yl <= y <= yh)%R end.
Theorem C82_equal (a b : bbox R) : (bbox_eqb a b = true <-> a = b) /\
  (good a -> good b -> (bbox_eqb a b = true <-> forall x y, covers a x y <-> covers b x y)).
Proof.
  assert (E : bbox_eqb a b = true <-> a = b).
  { destruct a as [|xl yl xh yh], b as [|xl' yl' xh' yh']; cbn [bbox_eqb neqb NumR]; try (split; [discriminate|congruence]); [tauto|].
    rewrite !Bool.andb_true_iff, !Reqb_eq. split; [intros (((-> & ->) & ->) & ->); reflexivity|intros H; injection H as -> -> -> ->; auto]. }
  split; [exact E|]. intros Ga Gb. rewrite E. clear E. split; [intros ->; tauto|].
  destruct a as [|xl yl xh yh], b as [|xl' yl' xh' yh']; [reflexivity| | |]; intros H.
  - destruct Gb as (_ & L1 & L2). unfold le in *. cbn [nleb NumR] in *. apply Rleb_le in L1, L2. exfalso. apply (H xl' yl'). cbn. lra.
  - destruct Ga as (_ & L1 & L2). unfold le in *. cbn [nleb NumR] in *. apply Rleb_le in L1, L2. exfalso. apply (H xl yl). cbn. lra.
  - destruct Ga as (_ & L1 & L2). destruct Gb as (_ & L3 & L4). unfold le in *. cbn [nleb NumR] in *. apply Rleb_le in L1, L2, L3, L4.
    pose proof (proj1 (H xl yl)) as H1. pose proof (proj1 (H xh yh)) as H2. pose proof (proj2 (H xl' yl')) as H3. pose proof (proj2 (H xh' yh')) as H4. cbn in H1, H2, H3, H4.
    f_equal; lra.
Qed.

(* ------------------------------------------------------------------ *)
(** ** cases that meet the hypotheses *)

Example C82_example_history : fold_left write_one [(-1, 9%R); (7, 5%R); (0, 4%R); (0, 6%R); (-5, 1%R)] (BB 0 1 2 3)%R = BB 6%R 1%R 2%R 9%R /\
  place (-1) = Some 3 /\ place 0 = Some 0 /\ place 7 = None /\ place (-5) = None /\
  last_written [(-1, 9%R); (7, 5%R); (0, 4%R); (0, 6%R); (-5, 1%R)] 0 0%R = 6%R.
Proof. repeat split. Qed.
Example C82_example_sort : bbox_sort (BB 3 1 2 5)%R = Ok (BB 2 1 3 5)%R.
Proof.
  unfold bbox_sort, mkbbox, pymin, pymax. cbn [nltb NumR].
  repeat match goal with |- context [Rltb ?a ?b] => destruct (Rltb a b) eqn:? end;
    repeat match goal with H : Rltb _ _ = true |- _ => apply Rltb_lt in H | H : Rltb _ _ = false |- _ => apply Rltb_ge in H end; try lra. reflexivity.
Qed.
