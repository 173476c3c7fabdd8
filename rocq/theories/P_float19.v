(* Property theorems C92, continued: the box of a group is put together without rounding. *)
From Coq Require Import Reals Floats ZArith List Lra Lia String.
Require Import Verif.Base Verif.NumFloat Verif.NumR Verif.M_vector Verif.M_bbox Verif.M_transform Verif.M_bezier Verif.M_colors Verif.M_elems Verif.M_group.
Require Import Verif.S_float Verif.L_float Verif.L_float2 Verif.S_group Verif.S_gdraw Verif.S_bbox Verif.L_real Verif.L_bboxR Verif.L_elems Verif.L_group Verif.L_gdraw Verif.P_float3 Verif.P_elems Verif.P_gdraw Verif.P_float16.
Import ListNotations.
Set Warnings "-inexact-float".
Local Open Scope R_scope.

Lemma min_le_max (a c : float) : finite (pymin a c) -> finite (pymax a c) -> val (pymin a c) <= val (pymax a c).
Proof.
  intros A B. unfold pymin, pymax in *. cbn [nltb NumFloat] in *.
  destruct (PrimFloat.ltb c a) eqn:E1; destruct (PrimFloat.ltb a c) eqn:E2; try lra.
  - rewrite ltb_ok in E1 by assumption. unfold Rltb in E1. destruct (Rlt_dec (val c) (val a)); [lra|discriminate].
  - rewrite ltb_ok in E2 by assumption. unfold Rltb in E2. destruct (Rlt_dec (val a) (val c)); [lra|discriminate].
Qed.

Lemma mk_good (a b c d : float) : finiteb (mkbbox a b c d) -> good (valb (mkbbox a b c d)).
Proof.
  unfold mkbbox. cbn [finiteb valb good]. intros (A & B & C & D).
  pose proof (min_le_max a c A C). pose proof (min_le_max b d B D). cbn. repeat split; auto; unfold le; cbn [nleb NumR]; unfold Rleb; destruct (Rle_dec _ _); auto; contradiction.
Qed.

Lemma elem_box_good (e : elem float) x : elem_bbox e = Ok x -> finiteb x -> good (valb x) /\ valb x <> BNone.
Proof.
  unfold elem_bbox. destruct (elem_bbox_int e) as [bi|y]; cbn [bind]; [|discriminate]. intros E.
  destruct bi as [|xl yl xh yh]; [discriminate|].
  unfold bbox_ext in E. cbn [bind bbox_pll bbox_phh bbox_plh bbox_phl] in E. apply Ok_inj in E.
  assert (X : exists x1 x2 x3 x4, x = mkbbox x1 x2 x3 x4) by (do 4 eexists; rewrite <- E; reflexivity).
  destruct X as (x1 & x2 & x3 & x4 & ->). intros H. split; [now apply mk_good|discriminate].
Qed.

Lemma fold_boxes_float {A} (g : A -> res (bbox float)) (l : list A) : forall acc,
  foldM (fun acc a => let* x := g a in Ok (bbox_add acc x)) acc l =
  let* bbs := collectM g l in Ok (fold_left bbox_add bbs acc).
Proof.
  induction l as [|a l IH]; intros acc; cbn [foldM collectM bind]; [reflexivity|].
  destruct (g a) as [x|x]; cbn [bind]; [|reflexivity]. rewrite IH.
  destruct (collectM g l); reflexivity.
Qed.

Lemma fold_val (bbs : list (bbox float)) : Forall finiteb bbs -> forall acc, finiteb acc ->
  valb (fold_left bbox_add bbs acc) = fold_left bbox_add (map valb bbs) (valb acc) /\ finiteb (fold_left bbox_add bbs acc).
Proof.
  induction 1 as [|x bbs Fx _ IH]; intros acc Fa; cbn [fold_left map]; [auto|].
  destruct (C80_boxes acc x (P 0%float 0%float) Fa Fx (conj eq_refl eq_refl)) as ((E & F) & _).
  rewrite <- E. now apply IH.
Qed.

(* bbox_int() of a group of elements with finite boxes is finite and exactly the least box around
   them: whatever rounding the members' own boxes carry, putting them together adds none *)
Theorem C92_group_exact (b : ebase float) h (l : list (string * elem float)) p bbs : l <> [] ->
  Forall2 (fun ke x => elem_bbox (snd ke) = Ok x /\ finiteb x) l bbs ->
  exists bb, elem_bbox_int (EGroup b h l p) = Ok bb /\ finiteb bb /\ least_around (map valb bbs) (valb bb).
Proof.
  intros N H.
  assert (E : Forall2 (fun ke x => elem_bbox (snd ke) = Ok x) l bbs) by (clear N; induction H as [|? ? ? ? [? _]]; constructor; auto).
  assert (Fb : Forall finiteb bbs) by (clear N E; induction H as [|? ? ? ? [_ ?]]; constructor; auto).
  assert (G : Forall (fun x => good x /\ x <> BNone) (map valb bbs)).
  { clear N E Fb. induction H as [|ke x l bbs [E F] _ IH]; cbn [map]; constructor; auto. now apply (elem_box_good (snd ke)). }
  destruct (fold_val bbs Fb BNone I) as [V FV].
  exists (fold_left bbox_add bbs BNone). split; [|split; [exact FV|]].
  - apply collect_iff in E. cbn [elem_bbox_int]. destruct l as [|ke l]; [congruence|].
    transitivity (let* bbs := collectM (fun ke => elem_bbox (snd ke)) (ke :: l) in Ok (fold_left bbox_add bbs BNone)).
    + rewrite <- fold_boxes_float. apply foldM_ext. intros s [k e]. unfold elem_bbox. cbn [snd]. destruct (elem_bbox_int e); reflexivity.
    + rewrite E. reflexivity.
  - rewrite V. cbn [valb].
    assert (G' : Forall good (map valb bbs)) by (eapply Forall_impl; [|exact G]; intros a [? _]; auto).
    destruct (fold_least (map valb bbs) G' BNone I) as (A & B & _ & D & L). split; [|split; [exact A|split; [exact D|]]].
    + apply B. right. destruct H as [|ke x l bbs E' H]; [congruence|]. cbn [map] in *. inversion G; subst. constructor. tauto.
    + intros c Gc Hc. apply L; auto. intros x y _ _ [].
Qed.

(* two rectangles, one of them moved, in a group *)
Definition two_rects : list (string * elem float) :=
  [("a", ELeaf (plain "a" t_new) (SRect (P 0 0) (P 0.1 1)));
   ("b", ELeaf (plain "b" (T (M 1 0 0.1 0 1 0 0 0 1) None [])) (SRect (P 0.1 0.5) (P 3 2)))]%float%string.
Example C92_example_group : two_rects <> [] /\
  Forall2 (fun ke x => elem_bbox (snd ke) = Ok x /\ finiteb x) two_rects [BB 0 0 0.1 1; BB 0.2 0.5 3.1 2]%float.
Proof.
  split; [discriminate|]. repeat (constructor; [vm_compute; repeat split|]). constructor.
Qed.
