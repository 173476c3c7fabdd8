(* Property theorems C45, continued: iter_elems_transformed. *)
Require Import Verif.Base Verif.NumR Verif.M_vector Verif.M_bbox Verif.M_transform Verif.M_bezier Verif.M_colors Verif.M_elems Verif.M_group.
Require Import Verif.S_transform Verif.L_transform Verif.S_elems Verif.S_group Verif.S_gdraw Verif.L_elems Verif.L_group Verif.L_gdraw Verif.P_elems Verif.P_gcopy.
From Coq Require Import Reals String List Lia Bool.
Import ListNotations.
Local Open Scope string_scope.
Local Open Scope list_scope.

(* ------------------------------------------------------------------ *)
(** ** specification *)

(* the same element under another name *)
Definition renamed {F} (name : string) (e : elem F) : elem F :=
  let b' b := EB name (e_pb b) (e_closed b) (e_xform b) in
  match e with
  | ELeaf b s => ELeaf (b' b) s
  | EGroup b h l p => EGroup (b' b) h l p
  | EHoles b o i => EHoles (b' b) o i
  end.
(* the parts that are yielded, each with what goes before its own name *)
Definition parts {F} (e : elem F) : list (string * elem F) :=
  match e with
  | ELeaf _ _ => []
  | EGroup _ _ l _ => map (fun ke => ("", snd ke)) l
  | EHoles _ o i => ("outside.", o) :: map (fun e => ("inside.", e)) i
  end.
Definition under (root : option string) (name : string) : string :=
  match root with None | Some "" => name | Some r => (r ++ "." ++ name)%string end.

Section Iter.
  Context {F : Type} {NF : Num F} {RF : NumRoot F} {TF : NumTrig F}.

  (* what one part becomes: its copy under the matrix, renamed *)
  Definition becomes (base : string) (M : mat F) (px : string * elem F) (y : elem F) : Prop :=
    exists x, snd (elem_transform (snd px) (only M)) = Ok x /\
      y = renamed (base ++ "." ++ fst px ++ e_name (e_base x))%string x.

  Lemma transform_pts_tame b pts (m : transform F) :
    same_matrix m (fst (transform_pts b pts m)) /\ snd (transform_pts b pts m) = snd (transform_pts b pts (only (tmat m))).
  Proof.
    unfold transform_pts, with_push.
    set (s1 := t_compose (tmat (e_xform b)) (t_push m)). set (s2 := t_compose (tmat (e_xform b)) (t_push (only (tmat m)))).
    assert (E : t_simplify s1 = t_simplify s2) by reflexivity. rewrite <- E.
    destruct (t_simplify s1) as [xl ro]. split; [split|]; reflexivity.
  Qed.

  Lemma transform_tame (e : elem F) (m : transform F) :
    same_matrix m (fst (elem_transform e m)) /\ snd (elem_transform e m) = snd (elem_transform e (only (tmat m))).
  Proof.
    destruct e as [b s|b h l p|b o i]; [|split; [apply sm_refl|reflexivity]..].
    cbn [elem_transform]. destruct s as [cps|p1 p2|p1 p2 r|p1 p2]; unfold leaf_transform.
    - unfold curve_transform. cbv zeta. rewrite !(with_push_gen (fun m => m) (t_compose (tmat (e_xform b)))) by reflexivity.
      split; [split|]; reflexivity.
    - destruct (transform_pts_tame b [p1; p2] m) as [E1 E2].
      destruct (transform_pts b [p1; p2] m) as [m1 r1], (transform_pts b [p1; p2] (only (tmat m))) as [m2 r2].
      cbn [fst snd] in *. subst r2. split; auto.
    - destruct (transform_pts_tame b [p1; p2; p_add p1 (V r (nofZ 0))] m) as [E1 E2].
      destruct (transform_pts b _ m) as [m1 r1], (transform_pts b _ (only (tmat m))) as [m2 r2].
      cbn [fst snd] in *. subst r2. split; auto.
    - destruct (transform_pts_tame b [p1; p2] m) as [E1 E2].
      destruct (transform_pts b [p1; p2] m) as [m1 r1], (transform_pts b [p1; p2] (only (tmat m))) as [m2 r2].
      cbn [fst snd] in *. subst r2. split; auto.
  Qed.

  Definition one (base : string) (M : mat F) (acc : list (elem F)) (px : string * elem F) : res (list (elem F)) :=
    let* x := snd (elem_transform (snd px) (only M)) in
    Ok (acc ++ [renamed (base ++ "." ++ fst px ++ e_name (e_base x))%string x]).

  Lemma all_spec base M l : forall acc,
    match foldM (one base M) acc l with
    | Ok ys => exists ys', ys = acc ++ ys' /\ Forall2 (becomes base M) l ys'
    | Raise x => exists before px after, l = before ++ px :: after /\ (exists ys, Forall2 (becomes base M) before ys) /\
        snd (elem_transform (snd px) (only M)) = Raise x
    end.
  Proof.
    induction l as [|px l IH]; intros acc; cbn [foldM].
    - exists []. split; [now rewrite app_nil_r|constructor].
    - unfold one at 1. destruct (snd (elem_transform (snd px) (only M))) as [x|x] eqn:E; cbn [bind].
      + specialize (IH (acc ++ [renamed (base ++ "." ++ fst px ++ e_name (e_base x))%string x])).
        destruct (foldM _ _ l) as [ys|ex].
        * destruct IH as (ys' & -> & K). exists (renamed (base ++ "." ++ fst px ++ e_name (e_base x))%string x :: ys').
          split; [now rewrite <- app_assoc|]. constructor; [|exact K]. exists x. auto.
        * destruct IH as (before & q & after & -> & (ys & K) & K2). exists (px :: before), q, after.
          split; [reflexivity|]. split; [|exact K2].
          exists (renamed (base ++ "." ++ fst px ++ e_name (e_base x))%string x :: ys). constructor; [|exact K]. exists x; auto.
      + exists [], px, l. split; [reflexivity|]. split; [exists []; constructor|exact E].
  Qed.

  Lemma set_name_renamed n (e : elem F) : set_name n e = renamed n e.
  Proof. destruct e; reflexivity. Qed.
  Lemma sub_root_under root n : sub_root root n = under root n.
  Proof. destruct root as [r|]; [|reflexivity]. cbn. destruct r; reflexivity. Qed.

  Lemma iter_fold (e : elem F) root (m : transform F) : (forall b s, e <> ELeaf b s) ->
    same_matrix m (fst (iter_transformed e root m)) /\
    snd (iter_transformed e root m) =
    foldM (one (under root (e_name (e_base e))) (mat_dot (tmat m) (tmat (e_xform (e_base e))))) [] (parts e).
  Proof.
    intros NL. destruct e as [b s|b h l p|b o i]; [now destruct (NL b s)| |]; cbn [iter_transformed parts e_base]; rewrite sub_root_under.
    - set (body := fun (acc : list (elem F)) (ke : string * elem F) (m : transform F) => _).
      set (base := under root (e_name b)) in *.
      assert (Tm : Forall (tame body (fun acc ke M => one base M acc ("", snd ke))) l).
      { rewrite Forall_forall. intros ke _ acc m1. unfold body, one. destruct (transform_tame (snd ke) m1) as [E1 E2].
        destruct (elem_transform (snd ke) m1) as [m2 r]. cbn [fst snd] in *. split; [exact E1|]. rewrite <- E2.
        destruct r as [x|x]; [|reflexivity]. cbn [bind fst append]. rewrite set_name_renamed. reflexivity. }
      pose proof (loop_tame body _ l Tm []) as L.
      rewrite with_push_tame by exact (proj2 (proj1 (L _))). cbn [fst snd]. split; [split; reflexivity|].
      rewrite (proj2 (L _)). cbn [t_compose tmat t_push]. clear.
      generalize (@nil (elem F)). induction l as [|ke l IH]; intros acc; [reflexivity|]. cbn [foldM map].
      destruct (one _ _ _ _); [apply IH|reflexivity].
    - set (base := under root (e_name b)) in *.
      set (body := fun (acc : list (elem F)) (e : elem F) (m : transform F) => _).
      assert (Tm : Forall (tame body (fun acc e M => one base M acc ("inside.", e))) i).
      { rewrite Forall_forall. intros e _ acc m1. unfold body, one. destruct (transform_tame e m1) as [E1 E2].
        destruct (elem_transform e m1) as [m2 r]. cbn [fst snd] in *. split; [exact E1|]. rewrite <- E2.
        destruct r as [x|x]; [|reflexivity]. cbn [bind fst append]. rewrite set_name_renamed. reflexivity. }
      pose proof (loop_tame body _ i Tm) as L.
      match goal with |- context [with_push _ ?bd _] => set (all := bd) end.
      assert (A : forall m1, same_matrix m1 (fst (all m1)) /\
        snd (all m1) = foldM (one base (tmat m1)) [] (("outside.", o) :: map (fun e => ("inside.", e)) i)).
      { intros m1. unfold all. destruct (transform_tame o m1) as [E1 E2]. cbn [foldM]. unfold one at 1. cbn [fst snd].
        rewrite <- E2. destruct (elem_transform o m1) as [m2 r]. cbn [fst snd] in *.
        destruct r as [x|x]; [|split; [exact E1|reflexivity]]. cbn [bind app].
        destruct (L [set_name (base ++ ".outside." ++ elem_name x)%string x] m2) as [K1 K2].
        split; [eapply sm_trans; eauto|]. rewrite K2, set_name_renamed. destruct E1 as [-> _].
        change (base ++ ".outside." ++ elem_name x)%string with (base ++ "." ++ "outside." ++ e_name (e_base x))%string.
        generalize [renamed (base ++ "." ++ "outside." ++ e_name (e_base x))%string x]. clear.
        induction i as [|e i IH]; intros acc; [reflexivity|]. cbn [foldM map].
        destruct (one _ _ _ _); [apply IH|reflexivity]. }
      rewrite with_push_tame by exact (proj2 (proj1 (A _))). cbn [fst snd]. split; [split; reflexivity|].
      rewrite (proj2 (A _)). reflexivity.
  Qed.

  (* ------------------------------------------------------------------ *)
  (** ** the elements yielded *)

  (* shallow iteration yields the parts of a group or of a shape with holes, each once and in
     order, each as its transform under the matrix handed in composed with the whole's own, and
     named from the root down; the matrix is as before.  It stops at the first part whose
     transform raises, with that exception. *)
  Theorem C45_transformed : forall (e : elem F) (root : option string) (m : transform F),
    (forall b s, e <> ELeaf b s) ->
    let base := under root (e_name (e_base e)) in
    let M := mat_dot (tmat m) (tmat (e_xform (e_base e))) in
    same_matrix m (fst (iter_transformed e root m)) /\
    match snd (iter_transformed e root m) with
    | Ok ys => Forall2 (becomes base M) (parts e) ys
    | Raise x => exists before px after, parts e = before ++ px :: after /\
        (exists ys, Forall2 (becomes base M) before ys) /\
        snd (elem_transform (snd px) (only M)) = Raise x
    end.
  Proof.
    intros e root m NL base M. destruct (iter_fold e root m NL) as [E1 E2]. split; [exact E1|].
    rewrite E2. fold base M. pose proof (all_spec base M (parts e) []) as A.
    destruct (foldM _ _ _) as [ys|x]; [|exact A]. destruct A as (ys' & -> & A). exact A.
  Qed.
End Iter.

(* ------------------------------------------------------------------ *)
(** ** what they draw *)

(* a part whose transform() draws exactly the part moved: a curve with an affine matrix, or a
   group or shape with holes whose parts share its pens *)
Definition moves_exactly (e : elem R) : Prop :=
  match e with
  | ELeaf b (SCurve _) => affine_mat (tmat (e_xform b))
  | ELeaf _ _ => False
  | _ => pens_shared e
  end.

Lemma renamed_draws {F} {NF : Num F} {RF : NumRoot F} {TF : NumTrig F} dc n (e : elem F) d :
  snd (elem_paths dc (renamed n e) d) = snd (elem_paths dc e d).
Proof. destruct e as [b [| | |]|b h l p|b o i]; reflexivity. Qed.

Lemma mat_dot_assoc (a b c : mat R) : mat_dot (mat_dot a b) c = mat_dot a (mat_dot b c).
Proof. destruct a, b, c. unfold mat_dot; cbn. f_equal; ring. Qed.

(* drawing what is yielded for such a part draws the part as it is drawn within the whole: under
   the caller's matrix composed with the whole's *)
Theorem C45_transformed_draws : forall (e : elem R) (root : option string) (m : transform R) ys,
  affine_mat (tmat m) -> affine_mat (tmat (e_xform (e_base e))) ->
  snd (iter_transformed e root m) = Ok ys ->
  Forall2 (fun px y => moves_exactly (snd px) -> forall dc d,
     snd (elem_paths dc y d) =
     snd (elem_paths dc (snd px) (t_compose (tmat (e_xform (e_base e))) (t_compose (tmat m) d)))) (parts e) ys.
Proof.
  intros e root m ys Am Ax E. assert (NL : forall b s, e <> ELeaf b s).
  { intros b s ->. cbn in E. discriminate. }
  pose proof (proj2 (C45_transformed e root m NL)) as K. cbv zeta in K. rewrite E in K. clear E.
  induction K as [|px y pxs ys (x & Ex & ->) _ IH]; constructor; [|exact IH]. clear IH. intros H dc d. rewrite renamed_draws.
  set (M := mat_dot (tmat m) (tmat (e_xform (e_base e)))) in *.
  assert (AM : affine_mat M) by (apply affine_dot; auto).
  assert (D : snd (elem_paths dc x d) = snd (elem_paths dc (snd px) (t_compose M d))).
  { destruct (snd px) as [b s|b h l p|b o i]; cbn [moves_exactly] in H.
    - destruct s as [cps|? ?|? ? ?|? ?]; try (now destruct H). cbn [elem_transform] in Ex.
      destruct (leaf_transform b (SCurve cps) (only M)) as [m' r] eqn:El. cbn [snd] in Ex. subst r.
      assert (exists b' s', x = ELeaf b' s') as (b' & s' & ->).
      { unfold leaf_transform, curve_transform in El. cbv zeta in El.
        rewrite (with_push_gen (fun m => m) (t_compose (tmat (e_xform b)))) in El by reflexivity. injection El as _ El.
        destruct (mapM _ cps); [|discriminate]. cbn [bind] in El. destruct (mk_base _ _ _ _); [|discriminate].
        cbn [bind] in El. injection El as <-. eauto. }
      cbn [elem_paths]. exact (C36_transform_draws dc b b' cps s' (only M) m' d AM H El).
    - destruct (C48_transform _ (only M) H I) as [_ [(_ & e' & E' & _ & _ & _ & Dr)|(_ & E')]]; rewrite E' in Ex; [|discriminate].
      injection Ex as <-. apply Dr.
    - destruct (C48_transform _ (only M) H I) as [_ [(_ & e' & E' & _ & _ & _ & Dr)|(_ & E')]]; rewrite E' in Ex; [|discriminate].
      injection Ex as <-. apply Dr. }
  rewrite D, (proj2 (paths_tame dc _ _)), (proj2 (paths_tame dc _ (t_compose (tmat (e_xform _)) _))).
  cbn [t_compose tmat]. unfold M. rewrite mat_dot_assoc. reflexivity.
Qed.

Section Examples.
Local Open Scope R_scope.
(* a group with a curve and a group inside: both are moved, and named from the root down *)
Definition ex_arc (name : string) : elem R :=
  ELeaf (EB name ex_pb true ex_x) (SCurve [CP (P 1 2) (V 2 2) (V 0 2) "smooth"; CP (P 5 2) (V 6 2) (V 4 3) "smooth"]).
Definition ex_sub : elem R :=
  EGroup (EB "g" (PenBrush (pb_pen ex_pb) None) false ex_x) false [("k1", ex_arc "a"); ("k2", ex_grp)] [].
Example C45_transformed_example : exists x y, snd (iter_transformed ex_sub (Some "top") ex_x) = Ok [x; y] /\
  e_name (e_base x) = "top.g.a" /\ e_name (e_base y) = ("top.g." ++ e_name (e_base ex_grp))%string /\
  Forall (fun px => moves_exactly (snd px)) (parts ex_sub) /\ affine_mat (tmat ex_x) /\
  affine_mat (tmat (e_xform (e_base ex_sub))).
Proof.
  do 2 eexists. split; [reflexivity|]. do 2 (split; [reflexivity|]). split; [|split; repeat split].
  constructor; [repeat split|constructor; [|constructor]]. cbn [snd moves_exactly].
  exact (proj1 C48_nontrivial).
Qed.
(* a shape with holes: the outside first, then the holes *)
Example C45_transformed_holes : exists x y z,
  snd (iter_transformed (EHoles (EB "h" ex_pb true ex_x) (ex_arc "o") [ex_arc "a"; ex_arc "b"]) None ex_x) = Ok [x; y; z] /\
  map (fun e => e_name (e_base e)) [x; y; z] = ["h.outside.o"; "h.inside.a"; "h.inside.b"].
Proof. do 3 eexists. split; reflexivity. Qed.
End Examples.
