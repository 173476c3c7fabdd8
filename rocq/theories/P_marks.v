(* More of C09 and C66: the corners and the centre of a box, and all the calls made for the
   control points of an element. *)
Require Import Verif.Base Verif.NumR Verif.L_ord.
From Coq Require Import Reals Lra.
Require Import Verif.L_real Verif.M_vector Verif.M_bbox Verif.S_bbox Verif.L_bbox.
Require Import Verif.M_transform Verif.M_bezier Verif.M_colors Verif.M_elems Verif.M_group Verif.M_draw Verif.S_draw.
Require Import Verif.S_transform Verif.L_transform Verif.L_transform2 Verif.S_elems Verif.L_elems Verif.S_group Verif.S_gdraw Verif.L_group Verif.L_gdraw.
Require Import Verif.P_bbox Verif.P_draw.
From Coq Require Import List String.
Import ListNotations.
Local Open Scope string_scope.
Local Open Scope list_scope.
Local Open Scope R_scope.
Set Implicit Arguments.

(* The box without coordinates has no corners and no centre.  The corners of any other box lie
   in it, and either pair of opposite corners makes the same box again. *)
Theorem C09_corners {F} {NF : Num F} {OF : NumOrd F} (b : bbox F) : good b ->
  match b with
  | BNone => forall get, In get [bbox_pll; bbox_plh; bbox_phl; bbox_phh; bbox_center] ->
               get b = Raise ValueError
  | BB xl yl xh yh =>
      exists ll lh hl hh,
        bbox_pll b = Ok ll /\ bbox_plh b = Ok lh /\ bbox_phl b = Ok hl /\ bbox_phh b = Ok hh /\
        (forall p, In p [ll; lh; hl; hh] -> in_box b (px p) (py p)) /\
        p_xy ll = (xl, yl) /\ p_xy lh = (xl, yh) /\ p_xy hl = (xh, yl) /\ p_xy hh = (xh, yh) /\
        (forall p q, In (p, q) [(ll, hh); (hh, ll); (lh, hl); (hl, lh)] ->
           exists b', bbox_new (APoint p) (APoint q) None None = Ok b' /\ same b' b)
  end.
Proof.
  destruct b as [|xl yl xh yh].
  - intros _ get H. cbn in H. repeat destruct H as [<-|H]; try reflexivity. destruct H.
  - intros G. exists (P xl yl), (P xl yh), (P xh yl), (P xh yh). repeat (split; [reflexivity|]).
    split; [|repeat (split; [reflexivity|])].
    + intros p H. cbn in H. cbn in G. repeat destruct H as [<-|H]; try destruct H; cbn; ord [xl; yl; xh; yh].
    + intros p q H. cbn in H. cbn in G.
      repeat (destruct H as [H|H]; [apply pair_equal_spec in H; destruct H as [<- <-]; eexists; (split; [reflexivity|]); cbn; ord [xl; yl; xh; yh]|]).
      destruct H.
Qed.
(* The centre of a box of exact numbers is halfway between opposite corners. *)
Theorem C09_center : forall (b : bbox R) c, bbox_center b = Ok c ->
  exists ll lh hl hh, bbox_pll b = Ok ll /\ bbox_plh b = Ok lh /\ bbox_phl b = Ok hl /\ bbox_phh b = Ok hh /\
    (px c - px ll = px hh - px c /\ py c - py ll = py hh - py c /\
     px c - px lh = px hl - px c /\ py c - py lh = py hl - py c)%R.
Proof.
  intros [|xl yl xh yh] c H; [discriminate|]. cbn in H. injection H as <-.
  do 4 eexists. repeat (split; [reflexivity|]). cbn. repeat split; lra.
Qed.

(* What is drawn for a corner: a grey square with a red rim, ten wide. *)
Inductive corner_mark : pt R -> list (cmd R) -> Prop :=
| corner_marked x y : corner_mark (P x y)
    [CRect (x + 5) (y + 5) (x - 5) (y - 5) (Some (CStr "red")) (Some (CStr "grey"))].
(* What is drawn for a control point at (x, y) whose handles end at (x0, y0) and (x1, y1): grey
   lines to both ends, a grey disc with a red rim on each end, and then the square. *)
Inductive control_mark : cpoint R -> list (cmd R) -> Prop :=
| control_marked x y x0 y0 x1 y1 k : control_mark (CP (P x y) (V (x0 - x) (y0 - y)) (V (x1 - x) (y1 - y)) k)
    [CLine [(x, y); (x0, y0)] (Some (CStr "grey")) 1; CLine [(x, y); (x1, y1)] (Some (CStr "grey")) 1;
     CEllipse (x0 - 5) (y0 - 5) (x0 + 5) (y0 + 5) (Some (CStr "red")) (Some (CStr "grey"));
     CEllipse (x1 - 5) (y1 - 5) (x1 + 5) (y1 + 5) (Some (CStr "red")) (Some (CStr "grey"));
     CRect (x + 5) (y + 5) (x - 5) (y - 5) (Some (CStr "red")) (Some (CStr "grey"))].
Inductive path_marks : cpath R -> list (cmd R) -> Prop :=
| marks_points ps ls : Forall2 corner_mark ps ls -> path_marks (KPoints ps) (List.concat ls)
| marks_cps cps ls : Forall2 control_mark cps ls -> path_marks (KCps cps) (List.concat ls).

Lemma cpath_marks (k : cpath R) : path_marks k (cpath_cmds k).
Proof.
  destruct k as [ps|cps]; cbn [cpath_cmds].
  - replace (map square ps) with (List.concat (map (fun p => [@square R _ p]) ps)).
    + constructor. induction ps as [|[x y] ps IH]; constructor; [|exact IH]. constructor.
    + induction ps as [|p ps IH]; [reflexivity|]. cbn. now rewrite IH.
  - rewrite flat_map_concat_map. constructor. induction cps as [|[[x y] [a b] [c d] k] cps IH]; constructor; [|exact IH].
    pose proof (control_marked x y (x + a) (y + b) (x + c) (y + d) k) as Q.
    replace (x + a - x)%R with a in Q by ring. replace (y + b - y)%R with b in Q by ring.
    replace (x + c - x)%R with c in Q by ring. replace (y + d - y)%R with d in Q by ring. exact Q.
Qed.
(* With show_cps the calls for the corners and control points come first, one group for each, in
   order; nothing is drawn when the control points cannot be had. *)
Theorem C66_marks : forall (e : elem R) (c c' : canvas R) r, sound c -> dcps c = true ->
  elem_draw e c = (c', r) ->
  match snd (elem_control_paths e (dmatrix c)) with
  | Ok ks => exists ms rest, Forall2 path_marks ks ms /\ drew c (List.concat ms ++ rest) c'
  | Raise x => r = Raise x /\ drew c [] c'
  end.
Proof.
  intros e c c' r So N H. unfold elem_draw in H. rewrite N in H. unfold draw_control_points in H.
  destruct (control_tame e (dmatrix c)) as [K _]. destruct (elem_control_paths e (dmatrix c)) as [m [ks|x]]; cbn [fst snd] in *.
  - pose proof (matrix_drew m c K) as D0. pose proof (emit_drew (flat_map cpath_cmds ks) (set_dmatrix m c) So) as D1.
    pose proof (drew_trans _ _ _ _ _ D0 D1) as D2. cbn [app] in D2. set (c1 := emit _ _) in *. clearbody c1.
    assert (exists rest, drew c1 rest c') as [rest Hr].
    { unfold draw_all_paths in H.
      pose proof (proj1 (paths_tame (DC (dcps c1) (ppc c1)) e (dmatrix c1))) as K1.
      destruct (elem_paths (DC (dcps c1) (ppc c1)) e (dmatrix c1)) as [m1 [ps|x]]; cbn [fst] in K1.
      - pose proof (matrix_drew m1 c1 K1) as D3.
        assert (forall ps (c2 c3 : canvas R) r, sound c2 -> draw_paths ps c2 = (c3, r) -> exists l, drew c2 l c3) as Q.
        { clear. induction ps as [|p ps IH]; cbn [draw_paths]; intros c2 c3 r So H.
          - injection H as <- _. exists []. apply matrix_drew with (m := dmatrix c2). split; reflexivity.
          - destruct (path_cmds c2 p) as [l [u|x]].
            + pose proof (emit_drew l c2 So) as D. destruct (IH _ _ _ (drew_sound _ _ _ D So) H) as [l2 D2].
              exists (l ++ l2). exact (drew_trans _ _ _ _ _ D D2).
            + injection H as <- _. exists l. exact (emit_drew l c2 So). }
        destruct (Q _ _ _ _ (drew_sound _ _ _ D3 (drew_sound _ _ _ D2 So)) H) as [l Hl].
        exists l. exact (drew_trans _ _ _ _ _ D3 Hl).
      - injection H as <- _. exists []. exact (matrix_drew m1 c1 K1). }
    exists (map cpath_cmds ks), rest. split.
    + clear. induction ks; constructor; [apply cpath_marks|auto].
    + rewrite <- flat_map_concat_map. eapply drew_trans; [exact D2|exact Hr].
  - injection H as <- <-. split; [reflexivity|]. exact (matrix_drew m c K).
Qed.

(* A curve with one control point, and a box. *)
Example C66_marks_example :
  let c := Canvas [[]] 0 None (0, 0)%Z None t_new true true true 80 : canvas R in
  let pb := PenBrush (Some (Pen (Brush (CStr "black")) 1)) None : penbrush R in
  let e := ELeaf (EB "e" pb false t_new) (SRect (P 0 0) (P 1 1)) in
  sound c /\ dcps c = true /\ (exists k, snd (elem_control_paths e (dmatrix c)) = Ok [KPoints k]) /\
  good (BB 0 0 2 1 : bbox R) /\ bbox_center (BB 0 0 2 1) = Ok (P ((0 + 2) / 2) ((0 + 1) / 2))%R.
Proof.
  intros c pb e. split; [unfold sound; cbn; auto|]. split; [reflexivity|]. split; [eexists; reflexivity|].
  split; [|reflexivity]. repeat split; try exact I; apply Rleb_le; lra.
Qed.
