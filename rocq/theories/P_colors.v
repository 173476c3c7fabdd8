(* Pens, brushes and colour tables: C53, C54. *)
Require Import Verif.Base Verif.NumR Verif.L_real Verif.M_vector Verif.M_bbox Verif.M_transform
  Verif.M_colors Verif.S_transform.
From Coq Require Import Reals Lra List String.
Open Scope R_scope.
Local Open Scope string_scope.
Local Open Scope list_scope.

(* ------------------------------------------------------------------ *)
(** * C53 *)

(* how far the transform moves the ends of a unit step along x and along y apart *)
Definition stretch_x (s : transform R) : R :=
  sqrt (dist2 (t_transform s (P 1 0)) (t_transform s (P 0 0))).
Definition stretch_y (s : transform R) : R :=
  sqrt (dist2 (t_transform s (P 0 1)) (t_transform s (P 0 0))).

Theorem C53_stroke_width : forall (b : penbrush R) (s : transform R),
  match pb_pen b with
  | None => stroke_width b s = None
  | Some p =>
      (0 < pwidth p -> stroke_width b s = Some (pwidth p)) /\
      (pwidth p <= 0 ->
       stroke_width b s = Some (Rabs (pwidth p) * ((stretch_x s + stretch_y s) / 2)))
  end.
Proof.
  intros [[[br w]|] bb] s; unfold stroke_width; cbn [pb_pen]; [|reflexivity].
  unfold ngtb. change (@nltb R _) with Rltb. change (@nofZ R _ 0) with 0. cbn [pwidth].
  split; intros H.
  - rewrite (proj2 (Rltb_lt _ _) H). reflexivity.
  - rewrite (proj2 (Rltb_ge _ _) H). f_equal.
    unfold t_transform_width, t_scale_vals, stretch_x, stretch_y, dist2, t_transform, mat_apply.
    cbn -[IZR sqrt]. set (m := tmat s).
    replace ((m00 m * 1 + m01 m * 0 + m02 m * 1 - (m00 m * 0 + m01 m * 0 + m02 m * 1)) *
      (m00 m * 1 + m01 m * 0 + m02 m * 1 - (m00 m * 0 + m01 m * 0 + m02 m * 1)) +
      (m10 m * 1 + m11 m * 0 + m12 m * 1 - (m10 m * 0 + m11 m * 0 + m12 m * 1)) *
      (m10 m * 1 + m11 m * 0 + m12 m * 1 - (m10 m * 0 + m11 m * 0 + m12 m * 1)))
      with (m00 m * m00 m + m10 m * m10 m) by ring.
    replace ((m00 m * 0 + m01 m * 1 + m02 m * 1 - (m00 m * 0 + m01 m * 0 + m02 m * 1)) *
      (m00 m * 0 + m01 m * 1 + m02 m * 1 - (m00 m * 0 + m01 m * 0 + m02 m * 1)) +
      (m10 m * 0 + m11 m * 1 + m12 m * 1 - (m10 m * 0 + m11 m * 0 + m12 m * 1)) *
      (m10 m * 0 + m11 m * 1 + m12 m * 1 - (m10 m * 0 + m11 m * 0 + m12 m * 1)))
      with (m01 m * m01 m + m11 m * m11 m) by ring.
    rewrite !(Rabs_pos_eq (sqrt _)) by apply sqrt_pos.
    rewrite Rabs_left1 by exact H. unfold Rdiv. ring.
Qed.

Example C53_stroke_width_nontrivial :
  stroke_width (mk_penbrush (Some (PAPair (BAColor (CStr "red")) (-3))) None) (t_scale 2 2 t_new) = Some 6.
Proof.
  set (b := mk_penbrush _ _). pose proof (C53_stroke_width b (t_scale 2 2 t_new)) as H.
  cbn [b mk_penbrush pb_pen mk_pen pwidth] in H. destruct H as [_ H]. rewrite H by lra.
  f_equal. unfold stretch_x, stretch_y, dist2, t_transform, mat_apply. cbn -[IZR sqrt].
  match goal with |- context [sqrt ?a + sqrt ?b] =>
    replace a with (2 * 2) by ring; replace b with (2 * 2) by ring end.
  rewrite sqrt_square by lra. rewrite Rabs_left by lra. lra.
Qed.

(* filled/stroked: exactly when there is a brush/pen, and then with its colour *)
Theorem C53_filled_stroked : forall {F} {NF : Num F} (p : option (penarg F)) (b : option (brusharg F)),
  (pb_filled (mk_penbrush p b) = true <-> b <> None) /\
  (pb_stroked (mk_penbrush p b) = true <-> p <> None) /\
  (forall br, b = Some (BAObj br) -> fill_color (mk_penbrush p b) = Some (bcolor br)) /\
  (forall c, b = Some (BAColor c) -> fill_color (mk_penbrush p b) = Some c) /\
  (b = None -> fill_color (mk_penbrush p b) = None) /\
  (forall q, p = Some (PAObj q) -> pb_pen (mk_penbrush p b) = Some q) /\
  (p = None -> stroke_color (mk_penbrush p b) = None).
Proof.
  intros F NF p b. repeat split.
  - destruct b; [intros; discriminate|cbn; intros; discriminate].
  - destruct b as [[]|]; cbn; congruence.
  - destruct p; [intros; discriminate|cbn; intros; discriminate].
  - destruct p as [[?|[?|?|[|? [|? [|? ?]]]]|]|]; cbn; congruence.
  - intros br ->. reflexivity.
  - intros c ->. reflexivity.
  - intros ->. reflexivity.
  - intros q ->. reflexivity.
  - intros ->. reflexivity.
Qed.

(* a colour gives a pen of that colour and width 0, except that a colour that is a pair of
   numbers is read as (colour, width) *)
Theorem C53_pen_from_color : forall {F} {NF : Num F} (c : color F) (b : option (brusharg F)),
  (forall a w, c <> CTuple [a; w]) ->
  stroke_color (mk_penbrush (Some (PAColor c)) b) = Some c /\
  option_map (@pwidth F) (pb_pen (mk_penbrush (Some (PAColor c)) b)) = Some (nofZ 0).
Proof.
  intros F NF c b H. destruct c as [s|n|[|x [|y [|z l]]]]; try (split; reflexivity).
  exfalso. apply (H x y). reflexivity.
Qed.
Theorem C53_pair_color_refuted : exists c : color R,
  stroke_color (mk_penbrush (Some (PAColor c)) None) <> Some c.
Proof. exists (CTuple [1; 2]). discriminate. Qed.

(* replace(width=w) *)
Theorem C53_replace_width : forall {F} {NF : Num F} (s : penbrush F) (w : F),
  exists s', pb_replace s None (Some w) None = Ok s' /\
    fill_color s' = fill_color s /\ stroke_color s' = stroke_color s /\
    pb_filled s' = pb_filled s /\ pb_stroked s' = pb_stroked s /\
    (forall p, pb_pen s' = Some p -> pwidth p = w).
Proof.
  intros F NF [[[br pw]|] [bb|]] w; eexists; (split; [reflexivity|]); cbn; repeat split; intros p H;
    try discriminate; injection H as <-; reflexivity.
Qed.

(* replace raises exactly when a (true) pen and a width are both given, always ValueError *)
Theorem C53_replace_raises : forall {F} {NF : Num F} (s : penbrush F) p w b e,
  pb_replace s p w b = Raise e <->
  e = ValueError /\ (exists q, p = Some q /\ penarg_true q = true) /\ w <> None.
Proof.
  intros F NF s p w b e. unfold pb_replace.
  destruct p as [q|], w as [w|]; cbn [andb].
  - destruct (penarg_true q) eqn:E; cbn [andb].
    + split; [intros H; injection H as <-; repeat split; eauto; discriminate|]. intros (-> & _). reflexivity.
    + split; [discriminate|]. intros (_ & (q' & Eq & H) & _). congruence.
  - rewrite andb_false_r. split; [discriminate|]. intros (_ & _ & H). congruence.
  - split; [discriminate|]. intros (_ & (q' & Eq & _) & _). discriminate.
  - split; [discriminate|]. intros (_ & (q' & Eq & _) & _). discriminate.
Qed.

(* replace never removes a pen or a brush, and changes only what is given *)
Theorem C53_replace_keeps : forall {F} {NF : Num F} (s s' : penbrush F) p w b,
  pb_replace s p w b = Ok s' ->
  (pb_stroked s = true -> pb_stroked s' = true) /\
  (pb_filled s = true -> pb_filled s' = true) /\
  (b = None -> pb_brush s' = pb_brush s) /\
  (p = None -> w = None -> pb_pen s' = pb_pen s) /\
  (forall q, b = Some (BAObj q) -> pb_brush s' = Some q) /\
  (forall q, p = Some (PAObj q) -> pb_pen s' = Some q).
Proof.
  intros F NF s s' p w b H. unfold pb_replace in H.
  destruct (_ && _)%bool eqn:Epw in H; [discriminate|]. injection H as <-.
  destruct s as [sp sb]. cbn [pb_pen pb_brush].
  repeat split.
  - cbn. destruct sp as [sp|]; [intros _|discriminate].
    destruct w as [w|]; cbn; [reflexivity|].
    destruct p as [q|]; cbn; [|reflexivity].
    destruct (penarg_true q); cbn; [|reflexivity].
    destruct q as [?|[?|?|[|? [|? [|? ?]]]]|]; reflexivity.
  - cbn. destruct sb as [sb|]; [intros _|discriminate].
    destruct b as [q|]; cbn; [|reflexivity].
    destruct (brusharg_true q); cbn; [|reflexivity]. destruct q; reflexivity.
  - intros ->. cbn. destruct sb; reflexivity.
  - intros -> ->. cbn. destruct sp; reflexivity.
  - intros q ->. reflexivity.
  - intros q ->. destruct w as [w|]; [discriminate|]. destruct sp; reflexivity.
Qed.

(* Pen.replace *)
Theorem C53_pen_replace : forall {F} {NF : Num F} (p : pen F) b w,
  (w = None -> pwidth (pen_replace p b w) = pwidth p) /\
  (forall x, w = Some x -> pwidth (pen_replace p b w) = x) /\
  (b = None -> pbrush (pen_replace p b w) = pbrush p) /\
  (forall q, b = Some (BAObj q) -> pbrush (pen_replace p b w) = q) /\
  (forall c, b = Some (BAColor c) -> color_true c = true -> pbrush (pen_replace p b w) = Brush c) /\
  (forall c, b = Some (BAColor c) -> color_true c = false -> pbrush (pen_replace p b w) = pbrush p).
Proof.
  intros F NF p b w. unfold pen_replace. repeat split.
  - intros ->. destruct b as [b|]; [|reflexivity]. destruct (brusharg_true b); [|reflexivity].
    destruct b; reflexivity.
  - intros x ->. destruct b as [b|]; [|reflexivity]. destruct (brusharg_true b); [|reflexivity].
    destruct b; reflexivity.
  - intros ->. reflexivity.
  - intros q ->. reflexivity.
  - intros c -> H. cbn [brusharg_true]. rewrite H. reflexivity.
  - intros c -> H. cbn [brusharg_true]. rewrite H. reflexivity.
Qed.

Example C53_replace_nontrivial :
  pb_replace (mk_penbrush (Some (PAPair (BAColor (CStr "red")) 2)) (Some (BAColor (CStr "blue"))))
    (Some (PAColor (CStr "green"))) (Some 1) None = Raise ValueError.
Proof. reflexivity. Qed.

(* ------------------------------------------------------------------ *)
(** * C54 *)

Definition shape_kinds : list string := ["edge"; "filled"; "clear"; "edge_filled"; "edge_clear"].

Theorem C54_index : forall {A} (t : by_shape A) (kind : string),
  (In kind shape_kinds -> exists a, by_shape_get t kind = Ok a) /\
  (~ In kind shape_kinds -> by_shape_get t kind = Raise ValueError) /\
  by_shape_get t "edge" = Ok (s_edge t) /\ by_shape_get t "filled" = Ok (s_filled t) /\
  by_shape_get t "clear" = Ok (s_clear t) /\ by_shape_get t "edge_filled" = Ok (s_edge_filled t) /\
  by_shape_get t "edge_clear" = Ok (s_edge_clear t).
Proof.
  intros A t kind. split; [|split; [|repeat split]].
  - cbn. intros H. destruct H as [<-|[<-|[<-|[<-|[<-|[]]]]]]; eexists; reflexivity.
  - cbn. intros H. unfold by_shape_get.
    repeat match goal with |- (if ?b then _ else _) = _ => destruct b eqn:E;
      [apply String.eqb_eq in E; subst; exfalso; apply H; tauto|clear E] end.
    reflexivity.
Qed.

(* draft: every kind is an unfilled stroke of width 0 in the given colour *)
Theorem C54_draft : forall {F} {NF : Num F} (col fill transparent : color F) (width : F) (kind : string) pb,
  by_shape_get (pens_make true col fill transparent width) kind = Ok pb ->
  pb_filled pb = false /\ stroke_color pb = Some col /\
  option_map (@pwidth F) (pb_pen pb) = Some (nofZ 0).
Proof.
  intros F NF col fill transparent width kind pb. unfold by_shape_get.
  repeat match goal with |- (if ?b then _ else _) = _ -> _ => destruct b;
      [intros H; injection H as <-; repeat split|] end.
  discriminate.
Qed.

(* production: stroke and fill of each kind *)
Theorem C54_production : forall {F} {NF : Num F} (col fill transparent : color F) (width : F),
  let t := pens_make false col fill transparent width in
  let expect kind st fl := exists pb, by_shape_get t kind = Ok pb /\
        option_map (fun p => (bcolor (pbrush p), pwidth p)) (pb_pen pb) = st /\ fill_color pb = fl in
  expect "edge" (Some (col, width)) None /\
  expect "filled" None (Some col) /\
  expect "clear" None (Some transparent) /\
  expect "edge_filled" (Some (col, width)) (Some fill) /\
  expect "edge_clear" (Some (col, width)) (Some transparent).
Proof. intros. repeat split; eexists; repeat split. Qed.

(* a table of pens made directly: each pen given is found under its kind, and a kind not given is drawn
   with a black stroke of width 1 and no fill *)
Theorem C54_pens_default : forall {F} {NF : Num F} (e f c ef ec : option (penbrush F)) (kind : string) (given : option (penbrush F)),
  In (kind, given) [("edge", e); ("filled", f); ("clear", c); ("edge_filled", ef); ("edge_clear", ec)] ->
  exists pb, by_shape_get (mk_pens e f c ef ec) kind = Ok pb /\
    match given with
    | Some p => pb = p
    | None => option_map (fun p => (bcolor (pbrush p), pwidth p)) (pb_pen pb) = Some (CStr "black", nofZ 1) /\ fill_color pb = None
    end.
Proof.
  intros F NF e f c ef ec kind given H. cbn [In] in H.
  repeat (destruct H as [H|H]; [injection H as <- <-; eexists; split; [reflexivity|];
    match goal with |- match ?g with _ => _ end => destruct g; repeat split end|]). destruct H.
Qed.

(* the same table for ColorsByShape, in which the colour 'NoColor' means none *)
Theorem C54_colors_production : forall {F} {NF : Num F} (col fill_ transparent : color F),
  let t := colors_make false col fill_ transparent in
  let seen c := if match c with CStr s => (s =? "NoColor")%string | _ => false end then None else Some c in
  let expect kind st fl := exists c, by_shape_get t kind = Ok c /\ outline c = st /\ fill c = fl in
  expect "edge" (seen col) None /\
  expect "filled" None (seen col) /\
  expect "clear" None (seen transparent) /\
  expect "edge_filled" (seen col) (seen fill_) /\
  expect "edge_clear" (seen col) (seen transparent).
Proof.
  intros.
  assert (G : forall c : color F, nocolor (Some c) = seen c).
  { intros [s|n|l]; reflexivity. }
  repeat split; eexists; repeat split; cbn [outline fill colors_make mk_colors s_edge s_filled s_clear
    s_edge_filled s_edge_clear t]; auto.
Qed.
Theorem C54_colors_draft : forall {F} {NF : Num F} (col fill_ transparent : color F) (kind : string) c,
  by_shape_get (colors_make true col fill_ transparent) kind = Ok c ->
  fill c = None /\ colors_filled c = false /\ outline c = nocolor (Some col).
Proof.
  intros F NF col fill_ transparent kind c. unfold by_shape_get.
  repeat match goal with |- (if ?b then _ else _) = _ -> _ => destruct b;
      [intros H; injection H as <-; repeat split|] end.
  discriminate.
Qed.

(* replace_width: every pen gets the width, nothing else changes *)
Theorem C54_replace_width : forall {F} {NF : Num F} (t : by_shape (penbrush F)) (w : F),
  exists t', pens_replace_width t (Some w) = Ok t' /\
  forall kind pb, by_shape_get t kind = Ok pb ->
    exists pb', by_shape_get t' kind = Ok pb' /\
      fill_color pb' = fill_color pb /\ stroke_color pb' = stroke_color pb /\
      (forall p, pb_pen pb' = Some p -> pwidth p = w).
Proof.
  intros F NF [e f c ef ec] w.
  destruct (C53_replace_width e w) as (e' & He & He1 & He2 & _ & _ & He3).
  destruct (C53_replace_width f w) as (f' & Hf & Hf1 & Hf2 & _ & _ & Hf3).
  destruct (C53_replace_width c w) as (c' & Hc & Hc1 & Hc2 & _ & _ & Hc3).
  destruct (C53_replace_width ef w) as (ef' & Hef & Hef1 & Hef2 & _ & _ & Hef3).
  destruct (C53_replace_width ec w) as (ec' & Hec & Hec1 & Hec2 & _ & _ & Hec3).
  exists (ByShape e' f' c' ef' ec'). split.
  - unfold pens_replace_width. cbn [s_edge s_filled s_clear s_edge_filled s_edge_clear].
    rewrite He, Hf, Hc, Hef, Hec. reflexivity.
  - intros kind pb. unfold by_shape_get. cbn [s_edge s_filled s_clear s_edge_filled s_edge_clear].
    repeat match goal with |- (if ?b then _ else _) = _ -> _ => destruct b;
      [intros H; injection H as <-; eexists; repeat split; eauto|] end.
    discriminate.
Qed.

Example C54_replace_width_nontrivial : exists t',
  pens_replace_width (pens_make false (CStr "red") (CStr "blue") (CTuple [0;0;0;0]) 2) (Some 7) = Ok t' /\
  pb_pen (s_edge t') = Some (Pen (Brush (CStr "red")) 7).
Proof. eexists. split; reflexivity. Qed.
