(* Property theorems C83: the repr of a geometry object evaluates to an object built in the same way. *)
Require Import Verif.Base Verif.M_vector Verif.M_bbox Verif.M_transform Verif.M_bezier Verif.M_colors Verif.M_elems Verif.M_group Verif.L_group Verif.M_points Verif.S_points Verif.L_points
  Verif.M_dump Verif.S_dump Verif.L_dump Verif.L_dump2 Verif.L_dump3 Verif.L_dump4 Verif.P_dump Verif.M_pickle Verif.S_pickle Verif.L_pickle Verif.L_pickle2 Verif.M_display Verif.M_repr Verif.S_repr Verif.L_repr Verif.S_bbox Verif.L_ord Verif.L_bbox.
From Coq Require Import String Ascii List Lia Bool Arith ZArith.
Import ListNotations.
Local Open Scope Z_scope.
Local Open Scope nat_scope.
Local Open Scope string_scope.
Local Open Scope list_scope.

Section Reprs.
  Context {F : Type} {NF : Num F}.
  (* numbers in [dom] are read back as they were: of doubles, the finite ones *)
  Variables (dom : F -> Prop) (show : F -> string) (num_of : string -> option F).
  Hypothesis RB : reads_back_on dom show num_of.

  (* The repr of a point, evaluated when other objects exist, makes new objects, among them a
     point that is built in the same way from the same numbers and names: it stays so whatever
     happens to the other objects *)
  Theorem C83_point : forall st i, reachable st -> readable dom st i -> exists s, repr_point show st i = Ok s /\
    forall st0, exists new j, evaluates num_of st0 s = Some (st0 ++ new, GPoint j) /\
      forall old, List.length old = List.length st0 -> same_point st (old ++ new) i j.
  Proof.
    intros st i R N. destruct (r_point dom show num_of RB st i (reachable_wf st R) N) as (s & E & e & Rd & V).
    exists s. split; [exact E|]. intros st0. destruct (V st0) as (new & j & Ev & Sm). exists new, j. split; [|exact Sm].
    now rewrite (evals num_of _ _ _ Rd).
  Qed.

  Lemma same_located (st st' : pstore F) i p : located st i p -> forall j, same_point st st' i j -> located st' j p.
  Proof.
    intros L. induction L as [i x y n Hi|i dx dy b n p Hi L IH|i b s n dx dy bb n' p Hi Hb L IH]; intros j Q.
    - destruct Q as [i j x' y' m A B|i j dx' dy' m c c' A B C|i j s' m c c' A B C]; rewrite Hi in A; try discriminate. injection A as <- <- <-. eapply loc_point; eauto.
    - destruct Q as [i j x' y' m A B|i j dx' dy' m c c' A B C|i j s' m c c' A B C]; rewrite Hi in A; try discriminate. injection A as <- <- <- <-. eapply loc_rel; eauto.
    - destruct Q as [i j x' y' m A B|i j dx' dy' m c c' A B C|i j s' m c c' A B C]; rewrite Hi in A; try discriminate. injection A as <- <- <-.
      destruct C as [b j' x' y' m A B'|b j' dx' dy' m d d' A B' C'|b j' s' m d d' A B' C']; rewrite Hb in A; try discriminate. injection A as <- <- <- <-. eapply loc_calc; eauto.
  Qed.
  Lemma same_sym (st st' : pstore F) i j : same_point st st' i j -> same_point st' st j i.
  Proof. intros H. induction H; [eapply same_abs|eapply same_rel|eapply same_calc]; eauto. Qed.
  Lemma same_trans (s1 s2 s3 : pstore F) i j : same_point s1 s2 i j -> forall k, same_point s2 s3 j k -> same_point s1 s3 i k.
  Proof.
    intros H. induction H as [i j x y n A B|i j dx dy n b b' A B C IH|i j s n b b' A B C IH]; intros k Q;
      destruct Q as [j k x' y' m A' B'|j k dx' dy' m c c' A' B' C'|j k s' m c c' A' B' C']; rewrite B in A'; try discriminate; injection A'; intros; subst;
      [eapply same_abs|eapply same_rel|eapply same_calc]; eauto.
  Qed.
  (* points built in the same way are at the same place, or both nowhere *)
  Theorem C83_same_place : forall (st st' : pstore F) i j, same_point st st' i j -> forall p, located st i p <-> located st' j p.
  Proof. intros st st' i j H p. split; intros L; eapply same_located; eauto using same_sym. Qed.

  (* Points with the same repr are built in the same way *)
  Theorem C83_distinct : forall st st' i i', reachable st -> reachable st' -> readable dom st i -> readable dom st' i' ->
    repr_point show st i = repr_point show st' i' -> same_point st st' i i'.
  Proof.
    intros st st' i i' R R' N N' E. destruct (C83_point st i R N) as (s & Es & V), (C83_point st' i' R' N') as (s' & Es' & V').
    rewrite Es, Es' in E. injection E as <-. destruct (V []) as (new & j & Ev & Sm), (V' []) as (new' & j' & Ev' & Sm'). rewrite Ev in Ev'. injection Ev' as <- <-.
    specialize (Sm [] eq_refl). specialize (Sm' [] eq_refl). eapply same_trans; [exact Sm|]. now apply same_sym.
  Qed.
  (* and points built in the same way have the same repr *)
  Theorem C83_same_text : forall st st' i j, reachable st -> reachable st' -> readable dom st i -> same_point st st' i j ->
    repr_point show st i = repr_point show st' j.
  Proof.
    intros st st' i j R R' N Q. apply reachable_wf in R, R'. unfold repr_point.
    assert (K : forall f f' i j, same_point st st' i j -> i < f -> j < f' -> repr_node show f st i = repr_node show f' st' j).
    { clear - R R'. induction f as [|f IH]; intros f' i j Q L L'; [lia|]. destruct f' as [|f']; [lia|]. cbn [repr_node].
      destruct Q as [i j x y n A B|i j dx dy n b b' A B C|i j s n b b' A B C]; rewrite A, B; [reflexivity|..];
        destruct (R i _ A) as [W _], (R' j _ B) as [W' _]; specialize (W b eq_refl); specialize (W' b' eq_refl); rewrite (IH f' b b' C) by lia; reflexivity. }
    apply K; auto.
  Qed.
  (* evaluated where the point itself exists, the repr gives a point equal to it *)
  Theorem C83_equal : (forall x : F, dom x -> neqb x x = true) -> forall st i, reachable st -> readable dom st i -> exists s, repr_point show st i = Ok s /\
    exists new j, evaluates num_of st s = Some (st ++ new, GPoint j) /\ points_eqb (st ++ new) i j = true.
  Proof.
    intros Rf st i R N. destruct (C83_point st i R N) as (s & Es & V). exists s. split; [exact Es|]. destruct (V st) as (new & j & Ev & Sm). exists new, j. split; [exact Ev|].
    specialize (Sm st eq_refl). clear Ev V Es. apply reachable_wf in R. unfold points_eqb.
    assert (K : forall f i j, i < f -> readable dom st i -> same_point st (st ++ new) i j -> node_eqb f (st ++ new) i j = true).
    { clear - R Rf. induction f as [|f IH]; intros i j L N Q; [lia|]. cbn [node_eqb].
      assert (X : forall d, nth_error st i = Some d -> nth_error (st ++ new) i = Some d) by (intros d H; rewrite nth_error_app1; [exact H|]; apply nth_error_Some; congruence).
      assert (Rn : forall n, name_eqb n n = true) by (intros [n|]; [apply String.eqb_refl|reflexivity]).
      destruct N as [i x y n Hi Hn Dx Dy|i dx dy b n Hi Hn Dx Dy Nb|i b s n Hi Hn Ds Nb]; rewrite (X _ Hi); destruct Q as [i j x' y' m A B|i j dx' dy' m c c' A B C|i j s' m c c' A B C];
        rewrite Hi in A; try discriminate; rewrite B.
      - injection A as <- <- <-. now rewrite Rn, !Rf.
      - injection A as <- <- <- <-. destruct (R i _ Hi) as [W _]. specialize (W b eq_refl). rewrite Rn, !Rf, (IH b c') by (auto; lia). reflexivity.
      - injection A as <- <- <-. destruct (R i _ Hi) as [W _]. specialize (W b eq_refl). rewrite Rn, !Rf, (IH b c') by (auto; lia). reflexivity. }
    apply K; auto.
  Qed.

  (* vectors *)
  Theorem C83_vector : forall st v, reachable st -> readable_vector dom st v -> exists s, repr_vobj show st v = Ok s /\
    forall st0, exists new w, evaluates num_of st0 s = Some (st0 ++ new, GVec w) /\
      forall old, List.length old = List.length st0 -> same_vector st (old ++ new) v w.
  Proof.
    intros st v R N. destruct (r_vobj dom show num_of RB st v (reachable_wf st R) N) as (s & E & e & Rd & V).
    exists s. split; [exact E|]. intros st0. destruct (V st0) as (new & j & Ev & Sm). exists new, j. split; [|exact Sm].
    now rewrite (evals num_of _ _ _ Rd).
  Qed.
  Lemma same_vector_more (st old new more : pstore F) v w : same_vector st (old ++ new) v w -> same_vector st (old ++ new ++ more) v w.
  Proof. destruct v, w; cbn; auto. intros [A B]. split; now apply same_more. Qed.

  (* a line *)
  Theorem C83_line : forall st i v, reachable st -> readable dom st i -> readable_vector dom st v -> exists s, repr_line show st i v = Ok s /\
    forall st0, exists new j w, evaluates num_of st0 s = Some (st0 ++ new, GLine j w) /\
      forall old, List.length old = List.length st0 -> same_point st (old ++ new) i j /\ same_vector st (old ++ new) v w.
  Proof.
    intros st i v R N Nv. apply reachable_wf in R. destruct (r_point dom show num_of RB st i R N) as (a & E & ea & Ra & Va), (r_vobj dom show num_of RB st v R Nv) as (b & E' & eb & Rb & Vb).
    unfold repr_line. rewrite E, E'. cbn [bind]. eexists. split; [reflexivity|].
    intros st0. destruct (Va st0) as (n1 & j & E1 & S1). destruct (Vb (st0 ++ n1)) as (n2 & w & E2 & S2). exists (n1 ++ n2), j, w.
    rewrite (evals num_of _ (ECall "Line" (args [ea; eb]))) by (class "Line" [a; b]).
    rewrite (v_call num_of "Line" _ _ ((st0 ++ n1) ++ n2) [GPoint j; GVec w]); [|reflexivity|cbn; now rewrite E1, E2].
    split; [cbn; now rewrite app_assoc|]. intros old L. split; [apply same_more, S1, L|]. rewrite app_assoc. apply S2. rewrite !app_length. lia.
  Qed.

  (* a control point of a curve, and its str: a tuple of its parts *)
  Lemma ctrl_parts st i l r : L_points.wf st -> readable dom st i -> readable_vector dom st l -> readable_vector dom st r -> exists a b c ea eb ec,
    repr_point show st i = Ok a /\ repr_vobj show st l = Ok b /\ repr_vobj show st r = Ok c /\ Reads a ea /\ Reads b eb /\ Reads c ec /\
    forall st0 k, exists new j w x, all_st (value_of num_of) st0 [ea; eb; ec; EStr k] = Some (st0 ++ new, [GPoint j; GVec w; GVec x; GStr k]) /\
      forall old, List.length old = List.length st0 -> same_point st (old ++ new) i j /\ same_vector st (old ++ new) l w /\ same_vector st (old ++ new) r x.
  Proof.
    intros R N Nl Nr. destruct (r_point dom show num_of RB st i R N) as (a & E & ea & Ra & Va), (r_vobj dom show num_of RB st l R Nl) as (b & E' & eb & Rb & Vb), (r_vobj dom show num_of RB st r R Nr) as (c & E'' & ec & Rc & Vc).
    exists a, b, c, ea, eb, ec. do 6 (split; [assumption|]). intros st0 k.
    destruct (Va st0) as (n1 & j & E1 & S1). destruct (Vb (st0 ++ n1)) as (n2 & w & E2 & S2). destruct (Vc ((st0 ++ n1) ++ n2)) as (n3 & x & E3 & S3). exists (n1 ++ n2 ++ n3), j, w, x.
    split; [cbn; rewrite E1, E2, E3; now rewrite <- !app_assoc|]. intros old L. split; [apply same_more, S1, L|]. split.
    - rewrite app_assoc. apply same_vector_more, S2. rewrite !app_length. lia.
    - rewrite app_assoc, app_assoc. apply S3. rewrite !app_length. lia.
  Qed.
  Theorem C83_control : forall st i l r k, reachable st -> readable dom st i -> readable_vector dom st l -> readable_vector dom st r -> exists s s',
    repr_ctrl show st i l r k = Ok s /\ str_ctrl show st i l r k = Ok s' /\
    forall st0, exists new j w x, evaluates num_of st0 s = Some (st0 ++ new, GCtrl j w x k) /\
      evaluates num_of st0 s' = Some (st0 ++ new, GTuple [GPoint j; GVec w; GVec x; GStr k]) /\
      forall old, List.length old = List.length st0 -> same_point st (old ++ new) i j /\ same_vector st (old ++ new) l w /\ same_vector st (old ++ new) r x.
  Proof.
    intros st i l r k R N Nl Nr. apply reachable_wf in R. destruct (ctrl_parts st i l r R N Nl Nr) as (a & b & c & ea & eb & ec & Ea & Eb & Ec & Ra & Rb & Rc & V).
    unfold repr_ctrl, str_ctrl. rewrite Ea, Eb, Ec. cbn [bind]. do 2 eexists. split; [reflexivity|]. split; [reflexivity|]. intros st0.
    destruct (V st0 k) as (new & j & w & x & Ev & Sm). exists new, j, w, x. split; [|split; [|exact Sm]].
    - rewrite (evals num_of _ (ECall "ControlPoint" (args [ea; eb; ec; EStr k]))) by (unfold repr_tuple; class "ControlPoint" [a; b; c; repr_str k]).
      now rewrite (v_call num_of "ControlPoint" _ _ _ _ eq_refl Ev).
    - rewrite (evals num_of _ (ETuple [ea; eb; ec; EStr k])); [cbn [value_of]; now rewrite Ev|]. apply r_tuple; [auto using r_str|cbn; lia].
  Qed.

  (* a transform: its first two rows, the third being the usual one *)
  Theorem C83_transform : forall st t, xf_in dom t ->
    evaluates num_of st (repr_xf show t) = Some (st, GXf (let m := tmat t in t_new6 (m00 m) (m01 m) (m02 m) (m10 m) (m11 m) (m12 m))).
  Proof.
    intros st t H. destruct (r_tuple_nums dom show num_of RB _ H ltac:(cbn; lia)) as (e & R & V).
    rewrite (evals num_of _ (ECall "Transform" (args [e]))) by (unfold repr_xf; cbv zeta; class "Transform" [repr_tuple (map show [m00 (tmat t); m01 (tmat t); m02 (tmat t); m10 (tmat t); m11 (tmat t); m12 (tmat t)])]).
    rewrite (v_call num_of "Transform" _ _ st [GTuple (map (@GNum F) [m00 (tmat t); m01 (tmat t); m02 (tmat t); m10 (tmat t); m11 (tmat t); m12 (tmat t)])]); [reflexivity|reflexivity|cbn [all_st]; now rewrite V].
  Qed.

  (* a box: the numbers are given to the constructor, which sorts them; its str is the tuple of them *)
  Definition box_in (b : bbox F) : Prop := match b with BNone => True | BB a b c d => dom a /\ dom b /\ dom c /\ dom d end.
  Theorem C83_box : forall st b, box_in b -> evaluates num_of st (repr_bbox show b) = Some (st, GBox (bbox_copy b)).
  Proof.
    assert (K : forall a b c d ea eb ec ed, Reads a ea -> Reads b eb -> Reads c ec -> Reads d ed ->
      Reads ("BBox(xl=" ++ a ++ ", yl=" ++ b ++ ", xh=" ++ c ++ ", yh=" ++ d ++ ")")%string (ECall "BBox" [(Some "xl", ea); (Some "yl", eb); (Some "xh", ec); (Some "yh", ed)])).
    { intros a b c d ea eb ec ed A B C D. change ("BBox(xl=" ++ a ++ ", yl=" ++ b ++ ", xh=" ++ c ++ ", yh=" ++ d ++ ")")%string with ("BBox" ++ "(" ++ "xl" ++ "=" ++ a ++ ", " ++ "yl" ++ "=" ++ b ++ ", " ++ "xh" ++ "=" ++ c ++ ", " ++ "yh" ++ "=" ++ d ++ ")")%string.
      apply r_call; [reflexivity|]. do 3 (apply r_kws; [reflexivity|assumption|]). exact (r_kw "yh" d ed eq_refl D). }
    intros st [|xl yl xh yh].
    - intros _. cbn [repr_bbox]. rewrite (evals num_of _ _ _ (K _ _ _ _ _ _ _ _ r_none r_none r_none r_none)). reflexivity.
    - intros (A & B & C & D). destruct (r_num dom show num_of RB _ A) as (ea & Ra & Va), (r_num dom show num_of RB _ B) as (eb & Rb & Vb), (r_num dom show num_of RB _ C) as (ec & Rc & Vc), (r_num dom show num_of RB _ D) as (ed & Rd & Vd).
      cbn [repr_bbox]. rewrite (evals num_of _ _ _ (K _ _ _ _ _ _ _ _ Ra Rb Rc Rd)). cbn. rewrite Va, Vb, Vc, Vd. reflexivity.
  Qed.
  Theorem C83_str_box : forall st b, box_in b -> evaluates num_of st (str_bbox show b) =
    Some (st, GTuple (match b with BNone => [GNone; GNone; GNone; GNone] | BB xl yl xh yh => [GNum xl; GNum yl; GNum xh; GNum yh] end)).
  Proof.
    intros st [|xl yl xh yh].
    - intros _. unfold str_bbox. rewrite (evals num_of _ (ETuple [EName "None"; EName "None"; EName "None"; EName "None"])); [reflexivity|]. apply r_tuple; [auto using r_none|cbn; lia].
    - intros (A & B & C & D). destruct (r_tuple_nums dom show num_of RB [xl; yl; xh; yh]) as (e & R & V); [auto|cbn; lia|]. unfold str_bbox. now rewrite (evals num_of _ _ _ R), V.
  Qed.

  (* the str of a point is the tuple of its coordinates *)
  Theorem C83_str_point : forall st i p, reachable st -> located st i p -> dom (px p) -> dom (py p) -> exists s, str_point show st i = Ok s /\
    forall st0, evaluates num_of st0 s = Some (st0, GTuple [GNum (px p); GNum (py p)]).
  Proof.
    intros st i p R L Dx Dy. apply reachable_wf in R. apply (pos_located st R) in L. unfold str_point. rewrite L. cbn [bind]. eexists. split; [reflexivity|].
    intros st0. destruct (r_tuple_nums dom show num_of RB [px p; py p]) as (e & Rd & V); [auto|cbn; lia|]. now rewrite (evals num_of _ _ _ Rd), V.
  Qed.
  (* the str of a vector is a V before the tuple of its coordinates *)
  Theorem C83_str_vector : forall st v, dom (vx v) -> dom (vy v) -> exists s, str_vobj show st (OVec v) = Ok ("V" ++ s)%string /\
    forall st0, evaluates num_of st0 s = Some (st0, GTuple [GNum (vx v); GNum (vy v)]).
  Proof.
    intros st v Dx Dy. cbn [str_vobj]. eexists. split; [reflexivity|].
    intros st0. destruct (r_tuple_nums dom show num_of RB [vx v; vy v]) as (e & Rd & V); [auto|cbn; lia|]. now rewrite (evals num_of _ _ _ Rd), V.
  Qed.
  (* of a vector between two points, the tuples of the coordinates of the points, in order, with a minus between *)
  Theorem C83_str_between : forall st v p q, reachable st -> located st (vr_p1 v) p -> located st (vr_p2 v) q ->
    dom (px p) -> dom (py p) -> dom (px q) -> dom (py q) -> exists s t, str_vobj show st (OVrel v) = Ok ("V(" ++ s ++ "-" ++ t ++ ")")%string /\
    forall st0, evaluates num_of st0 s = Some (st0, GTuple [GNum (px p); GNum (py p)]) /\ evaluates num_of st0 t = Some (st0, GTuple [GNum (px q); GNum (py q)]).
  Proof.
    intros st v p q R L K D1 D2 D3 D4. destruct (C83_str_point st _ p R L D1 D2) as (s & Es & Vs), (C83_str_point st _ q R K D3 D4) as (t & Et & Vt).
    cbn [str_vobj]. rewrite Es, Et. cbn [bind]. exists s, t. split; [reflexivity|auto].
  Qed.
  (* The str of a line: the tuples of where it starts and of its direction, with all numbers rounded by [r] *)
  Theorem C83_str_line : forall (r : F -> F) st i v p, reachable st -> located st i p ->
    dom (r (px p)) -> dom (r (py p)) -> dom (r (vx v)) -> dom (r (vy v)) -> exists s t,
    str_line (fun x => show (r x)) st i (OVec v) = Ok (s ++ " @ V" ++ t)%string /\
    forall st0, evaluates num_of st0 s = Some (st0, GTuple [GNum (r (px p)); GNum (r (py p))]) /\ evaluates num_of st0 t = Some (st0, GTuple [GNum (r (vx v)); GNum (r (vy v))]).
  Proof.
    intros r st i v p R L D1 D2 D3 D4. pose proof (reachable_wf st R) as W. apply (pos_located st W) in L.
    unfold str_line. rewrite L. cbn [bind]. do 2 eexists. split; [reflexivity|]. intros st0.
    destruct (r_tuple_nums dom show num_of RB [r (px p); r (py p)]) as (e & Rd & V); [auto|cbn; lia|].
    destruct (r_tuple_nums dom show num_of RB [r (vx v); r (vy v)]) as (e' & Rd' & V'); [auto|cbn; lia|].
    split; [now rewrite (evals num_of _ _ _ Rd), V|now rewrite (evals num_of _ _ _ Rd'), V'].
  Qed.
  (* if the direction is between two points, the points are rounded *)
  Theorem C83_str_line_between : forall (r : F -> F) st i v p a b, reachable st -> located st i p -> located st (vr_p1 v) a -> located st (vr_p2 v) b ->
    Forall (fun q => dom (r (px q)) /\ dom (r (py q))) [p; a; b] -> exists s t u,
    str_line (fun x => show (r x)) st i (OVrel v) = Ok (s ++ " @ V(" ++ t ++ "-" ++ u ++ ")")%string /\
    forall st0, Forall2 (fun text q => evaluates num_of st0 text = Some (st0, GTuple [GNum (r (px q)); GNum (r (py q))])) [s; t; u] [p; a; b].
  Proof.
    intros r st i v p a b R L A B D. pose proof (reachable_wf st R) as W. apply (pos_located st W) in L, A, B.
    unfold str_line. rewrite L, A, B. cbn [bind]. do 3 eexists. split; [reflexivity|]. intros st0.
    assert (K : forall q, dom (r (px q)) /\ dom (r (py q)) -> evaluates num_of st0 (repr_tuple [show (r (px q)); show (r (py q))]) = Some (st0, GTuple [GNum (r (px q)); GNum (r (py q))])).
    { intros q [D1 D2]. destruct (r_tuple_nums dom show num_of RB [r (px q); r (py q)]) as (e & Rd & V); [auto|cbn; lia|]. now rewrite (evals num_of _ _ _ Rd), V. }
    inversion_clear D as [|? ? H1 D']; inversion_clear D' as [|? ? H2 D]; inversion_clear D as [|? ? H3 _]. repeat constructor; apply K; assumption.
  Qed.
  (* the three rows of a matrix *)
  Definition mat_in (m : mat F) : Prop := Forall dom [m00 m; m01 m; m02 m; m10 m; m11 m; m12 m; m20 m; m21 m; m22 m].
  Definition rows (m : mat F) : @gval F := GTuple [GTuple [GNum (m00 m); GNum (m01 m); GNum (m02 m)]; GTuple [GNum (m10 m); GNum (m11 m); GNum (m12 m)]; GTuple [GNum (m20 m); GNum (m21 m); GNum (m22 m)]].
  Lemma r_rows m : mat_in m -> exists e, Reads (str_matrix show m) e /\ forall st, value_of num_of st e = Some (st, rows m).
  Proof.
    unfold mat_in. intros H. repeat match goal with H : Forall _ (_ :: _) |- _ => inversion H; clear H; subst end.
    destruct (r_tuple_nums dom show num_of RB [m00 m; m01 m; m02 m]) as (e1 & R1 & V1); [auto|cbn; lia|].
    destruct (r_tuple_nums dom show num_of RB [m10 m; m11 m; m12 m]) as (e2 & R2 & V2); [auto|cbn; lia|].
    destruct (r_tuple_nums dom show num_of RB [m20 m; m21 m; m22 m]) as (e3 & R3 & V3); [auto|cbn; lia|].
    exists (ETuple [e1; e2; e3]). split; [apply r_tuple; [auto|cbn; lia]|]. intros st. cbn. now rewrite V1, V2, V3.
  Qed.
  Theorem C83_str_matrix : forall st m, mat_in m -> evaluates num_of st (str_matrix show m) = Some (st, rows m).
  Proof. intros st m H. destruct (r_rows m H) as (e & R & V). now rewrite (evals num_of _ _ _ R), V. Qed.
  (* the repr of a Matrix names the class Transform, and calls it with rows, which Transform does not take *)
  Theorem C83_matrix_refuted : forall st m, mat_in m -> evaluates num_of st (repr_matrix show m) = None.
  Proof.
    intros st m H. destruct (r_rows m H) as (e & R & V). rewrite (evals num_of _ (ECall "Transform" (args [e]))) by (change (repr_matrix show m) with ("Transform(" ++ str_matrix show m ++ ")")%string; class "Transform" [str_matrix show m]).
    rewrite (v_call num_of "Transform" _ _ st [rows m]); [reflexivity|reflexivity|cbn [all_st]; now rewrite V].
  Qed.

  (* pens and brushes *)
  Theorem C83_penbrush : forall p, pb_in dom p -> read_value num_of (repr_pb show p) = Some (VPenBrush p).
  Proof. intros p H. apply read_means. intros E PE. apply m_pb; auto. now apply (pb_mono dom). Qed.
  Theorem C83_penbrush_distinct : forall p q, pb_in dom p -> pb_in dom q -> repr_pb show p = repr_pb show q -> p = q.
  Proof. intros p q Hp Hq E. pose proof (C83_penbrush p Hp) as A. rewrite E, (C83_penbrush q Hq) in A. congruence. Qed.

  (* the five pens of PensByShape; the repr names each of them, the str does not tell which kind of text a colour is *)
  Theorem C83_pens : forall t : by_shape (penbrush F), (forall k p, by_shape_get t k = Ok p -> pb_in dom p) ->
    read_pens num_of (repr_pens show t) = Some t.
  Proof.
    intros t H.
    assert (Q : forall p, pb_in dom p -> exists e, Reads (repr_pb show p) e /\ eval num_of [] e = Some (VPenBrush p)).
    { intros p Hp. assert (PE : plain (@nil (string * @value F))) by (intros k []).
      destruct (m_pb show num_of [] PE p (pb_mono dom _ RB p Hp)) as (e & ts & A & B & C). exists e. split; [exists ts; auto|exact C]. }
    destruct t as [a b c d g].
    destruct (Q a (H "edge"%string _ eq_refl)) as (ea & Ra & Va).
    destruct (Q b (H "filled"%string _ eq_refl)) as (eb & Rb & Vb).
    destruct (Q c (H "clear"%string _ eq_refl)) as (ec & Rc & Vc).
    destruct (Q d (H "edge_filled"%string _ eq_refl)) as (ed & Rd & Vd).
    destruct (Q g (H "edge_clear"%string _ eq_refl)) as (eg & Rg & Vg).
    assert (R : Reads (repr_pens show (ByShape a b c d g))
      (ECall "PensByShape" [(Some "edge"%string, ea); (Some "filled"%string, eb); (Some "clear"%string, ec); (Some "edge_filled"%string, ed); (Some "edge_clear"%string, eg)])).
    { unfold repr_pens. change ("PensByShape(" ++ ?x)%string with ("PensByShape" ++ "(" ++ x)%string.
      apply r_call; [reflexivity|]. cbn [pens_by_key map fst snd s_edge s_filled s_clear s_edge_filled s_edge_clear join].
      rewrite !sapp_assoc. repeat (apply r_kws; [reflexivity|assumption|]). pose proof (r_kw "edge_clear" _ _ eq_refl Rg) as L; rewrite !sapp_assoc in L; exact L. }
    unfold read_pens. rewrite (reads_expr _ _ R). cbn [all]. rewrite Va, Vb, Vc, Vd, Vg. reflexivity.
  Qed.

  (* an empty name is not written: such a point comes back without a name, so not equal *)
  Theorem C83_empty_name_refuted : forall x y : F, dom x -> dom y -> repr_point show [NPoint x y (Some "")] 0 = repr_point show [NPoint x y None] 0 /\
    forall s, repr_point show [NPoint x y (Some "")] 0 = Ok s -> exists st, evaluates num_of [NPoint x y (Some "")] s = Some (st, GPoint 1) /\ points_eqb st 0 1 = false.
  Proof.
    intros x y Dx Dy. split; [reflexivity|]. change (repr_point show [NPoint x y (Some "")] 0) with (repr_point show [NPoint x y None] 0). intros s E.
    destruct (r_abs dom show num_of RB [NPoint x y None] 0 x y None eq_refl ltac:(discriminate) Dx Dy) as (e & R & V). cbn in E. injection E as <-.
    destruct (r_num dom show num_of RB _ Dx) as (ex & Rx & Vx), (r_num dom show num_of RB _ Dy) as (ey & Ry & Vy).
    rewrite (evals num_of _ (ECall "Point" (args [ex; ey]))) by (class "Point" [show x; show y]).
    rewrite (v_call num_of "Point" _ _ [NPoint x y (Some "")] [GNum x; GNum y]); [|reflexivity|cbn; now rewrite Vx, Vy]. eexists. split; reflexivity.
  Qed.
End Reprs.

(* a box of ordered numbers comes back equal *)
Theorem C83_box_equal : forall {F} {NF : Num F} {OF : NumOrd F} (dom : F -> Prop) (show : F -> string) (num_of : string -> option F), reads_back_on dom show num_of ->
  forall st b, good b -> box_in dom b -> exists b', evaluates num_of st (repr_bbox show b) = Some (st, GBox b') /\ bbox_eqb b b' = true.
Proof.
  intros F NF OF dom show num_of RB st b G H. exists (bbox_copy b). split; [now apply C83_box with (dom := dom)|].
  destruct b as [|xl yl xh yh]; [reflexivity|]. destruct G as ((O1 & O2 & O3 & O4) & L1 & L2).
  unfold bbox_copy, mkbbox, bbox_eqb, le in *. ord [xl; yl; xh; yh].
Qed.

(* The repr of a curve, rectangle or ellipse does not say its pen, its transform or whether it
   is closed: elements that differ in them have the same repr, and that of a rectangle is no
   call that the class accepts (the pen is missing) *)
Theorem C83_elements_refuted : forall {F} {NF : Num F} (show : F -> string) s b pb closed x,
  repr_elem show (ELeaf b s) = repr_elem show (ELeaf (EB (e_name b) pb closed x) s).
Proof. intros F NF show s b pb closed x. destruct s; reflexivity. Qed.
Theorem C83_rectangle_refuted : read_value readZ (repr_elem showZ (ELeaf (EB "r" pb1 true t_new) (SRect (P 1 2) (P (-3) 4))%Z)) = None.
Proof. vm_compute. reflexivity. Qed.
(* the repr of Colors is no expression for its colours: the absent colour and the string 'None' look the same *)
Theorem C83_colors_refuted : forall {F} (show : F -> string), repr_colors show None None = repr_colors show (Some (CStr "None")) (Some (CStr "None")).
Proof. reflexivity. Qed.
(* it writes the outline first, and named colours without quotes *)
Theorem C83_colors_text : forall {F} (show : F -> string) o f,
  repr_colors show (Some (CStr o)) (Some (CStr f)) = ("Colors(" ++ o ++ ", " ++ f ++ ")")%string /\
  repr_colors show None (Some (CStr f)) = ("Colors(None, " ++ f ++ ")")%string /\
  repr_colors show (Some (CStr o)) None = ("Colors(" ++ o ++ ", None)")%string.
Proof. repeat split; reflexivity. Qed.
Example C83_pens_text :
  repr_pens showZ (pens_make false (CStr "red") (CNum 7) (CStr "x") 2)%Z =
    "PensByShape(edge=PenBrush(Pen('red', 2), None), filled=PenBrush(None, Brush('red')), clear=PenBrush(None, Brush('x')), edge_filled=PenBrush(Pen('red', 2), Brush(7)), edge_clear=PenBrush(Pen('red', 2), Brush('x')))"%string /\
  read_pens readZ (repr_pens showZ (pens_make false (CStr "red") (CNum 7) (CStr "x") 2)%Z) = Some (pens_make false (CStr "red") (CNum 7) (CStr "x") 2)%Z /\
  str_pens showZ (pens_make false (CStr "red") (CNum 7) (CStr "x") 2)%Z =
    "PensByShape(PenBrush((red, 2), None),PenBrush(None, red),PenBrush(None, x),PenBrush((red, 2), 7),PenBrush((red, 2), x))"%string.
Proof. repeat split; vm_compute; reflexivity. Qed.
Theorem C83_str_pens_refuted : forall {F} {NF : Num F} (show : F -> string) (n w : F) a b c d,
  let p col := PenBrush (Some (Pen (Brush col) w)) None in
  str_pens show (ByShape (p (CNum n)) a b c d) = str_pens show (ByShape (p (CStr (show n))) a b c d).
Proof. reflexivity. Qed.
(* and so the str of a pen or brush does not tell a number from the string of its digits, though the repr does *)
Theorem C83_str_pen_refuted : forall {F} {NF : Num F} (show : F -> string) n w,
  str_brush show (Brush (CNum n)) = str_brush show (Brush (CStr (show n))) /\
  str_pen show (Pen (Brush (CNum n)) w) = str_pen show (Pen (Brush (CStr (show n))) w).
Proof. split; reflexivity. Qed.

(* a point, a point relative to it, one computed from that, named ones, and one that was moved *)
Definition history : list (pop Z) :=
  [PNew 1 (-2) None; PRel 3 4 0%nat (Some "it's"); PCalc 1%nat (-5) (Some "c"); PNew 0 0 (Some "o"); PRel 7 8 2%nat None; PSetxy 0%nat 10 20; PCopy 1%nat]%Z.
Local Open Scope Z_scope.
Example C83_store : prun history [] = [NPoint 10 20 None; NRel 3 4 0%nat (Some "it's"); NCalc 1%nat (-5) (Some "c"); NPoint 0 0 (Some "o"); NRel 7 8 2%nat None; NRel 3 4 0%nat (Some "it's")].
Proof. vm_compute. reflexivity. Qed.
Example C83_hypotheses : reachable (prun history []) /\ (forall i, (i < 6)%nat -> readable (fun _ => True) (prun history []) i) /\
  readable_vector (fun _ => True) (prun history []) (OVrel (VR 0 4)) /\ reads_back_on (fun _ => True) showZ readZ.
Proof.
  assert (R0 : readable (fun _ => True) (prun history []) 0) by (eapply readable_abs; [reflexivity|discriminate|auto..]).
  assert (R1 : readable (fun _ => True) (prun history []) 1) by (eapply readable_rel; [reflexivity|discriminate|auto..]).
  assert (R2 : readable (fun _ => True) (prun history []) 2) by (eapply readable_calc; [reflexivity|discriminate|auto..]).
  assert (R4 : readable (fun _ => True) (prun history []) 4) by (eapply readable_rel; [reflexivity|discriminate|auto..]).
  split; [now exists history|]. split; [|split; [split; assumption|exact C68_ints_read_back]].
  intros i L. assert (i = 0 \/ i = 1 \/ i = 2 \/ i = 3 \/ i = 4 \/ i = 5)%nat as [->|[->|[->|[->|[->| ->]]]]] by lia; auto.
  - eapply readable_abs; [reflexivity|discriminate|auto..].
  - eapply readable_rel; [reflexivity|discriminate|auto..].
Qed.
Example C83_texts : map (repr_point showZ (prun history [])) (seq 0 5) = map Ok
  ["Point(10, 20)"; "PointRelative(3, 4, Point(10, 20), ""it's"")"; "PointCalc(PointRelative(3, 4, Point(10, 20), ""it's""), -5, 'c')"; "Point(0, 0, 'o')";
   "PointRelative(7, 8, PointCalc(PointRelative(3, 4, Point(10, 20), ""it's""), -5, 'c'))"].
Proof. vm_compute. reflexivity. Qed.
Example C83_read : evaluates readZ [NPoint 1 1 None] "PointRelative(7, 8, PointCalc(PointRelative(3, 4, Point(10, 20), ""it's""), -5, 'c'))" =
  Some ([NPoint 1 1 None; NPoint 10 20 None; NRel 3 4 1%nat (Some "it's"); NCalc 2%nat (-5) (Some "c"); NRel 7 8 3%nat None], GPoint 4).
Proof. vm_compute. reflexivity. Qed.
Example C83_control_text : repr_ctrl showZ (prun history []) 1 (OVec (V 1 (-2))) (OVrel (VR 0 3)) "smooth" =
  Ok "ControlPoint(PointRelative(3, 4, Point(10, 20), ""it's""), Vector(1, -2), VectorRelative(Point(10, 20), Point(0, 0, 'o')), 'smooth')".
Proof. vm_compute. reflexivity. Qed.
Example C83_line_text : repr_line showZ (prun history []) 3 (OVec (V 1 (-2))) = Ok "Line(Point(0, 0, 'o'), Vector(1, -2))".
Proof. vm_compute. reflexivity. Qed.
Example C83_box_text : repr_bbox showZ (BB 1 2 3 (-4)) = "BBox(xl=1, yl=2, xh=3, yh=-4)" /\ str_bbox showZ (BB 1 2 3 (-4)) = "(1, 2, 3, -4)" /\
  evaluates readZ [] "BBox(xl=1, yl=2, xh=3, yh=-4)" = Some ([], GBox (BB 1 (-4) 3 2)).
Proof. vm_compute. auto. Qed.
Example C83_matrix_text : repr_matrix showZ (M 1 2 3 4 5 6 7 8 9) = "Transform(((1, 2, 3), (4, 5, 6), (7, 8, 9)))" /\ repr_xf showZ (t_new6 1 2 3 4 5 6) = "Transform((1, 2, 3, 4, 5, 6))".
Proof. vm_compute. auto. Qed.
Example C83_str_texts : str_vobj showZ (prun history []) (OVec (V 1 (-2))) = Ok "V(1, -2)" /\
  str_vobj showZ (prun history []) (OVrel (VR 3 1)) = Ok "V((0, 0)-(13, 24))" /\
  str_line (fun x => showZ (2 * x)) (prun history []) 1 (OVec (V 1 (-2))) = Ok "(26, 48) @ V(2, -4)" /\
  str_line (fun x => showZ (2 * x)) (prun history []) 1 (OVrel (VR 3 1)) = Ok "(26, 48) @ V((0, 0)-(26, 48))".
Proof. vm_compute. auto. Qed.
