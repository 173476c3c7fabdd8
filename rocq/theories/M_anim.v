(* Model of x7/geom/anim.py lines 45-411: time functions, animations of points, Morph and
   MorphMultiStep.  The points are the live points of M_points.v. *)
Require Import Verif.Base Verif.M_vector Verif.M_points Verif.M_bbox Verif.M_transform Verif.M_bezier Verif.M_colors Verif.M_elems Verif.M_group.
From Coq Require Import String.
Local Open Scope list_scope.

(* a time, or what a time function returns: a number, a pair (tx, ty) or None (hidden) *)
Inductive tval (F : Type) := TNum (t : F) | TPair (tx ty : F) | THide.
Arguments TNum {F}. Arguments TPair {F}. Arguments THide {F}.

(* ------------------------------------------------------------------ *)
(** * Time functions *)

Section Time.
  Context {F : Type} {NF : Num F} {TF : NumTrig F}.
  Local Open Scope num_scope.
  Definition tfun := tval F -> res (tval F).

  (* anim.py:64-71 identity *)
  Definition tf_identity : tfun := fun t => Ok t.
  (* anim.py:73-80 identity_xy; None is not a tuple and gives (None, None), which no caller
     can use: a TypeError here *)
  Definition tf_identity_xy : tfun :=
    fun t => match t with TNum a => Ok (TPair a a) | TPair a b => Ok (TPair a b) | THide => Raise TypeError end.
  (* anim.py:82-92 xy: both functions have to return a number for 0; the pair of what they
     return, where anything but two numbers is a TypeError for the callers *)
  Definition tf_xy (fx fy : tfun) : res tfun :=
    let* a := fx (TNum (#0)) in
    match a with
    | TNum _ =>
        let* b := fy (TNum (#0)) in
        match b with
        | TNum _ => Ok (fun t => let* a := fx t in let* b := fy t in
                                 match a, b with TNum a, TNum b => Ok (TPair a b) | _, _ => Raise TypeError end)
        | _ => Raise AssertionError
        end
    | _ => Raise AssertionError
    end.

  (* numpy.interp for knots in increasing order (external, see DESIGN.md): below the first knot
     its value, from the last knot on its value, otherwise on the line between the last knot
     at or before x and the next one *)
  Fixpoint interp_from (k : F * F) (rest : list (F * F)) (x : F) : F :=
    match rest with
    | [] => snd k
    | k' :: rest' =>
        if x <? fst k' then
          if fst k =? x then snd k
          else (snd k' - snd k) / (fst k' - fst k) * (x - fst k) + snd k
        else interp_from k' rest' x
    end.
  Definition np_interp (knots : list (F * F)) (x : F) : res F :=
    match knots with
    | [] => Raise ValueError
    | k :: rest => Ok (if x <? fst k then snd k else interp_from k rest x)
    end.
  (* anim.py:106-120 interpolate: unpacking zip of an empty list raises when the function is
     made *)
  Definition tf_interpolate (curve : list (F * F)) : res tfun :=
    match curve with
    | [] => Raise ValueError
    | _ => Ok (fun t =>
                 match t with
                 | TPair tx ty => let* a := np_interp curve tx in let* b := np_interp curve ty in Ok (TPair a b)
                 | TNum t => let* a := np_interp curve t in Ok (TNum a)
                 | THide => Raise TypeError
                 end)
    end.
  (* anim.py:94-104 ramp_up, ramp_down *)
  Definition tf_ramp_up (start stop : F) : res tfun :=
    tf_interpolate [(#0, #0); (start, #0); (stop, #1); (#1, #1)].
  Definition tf_ramp_down (start stop : F) : res tfun :=
    tf_interpolate [(#0, #1); (start, #1); (stop, #0); (#1, #0)].

  (* math.tau *)
  Definition tau : F := #2 * npi.
  (* anim.py:122-132 periodic; t *= number on a pair or None is a TypeError *)
  Definition tf_periodic (trig : F -> F) (frequency offset scale shift : F) : tfun :=
    let offset := radians offset in
    fun t => match t with
             | TNum t => let t := t * (tau * frequency + offset) in Ok (TNum (trig t * scale + shift))
             | _ => Raise TypeError
             end.
  (* anim.py:134-142 sin, cos *)
  Definition tf_sin := tf_periodic nsin.
  Definition tf_cos := tf_periodic ncos.
  (* anim.py:144-154 sin_cos *)
  Definition tf_sin_cos (frequency offset scale shift : F) : tfun :=
    let offset := radians offset in
    fun t => match t with
             | TNum t => let t := t * (tau * frequency + offset) in
                         Ok (TPair (nsin t * scale + shift) (ncos t * scale + shift))
             | _ => Raise TypeError
             end.
  (* anim.py:156-167 hide_if; comparing a pair or None with a number is a TypeError *)
  Definition tf_hide_if (f : tfun) (threshold : F) : tfun :=
    fun t => let* v := f t in
             match v with
             | TNum a => if a <? threshold then Ok THide else Ok (TNum a)
             | _ => Raise TypeError
             end.
End Time.
Arguments tfun : clear implicits.

(* ------------------------------------------------------------------ *)
(** * Animated points *)

Section Animations.
  Context {F : Type} {NF : Num F} {TF : NumTrig F}.
  Local Open Scope num_scope.

  (* the animations of points: the remembered position, the number of the point and the
     arguments; the target is read at each update.  The function of AnimationGeneric is given
     the time, the remembered position and the present one. *)
  Inductive anim :=
  | AGeneric (orig : pt F) (point : nat) (f : tval F -> pt F -> pt F -> res (F * F))
  | ALinear (orig : pt F) (point target : nat)
  | ALinearFunc (orig : pt F) (point target : nat) (f : tfun F)
  | ASinusoidal (orig : pt F) (point target : nat) (frequency offset : F)
  | ACircular (orig : pt F) (point : nat) (radius frequency offset : F).
  Definition a_point (a : anim) : nat :=
    match a with
    | AGeneric _ p _ | ALinear _ p _ | ALinearFunc _ p _ _ | ASinusoidal _ p _ _ _ | ACircular _ p _ _ _ => p
    end.

  (* the constructors, anim.py:56-58 with 198-202, 212-217, 230-232, 241-247, 260-266: only
     plain points can be animated; [f] is given the remembered position *)
  Definition mk_anim (st : pstore F) (point : nat) (f : pt F -> anim) : res anim :=
    match nth_error st point with
    | Some (NPoint x y _) => Ok (f (P x y))
    | Some _ => Raise ValueError
    | None => Raise KeyError             (* no such object *)
    end.

  (* self.point.setxy(x, y) *)
  Definition move (st : pstore F) (point : nat) (q : F * F) : pstore F * res unit :=
    let (st', r) := pstep st (PSetxy point (fst q) (snd q)) in (st', let* _ := r in Ok tt).
  (* anim.py:219-224 AnimationLinear.update *)
  Definition linear_update (orig : pt F) (point target : nat) (t : tval F) (st : pstore F) : pstore F * res unit :=
    match pos st target with
    | Raise e => (st, Raise e)
    | Ok targ =>
        match t with
        | THide => (st, Raise TypeError)
        | TNum _ | TPair _ _ =>
            let (tx, ty) := match t with TPair a b => (a, b) | TNum a => (a, a) | THide => (#0, #0) end in
            let sx := #1 - tx in let sy := #1 - ty in
            move st point (sx * px orig + tx * px targ, sy * py orig + ty * py targ)
        end
    end.
  Definition half : F := #1 / #2.
  (* update(t): anim.py:204-206, 219-224, 234-235, 249-254, 268-271 *)
  Definition a_update (a : anim) (t : tval F) (st : pstore F) : pstore F * res unit :=
    match a with
    | AGeneric orig point f =>
        match (let* p := pos st point in f t orig p) with
        | Raise e => (st, Raise e)
        | Ok q => move st point q
        end
    | ALinear orig point target => linear_update orig point target t st
    | ALinearFunc orig point target f =>
        match f t with
        | Raise e => (st, Raise e)
        | Ok t' => linear_update orig point target t' st
        end
    | ASinusoidal orig point target frequency offset =>
        match t with
        | TNum t =>
            let t := (#1 - ncos (t * tau * frequency + offset * tau / #360)) * half in
            match pos st target with
            | Raise e => (st, Raise e)
            | Ok targ =>
                let s := #1 - t in
                move st point (s * px orig + t * px targ, s * py orig + t * py targ)
            end
        | _ => (st, Raise TypeError)
        end
    | ACircular orig point radius frequency offset =>
        match t with
        | TNum t =>
            let theta := t * tau * frequency + offset in
            move st point (px orig + radius * nsin theta, py orig + radius * ncos theta)
        | _ => (st, Raise TypeError)
        end
    end.
  (* anim.py:283-285 AnimationHolder.update: in order, an exception ends it *)
  Fixpoint h_update (l : list anim) (t : tval F) (st : pstore F) : pstore F * res unit :=
    match l with
    | [] => (st, Ok tt)
    | a :: l' =>
        match a_update a t st with
        | (st', Ok _) => h_update l' t st'
        | (st', Raise e) => (st', Raise e)
        end
    end.
  (* a history of updates, as made by Builder.build_one; it stops at the first exception *)
  Fixpoint h_run (l : list anim) (ts : list (tval F)) (st : pstore F) : pstore F * res unit :=
    match ts with
    | [] => (st, Ok tt)
    | t :: ts' =>
        match h_update l t st with
        | (st', Ok _) => h_run l ts' st'
        | (st', Raise e) => (st', Raise e)
        end
    end.
End Animations.
Arguments anim : clear implicits.

(* ------------------------------------------------------------------ *)
(** * Morphs

   The control points of the curves are plain values here: live points in the source and the
   target are taken at their present positions, and the morphed curve, which is a fixed()
   copy, has plain points of its own. *)

Section Morph.
  Context {F : Type} {NF : Num F} {RF : NumRoot F} {TF : NumTrig F}.
  Local Open Scope num_scope.

  (* anim.py:300-303, 356-357: while len(a) < n: a.add_one(); every pass adds one point *)
  Fixpoint grow_to (fuel : nat) (n : nat) (cps : list (cpoint F)) : res (list (cpoint F)) :=
    match fuel with
    | O => Ok cps
    | S fuel =>
        if Nat.ltb (List.length cps) n then let* cps := add_one cps in grow_to fuel n cps else Ok cps
    end.

  (* model.py:377-385 ElemCurve.fixed and copy on base and control points; cp.fixed() is bezier.py:55-57 *)
  Definition curve_fixed (c : ebase F * list (cpoint F)) : res (ebase F * list (cpoint F)) :=
    let* b := mk_base (e_name (fst c)) (e_pb (fst c)) (e_closed (fst c)) (Some (e_xform (fst c))) in
    Ok (b, map cp_copy (snd c)).
  Definition curve_elem (c : ebase F * list (cpoint F)) : elem F := ELeaf (fst c) (SCurve (snd c)).
  (* model.replace(old, new) when new will be an object with changing control points: the tree
     as a function of them, and the count *)
  Definition replace_curve (old : elem F) (b : ebase F) (cps : list (cpoint F)) (tree : elem F)
      : res ((list (cpoint F) -> elem F) * nat) :=
    let put cps := elem_replace (fun e => elem_eqb e old) (curve_elem (b, cps)) tree in
    let* count := snd (put cps) in Ok (fun cps => fst (put cps), count).

  (* m.setxy(o + t * (tgt - o)) for the point and the two handles, anim.py:336-339, 404-408 *)
  Definition cp_between (t : F) (now lo hi : cpoint F) : cpoint F :=
    CP (p_add (cc lo) (v_mul (p_sub (cc hi) (cc lo)) t))
       (v_add (cdl lo) (v_mul (v_sub (cdl hi) (cdl lo)) t))
       (v_add (cdr lo) (v_mul (v_sub (cdr hi) (cdr lo)) t)) (ckind now).
  (* zip stops at the shortest list: the rest of the morph stays as it is *)
  Fixpoint cps_between (t : F) (now lo hi : list (cpoint F)) : list (cpoint F) :=
    match now, lo, hi with
    | n :: now', l :: lo', h :: hi' => cp_between t n l h :: cps_between t now' lo' hi'
    | _, _, _ => now
    end.
  (* anim.py:328-334, 379-385: off the screen *)
  Definition cp_away (now : cpoint F) : cpoint F :=
    CP (P (nofZ 1000000) (nofZ 1000000)) (V (#0) (#0)) (V (#0) (#0)) (ckind now).

  (* ---------------- Morph ---------------- *)

  (* a Morph: its source (base and control points), the control points of the target and of the
     morphed curve, whose base is m_base, and the model as the tree it is for given control
     points of the morphed curve *)
  Record morph := Morph {
    m_orig : ebase F * list (cpoint F); m_target : list (cpoint F);
    m_base : ebase F; m_now : list (cpoint F); m_tree : list (cpoint F) -> elem F }.
  (* what the model looks like at the moment *)
  Definition m_model (m : morph) : elem F := m_tree m (m_now m).

  (* anim.py:293-316 Morph(model, source, target, t_func, force).  Source and target are
     objects that may occur in the model, so the model is given as the tree it is for each
     value of their control points.  The new state of the model after an exception is not
     kept. *)
  Definition mk_morph (model : list (cpoint F) -> list (cpoint F) -> elem F)
      (src : ebase F * list (cpoint F)) (tgt : list (cpoint F)) (force : bool) : res morph :=
    let n := List.length tgt in
    let* cps := if force then grow_to n n (snd src) else Ok (snd src) in
    let n := List.length cps in
    let* tgt := if force then grow_to n n tgt else Ok tgt in
    let src := (fst src, cps) in
    let* now := curve_fixed src in
    if negb (Nat.eqb (List.length cps) (List.length tgt)) then Raise MorphError
    else
      let* tc := replace_curve (curve_elem src) (fst now) (snd now) (model cps tgt) in
      if Nat.eqb (snd tc) 0 then Raise MorphError
      else Ok (Morph src tgt (fst now) (snd now) (fst tc)).
  (* anim.py:318-339 Morph.update; a pair times a vector is not supported *)
  Definition m_update (t_func : tfun F) (t : tval F) (m : morph) : res morph :=
    let put cps := Ok (Morph (m_orig m) (m_target m) (m_base m) cps (m_tree m)) in
    let* t := t_func t in
    match t with
    | THide => put (map cp_away (m_now m))
    | TNum t => put (cps_between t (m_now m) (snd (m_orig m)) (m_target m))
    | TPair _ _ => Raise TypeError
    end.
  (* a history of updates; a raising t_func leaves the morph as it is and the caller goes on *)
  Definition m_run (t_func : tfun F) (ts : list (tval F)) (m : morph) : morph :=
    fold_left (fun m t => match m_update t_func t m with Ok m' => m' | Raise _ => m end) ts m.
  (* anim.py:341-342 Morph.restore: the tree afterwards and what replace returned or raised *)
  Definition m_restore (m : morph) : elem F * res nat :=
    elem_replace (fun e => elem_eqb e (curve_elem (m_base m, m_now m))) (curve_elem (m_orig m)) (m_model m).

  (* ---------------- MorphMultiStep ---------------- *)

  (* bisect.bisect_right(a, x): the standard library's binary search *)
  Fixpoint bisect_go (fuel : nat) (a : list F) (x : F) (lo hi : nat) : nat :=
    match fuel with
    | O => lo
    | S fuel =>
        if Nat.ltb lo hi then
          let mid := ((lo + hi) / 2)%nat in
          if x <? nth mid a (#0) then bisect_go fuel a x lo mid else bisect_go fuel a x (S mid) hi
        else lo
    end.
  Definition bisect_right (a : list F) (x : F) : nat := bisect_go (S (List.length a)) a x 0 (List.length a).

  (* anim.py:361-367: index of the control point nearest to the corner bbox.p1 (geom.py:649-654);
     sorted() puts the smallest (length, index) first *)
  Fixpoint nearest (l : list F) (idx : nat) (best : F * nat) : F * nat :=
    match l with
    | [] => best
    | d :: l' => nearest l' (S idx) (if d <? fst best then (d, idx) else best)
    end.
  Definition rotate_cps (b : ebase F) (cps : list (cpoint F)) : res (list (cpoint F)) :=
    let* bb := leaf_bbox b (SCurve cps) in
    let* p1 := bbox_pll bb in
    match map (fun cp => v_length (p_sub p1 (cc cp))) cps with
    | [] => Raise IndexError
    | d :: dists => Ok (rotl (snd (nearest dists 1 (d, 0%nat))) cps)
    end.
  (* anim.py:354-367: one of the curves, grown and rotated when forced *)
  Definition prepare (max_len : nat) (force : bool) (c : ebase F * list (cpoint F)) : res (list (cpoint F)) :=
    let* cps := grow_to max_len max_len (snd c) in
    if force then rotate_cps (fst c) cps else Ok cps.
  (* step times, prepared key curves, and the morphed curve in the model as above *)
  Record multi := Multi {
    mm_steps : list F; mm_curves : list (list (cpoint F));
    mm_base : ebase F; mm_now : list (cpoint F); mm_tree : list (cpoint F) -> elem F }.
  Definition mm_model (m : multi) : elem F := mm_tree m (mm_now m).
  (* anim.py:346-373 MorphMultiStep(...).  The first curve is a copy, so the source is not
     changed; the targets are different objects that are not part of the model. *)
  Definition mk_multi (model : elem F) (src : ebase F * list (cpoint F))
      (targets : list (F * (ebase F * list (cpoint F)))) (force : bool) : res multi :=
    let* first := curve_fixed src in
    let all := (#0, first) :: targets in
    let max_len := fold_left Nat.max (map (fun c => List.length (snd (snd c))) all) 0%nat in
    let* curves := mapM (fun c => prepare max_len force (snd c)) all in
    match curves with
    | [] => Raise IndexError             (* not reached *)
    | cps :: _ =>
        let* now := curve_fixed (fst first, cps) in
        let* tc := replace_curve (curve_elem src) (fst now) (snd now) model in
        if Nat.eqb (snd tc) 0 then Raise MorphError
        else Ok (Multi (map fst all) curves (fst now) (snd now) (fst tc))
    end.
  (* anim.py:375-408 MorphMultiStep.update *)
  Definition mm_update (t_func : tfun F) (t : tval F) (m : multi) : res multi :=
    let put cps := Ok (Multi (mm_steps m) (mm_curves m) (mm_base m) cps (mm_tree m)) in
    let* t := t_func t in
    match t with
    | THide => put (map cp_away (mm_now m))
    | TPair _ _ => Raise TypeError
    | TNum t =>
        let idx := bisect_right (mm_steps m) t in
        let* lht :=
          match idx with
          | O => match mm_curves m with c :: _ => Ok (c, c, t) | [] => Raise IndexError end
          | S i =>
              if Nat.leb (List.length (mm_curves m)) idx then
                match rev (mm_curves m) with c :: _ => Ok (c, c, t) | [] => Raise IndexError end
              else
                match nth_error (mm_curves m) i, nth_error (mm_curves m) idx with
                | Some lo, Some hi =>
                    let t0 := nth i (mm_steps m) (#0) in
                    let t1 := nth idx (mm_steps m) (#0) in
                    let* t' := pydiv (t - t0) (t1 - t0) in Ok (lo, hi, t')
                | _, _ => Raise IndexError
                end
          end in
        let '(lo, hi, t') := lht in
        put (cps_between t' (mm_now m) lo hi)
    end.
  Definition mm_run (t_func : tfun F) (ts : list (tval F)) (m : multi) : multi :=
    fold_left (fun m t => match mm_update t_func t m with Ok m' => m' | Raise _ => m end) ts m.
  (* anim.py:410-411 MorphMultiStep.restore *)
  Definition mm_restore (orig : ebase F * list (cpoint F)) (m : multi) : elem F * res nat :=
    elem_replace (fun e => elem_eqb e (curve_elem (mm_base m, mm_now m))) (curve_elem orig) (mm_model m).
End Morph.
Arguments morph : clear implicits.
Arguments multi : clear implicits.
