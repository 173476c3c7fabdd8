(* Model of class Matrix and class Transform: /repo/x7/geom/transform.py.
   A Transform is a state (matrix, cached inverse, stack); a method that mutates self
   returns the new state.  numpy arrays are 3x3 tables of exact entries; numpy.linalg.inv
   is the exact inverse and raises LinAlgError when the determinant is 0. *)
Require Import Verif.Base Verif.M_vector Verif.M_bbox.
Set Implicit Arguments.

(* a 3x3 array, row by row (transform.py:22-25, Matrix.ndmat) *)
Record mat (F : Type) := M { m00 : F; m01 : F; m02 : F;
                             m10 : F; m11 : F; m12 : F;
                             m20 : F; m21 : F; m22 : F }.
Arguments M {F}.

(* transform.py:118-127: _mat, _inverse, stack (last pushed first) *)
Record transform (F : Type) := T { tmat : mat F; tinv : option (mat F); tstack : list (mat F) }.
Arguments T {F}.

Section Transform.
  Context {F : Type} {NF : Num F}.
  Local Open Scope num_scope.

  (* transform.py:25 np.identity(3) *)
  Definition mat_id : mat F := M (#1) (#0) (#0) (#0) (#1) (#0) (#0) (#0) (#1).

  (* np.dot of two 3x3 arrays *)
  Definition mat_dot (a b : mat F) : mat F :=
    M (m00 a * m00 b + m01 a * m10 b + m02 a * m20 b)
      (m00 a * m01 b + m01 a * m11 b + m02 a * m21 b)
      (m00 a * m02 b + m01 a * m12 b + m02 a * m22 b)
      (m10 a * m00 b + m11 a * m10 b + m12 a * m20 b)
      (m10 a * m01 b + m11 a * m11 b + m12 a * m21 b)
      (m10 a * m02 b + m11 a * m12 b + m12 a * m22 b)
      (m20 a * m00 b + m21 a * m10 b + m22 a * m20 b)
      (m20 a * m01 b + m21 a * m11 b + m22 a * m21 b)
      (m20 a * m02 b + m21 a * m12 b + m22 a * m22 b).

  Definition mat_det (a : mat F) : F :=
    m00 a * (m11 a * m22 a - m12 a * m21 a)
    - m01 a * (m10 a * m22 a - m12 a * m20 a)
    + m02 a * (m10 a * m21 a - m11 a * m20 a).

  (* np.linalg.inv, transform.py:52 and 155: adjugate divided by the determinant *)
  Definition mat_inv (a : mat F) : res (mat F) :=
    let d := mat_det a in
    if d =? #0 then Raise LinAlgError
    else Ok (M ((m11 a * m22 a - m12 a * m21 a) / d) ((m02 a * m21 a - m01 a * m22 a) / d)
               ((m01 a * m12 a - m02 a * m11 a) / d)
               ((m12 a * m20 a - m10 a * m22 a) / d) ((m00 a * m22 a - m02 a * m20 a) / d)
               ((m02 a * m10 a - m00 a * m12 a) / d)
               ((m10 a * m21 a - m11 a * m20 a) / d) ((m01 a * m20 a - m00 a * m21 a) / d)
               ((m00 a * m11 a - m01 a * m10 a) / d)).

  (* np.dot(mat, (x, y, 1)): the first two entries, which is all transform() returns
     (transform.py:84-87, 278-280) *)
  Definition mat_apply (a : mat F) (p : pt F) : pt F :=
    P (m00 a * px p + m01 a * py p + m02 a * #1)
      (m10 a * px p + m11 a * py p + m12 a * #1).

  (* transform.py:33-34 Matrix.__eq__ *)
  Definition mat_eqb (a b : mat F) : bool :=
    (m00 a =? m00 b) && (m01 a =? m01 b) && (m02 a =? m02 b) &&
    (m10 a =? m10 b) && (m11 a =? m11 b) && (m12 a =? m12 b) &&
    (m20 a =? m20 b) && (m21 a =? m21 b) && (m22 a =? m22 b).

  (* transform.py:119-127 __init__ with a 6-sequence, or none *)
  Definition mat_of6 (a b c d e f : F) : mat F := M a b c d e f (#0) (#0) (#1).
  Definition t_new6 (a b c d e f : F) : transform F := T (mat_of6 a b c d e f) None [].
  Definition t_new : transform F := T mat_id None [].
  (* transform.py:135-137 __eq__ *)
  Definition t_eqb (s o : transform F) : bool := mat_eqb (tmat s) (tmat o).

  (* transform.py:139-140 as_6tuple *)
  Definition t_as6 (s : transform F) : F * F * F * F * F * F :=
    let m := tmat s in (m00 m, m01 m, m02 m, m10 m, m11 m, m12 m).
  (* transform.py:147-149 set_matrix *)
  Definition t_set_matrix (s : transform F) (m : mat F) : transform F := T m None (tstack s).
  (* transform.py:142-145 copy: a Transform from the 6-tuple, then set_matrix(self) *)
  Definition t_copy (s : transform F) : transform F :=
    let m := tmat s in
    t_set_matrix (t_new6 (m00 m) (m01 m) (m02 m) (m10 m) (m11 m) (m12 m)) (tmat s).
  (* transform.py:162-165 reset *)
  Definition t_reset (s : transform F) : transform F := T mat_id None (tstack s).

  (* transform.py:151-156 inverse: compute and cache; returns the new state and the value *)
  Definition t_inverse (s : transform F) : transform F * res (mat F) :=
    match tinv s with
    | Some i => (s, Ok i)
    | None => match mat_inv (tmat s) with
              | Ok i => (T (tmat s) (Some i) (tstack s), Ok i)
              | Raise e => (s, Raise e)
              end
    end.

  (* self._mat.pre_dot_eq(a); self._inverse = None  (transform.py:42-44 and its callers) *)
  Definition t_pre (a : mat F) (s : transform F) : transform F :=
    T (mat_dot a (tmat s)) None (tstack s).
  (* transform.py:167-169 translate_mat *)
  Definition translate_mat (dx dy : F) : mat F := M (#1) (#0) dx (#0) (#1) dy (#0) (#0) (#1).
  (* transform.py:171-174 scale_mat *)
  Definition scale_mat (sx sy : F) : mat F := M sx (#0) (#0) (#0) sy (#0) (#0) (#0) (#1).
  (* transform.py:190-193 translate *)
  Definition t_translate (dx dy : F) (s : transform F) : transform F := t_pre (translate_mat dx dy) s.
  (* transform.py:195-198 scale *)
  Definition t_scale (sx sy : F) (s : transform F) : transform F := t_pre (scale_mat sx sy) s.

  (* transform.py:241-246 compose: self = self . m *)
  Definition t_compose (m : mat F) (s : transform F) : transform F :=
    T (mat_dot (tmat s) m) None (tstack s).
  (* transform.py:248-253 compose_outer: self = m . self *)
  Definition t_compose_outer (m : mat F) (s : transform F) : transform F := t_pre m s.

  (* transform.py:206-220 scale_bbox.  The state is returned also when it raises: without
     keep_aspect the first translate has already happened when a division fails.
     A BBox(None) has width 0 and its xl is None: -None and None + number are TypeErrors,
     and so is the product np.dot forms with an entry None in translate(None, None). *)
  Definition t_scale_bbox (start target : bbox F) (keep_aspect : bool) (s : transform F)
    : transform F * res unit :=
    if keep_aspect then
      match pydiv (bbox_width target) (bbox_width start) with
      | Raise e => (s, Raise e)
      | Ok rx =>
        match pydiv (bbox_height target) (bbox_height start) with
        | Raise e => (s, Raise e)
        | Ok ry =>
          let scale := pymin rx ry in
          match start with
          | BNone => (s, Raise TypeError)
          | BB sxl syl _ _ =>
            let s1 := t_translate (- sxl) (- syl) s in
            let s2 := t_scale scale scale s1 in
            let w_extra := bbox_width target - bbox_width start * scale in
            let h_extra := bbox_height target - bbox_height start * scale in
            match target with
            | BNone => (s2, Raise TypeError)
            | BB txl tyl _ _ => (t_translate (txl + w_extra / #2) (tyl + h_extra / #2) s2, Ok tt)
            end
          end
        end
      end
    else
      match start with
      | BNone => (s, Raise TypeError)
      | BB sxl syl _ _ =>
        let s1 := t_translate (- sxl) (- syl) s in
        match pydiv (bbox_width target) (bbox_width start) with
        | Raise e => (s1, Raise e)
        | Ok rx =>
          match pydiv (bbox_height target) (bbox_height start) with
          | Raise e => (s1, Raise e)
          | Ok ry =>
            let s2 := t_scale rx ry s1 in
            match target with
            | BNone => (s2, Raise TypeError)
            | BB txl tyl _ _ => (t_translate txl tyl s2, Ok tt)
            end
          end
        end
      end.

  (* transform.py:14-15 near_zero: abs(v) < 1e-16 *)
  Definition near_zero (v : F) : bool := nabs v <? #1 / nofZ (10 ^ 16)%Z.
  (* transform.py:255-259 is_simple *)
  Definition t_is_simple (s : transform F) : bool :=
    let m := tmat s in
    (near_zero (m01 m) && near_zero (m10 m)) || (near_zero (m00 m) && near_zero (m11 m)).
  (* transform.py:261-271 simplify *)
  Definition flush (v : F) : F := if near_zero v then #0 else v.
  Definition t_simplify (s : transform F) : transform F * transform F :=
    let m := tmat s in
    let a := flush (m00 m) in let b := flush (m01 m) in
    let d := flush (m10 m) in let e := flush (m11 m) in
    let c := m02 m in let f := m12 m in
    if t_is_simple s then (t_new6 a b c d e f, t_new)
    else (t_new6 (#1) (#0) c (#0) (#1) f, t_new6 a b (#0) d e (#0)).

  (* transform.py:273-276 canvas_fit; only canvas_size[1] is used *)
  Definition canvas_fit (height zoom zx zy : F) : transform F :=
    t_translate (#0) height (t_scale (#1) (- #1) (t_translate zx zy (t_scale zoom zoom t_new))).

  (* transform.py:84-87, 278-280 transform *)
  Definition t_transform (s : transform F) (p : pt F) : pt F := mat_apply (tmat s) p.
  (* transform.py:287-291 untransform: may fill the cache *)
  Definition t_untransform (s : transform F) (p : pt F) : transform F * res (pt F) :=
    let (s', i) := t_inverse s in
    (s', let* i := i in Ok (mat_apply i p)).

  (* transform.py:101-115 transform_pts, list of Points or of tuples; on an empty list
     np.array([]).T has the wrong shape for np.dot, which raises ValueError *)
  Definition t_transform_pts (s : transform F) (pts : list (pt F)) : res (list (pt F)) :=
    match pts with
    | [] => Raise ValueError
    | _ => Ok (map (t_transform s) pts)
    end.
  (* the same with flatten=True *)
  Definition t_transform_pts_flat (s : transform F) (pts : list (pt F)) : res (list F) :=
    match pts with
    | [] => Raise ValueError
    | _ => Ok (flat_map (fun p => let q := t_transform s p in [px q; py q]) pts)
    end.

  (* transform.py:303-319 push *)
  Definition t_push (s : transform F) : transform F := T (tmat s) (tinv s) (tmat s :: tstack s).
  (* transform.py:321-325 pop; 333-334 __exit__ *)
  Definition t_pop (s : transform F) : transform F * res unit :=
    match tstack s with
    | [] => (s, Raise EmptyStackError)
    | m :: st => (T m None st, Ok tt)
    end.
  (* transform.py:327-331 __enter__ *)
  Definition t_enter (s : transform F) : res unit :=
    match tstack s with [] => Raise EmptyStackError | _ => Ok tt end.
End Transform.

Section TransformTrig.
  Context {F : Type} {NF : Num F} {RF : NumRoot F} {TF : NumTrig F}.
  Local Open Scope num_scope.

  (* transform.py:176-181 rotate_mat, 183-188 rotate_mat_ccw *)
  Definition rotate_mat (r : F) : mat F :=
    M (ncos r) (nsin r) (#0) (- nsin r) (ncos r) (#0) (#0) (#0) (#1).
  Definition rotate_mat_ccw (r : F) : mat F :=
    M (ncos r) (- nsin r) (#0) (nsin r) (ncos r) (#0) (#0) (#0) (#1).
  (* transform.py:222-226 rotate, 228-232 rotate_ccw *)
  Definition t_rotate (deg : F) (s : transform F) : transform F := t_pre (rotate_mat (radians deg)) s.
  Definition t_rotate_ccw (deg : F) (s : transform F) : transform F :=
    t_pre (rotate_mat_ccw (radians deg)) s.
  (* transform.py:234-239 rotate_about: the cached inverse is left as it was *)
  Definition rotate_about_mat (angle : F) (center : pt F) : mat F :=
    let n := p_neg center in
    tmat (t_translate (px center) (py center) (t_rotate angle (t_translate (px n) (py n) t_new))).
  Definition t_rotate_about (angle : F) (center : pt F) (s : transform F) : transform F :=
    T (mat_dot (rotate_about_mat angle center) (tmat s)) (tinv s) (tstack s).
End TransformTrig.

Section TransformRoot.
  Context {F : Type} {NF : Num F} {RF : NumRoot F}.
  Local Open Scope num_scope.
  (* transform.py:200-204 scale_vals *)
  Definition t_scale_vals (s : transform F) : F * F :=
    let m := tmat s in (nhypot (m00 m) (m10 m), nhypot (m01 m) (m11 m)).
  (* transform.py:282-285 Transform.transform_width *)
  Definition t_transform_width (s : transform F) (width : F) : F :=
    let (sx, sy) := t_scale_vals s in width * (nabs sx + nabs sy) / #2.
  (* transform.py:89-94 Transformer.transform_width, for any point map f *)
  Definition transformer_width (f : pt F -> pt F) (width : F) : F :=
    let width := width * (nsqrt (#2) / #2) in
    let z := f (P (#0) (#0)) in
    let w := f (P width width) in
    nhypot (px w - px z) (py w - py z).
End TransformRoot.

(* ------------------------------------------------------------------ *)
(** * Histories of calls on one Transform *)

(* One call on a Transform (the arguments of compose etc. are given by their matrix). *)
Inductive top (F : Type) :=
| OTranslate (dx dy : F) | OScale (sx sy : F) | ORotate (deg : F) | ORotateCcw (deg : F)
| ORotateAbout (deg : F) (c : pt F) | OCompose (m : mat F) | OComposeOuter (m : mat F)
| OReset | OSetMatrix (m : mat F) | OScaleBBox (start target : bbox F) (keep_aspect : bool)
| OPush | OPop | OTransform (p : pt F) | OUntransform (p : pt F).
Arguments OReset {F}. Arguments OPush {F}. Arguments OPop {F}.

Section History.
  Context {F : Type} {NF : Num F} {RF : NumRoot F} {TF : NumTrig F}.

  (* the state after one call, and the exception it raised, if any *)
  Definition tstep (o : top F) (s : transform F) : transform F * res unit :=
    match o with
    | OTranslate dx dy => (t_translate dx dy s, Ok tt)
    | OScale sx sy => (t_scale sx sy s, Ok tt)
    | ORotate d => (t_rotate d s, Ok tt)
    | ORotateCcw d => (t_rotate_ccw d s, Ok tt)
    | ORotateAbout d c => (t_rotate_about d c s, Ok tt)
    | OCompose m => (t_compose m s, Ok tt)
    | OComposeOuter m => (t_compose_outer m s, Ok tt)
    | OReset => (t_reset s, Ok tt)
    | OSetMatrix m => (t_set_matrix s m, Ok tt)
    | OScaleBBox a b k => t_scale_bbox a b k s
    | OPush => (t_push s, Ok tt)
    | OPop => t_pop s
    | OTransform p => (s, Ok tt)
    | OUntransform p => let (s', r) := t_untransform s p in (s', let* _ := r in Ok tt)
    end.

  (* a caller that catches exceptions and goes on *)
  Definition trun (ops : list (top F)) (s : transform F) : transform F :=
    fold_left (fun s o => fst (tstep o s)) ops s.

  (* Blocks: [with t.push().op1().op2()...: body], where an exception ends the block.
     SOps: a sequence of calls, stopping at the first one that raises. *)
  Inductive stmt :=
  | SOp (o : top F)
  | SSkip
  | SSeq (a b : stmt)
  | SWith (chain : list (top F)) (body : stmt).

  Fixpoint run_chain (chain : list (top F)) (s : transform F) : transform F * res unit :=
    match chain with
    | [] => (s, Ok tt)
    | o :: rest =>
        match tstep o s with
        | (s', Ok _) => run_chain rest s'
        | (s', Raise e) => (s', Raise e)
        end
    end.

  (* transform.py:303-334.  The chained calls run before __enter__: when one of them
     raises, the with-statement is never entered and __exit__ does not run. *)
  Fixpoint exec (p : stmt) (s : transform F) : transform F * res unit :=
    match p with
    | SOp o => tstep o s
    | SSkip => (s, Ok tt)
    | SSeq a b => match exec a s with
                  | (s', Ok _) => exec b s'
                  | (s', Raise e) => (s', Raise e)
                  end
    | SWith chain body =>
        match run_chain chain (t_push s) with
        | (s', Raise e) => (s', Raise e)
        | (s', Ok _) =>
            match t_enter s' with
            | Raise e => (s', Raise e)
            | Ok _ =>
                let (s2, r) := exec body s' in
                let (s3, rp) := t_pop s2 in
                (s3, match rp with Raise e => Raise e | Ok _ => r end)
            end
        end
    end.
End History.
Arguments stmt : clear implicits.
