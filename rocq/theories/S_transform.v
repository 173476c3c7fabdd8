(* What a Transform should do, as maps of the plane over the real numbers. *)
Require Import Verif.Base Verif.NumR Verif.M_vector Verif.M_bbox Verif.M_transform.
From Coq Require Import Reals List.
Open Scope R_scope.

(* last row 0 0 1 *)
Definition affine_mat (m : mat R) : Prop := m20 m = 0 /\ m21 m = 0 /\ m22 m = 1.
(* invertible: the 2x2 linear part has a non-zero determinant *)
Definition invertible (m : mat R) : Prop := m00 m * m11 m - m01 m * m10 m <> 0.

(* the elementary motions *)
Definition shift (dx dy : R) (p : pt R) : pt R := P (px p + dx) (py p + dy).
Definition stretch (sx sy : R) (p : pt R) : pt R := P (sx * px p) (sy * py p).
(* counter-clockwise rotation by d degrees about the origin *)
Definition turn_ccw (d : R) (p : pt R) : pt R :=
  let r := d * (PI / 180) in
  P (cos r * px p - sin r * py p) (sin r * px p + cos r * py p).
(* clockwise: counter-clockwise by the opposite angle *)
Definition turn_cw (d : R) (p : pt R) : pt R := turn_ccw (- d) p.
Definition about (c : pt R) (f : pt R -> pt R) (p : pt R) : pt R :=
  shift (px c) (py c) (f (shift (- px c) (- py c) p)).
Definition lin (m : mat R) (p : pt R) : pt R :=
  P (m00 m * px p + m01 m * py p + m02 m) (m10 m * px p + m11 m * py p + m12 m).

Definition dist2 (p q : pt R) : R :=
  (px p - px q) * (px p - px q) + (py p - py q) * (py p - py q).

(* the abstract state: what points are mapped to now, and by each pushed transform *)
Definition pmap := pt R -> pt R.
Definition sstate := (pmap * list pmap)%type.

(* what each call should do to it; [None] for calls outside this description *)
Definition sstep (o : top R) (s : sstate) : option sstate :=
  let (f, st) := s in
  match o with
  | OTranslate dx dy => Some (fun p => shift dx dy (f p), st)
  | OScale sx sy => Some (fun p => stretch sx sy (f p), st)
  | ORotate d => Some (fun p => turn_cw d (f p), st)
  | ORotateCcw d => Some (fun p => turn_ccw d (f p), st)
  | ORotateAbout d c => Some (fun p => about c (turn_cw d) (f p), st)
  | OCompose m => Some (fun p => f (lin m p), st)
  | OComposeOuter m => Some (fun p => lin m (f p), st)
  | OReset => Some (fun p => p, st)
  | OSetMatrix m => Some (lin m, st)
  | OScaleBBox _ _ _ => None
  | OPush => Some (f, f :: st)
  | OPop => match st with [] => Some (f, []) | g :: st' => Some (g, st') end
  | OTransform _ | OUntransform _ => Some (f, st)
  end.
Fixpoint srun (ops : list (top R)) (s : sstate) : option sstate :=
  match ops with
  | [] => Some s
  | o :: rest => match sstep o s with Some s' => srun rest s' | None => None end
  end.

(* the matrices passed to a call are affine *)
Definition affine_args (o : top R) : Prop :=
  match o with
  | OCompose m | OComposeOuter m | OSetMatrix m => affine_mat m
  | _ => True
  end.

(* a sequence of calls in which every pop matches an earlier push of the sequence *)
Inductive balanced : list (top R) -> Prop :=
| bal_nil : balanced []
| bal_op o ops : o <> OPush -> o <> OPop -> balanced ops -> balanced (o :: ops)
| bal_block ops ops' : balanced ops -> balanced ops' -> balanced (OPush :: ops ++ OPop :: ops').

(* statements whose only pushes and pops are those of with-blocks *)
Fixpoint structured (p : stmt R) : Prop :=
  match p with
  | SOp o => o <> OPush /\ o <> OPop
  | SSkip => True
  | SSeq a b => structured a /\ structured b
  | SWith chain body => Forall (fun o => o <> OPush /\ o <> OPop) chain /\ structured body
  end.

(* Could an inverse be cached?  untransform fills the cache; the mutators listed under
   [false] drop it.  pop and scale_bbox can raise before dropping it, so they are not
   counted on here. *)
Definition maybe_cached (o : top R) (cached : bool) : bool :=
  match o with
  | OUntransform _ => true
  | OTranslate _ _ | OScale _ _ | ORotate _ | ORotateCcw _ | OCompose _ | OComposeOuter _
  | OReset | OSetMatrix _ => false
  | ORotateAbout _ _ | OPush | OPop | OTransform _ | OScaleBBox _ _ _ => cached
  end.
(* rotate_about is never called while an inverse could be cached *)
Fixpoint fresh_rotate_about (ops : list (top R)) (cached : bool) : Prop :=
  match ops with
  | [] => True
  | o :: rest =>
      (match o with ORotateAbout _ _ => cached = false | _ => True end) /\
      fresh_rotate_about rest (maybe_cached o cached)
  end.

(* a map that takes horizontal and vertical segments to horizontal or vertical segments *)
Definition keeps_axes (f : pt R -> pt R) : Prop :=
  forall p q, (px p = px q \/ py p = py q) -> (px (f p) = px (f q) \/ py (f p) = py (f q)).
