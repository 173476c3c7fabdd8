(* Notions used in the statements about animations: piecewise linear functions and positions. *)
Require Import Verif.Base Verif.NumR Verif.M_vector Verif.M_bezier.
From Coq Require Import String Reals List.
Import ListNotations.
Local Open Scope R_scope.

(* ---------------- piecewise linear functions ---------------- *)

(* [l] has no time earlier than the one before it; no time equal to it *)
Fixpoint rising (l : list (R * R)) : Prop :=
  match l with
  | k :: (k' :: _) as l' => fst k <= fst k' /\ rising l'
  | _ => True
  end.
Fixpoint strictly_rising (l : list (R * R)) : Prop :=
  match l with
  | k :: (k' :: _) as l' => fst k < fst k' /\ strictly_rising l'
  | _ => True
  end.

(* the value at x of the function drawn through the knots (time, value): the first value
   before the first knot, the last value from the last knot on, else on the straight line
   from the knot at or before x to the next one *)
Inductive drawn_through (l : list (R * R)) (x : R) : R -> Prop :=
| before k r : l = k :: r -> x < fst k -> drawn_through l x (snd k)
| after k r : l = r ++ [k] -> fst k <= x -> drawn_through l x (snd k)
| amid A k k' B : l = A ++ k :: k' :: B -> fst k <= x < fst k' ->
    drawn_through l x (snd k + (snd k' - snd k) * ((x - fst k) / (fst k' - fst k))).

(* ---------------- positions ---------------- *)

(* the point at fraction s of the way from p to q *)
Definition part_way (s : R) (p q : pt R) : pt R := P (px p + s * (px q - px p)) (py p + s * (py q - py p)).
Definition part_way_v (s : R) (v w : vec R) : vec R := V (vx v + s * (vx w - vx v)) (vy v + s * (vy w - vy v)).
Definition part_way_cp (s : R) (a b : cpoint R) : cpoint R :=
  CP (part_way s (cc a) (cc b)) (part_way_v s (cdl a) (cdl b)) (part_way_v s (cdr a) (cdr b)) (ckind a).
Definition part_ways (s : R) (lo hi : list (cpoint R)) : list (cpoint R) :=
  map (fun ab => part_way_cp s (fst ab) (snd ab)) (combine lo hi).
(* a control point without its kind *)
Definition bare (s : cpoint R) : cpoint R := CP (cc s) (cdl s) (cdr s) EmptyString.

(* the curve at time x when there are key curves for some times, the earliest first *)
Inductive key_shape (keys : list (R * list (cpoint R))) (x : R) : list (cpoint R) -> Prop :=
| key_first k r : keys = k :: r -> x < fst k -> key_shape keys x (snd k)
| key_last k r : keys = r ++ [k] -> fst k <= x -> key_shape keys x (snd k)
| key_between A k k' B : keys = A ++ k :: k' :: B -> fst k <= x < fst k' ->
    key_shape keys x (part_ways ((x - fst k) / (fst k' - fst k)) (snd k) (snd k')).
(* the six numbers of a control point *)
Definition coordinates : list (cpoint R -> R) :=
  [fun s => px (cc s); fun s => py (cc s); fun s => vx (cdl s); fun s => vy (cdl s); fun s => vx (cdr s); fun s => vy (cdr s)].

(* ---------------- animated points ---------------- *)

Require Import Verif.M_points Verif.S_points Verif.M_anim.

(* the point an animation moves towards, if there is one *)
Definition a_target {F} (a : anim F) : option nat :=
  match a with
  | ALinear _ _ q | ALinearFunc _ _ q _ | ASinusoidal _ _ q _ _ => Some q
  | AGeneric _ _ _ | ACircular _ _ _ _ _ => None
  end.
(* the function of a generic animation does not look at the present position *)
Definition steady {F} (a : anim F) : Prop :=
  match a with AGeneric _ _ f => forall t o p p', f t o p = f t o p' | _ => True end.
(* the animated points are plain points, and no target hangs on any of them *)
Definition independent {F} (st : pstore F) (l : list (anim F)) : Prop :=
  forall a, In a l ->
    (exists x y n, nth_error st (a_point a) = Some (NPoint x y n)) /\ steady a /\
    (forall q b, a_target a = Some q -> In b l -> ~ rests st q (a_point b)).

(* where the animation [a] puts its point at time [t] when the points are as in [st] *)
Inductive shows (st : pstore R) : anim R -> tval R -> pt R -> Prop :=
| shows_generic o p f t x y : (forall now, f t o now = Ok (x, y)) -> shows st (AGeneric o p f) t (P x y)
| shows_linear o p target t q : located st target q -> shows st (ALinear o p target) (TNum t) (part_way t o q)
| shows_linear_pair o p target tx ty q : located st target q ->
    shows st (ALinear o p target) (TPair tx ty) (P (px (part_way tx o q)) (py (part_way ty o q)))
| shows_func o p target f t t' r : f t = Ok t' -> shows st (ALinear o p target) t' r ->
    shows st (ALinearFunc o p target f) t r
| shows_sinusoidal o p target frequency offset t q : located st target q ->
    shows st (ASinusoidal o p target frequency offset) (TNum t)
      (part_way ((1 - cos (2 * PI * (frequency * t + offset / 360))) / 2) o q)
| shows_circular o p radius frequency offset t :
    shows st (ACircular o p radius frequency offset) (TNum t)
      (P (px o + radius * sin (2 * PI * frequency * t + offset))
         (py o + radius * cos (2 * PI * frequency * t + offset))).
