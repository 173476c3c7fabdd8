(* Notions used in the statements about vector fields. *)
Require Import Verif.Base Verif.NumR Verif.M_vecfield.
From Coq Require Import Reals List.
Import ListNotations.
Local Open Scope R_scope.

(* two arrays have the same entries *)
Definition same_arr {F} (n : nat) (a b : arr F) : Prop := forall i j, (i < n)%nat -> (j < n)%nat -> a i j = b i j.
(* the length of the vector at i, j *)
Definition vlen (vx vy : arr R) (i j : nat) : R := sqrt (vx i j * vx i j + vy i j * vy i j).
(* M is the largest of the lengths *)
Definition longest_is (n : nat) (vx vy : arr R) (m : R) : Prop :=
  (exists i j, (i < n)%nat /\ (j < n)%nat /\ vlen vx vy i j = m) /\
  (forall i j, (i < n)%nat -> (j < n)%nat -> vlen vx vy i j <= m).
(* some vector is not zero *)
Definition nonzero (n : nat) (vx vy : arr R) : Prop :=
  exists i j, (i < n)%nat /\ (j < n)%nat /\ (vx i j <> 0 \/ vy i j <> 0).
(* the field (vx', vy') is (vx, vy), every vector multiplied by k *)
Definition stretched (n : nat) (k : R) (vx vy vx' vy' : arr R) : Prop :=
  forall i j, (i < n)%nat -> (j < n)%nat -> vx' i j = k * vx i j /\ vy' i j = k * vy i j.

(* x is an index near i: up to two before and one after *)
Definition close (n i x : nat) : Prop := (x < n)%nat /\ (i <= x + 2)%nat /\ (x <= i + 1)%nat.
Definition total (v : arr R) (l : list (nat * nat)) : R := fold_right (fun xy s => v (fst xy) (snd xy) + s) 0 l.
(* m is the mean of v around (i, j), in which the middle has nineteen votes more *)
Definition mean_at (n : nat) (v : arr R) (i j : nat) (m : R) : Prop :=
  exists l, NoDup l /\ (forall x y, In (x, y) l <-> close n i x /\ close n j y) /\
    (INR (length l) + 19) * m = total v l + 19 * v i j.

(* n nodes evenly spaced from lo to hi *)
Definition node (lo hi : R) (n i : nat) : R := lo + INR i * (hi - lo) / INR (n - 1).
(* between four corners, s of the way along and t of the way across *)
Definition blend (v : arr R) (i j : nat) (s t : R) : R :=
  (1 - s) * ((1 - t) * v i j + t * v i (S j)) + s * ((1 - t) * v (S i) j + t * v (S i) (S j)).
Definition on_mesh (m : mesh R) : Prop := (2 <= m_steps m)%nat /\ m_xl m < m_xh m /\ m_yl m < m_yh m.
Definition xnode (m : mesh R) (i : nat) : R := node (m_xl m) (m_xh m) (m_steps m) i.
Definition ynode (m : mesh R) (i : nat) : R := node (m_yl m) (m_yh m) (m_steps m) i.
Definition part (a b x : R) : R := (x - a) / (b - a).
(* at any place of an interval, its two ends included, and beyond the ends of the outermost
   intervals *)
Definition reach (nd : nat -> R) (n i : nat) (x : R) : Prop :=
  (i + 1 < n)%nat /\ (i <> 0%nat -> nd i <= x) /\ ((i + 2 < n)%nat -> x <= nd (S i)).
(* lookup() on a field that has not been asked before *)
Definition fresh_field (w : world R) (f : nat) (v : vfield R) : Prop := nth_error (fields w) f = Some v /\ vf_interp v = None.
(* every array a field refers to exists *)
Definition refers (w : world R) (l : nat) : Prop := (l < length (arrays w))%nat.
Definition valid (w : world R) : Prop := forall f v, nth_error (fields w) f = Some v ->
  refers w (vf_vx v) /\ refers w (vf_vy v) /\ (forall lx ly, vf_interp v = Some (lx, ly) -> refers w lx /\ refers w ly).
(* an array after the assignments to its entries among some operations *)
Fixpoint after_puts (l : nat) (ops : list (@vop R)) (a : arr R) : arr R :=
  match ops with
  | [] => a
  | OpPut k i j v :: ops' => after_puts l ops' (if Nat.eqb k l then aset a i j v else a)
  | _ :: ops' => after_puts l ops' a
  end.
