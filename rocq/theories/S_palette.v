(* Specification of palettes: colours by how often they occur. *)
Require Import Verif.Base Verif.M_palette.
From Coq Require Import ZArith List Sorted Permutation.
Import ListNotations.
Local Open Scope Z_scope.

Definition rgb_dec (a b : rgb) : {a = b} + {a <> b}.
Proof. repeat decide equality. Defined.
(* how many pixels of the images have the colour c *)
Definition uses (images : list (list rgb)) (c : rgb) : nat := count_occ rgb_dec (concat images) c.
(* c is larger than d as a tuple *)
Definition larger (c d : rgb) : Prop :=
  let '(r, g, b) := c in let '(r', g', b') := d in
  r' < r \/ (r' = r /\ (g' < g \/ (g' = g /\ b' < b))).
(* c has a better claim to a place in the palette than d *)
Definition ahead (images : list (list rgb)) (c d : rgb) : Prop :=
  (uses images d < uses images c)%nat \/ (uses images d = uses images c /\ larger c d).
(* chosen is what the palette should begin with: colours of the images, each once, those with a
   better claim first, as many as fit, and none left out that has a better claim *)
Definition best_colours (images : list (list rgb)) (chosen : list rgb) : Prop :=
  StronglySorted (ahead images) chosen /\
  (forall c, In c chosen -> In c (concat images)) /\
  (List.length chosen <= 256)%nat /\
  (forall c, In c (concat images) -> ~ In c chosen ->
     List.length chosen = 256%nat /\ forall d, In d chosen -> ahead images d c).

(* the n-th entry of a palette in RGBA mode *)
Definition channel (pal : list Z) (n c : nat) : Z := nth (4 * n + c) pal 0.
