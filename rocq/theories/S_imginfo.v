(* What image_info should print: specification of C84. *)
Require Import Verif.Base Verif.M_imginfo.
From Coq Require Import ZArith List Bool.
Import ListNotations.

Section Shown.
  Variable A : Type.

  (* how a row of pixels is shown when [zero] is the background: every pixel, but only the first of
     two or more background pixels side by side, followed by dots *)
  Inductive row_shown (zero : A) : list A -> list (cell A) -> Prop :=
  | row_end : row_shown zero [] []
  | row_pixel : forall v l d, v <> zero -> row_shown zero l d -> row_shown zero (v :: l) (Cpixel v :: d)
  | row_one : forall l d,
      hd_error l <> Some zero -> row_shown zero l d -> row_shown zero (zero :: l) (Cpixel zero :: d)
  | row_run : forall n l d,
      hd_error l <> Some zero -> row_shown zero l d ->
      row_shown zero (zero :: repeat zero (S n) ++ l) (Cpixel zero :: Cdots :: d).

  (* the pixels among the cells *)
  Definition pixels (d : list (cell A)) : list A :=
    flat_map (fun c => match c with Cpixel v => [v] | Cdots => [] end) d.

  (* the first nineteen of a list, and dots when there are more *)
  Definition listing {B} (mk : B -> line A) (l : list B) : list (line A) :=
    map mk (firstn 19 l) ++ (if 19 <? length l then [Ldots] else [])%nat.

  (* the bytes that are not 0, with their places *)
  Definition nonzero_bytes (bytes : list Z) : list (nat * Z) :=
    filter (fun b => negb (snd b =? 0)%Z) (combine (seq 0 (length bytes)) bytes).

  (* the colours that are not all 0, channel c of colour n standing at n + 256 c *)
  Definition planar_color (channels : nat) (colors : list Z) (n : nat) : list Z :=
    map (fun c => nth (n + 256 * c) colors 0%Z) (seq 0 channels).
  Definition planar_colors (channels count : nat) (colors : list Z) : list (nat * list Z) :=
    filter (fun c => existsb (fun v => negb (v =? 0)%Z) (snd c))
      (map (fun n => (n, planar_color channels colors n)) (seq 0 count)).
End Shown.
