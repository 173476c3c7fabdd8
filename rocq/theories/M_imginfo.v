(* What image_info and image_info_palette print (imagehelp.py). *)
Require Import Verif.Base Verif.M_frames.
From Coq Require Import ZArith List Bool.
Import ListNotations.
Local Open Scope Z_scope.

(* What stands in a printed row: a pixel or the string '...' *)
Inductive cell (A : Type) := Cpixel (a : A) | Cdots.
Arguments Cpixel {A} _.
Arguments Cdots {A}.

(* Printed lines, without their layout: the lines of fixed headings (Image:, Info:, Colors:, Mode:,
   Raw:, Len:, Zero:) are left out, as they only copy a value *)
Inductive line (A : Type) :=
| Lbyte (idx : nat) (v : Z)
| Lcolor (n : nat) (c : list Z)
| Ldots
| Lrow (row : Z) (cells : list (cell A)).
Arguments Lbyte {A} _ _.
Arguments Lcolor {A} _ _.
Arguments Ldots {A}.
Arguments Lrow {A} _ _.

Section Info.
  Variable A : Type.
  Variable eqb : A -> A -> bool.

  (* a palette: the channels of pal.mode, the bytes of pal.palette, and pal_im.getpalette() *)
  Record palette := Palette { p_channels : nat; p_bytes : list Z; p_colors : list Z }.

  (* imagehelp.py:21-30: one byte per line, with the running total *)
  Fixpoint byte_lines (total : Z) (idx : nat) (l : list Z) : list (line A) :=
    match l with
    | [] => []
    | v :: l' =>
        if v =? 0 then byte_lines total (S idx) l'
        else
          let total := total + 1 in
          (if 10 <=? total then if total =? 10 then [Ldots] else [] else [Lbyte idx v])
          ++ byte_lines total (S idx) l'
    end.

  (* imagehelp.py:46-47: the channels of colour n *)
  Definition color_at (p : palette) (n : nat) : res (list Z) :=
    mapM (fun cn => match nth_error (p_colors p) (n + cn * 256) with Some v => Ok v | None => Raise IndexError end)
      (seq 0 (p_channels p)).

  (* imagehelp.py:45-54; what was printed before an exception stays printed *)
  Fixpoint color_lines (p : palette) (total : Z) (ns : list nat) : list (line A) * res unit :=
    match ns with
    | [] => ([], Ok tt)
    | n :: ns' =>
        match color_at p n with
        | Raise e => ([], Raise e)
        | Ok c =>
            if existsb (fun v => negb (v =? 0)) c
            then
              let total := total + 1 in
              let now := if 20 <=? total then if total =? 20 then [Ldots] else [] else [Lcolor n c] in
              let '(l, r) := color_lines p total ns' in (now ++ l, r)
            else color_lines p total ns'
        end
    end.

  (* imagehelp.py:10-55 image_info_palette.  An image without palette has palette None; a mode
     without letters makes the division fail *)
  Definition image_info_palette (pal : option palette) : list (line A) * res unit :=
    match pal with
    | None => ([], Raise AttributeError)
    | Some p =>
        if (p_channels p =? 0)%nat then ([], Raise ZeroDivisionError)
        else
          let pal_len := Nat.div (length (p_bytes p)) (p_channels p) in
          let b := byte_lines (-10) 0 (p_bytes p) in
          let '(c, r) := color_lines p 0 (seq 0 pal_len) in
          (b ++ c, r)
    end.

  (* imagehelp.py:87-96: the loop over one row; data is kept reversed *)
  Fixpoint row_loop (zero : A) (data : list (cell A)) (vals : list A) : list (cell A) :=
    match vals with
    | [] => rev data
    | val :: vals' =>
        row_loop zero
          (match data with
           | [] => [Cpixel val]
           | last :: _ =>
               if negb (eqb val zero) then Cpixel val :: data
               else match last with
                    | Cpixel v => if eqb v zero then Cdots :: data else Cpixel val :: data
                    | Cdots => data
                    end
           end) vals'
    end.

  (* imagehelp.py:75-98 image_info: size, pixels, the box getbbox() finds and the palette.
     getpixel((0, 0)) of an image without pixels is an IndexError *)
  Definition image_info (xs ys : Z) (px : Z -> Z -> A) (bbox : option box) (pal : option palette)
    : list (line A) * res unit :=
    match image_info_palette pal with
    | (out, Raise e) => (out, Raise e)
    | (out, Ok _) =>
        if (xs <=? 0) || (ys <=? 0) then (out, Raise IndexError)
        else
          let zero := px 0 0 in
          let '(_, low_y, _, _) := match bbox with Some b => b | None => (0, 0, 0, 0) end in
          let lo := Z.max 0 (low_y - 2) in
          let hi := Z.min ys (low_y + 4) in
          let rows := map (fun i => lo + i) (zrange (hi - lo)) in
          (out ++ map (fun row => Lrow row (row_loop zero [] (map (fun x => px x row) (zrange (Z.min 256 xs))))) rows,
           Ok tt)
    end.
End Info.
