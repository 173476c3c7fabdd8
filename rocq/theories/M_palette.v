(* Palettes and the colours of GIF frames (anim.py, imagehelp.py). An image is the list of its
   pixels, row by row from the upper left; the sizes are in M_frames. *)
Require Import Verif.Base Verif.M_group.
From Coq Require Import ZArith List.
Import ListNotations.
Local Open Scope Z_scope.
Set Implicit Arguments.

Definition rgb : Type := (Z * Z * Z)%type.
Definition rgba : Type := (Z * Z * Z * Z)%type.
Definition rgb_eqb (a b : rgb) : bool :=
  let '(r, g, c) := a in let '(r', g', c') := b in ((r =? r') && (g =? g') && (c =? c'))%bool.
(* a <= b for tuples (count, (r, g, b)) in Python *)
Definition entry : Type := (Z * rgb)%type.
Definition entry_leb (a b : entry) : bool :=
  let '(v, (r, g, c)) := a in let '(v', (r', g', c')) := b in
  if v =? v' then if r =? r' then if g =? g' then c <=? c' else g <=? g' else r <=? r' else v <=? v'.
(* sorted() *)
Fixpoint insert_entry (a : entry) (l : list entry) : list entry :=
  match l with
  | [] => [a]
  | b :: l' => if entry_leb a b then a :: l else b :: insert_entry a l'
  end.
Fixpoint sort_entries (l : list entry) : list entry :=
  match l with [] => [] | a :: l' => insert_entry a (sort_entries l') end.

(* anim.py:527-528: colors.setdefault(color, 0); colors[color] += 1 *)
Fixpoint bump (c : rgb) (d : list (rgb * Z)) : list (rgb * Z) :=
  match d with
  | [] => [(c, 1)]
  | (k, v) :: d' => if rgb_eqb k c then (k, v + 1) :: d' else (k, v) :: bump c d'
  end.
(* anim.py:524-528 *)
Definition histogram (images : list (list rgb)) : list (rgb * Z) :=
  fold_left (fun d im => fold_left (fun d c => bump c d) im d) images [].
(* anim.py:531 *)
Definition all_colors (images : list (list rgb)) : list entry :=
  rev (sort_entries (map (fun kv => (snd kv, fst kv)) (histogram images))).

(* PIL's ImagePalette in RGB mode: the colours allocated so far, in order, and the 256 entries *)
Record pal := Pal { pcolors : list rgb; slots : list rgb }.
Fixpoint index_of (c : rgb) (l : list rgb) : option nat :=
  match l with
  | [] => None
  | a :: l' => if rgb_eqb a c then Some 0%nat else match index_of c l' with Some i => Some (S i) | None => None end
  end.
Fixpoint set_slot (i : nat) (c : rgb) (l : list rgb) : list rgb :=
  match l, i with
  | [], _ => []
  | _ :: l', O => c :: l'
  | a :: l', S i' => a :: set_slot i' c l'
  end.
(* PIL: ImagePalette.getcolor, by its documentation: the index of a known colour, else a new one *)
Definition getcolor (p : pal) (c : rgb) : res pal :=
  match index_of c (pcolors p) with
  | Some _ => Ok p
  | None =>
      if (List.length (pcolors p) <? 256)%nat
      then Ok (Pal (pcolors p ++ [c]) (set_slot (List.length (pcolors p)) c (slots p)))
      else Raise ValueError
  end.

(* imagehelp.py:151-165 palette_image(empty_image): its palette; the picture is not used *)
Definition palette_image (empty_image : bool) : res pal :=
  let* p := getcolor (Pal [] (repeat (0, 0, 0) 256)) (0, 0, 0) in
  let* p := getcolor p (255, 255, 255) in
  if empty_image then Ok p
  else foldM (fun p c => if Z.of_nat (List.length (pcolors p)) <? c
                         then getcolor p (c, (c + 128) mod 256, (500 - c) mod 256) else Ok p)
             p (map Z.of_nat (seq 0 256)).

(* anim.py:515-539 Builder.make_palette: the palette of the image it returns *)
Definition make_palette (images : list (list rgb)) : res pal :=
  let* im := palette_image false in
  foldM (fun p (ce : entry) => getcolor p (snd ce)) (Pal [] (slots im)) (firstn 256 (all_colors images)).

(* imagehelp.py:58-72 image_fix_palette on the bytes of a palette in RGBA mode.
   int(color[c] * alpha / 255) is computed with floats in Python; rounding does not matter for
   numbers this small (P_palette: fix_byte_float) *)
Definition fix_byte (color alpha : Z) : Z := color * alpha / 255.
Fixpoint set_byte (i : nat) (v : Z) (l : list Z) : list Z :=
  match l, i with
  | [], _ => []
  | _ :: l', O => v :: l'
  | a :: l', S i' => a :: set_byte i' v l'
  end.
Definition fix_entry (pal : list Z) (n : nat) : res (list Z) :=
  let idx := (n * 4)%nat in
  match nth_error pal (idx + 3) with
  | None => Raise IndexError
  | Some alpha =>
      if negb (alpha =? 0) && negb (alpha =? 255) then
        let pal := set_byte (idx + 0) (fix_byte 64 alpha) pal in
        let pal := set_byte (idx + 1) (fix_byte 128 alpha) pal in
        let pal := set_byte (idx + 2) (fix_byte 255 alpha) pal in
        Ok (set_byte (idx + 3) 255 pal)
      else Ok pal
  end%bool.
Definition image_fix_palette (pal : list Z) : res (list Z) :=
  foldM fix_entry pal (seq 0 256).

Section Frames.
  (* PIL, by contract: resize with BICUBIC, alpha_composite of one pixel over another, and the
     index that quantize picks for a colour *)
  Variable resize : list rgba -> list rgba.
  Variable over : rgba -> rgba -> rgba.
  Variable nearest : list rgb -> rgb -> nat.

  Definition alpha (p : rgba) : Z := snd p.
  Definition colour (p : rgba) : rgb := fst p.

  (* anim.py:475-499 Builder.resize_for_gif on an RGBA image *)
  Definition resize_for_gif (im : list rgba) : list rgba :=
    map (fun p => (colour p, if alpha p <? 255 then 0 else 255)) (resize im).
  (* anim.py:30-36 composed(im, 'black') and then convert('RGB') *)
  Definition composed_black (im : list rgba) : list rgb :=
    map (fun p => colour (over (0, 0, 0, 255) p)) im.

  (* anim.py:415-437 rgb_to_transparent with a palette image: the indices and the transparent one *)
  Definition rgb_to_transparent (p : pal) (im : list rgb) : res (list nat * nat) :=
    let indices := map (nearest (slots p)) im in
    match indices with
    | [] => Raise IndexError
    | i :: _ => Ok (indices, i)
    end.

  (* anim.py:552, 554-559 Builder.save_animation from the cropped RGBA frames to the GIF frames:
     the palette and the frames. Writing the file is not modelled *)
  Definition gif_frames (images : list (list rgba)) : res (list rgb * list (list nat * nat)) :=
    let images := map resize_for_gif images in
    let images := map composed_black images in
    let* p := make_palette images in
    let* frames := mapM (rgb_to_transparent p) images in
    Ok (slots p, frames).
End Frames.
