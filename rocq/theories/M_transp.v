(* Images with a transparent colour: rgba_to_transparent (/repo/x7/geom/imagehelp.py 102-128) and
   rgb_to_transparent without a palette image (/repo/x7/geom/anim.py 415-437).  An image is the list
   of its pixels, row by row from the upper left, as in M_palette. *)
Require Import Verif.Base Verif.M_palette.
From Coq Require Import ZArith List.
Import ListNotations.
Local Open Scope Z_scope.
Set Implicit Arguments.

(* im.mode *)
Inductive mode := ModeRGB | ModeRGBA | ModeOther.
(* a 'P' mode image: the index of every pixel, the palette, and info['transparency'] *)
Record pimage := PImage { p_index : list nat; p_palette : list rgb; p_clear : nat }.

Section Transparent.
  (* PIL: convert('P', palette=Image.ADAPTIVE, colors=n) on an RGB image, the indices and the palette *)
  Variable adaptive : Z -> list rgb -> res (list nat * list rgb).

  (* imagehelp.py:113, anim.py:435: im.info['transparency'] = im.getpixel((0, 0)) *)
  Definition clear_first (im : list nat * list rgb) : res pimage :=
    match fst im with
    | [] => Raise IndexError
    | i :: _ => Ok (PImage (fst im) (snd im) i)
    end.

  (* imagehelp.py:102-128; the branch not taken (cheap_hack is True) is left out, and so is the
     channel taken out in line 106 for it *)
  Definition rgba_to_transparent (m : mode) (im : list rgba) (colors : Z) : res pimage :=
    match m with
    | ModeRGBA => let* p := adaptive (colors - 1) (map fst im) in clear_first p
    | _ => Raise AssertionError
    end.

  (* anim.py:415-437 with palette_image None and two_color_flip False *)
  Definition rgb_to_transparent_adaptive (m : mode) (im : list rgb) (colors : Z) : res pimage :=
    match m with
    | ModeRGB => let* p := adaptive (colors - 1) im in clear_first p
    | _ => Raise AssertionError
    end.
End Transparent.
