(* Frames of an animation: anim.py Builder, anim_simple.py SimpleAnimation, and the pixel boxes
   of drawing.py. *)
Require Import Verif.Base Verif.M_vector Verif.M_bbox Verif.M_transform Verif.M_points Verif.M_anim.
From Coq Require Import ZArith List.
Import ListNotations.
Local Open Scope num_scope.

(* range(n) *)
Definition zrange (n : Z) : list Z := map Z.of_nat (seq 0 (Z.to_nat n)).

(* ---------------- which frames ---------------- *)

Section Builder.
  Context {F : Type} {NF : Num F} {RF : NumRoot F} {TF : NumTrig F}.
  Variable I : Type.
  (* the image of the model when the points are as given: DrawingContext(self.base, ...),
     self.model.draw(drawing), drawing.image().  Drawing leaves the matrix as it is (C47) and
     does not move points, so the image depends on nothing else that changes. *)
  Variable draw : pstore F -> res I.

  (* anim.py:452-460 Builder.build_one; show_frame is off unless set by hand *)
  Definition build_one (anims : list (anim F)) (t : F) (st : pstore F) : pstore F * res I :=
    match h_update anims (TNum t) st with
    | (st', Ok _) => (st', draw st')
    | (st', Raise e) => (st', Raise e)
    end.
  Fixpoint build_frames (anims : list (anim F)) (ts : list F) (st : pstore F) : pstore F * res (list I) :=
    match ts with
    | [] => (st, Ok [])
    | t :: ts' =>
        match build_one anims t st with
        | (st', Ok im) => let (st'', r) := build_frames anims ts' st' in (st'', let* ims := r in Ok (im :: ims))
        | (st', Raise e) => (st', Raise e)
        end
    end.
  (* anim.py:462-464 Builder.build_all on the points and self.images, which is assigned at the
     end; t / steps is not evaluated when there are no steps *)
  Definition build_all (anims : list (anim F)) (steps : Z) (s : pstore F * list I)
    : (pstore F * list I) * res (list I) :=
    let (st, r) := build_frames anims (map (fun t => nofZ t / nofZ steps) (zrange steps)) (fst s) in
    match r with
    | Ok ims => ((st, ims), Ok ims)
    | Raise e => ((st, snd s), Raise e)
    end.

  (* what draw_func(dc, t) leaves in the image, and the exception it ended with, if any *)
  Variable draw_func : F -> I * option exn.
  (* anim_simple.py:58 the constructor's assertion *)
  Definition mk_simple (t_low t_high : F) : res unit :=
    if t_low =? t_high then Raise AssertionError else Ok tt.
  (* anim_simple.py:84-90 the loop of SimpleAnimation.animate on self.images; leaving the with
     block calls finish_step (31-32, 75-78, 66-73), also after an exception *)
  Fixpoint simple_loop (t_low step_size : F) (l : list Z) (images : list I) : list I * res unit :=
    match l with
    | [] => (images, Ok tt)
    | step :: l' =>
        let step_t := t_low + nofZ step * step_size in
        let (im, x) := draw_func step_t in
        let images := images ++ [im] in
        match x with
        | Some e => (images, Raise e)
        | None => simple_loop t_low step_size l' (images ++ [im])
        end
    end.
  (* anim_simple.py:80-90 SimpleAnimation.animate *)
  Definition animate (t_low t_high : F) (steps : Z) (images : list I) : list I * res unit :=
    match pydiv (t_high - t_low) (nofZ steps) with
    | Raise e => (images, Raise e)
    | Ok step_size => simple_loop t_low step_size (zrange (steps + 1)) images
    end.
End Builder.

Section Canvas.
  Context {F : Type} {NF : Num F} {FF : NumFloor F}.
  (* anim_simple.py:70-71 the matrix of SimpleAnimation.next_step for an image of w by h;
     returned with what scale_bbox raised, if anything *)
  Definition step_matrix (w h : F) (model_bbox : bbox F) : transform F * res unit :=
    t_scale_bbox model_bbox (mkbbox (#0) (#0) w h) false (canvas_fit h (#1) (#0) h).

  (* int(x) *)
  Definition pyint (x : F) : Z := if x <? #0 then Z.opp (nfloor (- x)) else nfloor x.
  (* anim.py:553 ms_per_frame *)
  Definition ms_per_frame (duration : F) (frames : nat) : res Z :=
    let* d := pydiv (#1000 * duration) (nofZ (Z.of_nat frames)) in Ok (pyint d).
  (* drawing.py:69-72 DrawingContext.crop_to_pixels with the matrix m; scale_pt is 120-121 *)
  Definition crop_to_pixels (m : transform F) (c0 c1 c2 c3 : F) : Z * Z * Z * Z :=
    let p := t_transform m (P c0 c1) in
    let q := t_transform m (P c2 c3) in
    let x1 := pyint (px p) in let y1 := pyint (py p) in
    let x2 := pyint (px q) in let y2 := pyint (py q) in
    (Z.min x1 x2, Z.min y1 y2, Z.max x1 x2, Z.max y1 y2).
End Canvas.

(* ---------------- cropping ---------------- *)

(* An image, as far as cropping is concerned: its size and which pixels are not zero.  PIL's
   getbbox and crop (external, see DESIGN.md). *)
Record image := Image { i_w : Z; i_h : Z; i_on : Z -> Z -> bool }.
Definition box := (Z * Z * Z * Z)%type.
Definition lit (im : image) (x y : Z) : bool :=
  (0 <=? x)%Z && (x <? i_w im)%Z && (0 <=? y)%Z && (y <? i_h im)%Z && i_on im x y.
(* drawing.py:8-10 bbox_max *)
Definition bbox_max (a b : box) : box :=
  let '(a0, a1, a2, a3) := a in let '(b0, b1, b2, b3) := b in
  (Z.min a0 b0, Z.min a1 b1, Z.max a2 b2, Z.max a3 b3).
(* Image.getbbox(): the box of the pixels that are not zero, None when all are *)
Definition getbbox (im : image) : option box :=
  let one p := (fst p, snd p, fst p + 1, snd p + 1)%Z in
  match filter (fun p => i_on im (fst p) (snd p)) (list_prod (zrange (i_w im)) (zrange (i_h im))) with
  | [] => None
  | p :: l => Some (fold_left (fun b q => bbox_max b (one q)) l (one p))
  end.
(* Image.crop(box) for an ordered box; what lies outside the image is zero *)
Definition crop (b : box) (im : image) : image :=
  let '(x0, y0, x1, y1) := b in
  Image (x1 - x0)%Z (y1 - y0)%Z (fun x y => lit im (x + x0)%Z (y + y0)%Z).
(* anim.py:466-473 Builder.max_bbox without the message; zip(None) is a TypeError *)
Fixpoint max_loop (bb : option box) (l : list image) : res (option box) :=
  match l with
  | [] => Ok bb
  | im :: l' =>
      match bb, getbbox im with
      | Some a, Some b => max_loop (Some (bbox_max a b)) l'
      | _, _ => Raise TypeError
      end
  end.
Definition max_bbox (self_images images : list image) : res (option box) :=
  match (match images with [] => self_images | _ => images end) with
  | [] => Raise IndexError
  | im :: l => max_loop (getbbox im) l
  end.
(* anim.py:543-551 the box save_animation crops to, and the cropped frames *)
Definition autocrop (images : list image) : res (box * list image) :=
  match images with
  | [] => Raise IndexError
  | im :: _ =>
      let* bb := max_bbox images images in
      match bb with
      | None => Raise TypeError
      | Some (xl, yl, xh, yh) =>
          let radius := 16%Z in
          let b := (Z.max 0 (xl - radius), Z.max 0 (yl - radius),
                    Z.min (i_w im) (xh + radius), Z.min (i_h im) (yh + radius))%Z in
          Ok (b, map (crop b) images)
      end
  end.
(* anim.py:501-513 Builder.scaled without a box: the sizes of the frames it makes, in order; with
   another scale than 1 these are the sizes asked of resize, which go by the first frame *)
Definition scaled_sizes (scale : Z) (images : list image) : res (list (Z * Z)) :=
  if (scale =? 1)%Z then Ok (map (fun im => (i_w im, i_h im)) images)
  else
    match images with
    | [] => Raise IndexError
    | im :: _ =>
        if (scale =? 0)%Z then Raise ZeroDivisionError
        else Ok (map (fun _ => (i_w im / scale, i_h im / scale)%Z) images)
    end.
