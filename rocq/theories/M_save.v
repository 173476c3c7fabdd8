(* Saving animations: Builder.save_animation and run (/repo/x7/geom/anim.py 539-577), and
   SimpleAnimation.save_animation (/repo/x7/geom/anim_simple.py 92-115).
   The outside world is the list of what was done, in order.  PIL's save, images2gif, pygifsicle,
   os.system and quicklook are taken to succeed. *)
Require Import Verif.Base Verif.M_points Verif.M_anim Verif.M_frames.
From Coq Require Import ZArith String List.
Import ListNotations.
Set Implicit Arguments.
Local Open Scope string_scope.
Local Open Scope list_scope.

(* sys.platform *)
Inductive platform := Darwin | Linux | Ios | OtherPlatform.

Section Save.
  Context {F : Type} {NF : Num F} {FF : NumFloor F} {RF : NumRoot F} {TF : NumTrig F}.
  (* frames as they were drawn, and frames as they go into the file *)
  Variables I J : Type.

  Inductive effect :=
  | EPrint (path : string)                                        (* print('Output to %r') *)
  | EPng (path : string) (im : I + J)                             (* im.save(a .png file) *)
  | EGif (path : string) (frames : list (I + J)) (disposal : Z) (ms : Z)   (* images[0].save(save_all...), loop=0 *)
  | EOptimize (from to : string)                                  (* pygifsicle.optimize *)
  | EWriteGif (path : string) (frames : list (I + J)) (ms : Z)    (* images2gif.writeGif, duration in s is ms / 1000 *)
  | EView (path : string)                                         (* images[0].show(), quicklook, os.system with a viewer *)
  | EShow (im : I + J).

  (* not output *)
  Definition no_path (o : option string) : bool :=
    match o with None => true | Some s => String.eqb s "" end.
  Definition path_of (o : option string) (tmp : string) : string :=
    match o with Some s => if String.eqb s "" then tmp else s | None => tmp end.

  (* anim_simple.py:92-115; images[0] raises on an empty list, int() does not: frame_display_time is a number *)
  Definition simple_save (pl : platform) (images : list I) (frame_display_time : F) (output : option string)
    : list effect * res unit :=
    let out := path_of output "/tmp/sa.gif" in
    let pr := if no_path output then [EPrint out] else [] in
    let ms := pyint (frame_display_time * #1000)%num in
    match pl with
    | Darwin =>
        match images with
        | [] => (pr, Raise IndexError)
        | im :: _ => (pr ++ [EPng "/tmp/images.png" (inl im); EGif out (map inl images) 1 ms;
                             EOptimize out "/tmp/anim_opt.gif"; EView "/tmp/anim_opt.gif"], Ok tt)
        end
    | Linux =>
        match images with
        | [] => (pr, Raise IndexError)
        | im :: _ => (pr ++ [EPng "/tmp/images.png" (inl im); EGif out (map inl images) 1 ms; EView ("/linux" ++ out)], Ok tt)
        end
    | _ => (pr, Raise NotImplementedError)
    end.

  (* anim.py:27 *)
  Definition tmp_anim (pl : platform) : string := match pl with Darwin => "/tmp/anim.gif" | _ => "anim.gif" end.
  (* anim.py:543-552: cropping and scaling (M_frames.v), on the list of frames, which is not empty *)
  Variable prepared : list I -> res (list J).
  (* anim.py:554-559: the RGB frames (M_palette.v) and the frames with a palette *)
  Variable rgb : J -> J.
  Variable palette_frames : list J -> res (list J).

  (* anim.py:539-573 Builder.save_animation(output, images, autocrop=True); images = None is [] *)
  Definition builder_save (pl : platform) (own images : list I) (duration : F) (output : option string)
    : list effect * res unit :=
    let out := path_of output (tmp_anim pl) in
    let pr := if no_path output then [EPrint out] else [] in
    let images := match images with [] => own | _ => images end in
    match images with
    | [] => (pr, Raise IndexError)
    | _ =>
        match prepared images with
        | Raise e => (pr, Raise e)
        | Ok ims =>
            match ms_per_frame duration (List.length ims) with
            | Raise e => (pr, Raise e)
            | Ok ms =>
                let images_rgba := map rgb ims in
                match palette_frames images_rgba with
                | Raise e => (pr, Raise e)
                | Ok frames =>
                    match pl with
                    | Darwin =>
                        match images_rgba, frames with
                        | a :: _, b :: _ =>
                            (pr ++ [EPng "/tmp/images_rgba.png" (inr a); EPng "/tmp/images.png" (inr b);
                                    EGif out (map inr frames) 2 ms;
                                    EOptimize "/tmp/anim.gif" "/tmp/anim_opt.gif"; EView "/tmp/anim_opt.gif"], Ok tt)
                        | _, _ => (pr, Raise IndexError)
                        end
                    | Ios =>
                        match frames with
                        | b :: _ => (pr ++ [EShow (inr b); EWriteGif out (map inr frames) ms; EView out], Ok tt)
                        | _ => (pr, Raise IndexError)
                        end
                    | _ => (pr, Ok tt)
                    end
                end
            end
        end
    end.

  (* anim.py:575-577 Builder.run: the points and frames are those of M_frames.build_all *)
  Definition builder_run (draw : pstore F -> res I) (pl : platform) (anims : list (anim F)) (steps : Z) (duration : F)
      (output : option string) (s : pstore F * list I) : (pstore F * list I) * (list effect * res unit) :=
    match build_all I draw anims steps s with
    | (s', Raise e) => (s', ([], Raise e))
    | (s', Ok _) => (s', builder_save pl (snd s') [] duration output)
    end.
End Save.
Arguments EPrint {I J}. Arguments EPng {I J}. Arguments EGif {I J}. Arguments EOptimize {I J}. Arguments EWriteGif {I J}. Arguments EView {I J}. Arguments EShow {I J}.
