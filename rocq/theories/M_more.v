(* Model of Transform.untransform_pt and untransform_pts (/repo/x7/geom/transform.py 293-301) and of
   Elem.center (/repo/x7/geom/model.py 189-191). *)
Require Import Verif.Base Verif.M_vector Verif.M_bbox Verif.M_transform Verif.M_bezier Verif.M_elems Verif.M_group.
Set Implicit Arguments.

Section More.
  Context {F : Type} {NF : Num F}.

  (* transform.py:293-294 *)
  Definition t_untransform_pt (s : transform F) (p : pt F) : transform F * res (pt F) := t_untransform s p.
  (* transform.py:296-301; on an empty list np.dot raises ValueError after the inverse was looked up *)
  Definition t_untransform_pts (s : transform F) (pts : list (pt F)) : transform F * res (list (pt F)) :=
    let (s', i) := t_inverse s in
    (s', let* i := i in
         match pts with
         | [] => Raise ValueError
         | _ => Ok (map (mat_apply i) pts)
         end).

  (* model.py:189-191 *)
  Definition elem_center (e : elem F) : res (pt F) :=
    let* b := elem_bbox e in bbox_center b.
End More.
