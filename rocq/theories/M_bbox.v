(* Model of class BBox: /repo/x7/geom/geom.py 537-808. *)
Require Import Verif.Base Verif.M_vector.
Set Implicit Arguments.

(* BBox(None) has all four slots None; otherwise four numbers.  A box in which only
   some slots are None can be made through __setitem__ on BBox(None) (619-620); such
   boxes are not modelled. *)
Inductive bbox (F : Type) := BNone | BB (xl yl xh yh : F).
Arguments BNone {F}. Arguments BB {F}.

(* Arguments xl and yl of the constructor: None, a number, a point, or a tuple (its entries) *)
Inductive barg (F : Type) := ANone | ANum (n : F) | APoint (p : pt F) | ATuple (l : list F).
Arguments ANone {F}. Arguments ANum {F}. Arguments APoint {F}. Arguments ATuple {F}.

Section BBox.
  Context {F : Type} {NF : Num F}.
  Local Open Scope num_scope.

  (* truth value of an optional number: None and 0 are false *)
  Definition truthy (a : option F) : bool :=
    match a with None => false | Some n => negb (n =? #0) end.

  (* geom.py:602-603, the end of __init__: sort the four coordinates *)
  Definition mkbbox (xl yl xh yh : F) : bbox F :=
    BB (pymin xl xh) (pymin yl yh) (pymax xl xh) (pymax yl yh).

  (* geom.py:581-603 __init__.  xh and yh are None or a number. *)
  Definition bbox_new (xl yl : barg F) (xh yh : option F) : res (bbox F) :=
    match xl with
    | ANone => Ok BNone
    | _ =>
      match yl with
      | ANone =>
          if truthy xh || truthy yh then Raise TypeError
          else match xl with
               | ATuple [a; b; c; d] => Ok (mkbbox a b c d)
               | ATuple _ => Raise ValueError        (* unpacking the tuple *)
               | _ => Raise TypeError
               end
      | _ =>
          match xh with
          | None =>
              if truthy yh then Raise TypeError
              else match xl, yl with
                   | APoint p, APoint q => Ok (mkbbox (px p) (py p) (px q) (py q))
                   | _, _ => Raise TypeError
                   end
          | Some xh =>
              (* min/max of a number with a point, a tuple or None is a TypeError *)
              match xl, yl, yh with
              | ANum xl, ANum yl, Some yh => Ok (mkbbox xl yl xh yh)
              | _, _, _ => Raise TypeError
              end
          end
      end
    end.

  (* BBox(p1, p2) *)
  Definition bbox_of_pts (p q : pt F) : bbox F := mkbbox (px p) (py p) (px q) (py q).

  (* geom.py:611-614 __eq__ *)
  Definition bbox_eqb (a b : bbox F) : bool :=
    match a, b with
    | BNone, BNone => true
    | BB xl yl xh yh, BB xl' yl' xh' yh' =>
        (xl =? xl') && (yl =? yl') && (xh =? xh') && (yh =? yh')
    | _, _ => false
    end.

  (* geom.py:616-617 __getitem__, with Python's negative indices *)
  Definition bbox_getitem (b : bbox F) (i : Z) : res (option F) :=
    let slots := match b with
                 | BNone => [None; None; None; None]
                 | BB xl yl xh yh => [Some xl; Some yl; Some xh; Some yh]
                 end in
    let j := (if i <? 0 then i + 4 else i)%Z in
    if (j <? 0)%Z then Raise IndexError
    else match nth_error slots (Z.to_nat j) with Some v => Ok v | None => Raise IndexError end.

  (* geom.py:619-620 __setitem__, on a box with coordinates *)
  Definition bb_setitem (xl yl xh yh : F) (i : Z) (v : F) : res (bbox F) :=
    match (if i <? 0 then i + 4 else i)%Z with
    | 0%Z => Ok (BB v yl xh yh)
    | 1%Z => Ok (BB xl v xh yh)
    | 2%Z => Ok (BB xl yl v yh)
    | 3%Z => Ok (BB xl yl xh v)
    | _ => Raise IndexError
    end.

  (* geom.py:625-627 sort; min(None, None) is a TypeError *)
  Definition bbox_sort (b : bbox F) : res (bbox F) :=
    match b with
    | BNone => Raise TypeError
    | BB xl yl xh yh => Ok (mkbbox xl yl xh yh)
    end.

  (* geom.py:629-630 copy *)
  Definition bbox_copy (b : bbox F) : bbox F :=
    match b with BNone => BNone | BB xl yl xh yh => mkbbox xl yl xh yh end.

  (* geom.py:711-723 width, height; 725-729 area *)
  Definition bbox_width (b : bbox F) : F :=
    match b with BNone => #0 | BB xl yl xh yh => xh - xl end.
  Definition bbox_height (b : bbox F) : F :=
    match b with BNone => #0 | BB xl yl xh yh => yh - yl end.
  Definition bbox_area (b : bbox F) : F :=
    match b with BNone => #0 | BB xl yl xh yh => (xh - xl) * (yh - yl) end.
  (* geom.py:731-733 size *)
  Definition bbox_size (b : bbox F) : F * F := (bbox_width b, bbox_height b).

  (* geom.py:632-637 expand; None - number is a TypeError *)
  Definition bbox_expand (b : bbox F) (ex : F) (ey : option F) : res (bbox F) :=
    let ey := match ey with None => ex | Some e => e end in
    let ex := pymax ex (- bbox_width b / #2) in
    let ey := pymax ey (- bbox_height b / #2) in
    match b with
    | BNone => Raise TypeError
    | BB xl yl xh yh => Ok (mkbbox (xl - ex) (yl - ey) (xh + ex) (yh + ey))
    end.

  (* geom.py:639-647 is_none, is_empty *)
  Definition bbox_is_none (b : bbox F) : bool := match b with BNone => true | _ => false end.
  Definition bbox_is_empty (b : bbox F) : bool :=
    match b with BNone => true | BB xl yl xh yh => (xl =? xh) || (yl =? yh) end.

  (* geom.py:649-654, 663-668 p1, pll *)
  Definition bbox_pll (b : bbox F) : res (pt F) :=
    match b with BNone => Raise ValueError | BB xl yl xh yh => Ok (P xl yl) end.
  (* geom.py:670-675 plh *)
  Definition bbox_plh (b : bbox F) : res (pt F) :=
    match b with BNone => Raise ValueError | BB xl yl xh yh => Ok (P xl yh) end.
  (* geom.py:677-682 phl *)
  Definition bbox_phl (b : bbox F) : res (pt F) :=
    match b with BNone => Raise ValueError | BB xl yl xh yh => Ok (P xh yl) end.
  (* geom.py:656-661, 684-689 p2, phh *)
  Definition bbox_phh (b : bbox F) : res (pt F) :=
    match b with BNone => Raise ValueError | BB xl yl xh yh => Ok (P xh yh) end.
  (* geom.py:691-696 center *)
  Definition bbox_center (b : bbox F) : res (pt F) :=
    match b with
    | BNone => Raise ValueError
    | BB xl yl xh yh => Ok (P ((xl + xh) / #2) ((yl + yh) / #2))
    end.

  (* geom.py:698-709 __add__, for two boxes *)
  Definition bbox_add (a b : bbox F) : bbox F :=
    match b with
    | BNone => bbox_copy a
    | BB xl' yl' xh' yh' =>
        match a with
        | BNone => bbox_copy b
        | BB xl yl xh yh =>
            mkbbox (pymin xl xl') (pymin yl yl') (pymax xh xh') (pymax yh yh')
        end
    end.

  (* geom.py:735-745 grow (mutates self: the result is the new state) *)
  Definition bbox_grow (b : bbox F) (p : pt F) : bbox F :=
    match b with
    | BNone => BB (px p) (py p) (px p) (py p)
    | BB xl yl xh yh =>
        BB (pymin xl (px p)) (pymin yl (py p)) (pymax xh (px p)) (pymax yh (py p))
    end.

  (* geom.py:747-750 transformed; [transform_pts] is the method of the given xform *)
  Definition bbox_transformed (transform_pts : list (pt F) -> res (list (pt F)))
             (b : bbox F) : res (bbox F) :=
    let* pll := bbox_pll b in
    let* plh := bbox_plh b in
    let* phh := bbox_phh b in
    let* phl := bbox_phl b in
    let* out := transform_pts [pll; plh; phh; phl] in
    match out with
    | [ll; lh; hh; hl] => Ok (bbox_add (bbox_of_pts ll lh) (bbox_of_pts hh hl))
    | _ => Raise ValueError
    end.

  (* geom.py:752-757 contains_pt *)
  Definition bbox_contains_pt (b : bbox F) (p : pt F) : bool :=
    match b with
    | BNone => false
    | BB xl yl xh yh =>
        let x := px p in let y := py p in
        (xl <? x) && (x <? xh) && ((yl <? y) && (y <? yh))
    end.

  (* geom.py:759-763 contains *)
  Definition bbox_contains (a b : bbox F) : res bool :=
    match a, b with
    | BB xl yl xh yh, BB xl' yl' xh' yh' =>
        Ok ((xl <=? xl') && (xh' <=? xh) && (yl <=? yl') && (yh' <=? yh))
    | _, _ => Raise ValueError
    end.

  (* geom.py:765-771 touches_pt *)
  Definition bbox_touches_pt (b : bbox F) (p : pt F) : bool :=
    match b with
    | BNone => false
    | BB xl yl xh yh =>
        let x := px p in let y := py p in
        (((x =? xl) || (x =? xh)) && ((yl <? y) && (y <? yh)))
        || (((y =? yl) || (y =? yh)) && ((xl <? x) && (x <? xh)))
    end.

  (* geom.py:773-778 touches_side *)
  Definition bbox_touches_side (a b : bbox F) : bool :=
    match a, b with
    | BB xl yl xh yh, BB xl' yl' xh' yh' =>
        (((xh' =? xl) || (xl' =? xh)) && (yl <? yh') && (yl' <? yh))
        || (((yh' =? yl) || (yl' =? yh)) && (xl <? xh') && (xl' <? xh))
    | _, _ => false
    end.

  (* geom.py:780-785 touches *)
  Definition bbox_touches (a b : bbox F) : bool :=
    match a, b with
    | BB xl yl xh yh, BB xl' yl' xh' yh' =>
        (((xh' =? xl) || (xl' =? xh)) && (yl <=? yh') && (yl' <=? yh))
        || (((yh' =? yl) || (yl' =? yh)) && (xl <=? xh') && (xl' <=? xh))
    | _, _ => false
    end.

  (* geom.py:787-793 overlaps *)
  Definition bbox_overlaps (a b : bbox F) : res bool :=
    match a, b with
    | BB xl yl xh yh, BB xl' yl' xh' yh' =>
        if ngeb xl xh' || (xh <=? xl') || ngeb yl yh' || (yh <=? yl')
        then Ok false else Ok true
    | _, _ => Raise ValueError
    end.

  (* geom.py:795-801 intersection *)
  Definition bbox_intersection (a b : bbox F) : bbox F :=
    match a, b with
    | BB xl yl xh yh, BB xl' yl' xh' yh' =>
        if ngtb xl xh' || (xh <? xl') || ngtb yl yh' || (yh <? yl')
        then BNone
        else mkbbox (pymax xl xl') (pymax yl yl') (pymin xh xh') (pymin yh yh')
    | _, _ => BNone
    end.
End BBox.
