(* Vector fields: /repo/x7/geom/vec_field.py, with numpy's linspace, amax and array arithmetic
   and scipy's RegularGridInterpolator by their documented behaviour. *)
Require Import Verif.Base Verif.M_vector Verif.M_bbox.
From Coq Require Import ZArith List Bool.
Import ListNotations.
Set Implicit Arguments.
Local Open Scope num_scope.

(* A two-dimensional array of numbers, of the shape of the mesh it belongs to, as a function of
   its indices; what the function gives outside the shape is never used.  Arrays of another
   shape than the mesh are not modelled. *)
Definition arr (F : Type) := nat -> nat -> F.
Definition aset {F} (a : arr F) (i j : nat) (v : F) : arr F :=
  fun x y => if Nat.eqb x i && Nat.eqb y j then v else a x y.

Section Mesh.
  Context {F : Type} {NF : Num F}.

  (* numpy.linspace(lo, hi, n): lo + i * step, the last one set to hi.  numpy divides later when
     the step comes out as zero, and not at all for a single number. *)
  Definition linspace (lo hi : F) (n : nat) (i : nat) : F :=
    if (1 <? n)%nat && Nat.eqb i (n - 1) then hi
    else
      let k := nofZ (Z.of_nat i) in
      let div := nofZ (Z.of_nat (n - 1)) in
      let step := (hi - lo) / div in
      (if (1 <? n)%nat then if step =? #0 then k / div * (hi - lo) else k * step else k * (hi - lo)) + lo.

  (* vec_field.py:11-20 Mesh: the box and the number of steps; the coordinates and grids are
     computed from them when needed.  x_shape is (steps, steps). *)
  Record mesh := Mesh { m_xl : F; m_yl : F; m_xh : F; m_yh : F; m_steps : nat }.
  (* vec_field.py:12-20; linspace on the empty box is a TypeError, on a negative count a
     ValueError *)
  Definition mesh_new (b : bbox F) (steps : Z) : res mesh :=
    match b with
    | BNone => Raise TypeError
    | BB xl yl xh yh => if (steps <? 0)%Z then Raise ValueError else Ok (Mesh xl yl xh yh (Z.to_nat steps))
    end.
  (* vec_field.py:15-16 *)
  Definition coord_x (m : mesh) (i : nat) : F := linspace (m_xl m) (m_xh m) (m_steps m) i.
  Definition coord_y (m : mesh) (i : nat) : F := linspace (m_yl m) (m_yh m) (m_steps m) i.
  (* vec_field.py:18-19 numpy.meshgrid with the default indexing 'xy': rows go with y *)
  Definition x_grid (m : mesh) : arr F := fun i j => coord_x m j.
  Definition y_grid (m : mesh) : arr F := fun i j => coord_y m i.
End Mesh.
Arguments mesh : clear implicits.

(* the index pairs of an array of n rows and n columns, row by row *)
Definition cells (n : nat) : list (nat * nat) := flat_map (fun i => map (fun j => (i, j)) (seq 0 n)) (seq 0 n).

Section Eq.
  Context {F : Type} {NF : Num F}.
  (* numpy.array_equal on arrays of n rows and columns, and of n entries *)
  Definition arr_eqb (n : nat) (a b : arr F) : bool := forallb (fun ij => a (fst ij) (snd ij) =? b (fst ij) (snd ij)) (cells n).
  Definition vec_eqb (n : nat) (a b : nat -> F) : bool := forallb (fun i => a i =? b i) (seq 0 n).
  (* vec_field.py:22-28 Mesh.__eq__ on two meshes; x_shape is (steps, steps) *)
  Definition mesh_eqb (a b : mesh F) : bool :=
    ((m_xl a =? m_xl b) && (m_yl a =? m_yl b) && (m_xh a =? m_xh b) && (m_yh a =? m_yh b)) &&
    Nat.eqb (m_steps a) (m_steps b) &&
    vec_eqb (m_steps a) (coord_x a) (coord_x b) && vec_eqb (m_steps a) (coord_y a) (coord_y b) &&
    arr_eqb (m_steps a) (x_grid a) (x_grid b) && arr_eqb (m_steps a) (y_grid a) (y_grid b).
End Eq.

(* ------------------------------------------------------------------ *)
(** * Array arithmetic *)

Section Arrays.
  Context {F : Type} {NF : Num F} {RF : NumRoot F}.

  (* vec_field.py:103 *)
  Definition magnitude (vx vy : arr F) (i j : nat) : F := nsqrt (vx i j * vx i j + vy i j * vy i j).
  (* numpy.amax over all entries; on an empty array a ValueError *)
  Definition amax (n : nat) (a : arr F) : res F :=
    match cells n with
    | [] => Raise ValueError
    | (i, j) :: l => Ok (fold_left (fun acc ij => pymax acc (a (fst ij) (snd ij))) l (a i j))
    end.
  (* vec_field.py:102-106 normalized.  1 / max_mag is numpy's division: inf for a zero, with a
     warning, not an exception. *)
  Definition norm_arrays (n : nat) (vx vy : arr F) : res (arr F * arr F) :=
    let* max_mag := amax n (magnitude vx vy) in
    Ok (fun i j => vx i j * (#1 / max_mag), fun i j => vy i j * (#1 / max_mag)).

  (* vec_field.py:117-127, one entry of one component: the sum over the neighbourhood, then the
     centre nineteen times more; range(max(0, i - 2), min(n, i + 2)) *)
  Definition near (n i : nat) : list nat := seq (i - 2) (Nat.min n (i + 2) - (i - 2)).
  Definition neighbours (n i j : nat) : list (nat * nat) :=
    flat_map (fun x => map (fun y => (x, y)) (near n j)) (near n i).
  Definition smooth_at (n : nat) (v : arr F) (i j : nat) : F :=
    let count := Z.of_nat (List.length (neighbours n i j)) in
    let u := fold_left (fun u xy => u + v (fst xy) (snd xy)) (neighbours n i j) (#0) in
    let center_weight := (20 - 1)%Z in
    (u + nofZ center_weight * v i j) / nofZ (count + center_weight).
  (* vec_field.py:109-130 smoothed *)
  Definition smooth_arrays (n : nat) (vx vy : arr F) : res (arr F * arr F) :=
    norm_arrays n (smooth_at n vx) (smooth_at n vy).
  (* vec_field.py:132-134 scaled *)
  Definition scale_arrays (vx vy : arr F) (sx : F) (sy : option F) : arr F * arr F :=
    let sy := match sy with Some s => s | None => sx end in
    (fun i j => vx i j * sx, fun i j => vy i j * sy).

  (* scipy.interpolate.RegularGridInterpolator(coords, values, method='linear',
     bounds_error=False, fill_value=None) on a grid of n by n: the constructor wants strictly
     ascending coordinates *)
  Definition ascending (n : nat) (c : nat -> F) : bool := forallb (fun k => c k <? c (S k)) (seq 0 (n - 1)).
  (* the interval a coordinate falls into: number of nodes below it, less one, kept within
     0 .. n - 2, so that outside values use the outermost intervals *)
  Definition locate (n : nat) (c : nat -> F) (x : F) : nat :=
    Nat.min (List.length (filter (fun k => c k <? x) (seq 0 n)) - 1) (n - 2).
  Definition rgi_eval (n : nat) (cx cy : nat -> F) (v : arr F) (x y : F) : F :=
    let i := locate n cx x in
    let j := locate n cy y in
    let s := (x - cx i) / (cx (S i) - cx i) in
    let t := (y - cy j) / (cy (S j) - cy j) in
    v i j * (#1 - s) * (#1 - t) + v i (S j) * (#1 - s) * t +
    v (S i) j * s * (#1 - t) + v (S i) (S j) * s * t.
End Arrays.

(* ------------------------------------------------------------------ *)
(** * Fields as objects *)

(* numpy arrays are objects, numbered; a field refers to two of them, and its interpolators,
   once made, to the two they were made from: scipy keeps a float array as it is, without
   copying.  vec_field.py:45-50. *)
Record vfield (F : Type) := VF { vf_mesh : mesh F; vf_vx : nat; vf_vy : nat; vf_interp : option (nat * nat) }.
Record world (F : Type) := World { arrays : list (arr F); fields : list (vfield F) }.

Section Objects.
  Context {F : Type} {NF : Num F} {RF : NumRoot F}.
  Definition zero_arr : arr F := fun _ _ => #0.
  Definition arr_at (w : world F) (l : nat) : arr F := nth l (arrays w) zero_arr.

  Definition replace {A} (l : list A) (i : nat) (x : A) : list A := firstn i l ++ match skipn i l with [] => [] | _ :: r => x :: r end.
  Definition with_field (w : world F) (f : nat) (v : vfield F) : world F := World (arrays w) (replace (fields w) f v).

  (* vec_field.py:45-50 VectorField(mesh, vx, vy) with two new arrays *)
  Definition vf_make (m : mesh F) (vx vy : arr F) (w : world F) : world F * res nat :=
    let l := List.length (arrays w) in
    (World (arrays w ++ [vx; vy]) (fields w ++ [VF m l (S l) None]), Ok (List.length (fields w))).
  (* vec_field.py:30-31, 45-50 zeros() *)
  Definition vf_zeros (m : mesh F) : world F -> world F * res nat := vf_make m zero_arr zero_arr.
  (* vec_field.py:45-50 VectorField(mesh, vx, vy) with given arrays *)
  Definition vf_over (m : mesh F) (vx vy : nat) (w : world F) : world F * res nat :=
    (World (arrays w) (fields w ++ [VF m vx vy None]), Ok (List.length (fields w))).
  (* vec_field.py:33-39 uniform(magnitude) with the numbers of random.random() as a stream;
     random.uniform(a, b) is a + (b - a) * random() *)
  Definition uniform_arrays (n : nat) (magnitude : F) (random : nat -> F) : arr F * arr F :=
    let u k := nneg magnitude + (magnitude - nneg magnitude) * random k in
    (fun i j => u (2 * (i * n + j))%nat, fun i j => u (2 * (i * n + j) + 1)%nat).
  Definition vf_uniform (m : mesh F) (magnitude : F) (random : nat -> F) : world F -> world F * res nat :=
    vf_make m (fst (uniform_arrays (m_steps m) magnitude random)) (snd (uniform_arrays (m_steps m) magnitude random)).

  (* what a method does on a field that exists *)
  Definition on {A} (f : nat) (w : world F) (k : vfield F -> world F * res A) : world F * res A :=
    match nth_error (fields w) f with None => (w, Raise AttributeError) | Some v => k v end.

  (* vec_field.py:58-59 copy() *)
  Definition vf_copy (f : nat) (w : world F) : world F * res nat :=
    on f w (fun v => vf_make (vf_mesh v) (arr_at w (vf_vx v)) (arr_at w (vf_vy v)) w).
  (* vec_field.py:102-107, 109-130, 132-134 *)
  Definition vf_normalized (f : nat) (w : world F) : world F * res nat :=
    on f w (fun v =>
      match norm_arrays (m_steps (vf_mesh v)) (arr_at w (vf_vx v)) (arr_at w (vf_vy v)) with
      | Ok (vx, vy) => vf_make (vf_mesh v) vx vy w
      | Raise e => (w, Raise e)
      end).
  Definition vf_smoothed (f : nat) (w : world F) : world F * res nat :=
    on f w (fun v =>
      match smooth_arrays (m_steps (vf_mesh v)) (arr_at w (vf_vx v)) (arr_at w (vf_vy v)) with
      | Ok (vx, vy) => vf_make (vf_mesh v) vx vy w
      | Raise e => (w, Raise e)
      end).
  Definition vf_scaled (f : nat) (sx : F) (sy : option F) (w : world F) : world F * res nat :=
    on f w (fun v =>
      let (vx, vy) := scale_arrays (arr_at w (vf_vx v)) (arr_at w (vf_vy v)) sx sy in
      vf_make (vf_mesh v) vx vy w).

  (* vec_field.py:52-56 VectorField.__eq__ on two fields *)
  Definition vf_eqb (w : world F) (a b : vfield F) : bool :=
    mesh_eqb (vf_mesh a) (vf_mesh b) &&
    arr_eqb (m_steps (vf_mesh a)) (arr_at w (vf_vx a)) (arr_at w (vf_vx b)) &&
    arr_eqb (m_steps (vf_mesh a)) (arr_at w (vf_vy a)) (arr_at w (vf_vy b)).

  (* vec_field.py:65-72 interp_coords.  Below two steps what scipy does depends on its version;
     the model raises. *)
  Definition interp_coords (f : nat) (pts : list (F * F)) (w : world F) : world F * res (list F * list F) :=
    on f w (fun v =>
      let m := vf_mesh v in
      let n := m_steps m in
      let cx := coord_x m in
      let cy := coord_y m in
      let answer (w : world F) (lx ly : nat) :=
        (w, Ok (map (fun p => rgi_eval n cx cy (arr_at w lx) (fst p) (snd p)) pts,
                map (fun p => rgi_eval n cx cy (arr_at w ly) (fst p) (snd p)) pts)) in
      match vf_interp v with
      | Some (lx, ly) => answer w lx ly
      | None =>
          if (1 <? n)%nat && ascending n cx && ascending n cy then
            answer (with_field w f (VF m (vf_vx v) (vf_vy v) (Some (vf_vx v, vf_vy v)))) (vf_vx v) (vf_vy v)
          else (w, Raise ValueError)
      end).
  (* vec_field.py:74-77 lookup *)
  Definition lookup (f : nat) (x y : F) (w : world F) : world F * res (F * F) :=
    let (w, r) := interp_coords f [(x, y)] w in
    (w, let* r := r in
        match r with
        | (vx :: _, vy :: _) => Ok (vx, vy)
        | _ => Raise IndexError
        end).
  (* vec_field.py:79-82 transform_np_pts on points as pairs: the third row is dropped *)
  Definition vf_transform_np_pts (f : nat) (pts : list (F * F)) (w : world F) : world F * res (list (F * F)) :=
    let (w, r) := interp_coords f pts w in
    (w, let* r := r in
        Ok (map (fun pv => (fst (fst pv) + fst (snd pv), snd (fst pv) + snd (snd pv)))
                (combine pts (combine (fst r) (snd r))))).
  (* transform.py:83-86 Transformer.transform *)
  Definition vf_transform (f : nat) (x y : F) (w : world F) : world F * res (F * F) :=
    let (w, r) := vf_transform_np_pts f [(x, y)] w in
    (w, let* r := r in match r with p :: _ => Ok p | [] => Raise IndexError end).
  (* transform.py:88-93 Transformer.transform_width *)
  Definition vf_transform_width (f : nat) (width : F) (w : world F) : world F * res F :=
    let width := width * (nsqrt (#2) / #2) in
    let (w, r0) := vf_transform f (#0) (#0) w in
    match r0 with
    | Raise e => (w, Raise e)
    | Ok (zx, zy) =>
        let (w, r1) := vf_transform f width width w in
        (w, let* p := r1 in Ok (nhypot (fst p - zx) (snd p - zy)))
    end.
  (* transform.py:100-115 Transformer.transform_pts: each result is unpacked into three, and
     np.array([]).T has no second axis to slice *)
  Definition vf_transform_pts (f : nat) (pts : list (F * F)) (w : world F) : world F * res (list (F * F)) :=
    match pts with
    | [] => (w, Raise IndexError)
    | _ =>
        let (w, r) := vf_transform_np_pts f pts w in
        (w, let* r := r in match r with [] => Ok [] | _ => Raise ValueError end)
    end.
  (* vec_field.py:84-85 quiver: the arrows drawn, each as the place and the vector *)
  Definition quiver (w : world F) (v : vfield F) : list ((F * F) * (F * F)) :=
    map (fun ij => ((x_grid (vf_mesh v) (fst ij) (snd ij), y_grid (vf_mesh v) (fst ij) (snd ij)),
                    (arr_at w (vf_vx v) (fst ij) (snd ij), arr_at w (vf_vy v) (fst ij) (snd ij))))
        (cells (m_steps (vf_mesh v))).

  (* What a user may do: make fields, derive fields, look up, assign to the attributes vx and
     vy, and assign to entries of arrays. *)
  Inductive vop :=
  | OpZeros (m : mesh F)
  | OpOver (m : mesh F) (vx vy : nat)
  | OpCopy (f : nat) | OpNormalized (f : nat) | OpSmoothed (f : nat) | OpScaled (f : nat) (sx : F) (sy : option F)
  | OpInterp (f : nat) (pts : list (F * F))
  | OpSetX (f : nat) (l : nat) | OpSetY (f : nat) (l : nat)
  | OpPut (l : nat) (i j : nat) (v : F).
  (* there is an array with that number; operations on arrays that do not exist do nothing *)
  Definition has (w : world F) (l : nat) : bool := (l <? List.length (arrays w))%nat.
  Definition vstep (o : vop) (w : world F) : world F :=
    match o with
    | OpZeros m => fst (vf_zeros m w)
    | OpOver m vx vy => if has w vx && has w vy then fst (vf_over m vx vy w) else w
    | OpCopy f => fst (vf_copy f w)
    | OpNormalized f => fst (vf_normalized f w)
    | OpSmoothed f => fst (vf_smoothed f w)
    | OpScaled f sx sy => fst (vf_scaled f sx sy w)
    | OpInterp f pts => fst (interp_coords f pts w)
    | OpSetX f l => if negb (has w l) then w else fst (on f w (fun v => (with_field w f (VF (vf_mesh v) l (vf_vy v) (vf_interp v)), Ok tt)))
    | OpSetY f l => if negb (has w l) then w else fst (on f w (fun v => (with_field w f (VF (vf_mesh v) (vf_vx v) l (vf_interp v)), Ok tt)))
    | OpPut l i j v => World (replace (arrays w) l (aset (arr_at w l) i j v)) (fields w)
    end.
  Definition vrun (ops : list vop) (w : world F) : world F := fold_left (fun w o => vstep o w) ops w.
End Objects.
