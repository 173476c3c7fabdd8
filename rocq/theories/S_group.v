(* Notions used in the statements about groups. *)
Require Import Verif.Base Verif.M_vector Verif.M_bbox Verif.M_transform Verif.M_bezier Verif.M_colors Verif.M_elems.
From Coq Require Import String List.
Import ListNotations.
Local Open Scope string_scope.
Local Open Scope list_scope.

(* ---------------- names ---------------- *)

Definition dotted_name (s : string) : Prop := exists a b, s = (a ++ "." ++ b)%string.
Definition keys {A} (l : list (string * A)) : list string := map fst l.
(* [s] is what follows the last dot of [n]; all of [n] when there is no dot *)
Definition last_part (n s : string) : Prop :=
  ~ dotted_name s /\ (n = s \/ exists a, n = (a ++ "." ++ s)%string).

(* the same element under another name *)
Definition renamed {F} (n : string) (e e' : elem F) : Prop :=
  let base b b' := b' = EB n (e_pb b) (e_closed b) (e_xform b) in
  match e, e' with
  | ELeaf b s, ELeaf b' s' => base b b' /\ s' = s
  | EGroup b h l p, EGroup b' h' l' p' => base b b' /\ h' = h /\ l' = l /\ p' = p
  | EHoles b o i, EHoles b' o' i' => base b b' /\ o' = o /\ i' = i
  | _, _ => False
  end.

(* a table of members: names pairwise different, without dots, and known to the members *)
Definition good_table {F} (t : list (string * elem F)) : Prop :=
  NoDup (keys t) /\
  forall k e, In (k, e) t -> ~ dotted_name k /\ e_name (e_base e) = k.

(* every table in a tree is good *)
Inductive tidy {F} : elem F -> Prop :=
| tidy_leaf b s : tidy (ELeaf b s)
| tidy_group b h l p : good_table l -> (forall k e, In (k, e) l -> tidy e) -> tidy (EGroup b h l p)
| tidy_holes b o i : tidy o -> (forall e, In e i -> tidy e) -> tidy (EHoles b o i).

(* [at_path g ks e]: following the names [ks] from the group [g] leads to [e] *)
Inductive at_path {F} : elem F -> list string -> elem F -> Prop :=
| at_member b h l p k e : In (k, e) l -> at_path (EGroup b h l p) [k] e
| at_below b h l p k g ks e : In (k, g) l -> at_path g ks e -> at_path (EGroup b h l p) (k :: ks) e.
(* the same, allowing no step at all *)
Definition reaches {F} (g : elem F) (ks : list string) (e : elem F) : Prop :=
  (ks = [] /\ e = g) \/ at_path g ks e.
Definition is_group {F} (e : elem F) : Prop := match e with EGroup _ _ _ _ => True | _ => False end.
Definition member_keys {F} (e : elem F) : list string :=
  match e with EGroup _ _ l _ => keys l | _ => [] end.
(* the names joined by dots *)
Definition dotted (ks : list string) : string := String.concat "." ks.

(* no ElemWithHoles in the tree *)
Inductive plain {F} : elem F -> Prop :=
| plain_leaf b s : plain (ELeaf b s)
| plain_group b h l p : (forall k e, In (k, e) l -> plain e) -> plain (EGroup b h l p).
(* no member has the empty name *)
Definition named {F} (g : elem F) : Prop := forall ks e, at_path g ks e -> ~ In "" ks.

(* ---------------- iteration ---------------- *)

(* the leaves in drawing order, each with the product of the matrices of everything
   around it, starting from [acc], and the number of elements around it *)
Fixpoint leaves {F} {NF : Num F} (e : elem F) (acc : mat F) (depth : nat) : list (elem F * mat F * nat) :=
  match e with
  | ELeaf _ _ => [(e, acc, depth)]
  | EGroup b _ l _ => flat_map (fun ke => leaves (snd ke) (mat_dot acc (tmat (e_xform b))) (S depth)) l
  | EHoles b o i => leaves o (mat_dot acc (tmat (e_xform b))) (S depth)
                    ++ flat_map (fun x => leaves x (mat_dot acc (tmat (e_xform b))) (S depth)) i
  end.
(* the names of the leaves of a tree without holes: the names on the way down *)
Fixpoint leaf_names {F} (e : elem F) : list (list string) :=
  match e with
  | ELeaf b _ => [[e_name b]]
  | EGroup b _ l _ => map (cons (e_name b)) (flat_map (fun ke => leaf_names (snd ke)) l)
  | EHoles _ _ _ => []
  end.

(* ---------------- replacing ---------------- *)

Section Replace.
  Context {F : Type}.
  Variable eqv : elem F -> bool.
  Variable repl : elem F.
  (* how many elements of the tree are to be replaced; what is replaced is not searched *)
  Fixpoint hits (e : elem F) : nat :=
    match e with
    | EGroup _ _ l _ => list_sum (map (fun ke => if eqv (snd ke) then 1 else hits (snd ke)) l)
    | _ => 0
    end.
  (* the tree afterwards: in every group the others stay in order and the replacement
     stands at the end *)
  Fixpoint replaced (e : elem F) : elem F :=
    match e with
    | EGroup b h l p =>
        EGroup b h
          (flat_map (fun ke => if eqv (snd ke) then [] else [(fst ke, replaced (snd ke))]) l
           ++ (if existsb (fun ke => eqv (snd ke)) l then [(e_name (e_base repl), repl)] else [])) p
    | _ => e
    end.
  Definition others (l : list (string * elem F)) := filter (fun ke => negb (eqv (snd ke))) l.
  (* replacing works: at most one match per group, no clash, no ElemWithHoles to search *)
  Inductive replaceable : elem F -> Prop :=
  | rp_leaf b s : replaceable (ELeaf b s)
  | rp_group b h l p :
      (forall k e, In (k, e) l -> eqv e = false -> replaceable e) ->
      (List.length (filter (fun ke => eqv (snd ke)) l) <= 1)%nat ->
      ((exists k e, In (k, e) l /\ eqv e = true) ->
         ~ In (e_name (e_base repl)) (keys (others l)) /\ ~ dotted_name (e_name (e_base repl))) ->
      replaceable (EGroup b h l p).
End Replace.
