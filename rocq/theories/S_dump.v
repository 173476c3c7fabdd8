(* Specification of reading a dump back: the part of Python that a dump is written in.
   [load text] is what the name [model] stands for after executing the text; None when Python
   would raise, or when the text goes beyond this part of Python. *)
Require Import Verif.Base Verif.M_vector Verif.M_bbox Verif.M_transform Verif.M_bezier Verif.M_colors
  Verif.M_elems Verif.M_group Verif.S_group Verif.M_dump.
From Coq Require Import String Ascii.
Local Open Scope list_scope.
Local Open Scope string_scope.

(* ---------------- tokens ---------------- *)

Inductive token := TName (s : string) | TNum (s : string) | TStr (s : string) | TOp (c : ascii) | TNewline.
Inductive mode :=
| Idle | InName (s : string) | InNum (s : string)
| InStr (q : ascii) (s : string) | InEsc (q : ascii) (s : string)
| InHex (q : ascii) (s : string) | InHex2 (q : ascii) (s : string) (n : nat).
(* the tokens so far, latest first; open brackets; at the beginning of a line *)
Record lexer := Lexer { l_toks : list token; l_mode : mode; l_depth : nat; l_bol : bool }.

Definition is_digit (c : ascii) : bool := let n := nat_of_ascii c in (48 <=? n)%nat && (n <=? 57)%nat.
Definition is_letter (c : ascii) : bool :=
  let n := nat_of_ascii c in
  ((65 <=? n)%nat && (n <=? 90)%nat) || ((97 <=? n)%nat && (n <=? 122)%nat) || (n =? 95)%nat.
Definition is_in (c : ascii) (s : string) : bool := existsb (Ascii.eqb c) (list_ascii_of_string s).
Definition add (s : string) (c : ascii) : string := s ++ String c "".
Definition last_char (s : string) : option ascii := last (map Some (list_ascii_of_string s)) None.
Definition after_e (s : string) : bool :=
  match last_char s with Some c => is_in c "eE" | None => false end.
Definition hexval (c : ascii) : option nat :=
  let n := nat_of_ascii c in
  if is_digit c then Some (n - 48)%nat
  else if (97 <=? n)%nat && (n <=? 102)%nat then Some (n - 87)%nat
  else if (65 <=? n)%nat && (n <=? 70)%nat then Some (n - 55)%nat
  else None.

Definition step_idle (l : lexer) (c : ascii) : option lexer :=
  let n := nat_of_ascii c in
  let go m := Some (Lexer (l_toks l) m (l_depth l) false) in
  if (n =? 32)%nat then                                            (* space *)
    if l_bol l && (l_depth l =? 0)%nat then None else Some l
  else if (n =? 10)%nat then                                       (* newline *)
    if (l_depth l =? 0)%nat
    then Some (Lexer (if l_bol l then l_toks l else TNewline :: l_toks l) Idle 0 true)
    else Some l
  else if is_letter c then go (InName (String c ""))
  else if is_digit c then go (InNum (String c ""))
  else if (n =? 34)%nat || (n =? 39)%nat then go (InStr c "")
  else if is_in c "([{" then Some (Lexer (TOp c :: l_toks l) Idle (S (l_depth l)) false)
  else if is_in c ")]}" then
    match l_depth l with O => None | S k => Some (Lexer (TOp c :: l_toks l) Idle k false) end
  else if is_in c ",=-.*:" then Some (Lexer (TOp c :: l_toks l) Idle (l_depth l) false)
  else None.

(* the token being read is complete *)
Definition flush (l : lexer) : lexer :=
  match l_mode l with
  | InName s => Lexer (TName s :: l_toks l) Idle (l_depth l) false
  | InNum s => Lexer (TNum s :: l_toks l) Idle (l_depth l) false
  | _ => l
  end.
Definition step (l : lexer) (c : ascii) : option lexer :=
  let n := nat_of_ascii c in
  let go m := Some (Lexer (l_toks l) m (l_depth l) false) in
  match l_mode l with
  | Idle => step_idle l c
  | InName s => if is_letter c || is_digit c then go (InName (add s c)) else step_idle (flush l) c
  | InNum s =>
      if is_letter c || is_digit c || (n =? 46)%nat || (is_in c "+-" && after_e s)
      then go (InNum (add s c)) else step_idle (flush l) c
  | InStr q s =>
      if Ascii.eqb c q then Some (Lexer (TStr s :: l_toks l) Idle (l_depth l) false)
      else if (n =? 92)%nat then go (InEsc q s)
      else if (n =? 10)%nat then None
      else go (InStr q (add s c))
  | InEsc q s =>
      if is_in c "\'""" then go (InStr q (add s c))
      else if Ascii.eqb c "n" then go (InStr q (add s (ascii_of_nat 10)))
      else if Ascii.eqb c "r" then go (InStr q (add s (ascii_of_nat 13)))
      else if Ascii.eqb c "t" then go (InStr q (add s (ascii_of_nat 9)))
      else if Ascii.eqb c "x" then go (InHex q s)
      else None
  | InHex q s => match hexval c with Some n => go (InHex2 q s n) | None => None end
  | InHex2 q s m => match hexval c with Some n => go (InStr q (add s (ascii_of_nat (16 * m + n)))) | None => None end
  end.
Fixpoint lexes (l : lexer) (s : string) : option lexer :=
  match s with
  | EmptyString => Some l
  | String c s' => match step l c with Some l' => lexes l' s' | None => None end
  end.
Definition lex (s : string) : option (list token) :=
  match lexes (Lexer [] Idle 0 true) s with
  | None => None
  | Some l =>
      let l := flush l in
      match l_mode l with
      | Idle => if (l_depth l =? 0)%nat then Some (rev (if l_bol l then l_toks l else TNewline :: l_toks l)) else None
      | _ => None
      end
  end.

(* ---------------- expressions and statements ---------------- *)

(* arguments are given by position or by keyword; [ENum true s] is -s *)
Inductive pexpr :=
| ENum (neg : bool) (s : string) | EStr (s : string) | EName (s : string)
| ECall (f : string) (args : list (option string * pexpr))
| EList (l : list pexpr) | ETuple (l : list pexpr).

Definition no_kw (l : list (option string * pexpr)) : option (list pexpr) :=
  if forallb (fun a => match fst a with None => true | Some _ => false end) l then Some (map snd l) else None.

(* the items up to the closing bracket, and whether the last is followed by a comma *)
Fixpoint parse_expr (fuel : nat) (ts : list token) : option (pexpr * list token) :=
  match fuel with
  | O => None
  | S fuel =>
      match ts with
      | TName f :: TOp "(" :: r =>
          match parse_items fuel ")" r with Some (l, _, r) => Some (ECall f l, r) | None => None end
      | TName n :: r => Some (EName n, r)
      | TNum s :: r => Some (ENum false s, r)
      | TOp "-" :: TNum s :: r => Some (ENum true s, r)
      | TStr s :: TStr _ :: _ => None
      | TStr s :: r => Some (EStr s, r)
      | TOp "(" :: r =>
          match parse_items fuel ")" r with
          | Some (l, comma, r) =>
              match no_kw l with
              | Some [e] => Some (if comma then ETuple [e] else e, r)
              | Some l => Some (ETuple l, r)
              | None => None
              end
          | None => None
          end
      | TOp "[" :: r =>
          match parse_items fuel "]" r with
          | Some (l, _, r) => match no_kw l with Some l => Some (EList l, r) | None => None end
          | None => None
          end
      | _ => None
      end
  end
with parse_items (fuel : nat) (close : ascii) (ts : list token)
  : option (list (option string * pexpr) * bool * list token) :=
  match fuel with
  | O => None
  | S fuel =>
      let item :=
        let (k, r) := match ts with TName k :: TOp "=" :: r => (Some k, r) | _ => (None, ts) end in
        match parse_expr fuel r with
        | Some (e, TOp c :: r) =>
            if Ascii.eqb c close then Some ([(k, e)], false, r)
            else if Ascii.eqb c "," then
              match parse_items fuel close r with
              | Some (l, comma, r) => Some ((k, e) :: l, match l with [] => true | _ => comma end, r)
              | None => None
              end
            else None
        | _ => None
        end in
      match ts with
      | TOp c :: r => if Ascii.eqb c close then Some ([], false, r) else item
      | _ => item
      end
  end.

(* [from a.b import *] and [name = expression] *)
Fixpoint skip_dotted (fuel : nat) (ts : list token) : option (list token) :=
  match fuel, ts with
  | S fuel, TName _ :: TOp "." :: r => skip_dotted fuel r
  | _, TName _ :: r => Some r
  | _, _ => None
  end.
Fixpoint parse_program (fuel : nat) (ts : list token) : option (list (string * pexpr)) :=
  match fuel with
  | O => None
  | S fuel =>
      match ts with
      | [] => Some []
      | TName "from" :: r =>
          match skip_dotted fuel r with
          | Some (TName "import" :: TOp "*" :: TNewline :: r) => parse_program fuel r
          | _ => None
          end
      | TName v :: TOp "=" :: r =>
          match parse_expr fuel r with
          | Some (e, TNewline :: r) =>
              match parse_program fuel r with Some l => Some ((v, e) :: l) | None => None end
          | _ => None
          end
      | _ => None
      end
  end.

(* ---------------- values ---------------- *)

Section All.
  Context {A B : Type}.
  Variable f : A -> option B.
  Fixpoint all (l : list A) : option (list B) :=
    match l with
    | [] => Some []
    | a :: l' => match f a, all l' with Some b, Some bs => Some (b :: bs) | _, _ => None end
    end.
End All.

Section Values.
  Context {F : Type} {NF : Num F}.
  Variable num_of : string -> option F.        (* the value of a number literal *)

  Inductive value :=
  | VNum (x : F) | VStr (s : string) | VNone | VBool (b : bool)
  | VTuple (l : list value) | VList (l : list value)
  | VPoint (p : pt F) | VVec (v : vec F) | VCp (c : cpoint F)
  | VBrush (b : brush F) | VPen (p : pen F) | VPenBrush (p : penbrush F) | VXf (t : transform F)
  | VElem (e : elem F).

  Definition as_num (v : value) : option F := match v with VNum x => Some x | _ => None end.
  Definition as_cp (v : value) : option (cpoint F) := match v with VCp c => Some c | _ => None end.
  Definition as_elem (v : value) : option (elem F) := match v with VElem e => Some e | _ => None end.
  Definition as_color (v : value) : option (color F) :=
    match v with
    | VStr s => Some (CStr s)
    | VNum x => Some (CNum x)
    | VTuple l => match all as_num l with Some l => Some (CTuple l) | None => None end
    | _ => None
    end.
  Definition as_brush (v : value) : option (brush F) :=
    match v with
    | VBrush b => Some b
    | _ => match as_color v with Some c => Some (Brush c) | None => None end
    end.
  Definition ok {A} (r : res A) : option A := match r with Ok a => Some a | Raise _ => None end.

  (* how arguments meet parameters: by position first, then by keyword *)
  Definition arg := (option string * value)%type.
  Fixpoint positional (l : list arg) : list value :=
    match l with (None, v) :: l' => v :: positional l' | _ => [] end.
  Fixpoint keywords (l : list arg) : option (list (string * value)) :=
    match l with
    | [] => Some []
    | (Some k, v) :: l' => match keywords l' with Some r => Some ((k, v) :: r) | None => None end
    | (None, _) :: _ => None            (* positional argument follows keyword argument *)
    end.
  Fixpoint distinct (l : list string) : bool :=
    match l with [] => true | s :: l' => negb (existsb (String.eqb s) l') && distinct l' end.
  Definition bind_args (params : list string) (l : list arg) : option (list (option value)) :=
    let p := positional l in
    let n := List.length p in
    match keywords (skipn n l) with
    | None => None
    | Some kw =>
        if (n <=? List.length params)%nat && distinct (map fst kw)
           && forallb (fun k => existsb (String.eqb k) (skipn n params)) (map fst kw)
        then Some (map Some p ++ map (fun k => find_key k kw) (skipn n params))%list
        else None
    end.

  (* xform=None and a missing xform are the same *)
  Definition opt_xf (v : option value) : option (option (transform F)) :=
    match v with
    | None | Some VNone => Some None
    | Some (VXf t) => Some (Some t)
    | _ => None
    end.
  Definition opt_bool (default : bool) (v : option value) : option bool :=
    match v with None => Some default | Some (VBool b) => Some b | _ => None end.

  Definition leaf_of (n : string) (pb : penbrush F) (closed : bool) (x : option (transform F)) (s : shape F) : option value :=
    match ok (mk_base n pb closed x) with Some b => Some (VElem (ELeaf b s)) | None => None end.
  (* two-corner shapes assert closed: model.py:556 *)
  Definition box_of (n : string) (pb : penbrush F) (closed x : option value) (s : shape F) : option value :=
    match opt_bool true closed, opt_xf x with
    | Some true, Some x => leaf_of n pb true x s
    | _, _ => None
    end.

  (* the constructors: geom.py:74, 431, bezier.py:23, colors.py:35, 56, 74, transform.py:119,
     model.py:362, 554, 634, 730, 788, 817, 1016 *)
  Definition call (f : string) (l : list arg) : option value :=
    if f =? "Point" then
      match bind_args ["x"; "y"; "name"] l with
      | Some [Some (VNum x); Some (VNum y); (None | Some VNone)] => Some (VPoint (P x y))
      | _ => None
      end
    else if f =? "Vector" then
      match bind_args ["x"; "y"] l with
      | Some [Some (VNum x); Some (VNum y)] => Some (VVec (V x y))
      | _ => None
      end
    else if f =? "ControlPoint" then
      match bind_args ["c"; "dl"; "dr"; "kind"] l with
      | Some [Some (VPoint c); Some (VVec dl); Some (VVec dr); Some (VStr k)] => Some (VCp (CP c dl dr k))
      | _ => None
      end
    else if f =? "Brush" then
      match bind_args ["color"] l with
      | Some [Some v] => match as_color v with Some c => Some (VBrush (Brush c)) | None => None end
      | _ => None
      end
    else if f =? "Pen" then
      match bind_args ["brush"; "width"] l with
      | Some [Some v; Some (VNum w)] => match as_brush v with Some b => Some (VPen (Pen b w)) | None => None end
      | _ => None
      end
    else if f =? "PenBrush" then
      match bind_args ["pen"; "brush"] l with
      | Some [Some p; b] =>
          match p, b with
          | VNone, (None | Some VNone) => Some (VPenBrush (mk_penbrush None None))
          | VNone, Some (VBrush b) => Some (VPenBrush (mk_penbrush None (Some (BAObj b))))
          | VPen p, (None | Some VNone) => Some (VPenBrush (mk_penbrush (Some (PAObj p)) None))
          | VPen p, Some (VBrush b) => Some (VPenBrush (mk_penbrush (Some (PAObj p)) (Some (BAObj b))))
          | _, _ => None
          end
      | _ => None
      end
    else if f =? "Transform" then
      match bind_args ["mat2x3"] l with
      | Some [Some (VTuple l)] =>
          match all as_num l with
          | Some [a; b; c; d; e; f] => Some (VXf (t_new6 a b c d e f))
          | _ => None
          end
      | _ => None
      end
    else if f =? "ElemCurve" then
      match bind_args ["name"; "penbrush"; "control_points"; "closed"; "xform"] l with
      | Some [Some (VStr n); Some (VPenBrush pb); Some (VList cps); closed; x] =>
          match all as_cp cps, opt_bool true closed, opt_xf x with
          | Some cps, Some closed, Some x => leaf_of n pb closed x (SCurve cps)
          | _, _, _ => None
          end
      | _ => None
      end
    else if f =? "ElemRectangle" then
      match bind_args ["name"; "penbrush"; "p1"; "p2"; "closed"; "xform"] l with
      | Some [Some (VStr n); Some (VPenBrush pb); Some (VPoint p); Some (VPoint q); closed; x] => box_of n pb closed x (SRect p q)
      | _ => None
      end
    else if f =? "ElemRectangleRounded" then
      match bind_args ["name"; "penbrush"; "p1"; "p2"; "radius"; "closed"; "xform"] l with
      | Some [Some (VStr n); Some (VPenBrush pb); Some (VPoint p); Some (VPoint q); Some (VNum r); closed; x] => box_of n pb closed x (SRRect p q r)
      | _ => None
      end
    else if f =? "ElemEllipse" then
      match bind_args ["name"; "penbrush"; "p1"; "p2"; "closed"; "xform"] l with
      | Some [Some (VStr n); Some (VPenBrush pb); Some (VPoint p); Some (VPoint q); closed; x] => box_of n pb closed x (SEllipse p q)
      | _ => None
      end
    else if f =? "Group" then
      match bind_args ["name"; "penbrush"; "hidden"; "xform"; "elems"; "points"; "closed"; "fix_names"] l with
      | Some [Some (VStr n); Some (VPenBrush pb); hidden; x; Some (VList es); None; closed; fixn] =>
          match opt_bool false hidden, opt_xf x, all as_elem es, opt_bool false closed, opt_bool false fixn with
          | Some hidden, Some x, Some es, Some closed, Some fixn =>
              match ok (mk_group n pb hidden x es [] closed fixn) with Some e => Some (VElem e) | None => None end
          | _, _, _, _, _ => None
          end
      | _ => None
      end
    else if f =? "ElemWithHoles" then
      match bind_args ["name"; "penbrush"; "outside"; "inside"; "closed"; "xform"] l with
      | Some [Some (VStr n); Some (VPenBrush pb); Some (VElem o); Some (VList es); closed; x] =>
          match all as_elem es, opt_bool true closed, opt_xf x with
          | Some es, Some closed, Some x =>
              match ok (mk_holes n pb o es closed x) with Some e => Some (VElem e) | None => None end
          | _, _, _ => None
          end
      | _ => None
      end
    else None.

  (* a variable of the program hides a class of the same name *)
  Fixpoint eval (env : list (string * value)) (e : pexpr) : option value :=
    match e with
    | ENum neg s =>
        match num_of s with Some x => Some (VNum (if neg then nneg x else x)) | None => None end
    | EStr s => Some (VStr s)
    | EName s =>
        if s =? "None" then Some VNone
        else if s =? "True" then Some (VBool true)
        else if s =? "False" then Some (VBool false)
        else find_key s env
    | ECall f args =>
        if has_key f env then None
        else match all (fun a => match eval env (snd a) with Some v => Some (fst a, v) | None => None end) args with
             | Some l => call f l
             | None => None
             end
    | EList l => match all (eval env) l with Some l => Some (VList l) | None => None end
    | ETuple l => match all (eval env) l with Some l => Some (VTuple l) | None => None end
    end.
  (* later assignments to a name hide earlier ones *)
  Fixpoint exec (env : list (string * value)) (l : list (string * pexpr)) : option (list (string * value)) :=
    match l with
    | [] => Some env
    | (v, e) :: l' => match eval env e with Some x => exec ((v, x) :: env) l' | None => None end
    end.

  Definition load (text : string) : option (elem F) :=
    match lex text with
    | None => None
    | Some ts =>
        match parse_program (List.length ts + 1) ts with
        | None => None
        | Some l =>
            match exec [] l with
            | Some env => match find_key "model" env with Some (VElem e) => Some e | _ => None end
            | None => None
            end
        end
    end.
End Values.

(* ---------------- what the number texts are ---------------- *)

(* an optional minus sign and a literal that Python reads as one number token *)
Definition literal (s : string) : Prop :=
  (exists c s', s = String c s' /\ is_digit c = true) /\
  forall ts k b, lexes (Lexer ts Idle k b) s = Some (Lexer ts (InNum s) k false).
Definition reads_back_on {F} {NF : Num F} (dom : F -> Prop) (show : F -> string) (num_of : string -> option F) : Prop :=
  forall x, dom x -> (literal (show x) /\ num_of (show x) = Some x) \/
    exists s y, show x = String "-" s /\ literal s /\ num_of s = Some y /\ nneg y = x.
Definition reads_back {F} {NF : Num F} (show : F -> string) (num_of : string -> option F) : Prop :=
  reads_back_on (fun _ => True) show num_of.

(* ---------------- which elements can be read back, and as what ---------------- *)

Section Reload.
  Context {F : Type} {NF : Num F}.

  (* what the constructors and Group.add see to: a filled element is closed, boxes are closed,
     members are filed under their own names, which differ and have no dots.  Elements with
     holes are left out (see C68_holes_refuted). *)
  Definition sound_base (b : ebase F) : Prop := pb_filled (e_pb b) = true -> e_closed b = true.
  Fixpoint dumpable (e : elem F) : Prop :=
    match e with
    | ELeaf b s => sound_base b /\ match s with SCurve _ => True | _ => e_closed b = true end
    | EGroup b _ l _ =>
        sound_base b /\ NoDup (keys l) /\
        fold_right and True (map (fun ke => fst ke = elem_name (snd ke) /\ has_dot (fst ke) = false /\ dumpable (snd ke)) l)
    | EHoles _ _ _ => False
    end.

  (* all numbers of an element, of its members and of its pens and transforms are in [dom]; the
     last row of a matrix and the points of a group are not written *)
  Section Numbers.
    Variable dom : F -> Prop.
    Definition pt_in (p : pt F) : Prop := dom (px p) /\ dom (py p).
    Definition vec_in (v : vec F) : Prop := dom (vx v) /\ dom (vy v).
    Definition cp_in (c : cpoint F) : Prop := pt_in (cc c) /\ vec_in (cdl c) /\ vec_in (cdr c).
    Definition color_in (c : color F) : Prop := match c with CStr _ => True | CNum n => dom n | CTuple l => Forall dom l end.
    Definition pen_in (p : pen F) : Prop := color_in (bcolor (pbrush p)) /\ dom (pwidth p).
    Definition pb_in (p : penbrush F) : Prop :=
      match pb_pen p with Some p => pen_in p | None => True end /\ match pb_brush p with Some b => color_in (bcolor b) | None => True end.
    Definition xf_in (t : transform F) : Prop :=
      let m := tmat t in Forall dom [m00 m; m01 m; m02 m; m10 m; m11 m; m12 m].
    Definition shape_in (s : shape F) : Prop :=
      match s with
      | SCurve l => Forall cp_in l
      | SRect p q | SEllipse p q => pt_in p /\ pt_in q
      | SRRect p q r => pt_in p /\ pt_in q /\ dom r
      end.
    Definition base_in (b : ebase F) : Prop := pb_in (e_pb b) /\ xf_in (e_xform b).
    Fixpoint elem_in (e : elem F) : Prop :=
      match e with
      | ELeaf b s => base_in b /\ shape_in s
      | EGroup b _ l _ => base_in b /\ fold_right and True (map (fun ke => elem_in (snd ke)) l)
      | EHoles b o i => base_in b /\ elem_in o /\ fold_right and True (map elem_in i)
      end.
  End Numbers.

  (* the matrix is written without its last row, and not at all when it is the identity *)
  Definition reload_xf (t : transform F) : transform F :=
    if t_eqb t t_new then t_new
    else let m := tmat t in t_new6 (m00 m) (m01 m) (m02 m) (m10 m) (m11 m) (m12 m).
  Definition reload_base (b : ebase F) : ebase F := EB (e_name b) (e_pb b) (e_closed b) (reload_xf (e_xform b)).
  (* a group comes back visible, without its points and with its members in name order *)
  Fixpoint reloaded (e : elem F) : elem F :=
    match e with
    | ELeaf b s => ELeaf (reload_base b) s
    | EGroup b _ l _ => EGroup (reload_base b) false (sorted by_name (map (fun ke => (fst ke, reloaded (snd ke))) l)) []
    | EHoles _ _ _ => e
    end.

  (* the outside of every element with holes in the tree is a simple element *)
  Fixpoint simple_outsides (e : elem F) : Prop :=
    match e with
    | ELeaf _ _ => True
    | EGroup _ _ l _ => fold_right and True (map (fun ke => simple_outsides (snd ke)) l)
    | EHoles _ o i => match o with ELeaf _ _ => True | _ => False end /\ fold_right and True (map simple_outsides i)
    end.
  (* an element with holes is in the tree *)
  Fixpoint holed (e : elem F) : bool :=
    match e with
    | ELeaf _ _ => false
    | EGroup _ _ l _ => existsb (fun ke => holed (snd ke)) l
    | EHoles _ _ _ => true
    end.
End Reload.

(* ---------------- histories of a DumpContext ---------------- *)

(* the calls a user can make; Enter and Exit are the two ends of [with context:] *)
Inductive call_op :=
| OSet (value prefix : string) | OAppend (line : string) | OExtend (l : list string)
| OImports (l : list string) | OEnter | OExit | OComma | OOutput.
(* the context afterwards, and the variable names returned so far with what they stand for *)
Definition do_op (st : dump * list (string * string)) (o : call_op) : dump * list (string * string) :=
  let (d, names) := st in
  match o with
  | OSet r p => let (d', n) := set_var r p d in (d', names ++ [(r, n)])%list
  | OAppend s => (d_append s d, names)
  | OExtend l => (d_extend l d, names)
  | OImports l => (add_imports l d, names)
  | OEnter => (set_depth (S (d_depth d)) d, names)
  | OExit => (set_depth (pred (d_depth d)) d, names)
  | OComma => (match add_comma d with Ok d' => d' | Raise _ => d end, names)
  | OOutput => (fst (output d), names)
  end.
Definition history (use_vars : bool) (l : list call_op) : dump * list (string * string) :=
  fold_left do_op l (dump_new use_vars, []).

(* ---------------- the layout of a dump ---------------- *)

Fixpoint ends_with (suffix s : string) : bool :=
  (s =? suffix)%string || match s with EmptyString => false | String _ s' => ends_with suffix s' end.
(* s without its leading spaces *)
Fixpoint strip (s : string) : string :=
  match s with String c s' => if Ascii.eqb c " " then strip s' else s | EmptyString => s end.
Definition opens (s : string) : bool := ends_with "=[" s.
Definition closes (s : string) : bool := (strip s =? "])") || (strip s =? "]),").
Definition count (f : string -> bool) (l : list string) : nat := List.length (filter f l).
Definition deeper (s : string) : string := "    " ++ s.
(* a comma after the last line *)
Fixpoint comma_last (l : list string) : list string :=
  match l with [] => [] | [s] => [s ++ ","] | s :: l' => s :: comma_last l' end.

(* [layout show e lines]: the lines of the dump of [e] outside everything else.  A header, what
   is inside one level deeper with a comma after each part, and a closing line; or one line. *)
Inductive layout {F : Type} (show : F -> string) : elem F -> list string -> Prop :=
| LBox b s line : match s with SCurve _ => False | _ => True end -> strip line = line -> ends_with ")" line = true ->
    closes line = false -> layout show (ELeaf b s) [line]
| LCurve b l hd : strip hd = hd -> opens hd = true ->
    layout show (ELeaf b (SCurve l)) (hd :: map (fun c => deeper (repr_cp show c ++ ",")) l ++ ["])"])%list
| LGroup b h l p hd parts : strip hd = hd -> opens hd = true -> layouts show (map snd (sorted by_name l)) parts ->
    layout show (EGroup b h l p) (hd :: map deeper (List.concat (map comma_last parts)) ++ ["])"])%list
| LHoles b o i hd parts : strip hd = hd -> opens hd = true -> layouts show i parts ->
    layout show (EHoles b o i) (hd :: map deeper (List.concat (map comma_last parts)) ++ ["])"])%list
with layouts {F : Type} (show : F -> string) : list (elem F) -> list (list string) -> Prop :=
| LNil : layouts show [] []
| LCons e es lines parts : layout show e lines -> layouts show es parts -> layouts show (e :: es) (lines :: parts).
