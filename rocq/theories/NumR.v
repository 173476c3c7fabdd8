(* The exact instance: Coq's real numbers. *)
From Coq Require Export Reals Lra.
From Coq Require Import R_Ifp.
Require Export Verif.Base.
Set Implicit Arguments.

Definition Rltb (x y : R) : bool := if Rlt_dec x y then true else false.
Definition Rleb (x y : R) : bool := if Rle_dec x y then true else false.
Definition Reqb (x y : R) : bool := if Req_EM_T x y then true else false.

#[global] Instance NumR : Num R := {|
  nofZ := IZR; nadd := Rplus; nsub := Rminus; nmul := Rmult; ndiv := Rdiv;
  nneg := Ropp; nabs := Rabs; neqb := Reqb; nltb := Rltb; nleb := Rleb |}.

(* hypot(x, y) is the Euclidean length *)
#[global] Instance RootR : NumRoot R := {|
  nsqrt := sqrt; nhypot := fun x y => sqrt (x * x + y * y) |}.

(* atan2(y, x) in (-pi, pi], atan2(0, 0) = 0, as documented for module math *)
Definition Ratan2 (y x : R) : R :=
  if Rlt_dec 0 x then atan (y / x)
  else if Rlt_dec x 0 then
         (if Rle_dec 0 y then atan (y / x) + PI else atan (y / x) - PI)
       else if Rlt_dec 0 y then PI / 2
            else if Rlt_dec y 0 then - (PI / 2) else 0.

#[global] Instance TrigR : NumTrig R := {|
  npi := PI; nsin := sin; ncos := cos; ntan := tan; natan2 := Ratan2 |}.

#[global] Instance FloorR : NumFloor R := {| nfloor := Int_part |}.
