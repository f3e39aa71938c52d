(** * NumReal: exact arithmetic on the real numbers *)
From Coq Require Import Reals.
From Verif Require Import Base Num.
Definition NumR : Num R := {|
  nzero := 0%R; none := 1%R; nadd := Rplus; nsub := Rminus; nmul := Rmult; ndiv a b := Some (a / b)%R; nneg := Ropp;
  nltb a b := if Rlt_dec a b then true else false; neqb a b := if Req_EM_T a b then true else false; nofN n := IZR (Z.of_N n) |}.
