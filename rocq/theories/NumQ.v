(** * NumQ: exact rational arithmetic as a number type

    Used to state what the code computes "in exact arithmetic".  Dividing by
    zero has no value. *)
From Verif Require Import Base Num.
From Coq Require Import QArith Qcanon.

Definition NumQc : Num Qc := {|
  nzero := 0%Qc;
  none := 1%Qc;
  nadd := Qcplus;
  nsub := Qcminus;
  nmul := Qcmult;
  ndiv a b := if Qc_eq_dec b 0%Qc then None else Some (Qcdiv a b);
  nneg := Qcopp;
  nltb a b := if Qclt_le_dec a b then true else false;
  neqb a b := if Qc_eq_dec a b then true else false;
  nofN n := Q2Qc (inject_Z (Z.of_N n));
|}.
