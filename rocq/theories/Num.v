(** * Num: the number types a tensor can hold (types/type.go: Number)

    Every model function is generic in a number type [T] equipped with the
    operations the code uses.  No algebraic law is assumed here: theorems that
    need one say so.  [ndiv] is partial because dividing integers by zero
    panics in Go. *)
From Verif Require Import Base.
From Coq Require Import ZArith.

Class Num (T : Type) := {
  nzero : T;
  none : T;
  nadd : T -> T -> T;
  nsub : T -> T -> T;
  nmul : T -> T -> T;
  ndiv : T -> T -> option T;   (* None: integer division by zero *)
  nneg : T -> T;
  nltb : T -> T -> bool;
  neqb : T -> T -> bool;
  nofN : N -> T;               (* conversion T(n) of a non-negative int *)
}.

(** ** Go's signed integers of width [w] bits (int16, int32, int64, int) *)
Definition wrapZ (w : Z) (x : Z) : Z :=
  ((x + 2 ^ (w - 1)) mod 2 ^ w - 2 ^ (w - 1))%Z.

Definition NumInt (w : Z) : Num Z := {|
  nzero := 0%Z;
  none := 1%Z;
  nadd a b := wrapZ w (a + b);
  nsub a b := wrapZ w (a - b);
  nmul a b := wrapZ w (a * b);
  ndiv a b := if (b =? 0)%Z then None else Some (wrapZ w (Z.quot a b));
  nneg a := wrapZ w (- a);
  nltb := Z.ltb;
  neqb := Z.eqb;
  nofN n := wrapZ w (Z.of_N n);
|}.

Definition NumI16 : Num Z := NumInt 16.
Definition NumI32 : Num Z := NumInt 32.
Definition NumI64 : Num Z := NumInt 64.
