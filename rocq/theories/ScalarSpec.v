(** * ScalarSpec: what mixed arithmetic of scalars should give

    [val], [dec16], [rnd16]: F16Proofs.v and F16Round.v; [rnd32], [rnd64]: rounding of
    a real number to the nearest float32 or float64, ties to even. *)
From Coq Require Import ZArith Bool Reals.
From Flocq Require Import Core.Core IEEE754.BinarySingleNaN IEEE754.Binary IEEE754.Bits.
From Verif Require Import ModelF16 ModelScalar F16Proofs F16Round F16Arith ImgFloat.
Open Scope Z_scope.

(** The datum a scalar is, as IEEE 754 sees it. *)
Definition datum (p : scal) : full_float := match p with F16v b => dec16 b | F32v x => B2FF 24 128 x | F64v x => B2FF 53 1024 x end.
Definition sound (p : scal) : Prop := match p with F16v b => 0 <= b < 2 ^ 16 | _ => True end.
Definition nbits (p : scal) : Z := match p with F16v _ => 16 | F32v _ => 32 | F64v _ => 64 end.
(** Rounding to the type of [p], and what its numbers stay below. *)
Definition near (p : scal) : R -> R := match p with F16v _ => rnd16 | F32v _ => rnd32 | F64v _ => rnd64 end.
Definition top (p : scal) : R := match p with F16v _ => bpow radix2 16 | F32v _ => bpow radix2 128 | F64v _ => bpow radix2 1024 end.
Definition exact (o : aop) (x y : R) : R := match o with OAdd => x + y | OSub => x - y | OMul => x * y | ODiv => x / y end.
(** The sign of the result, also of a zero: [s] and [t] are the signs of the
    operands. *)
Definition sign_for (o : aop) (r : R) (s t : bool) : bool :=
  match o with OAdd => sign_of r (s && t) | OSub => sign_of r (s && negb t) | OMul | ODiv => xorb s t end.
(** [q] is the real number [r] rounded once to the type of [p], with sign [s], or the
    infinity of that sign if it is too large. *)
Definition once (p : scal) (s : bool) (r : R) (q : scal) : Prop :=
  nbits q = nbits p /\ sound q /\
  if Rlt_bool (Rabs (near p r)) (top p)
  then finite (datum q) = true /\ sbit (datum q) = s /\ val (datum q) = near p r
  else datum q = F754_infinity s.
