(** * ModelRand: number/constructors.go and NewRand of tensor/constructor.go, one value

    float32 and float64 operations are those of Flocq, as in ModelF16.v. *)
From Verif Require Import Base.
From Flocq Require Import IEEE754.BinarySingleNaN IEEE754.Binary IEEE754.Bits.
From Verif Require Import Num NumIntS ModelF16 ModelImg.

(** What rand.Float64 returns: [k] / 2^53 with [k] below 2^53
    (float64(Int63n(1<<53)) / (1<<53) in math/rand). *)
Definition Float64 (k : Z) : binary64 := f64_div (f64_of_Z k) (f64_of_Z (2 ^ 53)).
(** number/constructors.go:25-29 ScalarRand for the types float64 and float32 *)
Definition ScalarRand64 (r min max : binary64) : binary64 := f64_add (f64_mul r (f64_sub max min)) min.
Definition ScalarRand32 (r : binary64) (min max : binary32) : binary32 :=
  b32_plus mode_NE (b32_mult mode_NE (b32_of_b64 r) (b32_minus mode_NE max min)) min.
(** and for integers: the conversion of [r] cuts off the fraction. *)
Definition ScalarRandInt {w} (H : (0 < w)%Z) (odd : binary64 -> Z) (r : binary64) (min max : intw w) : intw w :=
  let N := NumIntS w H in nadd (nmul (NumIntS.mk w H (int_of_f64 odd r)) (nsub max min)) min.
(** tensor/constructor.go:41: an element of NewRand, of type float64, float32 or an
    integer; the bounds are of type float64 *)
Definition RandElem64 (r min max : binary64) : binary64 := f64_add (f64_mul r (f64_sub max min)) min.
Definition RandElem32 (r min max : binary64) : binary32 := b32_of_b64 (f64_add (f64_mul r (f64_sub max min)) min).
