(** * NumFloat: float64 and float32, rounding to nearest even *)
From Verif Require Import Base Num ModelImg.
From Flocq Require Import IEEE754.BinarySingleNaN IEEE754.Binary IEEE754.Bits.

Definition less (c : option comparison) : bool := match c with Some Lt => true | _ => false end.
Definition same (c : option comparison) : bool := match c with Some Eq => true | _ => false end.
Definition Num64 : Num binary64 := {|
  nzero := f64_of_Z 0; none := f64_of_Z 1; nadd := f64_add; nsub := f64_sub; nmul := f64_mul; ndiv a b := Some (f64_div a b); nneg := b64_opp;
  nltb a b := less (b64_compare a b); neqb a b := same (b64_compare a b); nofN n := f64_of_Z (Z.of_N n) |}.
Definition f32_of_Z (z : Z) : binary32 := binary_normalize 24 128 eq_refl eq_refl mode_NE z 0 false.
Definition Num32 : Num binary32 := {|
  nzero := f32_of_Z 0; none := f32_of_Z 1; nadd := b32_plus mode_NE; nsub := b32_minus mode_NE; nmul := b32_mult mode_NE; ndiv a b := Some (b32_div mode_NE a b);
  nneg := b32_opp; nltb a b := less (b32_compare a b); neqb a b := same (b32_compare a b); nofN n := f32_of_Z (Z.of_N n) |}.

(** float32(f) *)
Definition f32_of_f64 (x : binary64) : binary32 :=
  match x with
  | B754_zero _ _ s => B754_zero 24 128 s
  | B754_infinity _ _ s => B754_infinity 24 128 s
  | B754_nan _ _ s _ _ => B754_nan 24 128 s 4194304 eq_refl
  | B754_finite _ _ s m e _ => binary_normalize 24 128 eq_refl eq_refl mode_NE (if s then Z.neg m else Z.pos m) e s
  end.
(** uint8(f): left open outside of the range *)
Definition u8_of_f64 (odd : binary64 -> N) (x : binary64) : N :=
  let z := Btrunc 53 1024 x in if is_finite 53 1024 x && (0 <=? z)%Z && (z <? 256)%Z then Z.to_N z else odd x.
Definition u8_of_f32 (odd : binary32 -> N) (x : binary32) : N :=
  let z := Btrunc 24 128 x in if is_finite 24 128 x && (0 <=? z)%Z && (z <? 256)%Z then Z.to_N z else odd x.
