(** * ModelF16: scalar/f16.go, and the comparisons of scalar/f32.go, f64.go

    uint16 and uint32 values are integers; wrap-around is written out.  Go's
    float32 and float64 arithmetic and comparison are IEEE 754 operations,
    taken from Flocq (round to nearest even). *)
From Coq Require Import ZArith Bool.
From Flocq Require Import IEEE754.BinarySingleNaN IEEE754.Binary IEEE754.Bits.
Open Scope Z_scope.

Definition u16 (z : Z) : Z := z mod 2 ^ 16.
Definition u32 (z : Z) : Z := z mod 2 ^ 32.

(** scalar/f16.go:113-116: [for coef&0x7f800000 == 0 { coef <<= 1; exp-- }];
    [fuel] bounds the number of rounds (the theorems show that it suffices). *)
Fixpoint normalize (fuel : nat) (coef exp : Z) : Z * Z :=
  match fuel with
  | O => (coef, exp)
  | S f =>
      if Z.land coef 0x7f800000 =? 0
      then normalize f (u32 (Z.shiftl coef 1)) (u32 (exp - 1))
      else (coef, exp)
  end.

(** scalar/f16.go:88-121 f16bitsToF32bits *)
Definition f16bitsToF32bits (in_ : Z) : Z :=
  let sign := u32 (Z.shiftl (Z.land in_ 0x8000) 16) in
  let exp := Z.shiftr (Z.land in_ 0x7c00) 10 in
  let coef := u32 (Z.shiftl (Z.land in_ 0x03ff) 13) in
  let pack exp coef :=
    Z.lor (Z.lor sign (u32 (Z.shiftl (u32 (exp + (0x7f - 0xf))) 23))) coef in
  if exp =? 0x1f then
    if coef =? 0 then Z.lor (Z.lor sign 0x7f800000) coef
    else Z.lor (Z.lor sign 0x7fc00000) coef
  else if exp =? 0 then
    if coef =? 0 then sign
    else let '(coef, exp) := normalize 32 coef (u32 (exp + 1)) in
         pack exp (Z.land coef 0x007fffff)
  else pack exp coef.

(** scalar/f16.go:125-172 f32bitsToF16bits *)
Definition f32bitsToF16bits (v : Z) : Z :=
  let sign := Z.land v 0x80000000 in
  let exp := Z.land v 0x7f800000 in
  let coef := Z.land v 0x007fffff in
  if exp =? 0x7f800000 then
    let nanBit := if negb (coef =? 0) then 0x0200 else 0 in
    u16 (Z.lor (Z.lor (Z.lor (Z.shiftr sign 16) 0x7c00) nanBit) (Z.shiftr coef 13))
  else
    let halfSign := Z.shiftr sign 16 in
    let unbiasedExp := Z.shiftr exp 23 - 127 in
    let halfExp := unbiasedExp + 15 in
    if 0x1f <=? halfExp then u16 (Z.lor halfSign 0x7c00)
    else if halfExp <=? 0 then
      if 24 <? 14 - halfExp then u16 halfSign
      else
        let c := Z.lor coef 0x00800000 in
        let halfCoef := Z.shiftr c (14 - halfExp) in
        let roundBit := u32 (Z.shiftl 1 (13 - halfExp)) in
        let halfCoef :=
          if negb (Z.land c roundBit =? 0) && negb (Z.land c (u32 (3 * roundBit - 1)) =? 0)
          then u32 (halfCoef + 1) else halfCoef in
        u16 (Z.lor halfSign halfCoef)
    else
      let uHalfExp := u32 (Z.shiftl halfExp 10) in
      let halfCoef := Z.shiftr coef 13 in
      let roundBit := 0x1000 in
      if negb (Z.land coef roundBit =? 0) && negb (Z.land coef (3 * roundBit - 1) =? 0)
      then u16 (u32 (Z.lor (Z.lor halfSign uHalfExp) halfCoef + 1))
      else u16 (Z.lor (Z.lor halfSign uHalfExp) halfCoef).

(** scalar/f16.go:22-25 G32 (math.Float32frombits) and 13-15 F16fromF32
    (math.Float32bits); an F16 is its 16 bits. *)
Definition G32 (p : Z) : binary32 := b32_of_bits (f16bitsToF32bits p).
Definition F16fromF32 (v : binary32) : Z := f32bitsToF16bits (bits_of_b32 v).

(** scalar/f16.go:44-58; the argument is another F16.  SelfAdd etc. (60-75)
    store the same value. *)
Definition F16_Add (p v : Z) : Z := F16fromF32 (b32_plus mode_NE (G32 p) (G32 v)).
Definition F16_Sub (p v : Z) : Z := F16fromF32 (b32_minus mode_NE (G32 p) (G32 v)).
Definition F16_Mul (p v : Z) : Z := F16fromF32 (b32_mult mode_NE (G32 p) (G32 v)).
Definition F16_Div (p v : Z) : Z := F16fromF32 (b32_div mode_NE (G32 p) (G32 v)).

(** scalar/scalar.go:3-9 *)
Inductive CmpRes := CmpL | CmpE | CmpG.

(** Go's [a < b] on floats: false when either is NaN. *)
Definition b32_lt (a b : binary32) : bool := match b32_compare a b with Some Lt => true | _ => false end.
Definition b64_lt (a b : binary64) : bool := match b64_compare a b with Some Lt => true | _ => false end.

(** scalar/f32.go:42-50 Cmp; [a > b] is [b < a] *)
Definition F32_Cmp (p v : binary32) : CmpRes :=
  if b32_lt p v then CmpL else if b32_lt v p then CmpG else CmpE.
(** scalar/f64.go:42-50 Cmp *)
Definition F64_Cmp (p v : binary64) : CmpRes :=
  if b64_lt p v then CmpL else if b64_lt v p then CmpG else CmpE.
(** scalar/f16.go:77-85 Cmp *)
Definition F16_Cmp (p v : Z) : CmpRes := F32_Cmp (G32 p) (G32 v).

(** Go's conversion float32(v) of a float64: round to nearest even.  Which
    quiet NaN a NaN becomes is not specified; the model takes the default one. *)
Definition b32_of_b64 (v : binary64) : binary32 :=
  match v with
  | B754_zero _ _ s => B754_zero 24 128 s
  | B754_infinity _ _ s => B754_infinity 24 128 s
  | B754_nan _ _ _ _ _ => proj1_sig default_nan_pl32
  | B754_finite _ _ s m e _ => binary_normalize 24 128 eq_refl eq_refl mode_NE (SpecFloat.cond_Zopp s (Z.pos m)) e s
  end.
(** Go's conversion float64(v) of a float32: exact. *)
Definition b64_of_b32 (v : binary32) : binary64 :=
  match v with
  | B754_zero _ _ s => B754_zero 53 1024 s
  | B754_infinity _ _ s => B754_infinity 53 1024 s
  | B754_nan _ _ _ _ _ => proj1_sig default_nan_pl64
  | B754_finite _ _ s m e _ => binary_normalize 53 1024 eq_refl eq_refl mode_NE (SpecFloat.cond_Zopp s (Z.pos m)) e s
  end.
(** scalar/f16.go:17-19 F16fromF64, 36-38 S64 *)
Definition F16fromF64 (v : binary64) : Z := F16fromF32 (b32_of_b64 v).
(** scalar/f32.go:45-53 and f64.go:44-52 when the argument has the other type
    (f64.go:23 G32, f32.go:24 G64). *)
Definition F32_Cmp_F64 (p : binary32) (v : binary64) : CmpRes := F32_Cmp p (b32_of_b64 v).
Definition F64_Cmp_F32 (p : binary64) (v : binary32) : CmpRes := F64_Cmp p (b64_of_b32 v).

(** scalar/f16.go:174-198 *)
Definition F16_IsNaN (p : Z) : bool := (Z.land p 0x7c00 =? 0x7c00) && negb (Z.land p 0x03ff =? 0).
Definition F16_IsQuietNaN (p : Z) : bool :=
  (Z.land p 0x7c00 =? 0x7c00) && negb (Z.land p 0x03ff =? 0) && negb (Z.land p 0x0200 =? 0).
Definition F16_IsInf (p sign : Z) : bool :=
  ((p =? 0x7c00) && (0 <=? sign)) || ((p =? 0xfc00) && (sign <=? 0)).
Definition F16_IsFinite (p : Z) : bool := negb (Z.land p 0x7c00 =? 0x7c00).
Definition F16_IsNormal (p : Z) : bool :=
  let exp := Z.land p 0x7c00 in negb (exp =? 0x7c00) && negb (exp =? 0).
Definition F16_Signbit (p : Z) : bool := negb (Z.land p 0x8000 =? 0).
(** scalar/f16.go:200-209 *)
Definition F16NaN : Z := 0x7e01.
Definition F16Inf (sign : Z) : Z := if 0 <=? sign then 0x7c00 else Z.lor 0x8000 0x7c00.
