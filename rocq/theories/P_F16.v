(** * P_F16: 16-bit floats (C47, C48, C49, C50, C58, C59)

    [dec16] and [dec32] read a bit pattern as the IEEE 754 binary16 or binary32
    datum it encodes (Flocq's decoder), [val] is its real value, and [rnd16] is
    Flocq's rounding of a real number to the nearest binary16 number, ties to
    even. *)
From Coq Require Import ZArith Bool Reals Lia Lra.
From Flocq Require Import Core.Core IEEE754.BinarySingleNaN IEEE754.Binary IEEE754.Bits.
From Verif Require Import ModelF16 F16Proofs F16Round F16Arith.
Open Scope Z_scope.

(** ** C47: to float32 and back *)
Theorem C47_same_value (x : Z) : 0 <= x < 2 ^ 16 ->
  0 <= f16bitsToF32bits x < 2 ^ 32 /\ same_datum (dec16 x) (dec32 (f16bitsToF32bits x)) = true /\
  val (dec32 (f16bitsToF32bits x)) = val (dec16 x).
Proof. exact (fun Hx => conj (proj2 (widen_datum x Hx)) (conj (proj1 (widen_datum x Hx)) (eq_sym (same_val _ _ (proj1 (widen_datum x Hx)))))). Qed.
Print Assumptions C47_same_value.

(** Missing: signalling NaNs, for which it is false (next theorem). *)
Theorem C47_round_trip_partial (x : Z) : 0 <= x < 2 ^ 16 -> F16_IsNaN x = false \/ F16_IsQuietNaN x = true ->
  f32bitsToF16bits (f16bitsToF32bits x) = x.
Proof. exact (widen_narrow x). Qed.
Print Assumptions C47_round_trip_partial.

Theorem C47_signalling_refuted : exists x, 0 <= x < 2 ^ 16 /\ f32bitsToF16bits (f16bitsToF32bits x) <> x.
Proof. exists 0x7c01. split; [lia|]. vm_compute. discriminate. Qed.
Print Assumptions C47_signalling_refuted.

(** What happens to NaNs: the sign and the payload stay, the quiet bit is set. *)
Theorem C47_nan (x : Z) : 0 <= x < 2 ^ 16 -> F16_IsNaN x = true ->
  exists s p q, dec16 x = F754_nan s p /\ dec32 (f16bitsToF32bits x) = F754_nan s q /\ Z.pos q = Z.lor (Z.pos p * 2 ^ 13) (2 ^ 22).
Proof. exact (widen_nan x). Qed.
Print Assumptions C47_nan.
Example C47_nan_case : F16_IsNaN 0xfc01 = true /\ dec16 0xfc01 = F754_nan true 1 /\ dec32 (f16bitsToF32bits 0xfc01) = F754_nan true 0x402000.
Proof. vm_compute. auto. Qed.

(** A subnormal, the largest finite number, minus infinity and a quiet NaN. *)
Example C47_case :
  (0 <= 0x0001 < 2 ^ 16 /\ F16_IsNaN 0x0001 = false /\ f16bitsToF32bits 0x0001 = 0x33800000 /\ dec16 0x0001 = F754_finite false 1 (-24)) /\
  f16bitsToF32bits 0x7bff = 0x477fe000 /\ f16bitsToF32bits 0xfc00 = 0xff800000 /\
  F16_IsQuietNaN 0x7e01 = true /\ f32bitsToF16bits (f16bitsToF32bits 0x7e01) = 0x7e01.
Proof. repeat split; try lia; vm_compute; reflexivity. Qed.

(** ** C48: float32 to float16 *)
Theorem C48_rounds (v : Z) : 0 <= v < 2 ^ 32 ->
  0 <= f32bitsToF16bits v < 2 ^ 16 /\
  match dec32 v with
  | F754_nan s _ => exists p, dec16 (f32bitsToF16bits v) = F754_nan s p
  | F754_infinity s => dec16 (f32bitsToF16bits v) = F754_infinity s
  | F754_zero s => dec16 (f32bitsToF16bits v) = F754_zero s
  | F754_finite s _ _ =>
      if Rlt_bool (Rabs (rnd16 (val (dec32 v)))) (bpow radix2 16)
      then finite (dec16 (f32bitsToF16bits v)) = true /\ sbit (dec16 (f32bitsToF16bits v)) = s /\
           val (dec16 (f32bitsToF16bits v)) = rnd16 (val (dec32 v))
      else dec16 (f32bitsToF16bits v) = F754_infinity s
  end.
Proof. exact (narrow_spec v). Qed.
Print Assumptions C48_rounds.

(** Ties to even both ways, the overflow boundary 65520, and the underflow
    boundary 2^-25. *)
Example C48_case :
  f32bitsToF16bits 0x3f801000 = 0x3c00 /\ f32bitsToF16bits 0x3f801001 = 0x3c01 /\ f32bitsToF16bits 0x3f803000 = 0x3c02 /\
  f32bitsToF16bits 0x477fefff = 0x7bff /\ f32bitsToF16bits 0x477ff000 = 0x7c00 /\
  f32bitsToF16bits 0x33000000 = 0 /\ f32bitsToF16bits 0x33000001 = 1 /\ f32bitsToF16bits 0x80000000 = 0x8000.
Proof. repeat split; vm_compute; reflexivity. Qed.

(** ** C49: arithmetic

    [rounded16 s r f]: f is r rounded once to binary16 with sign s, or the
    infinity of sign s when the rounded number is too large. *)
Theorem C49_add (x y : Z) : 0 <= x < 2 ^ 16 -> 0 <= y < 2 ^ 16 ->
  finite (dec16 x) = true -> finite (dec16 y) = true ->
  0 <= F16_Add x y < 2 ^ 16 /\
  let r := (val (dec16 x) + val (dec16 y))%R in
  rounded16 (sign_of r (sbit (dec16 x) && sbit (dec16 y))) r (dec16 (F16_Add x y)).
Proof. exact (add_rounded x y). Qed.
Print Assumptions C49_add.
Theorem C49_sub (x y : Z) : 0 <= x < 2 ^ 16 -> 0 <= y < 2 ^ 16 ->
  finite (dec16 x) = true -> finite (dec16 y) = true ->
  0 <= F16_Sub x y < 2 ^ 16 /\
  let r := (val (dec16 x) - val (dec16 y))%R in
  rounded16 (sign_of r (sbit (dec16 x) && negb (sbit (dec16 y)))) r (dec16 (F16_Sub x y)).
Proof. exact (sub_rounded x y). Qed.
Print Assumptions C49_sub.
Theorem C49_mul (x y : Z) : 0 <= x < 2 ^ 16 -> 0 <= y < 2 ^ 16 ->
  finite (dec16 x) = true -> finite (dec16 y) = true ->
  0 <= F16_Mul x y < 2 ^ 16 /\
  rounded16 (xorb (sbit (dec16 x)) (sbit (dec16 y))) (val (dec16 x) * val (dec16 y)) (dec16 (F16_Mul x y)).
Proof. exact (mul_rounded x y). Qed.
Print Assumptions C49_mul.
Theorem C49_div (x y : Z) : 0 <= x < 2 ^ 16 -> 0 <= y < 2 ^ 16 ->
  finite (dec16 x) = true -> finite (dec16 y) = true -> (val (dec16 y) <> 0)%R ->
  0 <= F16_Div x y < 2 ^ 16 /\
  rounded16 (xorb (sbit (dec16 x)) (sbit (dec16 y))) (val (dec16 x) / val (dec16 y)) (dec16 (F16_Div x y)).
Proof. exact (div_rounded x y). Qed.
Print Assumptions C49_div.
Theorem C49_div_by_zero (x y : Z) (sx sy : bool) : 0 <= x < 2 ^ 16 -> 0 <= y < 2 ^ 16 ->
  dec16 y = F754_zero sy -> sbit (dec16 x) = sx ->
  match dec16 x with
  | F754_finite _ _ _ | F754_infinity _ => dec16 (F16_Div x y) = F754_infinity (xorb sx sy)
  | _ => isnan (dec16 (F16_Div x y)) = true
  end.
Proof. exact (div_by_zero x y sx sy). Qed.
Print Assumptions C49_div_by_zero.
Theorem C49_nan (x y : Z) : 0 <= x < 2 ^ 16 -> 0 <= y < 2 ^ 16 ->
  isnan (dec16 x) = true \/ isnan (dec16 y) = true ->
  isnan (dec16 (F16_Add x y)) = true /\ isnan (dec16 (F16_Sub x y)) = true /\
  isnan (dec16 (F16_Mul x y)) = true /\ isnan (dec16 (F16_Div x y)) = true.
Proof. exact (nan_propagates x y). Qed.
Print Assumptions C49_nan.
Theorem C49_add_infinity (x y : Z) (s : bool) : 0 <= x < 2 ^ 16 -> 0 <= y < 2 ^ 16 -> dec16 x = F754_infinity s ->
  match dec16 y with
  | F754_zero _ | F754_finite _ _ _ => dec16 (F16_Add x y) = F754_infinity s
  | F754_infinity s' => if eqb s s' then dec16 (F16_Add x y) = F754_infinity s else isnan (dec16 (F16_Add x y)) = true
  | F754_nan _ _ => isnan (dec16 (F16_Add x y)) = true
  end.
Proof. exact (add_infinity x y s). Qed.
Print Assumptions C49_add_infinity.

(** 1 + 2^-11 ties to 1; 1 - 3 = -2; 65504 * 2 overflows; 1 / 3 rounds;
    1 - 1 is +0 and -1 / 0 is minus infinity. *)
Example C49_case :
  (dec16 0x3c00 = F754_finite false 1024 (-10) /\ dec16 0x4200 = F754_finite false 1536 (-9)) /\
  F16_Add 0x3c00 0x1000 = 0x3c00 /\ F16_Sub 0x3c00 0x4200 = 0xc000 /\ F16_Mul 0x7bff 0x4000 = 0x7c00 /\
  F16_Div 0x3c00 0x4200 = 0x3555 /\ F16_Sub 0x3c00 0x3c00 = 0 /\ F16_Div 0xbc00 0 = 0xfc00.
Proof. repeat split; vm_compute; reflexivity. Qed.

(** ** C50: comparison

    [below] is the order of the data of a format (NaN unordered) and
    [same_number] its equality. *)
Theorem C50_f16_order (x y : Z) : 0 <= x < 2 ^ 16 -> 0 <= y < 2 ^ 16 ->
  (F16_Cmp x y = CmpL <-> below (dec16 x) (dec16 y)) /\ (F16_Cmp x y = CmpG <-> below (dec16 y) (dec16 x)) /\
  (isnan (dec16 x) = false -> isnan (dec16 y) = false -> (F16_Cmp x y = CmpE <-> same_number (dec16 x) (dec16 y))).
Proof. exact (F16_cmp_orders x y). Qed.
Print Assumptions C50_f16_order.
Theorem C50_f32_order (p v : binary32) : let a := B2FF 24 128 p in let b := B2FF 24 128 v in
  (F32_Cmp p v = CmpL <-> below a b) /\ (F32_Cmp p v = CmpG <-> below b a) /\
  (isnan a = false -> isnan b = false -> (F32_Cmp p v = CmpE <-> same_number a b)).
Proof. exact (cmp_orders p v). Qed.
Print Assumptions C50_f32_order.
Theorem C50_f64_order (p v : binary64) : let a := B2FF 53 1024 p in let b := B2FF 53 1024 v in
  (F64_Cmp p v = CmpL <-> below a b) /\ (F64_Cmp p v = CmpG <-> below b a) /\
  (isnan a = false -> isnan b = false -> (F64_Cmp p v = CmpE <-> same_number a b)).
Proof. exact (cmp_orders p v). Qed.
Print Assumptions C50_f64_order.
Theorem C50_flip (x y : Z) (p v : binary32) (p' v' : binary64) :
  F16_Cmp y x = flip (F16_Cmp x y) /\ F32_Cmp v p = flip (F32_Cmp p v) /\ F64_Cmp v' p' = flip (F64_Cmp p' v').
Proof. exact (conj (cmp_flip (G32 x) (G32 y)) (conj (cmp_flip p v) (cmp_flip p' v'))). Qed.
Print Assumptions C50_flip.
Theorem C50_transitive (a b c : full_float) : below a b -> below b c -> below a c.
Proof. exact (below_trans a b c). Qed.
Print Assumptions C50_transitive.

(** NaN compares as equal to everything, so "equal" does not mean equal. *)
Theorem C50_nan_refuted : exists x y, 0 <= x < 2 ^ 16 /\ 0 <= y < 2 ^ 16 /\
  isnan (dec16 x) = true /\ dec16 y = F754_finite false 1024 (-10) /\ F16_Cmp x y = CmpE.
Proof. exists 0x7e01, 0x3c00. repeat split; try lia; vm_compute; reflexivity. Qed.
Print Assumptions C50_nan_refuted.
(** Swapping arguments of different types does not flip the answer: 1 as F32
    equals 1 + 2^-52 as F64, which is greater than 1 as F32. *)
Theorem C50_mixed_refuted : exists (p : binary32) (v : binary64),
  F32_Cmp_F64 p v = CmpE /\ F64_Cmp_F32 v p = CmpG.
Proof. exists (b32_of_bits 0x3f800000), (b64_of_bits 0x3FF0000000000001). split; vm_compute; reflexivity. Qed.
Print Assumptions C50_mixed_refuted.

Example C50_case :
  F16_Cmp 0xbc00 0x3c00 = CmpL /\ F16_Cmp 0x7c00 0x7bff = CmpG /\ F16_Cmp 0 0x8000 = CmpE /\
  isnan (dec16 0xbc00) = false /\ isnan (dec16 0x8000) = false /\ same_number (dec16 0) (dec16 0x8000).
Proof. repeat split; vm_compute; reflexivity. Qed.

(** ** C58: float64 to float16 *)
(** Missing: numbers that are not exactly binary32 numbers, for which it is
    false (next theorem). *)
Theorem C58_from64_partial (v : binary64) : is_finite 53 1024 v = true ->
  generic_format radix2 fexp32 (R64 v) -> (Rabs (R64 v) < bpow radix2 128)%R ->
  rounded16 (Bsign 53 1024 v) (R64 v) (dec16 (F16fromF64 v)).
Proof. exact (from64_exact v). Qed.
Print Assumptions C58_from64_partial.
Theorem C58_double_rounding_refuted : exists v : binary64,
  is_finite 53 1024 v = true /\ ~ rounded16 (Bsign 53 1024 v) (R64 v) (dec16 (F16fromF64 v)).
Proof. exact (ex_intro _ tie64 tie64_wrong). Qed.
Print Assumptions C58_double_rounding_refuted.
Example C58_case : F16fromF64 (b64_of_bits 0x3FF0000000000000) = 0x3c00 /\ is_finite 53 1024 (b64_of_bits 0x3FF0000000000000) = true /\
  R64 (b64_of_bits 0x3FF0000000000000) = 1%R /\ generic_format radix2 fexp32 1 /\ (Rabs 1 < bpow radix2 128)%R.
Proof.
  split; [vm_compute; reflexivity|]. split; [reflexivity|]. split; [|split].
  - unfold R64. rewrite <- FF2R_B2FF. change (B2FF 53 1024 (b64_of_bits 0x3FF0000000000000)) with (F754_finite false (2 ^ 52) (-52)).
    cbn [FF2R SpecFloat.cond_Zopp]. unfold F2R. cbn [Fnum Fexp]. change (bpow radix2 (-52)) with (/ IZR (2 ^ 52))%R.
    change (Z.pos (2 ^ 52)) with (2 ^ 52). apply Rinv_r. apply IZR_neq. lia.
  - change 1%R with (bpow radix2 0). apply generic_format_bpow. unfold fexp32, FLT_exp. lia.
  - rewrite Rabs_R1. change 1%R with (bpow radix2 0). apply bpow_lt. lia.
Qed.

(** ** C59: classification of float16 bit patterns *)
Theorem C59_kinds (x : Z) : 0 <= x < 2 ^ 16 ->
  F16_IsNaN x = isnan (dec16 x) /\
  (F16_IsInf x 0 = true <-> exists s, dec16 x = F754_infinity s) /\
  (F16_IsInf x 1 = true <-> dec16 x = F754_infinity false) /\
  (F16_IsInf x (-1) = true <-> dec16 x = F754_infinity true) /\
  F16_IsFinite x = finite (dec16 x) /\
  (F16_IsNormal x = true <-> exists s m e, dec16 x = F754_finite s m e /\ 2 ^ 10 <= Z.pos m) /\
  F16_Signbit x = sbit (dec16 x).
Proof. exact (kinds x). Qed.
Print Assumptions C59_kinds.
Theorem C59_constants : isnan (dec16 F16NaN) = true /\
  (forall sign, 0 <= sign -> dec16 (F16Inf sign) = F754_infinity false) /\
  (forall sign, sign < 0 -> dec16 (F16Inf sign) = F754_infinity true).
Proof.
  split; [reflexivity|]. unfold F16Inf.
  split; intros sign H; destruct (Z.leb_spec 0 sign); try lia; reflexivity.
Qed.
Print Assumptions C59_constants.
Example C59_case : 0 <= 0x03ff < 2 ^ 16 /\ F16_IsNormal 0x03ff = false /\ F16_IsFinite 0x03ff = true /\ F16_IsNormal 0x0400 = true /\
  F16_IsInf 0xfc00 1 = false /\ F16_IsInf 0xfc00 (-1) = true /\ F16_Signbit 0x8000 = true.
Proof. repeat split; try lia; vm_compute; reflexivity. Qed.
