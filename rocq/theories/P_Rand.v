(** * P_Rand: random values (claims C105, C106)

    [k] is the random number behind rand.Float64, which returns k / 2^53. *)
From Verif Require Import Base.
From Flocq Require Import Core.Core IEEE754.BinarySingleNaN IEEE754.Binary IEEE754.Bits.
From Coq Require Import ZArith Reals Lia Lra.
From Verif Require Import Num NumIntS ModelF16 ModelImg F16Proofs F16Round F16Arith ImgFloat ModelRand RandProofs.
Open Scope Z_scope.

(** ** C105: between the bounds *)
(** Missing: that [max] itself does not come, and float32 with ScalarRand; both are
    false (next theorems). NewRand of float64 computes the same. *)
Theorem C105_between_partial k min max : 0 <= k < 2 ^ 53 -> fin64 min = true -> fin64 max = true -> (R64 min <= R64 max)%R ->
  (Rabs (rnd64 (R64 max - R64 min)) < bpow radix2 1024)%R ->
  fin64 (ScalarRand64 (Float64 k) min max) = true /\ (R64 min <= R64 (ScalarRand64 (Float64 k) min max) <= R64 max)%R /\
  RandElem64 (Float64 k) min max = ScalarRand64 (Float64 k) min max.
Proof. intros A B C D E. destruct (rand_between k min max A B C D E) as [F G]. split; [exact F|]. split; [exact G|reflexivity]. Qed.
(** Elements of NewRand of float32 lie between the rounded bounds. *)
Theorem C105_between_32_partial k min max : 0 <= k < 2 ^ 53 -> fin64 min = true -> fin64 max = true -> (R64 min <= R64 max)%R ->
  (Rabs (rnd32 (R64 min)) < bpow radix2 128)%R -> (Rabs (rnd32 (R64 max)) < bpow radix2 128)%R -> (Rabs (rnd64 (R64 max - R64 min)) < bpow radix2 1024)%R ->
  fin32 (RandElem32 (Float64 k) min max) = true /\ (rnd32 (R64 min) <= R32 (RandElem32 (Float64 k) min max) <= rnd32 (R64 max))%R.
Proof. exact (rand_between_32 k min max). Qed.
(** Which value: the fraction k / 2^53 of the difference above [min], each
    operation rounded. *)
Theorem C105_value k min max : 0 <= k < 2 ^ 53 -> fin64 min = true -> fin64 max = true -> (R64 min <= R64 max)%R -> (Rabs (rnd64 (R64 max - R64 min)) < bpow radix2 1024)%R ->
  R64 (ScalarRand64 (Float64 k) min max) = rnd64 (rnd64 (IZR k * bpow radix2 (-53) * rnd64 (R64 max - R64 min)) + R64 min).
Proof. intros A B C D E. apply (rand_all k min max A B C D E). Qed.
(** It grows with the random number and starts at [min]. *)
Theorem C105_monotone k k' min max : 0 <= k <= k' -> k' < 2 ^ 53 -> fin64 min = true -> fin64 max = true -> (R64 min <= R64 max)%R -> (Rabs (rnd64 (R64 max - R64 min)) < bpow radix2 1024)%R ->
  (R64 (ScalarRand64 (Float64 k) min max) <= R64 (ScalarRand64 (Float64 k') min max))%R /\ R64 (ScalarRand64 (Float64 0) min max) = R64 min.
Proof. intros A B C D E F. split; [exact (rand_monotone k k' min max A B C D E F)|exact (rand_first min max C D E F)]. Qed.
(** An element of a float32 tensor is the float64 value, rounded once more. *)
Theorem C105_value_32 k min max : 0 <= k < 2 ^ 53 -> fin64 min = true -> fin64 max = true -> (R64 min <= R64 max)%R ->
  (Rabs (rnd32 (R64 min)) < bpow radix2 128)%R -> (Rabs (rnd32 (R64 max)) < bpow radix2 128)%R -> (Rabs (rnd64 (R64 max - R64 min)) < bpow radix2 1024)%R ->
  R32 (RandElem32 (Float64 k) min max) = rnd32 (R64 (ScalarRand64 (Float64 k) min max)).
Proof. exact (rand_value_32 k min max). Qed.
(** ScalarRand of float32 rounds the random number and each operation. *)
Theorem C105_scalar_32 k (min max : binary32) : 0 <= k < 2 ^ 53 -> fin32 min = true -> fin32 max = true ->
  let q := rnd32 (IZR k * bpow radix2 (-53)) in let d := rnd32 (R32 max - R32 min) in
  (Rabs d < bpow radix2 128)%R -> (Rabs (rnd32 (rnd32 (q * d) + R32 min)) < bpow radix2 128)%R ->
  R32 (ScalarRand32 (Float64 k) min max) = rnd32 (rnd32 (q * d) + R32 min) /\ fin32 (ScalarRand32 (Float64 k) min max) = true.
Proof. exact (scalar_value_32 k min max). Qed.
Print Assumptions C105_scalar_32.
Print Assumptions C105_value.
Print Assumptions C105_value_32.
Print Assumptions C105_monotone.
Print Assumptions C105_between_partial.
Print Assumptions C105_between_32_partial.

(** ScalarRand of 1 and 2 can be 2. *)
Theorem C105_max_refuted : exists k min max, 0 <= k < 2 ^ 53 /\ b64_lt min max = true /\ B2FF 53 1024 (ScalarRand64 (Float64 k) min max) = B2FF 53 1024 max.
Proof. exists (2 ^ 53 - 1), (f64_of_Z 1), (f64_of_Z 2). split; [lia|]. split; vm_compute; reflexivity. Qed.
(** ScalarRand of float32 with -1 and 2^-24 + 2^-40 can be 2^-23, which is more. *)
Theorem C105_float32_refuted : exists k min max, 0 <= k < 2 ^ 53 /\ b32_lt min max = true /\ b32_lt max (ScalarRand32 (Float64 k) min max) = true.
Proof. exists (2 ^ 53 - 1), (b32_of_bits 0xbf800000), (b32_of_bits 0x33800080). split; [lia|]. split; vm_compute; reflexivity. Qed.
(** Bounds whose difference is too large give NaN. *)
Theorem C105_overflow_refuted : exists k min max, 0 <= k < 2 ^ 53 /\ fin64 min = true /\ fin64 max = true /\ b64_lt min max = true /\ is_nan 53 1024 (ScalarRand64 (Float64 k) min max) = true.
Proof. exists 0, (b64_of_bits 0xFFE0000000000000), (b64_of_bits 0x7FE0000000000000). split; [lia|]. repeat split; vm_compute; reflexivity. Qed.
Print Assumptions C105_max_refuted.
Print Assumptions C105_float32_refuted.
Print Assumptions C105_overflow_refuted.
(** A quarter of the way from -1 to 3. *)
Example C105_case : 0 <= 2 ^ 51 < 2 ^ 53 /\ fin64 (f64_of_Z (-1)) = true /\ fin64 (f64_of_Z 3) = true /\ (R64 (f64_of_Z (-1)) <= R64 (f64_of_Z 3))%R /\
  (Rabs (rnd64 (R64 (f64_of_Z 3) - R64 (f64_of_Z (-1)))) < bpow radix2 1024)%R /\ B2FF 53 1024 (ScalarRand64 (Float64 (2 ^ 51)) (f64_of_Z (-1)) (f64_of_Z 3)) = F754_zero false.
Proof.
  split; [lia|]. split; [reflexivity|]. split; [reflexivity|]. rewrite (proj1 (f64_of_Z_spec (-1) ltac:(lia))), (proj1 (f64_of_Z_spec 3 ltac:(lia))). split; [lra|]. split; [|vm_compute; reflexivity].
  rewrite <- minus_IZR, rnd_id by (apply int_format; lia). change (3 - -1) with 4. rewrite Rabs_pos_eq by lra. change 4%R with (bpow radix2 2). apply bpow_lt. lia.
Qed.

(** ** C106: integers *)
(** ScalarRand of integers is the lower bound, whatever the upper one. *)
Theorem C106_always_min w (H : 0 < w) odd k (min max : intw w) : 0 <= k < 2 ^ 53 -> ScalarRandInt H odd (Float64 k) min max = min.
Proof. exact (rand_int w H odd k min max). Qed.
Theorem C106_refuted : exists min max x : intw 32, ival min < ival x < ival max /\ forall odd k, 0 <= k < 2 ^ 53 -> ScalarRandInt (w := 32) eq_refl odd (Float64 k) min max <> x.
Proof.
  exists (NumIntS.mk 32 eq_refl 0), (NumIntS.mk 32 eq_refl 10), (NumIntS.mk 32 eq_refl 5). split; [vm_compute; auto|]. intros odd k Hk. rewrite rand_int by exact Hk. intros E. apply (f_equal ival) in E. vm_compute in E. discriminate.
Qed.
Print Assumptions C106_always_min.
Print Assumptions C106_refuted.
Example C106_case : ival (ScalarRandInt (w := 32) eq_refl (fun _ => 7) (Float64 (2 ^ 52)) (NumIntS.mk 32 eq_refl 3) (NumIntS.mk 32 eq_refl 10)) = 3.
Proof. vm_compute. reflexivity. Qed.
(** Half of the way from 1 to 3 in float32: the hypotheses of C105_scalar_32. *)
Example C105_scalar_32_case : let one := b32_of_bits 0x3f800000 in let three := b32_of_bits 0x40400000 in
  let d := rnd32 (R32 three - R32 one) in (Rabs d < bpow radix2 128)%R /\ (Rabs (rnd32 (rnd32 (rnd32 (IZR (2 ^ 52) * bpow radix2 (-53)) * d) + R32 one)) < bpow radix2 128)%R /\
  b32_of_bits 0x40000000 = ScalarRand32 (Float64 (2 ^ 52)) one three.
Proof.
  assert (E1 : R32 (b32_of_bits 0x3f800000) = 1%R) by (unfold R32; rewrite <- FF2R_B2FF; change (B2FF 24 128 (b32_of_bits 0x3f800000)) with (F754_finite false 8388608 (-23)); unfold FF2R, F2R; cbn [Fnum Fexp SpecFloat.cond_Zopp cond_Zopp]; change (bpow radix2 (-23)) with (/ 8388608)%R; lra).
  assert (E3 : R32 (b32_of_bits 0x40400000) = 3%R) by (unfold R32; rewrite <- FF2R_B2FF; change (B2FF 24 128 (b32_of_bits 0x40400000)) with (F754_finite false 12582912 (-22)); unfold FF2R, F2R; cbn [Fnum Fexp SpecFloat.cond_Zopp cond_Zopp]; change (bpow radix2 (-22)) with (/ 4194304)%R; lra).
  cbv zeta. rewrite E1, E3. assert (B : (4 < bpow radix2 128)%R) by (change 4%R with (bpow radix2 2); apply bpow_lt; lia).
  pose proof (small32 1 (3 - 1)%R ltac:(lia) ltac:(change (bpow radix2 1) with 2%R; lra)) as D. change (bpow radix2 1) with 2%R in D. set (d := rnd32 (3 - 1)) in *. split; [rewrite Rabs_pos_eq by lra; lra|]. split; [|apply B2FF_inj; vm_compute; reflexivity].
  assert (Eq : (IZR (2 ^ 52) * bpow radix2 (-53) = / 2)%R) by (change (IZR (2 ^ 52)) with (bpow radix2 52); rewrite <- bpow_plus; reflexivity). rewrite Eq.
  pose proof (small32 0 (/ 2)%R ltac:(lia) ltac:(change (bpow radix2 0) with 1%R; lra)) as Q. change (bpow radix2 0) with 1%R in Q. set (q := rnd32 (/ 2)) in *. pose proof (small32 1 (q * d)%R ltac:(lia) ltac:(change (bpow radix2 1) with 2%R; nra)) as QD. change (bpow radix2 1) with 2%R in QD. pose proof (small32 2 (rnd32 (q * d) + 1)%R ltac:(lia) ltac:(change (bpow radix2 2) with 4%R; lra)) as S. change (bpow radix2 2) with 4%R in S. rewrite Rabs_pos_eq by lra. lra.
Qed.
