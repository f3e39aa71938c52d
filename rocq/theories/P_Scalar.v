(** * P_Scalar: scalars of three types mixed (claims C101-C104)

    [datum p]: the IEEE 754 datum that p is; [val]: its real value; [once p s r q]: q is r
    rounded once to the type of p (ScalarSpec.v). *)
From Verif Require Import Base.
From Flocq Require Import Core.Core IEEE754.BinarySingleNaN IEEE754.Binary IEEE754.Bits.
From Coq Require Import ZArith Bool Reals Lia Lra.
From Verif Require Import ModelF16 ModelScalar F16Proofs F16Round F16Arith ImgFloat ScalarSpec ScalarProofs.
Open Scope Z_scope.

(** ** C101: arithmetic of mixed types *)
(** Missing: an argument of a wider type, for which it is false (next theorem). *)
Theorem C101_once_partial o p v : sound p -> sound v -> nbits v <= nbits p -> finite (datum p) = true -> finite (datum v) = true ->
  (o = ODiv -> val (datum v) <> 0%R) ->
  let r := exact o (val (datum p)) (val (datum v)) in once p (sign_for o r (sbit (datum p)) (sbit (datum v))) r (Arith o p v).
Proof. exact (arith_once o p v). Qed.
Print Assumptions C101_once_partial.

(** An F16 plus an F32, and an F32 plus an F64: another number [q] of the type of
    the result is nearer to the sum. *)
Definition far (p v q : scal) : Prop :=
  sound p /\ sound v /\ finite (datum p) = true /\ finite (datum v) = true /\ sound q /\ nbits q = nbits p /\ nbits (Arith OAdd p v) = nbits p /\ finite (datum (Arith OAdd p v)) = true /\
  let r := (val (datum p) + val (datum v))%R in (Rabs (val (datum q) - r) < Rabs (val (datum (Arith OAdd p v)) - r))%R.
Ltac numbers := unfold val, FF2R, F2R; cbn [Fnum Fexp SpecFloat.cond_Zopp cond_Zopp Z.opp];
  repeat match goal with |- context [bpow radix2 ?e] => let f := eval compute in (2 ^ (- e)) in change (bpow radix2 e) with (/ IZR f)%R end.
Theorem C101_refuted : (exists p v q, nbits p = 16 /\ nbits v = 32 /\ far p v q) /\ (exists p v q, nbits p = 32 /\ nbits v = 64 /\ far p v q).
Proof.
  split.
  - exists (F16v 0x3c00), (F32v (b32_of_bits 0x3a000001)), (F16v 0x3c01). split; [reflexivity|]. split; [reflexivity|]. repeat (split; [cbn; lia || reflexivity|]).
    assert (E1 : datum (F16v 0x3c00) = F754_finite false 1024 (-10)) by (vm_compute; reflexivity).
    assert (E2 : datum (F32v (b32_of_bits 0x3a000001)) = F754_finite false 8388609 (-34)) by (vm_compute; reflexivity).
    assert (E3 : datum (F16v 0x3c01) = F754_finite false 1025 (-10)) by (vm_compute; reflexivity).
    assert (E4 : datum (Arith OAdd (F16v 0x3c00) (F32v (b32_of_bits 0x3a000001))) = F754_finite false 1024 (-10)) by (vm_compute; reflexivity).
    rewrite E1, E2, E3, E4. cbv zeta. numbers. unfold Rabs. destruct (Rcase_abs _), (Rcase_abs _); lra.
  - exists (F32v (b32_of_bits 0x3f800000)), (F64v (b64_of_bits 0x3E70000000000001)), (F32v (b32_of_bits 0x3f800001)). split; [reflexivity|]. split; [reflexivity|]. repeat (split; [exact I || reflexivity|]).
    assert (E1 : datum (F32v (b32_of_bits 0x3f800000)) = F754_finite false 8388608 (-23)) by (vm_compute; reflexivity).
    assert (E2 : datum (F64v (b64_of_bits 0x3E70000000000001)) = F754_finite false 4503599627370497 (-76)) by (vm_compute; reflexivity).
    assert (E3 : datum (F32v (b32_of_bits 0x3f800001)) = F754_finite false 8388609 (-23)) by (vm_compute; reflexivity).
    assert (E4 : datum (Arith OAdd (F32v (b32_of_bits 0x3f800000)) (F64v (b64_of_bits 0x3E70000000000001))) = F754_finite false 8388608 (-23)) by (vm_compute; reflexivity).
    rewrite E1, E2, E3, E4. cbv zeta. numbers. unfold Rabs. destruct (Rcase_abs _), (Rcase_abs _); lra.
Qed.
Print Assumptions C101_refuted.
(** 1 as F64 minus 1/4 as F16 is 3/4 as F64; 3 as F32 divided by -2 as F16. *)
Example C101_case : datum (Arith OSub (F64v (b64_of_bits 0x3FF0000000000000)) (F16v 0x3400)) = F754_finite false 6755399441055744 (-53) /\
  datum (Arith ODiv (F32v (b32_of_bits 0x40400000)) (F16v 0xc000)) = F754_finite true 12582912 (-23) /\
  sound (F16v 0xc000) /\ finite (datum (F16v 0xc000)) = true /\ finite (datum (F32v (b32_of_bits 0x40400000))) = true /\ val (datum (F16v 0xc000)) <> 0%R.
Proof.
  split; [vm_compute; reflexivity|]. split; [vm_compute; reflexivity|]. split; [cbn; lia|]. split; [vm_compute; reflexivity|]. split; [vm_compute; reflexivity|].
  assert (E : datum (F16v 0xc000) = F754_finite true 1024 (-9)) by (vm_compute; reflexivity). rewrite E. numbers. intros N. change (IZR (- (1024))) with (-1024)%R in N. lra.
Qed.

(** ** C102: arithmetic in place *)
(** [p] and [v] may be the same scalar. *)
Theorem C102_self o p v h a b : h !! p = Some a -> h !! v = Some b ->
  exists h', Self o p v h = Ok h' /\ h' !! p = Some (Arith o a b) /\ length h' = length h /\ forall k, k <> p -> h' !! k = h !! k.
Proof.
  intros Ha Hb. unfold Self, rd. rewrite Ha, Hb. cbn [res_bind]. eexists. split; [reflexivity|]. rewrite self_value.
  split; [apply list_lookup_insert, lookup_lt_Some in Ha || (apply list_lookup_insert; exact (lookup_lt_Some _ _ _ Ha))|]. split; [apply insert_length|]. intros k Hk. apply list_lookup_insert_ne. congruence.
Qed.
(** The other operations and Copy give a scalar of its own and change nothing; what
    happens to it later does not touch the first one, and the other way round. *)
Theorem C102_new o p v h a b : h !! p = Some a -> h !! v = Some b ->
  exists n h', New o p v h = Ok (n, h') /\ h' !! n = Some (Arith o a b) /\ (n >= length h)%nat /\ forall k, (k < length h)%nat -> h' !! k = h !! k.
Proof.
  intros Ha Hb. unfold New, rd. rewrite Ha, Hb. cbn [res_bind]. do 2 eexists. split; [reflexivity|]. split; [|split; [lia|]].
  - rewrite lookup_app_r, Nat.sub_diag by lia. reflexivity.
  - intros k Hk. apply lookup_app_l. exact Hk.
Qed.
Theorem C102_copy p h a : h !! p = Some a ->
  exists n h', Copy p h = Ok (n, h') /\ h' !! n = Some a /\ n <> p /\ (forall k, (k < length h)%nat -> h' !! k = h !! k) /\
  forall o v b, h' !! v = Some b -> (exists h1, Self o n v h' = Ok h1 /\ h1 !! p = Some a) /\ exists h2, Self o p v h' = Ok h2 /\ h2 !! n = Some a.
Proof.
  intros Ha. pose proof (lookup_lt_Some _ _ _ Ha) as L. unfold Copy, rd. rewrite Ha. cbn [res_bind]. do 2 eexists. split; [reflexivity|].
  assert (En : (h ++ [a]) !! length h = Some a) by (rewrite lookup_app_r, Nat.sub_diag by lia; reflexivity).
  assert (Ep : (h ++ [a]) !! p = Some a) by (rewrite lookup_app_l by lia; exact Ha).
  split; [exact En|]. split; [lia|]. split; [intros k Hk; apply lookup_app_l; exact Hk|]. intros o v b Hv. split.
  - destruct (C102_self o (length h) v (h ++ [a]) a b En Hv) as (h1 & E & _ & _ & F). exists h1. split; [exact E|]. rewrite F by lia. exact Ep.
  - destruct (C102_self o p v (h ++ [a]) a b Ep Hv) as (h2 & E & _ & _ & F). exists h2. split; [exact E|]. rewrite F by lia. exact En.
Qed.
Print Assumptions C102_self.
Print Assumptions C102_new.
Print Assumptions C102_copy.
(** 1.5 as F16: doubled by adding it to itself. *)
Example C102_case : Self OAdd 0 0 [F16v 0x3e00; F16v 0x3c00] = Ok [F16v 0x4200; F16v 0x3c00].
Proof. vm_compute. reflexivity. Qed.

(** ** C103: texts *)
(** Missing: F64, for which it is false (next theorem). [alike]: both NaN, or the same
    number with the same sign. *)
Theorem C103_text_partial {text} (sprint : binary32 -> text) p : sound p -> nbits p <= 32 ->
  exists x, SString sprint p = sprint x /\ alike (datum p) (B2FF 24 128 x).
Proof. intros Hs Hb. exists (SG32 p). split; [reflexivity|]. exact (shown_datum p Hs Hb). Qed.
(** Two numbers of which one is smaller have the same text; a finite number has the
    text of an infinity. *)
Theorem C103_refuted : (exists p q, nbits p = 64 /\ nbits q = 64 /\ SCmp p q = CmpL /\ forall text (sprint : binary32 -> text), SString sprint p = SString sprint q) /\
  (exists p, nbits p = 64 /\ finite (datum p) = true /\ forall text (sprint : binary32 -> text), SString sprint p = sprint (B754_infinity 24 128 false)).
Proof.
  split.
  - exists (F64v (b64_of_bits 0x3FF0000000000000)), (F64v (b64_of_bits 0x3FF0000000000001)). split; [reflexivity|]. split; [reflexivity|]. split; [vm_compute; reflexivity|].
    intros text sprint. unfold SString. f_equal. apply (B2FF_inj 24 128). vm_compute. reflexivity.
  - exists (F64v (b64_of_bits 0x7E37E43C8800759C)). split; [reflexivity|]. split; [vm_compute; reflexivity|]. intros text sprint. unfold SString. f_equal; try (apply (B2FF_inj 24 128); vm_compute; reflexivity).
Qed.
Print Assumptions C103_text_partial.
Print Assumptions C103_refuted.
Example C103_case : sound (F16v 0xbc00) /\ SString (B2FF 24 128) (F16v 0xbc00) = F754_finite true 8388608 (-23).
Proof. split; [cbn; lia|]. vm_compute. reflexivity. Qed.

(** ** C104: a getter gives what the setter stored *)
(** Missing: float32 in an F16 and float64 in an F16 or F32, which are rounded (C48,
    C58); NaNs come back as some NaN. *)
Theorem C104_partial p : (forall v, 32 <= nbits p -> is_nan 24 128 v = false -> SG32 (SS32 p v) = v) /\ (forall v, 64 <= nbits p -> SG64 (SS64 p v) = v) /\
  (forall b, p = F16v b -> sound p -> F16_IsNaN b = false -> SS32 p (SG32 p) = p).
Proof.
  split; [|split].
  - intros v Hb Hv. destruct p; cbn [nbits SS32 SG32] in *; [lia|reflexivity|exact (back_32 v Hv)].
  - intros v Hb. destruct p; cbn [nbits SS64 SG64] in *; [lia|lia|reflexivity].
  - intros b -> Hs Hn. cbn [SS32 SG32 sound] in *. f_equal. unfold F16fromF32, G32. 
    assert (E : bits_of_b32 (b32_of_bits (f16bitsToF32bits b)) = f16bitsToF32bits b).
    { exact (bits_of_binary_float_of_bits 23 8 eq_refl eq_refl eq_refl _ (proj2 (widen_datum b Hs))). }
    rewrite E. apply widen_narrow; [exact Hs|]. left. exact Hn.
Qed.
Theorem C104_refuted : exists p v, nbits p = 32 /\ is_finite 53 1024 v = true /\ R64 (SG64 (SS64 p v)) <> R64 v.
Proof.
  exists (F32v (b32_of_bits 0)), (b64_of_bits 0x3FF0000000000001). split; [reflexivity|]. split; [reflexivity|]. unfold R64. rewrite <- !FF2R_B2FF.
  assert (E1 : B2FF 53 1024 (SG64 (SS64 (F32v (b32_of_bits 0)) (b64_of_bits 0x3FF0000000000001))) = F754_finite false 4503599627370496 (-52)) by (vm_compute; reflexivity).
  assert (E2 : B2FF 53 1024 (b64_of_bits 0x3FF0000000000001) = F754_finite false 4503599627370497 (-52)) by (vm_compute; reflexivity).
  rewrite E1, E2. numbers. intros N. lra.
Qed.
Print Assumptions C104_partial.
Print Assumptions C104_refuted.
Example C104_case : is_nan 24 128 (b32_of_bits 0x80000001) = false /\ nbits (F64v (b64_of_bits 0)) = 64 /\ B2FF 24 128 (SG32 (SS32 (F64v (b64_of_bits 0)) (b32_of_bits 0x80000001))) = F754_finite true 1 (-149).
Proof. vm_compute. auto. Qed.
