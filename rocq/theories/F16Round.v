(** * F16Round: float32 to float16 conversion and float16 arithmetic *)
From Coq Require Import ZArith Bool Reals Lia Lra.
From Flocq Require Import Core.Core IEEE754.BinarySingleNaN IEEE754.Binary IEEE754.Bits Double_rounding.
From Verif Require Import ModelF16 F16Proofs.
Open Scope Z_scope.

Definition fexp16 : Z -> Z := FLT_exp (-24) 11.
(** Round to the nearest binary16 number, ties to even, ignoring overflow. *)
Definition rnd16 (x : R) : R := round radix2 fexp16 ZnearestE x.

Definition sbit (f : full_float) : bool :=
  match f with F754_zero s | F754_infinity s | F754_nan s _ | F754_finite s _ _ => s end.
Definition finite (f : full_float) : bool :=
  match f with F754_zero _ | F754_finite _ _ _ => true | _ => false end.

(** ** Assembling a binary16 pattern *)
Definition sig16 (E q : Z) : Z := if E =? 0 then q else 1024 + q.
Definition exp16 (E : Z) : Z := if E =? 0 then -24 else E - 25.

Lemma dec16_join (s : bool) E q : 0 <= q < 1024 -> 0 <= E < 31 ->
  let f := dec16 ((if s then 2 ^ 15 else 0) + E * 2 ^ 10 + q) in
  finite f = true /\ sbit f = s /\ val f = F2R (Float radix2 (cond_Zopp s (sig16 E q)) (exp16 E)).
Proof.
  intros Hq HE f.
  assert (Ef : f = binary_float_of_bits_aux 10 5 (join_bits 10 5 s q E)).
  { unfold f, dec16, join_bits. f_equal. rewrite Z.shiftl_mul_pow2 by lia. destruct s; lia. }
  rewrite Ef. unfold binary_float_of_bits_aux. rewrite split_join_bits by (cbn; lia).
  unfold sig16, exp16. destruct (Z.eqb_spec E 0) as [->|HE0].
  - cbn [Zeq_bool Z.compare]. destruct q as [|p|p]; [| |lia].
    + split; [reflexivity|]. split; [reflexivity|]. unfold val. cbn [FF2R]. destruct s; symmetry; apply F2R_0.
    + split; [reflexivity|]. split; reflexivity.
  - rewrite Zeq_bool_false by exact HE0. rewrite Zeq_bool_false by (cbn; lia).
    replace (q + 2 ^ 10) with (1024 + q) by lia.
    destruct (1024 + q) as [|p|p] eqn:Ep; [lia| |lia]. cbn [finite sbit]. split; [reflexivity|]. split; [reflexivity|].
    unfold val. cbn [FF2R]. f_equal. f_equal. change (SpecFloat.emin (10 + 1) (2 ^ (5 - 1))) with (-24). lia.
Qed.

Lemma dec16_inf (s : bool) : dec16 ((if s then 2 ^ 15 else 0) + 31744) = F754_infinity s.
Proof. destruct s; reflexivity. Qed.
Lemma dec16_nan (s : bool) p : 0 < p < 1024 -> exists pl, dec16 ((if s then 2 ^ 15 else 0) + 31744 + p) = F754_nan s pl.
Proof.
  intros Hp. assert (Ef : dec16 ((if s then 2 ^ 15 else 0) + 31744 + p) = binary_float_of_bits_aux 10 5 (join_bits 10 5 s p 31)).
  { unfold dec16, join_bits. f_equal. rewrite Z.shiftl_mul_pow2 by lia. destruct s; lia. }
  rewrite Ef. unfold binary_float_of_bits_aux. rewrite split_join_bits by (cbn; lia). cbn.
  destruct p; try lia. eauto.
Qed.

(** A significand that carried into the next binade. *)
Lemma half_value (s : bool) E q : 0 <= q <= 1024 -> 0 <= E < 31 -> E * 1024 + q < 31744 ->
  let f := dec16 ((if s then 2 ^ 15 else 0) + E * 2 ^ 10 + q) in
  finite f = true /\ sbit f = s /\ val f = F2R (Float radix2 (cond_Zopp s (sig16 E q)) (exp16 E)).
Proof.
  intros Hq HE Hlt f. destruct (Z.eq_dec q 1024) as [->|].
  - assert (Ef : f = dec16 ((if s then 2 ^ 15 else 0) + (E + 1) * 2 ^ 10 + 0)) by (unfold f; f_equal; lia).
    rewrite Ef. destruct (dec16_join s (E + 1) 0) as (H1 & H2 & H3); [lia|lia|].
    split; [exact H1|]. split; [exact H2|]. rewrite H3. unfold sig16, exp16.
    replace (E + 1 =? 0) with false by (symmetry; apply Z.eqb_neq; lia).
    destruct (Z.eqb_spec E 0) as [->|].
    + destruct s; reflexivity.
    + rewrite (F2R_change_exp radix2 (E - 25) _ (E + 1 - 25)) by lia. f_equal. f_equal.
      replace (E + 1 - 25 - (E - 25)) with 1 by lia. destruct s; reflexivity.
  - apply dec16_join; lia.
Qed.

(** ** Rounding *)
Lemma round_scaled c e k : 0 <= k -> cexp radix2 fexp16 (F2R (Float radix2 c e)) = e + k ->
  rnd16 (F2R (Float radix2 c e)) = F2R (Float radix2 (rne c k) (e + k)).
Proof.
  intros Hk Hc. unfold rnd16, round. rewrite Hc. f_equal. f_equal. rewrite <- rne_real by exact Hk. f_equal.
  unfold scaled_mantissa. rewrite Hc. unfold F2R. cbn [Fnum Fexp]. rewrite Rmult_assoc, <- bpow_plus.
  replace (e + - (e + k)) with (- k) by lia. unfold Rdiv. f_equal. rewrite bpow_opp. f_equal.
  destruct k as [|p|p]; [reflexivity| |lia]. unfold bpow. reflexivity.
Qed.

Lemma cexp_normal c e : 2 ^ 23 <= c < 2 ^ 24 ->
  cexp radix2 fexp16 (F2R (Float radix2 c e)) = Z.max (e + 13) (-24).
Proof.
  intros Hc. unfold cexp, fexp16, FLT_exp. f_equal.
  rewrite mag_F2R_Zdigits by lia. replace (Zdigits radix2 c) with 24; [lia|]. symmetry.
  apply Zdigits_unique. rewrite Z.abs_eq by lia. cbn. lia.
Qed.

Lemma rnd16_opp s x : rnd16 (cond_Ropp s x) = cond_Ropp s (rnd16 x).
Proof. destruct s; [apply round_NE_opp|reflexivity]. Qed.
Lemma F2R_sign s m e : F2R (Float radix2 (cond_Zopp s m) e) = cond_Ropp s (F2R (Float radix2 m e)).
Proof. apply F2R_cond_Zopp. Qed.

Lemma rne_bounds c k a b : 0 <= k -> a * 2 ^ k <= c <= b * 2 ^ k -> a <= rne c k <= b.
Proof.
  intros Hk Hc. unfold rne. assert (Hp : 0 < 2 ^ k) by lia.
  assert (Ha : a <= c / 2 ^ k) by (apply Z.div_le_lower_bound; lia).
  set (r := c mod 2 ^ k). pose proof (Z.div_mod c (2 ^ k) ltac:(lia)) as Hd. fold r in Hd.
  assert (Hr : 0 <= r < 2 ^ k) by (apply Z.mod_pos_bound; lia).
  assert (c / 2 ^ k <= b) by nia.
  destruct ((2 ^ k <? 2 * r) || _) eqn:E; [|lia]. split; [lia|].
  assert (r <> 0).
  { intros E0. rewrite E0 in E. apply orb_prop in E as [E|E]; [apply Z.ltb_lt in E; lia|].
    apply andb_prop in E as [E _]. apply Z.eqb_eq in E. lia. }
  nia.
Qed.
Lemma rne_small c k : 0 <= k -> 0 <= 2 * c < 2 ^ k -> rne c k = 0.
Proof.
  intros Hk Hc. unfold rne. rewrite Z.div_small, Z.mod_small by lia.
  replace (2 ^ k <? 2 * c) with false by (symmetry; apply Z.ltb_ge; lia).
  replace (2 ^ k =? 2 * c) with false by (symmetry; apply Z.eqb_neq; lia). reflexivity.
Qed.

(** ** The conversion in terms of the fields of its argument *)
Lemma fields v : 0 <= v < 2 ^ 32 ->
  exists (s : bool) E M, 0 <= E < 256 /\ 0 <= M < 2 ^ 23 /\ v = (if s then 2 ^ 31 else 0) + E * 2 ^ 23 + M /\
    Z.land v 0x80000000 = (if s then 2 ^ 31 else 0) /\ Z.land v 0x7f800000 = E * 2 ^ 23 /\ Z.land v 0x007fffff = M.
Proof.
  intros Hv. exists (2 ^ 31 <=? v), (v / 2 ^ 23 mod 2 ^ 8), (v mod 2 ^ 23).
  change 0x80000000 with (Z.shiftl (Z.ones 1) 31). change 0x7f800000 with (Z.shiftl (Z.ones 8) 23).
  change 0x007fffff with (2 ^ 23 - 1). rewrite !land_field, land_low by lia.
  split; [apply Z.mod_pos_bound; lia|]. split; [apply Z.mod_pos_bound; lia|].
  assert (Hs : v / 2 ^ 31 mod 2 ^ 1 = if 2 ^ 31 <=? v then 1 else 0).
  { destruct (Z.leb_spec (2 ^ 31) v).
    - replace (v / 2 ^ 31) with 1; [reflexivity|]. apply (Z.div_unique_pos v (2 ^ 31) 1 (v - 2 ^ 31)); lia.
    - rewrite Z.div_small by lia. reflexivity. }
  split; [|split; [rewrite Hs; destruct (2 ^ 31 <=? v); reflexivity|split; reflexivity]].
  pose proof (Z.div_mod v (2 ^ 23) ltac:(lia)) as H1. pose proof (Z.div_mod (v / 2 ^ 23) (2 ^ 8) ltac:(lia)) as H2.
  assert (H3 : v / 2 ^ 23 / 2 ^ 8 = v / 2 ^ 31) by (rewrite Z.div_div by lia; reflexivity).
  assert (H4 : v / 2 ^ 31 = if 2 ^ 31 <=? v then 1 else 0).
  { rewrite <- Hs, Z.mod_small; [reflexivity|]. split; [apply Z.div_pos; lia|apply Z.div_lt_upper_bound; lia]. }
  destruct (2 ^ 31 <=? v); lia.
Qed.

Lemma dec32_fields (s : bool) E M : 0 <= E < 256 -> 0 <= M < 2 ^ 23 ->
  let f := dec32 ((if s then 2 ^ 31 else 0) + E * 2 ^ 23 + M) in
  (E = 255 -> M = 0 -> f = F754_infinity s) /\
  (E = 255 -> M <> 0 -> exists p, f = F754_nan s p) /\
  (E < 255 -> finite f = true /\ sbit f = s /\
     val f = F2R (Float radix2 (cond_Zopp s (if E =? 0 then M else 2 ^ 23 + M)) (if E =? 0 then -149 else E - 150))).
Proof.
  intros HE HM f.
  assert (Ef : f = binary_float_of_bits_aux 23 8 (join_bits 23 8 s M E)).
  { unfold f, dec32, join_bits. f_equal. rewrite Z.shiftl_mul_pow2 by lia. destruct s; lia. }
  rewrite Ef. unfold binary_float_of_bits_aux. rewrite split_join_bits by (cbn; lia). split; [|split].
  - intros -> ->. reflexivity.
  - intros -> H0. cbn. destruct M; try lia. eauto.
  - intros Hlt. destruct (Z.eqb_spec E 0) as [->|HE0].
    + cbn [Zeq_bool Z.compare]. destruct M as [|p|p]; [| |lia].
      * split; [reflexivity|]. split; [reflexivity|]. unfold val. cbn [FF2R]. destruct s; symmetry; apply F2R_0.
      * split; [reflexivity|]. split; reflexivity.
    + rewrite Zeq_bool_false by exact HE0. rewrite Zeq_bool_false by (cbn; lia).
      replace (M + 2 ^ 23) with (2 ^ 23 + M) by lia.
      destruct (2 ^ 23 + M) as [|p|p] eqn:Ep; [lia| |lia]. split; [reflexivity|]. split; [reflexivity|].
      unfold val. cbn [FF2R]. f_equal. f_equal. change (SpecFloat.emin (23 + 1) (2 ^ (8 - 1))) with (-149). lia.
Qed.

(** The correctly rounded result of converting the number [x] with sign [s]. *)
Definition rounded16 (s : bool) (x : R) (f : full_float) : Prop :=
  if Rlt_bool (Rabs (rnd16 x)) (bpow radix2 16)
  then finite f = true /\ sbit f = s /\ val f = rnd16 x
  else f = F754_infinity s.

Lemma small_u16 z : 0 <= z < 2 ^ 16 -> u16 z = z.
Proof. intros. apply Z.mod_small. lia. Qed.
Lemma small_u32 z : 0 <= z < 2 ^ 32 -> u32 z = z.
Proof. intros. apply Z.mod_small. lia. Qed.

Definition hs (s : bool) : Z := if s then 2 ^ 15 else 0.
Lemma hs_shift (s : bool) : Z.shiftr (if s then 2 ^ 31 else 0) 16 = hs s.
Proof. destruct s; reflexivity. Qed.
Lemma hs_lor (s : bool) z : 0 <= z < 2 ^ 15 -> Z.lor (hs s) z = hs s + z.
Proof. intros. apply (lor_add' _ _ 15); [lia|lia|destruct s; reflexivity]. Qed.

(** Normal results: 1 <= halfExp <= 30. *)
Lemma narrow_normal s E M : 0 <= M < 2 ^ 23 -> 112 < E < 143 ->
  rounded16 s (F2R (Float radix2 (cond_Zopp s (2 ^ 23 + M)) (E - 150)))
    (dec16 (hs s + (E - 112) * 2 ^ 10 + (rne (2 ^ 23 + M) 13 - 1024))).
Proof.
  intros HM HE. set (c := 2 ^ 23 + M).
  assert (Hc : cexp radix2 fexp16 (F2R (Float radix2 c (E - 150))) = E - 150 + 13).
  { rewrite cexp_normal by (unfold c; lia). lia. }
  pose proof (round_scaled c (E - 150) 13 ltac:(lia) Hc) as Hr.
  pose proof (rne_bounds c 13 1024 2048 ltac:(lia) ltac:(unfold c; lia)) as Hb.
  unfold rounded16. rewrite F2R_sign, rnd16_opp, Hr, abs_cond_Ropp.
  replace (E - 150 + 13) with (E - 137) by lia.
  rewrite Rabs_pos_eq by (apply F2R_ge_0; cbn [Fnum]; lia).
  destruct (Z_lt_ge_dec ((E - 112) * 1024 + (rne c 13 - 1024)) 31744) as [Hlt|Hge].
  - rewrite Rlt_bool_true.
    + destruct (half_value s (E - 112) (rne c 13 - 1024)) as (H1 & H2 & H3); [lia|lia|lia|].
      split; [exact H1|]. split; [exact H2|]. unfold hs. rewrite H3. unfold sig16, exp16.
      replace (E - 112 =? 0) with false by (symmetry; apply Z.eqb_neq; lia).
      replace (1024 + (rne c 13 - 1024)) with (rne c 13) by lia. replace (E - 112 - 25) with (E - 137) by lia. apply F2R_sign.
    + change (bpow radix2 16) with (IZR (2 ^ 16)).
      assert (rne c 13 < 2048 \/ E < 142) as [Hq|Hq] by lia.
      * apply Rle_lt_trans with (F2R (Float radix2 2047 (E - 137))); [apply F2R_le; lia|].
        apply Rle_lt_trans with (F2R (Float radix2 2047 5)).
        { unfold F2R. cbn [Fnum Fexp]. apply Rmult_le_compat_l; [apply IZR_le; lia|apply bpow_le; lia]. }
        unfold F2R. cbn [Fnum Fexp]. change (bpow radix2 5) with 32%R. rewrite <- mult_IZR. apply IZR_lt. lia.
      * apply Rle_lt_trans with (F2R (Float radix2 2048 (E - 137))); [apply F2R_le; lia|].
        apply Rle_lt_trans with (F2R (Float radix2 2048 4)).
        { unfold F2R. cbn [Fnum Fexp]. apply Rmult_le_compat_l; [apply IZR_le; lia|apply bpow_le; lia]. }
        unfold F2R. cbn [Fnum Fexp]. change (bpow radix2 4) with 16%R. rewrite <- mult_IZR. apply IZR_lt. lia.
  - assert (E = 142) as -> by lia. assert (Eq : rne c 13 = 2048) by lia. rewrite Eq.
    rewrite Rlt_bool_false.
    + replace (hs s + (142 - 112) * 2 ^ 10 + (2048 - 1024)) with (hs s + 31744) by lia. apply dec16_inf.
    + unfold F2R. cbn [Fnum Fexp]. change (142 - 137) with 5. change (bpow radix2 5) with 32%R.
      change (bpow radix2 16) with (IZR (2 ^ 16)). rewrite <- mult_IZR. apply IZR_le. lia.
Qed.

(** Overflow: halfExp >= 31. *)
Lemma narrow_over s E M : 0 <= M < 2 ^ 23 -> 143 <= E < 255 ->
  rounded16 s (F2R (Float radix2 (cond_Zopp s (2 ^ 23 + M)) (E - 150))) (dec16 (hs s + 31744)).
Proof.
  intros HM HE. set (c := 2 ^ 23 + M).
  assert (Hc : cexp radix2 fexp16 (F2R (Float radix2 c (E - 150))) = E - 150 + 13).
  { rewrite cexp_normal by (unfold c; lia). lia. }
  pose proof (round_scaled c (E - 150) 13 ltac:(lia) Hc) as Hr.
  pose proof (rne_bounds c 13 1024 2048 ltac:(lia) ltac:(unfold c; lia)) as Hb.
  unfold rounded16. rewrite F2R_sign, rnd16_opp, Hr, abs_cond_Ropp.
  rewrite Rabs_pos_eq by (apply F2R_ge_0; cbn [Fnum]; lia). rewrite Rlt_bool_false; [apply dec16_inf|].
  apply Rle_trans with (F2R (Float radix2 1024 (E - 150 + 13))); [|apply F2R_le; lia].
  apply Rle_trans with (F2R (Float radix2 1024 6)).
  - unfold F2R. cbn [Fnum Fexp]. change (bpow radix2 6) with 64%R. change (bpow radix2 16) with (IZR (2 ^ 16)).
    rewrite <- mult_IZR. apply IZR_le. lia.
  - unfold F2R. cbn [Fnum Fexp]. apply Rmult_le_compat_l; [apply IZR_le; lia|apply bpow_le; lia].
Qed.

(** Subnormal results and underflow: halfExp <= 0; k is 14 - halfExp. *)
Lemma small_lt x : 0 <= x <= 1024 -> (F2R (Float radix2 x (-24)) < bpow radix2 16)%R.
Proof.
  intros Hx. apply Rle_lt_trans with (F2R (Float radix2 1024 0)).
  - apply Rle_trans with (F2R (Float radix2 1024 (-24))); [apply F2R_le; lia|].
    unfold F2R. cbn [Fnum Fexp]. apply Rmult_le_compat_l; [apply IZR_le; lia|apply bpow_le; lia].
  - unfold F2R. cbn [Fnum Fexp]. change (bpow radix2 0) with 1%R. change (bpow radix2 16) with (IZR (2 ^ 16)).
    rewrite <- mult_IZR. apply IZR_lt. lia.
Qed.
Lemma narrow_sub s E c k : 0 <= c < 2 ^ 24 -> k = 126 - E -> 14 <= k ->
  cexp radix2 fexp16 (F2R (Float radix2 c (E - 150))) = -24 ->
  rounded16 s (F2R (Float radix2 (cond_Zopp s c) (E - 150))) (dec16 (hs s + rne c k)).
Proof.
  intros Hc Hk Hk14 Hcx. assert (Hcx' : cexp radix2 fexp16 (F2R (Float radix2 c (E - 150))) = E - 150 + k) by lia.
  pose proof (round_scaled c (E - 150) k ltac:(lia) Hcx') as Hr.
  assert (Hb : 0 <= rne c k <= 1024).
  { apply rne_bounds; [lia|]. split; [lia|]. apply Z.le_trans with (1024 * 2 ^ 14); [lia|].
    apply Z.mul_le_mono_nonneg_l; [lia|]. apply Z.pow_le_mono_r; lia. }
  unfold rounded16. rewrite F2R_sign, rnd16_opp, Hr, abs_cond_Ropp.
  rewrite Rabs_pos_eq by (apply F2R_ge_0; cbn [Fnum]; lia). replace (E - 150 + k) with (-24) by lia.
  rewrite Rlt_bool_true by (apply small_lt; exact Hb).
  destruct (half_value s 0 (rne c k)) as (H1 & H2 & H3); [lia|lia|lia|].
  replace ((if s then 2 ^ 15 else 0) + 0 * 2 ^ 10 + rne c k) with (hs s + rne c k) in * by (unfold hs; lia).
  split; [exact H1|]. split; [exact H2|]. rewrite H3. apply F2R_sign.
Qed.

(** The significand of an underflowing number *)
Lemma cexp_small c e : 0 < c -> (c < 2 ^ 24) -> e <= -37 -> cexp radix2 fexp16 (F2R (Float radix2 c e)) = -24.
Proof.
  intros H0 Hc He. unfold cexp, fexp16, FLT_exp. apply Z.max_r.
  assert (Hn : c <> 0) by lia.
  assert (Hm : mag radix2 (F2R (Float radix2 c e)) <= 24 + e).
    { apply mag_le_bpow; [apply F2R_neq_0; exact Hn|]. rewrite Rabs_pos_eq by (apply F2R_ge_0; cbn [Fnum]; lia).
      unfold F2R. cbn [Fnum Fexp]. rewrite bpow_plus. apply Rmult_lt_compat_r; [apply bpow_gt_0|].
      change (bpow radix2 24) with (IZR (2 ^ 24)). apply IZR_lt. exact Hc. }
    lia.
Qed.

Theorem narrow_spec v : 0 <= v < 2 ^ 32 ->
  0 <= f32bitsToF16bits v < 2 ^ 16 /\
  match dec32 v with
  | F754_nan s _ => exists p, dec16 (f32bitsToF16bits v) = F754_nan s p
  | F754_infinity s => dec16 (f32bitsToF16bits v) = F754_infinity s
  | F754_zero s => dec16 (f32bitsToF16bits v) = F754_zero s
  | F754_finite s _ _ => rounded16 s (val (dec32 v)) (dec16 (f32bitsToF16bits v))
  end.
Proof.
  intros Hv. destruct (fields v Hv) as (s & E & M & HE & HM & Ev & Hls & Hle & Hlm).
  destruct (dec32_fields s E M HE HM) as (Dinf & Dnan & Dfin). rewrite <- Ev in *.
  unfold f32bitsToF16bits. rewrite Hls, Hle, Hlm. change 0x7f800000 with (255 * 2 ^ 23).
  rewrite hs_shift.
  assert (Hhs : 0 <= hs s <= 2 ^ 15) by (destruct s; cbn; lia).
  destruct (Z.eqb_spec (E * 2 ^ 23) (255 * 2 ^ 23)) as [E255|E255].
  { assert (E = 255) by lia. rewrite (hs_lor s 0x7c00), <- (Z.lor_assoc (hs s + 0x7c00)) by lia. destruct (Z.eqb_spec M 0) as [->|HM0]; cbn [negb].
    - rewrite (Dinf H eq_refl). change (Z.lor 0 (Z.shiftr 0 13)) with 0. rewrite Z.lor_0_r.
      rewrite small_u16 by lia. split; [lia|apply dec16_inf].
    - destruct (Dnan H HM0) as [p ->].
      assert (Hsh : 0 <= Z.shiftr M 13 < 2 ^ 10).
      { rewrite Z.shiftr_div_pow2 by lia. split; [apply Z.div_pos; lia|apply Z.div_lt_upper_bound; lia]. }
      assert (Hp : 0 < Z.lor (Z.shiftr M 13) 512 < 1024).
      { assert (Hl0 : 0 <= Z.lor (Z.shiftr M 13) 512) by (apply Z.lor_nonneg; lia).
        assert (Hnz : Z.lor (Z.shiftr M 13) 512 <> 0) by (rewrite Z.lor_eq_0_iff; lia).
        split; [lia|]. apply Z.log2_lt_pow2 with (b := 10); [lia|]. rewrite Z.log2_lor by lia.
        apply Z.max_lub_lt; [|reflexivity]. destruct (Z.eq_dec (Z.shiftr M 13) 0) as [->|]; [reflexivity|]. apply Z.log2_lt_pow2; lia. }
      rewrite (Z.lor_comm 512). set (p0 := Z.lor (Z.shiftr M 13) 512) in *.
      rewrite (lor_add' _ _ 10) by (try lia; destruct s; reflexivity).
      rewrite small_u16 by lia. split; [lia|]. apply dec16_nan. exact Hp. }
  assert (HE' : 0 <= E < 255) by lia. destruct (Dfin ltac:(lia)) as (Df & Ds & Dv).
  (* zero and finite data *)
  assert (Hcase : forall r, 0 <= r < 2 ^ 16 -> rounded16 s (val (dec32 v)) (dec16 r) -> (val (dec32 v) = 0%R -> dec16 r = F754_zero s) ->
    0 <= r < 2 ^ 16 /\
    match dec32 v with
    | F754_nan s _ => exists p, dec16 r = F754_nan s p
    | F754_infinity s => dec16 r = F754_infinity s
    | F754_zero s => dec16 r = F754_zero s
    | F754_finite s _ _ => rounded16 s (val (dec32 v)) (dec16 r)
    end).
  { intros r Hr Hrr Hz. split; [exact Hr|]. destruct (dec32 v) as [s'|s'|s' p|s' m e]; try discriminate; cbn [sbit] in Ds; subst s'.
    - apply Hz. reflexivity.
    - exact Hrr. }
  rewrite (Z.shiftr_div_pow2 (E * 2 ^ 23)) by lia. rewrite Z.div_mul by lia.
  replace (E - 127 + 15) with (E - 112) by lia.
  assert (Hnz : E <> 0 -> val (dec32 v) <> 0%R).
  { intros H0. rewrite Dv. replace (E =? 0) with false by (symmetry; apply Z.eqb_neq; lia).
    apply F2R_neq_0. cbn [Fnum]. destruct s; cbn [cond_Zopp]; lia. }
  destruct (Z.leb_spec 0x1f (E - 112)) as [Hover|Hover].
  { rewrite hs_lor by lia. rewrite small_u16 by lia. apply Hcase; [lia| |].
    - rewrite Dv. replace (E =? 0) with false by (symmetry; apply Z.eqb_neq; lia). apply narrow_over; lia.
    - intros Hz. exfalso. apply Hnz; [lia|exact Hz]. }
  destruct (Z.leb_spec (E - 112) 0) as [Hsub|Hsub].
  - destruct (Z.ltb_spec 24 (14 - (E - 112))) as [Hun|Hun].
    + rewrite small_u16 by lia. apply Hcase; [lia| |].
      * rewrite Dv. destruct (Z.eqb_spec E 0) as [->|HE0].
        -- destruct (Z.eq_dec M 0) as [->|HM0].
           { replace (cond_Zopp s 0) with 0 by (destruct s; reflexivity). rewrite F2R_0.
             unfold rounded16, rnd16. rewrite round_0 by apply valid_rnd_N. rewrite Rabs_R0, Rlt_bool_true by apply bpow_gt_0.
             destruct s; repeat split. }
           replace (hs s) with (hs s + rne M 125) by (rewrite rne_small; lia).
           change (-149) with (1 - 150). apply narrow_sub; [lia|reflexivity|lia|apply cexp_small; lia].
        -- assert (Hz : rne (2 ^ 23 + M) (126 - E) = 0).
           { apply rne_small; [lia|]. split; [lia|]. apply Z.lt_le_trans with (2 ^ 25); [lia|]. apply Z.pow_le_mono_r; lia. }
           replace (hs s) with (hs s + rne (2 ^ 23 + M) (126 - E)) by lia.
           apply narrow_sub; [lia|reflexivity|lia|apply cexp_small; lia].
      * intros _. destruct s; reflexivity.
    + assert (HE0 : E <> 0) by lia.
      rewrite (Z.lor_comm M), (lor_add' 0x00800000 M 23) by (try lia; reflexivity). change 0x00800000 with (2 ^ 23).
      set (c := 2 ^ 23 + M). assert (Hc : 2 ^ 23 <= c < 2 ^ 24) by (unfold c; lia).
      rewrite (Z.shiftl_mul_pow2 1), Z.mul_1_l by lia.
      replace (13 - (E - 112)) with (126 - E - 1) by lia. replace (14 - (E - 112)) with (126 - E) in * by lia.
      set (k := 126 - E) in *.
      assert (Hk : 14 <= k <= 24) by (unfold k in *; lia).
      assert (Hpk : 2 ^ (k - 1) <= 2 ^ 23) by (apply Z.pow_le_mono_r; lia).
      rewrite (small_u32 (2 ^ (k - 1))) by lia. rewrite (small_u32 (3 * 2 ^ (k - 1) - 1)) by lia.
      pose proof (trick_spec c k ltac:(lia) ltac:(lia)) as Ht.
      assert (Hb : 0 <= rne c k <= 1024).
      { apply rne_bounds; [lia|]. split; [lia|]. apply Z.le_trans with (1024 * 2 ^ 14); [lia|].
        apply Z.mul_le_mono_nonneg_l; [lia|]. apply Z.pow_le_mono_r; lia. }
      set (b := negb _ && negb _) in *.
      assert (Hres : (if b then u32 (Z.shiftr c k + 1) else Z.shiftr c k) = rne c k).
      { destruct b; [rewrite small_u32 by lia|]; lia. }
      rewrite Hres. rewrite hs_lor by lia. rewrite small_u16 by lia. apply Hcase; [lia| |].
      * rewrite Dv. replace (E =? 0) with false by (symmetry; apply Z.eqb_neq; lia). fold c.
        apply narrow_sub; [lia|reflexivity|lia|apply cexp_small; lia].
      * intros Hz. exfalso. apply Hnz; [lia|exact Hz].
  - assert (HE0 : E <> 0) by lia. rewrite (Z.shiftl_mul_pow2 (E - 112)) by lia.
    rewrite (small_u32 ((E - 112) * 2 ^ 10)) by lia.
    rewrite (hs_lor s ((E - 112) * 2 ^ 10)) by lia.
    assert (Hsh : 0 <= Z.shiftr M 13 < 2 ^ 10).
    { rewrite Z.shiftr_div_pow2 by lia. split; [apply Z.div_pos; lia|apply Z.div_lt_upper_bound; lia]. }
    assert (Hmod : (hs s + (E - 112) * 2 ^ 10) mod 2 ^ 10 = 0).
    { rewrite Z_mod_plus_full. destruct s; reflexivity. }
    rewrite (lor_add' _ _ 10) by lia.
    pose proof (trick_spec M 13 ltac:(lia) ltac:(lia)) as Ht. change (13 - 1) with 12 in Ht. change (2 ^ 12) with 0x1000 in Ht.
    set (b := negb _ && negb _) in *.
    assert (Hrc : rne (2 ^ 23 + M) 13 = 1024 + rne M 13).
    { unfold rne. replace (2 ^ 23 + M) with (M + 1024 * 2 ^ 13) by lia. rewrite Z.div_add, Z_mod_plus_full by lia.
      rewrite Z.odd_add. change (Z.odd 1024) with false. rewrite xorb_false_r.
      destruct ((2 ^ 13 <? 2 * (M mod 2 ^ 13)) || _); lia. }
    pose proof (rne_bounds M 13 0 1024 ltac:(lia) ltac:(lia)) as Hb.
    assert (Hfin : forall r, r = hs s + (E - 112) * 2 ^ 10 + rne M 13 -> 0 <= r < 2 ^ 16 -> 0 <= r < 2 ^ 16 /\
      match dec32 v with
      | F754_nan s _ => exists p, dec16 r = F754_nan s p
      | F754_infinity s => dec16 r = F754_infinity s
      | F754_zero s => dec16 r = F754_zero s
      | F754_finite s _ _ => rounded16 s (val (dec32 v)) (dec16 r)
      end).
    { intros r Er Hr. apply Hcase; [exact Hr| |intros Hz; exfalso; apply Hnz; [lia|exact Hz]].
      rewrite Dv. replace (E =? 0) with false by (symmetry; apply Z.eqb_neq; lia).
      pose proof (narrow_normal s E M HM ltac:(lia)) as Hn. rewrite Hrc in Hn.
      replace (hs s + (E - 112) * 2 ^ 10 + (1024 + rne M 13 - 1024)) with r in Hn by lia. exact Hn. }
    destruct b.
    + rewrite (small_u32 (_ + 1)) by lia. rewrite small_u16 by lia. apply Hfin; lia.
    + rewrite small_u16 by lia. apply Hfin; lia.
Qed.
