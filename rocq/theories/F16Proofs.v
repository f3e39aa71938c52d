(** * F16Proofs: conversions and arithmetic of 16-bit floats *)
From Coq Require Import ZArith Bool Reals Lia Lra.
From Flocq Require Import Core.Core IEEE754.BinarySingleNaN IEEE754.Binary IEEE754.Bits Double_rounding.
From Verif Require Import ModelF16.
Open Scope Z_scope.

(** The datum that a bit pattern denotes in the two interchange formats. *)
Definition dec16 : Z -> full_float := binary_float_of_bits_aux 10 5.
Definition dec32 : Z -> full_float := binary_float_of_bits_aux 23 8.
Definition val (f : full_float) : R := FF2R radix2 f.

(** ** Checking all patterns of a few bits *)
Fixpoint allb (k : nat) (b : Z) (f : Z -> bool) : bool :=
  match k with O => f b | S k => allb k (2 * b) f && allb k (2 * b + 1) f end.
Lemma allb_spec k : forall b f, allb k b f = true ->
  forall x, b * 2 ^ Z.of_nat k <= x < (b + 1) * 2 ^ Z.of_nat k -> f x = true.
Proof.
  induction k as [|k IH]; intros b f E x Hx; cbn [allb] in E.
  - change (2 ^ Z.of_nat 0) with 1 in Hx. replace x with b by lia. exact E.
  - apply andb_prop in E as [E1 E2]. rewrite Nat2Z.inj_succ, Z.pow_succ_r in Hx by lia.
    destruct (Z_lt_ge_dec x ((2 * b + 1) * 2 ^ Z.of_nat k)).
    + apply (IH _ _ E1). lia.
    + apply (IH _ _ E2). lia.
Qed.
Lemma all16 f : allb 16 0 f = true -> forall x, 0 <= x < 2 ^ 16 -> f x = true.
Proof. intros E x Hx. apply (allb_spec _ _ _ E). change (Z.of_nat 16) with 16. lia. Qed.

(** Same datum, with the significand scaled to the wider format. *)
Definition same_datum (h f : full_float) : bool :=
  match h, f with
  | F754_zero s, F754_zero s' => eqb s s'
  | F754_infinity s, F754_infinity s' => eqb s s'
  | F754_nan s _, F754_nan s' _ => eqb s s'
  | F754_finite s m e, F754_finite s' m' e' =>
      eqb s s' && (e' <=? e) && (Z.pos m' =? Z.pos m * 2 ^ (e - e'))
  | _, _ => false
  end.

Lemma same_val h f : same_datum h f = true -> val h = val f.
Proof.
  unfold val. destruct h as [s|s|s p|s m e], f as [s'|s'|s' p'|s' m' e']; cbn [same_datum]; try discriminate; try reflexivity.
  intros E. cbn [FF2R]. apply andb_prop in E as [E Em]. apply andb_prop in E as [Es Ee].
  apply eqb_prop in Es as <-. apply Z.leb_le in Ee. apply Z.eqb_eq in Em.
  rewrite (F2R_change_exp radix2 e' _ e Ee). f_equal. f_equal.
  destruct s; cbn [SpecFloat.cond_Zopp cond_Zopp]; rewrite Em; unfold radix2; cbn [radix_val]; lia.
Qed.

Definition widen_ok (x : Z) : bool :=
  same_datum (dec16 x) (dec32 (f16bitsToF32bits x)) && (0 <=? f16bitsToF32bits x) && (f16bitsToF32bits x <? 2 ^ 32).
Lemma widen_all : allb 16 0 widen_ok = true.
Proof. vm_cast_no_check (eq_refl true). Qed.

Theorem widen_datum x : 0 <= x < 2 ^ 16 ->
  same_datum (dec16 x) (dec32 (f16bitsToF32bits x)) = true /\ 0 <= f16bitsToF32bits x < 2 ^ 32.
Proof.
  intros Hx. pose proof (all16 _ widen_all x Hx) as E. unfold widen_ok in E.
  apply andb_prop in E as [E E2]. apply andb_prop in E as [E1 E0]. split; [exact E1|].
  apply Z.leb_le in E0. apply Z.ltb_lt in E2. lia.
Qed.

Definition back_ok (x : Z) : bool :=
  (F16_IsNaN x && negb (F16_IsQuietNaN x)) || (f32bitsToF16bits (f16bitsToF32bits x) =? x).
Lemma back_all : allb 16 0 back_ok = true.
Proof. vm_cast_no_check (eq_refl true). Qed.
Theorem widen_narrow x : 0 <= x < 2 ^ 16 -> F16_IsNaN x = false \/ F16_IsQuietNaN x = true ->
  f32bitsToF16bits (f16bitsToF32bits x) = x.
Proof.
  intros Hx Hn. pose proof (all16 _ back_all x Hx) as E. unfold back_ok in E.
  apply orb_prop in E as [E|E]; [|apply Z.eqb_eq; exact E].
  apply andb_prop in E as [E1 E2]. destruct Hn as [Hn|Hn]; rewrite Hn in *; discriminate.
Qed.

(** A NaN becomes quiet and keeps its payload. *)
Definition quiet_ok (x : Z) : bool :=
  negb (F16_IsNaN x) ||
  match dec16 x, dec32 (f16bitsToF32bits x) with
  | F754_nan s p, F754_nan s' q => eqb s s' && (Z.pos q =? Z.lor (Z.pos p * 2 ^ 13) (2 ^ 22))
  | _, _ => false
  end.
Lemma quiet_all : allb 16 0 quiet_ok = true.
Proof. vm_cast_no_check (eq_refl true). Qed.
Theorem widen_nan x : 0 <= x < 2 ^ 16 -> F16_IsNaN x = true ->
  exists s p q, dec16 x = F754_nan s p /\ dec32 (f16bitsToF32bits x) = F754_nan s q /\ Z.pos q = Z.lor (Z.pos p * 2 ^ 13) (2 ^ 22).
Proof.
  intros Hx Hn. pose proof (all16 _ quiet_all x Hx) as E. unfold quiet_ok in E. rewrite Hn in E. cbn [negb orb] in E.
  destruct (dec16 x) as [| |s p|]; try discriminate. destruct (dec32 _) as [| |s' q|]; try discriminate.
  apply andb_prop in E as [E1 E2]. apply eqb_prop in E1 as <-. apply Z.eqb_eq in E2. eauto 6.
Qed.

(** Predicates on bit patterns *)
Definition kinds_ok (x : Z) : bool :=
  let f := dec16 x in
  eqb (F16_IsNaN x) (match f with F754_nan _ _ => true | _ => false end) &&
  eqb (F16_IsInf x 1) (match f with F754_infinity false => true | _ => false end) &&
  eqb (F16_IsInf x (-1)) (match f with F754_infinity true => true | _ => false end) &&
  eqb (F16_IsInf x 0) (match f with F754_infinity _ => true | _ => false end) &&
  eqb (F16_IsFinite x) (match f with F754_finite _ _ _ | F754_zero _ => true | _ => false end) &&
  eqb (F16_IsNormal x) (match f with F754_finite _ m _ => 1024 <=? Z.pos m | _ => false end) &&
  eqb (F16_Signbit x) (match f with F754_finite s _ _ | F754_zero s | F754_infinity s | F754_nan s _ => s end).
Lemma kinds_all : allb 16 0 kinds_ok = true.
Proof. vm_cast_no_check (eq_refl true). Qed.

(** ** Fields of a word *)
Lemma land_field v k j : 0 <= j -> 0 <= k -> Z.land v (Z.shiftl (Z.ones k) j) = ((v / 2 ^ j) mod 2 ^ k) * 2 ^ j.
Proof.
  intros Hj Hk. rewrite <- Z.shiftl_mul_pow2, <- Z.land_ones, <- Z.shiftr_div_pow2 by assumption.
  apply Z.bits_inj'. intros n Hn. rewrite Z.land_spec, !Z.shiftl_spec by assumption.
  destruct (Z_lt_ge_dec n j).
  - rewrite !(Z.testbit_neg_r _ (n - j)) by lia. apply andb_false_r.
  - rewrite Z.land_spec, Z.shiftr_spec by lia. replace (n - j + j) with n by lia. reflexivity.
Qed.
Lemma lor_add a b n : 0 <= n -> 0 <= b < 2 ^ n -> Z.lor (a * 2 ^ n) b = a * 2 ^ n + b.
Proof.
  intros Hn Hb. assert (Hz : Z.land (a * 2 ^ n) b = 0).
  { rewrite <- Z.shiftl_mul_pow2 by assumption. apply Z.bits_inj'. intros i Hi. rewrite Z.land_spec, Z.bits_0, Z.shiftl_spec by assumption.
    destruct (Z_lt_ge_dec i n).
    - rewrite (Z.testbit_neg_r _ (i - n)) by lia. reflexivity.
    - destruct (Z.eq_dec b 0) as [->|]; [rewrite Z.bits_0; apply andb_false_r|].
      rewrite (Z.bits_above_log2 b i); [apply andb_false_r|lia|].
      assert (Z.log2 b < n) by (apply Z.log2_lt_pow2; lia). lia. }
  rewrite Z.add_nocarry_lxor by exact Hz. symmetry. apply Z.lxor_lor. exact Hz.
Qed.
Lemma lor_add' a b n : 0 <= n -> 0 <= b < 2 ^ n -> a mod 2 ^ n = 0 -> Z.lor a b = a + b.
Proof.
  intros Hn Hb Ha. assert (E : a = (a / 2 ^ n) * 2 ^ n).
  { pose proof (Z.div_mod a (2 ^ n)) as E. assert (2 ^ n <> 0) by lia. specialize (E H). lia. }
  rewrite E. apply lor_add; assumption.
Qed.

(** ** Rounding a significand to fewer bits, ties to even *)
Definition rne (c k : Z) : Z :=
  let q := c / 2 ^ k in let r := c mod 2 ^ k in
  if (2 ^ k <? 2 * r) || ((2 ^ k =? 2 * r) && Z.odd q) then q + 1 else q.

Lemma rne_real c k : 0 <= k -> ZnearestE (IZR c / IZR (2 ^ k)) = rne c k.
Proof.
  intros Hk. assert (Hp : 0 < 2 ^ k) by lia.
  assert (HpR : (0 < IZR (2 ^ k))%R) by (apply IZR_lt; exact Hp).
  set (q := c / 2 ^ k). set (r := c mod 2 ^ k).
  assert (Hc : c = q * 2 ^ k + r) by (unfold q, r; pose proof (Z.div_mod c (2 ^ k)); lia).
  assert (Hr : 0 <= r < 2 ^ k) by (apply Z.mod_pos_bound; exact Hp).
  assert (Hx : (IZR c / IZR (2 ^ k) = IZR q + IZR r / IZR (2 ^ k))%R).
  { rewrite Hc, plus_IZR, mult_IZR. field. lra. }
  assert (Hf : Zfloor (IZR c / IZR (2 ^ k)) = q) by (apply Zfloor_div; lia).
  unfold rne. fold q. fold r. unfold Znearest. rewrite Hf, Hx.
  replace (IZR q + IZR r / IZR (2 ^ k) - IZR q)%R with (IZR r / IZR (2 ^ k))%R by ring.
  assert (Hcmp : Rcompare (IZR r / IZR (2 ^ k)) (/ 2) = Rcompare (IZR (2 * r)) (IZR (2 ^ k))).
  { rewrite <- (Rcompare_mult_r (2 * IZR (2 ^ k))) by lra. f_equal.
    - rewrite mult_IZR. field. lra.
    - field. }
  rewrite Hcmp, Rcompare_IZR.
  assert (Hce : r <> 0 -> Zceil (IZR c / IZR (2 ^ k)) = q + 1).
  { intros Hr0. rewrite Zceil_floor_neq; [rewrite Hf; reflexivity|]. rewrite Hf, Hx. intros E.
    assert (0 < IZR r / IZR (2 ^ k))%R. { apply Rdiv_lt_0_compat; [apply IZR_lt; lia|exact HpR]. } lra. }
  rewrite <- Hx.
  destruct (Z.compare_spec (2 * r) (2 ^ k)) as [E|E|E].
  - replace (2 ^ k <? 2 * r) with false by (symmetry; apply Z.ltb_ge; lia).
    replace (2 ^ k =? 2 * r) with true by (symmetry; apply Z.eqb_eq; lia). cbn [orb andb].
    rewrite <- Z.negb_even. destruct (Z.even q); cbn [negb]; [reflexivity|apply Hce; lia].
  - replace (2 ^ k <? 2 * r) with false by (symmetry; apply Z.ltb_ge; lia).
    replace (2 ^ k =? 2 * r) with false by (symmetry; apply Z.eqb_neq; lia). reflexivity.
  - replace (2 ^ k <? 2 * r) with true by (symmetry; apply Z.ltb_lt; lia). cbn [orb]. apply Hce. lia.
Qed.

(** The bit trick of the code. *)
Lemma land_low v n : 0 <= n -> Z.land v (2 ^ n - 1) = v mod 2 ^ n.
Proof. intros Hn. rewrite <- Z.land_ones by exact Hn. f_equal. rewrite Z.ones_equiv. lia. Qed.
Lemma land_bit v n : 0 <= n -> Z.land v (2 ^ n) = (v / 2 ^ n mod 2) * 2 ^ n.
Proof. intros Hn. pose proof (land_field v 1 n Hn ltac:(lia)) as E. rewrite Z.shiftl_mul_pow2 in E by exact Hn. change (Z.ones 1) with 1 in E. rewrite Z.mul_1_l in E. exact E. Qed.

Lemma trick_spec c k : 1 <= k -> 0 <= c ->
  Z.shiftr c k + (if negb (Z.land c (2 ^ (k - 1)) =? 0) && negb (Z.land c (3 * 2 ^ (k - 1) - 1) =? 0) then 1 else 0) = rne c k.
Proof.
  intros Hk Hc. rewrite Z.shiftr_div_pow2 by lia. unfold rne.
  set (h := 2 ^ (k - 1)). assert (Hh : 0 < h) by (unfold h; lia).
  assert (H2 : 2 ^ k = 2 * h) by (unfold h; rewrite <- Z.pow_succ_r by lia; f_equal; lia).
  assert (Hm : 3 * h - 1 = Z.lor (1 * 2 ^ k) (2 ^ (k - 1) - 1)).
  { rewrite lor_add; fold h; lia. }
  rewrite Hm, Z.land_lor_distr_r, Z.mul_1_l, land_bit, land_low by lia. fold h.
  unfold h at 1. rewrite land_bit by lia. fold h.
  set (q := c / 2 ^ k). set (r := c mod 2 ^ k).
  assert (Hcq : c = q * (2 * h) + r) by (unfold q, r; pose proof (Z.div_mod c (2 ^ k)); lia).
  assert (Hr : 0 <= r < 2 * h) by (unfold r; rewrite <- H2; apply Z.mod_pos_bound; lia).
  assert (Hdb : c / h mod 2 = if h <=? r then 1 else 0).
  { destruct (Z.leb_spec h r).
    - replace (c / h) with (q * 2 + 1).
      + rewrite Z.add_comm, Z_mod_plus_full. reflexivity.
      + apply (Z.div_unique_pos c h (q * 2 + 1) (r - h)); lia.
    - replace (c / h) with (q * 2).
      + rewrite <- (Z.add_0_l (q * 2)), Z_mod_plus_full. reflexivity.
      + apply (Z.div_unique_pos c h (q * 2) r); lia. }
  assert (Hlow : c mod h = if h <=? r then r - h else r).
  { destruct (Z.leb_spec h r); symmetry.
    - apply (Z.mod_unique_pos c h (q * 2 + 1)); lia.
    - apply (Z.mod_unique_pos c h (q * 2)); lia. }
  rewrite Hdb, Hlow, H2.
  assert (Hlz : Z.lor (q mod 2 * (2 * h)) (if h <=? r then r - h else r) = 0 <-> q mod 2 = 0 /\ (if h <=? r then r - h else r) = 0).
  { rewrite Z.lor_eq_0_iff. split; intros [A B]; (split; [|exact B]); nia. }
  assert (Hodd : Z.odd q = negb (q mod 2 =? 0)).
  { rewrite Zmod_odd. destruct (Z.odd q); reflexivity. }
  rewrite Hodd. destruct (Z.leb_spec h r) as [Hle|Hlt].
  - rewrite Z.mul_1_l. replace (h =? 0) with false by (symmetry; apply Z.eqb_neq; lia). cbn [negb andb].
    destruct (Z.eqb_spec (Z.lor (q mod 2 * (2 * h)) (r - h)) 0) as [E|E].
    + apply Hlz in E as [E1 E2]. rewrite E1. cbn [Z.eqb negb andb]. rewrite andb_false_r, orb_false_r.
      replace (2 * h <? 2 * r) with false by (symmetry; apply Z.ltb_ge; lia). lia.
    + cbn [negb]. destruct (Z.ltb_spec (2 * h) (2 * r)); [reflexivity|]. cbn [orb].
      replace (2 * h =? 2 * r) with true by (symmetry; apply Z.eqb_eq; lia).
      destruct (Z.eqb_spec (q mod 2) 0) as [E1|]; [|reflexivity].
      exfalso. apply E, Hlz. split; [exact E1|lia].
  - rewrite Z.mul_0_l. cbn [Z.eqb negb andb].
    replace (2 * h <? 2 * r) with false by (symmetry; apply Z.ltb_ge; lia).
    replace (2 * h =? 2 * r) with false by (symmetry; apply Z.eqb_neq; lia). cbn. lia.
Qed.
