(** * F16Arith: float16 arithmetic and comparison *)
From Coq Require Import ZArith Bool Reals Lia Lra.
From Flocq Require Import Core.Core IEEE754.BinarySingleNaN IEEE754.Binary IEEE754.Bits Double_rounding.
From Verif Require Import ModelF16 F16Proofs F16Round.
Open Scope Z_scope.

(** ** binary32 data *)
Definition R32 (x : binary32) : R := B2R 24 128 x.
Definition fin32 (x : binary32) : bool := is_finite 24 128 x.
Definition sgn32 (x : binary32) : bool := Bsign 24 128 x.

Lemma dec32_bits (x : binary32) : dec32 (bits_of_b32 x) = B2FF 24 128 x.
Proof.
  pose proof (binary_float_of_bits_of_binary_float 23 8 eq_refl eq_refl eq_refl x) as H.
  apply (f_equal (B2FF 24 128)) in H. rewrite <- H. symmetry.
  exact (B2FF_FF2B 24 128 _ (binary_float_of_bits_aux_correct 23 8 eq_refl eq_refl eq_refl _)).
Qed.
Lemma bits_range (x : binary32) : 0 <= bits_of_b32 x < 2 ^ 32.
Proof. exact (bits_of_binary_float_range 23 8 eq_refl eq_refl x). Qed.

Lemma B2FF_G32 p : B2FF 24 128 (G32 p) = dec32 (f16bitsToF32bits p).
Proof. exact (B2FF_FF2B 24 128 _ (binary_float_of_bits_aux_correct 23 8 eq_refl eq_refl eq_refl _)). Qed.

Lemma G32_spec p : 0 <= p < 2 ^ 16 -> finite (dec16 p) = true ->
  R32 (G32 p) = val (dec16 p) /\ fin32 (G32 p) = true /\ sgn32 (G32 p) = sbit (dec16 p).
Proof.
  intros Hp Hf. destruct (widen_datum p Hp) as [Hs _]. unfold R32, fin32, sgn32.
  rewrite <- FF2R_B2FF.
  pose proof (same_val _ _ Hs) as Hv. rewrite <- B2FF_G32 in *.
  split; [symmetry; exact Hv|].
  destruct (dec16 p) as [s|s|s pl|s m e]; try discriminate; destruct (G32 p) as [s'|s'|s' pl' H'|s' m' e' H'];
    cbn [B2FF same_datum] in Hs; try discriminate; cbn [is_finite Bsign sbit]; split; try reflexivity.
  - symmetry. apply eqb_prop. exact Hs.
  - apply andb_prop in Hs as [Hs _]. apply andb_prop in Hs as [Hs _]. symmetry. apply eqb_prop. exact Hs.
Qed.

Lemma format16 p : generic_format radix2 fexp16 (val (dec16 p)) /\ (Rabs (val (dec16 p)) < bpow radix2 16)%R.
Proof.
  pose proof (binary_float_of_bits_aux_correct 10 5 eq_refl eq_refl eq_refl p) as Hv.
  change (binary_float_of_bits_aux 10 5 p) with (dec16 p) in Hv.
  unfold val. rewrite <- (B2R_FF2B _ _ _ Hv). split.
  - exact (generic_format_B2R 11 16 (FF2B 11 16 (dec16 p) Hv)).
  - exact (abs_B2R_lt_emax 11 16 (FF2B 11 16 (dec16 p) Hv)).
Qed.

Lemma narrow_finite (z : binary32) : fin32 z = true ->
  0 <= F16fromF32 z < 2 ^ 16 /\ rounded16 (sgn32 z) (R32 z) (dec16 (F16fromF32 z)).
Proof.
  intros Hf. unfold F16fromF32. pose proof (narrow_spec _ (bits_range z)) as [Hr Hn]. split; [exact Hr|].
  rewrite dec32_bits in Hn. unfold R32, sgn32. rewrite <- FF2R_B2FF.
  destruct z as [s|s|s pl H|s m e H]; try discriminate; cbn [B2FF Bsign] in *.
  - unfold rounded16, rnd16. cbn [FF2R]. rewrite round_0 by apply valid_rnd_N.
    rewrite Rabs_R0, Rlt_bool_true by apply bpow_gt_0. rewrite Hn. split; [reflexivity|]. split; reflexivity.
  - exact Hn.
Qed.

Lemma narrow_nan (z : binary32) : is_nan 24 128 z = true -> exists s p, dec16 (F16fromF32 z) = F754_nan s p.
Proof.
  intros Hf. unfold F16fromF32. pose proof (narrow_spec _ (bits_range z)) as [Hr Hn].
  rewrite dec32_bits in Hn. destruct z as [s|s|s pl H|s m e H]; try discriminate. cbn [B2FF] in Hn. eauto.
Qed.

(** ** The exact operations, and the sign of a zero result *)
Definition sign_of (r : R) (zero : bool) : bool :=
  match Rcompare r 0 with Lt => true | Gt => false | Eq => zero end.

Definition fexp32 : Z -> Z := FLT_exp (-149) 24.
Definition rnd32 (x : R) : R := round radix2 fexp32 ZnearestE x.

#[local] Instance prec11 : Prec_gt_0 11. Proof. reflexivity. Qed.
#[local] Instance prec24 : Prec_gt_0 24. Proof. reflexivity. Qed.

Lemma rnd32_small r k : -149 < k <= 127 -> (Rabs r <= bpow radix2 k)%R -> Rlt_bool (Rabs (rnd32 r)) (bpow radix2 128) = true.
Proof.
  intros Hk Hr. apply Rlt_bool_true. apply Rle_lt_trans with (bpow radix2 k).
  - apply abs_round_le_generic; try typeclasses eauto; [|exact Hr].
    apply generic_format_bpow. unfold fexp32, FLT_exp. lia.
  - apply bpow_lt. lia.
Qed.

Section Ops.
Variables (x y : Z).
Hypothesis (Hx : 0 <= x < 2 ^ 16) (Hy : 0 <= y < 2 ^ 16).
Hypothesis (Fx : finite (dec16 x) = true) (Fy : finite (dec16 y) = true).

Lemma FLT16 p : FLT_format radix2 (-24) 11 (val (dec16 p)).
Proof. apply FLT_format_generic; [exact prec11|]. apply format16. Qed.

Theorem add_rounded :
  0 <= F16_Add x y < 2 ^ 16 /\
  let r := (val (dec16 x) + val (dec16 y))%R in
  rounded16 (sign_of r (sbit (dec16 x) && sbit (dec16 y))) r (dec16 (F16_Add x y)).
Proof.
  destruct (G32_spec x Hx Fx) as (Rx & Bx & Sx), (G32_spec y Hy Fy) as (Ry & By & Sy).
  pose proof (Bplus_correct 24 128 eq_refl eq_refl binop_nan_pl32 mode_NE (G32 x) (G32 y) Bx By) as H.
  change (B2R 24 128) with R32 in H. rewrite Rx, Ry in H.
  change (round radix2 (SpecFloat.fexp 24 128) (round_mode mode_NE)) with rnd32 in H.
  destruct (format16 x) as [_ Mx], (format16 y) as [_ My].
  rewrite (rnd32_small _ 17) in H; [|lia|].
  2:{ eapply Rle_trans; [apply Rabs_triang|]. change 17 with (16 + 1). rewrite bpow_plus. change (bpow radix2 1) with 2%R. lra. }
  destruct H as (H1 & H2 & H3). unfold F16_Add.
  change (Bplus 24 128 eq_refl eq_refl binop_nan_pl32 mode_NE (G32 x) (G32 y)) with (b32_plus mode_NE (G32 x) (G32 y)) in *.
  destruct (narrow_finite _ H2) as [Hr Hn]. split; [exact Hr|]. set (r := (val (dec16 x) + val (dec16 y))%R) in *. cbv zeta.
  unfold sgn32 in Hn. rewrite H3, H1 in Hn. unfold sgn32 in Sx, Sy. rewrite Sx, Sy in Hn.
  assert (DR : rnd16 (rnd32 r) = rnd16 r) by (apply round_round_plus_FLT; [exact prec11|exact prec24|lia|lia|apply FLT16|apply FLT16]).
  unfold rounded16 in *. rewrite DR in Hn.
  exact Hn.
Qed.

Theorem sub_rounded :
  0 <= F16_Sub x y < 2 ^ 16 /\
  let r := (val (dec16 x) - val (dec16 y))%R in
  rounded16 (sign_of r (sbit (dec16 x) && negb (sbit (dec16 y)))) r (dec16 (F16_Sub x y)).
Proof.
  destruct (G32_spec x Hx Fx) as (Rx & Bx & Sx), (G32_spec y Hy Fy) as (Ry & By & Sy).
  pose proof (Bminus_correct 24 128 eq_refl eq_refl binop_nan_pl32 mode_NE (G32 x) (G32 y) Bx By) as H.
  change (B2R 24 128) with R32 in H. rewrite Rx, Ry in H.
  change (round radix2 (SpecFloat.fexp 24 128) (round_mode mode_NE)) with rnd32 in H.
  destruct (format16 x) as [_ Mx], (format16 y) as [_ My].
  rewrite (rnd32_small _ 17) in H; [|lia|].
  2:{ unfold Rminus. eapply Rle_trans; [apply Rabs_triang|]. rewrite Rabs_Ropp. change 17 with (16 + 1). rewrite bpow_plus. change (bpow radix2 1) with 2%R. lra. }
  destruct H as (H1 & H2 & H3). unfold F16_Sub.
  change (Bminus 24 128 eq_refl eq_refl binop_nan_pl32 mode_NE (G32 x) (G32 y)) with (b32_minus mode_NE (G32 x) (G32 y)) in *.
  destruct (narrow_finite _ H2) as [Hr Hn]. split; [exact Hr|]. set (r := (val (dec16 x) - val (dec16 y))%R) in *. cbv zeta.
  unfold sgn32 in Hn. rewrite H3, H1 in Hn. unfold sgn32 in Sx, Sy. rewrite Sx, Sy in Hn.
  assert (DR : rnd16 (rnd32 r) = rnd16 r) by (apply round_round_minus_FLT; [exact prec11|exact prec24|lia|lia|apply FLT16|apply FLT16]).
  unfold rounded16 in *. rewrite DR in Hn.
  exact Hn.
Qed.

Lemma fin_not_nan (z : binary32) : is_finite 24 128 z = true -> is_nan 24 128 z = false.
Proof. destruct z; (discriminate || reflexivity). Qed.

Theorem mul_rounded :
  0 <= F16_Mul x y < 2 ^ 16 /\
  rounded16 (xorb (sbit (dec16 x)) (sbit (dec16 y))) (val (dec16 x) * val (dec16 y)) (dec16 (F16_Mul x y)).
Proof.
  destruct (G32_spec x Hx Fx) as (Rx & Bx & Sx), (G32_spec y Hy Fy) as (Ry & By & Sy).
  pose proof (Bmult_correct 24 128 eq_refl eq_refl binop_nan_pl32 mode_NE (G32 x) (G32 y)) as H.
  change (B2R 24 128) with R32 in H. rewrite Rx, Ry in H.
  change (round radix2 (SpecFloat.fexp 24 128) (round_mode mode_NE)) with rnd32 in H.
  destruct (format16 x) as [_ Mx], (format16 y) as [_ My].
  rewrite (rnd32_small _ 32) in H; [|lia|].
  2:{ rewrite Rabs_mult. change 32 with (16 + 16). rewrite bpow_plus. apply Rmult_le_compat; try apply Rabs_pos; lra. }
  destruct H as (H1 & H2 & H3). unfold F16_Mul. unfold fin32 in Bx, By. rewrite Bx, By in H2. cbn [andb] in H2.
  specialize (H3 (fin_not_nan _ H2)).
  change (Bmult 24 128 eq_refl eq_refl binop_nan_pl32 mode_NE (G32 x) (G32 y)) with (b32_mult mode_NE (G32 x) (G32 y)) in *.
  destruct (narrow_finite _ H2) as [Hr Hn]. split; [exact Hr|]. set (r := (val (dec16 x) * val (dec16 y))%R) in *.
  unfold sgn32 in Hn. rewrite H3, H1 in Hn. unfold sgn32 in Sx, Sy. rewrite Sx, Sy in Hn.
  assert (DR : rnd16 (rnd32 r) = rnd16 r) by (apply round_round_mult_FLT; [typeclasses eauto|lia|lia|apply FLT16|apply FLT16]).
  unfold rounded16 in *. rewrite DR in Hn.
  exact Hn.
Qed.

Lemma tiny p : (val (dec16 p) <> 0)%R -> (bpow radix2 (-24) <= Rabs (val (dec16 p)))%R.
Proof.
  intros H. apply (generic_format_ge_bpow radix2 fexp16).
  - intros e. unfold fexp16, FLT_exp. lia.
  - apply Rabs_pos_lt. exact H.
  - apply generic_format_abs. apply format16.
Qed.

Theorem div_rounded : (val (dec16 y) <> 0)%R ->
  0 <= F16_Div x y < 2 ^ 16 /\
  rounded16 (xorb (sbit (dec16 x)) (sbit (dec16 y))) (val (dec16 x) / val (dec16 y)) (dec16 (F16_Div x y)).
Proof.
  intros Hy0. destruct (G32_spec x Hx Fx) as (Rx & Bx & Sx), (G32_spec y Hy Fy) as (Ry & By & Sy).
  pose proof (Bdiv_correct 24 128 eq_refl eq_refl binop_nan_pl32 mode_NE (G32 x) (G32 y)) as H.
  change (B2R 24 128) with R32 in H. rewrite Rx, Ry in H. specialize (H Hy0).
  change (round radix2 (SpecFloat.fexp 24 128) (round_mode mode_NE)) with rnd32 in H.
  destruct (format16 x) as [_ Mx]. pose proof (tiny y Hy0) as My.
  rewrite (rnd32_small _ 40) in H; [|lia|].
  2:{ unfold Rdiv. rewrite Rabs_mult, Rabs_inv. change 40 with (16 + - -24). rewrite bpow_plus, bpow_opp.
      apply Rmult_le_compat; [apply Rabs_pos|left; apply Rinv_0_lt_compat, Rabs_pos_lt; exact Hy0|lra|].
      apply Rinv_le; [apply bpow_gt_0|exact My]. }
  destruct H as (H1 & H2 & H3). unfold F16_Div. unfold fin32 in Bx. rewrite Bx in H2.
  specialize (H3 (fin_not_nan _ H2)).
  change (Bdiv 24 128 eq_refl eq_refl binop_nan_pl32 mode_NE (G32 x) (G32 y)) with (b32_div mode_NE (G32 x) (G32 y)) in *.
  destruct (narrow_finite _ H2) as [Hr Hn]. split; [exact Hr|]. set (r := (val (dec16 x) / val (dec16 y))%R) in *.
  unfold sgn32 in Hn. rewrite H3, H1 in Hn. unfold sgn32 in Sx, Sy. rewrite Sx, Sy in Hn.
  assert (DR : rnd16 (rnd32 r) = rnd16 r) by (apply round_round_div_FLT; [exact prec11|exact prec24|exists 1; reflexivity|lia|lia|exact Hy0|apply FLT16|apply FLT16]).
  unfold rounded16 in *. rewrite DR in Hn.
  exact Hn.
Qed.
End Ops.

(** ** Operands that are not finite numbers, and division by zero *)
Definition isnan (f : full_float) : bool := match f with F754_nan _ _ => true | _ => false end.

Lemma G32_nan p : 0 <= p < 2 ^ 16 -> isnan (dec16 p) = true -> is_nan 24 128 (G32 p) = true.
Proof.
  intros Hp Hn. destruct (widen_datum p Hp) as [Hs _]. rewrite <- B2FF_G32 in Hs.
  destruct (dec16 p); try discriminate. destruct (G32 p); cbn [B2FF same_datum] in Hs; try discriminate. reflexivity.
Qed.
Lemma G32_kind p : 0 <= p < 2 ^ 16 ->
  match dec16 p with
  | F754_nan s _ => is_nan 24 128 (G32 p) = true
  | F754_infinity s => G32 p = B754_infinity 24 128 s
  | F754_zero s => G32 p = B754_zero 24 128 s
  | F754_finite s _ _ => exists m e H, G32 p = B754_finite 24 128 s m e H
  end.
Proof.
  intros Hp. destruct (widen_datum p Hp) as [Hs _]. rewrite <- B2FF_G32 in Hs.
  destruct (dec16 p); destruct (G32 p); cbn [B2FF same_datum] in Hs; try discriminate; try reflexivity.
  - apply eqb_prop in Hs as ->. reflexivity.
  - apply eqb_prop in Hs as ->. reflexivity.
  - apply andb_prop in Hs as [Hs _]. apply andb_prop in Hs as [Hs _]. apply eqb_prop in Hs as ->. eauto.
Qed.

Lemma nan_ops (x y : binary32) : is_nan 24 128 x = true \/ is_nan 24 128 y = true ->
  is_nan 24 128 (b32_plus mode_NE x y) = true /\ is_nan 24 128 (b32_minus mode_NE x y) = true /\
  is_nan 24 128 (b32_mult mode_NE x y) = true /\ is_nan 24 128 (b32_div mode_NE x y) = true.
Proof. destruct x, y; intros [H|H]; try discriminate H; repeat split; reflexivity. Qed.

Theorem nan_propagates x y : 0 <= x < 2 ^ 16 -> 0 <= y < 2 ^ 16 -> isnan (dec16 x) = true \/ isnan (dec16 y) = true ->
  isnan (dec16 (F16_Add x y)) = true /\ isnan (dec16 (F16_Sub x y)) = true /\
  isnan (dec16 (F16_Mul x y)) = true /\ isnan (dec16 (F16_Div x y)) = true.
Proof.
  intros Hx Hy Hn.
  assert (Hn' : is_nan 24 128 (G32 x) = true \/ is_nan 24 128 (G32 y) = true)
    by (destruct Hn; [left|right]; apply G32_nan; assumption).
  destruct (nan_ops _ _ Hn') as (H1 & H2 & H3 & H4).
  apply narrow_nan in H1 as (s1 & p1 & E1). apply narrow_nan in H2 as (s2 & p2 & E2).
  apply narrow_nan in H3 as (s3 & p3 & E3). apply narrow_nan in H4 as (s4 & p4 & E4).
  unfold F16_Add, F16_Sub, F16_Mul, F16_Div. rewrite E1, E2, E3, E4. repeat split.
Qed.

Lemma narrow_inf s : dec16 (F16fromF32 (B754_infinity 24 128 s)) = F754_infinity s.
Proof. destruct s; reflexivity. Qed.

Theorem div_by_zero x y sx sy : 0 <= x < 2 ^ 16 -> 0 <= y < 2 ^ 16 -> dec16 y = F754_zero sy -> sbit (dec16 x) = sx ->
  match dec16 x with
  | F754_finite _ _ _ | F754_infinity _ => dec16 (F16_Div x y) = F754_infinity (xorb sx sy)
  | _ => isnan (dec16 (F16_Div x y)) = true
  end.
Proof.
  intros Hx Hy Ey Es. pose proof (G32_kind x Hx) as Kx. pose proof (G32_kind y Hy) as Ky. rewrite Ey in Ky.
  unfold F16_Div. rewrite Ky. destruct (dec16 x) as [s|s|s p|s m e]; cbn [sbit] in Es; subst s.
  - rewrite Kx. reflexivity.
  - rewrite Kx. apply narrow_inf.
  - destruct (narrow_nan (b32_div mode_NE (G32 x) (B754_zero 24 128 sy))) as (s' & p' & E).
    { apply nan_ops. left. exact Kx. } rewrite E. reflexivity.
  - destruct Kx as (m' & e' & H' & ->). apply narrow_inf.
Qed.

(** Sums with an infinity: it absorbs every finite number and opposite
    infinities give NaN. *)
Theorem add_infinity x y s : 0 <= x < 2 ^ 16 -> 0 <= y < 2 ^ 16 -> dec16 x = F754_infinity s ->
  match dec16 y with
  | F754_zero _ | F754_finite _ _ _ => dec16 (F16_Add x y) = F754_infinity s
  | F754_infinity s' => if eqb s s' then dec16 (F16_Add x y) = F754_infinity s else isnan (dec16 (F16_Add x y)) = true
  | F754_nan _ _ => isnan (dec16 (F16_Add x y)) = true
  end.
Proof.
  intros Hx Hy Ex. pose proof (G32_kind x Hx) as Kx. pose proof (G32_kind y Hy) as Ky. rewrite Ex in Kx.
  unfold F16_Add. rewrite Kx. destruct (dec16 y) as [s'|s'|s' p|s' m e] eqn:Ey.
  - rewrite Ky. apply narrow_inf.
  - rewrite Ky. destruct s, s'; reflexivity.
  - destruct (narrow_nan (b32_plus mode_NE (B754_infinity 24 128 s) (G32 y))) as (s'' & p' & E).
    { apply nan_ops. right. exact Ky. } rewrite E. reflexivity.
  - destruct Ky as (m' & e' & H' & ->). apply narrow_inf.
Qed.

(** ** Comparison *)
(** The order of the data of a format, NaN being unordered. *)
Definition below (a b : full_float) : Prop :=
  match a, b with
  | F754_nan _ _, _ | _, F754_nan _ _ => False
  | F754_infinity true, F754_infinity true => False
  | F754_infinity true, _ => True
  | _, F754_infinity true => False
  | F754_infinity false, _ => False
  | _, F754_infinity false => True
  | _, _ => (val a < val b)%R
  end.
(** Same number: equal infinities, or finite with equal values (so -0 = 0). *)
Definition same_number (a b : full_float) : Prop :=
  match a, b with
  | F754_infinity s, F754_infinity s' => s = s'
  | (F754_zero _ | F754_finite _ _ _), (F754_zero _ | F754_finite _ _ _) => val a = val b
  | _, _ => False
  end.
Definition flip (c : CmpRes) : CmpRes := match c with CmpL => CmpG | CmpE => CmpE | CmpG => CmpL end.

Definition cmp_of {prec emax} (p v : binary_float prec emax) : CmpRes :=
  let lt a b := match Bcompare prec emax a b with Some Lt => true | _ => false end in
  if lt p v then CmpL else if lt v p then CmpG else CmpE.

Lemma cmp_F32 p v : F32_Cmp p v = @cmp_of 24 128 p v. Proof. reflexivity. Qed.
Lemma cmp_F64 p v : F64_Cmp p v = @cmp_of 53 1024 p v. Proof. reflexivity. Qed.

Definition orders (c : CmpRes) (a b : full_float) : Prop :=
  (c = CmpL <-> below a b) /\ (c = CmpG <-> below b a) /\
  (isnan a = false -> isnan b = false -> (c = CmpE <-> same_number a b)).

Section Cmp.
Context {prec emax : Z}.
Notation bf := (binary_float prec emax).
Notation ff := (B2FF prec emax).

Lemma lt_below (p v : bf) : (match Bcompare prec emax p v with Some Lt => true | _ => false end) = true <-> below (ff p) (ff v).
Proof.
  destruct (is_finite prec emax p) eqn:Fp; [destruct (is_finite prec emax v) eqn:Fv|].
  - rewrite Bcompare_correct by assumption. rewrite <- !FF2R_B2FF. change (FF2R radix2) with val.
    assert (E : below (ff p) (ff v) <-> (val (ff p) < val (ff v))%R) by (destruct p, v; try discriminate; reflexivity).
    rewrite E. destruct (Rcompare_spec (val (ff p)) (val (ff v))); split; intros; try reflexivity; try discriminate; try lra; assumption.
  - destruct p as [s|s|s pl H|s m e H], v as [s'|s'|s' pl' H'|s' m' e' H']; try discriminate Fp; try discriminate Fv;
      try destruct s; try destruct s'; cbn; split; intros; try reflexivity; try discriminate; try contradiction; exact I.
  - destruct p as [s|s|s pl H|s m e H], v as [s'|s'|s' pl' H'|s' m' e' H']; try discriminate Fp;
      try destruct s; try destruct s'; cbn; split; intros; try reflexivity; try discriminate; try contradiction; exact I.
Qed.

Lemma below_asym a b : below a b -> below b a -> False.
Proof.
  destruct a as [s|s|s p|s m e], b as [s'|s'|s' p'|s' m' e']; try destruct s; try destruct s'; cbn [below]; try contradiction; try tauto;
    intros; lra.
Qed.
Lemma below_total a b : isnan a = false -> isnan b = false -> (same_number a b <-> ~ below a b /\ ~ below b a).
Proof.
  intros Ha Hb. destruct a as [s|s|s p|s m e], b as [s'|s'|s' p'|s' m' e']; try discriminate;
    try (destruct s, s'; cbn [below same_number]; intuition congruence);
    try (destruct s'; cbn [below same_number]; intuition congruence); try (destruct s; cbn [below same_number]; intuition congruence);
    cbn [below same_number]; try (destruct s, s'; (split; [intros; split; lra|intros [? ?]; lra])).
Qed.

Lemma cmp_orders (p v : bf) : orders (cmp_of p v) (ff p) (ff v).
Proof.
  pose proof (lt_below p v) as H1. pose proof (lt_below v p) as H2.
  pose proof (below_asym (ff p) (ff v)) as Ha. pose proof (below_total (ff p) (ff v)) as Ht.
  unfold orders, cmp_of.
  destruct (match Bcompare prec emax p v with Some Lt => true | _ => false end),
           (match Bcompare prec emax v p with Some Lt => true | _ => false end).
  - exfalso. apply Ha; [apply H1|apply H2]; reflexivity.
  - assert (B : below (ff p) (ff v)) by (apply H1; reflexivity). repeat split; intros; try discriminate; try tauto; exfalso; tauto.
  - assert (B : below (ff v) (ff p)) by (apply H2; reflexivity). repeat split; intros; try discriminate; try tauto; exfalso; tauto.
  - assert (B : ~ below (ff p) (ff v)) by (intros B; apply H1 in B; discriminate).
    assert (B' : ~ below (ff v) (ff p)) by (intros B0; apply H2 in B0; discriminate).
    split; [split; intros; [discriminate|contradiction]|]. split; [split; intros; [discriminate|contradiction]|].
    intros Hp Hv. rewrite (Ht Hp Hv). tauto.
Qed.
Lemma cmp_flip (p v : bf) : cmp_of v p = flip (cmp_of p v).
Proof.
  pose proof (lt_below p v) as H1. pose proof (lt_below v p) as H2. pose proof (below_asym (ff p) (ff v)) as Ha. unfold cmp_of.
  destruct (match Bcompare prec emax p v with Some Lt => true | _ => false end),
           (match Bcompare prec emax v p with Some Lt => true | _ => false end); try reflexivity.
  exfalso. apply Ha; [apply H1|apply H2]; reflexivity.
Qed.
End Cmp.

Lemma below_trans a b c : below a b -> below b c -> below a c.
Proof.
  destruct a as [s|s|s p|s m e], b as [s'|s'|s' p'|s' m' e'], c as [t|t|t q|t n d];
    try destruct s; try destruct s'; try destruct t; cbn [below]; try contradiction; try tauto; intros; lra.
Qed.

Theorem F16_cmp_orders x y : 0 <= x < 2 ^ 16 -> 0 <= y < 2 ^ 16 -> orders (F16_Cmp x y) (dec16 x) (dec16 y).
Proof.
  intros Hx Hy. unfold F16_Cmp. rewrite cmp_F32. pose proof (cmp_orders (G32 x) (G32 y)) as H.
  rewrite !B2FF_G32 in H. destruct (widen_datum x Hx) as [Sx _], (widen_datum y Hy) as [Sy _].
  set (a := dec32 (f16bitsToF32bits x)) in *. set (b := dec32 (f16bitsToF32bits y)) in *.
  pose proof (same_val _ _ Sx) as Vx. pose proof (same_val _ _ Sy) as Vy.
  assert (K : forall h f, same_datum h f = true ->
    match h, f with F754_zero s, F754_zero s' | F754_infinity s, F754_infinity s' | F754_nan s _, F754_nan s' _ | F754_finite s _ _, F754_finite s' _ _ => s = s' | _, _ => False end).
  { intros h f E. destruct h as [s|s|s p|s m e], f as [s'|s'|s' p'|s' m' e']; cbn [same_datum] in E; try discriminate; try (apply eqb_prop; exact E).
    apply andb_prop in E as [E _]. apply andb_prop in E as [E _]. apply eqb_prop. exact E. }
  apply K in Sx, Sy.
  assert (B : forall h f h' f', val h = val f -> val h' = val f' ->
    match h, f with F754_zero s, F754_zero s' | F754_infinity s, F754_infinity s' | F754_nan s _, F754_nan s' _ | F754_finite s _ _, F754_finite s' _ _ => s = s' | _, _ => False end ->
    match h', f' with F754_zero s, F754_zero s' | F754_infinity s, F754_infinity s' | F754_nan s _, F754_nan s' _ | F754_finite s _ _, F754_finite s' _ _ => s = s' | _, _ => False end ->
    (below h h' <-> below f f') /\ (same_number h h' <-> same_number f f') /\ isnan h = isnan f).
  { clear. intros h f h' f' V V' S S'.
    destruct h as [s|s|s p|s m e], f as [t|t|t q|t n d]; try contradiction; subst t;
    destruct h' as [s'|s'|s' p'|s' m' e'], f' as [t'|t'|t' q'|t' n' d']; try contradiction; subst t';
    cbn [below same_number isnan]; try rewrite V; try rewrite V'; repeat split; intros; assumption. }
  destruct (B _ _ _ _ Vx Vy Sx Sy) as (B1 & B2 & B3). destruct (B _ _ _ _ Vy Vx Sy Sx) as (B4 & _ & B6).
  unfold orders. rewrite B1, B4, B2, B3, B6. exact H.
Qed.

(** ** From float64 *)
Definition R64 (v : binary64) : R := B2R 53 1024 v.
Lemma b32_of_b64_exact (v : binary64) : is_finite 53 1024 v = true -> generic_format radix2 fexp32 (R64 v) ->
  (Rabs (R64 v) < bpow radix2 128)%R ->
  R32 (b32_of_b64 v) = R64 v /\ fin32 (b32_of_b64 v) = true /\ sgn32 (b32_of_b64 v) = Bsign 53 1024 v.
Proof.
  intros Hf Hg Hb. destruct v as [s|s|s pl H|s m e H]; try discriminate; [repeat split|].
  pose proof (binary_normalize_correct 24 128 eq_refl eq_refl mode_NE (SpecFloat.cond_Zopp s (Z.pos m)) e s) as N.
  change (F2R {| Fnum := SpecFloat.cond_Zopp s (Z.pos m); Fexp := e |}) with (R64 (B754_finite 53 1024 s m e H)) in N.
  set (r := R64 (B754_finite 53 1024 s m e H)) in *.
  change (round radix2 (SpecFloat.fexp 24 128) (round_mode mode_NE)) with rnd32 in N.
  assert (Er : rnd32 r = r) by (apply round_generic; [apply valid_rnd_N|exact Hg]).
  rewrite Er, Rlt_bool_true in N by exact Hb. destruct N as (N1 & N2 & N3).
  split; [exact N1|]. split; [exact N2|]. unfold sgn32, b32_of_b64. cbn [Bsign].
  eapply eq_trans; [exact N3|]. unfold r, R64, B2R.
  destruct s; cbn [SpecFloat.cond_Zopp cond_Zopp]; [rewrite Rcompare_Lt|rewrite Rcompare_Gt]; try reflexivity.
  - apply F2R_lt_0. reflexivity.
  - apply F2R_gt_0. reflexivity.
Qed.

Theorem from64_exact (v : binary64) : is_finite 53 1024 v = true -> generic_format radix2 fexp32 (R64 v) ->
  (Rabs (R64 v) < bpow radix2 128)%R ->
  rounded16 (Bsign 53 1024 v) (R64 v) (dec16 (F16fromF64 v)).
Proof.
  intros Hf Hg Hb. destruct (b32_of_b64_exact v Hf Hg Hb) as (E1 & E2 & E3). unfold F16fromF64.
  destruct (narrow_finite _ E2) as [_ Hn]. rewrite E1, E3 in Hn. exact Hn.
Qed.

(** 1 + 2^-11 + 2^-40 is nearer to 1 + 2^-10 than to 1, but the float32 step
    lands on the tie 1 + 2^-11, which goes to 1. *)
Definition tie64 : binary64 := b64_of_bits 0x3FF0020000001000.
Lemma tie64_value : B2FF 53 1024 tie64 = F754_finite false 0x10020000001000 (-52).
Proof. reflexivity. Qed.
Lemma tie64_result : F16fromF64 tie64 = 0x3c00.
Proof. vm_compute. reflexivity. Qed.
Lemma tie64_wrong : is_finite 53 1024 tie64 = true /\ ~ rounded16 (Bsign 53 1024 tie64) (R64 tie64) (dec16 (F16fromF64 tie64)).
Proof.
  split; [reflexivity|]. rewrite tie64_result. unfold R64. rewrite <- FF2R_B2FF, tie64_value.
  change (FF2R radix2 (F754_finite false 0x10020000001000 (-52))) with (F2R (Float radix2 0x10020000001000 (-52))).
  assert (Hc : cexp radix2 fexp16 (F2R (Float radix2 0x10020000001000 (-52))) = -52 + 42).
  { unfold cexp. rewrite mag_F2R by lia.
    assert (Hm : mag radix2 (IZR 0x10020000001000) = 53 :> Z).
    { apply mag_unique. rewrite Rabs_pos_eq by (apply IZR_le; lia). change (bpow radix2 (53 - 1)) with (IZR (2 ^ 52)). change (bpow radix2 53) with (IZR (2 ^ 53)).
      split; [apply IZR_le|apply IZR_lt]; lia. }
    rewrite Hm. reflexivity. }
  pose proof (round_scaled 0x10020000001000 (-52) 42 ltac:(lia) Hc) as Hr.
  assert (Ev : rne 0x10020000001000 42 = 1025) by (vm_compute; reflexivity). rewrite Ev in Hr.
  unfold rounded16. rewrite Hr. replace (-52 + 42) with (-10) by lia. rewrite Rlt_bool_true.
  - intros (_ & _ & H). unfold val in H. change (dec16 0x3c00) with (F754_finite false 1024 (-10)) in H. cbn [FF2R SpecFloat.cond_Zopp] in H.
    apply eq_F2R in H. discriminate.
  - rewrite Rabs_pos_eq by (apply F2R_ge_0; cbn [Fnum]; lia).
    apply Rle_lt_trans with (F2R (Float radix2 1025 0)).
    + unfold F2R. cbn [Fnum Fexp]. apply Rmult_le_compat_l; [apply IZR_le; lia|apply bpow_le; lia].
    + unfold F2R. cbn [Fnum Fexp]. change (bpow radix2 0) with 1%R. change (bpow radix2 16) with (IZR (2 ^ 16)). rewrite <- mult_IZR. apply IZR_lt. lia.
Qed.

(** ** Classification *)
Theorem kinds x : 0 <= x < 2 ^ 16 ->
  F16_IsNaN x = isnan (dec16 x) /\
  (F16_IsInf x 0 = true <-> exists s, dec16 x = F754_infinity s) /\
  (F16_IsInf x 1 = true <-> dec16 x = F754_infinity false) /\
  (F16_IsInf x (-1) = true <-> dec16 x = F754_infinity true) /\
  F16_IsFinite x = finite (dec16 x) /\
  (F16_IsNormal x = true <-> exists s m e, dec16 x = F754_finite s m e /\ 2 ^ 10 <= Z.pos m) /\
  F16_Signbit x = sbit (dec16 x).
Proof.
  intros Hx. pose proof (all16 _ kinds_all x Hx) as K. unfold kinds_ok in K.
  repeat (apply andb_prop in K as [K ?]). repeat match goal with H : eqb _ _ = true |- _ => apply eqb_prop in H end.
  rewrite K. repeat match goal with H : _ = _ |- _ => rewrite H end.
  destruct (dec16 x) as [s|s|s p|s m e]; cbn [isnan finite sbit].
  - repeat split; try (intros; discriminate); try (intros (? & ?); discriminate); intros (? & ? & ? & ? & ?); discriminate.
  - split; [reflexivity|]. split; [split; [eauto|reflexivity]|].
    split; [destruct s; split; congruence|]. split; [destruct s; split; congruence|].
    split; [reflexivity|]. split; [|reflexivity]. split; [discriminate|]. intros (? & ? & ? & ? & ?); discriminate.
  - repeat split; try (intros; discriminate); try (intros (? & ?); discriminate); intros (? & ? & ? & ? & ?); discriminate.
  - split; [reflexivity|]. split; [split; [discriminate|intros (? & ?); discriminate]|].
    split; [split; discriminate|]. split; [split; discriminate|]. split; [reflexivity|]. split; [|reflexivity].
    rewrite Z.leb_le. split; [intros; exists s, m, e; split; [reflexivity|lia]|].
    intros (s' & m' & e' & E & Hm). injection E as -> -> ->. exact Hm.
Qed.
