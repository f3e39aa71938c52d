(** * ScalarProofs *)
From Coq Require Import ZArith Bool Reals Lia Lra.
From Flocq Require Import Core.Core IEEE754.BinarySingleNaN IEEE754.Binary IEEE754.Bits.
From Verif Require Import ModelF16 ModelScalar F16Proofs F16Round F16Arith ImgFloat ScalarSpec.
Open Scope Z_scope.
Local Strategy expand [F16_Add F16_Sub F16_Mul F16_Div].

(** ** One operation of one format *)
Section One.
Variables (prec emax : Z).
Context (Hp : Prec_gt_0 prec) (He : Prec_lt_emax prec emax).
Notation bf := (binary_float prec emax).
Notation rnd := (round radix2 (SpecFloat.fexp prec emax) ZnearestE).
Definition got (s : bool) (r : R) (q : bf) : Prop :=
  if Rlt_bool (Rabs (rnd r)) (bpow radix2 emax)
  then finite (B2FF prec emax q) = true /\ sbit (B2FF prec emax q) = s /\ FF2R radix2 (B2FF prec emax q) = rnd r
  else B2FF prec emax q = F754_infinity s.
Lemma fin_ff (q : bf) : finite (B2FF prec emax q) = is_finite prec emax q. Proof. destruct q; reflexivity. Qed.
Lemma sbit_ff (q : bf) : sbit (B2FF prec emax q) = Bsign prec emax q. Proof. destruct q; reflexivity. Qed.
Lemma not_nan (q : bf) : is_finite prec emax q = true -> is_nan prec emax q = false. Proof. destruct q; (discriminate || reflexivity). Qed.
Variable nanf : bf -> bf -> { x : bf | is_nan prec emax x = true }.
Lemma plus_got x y : is_finite prec emax x = true -> is_finite prec emax y = true ->
  let r := (B2R prec emax x + B2R prec emax y)%R in got (sign_of r (Bsign prec emax x && Bsign prec emax y)) r (Bplus prec emax Hp He nanf mode_NE x y).
Proof.
  intros Fx Fy r. pose proof (Bplus_correct prec emax Hp He nanf mode_NE x y Fx Fy) as H. cbn [round_mode] in H. unfold got, sign_of. fold r in H.
  destruct (Rlt_bool_spec (Rabs (rnd r)) (bpow radix2 emax)) as [L|L].
  - destruct H as (H1 & H2 & H3). rewrite fin_ff, sbit_ff, FF2R_B2FF. auto.
  - destruct H as (H1 & H2). rewrite H1. cbn. f_equal. rewrite <- H2, andb_diag.
    destruct (Rcompare_spec r 0); [| |].
    + destruct (Bsign prec emax x) eqn:E; [reflexivity|]. exfalso. try rewrite E in H2. symmetry in H2.
      assert (0 <= B2R prec emax x)%R by (destruct x; cbn in *; try lra; subst; apply F2R_ge_0; discriminate). assert (0 <= B2R prec emax y)%R by (destruct y; cbn in *; try lra; subst; apply F2R_ge_0; discriminate). unfold r in *. lra.
    + reflexivity.
    + destruct (Bsign prec emax x) eqn:E; [|reflexivity]. exfalso. try rewrite E in H2. symmetry in H2.
      assert (B2R prec emax x <= 0)%R by (destruct x; cbn in *; try lra; subst; apply F2R_le_0; discriminate). assert (B2R prec emax y <= 0)%R by (destruct y; cbn in *; try lra; subst; apply F2R_le_0; discriminate). unfold r in *. lra.
Qed.
Lemma minus_got x y : is_finite prec emax x = true -> is_finite prec emax y = true ->
  let r := (B2R prec emax x - B2R prec emax y)%R in got (sign_of r (Bsign prec emax x && negb (Bsign prec emax y))) r (Bminus prec emax Hp He nanf mode_NE x y).
Proof.
  intros Fx Fy r. pose proof (Bminus_correct prec emax Hp He nanf mode_NE x y Fx Fy) as H. cbn [round_mode] in H. unfold got, sign_of. fold r in H.
  destruct (Rlt_bool_spec (Rabs (rnd r)) (bpow radix2 emax)) as [L|L].
  - destruct H as (H1 & H2 & H3). rewrite fin_ff, sbit_ff, FF2R_B2FF. auto.
  - destruct H as (H1 & H2). rewrite H1. cbn. f_equal. rewrite <- H2, andb_diag.
    destruct (Rcompare_spec r 0); [| |].
    + destruct (Bsign prec emax x) eqn:E; [reflexivity|]. exfalso. symmetry in H2. apply negb_false_iff in H2.
      assert (0 <= B2R prec emax x)%R by (destruct x; cbn in *; try lra; subst; apply F2R_ge_0; discriminate). assert (B2R prec emax y <= 0)%R by (destruct y; cbn in *; try lra; subst; apply F2R_le_0; discriminate). unfold r in *. lra.
    + reflexivity.
    + destruct (Bsign prec emax x) eqn:E; [|reflexivity]. exfalso. symmetry in H2. apply negb_true_iff in H2.
      assert (B2R prec emax x <= 0)%R by (destruct x; cbn in *; try lra; subst; apply F2R_le_0; discriminate). assert (0 <= B2R prec emax y)%R by (destruct y; cbn in *; try lra; subst; apply F2R_ge_0; discriminate). unfold r in *. lra.
Qed.
Lemma mult_got x y : is_finite prec emax x = true -> is_finite prec emax y = true ->
  got (xorb (Bsign prec emax x) (Bsign prec emax y)) (B2R prec emax x * B2R prec emax y) (Bmult prec emax Hp He nanf mode_NE x y).
Proof.
  intros Fx Fy. pose proof (Bmult_correct prec emax Hp He nanf mode_NE x y) as H. cbn [round_mode] in H. unfold got.
  destruct (Rlt_bool_spec (Rabs (rnd (B2R prec emax x * B2R prec emax y))) (bpow radix2 emax)) as [L|L].
  - destruct H as (H1 & H2 & H3). rewrite Fx, Fy in H2. rewrite fin_ff, sbit_ff, FF2R_B2FF. auto using not_nan.
  - exact H.
Qed.
Lemma div_got x y : is_finite prec emax x = true -> B2R prec emax y <> 0%R ->
  got (xorb (Bsign prec emax x) (Bsign prec emax y)) (B2R prec emax x / B2R prec emax y) (Bdiv prec emax Hp He nanf mode_NE x y).
Proof.
  intros Fx Fy. pose proof (Bdiv_correct prec emax Hp He nanf mode_NE x y Fy) as H. cbn [round_mode] in H. unfold got.
  destruct (Rlt_bool_spec (Rabs (rnd (B2R prec emax x / B2R prec emax y))) (bpow radix2 emax)) as [L|L].
  - destruct H as (H1 & H2 & H3). rewrite Fx in H2. rewrite fin_ff, sbit_ff, FF2R_B2FF. auto using not_nan.
  - exact H.
Qed.
End One.

(** ** float32 to float64 *)
Lemma wide_exact (v : binary32) : is_finite 24 128 v = true ->
  R64 (b64_of_b32 v) = R32 v /\ is_finite 53 1024 (b64_of_b32 v) = true /\ Bsign 53 1024 (b64_of_b32 v) = Bsign 24 128 v.
Proof.
  intros Hf. destruct v as [s|s|s pl H|s m e H]; try discriminate; [repeat split|].
  pose proof (binary_normalize_correct 53 1024 eq_refl eq_refl mode_NE (SpecFloat.cond_Zopp s (Z.pos m)) e s) as N.
  change (F2R {| Fnum := SpecFloat.cond_Zopp s (Z.pos m); Fexp := e |}) with (R32 (B754_finite 24 128 s m e H)) in N.
  set (r := R32 (B754_finite 24 128 s m e H)) in *.
  change (round radix2 (SpecFloat.fexp 53 1024) (round_mode mode_NE)) with rnd64 in N.
  assert (G : generic_format radix2 fexp32 r) by exact (generic_format_B2R 24 128 (B754_finite 24 128 s m e H)).
  assert (Er : rnd64 r = r).
  { apply round_generic; [apply valid_rnd_N|]. revert G. apply generic_inclusion_mag. intros _. unfold fexp32, fexp64, FLT_exp. lia. }
  assert (B : (Rabs r < bpow radix2 1024)%R).
  { apply Rlt_trans with (bpow radix2 128); [exact (abs_B2R_lt_emax 24 128 (B754_finite 24 128 s m e H))|apply bpow_lt; lia]. }
  rewrite Er, Rlt_bool_true in N by exact B. destruct N as (N1 & N2 & N3).
  split; [exact N1|]. split; [exact N2|]. unfold b64_of_b32. cbn [Bsign].
  eapply eq_trans; [exact N3|]. unfold r, R32, B2R.
  destruct s; cbn [SpecFloat.cond_Zopp cond_Zopp]; [rewrite Rcompare_Lt|rewrite Rcompare_Gt]; try reflexivity.
  - apply F2R_lt_0. reflexivity.
  - apply F2R_gt_0. reflexivity.
Qed.

Lemma G32_exact p : nbits p <= 32 -> sound p -> finite (datum p) = true ->
  R32 (SG32 p) = val (datum p) /\ is_finite 24 128 (SG32 p) = true /\ Bsign 24 128 (SG32 p) = sbit (datum p).
Proof.
  destruct p as [b|x|x]; cbn [nbits sound datum SG32]; intros Hb Hs Hf; [exact (G32_spec b Hs Hf)| |lia].
  rewrite fin_ff in Hf. rewrite sbit_ff. unfold val. rewrite FF2R_B2FF. auto.
Qed.
Lemma G64_exact p : sound p -> finite (datum p) = true ->
  R64 (SG64 p) = val (datum p) /\ is_finite 53 1024 (SG64 p) = true /\ Bsign 53 1024 (SG64 p) = sbit (datum p).
Proof.
  intros Hs Hf. destruct p as [b|x|x].
  - destruct (G32_exact (F16v b) ltac:(cbn; lia) Hs Hf) as (E1 & E2 & E3). destruct (wide_exact _ E2) as (W1 & W2 & W3). cbn [SG64 SG32] in *. rewrite W1, W3. auto.
  - destruct (G32_exact (F32v x) ltac:(cbn; lia) Hs Hf) as (E1 & E2 & E3). destruct (wide_exact _ E2) as (W1 & W2 & W3). cbn [SG64 SG32] in *. rewrite W1, W3. auto.
  - cbn [datum SG64] in *. rewrite fin_ff in Hf. rewrite sbit_ff. unfold val. rewrite FF2R_B2FF. auto.
Qed.

Theorem arith_once o p v : sound p -> sound v -> nbits v <= nbits p -> finite (datum p) = true -> finite (datum v) = true -> (o = ODiv -> val (datum v) <> 0%R) ->
  let r := exact o (val (datum p)) (val (datum v)) in once p (sign_for o r (sbit (datum p)) (sbit (datum v))) r (Arith o p v).
Proof.
  intros Sp Sv Hb Fp Fv Hd r. destruct p as [b|x|x].
  - destruct v as [c|y|y]; cbn [nbits] in Hb; try lia. unfold once. cbn [Arith nbits sound near top datum SG32] in *. split; [reflexivity|].
    unfold r. destruct o; cbn [op32 exact sign_for].
    + change (F16fromF32 (b32_plus mode_NE (G32 b) (G32 c))) with (F16_Add b c). exact (add_rounded b c Sp Sv Fp Fv).
    + change (F16fromF32 (b32_minus mode_NE (G32 b) (G32 c))) with (F16_Sub b c). exact (sub_rounded b c Sp Sv Fp Fv).
    + change (F16fromF32 (b32_mult mode_NE (G32 b) (G32 c))) with (F16_Mul b c). exact (mul_rounded b c Sp Sv Fp Fv).
    + change (F16fromF32 (b32_div mode_NE (G32 b) (G32 c))) with (F16_Div b c). exact (div_rounded b c Sp Sv Fp Fv (Hd eq_refl)).
  - destruct (G32_exact v Hb Sv Fv) as (E1 & E2 & E3). destruct (G32_exact (F32v x) ltac:(cbn; lia) Sp Fp) as (D1 & D2 & D3). cbn [SG32] in D1, D2, D3.
    unfold once. split; [reflexivity|]. split; [exact I|]. cbn [Arith near top datum]. unfold r. cbn [datum] in *.
    rewrite <- D3, <- E3. rewrite <- E1, <- D1. destruct o; cbn [op32 exact sign_for].
    + apply (plus_got 24 128 eq_refl eq_refl binop_nan_pl32 x (SG32 v) D2 E2).
    + apply (minus_got 24 128 eq_refl eq_refl binop_nan_pl32 x (SG32 v) D2 E2).
    + apply (mult_got 24 128 eq_refl eq_refl binop_nan_pl32 x (SG32 v) D2 E2).
    + apply (div_got 24 128 eq_refl eq_refl binop_nan_pl32 x (SG32 v) D2). change (B2R 24 128) with R32. rewrite E1. apply Hd. reflexivity.
  - destruct (G64_exact v Sv Fv) as (E1 & E2 & E3). destruct (G64_exact (F64v x) Sp Fp) as (D1 & D2 & D3). cbn [SG64] in D1, D2, D3.
    unfold once. split; [reflexivity|]. split; [exact I|]. cbn [Arith near top datum]. unfold r. cbn [datum] in *.
    rewrite <- D3, <- E3. rewrite <- E1, <- D1. destruct o; cbn [op64 exact sign_for].
    + apply (plus_got 53 1024 eq_refl eq_refl binop_nan_pl64 x (SG64 v) D2 E2).
    + apply (minus_got 53 1024 eq_refl eq_refl binop_nan_pl64 x (SG64 v) D2 E2).
    + apply (mult_got 53 1024 eq_refl eq_refl binop_nan_pl64 x (SG64 v) D2 E2).
    + apply (div_got 53 1024 eq_refl eq_refl binop_nan_pl64 x (SG64 v) D2). change (B2R 53 1024) with R64. rewrite E1. apply Hd. reflexivity.
Qed.

(** ** Getters after setters *)
Lemma back_32 (v : binary32) : is_nan 24 128 v = false -> b32_of_b64 (b64_of_b32 v) = v.
Proof.
  intros Hn. destruct (is_finite 24 128 v) eqn:Hf.
  - destruct (wide_exact v Hf) as (W1 & W2 & W3).
    assert (A1 : generic_format radix2 fexp32 (R64 (b64_of_b32 v))) by (rewrite W1; exact (generic_format_B2R 24 128 v)).
    assert (A2 : (Rabs (R64 (b64_of_b32 v)) < bpow radix2 128)%R) by (rewrite W1; exact (abs_B2R_lt_emax 24 128 v)).
    destruct (b32_of_b64_exact (b64_of_b32 v) W2 A1 A2) as (E1 & E2 & E3).
    apply (B2R_Bsign_inj 24 128); [exact E2|exact Hf| |].
    + change (R32 (b32_of_b64 (b64_of_b32 v)) = R32 v). eapply eq_trans; [exact E1|exact W1].
    + eapply eq_trans; [exact E3|exact W3].
  - destruct v; try discriminate. reflexivity.
Qed.

(** ** What String is given *)
Definition alike (a b : full_float) : Prop := (isnan a = true /\ isnan b = true) \/ (same_number a b /\ sbit a = sbit b).
Lemma shown_datum p : sound p -> nbits p <= 32 -> alike (datum p) (B2FF 24 128 (SG32 p)).
Proof.
  destruct p as [b|x|x]; cbn [sound nbits datum SG32]; intros Hs Hb; [| |lia].
  - pose proof (G32_kind b Hs) as K. destruct (widen_datum b Hs) as [Hd _]. pose proof (same_val _ _ Hd) as V. rewrite <- B2FF_G32 in V.
    destruct (dec16 b) as [s|s|s pl|s m e].
    + rewrite K. right. cbn. auto.
    + rewrite K. right. cbn. auto.
    + left. split; [reflexivity|]. destruct (G32 b); try discriminate. reflexivity.
    + destruct K as (m' & e' & H & K). rewrite K in V. rewrite K. right. split; [exact V|reflexivity].
  - destruct x; [right|right|left|right]; cbn; auto.
Qed.

(** ** Scalars in memory *)
Lemma self_value o a b : match a with F64v x => SS64 a (op64 o x (SG64 b)) | _ => SS32 a (op32 o (SG32 a) (SG32 b)) end = Arith o a b.
Proof. destruct a; reflexivity. Qed.
