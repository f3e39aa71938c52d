(** * RandProofs: random values stay between their bounds *)
From Coq Require Import ZArith Bool Reals Lia Lra.
From Flocq Require Import Core.Core IEEE754.BinarySingleNaN IEEE754.Binary IEEE754.Bits.
From Verif Require Import Num NumIntS ModelF16 ModelImg F16Proofs F16Round F16Arith ImgFloat ModelRand ScalarProofs.
Open Scope Z_scope.
#[local] Instance prec53 : Prec_gt_0 53. Proof. reflexivity. Qed.

Definition fmt64 (x : R) : Prop := generic_format radix2 fexp64 x.
Lemma rnd_mono x y : (x <= y)%R -> (rnd64 x <= rnd64 y)%R.
Proof. apply round_le; typeclasses eauto. Qed.
Lemma rnd_id x : fmt64 x -> rnd64 x = x.
Proof. intros H. apply round_generic; [typeclasses eauto|exact H]. Qed.
Lemma rnd_fmt x : fmt64 (rnd64 x).
Proof. apply generic_format_round; typeclasses eauto. Qed.
Lemma R64_fmt (x : binary64) : fmt64 (R64 x).
Proof. exact (generic_format_B2R 53 1024 x). Qed.

(** Differences of floats below the normal numbers are exact. *)
Lemma small_diff x y : fmt64 x -> fmt64 y -> (Rabs (x - y) < bpow radix2 (-1021))%R -> fmt64 (x - y).
Proof.
  intros Hx Hy H. unfold fmt64, fexp64 in *.
  pose proof (proj2 (FLT_format_generic radix2 (-1074) 53 x) Hx) as [fx Ex Mx Lx] || (apply FLT_format_generic in Hx as [fx Ex Mx Lx]; [|exact prec53]).
  pose proof (proj2 (FLT_format_generic radix2 (-1074) 53 y) Hy) as [fy Ey My Ly] || (apply FLT_format_generic in Hy as [fy Ey My Ly]; [|exact prec53]).
  assert (Sc : forall f : float radix2, -1074 <= Fexp f -> exists m, F2R f = F2R (Float radix2 m (-1074))).
  { intros [m e] He. cbn in He. exists (m * 2 ^ (e + 1074)). rewrite (F2R_change_exp radix2 (-1074) m e) by exact He. replace (e - -1074) with (e + 1074) by lia. reflexivity. }
  destruct (Sc fx Lx) as [a Ea], (Sc fy Ly) as [b Eb]. rewrite Ex, Ea, Ey, Eb in *.
  assert (E : (F2R (Float radix2 a (-1074)) - F2R (Float radix2 b (-1074)))%R = F2R (Float radix2 (a - b) (-1074))) by (unfold F2R; cbn [Fnum Fexp]; rewrite minus_IZR; ring).
  rewrite E in *. apply generic_format_FLT. exists (Float radix2 (a - b) (-1074)); cbn [Fnum Fexp]; [reflexivity| |lia].
  rewrite <- F2R_Zabs in H. unfold F2R in H. cbn [Fnum Fexp] in H. change (bpow radix2 (-1021)) with (bpow radix2 (53 + -1074)) in H. rewrite bpow_plus in H.
  apply Rmult_lt_reg_r in H; [|apply bpow_gt_0]. change (bpow radix2 53) with (IZR (2 ^ 53)) in H. apply lt_IZR in H. exact H.
Qed.

(** A fraction of a rounded difference, rounded, is at most the difference. *)
Lemma part_le x y q : fmt64 x -> fmt64 y -> (y <= x)%R -> (0 <= q)%R -> (q <= 1 - bpow radix2 (-53))%R -> (rnd64 (q * rnd64 (x - y)) <= x - y)%R.
Proof.
  intros Hx Hy Hxy Hq0 Hq. set (t := (x - y)%R). set (d := rnd64 t).
  assert (Hd0 : (0 <= d)%R) by (unfold d; rewrite <- (rnd_id 0) by apply generic_format_0; apply rnd_mono; unfold t; lra).
  assert (P53 : (0 < bpow radix2 (-53))%R) by apply bpow_gt_0.
  destruct (Rle_or_lt d t) as [Hdt|Hdt].
  - apply Rle_trans with d; [|exact Hdt]. apply Rle_trans with (rnd64 d); [apply rnd_mono; nra|rewrite rnd_id by apply rnd_fmt; apply Rle_refl].
  - assert (Ht : (bpow radix2 (-1021) <= t)%R).
    { destruct (Rle_or_lt (bpow radix2 (-1021)) t) as [L|L]; [exact L|]. exfalso. assert (F : fmt64 t) by (apply small_diff; [exact Hx|exact Hy|rewrite Rabs_pos_eq by lra; exact L]). unfold d in Hdt. rewrite (rnd_id t F) in Hdt. lra. }
    assert (Fd : fmt64 d) by apply rnd_fmt. assert (Dp : (0 < d)%R) by (pose proof (bpow_gt_0 radix2 (-1021)); lra).
    set (u := pred radix2 fexp64 d). assert (Fu : fmt64 u) by (apply generic_format_pred; [typeclasses eauto|exact Fd]).
    assert (Hu : (u <= t)%R).
    { destruct (Rle_or_lt u t) as [L|L]; [exact L|]. exfalso. assert (U : (u < d)%R) by (apply pred_lt_id; lra).
      assert (d <= u)%R; [|lra]. unfold d. rewrite <- (rnd_id u Fu). apply rnd_mono. lra. }
    assert (Nu : (bpow radix2 (-1021) <= u)%R).
    { apply pred_ge_gt; [typeclasses eauto|apply generic_format_bpow; unfold fexp64, FLT_exp; lia|exact Fd|lra]. }
    apply Rle_trans with u; [|exact Hu]. apply round_N_le_midp; [typeclasses eauto|exact Fu|].
    unfold u at 2. rewrite succ_pred by (typeclasses eauto || exact Fd).
    assert (Eu : (u + ulp radix2 fexp64 u = d)%R) by (apply pred_plus_ulp; [typeclasses eauto|exact Dp|exact Fd]).
    assert (Lu : (ulp radix2 fexp64 u <= u * bpow radix2 (-52))%R).
    { assert (U0 : (0 <= u)%R) by (pose proof (bpow_gt_0 radix2 (-1021)); lra).
      pose proof (ulp_FLT_le radix2 (-1074) 53 u) as L. rewrite (Rabs_pos_eq u U0) in L. apply L. apply Rle_trans with (bpow radix2 (-1021)); [apply bpow_le; lia|exact Nu]. }
    assert (P52 : bpow radix2 (-52) = (2 * bpow radix2 (-53))%R) by (change (-52) with (1 + -53); rewrite bpow_plus; reflexivity).
    assert (U1 : (u < d)%R) by (apply pred_lt_id; lra). rewrite P52 in Lu.
    assert (q * d <= d - bpow radix2 (-53) * d)%R by nra. assert (bpow radix2 (-53) * u < bpow radix2 (-53) * d)%R by (apply Rmult_lt_compat_l; assumption). nra.
Qed.

Lemma frac_spec k : 0 <= k < 2 ^ 53 -> R64 (Float64 k) = (IZR k * bpow radix2 (-53))%R /\ fin64 (Float64 k) = true.
Proof.
  intros Hk. destruct (f64_of_Z_spec k ltac:(lia)) as [E1 F1].
  assert (E2 : R64 (f64_of_Z (2 ^ 53)) = bpow radix2 53).
  { unfold R64. rewrite <- FF2R_B2FF. change (B2FF 53 1024 (f64_of_Z (2 ^ 53))) with (F754_finite false 4503599627370496 1). unfold FF2R, F2R. cbn [Fnum Fexp SpecFloat.cond_Zopp cond_Zopp]. change (bpow radix2 1) with 2%R. change (bpow radix2 53) with 9007199254740992%R. lra. }
  assert (Q : (R64 (f64_of_Z k) / R64 (f64_of_Z (2 ^ 53)))%R = F2R (Float radix2 k (-53))).
  { rewrite E1, E2. unfold F2R. cbn [Fnum Fexp]. change (-53) with (- (53)). rewrite bpow_opp. reflexivity. }
  assert (P : (bpow radix2 (-53) * bpow radix2 53 = 1)%R) by (rewrite <- bpow_plus; reflexivity).
  pose proof (bpow_gt_0 radix2 (-53)) as P0. assert (K : (0 <= IZR k < bpow radix2 53)%R) by (change (bpow radix2 53) with (IZR (2 ^ 53)); split; [apply IZR_le|apply IZR_lt]; lia).
  destruct (f64_div_spec (f64_of_Z k) (f64_of_Z (2 ^ 53)) 0 F1) as [E3 F3].
  - rewrite E2. pose proof (bpow_gt_0 radix2 53). lra.
  - lia.
  - rewrite Q. unfold F2R. cbn [Fnum Fexp]. rewrite Rabs_pos_eq by nra. change (bpow radix2 0) with 1%R. nra.
  - split; [|exact F3]. unfold Float64. rewrite E3, Q. apply round_generic; [typeclasses eauto|]. apply generic_format_FLT. exists (Float radix2 k (-53)); cbn [Fnum Fexp]; [reflexivity|change (Z.abs k < 2 ^ 53); lia|lia].
Qed.

Theorem rand_all k min max : 0 <= k < 2 ^ 53 -> fin64 min = true -> fin64 max = true -> (R64 min <= R64 max)%R -> (Rabs (rnd64 (R64 max - R64 min)) < bpow radix2 1024)%R ->
  fin64 (ScalarRand64 (Float64 k) min max) = true /\ (R64 min <= R64 (ScalarRand64 (Float64 k) min max) <= R64 max)%R /\
  R64 (ScalarRand64 (Float64 k) min max) = rnd64 (rnd64 (IZR k * bpow radix2 (-53) * rnd64 (R64 max - R64 min)) + R64 min).
Proof.
  intros Hk Fm FM Hle Hov. destruct (frac_spec k Hk) as [Er Fr]. set (q := R64 (Float64 k)) in *.
  assert (P : (bpow radix2 (-53) * bpow radix2 53 = 1)%R) by (rewrite <- bpow_plus; reflexivity). pose proof (bpow_gt_0 radix2 (-53)) as P0.
  assert (K : (0 <= IZR k <= bpow radix2 53 - 1)%R) by (change (bpow radix2 53) with (IZR (2 ^ 53)); rewrite <- minus_IZR; split; apply IZR_le; lia).
  assert (Q0 : (0 <= q)%R) by (rewrite Er; nra). assert (Q1 : (q <= 1 - bpow radix2 (-53))%R) by (rewrite Er; nra).
  unfold ScalarRand64. set (d := f64_sub max min).
  assert (D : R64 d = rnd64 (R64 max - R64 min) /\ fin64 d = true).
  { unfold d, f64_sub, b64_minus. pose proof (Bminus_correct 53 1024 eq_refl eq_refl binop_nan_pl64 mode_NE max min FM Fm) as H. change (SpecFloat.fexp 53 1024) with fexp64 in H. change (round_mode mode_NE) with ZnearestE in H.
    change (B2R 53 1024 max - B2R 53 1024 min)%R with (R64 max - R64 min)%R in H. rewrite Rlt_bool_true in H by exact Hov. destruct H as (H1 & H2 & _). split; assumption. }
  destruct D as [Ed Fd]. assert (D0 : (0 <= R64 d)%R) by (rewrite Ed, <- (rnd_id 0) by apply generic_format_0; apply rnd_mono; lra).
  pose proof (part_le (R64 max) (R64 min) q (R64_fmt max) (R64_fmt min) Hle Q0 Q1) as PL. rewrite <- Ed in PL.
  assert (M0 : (0 <= rnd64 (q * R64 d))%R) by (rewrite <- (rnd_id 0) at 1 by apply generic_format_0; apply rnd_mono; nra).
  assert (B : forall z : binary64, (Rabs (R64 z) < bpow radix2 1024)%R) by exact (abs_B2R_lt_emax 53 1024).
  assert (Md : (rnd64 (q * R64 d) <= R64 d)%R) by (rewrite <- (rnd_id (R64 d)) at 2 by apply R64_fmt; apply rnd_mono; nra).
  assert (Mu : R64 (f64_mul (Float64 k) d) = rnd64 (q * R64 d) /\ fin64 (f64_mul (Float64 k) d) = true).
  { unfold f64_mul, b64_mult. pose proof (Bmult_correct 53 1024 eq_refl eq_refl binop_nan_pl64 mode_NE (Float64 k) d) as H. change (SpecFloat.fexp 53 1024) with fexp64 in H. change (round_mode mode_NE) with ZnearestE in H.
    change (B2R 53 1024 (Float64 k) * B2R 53 1024 d)%R with (q * R64 d)%R in H. rewrite Rlt_bool_true in H.
    - destruct H as (H1 & H2 & _). split; [exact H1|]. unfold fin64 in *. eapply eq_trans; [exact H2|]. rewrite Fr, Fd. reflexivity.
    - change (round radix2 fexp64 ZnearestE (q * R64 d)) with (rnd64 (q * R64 d)). rewrite Rabs_pos_eq by exact M0. pose proof (B d) as Bd. rewrite Rabs_pos_eq in Bd by exact D0. lra. }
  destruct Mu as [Em Fmu]. set (mu := f64_mul (Float64 k) d) in *.
  assert (L1 : (R64 min <= rnd64 (R64 mu + R64 min))%R) by (rewrite <- (rnd_id (R64 min)) at 1 by apply R64_fmt; apply rnd_mono; rewrite Em; lra).
  assert (L2 : (rnd64 (R64 mu + R64 min) <= R64 max)%R) by (rewrite <- (rnd_id (R64 max)) by apply R64_fmt; apply rnd_mono; rewrite Em; lra).
  unfold f64_add, b64_plus. pose proof (Bplus_correct 53 1024 eq_refl eq_refl binop_nan_pl64 mode_NE mu min Fmu Fm) as H. change (SpecFloat.fexp 53 1024) with fexp64 in H. change (round_mode mode_NE) with ZnearestE in H.
  change (B2R 53 1024 mu + B2R 53 1024 min)%R with (R64 mu + R64 min)%R in H. change (round radix2 fexp64 ZnearestE (R64 mu + R64 min)) with (rnd64 (R64 mu + R64 min)) in H. rewrite Rlt_bool_true in H.
  - destruct H as (H1 & H2 & _). split; [exact H2|]. unfold R64 at 2 3 5. rewrite H1. split; [split; assumption|]. change (rnd64 (R64 mu + R64 min) = rnd64 (rnd64 (IZR k * bpow radix2 (-53) * rnd64 (R64 max - R64 min)) + R64 min)). rewrite Em, <- Er, <- Ed. reflexivity.
  - apply Rabs_lt. pose proof (B min) as B1. pose proof (B max) as B2. apply Rabs_def2 in B1, B2. lra.
Qed.

Theorem rand_between k min max : 0 <= k < 2 ^ 53 -> fin64 min = true -> fin64 max = true -> (R64 min <= R64 max)%R -> (Rabs (rnd64 (R64 max - R64 min)) < bpow radix2 1024)%R ->
  fin64 (ScalarRand64 (Float64 k) min max) = true /\ (R64 min <= R64 (ScalarRand64 (Float64 k) min max) <= R64 max)%R.
Proof. intros A B C D E. destruct (rand_all k min max A B C D E) as (F & G & _). split; assumption. Qed.
Theorem rand_monotone k k' min max : 0 <= k <= k' -> k' < 2 ^ 53 -> fin64 min = true -> fin64 max = true -> (R64 min <= R64 max)%R -> (Rabs (rnd64 (R64 max - R64 min)) < bpow radix2 1024)%R ->
  (R64 (ScalarRand64 (Float64 k) min max) <= R64 (ScalarRand64 (Float64 k') min max))%R.
Proof.
  intros Hk Hk' A B C D. destruct (rand_all k min max ltac:(lia) A B C D) as (_ & _ & ->). destruct (rand_all k' min max ltac:(lia) A B C D) as (_ & _ & ->).
  apply rnd_mono, Rplus_le_compat_r, rnd_mono, Rmult_le_compat_r; [rewrite <- (rnd_id 0) by apply generic_format_0; apply rnd_mono; lra|].
  apply Rmult_le_compat_r; [apply bpow_ge_0|]. apply IZR_le. lia.
Qed.
Theorem rand_first min max : fin64 min = true -> fin64 max = true -> (R64 min <= R64 max)%R -> (Rabs (rnd64 (R64 max - R64 min)) < bpow radix2 1024)%R ->
  R64 (ScalarRand64 (Float64 0) min max) = R64 min.
Proof.
  intros A B C D. destruct (rand_all 0 min max ltac:(lia) A B C D) as (_ & _ & ->). rewrite !Rmult_0_l, (rnd_id 0) by apply generic_format_0. rewrite Rplus_0_l. apply rnd_id, R64_fmt.
Qed.

(** ** float32 *)
Lemma narrow_value (v : binary64) : fin64 v = true -> (Rabs (rnd32 (R64 v)) < bpow radix2 128)%R -> R32 (b32_of_b64 v) = rnd32 (R64 v) /\ fin32 (b32_of_b64 v) = true.
Proof.
  intros Hf Hb. destruct v as [s|s|s pl H|s m e H]; try discriminate.
  - split; [|reflexivity]. unfold rnd32. cbn. rewrite round_0 by typeclasses eauto. reflexivity.
  - pose proof (binary_normalize_correct 24 128 eq_refl eq_refl mode_NE (SpecFloat.cond_Zopp s (Z.pos m)) e s) as N.
    change (F2R {| Fnum := SpecFloat.cond_Zopp s (Z.pos m); Fexp := e |}) with (R64 (B754_finite 53 1024 s m e H)) in N.
    change (round radix2 (SpecFloat.fexp 24 128) (round_mode mode_NE)) with rnd32 in N. rewrite Rlt_bool_true in N by exact Hb. destruct N as (N1 & N2 & _). split; assumption.
Qed.
#[local] Instance prec24' : Prec_gt_0 24. Proof. reflexivity. Qed.
Theorem rand_between_32 k min max : 0 <= k < 2 ^ 53 -> fin64 min = true -> fin64 max = true -> (R64 min <= R64 max)%R -> (Rabs (rnd32 (R64 min)) < bpow radix2 128)%R -> (Rabs (rnd32 (R64 max)) < bpow radix2 128)%R ->
  (Rabs (rnd64 (R64 max - R64 min)) < bpow radix2 1024)%R ->
  fin32 (RandElem32 (Float64 k) min max) = true /\ (rnd32 (R64 min) <= R32 (RandElem32 (Float64 k) min max) <= rnd32 (R64 max))%R.
Proof.
  intros Hk Fm FM Hle B1 B2 Ho. destruct (rand_between k min max Hk Fm FM Hle Ho) as [F [L1 L2]]. unfold RandElem32.
  change (f64_add (f64_mul (Float64 k) (f64_sub max min)) min) with (ScalarRand64 (Float64 k) min max). set (v := ScalarRand64 (Float64 k) min max) in *.
  assert (G1 : (rnd32 (R64 min) <= rnd32 (R64 v))%R) by (apply round_le; [typeclasses eauto|typeclasses eauto|exact L1]).
  assert (G2 : (rnd32 (R64 v) <= rnd32 (R64 max))%R) by (apply round_le; [typeclasses eauto|typeclasses eauto|exact L2]).
  destruct (narrow_value v F) as [E1 E2]; [apply Rabs_lt; apply Rabs_def2 in B1, B2; lra|]. rewrite E1. auto.
Qed.

Theorem rand_value_32 k min max : 0 <= k < 2 ^ 53 -> fin64 min = true -> fin64 max = true -> (R64 min <= R64 max)%R -> (Rabs (rnd32 (R64 min)) < bpow radix2 128)%R -> (Rabs (rnd32 (R64 max)) < bpow radix2 128)%R ->
  (Rabs (rnd64 (R64 max - R64 min)) < bpow radix2 1024)%R -> R32 (RandElem32 (Float64 k) min max) = rnd32 (R64 (ScalarRand64 (Float64 k) min max)).
Proof.
  intros Hk Fm FM Hle B1 B2 Ho. destruct (rand_between k min max Hk Fm FM Hle Ho) as [F [L1 L2]]. unfold RandElem32.
  change (f64_add (f64_mul (Float64 k) (f64_sub max min)) min) with (ScalarRand64 (Float64 k) min max). set (v := ScalarRand64 (Float64 k) min max) in *.
  assert (G1 : (rnd32 (R64 min) <= rnd32 (R64 v))%R) by (apply round_le; [typeclasses eauto|typeclasses eauto|exact L1]).
  assert (G2 : (rnd32 (R64 v) <= rnd32 (R64 max))%R) by (apply round_le; [typeclasses eauto|typeclasses eauto|exact L2]).
  apply (narrow_value v F). apply Rabs_lt. apply Rabs_def2 in B1, B2. lra.
Qed.

Lemma small32 e x : -149 <= e -> (0 <= x <= bpow radix2 e)%R -> (0 <= rnd32 x <= bpow radix2 e)%R.
Proof.
  intros He Hx. assert (Fz : generic_format radix2 (FLT_exp (-149) 24) (bpow radix2 e)) by (apply generic_format_bpow; unfold FLT_exp; lia). unfold rnd32. split.
  - rewrite <- (round_0 radix2 (FLT_exp (-149) 24) ZnearestE) at 1. apply round_le; [typeclasses eauto|typeclasses eauto|lra].
  - apply round_le_generic; [typeclasses eauto|typeclasses eauto|exact Fz|lra].
Qed.
Theorem scalar_value_32 k (min max : binary32) : 0 <= k < 2 ^ 53 -> fin32 min = true -> fin32 max = true ->
  let q := rnd32 (IZR k * bpow radix2 (-53)) in let d := rnd32 (R32 max - R32 min) in
  (Rabs d < bpow radix2 128)%R -> (Rabs (rnd32 (rnd32 (q * d) + R32 min)) < bpow radix2 128)%R ->
  R32 (ScalarRand32 (Float64 k) min max) = rnd32 (rnd32 (q * d) + R32 min) /\ fin32 (ScalarRand32 (Float64 k) min max) = true.
Proof.
  intros Hk Fm FM q d Bd Bs. destruct (frac_spec k Hk) as [Er Fr].
  assert (P : (bpow radix2 (-53) * bpow radix2 53 = 1)%R) by (rewrite <- bpow_plus; reflexivity). pose proof (bpow_gt_0 radix2 (-53)) as P0.
  assert (K : (0 <= IZR k <= bpow radix2 53)%R) by (change (bpow radix2 53) with (IZR (2 ^ 53)); split; apply IZR_le; lia).
  assert (F1 : generic_format radix2 (FLT_exp (-149) 24) 1) by (change 1%R with (bpow radix2 0); apply generic_format_bpow; unfold FLT_exp; lia).
  assert (Q : (0 <= q <= 1)%R).
  { unfold q. split.
    - unfold rnd32. rewrite <- (round_0 radix2 (FLT_exp (-149) 24) ZnearestE) at 1. apply round_le; [typeclasses eauto|typeclasses eauto|nra].
    - unfold rnd32. rewrite <- (round_generic radix2 (FLT_exp (-149) 24) ZnearestE 1 F1). apply round_le; [typeclasses eauto|typeclasses eauto|nra]. }
  assert (B0 : (1 < bpow radix2 128)%R) by (change 1%R with (bpow radix2 0); apply bpow_lt; lia).
  destruct (narrow_value (Float64 k) Fr) as [E1 N1]; [rewrite Er; fold q; rewrite Rabs_pos_eq by lra; lra|]. rewrite Er in E1. fold q in E1.
  unfold ScalarRand32. set (r := b32_of_b64 (Float64 k)) in *. set (D := b32_minus mode_NE max min).
  assert (HD : R32 D = d /\ fin32 D = true).
  { unfold D, b32_minus. pose proof (Bminus_correct 24 128 eq_refl eq_refl binop_nan_pl32 mode_NE max min FM Fm) as G. change (round radix2 (SpecFloat.fexp 24 128) (round_mode mode_NE)) with rnd32 in G.
    change (rnd32 (B2R 24 128 max - B2R 24 128 min)) with d in G. rewrite Rlt_bool_true in G by exact Bd. destruct G as (G1 & G2 & _). split; assumption. }
  destruct HD as [ED FD].
  assert (Fd : generic_format radix2 (FLT_exp (-149) 24) d) by (apply generic_format_round; typeclasses eauto).
  assert (Bq : (Rabs (rnd32 (q * d)) <= Rabs d)%R).
  { unfold rnd32. apply abs_round_le_generic; [typeclasses eauto|typeclasses eauto|apply generic_format_abs; exact Fd|]. rewrite Rabs_mult, (Rabs_pos_eq q) by lra. pose proof (Rabs_pos d). nra. }
  set (mu := b32_mult mode_NE r D).
  assert (HM : R32 mu = rnd32 (q * d) /\ fin32 mu = true).
  { unfold mu, b32_mult. pose proof (Bmult_correct 24 128 eq_refl eq_refl binop_nan_pl32 mode_NE r D) as G. change (round radix2 (SpecFloat.fexp 24 128) (round_mode mode_NE)) with rnd32 in G.
    change (B2R 24 128 r * B2R 24 128 D)%R with (R32 r * R32 D)%R in G. rewrite E1, ED in G. rewrite Rlt_bool_true in G by lra. destruct G as (G1 & G2 & _). split; [exact G1|].
    unfold fin32 in *. eapply eq_trans; [exact G2|]. rewrite N1, FD. reflexivity. }
  destruct HM as [EM FMu]. unfold b32_plus. pose proof (Bplus_correct 24 128 eq_refl eq_refl binop_nan_pl32 mode_NE mu min FMu Fm) as G. change (round radix2 (SpecFloat.fexp 24 128) (round_mode mode_NE)) with rnd32 in G.
  change (B2R 24 128 mu + B2R 24 128 min)%R with (R32 mu + R32 min)%R in G. rewrite EM in G. rewrite Rlt_bool_true in G by exact Bs. destruct G as (G1 & G2 & _). split; assumption.
Qed.

(** ** Integers *)
Lemma cut_zero odd k : 0 <= k < 2 ^ 53 -> int_of_f64 odd (Float64 k) = 0.
Proof.
  intros Hk. destruct (frac_spec k Hk) as [E F]. unfold int_of_f64. unfold fin64 in F. rewrite F.
  assert (P : (bpow radix2 (-53) * bpow radix2 53 = 1)%R) by (rewrite <- bpow_plus; reflexivity). pose proof (bpow_gt_0 radix2 (-53)) as P0.
  assert (K : (0 <= IZR k <= bpow radix2 53 - 1)%R) by (change (bpow radix2 53) with (IZR (2 ^ 53)); rewrite <- minus_IZR; split; apply IZR_le; lia).
  assert (Q0 : (0 <= R64 (Float64 k))%R) by (rewrite E; nra). assert (Q1 : (R64 (Float64 k) < 1)%R) by (rewrite E; nra).
  destruct (trunc_spec _ Q0) as [T1 T2]. assert (Z0 : Btrunc 53 1024 (Float64 k) = 0).
  { assert (Btrunc 53 1024 (Float64 k) < 1) by (apply lt_IZR; lra). assert (-1 < Btrunc 53 1024 (Float64 k)) by (apply lt_IZR; lra). lia. }
  rewrite Z0. reflexivity.
Qed.
Theorem rand_int w (H : 0 < w) odd k (min max : intw w) : 0 <= k < 2 ^ 53 -> ScalarRandInt H odd (Float64 k) min max = min.
Proof.
  intros Hk. unfold ScalarRandInt. rewrite cut_zero by exact Hk. cbn [nadd nmul nsub NumIntS]. apply intw_eq. rewrite !mk_val. rewrite (wrapZ_0 w H), Z.mul_0_l, (wrapZ_0 w H), Z.add_0_l.
  apply Z.eqb_eq. exact (iok min).
Qed.
