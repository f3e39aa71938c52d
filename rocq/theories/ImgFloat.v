(** * ImgFloat: where the scaled cells come from *)
From Coq Require Import ZArith Reals Lia Lra Bool.
From Flocq Require Import Core.Core Relative IEEE754.BinarySingleNaN IEEE754.Binary IEEE754.Bits.
From Verif Require Import ModelImg.
Open Scope Z_scope.

Definition fexp64 : Z -> Z := FLT_exp (-1074) 53.
Definition rnd64 (x : R) : R := round radix2 fexp64 ZnearestE x.
Definition R64 (x : binary64) : R := B2R 53 1024 x.
Definition fin64 (x : binary64) : bool := is_finite 53 1024 x.
#[export] Instance prec53 : Prec_gt_0 53. Proof. reflexivity. Qed.

Lemma int_format z : Z.abs z < 2 ^ 53 -> generic_format radix2 fexp64 (IZR z).
Proof.
  intros Hz. apply generic_format_FLT. exists (Float radix2 z 0); [unfold F2R; cbn; ring|exact Hz|cbn; lia].
Qed.
Lemma small_round r k : -1074 < k <= 1023 -> (Rabs r <= bpow radix2 k)%R -> (Rabs (rnd64 r) < bpow radix2 1024)%R.
Proof.
  intros Hk Hr. apply Rle_lt_trans with (bpow radix2 k); [|apply bpow_lt; lia].
  apply abs_round_le_generic; try typeclasses eauto; [|exact Hr]. apply generic_format_bpow. unfold fexp64, FLT_exp. lia.
Qed.
Lemma f64_of_Z_spec z : Z.abs z < 2 ^ 53 -> R64 (f64_of_Z z) = IZR z /\ fin64 (f64_of_Z z) = true.
Proof.
  intros Hz. pose proof (binary_normalize_correct 53 1024 eq_refl eq_refl mode_NE z 0 false) as Hn. cbv zeta in Hn.
  assert (E : F2R (Float radix2 z 0) = IZR z) by (unfold F2R; cbn; ring). rewrite E in Hn. change (SpecFloat.fexp 53 1024) with fexp64 in Hn. change (round_mode mode_NE) with ZnearestE in Hn.
  rewrite round_generic in Hn by (try typeclasses eauto; apply int_format; exact Hz).
  rewrite Rlt_bool_true in Hn.
  - destruct Hn as (H1 & H2 & _). split; assumption.
  - rewrite <- abs_IZR. apply Rlt_trans with (IZR (2 ^ 53)); [apply IZR_lt; exact Hz|]. change (IZR (2 ^ 53)) with (bpow radix2 53). apply bpow_lt. lia.
Qed.
Lemma f64_div_spec a b k : fin64 a = true -> R64 b <> 0%R -> -1074 < k <= 1023 -> (Rabs (R64 a / R64 b) <= bpow radix2 k)%R ->
  R64 (f64_div a b) = rnd64 (R64 a / R64 b) /\ fin64 (f64_div a b) = true.
Proof.
  intros Ha Hb Hk Hs. unfold f64_div, b64_div. pose proof (Bdiv_correct 53 1024 eq_refl eq_refl binop_nan_pl64 mode_NE a b Hb) as Hd.
  change (SpecFloat.fexp 53 1024) with fexp64 in Hd. change (round_mode mode_NE) with ZnearestE in Hd. rewrite Rlt_bool_true in Hd by (eapply small_round; eassumption).
  destruct Hd as (H1 & H2 & _). split; [exact H1|]. unfold fin64. etransitivity; [exact H2|exact Ha].
Qed.
Lemma f64_mul_spec a b k : fin64 a = true -> fin64 b = true -> -1074 < k <= 1023 -> (Rabs (R64 a * R64 b) <= bpow radix2 k)%R ->
  R64 (f64_mul a b) = rnd64 (R64 a * R64 b) /\ fin64 (f64_mul a b) = true.
Proof.
  intros Ha Hb Hk Hs. unfold f64_mul, b64_mult. pose proof (Bmult_correct 53 1024 eq_refl eq_refl binop_nan_pl64 mode_NE a b) as Hd.
  change (SpecFloat.fexp 53 1024) with fexp64 in Hd. change (round_mode mode_NE) with ZnearestE in Hd. rewrite Rlt_bool_true in Hd by (eapply small_round; eassumption).
  destruct Hd as (H1 & H2 & _). split; [exact H1|]. unfold fin64. etransitivity; [exact H2|]. unfold fin64 in *. rewrite Ha, Hb. reflexivity.
Qed.
Lemma rel64 r : (bpow radix2 (-1022) <= Rabs r)%R -> exists d, rnd64 r = (r * (1 + d))%R /\ (Rabs d <= bpow radix2 (-53))%R.
Proof.
  intros Hr. destruct (relative_error_N_FLT_ex radix2 (-1074) 53 eq_refl (fun x => negb (Z.even x)) r Hr) as (d & Hd & E). exists d. split; [exact E|].
  eapply Rle_trans; [exact Hd|]. change (/ 2)%R with (bpow radix2 (-1)). rewrite <- bpow_plus. apply Rle_refl.
Qed.
Lemma trunc_spec (x : binary64) : (0 <= R64 x)%R -> (IZR (Btrunc 53 1024 x) <= R64 x < IZR (Btrunc 53 1024 x) + 1)%R.
Proof.
  intros Hx. pose proof (Btrunc_correct 53 1024 eq_refl x) as E. rewrite round_FIX_IZR in E. apply eq_IZR in E. rewrite E. unfold R64 in *.
  rewrite Ztrunc_floor by exact Hx. split; [apply Zfloor_lb|apply Zfloor_ub].
Qed.

Section Pick.
Local Open Scope R_scope.
Lemma small_errors a d1 d2 : 0 <= a -> Rabs d1 <= bpow radix2 (-53) -> Rabs d2 <= bpow radix2 (-53) ->
  Rabs (a * (1 + d1) * (1 + d2) - a) <= a * bpow radix2 (-51).
Proof.
  intros Ha H1 H2. replace (a * (1 + d1) * (1 + d2) - a) with (a * (d1 + d2 + d1 * d2)) by ring.
  rewrite Rabs_mult, (Rabs_pos_eq a Ha). apply Rmult_le_compat_l; [exact Ha|].
  eapply Rle_trans; [apply Rabs_triang|]. eapply Rle_trans; [apply Rplus_le_compat; [apply Rabs_triang|rewrite Rabs_mult; apply Rmult_le_compat; [apply Rabs_pos|apply Rabs_pos|exact H1|exact H2]]|].
  change (bpow radix2 (-53)) with (/ 9007199254740992) in *. change (bpow radix2 (-51)) with (/ 2251799813685248). lra.
Qed.
End Pick.

Lemma pick_quot odd (W w x : N) : (0 < W)%N -> (0 < w)%N -> (W * w < 2 ^ 51)%N -> (x < w)%N ->
  (pick odd W w x * w <= x * W /\ x * W <= (pick odd W w x + 1) * w)%N.
Proof.
  intros HW Hw Hs Hx. unfold pick.
  assert (LW : (W < 2 ^ 51)%N) by nia. assert (Lw : (w < 2 ^ 51)%N) by nia.
  destruct (f64_of_Z_spec (Z.of_N W)) as (EW & FW); [lia|]. destruct (f64_of_Z_spec (Z.of_N w)) as (Ew & Fw); [lia|].
  destruct (f64_of_Z_spec (Z.of_N x)) as (Ex & Fx); [lia|].
  set (a := IZR (Z.of_N W)) in *. set (b := IZR (Z.of_N w)) in *. set (c := IZR (Z.of_N x)) in *.
  assert (Ha : (1 <= a)%R) by (apply IZR_le; lia). assert (Hb : (1 <= b)%R) by (apply IZR_le; lia). assert (Hc : (0 <= c)%R) by (apply IZR_le; lia).
  assert (Hcb : (c < b)%R) by (apply IZR_lt; lia).
  assert (Hab : (a * b < bpow radix2 51)%R). { unfold a, b. rewrite <- mult_IZR. change (bpow radix2 51) with (IZR (2 ^ 51)). apply IZR_lt. lia. }
  assert (Ba : (a < bpow radix2 51)%R) by nra. assert (Bb : (b < bpow radix2 51)%R) by nra.
  assert (Qlo : (bpow radix2 (-51) <= a / b)%R). { change (bpow radix2 (-51)) with (bpow radix2 (Z.opp 51)). rewrite (bpow_opp radix2 51). apply Rmult_le_reg_r with b; [lra|]. unfold Rdiv. rewrite Rmult_assoc, Rinv_l, Rmult_1_r by lra.
    apply Rmult_le_reg_l with (bpow radix2 51); [apply bpow_gt_0|]. rewrite <- Rmult_assoc, Rinv_r by (apply Rgt_not_eq, bpow_gt_0). pose proof (bpow_gt_0 radix2 51). nra. }
  assert (Qhi : (a / b <= a)%R). { apply Rmult_le_reg_r with b; [lra|]. unfold Rdiv. rewrite Rmult_assoc, Rinv_l, Rmult_1_r by lra. nra. }
  assert (Qpos : (0 < a / b)%R) by (eapply Rlt_le_trans; [apply bpow_gt_0|exact Qlo]).
  destruct (f64_div_spec (f64_of_Z (Z.of_N W)) (f64_of_Z (Z.of_N w)) 51 FW) as (Ed & Fd); [rewrite Ew; lra|lia|rewrite EW, Ew, Rabs_pos_eq; lra|].
  rewrite EW, Ew in Ed. destruct (rel64 (a / b)) as (d1 & E1 & D1).
  { rewrite Rabs_pos_eq by lra. eapply Rle_trans; [|exact Qlo]. apply bpow_le. lia. }
  rewrite E1 in Ed. set (s := f64_div _ _) in *.
  assert (D1' : (- (/ 4) <= d1 <= / 4)%R). { apply Rabs_le_inv. eapply Rle_trans; [exact D1|]. change (/ 4)%R with (bpow radix2 (-2)). apply bpow_le. lia. }
  assert (Slo : (bpow radix2 (-52) <= R64 s)%R). { rewrite Ed. replace (bpow radix2 (-52)) with (bpow radix2 (-51) * / 2)%R; [|change (/ 2)%R with (bpow radix2 (-1)); rewrite <- bpow_plus; reflexivity]. pose proof (bpow_gt_0 radix2 (-51)). nra. }
  assert (Spos : (0 < R64 s)%R) by (eapply Rlt_le_trans; [apply bpow_gt_0|exact Slo]).
  assert (Shi : (R64 s <= bpow radix2 52)%R). { rewrite Ed. replace (bpow radix2 52) with (bpow radix2 51 * 2)%R by (change 2%R with (bpow radix2 1); rewrite <- bpow_plus; reflexivity). nra. }
  destruct (f64_mul_spec (f64_of_Z (Z.of_N x)) s 103 Fx Fd) as (Em & Fm); [lia| |].
  { rewrite Ex, Rabs_pos_eq by nra. replace (bpow radix2 103) with (bpow radix2 51 * bpow radix2 52)%R by (rewrite <- bpow_plus; reflexivity). apply Rmult_le_compat; lra. }
  rewrite Ex in Em. set (p := f64_mul _ _) in *.
  (* the two roundings move the product by less than 1/w *)
  assert (Close : (0 <= R64 p /\ Rabs (R64 p * b - c * a) < 1)%R).
  { destruct (N.eq_dec x 0) as [->|Hx0].
    - unfold c in *. rewrite Em, Rmult_0_l. unfold rnd64. rewrite round_0 by typeclasses eauto. split; [lra|]. rewrite !Rmult_0_l, Rminus_0_r, Rabs_R0. lra.
    - assert (Hc1 : (1 <= c)%R) by (apply IZR_le; lia).
      destruct (rel64 (c * R64 s)) as (d2 & E2 & D2). { rewrite Rabs_pos_eq by nra. apply Rle_trans with (bpow radix2 (-52)); [apply bpow_le; lia|]. nra. }
      assert (D2' : (- (/ 4) <= d2 <= / 4)%R). { apply Rabs_le_inv. eapply Rle_trans; [exact D2|]. change (/ 4)%R with (bpow radix2 (-2)). apply bpow_le. lia. }
      rewrite Em, E2. split; [assert (0 < c * R64 s)%R by nra; nra|]. rewrite Ed.
      replace (c * (a / b * (1 + d1)) * (1 + d2) * b - c * a)%R with (c * a * (1 + d1) * (1 + d2) - c * a)%R by (field; lra).
      eapply Rle_lt_trans; [apply small_errors; [nra|exact D1|exact D2]|].
      apply Rlt_le_trans with (bpow radix2 51 * bpow radix2 (-51))%R; [|rewrite <- bpow_plus; apply Rle_refl]. apply Rmult_lt_compat_r; [apply bpow_gt_0|nra]. }
  destruct Close as (Pp & Pc). pose proof (trunc_spec p Pp) as (T1 & T2). set (z := Btrunc 53 1024 p) in *.
  apply Rabs_def2 in Pc as (P1 & P2).
  assert (Z0 : 0 <= z). { assert (-1 < z); [|lia]. apply lt_IZR. lra. }
  assert (I1 : z * Z.of_N w <= Z.of_N x * Z.of_N W). { assert (z * Z.of_N w < Z.of_N x * Z.of_N W + 1); [|lia]. apply lt_IZR. rewrite plus_IZR, !mult_IZR. fold a b c. nra. }
  assert (I2 : Z.of_N x * Z.of_N W <= (z + 1) * Z.of_N w). { assert (Z.of_N x * Z.of_N W - 1 < (z + 1) * Z.of_N w); [|lia]. apply lt_IZR. rewrite minus_IZR, !mult_IZR, plus_IZR. fold a b c. nra. }
  assert (Zhi : z < 2 ^ 64) by nia.
  unfold uint_of_f64. fold z. change (is_finite 53 1024 p) with (fin64 p). rewrite Fm. rewrite (proj2 (Z.leb_le 0 z) Z0), (proj2 (Z.ltb_lt z _) Zhi). cbn [andb].
  split; apply N2Z.inj_le; rewrite ?N2Z.inj_mul, ?N2Z.inj_add, Z2N.id by exact Z0; assumption.
Qed.
Lemma pick_exact odd (k w x : N) : (0 < k)%N -> (k * w < 2 ^ 53)%N -> (x < w)%N -> pick odd (k * w) w x = (x * k)%N.
Proof.
  intros Hk Hs Hx. unfold pick. assert (Lk : (k < 2 ^ 53)%N) by nia. assert (Lw : (w < 2 ^ 53)%N) by nia. assert (Lx : (x * k < 2 ^ 53)%N) by nia.
  destruct (f64_of_Z_spec (Z.of_N (k * w))) as (EW & FW); [lia|]. destruct (f64_of_Z_spec (Z.of_N w)) as (Ew & Fw); [lia|].
  destruct (f64_of_Z_spec (Z.of_N x)) as (Ex & Fx); [lia|].
  assert (Hw : (1 <= IZR (Z.of_N w))%R) by (apply IZR_le; lia).
  assert (Q : (R64 (f64_of_Z (Z.of_N (k * w))) / R64 (f64_of_Z (Z.of_N w)) = IZR (Z.of_N k))%R). { rewrite EW, Ew, N2Z.inj_mul, mult_IZR. field. lra. }
  assert (B : forall n : N, (n < 2 ^ 53)%N -> (Rabs (IZR (Z.of_N n)) <= bpow radix2 53)%R). { intros n Hn. rewrite <- abs_IZR. change (bpow radix2 53) with (IZR (2 ^ 53)). apply IZR_le. lia. }
  destruct (f64_div_spec (f64_of_Z (Z.of_N (k * w))) (f64_of_Z (Z.of_N w)) 53 FW) as (Ed & Fd); [rewrite Ew; lra|lia|rewrite Q; apply B; exact Lk|].
  rewrite Q in Ed. unfold rnd64 in Ed. rewrite round_generic in Ed by (try typeclasses eauto; apply int_format; lia).
  assert (M : (R64 (f64_of_Z (Z.of_N x)) * R64 (f64_div (f64_of_Z (Z.of_N (k * w))) (f64_of_Z (Z.of_N w))) = IZR (Z.of_N (x * k)))%R). { rewrite Ex, Ed, N2Z.inj_mul, mult_IZR. reflexivity. }
  destruct (f64_mul_spec (f64_of_Z (Z.of_N x)) (f64_div (f64_of_Z (Z.of_N (k * w))) (f64_of_Z (Z.of_N w))) 53 Fx Fd) as (Em & Fm); [lia|rewrite M; apply B; exact Lx|].
  rewrite M in Em. unfold rnd64 in Em. rewrite round_generic in Em by (try typeclasses eauto; apply int_format; lia).
  set (p := f64_mul _ _) in *. assert (Ht : Btrunc 53 1024 p = Z.of_N (x * k)).
  { destruct (trunc_spec p) as (T1 & T2). { rewrite Em. apply IZR_le. lia. } rewrite Em in T1, T2. apply le_IZR in T1. rewrite <- plus_IZR in T2. apply lt_IZR in T2. lia. }
  unfold uint_of_f64. rewrite Ht. change (is_finite 53 1024 p) with (fin64 p). rewrite Fm, (proj2 (Z.leb_le 0 _)), (proj2 (Z.ltb_lt _ _)) by lia. cbn [andb]. lia.
Qed.
