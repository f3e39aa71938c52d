(** * ShowProofs: the progress display of Train *)
From Coq Require Import ZArith Reals Lra Bool Ascii String.
From Flocq Require Import Core.Core IEEE754.BinarySingleNaN IEEE754.Binary IEEE754.Bits.
From Verif Require Import Base Num ModelTools ModelOps ModelTensor ModelGraph ModelLayer ModelModel ModelImg ImgFloat BarProofs ModelStr ModelShow StrSpec StrProofs.
From Coq Require Import Init.Byte Lia ZifyBool ZifyNat ZifyN.
Open Scope Z_scope.

(** ** Rounding *)
Lemma nearest_int z : ZnearestE (IZR z) = z.
Proof. apply Zrnd_IZR. typeclasses eauto. Qed.
Lemma half_even_spec n d : 0 < d -> half_even n d = ZnearestE (IZR n / IZR d).
Proof.
  intros Hd. assert (Hr : (0 < IZR d)%R) by (apply IZR_lt; exact Hd). unfold half_even, Znearest. rewrite Zfloor_div by lia.
  pose proof (Z.div_mod n d ltac:(lia)) as E. pose proof (Z.mod_pos_bound n d Hd) as Hm. set (q := n / d) in *. set (r := n mod d) in *.
  assert (V : (IZR n / IZR d - IZR q = IZR r / IZR d)%R) by (rewrite E, plus_IZR, mult_IZR; field; lra). rewrite V.
  assert (C : (0 < r)%Z -> Zceil (IZR n / IZR d) = q + 1).
  { intros Hr0. apply Zceil_imp. replace (IZR (q + 1 - 1)) with (IZR q) by (f_equal; lia). rewrite plus_IZR.
    assert (IZR n / IZR d = IZR q + IZR r / IZR d)%R by lra. assert (0 < IZR r / IZR d)%R by (apply Rdiv_lt_0_compat; [apply IZR_lt; lia|exact Hr]).
    assert (IZR r / IZR d < 1)%R. { apply (Rmult_lt_reg_r (IZR d)); [exact Hr|]. unfold Rdiv. rewrite Rmult_assoc, Rinv_l, Rmult_1_r, Rmult_1_l by lra. apply IZR_lt. lia. } lra. }
  assert (X : (IZR r / IZR d * (2 * IZR d) = 2 * IZR r)%R) by (field; lra).
  destruct (Z.compare_spec (2 * r) d) as [K|K|K].
  - rewrite Rcompare_Eq. 2:{ assert (2 * IZR r = IZR d)%R by (rewrite <- mult_IZR; f_equal; exact K). apply (Rmult_eq_reg_r (2 * IZR d)); [|lra]. rewrite X. lra. }
    destruct (Z.even q); cbn [negb]; [reflexivity|]. symmetry. apply C. lia.
  - rewrite Rcompare_Lt; [reflexivity|]. apply IZR_lt in K. rewrite mult_IZR in K. apply (Rmult_lt_reg_r (2 * IZR d)); [lra|]. rewrite X. lra.
  - rewrite Rcompare_Gt; [symmetry; apply C; lia|]. apply IZR_lt in K. rewrite mult_IZR in K. apply (Rmult_lt_reg_r (2 * IZR d)); [lra|]. rewrite X. lra.
Qed.
Lemma rounded_spec p m e : rounded p m e = ZnearestE (F2R (Float radix2 (Z.pos m) e) * IZR (10 ^ Z.of_nat p)).
Proof.
  unfold rounded, F2R. cbn [Fnum Fexp]. set (t := 10 ^ Z.of_nat p). destruct (Z.leb_spec 0 e) as [He|He].
  - rewrite <- IZR_Zpower by exact He. rewrite <- !mult_IZR. rewrite nearest_int. change (radix_val radix2) with 2. ring.
  - rewrite half_even_spec by (apply Z.pow_pos_nonneg; lia). f_equal. rewrite mult_IZR. replace (bpow radix2 e) with (/ IZR (2 ^ (- e)))%R.
    + unfold Rdiv. ring.
    + change 2 with (radix_val radix2). rewrite IZR_Zpower by lia. rewrite bpow_opp, Rinv_inv. reflexivity.
Qed.
Lemma Zint_nearest r a b : (IZR a <= r <= IZR b)%R -> a <= ZnearestE r <= b.
Proof.
  intros [Ha Hb]. split.
  - rewrite <- (nearest_int a). apply Zrnd_le; [typeclasses eauto|exact Ha].
  - rewrite <- (nearest_int b). apply Zrnd_le; [typeclasses eauto|exact Hb].
Qed.
(** A number that is not negative is written with the rounded value. *)
Lemma fixed_pos p x : fin64 x = true -> (0 < R64 x)%R -> fixed p x = point p (Z.to_N (ZnearestE (R64 x * IZR (10 ^ Z.of_nat p)))).
Proof.
  intros Hf Hx. destruct x as [s|s|s pl Hpl|s m e He]; try discriminate Hf.
  - cbn in Hx. lra.
  - destruct s; cbn [fixed minus app]; [|rewrite rounded_spec; reflexivity]. exfalso. unfold R64, B2R in Hx. assert (F2R (Float radix2 (cond_Zopp true (Z.pos m)) e) < 0)%R; [|lra].
    apply F2R_lt_0. cbn. lia.
Qed.

(** ** Lengths *)
Lemma padded_length : forall p n acc, length (padded p n acc) = (p + length acc)%nat.
Proof. induction p as [|p IH]; intros n acc; [reflexivity|]. cbn [padded]. rewrite IH. cbn [length]. lia. Qed.
Lemma digits_len : forall fuel a b acc acc', (length acc = length acc')%nat -> (a <= b)%N -> (b < 10 ^ N.of_nat fuel)%N -> forall fuel', (a < 10 ^ N.of_nat fuel')%N -> (0 < fuel')%nat -> (0 < fuel)%nat ->
  (length (digits fuel' a acc) <= length (digits fuel b acc'))%nat.
Proof.
  induction fuel as [|f IH]; intros a b acc acc' Hl Hab Hb fuel' Ha Hf' Hf; [lia|]. destruct fuel' as [|f']; [lia|]. cbn [digits].
  assert (Hd : (a / 10 <= b / 10)%N) by (apply N.div_le_mono; lia).
  assert (Db : (b / 10 < 10 ^ N.of_nat f)%N) by (apply N.div_lt_upper_bound; [lia|]; rewrite Nat2N.inj_succ, N.pow_succ_r' in Hb; exact Hb).
  assert (Da : (a / 10 < 10 ^ N.of_nat f')%N) by (apply N.div_lt_upper_bound; [lia|]; rewrite Nat2N.inj_succ, N.pow_succ_r' in Ha; exact Ha).
  assert (L : forall g n l, (length l <= length (digits g n l))%nat).
  { induction g as [|g IHg]; intros n l; [cbn; lia|]. cbn [digits]. destruct (n / 10 =? 0)%N; [cbn; lia|]. etransitivity; [|apply IHg]. cbn. lia. }
  destruct (N.eqb_spec (a / 10) 0) as [Ea|Ea]; destruct (N.eqb_spec (b / 10) 0) as [Eb|Eb].
  - cbn. lia.
  - etransitivity; [|apply L]. cbn. lia.
  - lia.
  - apply IH; [cbn; lia|exact Hd|exact Db|exact Da| |].
    + destruct f'; [cbn in Da; lia|lia].
    + destruct f; [cbn in Db; lia|lia].
Qed.
Lemma dec_len a b : (a <= b)%N -> (length (dec a) <= length (dec b))%nat.
Proof. intros Hab. unfold dec. apply digits_len; [reflexivity|exact Hab|apply dec_fuel|apply dec_fuel|lia|lia]. Qed.
Lemma point_len q : (q <= 10000)%N -> (length (point 2 q) <= 6)%nat.
Proof.
  intros Hq. unfold point. rewrite !app_length, padded_length. cbn [length tx list_ascii_of_string]. change (10 ^ N.of_nat 2)%N with 100%N.
  assert (q / 100 <= 100)%N. { apply N.div_le_upper_bound; lia. } pose proof (dec_len (q / 100) 100 H) as L. change (length (dec 100)) with 3%nat in L. lia.
Qed.

(** ** The fraction *)
Lemma of_Z_round z : Z.abs z <= 2 ^ 64 -> R64 (f64_of_Z z) = rnd64 (IZR z) /\ fin64 (f64_of_Z z) = true.
Proof.
  intros Hz. pose proof (binary_normalize_correct 53 1024 eq_refl eq_refl mode_NE z 0 false) as Hn. cbv zeta in Hn.
  assert (E : F2R (Float radix2 z 0) = IZR z) by (unfold F2R; cbn; ring). rewrite E in Hn. change (SpecFloat.fexp 53 1024) with fexp64 in Hn. change (round_mode mode_NE) with ZnearestE in Hn.
  rewrite Rlt_bool_true in Hn.
  - destruct Hn as (H1 & H2 & _). split; assumption.
  - apply (small_round _ 64); [lia|]. rewrite <- abs_IZR. change (bpow radix2 64) with (IZR (2 ^ 64)). apply IZR_le. exact Hz.
Qed.
Lemma rnd_mono x y : (x <= y)%R -> (rnd64 x <= rnd64 y)%R.
Proof. intros. apply round_le; try typeclasses eauto. assumption. Qed.
Lemma rnd_int z : Z.abs z < 2 ^ 53 -> rnd64 (IZR z) = IZR z.
Proof. intros Hz. apply round_generic; [typeclasses eauto|]. apply int_format. exact Hz. Qed.
Lemma rnd_pow k : -1074 < k -> rnd64 (bpow radix2 k) = bpow radix2 k.
Proof. intros Hk. apply round_generic; [typeclasses eauto|]. apply generic_format_bpow. unfold fexp64, FLT_exp. lia. Qed.
(** What is divided. *)
Definition part (k n : Z) : binary64 := f64_div (f64_of_Z k) (f64_of_Z n).
Definition percent (k n : Z) : binary64 := f64_mul (part k n) (f64_of_Z 100).
Section Part.
Context (n : Z) (Hn : 1 <= n < 2 ^ 64).
Lemma whole : R64 (f64_of_Z n) = rnd64 (IZR n) /\ (1 <= rnd64 (IZR n))%R.
Proof using Hn.
  destruct (of_Z_round n ltac:(lia)) as [E _]. split; [exact E|]. rewrite <- (rnd_int 1) by lia. apply rnd_mono. apply IZR_le. lia.
Qed.
Lemma part_spec k : 1 <= k <= n -> R64 (part k n) = rnd64 (rnd64 (IZR k) / rnd64 (IZR n)) /\ fin64 (part k n) = true /\ (bpow radix2 (-65) <= R64 (part k n) <= 1)%R.
Proof using Hn.
  intros Hk. destruct (of_Z_round k ltac:(lia)) as [Ek Fk]. destruct whole as [En Hn1].
  assert (Hk1 : (1 <= rnd64 (IZR k))%R) by (rewrite <- (rnd_int 1) by lia; apply rnd_mono; apply IZR_le; lia).
  assert (Hkn : (rnd64 (IZR k) <= rnd64 (IZR n))%R) by (apply rnd_mono; apply IZR_le; lia).
  assert (Hn2 : (rnd64 (IZR n) <= bpow radix2 64)%R) by (rewrite <- (rnd_pow 64) by lia; apply rnd_mono; change (bpow radix2 64) with (IZR (2 ^ 64)); apply IZR_le; lia).
  set (a := rnd64 (IZR k)) in *. set (b := rnd64 (IZR n)) in *.
  assert (Q : (bpow radix2 (-64) <= a / b <= 1)%R).
  { split.
    - change (bpow radix2 (-64)) with (bpow radix2 (- (64))). rewrite bpow_opp. apply Rle_trans with (/ b)%R; [apply Rinv_le; lra|]. unfold Rdiv. rewrite <- (Rmult_1_l (/ b)) at 1. apply Rmult_le_compat_r; [left; apply Rinv_0_lt_compat; lra|lra].
    - apply (Rmult_le_reg_r b); [lra|]. unfold Rdiv. rewrite Rmult_assoc, Rinv_l by lra. lra. }
  assert (P64 : (0 < bpow radix2 (-64))%R) by apply bpow_gt_0.
  destruct (f64_div_spec (f64_of_Z k) (f64_of_Z n) 0 Fk) as [E F].
  { rewrite En. lra. }
  { lia. }
  { rewrite Ek, En. change (bpow radix2 0) with 1%R. rewrite Rabs_pos_eq; lra. }
  rewrite Ek, En in E. split; [exact E|]. split; [exact F|]. unfold part. rewrite E. split.
  - apply Rle_trans with (bpow radix2 (-64)); [apply bpow_le; lia|]. rewrite <- (rnd_pow (-64)) by lia. apply rnd_mono. apply Q.
  - rewrite <- (rnd_int 1) by lia. apply rnd_mono. apply Q.
Qed.
Lemma percent_spec k : 1 <= k <= n -> R64 (percent k n) = rnd64 (R64 (part k n) * 100) /\ fin64 (percent k n) = true /\ (0 < R64 (percent k n) <= 100)%R.
Proof using Hn.
  intros Hk. destruct (part_spec k Hk) as (_ & F & B). destruct (f64_of_Z_spec 100 ltac:(lia)) as [E1 F1].
  assert (P65 : (0 < bpow radix2 (-65))%R) by apply bpow_gt_0.
  destruct (f64_mul_spec (part k n) (f64_of_Z 100) 7 F F1) as [E G].
  { lia. }
  { rewrite E1. change (bpow radix2 7) with 128%R. rewrite Rabs_pos_eq; lra. }
  rewrite E1 in E. split; [exact E|]. split; [exact G|]. unfold percent. rewrite E. split.
  - apply Rlt_le_trans with (bpow radix2 (-65)); [exact P65|]. rewrite <- (rnd_pow (-65)) by lia. apply rnd_mono. lra.
  - apply Rle_trans with (rnd64 (IZR 100)); [apply rnd_mono; lra|rewrite rnd_int by lia; lra].
Qed.
(** Hundredths of a percent. *)
Definition shown_at (k : Z) : Z := ZnearestE (R64 (percent k n) * IZR (10 ^ Z.of_nat 2)).
Lemma shown_range k : 1 <= k <= n -> 0 <= shown_at k <= 10000.
Proof using Hn.
  intros Hk. destruct (percent_spec k Hk) as (_ & _ & B). unfold shown_at. apply Zint_nearest. change (IZR (10 ^ Z.of_nat 2)) with 100%R. lra.
Qed.
Lemma shown_mono k k' : 1 <= k -> k <= k' -> k' <= n -> shown_at k <= shown_at k'.
Proof using Hn.
  intros H1 H2 H3. unfold shown_at. apply Zrnd_le; [typeclasses eauto|]. apply Rmult_le_compat_r; [apply IZR_le; lia|].
  destruct (percent_spec k ltac:(lia)) as (-> & _). destruct (percent_spec k' ltac:(lia)) as (-> & _). apply rnd_mono. apply Rmult_le_compat_r; [lra|].
  destruct (part_spec k ltac:(lia)) as (-> & _). destruct (part_spec k' ltac:(lia)) as (-> & _). apply rnd_mono. destruct whole as [_ Hw].
  unfold Rdiv. apply Rmult_le_compat_r; [left; apply Rinv_0_lt_compat; lra|]. apply rnd_mono. apply IZR_le. exact H2.
Qed.
Lemma shown_last : shown_at n = 10000.
Proof using Hn.
  unfold shown_at. destruct (percent_spec n ltac:(lia)) as (-> & _). destruct (part_spec n ltac:(lia)) as (-> & _). destruct whole as [_ Hw].
  replace (rnd64 (IZR n) / rnd64 (IZR n))%R with (IZR 1) by (field; lra). rewrite rnd_int by lia. replace (IZR 1 * 100)%R with (IZR 100) by ring. rewrite rnd_int by lia.
  rewrite <- mult_IZR. rewrite nearest_int. reflexivity.
Qed.
(** At most half a hundredth of a percent off, and a little for the arithmetic. *)
Lemma shown_near k : 1 <= k <= n -> (Rabs (IZR (shown_at k) - 10000 * (IZR k / IZR n)) <= 501 / 1000)%R.
Proof using Hn.
  intros Hk. assert (Kp : (1 <= IZR k)%R) by (apply IZR_le; lia). assert (Np : (1 <= IZR n)%R) by (apply IZR_le; lia). assert (KN : (IZR k <= IZR n)%R) by (apply IZR_le; lia).
  assert (Small : forall x, (bpow radix2 (-100) <= x)%R -> exists d, rnd64 x = (x * (1 + d))%R /\ (Rabs d <= bpow radix2 (-53))%R).
  { intros x Hx. apply rel64. rewrite Rabs_pos_eq; [apply Rle_trans with (2 := Hx); apply bpow_le; lia|]. apply Rle_trans with (2 := Hx). apply bpow_ge_0. }
  assert (B0 : (bpow radix2 (-100) <= 1)%R) by (change 1%R with (bpow radix2 0); apply bpow_le; lia).
  destruct (Small (IZR k) ltac:(lra)) as (d1 & E1 & D1). destruct (Small (IZR n) ltac:(lra)) as (d2 & E2 & D2).
  destruct (part_spec k Hk) as (Ep & _ & Bp). destruct (percent_spec k Hk) as (Ec & _ & _). destruct whole as [_ Hw].
  assert (U : (bpow radix2 (-53) <= / 1000000000)%R) by (change (bpow radix2 (-53)) with (/ IZR (2 ^ 53))%R; apply Rinv_le; [lra|apply IZR_le; lia]).
  set (u := (/ 1000000000)%R) in *. assert (Hu : (u = / 1000000000)%R) by reflexivity.
  assert (D1' : (- u <= d1 <= u)%R) by (apply Rabs_le_inv; lra). assert (D2' : (- u <= d2 <= u)%R) by (apply Rabs_le_inv; lra).
  destruct (Small (rnd64 (IZR k) / rnd64 (IZR n))%R) as (d3 & E3 & D3).
  { assert (bpow radix2 (-100) <= bpow radix2 (-64))%R by (apply bpow_le; lia). apply Rle_trans with (bpow radix2 (-64)); [assumption|].
    assert (Hk1 : (1 <= rnd64 (IZR k))%R) by (rewrite <- (rnd_int 1) by lia; apply rnd_mono; exact Kp).
    assert (Hn2 : (rnd64 (IZR n) <= bpow radix2 64)%R) by (rewrite <- (rnd_pow 64) by lia; apply rnd_mono; change (bpow radix2 64) with (IZR (2 ^ 64)); apply IZR_le; lia).
    change (bpow radix2 (-64)) with (bpow radix2 (- (64))). rewrite bpow_opp. apply Rle_trans with (/ rnd64 (IZR n))%R; [apply Rinv_le; lra|]. unfold Rdiv. rewrite <- (Rmult_1_l (/ rnd64 (IZR n))) at 1. apply Rmult_le_compat_r; [left; apply Rinv_0_lt_compat; lra|lra]. }
  assert (D3' : (- u <= d3 <= u)%R) by (apply Rabs_le_inv; lra).
  destruct (Small (R64 (part k n) * 100)%R) as (d4 & E4 & D4).
  { assert (bpow radix2 (-100) <= bpow radix2 (-65))%R by (apply bpow_le; lia). pose proof (bpow_gt_0 radix2 (-65)). lra. }
  assert (D4' : (- u <= d4 <= u)%R) by (apply Rabs_le_inv; lra).
  unfold shown_at. change (IZR (10 ^ Z.of_nat 2)) with 100%R. rewrite Ec, E4, Ep, E3, E1, E2. set (r := (IZR k / IZR n)%R).
  assert (Hr : (0 < r <= 1)%R).
  { unfold r. split; [apply Rdiv_lt_0_compat; lra|]. apply (Rmult_le_reg_r (IZR n)); [lra|]. unfold Rdiv. rewrite Rmult_assoc, Rinv_l by lra. lra. }
  set (w := (/ (1 + d2))%R). assert (Hw2 : (w * (1 + d2) = 1)%R) by (unfold w; field; lra). assert (Hw3 : (0 < w)%R) by (unfold w; apply Rinv_0_lt_compat; lra).
  assert (Hw4 : (1 - 2 * u <= w <= 1 + 2 * u)%R) by (split; nra).
  replace (IZR k * (1 + d1) / (IZR n * (1 + d2)) * (1 + d3) * 100 * (1 + d4) * 100)%R with (10000 * (r * ((1 + d1) * w * (1 + d3) * (1 + d4))))%R by (unfold r, w; field; lra).
  set (f := ((1 + d1) * w * (1 + d3) * (1 + d4))%R).
  assert (F1 : (1 - 4 * u <= (1 + d1) * w <= 1 + 4 * u)%R) by (split; nra).
  assert (F2 : (1 - 6 * u <= (1 + d1) * w * (1 + d3) <= 1 + 6 * u)%R) by (set (g := ((1 + d1) * w)%R) in *; split; nra).
  assert (F3 : (1 - 8 * u <= f <= 1 + 8 * u)%R) by (unfold f; set (g := ((1 + d1) * w * (1 + d3))%R) in *; split; nra).
  assert (RF : (r - 8 * u <= r * f <= r + 8 * u)%R) by (split; nra).
  pose proof (Znearest_half (fun x => negb (Z.even x)) (10000 * (r * f))) as Hh. apply Rabs_le_inv in Hh. apply Rabs_le.
  set (q := IZR (Znearest (fun x => negb (Z.even x)) (10000 * (r * f)))) in *. change (IZR (ZnearestE (10000 * (r * f)))) with q. lra.
Qed.
End Part.
