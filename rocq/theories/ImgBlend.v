(** * ImgBlend: the weighted mean of four neighbours, computed in float64 *)
From Coq Require Import ZArith Reals Lia Lra Bool.
From Flocq Require Import Core.Core Relative IEEE754.BinarySingleNaN IEEE754.Binary IEEE754.Bits.
From Verif Require Import ModelImg ImgSpec ImgFloat.
Open Scope R_scope.

Notation u52 := (bpow radix2 (-52)).
Lemma u52_pos : 0 < u52. Proof. apply bpow_gt_0. Qed.
Lemma u52_small : u52 <= / 16. Proof. change (/ 16) with (bpow radix2 (-4)). apply bpow_le. lia. Qed.

(** Rounding moves a number of size at most [M] by at most [M * 2^-52]. *)
Lemma rnd_near r M : bpow radix2 (-1000) <= M -> Rabs r <= M -> Rabs (rnd64 r - r) <= M * u52.
Proof.
  intros HM Hr. destruct (error_N_FLT radix2 (-1074) 53 ltac:(reflexivity) (fun x => negb (Z.even x)) r) as (d & e & Hd & He & _ & E).
  unfold rnd64, fexp64. rewrite E. replace (r * (1 + d) + e - r) with (r * d + e) by ring.
  eapply Rle_trans; [apply Rabs_triang|]. rewrite Rabs_mult.
  change (/ 2) with (bpow radix2 (-1)) in Hd, He. rewrite <- bpow_plus in Hd, He. change (-1 + (- (53) + 1))%Z with (-53)%Z in Hd. change (-1 + -1074)%Z with (-1075)%Z in He.
  replace (M * u52) with (M * bpow radix2 (-53) + M * bpow radix2 (-53)) by (replace u52 with (2 * bpow radix2 (-53)) by (change 2 with (bpow radix2 1); rewrite <- bpow_plus; reflexivity); ring).
  apply Rplus_le_compat.
  - apply Rmult_le_compat; [apply Rabs_pos|apply Rabs_pos|exact Hr|exact Hd].
  - eapply Rle_trans; [exact He|]. apply Rle_trans with (bpow radix2 (-1000) * bpow radix2 (-53)); [rewrite <- bpow_plus; apply bpow_le; lia|].
    apply Rmult_le_compat_r; [apply bpow_ge_0|exact HM].
Qed.
Lemma f64_add_spec a b k : fin64 a = true -> fin64 b = true -> (-1074 < k <= 1023)%Z -> Rabs (R64 a + R64 b) <= bpow radix2 k ->
  R64 (f64_add a b) = rnd64 (R64 a + R64 b) /\ fin64 (f64_add a b) = true.
Proof.
  intros Ha Hb Hk Hs. unfold f64_add, b64_plus. pose proof (Bplus_correct 53 1024 eq_refl eq_refl binop_nan_pl64 mode_NE a b Ha Hb) as Hd.
  change (SpecFloat.fexp 53 1024) with fexp64 in Hd. change (round_mode mode_NE) with ZnearestE in Hd. rewrite Rlt_bool_true in Hd by (eapply small_round; eassumption).
  destruct Hd as (H1 & H2 & _). split; [exact H1|exact H2].
Qed.
Lemma f64_sub_spec a b k : fin64 a = true -> fin64 b = true -> (-1074 < k <= 1023)%Z -> Rabs (R64 a - R64 b) <= bpow radix2 k ->
  R64 (f64_sub a b) = rnd64 (R64 a - R64 b) /\ fin64 (f64_sub a b) = true.
Proof.
  intros Ha Hb Hk Hs. unfold f64_sub, b64_minus. pose proof (Bminus_correct 53 1024 eq_refl eq_refl binop_nan_pl64 mode_NE a b Ha Hb) as Hd.
  change (SpecFloat.fexp 53 1024) with fexp64 in Hd. change (round_mode mode_NE) with ZnearestE in Hd. rewrite Rlt_bool_true in Hd by (eapply small_round; eassumption).
  destruct Hd as (H1 & H2 & _). split; [exact H1|exact H2].
Qed.

(** A float64 within [e] of a real number. *)
Definition near (a : binary64) (A e : R) : Prop := fin64 a = true /\ Rabs (R64 a - A) <= e.
Definition unit (a : binary64) : Prop := 0 <= R64 a <= 1.
Lemma tiny_1 : bpow radix2 (-1000) <= 1. Proof. change 1 with (bpow radix2 0). apply bpow_le. lia. Qed.
Lemma rnd_unit r : 0 <= r <= 1 -> 0 <= rnd64 r <= 1.
Proof.
  intros Hr. unfold rnd64. split.
  - apply round_ge_generic; try typeclasses eauto; [apply generic_format_0|tauto].
  - apply round_le_generic; try typeclasses eauto; [|tauto]. change 1 with (bpow radix2 0). apply generic_format_bpow. unfold fexp64, FLT_exp. lia.
Qed.
Lemma abs_near x y e : Rabs (x - y) <= e -> y - e <= x <= y + e.
Proof. intros Hx. apply Rabs_le_inv in Hx. lra. Qed.

Lemma one64_spec : R64 one64 = 1 /\ fin64 one64 = true.
Proof. exact (f64_of_Z_spec 1 eq_refl). Qed.
Lemma sub_one a A e : unit a -> near a A e -> unit (f64_sub one64 a) /\ near (f64_sub one64 a) (1 - A) (e + u52).
Proof.
  intros Hu (Fa & Ha). unfold unit in *. destruct one64_spec as (E1 & F1).
  destruct (f64_sub_spec one64 a 0 F1 Fa) as (E & F); [lia|rewrite E1; change (bpow radix2 0) with 1; rewrite Rabs_pos_eq; lra|].
  rewrite E1 in E. split; [rewrite E; apply rnd_unit; lra|]. split; [exact F|]. rewrite E.
  pose proof (rnd_near (1 - R64 a) 1 tiny_1) as Hr. rewrite Rmult_1_l in Hr. specialize (Hr ltac:(rewrite Rabs_pos_eq; lra)).
  apply abs_near in Hr. apply abs_near in Ha. apply Rabs_le. lra.
Qed.
Lemma prod_diff a b A B : 0 <= a <= 1 -> 0 <= B <= 1 -> Rabs (a * b - A * B) <= Rabs (a - A) + Rabs (b - B).
Proof.
  intros Ha HB. replace (a * b - A * B) with (a * (b - B) + (a - A) * B) by ring. eapply Rle_trans; [apply Rabs_triang|]. rewrite !Rabs_mult, (Rabs_pos_eq a), (Rabs_pos_eq B) by lra.
  pose proof (Rabs_pos (a - A)). pose proof (Rabs_pos (b - B)). nra.
Qed.
Lemma mul_unit a b A B ea eb : unit a -> unit b -> 0 <= B <= 1 -> near a A ea -> near b B eb ->
  unit (f64_mul a b) /\ near (f64_mul a b) (A * B) (ea + eb + u52).
Proof.
  intros Ua Ub HB (Fa & Ha) (Fb & Hb). unfold unit in *. assert (P : 0 <= R64 a * R64 b <= 1) by nra.
  destruct (f64_mul_spec a b 0 Fa Fb) as (E & F); [lia|change (bpow radix2 0) with 1; rewrite Rabs_pos_eq; lra|].
  split; [rewrite E; apply rnd_unit; exact P|]. split; [exact F|]. rewrite E.
  pose proof (rnd_near (R64 a * R64 b) 1 tiny_1) as Hr. rewrite Rmult_1_l in Hr. specialize (Hr ltac:(rewrite Rabs_pos_eq; lra)).
  pose proof (prod_diff (R64 a) (R64 b) A B Ua HB) as Hp. apply abs_near in Hr. apply Rabs_le.
  assert (Hq : Rabs (R64 a * R64 b - A * B) <= ea + eb) by lra. apply abs_near in Hq. lra.
Qed.
(** A weight times a number of size at most [M]. *)
Lemma mul_px a A e p M : unit a -> near a A e -> fin64 p = true -> 1 <= M -> Rabs (R64 p) <= M -> M <= bpow radix2 1000 ->
  near (f64_mul a p) (A * R64 p) (M * (e + u52)) /\ Rabs (R64 (f64_mul a p)) <= 2 * M.
Proof.
  intros Ua (Fa & Ha) Fp HM Hp HB. unfold unit in *. assert (P : Rabs (R64 a * R64 p) <= M). { rewrite Rabs_mult, (Rabs_pos_eq (R64 a)) by lra. pose proof (Rabs_pos (R64 p)). nra. }
  destruct (f64_mul_spec a p 1000 Fa Fp) as (E & F); [lia|lra|].
  pose proof (rnd_near (R64 a * R64 p) M ltac:(pose proof tiny_1; lra) P) as Hr. pose proof u52_small. pose proof u52_pos.
  split.
  - split; [exact F|]. rewrite E. replace (rnd64 (R64 a * R64 p) - A * R64 p) with (rnd64 (R64 a * R64 p) - R64 a * R64 p + (R64 a - A) * R64 p) by ring.
    eapply Rle_trans; [apply Rabs_triang|]. rewrite (Rabs_mult (R64 a - A)). pose proof (Rabs_pos (R64 p)). pose proof (Rabs_pos (R64 a - A)). nra.
  - rewrite E. apply abs_near in Hr. apply Rabs_le_inv in P. apply Rabs_le. nra.
Qed.
Lemma add_px a b A B ea eb M k1 k2 : near a A ea -> near b B eb -> 1 <= M -> M <= bpow radix2 1000 -> 1 <= k1 -> 1 <= k2 -> k1 + k2 <= 16 ->
  Rabs (R64 a) <= k1 * M -> Rabs (R64 b) <= k2 * M ->
  near (f64_add a b) (A + B) (ea + eb + (k1 + k2) * M * u52) /\ Rabs (R64 (f64_add a b)) <= (k1 + k2 + 1) * M.
Proof.
  intros (Fa & Ha) (Fb & Hb) HM HB K1 K2 K Sa Sb.
  assert (P : Rabs (R64 a + R64 b) <= (k1 + k2) * M). { eapply Rle_trans; [apply Rabs_triang|]. lra. }
  destruct (f64_add_spec a b 1004 Fa Fb) as (E & F); [lia| |].
  { eapply Rle_trans; [exact P|]. replace (bpow radix2 1004) with (16 * bpow radix2 1000) by (change 16 with (bpow radix2 4); rewrite <- bpow_plus; reflexivity). apply Rmult_le_compat; lra. }
  pose proof (rnd_near (R64 a + R64 b) ((k1 + k2) * M) ltac:(pose proof tiny_1; nra) P) as Hr. pose proof u52_small. pose proof u52_pos.
  assert (Q : (k1 + k2) * M * u52 <= M). { apply Rle_trans with (16 * M * / 16); [|lra]. apply Rmult_le_compat; [nra|lra|nra|lra]. }
  apply abs_near in Hr. split.
  - split; [exact F|]. rewrite E. apply abs_near in Ha. apply abs_near in Hb. apply Rabs_le. lra.
  - rewrite E. apply Rabs_le_inv in P. apply Rabs_le. lra.
Qed.

Section Blend.
Context {T : Type} (to64 : T -> binary64) (of64 : binary64 -> T).
Lemma blend_near dx dy DX DY e1 e2 (p1 p2 p3 p4 : T) : unit dx -> unit dy -> near dx DX e1 -> near dy DY e2 -> 0 <= DX <= 1 -> 0 <= DY <= 1 -> 0 <= e1 -> 0 <= e2 ->
  exists z, blend to64 of64 dx dy p1 p2 p3 p4 = of64 z /\
  (forall M, 1 <= M <= bpow radix2 1000 -> (forall p, p = p1 \/ p = p2 \/ p = p3 \/ p = p4 -> fin64 (to64 p) = true /\ Rabs (R64 (to64 p)) <= M) ->
   near z (bilinear DX DY (R64 (to64 p1)) (R64 (to64 p2)) (R64 (to64 p3)) (R64 (to64 p4))) (M * (4 * e1 + 4 * e2 + 37 * u52))).
Proof using Type.
  intros Ux Uy Nx Ny Dx Dy Px Py. unfold blend. cbv zeta. eexists. split; [reflexivity|]. intros M (M1 & M2) Hp.
  destruct (Hp p1) as (F1 & B1); [tauto|]. destruct (Hp p2) as (F2 & B2); [tauto|]. destruct (Hp p3) as (F3 & B3); [tauto|]. destruct (Hp p4) as (F4 & B4); [tauto|].
  destruct (sub_one dx DX e1 Ux Nx) as (Vx & Ex). destruct (sub_one dy DY e2 Uy Ny) as (Vy & Ey).
  set (ex := f64_sub one64 dx) in *. set (ey := f64_sub one64 dy) in *.
  destruct (mul_unit ex ey (1 - DX) (1 - DY) _ _ Vx Vy ltac:(lra) Ex Ey) as (U1 & N1). destruct (mul_unit dx ey DX (1 - DY) _ _ Ux Vy ltac:(lra) Nx Ey) as (U2 & N2).
  destruct (mul_unit ex dy (1 - DX) DY _ _ Vx Uy ltac:(lra) Ex Ny) as (U3 & N3). destruct (mul_unit dx dy DX DY _ _ Ux Uy ltac:(lra) Nx Ny) as (U4 & N4).
  destruct (mul_px _ _ _ _ M U1 N1 F1 M1 B1 M2) as (T1 & S1). destruct (mul_px _ _ _ _ M U2 N2 F2 M1 B2 M2) as (T2 & S2).
  destruct (mul_px _ _ _ _ M U3 N3 F3 M1 B3 M2) as (T3 & S3). destruct (mul_px _ _ _ _ M U4 N4 F4 M1 B4 M2) as (T4 & S4).
  destruct (add_px _ _ _ _ _ _ M 2 2 T1 T2 M1 M2 ltac:(lra) ltac:(lra) ltac:(lra) S1 S2) as (A1 & Q1).
  destruct (add_px _ _ _ _ _ _ M 5 2 A1 T3 M1 M2 ltac:(lra) ltac:(lra) ltac:(lra) ltac:(lra) S3) as (A2 & Q2).
  destruct (add_px _ _ _ _ _ _ M 8 2 A2 T4 M1 M2 ltac:(lra) ltac:(lra) ltac:(lra) ltac:(lra) S4) as (A3 & Q3).
  destruct A3 as (F & A3). split; [exact F|]. unfold bilinear. eapply Rle_trans; [exact A3|]. pose proof u52_pos. nra.
Qed.
End Blend.

Lemma frac_near odd (W w x : N) : (0 < W)%N -> (0 < w)%N -> (W * w < 2 ^ 51)%N -> (x < w)%N ->
  unit (frac odd W w x) /\
  near (frac odd W w x) (IZR (Z.of_N x) * IZR (Z.of_N W) / IZR (Z.of_N w) - IZR (Z.of_N (pick odd W w x))) (IZR (Z.of_N W) * bpow radix2 (-51) + u52).
Proof.
  intros HW Hw Hs Hx. unfold frac, pick.
  assert (LW : (W < 2 ^ 51)%N) by nia. assert (Lw : (w < 2 ^ 51)%N) by nia.
  destruct (f64_of_Z_spec (Z.of_N W)) as (EW & FW); [lia|]. destruct (f64_of_Z_spec (Z.of_N w)) as (Ew & Fw); [lia|].
  destruct (f64_of_Z_spec (Z.of_N x)) as (Ex & Fx); [lia|].
  set (a := IZR (Z.of_N W)) in *. set (b := IZR (Z.of_N w)) in *. set (c := IZR (Z.of_N x)) in *.
  assert (Ha : (1 <= a)%R) by (apply IZR_le; lia). assert (Hb : (1 <= b)%R) by (apply IZR_le; lia). assert (Hc : (0 <= c)%R) by (apply IZR_le; lia).
  assert (Hcb : (c <= b - 1)%R). { unfold c, b. rewrite <- minus_IZR. apply IZR_le. lia. }
  assert (Hab : (a * b < bpow radix2 51)%R). { unfold a, b. rewrite <- mult_IZR. change (bpow radix2 51) with (IZR (2 ^ 51)). apply IZR_lt. lia. }
  assert (Ba : (a < bpow radix2 51)%R) by nra. assert (Bb : (b < bpow radix2 51)%R) by nra.
  assert (Qlo : (bpow radix2 (-51) <= a / b)%R). { change (bpow radix2 (-51)) with (bpow radix2 (Z.opp 51)). rewrite (bpow_opp radix2 51). apply Rmult_le_reg_r with b; [lra|]. unfold Rdiv. rewrite Rmult_assoc, Rinv_l, Rmult_1_r by lra.
    apply Rmult_le_reg_l with (bpow radix2 51); [apply bpow_gt_0|]. rewrite <- Rmult_assoc, Rinv_r by (apply Rgt_not_eq, bpow_gt_0). pose proof (bpow_gt_0 radix2 51). nra. }
  assert (Qhi : (a / b <= a)%R). { apply Rmult_le_reg_r with b; [lra|]. unfold Rdiv. rewrite Rmult_assoc, Rinv_l, Rmult_1_r by lra. nra. }
  assert (Qpos : (0 < a / b)%R) by (eapply Rlt_le_trans; [apply bpow_gt_0|exact Qlo]).
  assert (Hle : c * a / b <= a). { apply Rmult_le_reg_r with b; [lra|]. unfold Rdiv. rewrite Rmult_assoc, Rinv_l, Rmult_1_r by lra. nra. }
  assert (Hge : 0 <= c * a / b). { unfold Rdiv. apply Rmult_le_pos; [nra|]. left. apply Rinv_0_lt_compat. lra. }
  destruct (f64_div_spec (f64_of_Z (Z.of_N W)) (f64_of_Z (Z.of_N w)) 51 FW) as (Ed & Fd); [rewrite Ew; lra|lia|rewrite EW, Ew, Rabs_pos_eq; lra|].
  rewrite EW, Ew in Ed. destruct (rel64 (a / b)) as (d1 & E1 & D1).
  { rewrite Rabs_pos_eq by lra. eapply Rle_trans; [|exact Qlo]. apply bpow_le. lia. }
  rewrite E1 in Ed. set (s := f64_div _ _) in *.
  assert (D1' : (- (/ 4) <= d1 <= / 4)%R). { apply Rabs_le_inv. eapply Rle_trans; [exact D1|]. change (/ 4)%R with (bpow radix2 (-2)). apply bpow_le. lia. }
  assert (Slo : (bpow radix2 (-52) <= R64 s)%R). { rewrite Ed. replace (bpow radix2 (-52)) with (bpow radix2 (-51) * / 2)%R; [|change (/ 2)%R with (bpow radix2 (-1)); rewrite <- bpow_plus; reflexivity]. pose proof (bpow_gt_0 radix2 (-51)). nra. }
  assert (Spos : (0 < R64 s)%R) by (eapply Rlt_le_trans; [apply bpow_gt_0|exact Slo]).
  assert (Shi : (R64 s <= bpow radix2 52)%R). { rewrite Ed. replace (bpow radix2 52) with (bpow radix2 51 * 2)%R by (change 2%R with (bpow radix2 1); rewrite <- bpow_plus; reflexivity). nra. }
  destruct (f64_mul_spec (f64_of_Z (Z.of_N x)) s 103 Fx Fd) as (Em & Fm); [lia| |].
  { rewrite Ex, Rabs_pos_eq by nra. replace (bpow radix2 103) with (bpow radix2 51 * bpow radix2 52)%R by (rewrite <- bpow_plus; reflexivity). apply Rmult_le_compat; lra. }
  rewrite Ex in Em. set (p := f64_mul _ _) in *.
  assert (Close : (0 <= R64 p /\ Rabs (R64 p - c * a / b) <= c * a / b * bpow radix2 (-51))%R).
  { destruct (N.eq_dec x 0) as [->|Hx0].
    - unfold c in *. rewrite Em, Rmult_0_l. unfold rnd64. rewrite round_0 by typeclasses eauto. split; [lra|]. unfold Rdiv. rewrite !Rmult_0_l, Rminus_0_r, Rabs_R0. lra.
    - assert (Hc1 : (1 <= c)%R) by (apply IZR_le; lia).
      destruct (rel64 (c * R64 s)) as (d2 & E2 & D2). { rewrite Rabs_pos_eq by nra. apply Rle_trans with (bpow radix2 (-52)); [apply bpow_le; lia|]. nra. }
      assert (D2' : (- (/ 4) <= d2 <= / 4)%R). { apply Rabs_le_inv. eapply Rle_trans; [exact D2|]. change (/ 4)%R with (bpow radix2 (-2)). apply bpow_le. lia. }
      rewrite Em, E2. split; [assert (0 < c * R64 s)%R by nra; nra|]. rewrite Ed.
      replace (c * (a / b * (1 + d1)) * (1 + d2) - c * a / b)%R with (c * a / b * (1 + d1) * (1 + d2) - c * a / b)%R by (field; lra).
      apply small_errors; [exact Hge|exact D1|exact D2]. }
  destruct Close as (Pp & Pc). pose proof (trunc_spec p Pp) as (T1 & T2). set (z := Btrunc 53 1024 p) in *.
  assert (Z0 : (0 <= z)%Z). { assert (-1 < z)%Z; [|lia]. apply lt_IZR. lra. }
  assert (Pc' : Rabs (R64 p - c * a / b) <= a * bpow radix2 (-51)). { eapply Rle_trans; [exact Pc|]. apply Rmult_le_compat_r; [apply bpow_ge_0|exact Hle]. }
  assert (Hpa : R64 p <= a + 1). { apply abs_near in Pc'. assert (a * bpow radix2 (-51) <= 1); [|lra]. apply Rle_trans with (bpow radix2 51 * bpow radix2 (-51)); [apply Rmult_le_compat_r; [apply bpow_ge_0|lra]|rewrite <- bpow_plus; apply Rle_refl]. }
  assert (Zw : (z <= Z.of_N W + 1)%Z). { apply le_IZR. rewrite plus_IZR. fold a. lra. }
  assert (Eu : uint_of_f64 odd p = Z.to_N z). { unfold uint_of_f64. fold z. change (is_finite 53 1024 p) with (fin64 p). rewrite Fm. rewrite (proj2 (Z.leb_le 0 z) Z0), (proj2 (Z.ltb_lt z (2 ^ 64)%Z)) by lia. reflexivity. }
  rewrite !Eu, !Z2N.id by exact Z0. destruct (f64_of_Z_spec z) as (Ez & Fz); [lia|].
  destruct (f64_sub_spec p (f64_of_Z z) 0 Fm Fz) as (Es & Fs); [lia|rewrite Ez; change (bpow radix2 0) with 1; rewrite Rabs_pos_eq; lra|].
  rewrite Ez in Es. split; [unfold unit; rewrite Es; apply rnd_unit; lra|]. split; [exact Fs|]. rewrite Es.
  pose proof (rnd_near (R64 p - IZR z) 1 tiny_1) as Hr. rewrite Rmult_1_l in Hr. specialize (Hr ltac:(rewrite Rabs_pos_eq; lra)).
  apply abs_near in Hr. apply abs_near in Pc'. apply Rabs_le. lra.
Qed.
