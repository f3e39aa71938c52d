(** * BarProofs: progress bars *)
From Coq Require Import ZArith Reals Lra Bool.
From Flocq Require Import Core.Core IEEE754.BinarySingleNaN IEEE754.Binary IEEE754.Bits.
From Verif Require Import Base ModelTools ModelImg ImgFloat NumIntS Num.
From Coq Require Import Init.Byte Lia ZifyBool ZifyNat ZifyN.
Open Scope Z_scope.

Lemma int_of_near odd x z : fin64 x = true -> (0 <= R64 x)%R -> Btrunc 53 1024 x = z -> z < 2 ^ 63 -> int_of_f64 odd x = z /\ 0 <= z.
Proof.
  intros Hf Hx Hz Hlt. destruct (trunc_spec x Hx) as (T1 & T2). rewrite Hz in T1, T2. assert (0 <= z) as H0. { assert (-1 < z); [|lia]. apply lt_IZR. lra. }
  split; [|exact H0]. unfold int_of_f64. rewrite Hz. change (is_finite 53 1024 x) with (fin64 x). rewrite Hf.
  rewrite (proj2 (Z.leb_le (- 2 ^ 63) z)) by lia. rewrite (proj2 (Z.ltb_lt z (2 ^ 63)) Hlt). reflexivity.
Qed.
(** How many of [n] marks are set. *)
Lemma marks odd pro n : fin64 pro = true -> (0 <= R64 pro <= 1)%R -> 0 <= n < 2 ^ 53 ->
  let k := int_of_f64 odd (f64_mul (f64_of_Z n) pro) in 0 <= k <= n /\ (IZR k < IZR n * R64 pro + 1)%R /\ (IZR n * R64 pro < IZR k + 1)%R.
Proof.
  intros Hf Hp Hn. cbv zeta. destruct (f64_of_Z_spec n) as (En & Fn); [lia|].
  assert (Hn0 : (0 <= IZR n)%R) by (apply IZR_le; lia). set (v := (IZR n * R64 pro)%R).
  assert (Hv : (0 <= v <= IZR n)%R) by (unfold v; nra).
  destruct (f64_mul_spec (f64_of_Z n) pro 53 Fn Hf) as (Em & Fm); [lia| |].
  { rewrite En. fold v. rewrite Rabs_pos_eq by lra. apply Rle_trans with (IZR n); [lra|]. change (bpow radix2 53) with (IZR (2 ^ 53)). apply IZR_le. lia. }
  rewrite En in Em. fold v in Em.
  assert (B : forall a b, Z.abs a < 2 ^ 53 -> Z.abs b < 2 ^ 53 -> (IZR a <= v <= IZR b)%R -> (IZR a <= rnd64 v <= IZR b)%R).
  { intros a b Ha Hb Hab. unfold rnd64. split; [apply round_ge_generic|apply round_le_generic]; try typeclasses eauto; try (apply int_format; assumption); lra. }
  set (p := f64_mul (f64_of_Z n) pro) in *. assert (P0 : (0 <= R64 p)%R). { rewrite Em. apply (B 0 n); [lia|lia|exact Hv]. }
  destruct (trunc_spec p P0) as (T1 & T2). set (z := Btrunc 53 1024 p) in *.
  assert (Zn : z <= n). { apply le_IZR. apply Rle_trans with (R64 p); [exact T1|]. rewrite Em. apply (B 0 n); [lia|lia|exact Hv]. }
  destruct (int_of_near odd p z Fm P0 eq_refl) as (Ei & Z0); [lia|]. rewrite Ei. split; [lia|].
  pose proof (Zfloor_lb v) as F1. pose proof (Zfloor_ub v) as F2. pose proof (Zceil_ub v) as C1. pose proof (Zceil_lb v) as C2.
  assert (Fl : 0 <= Zfloor v). { apply Zfloor_lub. lra. } assert (Cl : Zceil v <= n). { apply Zceil_glb. lra. }
  assert (Fn' : Zfloor v <= n). { apply le_IZR. lra. } assert (Cn : 0 <= Zceil v). { apply le_IZR. lra. }
  destruct (B (Zfloor v) (Zceil v)) as (G1 & G2); [lia|lia|lra|]. rewrite <- Em in G1, G2. split.
  - lra.
  - assert (Zfloor v <= z) as Hz. { assert (Zfloor v < z + 1); [|lia]. apply lt_IZR. rewrite plus_IZR. lra. } apply IZR_le in Hz. lra.
Qed.
Theorem bar_claim odd pro size : fin64 pro = true -> (0 <= R64 pro <= 1)%R -> size <= 2 ^ 53 ->
  exists l, Bar odd pro size = Ok l /\ Z.of_nat (length l) = Z.max size 0 /\
    (4 <= size -> exists k, (k <= Z.to_nat (size - 2))%nat /\ l = [x5b] ++ replicate k x23 ++ replicate (Z.to_nat (size - 2) - k) x20 ++ [x5d] /\
       (IZR (Z.of_nat k) < IZR (size - 2) * R64 pro + 1)%R /\ (IZR (size - 2) * R64 pro < IZR (Z.of_nat k) + 1)%R).
Proof.
  intros Hf Hp Hs. unfold Bar. destruct (Z.leb_spec size 0) as [H0|H0].
  - exists []. split; [reflexivity|]. split; [cbn; lia|]. lia.
  - destruct (Z.ltb_spec size 4) as [H4|H4].
    + unfold Repeat. destruct (Z.ltb_spec size 0) as [?|_]; [lia|]. eexists. split; [reflexivity|]. split; [rewrite replicate_length; lia|]. lia.
    + destruct (marks odd pro (size - 2) Hf Hp) as (K0 & K1 & K2); [lia|]. set (k := int_of_f64 odd (f64_mul (f64_of_Z (size - 2)) pro)) in *. cbv zeta.
      rewrite wrapZ_id; [|lia|change (2 ^ (64 - 1)) with 9223372036854775808; change (2 ^ 53) with 9007199254740992 in Hs; lia].
      destruct (Z.ltb_spec (size - 2 - k) 0) as [?|_]; [lia|]. unfold Repeat.
      destruct (Z.ltb_spec k 0) as [?|_]; [lia|]. destruct (Z.ltb_spec (size - 2 - k) 0) as [?|_]; [lia|]. cbn [res_bind].
      eexists. split; [reflexivity|]. split; [rewrite !app_length, !replicate_length; cbn [length]; lia|]. intros _. exists (Z.to_nat k). split; [lia|]. split.
      * replace (Z.to_nat (size - 2) - Z.to_nat k)%nat with (Z.to_nat (size - 2 - k)) by lia. reflexivity.
      * rewrite Z2Nat.id by lia. split; assumption.
Qed.
(** float64(2^53 + 3) is 2^53 + 4. *)
Theorem bar_huge_claim odd : exists l, Bar odd (f64_of_Z 1) (2 ^ 53 + 5) = Ok l /\ Z.of_nat (length l) = 2 ^ 53 + 6.
Proof.
  unfold Bar. change (2 ^ 53 + 5 <=? 0) with false. change (2 ^ 53 + 5 <? 4) with false. cbv iota zeta.
  assert (E : int_of_f64 odd (f64_mul (f64_of_Z (2 ^ 53 + 5 - 2)) (f64_of_Z 1)) = 2 ^ 53 + 4) by (vm_compute; reflexivity). rewrite E.
  replace (wrapZ 64 (2 ^ 53 + 5 - 2 - (2 ^ 53 + 4))) with (-1) by (vm_compute; reflexivity). change (-1 <? 0) with true. cbv iota.
  unfold Repeat. change (2 ^ 53 + 4 <? 0) with false. change (0 <? 0) with false. cbv iota. cbn [res_bind].
  eexists. split; [reflexivity|]. rewrite !app_length, !replicate_length. change (length [x5b]) with 1%nat. change (length [x5d]) with 1%nat. change (Z.to_nat 0) with 0%nat. lia.
Qed.
