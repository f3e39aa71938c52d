(** * IOCodec: the codecs lose nothing *)
From Verif Require Import Base Num ModelTools ModelOps ModelTensor Spec ObjSpec NumIntS ModelIO ModelCodec IOSpec IOProofs.
From Flocq Require Import IEEE754.Binary IEEE754.Bits.
From Coq Require Import ZArith Lia Init.Byte Strings.Byte.

Lemma le_length k : forall n, length (le_bytes k n) = k.
Proof. induction k as [|k IH]; intros n; [reflexivity|]. cbn [le_bytes length]. rewrite IH. reflexivity. Qed.
Lemma byte_of_value n : to_N (byte_of n) = (n mod 256)%N.
Proof.
  unfold byte_of. destruct (of_N (n mod 256)) as [b|] eqn:E; [apply to_of_N; exact E|]. exfalso. apply of_N_None_iff in E. pose proof (N.mod_lt n 256). lia.
Qed.
Lemma le_value_bytes k : forall n, (n < 2 ^ (8 * N.of_nat k))%N -> le_value (le_bytes k n) = n.
Proof.
  induction k as [|k IH]; intros n Hn; cbn [le_bytes le_value].
  - cbn in Hn. lia.
  - rewrite byte_of_value, IH.
    + pose proof (N.div_mod n 256). lia.
    + apply N.div_lt_upper_bound; [lia|]. replace (8 * N.of_nat (S k))%N with (8 + 8 * N.of_nat k)%N in Hn by lia. rewrite N.pow_add_r in Hn. exact Hn.
Qed.
Lemma le_Z k (z : Z) : (0 <= z < 2 ^ (8 * Z.of_nat k))%Z -> Z.of_N (le_value (le_bytes k (Z.to_N z))) = z.
Proof.
  intros Hz. rewrite le_value_bytes.
  - apply Z2N.id. lia.
  - apply N2Z.inj_lt. rewrite Z2N.id by lia. rewrite N2Z.inj_pow, N2Z.inj_mul, nat_N_Z. apply Hz.
Qed.
Lemma wrapZ_mod w x : (0 < w)%Z -> wrapZ w (x mod 2 ^ w) = wrapZ w x.
Proof. intros Hw. unfold wrapZ. f_equal. rewrite Z.add_mod_idemp_l by (apply Z.pow_nonzero; lia). reflexivity. Qed.

Lemma int_codec_ok k w Hw : 0 < k -> (w = 8 * Z.of_nat k)%Z -> codec_ok (int_codec k w Hw).
Proof.
  intros Hk E. split; [exact Hk|intros x; apply le_length|]. intros x. cbn [int_codec cenc cdec]. apply intw_eq. rewrite mk_val, le_Z.
  - rewrite wrapZ_mod by exact Hw. apply Z.eqb_eq. apply iok.
  - rewrite <- E. apply Z.mod_pos_bound. apply Z.pow_pos_nonneg; lia.
Qed.
Lemma f32_codec_ok : codec_ok f32_codec.
Proof.
  split; [cbn; lia|intros x; apply le_length|]. intros x. cbn [f32_codec cenc cdec]. rewrite le_Z.
  - apply (binary_float_of_bits_of_binary_float 23 8 eq_refl eq_refl eq_refl x).
  - exact (bits_of_binary_float_range 23 8 eq_refl eq_refl x).
Qed.
Lemma f64_codec_ok : codec_ok f64_codec.
Proof.
  split; [cbn; lia|intros x; apply le_length|]. intros x. cbn [f64_codec cenc cdec]. rewrite le_Z.
  - apply (binary_float_of_bits_of_binary_float 52 11 eq_refl eq_refl eq_refl x).
  - exact (bits_of_binary_float_range 52 11 eq_refl eq_refl x).
Qed.
(** Every number type but int. *)
Theorem gocodec_ok g : g <> Gint -> exists c, gocodec g = Some c /\ codec_ok c.
Proof.
  intros Hg. destruct g; try congruence; eexists; (split; [reflexivity|]).
  1: exact f32_codec_ok. 1: exact f64_codec_ok. all: apply int_codec_ok; [lia|reflexivity].
Qed.
Lemma gocodec_int : gocodec Gint = None.
Proof. reflexivity. Qed.
Theorem types_claim (g : gotype) (N : Num (gocar g)) : g <> Gint ->
  exists c, gocodec g = Some c /\ codec_ok c /\
    forall (s s' : tst (gocar g)) p q v u rest, holds s p v -> holds s' q u -> unshared s' q -> length (vdata u) = length (vdata v) ->
    exists bytes, Save (gocodec g) p (MkW [] None, s) = (Ok tt, (MkW bytes None, s)) /\ length bytes = length (vdata v) * cwidth c /\
    exists s2, Load (gocodec g) q (bytes ++ rest, s') = (Ok tt, (rest, s2)) /\ holds s2 q (V (vsh u) (vdata v)).
Proof.
  intros Hg. destruct (gocodec_ok g Hg) as (c & E & Hc). exists c. split; [exact E|]. split; [exact Hc|]. intros s s' p q v u rest Hp Hq Hu Hl. rewrite E.
  destruct (round_claim c s s' p q v u rest Hc Hp Hq Hu Hl) as (bytes & E1 & E2 & s2 & E3 & E4 & _). eauto 10.
Qed.
