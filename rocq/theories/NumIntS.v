(** * NumIntS: Go's signed integers as a type holding exactly the 2^w values

    [NumInt] (Num.v) computes on all of Z and is convenient for examples; here
    the carrier is restricted to the values a machine integer can have. *)
From Verif Require Import Base Num.
From Coq Require Import ZArith Lia Eqdep_dec Bool.

Record intw (w : Z) : Type := MkInt { ival : Z; iok : Z.eqb (wrapZ w ival) ival = true }.
Arguments MkInt {w} ival iok.
Arguments ival {w} i.
Arguments iok {w} i.

Lemma intw_eq w (a b : intw w) : ival a = ival b -> a = b.
Proof.
  destruct a as [x p], b as [y q]. cbn. intros <-. f_equal. apply UIP_dec. apply bool_dec.
Qed.

Lemma wrapZ_range w x : (0 < w)%Z -> (- 2 ^ (w - 1) <= wrapZ w x < 2 ^ (w - 1))%Z.
Proof.
  intros Hw. unfold wrapZ. assert (E : (2 ^ w = 2 * 2 ^ (w - 1))%Z).
  { rewrite <- Z.pow_succ_r by lia. f_equal. lia. }
  pose proof (Z.mod_pos_bound (x + 2 ^ (w - 1)) (2 ^ w)) as Hm.
  assert (0 < 2 ^ (w - 1))%Z by (apply Z.pow_pos_nonneg; lia). lia.
Qed.

Lemma wrapZ_id w x : (0 < w)%Z -> (- 2 ^ (w - 1) <= x < 2 ^ (w - 1))%Z -> wrapZ w x = x.
Proof.
  intros Hw Hx. unfold wrapZ. assert (E : (2 ^ w = 2 * 2 ^ (w - 1))%Z).
  { rewrite <- Z.pow_succ_r by lia. f_equal. lia. }
  rewrite Z.mod_small by lia. lia.
Qed.

Lemma wrapZ_congr w x : (0 < w)%Z -> exists k, wrapZ w x = (x + k * 2 ^ w)%Z.
Proof.
  intros Hw. unfold wrapZ. exists (- ((x + 2 ^ (w - 1)) / 2 ^ w))%Z.
  pose proof (Z.div_mod (x + 2 ^ (w - 1)) (2 ^ w)). assert (0 < 2 ^ w)%Z by (apply Z.pow_pos_nonneg; lia). lia.
Qed.

Lemma wrapZ_wrap w x : (0 < w)%Z -> Z.eqb (wrapZ w (wrapZ w x)) (wrapZ w x) = true.
Proof. intros Hw. apply Z.eqb_eq, wrapZ_id; [exact Hw|apply wrapZ_range; exact Hw]. Qed.

Section S.
Variable w : Z.
Variable Hw : (0 < w)%Z.
Lemma zero_ok : Z.eqb (wrapZ w 0) 0 = true.
Proof.
  apply Z.eqb_eq, wrapZ_id; [exact Hw|]. assert (0 < 2 ^ (w - 1))%Z by (apply Z.pow_pos_nonneg; lia). lia.
Qed.
(** The second case never happens; written so that computing gives a small proof. *)
Definition mk (x : Z) : intw w :=
  let y := wrapZ w x in
  match bool_dec (Z.eqb (wrapZ w y) y) true with
  | left p => MkInt y p
  | right _ => MkInt 0%Z zero_ok
  end.
Lemma mk_val x : ival (mk x) = wrapZ w x.
Proof.
  unfold mk. cbv zeta. destruct (bool_dec _ true) as [p|p]; [reflexivity|]. exfalso. apply p. apply wrapZ_wrap. exact Hw.
Qed.
Lemma mk_id (a : intw w) : mk (ival a) = a.
Proof. apply intw_eq. rewrite mk_val. apply Z.eqb_eq. exact (iok a). Qed.

Definition NumIntS : Num (intw w) := {|
  nzero := mk 0;
  none := mk 1;
  nadd a b := mk (ival a + ival b);
  nsub a b := mk (ival a - ival b);
  nmul a b := mk (ival a * ival b);
  ndiv a b := if (ival b =? 0)%Z then None else Some (mk (Z.quot (ival a) (ival b)));
  nneg a := mk (- ival a);
  nltb a b := (ival a <? ival b)%Z;
  neqb a b := (ival a =? ival b)%Z;
  nofN n := mk (Z.of_N n);
|}.

Lemma wrapZ_0 : wrapZ w 0 = 0%Z.
Proof. apply Z.eqb_eq, zero_ok. Qed.
Lemma intS_add_0_l (x : intw w) : @nadd _ NumIntS (@nzero _ NumIntS) x = x.
Proof. cbn. rewrite mk_val, wrapZ_0, Z.add_0_l. apply mk_id. Qed.
End S.

(** The four integer types of types/types.go; int has 64 bits. *)
Definition NumS16 : Num (intw 16) := NumIntS 16 eq_refl.
Definition NumS32 : Num (intw 32) := NumIntS 32 eq_refl.
Definition NumS64 : Num (intw 64) := NumIntS 64 eq_refl.
