(** * IntMain: tensors of machine integers *)
From Verif Require Import Base Num NumIntS ModelTools ModelOps ModelTensor ModelGraph Spec Denote FailSpec IndexProofs ExecProofs TensorFacts BuildProofs CompileProofs FwdTotal FailProofs.
From Coq Require Import Lia ZifyBool ZifyNat ZifyN.

(** The integer [x] brought into the range of [w]-bit integers. *)
Definition in_range (w x : Z) : Prop := (- 2 ^ (w - 1) <= x < 2 ^ (w - 1))%Z.
Definition same_mod (w x y : Z) : Prop := exists k, x = (y + k * 2 ^ w)%Z.
Lemma mk_is w Hw x : in_range w (ival (mk w Hw x)) /\ same_mod w (ival (mk w Hw x)) x.
Proof. rewrite mk_val. split; [apply wrapZ_range; exact Hw|apply wrapZ_congr; exact Hw]. Qed.
Lemma mk_small w Hw x : in_range w x -> ival (mk w Hw x) = x.
Proof. intros Hx. rewrite mk_val. apply wrapZ_id; [exact Hw|exact Hx]. Qed.
Theorem ring_claim w Hw (a b : intw w) : let N := NumIntS w Hw in
  (in_range w (ival (nadd a b)) /\ same_mod w (ival (nadd a b)) (ival a + ival b)) /\
  (in_range w (ival (nsub a b)) /\ same_mod w (ival (nsub a b)) (ival a - ival b)) /\
  (in_range w (ival (nmul a b)) /\ same_mod w (ival (nmul a b)) (ival a * ival b)) /\
  (in_range w (ival (nneg a)) /\ same_mod w (ival (nneg a)) (- ival a)).
Proof. cbn. repeat split; apply mk_is. Qed.
Lemma iv_range w (Hw : (0 < w)%Z) (a : intw w) : in_range w (ival a).
Proof. pose proof (iok a) as Ha. apply Z.eqb_eq in Ha. rewrite <- Ha. apply wrapZ_range. exact Hw. Qed.
(** Division rounds towards zero; only the smallest number divided by -1 does not fit and stays what it is. *)
Theorem div_claim w Hw (a b : intw w) : let N := NumIntS w Hw in
  (ndiv a b = None <-> ival b = 0%Z) /\
  forall q, ndiv a b = Some q ->
    (ival a = (- 2 ^ (w - 1))%Z -> ival b = (-1)%Z -> (1 < w)%Z -> q = a) /\
    (~ (ival a = (- 2 ^ (w - 1))%Z /\ ival b = (-1)%Z) -> ival q = Z.quot (ival a) (ival b)).
Proof.
  cbn. split; [destruct (Z.eqb_spec (ival b) 0); split; congruence|]. intros q. destruct (Z.eqb_spec (ival b) 0) as [|Hb]; [discriminate|]. intros [= <-].
  pose proof (iv_range w Hw a) as Ra. pose proof (iv_range w Hw b) as Rb. unfold in_range in *.
  assert (Hp : (0 < 2 ^ (w - 1))%Z) by (apply Z.pow_pos_nonneg; lia). assert (E2 : (2 ^ w = 2 * 2 ^ (w - 1))%Z). { rewrite <- Z.pow_succ_r by lia. f_equal. lia. }
  split.
  - intros Ea Eb H1. apply intw_eq. rewrite mk_val, Ea, Eb. unfold wrapZ. rewrite E2. set (M := (2 ^ (w - 1))%Z) in *.
    replace (Z.quot (- M) (-1)) with M by (change (-1)%Z with (- (1))%Z; rewrite Z.quot_opp_opp, Z.quot_1_r by lia; reflexivity).
    replace (M + M)%Z with (0 + 1 * (2 * M))%Z by ring. rewrite Z_mod_plus_full, Z.mod_0_l by lia. lia.
  - intros Hn. apply mk_small. unfold in_range. set (M := (2 ^ (w - 1))%Z) in *.
    pose proof (Z.quot_rem' (ival a) (ival b)) as Hq. pose proof (Z.rem_bound_abs (ival a) (ival b) Hb) as Hr.
    assert (Hab : (Z.abs (Z.quot (ival a) (ival b)) <= Z.abs (ival a))%Z). { rewrite <- Z.quot_abs by exact Hb. apply Z.quot_le_upper_bound; nia. }
    destruct (Z.eq_dec (Z.quot (ival a) (ival b)) M) as [E|E]; [|lia]. exfalso. apply Hn. nia.
Qed.

Section Supply.
Context {T : Type} `{Num T}.
Lemma exec_len (g : graph T) m m' : Exec g m = Some m' -> length m' = length m.
Proof. unfold Exec. apply exec_length. Qed.
Lemma history_len (g : graph T) n m0 m : history g n m0 m -> length m = length m0.
Proof. intros Hh. induction Hh as [|m l x Hh IH Hl|m m' Hh IH E]; [reflexivity|rewrite insert_length; exact IH|]. rewrite (exec_len _ _ _ E). exact IH. Qed.
Lemma denotes_supplied n (tns : list (node T)) id e m : denotes n tns id e -> n <= length m -> supplied (leafv tns m) (fun x => m !! x) (leafsh tns) e.
Proof.
  intros Hd Hl. induction Hd; cbn [supplied]; auto.
  - intros sh Hsh. unfold leafsh in Hsh. unfold leafv. destruct (tns !! id) as [[k mt]|] eqn:E; [|discriminate]. injection H0 as -> ->. injection Hsh as <-.
    destruct H1 as (_ & _ & Hlen & Hv). destruct (rds_Some_valid m (operands m0)) as [d Ed].
    { eapply Forall_impl; [exact Hv|]. intros p (l & -> & Hp). exists l. split; [reflexivity|lia]. }
    exists (V (shape m0) d). unfold mval. rewrite Ed. split; [reflexivity|]. split; [reflexivity|]. cbn. rewrite <- Hlen. eapply rds_length. exact Ed.
  - split; [assumption|]. apply lookup_lt_is_Some_2. lia.
Qed.
(** A graph panics exactly if an operation of its expression fails. *)
Theorem panic_claim (bad : T -> Prop) (s : tst T) id e sh : (forall x y : T, ndiv x y = None <-> bad y) ->
  denotes (length (mem s)) (tens s) id e -> uncompiled (tens s) id -> shape_of (leafsh (tens s)) e = Some sh -> no_crossing (leafsh (tens s)) e ->
  exists g s', NewGraph id s = (Ok g, s') /\ forall m, history g (length (mem s)) (mem s') m ->
    (Exec g m = None <-> fails bad (leafv (tens s) m) (fun x => m !! x) e).
Proof.
  intros Hb Hd Hu Hs Hn. destruct (compile_correct s id e sh Hd Hu Hs Hn) as (g & s' & n' & Eg & (ext & Em) & _ & _ & _ & _ & Hrun).
  exists g, s'. split; [exact Eg|]. intros m Hh. specialize (Hrun m Hh).
  destruct (eval_fails bad Hb (leafv (tens s) m) (fun x => m !! x) (leafsh (tens s)) e) with (sh := sh) as [(v & Ev & _ & Hf)|(Ev & Hf)].
  - eapply denotes_supplied; [exact Hd|]. rewrite (history_len _ _ _ _ Hh), Em, app_length. lia.
  - exact Hs.
  - rewrite Ev in Hrun. destruct Hrun as (m' & E & _). rewrite E. split; [discriminate|contradiction].
  - rewrite Ev in Hrun. rewrite Hrun. split; auto.
Qed.
End Supply.
