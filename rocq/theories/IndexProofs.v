(** * IndexProofs: row-major arithmetic of tools/tools.go against [Spec] *)
From Verif Require Import Base Num ModelTools Spec.
From Coq Require Import ZArith Lia ZifyBool ZifyNat ZifyN.
Ltac Zify.zify_post_hook ::= Z.div_mod_to_equations.
Local Open Scope N_scope.

Lemma W64_pos : 0 < W64. Proof. reflexivity. Qed.
Lemma W64_nz : W64 <> 0. Proof. discriminate. Qed.
Global Opaque W64.

Lemma uadd_small a b : a + b < W64 -> uadd a b = a + b.
Proof. intros. unfold uadd. apply N.mod_small; assumption. Qed.
Lemma umul_small a b : a * b < W64 -> umul a b = a * b.
Proof. intros. unfold umul. apply N.mod_small; assumption. Qed.
Lemma usub_small a b : b <= a -> a < W64 -> usub a b = a - b.
Proof.
  intros Hb Ha. unfold usub. rewrite (N.mod_small b) by lia.
  replace (a + (W64 - b)) with ((a - b) + 1 * W64) by lia.
  rewrite N.mod_add by apply W64_nz. apply N.mod_small. lia.
Qed.

Lemma prodN_cons s sh : prodN (s :: sh) = s * prodN sh.
Proof. reflexivity. Qed.
Lemma prodN_app a b : prodN (a ++ b) = prodN a * prodN b.
Proof.
  induction a as [|x a IH]; cbn [app]; rewrite ?prodN_cons.
  - change (prodN []) with 1. lia.
  - rewrite IH. lia.
Qed.
Lemma prodN_pos sh : Forall (fun d => 0 < d) sh -> 0 < prodN sh.
Proof. induction 1; rewrite ?prodN_cons; [reflexivity|]. apply N.mul_pos_pos; assumption. Qed.
Lemma prodN_pos_inv sh : 0 < prodN sh -> Forall (fun d => 0 < d) sh.
Proof.
  induction sh as [|s sh IH]; intros Hp; [constructor|].
  rewrite prodN_cons in Hp. constructor; [|apply IH]; nia.
Qed.
Lemma prodN_reverse sh : prodN (reverse sh) = prodN sh.
Proof.
  induction sh as [|s sh IH]; [reflexivity|].
  rewrite reverse_cons, prodN_app, IH, !prodN_cons. change (prodN []) with 1. lia.
Qed.

Lemma GetDataSize_mod sh : GetDataSize sh = prodN sh mod W64.
Proof.
  induction sh as [|s sh IH]; cbn [GetDataSize].
  - change (prodN []) with 1. reflexivity.
  - rewrite IH, prodN_cons. unfold umul.
    rewrite N.mul_mod_idemp_l by apply W64_nz. f_equal. lia.
Qed.
Lemma GetDataSize_fits sh : fits sh -> GetDataSize sh = prodN sh.
Proof. intros [_ Hp]. rewrite GetDataSize_mod. apply N.mod_small; assumption. Qed.

(** Strides as exact products. *)
Fixpoint strides (sh : list N) : list N :=
  match sh with [] => [] | _ :: r => prodN r :: strides r end.

Lemma index_mul_go_mod sh :
  index_mul_go sh = (map (fun x => x mod W64) (strides sh), prodN sh mod W64).
Proof.
  induction sh as [|s sh IH]; [reflexivity|].
  cbn [index_mul_go strides map]. rewrite IH. f_equal.
  rewrite prodN_cons. unfold umul. rewrite N.mul_mod_idemp_l by apply W64_nz. f_equal; lia.
Qed.
Lemma strides_length sh : length (strides sh) = length sh.
Proof. induction sh; cbn; congruence. Qed.
Lemma GetIndexMul_mod sh : GetIndexMul sh = map (fun x => x mod W64) (strides sh).
Proof. unfold GetIndexMul. rewrite index_mul_go_mod. reflexivity. Qed.
Lemma GetIndexMul_length sh : length (GetIndexMul sh) = length sh.
Proof. rewrite GetIndexMul_mod, map_length. apply strides_length. Qed.

Lemma strides_bound sh : 0 < prodN sh -> Forall (fun x => 0 < x <= prodN sh) (strides sh).
Proof.
  induction sh as [|s sh IH]; intros Hp; [constructor|].
  rewrite prodN_cons in Hp. cbn [strides]. rewrite prodN_cons.
  assert (0 < s /\ 0 < prodN sh) as [Hs Hr] by nia.
  constructor; [nia|].
  eapply Forall_impl; [apply IH; assumption|]. cbn. intros x Hx. nia.
Qed.
Lemma GetIndexMul_strides sh :
  0 < prodN sh -> prodN sh < W64 -> GetIndexMul sh = strides sh.
Proof.
  intros H0 H1. rewrite GetIndexMul_mod.
  pose proof (strides_bound sh H0) as Hb.
  induction Hb as [|x l Hx Hl IH]; [reflexivity|]. cbn [map]. f_equal.
  - apply N.mod_small. lia.
  - exact IH.
Qed.

(** [flat] *)
Lemma flat_lt sh : forall idx k, flat sh idx = Some k -> k < prodN sh.
Proof.
  induction sh as [|s sh IH]; intros [|i idx] k Hk; cbn [flat] in Hk; try discriminate.
  - injection Hk as <-. reflexivity.
  - destruct (i <? s) eqn:Hi; [|discriminate].
    destruct (flat sh idx) as [r|] eqn:Hr; [|discriminate].
    injection Hk as <-. specialize (IH _ _ Hr). rewrite prodN_cons. nia.
Qed.
Lemma flat_length sh : forall idx k, flat sh idx = Some k -> length idx = length sh.
Proof.
  induction sh as [|s sh IH]; intros [|i idx] k Hk; cbn [flat] in Hk; try discriminate; [reflexivity|].
  destruct (i <? s); [|discriminate].
  destruct (flat sh idx) as [r|] eqn:Hr; [|discriminate].
  cbn. f_equal. eauto.
Qed.
Lemma flat_inj sh : forall i j k, flat sh i = Some k -> flat sh j = Some k -> i = j.
Proof.
  induction sh as [|s sh IH]; intros [|i idx] [|j jdx] k Hk Hj; cbn [flat] in *; try discriminate; [reflexivity|].
  destruct (i <? s) eqn:Hi; [|discriminate].
  destruct (j <? s) eqn:Hjs; [|discriminate].
  destruct (flat sh idx) as [r|] eqn:Hr; [|discriminate].
  destruct (flat sh jdx) as [r'|] eqn:Hr'; [|discriminate].
  pose proof (flat_lt _ _ _ Hr). pose proof (flat_lt _ _ _ Hr').
  injection Hk as Hk. injection Hj as Hj. 
  assert (i = j) by nia. subst j. assert (r' = r) by nia. subst r'.
  f_equal. eapply IH; eassumption.
Qed.
Lemma flat_in_range sh idx :
  (exists k, flat sh idx = Some k) <-> Forall2 (fun i s => i < s) idx sh.
Proof.
  revert idx. induction sh as [|s sh IH]; intros idx; split.
  - destruct idx; intros [k Hk]; [constructor|discriminate].
  - inversion 1; subst. eexists; reflexivity.
  - destruct idx as [|i idx]; intros [k Hk]; cbn [flat] in Hk; [discriminate|].
    destruct (i <? s) eqn:Hi; [|discriminate].
    destruct (flat sh idx) as [r|] eqn:Hr; [|discriminate].
    constructor; [lia|]. apply IH. eauto.
  - inversion 1 as [|i ? idx' ? Hi Hrest]; subst. cbn [flat].
    apply IH in Hrest as [r Hr]. destruct (i <? s) eqn:E; [|lia]. rewrite Hr. eauto.
Qed.

(** GetIndex against [flat] *)
Lemma check_range_none sh : forall idx at_,
  length sh = length idx ->
  check_range at_ sh idx = None <-> Forall2 (fun i s => i < s) idx sh.
Proof.
  induction sh as [|s sh IH]; intros [|i idx] at' Hl; cbn in *; try discriminate.
  - split; constructor.
  - destruct (s <=? i) eqn:E.
    + split; [discriminate|]. inversion 1; subst; lia.
    + rewrite IH by lia. split; [intros Hf; constructor; [lia|assumption]|inversion 1; assumption].
Qed.

Lemma dot_index_acc : forall l acc,
  fold_left (fun ind im => uadd ind (umul (fst im) (snd im))) l acc
  = (fold_left (fun ind (im : N * N) => ind + fst im * snd im) l acc) mod W64 \/ acc >= W64.
Proof.
  induction l as [|[a b] l IH]; intros acc; cbn.
  - destruct (decide (acc < W64)); [left; rewrite N.mod_small; auto|right; lia].
  - destruct (decide (acc < W64)); [|right; lia].
    left. destruct (IH (uadd acc (umul a b))) as [->|Hb].
    + unfold uadd, umul. rewrite N.add_mod_idemp_r by apply W64_nz.
      clear. revert acc. generalize (a * b). intros y acc.
      assert (forall l x z, x mod W64 = z mod W64 ->
        fold_left (fun ind (im : N * N) => ind + fst im * snd im) l x mod W64 =
        fold_left (fun ind (im : N * N) => ind + fst im * snd im) l z mod W64) as Hc.
      { clear. induction l as [|[c d] l IH]; intros x z E; cbn; [assumption|].
        apply IH. rewrite <- (N.add_mod_idemp_l x), <- (N.add_mod_idemp_l z), E by apply W64_nz. reflexivity. }
      apply Hc. rewrite N.mod_mod by apply W64_nz. reflexivity.
    + unfold uadd in Hb. pose proof (N.mod_lt (acc + umul a b) W64 W64_nz). lia.
Qed.

Lemma dot_exact sh : forall idx k acc,
  flat sh idx = Some k ->
  fold_left (fun ind (im : N * N) => ind + fst im * snd im) (zip idx (strides sh)) acc = acc + k.
Proof.
  induction sh as [|s sh IH]; intros [|i idx] k acc Hk; cbn [flat] in Hk; try discriminate.
  - injection Hk as <-. cbn. lia.
  - destruct (i <? s) eqn:Hi; [|discriminate].
    destruct (flat sh idx) as [r|] eqn:Hr; [|discriminate]. injection Hk as <-.
    cbn [strides zip_with fold_left fst snd]. rewrite (IH _ _ _ Hr). lia.
Qed.

Lemma GetIndex_flat sh idx k :
  fits sh -> flat sh idx = Some k -> GetIndex (GetIndexMul sh) sh idx = Ok k.
Proof.
  intros [_ Hf] Hk.
  pose proof (flat_lt _ _ _ Hk) as Hlt. pose proof (flat_length _ _ _ Hk) as Hlen.
  unfold GetIndex. rewrite GetIndexMul_length, Nat.eqb_refl, Hlen, Nat.eqb_refl. cbn [negb].
  assert (check_range 0 sh idx = None) as ->.
  { apply check_range_none; [congruence|]. apply flat_in_range. eauto. }
  f_equal. rewrite GetIndexMul_strides by lia. unfold dot_index.
  destruct (dot_index_acc (zip idx (strides sh)) 0) as [->|Hb]; [|pose proof W64_pos; lia].
  rewrite (dot_exact _ _ _ _ Hk). apply N.mod_small. lia.
Qed.

Lemma GetIndex_out sh idx :
  length idx = length sh -> flat sh idx = None ->
  exists i a s, GetIndex (GetIndexMul sh) sh idx = Err (EIndexRange i a s).
Proof.
  intros Hl Hk. unfold GetIndex.
  rewrite GetIndexMul_length, Nat.eqb_refl, Hl, Nat.eqb_refl. cbn [negb].
  destruct (check_range 0 sh idx) as [e|] eqn:E.
  - assert (exists i a s, e = EIndexRange i a s) as (i & a & s & ->).
    { clear Hk Hl. revert E. generalize 0. revert idx.
      induction sh as [|s sh IH]; intros [|i idx] z E; cbn in E; try discriminate.
      destruct (s <=? i); [injection E as <-; eauto|]. eauto. }
    eauto.
  - exfalso. apply check_range_none in E; [|congruence].
    apply flat_in_range in E as [k Hk']. congruence.
Qed.

(** [indices] *)
Lemma upto_length n : length (upto n) = N.to_nat n.
Proof. unfold upto. rewrite map_length, seq_length. reflexivity. Qed.
Lemma upto_lookup n i : (i < N.to_nat n)%nat -> upto n !! i = Some (N.of_nat i).
Proof.
  intros Hi. unfold upto. rewrite list_lookup_fmap, lookup_seq_lt by assumption. reflexivity.
Qed.

Lemma flat_map_length_const {A B} (f : A -> list B) (c : nat) l :
  (forall x, length (f x) = c) -> length (flat_map f l) = (length l * c)%nat.
Proof. intros Hc. induction l; cbn; [reflexivity|]. rewrite app_length, Hc, IHl. lia. Qed.

Lemma flat_map_lookup_const {A B} (f : A -> list B) (c : nat) :
  (forall x, length (f x) = c) ->
  forall l i j, (j < c)%nat -> flat_map f l !! (i * c + j)%nat = (x ← l !! i; f x !! j).
Proof.
  intros Hc. induction l as [|x l IH]; intros i j Hj; cbn [flat_map].
  - rewrite !lookup_nil. reflexivity.
  - destruct i as [|i].
    + cbn. rewrite lookup_app_l; [reflexivity|]. rewrite Hc. lia.
    + rewrite lookup_app_r by (rewrite Hc; lia). rewrite Hc.
      replace (S i * c + j - c)%nat with (i * c + j)%nat by lia. rewrite IH by assumption. reflexivity.
Qed.

Lemma indices_length sh : length (indices sh) = N.to_nat (prodN sh).
Proof.
  induction sh as [|s sh IH]; [reflexivity|]. cbn [indices].
  rewrite (flat_map_length_const _ (N.to_nat (prodN sh))).
  - rewrite upto_length, prodN_cons. lia.
  - intros x. rewrite map_length. exact IH.
Qed.

Lemma indices_lookup sh : forall k idx,
  indices sh !! k = Some idx <-> flat sh idx = Some (N.of_nat k).
Proof.
  induction sh as [|s sh IH]; intros k idx.
  - cbn [indices]. destruct k as [|k]; destruct idx; cbn; split;
      try (intros E; discriminate E); try congruence; intros E; exfalso; revert E; rewrite ?lookup_nil; congruence.
  - cbn [indices].
    set (c := N.to_nat (prodN sh)).
    assert (Hlen : forall x, length (map (cons x) (indices sh)) = c)
      by (intros; rewrite map_length; apply indices_length).
    destruct (decide (c = 0%nat)) as [Hc0|Hc0].
    { split.
      - intros Hs. apply lookup_lt_Some in Hs.
        rewrite (flat_map_length_const _ c) in Hs by assumption. lia.
      - intros Hk. destruct idx as [|i idx]; cbn [flat] in Hk; [discriminate|].
        destruct (i <? s); [|discriminate]. destruct (flat sh idx) eqn:E; [|discriminate].
        apply flat_lt in E. subst c. lia. }
    pose proof (Nat.div_mod_eq k c) as Hk.
    pose proof (Nat.mod_upper_bound k c Hc0) as Hm.
    rewrite Hk at 1. rewrite (Nat.mul_comm c).
    rewrite (flat_map_lookup_const _ c Hlen) by assumption.
    split.
    + intros E.
      destruct (upto s !! (k / c)%nat) as [x|] eqn:Ex; cbn in E; [|discriminate].
      assert (k / c < N.to_nat s)%nat as Hlt by (apply lookup_lt_Some in Ex; rewrite upto_length in Ex; assumption).
      rewrite upto_lookup in Ex by assumption. injection Ex as <-.
      rewrite list_lookup_fmap in E.
      destruct (indices sh !! (k mod c)%nat) as [r|] eqn:Er; cbn in E; [|discriminate].
      injection E as <-. apply IH in Er. cbn [flat]. rewrite Er.
      destruct (N.of_nat (k / c) <? s) eqn:Ei; [|lia].
      f_equal. subst c. lia.
    + intros E. destruct idx as [|i idx]; cbn [flat] in E; [discriminate|].
      destruct (i <? s) eqn:Hi; [|discriminate].
      destruct (flat sh idx) as [r|] eqn:Er; [|discriminate].
      injection E as E. pose proof (flat_lt _ _ _ Er) as Hr.
      assert (k = N.to_nat i * c + N.to_nat r)%nat as -> by (subst c; lia).
      assert (((N.to_nat i * c + N.to_nat r) / c)%nat = N.to_nat i) as ->.
      { rewrite Nat.div_add_l by assumption. rewrite Nat.div_small by (subst c; lia). lia. }
      assert (((N.to_nat i * c + N.to_nat r) mod c)%nat = N.to_nat r) as ->.
      { rewrite Nat.add_comm, Nat.mod_add by assumption. apply Nat.mod_small. subst c. lia. }
      rewrite upto_lookup by lia. cbn. rewrite list_lookup_fmap.
      assert (indices sh !! N.to_nat r = Some idx) as ->.
      { apply IH. rewrite Er. f_equal. lia. }
      cbn. do 2 f_equal. lia.
Qed.

Lemma indices_lookup_total sh k : (k < N.to_nat (prodN sh))%nat -> exists idx, indices sh !! k = Some idx.
Proof. intros Hk. apply lookup_lt_is_Some_2. rewrite indices_length. assumption. Qed.

Lemma elem_of_indices sh idx : idx ∈ indices sh <-> Forall2 (fun i s => i < s) idx sh.
Proof.
  rewrite <- flat_in_range, elem_of_list_lookup. split.
  - intros [k Hk]. apply indices_lookup in Hk. eauto.
  - intros [k Hk]. exists (N.to_nat k). apply indices_lookup. rewrite Hk. f_equal. lia.
Qed.

Lemma indices_NoDup sh : NoDup (indices sh).
Proof.
  apply NoDup_alt. intros i j x Hi Hj. apply indices_lookup in Hi. apply indices_lookup in Hj.
  rewrite Hi in Hj. injection Hj. lia.
Qed.

(** ReverseIndex *)
Lemma reverse_go_indices sh : forall k idx,
  0 < prodN sh -> flat sh idx = Some k -> reverse_go (strides sh) (length sh) k = Ok idx.
Proof.
  induction sh as [|s sh IH]; intros k [|i idx] Hp Hk; cbn [flat] in Hk; try discriminate.
  - reflexivity.
  - rewrite prodN_cons in Hp. assert (0 < prodN sh) as Hr0 by nia.
    destruct (i <? s) eqn:Hi; [|discriminate].
    destruct (flat sh idx) as [r|] eqn:Er; [|discriminate].
    injection Hk as <-. pose proof (flat_lt _ _ _ Er) as Hr.
    cbn [strides reverse_go length].
    destruct (prodN sh =? 0) eqn:E0; [lia|].
    assert ((i * prodN sh + r) mod prodN sh = r) as ->.
    { rewrite N.add_comm, N.mod_add by lia. apply N.mod_small. assumption. }
    assert ((i * prodN sh + r) / prodN sh = i) as ->.
    { rewrite N.div_add_l by lia. rewrite N.div_small by assumption. lia. }
    rewrite (IH _ _ Hr0 Er). reflexivity.
Qed.

Lemma ReverseIndex_lookup sh k idx :
  fits sh -> indices sh !! k = Some idx ->
  ReverseIndex (GetIndexMul sh) sh (N.of_nat k) = Ok idx.
Proof.
  intros [_ Hf] Hk. apply indices_lookup in Hk. pose proof (flat_lt _ _ _ Hk).
  unfold ReverseIndex. rewrite GetIndexMul_strides by lia.
  apply reverse_go_indices; [lia|assumption].
Qed.

Lemma indices_Forall2 sh k idx : indices sh !! k = Some idx -> Forall2 (fun i s => i < s) idx sh.
Proof. intros Hk. apply elem_of_indices. apply elem_of_list_lookup. eauto. Qed.

Lemma fitsb_fits sh : fitsb sh = true <-> fits sh.
Proof.
  unfold fitsb, fits. rewrite andb_true_iff, forallb_forall, Forall_forall.
  rewrite N.ltb_lt. setoid_rewrite N.ltb_lt. setoid_rewrite elem_of_list_In. tauto.
Qed.
Lemma fit_Some sh sh' : fit sh = Some sh' <-> sh' = sh /\ fits sh.
Proof.
  unfold fit. destruct (fitsb sh) eqn:E.
  - apply fitsb_fits in E. split; [intros [= <-]; auto|intros [-> _]; reflexivity].
  - split; [discriminate|]. intros [-> Hf]. apply fitsb_fits in Hf. congruence.
Qed.

(** Equals *)
Lemma equals_go_spec : forall s1 s2 i, length s1 = length s2 -> (0 <= i)%Z ->
  (equals_go i s1 s2 = -1 /\ s1 = s2)%Z \/
  (exists n a b, equals_go i s1 s2 = i + Z.of_nat n /\ s1 !! n = Some a /\ s2 !! n = Some b /\ a <> b /\
     take n s1 = take n s2)%Z.
Proof.
  induction s1 as [|a s1 IH]; intros [|b s2] i Hl Hi; cbn in *; try discriminate.
  - left; auto.
  - destruct (b =? a) eqn:E.
    + apply N.eqb_eq in E as ->. destruct (IH s2 (i+1)%Z) as [[E1 ->]|(n & x & y & E1 & ? & ? & ? & ?)]; [lia|lia| |].
      * left; auto.
      * right. exists (S n), x, y. cbn. repeat split; auto; [lia|congruence].
    + apply N.eqb_neq in E. right. exists O, a, b. cbn. repeat split; auto. lia.
Qed.
Lemma Equals_spec s1 s2 :
  (Equals s1 s2 = -2 /\ length s1 <> length s2)%Z \/
  (Equals s1 s2 = -1 /\ s1 = s2)%Z \/
  (exists n a b, Equals s1 s2 = Z.of_nat n /\ length s1 = length s2 /\ s1 !! n = Some a /\ s2 !! n = Some b /\ a <> b /\
     take n s1 = take n s2)%Z.
Proof.
  unfold Equals. destruct (Nat.eqb_spec (length s1) (length s2)) as [E|E]; cbn [negb].
  - right. destruct (equals_go_spec s1 s2 0%Z E) as [?|(n&a&b&Hn&?)]; [lia|auto|].
    right. exists n, a, b. rewrite Hn. split; [lia|]. tauto.
  - left. auto.
Qed.
Lemma GetEqShapeErr_None s1 s2 : GetEqShapeErr s1 s2 = None <-> s1 = s2.
Proof.
  unfold GetEqShapeErr.
  destruct (Equals_spec s1 s2) as [[-> Hl]|[[-> ->]|(n & a & b & -> & Hl & Ha & Hb & Hne & Ht)]]; cbn.
  - split; [discriminate|]. congruence.
  - tauto.
  - destruct (Z.of_nat n =? -2)%Z eqn:E; [lia|].
    destruct (0 <=? Z.of_nat n)%Z eqn:E2; [|lia].
    split; [discriminate|]. congruence.
Qed.

(** GetInvertedIndex and the shape reversal of Transpose *)
Lemma list_reverse_nth {A} (l : list A) d :
  map (fun i => nth (length l - 1 - i) l d) (range (length l)) = reverse l.
Proof.
  apply list_eq. intros i. unfold range. rewrite list_lookup_fmap.
  destruct (decide (i < length l)%nat) as [Hi|Hi].
  - rewrite lookup_seq_lt by assumption. cbn.
    rewrite reverse_lookup by assumption.
    replace (length l - 1 - i)%nat with (length l - S i)%nat by lia.
    destruct (nth_lookup_or_length l (length l - S i) d) as [E|E]; [|lia].
    rewrite E. reflexivity.
  - rewrite lookup_seq_ge by lia. cbn. symmetry. apply lookup_ge_None. rewrite reverse_length. lia.
Qed.
Lemma GetInvertedIndex_reverse l : GetInvertedIndex l = reverse l.
Proof. apply list_reverse_nth. Qed.
Lemma transpose_shape_reverse (l : list N) :
  map (fun i => nth (length l - i - 1) l 0) (range (length l)) = reverse l.
Proof.
  rewrite <- (list_reverse_nth l 0). apply map_ext. intros i. f_equal. lia.
Qed.

Lemma fits_reverse sh : fits sh -> fits (reverse sh).
Proof.
  intros [H1 H2]. split; [|rewrite prodN_reverse; assumption].
  apply Forall_forall. intros x Hx. rewrite elem_of_reverse in Hx.
  rewrite Forall_forall in H1. auto.
Qed.
