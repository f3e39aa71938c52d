(** * IndexFacts: the index properties in the form stated in P_Index.v *)
From Verif Require Import Base Num ModelTools ModelOps ModelTensor Spec IndexProofs.
From Coq Require Import Lia ZifyBool ZifyNat ZifyN.

Lemma position_round_trip (sh : list N) (k : N) :
  fits sh -> (k < prodN sh)%N ->
  exists idx, ReverseIndex (GetIndexMul sh) sh k = Ok idx /\
    Forall2 (fun i s => (i < s)%N) idx sh /\
    GetIndex (GetIndexMul sh) sh idx = Ok k.
Proof.
  intros Hf Hk. destruct (indices_lookup_total sh (N.to_nat k)) as [idx Hi]; [lia|].
  exists idx. pose proof (ReverseIndex_lookup _ _ _ Hf Hi) as HR. rewrite N2Nat.id in HR.
  split; [exact HR|]. split; [eapply indices_Forall2; exact Hi|].
  apply indices_lookup in Hi. rewrite N2Nat.id in Hi. apply GetIndex_flat; assumption.
Qed.

Lemma index_round_trip (sh idx : list N) :
  fits sh -> Forall2 (fun i s => (i < s)%N) idx sh ->
  exists k, GetIndex (GetIndexMul sh) sh idx = Ok k /\ (k < prodN sh)%N /\
    flat sh idx = Some k /\ ReverseIndex (GetIndexMul sh) sh k = Ok idx.
Proof.
  intros Hf Hr. apply flat_in_range in Hr as [k Hk]. exists k.
  split; [apply GetIndex_flat; assumption|]. split; [eapply flat_lt; exact Hk|]. split; [assumption|].
  rewrite <- (N2Nat.id k). apply ReverseIndex_lookup; [assumption|]. apply indices_lookup. rewrite N2Nat.id. assumption.
Qed.

Lemma Equals_same (s1 s2 : list N) : Equals s1 s2 = (-1)%Z <-> s1 = s2.
Proof.
  destruct (Equals_spec s1 s2) as [[-> Hl]|[[-> ->]|(n & a & b & -> & Hl & Ha & Hb & Hne & Ht)]].
  - split; [discriminate|congruence].
  - tauto.
  - split; [lia|]. intros ->. congruence.
Qed.
Lemma Equals_rank (s1 s2 : list N) : Equals s1 s2 = (-2)%Z <-> length s1 <> length s2.
Proof.
  destruct (Equals_spec s1 s2) as [[-> Hl]|[[-> ->]|(n & a & b & -> & Hl & Ha & Hb & Hne & Ht)]].
  - tauto.
  - split; [discriminate|congruence].
  - split; [lia|congruence].
Qed.
Lemma Equals_first (s1 s2 : list N) (i : nat) :
  Equals s1 s2 = Z.of_nat i <->
  length s1 = length s2 /\ take i s1 = take i s2 /\
  exists a b, s1 !! i = Some a /\ s2 !! i = Some b /\ a <> b.
Proof.
  destruct (Equals_spec s1 s2) as [[-> Hl]|[[-> ->]|(n & a & b & -> & Hl & Ha & Hb & Hne & Ht)]].
  - split; [lia|]. intros [? _]. congruence.
  - split; [lia|]. intros (_ & _ & a & b & Ha & Hb & Hne). congruence.
  - split.
    + intros E. assert (n = i) as -> by lia. split; [assumption|]. split; [assumption|]. eauto.
    + intros (_ & Ht' & a' & b' & Ha' & Hb' & Hne').
      destruct (Nat.lt_trichotomy n i) as [Hlt|[->|Hlt]]; [exfalso|reflexivity|exfalso].
      * assert (s1 !! n = s2 !! n); [|congruence].
        rewrite <- (lookup_take s1 i n) by assumption. rewrite Ht'. apply lookup_take. assumption.
      * assert (s1 !! i = s2 !! i); [|congruence].
        rewrite <- (lookup_take s1 n i) by assumption. rewrite Ht. apply lookup_take. assumption.
Qed.

Lemma element_count_refuted T `{Num T} :
  exists sh : list N, Forall (fun d => (d < W64)%N) sh /\
  exists id n s',
    NewZeros sh (MkSt [] [] []) = (Ok id, s') /\ tens s' !! id = Some n /\
    shape (nmat n) = sh /\ N.of_nat (length (operands (nmat n))) <> prodN sh.
Proof.
  exists [4294967296; 4294967296]%N. split; [repeat constructor|].
  eexists _, _, _. split; [vm_compute; reflexivity|]. split; [reflexivity|]. split; [reflexivity|].
  vm_compute. discriminate.
Qed.
