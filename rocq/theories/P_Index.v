(** * Properties of shapes and indices: C01, C03, C05 *)
From Verif Require Import Base Num ModelTools ModelOps ModelTensor Spec IndexProofs IndexFacts.

(** C01: every flat position below the element count has exactly one in-range
    multi-index, the code finds it, and goes back to the same position. *)
Theorem C01_position_round_trip (sh : list N) (k : N) :
  fits sh -> (k < prodN sh)%N ->
  exists idx, ReverseIndex (GetIndexMul sh) sh k = Ok idx /\
    Forall2 (fun i s => (i < s)%N) idx sh /\
    GetIndex (GetIndexMul sh) sh idx = Ok k.
Proof. exact (position_round_trip sh k). Qed.
Print Assumptions C01_position_round_trip.

(** C01: every in-range multi-index has a flat position below the element
    count, the row-major one, and the code goes back to the same multi-index. *)
Theorem C01_index_round_trip (sh idx : list N) :
  fits sh -> Forall2 (fun i s => (i < s)%N) idx sh ->
  exists k, GetIndex (GetIndexMul sh) sh idx = Ok k /\ (k < prodN sh)%N /\
    flat sh idx = Some k /\ ReverseIndex (GetIndexMul sh) sh k = Ok idx.
Proof. exact (index_round_trip sh idx). Qed.
Print Assumptions C01_index_round_trip.

Example C01_case : fits [2; 3; 4]%N /\ (17 < prodN [2; 3; 4])%N /\
  ReverseIndex (GetIndexMul [2; 3; 4]%N) [2; 3; 4]%N 17 = Ok [1; 1; 1]%N /\
  GetIndex (GetIndexMul [2; 3; 4]%N) [2; 3; 4]%N [1; 1; 1]%N = Ok 17%N.
Proof. split; [apply fitsb_fits; reflexivity|]. repeat split. Qed.

(** C03 *)
Theorem C03_equal_shapes (s1 s2 : list N) : Equals s1 s2 = (-1)%Z <-> s1 = s2.
Proof. exact (Equals_same s1 s2). Qed.
Print Assumptions C03_equal_shapes.
Theorem C03_different_rank (s1 s2 : list N) : Equals s1 s2 = (-2)%Z <-> length s1 <> length s2.
Proof. exact (Equals_rank s1 s2). Qed.
Print Assumptions C03_different_rank.
Theorem C03_first_difference (s1 s2 : list N) (i : nat) :
  Equals s1 s2 = Z.of_nat i <->
  length s1 = length s2 /\ take i s1 = take i s2 /\
  exists a b, s1 !! i = Some a /\ s2 !! i = Some b /\ a <> b.
Proof. exact (Equals_first s1 s2 i). Qed.
Print Assumptions C03_first_difference.
Theorem C03_error_iff_different (s1 s2 : list N) : GetEqShapeErr s1 s2 = None <-> s1 = s2.
Proof. exact (GetEqShapeErr_None s1 s2). Qed.
Print Assumptions C03_error_iff_different.

Example C03_case : Equals [2; 3; 4]%N [2; 5; 9]%N = 1%Z /\ Equals [2]%N [2; 3]%N = (-2)%Z.
Proof. split; reflexivity. Qed.

(** C05 is false of the code: the product of the dimensions wraps around, so a
    shape with 2^64 elements gives a tensor with no element at all. *)
Theorem C05_element_count_refuted (T : Type) `{Num T} :
  exists sh : list N, Forall (fun d => (d < W64)%N) sh /\
  exists id n s',
    NewZeros sh (MkSt [] [] []) = (Ok id, s') /\ tens s' !! id = Some n /\
    shape (nmat n) = sh /\ N.of_nat (length (operands (nmat n))) <> prodN sh.
Proof. exact (element_count_refuted T). Qed.
Print Assumptions C05_element_count_refuted.
