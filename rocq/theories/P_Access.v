(** * Properties of tensor objects: C02, C04, C05, C06, C07, C08 *)
From Verif Require Import Base Num ModelTools ModelOps ModelTensor Spec Denote ObjSpec ObjDec
  EagerProofs AccessProofs.

(** The tensors used in the concrete cases: a = [[1,-2,3],[4,5,-6]] and b of the
    same shape, and c = [7,8]. *)
#[local] Existing Instance NumI32.
Definition demo : TM Z unit :=
  NewFromValues [1; -2; 3; 4; 5; -6]%Z [2; 3]%N ;~
  NewFromValues [2; 2; 2; 1]%Z [2; 3]%N ;~
  NewFromValues [7; 8; 9]%Z [2]%N ;~
  mret tt.
Definition st : tst Z := snd (demo (MkSt [] [] [])).
Example demo_holds :
  holds st 0 (V [2; 3]%N [1; -2; 3; 4; 5; -6]%Z) /\ holds st 1 (V [2; 3]%N [2; 2; 2; 1; 0; 0]%Z) /\
  holds st 2 (V [2]%N [7; 8]%Z) /\ unshared st 0 /\ unshared st 1 /\ apart st 0 1.
Proof.
  split; [holds_tac|]. split; [holds_tac|]. split; [holds_tac|]. split; [apply unshared_check; reflexivity|].
  split; [apply unshared_check; reflexivity|apply apart_check; reflexivity].
Qed.

Section Properties.
Context {T : Type} `{Num T}.
Implicit Types s : tst T.

(** C02 *)
Theorem C02_get_out_of_range s p v idx :
  holds s p v -> length idx = length (vsh v) -> ~ Forall2 (fun i d => (i < d)%N) idx (vsh v) ->
  refuses s (Get p idx s).
Proof. exact (Get_out s p v idx). Qed.
Theorem C02_set_out_of_range s p v x idx :
  holds s p v -> length idx = length (vsh v) -> ~ Forall2 (fun i d => (i < d)%N) idx (vsh v) ->
  refuses s (Set_ p x idx s).
Proof. exact (Set_out s p v x idx). Qed.
Theorem C02_get_in_range s p v idx :
  holds s p v -> Forall2 (fun i d => (i < d)%N) idx (vsh v) ->
  exists x, at_ (vsh v) (vdata v) idx = Some x /\ Get p idx s = (Ok x, s).
Proof. exact (Get_in_range s p v idx). Qed.
Theorem C02_set_in_range s p v x idx :
  holds s p v -> Forall2 (fun i d => (i < d)%N) idx (vsh v) -> exists s', Set_ p x idx s = (Ok tt, s').
Proof. exact (Set_in_range s p v x idx). Qed.

(** C04 *)
Theorem C04_zeros s sh :
  fits sh -> returns_new s (NewZeros sh s) (V sh (replicate (N.to_nat (prodN sh)) nzero)).
Proof. exact (NewZeros_spec s sh). Qed.
Theorem C04_ones s sh :
  fits sh -> returns_new s (NewOnes sh s) (V sh (replicate (N.to_nat (prodN sh)) none)).
Proof. exact (NewOnes_spec s sh). Qed.
Theorem C04_from_values s values sh :
  fits sh ->
  returns_new s (NewFromValues values sh s)
    (V sh (take (N.to_nat (prodN sh)) values ++ replicate (N.to_nat (prodN sh) - length values) nzero)).
Proof. exact (NewFromValues_spec s values sh). Qed.
Theorem C04_random s rnd sh :
  fits sh -> returns_new s (NewRandom rnd sh s) (V sh (map rnd (seq 0 (N.to_nat (prodN sh))))).
Proof. exact (NewRandom_spec s rnd sh). Qed.
(** What [returns_new] gives: no scalar of the new tensor is used twice in it or
    in any existing tensor, and existing tensors keep their values. *)
Theorem C04_new_is_unshared s r v s' :
  returns_new s r v -> r = (Ok (length (tens s)), s') -> unshared s' (length (tens s)).
Proof. exact (returns_new_unshared s r v s'). Qed.
Theorem C04_new_is_apart s r v s' p u :
  returns_new s r v -> r = (Ok (length (tens s)), s') -> holds s p u -> apart s' (length (tens s)) p.
Proof. exact (returns_new_apart s r v s' p u). Qed.
Theorem C04_others_keep_their_value s r v s' p u :
  returns_new s r v -> r = (Ok (length (tens s)), s') -> holds s p u -> holds s' p u.
Proof. exact (returns_new_keeps s r v s' p u). Qed.

(** C05, the part that holds: with fewer than 2^64 elements the count is right. *)
Theorem C05_element_count_partial s sh :
  fits sh -> exists id n s',
    NewZeros sh s = (Ok id, s') /\ tens s' !! id = Some n /\ N.of_nat (length (operands (nmat n))) = prodN sh.
Proof. exact (element_count s sh). Qed.

(** C06 *)
Theorem C06_set_get s p v x idx :
  holds s p v -> unshared s p -> Forall2 (fun i d => (i < d)%N) idx (vsh v) ->
  exists s', Set_ p x idx s = (Ok tt, s') /\ tens s' = tens s /\ ctx s' = ctx s /\
    Get p idx s' = (Ok x, s') /\
    (forall j y, j <> idx -> at_ (vsh v) (vdata v) j = Some y -> Get p j s' = (Ok y, s')) /\
    (forall q u, apart s p q -> holds s q u -> holds s' q u).
Proof. exact (Set_spec s p v x idx). Qed.

(** C07 *)
Theorem C07_load_data s p v data :
  holds s p v -> unshared s p -> length data = length (vdata v) ->
  exists s', LoadData p data s = (Ok tt, s') /\ tens s' = tens s /\ ctx s' = ctx s /\
    GetData p s' = (Ok data, s') /\
    holds s' p (V (vsh v) data) /\ (forall q u, apart s p q -> holds s q u -> holds s' q u).
Proof. exact (LoadData_GetData s p v data). Qed.
Theorem C07_load_data_wrong_size s p v data :
  holds s p v -> length data <> length (vdata v) -> refuses s (LoadData p data s).
Proof. exact (LoadData_wrong_size s p v data). Qed.
Theorem C07_get_data s p v : holds s p v -> GetData p s = (Ok (vdata v), s).
Proof. exact (GetData_spec s p v). Qed.
Theorem C07_load_from_tensor s p t v u :
  holds s p v -> unshared s p -> holds s t u -> apart s p t -> vsh v = vsh u ->
  exists s', LoadFromTensor p t s = (Ok tt, s') /\ tens s' = tens s /\ ctx s' = ctx s /\
    holds s' p u /\ (forall q w, apart s p q -> holds s q w -> holds s' q w).
Proof. exact (LoadFromTensor_spec s p t v u). Qed.
Theorem C07_load_from_tensor_wrong_shape s p t v u :
  holds s p v -> holds s t u -> vsh v <> vsh u -> refuses s (LoadFromTensor p t s).
Proof. exact (LoadFromTensor_wrong_shape s p t v u). Qed.

(** C08: [rewritten q] is any sequence of writes to scalars of tensor [q]. *)
Theorem C08_copy s p v : holds s p v -> returns_new s (Copy p s) v.
Proof. exact (Copy_spec s p v). Qed.
Theorem C08_copy_is_deep s p v :
  holds s p v ->
  exists c s', Copy p s = (Ok c, s') /\ c <> p /\ holds s' c v /\ unshared s' c /\
    (forall q u, holds s q u -> apart s' c q /\
       (forall s2, rewritten c s' s2 -> holds s2 q u) /\
       (forall s2, rewritten q s' s2 -> holds s2 c v)).
Proof. exact (Copy_deep s p v). Qed.
End Properties.

Print Assumptions C02_get_out_of_range.
Print Assumptions C02_set_out_of_range.
Print Assumptions C02_get_in_range.
Print Assumptions C02_set_in_range.
Print Assumptions C04_zeros.
Print Assumptions C04_ones.
Print Assumptions C04_from_values.
Print Assumptions C04_random.
Print Assumptions C04_new_is_unshared.
Print Assumptions C04_new_is_apart.
Print Assumptions C04_others_keep_their_value.
Print Assumptions C05_element_count_partial.
Print Assumptions C06_set_get.
Print Assumptions C07_load_data.
Print Assumptions C07_load_data_wrong_size.
Print Assumptions C07_get_data.
Print Assumptions C07_load_from_tensor.
Print Assumptions C07_load_from_tensor_wrong_shape.
Print Assumptions C08_copy.
Print Assumptions C08_copy_is_deep.

(** Concrete cases *)
Example C02_case :
  Get 0 [1; 2]%N st = (Ok (-6)%Z, st) /\ refuses st (Get 0 [1; 3]%N st) /\ refuses st (Set_ 0 9%Z [2; 0]%N st).
Proof. split; [reflexivity|]. split; eexists; vm_compute; reflexivity. Qed.
Example C04_case : fits [2; 3]%N /\
  exists s', NewFromValues [1; 2]%Z [2; 3]%N st = (Ok 3, s') /\ GetData 3 s' = (Ok [1; 2; 0; 0; 0; 0]%Z, s').
Proof. split; [apply IndexProofs.fitsb_fits; reflexivity|]. eexists. split; vm_compute; reflexivity. Qed.
Example C06_case : exists s', Set_ 0 42%Z [0; 1]%N st = (Ok tt, s') /\ Get 0 [0; 1]%N s' = (Ok 42%Z, s') /\
  GetData 0 s' = (Ok [1; 42; 3; 4; 5; -6]%Z, s') /\ GetData 1 s' = (Ok [2; 2; 2; 1; 0; 0]%Z, s').
Proof. eexists. repeat split; vm_compute; reflexivity. Qed.
Example C07_case : exists s', LoadFromTensor 0 1 st = (Ok tt, s') /\ GetData 0 s' = (Ok [2; 2; 2; 1; 0; 0]%Z, s') /\
  refuses st (LoadFromTensor 0 2 st) /\ refuses st (LoadData 0 [1]%Z st).
Proof. eexists. repeat split; try (vm_compute; reflexivity); eexists; vm_compute; reflexivity. Qed.
Example C08_case : exists c s' s2, Copy 0 st = (Ok c, s') /\ Set_ c 42%Z [0; 0]%N s' = (Ok tt, s2) /\
  GetData 0 s2 = (Ok [1; -2; 3; 4; 5; -6]%Z, s2) /\ GetData c s2 = (Ok [42; -2; 3; 4; 5; -6]%Z, s2).
Proof. do 3 eexists. repeat split; vm_compute; reflexivity. Qed.
