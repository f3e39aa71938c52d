(** * P_Trn: the property theorems of C71 and C72 *)
From Verif Require Import Base Num NumIntS ModelTools ModelTensor ModelLayer ModelModel Spec NetSpec FwdSpec FwdNet FwdChain FwdScript FwdClaims BwdSpec TrnSpec TrnScript TrnProg TrnTotal TrnMain.
From Coq Require Import Lia.

Section P.
Context {T : Type} `{Num T}.
Context (rnd : nat -> nat -> T) (s : lst T).

(** [m0], [ks]: the first layer and the layers pushed onto it. [cs]: what they
    are. [par]: bias and weights. The program builds the model, compiles it and
    then makes tensors, reads them, predicts and trains. Training with tensors of
    other shapes is refused; Train stops at the first such pair it picks. *)
Theorem C71_training m0 ks cs osh : is_chain (length (lays s)) m0 ks cs osh -> counts_up (T:=T) (2 * (length (lays s) + S (length ks)) + 1) -> tallies (T:=T) (length cs) ->
  exists par, starts rnd (in_of m0) par cs /\
    forall acts st os, thistory (in_of m0) osh cs (MkT [] par (still par) every) acts st os ->
      exists s' M tids, tprogram rnd m0 ks acts s = (Ok (seq (length (lays s)) (S (length ks)), (M, tids, os)), s') /\
        forall p, p ∈ cs -> c_par p = true -> net_par s' (mem (ts s')) (c_i p) = t_par st (c_i p).
Proof. exact (train_claim rnd s m0 ks cs osh). Qed.

(** No call panics when the layers fit and the calls name tensors and layers
    that exist, and Train does not pick from empty lists. *)
Theorem C72_safe m0 ks cs osh acts : is_chain (length (lays s)) m0 ks cs osh -> counts_up (T:=T) (2 * (length (lays s) + S (length ks)) + 1) -> tallies (T:=T) (length cs) ->
  (forall (z : T) k, k <= length cs -> ndiv z (number k) <> None) -> chain_runs (in_of m0) cs -> tacts_ok (in_of m0) osh (length cs) [] acts ->
  exists par st os s' M tids, starts rnd (in_of m0) par cs /\ thistory (in_of m0) osh cs (MkT [] par (still par) every) acts st os /\
    tprogram rnd m0 ks acts s = (Ok (seq (length (lays s)) (S (length ks)), (M, tids, os)), s').
Proof. exact (train_safe rnd s m0 ks cs osh acts). Qed.
End P.
Print Assumptions C71_training.
Print Assumptions C72_safe.

(** ** Concrete cases: 32-bit integers, identity activation *)
Section Cases.
#[local] Existing Instance NumS32.
Definition ti (x : Z) : intw 32 := NumIntS.mk 32 eq_refl x.
Definition tact1 : activation (intw 32) := MkAct (fun x => x) (fun _ => ti 1).
Definition trnd (c k : nat) : intw 32 := ti (Z.of_nat (c + k) - 2).
Definition ts0 : lst (intw 32) := MkL (MkSt [] [] []) [] 0.
Definition tshow {A B} (r : res (A * (B * list (option (list (intw 32))))) * lst (intw 32)) : option (list (option (list Z))) :=
  match fst r with Ok r => Some (map (option_map (map ival)) (snd (snd r))) | _ => None end.
(** An image, a convolution, pooling, flattening and two units. *)
Definition tm0 : FwdScript.mk (intw 32) := MInput [1; 3; 3]%N.
Definition tks : list (lay1 (intw 32)) := [KConv 1 2 2 1 1 tact1; KPool 2 2; KFlat; KDense 2 tact1].
Definition tcs : list (clay (intw 32)) := match chain_of 0 tm0 tks with Some cs => cs | None => [] end.
Definition tacts : list (tact (intw 32)) :=
  [TNew [1; 3; 3]%N (map ti [1; 2; 0; 0; 1; -1; 2; 0; 1]%Z); TNew [2]%N (map ti [9; -4]%Z);
   TPredict 0; TGet 2; TTrain 0 1 (ti 1) (ti 1); TPredict 0; TGet 3; TTrain 0 1 (ti 1) (ti 2); TPredict 0; TGet 4; TPredict 1].
Example C71_chain : is_chain 0 tm0 tks tcs [2]%N.
Proof.
  split; [repeat constructor|]. split; [reflexivity|]. split; [|reflexivity]. eexists _, _. split; [reflexivity|]. split; [discriminate|reflexivity].
Qed.
Example C71_counts : counts_up (T:=intw 32) (2 * (0 + S (length tks)) + 1).
Proof. split; [|exists (ti 0), (ti 1); discriminate]. cbn. intros k Hk. do 12 (destruct k as [|k]; [lia || reflexivity|]). lia. Qed.
Example C71_tallies : tallies (T:=intw 32) (length tcs).
Proof. intros k Hk. change (length tcs) with 5 in Hk. do 6 (destruct k as [|k]; [reflexivity|]). lia. Qed.
Example C72_divides : forall (z : intw 32) k, k <= length tcs -> ndiv z (number k) <> None.
Proof.
  intros z k Hk. assert (E : (ival (number (T:=intw 32) k) =? 0)%Z = false).
  { change (length tcs) with 5 in Hk. do 6 (destruct k as [|k]; [vm_compute; reflexivity|]). lia. }
  unfold ndiv. cbn [NumS32 NumIntS.NumIntS]. rewrite E. discriminate.
Qed.
Example C72_runs : chain_runs (in_of tm0) tcs.
Proof. repeat split; intros l [= <-]; cbn; try lia; repeat split; lia. Qed.
Example C72_acts : tacts_ok [1; 3; 3]%N [2]%N 5 [] tacts.
Proof. repeat split; cbn; try lia; repeat constructor. Qed.
Example C71_case : tshow (tprogram trnd tm0 tks tacts ts0) =
  Some [Some []; Some []; Some []; Some [2; 5]; Some [16]; Some []; Some [-338; 360]; Some [711]; Some []; Some [-307288096; 322332328]; None]%Z.
Proof. vm_compute. reflexivity. Qed.
(** Train: the pairs 0, 1, 0 in one epoch; then lists of different lengths, which
    are refused. *)
Definition tmany : list (tact (intw 32)) :=
  [TNew [1; 3; 3]%N (map ti [1; 2; 0; 0; 1; -1; 2; 0; 1]%Z); TNew [2]%N (map ti [9; -4]%Z); TNew [1; 3; 3]%N (map ti [0; 1; 1; 0; 0; 1; 0; 0; 0]%Z);
   TMany [0; 2] [1; 1] (fun e b => e + b) 1 3 (ti 1) (ti 1); TMany [0] [1; 1] (fun _ _ => 0) 1 1 (ti 1) (ti 1); TPredict 2; TGet 3].
Example C72_many : tacts_ok [1; 3; 3]%N [2]%N 5 [] tmany.
Proof.
  assert (F1 : fits [1; 3; 3]%N) by (repeat constructor; cbn; lia). assert (F2 : fits [2]%N) by (repeat constructor; cbn; lia).
  split; [exact F1|]. split; [reflexivity|]. split; [exact F2|]. split; [reflexivity|]. split; [exact F1|]. split; [reflexivity|].
  split; [repeat constructor|]. split; [repeat constructor|]. split; [right; left; discriminate|].
  split; [repeat constructor|]. split; [repeat constructor|]. split; [left; discriminate|]. split; [cbn; lia|].
  rewrite decide_True by reflexivity. split; [cbn; lia|exact I].
Qed.
Example C71_many : tshow (tprogram trnd tm0 tks tmany ts0) = Some [Some []; Some []; Some []; Some []; None; Some []; Some [1265872976; -1822576524]]%Z.
Proof. vm_compute. reflexivity. Qed.
(** Wrong shapes: a first call that is refused, Train with the picks 0, 1 and 0
    that stops at the second one, one step that is refused again, and Train with
    nothing to train. *)
Definition twrong : list (tact (intw 32)) :=
  [TNew [1; 3; 3]%N (map ti [1; 2; 0; 0; 1; -1; 2; 0; 1]%Z); TNew [2]%N (map ti [9; -4]%Z);
   TTrain 1 1 (ti 7) (ti 7); TPredict 0; TGet 2; TMany [0; 0] [1; 0] (fun e b => e + b) 1 3 (ti 1) (ti 1); TTrain 0 0 (ti 3) (ti 3); TMany [] [] (fun _ _ => 0) 2 0 (ti 5) (ti 5); TPredict 0; TGet 3].
Example C72_wrong : tacts_ok [1; 3; 3]%N [2]%N 5 [] twrong.
Proof.
  assert (F1 : fits [1; 3; 3]%N) by (repeat constructor; cbn; lia). assert (F2 : fits [2]%N) by (repeat constructor; cbn; lia).
  split; [exact F1|]. split; [reflexivity|]. split; [exact F2|]. split; [reflexivity|]. split; [cbn; lia|]. split; [cbn; lia|]. split; [cbn; lia|]. rewrite decide_True by reflexivity. split; [cbn; lia|].
  split; [repeat constructor|]. split; [repeat constructor|]. split; [right; left; discriminate|]. split; [cbn; lia|]. split; [cbn; lia|].
  split; [constructor|]. split; [constructor|]. split; [right; right; right; reflexivity|]. split; [cbn; lia|]. rewrite decide_True by reflexivity. split; [cbn; lia|exact I].
Qed.
Example C71_wrong : tshow (tprogram trnd tm0 tks twrong ts0) = Some [Some []; Some []; None; Some []; Some [2; 5]; None; None; Some []; Some []; Some [-338; 360]]%Z.
Proof. vm_compute. reflexivity. Qed.
(** the same numbers from the description: parameters of the requests 0 to 3 *)
Definition tdraw (c : nat) (sh : list N) : vten (intw 32) := V sh (map (trnd c) (seq 0 (N.to_nat (prodN sh)))).
Definition tpar (k : nat) : option (vten (intw 32) * vten (intw 32)) :=
  match k with 1 => Some (tdraw 0 [1; 2; 2]%N, tdraw 1 [1; 1; 2; 2]%N) | 4 => Some (tdraw 2 [2]%N, tdraw 3 [2; 1]%N) | _ => None end.
Example C71_spec :
  let x := V [1; 3; 3]%N (map ti [1; 2; 0; 0; 1; -1; 2; 0; 1]%Z) in
  let y := V [2]%N (map ti [9; -4]%Z) in
  let answer par := option_map (fun y => map ival (vdata y)) (s_out par x tcs) in
  answer tpar = Some [2; 5]%Z /\
  option_map (fun r => (ival (fst (fst r)), answer (snd (fst r)))) (s_train tpar (still tpar) (ti 1) (ti 1) tcs x y) = Some (16, Some [-338; 360])%Z.
Proof. vm_compute. split; reflexivity. Qed.
Example C71_many_spec :
  let x := V [1; 3; 3]%N (map ti [1; 2; 0; 0; 1; -1; 2; 0; 1]%Z) in
  let y := V [2]%N (map ti [9; -4]%Z) in
  let z := V [1; 3; 3]%N (map ti [0; 1; 1; 0; 0; 1; 0; 0; 0]%Z) in
  option_map (fun r => option_map (fun y => map ival (vdata y)) (s_out (fst r) z tcs))
    (s_trains [1; 3; 3]%N [2]%N every tpar (still tpar) (ti 1) (ti 1) tcs [(x, y); (z, y)] [0; 1; 0]) = Some (Some [1265872976; -1822576524])%Z.
Proof. vm_compute. reflexivity. Qed.

(** ** C73: a layer that only flattens changes what the layers below learn *)
Definition once (m0 : FwdScript.mk (intw 32)) (ks : list (lay1 (intw 32))) (ish : list N) (x : list Z) (osh : list N) (y : list Z) :=
  tprogram trnd m0 ks [TNew ish (map ti x); TNew osh (map ti y); TPredict 0; TGet 2; TTrain 0 1 (ti 1) (ti 0); TPredict 0; TGet 3] ts0.
Theorem C73_refuted : exists m0 ks1 ks2 x y, tshow (once m0 (ks1 ++ ks2) [1]%N x [1]%N y) = Some [Some []; Some []; Some []; Some [-7]; Some [11]; Some []; Some [-7630]]%Z /\
  tshow (once m0 (ks1 ++ KFlat :: ks2) [1]%N x [1]%N y) = Some [Some []; Some []; Some []; Some [-7]; Some [11]; Some []; Some [-3400]]%Z.
Proof. exists (MDenseIn 1 2 tact1), [], [KDense 1 tact1], [3]%Z, [4]%Z. split; vm_compute; reflexivity. Qed.
(** ** C74: convolutions that predict but cannot be trained: a kernel that is
    wider than high, and steps that differ *)
Theorem C74_refuted :
  (exists m0 ks ish x osh y, (exists sh, lay_shape (T:=intw 32) (spec1 ks) ish = Some sh) /\
    tshow (tprogram trnd m0 [ks] [TNew ish (map ti x); TPredict 0; TGet 1] ts0) = Some [Some []; Some []; Some [-3; -1]]%Z /\ fst (once m0 [ks] ish x osh y) = Err (EIndexRange 2 3 2)) /\
  (exists m0 ks ish x osh y, (exists sh, lay_shape (T:=intw 32) (spec1 ks) ish = Some sh) /\
    tshow (tprogram trnd m0 [ks] [TNew ish (map ti x); TPredict 0; TGet 1] ts0) = Some [Some []; Some []; Some [0; 1; 2; 3]]%Z /\ fst (once m0 [ks] ish x osh y) = Err (EIndexRange 6 1 5)).
Proof.
  split.
  - exists (MInput [1; 3; 3]%N), (KConv 1 3 2 1 1 tact1), [1; 3; 3]%N, [1; 0; 0; 0; 0; 0; 0; 0; 0]%Z, [1; 1; 2]%N, [1; 1]%Z. split; [eexists; reflexivity|]. split; vm_compute; reflexivity.
  - exists (MInput [1; 5; 3]%N), (KConv 1 2 2 1 2 tact1), [1; 5; 3]%N, (replicate 15 1%Z), [1; 4; 1]%N, [1; 1; 1; 1]%Z. split; [eexists; reflexivity|]. split; vm_compute; reflexivity.
Qed.
End Cases.
Print Assumptions C73_refuted.
Print Assumptions C74_refuted.
