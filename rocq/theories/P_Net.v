(** * P_Net: models made of dense layers (C31-C39, C43)

    [stack_of rnd c build ish osh low net0]: [build] is the program that pushes
    an Input layer of shape [ish] and then any number of Dense layers (or only
    Dense layers, the first with its input size given).  [shows rnd build acts s0
    os w]: that program followed by Compile and the calls [acts], started in any
    state [s0], ends without panic, showed [os], and the layers' weight, bias and
    trainable fields and the user's tensors are those of [w].  What the calls
    should do is written down in NetScript.v ([history], [step]) and NetSpec.v
    ([forward], [err], [learn], [loss]). *)
From Verif Require Import Base Num NumIntS ModelTools ModelOps ModelTensor ModelGraph ModelLayer ModelModel
  Spec NetSpec NetScript NetRun6 NetRun7 NetLaws NetClaims.

Section P.
Context {T : Type} `{Num T}.
Context (rnd : nat -> nat -> T) (s0 : lst T) (build : LM T (model T * list nat)) (ish osh : list N) (low : bool) (net0 : list (slayer T)).

(** ** Every history of calls does what NetScript says, from the first parameters on *)
Theorem C32_history acts w os : counts_ok (T:=T) -> stack_of rnd (rc s0) build ish osh low net0 ->
  history ish osh low (W net0 []) acts w os -> shows rnd build acts s0 os w.
Proof. exact (fun H1 H2 => program_ok rnd s0 build ish osh low net0 acts w os H1 H2). Qed.
(** and every call with existing tensors is covered. *)
Theorem C32_total (w : world T) a : allowed w a -> exists w1 o, step ish osh low w a w1 o.
Proof. exact (step_total ish osh low w a). Qed.
(** ** C32: Predict is the composition of the layers *)
Theorem C32_predict acts w os i xs : counts_ok (T:=T) -> stack_of rnd (rc s0) build ish osh low net0 ->
  history ish osh low (W net0 []) acts w os -> w_ten w !! i = Some (ish, xs) ->
  shows rnd build (acts ++ [APredict i; AGet (length (w_ten w))]) s0 (os ++ [Some []; Some (forward (w_net w) xs)])
    (W (w_net w) (w_ten w ++ [(osh, forward (w_net w) xs)])).
Proof. exact (fun H1 H2 H3 => predict_claim rnd s0 build ish osh low net0 H1 H2 acts w os H3 i xs). Qed.
(** Predict on a model that was not compiled compiles it first. *)
Theorem C32_on_demand (m : model T) x s : m_ff m = None -> Predict rnd m x s = (m' <~ Compile rnd m ; Predict rnd m' x) s.
Proof. exact (Predict_compiles rnd m x s). Qed.

(** ** C31: one dense layer *)
Theorem C31_dense acts w os i xs l : counts_ok (T:=T) -> stack_of rnd (rc s0) build ish osh low net0 ->
  history ish osh low (W net0 []) acts w os -> w_net w = [l] -> w_ten w !! i = Some (ish, xs) ->
  (exists f d, acts_of net0 = [(f, d)] /\ sf l = f) /\
  exists ys, shows rnd build (acts ++ [APredict i; AGet (length (w_ten w))]) s0 (os ++ [Some []; Some ys]) (W [l] (w_ten w ++ [(osh, ys)])) /\
    length ys = length (sB l) /\ length (sW l) = length (sB l) /\ Forall (fun r => length r = length xs) (sW l) /\
    forall k r b, sW l !! k = Some r -> sB l !! k = Some b -> ys !! k = Some (sf l (sum1 (zip_with nmul xs r ++ [b]))).
Proof. exact (fun H1 H2 H3 => dense_claim rnd s0 build ish osh low net0 H1 H2 acts w os H3 i xs l). Qed.

(** ** C33: Predict changes nothing, and nothing changes what it returned *)
Theorem C33_kept acts w os i xs later w2 os2 : counts_ok (T:=T) -> stack_of rnd (rc s0) build ish osh low net0 ->
  history ish osh low (W net0 []) acts w os -> w_ten w !! i = Some (ish, xs) ->
  history ish osh low (W (w_net w) (w_ten w ++ [(osh, forward (w_net w) xs)])) later w2 os2 ->
  shows rnd build (acts ++ (APredict i :: later) ++ [AGet (length (w_ten w)); AGet i]) s0
    (os ++ (Some [] :: os2) ++ [Some (forward (w_net w) xs); Some xs]) w2.
Proof. exact (fun H1 H2 H3 => kept_claim rnd s0 build ish osh low net0 H1 H2 acts w os H3 i xs later w2 os2). Qed.
Theorem C33_twice acts w os i xs : counts_ok (T:=T) -> stack_of rnd (rc s0) build ish osh low net0 ->
  history ish osh low (W net0 []) acts w os -> w_ten w !! i = Some (ish, xs) ->
  let y := forward (w_net w) xs in
  shows rnd build (acts ++ [APredict i; APredict i; AGet (length (w_ten w)); AGet (S (length (w_ten w)))]) s0
    (os ++ [Some []; Some []; Some y; Some y]) (W (w_net w) (w_ten w ++ [(osh, y); (osh, y)])).
Proof. exact (fun H1 H2 H3 => twice_claim rnd s0 build ish osh low net0 H1 H2 acts w os H3 i xs). Qed.

(** ** C34: wrong shapes are refused and change no weight *)
Theorem C34_predict acts w os i sh xs : counts_ok (T:=T) -> stack_of rnd (rc s0) build ish osh low net0 ->
  history ish osh low (W net0 []) acts w os -> w_ten w !! i = Some (sh, xs) -> sh <> ish ->
  shows rnd build (acts ++ [APredict i]) s0 (os ++ [None]) w.
Proof. exact (fun H1 H2 H3 => bad_predict_claim rnd s0 build ish osh low net0 H1 H2 acts w os H3 i sh xs). Qed.
Theorem C34_train_one acts w os i j sh xs sh' tgt alpha mo : counts_ok (T:=T) -> stack_of rnd (rc s0) build ish osh low net0 ->
  history ish osh low (W net0 []) acts w os -> w_ten w !! i = Some (sh, xs) -> w_ten w !! j = Some (sh', tgt) ->
  sh <> ish \/ sh' <> osh -> Forall (fun l => sB l <> []) (w_net w) ->
  shows rnd build (acts ++ [ATrainOne i j alpha mo]) s0 (os ++ [None]) w.
Proof. exact (fun H1 H2 H3 => bad_train_claim rnd s0 build ish osh low net0 H1 H2 acts w os H3 i j sh xs sh' tgt alpha mo). Qed.
Theorem C34_lengths acts w os is js picks epochs batch alpha mo : counts_ok (T:=T) -> stack_of rnd (rc s0) build ish osh low net0 ->
  history ish osh low (W net0 []) acts w os ->
  Forall (fun i => i < length (w_ten w)) is -> Forall (fun j => j < length (w_ten w)) js -> length is <> length js ->
  shows rnd build (acts ++ [ATrain is js picks epochs batch alpha mo]) s0 (os ++ [None]) w.
Proof. exact (fun H1 H2 H3 => bad_lengths_claim rnd s0 build ish osh low net0 H1 H2 acts w os H3 is js picks epochs batch alpha mo). Qed.
(** Train stops at the first unsuitable pair it picks; what it learned before stays. *)
Theorem C34_train acts w os is js pairs picks epochs batch alpha mo : counts_ok (T:=T) -> stack_of rnd (rc s0) build ish osh low net0 ->
  history ish osh low (W net0 []) acts w os ->
  Forall2 (fun i p => w_ten w !! i = Some (fst p)) is pairs -> Forall2 (fun j p => w_ten w !! j = Some (snd p)) js pairs ->
  pairs <> [] -> Forall (fun l => sB l <> []) (w_net w) ->
  let r := learn_picks ish osh alpha (nmul nzero mo) pairs (picked picks (length pairs) epochs (if batch =? 0 then length pairs else batch)) (w_net w) in
  shows rnd build (acts ++ [ATrain is js picks epochs batch alpha mo]) s0 (os ++ [if snd r then Some [] else None]) (W (fst r) (w_ten w)).
Proof. exact (fun H1 H2 H3 => train_claim rnd s0 build ish osh low net0 H1 H2 acts w os H3 is js pairs picks epochs batch alpha mo). Qed.

(** ** C35: one training step, weight by weight *)
Theorem C35_step acts w os i j xs tgt alpha mo : counts_ok (T:=T) -> stack_of rnd (rc s0) build ish osh low net0 ->
  history ish osh low (W net0 []) acts w os -> w_ten w !! i = Some (ish, xs) -> w_ten w !! j = Some (osh, tgt) ->
  Forall (fun l => sB l <> []) (w_net w) -> (forall x : T, nmul nzero x = nzero) -> (forall x : T, nadd x nzero = x) ->
  shows rnd build (acts ++ [ATrainOne i j alpha mo]) s0 (os ++ [Some [sum1 (map absv (zip_with nsub tgt (forward (w_net w) xs)))]])
    (W (learn alpha nzero (w_net w) xs tgt) (w_ten w)) /\
  forall k l, w_net w !! k = Some l -> strain l = true ->
    let x := forward (take k (w_net w)) xs in
    let dif := err (drop k (w_net w)) x tgt in
    exists l', learn alpha nzero (w_net w) xs tgt !! k = Some l' /\ length dif = length (sB l) /\
      length (sB l') = length (sB l) /\ length (sW l') = length (sW l) /\
      (forall a d b, dif !! a = Some d -> sB l !! a = Some b -> sB l' !! a = Some (nadd b (nmul d alpha))) /\
      (forall a d r b v, dif !! a = Some d -> sW l !! a = Some r -> r !! b = Some v ->
         exists r' xb, sW l' !! a = Some r' /\ length r' = length r /\ x !! b = Some xb /\ r' !! b = Some (nadd v (nmul (nmul d alpha) xb))).
Proof. exact (fun H1 H2 H3 => learn_claim rnd s0 build ish osh low net0 H1 H2 acts w os H3 i j xs tgt alpha mo). Qed.

(** ** C36: momentum never has an effect: with any other momenta the same is
    shown and the same is learned *)
Theorem C36_momentum_ignored acts w os f : counts_ok (T:=T) -> stack_of rnd (rc s0) build ish osh low net0 ->
  history ish osh low (W net0 []) acts w os -> (forall x : T, nmul nzero x = nzero) ->
  shows rnd build (map (with_momentum f) acts) s0 os w.
Proof. exact (fun H1 H2 H3 => momentum_claim rnd s0 build ish osh low net0 H1 H2 acts w os H3 f). Qed.

(** ** C37: learning rate zero *)
Theorem C37_rate_zero acts w os acts2 w2 os2 : counts_ok (T:=T) -> stack_of rnd (rc s0) build ish osh low net0 ->
  history ish osh low (W net0 []) acts w os -> zero_laws (T:=T) -> history ish osh low w acts2 w2 os2 -> Forall rate0 acts2 ->
  shows rnd build (acts ++ acts2) s0 (os ++ os2) w2 /\ params w2 = params w.
Proof. exact (fun H1 H2 H3 => rate0_claim rnd s0 build ish osh low net0 H1 H2 acts w os H3 acts2 w2 os2). Qed.

(** ** C38: a layer with trainable = false keeps its parameters *)
Theorem C38_frozen acts w os k l acts2 w2 os2 : counts_ok (T:=T) -> stack_of rnd (rc s0) build ish osh low net0 ->
  history ish osh low (W net0 []) acts w os -> w_net w !! k = Some l -> strain l = false ->
  history ish osh low w acts2 w2 os2 -> Forall (fun a => ~ thaws k a) acts2 ->
  shows rnd build (acts ++ acts2) s0 (os ++ os2) w2 /\ w_net w2 !! k = Some l.
Proof. exact (fun H1 H2 H3 => frozen_claim rnd s0 build ish osh low net0 H1 H2 acts w os H3 k l acts2 w2 os2). Qed.

(** ** C39: the model's SetTrainable(false), for models with an Input layer.
    Missing: models whose first layer is a Dense one, where it is false. *)
Theorem C39_freeze_partial acts w os acts2 w1 w2 os2 o : counts_ok (T:=T) -> stack_of rnd (rc s0) build ish osh low net0 ->
  history ish osh low (W net0 []) acts w os -> low = true -> step ish osh low w (AModel false) w1 o ->
  history ish osh low w1 acts2 w2 os2 -> Forall (fun a => forall k, ~ thaws k a) acts2 ->
  shows rnd build (acts ++ AModel false :: acts2) s0 (os ++ o :: os2) w2 /\ params w2 = params w.
Proof. exact (fun H1 H2 H3 => all_frozen_claim rnd s0 build ish osh low net0 H1 H2 acts w os H3 acts2 w1 w2 os2 o). Qed.

(** ** C43: training a model that was not compiled panics, for every dense stack *)
Theorem C43_uncompiled M lids s : stack_of rnd (rc s0) build ish osh low net0 -> build s0 = (Ok (M, lids), s) ->
  (forall x y alpha mo, fst (TrainOne M x y alpha mo s) = Panic) /\
  (forall picks xs ys epochs batch alpha mo, length xs = length ys -> fst (Train picks M xs ys epochs batch alpha mo s) = Panic).
Proof. exact (fun H2 => uncompiled_claim rnd s0 build ish osh low net0 H2 M lids s). Qed.
End P.
Print Assumptions C31_dense.
Print Assumptions C32_history.
Print Assumptions C32_total.
Print Assumptions C32_predict.
Print Assumptions C32_on_demand.
Print Assumptions C33_kept.
Print Assumptions C33_twice.
Print Assumptions C34_predict.
Print Assumptions C34_train_one.
Print Assumptions C34_lengths.
Print Assumptions C34_train.
Print Assumptions C35_step.
Print Assumptions C36_momentum_ignored.
Print Assumptions C37_rate_zero.
Print Assumptions C38_frozen.
Print Assumptions C39_freeze_partial.
Print Assumptions C43_uncompiled.

(** ** Concrete cases: 32-bit integers, identity activation *)
Section Cases.
#[local] Existing Instance NumS32.
Definition ci (x : Z) : intw 32 := mk 32 eq_refl x.
Definition cact : activation (intw 32) := MkAct (fun x => x) (fun _ => ci 1).
Definition crnd (c k : nat) : intw 32 := ci (Z.of_nat (c + k + 1)).
Definition cs0 : lst (intw 32) := MkL (MkSt [] [] []) [] 0.
Definition cnet2 : list (slayer (intw 32)) := init_net crnd 0 2 (map spec3 [(2%N, cact); (1%N, cact)]).
Definition cnet1 : list (slayer (intw 32)) := init_net crnd 0 2 (map spec3 [(1%N, cact)]).
Definition cshow (os : list (option (list (intw 32)))) : list (option (list Z)) := map (option_map (map ival)) os.
Definition cparams (w : world (intw 32)) := map (fun l => (map (map ival) (sW l), map ival (sB l))) (w_net w).

Example C32_input_stack : stack_of crnd (rc cs0) (build_input [2%N] [(2%N, cact); (1%N, cact)]) [2%N] [1%N] true cnet2.
Proof.
  apply (so_input crnd 0 [2%N] [(2%N, cact); (1%N, cact)]); [split; [repeat constructor|reflexivity]|discriminate|].
  repeat split; repeat constructor.
Qed.
Example C32_dense_stack : stack_of crnd (rc cs0) (build_dense 2 (1%N, cact) []) [2%N] [1%N] false cnet1.
Proof. apply (so_dense crnd 0 2 (1%N, cact) []); [reflexivity|]. repeat split; repeat constructor. Qed.
Example C32_counts : counts_ok (T:=intw 32).
Proof. split; reflexivity. Qed.
Example C37_laws : zero_laws (T:=intw 32).
Proof. exact (zero_laws_int 32 eq_refl). Qed.

(** Predictions, training, refused calls, freezing one layer and all of them:
    the history exists, so the program shows these numbers. *)
Definition cscript : list (act (intw 32)) :=
  [ANew [2%N] [ci 3; ci 5]; ANew [1%N] [ci 7]; APredict 0; AGet 2; ATrainOne 0 1 (ci 1) (ci 0); APredict 0; AGet 3;
   APredict 1; ATrainOne 0 0 (ci 1) (ci 0); ATrain [0] [1] (fun _ _ => 4) 2 0 (ci 1) (ci 9); AGet 2; ATrain [0] [] (fun _ _ => 0) 1 1 (ci 1) (ci 0);
   ALayer 0 false; ATrainOne 0 1 (ci 1) (ci 0); AModel false; ATrainOne 0 1 (ci 0) (ci 0); AGet 0].
Example C32_case : exists w os, history [2%N] [1%N] true (W cnet2 []) cscript w os /\
  shows crnd (build_input [2%N] [(2%N, cact); (1%N, cact)]) cscript cs0 os w /\
  cshow os = [Some []; Some []; Some []; Some [286]; Some [279]; Some []; Some [770055352]; None; None; Some []; Some [286]; None;
              Some []; Some [920813568]; Some []; Some [552730624]; Some [3; 5]]%Z /\
  Forall (fun l => strain l = false) (w_net w) /\ Forall (fun l => sB l <> []) (w_net w).
Proof.
  destruct (hist_case [2%N] [1%N] true (fun w os => cshow os = [Some []; Some []; Some []; Some [286]; Some [279]; Some []; Some [770055352];
     None; None; Some []; Some [286]; None; Some []; Some [920813568]; Some []; Some [552730624]; Some [3; 5]]%Z /\
     map strain (w_net w) = [false; false] /\ map (fun l => length (sB l)) (w_net w) = [2; 1]) (W cnet2 []) cscript) as (w & os & Hh & H1 & H2 & H3).
  { vm_compute. auto. }
  exists w, os. split; [exact Hh|]. split; [exact (C32_history _ _ _ _ _ _ _ _ _ _ C32_counts C32_input_stack Hh)|]. split; [exact H1|].
  destruct (w_net w) as [|l1 [|l2 [|]]]; try discriminate. injection H2 as E1 E2. injection H3 as E3 E4. split; repeat constructor; try assumption.
  - intros E. rewrite E in E3. discriminate.
  - intros E. rewrite E in E4. discriminate.
Qed.
(** One step of a single layer: weights (2 3), bias 1, input (3 5): 22, target 7,
    error -15: weights (2-45 3-75), bias 1-15. *)
Example C35_case : exists w os, history [2%N] [1%N] false (W cnet1 [])
    [ANew [2%N] [ci 3; ci 5]; ANew [1%N] [ci 7]; ATrainOne 0 1 (ci 1) (ci 0)] w os /\
  cshow os = [Some []; Some []; Some [15]]%Z /\ cparams w = [([[-43; -72]], [-14])]%Z.
Proof. apply hist_case. vm_compute. auto. Qed.

(** C36: two steps that change the weights, with momentum 0 and with momentum 5:
    the same losses, the same weights. *)
Theorem C36_refuted : exists (build : LM (intw 32) (model (intw 32) * list nat)) pre step0 step5 w os,
  step0 = [ATrainOne 0 1 (ci 1) (ci 0); ATrainOne 0 1 (ci 1) (ci 0)] /\
  step5 = [ATrainOne 0 1 (ci 1) (ci 5); ATrainOne 0 1 (ci 1) (ci 5)] /\
  shows crnd build (pre ++ step0) cs0 os w /\ shows crnd build (pre ++ step5) cs0 os w /\
  cparams w <> cparams (W cnet1 []).
Proof.
  destruct (hist_case [2%N] [1%N] false (fun w os => cparams w = [([[1487; 2478]], [496])]%Z) (W cnet1 [])
    [ANew [2%N] [ci 3; ci 5]; ANew [1%N] [ci 7]; ATrainOne 0 1 (ci 1) (ci 0); ATrainOne 0 1 (ci 1) (ci 0)]) as (w & os & Hh & Hp).
  { vm_compute. reflexivity. }
  exists (build_dense 2 (1%N, cact) []), [ANew [2%N] [ci 3; ci 5]; ANew [1%N] [ci 7]],
    [ATrainOne 0 1 (ci 1) (ci 0); ATrainOne 0 1 (ci 1) (ci 0)], [ATrainOne 0 1 (ci 1) (ci 5); ATrainOne 0 1 (ci 1) (ci 5)], w, os.
  split; [reflexivity|]. split; [reflexivity|]. split; [exact (C32_history _ _ _ _ _ _ _ _ _ _ C32_counts C32_dense_stack Hh)|].
  split; [exact (C36_momentum_ignored _ _ _ _ _ _ _ _ _ _ (fun _ => ci 5) C32_counts C32_dense_stack Hh (zl_l C37_laws))|].
  rewrite Hp. vm_compute. discriminate.
Qed.
Print Assumptions C36_refuted.

(** C39: a model of one Dense layer: after SetTrainable(false) a training step
    still changes its weights. *)
Theorem C39_refuted : exists (build : LM (intw 32) (model (intw 32) * list nat)) pre w os w2 os2,
  shows crnd build (pre ++ [AModel false]) cs0 os w /\
  shows crnd build ((pre ++ [AModel false]) ++ [ATrainOne 0 1 (ci 1) (ci 0)]) cs0 os2 w2 /\ cparams w2 <> cparams w.
Proof.
  destruct (hist_case [2%N] [1%N] false (fun w os => cparams w = [([[2; 3]], [1])]%Z) (W cnet1 [])
    [ANew [2%N] [ci 3; ci 5]; ANew [1%N] [ci 7]; AModel false]) as (w & os & Hh & Hp); [vm_compute; reflexivity|].
  destruct (hist_case [2%N] [1%N] false (fun w os => cparams w = [([[-43; -72]], [-14])]%Z) (W cnet1 [])
    [ANew [2%N] [ci 3; ci 5]; ANew [1%N] [ci 7]; AModel false; ATrainOne 0 1 (ci 1) (ci 0)]) as (w2 & os2 & Hh2 & Hp2); [vm_compute; reflexivity|].
  exists (build_dense 2 (1%N, cact) []), [ANew [2%N] [ci 3; ci 5]; ANew [1%N] [ci 7]], w, os, w2, os2.
  split; [exact (C32_history _ _ _ _ _ _ _ _ _ _ C32_counts C32_dense_stack Hh)|].
  split; [exact (C32_history _ _ _ _ _ _ _ _ _ _ C32_counts C32_dense_stack Hh2)|]. rewrite Hp, Hp2. discriminate.
Qed.
Print Assumptions C39_refuted.

(** C43: a freshly built model. *)
Theorem C43_refuted : exists (build : LM (intw 32) (model (intw 32) * list nat)) M lids s, build cs0 = (Ok (M, lids), s) /\
  (forall x y alpha mo, fst (TrainOne M x y alpha mo s) = Panic) /\
  (forall picks xs ys epochs batch alpha mo, length xs = length ys -> fst (Train picks M xs ys epochs batch alpha mo s) = Panic).
Proof.
  destruct (build_claim crnd cs0 _ _ _ _ _ C32_counts C32_input_stack) as (M & lids & s & E).
  exists (build_input [2%N] [(2%N, cact); (1%N, cact)]), M, lids, s. split; [exact E|].
  exact (C43_uncompiled crnd cs0 _ _ _ _ _ _ _ _ C32_input_stack E).
Qed.
Print Assumptions C43_refuted.
End Cases.
