(** * P_Learn: which layers learn, and that they follow the gradient (claims C42, C68) *)
From Coq Require Import Reals Lra.
From Verif Require Import Base Num NumReal NumIntS ModelTools ModelOps ModelTensor ModelGraph ModelLayer ModelModel ModelAct Spec Denote ObjSpec ObjDec ReachSpec
  NetSpec NetScript NetRun6 NetRun7 NetLaws ActProofs GradSpec FitProofs GradMain.
From Coq Require Import Lia.
Open Scope nat_scope.

(** ** C42: Fit
    [behind ls id q]: [q] is reached from [id] over previous layers. [param ls q t
    t']: [t] is the weight or bias tensor of the trainable layer [q], [t'] the
    tensor with its new values. [leads]: there is any way from [q] to [id], also
    through a Concat layer. *)
Section Fit.
Context {T : Type} `{Num T} (s : lst T) (id : nat).
Theorem C42_previous_layers_partial k : fit_ready s id -> depth (lays s) id k ->
  exists s', with_fuel (fun n => LFit n id) s = (Ok tt, s') /\
    (forall q t t' u, behind (lays s) id q -> param (lays s) q t t' -> holds (ts s) t' u -> holds (ts s') t u) /\
    (forall p v, (forall q t t', behind (lays s) id q -> param (lays s) q t t' -> apart (ts s) t p) -> holds (ts s) p v -> holds (ts s') p v).
Proof. exact (fit_reaches s id k). Qed.
(** Whatever Fit returns, no other tensor changes. *)
Theorem C42_nothing_else r s' p v : with_fuel (fun n => LFit n id) s = (r, s') ->
  (forall q t t', behind (lays s) id q -> param (lays s) q t t' -> apart (ts s) t p) -> holds (ts s) p v -> holds (ts s') p v /\ lays s' = lays s.
Proof. exact (fit_keeps s id r s' p v). Qed.
End Fit.
Print Assumptions C42_previous_layers_partial.
Print Assumptions C42_nothing_else.

(** Two dense layers on one input, joined by Concat, and a dense layer on top:
    the lower two never learn, although they are trainable. *)
Section Fork.
#[local] Existing Instance NumS32.
Definition li (x : Z) : intw 32 := NumIntS.mk 32 eq_refl x.
Definition lact : activation (intw 32) := MkAct (fun x => x) (fun _ => li 1).
Definition lrnd (c k : nat) : intw 32 := li (Z.of_nat (c + k + 1)).
Definition ls0 : lst (intw 32) := MkL (MkSt [] [] []) [] 0.
Definition params_of (id : nat) : LM (intw 32) (list Z * list Z) :=
  l <~ getL id ; w <~ the (lten l FWeights) ; b <~ the (lten l FBias) ; wd <~ liftT (GetData w) ; bd <~ liftT (GetData b) ; mret (map ival wd, map ival bd).
Definition fork : LM (intw 32) (model (intw 32) * nat * nat) :=
  i <~ NewInput [2%N] ; d1 <~ NewDense 1 lact ; d2 <~ NewDense 1 lact ; Connect d1 (Some i) ;~ Connect d2 (Some i) ;~
  c <~ NewConcat (Some d1) (Some d2) 0 ; d3 <~ NewDense 1 lact ; Connect d3 (Some c) ;~
  m <~ Compile lrnd (FromInOut i d3) ;
  x <~ liftT (NewFromValues [li 3; li 5] [2%N]) ; y <~ liftT (NewFromValues [li 7] [1%N]) ; mret (m, x, y).
Definition fork_run : res (model (intw 32) * nat * nat) * lst (intw 32) := fork ls0.
Definition train_once (p : model (intw 32) * nat * nat) : LM (intw 32) (intw 32) := let '(m, x, y) := p in r <~ TrainOne m x y (li 1) (li 0) ; mret (fst r).
Definition whole : LM (intw 32) (option nat * list (list Z * list Z) * Z * list (list Z * list Z)) :=
  p <~ fork ; before <~ mmap [1; 2; 4] params_of ; v <~ train_once p ; after <~ mmap [1; 2; 4] params_of ; mret (m_last (fst (fst p)), before, ival v, after).
Theorem C42_refuted : leads (lays (snd fork_run)) 1 4 /\ leads (lays (snd fork_run)) 2 4 /\
  map (fun d => option_map (fun l => lflag l BTrainable) (lays (snd fork_run) !! d)) [1; 2; 4] = [Some true; Some true; Some true] /\
  fst (whole ls0) = Ok (Some 4%nat, [([2; 3], [1]); ([4; 5], [3]); ([6; 7], [5])], 410, [([2; 3], [1]); ([4; 5], [3]); ([-9014; -16393], [-405])])%Z.
Proof.
  assert (E3 : option_map (fun l => (lpre l, lkind_of l)) (lays (snd fork_run) !! 3) = Some (None, LConcat (Some 1) (Some 2) 0)) by (vm_compute; reflexivity).
  assert (E4 : option_map (fun l => (lpre l, lkind_of l)) (lays (snd fork_run) !! 4) = Some (Some 3, LDense)) by (vm_compute; reflexivity).
  split; [|split; [|split; vm_compute; reflexivity]]; revert E3 E4; generalize (lays (snd fork_run)); intros ls E3 E4;
    destruct (ls !! 3) as [l3|] eqn:L3; try discriminate E3; destruct (ls !! 4) as [l4|] eqn:L4; try discriminate E4; injection E3 as P3 K3; injection E4 as P4 K4;
    (apply (leads_step _ _ 3); [|exists l4; auto]).
  - apply (leads_step _ _ 1); [apply leads_same|]. exists l3. split; [exact L3|]. right. eexists _, _, _. split; [exact K3|]. auto.
  - apply (leads_step _ _ 2); [apply leads_same|]. exists l3. split; [exact L3|]. right. eexists _, _, _. split; [exact K3|]. auto.
Qed.
Print Assumptions C42_refuted.

(** A single dense layer, compiled for training: everything is ready for Fit. *)
Definition ready_run : res nat * lst (intw 32) :=
  (b <~ build_dense 2 (1%N, lact) [] ; m <~ Compile lrnd (fst b) ; CompileBackPropagation m ;~ mret 0) ls0.
Example C42_case : fit_ready (snd ready_run) 0 /\ depth (lays (snd ready_run)) 0 1 /\ exists t t', param (lays (snd ready_run)) 0 t t'.
Proof.
  assert (E : option_map (fun l => (lpre l, lflag l BTrainable, [lten l FWeights; lten l FNWeights; lten l FBias; lten l FNBias])) (lays (snd ready_run) !! 0) =
    Some (None, true, [Some 5; Some 10; Some 4; Some 12])) by (vm_compute; reflexivity).
  assert (H1 : forall t, t ∈ [5; 4] -> unshared (ts (snd ready_run)) t).
  { intros t Ht. apply unshared_check. repeat (apply elem_of_cons in Ht as [->|Ht]; [vm_compute; reflexivity|]). inversion Ht. }
  assert (H2 : forall t t', t ∈ [5; 4] -> t' ∈ [10; 12] -> apart (ts (snd ready_run)) t t').
  { intros t t' Ht Ht'. apply apart_check.
    repeat (apply elem_of_cons in Ht as [->|Ht]; [repeat (apply elem_of_cons in Ht' as [->|Ht']; [vm_compute; reflexivity|]); inversion Ht'|]). inversion Ht. }
  assert (H3 : apart (ts (snd ready_run)) 5 4) by (apply apart_check; vm_compute; reflexivity).
  assert (H3' : apart (ts (snd ready_run)) 4 5) by (apply apart_check; vm_compute; reflexivity).
  assert (H4 : exists v u, holds (ts (snd ready_run)) 5 v /\ holds (ts (snd ready_run)) 10 u /\ vsh v = vsh u) by (eexists _, _; split; [holds_tac|split; [holds_tac|reflexivity]]).
  assert (H5 : exists v u, holds (ts (snd ready_run)) 4 v /\ holds (ts (snd ready_run)) 12 u /\ vsh v = vsh u) by (eexists _, _; split; [holds_tac|split; [holds_tac|reflexivity]]).
  revert E H1 H2 H3 H3' H4 H5. generalize (snd ready_run). intros s E H1 H2 H3 H3' H4 H5.
  destruct (lays s !! 0) as [l|] eqn:L; [|discriminate E]. injection E as P F W1 W2 B1 B2.
  assert (Hb : forall q, behind (lays s) 0 q -> q = 0).
  { intros q Hq. inversion Hq as [|? l' ? ? Hl Hp]; [reflexivity|]. congruence. }
  assert (Hp : forall q t t', behind (lays s) 0 q -> param (lays s) q t t' -> (t = 5 /\ t' = 10) \/ (t = 4 /\ t' = 12)).
  { intros q t t' Hq (l' & Hl' & _ & Hx). rewrite (Hb _ Hq), L in Hl'. injection Hl' as <-. destruct Hx as [[X Y]|[X Y]]; [left|right]; split; congruence. }
  split; [|split].
  - split.
    + intros q Hq. rewrite (Hb _ Hq), L. eauto.
    + intros q l' Hq Hl' _. rewrite (Hb _ Hq), L in Hl'. injection Hl' as <-. rewrite B1, B2. split; discriminate.
    + intros q t t' Hq Ht. destruct (Hp _ _ _ Hq Ht) as [[-> ->]|[-> ->]]; (split; [apply H1; repeat constructor|assumption]).
    + intros q1 t1 t1' q2 t2 t2' Hq1 Hq2 Ht1 Ht2. destruct (Hp _ _ _ Hq1 Ht1) as [[-> ->]|[-> ->]]; destruct (Hp _ _ _ Hq2 Ht2) as [[-> ->]|[-> ->]]; apply H2; repeat constructor.
    + intros q1 t1 t1' q2 t2 t2' Hq1 Hq2 Ht1 Ht2. destruct (Hp _ _ _ Hq1 Ht1) as [[-> ->]|[-> ->]]; destruct (Hp _ _ _ Hq2 Ht2) as [[-> ->]|[-> ->]]; auto.
  - eapply depth_first; eassumption.
  - exists 5, 10. exists l. auto.
Qed.
End Fork.

(** ** C68: one training step changes every weight and bias of a trainable layer
    by minus alpha times the derivative of the error in that weight or bias, over
    the reals. [smooth]: no activation is used where its derivative is wrong.
    For a linear last layer the error is half the sum of squares, for a sigmoid
    one the cross entropy. *)
#[local] Existing Instance NumR.
Section Step.
Context (rnd : nat -> nat -> R) (s0 : lst R) (build : LM R (model R * list nat)) (ish osh : list N) (low : bool) (net0 : list (slayer R)).
Theorem C68_squares acts w os i j xs tgt alpha mo : stack_of rnd (rc s0) build ish osh low net0 -> history ish osh low (W net0 []) acts w os ->
  w_ten w !! i = Some (ish, xs) -> w_ten w !! j = Some (osh, tgt) -> Forall (fun l => sB l <> []) (w_net w) -> smooth (w_net w) xs ->
  (forall lz, last (w_net w) = Some lz -> forall x, sf lz x = Linear_Activate x) ->
  exists net', shows rnd build (acts ++ [ATrainOne i j alpha mo]) s0 (os ++ [Some [loss (w_net w) xs tgt]]) (W net' (w_ten w)) /\
    (forall k l, w_net w !! k = Some l -> strain l = true ->
      (forall a b v, weight_at (w_net w) k a b = Some v ->
        exists D, derivable_pt_lim (fun t => squares (forward (set_weight k a b t (w_net w)) xs) tgt) v D /\ weight_at net' k a b = Some (v - alpha * D)%R) /\
      (forall a v, bias_at (w_net w) k a = Some v ->
        exists D, derivable_pt_lim (fun t => squares (forward (set_bias k a t (w_net w)) xs) tgt) v D /\ bias_at net' k a = Some (v - alpha * D)%R)).
Proof. exact (fun HS HH Hi Hj Hb Hsm Hl => descent_claim rnd s0 build ish osh low net0 HS acts w os HH psi_sq i j xs tgt alpha mo Hi Hj Hb Hsm (fun lz E => linear_fits lz (Hl lz E))). Qed.
Theorem C68_cross_entropy acts w os i j xs tgt alpha mo : stack_of rnd (rc s0) build ish osh low net0 -> history ish osh low (W net0 []) acts w os ->
  w_ten w !! i = Some (ish, xs) -> w_ten w !! j = Some (osh, tgt) -> Forall (fun l => sB l <> []) (w_net w) -> smooth (w_net w) xs ->
  (forall lz, last (w_net w) = Some lz -> forall x, sf lz x = Sigmoid_Activate x) ->
  exists net', shows rnd build (acts ++ [ATrainOne i j alpha mo]) s0 (os ++ [Some [loss (w_net w) xs tgt]]) (W net' (w_ten w)) /\
    (forall k l, w_net w !! k = Some l -> strain l = true ->
      (forall a b v, weight_at (w_net w) k a b = Some v ->
        exists D, derivable_pt_lim (fun t => crossent (forward (set_weight k a b t (w_net w)) xs) tgt) v D /\ weight_at net' k a b = Some (v - alpha * D)%R) /\
      (forall a v, bias_at (w_net w) k a = Some v ->
        exists D, derivable_pt_lim (fun t => crossent (forward (set_bias k a t (w_net w)) xs) tgt) v D /\ bias_at net' k a = Some (v - alpha * D)%R)).
Proof. exact (fun HS HH Hi Hj Hb Hsm Hl => descent_claim rnd s0 build ish osh low net0 HS acts w os HH psi_ce i j xs tgt alpha mo Hi Hj Hb Hsm (fun lz E => sigmoid_fits lz (Hl lz E))). Qed.
End Step.
Print Assumptions C68_squares.
Print Assumptions C68_cross_entropy.

(** A sigmoid layer does not follow the gradient of the squares: weight 0, bias 0,
    input 1, target 1, alpha 1: the derivative is -1/8, but the weight becomes 1/2. *)
Definition rzero (c k : nat) : R := 0%R.
Definition rs0 : lst R := MkL (MkSt [] [] []) [] 0.
Definition sigm : activation R := MkAct Sigmoid_Activate Sigmoid_Derive.
Definition lin : activation R := MkAct Linear_Activate Linear_Derive.
Definition rbuild (acts : list (N * activation R)) : LM R (model R * list nat) := build_input [1%N] acts.
Definition one_pair : list (act R) := [ANew [1%N] [1%R]; ANew [1%N] [1%R]].
Definition rnet (acts : list (N * activation R)) : list (slayer R) := init_net rzero 0 1 (map spec3 acts).
Lemma one_hist net : history [1%N] [1%N] true (W net []) one_pair (W net [([1%N], [1%R]); ([1%N], [1%R])]) [Some []; Some []].
Proof.
  assert (F : fits [1%N]) by (split; [repeat constructor|reflexivity]).
  econstructor; [apply st_new; [exact F|reflexivity]|]. econstructor; [apply st_new; [exact F|reflexivity]|]. constructor.
Qed.
Lemma sig_zero : Sigmoid_Activate 0 = (1 / 2)%R.
Proof. unfold Sigmoid_Activate. rewrite Ropp_0, exp_0. lra. Qed.
Definition snet : list (slayer R) := [SL [[0%R]] [0%R] Sigmoid_Activate Sigmoid_Derive true].
Theorem C68_refuted : exists build net w os net' v D, stack_of rzero (rc rs0) build [1%N] [1%N] true net /\
  history [1%N] [1%N] true (W net []) one_pair w os /\
  shows rzero build (one_pair ++ [ATrainOne 0 1 1%R 0%R]) rs0 (os ++ [Some [loss net [1%R] [1%R]]]) (W net' (w_ten w)) /\
  weight_at net 0 0 0 = Some v /\ derivable_pt_lim (fun t => squares (forward (set_weight 0 0 0 t net) [1%R]) [1%R]) v D /\
  weight_at net' 0 0 0 <> Some (v - 1 * D)%R.
Proof.
  exists (rbuild [(1%N, sigm)]), snet, (W snet [([1%N], [1%R]); ([1%N], [1%R])]), [Some []; Some []],
    (learn 1%R 0%R snet [1%R] [1%R]), 0%R, (- (1 / 8))%R.
  assert (HS : stack_of rzero (rc rs0) (rbuild [(1%N, sigm)]) [1%N] [1%N] true snet).
  { apply (so_input rzero 0 [1%N] [(1%N, sigm)]); [split; [repeat constructor|reflexivity]|discriminate|]. repeat split; repeat constructor. }
  pose proof (one_hist snet) as HH.
  split; [exact HS|]. split; [exact HH|]. split.
  - apply (NetClaims.learn_claim rzero rs0 _ _ _ _ _ counts_R HS _ _ _ HH 0 1 [1%R] [1%R] 1%R 0%R); try reflexivity; [repeat constructor; discriminate|exact Rmult_0_l|exact Rplus_0_r].
  - split; [reflexivity|]. split.
    + assert (E : forall t, squares (forward (set_weight 0 0 0 t snet) [1%R]) [1%R] = psi_sq 1 (Sigmoid_Activate (t + 0))).
      { intros t. unfold squares, GradSpec.total, psi_sq. cbn. rewrite Rplus_0_r. replace (1 * t + 0)%R with (t + 0)%R by lra. reflexivity. }
      eapply GradProofs.lim_ext; [intros t; symmetry; apply E|].
      assert (Hs : derivable_pt_lim (fun t => Sigmoid_Activate (t + 0)) 0 (Sigmoid_Derive 0)).
      { apply (GradProofs.lim_ext Sigmoid_Activate); [intros t; rewrite Rplus_0_r; reflexivity|]. apply Sigmoid_der. }
      pose proof (linear_fits (SL [] [] (fun x => x) (fun x => x) true) (fun x => eq_refl) 1%R (Sigmoid_Activate (0 + 0))) as Hq. cbn in Hq.
      eapply GradProofs.lim_eq; [|exact (GradProofs.comp_lim (psi_sq 1) (fun t => Sigmoid_Activate (t + 0)) 0 _ _ Hs Hq)].
      unfold Sigmoid_Derive. rewrite Rplus_0_r, sig_zero. lra.
    + cbn. intros E. injection E as E. unfold new_weight, netas, neta, sum1, outs in E. cbn in E.
      replace (1 * 0 + 0)%R with 0%R in E by lra. rewrite sig_zero in E. lra.
Qed.
Print Assumptions C68_refuted.
(** A sigmoid layer under a linear one. *)
Example C68_case : let ls := [(2%N, sigm); (1%N, lin)] in
  stack_of rzero (rc rs0) (rbuild ls) [1%N] [1%N] true (rnet ls) /\ history [1%N] [1%N] true (W (rnet ls) []) one_pair (W (rnet ls) [([1%N], [1%R]); ([1%N], [1%R])]) [Some []; Some []] /\
  Forall (fun l => sB l <> []) (rnet ls) /\ smooth (rnet ls) [1%R] /\ (forall lz, last (rnet ls) = Some lz -> forall x, sf lz x = Linear_Activate x) /\
  weight_at (rnet ls) 0 1 0 = Some 0%R /\ bias_at (rnet ls) 1 0 = Some 0%R.
Proof.
  split; [|split; [apply one_hist|split; [|split; [|split; [|split; reflexivity]]]]].
  - apply (so_input rzero 0 [1%N] [(2%N, sigm); (1%N, lin)]); [split; [repeat constructor|reflexivity]|discriminate|]. repeat split; repeat constructor.
  - repeat constructor; discriminate.
  - split; [|split; [intros F; contradiction F; reflexivity|exact I]]. intros _. apply Forall_forall. intros n _. apply Sigmoid_der.
  - intros lz E. injection E as <-. reflexivity.
Qed.
