(** * NetClaims: the claims about models made of dense layers, put together *)
From Verif Require Import Base Num ModelTools ModelOps ModelTensor ModelGraph ModelLayer ModelModel
  Spec ObjSpec ExecProofs TensorFacts AccessProofs NetSpec NetBuild NetChain NetRun NetScript NetRun6 NetRun7 NetLaws.
From Coq Require Import Lia ZifyBool ZifyNat ZifyN.

Section Claims.
Context {T : Type} `{Num T}.
Context (rnd : nat -> nat -> T) (s0 : lst T) (build : LM T (model T * list nat)) (ish osh : list N) (low : bool) (net0 : list (slayer T)).
Context (HN : counts_ok (T:=T)) (HS : stack_of rnd (rc s0) build ish osh low net0).
Context (acts : list (act T)) (w : world T) (os : list (option (list T))) (HH : history ish osh low (W net0 []) acts w os).

Lemma more acts2 w2 os2 : history ish osh low w acts2 w2 os2 -> shows rnd build (acts ++ acts2) s0 (os ++ os2) w2.
Proof. intros H2. eapply program_ok; [exact HN|exact HS|]. eapply history_app; eassumption. Qed.

(** ** Prediction *)
Lemma predict_claim i xs : w_ten w !! i = Some (ish, xs) ->
  shows rnd build (acts ++ [APredict i; AGet (length (w_ten w))]) s0 (os ++ [Some []; Some (forward (w_net w) xs)])
    (W (w_net w) (w_ten w ++ [(osh, forward (w_net w) xs)])).
Proof.
  intros Hi. apply more. destruct w as [net st]. cbn [w_net w_ten] in *. econstructor; [apply st_predict; exact Hi|].
  econstructor; [|constructor]. eapply st_get. apply list_lookup_middle. reflexivity.
Qed.
Lemma forward_one (l : slayer T) xs n : sized n [l] -> forall k r b, sW l !! k = Some r -> sB l !! k = Some b ->
  forward [l] xs !! k = Some (sf l (sum1 (zip_with nmul xs r ++ [b]))).
Proof.
  intros _ k r b Hr Hb. cbn [forward]. unfold outs, netas. change (map (sf l)) with (fmap (M:=list) (sf l)). rewrite list_lookup_fmap, lookup_zip_with, Hr. cbn. rewrite Hb. reflexivity.
Qed.
Lemma dense_claim i xs l : w_net w = [l] -> w_ten w !! i = Some (ish, xs) ->
  (exists f d, acts_of net0 = [(f, d)] /\ sf l = f) /\
  exists ys, shows rnd build (acts ++ [APredict i; AGet (length (w_ten w))]) s0 (os ++ [Some []; Some ys]) (W [l] (w_ten w ++ [(osh, ys)])) /\
    length ys = length (sB l) /\ length (sW l) = length (sB l) /\ Forall (fun r => length r = length xs) (sW l) /\
    forall k r b, sW l !! k = Some r -> sB l !! k = Some b -> ys !! k = Some (sf l (sum1 (zip_with nmul xs r ++ [b]))).
Proof.
  intros El Hi. destruct (stack_good _ _ _ _ _ _ _ HS) as [Hg Hne]. destruct (history_good _ _ _ _ _ _ _ HH Hne Hg) as [Hg' _].
  pose proof (go_net _ _ _ Hg') as Hs. rewrite El in Hs. pose proof (good_at _ _ _ _ _ _ Hg' Hi) as Lx.
  split.
  - pose proof (history_acts _ _ _ _ _ _ _ HH) as Ea. cbn [w_net] in Ea. rewrite El in Ea. eexists _, _. split; [symmetry; exact Ea|reflexivity].
  - exists (forward [l] xs). pose proof (predict_claim i xs Hi) as P. rewrite El in P. split; [exact P|]. destruct Hs as (Hr & Hb & _).
    split; [cbn [forward]; apply outs_len; exact Hb|]. split; [symmetry; exact Hb|]. split; [rewrite Lx; exact Hr|].
    intros k r b. eapply forward_one. split; [exact Hr|split; [exact Hb|exact I]].
Qed.
(** Later actions do not change a prediction, the input, or the other tensors. *)
Lemma kept_claim i xs later w2 os2 : w_ten w !! i = Some (ish, xs) ->
  history ish osh low (W (w_net w) (w_ten w ++ [(osh, forward (w_net w) xs)])) later w2 os2 ->
  shows rnd build (acts ++ (APredict i :: later) ++ [AGet (length (w_ten w)); AGet i]) s0
    (os ++ (Some [] :: os2) ++ [Some (forward (w_net w) xs); Some xs]) w2.
Proof.
  intros Hi Hl. apply more. destruct (history_ten _ _ _ _ _ _ _ Hl) as [e Ee]. cbn [w_ten] in Ee.
  eapply history_app.
  - econstructor; [|exact Hl]. destruct w as [net st]. cbn [w_net w_ten] in *. apply st_predict. exact Hi.
  - destruct w2 as [net2 st2]. cbn [w_ten] in Ee. subst st2. econstructor; [eapply st_get; rewrite <- app_assoc; apply list_lookup_middle; reflexivity|].
    econstructor; [|constructor]. eapply st_get. apply lookup_app_l_Some, lookup_app_l_Some. exact Hi.
Qed.
Lemma twice_claim i xs : w_ten w !! i = Some (ish, xs) ->
  let y := forward (w_net w) xs in
  shows rnd build (acts ++ [APredict i; APredict i; AGet (length (w_ten w)); AGet (S (length (w_ten w)))]) s0
    (os ++ [Some []; Some []; Some y; Some y]) (W (w_net w) (w_ten w ++ [(osh, y); (osh, y)])).
Proof.
  intros Hi y. apply more. destruct w as [net st]. cbn [w_net w_ten] in *. econstructor; [apply st_predict; exact Hi|].
  econstructor; [apply st_predict; apply lookup_app_l_Some; exact Hi|]. fold y. rewrite <- app_assoc. cbn [app].
  econstructor; [eapply st_get; apply list_lookup_middle; reflexivity|].
  econstructor; [|constructor]. eapply st_get. rewrite lookup_app_r by lia. replace (S (length st) - length st) with 1 by lia. reflexivity.
Qed.

(** ** Refused calls *)
Lemma bad_predict_claim i sh xs : w_ten w !! i = Some (sh, xs) -> sh <> ish ->
  shows rnd build (acts ++ [APredict i]) s0 (os ++ [None]) w.
Proof. intros Hi Hne. apply more. destruct w. apply history_one. eapply st_predict_bad; eassumption. Qed.
Lemma bad_train_claim i j sh xs sh' tgt alpha mo : w_ten w !! i = Some (sh, xs) -> w_ten w !! j = Some (sh', tgt) ->
  sh <> ish \/ sh' <> osh -> Forall (fun l => sB l <> []) (w_net w) ->
  shows rnd build (acts ++ [ATrainOne i j alpha mo]) s0 (os ++ [None]) w.
Proof. intros Hi Hj Hne Hb. apply more. destruct w. apply history_one. eapply st_train1_bad; eassumption. Qed.
Lemma bad_lengths_claim is js picks epochs batch alpha mo : Forall (fun i => i < length (w_ten w)) is -> Forall (fun j => j < length (w_ten w)) js ->
  length is <> length js -> shows rnd build (acts ++ [ATrain is js picks epochs batch alpha mo]) s0 (os ++ [None]) w.
Proof. intros Hi Hj Hne. apply more. destruct w. apply history_one. eapply st_train_bad; eassumption. Qed.
(** Train stops at the first unsuitable pair it picks; what it learned before stays. *)
Lemma train_claim is js pairs picks epochs batch alpha mo :
  Forall2 (fun i p => w_ten w !! i = Some (fst p)) is pairs -> Forall2 (fun j p => w_ten w !! j = Some (snd p)) js pairs ->
  pairs <> [] -> Forall (fun l => sB l <> []) (w_net w) ->
  let r := learn_picks ish osh alpha (nmul nzero mo) pairs (picked picks (length pairs) epochs (if batch =? 0 then length pairs else batch)) (w_net w) in
  shows rnd build (acts ++ [ATrain is js picks epochs batch alpha mo]) s0 (os ++ [if snd r then Some [] else None]) (W (fst r) (w_ten w)).
Proof.
  intros Hi Hj Hne Hb r. apply more. unfold r. clear r. destruct w as [net st]. apply history_one. cbn [w_net w_ten] in *.
  destruct (learn_picks _ _ _ _ _ _ _) as [net' ok] eqn:E. eapply st_train; eassumption.
Qed.

(** ** One training step *)
Lemma learn_claim i j xs tgt alpha mo : w_ten w !! i = Some (ish, xs) -> w_ten w !! j = Some (osh, tgt) ->
  Forall (fun l => sB l <> []) (w_net w) -> (forall x : T, nmul nzero x = nzero) -> (forall x : T, nadd x nzero = x) ->
  shows rnd build (acts ++ [ATrainOne i j alpha mo]) s0 (os ++ [Some [sum1 (map absv (zip_with nsub tgt (forward (w_net w) xs)))]])
    (W (learn alpha nzero (w_net w) xs tgt) (w_ten w)) /\
  forall k l, w_net w !! k = Some l -> strain l = true ->
    let x := forward (take k (w_net w)) xs in
    let dif := err (drop k (w_net w)) x tgt in
    exists l', learn alpha nzero (w_net w) xs tgt !! k = Some l' /\ length dif = length (sB l) /\
      length (sB l') = length (sB l) /\ length (sW l') = length (sW l) /\
      (forall a d b, dif !! a = Some d -> sB l !! a = Some b -> sB l' !! a = Some (nadd b (nmul d alpha))) /\
      (forall a d r b v, dif !! a = Some d -> sW l !! a = Some r -> r !! b = Some v ->
         exists r' xb, sW l' !! a = Some r' /\ length r' = length r /\ x !! b = Some xb /\ r' !! b = Some (nadd v (nmul (nmul d alpha) xb))).
Proof.
  intros Hi Hj Hb Z A. split.
  - apply more. destruct w as [net st]. cbn [w_net w_ten] in *. apply history_one. rewrite <- (Z mo). eapply (st_train1 ish osh low net st); assumption.
  - intros k l Hk Ht x dif. rewrite (learn_at _ _ _ _ _ _ _ Hk). fold x. fold dif. eexists. split; [reflexivity|].
    destruct (stack_good _ _ _ _ _ _ _ HS) as [Hg Hne]. destruct (history_good _ _ _ _ _ _ _ HH Hne Hg) as [Hg' Hne'].
    pose proof (good_at _ _ _ _ _ _ Hg' Hi) as Lx. pose proof (good_at _ _ _ _ _ _ Hg' Hj) as Ly.
    assert (HD : sized (length x) (drop k (w_net w)) /\ length tgt = units 0 (drop k (w_net w))).
    { destruct Hg' as [G1 G2 _]. rewrite <- Lx in G1. rewrite <- Ly in G2. rewrite (units_any _ 0 _ Hne') in G2. symmetry in G2.
      unfold x. clear - G1 G2 Hk. revert k xs G1 G2 Hk. induction (w_net w) as [|l0 net IH]; intros [|k] xs G1 G2 Hk; try discriminate; [auto|].
      cbn [take drop forward]. destruct G1 as (_ & E & G1). apply IH; [rewrite outs_len, E by exact E; exact G1| |exact Hk].
      rewrite units_cons in G2. rewrite G2. apply units_any. intros ->. discriminate. }
    rewrite (drop_S _ _ _ Hk) in HD. destruct HD as [HD Hu]. pose proof (err_len _ _ _ _ HD Hu) as He. rewrite <- (drop_S _ _ _ Hk) in He. fold dif in He.
    destruct HD as (Hr & E & _). unfold adjust. rewrite Ht. cbn [sB sW]. rewrite !zip_with_length, He, <- E, Nat.min_id.
    split; [reflexivity|]. split; [reflexivity|]. split; [reflexivity|]. split.
    + intros a d b Hd Hb'. rewrite lookup_zip_with, Hb'. cbn. rewrite Hd. cbn. unfold new_bias. rewrite A. reflexivity.
    + intros a d r b v Hd Hr' Hv. rewrite lookup_zip_with, Hr'. cbn. rewrite Hd. cbn. rewrite Forall_lookup in Hr. pose proof (Hr _ _ Hr') as Lr.
      destruct (lookup_lt_is_Some_2 x b) as [xb Hxb]; [rewrite <- Lr; eapply lookup_lt_Some; exact Hv|].
      eexists _, xb. split; [reflexivity|]. split; [rewrite zip_with_length, Lr; apply Nat.min_id|]. split; [exact Hxb|].
      rewrite lookup_zip_with, Hv. cbn. rewrite Hxb. cbn. unfold new_weight. rewrite A. reflexivity.
Qed.

(** ** Momentum, learning rate zero, frozen layers *)
Lemma momentum_claim f : (forall x : T, nmul nzero x = nzero) -> shows rnd build (map (with_momentum f) acts) s0 os w.
Proof. intros Z. eapply program_ok; [exact HN|exact HS|]. apply history_momentum; assumption. Qed.
Lemma rate0_claim acts2 w2 os2 : zero_laws (T:=T) -> history ish osh low w acts2 w2 os2 -> Forall rate0 acts2 ->
  shows rnd build (acts ++ acts2) s0 (os ++ os2) w2 /\ params w2 = params w.
Proof.
  intros Z H2 Ha. split; [apply more; exact H2|].
  destruct (stack_good _ _ _ _ _ _ _ HS) as [Hg Hne]. destruct (history_good _ _ _ _ _ _ _ HH Hne Hg) as [Hg' Hne'].
  eapply history_rate0; eassumption.
Qed.
Lemma frozen_claim k l acts2 w2 os2 : w_net w !! k = Some l -> strain l = false -> history ish osh low w acts2 w2 os2 ->
  Forall (fun a => ~ thaws k a) acts2 -> shows rnd build (acts ++ acts2) s0 (os ++ os2) w2 /\ w_net w2 !! k = Some l.
Proof. intros Hk Hf H2 Ha. split; [apply more; exact H2|]. eapply history_frozen; eassumption. Qed.
Lemma all_frozen_claim acts2 w1 w2 os2 o : low = true -> step ish osh low w (AModel false) w1 o -> history ish osh low w1 acts2 w2 os2 ->
  Forall (fun a => forall k, ~ thaws k a) acts2 ->
  shows rnd build (acts ++ AModel false :: acts2) s0 (os ++ o :: os2) w2 /\ params w2 = params w.
Proof.
  intros Hl Hs H2 Ha. split; [apply more; econstructor; eassumption|].
  assert (E1 : params w1 = params w) by (inversion Hs; subst; apply (model_params true false)).
  rewrite <- E1. assert (Hfr : Forall (fun l => strain l = false) (w_net w1)) by (inversion Hs; subst; apply (model_frozen true); reflexivity).
  enough (w_net w2 = w_net w1) as E by (unfold params; rewrite E; reflexivity).
  assert (Ll : length (w_net w2) = length (w_net w1)).
  { pose proof (history_acts _ _ _ _ _ _ _ H2) as E. apply (f_equal length) in E. unfold acts_of in E. rewrite !map_length in E. exact E. }
  apply list_eq. intros k. destruct (w_net w1 !! k) as [l|] eqn:Ek.
  - eapply history_frozen; [exact H2|exact Ek| |].
    + rewrite Forall_lookup in Hfr. exact (Hfr _ _ Ek).
    + eapply Forall_impl; [exact Ha|]. cbv beta. intros a Ht. apply Ht.
  - apply lookup_ge_None in Ek. apply lookup_ge_None. lia.
Qed.

(** ** Training before Compile *)
Lemma uncompiled_claim M lids s : build s0 = (Ok (M, lids), s) ->
  (forall x y alpha mo, fst (TrainOne M x y alpha mo s) = Panic) /\
  (forall picks xs ys epochs batch alpha mo, length xs = length ys -> fst (Train picks M xs ys epochs batch alpha mo s) = Panic).
Proof.
  intros E. destruct (train_uncompiled _ _ (build_fresh _ _ _ _ _ _ _ _ _ _ HS E)) as [H1 H2]. cbn [fst] in *. split; intros.
  - rewrite H1. reflexivity.
  - rewrite H2 by assumption. reflexivity.
Qed.
Lemma build_claim : exists M lids s, build s0 = (Ok (M, lids), s).
Proof.
  destruct (program_ok rnd s0 build ish osh low net0 [] _ _ HN HS (hi_nil _ _ _ _)) as (s & lids & M & tids & E & _).
  unfold program in E. apply mbnd_inv in E as ([M0 l0] & s1 & E & _). eauto.
Qed.
End Claims.
