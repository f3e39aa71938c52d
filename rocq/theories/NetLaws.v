(** * NetLaws: consequences of the description of histories on dense stacks *)
From Verif Require Import Base Num ModelTools ModelOps ModelTensor ModelGraph ModelLayer ModelModel
  Spec ObjSpec IndexProofs ExecProofs TensorFacts AccessProofs NetSpec NetBuild NetChain NetRun NetScript NetRun6 NetRun7.
From Verif Require Import NumIntS NumQ.
From Coq Require Import ZArith Qcanon.
Close Scope Qc_scope. Close Scope Q_scope. Close Scope Z_scope.
Open Scope nat_scope.
From Coq Require Import Lia ZifyBool ZifyNat ZifyN.

(** ** The programs the theorems speak of: a stack of dense layers, with or
    without an Input layer, its shapes, whether the model's SetTrainable reaches
    the lowest dense layer, and its first parameters. *)
Section Stacks.
Context {T : Type} `{Num T}.
Inductive stack_of (rnd : nat -> nat -> T) (c : nat) :
    LM T (model T * list nat) -> list N -> list N -> bool -> list (slayer T) -> Prop :=
| so_input ish ls : fits ish -> ls <> [] -> net_sizes (prodN ish) (map fst ls) ->
    stack_of rnd c (build_input ish ls) ish [out_width 0 ls] true (init_net rnd c (N.to_nat (prodN ish)) (map spec3 ls))
| so_dense n l ls : (n < W64)%N -> net_sizes n (map fst (l :: ls)) ->
    stack_of rnd c (build_dense n l ls) [n] [out_width 0 (l :: ls)] false (init_net rnd c (N.to_nat n) (map spec3 (l :: ls))).

(** The program ran, showed [os], and the layers and tensors are those of [w]. *)
Definition shows (rnd : nat -> nat -> T) build acts (s0 : lst T) (os : list (option (list T))) (w : world T) : Prop :=
  exists s lids M tids, program rnd build acts s0 = (Ok (lids, (M, tids, os)), s) /\ holds_world s lids tids w.

(** [1] is not [0] and not above itself: what the reference counts need. *)
Definition counts_ok : Prop := neqb (nadd nzero none) nzero = false /\ nltb none (nadd nzero none) = false.

Lemma program_ok rnd (s0 : lst T) build ish osh low net acts w os : counts_ok -> stack_of rnd (rc s0) build ish osh low net ->
  history ish osh low (W net []) acts w os -> shows rnd build acts s0 os w.
Proof.
  intros [H0 H1] Hst Hh. destruct Hst; [apply (input_program rnd H0 H1)|apply (dense_program rnd H0 H1)]; assumption.
Qed.
End Stacks.

Section Laws.
Context {T : Type} `{Num T}.
Context (ish osh : list N) (low : bool).
Notation history := (history ish osh low).
Notation step := (step ish osh low).

Lemma history_app (w : world T) a1 w1 o1 a2 w2 o2 : history w a1 w1 o1 -> history w1 a2 w2 o2 -> history w (a1 ++ a2) w2 (o1 ++ o2).
Proof. induction 1; intros H2; cbn; [exact H2|]. econstructor; eauto. Qed.
Lemma history_one (w : world T) a w1 o : step w a w1 o -> history w [a] w1 [o].
Proof. intros Hs. econstructor; [exact Hs|constructor]. Qed.

(** ** Tensors of the user never change *)
Lemma step_ten (w : world T) a w1 o : step w a w1 o -> exists e, w_ten w1 = w_ten w ++ e.
Proof. inversion 1; cbn; eexists; try reflexivity; symmetry; apply app_nil_r. Qed.
Lemma history_ten (w : world T) acts w1 os : history w acts w1 os -> exists e, w_ten w1 = w_ten w ++ e.
Proof.
  induction 1 as [w|w a w1 o acts w2 os Hs _ [e IH]]; [exists []; symmetry; apply app_nil_r|].
  destruct (step_ten _ _ _ _ Hs) as [e1 E]. exists (e1 ++ e). rewrite IH, E. symmetry. apply app_assoc.
Qed.

(** ** One step of learning, layer by layer *)
Lemma learn_at alpha rest : forall (net : list (slayer T)) k l xs tgt, net !! k = Some l ->
  learn alpha rest net xs tgt !! k =
    Some (adjust alpha rest l (forward (take k net) xs) (err (drop k net) (forward (take k net) xs) tgt)).
Proof.
  induction net as [|l0 net IH]; intros [|k] l xs tgt Hk; try discriminate.
  - injection Hk as ->. reflexivity.
  - cbn [learn lookup list_lookup take drop forward]. apply IH. exact Hk.
Qed.
Lemma learn_length alpha rest : forall (net : list (slayer T)) xs tgt, length (learn alpha rest net xs tgt) = length net.
Proof. induction net; intros; cbn; auto. Qed.
Lemma learn_picks_ind (Q : list (slayer T) -> Prop) alpha rest (pairs : list ((list N * list T) * (list N * list T))) :
  (forall net x y, Q net -> (x, y) ∈ pairs -> fst x = ish -> fst y = osh -> Q (learn alpha rest net (snd x) (snd y))) ->
  forall ks net, Q net -> Q (fst (learn_picks ish osh alpha rest pairs ks net)).
Proof.
  intros Hl. induction ks as [|k ks IH]; intros net Hq; cbn [learn_picks]; [exact Hq|].
  destruct (pairs !! k) as [[x y]|] eqn:Ek; [|exact Hq].
  destruct (bool_decide (fst x = ish)) eqn:E1; [|exact Hq]. destruct (bool_decide (fst y = osh)) eqn:E2; [|exact Hq].
  cbn [andb]. apply IH. apply Hl; [exact Hq| | |].
  - eapply elem_of_list_lookup_2. exact Ek.
  - apply bool_decide_eq_true in E1. exact E1.
  - apply bool_decide_eq_true in E2. exact E2.
Qed.

(** ** Frozen layers *)
Definition thaws (k : nat) (a : act T) : Prop :=
  match a with ALayer k' true => k' = k | AModel true => True | _ => False end.
Lemma adjust_frozen alpha rest (l : slayer T) xs dif : strain l = false -> adjust alpha rest l xs dif = l.
Proof. unfold adjust. intros ->. reflexivity. Qed.
Lemma set_false (l : slayer T) : strain l = false -> set_strain false l = l.
Proof. destruct l. cbn. intros ->. reflexivity. Qed.
Lemma step_frozen k l (w : world T) a w1 o : step w a w1 o -> w_net w !! k = Some l -> strain l = false -> ~ thaws k a ->
  w_net w1 !! k = Some l.
Proof.
  intros Hs Hk Hf Hth.
  assert (HL : forall alpha rest net xs tgt, net !! k = Some l -> learn alpha rest net xs tgt !! k = Some l).
  { intros alpha rest net xs tgt Hn. rewrite (learn_at _ _ _ _ _ _ _ Hn), adjust_frozen by exact Hf. reflexivity. }
  destruct Hs; cbn [w_net] in *; try exact Hk.
  - apply HL. exact Hk.
  - replace net' with (fst (net', ok)) by reflexivity.
    match goal with E : learn_picks _ _ _ _ _ _ _ = _ |- _ => rewrite <- E end.
    apply (learn_picks_ind (fun n => n !! k = Some l)); [|exact Hk]. intros n x y Hn _ _ _. apply HL. exact Hn.
  - destruct (decide (k0 = k)) as [->|Hne].
    + destruct b; [cbn in Hth; contradiction Hth; reflexivity|]. rewrite list_lookup_alter, Hk. cbn. rewrite set_false by exact Hf. reflexivity.
    + rewrite list_lookup_alter_ne by exact Hne. exact Hk.
  - destruct b; [cbn in Hth; contradiction Hth; exact I|]. destruct net as [|l0 net]; [exact Hk|]. destruct k as [|k]; cbn in Hk |- *.
    + injection Hk as ->. destruct low; [rewrite set_false by exact Hf|]; reflexivity.
    + change ((set_strain false <$> net) !! k = Some l). rewrite list_lookup_fmap. change (net !! k = Some l) in Hk. rewrite Hk. cbn. rewrite set_false by exact Hf. reflexivity.
Qed.
Lemma history_frozen k l (w : world T) acts w1 os : history w acts w1 os -> w_net w !! k = Some l -> strain l = false ->
  Forall (fun a => ~ thaws k a) acts -> w_net w1 !! k = Some l.
Proof.
  induction 1 as [w|w a w1 o acts w2 os Hs _ IH]; intros Hk Hf Ha; [exact Hk|]. apply Forall_cons in Ha as [H1 H2].
  apply IH; [|exact Hf|exact H2]. eapply step_frozen; eassumption.
Qed.

(** ** Sizes *)
Lemma netas_len (l : slayer T) xs : length (sB l) = length (sW l) -> length (netas l xs) = length (sB l).
Proof. intros E. unfold netas. rewrite zip_with_length, E. apply Nat.min_id. Qed.
Lemma outs_len (l : slayer T) xs : length (sB l) = length (sW l) -> length (outs l xs) = length (sB l).
Proof. intros E. unfold outs. rewrite map_length. apply netas_len. exact E. Qed.
Definition units (d : nat) (net : list (slayer T)) : nat := List.last (map (fun l => length (sB l)) net) d.
Lemma units_cons d l (net : list (slayer T)) : units d (l :: net) = units (length (sB l)) net.
Proof. unfold units. cbn [map]. apply last_from. Qed.
Lemma err_len l (net : list (slayer T)) : forall xs tgt, sized (length xs) (l :: net) -> length tgt = units 0 (l :: net) ->
  length (err (l :: net) xs tgt) = length (sB l).
Proof.
  intros xs tgt (_ & E & _) Ht. cbn [err]. destruct net as [|l' net].
  - rewrite zip_with_length, outs_len by exact E. rewrite Ht, units_cons. apply Nat.min_id.
  - unfold hidden_dif, back. rewrite zip_with_length, map_length, seq_length, outs_len, netas_len by exact E. apply Nat.min_id.
Qed.
Lemma zip_id {A B} (f : A -> B -> A) : (forall a b, f a b = a) -> forall l k, length l = length k -> zip_with f l k = l.
Proof. intros Hf. induction l as [|a l IH]; intros [|b k] Hl; try discriminate; cbn; [reflexivity|]. rewrite Hf, IH; [reflexivity|]. injection Hl as ->. reflexivity. Qed.
Lemma learn_keeps alpha rest : forall (net : list (slayer T)) xs tgt d, sized (length xs) net -> length tgt = units d net ->
  sized (length xs) (learn alpha rest net xs tgt) /\ units d (learn alpha rest net xs tgt) = units d net.
Proof.
  induction net as [|l net IH]; intros xs tgt d Hs Ht; [split; [exact I|reflexivity]|].
  assert (He : length (err (l :: net) xs tgt) = length (sB l)) by (apply err_len; [exact Hs|rewrite units_cons in *; exact Ht]).
  destruct Hs as (Hr & E & Hs). rewrite units_cons in Ht.
  assert (Ho : length (outs l xs) = length (sW l)) by (rewrite outs_len by exact E; exact E).
  rewrite <- Ho in Hs. destruct (IH _ tgt (length (sB l)) Hs Ht) as [IH1 IH2]. rewrite Ho in *.
  cbn [learn]. cbn [sized]. rewrite !units_cons.
  assert (Hl : length (sW (adjust alpha rest l xs (err (l :: net) xs tgt))) = length (sW l) /\
    length (sB (adjust alpha rest l xs (err (l :: net) xs tgt))) = length (sB l) /\
    Forall (fun w => length w = length xs) (sW (adjust alpha rest l xs (err (l :: net) xs tgt)))).
  { unfold adjust. destruct (strain l); [|auto]. cbn [sW sB]. rewrite !zip_with_length, He, E, !Nat.min_id.
    split; [reflexivity|]. split; [reflexivity|]. apply Forall_forall. intros w Hw. apply elem_of_list_lookup in Hw as [i Hi].
    rewrite lookup_zip_with in Hi. apply bind_Some in Hi as (w0 & Ew & Hi). apply bind_Some in Hi as (d0 & _ & Hi). injection Hi as <-.
    rewrite Forall_lookup in Hr. rewrite zip_with_length, (Hr _ _ Ew). apply Nat.min_id. }
  destruct Hl as (L1 & L2 & L3). rewrite L1, L2. repeat split; try assumption.
Qed.

(** A world whose sizes fit: what every program has. *)
Record good (w : world T) : Prop := {
  go_net : sized (N.to_nat (prodN ish)) (w_net w);
  go_out : units (N.to_nat (prodN osh)) (w_net w) = N.to_nat (prodN osh);
  go_ten : Forall (fun e => length (snd e) = N.to_nat (prodN (fst e))) (w_ten w);
}.
Lemma sized_flags (f : slayer T -> slayer T) : (forall l, sW (f l) = sW l /\ sB (f l) = sB l) -> forall net, 
  (forall n, sized n net -> sized n (map f net)) /\ forall d, units d (map f net) = units d net.
Proof.
  intros Hf. induction net as [|l net [IH1 IH2]]; [split; auto|]. destruct (Hf l) as [E1 E2]. split.
  - intros n. cbn. rewrite E1, E2. intros (? & ? & ?). auto.
  - intros d. cbn [map]. rewrite !units_cons, E2. apply IH2.
Qed.
Lemma params_sized : forall (net net' : list (slayer T)), map (fun l => (sW l, sB l)) net' = map (fun l => (sW l, sB l)) net ->
  (forall n, sized n net -> sized n net') /\ forall d, units d net' = units d net.
Proof.
  induction net as [|l net IH]; intros [|l' net'] E; try discriminate; [split; auto|]. injection E as E1 E2 E3.
  destruct (IH _ E3) as [I1 I2]. split.
  - intros n. cbn. rewrite E1, E2. intros (? & ? & ?). auto.
  - intros d. rewrite !units_cons, E2. apply I2.
Qed.
Definition params (w : world T) : list (list (list T) * list T) := map (fun l => (sW l, sB l)) (w_net w).
Lemma alter_params b k : forall net : list (slayer T), map (fun l => (sW l, sB l)) (alter (set_strain b) k net) = map (fun l => (sW l, sB l)) net.
Proof. revert k. intros k net. revert k. induction net as [|l net IH]; intros [|k]; cbn; [reflexivity..|]. f_equal. apply IH. Qed.
Lemma model_params b : forall net : list (slayer T), map (fun l => (sW l, sB l))
  (match net with [] => [] | l :: net' => (if low then set_strain b l else l) :: map (set_strain b) net' end) = map (fun l => (sW l, sB l)) net.
Proof. intros [|l net]; [reflexivity|]. cbn. f_equal; [destruct low; reflexivity|]. rewrite map_map. apply map_ext. reflexivity. Qed.

Lemma good_params (w : world T) net : good w -> map (fun l => (sW l, sB l)) net = map (fun l => (sW l, sB l)) (w_net w) -> good (W net (w_ten w)).
Proof. intros [] E. destruct (params_sized _ _ E) as [H1 H2]. split; cbn [w_net w_ten]; [apply H1; assumption|rewrite H2; assumption|assumption]. Qed.
Lemma forward_len : forall (net : list (slayer T)) xs, sized (length xs) net -> length (forward net xs) = units (length xs) net.
Proof.
  induction net as [|l net IH]; intros xs Hs; [reflexivity|]. destruct Hs as (_ & E & Hs).
  assert (Ho : length (outs l xs) = length (sB l)) by (apply outs_len; exact E).
  cbn [forward]. rewrite units_cons, IH; rewrite Ho; [reflexivity|]. rewrite E. exact Hs.
Qed.
Lemma units_any d d' (net : list (slayer T)) : net <> [] -> units d net = units d' net.
Proof. destruct net; [contradiction|]. intros _. rewrite !units_cons. reflexivity. Qed.

Lemma learn_good alpha rest (net : list (slayer T)) (st : list (list N * list T)) xs tgt : good (W net st) ->
  length xs = N.to_nat (prodN ish) -> length tgt = N.to_nat (prodN osh) -> good (W (learn alpha rest net xs tgt) st).
Proof.
  intros [Hn Ho Ht] Hx Hy. cbn [w_net w_ten] in *.
  destruct (learn_keeps alpha rest net xs tgt (N.to_nat (prodN osh))) as [H1 H2]; [rewrite Hx; exact Hn|congruence|].
  split; cbn [w_net w_ten]; [rewrite <- Hx; exact H1|congruence|exact Ht].
Qed.
Lemma good_at (w : world T) i sh vs : good w -> w_ten w !! i = Some (sh, vs) -> length vs = N.to_nat (prodN sh).
Proof. intros [_ _ Ht] Hi. rewrite Forall_lookup in Ht. exact (Ht _ _ Hi). Qed.
Lemma pairs_at {X} (w : world T) (g : X -> list N * list T) is pairs p : good w ->
  Forall2 (fun i p => w_ten w !! i = Some (g p)) is pairs -> p ∈ pairs -> length (snd (g p)) = N.to_nat (prodN (fst (g p))).
Proof.
  intros Hg Hf Hp. apply elem_of_list_lookup in Hp as [k Hk]. destruct (Forall2_lookup_r _ _ _ _ _ Hf Hk) as (i & _ & Hi).
  destruct (g p) eqn:E. eapply good_at; eassumption.
Qed.
Lemma step_good (w : world T) a w1 o : w_net w <> [] -> good w -> step w a w1 o -> good w1 /\ w_net w1 <> [].
Proof.
  intros Hne Hg Hs. destruct Hs; cbn [w_net w_ten] in *; try (split; assumption).
  - split; [|exact Hne]. destruct Hg as [G1 G2 G3]. split; cbn [w_net w_ten] in *; try assumption. apply Forall_app. split; [exact G3|]. constructor; [assumption|constructor].
  - split; [|exact Hne]. pose proof Hg as [G1 G2 G3]. cbn [w_net w_ten] in *. split; cbn [w_net w_ten]; try assumption. apply Forall_app. split; [exact G3|]. constructor; [|constructor]. cbn [fst snd].
    assert (Hx : length xs = N.to_nat (prodN ish)) by (apply (good_at _ _ _ _ Hg H0)).
    rewrite (forward_len net xs) by (rewrite Hx; exact G1). rewrite <- G2. apply units_any. exact Hne.
  - split; [apply learn_good; [exact Hg| |]; eapply (good_at _ _ _ _ Hg); eassumption|].
    intros E. apply (f_equal length) in E. rewrite learn_length in E. destruct net; [contradiction|discriminate].
  - replace net' with (fst (net', ok)) by reflexivity.
    match goal with E : learn_picks _ _ _ _ _ _ _ = _ |- _ => rewrite <- E end.
    apply (learn_picks_ind (fun n => good (W n st) /\ n <> [])); [|split; assumption].
    intros n x y [Hn Hn'] Hin Ex Ey. split.
    + apply learn_good; [exact Hn| |].
      * rewrite <- Ex. exact (pairs_at (W net st) fst _ _ _ Hg H0 Hin).
      * rewrite <- Ey. exact (pairs_at (W net st) snd _ _ _ Hg H1 Hin).
    + intros E. apply (f_equal length) in E. rewrite learn_length in E. destruct n; [contradiction|discriminate].
  - split; [apply (good_params (W net st)); [exact Hg|apply alter_params]|].
    intros E. apply (f_equal length) in E. rewrite alter_length in E. destruct net; [contradiction|discriminate].
  - split; [apply (good_params (W net st)); [exact Hg|apply model_params]|]. destruct net; [contradiction|discriminate].
Qed.

(** ** Learning rate zero *)
Definition rate0 (a : act T) : Prop :=
  match a with ATrainOne _ _ alpha _ | ATrain _ _ _ _ _ alpha _ => alpha = nzero | _ => True end.
Record zero_laws : Prop := {
  zl_l : forall x : T, nmul nzero x = nzero;
  zl_r : forall x : T, nmul x nzero = nzero;
  zl_a : forall x : T, nadd x nzero = x;
}.
Lemma learn_rate0 mo : zero_laws -> forall (net : list (slayer T)) xs tgt d, sized (length xs) net -> length tgt = units d net ->
  learn nzero (nmul nzero mo) net xs tgt = net.
Proof.
  intros Z. assert (Hw : forall d w x, new_weight nzero (nmul nzero mo) d w x = w).
  { intros. unfold new_weight. rewrite (zl_l Z), (zl_r Z), (zl_l Z), !(zl_a Z). reflexivity. }
  assert (Hb : forall d b, new_bias nzero (nmul nzero mo) d b = b).
  { intros. unfold new_bias. rewrite (zl_l Z), (zl_r Z), !(zl_a Z). reflexivity. }
  induction net as [|l net IH]; intros xs tgt d Hs Ht; [reflexivity|].
  assert (He : length (err (l :: net) xs tgt) = length (sB l)) by (apply err_len; [exact Hs|rewrite units_cons in *; exact Ht]).
  destruct Hs as (Hr & E & Hs). rewrite units_cons in Ht.
  assert (Ho : length (outs l xs) = length (sW l)) by (rewrite outs_len by exact E; exact E).
  rewrite <- Ho in Hs. cbn [learn]. rewrite (IH _ _ _ Hs Ht). f_equal.
  unfold adjust. destruct (strain l) eqn:Et; [|reflexivity]. destruct l as [lw lb lf ld lt]. cbn [sW sB sf sd strain] in *. f_equal; try reflexivity; try (symmetry; exact Et); [|apply zip_id; [intros; apply Hb|lia]].
  clear - Hr Hw He E. rewrite E in He. clear E. set (es := err _ _ _) in *. clearbody es.
  assert (G : forall es, length es = length lw -> zip_with (fun w d => zip_with (new_weight nzero (nmul nzero mo) d) w xs) lw es = lw).
  { clear He es. induction lw as [|w lw IH]; intros [|e es] Hl; try discriminate; [reflexivity|]. cbn. apply Forall_cons in Hr as [R1 R2].
    rewrite IH; [|exact R2|injection Hl as ->; reflexivity]. f_equal. apply zip_id; [intros; apply Hw|exact R1]. }
  apply G. exact He.
Qed.
Lemma step_rate0 (w : world T) a w1 o : zero_laws -> w_net w <> [] -> good w -> rate0 a -> step w a w1 o -> params w1 = params w.
Proof.
  intros Z Hne Hg Ha Hs. unfold params. destruct Hs; cbn [w_net w_ten rate0] in *; subst; try reflexivity.
  - erewrite learn_rate0; [reflexivity|exact Z| |].
    + rewrite (good_at _ _ _ _ Hg H0). apply (go_net _ Hg).
    + rewrite (good_at _ _ _ _ Hg H1). symmetry. apply (go_out _ Hg).
  - replace net' with (fst (net', ok)) by reflexivity.
    match goal with E : learn_picks _ _ _ _ _ _ _ = _ |- _ => rewrite <- E end.
    f_equal. apply (learn_picks_ind (fun n => n = net)); [|reflexivity].
    intros n x y -> Hin Ex Ey. eapply learn_rate0; [exact Z| |].
    + pose proof (pairs_at (W net st) fst _ _ _ Hg H0 Hin) as E1. cbn [fst] in E1. rewrite E1, Ex. apply (go_net _ Hg).
    + pose proof (pairs_at (W net st) snd _ _ _ Hg H1 Hin) as E1. cbn [snd] in E1. rewrite E1, Ey. symmetry. apply (go_out _ Hg).
  - apply alter_params.
  - apply model_params.
Qed.
Lemma history_rate0 (w : world T) acts w1 os : zero_laws -> history w acts w1 os -> w_net w <> [] -> good w -> Forall rate0 acts ->
  params w1 = params w.
Proof.
  intros Z. induction 1 as [w|w a w1 o acts w2 os Hs _ IH]; intros Hne Hg Ha; [reflexivity|].
  apply Forall_cons in Ha as [H1 H2]. destruct (step_good _ _ _ _ Hne Hg Hs) as [Hg1 Hne1].
  rewrite (IH Hne1 Hg1 H2). eapply step_rate0; eassumption.
Qed.
Lemma history_good (w : world T) acts w1 os : history w acts w1 os -> w_net w <> [] -> good w -> good w1 /\ w_net w1 <> [].
Proof.
  induction 1 as [w|w a w1 o acts w2 os Hs _ IH]; intros Hne Hg; [auto|].
  destruct (step_good _ _ _ _ Hne Hg Hs) as [Hg1 Hne1]. auto.
Qed.

(** ** Momentum *)
Definition with_momentum (f : T -> T) (a : act T) : act T :=
  match a with
  | ATrainOne i j alpha mo => ATrainOne i j alpha (f mo)
  | ATrain is js picks epochs batch alpha mo => ATrain is js picks epochs batch alpha (f mo)
  | _ => a
  end.
Lemma step_momentum f (w : world T) a w1 o : (forall x : T, nmul nzero x = nzero) -> step w a w1 o -> step w (with_momentum f a) w1 o.
Proof.
  intros Z Hs. destruct Hs; cbn [with_momentum]; try (econstructor; eassumption).
  - rewrite Z, <- (Z (f mo)). econstructor; eassumption.
  - econstructor; try eassumption. rewrite Z in *. assumption.
Qed.
Lemma history_momentum f (w : world T) acts w1 os : (forall x : T, nmul nzero x = nzero) -> history w acts w1 os ->
  history w (map (with_momentum f) acts) w1 os.
Proof. intros Z. induction 1; cbn; econstructor; eauto using step_momentum. Qed.

(** ** The activation functions stay *)
Definition acts_of (net : list (slayer T)) : list ((T -> T) * (T -> T)) := map (fun l => (sf l, sd l)) net.
Lemma learn_acts alpha rest : forall (net : list (slayer T)) xs tgt, acts_of (learn alpha rest net xs tgt) = acts_of net.
Proof.
  induction net as [|l net IH]; intros xs tgt; [reflexivity|]. cbn [learn]. unfold acts_of in *. cbn [map]. rewrite IH. f_equal.
  unfold adjust. destruct (strain l); reflexivity.
Qed.
Lemma step_acts (w : world T) a w1 o : step w a w1 o -> acts_of (w_net w1) = acts_of (w_net w).
Proof.
  intros Hs. destruct Hs; cbn [w_net]; try reflexivity.
  - apply learn_acts.
  - replace net' with (fst (net', ok)) by reflexivity.
    match goal with E : learn_picks _ _ _ _ _ _ _ = _ |- _ => rewrite <- E end.
    apply (learn_picks_ind (fun n => acts_of n = acts_of net)); [|reflexivity]. intros n x y En _ _ _. rewrite learn_acts. exact En.
  - clear. revert k. induction net as [|l net IH]; intros [|k]; cbn; [reflexivity..|]. f_equal. apply IH.
  - destruct net as [|l net]; [reflexivity|]. unfold acts_of. cbn [map]. f_equal; [destruct low; reflexivity|]. rewrite map_map. apply map_ext. reflexivity.
Qed.
Lemma history_acts (w : world T) acts w1 os : history w acts w1 os -> acts_of (w_net w1) = acts_of (w_net w).
Proof. induction 1 as [w|w a w1 o acts w2 os Hs _ IH]; [reflexivity|]. rewrite IH. eapply step_acts. exact Hs. Qed.

(** ** The model's SetTrainable(false) *)
Lemma model_frozen (net : list (slayer T)) : low = true ->
  Forall (fun l => strain l = false) (match net with [] => [] | l :: net' => (if low then set_strain false l else l) :: map (set_strain false) net' end).
Proof. intros ->. destruct net as [|l net]; constructor; [reflexivity|]. apply Forall_map. apply Forall_true. reflexivity. Qed.

(** ** Which actions have a step *)
Definition allowed (w : world T) (a : act T) : Prop :=
  let n := length (w_ten w) in
  match a with
  | ANew sh vs => fits sh /\ length vs = N.to_nat (prodN sh)
  | AGet i | APredict i => i < n
  | ATrainOne i j _ _ => i < n /\ j < n /\ Forall (fun l => sB l <> []) (w_net w)
  | ATrain is js _ _ _ _ _ => Forall (fun i => i < n) is /\ Forall (fun j => j < n) js /\
      (length is = length js -> is <> [] /\ Forall (fun l => sB l <> []) (w_net w))
  | ALayer k _ => k < length (w_net w)
  | AModel _ => True
  end.
Lemma pick_pairs (st : list (list N * list T)) : forall is js, Forall (fun i => i < length st) is -> Forall (fun j => j < length st) js ->
  length is = length js -> exists pairs, Forall2 (fun i p => st !! i = Some (fst p)) is pairs /\ Forall2 (fun j p => st !! j = Some (snd p)) js pairs.
Proof.
  induction is as [|i is IH]; intros [|j js] Hi Hj Hl; try discriminate; [exists []; split; constructor|].
  apply Forall_cons in Hi as [I1 I2]. apply Forall_cons in Hj as [J1 J2]. injection Hl as Hl.
  destruct (IH js I2 J2 Hl) as (ps & P1 & P2). destruct (lookup_lt_is_Some_2 _ _ I1) as [x Ex]. destruct (lookup_lt_is_Some_2 _ _ J1) as [y Ey].
  exists ((x, y) :: ps). split; constructor; assumption.
Qed.
Lemma step_total (w : world T) a : allowed w a -> exists w1 o, step w a w1 o.
Proof.
  destruct w as [net st]. destruct a as [sh vs|i|i|i j alpha mo|is js picks epochs batch alpha mo|k b|b]; cbn [allowed w_ten w_net].
  - intros []. eexists _, _. apply st_new; assumption.
  - intros Hi. destruct (lookup_lt_is_Some_2 _ _ Hi) as [[sh vs] E]. eexists _, _. eapply st_get; exact E.
  - intros Hi. destruct (lookup_lt_is_Some_2 _ _ Hi) as [[sh vs] E]. destruct (decide (sh = ish)) as [->|Hne].
    + eexists _, _. eapply st_predict; exact E.
    + eexists _, _. eapply st_predict_bad; eassumption.
  - intros (Hi & Hj & Hb). destruct (lookup_lt_is_Some_2 _ _ Hi) as [[sh vs] E]. destruct (lookup_lt_is_Some_2 _ _ Hj) as [[sh' vs'] E'].
    destruct (decide (sh = ish)) as [->|Hne]; [destruct (decide (sh' = osh)) as [->|Hne']|].
    + eexists _, _. eapply st_train1; eassumption.
    + eexists _, _. eapply st_train1_bad; eauto.
    + eexists _, _. eapply st_train1_bad; eauto.
  - intros (Hi & Hj & Hb). destruct (decide (length is = length js)) as [El|Hne].
    + destruct (Hb El) as [Hne Hbb]. destruct (pick_pairs st is js Hi Hj El) as (ps & P1 & P2).
      destruct (learn_picks ish osh alpha (nmul nzero mo) ps (picked picks (length ps) epochs (if batch =? 0 then length ps else batch)) net) as [net' ok] eqn:E.
      eexists _, _. eapply st_train; try eassumption. intros ->. inversion P1; subst. contradiction.
    + eexists _, _. apply st_train_bad; assumption.
  - intros Hk. eexists _, _. apply st_layer. exact Hk.
  - intros _. eexists _, _. apply st_model.
Qed.

(** ** The same description as a function, for concrete histories *)
Definition biased (net : list (slayer T)) : bool := forallb (fun l => negb (length (sB l) =? 0)) net.
Definition step_fn (w : world T) (a : act T) : option (world T * option (list T)) :=
  let net := w_net w in let st := w_ten w in
  match a with
  | ANew sh vs => if fitsb sh && (length vs =? N.to_nat (prodN sh)) then Some (W net (st ++ [(sh, vs)]), Some []) else None
  | AGet i => match st !! i with Some (_, vs) => Some (w, Some vs) | None => None end
  | APredict i =>
      match st !! i with
      | Some (sh, xs) => Some (if bool_decide (sh = ish) then (W net (st ++ [(osh, forward net xs)]), Some []) else (w, None))
      | None => None
      end
  | ATrainOne i j alpha mo =>
      match st !! i, st !! j with
      | Some (sh, xs), Some (sh', tgt) =>
          if biased net then
            Some (if bool_decide (sh = ish) && bool_decide (sh' = osh)
                  then (W (learn alpha (nmul nzero mo) net xs tgt) st, Some [loss net xs tgt]) else (w, None))
          else None
      | _, _ => None
      end
  | ATrain is js picks epochs batch alpha mo =>
      match mapM (fun i => st !! i) is, mapM (fun j => st !! j) js with
      | Some xs, Some ys =>
          if length is =? length js then
            if biased net && negb (length is =? 0) then
              let pairs := zip xs ys in
              let r := learn_picks ish osh alpha (nmul nzero mo) pairs
                 (picked picks (length pairs) epochs (if batch =? 0 then length pairs else batch)) net in
              Some (W (fst r) st, if snd r then Some [] else None)
            else None
          else Some (w, None)
      | _, _ => None
      end
  | ALayer k b => if k <? length net then Some (W (alter (set_strain b) k net) st, Some []) else None
  | AModel b =>
      Some (W (match net with [] => [] | l :: net' => (if low then set_strain b l else l) :: map (set_strain b) net' end) st, Some [])
  end.
Lemma biased_ok net : biased net = true -> Forall (fun l : slayer T => sB l <> []) net.
Proof.
  unfold biased. intros Hb. apply Forall_forall. intros l Hl. rewrite forallb_forall in Hb. apply elem_of_list_In in Hl. specialize (Hb l Hl).
  cbv beta in Hb. intros E. rewrite E in Hb. discriminate.
Qed.
Lemma step_fn_ok (w : world T) a w1 o : step_fn w a = Some (w1, o) -> step w a w1 o.
Proof.
  destruct w as [net st]. destruct a as [sh vs|i|i|i j alpha mo|is js picks epochs batch alpha mo|k b|b]; cbn [step_fn w_net w_ten]; intros E.
  - destruct (fitsb sh) eqn:Ef; [|discriminate]. destruct (Nat.eqb_spec (length vs) (N.to_nat (prodN sh))); [|discriminate].
    injection E as <- <-. apply st_new; [apply IndexProofs.fitsb_fits; exact Ef|assumption].
  - destruct (st !! i) as [[sh vs]|] eqn:Ei; [|discriminate]. injection E as <- <-. eapply st_get. exact Ei.
  - destruct (st !! i) as [[sh vs]|] eqn:Ei; [|discriminate]. injection E as E. case_bool_decide; injection E as <- <-.
    + subst sh. apply st_predict. exact Ei.
    + eapply st_predict_bad; eassumption.
  - destruct (st !! i) as [[sh xs]|] eqn:Ei; [|discriminate]. destruct (st !! j) as [[sh' tgt]|] eqn:Ej; [|discriminate].
    destruct (biased net) eqn:Eb; [|discriminate]. apply biased_ok in Eb. injection E as E.
    case_bool_decide; [case_bool_decide|]; cbn [andb] in E; injection E as <- <-.
    + subst. eapply st_train1; eassumption.
    + eapply st_train1_bad; eauto.
    + eapply st_train1_bad; eauto.
  - destruct (mapM _ is) as [xs|] eqn:Ex; [|discriminate]. destruct (mapM _ js) as [ys|] eqn:Ey; [|discriminate].
    apply mapM_Some in Ex, Ey. pose proof (Forall2_length _ _ _ Ex) as Lx. pose proof (Forall2_length _ _ _ Ey) as Ly.
    destruct (Nat.eqb_spec (length is) (length js)) as [El|Hne].
    + destruct (biased net) eqn:Eb; [|discriminate]. apply biased_ok in Eb. destruct (Nat.eqb_spec (length is) 0) as [|H0]; [discriminate|]. cbn [andb negb] in E.
      cbv zeta in E. destruct (learn_picks _ _ _ _ _ _ _) as [net' ok] eqn:Ep in E. cbn [fst snd] in E. injection E as <- <-.
      assert (Lz : length (zip xs ys) = length is) by (rewrite zip_with_length; lia).
      assert (Hx : Forall2 (fun i p => st !! i = Some (fst p)) is (zip xs ys)).
      { clear - Ex Ey El. revert js ys Ey El. induction Ex as [|i x is xs Hi _ IH]; intros js ys Ey El; [constructor|].
        destruct Ey as [|j y js ys Hj Ey]; [discriminate|]. cbn. constructor; [exact Hi|]. eapply IH; [exact Ey|]. injection El as El. exact El. }
      assert (Hy : Forall2 (fun j p => st !! j = Some (snd p)) js (zip xs ys)).
      { clear - Ex Ey El. revert is xs Ex El. induction Ey as [|j y js ys Hj _ IH]; intros is xs Ex El; destruct Ex as [|i x is xs Hi Ex]; try discriminate; [constructor|].
        cbn. constructor; [exact Hj|]. eapply IH; [exact Ex|]. injection El as El. exact El. }
      eapply st_train; try eassumption. intros Ez. rewrite Ez in Lz. cbn in Lz. lia.
    + injection E as <- <-. assert (HF : forall l vs, Forall2 (fun i v => st !! i = Some v) l vs -> Forall (fun i => i < length st) l).
      { induction 1 as [|i v l vs Hi _ IH]; constructor; [eapply lookup_lt_Some; exact Hi|exact IH]. }
      apply st_train_bad; [eapply HF; exact Ex|eapply HF; exact Ey|exact Hne].
  - destruct (Nat.ltb_spec k (length net)); [|discriminate]. injection E as <- <-. apply st_layer. assumption.
  - injection E as <- <-. apply st_model.
Qed.
Fixpoint hist_fn (w : world T) (acts : list (act T)) : option (world T * list (option (list T))) :=
  match acts with
  | [] => Some (w, [])
  | a :: acts' =>
      match step_fn w a with
      | Some (w1, o) => match hist_fn w1 acts' with Some (w2, os) => Some (w2, o :: os) | None => None end
      | None => None
      end
  end.
Lemma hist_fn_ok : forall acts (w w2 : world T) os, hist_fn w acts = Some (w2, os) -> history w acts w2 os.
Proof.
  induction acts as [|a acts IH]; intros w w2 os E; cbn in E; [injection E as <- <-; constructor|].
  destruct (step_fn w a) as [[w1 o]|] eqn:E1; [|discriminate]. destruct (hist_fn w1 acts) as [[w3 os3]|] eqn:E2; [|discriminate].
  injection E as <- <-. econstructor; [apply step_fn_ok; exact E1|apply IH; exact E2].
Qed.
Lemma hist_case (R : world T -> list (option (list T)) -> Prop) (w : world T) acts :
  match hist_fn w acts with Some (w', os) => R w' os | None => False end -> exists w' os, history w acts w' os /\ R w' os.
Proof. destruct (hist_fn w acts) as [[w' os]|] eqn:E; [|contradiction]. intros HR. exists w', os. split; [apply hist_fn_ok; exact E|exact HR]. Qed.
End Laws.

(** ** The first world of a program *)
Section First.
Context {T : Type} `{Num T}.
Lemma init_sized rnd : forall (ls : list (N * (T -> T) * (T -> T))) c ni, sized ni (init_net rnd c ni ls) /\
  forall d, units d (init_net rnd c ni ls) = List.last (map (fun l => N.to_nat (fst (fst l))) ls) d.
Proof.
  induction ls as [|[[o f] d0] ls IH]; intros c ni; [split; [exact I|reflexivity]|]. cbn [init_net].
  destruct (IH (c + 2) (N.to_nat o)) as [I1 I2]. split.
  - cbn [sized sW sB]. rewrite !map_length, !seq_length. split; [|split; [reflexivity|exact I1]].
    apply Forall_forall. intros w Hw. apply elem_of_list_In, in_map_iff in Hw as (i & <- & _). rewrite map_length, seq_length. reflexivity.
  - intros d. rewrite units_cons. cbn [sB map]. rewrite map_length, seq_length, last_from. apply I2.
Qed.
Lemma last_N d : forall ls : list (N * activation T), List.last (map (fun l => N.to_nat (fst (fst l))) (map spec3 ls)) (N.to_nat d) = N.to_nat (out_width d ls).
Proof.
  unfold out_width. revert d. assert (G : forall (ls : list (N * activation T)) d, List.last (map (fun l => N.to_nat (fst (fst l))) (map spec3 ls)) (N.to_nat d) = N.to_nat (List.last (map fst ls) d)).
  { induction ls as [|l ls IH]; intros d; [reflexivity|]. cbn [map]. rewrite !last_from. apply IH. }
  intros d ls. apply G.
Qed.
Lemma init_good rnd c ish (ls : list (N * activation T)) : ls <> [] ->
  good ish [out_width 0 ls] (W (init_net rnd c (N.to_nat (prodN ish)) (map spec3 ls)) []) /\
  init_net rnd c (N.to_nat (prodN ish)) (map spec3 ls) <> [].
Proof.
  intros Hne. destruct (init_sized rnd (map spec3 ls) c (N.to_nat (prodN ish))) as [I1 I2]. split; [split; cbn [w_net w_ten]|].
  - exact I1.
  - rewrite I2. rewrite last_N. unfold out_width. destruct ls as [|l ls]; [contradiction|]. cbn [map]. rewrite !last_from. rewrite prod_1. reflexivity.
  - constructor.
  - destruct ls as [|[o a] ls]; [contradiction|discriminate].
Qed.
Lemma stack_good rnd c build ish osh low net : stack_of rnd c build ish osh low net -> good ish osh (W net []) /\ net <> [].
Proof.
  destruct 1 as [ish ls _ Hne _|n l ls _ _].
  - apply init_good. exact Hne.
  - pose proof (init_good rnd c [n] (l :: ls) ltac:(discriminate)) as G. rewrite prod_1 in G. exact G.
Qed.

(** ** Training before Compile *)
Lemma dif_none (s : lst T) L id k : lays s !! id = Some L -> lkind_of L = k -> k <> LInput -> lten L FDif = None ->
  GetDif id s = (Ok None, s).
Proof.
  intros HL Hk Hn Hd. unfold GetDif, with_fuel. cbn [GetT]. erewrite mbnd_ok by (unfold getL; rewrite HL; reflexivity).
  rewrite Hk, Hd. destruct k; try reflexivity. contradiction.
Qed.
Definition last_fresh (st : model T * list nat) (s : lst T) : Prop :=
  exists id L, m_last (fst st) = Some id /\ lays s !! id = Some L /\ lkind_of L = LDense /\ lten L FDif = None /\ m_bp (fst st) = None.
Lemma mbnd_inv {S A B} (m : M S A) (f : A -> M S B) s r s' : mbnd m f s = (Ok r, s') -> exists a s1, m s = (Ok a, s1) /\ f a s1 = (Ok r, s').
Proof. unfold mbnd. destruct (m s) as [[a|e| |] s1]; intros E; try discriminate. eauto. Qed.
Lemma liftT_inv {A} (c : TM T A) (s : lst T) r s' : liftT c s = (Ok r, s') -> lays s' = lays s.
Proof. unfold liftT. destruct (c (ts s)) as [q t]. intros E. injection E as _ <-. reflexivity. Qed.
Lemma push_fresh st l (s : lst T) st' s' : m_bp (fst st) = None -> push_dense st l s = (Ok st', s') -> last_fresh st' s'.
Proof.
  intros Hb E. unfold push_dense in E. apply mbnd_inv in E as (d & s1 & E1 & E). apply mbnd_inv in E as (m & s2 & E2 & E).
  injection E as <- <-. unfold NewDense in E1. apply mbnd_inv in E1 as (o & s0 & E0 & E1). injection E1 as <- <-.
  unfold MPush in E2. destruct (m_first (fst st)) as [f|].
  - apply mbnd_inv in E2 as ([] & s3 & E3 & E2). injection E2 as <- <-. unfold Connect, updL in E3. cbn [lays] in E3.
    rewrite (list_lookup_middle (lays s0) [] _ _ eq_refl) in E3. injection E3 as <-.
    eexists _, _. split; [reflexivity|]. split; [apply list_lookup_insert; cbn [lays]; rewrite app_length; cbn; lia|]. cbn. auto.
  - injection E2 as <- <-. eexists _, _. split; [reflexivity|]. split; [apply list_lookup_middle; reflexivity|]. cbn. auto.
Qed.
Lemma push_all_fresh : forall ls st (s : lst T) st' s', (ls = [] -> last_fresh st s) -> m_bp (fst st) = None ->
  push_all st ls s = (Ok st', s') -> last_fresh st' s'.
Proof.
  induction ls as [|l ls IH]; intros st s st' s' Hl Hb E; cbn [push_all] in E.
  - injection E as <- <-. apply Hl. reflexivity.
  - apply mbnd_inv in E as (st1 & s1 & E1 & E). pose proof (push_fresh _ _ _ _ _ Hb E1) as Hf.
    apply (IH st1 s1); [auto| |exact E]. destruct Hf as (id & L & _ & _ & _ & _ & Hb'). exact Hb'.
Qed.
Lemma build_fresh rnd c build ish osh low net (s : lst T) st s' : stack_of rnd c build ish osh low net ->
  build s = (Ok st, s') -> last_fresh st s'.
Proof.
  destruct 1 as [ish ls _ Hne _|n l ls _ _]; intros E.
  - unfold build_input in E. apply mbnd_inv in E as (i & s1 & E1 & E). apply mbnd_inv in E as (m & s2 & E2 & E).
    injection E2 as <- <-. eapply push_all_fresh; [| |exact E]; [|reflexivity]. intros ->. contradiction.
  - unfold build_dense in E. apply mbnd_inv in E as (i & s1 & E1 & E). apply mbnd_inv in E as (m & s2 & E2 & E).
    injection E2 as <- <-. eapply push_all_fresh; [| |exact E]; [|reflexivity]. intros _.
    unfold NewInDense in E1. apply mbnd_inv in E1 as (a & sa & Ea & E1). apply mbnd_inv in E1 as (b & sb & Eb & E1). injection E1 as <- <-.
    eexists _, _. split; [reflexivity|]. split; [apply list_lookup_middle; reflexivity|]. cbn. auto.
Qed.
Lemma fresh_panics st (s : lst T) : last_fresh st s -> CompileBackPropagation (fst st) s = (Panic, s).
Proof.
  intros (id & L & El & HL & Hk & Hd & _). unfold CompileBackPropagation. rewrite El. cbn [the mlift]. erewrite mbnd_ok by reflexivity.
  erewrite mbnd_ok by (eapply dif_none; [exact HL|exact Hk|discriminate|exact Hd]). reflexivity.
Qed.
Lemma train_uncompiled st (s : lst T) : last_fresh st s ->
  (forall x y alpha mo, TrainOne (fst st) x y alpha mo s = (Panic, s)) /\
  (forall picks xs ys epochs batch alpha mo, length xs = length ys -> Train picks (fst st) xs ys epochs batch alpha mo s = (Panic, s)).
Proof.
  intros Hf. pose proof (fresh_panics _ _ Hf) as E. destruct Hf as (id & L & _ & _ & _ & _ & Hb). split; intros.
  - unfold TrainOne. rewrite Hb. unfold mbnd at 1. rewrite E. reflexivity.
  - unfold Train. rewrite Hb. match goal with E : length _ = length _ |- _ => rewrite E end. rewrite Nat.eqb_refl. cbn [negb].
    unfold mbnd at 1. rewrite E. reflexivity.
Qed.

(** ** Predict compiles on demand *)
Lemma Compile_ff rnd (m : model T) s m' s' : Compile rnd m s = (Ok m', s') -> exists g, m_ff m' = Some g.
Proof.
  unfold Compile. intros E.
  apply mbnd_inv in E as (a1 & s1 & _ & E). apply mbnd_inv in E as (a2 & s2 & _ & E). apply mbnd_inv in E as (a3 & s3 & _ & E).
  apply mbnd_inv in E as (a4 & s4 & _ & E). apply mbnd_inv in E as (a5 & s5 & _ & E). apply mbnd_inv in E as (a6 & s6 & _ & E).
  apply mbnd_inv in E as (a7 & s7 & _ & E). apply mbnd_inv in E as (a8 & s8 & _ & E). apply mbnd_inv in E as (a9 & s9 & _ & E).
  apply mbnd_inv in E as (a10 & s10 & _ & E). apply mbnd_inv in E as (a11 & s11 & _ & E). injection E as <- <-. eexists. reflexivity.
Qed.
Lemma Predict_compiles rnd (m : model T) x s : m_ff m = None ->
  Predict rnd m x s = (m' <~ Compile rnd m ; Predict rnd m' x) s.
Proof.
  intros Hf. unfold Predict at 1. rewrite Hf. unfold mbnd at 1 7. destruct (Compile rnd m s) as [[m'|e| |] s1] eqn:E; [|reflexivity..].
  destruct (Compile_ff _ _ _ _ _ E) as [g Hg]. unfold Predict. rewrite Hg. symmetry. etransitivity; [apply mbnd_ok; reflexivity|]. cbv beta. rewrite Hg. reflexivity.
Qed.
(** ** Naming the model object before the call changes nothing *)
Lemma CompileBP_bp (m : model T) s m' s' : CompileBackPropagation m s = (Ok m', s') -> exists g, m_bp m' = Some g.
Proof.
  unfold CompileBackPropagation. intros E.
  do 16 (let a := fresh in let s1 := fresh in apply mbnd_inv in E as (a & s1 & _ & E)). injection E as <- <-. eexists. reflexivity.
Qed.
Lemma ensured {A} (m : model T) (k : model T -> LM T A) s :
  (m' <~ (match m_bp m with None => CompileBackPropagation m | Some _ => mret m end) ; k m') s =
  (m' <~ ensure_bp m ; m'' <~ (match m_bp m' with None => CompileBackPropagation m' | Some _ => mret m' end) ; k m'') s.
Proof.
  unfold ensure_bp. destruct (m_bp m) as [g|] eqn:Eb.
  - unfold mbnd, mret. rewrite Eb. reflexivity.
  - unfold mbnd at 1 2. destruct (CompileBackPropagation m s) as [[m'|e| |] s1] eqn:E; [|reflexivity..].
    destruct (CompileBP_bp _ _ _ _ E) as [g Hg]. unfold mbnd. rewrite Hg. reflexivity.
Qed.
Lemma TrainOne_ensured (m : model T) x y alpha mo s :
  TrainOne m x y alpha mo s = (m' <~ ensure_bp m ; TrainOne m' x y alpha mo) s.
Proof. unfold TrainOne at 1. rewrite ensured. reflexivity. Qed.
Lemma Train_ensured picks (m : model T) xs ys epochs batch alpha mo s : length xs = length ys ->
  Train picks m xs ys epochs batch alpha mo s = (m' <~ ensure_bp m ; Train picks m' xs ys epochs batch alpha mo) s.
Proof. intros El. unfold Train. rewrite El, Nat.eqb_refl. cbn [negb]. rewrite ensured. reflexivity. Qed.
End First.

(** ** Number types for which zero behaves *)
Lemma zero_laws_int (w : Z) (Hw : (0 < w)%Z) : @zero_laws (intw w) (NumIntS w Hw).
Proof.
  split; intros x; cbn; apply intw_eq; rewrite !mk_val by exact Hw; rewrite wrapZ_0 by exact Hw.
  - rewrite Z.mul_0_l. apply wrapZ_0. exact Hw.
  - rewrite Z.mul_0_r. apply wrapZ_0. exact Hw.
  - rewrite Z.add_0_r. apply Z.eqb_eq. exact (iok x).
Qed.
Lemma zero_laws_Q : @zero_laws Qc NumQc.
Proof. split; intros x; cbn; [apply Qcmult_0_l|apply Qcmult_0_r|apply Qcplus_0_r]. Qed.
