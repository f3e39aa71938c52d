(** * FitProofs: which parameters Fit replaces *)
From Verif Require Import Base Num ModelTools ModelOps ModelTensor ModelGraph ModelLayer ModelModel Spec Denote ObjSpec ReachSpec TensorFacts AccessProofs.
From Coq Require Import Lia.

Section Fit.
Context {T : Type} `{Num T}.

(** ** Everything else stays *)
(** [s'] differs from [s] only in the values of the scalars of [ps]. *)
Definition only (ps : ptr -> Prop) (s s' : tst T) : Prop :=
  tens s' = tens s /\ ctx s' = ctx s /\ length (mem s') = length (mem s) /\ forall a, ~ ps (Some a) -> mem s' !! a = mem s !! a.
Lemma only_refl ps s : only ps s s.
Proof. repeat split. Qed.
Lemma only_trans ps s1 s2 s3 : only ps s1 s2 -> only ps s2 s3 -> only ps s1 s3.
Proof.
  intros (A1 & A2 & A3 & A4) (B1 & B2 & B3 & B4). split; [congruence|]. split; [congruence|]. split; [congruence|].
  intros a Ha. rewrite B4 by exact Ha. apply A4. exact Ha.
Qed.
Lemma only_weaken (ps qs : ptr -> Prop) s s' : (forall p, ps p -> qs p) -> only ps s s' -> only qs s s'.
Proof. intros Hi (A1 & A2 & A3 & A4). split; [exact A1|]. split; [exact A2|]. split; [exact A3|]. intros a Ha. apply A4. auto. Qed.

Lemma wrM_only (ps : ptr -> Prop) d v s r s' : ps d -> wrM d v s = (r, s') -> only ps s s'.
Proof.
  intros Hd. unfold wrM, wr. destruct d as [l|]; [|intros [= _ <-]; apply only_refl].
  destruct (decide (l < length (mem s))); [|intros [= _ <-]; apply only_refl].
  intros [= _ <-]. split; [reflexivity|]. split; [reflexivity|]. split; [apply insert_length|].
  intros a Ha. cbn. apply list_lookup_insert_ne. congruence.
Qed.
Lemma mfor_only {A} (ps : ptr -> Prop) (f : A -> TM T unit) (xs : list A) :
  (forall x s r s', f x s = (r, s') -> only ps s s') -> forall s r s', mfor xs f s = (r, s') -> only ps s s'.
Proof.
  intros Hf. induction xs as [|x xs IH]; cbn [mfor]; intros s r s'.
  - intros [= _ <-]. apply only_refl.
  - unfold mbnd. destruct (f x s) as [rx s1] eqn:E1. pose proof (Hf _ _ _ _ E1) as H1.
    destruct rx; intros E; try (injection E as _ <-; exact H1). eapply only_trans; [exact H1|]. eapply IH. exact E.
Qed.
Lemma LoadFromTensor_only p t (s : tst T) r s' : LoadFromTensor p t s = (r, s') -> only (fun x => x ∈ cells s p) s s'.
Proof.
  assert (Hnone : forall q, tens s !! q = None -> get_mat q s = (Panic, s)).
  { intros q Eq. unfold get_mat, mbnd, get_node. rewrite Eq. reflexivity. }
  unfold LoadFromTensor. unfold mbnd at 1. destruct (tens s !! p) as [np|] eqn:Ep; [rewrite (get_mat_ok _ _ _ Ep)|rewrite (Hnone _ Ep); intros [= _ <-]; apply only_refl].
  unfold mbnd at 1. destruct (tens s !! t) as [nt|] eqn:Et; [rewrite (get_mat_ok _ _ _ Et)|rewrite (Hnone _ Et); intros [= _ <-]; apply only_refl].
  unfold mbnd at 1, eM. destruct (GetEqShapeErr _ _); [intros [= _ <-]; apply only_refl|].
  apply mfor_only. intros [i o] s1 r1 s1'. unfold mbnd, atM, at_or_panic, mlift.
  destruct (operands (nmat np) !! i) as [d|] eqn:Ed; [|intros [= _ <-]; apply only_refl].
  unfold rdM. destruct (rd (mem s1) o); [|intros [= _ <-]; apply only_refl].
  apply wrM_only. unfold cells. rewrite Ep. eapply elem_of_list_lookup_2. exact Ed.
Qed.

Definition touched (s : lst T) (id : nat) (x : ptr) : Prop :=
  exists q t t', behind (lays s) id q /\ param (lays s) q t t' /\ x ∈ cells (ts s) t.
Lemma cells_eq (s s' : tst T) t : tens s' = tens s -> cells s' t = cells s t.
Proof. intros E. unfold cells. rewrite E. reflexivity. Qed.
Lemma touched_eq (s s' : lst T) id x : lays s' = lays s -> tens (ts s') = tens (ts s) -> touched s' id x -> touched s id x.
Proof. intros E1 E2 (q & t & t' & Hb & Hp & Hx). rewrite E1 in *. rewrite (cells_eq _ _ _ E2) in Hx. exists q, t, t'. auto. Qed.

(** What Fit does to the layer itself. *)
Definition fit_weights (l : layer T) : LM T unit :=
  match lten l FWeights, lten l FNWeights with Some w, Some nw => liftT (LoadFromTensor w nw) | _, _ => mret tt end.
Definition fit_bias (l : layer T) : LM T unit :=
  match lten l FBias, lten l FNBias with None, None => mret tt | Some b, Some nb => liftT (LoadFromTensor b nb) | _, _ => mpanic end.
Definition fit_self (l : layer T) : LM T unit := if negb (lflag l BTrainable) then mret tt else fit_weights l ;~ fit_bias l.
Lemma LFit_S n id : LFit (T:=T) (S n) id = (l <~ getL id ; (match lpre l with Some q => ignore_err (LFit n q) | None => mret tt end) ;~ fit_self l).
Proof. reflexivity. Qed.

Definition only_l (ps : ptr -> Prop) (s s' : lst T) : Prop := lays s' = lays s /\ rc s' = rc s /\ only ps (ts s) (ts s').
Lemma only_l_refl ps s : only_l ps s s.
Proof. repeat split. Qed.
Lemma only_l_trans ps s1 s2 s3 : only_l ps s1 s2 -> only_l ps s2 s3 -> only_l ps s1 s3.
Proof. intros (A1 & A2 & A3) (B1 & B2 & B3). split; [congruence|]. split; [congruence|]. eapply only_trans; eassumption. Qed.
Lemma load_only_l (ps : ptr -> Prop) w nw (s : lst T) r s' : (forall x, x ∈ cells (ts s) w -> ps x) ->
  liftT (LoadFromTensor w nw) s = (r, s') -> only_l ps s s'.
Proof.
  intros Hi. unfold liftT. destruct (LoadFromTensor w nw (ts s)) as [r1 s1] eqn:E. intros [= _ <-].
  split; [reflexivity|]. split; [reflexivity|]. cbn. eapply only_weaken; [|eapply LoadFromTensor_only; exact E]. exact Hi.
Qed.
Lemma fit_self_only id l (s : lst T) r s' : lays s !! id = Some l -> fit_self l s = (r, s') -> only_l (touched s id) s s'.
Proof.
  intros Hl. unfold fit_self. destruct (lflag l BTrainable) eqn:Et; cbn [negb]; [|intros [= _ <-]; apply only_l_refl].
  unfold mbnd at 1. destruct (fit_weights l s) as [r1 s1] eqn:E1.
  assert (H1 : only_l (touched s id) s s1).
  { unfold fit_weights in E1. destruct (lten l FWeights) as [w|] eqn:Ew; [|injection E1 as _ <-; apply only_l_refl].
    destruct (lten l FNWeights) as [nw|] eqn:Enw; [|injection E1 as _ <-; apply only_l_refl].
    eapply load_only_l; [|exact E1]. intros x Hx. exists id, w, nw. split; [apply behind_same|]. split; [|exact Hx].
    exists l. auto. }
  destruct r1; intros E2; try (injection E2 as _ <-; exact H1).
  eapply only_l_trans; [exact H1|]. unfold fit_bias in E2.
  destruct (lten l FBias) as [b|] eqn:Eb; destruct (lten l FNBias) as [nb|] eqn:Enb; try (injection E2 as _ <-; apply only_l_refl).
  eapply load_only_l; [|exact E2]. intros x Hx. destruct H1 as (_ & _ & Ht & _).
  rewrite (cells_eq _ _ _ Ht) in Hx. exists id, b, nb. split; [apply behind_same|]. split; [|exact Hx]. exists l. auto.
Qed.
Theorem LFit_only n : forall id (s : lst T) r s', LFit n id s = (r, s') -> only_l (touched s id) s s'.
Proof.
  induction n as [|n IH]; intros id s r s'; [intros [= _ <-]; apply only_l_refl|].
  rewrite LFit_S. unfold mbnd at 1, getL. destruct (lays s !! id) as [l|] eqn:El; [|intros [= _ <-]; apply only_l_refl].
  unfold mbnd at 1.
  destruct ((match lpre l with Some q => ignore_err (LFit n q) | None => mret tt end) s) as [r1 s1] eqn:E1.
  assert (H1 : only_l (touched s id) s s1).
  { destruct (lpre l) as [q|] eqn:Eq; [|injection E1 as _ <-; apply only_l_refl].
    unfold ignore_err in E1. destruct (LFit n q s) as [r2 s2] eqn:E2. pose proof (IH _ _ _ _ E2) as (A & B & C).
    assert (s1 = s2) as -> by (destruct r2; injection E1 as _ <-; reflexivity). split; [exact A|]. split; [exact B|].
    eapply only_weaken; [|exact C]. intros x (q' & t & t' & Hb & Hp & Hx). exists q', t, t'.
    split; [eapply behind_step; eassumption|]. auto. }
  destruct r1; intros E2; try (injection E2 as _ <-; exact H1). eapply only_l_trans; [exact H1|].
  destruct H1 as (A & B & (C & _)).
  destruct (fit_self_only id l s1 r s') as (X & Y & Z); [rewrite A; exact El|exact E2|].
  split; [exact X|]. split; [exact Y|]. eapply only_weaken; [|exact Z]. intros x. apply touched_eq; assumption.
Qed.

(** ** Everything on the way is replaced *)
(** All parameters behind [id] exist, have new values of the same shape in other
    tensors, and share no scalars. *)
Record fit_ready (s : lst T) (id : nat) : Prop := {
  fr_layer : forall q, behind (lays s) id q -> is_Some (lays s !! q);
  fr_bias : forall q l, behind (lays s) id q -> lays s !! q = Some l -> lflag l BTrainable = true -> (lten l FBias = None <-> lten l FNBias = None);
  fr_ok : forall q t t', behind (lays s) id q -> param (lays s) q t t' ->
    unshared (ts s) t /\ exists v u, holds (ts s) t v /\ holds (ts s) t' u /\ vsh v = vsh u;
  fr_new : forall q1 t1 t1' q2 t2 t2', behind (lays s) id q1 -> behind (lays s) id q2 -> param (lays s) q1 t1 t1' -> param (lays s) q2 t2 t2' -> apart (ts s) t1 t2';
  fr_apart : forall q1 t1 t1' q2 t2 t2', behind (lays s) id q1 -> behind (lays s) id q2 -> param (lays s) q1 t1 t1' -> param (lays s) q2 t2 t2' ->
    t1 = t2 /\ t1' = t2' \/ apart (ts s) t1 t2;
}.
Lemma holds_fun (s : tst T) p v u : holds s p v -> holds s p u -> v = u.
Proof. intros (n & Hn & _ & Hm) (n' & Hn' & _ & Hm'). congruence. Qed.
Lemma apart_eq (s s' : tst T) p q : tens s' = tens s -> apart s p q -> apart s' p q.
Proof. intros E Ha x. rewrite !(cells_eq _ _ _ E). apply Ha. Qed.

(** The new values of [s0] are loaded into all [t] with [P q t t'], and tensors
    that share nothing with those did not change. *)
Definition loaded (P : nat -> nat -> nat -> Prop) (s0 s : lst T) : Prop :=
  lays s = lays s0 /\ rc s = rc s0 /\ tens (ts s) = tens (ts s0) /\ ctx (ts s) = ctx (ts s0) /\ length (mem (ts s)) = length (mem (ts s0)) /\
  (forall q t t' u, P q t t' -> holds (ts s0) t' u -> holds (ts s) t u) /\
  (forall p v, (forall q t t', P q t t' -> apart (ts s0) t p) -> holds (ts s0) p v -> holds (ts s) p v).
Lemma loaded_ext (P Q : nat -> nat -> nat -> Prop) s0 s : (forall q t t', P q t t' <-> Q q t t') -> loaded P s0 s -> loaded Q s0 s.
Proof.
  intros E (L1 & L2 & L3 & L4 & L5 & L6 & L7). repeat (split; [assumption|]). split.
  - intros q t t' u HQ. apply (L6 q). apply E. exact HQ.
  - intros p v Ha. apply L7. intros q t t' HP. apply (Ha q _ t'). apply E. exact HP.
Qed.
Lemma holds_same_shape (s s' : tst T) p v : tens s' = tens s -> length (mem s') = length (mem s) -> holds s p v ->
  exists v', holds s' p v' /\ vsh v' = vsh v.
Proof.
  intros Et El (n & Hn & Hwf & Hm).
  assert (Hv : is_Some (mapM (rd (mem s')) (operands (nmat n)))).
  { apply mapM_is_Some. destruct Hwf as (_ & _ & _ & Hv). eapply Forall_impl; [exact Hv|]. intros o (l & -> & Hl). cbn.
    apply lookup_lt_is_Some_2. lia. }
  destruct Hv as [d Hd]. exists (V (shape (nmat n)) d). split.
  - exists n. rewrite Et. split; [exact Hn|]. split; [rewrite El; exact Hwf|]. unfold mval, rds. rewrite Hd. reflexivity.
  - unfold mval, rds in Hm. destruct (mapM _ _); [|discriminate]. injection Hm as <-. reflexivity.
Qed.
Lemma load_step (P : nat -> nat -> nat -> Prop) (s0 s : lst T) id q w nw : fit_ready s0 id -> loaded P s0 s ->
  (forall q t t', P q t t' -> behind (lays s0) id q /\ param (lays s0) q t t') -> behind (lays s0) id q -> param (lays s0) q w nw ->
  exists s', liftT (LoadFromTensor w nw) s = (Ok tt, s') /\ loaded (fun a b c => P a b c \/ (a = q /\ b = w /\ c = nw)) s0 s'.
Proof.
  intros Hr (L1 & L2 & L3 & L4 & Lm & L5 & L6) HP Hb Hp.
  destruct (fr_ok _ _ Hr _ _ _ Hb Hp) as (Hu & v & u & Hv & Hnu & Hsh).
  assert (Hnw : holds (ts s) nw u).
  { apply L6; [|exact Hnu]. intros q1 t1 t1' H1. destruct (HP _ _ _ H1) as [X1 X2]. exact (fr_new _ _ Hr _ _ _ _ _ _ X1 Hb X2 Hp). }
  destruct (holds_same_shape _ (ts s) _ _ L3 Lm Hv) as (v' & Hv' & Hsh').
  destruct (LoadFromTensor_spec (ts s) w nw v' u Hv') as (s' & E & A1 & A2 & A3 & A4).
  { unfold unshared. rewrite (cells_eq _ _ _ L3). exact Hu. }
  { exact Hnw. }
  { eapply apart_eq; [exact L3|]. exact (fr_new _ _ Hr _ _ _ _ _ _ Hb Hb Hp Hp). }
  { congruence. }
  exists (MkL s' (lays s) (rc s)). split; [unfold liftT; rewrite E; reflexivity|].
  pose proof (LoadFromTensor_only _ _ _ _ _ E) as (_ & _ & Al & _).
  split; [exact L1|]. split; [exact L2|]. cbn [ts]. split; [congruence|]. split; [congruence|]. split; [congruence|]. split.
  - intros q1 t1 t1' u1 [H1|(-> & -> & ->)] Hu1.
    + destruct (HP _ _ _ H1) as [Hb1 Hp1]. destruct (fr_apart _ _ Hr _ _ _ _ _ _ Hb Hb1 Hp Hp1) as [[<- <-]|Ha].
      * rewrite <- (holds_fun _ _ _ _ Hnu Hu1). exact A3.
      * apply A4; [eapply apart_eq; eassumption|]. eapply L5; eassumption.
    + rewrite <- (holds_fun _ _ _ _ Hnu Hu1). exact A3.
  - intros p x Ha Hx. apply A4; [eapply apart_eq; [exact L3|]; apply (Ha q w nw); auto|].
    apply L6; [|exact Hx]. intros q1 t1 t1' H1. apply (Ha q1 t1 t1'). auto.
Qed.
Lemma fit_self_loaded (P : nat -> nat -> nat -> Prop) (s0 s : lst T) id q l : fit_ready s0 id -> loaded P s0 s ->
  (forall q t t', P q t t' -> behind (lays s0) id q /\ param (lays s0) q t t') -> behind (lays s0) id q -> lays s0 !! q = Some l ->
  exists s', fit_self l s = (Ok tt, s') /\ loaded (fun a b c => P a b c \/ (a = q /\ param (lays s0) q b c)) s0 s'.
Proof.
  intros Hr L HP Hb Hl. unfold fit_self. destruct (lflag l BTrainable) eqn:Et; cbn [negb].
  2:{ exists s. split; [reflexivity|]. eapply loaded_ext; [|exact L]. intros a b c. split; [auto|]. intros [Hx|(-> & l' & Hl' & Ht & _)]; [exact Hx|]. congruence. }
  assert (Hw : exists s1, fit_weights l s = (Ok tt, s1) /\
    loaded (fun a b c => P a b c \/ (a = q /\ lten l FWeights = Some b /\ lten l FNWeights = Some c)) s0 s1).
  { unfold fit_weights. destruct (lten l FWeights) as [w|] eqn:Ew; destruct (lten l FNWeights) as [nw|] eqn:Enw;
      try (exists s; split; [reflexivity|]; eapply loaded_ext; [|exact L]; intros a b c; split; [auto|]; intros [Hx|(_ & ? & ?)]; [exact Hx|discriminate]).
    destruct (load_step P s0 s id q w nw Hr L HP Hb) as (s1 & E & L1); [exists l; auto|]. exists s1. split; [exact E|].
    eapply loaded_ext; [|exact L1]. intros a b c. split; (intros [Hx|(-> & Hx)]; [auto|right]); (split; [reflexivity|]); destruct Hx; split; congruence. }
  destruct Hw as (s1 & E1 & L1). rewrite (mbnd_ok _ _ _ _ _ E1). unfold fit_bias.
  pose proof (fr_bias _ _ Hr _ _ Hb Hl Et) as Hbb.
  destruct (lten l FBias) as [b|] eqn:Eb; destruct (lten l FNBias) as [nb|] eqn:Enb.
  - destruct (load_step _ s0 s1 id q b nb Hr L1) as (s2 & E2 & L2); [|exact Hb|exists l; auto|].
    { intros a x y [Hx|(-> & Ew & Enw)]; [auto|]. split; [exact Hb|]. exists l. auto. }
    exists s2. split; [exact E2|]. eapply loaded_ext; [|exact L2]. intros a x y. cbv beta. split.
    + intros [[Hx|(-> & Ew & Enw)]|(-> & -> & ->)]; [auto|right|right]; (split; [reflexivity|]); exists l; auto.
    + intros [Hx|(-> & l' & Hl' & _ & [[X Y]|[X Y]])]; [auto| |]; rewrite Hl in Hl'; injection Hl' as <-; [auto|].
      right. split; [reflexivity|]. split; congruence.
  - destruct Hbb as [_ Hbb]. discriminate Hbb. reflexivity.
  - destruct Hbb as [Hbb _]. discriminate Hbb. reflexivity.
  - exists s1. split; [reflexivity|]. eapply loaded_ext; [|exact L1]. intros a x y. cbv beta. split.
    + intros [Hx|(-> & Ew & Enw)]; [auto|right]. split; [reflexivity|]. exists l. auto.
    + intros [Hx|(-> & l' & Hl' & _ & [[X Y]|[X Y]])]; [auto| |]; rewrite Hl in Hl'; injection Hl' as <-; [auto|congruence].
Qed.
Lemma behind_trans ls a b c : behind (T:=T) ls a b -> behind ls b c -> behind ls a c.
Proof. intros Ha. induction Ha as [|p l r q Hp Hl Ha IH]; intros Hc; [exact Hc|]. eapply behind_step; [exact Hp|exact Hl|]. apply IH. exact Hc. Qed.
Lemma behind_depth ls id k q : depth (T:=T) ls id k -> behind ls id q -> q = id \/ exists l r, ls !! id = Some l /\ lpre l = Some r /\ behind ls r q.
Proof. intros _ Hb. destruct Hb as [|p l r q Hp Hl Hb]; [auto|]. right. eauto. Qed.
Lemma LFit_loaded_n n : forall id0 id k (s : lst T), fit_ready s id0 -> behind (lays s) id0 id -> depth (lays s) id k -> k <= n ->
  exists s', LFit n id s = (Ok tt, s') /\ loaded (fun q t t' => behind (lays s) id q /\ param (lays s) q t t') s s'.
Proof.
  induction n as [|n IH]; intros id0 id k s Hr Hb Hd Hk; [destruct Hd; lia|]. rewrite LFit_S.
  assert (Hl : exists l, lays s !! id = Some l) by (destruct Hd; eauto). destruct Hl as [l Hl].
  unfold mbnd at 1, getL. rewrite Hl.
  destruct (lpre l) as [q|] eqn:Eq.
  - assert (Hdq : exists k', depth (lays s) q k' /\ k' <= n).
    { destruct Hd as [p l' Hp Hn|p l' q' k' Hp Hn Hd]; rewrite Hl in Hp; injection Hp as <-; rewrite Eq in Hn; [discriminate|]. injection Hn as <-. exists k'. split; [exact Hd|lia]. }
    destruct Hdq as (k' & Hdq & Hk').
    assert (Hbq : behind (lays s) id0 q).
    { eapply behind_trans; [exact Hb|]. eapply behind_step; [exact Hl|exact Eq|apply behind_same]. }
    destruct (IH id0 q k' s Hr Hbq Hdq Hk') as (s1 & E1 & L1).
    erewrite mbnd_ok by (unfold ignore_err; rewrite E1; reflexivity).
    destruct (fit_self_loaded _ s s1 id0 id l Hr L1) as (s2 & E2 & L2); [|exact Hb|exact Hl|].
    { intros a b c [Ha Hp]. split; [|exact Hp]. eapply behind_trans; [exact Hbq|exact Ha]. }
    exists s2. split; [exact E2|]. eapply loaded_ext; [|exact L2]. intros a b c. cbv beta. split.
    + intros [[Ha Hp]|[-> Hp]]; (split; [|exact Hp]); [eapply behind_step; eassumption|apply behind_same].
    + intros [Ha Hp]. destruct (behind_depth _ _ _ _ Hd Ha) as [->|(l' & r & Hl' & Hr' & Ha')]; [auto|]. left. split; [|exact Hp]. congruence.
  - erewrite mbnd_ok by reflexivity.
    destruct (fit_self_loaded (fun _ _ _ => False) s s id0 id l Hr) as (s2 & E2 & L2); [|intros ? ? ? []|exact Hb|exact Hl|].
    { repeat (split; [reflexivity|]). split; [intros ? ? ? ? []|auto]. }
    exists s2. split; [exact E2|]. eapply loaded_ext; [|exact L2]. intros a b c. cbv beta. split.
    + intros [[]|[-> Hp]]; (split; [|exact Hp]); apply behind_same.
    + intros [Ha Hp]. destruct (behind_depth _ _ _ _ Hd Ha) as [->|(l' & r & Hl' & Hr' & Ha')]; [auto|]. congruence.
Qed.

(** ** The depth is at most the number of layers *)
Lemma depth_fun ls p k : depth (T:=T) ls p k -> forall k', depth ls p k' -> k = k'.
Proof.
  intros Hd. induction Hd as [p l Hp Hn|p l q k Hp Hn Hd IH]; intros k' Hd'; destruct Hd' as [p l' Hp' Hn'|p l' q' k' Hp' Hn' Hd']; rewrite Hp in Hp'; injection Hp' as <-; rewrite Hn in Hn'; try discriminate; [reflexivity|].
  injection Hn' as <-. f_equal. apply IH. exact Hd'.
Qed.
Lemma depth_nodes ls p k : depth (T:=T) ls p k -> exists ps, length ps = k /\ NoDup ps /\ Forall (fun q => q < length ls) ps /\ Forall (fun q => exists j, depth ls q j /\ j <= k) ps.
Proof.
  intros Hd. induction Hd as [p l Hp Hn|p l q k Hp Hn Hd IH].
  - exists [p]. split; [reflexivity|]. split; [apply NoDup_singleton|]. split; repeat constructor.
    + eapply lookup_lt_Some. exact Hp.
    + exists 1. split; [eapply depth_first; eassumption|lia].
  - destruct IH as (ps & Hl & Hd1 & Hf & Hj). exists (p :: ps). split; [cbn; lia|]. split; [|split].
    + apply NoDup_cons. split; [|exact Hd1]. intros Hin. rewrite Forall_forall in Hj. destruct (Hj _ Hin) as (j & Hdj & Hjk).
      assert (Hpk : depth ls p (S k)) by (eapply depth_step; eassumption). pose proof (depth_fun _ _ _ Hdj _ Hpk). lia.
    + constructor; [|exact Hf]. eapply lookup_lt_Some. exact Hp.
    + constructor; [exists (S k); split; [eapply depth_step; eassumption|lia]|]. eapply Forall_impl; [exact Hj|]. cbv beta.
      intros x (j & Hdj & Hjk). exists j. split; [exact Hdj|lia].
Qed.
Lemma depth_bound ls p k : depth (T:=T) ls p k -> k <= length ls.
Proof.
  intros Hd. destruct (depth_nodes _ _ _ Hd) as (ps & <- & Hnd & Hf & _).
  rewrite <- (seq_length (length ls) 0). apply NoDup_incl_length; [apply NoDup_ListNoDup; exact Hnd|].
  intros x Hx. rewrite Forall_forall in Hf. apply in_seq. split; [lia|]. apply Hf. apply elem_of_list_In. exact Hx.
Qed.

(** ** Together *)
Theorem fit_reaches (s : lst T) id k : fit_ready s id -> depth (lays s) id k ->
  exists s', with_fuel (fun n => LFit n id) s = (Ok tt, s') /\
    (forall q t t' u, behind (lays s) id q -> param (lays s) q t t' -> holds (ts s) t' u -> holds (ts s') t u) /\
    (forall p v, (forall q t t', behind (lays s) id q -> param (lays s) q t t' -> apart (ts s) t p) -> holds (ts s) p v -> holds (ts s') p v).
Proof.
  intros Hr Hd. unfold with_fuel.
  destruct (LFit_loaded_n (S (length (lays s))) id id k s Hr) as (s' & E & _ & _ & _ & _ & _ & L5 & L6); [apply behind_same|exact Hd|pose proof (depth_bound _ _ _ Hd); lia|].
  exists s'. split; [exact E|]. split.
  - intros q t t' u Hb Hp. apply (L5 q). auto.
  - intros p v Ha. apply L6. intros q t t' [Hb Hp]. eapply Ha; eassumption.
Qed.
(** A Concat layer has no previous layer unless it is pushed on one: what feeds
    it is not behind it. *)
Theorem fit_keeps (s : lst T) id r s' p v : with_fuel (fun n => LFit n id) s = (r, s') ->
  (forall q t t', behind (lays s) id q -> param (lays s) q t t' -> apart (ts s) t p) -> holds (ts s) p v -> holds (ts s') p v /\ lays s' = lays s.
Proof.
  intros E Ha Hv. destruct (LFit_only _ _ _ _ _ E) as (A & _ & B & C & D & F). split; [|exact A].
  destruct Hv as (n & Hn & Hwf & Hm). exists n. rewrite B. split; [exact Hn|]. split; [rewrite D; exact Hwf|].
  rewrite <- Hm. unfold mval, rds. f_equal. apply Forall_mapM_ext. apply Forall_forall. intros o Ho. destruct o as [a|]; [|reflexivity]. cbn. apply F.
  intros (q & t & t' & Hb & Hp & Hx). apply (Ha q t t' Hb Hp (Some a) Hx). unfold cells. rewrite Hn. exact Ho.
Qed.
End Fit.
