(** * FwdOps: loops that compute one cell after the other *)
From Verif Require Import Base Num ModelTools ModelOps ModelTensor ModelGraph ModelLayer Spec Denote
  IndexProofs ExecProofs TensorFacts AccessProofs BuildProofs CompileProofs FwdBuild FwdSeg NetBuild.
From Coq Require Import Lia ZifyBool ZifyNat ZifyN.

Section FwdOps.
Context {T : Type} `{Num T}.
Implicit Types (s : tst T).

(** ** Nested loops *)
Lemma mfor_app_gen {S A} (l1 l2 : list A) (f : A -> M S unit) (s : S) :
  mfor (l1 ++ l2) f s = (mfor l1 f ;~ mfor l2 f) s.
Proof.
  revert s. induction l1 as [|a l1 IH]; intros s; cbn [app mfor].
  - reflexivity.
  - unfold mbnd. destruct (f a s) as [[[]| | |] s1]; try reflexivity. apply IH.
Qed.
Lemma mfor_ext {S A} (l : list A) (f g : A -> M S unit) (s : S) :
  (forall a (s : S), a ∈ l -> f a s = g a s) -> mfor l f s = mfor l g s.
Proof.
  revert s. induction l as [|a l IH]; intros s Hfg; cbn [mfor]; [reflexivity|].
  unfold mbnd. rewrite Hfg by left. destruct (g a s) as [[[]| | |] s1]; try reflexivity.
  apply IH. intros b s' Hb. apply Hfg. right. exact Hb.
Qed.
Lemma mfor_flat_map {S A B} (h : A -> list B) (l : list A) (f : B -> M S unit) (s : S) :
  mfor (flat_map h l) f s = mfor l (fun a => mfor (h a) f) s.
Proof.
  revert s. induction l as [|a l IH]; intros s; cbn [flat_map mfor]; [reflexivity|].
  rewrite mfor_app_gen. unfold mbnd. destruct (mfor (h a) f s) as [[[]| | |] s1]; try reflexivity. apply IH.
Qed.
Lemma mfor_indices_cons {S} (n : N) (sh : list N) (f : list N -> M S unit) (s : S) :
  mfor (indices (n :: sh)) f s = mfor (urange n) (fun i => mfor (indices sh) (fun idx => f (i :: idx))) s.
Proof.
  cbn [indices]. rewrite mfor_flat_map. apply mfor_ext. intros i s' _. rewrite mfor_map. reflexivity.
Qed.
Lemma mfor_indices_nil {S} (f : list N -> M S unit) (s : S) : mfor (indices []) f s = f [] s.
Proof. cbn. unfold mbnd, mret. destruct (f [] s) as [[[]| | |] s1]; reflexivity. Qed.
Lemma loop3 {S} (a b c : N) (f : N -> N -> N -> M S unit) (s : S) :
  mfor (urange a) (fun i => mfor (urange b) (fun j => mfor (urange c) (f i j))) s =
  mfor (indices [a; b; c]) (fun idx => match idx with [i; j; k] => f i j k | _ => mpanic end) s.
Proof.
  rewrite mfor_indices_cons. apply mfor_ext. intros i s1 _.
  rewrite mfor_indices_cons. apply mfor_ext. intros j s2 _.
  rewrite mfor_indices_cons. apply mfor_ext. intros k s3 _.
  rewrite mfor_indices_nil. reflexivity.
Qed.
(** A loop that only pushes operations. *)
Lemma mfor_push {A} (u : A -> list (op T)) (f : A -> TM T unit) (l : list A) mm tn c :
  (forall a c, a ∈ l -> f a (MkSt mm tn c) = (Ok tt, MkSt mm tn (c ++ u a))) ->
  mfor l f (MkSt mm tn c) = (Ok tt, MkSt mm tn (c ++ flat_map u l)).
Proof.
  revert c. induction l as [|a l IH]; intros c Hf; cbn [mfor flat_map].
  - rewrite app_nil_r. reflexivity.
  - erewrite mbnd_ok by (apply Hf; left). rewrite IH; [rewrite app_assoc; reflexivity|].
    intros b c' Hb. apply Hf. right. exact Hb.
Qed.

(** ** Addresses of cells *)
Definition celladdr (mt : tmat) (idx : list N) : nat :=
  match at_ (shape mt) (operands mt) idx with Some (Some a) => a | _ => 0 end.
Lemma celladdr_at n mt idx : wf_mat n mt -> Forall2 (fun i d => (i < d)%N) idx (shape mt) ->
  at_ (shape mt) (operands mt) idx = Some (Some (celladdr mt idx)) /\ celladdr mt idx < n /\ Some (celladdr mt idx) ∈ operands mt.
Proof.
  intros (_ & _ & Hl & Hv) Hr. unfold celladdr. destruct (at_total (shape mt) (operands mt) idx Hl Hr) as [p Hp]. rewrite Hp.
  destruct (at_valid _ _ _ _ _ Hv Hp) as (a & -> & Ha). split; [reflexivity|]. split; [exact Ha|].
  unfold at_ in Hp. destruct (flat (shape mt) idx); [|discriminate]. eapply elem_of_list_lookup_2. exact Hp.
Qed.
Lemma GetOperand_cell n mt idx : wf_mat n mt -> Forall2 (fun i d => (i < d)%N) idx (shape mt) ->
  GetOperand mt idx = Ok (Some (celladdr mt idx)).
Proof. intros Hwf Hr. eapply GetOperand_at; [exact Hwf|]. apply (celladdr_at n mt idx Hwf Hr). Qed.
Lemma celladdr_lookup n mt k idx : wf_mat n mt -> indices (shape mt) !! k = Some idx ->
  operands mt !! k = Some (Some (celladdr mt idx)).
Proof.
  intros Hwf Hk. pose proof (indices_Forall2 _ _ _ Hk) as Hr. destruct (celladdr_at n mt idx Hwf Hr) as (Ha & _).
  rewrite (at_lookup _ _ _ _ Hk) in Ha. exact Ha.
Qed.
Lemma celladdr_inj n mt i j : wf_mat n mt -> NoDup (operands mt) ->
  Forall2 (fun i d => (i < d)%N) i (shape mt) -> Forall2 (fun i d => (i < d)%N) j (shape mt) ->
  celladdr mt i = celladdr mt j -> i = j.
Proof.
  intros Hwf Hnd Hi Hj E. apply elem_of_indices in Hi, Hj. apply elem_of_list_lookup in Hi as [a Ha], Hj as [b Hb].
  pose proof (celladdr_lookup n mt a i Hwf Ha) as Ea. pose proof (celladdr_lookup n mt b j Hwf Hb) as Eb. rewrite E in Ea.
  pose proof (NoDup_lookup _ _ _ _ Hnd Ea Eb). subst b. congruence.
Qed.
Lemma mval_at n (m : list T) mt v idx : wf_mat n mt -> mval m mt = Some v -> Forall2 (fun i d => (i < d)%N) idx (shape mt) ->
  at_ (vsh v) (vdata v) idx = m !! celladdr mt idx.
Proof.
  intros Hwf Hv Hr. unfold mval in Hv. destruct (rds m (operands mt)) as [d|] eqn:E; [|discriminate]. injection Hv as <-. cbn [vsh vdata].
  rewrite (at_rds _ _ _ _ _ E). destruct (celladdr_at n mt idx Hwf Hr) as (-> & _). reflexivity.
Qed.
Lemma mval_shape (m : list T) mt v : mval m mt = Some v -> vsh v = shape mt /\ length (vdata v) = length (operands mt).
Proof. unfold mval. destruct (rds m (operands mt)) as [d|] eqn:E; [|discriminate]. intros [= <-]. cbn. split; [reflexivity|]. eapply rds_length. exact E. Qed.
Lemma mval_total n (m : list T) mt : wf_mat n mt -> n <= length m -> exists v, mval m mt = Some v.
Proof.
  intros (_ & _ & _ & Hv) Hn. unfold mval, rds. destruct (mapM_total (rd m) (operands mt)) as [d ->]; [|eauto].
  intros p Hp. rewrite Forall_forall in Hv. destruct (Hv _ Hp) as (a & -> & Ha). cbn. apply lookup_lt_is_Some_2. lia.
Qed.
Lemma mval_tab n (m : list T) mt vs : wf_mat n mt ->
  Forall2 (fun idx v => m !! celladdr mt idx = Some v) (indices (shape mt)) vs -> mval m mt = Some (V (shape mt) vs).
Proof.
  intros Hwf Hf. unfold mval, rds. assert (E : mapM (rd m) (operands mt) = Some vs); [|rewrite E; reflexivity].
  apply mapM_Some. apply Forall2_same_length_lookup. pose proof (Forall2_length _ _ _ Hf) as Hl. rewrite indices_length in Hl.
  destruct Hwf as (W1 & W2 & W3 & W4) eqn:Ew. split; [lia|]. intros k p v Hp Hv.
  destruct (Forall2_lookup_r _ _ _ _ _ Hf Hv) as (idx & Hk & Hm).
  rewrite (celladdr_lookup n mt k idx) in Hp by (auto; repeat split; auto; apply W1). injection Hp as <-. exact Hm.
Qed.
(** Reading the same cells gives the same value. *)
Lemma mval_same n (m m' : list T) mt : wf_mat n mt -> (forall l, Some l ∈ operands mt -> m' !! l = m !! l) -> mval m' mt = mval m mt.
Proof. intros _ Hl. unfold mval. rewrite (rds_ext m' m); [reflexivity|exact Hl]. Qed.

Lemma blk_celladdr sh a b idx k : fits sh -> flat sh idx = Some k -> celladdr (blkm sh a b) idx = a + N.to_nat k.
Proof.
  intros Hf Hk. unfold celladdr, at_. cbn [shape blkm operands]. rewrite Hk. pose proof (flat_lt _ _ _ Hk).
  rewrite list_lookup_fmap, lookup_seq_lt by lia. reflexivity.
Qed.
Lemma blk_NoDup sh a b : NoDup (operands (blkm sh a b)).
Proof. cbn. apply NoDup_fmap_2; [intros ? ? [= ->]; reflexivity|]. apply NoDup_seq. Qed.
Lemma blk_ops sh a b l : Some l ∈ operands (blkm sh a b) <-> a <= l < a + N.to_nat (prodN sh).
Proof.
  cbn. rewrite elem_of_list_fmap. split.
  - intros (x & [= <-] & Hx). apply elem_of_seq in Hx. exact Hx.
  - intros Hl. exists l. split; [reflexivity|]. apply elem_of_seq. exact Hl.
Qed.

(** ** Independent pieces, one per cell *)
Section Each.
Context {I : Type}.
Variables (o : I -> nat) (f : I -> option T) (K W : I -> nat -> Prop) (len : nat).
Definition piece (p : I * list (op T)) (m : list T) : Prop :=
  match f (fst p) with
  | Some v => exists m', exec (snd p) m = Some m' /\ m' !! o (fst p) = Some v
  | None => exec (snd p) m = None
  end.
Lemma exec_each : forall (ps : list (I * list (op T))) (m : list T), len = length m ->
  (forall p m', p ∈ ps -> length m' = len -> (forall l, K (fst p) l -> m' !! l = m !! l) -> piece p m') ->
  (forall p m1 m2 l, p ∈ ps -> length m1 = len -> exec (snd p) m1 = Some m2 -> ~ W (fst p) l -> m2 !! l = m1 !! l) ->
  (forall a b p q l, a < b -> ps !! a = Some p -> ps !! b = Some q -> W (fst p) l -> ~ K (fst q) l) ->
  (forall a b p q, a < b -> ps !! a = Some p -> ps !! b = Some q -> ~ W (fst q) (o (fst p))) ->
  match mapM f (map fst ps) with
  | Some vs => exists m', exec (concat (map snd ps)) m = Some m' /\ Forall2 (fun i v => m' !! o i = Some v) (map fst ps) vs
  | None => exec (concat (map snd ps)) m = None
  end.
Proof.
  induction ps as [|p ps IH]; intros m Hlen Hp Hw Hk Ho.
  { cbn. exists m. split; [reflexivity|constructor]. }
  cbn [map concat]. pose proof (Hp p m ltac:(left) (eq_sym Hlen) ltac:(auto)) as P1. unfold piece in P1.
  cbn [mapM]. destruct (f (fst p)) as [v|] eqn:Ef; cbn [mbind option_bind].
  2:{ rewrite exec_app, P1. reflexivity. }
  destruct P1 as (m1 & X1 & V1). pose proof (exec_length _ _ _ X1) as L1.
  assert (Htail : forall b q m', ps !! b = Some q -> length m' = len -> (forall l, K (fst q) l -> m' !! l = m1 !! l) -> piece q m').
  { intros b q m' Hq Hl Hm. apply Hp; [right; eapply elem_of_list_lookup_2; exact Hq|exact Hl|]. intros l HK. rewrite (Hm l HK).
    apply (Hw p m m1 l); [left|lia|exact X1|]. intros HW. eapply (Hk 0 (S b) p q l); [lia|reflexivity|exact Hq|exact HW|exact HK]. }
  specialize (IH m1 ltac:(lia)). rewrite exec_app, X1. cbn [mbind option_bind].
  assert (Hfr : forall m2, exec (concat (map snd ps)) m1 = Some m2 -> m2 !! o (fst p) = Some v).
  { intros m2 Hx2. rewrite <- V1.
    assert (G : forall qs m1' m2', (forall b q, qs !! b = Some q -> exists b', ps !! b' = Some q) -> length m1' = len ->
       exec (concat (map snd qs)) m1' = Some m2' -> m2' !! o (fst p) = m1' !! o (fst p)).
    { induction qs as [|q qs IHq]; intros m1' m2' Hqs Hl' Hx; cbn [map concat] in Hx.
      - injection Hx as <-. reflexivity.
      - rewrite exec_app in Hx. apply bind_Some in Hx as (m3 & Y1 & Y2). pose proof (exec_length _ _ _ Y1).
        rewrite (IHq m3 m2'); [|intros b q' Hq'; apply (Hqs (S b)); exact Hq'|lia|exact Y2].
        destruct (Hqs 0 q eq_refl) as [b Hb]. apply (Hw q m1' m3); [right; eapply elem_of_list_lookup_2; exact Hb|exact Hl'|exact Y1|].
        apply (Ho 0 (S b) p q); [lia|reflexivity|exact Hb]. }
    apply (G ps m1 m2); [eauto|lia|exact Hx2]. }
  assert (Hih : match mapM f (map fst ps) with
     | Some vs => exists m', exec (concat (map snd ps)) m1 = Some m' /\ Forall2 (fun i v => m' !! o i = Some v) (map fst ps) vs
     | None => exec (concat (map snd ps)) m1 = None end).
  { apply IH.
    - intros q m' Hq Hl Hm. apply elem_of_list_lookup in Hq as [b Hq]. eapply Htail; eassumption.
    - intros q m1' m2' l Hq. apply Hw. right. exact Hq.
    - intros a b q r l Hab Ha Hb. apply (Hk (S a) (S b)); [lia|exact Ha|exact Hb].
    - intros a b q r Hab Ha Hb. apply (Ho (S a) (S b)); [lia|exact Ha|exact Hb]. }
  destruct (mapM f (map fst ps)) as [vs|]; cbn.
  - destruct Hih as (m2 & X2 & V2). exists m2. split; [exact X2|]. constructor; [apply Hfr; exact X2|exact V2].
  - exact Hih.
Qed.
End Each.

(** A tensor whose cells are computed by independent pieces. *)
Lemma outcome_each n (out : tmat) (f : list N -> option T) (K W : list N -> nat -> Prop) (ps : list (list N * list (op T))) (m : list T) :
  wf_mat n out -> n <= length m -> map fst ps = indices (shape out) ->
  (forall p m', p ∈ ps -> length m' = length m -> (forall l, K (fst p) l -> m' !! l = m !! l) -> piece (celladdr out) f p m') ->
  (forall p m1 m2 l, p ∈ ps -> length m1 = length m -> exec (snd p) m1 = Some m2 -> ~ W (fst p) l -> m2 !! l = m1 !! l) ->
  (forall i j l, i <> j -> i ∈ indices (shape out) -> j ∈ indices (shape out) -> W i l -> ~ K j l) ->
  (forall i j, i <> j -> i ∈ indices (shape out) -> j ∈ indices (shape out) -> ~ W i (celladdr out j)) ->
  outcome (concat (map snd ps)) m out (tabulate (shape out) f).
Proof.
  intros Hwf Hn Hi Hp Hw Hk Ho.
  assert (Hdiff : forall a b p q, a < b -> ps !! a = Some p -> ps !! b = Some q -> fst p <> fst q /\ fst p ∈ indices (shape out) /\ fst q ∈ indices (shape out)).
  { intros a b p q Hab Ha Hb. pose proof (indices_NoDup (shape out)) as Hnd. rewrite <- Hi in Hnd |- *.
    assert (Ea : map fst ps !! a = Some (fst p)) by (rewrite list_lookup_fmap, Ha; reflexivity).
    assert (Eb : map fst ps !! b = Some (fst q)) by (rewrite list_lookup_fmap, Hb; reflexivity).
    split; [|split; eapply elem_of_list_lookup_2; eassumption].
    intros E. rewrite E in Ea. pose proof (NoDup_lookup _ _ _ _ Hnd Ea Eb). lia. }
  pose proof (exec_each (celladdr out) f K W (length m) ps m eq_refl Hp Hw) as Hx.
  unfold tabulate. rewrite Hi in Hx. destruct (mapM f (indices (shape out))) as [vs|]; cbn [mbind option_bind outcome].
  - destruct Hx as (m' & X & V).
    + intros a b p q l Hab Ha Hb. destruct (Hdiff a b p q Hab Ha Hb) as (? & ? & ?). apply Hk; assumption.
    + intros a b p q Hab Ha Hb. destruct (Hdiff a b p q Hab Ha Hb) as (? & ? & ?). apply Ho; [congruence|assumption|assumption].
    + exists m'. split; [exact X|]. eapply mval_tab; eassumption.
  - apply Hx.
    + intros a b p q l Hab Ha Hb. destruct (Hdiff a b p q Hab Ha Hb) as (? & ? & ?). apply Hk; assumption.
    + intros a b p q Hab Ha Hb. destruct (Hdiff a b p q Hab Ha Hb) as (? & ? & ?). apply Ho; [congruence|assumption|assumption].
Qed.
End FwdOps.
