(** * ExecProofs: facts about running operations on a memory *)
From Verif Require Import Base Num ModelOps.
From Coq Require Import Lia.

Section ExecFacts.
Context {T : Type} `{Num T}.
Implicit Types (m : list T) (o : op T) (ops : list (op T)).

(** Addresses read by an operation. *)
Definition op_args (o : op T) : list ptr :=
  match o with
  | OScalar _ => []
  | OAbs _ a | ONeg _ a | OSet _ a | OFunc _ a _ => [a]
  | OAdd _ a b | OSub _ a b | OMul _ a b | ODiv _ a b | OEquals _ a b => [a; b]
  | OSum _ l | OAvg _ l | OMax _ l | OMin _ l => l
  end.

(** Addresses written by a list of operations. *)
Definition dst_in (l : nat) (ops : list (op T)) : Prop :=
  exists o, o ∈ ops /\ op_dst o = Some (Some l).

Lemma exec_app ops1 ops2 m :
  exec (ops1 ++ ops2) m = (m' ← exec ops1 m; exec ops2 m').
Proof.
  revert m. induction ops1 as [|o ops1 IH]; intros m; cbn; [reflexivity|].
  destruct (cal o m) as [m'|]; cbn; [apply IH|reflexivity].
Qed.

Lemma wr_Some m l v : l < length m -> wr m (Some l) v = Some (<[l := v]> m).
Proof. intros Hl. cbn. rewrite decide_True by assumption. reflexivity. Qed.
Lemma wr_length m p v m' : wr m p v = Some m' -> length m' = length m.
Proof.
  destruct p as [l|]; cbn; [|discriminate]. case_decide; [|discriminate].
  intros [= <-]. apply insert_length.
Qed.
Lemma wr_frame m p v m' l : wr m p v = Some m' -> p <> Some l -> m' !! l = m !! l.
Proof.
  destruct p as [k|]; cbn; [|discriminate]. case_decide; [|discriminate].
  intros [= <-] Hne. apply list_lookup_insert_ne. congruence.
Qed.

Lemma cal_length o m m' : cal o m = Some m' -> length m' = length m.
Proof.
  unfold cal. destruct (op_dst o) as [d|]; [|congruence].
  destruct (op_value o m); cbn; [apply wr_length|discriminate].
Qed.
Lemma exec_length ops : forall m m', exec ops m = Some m' -> length m' = length m.
Proof.
  induction ops as [|o ops IH]; intros m m'; cbn; [congruence|].
  destruct (cal o m) as [m1|] eqn:E; cbn; [|discriminate].
  intros E2. rewrite (IH _ _ E2). eapply cal_length; eassumption.
Qed.
Lemma cal_frame o m m' l : cal o m = Some m' -> op_dst o <> Some (Some l) -> m' !! l = m !! l.
Proof.
  unfold cal. destruct (op_dst o) as [d|]; [|intros [= ->]; auto].
  destruct (op_value o m) as [v|]; cbn; [|discriminate].
  intros Hw Hne. eapply wr_frame; [eassumption|intros ->; auto].
Qed.
Lemma exec_frame ops : forall m m' l,
  exec ops m = Some m' -> ~ dst_in l ops -> m' !! l = m !! l.
Proof.
  induction ops as [|o ops IH]; intros m m' l; cbn; [intros [= ->]; auto|].
  destruct (cal o m) as [m1|] eqn:E; cbn; [|discriminate].
  intros E2 Hn. rewrite (IH _ _ _ E2), (cal_frame _ _ _ _ E); [reflexivity| |].
  - intros Hd. apply Hn. exists o. split; [left|assumption].
  - intros (o' & Ho & Hd). apply Hn. exists o'. split; [right; assumption|assumption].
Qed.

Lemma dst_in_app l a b : dst_in l (a ++ b) <-> dst_in l a \/ dst_in l b.
Proof.
  unfold dst_in. split.
  - intros (o & Ho & Hd). apply elem_of_app in Ho as [Ho|Ho]; eauto.
  - intros [(o & Ho & Hd)|(o & Ho & Hd)]; exists o; rewrite elem_of_app; auto.
Qed.
Lemma dst_in_nil l : ~ dst_in l [].
Proof. intros (o & Ho & _). inversion Ho. Qed.
Lemma dst_in_cons l o ops : dst_in l (o :: ops) <-> op_dst o = Some (Some l) \/ dst_in l ops.
Proof.
  unfold dst_in. split.
  - intros (o' & Ho & Hd). apply elem_of_cons in Ho as [->|Ho]; eauto.
  - intros [Hd|(o' & Ho & Hd)]; eexists; rewrite elem_of_cons; eauto.
Qed.

(** Operations only see the addresses they read. *)
Lemma rds_ext m m' ps :
  (forall l, Some l ∈ ps -> m !! l = m' !! l) -> rds m ps = rds m' ps.
Proof.
  intros Hl. unfold rds. apply Forall_mapM_ext. apply Forall_forall.
  intros [l|] Hp; cbn; [apply Hl; assumption|reflexivity].
Qed.
Lemma op_value_ext o m m' :
  (forall l, Some l ∈ op_args o -> m !! l = m' !! l) -> op_value o m = op_value o m'.
Proof.
  intros Hl.
  assert (Hrd : forall p, p ∈ op_args o -> rd m p = rd m' p).
  { intros [l|] Hp; cbn; [apply Hl; assumption|reflexivity]. }
  destruct o; cbn [op_value op_args] in *;
    rewrite ?(rds_ext m m' args Hl); rewrite ?(Hrd a) by (rewrite ?elem_of_cons; auto); rewrite ?(Hrd b) by (rewrite ?elem_of_cons; auto); reflexivity.
Qed.

Lemma list_inserts_snoc (vs : list T) : forall b v m,
  list_inserts b (v :: vs) m = <[b := v]> (list_inserts (S b) vs m).
Proof. reflexivity. Qed.

(** A block of operations whose i-th element writes address [b + i] and reads,
    among the addresses of the block, at most its own. *)
Lemma exec_block ops : forall b m,
  (forall i o, ops !! i = Some o -> op_dst o = Some (Some (b + i))) ->
  (forall i o l, ops !! i = Some o -> Some l ∈ op_args o -> l = b + i \/ l < b \/ b + length ops <= l) ->
  b + length ops <= length m ->
  exec ops m = (vs ← mapM (fun o => op_value o m) ops; Some (list_inserts b vs m)).
Proof.
  induction ops as [|o ops IH]; intros b m Hd Ha Hlen; [reflexivity|].
  cbn [exec mapM length] in *.
  unfold cal at 1. rewrite (Hd 0 o eq_refl). rewrite Nat.add_0_r.
  destruct (op_value o m) as [v|] eqn:Ev; cbn [mbind option_bind]; [|reflexivity].
  rewrite wr_Some by lia. cbn [mbind option_bind].
  rewrite (IH (S b)).
  - assert (mapM (fun o => op_value o (<[b:=v]> m)) ops = mapM (fun o => op_value o m) ops) as ->.
    { apply Forall_mapM_ext. apply Forall_lookup. intros i x Hx. apply op_value_ext.
      intros l Hl. apply list_lookup_insert_ne.
      destruct (Ha (S i) x l Hx Hl) as [->|[?|?]]; lia. }
    destruct (mapM (fun o => op_value o m) ops) as [vs|] eqn:Em; cbn; [|reflexivity].
    f_equal. 
    assert (forall k, b < k -> list_inserts k vs (<[b:=v]> m) = <[b:=v]> (list_inserts k vs m)) as Hc.
    { clear. revert m. induction vs as [|w vs IH]; intros m k Hk; cbn; [reflexivity|].
      rewrite IH by lia. apply list_insert_commute. lia. }
    apply Hc. lia.
  - intros i x Hx. rewrite (Hd (S i) x Hx). do 2 f_equal. lia.
  - intros i x l Hx Hl. destruct (Ha (S i) x l Hx Hl) as [->|[?|?]]; lia.
  - rewrite insert_length. lia.
Qed.

Lemma list_lookup_inserts_out (vs : list T) b m l :
  l < b \/ b + length vs <= l -> list_inserts b vs m !! l = m !! l.
Proof.
  intros [Hl|Hl]; [apply list_lookup_inserts_lt; assumption|apply list_lookup_inserts_ge; assumption].
Qed.

Lemma rds_app m a b : rds m (a ++ b) = (x ← rds m a; y ← rds m b; Some (x ++ y)).
Proof.
  unfold rds. induction a as [|p a IH]; cbn.
  - destruct (mapM (rd m) b); reflexivity.
  - destruct (rd m p); cbn; [|reflexivity]. rewrite IH.
    destruct (mapM (rd m) a); cbn; [|reflexivity]. destruct (mapM (rd m) b); reflexivity.
Qed.

(** Reading back a contiguous block. *)
Lemma rds_seq m b vs :
  (forall i, i < length vs -> m !! (b + i) = vs !! i) ->
  rds m (map Some (seq b (length vs))) = Some vs.
Proof.
  revert b. induction vs as [|v vs IH]; intros b Hv; [reflexivity|].
  cbn [length seq map]. unfold rds in *. cbn [mapM].
  cbn [rd]. rewrite <- (Nat.add_0_r b) at 1. rewrite (Hv 0) by (cbn; lia). cbn.
  rewrite (IH (S b)); [reflexivity|].
  intros i Hi. replace (S b + i) with (b + S i) by lia. rewrite Hv by (cbn; lia). reflexivity.
Qed.

Lemma rds_Some_valid m ps :
  Forall (fun p => exists l, p = Some l /\ l < length m) ps -> exists vs, rds m ps = Some vs.
Proof.
  intros Hf. apply mapM_is_Some_2. eapply Forall_impl; [exact Hf|].
  intros p (l & -> & Hl). cbn. apply lookup_lt_is_Some_2. assumption.
Qed.
Lemma rds_length m ps vs : rds m ps = Some vs -> length vs = length ps.
Proof. intros E. symmetry. eapply mapM_length. exact E. Qed.
Lemma rds_lookup m ps vs i :
  rds m ps = Some vs -> vs !! i = (p ← ps !! i; rd m p).
Proof.
  unfold rds. intros E. apply mapM_Some in E.
  destruct (ps !! i) as [p|] eqn:Ep; cbn.
  - eapply Forall2_lookup_l in E as (v & Hv & Hr); [|eassumption]. congruence.
  - apply lookup_ge_None in Ep. apply lookup_ge_None. apply Forall2_length in E. lia.
Qed.
End ExecFacts.
