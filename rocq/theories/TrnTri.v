(** * TrnTri: pieces of a program together with what executing them achieves

    [tri s s' W C P R]: the code led from [s] to [s'] and added operations which
    write at most [W] and rely on the constants [C]; on every memory that
    satisfies [P] executing them succeeds and relates the memory before and
    after by [R]. *)
From Verif Require Import Base Num ModelTools ModelOps ModelTensor ModelGraph ModelLayer Spec Denote FwdSpec
  IndexProofs ExecProofs TensorFacts AccessProofs BuildProofs CompileProofs Agree FwdMask FwdBuild FwdSeg FwdOps FwdPool NetBuild NetChain FwdBody FwdExpr FwdConv FwdConv2 FwdAct
  BwdPost BwdLoop TrnSpec.
From Coq Require Import Lia ZifyBool ZifyNat ZifyN.

Section TrnTri.
Context {T : Type} `{Num T}.
Implicit Types (s : tst T) (m : list T).

Definition ran (W : nat -> Prop) m m' : Prop := length m' = length m /\ forall l, ~ W l -> m' !! l = m !! l.
Lemma ran_refl W m : ran W m m.
Proof using Type. split; auto. Qed.
Lemma ran_trans (W1 W2 : nat -> Prop) m m1 m2 : ran W1 m m1 -> ran W2 m1 m2 -> ran (either W1 W2) m m2.
Proof using Type.
  intros [L1 F1] [L2 F2]. split; [congruence|]. intros l Hl. rewrite F2, F1; [reflexivity| |]; intros Hx; apply Hl; [left|right]; exact Hx.
Qed.
Lemma ran_weaken (W W' : nat -> Prop) m m' : ran W m m' -> (forall l, W l -> W' l) -> ran W' m m'.
Proof using Type. intros [L F] Hw. split; [exact L|]. intros l Hl. apply F. auto. Qed.
Lemma ran_val (W : nat -> Prop) m m' (mt : tmat) : ran W m m' -> (forall l, Some l ∈ operands mt -> ~ W l) -> mval m' mt = mval m mt.
Proof using Type. intros [_ F] Hd. apply mval_off. intros l Hl. apply F. auto. Qed.
Lemma ran_cell (W : nat -> Prop) m m' a : ran W m m' -> ~ W a -> m' !! a = m !! a.
Proof using Type. intros [_ F]. apply F. Qed.
Lemma ran_consts (W : nat -> Prop) m m' (C : list (nat * T)) : ran W m m' -> (forall c, c ∈ C -> ~ W (fst c)) -> consts C m -> consts C m'.
Proof using Type.
  intros [_ F] Hd HC. unfold consts in *. rewrite Forall_forall in HC |- *. intros c Hc. rewrite F; auto.
Qed.

Definition tri s s' (W : nat -> Prop) (C : list (nat * T)) (P : list T -> Prop) (R : list T -> list T -> Prop) : Prop :=
  exists new, seg W s s' new C /\
    forall m, length (mem s') <= length m -> consts C m -> P m -> exists m', exec new m = Some m' /\ ran W m m' /\ R m m'.
Definition any (m : list T) : Prop := True.
Definition stay (m m' : list T) : Prop := m' = m.

Lemma tri_seg s s' W C P R : tri s s' W C P R -> exists new, seg W s s' new C.
Proof using Type. intros (new & S & _). eauto. Qed.
Lemma tri_len s s' W C P R : tri s s' W C P R -> length (mem s) <= length (mem s').
Proof using Type. intros (new & S & _). eapply sg_len; exact S. Qed.
Lemma tri_keep s s' W C P R : tri s s' W C P R -> keeps s s'.
Proof using Type. intros (new & S & _). eapply sg_keep; exact S. Qed.
Lemma tri_W s s' W C P R l : tri s s' W C P R -> W l -> l < length (mem s').
Proof using Type. intros (new & S & _). eapply sg_W; exact S. Qed.
Lemma tri_C s s' W C P R c : tri s s' W C P R -> c ∈ C -> length (mem s) <= fst c < length (mem s') /\ ~ W (fst c) /\ mem s' !! fst c = Some (snd c).
Proof using Type.
  intros (new & S & _) Hc. destruct (proj1 (Forall_forall _ _) (sg_const _ _ _ _ _ S) c Hc) as (H1 & H2 & H3). pose proof (lookup_lt_Some _ _ _ H2). repeat split; auto.
Qed.
Lemma tri_mem s s' W C P R a v : tri s s' W C P R -> mem s !! a = Some v -> mem s' !! a = Some v.
Proof using Type. intros (new & S & _). eapply sg_low; exact S. Qed.

Lemma tri_refl s : tri s s nowhere [] any stay.
Proof using Type.
  exists []. split; [apply seg_refl|]. intros m _ _ _. exists m. split; [reflexivity|]. split; [apply ran_refl|reflexivity].
Qed.
(** Code that adds tensors and scalars and no operations. *)
Lemma tri_quiet s s' C : seg nowhere s s' [] C -> tri s s' nowhere C any stay.
Proof using Type.
  intros S. exists []. split; [exact S|]. intros m _ _ _. exists m. split; [reflexivity|]. split; [apply ran_refl|reflexivity].
Qed.
Lemma tri_seq s s1 s2 W1 W2 C1 C2 P1 P2 R1 R2 : tri s s1 W1 C1 P1 R1 -> tri s1 s2 W2 C2 P2 R2 -> (forall c, c ∈ C1 -> ~ W2 (fst c)) ->
  tri s s2 (either W1 W2) (C1 ++ C2) (fun m => P1 m /\ forall m1, ran W1 m m1 -> R1 m m1 -> P2 m1)
    (fun m m' => exists m1, ran W1 m m1 /\ R1 m m1 /\ ran W2 m1 m' /\ R2 m1 m').
Proof using Type.
  intros (n1 & S1 & X1) T2 HC. pose proof T2 as (n2 & S2 & X2). exists (n1 ++ n2). split; [eapply seg_app; eassumption|].
  intros m Hm HCm [HP1 HP2]. apply consts_app in HCm as [HC1 HC2]. pose proof (sg_len _ _ _ _ _ S2) as L2.
  destruct (X1 m ltac:(lia) HC1 HP1) as (m1 & E1 & F1 & Hr1).
  assert (HC2' : consts C2 m1).
  { eapply ran_consts; [exact F1| |exact HC2]. intros c Hc Hw. destruct (tri_C _ _ _ _ _ _ _ T2 Hc) as (Hb & _). apply (sg_W _ _ _ _ _ S1) in Hw. lia. }
  destruct (X2 m1 ltac:(destruct F1; lia) HC2' (HP2 _ F1 Hr1)) as (m2 & E2 & F2 & Hr2).
  exists m2. split; [rewrite exec_app, E1; exact E2|]. split; [eapply ran_trans; eassumption|]. exists m1. auto.
Qed.
Lemma tri_weaken s s' (W W' : nat -> Prop) C (P P' : list T -> Prop) (R R' : list T -> list T -> Prop) : tri s s' W C P R ->
  (forall l, W l -> W' l) -> (forall l, W' l -> l < length (mem s')) -> (forall c, c ∈ C -> ~ W' (fst c)) ->
  (forall m, length (mem s') <= length m -> consts C m -> P' m -> P m) ->
  (forall m m', length (mem s') <= length m -> consts C m -> P' m -> ran W m m' -> R m m' -> R' m m') -> tri s s' W' C P' R'.
Proof using Type.
  intros (new & S & X) H1 H2 H3 H4 H5. exists new. split; [eapply seg_weaken; eassumption|]. intros m Hm HC HP.
  destruct (X m Hm HC (H4 _ Hm HC HP)) as (m' & E & F & Hr). exists m'. split; [exact E|]. split; [eapply ran_weaken; eassumption|]. eauto.
Qed.
(** Only what is demanded and achieved changes. *)
Lemma tri_post s s' W C (P P' : list T -> Prop) (R R' : list T -> list T -> Prop) : tri s s' W C P R ->
  (forall m, length (mem s') <= length m -> consts C m -> P' m -> P m) ->
  (forall m m', length (mem s') <= length m -> consts C m -> P' m -> ran W m m' -> R m m' -> R' m m') -> tri s s' W C P' R'.
Proof using Type.
  intros Ht H4 H5. eapply tri_weaken; try eassumption; [auto|intros l; eapply tri_W; exact Ht|]. intros c Hc. apply (tri_C _ _ _ _ _ _ _ Ht Hc).
Qed.
(** A piece followed by a quiet one, and the other way round. *)
Lemma tri_then s s1 s2 W C C2 P R : tri s s1 W C P R -> seg nowhere s1 s2 [] C2 -> tri s s2 W (C ++ C2) P R.
Proof using Type.
  intros T1 S2. pose proof (tri_seq _ _ _ _ _ _ _ _ _ _ _ T1 (tri_quiet _ _ _ S2) ltac:(intros ? ? [])) as T3.
  pose proof (sg_len _ _ _ _ _ S2) as L2.
  eapply tri_weaken; [exact T3|intros l [Hl|[]]; exact Hl|intros l Hl; pose proof (tri_W _ _ _ _ _ _ _ T1 Hl); lia| | |].
  - intros c Hc. apply elem_of_app in Hc as [Hc|Hc]; [apply (tri_C _ _ _ _ _ _ _ T1 Hc)|]. intros Hw. pose proof (tri_W _ _ _ _ _ _ _ T1 Hw).
    destruct (proj1 (Forall_forall _ _) (sg_const _ _ _ _ _ S2) c Hc) as (Hb & _). lia.
  - intros m Hm HC HP. split; [exact HP|intros; exact I].
  - intros m m' Hm HC HP _ (m1 & F1 & Hr & _ & ->). exact Hr.
Qed.
Lemma tri_after s s1 s2 W C C1 P R : seg nowhere s s1 [] C1 -> tri s1 s2 W C P R -> (forall c, c ∈ C1 -> ~ W (fst c)) -> tri s s2 W (C1 ++ C) P R.
Proof using Type.
  intros S1 T2 HC. pose proof (tri_seq _ _ _ _ _ _ _ _ _ _ _ (tri_quiet _ _ _ S1) T2 HC) as T3.
  eapply tri_weaken; [exact T3|intros l [[]|Hl]; exact Hl|intros l Hl; exact (tri_W _ _ _ _ _ _ _ T2 Hl)| | |].
  - intros c Hc. apply elem_of_app in Hc as [Hc|Hc]; [auto|apply (tri_C _ _ _ _ _ _ _ T2 Hc)].
  - intros m Hm HCm HP. split; [exact I|]. intros m1 _ ->. exact HP.
  - intros m m' Hm HCm HP _ (m1 & _ & -> & _ & Hr). exact Hr.
Qed.

(** ** Single steps *)
Lemma tri_does s (f : TM T unit) (O : nat -> Prop) R : does s f O R -> (forall l, O l -> l < length (mem s)) ->
  exists s', f s = (Ok tt, s') /\ tens s' = tens s /\ tri s s' (fun l => length (mem s) <= l < length (mem s') \/ O l) [] any R.
Proof using Type.
  intros (k & ops & E & Hd & X) HO. exists (grown s k ops). split; [exact E|]. split; [reflexivity|]. exists ops. rewrite grown_len.
  assert (S : seg (fun l => length (mem s) <= l < length (mem s) + k \/ O l) s (grown s k ops) ops []).
  { apply seg_grown; [exact Hd|]. intros l [Hl|Hl]; [lia|apply HO in Hl; lia]. }
  split; [exact S|]. intros m Hm _ _. destruct (X m Hm) as (m' & Ex & Hr). exists m'. split; [exact Ex|]. split; [|exact Hr].
  split; [eapply exec_length; exact Ex|]. intros l Hl. eapply sg_frame; [exact S|rewrite grown_len; exact Hm|exact Ex|exact Hl].
Qed.
Lemma outcome_ran W s s' new C m (out : tmat) v : seg W s s' new C -> length (mem s') <= length m -> outcome new m out (Some v) ->
  exists m', exec new m = Some m' /\ ran W m m' /\ mval m' out = Some v.
Proof using Type.
  intros S Hm (m' & E & Hv). exists m'. split; [exact E|]. split; [|exact Hv]. split; [eapply exec_length; exact E|]. intros l Hl. eapply sg_frame; eassumption.
Qed.
Definition node_ok s (t : nat) (n : node T) (sh : list N) : Prop := tens s !! t = Some n /\ settled n /\ wf_mat (length (mem s)) (nmat n) /\ shape (nmat n) = sh.
Lemma node_ok_keep s s' t n sh : node_ok s t n sh -> keeps s s' -> length (mem s) <= length (mem s') ->
  exists n', node_ok s' t n' sh /\ operands (nmat n') = operands (nmat n) /\ forall m, mval m (nmat n') = mval m (nmat n).
Proof using Type.
  intros (Hn & Hs & Hw & Hsh) Hk Hl. destruct (Hk _ _ Hn) as (n' & Hn' & K1 & K2 & K3). destruct (K3 Hs) as (E1 & E2 & E3).
  exists n'. split; [|split; [exact E3|intros m; apply mval_kept; assumption]]. split; [exact Hn'|]. split; [eapply keeps_settled; eassumption|].
  split; [eapply wf_kept; try eassumption; eapply wf_mat_mono; eassumption|congruence].
Qed.
Lemma node_ok_den s t n sh : node_ok s t n sh -> den s t (ELeaf t) sh.
Proof using Type. intros (Hn & Hs & Hw & <-). apply den_leaf; assumption. Qed.
Lemma node_ok_eval s t n sh m : node_ok s t n sh -> evals s m (ELeaf t) = mval m (nmat n).
Proof using Type. intros (Hn & Hs & Hw & <-). unfold evals. cbn [eval]. apply leafv_settled; assumption. Qed.
Lemma node_ok_lt s t n sh l : node_ok s t n sh -> Some l ∈ operands (nmat n) -> l < length (mem s).
Proof using Type. intros (Hn & Hs & Hw & <-). apply wf_lt. exact Hw. Qed.
Lemma node_ok_total s t n sh m : node_ok s t n sh -> length (mem s) <= length m -> exists v, mval m (nmat n) = Some v /\ vsh v = sh /\ length (vdata v) = N.to_nat (prodN sh).
Proof using Type.
  intros (Hn & Hs & Hw & <-) Hm. destruct (mval_total _ _ _ Hw Hm) as [v Hv]. exists v. split; [exact Hv|]. destruct (mval_shape _ _ _ Hv) as [E1 E2].
  split; [exact E1|]. rewrite E2. destruct Hw as (_ & _ & Hl & _). exact Hl.
Qed.
Lemma tri_build s id e sh : den s id e sh ->
  exists s' W C n', Build id s = (Ok tt, s') /\ tri s s' W C (fun m => evals s m e <> None) (fun m m' => mval m' (nmat n') = evals s m e) /\
    (forall l, W l -> length (mem s) <= l) /\ length (tens s') = length (tens s) /\ node_ok s' id n' sh /\
    (forall j ej shj, below (view s) id j -> denotes (length (mem s)) (view s) j ej -> shape_of (leafsh (view s)) ej = Some shj ->
       exists nj, node_ok s' j nj shj /\ forall m m' new, seg W s s' new C -> length (mem s') <= length m -> consts C m -> exec new m = Some m' -> mval m' (nmat nj) = evals s m ej).
Proof using Type.
  intros D. destruct (seg_build s id e sh D) as (s' & new & C & W & E & S & HW & Hl & (n' & Hn' & Hb & Hw & Hsh & Ho) & Hbe).
  exists s', W, C, n'. split; [exact E|]. split.
  { exists new. split; [exact S|]. intros m Hm HC HP. specialize (Ho m Hm HC). destruct (evals s m e) as [v|]; [|congruence].
    destruct (outcome_ran _ _ _ _ _ _ _ _ S Hm Ho) as (m' & X & F & Hv). exists m'. auto. }
  split; [exact HW|]. split; [exact Hl|]. split; [split; [exact Hn'|split; [right; exact Hb|auto]]|].
  intros j ej shj H1 H2 H3. destruct (Hbe j ej shj H1 H2 H3) as (nj & Hnj & Hbj & Hwj & Hsj & Hvj). exists nj. split; [split; [exact Hnj|split; [right; exact Hbj|auto]]|].
  intros m m' new' S' Hm HC X. assert (new' = new) as -> by (pose proof (sg_ctx _ _ _ _ _ S) as E1; pose proof (sg_ctx _ _ _ _ _ S') as E2; rewrite E1 in E2; apply app_inv_head in E2; auto).
  destruct (Hvj m m' Hm HC X) as (v & Hv1 & Hv2). congruence.
Qed.
(** Building a tensor that is already there. *)
Lemma tri_settle s t n sh : node_ok s t n sh ->
  exists s', Build t s = (Ok tt, s') /\ mem s' = mem s /\ tri s s' nowhere [] any stay /\ length (tens s') = length (tens s).
Proof using Type.
  intros (Hn & Hs & Hw & Hsh). destruct (TransferProofs.build_settled t t s n Hn Hs) as (s' & new & E & Em & Ec & X & Hl & K).
  exists s'. split; [exact E|]. split; [exact Em|]. split; [|exact Hl]. exists new. split.
  - split; [exists []; rewrite Em, app_nil_r; reflexivity|exact Ec| |constructor|intros l []|].
    + intros m m' l _ Hx _. rewrite X in Hx. congruence.
    + intros j nj Hj. destruct (K _ _ Hj) as (n' & Hn' & (K1 & K2 & K3 & K4) & Kb & _). exists n'. split; [exact Hn'|]. split; [exact K1|]. split; [exact Kb|]. auto.
  - intros m _ _ _. exists m. split; [apply X|]. split; [apply ran_refl|reflexivity].
Qed.
(** A new tensor of zeros, which nothing is going to write. *)
Definition zconst (a k : nat) : list (nat * T) := map (fun l => (l, nzero)) (seq a k).
Lemma seg_zeros_const s sh : fits sh -> exists s' n, NewZeros sh s = (Ok (length (tens s)), s') /\
  seg nowhere s s' [] (zconst (length (mem s)) (N.to_nat (prodN sh))) /\
  n = MkNode KMat (blkm sh (length (mem s)) false) /\ length (mem s') = length (mem s) + N.to_nat (prodN sh) /\ tens s' = tens s ++ [n] /\ node_ok s' (length (tens s)) n sh.
Proof using Type.
  intros Hf. destruct (seg_zeros s sh Hf) as (s' & E & S & Em & Et). exists s', (MkNode KMat (blkm sh (length (mem s)) false)).
  split; [exact E|]. split; [|split; [reflexivity|split; [rewrite Em, app_length, zeros_length; reflexivity|split; [exact Et|]]]].
  - destruct S as [q1 q2 q3 q4 q5 q6]. split; try assumption. apply Forall_forall. intros c Hc. apply elem_of_list_fmap in Hc as (l & -> & Hl). apply elem_of_seq in Hl. cbn [fst snd].
    split; [lia|]. split; [|intros []]. rewrite Em, lookup_app_r by lia. apply lookup_replicate. split; [reflexivity|lia].
  - split; [rewrite Et; rewrite lookup_app_r by lia; rewrite Nat.sub_diag; reflexivity|]. split; [apply settled_mat|]. split; [|reflexivity].
    cbn [nmat]. split; [exact Hf|]. split; [reflexivity|]. cbn [blkm operands shape]. split; [rewrite map_length, seq_length; reflexivity|].
    apply Forall_forall. intros p Hp. apply elem_of_list_fmap in Hp as (l & -> & Hl). apply elem_of_seq in Hl. exists l. split; [reflexivity|]. rewrite Em, app_length, zeros_length. lia.
Qed.
Lemma zconst_val m a sh b : consts (zconst a (N.to_nat (prodN sh))) m -> mval m (blkm sh a b) = Some (vzero sh).
Proof using Type.
  intros HC. unfold mval, vzero. cbn [blkm operands shape]. unfold consts, zconst in HC. rewrite Forall_forall in HC.
  assert (E : rds m (map Some (seq a (N.to_nat (prodN sh)))) = Some (replicate (N.to_nat (prodN sh)) nzero)); [|rewrite E; reflexivity].
  unfold rds. assert (HC' : forall l, a <= l < a + N.to_nat (prodN sh) -> m !! l = Some nzero).
  { intros l Hl. apply (HC (l, nzero)). apply elem_of_list_fmap. exists l. split; [reflexivity|]. apply elem_of_seq. exact Hl. }
  clear HC. revert a HC'. induction (N.to_nat (prodN sh)) as [|k IH]; intros a HC; [reflexivity|]. cbn [seq map mapM replicate].
  cbn [rd]. rewrite HC by lia. cbn [mbind option_bind]. rewrite IH; [reflexivity|]. intros l Hl. apply HC. lia.
Qed.
(** Copying one tensor to another. *)
Lemma tri_transfer s f t nf nt shf sht : node_ok s f nf shf -> node_ok s t nt sht -> prodN shf = prodN sht -> NoDup (operands (nmat nt)) ->
  (forall l, Some l ∈ operands (nmat nf) -> Some l ∉ operands (nmat nt)) ->
  exists s', Transfer f t s = (Ok tt, s') /\ mem s' = mem s /\
    tri s s' (fun l => Some l ∈ operands (nmat nt)) [] any (fun m m' => forall v, mval m (nmat nf) = Some v -> mval m' (nmat nt) = Some (V sht (vdata v))).
Proof using Type.
  intros (Hf & Hsf & Hwf & Hshf) (Ht & Hst & Hwt & Hsht) Hp Hnd Hd. pose proof Hwf as (_ & _ & Lf & Vf). pose proof Hwt as (_ & _ & Lt & Vt).
  destruct (transfer_seg s f t nf nt Hf Hsf Ht Hst Vf Vt ltac:(rewrite Lf, Lt, Hshf, Hsht, Hp; reflexivity) Hnd Hd) as (s' & new & E & Em & S & X).
  exists s'. split; [exact E|]. split; [exact Em|]. exists new. split; [exact S|]. intros m Hm _ _. rewrite Em in Hm. destruct (X m Hm) as (m' & Ex & Hr).
  exists m'. split; [exact Ex|]. split.
  - split; [eapply exec_length; exact Ex|]. intros l Hl. eapply sg_frame; [exact S|rewrite Em; exact Hm|exact Ex|exact Hl].
  - intros v Hv. unfold mval in *. rewrite Hr. destruct (rds m (operands (nmat nf))) as [d|]; [|discriminate]. injection Hv as <-. rewrite Hsht. reflexivity.
Qed.
End TrnTri.
