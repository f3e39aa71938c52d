(** * FwdExpr: flattening, soft max, slicing, joining and normalizing layers *)
From Verif Require Import Base Num ModelTools ModelOps ModelTensor ModelGraph ModelLayer Spec Denote FwdSpec
  IndexProofs ExecProofs TensorFacts AccessProofs BuildProofs CompileProofs Agree FwdMask FwdBuild FwdSeg FwdOps FwdPool NetBuild NetChain FwdProv FwdBody.
From Coq Require Import Lia ZifyBool ZifyNat ZifyN.

Section FwdExpr.
Context {T : Type} `{Num T}.

Lemma mval_kept (n n' : node T) (m : list T) : shape (nmat n') = shape (nmat n) -> operands (nmat n') = operands (nmat n) -> mval m (nmat n') = mval m (nmat n).
Proof using Type. intros E1 E2. unfold mval. rewrite E1, E2. reflexivity. Qed.
Lemma wf_kept k (n n' : node T) : shape (nmat n') = shape (nmat n) -> mulindex (nmat n') = mulindex (nmat n) -> operands (nmat n') = operands (nmat n) ->
  wf_mat k (nmat n) -> wf_mat k (nmat n').
Proof using Type. intros E1 E2 E3. unfold wf_mat. rewrite E1, E2, E3. auto. Qed.

(** How the operations of a layer and of building its output fit together. *)
Record built (t1 t2 : tst T) (W1 : nat -> Prop) (new1 : list (op T)) (C1 : list (nat * T)) (out : nat) (new : list (op T)) (C : list (nat * T)) (W : nat -> Prop) (no_ : node T) : Prop := {
  bu_W : forall l, W l -> W1 l \/ length (mem t1) <= l;
  bu_C : forall c, c ∈ C -> c ∈ C1 \/ length (mem t1) <= fst c;
  bu_W2 : forall l, W l -> l < length (mem t2);
  bu_C2 : forall c, c ∈ C -> fst c < length (mem t2);
  bu_C1 : forall c, c ∈ C1 -> c ∈ C;
  bu_wf : wf_mat (length (mem t2)) (nmat no_);
  bu_len : length (mem t1) <= length (mem t2);
  bu_ops : exists n2, tens t2 !! out = Some n2 /\ operands (nmat no_) = operands (nmat n2);
  bu_new : exists new2, new = new1 ++ new2 /\ forall m m' a, length (mem t2) <= length m -> exec new2 m = Some m' -> a < length (mem t1) -> m' !! a = m !! a;
  bu_mem : forall a w, mem t1 !! a = Some w -> mem t2 !! a = Some w;
}.
Lemma build_post_w (s : lst T) id L t0 t1 (W1 : nat -> Prop) new1 C1 out e sh (V : option (vten T * vten T) -> list T -> option (vten T) -> Prop) :
  touched s L t0 -> seg W1 t0 t1 new1 C1 -> (forall l, W1 l -> length (mem t0) <= l) -> den t1 out e sh ->
  (forall p m r, length (mem t1) <= length m -> consts C1 m -> V p m r ->
     match exec new1 m with Some m1 => evals t1 m1 e = r | None => r = None end) ->
  exists t2, Build out t1 = (Ok tt, t2) /\ (exists n, tens t2 !! out = Some n /\ shape (nmat n) = sh) /\ keeps t1 t2 /\
    forall t3 L' c, seg nowhere t2 t3 [] [] -> same_lay L L' -> (lref L' = lref L \/ exists r, lref L' = Some r /\ pre_ref s L r) ->
      lten L' FOutput = Some out -> (exists d, lten L' FDif = Some d) ->
      exists new C (W : nat -> Prop) no_, built t1 t2 W1 new1 C1 out new C W no_ /\ body_post nowhere s (MkL t3 (<[id := L']> (lays s)) c) id L V None sh t0 L' new C W out no_.
Proof using Type.
  intros Ht S1 HW1 Hd HV. destruct (seg_build t1 out e sh Hd) as (t2 & new2 & C2 & W2 & EB & S2 & HW2 & Hl2 & (n2 & Hn2 & Hb2 & Hwf2 & Hsh2 & Hout) & _).
  exists t2. split; [exact EB|]. split; [eauto|]. split; [exact (sg_keep _ _ _ _ _ S2)|]. intros t3 L' c S3 Hsame Href Ho Hdif.
  pose proof (sg_len _ _ _ _ _ S1) as L1. pose proof (sg_len _ _ _ _ _ S2) as L2. pose proof (sg_len _ _ _ _ _ S3) as L3.
  destruct Ht as (Ht1 & Ht2 & Ht3 & Ht4). pose proof (proj1 (Forall_forall _ _) (sg_const _ _ _ _ _ S1)) as HC1. pose proof (proj1 (Forall_forall _ _) (sg_const _ _ _ _ _ S2)) as HC2.
  assert (S12 : seg (either W1 W2) t0 t2 (new1 ++ new2) (C1 ++ C2)).
  { eapply seg_app; [exact S1|exact S2|]. intros c0 Hc0 Hw. apply HW2 in Hw. destruct (HC1 _ Hc0) as (_ & Hm & _). apply lookup_lt_Some in Hm. lia. }
  pose proof (seg_app _ _ _ _ _ _ _ _ _ S12 S3 ltac:(intros ? ? [])) as S123. rewrite !app_nil_r in S123.
  destruct (sg_keep _ _ _ _ _ S3 _ _ Hn2) as (n3 & Hn3 & Hk3 & Hb3 & Hs3). destruct (Hs3 (or_intror Hb2)) as (E1 & E2 & E3).
  exists (new1 ++ new2), (C1 ++ C2), (either W1 W2), n3. split.
  { split.
    - intros l [Hl|Hl]; auto.
    - intros c0 Hc0; apply elem_of_app in Hc0 as [Hc0|Hc0]; [auto|right; apply HC2; exact Hc0].
    - intros l [Hl|Hl]; [apply (sg_W _ _ _ _ _ S1) in Hl|apply (sg_W _ _ _ _ _ S2) in Hl]; lia.
    - intros c0 Hc0. destruct (proj1 (Forall_forall _ _) (sg_const _ _ _ _ _ S12) c0 Hc0) as (_ & Hm & _). apply lookup_lt_Some in Hm. exact Hm.
    - intros c0 Hc0. apply elem_of_app. left. exact Hc0.
    - eapply wf_kept; try eassumption.
    - exact L2.
    - exists n2. split; [exact Hn2|exact E3].
    - exists new2. split; [reflexivity|]. intros m m' a Hm Hx Ha. eapply (sg_frame _ _ _ _ _ S2); [exact Hm|exact Hx|]. intros Hw. apply HW2 in Hw. lia.
    - intros a w Ha. destruct (sg_mem _ _ _ _ _ S2) as [e2 ->]. apply lookup_app_l_Some. exact Ha. }
  split.
  - repeat split; assumption.
  - reflexivity.
  - exact Hsame.
  - exact Href.
  - cbn [ts]. eapply seg_weaken; [exact S123| | |].
    + intros l [Hl|[]]. exact Hl.
    + intros l [Hl|Hl]; [apply (sg_W _ _ _ _ _ S1) in Hl|apply (sg_W _ _ _ _ _ S2) in Hl]; lia.
    + intros c0 Hc0. apply elem_of_app in Hc0. intros Hw. rewrite <- (app_nil_r (C1 ++ C2)) in S123.
      pose proof (proj1 (Forall_forall _ _) (sg_const _ _ _ _ _ S12) c0) as Hcc. destruct Hcc as (_ & _ & Hcc); [apply elem_of_app; tauto|]. exact (Hcc Hw).
  - intros l [Hl|Hl]; left; [apply HW1 in Hl|apply HW2 in Hl]; lia.
  - exact Ho.
  - exact Hdif.
  - exact Hn3.
  - right. auto.
  - cbn [ts]. eapply wf_kept; try eassumption. eapply wf_mat_mono; eassumption.
  - congruence.
  - discriminate.
  - intros m r Hm HC Hr. cbn [ts] in *. apply consts_app in HC as [HCa HCb]. assert (Hm1 : length (mem t1) <= length m) by lia. specialize (HV _ m r Hm1 HCa Hr).
    destruct (exec new1 m) as [m1|] eqn:Hx1.
    + pose proof (exec_length _ _ _ Hx1) as Hlen.
      assert (HC2' : consts C2 m1).
      { eapply (seg_const_keep _ _ _ _ _ m m1); [exact S1|lia|exact Hx1| |exact HCb]. intros c0 Hc0 Hw. apply (sg_W _ _ _ _ _ S1) in Hw. destruct (HC2 _ Hc0). lia. }
      specialize (Hout m1 ltac:(lia) HC2'). rewrite HV in Hout. destruct r as [v|]; cbn [outcome] in *.
      * destruct Hout as (m2 & Hx2 & Hv2). exists m2. rewrite exec_app, Hx1. split; [exact Hx2|]. rewrite (mval_kept _ _ _ E1 E3). exact Hv2.
      * rewrite exec_app, Hx1. exact Hout.
    + subst r. cbn. rewrite exec_app, Hx1. reflexivity.
Qed.

(** Reading a layer that is not a connected input. *)
Lemma GetT_direct (s : lst T) q Lq f : lays s !! q = Some Lq -> (lkind_of Lq = LInput -> lpre Lq = None) ->
  with_fuel (fun n => GetT n f q) s = (Ok (lten Lq f), s).
Proof using Type.
  intros Hq Hin. unfold with_fuel. cbn [GetT]. erewrite mbnd_ok by (apply getL_ok; exact Hq).
  destruct (lkind_of Lq) eqn:Hk; try (destruct (lpre Lq); reflexivity). rewrite Hin by reflexivity. reflexivity.
Qed.
(** The layer below, already done. *)
Record below_lay (s : lst T) (id : nat) (L : layer T) (q : nat) (Lq : layer T) (inp d r : nat) : Prop := {
  bl_pre : lpre L = Some q;
  bl_at : lays s !! q = Some Lq;
  bl_ne : q <> id;
  bl_in : lkind_of Lq = LInput -> lpre Lq = None;
  bl_out : lten Lq FOutput = Some inp;
  bl_dif : lten Lq FDif = Some d;
  bl_ref : lref Lq = Some r;
}.

(** A new object [out] above one that is there. *)
Lemma two_ends (t1 : tst T) (out inp : nat) (k : kind T) (mt : tmat) (n : node T) : forall tn, tens t1 = tn ++ [MkNode k mt] -> tn !! inp = Some n -> settled n -> out = length tn -> easy (fun j => j = out \/ j = inp) k ->
  tens t1 !! inp = Some n /\ forall j nj, (j = out \/ j = inp) -> tens t1 !! j = Some nj -> builded (nmat nj) = false -> easy (fun j => j = out \/ j = inp) (nkind nj).
Proof using Type.
  intros tn Et Hn Hset -> Hk. rewrite Et. split; [apply lookup_app_l_Some; exact Hn|]. intros j nj [->| ->] Hj Hb.
  - rewrite list_lookup_middle in Hj by reflexivity. injection Hj as <-. exact Hk.
  - rewrite (lookup_app_l_Some _ _ _ _ Hn) in Hj. injection Hj as <-. destruct Hset as [->|Hc]; [exact I|congruence].
Qed.
Lemma body_soft rnd (s : lst T) id L q Lq inp d r n :
  lays s !! id = Some L -> lkind_of L = LSoftMax -> lten L FInput = Some inp -> below_lay s id L q Lq inp d r ->
  tens (ts s) !! inp = Some n -> settled n -> wf_mat (length (mem (ts s))) (nmat n) ->
  exists s', ff_body rnd id s = (Ok tt, s') /\ body_ok rnd nowhere s s' id L (nmat n) SSoft (shape (nmat n)).
Proof using Type.
  intros HL Hk Hi [Hpre Hq Hne Hin Hqo Hqd Hqr] Hn Hset Hwf. unfold ff_body. erewrite mbnd_ok by (apply getL_ok; exact HL). rewrite Hk, Hi.
  erewrite mbnd_ok by reflexivity. assert (Hid : id < length (lays s)) by (eapply lookup_lt_Some; exact HL).
  pose proof (den_leaf _ _ _ Hn Hset Hwf) as Hd0.
  destruct (seg_node (ts s) (KSoftMax inp) empty_mat) as (t1 & E1 & S1 & Em & Et & Ec).
  assert (Hd1 : den t1 (length (tens (ts s))) (ESoft (ELeaf inp)) (shape (nmat n))).
  { eapply den_un; [exact Et|exact Em|reflexivity|discriminate|reflexivity|eassumption|..].
    - intros Hv Hlt Hde. econstructor; [exact Hv|exact Hlt|exact Hde].
    - exact (dn_sh _ _ _ _ Hd0).
    - exact I. }
  destruct (build_post_w s id L (ts s) t1 nowhere [] [] _ _ _ (lay_goal nowhere SSoft (nmat n)) (touched_refl _ _) S1 ltac:(intros ? []) Hd1) as (t2 & EB & (n2 & Hn2 & Hsh2) & Hkp & Hpost).
  { intros p m r0 Hm _ (_ & vx & Hvx & ->). cbn [exec]. unfold evals. rewrite (eval_grow (ts s) t1 _ _ _ _ _ Et eq_refl ltac:(discriminate)).
    cbn [eval]. rewrite (leafv_settled _ _ _ _ Hn Hset), Hvx. reflexivity. }
  eexists. split.
  { erewrite mbnd_ok by (apply liftT_ok; exact E1). unfold setF. erewrite mbnd_ok by (apply updL_ok; exact HL).
    erewrite mbnd_ok by (apply liftT_ok; exact EB). rewrite Hpre. erewrite mbnd_ok by reflexivity.
    unfold GetDif. cbn [ts lays rc]. erewrite mbnd_ok.
    2:{ apply GetT_direct; [|exact Hin]. cbn [lays]. rewrite list_lookup_insert_ne by auto. exact Hq. }
    apply updL_ok. cbn [lays]. apply list_lookup_insert. exact Hid. }
  cbn [ts lays rc]. rewrite list_insert_insert.
  edestruct (Hpost t2) as (new & C & W & no_ & BU & P); [apply seg_refl| | | | |exists (ts s); eexists _, new, C, W, _, no_; split; [exact P|]].
  - repeat split.
  - left. reflexivity.
  - reflexivity.
  - exists d. cbn. exact Hqd.
  - split; [split; reflexivity|]. destruct (two_ends t1 (length (tens (ts s))) inp _ _ n _ Et Hn Hset eq_refl ltac:(right; reflexivity)) as [Hin1 He1]. split; cbn [ts].
    + intros f (H1 & _ & H2 & _). destruct f; try congruence; reflexivity.
    + intros i Hi2. destruct (bu_ops _ _ _ _ _ _ _ _ _ _ BU) as (n2' & Hn2' & Eo). rewrite Eo in Hi2.
      destruct (build_prov _ _ _ _ _ (or_introl eq_refl) He1 EB Hn2' _ Hi2) as [Hx|Hx]; [left; rewrite <- Em; exact Hx|]. right. right.
      destruct (decide (Some i ∈ operands (nmat n))) as [Hy|Hy]; [exact Hy|]. destruct Hx. intros j nj [->| ->] Hj.
      * rewrite Et, list_lookup_middle in Hj by reflexivity. injection Hj as <-. intros Hc; inversion Hc.
      * congruence.
    + reflexivity.
    + reflexivity.
    + split; [exists q, Lq; repeat split; assumption|]. split; [reflexivity|]. intros j nj Hj Hji.
      rewrite (build_only _ _ _ _ (or_introl eq_refl) He1 EB).
      * rewrite Et. apply lookup_app_l_Some. exact Hj.
      * intros [->| ->]; [apply lookup_lt_Some in Hj; lia|congruence].
    + split; [reflexivity|]. intros a w Ha. apply (bu_mem _ _ _ _ _ _ _ _ _ _ BU). rewrite Em. exact Ha.
Qed.

(** The common end of most layers: build, then a new tensor for the differences. *)
Lemma body_tail (s s1 : lst T) id L L1 t0 t1 out e sh (V : option (vten T * vten T) -> list T -> option (vten T) -> Prop) :
  lays s !! id = Some L -> lays s1 = <[id := L1]> (lays s) -> same_lay L L1 -> lten L1 FBias = lten L FBias -> lten L1 FWeights = lten L FWeights ->
  (lref L1 = lref L \/ exists r, lref L1 = Some r /\ pre_ref s L r) -> lten L1 FOutput = Some out -> fits sh ->
  touched s L t0 -> forall (W1 : nat -> Prop) new1 C1, seg W1 t0 t1 new1 C1 -> (forall l, W1 l -> length (mem t0) <= l) -> ts s1 = t1 -> den t1 out e sh ->
  (forall p m r, length (mem t1) <= length m -> consts C1 m -> V p m r ->
     match exec new1 m with Some m1 => evals t1 m1 e = r | None => r = None end) ->
  exists s' t2 new C W no_, (liftT (Build out) ;~ sh' <~ shapeT out ; dif <~ liftT (NewZeros sh') ; setF id FDif dif) s1 = (Ok tt, s') /\
    Build out t1 = (Ok tt, t2) /\ built t1 t2 W1 new1 C1 out new C W no_ /\
    ts s' = MkSt (mem t2 ++ zeros (N.to_nat (prodN sh))) (tens t2 ++ [MkNode KMat (blkm sh (length (mem t2)) false)]) (ctx t2) /\
    body_post nowhere s s' id L V None sh t0 (set_ten FDif (Some (length (tens t2))) L1) new C W out no_ /\
    body_more (A:=(vten T -> Prop) * (vten T -> Prop)) None C L (ts s') (set_ten FDif (Some (length (tens t2))) L1).
Proof using Type.
  intros HL HL1 Hsame Hfb Hfw Href Ho Hf Ht W1 new1 C1 S1 HW1 Hts Hd HV.
  destruct (build_post_w s id L t0 t1 W1 new1 C1 out e sh V Ht S1 HW1 Hd HV) as (t2 & EB & (n2 & Hn2 & Hsh2) & Hkp & Hpost).
  assert (Hid : id < length (lays s)) by (eapply lookup_lt_Some; exact HL).
  set (L' := set_ten FDif (Some (length (tens t2))) L1).
  set (t3 := MkSt (mem t2 ++ zeros (N.to_nat (prodN sh))) (tens t2 ++ [MkNode KMat (blkm sh (length (mem t2)) false)]) (ctx t2)).
  destruct (Hpost t3 L' (rc s1)) as (new & C & W & no_ & BU & P); [apply seg_add|exact Hsame|exact Href|exact Ho|eexists; reflexivity|].
  exists (MkL t3 (<[id := L']> (lays s)) (rc s1)), t2, new, C, W, no_. split.
  { erewrite mbnd_ok by (apply liftT_ok; rewrite Hts; exact EB).
    erewrite mbnd_ok by (apply shapeT_ok; cbn [ts]; exact Hn2). rewrite Hsh2.
    erewrite mbnd_ok by (apply liftT_ok; cbn [ts]; apply NewZeros_blk; exact Hf).
    unfold setF. erewrite updL_ok by (cbn [lays]; rewrite HL1; apply list_lookup_insert; exact Hid).
    cbn [ts lays rc]. rewrite HL1, list_insert_insert. reflexivity. }
  split; [exact EB|]. split; [exact BU|]. split; [reflexivity|]. split; [exact P|]. split; [exact Hfb|exact Hfw].
Qed.
(** The differences of a layer built this way. *)
Lemma tail_dif (s s' : lst T) L1 t1 t2 (W1 : nat -> Prop) new1 C1 out new C (W : nat -> Prop) no_ sh (l : lspec T) :
  built t1 t2 W1 new1 C1 out new C W no_ -> has_par l = false -> length (mem (ts s)) <= length (mem t1) ->
  (forall a b, l = SNorm a b -> forall k, lmaxs L1 = Some k -> k < length (mem t1)) ->
  ts s' = MkSt (mem t2 ++ zeros (N.to_nat (prodN sh))) (tens t2 ++ [MkNode KMat (blkm sh (length (mem t2)) false)]) (ctx t2) ->
  own_dif s s' l sh (set_ten FDif (Some (length (tens t2))) L1) C W out no_.
Proof using Type.
  intros BU Hp Hlen Hmax Ets. pose proof (bu_len _ _ _ _ _ _ _ _ _ _ BU) as Hl2. destruct (bu_ops _ _ _ _ _ _ _ _ _ _ BU) as (n2 & Hn2 & _). apply lookup_lt_Some in Hn2.
  exists (length (tens t2)), (length (mem t2)). rewrite Ets. cbn [tens mem]. split; [reflexivity|]. split; [apply list_lookup_middle; reflexivity|].
  split; [lia|]. split; [lia|]. split; [rewrite app_length, zeros_length; reflexivity|]. intros i Hi. split; [intros Hw; apply (bu_W2 _ _ _ _ _ _ _ _ _ _ BU) in Hw; lia|]. split.
  - intros Hc. apply elem_of_list_fmap in Hc as (c & -> & Hc). apply (bu_C2 _ _ _ _ _ _ _ _ _ _ BU) in Hc. lia.
  - intros [Hc|[[Hc _]|[(a & b & ->) Hk]]]; [apply (wf_lt _ _ _ (bu_wf _ _ _ _ _ _ _ _ _ _ BU)) in Hc; lia|congruence|]. cbn [lmaxs set_ten] in Hk. specialize (Hmax a b eq_refl i Hk). lia.
Qed.

Lemma body_sub rnd (s : lst T) id L q Lq inp d r n dim from to sh' :
  lays s !! id = Some L -> lkind_of L = LSubTensor dim from to -> below_lay s id L q Lq inp d r ->
  tens (ts s) !! inp = Some n -> settled n -> wf_mat (length (mem (ts s))) (nmat n) ->
  lay_shape (SSub dim from to : lspec T) (shape (nmat n)) = Some sh' ->
  exists s', ff_body rnd id s = (Ok tt, s') /\ body_ok rnd nowhere s s' id L (nmat n) (SSub dim from to) sh'.
Proof using Type.
  intros HL Hk [Hpre Hq Hne Hin Hqo Hqd Hqr] Hn Hset Hwf Hls. unfold ff_body. erewrite mbnd_ok by (apply getL_ok; exact HL). rewrite Hk, Hpre.
  erewrite mbnd_ok by reflexivity. unfold GetOutputs. erewrite mbnd_ok by (apply GetT_direct; eassumption). rewrite Hqo. erewrite mbnd_ok by reflexivity.
  pose proof (den_leaf _ _ _ Hn Hset Hwf) as Hd0.
  assert (Hf : fits sh') by (eapply lay_shape_fits; [|exact Hls]; apply Hwf).
  destruct (seg_node (ts s) (KSub inp dim from to false) empty_mat) as (t1 & E1 & S1 & Em & Et & Ec).
  assert (Hd1 : den t1 (length (tens (ts s))) (ESub (ELeaf inp) (N.to_nat dim) from to) sh').
  { eapply den_un; [exact Et|exact Em|reflexivity|discriminate|reflexivity|eassumption|..].
    - intros Hv Hlt Hde. econstructor; [exact Hv|exact Hlt|exact Hde].
    - cbn [shape_of]. pose proof (dn_sh _ _ _ _ Hd0) as Hs0. cbn [shape_of] in Hs0. rewrite Hs0. exact Hls.
    - exact I. }
  erewrite mbnd_ok by (apply liftT_ok; exact E1). unfold setF at 1. erewrite mbnd_ok by (apply updL_ok; exact HL).
  unfold body_ok. cbn [par_init par_shape mbind option_bind].
  edestruct (body_tail s (MkL t1 (<[id := set_ten FOutput (Some (length (tens (ts s)))) L]> (lays s)) (rc s)) id L (set_ten FOutput (Some (length (tens (ts s)))) L) (ts s) t1 (length (tens (ts s))) (ESub (ELeaf inp) (N.to_nat dim) from to) sh'
    (lay_goal nowhere (SSub dim from to) (nmat n))) as (s' & t2 & new & C & W & no_ & E & _ & _ & _ & P & M); [exact HL|reflexivity|repeat split|reflexivity|reflexivity|left; reflexivity|reflexivity|exact Hf|apply touched_refl|exact S1|intros ? []|reflexivity|exact Hd1| |].
  - intros p m r0 Hm _ (_ & vx & Hvx & ->). cbn [exec]. unfold evals. rewrite (eval_grow (ts s) t1 _ _ _ _ _ Et eq_refl ltac:(discriminate)).
    cbn [eval]. rewrite (leafv_settled _ _ _ _ Hn Hset), Hvx. reflexivity.
  - exists s'. split; [exact E|]. eexists _, _, _, _, _, _, _. split; [exact P|]. split; [exact M|exact I].
Qed.

Lemma body_flat rnd (s : lst T) id L q Lq inp d r n vr v b :
  lays s !! id = Some L -> lkind_of L = LFlatten -> below_lay s id L q Lq inp d r ->
  mem (ts s) !! r = Some v -> lref L = Some b -> mem (ts s) !! b = Some vr ->
  tens (ts s) !! inp = Some n -> settled n -> wf_mat (length (mem (ts s))) (nmat n) ->
  exists s', ff_body rnd id s = (Ok tt, s') /\ body_ok rnd nowhere s s' id L (nmat n) SFlat [prodN (shape (nmat n))].
Proof using Type.
  intros HL Hk [Hpre Hq Hne Hin Hqo Hqd Hqr] Hrv Hb Hbv Hn Hset Hwf. unfold ff_body. erewrite mbnd_ok by (apply getL_ok; exact HL). rewrite Hk, Hpre.
  erewrite mbnd_ok by reflexivity. unfold GetOutputs. erewrite mbnd_ok by (apply GetT_direct; eassumption). rewrite Hqo. erewrite mbnd_ok by reflexivity.
  assert (Hid : id < length (lays s)) by (eapply lookup_lt_Some; exact HL).
  pose proof (den_leaf _ _ _ Hn Hset Hwf) as Hd0.
  assert (Hsz : prodN [prodN (shape (nmat n))] = prodN (shape (nmat n))) by (cbn; lia).
  assert (Hms : msize (nmat n) = prodN (shape (nmat n))).
  { destruct Hwf as (_ & _ & Hl & _). unfold msize, ulen. rewrite Hl. apply N2Nat.id. }
  set (sh := shape (nmat n)) in *.
  assert (Hf : fits [prodN sh]).
  { destruct Hwf as ((_ & Hp) & _). split; [repeat constructor; exact Hp|]. rewrite Hsz. exact Hp. }
  set (mt := MkMat [prodN sh] [] [] false).
  set (t0 := MkSt (<[r := nadd v vr]> (mem (ts s))) (tens (ts s)) (ctx (ts s))).
  destruct (seg_node t0 (KReshape inp) mt) as (t1 & E1 & S1 & Em & Et & Ec).
  assert (Hlen : length (mem t0) = length (mem (ts s))) by (cbn; apply insert_length).
  assert (Hd0' : den t0 inp (ELeaf inp) sh) by (eapply den_mem; [..|exact Hd0]; [reflexivity|lia]).
  assert (Hd1 : den t1 (length (tens t0)) (EReshape (ELeaf inp) [prodN sh]) [prodN sh]).
  { eapply den_un; [exact Et|exact Em|reflexivity|discriminate|reflexivity|eassumption|..].
    - intros Hv Hlt Hde. apply (D_reshape _ _ _ mt inp); [exact Hv|exact Hlt|exact Hde].
    - cbn [shape_of]. pose proof (dn_sh _ _ _ _ Hd0') as Hs0. cbn [shape_of] in Hs0. rewrite Hs0. cbn [mbind option_bind]. apply fit_Some. split; [reflexivity|exact Hf].
    - exact I. }
  assert (EF : Flatten inp (ts s) = (Ok (length (tens (ts s))), MkSt (mem (ts s)) (tens (ts s) ++ [MkNode (KReshape inp) mt]) (ctx (ts s)))).
  { unfold Flatten. erewrite mbnd_ok by (apply get_mat_ok; exact Hn). rewrite Hms. reflexivity. }
  assert (Hr : lref (L) = Some b -> r < length (mem (ts s))) by (intros _; eapply lookup_lt_Some; exact Hrv).
  erewrite mbnd_ok by (apply liftT_ok; exact EF). unfold setF at 1. erewrite mbnd_ok by (apply updL_ok; exact HL). cbn [ts lays rc].
  unfold GetRef. erewrite mbnd_ok.
  2:{ erewrite mbnd_ok by (apply getL_ok; cbn [lays]; rewrite list_lookup_insert_ne by auto; exact Hq). rewrite Hqr. reflexivity. }
  erewrite mbnd_ok by (apply liftT_ok; cbn [ts]; apply rdM_at; exact Hrv).
  rewrite Hb. erewrite mbnd_ok by (apply liftT_ok; cbn [ts]; apply rdM_at; exact Hbv).
  erewrite mbnd_ok.
  2:{ apply liftT_ok. cbn [ts]. unfold wrM, wr. cbn [mem]. rewrite decide_True by (apply Hr; exact Hb). reflexivity. }
  cbn [ts lays rc mem tens ctx]. erewrite mbnd_ok by (apply updL_ok; cbn [lays]; apply list_lookup_insert; exact Hid). cbn [ts lays rc].
  rewrite list_insert_insert.
  unfold body_ok. cbn [par_init par_shape mbind option_bind].
  match goal with |- exists _, _ ?sc = _ /\ _ => set (s1 := sc) end.
  assert (Hts1 : ts s1 = t1) by (cbn [ts s1]; destruct t1 as [a1 a2 a3]; cbn in Em, Et, Ec; subst; reflexivity).
  set (L1 := set_ref (Some r) (set_ten FOutput (Some (length (tens (ts s)))) L)).
  edestruct (body_tail s s1 id L L1 t0 t1 (length (tens (ts s))) (EReshape (ELeaf inp) [prodN sh]) [prodN sh] (lay_goal nowhere SFlat (nmat n))) as (s' & t2 & new & C & W & no_ & E & EB & BU & Ets & P & M);
    [exact HL|reflexivity|repeat split|reflexivity|reflexivity| |reflexivity|exact Hf| |exact S1|intros ? []|exact Hts1|exact Hd1| |].
  - right. exists r. split; [reflexivity|]. exists q, Lq. auto.
  - repeat split; try assumption. intros a. cbn [mem t0]. destruct (decide (a = r)) as [->|Ha]; [right; exists q, Lq; auto|left].
    rewrite list_lookup_insert_ne by auto. reflexivity.
  - intros p m r0 Hm _ (_ & vx & Hvx & ->). cbn [exec]. unfold evals. rewrite (eval_grow t0 t1 _ _ _ _ _ Et eq_refl ltac:(discriminate)).
    cbn [eval]. rewrite (leafv_settled t0 inp n _ Hn Hset), Hvx. cbn [mbind option_bind lay_val]. f_equal. unfold v_reshape, v_flat.
    destruct (mval_shape _ _ _ Hvx) as [Hvs Hvl]. rewrite Hvs. fold sh. destruct Hwf as (_ & _ & Hlo & _). fold sh in Hlo. rewrite Hsz, Hvl, Hlo, Nat.sub_diag. cbn [replicate].
    rewrite app_nil_r, take_ge by lia. reflexivity.
  - exists s'. split; [exact E|]. eexists _, _, _, _, _, _, _. split; [exact P|]. split; [exact M|].
    destruct (two_ends t1 (length (tens (ts s))) inp _ _ n _ Et Hn Hset eq_refl ltac:(right; reflexivity)) as [Hin1 He1].
    assert (Hl1 : length (mem t1) = length (mem (ts s))) by (rewrite Em; exact Hlen). split.
    + intros f (H1 & _ & H2 & _). destruct f; try congruence; reflexivity.
    + intros i Hi2. destruct (bu_ops _ _ _ _ _ _ _ _ _ _ BU) as (n2' & Hn2' & Eo). rewrite Eo in Hi2.
      destruct (build_prov _ _ _ _ _ (or_introl eq_refl) He1 EB Hn2' _ Hi2) as [Hx|Hx]; [left; rewrite <- Hl1; exact Hx|]. right. right.
      destruct (decide (Some i ∈ operands (nmat n))) as [Hy|Hy]; [exact Hy|]. destruct Hx. intros j nj [->| ->] Hj.
      * rewrite Et, list_lookup_middle in Hj by reflexivity. injection Hj as <-. intros Hc; inversion Hc.
      * congruence.
    + reflexivity.
    + reflexivity.
    + eapply (tail_dif s s' L1 t1 t2); [exact BU|reflexivity|lia|discriminate|exact Ets].
    + exists r, v, b, vr. split; [exists q, Lq; auto|]. split; [reflexivity|]. split; [exact Hrv|]. split; [exact Hb|]. split; [exact Hbv|].
      assert (Hup : forall a w, mem t0 !! a = Some w -> mem (ts s') !! a = Some w).
      { intros a w Ha. rewrite Ets. cbn [mem]. apply lookup_app_l_Some. apply (bu_mem _ _ _ _ _ _ _ _ _ _ BU). rewrite Em. exact Ha. }
      split.
      * apply Hup. cbn [t0 mem]. apply list_lookup_insert. eapply lookup_lt_Some. exact Hrv.
      * intros a w Ha Haw. apply Hup. cbn [t0 mem]. rewrite list_lookup_insert_ne by auto. exact Haw.
Qed.

Lemma body_cat rnd (s : lst T) id L a b La Lb ia ib da db na nb dim sh' :
  lays s !! id = Some L -> lkind_of L = LConcat (Some a) (Some b) dim ->
  lays s !! a = Some La -> lays s !! b = Some Lb -> a <> id -> b <> id ->
  (lkind_of La = LInput -> lpre La = None) -> (lkind_of Lb = LInput -> lpre Lb = None) ->
  lten La FOutput = Some ia -> lten Lb FOutput = Some ib -> lten La FDif = Some da -> lten Lb FDif = Some db ->
  tens (ts s) !! ia = Some na -> settled na -> wf_mat (length (mem (ts s))) (nmat na) ->
  tens (ts s) !! ib = Some nb -> settled nb -> wf_mat (length (mem (ts s))) (nmat nb) ->
  (la ← shape (nmat na) !! N.to_nat dim; lb ← shape (nmat nb) !! N.to_nat dim;
   if decide (<[N.to_nat dim := lb]> (shape (nmat na)) = shape (nmat nb)) then fit (<[N.to_nat dim := (la + lb)%N]> (shape (nmat na))) else None) = Some sh' ->
  exists s', ff_body rnd id s = (Ok tt, s') /\
    exists t0 L' new C W to_ no_, body_post nowhere s s' id L
      (fun _ m r => exists va vb, mval m (nmat na) = Some va /\ mval m (nmat nb) = Some vb /\ r = v_concat va vb (N.to_nat dim)) None sh' t0 L' new C W to_ no_ /\
      body_more (A:=(vten T -> Prop) * (vten T -> Prop)) None C L (ts s') L'.
Proof using Type.
  intros HL Hk Ha Hb Hnea Hneb Hina Hinb Hoa Hob Hda Hdb Hna Hsa Hwa Hnb Hsb Hwb Hls. unfold ff_body. erewrite mbnd_ok by (apply getL_ok; exact HL). rewrite Hk.
  assert (Hid : id < length (lays s)) by (eapply lookup_lt_Some; exact HL).
  erewrite mbnd_ok by reflexivity. erewrite mbnd_ok by reflexivity. unfold GetOutputs.
  erewrite mbnd_ok by (apply GetT_direct; eassumption). rewrite Hoa. erewrite mbnd_ok by reflexivity.
  erewrite mbnd_ok by (apply GetT_direct; eassumption). rewrite Hob. erewrite mbnd_ok by reflexivity.
  pose proof (den_leaf _ _ _ Hna Hsa Hwa) as Hd0a. pose proof (den_leaf _ _ _ Hnb Hsb Hwb) as Hd0b.
  destruct (seg_node (ts s) (KConcat ia ib dim) empty_mat) as (t1 & E1 & S1 & Em & Et & Ec).
  assert (Hd1 : den t1 (length (tens (ts s))) (ECat (ELeaf ia) (ELeaf ib) (N.to_nat dim)) sh').
  { eapply den_new; [exact Et|exact Em|reflexivity|discriminate|..].
    - econstructor; [eapply view_top; [exact Et|reflexivity]|eapply den_lt; eassumption|eapply den_lt; eassumption|eapply den_denotes_grow; [exact Et|reflexivity|eassumption]..].
    - intros c Hc. cbn in Hc. apply elem_of_cons in Hc as [->|Hc]; [split; [eapply den_lt; eassumption|eauto]|]. apply elem_of_list_singleton in Hc as ->. split; [eapply den_lt; eassumption|eauto].
    - cbn [shape_of]. pose proof (dn_sh _ _ _ _ Hd0a) as Hs0. pose proof (dn_sh _ _ _ _ Hd0b) as Hs1. cbn [shape_of] in Hs0, Hs1. rewrite Hs0, Hs1. exact Hls.
    - split; exact I. }
  destruct (build_post_w s id L (ts s) t1 nowhere [] [] _ _ _
    (fun _ m r => exists va vb, mval m (nmat na) = Some va /\ mval m (nmat nb) = Some vb /\ r = v_concat va vb (N.to_nat dim))
    (touched_refl _ _) S1 ltac:(intros ? []) Hd1) as (t2 & EB & (n2 & Hn2 & Hsh2) & Hkp & Hpost).
  { intros p m r0 Hm _ (va & vb & Hva & Hvb & ->). cbn [exec]. unfold evals. rewrite (eval_grow (ts s) t1 _ _ _ _ _ Et eq_refl ltac:(discriminate)).
    cbn [eval]. rewrite (leafv_settled _ _ _ _ Hna Hsa), (leafv_settled _ _ _ _ Hnb Hsb), Hva, Hvb. reflexivity. }
  eexists. split.
  { erewrite mbnd_ok by (apply liftT_ok; exact E1). unfold setF. erewrite mbnd_ok by (apply updL_ok; exact HL). cbn [ts lays rc].
    erewrite mbnd_ok by (apply updL_ok; cbn [lays]; apply list_lookup_insert; exact Hid). cbn [ts lays rc]. rewrite list_insert_insert.
    erewrite mbnd_ok by (apply liftT_ok; exact EB). cbn [ts lays rc]. unfold GetDif.
    erewrite mbnd_ok.
    2:{ apply GetT_direct; [|exact Hina]. cbn [lays]. rewrite list_lookup_insert_ne by auto. exact Ha. }
    rewrite Hda. erewrite mbnd_ok by reflexivity.
    erewrite mbnd_ok.
    2:{ apply GetT_direct; [|exact Hinb]. cbn [lays]. rewrite list_lookup_insert_ne by auto. exact Hb. }
    rewrite Hdb. erewrite mbnd_ok by reflexivity.
    erewrite mbnd_ok by (apply liftT_ok; reflexivity).
    apply updL_ok. cbn [lays]. apply list_lookup_insert. exact Hid. }
  cbn [ts lays rc]. rewrite list_insert_insert.
  pose proof (seg_add t2 [] [MkNode (KConcat da db dim) empty_mat]) as S3. rewrite app_nil_r in S3.
  edestruct Hpost as (new & C & W & no_ & _ & P); [exact S3| | | | |exists (ts s); eexists _, new, C, W, _, no_; split; [exact P|]].
  - repeat split.
  - left. reflexivity.
  - reflexivity.
  - eexists. reflexivity.
  - split; reflexivity.
Qed.

(** ** Normalization *)
Lemma scal_node (t : tst T) i sc o e sh : den t i e sh -> sc < length (mem t) ->
  exists t', NewOpScalar i (Some sc) o t = (Ok (length (tens t)), t') /\ seg nowhere t t' [] [] /\ mem t' = mem t /\
    tens t' = tens t ++ [MkNode (KOpScalar i (Some sc) o) empty_mat] /\ den t' (length (tens t)) (EScal (bop o) e sc) sh /\ forall m e', evals t' m e' = evals t m e'.
Proof using Type.
  intros Hd Hsc. destruct (seg_node t (KOpScalar i (Some sc) o) empty_mat) as (t1 & E1 & S1 & Em & Et & Ec). exists t1.
  split; [exact E1|]. split; [exact S1|]. split; [exact Em|]. split; [exact Et|]. split.
  - eapply den_un; [exact Et|exact Em|reflexivity|discriminate|reflexivity|exact Hd|..].
    + intros Hv Hlt Hde. econstructor; [exact Hv|exact Hlt|exact Hsc|exact Hde].
    + exact (dn_sh _ _ _ _ Hd).
    + exact (dn_nc _ _ _ _ Hd).
  - intros m e'. unfold evals. apply (eval_grow t t1 _ _ _ _ _ Et eq_refl). discriminate.
Qed.
Lemma alloc_node (t : tst T) v i e sh : den t i e sh ->
  exists t', alloc v t = (Ok (Some (length (mem t))), t') /\ seg nowhere t t' [] [(length (mem t), v)] /\ mem t' = mem t ++ [v] /\ tens t' = tens t /\
    den t' i e sh /\ forall m e', evals t' m e' = evals t m e'.
Proof using Type.
  intros Hd. destruct (seg_alloc t v) as (t1 & E1 & S1 & Em & Et & Ec). exists t1. repeat (split; [assumption|]). split.
  - eapply den_mem; [exact Et| |exact Hd]. rewrite Em, app_length. lia.
  - intros m e'. unfold evals, view. rewrite Et. reflexivity.
Qed.
Lemma mapM_then {A B C} (f : A -> option B) (g : B -> C) (l : list A) :
  mapM (fun x => y ← f x; Some (g y)) l = (r ← mapM f l; Some (map g r)).
Proof using Type.
  induction l as [|a l IH]; [reflexivity|]. cbn. rewrite IH. destruct (f a) as [b|]; [|reflexivity]. cbn. destruct (mapM f l); reflexivity.
Qed.
Lemma mapM_pure {A B} (g : A -> B) (l : list A) : mapM (fun x => Some (g x)) l = Some (map g l).
Proof using Type. induction l as [|a l IH]; [reflexivity|]. cbn. rewrite IH. reflexivity. Qed.

Lemma body_norm rnd (s : lst T) id L inp n mn mx :
  lays s !! id = Some L -> lkind_of L = LNorm mn mx -> lten L FInput = Some inp ->
  tens (ts s) !! inp = Some n -> settled n -> wf_mat (length (mem (ts s))) (nmat n) ->
  exists s', ff_body rnd id s = (Ok tt, s') /\ body_ok rnd nowhere s s' id L (nmat n) (SNorm mn mx) (shape (nmat n)).
Proof using Type.
  intros HL Hk Hi Hn Hset Hwf. unfold ff_body. erewrite mbnd_ok by (apply getL_ok; exact HL). rewrite Hk, Hi.
  erewrite mbnd_ok by reflexivity. assert (Hid : id < length (lays s)) by (eapply lookup_lt_Some; exact HL).
  set (sh := shape (nmat n)). set (t0 := ts s) in *.
  pose proof (den_leaf _ _ _ Hn Hset Hwf) as Hd0. fold sh in Hd0.
  (* the absolute values *)
  destruct (seg_node t0 (KAbs inp) empty_mat) as (ta & Ea & Sa & Ema & Eta & Eca). set (abs := length (tens t0)) in *.
  assert (Hda : den ta abs (EMap absv (ELeaf inp)) sh).
  { eapply den_un; [exact Eta|exact Ema|reflexivity|discriminate|reflexivity|exact Hd0|..].
    - intros Hv Hlt Hde. econstructor; [exact Hv|exact Hlt|exact Hde].
    - exact (dn_sh _ _ _ _ Hd0).
    - exact I. }
  destruct (seg_build ta abs _ sh Hda) as (tb & newb & Cb & Wb & EB & Sb & HWb & Hlb & (nb & Hnb & Hbb & Hwfb & Hshb & Houtb) & _).
  pose proof (seg_app _ _ _ _ _ _ _ _ _ Sa Sb ltac:(intros ? Hc; inversion Hc)) as Sab. cbn [app] in Sab.
  pose proof (sg_len _ _ _ _ _ Sab) as Lb.
  destruct (sg_keep _ _ _ _ _ Sab _ _ Hn) as (nib & Hnib & Hkib & Hbib & Hsib). pose proof (keeps_settled _ _ Hkib Hbib Hset) as Hsetib. destruct (Hsib Hset) as (F1 & F2 & F3).
  assert (Hwfib : wf_mat (length (mem tb)) (nmat nib)) by (eapply wf_kept; try eassumption; eapply wf_mat_mono; eassumption).
  pose proof (den_leaf _ _ _ Hnib Hsetib Hwfib) as Hdb. rewrite F1 in Hdb. fold sh in Hdb.
  (* their maximum *)
  set (am := length (mem tb)).
  destruct (alloc_node tb nzero _ _ _ Hdb) as (tc & Ec & Sc & Emc & Etc & Hdc & Vc). fold am in Ec, Sc.
  assert (Lc : length (mem tc) = S am) by (rewrite Emc, app_length; cbn; lia).
  assert (Ham : am < length (mem tc)) by lia.
  destruct (seg_push tc (OMax (Some am) (operands (nmat nb))) am eq_refl Ham) as (td & Ed & Sd & Emd & Etd).
  assert (Ld : length (mem td) = S am) by (rewrite Emd; exact Lc).
  assert (Hdd : den td inp (ELeaf inp) sh) by (eapply den_mem; [exact Etd|lia|exact Hdc]).
  assert (Vd : forall m e', evals td m e' = evals tb m e') by (intros m e'; rewrite <- Vc; unfold evals, view; rewrite Etd; reflexivity).
  destruct (scal_node td inp am Op2Div _ _ Hdd ltac:(lia)) as (te & Ee & Se & Eme & Ete & Hde & Ve).
  set (n1 := length (tens td)) in *. set (a1 := length (mem te)).
  assert (Le : a1 = S am) by (unfold a1; rewrite Eme; exact Ld).
  destruct (alloc_node te (nsub mx mn) _ _ _ Hde) as (tf & Ef & Sf & Emf & Etf & Hdf & Vf). fold a1 in Ef, Sf.
  assert (Lf : length (mem tf) = S a1) by (rewrite Emf, app_length; cbn; unfold a1; lia).
  destruct (scal_node tf n1 a1 Op2Mul _ _ Hdf ltac:(lia)) as (tg & Eg & Sg & Emg & Etg & Hdg & Vg).
  set (n2 := length (tens tf)) in *. set (a2 := length (mem tg)).
  assert (Lg : a2 = S a1) by (unfold a2; rewrite Emg; exact Lf).
  destruct (alloc_node tg mn _ _ _ Hdg) as (th & Eh & Sh & Emh & Eth & Hdh & Vh). fold a2 in Eh, Sh.
  assert (Lh : length (mem th) = S a2) by (rewrite Emh, app_length; cbn; unfold a2; lia).
  destruct (scal_node th n2 a2 Op2Add _ _ Hdh ltac:(lia)) as (ti & Ei & Si & Emi & Eti & Hdi & Vi).
  set (out := length (tens th)) in *. cbn [bop] in Hdi.
  assert (Li : length (mem ti) = S a2) by (rewrite Emi; exact Lh).
  (* one segment *)
  set (W := either Wb (fun l => l = am)).
  assert (S1 : seg W t0 ti (newb ++ [OMax (Some am) (operands (nmat nb))]) (Cb ++ [(a1, nsub mx mn); (a2, mn)])).
  { pose proof (proj1 (Forall_forall _ _) (sg_const _ _ _ _ _ Sb)) as HCb.
    assert (HCb' : forall c, c ∈ Cb -> fst c < am) by (intros c Hc; destruct (HCb _ Hc) as (_ & Hm & _); apply lookup_lt_Some in Hm; exact Hm).
    pose proof (seg_forget _ _ _ _ _ [] Sc ltac:(intros ? Hc; inversion Hc)) as Sc'.
    pose proof (seg_app _ _ _ _ _ _ _ _ _ Sab Sc' ltac:(intros ? ? [])) as Sac. rewrite !app_nil_r in Sac.
    pose proof (seg_app _ _ _ _ _ _ _ _ _ Sac Sd ltac:(intros c Hc; apply HCb' in Hc; cbv beta; lia)) as Sad. rewrite !app_nil_r in Sad.
    pose proof (seg_app _ _ _ _ _ _ _ _ _ Sad Se ltac:(intros ? ? [])) as Sae. rewrite !app_nil_r in Sae.
    pose proof (seg_app _ _ _ _ _ _ _ _ _ Sae Sf ltac:(intros ? ? [])) as Saf. rewrite !app_nil_r in Saf.
    pose proof (seg_app _ _ _ _ _ _ _ _ _ Saf Sg ltac:(intros ? ? [])) as Sag. rewrite !app_nil_r in Sag.
    pose proof (seg_app _ _ _ _ _ _ _ _ _ Sag Sh ltac:(intros ? ? [])) as Sah. rewrite !app_nil_r in Sah.
    pose proof (seg_app _ _ _ _ _ _ _ _ _ Sah Si ltac:(intros ? ? [])) as Sai. rewrite !app_nil_r, <- app_assoc in Sai.
    eapply seg_weaken; [exact Sai|..].
    - unfold either, nowhere. intros l Hl. unfold W, either. tauto.
    - intros l [Hl| ->]; [apply (sg_W _ _ _ _ _ Sb) in Hl; lia|lia].
    - intros c Hc [Hl| ->%eq_sym]; apply elem_of_app in Hc as [Hc|Hc].
      + destruct (HCb _ Hc) as (_ & _ & Hc'). auto.
      + apply (sg_W _ _ _ _ _ Sb) in Hl. apply elem_of_cons in Hc as [->|Hc]; [cbn in Hl; lia|]. apply elem_of_list_singleton in Hc as ->. cbn in Hl. lia.
      + apply HCb' in Hc. lia.
      + apply elem_of_cons in Hc as [->|Hc]; [cbn in Ham; lia|]. apply elem_of_list_singleton in Hc as ->. cbn in Ham. lia. }
  assert (HW1 : forall l, W l -> length (mem t0) <= l).
  { intros l [Hl| ->]; [apply HWb in Hl; rewrite Ema in Hl; exact Hl|exact Lb]. }
  set (L2 := set_ten FOutput (Some out) (set_maxs (Some am) L)).
  unfold setF at 1.
  erewrite mbnd_ok by (apply liftT_ok; exact Ea). erewrite mbnd_ok by (apply liftT_ok; exact EB). cbn [ts lays rc].
  erewrite mbnd_ok by (apply liftT_ok; exact Ec). cbn [ts lays rc].
  erewrite mbnd_ok by (apply updL_ok; exact HL). cbn [ts lays rc].
  erewrite mbnd_ok by (apply liftT_ok; apply get_mat_ok; cbn [ts]; rewrite Etc; exact Hnb). cbn [ts lays rc].
  erewrite mbnd_ok by (apply liftT_ok; exact Ed). cbn [ts lays rc].
  erewrite mbnd_ok by (apply liftT_ok; exact Ee). cbn [ts lays rc].
  erewrite mbnd_ok by (apply liftT_ok; exact Ef). cbn [ts lays rc].
  erewrite mbnd_ok by (apply liftT_ok; exact Eg). cbn [ts lays rc].
  erewrite mbnd_ok by (apply liftT_ok; exact Eh). cbn [ts lays rc].
  erewrite mbnd_ok by (apply liftT_ok; exact Ei). cbn [ts lays rc].
  erewrite mbnd_ok by (apply updL_ok; cbn [lays]; apply list_lookup_insert; exact Hid). cbn [ts lays rc]. rewrite list_insert_insert.
  change (set_ten FOutput (Some out) (set_maxs (Some am) L)) with L2.
  unfold body_ok. cbn [par_init par_shape mbind option_bind].
  assert (Hmaxv : forall m m' vx, length (mem ti) <= length m -> consts Cb m -> mval m (nmat n) = Some vx -> exec (newb ++ [OMax (Some am) (operands (nmat nb))]) m = Some m' ->
    m' !! am = reduce RedMax (map absv (vdata vx))).
  { intros m m' vx Hm HCb Hvx Hx. clear - Hx HCb Hm Hvx Houtb Hset Eta Hn Li Ham Le Lg Lc Sb Hnb Hda. specialize (Houtb m ltac:(lia) HCb). unfold evals in Houtb at 1.
    rewrite (eval_grow t0 ta _ _ _ _ _ Eta eq_refl ltac:(discriminate)) in Houtb.
    cbn [eval] in Houtb. rewrite (leafv_settled _ _ _ _ Hn Hset), Hvx in Houtb. cbn [mbind option_bind outcome] in Houtb.
    destruct Houtb as (m1 & Hx1 & Hv1). pose proof (exec_length _ _ _ Hx1) as Hlen1.
    rewrite exec_app, Hx1 in Hx. cbn [mbind option_bind] in Hx. rewrite (exec_single _ am) in Hx by (reflexivity || lia).
    cbn [op_value] in Hx. unfold mval in Hv1. destruct (rds m1 (operands (nmat nb))) as [d|] eqn:Hrd; [|discriminate]. injection Hv1 as Hs1 Hd1.
    cbn [mbind option_bind] in Hx. rewrite Hd1 in Hx. change (red_args max2 (map absv (vdata vx))) with (reduce RedMax (map absv (vdata vx))) in Hx.
    destruct (reduce RedMax (map absv (vdata vx))) as [M|]; [|discriminate]. injection Hx as <-. apply list_lookup_insert. lia. }
  match goal with |- exists _, _ ?sc = _ /\ _ => set (s1 := sc) end.
  match type of Hdi with den _ _ ?e _ => destruct (body_tail s s1 id L L2 t0 ti out e sh (lay_goal nowhere (SNorm mn mx) (nmat n)) HL eq_refl) with (W1 := W)
    (new1 := newb ++ [OMax (Some am) (operands (nmat nb))]) (C1 := Cb ++ [(a1, nsub mx mn); (a2, mn)]) as (s' & t2 & new & C & W' & no_ & E & EB2 & BU & Ets & P & Mo) end.
  - repeat split.
  - reflexivity.
  - reflexivity.
  - left. reflexivity.
  - reflexivity.
  - apply Hwf.
  - apply touched_refl.
  - exact S1.
  - exact HW1.
  - reflexivity.
  - exact Hdi.
  - intros p m r Hm HC (_ & vx & Hvx & ->). apply consts_app in HC as [HCb HC2].
    specialize (Houtb m ltac:(lia) HCb). unfold evals in Houtb at 1.
    rewrite (eval_grow t0 ta _ _ _ _ _ Eta eq_refl ltac:(discriminate)) in Houtb.
    cbn [eval] in Houtb. rewrite (leafv_settled _ _ _ _ Hn Hset), Hvx in Houtb. cbn [mbind option_bind outcome] in Houtb.
    destruct Houtb as (m1 & Hx1 & Hv1). pose proof (exec_length _ _ _ Hx1) as Hlen1.
    rewrite exec_app, Hx1. cbn [mbind option_bind]. rewrite (exec_single _ am) by (reflexivity || lia).
    cbn [op_value]. unfold mval in Hv1. destruct (rds m1 (operands (nmat nb))) as [d|] eqn:Hrd; [|discriminate]. injection Hv1 as Hs1 Hd1.
    cbn [mbind option_bind]. rewrite Hd1. change (red_args max2 (map absv (vdata vx))) with (reduce RedMax (map absv (vdata vx))).
    cbn [lay_val]. unfold v_norm. destruct (reduce RedMax (map absv (vdata vx))) as [M|]; [|reflexivity]. cbn [mbind option_bind].
    set (m2 := <[am := M]> m1).
    rewrite Vi, Vh, Vg, Vf, Ve, Vd. unfold evals. cbn [eval].
    assert (Hleaf : leafv (view tb) m2 inp = Some vx).
    { rewrite (leafv_settled _ _ _ _ Hnib Hsetib). rewrite (mval_kept _ _ _ F1 F3). rewrite <- Hvx. eapply mval_same; [exact Hwf|]. intros l Hl.
      apply (wf_lt _ _ _ Hwf) in Hl. unfold m2. rewrite list_lookup_insert_ne by lia.
      eapply (sg_frame _ _ _ _ _ Sb); [|exact Hx1|]; [lia|]. intros Hw. apply HWb in Hw. rewrite Ema in Hw. lia. }
    rewrite Hleaf. cbn [mbind option_bind].
    assert (Hm2 : m2 !! am = Some M) by (apply list_lookup_insert; lia). rewrite Hm2. cbn [mbind option_bind].
    assert (Hfr : forall l v, am < l -> m !! l = Some v -> m2 !! l = Some v).
    { intros l v Hl Hv. unfold m2. rewrite list_lookup_insert_ne by lia. rewrite <- Hv. eapply (sg_frame _ _ _ _ _ Sb); [|exact Hx1|]; [lia|].
      intros Hw. apply (sg_W _ _ _ _ _ Sb) in Hw. lia. }
    apply Forall_cons in HC2 as [K1 K2]. apply Forall_cons in K2 as [K2 _]. cbn [fst snd] in K1, K2.
    assert (Ha1 : am < a1) by lia. assert (Ha2 : am < a2) by lia. apply (Hfr _ _ Ha1) in K1. apply (Hfr _ _ Ha2) in K2.
    unfold v_scal. cbn [bin]. rewrite mapM_then with (f := fun a => ndiv a M) (g := fun q => nadd (nmul q (nsub mx mn)) mn).
    destruct (mapM (fun a => ndiv a M) (vdata vx)) as [q|]; [|reflexivity]. cbn [mbind option_bind vdata vsh]. rewrite K1, K2. cbn [mbind option_bind vdata vsh].
    rewrite !mapM_pure. cbn [mbind option_bind vdata vsh]. rewrite mapM_pure. cbn [mbind option_bind vdata vsh]. rewrite map_map. reflexivity.
  - exists s'. split; [exact E|]. eexists _, _, _, _, _, _, _. split; [exact P|]. split; [exact Mo|]. split.
    + intros f (H1 & _ & H2 & _). destruct f; try congruence; reflexivity.
    + destruct (bu_ops _ _ _ _ _ _ _ _ _ _ BU) as (n2' & Hn2' & Eo). intros i Hi2. rewrite Eo in Hi2.
      assert (Etn : tens ti = ((tens tb ++ [MkNode (KOpScalar inp (Some am) Op2Div) empty_mat]) ++ [MkNode (KOpScalar n1 (Some a1) Op2Mul) empty_mat]) ++ [MkNode (KOpScalar n2 (Some a2) Op2Add) empty_mat]).
      { rewrite Eti, Eth, Etg, Etf, Ete, Etd, Etc. reflexivity. }
      assert (Hl1 : n1 = length (tens tb)) by (unfold n1; rewrite Etd, Etc; reflexivity).
      assert (Hl2 : n2 = S (length (tens tb))) by (unfold n2; rewrite Etf, Ete, app_length, Etd, Etc; cbn [length]; lia).
      assert (Hl3 : out = S (S (length (tens tb)))) by (unfold out; rewrite Eth, Etg, app_length, Etf, Ete, app_length, Etd, Etc; cbn [length]; lia).
      assert (Hnodes : forall j nj, j = out \/ j = n2 \/ j = n1 \/ j = inp -> tens ti !! j = Some nj ->
        j = inp /\ nj = nib \/ operands (nmat nj) = [] /\ easy (fun j => j = out \/ j = n2 \/ j = n1 \/ j = inp) (nkind nj)).
      { intros j nj Hj Hnj. rewrite Etn in Hnj. destruct Hj as [->|[->|[->| ->]]].
        - right. rewrite list_lookup_middle in Hnj by (rewrite !app_length; cbn [length]; lia). injection Hnj as <-. split; [reflexivity|]. cbn. auto.
        - right. rewrite lookup_app_l in Hnj by (rewrite !app_length; cbn [length]; lia). rewrite list_lookup_middle in Hnj by (rewrite !app_length; cbn [length]; lia). injection Hnj as <-. split; [reflexivity|]. cbn. auto.
        - right. rewrite <- app_assoc in Hnj. rewrite lookup_app_l in Hnj by (rewrite !app_length; cbn [length]; lia). rewrite list_lookup_middle in Hnj by lia. injection Hnj as <-. split; [reflexivity|]. cbn. auto.
        - left. split; [reflexivity|]. rewrite <- !app_assoc in Hnj. rewrite (lookup_app_l_Some _ _ _ _ Hnib) in Hnj. congruence. }
      edestruct (build_prov (fun j => j = out \/ j = n2 \/ j = n1 \/ j = inp) ti out t2 n2' (or_introl eq_refl)) as [Hx|Hx]; [|exact EB2|exact Hn2'|exact Hi2| |].
      * intros j nj Hj Hnj Hb. destruct (Hnodes j nj Hj Hnj) as [[-> ->]|[_ He]]; [|exact He]. destruct Hsetib as [->|Hc]; [exact I|congruence].
      * left. fold t0. lia.
      * right. right. destruct (decide (Some i ∈ operands (nmat n))) as [Hy|Hy]; [exact Hy|]. destruct Hx. intros j nj Hj Hnj.
        destruct (Hnodes j nj Hj Hnj) as [[-> ->]|[-> _]]; [rewrite F3; exact Hy|intros Hc; inversion Hc].
    + reflexivity.
    + exists am. split; [reflexivity|]. pose proof (bu_len _ _ _ _ _ _ _ _ _ _ BU) as Hl2. split.
      * rewrite Ets. cbn [mem]. rewrite app_length. fold t0. lia.
      * intros m m' vx Hm HC Hvx Hx. rewrite Ets in Hm. cbn [mem] in Hm. rewrite app_length in Hm. destruct (bu_new _ _ _ _ _ _ _ _ _ _ BU) as (new2 & -> & Hfr). rewrite exec_app in Hx.
        destruct (exec (newb ++ [OMax (Some am) (operands (nmat nb))]) m) as [m1|] eqn:Hx1; [|discriminate]. pose proof (exec_length _ _ _ Hx1) as Hlen1.
        rewrite (Hfr m1 m' am) by (exact Hx || lia). eapply (Hmaxv m m1 vx); [lia| |exact Hvx|exact Hx1].
        apply Forall_forall. intros c Hc. pose proof (proj1 (Forall_forall _ _) HC) as HC'. apply HC'. apply (bu_C1 _ _ _ _ _ _ _ _ _ _ BU). apply elem_of_app. left. exact Hc.
    + eapply (tail_dif s s' L2 ti t2); [exact BU|reflexivity|fold t0; lia| |exact Ets]. intros a b _ k. cbn. intros Hmk. injection Hmk. lia.
    + split; [reflexivity|]. intros a w Ha. rewrite Ets. cbn [mem]. apply lookup_app_l_Some. apply (bu_mem _ _ _ _ _ _ _ _ _ _ BU).
      apply (sg_low _ _ _ _ _ _ _ S1). exact Ha.
Qed.
End FwdExpr.
