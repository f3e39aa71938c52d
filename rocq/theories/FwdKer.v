(** * FwdKer: the convolution layer *)
From Verif Require Import Base Num ModelTools ModelOps ModelTensor ModelGraph ModelLayer Spec Denote NetSpec FwdSpec
  IndexProofs ExecProofs TensorFacts AccessProofs BuildProofs BuildFrame CompileProofs EagerOps Agree FwdMask FwdBuild FwdSeg FwdOps FwdPool NetExec NetBuild NetChain FwdProv FwdOnly FwdBody FwdExpr FwdConv FwdConv2 FwdAct.
From Coq Require Import Lia ZifyBool ZifyNat ZifyN.

Section FwdKer.
Context {T : Type} `{Num T}.
Notation inr := (Forall2 (fun i d => (i < d)%N)).

Section Ker.
Context (rnd : nat -> nat -> T).
Variables (s : lst T) (outSh wsh : list N).
Hypotheses (Hfo : fits outSh) (Hfw : fits wsh).
Notation A := (length (mem (ts s))). Notation K := (length (tens (ts s))).
Notation k := (N.to_nat (prodN outSh)). Notation kw_ := (N.to_nat (prodN wsh)).
Notation t5 := (MkSt (mem (ts s) ++ five_mem rnd (rc s) k kw_) (tens (ts s) ++ five_tens A k outSh wsh) (ctx (ts s))).
Notation mn := (blkm outSh A false). Notation mb := (blkm outSh (A + 3 * k) false). Notation mw := (blkm wsh (A + 4 * k) false).
Definition five_at i : (tens (ts s) ++ five_tens A k outSh wsh) !! (K + i) = (five_tens A k outSh wsh : list (node T)) !! i.
Proof using All. rewrite lookup_app_r by lia. f_equal. lia. Qed.
Lemma five_lenM : length (mem (ts s) ++ five_mem rnd (rc s) k kw_) = A + 4 * k + kw_.
Proof using All. rewrite app_length, five_len. lia. Qed.
Lemma five_n : tens t5 !! K = Some (MkNode KMat mn).
Proof using All. cbn [tens]. rewrite <- (Nat.add_0_r K) at 1. rewrite five_at. reflexivity. Qed.
Lemma five_b : tens t5 !! (K + 3) = Some (MkNode KMat mb).
Proof using All. cbn [tens]. rewrite five_at. reflexivity. Qed.
Lemma five_w : tens t5 !! (K + 4) = Some (MkNode KMat mw).
Proof using All. cbn [tens]. rewrite five_at. reflexivity. Qed.
Lemma wf_n : wf_mat (length (mem t5)) mn.
Proof using All. cbn [mem]. rewrite five_lenM. eapply wf_mat_mono; [apply wf_blk; exact Hfo|]. lia. Qed.
Lemma wf_b : wf_mat (length (mem t5)) mb.
Proof using All. cbn [mem]. rewrite five_lenM. eapply wf_mat_mono; [apply wf_blk; exact Hfo|]. lia. Qed.
Lemma wf_w : wf_mat (length (mem t5)) mw.
Proof using All. cbn [mem]. rewrite five_lenM. eapply wf_mat_mono; [apply wf_blk; exact Hfw|]. lia. Qed.

(** The differences take no part in the sums. *)
Definition summed (inp j : nat) : Prop := j = inp \/ j = K \/ K + 3 <= j.
Lemma five_closed inp n : tens (ts s) !! inp = Some n -> settled n -> closed (summed inp) (K + 5) t5.
Proof using All.
  intros Hn Hset. split; [cbn [tens]; rewrite app_length; cbn [length five_tens]; lia|]. cbn [tens]. intros j n' Hj Hn' Hb c Hc. exfalso.
  assert (Hm : nkind n' = KMat); [|rewrite Hm in Hc; inversion Hc].
  apply lookup_app_Some in Hn' as [Hlow|[Hge Hn']].
  - pose proof (lookup_lt_Some _ _ _ Hlow) as Hlt. destruct Hj as [->|[->|Hj]]; [|lia|lia]. assert (n' = n) as -> by congruence. destruct Hset as [Hk|Hk]; [exact Hk|congruence].
  - apply elem_of_list_lookup_2 in Hn'. unfold five_tens in Hn'. repeat (apply elem_of_cons in Hn' as [->|Hn']; [reflexivity|]). inversion Hn'.
Qed.
Lemma five_d : tens t5 !! (K + 2) = Some (MkNode KMat (blkm outSh (A + 2 * k) false)).
Proof using All. cbn [tens]. rewrite five_at. reflexivity. Qed.
Lemma dif_stays inp n (c : TM T unit) (t : tst T) t' : tens (ts s) !! inp = Some n -> stays (summed inp) (K + 5) c (fun _ => True) ->
  closed (summed inp) (K + 5) t -> tens t !! (K + 2) = Some (MkNode KMat (blkm outSh (A + 2 * k) false)) -> c t = (Ok tt, t') ->
  closed (summed inp) (K + 5) t' /\ tens t' !! (K + 2) = Some (MkNode KMat (blkm outSh (A + 2 * k) false)).
Proof using All.
  intros Hn Hc Ht Hd E. destruct (Hc _ _ _ Ht E) as (H1 & H2 & _). split; [exact H1|]. rewrite H2; [exact Hd|]. pose proof (lookup_lt_Some _ _ _ Hn). intros [Hx|[Hx|Hx]]; lia.
Qed.
Lemma bias_stays inp : stays (T := T) (summed inp) (K + 5) (Transfer (K + 3) K) (fun _ => True).
Proof using All. apply st_transfer; unfold summed; lia. Qed.

Lemma draw_b : exists v, mval (mem t5) mb = Some v /\ drawn rnd outSh v.
Proof using All.
  eexists. split; [|exists (rc s); reflexivity]. replace (A + 3 * k) with (length (mem (ts s) ++ zeros k ++ zeros k ++ zeros k : list T)) by (rewrite !app_length, !zeros_length; lia).
  eapply mval_blk; [|rewrite map_length, seq_length; reflexivity]. cbn [mem]. unfold five_mem. rewrite <- !app_assoc. reflexivity.
Qed.
Lemma draw_w : exists v, mval (mem t5) mw = Some v /\ drawn rnd wsh v.
Proof using All.
  eexists. split; [|exists (S (rc s)); reflexivity].
  replace (A + 4 * k) with (length (mem (ts s) ++ zeros k ++ zeros k ++ zeros k ++ map (rnd (rc s)) (seq 0 k) : list T)) by (rewrite !app_length, map_length, seq_length, !zeros_length; lia).
  eapply mval_blk with (post := []); [|rewrite map_length, seq_length; reflexivity]. cbn [mem]. unfold five_mem. rewrite app_nil_r, <- !app_assoc. reflexivity.
Qed.

Lemma body_ker id L act (x : tmat) (l : lspec T) (kval klin : vten T -> vten T -> vten T -> option (vten T)) t7 rc7 new C (W : nat -> Prop) :
  lays s !! id = Some L -> lact L = Some act -> seg W t5 t7 new C -> (forall a, W a -> A <= a < A + k \/ length (mem t5) <= a) ->
  par_shape l (shape x) = Some (outSh, wsh) -> (forall p vx, lay_val l p vx = ('(b, w) ← p; kval b w vx)) ->
  has_par l = true -> (forall p vx, lay_val (lin l) p vx = ('(b, w) ← p; klin b w vx)) -> tens t7 !! (K + 2) = Some (MkNode KMat (blkm outSh (A + 2 * k) false)) ->
  (forall m vx vb vw, length (mem t7) <= length m -> consts C m -> mval m x = Some vx -> mval m mb = Some vb -> mval m mw = Some vw ->
    match exec new m with Some m1 => (v ← mval m1 mn; Some (v_map (act_f act) v)) = kval vb vw vx /\ mval m1 mn = klin vb vw vx | None => kval vb vw vx = None end) ->
  exists s', (a <~ the (lact L) ; out <~ liftT (NActivate K (act_f a)) ; setF id FOutput out ;~ liftT (Build out))
               (MkL t7 (<[id := five_lay K L]> (lays s)) rc7) = (Ok tt, s') /\ body_ok rnd nowhere s s' id L x l outSh.
Proof using All.
  intros HL Ha S57 HW Hp Hlv Hhp Hll Hdf HV. pose proof (seg_add (ts s) (five_mem rnd (rc s) k kw_) (five_tens A k outSh wsh)) as S05.
  pose proof (seg_app _ _ _ _ _ _ _ _ _ S05 S57 ltac:(intros ? Hc; inversion Hc)) as S07. cbn [app] in S07.
  assert (S07' : seg W (ts s) t7 new C).
  { eapply seg_weaken; [exact S07|intros a [[]|Hx]; exact Hx|exact (sg_W _ _ _ _ _ S57)|].
    intros c0 Hc0. destruct (proj1 (Forall_forall _ _) (sg_const _ _ _ _ _ S57) c0 Hc0) as (_ & _ & Hc). exact Hc. }
  pose proof (sg_len _ _ _ _ _ S57) as Hl57. pose proof five_lenM as Hl5.
  assert (Hl5' : length (mem t5) = A + 4 * k + kw_) by exact Hl5.
  set (L6 := five_lay K L).
  assert (Hown : forall f i mt Q, lten L6 f = Some i -> tens t5 !! i = Some (MkNode KMat mt) -> wf_mat (length (mem t5)) mt ->
     (forall a, Some a ∈ operands mt -> A <= a /\ ~ W a) -> (exists v, mval (mem t5) mt = Some v /\ Q v) ->
     own_field (fun a => A <= a /\ ~ W a) Q t7 L6 f /\ forall m, tval (tens t7) m (lten L6 f) = mval m mt).
  { intros f i mt Q Hf Hi Hw Ho HQ. destruct (own_keep (fun a => A <= a /\ ~ W a) (fun a => A <= a /\ ~ W a) Q t5 t7 L6 L6 f) as [Q1 Q2].
    - exists i, (MkNode KMat mt). repeat (split; [assumption|]). split; [apply settled_mat|]. split; [exact Hw|]. split; [exact Ho|exact HQ].
    - exact (sg_keep _ _ _ _ _ S57).
    - exact Hl57.
    - reflexivity.
    - intros a Hla Hpa. split; [exact Hpa|]. destruct (lookup_lt_is_Some_2 _ _ Hla) as [v Hv]. rewrite Hv. eapply sg_low; [exact S57|exact Hv].
    - split; [exact Q1|]. intros m. rewrite Q2, Hf. unfold tval. cbn [mbind option_bind]. rewrite Hi. reflexivity. }
  destruct (Hown FBias (K + 3) mb (drawn rnd outSh) eq_refl five_b wf_b) as [Ob Vb].
  { intros a Hin. apply blk_ops in Hin. split; [lia|]. intros Hw. apply HW in Hw as [Hw|Hw]; rewrite ?Hl5' in Hw; lia. }
  { apply draw_b. }
  destruct (Hown FWeights (K + 4) mw (drawn rnd wsh) eq_refl five_w wf_w) as [Ow Vw].
  { intros a Hin. apply blk_ops in Hin. split; [lia|]. intros Hw. apply HW in Hw as [Hw|Hw]; rewrite ?Hl5' in Hw; lia. }
  { apply draw_w. }
  destruct (sg_keep _ _ _ _ _ S57 _ _ five_n) as (nn & Hnn & N1 & N2 & N3). destruct (N3 (settled_mat _)) as (E1 & E2 & E3). cbn [nmat] in E1, E2, E3.
  assert (AP : act_pre s (MkL t7 (<[id := L6]> (lays s)) rc7) L L6 K nn new C W outSh x l (K + 2) (A + 2 * k)).
  { split; cbn [ts].
    - exact Hhp.
    - intros f (F1 & F2 & F3 & F4 & F5). unfold L6, five_lay. destruct f; try reflexivity; contradiction.
    - reflexivity.
    - reflexivity.
    - rewrite E3. intros i Hin. apply blk_ops in Hin. lia.
    - split; [reflexivity|]. split; [exact Hdf|]. split; [lia|]. split; lia.
    - intros i Hi. assert (Hd : forall t mt, tens t5 !! t = Some (MkNode KMat mt) -> Some i ∉ operands mt -> forall n, tens t7 !! t = Some n -> Some i ∉ operands (nmat n)).
      { intros t mt Ht Hni n Hn. destruct (sg_keep _ _ _ _ _ S57 _ _ Ht) as (n' & Hn' & _ & _ & Q3). destruct (Q3 (settled_mat _)) as (_ & _ & Q). cbn [nmat] in Q. assert (n' = n) as -> by congruence. rewrite Q. exact Hni. }
      split; [intros Hw; apply HW in Hw as [Hw|Hw]; lia|]. split.
      + intros Hin. apply elem_of_list_fmap in Hin as (c0 & -> & Hc0). destruct (proj1 (Forall_forall _ _) (sg_const _ _ _ _ _ S57) c0 Hc0) as (Hc & _ & _). lia.
      + intros f t n [->|[->| ->]] Ht; injection Ht as <-.
        * apply (Hd _ _ five_b). intros Hin. apply blk_ops in Hin. lia.
        * apply (Hd _ _ five_w). intros Hin. apply blk_ops in Hin. lia.
        * apply (Hd _ _ five_n). intros Hin. apply blk_ops in Hin. lia.
    - intros m m1 vx Hm HC Hvx Hx. rewrite Hll. unfold lparams. rewrite Vb, Vw.
      destruct (mval_total _ m mb wf_b ltac:(lia)) as [vb Hvb]. destruct (mval_total _ m mw wf_w ltac:(lia)) as [vw Hvw]. rewrite Hvb, Hvw. cbn [mbind option_bind].
      specialize (HV m vx vb vw Hm HC Hvx Hvb Hvw). rewrite Hx in HV. destruct HV as [_ <-]. unfold mval. rewrite E1, E3. reflexivity. }
  unfold body_ok, par_init. rewrite Hp. cbn [mbind option_bind].
  assert (Hwrap : forall (P : lst T -> Prop) s', (exists t0 L' new C W to_ no_, body_post nowhere s s' id L (lay_goal nowhere l x) (Some (drawn rnd outSh, drawn rnd wsh)) outSh t0 L' new C W to_ no_ /\ par_cells C (ts s') L' /\
      body_aux nowhere s s' L x l outSh L' new C W to_ no_) ->
    exists t0 L' new C W to_ no_, body_post nowhere s s' id L (lay_goal nowhere l x) (Some (drawn rnd outSh, drawn rnd wsh)) outSh t0 L' new C W to_ no_ /\
      body_more (Some (drawn rnd outSh, drawn rnd wsh)) C L (ts s') L' /\ body_rest nowhere s s' L x l outSh L' new C W to_ no_).
  { intros _ s' (t0 & L' & nw & C' & W' & to_ & no_ & Q1 & Q2 & Q3). exists t0, L', nw, C', W', to_, no_. split; [exact Q1|]. split; [exact Q2|]. unfold body_rest. destruct l; try exact Q3. exact I. }
  edestruct (body_act s (MkL t7 (<[id := L6]> (lays s)) rc7) id L L6 act K nn new C W outSh (drawn rnd outSh) (drawn rnd wsh) (lay_goal nowhere l x) x l (K + 2) (A + 2 * k) AP) as (s' & Es' & Q); cycle -1.
  { exists s'. split; [exact Es'|]. apply (Hwrap (fun _ => True)). exact Q. }
  - exact HL.
  - reflexivity.
  - repeat split.
  - reflexivity.
  - exact Ha.
  - exact S07'.
  - intros a Hw. apply HW in Hw as [Hw|Hw]; [lia|]. rewrite Hl5' in Hw. lia.
  - exact Hnn.
  - eapply keeps_settled; [exact N1|exact N2|apply settled_mat].
  - cbn [ts]. apply (wf_kept _ (MkNode KMat mn) nn); [exact E1|exact E2|exact E3|]. cbn [nmat]. eapply wf_mat_mono; [exact wf_n|exact Hl57].
  - exact E1.
  - exact Ob.
  - exact Ow.
  - cbn [ts]. apply (par_cells_keep [] C t5 t7 L6 L6).
    + exists (K + 3), (MkNode KMat mb), (K + 4), (MkNode KMat mw). split; [reflexivity|]. split; [exact five_b|]. split; [apply settled_mat|]. split; [exact wf_b|].
      split; [reflexivity|]. split; [exact five_w|]. split; [apply settled_mat|]. split; [exact wf_w|]. split; [|intros a _ Hc; inversion Hc]. cbn [nmat].
      apply NoDup_app. split; [apply blk_NoDup|]. split; [|apply blk_NoDup]. intros [a|] Hx Hy.
      * apply blk_ops in Hx, Hy. lia.
      * unfold blkm in Hx. cbn [operands] in Hx. apply elem_of_list_fmap in Hx as (? & ? & _). discriminate.
    + exact (sg_keep _ _ _ _ _ S57).
    + exact Hl57.
    + reflexivity.
    + reflexivity.
    + intros c0 Hc0. right. apply (proj1 (Forall_forall _ _) (sg_const _ _ _ _ _ S57) c0 Hc0).
  - cbn [ts]. intros m r Hm HC [_ (vx & Hvx & ->)]. rewrite Hlv. unfold lparams. rewrite Vb, Vw.
    destruct (mval_total _ m mb wf_b ltac:(lia)) as [vb Hvb]. destruct (mval_total _ m mw wf_w ltac:(lia)) as [vw Hvw]. rewrite Hvb, Hvw. cbn [mbind option_bind].
    specialize (HV m vx vb vw Hm HC Hvx Hvb Hvw). destruct (exec new m) as [m1|]; [|exact HV]. destruct HV as [HV _]. rewrite <- HV. unfold mval. rewrite E1, E3. reflexivity.
Qed.

(** The sums start as a copy of the bias. *)
Definition biased (t : tst T) new := mem t = mem t5 /\ seg (fun a => A <= a < A + k) t5 t new [] /\
  forall m, length (mem t5) <= length m -> exists m', exec new m = Some m' /\ forall a, a < k -> m' !! (A + a) = m !! (A + 3 * k + a).
Lemma bias_first : exists t new, Transfer (K + 3) K t5 = (Ok tt, t) /\ biased t new.
Proof using All.
  destruct (transfer_seg t5 (K + 3) K _ _ five_b (settled_mat _) five_n (settled_mat _)) as (t & new & E & Em & Sg & X); cbn [nmat].
  - apply wf_b.
  - apply wf_n.
  - cbn [operands blkm]. rewrite !map_length, !seq_length. reflexivity.
  - apply blk_NoDup.
  - intros a Ha Hb. apply blk_ops in Ha, Hb. lia.
  - exists t, new. split; [exact E|]. split; [exact Em|]. split.
    + eapply seg_weaken; [exact Sg| | |intros ? Hc; inversion Hc].
      * intros a Ha. apply blk_ops in Ha. exact Ha.
      * intros a Ha. rewrite Em. cbn [mem]. rewrite five_lenM. lia.
    + intros m Hm. destruct (X m Hm) as (m' & X1 & X2). exists m'. split; [exact X1|]. intros a Ha. unfold rds in X2. cbn [nmat operands blkm] in X2.
      assert (Hlk : forall (q : list T) b d, mapM (rd q) (map Some (seq b k)) = Some d -> q !! (b + a) = d !! a).
      { intros q b d Hd. apply mapM_Some in Hd. destruct (lookup_lt_is_Some_2 d a) as [u Hu].
        { rewrite <- (Forall2_length _ _ _ Hd), map_length, seq_length. exact Ha. }
        rewrite Hu. eapply (Forall2_lookup_lr _ _ _ a (Some (b + a))) in Hd; [exact Hd| |exact Hu]. rewrite list_lookup_fmap, lookup_seq_lt by exact Ha. reflexivity. }
      destruct (mapM (rd m) _) as [d|] eqn:Ed in X2.
      * rewrite (Hlk _ _ _ X2), (Hlk _ _ _ Ed). reflexivity.
      * exfalso. destruct (mval_total _ m mb wf_b Hm) as [v Hv]. unfold mval, rds in Hv. cbn [operands blkm] in Hv. rewrite Ed in Hv. discriminate.
Qed.
Lemma bias_again t new : biased t new -> exists t' new', Transfer (K + 3) K t = (Ok tt, t') /\ biased t' new'.
Proof using All.
  intros (Em0 & S0 & X0). destruct (sg_keep _ _ _ _ _ S0 _ _ five_n) as (nn & Hnn & N1 & N2 & N3). destruct (N3 (settled_mat _)) as (E1 & E2 & E3). cbn [nmat] in E1, E2, E3.
  destruct (sg_keep _ _ _ _ _ S0 _ _ five_b) as (nb & Hnb & B1 & B2 & B3). destruct (B3 (settled_mat _)) as (F1 & F2 & F3). cbn [nmat] in F1, F2, F3.
  destruct (transfer_seg t (K + 3) K _ _ Hnb (keeps_settled _ _ B1 B2 (settled_mat _)) Hnn (keeps_settled _ _ N1 N2 (settled_mat _))) as (t' & new' & E & Em & Sg & X).
  - rewrite F3, Em0. apply wf_b.
  - rewrite E3, Em0. apply wf_n.
  - rewrite E3, F3. cbn [operands blkm]. rewrite !map_length, !seq_length. reflexivity.
  - rewrite E3. apply blk_NoDup.
  - rewrite E3, F3. intros a Ha Hb. apply blk_ops in Ha, Hb. lia.
  - exists t', (new ++ new'). split; [exact E|]. split; [congruence|]. rewrite E3, F3 in *. split.
    + pose proof (seg_app _ _ _ _ _ _ _ _ _ S0 Sg ltac:(intros ? Hc; inversion Hc)) as S1. cbn [app] in S1.
      eapply seg_weaken; [exact S1| | |intros ? Hc; inversion Hc].
      * intros a [Ha|Ha]; [exact Ha|apply blk_ops in Ha; exact Ha].
      * intros a Ha. rewrite Em, Em0. cbn [mem]. rewrite five_lenM. lia.
    + intros m Hm. destruct (X0 m Hm) as (m1 & Y1 & Y2). pose proof (exec_length _ _ _ Y1) as Hl1. rewrite Em0 in X. destruct (X m1 ltac:(lia)) as (m' & X1 & X2).
      exists m'. split; [rewrite exec_app, Y1; exact X1|]. intros a Ha. unfold rds in X2. cbn [nmat operands blkm] in X2.
      assert (Hlk : forall (q : list T) b d, mapM (rd q) (map Some (seq b k)) = Some d -> q !! (b + a) = d !! a).
      { intros q b d Hd. apply mapM_Some in Hd. destruct (lookup_lt_is_Some_2 d a) as [u Hu].
        { rewrite <- (Forall2_length _ _ _ Hd), map_length, seq_length. exact Ha. }
        rewrite Hu. eapply (Forall2_lookup_lr _ _ _ a (Some (b + a))) in Hd; [exact Hd| |exact Hu]. rewrite list_lookup_fmap, lookup_seq_lt by exact Ha. reflexivity. }
      destruct (mapM (rd m1) _) as [d|] eqn:Ed in X2.
      * rewrite (Hlk _ _ _ X2). rewrite <- (Hlk _ _ _ Ed). apply (sg_frame _ _ _ _ _ S0 m m1); [rewrite Em0; exact Hm|exact Y1|lia].
      * exfalso. destruct (mval_total _ m1 mb wf_b ltac:(lia)) as [v Hv]. unfold mval, rds in Hv. cbn [operands blkm] in Hv. rewrite Ed in Hv. discriminate.
Qed.
(** Reading the sums by index. *)
Lemma blk_pos b idx : inr idx outSh -> exists j, j < k /\ celladdr (blkm outSh b false) idx = b + j /\ forall b', celladdr (blkm outSh b' false) idx = b' + j.
Proof using All.
  intros Hi. destruct (proj2 (flat_in_range outSh idx) Hi) as [j Hj]. exists (N.to_nat j). pose proof (flat_lt _ _ _ Hj). split; [lia|].
  split; [|intros b']; apply blk_celladdr; assumption.
Qed.
End Ker.

(** ** The convolution layer *)
Lemma mapM_none {A} (f g : A -> option T) l : mapM f l = None -> (forall x, x ∈ l -> f x = None -> g x = None) -> mapM g l = None.
Proof using Type.
  induction l as [|x l IH]; intros E Hfg; [discriminate|]. cbn [mapM] in E |- *. destruct (f x) as [y|] eqn:Ef; cbn [mbind option_bind] in E.
  - destruct (g x) as [z|]; [|reflexivity]. cbn [mbind option_bind]. rewrite IH; [reflexivity| |intros; apply Hfg; [right|]; assumption]. destruct (mapM f l); [discriminate|reflexivity].
  - rewrite Hfg; [reflexivity|left|exact Ef].
Qed.
Lemma tab_map sh (f : T -> T) (g : list N -> option T) : tabulate sh (fun idx => y ← g idx; Some (f y)) = (v ← tabulate sh g; Some (v_map f v)).
Proof using Type.
  unfold tabulate, v_map. assert (E : forall l, mapM (fun idx => y ← g idx; Some (f y)) l = (d ← mapM g l; Some (map f d))).
  { induction l as [|i l IH]; [reflexivity|]. cbn [mapM]. destruct (g i); [|reflexivity]. cbn [mbind option_bind]. rewrite IH. destruct (mapM g l); reflexivity. }
  rewrite E. destruct (mapM g (indices sh)); reflexivity.
Qed.
Lemma v_map_id (o : option (vten T)) : (v ← o; Some (v_map (fun x => x) v)) = o.
Proof using Type. destruct o as [[sh d]|]; [|reflexivity]. cbn [mbind option_bind]. unfold v_map. cbn [vsh vdata]. rewrite map_id. reflexivity. Qed.
Definition kcell (cs : list N -> option T) (vb : vten T) (idx : list N) : option T := s ← cs idx; b ← at_ (vsh vb) (vdata vb) idx; Some (nadd b s).
Lemma v_conv_eq kw kh sx sy f (b w x : vten T) nf ow oh : vsh b = [nf; ow; oh] ->
  v_conv kw kh sx sy f b w x = (v ← tabulate (vsh b) (kcell (csum kw kh sx sy x w) b); Some (v_map f v)).
Proof using Type.
  intros Hb. rewrite <- tab_map. unfold v_conv. apply tab_ext. rewrite Hb. intros idx Hi. apply inr3_inv in Hi as (F & X & Y & -> & _). unfold kcell, csum. rewrite Hb.
  change (fun k => match k with | [c; i; j] => _ | _ => None end) with (cterm sx sy F X Y x w).
  destruct (mapM _ _) as [l|]; [|reflexivity]. cbn [mbind option_bind]. destruct (fold1 nadd l) as [s|]; [|reflexivity]. cbn [mbind option_bind].
  destruct (at_ _ _ _); reflexivity.
Qed.
Context (rnd : nat -> nat -> T).
Lemma body_conv (s : lst T) id L inp n nf kw kh sx sy act sh' :
  lays s !! id = Some L -> lkind_of L = LConv2D nf kw kh sx sy -> lten L FInput = Some inp -> lact L = Some act ->
  tens (ts s) !! inp = Some n -> settled n -> wf_mat (length (mem (ts s))) (nmat n) ->
  lay_shape (SConv nf kw kh sx sy (act_f act)) (shape (nmat n)) = Some sh' ->
  exists s', ff_body rnd id s = (Ok tt, s') /\ body_ok rnd nowhere s s' id L (nmat n) (SConv nf kw kh sx sy (act_f act)) sh'.
Proof using Type.
  intros HL Hk Hi Ha Hn Hset Hwf Hls. unfold ff_body. erewrite mbnd_ok by (apply getL_ok; exact HL). rewrite Hk, Hi.
  erewrite mbnd_ok by (apply shapeT_ok; exact Hn). cbn [lay_shape] in Hls.
  destruct (shape (nmat n)) as [|c [|w [|h [|]]]] eqn:Hsh; try discriminate. cbn [length Nat.eqb negb nth].
  destruct ((0 <? kw) && (kw <=? w) && (0 <? kh) && (kh <=? h) && (0 <? sx) && (0 <? sy))%N eqn:Ec; [|discriminate].
  cbn [andb] in Hls. destruct (fitsb _) eqn:Ef in Hls; [|discriminate]. destruct (fitsb _) eqn:Ew in Hls; [|discriminate]. injection Hls as <-.
  apply fitsb_fits in Ef, Ew.
  assert (Hfi : fits [c; w; h]) by (rewrite <- Hsh; apply Hwf).
  assert (HwW : (w < W64 /\ h < W64)%N) by (destruct Hfi as [Hf _]; rewrite !Forall_cons in Hf; tauto).
  assert (Hd : (0 < kw <= w /\ 0 < kh <= h /\ 0 < sx /\ 0 < sy)%N) by lia. clear Ec. destruct Hd as (Hkw & Hkh & Hsx & Hsy).
  rewrite !usub_small by lia. unfold udiv. destruct (N.eqb_spec sx 0); [lia|]. erewrite mbnd_ok by reflexivity. destruct (N.eqb_spec sy 0); [lia|]. erewrite mbnd_ok by reflexivity.
  assert (Hq : ((w - kw) / sx + 1 < W64 /\ (h - kh) / sy + 1 < W64)%N) by (destruct Ef as [Hf _]; unfold conv_shape in Hf; rewrite !Forall_cons in Hf; tauto).
  rewrite !uadd_small by tauto. cbv zeta. change [nf; (w - kw) / sx + 1; (h - kh) / sy + 1]%N with (conv_shape nf kw kh sx sy w h).
  set (outSh := conv_shape nf kw kh sx sy w h) in *. set (wsh := [nf; c; kw; kh]) in *.
  rewrite (alloc5 rnd s id L outSh wsh (fun neta bias weights => liftT (Transfer bias neta) ;~ liftT (conv_ff inp weights neta c outSh kw kh sx sy) ;~
            a <~ the (lact L) ; out <~ liftT (NActivate neta (act_f a)) ; setF id FOutput out ;~ liftT (Build out)) HL Ef Ew).
  destruct (bias_first rnd s outSh wsh Ef Ew) as (t6 & new6 & E6 & Em6 & S6 & X6). erewrite mbnd_ok by (apply liftT_ok; exact E6). cbn [lays rc].
  set (A := length (mem (ts s))) in *. set (K := length (tens (ts s))) in *. set (k := N.to_nat (prodN outSh)) in *. set (kw_ := N.to_nat (prodN wsh)) in *.
  pose proof (five_n rnd s outSh wsh Ef Ew) as Hn5. pose proof (five_w rnd s outSh wsh Ef Ew) as Hw5.
  pose proof (wf_n rnd s outSh wsh Ef Ew) as Wn5. pose proof (wf_w rnd s outSh wsh Ef Ew) as Ww5. pose proof (wf_b rnd s outSh wsh Ef Ew) as Wb5.
  pose proof (five_lenM rnd s outSh wsh Ef Ew) as Hl5. fold A K k kw_ in Hn5, Hw5, Wn5, Ww5, Wb5, Hl5.
  set (t5 := MkSt (mem (ts s) ++ five_mem rnd (rc s) k kw_) (tens (ts s) ++ five_tens A k outSh wsh) (ctx (ts s))) in *.
  change (length (mem t5) = A + 4 * k + kw_) in Hl5.
  assert (Hi5 : tens t5 !! inp = Some n) by (apply lookup_app_l_Some; exact Hn).
  assert (Wi5 : wf_mat (length (mem t5)) (nmat n)) by (eapply wf_mat_mono; [exact Hwf|fold A; lia]).
  set (mn := blkm outSh A false) in *. set (mw := blkm wsh (A + 4 * k) false) in *. set (mb := blkm outSh (A + 3 * k) false) in *.
  destruct (sg_keep _ _ _ _ _ S6 _ _ Hn5) as (nn & Hnn & N1 & N2 & N3). destruct (N3 (settled_mat _)) as (En1 & En2 & En3). cbn [nmat] in En1, En2, En3.
  destruct (sg_keep _ _ _ _ _ S6 _ _ Hw5) as (nw & Hnw & K1 & K2 & K3). destruct (K3 (settled_mat _)) as (Ew1 & Ew2 & Ew3). cbn [nmat] in Ew1, Ew2, Ew3.
  destruct (sg_keep _ _ _ _ _ S6 _ _ Hi5) as (ni & Hni & I1 & I2 & I3). destruct (I3 Hset) as (Ei1 & Ei2 & Ei3).
  assert (Hii : forall a, Some a ∈ operands (nmat n) -> a < A) by (intros a Hin; eapply wf_lt; eassumption).
  destruct (conv_ff_ok t6 inp (K + 4) K ni nw nn nf c w h kw kh sx sy) as (t7 & new7 & C & W & E7 & [S7 HW7 _ V7]); try assumption.
  { eapply keeps_settled; [exact I1|exact I2|exact Hset]. }
  { apply (wf_kept _ n ni); [exact Ei1|exact Ei2|exact Ei3|]. rewrite Em6. exact Wi5. }
  { rewrite Ei1. exact Hsh. }
  { eapply keeps_settled; [exact K1|exact K2|apply settled_mat]. }
  { apply (wf_kept _ (MkNode KMat mw) nw); [exact Ew1|exact Ew2|exact Ew3|]. rewrite Em6. exact Ww5. }
  { eapply keeps_settled; [exact N1|exact N2|apply settled_mat]. }
  { apply (wf_kept _ (MkNode KMat mn) nn); [exact En1|exact En2|exact En3|]. rewrite Em6. exact Wn5. }
  { rewrite En3. apply blk_NoDup. }
  { rewrite En3, Ei3. intros a Hin Hin'. apply blk_ops in Hin. apply Hii in Hin'. lia. }
  { rewrite En3, Ew3. intros a Hin Hin'. apply blk_ops in Hin. apply blk_ops in Hin'. fold k in Hin. lia. }
  fold outSh in E7. erewrite mbnd_ok by (apply liftT_ok; exact E7). cbn [lays rc].
  assert (HCf : forall c0, c0 ∈ C -> length (mem t5) <= fst c0 /\ ~ W (fst c0)).
  { intros c0 Hc0. destruct (proj1 (Forall_forall _ _) (sg_const _ _ _ _ _ S7) c0 Hc0) as (Hc & _ & Hc'). rewrite Em6 in Hc. auto. }
  pose proof (seg_app _ _ _ _ _ _ _ _ _ S6 S7 ltac:(intros ? Hc; inversion Hc)) as S57. cbn [app] in S57.
  pose proof (sg_len _ _ _ _ _ S7) as Hl7. rewrite Em6 in Hl7.
  assert (HWW : forall a, either (fun a => A <= a < A + k) W a -> A <= a < A + k \/ length (mem t5) <= a).
  { intros a [Hx|Hx]; [auto|]. apply HW7 in Hx as [Hx|Hx]; [rewrite Em6 in Hx; auto|]. left. rewrite En3 in Hx. apply blk_ops in Hx. exact Hx. }
  eapply (body_ker rnd s outSh wsh Ef Ew id L act (nmat n) _ (v_conv kw kh sx sy (act_f act)) (v_conv kw kh sx sy (fun x => x)) t7 _ (new6 ++ new7) C); [exact HL|exact Ha|exact S57|exact HWW|rewrite Hsh; reflexivity|reflexivity|reflexivity|reflexivity| |].
  { pose proof (five_closed rnd s outSh wsh Ef Ew inp n Hn Hset) as Q1. pose proof (five_d rnd s outSh wsh Ef Ew) as Q2.
    destruct (dif_stays rnd s outSh wsh Ef Ew inp n _ _ _ Hn (bias_stays rnd s outSh wsh Ef Ew inp) Q1 Q2 E6) as [Q3 Q4].
    refine (proj2 (dif_stays rnd s outSh wsh Ef Ew inp n _ _ _ Hn _ Q3 Q4 E7)). apply st_conv_ff; unfold summed; fold K; lia. }
  fold A k mn mb mw. intros m vx vb vw Hm HC Hvx Hvb Hvw. rewrite exec_app. destruct (X6 m ltac:(lia)) as (m6 & Y6 & Z6). rewrite Y6. cbn [mbind option_bind].
  pose proof (exec_length _ _ _ Y6) as Hlm6.
  assert (Hoff : forall a, ~ (A <= a < A + k) -> m6 !! a = m !! a) by (intros a Hx; apply (sg_frame _ _ _ _ _ S6 m m6); [rewrite Em6; lia|exact Y6|exact Hx]).
  assert (Hvx6 : mval m6 (nmat ni) = Some vx).
  { unfold mval. rewrite Ei1, Ei3. change (mval m6 (nmat n) = Some vx). rewrite <- Hvx. apply mval_off. intros a Hin. apply Hoff. apply Hii in Hin. lia. }
  assert (Hvw6 : mval m6 (nmat nw) = Some vw).
  { unfold mval. rewrite Ew1, Ew3. change (mval m6 mw = Some vw). rewrite <- Hvw. apply mval_off. intros a Hin. apply Hoff. apply blk_ops in Hin. lia. }
  assert (HC6 : consts C m6).
  { unfold consts in *. rewrite Forall_forall in HC |- *. intros c0 Hc0. rewrite Hoff; [auto|]. destruct (HCf _ Hc0). lia. }
  specialize (V7 m6 vx vw ltac:(lia) HC6 Hvx6 Hvw6). rewrite En1 in V7. change (shape mn) with outSh in V7.
  destruct (mval_shape _ _ _ Hvb) as [Hsb _]. rewrite (v_conv_eq _ _ _ _ _ vb vw vx nf ((w - kw) / sx + 1)%N ((h - kh) / sy + 1)%N Hsb). rewrite Hsb. change (shape mb) with outSh.
  assert (Hbv : forall idx, inr idx outSh -> exists j, at_ (vsh vb) (vdata vb) idx = m6 !! celladdr mn idx /\ m6 !! celladdr mn idx = Some j).
  { intros idx Hidx. destruct (blk_pos rnd s outSh wsh Ef Ew A idx Hidx) as (j & Hj & Hcj & Hall). fold k in Hj. fold mn in Hcj.
    rewrite (mval_at _ _ _ _ _ Wb5 Hvb Hidx). unfold mb. rewrite Hall, Hcj, Z6 by exact Hj.
    destruct (lookup_lt_is_Some_2 m (A + 3 * k + j) ltac:(lia)) as [b Hb]. exists b. auto. }
  assert (Hcd : forall idx, celladdr (nmat nn) idx = celladdr mn idx) by (intros idx; unfold celladdr; rewrite En1, En3; reflexivity).
  rewrite (v_conv_eq _ _ _ _ (fun x => x) vb vw vx nf ((w - kw) / sx + 1)%N ((h - kh) / sy + 1)%N Hsb). rewrite Hsb. change (shape mb) with outSh.
  destruct (mapM (csum kw kh sx sy vx vw) (indices outSh)) as [ss|] eqn:Ess.
  - destruct V7 as (m7 & X7 & Hd7 & _). rewrite X7. rewrite v_map_id. enough (Hmt : mval m7 mn = tabulate outSh (kcell (csum kw kh sx sy vx vw) vb)) by (rewrite Hmt; split; reflexivity).
    assert (Hg : exists vs, mapM (kcell (csum kw kh sx sy vx vw) vb) (indices outSh) = Some vs /\ Forall2 (fun idx v => m7 !! celladdr mn idx = Some v) (indices outSh) vs).
    { pose proof (proj1 (mapM_Some _ _ _) Ess) as Fs.
      assert (Hp : forall idx, idx ∈ indices outSh -> exists v, kcell (csum kw kh sx sy vx vw) vb idx = Some v /\ m7 !! celladdr mn idx = Some v).
      { intros idx Hin. pose proof (proj1 (elem_of_indices _ _) Hin) as Hidx. apply elem_of_list_lookup in Hin as [p Hp].
        destruct (Forall2_lookup_l _ _ _ _ _ Fs Hp) as (sv & Hsv & Hcs). destruct (Hd7 _ _ _ Hp Hsv) as (b & Hb & Hmb). rewrite Hcd in Hb, Hmb.
        destruct (Hbv idx Hidx) as (b' & Hb1 & Hb2). assert (b' = b) as -> by congruence. exists (nadd b sv). split; [|exact Hmb].
        unfold kcell. rewrite Hcs. cbn [mbind option_bind]. rewrite Hb1, Hb2. reflexivity. }
      destruct (mapM_total (kcell (csum kw kh sx sy vx vw) vb) (indices outSh)) as [vs Hvs]; [intros idx Hin; destruct (Hp idx Hin) as (v & Hv & _); eauto|].
      exists vs. split; [exact Hvs|]. apply mapM_Some in Hvs. apply Forall2_same_length_lookup_2; [eapply Forall2_length; exact Hvs|].
      intros p idx v Hpi Hpv. pose proof (Forall2_lookup_lr _ _ _ _ _ _ Hvs Hpi Hpv) as Hk1. destruct (Hp idx) as (v' & Hv' & Hm'); [eapply elem_of_list_lookup_2; exact Hpi|]. cbn in Hk1. congruence. }
    destruct Hg as (vs & Hvs & Hf2). unfold tabulate. rewrite Hvs. cbn [mbind option_bind]. apply (mval_tab _ _ mn vs Wn5 Hf2).
  - rewrite V7. unfold tabulate. rewrite (mapM_none _ (kcell (csum kw kh sx sy vx vw) vb) _ Ess); [reflexivity|].
    intros idx _ Hc. unfold kcell. rewrite Hc. reflexivity.
Qed.
End FwdKer.
