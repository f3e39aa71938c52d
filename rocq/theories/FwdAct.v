(** * FwdAct: what the convolution and deconvolution layers share *)
From Verif Require Import Base Num ModelTools ModelOps ModelTensor ModelGraph ModelLayer Spec Denote NetSpec FwdSpec
  IndexProofs ExecProofs TensorFacts AccessProofs BuildProofs BuildFrame CompileProofs EagerOps Agree FwdMask FwdBuild FwdSeg FwdOps FwdPool NetExec NetBuild NetChain FwdProv FwdBody FwdExpr FwdConv.
From Coq Require Import Lia ZifyBool ZifyNat ZifyN.

Section FwdAct.
Context {T : Type} `{Num T}.

(** The five tensors of the layer. *)
Definition five_mem (rnd : nat -> nat -> T) (r n nw : nat) : list T :=
  zeros n ++ zeros n ++ zeros n ++ map (rnd r) (seq 0 n) ++ map (rnd (S r)) (seq 0 nw).
Definition five_tens (A n : nat) (outSh wsh : list N) : list (node T) :=
  [MkNode KMat (blkm outSh A false); MkNode KMat (blkm outSh (A + n) false); MkNode KMat (blkm outSh (A + 2 * n) false);
   MkNode KMat (blkm outSh (A + 3 * n) false); MkNode KMat (blkm wsh (A + 4 * n) false)].
Definition five_lay (K : nat) (L : layer T) : layer T :=
  set_ten FWeights (Some (K + 4)) (set_ten FBias (Some (K + 3)) (set_ten FDif (Some (K + 2)) (set_ten FOutput (Some (K + 1)) (set_ten FNeta (Some K) L)))).
Lemma alloc5 rnd (s : lst T) id L outSh wsh (k : nat -> nat -> nat -> LM T unit) :
  lays s !! id = Some L -> fits outSh -> fits wsh ->
  (neta <~ liftT (NewZeros outSh) ; setF id FNeta neta ;~
   o0 <~ liftT (NewZeros outSh) ; setF id FOutput o0 ;~
   dif <~ liftT (NewZeros outSh) ; setF id FDif dif ;~
   bias <~ newRandT rnd outSh ; setF id FBias bias ;~
   weights <~ newRandT rnd wsh ; setF id FWeights weights ;~ k neta bias weights) s =
  k (length (tens (ts s))) (length (tens (ts s)) + 3) (length (tens (ts s)) + 4)
    (MkL (MkSt (mem (ts s) ++ five_mem rnd (rc s) (N.to_nat (prodN outSh)) (N.to_nat (prodN wsh)))
               (tens (ts s) ++ five_tens (length (mem (ts s))) (N.to_nat (prodN outSh)) outSh wsh) (ctx (ts s)))
         (<[id := five_lay (length (tens (ts s))) L]> (lays s)) (S (S (rc s)))).
Proof using Type.
  intros HL Hfo Hfw. destruct s as [[mm tn c] ls r]. cbn [ts mem tens ctx lays rc] in *.
  assert (HL1 : forall L1, (<[id := L1]> ls : list (layer T)) !! id = Some L1) by (intros; eapply list_lookup_insert, lookup_lt_Some; exact HL).
  unfold setF. erewrite mbnd_ok by (apply liftT_ok; apply NewZeros_blk; assumption). cbn [ts lays rc mem tens ctx].
  erewrite mbnd_ok by (apply updL_ok; exact HL). cbn [ts lays rc mem tens ctx].
  erewrite mbnd_ok by (apply liftT_ok; apply NewZeros_blk; assumption). cbn [ts lays rc mem tens ctx].
  erewrite mbnd_ok by (apply updL_ok; apply HL1). cbn [ts lays rc mem tens ctx]. rewrite list_insert_insert.
  erewrite mbnd_ok by (apply liftT_ok; apply NewZeros_blk; assumption). cbn [ts lays rc mem tens ctx].
  erewrite mbnd_ok by (apply updL_ok; apply HL1). cbn [ts lays rc mem tens ctx]. rewrite list_insert_insert.
  erewrite mbnd_ok by (apply newRandT_ok; assumption). cbn [ts lays rc mem tens ctx].
  erewrite mbnd_ok by (apply updL_ok; apply HL1). cbn [ts lays rc mem tens ctx]. rewrite list_insert_insert.
  erewrite mbnd_ok by (apply newRandT_ok; assumption). cbn [ts lays rc mem tens ctx].
  erewrite mbnd_ok by (apply updL_ok; apply HL1). cbn [ts lays rc mem tens ctx]. rewrite list_insert_insert.
  rewrite !app_length, !map_length, !seq_length, !zeros_length. cbn [length]. set (K := length tn). set (A := length mm). set (n := N.to_nat (prodN outSh)).
  rewrite <- !app_assoc. cbn [app]. unfold five_mem, five_tens, five_lay.
  replace (K + 1 + 1 + 1 + 1) with (K + 4) by lia. replace (K + 1 + 1 + 1) with (K + 3) by lia. replace (K + 1 + 1) with (K + 2) by lia.
  replace (A + n + n + n + n) with (A + 4 * n) by lia. replace (A + n + n + n) with (A + 3 * n) by lia. replace (A + n + n) with (A + 2 * n) by lia.
  reflexivity.
Qed.
Lemma five_len rnd r n nw : length (five_mem rnd r n nw) = 4 * n + nw.
Proof using Type. unfold five_mem. rewrite !app_length, !map_length, !seq_length, !zeros_length. lia. Qed.

(** The end of both layers: the activation of the sums. *)
Lemma own_keep (P P' : nat -> Prop) Q (t t' : tst T) (L L' : layer T) f : own_field P Q t L f -> keeps t t' -> length (mem t) <= length (mem t') -> lten L' f = lten L f ->
  (forall l, l < length (mem t) -> P l -> P' l /\ mem t' !! l = mem t !! l) -> own_field P' Q t' L' f /\ forall m, tval (tens t') m (lten L' f) = tval (tens t) m (lten L f).
Proof using Type.
  intros (i & n & Hi & Hn & Hs & Hw & Hl & v & Hv & HQ) Hk Hm Hf HPQ. destruct (Hk _ _ Hn) as (n' & Hn' & K1 & K2 & K3). destruct (K3 Hs) as (E1 & E2 & E3). split.
  - exists i, n'. split; [congruence|]. split; [exact Hn'|]. split; [eapply keeps_settled; eassumption|]. split; [eapply wf_kept; try eassumption; eapply wf_mat_mono; eassumption|].
    rewrite E3. split; [intros l Hin; apply HPQ; [eapply wf_lt; eassumption|auto]|]. exists v. split; [|exact HQ].
    rewrite (mval_kept n n' _ E1 E3), <- Hv. apply mval_off. intros l Hin. apply HPQ; [eapply wf_lt; eassumption|auto].
  - intros m. rewrite Hf, Hi. cbn [tval mbind option_bind]. unfold tval. cbn [mbind option_bind]. rewrite Hn, Hn'. cbn [mbind option_bind]. apply mval_kept; assumption.
Qed.
Lemma par_cells_keep (C C' : list (nat * T)) (t t' : tst T) (L L' : layer T) : par_cells C t L -> keeps t t' -> length (mem t) <= length (mem t') ->
  lten L' FBias = lten L FBias -> lten L' FWeights = lten L FWeights -> (forall c, c ∈ C' -> c ∈ C \/ length (mem t) <= fst c) -> par_cells C' t' L'.
Proof using Type.
  intros (tb & nb & tw & nw & Hb & Hnb & Sb & Wb & Hw & Hnw & Sw & Ww & ND & HC) Hk Hm Eb Ew HC'.
  destruct (Hk _ _ Hnb) as (nb' & Hnb' & B1 & B2 & B3). destruct (B3 Sb) as (F1 & F2 & F3).
  destruct (Hk _ _ Hnw) as (nw' & Hnw' & G1 & G2 & G3). destruct (G3 Sw) as (I1 & I2 & I3).
  exists tb, nb', tw, nw'. rewrite Eb, Ew, F3, I3. split; [exact Hb|]. split; [exact Hnb'|]. split; [eapply keeps_settled; eassumption|].
  split; [eapply wf_kept; try eassumption; eapply wf_mat_mono; eassumption|]. split; [exact Hw|]. split; [exact Hnw'|]. split; [eapply keeps_settled; eassumption|].
  split; [eapply wf_kept; try eassumption; eapply wf_mat_mono; eassumption|]. split; [exact ND|].
  intros a Ha Hin. apply elem_of_list_fmap in Hin as (c & -> & Hin). apply HC' in Hin as [Hin|Hin].
  - apply (HC _ Ha). apply elem_of_list_fmap. eauto.
  - apply elem_of_app in Ha as [Ha|Ha]; [apply (wf_lt _ _ _ Wb) in Ha|apply (wf_lt _ _ _ Ww) in Ha]; lia.
Qed.
(** What is known about the differences and the sums before the activation. *)
Record act_pre (s s6 : lst T) (L L6 : layer T) (neta : nat) (nn : node T) (new1 : list (op T)) (C1 : list (nat * T)) (W1 : nat -> Prop) (sh : list N) (x : tmat) (l : lspec T) (d a : nat) : Prop := {
  ap_par : has_par l = true;
  ap_keep : forall f, fixedf f -> lten L6 f = lten L f;
  ap_max : lmaxs L6 = lmaxs L;
  ap_neta : lten L6 FNeta = Some neta;
  ap_low : forall i, Some i ∈ operands (nmat nn) -> length (mem (ts s)) <= i;
  ap_dif : lten L6 FDif = Some d /\ tens (ts s6) !! d = Some (MkNode KMat (blkm sh a false)) /\ d <> neta /\ length (mem (ts s)) <= a /\ a + N.to_nat (prodN sh) <= length (mem (ts s6));
  ap_free : forall i, a <= i < a + N.to_nat (prodN sh) -> ~ W1 i /\ i ∉ map fst C1 /\ forall f t n, f = FBias \/ f = FWeights \/ f = FNeta -> lten L6 f = Some t -> tens (ts s6) !! t = Some n -> Some i ∉ operands (nmat n);
  ap_val : forall m m1 vx, length (mem (ts s6)) <= length m -> consts C1 m -> mval m x = Some vx -> exec new1 m = Some m1 -> mval m1 (nmat nn) = lay_val (lin l) (lparams (tens (ts s6)) m L6) vx;
}.
Lemma body_act (s s6 : lst T) id L L6 act neta nn new1 C1 (W1 : nat -> Prop) sh Qb Qw (V : option (vten T * vten T) -> list T -> option (vten T) -> Prop) (x : tmat) (ls : lspec T) d a :
  act_pre s s6 L L6 neta nn new1 C1 W1 sh x ls d a ->
  lays s !! id = Some L -> lays s6 = <[id := L6]> (lays s) -> same_lay L L6 -> lref L6 = lref L -> lact L = Some act ->
  seg W1 (ts s) (ts s6) new1 C1 -> (forall l, W1 l -> length (mem (ts s)) <= l) ->
  tens (ts s6) !! neta = Some nn -> settled nn -> wf_mat (length (mem (ts s6))) (nmat nn) -> shape (nmat nn) = sh ->
  own_field (fun l => length (mem (ts s)) <= l /\ ~ W1 l) Qb (ts s6) L6 FBias -> own_field (fun l => length (mem (ts s)) <= l /\ ~ W1 l) Qw (ts s6) L6 FWeights -> par_cells C1 (ts s6) L6 ->
  (forall m r, length (mem (ts s6)) <= length m -> consts C1 m -> V (lparams (tens (ts s6)) m L6) m r ->
     match exec new1 m with Some m1 => (v ← mval m1 (nmat nn); Some (v_map (act_f act) v)) = r | None => r = None end) ->
  exists s', (a <~ the (lact L) ; out <~ liftT (NActivate neta (act_f a)) ; setF id FOutput out ;~ liftT (Build out)) s6 = (Ok tt, s') /\
    exists t0 L' new C W to_ no_, body_post nowhere s s' id L V (Some (Qb, Qw)) sh t0 L' new C W to_ no_ /\ par_cells C (ts s') L' /\
      body_aux nowhere s s' L x ls sh L' new C W to_ no_.
Proof using Type.
  intros AP HL HL6 Hsame Href Ha S1 HW1 Hn Hset Hwf Hsh Hob How Hpc HV. rewrite Ha. erewrite mbnd_ok by reflexivity.
  assert (Hid : id < length (lays s)) by (eapply lookup_lt_Some; exact HL).
  destruct (node_step (ts s6) (KActivate neta (act_f act)) empty_mat eq_refl ltac:(discriminate)) as (t7 & E7 & S7 & Em7 & Et7 & Ec7 & G7 & V7).
  pose proof (den_leaf _ _ _ Hn Hset Hwf) as Hd0. rewrite Hsh in Hd0.
  assert (D7 : den t7 (length (tens (ts s6))) (EMap (act_f act) (ELeaf neta)) sh).
  { eapply den_un; [exact Et7|exact Em7|reflexivity|discriminate|reflexivity|exact Hd0|..].
    - intros Hv Hlt Hde. econstructor; [exact Hv|exact Hlt|exact Hde].
    - exact (dn_sh _ _ _ _ Hd0).
    - exact I. }
  pose proof (seg_app _ _ _ _ _ _ _ _ _ S1 S7 ltac:(intros ? ? [])) as S17. rewrite !app_nil_r in S17.
  assert (S17' : seg W1 (ts s) t7 new1 C1).
  { eapply seg_weaken; [exact S17|intros l [Hl|[]]; exact Hl|rewrite Em7; exact (sg_W _ _ _ _ _ S1)|].
    intros c0 Hc0. destruct (proj1 (Forall_forall _ _) (sg_const _ _ _ _ _ S1) c0 Hc0) as (_ & _ & Hc). exact Hc. }
  destruct (build_post_w s id L (ts s) t7 W1 new1 C1 _ _ _ (fun _ m r => V (lparams (tens (ts s6)) m L6) m r) (touched_refl _ _) S17' HW1 D7)
    as (t8 & EB & (n8 & Hn8 & Hsh8) & Hkp & Hpost).
  { intros p m r Hm HC Hr. rewrite Em7 in Hm. specialize (HV m r Hm HC Hr). destruct (exec new1 m) as [m1|]; [|exact HV]. rewrite <- HV.
    rewrite V7. unfold evals. cbn [eval]. rewrite (leafv_settled _ _ _ _ Hn Hset). reflexivity. }
  eexists. split.
  { erewrite mbnd_ok by (apply liftT_ok; exact E7). unfold setF. erewrite mbnd_ok by (apply updL_ok; cbn [lays]; rewrite HL6; apply list_lookup_insert; exact Hid).
    apply liftT_ok. cbn [ts]. exact EB. }
  cbn [lays rc]. rewrite HL6, list_insert_insert.
  set (L' := set_ten FOutput (Some (length (tens (ts s6)))) L6).
  destruct (Hpost t8 L' (rc s6)) as (new & C & W & no_ & BU & P); [apply seg_refl|exact Hsame|left; exact Href|reflexivity|exists d; apply (ap_dif _ _ _ _ _ _ _ _ _ _ _ _ _ _ AP)|].
  pose proof (bu_W _ _ _ _ _ _ _ _ _ _ BU) as HWW. pose proof (bu_C _ _ _ _ _ _ _ _ _ _ BU) as HCC.
  pose proof (keeps_trans _ _ _ (sg_keep _ _ _ _ _ S7) Hkp) as K68.
  assert (Hl68 : length (mem (ts s6)) <= length (mem t8)).
  { pose proof (sg_len _ _ _ _ _ (bp_seg _ _ _ _ _ _ _ _ _ _ _ _ _ _ _ P)) as Hq. cbn [ts] in Hq.
    destruct (BuildGraph_within _ _ _ _ _ EB) as ([e He] & _). rewrite He, app_length, Em7. lia. }
  assert (HPQ : forall l, l < length (mem (ts s6)) -> length (mem (ts s)) <= l /\ ~ W1 l -> (length (mem (ts s)) <= l /\ ~ W l) /\ mem t8 !! l = mem (ts s6) !! l).
  { intros l Hlt [Hge Hno]. split; [|destruct (BuildGraph_within _ _ _ _ _ EB) as ([e He] & _); rewrite He, Em7; apply lookup_app_l; exact Hlt]. split; [exact Hge|]. intros Hw. apply HWW in Hw as [Hw|Hw]; [auto|]. rewrite Em7 in Hw. lia. }
  destruct (own_keep _ _ _ _ t8 L6 L' FBias Hob K68 Hl68 eq_refl HPQ) as [Hob' Htb]. destruct (own_keep _ _ _ _ t8 L6 L' FWeights How K68 Hl68 eq_refl HPQ) as [How' Htw].
  exists (ts s), L', new, C, W, (length (tens (ts s6))), no_. destruct P as [p1 p2 p3 p4 p5 p6 p7 p8 p9 p10 p11 p12 p13 p14]. split; [split; try assumption|split].
  - intros ? ? [= <- <-]. split; assumption.
  - intros m r Hm HC Hr. apply p14; [exact Hm|exact HC|]. unfold lparams in Hr |- *. cbn [ts] in Hr. rewrite Htb, Htw in Hr. exact Hr.
  - cbn [ts]. eapply par_cells_keep; [exact Hpc|exact K68|exact Hl68|reflexivity|reflexivity|]. rewrite Em7 in HCC. exact HCC.
  - destruct AP as [A1 A2 A3 A4 A5 (D1 & D2 & D3 & D4 & D5) A7 A8].
    set (out := length (tens (ts s6))) in *. set (B := fun j => j = out \/ j = neta).
    destruct (two_ends t7 out neta _ _ nn _ Et7 Hn Hset eq_refl ltac:(right; reflexivity)) as [Hn7 He7]. fold B in He7.
    destruct (K68 _ _ Hn) as (nn8 & Hnn8 & N1 & N2 & N3). destruct (N3 Hset) as (F1 & F2 & F3).
    pose proof (bu_len _ _ _ _ _ _ _ _ _ _ BU) as Hl78. rewrite Em7 in Hl78.
    assert (Hprov : forall i, Some i ∈ operands (nmat no_) -> length (mem (ts s6)) <= i \/ Some i ∈ operands (nmat nn)).
    { intros i Hi2. destruct (bu_ops _ _ _ _ _ _ _ _ _ _ BU) as (n2' & Hn2' & Eo). rewrite Eo in Hi2.
      destruct (build_prov B t7 out t8 n2' (or_introl eq_refl) He7 EB Hn2' _ Hi2) as [Hx|Hx]; [left; rewrite <- Em7; exact Hx|]. right.
      destruct (decide (Some i ∈ operands (nmat nn))) as [Hy|Hy]; [exact Hy|]. destruct Hx. intros j nj [->| ->] Hj.
      - rewrite Et7, list_lookup_middle in Hj by reflexivity. injection Hj as <-. intros Hc; inversion Hc.
      - congruence. }
    assert (Hlow : forall i, Some i ∈ operands (nmat no_) -> length (mem (ts s)) <= i).
    { intros i Hi2. destruct (Hprov i Hi2) as [Hx|Hx]; [|exact (A5 i Hx)]. pose proof (sg_len _ _ _ _ _ S1). lia. }
    assert (Hod : own_dif s (MkL t8 (<[id := L']> (lays s)) (rc s6)) ls sh L' C W out no_).
    { exists d, a. cbn [ts]. split; [exact D1|]. split.
      { rewrite (build_only B t7 out t8 (or_introl eq_refl) He7 EB).
        - rewrite Et7. apply lookup_app_l_Some. exact D2.
        - apply lookup_lt_Some in D2. intros [->| ->]; [unfold out in D2; lia|congruence]. }
      split; [apply lookup_lt_Some in D2; unfold out; lia|]. split; [exact D4|]. split; [lia|]. intros i Hi2. destruct (A7 i Hi2) as (Q1 & Q2 & Q3). split.
      { intros Hw. apply HWW in Hw as [Hw|Hw]; [auto|]. rewrite Em7 in Hw. lia. }
      split.
      { intros Hc. apply elem_of_list_fmap in Hc as (c & -> & Hc). apply HCC in Hc as [Hc|Hc]; [apply Q2; apply elem_of_list_fmap; eauto|]. rewrite Em7 in Hc. lia. }
      assert (Hf : forall f t n t6 n6, f = FBias \/ f = FWeights \/ f = FNeta -> lten L' f = Some t -> tens t8 !! t = Some n -> lten L6 f = Some t6 -> tens (ts s6) !! t6 = Some n6 -> settled n6 -> Some i ∉ operands (nmat n)).
      { intros f t n t6 n6 Hf Ht Hnt Ht6 Hn6 Hs6. assert (t = t6) as ->. { destruct Hf as [->|[->| ->]]; cbn in Ht; congruence. }
        destruct (K68 _ _ Hn6) as (n' & Hn' & _ & _ & K3). destruct (K3 Hs6) as (_ & _ & K4). assert (n' = n) as -> by congruence. rewrite K4. exact (Q3 f t6 n6 Hf Ht6 Hn6). }
      intros [Hc|[(_ & f & t & n & Hff & Ht & Hnt & Hc)|[(b1 & b2 & ->) _]]].
      - destruct (Hprov i Hc) as [Hx|Hx]; [lia|]. exact (Q3 FNeta neta nn (or_intror (or_intror eq_refl)) A4 Hn Hx).
      - destruct Hff as [->|[->| ->]].
        + destruct Hob as (tb & nb & O1 & O2 & O3 & _). exact (Hf FBias t n tb nb (or_introl eq_refl) Ht Hnt O1 O2 O3 Hc).
        + destruct How as (tb & nb & O1 & O2 & O3 & _). exact (Hf FWeights t n tb nb (or_intror (or_introl eq_refl)) Ht Hnt O1 O2 O3 Hc).
        + exact (Hf FNeta t n neta nn (or_intror (or_intror eq_refl)) Ht Hnt A4 Hn Hset Hc).
      - discriminate. }
    split.
    + intros f Hf. destruct Hf as (H1 & Hf). rewrite <- (A2 f (conj H1 Hf)). destruct f; try congruence; reflexivity.
    + intros i Hi2. left. exact (Hlow i Hi2).
    + unfold aux_neta. rewrite A1. exists neta, nn8. cbn [ts]. split; [exact A4|]. split; [exact Hnn8|]. split; [eapply keeps_settled; eassumption|].
      split; [eapply wf_kept; try eassumption; eapply wf_mat_mono; eassumption|]. split; [congruence|]. split; [rewrite F3; exact A5|].
      intros m m' vx Hm HC _ Hvx Hx. destruct (bu_new _ _ _ _ _ _ _ _ _ _ BU) as (new2 & -> & Hfr). rewrite exec_app in Hx.
      destruct (exec new1 m) as [m1|] eqn:Hx1; [|discriminate]. cbn [mbind option_bind] in Hx. pose proof (exec_length _ _ _ Hx1) as Hlen1.
      assert (HC1 : consts C1 m).
      { apply Forall_forall. intros c Hc. pose proof (proj1 (Forall_forall _ _) HC) as HC'. apply HC'. apply (bu_C1 _ _ _ _ _ _ _ _ _ _ BU). exact Hc. }
      assert (Hlm : length (mem (ts s6)) <= length m) by lia.
      assert (Elp : lparams (tens t8) m L' = lparams (tens (ts s6)) m L6) by (unfold lparams; rewrite Htb, Htw; reflexivity).
      rewrite Elp, <- (A8 m m1 vx Hlm HC1 Hvx Hx1). rewrite (mval_kept nn nn8 _ F1 F3).
      apply mval_off. intros i Hi2. apply (Hfr m1 m'); [lia|exact Hx|]. rewrite Em7. eapply wf_lt; eassumption.
    + unfold aux_max. destruct ls; try discriminate A1; exact A3.
    + destruct ls; try discriminate A1; exact Hod.
    + assert (Hmm : forall b w, mem (ts s) !! b = Some w -> mem t8 !! b = Some w).
      { intros b w Hbw. apply (bu_mem _ _ _ _ _ _ _ _ _ _ BU). rewrite Em7. exact (sg_low _ _ _ _ _ _ _ S1 Hbw). }
      destruct ls; try discriminate A1; (split; [exact Href|exact Hmm]).
Qed.
End FwdAct.
