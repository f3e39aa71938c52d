(** * NetChain3: the back-propagation of a whole stack *)
From Verif Require Import Base Num ModelTools ModelOps ModelTensor ModelGraph ModelLayer
  Spec Denote IndexProofs ExecProofs TensorFacts AccessProofs BuildProofs CompileProofs
  NetSpec NetExec NetBack NetBuild NetChain NetChain2.
From Coq Require Import Lia ZifyBool ZifyNat ZifyN.

Section NetChain3.
Context {T : Type} `{Num T}.
Context (Hone0 : neqb (one (T:=T)) nzero = false) (Hone1 : nltb none (one (T:=T)) = false).

(** What lies in front of the layers of a stack. *)
Definition pv_src (sr : src) (da : nat) : pvl (T:=T) :=
  PV (fun j => r_b sr + j) (fun j => da + j) (act_d linear_act).
Definition pv_at (sr : src) (da : nat) (rnet : list (dlay T)) : pvl :=
  match rnet with [] => pv_src sr da | l :: _ => pv_of l end.
Definition has_pre (sr : src) (rnet : list (dlay T)) : bool :=
  match rnet, r_id sr with [], None => false | _, _ => true end.
Definition opv_at (sr : src) (da : nat) (rnet : list (dlay T)) : option pvl :=
  if has_pre sr rnet then Some (pv_at sr da rnet) else None.
Fixpoint bps_rev (al mo : nat) (sr : src) (da : nat) (rnet : list (dlay T)) : list (op T) :=
  match rnet with
  | [] => []
  | l :: rnet' => bp_layer al mo (opv_at sr da rnet') l ++ bps_rev al mo sr da rnet'
  end.
Fixpoint blay (lo : nat) (sr : src) (rnet : list (dlay T)) (hi : nat) : Prop :=
  match rnet with
  | [] => lo = hi
  | l :: rnet' => b0 l = lo /\ dpre l = has_pre sr rnet' /\ blay (bend l) sr rnet' hi
  end.

Lemma bps_snoc al mo (net : list (dlay T)) : forall opv l,
  bps al mo opv (net ++ [l]) =
  bp_layer al mo (match last net with Some p => Some (pv_of p) | None => opv end) l ++ bps al mo opv net.
Proof. clear Hone0 Hone1.
  induction net as [|h net IH]; intros opv l; cbn [app bps].
  - cbn. rewrite app_nil_r. reflexivity.
  - rewrite IH. rewrite <- app_assoc. destruct net as [|h' net]; [reflexivity|].
    rewrite last_cons_cons. destruct (last (h' :: net)) eqn:E; [reflexivity|]. apply last_None in E. discriminate.
Qed.
Lemma bps_rev_ok al mo sr da (rnet : list (dlay T)) :
  bps al mo (opv_at sr da []) (rev rnet) = bps_rev al mo sr da rnet.
Proof. clear Hone0 Hone1.
  induction rnet as [|l rnet IH]; [reflexivity|]. cbn [rev bps_rev]. rewrite bps_snoc, IH, last_rev.
  destruct rnet as [|h rnet]; reflexivity.
Qed.
Lemma chainB_snoc lo (l : dlay T) net : forall pre, chainB (bend l) pre net -> lo <= b0 l ->
  dpre l = match net with [] => pre | _ => true end -> chainB lo pre (net ++ [l]).
Proof. clear Hone0 Hone1.
  induction net as [|h net IH]; intros pre Hc Hb Hd; cbn [app chainB bpe] in *.
  - auto.
  - destruct Hc as (E & Hh & Hc). split; [exact E|]. split.
    + destruct net as [|h' net]; cbn in *; assumption.
    + apply IH; [exact Hc|exact Hb|]. destruct net; exact Hd.
Qed.
Lemma bpe_snoc lo hi (l : dlay T) net : bpe lo (net ++ [l]) = bpe (bend l) net \/ net = [] /\ bpe hi net = hi.
Proof. clear Hone0 Hone1. destruct net; [right; auto|left; reflexivity]. Qed.
Lemma blay_chainB sr (rnet : list (dlay T)) : forall lo hi, blay lo sr rnet hi ->
  chainB lo (has_pre sr []) (rev rnet) /\ bpe lo (rev rnet) = hi.
Proof. clear Hone0 Hone1.
  induction rnet as [|l rnet IH]; intros lo hi; cbn [blay rev].
  - intros ->. split; [exact I|reflexivity].
  - intros (Eb & Ed & Hr). destruct (IH _ _ Hr) as [Hc He]. split.
    + apply chainB_snoc; [exact Hc|lia|]. rewrite Ed. destruct rnet as [|h rnet]; [reflexivity|].
      cbn [rev]. destruct (rev rnet ++ [h]) eqn:E; [apply app_eq_nil in E as [_ E]; discriminate|]. reflexivity.
    + destruct (rev rnet) as [|h t] eqn:E; [cbn in *; exact He|]. cbn in *. exact He.
Qed.

(** Only the back-propagation addresses differ. *)
Definition same_ff (l l' : dlay T) : Prop := exists b p, l' = with_b l b p.
Lemma same_ff_ffs net net' : Forall2 same_ff net net' -> ffs net' = ffs net.
Proof. clear Hone0 Hone1. induction 1 as [|l l' net net' (b & p & ->) _ IH]; [reflexivity|]. unfold ffs in *. cbn [flat_map]. rewrite IH. reflexivity. Qed.
Lemma same_ff_chain A0 hi net net' : Forall2 same_ff net net' -> forall lo_out lo_a,
  chain A0 hi lo_out lo_a net -> chain A0 hi lo_out lo_a net'.
Proof. clear Hone0 Hone1.
  induction 1 as [|l l' net net' (b & p & ->) HF IH]; intros lo_out lo_a; [auto|]. cbn [chain].
  intros (C1 & C2 & C3 & C4 & Hk & Hc). split; [exact C1|]. split; [exact C2|]. split; [exact C3|]. split; [exact C4|].
  split; [|apply IH; exact Hc]. inversion HF as [|h h' ? ? (b' & p' & ->)]; subst; exact Hk.
Qed.
Lemma same_ff_fits net net' snet : Forall2 same_ff net net' -> Forall2 fits_layer net snet -> Forall2 fits_layer net' snet.
Proof. clear Hone0 Hone1.
  intros HF. revert snet. induction HF as [|l l' net net' (b & p & ->) _ IH]; intros snet Hs; inversion Hs; subst; constructor.
  - match goal with HH : fits_layer l _ |- _ => destruct HH; split; assumption end.
  - apply IH. assumption.
Qed.
Lemma same_ff_params m net net' snet : Forall2 same_ff net net' -> Forall2 (has_params m) net snet -> Forall2 (has_params m) net' snet.
Proof. clear Hone0 Hone1.
  intros HF. revert snet. induction HF as [|l l' net net' (b & p & ->) _ IH]; intros snet Hs; inversion Hs; subst; constructor.
  - match goal with HH : has_params _ l _ |- _ => exact HH end.
  - apply IH. assumption.
Qed.
Lemma same_ff_laid sr rst : forall rnet rnet', Forall2 same_ff rnet rnet' -> laid sr rst rnet -> laid sr rst rnet'.
Proof. clear Hone0 Hone1.
  induction rst as [|sp rst IH]; intros rnet rnet' HF; destruct HF as [|l l' rnet rnet' (b & p & ->) HF]; cbn [laid]; try contradiction; [auto|].
  intros (H1 & H2 & H3 & H4 & H5 & Hr).
  assert (Ea : ain_of sr rnet' = ain_of sr rnet) by (destruct HF as [|h h' ? ? (b' & p' & ->)]; reflexivity).
  assert (En : ni_of sr rnet' = ni_of sr rnet) by (destruct HF as [|h h' ? ? (b' & p' & ->)]; reflexivity).
  rewrite Ea, En. repeat split; try assumption. apply (IH rnet); assumption.
Qed.
Lemma same_ff_rlay lo : forall rnet rnet' hi, Forall2 same_ff rnet rnet' -> rlay lo rnet hi -> rlay lo rnet' hi.
Proof. clear Hone0 Hone1.
  intros rnet rnet' hi HF. revert hi. induction HF as [|l l' rnet rnet' (b & p & ->) HF IH]; intros hi; cbn [rlay]; [auto|].
  intros (Hr & E). split; [apply IH; exact Hr|exact E].
Qed.
Lemma same_ff_rev net net' : Forall2 same_ff net net' -> Forall2 same_ff (rev net) (rev net').
Proof. clear Hone0 Hone1. induction 1; [constructor|]. cbn. apply Forall2_app; [assumption|]. constructor; [assumption|constructor]. Qed.

(** The zeros behind the layers. *)
Lemma blay_zero sr k (rnet : list (dlay T)) : forall m lo hi, blay lo sr rnet hi -> lo = length m -> hi = length m + k ->
  Forall (zero_moments (m ++ zeros k)) rnet.
Proof. clear Hone0 Hone1.
  assert (Hz : forall (m : list T) a, length m <= a -> a < length m + k -> (m ++ zeros k) !! a = Some nzero).
  { intros m a H1 H2. rewrite lookup_app_r by lia. unfold zeros. apply lookup_replicate_2. lia. }
  intros m. enough (G : forall rnet lo hi, blay lo sr rnet hi -> length m <= lo -> hi = length m + k -> Forall (zero_moments (m ++ zeros k)) rnet /\ lo <= hi).
  { intros lo hi Hb E1 E2. eapply G; [exact Hb|lia|exact E2]. }
  clear rnet. induction rnet as [|l rnet IH]; intros lo hi; cbn [blay].
  - intros -> _ _. split; [constructor|lia].
  - intros (Eb & _ & Hr) Hlo Hhi. pose proof (bend_ge l) as Hbe.
    destruct (IH _ _ Hr) as [HF Hle]; [lia|exact Hhi|]. split; [|lia]. constructor; [|exact HF]. split.
    + intros i j Hi Hj. assert (i * ni l + j < no l * ni l) by (apply off_lt; lia). apply Hz; unfold amw; lia.
    + intros i Hi. apply Hz; unfold amb; lia.
Qed.

(** A dense layer whose back-propagation part has been built too. *)
Record dl3 (s : lst T) (sp : lsp (T:=T)) (pre : option nat) (l : dlay T) (L : layer T) : Prop := {
  d3_at : lays s !! s_id sp = Some L;
  d3_kind : lkind_of L = LDense;
  d3_pre : lpre L = pre;
  d3_tr : lflag L BTrainable = s_tr sp;
  d3_out : lten L FOutput = Some (s_out sp);
  d3_blk : blk (ts s) (s_out sp) [s_o sp] (aout l);
  d3_dif : exists t, lten L FDif = Some t /\ blk (ts s) t [s_o sp] (adif l 0);
  d3_bias : exists t, lten L FBias = Some t /\ blk (ts s) t [s_o sp] (ab l 0);
  d3_w : exists t, lten L FWeights = Some t /\ blk (ts s) t [s_o sp; N.of_nat (ni l)] (aw l 0 0);
  d3_nb : exists t, lten L FNBias = Some t /\ blk (ts s) t [s_o sp] (anb l 0);
  d3_nw : exists t, lten L FNWeights = Some t /\ blk (ts s) t [s_o sp; N.of_nat (ni l)] (anw l 0 0);
  d3_no : no l = N.to_nat (s_o sp);
}.
Record il3 (s : lst T) (q : nat) (sr : src) (da : nat) (L : layer T) : Prop := {
  i3_at : lays s !! q = Some L;
  i3_kind : lkind_of L = LInput;
  i3_pre : lpre L = None;
  i3_in : lten L FInput = Some (r_t sr);
  i3_dif : exists t, lten L FDif = Some t /\ blk (ts s) t (r_sh sr) da;
  i3_tr : lflag L BTrainable = false;
}.
Definition sl3 (s : lst T) (sr : src) (da : nat) : Prop :=
  match r_id sr with Some q => exists L, il3 s q sr da L | None => True end.
Fixpoint stk3 (s : lst T) (sr : src) (da : nat) (rst : list (lsp (T:=T))) (rnet : list (dlay T)) : Prop :=
  match rst, rnet with
  | [], [] => sl3 s sr da
  | sp :: rst', l :: rnet' => (exists L, dl3 s sp (pre_of sr rst') l L) /\ stk3 s sr da rst' rnet'
  | _, _ => False
  end.
Lemma dl3_tle s s' sp pre l L : tle (ts s) (ts s') -> lays s' !! s_id sp = lays s !! s_id sp ->
  dl3 s sp pre l L -> dl3 s' sp pre l L.
Proof. clear Hone0 Hone1.
  intros Ht He []. split; try assumption;
    try (match goal with HE : exists t, _ /\ blk _ t _ _ |- _ => destruct HE as (t & E & B); exists t; split; [exact E|eapply tle_blk; eassumption] end).
  - rewrite He. assumption.
  - eapply tle_blk; eassumption.
Qed.
Lemma il3_tle s s' q sr da L : tle (ts s) (ts s') -> lays s' !! q = lays s !! q -> il3 s q sr da L -> il3 s' q sr da L.
Proof. clear Hone0 Hone1.
  intros Ht He []. split; try assumption.
  - rewrite He. assumption.
  - destruct i3_dif0 as (t & E & B). exists t. split; [exact E|]. eapply tle_blk; eassumption.
Qed.
Lemma stk3_tle s s' sr da : tle (ts s) (ts s') -> forall rst rnet,
  (forall i, i ∈ ids sr rst -> lays s' !! i = lays s !! i) -> stk3 s sr da rst rnet -> stk3 s' sr da rst rnet.
Proof. clear Hone0 Hone1.
  intros Ht. induction rst as [|sp rst IH]; intros [|l rnet] Hi; cbn [stk3]; try contradiction.
  - unfold sl3, ids in *. destruct (r_id sr) as [q|]; [|auto]. intros [L HL]. exists L.
    eapply il3_tle; [exact Ht| |exact HL]. apply Hi. cbn. left.
  - intros ([L HL] & Hr). split.
    + exists L. eapply dl3_tle; [exact Ht| |exact HL]. apply Hi. cbn. left.
    + apply IH; [|assumption]. intros i Hx. apply Hi. cbn. right. exact Hx.
Qed.

(** The stack, the derivative of the last layer possibly there already. *)
Definition stk2_top (s : lst T) (sr : src) (da : nat) (rst : list (lsp (T:=T))) (rnet : list (dlay T)) : Prop :=
  match rst, rnet with
  | [], [] => sl2 false s sr da
  | sp :: rst', l :: rnet' =>
      (exists L, dl2 false s sp (pre_of sr rst') (inp_of sr rst') l L) /\
      ain l = ain_of sr rnet' /\ ni l = ni_of sr rnet' /\ aout l = s_ob sp /\
      stk2 s sr da rst' rnet'
  | _, _ => False
  end.
Lemma dl2_any dn s sp pre inp (l : dlay T) L : dl2 dn s sp pre inp l L -> dl2 false s sp pre inp l L.
Proof. clear Hone0 Hone1. intros []. split; try assumption. discriminate. Qed.
Lemma il2_any dn (s : lst T) q sr da L : il2 dn s q sr da L -> il2 false s q sr da L.
Proof. clear Hone0 Hone1. intros []. split; try assumption. discriminate. Qed.
Lemma stk2_to_top s sr da rst rnet : stk2 s sr da rst rnet -> stk2_top s sr da rst rnet.
Proof. clear Hone0 Hone1.
  destruct rst as [|sp rst]; destruct rnet as [|l rnet]; cbn [stk2 stk2_top]; try contradiction.
  - unfold sl2. destruct (r_id sr); [|auto]. intros [L HL]. exists L. eapply il2_any. exact HL.
  - intros ([L HL] & Hr). split; [|exact Hr]. exists L. eapply dl2_any. exact HL.
Qed.

Lemma stk2_prv s sr da rst rnet q : stk2 s sr da rst rnet -> pre_of sr rst = Some q -> src_ok s sr ->
  exists Lq, prv s q (ni_of sr rnet) (pv_at sr da rnet) Lq.
Proof. clear Hone0 Hone1.
  destruct rst as [|sp rst]; destruct rnet as [|l rnet]; cbn [stk2 pre_of ni_of pv_at]; try contradiction.
  - unfold sl2. intros Hs E [Hf Hb]. rewrite E in Hs. destruct Hs as [L HL]. exists L. split.
    + apply HL.
    + left. split; apply HL.
    + apply (i2_der _ _ _ _ _ _ HL). reflexivity.
    + exists (r_t sr), (r_sh sr), (r_b sr). split; [apply HL|]. split; [exact Hb|]. split; [reflexivity|]. reflexivity.
    + destruct (i2_dif _ _ _ _ _ _ HL) as (t & Et & Bt). exists t, (r_sh sr), da. split; [exact Et|]. split; [exact Bt|]. split; reflexivity.
    + exists linear_act. split; [apply HL|reflexivity].
  - intros ([L HL] & _) [= <-] _. exists L. split.
    + apply HL.
    + right. apply HL.
    + apply (d2_der _ _ _ _ _ _ _ HL). reflexivity.
    + destruct (d2_neta _ _ _ _ _ _ _ HL) as (t & Et & Bt). exists t, [s_o sp], (a0 l).
      split; [exact Et|]. split; [exact Bt|]. split; [rewrite prod_1; symmetry; apply HL|]. reflexivity.
    + destruct (d2_dif _ _ _ _ _ _ _ HL) as (t & Et & Bt). exists t, [s_o sp], (adif l 0).
      split; [exact Et|]. split; [exact Bt|]. split; [rewrite prod_1; symmetry; apply HL|].
      intros i. cbn. unfold adif. lia.
    + exists (s_act sp). split; [apply HL|]. cbn. apply HL.
Qed.
(** Setting the derivative of the layer in front. *)
Lemma stk2_derived s s' sr da rst rnet q d Lq is : stk2 s sr da rst rnet -> pre_of sr rst = Some q ->
  lays s !! q = Some Lq -> NoDup (ids sr rst) -> lays s' !! q = Some (set_ten FDer (Some d) Lq) ->
  grow (q :: is) s s' -> (forall i, i ∈ is -> i ∉ ids sr rst) -> stk2_top s' sr da rst rnet.
Proof. clear Hone0 Hone1.
  intros Hs Hq HL Hnd HL' Hg Hi. pose proof (g_tens _ _ _ Hg) as Ht.
  destruct rst as [|sp rst]; destruct rnet as [|l rnet]; cbn [stk2 stk2_top pre_of] in *; try contradiction.
  - unfold sl2 in *. rewrite Hq in *. destruct Hs as [L HI].
    pose proof (i2_at _ _ _ _ _ _ HI) as E. rewrite HL in E. injection E as ->.
    exists (set_ten FDer (Some d) L). pose proof (i2_dif _ _ _ _ _ _ HI) as Hdif. destruct HI. split; try assumption.
    + destruct Hdif as (t & E & B). exists t. split; [exact E|]. eapply tle_blk; eassumption.
    + discriminate.
    + eapply ref1_grow; eassumption.
  - injection Hq as <-. destruct Hs as ([L HD] & H1 & H2 & H3 & Hr).
    pose proof (d2_at _ _ _ _ _ _ _ HD) as E. rewrite HL in E. injection E as ->.
    split; [|split; [exact H1|split; [exact H2|split; [exact H3|]]]].
    + exists (set_ten FDer (Some d) L). destruct HD. split; try assumption;
      try (match goal with HE : exists t, _ /\ blk _ t _ _ |- _ => destruct HE as (t & E & B); exists t; split; [exact E|eapply tle_blk; eassumption] end).
      * eapply tle_blk; eassumption.
      * discriminate.
      * eapply ref1_grow; eassumption.
    + rewrite ids_cons in Hnd. apply NoDup_cons in Hnd as [Hn _].
      eapply stk2_grow; [exact Hg| |exact Hr]. intros i Hx. apply elem_of_cons in Hx as [->|Hx]; [exact Hn|].
      intros Hx'. apply (Hi i Hx). rewrite ids_cons. right. exact Hx'.
Qed.

Lemma has_pre_of s sr da rst (rnet : list (dlay T)) : stk2 s sr da rst rnet ->
  has_pre sr rnet = bool_decide (is_Some (pre_of sr rst)).
Proof. clear Hone0 Hone1.
  destruct rst as [|sp rst]; destruct rnet as [|l rnet]; cbn [stk2]; try contradiction; intros _; unfold has_pre, pre_of.
  - destruct (r_id sr); reflexivity.
  - reflexivity.
Qed.

Lemma LBuildBP_stk al mo sr da : forall rst rnet s fuel id,
  pre_of sr rst = Some id -> length rst < fuel -> NoDup (ids sr rst) -> sizes_ok sr rst ->
  src_ok s sr -> stk2_top s sr da rst rnet ->
  exists s' rnet' ops k, LBuildBP fuel id (Some al) (Some mo) s = (Ok tt, s') /\ grow (ids sr rst) s s' /\
    ctx (ts s') = ctx (ts s) ++ ops /\ strip ops = bps_rev al mo sr da rnet' /\ rc s' = rc s /\
    mem (ts s') = mem (ts s) ++ zeros k /\
    blay (length (mem (ts s))) sr rnet' (length (mem (ts s'))) /\
    Forall2 same_ff rnet rnet' /\ stk3 s' sr da rst rnet'.
Proof.
  induction rst as [|sp rst IH]; intros rnet s fuel id Hid Hfuel Hnd Hsz Hsrc Hs;
    (destruct fuel as [|fuel]; [cbn in Hfuel; lia|]); destruct rnet as [|l rnet]; cbn [stk2_top] in Hs; try contradiction.
  - cbn [pre_of] in Hid. unfold sl2 in Hs. rewrite Hid in Hs. destruct Hs as [L HL].
    pose proof (i2_at _ _ _ _ _ _ HL) as HA.
    set (L1 := set_flag BBP true L).
    set (s1 := MkL (ts s) (<[id := L1]> (lays s)) (rc s)).
    assert (H1 : lays s1 !! id = Some L1) by (eapply lay_eq; exact HA).
    exists s1, [], [], 0. split; [|split; [|split; [|split; [reflexivity|split; [reflexivity|split; [|split; [reflexivity|split; [constructor|]]]]]]]].
    + cbn [LBuildBP]. erewrite mbnd_ok by (apply CheckOnce_ok; [exact Hone0|exact HA|apply HL|apply HL]).
      cbn iota. fold L1. fold s1. unfold bp_body.
      erewrite mbnd_ok.
      2:{ erewrite mbnd_ok by (apply getL_ok; exact H1). change (lkind_of L1) with (lkind_of L). rewrite (i2_kind _ _ _ _ _ _ HL). reflexivity. }
      erewrite mbnd_ok by (apply getL_ok; exact H1). change (lkind_of L1) with (lkind_of L). rewrite (i2_kind _ _ _ _ _ _ HL).
      erewrite mbnd_ok by reflexivity. change (lpre L1) with (lpre L). rewrite (i2_pre _ _ _ _ _ _ HL). reflexivity.
    + apply grow_upd0; [apply pre_in; exact Hid|eapply ref_keep; [exact HA|reflexivity]].
    + cbn. rewrite app_nil_r. reflexivity.
    + cbn. rewrite app_nil_r. reflexivity.
    + cbn [stk3]. unfold sl3. rewrite Hid. exists L1. destruct HL. split; try assumption.
  - cbn [pre_of] in Hid. injection Hid as <-. destruct Hs as ([L HL] & Ha & Hn & Ho & Hs).
    pose proof (d2_at _ _ _ _ _ _ _ HL) as HA. rewrite ids_cons in Hnd. apply NoDup_cons in Hnd as [Hni Hnd].
    cbn [sizes_ok] in Hsz. destruct Hsz as (Hso & Hfit & Hsz).
    set (id := s_id sp) in *. set (L1 := set_flag BBP true L).
    set (s1 := MkL (ts s) (<[id := L1]> (lays s)) (rc s)).
    assert (H1 : lays s1 !! id = Some L1) by (eapply lay_eq; exact HA).
    assert (Hg1 : grow [id] s s1) by (apply grow_upd0; [left|eapply ref_keep; [exact HA|reflexivity]]).
    assert (Hs1 : stk2 s1 sr da rst rnet).
    { eapply stk2_grow; [exact Hg1| |exact Hs]. intros i Hi. apply elem_of_list_singleton in Hi. subst i. exact Hni. }
    assert (Hsrc1 : src_ok s1 sr) by (eapply src_grow; eassumption).
    pose proof (stk2_blk _ _ _ _ _ Hs1 Hsrc1) as Bi.
    pose proof (stk2_ain _ _ _ _ _ Hs1) as Eain. pose proof (stk2_ni _ _ _ _ _ Hs1) as Eni.
    assert (HR : ready_bp s1 id (s_o sp) (pre_of sr rst) l L1).
    { destruct HL. split; try assumption.
      - exists (inp_of sr rst), (sh_of sr rst), (base_of sr rst). split; [assumption|]. split; [exact Bi|].
        split; [|rewrite Ha; exact Eain]. rewrite sh_width, Hn, Eni. reflexivity.
      - exists (s_out sp), (aout l). split; assumption.
      - rewrite Hn, Eni, N2Nat.id. exact Hfit. }
    assert (HP : exists Lq, match pre_of sr rst with Some q => q <> id /\ prv s1 q (ni l) (pv_at sr da rnet) Lq | None => True end).
    { destruct (pre_of sr rst) as [q|] eqn:Hq; [|exists L; exact I].
      destruct (stk2_prv _ _ _ _ _ _ Hs1 Hq Hsrc1) as [Lq HP]. exists Lq. split; [|rewrite Hn; exact HP].
      intros ->. apply Hni. apply pre_in. exact Hq. }
    destruct HP as [Lq HP].
    destruct fuel as [|fuel]; [cbn in Hfuel; lia|].
    destruct (dense_bp_body Hone0 Hone1 al mo s1 id (s_o sp) (pre_of sr rst) l L1 fuel (pv_at sr da rnet) Lq HR HP)
      as (s2 & ops2 & E2 & M2 & T2 & C2 & R2 & Bnw & Bnb & Hcase).
    set (l' := with_b l (length (mem (ts s1))) (bool_decide (is_Some (pre_of sr rst)))) in *.
    set (K := length (tens (ts s1))) in *.
    assert (Hpre' : dpre l' = has_pre sr rnet) by (unfold l'; cbn; symmetry; eapply has_pre_of; exact Hs1).
    (* the layer itself after its own part *)
    assert (Hid2 : lays s2 !! id = Some (bp_lay K L1)).
    { destruct (pre_of sr rst) as [q|].
      - destruct Hcase as (_ & d & E). rewrite E. rewrite list_lookup_insert_ne by (destruct HP; assumption).
        eapply lay_eq. exact H1.
      - destruct Hcase as (_ & E). rewrite E. eapply lay_eq. exact H1. }
    assert (Hg2 : grow (match pre_of sr rst with Some q => [q; id] | None => [id] end) s1 s2).
    { split.
      - eexists. exact M2.
      - exact T2.
      - intros i Hi. destruct (pre_of sr rst) as [q|].
        + destruct Hcase as (_ & d & E). rewrite E. rewrite list_lookup_insert_ne by (intros ->; apply Hi; left).
          apply list_lookup_insert_ne. intros ->. apply Hi. right. left.
        + destruct Hcase as (_ & E). rewrite E. apply list_lookup_insert_ne. intros ->. apply Hi. left.
      - destruct (pre_of sr rst) as [q|].
        + destruct Hcase as (_ & d & E). rewrite E, !insert_length. reflexivity.
        + destruct Hcase as (_ & E). rewrite E, !insert_length. reflexivity.
      - intros j L' HL'. destruct (pre_of sr rst) as [q|].
        + destruct Hcase as (_ & d & E). rewrite E in HL'. apply list_lookup_insert_Some in HL' as [(Hj & Hl & _)|[_ HL']]; [subst j L'|].
          * eapply ref_keep; [apply (p_at _ _ _ _ _ (proj2 HP))|reflexivity].
          * eapply (grow_ins s1 id _); [|exact HL']. eapply ref_keep; [exact H1|reflexivity].
        + destruct Hcase as (_ & E). rewrite E in HL'. eapply (grow_ins s1 id _); [|exact HL']. eapply ref_keep; [exact H1|reflexivity]. }
    assert (Hd2 : dl3 s2 sp (pre_of sr rst) l' (bp_lay K L1)).
    { destruct HL. split; try assumption;
      try (match goal with HE : exists t, _ /\ blk _ t _ _ |- _ => destruct HE as (t & E & B); exists t; split; [exact E|eapply tle_blk; [exact T2|exact B]] end).
      - eapply tle_blk; [exact T2|exact d2_blk].
      - exists (K + 2). split; [reflexivity|exact Bnb].
      - exists K. split; [reflexivity|exact Bnw]. }
    assert (Hl2 : length (mem (ts s2)) = bend l').
    { rewrite M2, app_length, zeros_length. pose proof (bend_ge l'). unfold l' at 2. cbn [with_b b0]. 
      change (b0 l') with (length (mem (ts s1))) in *. lia. }
    (* the rest *)
    assert (Hrest : exists s3 rnet' ops k,
      (match pre_of sr rst with Some q => LBuildBP (S fuel) q (Some al) (Some mo) | None => mret tt end) s2 = (Ok tt, s3) /\
      grow (ids sr rst) s2 s3 /\ ctx (ts s3) = ctx (ts s2) ++ ops /\ strip ops = bps_rev al mo sr da rnet' /\ rc s3 = rc s2 /\
      mem (ts s3) = mem (ts s2) ++ zeros k /\
      blay (length (mem (ts s2))) sr rnet' (length (mem (ts s3))) /\
      Forall2 same_ff rnet rnet' /\ stk3 s3 sr da rst rnet').
    { destruct (pre_of sr rst) as [q|] eqn:Hq.
      - destruct Hcase as (_ & d & E).
        assert (Hq2 : lays s2 !! q = Some (set_ten FDer (Some d) Lq)).
        { rewrite E. apply list_lookup_insert. rewrite insert_length. eapply lookup_lt_Some. apply (p_at _ _ _ _ _ (proj2 HP)). }
        apply (IH rnet s2 (S fuel) q); try assumption; [reflexivity|cbn in Hfuel; lia|eapply src_grow; eassumption|].
        eapply (stk2_derived s1 s2 sr da rst rnet q d Lq [id]); try eassumption.
        + apply HP.
        + intros i Hi. apply elem_of_list_singleton in Hi. subst i. exact Hni.
      - destruct rst as [|sp' rst]; [|discriminate]. destruct rnet as [|l1 rnet]; [|contradiction]. cbn in Hq.
        exists s2, [], [], 0. split; [reflexivity|]. split; [apply grow_refl|]. rewrite !app_nil_r.
        repeat split; try constructor. cbn. unfold sl3. rewrite Hq. exact I. }
    destruct Hrest as (s3 & rnet' & ops3 & k & E3 & G3 & C3 & O3 & R3 & M3 & B3 & F3 & S3).
    exists s3, (l' :: rnet'), (ops2 ++ ops3), (bend l' - b0 l' + k).
    split; [|split; [|split; [|split; [|split; [|split; [|split; [|split]]]]]]].
    + cbn [LBuildBP]. erewrite mbnd_ok by (apply CheckOnce_ok; [exact Hone0|exact HA|apply HL|apply HL]).
      cbn iota. fold L1. fold s1. erewrite mbnd_ok by exact E2.
      erewrite mbnd_ok by (apply getL_ok; exact Hid2).
      change (lkind_of (bp_lay K L1)) with (lkind_of L). rewrite (d2_kind _ _ _ _ _ _ _ HL).
      erewrite mbnd_ok by reflexivity.
      change (lpre (bp_lay K L1)) with (lpre L). rewrite (d2_pre _ _ _ _ _ _ _ HL). exact E3.
    + eapply grow_trans; [eapply grow_weaken; [exact Hg1|]|eapply grow_trans; [eapply grow_weaken; [exact Hg2|]|eapply grow_weaken; [exact G3|]]].
      * intros i Hi. apply elem_of_list_singleton in Hi. subst i. left.
      * intros i Hi. rewrite ids_cons. destruct (pre_of sr rst) as [q|] eqn:Hq.
        -- apply elem_of_cons in Hi as [->|Hi]; [right; apply pre_in; exact Hq|]. apply elem_of_list_singleton in Hi. subst i. left.
        -- apply elem_of_list_singleton in Hi. subst i. left.
      * intros i Hi. right. exact Hi.
    + rewrite C3, C2, app_assoc. reflexivity.
    + rewrite strip_app, O3. cbn [bps_rev]. f_equal.
      assert (Eo : opv_at sr da rnet' = match pre_of sr rst with Some _ => Some (pv_at sr da rnet) | None => None end).
      { assert (Ep : pv_at sr da rnet' = pv_at sr da rnet) by (destruct F3 as [|h h' ? ? (b' & p' & ->)]; reflexivity).
        assert (Eh : has_pre sr rnet' = has_pre sr rnet) by (destruct F3; reflexivity).
        unfold opv_at. rewrite Eh, Ep, (has_pre_of _ _ _ _ _ Hs1).
        destruct (pre_of sr rst); reflexivity. }
      rewrite Eo. destruct (pre_of sr rst); apply Hcase.
    + rewrite R3, R2. reflexivity.
    + rewrite M3, M2, <- app_assoc, <- zeros_add. reflexivity.
    + cbn [blay]. split; [reflexivity|]. split; [rewrite Hpre'; destruct F3; reflexivity|]. rewrite <- Hl2. exact B3.
    + constructor; [|exact F3]. eexists _, _. reflexivity.
    + cbn [stk3]. split; [|exact S3]. exists (bp_lay K L1).
      eapply dl3_tle; [apply (g_tens _ _ _ G3)| |exact Hd2]. apply (g_lays _ _ _ G3). exact Hni.
Qed.
End NetChain3.
