(** * NetRun6: from building a stack of dense layers to the end of a history of actions *)
From Verif Require Import Base Num ModelTools ModelOps ModelTensor ModelGraph ModelLayer ModelModel
  Spec Denote ObjSpec IndexProofs ExecProofs TensorFacts AccessProofs EagerProofs
  NetSpec NetExec NetBack NetBuild NetChain NetChain2 NetChain3 NetFit NetMem NetRun NetRun2 NetScript NetRun3 NetRun4 NetRun5.
From Coq Require Import Lia ZifyBool ZifyNat ZifyN.

(** ** What the layers hold, for the reader of the results *)
Section Params.
Context {T : Type} `{Num T}.
(** Layer [id] holds the weights and biases of [l]: a bias tensor with one
    number per unit and a weight tensor with one row per unit. *)
Definition layer_holds (s : lst T) (id : nat) (l : slayer T) : Prop :=
  exists L tb tw n, lays s !! id = Some L /\ lflag L BTrainable = strain l /\
    length (sW l) = length (sB l) /\ Forall (fun w => length w = n) (sW l) /\
    lten L FBias = Some tb /\ reads (ts s) tb [N.of_nat (length (sB l))] (sB l) /\
    lten L FWeights = Some tw /\ reads (ts s) tw [N.of_nat (length (sB l)); N.of_nat n] (concat (sW l)).
End Params.

Section NetRun6.
Context {T : Type} `{Num T}.

(** ** The parameters of a running model *)
Lemma blk_reads (s : tst T) t sh a vs : blk s t sh a -> length vs = N.to_nat (prodN sh) ->
  (forall j v, vs !! j = Some v -> mem s !! (a + j) = Some v) -> reads s t sh vs.
Proof.
  intros [b E] Hl Hv. eexists _, _. split; [exact E|]. split; [reflexivity|]. split; [|exact Hl].
  cbn [operands blkm]. rewrite <- Hl. clear E Hl. revert a Hv. induction vs as [|v vs IH]; intros a Hv; cbn; [reflexivity|].
  pose proof (Hv 0 v eq_refl) as H0. rewrite Nat.add_0_r in H0. rewrite H0. cbn.
  change (mapM (rd (mem s)) (map Some (seq (S a) (length vs)))) with (rds (mem s) (map Some (seq (S a) (length vs)))).
  rewrite IH; [reflexivity|]. intros j w Hj. specialize (Hv (S j) w Hj). rewrite <- Hv. f_equal. lia.
Qed.
Lemma concat_lookup {A} (W : list (list A)) n : Forall (fun w => length w = n) W -> forall k v, concat W !! k = Some v ->
  exists i j w, W !! i = Some w /\ w !! j = Some v /\ k = i * n + j.
Proof.
  induction 1 as [|w W Hw _ IH]; intros k v Hk; cbn in Hk; [discriminate|].
  apply lookup_app_Some in Hk as [Hk|[Hge Hk]]; [exists 0, k, w; auto|].
  destruct (IH _ _ Hk) as (i & j & w' & E1 & E2 & E3). exists (S i), j, w'. repeat split; try assumption. lia.
Qed.
Lemma concat_len {A} (W : list (list A)) n : Forall (fun w => length w = n) W -> length (concat W) = length W * n.
Proof. induction 1 as [|w W Hw _ IH]; cbn; [reflexivity|]. rewrite app_length. lia. Qed.
Lemma holds_one (s : lst T) (id : nat) (L : layer T) l sl o tb tw : lays s !! id = Some L -> lflag L BTrainable = strain sl ->
  lten L FBias = Some tb -> blk (ts s) tb [o] (ab l 0) -> lten L FWeights = Some tw ->
  blk (ts s) tw [o; N.of_nat (ni l)] (aw l 0 0) -> no l = N.to_nat o -> fits_layer l sl -> has_params (mem (ts s)) l sl ->
  layer_holds s id sl.
Proof.
  intros HL Htr Eb Bb Ew Bw Hno Hf [HW HB]. exists L, tb, tw, (ni l).
  assert (Eo : N.of_nat (length (sB sl)) = o) by (rewrite (fl_B _ _ Hf), Hno; lia). rewrite Eo.
  split; [exact HL|]. split; [exact Htr|]. split; [rewrite (fl_W _ _ Hf), (fl_B _ _ Hf); reflexivity|]. split; [exact (fl_row _ _ Hf)|].
  split; [exact Eb|]. split; [|split; [exact Ew|]].
  - eapply blk_reads; [exact Bb|rewrite prod_1, (fl_B _ _ Hf); exact Hno|]. intros j v Hj. specialize (HB j v Hj).
    rewrite <- HB. f_equal. unfold ab. lia.
  - eapply blk_reads; [exact Bw| |].
    + rewrite (concat_len _ _ (fl_row _ _ Hf)), (fl_W _ _ Hf), Hno. cbn. lia.
    + intros k v Hk. destruct (concat_lookup _ _ (fl_row _ _ Hf) _ _ Hk) as (i & j & w & E1 & E2 & ->).
      specialize (HW i w E1 j v E2). rewrite <- HW. f_equal. unfold aw. lia.
Qed.
Lemma forall2_rev_l {A B} (R : A -> B -> Prop) l k : Forall2 R (rev l) k -> Forall2 R l (rev k).
Proof. intros Hf. apply Forall2_reverse in Hf. rewrite !reverse_rev, rev_involutive in Hf. exact Hf. Qed.
Lemma run_params (s : lst T) M sr rst snet P : running s M sr rst snet P ->
  Forall2 (layer_holds s) (rev (map s_id rst)) snet.
Proof.
  intros HR.
  assert (G : forall (rst : list (lsp (T:=T))) rnet net,
    (forall i sp l, rst !! i = Some sp -> rnet !! i = Some l -> exists L tb tw, lays s !! s_id sp = Some L /\ lflag L BTrainable = s_tr sp /\
       lten L FBias = Some tb /\ blk (ts s) tb [s_o sp] (ab l 0) /\ lten L FWeights = Some tw /\
       blk (ts s) tw [s_o sp; N.of_nat (ni l)] (aw l 0 0) /\ no l = N.to_nat (s_o sp)) ->
    length rst = length rnet -> Forall2 fits_layer rnet net -> Forall2 (has_params (mem (ts s))) rnet net ->
    map strain net = map s_tr rst -> Forall2 (layer_holds s) (map s_id rst) net).
  { clear. induction rst as [|sp rst IH]; intros [|l rnet] net Hl Hlen Hf Hp Htr; try discriminate.
    - inversion Hf. constructor.
    - inversion Hf as [|? sl ? net' Hf1 Hf2]; subst. inversion Hp as [|? ? ? ? Hp1 Hp2]; subst.
      injection Htr as Ht1 Ht2. constructor; [|apply (IH rnet); try assumption; [|cbn in Hlen; lia]].
      + destruct (Hl 0 sp l eq_refl eq_refl) as (L & tb & tw & ? & ? & ? & ? & ? & ? & ?). eapply holds_one; try eassumption. congruence.
      + intros i sp' l' E1 E2. exact (Hl (S i) sp' l' E1 E2). }
  assert (HF : forall rnet da hi, cinv s M sr rst rnet da hi snet ->
    (forall i sp l, rst !! i = Some sp -> rnet !! i = Some l -> exists L tb tw, lays s !! s_id sp = Some L /\ lflag L BTrainable = s_tr sp /\
       lten L FBias = Some tb /\ blk (ts s) tb [s_o sp] (ab l 0) /\ lten L FWeights = Some tw /\
       blk (ts s) tw [s_o sp; N.of_nat (ni l)] (aw l 0 0) /\ no l = N.to_nat (s_o sp)) ->
    Forall2 (layer_holds s) (rev (map s_id rst)) snet).
  { intros rnet da hi HC Hl. destruct HC. rewrite <- (rev_involutive snet), <- (reverse_rev (map s_id rst)), <- (reverse_rev (rev snet)). apply Forall2_reverse.
    assert (Hlen : length rst = length rnet).
    { rewrite <- (map_length s_tr), <- ci_tr, map_length, rev_length, <- (Forall2_length _ _ _ ci_fits), rev_length. reflexivity. }
    apply (G _ rnet); try assumption; apply forall2_rev_l; assumption. }
  destruct HR as [rnet da hi HC _ Hs _ _|rnet da hi t0 h2 HC HB _]; (eapply HF; [exact HC|]).
  - clear HC HF G. revert rnet Hs. induction rst as [|sp0 rst IH]; intros [|l0 rnet]; cbn [stk2]; try contradiction; try discriminate.
    intros ([L HL] & _ & _ & _ & Hs) [|i] sp l E1 E2; [|eapply IH; eassumption].
    injection E1 as <-. injection E2 as <-. destruct (d2_bias _ _ _ _ _ _ _ HL) as (tb & ? & ?). destruct (d2_w _ _ _ _ _ _ _ HL) as (tw & ? & ?).
    exists L, tb, tw. repeat split; try assumption; apply HL.
  - pose proof (bi_stk _ _ _ _ _ _ _ _ _ HB) as Hs. clear HC HB HF G. revert rnet Hs. induction rst as [|sp0 rst IH]; intros [|l0 rnet]; cbn [stk3]; try contradiction; try discriminate.
    intros ([L HL] & Hs) [|i] sp l E1 E2; [|eapply IH; eassumption].
    injection E1 as <-. injection E2 as <-. destruct (d3_bias _ _ _ _ _ HL) as (tb & ? & ?). destruct (d3_w _ _ _ _ _ HL) as (tw & ? & ?).
    exists L, tb, tw. repeat split; try assumption; apply HL.
Qed.

Context (rnd : nat -> nat -> T).
Context (Hone0 : neqb (one (T:=T)) nzero = false) (Hone1 : nltb none (one (T:=T)) = false).

(** ** One action, and many *)
Definition alive (sr : src) (osh : list N) (lids : list nat) (s : lst T) (M : model T) (tids : list nat) (w : world T) : Prop :=
  exists rst P, running s M sr rst (w_net w) P /\ store_ok s P tids (w_ten w) /\ lids = rev (map s_id rst) /\ osh = sh_of sr rst.

Lemma mmap_ten (s : lst T) (tids : list nat) : forall is l, Forall2 (fun i t => tids !! i = Some t) is l ->
  mmap is (fun i => mlift (at_or_panic tids i)) s = (Ok l, s).
Proof.
  induction 1 as [|i t is l E _ IH]; cbn [mmap]; [reflexivity|].
  erewrite mbnd_ok by (apply ten_ok; exact E). erewrite mbnd_ok by exact IH. reflexivity.
Qed.
Lemma pick_store {X} (s : lst T) P tids st (g : X -> list N * list T) : store_ok s P tids st -> forall is pairs,
  Forall2 (fun i p => st !! i = Some (g p)) is pairs ->
  exists l, Forall2 (fun i t => tids !! i = Some t) is l /\
    Forall2 (fun x p => reads (ts s) x (fst (g p)) (snd (g p)) /\ clear_of P (ts s) x) l pairs.
Proof.
  intros Hs. induction 1 as [|i p is pairs E _ (l & H1 & H2)]; [exists []; split; constructor|].
  destruct (g p) as [sh vs] eqn:Eg. destruct (store_at _ _ _ _ _ _ _ Hs E) as (t & Et & Hr & Hc). exists (t :: l). split; constructor; auto.
  rewrite Eg. auto.
Qed.
Lemma pick_any (s : lst T) P tids st : store_ok s P tids st -> forall is, Forall (fun i => i < length st) is ->
  exists l, Forall2 (fun i t => tids !! i = Some t) is l.
Proof.
  intros Hs. induction 1 as [|i is Hi _ [l IH]]; [exists []; constructor|].
  destruct (lookup_lt_is_Some_2 tids i) as [t Et]; [rewrite (Forall2_length _ _ _ Hs); exact Hi|]. exists (t :: l). constructor; assumption.
Qed.
Lemma attempt_ok {A} (c : LM T A) s a s' : c s = (Ok a, s') -> attempt c s = (Ok (Some a), s').
Proof. intros E. unfold attempt. rewrite E. reflexivity. Qed.
Lemma attempt_err {A} (c : LM T A) s e s' : c s = (Err e, s') -> attempt c s = (Ok None, s').
Proof. intros E. unfold attempt. rewrite E. reflexivity. Qed.

Lemma act_ok sr osh lids (s : lst T) M tids w a w' o : alive sr osh lids s M tids w ->
  step (r_sh sr) osh (low_of sr) w a w' o ->
  exists s' M' tids', do_act rnd lids (M, tids) a s = (Ok (M', tids', o), s') /\ alive sr osh lids s' M' tids' w'.
Proof.
  intros (rst & P & HR & Hs & -> & ->) Hst.
  inversion Hst as [net st sh vs Hf Hl|net st i sh vs Hi|net st i xs Hi|net st i sh xs Hi Hbad|
    net st i j xs tgt alpha mo Hi Hj Hb|net st i j sh xs sh' tgt alpha mo Hi Hj Hbad Hb|
    net st is js pairs picks epochs batch alpha mo net' ok His Hjs Hne Hb Hlp|net st is js picks epochs batch alpha mo His Hjs Hne|
    net st k b Hk|net st b]; subst; cbn [w_net w_ten] in *; cbn [do_act].
  - destruct (new_ok s sh vs Hf Hl) as (s' & e & E & Em & Ht & Ely & Er & Hrd & Hc).
    eexists s', M, _. split; [erewrite mbnd_ok by exact E; reflexivity|]. exists rst, P.
    split; [eapply running_app; eassumption|]. split; [|split; reflexivity]. cbn [w_ten].
    eapply (store_snoc s); try eassumption. rewrite Em. apply kept_app.
  - destruct (store_at _ _ _ _ _ _ _ Hs Hi) as (t & Et & Hr & Hc). exists s, M, tids.
    split; [erewrite mbnd_ok by (apply ten_ok; exact Et); erewrite mbnd_ok by (eapply get_ok; exact Hr); reflexivity|].
    exists rst, P. auto.
  - destruct (store_at _ _ _ _ _ _ _ Hs Hi) as (t & Et & Hr & Hc).
    destruct (run_predict rnd s M sr rst net P t xs HR Hr Hc) as (s' & E & HR' & Ht & Hk & _ & _ & Hy & Hcy).
    eexists s', M, _. split; [erewrite mbnd_ok by (apply ten_ok; exact Et); erewrite mbnd_ok by (apply attempt_ok; exact E); reflexivity|].
    exists rst, P. split; [exact HR'|]. split; [|split; reflexivity]. cbn [w_ten]. eapply (store_snoc s); eassumption.
  - destruct (store_at _ _ _ _ _ _ _ Hs Hi) as (t & Et & Hr & Hc).
    destruct (run_predict_bad rnd s M sr rst net P t sh xs HR Hr Hbad) as [e E].
    eexists s, M, _. split; [erewrite mbnd_ok by (apply ten_ok; exact Et); erewrite mbnd_ok by (eapply attempt_err; exact E); reflexivity|].
    exists rst, P. auto.
  - destruct (store_at _ _ _ _ _ _ _ Hs Hi) as (x & Ex & Hrx & Hcx). destruct (store_at _ _ _ _ _ _ _ Hs Hj) as (y & Ey & Hry & Hcy).
    destruct (run_train1 Hone0 Hone1 s M sr rst net P x _ xs y _ tgt alpha mo HR Hb Hrx Hcx Hry Hcy) as (M' & s1 & s' & P' & e & E1 & E & HR' & Ht & Hk & HP & _).
    rewrite !bool_decide_eq_true_2 in E, HR' by reflexivity. cbn [andb] in E, HR'.
    eexists s', M', _. split.
    { erewrite mbnd_ok by (apply ten_ok; exact Ex). erewrite mbnd_ok by (apply ten_ok; exact Ey). erewrite mbnd_ok by exact E1.
      erewrite mbnd_ok by (apply attempt_ok; exact E). reflexivity. }
    exists rst, P'. split; [exact HR'|]. split; [|split; reflexivity]. eapply (store_next s); eassumption.
  - destruct (store_at _ _ _ _ _ _ _ Hs Hi) as (x & Ex & Hrx & Hcx). destruct (store_at _ _ _ _ _ _ _ Hs Hj) as (y & Ey & Hry & Hcy).
    destruct (run_train1 Hone0 Hone1 s M sr rst net P x _ xs y _ tgt alpha mo HR Hb Hrx Hcx Hry Hcy) as (M' & s1 & s' & P' & e & E1 & E & HR' & Ht & Hk & HP & _).
    assert (Hb2 : bool_decide (sh = r_sh sr) && bool_decide (sh' = sh_of sr rst) = false).
    { apply andb_false_iff. destruct Hbad; [left|right]; apply bool_decide_eq_false_2; assumption. }
    rewrite Hb2 in E, HR'.
    eexists s', M', _. split.
    { erewrite mbnd_ok by (apply ten_ok; exact Ex). erewrite mbnd_ok by (apply ten_ok; exact Ey). erewrite mbnd_ok by exact E1.
      erewrite mbnd_ok by (eapply attempt_err; exact E). reflexivity. }
    exists rst, P'. split; [exact HR'|]. split; [|split; reflexivity]. eapply (store_next s); eassumption.
  - destruct (pick_store _ _ _ _ fst Hs _ _ His) as (xs & Hx1 & Hx2). destruct (pick_store _ _ _ _ snd Hs _ _ Hjs) as (ys & Hy1 & Hy2).
    destruct (run_train Hone0 Hone1 picks s M sr rst net P xs ys pairs epochs batch alpha mo HR Hb Hne Hx2 Hy2) as (M' & s1 & s' & P' & e & E1 & E & HR' & Ht & Hk & HP & _).
    rewrite Hlp in E, HR'. cbn [fst snd] in E, HR'.
    eexists s', M', _. split.
    { erewrite mbnd_ok by (apply mmap_ten; exact Hx1). erewrite mbnd_ok by (apply mmap_ten; exact Hy1).
      rewrite (Forall2_length _ _ _ Hx2), (Forall2_length _ _ _ Hy2), Nat.eqb_refl.
      erewrite mbnd_ok by exact E1. destruct ok.
      - erewrite mbnd_ok by (apply attempt_ok; exact E). reflexivity.
      - erewrite mbnd_ok by (eapply attempt_err; exact E). reflexivity. }
    exists rst, P'. split; [exact HR'|]. split; [|split; reflexivity]. eapply (store_next s); eassumption.
  - destruct (pick_any _ _ _ _ Hs _ His) as (xs & Hx1). destruct (pick_any _ _ _ _ Hs _ Hjs) as (ys & Hy1).
    assert (Hln : length xs =? length ys = false).
    { apply Nat.eqb_neq. rewrite <- (Forall2_length _ _ _ Hx1), <- (Forall2_length _ _ _ Hy1). exact Hne. }
    eexists s, M, _. split.
    { erewrite mbnd_ok by (apply mmap_ten; exact Hx1). erewrite mbnd_ok by (apply mmap_ten; exact Hy1).
      rewrite Hln. erewrite mbnd_ok by reflexivity.
      erewrite mbnd_ok by (eapply attempt_err; unfold Train; rewrite Hln; reflexivity). reflexivity. }
    exists rst, P. auto.
  - destruct (lookup_lt_is_Some_2 (rev (map s_id rst)) k) as [id Hid].
    { rewrite rev_length, map_length. destruct (run_basic _ _ _ _ _ _ HR) as (_ & _ & _ & <- & _). exact Hk. }
    destruct (run_layer s M sr rst net P k id b HR Hk Hid) as (s' & rst' & E & Hsim & HR' & Hts & _).
    eexists s', M, _. split; [erewrite mbnd_ok by (apply ten_ok; exact Hid); erewrite mbnd_ok by exact E; reflexivity|].
    exists rst', P. split; [exact HR'|]. cbn [w_ten]. split; [unfold store_ok in *; rewrite Hts; exact Hs|].
    rewrite (sim_sid0 _ _ Hsim), (sim_sh sr _ _ Hsim). auto.
  - destruct (run_model s M sr rst net P b HR) as (s' & rst' & E & Hsim & HR' & Hts & _).
    eexists s', M, _. split; [erewrite mbnd_ok by exact E; reflexivity|].
    exists rst', P. split; [exact HR'|]. cbn [w_ten]. split; [unfold store_ok in *; rewrite Hts; exact Hs|].
    rewrite (sim_sid0 _ _ Hsim), (sim_sh sr _ _ Hsim). auto.
Qed.
Lemma acts_ok sr osh lids w acts w' os : history (r_sh sr) osh (low_of sr) w acts w' os ->
  forall (s : lst T) M tids, alive sr osh lids s M tids w ->
  exists s' M' tids', do_acts rnd lids (M, tids) acts s = (Ok (M', tids', os), s') /\ alive sr osh lids s' M' tids' w'.
Proof.
  induction 1 as [w|w a w1 o acts w2 os Hst _ IH]; intros s M tids HA; cbn [do_acts].
  - exists s, M, tids. auto.
  - destruct (act_ok _ _ _ _ _ _ _ _ _ _ HA Hst) as (s1 & M1 & tids1 & E1 & HA1).
    destruct (IH _ _ _ HA1) as (s2 & M2 & tids2 & E2 & HA2). exists s2, M2, tids2. split; [|exact HA2].
    erewrite mbnd_ok by exact E1. cbn [fst snd]. erewrite mbnd_ok by exact E2. reflexivity.
Qed.

(** ** Building the stack *)
Fixpoint net_sizes (n : N) (os : list N) : Prop :=
  match os with
  | [] => True
  | o :: os' => (o < W64)%N /\ fits [o; n] /\ net_sizes o os'
  end.
Definition lay3 (sp : lsp (T:=T)) : N * (T -> T) * (T -> T) := (s_o sp, act_f (s_act sp), act_d (s_act sp)).
Definition spec3 (l : N * activation T) : N * (T -> T) * (T -> T) := (fst l, act_f (snd l), act_d (snd l)).

Record built (s : lst T) (M : model T) (sr : src) (rst : list (lsp (T:=T))) (c : nat) : Prop := {
  bu_stk : stk false false s sr rst;
  bu_src : src_ok s sr;
  bu_outs : outs_ok sr rst (length (mem (ts s)));
  bu_base : r_b sr + N.to_nat (prodN (r_sh sr)) <= length (mem (ts s));
  bu_sizes : sizes_ok sr rst;
  bu_nd : NoDup (ids sr rst);
  bu_lt : Forall (fun i => i < length (lays s)) (ids sr rst);
  bu_ne : ids sr rst <> [];
  bu_last : m_last M = pre_of sr rst;
  bu_first : m_first M = last (ids sr rst);
  bu_bp : m_bp M = None;
  bu_rc : rc s = c;
  bu_tr : Forall (fun sp => s_tr sp = true) rst;
}.
Lemma outs_mono sr (rst : list (lsp (T:=T))) A B : A <= B -> outs_ok sr rst A -> outs_ok sr rst B.
Proof. clear. intros HAB. induction rst as [|sp rst IH]; cbn; [auto|]. intros (? & ? & ?). split; [lia|]. split; [lia|auto]. Qed.
Lemma top_bound sr (rst : list (lsp (T:=T))) A : r_b sr + N.to_nat (prodN (r_sh sr)) <= A -> outs_ok sr rst A ->
  base_of sr rst + N.to_nat (width_of sr rst) <= A.
Proof. clear. destruct rst; cbn; [auto|]. intros _ (_ & ? & _). lia. Qed.

Lemma stk_ext (s s' : lst T) sr e : tle (ts s) (ts s') -> lays s' = lays s ++ e ->
  forall rst, stk false false s sr rst -> stk false false s' sr rst.
Proof. clear Hone0 Hone1 rnd.
  intros Ht Hl. assert (HA : forall i L, lays s !! i = Some L -> lays s' !! i = Some L).
  { intros i L E. rewrite Hl. apply lookup_app_l_Some. exact E. }
  induction rst as [|sp rst IH]; cbn [stk].
  - unfold sl. destruct (r_id sr) as [q|]; [|auto]. intros [L []]. exists L. split; try assumption. apply HA. assumption.
  - intros [[L []] Hs]. split; [|apply IH; exact Hs]. exists L. split; try assumption; [apply HA; assumption|eapply tle_blk; eassumption].
Qed.
Lemma push_ok (s : lst T) M sr rst c lids o act : built s M sr rst c -> (rst = [] -> r_id sr <> None) ->
  (o < W64)%N -> fits [o; width_of sr rst] ->
  exists s' M' sp, push_dense (M, lids) (o, act) s = (Ok (M', lids ++ [s_id sp]), s') /\
    built s' M' sr (sp :: rst) c /\ lay3 sp = spec3 (o, act) /\ s_o sp = o.
Proof. clear Hone0 Hone1 rnd.
  intros HB Hpre Ho Hf. pose proof HB as [b_stk b_src b_outs b_base b_sizes b_nd b_lt b_ne b_last b_first b_bp b_rc b_tr].
  set (id := length (lays s)).
  set (sp := LSp id o act (length (tens (ts s))) (length (mem (ts s))) true).
  set (L := set_pre (m_last M) (set_ten FOutput (Some (length (tens (ts s)))) (blank LDense (Some act) true)) : layer T).
  set (t' := MkSt (mem (ts s) ++ zeros (N.to_nat o)) (tens (ts s) ++ [MkNode KMat (blkm [o] (length (mem (ts s))) false)]) (ctx (ts s))).
  set (s' := MkL t' (lays s ++ [L]) (rc s)).
  destruct (m_first M) as [f|] eqn:Ef.
  2:{ symmetry in b_first. apply last_None in b_first. contradiction. }
  assert (Ht : tle (ts s) (ts s')) by (eapply tle_app; reflexivity).
  eexists s', _, sp. split; [|split; [|split; reflexivity]].
  - unfold push_dense, NewDense. cbn [fst snd].
    erewrite mbnd_ok.
    2:{ erewrite mbnd_ok by (apply liftT_ok; apply NewZeros_blk; apply fits_1; exact Ho). reflexivity. }
    cbn [ts lays rc]. rewrite prod_1. unfold MPush. rewrite Ef. erewrite mbnd_ok; [reflexivity|].
    unfold Connect. erewrite mbnd_ok.
    2:{ apply updL_ok. cbn [lays]. apply list_lookup_middle. reflexivity. }
    cbn [ts lays rc]. rewrite insert_app_r_alt by lia. rewrite Nat.sub_diag. cbn. reflexivity.
  - assert (Hlid : Forall (fun i => i < length (lays s')) (ids sr (sp :: rst))).
    { cbn [s' lays]. rewrite app_length. cbn [length]. rewrite ids_cons. constructor; [cbn; unfold id; lia|].
      eapply Forall_impl; [exact b_lt|]. cbv beta. intros i Hi. lia. }
    split; cbn [m_last m_first m_bp]; try assumption.
    + cbn [stk]. split; [|eapply stk_ext; [exact Ht|reflexivity|exact b_stk]].
      exists L. split; cbn; try reflexivity; try assumption.
      * apply list_lookup_middle. reflexivity.
      * exists false. cbn. apply list_lookup_middle. reflexivity.
      * unfold preset_of. destruct rst; [|exact I]. destruct (r_id sr); [exact I|]. exfalso. apply Hpre; reflexivity.
    + destruct b_src as [F B]. split; [exact F|eapply tle_blk; eassumption].
    + cbn [outs_ok sp s_ob s_o s' ts t' mem]. rewrite app_length, zeros_length.
      split; [apply top_bound; assumption|]. split; [lia|]. eapply outs_mono; [|exact b_outs]. lia.
    + cbn [s' ts t' mem]. rewrite app_length. lia.
    + cbn [sizes_ok sp s_o]. auto.
    + rewrite ids_cons. constructor; [|exact b_nd]. intros Hin. rewrite Forall_forall in b_lt. specialize (b_lt _ Hin).
      cbn in b_lt. unfold id in b_lt. lia.
    + rewrite ids_cons. discriminate.
    + reflexivity.
    + rewrite ids_cons. rewrite b_first. destruct (ids sr rst); [contradiction|reflexivity].
    + constructor; [reflexivity|exact b_tr].
Qed.
Lemma push_all_ok (sr : src) c : forall ls (s : lst T) M rst lids, built s M sr rst c -> (rst = [] -> r_id sr <> None) ->
  net_sizes (width_of sr rst) (map fst ls) -> lids = rev (map s_id rst) ->
  exists s' M' rst', push_all (M, lids) ls s = (Ok (M', rev (map s_id rst')), s') /\ built s' M' sr rst' c /\
    map lay3 (rev rst') = map lay3 (rev rst) ++ map spec3 ls /\
    (ls <> [] -> rst' <> []) /\ (rst <> [] -> rst' <> []) /\
    width_of sr rst' = List.last (map fst ls) (width_of sr rst) /\ (rst' <> [] -> sh_of sr rst' = [width_of sr rst']).
Proof. clear Hone0 Hone1 rnd.
  induction ls as [|[o act] ls IH]; intros s M rst lids HB Hpre Hsz ->; cbn [push_all].
  - exists s, M, rst. split; [reflexivity|]. split; [exact HB|]. rewrite app_nil_r. split; [reflexivity|].
    split; [contradiction|]. split; [auto|]. split; [reflexivity|]. destruct rst; [contradiction|reflexivity].
  - cbn [map net_sizes fst] in Hsz. destruct Hsz as (Ho & Hf & Hsz).
    destruct (push_ok s M sr rst c (rev (map s_id rst)) o act HB Hpre Ho Hf) as (s1 & M1 & sp & E1 & HB1 & El & Eo).
    destruct (IH s1 M1 (sp :: rst) (rev (map s_id (sp :: rst))) HB1) as (s2 & M2 & rst2 & E2 & HB2 & El2 & Hn2 & Hn2' & Hw & Hsh); [discriminate| |reflexivity|].
    { cbn [width_of]. rewrite Eo. exact Hsz. }
    exists s2, M2, rst2. split; [erewrite mbnd_ok by exact E1; exact E2|]. split; [exact HB2|].
    split; [|split; [|split; [|split; [|exact Hsh]]]].
    + rewrite El2. cbn [rev]. rewrite map_app. cbn [map]. rewrite El, <- app_assoc. reflexivity.
    + intros _. apply Hn2'. discriminate.
    + intros _. apply Hn2'. discriminate.
    + rewrite Hw. cbn [width_of map fst]. rewrite Eo. clear. revert o. induction ls as [|[o' ?] ls IH]; intros o; [reflexivity|].
      cbn [map fst]. cbn. destruct ls; [reflexivity|]. apply IH.
Qed.

Lemma last_from {A} (a d : A) l : List.last (a :: l) d = List.last l a.
Proof. clear. revert a d. induction l as [|b l IH]; intros a d; [reflexivity|]. change (List.last (a :: b :: l) d) with (List.last (b :: l) d). rewrite !IH. reflexivity. Qed.
Lemma init_net_snoc c o f d : forall ls n, init_net rnd c n (ls ++ [(o, f, d)]) =
  init_net rnd c n ls ++ init_net rnd (c + 2 * length ls) (List.last (map (fun l => N.to_nat (fst (fst l))) ls) n) [(o, f, d)].
Proof. clear Hone0 Hone1.
  revert c. intros c ls. revert c. induction ls as [|[[o1 f1] d1] ls IH]; intros c n.
  - cbn [app length init_net map List.last]. rewrite Nat.add_0_r. reflexivity.
  - cbn [app init_net]. rewrite IH. cbn [app]. f_equal. f_equal. cbn [length map].
    replace (c + 2 * S (length ls)) with (c + 2 + 2 * length ls) by lia. rewrite last_from. reflexivity.
Qed.
Lemma init_rev_net sr c : forall rst, Forall (fun sp => s_tr sp = true) rst ->
  rev (init_rev rnd c sr rst) = init_net rnd c (N.to_nat (prodN (r_sh sr))) (map lay3 (rev rst)).
Proof. clear Hone0 Hone1.
  induction rst as [|sp rst IH]; intros Htr; [reflexivity|]. apply Forall_cons in Htr as [Ht Htr].
  cbn [init_rev rev]. rewrite map_app. cbn [map]. unfold lay3 at 2. rewrite init_net_snoc, IH by exact Htr. f_equal.
  cbn [init_net]. rewrite map_length, rev_length. unfold init_layer. rewrite Ht.
  assert (Hw : List.last (map (fun l => N.to_nat (fst (fst l))) (map lay3 (rev rst))) (N.to_nat (prodN (r_sh sr))) = N.to_nat (width_of sr rst)).
  { destruct rst as [|sp' rst]; [reflexivity|]. cbn [rev]. rewrite !map_app. cbn [map]. rewrite last_last. reflexivity. }
  rewrite Hw. reflexivity.
Qed.

Lemma built_compile (s : lst T) M sr rst c : built s M sr rst c -> rst <> [] ->
  exists s' M', Compile rnd M s = (Ok M', s') /\
    alive sr (sh_of sr rst) (rev (map s_id rst)) s' M' [] (W (init_net rnd c (N.to_nat (prodN (r_sh sr))) (map lay3 (rev rst))) []).
Proof.
  intros [] Hne.
  destruct (Compile_ok rnd Hone0 Hone1 s M sr rst) as (s' & M' & rnet & da & hi & E & HC & Hs & Hda & Hbp & Hg & Hrc & Hro); try assumption.
  exists s', M'. split; [exact E|]. rewrite bu_rc0, (init_rev_net sr c rst bu_tr0) in HC.
  exists rst, (own sr rst da hi). cbn [w_net w_ten]. split; [|split; [constructor|auto]].
  eapply run_c; [exact HC|congruence|exact Hs|exact Hro|reflexivity].
Qed.
End NetRun6.
