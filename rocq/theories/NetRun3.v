(** * NetRun3: histories of actions on a compiled stack *)
From Verif Require Import Base Num ModelTools ModelOps ModelTensor ModelGraph ModelLayer ModelModel
  Spec Denote ObjSpec IndexProofs ExecProofs TensorFacts AccessProofs EagerProofs
  NetSpec NetExec NetBack NetBuild NetChain NetChain2 NetChain3 NetFit NetMem NetRun NetRun2 NetScript.
From Coq Require Import Lia ZifyBool ZifyNat ZifyN.

Section NetRun3.
Context {T : Type} `{Num T}.

(** ** What stays when memory changes elsewhere *)
Lemma stk2_kept (P : nat -> Prop) (s s' : lst T) sr da : tle (ts s) (ts s') -> lays s' = lays s -> kept P (mem (ts s)) (mem (ts s')) ->
  forall rst rnet, refs_off P s (ids sr rst) -> stk2 s sr da rst rnet -> stk2 s' sr da rst rnet.
Proof.
  intros Ht Hl Hk. induction rst as [|sp rst IH]; intros [|l rnet] Hr; cbn [stk2]; try contradiction.
  - unfold sl2, ids in *. destruct (r_id sr) as [q|]; [|auto]. intros [L HL]. exists L.
    assert (HA : lays s' !! q = Some L) by (rewrite Hl; apply HL).
    pose proof (i2_dif _ _ _ _ _ _ HL) as (t & E & B). pose proof (i2_ref _ _ _ _ _ _ HL) as (r & Er & Hm).
    assert (Hnp : ~ P r). { eapply Hr; [|apply HL|exact Er]. cbn. left. }
    destruct HL. split; try assumption.
    + exists t. split; [exact E|]. eapply tle_blk; eassumption.
    + exists r. split; [exact Er|]. apply Hk; assumption.
  - intros ([L HL] & H1 & H2 & H3 & Hs). split; [|split; [assumption|split; [assumption|split; [assumption|]]]].
    + exists L. assert (HA : lays s' !! s_id sp = Some L) by (rewrite Hl; apply HL).
      pose proof (d2_ref _ _ _ _ _ _ _ HL) as (r & Er & Hm).
      assert (Hnp : ~ P r). { eapply Hr; [|apply HL|exact Er]. cbn. left. }
      destruct HL. split; try assumption;
        try (match goal with HE : exists t, _ /\ blk _ t _ _ |- _ => destruct HE as (t & E & B); exists t; split; [exact E|eapply tle_blk; eassumption] end).
      * eapply tle_blk; eassumption.
      * exists r. split; [exact Er|]. apply Hk; assumption.
    + apply IH; [|assumption]. intros i L0 r Hi. apply Hr. rewrite ids_cons. right. exact Hi.
Qed.
Lemma binv_next (s s' : lst T) M sr rst rnet da hi t0 h2 : binv s M sr rst rnet da hi t0 h2 ->
  tle (ts s) (ts s') -> lays s' = lays s -> length (mem (ts s)) <= length (mem (ts s')) ->
  (forall a v, t0 <= a -> a < t0 + N.to_nat (width_of sr rst) + N.to_nat (width_of sr rst) + 1 \/ t0 + N.to_nat (width_of sr rst) + N.to_nat (width_of sr rst) + 3 <= a ->
     mem (ts s) !! a = Some v -> mem (ts s') !! a = Some v) ->
  binv s' M sr rst rnet da hi t0 h2.
Proof.
  intros [] Ht Hl Hle Hm. split; try assumption.
  - apply (stk3_tle s); [exact Ht|intros i _; rewrite Hl; reflexivity|assumption].
  - destruct bi_tgt as (t & E & B). exists t. split; [exact E|]. eapply tle_blk; eassumption.
  - lia.
  - destruct (blay_chainB _ _ _ _ bi_blay) as [HcB Hbpe].
    apply Forall_forall. intros r Hr. rewrite Forall_forall in bi_zm. destruct (bi_zm r Hr) as [Z1 Z2].
    apply elem_of_list_In, in_rev, elem_of_list_In in Hr. destruct (chainB_in _ _ _ _ HcB Hr) as [Hb1 Hb2].
    split.
    + intros i j Hi Hj. apply Hm; [unfold amw; lia|unfold amw; lia|apply Z1; assumption].
    + intros i Hi. apply Hm; [unfold amb; lia|unfold amb; lia|apply Z2; assumption].
  - intros k Hk. destruct (blay_chainB _ _ _ _ bi_blay) as [HcB Hbpe]. pose proof (bpe_ge _ _ _ HcB) as Hge. rewrite Hbpe in Hge.
    apply Hm; [lia|lia|]. apply bi_z. exact Hk.
Qed.

(** ** A compiled model, with or without its training graphs *)
Inductive running (s : lst T) (M : model T) (sr : src) (rst : list (lsp (T:=T))) (snet : list (slayer T)) (P : nat -> Prop) : Prop :=
| run_c rnet da hi : cinv s M sr rst rnet da hi snet -> m_bp M = None -> stk2 s sr da rst rnet ->
    refs_off (own sr rst da hi) s (ids sr rst) -> (forall a, P a <-> own sr rst da hi a) -> running s M sr rst snet P
| run_t rnet da hi t0 h2 : cinv s M sr rst rnet da hi snet -> binv s M sr rst rnet da hi t0 h2 ->
    (forall a, P a <-> ownT sr rst da hi t0 h2 a) -> running s M sr rst snet P.

Lemma cinv_da (s : lst T) M sr rst rnet da hi snet : cinv s M sr rst rnet da hi snet -> da <= hi.
Proof. intros []. pose proof (rlay_le _ _ _ ci_rlay). lia. Qed.
Lemma own_lt (s : lst T) M sr rst rnet da hi snet a : cinv s M sr rst rnet da hi snet -> own sr rst da hi a -> a < hi.
Proof. intros HC. pose proof (cinv_da _ _ _ _ _ _ _ _ HC). destruct HC. apply own_hi; assumption. Qed.
Lemma binv_le (s : lst T) M sr rst rnet da hi t0 h2 : binv s M sr rst rnet da hi t0 h2 ->
  t0 + N.to_nat (width_of sr rst) + N.to_nat (width_of sr rst) + 3 <= h2 /\ h2 <= length (mem (ts s)).
Proof.
  intros []. destruct (blay_chainB _ _ _ _ bi_blay) as [HcB Hbpe]. pose proof (bpe_ge _ _ _ HcB) as Hge. rewrite Hbpe in Hge. lia.
Qed.
Lemma running_lt (s : lst T) M sr rst snet P a : running s M sr rst snet P -> P a -> a < length (mem (ts s)).
Proof.
  intros [rnet da hi HC _ _ _ HP|rnet da hi t0 h2 HC HB HP] Ha; apply HP in Ha.
  - apply (own_lt _ _ _ _ _ _ _ _ _ HC) in Ha. destruct HC. lia.
  - destruct (binv_le _ _ _ _ _ _ _ _ _ HB). destruct Ha as [Ha|Ha]; [|lia]. apply (own_lt _ _ _ _ _ _ _ _ _ HC) in Ha. destruct HC. lia.
Qed.
Lemma running_ext (s : lst T) M sr rst snet P Q : running s M sr rst snet P -> (forall a, P a <-> Q a) -> running s M sr rst snet Q.
Proof.
  intros [rnet da hi HC Hb Hs Hr HP|rnet da hi t0 h2 HC HB HP] HQ.
  - eapply run_c; try eassumption. intros a. rewrite <- HQ. apply HP.
  - eapply run_t; try eassumption. intros a. rewrite <- HQ. apply HP.
Qed.
Lemma running_parts (s : lst T) M sr rst snet P : running s M sr rst snet P ->
  exists rnet da hi, cinv s M sr rst rnet da hi snet /\ (forall a, own sr rst da hi a -> P a).
Proof.
  intros [rnet da hi HC Hb Hs Hr HP|rnet da hi t0 h2 HC HB HP]; exists rnet, da, hi; split; try exact HC.
  - intros a. apply HP.
  - intros a Ha. apply HP. left. exact Ha.
Qed.

Lemma running_app (s s' : lst T) M sr rst snet P e : running s M sr rst snet P ->
  tle (ts s) (ts s') -> lays s' = lays s -> mem (ts s') = mem (ts s) ++ e -> running s' M sr rst snet P.
Proof.
  intros HR Ht Hl Hm.
  assert (Hk : forall Q, kept Q (mem (ts s)) (mem (ts s'))) by (intros Q; rewrite Hm; apply kept_app).
  assert (HC' : forall rnet da hi, cinv s M sr rst rnet da hi snet -> cinv s' M sr rst rnet da hi snet).
  { intros rnet da hi HC. eapply cinv_next; [exact HC|exact Ht|rewrite Hl; reflexivity|rewrite Hm, app_length; lia|apply HC| |reflexivity].
    rewrite Hm. eapply Forall2_impl; [apply (ci_par _ _ _ _ _ _ _ _ HC)|]. intros l0 sl0 Hl0. apply has_params_app. exact Hl0. }
  destruct HR as [rnet da hi HC Hb Hs Hr HP|rnet da hi t0 h2 HC HB HP].
  - eapply run_c; [apply HC'; exact HC|exact Hb| | |exact HP].
    + eapply (stk2_kept (own sr rst da hi) s); try eassumption. apply Hk.
    + intros i L r. rewrite Hl. apply Hr.
  - eapply run_t; [apply HC'; exact HC| |exact HP]. eapply binv_next; try eassumption.
    + rewrite Hm, app_length. lia.
    + intros a v _ _ Hv. rewrite Hm. apply lookup_app_l_Some. exact Hv.
Qed.

(** ** Prediction *)
Lemma run_predict rnd (s : lst T) M sr rst snet P x xs :
  running s M sr rst snet P -> reads (ts s) x (r_sh sr) xs -> clear_of P (ts s) x ->
  exists s', Predict rnd M x s = (Ok (length (tens (ts s)), M), s') /\ running s' M sr rst snet P /\
    tle (ts s) (ts s') /\ kept P (mem (ts s)) (mem (ts s')) /\ lays s' = lays s /\ rc s' = rc s /\
    reads (ts s') (length (tens (ts s))) (sh_of sr rst) (forward snet xs) /\
    clear_of (fun a => a < length (mem (ts s))) (ts s') (length (tens (ts s))).
Proof.
  intros HR Hx Hcx.
  destruct HR as [rnet da hi HC Hb Hs Hr HP|rnet da hi t0 h2 HC HB HP].
  - destruct (Predict_ok rnd s M sr rst rnet da hi snet x xs HC Hx) as (s' & m1 & E & HC' & S1 & Em & [n En] & El & Er & _ & Hy & Hcy).
    { eapply clear_weaken; [exact Hcx|]. intros a. apply HP. }
    assert (Ht : tle (ts s) (ts s')) by (eapply tle_app; exact En).
    assert (Hk : kept (own sr rst da hi) (mem (ts s)) (mem (ts s'))).
    { rewrite Em. eapply kept_trans; [apply kept_off; exact S1|apply (kept_app (fun _ => False))|intros a Ha; exact Ha|contradiction]. }
    exists s'. split; [exact E|]. split; [|split; [exact Ht|split; [|split; [exact El|split; [exact Er|split; [exact Hy|exact Hcy]]]]]].
    + eapply run_c; [exact HC'|exact Hb| | |exact HP].
      * eapply (stk2_kept (own sr rst da hi) s); eassumption.
      * intros i L r. rewrite El. apply Hr.
    + eapply kept_weaken; [exact Hk|]. intros a. apply HP.
  - destruct (Predict_ok rnd s M sr rst rnet da hi snet x xs HC Hx) as (s' & m1 & E & HC' & S1 & Em & [n En] & El & Er & _ & Hy & Hcy).
    { eapply clear_weaken; [exact Hcx|]. intros a Ha. apply HP. left. exact Ha. }
    assert (Ht : tle (ts s) (ts s')) by (eapply tle_app; exact En).
    assert (Hk : kept (own sr rst da hi) (mem (ts s)) (mem (ts s'))).
    { rewrite Em. eapply kept_trans; [apply kept_off; exact S1|apply (kept_app (fun _ => False))|intros a Ha; exact Ha|contradiction]. }
    exists s'. split; [exact E|]. split; [|split; [exact Ht|split; [|split; [exact El|split; [exact Er|split; [exact Hy|exact Hcy]]]]]].
    + eapply run_t; [exact HC'| |exact HP]. eapply binv_next; [exact HB|exact Ht|exact El|apply Hk|].
      intros a v Ha _ Hv. apply Hk; [|exact Hv]. intros Ho. apply (own_lt _ _ _ _ _ _ _ _ _ HC) in Ho. destruct HB. lia.
    + eapply kept_weaken; [exact Hk|]. intros a Ha. apply HP. left. exact Ha.
Qed.

(** ** Training *)
Definition set_cell (s : lst T) (a : nat) (v : T) : lst T :=
  MkL (MkSt (<[a := v]> (mem (ts s))) (tens (ts s)) (ctx (ts s))) (lays s) (rc s).
Lemma wrM_L (s : lst T) a v : a < length (mem (ts s)) -> liftT (wrM (Some a) v) s = (Ok tt, set_cell s a v).
Proof. intros Ha. apply liftT_ok. unfold wrM. cbn [wr]. rewrite decide_True by exact Ha. reflexivity. Qed.
Lemma poke_ok (s : lst T) M sr rst rnet da hi t0 h2 snet a v :
  cinv s M sr rst rnet da hi snet -> binv s M sr rst rnet da hi t0 h2 ->
  t0 + N.to_nat (width_of sr rst) + N.to_nat (width_of sr rst) < a < t0 + N.to_nat (width_of sr rst) + N.to_nat (width_of sr rst) + 3 ->
  cinv (set_cell s a v) M sr rst rnet da hi snet /\ binv (set_cell s a v) M sr rst rnet da hi t0 h2.
Proof.
  intros HC HB Ha.
  assert (Ht : tle (ts s) (ts (set_cell s a v))) by (apply (tle_app _ _ []); cbn; rewrite app_nil_r; reflexivity).
  assert (HS : same_off (fun x => x = a) (mem (ts s)) (mem (ts (set_cell s a v)))).
  { split; [cbn; apply insert_length|]. intros x Hx. cbn. apply list_lookup_insert_ne. congruence. }
  split.
  - eapply cinv_next; [exact HC|exact Ht|reflexivity|cbn; rewrite insert_length; lia|apply HC| |reflexivity].
    eapply params_off; [apply HC|apply HC|exact HS|]. cbv beta. intros r x Hr Hx ->.
    pose proof HC as []. destruct HB.
    assert (Hch := laid_chain sr da (da + src_size sr) rst rnet hi ci_laid ci_outs ci_rlay ltac:(lia)).
    destruct (chain_in _ _ _ _ _ _ Hch Hr) as (? & ? & ? & ? & ?). unfold paramP, aend in *. lia.
  - eapply binv_next; [exact HB|exact Ht|reflexivity|cbn; rewrite insert_length; lia|].
    intros x w Hx Hc Hw. rewrite (proj2 HS) by (cbv beta; lia). exact Hw.
Qed.

(** ** A step with tensors of other shapes *)
Lemma shape_err (a b : list N) : a <> b -> exists e, GetEqShapeErr a b = Some e.
Proof. intros Hne. destruct (GetEqShapeErr a b) as [e|] eqn:E; [eauto|]. apply GetEqShapeErr_None in E. contradiction. Qed.
Lemma Load_bad (s : tst T) p sh a x sh' vs : blk s p sh a -> reads s x sh' vs -> sh' <> sh ->
  exists e, LoadFromTensor p x s = (Err e, s).
Proof.
  intros [b E] (k & m & Ex & <- & _) Hne. destruct (shape_err sh (shape m)) as [e He]; [congruence|]. exists e.
  unfold LoadFromTensor. erewrite mbnd_ok by (unfold get_mat; erewrite mbnd_ok by (unfold get_node; rewrite E; reflexivity); reflexivity).
  erewrite mbnd_ok by (unfold get_mat; erewrite mbnd_ok by (unfold get_node; rewrite Ex; reflexivity); reflexivity).
  cbn [nmat blkm shape]. rewrite He. reflexivity.
Qed.
Lemma liftT_err {A} (c : TM T A) (s : lst T) e : c (ts s) = (Err e, ts s) -> liftT c s = (Err e, s).
Proof. intros E. unfold liftT. rewrite E. destruct s as [[? ? ?] ? ?]. reflexivity. Qed.
Lemma ExecFit_bad (s : lst T) M sr rst rnet da hi t0 h2 snet x shx xs y shy tgt :
  cinv s M sr rst rnet da hi snet -> binv s M sr rst rnet da hi t0 h2 ->
  reads (ts s) x shx xs -> clear_of (ownT sr rst da hi t0 h2) (ts s) x ->
  reads (ts s) y shy tgt -> clear_of (ownT sr rst da hi t0 h2) (ts s) y ->
  shx <> r_sh sr \/ shy <> sh_of sr rst ->
  exists m' e, let s' := MkL (MkSt m' (tens (ts s)) (ctx (ts s))) (lays s) (rc s) in
    ExecFit M x y s = (Err e, s') /\
    cinv s' M sr rst rnet da hi snet /\ binv s' M sr rst rnet da hi t0 h2 /\
    same_off (ownT sr rst da hi t0 h2) (mem (ts s)) m' /\
    rd m' (m_alpha M) = rd (mem (ts s)) (m_alpha M) /\ rd m' (m_momentum M) = rd (mem (ts s)) (m_momentum M).
Proof.
  intros HC HB Hx Hcx Hy Hcy Hbad. pose proof HC as [].
  pose proof HB as [].
  assert (Hch := laid_chain sr da (da + src_size sr) rst rnet hi ci_laid ci_outs ci_rlay ltac:(lia)).
  pose proof (chain_lo _ _ _ _ _ Hch) as Hlo. pose proof (outs_bottom _ _ _ ci_outs ci_ne) as Hbot.
  destruct (blay_chainB _ _ _ _ bi_blay) as [HcB Hbpe].
  pose proof (bpe_ge _ _ _ HcB) as Hge. rewrite Hbpe in Hge.
  assert (Hin : forall r, r ∈ rev rnet <-> r ∈ rnet) by (intros r; rewrite !elem_of_list_In; symmetry; apply in_rev).
  set (size := N.to_nat (prodN (r_sh sr))) in *. set (mem0 := mem (ts s)) in *.
  destruct (clears_exec sr da h2 rnet hi mem0 ci_rlay) as (m0 & E0 & S0 & Z0 & D0); try assumption; [lia|].
  assert (L0 : length m0 = length mem0) by apply S0.
  assert (Hcl : forall a, clearP sr da rnet a -> da <= a < hi) by (intros a; eapply clearP_own; exact ci_rlay).
  assert (Hcp : forall r a, r ∈ rnet -> paramP r a -> ~ clearP sr da rnet a).
  { intros r a Hr Ha [[_ Hb]|(r' & Hr' & Hd)].
    - destruct (chain_in _ _ _ _ _ _ Hch (proj2 (Hin r) Hr)) as (? & ? & ? & ? & ?). unfold paramP in Ha. lia.
    - apply Hin in Hr. apply Hin in Hr'. destruct (chain_apart _ _ _ _ _ _ _ Hch Hr Hr') as [->|[?|?]];
        unfold paramP, difP, aend in *; lia. }
  set (s0 := MkL (MkSt m0 (tens (ts s)) (ctx (ts s))) (lays s) (rc s)).
  assert (Ht0 : tle (ts s) (ts s0)) by (apply (tle_app _ _ []); cbn; rewrite app_nil_r; reflexivity).
  destruct bi_rf as (opsr & Er & Os).
  assert (ER : ExecG (m_resetfit M) s = (Ok tt, s0)).
  { apply (ExecG_ok s _ opsr m0 Er). rewrite (exec_of_strip _ _ _ Os). exact E0. }
  assert (Cl0 : forall a, clearP sr da rnet a -> ownT sr rst da hi t0 h2 a).
  { intros a Ha. left. right. right. apply Hcl. exact Ha. }
  assert (Hx0 : reads (ts s0) x shx xs).
  { eapply reads_kept; [exact Ht0|apply kept_off; exact S0| |exact Hx]. eapply clear_weaken; [exact Hcx|exact Cl0]. }
  assert (FIN : forall m', same_off (fun a => clearP sr da rnet a \/ r_b sr <= a < r_b sr + size) mem0 m' ->
    let s' := MkL (MkSt m' (tens (ts s)) (ctx (ts s))) (lays s) (rc s) in
    cinv s' M sr rst rnet da hi snet /\ binv s' M sr rst rnet da hi t0 h2 /\
    same_off (ownT sr rst da hi t0 h2) mem0 m' /\
    rd m' (m_alpha M) = rd mem0 (m_alpha M) /\ rd m' (m_momentum M) = rd mem0 (m_momentum M)).
  { intros m' Sm. cbv zeta. set (s' := MkL _ _ _).
    assert (Ht' : tle (ts s) (ts s')) by (apply (tle_app _ _ []); cbn; rewrite app_nil_r; reflexivity).
    assert (Hhi : forall a, hi <= a -> m' !! a = mem0 !! a).
    { intros a Ha. apply (proj2 Sm). intros [Hb|Hb]; [apply Hcl in Hb|]; lia. }
    split; [|split; [|split; [|split]]].
    - eapply cinv_next; [exact HC|exact Ht'|reflexivity|cbn; rewrite (proj1 Sm); fold mem0; lia|exact ci_fits| |reflexivity].
      eapply params_off; [exact ci_fits|exact ci_par|exact Sm|]. intros r a Hr Ha [Hb|Hb].
      + apply (Hcp r a); [apply Hin; exact Hr|exact Ha|exact Hb].
      + destruct (chain_in _ _ _ _ _ _ Hch Hr) as (? & ? & ? & ? & ?). unfold paramP in Ha. lia.
    - eapply binv_next; [exact HB|exact Ht'|reflexivity|cbn; rewrite (proj1 Sm); fold mem0; lia|].
      intros a v Ha _ Hv. cbn [s' ts mem]. rewrite Hhi by lia. exact Hv.
    - eapply same_off_weaken; [exact Sm|]. intros a [Hb|Hb]; [apply Cl0; exact Hb|left; left; exact Hb].
    - rewrite bi_alpha. cbn [rd]. apply Hhi. lia.
    - rewrite bi_mom. cbn [rd]. apply Hhi. lia. }
  assert (Bin : blk (ts s0) (r_t sr) (r_sh sr) (r_b sr)) by (eapply tle_blk; [exact Ht0|apply ci_src]).
  destruct (decide (shx = r_sh sr)) as [Esx|Hnx].
  - subst shx. destruct Hbad as [Hbad|Hbad]; [contradiction|].
    destruct Hx0 as (kx & mx & Ex & Exs & Exr & Exl).
    destruct (Load_blk (ts s0) (r_t sr) x (r_sh sr) (r_b sr) kx mx xs) as (m1 & E1 & S1 & H1); try assumption.
    { intros z Hz Hb. eapply Hcx; [exact Ex|exact Hz|]. left. left. exact Hb. }
    { fold size. cbn [s0 ts mem]. lia. }
    fold size in S1. cbn [s0 ts mem] in S1.
    set (s1 := MkL (MkSt m1 (tens (ts s)) (ctx (ts s))) (lays s) (rc s)).
    destruct bi_tgt as (tt0 & Ett & Btt).
    assert (S01 : same_off (fun a => clearP sr da rnet a \/ r_b sr <= a < r_b sr + size) mem0 m1).
    { eapply same_off_trans; [exact S0|exact S1| |]; cbv beta; intros a Ha; [left|right]; exact Ha. }
    assert (Ht1 : tle (ts s) (ts s1)) by (apply (tle_app _ _ []); cbn; rewrite app_nil_r; reflexivity).
    destruct (Load_bad (ts s1) tt0 (sh_of sr rst) t0 y shy tgt) as [e Ee].
    { eapply tle_blk; [exact Ht1|exact Btt]. }
    { eapply reads_kept; [exact Ht1|apply kept_off; exact S01| |exact Hy]. eapply clear_weaken; [exact Hcy|].
      intros a [Ha|Ha]; [apply Cl0; exact Ha|left; left; exact Ha]. }
    { exact Hbad. }
    exists m1, e. cbv zeta. fold s1. split; [|apply FIN; exact S01].
    unfold ExecFit. erewrite mbnd_ok by exact ER. rewrite ci_in.
    erewrite mbnd_ok by reflexivity. erewrite mbnd_ok by (apply liftT_ok; exact E1).
    rewrite Ett. erewrite mbnd_ok by reflexivity. erewrite mbnd_err; [reflexivity|]. apply liftT_err. exact Ee.
  - destruct (Load_bad (ts s0) (r_t sr) (r_sh sr) (r_b sr) x shx xs Bin Hx0 Hnx) as [e Ee].
    exists m0, e. cbv zeta. fold s0. split; [|apply FIN].
    + unfold ExecFit. erewrite mbnd_ok by exact ER. rewrite ci_in.
      erewrite mbnd_ok by reflexivity. erewrite mbnd_err; [reflexivity|]. apply liftT_err. exact Ee.
    + eapply same_off_weaken; [exact S0|]. intros a Ha. left. exact Ha.
Qed.

(** ** Any number of steps *)
Lemma steps_ok M sr rst rnet da hi t0 h2 (xids yids : list nat) pairs valpha vmo :
  length xids = length pairs -> length yids = length pairs ->
  forall ks (s1 : lst T) snet, Forall (fun k => k < length pairs) ks ->
  cinv s1 M sr rst rnet da hi snet -> binv s1 M sr rst rnet da hi t0 h2 ->
  (forall k x y p, xids !! k = Some x -> yids !! k = Some y -> pairs !! k = Some p ->
     reads (ts s1) x (fst (fst p)) (snd (fst p)) /\ clear_of (ownT sr rst da hi t0 h2) (ts s1) x /\
     reads (ts s1) y (fst (snd p)) (snd (snd p)) /\ clear_of (ownT sr rst da hi t0 h2) (ts s1) y) ->
  rd (mem (ts s1)) (m_alpha M) = Some valpha -> rd (mem (ts s1)) (m_momentum M) = Some vmo ->
  exists m', let s' := MkL (MkSt m' (tens (ts s1)) (ctx (ts s1))) (lays s1) (rc s1) in
    let r := learn_picks (r_sh sr) (sh_of sr rst) valpha (nmul nzero vmo) pairs ks snet in
    (exists e, mfor ks (fun k => x <~ mlift (at_or_panic xids k) ; y <~ mlift (at_or_panic yids k) ; ExecFit M x y) s1 =
      (if snd r then Ok tt else Err e, s')) /\
    cinv s' M sr rst rnet da hi (fst r) /\
    binv s' M sr rst rnet da hi t0 h2 /\ same_off (ownT sr rst da hi t0 h2) (mem (ts s1)) m'.
Proof.
  intros Lx Ly. induction ks as [|k ks IH]; intros s1 snet Hks HC HB Hp Hal Hmo.
  - exists (mem (ts s1)). cbv zeta. replace (MkL _ (lays s1) (rc s1)) with s1 by (destruct s1 as [[? ? ?] ? ?]; reflexivity).
    split; [exists (ELayer 0); reflexivity|]. split; [exact HC|]. split; [exact HB|]. split; [reflexivity|auto].
  - apply Forall_cons in Hks as [Hk Hks].
    destruct (lookup_lt_is_Some_2 xids k) as [x Ex]; [lia|]. destruct (lookup_lt_is_Some_2 yids k) as [y Ey]; [lia|].
    destruct (lookup_lt_is_Some_2 pairs k Hk) as [[[shx xs] [shy tgt]] Ep].
    destruct (Hp k x y _ Ex Ey Ep) as (Rx & Cx & Ry & Cy). cbn [fst snd] in Rx, Ry.
    assert (EL : learn_picks (r_sh sr) (sh_of sr rst) valpha (nmul nzero vmo) pairs (k :: ks) snet =
      if bool_decide (shx = r_sh sr) && bool_decide (shy = sh_of sr rst)
      then learn_picks (r_sh sr) (sh_of sr rst) valpha (nmul nzero vmo) pairs ks (learn valpha (nmul nzero vmo) snet xs tgt)
      else (snet, false)) by (cbn; rewrite Ep; reflexivity).
    rewrite EL. clear EL.
    destruct (decide (shx = r_sh sr /\ shy = sh_of sr rst)) as [[-> ->]|Hbad].
    + rewrite !bool_decide_eq_true_2 by reflexivity. cbn [andb].
      destruct (ExecFit_ok s1 M sr rst rnet da hi t0 h2 snet x xs y tgt valpha vmo HC HB Rx Cx Ry Cy Hal Hmo)
        as (m2 & E2 & HC2 & HB2 & S2 & _ & Hal2 & Hmo2).
      set (s2 := MkL (MkSt m2 (tens (ts s1)) (ctx (ts s1))) (lays s1) (rc s1)) in *.
      assert (Ht : tle (ts s1) (ts s2)) by (apply (tle_app _ _ []); cbn; rewrite app_nil_r; reflexivity).
      destruct (IH s2 _ Hks HC2 HB2) as (m3 & [e E3] & HC3 & HB3 & S3); try assumption.
      { intros k' x' y' p' Ex' Ey' Ep'. destruct (Hp k' x' y' p' Ex' Ey' Ep') as (Rx' & Cx' & Ry' & Cy').
        repeat split.
        - eapply reads_kept; [exact Ht|apply kept_off; exact S2|exact Cx'|exact Rx'].
        - exact Cx'.
        - eapply reads_kept; [exact Ht|apply kept_off; exact S2|exact Cy'|exact Ry'].
        - exact Cy'. }
      exists m3. cbv zeta. cbn [s2 ts tens ctx lays rc] in *. split; [|split; [exact HC3|split; [exact HB3|]]].
      * exists e. cbn [mfor]. unfold at_or_panic at 1 2. rewrite Ex, Ey. erewrite mbnd_ok; [exact E3|].
        erewrite mbnd_ok by reflexivity. erewrite mbnd_ok by reflexivity. exact E2.
      * eapply same_off_trans; [exact S2|exact S3|auto|auto].
    + assert (Hb : bool_decide (shx = r_sh sr) && bool_decide (shy = sh_of sr rst) = false).
      { apply andb_false_iff. destruct (decide (shx = r_sh sr)); [right|left]; apply bool_decide_eq_false_2; tauto. }
      rewrite Hb. destruct (ExecFit_bad s1 M sr rst rnet da hi t0 h2 snet x shx xs y shy tgt HC HB Rx Cx Ry Cy) as (m2 & e & E2 & HC2 & HB2 & S2 & _).
      { destruct (decide (shx = r_sh sr)); tauto. }
      exists m2. cbv zeta. cbn [fst snd]. split; [|split; [exact HC2|split; [exact HB2|exact S2]]].
      exists e. cbn [mfor]. unfold at_or_panic at 1 2. rewrite Ex, Ey. erewrite mbnd_err; [reflexivity|].
      erewrite mbnd_ok by reflexivity. erewrite mbnd_ok by reflexivity. exact E2.
Qed.
End NetRun3.
