(** * NetRun2: predicting and training with a compiled stack *)
From Verif Require Import Base Num ModelTools ModelOps ModelTensor ModelGraph ModelLayer ModelModel
  Spec Denote IndexProofs ExecProofs TensorFacts AccessProofs
  NetSpec NetExec NetBack NetBuild NetChain NetChain2 NetChain3 NetFit NetMem NetRun.
From Coq Require Import Lia ZifyBool ZifyNat ZifyN.

Section NetRun2.
Context {T : Type} `{Num T}.

Lemma ExecG_ok (s : lst T) g ops m' : g = Some (MkGraph ops) -> exec ops (mem (ts s)) = Some m' ->
  ExecG g s = (Ok tt, MkL (MkSt m' (tens (ts s)) (ctx (ts s))) (lays s) (rc s)).
Proof.
  intros -> E. unfold ExecG. erewrite mbnd_ok by reflexivity. apply liftT_ok. unfold ExecM, Exec. cbn [g_ops].
  rewrite E. reflexivity.
Qed.

Lemma ffPs_own sr (rst : list (lsp (T:=T))) da lo : forall rnet hi a, laid sr rst rnet -> rlay lo rnet hi -> da <= lo ->
  ffPs (rev rnet) a -> own sr rst da hi a.
Proof.
  intros rnet hi a Hl Hy Hlo (l & Hin & Hf). apply elem_of_list_In, in_rev, elem_of_list_In in Hin.
  enough (G : forall rst rnet hi, laid sr rst rnet -> rlay lo rnet hi -> l ∈ rnet ->
     (exists sp, sp ∈ rst /\ aout l = s_ob sp /\ no l = N.to_nat (s_o sp)) /\ lo <= a0 l /\ aend l <= hi).
  { destruct (G _ _ _ Hl Hy Hin) as ((sp & Hsp & E1 & E2) & H1 & H2). unfold own. unfold ffP in Hf.
    destruct Hf as [Hf|[Hf|Hf]]; [right; right; unfold aend in *; lia|right; right; unfold aend in *; lia|].
    right. left. exists sp. split; [exact Hsp|]. lia. }
  clear. induction rst as [|sp rst IH]; intros [|r rnet] hi; cbn [laid rlay]; try contradiction.
  - intros _ _ Hi. apply elem_of_nil in Hi. contradiction.
  - intros (H1 & H2 & H3 & H4 & H5 & Hl) [Hy <-] Hi. pose proof (rlay_le _ _ _ Hy).
    apply elem_of_cons in Hi as [->|Hi].
    + split; [exists sp; split; [left|split; assumption]|]. lia.
    + destruct (IH _ _ Hl Hy Hi) as ((sp' & Hsp & E) & E1 & E2). split; [exists sp'; split; [right; exact Hsp|exact E]|].
      unfold aend in *. lia.
Qed.
Lemma own_hi sr (rst : list (lsp (T:=T))) da hi a : outs_ok sr rst da -> rst <> [] -> da <= hi -> own sr rst da hi a -> a < hi.
Proof.
  intros Ho Hne Hd. pose proof (outs_bottom _ _ _ Ho Hne). intros [Ha|[(sp & Hsp & Ha)|Ha]]; [lia| |lia].
  enough (s_ob sp + N.to_nat (s_o sp) <= da) by lia. clear - Ho Hsp. induction rst as [|sp' rst IH]; [apply elem_of_nil in Hsp; contradiction|].
  cbn [outs_ok] in Ho. destruct Ho as (_ & H2 & H3). apply elem_of_cons in Hsp as [->|Hsp]; [exact H2|apply IH; assumption].
Qed.
(** The memory of the model after a step that keeps its layers. *)
Lemma cinv_next (s s' : lst T) M sr rst rnet da hi snet snet' : cinv s M sr rst rnet da hi snet ->
  tle (ts s) (ts s') -> length (lays s) <= length (lays s') -> length (mem (ts s)) <= length (mem (ts s')) ->
  Forall2 fits_layer (rev rnet) snet' -> Forall2 (has_params (mem (ts s'))) (rev rnet) snet' ->
  map strain snet' = map strain snet -> cinv s' M sr rst rnet da hi snet'.
Proof.
  intros [] Ht Hl Hm Hf Hp Hst. split; try assumption; try lia.
  - destruct ci_src as [Hs Hb]. split; [exact Hs|]. eapply tle_blk; eassumption.
  - rewrite <- ci_tr. rewrite !map_rev, Hst. reflexivity.
  - eapply tle_blk; eassumption.
Qed.
Lemma params_kept (P : nat -> Prop) m m' (net : list (dlay T)) snet :
  Forall2 fits_layer net snet -> Forall2 (has_params m) net snet -> kept P m m' ->
  (forall l a, l ∈ net -> paramP l a -> ~ P a) -> Forall2 (has_params m') net snet.
Proof.
  intros Hf Hp [_ HK] Hd. apply Forall2_same_length_lookup.
  split; [eapply Forall2_length; eassumption|]. intros i l sl Hl Hs.
  pose proof (Forall2_lookup_lr _ _ _ _ _ _ Hf Hl Hs) as Hf1.
  pose proof (Forall2_lookup_lr _ _ _ _ _ _ Hp Hl Hs) as [HW HB].
  apply elem_of_list_lookup_2 in Hl. split.
  - intros j w Hw k v Hv. apply HK; [|exact (HW j w Hw k v Hv)]. apply (Hd l); [exact Hl|].
    assert (length w = ni l) by (eapply row_length; eassumption).
    apply lookup_lt_Some in Hw, Hv. rewrite (fl_W _ _ Hf1) in Hw.
    assert (j * ni l + k < no l * ni l) by (apply off_lt; lia). unfold paramP, aw. lia.
  - intros j v Hv. apply HK; [|exact (HB j v Hv)]. apply (Hd l); [exact Hl|].
    apply lookup_lt_Some in Hv. rewrite (fl_B _ _ Hf1) in Hv. unfold paramP, ab. lia.
Qed.

(** ** Prediction *)
Lemma Predict_ok rnd (s : lst T) M sr rst rnet da hi snet x xs :
  cinv s M sr rst rnet da hi snet -> reads (ts s) x (r_sh sr) xs -> clear_of (own sr rst da hi) (ts s) x ->
  exists s' m1, Predict rnd M x s = (Ok (length (tens (ts s)), M), s') /\ cinv s' M sr rst rnet da hi snet /\
    same_off (own sr rst da hi) (mem (ts s)) m1 /\ mem (ts s') = m1 ++ forward snet xs /\
    (exists n, tens (ts s') = tens (ts s) ++ [n]) /\ lays s' = lays s /\ rc s' = rc s /\ ctx (ts s') = ctx (ts s) /\
    reads (ts s') (length (tens (ts s))) (sh_of sr rst) (forward snet xs) /\
    clear_of (fun a => a < length (mem (ts s))) (ts s') (length (tens (ts s))).
Proof.
  intros HC (k & mt & Ex & Esh & Erd & Elen) Hclear. pose proof HC as [].
  set (size := N.to_nat (prodN (r_sh sr))) in *.
  pose proof (outs_bottom _ _ _ ci_outs ci_ne) as Hbot. fold size in Hbot.
  assert (Hch := laid_chain sr da (da + src_size sr) rst rnet hi ci_laid ci_outs ci_rlay ltac:(lia)).
  pose proof (chain_lo _ _ _ _ _ Hch) as Hlo.
  destruct (Load_blk (ts s) (r_t sr) x (r_sh sr) (r_b sr) k mt xs) as (m1 & E1 & S1 & H1); try assumption.
  { apply ci_src. }
  { intros z Hz Hb. eapply Hclear; [exact Ex|exact Hz|]. left. exact Hb. }
  { fold size. lia. }
  fold size in S1. assert (L1 : length m1 = length (mem (ts s))) by apply S1.
  assert (HP1 : Forall2 (has_params m1) (rev rnet) snet).
  { eapply params_off; [exact ci_fits|exact ci_par|exact S1|]. intros l a Hl Ha Hb.
    destruct (chain_in _ _ _ _ _ _ Hch Hl) as (? & ? & ? & ? & ?). unfold paramP in Ha. lia. }
  destruct (bottom _ _ _ ci_laid ci_ne) as (lb & netb & Eb & Eain & Eni).
  destruct (ffs_exec da hi (rev rnet) snet (r_b sr + size) (da + src_size sr) xs m1) as (m2 & E2 & S2 & R2); try assumption.
  { rewrite Eb, Eain, Eni. fold size. split; [exact Elen|]. split; [exact H1|]. intros; lia. }
  { lia. }
  assert (L2 : length m2 = length m1) by apply S2.
  assert (HP2 : Forall2 (has_params m2) (rev rnet) snet) by (eapply params_ff; eauto).
  assert (Elast : exists l, last (rev rnet) = Some l /\ aout l = base_of sr rst /\ no l = N.to_nat (prodN (sh_of sr rst))).
  { destruct rst as [|sp rst]; [contradiction|]. destruct rnet as [|l rnet]; [contradiction|].
    exists l. rewrite last_rev. split; [reflexivity|]. cbn [laid] in ci_laid. cbn [base_of sh_of]. rewrite prod_1. split; apply ci_laid. }
  destruct Elast as (l & Elast & Eao & Eno).
  assert (HF : hold m2 (fun j => base_of sr rst + j) (forward snet xs)).
  { rewrite <- Eao. eapply ran_forward; [eapply Forall2_length; exact ci_fits|exact R2|exact Elast]. }
  assert (LF : length (forward snet xs) = N.to_nat (prodN (sh_of sr rst))).
  { rewrite <- Eno. eapply forward_length; eassumption. }
  pose proof ci_oblk as [b Hob].
  set (s2 := MkL (MkSt m2 (tens (ts s)) (ctx (ts s))) (lays s) (rc s)).
  assert (Hrd : rds (mem (ts s2)) (operands (blkm (sh_of sr rst) (base_of sr rst) b)) = Some (forward snet xs)).
  { cbn [blkm operands s2 ts mem]. rewrite <- LF. apply rds_seq. intros i Hi.
    destruct (lookup_lt_is_Some_2 _ _ Hi) as [v Hv]. rewrite Hv. apply HF. exact Hv. }
  pose proof (Copy_rd (ts s2) (inp_of sr rst) _ _ _ Hob Hrd) as E3. cbn [s2 ts mem tens ctx] in E3.
  set (n3 := MkNode KMat _) in E3.
  set (s3 := MkL (MkSt (m2 ++ forward snet xs) (tens (ts s) ++ [n3]) (ctx (ts s))) (lays s) (rc s)).
  assert (Ht3 : tle (ts s) (ts s3)) by (eapply tle_app; reflexivity).
  exists s3, m2. split; [|split; [|split; [|split; [reflexivity|split; [exists n3; reflexivity|split; [reflexivity|split; [reflexivity|split; [reflexivity|split]]]]]]]].
  - unfold Predict. rewrite ci_ff. erewrite mbnd_ok by reflexivity. rewrite ci_in. erewrite mbnd_ok by reflexivity.
    erewrite mbnd_ok by (apply liftT_ok; exact E1). rewrite ci_ff.
    erewrite mbnd_ok by (eapply ExecG_ok; [reflexivity|exact E2]). cbn [ts mem tens ctx lays rc].
    rewrite ci_out. erewrite mbnd_ok by reflexivity.
    erewrite mbnd_ok by (apply liftT_ok; exact E3). reflexivity.
  - eapply cinv_next; [exact HC|exact Ht3|cbn; lia|cbn; rewrite app_length; lia|exact ci_fits| |reflexivity].
    eapply Forall2_impl; [exact HP2|]. intros l0 sl0. apply has_params_app.
  - eapply same_off_trans; [exact S1|exact S2| |].
    + intros a Ha. left. exact Ha.
    + intros a Ha. eapply ffPs_own; [exact ci_laid|exact ci_rlay| |exact Ha]. lia.
  - exists KMat, (nmat n3). split; [|split; [|split]].
    + cbn. rewrite list_lookup_middle by reflexivity. reflexivity.
    + reflexivity.
    + cbn [s3 ts mem n3 nmat operands]. apply rds_seq. intros i Hi. rewrite lookup_app_r by lia. f_equal. lia.
    + exact LF.
  - intros k0 m0 z E Hz. cbn in E. rewrite list_lookup_middle in E by reflexivity. injection E as <- <-. cbn in Hz.
    apply elem_of_list_fmap in Hz as (y & [= ->] & Hy). apply elem_of_seq in Hy. lia.
Qed.

(** ** Training *)
Record binv (s : lst T) (M : model T) (sr : src) (rst : list (lsp (T:=T))) (rnet : list (dlay T)) (da hi t0 h2 : nat) : Prop := {
  bi_w : Forall (fun l => 0 < no l) rnet;
  bi_stk : stk3 s sr da rst rnet;
  bi_tgt : exists t, m_target M = Some t /\ blk (ts s) t (sh_of sr rst) t0;
  bi_blay : blay (t0 + N.to_nat (width_of sr rst) + N.to_nat (width_of sr rst) + 3) sr rnet h2;
  bi_lo : hi <= t0;
  bi_end : h2 + src_cnt sr + length rnet <= length (mem (ts s));
  bi_zm : Forall (zero_moments (mem (ts s))) rnet;
  bi_z : forall k, k < src_cnt sr + length rnet -> mem (ts s) !! (h2 + k) = Some nzero;
  bi_alpha : m_alpha M = Some (t0 + N.to_nat (width_of sr rst) + N.to_nat (width_of sr rst) + 1);
  bi_mom : m_momentum M = Some (t0 + N.to_nat (width_of sr rst) + N.to_nat (width_of sr rst) + 2);
  bi_loss : m_loss M = Some (t0 + N.to_nat (width_of sr rst) + N.to_nat (width_of sr rst));
  bi_cal : exists l ops, head rnet = Some l /\ m_caldif M = Some (MkGraph ops) /\
    strip ops = cal_ops (adif l 0) t0 (aout l) (no l) ++ loss_ops (adif l 0) (t0 + no l) (no l);
  bi_bp : exists ops, m_bp M = Some (MkGraph ops) /\
    strip ops = bps_rev (t0 + N.to_nat (width_of sr rst) + N.to_nat (width_of sr rst) + 1)
      (t0 + N.to_nat (width_of sr rst) + N.to_nat (width_of sr rst) + 2) sr da rnet;
  bi_rf : exists ops, m_resetfit M = Some (MkGraph ops) /\ strip ops = clears h2 sr da rnet;
}.
(** The cells of the model including those for training. *)
Definition ownT (sr : src) (rst : list (lsp (T:=T))) (da hi t0 h2 : nat) (a : nat) : Prop :=
  own sr rst da hi a \/ t0 <= a < h2.

Lemma exec_of_strip (ops ops' : list (op T)) m : strip ops = ops' -> exec ops m = exec ops' m.
Proof. intros <-. apply exec_strip. Qed.
Lemma clearP_own sr da (rnet : list (dlay T)) hi a : rlay (da + src_size sr) rnet hi -> clearP sr da rnet a ->
  da <= a < hi.
Proof.
  intros Hy [[_ Ha]|(l & Hl & Hd)].
  - pose proof (rlay_le _ _ _ Hy). lia.
  - revert hi Hy. induction rnet as [|h rnet IH]; intros hi Hy; [apply elem_of_nil in Hl; contradiction|].
    cbn [rlay] in Hy. destruct Hy as [Hy <-]. pose proof (rlay_le _ _ _ Hy). apply elem_of_cons in Hl as [->|Hl].
    + unfold difP, aend in *. lia.
    + specialize (IH Hl _ Hy). unfold aend in *. lia.
Qed.

Lemma ExecFit_ok (s : lst T) M sr rst rnet da hi t0 h2 snet x xs y tgt valpha vmo :
  cinv s M sr rst rnet da hi snet -> binv s M sr rst rnet da hi t0 h2 ->
  reads (ts s) x (r_sh sr) xs -> clear_of (ownT sr rst da hi t0 h2) (ts s) x ->
  reads (ts s) y (sh_of sr rst) tgt -> clear_of (ownT sr rst da hi t0 h2) (ts s) y ->
  rd (mem (ts s)) (m_alpha M) = Some valpha -> rd (mem (ts s)) (m_momentum M) = Some vmo ->
  exists m', let s' := MkL (MkSt m' (tens (ts s)) (ctx (ts s))) (lays s) (rc s) in
    ExecFit M x y s = (Ok tt, s') /\
    cinv s' M sr rst rnet da hi (learn valpha (nmul nzero vmo) snet xs tgt) /\
    binv s' M sr rst rnet da hi t0 h2 /\
    same_off (ownT sr rst da hi t0 h2) (mem (ts s)) m' /\
    rd m' (m_loss M) = Some (loss snet xs tgt) /\
    rd m' (m_alpha M) = Some valpha /\ rd m' (m_momentum M) = Some vmo.
Proof.
  intros HC HB (kx & mx & Ex & Exs & Exr & Exl) Hcx (ky & my & Ey & Eys & Eyr & Eyl) Hcy Hal Hmo.
  pose proof HC as [].
  pose proof HB as [bi_w bi_stk bi_tgt bi_blay bi_lo bi_end bi_zm bi_z bi_alpha bi_mom bi_loss bi_cal bi_bp bi_rf].
  destruct rst as [|sp rst0]; [contradiction|]. destruct rnet as [|l rnet0]; [contradiction|].
  set (rst := sp :: rst0) in *. set (rnet := l :: rnet0) in *. set (size := N.to_nat (prodN (r_sh sr))) in *.
  assert (Hno : no l = N.to_nat (width_of sr rst)) by (cbn [laid rst rnet] in ci_laid; apply ci_laid).
  rewrite <- Hno in *. set (o := no l) in *.
  rewrite bi_alpha in Hal. rewrite bi_mom in Hmo. cbn [rd] in Hal, Hmo.
  assert (Hsho : N.to_nat (prodN (sh_of sr rst)) = o) by (cbn [sh_of rst]; rewrite prod_1; symmetry; exact Hno).
  pose proof (outs_bottom _ _ _ ci_outs ci_ne) as Hbot. fold size in Hbot.
  assert (Hch := laid_chain sr da (da + src_size sr) rst rnet hi ci_laid ci_outs ci_rlay ltac:(lia)). fold size in Hch.
  pose proof (chain_lo _ _ _ _ _ Hch) as Hlo.
  destruct (blay_chainB _ _ _ _ bi_blay) as [HcB Hbpe].
  pose proof (bpe_ge _ _ _ HcB) as Hge. rewrite Hbpe in Hge.
  assert (Hin : forall r, r ∈ rev rnet <-> r ∈ rnet) by (intros r; rewrite !elem_of_list_In; symmetry; apply in_rev).
  set (mem0 := mem (ts s)) in *.
  (* clearing the errors *)
  destruct (clears_exec sr da h2 rnet hi mem0 ci_rlay) as (m0 & E0 & S0 & Z0 & D0); try assumption.
  { lia. }
  assert (L0 : length m0 = length mem0) by apply S0.
  assert (Hcl : forall a, clearP sr da rnet a -> da <= a < hi) by (intros a; eapply clearP_own; exact ci_rlay).
  assert (Hcp : forall r a, r ∈ rnet -> paramP r a -> ~ clearP sr da rnet a).
  { intros r a Hr Ha [[_ Hb]|(r' & Hr' & Hd)].
    - destruct (chain_in _ _ _ _ _ _ Hch (proj2 (Hin r) Hr)) as (? & ? & ? & ? & ?). unfold paramP in Ha. lia.
    - apply Hin in Hr. apply Hin in Hr'. destruct (chain_apart _ _ _ _ _ _ _ Hch Hr Hr') as [->|[?|?]];
        unfold paramP, difP, aend in *; lia. }
  set (s0 := MkL (MkSt m0 (tens (ts s)) (ctx (ts s))) (lays s) (rc s)).
  (* the input *)
  assert (Hx0 : rds m0 (operands mx) = Some xs).
  { rewrite <- Exr. apply rds_ext. intros a Ha. apply (proj2 S0). intros Hb. eapply Hcx; [exact Ex|exact Ha|]. left. right. right. apply Hcl. exact Hb. }
  destruct (Load_blk (ts s0) (r_t sr) x (r_sh sr) (r_b sr) kx mx xs) as (m1 & E1 & S1 & H1); try assumption.
  { destruct ci_src as [_ [b Hb]]. exists b. exact Hb. }
  { intros z Hz Hb. eapply Hcx; [exact Ex|exact Hz|]. left. left. exact Hb. }
  { fold size. cbn [s0 ts mem]. lia. }
  fold size in S1. cbn [s0 ts mem] in S1.
  assert (L1 : length m1 = length m0) by apply S1.
  (* the target *)
  assert (Hy1 : rds m1 (operands my) = Some tgt).
  { rewrite <- Eyr. apply rds_ext. intros a Ha. rewrite (proj2 S1), (proj2 S0).
    - reflexivity.
    - intros Hb. eapply Hcy; [exact Ey|exact Ha|]. left. right. right. apply Hcl. exact Hb.
    - intros Hb. eapply Hcy; [exact Ey|exact Ha|]. left. left. exact Hb. }
  destruct bi_tgt as (tt0 & Ett & Btt).
  set (s1 := MkL (MkSt m1 (tens (ts s)) (ctx (ts s))) (lays s) (rc s)).
  destruct (Load_blk (ts s1) tt0 y (sh_of sr rst) t0 ky my tgt) as (m2 & E2 & S2 & H2); try assumption.
  { intros z Hz Hb. rewrite Hsho in Hb. eapply Hcy; [exact Ey|exact Hz|]. right. lia. }
  { rewrite Hsho. cbn [s1 ts mem]. lia. }
  rewrite Hsho in S2. cbn [s1 ts mem] in S2.
  assert (L2 : length m2 = length m1) by apply S2.
  assert (Hxl : forall a, r_b sr <= a < r_b sr + size -> a < da) by (intros; lia).
  (* what holds now *)
  assert (S02 : same_off (fun a => clearP sr da rnet a \/ r_b sr <= a < r_b sr + size \/ t0 <= a < t0 + o) mem0 m2).
  { eapply same_off_trans; [exact S0|eapply same_off_trans; [exact S1|exact S2| |]| |].
    - instantiate (1 := fun a => r_b sr <= a < r_b sr + size \/ t0 <= a < t0 + o). intros a Ha. left. exact Ha.
    - intros a Ha. right. exact Ha.
    - intros a Ha. left. exact Ha.
    - intros a Ha. right. exact Ha. }
  assert (HP2 : Forall2 (has_params m2) (rev rnet) snet).
  { eapply params_off; [exact ci_fits|exact ci_par|exact S02|]. intros r a Hr Ha Hb.
    destruct (chain_in _ _ _ _ _ _ Hch Hr) as (? & ? & ? & ? & ?).
    destruct Hb as [Hb|Hb]; [eapply Hcp; [apply Hin; exact Hr|exact Ha|exact Hb]|]. unfold paramP, aend in *. lia. }
  assert (Hm2 : Forall (zero_moments m2) rnet).
  { eapply moments_off; [exact bi_zm|exact S02|]. intros r a Hr Ha Hb.
    destruct (chainB_in _ _ _ _ HcB (proj2 (Hin r) Hr)). destruct Hb as [Hb|Hb]; [apply Hcl in Hb; lia|]. lia. }
  assert (HX2 : hold m2 (fun j => r_b sr + j) xs).
  { eapply hold_keep; [exact H1|exact S2|]. intros j Hj. rewrite Exl in Hj. fold size in Hj. cbv beta. lia. }
  assert (HZ2 : r_id sr <> None -> hold m2 (fun j => da + j) (zeros (src_size sr))).
  { intros Hq. eapply hold_keep; [eapply hold_keep; [exact (Z0 Hq)|exact S1|]|exact S2|]; intros j Hj; rewrite zeros_length in Hj; cbv beta; lia. }
  assert (HD2 : Forall (fun r => hold m2 (adif r) (zeros (no r))) rnet).
  { rewrite Forall_forall in *. intros r Hr. destruct (chain_in _ _ _ _ _ _ Hch (proj2 (Hin r) Hr)) as (? & ? & ? & ? & ?).
    eapply hold_keep; [eapply hold_keep; [exact (D0 r Hr)|exact S1|]|exact S2|]; intros j Hj; rewrite zeros_length in Hj; unfold adif, aend in *; lia. }
  assert (Hal2 : m2 !! (t0 + o + o + 1) = Some valpha).
  { rewrite (proj2 S02); [exact Hal|]. intros [Hb|Hb]; [apply Hcl in Hb; lia|]. lia. }
  assert (Hmo2 : m2 !! (t0 + o + o + 2) = Some vmo).
  { rewrite (proj2 S02); [exact Hmo|]. intros [Hb|Hb]; [apply Hcl in Hb; lia|]. lia. }
  (* the step *)
  destruct (step_mem sr da rst l rnet0 hi t0 h2 snet xs tgt m2 valpha vmo) as (m3 & m4 & m5 & E3 & E4 & E5 & S5 & V5 & F5 & Z5); try assumption.
  { lia. }
  { rewrite Eyl. exact Hsho. }
  assert (Hnewfit : Forall2 fits_layer (rev rnet) (learn valpha (nmul nzero vmo) snet xs tgt)).
  { eapply Forall2_impl; [exact F5|]. intros r sn Hr. apply Hr. }
  fold o in E3, E4, E5, S5, V5.
  assert (L5 : length m5 = length m2) by apply S5.
  set (s5 := MkL (MkSt m5 (tens (ts s)) (ctx (ts s))) (lays s) (rc s)).
  assert (Hstk5 : stk3 s5 sr da rst rnet).
  { apply (stk3_tle s); [|reflexivity|exact bi_stk]. apply (tle_app _ _ []). cbn. rewrite app_nil_r. reflexivity. }
  assert (Hid : pre_of sr rst = Some (s_id sp)) by reflexivity.
  destruct (LFit_stk sr da rst rnet (rev (learn valpha (nmul nzero vmo) snet xs tgt)) s5 (S (length (lays s))) (s_id sp) (da + src_size sr) hi Hid ci_len Hstk5 ci_rlay)
    as (m6 & E6 & S6 & P6).
  { apply Forall_forall. intros r Hr. destruct (chainB_in _ _ _ _ HcB (proj2 (Hin r) Hr)). rewrite Hbpe in *. cbn [s5 ts mem]. split; lia. }
  { cbn [s5 ts mem]. apply fits_ready_of.
    - apply Forall2_rev in F5. rewrite rev_involutive in F5. exact F5.
    - rewrite map_rev, strain_learn, <- map_rev. exact ci_tr. }
  cbn [s5 ts mem tens ctx lays rc] in E6, S6.
  assert (L6 : length m6 = length m5) by apply S6.
  assert (Sall : same_off (ownT sr rst da hi t0 h2) mem0 m6).
  { eapply same_off_trans; [exact S02|eapply same_off_trans; [exact S5|exact S6| |]| |].
    - instantiate (1 := ownT sr rst da hi t0 h2). intros a [Ha|[Ha|[Ha|Ha]]].
      + left. eapply ffPs_own; [exact ci_laid|exact ci_rlay| |exact Ha]. lia.
      + left. right. right. apply Hcl. exact Ha.
      + right. lia.
      + right. lia.
    - intros a Ha. cbv beta in Ha. left. right. right. lia.
    - intros a [Ha|[Ha|Ha]].
      + left. right. right. apply Hcl. exact Ha.
      + left. left. exact Ha.
      + right. lia.
    - intros a Ha. exact Ha. }
  assert (Hff : forall a, ffPs (rev rnet) a -> a < hi) by (intros a Ha; apply (ffPs_low _ _ _ _ _ _ Hch) in Ha; lia).
  assert (HA6 : forall a v, t0 + o + o < a < t0 + o + o + 3 \/ h2 <= a -> m2 !! a = Some v -> m6 !! a = Some v).
  { intros a v Ha Hv. rewrite (proj2 S6), (proj2 S5); [exact Hv| |lia]. intros [Hb|[Hb|[Hb|Hb]]]; [apply Hff in Hb; lia|apply Hcl in Hb; lia|lia|lia]. }
  set (s6 := MkL (MkSt m6 (tens (ts s)) (ctx (ts s))) (lays s) (rc s)).
  assert (Ht6 : tle (ts s) (ts s6)) by (apply (tle_app _ _ []); cbn; rewrite app_nil_r; reflexivity).
  exists m6. cbv zeta. fold s6. split; [|split; [|split; [|split; [exact Sall|]]]].
  - destruct bi_rf as (orf & Erf & Srf). destruct bi_cal as (l' & oc & El & Ec & Sc). destruct bi_bp as (ob & Eb & Sb).
    injection El as <-. unfold ExecFit.
    erewrite mbnd_ok by (eapply ExecG_ok; [exact Erf|rewrite (exec_of_strip _ _ _ Srf); exact E0]). cbn [ts mem tens ctx lays rc]. fold s0.
    rewrite ci_in. erewrite mbnd_ok by reflexivity.
    erewrite mbnd_ok by (apply liftT_ok; exact E1). cbn [s0 ts mem tens ctx lays rc]. fold s1.
    rewrite Ett. erewrite mbnd_ok by reflexivity.
    erewrite mbnd_ok by (apply liftT_ok; exact E2). cbn [s1 ts mem tens ctx lays rc].
    erewrite mbnd_ok by (eapply ExecG_ok; [exact ci_ff|exact E3]). cbn [ts mem tens ctx lays rc].
    erewrite mbnd_ok by (eapply ExecG_ok; [exact Ec|rewrite (exec_of_strip _ _ _ Sc); exact E4]). cbn [ts mem tens ctx lays rc].
    erewrite mbnd_ok by (eapply ExecG_ok; [exact Eb|rewrite (exec_of_strip _ _ _ Sb); exact E5]). cbn [ts mem tens ctx lays rc].
    rewrite ci_last, Hid. erewrite mbnd_ok by reflexivity. unfold with_fuel. cbn [lays]. exact E6.
  - eapply cinv_next; [exact HC|exact Ht6|cbn; lia|cbn; fold mem0; lia|exact Hnewfit| |apply strain_learn].
    apply Forall2_rev in P6. rewrite rev_involutive in P6. exact P6.
  - split; try assumption; try (rewrite <- Hno; assumption).
    + apply (stk3_tle s); [exact Ht6|reflexivity|exact bi_stk].
    + exists tt0. split; [exact Ett|]. eapply tle_blk; eassumption.
    + cbn [s6 ts mem]. lia.
    + cbn [s6 ts mem]. eapply moments_off; [exact Z5|exact S6|]. intros r a Hr Ha Hb.
      destruct (chainB_in _ _ _ _ HcB (proj2 (Hin r) Hr)). lia.
    + cbn [s6 ts mem]. intros k Hk. apply HA6; [lia|]. rewrite (proj2 S02); [apply bi_z; exact Hk|].
      intros [Hb|Hb]; [apply Hcl in Hb; lia|lia].
  - rewrite bi_loss, bi_alpha, bi_mom. cbn [rd]. split; [|split].
    + rewrite (proj2 S6) by lia. exact V5.
    + apply HA6; [lia|exact Hal2].
    + apply HA6; [lia|exact Hmo2].
Qed.

(** ** Building the training graphs *)
Lemma no_same_ff (rnet rnet' : list (dlay T)) : Forall2 same_ff rnet rnet' -> Forall (fun l => 0 < no l) rnet -> Forall (fun l => 0 < no l) rnet'.
Proof. induction 1 as [|l l' rnet rnet' (b & p & ->) _ IH]; intros Hw; inversion Hw; subst; constructor; [assumption|apply IH; assumption]. Qed.
Lemma alloc_L (s : lst T) v : liftT (alloc v) s =
  (Ok (Some (length (mem (ts s)))), MkL (MkSt (mem (ts s) ++ [v]) (tens (ts s)) (ctx (ts s))) (lays s) (rc s)).
Proof. reflexivity. Qed.

Section BP.
Context (Hone0 : neqb (one (T:=T)) nzero = false) (Hone1 : nltb none (one (T:=T)) = false).
Lemma CompileBP_ok (s : lst T) M sr rst rnet da hi snet :
  cinv s M sr rst rnet da hi snet -> stk2 s sr da rst rnet -> Forall (fun l => 0 < no l) rnet ->
  exists s' M' rnet' t0 h2, CompileBackPropagation M s = (Ok M', s') /\
    cinv s' M' sr rst rnet' da hi snet /\ binv s' M' sr rst rnet' da hi t0 h2 /\
    length (mem (ts s)) <= t0 /\ grow (ids sr rst) s s' /\ rc s' = rc s /\
    m_ff M' = m_ff M.
Proof.
  intros HC Hs Hw. pose proof HC as [].
  destruct rst as [|sp rst0]; [contradiction|]. destruct rnet as [|l rnet0]; [contradiction|].
  set (rst := sp :: rst0) in *. set (rnet := l :: rnet0) in *.
  assert (Hid : pre_of sr rst = Some (s_id sp)) by reflexivity.
  pose proof Hs as Hs0. cbn [stk2 rst rnet] in Hs0. destruct Hs0 as ([L HL] & _ & _ & Eo & _).
  destruct (d2_dif _ _ _ _ _ _ _ HL) as (td & Etd & Btd).
  pose proof (d2_no _ _ _ _ _ _ _ HL) as Hno.
  assert (Hfo : fits [s_o sp]) by (apply fits_1; cbn [sizes_ok rst] in ci_sz; apply ci_sz).
  set (o := N.to_nat (s_o sp)) in *. set (t0 := length (mem (ts s))).
  destruct (SetBuild_blk (ts s) td _ _ false Btd) as (tA & EA & MA & CA & TA & NA).
  set (tB := MkSt (mem tA) (tens tA) ([] : list (op T))).
  destruct (BuildEmbedded_blk tB td [s_o sp] (adif l 0) NA) as (tC & ps & EC & MC & CC & TC).
  assert (TsC : tle (ts s) tC) by (eapply tle_trans; [exact TA|exact TC]).
  assert (M0C : mem tC = mem (ts s)) by (rewrite MC; exact MA).
  pose proof (NewZeros_blk tC [s_o sp] Hfo) as ED. rewrite prod_1 in ED. fold o in ED. rewrite M0C in ED. fold t0 in ED.
  set (tD := MkSt _ _ _) in ED.
  assert (TCD : tle tC tD) by (eapply tle_app; reflexivity).
  assert (TsD : tle (ts s) tD) by (eapply tle_trans; eassumption).
  assert (BtgtD : blk tD (length (tens tC)) [s_o sp] t0) by (exists false; apply list_lookup_middle; reflexivity).
  assert (BoutD : blk tD (s_out sp) [s_o sp] (aout l)) by (eapply tle_blk; [exact TsD|apply HL]).
  assert (BdifD : blk tD td [s_o sp] (adif l 0)) by (eapply tle_blk; [exact TsD|exact Btd]).
  destruct (caldif_ok tD td (s_out sp) (length (tens tC)) [s_o sp] (adif l 0) (aout l) t0 BdifD BoutD BtgtD) as (tE & opsE & EE & ME & TE & CE & OE).
  rewrite prod_1 in EE, ME, OE. fold o in EE, ME, OE.
  assert (LD : length (mem tD) = t0 + o) by (cbn [tD mem]; rewrite app_length, zeros_length; reflexivity).
  rewrite LD in EE, OE.
  set (tF := MkSt (mem tE ++ [nzero] ++ [nzero]) (tens tE) (ctx tE)).
  assert (TEF : tle tE tF) by (apply (tle_app _ _ []); cbn; rewrite app_nil_r; reflexivity).
  assert (BdifF : blk tF td [s_o sp] (adif l 0)) by (eapply tle_blk; [exact TEF|eapply tle_blk; [exact TE|exact BdifD]]).
  destruct (SetBuild_blk tF td _ _ false BdifF) as (tG & EG & MG & CG & TG & NG).
  set (sG := MkL (MkSt (mem tG) (tens tG) []) (lays s) (rc s)).
  assert (MG0 : mem tG = mem (ts s) ++ zeros (o + o + 3)).
  { rewrite MG. cbn [tF mem]. rewrite ME. cbn [tD mem]. rewrite <- !app_assoc. f_equal.
    unfold zeros. rewrite !replicate_add. rewrite <- !app_assoc. reflexivity. }
  assert (TsG : tle (ts s) tG).
  { eapply tle_trans; [exact TsD|eapply tle_trans; [exact TE|eapply tle_trans; [exact TEF|exact TG]]]. }
  assert (GG : grow [] s sG).
  { split; [exists (zeros (o + o + 3)); exact MG0|exact TsG|reflexivity|reflexivity|].
    intros i L0 HL0. eapply ref_keep; [exact HL0|reflexivity]. }
  assert (Hnil : forall i, i ∈ ([] : list nat) -> i ∉ ids sr rst) by (intros i Hi; apply elem_of_nil in Hi; contradiction).
  assert (SG : stk2_top sG sr da rst rnet) by (apply stk2_to_top; eapply stk2_grow; [exact GG|exact Hnil|exact Hs]).
  destruct (LBuildBP_stk Hone0 Hone1 (t0 + o + o + 1) (t0 + o + o + 2) sr da rst rnet sG (S (length (lays s))) (s_id sp) Hid ci_len ci_nd ci_sz (src_grow _ _ _ _ GG ci_src) SG)
    as (sH & rnet' & opsH & kH & EH & GH & CH & OH & RH & MH & YH & FH & SH).
  assert (GsH : grow (ids sr rst) s sH).
  { eapply grow_trans; [eapply grow_weaken; [exact GG|]|exact GH]. intros i Hi. apply elem_of_nil in Hi. contradiction. }
  set (sH' := MkL (MkSt (mem (ts sH)) (tens (ts sH)) []) (lays sH) (rc sH)).
  assert (SH' : stk3 sH' sr da rst rnet').
  { apply (stk3_tle sH); [|reflexivity|exact SH]. apply (tle_app _ _ []). cbn. rewrite app_nil_r. reflexivity. }
  destruct (LResetFit_stk sr da rst rnet' sH' (S (length (lays sH))) (s_id sp) Hid ltac:(rewrite (g_len _ _ _ GsH); exact ci_len) SH')
    as (sI & opsI & EI & MI & TI & LI & RI & CI & OI).
  cbn [sH' ts mem tens ctx lays rc] in MI, LI, RI, CI, OI. cbn [app] in CI.
  cbn [sG ts ctx app] in CH.
  set (M' := MkModel (m_first M) (m_last M) (m_input M) (m_output M) (Some (length (tens tC))) (Some (t0 + o + o + 1)) (Some (t0 + o + o + 2)) (Some (t0 + o + o))
     (m_ff M) (Some (MkGraph opsH)) (Some (MkGraph (ctx tE))) (Some (MkGraph opsI)) (m_reset M)).
  assert (LG : length (mem tG) = t0 + o + o + 3) by (rewrite MG0, app_length, zeros_length; unfold t0; lia).
  cbn [sG ts mem] in YH, MH. rewrite LG in YH.
  set (h2 := length (mem (ts sH))) in *.
  assert (Lff : Forall2 same_ff (rev rnet) (rev rnet')) by (apply same_ff_rev; exact FH).
  assert (TsI : tle (ts s) (ts sI)).
  { eapply tle_trans; [apply (g_tens _ _ _ GsH)|eapply tle_trans; [|exact TI]]. apply (tle_app _ _ []). cbn. rewrite app_nil_r. reflexivity. }
  assert (MsI : exists e, mem (ts sI) = mem (ts s) ++ e).
  { exists (zeros (o + o + 3) ++ zeros kH ++ zeros (src_cnt sr + length rnet')). rewrite MI, MH, MG0, <- !app_assoc. reflexivity. }
  assert (GsI : grow (ids sr rst) s sI).
  { eapply grow_trans; [exact GsH|]. split; [eexists; exact MI| |intros i _; rewrite LI; reflexivity|rewrite LI; reflexivity|].
    - eapply tle_trans; [|exact TI]. apply (tle_app _ _ []). cbn. rewrite app_nil_r. reflexivity.
    - intros i L0 HL0. rewrite LI in HL0. eapply ref_keep; [exact HL0|reflexivity]. }
  destruct rnet' as [|l' rnet0']; [apply Forall2_nil_inv_r in FH; discriminate|].
  pose proof FH as FH0. apply Forall2_cons in FH0 as [Hll _]. destruct Hll as (bl & pl & El').
  assert (Hno' : no l' = o) by (rewrite El'; exact Hno).
  exists sI, M', (l' :: rnet0'), t0, h2.
  assert (HC' : cinv sI M' sr rst (l' :: rnet0') da hi snet).
  { split; try assumption.
    - destruct ci_src as [Hf Hb]. split; [exact Hf|]. eapply tle_blk; eassumption.
    - rewrite (g_len _ _ _ GsI). exact ci_len.
    - eapply same_ff_laid; eassumption.
    - eapply same_ff_rlay; eassumption.
    - destruct MsI as [e Ee]. rewrite Ee, app_length. lia.
    - eapply same_ff_fits; eassumption.
    - destruct MsI as [e Ee]. rewrite Ee. eapply same_ff_params; [exact Lff|]. eapply Forall2_impl; [exact ci_par|].
      intros l0 sl0. apply has_params_app.
    - eapply tle_blk; eassumption.
    - cbn [M' m_ff]. rewrite (same_ff_ffs _ _ Lff). exact ci_ff. }
  split; [|split; [exact HC'|split; [|split; [reflexivity|split; [exact GsI|split; [rewrite RI, RH; reflexivity|reflexivity]]]]]].
  - unfold CompileBackPropagation. rewrite ci_last, Hid. erewrite mbnd_ok by reflexivity.
    erewrite mbnd_ok by (eapply GetDif_ok; [apply HL|rewrite (d2_kind _ _ _ _ _ _ _ HL); discriminate|exact Etd]).
    erewrite mbnd_ok by reflexivity.
    erewrite mbnd_ok by (apply liftT_ok; exact EA).
    erewrite mbnd_ok by (apply liftT_ok; reflexivity). cbn [ts lays rc]. fold tB.
    erewrite mbnd_ok by (apply liftT_ok; exact EC). cbn [ts lays rc].
    rewrite ci_out. erewrite mbnd_ok by reflexivity. unfold shapeT.
    destruct (tle_blk _ _ _ _ _ TsC (d2_blk _ _ _ _ _ _ _ HL)) as [bo Bo].
    erewrite mbnd_ok.
    2:{ erewrite mbnd_ok by (apply liftT_ok; eapply get_mat_tens; exact Bo). reflexivity. }
    cbn [shape blkm ts lays rc].
    erewrite mbnd_ok by (apply liftT_ok; exact ED). cbn [ts lays rc].
    cbn [inp_of rst]. erewrite mbnd_ok by (apply liftT_ok; exact EE). cbn [ts lays rc].
    erewrite mbnd_ok by (apply liftT_ok; reflexivity). cbn [ts lays rc].
    erewrite mbnd_ok by apply alloc_L. cbn [ts lays rc mem tens ctx].
    erewrite mbnd_ok by apply alloc_L. cbn [ts lays rc mem tens ctx].
    rewrite <- app_assoc. fold tF.
    assert (LE1 : length (mem tE) = t0 + o + o + 1) by (rewrite ME, !app_length, zeros_length, LD; cbn; lia).
    assert (LE2 : length (mem tE ++ [nzero]) = t0 + o + o + 2) by (rewrite app_length, LE1; cbn; lia).
    rewrite LE1, LE2.
    erewrite mbnd_ok by (apply liftT_ok; exact EG). cbn [ts lays rc].
    erewrite mbnd_ok by (apply in_ctx_ok; unfold with_fuel; cbn [ts lays rc mem tens]; exact EH).
    erewrite mbnd_ok by (apply in_ctx_ok; unfold with_fuel; cbn [ts lays rc mem tens]; exact EI).
    rewrite CH, CI. unfold mret, M'. rewrite ci_last, ci_out. reflexivity.
  - assert (Hz : forall a, t0 <= a < length (mem (ts sI)) -> mem (ts sI) !! a = Some nzero).
    { intros a Ha. rewrite MI, MH, MG0, <- !app_assoc in *. unfold zeros in *. rewrite <- !replicate_add in *.
      rewrite app_length, replicate_length in Ha. fold t0 in Ha. rewrite lookup_app_r by (fold t0; lia). apply lookup_replicate_2. unfold t0 in *. lia. }
    assert (LI2 : length (mem (ts sI)) = h2 + src_cnt sr + length (l' :: rnet0')).
    { rewrite MI, app_length, zeros_length. fold h2. lia. }
    destruct (blay_chainB _ _ _ _ YH) as [HcB Hbpe]. pose proof (bpe_ge _ _ _ HcB) as Hge. rewrite Hbpe in Hge.
    split; cbn [width_of rst]; fold o; try reflexivity.
    + eapply no_same_ff; eassumption.
    + apply (stk3_tle sH'); [exact TI|intros i _; rewrite LI; reflexivity|exact SH'].
    + exists (length (tens tC)). split; [reflexivity|]. cbn [sh_of rst].
      eapply tle_blk; [exact TI|]. eapply tle_blk; [apply (tle_app (ts sH) _ []); cbn; rewrite app_nil_r; reflexivity|].
      eapply tle_blk; [apply (g_tens _ _ _ GH)|]. cbn [sG ts].
      eapply tle_blk; [apply (tle_app tG _ []); cbn; rewrite app_nil_r; reflexivity|].
      eapply tle_blk; [exact TG|]. eapply tle_blk; [exact TEF|]. eapply tle_blk; [exact TE|exact BtgtD].
    + exact YH.
    + exact ci_hi.
    + rewrite LI2. lia.
    + apply Forall_forall. intros r Hr. apply elem_of_list_In, in_rev, elem_of_list_In in Hr.
      destruct (chainB_in _ _ _ _ HcB Hr) as [Hb1 Hb2]. rewrite Hbpe in Hb2. pose proof (bend_ge r).
      split.
      * intros i j Hi Hj. assert (i * ni r + j < no r * ni r) by (apply off_lt; lia). apply Hz. unfold amw in *. lia.
      * intros i Hi. apply Hz. unfold amb in *. lia.
    + intros k Hk. apply Hz. lia.
    + exists l', (ctx tE). split; [reflexivity|]. split; [reflexivity|].
      rewrite CE. cbn [tD ctx]. rewrite CC. cbn [tB ctx app]. rewrite strip_app, strip_scalars. cbn [app]. rewrite OE, Hno', El'. reflexivity.
    + exists opsH. split; [reflexivity|exact OH].
    + exists opsI. split; [reflexivity|exact OI].
Qed.
End BP.
End NetRun2.
