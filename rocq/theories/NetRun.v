(** * NetRun: compiling, predicting and training with a stack of dense layers *)
From Verif Require Import Base Num ModelTools ModelOps ModelTensor ModelGraph ModelLayer ModelModel
  Spec Denote IndexProofs ExecProofs TensorFacts AccessProofs
  NetSpec NetExec NetBack NetBuild NetChain NetChain2 NetChain3 NetFit NetMem.
From Coq Require Import Lia ZifyBool ZifyNat ZifyN.

Section NetRun.
Context {T : Type} `{Num T}.

(** What a tensor shows: its shape and as many values. *)
Definition reads (s : tst T) (t : nat) (sh : list N) (vs : list T) : Prop :=
  exists k m, tens s !! t = Some (MkNode k m) /\ shape m = sh /\ rds (mem s) (operands m) = Some vs /\
    length vs = N.to_nat (prodN sh).
(** None of its cells is in [P]. *)
Definition clear_of (P : nat -> Prop) (s : tst T) (t : nat) : Prop :=
  forall k m x, tens s !! t = Some (MkNode k m) -> Some x ∈ operands m -> ~ P x.
(** The memory grew and changed only in [P]. *)
Definition kept (P : nat -> Prop) (m m' : list T) : Prop :=
  length m <= length m' /\ forall a v, ~ P a -> m !! a = Some v -> m' !! a = Some v.
Lemma kept_off (P : nat -> Prop) m m' : same_off P m m' -> kept P m m'.
Proof. intros [L Hs]. split; [lia|]. intros a v Ha E. rewrite Hs by exact Ha. exact E. Qed.
Lemma kept_app (P : nat -> Prop) m e : kept P m (m ++ e).
Proof. split; [rewrite app_length; lia|]. intros a v _ E. apply lookup_app_l_Some. exact E. Qed.
Lemma kept_refl (P : nat -> Prop) m : kept P m m.
Proof. split; auto. Qed.
Lemma kept_trans (P Q R : nat -> Prop) m1 m2 m3 : kept P m1 m2 -> kept Q m2 m3 ->
  (forall a, P a -> R a) -> (forall a, Q a -> R a) -> kept R m1 m3.
Proof. intros [L1 K1] [L2 K2] HP HQ. split; [lia|]. intros a v Ha E. apply K2; [auto|]. apply K1; [auto|exact E]. Qed.
Lemma kept_weaken (P Q : nat -> Prop) m m' : kept P m m' -> (forall a, P a -> Q a) -> kept Q m m'.
Proof. intros [L K] HP. split; auto. Qed.
Lemma kept_hold (P : nat -> Prop) m m' f vs : kept P m m' -> hold m f vs -> (forall j, j < length vs -> ~ P (f j)) -> hold m' f vs.
Proof. intros [_ K] Hh Hd j v Hv. apply K; [apply Hd; eapply lookup_lt_Some; exact Hv|]. apply Hh. exact Hv. Qed.

Lemma rds_app_mem (m e : list T) ps vs : rds m ps = Some vs -> rds (m ++ e) ps = Some vs.
Proof.
  revert vs. unfold rds. induction ps as [|p ps IH]; intros vs E; cbn in *; [exact E|].
  destruct (rd m p) as [v|] eqn:Ep; cbn in E; [|discriminate].
  destruct (mapM (rd m) ps) as [vs'|] eqn:Eps; cbn in E; [|discriminate].
  assert (Ev : rd (m ++ e) p = Some v).
  { destruct p as [l|]; [|discriminate]. cbn in *. apply lookup_app_l_Some. exact Ep. }
  rewrite Ev. cbn. rewrite (IH vs') by reflexivity. exact E.
Qed.
Lemma reads_kept (P : nat -> Prop) (s s' : tst T) t sh vs : tle s s' -> kept P (mem s) (mem s') -> clear_of P s t ->
  reads s t sh vs -> reads s' t sh vs.
Proof.
  intros Ht [_ Hm] Hc (k & m & E & Es & Er & El). destruct (Ht _ _ _ E) as [b Eb]. eexists _, _. split; [exact Eb|].
  split; [exact Es|]. split; [|exact El]. cbn [operands]. assert (Hc' := fun x => Hc k m x E). clear Hc.
  clear E Eb Es El. revert vs Er Hc'. unfold rds. generalize (operands m) as qs. induction qs as [|p ps IH]; intros vs Er Hc'; cbn in *; [exact Er|].
  destruct (rd (mem s) p) as [v|] eqn:Ep; cbn in Er; [|discriminate].
  destruct (mapM (rd (mem s)) ps) as [vs'|] eqn:Eps; cbn in Er; [|discriminate].
  assert (Ev : rd (mem s') p = Some v).
  { destruct p as [l|]; [|discriminate]. cbn in *. apply Hm; [apply Hc'; left|exact Ep]. }
  rewrite Ev. cbn. rewrite (IH vs'); [exact Er|reflexivity|]. intros x Hx. apply Hc'. right. exact Hx.
Qed.
Lemma clear_tle (P : nat -> Prop) (s s' : tst T) t : tle s s' -> t < length (tens s) -> clear_of P s t -> clear_of P s' t.
Proof.
  intros Ht Hlt Hc k m x E Hx. destruct (lookup_lt_is_Some_2 (tens s) t Hlt) as [[k0 m0] E0].
  destruct (Ht _ _ _ E0) as [b Eb]. rewrite E in Eb. injection Eb as -> ->. eapply Hc; [exact E0|exact Hx].
Qed.
Lemma clear_weaken (P Q : nat -> Prop) (s : tst T) t : clear_of P s t -> (forall a, Q a -> P a) -> clear_of Q s t.
Proof. intros Hc HQ k m x E Hx Hq. eapply Hc; eauto. Qed.

Lemma Copy_rd (s : tst T) t k m vs : tens s !! t = Some (MkNode k m) -> rds (mem s) (operands m) = Some vs ->
  Copy t s = (Ok (length (tens s)),
    MkSt (mem s ++ vs) (tens s ++ [MkNode KMat (MkMat (shape m) (mulindex m) (map Some (seq (length (mem s)) (length vs))) false)]) (ctx s)).
Proof.
  intros E Er. unfold Copy. erewrite mbnd_ok.
  2:{ unfold get_mat. erewrite mbnd_ok by (unfold get_node; rewrite E; reflexivity). reflexivity. }
  cbn [nmat].
  enough (G : forall ps vs mm, rds mm ps = Some vs ->
     mmap ps (fun o => v <~ rdM o ; alloc v) (MkSt mm (tens s) (ctx s)) =
     (Ok (map Some (seq (length mm) (length vs))), MkSt (mm ++ vs) (tens s) (ctx s))).
  { destruct s as [mm tn c]. cbn [mem tens ctx] in *. erewrite mbnd_ok by (apply G; exact Er). reflexivity. }
  clear. induction ps as [|p ps IH]; intros vs mm E; unfold rds in E; cbn in E.
  - injection E as <-. cbn. rewrite app_nil_r. reflexivity.
  - destruct (rd mm p) as [v|] eqn:Ep; cbn in E; [|discriminate].
    destruct (mapM (rd mm) ps) as [vs'|] eqn:Eps; cbn in E; [|discriminate]. injection E as <-.
    cbn [mmap]. erewrite mbnd_ok.
    2:{ erewrite mbnd_ok by (unfold rdM; cbn [mem]; rewrite Ep; reflexivity). reflexivity. }
    cbn [mem tens ctx]. erewrite mbnd_ok by (apply IH; apply rds_app_mem; exact Eps).
    cbn. rewrite <- app_assoc. rewrite app_length. cbn. rewrite Nat.add_1_r. reflexivity.
Qed.

Lemma in_ctx_ok (c : LM T unit) (s s' : lst T) :
  c (MkL (MkSt (mem (ts s)) (tens (ts s)) []) (lays s) (rc s)) = (Ok tt, s') ->
  in_ctx c s = (Ok (MkGraph (ctx (ts s'))), s').
Proof.
  intros E. unfold in_ctx. erewrite mbnd_ok by (apply liftT_ok; reflexivity). erewrite mbnd_ok by exact E.
  erewrite mbnd_ok by (apply liftT_ok; reflexivity). destruct s' as [[? ? ?] ? ?]; reflexivity.
Qed.
Lemma LReset_stk sr : forall rst rnet da (s : lst T) fuel id, pre_of sr rst = Some id -> length rst < fuel ->
  stk2 s sr da rst rnet -> LReset fuel id s = (Ok tt, s).
Proof.
  induction rst as [|sp rst IH]; intros rnet da s fuel id Hid Hfuel Hs;
    (destruct fuel as [|fuel]; [cbn in Hfuel; lia|]); destruct rnet as [|l rnet]; cbn [stk2] in Hs; try contradiction.
  - cbn in Hid. unfold sl2 in Hs. rewrite Hid in Hs. destruct Hs as [L HL]. cbn [LReset].
    erewrite mbnd_ok by (apply getL_ok; apply HL). rewrite (i2_pre _ _ _ _ _ _ HL). reflexivity.
  - cbn in Hid. injection Hid as <-. destruct Hs as ([L HL] & _ & _ & _ & Hs). cbn [LReset].
    erewrite mbnd_ok by (apply getL_ok; apply HL). rewrite (d2_pre _ _ _ _ _ _ _ HL).
    destruct (pre_of sr rst) as [q|] eqn:Hq; [|reflexivity].
    eapply IH; [reflexivity|cbn in Hfuel; lia|exact Hs].
Qed.

(** Fuel: a chain of different layers is no longer than the list of layers. *)
Lemma ids_fuel {A} (is : list nat) (ls : list A) : NoDup is -> (forall i, i ∈ is -> i < length ls) -> length is <= length ls.
Proof.
  intros Hnd Hlt. rewrite <- (seq_length (length ls) 0). apply NoDup_incl_length.
  - apply NoDup_ListNoDup. exact Hnd.
  - intros i Hi. apply elem_of_list_In in Hi. apply elem_of_list_In, elem_of_seq. specialize (Hlt i Hi). lia.
Qed.
Lemma stk_ids b r (s : lst T) sr rst : stk b r s sr rst -> forall i, i ∈ ids sr rst -> i < length (lays s).
Proof.
  induction rst as [|sp rst IH]; cbn [stk]; intros Hs i Hi.
  - unfold ids, sl in *. cbn in Hi. destruct (r_id sr) as [q|]; [|apply elem_of_nil in Hi; contradiction].
    apply elem_of_list_singleton in Hi. subst i. destruct Hs as [L HL]. eapply lookup_lt_Some. apply HL.
  - destruct Hs as [[L HL] Hs]. rewrite ids_cons in Hi. apply elem_of_cons in Hi as [->|Hi]; [|apply IH; assumption].
    eapply lookup_lt_Some. apply HL.
Qed.
Lemma ids_length sr (rst : list (lsp (T:=T))) : length rst <= length (ids sr rst).
Proof. unfold ids. rewrite app_length, map_length. lia. Qed.
Lemma outs_mono sr (rst : list (lsp (T:=T))) A A' : outs_ok sr rst A -> A <= A' -> outs_ok sr rst A'.
Proof. induction rst as [|sp rst IH]; [auto|]. cbn. intros (H1 & H2 & H3) HA. split; [exact H1|]. split; [lia|]. apply IH; assumption. Qed.

Lemma Forall2_rev {A B} (R : A -> B -> Prop) l k : Forall2 R l k -> Forall2 R (rev l) (rev k).
Proof. induction 1; [constructor|]. cbn. apply Forall2_app; [assumption|]. constructor; [assumption|constructor]. Qed.
Lemma grow_ctx (s : lst T) is c : grow is s (MkL (MkSt (mem (ts s)) (tens (ts s)) c) (lays s) (rc s)).
Proof.
  split; [exists []; cbn; rewrite app_nil_r; reflexivity|apply (tle_app _ _ []); cbn; rewrite app_nil_r; reflexivity|reflexivity|reflexivity|].
  intros i L HL. eapply ref_keep; [exact HL|reflexivity].
Qed.

(** ** Compiled *)
Record cinv (s : lst T) (M : model T) (sr : src) (rst : list (lsp (T:=T))) (rnet : list (dlay T)) (da hi : nat)
    (snet : list (slayer T)) : Prop := {
  ci_ne : rst <> [];
  ci_nd : NoDup (ids sr rst);
  ci_sz : sizes_ok sr rst;
  ci_src : src_ok s sr;
  ci_len : length rst < S (length (lays s));
  ci_laid : laid sr rst rnet;
  ci_outs : outs_ok sr rst da;
  ci_rlay : rlay (da + src_size sr) rnet hi;
  ci_hi : hi <= length (mem (ts s));
  ci_fits : Forall2 fits_layer (rev rnet) snet;
  ci_par : Forall2 (has_params (mem (ts s))) (rev rnet) snet;
  ci_tr : map strain (rev snet) = map s_tr rst;
  ci_last : m_last M = pre_of sr rst;
  ci_first : m_first M = last (ids sr rst);
  ci_in : m_input M = Some (r_t sr);
  ci_out : m_output M = Some (inp_of sr rst);
  ci_oblk : blk (ts s) (inp_of sr rst) (sh_of sr rst) (base_of sr rst);
  ci_ff : m_ff M = Some (MkGraph (ffs (rev rnet)));
}.
(** The cells of the model. *)
Definition own (sr : src) (rst : list (lsp (T:=T))) (da hi : nat) (a : nat) : Prop :=
  r_b sr <= a < r_b sr + N.to_nat (prodN (r_sh sr)) \/
  (exists sp, sp ∈ rst /\ s_ob sp <= a < s_ob sp + N.to_nat (s_o sp)) \/ da <= a < hi.

(** The counters of the layers are not among them. *)
Definition refs_off (P : nat -> Prop) (s : lst T) (is : list nat) : Prop :=
  forall i L r, i ∈ is -> lays s !! i = Some L -> lref L = Some r -> ~ P r.
Lemma outs_below sr (rst : list (lsp (T:=T))) A sp : outs_ok sr rst A -> sp ∈ rst -> s_ob sp + N.to_nat (s_o sp) <= A.
Proof.
  intros Ho Hsp. induction rst as [|sp' rst IH]; [apply elem_of_nil in Hsp; contradiction|].
  cbn [outs_ok] in Ho. destruct Ho as (_ & H2 & H3). apply elem_of_cons in Hsp as [->|Hsp]; [exact H2|apply IH; assumption].
Qed.
Lemma stk_ref b (s : lst T) sr rst i L : stk b false s sr rst -> i ∈ ids sr rst -> lays s !! i = Some L -> lref L = None.
Proof.
  induction rst as [|sp rst IH]; cbn [stk]; intros Hs Hi HL.
  - unfold sl, ids in *. cbn in Hi. destruct (r_id sr) as [q|]; [|apply elem_of_nil in Hi; contradiction].
    apply elem_of_list_singleton in Hi as ->. destruct Hs as [L0 HL0]. pose proof (il_at _ _ _ _ _ _ HL0) as E.
    rewrite HL in E. injection E as <-. apply HL0.
  - destruct Hs as [[L0 HL0] Hs]. rewrite ids_cons in Hi. apply elem_of_cons in Hi as [->|Hi]; [|apply IH; assumption].
    pose proof (dl_at _ _ _ _ _ _ _ HL0) as E. rewrite HL in E. injection E as <-. apply HL0.
Qed.
Lemma stk_ref1 b (s : lst T) sr rst i : stk b true s sr rst -> i ∈ ids sr rst -> exists L r, lays s !! i = Some L /\ lref L = Some r /\
  r < length (mem (ts s)).
Proof.
  induction rst as [|sp rst IH]; cbn [stk]; intros Hs Hi.
  - unfold sl, ids in *. cbn in Hi. destruct (r_id sr) as [q|]; [|apply elem_of_nil in Hi; contradiction].
    apply elem_of_list_singleton in Hi as ->. destruct Hs as [L0 HL0]. pose proof (il_at _ _ _ _ _ _ HL0) as E.
    destruct (il_ref _ _ _ _ _ _ HL0) as (r & Hr & Hm). exists L0, r. split; [exact E|]. split; [exact Hr|]. eapply lookup_lt_Some. exact Hm.
  - destruct Hs as [[L0 HL0] Hs]. rewrite ids_cons in Hi. apply elem_of_cons in Hi as [->|Hi]; [|apply IH; assumption].
    pose proof (dl_at _ _ _ _ _ _ _ HL0) as E. destruct (dl_ref _ _ _ _ _ _ _ HL0) as (r & Hr & Hm). exists L0, r. split; [exact E|]. split; [exact Hr|]. eapply lookup_lt_Some. exact Hm.
Qed.

Section Compile.
Context (rnd : nat -> nat -> T).
Context (Hone0 : neqb (one (T:=T)) nzero = false) (Hone1 : nltb none (one (T:=T)) = false).

Lemma stk2_first sr (rst : list (lsp (T:=T))) : forall rnet da (s : lst T) f, stk2 s sr da rst rnet -> rst <> [] ->
  last (ids sr rst) = Some f -> GetInputs f s = (Ok (Some (r_t sr)), s).
Proof using Type.
  induction rst as [|sp rst IH]; intros [|l rnet] da s f Hs Hne Hf; cbn [stk2] in Hs; try contradiction.
  destruct Hs as ([L HL] & _ & _ & _ & Hs). rewrite ids_cons in Hf.
  destruct (r_id sr) as [q|] eqn:Hq.
  - assert (f = q) as -> by (unfold ids in Hf; rewrite Hq in Hf; rewrite app_comm_cons, last_snoc in Hf; congruence).
    clear - Hs Hq. assert (Hsl : sl2 true s sr da).
    { revert rnet Hs. induction rst as [|sp rst IH]; intros [|l rnet] Hs; cbn [stk2] in Hs; try contradiction; [exact Hs|].
      destruct Hs as (_ & _ & _ & _ & Hs). eapply IH. exact Hs. }
    unfold sl2 in Hsl. rewrite Hq in Hsl. destruct Hsl as [L0 HL0].
    unfold GetInputs, with_fuel. cbn [GetT]. erewrite mbnd_ok by (apply getL_ok; apply HL0).
    rewrite (i2_kind _ _ _ _ _ _ HL0), (i2_pre _ _ _ _ _ _ HL0), (i2_in _ _ _ _ _ _ HL0). reflexivity.
  - destruct rst as [|sp' rst].
    + assert (f = s_id sp) as -> by (unfold ids in Hf; cbn in Hf; rewrite Hq in Hf; cbn in Hf; congruence).
      unfold GetInputs, with_fuel. cbn [GetT]. erewrite mbnd_ok by (apply getL_ok; apply HL).
      rewrite (d2_kind _ _ _ _ _ _ _ HL), (d2_in _ _ _ _ _ _ _ HL). reflexivity.
    + eapply IH; [exact Hs|discriminate|]. rewrite ids_cons in Hf |- *. rewrite last_cons_cons in Hf. exact Hf.
Qed.

Lemma init_tr c sr (rst : list (lsp (T:=T))) : map strain (init_rev rnd c sr rst) = map s_tr rst.
Proof using Type. induction rst as [|sp rst IH]; [reflexivity|]. cbn. rewrite IH. reflexivity. Qed.

Lemma Compile_ok (s : lst T) M sr rst :
  rst <> [] -> NoDup (ids sr rst) -> sizes_ok sr rst -> src_ok s sr -> stk false false s sr rst ->
  outs_ok sr rst (length (mem (ts s))) -> m_last M = pre_of sr rst -> m_first M = last (ids sr rst) ->
  exists s' M' rnet da hi, Compile rnd M s = (Ok M', s') /\
    cinv s' M' sr rst rnet da hi (rev (init_rev rnd (rc s) sr rst)) /\ stk2 s' sr da rst rnet /\
    length (mem (ts s)) <= da /\ m_bp M' = m_bp M /\ grow (ids sr rst) s s' /\ rc s' = rc s + 2 * length rst /\
    refs_off (own sr rst da hi) s' (ids sr rst).
Proof.
  intros Hne Hnd Hsz Hsrc Hs Houts Hlast Hfirst.
  assert (Hid : exists id, pre_of sr rst = Some id) by (destruct rst; [contradiction|eexists; reflexivity]).
  destruct Hid as [id Hid].
  assert (Hfu : length rst < S (length (lays s))).
  { pose proof (ids_fuel _ (lays s) Hnd (stk_ids _ _ _ _ _ Hs)). pose proof (ids_length sr rst). lia. }
  destruct (stk_fresh _ _ _ _ Hs Hid) as (L & HL & Hr).
  pose proof (stk_counted _ _ _ _ _ Hnd Hs Hid HL) as Ht.
  set (s1 := MkL _ _ _) in Ht.
  assert (G1 : grow (ids sr rst) s s1).
  { eapply grow_weaken; [apply (grow_upd [id]); [left|eapply ref_new; [exact HL|exact Hr|reflexivity]]|]. intros i Hi. apply elem_of_list_singleton in Hi. subst i. apply pre_in. exact Hid. }
  assert (F1 : length rst < S (length (lays s1))) by (rewrite (g_len _ _ _ G1); exact Hfu).
  destruct (LBuild_stk rnd Hone0 sr rst s1 (S (length (lays s1))) id Hid F1 Hnd Ht) as (s2 & E2 & S2 & G2 & T2 & C2 & R2).
  set (s2' := MkL (MkSt (mem (ts s2)) (tens (ts s2)) []) (lays s2) (rc s2)).
  assert (G2' : grow (ids sr rst) s2 s2') by apply grow_ctx.
  assert (G12 : grow (ids sr rst) s s2') by (eapply grow_trans; [exact G1|eapply grow_trans; eassumption]).
  assert (S2' : stk true true s2' sr rst).
  { eapply (stk_grow []); [|intros i Hi; apply elem_of_nil in Hi; contradiction|exact S2].
    apply grow_ctx. }
  assert (F2 : length rst < S (length (lays s2'))) by (rewrite (g_len _ _ _ G12); exact Hfu).
  destruct (LBuildFF_stk rnd Hone0 Hone1 sr rst s2' (S (length (lays s2'))) id Hid F2 Hnd Hsz (src_grow _ _ _ _ G12 Hsrc) S2')
    as (s3 & rnet & E3 & G3 & C3 & R3 & S3 & Y3 & F3 & P3).
  assert (Rc2 : rc s2' = rc s) by (cbn; rewrite R2; reflexivity). rewrite Rc2 in R3, F3, P3.
  set (s3' := MkL (MkSt (mem (ts s3)) (tens (ts s3)) []) (lays s3) (rc s3)).
  assert (G3' : grow [] s3 s3') by apply grow_ctx.
  assert (Hnil : forall i, i ∈ ([] : list nat) -> i ∉ ids sr rst) by (intros i Hi; apply elem_of_nil in Hi; contradiction).
  assert (S3' : stk2 s3' sr (length (mem (ts s2'))) rst rnet) by (eapply stk2_grow; eassumption).
  assert (G13 : grow (ids sr rst) s s3') by (eapply grow_trans; [exact G12|eapply grow_trans; [exact G3|eapply grow_weaken; [exact G3'|intros i Hi; apply elem_of_nil in Hi; contradiction]]]).
  assert (Hsrc3 : src_ok s3' sr) by (eapply src_grow; eassumption).
  assert (F3' : length rst < S (length (lays s3'))) by (rewrite (g_len _ _ _ G13); exact Hfu).
  set (da := length (mem (ts s2'))) in *. set (hi := length (mem (ts s3))) in *.
  pose proof (stk2_laid _ _ _ _ _ S3') as Hlaid.
  pose proof (stk2_blk _ _ _ _ _ S3' Hsrc3) as Hob.
  assert (Hda : length (mem (ts s)) <= da) by (eapply grow_len; exact G12).
  assert (Houts3 : outs_ok sr rst da) by (eapply outs_mono; eassumption).
  assert (Hch := laid_chain sr da (da + src_size sr) rst rnet hi Hlaid Houts3 Y3 ltac:(lia)).
  (* the copied target *)
  assert (Hrd : exists vs, rds (mem (ts s3')) (map Some (seq (base_of sr rst) (N.to_nat (prodN (sh_of sr rst))))) = Some vs).
  { apply rds_Some_valid. apply Forall_forall. intros p Hp. apply elem_of_list_fmap in Hp as (x & -> & Hx). apply elem_of_seq in Hx.
    exists x. split; [reflexivity|]. cbn [s3' ts mem].
    pose proof (chain_lo _ _ _ _ _ Hch). fold hi.
    destruct rst as [|sp rst]; [contradiction|]. cbn [base_of sh_of outs_ok] in Houts3, Hx. rewrite prod_1 in Hx. lia. }
  destruct Hrd as [vs Hrd]. destruct Hob as [b Hob].
  pose proof (Copy_rd (ts s3') (inp_of sr rst) _ _ vs Hob Hrd) as E5.
  set (s5 := MkL (MkSt (mem (ts s3') ++ vs) (tens (ts s3') ++ [MkNode KMat (MkMat (shape (blkm (sh_of sr rst) (base_of sr rst) b)) (mulindex (blkm (sh_of sr rst) (base_of sr rst) b)) (map Some (seq (length (mem (ts s3'))) (length vs))) false)]) (ctx (ts s3'))) (lays s3') (rc s3')).
  assert (G5 : grow [] s3' s5) by (split; [exists vs; reflexivity|eapply tle_app; reflexivity|reflexivity|reflexivity|intros i L0 HL0; eapply ref_keep; [exact HL0|reflexivity]]).
  assert (Hf : exists f, last (ids sr rst) = Some f).
  { destruct rst as [|sp rst]; [contradiction|]. rewrite ids_cons. clear. generalize (s_id sp). induction (ids sr rst) as [|i is IH]; intros j; [exists j; reflexivity|].
    rewrite last_cons_cons. apply IH. }
  destruct Hf as [f Hf].
  set (M' := MkModel (m_first M) (m_last M) (Some (r_t sr)) (Some (inp_of sr rst)) (Some (length (tens (ts s3')))) (m_alpha M) (m_momentum M) (m_loss M)
     (Some (MkGraph (ffs (rev rnet)))) (m_bp M) (m_caldif M) (m_resetfit M) (Some (MkGraph []))).
  exists s5, M', rnet, da, hi. split; [|split; [|split; [|split; [exact Hda|split; [reflexivity|split; [|split]]]]]].
  - unfold Compile. rewrite Hlast, Hid. erewrite mbnd_ok by reflexivity.
    rewrite (count_then s id L _ HL Hr). fold s1.
    erewrite mbnd_ok by (unfold with_fuel; exact E2).
    erewrite mbnd_ok by (apply in_ctx_ok; unfold with_fuel; exact E3).
    erewrite mbnd_ok.
    2:{ apply in_ctx_ok. unfold with_fuel. eapply LReset_stk; [exact Hid|exact F3'|exact S3']. }
    cbn [s3' ts ctx]. rewrite Hfirst, Hf. erewrite mbnd_ok by reflexivity.
    erewrite mbnd_ok by (eapply stk2_first; [exact S3'|exact Hne|exact Hf]).
    destruct (stk2_out _ _ _ _ _ _ S3' Hid) as (L3 & A3 & K3 & O3).
    erewrite mbnd_ok by (eapply GetOutputs_ok; [exact A3|exact K3|exact O3]).
    erewrite mbnd_ok by reflexivity.
    erewrite mbnd_ok by (apply liftT_ok; exact E5).
    unfold mret. f_equal. f_equal. unfold M'. f_equal; try congruence. f_equal. rewrite C3. reflexivity.
  - assert (Hp5 : Forall2 (has_params (mem (ts s5))) rnet (init_rev rnd (rc s) sr rst)).
    { eapply Forall2_impl; [exact P3|]. intros l sl Hp. cbn [s5 ts mem s3']. apply has_params_app. exact Hp. }
    split; try assumption; try reflexivity.
    + eapply src_grow; [exact G5|exact Hsrc3].
    + cbn. rewrite app_length. fold hi. lia.
    + apply Forall2_rev in F3. exact F3.
    + apply Forall2_rev in Hp5. exact Hp5.
    + rewrite rev_involutive. apply init_tr.
    + eapply tle_blk; [apply (g_tens _ _ _ G5)|]. exists b. exact Hob.
  - eapply stk2_grow; [exact G5|exact Hnil|exact S3'].
  - eapply grow_trans; [exact G13|]. eapply grow_weaken; [exact G5|]. intros i Hi. apply elem_of_nil in Hi. contradiction.
  - exact R3.
  - intros i L0 r Hi HL0 Hr0 Hown.
    assert (G35 : grow (ids sr rst) s2' s5) by (eapply grow_trans; [exact G3|eapply grow_weaken; [eapply grow_trans; [exact G3'|exact G5]|intros j Hj; apply elem_of_nil in Hj; contradiction]]).
    destruct (stk_ref1 _ _ _ _ _ S2' Hi) as (L2 & r2 & HL2 & Hr2 & Hlt2).
    pose proof (g_ref _ _ _ G35 i L0 HL0 L2 HL2) as Hq. rewrite Hr2 in Hq. rewrite Hr0 in Hq. injection Hq as ->.
    fold da in Hlt2.
    destruct (lookup_lt_is_Some_2 (lays s) i) as [L1 HL1]; [rewrite <- (g_len _ _ _ G12); eapply lookup_lt_Some; exact HL2|].
    pose proof (stk_ref _ _ _ _ _ _ Hs Hi HL1) as Hr1.
    pose proof (g_ref _ _ _ G12 i L2 HL2 L1 HL1) as Hq. rewrite Hr1 in Hq. specialize (Hq r2 Hr2).
    destruct Hown as [Ha|[(sp & Hsp & Ha)|Ha]]; [|pose proof (outs_below _ _ _ _ Houts Hsp); lia|lia].
    pose proof (outs_bottom _ _ _ Houts Hne). lia.
Qed.
End Compile.
End NetRun.
