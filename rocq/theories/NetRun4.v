(** * NetRun4: training and the actions on the user's tensors *)
From Verif Require Import Base Num ModelTools ModelOps ModelTensor ModelGraph ModelLayer ModelModel
  Spec Denote ObjSpec IndexProofs ExecProofs TensorFacts AccessProofs EagerProofs
  NetSpec NetExec NetBack NetBuild NetChain NetChain2 NetChain3 NetFit NetMem NetRun NetRun2 NetScript NetRun3.
From Coq Require Import Lia ZifyBool ZifyNat ZifyN.

Section NetRun4.
Context {T : Type} `{Num T}.

(** ** The user's tensors *)
Definition store_ok (s : lst T) (P : nat -> Prop) (tids : list nat) (st : list (list N * list T)) : Prop :=
  Forall2 (fun t e => reads (ts s) t (fst e) (snd e) /\ clear_of P (ts s) t) tids st.
Lemma reads_in (s : tst T) t sh vs k m x : reads s t sh vs -> tens s !! t = Some (MkNode k m) -> Some x ∈ operands m -> x < length (mem s).
Proof.
  intros (k0 & m0 & E0 & _ & Er & _) E Hx. rewrite E0 in E. injection E as -> ->.
  apply elem_of_list_lookup in Hx as [i Hi]. pose proof (rds_lookup _ _ _ i Er) as Hl. rewrite Hi in Hl. cbn in Hl.
  assert (Hlt : i < length vs) by (rewrite (rds_length _ _ _ Er); eapply lookup_lt_Some; exact Hi).
  destruct (lookup_lt_is_Some_2 vs i Hlt) as [v Hv]. eapply lookup_lt_Some. rewrite <- Hl. exact Hv.
Qed.
Lemma reads_lt (s : tst T) t sh vs : reads s t sh vs -> t < length (tens s).
Proof. intros (k & m & E & _). eapply lookup_lt_Some. exact E. Qed.
(** Cells of a tensor the user holds and the model's cells stay apart. *)
Lemma clear_next (s s' : tst T) (P P' : nat -> Prop) t sh vs : tle s s' -> (forall a, P' a -> P a \/ length (mem s) <= a) ->
  reads s t sh vs -> clear_of P s t -> clear_of P' s t /\ clear_of P' s' t.
Proof.
  intros Ht HP Hr Hc. assert (Hc' : clear_of P' s t).
  { intros k m x E Hx Hp. destruct (HP x Hp) as [Hp'|Hge]; [eapply Hc; eassumption|].
    pose proof (reads_in _ _ _ _ _ _ _ Hr E Hx). lia. }
  split; [exact Hc'|]. eapply clear_tle; [exact Ht|eapply reads_lt; exact Hr|exact Hc'].
Qed.
Lemma store_next (s s' : lst T) (P P' : nat -> Prop) tids st : store_ok s P tids st -> tle (ts s) (ts s') ->
  kept P' (mem (ts s)) (mem (ts s')) -> (forall a, P' a -> P a \/ length (mem (ts s)) <= a) -> store_ok s' P' tids st.
Proof.
  intros Hs Ht Hk HP. eapply Forall2_impl; [exact Hs|]. intros t [sh vs] [Hr Hc]. cbn [fst snd] in *.
  destruct (clear_next _ _ _ _ _ _ _ Ht HP Hr Hc) as [H1 H2]. split; [|exact H2].
  eapply reads_kept; [exact Ht|exact Hk|exact H1|exact Hr].
Qed.
Lemma store_at (s : lst T) P tids st i sh vs : store_ok s P tids st -> st !! i = Some (sh, vs) ->
  exists t, tids !! i = Some t /\ reads (ts s) t sh vs /\ clear_of P (ts s) t.
Proof.
  intros Hs Hi. destruct (Forall2_lookup_r _ _ _ _ _ Hs Hi) as (t & Et & Hr & Hc). exists t. auto.
Qed.
Lemma ten_ok (s : lst T) (tids : list nat) i t : tids !! i = Some t -> mlift (at_or_panic tids i) s = (Ok t, s).
Proof. intros E. unfold mlift, at_or_panic. rewrite E. reflexivity. Qed.

(** ** New tensors, and reading them *)
Lemma new_ok (s : lst T) sh vs : fits sh -> length vs = N.to_nat (prodN sh) ->
  exists s' e, liftT (NewFromValues vs sh) s = (Ok (length (tens (ts s))), s') /\
    mem (ts s') = mem (ts s) ++ e /\ tle (ts s) (ts s') /\ lays s' = lays s /\ rc s' = rc s /\
    reads (ts s') (length (tens (ts s))) sh vs /\
    clear_of (fun a => a < length (mem (ts s))) (ts s') (length (tens (ts s))).
Proof.
  intros Hf Hl. destruct (NewFromValues_spec (ts s) vs sh Hf) as (s' & e & ops & E & Em & _ & En & Hh & _ & Hd).
  exists (MkL s' (lays s) (rc s)), e. split; [apply liftT_ok; exact E|]. cbn [ts lays rc]. split; [exact Em|].
  split; [eapply tle_app; exact En|]. split; [reflexivity|]. split; [reflexivity|]. cbn [vsh] in *.
  rewrite take_ge in Hh by lia. rewrite Hl, Nat.sub_diag in Hh. cbn [replicate] in Hh. rewrite app_nil_r in Hh.
  assert (Ea : tens s' !! length (tens (ts s)) = Some (MkNode KMat (MkMat sh (GetIndexMul sh) ops false)))
    by (rewrite En; apply list_lookup_middle; reflexivity).
  split.
  - destruct Hh as (n & E0 & _ & Hv). rewrite Ea in E0. injection E0 as <-. unfold mval in Hv. cbn [nmat operands shape] in Hv.
    destruct (rds (mem s') ops) as [d|] eqn:Ed; cbn in Hv; [|discriminate]. injection Hv as ->.
    eexists _, _. split; [exact Ea|]. split; [reflexivity|]. split; [exact Ed|exact Hl].
  - intros k m x E1 Hx Hlt. rewrite Ea in E1. injection E1 as <- <-. cbn in Hx. rewrite Forall_forall in Hd.
    destruct (Hd _ Hx) as (a & [= <-] & Ha). lia.
Qed.
Lemma mmap_rdM (s : tst T) : forall ps vs, rds (mem s) ps = Some vs -> mmap ps rdM s = (Ok vs, s).
Proof.
  induction ps as [|p ps IH]; intros vs E; unfold rds in E; cbn in E; [injection E as <-; reflexivity|].
  destruct (rd (mem s) p) as [v|] eqn:Ep; cbn in E; [|discriminate].
  destruct (mapM (rd (mem s)) ps) as [vs'|] eqn:Eps; cbn in E; [|discriminate]. injection E as <-.
  cbn [mmap]. erewrite mbnd_ok by (unfold rdM; rewrite Ep; reflexivity).
  erewrite mbnd_ok by (apply IH; exact Eps). reflexivity.
Qed.
Lemma get_ok (s : lst T) t sh vs : reads (ts s) t sh vs -> liftT (GetData t) s = (Ok vs, s).
Proof.
  intros (k & m & E & _ & Er & _). destruct s as [t0 ls c]. cbn [ts] in *.
  erewrite liftT_ok; [reflexivity|]. cbn [ts]. unfold GetData.
  erewrite mbnd_ok.
  2:{ unfold get_mat. erewrite mbnd_ok by (unfold get_node; rewrite E; reflexivity). reflexivity. }
  apply mmap_rdM. exact Er.
Qed.
Lemma store_snoc (s s' : lst T) P tids st e sh vs M sr rst snet :
  running s M sr rst snet P -> store_ok s P tids st -> tle (ts s) (ts s') -> kept P (mem (ts s)) (mem (ts s')) ->
  reads (ts s') e sh vs -> clear_of (fun a => a < length (mem (ts s))) (ts s') e ->
  store_ok s' P (tids ++ [e]) (st ++ [(sh, vs)]).
Proof.
  intros HR Hs Ht Hk Hr Hc. apply Forall2_app.
  - apply (store_next s s' P P); auto.
  - constructor; [|constructor]. split; [exact Hr|]. eapply clear_weaken; [exact Hc|]. intros a Ha. cbv beta.
    eapply running_lt; eassumption.
Qed.

(** ** Getting ready to train *)
Lemma no_pos (rnet : list (dlay T)) (snet : list (slayer T)) : Forall2 fits_layer (rev rnet) snet -> Forall (fun l => sB l <> []) snet ->
  Forall (fun l => 0 < no l) rnet.
Proof.
  intros Hf Hb. apply Forall_forall. intros l Hl. apply elem_of_list_In, in_rev, elem_of_list_In, elem_of_list_lookup in Hl as [i Hi].
  destruct (Forall2_lookup_l _ _ _ _ _ Hf Hi) as (sl0 & Hs & Hfl). rewrite Forall_lookup in Hb. specialize (Hb _ _ Hs).
  pose proof (fl_B _ _ Hfl) as Hlb. destruct (sB sl0); [contradiction|]. cbn in Hlb. lia.
Qed.

Context (Hone0 : neqb (one (T:=T)) nzero = false) (Hone1 : nltb none (one (T:=T)) = false).
Lemma ensure_ok (s : lst T) M sr rst snet P : running s M sr rst snet P -> Forall (fun l => sB l <> []) snet ->
  exists M' s1 rnet da hi t0 h2, ensure_bp M s = (Ok M', s1) /\
    cinv s1 M' sr rst rnet da hi snet /\ binv s1 M' sr rst rnet da hi t0 h2 /\
    tle (ts s) (ts s1) /\ kept (fun _ => False) (mem (ts s)) (mem (ts s1)) /\
    (forall a, ownT sr rst da hi t0 h2 a -> P a \/ length (mem (ts s)) <= a) /\ rc s1 = rc s.
Proof.
  intros HR Hb. unfold ensure_bp.
  destruct HR as [rnet da hi HC Hbp Hs Hr HP|rnet da hi t0 h2 HC HB HP].
  - destruct (CompileBP_ok Hone0 Hone1 s M sr rst rnet da hi snet HC Hs) as (s1 & M' & rnet' & t0 & h2 & E & HC' & HB' & Ht0 & Hg & Hrc & _).
    { eapply no_pos; [apply HC|exact Hb]. }
    exists M', s1, rnet', da, hi, t0, h2. rewrite Hbp. split; [exact E|]. split; [exact HC'|]. split; [exact HB'|].
    split; [apply Hg|]. destruct Hg as [[e Ee] _ _ _ _]. split; [rewrite Ee; apply kept_app|].
    split; [|exact Hrc]. intros a [Ha|Ha]; [left; apply HP; exact Ha|right; lia].
  - exists M, s, rnet, da, hi, t0, h2. destruct (bi_bp _ _ _ _ _ _ _ _ _ HB) as (ops & -> & _). split; [reflexivity|].
    split; [exact HC|]. split; [exact HB|]. split; [apply tle_refl|]. split; [apply kept_refl|]. split; [|reflexivity].
    intros a Ha. left. apply HP. exact Ha.
Qed.
Lemma start_ok (s1 : lst T) M sr rst rnet da hi t0 h2 snet alpha mo :
  cinv s1 M sr rst rnet da hi snet -> binv s1 M sr rst rnet da hi t0 h2 ->
  exists s', (forall A (k : model T -> LM T A),
       (m' <~ (match m_bp M with None => CompileBackPropagation M | Some _ => mret M end) ;
        liftT (wrM (m_alpha m') alpha) ;~ liftT (wrM (m_momentum m') mo) ;~ k m') s1 = k M s') /\
    cinv s' M sr rst rnet da hi snet /\ binv s' M sr rst rnet da hi t0 h2 /\
    rd (mem (ts s')) (m_alpha M) = Some alpha /\ rd (mem (ts s')) (m_momentum M) = Some mo /\
    tle (ts s1) (ts s') /\ kept (ownT sr rst da hi t0 h2) (mem (ts s1)) (mem (ts s')) /\ rc s' = rc s1.
Proof.
  intros HC HB.
  clear Hone0 Hone1. set (b := t0 + N.to_nat (width_of sr rst) + N.to_nat (width_of sr rst)).
  assert (Hle := binv_le _ _ _ _ _ _ _ _ _ HB). fold b in Hle.
  destruct (poke_ok s1 M sr rst rnet da hi t0 h2 snet (b + 1) alpha HC HB ltac:(fold b; lia)) as [HC1 HB1].
  destruct (poke_ok _ M sr rst rnet da hi t0 h2 snet (b + 2) mo HC1 HB1 ltac:(fold b; lia)) as [HC2 HB2].
  exists (set_cell (set_cell s1 (b + 1) alpha) (b + 2) mo).
  assert (Ea := bi_alpha _ _ _ _ _ _ _ _ _ HB). fold b in Ea. assert (Em := bi_mom _ _ _ _ _ _ _ _ _ HB). fold b in Em.
  split; [|split; [exact HC2|split; [exact HB2|]]].
  - intros A k. destruct (bi_bp _ _ _ _ _ _ _ _ _ HB) as (ops & -> & _). erewrite mbnd_ok by reflexivity. rewrite Ea, Em.
    erewrite mbnd_ok by (apply wrM_L; lia). erewrite mbnd_ok by (apply wrM_L; cbn; rewrite insert_length; lia). reflexivity.
  - rewrite Ea, Em. cbn [rd set_cell ts mem].
    split; [rewrite list_lookup_insert_ne by lia; apply list_lookup_insert; lia|].
    split; [apply list_lookup_insert; rewrite insert_length; lia|].
    split; [apply (tle_app _ _ []); cbn; rewrite app_nil_r; reflexivity|]. split; [|reflexivity].
    split; [rewrite !insert_length; lia|]. intros a v Ha Hv.
    rewrite !list_lookup_insert_ne; [exact Hv| |].
    + intros <-. apply Ha. right. unfold b in *. lia.
    + intros <-. apply Ha. right. unfold b in *. lia.
Qed.

(** ** TrainOne and Train *)
Lemma run_train1 (s : lst T) M sr rst snet P x shx xs y shy tgt alpha mo :
  running s M sr rst snet P -> Forall (fun l => sB l <> []) snet ->
  reads (ts s) x shx xs -> clear_of P (ts s) x -> reads (ts s) y shy tgt -> clear_of P (ts s) y ->
  exists M' s1 s' P' e, ensure_bp M s = (Ok M', s1) /\
    let good := bool_decide (shx = r_sh sr) && bool_decide (shy = sh_of sr rst) in
    TrainOne M' x y alpha mo s1 = (if good then Ok (loss snet xs tgt, M') else Err e, s') /\
    running s' M' sr rst (if good then learn alpha (nmul nzero mo) snet xs tgt else snet) P' /\
    tle (ts s) (ts s') /\ kept P' (mem (ts s)) (mem (ts s')) /\
    (forall a, P' a -> P a \/ length (mem (ts s)) <= a) /\ rc s' = rc s.
Proof.
  intros HR Hb Hx Hcx Hy Hcy.
  destruct (ensure_ok s M sr rst snet P HR Hb) as (M' & s0 & rnet & da & hi & t0 & h2 & E0 & HC0 & HB0 & Ht0 & Hk0 & HP & Hrc0).
  clear Hone0 Hone1.
  destruct (start_ok s0 M' sr rst rnet da hi t0 h2 snet alpha mo HC0 HB0) as (s1 & E & HC & HB & Ea & Em & Ht1 & Hk1 & Hrc).
  assert (Ht : tle (ts s) (ts s1)) by (eapply tle_trans; eassumption).
  assert (Hk : kept (ownT sr rst da hi t0 h2) (mem (ts s)) (mem (ts s1))).
  { eapply kept_trans; [exact Hk0|exact Hk1|contradiction|auto]. }
  destruct (clear_next _ _ _ _ _ _ _ Ht HP Hx Hcx) as [Cx Cx']. destruct (clear_next _ _ _ _ _ _ _ Ht HP Hy Hcy) as [Cy Cy'].
  assert (Rx : reads (ts s1) x shx xs) by (eapply reads_kept; eassumption).
  assert (Ry : reads (ts s1) y shy tgt) by (eapply reads_kept; eassumption).
  assert (Tm : forall m', tle (ts s) (MkSt m' (tens (ts s1)) (ctx (ts s1)))).
  { intros m'. eapply tle_trans; [exact Ht|]. apply (tle_app _ _ []). cbn. rewrite app_nil_r. reflexivity. }
  destruct (decide (shx = r_sh sr /\ shy = sh_of sr rst)) as [[-> ->]|Hbad].
  - destruct (ExecFit_ok s1 M' sr rst rnet da hi t0 h2 snet x xs y tgt alpha mo HC HB) as (m' & E2 & HC2 & HB2 & S2 & El & _ & _); try assumption.
    eexists M', s0, _, (ownT sr rst da hi t0 h2), (ELayer 0). split; [exact E0|]. cbv zeta.
    rewrite !bool_decide_eq_true_2 by reflexivity. cbn [andb].
    split; [|split; [|split; [|split; [|split; [exact HP|]]]]].
    + unfold TrainOne. rewrite E. erewrite mbnd_ok by exact E2.
      rewrite (bi_loss _ _ _ _ _ _ _ _ _ HB) in El |- *. cbn [rd] in El.
      erewrite mbnd_ok by (apply liftT_ok; apply rdM_at; exact El). reflexivity.
    + eapply run_t; [exact HC2|exact HB2|intros a; reflexivity].
    + apply Tm.
    + eapply kept_trans; [exact Hk|apply kept_off; exact S2|auto|auto].
    + cbn [rc]. congruence.
  - destruct (ExecFit_bad s1 M' sr rst rnet da hi t0 h2 snet x shx xs y shy tgt HC HB Rx Cx' Ry Cy') as (m' & e & E2 & HC2 & HB2 & S2 & _).
    { destruct (decide (shx = r_sh sr)); tauto. }
    assert (Hb2 : bool_decide (shx = r_sh sr) && bool_decide (shy = sh_of sr rst) = false).
    { apply andb_false_iff. destruct (decide (shx = r_sh sr)); [right|left]; apply bool_decide_eq_false_2; tauto. }
    eexists M', s0, _, (ownT sr rst da hi t0 h2), e. split; [exact E0|]. cbv zeta. rewrite Hb2.
    split; [|split; [|split; [|split; [|split; [exact HP|]]]]].
    + unfold TrainOne. rewrite E. erewrite mbnd_err by exact E2. reflexivity.
    + eapply run_t; [exact HC2|exact HB2|intros a; reflexivity].
    + apply Tm.
    + eapply kept_trans; [exact Hk|apply kept_off; exact S2|auto|auto].
    + cbn [rc]. congruence.
Qed.

Lemma mfor_flat {S A B} (f : B -> M S unit) (g : A -> list B) (l : list A) (s : S) :
  mfor l (fun a => mfor (g a) f) s = mfor (flat_map g l) f s.
Proof.
  revert s. induction l as [|a l IH]; intros s; cbn [mfor flat_map]; [reflexivity|].
  assert (G : forall bs s, (mfor bs f ;~ mfor l (fun a => mfor (g a) f)) s = mfor (bs ++ flat_map g l) f s); [|apply G].
  induction bs as [|b bs IHb]; intros s0; cbn [mfor app].
  - unfold mbnd, mret. cbn. apply IH.
  - unfold mbnd in *. destruct (f b s0) as [[?|?| |] s1]; try reflexivity. apply IHb.
Qed.
Lemma mfor_map {S A B} (f : B -> M S unit) (g : A -> B) (l : list A) (s : S) : mfor l (fun a => f (g a)) s = mfor (map g l) f s.
Proof. revert s. induction l as [|a l IH]; intros s; cbn; [reflexivity|]. unfold mbnd. destruct (f (g a) s) as [[?|?| |] s1]; auto. Qed.
Lemma mfor_ext {S A} (f g : A -> M S unit) (l : list A) (s : S) : (forall a s, a ∈ l -> f a s = g a s) -> mfor l f s = mfor l g s.
Proof.
  revert s. induction l as [|a l IH]; intros s Hfg; cbn; [reflexivity|]. unfold mbnd. rewrite Hfg by left.
  destruct (g a s) as [[?|?| |] s1]; auto. apply IH. intros. apply Hfg. right. assumption.
Qed.

Lemma run_train picks (s : lst T) M sr rst snet P xids yids pairs epochs batch alpha mo :
  running s M sr rst snet P -> Forall (fun l => sB l <> []) snet -> pairs <> [] ->
  Forall2 (fun x p => reads (ts s) x (fst (fst p)) (snd (fst p)) /\ clear_of P (ts s) x) xids pairs ->
  Forall2 (fun y p => reads (ts s) y (fst (snd p)) (snd (snd p)) /\ clear_of P (ts s) y) yids pairs ->
  exists M' s1 s' P' e, ensure_bp M s = (Ok M', s1) /\
    let r := learn_picks (r_sh sr) (sh_of sr rst) alpha (nmul nzero mo) pairs
       (picked picks (length pairs) epochs (if batch =? 0 then length pairs else batch)) snet in
    Train picks M' xids yids epochs batch alpha mo s1 = (if snd r then Ok M' else Err e, s') /\
    running s' M' sr rst (fst r) P' /\
    tle (ts s) (ts s') /\ kept P' (mem (ts s)) (mem (ts s')) /\
    (forall a, P' a -> P a \/ length (mem (ts s)) <= a) /\ rc s' = rc s.
Proof.
  intros HR Hb Hne Hx Hy.
  destruct (ensure_ok s M sr rst snet P HR Hb) as (M' & s0 & rnet & da & hi & t0 & h2 & E0 & HC0 & HB0 & Ht0 & Hk0 & HP & Hrc0).
  clear Hone0 Hone1.
  destruct (start_ok s0 M' sr rst rnet da hi t0 h2 snet alpha mo HC0 HB0) as (s1 & E & HC & HB & Ea & Em & Ht1 & Hk1 & Hrc).
  assert (Ht : tle (ts s) (ts s1)) by (eapply tle_trans; eassumption).
  assert (Hk : kept (ownT sr rst da hi t0 h2) (mem (ts s)) (mem (ts s1))).
  { eapply kept_trans; [exact Hk0|exact Hk1|contradiction|auto]. }
  pose proof (Forall2_length _ _ _ Hx) as Lx. pose proof (Forall2_length _ _ _ Hy) as Ly.
  assert (Hlp : 0 < length pairs) by (destruct pairs; [contradiction|cbn; lia]).
  set (n := length pairs) in *. set (ba := if batch =? 0 then n else batch).
  destruct (steps_ok M' sr rst rnet da hi t0 h2 xids yids pairs alpha mo Lx Ly (picked picks n epochs ba) s1 snet) as (m' & [e E2] & HC2 & HB2 & S2); try assumption.
  { apply Forall_forall. intros k Hkk. unfold picked in Hkk. apply elem_of_list_In, in_flat_map in Hkk as (e & _ & Hkk).
    apply in_map_iff in Hkk as (b & <- & _). fold n. apply Nat.mod_upper_bound. lia. }
  { intros k x y p Ex Ey Ep. destruct (Forall2_lookup_lr _ _ _ _ _ _ Hx Ex Ep) as [Rx Cx].
    destruct (Forall2_lookup_lr _ _ _ _ _ _ Hy Ey Ep) as [Ry Cy].
    destruct (clear_next _ _ _ _ _ _ _ Ht HP Rx Cx) as [Cx1 Cx2]. destruct (clear_next _ _ _ _ _ _ _ Ht HP Ry Cy) as [Cy1 Cy2].
    repeat split; [eapply reads_kept; eassumption|exact Cx2|eapply reads_kept; eassumption|exact Cy2]. }
  eexists M', s0, _, (ownT sr rst da hi t0 h2), e. split; [exact E0|]. cbv zeta.
  set (r := learn_picks _ _ _ _ _ _ _) in *.
  split; [|split; [|split; [|split; [|split; [exact HP|]]]]].
  - unfold Train. rewrite Lx, Ly, Nat.eqb_refl. cbn [negb]. rewrite E. cbv zeta. fold n. fold ba.
    match goal with |- mbnd (mfor (range epochs) ?body) _ _ = _ => assert (EQ : mfor (range epochs) body s1 =
      mfor (picked picks n epochs ba) (fun k => x <~ mlift (at_or_panic xids k) ; y <~ mlift (at_or_panic yids k) ; ExecFit M' x y) s1) end.
    { unfold picked. rewrite <- mfor_flat. apply mfor_ext. intros e0 s2 _. unfold range.
      rewrite <- mfor_map. apply mfor_ext. intros b s3 _. destruct (Nat.eqb_spec n 0); [lia|]. reflexivity. }
    destruct (snd r).
    + erewrite mbnd_ok by (rewrite EQ; exact E2).
      assert (El : exists v, m' !! (t0 + N.to_nat (width_of sr rst) + N.to_nat (width_of sr rst)) = Some v).
      { apply lookup_lt_is_Some_2. pose proof (binv_le _ _ _ _ _ _ _ _ _ HB2) as Hle. cbn [ts mem] in Hle. lia. }
      destruct El as [v Ev]. rewrite (bi_loss _ _ _ _ _ _ _ _ _ HB).
      erewrite mbnd_ok by (apply liftT_ok; apply rdM_at; exact Ev). reflexivity.
    + erewrite mbnd_err by (rewrite EQ; exact E2). reflexivity.
  - eapply run_t; [exact HC2|exact HB2|intros a; reflexivity].
  - eapply tle_trans; [exact Ht|]. apply (tle_app _ _ []). cbn. rewrite app_nil_r. reflexivity.
  - eapply kept_trans; [exact Hk|apply kept_off; exact S2|auto|auto].
  - cbn [rc]. congruence.
Qed.

(** ** Prediction from a tensor of another shape *)
Lemma run_predict_bad rnd (s : lst T) M sr rst snet P x sh xs : running s M sr rst snet P ->
  reads (ts s) x sh xs -> sh <> r_sh sr -> exists e, Predict rnd M x s = (Err e, s).
Proof. clear Hone0 Hone1.
  intros HR Hx Hne. destruct (running_parts _ _ _ _ _ _ HR) as (rnet & da & hi & HC & _). destruct HC.
  destruct (Load_bad (ts s) (r_t sr) (r_sh sr) (r_b sr) x sh xs) as [e Ee]; try assumption; [apply ci_src|].
  exists e. unfold Predict. rewrite ci_ff. erewrite mbnd_ok by reflexivity. rewrite ci_in. erewrite mbnd_ok by reflexivity.
  erewrite mbnd_err; [reflexivity|]. apply liftT_err. exact Ee.
Qed.
End NetRun4.
