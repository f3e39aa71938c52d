(** * TrnBias: new bias and momentum of the convolutions *)
From Verif Require Import Base Num ModelTools ModelOps ModelTensor ModelGraph ModelLayer Spec NetSpec FwdSpec Denote
  IndexProofs ExecProofs TensorFacts AccessProofs BuildProofs BuildFrame CompileProofs Agree FwdMask FwdBuild FwdSeg FwdOps FwdPool NetBuild NetChain FwdBody FwdExpr FwdConv FwdConv2 FwdAct FwdTotal
  BwdSpec BwdPost BwdLoop TrnSpec TrnTri TrnOwn TrnExpr TrnDst TrnXfer TrnSite TrnDer.
From Coq Require Import Lia ZifyBool ZifyNat ZifyN.

Section TrnBias.
Context {T : Type} `{Num T}.
Implicit Types (s : tst T) (m : list T).

Lemma bin_node s a b o ea eb sh : den s a ea sh -> den s b eb sh ->
  exists s', NewOp2 a b o s = (Ok (length (tens s)), s') /\ s' = add s (KOp2 a b o) empty_mat /\ seg nowhere s s' [] [] /\ mem s' = mem s /\
    den s' (length (tens s)) (EBin (bop o) ea eb) sh /\ forall m e', evals s' m e' = evals s m e'.
Proof using Type.
  intros Da Db. exists (add s (KOp2 a b o) empty_mat). split; [reflexivity|]. split; [reflexivity|]. split; [apply add_seg|]. split; [reflexivity|]. split.
  - eapply (den_new s _ (KOp2 a b o) empty_mat); [reflexivity|reflexivity|reflexivity|discriminate|..].
    + eapply D_op2; [eapply view_top; reflexivity|exact (den_lt _ _ _ _ Da)|exact (den_lt _ _ _ _ Db)|eapply den_denotes_grow; [reflexivity|reflexivity|exact Da]|eapply den_denotes_grow; [reflexivity|reflexivity|exact Db]].
    + intros c Hc. cbn [children] in Hc. apply elem_of_cons in Hc as [->|Hc]; [split; [exact (den_lt _ _ _ _ Da)|eauto]|]. apply elem_of_list_singleton in Hc as ->. split; [exact (den_lt _ _ _ _ Db)|eauto].
    + cbn [shape_of]. rewrite (dn_sh _ _ _ _ Da), (dn_sh _ _ _ _ Db). cbn [mbind option_bind]. rewrite decide_True by reflexivity. reflexivity.
    + split; [exact (dn_nc _ _ _ _ Da)|exact (dn_nc _ _ _ _ Db)].
  - intros m e'. unfold evals. apply (eval_grow s (add s (KOp2 a b o) empty_mat) _ _ _ _ _ eq_refl eq_refl). discriminate.
Qed.
Lemma den_up s s' j e sh : den s j e sh -> forall k mt, s' = add s k mt -> den s' j e sh.
Proof using Type. intros D k mt ->. apply (den_add s (MkNode k mt) j e sh D). Qed.

(** ** New bias *)
Section Bias.
Variables (s : tst T) (dif bias mb al mo : nat) (nd nbi nm : node T) (sh : list N).
Hypotheses (Hd : node_ok s dif nd sh) (Hb : node_ok s bias nbi sh) (Hm : node_ok s mb nm sh) (Hal : al < length (mem s)) (Hmo : mo < length (mem s)).
Definition kda := length (tens s).
Definition kdb := S (S (length (tens s))).
Definition knb := S (S (S (length (tens s)))).
Definition k4 : tst T := add (add (add (add s (KOpScalar dif (Some al) Op2Mul) empty_mat) (KOpScalar mb (Some mo) Op2Mul) empty_mat) (KOp2 kda (S kda) Op2Add) empty_mat) (KOp2 bias kdb Op2Add) empty_mat.
Definition biasP m : Prop := forall vd vb vm a b, mval m (nmat nd) = Some vd -> mval m (nmat nbi) = Some vb -> mval m (nmat nm) = Some vm -> m !! al = Some a -> m !! mo = Some b ->
  exists da bm db, v_scal BMul vd a = Some da /\ v_scal BMul vm b = Some bm /\ v_bin BAdd da bm = Some db /\ v_bin BAdd vb db <> None.
Definition biasR (nda ndb nnb : node T) m m' : Prop := forall vd vb vm a b, mval m (nmat nd) = Some vd -> mval m (nmat nbi) = Some vb -> mval m (nmat nm) = Some vm -> m !! al = Some a -> m !! mo = Some b ->
  exists da bm db, v_scal BMul vd a = Some da /\ v_scal BMul vm b = Some bm /\ v_bin BAdd da bm = Some db /\
    mval m' (nmat nda) = Some da /\ mval m' (nmat ndb) = Some db /\ mval m' (nmat nnb) = v_bin BAdd vb db.

Lemma below_view s1 j n c x : tens s1 !! j = Some n -> builded (nmat n) = false -> c ∈ children (nkind n) -> below (view s1) c x -> below (view s1) j x.
Proof using Type.
  intros Hn Hx Hc Hbl. eapply B_step; [rewrite view_lookup, Hn; reflexivity| |exact Hbl]. unfold mask. rewrite Hx. exact Hc.
Qed.

Lemma bias_build : exists s', Build knb k4 = (Ok tt, s') /\ exists W C nda ndb nnb, tri s s' W C biasP (biasR nda ndb nnb) /\ (forall l, W l -> length (mem s) <= l) /\
  length (tens s') = S knb /\
  (node_ok s' kda nda sh /\ owned (length (mem s)) (length (mem s')) nda) /\ (node_ok s' kdb ndb sh /\ owned (length (mem s)) (length (mem s')) ndb) /\ (node_ok s' knb nnb sh /\ owned (length (mem s)) (length (mem s')) nnb).
Proof using Hd Hb Hm Hal Hmo.
  pose proof (node_ok_den _ _ _ _ Hd) as D1. pose proof (node_ok_den _ _ _ _ Hb) as D2. pose proof (node_ok_den _ _ _ _ Hm) as D3.
  destruct (scal_node s dif al Op2Mul _ _ D1 Hal) as (a1 & E1 & S1 & M1 & _ & Da & V1). injection E1 as <-. fold (add s (KOpScalar dif (Some al) Op2Mul) empty_mat) in *. set (a1 := add s (KOpScalar dif (Some al) Op2Mul) empty_mat) in *.
  destruct (scal_node a1 mb mo Op2Mul (ELeaf mb) sh (den_up _ a1 _ _ _ D3 _ _ eq_refl) Hmo) as (a2 & E2 & S2 & M2 & _ & Dm & V2). injection E2 as <-. fold (add a1 (KOpScalar mb (Some mo) Op2Mul) empty_mat) in *. set (a2 := add a1 (KOpScalar mb (Some mo) Op2Mul) empty_mat) in *.
  assert (T1 : length (tens a1) = S (length (tens s))) by (cbn [a1 add tens]; rewrite app_length; cbn; lia). assert (T2 : length (tens a2) = kdb) by (unfold kdb; cbn [a2 add tens]; rewrite app_length; cbn [length]; lia).
  rewrite T1 in Dm. pose proof (den_up _ a2 _ _ _ Da _ _ eq_refl) as Da2.
  destruct (bin_node a2 (length (tens s)) (S (length (tens s))) Op2Add _ _ sh Da2 Dm) as (a3 & _ & E3 & S3 & M3 & Ddb & V3). rewrite T2 in Ddb.
  assert (T3 : length (tens a3) = knb) by (rewrite E3; cbn [add tens]; rewrite app_length, T2; unfold kdb, knb; cbn; lia).
  pose proof (den_up _ a1 _ _ _ D2 _ _ eq_refl) as D2a. pose proof (den_up _ a2 _ _ _ D2a _ _ eq_refl) as D2b. pose proof (den_up _ a3 _ _ _ D2b _ _ E3) as D2c.
  destruct (bin_node a3 bias kdb Op2Add _ _ sh D2c Ddb) as (a4 & _ & E4 & S4 & M4 & Dnb & V4). rewrite T3 in Dnb.
  assert (Ek : k4 = a4) by (rewrite E4, E3; reflexivity). rewrite Ek.
  destruct (tri_build _ _ _ _ Dnb) as (s' & W & C & nnb & EB & (new & SG & HX) & HW & HL & Hnb & Hbel). exists s'. split; [exact EB|].
  pose proof (den_up _ a3 _ _ _ Da2 _ _ E3) as Da3. pose proof (den_up _ a4 _ _ _ Da3 _ _ E4) as Da4. pose proof (den_up _ a4 _ _ _ Ddb _ _ E4) as Ddb4.
  assert (K2 : tens a4 !! knb = Some (MkNode (KOp2 bias kdb Op2Add) empty_mat)) by (rewrite E4, <- T3; apply add_last).
  assert (K1 : tens a4 !! kdb = Some (MkNode (KOp2 kda (S kda) Op2Add) empty_mat)).
  { rewrite E4. cbn [add tens]. rewrite lookup_app_l by (rewrite T3; unfold kdb, knb; lia). rewrite E3, <- T2. apply add_last. }
  assert (K0 : tens a4 !! kda = Some (MkNode (KOpScalar dif (Some al) Op2Mul) empty_mat)).
  { rewrite E4, E3. cbn [add tens a2 a1]. unfold kda. rewrite <- !app_assoc. apply list_lookup_middle. reflexivity. }
  assert (B2 : below (view a4) knb kdb) by (eapply below_view; [exact K2|reflexivity| |apply B_refl]; cbn [nkind children]; right; left).
  assert (B1 : below (view a4) knb kda). { eapply below_view; [exact K2|reflexivity|cbn [nkind children]; right; left|]. eapply below_view; [exact K1|reflexivity|cbn [nkind children]; left|apply B_refl]. }
  destruct (Hbel _ _ _ B1 (dn_den _ _ _ _ Da4) (dn_sh _ _ _ _ Da4)) as (nda & Hnda & Hvda). destruct (Hbel _ _ _ B2 (dn_den _ _ _ _ Ddb4) (dn_sh _ _ _ _ Ddb4)) as (ndb & Hndb & Hvdb).
  assert (Em : mem a4 = mem s) by (rewrite E4, E3; reflexivity).
  assert (S04 : seg nowhere s a4 [] []) by (eapply seg_still; [eapply seg_still; [eapply seg_still; [exact S1|exact S2]|exact S3]|exact S4]).
  assert (Hv : forall m e, evals a4 m e = evals s m e) by (intros; rewrite V4, V3, V2, V1; reflexivity).
  destruct (BuildGraph_grows _ _ _ _ EB) as [[_ _ HG] _].
  assert (HO : forall j n k, tens a4 !! j = Some (MkNode k empty_mat) -> opk k -> node_ok s' j n sh -> owned (length (mem s)) (length (mem s')) n).
  { intros j n k Hj Hk (Hn & Hs & _). rewrite <- Em. destruct (HG _ _ Hj eq_refl Hk) as (n' & Hn' & [->|[_ O]]); [|congruence]. assert (n = MkNode k empty_mat) as -> by congruence. destruct Hs as [Hs|Hs]; [cbn in Hs; subst k; destruct Hk|discriminate Hs]. }
  exists W, C, nda, ndb, nnb. split; [|split; [|split]].
  - assert (HT : tri a4 s' W C biasP (biasR nda ndb nnb)).
    { exists new. split; [exact SG|]. intros m Hlm HC HP. pose proof (sg_len _ _ _ _ _ SG) as Lg.
      destruct (node_ok_total _ _ _ _ m Hd) as (vd & Fd & _); [rewrite <- Em; lia|]. destruct (node_ok_total _ _ _ _ m Hb) as (vb & Fb & _); [rewrite <- Em; lia|]. destruct (node_ok_total _ _ _ _ m Hm) as (vm & Fm & _); [rewrite <- Em; lia|].
      assert (Lm : length (mem s) <= length m) by (rewrite <- Em; lia). destruct (lookup_lt_is_Some_2 m al ltac:(lia)) as [a Ga]. destruct (lookup_lt_is_Some_2 m mo ltac:(lia)) as [b Gb].
      destruct (HP _ _ _ _ _ Fd Fb Fm Ga Gb) as (da & bm & db & Q1 & Q2 & Q3 & Q4).
      assert (X1 : evals a4 m (EScal (bop Op2Mul) (ELeaf dif) al) = Some da).
      { rewrite Hv. change (evals s m (EScal (bop Op2Mul) (ELeaf dif) al)) with (x ← evals s m (ELeaf dif); y ← m !! al; v_scal (bop Op2Mul) x y). rewrite (node_ok_eval _ _ _ _ m Hd), Fd, Ga. exact Q1. }
      assert (X2 : evals a4 m (EScal (bop Op2Mul) (ELeaf mb) mo) = Some bm).
      { rewrite Hv. change (evals s m (EScal (bop Op2Mul) (ELeaf mb) mo)) with (x ← evals s m (ELeaf mb); y ← m !! mo; v_scal (bop Op2Mul) x y). rewrite (node_ok_eval _ _ _ _ m Hm), Fm, Gb. exact Q2. }
      assert (X3 : evals a4 m (EBin (bop Op2Add) (EScal (bop Op2Mul) (ELeaf dif) al) (EScal (bop Op2Mul) (ELeaf mb) mo)) = Some db).
      { change (evals a4 m (EBin (bop Op2Add) (EScal (bop Op2Mul) (ELeaf dif) al) (EScal (bop Op2Mul) (ELeaf mb) mo))) with (x ← evals a4 m (EScal (bop Op2Mul) (ELeaf dif) al); y ← evals a4 m (EScal (bop Op2Mul) (ELeaf mb) mo); v_bin (bop Op2Add) x y). rewrite X1, X2. exact Q3. }
      assert (X4 : evals a4 m (EBin (bop Op2Add) (ELeaf bias) (EBin (bop Op2Add) (EScal (bop Op2Mul) (ELeaf dif) al) (EScal (bop Op2Mul) (ELeaf mb) mo))) = v_bin BAdd vb db).
      { change (evals a4 m (EBin (bop Op2Add) (ELeaf bias) (EBin (bop Op2Add) (EScal (bop Op2Mul) (ELeaf dif) al) (EScal (bop Op2Mul) (ELeaf mb) mo)))) with (x ← evals a4 m (ELeaf bias); y ← evals a4 m (EBin (bop Op2Add) (EScal (bop Op2Mul) (ELeaf dif) al) (EScal (bop Op2Mul) (ELeaf mb) mo)); v_bin (bop Op2Add) x y).
        rewrite X3, Hv, (node_ok_eval _ _ _ _ m Hb), Fb. reflexivity. }
      destruct (HX m Hlm HC) as (m' & Ex & Hr & HR). { rewrite X4. exact Q4. }
      exists m'. split; [exact Ex|]. split; [exact Hr|]. intros vd' vb' vm' a' b' F1 F2 F3 F4 F5. assert (vd' = vd) as -> by congruence. assert (vb' = vb) as -> by congruence. assert (vm' = vm) as -> by congruence. assert (a' = a) as -> by congruence. assert (b' = b) as -> by congruence.
      exists da, bm, db. repeat (split; [assumption|]). split; [rewrite (Hvda m m' new SG Hlm HC Ex); exact X1|]. split; [rewrite (Hvdb m m' new SG Hlm HC Ex); exact X3|]. rewrite HR. exact X4. }
    pose proof (tri_after _ _ _ _ _ _ _ _ S04 HT ltac:(intros c0 Hc; inversion Hc)) as HT'. exact HT'.
  - intros l Hl. rewrite <- Em. apply HW, Hl.
  - rewrite HL, E4. cbn [add tens]. rewrite app_length, T3. cbn [length]. lia.
  - split; [split; [exact Hnda|eapply HO; [exact K0|exact I|exact Hnda]]|]. split; [split; [exact Hndb|eapply HO; [exact K1|exact I|exact Hndb]]|]. split; [exact Hnb|eapply HO; [exact K2|exact I|exact Hnb]].
Qed.

(** ** New momentum of the bias, old momentum of the weights *)
Variables (mw : nat) (nw : node T) (shw : list N).
Hypotheses (Hw : node_ok s mw nw shw) (Hndm : NoDup (operands (nmat nm))).
Hypothesis Hsep : forall l, Some l ∈ operands (nmat nm) -> Some l ∉ operands (nmat nw) /\ l <> mo.
Definition kerP m : Prop := biasP m /\ forall vw b, mval m (nmat nw) = Some vw -> m !! mo = Some b -> v_scal BMul vw b <> None.
Definition kerR (nda nnb nwm : node T) m m' : Prop := forall vd vb vm vw a b, mval m (nmat nd) = Some vd -> mval m (nmat nbi) = Some vb -> mval m (nmat nm) = Some vm -> mval m (nmat nw) = Some vw -> m !! al = Some a -> m !! mo = Some b ->
  exists da bm db, v_scal BMul vd a = Some da /\ v_scal BMul vm b = Some bm /\ v_bin BAdd da bm = Some db /\
    mval m' (nmat nda) = Some da /\ mval m' (nmat nm) = Some db /\ mval m' (nmat nnb) = v_bin BAdd vb db /\ mval m' (nmat nwm) = v_scal BMul vw b.

Lemma v_bin_sh o (x y v : vten T) : v_bin o x y = Some v -> vsh v = vsh x.
Proof using Type. unfold v_bin, tabulate. intros E. apply bind_Some in E as (l & _ & E). injection E as <-. reflexivity. Qed.
Lemma node_same s1 t n n' sh1 sh2 : node_ok s1 t n sh1 -> node_ok s1 t n' sh2 -> n = n'.
Proof using Type. intros (A & _) (B & _). congruence. Qed.

Lemma ker_build : exists s5 s6 s7 W C nda nnb nwm, Build knb k4 = (Ok tt, s5) /\ Transfer kdb mb s5 = (Ok tt, s6) /\
  Build (length (tens s6)) (add s6 (KOpScalar mw (Some mo) Op2Mul) empty_mat) = (Ok tt, s7) /\
  tri s s7 W C kerP (kerR nda nnb nwm) /\ (forall l, W l -> length (mem s) <= l \/ Some l ∈ operands (nmat nm)) /\
  (node_ok s7 kda nda sh /\ owned (length (mem s)) (length (mem s6)) nda) /\ (node_ok s7 knb nnb sh /\ owned (length (mem s)) (length (mem s6)) nnb) /\
  (node_ok s7 (length (tens s6)) nwm shw /\ owned (length (mem s6)) (length (mem s7)) nwm) /\ length (mem s) <= length (mem s6) /\
  forall c0 : nat * T, c0 ∈ C -> Some (fst c0) ∉ operands (nmat nwm).
Proof using All.
  destruct bias_build as (s5 & E5 & W5 & C5 & nda & ndb & nnb & T5 & HW5 & L5 & [Hda Oda] & [Hdb Odb] & [Hnb Onb]).
  pose proof (tri_len _ _ _ _ _ _ T5) as M5. destruct (node_ok_keep _ _ _ _ _ Hm (tri_keep _ _ _ _ _ _ T5) M5) as (nm5 & Hm5 & Om5 & Vm5). destruct (node_ok_keep _ _ _ _ _ Hw (tri_keep _ _ _ _ _ _ T5) M5) as (nw5 & Hw5 & Ow5 & Vw5).
  destruct (tri_transfer s5 kdb mb ndb nm5 sh sh Hdb Hm5 eq_refl) as (s6 & E6 & M6 & T6); [rewrite Om5; exact Hndm| |].
  { intros l Hl. rewrite Om5. intros Hx. apply (owned_in _ _ _ _ Odb) in Hl. apply (node_ok_lt _ _ _ _ _ Hm) in Hx. lia. }
  assert (M6' : length (mem s5) <= length (mem s6)) by (rewrite M6; lia).
  destruct (node_ok_keep _ _ _ _ _ Hda (tri_keep _ _ _ _ _ _ T6) M6') as (nda6 & Hda6 & Oda6 & Vda6). destruct (node_ok_keep _ _ _ _ _ Hnb (tri_keep _ _ _ _ _ _ T6) M6') as (nnb6 & Hnb6 & Onb6 & Vnb6).
  destruct (node_ok_keep _ _ _ _ _ Hw5 (tri_keep _ _ _ _ _ _ T6) M6') as (nw6 & Hw6 & Ow6 & Vw6).
  destruct (scal_build_own s6 mw nw6 shw mo Op2Mul Hw6) as (s7 & W7 & C7 & nwm & E7 & T7 & HW7 & L7 & Hwm & Owm & Cwm); [lia|].
  pose proof (tri_len _ _ _ _ _ _ T7) as M7.
  destruct (node_ok_keep _ _ _ _ _ Hda6 (tri_keep _ _ _ _ _ _ T7) M7) as (nda7 & Hda7 & Oda7 & Vda7). destruct (node_ok_keep _ _ _ _ _ Hnb6 (tri_keep _ _ _ _ _ _ T7) M7) as (nnb7 & Hnb7 & Onb7 & Vnb7).
  assert (Hc6 : forall c0 : nat * T, c0 ∈ C5 -> Some (fst c0) ∉ operands (nmat nm5)).
  { intros c0 Hc0. destruct (tri_C _ _ _ _ _ _ _ T5 Hc0) as ([X _] & _). rewrite Om5. intros Hx. apply (node_ok_lt _ _ _ _ _ Hm) in Hx. lia. }
  pose proof (tri_seq _ _ _ _ _ _ _ _ _ _ _ T5 T6 Hc6) as T56. pose proof (tri_seq _ _ _ _ _ _ _ _ _ _ _ T56 T7 (fresh_seq _ _ _ _ _ _ _ _ _ _ _ T56 T7 HW7)) as T57.
  assert (HOwn : forall n n6 n7 : node T, owned (length (mem s)) (length (mem s5)) n -> operands (nmat n6) = operands (nmat n) -> operands (nmat n7) = operands (nmat n6) -> owned (length (mem s)) (length (mem s6)) n7).
  { intros n n6 n7 (x & k & Ex & X1 & X2) Y1 Y2. exists x, k. split; [congruence|]. rewrite M6. auto. }
  eexists s5, s6, s7, _, _, nda7, nnb7, nwm. split; [exact E5|]. split; [exact E6|]. split; [exact E7|]. split; [|split; [|split; [|split; [|split]]]].
  - eapply tri_post; [exact T57| |]; cbn beta.
    + intros m Hlm _ [HP1 HP2]. split; [split; [exact HP1|intros; exact I]|]. intros m2 R2 (m1 & R1 & _ & R2' & _) v x Hv Hx. apply HP2.
      * rewrite <- Hv, Vw6, Vw5. symmetry. apply (ran_val _ _ _ _ R2). intros l Hl [Hy|Hy]; [apply HW5 in Hy; apply (node_ok_lt _ _ _ _ _ Hw) in Hl; lia|]. rewrite Om5 in Hy. exact (proj1 (Hsep _ Hy) Hl).
      * rewrite <- Hx. symmetry. apply (ran_cell _ _ _ _ R2). intros [Hy|Hy]; [apply HW5 in Hy; lia|]. rewrite Om5 in Hy. exact (proj2 (Hsep _ Hy) eq_refl).
    + intros m m' Hlm _ [HP1 HP2] _ (m2 & R2 & (m1 & R1 & HR1 & R12 & HR2) & R23 & HR3). intros vd vb vm vw a b F1 F2 F3 F4 F5 F6. destruct (HR1 _ _ _ _ _ F1 F2 F3 F5 F6) as (da & bm & db & Q1 & Q2 & Q3 & Q4 & Q5 & Q6).
      exists da, bm, db. repeat (split; [assumption|]).
      assert (St : forall (n n6 n7 : node T) v, owned (length (mem s)) (length (mem s5)) n -> (forall m0 : list T, mval m0 (nmat n6) = mval m0 (nmat n)) -> (forall m0 : list T, mval m0 (nmat n7) = mval m0 (nmat n6)) -> mval m1 (nmat n) = v -> mval m' (nmat n7) = v).
      { intros n n6 n7 v O Y1 Y2 Y3. rewrite Y2, Y1, (ran_val _ _ _ (nmat n) R23), (ran_val _ _ _ (nmat n) R12); [exact Y3| |].
        - intros l Hl Hy. apply (owned_in _ _ _ _ O) in Hl. rewrite Om5 in Hy. apply (node_ok_lt _ _ _ _ _ Hm) in Hy. lia.
        - intros l Hl Hy. apply (owned_in _ _ _ _ O) in Hl. apply HW7 in Hy. rewrite M6 in Hy. lia. }
      split; [exact (St nda nda6 nda7 _ Oda Vda6 Vda7 Q4)|]. split.
      * rewrite (ran_val _ _ _ (nmat nm) R23) by (intros l Hl Hy; apply (node_ok_lt _ _ _ _ _ Hm) in Hl; apply HW7 in Hy; lia). rewrite <- Vm5, (HR2 _ Q5). f_equal.
        assert (vsh db = sh) as <-; [|destruct db; reflexivity]. rewrite (v_bin_sh _ _ _ _ Q3). destruct (node_ok_total _ _ _ _ m Hd) as (v1 & G1 & G2 & _); [rewrite M6 in *; lia|].
        unfold v_scal in Q1. apply bind_Some in Q1 as (z & _ & Q1). injection Q1 as <-. cbn [vsh]. congruence.
      * split; [exact (St nnb nnb6 nnb7 _ Onb Vnb6 Vnb7 Q6)|]. destruct HR3 as (v & x & Y1 & Y2 & ->). cbn [bop].
        assert (Z1 : mval m2 (nmat nw) = mval m (nmat nw)).
        { apply (ran_val _ _ _ _ R2). intros l Hl [Hy|Hy]; [apply HW5 in Hy; apply (node_ok_lt _ _ _ _ _ Hw) in Hl; lia|]. rewrite Om5 in Hy. exact (proj1 (Hsep _ Hy) Hl). }
        assert (Z2 : m2 !! mo = m !! mo). { apply (ran_cell _ _ _ _ R2). intros [Hy|Hy]; [apply HW5 in Hy; lia|]. rewrite Om5 in Hy. exact (proj2 (Hsep _ Hy) eq_refl). }
        rewrite Vw6, Vw5, Z1 in Y1. f_equal; congruence.
  - intros l [[Hl|Hl]|Hl]; [left; auto|right; rewrite <- Om5; exact Hl|left; apply HW7 in Hl; lia].
  - split; [exact Hda7|exact (HOwn nda nda6 nda7 Oda Oda6 Oda7)].
  - split; [exact Hnb7|exact (HOwn nnb nnb6 nnb7 Onb Onb6 Onb7)].
  - split; [exact Hwm|exact Owm].
  - split; [lia|]. intros c0 Hc0 Hx. apply elem_of_app in Hc0 as [Hc0|Hc0]; [|exact (Cwm _ Hc0 Hx)]. apply elem_of_app in Hc0 as [Hc0|Hc0]; [|inversion Hc0].
    apply (owned_in _ _ _ _ Owm) in Hx. destruct (tri_C _ _ _ _ _ _ _ T5 Hc0) as ([_ Y] & _). lia.
Qed.
End Bias.
End TrnBias.
