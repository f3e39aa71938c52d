(** * FwdConv2: the loops of the convolution layer and the layer itself *)
From Verif Require Import Base Num ModelTools ModelOps ModelTensor ModelGraph ModelLayer Spec Denote NetSpec FwdSpec
  IndexProofs ExecProofs TensorFacts AccessProofs BuildProofs BuildFrame CompileProofs EagerOps Agree FwdMask FwdBuild FwdSeg FwdOps FwdPool NetExec NetBuild NetChain FwdBody FwdExpr FwdConv.
From Verif Require TransferProofs.
From Coq Require Import Lia ZifyBool ZifyNat ZifyN.

Section FwdConv2.
Context {T : Type} `{Num T}.
Notation inr := (Forall2 (fun i d => (i < d)%N)).

Lemma mfor_inv {A} (P : list A -> tst T -> Prop) (f : A -> TM T unit) (l : list A) s :
  P [] s -> (forall pre x post s, l = pre ++ x :: post -> P pre s -> exists s', f x s = (Ok tt, s') /\ P (pre ++ [x]) s') ->
  exists s', mfor l f s = (Ok tt, s') /\ P l s'.
Proof using Type.
  intros H0 Hs. assert (G : forall post pre s, l = pre ++ post -> P pre s -> exists s', mfor post f s = (Ok tt, s') /\ P l s').
  { induction post as [|x post IH]; intros pre s0 E HP.
    - rewrite app_nil_r in E. subst. exists s0. auto.
    - destruct (Hs pre x post s0 E HP) as (s1 & E1 & P1). destruct (IH (pre ++ [x]) s1) as (s2 & E2 & P2); [rewrite <- app_assoc; exact E|exact P1|].
      exists s2. split; [|exact P2]. cbn [mfor]. erewrite mbnd_ok by exact E1. exact E2. }
  apply (G l []); auto.
Qed.
Lemma upto_split n pre (x : N) post : upto n = pre ++ x :: post -> (x < n)%N /\ x ∉ pre.
Proof using Type.
  intros E. split.
  - apply elem_of_upto. rewrite E. apply elem_of_app. right. left.
  - assert (Hn : NoDup (upto n)). { unfold upto. apply NoDup_fmap_2; [intros a b; lia|apply NoDup_seq]. }
    rewrite E in Hn. apply NoDup_app in Hn as (_ & Hn & _). intros Hx. apply (Hn x Hx). left.
Qed.
Lemma indices3 a b d : indices [a; b; d] = flat_map (fun F => flat_map (fun X => map (fun Y => [F; X; Y]) (upto d)) (upto b)) (upto a).
Proof using Type.
  cbn [indices]. apply flat_map_ext. intros F.
  assert (E3 : flat_map (fun i => map (cons i) [[]]) (upto d) = map (fun Y : N => [Y]) (upto d)).
  { induction (upto d) as [|y l IH]; [reflexivity|]. cbn. f_equal. }
  rewrite E3. clear E3. induction (upto b) as [|x l IH]; [reflexivity|]. cbn [flat_map]. rewrite map_app, IH. f_equal.
  rewrite !map_map. reflexivity.
Qed.

(** ** Copying the bias *)
Lemma transfer_seg (s : tst T) f t nf nt : tens s !! f = Some nf -> settled nf -> tens s !! t = Some nt -> settled nt ->
  Forall (valid (length (mem s))) (operands (nmat nf)) -> Forall (valid (length (mem s))) (operands (nmat nt)) ->
  length (operands (nmat nf)) = length (operands (nmat nt)) -> NoDup (operands (nmat nt)) ->
  (forall l, Some l ∈ operands (nmat nf) -> Some l ∉ operands (nmat nt)) ->
  exists s' new, Transfer f t s = (Ok tt, s') /\ mem s' = mem s /\ seg (fun l => Some l ∈ operands (nmat nt)) s s' new [] /\
    forall m, length (mem s) <= length m -> exists m', exec new m = Some m' /\ rds m' (operands (nmat nt)) = rds m (operands (nmat nf)).
Proof using Type.
  intros Hf Hsf Ht Hst Vf Vt Hl Hnd Hdis.
  assert (Hrf : TransferProofs.read_first (operands (nmat nf)) (operands (nmat nt))).
  { intros i j p Hij Hi Hj. rewrite Forall_lookup in Vf. destruct (Vf _ _ Hj) as (l & -> & _).
    apply (Hdis l); eapply elem_of_list_lookup_2; eassumption. }
  destruct (TransferProofs.transfer_settled s f t nf nt Hf Ht Hsf Hst Vf Vt Hl Hnd Hrf) as (s' & new & E & Em & Ec & Hk & Hx).
  exists s', new. split; [exact E|]. split; [exact Em|]. split.
  - split; [exists []; rewrite Em, app_nil_r; reflexivity|exact Ec| |constructor| |].
    + intros m m' l Hm Hx' Hno. rewrite Em in Hm. destruct (Hx m Hm) as (m2 & Hx2 & _ & Hfr). assert (m' = m2) as -> by congruence. apply Hfr. exact Hno.
    + intros l Hin. rewrite Em. rewrite Forall_forall in Vt. destruct (Vt _ Hin) as (l' & [= <-] & Hlt). exact Hlt.
    + intros j n Hn. destruct (Hk _ _ Hn) as (n' & Hn' & K1 & K2 & K3 & K4). exists n'. split; [exact Hn'|]. split; [exact K1|]. split; [|auto].
      unfold Transfer, CopyTo in E. cbv beta in E. erewrite mbnd_ok in E by reflexivity.
      unfold Build in E. pose proof (BuildGraph_within (S (length (tens s))) (length (tens s)) _ _ _ E) as (_ & _ & _ & K). cbn [tens] in K.
      destruct (K j n) as (n2 & Hn2 & _ & Hb); [apply lookup_app_l_Some; exact Hn|]. assert (n2 = n') as -> by congruence. exact Hb.
  - intros m Hm. destruct (Hx m Hm) as (m' & Hx' & Hr & _). eauto.
Qed.

(** ** The loops *)
Section Loop.
Variables (t0 : tst T) (inp weights neta : nat) (ni nw nn : node T) (nf c w h kw kh sx sy : N).
Notation mi := (nmat ni). Notation mw := (nmat nw). Notation mn := (nmat nn).
Hypotheses (Hti : tens t0 !! inp = Some ni) (Hsi : settled ni) (Hwi : wf_mat (length (mem t0)) mi) (Hshi : shape mi = [c; w; h]).
Hypotheses (Htw : tens t0 !! weights = Some nw) (Hsw : settled nw) (Hww : wf_mat (length (mem t0)) mw) (Hshw : shape mw = [nf; c; kw; kh]).
Hypotheses (Htn : tens t0 !! neta = Some nn) (Hsn : settled nn) (Hwn : wf_mat (length (mem t0)) mn) (Hshn : shape mn = conv_shape nf kw kh sx sy w h) (Hnd : NoDup (operands mn)).
Hypothesis Hdi : forall l, Some l ∈ operands mn -> Some l ∉ operands mi.
Hypothesis Hdw : forall l, Some l ∈ operands mn -> Some l ∉ operands mw.
Hypotheses (Hkw : (0 < kw <= w)%N) (Hkh : (0 < kh <= h)%N) (Hsx : (0 < sx)%N) (Hsy : (0 < sy)%N).
Notation CI := (cinv t0 ni nw nn kw kh sx sy).
Notation RO := (rowok ni nn c h kw sx).

Lemma row_start t done new C W X : CI t done new C W -> (X < (w - kw) / sx + 1)%N ->
  exists t' row, SubExtendedTensor inp 1 (umul X sx) (uadd (umul X sx) kw) t = (Ok row, t') /\ CI t' done new C W /\ RO t' new C row X.
Proof using All.
  intros [Sg HW Hdone Hval] HX. pose proof (pos_lt kw sx w X Hkw Hsx HX) as HXk.
  assert (Hfi : fits [c; w; h]) by (rewrite <- Hshi; apply Hwi).
  assert (HwW : (w < W64)%N) by (destruct Hfi as [Hf _]; rewrite !Forall_cons in Hf; tauto).
  assert (Eo : umul X sx = (X * sx)%N) by (apply umul_small; nia).
  rewrite Eo, uadd_small by lia.
  destruct (node_step t (KSub inp 1 (X * sx) (X * sx + kw) true) empty_mat eq_refl ltac:(discriminate)) as (t1 & E1 & S1 & Em1 & Et1 & Ec1 & G1 & V1).
  destruct (sg_keep _ _ _ _ _ Sg _ _ Hti) as (ni' & Hti' & Hki' & Hbi' & Hsi'). destruct (Hsi' Hsi) as (Ei1 & Ei2 & Ei3).
  pose proof (keeps_settled _ _ Hki' Hbi' Hsi) as Hseti'. pose proof (sg_len _ _ _ _ _ Sg) as Hlen0.
  assert (Hwfi' : wf_mat (length (mem t)) (nmat ni')) by (eapply wf_kept; try eassumption; eapply wf_mat_mono; eassumption).
  pose proof (den_leaf _ _ _ Hti' Hseti' Hwfi') as Hd0. rewrite Ei1, Hshi in Hd0.
  exists t1, (length (tens t)). split; [exact E1|]. pose proof (seg_app _ _ _ _ _ _ _ _ _ Sg S1 ltac:(intros ? ? [])) as S01. rewrite !app_nil_r in S01. split.
  - split; [|exact HW|exact Hdone|rewrite Em1; exact Hval].
    eapply seg_weaken; [exact S01|intros l [Hl|[]]; exact Hl|rewrite Em1; exact (sg_W _ _ _ _ _ Sg)|].
    intros c0 Hc0. destruct (proj1 (Forall_forall _ _) (sg_const _ _ _ _ _ Sg) c0 Hc0) as (_ & _ & Hc). exact Hc.
  - exists (ESubX (ELeaf inp) 1 (X * sx) (X * sx + kw)). split.
    + eapply den_un; [exact Et1|exact Em1|reflexivity|discriminate|reflexivity|exact Hd0|..].
      * intros Hv Hlt Hde. change 1 with (N.to_nat 1). econstructor; [exact Hv|exact Hlt|exact Hde].
      * pose proof (dn_sh _ _ _ _ Hd0) as Hs0. cbn [shape_of] in Hs0 |- *. rewrite Hs0. cbn [mbind option_bind lookup list_lookup insert list_insert].
        replace (((X * sx <? X * sx + kw) && (X * sx + kw <? W64))%N) with true by lia. replace (X * sx + kw - X * sx)%N with kw by lia. unfold fit.
        rewrite (proj2 (fitsb_fits _)); [reflexivity|]. eapply fits_le3; [exact Hfi|lia..].
      * split; [exact I|]. intros sh0 m0 Hs0 Hm0. rewrite (dn_sh _ _ _ _ Hd0) in Hs0. injection Hs0 as <-. cbn in Hm0. injection Hm0 as <-. left. exact HXk.
    + intros m m' vx Hm HC Hvx Hx. rewrite Em1 in Hm.
      assert (Hvx' : mval m' mi = Some vx).
      { rewrite <- Hvx. apply mval_off. intros l Hl. eapply (sg_frame _ _ _ _ _ Sg); [exact Hm|exact Hx|]. intros Hw. apply HW in Hw as [Hw|Hw].
        - destruct Hwi as (_ & _ & _ & Hv). rewrite Forall_forall in Hv. destruct (Hv _ Hl) as (l' & [= <-] & Hlt). lia.
        - exact (Hdi _ Hw Hl). }
      assert (He : forall x, evals t1 x (ESubX (ELeaf inp) 1 (X * sx) (X * sx + kw)) = (v ← mval x mi; v_subx v 1 (X * sx) (X * sx + kw))).
      { intros x. rewrite V1. unfold evals. cbn [eval]. rewrite (leafv_settled _ _ _ _ Hti' Hseti'), (mval_kept _ _ _ Ei1 Ei3). reflexivity. }
      rewrite He, Hvx'. split; [reflexivity|]. intros l a Hl. rewrite !He. f_equal. rewrite <- Hvx'. apply mval_off.
      intros l0 Hl0. apply list_lookup_insert_ne. intros ->. exact (Hdi _ Hl Hl0).
Qed.

Lemma conv_ff_ok : exists t' new C W, conv_ff inp weights neta c (conv_shape nf kw kh sx sy w h) kw kh sx sy t0 = (Ok tt, t') /\ CI t' (indices (shape mn)) new C W.
Proof using All.
  unfold conv_ff. erewrite mbnd_ok by (apply get_mat_ok; exact Htn). cbn [nth conv_shape].
  set (ow := ((w - kw) / sx + 1)%N). set (oh := ((h - kh) / sy + 1)%N).
  set (cells := fun F => flat_map (fun X => map (fun Y => [F; X; Y]) (upto oh)) (upto ow)).
  assert (Hcl : forall F idx, idx ∈ cells F -> exists X Y, idx = [F; X; Y]).
  { intros F idx Hi. unfold cells in Hi. apply elem_of_list_In, in_flat_map in Hi as (X & _ & Hi). apply in_map_iff in Hi as (Y & <- & _). eauto. }
  destruct (mfor_inv (fun pre t => exists new C W, CI t (flat_map cells pre) new C W)
    (fun f => mfor (urange ow) (fun x => let offx := umul x sx in
      row <~ SubExtendedTensor inp 1 offx (uadd offx kw) ;
      mfor (urange oh) (fun y =>
        let offy := umul y sy in
        cell <~ SubExtendedTensor row 2 offy (uadd offy kh) ;
        w1 <~ SubTensor weights 0 f (uadd f 1) ;
        w2 <~ Reshape w1 [c; kw; kh] ;
        cw <~ NewOp2 cell w2 Op2Mul ;
        sum <~ TensorMath cw RSum ;
        Build sum ;~
        n <~ mlift (GetOperand mn [f; x; y]) ;
        ms <~ get_mat sum ;
        o <~ atM (operands ms) 0 ;
        push (OAdd n n o)))) (urange nf) t0) as (t' & E & new & C & W & P).
  - exists [], [], nowhere. split; [apply seg_refl|intros l []|intros idx Hi; inversion Hi|]. intros m vx vw _ _ _ _. cbn [mapM flat_map]. exists m. split; [reflexivity|].
    split; [intros k idx s Hk; rewrite lookup_nil in Hk; discriminate|auto].
  - intros preF F postF s EF (new & C & W & P). change (urange nf) with (upto nf) in EF. apply upto_split in EF as [HF HnF].
    change (urange ow) with (upto ow).
    destruct (mfor_inv (fun pre t => exists new C W, CI t (flat_map cells preF ++ flat_map (fun X => map (fun Y => [F; X; Y]) (upto oh)) pre) new C W)
      (fun x => let offx := umul x sx in
      row <~ SubExtendedTensor inp 1 offx (uadd offx kw) ;
      mfor (urange oh) (fun y =>
        let offy := umul y sy in
        cell <~ SubExtendedTensor row 2 offy (uadd offy kh) ;
        w1 <~ SubTensor weights 0 F (uadd F 1) ;
        w2 <~ Reshape w1 [c; kw; kh] ;
        cw <~ NewOp2 cell w2 Op2Mul ;
        sum <~ TensorMath cw RSum ;
        Build sum ;~
        n <~ mlift (GetOperand mn [F; x; y]) ;
        ms <~ get_mat sum ;
        o <~ atM (operands ms) 0 ;
        push (OAdd n n o))) (upto ow) s) as (s' & E & P').
    + exists new, C, W. cbn [flat_map]. rewrite app_nil_r. exact P.
    + intros preX X postX s1 EX (new1 & C1 & W1 & P1). apply upto_split in EX as [HX HnX]. cbv zeta.
      destruct (row_start s1 _ _ _ _ X P1 HX) as (s2 & row & E2 & P2 & R2). erewrite mbnd_ok by exact E2.
      change (urange oh) with (upto oh).
      destruct (mfor_inv (fun pre t => exists new C W, CI t ((flat_map cells preF ++ flat_map (fun X => map (fun Y => [F; X; Y]) (upto oh)) preX) ++ map (fun Y => [F; X; Y]) pre) new C W /\ RO t new C row X)
       (fun y =>
        let offy := umul y sy in
        cell <~ SubExtendedTensor row 2 offy (uadd offy kh) ;
        w1 <~ SubTensor weights 0 F (uadd F 1) ;
        w2 <~ Reshape w1 [c; kw; kh] ;
        cw <~ NewOp2 cell w2 Op2Mul ;
        sum <~ TensorMath cw RSum ;
        Build sum ;~
        n <~ mlift (GetOperand mn [F; X; y]) ;
        ms <~ get_mat sum ;
        o <~ atM (operands ms) 0 ;
        push (OAdd n n o)) (upto oh) s2) as (s3 & E3 & new3 & C3 & W3 & P3 & _).
      * exists new1, C1, W1. cbn [map]. rewrite app_nil_r. auto.
      * intros preY Y postY s4 EY (new4 & C4 & W4 & P4 & R4). apply upto_split in EY as [HY HnY].
        destruct (conv_piece t0 inp weights neta ni nw nn nf c w h kw kh sx sy Hti Hsi Hwi Hshi Htw Hsw Hww Hshw Htn Hsn Hwn Hshn Hnd Hdi Hdw Hkw Hkh Hsx Hsy
          s4 _ new4 C4 W4 row F X Y P4 R4 HF HX HY) as (s5 & new5 & C5 & W5 & E5 & P5 & R5).
        { rewrite !elem_of_app. intros [[Hi|Hi]|Hi].
          - apply elem_of_list_In, in_flat_map in Hi as (F' & HF' & Hi). apply elem_of_list_In, Hcl in Hi as (X' & Y' & [= -> -> ->]). apply HnF. apply elem_of_list_In. exact HF'.
          - apply elem_of_list_In, in_flat_map in Hi as (X' & HX' & Hi). apply in_map_iff in Hi as (Y' & [= -> ->] & _). apply HnX. apply elem_of_list_In. exact HX'.
          - apply elem_of_list_In, in_map_iff in Hi as (Y' & [= ->] & Hi). apply HnY. apply elem_of_list_In. exact Hi. }
        exists s5. split; [exact E5|]. exists new5, C5, W5. rewrite map_app, app_assoc. auto.
      * exists s3. split; [exact E3|]. exists new3, C3, W3. rewrite flat_map_app. cbn [flat_map]. rewrite app_nil_r, app_assoc. exact P3.
    + exists s'. split; [exact E|]. destruct P' as (new' & C' & W' & P'). exists new', C', W'. rewrite flat_map_app. cbn [flat_map]. rewrite app_nil_r. exact P'.
  - exists t', new, C, W. split; [exact E|]. rewrite Hshn. unfold conv_shape. rewrite indices3. exact P.
Qed.
End Loop.
End FwdConv2.
