(** * TrnDense: the training code of a dense layer *)
From Verif Require Import Base Num ModelTools ModelOps ModelTensor ModelGraph ModelLayer Spec NetSpec FwdSpec Denote
  IndexProofs ExecProofs TensorFacts AccessProofs BuildProofs BuildFrame CompileProofs Agree FwdMask FwdBuild FwdSeg FwdOps FwdPool NetBuild NetChain FwdBody FwdExpr FwdConv FwdConv2 FwdAct FwdTotal
  BwdSpec BwdPost BwdLoop BwdOps BwdOps2 BwdOps3 BwdOps4 TrnSpec TrnTri TrnOwn TrnExpr TrnSite TrnDer TrnXfer TrnBody TrnKind TrnBias TrnPar.
From Coq Require Import Lia ZifyBool ZifyNat ZifyN.

Section TrnDense.
Context {T : Type} `{Num T}.
Implicit Types (s : lst T) (m : list T) (c q : clay T) (cs rest : list (clay T)).

Lemma msize_wf n (M : tmat) : wf_mat n M -> msize M = prodN (shape M).
Proof using Type. intros (_ & _ & Hl & _). unfold msize, ulen. rewrite Hl. apply N2Nat.id. Qed.
(** The fields of the layer that are still to be set. *)
Lemma par_none s s' i l f : lays s !! i = Some l -> (forall g, parf g -> fid s i g = None) -> frame (own i) s s' -> parf f -> lten l f = None.
Proof using Type. intros Hl Hn _ Hf. rewrite <- (fid_lay _ _ _ _ Hl). auto. Qed.
Lemma frame_own s s1 i f sh t (l : layer T) : zset s s1 i f sh t l -> parf f -> frame (own i) s s1.
Proof using Type. intros [_ Hf _ _ _ _ _] Hp. eapply frame_trans; [exact Hf|apply (frame_refl (fun _ _ => False))|]. intros j g [[-> ->]|[]]. split; [reflexivity|exact Hp]. Qed.

Section Dense.
Variables (s0 s : lst T) (al mo : nat) (c : clay T) (rest : list (clay T)) (fuel : nat) (o : N) (f : T -> T).
Hypotheses (Hch : chain s0 (c :: rest)) (Hapt : apt s0 (c :: rest) al mo) (Hh : held s0 s) (Hk : c_l c = Some (SDense o f)).
Hypotheses (Hnone : forall g, parf g -> fid s (c_i c) g = None) (Hder : forall j, j ∈ dertop rest -> fid s j FDer = None) (Hfu : length rest <= fuel).

Lemma der_kept s' j : frame (own (c_i c)) s s' -> held s s' -> j ∈ dertop rest -> fid s' j FDer = None.
Proof using Hder.
  intros Hf Hhs Hj. rewrite <- (Hder j Hj). destruct (lays s !! j) as [l|] eqn:El; [eapply fid_frame; [exact Hf|exact El|]; intros [_ [E|[E|[E|E]]]]; discriminate E|].
  unfold fid. rewrite El. assert (lays s' !! j = None) as -> by (apply lookup_ge_None_2; rewrite (hd_num _ _ Hhs); apply lookup_ge_None_1; exact El). reflexivity.
Qed.
Lemma dense_body : exists s', bp_body fuel (c_i c) (Some al) (Some mo) s = (Ok tt, s') /\ body_post s0 al mo c rest s s'.
Proof using All.
  destruct (chain_head _ _ _ Hch) as (l & psh & Hsite & Hrest). destruct (site_held _ _ _ _ _ Hh Hsite) as (l' & Hlh & Hsite'). pose proof Hlh as (_ & _ & K3 & K4 & _ & K6).
  pose proof (ls_lay _ _ _ _ Hsite') as HL. assert (Hcn : c_l c <> None) by congruence. destruct (ls_io _ _ _ _ Hsite Hcn) as [Hoi Hoo]. destruct (ls_fit _ _ _ _ Hsite _ Hk) as [Hls Hfit]. cbn [lay_shape train_fit] in Hls, Hfit.
  destruct (ls_par _ _ _ _ Hsite _ Hk eq_refl) as (bs & ws & Eps & Hob & How). cbn [par_shape] in Eps. injection Eps as <- <-. set (n := prodN psh) in *.
  destruct (fitsb [o] && fitsb [o; n]) eqn:Efits; [|discriminate Hls]. injection Hls as Esh. apply andb_prop in Efits as [Fb Fw]. apply fitsb_fits in Fb. apply fitsb_fits in Fw.
  destruct (ls_dif _ _ _ _ Hsite) as [Hod _]. pose proof Hod as (td & nd0 & Hfd & _). assert (Hdf : lten l' FDif = fid s0 (c_i c) FDif). { rewrite <- (fid_lay _ _ _ _ HL), Hfd. exact (fid_held _ _ _ _ _ Hh Hfd). }
  destruct (field_ok _ _ _ _ _ Hh Hoi) as (ti & ni & _ & Hti & Hni & Hvi & Hci & _). destruct (field_ok _ _ _ _ _ Hh Hoo) as (to_ & no & _ & Hto & Hno & _ & _ & _).
  assert (Emi : msize (nmat ni) = n) by (rewrite (msize_wf _ _ (proj1 (proj2 (proj2 Hni)))); destruct Hni as (_ & _ & _ & ->); reflexivity).
  assert (Emo : msize (nmat no) = o). { rewrite (msize_wf _ _ (proj1 (proj2 (proj2 Hno)))). destruct Hno as (_ & _ & _ & ->). rewrite <- Esh. unfold prodN. cbn. lia. }
  destruct (field_ok _ _ _ _ _ Hh How) as (tw & nw & Hfw0 & Htw & Hnw & _). 
  (* the four tensors of zeros *)
  destruct (zero_step s (c_i c) FNWeights [o; n] l' HL) as (sa1 & s1 & t1 & A1 & B1 & Z1); [rewrite <- (fid_lay _ _ _ _ HL); apply Hnone; unfold parf; auto|exact Fw|].
  destruct (zero_step s1 (c_i c) FMWeights [o; n] _ (zs_lay _ _ _ _ _ _ _ Z1)) as (sa2 & s2 & t2 & A2 & B2 & Z2); [rewrite set_ten_ne by discriminate; rewrite <- (fid_lay _ _ _ _ HL); apply Hnone; unfold parf; auto|exact Fw|].
  destruct (zero_step s2 (c_i c) FNBias [o] _ (zs_lay _ _ _ _ _ _ _ Z2)) as (sa3 & s3 & t3 & A3 & B3 & Z3); [rewrite !set_ten_ne by discriminate; rewrite <- (fid_lay _ _ _ _ HL); apply Hnone; unfold parf; auto|exact Fb|].
  destruct (zero_step s3 (c_i c) FMBias [o] _ (zs_lay _ _ _ _ _ _ _ Z3)) as (sa4 & s4 & t4 & A4 & B4 & Z4); [rewrite !set_ten_ne by discriminate; rewrite <- (fid_lay _ _ _ _ HL); apply Hnone; unfold parf; auto|exact Fb|].
  pose proof (zs_held _ _ _ _ _ _ _ Z1) as h1. pose proof (zs_held _ _ _ _ _ _ _ Z2) as h2. pose proof (zs_held _ _ _ _ _ _ _ Z3) as h3. pose proof (zs_held _ _ _ _ _ _ _ Z4) as h4.
  pose proof (zs_len _ _ _ _ _ _ _ Z1) as l1. pose proof (zs_len _ _ _ _ _ _ _ Z2) as l2. pose proof (zs_len _ _ _ _ _ _ _ Z3) as l3. pose proof (zs_len _ _ _ _ _ _ _ Z4) as l4.
  pose proof (held_trans _ _ _ Hh (held_trans _ _ _ h1 h2)) as h02. pose proof (held_trans _ _ _ h1 (held_trans _ _ _ h2 (held_trans _ _ _ h3 h4))) as hs4. pose proof (held_trans _ _ _ Hh hs4) as h04.
  assert (f4 : frame (own (c_i c)) s s4).
  { assert (P4 : forall j g, own (c_i c) j g \/ own (c_i c) j g -> own (c_i c) j g) by tauto.
    eapply frame_trans; [apply (frame_own _ _ _ _ _ _ _ Z1); unfold parf; auto| |exact P4]. eapply frame_trans; [apply (frame_own _ _ _ _ _ _ _ Z2); unfold parf; auto| |exact P4].
    eapply frame_trans; [apply (frame_own _ _ _ _ _ _ _ Z3); unfold parf; auto|apply (frame_own _ _ _ _ _ _ _ Z4); unfold parf; auto|exact P4]. }
  pose proof (tri_then _ _ _ _ _ _ _ _ (tri_then _ _ _ _ _ _ _ _ (tri_then _ _ _ _ _ _ _ _ (tri_quiet _ _ _ (zs_seg _ _ _ _ _ _ _ Z1)) (zs_con _ _ _ _ _ _ _ Z2)) (zs_seg _ _ _ _ _ _ _ Z3)) (zs_con _ _ _ _ _ _ _ Z4)) as T4.
  destruct (field_ok _ _ _ _ _ h02 Hob) as (tb & nb2 & _ & Htb & Hnb2 & _).
  (* the errors *)
  assert (Hder4 : forall j, j ∈ dertop rest -> fid s4 j FDer = None) by (intros j Hj; exact (der_kept s4 j f4 hs4 Hj)).
  set (inner := fun e => match lpre l' with
      | Some q =>
          der <~ LBuildDer fuel q ;
          pd <~ GetDif q ; pdif <~ the pd ;
          liftT (Build pdif) ;~
          liftT (md <~ get_mat e ; mw <~ get_mat tw ;
                 mder <~ get_mat der ; mp <~ get_mat pdif ;
                 mfor (urange (msize (nmat ni))) (dense_input_bp (msize (nmat no)) md mw mder mp))
      | None => mret tt
      end : LM T unit).
  assert (HM : exists e sa sb s5 ne W C, shared_dif l' s4 = (Ok e, sa) /\ liftT (Build e) sa = (Ok tt, sb) /\ inner e sb = (Ok tt, s5) /\ mid_post s0 c rest s4 s5 e ne W C).
  { destruct rest as [|q r].
    - destruct (share_mid _ _ _ _ _ l' Hsite h04 Hdf K4) as (e & sa & sb & ne & W & C & E1 & E2 & HM). exists e, sa, sb, sb, ne, W, C. split; [exact E1|]. split; [exact E2|]. split; [|exact HM]. unfold inner. rewrite K3. destruct Hrest as [-> _]. reflexivity.
    - destruct Hrest as (Eps & Hp & _). subst psh.
      destruct (in_par s0 s4 c q r l l' fuel al mo (fun md mw mder mp => mfor (urange n) (dense_input_bp o md mw mder mp)) g_dense_in [o; n] tw true Hch Hapt Hsite h04 Hdf K4) as (e & sa & sb & t & sc & p & sd & s5 & ne & W & C & E1 & E2 & E3 & E4 & E5 & E6 & HI).
      + exact Hder4.
      + exact Hfu.
      + unfold shares. rewrite Hk. reflexivity.
      + intros R a psh e. unfold g_in. rewrite Hk. reflexivity.
      + exact How.
      + exact Hfw0.
      + intros t0 md mw mder mp w1 w2 w3 w4 e1 e2 e3 e4 nd d1 d2 d3. apply dense_in_does; try assumption; [congruence|rewrite (msize_wf _ _ w3), e3; reflexivity|rewrite (msize_wf _ _ w4), e4; reflexivity|lia].
      + exists e, sa, sb, s5, ne, W, C. split; [exact E1|]. split; [exact E2|]. split; [|apply in_mid; exact HI]. unfold inner. rewrite K3, Hp. rewrite (mbnd_ok _ _ _ _ _ E3), (mbnd_ok _ _ _ _ _ E4). erewrite mbnd_ok by reflexivity. rewrite (mbnd_ok _ _ _ _ _ E5), Emi, Emo. exact E6. }
  destruct HM as (e & sa & sb & s5 & ne & W & C & E1 & E2 & E3 & HM). pose proof HM as [m1 m2 m3 m4 m5 m6].
  pose proof (held_trans _ _ _ h4 m1) as h35. pose proof (held_trans _ _ _ h3 h35) as h25. pose proof (held_trans _ _ _ h2 h25) as h15. pose proof (held_trans _ _ _ h04 m1) as h05.
  destruct (zset_field _ _ s5 _ _ _ _ _ Z1 h15) as (n1 & f1 & N1 & D1 & R1 & _). destruct (zset_field _ _ s5 _ _ _ _ _ Z2 h25) as (n2 & f2 & N2 & _ & R2 & V2). destruct (zset_field _ _ s5 _ _ _ _ _ Z3 h35) as (n3 & f3 & N3 & D3 & R3 & _). destruct (zset_field _ _ s5 _ _ _ _ _ Z4 m1) as (n4 & f4' & N4 & _ & R4 & V4).
  destruct (field_ok _ _ _ _ _ h05 How) as (tw' & nw5 & Hfw0' & _ & Hnw5 & Hvw & Hcw & Hlw). assert (tw' = tw) as -> by congruence.
  destruct (field_ok _ _ _ _ _ h05 Hob) as (tb' & nb5 & Hfb0 & _ & Hnb5 & Hvb & Hcb & Hlb). assert (tb' = tb) as -> by (pose proof (fid_held _ _ _ _ _ h02 Hfb0); congruence).
  pose proof (hd_len _ _ Hh) as L0. pose proof (hd_len _ _ m1) as L5. destruct (ap_in _ _ _ _ Hapt) as [Hal Hmo].
  assert (Wi : wf_mat (length (mem (ts s5))) (nmat ni)) by (eapply wf_mat_mono; [apply Hni|lia]).
  assert (Hdl : forall a, cells s0 (c_i c) FDif a -> a < length (mem (ts s0))) by (intros a Ha; exact (ok_lt _ _ _ _ _ Hod Ha)).
  assert (Hil : forall a, Some a ∈ operands (nmat ni) -> a < length (mem (ts s0))) by (intros a Ha; apply Hci in Ha; exact (ok_lt _ _ _ _ _ Hoi Ha)).
  assert (Hdoes : does (ts s5) (mfor (urange o) (dense_unit_bp (nmat ni) (nmat ne) (nmat nw5) (nmat nb5) (nmat n1) (nmat n2) (nmat n3) (nmat n4) (Some al) (Some mo))) (uO (nmat n1) (nmat n3))
    (fun m m' => forall vd vx vw vb vmw vmb, mval m (nmat ne) = Some vd -> mval m (nmat ni) = Some vx -> mval m (nmat nw5) = Some vw -> mval m (nmat nb5) = Some vb -> mval m (nmat n2) = Some vmw -> mval m (nmat n4) = Some vmb ->
       mval m' (nmat n1) = g_dense_w (cell m al) (cell m mo) vd vx vw vmw /\ mval m' (nmat n3) = g_dense_b (cell m al) (cell m mo) vd vb vmb)).
  { apply (dense_unit_does (ts s5) (nmat ni) (nmat ne) (nmat nw5) (nmat nb5) (nmat n1) (nmat n2) (nmat n3) (nmat n4) al mo o n); try (first [exact Wi|apply m5|apply Hnw5|apply Hnb5|apply N1|apply N2|apply N3|apply N4|exact Emi|exact D1|exact D3]); try lia.
    - destruct m5 as (_ & _ & _ & ->). congruence.
    - intros x Hx Hu. assert (Hu' : length (mem (ts s)) <= x < length (mem (ts s1)) \/ length (mem (ts s2)) <= x < length (mem (ts s3))) by (destruct Hu as [Hu|Hu]; [left; exact (R1 _ Hu)|right; exact (R3 _ Hu)]).
      destruct Hx as [Hx|[Hx|[Hx|[Hx|[Hx|[Hx|[-> | ->]]]]]]]; [apply Hil in Hx|destruct (m6 _ Hx) as [Hy|Hy]; [|apply Hdl in Hy]|apply Hlw in Hx|apply Hlb in Hx|apply R2 in Hx|apply R4 in Hx|..]; lia.
    - intros x Hx Hy. apply R1 in Hx. apply R3 in Hy. lia. }
  destruct (tri_does _ _ _ _ Hdoes) as (t6 & E4 & Et6 & T6). { intros x [Hx|Hx]; [apply (node_ok_lt _ _ _ _ _ N1 Hx)|apply (node_ok_lt _ _ _ _ _ N3 Hx)]. }
  set (s6 := MkL t6 (lays s5) (rc s5)). assert (h56 : held s5 s6) by exact (held_ts _ _ _ _ _ _ T6).
  assert (HN : forall t nn sh g, fid s5 (c_i c) g = Some t -> node_ok (ts s5) t nn sh -> ok s6 (c_i c) g sh /\ (forall a, cells s6 (c_i c) g a -> Some a ∈ operands (nmat nn)) /\ forall m, fval s6 (c_i c) g m = mval m (nmat nn)).
  { intros t nn sh g Hf (X1 & X2 & X3 & X4). apply (field_at s6 _ _ t); [exact Hf|]. split; [cbn [ts s6]; rewrite Et6; exact X1|]. split; [exact X2|]. split; [eapply wf_mat_mono; [exact X3|exact (hd_len _ _ h56)]|exact X4]. }
  destruct (HN _ _ _ _ f1 N1) as (O1 & Q1 & U1). destruct (HN _ _ _ _ f3 N3) as (O3 & Q3 & U3). destruct (HN _ _ _ _ f4' N4) as (O4 & Q4 & U4).
  exists s6. split.
  - pose proof (ls_kind _ _ _ _ Hsite') as Hki. unfold kind_is in Hki. rewrite Hk in Hki. unfold bp_body. erewrite mbnd_ok by (apply getL_ok; exact HL). rewrite Hki.
    rewrite (fid_lay _ _ _ _ HL) in Hti. rewrite (fid_lay _ _ _ _ HL) in Hto. rewrite (fid_lay _ _ _ _ HL) in Htw. rewrite Hti, Hto, Htw. assert (Hlb' : lten l' FBias = Some tb). { rewrite <- (fid_lay _ _ _ _ HL). eapply fid_held; [exact Hh|exact Hfb0]. } rewrite Hlb'.
    erewrite mbnd_ok by reflexivity. erewrite mbnd_ok by (apply liftT_ok; apply get_mat_ok; apply Hni). assert (Es : MkL (ts s) (lays s) (rc s) = s) by (destruct s; reflexivity). rewrite Es. 
    erewrite mbnd_ok by reflexivity. erewrite mbnd_ok by (apply liftT_ok; apply get_mat_ok; apply Hno). rewrite Es.
    erewrite mbnd_ok by reflexivity. erewrite mbnd_ok by (apply shapeT_ok; apply Hnw). replace (shape (nmat nw)) with [o; n] by (symmetry; apply Hnw).
    rewrite (mbnd_ok _ _ _ _ _ A1), (mbnd_ok _ _ _ _ _ B1), (mbnd_ok _ _ _ _ _ A2), (mbnd_ok _ _ _ _ _ B2). erewrite mbnd_ok by reflexivity. erewrite mbnd_ok by (apply shapeT_ok; apply Hnb2). replace (shape (nmat nb2)) with [o] by (symmetry; apply Hnb2).
    rewrite (mbnd_ok _ _ _ _ _ A3), (mbnd_ok _ _ _ _ _ B3), (mbnd_ok _ _ _ _ _ A4), (mbnd_ok _ _ _ _ _ B4), (mbnd_ok _ _ _ _ _ E1), (mbnd_ok _ _ _ _ _ E2). fold (inner e). rewrite (mbnd_ok _ _ _ _ _ E3). apply liftT_ok.
    erewrite mbnd_ok by (apply get_mat_ok; apply m5). erewrite mbnd_ok by (apply get_mat_ok; apply Hnw5). erewrite mbnd_ok by (apply get_mat_ok; apply Hnb5). erewrite mbnd_ok by (apply get_mat_ok; apply N1). erewrite mbnd_ok by (apply get_mat_ok; apply N2). erewrite mbnd_ok by (apply get_mat_ok; apply N3). erewrite mbnd_ok by (apply get_mat_ok; apply N4). rewrite Emo. exact E4.
  - assert (Hpar : c_par c = true) by (unfold c_par; rewrite Hk; reflexivity).
    assert (Hlow : lowW s0 (c :: rest) W). { intros x Hx. apply m4 in Hx as [Hx|Hx]; [left; lia|]. destruct rest as [|q r]; [destruct Hx|]. right. exists q. split; [right; left|exact Hx]. }
    refine (par_from s0 al mo c rest s s4 s5 s6 _ e ne W C _ _ _ _ Hch Hh Hpar hs4 f4 T4 HM h56 (frame_lays _ _ _ _ (frame_refl _ s5) eq_refl) T6 _ _ _ _ _ _ _).
    + intros x [[Hx _]|[Hx|Hx]]; [left; exact Hx|right; apply R1 in Hx; lia|right; apply R3 in Hx; lia].
    + intros c0 Hc0 Hw. assert (Hc1 : length (mem (ts s1)) <= fst c0 < length (mem (ts s2)) \/ length (mem (ts s3)) <= fst c0 < length (mem (ts s4))).
      { cbn [app] in Hc0. rewrite app_nil_r in Hc0. apply elem_of_app in Hc0 as [Hc0|Hc0]; unfold zcs, zconst in Hc0; apply elem_of_list_fmap in Hc0 as (x & -> & Hx); apply elem_of_seq in Hx; cbn [fst]; lia. }
      destruct Hw as [[Hw _]|[Hw|Hw]]; [lia|apply R1 in Hw; lia|apply R3 in Hw; lia].
    + intros m Hm (Hrf & d & a & b & Hd & Ha & Hb & Hp & _). split; [exact Hrf|]. intros d' r Hd' Hr Hs. apply Hp. assert (d' = d) as -> by congruence. unfold s_par. rewrite Hpar. unfold s_bias. rewrite Hk. cbn [r_ref rdg]. rewrite Hr. cbn [mbind option_bind]. rewrite Hs. reflexivity.
    + intros; exact I.
    + intros m mm m' d a b Hm HC HB Rm [HS _] _ HR Hd Ha Hb. destruct HB as (Hrf & d' & a' & b' & Hd' & Ha' & Hb' & Hp & _). assert (d' = d) as -> by congruence. assert (a' = a) as -> by congruence. assert (b' = b) as -> by congruence.
      pose proof (agree_ran _ _ _ _ _ _ _ c Hapt Hlow Rm ltac:(left)) as (Gx & _ & _ & Gb & Gw & _). cbn [r_x r_b r_w rdg] in Gx, Gb, Gw. destruct (al_ran _ _ _ _ _ _ _ Hapt Hlow Rm) as [Ga Gm].
      assert (Lm : length (mem (ts s0)) <= length m) by (pose proof (hd_len _ _ h56); lia).
      destruct (ok_total _ _ _ _ m Hoi Lm) as (vx & Ex & _). destruct (ok_total _ _ _ _ m How Lm) as (vw & Ew & Sw & _). destruct (ok_total _ _ _ _ m Hob Lm) as (vb & Eb & Sb & _).
      unfold s_par in *. rewrite Hpar in *. unfold s_bias, s_weights in *. rewrite Hk in *. cbn [r_ref r_b r_w r_x rdg] in *. rewrite Ex, Ew, Eb in *. cbn [mbind option_bind] in *.
      destruct (refv s0 (c_i c) m) as [r|] eqn:Er; [|exfalso; apply Hp; reflexivity]. cbn [mbind option_bind] in *. specialize (HS d r Hd Er). destruct (share r d) as [ve|]; [|exfalso; apply Hp; reflexivity]. cbn [mbind option_bind] in *. rewrite Sw, Sb in *.
      assert (Hz : consts (zcs s1 [o; n]) m /\ consts (zcs s3 [o]) m). { cbn [app] in HC. rewrite app_nil_r in HC. apply consts_app in HC. exact HC. }
      assert (Hoff : forall nn lo hi, (forall x, Some x ∈ operands (nmat nn) -> lo <= x < hi) -> length (mem (ts s0)) <= lo -> hi <= length (mem (ts s4)) -> mval mm (nmat (nn : node T)) = mval m (nmat nn)).
      { intros nn lo hi Hx X1 X2. eapply ran_val; [exact Rm|]. intros x Hi Hw. apply Hx in Hi. apply m4 in Hw as [Hw|Hw]; [lia|]. destruct rest as [|q r0]; [destruct Hw|]. destruct Hrest as (_ & _ & _ & Hchr & _). destruct (chain_head _ _ _ Hchr) as (lq & pq & Hsq & _). destruct (ls_dif _ _ _ _ Hsq) as [Ho _]. pose proof (ok_lt _ _ _ _ _ Ho Hw). lia. }
      destruct (HR ve vx vw vb (vzero [o; n]) (vzero [o])) as [X1 X2].
      * exact HS.
      * rewrite Hvi. congruence.
      * rewrite Hvw. congruence.
      * rewrite Hvb. congruence.
      * rewrite (Hoff n2 _ _ R2) by lia. apply V2. apply Hz.
      * rewrite (Hoff n4 _ _ R4) by lia. apply V4. apply Hz.
      * assert (Ca : cell mm al = a) by (unfold cell; rewrite Ga, Ha; reflexivity). assert (Cb : cell mm mo = b) by (unfold cell; rewrite Gm, Hb; reflexivity). rewrite Ca, Cb in X1, X2.
        destruct (g_dense_b a b ve vb (vzero [o])) as [vnb|]; [|exfalso; apply Hp; reflexivity]. cbn [mbind option_bind] in *. destruct (g_dense_w a b ve vx vw (vzero [o; n])) as [vnw|]; [|exfalso; apply Hp; reflexivity]. cbn [mbind option_bind].
        exists vnb, vnw. split; [reflexivity|]. split; [rewrite U3; exact X2|]. split; [rewrite U1; exact X1|]. unfold c_mom. rewrite Hk. discriminate.
    + intros g [-> | [-> | ->]]; [exists [o]|exists [o; n]|exists [o]]; (split; [assumption|]); (split; [assumption|]); intros a Ha; [apply Q3, R3 in Ha|apply Q1, R1 in Ha|apply Q4, R4 in Ha]; lia.
    + exact (zset_zero _ _ s6 _ _ _ _ _ Z4 (held_trans _ _ _ m1 h56)).
Qed.
End Dense.
End TrnDense.
