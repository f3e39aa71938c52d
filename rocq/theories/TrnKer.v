(** * TrnKer: the training code of the two kinds of convolution *)
From Verif Require Import Base Num ModelTools ModelOps ModelTensor ModelGraph ModelLayer Spec NetSpec FwdSpec Denote
  IndexProofs ExecProofs TensorFacts AccessProofs BuildProofs BuildFrame CompileProofs Agree FwdMask FwdBuild FwdSeg FwdOps FwdPool NetBuild NetChain FwdBody FwdExpr FwdConv FwdConv2 FwdAct FwdTotal
  BwdSpec BwdPost BwdLoop BwdOps BwdOps2 BwdOps3 BwdOps4 TrnSpec TrnTri TrnOwn TrnExpr TrnSite TrnDer TrnXfer TrnBody TrnKind TrnBias TrnPar TrnDense.
From Coq Require Import Lia ZifyBool ZifyNat ZifyN.

Section TrnKer.
Context {T : Type} `{Num T}.
Implicit Types (s : lst T) (m : list T) (c q : clay T) (cs rest : list (clay T)).

Lemma owned_nodup lo hi (n : node T) : owned lo hi n -> NoDup (operands (nmat n)).
Proof using Type. intros (x & k & -> & _). apply NoDup_fmap_2; [intros y z E; congruence|apply NoDup_seq]. Qed.
Lemma ker_bp_ok s i l (dif bias mb mw al mo : nat) t5 t6 t7 : lays s !! i = Some l ->
  Build (knb (ts s)) (k4 (ts s) dif bias mb al mo) = (Ok tt, t5) -> Transfer (kdb (ts s)) mb t5 = (Ok tt, t6) -> Build (length (tens t6)) (add t6 (KOpScalar mw (Some mo) Op2Mul) empty_mat) = (Ok tt, t7) ->
  kernel_bias_bp i dif bias mb mw (Some al) (Some mo) s = (Ok (kda (ts s), length (tens t6)), MkL t7 (<[i := set_ten FNBias (Some (knb (ts s))) l]> (lays s)) (rc s)).
Proof using Type.
  intros Hl E5 E6 E7. unfold kernel_bias_bp.
  set (a1 := add (ts s) (KOpScalar dif (Some al) Op2Mul) empty_mat). set (a2 := add a1 (KOpScalar mb (Some mo) Op2Mul) empty_mat). set (a3 := add a2 (KOp2 (kda (ts s)) (S (kda (ts s))) Op2Add) empty_mat).
  assert (T1 : length (tens a1) = S (kda (ts s))) by (cbn [a1 add tens]; rewrite app_length; unfold kda; cbn; lia). assert (T2 : length (tens a2) = kdb (ts s)) by (unfold kdb; unfold kda in T1; cbn [a2 add tens]; rewrite app_length, T1; cbn [length]; lia).
  assert (T3 : length (tens a3) = knb (ts s)) by (cbn [a3 add tens]; rewrite app_length, T2; unfold kdb, knb; cbn; lia).
  assert (X1 : NewOpScalar dif (Some al) Op2Mul (ts s) = (Ok (kda (ts s)), a1)) by reflexivity.
  assert (X2 : NewOpScalar mb (Some mo) Op2Mul a1 = (Ok (S (kda (ts s))), a2)) by (rewrite <- T1; reflexivity).
  assert (X3 : NewOp2 (kda (ts s)) (S (kda (ts s))) Op2Add a2 = (Ok (kdb (ts s)), a3)) by (rewrite <- T2; reflexivity).
  assert (X4 : NewOp2 bias (kdb (ts s)) Op2Add a3 = (Ok (knb (ts s)), k4 (ts s) dif bias mb al mo)) by (rewrite <- T3; reflexivity).
  assert (X5 : NewOpScalar mw (Some mo) Op2Mul t6 = (Ok (length (tens t6)), add t6 (KOpScalar mw (Some mo) Op2Mul) empty_mat)) by reflexivity.
  erewrite mbnd_ok by (apply liftT_ok; exact X1). erewrite mbnd_ok by (apply liftT_ok; exact X2). erewrite mbnd_ok by (apply liftT_ok; exact X3). erewrite mbnd_ok by (apply liftT_ok; exact X4). cbn [ts lays rc].
  erewrite mbnd_ok by (unfold setF; apply updL_ok; exact Hl). cbn [ts lays rc]. erewrite mbnd_ok by (apply liftT_ok; exact E5). erewrite mbnd_ok by (apply liftT_ok; exact E6). erewrite mbnd_ok by (apply liftT_ok; exact X5). erewrite mbnd_ok by (apply liftT_ok; exact E7). reflexivity.
Qed.

Lemma mats4_ext (F F' : tmat -> tmat -> tmat -> tmat -> TM T unit) (a b d e : nat) s : (forall w x y z, F' w x y z = F w x y z) ->
  liftT (w <~ get_mat a ; x <~ get_mat b ; y <~ get_mat d ; z <~ get_mat e ; F' w x y z) s = liftT (w <~ get_mat a ; x <~ get_mat b ; y <~ get_mat d ; z <~ get_mat e ; F w x y z) s.
Proof using Type.
  intros E. unfold liftT. match goal with |- (let (_, _) := ?x in _) = (let (_, _) := ?y in _) => assert (x = y) as ->; [|reflexivity] end.
  unfold mbnd. destruct (get_mat a (ts s)) as [[w| | |] s1]; try reflexivity. destruct (get_mat b s1) as [[x| | |] s2]; try reflexivity. destruct (get_mat d s2) as [[y| | |] s3]; try reflexivity. destruct (get_mat e s3) as [[z| | |] s4]; try reflexivity. rewrite E. reflexivity.
Qed.

(** The code that both have in common, for the loops [F] and [FW]. *)
Definition ker_code (fuel id : nat) (l : layer T) (al mo : nat) (F : list N -> list N -> tmat -> tmat -> tmat -> tmat -> TM T unit) (FW : list N -> list N -> tmat -> tmat -> tmat -> tmat -> tmat -> TM T unit) : LM T unit :=
  inp <~ the (lten l FInput) ; inSh <~ shapeT inp ;
  out <~ the (lten l FOutput) ; outSh <~ shapeT out ;
  weights <~ the (lten l FWeights) ; shw <~ shapeT weights ;
  nw <~ liftT (NewZeros shw) ; setF id FNWeights nw ;~
  mwt <~ liftT (NewZeros shw) ; setF id FMWeights mwt ;~
  bias <~ the (lten l FBias) ; shb <~ shapeT bias ;
  mbt <~ liftT (NewZeros shb) ; setF id FMBias mbt ;~
  dif <~ shared_dif l ;
  liftT (Build dif) ;~
  match lpre l with
  | Some q =>
      der <~ LBuildDer fuel q ;
      pd <~ GetDif q ; pdif <~ the pd ;
      liftT (md <~ get_mat dif ; mw <~ get_mat weights ;
             mder <~ get_mat der ; mp <~ get_mat pdif ;
             F inSh outSh md mw mder mp)
  | None => mret tt
  end ;~
  dif0 <~ the (lten l FDif) ;
  dw <~ kernel_bias_bp id dif0 bias mbt mwt (Some al) (Some mo) ;
  liftT (mi <~ get_mat inp ; mdif <~ get_mat (fst dw) ; mw <~ get_mat weights ;
         mwm <~ get_mat (snd dw) ; mnw <~ get_mat nw ;
         FW inSh outSh mi mdif mw mwm mnw).

Section Ker.
Variables (s0 s : lst T) (al mo : nat) (c q : clay T) (rest : list (clay T)) (fuel : nat) (ws : list N).
Variables (F : tmat -> tmat -> tmat -> tmat -> TM T unit) (FW : tmat -> tmat -> tmat -> tmat -> tmat -> TM T unit) (G GW : vten T -> vten T -> vten T -> vten T -> option (vten T)).
Hypotheses (Hch : chain s0 (c :: q :: rest)) (Hapt : apt s0 (c :: q :: rest) al mo) (Hh : held s0 s).
Hypotheses (Hnone : forall g, parf g -> fid s (c_i c) g = None) (Hder : forall j, j ∈ dertop (q :: rest) -> fid s j FDer = None) (Hfu : length (q :: rest) <= fuel).
Hypotheses (Hpar : c_par c = true) (Hmom : c_mom c = true) (Hob : ok s0 (c_i c) FBias (c_sh c)) (How : ok s0 (c_i c) FWeights ws) (Fb : fits (c_sh c)) (Fw : fits ws).
Hypothesis HG : forall R a psh e, g_in R c a psh e = (w ← r_w R (c_i c); a' ← a; G e w a' (vzero psh)).
Hypothesis HB : forall R mbx a b d, s_bias R mbx a b c d = (v ← r_b R (c_i c); db ← s_db mbx a b (c_i c) d; v_bin BAdd v db).
Hypothesis HW : forall R a b d, s_weights R a b c d = (da ← v_scal BMul d a; x ← r_x R (c_i c); w ← r_w R (c_i c); v ← v_scal BMul (vzero (vsh w)) b; GW da x w v).
Hypothesis HF : forall t0 md mw mder mp, wf_mat (length (mem t0)) md -> wf_mat (length (mem t0)) mw -> wf_mat (length (mem t0)) mder -> wf_mat (length (mem t0)) mp ->
  shape md = c_sh c -> shape mw = ws -> shape mder = c_sh q -> shape mp = c_sh q -> NoDup (operands mp) ->
  (forall l, Some l ∈ operands md -> Some l ∉ operands mp) -> (forall l, Some l ∈ operands mw -> Some l ∉ operands mp) -> (forall l, Some l ∈ operands mder -> Some l ∉ operands mp) ->
  does t0 (F md mw mder mp) (fun x => Some x ∈ operands mp) (fun m m' => forall vd vw va vp, mval m md = Some vd -> mval m mw = Some vw -> mval m mder = Some va -> mval m mp = Some vp -> mval m' mp = G vd vw va vp).
Hypothesis HFW : forall t0 mi mdif mw mwm mnw, wf_mat (length (mem t0)) mi -> wf_mat (length (mem t0)) mdif -> wf_mat (length (mem t0)) mw -> wf_mat (length (mem t0)) mwm -> wf_mat (length (mem t0)) mnw ->
  shape mi = c_sh q -> shape mdif = c_sh c -> shape mw = ws -> shape mwm = ws -> shape mnw = ws -> NoDup (operands mnw) -> NoDup (operands mwm) ->
  (forall l, Some l ∈ operands mw -> Some l ∉ operands mnw /\ Some l ∉ operands mwm) -> (forall l, Some l ∈ operands mwm -> Some l ∉ operands mnw) ->
  (forall l, Some l ∈ operands mi -> Some l ∉ operands mnw /\ Some l ∉ operands mwm) -> (forall l, Some l ∈ operands mdif -> Some l ∉ operands mnw /\ Some l ∉ operands mwm) ->
  does t0 (FW mi mdif mw mwm mnw) (fun x => Some x ∈ operands mnw \/ Some x ∈ operands mwm)
    (fun m m' => forall vd vx vw vm, mval m mdif = Some vd -> mval m mi = Some vx -> mval m mw = Some vw -> mval m mwm = Some vm -> mval m' mnw = GW vd vx vw vm).

Lemma ker_body : exists l' s', lays s !! c_i c = Some l' /\ kind_is l' c /\
  (forall F' FW', (forall a b d e, F' (c_sh q) (c_sh c) a b d e = F a b d e) -> (forall a b d e g, FW' (c_sh q) (c_sh c) a b d e g = FW a b d e g) -> ker_code fuel (c_i c) l' al mo F' FW' s = (Ok tt, s')) /\
  body_post s0 al mo c (q :: rest) s s'.
Proof using All.
  destruct (chain_head _ _ _ Hch) as (l & psh & Hsite & Hrest). destruct Hrest as (Eps & Hp & Hcn & Hchr & Hdis & _). subst psh. destruct (site_held _ _ _ _ _ Hh Hsite) as (l' & Hlh & Hsite'). pose proof Hlh as (_ & _ & K3 & K4 & _ & K6).
  pose proof (ls_lay _ _ _ _ Hsite') as HL. destruct (ls_io _ _ _ _ Hsite Hcn) as [Hoi Hoo].
  assert (Hns : c_l c <> Some SSoft) by (intros E; unfold c_par in Hpar; rewrite E in Hpar; discriminate Hpar). specialize (Hdis Hns).
  assert (Hsh : shares c = true) by (clear - Hmom; unfold c_mom in Hmom; unfold shares; destruct (c_l c) as [[]|]; (reflexivity || discriminate Hmom)).
  destruct (ls_dif _ _ _ _ Hsite) as [Hod _]. pose proof Hod as (td & nd0 & Hfd & _). assert (Hdf : lten l' FDif = fid s0 (c_i c) FDif). { rewrite <- (fid_lay _ _ _ _ HL), Hfd. exact (fid_held _ _ _ _ _ Hh Hfd). }
  destruct (field_ok _ _ _ _ _ Hh Hoi) as (ti & ni & Hfi0 & Hti & Hni & Hvi & Hci & _). destruct (field_ok _ _ _ _ _ Hh Hoo) as (to_ & no & _ & Hto & Hno & _ & _ & _).
  destruct (field_ok _ _ _ _ _ Hh How) as (tw & nw & Hfw0 & Htw & Hnw & _).
  (* the tensors of zeros *)
  destruct (zero_step s (c_i c) FNWeights ws l' HL) as (sa1 & s1 & t1 & A1 & B1 & Z1); [rewrite <- (fid_lay _ _ _ _ HL); apply Hnone; unfold parf; auto|exact Fw|].
  destruct (zero_step s1 (c_i c) FMWeights ws _ (zs_lay _ _ _ _ _ _ _ Z1)) as (sa2 & s2 & t2 & A2 & B2 & Z2); [rewrite set_ten_ne by discriminate; rewrite <- (fid_lay _ _ _ _ HL); apply Hnone; unfold parf; auto|exact Fw|].
  destruct (zero_step s2 (c_i c) FMBias (c_sh c) _ (zs_lay _ _ _ _ _ _ _ Z2)) as (sa3 & s4 & t3 & A3 & B3 & Z3); [rewrite !set_ten_ne by discriminate; rewrite <- (fid_lay _ _ _ _ HL); apply Hnone; unfold parf; auto|exact Fb|].
  pose proof (zs_held _ _ _ _ _ _ _ Z1) as h1. pose proof (zs_held _ _ _ _ _ _ _ Z2) as h2. pose proof (zs_held _ _ _ _ _ _ _ Z3) as h3.
  pose proof (zs_len _ _ _ _ _ _ _ Z1) as l1. pose proof (zs_len _ _ _ _ _ _ _ Z2) as l2. pose proof (zs_len _ _ _ _ _ _ _ Z3) as l3.
  pose proof (held_trans _ _ _ Hh (held_trans _ _ _ h1 h2)) as h02. pose proof (held_trans _ _ _ h1 (held_trans _ _ _ h2 h3)) as hs4. pose proof (held_trans _ _ _ Hh hs4) as h04.
  assert (f4 : frame (own (c_i c)) s s4).
  { assert (P4 : forall j g, own (c_i c) j g \/ own (c_i c) j g -> own (c_i c) j g) by tauto.
    eapply frame_trans; [apply (frame_own _ _ _ _ _ _ _ Z1); unfold parf; auto| |exact P4]. eapply frame_trans; [apply (frame_own _ _ _ _ _ _ _ Z2); unfold parf; auto|apply (frame_own _ _ _ _ _ _ _ Z3); unfold parf; auto|exact P4]. }
  pose proof (tri_then _ _ _ _ _ _ _ _ (tri_then _ _ _ _ _ _ _ _ (tri_quiet _ _ _ (zs_seg _ _ _ _ _ _ _ Z1)) (zs_con _ _ _ _ _ _ _ Z2)) (zs_seg _ _ _ _ _ _ _ Z3)) as T4. cbn [app] in T4. rewrite app_nil_r in T4.
  destruct (field_ok _ _ _ _ _ h02 Hob) as (tb & nb2 & _ & Htb & Hnb2 & _).
  (* the errors *)
  assert (Hder4 : forall j, j ∈ dertop (q :: rest) -> fid s4 j FDer = None) by (intros j Hj; exact (der_kept s c (q :: rest) Hder s4 j f4 hs4 Hj)).
  destruct (in_par s0 s4 c q rest l l' fuel al mo F G ws tw false Hch Hapt Hsite h04 Hdf K4 Hder4 Hfu Hsh HG How Hfw0 HF) as (e & sa & sb & t & sc & p & sd & s5 & ne & W & C & E1 & E2 & E3 & E4 & -> & E6 & HI).
  pose proof (in_mid _ _ _ _ _ _ _ _ _ _ HI) as HM. pose proof HM as [m1 m2 m3 m4 m5 m6].
  pose proof (held_trans _ _ _ h3 m1) as h25. pose proof (held_trans _ _ _ h2 h25) as h15. pose proof (held_trans _ _ _ h04 m1) as h05.
  destruct (zset_field _ _ s5 _ _ _ _ _ Z1 h15) as (n1 & f1 & N1 & D1 & R1 & _). destruct (zset_field _ _ s5 _ _ _ _ _ Z2 h25) as (n2 & f2 & N2 & _ & R2 & V2). destruct (zset_field _ _ s5 _ _ _ _ _ Z3 m1) as (n3 & f3 & N3 & D3 & R3 & _).
  destruct (field_ok _ _ _ _ _ h05 How) as (tw' & nw5 & Hfw0' & _ & Hnw5 & Hvw & Hcw & Hlw). assert (tw' = tw) as -> by congruence.
  destruct (field_ok _ _ _ _ _ h05 Hob) as (tb' & nb5 & Hfb0 & _ & Hnb5 & Hvb & Hcb & Hlb). assert (tb' = tb) as -> by (pose proof (fid_held _ _ _ _ _ h02 Hfb0); congruence).
  destruct (field_ok _ _ _ _ _ h05 Hod) as (td' & nd5 & Hfd0 & _ & Hnd5 & Hvd & Hcd & Hld). assert (td' = td) as -> by congruence.
  destruct (field_ok _ _ _ _ _ h05 Hoi) as (ti' & ni5 & Hfi0' & _ & Hni5 & Hvi5 & Hci5 & Hli). assert (ti' = ti) as -> by congruence.
  pose proof (hd_len _ _ Hh) as L0. pose proof (hd_len _ _ m1) as L5. destruct (ap_in _ _ _ _ Hapt) as [Hal Hmo].
  (* bias and momenta *)
  destruct (ker_build (ts s5) td tb t3 al mo nd5 nb5 n3 (c_sh c) Hnd5 Hnb5 N3 ltac:(lia) ltac:(lia) t2 n2 ws N2 D3) as (t5 & t6 & t7 & Wk & Ck & nda & nnb & nwm & G5 & G6 & G7 & Tk & HWk & [Nda Oda] & [Nnb Onb] & [Nwm Owm] & L6 & Cwm).
  { intros x Hx. apply R3 in Hx. split; [intros Hy; apply R2 in Hy; lia|lia]. }
  pose proof (tri_len _ _ _ _ _ _ Tk) as L7.
  assert (L67 : length (mem t6) <= length (mem t7)). { destruct Owm as (x & k & _ & X1 & X2). lia. }
  assert (Hkeep : forall t n sh, node_ok (ts s5) t n sh -> exists n', node_ok t7 t n' sh /\ operands (nmat n') = operands (nmat n) /\ forall m, mval m (nmat n') = mval m (nmat n)) by (intros t0 n0 sh0 X; exact (node_ok_keep _ _ _ _ _ X (tri_keep _ _ _ _ _ _ Tk) L7)).
  destruct (Hkeep _ _ _ Hni5) as (ni7 & Ni7 & Oi7 & Vi7). destruct (Hkeep _ _ _ Hnw5) as (nw7 & Nw7 & Ow7 & Vw7). destruct (Hkeep _ _ _ N1) as (n17 & N17 & O17 & V17).
  assert (Hdoes : does t7 (FW (nmat ni7) (nmat nda) (nmat nw7) (nmat nwm) (nmat n17)) (fun x => Some x ∈ operands (nmat n17) \/ Some x ∈ operands (nmat nwm))
    (fun m m' => forall vd vx vw vm, mval m (nmat nda) = Some vd -> mval m (nmat ni7) = Some vx -> mval m (nmat nw7) = Some vw -> mval m (nmat nwm) = Some vm -> mval m' (nmat n17) = GW vd vx vw vm)).
  { apply HFW; try (first [apply Ni7|apply Nda|apply Nw7|apply Nwm|apply N17|exact (owned_nodup _ _ _ Owm)]); rewrite ?O17, ?Ow7, ?Oi7; [exact D1|..].
    - intros x Hx. apply Hlw in Hx. split; intros Hy; [apply R1 in Hy|apply (owned_in _ _ _ _ Owm) in Hy]; lia.
    - intros x Hx Hy. apply R1 in Hy. apply (owned_in _ _ _ _ Owm) in Hx. lia.
    - intros x Hx. apply Hli in Hx. split; intros Hy; [apply R1 in Hy|apply (owned_in _ _ _ _ Owm) in Hy]; lia.
    - intros x Hx. apply (owned_in _ _ _ _ Oda) in Hx. split; intros Hy; [apply R1 in Hy|apply (owned_in _ _ _ _ Owm) in Hy]; lia. }
  destruct (tri_does _ _ _ _ Hdoes) as (t8 & E8 & Et8 & T8). { intros x [Hx|Hx]; [apply (node_ok_lt _ _ _ _ _ N17 Hx)|apply (node_ok_lt _ _ _ _ _ Nwm Hx)]. }
  pose proof (tri_len _ _ _ _ _ _ T8) as L8.
  assert (Ck8 : forall c0 : nat * T, c0 ∈ Ck -> ~ (length (mem t7) <= fst c0 < length (mem t8) \/ Some (fst c0) ∈ operands (nmat n17) \/ Some (fst c0) ∈ operands (nmat nwm))).
  { intros c0 Hc0 [Hx|[Hx|Hx]]; [destruct (tri_C _ _ _ _ _ _ _ Tk Hc0) as ([_ Y] & _); lia| |exact (Cwm _ Hc0 Hx)]. rewrite O17 in Hx. apply R1 in Hx. destruct (tri_C _ _ _ _ _ _ _ Tk Hc0) as ([Y _] & _). lia. }
  pose proof (tri_seq _ _ _ _ _ _ _ _ _ _ _ Tk T8 Ck8) as T58.
  assert (Hl5 : exists l5, lays s5 !! c_i c = Some l5 /\ lten l5 FNBias = None).
  { destruct (m2 _ _ (zs_lay _ _ _ _ _ _ _ Z3)) as (l5 & X1 & _ & X2). exists l5. split; [exact X1|]. rewrite X2 by (intros [_ Hx]; discriminate Hx). rewrite !set_ten_ne by discriminate. rewrite <- (fid_lay _ _ _ _ HL). apply Hnone. unfold parf. auto. }
  destruct Hl5 as (l5 & HL5 & Hnb0).
  set (s6 := MkL t8 (<[c_i c := set_ten FNBias (Some (knb (ts s5))) l5]> (lays s5)) (rc s5)).
  assert (h56 : held s5 s6) by exact (held_step s5 t8 (c_i c) l5 FNBias _ _ _ _ _ T58 HL5 Hnb0).
  assert (f56 : frame (own (c_i c)) s5 s6).
  { eapply frame_trans; [exact (frame_set (c_i c) FNBias (Some (knb (ts s5))) l5 s5 t8 HL5)|apply (frame_refl (fun _ _ => False))|]. intros j g [[-> ->]|[]]. split; [reflexivity|]. unfold parf. auto. }
  destruct (field_at s5 _ _ _ _ _ f1 N1) as (O1 & Q1 & U1). destruct (ok_held _ _ _ _ _ h56 O1) as (O1' & Q1' & U1').
  destruct (field_at s5 _ _ _ _ _ f3 N3) as (O3 & Q3 & U3). destruct (ok_held _ _ _ _ _ h56 O3) as (O3' & Q3' & U3').
  assert (Nnb8 : node_ok (ts s6) (knb (ts s5)) nnb (c_sh c)). { destruct Nnb as (X1 & X2 & X3 & X4). split; [cbn [ts s6]; rewrite Et8; exact X1|]. split; [exact X2|]. split; [eapply wf_mat_mono; [exact X3|exact L8]|exact X4]. }
  assert (fnb : fid s6 (c_i c) FNBias = Some (knb (ts s5))). { unfold fid. cbn [lays s6]. rewrite list_lookup_insert by (eapply lookup_lt_Some; exact HL5). cbn [mbind option_bind]. apply set_ten_same. }
  destruct (field_at s6 _ _ _ _ _ fnb Nnb8) as (O2 & Q2 & U2).
  exists l', s6. split; [exact HL|]. split; [exact (ls_kind _ _ _ _ Hsite')|]. split.
  - intros F' FW' HF' HFW'. unfold ker_code. rewrite (fid_lay _ _ _ _ HL) in Hti. rewrite (fid_lay _ _ _ _ HL) in Hto. rewrite (fid_lay _ _ _ _ HL) in Htw. rewrite Hti, Hto, Htw.
    assert (Hlb' : lten l' FBias = Some tb). { rewrite <- (fid_lay _ _ _ _ HL). eapply fid_held; [exact Hh|exact Hfb0]. } rewrite Hlb'.
    erewrite mbnd_ok by reflexivity. erewrite mbnd_ok by (apply shapeT_ok; apply Hni). replace (shape (nmat ni)) with (c_sh q) by (symmetry; apply Hni).
    erewrite mbnd_ok by reflexivity. erewrite mbnd_ok by (apply shapeT_ok; apply Hno). replace (shape (nmat no)) with (c_sh c) by (symmetry; apply Hno).
    erewrite mbnd_ok by reflexivity. erewrite mbnd_ok by (apply shapeT_ok; apply Hnw). replace (shape (nmat nw)) with ws by (symmetry; apply Hnw).
    rewrite (mbnd_ok _ _ _ _ _ A1), (mbnd_ok _ _ _ _ _ B1), (mbnd_ok _ _ _ _ _ A2), (mbnd_ok _ _ _ _ _ B2). erewrite mbnd_ok by reflexivity. erewrite mbnd_ok by (apply shapeT_ok; apply Hnb2). replace (shape (nmat nb2)) with (c_sh c) by (symmetry; apply Hnb2).
    rewrite (mbnd_ok _ _ _ _ _ A3), (mbnd_ok _ _ _ _ _ B3), (mbnd_ok _ _ _ _ _ E1), (mbnd_ok _ _ _ _ _ E2). rewrite K3, Hp.
    erewrite mbnd_ok. 2:{ rewrite (mbnd_ok _ _ _ _ _ E3), (mbnd_ok _ _ _ _ _ E4). erewrite mbnd_ok by reflexivity. rewrite <- E6. apply mats4_ext. apply HF'. }
    rewrite Hdf, Hfd. erewrite mbnd_ok by reflexivity. rewrite (mbnd_ok _ _ _ _ _ (ker_bp_ok s5 (c_i c) l5 td tb t3 t2 al mo t5 t6 t7 HL5 G5 G6 G7)). cbn [fst snd]. apply (liftT_ok _ (MkL t7 _ _)). cbn [ts].
    erewrite mbnd_ok by (apply get_mat_ok; apply Ni7). erewrite mbnd_ok by (apply get_mat_ok; apply Nda). erewrite mbnd_ok by (apply get_mat_ok; apply Nw7). erewrite mbnd_ok by (apply get_mat_ok; apply Nwm). erewrite mbnd_ok by (apply get_mat_ok; apply N17). rewrite HFW'. exact E8.
  - assert (Hql : forall x, cells s0 (c_i q) FDif x -> x < length (mem (ts s0))) by (intros x Hx; destruct (chain_head _ _ _ Hchr) as (lq & pq & Hsq & _); destruct (ls_dif _ _ _ _ Hsq) as [Ho _]; exact (ok_lt _ _ _ _ _ Ho Hx)).
    assert (Hlow : lowW s0 (c :: q :: rest) W). { intros x Hx. apply m4 in Hx as [Hx|Hx]; [left; lia|]. right. exists q. split; [right; left|exact Hx]. }
    (* what is read is what was there before *)
    assert (Hrd : forall m mm d a b, length (mem (ts s6)) <= length m -> consts (zcs s1 ws) m -> bodyP s0 s6 al mo c (q :: rest) m -> ran W m mm -> fval s0 (c_i c) FDif m = Some d -> m !! al = Some a -> m !! mo = Some b ->
      exists vb vm vx vw da bm db nb mw nw, fval s0 (c_i c) FBias m = Some vb /\ mval m (nmat n3) = Some vm /\ fval s0 (c_i c) FInput m = Some vx /\ fval s0 (c_i c) FWeights m = Some vw /\
        mval mm (nmat nd5) = Some d /\ mval mm (nmat nb5) = Some vb /\ mval mm (nmat n3) = Some vm /\ mval mm (nmat n2) = Some (vzero ws) /\ mm !! al = Some a /\ mm !! mo = Some b /\ mval mm (nmat ni5) = Some vx /\ mval mm (nmat nw5) = Some vw /\
        v_scal BMul d a = Some da /\ v_scal BMul vm b = Some bm /\ v_bin BAdd da bm = Some db /\ v_bin BAdd vb db = Some nb /\ v_scal BMul (vzero ws) b = Some mw /\ GW da vx vw mw = Some nw /\
        s_par (rdg s0 m) (mbv s6 m) a b c d = Some (Some (nb, nw)) /\ s_db (mbv s6 m) a b (c_i c) d = Some db).
    { intros m mm d a b Hm HC HB' Rm Hd Ha Hb. destruct HB' as (Hrf & d' & a' & b' & Hd' & Ha' & Hb' & Hpp & _). assert (d' = d) as -> by congruence. assert (a' = a) as -> by congruence. assert (b' = b) as -> by congruence.
      pose proof (agree_ran _ _ _ _ _ _ _ c Hapt Hlow Rm ltac:(left)) as (Gx & _ & _ & Gb & Gw & _). cbn [r_x r_b r_w rdg] in Gx, Gb, Gw. destruct (al_ran _ _ _ _ _ _ _ Hapt Hlow Rm) as [Ga Gm].
      pose proof (hd_len _ _ h56) as L56. assert (Lm : length (mem (ts s0)) <= length m) by lia.
      destruct (ok_total _ _ _ _ m Hoi Lm) as (vx & Ex & _). destruct (ok_total _ _ _ _ m How Lm) as (vw & Ew & Sw & _). destruct (ok_total _ _ _ _ m Hob Lm) as (vb & Eb & _). destruct (node_ok_total _ _ _ _ m N3) as (vm & Em & _); [lia|].
      assert (Hoff : forall (nn : node T) lo hi, (forall x, Some x ∈ operands (nmat nn) -> lo <= x < hi) -> length (mem (ts s0)) <= lo -> hi <= length (mem (ts s4)) -> mval mm (nmat nn) = mval m (nmat nn)).
      { intros nn lo hi Hx X1 X2. eapply ran_val; [exact Rm|]. intros x Hi Hw. apply Hx in Hi. apply m4 in Hw as [Hw|Hw]; [lia|]. apply Hql in Hw. lia. }
      assert (Emb : mbv s6 m (c_i c) = Some vm). { unfold mbv. rewrite U3', U3. exact Em. }
      assert (Hdm : fval s0 (c_i c) FDif mm = fval s0 (c_i c) FDif m). { eapply ok_off; [exact Hod|exact Rm|]. intros x Hx Hw. apply m4 in Hw as [Hw|Hw]; [pose proof (ok_lt _ _ _ _ _ Hod Hx); lia|]. exact (Hdis q x ltac:(left) Hx Hw). }
      unfold s_par in *. rewrite Hpar in *. rewrite HB, HW in *. cbn [r_x r_b r_w rdg] in *. unfold s_db in *. rewrite Emb, Ex, Ew, Eb in *. cbn [mbind option_bind] in *. rewrite Sw in *.
      destruct (v_scal BMul d a) as [da|]; [|exfalso; apply Hpp; reflexivity]. cbn [mbind option_bind] in *. destruct (v_scal BMul vm b) as [bm|] eqn:Ebm; [|exfalso; apply Hpp; reflexivity]. cbn [mbind option_bind] in *.
      destruct (v_bin BAdd da bm) as [db|] eqn:Edb; [|exfalso; apply Hpp; reflexivity]. cbn [mbind option_bind] in *. destruct (v_bin BAdd vb db) as [nb|] eqn:Enb; [|exfalso; apply Hpp; reflexivity]. cbn [mbind option_bind] in *.
      destruct (v_scal BMul (vzero ws) b) as [mw|]; [|exfalso; apply Hpp; reflexivity]. cbn [mbind option_bind] in *. destruct (GW da vx vw mw) as [nw'|] eqn:Enw; [|exfalso; apply Hpp; reflexivity]. cbn [mbind option_bind] in *.
      exists vb, vm, vx, vw, da, bm, db, nb, mw, nw'. repeat (split; [first [reflexivity|assumption]|]). split; [rewrite Hvd; congruence|]. split; [rewrite Hvb; congruence|]. split; [rewrite (Hoff n3 _ _ R3) by lia; exact Em|]. split; [rewrite (Hoff n2 _ _ R2) by lia; apply V2; exact HC|].
      split; [congruence|]. split; [congruence|]. split; [rewrite Hvi5; congruence|]. split; [rewrite Hvw; congruence|]. repeat (split; [first [reflexivity|assumption]|]). reflexivity. }
    refine (par_from s0 al mo c (q :: rest) s s4 s5 s6 _ e ne W C _ _ _ _ Hch Hh Hpar hs4 f4 T4 HM h56 f56 T58 _ _ _ _ _ _ _).
    + intros x [Hx|[[Hx _]|[Hx|Hx]]]; [apply HWk in Hx as [Hx|Hx]; [left; exact Hx|right; apply R3 in Hx; lia]|left; lia|right; rewrite O17 in Hx; apply R1 in Hx; lia|left; apply (owned_in _ _ _ _ Owm) in Hx; lia].
    + intros c0 Hc0 Hw. unfold zcs, zconst in Hc0. apply elem_of_list_fmap in Hc0 as (x & -> & Hx). apply elem_of_seq in Hx. cbn [fst] in Hw.
      destruct Hw as [Hw|[[Hw _]|[Hw|Hw]]]; [apply HWk in Hw as [Hw|Hw]; [lia|apply R3 in Hw; lia]|lia|rewrite O17 in Hw; apply R1 in Hw; lia|apply (owned_in _ _ _ _ Owm) in Hw; lia].
    + intros m Hm (Hrf & d & a & b & Hd & Ha & Hb & Hp' & Hin & _). split; [exact Hrf|]. intros d' r Hd' Hr Hs. apply Hin. assert (d' = d) as -> by congruence. rewrite s_in_g by exact Hsh. cbn [r_ref rdg]. rewrite Hr. cbn [mbind option_bind]. rewrite Hs. reflexivity.
    + intros m mm Hm HC HB' Rm _. split; [|intros; exact I]. pose proof HB' as (_ & d & a & b & Hd & Ha & Hb & _). destruct (Hrd m mm d a b Hm HC HB' Rm Hd Ha Hb) as (vb & vm & vx & vw & da & bm & db & nb & mw & nw' & X1 & X2 & X3 & X4 & Y1 & Y2 & Y3 & Y4 & Y5 & Y6 & Y7 & Y8 & W1 & W2 & W3 & W4 & W5 & W6 & W7 & W8). split.
      * intros vd' vb' vm' a' b' F1 F2 F3 F4 F5. assert (vd' = d) as -> by congruence. assert (vb' = vb) as -> by congruence. assert (vm' = vm) as -> by congruence. assert (a' = a) as -> by congruence. assert (b' = b) as -> by congruence. exists da, bm, db. repeat (split; [assumption|]). congruence.
      * intros v x F1 F2. assert (v = vzero ws) as -> by congruence. assert (x = b) as -> by congruence. congruence.
    + intros m mm m' d a b Hm HC HB' Rm _ _ HR Hd Ha Hb. destruct (Hrd m mm d a b Hm HC HB' Rm Hd Ha Hb) as (vb & vm & vx & vw & da & bm & db & nb & mw & nw' & X1 & X2 & X3 & X4 & Y1 & Y2 & Y3 & Y4 & Y5 & Y6 & Y7 & Y8 & W1 & W2 & W3 & W4 & W5 & W6 & W7 & W8).
      destruct HR as (m2' & Rk & HRk & R8 & HR8). destruct (HRk _ _ _ _ _ _ Y1 Y2 Y3 Y4 Y5 Y6) as (da' & bm' & db' & P1 & P2 & P3 & P4 & P5 & P6 & P7). assert (da' = da) as -> by congruence. assert (bm' = bm) as -> by congruence. assert (db' = db) as -> by congruence.
      assert (Hlo : forall (nn : node T), (forall x, Some x ∈ operands (nmat nn) -> x < length (mem (ts s0))) -> mval m2' (nmat nn) = mval mm (nmat nn)).
      { intros nn Hx. eapply ran_val; [exact Rk|]. intros x Hi Hw. apply Hx in Hi. apply HWk in Hw as [Hw|Hw]; [lia|]. apply R3 in Hw. lia. }
      exists nb, nw'. split; [exact W7|]. split; [|split].
      * rewrite U2. rewrite (ran_val _ _ _ (nmat nnb) R8); [congruence|]. intros x Hi. apply (owned_in _ _ _ _ Onb) in Hi. intros [Hw|[Hw|Hw]]; [lia|rewrite O17 in Hw; apply R1 in Hw; lia|apply (owned_in _ _ _ _ Owm) in Hw; lia].
      * rewrite U1', U1, <- V17, <- W6. apply HR8; [exact P4| | |rewrite P7; exact W5]; [rewrite Vi7, (Hlo ni5 Hli); exact Y7|rewrite Vw7, (Hlo nw5 Hlw); exact Y8].
      * intros _. rewrite U3', U3, W8. rewrite (ran_val _ _ _ (nmat n3) R8); [exact P5|]. intros x Hi. apply R3 in Hi. intros [Hw|[Hw|Hw]]; [lia|rewrite O17 in Hw; apply R1 in Hw; lia|apply (owned_in _ _ _ _ Owm) in Hw; lia].
    + intros g [-> | [-> | ->]]; [exists (c_sh c)|exists ws|exists (c_sh c)]; (split; [assumption|]); (split; [assumption|]); intros x Hx; [apply Q2, (owned_in _ _ _ _ Onb) in Hx|apply Q1', Q1, R1 in Hx|apply Q3', Q3, R3 in Hx]; lia.
    + exact (zset_zero _ _ s6 _ _ _ _ _ Z3 (held_trans _ _ _ m1 h56)).
Qed.
End Ker.

End TrnKer.
