(** * BwdOps2: back-propagation through deconvolution and dense layers *)
From Verif Require Import Base Num ModelTools ModelOps ModelTensor ModelGraph ModelLayer Spec Denote NetSpec FwdSpec
  IndexProofs ExecProofs TensorFacts AccessProofs BuildProofs BuildFrame CompileProofs EagerOps Agree FwdMask FwdBuild FwdSeg FwdOps FwdPool NetExec NetBuild NetChain FwdBody FwdExpr FwdConv FwdConv2 FwdAct FwdKer FwdDeconv BwdSpec BwdPost BwdLoop BwdOps.
From Coq Require Import Lia ZifyBool ZifyNat ZifyN.

Section BwdOps2.
Context {T : Type} `{Num T}.
Notation inr := (Forall2 (fun i d => (i < d)%N)).

(** ** Deconvolution: new weights *)
Section DeconvW.
Variables (t0 : tst T) (mi mdif mw mwm mnw : tmat) (nf ow oh c w h kw kh sx sy : N).
Hypotheses (Hwi : wf_mat (length (mem t0)) mi) (Hwd : wf_mat (length (mem t0)) mdif).
Hypotheses (Hww : wf_mat (length (mem t0)) mw) (Hwm : wf_mat (length (mem t0)) mwm) (Hwn : wf_mat (length (mem t0)) mnw).
Hypotheses (Hshi : shape mi = [c; w; h]) (Hshd : shape mdif = [nf; ow; oh]) (Hshw : shape mw = [nf; c; kw; kh]) (Hshm : shape mwm = shape mw) (Hshn : shape mnw = shape mw).
Hypotheses (Hndn : NoDup (operands mnw)) (Hndm : NoDup (operands mwm)).
Hypothesis Hwo : forall l, Some l ∈ operands mw -> Some l ∉ operands mnw /\ Some l ∉ operands mwm.
Hypothesis Hmo : forall l, Some l ∈ operands mwm -> Some l ∉ operands mnw.
Hypothesis Hio : forall l, Some l ∈ operands mi -> Some l ∉ operands mnw /\ Some l ∉ operands mwm.
Hypothesis Hdo : forall l, Some l ∈ operands mdif -> Some l ∉ operands mnw /\ Some l ∉ operands mwm.
Hypotheses (Hw0 : (0 < w)%N) (Hh0 : (0 < h)%N) (Hx : ((w - 1) * sx + kw <= ow)%N) (Hy : ((h - 1) * sy + kh <= oh)%N).

Definition dw_p (f i kx ky : N) (p : N * N) : nat * nat := (celladdr mdif [f; fst p * sx + kx; snd p * sy + ky]%N, celladdr mi [i; fst p; snd p]).
Definition dw_ts (q : list N) : list (nat * nat) := match q with [f; kx; ky; i] => map (dw_p f i kx ky) (pairs w h) | _ => [] end.
Definition dw_tgt (q : list N) : list N := match q with [f; kx; ky; i] => [f; i; kx; ky] | _ => [] end.
Lemma dw_in q : inr q [nf; kw; kh; c] -> exists f i kx ky, q = [f; kx; ky; i] /\ inr [f; i; kx; ky] (shape mw) /\
  forall p, p ∈ pairs w h -> inr [f; fst p * sx + kx; snd p * sy + ky]%N (shape mdif) /\ inr [i; fst p; snd p] (shape mi) /\ (fst p * sx + kx < ow)%N /\ (snd p * sy + ky < oh)%N.
Proof using Hshi Hshd Hshw Hx Hy Hw0 Hh0.
  clear - Hshi Hshd Hshw Hx Hy Hw0 Hh0. intros Hq. pose proof (Forall2_length _ _ _ Hq) as Hl. destruct q as [|f [|kx [|ky [|i [|]]]]]; try discriminate.
  repeat (apply Forall2_cons in Hq; destruct Hq as [? Hq]). exists f, i, kx, ky. split; [reflexivity|]. split; [rewrite Hshw; repeat constructor; assumption|].
  intros [X Y] Hp. apply elem_of_pairs in Hp. cbn [fst snd] in *. destruct Hp as [HX HY].
  assert (X * sx + kx < ow)%N by nia. assert (Y * sy + ky < oh)%N by nia. rewrite Hshi, Hshd. repeat split; repeat constructor; assumption.
Qed.
Lemma deconv_w_does : does t0 (deconv_bp_w [c; w; h] nf mi mdif mw mwm mnw kw kh sx sy) (fun x => Some x ∈ operands mnw \/ Some x ∈ operands mwm)
  (fun m m' => forall vd vx vw vm, mval m mdif = Some vd -> mval m mi = Some vx -> mval m mw = Some vw -> mval m mwm = Some vm -> mval m' mnw = g_deconv_w sx sy vd vx vw vm).
Proof using All.
  set (L := indices [nf; kw; kh; c]).
  assert (HL : forall q, q ∈ L -> inr q [nf; kw; kh; c]) by (intros q; apply elem_of_indices).
  assert (HLw : forall q, q ∈ L -> inr (dw_tgt q) (shape mw)) by (intros q Hq; destruct (dw_in q (HL q Hq)) as (f & i & kx & ky & -> & I0 & _); exact I0).
  assert (Hinj : forall p q, p ∈ L -> q ∈ L -> dw_tgt p = dw_tgt q -> p = q).
  { intros p q Hp Hq. destruct (dw_in q (HL q Hq)) as (f & i & kx & ky & -> & I0 & _). destruct (dw_in p (HL p Hp)) as (f' & i' & kx' & ky' & -> & I0' & _). cbn. congruence. }
  assert (Hts : forall q p x, q ∈ L -> p ∈ dw_ts q -> x = fst p \/ x = snd p -> x < length (mem t0) /\ Some x ∉ operands mnw /\ Some x ∉ operands mwm).
  { intros q p x Hq Hp. destruct (dw_in q (HL q Hq)) as (f & i & kx & ky & -> & _ & HP). cbn [dw_ts] in Hp. apply elem_of_list_fmap in Hp as (p' & -> & Hp'). destruct (HP p' Hp') as (I1 & I2 & _).
    destruct (celladdr_at _ _ _ Hwd I1) as (_ & L1 & O1). destruct (celladdr_at _ _ _ Hwi I2) as (_ & L2 & O2). unfold dw_p. cbn [fst snd]. intros [-> | ->]; (split; [assumption|]); [apply Hdo|apply Hio]; assumption. }
  assert (Hne : forall q, q ∈ L -> dw_ts q <> []).
  { intros q Hq. destruct (dw_in q (HL q Hq)) as (f & i & kx & ky & -> & _ & HP). cbn [dw_ts]. assert (H00 : (0, 0)%N ∈ pairs w h) by (apply elem_of_pairs; auto).
    destruct (pairs w h); [inversion H00|discriminate]. }
  assert (Hbig : (ow < W64)%N /\ (oh < W64)%N). { destruct Hwd as ([Hf _] & _). rewrite Hshd, !Forall_cons in Hf. tauto. }
  set (k := kw_k dw_ts). set (u := kw_ops (T:=T) mw mwm mnw dw_tgt dw_ts).
  exists (ltot k L), (lops k u L (length (mem t0))). split; [|split].
  - set (fb := fun q : list N => match q with
      | [outF; kx; ky; inF] =>
        w1 <~ mlift (GetOperand mw [outF; inF; kx; ky]) ;
        m <~ mlift (GetOperand mwm [outF; inF; kx; ky]) ;
        nw <~ mlift (GetOperand mnw [outF; inF; kx; ky]) ;
        opss <~ mmap (urange w) (fun x =>
          mmap (urange h) (fun y =>
            i <~ mlift (GetOperand mi [inF; x; y]) ;
            d <~ mlift (GetOperand mdif [outF; uadd (umul x sx) kx; uadd (umul y sy) ky]) ;
            o <~ alloc nzero ;
            push (OMul o d i) ;~
            mret o)) ;
        dw <~ alloc nzero ;
        push (OSum dw (concat opss)) ;~
        push (OSum nw [w1; dw; m]) ;~
        push (OSet m dw)
      | _ => mpanic end : TM T unit).
    transitivity (mfor L fb t0).
    + unfold deconv_bp_w, L. cbn [nth]. symmetry. do 4 (rewrite mfor_indices_cons; apply mfor_ext; intros ? ? _). rewrite mfor_indices_nil. reflexivity.
    + refine (mfor_grown k u t0 fb L _ t0 eq_refl (le_n _)). intros q t Hq Ht Hlt. pose proof (HLw q Hq) as Hqw. pose proof Hqw as Hqm. rewrite <- Hshm in Hqm. pose proof Hqw as Hqn. rewrite <- Hshn in Hqn.
      destruct (dw_in q (HL q Hq)) as (f & i & kx & ky & -> & _ & HP). cbn [dw_tgt] in *. unfold fb.
      erewrite mbnd_ok by (apply (get_ok _ _ _ _ Hww Hqw)). erewrite mbnd_ok by (apply (get_ok _ _ _ _ Hwm Hqm)). erewrite mbnd_ok by (apply (get_ok _ _ _ _ Hwn Hqn)).
      set (K := fun dw : ptr => push (OSum (Some (celladdr mnw [f; i; kx; ky])) [Some (celladdr mw [f; i; kx; ky]); dw; Some (celladdr mwm [f; i; kx; ky])]) ;~ push (OSet (Some (celladdr mwm [f; i; kx; ky])) dw) : TM T unit).
      etransitivity; [exact (gather2 (urange w) (fun _ => urange h) _ (fun ops => dw <~ alloc nzero ; push (OSum dw ops) ;~ K dw) t)|]. cbv beta. fold (pairs w h).
      rewrite (gather_run _ (dw_p f i kx ky) (pairs w h) t K); unfold K; clear K.
      * erewrite mbnd_ok by apply push_grown. rewrite push_grown, !grown_grown. unfold k, u, kw_k, kw_ops. cbn [dw_ts]. rewrite map_length, !Nat.add_0_r. reflexivity.
      * intros p t1 Hp _ Hlt1. destruct (HP p Hp) as (I1 & I2 & B1 & B2). rewrite !umul_small by lia. rewrite !uadd_small by lia.
        erewrite mbnd_ok by (apply (get_ok _ _ _ _ Hwi I2)). erewrite mbnd_ok by (apply (get_ok _ _ _ _ Hwd I1)). erewrite mbnd_ok by apply alloc_grown. erewrite mbnd_ok by apply push_grown.
        rewrite grown_grown. reflexivity.
  - apply (lops_dst k u L (fun x => Some x ∈ operands mnw \/ Some x ∈ operands mwm) (length (mem t0))); [lia|]. intros q b d Hq Hb Hd.
    pose proof (HLw q Hq) as Hqw. pose proof Hqw as Hqm. rewrite <- Hshm in Hqm. pose proof Hqw as Hqn. rewrite <- Hshn in Hqn.
    destruct (kw_dst mw mwm mnw L dw_tgt dw_ts q b d Hq Hd) as [?|[-> | ->]]; [auto|right; left; apply (celladdr_at _ _ _ Hwn Hqn)|right; right; apply (celladdr_at _ _ _ Hwm Hqm)].
  - intros m Hm. destruct (kw_sem t0 mw mwm mnw L dw_tgt dw_ts Hww Hwm Hwn Hshm Hshn (indices_NoDup _) HLw Hinj Hndn Hndm Hwo Hmo Hts Hne m Hm) as (m' & E & V).
    exists m'. split; [exact E|]. intros vd vx vw vm Evd Evx Evw Evm. unfold g_deconv_w.
    assert (Sx : vsh vx = [c; w; h]) by (rewrite <- Hshi; exact (proj1 (mval_shape _ _ _ Evx))). assert (Sw : vsh vw = shape mnw) by (rewrite Hshn; exact (proj1 (mval_shape _ _ _ Evw))).
    rewrite Sx, Sw. cbn [nth]. apply (mval_tabulate (length (mem t0))); [exact Hwn|]. intros idx Hidx. pose proof Hidx as Hiw. rewrite Hshn in Hiw. pose proof Hiw as Him. rewrite <- Hshm in Him.
    assert (Hq : exists f i kx ky, idx = [f; i; kx; ky] /\ [f; kx; ky; i] ∈ L).
    { clear - Hiw Hshw. rewrite Hshw in Hiw. pose proof (Forall2_length _ _ _ Hiw) as Hl. destruct idx as [|f [|i [|kx [|ky [|]]]]]; try discriminate. exists f, i, kx, ky. split; [reflexivity|].
      repeat (apply Forall2_cons in Hiw; destruct Hiw as [? Hiw]). apply elem_of_indices. repeat constructor; assumption. }
    destruct Hq as (f & i & kx & ky & -> & HqL). destruct (kw_tot mw mwm L dw_tgt dw_ts Hne m _ HqL) as [v Ev]. exists v. split; [|exact (V _ v HqL Ev)].
    destruct (dw_in _ (HL _ HqL)) as (f' & i' & kx' & ky' & [= <- <- <- <-] & _ & HP). rewrite <- Ev. unfold kw_res. cbn [dw_ts dw_tgt]. rewrite indices_pairs, mapM_map.
    rewrite (mapM_Some_map _ (fun p => pmul m (dw_p f i kx ky p))).
    + cbn [mbind option_bind]. rewrite map_map. destruct (fold1 nadd (map _ (pairs w h))) as [s0|]; [|reflexivity]. cbn [mbind option_bind].
      rewrite (el_ev (length (mem t0)) m mw vw) by (assumption || lia). cbn [mbind option_bind]. rewrite (el_ev (length (mem t0)) m mwm vm) by (assumption || lia). reflexivity.
    + intros p Hp. destruct (HP p Hp) as (I1 & I2 & _). rewrite (el_ev (length (mem t0)) m mdif vd) by (assumption || lia). cbn [mbind option_bind]. rewrite (el_ev (length (mem t0)) m mi vx) by (assumption || lia). reflexivity.
Qed.
End DeconvW.

(** ** Sums of products that are multiplied by a derivative and added to an error *)
Section InSum.
Variables (A : Type) (lo : nat) (L : list A) (ts : A -> list (nat * nat)) (der tgt : A -> nat).
Hypotheses (HnL : NoDup L) (Hder : forall i, i ∈ L -> der i < lo) (Htgt : forall i, i ∈ L -> tgt i < lo).
Hypothesis Hinj : forall i j, i ∈ L -> j ∈ L -> tgt i = tgt j -> i = j.
Hypothesis Hdt : forall i j, i ∈ L -> j ∈ L -> der i <> tgt j.
Hypothesis Hts : forall i j p x, i ∈ L -> j ∈ L -> p ∈ ts i -> x = fst p \/ x = snd p -> x < lo /\ x <> tgt j.
Hypothesis Hne : forall i, i ∈ L -> ts i <> [].
(** The multiplication by the derivative goes to a scalar [k] above the sum. *)
Variable (k : nat).
Hypothesis Hk : k <= 1.
Definition is_k (i : A) : nat := length (ts i) + 1 + k.
Definition is_ops (i : A) (a : nat) : list (op T) :=
  gops (ts i) a ++ [OMul (Some (a + length (ts i) + k)) (Some (a + length (ts i))) (Some (der i)); OAdd (Some (tgt i)) (Some (tgt i)) (Some (a + length (ts i) + k))].
Definition is_res (m : list T) (i : A) : option T :=
  s ← fold1 nadd (map (pmul m) (ts i)); Some (nadd (cell m (tgt i)) (nmul s (cell m (der i)))).
Lemma is_tot m i : i ∈ L -> exists v, is_res m i = Some v.
Proof using Hne. intros Hi. unfold is_res. specialize (Hne i Hi). destruct (ts i) as [|p r]; [contradiction|]. cbn [map fold1]. eexists. reflexivity. Qed.
Lemma is_dst i b d : dst_in d (is_ops i b) -> b <= d < b + is_k i \/ d = tgt i.
Proof using Type.
  clear HnL Hder Htgt Hinj Hdt Hts Hne Hk. unfold is_ops, is_k. rewrite dst_in_app, !dst_cons. cbn [op_dst]. intros [Hd|[[= <-]|[[= <-]|Hd]]]; [|left; lia|auto|destruct (dst_nil _ Hd)].
  left. apply gops_dst in Hd. lia.
Qed.
Lemma is_sem (m : list T) a : lo <= a -> a + ltot is_k L <= length m ->
  exists m', exec (lops is_k is_ops L a) m = Some m' /\ forall i v, i ∈ L -> is_res m i = Some v -> m' !! tgt i = Some v.
Proof using All.
  intros Ha Hm. destruct (put_sem is_k is_ops lo (fun i x v => x = tgt i /\ is_res m i = Some v) (fun i d => d = tgt i) (fun i x => x = tgt i) L m) with (a := a) as (m' & E & V).
  - exact HnL.
  - intros i b d Hi _. apply is_dst.
  - intros i x v Hi [-> _]. apply Htgt. exact Hi.
  - intros i j x v Hi Hj Hij [-> _] Ec. apply Hij, Hinj; assumption.
  - intros i x Hi ->. apply Htgt. exact Hi.
  - intros i j x Hi Hj Hij -> Ec. apply Hij, Hinj; assumption.
  - intros i b m1 Hi Hb Hb2 Hl1 Hk1 Hk2. destruct (is_tot m i Hi) as [v Ev]. unfold is_k in Hb2. pose proof (Hder i Hi) as L1. pose proof (Htgt i Hi) as L2.
    unfold is_res in Ev. destruct (fold1 nadd (map (pmul m) (ts i))) as [s|] eqn:Es; [|discriminate]. cbn [mbind option_bind] in Ev. injection Ev as Ev.
    destruct (gops_sem (ts i) m m1 lo b s Hb ltac:(lia) Hl1) as (m2 & E2 & V2 & Hl2 & F2); [|exact Es|].
    { intros p Hp. assert (Hx : forall x, x = fst p \/ x = snd p -> x < lo /\ m1 !! x = m !! x).
      { intros x Hx. destruct (Hts i i p x Hi Hi Hp Hx) as [X1 _]. split; [exact X1|]. apply Hk1; [exact X1|]. intros j Hj. apply (Hts i j p x Hi Hj Hp Hx). }
      split; [apply Hx; auto|]. split; [apply Hx; auto|]. split; apply Hx; auto. }
    assert (W1 : m2 !! der i = Some (cell m (der i))). { rewrite F2 by lia. rewrite Hk1; [apply cell_at; lia|exact L1|]. intros j Hj. apply Hdt; assumption. }
    assert (W2 : m2 !! tgt i = Some (cell m (tgt i))). { rewrite F2 by lia. rewrite Hk2 by reflexivity. apply cell_at. lia. }
    eexists. split.
    + unfold is_ops. rewrite exec_app, E2. cbn [mbind option_bind].
      rewrite (exec_step _ (b + length (ts i) + k) _ m2 (nmul s (cell m (der i)))); [|reflexivity|lia|cbn; rewrite V2, W1; reflexivity].
      rewrite (exec_step _ (tgt i) _ _ v); [reflexivity|reflexivity|rewrite insert_length; lia|]. cbn. rewrite (list_lookup_insert_ne _ _ (tgt i)) by lia. rewrite W2. rewrite list_lookup_insert by lia. cbn. f_equal. exact Ev.
    + intros x v' [-> Hv']. rewrite list_lookup_insert by (rewrite insert_length; lia). unfold is_res in Hv'. rewrite Es in Hv'. cbn [mbind option_bind] in Hv'. congruence.
  - exact Ha.
  - exact Hm.
  - exists m'. split; [exact E|]. intros i v Hi Hv. apply (V i); [exact Hi|]. split; [reflexivity|exact Hv].
Qed.
End InSum.

(** ** Deconvolution: errors of the input *)
Section DeconvIn.
Variables (t0 : tst T) (md mw mder mp : tmat) (nf ow oh c w h kw kh sx sy : N).
Hypotheses (Hwd : wf_mat (length (mem t0)) md) (Hww : wf_mat (length (mem t0)) mw) (Hwa : wf_mat (length (mem t0)) mder) (Hwp : wf_mat (length (mem t0)) mp).
Hypotheses (Hshd : shape md = [nf; ow; oh]) (Hshw : shape mw = [nf; c; kw; kh]) (Hsha : shape mder = [c; w; h]) (Hshp : shape mp = [c; w; h]).
Hypotheses (Hnd : NoDup (operands mp)).
Hypothesis Hdd : forall l, Some l ∈ operands md -> Some l ∉ operands mp.
Hypothesis Hdw : forall l, Some l ∈ operands mw -> Some l ∉ operands mp.
Hypothesis Hda : forall l, Some l ∈ operands mder -> Some l ∉ operands mp.
Hypotheses (Hnf0 : (0 < nf)%N) (Hkw0 : (0 < kw)%N) (Hkh0 : (0 < kh)%N) (Hx : ((w - 1) * sx + kw <= ow)%N) (Hy : ((h - 1) * sy + kh <= oh)%N).

Definition di_p (i x y : N) (p : N * N * N) : nat * nat :=
  (celladdr md [fst (fst p); x * sx + snd (fst p); y * sy + snd p]%N, celladdr mw [fst (fst p); i; snd (fst p); snd p]).
Definition di_ts (q : list N) : list (nat * nat) := match q with [i; x; y] => map (di_p i x y) (triples nf kw kh) | _ => [] end.
Lemma di_in q : inr q [c; w; h] -> exists i x y, q = [i; x; y] /\
  forall p, p ∈ triples nf kw kh -> inr [fst (fst p); x * sx + snd (fst p); y * sy + snd p]%N (shape md) /\ inr [fst (fst p); i; snd (fst p); snd p] (shape mw) /\
    (x * sx + snd (fst p) < ow)%N /\ (y * sy + snd p < oh)%N.
Proof using Hshd Hshw Hx Hy.
  clear - Hshd Hshw Hx Hy. intros Hq. pose proof (Forall2_length _ _ _ Hq) as Hl. destruct q as [|i [|x [|y [|]]]]; try discriminate.
  repeat (apply Forall2_cons in Hq; destruct Hq as [? Hq]). exists i, x, y. split; [reflexivity|].
  intros [[f kx] ky] Hp. apply elem_of_triples in Hp. cbn [fst snd] in *. destruct Hp as (Hf & HX & HY).
  assert (x * sx + kx < ow)%N by nia. assert (y * sy + ky < oh)%N by nia. rewrite Hshd, Hshw. repeat split; repeat constructor; assumption.
Qed.
Lemma deconv_in_does : does t0 (deconv_bp_in [c; w; h] nf md mw mder mp kw kh sx sy) (fun x => Some x ∈ operands mp)
  (fun m m' => forall vd vw va vp, mval m md = Some vd -> mval m mw = Some vw -> mval m mder = Some va -> mval m mp = Some vp -> mval m' mp = g_deconv_in kw kh sx sy vd vw va vp).
Proof using All.
  set (L := indices [c; w; h]).
  assert (HL : forall q, q ∈ L -> inr q [c; w; h]) by (intros q; apply elem_of_indices).
  assert (HLp : forall q, q ∈ L -> inr q (shape mp)) by (intros q Hq; rewrite Hshp; apply HL; exact Hq).
  assert (HLa : forall q, q ∈ L -> inr q (shape mder)) by (intros q Hq; rewrite Hsha; apply HL; exact Hq).
  assert (Hder : forall q, q ∈ L -> celladdr mder q < length (mem t0)) by (intros q Hq; apply (celladdr_at _ _ _ Hwa (HLa q Hq))).
  assert (Htgt : forall q, q ∈ L -> celladdr mp q < length (mem t0)) by (intros q Hq; apply (celladdr_at _ _ _ Hwp (HLp q Hq))).
  assert (Hinj : forall p q, p ∈ L -> q ∈ L -> celladdr mp p = celladdr mp q -> p = q).
  { intros p q Hp Hq E. eapply celladdr_inj; [exact Hwp|exact Hnd|apply HLp; exact Hp|apply HLp; exact Hq|exact E]. }
  assert (Hoff : forall x q, q ∈ L -> Some x ∉ operands mp -> x <> celladdr mp q).
  { intros x q Hq Hn ->. apply Hn. apply (celladdr_at _ _ _ Hwp (HLp q Hq)). }
  assert (Hdt : forall p q, p ∈ L -> q ∈ L -> celladdr mder p <> celladdr mp q).
  { intros p q Hp Hq. apply Hoff; [exact Hq|]. apply Hda, (celladdr_at _ _ _ Hwa (HLa p Hp)). }
  assert (Hts : forall q r p x, q ∈ L -> r ∈ L -> p ∈ di_ts q -> x = fst p \/ x = snd p -> x < length (mem t0) /\ x <> celladdr mp r).
  { intros q r p x Hq Hr Hp. destruct (di_in q (HL q Hq)) as (i & x0 & y & -> & HP). cbn [di_ts] in Hp. apply elem_of_list_fmap in Hp as (p' & -> & Hp'). destruct (HP p' Hp') as (I1 & I2 & _).
    destruct (celladdr_at _ _ _ Hwd I1) as (_ & L1 & O1). destruct (celladdr_at _ _ _ Hww I2) as (_ & L2 & O2). unfold di_p. cbn [fst snd].
    intros [-> | ->]; (split; [assumption|]); apply Hoff; try exact Hr; [apply Hdd|apply Hdw]; assumption. }
  assert (Hne : forall q, q ∈ L -> di_ts q <> []).
  { intros q Hq. destruct (di_in q (HL q Hq)) as (i & x & y & -> & HP). cbn [di_ts]. assert (H00 : (0, 0, 0)%N ∈ triples nf kw kh) by (apply elem_of_triples; auto).
    destruct (triples nf kw kh); [inversion H00|discriminate]. }
  assert (Hbig : (ow < W64)%N /\ (oh < W64)%N). { destruct Hwd as ([Hf _] & _). rewrite Hshd, !Forall_cons in Hf. tauto. }
  set (k := is_k _ di_ts 0). set (u := is_ops _ di_ts (celladdr mder) (celladdr mp) 0).
  exists (ltot k L), (lops k u L (length (mem t0))). split; [|split].
  - set (fb := fun q : list N => match q with
      | [inF; x; y] =>
        pder <~ mlift (GetOperand mder [inF; x; y]) ;
        pdif <~ mlift (GetOperand mp [inF; x; y]) ;
        opss <~ mmap (urange nf) (fun outF =>
          mmap (urange kw) (fun kx =>
          mmap (urange kh) (fun ky =>
            d <~ mlift (GetOperand md [outF; uadd (umul x sx) kx; uadd (umul y sy) ky]) ;
            w <~ mlift (GetOperand mw [outF; inF; kx; ky]) ;
            o <~ alloc nzero ;
            push (OMul o d w) ;~
            mret o))) ;
        nd <~ alloc nzero ;
        push (OSum nd (concat (concat opss))) ;~
        push (OMul nd nd pder) ;~
        push (OAdd pdif pdif nd)
      | _ => mpanic end : TM T unit).
    transitivity (mfor L fb t0).
    + unfold deconv_bp_in, L. cbn [nth]. symmetry. do 3 (rewrite mfor_indices_cons; apply mfor_ext; intros ? ? _). rewrite mfor_indices_nil. reflexivity.
    + refine (mfor_grown k u t0 fb L _ t0 eq_refl (le_n _)). intros q t Hq Ht Hlt. pose proof (HLp q Hq) as Hqp. pose proof (HLa q Hq) as Hqa.
      destruct (di_in q (HL q Hq)) as (i & x & y & -> & HP). unfold fb.
      erewrite mbnd_ok by (apply (get_ok _ _ _ _ Hwa Hqa)). erewrite mbnd_ok by (apply (get_ok _ _ _ _ Hwp Hqp)).
      set (K := fun nd : ptr => push (OMul nd nd (Some (celladdr mder [i; x; y]))) ;~ push (OAdd (Some (celladdr mp [i; x; y])) (Some (celladdr mp [i; x; y])) nd) : TM T unit).
      etransitivity; [exact (gather2 (urange nf) (fun _ => urange kw) _ (fun ops => dw <~ alloc nzero ; push (OSum dw (concat ops)) ;~ K dw) t)|]. cbv beta. fold (pairs nf kw).
      etransitivity; [exact (gather2 (pairs nf kw) (fun _ => urange kh) _ (fun ops => dw <~ alloc nzero ; push (OSum dw ops) ;~ K dw) t)|]. cbv beta. fold (triples nf kw kh).
      rewrite (gather_run _ (di_p i x y) (triples nf kw kh) t K); unfold K; clear K.
      * erewrite mbnd_ok by apply push_grown. rewrite push_grown, !grown_grown. unfold k, u, is_k, is_ops. cbn [di_ts]. rewrite map_length, !Nat.add_0_r. reflexivity.
      * intros p t1 Hp _ Hlt1. destruct (HP p Hp) as (I1 & I2 & B1 & B2). rewrite !umul_small by lia. rewrite !uadd_small by lia.
        erewrite mbnd_ok by (apply (get_ok _ _ _ _ Hwd I1)). erewrite mbnd_ok by (apply (get_ok _ _ _ _ Hww I2)). erewrite mbnd_ok by apply alloc_grown. erewrite mbnd_ok by apply push_grown.
        rewrite grown_grown. reflexivity.
  - apply (lops_dst k u L (fun x => Some x ∈ operands mp) (length (mem t0))); [lia|]. intros q b d Hq Hb Hd.
    destruct (is_dst _ di_ts (celladdr mder) (celladdr mp) 0 q b d Hd) as [?| ->]; [auto|right; apply (celladdr_at _ _ _ Hwp (HLp q Hq))].
  - intros m Hm. destruct (is_sem _ (length (mem t0)) L di_ts (celladdr mder) (celladdr mp) (indices_NoDup _) Hder Htgt Hinj Hdt Hts Hne 0 (le_S _ _ (le_n _)) m (length (mem t0)) (le_n _) Hm) as (m' & E & V).
    exists m'. split; [exact E|]. intros vd vw va vp Evd Evw Eva Evp. unfold g_deconv_in.
    assert (Sd : vsh vd = [nf; ow; oh]) by (rewrite <- Hshd; exact (proj1 (mval_shape _ _ _ Evd))). assert (Sp : vsh vp = shape mp) by exact (proj1 (mval_shape _ _ _ Evp)).
    rewrite Sd, Sp. cbn [nth]. apply (mval_tabulate (length (mem t0))); [exact Hwp|]. intros idx Hidx. pose proof Hidx as Hia. rewrite Hshp, <- Hsha in Hia.
    assert (HqL : idx ∈ L) by (apply elem_of_indices; rewrite <- Hshp; exact Hidx). destruct (is_tot _ L di_ts (celladdr mder) (celladdr mp) Hne m idx HqL) as [v Ev]. exists v. split; [|exact (V idx v HqL Ev)].
    destruct (di_in idx (HL idx HqL)) as (i & x & y & -> & HP). rewrite <- Ev. unfold is_res. cbn [di_ts]. rewrite indices_triples, mapM_map.
    rewrite (mapM_Some_map _ (fun p => pmul m (di_p i x y p))).
    + cbn [mbind option_bind]. rewrite map_map. destruct (fold1 nadd (map _ (triples nf kw kh))) as [s0|]; [|reflexivity]. cbn [mbind option_bind].
      rewrite (el_ev (length (mem t0)) m mder va) by (assumption || lia). cbn [mbind option_bind]. rewrite (el_ev (length (mem t0)) m mp vp) by (assumption || lia). reflexivity.
    + intros p Hp. destruct (HP p Hp) as (I1 & I2 & _). rewrite (el_ev (length (mem t0)) m md vd) by (assumption || lia). cbn [mbind option_bind]. rewrite (el_ev (length (mem t0)) m mw vw) by (assumption || lia). reflexivity.
Qed.
End DeconvIn.
End BwdOps2.
