(** * TrnPrep: a compiled chain of layers can be prepared for training *)
From stdpp Require Import relations.
From Verif Require Import Base Num ModelTools ModelOps ModelTensor ModelGraph ModelLayer ModelModel Spec NetSpec FwdSpec Denote
  IndexProofs ExecProofs TensorFacts AccessProofs BuildProofs CompileProofs Agree FwdMask FwdBuild FwdSeg FwdOps FwdPool NetBuild NetChain FwdBody
  FwdNet FwdCount FwdChain FwdRun FwdScript FwdProg
  BwdSpec TrnSpec TrnScript TrnTri TrnSite TrnDer TrnBody TrnChain TrnFit TrnComp TrnRun TrnAux TrnLine.
From Coq Require Import Lia ZifyBool ZifyNat ZifyN.

Section TrnPrep.
Context {T : Type} `{Num T}.
Implicit Types (s : lst T) (c q p : clay T) (cs rest : list (clay T)).

Lemma lspec_kind (tn : list (node T)) (L : layer T) l c : lspec_of tn L = Some l -> c_l c = Some l -> (forall a b d, l <> SSub a b d) -> kind_is L c.
Proof using Type.
  intros E Hc Hs. unfold kind_is. rewrite Hc. unfold lspec_of in E. destruct (lkind_of L) eqn:EL; try discriminate;
    repeat (match type of E with (?x ≫= _) = _ => destruct x eqn:?; [|discriminate E]; cbn [mbind option_bind] in E end);
    try (destruct (shape _) as [|? [|]]; try discriminate E); injection E as <-; try reflexivity.
  exfalso. eapply Hs. reflexivity.
Qed.

Lemma lead_le : forall l : list (clay T), lead l <= length l.
Proof using Type. induction l as [|p l IH]; cbn [lead length]; [lia|]. destruct (flat p); lia. Qed.
Lemma valid_lt n a : valid n (Some a) -> a < n.
Proof using Type. intros (l & [= <-] & Hl). exact Hl. Qed.

Section Prep.
Variables (U : list nat) (s0 s1 : lst T) (rnd : nat -> nat -> T) (cs : list (clay T)) (C : list (nat * T)) (W : nat -> Prop) (sf s' : lst T).
Hypothesis SI : FwdChain.site U s1.
Hypothesis Htn : tens (ts s1) = tens (ts s0).
Hypothesis Halk : forall p L0, p ∈ cs -> lays s0 !! c_i p = Some L0 -> exists L1, lays s1 !! c_i p = Some L1 /\ bsame L0 L1.
Hypothesis F : finv U s1 rnd (map c_i cs ++ []) C W sf.
Hypothesis A : aux U s1 C W sf cs.
Hypothesis Hnd : NoDup (map c_i cs).
Hypothesis Hty : forall k, k <= length cs -> neqb (tally (T:=T) k) nzero = false.
Hypothesis El : lays s' = lays sf.
Hypothesis Et : exists x, tens (ts s') = tens (ts sf) ++ x.
(** The memory may have changed since, but not the counters and the constants. *)
Hypothesis Em : length (mem (ts sf)) <= length (mem (ts s')) /\ consts C (mem (ts s')) /\
  forall p r v, p ∈ cs -> refc sf (c_i p) = Some r -> mem (ts sf) !! r = Some v -> mem (ts s') !! r = Some v.
Notation A0 := (length (mem (ts s1))).

(** ** What is added later changes nothing *)
Lemma Kp : keeps (ts sf) (ts s').
Proof using Et. destruct Et as (x & E). eapply keeps_add. exact E. Qed.
Lemma Lp : length (mem (ts sf)) <= length (mem (ts s')).
Proof using Em. apply Em. Qed.
Lemma Tp t n : tens (ts sf) !! t = Some n -> tens (ts s') !! t = Some n.
Proof using Et. destruct Et as (y & E). rewrite E. apply lookup_app_l_Some. Qed.
Lemma fidp i f : fid s' i f = fid sf i f.
Proof using El. unfold fid. rewrite El. reflexivity. Qed.
Lemma refp i : refc s' i = refc sf i.
Proof using El. unfold refc. rewrite El. reflexivity. Qed.
Lemma maxp i : maxc s' i = maxc sf i.
Proof using El. unfold maxc. rewrite El. reflexivity. Qed.
Lemma nodep_ p f : p ∈ cs -> seenf f -> fnode s' (c_i p) f = fnode sf (c_i p) f.
Proof using A El Et.
  intros Hp Hf. unfold fnode. rewrite fidp. destruct (fid sf (c_i p) f) as [t|] eqn:Ef; [|reflexivity]. cbn [mbind option_bind].
  destruct (la_seen _ _ _ _ _ (xa_lay _ _ _ _ _ _ A p Hp) f t Hf Ef) as (n & Hn & _). rewrite Hn. apply Tp. exact Hn.
Qed.
Lemma cellp p f a : p ∈ cs -> seenf f -> cells s' (c_i p) f a <-> cells sf (c_i p) f a.
Proof using A El Et. intros Hp Hf. unfold cells. rewrite (nodep_ p f Hp Hf). reflexivity. Qed.
Lemma fvalp p f m : p ∈ cs -> seenf f -> fval s' (c_i p) f m = fval sf (c_i p) f m.
Proof using A El Et. intros Hp Hf. unfold fval. rewrite (nodep_ p f Hp Hf). reflexivity. Qed.
Lemma in_D p : p ∈ cs -> c_i p ∈ map c_i cs ++ [].
Proof using Type. intros Hp. apply elem_of_app. left. apply elem_of_list_fmap. eauto. Qed.
Lemma D_in i : i ∈ map c_i cs ++ [] -> exists p, p ∈ cs /\ i = c_i p.
Proof using Type. rewrite app_nil_r. intros Hi. apply elem_of_list_fmap in Hi. destruct Hi as (p & E & Hp). eauto. Qed.
Lemma okp p f t n sh : fid sf (c_i p) f = Some t -> tens (ts sf) !! t = Some n -> settled n -> wf_mat (length (mem (ts sf))) (nmat n) -> shape (nmat n) = sh -> ok s' (c_i p) f sh.
Proof using El Et Em.
  intros Ef Hn Hs Hw Hsh. exists t, n. split; [rewrite fidp; exact Ef|]. split; [apply Tp; exact Hn|]. split; [exact Hs|]. split; [eapply wf_mat_mono; [exact Hw|exact Lp]|exact Hsh].
Qed.
Lemma seen_io : seenf FInput /\ seenf FOutput /\ seenf FNeta /\ seenf FBias /\ seenf FWeights.
Proof using Type. clear. unfold seenf, readf. tauto. Qed.

(** ** One layer *)
Section Lay.
Variables (p : clay T) (r : list (clay T)) (ep : net T).
Hypothesis Hp : p ∈ cs.
Hypothesis Hln : lined U s1 (p :: r) ep.
Record known (L0 L1 L : layer T) (no : node T) (to_ : nat) : Prop := {
  kn_0 : lays s0 !! c_i p = Some L0;
  kn_1 : lays s1 !! c_i p = Some L1;
  kn_f : lays sf !! c_i p = Some L;
  kn_same : bsame L0 L1;
  kn_kind : lkind_of L = lkind_of L1;
  kn_act : lact L = lact L1;
  kn_pre : lpre L = lpre L1;
  kn_flag : forall f, f <> BFF -> lflag L f = lflag L1 f;
  kn_out : fid sf (c_i p) FOutput = Some to_;
  kn_node : tens (ts sf) !! to_ = Some no;
  kn_set : settled no;
  kn_wf : wf_mat (length (mem (ts sf))) (nmat no);
  kn_sh : shape (nmat no) = c_sh p;
  kn_in : lpre L1 = None -> lkind_of L1 = LInput \/ lkind_of L1 = LDense -> lten L FInput = lten L1 FInput;
  kn_par : forall l, lspec_of (tens (ts s1)) L1 = Some l -> has_par l = true -> exists bs ws, top_par (insh s1) ep = Some (bs, ws) /\
      own_field (fun a => A0 <= a /\ ~ W a) (drawn rnd bs) (ts sf) L FBias /\ own_field (fun a => A0 <= a /\ ~ W a) (drawn rnd ws) (ts sf) L FWeights;
  kn_stand : stands s1 (c_i p) ep;
}.
Lemma know L0 : lays s0 !! c_i p = Some L0 -> exists L1 L no to_, known L0 L1 L no to_.
Proof using All.
  intros E0. destruct (Halk p L0 Hp E0) as (L1 & E1 & Hb). destruct (lined_stands U s1 SI (p :: r) p r ep eq_refl Hln) as [Hst Hsh].
  destruct (fi_done _ _ _ _ _ _ _ F (c_i p) (in_D p Hp)) as (L1' & L & n & d & sh & e & D1 & D2 & D3 & D4 & D5 & D6 & D7 & D8 & D9 & D10 & D11 & D12 & [D13 D14] & D15 & D16).
  assert (L1' = L1) as -> by congruence. assert (e = ep) as -> by (eapply stands_inj; eassumption).
  destruct (fi_more _ _ _ _ _ _ _ F (c_i p) (in_D p Hp)) as (M1 & M & N1 & N2 & N3 & _). assert (M1 = L1) as -> by congruence. assert (M = L) as -> by congruence.
  unfold outnode in D9. rewrite D2 in D9. cbn [mbind option_bind] in D9. destruct (lten L FOutput) as [to_|] eqn:Eo; [|discriminate]. cbn [mbind option_bind] in D9.
  exists L1, L, n, to_. constructor; try assumption.
  - rewrite (fid_lay _ _ _ _ D2). exact Eo.
  - congruence.
Qed.
End Lay.

(** *** What every layer has *)
Definition refd p : Prop := exists r k, refc sf (c_i p) = Some r /\ k <= length cs /\ mem (ts sf) !! r = Some (tally k).
Section Parts.
Variables (p : clay T) (ep : net T) (L0 L1 L : layer T) (no : node T) (to_ : nat).
Hypothesis Hp : p ∈ cs.
Hypothesis Hkn : known p ep L0 L1 L no to_.
Hypothesis Hnew : newlay L0 p.
Lemma lay_ref : refd p -> exists r v, lref L = Some r /\ mem (ts s') !! r = Some v /\ neqb v nzero = false.
Proof using Hp Hkn Hty Em.
  intros (rr & k & E1 & E2 & E3). pose proof (proj2 (proj2 Em) p rr _ Hp E1 E3) as E4. unfold refc in E1. rewrite (kn_f _ _ _ _ _ _ _ Hkn) in E1. cbn [mbind option_bind] in E1.
  exists rr, (tally k). split; [exact E1|]. split; [exact E4|apply Hty; exact E2].
Qed.
Lemma lay_dif : ok s' (c_i p) FDif (c_sh p) /\ forall n, fnode s' (c_i p) FDif = Some n -> NoDup (operands (nmat n)).
Proof using A El Em Et Hp.
  destruct (la_dif _ _ _ _ _ (xa_lay _ _ _ _ _ _ A p Hp)) as (d & a & b & E1 & E2 & _). destruct (la_seen _ _ _ _ _ (xa_lay _ _ _ _ _ _ A p Hp) FDif d seen_dif E1) as (n & Hn & Hs & Hw).
  assert (n = MkNode KMat (blkm (c_sh p) a b)) as -> by congruence. split.
  - eapply okp; [exact E1|exact Hn|exact Hs|exact Hw|reflexivity].
  - intros n. rewrite (nodep_ p FDif Hp seen_dif). unfold fnode. rewrite E1. cbn [mbind option_bind]. rewrite E2. intros [= <-]. cbn [nmat blkm operands].
    apply NoDup_fmap_2; [intros x y [=]; assumption|apply NoDup_seq].
Qed.
Lemma lay_base : base p = true -> ok s' (c_i p) FNeta (c_sh p) /\ exists a, lact L = Some a /\ act_d a = c_d p.
Proof using A El Em Et Hp Hkn Hnew.
  intros Hb. pose proof (la_neta _ _ _ _ _ (xa_lay _ _ _ _ _ _ A p Hp)) as Hn. rewrite Hb in Hn. destruct Hn as (t & n & E1 & E2 & E3).
  destruct (la_seen _ _ _ _ _ (xa_lay _ _ _ _ _ _ A p Hp) FNeta t ltac:(apply seen_io) E1) as (n' & Hn & Hs & Hw). assert (n' = n) as -> by congruence.
  split; [eapply okp; eassumption|]. destruct (nl_act _ _ Hnew Hb) as (a & Ea & Ed). exists a. split; [|exact Ed]. rewrite (kn_act _ _ _ _ _ _ _ Hkn).
  destruct (kn_same _ _ _ _ _ _ _ Hkn) as ((_ & Hx & _) & _). congruence.
Qed.
Lemma lay_maxs a b : c_l p = Some (SNorm a b) -> exists k, lmaxs L = Some k /\ k < length (mem (ts s')).
Proof using A Em Hp Hkn.
  intros Hc. pose proof (la_max _ _ _ _ _ (xa_lay _ _ _ _ _ _ A p Hp)) as Hm. rewrite Hc in Hm. destruct Hm as (k & E1 & E2). unfold maxc in E1. rewrite (kn_f _ _ _ _ _ _ _ Hkn) in E1. cbn [mbind option_bind] in E1.
  exists k. split; [exact E1|]. exact (Nat.lt_le_trans _ _ _ (proj2 E2) Lp).
Qed.
Lemma lay_outok : ok s' (c_i p) FOutput (c_sh p).
Proof using El Em Et Hkn. destruct Hkn. eapply okp; eassumption. Qed.
Lemma own_ok (P : nat -> Prop) sh f : own_field P (drawn rnd sh) (ts sf) L f -> ok s' (c_i p) f sh.
Proof using El Em Et Hkn.
  intros (t & n & E1 & E2 & E3 & E4 & E5 & v & E6 & (k & ->)). eapply okp; [rewrite (fid_lay _ _ _ _ (kn_f _ _ _ _ _ _ _ Hkn)); exact E1|exact E2|exact E3|exact E4|].
  rewrite <- (proj1 (mval_shape _ _ _ E6)). reflexivity.
Qed.
Lemma site_base : c_l p = None -> lkind_of L1 = LInput -> lpre L1 = None -> refd p -> lay_site s' p (c_sh p) L.
Proof using All.
  intros Hc Hk Hl Hr. pose proof (kn_wf _ _ _ _ _ _ _ Hkn) as (Hfi & _). rewrite (kn_sh _ _ _ _ _ _ _ Hkn) in Hfi. constructor.
  - rewrite El. apply (kn_f _ _ _ _ _ _ _ Hkn).
  - unfold kind_is. rewrite Hc. rewrite (kn_kind _ _ _ _ _ _ _ Hkn), (kn_pre _ _ _ _ _ _ _ Hkn). auto.
  - intros k E. congruence.
  - auto.
  - apply lay_ref. exact Hr.
  - exact lay_dif.
  - congruence.
  - exact lay_base.
  - intros k E. congruence.
  - intros a b E. congruence.
Qed.
Lemma site_lay l psh ti ni : c_l p = Some l -> lspec_of (tens (ts s1)) L1 = Some l -> lay_shape l psh = Some (c_sh p) -> train_fit l psh = true ->
  fid sf (c_i p) FInput = Some ti -> tens (ts sf) !! ti = Some ni -> settled ni -> wf_mat (length (mem (ts sf))) (nmat ni) -> shape (nmat ni) = psh ->
  top_par (insh s1) ep = par_shape l psh -> refd p -> lay_site s' p psh L.
Proof using All.
  intros Hc Hl Hls Htf Ei En Hse Hw Hsh Htp Hr. pose proof (kn_wf _ _ _ _ _ _ _ Hkn) as (Hfi & _). rewrite (kn_sh _ _ _ _ _ _ _ Hkn) in Hfi. constructor.
  - rewrite El. apply (kn_f _ _ _ _ _ _ _ Hkn).
  - pose proof (lspec_kind _ _ _ p Hl Hc (fit_nosub _ _ Htf)) as Hk. unfold kind_is in *. rewrite Hc in *. rewrite (kn_kind _ _ _ _ _ _ _ Hkn). exact Hk.
  - intros k E. assert (k = l) as -> by congruence. auto.
  - split; [|exact Hfi]. destruct Hw as (Hw & _). rewrite Hsh in Hw. exact Hw.
  - apply lay_ref. exact Hr.
  - exact lay_dif.
  - intros _. split; [eapply okp; eassumption|exact lay_outok].
  - exact lay_base.
  - intros k E Hh. assert (k = l) as -> by congruence. destruct (kn_par _ _ _ _ _ _ _ Hkn l Hl Hh) as (bs & ws & E1 & E2 & E3). exists bs, ws.
    split; [congruence|]. split; eapply own_ok; eassumption.
  - exact lay_maxs.
Qed.
End Parts.

(** ** The chain *)
Lemma spec_dense_kind tn (L : layer T) l : lspec_of tn L = Some l -> lkind_of L = LDense -> exists o f, l = SDense o f.
Proof using Type. intros E Hk. eapply lspec_dense; eassumption. Qed.
Lemma mk_chain : forall l ep k, (forall p, p ∈ l -> p ∈ cs) -> cline s0 l -> lined U s1 l ep -> link U s1 sf l -> refsok s1 sf k l -> k + length l <= length cs -> chain s' l.
Proof using All.
  induction l as [|p r IH]; intros ep k Hin Hcl Hln Hlk Hrf Hk; [destruct Hcl|].
  pose proof (Hin p ltac:(left)) as Hp. destruct Hcl as (L0 & E0 & Hnew & Hcl). destruct (know p r ep Hp Hln L0 E0) as (L1 & L & no & to_ & Hkn).
  pose proof (kn_1 _ _ _ _ _ _ _ Hkn) as E1. destruct (kn_same _ _ _ _ _ _ _ Hkn) as (Hal & _).
  assert (Hr : refd p). { destruct Hrf as ((rr & _ & R2 & R3) & _). exists rr, (k + lead (p :: r)). split; [exact R2|]. split; [pose proof (lead_le (p :: r)); lia|exact R3]. }
  destruct r as [|q r'].
  - destruct Hcl as (t & Cp & Ct & Cc). destruct Hlk as ((ti & K1 & K2 & K3) & _). pose proof Hln as (L1' & E1' & N1 & N2 & N3 & (t1 & N4 & N5 & N6)). assert (L1' = L1) as -> by congruence.
    destruct (c_l p) as [l|] eqn:Ec.
    + destruct N6 as (M1 & M2 & M3 & sh0 & M4 & M5). destruct (spec_dense_kind _ _ _ M2 M1) as (o & f & ->).
      destruct (in_node U s1 SI rnd _ _ _ _ ti F K2) as (ni & G1 & G2 & G3 & G4).
      assert (ti = t1). { pose proof (kn_in _ _ _ _ _ _ _ Hkn N4 (or_intror M1)) as Hx. rewrite (fid_lay _ _ _ _ (kn_f _ _ _ _ _ _ _ Hkn)) in K1. congruence. } subst ti.
      assert (Esh : shape (nmat ni) = sh0) by congruence.
      exists L, sh0. split; [|split; [rewrite (kn_pre _ _ _ _ _ _ _ Hkn); exact N4|rewrite Ec; exact I]].
      eapply (site_lay p ep L0 L1 L no to_ Hp Hkn Hnew (SDense o f) sh0 t1 ni); try assumption.
      * destruct Cc as (_ & _ & shx & _ & _ & Hx). exact Hx.
      * rewrite M3. cbn [top_par nshape]. rewrite M4. cbn [mbind option_bind]. rewrite <- Esh. unfold fit. rewrite (proj2 (fitsb_fits _) (proj1 G3)). reflexivity.
    + destruct N6 as (M1 & M2 & M3). exists L, (c_sh p). split; [eapply site_base; eassumption|]. split; [rewrite (kn_pre _ _ _ _ _ _ _ Hkn); exact N4|rewrite Ec; exact I].
  - destruct Hcl as (l & Cc & Cs & Cp & Cls & Cf & Cr). destruct Hlk as ((K1 & K2) & Kr). pose proof Hln as (L1' & E1' & N1 & N2 & N3 & (l1 & e0 & N4 & N5 & N6 & N7 & N8 & N9 & N10)).
    assert (L1' = L1) as -> by congruence. assert (l1 = l) as -> by congruence. pose proof (Hin q ltac:(right; left)) as Hq.
    pose proof Cr as (Lq0 & Eq0 & Hnq & _). destruct (know q r' e0 Hq N10 Lq0 Eq0) as (Lq1 & Lq & nq & tq & Hkq).
    exists L. assert (chain s' (q :: r')) as Hch.
    { apply (IH e0 (if flat p then S k else 0)); [intros x Hx; apply Hin; right; exact Hx|exact Cr|exact N10|exact Kr|exact (proj2 Hrf)|]. cbn [length] in *. destruct (flat p); lia. }
    split; [|split; [rewrite (kn_pre _ _ _ _ _ _ _ Hkn); exact N7|split; [congruence|split; [|exact Hch]]]].
    + eapply (site_lay p ep L0 L1 L no to_ Hp Hkn Hnew l (c_sh q) tq nq); try assumption.
      * rewrite K1. apply (kn_out _ _ _ _ _ _ _ Hkq).
      * apply (kn_node _ _ _ _ _ _ _ Hkq).
      * apply (kn_set _ _ _ _ _ _ _ Hkq).
      * apply (kn_wf _ _ _ _ _ _ _ Hkq).
      * apply (kn_sh _ _ _ _ _ _ _ Hkq).
      * rewrite N8. cbn [top_par]. destruct (lined_stands U s1 SI (q :: r') q r' e0 eq_refl N10) as [_ ->]. reflexivity.
    + assert (Hoff : (forall x a, x ∈ q :: r' -> cells sf (c_i p) FDif a -> ~ cells sf (c_i x) FDif a) -> forall x a, x ∈ q :: r' -> cells s' (c_i p) FDif a -> ~ cells s' (c_i x) FDif a).
      { intros Hx x a Hxi Ha. rewrite (cellp x FDif a (Hin x ltac:(right; exact Hxi)) seen_dif). apply Hx; [exact Hxi|]. apply (cellp p FDif a Hp seen_dif). exact Ha. }
      destruct (c_l p) as [[]|]; try (exact (Hoff K2)). rewrite !fidp. exact K2.
Qed.

(** ** The other conditions *)
Section All.
Variables (n0 : nat) (top : clay T) (rest : list (clay T)) (e : net T) (md : model T) (inp : nat) (ni : node T).
Hypothesis Ecs : cs = top :: rest.
Hypothesis Hcl : cline s0 cs.
Hypothesis Hln : lined U s1 cs e.
(** Counters are cells that Build added. *)
Hypothesis Hrefs : forall j L r, j ∈ U -> lays s1 !! j = Some L -> lref L = Some r -> n0 <= r.
Hypothesis Howns : forall j a, own U s1 j a -> a < n0.
Hypothesis Hins : forall t n a, inten U s1 t -> tens (ts s1) !! t = Some n -> Some a ∈ operands (nmat n) -> a < n0.
Hypothesis Hinp : inten U s1 inp.
Hypothesis Hni : tens (ts sf) !! inp = Some ni.
Hypothesis Hnin : NoDup (operands (nmat ni)).

Lemma in_ops : exists n1, tens (ts s1) !! inp = Some n1 /\ operands (nmat ni) = operands (nmat n1).
Proof using SI F Hinp Hni.
  destruct (si_ten _ _ SI inp Hinp) as (n1 & E1 & E2 & _). exists n1. split; [exact E1|]. destruct (fi_keep _ _ _ _ _ _ _ F _ _ E1) as (n2 & E3 & _ & _ & E4). assert (n2 = ni) as -> by congruence. apply E4. exact E2.
Qed.
Lemma in_lo a : Some a ∈ operands (nmat ni) -> a < n0 /\ a < A0.
Proof using SI F Hinp Hni Hins.
  destruct in_ops as (n1 & E1 & E2). rewrite E2. intros Ha. split; [eapply Hins; eassumption|]. destruct (si_ten _ _ SI inp Hinp) as (n1' & E1' & _ & (_ & _ & _ & Hv)).
  assert (n1' = n1) as -> by congruence. exact (valid_lt _ _ (proj1 (Forall_forall _ _) Hv (Some a) Ha)).
Qed.
Lemma all_chain : chain s' cs.
Proof using All. eapply (mk_chain cs e 0); [auto|exact Hcl|exact Hln|exact (xa_link _ _ _ _ _ _ A)|exact (xa_refs _ _ _ _ _ _ A)|reflexivity]. Qed.
Lemma lay_at p : p ∈ cs -> exists L0 L1 L, lays s0 !! c_i p = Some L0 /\ newlay L0 p /\ lays s1 !! c_i p = Some L1 /\ bsame L0 L1 /\ lays sf !! c_i p = Some L /\ (forall f, f <> BFF -> lflag L f = lflag L1 f) /\ c_i p ∈ U.
Proof using Hcl Halk F.
  intros Hp. assert (exists L0, lays s0 !! c_i p = Some L0 /\ newlay L0 p) as (L0 & E0 & Hn).
  { clear - Hcl Hp. induction cs as [|q r IH]; [inversion Hp|]. destruct Hcl as (L0 & E0 & Hn & Hr). apply elem_of_cons in Hp as [->|Hp]; [eauto|]. destruct r as [|q' r']; [inversion Hp|]. destruct Hr as (? & ? & ? & ? & ? & ? & Hr). apply IH; assumption. }
  destruct (Halk p L0 Hp E0) as (L1 & E1 & Hb). destruct (fi_more _ _ _ _ _ _ _ F (c_i p) (in_D p Hp)) as (M1 & M & N1 & N2 & N3 & _). assert (M1 = L1) as -> by congruence.
  exists L0, L1, M. repeat split; auto; try (apply Hn); try (apply Hb). exact (fi_DU _ _ _ _ _ _ _ F _ (in_D p Hp)).
Qed.
Lemma ref_lo p r : p ∈ cs -> refc sf (c_i p) = Some r -> n0 <= r < A0.
Proof using SI F Hrefs.
  intros Hp E. unfold refc in E. destruct (lays sf !! c_i p) as [L|] eqn:EL; [|discriminate]. cbn [mbind option_bind] in E.
  destruct (done_ref U s1 SI rnd _ _ _ _ _ _ _ F (in_D p Hp) EL E) as (k & Lk & Hk & E1 & E2 & E3). split; [|exact E3].
  eapply Hrefs; [exact (fi_DU _ _ _ _ _ _ _ F _ Hk)|exact E1|exact E2].
Qed.
Lemma dif_hi p a : p ∈ cs -> cells s' (c_i p) FDif a -> A0 <= a < length (mem (ts sf)) /\ ~ W a /\ a ∉ map fst C.
Proof using A El Et. intros Hp Ha. apply (cellp p FDif a Hp seen_dif) in Ha. eapply dif_cell; [|exact Ha]. apply (xa_lay _ _ _ _ _ _ A p Hp). Qed.
Lemma all_apt : apt0 s' cs.
Proof using All.
  constructor.
  - intros c q f a Hc Hq Hf Ha. rewrite (cellp c f a Hc (seen_read f Hf)). apply (cellp q FDif a Hq seen_dif) in Ha. exact (proj1 (xa_apart _ _ _ _ _ _ A c q a Hc Hq Ha) f Hf).
  - intros c q a Hc Hq Ha. rewrite refp, maxp. destruct (dif_hi q a Hq Ha) as (Hlo & _). split.
    + intros E. destruct (ref_lo c a Hc E) as [_ Hx]. exact (Nat.lt_irrefl _ (Nat.lt_le_trans _ _ _ Hx (proj1 Hlo))).
    + apply (cellp q FDif a Hq seen_dif) in Ha. exact (proj2 (xa_apart _ _ _ _ _ _ A c q a Hc Hq Ha)).
  - intros c f a Hc Hf Ha. apply (cellp c f a Hc Hf) in Ha. eapply Nat.lt_le_trans; [|exact Lp]. eapply laux_lt; [exact (xa_lay _ _ _ _ _ _ A c Hc)|exact Hf|exact Ha].
  - intros c a Hc. rewrite refp, maxp. intros [E|E]; (eapply Nat.lt_le_trans; [|exact Lp]).
    + eapply Nat.lt_le_trans; [exact (proj2 (ref_lo c a Hc E))|exact (fi_len _ _ _ _ _ _ _ F)].
    + pose proof (la_max _ _ _ _ _ (xa_lay _ _ _ _ _ _ A c Hc)) as Hm. destruct (c_l c) as [[]|]; try congruence. destruct Hm as (k & E1 & E2). assert (k = a) as -> by congruence. exact (proj2 E2).
  - exact Hnd.
  - intros c f t Hc Hf E. rewrite fidp in E. destruct (la_seen _ _ _ _ _ (xa_lay _ _ _ _ _ _ A c Hc) f t Hf E) as (n & E1 & E2 & _). exists n. split; [apply Tp; exact E1|exact E2].
Qed.
Lemma top_in : top ∈ cs.
Proof using Ecs. rewrite Ecs. left. Qed.
Lemma all_prepared out : m_last md = Some (c_i top) -> m_output md = Some out -> fid sf (c_i top) FOutput = Some out -> c_l top <> None -> (0 < prodN (c_sh top))%N -> prepared s' md top rest out.
Proof using All.
  intros H1 H2 H3 H4 H5. pose proof all_chain as Hch. pose proof all_apt as Hap. pose proof (xa_top _ _ _ _ _ _ A) as Ht.
  pose proof (fun p Hp => la_none _ _ _ _ _ (xa_lay _ _ _ _ _ _ A p Hp)) as Hnone. pose proof lay_at as Hlay. pose proof nodep_ as Hnode. pose proof top_in as Htop.
  rewrite Ecs in Hch, Hap, Ht. constructor; try assumption.
  - split; [exact H2|rewrite fidp; exact H3].
  - intros n Hn. destruct Ht as (d & a & E1 & E2 & _). rewrite (Hnode top FDif Htop seen_dif) in Hn. unfold fnode in Hn. rewrite E1 in Hn. cbn [mbind option_bind] in Hn. rewrite E2 in Hn. injection Hn as <-. auto.
  - intros p Hp g Hg. rewrite <- Ecs in Hp. rewrite fidp. apply (Hnone p Hp); destruct Hg as [->|[->|[->| ->]]]; discriminate.
  - intros j Hj. apply under_in in Hj. rewrite <- Ecs in Hj. apply elem_of_list_fmap in Hj as (p & -> & Hp). rewrite fidp. apply (Hnone p Hp); discriminate.
  - intros p l Hp Hl. rewrite <- Ecs in Hp. destruct (Hlay p Hp) as (L0 & L1 & L & E0 & Hn & E1 & Hb & E2 & Hf & _). rewrite El in Hl. assert (l = L) as -> by congruence.
    rewrite Hf by discriminate. destruct Hb as (_ & _ & Hb). rewrite Hb by discriminate. exact (vg_bp _ (nl_virgin _ _ Hn)).
Qed.

(** *** Bias and weights *)
Lemma par_at p : p ∈ cs -> c_par p = true -> exists L tb nb tw nw, lays sf !! c_i p = Some L /\ fid sf (c_i p) FBias = Some tb /\ tens (ts sf) !! tb = Some nb /\ fid sf (c_i p) FWeights = Some tw /\ tens (ts sf) !! tw = Some nw /\
  NoDup (operands (nmat nb) ++ operands (nmat nw)) /\ forall a, Some a ∈ operands (nmat nb) ++ operands (nmat nw) -> a ∉ map fst C /\ A0 <= a < length (mem (ts sf)) /\ ~ W a.
Proof using All.
  intros Hp Hc. assert (exists L0 L1 l, lays s0 !! c_i p = Some L0 /\ lays s1 !! c_i p = Some L1 /\ lspec_of (tens (ts s1)) L1 = Some l /\ has_par l = true) as (L0 & L1 & l & E0 & E1 & El1 & Hh).
  { destruct (lay_at p Hp) as (L0 & L1 & L & E0 & _ & E1 & _). exists L0, L1. clear - Hln Hp Hc E0 E1. revert e Hln. induction cs as [|q r IH]; intros e Hln; [inversion Hp|]. destruct Hln as (L & E & _ & _ & _ & Hr). unfold c_par in Hc.
    apply elem_of_cons in Hp as [->|Hp].
    - assert (L1 = L) as -> by congruence. destruct r as [|q' r'].
      + destruct Hr as (t & _ & _ & Hr). destruct (c_l q) as [l|]; [|discriminate]. exists l. repeat split; [exact E0|exact E1|apply Hr|exact Hc].
      + destruct Hr as (l & e0 & Hl & _ & Hs & _). rewrite Hl in Hc. exists l. auto.
    - destruct r as [|q' r']; [inversion Hp|]. destruct Hr as (l & e0 & _ & _ & _ & _ & _ & _ & Hr). eapply IH; eassumption. }
  destruct (fi_done _ _ _ _ _ _ _ F (c_i p) (in_D p Hp)) as (L1' & L & n & d & sh & e1 & D1 & D2 & D3 & D4 & D5 & D6 & D7 & D8 & D9 & D10 & D11 & D12 & _ & _ & D16).
  assert (L1' = L1) as -> by congruence. destruct (fi_more _ _ _ _ _ _ _ F (c_i p) (in_D p Hp)) as (M1 & M & N1 & N2 & N3 & N4). assert (M1 = L1) as -> by congruence. assert (M = L) as -> by congruence.
  unfold carries in N4. rewrite El1, Hh in N4. destruct N4 as (tb & nb & tw & nw & P1 & P2 & P3 & P4 & P5 & P6 & P7 & P8 & P9 & P10).
  exists L, tb, nb, tw, nw. rewrite !(fid_lay _ _ _ _ D2). split; [exact D2|]. split; [exact P1|]. split; [exact P2|]. split; [exact P5|]. split; [exact P6|]. split; [exact P9|].
  intros a Ha. split; [apply P10; exact Ha|]. destruct (D16 l El1 Hh) as (bs & ws & _ & (tb' & nb' & B1 & B2 & _ & _ & B3 & _) & (tw' & nw' & W1 & W2 & _ & _ & W3 & _)).
  assert (tb' = tb) as -> by congruence. assert (nb' = nb) as -> by congruence. assert (tw' = tw) as -> by congruence. assert (nw' = nw) as -> by congruence.
  apply elem_of_app in Ha as [Ha|Ha]; [destruct (B3 a Ha) as [X Y]; pose proof (proj1 (Forall_forall _ _) (proj2 (proj2 (proj2 P4))) _ Ha)|destruct (W3 a Ha) as [X Y]; pose proof (proj1 (Forall_forall _ _) (proj2 (proj2 (proj2 P8))) _ Ha)]; apply valid_lt in H0; auto.
Qed.
Lemma par_cell p f a : p ∈ cs -> c_par p = true -> f = FBias \/ f = FWeights -> cells s' (c_i p) f a -> a ∉ map fst C /\ A0 <= a < length (mem (ts sf)) /\ ~ W a.
Proof using All.
  intros Hp Hc Hf Ha. destruct (par_at p Hp Hc) as (L & tb & nb & tw & nw & P0 & P1 & P2 & P3 & P4 & P5 & P6). assert (Hs : seenf f) by (destruct Hf as [->| ->]; apply seen_io).
  apply (cellp p f a Hp Hs) in Ha. apply P6. apply elem_of_app. destruct Hf as [->| ->]; [left; apply (cells_node _ _ _ _ _ a P1 P2); exact Ha|right; apply (cells_node _ _ _ _ _ a P3 P4); exact Ha].
Qed.
Lemma pcells_hi a : pcells s' cs a -> a ∉ map fst C /\ A0 <= a < length (mem (ts sf)) /\ ~ W a.
Proof using All. intros (p & f & Hp & Hc & Hf & Ha). eapply par_cell; eassumption. Qed.
Lemma rcells_lo a : rcells s' cs a -> n0 <= a < A0.
Proof using SI F El Hrefs. intros (p & Hp & E). rewrite refp in E. eapply ref_lo; eassumption. Qed.
Lemma clearW_hi a : clearW s' cs a -> A0 <= a < length (mem (ts sf)) /\ ~ W a /\ a ∉ map fst C.
Proof using A El Et. intros (p & Hp & E). eapply dif_hi; eassumption. Qed.

(** *** The feed-forward graph *)
Definition fwd_run m m' : Prop := length (mem (ts s')) <= length m /\ consts C m /\ exec (ctx (ts sf)) m = Some m'.
Definition fwd_ok m : Prop := nv sf m e <> None.
Lemma all_forward : forward s' cs inp ni (shape (nmat ni)) (ctx (ts sf)) C W fwd_ok fwd_run.
Proof using All.
  destruct (in_node U s1 SI rnd _ _ _ _ inp F Hinp) as (ni' & I1 & I2 & I3 & I4). assert (ni' = ni) as -> by congruence.
  assert (HCf : forall a, a ∈ map fst C -> A0 <= a /\ ~ W a).
  { intros a Ha. apply elem_of_list_fmap in Ha as (x & -> & Hx). pose proof (proj1 (Forall_forall _ _) (fi_C _ _ _ _ _ _ _ F) x Hx) as (X & _ & Y). auto. }
  constructor.
  - split; [apply Tp; exact I1|]. split; [exact I2|]. split; [eapply wf_mat_mono; [exact I3|exact Lp]|reflexivity].
  - exact Hnin.
  - intros a Ha. destruct (in_lo a Ha) as [X Y]. repeat split; intros Hx.
    + apply clearW_hi in Hx. lia.
    + apply pcells_hi in Hx. lia.
    + apply rcells_lo in Hx. lia.
    + apply HCf in Hx. lia.
  - intros m Hm HC HP. pose proof Lp as HL. pose proof (fi_val _ _ _ _ _ _ _ F m ltac:(lia) HC) as Hv. destruct (exec (ctx (ts sf)) m) as [m'|] eqn:Ex.
    + exists m'. split; [reflexivity|]. split; [|split; [exact Hm|split; [exact HC|exact Ex]]]. split; [eapply exec_length; exact Ex|]. intros a Ha. eapply (fi_frame _ _ _ _ _ _ _ F); [|exact Ex|exact Ha]. lia.
    + exfalso. destruct Hv as (j & ej & Hj & Hs & Hn). apply HP. destruct (D_in j Hj) as (p & Hp & ->).
      pose proof (lined_stands U s1 SI cs top rest e Ecs Hln) as [Hst _]. eapply (nv_part s1); [exact Hst| |exact Hs|exact Hn].
      clear - Hln Ecs Hp. revert top rest e Ecs Hln p Hp. induction cs as [|q r IH]; intros top rest e Ecs Hln p Hp; [discriminate|]. injection Ecs as <- <-. destruct Hln as (L & E & _ & _ & _ & Hr).
      apply elem_of_cons in Hp as [->|Hp]; [constructor|]. destruct r as [|q' r']; [inversion Hp|]. destruct Hr as (l & e0 & _ & _ & _ & Hpre & _ & _ & Hr).
      eapply rtc_l; [exists L; split; [exact E|left; exact Hpre]|]. eapply IH; [reflexivity|exact Hr|exact Hp].
  - intros a Ha. destruct (fi_W _ _ _ _ _ _ _ F a Ha) as [X Y]. pose proof Lp as HL. split; [lia|]. repeat split; intros Hx.
    + apply clearW_hi in Hx. clear - Hx Ha. tauto.
    + apply pcells_hi in Hx. clear - Hx Ha. tauto.
    + apply rcells_lo in Hx. destruct Y as [Y|(j & _ & Y)]; [lia|]. apply Howns in Y. lia.
    + destruct Y as [Y|(j & _ & Y)]; [apply in_lo in Hx; lia|]. destruct in_ops as (n1 & E1 & E2). rewrite E2 in Hx. eapply (si_sep _ _ SI); eassumption.
    + exact (proj2 (HCf a Hx) Ha).
  - intros x Hx. pose proof (proj1 (Forall_forall _ _) (fi_C _ _ _ _ _ _ _ F) x Hx) as (X & Y & Z). assert (Hi : fst x ∈ map fst C) by (apply elem_of_list_fmap; eauto).
    split; [exact (proj1 (Forall_forall _ _) (proj1 (proj2 Em)) x Hx)|]. split; intros Hc; [apply clearW_hi in Hc|apply pcells_hi in Hc]; clear - Hc Hi; tauto.
  - intros a Ha Hx. apply rcells_lo in Ha. apply pcells_hi in Hx. lia.
  - intros p f n Hp Hc Hf Hn. destruct (par_at p Hp Hc) as (L & tb & nb & tw & nw & P0 & P1 & P2 & P3 & P4 & P5 & P6). assert (Hs : seenf f) by (destruct Hf as [->| ->]; apply seen_io).
    rewrite (nodep_ p f Hp Hs) in Hn. apply NoDup_app in P5 as (Q1 & Q2 & Q3). unfold fnode in Hn. destruct Hf as [->| ->]; [rewrite P1 in Hn|rewrite P3 in Hn]; cbn [mbind option_bind] in Hn; [assert (n = nb) as -> by congruence|assert (n = nw) as -> by congruence]; assumption.
  - intros p p' f f' a Hp Hp' Hc Hc' Hf Hf' Ha Ha'. assert (Hs : seenf f) by (destruct Hf as [->| ->]; apply seen_io). assert (Hs' : seenf f') by (destruct Hf' as [->| ->]; apply seen_io).
    apply (cellp p f a Hp Hs) in Ha. apply (cellp p' f' a Hp' Hs') in Ha'.
    assert (Hpc : forall (x : clay T) g L, (g = FBias \/ g = FWeights) -> lays sf !! c_i x = Some L -> cells sf (c_i x) g a -> pcell (ts sf) L a).
    { intros x g L Hg EL (n & Hn & Hin). unfold fnode in Hn. rewrite (fid_lay _ _ _ _ EL) in Hn. destruct (lten L g) as [t|] eqn:Eg; [|discriminate]. cbn [mbind option_bind] in Hn. exists g, t, n. auto. }
    destruct (par_at p Hp Hc) as (L & tb & nb & tw & nw & P0 & P1 & P2 & P3 & P4 & P5 & P6). destruct (par_at p' Hp' Hc') as (L' & ? & ? & ? & ? & P0' & _).
    assert (Ei : c_i p = c_i p') by (eapply (fi_apart _ _ _ _ _ _ _ F); [exact (in_D p Hp)|exact (in_D p' Hp')|exact P0|exact P0'|exact (Hpc p f L Hf P0 Ha)|exact (Hpc p' f' L' Hf' P0' Ha')]).
    split; [exact Ei|]. rewrite <- Ei in Ha'. apply NoDup_app in P5 as (_ & Q2 & _).
    destruct Hf as [->| ->], Hf' as [->| ->]; try reflexivity; exfalso; (apply (Q2 (Some a)); [apply (cells_node _ _ _ _ _ a P1 P2)|apply (cells_node _ _ _ _ _ a P3 P4)]; assumption).
  - intros p Hp Hc. rewrite fidp. exact (proj1 (la_par _ _ _ _ _ (xa_lay _ _ _ _ _ _ A p Hp) Hc)).
Qed.
Lemma all_trains p : p ∈ cs -> c_par p = true -> trains s' p.
Proof using All.
  intros Hp Hc. destruct (lay_at p Hp) as (L0 & L1 & L & E0 & Hn & E1 & Hb & E2 & Hf & _). exists L. rewrite El. split; [exact E2|].
  rewrite Hf by discriminate. destruct Hb as (_ & _ & Hb). rewrite Hb by discriminate. rewrite (nl_trains _ _ Hn). exact Hc.
Qed.

(** *** What the layers show after a run *)
Hypothesis Hine : ins e = [inp].
Lemma fval_outv s i m : fval s i FOutput m = outv s m i.
Proof using Type. unfold fval, fnode, fid, outv, outnode. destruct (lays s !! i) as [L|]; [|reflexivity]. cbn [mbind option_bind]. destruct (lten L FOutput); reflexivity. Qed.
Lemma s_out_cons par x c r : s_out par x (c :: r) = (v ← s_out par x r; match c_l c with None => Some v | Some l => lay_val l (par (c_i c)) v end).
Proof using Type. reflexivity. Qed.
Lemma out_val m vx : net_in sf m inp = Some vx -> forall l ep, lined U s1 l ep -> ins ep = [inp] -> nv sf m ep = s_out (net_par sf m) vx l.
Proof using Type.
  intros Hx. induction l as [|c r IH]; intros ep Hl Hi; [destruct Hl|]. rewrite s_out_cons. destruct Hl as (L & E & _ & _ & _ & Hr). destruct r as [|q r'].
  - destruct Hr as (t & _ & _ & Hr). destruct (c_l c) as [l|].
    + destruct Hr as (_ & _ & -> & _). cbn [FwdSpec.ins] in Hi. assert (t = inp) as -> by congruence. unfold nv. cbn [nval s_out mbind option_bind]. rewrite Hx. reflexivity.
    + destruct Hr as (_ & -> & _). cbn [FwdSpec.ins] in Hi. assert (t = inp) as -> by congruence. unfold nv. cbn [nval s_out mbind option_bind]. exact Hx.
  - destruct Hr as (l & e0 & Hc & _ & _ & _ & -> & _ & Hr). cbn [FwdSpec.ins] in Hi. unfold nv in *. cbn [nval]. rewrite (IH e0 Hr Hi), Hc. reflexivity.
Qed.
Lemma tally_number k : tally (T:=T) k = number k.
Proof using Type. induction k as [|k IH]; [reflexivity|]. cbn [tally number]. rewrite IH. reflexivity. Qed.
Lemma lead_leads : forall l : list (clay T), lead l = leads l.
Proof using Type. induction l as [|c l IH]; [reflexivity|]. cbn [lead leads]. unfold flat, flattens. rewrite IH. reflexivity. Qed.
Lemma lin_plainly (l : lspec T) : FwdBody.lin l = plainly l.
Proof using Type. destruct l; reflexivity. Qed.
Lemma or_else_eq {X} c (v : option X) f : or_else c v f (c_i c) = v.
Proof using Type. unfold or_else. rewrite Nat.eqb_refl. reflexivity. Qed.
Lemma or_else_ne {X} c (v : option X) f i : i <> c_i c -> or_else c v f i = f i.
Proof using Type. intros Hi. unfold or_else. destruct (Nat.eqb_spec i (c_i c)); [contradiction|reflexivity]. Qed.

Section Shows.
Variables (m m' : list T) (vx : vten T).
Hypothesis Hrun : fwd_run m m'.
Hypothesis Hvx : net_in sf m inp = Some vx.
Hypothesis Hrf : forall p r, p ∈ cs -> refc sf (c_i p) = Some r -> m !! r = mem (ts sf) !! r.
Lemma len_m : length (mem (ts sf)) <= length m.
Proof using Hrun Em. destruct Hrun as (Hx & _). exact (Nat.le_trans _ _ _ Lp Hx). Qed.
Lemma show_out p r ep : p ∈ cs -> lined U s1 (p :: r) ep -> ins ep = [inp] -> exists v, fval s' (c_i p) FOutput m' = Some v /\ s_out (net_par sf m) vx (p :: r) = Some v.
Proof using All.
  intros Hp Hl Hi. rewrite (fvalp p FOutput m' Hp ltac:(apply seen_io)), fval_outv, <- (out_val m vx Hvx (p :: r) ep Hl Hi). destruct Hrun as (_ & H2 & H3).
  pose proof (fi_val _ _ _ _ _ _ _ F m len_m H2) as Hv. rewrite H3 in Hv. destruct (lined_stands U s1 SI (p :: r) p r ep eq_refl Hl) as [Hst _].
  destruct (Hv (c_i p) ep (in_D p Hp) Hst) as [Hn E]. rewrite E. destruct (nv sf m ep) as [v|]; [eauto|contradiction].
Qed.
Lemma show_in p r ep : p ∈ cs -> (forall q, q ∈ r -> q ∈ cs) -> lined U s1 (p :: r) ep -> ins ep = [inp] -> link U s1 sf (p :: r) ->
  exists v, fval s' (c_i p) FInput m' = Some v /\ s_out (net_par sf m) vx r = Some v.
Proof using All.
  intros Hp Hr Hl Hi Hk. rewrite (fvalp p FInput m' Hp ltac:(apply seen_io)). pose proof Hl as (L1 & E1 & _ & _ & _ & Hc). destruct r as [|q r'].
  - exists vx. split; [|reflexivity]. destruct Hc as (t & C1 & C2 & C3).
    assert (t = inp). { destruct (c_l p) as [l|]; [destruct C3 as (_ & _ & -> & _)|destruct C3 as (_ & -> & _)]; cbn [FwdSpec.ins] in Hi; congruence. } subst t.
    assert (Hkd : lkind_of L1 = LInput \/ lkind_of L1 = LDense) by (destruct (c_l p); [right|left]; apply C3).
    destruct (fi_done _ _ _ _ _ _ _ F (c_i p) (in_D p Hp)) as (L1' & L & n & d & sh & e1 & D1 & D2 & _ & _ & _ & _ & _ & _ & _ & _ & _ & _ & [_ D14] & _).
    assert (L1' = L1) as -> by congruence. specialize (D14 C1 Hkd). destruct Hrun as (_ & _ & H3).
    rewrite (fval_node sf (c_i p) FInput inp ni m'); [|rewrite (fid_lay _ _ _ _ D2); congruence|exact Hni].
    destruct (in_val U s1 SI rnd _ _ _ _ inp ni m m' F Hinp Hni len_m H3) as (_ & _ & ->).
    unfold net_in, FwdBody.tval in Hvx. cbn [mbind option_bind] in Hvx. rewrite Hni in Hvx. exact Hvx.
  - destruct Hc as (l & e0 & _ & _ & _ & _ & -> & _ & Hl0). destruct Hk as ((K1 & _) & _). pose proof (Hr q ltac:(left)) as Hq.
    destruct (show_out q r' e0 Hq Hl0 Hi) as (v & V1 & V2). exists v. split; [|exact V2]. rewrite (fvalp q FOutput m' Hq ltac:(apply seen_io)) in V1. rewrite <- V1. unfold fval, fnode. rewrite K1. reflexivity.
Qed.
Lemma off_W a : ~ W a -> m' !! a = m !! a.
Proof using F Em Hrun. intros Ha. destruct Hrun as (_ & _ & H3). eapply (fi_frame _ _ _ _ _ _ _ F); [exact len_m|exact H3|exact Ha]. Qed.
Lemma show_par p : p ∈ cs -> fval s' (c_i p) FBias m' = (fst <$> (if c_par p then net_par sf m (c_i p) else None)) /\ fval s' (c_i p) FWeights m' = (snd <$> (if c_par p then net_par sf m (c_i p) else None)).
Proof using All.
  intros Hp. destruct (c_par p) eqn:Hc.
  - assert (Hv : forall f, f = FBias \/ f = FWeights -> exists v, fval sf (c_i p) f m = Some v /\ fval s' (c_i p) f m' = Some v).
    { intros f Hf. assert (Hs : seenf f) by (destruct Hf as [->| ->]; apply seen_io). destruct (par_at p Hp Hc) as (L & tb & nb & tw & nw & P0 & P1 & P2 & P3 & P4 & P5 & P6).
      assert (exists t n, fid sf (c_i p) f = Some t /\ tens (ts sf) !! t = Some n) as (t & n & Ef & En) by (destruct Hf as [->| ->]; eauto).
      destruct (la_seen _ _ _ _ _ (xa_lay _ _ _ _ _ _ A p Hp) f t Hs Ef) as (n' & En' & _ & Hw). assert (n' = n) as -> by congruence.
      destruct (mval_total _ m _ Hw len_m) as (v & Ev). exists v. rewrite (fval_node _ _ _ _ _ m Ef En). split; [exact Ev|].
      rewrite <- Ev, <- (fval_node _ _ _ _ _ m Ef En), <- (fvalp p f m Hp Hs). apply fval_off. intros a Ha. apply off_W. apply (par_cell p f a Hp Hc Hf Ha). }
    destruct (Hv FBias ltac:(auto)) as (b & B1 & B2). destruct (Hv FWeights ltac:(auto)) as (w & W1 & W2). rewrite net_par_fval, B1. cbn [mbind option_bind]. rewrite W1. cbn. auto.
  - cbn. destruct (la_par _ _ _ _ _ (xa_lay _ _ _ _ _ _ A p Hp) Hc) as [N1 N2]. unfold fval, fnode. rewrite !fidp, N1, N2. auto.
Qed.
Lemma shows : forall l ep k, (forall p, p ∈ l -> p ∈ cs) -> NoDup (map c_i l) -> lined U s1 l ep -> ins ep = [inp] -> link U s1 sf l -> refsok s1 sf k l ->
  forall p, p ∈ l -> agree (rdg s' m') (s_show (net_par sf m) vx k l) (c_i p).
Proof using All.
  induction l as [|c r IH]; intros ep k Hin Hndl Hl Hi Hk Hrk p Hp; [inversion Hp|]. cbn [map] in Hndl. apply NoDup_cons in Hndl as [Hn1 Hn2]. apply elem_of_cons in Hp as [->|Hp].
  - pose proof (Hin c ltac:(left)) as Hc. destruct (show_in c r ep Hc ltac:(intros q Hq; apply Hin; right; exact Hq) Hl Hi Hk) as (vi & I1 & I2). destruct (show_out c r ep Hc Hl Hi) as (vo & O1 & O2).
    destruct (show_par c Hc) as [B1 B2]. pose proof (xa_lay _ _ _ _ _ _ A c Hc) as LA. destruct Hrun as (Hm & HC & Hex).
    pose proof (xa_sums _ _ _ _ _ _ A m m' c Hc len_m HC Hex vi ltac:(rewrite <- (fvalp c FInput m' Hc ltac:(apply seen_io)); exact I1)) as [S1 S2].
    assert (Hpar : c_par c = base c \/ c_l c = None) by (unfold c_par, base; destruct (c_l c); auto).
    unfold agree. cbn [s_show rdg r_x r_n r_y r_b r_w r_max r_ref]. rewrite !or_else_eq. split; [congruence|]. split; [|split; [congruence|split; [exact B1|split; [exact B2|split]]]].
    + rewrite (fvalp c FNeta m' Hc ltac:(apply seen_io)). pose proof (la_neta _ _ _ _ _ LA) as Hne. unfold base, c_par in *. destruct (c_l c) as [l|] eqn:El0.
      * destruct (has_par l) eqn:Hh.
        -- rewrite (S1 eq_refl), I2, lin_plainly. cbn [mbind option_bind]. reflexivity.
        -- unfold fval, fnode. rewrite Hne. reflexivity.
      * rewrite (S1 eq_refl). congruence.
    + unfold maxv. rewrite maxp. pose proof (la_max _ _ _ _ _ LA) as Hma. unfold maxv in S2. destruct (c_l c) as [[]|] eqn:El0; try (rewrite Hma; reflexivity). rewrite I2. cbn [mbind option_bind]. eapply S2. reflexivity.
    + destruct Hrk as ((rr & _ & R2 & R3) & _). unfold refv. rewrite refp, R2. cbn [mbind option_bind]. rewrite off_W.
      * rewrite (Hrf c rr Hc R2), R3. rewrite tally_number, lead_leads. reflexivity.
      * intros HW. destruct (fw_W _ _ _ _ _ _ _ _ _ _ all_forward rr HW) as (_ & _ & _ & Hx & _). apply Hx. exists c. split; [exact Hc|]. rewrite refp. exact R2.
  - destruct r as [|q r']; [inversion Hp|]. pose proof Hl as (L1 & E1 & _ & _ & _ & (l & e0 & _ & _ & _ & _ & -> & _ & Hl0)).
    assert (Hne : c_i p <> c_i c). { intros E. apply Hn1. rewrite <- E. apply elem_of_list_fmap. eauto. }
    pose proof (IH e0 (if flat c then S k else 0) ltac:(intros x Hx; apply Hin; right; exact Hx) Hn2 Hl0 Hi (proj2 Hk) (proj2 Hrk) p Hp) as Ha.
    assert (Er : s_show (net_par sf m) vx k (c :: q :: r') = s_show (net_par sf m) vx k (c :: q :: r')) by reflexivity.
    unfold agree in *. cbn [s_show] in *. cbn [rdg r_x r_n r_y r_b r_w r_max r_ref] in *. rewrite !(or_else_ne c) by exact Hne. exact Ha.
Qed.
Lemma all_shows p : p ∈ cs -> agree (rdg s' m') (s_show (net_par sf m) vx 0 cs) (c_i p).
Proof using All. intros Hp. eapply shows; [auto|exact Hnd|exact Hln|exact Hine|exact (xa_link _ _ _ _ _ _ A)|exact (xa_refs _ _ _ _ _ _ A)|exact Hp]. Qed.
End Shows.
End All.
End Prep.
End TrnPrep.
