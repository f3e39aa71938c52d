(** * TrnRun: Model.ExecFit for a chain of layers *)
From Verif Require Import Base Num ModelTools ModelOps ModelTensor ModelGraph ModelLayer ModelModel Spec NetSpec FwdSpec Denote
  IndexProofs ExecProofs TensorFacts AccessProofs BuildProofs BuildFrame CompileProofs Agree FwdMask FwdBuild FwdSeg FwdOps FwdPool NetBuild NetChain FwdBody FwdExpr FwdConv FwdConv2 FwdAct FwdTotal
  BwdSpec BwdPost BwdLoop BwdOps BwdOps2 BwdOps3 BwdOps4 TrnSpec TrnTri TrnOwn TrnExpr TrnSite TrnDer TrnXfer TrnBody TrnKind TrnBias TrnPar TrnDense TrnKer TrnConvs TrnChain FwdDense TrnFit TrnComp.
From Verif Require ObjSpec ReachSpec FitProofs NetRun2.
From Coq Require Import Lia ZifyBool ZifyNat ZifyN.

Section TrnRun.
Context {T : Type} `{Num T}.
Implicit Types (s S L : lst T) (m : list T) (c q p : clay T) (cs rest : list (clay T)).

(** ** Copying the values of one tensor into another *)
Definition plain (t : tst T) (i : nat) (n : node T) (sh : list N) : Prop := tens t !! i = Some n /\ wf_mat (length (mem t)) (nmat n) /\ shape (nmat n) = sh.
Lemma plain_holds (t : tst T) i n sh : plain t i n sh -> exists v, ObjSpec.holds t i v /\ mval (mem t) (nmat n) = Some v /\ vsh v = sh.
Proof using Type.
  intros (Hn & Hw & Hs). destruct (mval_total (length (mem t)) (mem t) (nmat n) Hw (le_n _)) as (v & Ev). exists v. split; [exists n; auto|]. split; [exact Ev|]. rewrite (proj1 (mval_shape _ _ _ Ev)). exact Hs.
Qed.
Lemma ocells (t : tst T) i n : tens t !! i = Some n -> ObjSpec.cells t i = operands (nmat n).
Proof using Type. intros E. unfold ObjSpec.cells. rewrite E. reflexivity. Qed.
Lemma ops_some n (mt : tmat) x : wf_mat n mt -> x ∈ operands mt -> exists a, x = Some a /\ a < n.
Proof using Type. intros (_ & _ & _ & Hv) Hx. rewrite Forall_forall in Hv. destruct (Hv _ Hx) as (a & -> & Ha). eauto. Qed.
Lemma load_ok (t : tst T) i j ni nj sh : plain t i ni sh -> plain t j nj sh -> NoDup (operands (nmat ni)) ->
  (forall a, Some a ∈ operands (nmat ni) -> Some a ∉ operands (nmat nj)) ->
  exists m', LoadFromTensor i j t = (Ok tt, MkSt m' (tens t) (ctx t)) /\ ran (fun a => Some a ∈ operands (nmat ni)) (mem t) m' /\ mval m' (nmat ni) = mval (mem t) (nmat nj).
Proof using Type.
  intros Hi Hj Hnd Hdis. destruct (plain_holds _ _ _ _ Hi) as (v & Hv & Ev & Sv). destruct (plain_holds _ _ _ _ Hj) as (u & Hu & Eu & Su).
  destruct (LoadFromTensor_spec t i j v u Hv) as (t' & E & E1 & E2 & E3 & _).
  { unfold ObjSpec.unshared. rewrite (ocells _ _ _ (proj1 Hi)). exact Hnd. }
  { exact Hu. }
  { intros x Hx Hy. rewrite (ocells _ _ _ (proj1 Hi)) in Hx. rewrite (ocells _ _ _ (proj1 Hj)) in Hy. destruct (ops_some _ _ _ (proj1 (proj2 Hi)) Hx) as (a & -> & _). exact (Hdis a Hx Hy). }
  { congruence. }
  exists (mem t'). destruct t' as [mt tt' ct]. cbn [tens ctx mem] in *. subst tt' ct. split; [exact E|].
  destruct (FitProofs.LoadFromTensor_only _ _ _ _ _ E) as (_ & _ & Hl & Ha). cbn [mem] in *. split.
  - split; [exact Hl|]. intros a Hn. apply Ha. rewrite (ocells _ _ _ (proj1 Hi)). exact Hn.
  - destruct E3 as (n & Hn & _ & Hm). cbn [tens mem] in *. rewrite (proj1 Hi) in Hn. injection Hn as <-. congruence.
Qed.

(** ** The layers behind the last one *)
Lemma behind_chain L : forall cs c (q : nat), chain L (c :: cs) -> ReachSpec.behind (lays L) (c_i c) q <-> exists p, p ∈ c :: cs /\ q = c_i p.
Proof using Type.
  induction cs as [|c' cs IH]; intros c q Hch; destruct (chain_head _ _ _ Hch) as (l & psh & Hs & Hr); pose proof (ls_lay _ _ _ _ Hs) as Hl.
  - destruct Hr as [Hp _]. split.
    + intros Hb. inversion Hb as [|? l' r ? Hl' Hr' Hb']; subst; [exists c; split; [left|reflexivity]|]. congruence.
    + intros (p & Hi & ->). apply elem_of_list_singleton in Hi as ->. constructor.
  - destruct Hr as (_ & Hp & _ & Hc & _). split.
    + intros Hb. inversion Hb as [|? l' r ? Hl' Hr' Hb']; subst; [exists c; split; [left|reflexivity]|]. assert (r = c_i c') as -> by congruence.
      apply (IH c' q Hc) in Hb' as (p & Hi & E). exists p. split; [right; exact Hi|exact E].
    + intros (p & Hi & ->). apply elem_of_cons in Hi as [->|Hi]; [constructor|]. eapply ReachSpec.behind_step; [exact Hl|exact Hp|]. apply (IH c' (c_i p) Hc). eauto.
Qed.
Lemma depth_chain L : forall cs c, chain L (c :: cs) -> ReachSpec.depth (lays L) (c_i c) (length (c :: cs)).
Proof using Type.
  induction cs as [|c' cs IH]; intros c Hch; destruct (chain_head _ _ _ Hch) as (l & psh & Hs & Hr); pose proof (ls_lay _ _ _ _ Hs) as Hl.
  - destruct Hr as [Hp _]. eapply ReachSpec.depth_first; [exact Hl|exact Hp].
  - destruct Hr as (_ & Hp & _ & Hc & _). eapply ReachSpec.depth_step; [exact Hl|exact Hp|]. exact (IH c' Hc).
Qed.
Lemma agree0_ran s cs W m m' c : apt0 s cs -> lowW s cs W -> ran W m m' -> c ∈ cs -> agree (rdg s m') (rdg s m) (c_i c).
Proof using Type.
  intros Hapt HW [_ Hr] Hc.
  assert (Hf : forall f, readf f -> fval s (c_i c) f m' = fval s (c_i c) f m).
  { intros f Hf. apply fval_off. intros a Ha. apply Hr. intros Hw. destruct (HW _ Hw) as [Hx|(q & Hq & Hx)].
    - pose proof (a0_lo _ _ Hapt c f a Hc ltac:(right; exact Hf) Ha). lia.
    - exact (a0_f _ _ Hapt c q f a Hc Hq Hf Hx Ha). }
  assert (Hg : forall a, refc s (c_i c) = Some a \/ maxc s (c_i c) = Some a -> m' !! a = m !! a).
  { intros a Ha. apply Hr. intros Hw. destruct (HW _ Hw) as [Hx|(q & Hq & Hx)]; [pose proof (a0_lr _ _ Hapt c a Hc Ha); lia|]. destruct (a0_r _ _ Hapt c q a Hc Hq Hx). destruct Ha; congruence. }
  unfold agree, rdg. cbn [r_x r_n r_y r_b r_w r_max r_ref]. unfold readf in Hf. repeat split; try (apply Hf; auto 10; fail).
  - unfold maxv. destruct (maxc s (c_i c)) as [r|]; [|reflexivity]. apply Hg. auto.
  - unfold refv. destruct (refc s (c_i c)) as [r|]; [|reflexivity]. apply Hg. auto.
Qed.

(** ** Layers that differ in nothing but being trainable *)
Definition lalike (l l' : layer T) : Prop :=
  lkind_of l' = lkind_of l /\ lact l' = lact l /\ lpre l' = lpre l /\ lref l' = lref l /\ lmaxs l' = lmaxs l /\ (forall f, lten l' f = lten l f) /\
  forall g, g <> BTrainable -> lflag l' g = lflag l g.
Definition alike (ls ls' : list (layer T)) : Prop := length ls' = length ls /\ forall i l l', ls !! i = Some l -> ls' !! i = Some l' -> lalike l l'.
Lemma lalike_refl l : lalike l l.
Proof using Type. repeat split. Qed.
Lemma lalike_trans l1 l2 l3 : lalike l1 l2 -> lalike l2 l3 -> lalike l1 l3.
Proof using Type.
  intros (A1 & A2 & A3 & A4 & A5 & A6 & A7) (B1 & B2 & B3 & B4 & B5 & B6 & B7). do 5 (split; [congruence|]). split; [intros f; rewrite B6; apply A6|intros g Hg; rewrite B7 by exact Hg; apply A7; exact Hg].
Qed.
Lemma alike_refl ls : alike ls ls.
Proof using Type. split; [reflexivity|]. intros i l l' H1 H2. assert (l' = l) as -> by congruence. apply lalike_refl. Qed.
Lemma alike_l ls ls' i l : alike ls ls' -> ls !! i = Some l -> exists l', ls' !! i = Some l' /\ lalike l l'.
Proof using Type. intros [E A] Hl. destruct (lookup_lt_is_Some_2 ls' i) as [l' Hl']; [rewrite E; eapply lookup_lt_Some; exact Hl|]. exists l'. split; [exact Hl'|]. exact (A i l l' Hl Hl'). Qed.
Lemma alike_r ls ls' i l' : alike ls ls' -> ls' !! i = Some l' -> exists l, ls !! i = Some l /\ lalike l l'.
Proof using Type. intros [E A] Hl. destruct (lookup_lt_is_Some_2 ls i) as [l Hl']; [rewrite <- E; eapply lookup_lt_Some; exact Hl|]. exists l. split; [exact Hl'|]. exact (A i l l' Hl' Hl). Qed.
Lemma alike_trans ls1 ls2 ls3 : alike ls1 ls2 -> alike ls2 ls3 -> alike ls1 ls3.
Proof using Type.
  intros A B. split; [rewrite (proj1 B); apply (proj1 A)|]. intros i l l' H1 H3. destruct (alike_l _ _ _ _ A H1) as (l2 & H2 & A2). eapply lalike_trans; [exact A2|]. exact (proj2 B i l2 l' H2 H3).
Qed.
Lemma alike_none ls ls' i : alike ls ls' -> ls !! i = None -> ls' !! i = None.
Proof using Type. intros [E _] Hn. apply lookup_ge_None in Hn. apply lookup_ge_None. rewrite E. exact Hn. Qed.
Lemma fid_alike s s' i f : alike (lays s) (lays s') -> fid s' i f = fid s i f.
Proof using Type.
  intros A. unfold fid. destruct (lays s !! i) as [l|] eqn:E; [|rewrite (alike_none _ _ _ A E); reflexivity]. destruct (alike_l _ _ _ _ A E) as (l' & -> & _ & _ & _ & _ & _ & H6 & _). apply H6.
Qed.
Lemma refc_alike s s' i : alike (lays s) (lays s') -> refc s' i = refc s i.
Proof using Type.
  intros A. unfold refc. destruct (lays s !! i) as [l|] eqn:E; [|rewrite (alike_none _ _ _ A E); reflexivity]. destruct (alike_l _ _ _ _ A E) as (l' & -> & _ & _ & _ & H4 & _). exact H4.
Qed.
Lemma maxc_alike s s' i : alike (lays s) (lays s') -> maxc s' i = maxc s i.
Proof using Type.
  intros A. unfold maxc. destruct (lays s !! i) as [l|] eqn:E; [|rewrite (alike_none _ _ _ A E); reflexivity]. destruct (alike_l _ _ _ _ A E) as (l' & -> & _ & _ & _ & _ & H5 & _). exact H5.
Qed.
Lemma behind_alike ls ls' (p q : nat) : alike ls ls' -> ReachSpec.behind ls' p q <-> ReachSpec.behind ls p q.
Proof using Type.
  intros A. split; intros Hb; induction Hb as [p|p l r q Hl Hp Hb IH]; try constructor.
  - destruct (alike_r _ _ _ _ A Hl) as (l0 & Hl0 & _ & _ & H3 & _). eapply ReachSpec.behind_step; [exact Hl0|rewrite <- H3; exact Hp|exact IH].
  - destruct (alike_l _ _ _ _ A Hl) as (l0 & Hl0 & _ & _ & H3 & _). eapply ReachSpec.behind_step; [exact Hl0|rewrite H3; exact Hp|exact IH].
Qed.
Lemma depth_alike ls ls' (p n : nat) : alike ls ls' -> ReachSpec.depth ls p n -> ReachSpec.depth ls' p n.
Proof using Type.
  intros A Hd. induction Hd as [p l Hl Hp|p l q k Hl Hp Hd IH]; destruct (alike_l _ _ _ _ A Hl) as (l0 & Hl0 & _ & _ & H3 & _); [eapply ReachSpec.depth_first; [exact Hl0|rewrite H3; exact Hp]|eapply ReachSpec.depth_step; [exact Hl0|rewrite H3; exact Hp|exact IH]].
Qed.

(** ** A compiled chain that runs *)
(** [S] is a later state: only scalars and what is trainable changed and tensors
    were added. *)
Record live L S : Prop := {
  lv_lays : alike (lays L) (lays S);
  lv_tens : forall i n, tens (ts L) !! i = Some n -> tens (ts S) !! i = Some n;
  lv_len : length (mem (ts L)) <= length (mem (ts S));
}.
Definition upd S m : lst T := MkL (MkSt m (tens (ts S)) (ctx (ts S))) (lays S) (rc S).
Definition pcells s cs (a : nat) : Prop := exists p f, p ∈ cs /\ c_par p = true /\ (f = FBias \/ f = FWeights) /\ cells s (c_i p) f a.
Definition rcells s cs (a : nat) : Prop := exists p, p ∈ cs /\ refc s (c_i p) = Some a.
Definition trains s c : Prop := exists l, lays s !! c_i c = Some l /\ lflag l BTrainable = true.
Lemma trains_dec s c : trains s c \/ ~ trains s c.
Proof using Type.
  unfold trains. destruct (lays s !! c_i c) as [l|]; [|right; intros (x & [=] & _)]. destruct (lflag l BTrainable) eqn:E; [left; eauto|right; intros (x & [= <-] & ?); congruence].
Qed.

(** The feed-forward graph [fops] of the network, before the training part is
    compiled: it acts on memories with the constants [Cf] as [Rf] says. *)
Record forward s cs (inp : nat) (ni : node T) (ish : list N) (fops : list (op T)) (Cf : list (nat * T)) (Wf : nat -> Prop) (Pf : list T -> Prop) (Rf : list T -> list T -> Prop) : Prop := {
  fw_in : node_ok (ts s) inp ni ish;
  fw_nd : NoDup (operands (nmat ni));
  fw_inc : forall a, Some a ∈ operands (nmat ni) -> ~ clearW s cs a /\ ~ pcells s cs a /\ ~ rcells s cs a /\ a ∉ map fst Cf;
  fw_acts : acts fops (length (mem (ts s))) Wf Cf Pf Rf;
  fw_W : forall a, Wf a -> a < length (mem (ts s)) /\ ~ clearW s cs a /\ ~ pcells s cs a /\ ~ rcells s cs a /\ Some a ∉ operands (nmat ni) /\ a ∉ map fst Cf;
  fw_C : forall x, x ∈ Cf -> mem (ts s) !! fst x = Some (snd x) /\ ~ clearW s cs (fst x) /\ ~ pcells s cs (fst x);
  fw_ref : forall a, rcells s cs a -> ~ pcells s cs a;
  fw_par : forall p f n, p ∈ cs -> c_par p = true -> f = FBias \/ f = FWeights -> fnode s (c_i p) f = Some n -> NoDup (operands (nmat n));
  fw_dis : forall p p' f f' a, p ∈ cs -> p' ∈ cs -> c_par p = true -> c_par p' = true -> f = FBias \/ f = FWeights -> f' = FBias \/ f' = FWeights ->
    cells s (c_i p) f a -> cells s (c_i p') f' a -> c_i p = c_i p' /\ f = f';
  fw_none : forall p, p ∈ cs -> c_par p = false -> fid s (c_i p) FBias = None;
}.

(** What one call of ExecFit may write. *)
Definition touch s L cs (ni : node T) (Wf : nat -> Prop) (a : nat) : Prop :=
  length (mem (ts s)) <= a < length (mem (ts L)) \/ clearW s cs a \/ Some a ∈ operands (nmat ni) \/ Wf a \/ pcells s cs a.
(** What one layer learned. *)
Definition learned (S : lst T) L m0 (al mo : T) m' c (o : vten T * option (vten T * vten T)) : Prop :=
  fval L (c_i c) FDif m' = Some (fst o) /\ (c_par c = true <-> snd o <> None) /\
  forall nb nw, snd o = Some (nb, nw) ->
    (trains S c -> fval L (c_i c) FBias m' = Some nb /\ fval L (c_i c) FWeights m' = Some nw) /\
    (~ trains S c -> fval L (c_i c) FBias m' = fval L (c_i c) FBias m0 /\ fval L (c_i c) FWeights m' = fval L (c_i c) FWeights m0) /\
    (c_mom c = true -> fval L (c_i c) FMBias m' = s_db (mbv L m0) al mo (c_i c) (fst o)).

Section Exec.
Variables (s L : lst T) (c : clay T) (rest : list (clay T)) (tgt al mo lo : nat) (ocd obp orf : list (op T)).
Variables (inp : nat) (ni : node T) (ish : list N) (fops : list (op T)) (Cf : list (nat * T)) (Wf : nat -> Prop) (Pf : list T -> Prop) (Rf : list T -> list T -> Prop).
Notation cs := (c :: rest).
Hypothesis Hft : fitted s c rest L tgt al mo lo ocd obp orf.
Hypothesis Hapt : apt0 s cs.
Hypothesis Hchs : chain s cs.
Hypothesis Hnone : forall p, p ∈ cs -> forall g, parf g -> fid s (c_i p) g = None.
Hypothesis Hfw : forward s cs inp ni ish fops Cf Wf Pf Rf.
Variables (C : list (nat * T)) (Wc Wb : nat -> Prop).
Hypothesis HC : forall x, x ∈ C -> mem (ts L) !! fst x = Some (snd x) /\ length (mem (ts s)) + tsize c <= fst x /\ fst x <> al /\ fst x <> mo /\ ~ Wc (fst x) /\ ~ Wb (fst x).
Hypothesis HWc : forall l, Wc l -> length (mem (ts s)) + tsize c <= l < al \/ cells L (c_i c) FDif l.
Hypothesis HWb : forall l, Wb l -> mo < l < length (mem (ts L)) \/ exists p, p ∈ rest /\ cells L (c_i p) FDif l /\ ~ cells L (c_i c) FDif l.
Hypothesis Hocd : acts ocd (length (mem (ts L))) Wc C any (errL L c tgt lo).
Hypothesis Hobp : acts obp (length (mem (ts L))) Wb C (stepP L L al mo cs) (stepR L L al mo cs).
Hypothesis Horf : acts orf (length (mem (ts L))) (clearW L cs) C any (fun _ m' => clearR L cs m').
Notation n0 := (length (mem (ts s))).
Notation n1 := (length (mem (ts L))).

(** The constants and the numbers of references are as they were. *)
Definition good m : Prop := consts Cf m /\ consts C m /\ forall p, p ∈ cs -> refs L (c_i p) m.

(** *** Where things are *)
Lemma same_cells p f a : p ∈ cs -> seenf f -> cells L (c_i p) f a <-> cells s (c_i p) f a.
Proof using Hft. intros Hp Hf. apply (proj1 (ft_same _ _ _ _ _ _ _ _ _ _ _ Hft p Hp) f Hf). Qed.
Lemma clear_eq a : clearW L cs a <-> clearW s cs a.
Proof using Hft. split; intros (p & Hp & Hx); exists p; (split; [exact Hp|]); apply (same_cells p FDif a Hp ltac:(left; reflexivity)); exact Hx. Qed.
Lemma clear_lo a : clearW s cs a -> a < n0.
Proof using Hapt. intros (p & Hp & Hx). exact (a0_lo _ _ Hapt p FDif a Hp ltac:(left; reflexivity) Hx). Qed.
Lemma pf_seen f : f = FBias \/ f = FWeights -> seenf f.
Proof using Type. intros [->| ->]; right; unfold readf; auto 10. Qed.
Lemma pc_lo a : pcells s cs a -> a < n0.
Proof using Hapt. intros (p & f & Hp & _ & Hf & Hx). exact (a0_lo _ _ Hapt p f a Hp (pf_seen _ Hf) Hx). Qed.
Lemma rc_lo a : rcells s cs a -> a < n0.
Proof using Hapt. intros (p & Hp & Hx). apply (a0_lr _ _ Hapt p a Hp). auto. Qed.
Lemma rc_clear a : rcells s cs a -> ~ clearW s cs a.
Proof using Hapt. intros (p & Hp & Hx) (q & Hq & Hy). destruct (a0_r _ _ Hapt p q a Hp Hq Hy). congruence. Qed.
Lemma inp_lo a : Some a ∈ operands (nmat ni) -> a < n0.
Proof using Hfw. intros Ha. destruct (fw_in _ _ _ _ _ _ _ _ _ _ Hfw) as (_ & _ & Hw & _). destruct (ops_some _ _ _ Hw Ha) as (b & [= <-] & Hb). exact Hb. Qed.
Lemma Cf_lo a : a ∈ map fst Cf -> a < n0 /\ ~ clearW s cs a /\ ~ pcells s cs a.
Proof using Hfw.
  intros Ha. apply elem_of_list_fmap in Ha as (x & -> & Hx). destruct (fw_C _ _ _ _ _ _ _ _ _ _ Hfw x Hx) as (E & A & B). split; [eapply lookup_lt_Some; exact E|auto].
Qed.
Lemma C_hi a : a ∈ map fst C -> n0 + tsize c <= a < n1 /\ a <> al /\ a <> mo /\ ~ Wc a /\ ~ Wb a.
Proof using HC.
  intros Ha. apply elem_of_list_fmap in Ha as (x & -> & Hx). destruct (HC x Hx) as (E & A & B & D & F). apply lookup_lt_Some in E. auto.
Qed.
Lemma dif_c a : cells L (c_i c) FDif a -> clearW s cs a.
Proof using Hft. intros Hx. exists c. split; [left|]. apply same_cells; [left|left; reflexivity|exact Hx]. Qed.
Lemma dif_r p a : p ∈ rest -> cells L (c_i p) FDif a -> clearW s cs a.
Proof using Hft. intros Hp Hx. exists p. split; [right; exact Hp|]. apply same_cells; [right; exact Hp|left; reflexivity|exact Hx]. Qed.

Definition gcell (a : nat) : Prop := a ∈ map fst Cf \/ a ∈ map fst C \/ rcells s cs a.
Lemma gcell_n (W : nat -> Prop) : (forall a, W a -> ~ gcell a) -> forall m m', ran W m m' -> good m -> good m'.
Proof using All.
  intros HW m m' Hr (A & B & D). split; [|split].
  - eapply ran_consts; [exact Hr| |exact A]. intros x Hx Hw. apply (HW _ Hw). left. apply elem_of_list_fmap. eauto.
  - eapply ran_consts; [exact Hr| |exact B]. intros x Hx Hw. apply (HW _ Hw). right. left. apply elem_of_list_fmap. eauto.
  - intros p Hp r Er. rewrite (proj2 Hr); [exact (D p Hp r Er)|]. intros Hw. apply (HW _ Hw). right. right. exists p. split; [exact Hp|].
    destruct (ft_same _ _ _ _ _ _ _ _ _ _ _ Hft p Hp) as (_ & E & _). congruence.
Qed.
Lemma g_clear a : clearW s cs a -> ~ gcell a.
Proof using All.
  intros Hc [Hg|[Hg|Hg]]; [exact (proj1 (proj2 (Cf_lo _ Hg)) Hc)|pose proof (C_hi _ Hg); pose proof (clear_lo _ Hc); lia|exact (rc_clear _ Hg Hc)].
Qed.
Lemma g_inp a : Some a ∈ operands (nmat ni) -> ~ gcell a.
Proof using All.
  intros Hc. destruct (fw_inc _ _ _ _ _ _ _ _ _ _ Hfw a Hc) as (_ & _ & Hr & Hf). intros [Hg|[Hg|Hg]]; [auto|pose proof (C_hi _ Hg); pose proof (inp_lo _ Hc); lia|auto].
Qed.
Lemma g_tgt a : n0 <= a < n0 + tsize c -> ~ gcell a.
Proof using All. intros Ha [Hg|[Hg|Hg]]; [pose proof (proj1 (Cf_lo _ Hg)); lia|pose proof (C_hi _ Hg); lia|pose proof (rc_lo _ Hg); lia]. Qed.
Lemma g_f a : Wf a -> ~ gcell a.
Proof using All.
  intros Hw. destruct (fw_W _ _ _ _ _ _ _ _ _ _ Hfw a Hw) as (Hl & _ & _ & Hr & _ & Hf). intros [Hg|[Hg|Hg]]; [auto|pose proof (C_hi _ Hg); lia|auto].
Qed.
Lemma g_c a : Wc a -> ~ gcell a.
Proof using All.
  intros Hw Hg. destruct (HWc a Hw) as [Hx|Hx]; [|exact (g_clear a (dif_c _ Hx) Hg)].
  destruct Hg as [Hg|[Hg|Hg]]; [pose proof (proj1 (Cf_lo _ Hg)); lia|destruct (C_hi _ Hg) as (_ & _ & _ & Hn & _); exact (Hn Hw)|pose proof (rc_lo _ Hg); lia].
Qed.
Lemma g_b a : Wb a -> ~ gcell a.
Proof using All.
  intros Hw Hg. pose proof (ft_lo _ _ _ _ _ _ _ _ _ _ _ Hft). pose proof (ft_mo _ _ _ _ _ _ _ _ _ _ _ Hft). destruct (HWb a Hw) as [Hx|(p & Hp & Hx & _)]; [|exact (g_clear a (dif_r _ _ Hp Hx) Hg)].
  destruct Hg as [Hg|[Hg|Hg]]; [pose proof (proj1 (Cf_lo _ Hg)); lia|destruct (C_hi _ Hg) as (_ & _ & _ & _ & Hn); exact (Hn Hw)|pose proof (rc_lo _ Hg); lia].
Qed.
Lemma g_p a : pcells s cs a -> ~ gcell a.
Proof using All.
  intros Hc [Hg|[Hg|Hg]]; [exact (proj2 (proj2 (Cf_lo _ Hg)) Hc)|pose proof (C_hi _ Hg); pose proof (pc_lo _ Hc); lia|exact (fw_ref _ _ _ _ _ _ _ _ _ _ Hfw _ Hg Hc)].
Qed.

(** *** Running the four graphs *)
Definition fed (a : nat) : Prop := clearW s cs a \/ Some a ∈ operands (nmat ni) \/ n0 <= a < n0 + tsize c.
Lemma live_upd S m : live L S -> length m = length (mem (ts S)) -> live L (upd S m).
Proof using Type. intros [A B D] E. split; cbn [upd lays ts tens mem]; [exact A|exact B|rewrite E; exact D]. Qed.
Lemma upd_upd S m m' : upd (upd S m) m' = upd S m'.
Proof using Type. reflexivity. Qed.

Section Call.
Variables (md : model T) (S : lst T) (x y : nat) (nx ny : node T) (a b : T) (vx vy : vten T).
Hypothesis Hmd : m_resetfit md = Some (MkGraph orf) /\ m_input md = Some inp /\ m_target md = Some tgt /\ m_ff md = Some (MkGraph fops) /\
  m_caldif md = Some (MkGraph ocd) /\ m_bp md = Some (MkGraph obp) /\ m_last md = Some (c_i c).
Hypothesis HL : live L S.
Notation m0 := (mem (ts S)).
Hypothesis Hg : good m0.
Hypothesis Ha : m0 !! al = Some a.
Hypothesis Hb : m0 !! mo = Some b.
Hypothesis Hx : plain (ts S) x nx ish.
Hypothesis Hy : plain (ts S) y ny (c_sh c).
Hypothesis Hxo : forall l, Some l ∈ operands (nmat nx) -> ~ touch s L cs ni Wf l.
Hypothesis Hyo : forall l, Some l ∈ operands (nmat ny) -> ~ touch s L cs ni Wf l.
Hypothesis Hvx : mval m0 (nmat nx) = Some vx.
Hypothesis Hvy : mval m0 (nmat ny) = Some vy.
Hypothesis HPf : forall m, ran fed m0 m -> mval m (nmat ni) = Some vx -> Pf m.

(** Up to the end of the feed-forward graph. *)
Lemma exec_forward : exists m3 m4, ran fed m0 m3 /\ mval m3 (nmat ni) = Some vx /\ tval L tgt m3 = Some vy /\ clearR L cs m3 /\ good m3 /\ ran Wf m3 m4 /\ Rf m3 m4 /\
  forall k, ((ExecG (m_resetfit md) ;~ i <~ the (m_input md) ; liftT (LoadFromTensor i x) ;~ t <~ the (m_target md) ; liftT (LoadFromTensor t y) ;~ ExecG (m_ff md) ;~ k) S : res unit * lst T) = k (upd S m4).
Proof using All.
  destruct Hmd as (Erf & Ein & Etg & Eff & _). pose proof (ft_lo _ _ _ _ _ _ _ _ _ _ _ Hft) as Hlo. pose proof (ft_mo _ _ _ _ _ _ _ _ _ _ _ Hft) as Hmo.
  destruct (ft_tgt _ _ _ _ _ _ _ _ _ _ _ Hft) as (nt & (Hnt & Hsett & Hwt & Hsht) & Ont).
  destruct Hg as (G1 & G2 & G3).
  destruct (Horf m0 (lv_len _ _ HL) G2 I) as (m1 & X1 & R1 & Z1). assert (g1 : good m1) by (eapply gcell_n; [|exact R1|exact Hg]; intros l Hl; apply g_clear, clear_eq; exact Hl).
  destruct (fw_in _ _ _ _ _ _ _ _ _ _ Hfw) as (Hni & Hseti & Hwi & Hshi).
  destruct (hd_keep _ _ (ft_held _ _ _ _ _ _ _ _ _ _ _ Hft) _ _ Hni) as (ni' & Hni' & K1 & K2 & K3). destruct (K3 Hseti) as (E1 & E2 & E3).
  assert (Hlen : n0 <= n1) by (apply (hd_len _ _ (ft_held _ _ _ _ _ _ _ _ _ _ _ Hft))).
  assert (Hmi : forall m, mval m (nmat ni') = mval m (nmat ni)) by (intros m; apply mval_kept; assumption).
  assert (Pi : plain (ts (upd S m1)) inp ni' ish).
  { split; [exact (lv_tens _ _ HL _ _ Hni')|]. cbn [upd ts mem]. split; [|congruence]. eapply wf_kept; [exact E1|exact E2|exact E3|]. eapply wf_mat_mono; [exact Hwi|]. pose proof (lv_len _ _ HL). rewrite (proj1 R1). lia. }
  assert (Px : plain (ts (upd S m1)) x nx ish).
  { destruct Hx as (A & B & D). split; [exact A|]. split; [|exact D]. cbn [upd ts mem]. rewrite (proj1 R1). exact B. }
  destruct (load_ok _ _ _ _ _ _ Pi Px) as (m2 & X2 & R2 & V2).
  { rewrite E3. exact (fw_nd _ _ _ _ _ _ _ _ _ _ Hfw). }
  { intros l Hl Hl'. rewrite E3 in Hl. apply (Hxo l Hl'). unfold touch. auto. }
  cbn [upd ts mem tens ctx] in X2, R2, V2. rewrite Hmi in V2. rewrite E3 in R2. rewrite (ran_val _ _ _ _ R1) in V2.
  2:{ intros l Hl Hw. apply (Hxo l Hl). right. left. apply clear_eq. exact Hw. }
  rewrite Hvx in V2. assert (g2 : good m2) by (eapply gcell_n; [|exact R2|exact g1]; exact g_inp).
  assert (Pt : plain (ts (upd S m2)) tgt nt (c_sh c)).
  { split; [exact (lv_tens _ _ HL _ _ Hnt)|]. cbn [upd ts mem]. split; [|exact Hsht]. eapply wf_mat_mono; [exact Hwt|]. pose proof (lv_len _ _ HL). rewrite (proj1 R2), (proj1 R1). lia. }
  assert (Py : plain (ts (upd S m2)) y ny (c_sh c)).
  { destruct Hy as (A & B & D). split; [exact A|]. split; [|exact D]. cbn [upd ts mem]. rewrite (proj1 R2), (proj1 R1). exact B. }
  assert (Otg : forall l, Some l ∈ operands (nmat nt) <-> n0 <= l < n0 + tsize c).
  { intros l. rewrite Ont. rewrite elem_of_list_fmap. split; [intros (z & [= <-] & Hz); apply elem_of_seq in Hz; exact Hz|intros Hz; exists l; split; [reflexivity|apply elem_of_seq; exact Hz]]. }
  destruct (load_ok _ _ _ _ _ _ Pt Py) as (m3 & X3 & R3 & V3).
  { rewrite Ont. apply NoDup_fmap_2; [intros ? ? [=]; assumption|apply NoDup_seq]. }
  { intros l Hl Hl'. apply Otg in Hl. apply (Hyo l Hl'). left. lia. }
  cbn [upd ts mem tens ctx] in X3, R3, V3. rewrite (ran_val _ _ _ _ R2) in V3. 2:{ intros l Hl Hw. apply (Hyo l Hl). unfold touch. auto. }
  rewrite (ran_val _ _ _ _ R1) in V3. 2:{ intros l Hl Hw. apply (Hyo l Hl). right. left. apply clear_eq. exact Hw. }
  rewrite Hvy in V3. assert (g3 : good m3) by (eapply gcell_n; [|exact R3|exact g2]; intros l Hl; apply g_tgt, Otg, Hl).
  assert (F3 : ran fed m0 m3).
  { split; [rewrite (proj1 R3), (proj1 R2), (proj1 R1); reflexivity|]. intros l Hl. unfold fed in Hl. rewrite (proj2 R3), (proj2 R2), (proj2 R1); [reflexivity|..].
    - rewrite clear_eq. auto.
    - auto.
    - rewrite Otg. auto. }
  assert (Vi3 : mval m3 (nmat ni) = Some vx).
  { rewrite <- V2. apply (ran_val _ _ _ _ R3). intros l Hl Hw. apply Otg in Hw. pose proof (inp_lo _ Hl). lia. }
  destruct (fw_acts _ _ _ _ _ _ _ _ _ _ Hfw m3) as (m4 & X4 & R4 & Z4).
  { rewrite (proj1 F3). pose proof (lv_len _ _ HL). lia. }
  { apply g3. }
  { apply HPf; assumption. }
  exists m3, m4. split; [exact F3|]. split; [exact Vi3|]. split; [unfold tval; rewrite Hnt; exact V3|]. split.
  { intros p Hp. rewrite <- (Z1 p Hp). apply fval_off. intros l Hl. assert (Hcl : clearW s cs l) by (apply clear_eq; exists p; auto). rewrite (proj2 R3), (proj2 R2); [reflexivity|..].
    - intros Hw. destruct (fw_inc _ _ _ _ _ _ _ _ _ _ Hfw l Hw) as (Hn & _). exact (Hn Hcl).
    - intros Hw. apply Otg in Hw. pose proof (clear_lo _ Hcl). lia. }
  split; [exact g3|]. split; [exact R4|]. split; [exact Z4|]. intros k.
  erewrite mbnd_ok by (eapply NetRun2.ExecG_ok; [exact Erf|exact X1]). fold (upd S m1).
  rewrite Ein. erewrite mbnd_ok by reflexivity. rewrite (mbnd_ok _ _ _ _ _ (liftT_ok _ (upd S m1) _ _ X2)). cbn [upd lays rc]. fold (upd S m2).
  rewrite Etg. erewrite mbnd_ok by reflexivity. rewrite (mbnd_ok _ _ _ _ _ (liftT_ok _ (upd S m2) _ _ X3)). cbn [upd lays rc]. fold (upd S m3).
  erewrite mbnd_ok by (eapply NetRun2.ExecG_ok; [exact Eff|exact X4]). reflexivity.
Qed.

(** *** Taking over the new parameters *)
Lemma param_inv p t t' : p ∈ cs -> ReachSpec.param (lays S) (c_i p) t t' ->
  c_par p = true /\ trains S p /\ exists f g, (f = FBias /\ g = FNBias \/ f = FWeights /\ g = FNWeights) /\ fid L (c_i p) f = Some t /\ fid L (c_i p) g = Some t'.
Proof using Hft Hnone Hapt HL.
  intros Hp (l & Hl & Htr & Hf). assert (HT : trains S p) by (exists l; auto). destruct (alike_r _ _ _ _ (lv_lays _ _ HL) Hl) as (l0 & Hl0 & _ & _ & _ & _ & _ & H6 & _). rewrite !H6 in Hf. clear l Hl Htr H6. rename l0 into l, Hl0 into Hl.
  assert (Hc : c_par p = true).
  { destruct (c_par p) eqn:E; [reflexivity|]. exfalso.
    assert (Hn : forall g, parf g -> fid L (c_i p) g = None).
    { intros g Hgp. rewrite (ft_bare _ _ _ _ _ _ _ _ _ _ _ Hft (c_i p) g Hgp); [apply Hnone; assumption|]. intros p' Hp' Ei. assert (p' = p) as ->; [|exact E].
      pose proof (a0_nd _ _ Hapt) as Hnd. apply elem_of_list_lookup in Hp as (i1 & H1). apply elem_of_list_lookup in Hp' as (i2 & H2).
      assert (i1 = i2) as ->; [|congruence]. eapply NoDup_lookup; [exact Hnd|rewrite list_lookup_fmap, H1; reflexivity|rewrite list_lookup_fmap, H2; cbn; rewrite Ei; reflexivity]. }
    unfold parf in Hn. pose proof (Hn FNWeights ltac:(auto)) as A. pose proof (Hn FNBias ltac:(auto)) as B. rewrite (fid_lay _ _ _ _ Hl) in A. rewrite (fid_lay _ _ _ _ Hl) in B. destruct Hf as [[_ Hf]|[_ Hf]]; congruence. }
  split; [exact Hc|]. split; [exact HT|]. destruct Hf as [[A B]|[A B]].
  - exists FWeights, FNWeights. rewrite !(fid_lay _ _ _ _ Hl). auto.
  - exists FBias, FNBias. rewrite !(fid_lay _ _ _ _ Hl). auto.
Qed.
(** The nodes of the old and of the new parameters. *)
Lemma par_nodes p f g : p ∈ cs -> c_par p = true -> f = FBias /\ g = FNBias \/ f = FWeights /\ g = FNWeights ->
  exists t t' n n' sh, fid L (c_i p) f = Some t /\ fid L (c_i p) g = Some t' /\ plain (ts L) t n sh /\ plain (ts L) t' n' sh /\ NoDup (operands (nmat n)) /\
    (forall l, Some l ∈ operands (nmat n) <-> cells s (c_i p) f l) /\ (forall l, Some l ∈ operands (nmat n') -> mo < l) /\
    (forall m, fval L (c_i p) f m = mval m (nmat n)) /\ forall m, fval L (c_i p) g m = mval m (nmat n').
Proof using Hft Hfw Hapt.
  intros Hp Hc Hfg. assert (Hg0 : g = FNBias \/ g = FNWeights \/ g = FMBias) by (destruct Hfg as [[_ ->]|[_ ->]]; auto).
  destruct (ft_par _ _ _ _ _ _ _ _ _ _ _ Hft p Hp Hc g Hg0) as (sh & (t' & n' & Ft' & Ht' & _ & Wt' & St') & Hok & Hhi).
  assert (Etw : twin g = f) by (destruct Hfg as [[-> ->]|[-> ->]]; reflexivity). rewrite Etw in Hok. destruct Hok as (t & n & Ft & Ht & _ & Wt & St).
  assert (Hfp : f = FBias \/ f = FWeights) by (destruct Hfg as [[-> _]|[-> _]]; auto).
  assert (N1 : fnode L (c_i p) f = Some n) by (unfold fnode; rewrite Ft; exact Ht). assert (N2 : fnode L (c_i p) g = Some n') by (unfold fnode; rewrite Ft'; exact Ht').
  exists t, t', n, n', sh. split; [exact Ft|]. split; [exact Ft'|]. split; [split; auto|]. split; [split; auto|].
  destruct (proj1 (ft_same _ _ _ _ _ _ _ _ _ _ _ Hft p Hp) f (pf_seen _ Hfp)) as (Ef & _ & Hce). rewrite Ft in Ef.
  split; [|split; [|split; [|split]]].
  - symmetry in Ef. destruct (a0_seen _ _ Hapt p f t Hp (pf_seen _ Hfp) Ef) as (ns & Hns & Hset). destruct (hd_keep _ _ (ft_held _ _ _ _ _ _ _ _ _ _ _ Hft) _ _ Hns) as (n2 & Hn2 & _ & _ & K). destruct (K Hset) as (_ & _ & E).
    assert (n2 = n) as -> by congruence. rewrite E. apply (fw_par _ _ _ _ _ _ _ _ _ _ Hfw p f ns Hp Hc Hfp). unfold fnode. rewrite Ef. exact Hns.
  - intros l. rewrite <- Hce. unfold cells. rewrite N1. split; [intros Hl; eauto|intros (z & [= <-] & Hl); exact Hl].
  - intros l Hl. apply Hhi. unfold cells. eauto.
  - intros m. unfold fval. rewrite N1. reflexivity.
  - intros m. unfold fval. rewrite N2. reflexivity.
Qed.
Lemma plain_live m i n sh : length m = length m0 -> plain (ts L) i n sh -> plain (ts (upd S m)) i n sh.
Proof using HL. intros Hm (A & B & D). split; [exact (lv_tens _ _ HL _ _ A)|]. split; [|exact D]. cbn [upd ts mem]. eapply wf_mat_mono; [exact B|]. rewrite Hm. exact (lv_len _ _ HL). Qed.
Lemma ready m : length m = length m0 -> FitProofs.fit_ready (upd S m) (c_i c).
Proof using All.
  intros Hm. assert (El : alike (lays L) (lays (upd S m))) by exact (lv_lays _ _ HL). pose proof (ft_chain _ _ _ _ _ _ _ _ _ _ _ Hft) as Hch. pose proof (ft_mo _ _ _ _ _ _ _ _ _ _ _ Hft) as Hmo. pose proof (ft_lo _ _ _ _ _ _ _ _ _ _ _ Hft) as Hlo.
  assert (Hin : forall i, ReachSpec.behind (lays (upd S m)) (c_i c) i -> exists p, p ∈ cs /\ i = c_i p) by (intros i Hbh; apply (behind_alike _ _ _ _ El) in Hbh; apply (behind_chain L rest c i Hch); exact Hbh).
  assert (Hpar : forall i t t', ReachSpec.behind (lays (upd S m)) (c_i c) i -> ReachSpec.param (lays (upd S m)) i t t' ->
    exists p f n n' sh, p ∈ cs /\ i = c_i p /\ c_par p = true /\ (f = FBias \/ f = FWeights) /\ fid L (c_i p) f = Some t /\ (f = FBias /\ fid L (c_i p) FNBias = Some t' \/ f = FWeights /\ fid L (c_i p) FNWeights = Some t') /\
      plain (ts L) t n sh /\ plain (ts L) t' n' sh /\ NoDup (operands (nmat n)) /\ (forall l, Some l ∈ operands (nmat n) <-> cells s (c_i p) f l) /\ (forall l, Some l ∈ operands (nmat n') -> mo < l)).
  { intros i t t' Hbh Hp. destruct (Hin _ Hbh) as (p & Hpi & ->). destruct (param_inv p t t' Hpi Hp) as (Hc & _ & f & g & Hfg & F1 & F2).
    destruct (par_nodes p f g Hpi Hc Hfg) as (u & u' & n & n' & sh & E1 & E2 & P1 & P2 & Hnd & Hce & Hhi & _). assert (u = t) as -> by congruence. assert (u' = t') as -> by congruence.
    exists p, f, n, n', sh. split; [exact Hpi|]. split; [reflexivity|]. split; [exact Hc|]. split; [destruct Hfg as [[-> _]|[-> _]]; auto|]. split; [exact F1|]. split; [destruct Hfg as [[-> ->]|[-> ->]]; auto|]. auto. }
  assert (Hoc : forall t n sh, plain (ts L) t n sh -> ObjSpec.cells (ts (upd S m)) t = operands (nmat n)) by (intros t n sh P; apply ocells; exact (lv_tens _ _ HL _ _ (proj1 P))).
  split.
  - intros i Hbh. destruct (Hin _ Hbh) as (p & Hp & ->). destruct (chain_in _ _ _ Hch Hp) as (l & psh & Hs). destruct (alike_l _ _ _ _ El (ls_lay _ _ _ _ Hs)) as (l2 & -> & _). eauto.
  - intros i l Hbh Hl Htr. destruct (Hin _ Hbh) as (p & Hp & ->). destruct (alike_r _ _ _ _ El Hl) as (l0 & Hl0 & _ & _ & _ & _ & _ & H6 & _). rewrite !H6. clear l Hl Htr H6. rename l0 into l, Hl0 into Hl. destruct (c_par p) eqn:Hc.
    + destruct (par_nodes p FBias FNBias Hp Hc ltac:(auto)) as (u & u' & n & n' & sh & E1 & E2 & _). rewrite (fid_lay _ _ _ _ Hl) in E1. rewrite (fid_lay _ _ _ _ Hl) in E2. split; congruence.
    + pose proof (fw_none _ _ _ _ _ _ _ _ _ _ Hfw p Hp Hc) as En. destruct (proj1 (ft_same _ _ _ _ _ _ _ _ _ _ _ Hft p Hp) FBias ltac:(right; unfold readf; auto 10)) as (Ef & _). rewrite En in Ef. rewrite (fid_lay _ _ _ _ Hl) in Ef. split; [intros _|intros _; exact Ef].
      destruct (lten l FNBias) as [t'|] eqn:Et; [|reflexivity]. exfalso. assert (E : fid L (c_i p) FNBias = fid s (c_i p) FNBias).
      { apply (ft_bare _ _ _ _ _ _ _ _ _ _ _ Hft); [unfold parf; auto|]. intros p' Hp' Ei. assert (p' = p) as ->; [|exact Hc].
        pose proof (a0_nd _ _ Hapt) as Hnd. apply elem_of_list_lookup in Hp as (i1 & H1). apply elem_of_list_lookup in Hp' as (i2 & H2).
        assert (i1 = i2) as ->; [|congruence]. eapply NoDup_lookup; [exact Hnd|rewrite list_lookup_fmap, H1; reflexivity|rewrite list_lookup_fmap, H2; cbn; rewrite Ei; reflexivity]. }
      rewrite (Hnone p Hp FNBias ltac:(unfold parf; auto)) in E. rewrite (fid_lay _ _ _ _ Hl) in E. congruence.
  - intros i t t' Hbh Hp. destruct (Hpar _ _ _ Hbh Hp) as (p & f & n & n' & sh & Hpi & -> & Hc & Hf & F1 & F2 & P1 & P2 & Hnd & Hce & Hhi). split.
    + unfold ObjSpec.unshared. rewrite (Hoc _ _ _ P1). exact Hnd.
    + destruct (plain_holds _ _ _ _ (plain_live m _ _ _ Hm P1)) as (v & Hv & _ & Sv). destruct (plain_holds _ _ _ _ (plain_live m _ _ _ Hm P2)) as (u & Hu & _ & Su). exists v, u. split; [exact Hv|]. split; [exact Hu|]. congruence.
  - intros i t t' i2 t2 t2' Hbh Hbh2 Hp Hp2. destruct (Hpar _ _ _ Hbh Hp) as (p & f & n & n' & sh & Hpi & -> & Hc & Hf & F1 & F2 & P1 & P2 & Hnd & Hce & Hhi).
    destruct (Hpar _ _ _ Hbh2 Hp2) as (p2 & f2 & n2 & n2' & sh2 & Hpi2 & -> & Hc2 & Hf2 & F12 & F22 & P12 & P22 & Hnd2 & Hce2 & Hhi2).
    intros z Hz Hz2. rewrite (Hoc _ _ _ P1) in Hz. rewrite (Hoc _ _ _ P22) in Hz2. destruct (ops_some _ _ _ (proj1 (proj2 P1)) Hz) as (l & -> & _). apply Hhi2 in Hz2. apply Hce in Hz. pose proof (pc_lo l) as Hpl. specialize (Hpl ltac:(exists p, f; auto)). lia.
  - intros i t t' i2 t2 t2' Hbh Hbh2 Hp Hp2. destruct (Hpar _ _ _ Hbh Hp) as (p & f & n & n' & sh & Hpi & -> & Hc & Hf & F1 & F2 & P1 & P2 & Hnd & Hce & Hhi).
    destruct (Hpar _ _ _ Hbh2 Hp2) as (p2 & f2 & n2 & n2' & sh2 & Hpi2 & -> & Hc2 & Hf2 & F12 & F22 & P12 & P22 & Hnd2 & Hce2 & Hhi2).
    assert (Hdf : f = f2 \/ f <> f2) by (clear - Hf Hf2; destruct Hf as [->| ->], Hf2 as [->| ->]; first [left; reflexivity|right; discriminate]).
    destruct (decide (c_i p = c_i p2)) as [Ei|Hni]; [destruct Hdf as [<-|Hnf]|].
    + left. split; [congruence|]. rewrite Ei in F2. destruct F2 as [[-> F2]|[-> F2]], F22 as [[E F22]|[E F22]]; congruence.
    + right. intros z Hz Hz2. rewrite (Hoc _ _ _ P1) in Hz. rewrite (Hoc _ _ _ P12) in Hz2. destruct (ops_some _ _ _ (proj1 (proj2 P1)) Hz) as (l & -> & _). apply Hce in Hz. apply Hce2 in Hz2.
      apply Hnf. apply (fw_dis _ _ _ _ _ _ _ _ _ _ Hfw p p2 f f2 l); assumption.
    + right. intros z Hz Hz2. rewrite (Hoc _ _ _ P1) in Hz. rewrite (Hoc _ _ _ P12) in Hz2. destruct (ops_some _ _ _ (proj1 (proj2 P1)) Hz) as (l & -> & _). apply Hce in Hz. apply Hce2 in Hz2.
      apply Hni. apply (fw_dis _ _ _ _ _ _ _ _ _ _ Hfw p p2 f f2 l); assumption.
Qed.
(** LFit over the chain. *)
Lemma fit_chain m : length m = length m0 -> exists m', with_fuel (fun n => LFit n (c_i c)) (upd S m) = (Ok tt, upd S m') /\ ran (pcells s cs) m m' /\
  forall p f g, p ∈ cs -> c_par p = true -> f = FBias /\ g = FNBias \/ f = FWeights /\ g = FNWeights ->
    (trains S p -> fval L (c_i p) f m' = fval L (c_i p) g m) /\ (~ trains S p -> fval L (c_i p) f m' = fval L (c_i p) f m).
Proof using All.
  intros Hm. assert (El : alike (lays L) (lays (upd S m))) by exact (lv_lays _ _ HL). pose proof (ft_chain _ _ _ _ _ _ _ _ _ _ _ Hft) as Hch.
  destruct (FitProofs.fit_reaches (upd S m) (c_i c) (length cs) (ready m Hm)) as (S' & E & Hnew & _).
  { eapply depth_alike; [exact El|]. exact (depth_chain L rest c Hch). }
  unfold with_fuel in *. destruct (FitProofs.LFit_only _ _ _ _ _ E) as (A1 & A2 & A3 & A4 & A5 & A6). cbn [upd ts tens ctx mem lays rc] in A1, A2, A3, A4, A5.
  exists (mem (ts S')). assert (ES : S' = upd S (mem (ts S'))).
  { destruct S' as [[mm tn cx] ly rr]. cbn [ts mem tens ctx lays rc] in *. subst. reflexivity. }
  split; [rewrite E; f_equal; exact ES|].
  assert (Htouch : forall l, FitProofs.touched (upd S m) (c_i c) (Some l) -> exists p f, p ∈ cs /\ c_par p = true /\ trains S p /\ (f = FBias \/ f = FWeights) /\ cells s (c_i p) f l).
  { intros l (i & t & t' & Hbh & Hp & Hl). apply (behind_alike _ _ _ _ El) in Hbh. apply (behind_chain L rest c i Hch) in Hbh as (p & Hpi & ->). destruct (param_inv p t t' Hpi Hp) as (Hc & Htr & f & g & Hfg & F1 & F2).
    destruct (par_nodes p f g Hpi Hc Hfg) as (u & u' & n & n' & sh & E1 & E2 & P1 & P2 & Hnd & Hce & _). assert (u = t) as -> by congruence. rewrite (ocells _ _ n) in Hl by exact (lv_tens _ _ HL _ _ (proj1 P1)).
    exists p, f. split; [exact Hpi|]. split; [exact Hc|]. split; [exact Htr|]. split; [destruct Hfg as [[-> _]|[-> _]]; auto|]. apply Hce. exact Hl. }
  split.
  - split; [exact A5|]. intros l Hl. apply A6. intros Hw. destruct (Htouch l Hw) as (p & f & Hp & Hc & _ & Hf & Hx'). apply Hl. exists p, f. auto.
  - intros p f g Hp Hc Hfg. destruct (par_nodes p f g Hp Hc Hfg) as (t & t' & n & n' & sh & E1 & E2 & P1 & P2 & Hnd & Hce & Hhi & V1 & V2). rewrite !V1, V2. split.
    + intros (ls & Hls & Htr). destruct (alike_r _ _ _ _ El Hls) as (l & Hl & _ & _ & _ & _ & _ & H6 & _). destruct (plain_holds _ _ _ _ (plain_live m _ _ _ Hm P2)) as (u & Hu & Eu & _). cbn [upd ts mem] in Eu. rewrite Eu.
      assert (Hh : ObjSpec.holds (ts S') t u).
      { apply (Hnew (c_i p) t t' u); [apply (behind_alike _ _ _ _ El), (behind_chain L rest c); [exact Hch|eauto]| |exact Hu]. exists ls. split; [exact Hls|]. split; [exact Htr|]. rewrite !H6. rewrite (fid_lay _ _ _ _ Hl) in E1. rewrite (fid_lay _ _ _ _ Hl) in E2. destruct Hfg as [[-> ->]|[-> ->]]; auto. }
      destruct Hh as (n2 & Hn2 & _ & Hv). rewrite ES in Hn2. cbn [upd ts tens] in Hn2. rewrite (lv_tens _ _ HL _ _ (proj1 P1)) in Hn2. injection Hn2 as <-. exact Hv.
    + intros Hnt. unfold mval. assert (E0 : rds (mem (ts S')) (operands (nmat n)) = rds m (operands (nmat n))); [|rewrite E0; reflexivity]. unfold rds. apply Forall_mapM_ext. apply Forall_forall. intros z Hz. destruct z as [l|]; [|reflexivity]. cbn. apply A6. intros Hw.
      destruct (Htouch l Hw) as (p2 & f2 & Hp2 & Hc2 & Htr2 & Hf2 & Hx2). apply Hce in Hz. assert (Hf : f = FBias \/ f = FWeights) by (destruct Hfg as [[-> _]|[-> _]]; auto).
      destruct (fw_dis _ _ _ _ _ _ _ _ _ _ Hfw p p2 f f2 l Hp Hp2 Hc Hc2 Hf Hf2 Hz Hx2) as [Ei _]. apply Hnt. unfold trains in *. rewrite Ei. exact Htr2.
Qed.

Theorem exec_fit : exists m3 m4, ran fed m0 m3 /\ mval m3 (nmat ni) = Some vx /\ ran Wf m3 m4 /\ Rf m3 m4 /\
  forall vo out, fval L (c_i c) FOutput m4 = Some vo ->
    s_step (rdg L m4) (mbv L m0) a b cs (V (c_sh c) (zip_with nsub (vdata vy) (vdata vo))) = Some out ->
    exists m', ExecFit md x y S = (Ok tt, upd S m') /\ ran (touch s L cs ni Wf) m0 m' /\ good m' /\ m' !! al = Some a /\ m' !! mo = Some b /\
      m' !! lo = fold1 nadd (map absv (zip_with nsub (vdata vy) (vdata vo))) /\ Forall2 (learned S L m0 a b m') cs out.
Proof using All.
  destruct exec_forward as (m3 & m4 & F3 & V3 & Vt & Z3 & g3 & R4 & HR & Hrun). exists m3, m4. split; [exact F3|]. split; [exact V3|]. split; [exact R4|]. split; [exact HR|].
  intros vo out Hvo Hst. set (d := V (c_sh c) (zip_with nsub (vdata vy) (vdata vo))) in *.
  destruct Hmd as (_ & _ & _ & _ & Ecd & Ebp & Ela). pose proof (ft_lo _ _ _ _ _ _ _ _ _ _ _ Hft) as Hlo. pose proof (ft_mo _ _ _ _ _ _ _ _ _ _ _ Hft) as Hmo. pose proof (lv_len _ _ HL) as Hll.
  assert (g4 : good m4) by (eapply gcell_n; [exact g_f|exact R4|exact g3]).
  assert (l4 : length m4 = length m0) by (rewrite (proj1 R4), (proj1 F3); reflexivity).
  destruct (Hocd m4) as (m5 & X5 & R5 & Z5); [rewrite l4; exact Hll|apply g4|exact I|].
  assert (g5 : good m5) by (eapply gcell_n; [exact g_c|exact R5|exact g4]). assert (l5 : length m5 = length m0) by (rewrite (proj1 R5); exact l4).
  assert (Vt4 : tval L tgt m4 = Some vy).
  { rewrite <- Vt. destruct (ft_tgt _ _ _ _ _ _ _ _ _ _ _ Hft) as (nt & (Hnt & _) & Ont). unfold tval. rewrite Hnt. cbn [mbind option_bind]. apply (ran_val _ _ _ _ R4). intros l Hl Hw. rewrite Ont in Hl. apply elem_of_list_fmap in Hl as (z & [= <-] & Hz). apply elem_of_seq in Hz.
    destruct (fw_W _ _ _ _ _ _ _ _ _ _ Hfw l Hw) as (Hlt & _). lia. }
  destruct (Z5 vy vo Vt4 Hvo) as [Hd5 Hl5]. fold d in Hd5.
  (* nothing a step reads was written since *)
  assert (lowc : lowW s cs Wc).
  { intros l Hl. destruct (HWc l Hl) as [Hz|Hz]; [left; lia|right; exists c; split; [left|apply same_cells; [left|left; reflexivity|exact Hz]]]. }
  assert (Hag : forall p, p ∈ cs -> agree (rdg L m5) (rdg L m4) (c_i p)).
  { intros p Hp. pose proof (agree0_ran s cs Wc m4 m5 p Hapt lowc R5 Hp) as Hq. pose proof (same_rdg s L cs m4 p (ft_same _ _ _ _ _ _ _ _ _ _ _ Hft) Hp) as H4. pose proof (same_rdg s L cs m5 p (ft_same _ _ _ _ _ _ _ _ _ _ _ Hft) Hp) as H5.
    unfold agree in *. intuition congruence. }
  assert (Hold : forall l, mo < l < n1 \/ l = al \/ l = mo -> m5 !! l = m0 !! l).
  { intros l Hl. rewrite (proj2 R5), (proj2 R4), (proj2 F3); [reflexivity|..].
    - intros [Hz|[Hz|Hz]]; [pose proof (clear_lo _ Hz)|pose proof (inp_lo _ Hz)|]; lia.
    - intros Hz. destruct (fw_W _ _ _ _ _ _ _ _ _ _ Hfw l Hz) as (Hlt & _). lia.
    - intros Hz. destruct (HWc l Hz) as [Hq|Hq]; [lia|]. pose proof (clear_lo _ (dif_c _ Hq)). lia. }
  assert (Hmb : forall p, p ∈ cs -> c_par p = true -> mbv L m5 (c_i p) = mbv L m0 (c_i p)).
  { intros p Hp Hc. destruct (ft_par _ _ _ _ _ _ _ _ _ _ _ Hft p Hp Hc FMBias ltac:(auto)) as (sh & Hok & _ & Hhi). apply fval_off. intros l Hl. apply Hold. left. split; [exact (Hhi _ Hl)|exact (ok_lt _ _ _ _ _ Hok Hl)]. }
  assert (Hst5 : s_step (rdg L m5) (mbv L m5) a b cs d = Some out).
  { rewrite <- Hst. apply s_step_agree'. intros p Hp. split; [exact (Hag p Hp)|exact (Hmb p Hp)]. }
  assert (Ha5 : m5 !! al = Some a) by (rewrite Hold by auto; exact Ha). assert (Hb5 : m5 !! mo = Some b) by (rewrite Hold by auto; exact Hb).
  destruct (Hobp m5) as (m6 & X6 & R6 & Z6); [rewrite l5; exact Hll|apply g5| |].
  { split; [apply g5|]. split.
    - intros p Hp Hdis. rewrite <- (Z3 p ltac:(right; exact Hp)). apply fval_off. intros l Hl. assert (Hcl : clearW s cs l) by exact (dif_r _ _ Hp Hl). rewrite (proj2 R5), (proj2 R4); [reflexivity|..].
      + intros Hz. destruct (fw_W _ _ _ _ _ _ _ _ _ _ Hfw l Hz) as (_ & Hn & _). exact (Hn Hcl).
      + intros Hz. destruct (HWc l Hz) as [Hq|Hq]; [pose proof (clear_lo _ Hcl); lia|]. exact (Hdis l Hq Hl).
    - exists d, a, b. split; [exact Hd5|]. split; [exact Ha5|]. split; [exact Hb5|]. rewrite Hst5. discriminate. }
  specialize (Z6 d a b out Hd5 Ha5 Hb5 Hst5).
  assert (g6 : good m6) by (eapply gcell_n; [exact g_b|exact R6|exact g5]). assert (l6 : length m6 = length m0) by (rewrite (proj1 R6); exact l5).
  destruct (fit_chain m6 l6) as (m7 & X7 & R7 & Hfit). exists m7.
  assert (Hp7 : forall l, mo < l < n1 \/ l = al \/ l = mo \/ l = lo \/ clearW s cs l -> m7 !! l = m6 !! l).
  { intros l Hl. apply (proj2 R7). intros Hz. pose proof (pc_lo _ Hz) as Hlt. destruct Hl as [Hl|[Hl|[Hl|[Hl|Hl]]]]; try lia. destruct Hz as (p & f & Hp & _ & Hf & Hz). destruct Hl as (p2 & Hp2 & Hl). apply (a0_f _ _ Hapt p p2 f l Hp Hp2); [unfold readf; destruct Hf; auto|exact Hl|exact Hz]. }
  assert (H65 : forall l, l = al \/ l = mo \/ l = lo -> m6 !! l = m5 !! l).
  { intros l Hl. apply (proj2 R6). intros Hz. destruct (HWb l Hz) as [Hq|(p & Hp & Hq & _)]; [lia|]. pose proof (clear_lo _ (dif_r _ _ Hp Hq)). lia. }
  split; [|split; [|split; [|split; [|split; [|split]]]]].
  - unfold ExecFit. rewrite Hrun. erewrite mbnd_ok by (eapply NetRun2.ExecG_ok; [exact Ecd|exact X5]). cbn [upd ts mem tens ctx lays rc]. fold (upd S m5).
    erewrite mbnd_ok by (eapply NetRun2.ExecG_ok; [exact Ebp|exact X6]). cbn [upd ts mem tens ctx lays rc]. fold (upd S m6).
    rewrite Ela. erewrite mbnd_ok by reflexivity. exact X7.
  - split; [rewrite (proj1 R7); exact l6|]. intros l Hl. unfold touch in Hl. rewrite (proj2 R7), (proj2 R6), (proj2 R5), (proj2 R4), (proj2 F3); [reflexivity|..].
    + clear - Hl Hlo Hmo. intros [Hz|[Hz|Hz]]; apply Hl; [tauto|tauto|]. left. lia.
    + clear - Hl. tauto.
    + intros Hz. apply Hl. destruct (HWc l Hz) as [Hq|Hq]; [left; lia|right; left; exact (dif_c _ Hq)].
    + intros Hz. apply Hl. destruct (HWb l Hz) as [Hq|(p & Hp & Hq & _)]; [left; lia|right; left; exact (dif_r _ _ Hp Hq)].
    + clear - Hl. tauto.
  - eapply gcell_n; [exact g_p|exact R7|exact g6].
  - rewrite Hp7, H65 by auto. exact Ha5.
  - rewrite Hp7, H65 by auto. exact Hb5.
  - rewrite Hp7, H65 by auto. exact Hl5.
  - eapply forall2_in; [exact Z6|]. cbn beta. intros p o Hp (E1 & E2 & E3). split.
    { rewrite <- E1. apply fval_off. intros l Hl. apply Hp7. right. right. right. right. apply clear_eq. exists p. auto. }
    split; [exact E2|]. intros nb nw Eo. assert (Hc : c_par p = true) by (apply E2; rewrite Eo; discriminate). destruct (E3 nb nw Eo) as (Q1 & Q2 & Q3).
    destruct (Hfit p FBias FNBias Hp Hc ltac:(auto)) as [B1 B2]. destruct (Hfit p FWeights FNWeights Hp Hc ltac:(auto)) as [W1 W2]. split; [|split].
    + intros Htr. rewrite (B1 Htr), (W1 Htr). auto.
    + intros Htr. rewrite (B2 Htr), (W2 Htr).
      assert (Hk : forall f, f = FBias \/ f = FWeights -> fval L (c_i p) f m6 = fval L (c_i p) f m0); [|split; apply Hk; auto].
      intros f Hf. apply fval_off. intros l Hl. apply same_cells in Hl; [|exact Hp|exact (pf_seen _ Hf)]. assert (Hpc : pcells s cs l) by (exists p, f; auto). pose proof (pc_lo _ Hpc) as Hlt.
      assert (Hnc : ~ clearW s cs l) by (intros (p2 & Hp2 & Hz); apply (a0_f _ _ Hapt p p2 f l Hp Hp2); [unfold readf; destruct Hf; auto|exact Hz|exact Hl]).
      rewrite (proj2 R6), (proj2 R5), (proj2 R4), (proj2 F3); [reflexivity|..].
      * intros [Hz|[Hz|Hz]]; [auto| |lia]. destruct (fw_inc _ _ _ _ _ _ _ _ _ _ Hfw l Hz) as (_ & Hn & _). auto.
      * intros Hz. destruct (fw_W _ _ _ _ _ _ _ _ _ _ Hfw l Hz) as (_ & _ & Hn & _). auto.
      * intros Hz. destruct (HWc l Hz) as [Hq|Hq]; [lia|]. exact (Hnc (dif_c _ Hq)).
      * intros Hz. destruct (HWb l Hz) as [Hq|(p2 & Hp2 & Hq & _)]; [lia|]. exact (Hnc (dif_r _ _ Hp2 Hq)).
    + intros Hmm. assert (Em : fval L (c_i p) FMBias m7 = fval L (c_i p) FMBias m6).
      { destruct (ft_par _ _ _ _ _ _ _ _ _ _ _ Hft p Hp Hc FMBias ltac:(auto)) as (sh & Hok & _ & Hhi). apply fval_off. intros l Hl. apply Hp7. left. split; [exact (Hhi _ Hl)|exact (ok_lt _ _ _ _ _ Hok Hl)]. }
      rewrite Em, (Q3 Hmm). unfold s_db. rewrite (Hmb p Hp Hc). reflexivity.
Qed.
End Call.
End Exec.
End TrnRun.
