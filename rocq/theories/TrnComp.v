(** * TrnComp: Model.CompileBackPropagation for a chain of layers *)
From Verif Require Import Base Num ModelTools ModelOps ModelTensor ModelGraph ModelLayer ModelModel Spec NetSpec FwdSpec Denote
  IndexProofs ExecProofs TensorFacts AccessProofs BuildProofs BuildFrame CompileProofs Agree FwdMask FwdBuild FwdSeg FwdOps FwdPool NetBuild NetChain FwdBody FwdExpr FwdConv FwdConv2 FwdAct FwdTotal
  BwdSpec BwdPost BwdLoop BwdOps BwdOps2 BwdOps3 BwdOps4 TrnSpec TrnTri TrnOwn TrnExpr TrnSite TrnDer TrnXfer TrnBody TrnKind TrnBias TrnPar TrnDense TrnKer TrnConvs TrnChain FwdDense TrnFit.
From Coq Require Import Lia ZifyBool ZifyNat ZifyN.

Section TrnComp.
Context {T : Type} `{Num T}.
Implicit Types (t : tst T) (s : lst T) (m : list T) (c q : clay T) (cs rest : list (clay T)).

(** ** Reading the same through another state *)
Definition seenf (f : tfield) : Prop := f = FDif \/ readf f.
(** The tensors of the layers that a step reads are there and have scalars. *)
Definition seen s cs : Prop := forall c f (t : nat), c ∈ cs -> seenf f -> fid s (c_i c) f = Some t -> exists n, tens (ts s) !! t = Some n /\ settled n.
Definition same s s' cs : Prop := forall c, c ∈ cs ->
  (forall f, seenf f -> fid s' (c_i c) f = fid s (c_i c) f /\ (forall m, fval s' (c_i c) f m = fval s (c_i c) f m) /\ forall a, cells s' (c_i c) f a <-> cells s (c_i c) f a) /\
  refc s' (c_i c) = refc s (c_i c) /\ maxc s' (c_i c) = maxc s (c_i c).
Lemma same_trans s1 s2 s3 cs : same s1 s2 cs -> same s2 s3 cs -> same s1 s3 cs.
Proof using Type.
  intros A B c Hc. destruct (A c Hc) as (A1 & A2 & A3), (B c Hc) as (B1 & B2 & B3). split; [|split; congruence].
  intros f Hf. destruct (A1 f Hf) as (x1 & x2 & x3), (B1 f Hf) as (y1 & y2 & y3). split; [congruence|]. split; [intros m; rewrite y2; apply x2|]. intros a. rewrite y3. apply x3.
Qed.
Lemma same_sym s1 s2 cs : same s1 s2 cs -> same s2 s1 cs.
Proof using Type.
  intros A c Hc. destruct (A c Hc) as (A1 & A2 & A3). split; [|split; congruence].
  intros f Hf. destruct (A1 f Hf) as (x1 & x2 & x3). split; [congruence|]. split; [intros m; symmetry; apply x2|]. intros a. symmetry. apply x3.
Qed.
Lemma fid_has s i f (t : nat) : fid s i f = Some t -> exists l, lays s !! i = Some l.
Proof using Type. unfold fid. destruct (lays s !! i) as [l|]; [eauto|discriminate]. Qed.
Lemma same_held s s' cs : held s s' -> seen s cs -> (forall c f, c ∈ cs -> seenf f -> fid s' (c_i c) f = fid s (c_i c) f) ->
  (forall c, c ∈ cs -> refc s' (c_i c) = refc s (c_i c) /\ maxc s' (c_i c) = maxc s (c_i c)) -> same s s' cs /\ seen s' cs.
Proof using Type.
  intros Hh Hs Hf Hrm. split.
  - intros c Hc. split; [|apply Hrm; exact Hc]. intros f Hsf. specialize (Hf c f Hc Hsf). split; [exact Hf|].
    destruct (fid s (c_i c) f) as [t|] eqn:Et.
    + destruct (Hs c f t Hc Hsf Et) as (n & Hn & Hset). destruct (hd_keep _ _ Hh _ _ Hn) as (n' & Hn' & _ & _ & K). destruct (K Hset) as (K1 & _ & K3).
      assert (F : fnode s (c_i c) f = Some n) by (unfold fnode; rewrite Et; exact Hn). assert (F' : fnode s' (c_i c) f = Some n') by (unfold fnode; rewrite Hf; exact Hn').
      split; [intros m; unfold fval; rewrite F, F'; cbn [mbind option_bind]; unfold mval; rewrite K1, K3; reflexivity|].
      intros a. unfold cells. rewrite F, F'. split; intros (x & [= <-] & Hx); eexists; (split; [reflexivity|]); congruence.
    + split; [intros m; unfold fval, fnode; rewrite Et, Hf; reflexivity|]. intros a. unfold cells, fnode. rewrite Et, Hf. split; intros (x & [=] & _).
  - intros c f t Hc Hsf Et. rewrite (Hf c f Hc Hsf) in Et. destruct (Hs c f t Hc Hsf Et) as (n & Hn & Hset). destruct (hd_keep _ _ Hh _ _ Hn) as (n' & Hn' & K1 & K2 & _). exists n'. split; [exact Hn'|]. exact (keeps_settled _ _ K1 K2 Hset).
Qed.
Lemma same_rdg s s' cs m c : same s s' cs -> c ∈ cs -> agree (rdg s' m) (rdg s m) (c_i c).
Proof using Type.
  intros Hs Hc. destruct (Hs c Hc) as (Hf & Hr & Hm). unfold agree, rdg. cbn [r_x r_n r_y r_b r_w r_max r_ref].
  assert (Hg : forall f, readf f -> fval s' (c_i c) f m = fval s (c_i c) f m) by (intros f Hr0; apply (Hf f ltac:(right; exact Hr0))).
  unfold readf in Hg. repeat split; try (apply Hg; auto 10; fail); [unfold maxv; rewrite Hm; reflexivity|unfold refv; rewrite Hr; reflexivity].
Qed.
Lemma chain_held s s' : held s s' -> forall cs, same s s' cs -> chain s cs -> chain s' cs.
Proof using Type.
  intros Hh. induction cs as [|c rest IH]; [intros _ []|]. intros Hsm Hch. destruct rest as [|q rest].
  - destruct Hch as (l & psh & Hs & Hp & Hk). destruct (site_held _ _ _ _ _ Hh Hs) as (l' & Hl & Hs'). exists l', psh. split; [exact Hs'|]. split; [destruct Hl as (_ & _ & -> & _); exact Hp|exact Hk].
  - destruct Hch as (l & Hs & Hp & Hk & Hd & Hc). destruct (site_held _ _ _ _ _ Hh Hs) as (l' & Hl & Hs'). exists l'. split; [exact Hs'|]. split; [destruct Hl as (_ & _ & -> & _); exact Hp|]. split; [exact Hk|].
    assert (Hcell : forall p, p ∈ c :: q :: rest -> forall a, cells s' (c_i p) FDif a <-> cells s (c_i p) FDif a) by (intros p Hp'; apply (Hsm p Hp'); left; reflexivity).
    assert (Hfid : forall p, p ∈ c :: q :: rest -> fid s' (c_i p) FDif = fid s (c_i p) FDif) by (intros p Hp'; apply (Hsm p Hp'); left; reflexivity).
    split; [|apply IH; [intros x Hx; apply Hsm; right; exact Hx|exact Hc]].
    destruct (c_l c) as [[]|]; try (intros p a Hp' Ha; rewrite Hcell in Ha by left; rewrite Hcell by (right; exact Hp'); exact (Hd p a Hp' Ha)).
    rewrite !Hfid by (first [left|right; left]). exact Hd.
Qed.
(** [apt] before there are learning rate and momentum. *)
Record apt0 s cs : Prop := {
  a0_f : forall c q f a, c ∈ cs -> q ∈ cs -> readf f -> cells s (c_i q) FDif a -> ~ cells s (c_i c) f a;
  a0_r : forall c q a, c ∈ cs -> q ∈ cs -> cells s (c_i q) FDif a -> refc s (c_i c) <> Some a /\ maxc s (c_i c) <> Some a;
  a0_lo : forall c f a, c ∈ cs -> seenf f -> cells s (c_i c) f a -> a < length (mem (ts s));
  a0_lr : forall c a, c ∈ cs -> refc s (c_i c) = Some a \/ maxc s (c_i c) = Some a -> a < length (mem (ts s));
  a0_nd : NoDup (map c_i cs);
  a0_seen : seen s cs;
}.
Lemma apt0_held s s' cs al mo : apt0 s cs -> same s s' cs -> length (mem (ts s)) <= length (mem (ts s')) ->
  length (mem (ts s)) <= al < length (mem (ts s')) -> length (mem (ts s)) <= mo < length (mem (ts s')) -> apt s' cs al mo.
Proof using Type.
  intros [A1 A2 A3 A4 A5 A6] Hsm Hlen Hal Hmo.
  assert (Hce : forall c f a, c ∈ cs -> seenf f -> cells s' (c_i c) f a <-> cells s (c_i c) f a) by (intros c f a Hc Hf; apply (Hsm c Hc); exact Hf).
  split.
  - intros c q f a Hc Hq Hf Ha Hb. rewrite Hce in Ha by (auto; left; reflexivity). rewrite Hce in Hb by (auto; right; exact Hf). exact (A1 c q f a Hc Hq Hf Ha Hb).
  - intros c q a Hc Hq Ha. rewrite Hce in Ha by (auto; left; reflexivity). destruct (Hsm c Hc) as (_ & -> & ->). exact (A2 c q a Hc Hq Ha).
  - intros q a Hq Ha. rewrite Hce in Ha by (auto; left; reflexivity). specialize (A3 q FDif a Hq ltac:(left; reflexivity) Ha). lia.
  - lia.
  - intros c f a Hc Hf Ha. rewrite Hce in Ha by (auto; right; exact Hf). specialize (A3 c f a Hc ltac:(right; exact Hf) Ha). lia.
  - intros c a Hc Ha. destruct (Hsm c Hc) as (_ & Er & Em). rewrite Er, Em in Ha. specialize (A4 c a Hc Ha). lia.
  - exact A5.
Qed.

(** ** Graphs *)
Definition acts (ops : list (op T)) (n : nat) (W : nat -> Prop) (C : list (nat * T)) (P : list T -> Prop) (R : list T -> list T -> Prop) : Prop :=
  forall m, n <= length m -> consts C m -> P m -> exists m', exec ops m = Some m' /\ ran W m m' /\ R m m'.
Lemma tri_acts t t' W C P R n : tri t t' W C P R -> ctx t = [] -> length (mem t') <= n -> acts (ctx t') n W C P R.
Proof using Type.
  intros (new & Hs & Hr) Hc Hn m Hm HC HP. rewrite (sg_ctx _ _ _ _ _ Hs), Hc. apply Hr; [lia|exact HC|exact HP].
Qed.
Lemma acts_weaken ops n (W W' : nat -> Prop) C C' (P P' : list T -> Prop) (R R' : list T -> list T -> Prop) : acts ops n W C P R ->
  (forall l, W l -> W' l) -> (forall x, x ∈ C -> x ∈ C') -> (forall m, n <= length m -> consts C' m -> P' m -> P m) ->
  (forall m m', n <= length m -> consts C' m -> P' m -> ran W m m' -> R m m' -> R' m m') -> acts ops n W' C' P' R'.
Proof using Type.
  intros Ha HW HC HP HR m Hm Hc Hp. assert (Hc1 : consts C m) by (unfold consts in *; rewrite Forall_forall in *; auto).
  destruct (Ha m Hm Hc1 (HP m Hm Hc Hp)) as (m' & E & Hr & Hq). exists m'. split; [exact E|]. split; [exact (ran_weaken _ _ _ _ Hr HW)|]. exact (HR m m' Hm Hc Hp Hr Hq).
Qed.
Definition blank s : lst T := MkL (MkSt (mem (ts s)) (tens (ts s)) []) (lays s) (rc s).
Lemma keeps_tens t t' : tens t' = tens t -> keeps t t'.
Proof using Type. intros E j n Hn. exists n. rewrite E. repeat split; auto. Qed.
Lemma held_blank s : held s (blank s).
Proof using Type. split; [apply keeps_tens; reflexivity|reflexivity|auto|intros i l Hl; exists l; split; [exact Hl|apply lheld_refl]|reflexivity]. Qed.
Lemma kept_refl s : kept s s.
Proof using Type. intros j l Hl. exists l. auto. Qed.

(** ** The flag of the error of the last layer *)
Definition unflag t i : tst T := match tens t !! i with Some n => MkSt (mem t) (<[i := MkNode (nkind n) (MkMat (shape (nmat n)) (mulindex (nmat n)) (operands (nmat n)) false)]> (tens t)) (ctx t) | None => t end.
Lemma unflag_ok t i n : tens t !! i = Some n -> SetBuild i false t = (Ok tt, unflag t i).
Proof using Type. intros Hn. unfold SetBuild, upd_mat, unflag. rewrite Hn. reflexivity. Qed.
Lemma unflag_mem t i : mem (unflag t i) = mem t.
Proof using Type. unfold unflag. destruct (tens t !! i); reflexivity. Qed.
Lemma unflag_id t i n : tens t !! i = Some n -> builded (nmat n) = false -> unflag t i = t.
Proof using Type.
  intros Hn Hb. unfold unflag. rewrite Hn. destruct t as [me te ct]; cbn [mem tens ctx] in *. f_equal. destruct n as [k [sh mi op b]]; cbn in *. subst b. apply list_insert_id. exact Hn.
Qed.
Lemma unflag_keeps t t' i n : keeps t t' -> tens t !! i = Some n -> builded (nmat n) = false -> keeps t (unflag t' i).
Proof using Type.
  intros Hk Hn Hb j nj Hj. destruct (Hk _ _ Hj) as (n' & Hn' & K1 & K2 & K3). unfold unflag. destruct (tens t' !! i) as [x|] eqn:Ex; [|exists n'; auto]. cbn [tens].
  destruct (decide (j = i)) as [->|Hne].
  - assert (nj = n) as -> by congruence. assert (x = n') as -> by congruence. eexists. split; [apply list_lookup_insert; eapply lookup_lt_Some; exact Hn'|]. cbn [nkind nmat builded shape mulindex operands]. split; [exact K1|]. split; [congruence|exact K3].
  - exists n'. rewrite list_lookup_insert_ne by congruence. auto.
Qed.
Lemma embedded_build t i n : tens t !! i = Some n -> nkind n = KMat -> BuildEmbedded i t = Build i t.
Proof using Type.
  intros Hn Hk. unfold BuildEmbedded, Build. rewrite (mbnd_ok _ _ _ _ _ (get_mat_ok _ _ _ Hn)). cbn [BuildGraph]. assert (E : get_node i t = (Ok n, t)) by (unfold get_node; rewrite Hn; reflexivity).
  rewrite (mbnd_ok _ _ _ _ _ E). rewrite Hk. reflexivity.
Qed.

(** ** The graph of the errors and of the loss *)
Definition errR (nd no nt : node T) sh (lo : nat) m m' : Prop := forall vt vo, mval m (nmat nt) = Some vt -> mval m (nmat no) = Some vo ->
  mval m' (nmat nd) = Some (V sh (zip_with nsub (vdata vt) (vdata vo))) /\ m' !! lo = fold1 nadd (map absv (zip_with nsub (vdata vt) (vdata vo))).
Lemma compile_err t dif out nd no sh : node_ok t dif nd sh -> nkind nd = KMat -> node_ok t out no sh -> NoDup (operands (nmat nd)) -> (0 < prodN sh)%N -> fits sh ->
  (forall l, Some l ∈ operands (nmat nd) -> Some l ∉ operands (nmat no)) -> ctx t = [] ->
  exists t1 t2 t3 (nt : node T) (W : nat -> Prop) (C : list (nat * T)) (lo : nat), BuildEmbedded dif t = (Ok tt, t1) /\ (exists n1, tens t1 !! out = Some n1 /\ shape (nmat n1) = sh) /\ NewZeros sh t1 = (Ok (length (tens t)), t2) /\ caldif dif out (length (tens t)) t2 = (Ok (Some lo), t3) /\
    node_ok t3 (length (tens t)) nt sh /\ nkind nt = KMat /\ operands (nmat nt) = map Some (seq (length (mem t)) (N.to_nat (prodN sh))) /\
    length (mem t) + N.to_nat (prodN sh) <= lo < length (mem t3) /\
    (forall l, W l -> length (mem t) + N.to_nat (prodN sh) <= l \/ Some l ∈ operands (nmat nd)) /\
    (forall x, x ∈ C -> length (mem t) + N.to_nat (prodN sh) <= fst x) /\
    tri t t3 W C any (errR nd no nt sh lo).
Proof using Type.
  intros Hd Hkd Ho Hnd Hpos Hfit Hdis Hctx. set (k := N.to_nat (prodN sh)).
  destruct (tri_settle t dif nd sh Hd) as (t1 & E1 & M1 & T1 & L1). rewrite <- (embedded_build t dif nd (proj1 Hd) Hkd) in E1.
  destruct (seg_zeros_const t1 sh Hfit) as (t2 & nt & E2 & S2 & Ent & Ml2 & Et2 & Hnt). pose proof (seg_forget _ _ _ _ _ [] S2 ltac:(intros c Hc; inversion Hc)) as S2'. clear S2. rewrite L1 in E2, Hnt. rewrite M1 in Ent, Ml2.
  pose proof (tri_then _ _ _ _ _ _ _ _ T1 S2') as T12. cbn [app] in T12.
  pose proof (tri_keep _ _ _ _ _ _ T12) as K2. pose proof (tri_len _ _ _ _ _ _ T12) as Le2.
  destruct (node_ok_keep _ _ _ _ _ Hd K2 Le2) as (nd2 & Hd2 & Od2 & Vd2). destruct (node_ok_keep _ _ _ _ _ Ho K2 Le2) as (no2 & Ho2 & Oo2 & Vo2).
  assert (Ont : operands (nmat nt) = map Some (seq (length (mem t)) k)) by (rewrite Ent; reflexivity).
  destruct (tri_caldif t2 dif out (length (tens t)) nd2 no2 nt sh Hd2 Ho2 Hnt) as (t3 & W & C & lo & E3 & Hlo & HW & T3); [rewrite Od2; exact Hnd|exact Hpos| |].
  { intros l Hl. rewrite Od2 in Hl. split; [rewrite Oo2; apply Hdis; exact Hl|]. rewrite Ont. intros Hc. apply elem_of_list_fmap in Hc as (x & [= <-] & Hx). apply elem_of_seq in Hx. pose proof (node_ok_lt _ _ _ _ _ Hd Hl). lia. }
  pose proof (tri_keep _ _ _ _ _ _ T3) as K3. pose proof (tri_len _ _ _ _ _ _ T3) as Le3. destruct (node_ok_keep _ _ _ _ _ Hnt K3 Le3) as (nt3 & Hnt3 & Ot3 & Vt3).
  exists t1, t2, t3, nt3, W, C, lo. split; [exact E1|]. split.
  { destruct (node_ok_keep _ _ _ _ _ Ho (tri_keep _ _ _ _ _ _ T1) ltac:(rewrite M1; lia)) as (n1 & (Hn1 & _ & _ & Hs1) & _). exists n1. auto. }
  split; [exact E2|]. split; [exact E3|]. split; [exact Hnt3|]. split.
  { destruct (K3 _ _ (proj1 Hnt)) as (x & Hx & Kx & _). destruct Hnt3 as (Hx3 & _). assert (x = nt3) as -> by congruence. rewrite Kx, Ent. reflexivity. }
  split; [rewrite Ot3; exact Ont|]. rewrite Ml2 in Hlo, HW. fold k in Hlo, HW |- *. split; [exact Hlo|]. split; [intros l Hl; rewrite <- Od2; exact (HW _ Hl)|].
  split; [intros x Hx; destruct (tri_C _ _ _ _ _ _ _ T3 Hx) as [Hb _]; rewrite Ml2 in Hb; fold k in Hb; lia|].
  pose proof (tri_seq _ _ _ _ _ _ _ _ _ _ _ T12 T3 ltac:(intros c Hc; inversion Hc)) as Ts. cbn [app] in Ts.
  refine (tri_weaken _ _ _ _ _ _ _ _ _ Ts _ _ _ _ _).
  - intros l [[]|Hl]. exact Hl.
  - intros l Hl. exact (tri_W _ _ _ _ _ _ _ T3 Hl).
  - intros x Hx. apply (tri_C _ _ _ _ _ _ _ T3 Hx).
  - intros m Hm _ _. split; [exact I|]. intros; exact I.
  - intros m m' Hm _ _ _ (m1 & _ & Hst & Hr2 & R2) vt vo Evt Evo. unfold stay in Hst. subst m1. rewrite <- Vd2. apply R2; [rewrite <- Vt3; exact Evt|rewrite Vo2; exact Evo].
Qed.

(** ** The whole of CompileBackPropagation *)
Definition tval s (i : nat) m : option (vten T) := n ← tens (ts s) !! i; mval m (nmat n).
Definition errL s c (tgt lo : nat) m m' : Prop := forall vt vo, tval s tgt m = Some vt -> fval s (c_i c) FOutput m = Some vo ->
  fval s (c_i c) FDif m' = Some (V (c_sh c) (zip_with nsub (vdata vt) (vdata vo))) /\ m' !! lo = fold1 nadd (map absv (zip_with nsub (vdata vt) (vdata vo))).
Definition tsize c : nat := N.to_nat (prodN (c_sh c)).
Record fitted s c rest s' (tgt al mo lo : nat) (ocd obp orf : list (op T)) : Prop := {
  ft_held : held s s';
  ft_kept : kept s s';
  ft_same : same s s' (c :: rest);
  ft_chain : chain s' (c :: rest);
  ft_tgt : exists nt, node_ok (ts s') tgt nt (c_sh c) /\ operands (nmat nt) = map Some (seq (length (mem (ts s))) (tsize c));
  ft_lo : length (mem (ts s)) + tsize c <= lo < al;
  ft_mo : mo = S al /\ mo < length (mem (ts s'));
  ft_par : forall p, p ∈ c :: rest -> c_par p = true -> forall f, f = FNBias \/ f = FNWeights \/ f = FMBias -> exists sh, ok s' (c_i p) f sh /\ ok s' (c_i p) (twin f) sh /\ forall a, cells s' (c_i p) f a -> mo < a;
  ft_bare : bare (c :: rest) s s';
  ft_mb : forall p, p ∈ c :: rest -> c_par p = true -> mbzero s' (c_i p);
  ft_gr : exists (C : list (nat * T)) (Wc Wb : nat -> Prop),
    (forall x, x ∈ C -> mem (ts s') !! fst x = Some (snd x) /\ length (mem (ts s)) + tsize c <= fst x /\ fst x <> al /\ fst x <> mo /\ ~ Wc (fst x) /\ ~ Wb (fst x)) /\
    (forall l, Wc l -> length (mem (ts s)) + tsize c <= l < al \/ cells s' (c_i c) FDif l) /\
    (forall l, Wb l -> mo < l < length (mem (ts s')) \/ exists p, p ∈ rest /\ cells s' (c_i p) FDif l /\ ~ cells s' (c_i c) FDif l) /\
    acts ocd (length (mem (ts s'))) Wc C any (errL s' c tgt lo) /\
    acts obp (length (mem (ts s'))) Wb C (stepP s' s' al mo (c :: rest)) (stepR s' s' al mo (c :: rest)) /\
    acts orf (length (mem (ts s'))) (clearW s' (c :: rest)) C any (fun _ m' => clearR s' (c :: rest) m');
}.
Lemma nodup_bound (l : list nat) n : NoDup l -> (forall x, x ∈ l -> x < n) -> length l <= n.
Proof using Type.
  intros Hnd Hb. rewrite <- (seq_length n 0). apply NoDup_incl_length; [apply NoDup_ListNoDup; exact Hnd|]. intros x Hx. apply elem_of_list_In in Hx. apply elem_of_list_In, elem_of_seq. specialize (Hb x Hx). lia.
Qed.
Lemma seenf_not f : seenf f -> ~ parf f /\ f <> FDer.
Proof using Type. unfold seenf, readf, parf. intros Hf. split; [intros Hp|intros ->]; intuition (subst; discriminate). Qed.
Lemma kept_lays s s' : lays s' = lays s -> kept s s'.
Proof using Type. intros E j l Hl. exists l. rewrite E. auto. Qed.
(** What a step does, stated with states in which the layers are the same. *)
Lemma stepP_same s0 s1 s' al mo cs m : chain s0 cs -> same s0 s' cs -> held s0 s' -> (forall p, p ∈ cs -> c_par p = true -> fval s' (c_i p) FMBias m = fval s1 (c_i p) FMBias m) ->
  stepP s' s' al mo cs m -> stepP s0 s1 al mo cs m.
Proof using Type.
  intros Hch Hsm Hh Hmb. destruct cs as [|c rest]; [auto|]. intros (Hr & Ho & d & a & b & Ed & Ea & Eb & Hs). split; [|split].
  - intros p Hp r Hpr. destruct (Hsm p Hp) as (_ & Er & _). rewrite <- Er in Hpr. rewrite (Hr p Hp r Hpr).
    destruct (chain_in _ _ _ Hch Hp) as (lp & psh & Hsp). destruct (ls_ref _ _ _ _ Hsp) as (r' & v & Hrl & Hv & _).
    assert (r = r') as ->. { rewrite Er in Hpr. unfold refc in Hpr. rewrite (ls_lay _ _ _ _ Hsp) in Hpr. cbn in Hpr. congruence. } rewrite Hv. exact (hd_mem _ _ Hh _ _ Hv).
  - intros p Hp Hdis. destruct (Hsm p ltac:(right; exact Hp)) as (Hf & _). destruct (Hf FDif ltac:(left; reflexivity)) as (_ & Hv & Hce). rewrite <- Hv. apply Ho; [exact Hp|].
    intros x Hx. rewrite Hce. apply Hdis. apply (Hsm c ltac:(left)); [left; reflexivity|exact Hx].
  - exists d, a, b. destruct (Hsm c ltac:(left)) as (Hf & _). destruct (Hf FDif ltac:(left; reflexivity)) as (_ & Hv & _). rewrite <- Hv. split; [exact Ed|]. split; [exact Ea|]. split; [exact Eb|].
    rewrite (s_step_agree' (rdg s0 m) (rdg s' m) (mbv s1 m) (mbv s' m)); [exact Hs|]. intros p Hp. split; [apply (same_rdg s' s0 (c :: rest)); [apply same_sym; exact Hsm|exact Hp]|]. intros Hpar. symmetry. apply Hmb; assumption.
Qed.
Lemma stepR_same s0 s1 s' al mo cs m m' : same s0 s' cs -> (forall p, p ∈ cs -> c_par p = true -> forall f, f = FNBias \/ f = FNWeights \/ f = FMBias -> forall x, fval s' (c_i p) f x = fval s1 (c_i p) f x) ->
  stepR s0 s1 al mo cs m m' -> stepR s' s' al mo cs m m'.
Proof using Type.
  intros Hsm Hmb. destruct cs as [|c rest]; [auto|]. intros HR d a b out Ed Ea Eb Es.
  assert (Hd : forall p, p ∈ c :: rest -> forall x, fval s' (c_i p) FDif x = fval s0 (c_i p) FDif x) by (intros p Hp x; apply (Hsm p Hp); left; reflexivity).
  assert (Ha : forall p, p ∈ c :: rest -> agree (rdg s0 m) (rdg s' m) (c_i p) /\ (c_par p = true -> mbv s1 m (c_i p) = mbv s' m (c_i p))).
  { intros p Hp. split; [apply (same_rdg s' s0 (c :: rest)); [apply same_sym; exact Hsm|exact Hp]|]. intros Hpar. symmetry. apply Hmb; auto. }
  rewrite Hd in Ed by left. rewrite <- (s_step_agree' (rdg s0 m) (rdg s' m) (mbv s1 m) (mbv s' m)) in Es by exact Ha.
  eapply forall2_in; [exact (HR d a b out Ed Ea Eb Es)|]. cbn beta. intros p y Hp (R1 & R2 & R3). split; [rewrite Hd by exact Hp; exact R1|]. split; [exact R2|].
  intros nb nw Hy. destruct (R3 nb nw Hy) as (Q1 & Q2 & Q3). assert (Hpar : c_par p = true) by (apply R2; rewrite Hy; discriminate). specialize (Hmb p Hp Hpar).
  split; [rewrite Hmb by auto; exact Q1|]. split; [rewrite Hmb by auto; exact Q2|]. intros Hm. rewrite Hmb by auto. rewrite Q3 by exact Hm.
  unfold s_db. destruct (Ha p Hp) as [_ E]. rewrite E by exact Hpar. reflexivity.
Qed.

(** The state in which CompileBackPropagation is called. *)
Record prepared s (md : model T) c rest (out : nat) : Prop := {
  pr_chain : chain s (c :: rest);
  pr_apt : apt0 s (c :: rest);
  pr_last : m_last md = Some (c_i c);
  pr_out : m_output md = Some out /\ fid s (c_i c) FOutput = Some out;
  pr_top : c_l c <> None;
  pr_pos : (0 < prodN (c_sh c))%N;
  pr_dif : forall n, fnode s (c_i c) FDif = Some n -> nkind n = KMat /\ builded (nmat n) = false;
  pr_par : forall p, p ∈ c :: rest -> forall g, parf g -> fid s (c_i p) g = None;
  pr_der : forall j, j ∈ under (c :: rest) -> fid s j FDer = None;
  pr_flag : forall p l, p ∈ c :: rest -> lays s !! c_i p = Some l -> lflag l BBP = false;
}.
Lemma sg_mem_tri t t' W C P R : tri t t' W C P R -> exists e, mem t' = mem t ++ e.
Proof using Type. intros (new & Hs & _). exact (sg_mem _ _ _ _ _ Hs). Qed.
Theorem compile_bp s md c rest out : prepared s md c rest out ->
  exists s' tgt al mo lo ocd obp orf, fitted s c rest s' tgt al mo lo ocd obp orf /\
    CompileBackPropagation md s = (Ok (MkModel (m_first md) (m_last md) (m_input md) (m_output md) (Some tgt) (Some al) (Some mo) (Some lo)
      (m_ff md) (Some (MkGraph obp)) (Some (MkGraph ocd)) (Some (MkGraph orf)) (m_reset md)), s').
Proof using Type.
  intros [Hch Hapt Hlast [Hmo Hout] Htop Hpos Hdif Hpar Hder Hflag]. set (cs := c :: rest) in *.
  destruct (chain_head _ _ _ Hch) as (l & psh & Hsite & Hr). pose proof (ls_lay _ _ _ _ Hsite) as Hlay.
  destruct (ls_dif _ _ _ _ Hsite) as [Hokd Hndd]. pose proof Hokd as (dif & nd0 & Hfd & _).
  destruct (ok_node _ _ _ _ _ Hokd Hfd) as (nd & Hnd & Hcd & Hvd). destruct (ls_io _ _ _ _ Hsite Htop) as [_ Hoko]. destruct (ok_node _ _ _ _ _ Hoko Hout) as (no & Hno & Hco & Hvo).
  assert (Hfn : fnode s (c_i c) FDif = Some nd) by (unfold fnode; rewrite Hfd; exact (proj1 Hnd)).
  destruct (Hdif nd Hfn) as [Hkd Hbd]. specialize (Hndd nd Hfn). destruct (ls_fits _ _ _ _ Hsite) as [_ Hfit].
  assert (Hdis : forall x, Some x ∈ operands (nmat nd) -> Some x ∉ operands (nmat no)).
  { intros x Hx Hy. apply (a0_f _ _ Hapt c c FOutput x); [left|left|right; left; reflexivity|apply Hcd; exact Hx|apply Hco; exact Hy]. }
  set (t := MkSt (mem (ts s)) (tens (ts s)) [] : tst T).
  destruct (compile_err t dif out nd no (c_sh c) Hnd Hkd Hno Hndd Hpos Hfit Hdis eq_refl) as (t1 & t2 & t3 & nt & Wc & Cc & lo & E1 & (n1 & Hn1 & Hs1) & E2 & E3 & Hnt & Hknt & Ont & Hlo & HWc & HCc & T3).
  change (mem t) with (mem (ts s)) in *. change (tens t) with (tens (ts s)) in *. fold (tsize c) in *. set (N0 := length (mem (ts s))) in *. set (tgt := length (tens (ts s))) in *.
  set (al := length (mem t3)). set (mo := S al). set (t4 := MkSt (mem t3 ++ [nzero; nzero]) (tens t3) (ctx t3)). set (t5 := unflag t4 dif).
  assert (Lt5 : length (mem t5) = S mo) by (unfold t5; rewrite unflag_mem; cbn [t4 mem]; rewrite app_length; cbn; unfold mo, al; lia).
  destruct (sg_mem_tri _ _ _ _ _ _ T3) as (e3 & Em3). change (mem t) with (mem (ts s)) in Em3.
  assert (Hl3 : N0 <= length (mem t3)) by (rewrite Em3, app_length; unfold N0; lia).
  set (s5 := MkL t5 (lays s) (rc s)).
  assert (Hh5 : held s s5).
  { split; cbn [s5 ts lays].
    - apply (unflag_keeps _ _ dif nd); [|exact (proj1 Hnd)|exact Hbd]. intros j n Hn. destruct (tri_keep _ _ _ _ _ _ T3 j n Hn) as (n' & Hn' & K). exists n'. split; [exact Hn'|exact K].
    - unfold N0, mo, al in *. lia.
    - intros a v Hv. unfold t5. rewrite unflag_mem. cbn [t4 mem]. apply lookup_app_l_Some. rewrite Em3. apply lookup_app_l_Some. exact Hv.
    - intros i li Hi. exists li. split; [exact Hi|apply lheld_refl].
    - reflexivity. }
  destruct (same_held s s5 cs Hh5 (a0_seen _ _ Hapt)) as [Hsm5 Hseen5]; [intros; reflexivity|intros; split; reflexivity|].
  pose proof (chain_held s s5 Hh5 cs Hsm5 Hch) as Hch5.
  assert (Hapt5 : apt s5 cs al mo).
  { apply (apt0_held s s5 cs al mo Hapt Hsm5); cbn [s5 ts]; fold N0; rewrite Lt5; unfold mo, al in *; lia. }
  assert (Hlen : length cs <= length (lays s)).
  { rewrite <- (map_length c_i). apply nodup_bound; [exact (a0_nd _ _ Hapt)|]. intros x Hx. apply elem_of_list_fmap in Hx as (p & -> & Hp). destruct (chain_in _ _ _ Hch Hp) as (lp & pp & Hsp). eapply lookup_lt_Some. exact (ls_lay _ _ _ _ Hsp). }
  destruct (chain_bp s5 al mo rest c (blank s5) (S (length (lays s)))) as (s6 & E6 & P6); [exact Hch5|exact Hapt5|apply held_blank|exact Hpar|exact Hder|exact Hflag|fold cs; lia|].
  destruct P6 as [Hh6 Hk6 (Wb & Cb & T6 & HWb) Hp6 Hb6 Hmb6]. fold cs in T6, HWb, Hp6, Hb6, Hmb6.
  assert (Hh56 : held s5 s6) by exact (held_trans _ _ _ (held_blank s5) Hh6).
  assert (Hh56' : held s5 (blank s6)) by exact (held_trans _ _ _ Hh56 (held_blank s6)).
  destruct (reset_chain s5 rest c (blank s6) (S (length (lays s6))) Hch5 Hh56') as (s7 & Cr & E7 & El7 & Er7 & T7); [fold cs; rewrite (hd_num _ _ Hh56); cbn [s5 lays]; lia|]. fold cs in T7.
  assert (Hh67 : held s6 s7).
  { apply (held_trans _ _ _ (held_blank s6)). destruct s7 as [t7 l7 r7]. cbn [lays rc] in El7, Er7. subst l7 r7. exact (held_ts _ _ _ _ _ _ T7). }
  pose proof (held_trans _ _ _ Hh56 Hh67) as Hh57. pose proof (held_trans _ _ _ Hh5 Hh57) as Hh07.
  assert (Hk57 : kept s5 s7). { apply (kept_trans _ s6); [exact Hk6|]. apply kept_lays. exact El7. }
  assert (Hk07 : kept s s7) by exact Hk57.
  destruct (same_held s5 s7 cs Hh57 Hseen5) as [Hsm57 _].
  { intros p f Hp Hf. destruct (chain_in _ _ _ Hch5 Hp) as (lp & pp & Hsp). destruct (seenf_not f Hf). apply (fid_kept s5 s7 _ _ lp Hk57 (ls_lay _ _ _ _ Hsp)); assumption. }
  { intros p Hp. destruct (chain_in _ _ _ Hch5 Hp) as (lp & pp & Hsp). pose proof (ls_lay _ _ _ _ Hsp) as Hlp. destruct (hd_lay _ _ Hh57 _ _ Hlp) as (l' & Hl' & (_ & _ & _ & Q1 & Q2 & _)). unfold refc, maxc. rewrite Hlp, Hl'. cbn [mbind option_bind]. auto. }
  pose proof (same_trans _ _ _ _ Hsm5 Hsm57) as Hsm07.
  pose proof (tri_len _ _ _ _ _ _ T6) as L6. pose proof (tri_len _ _ _ _ _ _ T7) as L7. cbn [blank ts mem s5] in L6, L7. rewrite Lt5 in L6.
  set (n7 := length (mem (ts s7))).
  assert (Hpar7 : forall p, p ∈ cs -> c_par p = true -> forall f, f = FNBias \/ f = FNWeights \/ f = FMBias ->
    (exists sh, ok s7 (c_i p) f sh /\ ok s7 (c_i p) (twin f) sh /\ forall a, cells s7 (c_i p) f a -> mo < a) /\ forall x, fval s7 (c_i p) f x = fval s6 (c_i p) f x).
  { intros p Hp Hpp f Hf. destruct (Hp6 p Hp Hpp f Hf) as (sh & Hok & Hokt & Hlow). destruct (ok_held _ _ _ _ _ Hh67 Hok) as (Hok' & Hce & Hva). split; [|exact Hva]. exists sh. split; [exact Hok'|]. split; [apply (ok_held _ _ _ _ _ Hh57 Hokt)|]. intros a Ha. rewrite Hce in Ha. specialize (Hlow a Ha). cbn [blank s5 ts mem] in Hlow. lia. }
  assert (Hcell7 : forall p f a, p ∈ cs -> seenf f -> cells s7 (c_i p) f a <-> cells s (c_i p) f a) by (intros p f a Hp Hf; apply (proj1 (Hsm07 p Hp) f Hf)).
  assert (Hcell5 : forall p f a, p ∈ cs -> seenf f -> cells s5 (c_i p) f a <-> cells s7 (c_i p) f a) by (intros p f a Hp Hf; symmetry; apply (proj1 (Hsm57 p Hp) f Hf)).
  assert (Hdlt : forall p a, p ∈ cs -> cells s7 (c_i p) FDif a -> a < N0) by (intros p a Hp Ha; rewrite Hcell7 in Ha by (auto; left; reflexivity); exact (a0_lo _ _ Hapt p FDif a Hp ltac:(left; reflexivity) Ha)).
  assert (Hnt5 : node_ok t5 tgt nt (c_sh c)).
      { destruct Hnt as (Q1 & Q2 & Q3 & Q4). split.
        - unfold t5, unflag. cbn [t4 tens]. destruct (tens t3 !! dif) as [x|]; [|exact Q1]. cbn [tens]. rewrite list_lookup_insert_ne; [exact Q1|]. intros ->. pose proof (lookup_lt_Some _ _ _ (proj1 Hnd)). unfold tgt in *. cbn [t tens] in *. lia.
        - split; [exact Q2|]. split; [|exact Q4]. eapply wf_mat_mono; [exact Q3|]. rewrite Lt5. unfold mo, al. lia. }
      destruct (node_ok_keep t5 (ts s7) tgt nt (c_sh c) Hnt5 (hd_keep _ _ Hh57) (hd_len _ _ Hh57)) as (nt7 & Hnt7 & Ont7 & Vnt7).
  exists s7, tgt, al, mo, lo, (ctx t3), (ctx (ts s6)), (ctx (ts s7)). split.
  { split.
    - exact Hh07.
    - exact Hk07.
    - exact Hsm07.
    - exact (chain_held s s7 Hh07 cs Hsm07 Hch).
    - exists nt7. split; [exact Hnt7|]. rewrite Ont7. exact Ont.
    - fold N0. unfold al. lia.
    - split; [reflexivity|]. unfold mo, al in *. lia.
    - intros p Hp Hpp f Hf. exact (proj1 (Hpar7 p Hp Hpp f Hf)).
    - intros j f Hf Hnp. transitivity (fid s6 j f); [unfold fid; rewrite El7; reflexivity|]. exact (Hb6 j f Hf Hnp).
    - intros p Hp Hpp a Ha. destruct (Hp6 p Hp Hpp FMBias ltac:(auto)) as (sh & Hok & _). destruct (ok_held _ _ _ _ _ Hh67 Hok) as (_ & Hce & _). apply (hd_mem _ _ Hh67). apply (Hmb6 p Hp Hpp). apply Hce. exact Ha.
    - exists (Cc ++ Cb ++ Cr), Wc, Wb.
      assert (HWb' : forall x, Wb x -> mo < x < n7 \/ exists p, p ∈ rest /\ cells s7 (c_i p) FDif x /\ ~ cells s7 (c_i c) FDif x).
      { intros x Hx. pose proof (tri_W _ _ _ _ _ _ _ T6 Hx) as Hlt. destruct (HWb x Hx) as [Hx1|((p & Hp & Hpx) & Hnc)].
        - left. cbn [blank s5 ts mem] in Hx1. unfold n7. lia.
        - right. exists p. split; [exact Hp|]. rewrite <- (Hcell5 p) by (first [right; exact Hp|left; reflexivity]). split; [exact Hpx|]. rewrite <- (Hcell5 c) by (left; reflexivity). exact Hnc. }
      assert (HWc' : forall x, Wc x -> N0 + tsize c <= x < al \/ cells s7 (c_i c) FDif x).
      { intros x Hx. destruct (HWc x Hx) as [Hx1|Hx1]; [left; pose proof (tri_W _ _ _ _ _ _ _ T3 Hx); unfold al; lia|right]. apply Hcell7; [left|left; reflexivity|]. apply Hcd. exact Hx1. }
      assert (HdWc : forall x, N0 + tsize c <= x -> al <= x -> ~ Wc x) by (intros x Hx1 Hx2 Hw; destruct (HWc' x Hw) as [?|Hc1]; [lia|specialize (Hdlt c x ltac:(left) Hc1); lia]).
      assert (HdWb : forall x, N0 + tsize c <= x -> x <= mo \/ length (mem (ts s6)) <= x -> ~ Wb x).
      { intros x Hx1 Hx2 Hw. destruct (HWb' x Hw) as [?|(p & Hp & Hc1 & _)]; [|specialize (Hdlt p x ltac:(right; exact Hp) Hc1); lia]. pose proof (tri_W _ _ _ _ _ _ _ T6 Hw). lia. }
      split.
      { intros x Hx. apply elem_of_app in Hx as [Hx|Hx]; [|apply elem_of_app in Hx as [Hx|Hx]].
        - destruct (tri_C _ _ _ _ _ _ _ T3 Hx) as (B1 & B2 & B3). specialize (HCc x Hx). fold al in B1. split.
          { apply (hd_mem _ _ Hh57). cbn [s5 ts]. unfold t5. rewrite unflag_mem. cbn [t4 mem]. apply lookup_app_l_Some. exact B3. }
          split; [exact HCc|]. split; [lia|]. split; [unfold mo; lia|]. split; [exact B2|]. apply HdWb; [exact HCc|unfold mo; lia].
        - destruct (tri_C _ _ _ _ _ _ _ T6 Hx) as (B1 & B2 & B3). cbn [blank s5 ts mem] in B1. rewrite Lt5 in B1. split; [exact (hd_mem _ _ Hh67 _ _ B3)|].
          assert (N0 + tsize c <= fst x) by (unfold mo, al in *; lia). split; [assumption|]. split; [unfold mo in *; lia|]. split; [lia|]. split; [apply HdWc; [assumption|unfold mo in *; lia]|exact B2].
        - destruct (tri_C _ _ _ _ _ _ _ T7 Hx) as (B1 & B2 & B3). cbn [blank ts mem] in B1. split; [exact B3|].
          assert (N0 + tsize c <= fst x) by (unfold mo, al in *; lia). split; [assumption|]. split; [unfold mo in *; lia|]. split; [lia|]. split; [apply HdWc; [assumption|unfold mo in *; lia]|apply HdWb; [assumption|lia]]. }
      split; [exact HWc'|]. split; [exact HWb'|]. split; [|split].
      + refine (acts_weaken _ _ _ _ _ _ _ _ _ _ (tri_acts t t3 Wc Cc any _ n7 T3 eq_refl _) _ _ _ _); [unfold n7, mo, al in *; lia|auto|intros x Hx; apply elem_of_app; left; exact Hx|auto|].
        intros m m' Hm _ _ _ HR vt vo Evt Evo. destruct (Hsm07 c ltac:(left)) as (Hf07 & _). destruct (Hf07 FOutput ltac:(right; right; left; reflexivity)) as (_ & HvO & _). destruct (Hf07 FDif ltac:(left; reflexivity)) as (_ & HvD & _).
        rewrite HvD, Hvd. rewrite HvO, Hvo in Evo. apply HR; [|exact Evo]. revert Evt. unfold tval. rewrite (proj1 Hnt7). cbn [mbind option_bind]. rewrite Vnt7. auto.
      + refine (acts_weaken _ _ _ _ _ _ _ _ _ _ (tri_acts _ _ Wb Cb _ _ n7 T6 eq_refl ltac:(unfold n7; lia)) _ _ _ _); [auto|intros x Hx; apply elem_of_app; right; apply elem_of_app; left; exact Hx| |].
        * intros m _ _ HP. apply (stepP_same s5 s6 s7 al mo cs m Hch5 Hsm57 Hh57); [|exact HP]. intros p Hp Hpp. apply (Hpar7 p Hp Hpp FMBias). auto.
        * intros m m' _ _ _ _ HR. apply (stepR_same s5 s6 s7 al mo cs m m' Hsm57); [|exact HR]. intros p Hp Hpp f Hf x. apply (Hpar7 p Hp Hpp f Hf).
      + refine (acts_weaken _ _ _ _ _ _ _ _ _ _ (tri_acts _ _ _ Cr _ _ n7 T7 eq_refl ltac:(unfold n7; lia)) _ _ _ _); [|intros x Hx; apply elem_of_app; right; apply elem_of_app; right; exact Hx|auto|].
        * intros x (p & Hp & Hx). exists p. split; [exact Hp|]. rewrite <- (Hcell5 p) by (first [exact Hp|left; reflexivity]). exact Hx.
        * intros m m' _ _ _ _ HR p Hp. destruct (Hsm57 p Hp) as (Hf57 & _). destruct (Hf57 FDif ltac:(left; reflexivity)) as (_ & -> & _). exact (HR p Hp). }
  assert (HGD : GetDif (c_i c) s = (Ok (Some dif), s)).
  { unfold GetDif. rewrite (GetT_direct s (c_i c) l FDif Hlay); [unfold fid in Hfd; rewrite Hlay in Hfd; cbn in Hfd; rewrite Hfd; reflexivity|]. intros HI. pose proof (ls_kind _ _ _ _ Hsite) as Hki. unfold kind_is in Hki. destruct (c_l c) as [[]|]; try congruence; contradiction. }
  unfold CompileBackPropagation. rewrite Hlast. cbn [the]. erewrite mbnd_ok by reflexivity. rewrite (mbnd_ok _ _ _ _ _ HGD). cbn [the]. erewrite mbnd_ok by reflexivity.
  rewrite (mbnd_ok _ _ _ _ _ (liftT_ok _ _ _ _ (unflag_ok _ _ _ (proj1 Hnd : tens (ts s) !! dif = Some nd)))). rewrite (unflag_id _ _ _ (proj1 Hnd : tens (ts s) !! dif = Some nd) Hbd).
  rewrite (mbnd_ok (liftT new_ctx) _ (MkL (ts s) (lays s) (rc s)) tt (MkL t (lays s) (rc s)) eq_refl).
  rewrite (mbnd_ok _ _ _ _ _ (liftT_ok _ (MkL t (lays s) (rc s)) _ _ E1)). cbn [lays rc]. rewrite Hmo. cbn [the]. erewrite mbnd_ok by reflexivity.
  rewrite (mbnd_ok _ _ _ _ _ (shapeT_ok (MkL t1 (lays s) (rc s)) out n1 Hn1)). rewrite Hs1.
  rewrite (mbnd_ok _ _ _ _ _ (liftT_ok _ (MkL t1 (lays s) (rc s)) _ _ E2)). cbn [lays rc].
  rewrite (mbnd_ok _ _ _ _ _ (liftT_ok _ (MkL t2 (lays s) (rc s)) _ _ E3)). cbn [lays rc].
  rewrite (mbnd_ok (liftT get_ctx) _ (MkL t3 (lays s) (rc s)) (ctx t3) (MkL t3 (lays s) (rc s)) eq_refl).
  rewrite (mbnd_ok (liftT (alloc nzero)) _ (MkL t3 (lays s) (rc s)) (Some al) (MkL (MkSt (mem t3 ++ [nzero]) (tens t3) (ctx t3)) (lays s) (rc s)) eq_refl).
  assert (Ea : liftT (alloc nzero) (MkL (MkSt (mem t3 ++ [nzero]) (tens t3) (ctx t3)) (lays s) (rc s)) = (Ok (Some mo), MkL t4 (lays s) (rc s))).
  { unfold liftT, alloc. cbn [ts lays rc mem tens ctx]. rewrite app_length, <- app_assoc. cbn [length app]. unfold mo, al, t4. rewrite Nat.add_1_r. reflexivity. }
  rewrite (mbnd_ok _ _ _ _ _ Ea).
  assert (Hd4 : exists n4, tens t4 !! dif = Some n4) by (destruct (tri_keep _ _ _ _ _ _ T3 dif nd (proj1 Hnd)) as (n4 & Hn4 & _); exists n4; exact Hn4). destruct Hd4 as [n4 Hn4].
  rewrite (mbnd_ok _ _ _ _ _ (liftT_ok _ (MkL t4 (lays s) (rc s)) _ _ (unflag_ok t4 dif n4 Hn4))). cbn [lays rc]. fold t5. fold s5.
  assert (Ebp : in_ctx (with_fuel (fun n => LBuildBP n (c_i c) (Some al) (Some mo))) s5 = (Ok (MkGraph (ctx (ts s6))), s6)).
  { unfold in_ctx. rewrite (mbnd_ok (liftT new_ctx) _ s5 tt (blank s5) eq_refl). assert (E : with_fuel (fun n => LBuildBP n (c_i c) (Some al) (Some mo)) (blank s5) = (Ok tt, s6)) by exact E6. rewrite (mbnd_ok _ _ _ _ _ E). destruct s6; reflexivity. }
  rewrite (mbnd_ok _ _ _ _ _ Ebp).
  assert (Erf : in_ctx (with_fuel (fun n => LResetFit n (c_i c))) s6 = (Ok (MkGraph (ctx (ts s7))), s7)).
  { unfold in_ctx. rewrite (mbnd_ok (liftT new_ctx) _ s6 tt (blank s6) eq_refl). assert (E : with_fuel (fun n => LResetFit n (c_i c)) (blank s6) = (Ok tt, s7)) by exact E7. rewrite (mbnd_ok _ _ _ _ _ E). destruct s7; reflexivity. }
  rewrite (mbnd_ok _ _ _ _ _ Erf). reflexivity.
Qed.
End TrnComp.
