(** * TrnAux: a chain of layers after its feed-forward part is built *)
From stdpp Require Import relations.
From Verif Require Import Base Num ModelTools ModelOps ModelTensor ModelGraph ModelLayer ModelModel Spec NetSpec FwdSpec Denote
  IndexProofs ExecProofs TensorFacts AccessProofs BuildProofs CompileProofs Agree FwdMask FwdBuild FwdSeg FwdOps FwdPool NetBuild NetChain FwdBody FwdExpr FwdConv FwdConv2 FwdAct FwdTotal
  FwdDense FwdKer FwdDeconv FwdNet FwdCount FwdChain
  BwdSpec BwdPost BwdLoop TrnSpec TrnTri TrnSite TrnDer TrnXfer TrnBody TrnFit TrnComp.
From Coq Require Import Lia ZifyBool ZifyNat ZifyN.

Section TrnAux.
Context {T : Type} `{Num T}.
Implicit Types (s : lst T) (m : list T) (c q p : clay T) (cs rest : list (clay T)).

(** ** Layers nothing was built for yet *)
Record virgin (L : layer T) : Prop := {
  vg_ten : forall f, f <> FInput -> f <> FOutput -> f <> FDif -> lten L f = None;
  vg_max : lmaxs L = None;
  vg_bp : lflag L BBP = false;
}.

(** ** Counters *)
Definition flat c : bool := match c_l c with Some SFlat => true | _ => false end.
(** How many flattening layers a chain ends with. *)
Fixpoint lead cs : nat := match cs with c :: rest => if flat c then S (lead rest) else 0 | [] => 0 end.
(** A counter after [k] flattening layers added theirs. *)
Fixpoint tally (k : nat) : T := match k with O => count 1 | S k => nadd (tally k) (count 1) end.

(** ** Fields *)
Lemma kept_field s s' (i : nat) f : keeps (ts s) (ts s') -> lays s' !! i = lays s !! i -> (forall t, fid s i f = Some t -> exists n, tens (ts s) !! t = Some n /\ settled n) ->
  fid s' i f = fid s i f /\ (forall a, cells s' i f a <-> cells s i f a) /\ forall m, fval s' i f m = fval s i f m.
Proof using Type.
  intros K El Hs. assert (Ef : fid s' i f = fid s i f) by (unfold fid; rewrite El; reflexivity). split; [exact Ef|].
  destruct (fid s i f) as [t|] eqn:Et.
  - destruct (Hs t eq_refl) as (n & Hn & Hset). destruct (K _ _ Hn) as (n' & Hn' & _ & _ & E). destruct (E Hset) as (E1 & E2 & E3).
    assert (X1 : fnode s i f = Some n) by (unfold fnode; rewrite Et; exact Hn). assert (X2 : fnode s' i f = Some n') by (unfold fnode; rewrite Ef; exact Hn').
    split.
    + intros a. unfold cells. rewrite X1, X2. split; intros (x & Ex & Ha); injection Ex as <-; eexists; (split; [reflexivity|]); congruence.
    + intros m. unfold fval. rewrite X1, X2. cbn [mbind option_bind]. apply mval_kept; assumption.
  - assert (X1 : fnode s i f = None) by (unfold fnode; rewrite Et; reflexivity). assert (X2 : fnode s' i f = None) by (unfold fnode; rewrite Ef; reflexivity).
    split; [|intros m; unfold fval; rewrite X1, X2; reflexivity]. intros a. unfold cells. rewrite X1, X2. split; intros (x & Ex & _); discriminate.
Qed.
Lemma fid_lay s (i : nat) L f : lays s !! i = Some L -> fid s i f = lten L f.
Proof using Type. intros E. unfold fid. rewrite E. reflexivity. Qed.
Lemma cells_node s (i : nat) f t n a : fid s i f = Some t -> tens (ts s) !! t = Some n -> cells s i f a <-> Some a ∈ operands (nmat n).
Proof using Type.
  intros Ef Hn. unfold cells, fnode. rewrite Ef. cbn [mbind option_bind]. rewrite Hn. split; [intros (x & Ex & Ha); congruence|eauto].
Qed.
Lemma fval_node s (i : nat) f t n m : fid s i f = Some t -> tens (ts s) !! t = Some n -> fval s i f m = mval m (nmat n).
Proof using Type. intros Ef Hn. unfold fval, fnode. rewrite Ef. cbn [mbind option_bind]. rewrite Hn. reflexivity. Qed.
Lemma cells_none s (i : nat) f a : fid s i f = None -> ~ cells s i f a.
Proof using Type. intros Ef (n & Hn & _). unfold fnode in Hn. rewrite Ef in Hn. discriminate. Qed.

Section Site.
Variables (U : list nat) (s1 : lst T).
Hypothesis SI : FwdChain.site U s1.
Notation A0 := (length (mem (ts s1))).

(** ** What is known about one layer *)
Definition bsize c : nat := N.to_nat (prodN (c_sh c)).
Record laux (C : list (nat * T)) (W : nat -> Prop) s c : Prop := {
  la_dif : exists d a b, fid s (c_i c) FDif = Some d /\ tens (ts s) !! d = Some (MkNode KMat (blkm (c_sh c) a b)) /\ A0 <= a /\ a + bsize c <= length (mem (ts s)) /\
    forall i, a <= i < a + bsize c -> ~ W i /\ i ∉ map fst C;
  la_seen : forall f t, seenf f -> fid s (c_i c) f = Some t -> exists n, tens (ts s) !! t = Some n /\ settled n /\ wf_mat (length (mem (ts s))) (nmat n);
  la_neta : if base c then exists t n, fid s (c_i c) FNeta = Some t /\ tens (ts s) !! t = Some n /\ shape (nmat n) = c_sh c else fid s (c_i c) FNeta = None;
  la_high : forall a, cells s (c_i c) FNeta a -> A0 <= a \/ cells s (c_i c) FInput a;
  la_max : match c_l c with Some (SNorm _ _) => exists k, maxc s (c_i c) = Some k /\ A0 <= k < length (mem (ts s)) | _ => maxc s (c_i c) = None end;
  la_none : forall g, g <> FInput -> g <> FOutput -> g <> FNeta -> g <> FDif -> g <> FBias -> g <> FWeights -> fid s (c_i c) g = None;
  la_par : c_par c = false -> fid s (c_i c) FBias = None /\ fid s (c_i c) FWeights = None;
}.
Lemma laux_seen C W s c : laux C W s c -> forall f t, seenf f -> fid s (c_i c) f = Some t -> exists n, tens (ts s) !! t = Some n /\ settled n.
Proof using Type. intros A f t Hf Ht. destruct (la_seen _ _ _ _ A f t Hf Ht) as (n & Hn & Hs & _). eauto. Qed.
Lemma laux_lt C W s c f a : laux C W s c -> seenf f -> cells s (c_i c) f a -> a < length (mem (ts s)).
Proof using Type.
  intros A Hf (n & Hn & Ha). unfold fnode in Hn. apply bind_Some in Hn as (t & Ht & Hn). destruct (la_seen _ _ _ _ A f t Hf Ht) as (n' & Hn' & _ & Hw).
  assert (n' = n) as -> by congruence. exact (wf_lt _ _ _ Hw Ha).
Qed.
Lemma dif_cell C W s c a : laux C W s c -> cells s (c_i c) FDif a -> A0 <= a < length (mem (ts s)) /\ ~ W a /\ a ∉ map fst C.
Proof using Type.
  intros A Ha. destruct (la_dif _ _ _ _ A) as (d & x & b & Hd & Hn & Hx & He & Hi). rewrite (cells_node _ _ _ _ _ _ Hd Hn) in Ha. cbn [nmat] in Ha. apply blk_ops in Ha.
  unfold bsize in *. split; [lia|]. apply Hi. exact Ha.
Qed.
Lemma seen_dif : seenf FDif.
Proof using Type. left. reflexivity. Qed.
Lemma seen_read f : readf f -> seenf f.
Proof using Type. right. assumption. Qed.
Lemma laux_step C W C' (W' : nat -> Prop) s s' c : laux C W s c -> keeps (ts s) (ts s') -> length (mem (ts s)) <= length (mem (ts s')) -> lays s' !! c_i c = lays s !! c_i c ->
  (forall a, A0 <= a < length (mem (ts s)) -> W' a -> W a) -> (forall a, a < length (mem (ts s)) -> a ∈ map fst C' -> a ∈ map fst C) -> laux C' W' s' c.
Proof using Type.
  intros A K Hlen El HW HC. assert (Ef : forall f, fid s' (c_i c) f = fid s (c_i c) f) by (intros f; unfold fid; rewrite El; reflexivity).
  assert (KF : forall f, seenf f -> (forall a, cells s' (c_i c) f a <-> cells s (c_i c) f a)) by (intros f Hf; apply (kept_field s s' (c_i c) f K El); intros t; apply (laux_seen _ _ _ _ A); exact Hf).
  split.
  - destruct (la_dif _ _ _ _ A) as (d & x & b & Hd & Hn & Hx & He & Hi). destruct (K _ _ Hn) as (n' & Hn' & Hk & _ & E). destruct (E (settled_mat _)) as (E1 & E2 & E3).
    destruct n' as [k' [sh' mi' op' b']]. cbn in *. subst. exists d, x, b'. rewrite Ef. repeat (split; [assumption|]). split; [lia|]. intros i Hr. destruct (Hi i Hr) as [H1 H2]. split.
    + intros Hw. apply H1. apply HW; [unfold bsize in *; lia|exact Hw].
    + intros Hc. apply H2. apply HC; [lia|exact Hc].
  - intros f t Hf Ht. rewrite Ef in Ht. destruct (la_seen _ _ _ _ A f t Hf Ht) as (n & Hn & Hs & Hw). destruct (K _ _ Hn) as (n' & Hn' & Hk & Hb & E). destruct (E Hs) as (E1 & E2 & E3).
    exists n'. split; [exact Hn'|]. split; [eapply keeps_settled; eassumption|]. eapply wf_kept; try eassumption. eapply wf_mat_mono; eassumption.
  - pose proof (la_neta _ _ _ _ A) as Hn. destruct (base c); [|rewrite Ef; exact Hn]. destruct Hn as (t & n & Ht & Hn & Hsh).
    destruct (la_seen _ _ _ _ A FNeta t ltac:(right; unfold readf; auto) Ht) as (n0 & Hn0 & Hs & _). assert (n0 = n) as -> by congruence. destruct (K _ _ Hn) as (n' & Hn' & Hk & Hb & E). destruct (E Hs) as (E1 & E2 & E3).
    exists t, n'. rewrite Ef. split; [exact Ht|]. split; [exact Hn'|]. congruence.
  - intros a Ha. apply KF in Ha; [|right; unfold readf; auto]. destruct (la_high _ _ _ _ A a Ha) as [Hx|Hx]; [auto|]. right. apply KF; [right; unfold readf; auto|exact Hx].
  - pose proof (la_max _ _ _ _ A) as Hm. unfold maxc in *. rewrite El. destruct (c_l c) as [[]|]; try exact Hm. destruct Hm as (k & Hk & Hr). exists k. split; [exact Hk|lia].
  - intros g. rewrite Ef. apply (la_none _ _ _ _ A).
  - rewrite !Ef. apply (la_par _ _ _ _ A).
Qed.

(** ** The chain *)
Fixpoint rcell cs : option nat :=
  match cs with [] => None | c :: rest => if flat c then rcell rest else L ← lays s1 !! c_i c; lref L end.
Fixpoint refsok s (a : nat) cs : Prop :=
  match cs with
  | [] => True
  | c :: rest => (exists r, rcell (c :: rest) = Some r /\ refc s (c_i c) = Some r /\ mem (ts s) !! r = Some (tally (a + lead (c :: rest)))) /\
      refsok s (if flat c then S a else 0) rest
  end.
Fixpoint link s cs : Prop :=
  match cs with
  | [] => True
  | c :: rest =>
      match rest with
      | [] => exists t, fid s (c_i c) FInput = Some t /\ inten U s1 t /\ c_l c <> Some SSoft
      | q :: _ => fid s (c_i c) FInput = fid s (c_i q) FOutput /\
          match c_l c with
          | Some SSoft => fid s (c_i c) FDif = fid s (c_i q) FDif
          | _ => forall p a, p ∈ rest -> cells s (c_i c) FDif a -> ~ cells s (c_i p) FDif a
          end
      end /\ link s rest
  end.
Definition top s cs : Prop :=
  match cs with
  | [] => True
  | c :: _ => exists d a, fid s (c_i c) FDif = Some d /\ tens (ts s) !! d = Some (MkNode KMat (blkm (c_sh c) a false)) /\ fid s (c_i c) FOutput <> Some d
  end.
(** The sums before the activation and the largest absolute input, from the input. *)
Definition sums s m m' c : Prop := forall vx, fval s (c_i c) FInput m' = Some vx ->
  (base c = true -> fval s (c_i c) FNeta m' = match c_l c with None => Some vx | Some l => lay_val (lin l) (net_par s m (c_i c)) vx end) /\
  (forall a b, c_l c = Some (SNorm a b) -> maxv s (c_i c) m' = reduce RedMax (map absv (vdata vx))).
Record aux (C : list (nat * T)) (W : nat -> Prop) s cs : Prop := {
  xa_lay : forall c, c ∈ cs -> laux C W s c;
  xa_apart : forall c q a, c ∈ cs -> q ∈ cs -> cells s (c_i q) FDif a -> (forall f, readf f -> ~ cells s (c_i c) f a) /\ maxc s (c_i c) <> Some a;
  xa_link : link s cs;
  xa_top : top s cs;
  xa_sums : forall m m' c, c ∈ cs -> length (mem (ts s)) <= length m -> consts C m -> exec (ctx (ts s)) m = Some m' -> sums s m m' c;
  xa_refs : refsok s 0 cs;
}.
Lemma aux_nil C W s : aux C W s [].
Proof using Type. split; try (intros; exfalso; eapply not_elem_of_nil; eassumption); try exact I. Qed.

(** *** Counters *)
Lemma rcell_in cs r : rcell cs = Some r -> exists p L, p ∈ cs /\ lays s1 !! c_i p = Some L /\ lref L = Some r.
Proof using Type.
  induction cs as [|c cs IH]; [discriminate|]. cbn [rcell]. destruct (flat c).
  - intros E. destruct (IH E) as (p & L & Hp & Hr). exists p, L. split; [right; exact Hp|exact Hr].
  - intros E. apply bind_Some in E as (L & HL & Hr). exists c, L. split; [left|auto].
Qed.
Lemma refsok_same s s' : (forall i r, refc s i = Some r -> refc s' i = Some r) -> (forall r w, mem (ts s) !! r = Some w -> mem (ts s') !! r = Some w) -> forall cs a, refsok s a cs -> refsok s' a cs.
Proof using Type.
  intros Hr Hm. induction cs as [|c cs IH]; intros a Ha; [exact I|]. destruct Ha as [(r & H1 & H2 & H3) Ha]. split; [exists r; auto|]. apply IH. exact Ha.
Qed.
Lemma refsok_off s s' x : forall cs a, (forall c r, c ∈ cs -> refc s (c_i c) = Some r -> refc s' (c_i c) = Some r) -> (forall r w, r <> x -> mem (ts s) !! r = Some w -> mem (ts s') !! r = Some w) ->
  (forall c L, c ∈ cs -> lays s1 !! c_i c = Some L -> lref L <> Some x) -> refsok s a cs -> refsok s' a cs.
Proof using Type.
  induction cs as [|c cs IH]; intros a Hr Hm Hn Ha; [exact I|]. destruct Ha as [(r & H1 & H2 & H3) Ha]. split.
  - exists r. split; [exact H1|]. split; [apply Hr; [left|exact H2]|]. apply Hm; [|exact H3]. intros ->. destruct (rcell_in _ _ H1) as (p & L & Hp & HL & HrL). exact (Hn p L Hp HL HrL).
  - apply IH; [intros p r' Hp; apply Hr; right; exact Hp|exact Hm|intros p L Hp; apply Hn; right; exact Hp|exact Ha].
Qed.
Lemma refsok_bump s s' x : forall cs a, NoDup (map c_i cs) -> (forall c, c ∈ cs -> c_i c ∈ U) -> (forall c r, c ∈ cs -> refc s (c_i c) = Some r -> refc s' (c_i c) = Some r) ->
  (forall r w, r <> x -> mem (ts s) !! r = Some w -> mem (ts s') !! r = Some w) -> (forall w, mem (ts s) !! x = Some w -> mem (ts s') !! x = Some (nadd w (count 1))) ->
  rcell cs = Some x -> refsok s a cs -> refsok s' (S a) cs.
Proof using SI.
  induction cs as [|c cs IH]; intros a Hnd HcU Hr Hm Hx Hrc Ha; [exact I|]. destruct Ha as [(r & H1 & H2 & H3) Ha]. assert (r = x) as -> by congruence.
  cbn [map] in Hnd. apply NoDup_cons in Hnd as [Hni Hnd]. split.
  - exists x. split; [exact H1|]. split; [apply Hr; [left|exact H2]|]. apply Hx in H3. exact H3.
  - cbn [rcell] in Hrc. destruct (flat c).
    + apply IH; auto; [intros p Hp; apply HcU; right; exact Hp|intros p r Hp; apply Hr; right; exact Hp].
    + eapply (refsok_off s s' x); [intros p r Hp; apply Hr; right; exact Hp|exact Hm| |exact Ha]. intros p L Hp HL HrL. apply bind_Some in Hrc as (Lc & HLc & Hrc).
      assert (c_i p = c_i c). { eapply (si_inj _ _ SI (c_i p) (c_i c)); try eassumption; apply HcU; [right; exact Hp|left]. }
      apply Hni. rewrite <- H0. apply elem_of_list_fmap_1. exact Hp.
Qed.

(** ** The input of a layer *)
Lemma link_in s : forall cs c, link s cs -> c ∈ cs -> exists t, fid s (c_i c) FInput = t /\ ((exists t', t = Some t' /\ inten U s1 t') \/ exists q, q ∈ cs /\ fid s (c_i q) FOutput = t).
Proof using Type.
  induction cs as [|p cs IH]; intros c Hl Hc; [apply not_elem_of_nil in Hc; contradiction|]. destruct Hl as [H1 H2]. apply elem_of_cons in Hc as [->|Hc].
  - destruct cs as [|q cs]; [destruct H1 as (t & Ht & Hi & _); exists (Some t); split; [exact Ht|]; left; eauto|]. destruct H1 as [H1 _]. eexists. split; [exact H1|]. right. exists q. split; [|reflexivity]. right. left.
  - destruct (IH c H2 Hc) as (t & Ht & [Hx|(q & Hq & Hx)]); exists t; (split; [exact Ht|]); [left; exact Hx|]. right. exists q. split; [right; exact Hq|exact Hx].
Qed.
Lemma link_step s s' : forall cs, (forall c f, c ∈ cs -> fid s' (c_i c) f = fid s (c_i c) f) -> (forall c a, c ∈ cs -> cells s' (c_i c) FDif a <-> cells s (c_i c) FDif a) -> link s cs -> link s' cs.
Proof using Type.
  induction cs as [|p cs IH]; intros Hf Hc Hl; [exact I|]. destruct Hl as [H1 H2]. split.
  - destruct cs as [|q cs]; [destruct H1 as (t & Ht & Hx); exists t; rewrite Hf by left; auto|]. destruct H1 as [H1 H3]. rewrite !Hf by (repeat (first [left|right])). split; [exact H1|].
    assert (X : (forall p0 a, p0 ∈ q :: cs -> cells s (c_i p) FDif a -> ~ cells s (c_i p0) FDif a) -> forall p0 a, p0 ∈ q :: cs -> cells s' (c_i p) FDif a -> ~ cells s' (c_i p0) FDif a).
    { intros Hx p0 a Hp0. rewrite !Hc by (first [left|right; exact Hp0]). apply Hx. exact Hp0. }
    destruct (c_l p) as [[]|]; try exact (X H3). exact H3.
  - apply IH; [| |exact H2]; intros; [apply Hf|apply Hc]; right; assumption.
Qed.
Lemma net_par_fval s m i : net_par s m i = (b ← fval s i FBias m; w ← fval s i FWeights m; Some (b, w)).
Proof using Type.
  unfold net_par, lparams, FwdBody.tval, fval, fnode, fid. destruct (lays s !! i) as [L|]; [|reflexivity]. cbn [mbind option_bind]. destruct (lten L FBias) as [tb|]; cbn [mbind option_bind]; [|reflexivity].
  destruct (tens (ts s) !! tb) as [nb|]; cbn [mbind option_bind]; [|reflexivity]. destruct (mval m (nmat nb)); cbn [mbind option_bind]; [|reflexivity]. destruct (lten L FWeights) as [tw|]; reflexivity.
Qed.

Context (rnd : nat -> nat -> T).
Notation finv := (finv U s1 rnd).

(** ** One more layer *)
Section Cons.
Variables (D : list nat) (C : list (nat * T)) (W : nat -> Prop) (s : lst T) (C' : list (nat * T)) (W' : nat -> Prop) (s' : lst T) (c : clay T) (rest : list (clay T)).
Variables (l : lspec T) (L1 L2 : layer T) (inp : nat) (n : node T).
Notation i := (c_i c).
Let s2 : lst T := MkL (ts s) (<[i := L2]> (lays s)) (rc s).
Hypothesis F : finv D C W s.
Hypothesis F' : finv (i :: D) C' W' s'.
Hypothesis HiD : i ∉ D.
Hypothesis HiU : i ∈ U.
Hypothesis HD : forall p, p ∈ rest -> c_i p ∈ D.
Hypothesis Hnd : NoDup (map c_i rest).
Hypothesis A : aux C W s rest.
Hypothesis Hcl : c_l c = Some l.
Hypothesis Hsub : forall a b d, l <> SSub a b d.
Hypothesis HL1 : lays s1 !! i = Some L1.
Hypothesis Hl : lspec_of (tens (ts s1)) L1 = Some l.
Hypothesis Hvg : virgin L1.
Hypothesis Hcnt : forall r, lref L1 = Some r -> mem (ts s1) !! r = Some (count 1).
Hypothesis E2t : forall f, f <> FInput -> lten L2 f = lten L1 f.
Hypothesis E2m : lmaxs L2 = lmaxs L1.
Hypothesis E2r : lref L2 = lref L1.
Hypothesis E2p : lpre L2 = lpre L1.
Hypothesis E2i : lten L2 FInput = Some inp.
Hypothesis Hn : tens (ts s) !! inp = Some n.
Hypothesis Hset : settled n.
Hypothesis Hwf : wf_mat (length (mem (ts s))) (nmat n).
Hypothesis Hls : lay_shape l (shape (nmat n)) = Some (c_sh c).
Hypothesis Hoff : forall j, j <> i -> lays s' !! j = lays s !! j.
Hypothesis HM : one_more U s1 rnd C W s2 s' i L2 (nmat n) l (c_sh c) C' W'.
Hypothesis Hin : match rest with
  | [] => inten U s1 inp /\ l <> SSoft /\ l <> SFlat
  | q :: _ => lpre L1 = Some (c_i q) /\ fid s (c_i q) FOutput = Some inp /\ shape (nmat n) = c_sh q
  end.

Lemma flat_c : flat c = true <-> l = SFlat.
Proof using All. unfold flat. rewrite Hcl. destruct l; split; congruence. Qed.
Lemma iL : i < length (lays s).
Proof using All. rewrite (fi_nlay _ _ _ _ _ _ _ F). eapply lookup_lt_Some. exact HL1. Qed.
Lemma Hpi (p : clay T) : p ∈ rest -> c_i p <> i.
Proof using All. intros Hp E. apply HiD. rewrite <- E. apply HD. exact Hp. Qed.
Lemma Hpl (p : clay T) : p ∈ rest -> lays s' !! c_i p = lays s !! c_i p.
Proof using All. intros Hp. apply Hoff. apply Hpi. exact Hp. Qed.

Section Open.
Variables (O : nat -> Prop) (t0 : tst T) (L' : layer T) (new : list (op T)) (Cn : list (nat * T)) (Wn : nat -> Prop) (to_ : nat) (no_ : node T).
Hypothesis EC : C' = C ++ Cn.
Hypothesis EW : W' = (fun a => W a \/ Wn a).
Hypothesis HO : forall a, O a -> own U s1 i a.
Hypothesis B : FwdBody.body_post O s2 s' i L2 (lay_goal O l (nmat n)) (par_init rnd l (shape (nmat n))) (c_sh c) t0 L' new Cn Wn to_ no_.
Hypothesis X : body_aux O s2 s' L2 (nmat n) l (c_sh c) L' new Cn Wn to_ no_.
Notation N0 := (length (mem (ts s))).

Lemma K : keeps (ts s) (ts s').
Proof using All.
  destruct (bp_t0 _ _ _ _ _ _ _ _ _ _ _ _ _ _ _ B) as (Tt & _). eapply keeps_trans; [|exact (sg_keep _ _ _ _ _ (bp_seg _ _ _ _ _ _ _ _ _ _ _ _ _ _ _ B))].
  intros j nj Hnj. exists nj. rewrite Tt. repeat split; auto.
Qed.
Lemma len0 : length (mem t0) = N0.
Proof using All. destruct (bp_t0 _ _ _ _ _ _ _ _ _ _ _ _ _ _ _ B) as (_ & _ & E & _). exact E. Qed.
Lemma lens : N0 <= length (mem (ts s')).
Proof using All. rewrite <- len0. exact (sg_len _ _ _ _ _ (bp_seg _ _ _ _ _ _ _ _ _ _ _ _ _ _ _ B)). Qed.
Lemma A0N : A0 <= N0.
Proof using All. exact (fi_len _ _ _ _ _ _ _ F). Qed.
Lemma Onot a : O a -> a < A0.
Proof using All. intros Ha. apply (own_lt U s1 SI i). auto. Qed.
Lemma Wn_hi a : Wn a -> N0 <= a \/ O a.
Proof using All. exact (bp_W _ _ _ _ _ _ _ _ _ _ _ _ _ _ _ B a). Qed.
Lemma Cn_hi a : a ∈ map fst Cn -> N0 <= a.
Proof using All.
  intros Ha. apply elem_of_list_fmap in Ha as (x & -> & Hx). pose proof (sg_const _ _ _ _ _ (bp_seg _ _ _ _ _ _ _ _ _ _ _ _ _ _ _ B)) as Hc. rewrite Forall_forall in Hc.
  rewrite <- len0. exact (proj1 (Hc _ Hx)).
Qed.
Lemma C_lo a : a ∈ map fst C -> a < N0.
Proof using All.
  intros Ha. apply elem_of_list_fmap in Ha as (x & -> & Hx). pose proof (fi_C _ _ _ _ _ _ _ F) as Hc. rewrite Forall_forall in Hc. destruct (Hc _ Hx) as (_ & E & _). eapply lookup_lt_Some. exact E.
Qed.
Lemma Llay : lays s' !! i = Some L'.
Proof using All. rewrite (bp_lays _ _ _ _ _ _ _ _ _ _ _ _ _ _ _ B). apply list_lookup_insert. cbn [s2 lays]. rewrite insert_length. exact iL. Qed.
Lemma rest_aux p : p ∈ rest -> laux C' W' s' p.
Proof using All.
  intros Hp. eapply (laux_step C W C' W' s s' p); [apply (xa_lay _ _ _ _ A p Hp)|exact K|exact lens|apply Hpl; exact Hp| |].
  - intros a Ha Hw. rewrite EW in Hw. destruct Hw as [Hw|Hw]; [exact Hw|]. destruct (Wn_hi a Hw) as [Hx|Hx]; [lia|]. pose proof (Onot a Hx). lia.
  - intros a Ha Hc. rewrite EC, map_app in Hc. apply elem_of_app in Hc as [Hc|Hc]; [exact Hc|]. pose proof (Cn_hi a Hc). lia.
Qed.
Lemma rest_field p f : p ∈ rest -> seenf f -> fid s' (c_i p) f = fid s (c_i p) f /\ (forall a, cells s' (c_i p) f a <-> cells s (c_i p) f a) /\ forall m, fval s' (c_i p) f m = fval s (c_i p) f m.
Proof using All.
  intros Hp Hf. apply (kept_field s s' (c_i p) f K (Hpl p Hp)). intros t. apply (laux_seen _ _ _ _ (xa_lay _ _ _ _ A p Hp)). exact Hf.
Qed.
Lemma fin' : fid s' i FInput = Some inp.
Proof using All. rewrite (fid_lay _ _ _ _ Llay). rewrite (ax_keep _ _ _ _ _ _ _ _ _ _ _ _ _ X); [exact E2i|]. repeat split; discriminate. Qed.
Lemma fin_node : exists n', tens (ts s') !! inp = Some n' /\ settled n' /\ wf_mat (length (mem (ts s'))) (nmat n') /\ operands (nmat n') = operands (nmat n) /\ shape (nmat n') = shape (nmat n).
Proof using All.
  destruct (K _ _ Hn) as (n' & Hn' & Hk & Hb & E). destruct (E Hset) as (E1 & E2 & E3). exists n'. split; [exact Hn'|]. split; [eapply keeps_settled; eassumption|].
  split; [eapply wf_kept; try eassumption; eapply wf_mat_mono; [exact Hwf|exact lens]|]. auto.
Qed.
Lemma fin_cells a : cells s' i FInput a <-> Some a ∈ operands (nmat n).
Proof using All. destruct fin_node as (n' & Hn' & _ & _ & E & _). rewrite (cells_node _ _ _ _ _ _ fin' Hn'), E. reflexivity. Qed.
Lemma fin_lo a : cells s' i FInput a -> a < N0.
Proof using All. intros Ha. apply fin_cells in Ha. exact (wf_lt _ _ _ Hwf Ha). Qed.
Lemma par_field f : f = FBias \/ f = FWeights -> if has_par l then exists t nf, fid s' i f = Some t /\ tens (ts s') !! t = Some nf /\ settled nf /\ wf_mat (length (mem (ts s'))) (nmat nf) /\ (forall a, Some a ∈ operands (nmat nf) -> N0 <= a /\ ~ Wn a)
  else fid s' i f = None.
Proof using All.
  intros Hf. destruct (has_par l) eqn:Ep.
  - destruct (has_par_shape l _ _ Ep Hls) as (bs & ws & Hps). destruct (bp_par _ _ _ _ _ _ _ _ _ _ _ _ _ _ _ B (drawn rnd bs) (drawn rnd ws)) as [Hb Hw]; [unfold par_init; rewrite Hps; reflexivity|].
    destruct Hf as [-> | ->]; [destruct Hb as (t & nf & H1 & H2 & H3 & H4 & H5 & _)|destruct Hw as (t & nf & H1 & H2 & H3 & H4 & H5 & _)]; exists t, nf; rewrite (fid_lay _ _ _ _ Llay); repeat (split; [assumption|]); exact H5.
  - destruct (fi_more _ _ _ _ _ _ _ F' i ltac:(left)) as (La & Lb & HLa & HLb & _ & Hc). assert (La = L1) as -> by congruence. unfold carries in Hc. rewrite Hl, Ep in Hc. unfold fid. rewrite HLb. cbn [mbind option_bind].
    destruct Hc as [Hc1 Hc2]. destruct Hf as [-> | ->]; assumption.
Qed.
Lemma neta_field : if has_par l then exists t nn, fid s' i FNeta = Some t /\ tens (ts s') !! t = Some nn /\ settled nn /\ wf_mat (length (mem (ts s'))) (nmat nn) /\ shape (nmat nn) = c_sh c /\
    (forall a, Some a ∈ operands (nmat nn) -> N0 <= a)
  else fid s' i FNeta = None.
Proof using All.
  pose proof (ax_neta _ _ _ _ _ _ _ _ _ _ _ _ _ X) as Hx. unfold aux_neta in Hx. rewrite (fid_lay _ _ _ _ Llay). destruct (has_par l).
  - destruct Hx as (t & nn & H1 & H2 & H3 & H4 & H5 & H6 & _). exists t, nn. auto 10.
  - rewrite Hx, E2t by discriminate. apply (vg_ten _ Hvg); discriminate.
Qed.
Lemma out_cells a : cells s' i FOutput a -> N0 <= a \/ a < A0 \/ cells s' i FInput a.
Proof using All.
  intros Ha. rewrite (cells_node s' i FOutput to_ no_) in Ha; [|rewrite (fid_lay _ _ _ _ Llay); exact (bp_out _ _ _ _ _ _ _ _ _ _ _ _ _ _ _ B)|exact (bp_node _ _ _ _ _ _ _ _ _ _ _ _ _ _ _ B)].
  destruct (ax_out _ _ _ _ _ _ _ _ _ _ _ _ _ X a Ha) as [Hx|[Hx|Hx]]; [left; exact Hx|right; left; apply Onot; exact Hx|right; right; apply fin_cells; exact Hx].
Qed.
(** Fields that are read, apart from the input, are new or belong to the layer. *)
Lemma read_cells f a : readf f -> cells s' i f a -> N0 <= a \/ a < A0 \/ cells s' i FInput a.
Proof using All.
  intros [->|[->|[->|Hf]]] Ha; [auto|apply out_cells; exact Ha| |].
  - pose proof neta_field as Hx. destruct (has_par l); [|exfalso; eapply cells_none; eassumption]. destruct Hx as (t & nn & H1 & H2 & _ & _ & _ & H6). left. apply H6. rewrite <- (cells_node _ _ _ _ _ _ H1 H2). exact Ha.
  - pose proof (par_field f Hf) as Hx. destruct (has_par l); [|exfalso; eapply cells_none; eassumption]. destruct Hx as (t & nn & H1 & H2 & _ & _ & H6). left. apply H6. rewrite <- (cells_node _ _ _ _ _ _ H1 H2). exact Ha.
Qed.
Lemma max_c : match c_l c with Some (SNorm _ _) => exists k, maxc s' i = Some k /\ N0 <= k < length (mem (ts s')) | _ => maxc s' i = None end.
Proof using All.
  pose proof (ax_max _ _ _ _ _ _ _ _ _ _ _ _ _ X) as Hx. unfold aux_max in Hx. rewrite Hcl. unfold maxc. rewrite Llay. cbn [mbind option_bind]. assert (lmaxs L2 = None) by (rewrite E2m; apply (vg_max _ Hvg)).
  destruct l; try congruence. destruct Hx as (k & Hk & Hr & _). exists k. auto.
Qed.
Lemma max_hi k : maxc s' i = Some k -> N0 <= k.
Proof using All.
  intros Hk. pose proof max_c as Hx. rewrite Hcl in Hx. destruct l; try congruence. destruct Hx as (k' & Hk' & Hr). assert (k' = k) as -> by congruence. lia.
Qed.
(** The error is new, or that of the layer below. *)
Lemma dif_split : (l <> SSoft /\ own_dif s2 s' l (c_sh c) L' Cn Wn to_ no_) \/
  (l = SSoft /\ exists q r0, rest = q :: r0 /\ lten L' FDif = fid s (c_i q) FDif /\ length (tens (ts s)) <= to_ /\ forall j nj, tens (ts s) !! j = Some nj -> j <> inp -> tens (ts s') !! j = Some nj).
Proof using All.
  pose proof Hpi as Hpi'. pose proof (ax_dif _ _ _ _ _ _ _ _ _ _ _ _ _ X) as Hx. unfold aux_dif in Hx. destruct l eqn:El; try (left; split; [discriminate|exact Hx]).
  right. split; [reflexivity|]. destruct rest as [|q r0] eqn:Er; [exfalso; apply (proj1 (proj2 Hin)); reflexivity|]. exists q, r0. split; [reflexivity|]. destruct Hx as ((q' & Lq & H1 & H2 & H3) & H4 & H5).
  destruct Hin as (P1 & P2 & _). assert (q' = c_i q) as -> by congruence. cbn [s2 lays] in H2. rewrite list_lookup_insert_ne in H2 by (intros E; apply (Hpi' q); [left|congruence]).
  split; [rewrite (fid_lay _ _ _ _ H2); exact H3|]. split; [exact H4|]. intros j nj Hj Hne. apply H5; [exact Hj|congruence].
Qed.
Lemma dif_cells a : cells s' i FDif a -> (N0 <= a < length (mem (ts s')) /\ ~ taken (ts s') L' l no_ a) \/ (l = SSoft /\ exists q, q ∈ rest /\ cells s (c_i q) FDif a).
Proof using All.
  intros Ha. destruct dif_split as [[Hns (d & x & H1 & H2 & H3 & H4 & H5 & H6)]|(El & q & r0 & Er & H1 & _)].
  - left. rewrite (cells_node s' i FDif d (MkNode KMat (blkm (c_sh c) x false)) a) in Ha; [|rewrite (fid_lay _ _ _ _ Llay); exact H1|exact H2]. cbn [nmat] in Ha. apply blk_ops in Ha. cbn [s2 ts] in H4. split; [lia|]. apply H6. exact Ha.
  - right. split; [exact El|]. exists q. assert (Hq : q ∈ rest) by (rewrite Er; left). split; [exact Hq|]. apply (rest_field q FDif Hq seen_dif). destruct Ha as (nd & Hnd' & Ha). exists nd. split; [|exact Ha].
    unfold fnode in *. rewrite (fid_lay _ _ _ _ Llay), H1 in Hnd'. rewrite (proj1 (rest_field q FDif Hq seen_dif)). exact Hnd'.
Qed.
Lemma in_rest_cells a : cells s' i FInput a -> match rest with [] => True | q :: _ => cells s (c_i q) FOutput a end.
Proof using All.
  intros Ha. apply fin_cells in Ha. destruct rest as [|q r0]; [exact I|]. destruct Hin as (_ & Ho & _). exact (proj2 (cells_node _ _ _ _ _ a Ho Hn) Ha).
Qed.
(** Errors of the layers below are none of the cells read. *)
Lemma old_dif q a : q ∈ rest -> cells s (c_i q) FDif a -> (forall f, readf f -> ~ cells s' i f a) /\ maxc s' i <> Some a.
Proof using All.
  intros Hq Ha. pose proof (dif_cell _ _ _ _ _ (xa_lay _ _ _ _ A q Hq) Ha) as (Hr & _). split.
  - intros f Hf Hx. destruct (read_cells f a Hf Hx) as [Hy|[Hy|Hy]]; [lia|lia|]. apply in_rest_cells in Hy. destruct rest as [|q0 r0]; [apply not_elem_of_nil in Hq; contradiction|].
    destruct (xa_apart _ _ _ _ A q0 q a ltac:(left) Hq Ha) as [Hz _]. apply (Hz FOutput); [unfold readf; auto|exact Hy].
  - intros Hx. apply max_hi in Hx. lia.
Qed.
Lemma new_dif a : N0 <= a -> ~ taken (ts s') L' l no_ a -> (forall f, readf f -> ~ cells s' i f a) /\ maxc s' i <> Some a.
Proof using All.
  intros Hlo Ht. split.
  - intros f [->|[->|Hf]] Hx; [apply fin_lo in Hx; lia| |].
    + apply Ht. left. rewrite <- (cells_node s' i FOutput to_ no_); [exact Hx|rewrite (fid_lay _ _ _ _ Llay); exact (bp_out _ _ _ _ _ _ _ _ _ _ _ _ _ _ _ B)|exact (bp_node _ _ _ _ _ _ _ _ _ _ _ _ _ _ _ B)].
    + destruct (has_par l) eqn:Ep.
      * apply Ht. right. left. split; [exact Ep|]. destruct Hx as (nf & Hnf & Hx). unfold fnode in Hnf. apply bind_Some in Hnf as (t & Hft & Hnf). rewrite (fid_lay _ _ _ _ Llay) in Hft. exists f, t, nf. split; [tauto|auto].
      * assert (fid s' i f = None); [|eapply cells_none; eassumption]. destruct Hf as [->|Hf]; [pose proof neta_field as Hy|pose proof (par_field f Hf) as Hy]; rewrite Ep in Hy; exact Hy.
  - intros Hx. apply Ht. right. right. pose proof max_c as Hy. rewrite Hcl in Hy. unfold maxc in Hx. rewrite Llay in Hx. cbn [mbind option_bind] in Hx. unfold maxc in Hy. rewrite Llay in Hy. cbn [mbind option_bind] in Hy.
    split; [|exact Hx]. destruct l; try congruence. eauto.
Qed.
Lemma c_aux : laux C' W' s' c.
Proof using All.
  pose proof lens as Hlen. pose proof A0N as HA0. split.
  - destruct dif_split as [[Hns (d & x & H1 & H2 & H3 & H4 & H5 & H6)]|(El & q & r0 & Er & H1 & _)].
    + exists d, x, false. rewrite (fid_lay _ _ _ _ Llay). cbn [s2 ts] in H4. unfold bsize. split; [exact H1|]. split; [exact H2|]. split; [lia|]. split; [exact H5|]. intros a Ha. destruct (H6 a Ha) as (G1 & G2 & _). split.
      * rewrite EW. intros [Hw|Hw]; [|contradiction]. destruct (fi_W _ _ _ _ _ _ _ F a Hw) as [Hlt _]. lia.
      * rewrite EC, map_app. intros Hc. apply elem_of_app in Hc as [Hc|Hc]; [apply C_lo in Hc; lia|contradiction].
    + assert (Hq : q ∈ rest) by (rewrite Er; left). destruct (la_dif _ _ _ _ (rest_aux q Hq)) as (d & x & b & G1 & G2 & G3 & G4 & G5). exists d, x, b.
      assert (Esh : c_sh c = c_sh q). { rewrite Er in Hin. destruct Hin as (_ & _ & E). rewrite <- E. rewrite El in Hls. cbn [lay_shape] in Hls. clear - Hls. repeat (match type of Hls with context [match ?x with _ => _ end] => destruct x end); try discriminate; try congruence. }
      unfold bsize in *. rewrite Esh. rewrite (fid_lay _ _ _ _ Llay), H1. rewrite (proj1 (rest_field q FDif Hq seen_dif)) in G1. auto.
  - intros f t [->|Hf] Ht.
    + destruct dif_split as [[Hns (d & x & H1 & H2 & H3 & H4 & H5 & H6)]|(El & q & r0 & Er & H1 & _)].
      * rewrite (fid_lay _ _ _ _ Llay) in Ht. assert (d = t) as -> by congruence. eexists. split; [exact H2|]. split; [apply settled_mat|]. eapply wf_mat_mono; [apply wf_blk|exact H5].
        eapply lay_shape_fits; [|exact Hls]. apply Hwf.
      * assert (Hq : q ∈ rest) by (rewrite Er; left). rewrite (fid_lay _ _ _ _ Llay), H1 in Ht. apply (la_seen _ _ _ _ (rest_aux q Hq) FDif t seen_dif). rewrite (proj1 (rest_field q FDif Hq seen_dif)). exact Ht.
    + destruct Hf as [->|[->|[->|Hf]]].
      * rewrite fin' in Ht. injection Ht as <-. destruct fin_node as (n' & H1 & H2 & H3 & _). eauto.
      * rewrite (fid_lay _ _ _ _ Llay), (bp_out _ _ _ _ _ _ _ _ _ _ _ _ _ _ _ B) in Ht. injection Ht as <-. exists no_. split; [exact (bp_node _ _ _ _ _ _ _ _ _ _ _ _ _ _ _ B)|].
        split; [exact (bp_set _ _ _ _ _ _ _ _ _ _ _ _ _ _ _ B)|exact (bp_wf _ _ _ _ _ _ _ _ _ _ _ _ _ _ _ B)].
      * pose proof neta_field as Hx. destruct (has_par l); [|congruence]. destruct Hx as (t' & nn & H1 & H2 & H3 & H4 & _). assert (t' = t) as -> by congruence. eauto.
      * pose proof (par_field f Hf) as Hx. destruct (has_par l); [|congruence]. destruct Hx as (t' & nn & H1 & H2 & H3 & H4 & _). assert (t' = t) as -> by congruence. eauto.
  - unfold base. rewrite Hcl. pose proof neta_field as Hx. destruct (has_par l); [|exact Hx]. destruct Hx as (t' & nn & H1 & H2 & H3 & H4 & H5 & _). eauto 10.
  - intros a Ha. left. pose proof neta_field as Hx. destruct (has_par l); [|exfalso; eapply cells_none; eassumption]. destruct Hx as (t & nn & H1 & H2 & _ & _ & _ & H6). rewrite (cells_node _ _ _ _ _ _ H1 H2) in Ha. apply H6 in Ha. lia.
  - pose proof max_c as Hx. destruct (c_l c) as [[]|]; try exact Hx. destruct Hx as (k & Hk & Hr). exists k. split; [exact Hk|lia].
  - intros g G1 G2 G3 G4 G5 G6. rewrite (fid_lay _ _ _ _ Llay). rewrite (ax_keep _ _ _ _ _ _ _ _ _ _ _ _ _ X) by (repeat split; assumption). rewrite E2t by assumption. apply (vg_ten _ Hvg); assumption.
  - unfold c_par. rewrite Hcl. intros Ep. pose proof (par_field FBias (or_introl eq_refl)) as H1. pose proof (par_field FWeights (or_intror eq_refl)) as H2. rewrite Ep in H1, H2. auto.
Qed.
Lemma cons_apart p q a : p ∈ c :: rest -> q ∈ c :: rest -> cells s' (c_i q) FDif a -> (forall f, readf f -> ~ cells s' (c_i p) f a) /\ maxc s' (c_i p) <> Some a.
Proof using All.
  intros Hp Hq Ha.
  assert (G : (N0 <= a /\ ~ taken (ts s') L' l no_ a) \/ exists q', q' ∈ rest /\ cells s (c_i q') FDif a).
  { apply elem_of_cons in Hq as [->|Hq]; [destruct (dif_cells a Ha) as [[Hx Hy]|[_ Hx]]; [left; split; [lia|exact Hy]|right; exact Hx]|]. right. exists q. split; [exact Hq|]. apply (rest_field q FDif Hq seen_dif). exact Ha. }
  apply elem_of_cons in Hp as [->|Hp].
  - destruct G as [[G1 G2]|(q' & G1 & G2)]; [apply new_dif; assumption|eapply old_dif; eassumption].
  - assert (Em : maxc s' (c_i p) = maxc s (c_i p)) by (unfold maxc; rewrite (Hpl p Hp); reflexivity). rewrite Em.
    destruct G as [[G1 G2]|(q' & G1 & G2)].
    + pose proof (xa_lay _ _ _ _ A p Hp) as Lp. split.
      * intros f Hf Hx. apply (rest_field p f Hp (seen_read f Hf)) in Hx. pose proof (laux_lt _ _ _ _ _ _ Lp (seen_read f Hf) Hx). lia.
      * intros Hx. pose proof (la_max _ _ _ _ Lp) as Hm. destruct (c_l p) as [[]|]; try congruence. destruct Hm as (k & Hk & Hr). assert (k = a) as -> by congruence. lia.
    + destruct (xa_apart _ _ _ _ A p q' a Hp G1 G2) as [H1 H2]. split; [|exact H2]. intros f Hf Hx. apply (rest_field p f Hp (seen_read f Hf)) in Hx. exact (H1 f Hf Hx).
Qed.
Lemma cons_link : link s' (c :: rest).
Proof using All.
  split.
  - pose proof Llay as Hll. pose proof dif_split as Hd. pose proof dif_cells as Hdc. pose proof (rest_field) as Hrf. pose proof A as A'. pose proof fin' as Hfi. destruct rest as [|q r0].
    + exists inp. split; [exact Hfi|]. destruct Hin as (G1 & G2 & _). split; [exact G1|]. rewrite Hcl. congruence.
    + destruct Hin as (G1 & G2 & G3). split; [rewrite Hfi; rewrite (proj1 (Hrf q FOutput ltac:(left) ltac:(right; unfold readf; auto))); congruence|]. rewrite Hcl.
      assert (Y : l <> SSoft -> forall p a, p ∈ q :: r0 -> cells s' i FDif a -> ~ cells s' (c_i p) FDif a).
      { intros Hns p a Hp Ha Hx. destruct (Hdc a Ha) as [[Hy _]|[Hy _]]; [|contradiction]. apply (Hrf p FDif Hp seen_dif) in Hx. pose proof (laux_lt _ _ _ _ _ _ (xa_lay _ _ _ _ A' p Hp) seen_dif Hx). lia. }
      destruct l; try (apply Y; discriminate). destruct Hd as [[Hx _]|(_ & q' & r' & Eq & H1 & _)]; [contradiction|]. injection Eq as <- <-.
      rewrite (fid_lay _ _ _ _ Hll), H1. symmetry. apply (Hrf q FDif); [left|apply seen_dif].
  - apply (link_step s s' rest); [intros p f Hp; unfold fid; rewrite (Hpl p Hp); reflexivity|intros p a Hp; apply (rest_field p FDif Hp seen_dif)|exact (xa_link _ _ _ _ A)].
Qed.
Lemma cons_top : top s' (c :: rest).
Proof using All.
  pose proof Llay as Hll. unfold top. destruct dif_split as [[Hns (d & x & H1 & H2 & H3 & _)]|(El & q & r0 & Er & H1 & H2 & H3)].
  - exists d, x. rewrite !(fid_lay _ _ _ _ Hll). split; [exact H1|]. split; [exact H2|]. rewrite (bp_out _ _ _ _ _ _ _ _ _ _ _ _ _ _ _ B). congruence.
  - pose proof (xa_top _ _ _ _ A) as Ht. assert (Esh : c_sh c = c_sh q). { rewrite Er in Hin. destruct Hin as (_ & _ & E). rewrite <- E. rewrite El in Hls. cbn [lay_shape] in Hls. clear - Hls. repeat (match type of Hls with context [match ?x with _ => _ end] => destruct x end); try discriminate; try congruence. }
    rewrite Er in Ht, Hin. destruct Ht as (d & x & G1 & G2 & G3). destruct Hin as (_ & Ho & _). exists d, x. rewrite !(fid_lay _ _ _ _ Hll), H1. split; [exact G1|]. rewrite Esh. split; [apply H3; [exact G2|congruence]|].
    rewrite (bp_out _ _ _ _ _ _ _ _ _ _ _ _ _ _ _ B). pose proof (lookup_lt_Some _ _ _ G2). intros E. injection E as ->. lia.
Qed.
Lemma own_mem r : lref L1 = Some r -> mem (ts s) !! r = Some (count 1).
Proof using All.
  intros Hr. destruct (fi_open _ _ _ _ _ _ _ F i HiU HiD) as (La & HLa & _ & Hm). assert (La = L1) as -> by congruence. rewrite (Hm r Hr). apply Hcnt. exact Hr.
Qed.
Lemma cons_refs : refsok s' 0 (c :: rest).
Proof using All.
  pose proof Llay as Hll. pose proof Hpi as Hpi'. pose proof own_mem as Hom. pose proof flat_c as Hfc.
  assert (Hrc : forall p r, p ∈ rest -> refc s (c_i p) = Some r -> refc s' (c_i p) = Some r) by (intros p r Hp; unfold refc; rewrite (Hpl p Hp); auto).
  pose proof (ax_ref _ _ _ _ _ _ _ _ _ _ _ _ _ X) as Hx. unfold aux_ref in Hx. pose proof (xa_refs _ _ _ _ A) as Hrs.
  assert (Y : l <> SFlat -> lref L' = lref L2 /\ (forall a w, mem (ts s2) !! a = Some w -> mem (ts s') !! a = Some w) -> refsok s' 0 (c :: rest)).
  { intros Hnf (G1 & G2). assert (Ef : flat c = false) by (destruct (flat c) eqn:Ef; [exfalso; apply Hnf; apply flat_c; exact Ef|reflexivity]).
    destruct (si_lay _ _ SI i L1 HiU HL1) as (_ & r & v & Hr & _). split.
    - exists r. cbn [rcell lead]. rewrite Ef. split; [rewrite HL1; exact Hr|]. split; [unfold refc; rewrite Hll; cbn [mbind option_bind]; congruence|]. apply G2. apply own_mem. exact Hr.
    - rewrite Ef. clear - Hrs Hrc G2. revert Hrs. generalize 0. induction rest as [|p r1 IH]; intros a Ha; [exact I|]. destruct Ha as [(r' & K1 & K2 & K3) Ha]. split; [exists r'; split; [exact K1|]; split; [apply Hrc; [left|exact K2]|apply G2; exact K3]|].
      apply IH; [|exact Ha]. intros p' r2 Hp'. apply Hrc. right. exact Hp'. }
  destruct l eqn:El; try (apply Y; [discriminate|exact Hx]).
  destruct Hx as (r & v & b & vr & (q' & Lq & P1 & P2 & P3) & G1 & G2 & G3 & G4 & G5 & G6).
  assert (Ef : flat c = true) by (apply Hfc; first [exact El|reflexivity]).
  destruct rest as [|q r0] eqn:Er; [exfalso; apply (proj2 (proj2 Hin)); reflexivity|]. destruct Hin as (Q1 & Q2 & Q3). assert (q' = c_i q) as -> by congruence.
  cbn [s2 lays] in P2. rewrite list_lookup_insert_ne in P2 by (intros E; apply (Hpi' q); [left|congruence]).
  destruct Hrs as [(r' & R1 & R2 & R3) Hrs]. assert (r' = r) as ->. { unfold refc in R2. rewrite P2 in R2. cbn [mbind option_bind] in R2. congruence. }
  assert (Evr : vr = count 1). { rewrite E2r in G3. pose proof (Hom b G3) as Hb. cbn [s2 ts] in G4. congruence. }
  assert (Ev : v = tally (0 + lead (q :: r0))) by (cbn [s2 ts] in G2; congruence). cbn [s2 ts] in G2, G6. split.
  - exists r. change (rcell (c :: q :: r0)) with (if flat c then rcell (q :: r0) else L ← lays s1 !! c_i c; lref L). change (lead (c :: q :: r0)) with (if flat c then S (lead (q :: r0)) else 0). rewrite Ef. split; [exact R1|].
    split; [unfold refc; rewrite Hll; exact G1|]. cbn [Nat.add tally]. rewrite G5, Ev, Evr. reflexivity.
  - rewrite Ef. eapply (refsok_bump s s' r); [exact Hnd|intros p Hp; apply (fi_DU _ _ _ _ _ _ _ F); apply HD; exact Hp|exact Hrc|exact G6| |exact R1|].
    + intros w Hw. assert (w = v) as -> by congruence. rewrite G5, Evr. reflexivity.
    + split; [exists r; auto|exact Hrs].
Qed.
(** *** Running *)
Lemma run_split m m' : exec (ctx (ts s')) m = Some m' -> exists m1, exec (ctx (ts s)) m = Some m1 /\ exec new m1 = Some m'.
Proof using All.
  destruct (bp_t0 _ _ _ _ _ _ _ _ _ _ _ _ _ _ _ B) as (_ & Tc & _). rewrite (sg_ctx _ _ _ _ _ (bp_seg _ _ _ _ _ _ _ _ _ _ _ _ _ _ _ B)), Tc, exec_app. cbn [s2 ts]. intros E. apply bind_Some in E. exact E.
Qed.
Lemma rest_out p : p ∈ rest -> exists t np, fid s (c_i p) FOutput = Some t /\ tens (ts s) !! t = Some np /\ outnode s (c_i p) = Some np.
Proof using All.
  intros Hp. destruct (fi_done _ _ _ _ _ _ _ F (c_i p) (HD p Hp)) as (La & L & np & d & sh & e & _ & HL & _ & _ & _ & _ & _ & _ & Ho & _). pose proof Ho as Ho'. unfold FwdChain.outnode in Ho. rewrite HL in Ho. cbn [mbind option_bind] in Ho.
  apply bind_Some in Ho as (t & Ht & Ho). exists t, np. split; [rewrite (fid_lay _ _ _ _ HL); exact Ht|auto].
Qed.
Section Run.
Variables (m m1 m' : list T).
Hypothesis Hm : length (mem (ts s')) <= length m.
Hypothesis HC : consts C' m.
Hypothesis E1 : exec (ctx (ts s)) m = Some m1.
Hypothesis E2 : exec new m1 = Some m'.
Lemma lm1 : length m1 = length m.
Proof using All. exact (exec_length _ _ _ E1). Qed.
Lemma HCo : consts C m.
Proof using All. unfold consts in *. rewrite EC in HC. apply Forall_app in HC. apply HC. Qed.
Lemma out_own p np a : p ∈ rest -> outnode s (c_i p) = Some np -> own U s1 i a -> Some a ∉ operands (nmat np).
Proof using All. intros Hp Hnp Ha. eapply (nodep U s1 SI rnd D C W s i a m m1 (c_i p)); try eassumption; [pose proof lens; lia|exact HCo|apply HD; exact Hp]. Qed.
Lemma in_own t nt a : inten U s1 t -> tens (ts s) !! t = Some nt -> own U s1 i a -> Some a ∉ operands (nmat nt).
Proof using All.
  intros Ht Hnt Ha. destruct (si_ten _ _ SI t Ht) as (n1 & Hn1 & Hs1 & _). destruct (fi_keep _ _ _ _ _ _ _ F _ _ Hn1) as (n2 & Hn2 & _ & _ & E). assert (n2 = nt) as -> by congruence. destruct (E Hs1) as (_ & _ & E3). rewrite E3.
  eapply (si_sep _ _ SI); eassumption.
Qed.
Lemma keep_low a : a < N0 -> ~ own U s1 i a -> m' !! a = m1 !! a.
Proof using All.
  intros Ha Ho. eapply (sg_frame _ _ _ _ _ (bp_seg _ _ _ _ _ _ _ _ _ _ _ _ _ _ _ B)); [|exact E2|]; [rewrite lm1; exact Hm|]. intros Hw. destruct (Wn_hi a Hw) as [Hx|Hx]; [lia|]. apply Ho, HO. exact Hx.
Qed.
Lemma rest_in_own p a : p ∈ rest -> cells s (c_i p) FInput a -> ~ own U s1 i a.
Proof using All.
  intros Hp Ha Ho. destruct (link_in s rest p (xa_link _ _ _ _ A) Hp) as (t & Ht & [(t' & -> & Hi)|(q & Hq & Hfo)]).
  - destruct (in_node U s1 SI rnd D C W s t' F Hi) as (nt & Hnt & _). rewrite (cells_node _ _ _ _ _ _ Ht Hnt) in Ha. exact (in_own t' nt a Hi Hnt Ho Ha).
  - destruct (rest_out q Hq) as (t' & np & G1 & G2 & G3). assert (t = Some t') as -> by congruence. rewrite (cells_node _ _ _ _ _ _ Ht G2) in Ha. exact (out_own q np a Hq G3 Ho Ha).
Qed.
Lemma own_lo a : own U s1 i a -> a < A0.
Proof using All. apply (own_lt U s1 SI). Qed.
Lemma inp_own a : Some a ∈ operands (nmat n) -> ~ own U s1 i a.
Proof using All.
  intros Ha Ho. pose proof in_own as Hio. pose proof out_own as Hoo. pose proof rest_out as Hro. destruct rest as [|q r0].
  - exact (Hio inp n a (proj1 Hin) Hn Ho Ha).
  - destruct Hin as (_ & Hfo & _). destruct (Hro q ltac:(left)) as (t' & np & G1 & G2 & G3). assert (t' = inp) as -> by congruence. assert (np = n) as -> by congruence. exact (Hoo q n a ltac:(left) G3 Ho Ha).
Qed.
Lemma rest_sums p : p ∈ rest -> sums s m m1 p -> sums s' m m' p.
Proof using All.
  intros Hp Hs vx Hvx. pose proof (xa_lay _ _ _ _ A p Hp) as Lp. pose proof A0N as HA.
  assert (KI : fval s (c_i p) FInput m' = fval s (c_i p) FInput m1).
  { apply fval_off. intros a Ha. apply keep_low; [eapply laux_lt; [exact Lp| |exact Ha]; right; unfold readf; auto|]. eapply rest_in_own; eassumption. }
  assert (KN : fval s (c_i p) FNeta m' = fval s (c_i p) FNeta m1).
  { apply fval_off. intros a Ha. apply keep_low; [eapply laux_lt; [exact Lp| |exact Ha]; right; unfold readf; auto|]. destruct (la_high _ _ _ _ Lp a Ha) as [Hx|Hx]; [intros Ho; apply own_lo in Ho; lia|]. eapply rest_in_own; eassumption. }
  rewrite (proj2 (proj2 (rest_field p FInput Hp ltac:(right; unfold readf; auto)))), KI in Hvx. destruct (Hs vx Hvx) as [H1 H2]. split.
  - intros Hb. rewrite (proj2 (proj2 (rest_field p FNeta Hp ltac:(right; unfold readf; auto)))), KN. rewrite (H1 Hb). destruct (c_l p); [|reflexivity]. f_equal. rewrite !net_par_fval.
    rewrite (proj2 (proj2 (rest_field p FBias Hp ltac:(right; unfold readf; auto)))), (proj2 (proj2 (rest_field p FWeights Hp ltac:(right; unfold readf; auto)))). reflexivity.
  - intros x y Hxy. rewrite <- (H2 x y Hxy). unfold maxv, maxc. rewrite (Hpl p Hp). pose proof (la_max _ _ _ _ Lp) as Hmx. rewrite Hxy in Hmx. destruct Hmx as (k & Hk & Hr). unfold maxc in Hk. rewrite Hk. cbn [mbind option_bind].
    apply keep_low; [lia|]. intros Ho. apply own_lo in Ho. lia.
Qed.
Lemma c_sums : sums s' m m' c.
Proof using All.
  intros vx Hvx. pose proof lens as Hlen. destruct fin_node as (n' & Hn' & _ & _ & Eo & Es). rewrite (fval_node _ _ _ _ _ _ fin' Hn'), (mval_kept n n' m' Es Eo) in Hvx.
  assert (Hv1 : mval m1 (nmat n) = Some vx). { rewrite <- Hvx. symmetry. apply mval_off. intros a Ha. apply keep_low; [exact (wf_lt _ _ _ Hwf Ha)|]. apply inp_own. exact Ha. }
  assert (HCn : consts Cn m1).
  { unfold consts. apply Forall_forall. intros x Hx. assert (Hx' : x ∈ C') by (rewrite EC; apply elem_of_app; auto). unfold consts in HC. rewrite Forall_forall in HC. rewrite <- (HC x Hx').
    pose proof (fi_C _ _ _ _ _ _ _ F') as Hc. rewrite Forall_forall in Hc. destruct (Hc x Hx') as (_ & _ & Hw). eapply (fi_frame _ _ _ _ _ _ _ F); [|exact E1|]; [lia|]. intros Hww. apply Hw. rewrite EW. auto. }
  assert (Hx1 : forall a, O a -> Some a ∉ operands (nmat n)) by (intros a Ha Hx; exact (inp_own a Hx (HO a Ha))).
  split.
  - unfold base. rewrite Hcl. intros Hb. pose proof (ax_neta _ _ _ _ _ _ _ _ _ _ _ _ _ X) as Hx. unfold aux_neta in Hx. rewrite Hb in Hx. destruct Hx as (t & nn & H1 & H2 & _ & _ & _ & _ & H7).
    rewrite (fval_node s' i FNeta t nn m') by (first [exact H2|rewrite (fid_lay _ _ _ _ Llay); exact H1]). rewrite (H7 m1 m' vx); [|rewrite lm1; exact Hm|exact HCn|exact Hx1|exact Hv1|exact E2].
    f_equal. unfold net_par. rewrite Llay. cbn [mbind option_bind]. destruct (has_par_shape l _ _ Hb Hls) as (bs & ws & Hps).
    destruct (bp_par _ _ _ _ _ _ _ _ _ _ _ _ _ _ _ B (drawn rnd bs) (drawn rnd ws)) as [Hpb Hpw]; [unfold par_init; rewrite Hps; reflexivity|].
    eapply off_params; [exact Hpb|exact Hpw|]. cbn [s2 ts]. intros a Ha. eapply (fi_frame _ _ _ _ _ _ _ F); [|exact E1|]; [lia|]. intros Hw. destruct (fi_W _ _ _ _ _ _ _ F a Hw) as [Hlt _]. lia.
  - intros x y Hxy. assert (l = SNorm x y) as El by congruence. pose proof (ax_max _ _ _ _ _ _ _ _ _ _ _ _ _ X) as Hx. unfold aux_max in Hx. rewrite El in Hx. destruct Hx as (k & Hk & Hr & H7). unfold maxv, maxc. rewrite Llay. cbn [mbind option_bind].
    rewrite Hk. cbn [mbind option_bind]. apply (H7 m1 m' vx); [rewrite lm1; exact Hm|exact HCn|exact Hv1|exact E2].
Qed.
End Run.
Lemma cons_all : aux C' W' s' (c :: rest).
Proof using All.
  split.
  - intros p Hp. apply elem_of_cons in Hp as [->|Hp]; [exact c_aux|apply rest_aux; exact Hp].
  - exact cons_apart.
  - exact cons_link.
  - exact cons_top.
  - intros m m' p Hp Hm HC Hx. destruct (run_split m m' Hx) as (m1 & E1 & E2). apply elem_of_cons in Hp as [->|Hp]; [eapply c_sums; eassumption|].
    eapply (rest_sums m m1); try eassumption. apply (xa_sums _ _ _ _ A); [exact Hp|pose proof lens; lia|eapply HCo; eassumption|exact E1].
  - exact cons_refs.
Qed.
End Open.
Lemma aux_cons : aux C' W' s' (c :: rest).
Proof using All.
  destruct HM as (O & t0 & L' & new & Cn & Wn & to_ & no_ & EC & EW & HO & B & X). eapply (cons_all O t0 L' new Cn Wn to_ no_); try eassumption. unfold body_rest in X. destruct l; try exact X. exfalso. eapply Hsub. reflexivity.
Qed.
End Cons.

(** ** An input layer *)
Lemma aux_in D C W s s' c L1 Lf L3 t n t1 :
  finv D C W s -> lays s1 !! c_i c = Some L1 -> c_i c ∈ U -> c_i c ∉ D -> c_l c = None -> virgin L1 -> (forall r, lref L1 = Some r -> mem (ts s1) !! r = Some (count 1)) ->
  lref Lf = lref L1 -> lmaxs Lf = lmaxs L1 -> (forall f, lten Lf f = lten L1 f) -> nopar L1 -> inten U s1 t -> lten L1 FInput = Some t -> tens (ts s) !! t = Some n -> shape (nmat n) = c_sh c ->
  mem t1 = mem (ts s) ++ zeros (N.to_nat (prodN (c_sh c))) -> tens t1 = tens (ts s) ++ [MkNode KMat (blkm (c_sh c) (length (mem (ts s))) false)] ->
  ctx t1 = ctx (ts s) ->
  L3 = set_ten FDif (Some (length (tens (ts s)))) (set_ten FOutput (Some t) (set_ten FNeta (Some t) Lf)) -> s' = MkL t1 (<[c_i c := L3]> (lays s)) (rc s) ->
  c_i c < length (lays s) -> aux (C ++ []) (fun a => W a \/ nowhere a) s' [c].
Proof using SI.
  intros F HL1 HiU HiD Hcl Hvg Hcnt Er Em Et Hnp Hin Hti Hn Hsh Hmem Hten Hctx -> -> HiL. set (L3 := set_ten FDif _ _). set (s' := MkL _ _ _).
  destruct (in_node U s1 SI rnd D C W s t F Hin) as (n' & Hn' & Hset & Hwf & _). assert (n' = n) as -> by congruence. clear Hn'.
  assert (HLL : lays s' !! c_i c = Some L3) by (apply list_lookup_insert; exact HiL).
  assert (Ff : forall f, fid s' (c_i c) f = match f with FDif => Some (length (tens (ts s))) | FOutput | FNeta => Some t | f => lten L1 f end).
  { intros f. rewrite (fid_lay _ _ _ _ HLL). destruct f; cbn; try reflexivity; apply Et. }
  assert (Hnt : tens (ts s') !! t = Some n) by (cbn [s' ts]; rewrite Hten; apply lookup_app_l_Some; exact Hn).
  assert (Hd : tens (ts s') !! length (tens (ts s)) = Some (MkNode KMat (blkm (c_sh c) (length (mem (ts s))) false))) by (cbn [s' ts]; rewrite Hten; apply list_lookup_middle; reflexivity).
  assert (Hlen : length (mem (ts s')) = length (mem (ts s)) + bsize c) by (cbn [s' ts]; rewrite Hmem, app_length; unfold zeros; rewrite replicate_length; reflexivity).
  assert (Hwf' : wf_mat (length (mem (ts s'))) (nmat n)) by (eapply wf_mat_mono; [exact Hwf|lia]).
  assert (Hfit : fits (c_sh c)) by (rewrite <- Hsh; apply Hwf).
  pose proof (fi_len _ _ _ _ _ _ _ F) as HA0.
  assert (HFI : fid s' (c_i c) FInput = Some t) by (rewrite Ff; exact Hti).
  assert (Hrd : forall f a, readf f -> cells s' (c_i c) f a -> a < length (mem (ts s))).
  { intros f a Hf Ha. destruct Hf as [->|[->|[->|[->| ->]]]].
    - rewrite (cells_node _ _ _ _ _ _ HFI Hnt) in Ha. exact (wf_lt _ _ _ Hwf Ha).
    - rewrite (cells_node s' (c_i c) FOutput t n a (Ff _) Hnt) in Ha. exact (wf_lt _ _ _ Hwf Ha).
    - rewrite (cells_node s' (c_i c) FNeta t n a (Ff _) Hnt) in Ha. exact (wf_lt _ _ _ Hwf Ha).
    - exfalso. eapply cells_none; [|exact Ha]. rewrite Ff. apply Hnp.
    - exfalso. eapply cells_none; [|exact Ha]. rewrite Ff. apply Hnp. }
  assert (Hdc : forall a, cells s' (c_i c) FDif a -> length (mem (ts s)) <= a < length (mem (ts s)) + bsize c).
  { intros a Ha. rewrite (cells_node s' (c_i c) FDif _ _ a (Ff _) Hd) in Ha. cbn [nmat] in Ha. apply blk_ops in Ha. exact Ha. }
  assert (HM0 : maxc s' (c_i c) = None) by (unfold maxc; rewrite HLL; cbn; rewrite Em; apply (vg_max _ Hvg)).
  assert (HB : base c = true) by (unfold base; rewrite Hcl; reflexivity).
  split.
  - intros p Hp. apply elem_of_list_singleton in Hp as ->. split.
    + exists (length (tens (ts s))), (length (mem (ts s))), false. split; [apply Ff|]. split; [exact Hd|]. split; [exact HA0|]. split; [lia|]. intros a Ha. split.
      * intros [Hw|[]]. destruct (fi_W _ _ _ _ _ _ _ F a Hw). lia.
      * rewrite app_nil_r. intros Hc. apply elem_of_list_fmap in Hc as (x & -> & Hx). pose proof (fi_C _ _ _ _ _ _ _ F) as Hc. rewrite Forall_forall in Hc. destruct (Hc _ Hx) as (_ & E & _). apply lookup_lt_Some in E. lia.
    + intros f u Hf Hu. destruct Hf as [->|[->|[->|[->|[->| ->]]]]].
      * rewrite Ff in Hu. injection Hu as <-. eexists. split; [exact Hd|]. split; [apply settled_mat|]. cbn [nmat]. rewrite Hlen. apply wf_blk. exact Hfit.
      * assert (u = t) as -> by congruence. eauto.
      * rewrite Ff in Hu. injection Hu as <-. eauto.
      * rewrite Ff in Hu. injection Hu as <-. eauto.
      * rewrite Ff in Hu. destruct Hnp. congruence.
      * rewrite Ff in Hu. destruct Hnp. congruence.
    + rewrite HB. exists t, n. split; [apply Ff|auto].
    + intros a Ha. right. rewrite (cells_node s' (c_i c) FNeta t n a (Ff _) Hnt) in Ha. rewrite (cells_node _ _ _ _ _ _ HFI Hnt). exact Ha.
    + rewrite Hcl. exact HM0.
    + intros g G1 G2 G3 G4 G5 G6. rewrite Ff. destruct g; try contradiction; apply (vg_ten _ Hvg); assumption.
    + intros _. rewrite !Ff. exact Hnp.
  - intros p q a Hp Hq Ha. apply elem_of_list_singleton in Hp as ->. apply elem_of_list_singleton in Hq as ->. apply Hdc in Ha. split; [|rewrite HM0; discriminate].
    intros f Hf Hx. apply (Hrd f a Hf) in Hx. lia.
  - split; [|exact I]. exists t. split; [exact HFI|]. split; [exact Hin|]. rewrite Hcl. discriminate.
  - exists (length (tens (ts s))), (length (mem (ts s))). split; [apply Ff|]. split; [exact Hd|]. rewrite Ff. apply lookup_lt_Some in Hn. intros E. injection E as E. lia.
  - intros m m' p Hp Hm HC Hx. apply elem_of_list_singleton in Hp as ->. intros vx Hvx. split; [|intros a b E; rewrite Hcl in E; discriminate]. intros _. rewrite Hcl. rewrite (fval_node s' (c_i c) FNeta t n m' (Ff _) Hnt). rewrite (fval_node _ _ _ _ _ _ HFI Hnt) in Hvx. exact Hvx.
  - destruct (si_lay _ _ SI (c_i c) L1 HiU HL1) as (_ & r & v & Hr & _). assert (Efl : flat c = false) by (unfold flat; rewrite Hcl; reflexivity). split; [|exact I]. exists r. cbn [rcell lead]. rewrite Efl.
    split; [rewrite HL1; exact Hr|]. split; [unfold refc; rewrite HLL; cbn; congruence|].
    destruct (fi_open _ _ _ _ _ _ _ F (c_i c) HiU HiD) as (La & HLa & _ & Hm). assert (La = L1) as -> by congruence. specialize (Hm r Hr). rewrite (Hcnt r Hr) in Hm. cbn [s' ts]. rewrite Hmem. apply lookup_app_l_Some. exact Hm.
Qed.

(** ** A chain of layers before it is built *)
Fixpoint lined cs (e : net T) : Prop :=
  match cs with
  | [] => False
  | c :: rest =>
      exists L, lays s1 !! c_i c = Some L /\ c_i c ∈ U /\ virgin L /\ (forall r, lref L = Some r -> mem (ts s1) !! r = Some (count 1)) /\
      match rest with
      | [] => exists t, lpre L = None /\ lten L FInput = Some t /\
          match c_l c with
          | None => lkind_of L = LInput /\ e = NIn t /\ insh s1 t = Some (c_sh c)
          | Some l => lkind_of L = LDense /\ lspec_of (tens (ts s1)) L = Some l /\ e = NLay l (c_i c) (NIn t) /\ exists sh0, insh s1 t = Some sh0 /\ lay_shape l sh0 = Some (c_sh c)
          end
      | q :: _ => exists l e0, c_l c = Some l /\ (forall a b d, l <> SSub a b d) /\ lspec_of (tens (ts s1)) L = Some l /\ lpre L = Some (c_i q) /\ e = NLay l (c_i c) e0 /\
          lay_shape l (c_sh q) = Some (c_sh c) /\ lined rest e0
      end
  end.
Lemma lined_stands : forall cs c rest e, cs = c :: rest -> lined cs e -> stands s1 (c_i c) e /\ nshape (insh s1) e = Some (c_sh c).
Proof using SI.
  induction cs as [|c0 cs IH]; intros c rest e E Hl; [discriminate|]. injection E as -> ->. destruct Hl as (L & HL & HiU & _ & _ & Hl). destruct rest as [|q r0].
  - destruct Hl as (t & Hp & Ht & Hl).
    assert (Hin : lkind_of L = LInput \/ lkind_of L = LDense -> inten U s1 t) by (intros Hk; exists (c_i c), L; auto 10).
    assert (Hfit : lkind_of L = LInput \/ lkind_of L = LDense -> forall sh, insh s1 t = Some sh -> fits sh).
    { intros Hk sh Hs. destruct (si_ten _ _ SI t (Hin Hk)) as (n & Hn & _ & Hwf). unfold insh in Hs. rewrite Hn in Hs. injection Hs as <-. apply Hwf. }
    destruct (c_l c) as [l|].
    + destruct Hl as (Hk & Hls & -> & sh0 & Hsh & Hlsh). split; [eapply st_src; eassumption|]. cbn [nshape]. rewrite Hsh. cbn [mbind option_bind]. rewrite (proj2 (fit_Some sh0 sh0) (conj eq_refl (Hfit (or_intror Hk) _ Hsh))). exact Hlsh.
    + destruct Hl as (Hk & -> & Hsh). split; [econstructor; eassumption|]. cbn [nshape]. rewrite Hsh. cbn [mbind option_bind]. apply fit_Some. split; [reflexivity|]. apply Hfit; auto.
  - destruct Hl as (l & e0 & Hc & _ & Hls & Hp & -> & Hsh & Hl). destruct (IH q r0 e0 eq_refl Hl) as [H1 H2]. split; [eapply st_lay; eassumption|]. cbn [nshape]. rewrite H2. exact Hsh.
Qed.

Lemma lspec_dense tn (L : layer T) l : lkind_of L = LDense -> lspec_of tn L = Some l -> exists o f, l = SDense o f.
Proof using Type.
  intros Hk E. unfold lspec_of in E. rewrite Hk in E. apply bind_Some in E as (a & _ & E). apply bind_Some in E as (t & _ & E). apply bind_Some in E as (n & _ & E). destruct (shape (nmat n)) as [|o [|]]; try discriminate. injection E as <-. eauto.
Qed.

Theorem build_chain : forall cs c rest e fuel D C W s, cs = c :: rest -> lined cs e -> NoDup (map c_i cs) -> need e <= fuel -> finv D C W s ->
  (forall p, p ∈ cs -> c_i p ∉ D /\ lays s !! c_i p = lays s1 !! c_i p) ->
  exists s' C' W', LBuildFF rnd fuel (c_i c) s = (Ok tt, s') /\ finv (map c_i cs ++ D) C' W' s' /\ (forall j, j ∉ map c_i cs -> lays s' !! j = lays s !! j) /\ aux C' W' s' cs.
Proof using SI.
  induction cs as [|c0 cs IH]; intros c rest e fuel D C W s E Hl Hnd Hf F Hfr; [discriminate|]. injection E as -> ->.
  destruct (lined_stands (c :: rest) c rest e eq_refl Hl) as [Hst Hsh]. destruct Hl as (L & HL & HiU & Hvg & Hcnt & Hl).
  set (i := c_i c) in *. destruct (Hfr c ltac:(left)) as [HiD HLs]. fold i in HiD, HLs. rewrite HL in HLs.
  destruct fuel as [|fuel]; [exfalso; destruct e; cbn [need] in Hf; lia|]. cbn [LBuildFF].
  destruct (si_lay _ _ SI i L HiU HL) as (Hfl & r & v & Hr & Hrlt & Hv & Hnz).
  destruct (fi_open _ _ _ _ _ _ _ F i HiU HiD) as (L1 & HL1 & _ & Hrv). assert (L1 = L) as -> by congruence. specialize (Hrv r Hr). rewrite Hv in Hrv.
  set (Lf := set_flag BFF true L). set (sa := MkL (ts s) (<[i := Lf]> (lays s)) (rc s)).
  pose proof (finv_flag U s1 SI rnd D C W s i L sa F HiU HiD HL HLs eq_refl) as Fa.
  assert (HiL : i < length (lays s)) by (eapply lookup_lt_Some; exact HLs).
  assert (HLa : lays sa !! i = Some Lf) by (apply list_lookup_insert; exact HiL).
  assert (Hna : forall j, j <> i -> lays sa !! j = lays s !! j) by (intros j Hj; apply list_lookup_insert_ne; congruence).
  assert (ECk : CheckOnce BFF i s = (Ok false, sa)).
  { unfold CheckOnce; erewrite mbnd_ok by (apply getL_ok; exact HLs); rewrite Hfl, Hr;
        erewrite mbnd_ok by (apply liftT_ok; apply rdM_at; exact Hrv); rewrite Hnz; cbn [ts lays rc];
        erewrite mbnd_ok by (apply updL_ok; exact HLs); destruct s; reflexivity. }
  rewrite (mbnd_ok _ _ _ _ _ ECk); cbv beta iota; erewrite mbnd_ok by (apply getL_ok; exact HLa); cbn [Lf set_flag lkind_of lpre lten].
  pose proof (si_nopar _ _ SI i L HiU HL) as Hnop.
  destruct rest as [|q r0].
  - destruct Hl as (t & Hp & Ht & Hl). destruct (c_l c) as [l|] eqn:Hcl.
    + (* dense with its own input *)
      destruct Hl as (Hk & Hls & -> & sh0 & Hsh0 & Hlsh). rewrite Hk, Hp. assert (Hin : inten U s1 t) by (exists i, L; auto 10).
      destruct (in_node U s1 SI rnd D C W sa t Fa Hin) as (n & Hn & Hset & Hwf & Hish). erewrite mbnd_ok by reflexivity. assert (shape (nmat n) = sh0) as Esh by congruence.
      edestruct (ff_one U s1 SI rnd D C W sa i L Lf l (NIn t) (c_sh c) t n sa) as (s' & C' & W' & E & Fi & Hoff & HM); try eassumption; try reflexivity.
      * intros c1 (L0 & HL0 & Hc). assert (L0 = L) as -> by congruence. destruct Hc as [Hc|(? & ? & ? & Hc & _)]; congruence.
      * cbn [sa ts lays rc]. rewrite list_insert_insert. reflexivity.
      * intros f Hnf. destruct f; try reflexivity. contradiction.
      * cbn [nshape]. rewrite Hish. apply fit_Some. split; [reflexivity|apply Hwf].
      * left. exact Hk.
      * intros s' m m' K0 Hm Hx _. destruct (in_val U s1 SI rnd D C W sa t n m m' Fa Hin Hn Hm Hx) as (_ & _ & E). unfold nv. cbn [nval]. unfold net_in.
        rewrite (kept_tval _ _ m _ _ K0 Hn Hset). unfold FwdBody.tval. cbn [mbind option_bind]. rewrite Hn. cbn [mbind option_bind]. destruct (mval_total _ m _ Hwf Hm) as [w Hw]. rewrite E, Hw. split; [discriminate|reflexivity].
      * intros a Ho _. destruct (si_ten _ _ SI t Hin) as (n1 & Hn1 & Hset1 & _). destruct (fi_keep _ _ _ _ _ _ _ Fa _ _ Hn1) as (n' & Hn' & _ & _ & E). assert (n' = n) as -> by congruence.
        destruct (E Hset1) as (_ & _ & E3). rewrite E3. eapply (si_sep _ _ SI); eassumption.
      * exists s', C', W'. split; [exact E|]. split; [exact Fi|]. split; [intros j Hj; rewrite Hoff, Hna; [reflexivity| |]; intros ->; apply Hj; left|].
        assert (Es2 : sa = MkL (ts sa) (<[i := Lf]> (lays sa)) (rc sa)) by (cbn [sa ts lays rc]; rewrite list_insert_insert; reflexivity). rewrite Es2 in HM.
        eapply (aux_cons D C W sa C' W' s' c [] l L Lf t n); try eassumption; try reflexivity; fold i; try assumption.
        -- intros p Hp'. apply not_elem_of_nil in Hp'. contradiction.
        -- constructor.
        -- apply aux_nil.
        -- intros a b d ->. destruct (lspec_dense _ _ _ Hk Hls) as (? & ? & ?). discriminate.
        -- rewrite Esh. exact Hlsh.
        -- split; [exact Hin|]. destruct (lspec_dense _ _ _ Hk Hls) as (? & ? & ->). split; discriminate.
    + (* input *)
      destruct Hl as (Hk & -> & Hish0). rewrite Hk, Hp, Ht. assert (Hin : inten U s1 t) by (exists i, L; auto 10).
      destruct (in_node U s1 SI rnd D C W sa t Fa Hin) as (n & Hn & Hset & Hwf & Hish). assert (Hshn : shape (nmat n) = c_sh c) by congruence.
      assert (Hfit : fits (c_sh c)) by (rewrite <- Hshn; apply Hwf).
      destruct (seg_zeros (ts sa) (c_sh c) Hfit) as (t1 & E1 & S1 & Em & Et).
      set (L2 := set_ten FOutput (Some t) (set_ten FNeta (Some t) Lf)).
      set (L3 := set_ten FDif (Some (length (tens (ts s)))) L2).
      set (s' := MkL t1 (<[i := L3]> (lays s)) (rc s)).
      assert (B : FwdBody.body_post nowhere sa s' i Lf (fun _ m r => r = mval m (nmat n)) None (c_sh c) (ts sa) L3 [] [] nowhere t n).
      { split.
        - apply touched_refl.
        - cbn [s' sa lays]. rewrite list_insert_insert. reflexivity.
        - repeat split.
        - left. reflexivity.
        - exact S1.
        - intros ? [].
        - reflexivity.
        - eexists. reflexivity.
        - cbn [s' ts]. rewrite Et. apply lookup_app_l_Some. exact Hn.
        - exact Hset.
        - eapply wf_mat_mono; [exact Hwf|]. cbn [s' ts]. rewrite Em, app_length. lia.
        - exact Hshn.
        - discriminate.
        - intros m r1 Hm _ ->. cbn [s' ts] in Hm. destruct (mval_total _ m _ Hwf) as [w Hw]; [rewrite Em, app_length in Hm; lia|]. rewrite Hw. exists m. split; [reflexivity|exact Hw]. }
      assert (Hfi : finv (i :: D) (C ++ []) (fun a => W a \/ nowhere a) s').
      { assert (Hch : forall (c1 : nat), child s1 i c1 -> c1 ∈ D).
        { intros c1 (L0 & HL0 & Hc). assert (L0 = L) as -> by congruence. destruct Hc as [Hc|(? & ? & ? & Hc & _)]; congruence. }
        eapply (step U s1 SI rnd D C W sa i L Lf (NIn t) (c_sh c) sa nowhere s'); try eassumption; try reflexivity.
        - cbn [sa lays]. rewrite list_insert_insert. reflexivity.
        - split; reflexivity.
        - intros Hc. contradiction.
        - intros f Hnf. destruct f; try reflexivity. contradiction.
        - intros l Hl _. exfalso. apply (proj1 (lspec_kind _ _ _ Hl)). exact Hk.
        - intros a [].
        - intros m m' Hm Hx _ _ _ _. destruct (in_val U s1 SI rnd D C W sa t n m m' Fa Hin Hn) as (_ & _ & E); [|exact Hx|].
          { cbn [s' ts] in Hm. rewrite Em, app_length in Hm. lia. }
          rewrite E. unfold nv. cbn [nval]. unfold net_in, FwdBody.tval. cbn [mbind option_bind s' ts]. rewrite Et. rewrite (lookup_app_l_Some _ _ _ _ Hn). reflexivity. }
      exists s', (C ++ []), (fun a => W a \/ nowhere a). split; [|split; [exact Hfi|split]].
      * erewrite mbnd_ok by (apply updL_ok; exact HLa). erewrite mbnd_ok by (apply updL_ok; cbn [lays]; apply list_lookup_insert; cbn [sa lays]; rewrite insert_length; exact HiL).
        erewrite mbnd_ok by reflexivity. erewrite mbnd_ok by (apply shapeT_ok; cbn [ts]; exact Hn). rewrite Hshn.
        erewrite mbnd_ok by (apply liftT_ok; cbn [ts]; exact E1). unfold setF. erewrite updL_ok; [|cbn [lays]; apply list_lookup_insert; rewrite insert_length; cbn [sa lays]; rewrite insert_length; exact HiL].
        cbn [ts lays rc sa]. rewrite !list_insert_insert. reflexivity.
      * intros j Hj. cbn [s' lays]. apply list_lookup_insert_ne. intros <-. apply Hj. left.
      * eapply (aux_in D C W sa s' c L Lf L3 t n t1); try eassumption; try reflexivity.
        -- pose proof (sg_ctx _ _ _ _ _ S1) as Hx. rewrite app_nil_r in Hx. exact Hx.
        -- cbn [s' sa lays rc]. fold i. rewrite list_insert_insert. reflexivity.
        -- cbn [sa lays]. rewrite insert_length. exact HiL.
  - (* on another layer *)
    destruct Hl as (l & e0 & Hcl & Hsub & Hls & Hp & -> & Hlsh & Hl). destruct (lspec_kind _ _ _ Hls) as [K1 K2].
    assert (Hci : child s1 i (c_i q)) by (exists L; auto). destruct (lined_stands (q :: r0) q r0 e0 eq_refl Hl) as [Hsq Hshq].
    cbn [map] in Hnd. apply NoDup_cons in Hnd as [Hni Hnd]. fold i in Hni.
    destruct (IH q r0 e0 fuel D C W sa eq_refl Hl Hnd ltac:(cbn [need] in Hf; lia) Fa) as (s3 & C3 & W3 & E3 & F3 & P4 & A3).
    { intros p Hp'. destruct (Hfr p ltac:(right; exact Hp')) as [H1 H2]. split; [exact H1|]. rewrite Hna; [exact H2|]. intros E. apply Hni. rewrite <- E. change (c_i q :: map c_i r0) with (map c_i (q :: r0)). apply elem_of_list_fmap_1. exact Hp'. }
    set (D3 := map c_i (q :: r0) ++ D) in *.
    assert (HiD3 : i ∉ D3). { intros Hx. apply elem_of_app in Hx as [Hx|Hx]; contradiction. }
    assert (P1 : c_i q ∈ D3) by (apply elem_of_app; left; left).
    assert (HL3 : lays s3 !! i = Some Lf) by (rewrite P4 by exact Hni; exact HLa).
    destruct (fi_done _ _ _ _ _ _ _ F3 (c_i q) P1) as (Lq1 & Lq & n & dq & shq & eq' & HLq1 & HLq & Q1 & Q2 & Q3 & Q4 & Q5 & Q6 & Q7 & Q8 & Q9 & Q10 & Q11 & (k & Lk & rq & Hk & HLk & Hrk & Hrq) & Q12). destruct Q11 as [Q11 _].
    pose proof (stands_inj _ _ _ Q5 _ Hsq) as ->. assert (shq = c_sh q) as -> by congruence.
    assert (Hinq : lkind_of Lq = LInput -> lpre Lq = None) by (intros Hkq; rewrite Q3; eapply stands_in; [exact Hsq|exact HLq1|congruence]).
    assert (Hqo : exists tq, lten Lq FOutput = Some tq /\ tens (ts s3) !! tq = Some n).
    { unfold outnode in Q7. rewrite HLq in Q7. cbn [mbind option_bind] in Q7. destruct (lten Lq FOutput) as [tq|]; [|discriminate]. exists tq. auto. }
    destruct Hqo as (tq & Hqo & Hnq).
    assert (Hqi : c_i q <> i). { intros E. apply Hni. rewrite <- E. left. }
    set (L2 := set_ten FInput (Some tq) Lf). set (s4 := MkL (ts s3) (<[i := L2]> (lays s3)) (rc s3)).
    assert (Estep : (LBuildFF rnd fuel (c_i q) ;~ o <~ GetOutputs (c_i q) ; updL i (set_ten FInput o)) sa = (Ok tt, s4)).
    { rewrite (mbnd_ok _ _ _ _ _ E3). erewrite mbnd_ok by (apply GetT_direct; [exact HLq|exact Hinq]). rewrite Hqo. apply updL_ok. exact HL3. }
    assert (Hrq3 : rq < length (mem (ts s3))).
    { destruct (si_lay _ _ SI k Lk (fi_DU _ _ _ _ _ _ _ F3 _ Hk) HLk) as (_ & r' & v' & Hr1 & Hlt & _). pose proof (fi_len _ _ _ _ _ _ _ F3). assert (r' = rq) as -> by congruence. lia. }
    destruct (lookup_lt_is_Some_2 _ _ Hrq3) as [vq Hvq].
    edestruct (ff_one U s1 SI rnd D3 C3 W3 s3 i L L2 l e0 (c_sh c) tq n s4) as (s' & C' & W' & E & Fi & Hoff & HM); try eassumption; try reflexivity.
    + intros c1 (L0 & HL0 & Hc). assert (L0 = L) as -> by congruence. destruct Hc as [Hc|(? & ? & ? & Hc & _)]; [|exfalso; eapply K2; exact Hc]. assert (c1 = c_i q) as -> by congruence. exact P1.
    + intros f Hnf. destruct f; try reflexivity. contradiction.
    + congruence.
    + rewrite Q10. exact Hshq.
    + right. exists (c_i q), Lq, dq, rq, vq. split; [|exact Hvq]. split; try assumption. cbn [s4 lays]. rewrite list_lookup_insert_ne by congruence. exact HLq.
    + intros s' m m' K0 Hm Hx Hdn. destruct (Hdn (c_i q) e0 P1 Hsq) as [G1 G2]. split; [exact G1|]. rewrite <- G2. unfold outv. rewrite Q7. reflexivity.
    + intros a _ Hj. exact (Hj (c_i q) n P1 Q7).
    + exists s', C', W'. split.
      { destruct (lkind_of L); try congruence; try (exfalso; eapply K2; reflexivity); rewrite Hp; rewrite (mbnd_ok _ _ _ _ _ Estep); exact E. }
      split; [exact Fi|]. split.
      * intros j Hj. cbn [map] in Hj. fold i in Hj. apply not_elem_of_cons in Hj as [Hj1 Hj2]. rewrite Hoff by exact Hj1. rewrite P4 by exact Hj2. apply Hna. exact Hj1.
      * eapply (aux_cons D3 C3 W3 s3 C' W' s' c (q :: r0) l L L2 tq n); try eassumption; try reflexivity; fold i; try assumption.
        -- intros p Hp'. apply elem_of_app. left. apply elem_of_list_fmap_1. exact Hp'.
        -- intros f Hff. destruct f; try reflexivity. contradiction.
        -- rewrite Q10. exact Hlsh.
        -- split; [exact Hp|]. split; [rewrite (fid_lay _ _ _ _ HLq); exact Hqo|exact Q10].
Qed.
End Site.
End TrnAux.
