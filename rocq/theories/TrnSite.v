(** * TrnSite: the state in which the training part of a chain is built *)
From Verif Require Import Base Num ModelTools ModelOps ModelTensor ModelGraph ModelLayer Spec Denote FwdSpec
  IndexProofs ExecProofs TensorFacts AccessProofs BuildProofs CompileProofs Agree FwdMask FwdBuild FwdSeg FwdOps FwdPool NetBuild NetChain FwdBody FwdExpr FwdConv FwdConv2 FwdAct
  BwdPost BwdLoop TrnSpec TrnTri.
From Coq Require Import Lia ZifyBool ZifyNat ZifyN.

Section TrnSite.
Context {T : Type} `{Num T}.
Implicit Types (s : lst T) (m : list T) (c q : clay T) (cs : list (clay T)).

(** ** Fields of layers *)
Definition fid s (i : nat) (f : tfield) : option nat := l ← lays s !! i; lten l f.
Definition fnode s i f : option (node T) := t ← fid s i f; tens (ts s) !! t.
Definition fval s i f m : option (vten T) := n ← fnode s i f; mval m (nmat n).
Definition cells s i f (a : nat) : Prop := exists n, fnode s i f = Some n /\ Some a ∈ operands (nmat n).
Definition ok s i f (sh : list N) : Prop := exists t n, fid s i f = Some t /\ node_ok (ts s) t n sh.
Definition refc s i : option nat := l ← lays s !! i; lref l.
Definition maxc s i : option nat := l ← lays s !! i; lmaxs l.
Definition refv s i m : option T := r ← refc s i; m !! r.
Definition maxv s i m : option T := r ← maxc s i; m !! r.
(** What a step of training reads in memory [m]. *)
Definition rdg s m : reading T :=
  MkRd (fun i => fval s i FInput m) (fun i => fval s i FNeta m) (fun i => fval s i FOutput m) (fun i => fval s i FBias m)
       (fun i => fval s i FWeights m) (fun i => maxv s i m) (fun i => refv s i m).

(** Layers and tensors that are only completed. *)
Definition lheld (l l' : layer T) : Prop :=
  lkind_of l' = lkind_of l /\ lact l' = lact l /\ lpre l' = lpre l /\ lref l' = lref l /\ lmaxs l' = lmaxs l /\
  forall f t, lten l f = Some t -> lten l' f = Some t.
Record held s s' : Prop := {
  hd_keep : keeps (ts s) (ts s');
  hd_len : length (mem (ts s)) <= length (mem (ts s'));
  hd_mem : forall a v, mem (ts s) !! a = Some v -> mem (ts s') !! a = Some v;
  hd_lay : forall i l, lays s !! i = Some l -> exists l', lays s' !! i = Some l' /\ lheld l l';
  hd_num : length (lays s') = length (lays s);
}.
Lemma lheld_refl l : lheld l l.
Proof using Type. repeat split; auto. Qed.
Lemma lheld_trans l1 l2 l3 : lheld l1 l2 -> lheld l2 l3 -> lheld l1 l3.
Proof using Type. intros (a1 & a2 & a3 & a4 & a5 & a6) (b1 & b2 & b3 & b4 & b5 & b6). repeat split; try congruence. auto. Qed.
Lemma held_refl s : held s s.
Proof using Type. split; auto using keeps_refl. intros i l Hl. exists l. split; [exact Hl|apply lheld_refl]. Qed.
Lemma held_trans s1 s2 s3 : held s1 s2 -> held s2 s3 -> held s1 s3.
Proof using Type.
  intros [a1 a2 a3 a4 a5] [b1 b2 b3 b4 b5]. split; [eapply keeps_trans; eassumption|lia|auto| |congruence].
  intros i l Hl. destruct (a4 _ _ Hl) as (l2 & H2 & L2). destruct (b4 _ _ H2) as (l3 & H3 & L3). exists l3. split; [exact H3|]. eapply lheld_trans; eassumption.
Qed.
(** Code that only touches tensors. *)
Lemma held_ts s t' W C P R : tri (ts s) t' W C P R -> held s (MkL t' (lays s) (rc s)).
Proof using Type.
  intros Ht. split; cbn [ts lays]; [eapply tri_keep; exact Ht|eapply tri_len; exact Ht|intros a v; eapply tri_mem; exact Ht| |reflexivity].
  intros i l Hl. exists l. split; [exact Hl|apply lheld_refl].
Qed.
Lemma held_set s i l l' : lays s !! i = Some l -> lheld l l' -> held s (MkL (ts s) (<[i := l']> (lays s)) (rc s)).
Proof using Type.
  intros Hi Hh. split; cbn [ts lays]; auto using keeps_refl; [|apply insert_length]. intros j lj Hj. destruct (decide (j = i)) as [->|Hne].
  - exists l'. rewrite list_lookup_insert by (eapply lookup_lt_Some; eassumption). split; [reflexivity|congruence].
  - exists lj. rewrite list_lookup_insert_ne by auto. split; [exact Hj|apply lheld_refl].
Qed.

Lemma fid_held s s' i f t : held s s' -> fid s i f = Some t -> fid s' i f = Some t.
Proof using Type.
  intros Hh Hf. unfold fid in *. apply bind_Some in Hf as (l & Hl & Ht). destruct (hd_lay _ _ Hh _ _ Hl) as (l' & Hl' & Hx). rewrite Hl'. cbn [mbind option_bind]. apply Hx. exact Ht.
Qed.
Lemma ok_held s s' i f sh : held s s' -> ok s i f sh ->
  ok s' i f sh /\ (forall a, cells s' i f a <-> cells s i f a) /\ forall m, fval s' i f m = fval s i f m.
Proof using Type.
  intros Hh (t & n & Hf & Hn). destruct (node_ok_keep _ _ _ _ _ Hn (hd_keep _ _ Hh) (hd_len _ _ Hh)) as (n' & Hn' & Ho & Hv).
  pose proof (fid_held _ _ _ _ _ Hh Hf) as Hf'. split; [exists t, n'; auto|].
  assert (E1 : fnode s i f = Some n) by (unfold fnode; rewrite Hf; apply Hn). assert (E2 : fnode s' i f = Some n') by (unfold fnode; rewrite Hf'; apply Hn').
  split.
  - intros a. unfold cells. rewrite E1, E2. split; intros (n0 & E & Ha); injection E as <-; eexists; (split; [reflexivity|]); congruence.
  - intros m. unfold fval. rewrite E1, E2. apply Hv.
Qed.
Lemma ok_node s i f sh t : ok s i f sh -> fid s i f = Some t ->
  exists n, node_ok (ts s) t n sh /\ (forall a, cells s i f a <-> Some a ∈ operands (nmat n)) /\ forall m, fval s i f m = mval m (nmat n).
Proof using Type.
  intros (t' & n & Hf & Hn) Ht. assert (t' = t) as -> by congruence. exists n. split; [exact Hn|].
  assert (E : fnode s i f = Some n) by (unfold fnode; rewrite Hf; apply Hn). split.
  - intros a. unfold cells. rewrite E. split; [intros (n0 & E0 & Ha); congruence|eauto].
  - intros m. unfold fval. rewrite E. reflexivity.
Qed.
Lemma ok_lt s i f sh a : ok s i f sh -> cells s i f a -> a < length (mem (ts s)).
Proof using Type. intros Ho Ha. pose proof Ho as (t & n & Hf & Hn). destruct (ok_node _ _ _ _ _ Ho Hf) as (n' & Hn' & Hc & _). eapply node_ok_lt; [exact Hn'|]. apply Hc. exact Ha. Qed.
Lemma ok_off s i f sh (W : nat -> Prop) m m' : ok s i f sh -> ran W m m' -> (forall a, cells s i f a -> ~ W a) -> fval s i f m' = fval s i f m.
Proof using Type.
  intros Ho Hr Hd. pose proof Ho as (t & n & Hf & _). destruct (ok_node _ _ _ _ _ Ho Hf) as (n' & Hn' & Hc & Hv). rewrite !Hv. eapply ran_val; [exact Hr|]. intros l Hl. apply Hd, Hc, Hl.
Qed.
Lemma ok_total s i f sh m : ok s i f sh -> length (mem (ts s)) <= length m ->
  exists v, fval s i f m = Some v /\ vsh v = sh /\ length (vdata v) = N.to_nat (prodN sh).
Proof using Type.
  intros Ho Hm. pose proof Ho as (t & n & Hf & _). destruct (ok_node _ _ _ _ _ Ho Hf) as (n' & Hn' & Hc & Hv). rewrite Hv. eapply node_ok_total; eassumption.
Qed.
Lemma refc_held s s' i r : held s s' -> refc s i = Some r -> refc s' i = Some r.
Proof using Type.
  intros Hh Hf. unfold refc in *. apply bind_Some in Hf as (l & Hl & Ht). destruct (hd_lay _ _ Hh _ _ Hl) as (l' & Hl' & Hx). rewrite Hl'. cbn [mbind option_bind]. destruct Hx as (_ & _ & _ & -> & _). exact Ht.
Qed.
Lemma maxc_held s s' i r : held s s' -> maxc s i = Some r -> maxc s' i = Some r.
Proof using Type.
  intros Hh Hf. unfold maxc in *. apply bind_Some in Hf as (l & Hl & Ht). destruct (hd_lay _ _ Hh _ _ Hl) as (l' & Hl' & Hx). rewrite Hl'. cbn [mbind option_bind]. destruct Hx as (_ & _ & _ & _ & -> & _). exact Ht.
Qed.

(** ** The layers of a chain *)
Definition kind_is (l : layer T) c : Prop :=
  match c_l c with
  | None => lkind_of l = LInput /\ lpre l = None
  | Some (SDense _ _) => lkind_of l = LDense
  | Some (SConv nf kw kh sx sy _) => lkind_of l = LConv2D nf kw kh sx sy
  | Some (SDeconv nf kw kh sx sy _) => lkind_of l = LDeconv2D nf kw kh sx sy
  | Some (SPool sx sy) => lkind_of l = LMaxPool2D sx sy
  | Some (SUp sx sy) => lkind_of l = LUpSampling2D sx sy
  | Some SFlat => lkind_of l = LFlatten
  | Some (SNorm mn mx) => lkind_of l = LNorm mn mx
  | Some SSoft => lkind_of l = LSoftMax
  | Some (SSub _ _ _) => False
  end.
(** The layers that take the derivative of an activation. *)
Definition base c : bool := match c_l c with None => true | Some l => has_par l end.
Record lay_site s c (psh : list N) (l : layer T) : Prop := {
  ls_lay : lays s !! c_i c = Some l;
  ls_kind : kind_is l c;
  ls_fit : forall k, c_l c = Some k -> lay_shape k psh = Some (c_sh c) /\ train_fit k psh = true;
  ls_fits : fits psh /\ fits (c_sh c);
  ls_ref : exists r v, lref l = Some r /\ mem (ts s) !! r = Some v /\ neqb v nzero = false;
  ls_dif : ok s (c_i c) FDif (c_sh c) /\ forall n, fnode s (c_i c) FDif = Some n -> NoDup (operands (nmat n));
  ls_io : c_l c <> None -> ok s (c_i c) FInput psh /\ ok s (c_i c) FOutput (c_sh c);
  ls_base : base c = true -> ok s (c_i c) FNeta (c_sh c) /\ exists a, lact l = Some a /\ act_d a = c_d c;
  ls_par : forall k, c_l c = Some k -> has_par k = true ->
    exists bs ws, par_shape k psh = Some (bs, ws) /\ ok s (c_i c) FBias bs /\ ok s (c_i c) FWeights ws;
  ls_max : forall a b, c_l c = Some (SNorm a b) -> exists k, lmaxs l = Some k /\ k < length (mem (ts s));
}.
Lemma site_held s s' c psh l : held s s' -> lay_site s c psh l -> exists l', lheld l l' /\ lay_site s' c psh l'.
Proof using Type.
  intros Hh S. destruct (hd_lay _ _ Hh _ _ (ls_lay _ _ _ _ S)) as (l' & Hl' & Hx). exists l'. split; [exact Hx|]. pose proof Hx as (K1 & K2 & K3 & K4 & K5 & K6). split.
  - exact Hl'.
  - pose proof (ls_kind _ _ _ _ S) as Hk. unfold kind_is in *. rewrite K1, K3. exact Hk.
  - apply (ls_fit _ _ _ _ S).
  - apply (ls_fits _ _ _ _ S).
  - destruct (ls_ref _ _ _ _ S) as (r & v & E1 & E2 & E3). exists r, v. split; [congruence|]. split; [apply (hd_mem _ _ Hh); exact E2|exact E3].
  - destruct (ls_dif _ _ _ _ S) as [Hd Hn]. destruct (ok_held _ _ _ _ _ Hh Hd) as (Hd' & _ & _). split; [exact Hd'|]. intros n' En'.
    destruct Hd as (t & n & Hf & Hnn). destruct (node_ok_keep _ _ _ _ _ Hnn (hd_keep _ _ Hh) (hd_len _ _ Hh)) as (n2 & Hn2 & Ho & _).
    unfold fnode in En', Hn. rewrite (fid_held _ _ _ _ _ Hh Hf) in En'. rewrite Hf in Hn. cbn [mbind option_bind] in En', Hn. destruct Hn2 as (E2 & _). assert (n' = n2) as -> by congruence. rewrite Ho. apply Hn. apply Hnn.
  - intros Hc. destruct (ls_io _ _ _ _ S Hc) as [H1 H2]. split; eapply ok_held; eassumption.
  - intros Hc. destruct (ls_base _ _ _ _ S Hc) as [H1 H2]. split; [eapply ok_held; eassumption|]. rewrite K2. exact H2.
  - intros k Hk Hp. destruct (ls_par _ _ _ _ S _ Hk Hp) as (bs & ws & E & H1 & H2). exists bs, ws. split; [exact E|]. split; eapply ok_held; eassumption.
  - intros a b Hc. destruct (ls_max _ _ _ _ S _ _ Hc) as (k & E & Hk). exists k. split; [congruence|]. pose proof (hd_len _ _ Hh). lia.
Qed.

(** A chain, top first. *)
Fixpoint chain s cs : Prop :=
  match cs with
  | [] => False
  | [c] => exists l psh, lay_site s c psh l /\ lpre l = None /\ match c_l c with None => True | Some (SDense _ _) => True | _ => False end
  | c :: ((q :: _) as rest) =>
      exists l, lay_site s c (c_sh q) l /\ lpre l = Some (c_i q) /\ c_l c <> None /\
        match c_l c with
        | Some SSoft => fid s (c_i c) FDif = fid s (c_i q) FDif
        | _ => forall p a, p ∈ rest -> cells s (c_i c) FDif a -> ~ cells s (c_i p) FDif a
        end /\ chain s rest
  end.
(** The cells of the errors are nothing else, and the scalars a step reads are
    none of them. *)
Definition readf (f : tfield) : Prop := f = FInput \/ f = FOutput \/ f = FNeta \/ f = FBias \/ f = FWeights.
Record apt s cs (al mo : nat) : Prop := {
  ap_f : forall c q f a, c ∈ cs -> q ∈ cs -> readf f -> cells s (c_i q) FDif a -> ~ cells s (c_i c) f a;
  ap_r : forall c q a, c ∈ cs -> q ∈ cs -> cells s (c_i q) FDif a -> refc s (c_i c) <> Some a /\ maxc s (c_i c) <> Some a;
  ap_al : forall q a, q ∈ cs -> cells s (c_i q) FDif a -> a <> al /\ a <> mo;
  ap_in : al < length (mem (ts s)) /\ mo < length (mem (ts s));
  ap_lo : forall c f a, c ∈ cs -> readf f -> cells s (c_i c) f a -> a < length (mem (ts s));
  ap_lr : forall c a, c ∈ cs -> refc s (c_i c) = Some a \/ maxc s (c_i c) = Some a -> a < length (mem (ts s));
  ap_nd : NoDup (map c_i cs);
}.

(** ** What is read stays *)
Definition agree (R R' : reading T) (i : nat) : Prop :=
  r_x R i = r_x R' i /\ r_n R i = r_n R' i /\ r_y R i = r_y R' i /\ r_b R i = r_b R' i /\ r_w R i = r_w R' i /\ r_max R i = r_max R' i /\ r_ref R i = r_ref R' i.
Lemma s_der_agree R R' cs : (forall c, c ∈ cs -> agree R R' (c_i c)) -> s_der R cs = s_der R' cs.
Proof using Type.
  induction cs as [|c cs IH]; intros Ha; [reflexivity|]. cbn [s_der]. destruct (Ha c ltac:(left)) as (E1 & E2 & E3 & _).
  rewrite (IH ltac:(intros x Hx; apply Ha; right; exact Hx)). rewrite E1, E2, E3. reflexivity.
Qed.
Lemma s_in_agree R R' c a psh d : agree R R' (c_i c) -> s_in R c a psh d = s_in R' c a psh d.
Proof using Type. intros (E1 & E2 & E3 & E4 & E5 & E6 & E7). unfold s_in. rewrite E1, E3, E5, E6, E7. reflexivity. Qed.
Lemma s_par_agree R R' mb mb' al mo c d : agree R R' (c_i c) -> mb (c_i c) = mb' (c_i c) -> s_par R mb al mo c d = s_par R' mb' al mo c d.
Proof using Type.
  intros (E1 & E2 & E3 & E4 & E5 & E6 & E7) Em. unfold s_par, s_bias, s_weights, s_db. rewrite E1, E4, E5, E7, Em. reflexivity.
Qed.
Lemma s_step_agree R R' mb mb' al mo cs : (forall c, c ∈ cs -> agree R R' (c_i c) /\ mb (c_i c) = mb' (c_i c)) -> forall d, s_step R mb al mo cs d = s_step R' mb' al mo cs d.
Proof using Type.
  induction cs as [|c cs IH]; intros Ha d; [reflexivity|]. cbn [s_step]. destruct (Ha c ltac:(left)) as [E Em].
  rewrite (s_par_agree R R' mb mb' _ _ _ _ E Em). destruct (s_par R' mb' al mo c d) as [u|]; [|reflexivity]. cbn [mbind option_bind].
  destruct cs as [|q rest]; [reflexivity|]. rewrite (s_in_agree R R' _ _ _ _ E).
  rewrite (s_der_agree R R') by (intros x Hx; apply (Ha x); right; exact Hx).
  destruct (s_in R' c _ _ d) as [d'|]; [|reflexivity]. cbn [mbind option_bind]. rewrite (IH ltac:(intros x Hx; apply Ha; right; exact Hx)). reflexivity.
Qed.
Lemma fval_off s i f m m' : (forall a, cells s i f a -> m' !! a = m !! a) -> fval s i f m' = fval s i f m.
Proof using Type.
  intros Hc. unfold fval. destruct (fnode s i f) as [n|] eqn:E; [|reflexivity]. cbn [mbind option_bind]. apply mval_off. intros l Hl. apply Hc. exists n. auto.
Qed.
Definition lowW s cs (W : nat -> Prop) : Prop := forall l, W l -> length (mem (ts s)) <= l \/ exists q, q ∈ cs /\ cells s (c_i q) FDif l.
Lemma agree_ran s cs al mo W m m' c : apt s cs al mo -> lowW s cs W -> ran W m m' -> c ∈ cs -> agree (rdg s m') (rdg s m) (c_i c).
Proof using Type.
  intros A HW [_ Hr] Hc.
  assert (F : forall f, readf f -> fval s (c_i c) f m' = fval s (c_i c) f m).
  { intros f Hf. apply fval_off. intros a Ha. apply Hr. intros Hw. destruct (HW _ Hw) as [Hl|(q & Hq & Hd)].
    - pose proof (ap_lo _ _ _ _ A _ _ _ Hc Hf Ha). lia.
    - exact (ap_f _ _ _ _ A _ _ _ _ Hc Hq Hf Hd Ha). }
  assert (G : forall a, refc s (c_i c) = Some a \/ maxc s (c_i c) = Some a -> m' !! a = m !! a).
  { intros a Ha. apply Hr. intros Hw. destruct (HW _ Hw) as [Hl|(q & Hq & Hd)].
    - pose proof (ap_lr _ _ _ _ A _ _ Hc Ha). lia.
    - destruct (ap_r _ _ _ _ A _ _ _ Hc Hq Hd) as [H1 H2]. destruct Ha; contradiction. }
  unfold agree, rdg, readf, refv, maxv in *. cbn [r_x r_n r_y r_b r_w r_max r_ref]. rewrite !F by tauto.
  do 5 (split; [reflexivity|]). split.
  - destruct (maxc s (c_i c)) as [a|] eqn:E; [|reflexivity]. cbn [mbind option_bind]. apply G. auto.
  - destruct (refc s (c_i c)) as [a|] eqn:E; [|reflexivity]. cbn [mbind option_bind]. apply G. auto.
Qed.
Lemma al_ran s cs al mo W m m' : apt s cs al mo -> lowW s cs W -> ran W m m' -> m' !! al = m !! al /\ m' !! mo = m !! mo.
Proof using Type.
  intros A HW [_ Hr]. destruct (ap_in _ _ _ _ A) as [I1 I2]. split; apply Hr; intros Hw; destruct (HW _ Hw) as [Hl|(q & Hq & Hd)]; try lia; destruct (ap_al _ _ _ _ A _ _ Hq Hd); congruence.
Qed.
End TrnSite.
