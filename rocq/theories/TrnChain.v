(** * TrnChain: the training code of a whole chain of layers *)
From Verif Require Import Base Num ModelTools ModelOps ModelTensor ModelGraph ModelLayer Spec NetSpec FwdSpec Denote
  IndexProofs ExecProofs TensorFacts AccessProofs BuildProofs BuildFrame CompileProofs Agree FwdMask FwdBuild FwdSeg FwdOps FwdPool NetBuild NetChain FwdBody FwdExpr FwdConv FwdConv2 FwdAct FwdTotal
  BwdSpec BwdPost BwdLoop BwdOps BwdOps2 BwdOps3 BwdOps4 TrnSpec TrnTri TrnOwn TrnExpr TrnSite TrnDer TrnXfer TrnBody TrnKind TrnBias TrnPar TrnDense TrnKer TrnConvs.
From Coq Require Import Lia ZifyBool ZifyNat ZifyN.

Section TrnChain.
Context {T : Type} `{Num T}.
Implicit Types (s : lst T) (m : list T) (c q : clay T) (cs rest : list (clay T)).

Lemma apt_tail s c cs al mo : apt s (c :: cs) al mo -> apt s cs al mo.
Proof using Type.
  intros [a1 a2 a3 a4 a5 a6 a7]. split.
  - intros x y f a Hx Hy. apply a1; right; assumption.
  - intros x y a Hx Hy. apply a2; right; assumption.
  - intros x a Hx. apply a3. right. exact Hx.
  - exact a4.
  - intros x f a Hx. apply a5. right. exact Hx.
  - intros x a Hx. apply a6. right. exact Hx.
  - cbn [map] in a7. apply NoDup_cons in a7 as [_ a7]. exact a7.
Qed.
(** One layer of any kind. *)
Lemma body_all s0 s al mo c rest fuel : chain s0 (c :: rest) -> apt s0 (c :: rest) al mo -> held s0 s -> (forall g, parf g -> fid s (c_i c) g = None) ->
  (base c = true -> forall j, j ∈ dertop rest -> fid s j FDer = None) -> length rest <= fuel ->
  exists s', bp_body fuel (c_i c) (Some al) (Some mo) s = (Ok tt, s') /\ body_post s0 al mo c rest s s'.
Proof using Type.
  intros Hch Hapt Hh Hn Hd Hfu. destruct (chain_head _ _ _ Hch) as (l & psh & Hsite & Hr). pose proof (ls_kind _ _ _ _ Hsite) as Hki. unfold kind_is in Hki. unfold base in Hd.
  destruct rest as [|q rest].
  - destruct Hr as [_ Hb]. pose proof Hch as Hch1. cbn [chain] in Hch1. destruct Hch1 as (l1 & psh1 & _ & _ & Hk1). destruct (c_l c) as [k|] eqn:Hk; [|apply input_body; assumption]. destruct k; try contradiction.
    eapply dense_body; try eassumption. apply Hd. reflexivity.
  - destruct Hr as (_ & _ & Hcn & _). destruct (c_l c) as [k|] eqn:Hk; [|congruence]. destruct k.
    + eapply dense_body; try eassumption. apply Hd. reflexivity.
    + eapply conv_body; try eassumption. apply Hd. reflexivity.
    + eapply deconv_body; try eassumption. apply Hd. reflexivity.
    + eapply pool_body; eassumption.
    + eapply up_body; eassumption.
    + eapply flat_body; eassumption.
    + eapply norm_body; eassumption.
    + eapply soft_body; eassumption.
    + destruct Hki.
Qed.

(** ** The errors of a chain do not share scalars unless they are the same *)
Lemma cells_fid s i j f a : fid s i f = fid s j f -> cells s i f a -> cells s j f a.
Proof using Type. unfold cells, fnode. intros ->. auto. Qed.
Lemma fval_fid s i j f m : fid s i f = fid s j f -> fval s i f m = fval s j f m.
Proof using Type. unfold fval, fnode. intros ->. reflexivity. Qed.
(** ** What the code of a chain does *)
Definition others s0 c cs m : Prop := forall p, p ∈ cs -> (forall a, cells s0 (c_i c) FDif a -> ~ cells s0 (c_i p) FDif a) -> fval s0 (c_i p) FDif m = Some (vzero (c_sh p)).
Definition stepP s0 s' (al mo : nat) cs m : Prop :=
  match cs with
  | [] => True
  | c :: rest => (forall p, p ∈ c :: rest -> refs s0 (c_i p) m) /\ others s0 c rest m /\
      exists d a b, fval s0 (c_i c) FDif m = Some d /\ m !! al = Some a /\ m !! mo = Some b /\ s_step (rdg s0 m) (mbv s' m) a b (c :: rest) d <> None
  end.
Definition res1 s0 s' (mb : nat -> option (vten T)) (a b : T) m' c (o : vten T * option (vten T * vten T)) : Prop :=
  fval s0 (c_i c) FDif m' = Some (fst o) /\ (c_par c = true <-> snd o <> None) /\
  forall nb nw, snd o = Some (nb, nw) -> fval s' (c_i c) FNBias m' = Some nb /\ fval s' (c_i c) FNWeights m' = Some nw /\
    (c_mom c = true -> fval s' (c_i c) FMBias m' = s_db mb a b (c_i c) (fst o)).
Definition stepR s0 s' (al mo : nat) cs m m' : Prop :=
  match cs with
  | [] => True
  | c :: _ => forall d a b out, fval s0 (c_i c) FDif m = Some d -> m !! al = Some a -> m !! mo = Some b -> s_step (rdg s0 m) (mbv s' m) a b cs d = Some out ->
      Forall2 (res1 s0 s' (mbv s' m) a b m') cs out
  end.
Definition stepW s0 s cs (l : nat) : Prop :=
  length (mem (ts s)) <= l \/ match cs with [] => False | c :: rest => (exists p, p ∈ rest /\ cells s0 (c_i p) FDif l) /\ ~ cells s0 (c_i c) FDif l end.
(** What else is known about the layers afterwards. *)
Definition kept s s' : Prop := forall j l, lays s !! j = Some l -> exists l', lays s' !! j = Some l' /\
  (forall g, g <> BBP -> lflag l' g = lflag l g) /\ forall f, ~ parf f -> f <> FDer -> lten l' f = lten l f.
(** Layers without parameters get none. *)
Definition bare cs s s' : Prop := forall j f, parf f -> (forall p, p ∈ cs -> c_i p = j -> c_par p = false) -> fid s' j f = fid s j f.
Record chain_post s0 al mo cs s s' : Prop := {
  cp_held : held s s';
  cp_kept : kept s s';
  cp_tri : exists W C, tri (ts s) (ts s') W C (stepP s0 s' al mo cs) (stepR s0 s' al mo cs) /\ forall l, W l -> stepW s0 s cs l;
  cp_par : forall c, c ∈ cs -> c_par c = true -> forall f, f = FNBias \/ f = FNWeights \/ f = FMBias -> exists sh, ok s' (c_i c) f sh /\ ok s0 (c_i c) (twin f) sh /\ forall a, cells s' (c_i c) f a -> length (mem (ts s)) <= a;
  cp_none : bare cs s s';
  cp_mb : forall c, c ∈ cs -> c_par c = true -> mbzero s' (c_i c);
}.

(** The layers strictly below the first one that has an activation. *)
Fixpoint under cs : list nat := match cs with [] => [] | c :: rest => if base c then map c_i rest else under rest end.
Lemma under_in cs j : j ∈ under cs -> j ∈ map c_i cs.
Proof using Type. induction cs as [|c rest IH]; cbn [under map]; [auto|]. intros Hj. right. destruct (base c); [exact Hj|auto]. Qed.
Lemma under_dertop cs j : NoDup (map c_i cs) -> j ∈ under cs -> j ∉ dertop cs.
Proof using Type.
  induction cs as [|c rest IH]; cbn [under dertop map]; [intros _ Hj; inversion Hj|]. intros Hnd Hj Hx. apply NoDup_cons in Hnd as [Hn Hnd]. destruct (base c).
  - apply elem_of_list_singleton in Hx as ->. exact (Hn Hj).
  - apply elem_of_cons in Hx as [->|Hx]; [apply Hn, under_in, Hj|exact (IH Hnd Hj Hx)].
Qed.

(** Only layers with bias and weights have momenta. *)
Lemma s_par_agree' R R' mb mb' al mo c d : agree R R' (c_i c) -> (c_par c = true -> mb (c_i c) = mb' (c_i c)) -> s_par R mb al mo c d = s_par (T:=T) R' mb' al mo c d.
Proof using Type.
  intros E Em. destruct (c_par c) eqn:Ep; [apply s_par_agree; auto|]. unfold s_par. rewrite Ep. reflexivity.
Qed.
Lemma s_step_agree' R R' mb mb' al mo cs : (forall c, c ∈ cs -> agree R R' (c_i c) /\ (c_par c = true -> mb (c_i c) = mb' (c_i c))) -> forall d, s_step R mb al mo cs d = s_step R' mb' al mo cs d.
Proof using Type.
  induction cs as [|c cs IH]; intros Ha d; [reflexivity|]. cbn [s_step]. destruct (Ha c ltac:(left)) as [E Em].
  rewrite (s_par_agree' R R' mb mb' _ _ _ _ E Em). destruct (s_par R' mb' al mo c d) as [u|]; [|reflexivity]. cbn [mbind option_bind].
  destruct cs as [|q rest]; [reflexivity|]. rewrite (s_in_agree R R' _ _ _ _ E).
  rewrite (s_der_agree R R') by (intros x Hx; apply (Ha x); right; exact Hx).
  destruct (s_in R' c _ _ d) as [d'|]; [|reflexivity]. cbn [mbind option_bind]. rewrite (IH ltac:(intros x Hx; apply Ha; right; exact Hx)). reflexivity.
Qed.

Lemma kept_trans s1 s2 s3 : kept s1 s2 -> kept s2 s3 -> kept s1 s3.
Proof using Type.
  intros K1 K2 j l Hl. destruct (K1 _ _ Hl) as (l2 & H2 & A2 & B2). destruct (K2 _ _ H2) as (l3 & H3 & A3 & B3). exists l3. split; [exact H3|]. split; [intros g Hg; rewrite A3, A2 by exact Hg; reflexivity|intros f F1 F2; rewrite B3, B2 by assumption; reflexivity].
Qed.
Lemma kept_body c rest s s' : frame (bodyD c rest) s s' -> kept s s'.
Proof using Type.
  intros Hf j l Hl. destruct (Hf _ _ Hl) as (l' & Hl' & Hg & Ht). exists l'. split; [exact Hl'|]. split; [intros; rewrite Hg; reflexivity|]. intros f Hp Hd. apply Ht. intros [(_ & Hx & _)|[_ Hx]]; auto.
Qed.
Lemma bare_body c rest s s' : held s s' -> frame (bodyD c rest) s s' -> bare [c] s s'.
Proof using Type.
  intros Hh Hf j f Hp Hn. destruct (lays s !! j) as [l|] eqn:Hl.
  - destruct (Hf _ _ Hl) as (l' & Hl' & _ & Ht). rewrite (fid_lay _ _ _ _ Hl), (fid_lay _ _ _ _ Hl'). apply Ht. intros [(E & _ & Hx)|[_ Hx]].
    + rewrite (Hn c ltac:(left) (eq_sym E)) in Hx. discriminate Hx.
    + unfold parf in Hp. subst f. intuition discriminate.
  - unfold fid. rewrite Hl. destruct (lays s' !! j) as [l'|] eqn:Hl'; [|reflexivity]. apply lookup_lt_Some in Hl'. rewrite (hd_num _ _ Hh) in Hl'. apply lookup_ge_None in Hl. lia.
Qed.
Lemma bare_trans cs1 cs2 s1 s2 s3 : bare cs1 s1 s2 -> bare cs2 s2 s3 -> bare (cs1 ++ cs2) s1 s3.
Proof using Type.
  intros A B j f Hp Hn. rewrite (B j f Hp), (A j f Hp); [reflexivity|..]; intros p Hi; apply Hn; apply elem_of_app; auto.
Qed.
(** Marking a layer as done. *)
Definition marked s i l : lst T := MkL (ts s) (<[i := set_flag BBP true l]> (lays s)) (rc s).
Lemma marked_held s i l : lays s !! i = Some l -> held s (marked s i l).
Proof using Type. intros Hl. apply (held_set _ _ l); [exact Hl|]. repeat split; auto. Qed.
Lemma marked_fid s i l j f : lays s !! i = Some l -> fid (marked s i l) j f = fid s j f.
Proof using Type.
  intros Hl. unfold fid, marked. cbn [lays]. destruct (decide (j = i)) as [->|Hne]; [rewrite list_lookup_insert by (eapply lookup_lt_Some; exact Hl); rewrite Hl; reflexivity|rewrite list_lookup_insert_ne by auto; reflexivity].
Qed.
Lemma marked_kept s i l : lays s !! i = Some l -> kept s (marked s i l).
Proof using Type.
  intros Hl j lj Hj. unfold marked. cbn [lays]. destruct (decide (j = i)) as [->|Hne].
  - rewrite list_lookup_insert by (eapply lookup_lt_Some; exact Hl). assert (lj = l) as -> by congruence. eexists. split; [reflexivity|]. split; [|reflexivity]. intros g Hg. unfold set_flag. cbn [lflag]. destruct g; try reflexivity. congruence.
  - rewrite list_lookup_insert_ne by auto. exists lj. auto.
Qed.
Lemma once_ok s0 s c psh l l' : lay_site s0 c psh l -> held s0 s -> lays s !! c_i c = Some l' -> lflag l' BBP = false -> CheckOnce BBP (c_i c) s = (Ok false, marked s (c_i c) l').
Proof using Type.
  intros Hs Hh Hl Hf. destruct (ls_ref _ _ _ _ Hs) as (r & v & Er & Ev & Hv). destruct (hd_lay _ _ Hh _ _ (ls_lay _ _ _ _ Hs)) as (l2 & Hl2 & _ & _ & _ & Hr2 & _). assert (l2 = l') as -> by congruence.
  unfold CheckOnce. erewrite mbnd_ok by (apply getL_ok; exact Hl). rewrite Hf. rewrite Hr2, Er. rewrite (mbnd_ok _ _ _ v s).
  2:{ replace s with (MkL (ts s) (lays s) (rc s)) at 2 by (destruct s; reflexivity). apply liftT_ok. unfold rdM, mlift. cbn. rewrite (hd_mem _ _ Hh _ _ Ev). reflexivity. }
  rewrite Hv. erewrite mbnd_ok by (apply updL_ok; exact Hl). reflexivity.
Qed.

Lemma chain_in s cs p : chain s cs -> p ∈ cs -> exists l psh, lay_site s p psh l.
Proof using Type.
  induction cs as [|c cs IH]; intros Hch Hp; [inversion Hp|]. destruct (chain_head _ _ _ Hch) as (l & psh & Hs & Hr). apply elem_of_cons in Hp as [->|Hp]; [eauto|].
  destruct cs as [|q cs]; [inversion Hp|]. destruct Hr as (_ & _ & _ & Hc & _). exact (IH Hc Hp).
Qed.
Lemma fid_kept s s' i f l : kept s s' -> lays s !! i = Some l -> ~ parf f -> f <> FDer -> fid s' i f = fid s i f.
Proof using Type. intros K Hl Hp Hd. destruct (K _ _ Hl) as (l' & Hl' & _ & E). rewrite (fid_lay _ _ _ _ Hl), (fid_lay _ _ _ _ Hl'). auto. Qed.

Lemma forall2_in {A B} (P Q : A -> B -> Prop) l k : Forall2 P l k -> (forall x y, x ∈ l -> P x y -> Q x y) -> Forall2 Q l k.
Proof using Type. induction 1; intros Hi; constructor; [apply Hi; [left|assumption]|apply IHForall2; intros; apply Hi; [right|]; assumption]. Qed.

Lemma s_step_cons (R : reading T) mb a b c q rest d : s_step R mb a b (c :: q :: rest) d =
  (u ← s_par R mb a b c d; us ← (d' ← s_in R c (s_der R (q :: rest)) (c_sh q) d; s_step R mb a b (q :: rest) d'); Some ((d, u) :: us)).
Proof using Type. reflexivity. Qed.

Section Chain.
Variables (s0 : lst T) (al mo : nat).
(** One layer and the layers below it. *)
Section Join.
Variables (c q : clay T) (rest : list (clay T)) (s s2 s' : lst T).
Hypothesis Hch : chain s0 (c :: q :: rest).
Hypothesis Hapt : apt s0 (c :: q :: rest) al mo.
Hypothesis Hh : held s0 s.
Hypothesis Hb : body_post s0 al mo c (q :: rest) s s2.
Hypothesis Hc : chain_post s0 al mo (q :: rest) s2 s'.
Lemma low_body (W : nat -> Prop) : (forall l, W l -> bodyW s0 s c (q :: rest) l) -> lowW s0 (c :: q :: rest) W.
Proof using Hh.
  intros HW l Hl. pose proof (hd_len _ _ Hh). destruct (HW _ Hl) as [Hx|(q' & r & E & _ & Hx)]; [left; lia|]. injection E as <- <-. right. exists q. split; [right; left|exact Hx].
Qed.
Lemma dif_lt p a : p ∈ c :: q :: rest -> cells s0 (c_i p) FDif a -> a < length (mem (ts s0)).
Proof using Hch. intros Hp Ha. destruct (chain_in _ _ _ Hch Hp) as (l & psh & Hs). exact (ok_lt _ _ _ _ _ (proj1 (ls_dif _ _ _ _ Hs)) Ha). Qed.
Lemma refs_ran (W : nat -> Prop) m m' p : lowW s0 (c :: q :: rest) W -> ran W m m' -> p ∈ c :: q :: rest -> refs s0 (c_i p) m -> refs s0 (c_i p) m'.
Proof using Hapt.
  intros HW [_ Hr] Hp Hm r Er. rewrite Hr; [apply Hm; exact Er|]. intros Hw. pose proof (ap_lr _ _ _ _ Hapt _ _ Hp (or_introl Er)). destruct (HW _ Hw) as [Hx|(p' & Hp' & Hx)]; [lia|].
  destruct (ap_r _ _ _ _ Hapt _ _ _ Hp Hp' Hx) as [Hn _]. congruence.
Qed.
Lemma others_body (W : nat -> Prop) m m1 : (forall l, W l -> bodyW s0 s c (q :: rest) l) -> ran W m m1 -> others s0 c (q :: rest) m -> others s0 q rest m1.
Proof using Hch Hh.
  intros HW [_ Hr] Ho p Hp Hd. destruct (chain_head _ _ _ Hch) as (l & psh & _ & _ & _ & _ & _ & Hdis & Hs). pose proof (hd_len _ _ Hh) as Hlen.
  assert (Hcp : forall a, cells s0 (c_i c) FDif a -> ~ cells s0 (c_i p) FDif a).
  { intros a Ha. assert (Hdec : c_l c = Some SSoft \/ c_l c <> Some SSoft) by (destruct (c_l c) as [[]|]; (left; reflexivity) || (right; discriminate)).
    destruct Hdec as [E|E]; [apply Hd; exact (cells_fid _ _ _ _ _ (Hs E) Ha)|apply (Hdis E); [right; exact Hp|exact Ha]]. }
  rewrite <- (Ho p ltac:(right; exact Hp) Hcp). apply fval_off. intros a Ha. apply Hr. intros Hw. destruct (HW _ Hw) as [Hx|(q' & r & E & _ & Hx)].
  - pose proof (dif_lt p a ltac:(right; right; exact Hp) Ha). lia.
  - injection E as <- <-. exact (Hd _ Hx Ha).
Qed.
Lemma stepW_low : forall l, stepW s0 s2 (q :: rest) l -> stepW s0 s (c :: q :: rest) l.
Proof using Hch Hb.
  intros l [Hx|[(p & Hp & Hx) Hn]]; [left; pose proof (hd_len _ _ (bd_held _ _ _ _ _ _ _ Hb)); lia|]. right. split; [exists p; split; [right; exact Hp|exact Hx]|]. intros Ha.
  destruct (chain_head _ _ _ Hch) as (lc & psh & _ & _ & _ & _ & _ & Hdis & Hs).
  assert (Hdec : c_l c = Some SSoft \/ c_l c <> Some SSoft) by (destruct (c_l c) as [[]|]; (left; reflexivity) || (right; discriminate)).
  destruct Hdec as [E|E]; [exact (Hn (cells_fid _ _ _ _ _ (Hs E) Ha))|exact (Hdis E p l ltac:(right; exact Hp) Ha Hx)].
Qed.
Lemma bodyW_low : forall l, bodyW s0 s c (q :: rest) l -> stepW s0 s (c :: q :: rest) l.
Proof using Hch.
  intros l [Hx|(q' & r & E & Hns & Hx)]; [left; exact Hx|]. injection E as <- <-. right. split; [exists q; split; [left|exact Hx]|].
  destruct (chain_head _ _ _ Hch) as (lc & psh & _ & _ & _ & _ & _ & Hdis & _). intros Ha. exact (Hdis Hns q l ltac:(left) Ha Hx).
Qed.
(** The momentum of the layer in the two states and memories. *)
Lemma mbv_c m : c_par c = true -> mbv s2 m (c_i c) = mbv s' m (c_i c).
Proof using Hb Hc.
  intros Hp. destruct (bd_par _ _ _ _ _ _ _ Hb Hp FMBias ltac:(auto)) as (sh & Ho & _). symmetry. apply (ok_held _ _ _ _ _ (cp_held _ _ _ _ _ _ Hc) Ho).
Qed.
Lemma mbv_rest W C m m1 p P R : tri (ts s) (ts s2) W C P R -> ran W m m1 -> p ∈ q :: rest -> c_par p = true -> mbv s' m1 (c_i p) = mbv s' m (c_i p).
Proof using Hc.
  intros Ht [_ Hr] Hp Hpar. destruct (cp_par _ _ _ _ _ _ Hc _ Hp Hpar FMBias ltac:(auto)) as (sh & _ & _ & Hlo). apply fval_off. intros a Ha. apply Hr. intros Hw. apply (tri_W _ _ _ _ _ _ _ Ht) in Hw. specialize (Hlo _ Ha). lia.
Qed.
Lemma low_step (W : nat -> Prop) : (forall l, W l -> stepW s0 s2 (q :: rest) l) -> forall l, W l -> length (mem (ts s2)) <= l \/ l < length (mem (ts s0)).
Proof using Hch.
  intros HW l Hl. destruct (HW _ Hl) as [Hx|[(p & Hp & Hx) _]]; [left; exact Hx|right]. exact (dif_lt p l ltac:(right; right; exact Hp) Hx).
Qed.

Lemma join_tri : exists W C, tri (ts s) (ts s') W C (stepP s0 s' al mo (c :: q :: rest)) (stepR s0 s' al mo (c :: q :: rest)) /\ forall l, W l -> stepW s0 s (c :: q :: rest) l.
Proof using All.
  destruct (bd_tri _ _ _ _ _ _ _ Hb) as (W1 & C1 & T1 & HW1). destruct (cp_tri _ _ _ _ _ _ Hc) as (W2 & C2 & T2 & HW2).
  pose proof (hd_len _ _ Hh) as L0. pose proof (hd_len _ _ (bd_held _ _ _ _ _ _ _ Hb)) as L1.
  exists (either W1 W2), (C1 ++ C2). split; [|intros l [Hl|Hl]; [apply bodyW_low, HW1, Hl|apply stepW_low, HW2, Hl]].
  assert (HC : forall c0 : nat * T, c0 ∈ C1 -> ~ W2 (fst c0)).
  { intros c0 H0 Hw. destruct (tri_C _ _ _ _ _ _ _ T1 H0) as (Hr & _). destruct (low_step _ HW2 _ Hw); lia. }
  pose proof (low_body _ HW1) as Hlow.
  assert (Hag : forall m m1 p, ran W1 m m1 -> p ∈ c :: q :: rest -> agree (rdg s0 m1) (rdg s0 m) (c_i p)) by (intros m m1 p Hr Hp; exact (agree_ran _ _ _ _ _ _ _ _ Hapt Hlow Hr Hp)).
  assert (Hst : forall m m1 a b d, ran W1 m m1 -> s_step (rdg s0 m1) (mbv s' m1) a b (q :: rest) d = s_step (rdg s0 m) (mbv s' m) a b (q :: rest) d).
  { intros m m1 a b d Hr. apply s_step_agree'. intros p Hp. split; [apply (Hag m m1); [exact Hr|right; exact Hp]|]. intros Hpar. exact (mbv_rest _ _ _ _ _ _ _ T1 Hr Hp Hpar). }
  eapply tri_post; [exact (tri_seq _ _ _ _ _ _ _ _ _ _ _ T1 T2 HC)| |].
  - intros m Hm _ (Hrf & Ho & d & a & b & Ed & Ea & Eb & Hs). rewrite s_step_cons in Hs.
    destruct (s_par (rdg s0 m) (mbv s' m) a b c d) as [u|] eqn:Eu; [|cbn [mbind option_bind] in Hs; congruence]. cbn [mbind option_bind] in Hs.
    destruct (s_in (rdg s0 m) c (s_der (rdg s0 m) (q :: rest)) (c_sh q) d) as [d'|] eqn:Ei; [|cbn [mbind option_bind] in Hs; congruence]. cbn [mbind option_bind] in Hs.
    split.
    + split; [apply Hrf; left|]. exists d, a, b. split; [exact Ed|]. split; [exact Ea|]. split; [exact Eb|]. split.
      * rewrite (s_par_agree' _ (rdg s0 m) _ (mbv s' m)); [congruence|repeat split|apply mbv_c].
      * split; [congruence|]. intros Hns. apply Ho; [left|]. destruct (chain_head _ _ _ Hch) as (lc & psh & _ & _ & _ & _ & _ & Hdis & _). intros x. apply (Hdis Hns). left.
    + intros m1 Hr HR. destruct (HR d a b Ed Ea Eb) as [Hq _]. destruct (al_ran _ _ _ _ _ _ _ Hapt Hlow Hr) as [A1 A2]. split; [|split].
      * intros p Hp. apply (refs_ran W1 m m1 p Hlow Hr); [right; exact Hp|]. apply Hrf. right. exact Hp.
      * exact (others_body _ _ _ HW1 Hr Ho).
      * exists d', a, b. split; [rewrite Hq; exact Ei|]. split; [congruence|]. split; [congruence|]. rewrite (Hst _ _ _ _ _ Hr). intros En. rewrite En in Hs. cbn in Hs. congruence.
  - intros m m' Hm _ (Hrf & Ho & _) Hrn (m1 & Hr1 & HR1 & Hr2 & HR2) d a b out Ed Ea Eb Hs. rewrite s_step_cons in Hs.
    destruct (s_par (rdg s0 m) (mbv s' m) a b c d) as [u|] eqn:Eu; [|discriminate Hs]. cbn [mbind option_bind] in Hs.
    destruct (s_in (rdg s0 m) c (s_der (rdg s0 m) (q :: rest)) (c_sh q) d) as [d'|] eqn:Ei; [|discriminate Hs]. cbn [mbind option_bind] in Hs.
    match type of Hs with (?X ≫= _) = _ => destruct X as [us|] eqn:Eus; [|discriminate Hs] end. injection Hs as <-.
    destruct (HR1 d a b Ed Ea Eb) as [Hq Hpar]. destruct (al_ran _ _ _ _ _ _ _ Hapt Hlow Hr1) as [A1 A2].
    constructor.
    + split; [|split].
      * cbn [fst]. rewrite <- Ed. apply fval_off. intros x Hx. apply (proj2 Hrn). intros Hw. assert (HWx : stepW s0 s (c :: q :: rest) x) by (destruct Hw as [Hw|Hw]; [apply bodyW_low, HW1, Hw|apply stepW_low, HW2, Hw]).
        destruct HWx as [Hl|[_ Hn]]; [|exact (Hn Hx)]. pose proof (dif_lt c x ltac:(left) Hx). lia.
      * cbn [snd]. unfold s_par in Eu. destruct (c_par c); [|injection Eu as <-; split; congruence]. destruct (s_bias _ _ _ _ _ _) as [bb|]; [|discriminate Eu]. destruct (s_weights _ _ _ _ _) as [ww|]; [|discriminate Eu]. cbn in Eu. injection Eu as <-. split; congruence.
      * cbn [fst snd]. intros nb nw ->. assert (Hp : c_par c = true) by (unfold s_par in Eu; destruct (c_par c); [reflexivity|discriminate Eu]).
        destruct (Hpar Hp) as (nb' & nw' & Ep & Enb & Enw & Emb). rewrite (s_par_agree' _ (rdg s0 m) _ (mbv s' m)) in Ep; [|repeat split|apply mbv_c]. rewrite Eu in Ep. injection Ep as <- <-.
        assert (Hk : forall f, f = FNBias \/ f = FNWeights \/ f = FMBias -> fval s' (c_i c) f m' = fval s2 (c_i c) f m1).
        { intros f Hf. destruct (bd_par _ _ _ _ _ _ _ Hb Hp f Hf) as (sh & Hok & _ & Hlo). destruct (ok_held _ _ _ _ _ (cp_held _ _ _ _ _ _ Hc) Hok) as (_ & _ & ->). apply fval_off. intros x Hx. apply (proj2 Hr2). intros Hw.
          pose proof (ok_lt _ _ _ _ _ Hok Hx). specialize (Hlo _ Hx). destruct (low_step _ HW2 _ Hw); lia. }
        rewrite !Hk by auto. split; [exact Enb|]. split; [exact Enw|]. intros Hmm. rewrite (Emb Hmm). unfold s_db. rewrite (mbv_c m Hp). reflexivity.
    + rewrite <- (Hst _ _ _ _ _ Hr1) in Eus. rewrite Ei in Hq. rewrite <- A1 in Ea. rewrite <- A2 in Eb. specialize (HR2 d' a b us Hq Ea Eb Eus).
      eapply (forall2_in _ _ _ _ HR2). clear HR2. intros p o Hp (E1 & E2 & E3). split; [exact E1|]. split; [exact E2|]. intros nb nw Eo. destruct (E3 nb nw Eo) as (E4 & E5 & E6). split; [exact E4|]. split; [exact E5|].
      intros Hm1. rewrite (E6 Hm1). unfold s_db. rewrite (mbv_rest _ _ _ _ _ _ _ T1 Hr1 Hp); [reflexivity|]. apply E2. congruence.
Qed.
End Join.

(** The last layer of the chain. *)
Lemma last_tri c s s' : chain s0 [c] -> held s0 s -> body_post s0 al mo c [] s s' -> exists W C, tri (ts s) (ts s') W C (stepP s0 s' al mo [c]) (stepR s0 s' al mo [c]) /\ forall l, W l -> stepW s0 s [c] l.
Proof using Type.
  intros Hch Hh Hb. destruct (bd_tri _ _ _ _ _ _ _ Hb) as (W1 & C1 & T1 & HW1). pose proof (hd_len _ _ Hh) as L0. destruct (chain_in _ _ c Hch ltac:(left)) as (lc & psh & Hs0).
  assert (HW : forall l, W1 l -> length (mem (ts s)) <= l) by (intros l Hl; destruct (HW1 _ Hl) as [Hx|(q' & r & E & _)]; [exact Hx|discriminate E]).
  exists W1, C1. split; [|intros l Hl; left; auto]. eapply tri_post; [exact T1| |].
  - intros m Hm _ (Hrf & _ & d & a & b & Ed & Ea & Eb & Hs). cbn [s_step] in Hs. split; [apply Hrf; left|]. exists d, a, b. split; [exact Ed|]. split; [exact Ea|]. split; [exact Eb|]. split; [|exact I].
    intros En. rewrite En in Hs. cbn in Hs. congruence.
  - intros m m' Hm _ _ Hrn HR d a b out Ed Ea Eb Hs. cbn [s_step] in Hs. destruct (s_par (rdg s0 m) (mbv s' m) a b c d) as [u|] eqn:Eu; [|discriminate Hs]. cbn [mbind option_bind] in Hs. injection Hs as <-.
    destruct (HR d a b Ed Ea Eb) as [_ Hpar]. constructor; [|constructor]. split; [|split].
    + cbn [fst]. rewrite <- Ed. apply fval_off. intros x Hx. apply (proj2 Hrn). intros Hw. apply HW in Hw. pose proof (ok_lt _ _ _ _ _ (proj1 (ls_dif _ _ _ _ Hs0)) Hx). lia.
    + cbn [snd]. unfold s_par in Eu. destruct (c_par c); [|injection Eu as <-; split; congruence]. destruct (s_bias _ _ _ _ _ _) as [bb|]; [|discriminate Eu]. destruct (s_weights _ _ _ _ _) as [ww|]; [|discriminate Eu]. cbn in Eu. injection Eu as <-. split; congruence.
    + cbn [fst snd]. intros nb nw ->. assert (Hp : c_par c = true) by (unfold s_par in Eu; destruct (c_par c); [reflexivity|discriminate Eu]).
      destruct (Hpar Hp) as (nb' & nw' & Ep & Enb & Enw & Emb). rewrite Eu in Ep. injection Ep as <- <-. auto.
Qed.

Lemma chain_bp : forall rest c s fuel, chain s0 (c :: rest) -> apt s0 (c :: rest) al mo -> held s0 s ->
  (forall p, p ∈ c :: rest -> forall g, parf g -> fid s (c_i p) g = None) -> (forall j, j ∈ under (c :: rest) -> fid s j FDer = None) ->
  (forall p l, p ∈ c :: rest -> lays s !! c_i p = Some l -> lflag l BBP = false) -> length (c :: rest) <= fuel ->
  exists s', LBuildBP fuel (c_i c) (Some al) (Some mo) s = (Ok tt, s') /\ chain_post s0 al mo (c :: rest) s s'.
Proof using Type.
  induction rest as [|q rest IH]; intros c s fuel Hch Hapt Hh Hn Hd Hfl Hfu; (destruct fuel as [|fuel]; [cbn [length] in Hfu; lia|]); cbn [length] in Hfu;
    destruct (chain_head _ _ _ Hch) as (l0 & psh & Hsite0 & Hr); destruct (site_held _ _ _ _ _ Hh Hsite0) as (l & Hlh & Hsite); pose proof (ls_lay _ _ _ _ Hsite) as HL;
    pose proof (once_ok _ _ _ _ _ _ Hsite0 Hh HL (Hfl _ _ ltac:(left) HL)) as Honce;
    pose proof (marked_held _ _ _ HL) as Hm; pose proof (held_trans _ _ _ Hh Hm) as Hh1.
  - destruct (body_all s0 (marked s (c_i c) l) al mo c [] fuel Hch Hapt Hh1) as (s2 & Eb & Hb).
    { intros g Hg. rewrite marked_fid by exact HL. apply Hn; [left|exact Hg]. }
    { intros _ j Hj. inversion Hj. }
    { cbn. lia. }
    destruct (site_held _ _ _ _ _ (held_trans _ _ _ Hh1 (bd_held _ _ _ _ _ _ _ Hb)) Hsite0) as (l2 & Hlh2 & Hsite2). pose proof (ls_lay _ _ _ _ Hsite2) as HL2. pose proof (ls_kind _ _ _ _ Hsite2) as Hki.
    assert (Hp2 : lpre l2 = None) by (destruct Hlh2 as (_ & _ & -> & _); apply Hr).
    exists s2. split.
    { cbn [LBuildBP]. rewrite (mbnd_ok _ _ _ _ _ Honce). rewrite (mbnd_ok _ _ _ _ _ Eb). erewrite mbnd_ok by (apply getL_ok; exact HL2). rewrite Hp2. destruct (lkind_of l2) eqn:Ek; try reflexivity. exfalso. unfold kind_is in Hki. rewrite Ek in Hki. destruct (c_l c) as [[]|]; first [discriminate Hki|destruct Hki as [Hki _]; discriminate Hki|exact Hki]. }
    split.
    + exact (held_trans _ _ _ Hm (bd_held _ _ _ _ _ _ _ Hb)).
    + eapply kept_trans; [exact (marked_kept _ _ _ HL)|exact (kept_body _ _ _ _ (bd_frame _ _ _ _ _ _ _ Hb))].
    + destruct (last_tri _ _ _ Hch Hh1 Hb) as (W & C & Ht & HW). exists W, C. split; [exact Ht|exact HW].
    + intros p Hp. apply elem_of_list_singleton in Hp as ->. exact (bd_par _ _ _ _ _ _ _ Hb).
    + intros j f Hf Hnp. rewrite (bare_body _ _ _ _ (bd_held _ _ _ _ _ _ _ Hb) (bd_frame _ _ _ _ _ _ _ Hb) j f Hf Hnp). apply marked_fid. exact HL.
    + intros p Hp. apply elem_of_list_singleton in Hp as ->. exact (bd_mb _ _ _ _ _ _ _ Hb).
  - destruct Hr as (-> & Hpre & Hcn & Hchr & _). pose proof (apt_tail _ _ _ _ _ Hapt) as Haptr. pose proof (ap_nd _ _ _ _ Hapt) as Hnd. cbn [map] in Hnd. apply NoDup_cons in Hnd as [Hni Hnd].
    destruct (body_all s0 (marked s (c_i c) l) al mo c (q :: rest) fuel Hch Hapt Hh1) as (s2 & Eb & Hb).
    { intros g Hg. rewrite marked_fid by exact HL. apply Hn; [left|exact Hg]. }
    { intros Hbc j Hj. rewrite marked_fid by exact HL. apply Hd. cbn [under]. rewrite Hbc. exact (dertop_in (q :: rest) _ Hj). }
    { cbn [length]. lia. }
    pose proof (held_trans _ _ _ Hh1 (bd_held _ _ _ _ _ _ _ Hb)) as Hh2.
    destruct (site_held _ _ _ _ _ Hh2 Hsite0) as (l2 & Hlh2 & Hsite2). pose proof (ls_lay _ _ _ _ Hsite2) as HL2. pose proof (ls_kind _ _ _ _ Hsite2) as Hki.
    assert (Hp2 : lpre l2 = Some (c_i q)) by (destruct Hlh2 as (_ & _ & -> & _); exact Hpre).
    assert (Hlay : forall p, p ∈ q :: rest -> exists lp, lays s !! c_i p = Some lp /\ lays (marked s (c_i c) l) !! c_i p = Some lp).
    { intros p Hp. destruct (chain_in _ _ _ Hchr Hp) as (lp0 & psh & Hsp). destruct (hd_lay _ _ Hh _ _ (ls_lay _ _ _ _ Hsp)) as (lp & Hlp & _). exists lp. split; [exact Hlp|]. unfold marked. cbn [lays]. rewrite list_lookup_insert_ne; [exact Hlp|]. intros E. apply Hni. rewrite E. exact (elem_of_list_fmap_1 c_i _ _ Hp). }
    destruct (IH q s2 fuel Hchr Haptr Hh2) as (s' & E' & Hc').
    { intros p Hp g Hg. destruct (Hlay p Hp) as (lp & Hlp & Hlp1). rewrite (fid_frame _ _ _ _ _ _ (bd_frame _ _ _ _ _ _ _ Hb) Hlp1).
      - rewrite marked_fid by exact HL. apply Hn; [right; exact Hp|exact Hg].
      - intros [[E _]|[_ E]]; [apply Hni; rewrite <- E; exact (elem_of_list_fmap_1 c_i _ _ Hp)|]. unfold parf in Hg. subst g. destruct Hg as [?|[?|[?|?]]]; discriminate. }
    { intros j Hj. pose proof (under_in _ _ Hj) as Hj'. apply elem_of_list_fmap in Hj' as (p & -> & Hp). destruct (Hlay p Hp) as (lp & Hlp & Hlp1). rewrite (fid_frame _ _ _ _ _ _ (bd_frame _ _ _ _ _ _ _ Hb) Hlp1).
      - rewrite marked_fid by exact HL. apply Hd. cbn [under]. destruct (base c); [exact (elem_of_list_fmap_1 c_i _ _ Hp)|exact Hj].
      - intros [(_ & E & _)|[E _]]; [destruct E as [?|[?|[?|?]]]; discriminate|]. exact (under_dertop (q :: rest) _ Hnd Hj E). }
    { intros p lp2 Hp Hlp2. destruct (Hlay p Hp) as (lp & Hlp & Hlp1). destruct (bd_frame _ _ _ _ _ _ _ Hb _ _ Hlp1) as (lp' & Hlp' & Hf & _). assert (lp2 = lp') as -> by congruence. rewrite Hf. exact (Hfl p lp ltac:(right; exact Hp) Hlp). }
    { cbn [length]. lia. }
    exists s'. split.
    { cbn [LBuildBP]. rewrite (mbnd_ok _ _ _ _ _ Honce). rewrite (mbnd_ok _ _ _ _ _ Eb). erewrite mbnd_ok by (apply getL_ok; exact HL2). rewrite Hp2. destruct (lkind_of l2) eqn:Ek; try exact E'. exfalso. unfold kind_is in Hki. rewrite Ek in Hki. destruct (c_l c) as [[]|]; first [discriminate Hki|destruct Hki as [Hki _]; discriminate Hki|exact Hki]. }
    pose proof (held_trans _ _ _ Hm (bd_held _ _ _ _ _ _ _ Hb)) as Hm2. pose proof (cp_held _ _ _ _ _ _ Hc') as Hc2.
    split.
    + exact (held_trans _ _ _ Hm2 Hc2).
    + eapply kept_trans; [exact (marked_kept _ _ _ HL)|]. eapply kept_trans; [exact (kept_body _ _ _ _ (bd_frame _ _ _ _ _ _ _ Hb))|exact (cp_kept _ _ _ _ _ _ Hc')].
    + destruct (join_tri c q rest (marked s (c_i c) l) s2 s' Hch Hapt Hh1 Hb Hc') as (W & C & Ht & HW). exists W, C. split; [exact Ht|exact HW].
    + intros p Hp Hpar f Hf. apply elem_of_cons in Hp as [->|Hp].
      * destruct (bd_par _ _ _ _ _ _ _ Hb Hpar f Hf) as (sh & Ho & Hot & Hlo). destruct (ok_held _ _ _ _ _ Hc2 Ho) as (Ho' & Hce & _). exists sh. split; [exact Ho'|]. split; [exact Hot|]. intros a Ha. apply Hlo. apply Hce. exact Ha.
      * destruct (cp_par _ _ _ _ _ _ Hc' _ Hp Hpar f Hf) as (sh & Ho & Hot & Hlo). exists sh. split; [exact Ho|]. split; [exact Hot|]. intros a Ha. specialize (Hlo _ Ha). pose proof (hd_len _ _ Hm2). cbn [marked ts] in *. lia.
    + intros j f Hf Hnp. pose proof (bare_trans _ _ _ _ _ (bare_body _ _ _ _ (bd_held _ _ _ _ _ _ _ Hb) (bd_frame _ _ _ _ _ _ _ Hb)) (cp_none _ _ _ _ _ _ Hc')) as HB. rewrite (HB j f Hf Hnp). apply marked_fid. exact HL.
    + intros p Hp Hpar. apply elem_of_cons in Hp as [->|Hp]; [|exact (cp_mb _ _ _ _ _ _ Hc' _ Hp Hpar)].
      intros a Ha. destruct (bd_par _ _ _ _ _ _ _ Hb Hpar FMBias ltac:(auto)) as (sh & Ho & _). destruct (ok_held _ _ _ _ _ Hc2 Ho) as (_ & Hce & _). apply (hd_mem _ _ Hc2). apply (bd_mb _ _ _ _ _ _ _ Hb Hpar). apply Hce. exact Ha.
Qed.
End Chain.
End TrnChain.
