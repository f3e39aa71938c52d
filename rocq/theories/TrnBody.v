(** * TrnBody: the parts that the training code of the layers has in common *)
From Verif Require Import Base Num ModelTools ModelOps ModelTensor ModelGraph ModelLayer Spec NetSpec FwdSpec Denote
  IndexProofs ExecProofs TensorFacts AccessProofs BuildProofs BuildFrame CompileProofs Agree FwdMask FwdBuild FwdSeg FwdOps FwdPool NetBuild NetChain FwdBody FwdExpr FwdConv FwdConv2 FwdAct FwdTotal
  BwdSpec BwdPost BwdLoop BwdOps BwdOps2 BwdOps3 BwdOps4 TrnSpec TrnTri TrnOwn TrnExpr TrnSite TrnDer TrnXfer.
From Coq Require Import Lia ZifyBool ZifyNat ZifyN.

Section TrnBody.
Context {T : Type} `{Num T}.
Implicit Types (s : lst T) (m : list T) (c q : clay T) (cs rest : list (clay T)).

(** The counters of contributions are what they were when the code was built. *)
Definition refs s i m : Prop := forall r, refc s i = Some r -> m !! r = mem (ts s) !! r.

Lemma share_den s0 s c psh l (L : layer T) : lay_site s0 c psh l -> held s0 s -> lten L FDif = fid s0 (c_i c) FDif -> lref L = lref l ->
  exists e t1 ex, shared_dif L s = (Ok e, MkL t1 (lays s) (rc s)) /\ seg nowhere (ts s) t1 [] [] /\ mem t1 = mem (ts s) /\ den t1 e ex (c_sh c) /\
    (forall m, length (mem (ts s)) <= length m -> refs s0 (c_i c) m -> exists d r, fval s0 (c_i c) FDif m = Some d /\ refv s0 (c_i c) m = Some r /\ evals t1 m ex = share r d) /\
    ((fid s (c_i c) FDif = Some e /\ ex = ELeaf e /\ t1 = ts s) \/ exists k, tens t1 !! e = Some (MkNode k empty_mat) /\ opk k).
Proof using Type.
  intros Hsite Hh Hd Hr. destruct (ls_ref _ _ _ _ Hsite) as (r & v & E1 & E2 & E3). destruct (ls_dif _ _ _ _ Hsite) as [Ho _]. pose proof Ho as (t & n & Hf & Hn).
  destruct (ok_held _ _ _ _ _ Hh Ho) as (Ho' & _ & Hv'). pose proof (fid_held _ _ _ _ _ Hh Hf) as Hf'. destruct (ok_node _ _ _ _ _ Ho' Hf') as (n' & Hn' & _ & Hvn).
  pose proof (hd_mem _ _ Hh _ _ E2) as E2'. pose proof (node_ok_den _ _ _ _ Hn') as D.
  assert (Hrc : refc s0 (c_i c) = Some r) by (unfold refc; rewrite (ls_lay _ _ _ _ Hsite); exact E1).
  assert (Hread : forall m, length (mem (ts s)) <= length m -> refs s0 (c_i c) m -> exists d, fval s0 (c_i c) FDif m = Some d /\ evals (ts s) m (ELeaf t) = Some d /\ refv s0 (c_i c) m = Some v /\ m !! r = Some v).
  { intros m Hm HR. destruct (ok_total _ _ _ _ m Ho) as (d & Ed & _); [pose proof (hd_len _ _ Hh); lia|]. exists d. split; [exact Ed|]. rewrite (node_ok_eval _ _ _ _ m Hn'), <- Hvn, Hv'. split; [exact Ed|].
    assert (m !! r = Some v) by (rewrite (HR _ Hrc); exact E2). split; [|assumption]. unfold refv. rewrite Hrc. assumption. }
  assert (Erun : shared_dif L s = (if nltb none v then liftT (NewOpScalar t (Some r) Op2Div) else mret t) s).
  { unfold shared_dif. rewrite Hd, Hf. erewrite mbnd_ok by reflexivity. rewrite Hr, E1. erewrite mbnd_ok by (apply liftT_ok; apply rdM_at; exact E2'). destruct s; reflexivity. }
  destruct (nltb none v) eqn:Eb.
  - destruct (scal_node (ts s) t r Op2Div _ _ D) as (t1 & Et & S1 & Em & _ & D1 & Ev); [eapply lookup_lt_Some; exact E2'|].
    exists (length (tens (ts s))), t1, (EScal (bop Op2Div) (ELeaf t) r). split; [rewrite Erun; apply liftT_ok; exact Et|]. split; [exact S1|]. split; [exact Em|]. split; [exact D1|]. split.
    + intros m Hm HR. destruct (Hread m Hm HR) as (d & H1 & H2 & H3 & H4). exists d, v. split; [exact H1|]. split; [exact H3|]. rewrite Ev. change (evals (ts s) m (EScal (bop Op2Div) (ELeaf t) r)) with (x ← evals (ts s) m (ELeaf t); y ← m !! r; v_scal (bop Op2Div) x y). rewrite H2, H4. unfold share. rewrite Eb. reflexivity.
    + right. injection Et as <-. eexists. cbn [tens]. split; [apply list_lookup_middle; reflexivity|exact I].
  - exists t, (ts s), (ELeaf t). split; [rewrite Erun; destruct s; reflexivity|]. split; [apply seg_refl|]. split; [reflexivity|]. split; [exact D|]. split.
    + intros m Hm HR. destruct (Hread m Hm HR) as (d & H1 & H2 & H3 & H4). exists d, v. split; [exact H1|]. split; [exact H3|]. rewrite H2. unfold share. rewrite Eb. reflexivity.
    + left. auto.
Qed.
Definition shareP s0 c m : Prop := refs s0 (c_i c) m /\ forall d r, fval s0 (c_i c) FDif m = Some d -> refv s0 (c_i c) m = Some r -> share r d <> None.
Definition shareR s0 c (n : node T) m m' : Prop := forall d r, fval s0 (c_i c) FDif m = Some d -> refv s0 (c_i c) m = Some r -> mval m' (nmat n) = share r d.
(** The error of a layer, divided by the number of contributions. *)
Lemma share_ok s0 s c psh l (L : layer T) : lay_site s0 c psh l -> held s0 s -> lten L FDif = fid s0 (c_i c) FDif -> lref L = lref l ->
  exists e sa t1 W C n, shared_dif L s = (Ok e, sa) /\ liftT (Build e) sa = (Ok tt, MkL t1 (lays s) (rc s)) /\
    tri (ts s) t1 W C (shareP s0 c) (shareR s0 c n) /\ (forall l, W l -> length (mem (ts s)) <= l) /\ node_ok t1 e n (c_sh c) /\
    forall a, Some a ∈ operands (nmat n) -> length (mem (ts s)) <= a \/ cells s0 (c_i c) FDif a.
Proof using Type.
  intros Hsite Hh Hd Hr. destruct (share_den _ _ _ _ _ _ Hsite Hh Hd Hr) as (e & ta & ex & E & S & Em & D & HV & HK).
  destruct (tri_build ta e ex (c_sh c) D) as (t1 & W & C & n & EB & HT & HW & Hl & Hn & _).
  exists e, (MkL ta (lays s) (rc s)), t1, W, C, n. split; [exact E|]. split; [apply (liftT_ok _ (MkL ta (lays s) (rc s))); exact EB|].
  pose proof (tri_after _ _ _ _ _ _ _ _ S HT ltac:(intros c0 Hc; inversion Hc)) as HT'. cbn [app] in HT'. pose proof (tri_len _ _ _ _ _ _ HT') as Hlen. split; [|split; [|split]].
  - eapply tri_post; [exact HT'| |]; cbn beta.
    + intros m Hm _ [HR HP]. destruct (HV m ltac:(lia) HR) as (d & r & H1 & H2 & H3). rewrite H3. auto.
    + intros m m' Hm _ [HR HP] _ Hv. destruct (HV m ltac:(lia) HR) as (d & r & H1 & H2 & H3). intros d' r' H1' H2'. congruence.
  - intros a Ha. apply HW in Ha. rewrite Em in Ha. exact Ha.
  - exact Hn.
  - intros a Ha. destruct HK as [(Hf & -> & ->)|(k & Hk & Ho)].
    + right. destruct (ls_dif _ _ _ _ Hsite) as [Hok _]. destruct (ok_held _ _ _ _ _ Hh Hok) as (Hok' & Hc & _). apply Hc. destruct (ok_node _ _ _ _ _ Hok' Hf) as (n1 & Hn1 & Hc1 & _). apply Hc1.
      destruct (node_ok_keep _ _ _ _ _ Hn1 (tri_keep _ _ _ _ _ _ HT) (tri_len _ _ _ _ _ _ HT)) as (n2 & Hn2 & Ho2 & _). assert (n2 = n) as -> by (destruct Hn as [A _]; destruct Hn2 as [B _]; congruence). congruence.
    + left. assert (Hbt : builded (nmat n) = true).
      { destruct (BuildGraph_grows _ _ _ _ EB) as [_ HG]. destruct (HG _ Hk eq_refl Ho) as (n' & Hn' & Hb & _). destruct Hn as [A _]. congruence. }
      destruct Hn as [A _]. pose proof (Build_owned _ _ _ _ _ _ EB Hk eq_refl Ho A Hbt) as Hw. destruct (owned_in _ _ _ _ Hw Ha). rewrite Em in *. assumption.
Qed.

(** Going on after the error of the layer and the derivative below. *)
Record pre_post s0 c q rest s s2 (e t p : nat) (W : nat -> Prop) (C : list (nat * T)) (ne nt np : node T) : Prop := {
  pp_held : held s s2;
  pp_frame : frame (derD (q :: rest)) s s2;
  pp_tri : tri (ts s) (ts s2) W C (shareP s0 c) (fun m m' => shareR s0 c ne m m' /\ exists a, s_der (rdg s0 m) (q :: rest) = Some a /\ mval m' (nmat nt) = Some a);
  pp_W : forall l, W l -> length (mem (ts s)) <= l;
  pp_e : node_ok (ts s2) e ne (c_sh c);
  pp_t : node_ok (ts s2) t nt (c_sh q);
  pp_p : node_ok (ts s2) p np (c_sh q);
  pp_pv : (forall m, mval m (nmat np) = fval s0 (c_i q) FDif m) /\ NoDup (operands (nmat np));
  pp_pc : forall a, Some a ∈ operands (nmat np) <-> cells s0 (c_i q) FDif a;
  pp_ec : forall a, Some a ∈ operands (nmat ne) -> length (mem (ts s)) <= a \/ cells s0 (c_i c) FDif a;
  pp_tc : forall a, Some a ∈ operands (nmat nt) -> length (mem (ts s)) <= a;
}.
Lemma kind_in (l : layer T) c : kind_is l c -> lkind_of l = LInput -> lpre l = None.
Proof using Type. unfold kind_is. destruct (c_l c) as [[]|]; intros Hk Hi; try (rewrite Hi in Hk; discriminate Hk); [destruct Hk|apply Hk]. Qed.
Lemma GetDif_ok s0 s q psh l t : lay_site s0 q psh l -> held s0 s -> fid s0 (c_i q) FDif = Some t -> GetDif (c_i q) s = (Ok (Some t), s).
Proof using Type.
  intros Hs Hh Ht. destruct (site_held _ _ _ _ _ Hh Hs) as (l' & _ & Hs'). pose proof (ls_lay _ _ _ _ Hs') as HL. pose proof (fid_held _ _ _ _ _ Hh Ht) as Ht'. rewrite (fid_lay _ _ _ _ HL) in Ht'.
  unfold GetDif. rewrite <- Ht'. apply GetT_direct; [exact HL|]. apply (kind_in _ q). apply (ls_kind _ _ _ _ Hs').
Qed.
Lemma dif_node s0 s q psh l : lay_site s0 q psh l -> held s0 s -> exists p np, fid s0 (c_i q) FDif = Some p /\ GetDif (c_i q) s = (Ok (Some p), s) /\
  node_ok (ts s) p np (c_sh q) /\ (forall m, mval m (nmat np) = fval s0 (c_i q) FDif m) /\ NoDup (operands (nmat np)) /\ forall a, Some a ∈ operands (nmat np) <-> cells s0 (c_i q) FDif a.
Proof using Type.
  intros Hs Hh. destruct (ls_dif _ _ _ _ Hs) as [Hd Hnd]. pose proof Hd as (p & n & Hp & Hn). destruct (ok_held _ _ _ _ _ Hh Hd) as (Hd' & Hc & Hv). pose proof (fid_held _ _ _ _ _ Hh Hp) as Hp'.
  destruct (ok_node _ _ _ _ _ Hd' Hp') as (np & Hnp & Hc' & Hv'). exists p, np. split; [exact Hp|]. split; [eapply GetDif_ok; eassumption|]. split; [exact Hnp|].
  split; [intros m; rewrite <- Hv', Hv; reflexivity|]. split; [|intros a; rewrite <- Hc', Hc; reflexivity].
  destruct (node_ok_keep _ _ _ _ _ Hn (hd_keep _ _ Hh) (hd_len _ _ Hh)) as (n2 & Hn2 & Ho & _). assert (n2 = np) as -> by (destruct Hn2 as [A _]; destruct Hnp as [B _]; congruence). rewrite Ho. apply Hnd. unfold fnode. rewrite Hp. apply Hn.
Qed.
Lemma pre_ok s0 s c q rest l (L : layer T) fuel al mo : lay_site s0 c (c_sh q) l -> chain s0 (q :: rest) -> apt s0 (c :: q :: rest) al mo -> NoDup (map c_i (q :: rest)) -> held s0 s -> lten L FDif = fid s0 (c_i c) FDif -> lref L = lref l ->
  (forall j, j ∈ dertop (q :: rest) -> fid s j FDer = None) -> length (q :: rest) <= fuel ->
  exists e sa s1 t s2 p W C ne nt np, shared_dif L s = (Ok e, sa) /\ liftT (Build e) sa = (Ok tt, s1) /\ LBuildDer fuel (c_i q) s1 = (Ok t, s2) /\ GetDif (c_i q) s2 = (Ok (Some p), s2) /\
    pre_post s0 c q rest s s2 e t p W C ne nt np.
Proof using Type.
  intros Hsite Hch Hapt Hnd Hh Hd Hr HF Hfu. destruct (share_ok _ _ _ _ _ _ Hsite Hh Hd Hr) as (e & sa & t1 & W1 & C1 & ne & E1 & E2 & T1 & HW1 & Hne & Hec).
  set (s1 := MkL t1 (lays s) (rc s)) in *. pose proof (held_ts _ _ _ _ _ _ T1) as Hh1. fold s1 in Hh1. pose proof (held_trans _ _ _ Hh Hh1) as Hh01.
  destruct (der_ok s0 (q :: rest) Hch Hnd fuel s1 q rest eq_refl Hh01 HF Hfu) as (t & s2 & W2 & C2 & nt & E3 & [d1 d2 d3 d4 d5 d6]).
  destruct (chain_head _ _ _ Hch) as (lq & pq & Hsq & _). pose proof (held_trans _ _ _ Hh01 d1) as Hh02. destruct (dif_node _ _ _ _ _ Hsq Hh02) as (p & np & Hp & E4 & Hnp & Hvp & Hndp & Hcp).
  destruct (node_ok_keep _ _ _ _ _ Hne (tri_keep _ _ _ _ _ _ d3) (tri_len _ _ _ _ _ _ d3)) as (ne2 & Hne2 & Hoe & Hve). cbn [ts s1] in *.
  pose proof (tri_len _ _ _ _ _ _ T1) as L1. pose proof (tri_len _ _ _ _ _ _ d3) as L2.
  assert (Hlow : lowW s0 (c :: q :: rest) W1) by (intros a0 Ha0; left; apply HW1 in Ha0; pose proof (hd_len _ _ Hh); lia).
  exists e, sa, s1, t, s2, p, (either W1 W2), (C1 ++ C2), ne2, nt, np. repeat (split; [assumption|]). split.
  - eapply held_trans; eassumption.
  - intros j lj Hj. exact (d2 j lj Hj).
  - eapply tri_post; [exact (tri_seq _ _ _ _ _ _ _ _ _ _ _ T1 d3 (fresh_seq _ _ _ _ _ _ _ _ _ _ _ T1 d3 d4))| |]; cbn beta.
    + intros m _ _ HP. split; [exact HP|]. intros; exact I.
    + intros m m' Hm _ HP _ (m1 & R1 & HS & R2 & a & Ea & Eb). split.
      * intros d r H1 H2. rewrite Hve, <- (HS d r H1 H2). eapply ran_val; [exact R2|]. intros x Hx Hw. apply d4 in Hw. apply (node_ok_lt _ _ _ _ _ Hne) in Hx. lia.
      * exists a. split; [|exact Eb]. rewrite <- Ea. apply s_der_agree. intros x Hx. pose proof (agree_ran _ _ _ _ _ _ _ x Hapt Hlow R1 ltac:(right; exact Hx)) as Hag.
        unfold agree in *. intuition congruence.
  - intros a [Ha|Ha]; [auto|]. apply d4 in Ha. lia.
  - exact Hne2.
  - exact d5.
  - exact Hnp.
  - auto.
  - exact Hcp.
  - rewrite Hoe. exact Hec.
  - intros a Ha. apply d6 in Ha. lia.
Qed.

(** ** What the code of one layer does *)
Definition parf (f : tfield) : Prop := f = FNWeights \/ f = FMWeights \/ f = FNBias \/ f = FMBias.
Definition bodyD c (rest : list (clay T)) (j : nat) (f : tfield) : Prop := (j = c_i c /\ parf f /\ c_par c = true) \/ derD rest j f.
(** The parameter whose shape a tensor of the training part has. *)
Definition twin (f : tfield) : tfield := match f with FNBias | FMBias => FBias | _ => FWeights end.
Definition mbv s m (i : nat) : option (vten T) := fval s i FMBias m.
Definition c_mom c : bool := match c_l c with Some (SConv _ _ _ _ _ _) | Some (SDeconv _ _ _ _ _ _) => true | _ => false end.
Definition bodyP s0 s' (al mo : nat) c rest m : Prop :=
  refs s0 (c_i c) m /\ exists d a b, fval s0 (c_i c) FDif m = Some d /\ m !! al = Some a /\ m !! mo = Some b /\
    s_par (rdg s0 m) (mbv s' m) a b c d <> None /\
    match rest with
    | [] => True
    | q :: _ => s_in (rdg s0 m) c (s_der (rdg s0 m) rest) (c_sh q) d <> None /\ (c_l c <> Some SSoft -> fval s0 (c_i q) FDif m = Some (vzero (c_sh q)))
    end.
Definition bodyR s0 s' (al mo : nat) c rest m m' : Prop :=
  forall d a b, fval s0 (c_i c) FDif m = Some d -> m !! al = Some a -> m !! mo = Some b ->
    match rest with [] => True | q :: _ => fval s0 (c_i q) FDif m' = s_in (rdg s0 m) c (s_der (rdg s0 m) rest) (c_sh q) d end /\
    (c_par c = true -> exists nb nw, s_par (rdg s0 m) (mbv s' m) a b c d = Some (Some (nb, nw)) /\ fval s' (c_i c) FNBias m' = Some nb /\ fval s' (c_i c) FNWeights m' = Some nw /\
       (c_mom c = true -> fval s' (c_i c) FMBias m' = s_db (mbv s' m) a b (c_i c) d)).
Definition bodyW s0 s c rest (l : nat) : Prop := length (mem (ts s)) <= l \/ exists q r, rest = q :: r /\ c_l c <> Some SSoft /\ cells s0 (c_i q) FDif l.
(** The momentum of the bias starts at zero. *)
Definition mbzero s' (i : nat) : Prop := forall a, cells s' i FMBias a -> mem (ts s') !! a = Some nzero.
Record body_post s0 al mo c rest s s' : Prop := {
  bd_held : held s s';
  bd_frame : frame (bodyD c rest) s s';
  bd_tri : exists W C, tri (ts s) (ts s') W C (bodyP s0 s' al mo c rest) (bodyR s0 s' al mo c rest) /\ forall l, W l -> bodyW s0 s c rest l;
  bd_par : c_par c = true -> forall f, f = FNBias \/ f = FNWeights \/ f = FMBias -> exists sh, ok s' (c_i c) f sh /\ ok s0 (c_i c) (twin f) sh /\ forall a, cells s' (c_i c) f a -> length (mem (ts s)) <= a;
  bd_mb : c_par c = true -> mbzero s' (c_i c);
}.

(** The error of the layer below, once the error of the layer is shared. *)
Definition g_in (R : reading T) c (a : option (vten T)) (psh : list N) (e : vten T) : option (vten T) :=
  let i := c_i c in let p := vzero psh in
  match c_l c with
  | Some (SDense _ _) => w ← r_w R i; a' ← a; g_dense_in e w a' p
  | Some (SConv _ kw _ sx sy _) => w ← r_w R i; a' ← a; g_conv_in kw sx sy e w a' p
  | Some (SDeconv _ kw kh sx sy _) => w ← r_w R i; a' ← a; g_deconv_in kw kh sx sy e w a' p
  | Some (SPool sx sy) => x ← r_x R i; y ← r_y R i; g_pool sx sy e x y p
  | Some (SUp sx sy) => g_up sx sy e psh
  | _ => None
  end.
Definition shares c : bool := match c_l c with Some SFlat | Some (SNorm _ _) | Some SSoft | Some (SSub _ _ _) | None => false | _ => true end.
Lemma s_in_g R c a psh d : shares c = true -> s_in R c a psh d = (r ← r_ref R (c_i c); e ← share r d; g_in R c a psh e).
Proof using Type. unfold shares, s_in, g_in. destruct (c_l c) as [[]|]; intros E; try discriminate E; reflexivity. Qed.

Record in_post s0 c q rest s s3 (e : nat) (ne : node T) (W : nat -> Prop) (C : list (nat * T)) : Prop := {
  ip_held : held s s3;
  ip_frame : frame (derD (q :: rest)) s s3;
  ip_tri : tri (ts s) (ts s3) W C (fun m => shareP s0 c m /\ fval s0 (c_i q) FDif m = Some (vzero (c_sh q)))
     (fun m m' => shareR s0 c ne m m' /\ forall d, fval s0 (c_i c) FDif m = Some d -> fval s0 (c_i q) FDif m' = s_in (rdg s0 m) c (s_der (rdg s0 m) (q :: rest)) (c_sh q) d);
  ip_W : forall l, W l -> length (mem (ts s)) <= l \/ cells s0 (c_i q) FDif l;
  ip_e : node_ok (ts s3) e ne (c_sh c);
  ip_ec : forall a, Some a ∈ operands (nmat ne) -> length (mem (ts s)) <= a \/ cells s0 (c_i c) FDif a;
}.
Lemma in_from s0 s c q rest l s2 e p W C ne np (Q : list T -> list T -> Prop) t3 W3 R3 : shares c = true -> lay_site s0 c (c_sh q) l ->
  (forall a, cells s0 (c_i c) FDif a -> ~ cells s0 (c_i q) FDif a) -> (forall a, cells s0 (c_i q) FDif a -> a < length (mem (ts s))) ->
  held s s2 -> frame (derD (q :: rest)) s s2 -> tri (ts s) (ts s2) W C (shareP s0 c) (fun m m' => shareR s0 c ne m m' /\ Q m m') -> (forall l, W l -> length (mem (ts s)) <= l) ->
  node_ok (ts s2) e ne (c_sh c) -> (forall a, Some a ∈ operands (nmat ne) -> length (mem (ts s)) <= a \/ cells s0 (c_i c) FDif a) ->
  node_ok (ts s2) p np (c_sh q) -> (forall m, mval m (nmat np) = fval s0 (c_i q) FDif m) -> (forall a, Some a ∈ operands (nmat np) <-> cells s0 (c_i q) FDif a) ->
  tri (ts s2) t3 W3 [] any R3 -> (forall l, W3 l -> length (mem (ts s2)) <= l \/ Some l ∈ operands (nmat np)) ->
  (forall m m1 m' ve, length (mem (ts s2)) <= length m -> ran W m m1 -> Q m m1 -> R3 m1 m' -> mval m1 (nmat ne) = Some ve -> mval m1 (nmat np) = Some (vzero (c_sh q)) ->
     mval m' (nmat np) = g_in (rdg s0 m) c (s_der (rdg s0 m) (q :: rest)) (c_sh q) ve) ->
  exists ne' W' C', in_post s0 c q rest s (MkL t3 (lays s2) (rc s2)) e ne' W' C'.
Proof using Type.
  intros Hsh Hsite Hdis Hlo Hh Hf HT HW Hne Hec Hnp Hvp Hcp HT3 HW3 HR.
  pose proof (tri_len _ _ _ _ _ _ HT) as L1. pose proof (tri_len _ _ _ _ _ _ HT3) as L3.
  destruct (node_ok_keep _ _ _ _ _ Hne (tri_keep _ _ _ _ _ _ HT3) L3) as (ne3 & Hne3 & Hoe & Hve).
  assert (HC : forall c0 : nat * T, c0 ∈ C -> ~ W3 (fst c0)).
  { intros c0 Hc0 Hw. destruct (tri_C _ _ _ _ _ _ _ HT Hc0) as ([Hx1 Hx2] & _). apply HW3 in Hw as [Hw|Hw]; [lia|]. apply Hcp, Hlo in Hw. lia. }
  assert (Hn3 : forall x, Some x ∈ operands (nmat ne) -> ~ W3 x).
  { intros x Hx Hw. pose proof (node_ok_lt _ _ _ _ _ Hne Hx). apply HW3 in Hw as [Hw|Hw]; [lia|]. apply Hcp in Hw. destruct (Hec _ Hx) as [Hy|Hy]; [apply Hlo in Hw; lia|exact (Hdis _ Hy Hw)]. }
  exists ne3, (either W W3), (C ++ []). split; cbn [ts lays rc].
  - eapply held_trans; [exact Hh|]. exact (held_ts _ _ _ _ _ _ HT3).
  - eapply frame_lays; [exact Hf|reflexivity].
  - eapply tri_post; [exact (tri_seq _ _ _ _ _ _ _ _ _ _ _ HT HT3 HC)| |]; cbn beta.
    + intros m _ _ [HP _]. split; [exact HP|]. intros; exact I.
    + intros m m' Hm _ [[Hrf HP] Hz] _ (m1 & R1 & [HS HQ] & R2 & H3).
      assert (HS' : shareR s0 c ne3 m m').
      { intros d r H1 H2. rewrite Hve, <- (HS d r H1 H2). eapply ran_val; [exact R2|exact Hn3]. }
      split; [exact HS'|]. intros d Hd. rewrite s_in_g by exact Hsh. cbn [r_ref rdg].
      destruct (ls_ref _ _ _ _ Hsite) as (rr & v & E1 & E2 & _). assert (Hr : refv s0 (c_i c) m = Some v).
      { unfold refv, refc. rewrite (ls_lay _ _ _ _ Hsite). cbn [mbind option_bind]. rewrite E1. cbn [mbind option_bind]. rewrite Hrf; [exact E2|]. unfold refc. rewrite (ls_lay _ _ _ _ Hsite). exact E1. }
      rewrite Hr. cbn [mbind option_bind]. specialize (HP _ _ Hd Hr). specialize (HS _ _ Hd Hr). destruct (share v d) as [ve|] eqn:Es; [|congruence]. cbn [mbind option_bind].
      rewrite <- Hvp. apply (HR m m1 m' ve); try assumption; [lia|]. rewrite Hvp, <- Hz. apply fval_off. intros a Ha. eapply ran_cell; [exact R1|]. intros Hw. apply HW in Hw. apply Hlo in Ha. lia.
  - intros a [Ha|Ha]; [left; auto|]. apply HW3 in Ha as [Ha|Ha]; [left; lia|right; apply Hcp; exact Ha].
  - exact Hne3.
  - rewrite Hoe. exact Hec.
Qed.
(** A layer without bias and weights. *)
Lemma in_body s0 al mo c q rest s s3 e ne W C : shares c = true -> c_par c = false -> in_post s0 c q rest s s3 e ne W C -> body_post s0 al mo c (q :: rest) s s3.
Proof using Type.
  intros Hsh Hp [i1 i2 i3 i4 i5 i6]. split.
  - exact i1.
  - intros j l Hl. destruct (i2 j l Hl) as (l' & H1 & H2 & H3). exists l'. split; [exact H1|]. split; [exact H2|]. intros f Hf. apply H3. intros Hx. apply Hf. right. exact Hx.
  - exists W, C. split.
    + eapply tri_post; [exact i3| |]; cbn beta.
      * intros m _ _ (Hr & d & a & b & Hd & _ & _ & _ & Hin & Hz). rewrite s_in_g in Hin by exact Hsh. split; [split; [exact Hr|]|].
        -- intros d' r Hd' Hr' Hs. apply Hin. assert (d' = d) as -> by congruence. cbn [r_ref rdg]. rewrite Hr'. cbn [mbind option_bind]. rewrite Hs. reflexivity.
        -- apply Hz. unfold shares in Hsh. destruct (c_l c) as [[]|]; try discriminate Hsh; discriminate.
      * intros m m' _ _ _ _ [_ HR] d a b Hd _ _. split; [exact (HR d Hd)|]. intros Hx. congruence.
    + intros l Hl. destruct (i4 _ Hl) as [Hx|Hx]; [left; exact Hx|right]. exists q, rest. split; [reflexivity|]. split; [|exact Hx]. unfold shares in Hsh. destruct (c_l c) as [[]|]; try discriminate Hsh; discriminate.
  - intros Hx. congruence.
  - intros Hx. congruence.
Qed.
End TrnBody.
