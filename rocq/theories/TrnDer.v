(** * TrnDer: the derivative at the output of a layer *)
From Verif Require Import Base Num ModelTools ModelOps ModelTensor ModelGraph ModelLayer Spec NetSpec FwdSpec Denote
  IndexProofs ExecProofs TensorFacts AccessProofs BuildProofs BuildFrame CompileProofs Agree FwdMask FwdBuild FwdSeg FwdOps FwdPool NetBuild NetChain FwdBody FwdExpr FwdConv FwdConv2 FwdAct FwdTotal
  BwdSpec BwdPost BwdLoop BwdOps4 TrnSpec TrnTri TrnOwn TrnExpr TrnSite.
From Coq Require Import Lia ZifyBool ZifyNat ZifyN.

Section TrnDer.
Context {T : Type} `{Num T}.
Implicit Types (s : lst T) (m : list T) (c q : clay T) (cs : list (clay T)).

(** ** Fields that are set *)
Definition frame (D : nat -> tfield -> Prop) s s' : Prop :=
  forall j l, lays s !! j = Some l -> exists l', lays s' !! j = Some l' /\ lflag l' = lflag l /\ forall f, ~ D j f -> lten l' f = lten l f.
Lemma frame_refl D s : frame D s s.
Proof using Type. intros j l Hl. exists l. auto. Qed.
Lemma frame_trans (D1 D2 D : nat -> tfield -> Prop) s1 s2 s3 : frame D1 s1 s2 -> frame D2 s2 s3 -> (forall j f, D1 j f \/ D2 j f -> D j f) -> frame D s1 s3.
Proof using Type.
  intros F1 F2 HD j l Hl. destruct (F1 j l Hl) as (l2 & H2 & B2 & E2). destruct (F2 j l2 H2) as (l3 & H3 & B3 & E3). exists l3. split; [exact H3|]. split; [congruence|].
  intros f Hf. rewrite E3, E2; [reflexivity|intros Hx; apply Hf, HD; auto|intros Hx; apply Hf, HD; auto].
Qed.
Lemma frame_lays D s s' s'' : frame D s s' -> lays s'' = lays s' -> frame D s s''.
Proof using Type. intros F E j l Hl. rewrite E. exact (F j l Hl). Qed.
Lemma tfield_eqb_eq f g : tfield_eqb f g = true <-> f = g.
Proof using Type. clear. destruct f, g; cbn; split; intros E; (reflexivity || discriminate E). Qed.
Lemma set_ten_same f v (l : layer T) : lten (set_ten f v l) f = v.
Proof using Type. unfold set_ten. cbn [lten]. replace (tfield_eqb f f) with true by (symmetry; apply tfield_eqb_eq; reflexivity). reflexivity. Qed.
Lemma set_ten_ne f g v (l : layer T) : g <> f -> lten (set_ten f v l) g = lten l g.
Proof using Type. intros Hne. unfold set_ten. cbn [lten]. destruct (tfield_eqb g f) eqn:E; [apply tfield_eqb_eq in E; congruence|reflexivity]. Qed.
Lemma lheld_set f v (l : layer T) : lten l f = None -> lheld l (set_ten f (Some v) l).
Proof using Type.
  intros Hn. repeat split. intros g t Hg. destruct (decide (tfield_eqb g f = true)) as [E|E].
  - apply tfield_eqb_eq in E as ->. congruence.
  - rewrite set_ten_ne; [exact Hg|]. intros ->. apply E. apply tfield_eqb_eq. reflexivity.
Qed.
Lemma frame_set i f v l s t' : lays s !! i = Some l -> frame (fun j g => j = i /\ g = f) s (MkL t' (<[i := set_ten f v l]> (lays s)) (rc s)).
Proof using Type.
  intros Hi j lj Hj. cbn [lays]. destruct (decide (j = i)) as [->|Hne].
  - rewrite list_lookup_insert by (eapply lookup_lt_Some; exact Hi). eexists. split; [reflexivity|]. assert (lj = l) as -> by congruence. split; [reflexivity|]. intros g Hg. apply set_ten_ne. intros ->. apply Hg. auto.
  - rewrite list_lookup_insert_ne by auto. exists lj. auto.
Qed.
(** Tensors change, one field is set. *)
Lemma held_step s t' i l f v W C P R : tri (ts s) t' W C P R -> lays s !! i = Some l -> lten l f = None ->
  held s (MkL t' (<[i := set_ten f (Some v) l]> (lays s)) (rc s)).
Proof using Type.
  intros Ht Hi Hn. eapply held_trans; [exact (held_ts _ _ _ _ _ _ Ht)|]. exact (held_set (MkL t' (lays s) (rc s)) i l _ Hi (lheld_set f v l Hn)).
Qed.
Lemma fid_lay s i f l : lays s !! i = Some l -> fid s i f = lten l f.
Proof using Type. intros Hl. unfold fid. rewrite Hl. reflexivity. Qed.
Lemma fid_frame (D : nat -> tfield -> Prop) s s' i f l : frame D s s' -> lays s !! i = Some l -> ~ D i f -> fid s' i f = fid s i f.
Proof using Type. intros F Hl Hd. destruct (F _ _ Hl) as (l' & Hl' & _ & E). rewrite (fid_lay _ _ _ _ Hl), (fid_lay _ _ _ _ Hl'). auto. Qed.

Lemma chain_head s c rest : chain s (c :: rest) -> exists l psh, lay_site s c psh l /\
  match rest with
  | [] => lpre l = None /\ base c = true
  | q :: _ => psh = c_sh q /\ lpre l = Some (c_i q) /\ c_l c <> None /\ chain s rest /\
      (c_l c <> Some SSoft -> forall p a, p ∈ rest -> cells s (c_i c) FDif a -> ~ cells s (c_i p) FDif a) /\
      (c_l c = Some SSoft -> fid s (c_i c) FDif = fid s (c_i q) FDif)
  end.
Proof using Type.
  destruct rest as [|q rest]; cbn [chain].
  - intros (l & psh & Hs & Hp & Hk). exists l, psh. split; [exact Hs|]. split; [exact Hp|]. unfold base. destruct (c_l c) as [[]|]; try destruct Hk; reflexivity.
  - intros (l & Hs & Hp & Hn & Hd & Hc). exists l, (c_sh q). repeat (split; [first [exact Hs|exact Hp|exact Hn|exact Hc|reflexivity]|]). destruct (c_l c) as [[]|]; (split; [intros; try congruence; eauto|intros E; try discriminate E; exact Hd]).
Qed.

(** The layers whose derivative is built on the way to the derivative of the top. *)
Fixpoint dertop cs : list nat :=
  match cs with [] => [] | c :: rest => c_i c :: (if base c then [] else dertop rest) end.
Lemma dertop_in cs j : j ∈ dertop cs -> j ∈ map c_i cs.
Proof using Type.
  induction cs as [|c rest IH]; cbn [dertop map]; [auto|]. intros Hj. apply elem_of_cons in Hj as [->|Hj]; [left|right]. destruct (base c); [inversion Hj|auto].
Qed.
Definition derD cs (j : nat) (f : tfield) : Prop := j ∈ dertop cs /\ f = FDer.

Record der_post s0 cs sh s s' (t : nat) (W : nat -> Prop) (C : list (nat * T)) (n : node T) : Prop := {
  dp_held : held s s';
  dp_frame : frame (derD cs) s s';
  dp_tri : tri (ts s) (ts s') W C any (fun m m' => exists v, s_der (rdg s0 m) cs = Some v /\ mval m' (nmat n) = Some v);
  dp_W : forall l, W l -> length (mem (ts s)) <= l;
  dp_node : node_ok (ts s') t n sh;
  dp_new : forall l, Some l ∈ operands (nmat n) -> length (mem (ts s)) <= l;
}.
Lemma rd_n s m i : r_n (rdg s m) i = fval s i FNeta m. Proof using Type. reflexivity. Qed.

Lemma der_base s0 c rest s fuel l psh : lay_site s0 c psh l -> base c = true ->
  held s0 s -> fid s (c_i c) FDer = None ->
  exists t s' W C n, LBuildDer (S fuel) (c_i c) s = (Ok t, s') /\ der_post s0 (c :: rest) (c_sh c) s s' t W C n.
Proof using Type.
  intros Hsite Hb Hh HF. destruct (site_held _ _ _ _ _ Hh Hsite) as (l' & Hlh & Hsite'). destruct (ls_base _ _ _ _ Hsite Hb) as (Hneta0 & _).
  destruct (ls_base _ _ _ _ Hsite' Hb) as (Hneta & a & Ha & Had). pose proof Hneta as (tn & nn & Htn & Hnn). destruct (ok_node _ _ _ _ _ Hneta Htn) as (nn' & Hnn' & _ & Hfv).
  pose proof (ls_lay _ _ _ _ Hsite') as HL. rewrite (fid_lay _ _ _ _ HL) in Htn. rewrite (fid_lay _ _ _ _ HL) in HF.
  destruct (act_node _ _ _ _ (act_d a) Hnn') as (t2 & W & C & n' & EB & Ht & HW & Hl & Hn' & Ho).
  eexists (length (tens (ts s))), _, W, C, n'. split.
  - cbn [LBuildDer]. erewrite mbnd_ok by (apply getL_ok; exact HL).
    transitivity ((neta <~ the (lten l' FNeta) ; a <~ the (lact l') ; d <~ liftT (NActivate neta (act_d a)) ; setF (c_i c) FDer d ;~ liftT (Build d) ;~ mret d) s).
    { pose proof (ls_kind _ _ _ _ Hsite') as Hk'. unfold kind_is in Hk'. unfold base in Hb. destruct (c_l c) as [[]|]; try discriminate Hb; try (rewrite Hk', HF; reflexivity). destruct Hk' as [-> ->]. rewrite HF. reflexivity. }
    rewrite Htn, Ha. erewrite mbnd_ok by reflexivity. erewrite mbnd_ok by reflexivity. erewrite mbnd_ok by (apply liftT_ok; reflexivity).
    unfold setF. erewrite mbnd_ok by (apply updL_ok; exact HL). cbn [ts lays rc]. erewrite mbnd_ok by (apply liftT_ok; cbn [ts]; exact EB). reflexivity.
  - split; cbn [ts lays rc].
    + exact (held_step _ _ _ _ _ _ _ _ _ _ Ht HL HF).
    + intros j lj Hj. destruct (frame_set _ FDer (Some (length (tens (ts s)))) _ s t2 HL j lj Hj) as (l2 & H2 & B2 & E2). exists l2. split; [exact H2|]. split; [exact B2|]. intros f Hf. apply E2. intros [-> ->]. apply Hf. split; [left|reflexivity].
    + eapply tri_post; [exact Ht|intros; exact I|]. cbn beta. intros m m' Hm _ _ _ (v & Ev & Ev'). exists (v_map (act_d a) v). split; [|exact Ev'].
      assert (Hn0 : r_n (rdg s0 m) (c_i c) = Some v). { rewrite rd_n, <- Ev, <- Hfv. symmetry. apply (ok_held _ _ _ _ _ Hh Hneta0). }
      cbn [s_der]. unfold base in Hb. destruct (c_l c) as [[]|]; try discriminate Hb; rewrite Hn0, Had; reflexivity.
    + exact HW.
    + exact Hn'.
    + intros l0 Hl0. destruct (owned_in _ _ _ _ Ho Hl0). assumption.
Qed.

(** Only the field is set. *)
Lemma der_same s0 c rest q s s1 t l W C n : c_l c = Some SSoft \/ (exists mn mx, c_l c = Some (SNorm mn mx)) -> c_sh c = c_sh q ->
  lays s1 !! c_i c = Some l -> lten l FDer = None -> der_post s0 rest (c_sh q) s s1 t W C n ->
  der_post s0 (c :: rest) (c_sh c) s (MkL (ts s1) (<[c_i c := set_ten FDer (Some t) l]> (lays s1)) (rc s1)) t W C n.
Proof using Type.
  intros Hk Hsh HL HF [d1 d2 d3 d4 d5 d6].
  assert (Hd : forall m, s_der (rdg s0 m) (c :: rest) = s_der (rdg s0 m) rest) by (intros m; cbn [s_der]; destruct Hk as [->|(mn & mx & ->)]; reflexivity).
  assert (Hb : base c = false) by (unfold base; destruct Hk as [->|(mn & mx & ->)]; reflexivity).
  split; cbn [ts lays rc].
  - eapply held_trans; [exact d1|]. exact (held_step _ _ _ _ _ _ _ _ _ _ (tri_refl (ts s1)) HL HF).
  - eapply frame_trans; [exact d2|exact (frame_set _ FDer (Some t) _ _ (ts s1) HL)|]. intros j f [[H1 H2]|[-> ->]]; split; auto; cbn [dertop]; rewrite Hb; [right; exact H1|left].
  - eapply tri_post; [exact d3|auto|]. cbn beta. intros m m' _ _ _ _ (v & E1 & E2). exists v. rewrite Hd. auto.
  - exact d4.
  - rewrite Hsh. exact d5.
  - exact d6.
Qed.

Lemma fresh_seq (s s1 s2 : tst T) (W1 W2 : nat -> Prop) C1 C2 P1 P2 R1 R2 : tri s s1 W1 C1 P1 R1 -> tri s1 s2 W2 C2 P2 R2 -> (forall l, W2 l -> length (mem s1) <= l) -> forall c : nat * T, c ∈ C1 -> ~ W2 (fst c).
Proof using Type. intros T1 T2 HW c Hc Hw. destruct (tri_C _ _ _ _ _ _ _ T1 Hc) as [Hl _]. apply HW in Hw. lia. Qed.
Lemma der_flat s0 c rest q s s1 t l W C n : c_l c = Some SFlat -> c_sh c = [prodN (c_sh q)] ->
  lays s1 !! c_i c = Some l -> lten l FDer = None -> der_post s0 rest (c_sh q) s s1 t W C n ->
  exists t' s' W' C' n', (d <~ liftT (Flatten t) ; setF (c_i c) FDer d ;~ liftT (Build d) ;~ mret d) s1 = (Ok t', s') /\ der_post s0 (c :: rest) (c_sh c) s s' t' W' C' n'.
Proof using Type.
  intros Hk Hsh HL HF [d1 d2 d3 d4 d5 d6]. destruct (flat_node _ _ _ _ d5) as (t2 & W2 & C2 & n' & EF & EB & Ht & HW & Hl & Hn' & Ho).
  eexists (length (tens (ts s1))), _, (either W W2), (C ++ C2), n'. split.
  - erewrite mbnd_ok by (apply liftT_ok; exact EF). unfold setF. erewrite mbnd_ok by (apply updL_ok; exact HL). cbn [ts lays rc]. erewrite mbnd_ok by (apply liftT_ok; cbn [ts]; exact EB). reflexivity.
  - pose proof (tri_len _ _ _ _ _ _ d3) as L1. split; cbn [ts lays rc].
    + eapply held_trans; [exact d1|]. exact (held_step _ _ _ _ _ _ _ _ _ _ Ht HL HF).
    + eapply frame_trans; [exact d2|exact (frame_set _ FDer (Some (length (tens (ts s1)))) _ _ t2 HL)|]. intros j f [[H1 H2]|[-> ->]]; split; auto; cbn [dertop]; unfold base; rewrite Hk; cbn [has_par]; [right; exact H1|left].
    + eapply tri_post; [exact (tri_seq _ _ _ _ _ _ _ _ _ _ _ d3 Ht (fresh_seq _ _ _ _ _ _ _ _ _ _ _ d3 Ht HW))|cbn beta; intros; split; [exact I|intros; exact I]|].
      cbn beta. intros m m' _ _ _ _ (m1 & _ & (v & E1 & E2) & _ & (v2 & E3 & E4)). exists (v_flat v). assert (v2 = v) as -> by congruence. split; [|exact E4]. cbn [s_der]. rewrite Hk, E1. reflexivity.
    + intros l0 [Hl0|Hl0]; [auto|]. apply HW in Hl0. lia.
    + rewrite Hsh. exact Hn'.
    + intros l0 Hl0. apply d6, Ho, Hl0.
Qed.
(** A new tensor that is filled later, and the derivative below. *)
Record der_mid s0 c rest q s s1 s2 (d t : nat) W C n : Prop := {
  dm_lay : exists l, lays s !! c_i c = Some l /\ lten l FDer = None /\ lays s1 = <[c_i c := set_ten FDer (Some d) l]> (lays s);
  dm_base : base c = false;
  dm_d : d = length (tens (ts s));
  dm_fits : fits (c_sh c);
  dm_new : NewZeros (c_sh c) (ts s) = (Ok d, ts s1);
  dm_h0 : held s0 s;
  dm_post : der_post s0 rest (c_sh q) s1 s2 t W C n;
}.
Lemma der_mid_facts s0 c rest q s s1 s2 d t W C n : der_mid s0 c rest q s s1 s2 d t W C n ->
  held s s2 /\ frame (derD (c :: rest)) s s2 /\ tri (ts s) (ts s2) W C any (fun m m' => exists v, s_der (rdg s0 m) rest = Some v /\ mval m' (nmat n) = Some v) /\
  length (mem (ts s1)) = length (mem (ts s)) + N.to_nat (prodN (c_sh c)) /\
  exists nd, node_ok (ts s2) d nd (c_sh c) /\ NoDup (operands (nmat nd)) /\ forall l, Some l ∈ operands (nmat nd) -> length (mem (ts s)) <= l < length (mem (ts s1)).
Proof using Type.
  intros [(l & HL & HF & Ely) Hb -> Hf En Hh [d1 d2 d3 d4 d5 d6]]. destruct (seg_zeros (ts s) (c_sh c) Hf) as (t1 & E & S & Em & Et). rewrite En in E. assert (t1 = ts s1) as -> by congruence. clear E.
  assert (H1 : held s s1). { pose proof (held_step s (ts s1) _ _ _ (length (tens (ts s))) _ _ _ _ (tri_quiet _ _ _ S) HL HF) as Hx. destruct s1 as [a b c0]. cbn [ts lays rc] in *. rewrite Ely. split; cbn [ts lays]; apply Hx. }
  split; [eapply held_trans; [exact H1|exact d1]|]. split.
  { eapply frame_trans; [eapply frame_lays; [exact (frame_set _ FDer (Some (length (tens (ts s)))) _ _ (ts s1) HL)|exact Ely]|exact d2|].
    intros j f [[-> ->]|[H2 H3]]; split; auto; cbn [dertop]; rewrite Hb; [left|right; exact H2]. }
  split.
  { pose proof (tri_after _ _ _ _ _ _ _ _ S d3 ltac:(intros c0 Hc; inversion Hc)) as Ha. exact Ha. }
  split; [rewrite Em, app_length; unfold zeros; rewrite replicate_length; reflexivity|].
  assert (Hn : node_ok (ts s1) (length (tens (ts s))) (MkNode KMat (blkm (c_sh c) (length (mem (ts s))) false)) (c_sh c)).
  { destruct (seg_zeros_const (ts s) _ Hf) as (t1 & n1 & E & _ & -> & _ & _ & Hn). assert (t1 = ts s1) as -> by congruence. exact Hn. }
  destruct (node_ok_keep _ _ _ _ _ Hn (hd_keep _ _ d1) (hd_len _ _ d1)) as (n2 & Hn2 & Ho & _). exists n2. split; [exact Hn2|]. rewrite Ho. cbn [nmat]. split; [apply blk_NoDup|].
  intros l0 Hl0. apply blk_ops in Hl0. rewrite Em, app_length. unfold zeros. rewrite replicate_length. exact Hl0.
Qed.
Lemma der_end s0 c rest q s s1 s2 d t W C n nd t3 (R : list T -> list T -> Prop) : der_mid s0 c rest q s s1 s2 d t W C n ->
  node_ok (ts s2) d nd (c_sh c) -> (forall l, Some l ∈ operands (nmat nd) -> length (mem (ts s)) <= l < length (mem (ts s1))) -> tens t3 = tens (ts s2) ->
  tri (ts s2) t3 (fun l => length (mem (ts s2)) <= l < length (mem t3) \/ Some l ∈ operands (nmat nd)) [] any R ->
  (forall m m1 m' v, length (mem t3) <= length m -> ran W m m1 -> s_der (rdg s0 m) rest = Some v -> mval m1 (nmat n) = Some v -> R m1 m' -> mval m' (nmat nd) = s_der (rdg s0 m) (c :: rest)) ->
  exists W' C' n', der_post s0 (c :: rest) (c_sh c) s (MkL t3 (lays s2) (rc s2)) d W' C' n'.
Proof using Type.
  intros Hm Hnd Hin Et Ht HR. destruct (der_mid_facts _ _ _ _ _ _ _ _ _ _ _ _ Hm) as (Hh & Hf & T1 & L1 & _). destruct Hm as [_ Hb Hd _ _ Hh0 [d1 d2 d3 d4 d5 d6]].
  assert (HC : forall c0 : nat * T, c0 ∈ C -> ~ (length (mem (ts s2)) <= fst c0 < length (mem t3) \/ Some (fst c0) ∈ operands (nmat nd))).
  { intros c0 Hc [Hx|Hx]; destruct (tri_C _ _ _ _ _ _ _ d3 Hc) as [Hl _]; [lia|apply Hin in Hx; lia]. }
  pose proof (tri_seq _ _ _ _ _ _ _ _ _ _ _ T1 Ht HC) as T2. rewrite app_nil_r in T2.
  pose proof (tri_len _ _ _ _ _ _ Ht) as L3. pose proof (tri_len _ _ _ _ _ _ T1) as L2.
  destruct (node_ok_keep _ _ _ _ _ Hnd (tri_keep _ _ _ _ _ _ Ht) L3) as (n' & Hn' & Ho & Hv).
  exists (either W (fun l => length (mem (ts s2)) <= l < length (mem t3) \/ Some l ∈ operands (nmat nd))), C, n'. split; cbn [ts lays rc].
  - eapply held_trans; [exact Hh|]. exact (held_ts _ _ _ _ _ _ Ht).
  - eapply frame_lays; [exact Hf|reflexivity].
  - eapply tri_post; [exact T2|cbn beta; intros; split; [exact I|intros; exact I]|]. cbn beta. intros m m' Hlm _ _ _ (m1 & Hr & (v & E1 & E2) & Hr2 & HRR).
    pose proof (HR m m1 m' v Hlm Hr E1 E2 HRR) as Hx. destruct (node_ok_total _ _ _ _ m' Hn') as (v' & Ev' & _). { destruct Hr as [Hr _]. destruct Hr2 as [Hr2 _]. lia. }
    exists v'. split; [|exact Ev']. rewrite <- Hx, <- Hv. exact Ev'.
  - intros l [Hl|[Hl|Hl]]; [apply d4 in Hl; lia|lia|apply Hin in Hl; lia].
  - exact Hn'.
  - rewrite Ho. intros l Hl. apply Hin in Hl. lia.
Qed.
Lemma old_val s0 s i f sh n (W : nat -> Prop) m m1 t : held s0 s -> ok s0 i f sh -> fid s i f = Some t -> node_ok (ts s) t n sh -> ran W m m1 -> (forall l, W l -> length (mem (ts s0)) <= l) ->
  mval m1 (nmat n) = fval s0 i f m.
Proof using Type.
  intros Hh Ho Hf Hn Hr HW. destruct (ok_held _ _ _ _ _ Hh Ho) as (Ho' & _ & Hv). destruct (ok_node _ _ _ _ _ Ho' Hf) as (n' & Hn' & _ & Hv'). assert (n' = n) as -> by (destruct Hn as [E1 _]; destruct Hn' as [E2 _]; congruence).
  rewrite <- Hv', Hv. eapply ok_off; [exact Ho|exact Hr|]. intros a Ha Hx. apply HW in Hx. apply (ok_lt _ _ _ _ _ Ho) in Ha. lia.
Qed.
Lemma old_lt s0 s i f sh n t l : held s0 s -> ok s0 i f sh -> fid s i f = Some t -> node_ok (ts s) t n sh -> Some l ∈ operands (nmat n) -> l < length (mem (ts s0)).
Proof using Type.
  intros Hh Ho Hf Hn Hl. destruct (ok_held _ _ _ _ _ Hh Ho) as (Ho' & Hc & Hv). destruct (ok_node _ _ _ _ _ Ho' Hf) as (n' & Hn' & Hc' & Hv'). assert (n' = n) as -> by (destruct Hn as [E1 _]; destruct Hn' as [E2 _]; congruence).
  apply (ok_lt _ _ _ _ _ Ho), Hc, Hc', Hl.
Qed.
Lemma der_pool s0 c rest q s s1 s2 d t W C n sx sy ti to_ l0 : c_l c = Some (SPool sx sy) -> lay_site s0 c (c_sh q) l0 -> fid s (c_i c) FInput = Some ti -> fid s (c_i c) FOutput = Some to_ ->
  der_mid s0 c rest q s s1 s2 d t W C n ->
  exists s' W' C' n', liftT (pool_der ti to_ t d (c_sh q) (c_sh c) sx sy) s2 = (Ok tt, s') /\ der_post s0 (c :: rest) (c_sh c) s s' d W' C' n'.
Proof using Type.
  intros Hk Hsite Hti Hto Hm. destruct (der_mid_facts _ _ _ _ _ _ _ _ _ _ _ _ Hm) as (Hh & Hf & T1 & L1 & nd & Hnd & Hnn & Hin).
  pose proof Hm as [_ _ _ _ _ Hh0 [d1 d2 d3 d4 d5 d6]]. pose proof (held_trans _ _ _ Hh0 Hh) as Hh2.
  destruct (ls_io _ _ _ _ Hsite ltac:(congruence)) as [Hoi Hoo]. destruct (ls_fit _ _ _ _ Hsite _ Hk) as [Hls Hfit]. cbn [lay_shape train_fit] in Hls, Hfit.
  destruct (c_sh q) as [|c1 [|w [|h []]]] eqn:Eq; try discriminate Hls. destruct (_ && _) eqn:Hok in Hls; [|discriminate]. injection Hls as Esh. apply andb_prop in Hok as [Hok _].
  pose proof (fid_held _ _ _ _ _ Hh Hti) as Hti2. pose proof (fid_held _ _ _ _ _ Hh Hto) as Hto2.
  destruct (ok_node _ _ _ _ _ (proj1 (ok_held _ _ _ _ _ Hh2 Hoi)) Hti2) as (ni & Hni & _). destruct (ok_node _ _ _ _ _ (proj1 (ok_held _ _ _ _ _ Hh2 Hoo)) Hto2) as (no & Hno & _).
  pose proof (hd_len _ _ Hh0) as L0. pose proof (hd_len _ _ Hh2) as L2. pose proof (hd_len _ _ Hh) as L3.
  assert (Hdoes : does (ts s2) (pool_der ti to_ t d [c1; w; h] (c_sh c) sx sy) (fun x => Some x ∈ operands (nmat nd))
    (fun m m' => forall va vx vy, mval m (nmat n) = Some va -> mval m (nmat ni) = Some vx -> mval m (nmat no) = Some vy -> mval m' (nmat nd) = g_pool_der sx sy vx vy va)).
  { rewrite <- Esh. apply pool_der_does; try (first [apply Hni|apply Hno|apply Hnd|apply d5|exact Hnn]); try lia.
    - destruct Hno as (_ & _ & _ & ->). congruence.
    - destruct Hnd as (_ & _ & _ & ->). congruence.
    - intros x Hx Hy. apply Hin in Hy. apply (old_lt _ _ _ _ _ _ _ _ Hh2 Hoi Hti2 Hni) in Hx. lia.
    - intros x Hx Hy. apply Hin in Hy. apply (old_lt _ _ _ _ _ _ _ _ Hh2 Hoo Hto2 Hno) in Hx. lia.
    - intros x Hx Hy. apply Hin in Hy. apply d6 in Hx. lia.
    - intros f x y Hi E. apply FwdPool.F3 in Hi as (f' & x' & y' & [= <- <- <-] & _ & Hx & Hy). pose proof (window_first sx sy w h x y ltac:(lia) ltac:(lia) Hx Hy) as Hw. rewrite E in Hw. inversion Hw. }
  destruct (tri_does _ _ _ _ Hdoes) as (t3 & E3 & Et3 & T3). { intros l Hl. apply Hin in Hl. pose proof (hd_len _ _ d1). lia. }
  destruct (der_end _ _ _ _ _ _ _ _ _ _ _ _ _ _ _ Hm Hnd Hin Et3 T3) as (W' & C' & n' & HP).
  - intros m m1 m' v Hlm Hr E1 E2 HR.
    assert (HW : forall l, W l -> length (mem (ts s0)) <= l) by (intros l Hl; apply d4 in Hl; lia).
    destruct (ok_total _ _ _ _ m Hoi) as (vx & Ex & _); [pose proof (tri_len _ _ _ _ _ _ T3); lia|]. destruct (ok_total _ _ _ _ m Hoo) as (vy & Ey & _); [pose proof (tri_len _ _ _ _ _ _ T3); lia|].
    rewrite (HR v vx vy E2). { cbn [s_der]. rewrite Hk. cbn [r_x r_y rdg]. rewrite Ex, Ey, E1. reflexivity. }
    + rewrite (old_val _ _ _ _ _ _ _ m m1 _ Hh2 Hoi Hti2 Hni Hr HW). exact Ex.
    + rewrite (old_val _ _ _ _ _ _ _ m m1 _ Hh2 Hoo Hto2 Hno Hr HW). exact Ey.
  - eexists _, W', C', n'. split; [apply liftT_ok; exact E3|exact HP].
Qed.
Lemma der_up s0 c rest q s s1 s2 d t W C n sx sy l0 : c_l c = Some (SUp sx sy) -> lay_site s0 c (c_sh q) l0 -> der_mid s0 c rest q s s1 s2 d t W C n ->
  exists s' W' C' n', liftT (up_ff t d (c_sh c) sx sy) s2 = (Ok tt, s') /\ der_post s0 (c :: rest) (c_sh c) s s' d W' C' n'.
Proof using Type.
  intros Hk Hsite Hm. destruct (der_mid_facts _ _ _ _ _ _ _ _ _ _ _ _ Hm) as (Hh & Hf & T1 & L1 & nd & Hnd & Hnn & Hin).
  pose proof Hm as [_ _ _ _ _ Hh0 [d1 d2 d3 d4 d5 d6]].
  destruct (ls_fit _ _ _ _ Hsite _ Hk) as [Hls Hfit]. pose proof Hls as Hls'. cbn [lay_shape train_fit] in Hls, Hfit.
  destruct (c_sh q) as [|c1 [|w [|h []]]] eqn:Eq; try discriminate Hls. apply fit_Some in Hls as [Esh _].
  pose proof (hd_len _ _ Hh) as L3. destruct n as [kn mn]. destruct nd as [kd md].
  destruct (up_ff_ok (ts s2) t d mn md kn kd sx sy c1 w h (c_sh c)) as (new & E & Hd & Ho); try (first [apply d5|apply Hnd|exact Hls'|exact Hnn]).
  { intros x Hx Hy. apply Hin in Hy. apply d6 in Hx. lia. }
  set (t3 := MkSt (mem (ts s2)) (tens (ts s2)) (ctx (ts s2) ++ new)) in *.
  assert (HWl : forall l, Some l ∈ operands md -> l < length (mem (ts s2))) by (intros l Hl; eapply (node_ok_lt _ _ _ _ _ Hnd); exact Hl).
  assert (S3 : seg (fun l => length (mem (ts s2)) <= l < length (mem t3) \/ Some l ∈ operands md) (ts s2) t3 new []).
  { apply seg_ops; [intros l Hl; right; auto|]. intros l [Hl|Hl]; [cbn in Hl; lia|auto]. }
  assert (T3 : tri (ts s2) t3 (fun l => length (mem (ts s2)) <= l < length (mem t3) \/ Some l ∈ operands (nmat (MkNode kd md))) [] any
     (fun m m' => forall vx, mval m mn = Some vx -> mval m' md = v_up sx sy vx)).
  { exists new. split; [exact S3|]. intros m Hlm _ _. cbn [mem t3] in Hlm. destruct (node_ok_total _ _ _ _ m d5 Hlm) as (vx & Ex & Es & El). cbn [nmat] in Ex.
    destruct (lay_total (SUp sx sy) [c1; w; h] (c_sh c) None vx Hls' (conj Es El) I) as (v & Ev & _); [intros bs ws E0; discriminate E0|]. cbn [lay_val] in Ev.
    specialize (Ho m vx Hlm Ex). rewrite Ev in Ho. destruct (outcome_ran _ _ _ _ _ _ _ _ S3 Hlm Ho) as (m' & X & Hr & Hv). exists m'. split; [exact X|]. split; [exact Hr|]. intros vx' Ex'. assert (vx' = vx) as -> by congruence. congruence. }
  destruct (der_end _ _ _ _ _ _ _ _ _ _ _ _ _ t3 _ Hm Hnd Hin eq_refl T3) as (W' & C' & n' & HP).
  - intros m m1 m' v Hlm Hr E1 E2 HR. cbn [nmat] in *. rewrite (HR v E2). cbn [s_der]. rewrite Hk, E1. reflexivity.
  - eexists _, W', C', n'. split; [apply liftT_ok; exact E|exact HP].
Qed.

Theorem der_ok s0 : forall cs, chain s0 cs -> NoDup (map c_i cs) -> forall fuel s c rest, cs = c :: rest -> held s0 s ->
  (forall j, j ∈ dertop cs -> fid s j FDer = None) -> length cs <= fuel ->
  exists t s' W C n, LBuildDer fuel (c_i c) s = (Ok t, s') /\ der_post s0 cs (c_sh c) s s' t W C n.
Proof using Type.
  induction cs as [|c0 rest0 IH]; intros Hch Hnd fuel s c rest E Hh HF Hfu; [discriminate|]. injection E as -> ->. destruct fuel as [|fuel]; [cbn in Hfu; lia|].
  destruct (chain_head _ _ _ Hch) as (l & psh & Hsite & Hrest). apply NoDup_cons in Hnd as [Hni Hnd].
  destruct (base c) eqn:Hb.
  { exact (der_base s0 c rest s fuel l psh Hsite Hb Hh (HF _ ltac:(left))). }
  destruct rest as [|q rest]; [destruct Hrest as [_ Hx]; congruence|]. destruct Hrest as (-> & Hp & Hcn & Hchr & _).
  destruct (site_held _ _ _ _ _ Hh Hsite) as (l' & Hlh & Hsite'). pose proof (ls_lay _ _ _ _ Hsite') as HL. pose proof (ls_kind _ _ _ _ Hsite') as Hk.
  assert (Hp' : lpre l' = Some (c_i q)) by (destruct Hlh as (_ & _ & -> & _); exact Hp).
  assert (HFl : lten l' FDer = None) by (rewrite <- (fid_lay _ _ _ _ HL); apply HF; left).
  assert (Hni' : c_i c ∉ dertop (q :: rest)) by (intros Hx; apply Hni; exact (dertop_in (q :: rest) _ Hx)).
  assert (HFr : forall j, j ∈ dertop (q :: rest) -> fid s j FDer = None) by (intros j Hj; apply HF; cbn [dertop]; rewrite Hb; right; exact Hj).
  specialize (IH Hchr Hnd).
  (* the layer after the recursive call *)
  assert (Hafter : forall s1 t W C n, der_post s0 (q :: rest) (c_sh q) s s1 t W C n -> exists l1, lays s1 !! c_i c = Some l1 /\ lten l1 FDer = None).
  { intros s1 t W C n [_ d2 _ _ _ _]. destruct (d2 _ _ HL) as (l1 & H1 & _ & E1). exists l1. split; [exact H1|]. rewrite E1, HFl; [reflexivity|]. intros [Hx _]. auto. }
  destruct (ls_fit _ _ _ _ Hsite) with (k := match c_l c with Some k => k | None => SFlat end) as [Hls Hfit]; [destruct (c_l c); congruence|].
  cbn [LBuildDer]. erewrite !mbnd_ok by (apply getL_ok; exact HL).
  assert (Hzero : forall sx sy, c_l c = Some (SPool sx sy) \/ c_l c = Some (SUp sx sy) -> exists s1 s2 d t W C n, NewZeros (c_sh c) (ts s) = (Ok d, ts s1) /\
     (forall (k : nat -> LM T nat), (d <~ liftT (NewZeros (c_sh c)) ; setF (c_i c) FDer d ;~ q0 <~ the (lpre l') ; qd <~ LBuildDer fuel q0 ; k qd) s = k t s2) /\ der_mid s0 c (q :: rest) q s s1 s2 d t W C n).
  { intros sx sy Hc. destruct (ls_fits _ _ _ _ Hsite) as [_ Hf]. destruct (seg_zeros (ts s) (c_sh c) Hf) as (t1 & E & S & Em & Et).
    set (s1 := MkL t1 (<[c_i c := set_ten FDer (Some (length (tens (ts s)))) l']> (lays s)) (rc s)).
    assert (H1 : held s s1) by exact (held_step s t1 _ _ _ (length (tens (ts s))) _ _ _ _ (tri_quiet _ _ _ S) HL HFl).
    assert (HF1 : forall j, j ∈ dertop (q :: rest) -> fid s1 j FDer = None).
    { intros j Hj. rewrite <- (HFr _ Hj). unfold fid. cbn [lays s1]. rewrite list_lookup_insert_ne by (intros Hx; subst j; auto). reflexivity. }
    destruct (IH fuel s1 q rest eq_refl (held_trans _ _ _ Hh H1) HF1 ltac:(cbn [length] in *; lia)) as (t & s2 & W & C & n & E2 & HP).
    exists s1, s2, (length (tens (ts s))), t, W, C, n. split; [exact E|]. split.
    - intros k. erewrite mbnd_ok by (apply liftT_ok; exact E). unfold setF. erewrite mbnd_ok by (apply updL_ok; exact HL). cbn [ts lays rc]. rewrite Hp'. erewrite mbnd_ok by reflexivity. erewrite mbnd_ok by exact E2. reflexivity.
    - split; auto. exists l'. split; [exact HL|]. split; [exact HFl|reflexivity]. }
  unfold kind_is in Hk. unfold base in Hb. destruct (c_l c) as [[o f|nf kw kh sx sy f|nf kw kh sx sy f|sx sy|sx sy| |mn mx| |d1 d2 d3]|] eqn:Ec; try discriminate Hb; try contradiction.
  - (* pool *)
    destruct (ls_io _ _ _ _ Hsite' ltac:(congruence)) as [Hoi Hoo]. pose proof Hoi as (ti & ni & Hti & Hni2). pose proof Hoo as (to_ & no & Hto & Hno).
    pose proof Hti as Hti'. pose proof Hto as Hto'. rewrite (fid_lay _ _ _ _ HL) in Hti. rewrite (fid_lay _ _ _ _ HL) in Hto.
    destruct (Hzero sx sy (or_introl eq_refl)) as (s1 & s2 & d & t & W & C & n & EZ & EK & Hm).
    destruct (der_pool _ _ _ _ _ _ _ _ _ _ _ _ _ _ _ _ _ Ec Hsite Hti' Hto' Hm) as (s' & W' & C' & n' & EP & HP).
    exists d, s', W', C', n'. split; [|exact HP]. rewrite Hk, HFl, Hti, Hto. erewrite mbnd_ok by reflexivity. erewrite mbnd_ok by reflexivity.
    erewrite mbnd_ok by (apply shapeT_ok; apply Hni2). erewrite mbnd_ok by (apply shapeT_ok; apply Hno).
    replace (shape (nmat ni)) with (c_sh q) by (symmetry; apply Hni2). replace (shape (nmat no)) with (c_sh c) by (symmetry; apply Hno).
    assert (d = length (tens (ts s))) as -> by apply Hm.
    erewrite mbnd_ok by (apply liftT_ok; exact EZ). specialize (EK (fun qd => liftT (pool_der ti to_ qd (length (tens (ts s))) (c_sh q) (c_sh c) sx sy) ;~ mret (length (tens (ts s))))).
    erewrite mbnd_ok in EK by (apply liftT_ok; exact EZ). rewrite EK. erewrite mbnd_ok by exact EP. reflexivity.
  - (* up *)
    destruct (ls_io _ _ _ _ Hsite' ltac:(congruence)) as [_ Hoo]. pose proof Hoo as (to_ & no & Hto & Hno). rewrite (fid_lay _ _ _ _ HL) in Hto.
    destruct (Hzero sx sy (or_intror eq_refl)) as (s1 & s2 & d & t & W & C & n & EZ & EK & Hm).
    destruct (der_up _ _ _ _ _ _ _ _ _ _ _ _ _ _ _ Ec Hsite Hm) as (s' & W' & C' & n' & EP & HP).
    exists d, s', W', C', n'. split; [|exact HP]. rewrite Hk, HFl, Hto. erewrite mbnd_ok by reflexivity. erewrite mbnd_ok by (apply shapeT_ok; apply Hno).
    replace (shape (nmat no)) with (c_sh c) by (symmetry; apply Hno).
    assert (d = length (tens (ts s))) as -> by apply Hm.
    erewrite mbnd_ok by (apply liftT_ok; exact EZ). specialize (EK (fun qd => liftT (up_ff qd (length (tens (ts s))) (c_sh c) sx sy) ;~ mret (length (tens (ts s))))).
    erewrite mbnd_ok in EK by (apply liftT_ok; exact EZ). rewrite EK. erewrite mbnd_ok by exact EP. reflexivity.
  - (* flat *)
    destruct (IH fuel s q rest eq_refl Hh HFr ltac:(cbn [length] in *; lia)) as (t & s1 & W & C & n & E2 & HP). destruct (Hafter _ _ _ _ _ HP) as (l1 & HL1 & HF1).
    cbn [lay_shape] in Hls. injection Hls as Hls.
    destruct (der_flat _ _ _ _ _ _ _ _ _ _ _ Ec (eq_sym Hls) HL1 HF1 HP) as (t' & s' & W' & C' & n' & E3 & HP'). exists t', s', W', C', n'. split; [|exact HP'].
    rewrite Hk, HFl, Hp'. erewrite mbnd_ok by reflexivity. erewrite mbnd_ok by exact E2. exact E3.
  - (* norm *)
    destruct (IH fuel s q rest eq_refl Hh HFr ltac:(cbn [length] in *; lia)) as (t & s1 & W & C & n & E2 & HP). destruct (Hafter _ _ _ _ _ HP) as (l1 & HL1 & HF1).
    cbn [lay_shape] in Hls. injection Hls as Hls.
    pose proof (der_same _ c _ _ _ _ _ _ _ _ _ (or_intror (ex_intro _ mn (ex_intro _ mx Ec))) (eq_sym Hls) HL1 HF1 HP) as HP'. exists t. eexists _, W, C, n. split; [|exact HP'].
    rewrite Hk, HFl, Hp'. erewrite mbnd_ok by reflexivity. erewrite mbnd_ok by exact E2. unfold setF. erewrite mbnd_ok by (apply updL_ok; exact HL1). reflexivity.
  - (* soft *)
    destruct (IH fuel s q rest eq_refl Hh HFr ltac:(cbn [length] in *; lia)) as (t & s1 & W & C & n & E2 & HP). destruct (Hafter _ _ _ _ _ HP) as (l1 & HL1 & HF1).
    cbn [lay_shape] in Hls. injection Hls as Hls.
    pose proof (der_same _ c _ _ _ _ _ _ _ _ _ (or_introl Ec) (eq_sym Hls) HL1 HF1 HP) as HP'. exists t. eexists _, W, C, n. split; [|exact HP'].
    rewrite Hk, HFl, Hp'. erewrite mbnd_ok by reflexivity. erewrite mbnd_ok by exact E2. unfold setF. erewrite mbnd_ok by (apply updL_ok; exact HL1). reflexivity.
Qed.
End TrnDer.
