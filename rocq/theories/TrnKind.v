(** * TrnKind: the training code of the layers without bias and weights *)
From Verif Require Import Base Num ModelTools ModelOps ModelTensor ModelGraph ModelLayer Spec NetSpec FwdSpec Denote
  IndexProofs ExecProofs TensorFacts AccessProofs BuildProofs BuildFrame CompileProofs Agree FwdMask FwdBuild FwdSeg FwdOps FwdPool NetBuild NetChain FwdBody FwdExpr FwdConv FwdConv2 FwdAct FwdTotal
  BwdSpec BwdPost BwdLoop BwdOps BwdOps2 BwdOps3 BwdOps4 TrnSpec TrnTri TrnOwn TrnExpr TrnSite TrnDer TrnXfer TrnBody.
From Coq Require Import Lia ZifyBool ZifyNat ZifyN.

Section TrnKind.
Context {T : Type} `{Num T}.
Implicit Types (s : lst T) (m : list T) (c q : clay T) (cs rest : list (clay T)).

Lemma field_ok s0 s i f sh : held s0 s -> ok s0 i f sh -> exists t n, fid s0 i f = Some t /\ fid s i f = Some t /\ node_ok (ts s) t n sh /\
  (forall m, mval m (nmat n) = fval s0 i f m) /\ (forall a, Some a ∈ operands (nmat n) <-> cells s0 i f a) /\ forall a, Some a ∈ operands (nmat n) -> a < length (mem (ts s0)).
Proof using Type.
  intros Hh Ho. pose proof Ho as (t & n0 & Hf & Hn0). pose proof (fid_held _ _ _ _ _ Hh Hf) as Hf'. destruct (ok_held _ _ _ _ _ Hh Ho) as (Ho' & Hc & Hv). destruct (ok_node _ _ _ _ _ Ho' Hf') as (n & Hn & Hc' & Hv').
  exists t, n. repeat (split; [assumption|]). split; [intros m; rewrite <- Hv', Hv; reflexivity|]. split; [intros a; rewrite <- Hc', Hc; reflexivity|].
  intros a Ha. apply (ok_lt _ _ _ _ _ Ho), Hc, Hc', Ha.
Qed.
Lemma fresh_field s0 i f sh (W : nat -> Prop) m m1 : ok s0 i f sh -> ran W m m1 -> (forall l, W l -> length (mem (ts s0)) <= l) -> fval s0 i f m1 = fval s0 i f m.
Proof using Type. intros Ho Hr HW. eapply ok_off; [exact Ho|exact Hr|]. intros a Ha Hw. apply HW in Hw. apply (ok_lt _ _ _ _ _ Ho) in Ha. lia. Qed.

Lemma v_scal_sh b (x v : vten T) y : v_scal b x y = Some v -> vsh v = vsh x.
Proof using Type. intros E. unfold v_scal in E. apply bind_Some in E as (d & _ & E). injection E as <-. reflexivity. Qed.
Lemma share_sh r (d v : vten T) : share r d = Some v -> vsh v = vsh d.
Proof using Type. unfold share. destruct (nltb none r); [apply v_scal_sh|congruence]. Qed.

(** A layer on top of a chain. *)
Section Kinds.
Variables (s0 s : lst T) (al mo : nat) (c q : clay T) (rest : list (clay T)) (fuel : nat).
Hypotheses (Hch : chain s0 (c :: q :: rest)) (Hapt : apt s0 (c :: q :: rest) al mo) (Hh : held s0 s).

Lemma top : exists l l' lq pq, lay_site s0 c (c_sh q) l /\ lays s !! c_i c = Some l' /\ lay_site s c (c_sh q) l' /\ lpre l' = Some (c_i q) /\ lref l' = lref l /\ lmaxs l' = lmaxs l /\ lten l' FDif = fid s0 (c_i c) FDif /\
  lay_site s0 q pq lq /\ chain s0 (q :: rest) /\ c_l c <> None /\ (c_l c <> Some SSoft -> forall a, cells s0 (c_i c) FDif a -> ~ cells s0 (c_i q) FDif a) /\ (c_l c = Some SSoft -> fid s0 (c_i c) FDif = fid s0 (c_i q) FDif).
Proof using Hch Hh.
  destruct (chain_head _ _ _ Hch) as (l & psh & Hsite & -> & Hp & Hn & Hchr & Hd & Hso). destruct (site_held _ _ _ _ _ Hh Hsite) as (l' & Hlh & Hsite'). destruct (chain_head _ _ _ Hchr) as (lq & pq & Hsq & _).
  exists l, l', lq, pq. pose proof Hlh as (_ & _ & K3 & K4 & K5 & K6). pose proof (ls_lay _ _ _ _ Hsite') as HL. destruct (ls_dif _ _ _ _ Hsite) as [(t & n & Hf & _) _]. pose proof (fid_held _ _ _ _ _ Hh Hf) as Hf'. rewrite (fid_lay _ _ _ _ HL) in Hf'.
  split; [exact Hsite|]. split; [exact HL|]. split; [exact Hsite'|]. split; [congruence|]. split; [exact K4|]. split; [exact K5|]. split; [congruence|]. split; [exact Hsq|]. split; [exact Hchr|]. split; [exact Hn|]. split.
  - intros Hx a Ha. apply (Hd Hx q a); [left|exact Ha].
  - exact Hso.
Qed.
Lemma dif_lt q' a : q' ∈ c :: q :: rest -> cells s0 (c_i q') FDif a -> a < length (mem (ts s0)).
Proof using Hch.
  intros Hin Hc. assert (G : forall cs, chain s0 cs -> q' ∈ cs -> exists l psh, lay_site s0 q' psh l).
  { induction cs as [|x cs IH]; intros Hx Hi; [destruct Hx|]. destruct (chain_head _ _ _ Hx) as (l & psh & Hs & Hr). apply elem_of_cons in Hi as [->|Hi]; [eauto|]. destruct cs as [|y cs]; [inversion Hi|]. apply IH; [apply Hr|exact Hi]. }
  destruct (G _ Hch Hin) as (l & psh & Hs). destruct (ls_dif _ _ _ _ Hs) as [Ho _]. exact (ok_lt _ _ _ _ _ Ho Hc).
Qed.

Lemma pool_body sx sy : c_l c = Some (SPool sx sy) -> exists s', bp_body fuel (c_i c) (Some al) (Some mo) s = (Ok tt, s') /\ body_post s0 al mo c (q :: rest) s s'.
Proof using Hch Hapt Hh.
  intros Hk. destruct top as (l & l' & lq & pq & Hsite & HL & Hsite' & Hp & Hrf & _ & Hdf & Hsq & Hchr & Hcn & Hdis & _).
  destruct (share_ok _ _ _ _ _ l' Hsite Hh Hdf Hrf) as (e & sa & t1 & W & C & ne & E1 & E2 & HT & HW & Hne & Hec).
  set (s1 := MkL t1 (lays s) (rc s)) in *. pose proof (held_ts _ _ _ _ _ _ HT) as Hh1. fold s1 in Hh1. pose proof (held_trans _ _ _ Hh Hh1) as Hh01.
  destruct (dif_node _ _ _ _ _ Hsq Hh01) as (p & np & Hpf & E4 & Hnp & Hvp & Hndp & Hcp).
  destruct (ls_io _ _ _ _ Hsite Hcn) as [Hoi Hoo]. destruct (ls_fit _ _ _ _ Hsite _ Hk) as [Hls Hfit]. cbn [lay_shape train_fit] in Hls, Hfit.
  destruct (field_ok _ _ _ _ _ Hh01 Hoi) as (ti & ni & _ & Hti & Hni & Hvi & Hci & _). destruct (field_ok _ _ _ _ _ Hh01 Hoo) as (to_ & no & _ & Hto & Hno & Hvo & Hco & _).
  destruct (c_sh q) as [|c1 [|w [|h []]]] eqn:Eq; try discriminate Hls. destruct (_ && _) eqn:Hok in Hls; [|discriminate]. injection Hls as Esh. apply andb_prop in Hok as [Hok _].
  assert (Hdoes : does t1 (pool_bp ti to_ p e [c1; w; h] (c_sh c) sx sy) (fun x => Some x ∈ operands (nmat np))
    (fun m m' => forall vd vx vy vp, mval m (nmat ne) = Some vd -> mval m (nmat ni) = Some vx -> mval m (nmat no) = Some vy -> mval m (nmat np) = Some vp -> mval m' (nmat np) = g_pool sx sy vd vx vy vp)).
  { rewrite <- Esh. apply pool_bp_does; try (first [apply Hni|apply Hno|apply Hnp|apply Hne|exact Hndp]); try lia.
    - destruct Hno as (_ & _ & _ & ->). congruence.
    - destruct Hne as (_ & _ & _ & ->). congruence.
    - intros x Hx Hy. apply Hci in Hx. apply Hcp in Hy. refine (ap_f _ _ _ _ Hapt c q FInput x _ _ _ Hy Hx); [left|right; left|left; reflexivity].
    - intros x Hx Hy. apply Hco in Hx. apply Hcp in Hy. refine (ap_f _ _ _ _ Hapt c q FOutput x _ _ _ Hy Hx); [left|right; left|right; left; reflexivity].
    - intros x Hx Hy. apply Hcp in Hy. destruct (Hec _ Hx) as [Hz|Hz].
      + assert (Hlt : x < length (mem (ts s0))) by (refine (dif_lt q x _ Hy); right; left). pose proof (hd_len _ _ Hh). lia.
      + refine (Hdis _ _ Hz Hy). congruence. }
  destruct (tri_does _ _ _ _ Hdoes) as (t3 & E3 & Et3 & T3). { intros x Hx. apply (node_ok_lt _ _ _ _ _ Hnp Hx). }
  assert (Hsh : shares c = true) by (unfold shares; rewrite Hk; reflexivity). pose proof (hd_len _ _ Hh) as L0.
  destruct (in_from s0 s c q rest l s1 e p W C ne np (fun _ _ => True) t3 _ _ Hsh ltac:(rewrite Eq; exact Hsite) (Hdis ltac:(congruence)) ltac:(intros a Ha; pose proof (dif_lt q a ltac:(right; left) Ha); lia) Hh1 (frame_lays _ _ _ _ (frame_refl _ s) eq_refl)
    ltac:(eapply tri_post; [exact HT|auto|cbn beta; auto]) HW Hne Hec ltac:(rewrite Eq; exact Hnp) Hvp Hcp T3 ltac:(intros x [Hx|Hx]; [left; cbn [ts s1]; lia|right; exact Hx])) as (ne' & W' & C' & HI).
  - intros m m1 m' ve Hm Hr _ HR Hve Hz. unfold g_in. rewrite Hk. cbn [r_x r_y rdg].
    assert (HWf : forall l, W l -> length (mem (ts s0)) <= l) by (intros a Ha; apply HW in Ha; lia).
    destruct (ok_total _ _ _ _ m Hoi) as (vx & Ex & _); [pose proof (hd_len _ _ Hh01); lia|]. destruct (ok_total _ _ _ _ m Hoo) as (vy & Ey & _); [pose proof (hd_len _ _ Hh01); lia|].
    rewrite Ex, Ey. cbn [mbind option_bind]. apply (HR ve vx vy _ Hve); [| |exact Hz].
    + rewrite Hvi, (fresh_field _ _ _ _ _ _ _ Hoi Hr HWf). exact Ex.
    + rewrite Hvo, (fresh_field _ _ _ _ _ _ _ Hoo Hr HWf). exact Ey.
  - eexists. split; [|eapply in_body; [exact Hsh|unfold c_par; rewrite Hk; reflexivity|exact HI]].
    pose proof (ls_kind _ _ _ _ Hsite') as Hki. unfold kind_is in Hki. rewrite Hk in Hki. unfold bp_body. erewrite mbnd_ok by (apply getL_ok; exact HL). rewrite Hki.
    rewrite (mbnd_ok _ _ _ _ _ E1), (mbnd_ok _ _ _ _ _ E2). rewrite (fid_lay s1 _ _ l' HL) in Hti. rewrite (fid_lay s1 _ _ l' HL) in Hto. rewrite Hti, Hto.
    erewrite mbnd_ok by reflexivity. erewrite mbnd_ok by (apply shapeT_ok; apply Hni). erewrite mbnd_ok by reflexivity. erewrite mbnd_ok by (apply shapeT_ok; apply Hno).
    rewrite Hp. erewrite mbnd_ok by reflexivity. rewrite (mbnd_ok _ _ _ _ _ E4). erewrite mbnd_ok by reflexivity.
    replace (shape (nmat ni)) with [c1; w; h] by (symmetry; apply Hni). replace (shape (nmat no)) with (c_sh c) by (symmetry; apply Hno). apply liftT_ok. exact E3.
Qed.

Lemma up_body sx sy : c_l c = Some (SUp sx sy) -> exists s', bp_body fuel (c_i c) (Some al) (Some mo) s = (Ok tt, s') /\ body_post s0 al mo c (q :: rest) s s'.
Proof using Hch Hapt Hh.
  intros Hk. destruct top as (l & l' & lq & pq & Hsite & HL & Hsite' & Hp & Hrf & _ & Hdf & Hsq & Hchr & Hcn & Hdis & _).
  destruct (share_ok _ _ _ _ _ l' Hsite Hh Hdf Hrf) as (e & sa & t1 & W & C & ne & E1 & E2 & HT & HW & Hne & Hec).
  set (s1 := MkL t1 (lays s) (rc s)) in *. pose proof (held_ts _ _ _ _ _ _ HT) as Hh1. fold s1 in Hh1. pose proof (held_trans _ _ _ Hh Hh1) as Hh01.
  destruct (dif_node _ _ _ _ _ Hsq Hh01) as (p & np & Hpf & E4 & Hnp & Hvp & Hndp & Hcp).
  destruct (ls_io _ _ _ _ Hsite Hcn) as [Hoi _]. destruct (ls_fit _ _ _ _ Hsite _ Hk) as [Hls Hfit]. cbn [lay_shape train_fit] in Hls, Hfit.
  destruct (field_ok _ _ _ _ _ Hh01 Hoi) as (ti & ni & _ & Hti & Hni & Hvi & Hci & _).
  destruct (c_sh q) as [|c1 [|w [|h []]]] eqn:Eq; try discriminate Hls. apply fit_Some in Hls as [Esh _].
  assert (Hdoes : does t1 (up_bp p e [c1; w; h] sx sy) (fun x => Some x ∈ operands (nmat np)) (fun m m' => forall vd, mval m (nmat ne) = Some vd -> mval m' (nmat np) = g_up sx sy vd [c1; w; h])).
  { apply up_bp_does; try (first [apply Hnp|apply Hne|exact Hndp]); try lia.
    - destruct Hne as (_ & _ & _ & ->). congruence.
    - intros x Hx Hy. apply Hcp in Hy. destruct (Hec _ Hx) as [Hz|Hz].
      + assert (Hlt : x < length (mem (ts s0))) by (refine (dif_lt q x _ Hy); right; left). pose proof (hd_len _ _ Hh). lia.
      + refine (Hdis _ _ Hz Hy). congruence. }
  destruct (tri_does _ _ _ _ Hdoes) as (t3 & E3 & Et3 & T3). { intros x Hx. apply (node_ok_lt _ _ _ _ _ Hnp Hx). }
  assert (Hsh : shares c = true) by (unfold shares; rewrite Hk; reflexivity). pose proof (hd_len _ _ Hh) as L0.
  destruct (in_from s0 s c q rest l s1 e p W C ne np (fun _ _ => True) t3 _ _ Hsh ltac:(rewrite Eq; exact Hsite) (Hdis ltac:(congruence)) ltac:(intros a Ha; pose proof (dif_lt q a ltac:(right; left) Ha); lia) Hh1 (frame_lays _ _ _ _ (frame_refl _ s) eq_refl)
    ltac:(eapply tri_post; [exact HT|auto|cbn beta; auto]) HW Hne Hec ltac:(rewrite Eq; exact Hnp) Hvp Hcp T3 ltac:(intros x [Hx|Hx]; [left; cbn [ts s1]; lia|right; exact Hx])) as (ne' & W' & C' & HI).
  - intros m m1 m' ve Hm Hr _ HR Hve Hz. unfold g_in. rewrite Hk, Eq. exact (HR ve Hve).
  - eexists. split; [|eapply in_body; [exact Hsh|unfold c_par; rewrite Hk; reflexivity|exact HI]].
    pose proof (ls_kind _ _ _ _ Hsite') as Hki. unfold kind_is in Hki. rewrite Hk in Hki. unfold bp_body. erewrite mbnd_ok by (apply getL_ok; exact HL). rewrite Hki.
    rewrite (mbnd_ok _ _ _ _ _ E1), (mbnd_ok _ _ _ _ _ E2). rewrite (fid_lay s1 _ _ l' HL) in Hti. rewrite Hti.
    erewrite mbnd_ok by reflexivity. erewrite mbnd_ok by (apply shapeT_ok; apply Hni).
    rewrite Hp. erewrite mbnd_ok by reflexivity. rewrite (mbnd_ok _ _ _ _ _ E4). erewrite mbnd_ok by reflexivity.
    replace (shape (nmat ni)) with [c1; w; h] by (symmetry; apply Hni). apply liftT_ok. exact E3.
Qed.

(** Code without fields of its own. *)
Lemma plain_post t3 W C P R : c_par c = false -> tri (ts s) t3 W C P R -> (forall l, W l -> bodyW s0 s c (q :: rest) l) ->
  (forall m, length (mem t3) <= length m -> bodyP s0 (MkL t3 (lays s) (rc s)) al mo c (q :: rest) m -> P m) ->
  (forall m m' d, length (mem t3) <= length m -> consts C m -> P m -> ran W m m' -> R m m' -> fval s0 (c_i c) FDif m = Some d -> s_in (rdg s0 m) c (s_der (rdg s0 m) (q :: rest)) (c_sh q) d <> None -> fval s0 (c_i q) FDif m' = s_in (rdg s0 m) c (s_der (rdg s0 m) (q :: rest)) (c_sh q) d) ->
  body_post s0 al mo c (q :: rest) s (MkL t3 (lays s) (rc s)).
Proof using Type.
  intros Hp HT HW HP HR. split.
  - exact (held_ts _ _ _ _ _ _ HT).
  - exact (frame_lays _ _ _ _ (frame_refl _ s) eq_refl).
  - exists W, C. split; [|exact HW]. eapply tri_post; [exact HT|auto|]. intros m m' Hm HC HB Hr HRR d a b Hd _ _. split; [|congruence].
    destruct HB as (Hrf & d' & a' & b' & Hd' & Ha' & Hb' & Hpar & Hin & Hz). assert (d' = d) as -> by congruence. refine (HR m m' d Hm HC (HP m Hm _) Hr HRR Hd Hin). split; [exact Hrf|]. exists d, a', b'. repeat split; assumption.
  - congruence.
  - congruence.
Qed.

Lemma soft_body : c_l c = Some SSoft -> exists s', bp_body fuel (c_i c) (Some al) (Some mo) s = (Ok tt, s') /\ body_post s0 al mo c (q :: rest) s s'.
Proof using Hch Hapt Hh.
  intros Hk. destruct top as (l & l' & lq & pq & Hsite & HL & Hsite' & Hp & Hrf & _ & Hdf & Hsq & Hchr & Hcn & _ & Hso).
  destruct (share_ok _ _ _ _ _ l' Hsite Hh Hdf Hrf) as (e & sa & t1 & W & C & ne & E1 & E2 & HT & HW & Hne & Hec). specialize (Hso Hk).
  eexists. split; [|eapply plain_post; [unfold c_par; rewrite Hk; reflexivity|exact HT|..]].
  - pose proof (ls_kind _ _ _ _ Hsite') as Hki. unfold kind_is in Hki. rewrite Hk in Hki. unfold bp_body. erewrite mbnd_ok by (apply getL_ok; exact HL). rewrite Hki.
    rewrite (mbnd_ok _ _ _ _ _ E1). exact E2.
  - intros a Ha. left. auto.
  - intros m _ (Hr & d & a & b & Hd & _ & _ & _ & Hin & _). split; [exact Hr|]. intros d' r Hd' Hr' Hs. apply Hin. unfold s_in. rewrite Hk. assert (d' = d) as -> by congruence. cbn [r_ref rdg]. rewrite Hr'. cbn [mbind option_bind]. rewrite Hs. reflexivity.
  - intros m m' d Hm _ _ Hr _ Hd Hin. unfold s_in in *. rewrite Hk in *. cbn [r_ref rdg] in *. destruct (refv s0 (c_i c) m) as [r|]; [|exfalso; apply Hin; reflexivity]. cbn [mbind option_bind] in *. destruct (share r d); [|exfalso; apply Hin; reflexivity]. cbn [mbind option_bind].
    rewrite <- Hd. destruct (ls_dif _ _ _ _ Hsite) as [Ho _]. replace (fval s0 (c_i q) FDif m') with (fval s0 (c_i c) FDif m') by (unfold fval, fnode; rewrite Hso; reflexivity).
    eapply fresh_field; [exact Ho|exact Hr|]. intros a Ha. apply HW in Ha. pose proof (hd_len _ _ Hh). lia.
Qed.

Lemma flat_body : c_l c = Some SFlat -> exists s', bp_body fuel (c_i c) (Some al) (Some mo) s = (Ok tt, s') /\ body_post s0 al mo c (q :: rest) s s'.
Proof using Hch Hapt Hh.
  intros Hk. destruct top as (l & l' & lq & pq & Hsite & HL & Hsite' & Hp & Hrf & _ & Hdf & Hsq & Hchr & Hcn & Hdis & _).
  destruct (dif_node _ _ _ _ _ Hsite Hh) as (d & nd & Hdi & _ & Hnd & Hvd & _ & Hcd). rewrite Hdi in Hdf.
  destruct (tri_settle _ _ _ _ Hnd) as (t1 & E1 & Em1 & T1 & Hl1). set (s1 := MkL t1 (lays s) (rc s)). pose proof (held_ts _ _ _ _ _ _ T1) as Hh1. fold s1 in Hh1. pose proof (held_trans _ _ _ Hh Hh1) as Hh01.
  destruct (dif_node _ _ _ _ _ Hsq Hh01) as (p & np & Hpf & E4 & Hnp & Hvp & Hndp & Hcp). destruct (dif_node _ _ _ _ _ Hsite Hh01) as (d' & nd1 & Hdi' & _ & Hnd1 & Hvd1 & _ & Hcd1). assert (d' = d) as -> by congruence.
  destruct (ls_fit _ _ _ _ Hsite _ Hk) as [Hls _]. cbn [lay_shape] in Hls. injection Hls as Esh.
  destruct (tri_transfer t1 d p nd1 np (c_sh c) (c_sh q) Hnd1 Hnp) as (t3 & E3 & Em3 & T3).
  { rewrite <- Esh. cbn [prodN foldr]. lia. }
  { exact Hndp. }
  { intros a Ha Hb. apply Hcd1 in Ha. apply Hcp in Hb. apply (Hdis ltac:(congruence) a Ha Hb). }
  pose proof (tri_seq _ _ _ _ _ _ _ _ _ _ _ T1 T3 ltac:(intros c0 Hc0; inversion Hc0)) as HT.
  eexists. split; [|eapply plain_post; [unfold c_par; rewrite Hk; reflexivity|exact HT|..]].
  - pose proof (ls_kind _ _ _ _ Hsite') as Hki. unfold kind_is in Hki. rewrite Hk in Hki. unfold bp_body. erewrite mbnd_ok by (apply getL_ok; exact HL). rewrite Hki.
    rewrite Hdf. erewrite mbnd_ok by reflexivity. erewrite mbnd_ok by (apply liftT_ok; exact E1). fold s1. rewrite Hp. erewrite mbnd_ok by reflexivity. rewrite (mbnd_ok _ _ _ _ _ E4). erewrite mbnd_ok by reflexivity.
    apply (liftT_ok _ s1). exact E3.
  - intros a [[]|Ha]. right. exists q, rest. split; [reflexivity|]. split; [congruence|]. apply Hcp, Ha.
  - intros m _ _. split; [exact I|]. intros; exact I.
  - cbn beta. intros m m' v Hm _ _ _ (m1 & _ & -> & _ & HR) Hd _. unfold s_in. rewrite Hk, <- Hvp. apply HR. rewrite Hvd1. exact Hd.
Qed.

Lemma norm_body mn mx : c_l c = Some (SNorm mn mx) -> exists s', bp_body fuel (c_i c) (Some al) (Some mo) s = (Ok tt, s') /\ body_post s0 al mo c (q :: rest) s s'.
Proof using Hch Hapt Hh.
  intros Hk. destruct top as (l & l' & lq & pq & Hsite & HL & Hsite' & Hp & Hrf & Hmax & Hdf & Hsq & Hchr & Hcn & Hdis & _).
  destruct (share_den _ _ _ _ _ l' Hsite Hh Hdf Hrf) as (e & t1 & ex & E1 & S1 & Em1 & D1 & HV & _).
  destruct (alloc_node t1 (nsub mx mn) e ex (c_sh c) D1) as (t2 & E2 & S2 & Em2 & Et2 & D2 & Ev2).
  destruct (scal_node t2 e (length (mem t1)) Op2Mul _ _ D2) as (t3 & E3 & S3 & Em3 & _ & D3 & Ev3); [rewrite Em2, app_length; cbn; lia|].
  destruct (ls_max _ _ _ _ Hsite _ _ Hk) as (k & Hmk & Hkl). pose proof (hd_len _ _ Hh) as L0.
  assert (L3 : length (mem t3) = S (length (mem (ts s)))) by (rewrite Em3, Em2, app_length, Em1; cbn; lia).
  destruct (scal_node t3 (length (tens t2)) k Op2Div _ _ D3) as (t4 & E4 & S4 & Em4 & _ & D4 & Ev4); [lia|].
  assert (S14 : seg nowhere (ts s) t4 [] [(length (mem t1), nsub mx mn)]).
  { pose proof (seg_app _ _ _ _ _ _ _ _ _ S1 S2 ltac:(intros ? ? [])) as Sa. pose proof (seg_app _ _ _ _ _ _ _ _ _ Sa S3 ltac:(intros ? ? [])) as Sb. pose proof (seg_app _ _ _ _ _ _ _ _ _ Sb S4 ltac:(intros ? ? [])) as Sc.
    cbn [app] in Sc. eapply seg_weaken; [exact Sc|intros x [[[[]|[]]|[]]|[]]|intros x []|intros ? _ []]. }
  set (s4 := MkL t4 (lays s) (rc s)). pose proof (held_ts _ _ _ _ _ _ (tri_quiet _ _ _ S14)) as Hh4. fold s4 in Hh4. pose proof (held_trans _ _ _ Hh Hh4) as Hh04.
  destruct (dif_node _ _ _ _ _ Hsq Hh04) as (p & np & Hpf & E5 & Hnp & Hvp & Hndp & Hcp).
  destruct (ls_fit _ _ _ _ Hsite _ Hk) as [Hls _]. cbn [lay_shape] in Hls. injection Hls as Esh.
  assert (Hd2 : tens t4 !! length (tens t3) = Some (MkNode (KOpScalar (length (tens t2)) (Some k) Op2Div) empty_mat)) by (injection E4 as <-; cbn [tens]; apply list_lookup_middle; reflexivity).
  destruct (tri_transfer_expr t4 (length (tens t3)) p _ _ np (c_sh q) _ _ D4 Hd2 eq_refl I Hnp ltac:(congruence) Hndp) as (t5 & W & C & E6 & HW & HT).
  assert (Hplt : forall a, Some a ∈ operands (nmat np) -> a < length (mem (ts s0))) by (intros a Ha; apply Hcp in Ha; refine (dif_lt q a _ Ha); right; left).
  assert (HWc : forall c0 : nat * T, c0 ∈ [(length (mem t1), nsub mx mn)] -> ~ W (fst c0)).
  { intros c0 Hc0 Hw. apply elem_of_list_singleton in Hc0 as ->. cbn [fst] in Hw. apply HW in Hw as [Hw|Hw]; [rewrite Em4, L3, Em1 in Hw; lia|]. apply Hplt in Hw. rewrite Em1 in Hw. lia. }
  pose proof (tri_after _ _ _ _ _ _ _ _ S14 HT HWc) as HT'.
  assert (Hev : forall m, length (mem (ts s)) <= length m -> consts [(length (mem t1), nsub mx mn)] m -> refs s0 (c_i c) m -> exists d, fval s0 (c_i c) FDif m = Some d /\
     evals t4 m (EScal (bop Op2Div) (EScal (bop Op2Mul) ex (length (mem t1))) k) = s_in (rdg s0 m) c (s_der (rdg s0 m) (q :: rest)) (c_sh q) d).
  { intros m Hm HC HR. destruct (HV m Hm HR) as (d & r & H1 & H2 & H3). exists d. split; [exact H1|]. unfold s_in. rewrite Hk. cbn [r_ref r_max rdg]. rewrite H2. cbn [mbind option_bind].
    change (evals t4 m (EScal (bop Op2Div) (EScal (bop Op2Mul) ex (length (mem t1))) k)) with (x ← (x ← evals t4 m ex; y ← m !! length (mem t1); v_scal (bop Op2Mul) x y); y ← m !! k; v_scal (bop Op2Div) x y).
    rewrite Ev4, Ev3, Ev2, H3. destruct (share r d) as [x|]; [|reflexivity]. cbn [mbind option_bind].
    unfold consts in HC. rewrite Forall_forall in HC. specialize (HC _ ltac:(left)). cbn [fst snd] in HC. rewrite HC. cbn [mbind option_bind bop].
    unfold maxv, maxc. rewrite (ls_lay _ _ _ _ Hsite). cbn [mbind option_bind]. rewrite Hmk. cbn [mbind option_bind].
    destruct (v_scal BMul x (nsub mx mn)) as [y|]; cbn [mbind option_bind]; destruct (m !! k); reflexivity. }
  pose proof (tri_len _ _ _ _ _ _ HT') as L5.
  eexists. split; [|eapply plain_post; [unfold c_par; rewrite Hk; reflexivity|eapply tri_post with (P' := fun m => refs s0 (c_i c) m /\ forall d, fval s0 (c_i c) FDif m = Some d -> s_in (rdg s0 m) c (s_der (rdg s0 m) (q :: rest)) (c_sh q) d <> None); [exact HT'| |]|..]].
  - pose proof (ls_kind _ _ _ _ Hsite') as Hki. unfold kind_is in Hki. rewrite Hk in Hki. unfold bp_body. erewrite mbnd_ok by (apply getL_ok; exact HL). rewrite Hki.
    rewrite (mbnd_ok _ _ _ _ _ E1). erewrite mbnd_ok by (apply liftT_ok; exact E2). erewrite mbnd_ok by (apply liftT_ok; exact E3). rewrite Hmax, Hmk. erewrite mbnd_ok by (apply liftT_ok; exact E4).
    cbn [lays rc]. fold s4. rewrite Hp. erewrite mbnd_ok by reflexivity. rewrite (mbnd_ok _ _ _ _ _ E5). erewrite mbnd_ok by reflexivity. apply (liftT_ok _ s4). exact E6.
  - cbn beta. intros m Hm HC [HR HP]. destruct (Hev m ltac:(lia) ltac:(apply consts_app in HC; apply HC) HR) as (d & H1 & ->). auto.
  - cbn beta. intros m m' Hm HC [HR HP] _ HX. exact HX.
  - intros a Ha. apply HW in Ha as [Ha|Ha]; [left; rewrite Em4 in Ha; lia|right]. exists q, rest. split; [reflexivity|]. split; [congruence|]. apply Hcp, Ha.
  - intros m _ (Hr & d & a & b & Hd & _ & _ & _ & Hin & _). split; [exact Hr|]. intros d' Hd'. assert (d' = d) as -> by congruence. exact Hin.
  - cbn beta. intros m m' d Hm HC [HR HP] _ HX Hd Hin. destruct (Hev m ltac:(lia) ltac:(apply consts_app in HC; apply HC) HR) as (d' & H1 & H2). assert (d' = d) as -> by congruence.
    destruct (s_in (rdg s0 m) c (s_der (rdg s0 m) (q :: rest)) (c_sh q) d) as [v|] eqn:Es; [|congruence]. rewrite <- Hvp, (HX v H2). f_equal.
    assert (vsh v = c_sh q) as <-; [|destruct v; reflexivity].
    destruct (ls_dif _ _ _ _ Hsite) as [Ho _]. destruct (ok_total _ _ _ _ m Ho) as (d1 & F1 & F2 & _); [lia|]. assert (d1 = d) as -> by congruence.
    unfold s_in in Es. rewrite Hk in Es. apply bind_Some in Es as (r & _ & Es). apply bind_Some in Es as (e1 & G1 & Es). apply bind_Some in Es as (kk & _ & Es). apply bind_Some in Es as (u & G2 & G3).
    rewrite (v_scal_sh _ _ _ _ G3), (v_scal_sh _ _ _ _ G2), (share_sh _ _ _ G1). congruence.
Qed.
End Kinds.
End TrnKind.
