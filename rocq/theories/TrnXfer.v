(** * TrnXfer: copying an expression that is built on the way *)
From Verif Require Import Base Num ModelTools ModelOps ModelTensor ModelGraph ModelLayer Spec Denote FwdSpec
  IndexProofs ExecProofs TensorFacts AccessProofs BuildProofs BuildFrame CompileProofs Agree FwdMask FwdBuild FwdSeg FwdOps FwdPool NetBuild NetChain FwdBody FwdExpr FwdConv FwdConv2 FwdAct
  TrnSpec TrnTri TrnOwn TrnExpr.
From Verif Require TransferProofs.
From Coq Require Import Lia ZifyBool ZifyNat ZifyN.

Section TrnXfer.
Context {T : Type} `{Num T}.
Implicit Types (s : tst T) (m : list T).

(** More fuel does no harm. *)
Lemma BuildGraph_more : forall fuel id s s', BuildGraph fuel id s = (Ok tt, s') -> BuildGraph (S fuel) id s = (Ok tt, s').
Proof using Type.
  induction fuel as [|fuel IH]; intros id s s' E; [discriminate E|].
  change (BuildGraph (S (S fuel)) id s = (Ok tt, s')). cbn [BuildGraph] in E. apply bnd_ok in E as (n & s1 & E1 & E2).
  remember (S fuel) as fu eqn:Efu. cbn [BuildGraph]. rewrite (mbnd_ok _ _ _ _ _ E1). subst fu. destruct (builded (nmat n)); [exact E2|].
  apply bnd_ok in E2 as ([] & s2 & E3 & E4). rewrite (mbnd_ok _ _ _ _ _ E3).
  assert (U : forall t (k : TM T unit) x, (BuildGraph fuel t ;~ k) x = (Ok tt, s') -> (BuildGraph (S fuel) t ;~ k) x = (Ok tt, s')).
  { intros t k x E. apply bnd_ok in E as ([] & x1 & F1 & F2). rewrite (mbnd_ok _ _ _ _ _ (IH _ _ _ F1)). exact F2. }
  assert (B : forall t u (k : TM T unit) x, (BuildGraph fuel t ;~ BuildGraph fuel u ;~ k) x = (Ok tt, s') -> (BuildGraph (S fuel) t ;~ BuildGraph (S fuel) u ;~ k) x = (Ok tt, s')).
  { intros t u k x E. apply bnd_ok in E as ([] & x1 & F1 & F2). rewrite (mbnd_ok _ _ _ _ _ (IH _ _ _ F1)). apply U. exact F2. }
  destruct (nkind n); first [exact (U _ _ _ E4)|exact (B _ _ _ _ E4)|exact E4].
Qed.
Lemma BuildGraph_fuel fuel fuel' id s s' : fuel <= fuel' -> BuildGraph fuel id s = (Ok tt, s') -> BuildGraph fuel' id s = (Ok tt, s').
Proof using Type. intros Hle E. induction Hle as [|k _ IH]; [exact E|]. apply BuildGraph_more. exact IH. Qed.

(** One more tensor of whatever kind at the end. *)
Lemma denotes_view n (v : list (node T)) x id e : denotes n v id e ->
  shape_of (leafsh (v ++ [x])) e = shape_of (leafsh v) e /\ (no_crossing (leafsh v) e -> no_crossing (leafsh (v ++ [x])) e) /\
  forall m, eval (leafv (v ++ [x]) m) (fun l => m !! l) e = eval (leafv v m) (fun l => m !! l) e.
Proof using Type.
  induction 1; cbn [shape_of eval no_crossing];
    repeat match goal with IH : _ /\ _ /\ _ |- _ => let a := fresh "S" in let b := fresh "N" in let c := fresh "V" in destruct IH as (a & b & c); rewrite ?a; try setoid_rewrite c end;
    try (split; [reflexivity|split; [tauto|reflexivity]]).

  { assert (E : (v ++ [x]) !! id = v !! id) by (apply lookup_app_l; eapply lookup_lt_Some; eassumption). unfold leafsh, leafv. rewrite E. auto. }
  all: split; [reflexivity|]; split; [tauto|]; intros m0; destruct (eval _ _ ea); [cbn [mbind option_bind]; first [rewrite V|rewrite V0]; reflexivity|reflexivity].
Qed.

Lemma view_add s x : view (MkSt (mem s) (tens s ++ [x]) (ctx s)) = view s ++ [mask x].
Proof using Type. unfold view. cbn [tens]. apply map_app. Qed.
(** An expression still stands for the same when one more tensor comes. *)
Lemma den_add s x j e sh : den s j e sh -> den (MkSt (mem s) (tens s ++ [x]) (ctx s)) j e sh /\
  forall m, evals (MkSt (mem s) (tens s ++ [x]) (ctx s)) m e = evals s m e.
Proof using Type.
  intros [D U S N]. destruct (denotes_view _ _ (mask x) _ _ D) as (E1 & E2 & E3). split.
  - split; rewrite ?view_add; cbn [mem].
    + apply TransferProofs.denotes_grow. exact D.
    + intros i n Hi Hn Hlf. pose proof (TransferProofs.below_grow _ _ _ _ _ _ D Hi) as Hi'. apply (U i n Hi'); [|exact Hlf].
      rewrite lookup_app_l in Hn; [exact Hn|]. eapply Nat.le_lt_trans; [eapply below_le; eassumption|]. unfold view. rewrite map_length. eapply den_lt. split; eassumption.
    + congruence.
    + auto.
  - intros m. unfold evals. rewrite view_add. apply E3.
Qed.

(** Copying [f], which is built on the way, to [t]. *)
Lemma tri_transfer_expr s f t e sh nt sht kf mf : den s f e sh -> tens s !! f = Some (MkNode kf mf) -> builded mf = false -> opk kf ->
  node_ok s t nt sht -> prodN sh = prodN sht -> NoDup (operands (nmat nt)) ->
  exists s' (W : nat -> Prop) C, Transfer f t s = (Ok tt, s') /\ (forall l, W l -> length (mem s) <= l \/ Some l ∈ operands (nmat nt)) /\
    tri s s' W C (fun m => evals s m e <> None) (fun m m' => forall v, evals s m e = Some v -> mval m' (nmat nt) = Some (V sht (vdata v))).
Proof using Type.
  intros D Hf Hbf Hop Hnt Hp Hnd. pose proof (den_lt _ _ _ _ D) as Hfl. pose proof Hnt as (Ht & Hst & Hwt & Hsht). set (c := length (tens s)).
  set (xc := MkNode (KCopy f t) (MkMat [] [] [] true) : node T). destruct (den_add s xc f e sh D) as (D2 & Ev). set (s2 := MkSt (mem s) (tens s ++ [xc]) (ctx s)) in *.
  destruct (tri_build s2 f e sh D2) as (s3 & W & C & n3 & E3 & T3 & HW & Hl3 & Hn3 & _).
  (* [f] has scalars of its own *)
  assert (Hf2 : tens s2 !! f = Some (MkNode kf mf)) by (cbn [s2 tens]; apply lookup_app_l_Some; exact Hf).
  assert (Hown : owned (length (mem s)) (length (mem s3)) n3).
  { destruct (BuildGraph_grows _ _ _ _ E3) as [_ HG]. destruct (HG _ Hf2 Hbf Hop) as (n' & Hn' & _ & Ho). destruct Hn3 as (Hn3 & _). assert (n' = n3) as -> by congruence. exact Ho. }
  assert (Ht2 : node_ok s2 t nt sht) by (split; [cbn [s2 tens]; apply lookup_app_l_Some; exact Ht|repeat split; try assumption; apply Hwt]).
  pose proof (tri_len _ _ _ _ _ _ T3) as L3. cbn [s2 mem] in L3.
  destruct (node_ok_keep _ _ _ _ _ Ht2 (tri_keep _ _ _ _ _ _ T3) L3) as (nt3 & Hnt3 & Ot3 & Vt3). pose proof Hnt3 as (Ht3 & Hst3 & Hwt3 & Hsht3).
  assert (Hc3 : exists kc mc, tens s3 !! c = Some (MkNode kc mc)).
  { destruct (lookup_lt_is_Some_2 (tens s3) c) as [[kc mc] Hc]; [rewrite Hl3; cbn [s2 tens]; rewrite app_length; unfold c; cbn; lia|]. eauto. }
  assert (Hcp : exists c', c = S c') by (exists (pred c); lia). destruct Hcp as [c' Ec].
  destruct (TransferProofs.build_settled c' t s3 nt3 Ht3 Hst3) as (s4 & q & E4 & M4 & C4 & X4 & L4 & K4).
  destruct (K4 _ _ Ht3) as ([kt4 mt4] & Ht4 & (_ & Sh4 & Mi4 & Ot4) & _). cbn [nmat] in Sh4, Mi4, Ot4.
  destruct Hn3 as (Hf3 & Hsf3 & Hwf3 & Hshf3). destruct (K4 _ _ Hf3) as ([kf4 mf4] & Hf4 & (_ & _ & _ & Of4) & _). cbn [nmat] in Of4.
  destruct Hc3 as (kc & mc & Hc3). destruct (K4 _ _ Hc3) as (nc4 & Hc4 & _).
  assert (Hcl : c < length (tens s4)) by (eapply lookup_lt_Some; exact Hc4).
  assert (Hlen : length (operands mt4) = length (operands mf4)).
  { rewrite Ot4, Of4. destruct Hwf3 as (_ & _ & -> & _). destruct Hwt3 as (_ & _ & -> & _). congruence. }
  set (sets := zip_with (@OSet T) (operands mt4) (operands mf4)).
  assert (Hnc : exists nc', set_operands c (operands mt4) (snd (set_shape c (shape mt4) (mulindex mt4) s4)) = (Ok tt, MkSt (mem s4) (<[c := nc']> (tens s4)) (ctx s4))).
  { unfold set_shape, set_operands, upd_mat. rewrite Hc4. cbn [snd tens]. rewrite list_lookup_insert by exact Hcl. eexists. rewrite list_insert_insert. reflexivity. }
  destruct Hnc as (nc' & Hnc).
  set (s5 := MkSt (mem s4) (<[c := nc']> (tens s4)) (ctx s4 ++ sets)).
  assert (Hcopy : build_copy c f t s4 = (Ok tt, s5)).
  { unfold build_copy. erewrite mbnd_ok by (apply get_mat_ok; exact Hf4). erewrite mbnd_ok by (apply get_mat_ok; exact Ht4). cbn [nmat]. unfold msize, ulen.
    rewrite Hlen, N.eqb_refl. cbn [negb]. erewrite mbnd_ok by (unfold set_shape, upd_mat; rewrite Hc4; reflexivity).
    unfold set_shape, upd_mat in Hnc. rewrite Hc4 in Hnc. cbn [snd] in Hnc. rewrite (mbnd_ok _ _ _ _ _ Hnc). rewrite <- Hlen. rewrite TransferProofs.push_sets by exact Hlen. reflexivity. }
  assert (Etr : Transfer f t s = (Ok tt, s5)).
  { unfold Transfer, CopyTo. erewrite mbnd_ok by reflexivity. fold c. unfold Build. cbn [BuildGraph].
    assert (Hcs : (tens s ++ [MkNode (KCopy f t) empty_mat]) !! c = Some (MkNode (KCopy f t) empty_mat)) by (rewrite lookup_app_r by (unfold c; lia); unfold c; rewrite Nat.sub_diag; reflexivity).
    erewrite mbnd_ok by (unfold get_node; cbn [tens]; rewrite Hcs; reflexivity). cbn [nmat builded empty_mat].
    erewrite mbnd_ok by (unfold set_built, upd_mat; cbn [tens]; rewrite Hcs; reflexivity). cbn [nkind tens mem ctx].
    assert (Ei : <[c := MkNode (KCopy f t) (MkMat (shape empty_mat) (mulindex empty_mat) (operands empty_mat) true)]> (tens s ++ [MkNode (KCopy f t) empty_mat]) = tens s ++ [xc]).
    { rewrite insert_app_r_alt by (unfold c; lia). unfold c. rewrite Nat.sub_diag. reflexivity. }
    cbn [nkind nmat] in Ei |- *. rewrite Ei. fold s2.
    erewrite mbnd_ok by (eapply (BuildGraph_fuel (S f)); [unfold c; lia|exact E3]). rewrite Ec. erewrite mbnd_ok by exact E4. rewrite <- Ec. exact Hcopy. }
  exists s5, (either W (fun l => Some l ∈ operands (nmat nt))), C. split; [exact Etr|]. split.
  { intros l [Hl|Hl]; [left; apply HW in Hl; exact Hl|right; exact Hl]. }
  (* the three parts *)
  assert (Hk25 : keeps s s2).
  { intros j n Hn. exists n. split; [cbn [s2 tens]; apply lookup_app_l_Some; exact Hn|]. auto. }
  assert (S2 : seg nowhere s s2 [] []).
  { split; [exists []; cbn [s2 mem]; rewrite app_nil_r; reflexivity|cbn [s2 ctx]; rewrite app_nil_r; reflexivity|intros m m' l _ Hx _; injection Hx as <-; reflexivity|constructor|intros l []|exact Hk25]. }
  destruct (tri_after _ _ _ _ _ _ _ _ S2 T3 ltac:(intros c0 Hc0; inversion Hc0)) as (new & S & X). cbn [app] in S, X. clear S2.
  assert (M5 : mem s5 = mem s3) by (cbn [s5 mem]; exact M4).
  assert (Hnt_lt : forall l, Some l ∈ operands (nmat nt) -> l < length (mem s)) by (intros l; apply (node_ok_lt _ _ _ _ _ Hnt)).
  assert (Hfin : forall m, length (mem s3) <= length m -> exists m', exec (q ++ sets) m = Some m' /\ rds m' (operands (nmat nt)) = rds m (operands (nmat n3)) /\ forall l, Some l ∉ operands (nmat nt) -> m' !! l = m !! l).
  { intros m Hm. destruct (TransferProofs.exec_sets (length (mem s3)) (operands mt4) (operands mf4) m) as (m' & Hx & Hr & Hfr).
    - rewrite Ot4. apply Hwt3.
    - rewrite Of4. apply Hwf3.
    - exact Hm.
    - exact Hlen.
    - rewrite Ot4, Ot3. exact Hnd.
    - rewrite Of4, Ot4, Ot3. intros i j p Hij Hi Hj. destruct Hwf3 as (_ & _ & _ & Hv). rewrite Forall_forall in Hv. apply elem_of_list_lookup_2 in Hj. destruct (Hv _ Hj) as (l & -> & _).
      destruct (owned_in _ _ _ _ Hown Hj). apply elem_of_list_lookup_2 in Hi. apply Hnt_lt in Hi. lia.
    - exists m'. rewrite exec_app, X4. split; [exact Hx|]. rewrite Ot4, Ot3, Of4 in Hr. split; [exact Hr|]. intros l Hl. apply Hfr. rewrite Ot4, Ot3. exact Hl. }
  exists (new ++ q ++ sets). split.
  - split.
    + rewrite M5. apply (sg_mem _ _ _ _ _ S).
    + cbn [s5 ctx]. rewrite C4, (sg_ctx _ _ _ _ _ S), <- !app_assoc. reflexivity.
    + rewrite M5. intros m m' l Hm Hx Hl. rewrite exec_app in Hx. destruct (exec new m) as [m1|] eqn:E1; [|discriminate]. cbn in Hx.
      assert (Hm1 : length m1 = length m) by (eapply exec_length; exact E1).
      destruct (Hfin m1 ltac:(lia)) as (m2 & Hx2 & _ & Hfr). assert (m' = m2) as -> by congruence. rewrite Hfr by (intros Hx0; apply Hl; right; exact Hx0).
      eapply (sg_frame _ _ _ _ _ S); [exact Hm|exact E1|]. intros Hx0. apply Hl. left. exact Hx0.
    + rewrite M5. pose proof (sg_const _ _ _ _ _ S) as HC. rewrite Forall_forall in HC |- *. intros c0 Hc0. destruct (HC _ Hc0) as (H1 & H2 & H3). split; [exact H1|]. split; [exact H2|].
      intros [Hx|Hx]; [auto|]. apply Hnt_lt in Hx. lia.
    + rewrite M5. intros l [Hl|Hl]; [exact (sg_W _ _ _ _ _ S _ Hl)|]. apply Hnt_lt in Hl. lia.
    + intros j n Hn. assert (Hjc : j <> c) by (apply lookup_lt_Some in Hn; unfold c; lia). destruct (sg_keep _ _ _ _ _ S _ _ Hn) as (n' & Hn' & A1 & A2 & A3).
      destruct (K4 _ _ Hn') as (n'' & Hn'' & (B1 & B2 & B3 & B4) & B5 & _). exists n''. cbn [s5 tens]. rewrite list_lookup_insert_ne by auto. split; [exact Hn''|]. split; [congruence|]. split; [auto|].
      intros Hs. destruct (A3 Hs) as (C1 & C2 & C3). split; [congruence|]. split; congruence.
  - rewrite M5. intros m Hm HC HP. destruct (X m Hm HC) as (m1 & E1 & R1 & V1); [rewrite Ev; exact HP|]. pose proof R1 as [Hm1 _].
    destruct (Hfin m1 ltac:(lia)) as (m2 & Hx2 & Hr2 & Hfr). exists m2. split; [rewrite exec_app, E1; exact Hx2|]. split.
    + eapply ran_trans; [exact R1|]. split; [eapply exec_length; exact Hx2|exact Hfr].
    + intros v Hv. rewrite Ev, Hv in V1. unfold mval in *. rewrite Hr2. destruct (rds m1 (operands (nmat n3))) as [d|]; [|discriminate]. cbn [mbind option_bind] in V1 |- *. injection V1 as <-. rewrite Hsht. reflexivity.
Qed.
End TrnXfer.
