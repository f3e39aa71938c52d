(** * TrnHist: a compiled chain of layers that is used and trained *)
From stdpp Require Import relations.
From Verif Require Import Base Num ModelTools ModelOps ModelTensor ModelGraph ModelLayer ModelModel Spec NetSpec FwdSpec Denote
  IndexProofs ExecProofs TensorFacts AccessProofs BuildProofs CompileProofs Agree EagerProofs FwdMask FwdBuild FwdSeg FwdOps FwdConv FwdPool NetBuild NetChain FwdBody
  FwdNet FwdCount FwdChain FwdRun FwdScript FwdProg FwdHist
  NetLaws BwdSpec TrnSpec TrnScript TrnProg TrnTri TrnSite TrnDer TrnBody TrnChain TrnFit TrnComp TrnRun TrnAux TrnLine TrnPrep TrnMade.
From Coq Require Import Lia ZifyBool ZifyNat ZifyN.

Section TrnHist.
Context {T : Type} `{Num T}.
Implicit Types (s : lst T) (c q p : clay T) (cs rest : list (clay T)).

(** ** The specification reads only what a layer has *)
Lemma s_out_ext (par par' : params (T:=T)) x : forall cs, (forall p, p ∈ cs -> c_par p = true -> par (c_i p) = par' (c_i p)) -> s_out par x cs = s_out par' x cs.
Proof using Type.
  induction cs as [|c rest IH]; intros Hp; [reflexivity|]. cbn [s_out]. rewrite IH by (intros p Hq; apply Hp; right; exact Hq). destruct (s_out par' x rest) as [v|]; [|reflexivity]. cbn [mbind option_bind].
  destruct (c_l c) as [l|] eqn:El; [|reflexivity]. destruct (has_par l) eqn:Eh; [|apply lay_val_nop; exact Eh]. rewrite (Hp c ltac:(left)); [reflexivity|]. unfold c_par. rewrite El. exact Eh.
Qed.
Lemma s_show_ext (par par' : params (T:=T)) x i : forall cs k, (forall p, p ∈ cs -> c_par p = true -> par (c_i p) = par' (c_i p)) -> agree (s_show par x k cs) (s_show par' x k cs) i.
Proof using Type.
  induction cs as [|c rest IH]; intros k Hp; [repeat split|]. pose proof (s_out_ext par par' x (c :: rest) Hp) as E0.
  pose proof (s_out_ext par par' x rest ltac:(intros p Hq; apply Hp; right; exact Hq)) as E1. cbn [s_show].
  specialize (IH (if flattens c then S k else 0) ltac:(intros p Hq; apply Hp; right; exact Hq)). destruct IH as (A1 & A2 & A3 & A4 & A5 & A6 & A7).
  assert (Ep : (if c_par c then par (c_i c) else None) = (if c_par c then par' (c_i c) else None)) by (destruct (c_par c) eqn:E; [apply Hp; [left|exact E]|reflexivity]).
  unfold agree, or_else. cbn [r_x r_n r_y r_b r_w r_max r_ref]. destruct (i =? c_i c).
  - rewrite E1, Ep, E0. repeat split.
  - rewrite A1, A2, A3, A4, A5, A6, A7. repeat split.
Qed.
Lemma agree_trans (R R' R'' : reading T) i : agree R R' i -> agree R' R'' i -> agree R R'' i.
Proof using Type. intros (a1 & a2 & a3 & a4 & a5 & a6 & a7) (b1 & b2 & b3 & b4 & b5 & b6 & b7). repeat split; congruence. Qed.
Lemma s_par_mom (R R' : reading T) mb mb' al mo c d : agree R R' (c_i c) -> (has_mom c = true -> mb (c_i c) = mb' (c_i c)) -> s_par R mb al mo c d = s_par R' mb' al mo c d.
Proof using Type.
  intros E Em. destruct (has_mom c) eqn:Eh; [apply s_par_agree'; auto|]. transitivity (s_par R mb' al mo c d); [|apply s_par_agree'; auto].
  unfold s_par. destruct (c_par c); [|reflexivity]. replace (s_bias R mb al mo c d) with (s_bias R mb' al mo c d); [reflexivity|]. unfold s_bias. unfold has_mom in Eh. destruct (c_l c) as [[]|]; try discriminate; reflexivity.
Qed.
Lemma s_step_mom (R R' : reading T) mb mb' al mo cs : (forall c, c ∈ cs -> agree R R' (c_i c) /\ (has_mom c = true -> mb (c_i c) = mb' (c_i c))) -> forall d, s_step R mb al mo cs d = s_step R' mb' al mo cs d.
Proof using Type.
  induction cs as [|c cs IH]; intros Ha d; [reflexivity|]. cbn [s_step]. destruct (Ha c ltac:(left)) as [E Em].
  rewrite (s_par_mom R R' mb mb' _ _ _ _ E Em). destruct (s_par R' mb' al mo c d) as [u|]; [|reflexivity]. cbn [mbind option_bind].
  destruct cs as [|q rest]; [reflexivity|]. rewrite (s_in_agree R R' _ _ _ _ E).
  rewrite (s_der_agree R R') by (intros x Hx; apply (Ha x); right; exact Hx).
  destruct (s_in R' c _ _ d) as [d'|]; [|reflexivity]. cbn [mbind option_bind]. rewrite (IH ltac:(intros x Hx; apply Ha; right; exact Hx)). reflexivity.
Qed.
Lemma mom_par c : has_mom c = true -> c_par c = true.
Proof using Type. unfold has_mom, c_par. destruct (c_l c) as [[]|]; try discriminate; reflexivity. Qed.
(** What a layer has after a step. *)
Lemma new_at (P : clay T -> update -> Prop) par mb (al mo : T) : forall cs us, NoDup (map c_i cs) -> Forall2 P cs us -> forall p, p ∈ cs -> exists u, P p u /\
  new_par par cs us (c_i p) = match snd u with Some x => Some x | None => par (c_i p) end /\
  new_mom mb al mo cs us (c_i p) = if has_mom p then s_db mb al mo (c_i p) (fst u) else mb (c_i p).
Proof using Type.
  induction cs as [|c cs IH]; intros us Hnd Hf p Hp; [inversion Hp|]. inversion Hf as [|? u ? us' Hu Hr]; subst. cbn [map] in Hnd. apply NoDup_cons in Hnd as [Hni Hnd]. cbn [new_par new_mom].
  apply elem_of_cons in Hp as [->|Hp].
  - exists u. rewrite Nat.eqb_refl. auto.
  - destruct (Nat.eqb_spec (c_i p) (c_i c)) as [E|_]; [exfalso; apply Hni; rewrite <- E; apply elem_of_list_fmap; eauto|]. apply IH; assumption.
Qed.

(** ** One call of Predict *)
Definition inops (n : node T) (a : nat) : Prop := Some a ∈ operands (nmat n).
Lemma copy_node n sh (nd : node T) (m : list T) vo : wf_mat n (nmat nd) -> shape (nmat nd) = sh -> mval m (nmat nd) = Some vo ->
  let nc := MkNode KMat (MkMat (shape (nmat nd)) (mulindex (nmat nd)) (map Some (seq (length m) (length (vdata vo)))) false) : node T in
  wf_mat (length (m ++ vdata vo)) (nmat nc) /\ shape (nmat nc) = sh /\ mval (m ++ vdata vo) (nmat nc) = Some vo /\ forall a, inops nc a -> length m <= a.
Proof using Type.
  intros (W1 & W2 & W3 & W4) Hs Hv nc. destruct (mval_shape _ _ _ Hv) as [E1 E2]. cbn [nc nmat shape operands mulindex]. split; [|split; [exact Hs|split]].
  - split; [exact W1|]. split; [exact W2|]. cbn [shape operands]. split; [rewrite map_length, seq_length; lia|]. apply Forall_forall. intros x Hx. apply elem_of_list_fmap in Hx as (a & -> & Ha). apply elem_of_seq in Ha. exists a. split; [reflexivity|]. rewrite app_length. lia.
  - unfold mval. cbn [operands shape]. erewrite rds_seq; [rewrite <- E1; destruct vo; reflexivity|]. intros i Hi. rewrite lookup_app_r by lia. f_equal. lia.
  - intros a Ha. unfold inops in Ha. cbn [nc nmat operands] in Ha. apply elem_of_list_fmap in Ha as (b & [= <-] & Hb). apply elem_of_seq in Hb. lia.
Qed.
Lemma predict_gen rnd (M : model T) S x nx inp (ni : node T) ish out (no : node T) osh fops vx (Wf : nat -> Prop) (R : list T -> list T -> Prop) :
  m_ff M = Some (MkGraph fops) -> m_input M = Some inp -> m_output M = Some out ->
  plain (ts S) inp ni ish -> NoDup (operands (nmat ni)) -> plain (ts S) out no osh -> plain (ts S) x nx ish -> (forall a, inops ni a -> ~ inops nx a) -> mval (mem (ts S)) (nmat nx) = Some vx ->
  (forall m, ran (inops ni) (mem (ts S)) m -> mval m (nmat ni) = Some vx -> exists m', exec fops m = Some m' /\ ran Wf m m' /\ R m m') ->
  exists m3 m4 vo nc, ran (inops ni) (mem (ts S)) m3 /\ mval m3 (nmat ni) = Some vx /\ ran Wf m3 m4 /\ R m3 m4 /\ mval m4 (nmat no) = Some vo /\
    Predict rnd M x S = (Ok (length (tens (ts S)), M), MkL (MkSt (m4 ++ vdata vo) (tens (ts S) ++ [nc]) (ctx (ts S))) (lays S) (rc S)) /\
    wf_mat (length (m4 ++ vdata vo)) (nmat nc) /\ shape (nmat nc) = osh /\ mval (m4 ++ vdata vo) (nmat nc) = Some vo /\ (forall a, inops nc a -> length (mem (ts S)) <= a) /\ nkind nc = KMat.
Proof using Type.
  intros E1 E2 E3 Pi Hnd Po Px Hdis Hvx Hex. destruct (load_ok (ts S) inp x ni nx ish Pi Px Hnd Hdis) as (m3 & EL & R3 & V3). rewrite Hvx in V3.
  destruct (Hex m3 R3 V3) as (m4 & Ex & R4 & Rm). destruct Po as (Hn & Hw & Hs). assert (L4 : length m4 = length (mem (ts S))) by (rewrite (proj1 R4), (proj1 R3); reflexivity).
  destruct (mval_total _ m4 _ Hw ltac:(lia)) as (vo & Hvo). pose proof (copy_node _ osh no m4 vo Hw Hs Hvo) as HC. cbv zeta in HC. set (nc := MkNode KMat _) in HC. destruct HC as (C1 & C2 & C3 & C4).
  exists m3, m4, vo, nc. split; [exact R3|]. split; [exact V3|]. split; [exact R4|]. split; [exact Rm|]. split; [exact Hvo|]. split; [|split; [exact C1|split; [exact C2|split; [exact C3|split; [intros a Ha; specialize (C4 a Ha); lia|reflexivity]]]]].
  unfold Predict. rewrite E1. erewrite mbnd_ok by reflexivity. rewrite E2. erewrite mbnd_ok by reflexivity. erewrite mbnd_ok by (apply liftT_ok; exact EL).
  erewrite mbnd_ok by (eapply NetRun2.ExecG_ok; [exact E1|exact Ex]). rewrite E3. erewrite mbnd_ok by reflexivity. cbn [ts tens ctx lays rc mem].
  unfold mval in Hvo. destruct no as [kn mn]. cbn [nmat] in *. destruct (rds m4 (operands mn)) as [ws|] eqn:Ew; [|discriminate]. injection Hvo as <-.
  pose proof (NetRun.Copy_rd (MkSt m4 (tens (ts S)) (ctx (ts S))) out kn mn ws Hn Ew) as EC. cbn [mem tens ctx] in EC.
  erewrite mbnd_ok by (apply liftT_ok; exact EC). reflexivity.
Qed.
Lemma load_bad (t : tst T) i j ni nj sh sh' : plain t i ni sh -> plain t j nj sh' -> sh' <> sh -> exists e, LoadFromTensor i j t = (Err e, t).
Proof using Type.
  intros (Hi & _ & Si) (Hj & _ & Sj) Hne. destruct (NetRun3.shape_err sh sh') as [e He]; [congruence|]. exists e.
  unfold LoadFromTensor. erewrite mbnd_ok by (unfold get_mat; erewrite mbnd_ok by (unfold get_node; rewrite Hi; reflexivity); reflexivity).
  erewrite mbnd_ok by (unfold get_mat; erewrite mbnd_ok by (unfold get_node; rewrite Hj; reflexivity); reflexivity). rewrite Si, Sj, He. reflexivity.
Qed.

(** ** Layers that differ in nothing but being trainable *)
Section Alike.
Variables (sa sb : lst T) (cs : list (clay T)).
Hypothesis Ea : alike (lays sa) (lays sb).
Hypothesis Et : ts sb = ts sa.
Lemma fnode_alike i f : fnode sb i f = fnode sa i f.
Proof using Ea Et. unfold fnode. rewrite (fid_alike _ _ i f Ea), Et. reflexivity. Qed.
Lemma cells_alike i f a : cells sb i f a <-> cells sa i f a.
Proof using Ea Et. unfold cells. rewrite fnode_alike. reflexivity. Qed.
Lemma fval_alike i f m : fval sb i f m = fval sa i f m.
Proof using Ea Et. unfold fval. rewrite fnode_alike. reflexivity. Qed.
Lemma same_alike : same sa sb cs.
Proof using All.
  intros c _. split; [|split; [exact (refc_alike _ _ _ Ea)|exact (maxc_alike _ _ _ Ea)]]. intros f _. split; [exact (fid_alike _ _ _ _ Ea)|]. split; [intros m; apply fval_alike|intros a; apply cells_alike].
Qed.
Lemma held_alike : held sa sb.
Proof using Ea Et.
  split; rewrite ?Et; auto using keeps_refl; [|exact (proj1 Ea)]. intros i l Hl. destruct (alike_l _ _ _ _ Ea Hl) as (l' & Hl' & A1 & A2 & A3 & A4 & A5 & A6 & _). exists l'. split; [exact Hl'|].
  do 5 (split; [assumption|]). intros f t Hf. rewrite A6. exact Hf.
Qed.
Lemma chain_alike : chain sa cs -> chain sb cs.
Proof using All. apply chain_held; [exact held_alike|exact same_alike]. Qed.
Lemma apt0_alike : apt0 sa cs -> apt0 sb cs.
Proof using All.
  intros [A1 A2 A3 A4 A5 A6]. split.
  - intros c q f a Hc Hq Hf. rewrite !cells_alike. exact (A1 c q f a Hc Hq Hf).
  - intros c q a Hc Hq. rewrite cells_alike, (refc_alike _ _ _ Ea), (maxc_alike _ _ _ Ea). exact (A2 c q a Hc Hq).
  - intros c f a Hc Hf. rewrite cells_alike, Et. exact (A3 c f a Hc Hf).
  - intros c a Hc. rewrite (refc_alike _ _ _ Ea), (maxc_alike _ _ _ Ea), Et. exact (A4 c a Hc).
  - exact A5.
  - intros c f t Hc Hf. rewrite (fid_alike _ _ _ _ Ea), Et. exact (A6 c f t Hc Hf).
Qed.
Lemma clearW_alike a : clearW sb cs a <-> clearW sa cs a.
Proof using All. unfold clearW. split; intros (p & Hp & Ha); exists p; (split; [exact Hp|]); apply cells_alike; exact Ha. Qed.
Lemma pcells_alike a : pcells sb cs a <-> pcells sa cs a.
Proof using All. unfold pcells. split; intros (p & f & Hp & Hc & Hf & Ha); exists p, f; do 3 (split; [assumption|]); apply cells_alike; exact Ha. Qed.
Lemma rcells_alike a : rcells sb cs a <-> rcells sa cs a.
Proof using Ea. unfold rcells. split; intros (p & Hp & Ha); exists p; (split; [exact Hp|]); [rewrite <- (refc_alike _ _ _ Ea)|rewrite (refc_alike _ _ _ Ea)]; exact Ha. Qed.
Lemma forward_alike inp ni ish fops Cf Wf Pf Rf : forward sa cs inp ni ish fops Cf Wf Pf Rf -> forward sb cs inp ni ish fops Cf Wf Pf Rf.
Proof using All.
  intros [F1 F2 F3 F4 F5 F6 F7 F8 F9 F10]. split; rewrite ?Et; try assumption.
  - intros a Ha. rewrite clearW_alike, pcells_alike, rcells_alike. exact (F3 a Ha).
  - intros a Ha. rewrite clearW_alike, pcells_alike, rcells_alike. exact (F5 a Ha).
  - intros x Hx. rewrite clearW_alike, pcells_alike. exact (F6 x Hx).
  - intros a. rewrite rcells_alike, pcells_alike. exact (F7 a).
  - intros p f n. rewrite fnode_alike. apply F8.
  - intros p p' f f' a. rewrite !cells_alike. apply F9.
  - intros p. rewrite (fid_alike _ _ _ _ Ea). apply F10.
Qed.
End Alike.
Lemma prepared_alike (sa sb : lst T) M top rest out : alike (lays sa) (lays sb) -> ts sb = ts sa -> prepared sa M top rest out -> prepared sb M top rest out.
Proof using Type.
  intros Ea Et [P1 P2 P3 P4 P5 P6 P7 P8 P9 P10]. split; try assumption.
  - exact (chain_alike sa sb _ Ea Et P1).
  - exact (apt0_alike sa sb _ Ea Et P2).
  - rewrite (fid_alike _ _ _ _ Ea). exact P4.
  - intros n. rewrite (fnode_alike sa sb Ea Et). apply P7.
  - intros p Hp g Hg. rewrite (fid_alike _ _ _ _ Ea). exact (P8 p Hp g Hg).
  - intros j Hj. rewrite (fid_alike _ _ _ _ Ea). exact (P9 j Hj).
  - intros p l Hp Hl. destruct (alike_r _ _ _ _ Ea Hl) as (l0 & Hl0 & _ & _ & _ & _ & _ & _ & A7). rewrite A7 by discriminate. exact (P10 p l0 Hp Hl0).
Qed.
(** Setting whether a layer is trainable. *)
Lemma alike_set (ls : list (layer T)) i l b : ls !! i = Some l -> alike ls (<[i := set_flag BTrainable b l]> ls).
Proof using Type.
  intros Hl. split; [apply insert_length|]. intros j l1 l2 H1 H2. destruct (decide (j = i)) as [->|Hne].
  - rewrite list_lookup_insert in H2 by (eapply lookup_lt_Some; exact Hl). injection H2 as <-. assert (l1 = l) as -> by congruence. do 6 (split; [reflexivity|]). intros g Hg. destruct g; try reflexivity; contradiction.
  - rewrite list_lookup_insert_ne in H2 by auto. assert (l2 = l1) as -> by congruence. apply lalike_refl.
Qed.
Fixpoint strung (S : lst T) cs : Prop :=
  match cs with
  | [] => True
  | c :: rest => (exists l, lays S !! c_i c = Some l /\ match rest with [] => True | q :: _ => lpre l = Some (c_i q) end) /\ strung S rest
  end.
Lemma chain_strung (S : lst T) : forall cs, chain S cs -> strung S cs.
Proof using Type.
  induction cs as [|c rest IH]; [intros _; exact I|]. intros Hch. destruct rest as [|q rest].
  - destruct Hch as (l & psh & Hs & _). split; [|exact I]. exists l. split; [exact (ls_lay _ _ _ _ Hs)|exact I].
  - destruct Hch as (l & Hs & Hp & _ & _ & Hc). split; [exists l; split; [exact (ls_lay _ _ _ _ Hs)|exact Hp]|apply IH; exact Hc].
Qed.
Lemma strung_alike (S S1 : lst T) : alike (lays S) (lays S1) -> forall cs, strung S cs -> strung S1 cs.
Proof using Type.
  intros A. induction cs as [|c rest IH]; [auto|]. intros [(l & Hl & Hp) Hs]. split; [|apply IH; exact Hs]. destruct (alike_l _ _ _ _ A Hl) as (l' & Hl' & _ & _ & A3 & _). exists l'. split; [exact Hl'|]. destruct rest; [exact I|]. rewrite A3. exact Hp.
Qed.
Lemma strung_in (S : lst T) : forall cs p, strung S cs -> p ∈ cs -> exists l, lays S !! c_i p = Some l.
Proof using Type.
  induction cs as [|c rest IH]; intros p Hs Hp; [inversion Hp|]. destruct Hs as [(l & Hl & _) Hs]. apply elem_of_cons in Hp as [->|Hp]; [eauto|]. apply IH; assumption.
Qed.
Lemma strung_short (S : lst T) cs : strung S cs -> NoDup (map c_i cs) -> length cs <= length (lays S).
Proof using Type.
  intros Hs Hnd. rewrite <- (map_length c_i cs), <- (seq_length (length (lays S)) 0). apply submseteq_length. apply NoDup_submseteq; [exact Hnd|]. intros i Hi.
  apply elem_of_list_fmap in Hi as (p & -> & Hp). destruct (strung_in S cs p Hs Hp) as [l Hl]. apply elem_of_seq. apply lookup_lt_Some in Hl. lia.
Qed.
(** The model's SetTrainable. *)
Definition flagged (f : nat -> option bool) (S S1 : lst T) : Prop := forall j l l1, lays S !! j = Some l -> lays S1 !! j = Some l1 -> lflag l1 BTrainable = match f j with Some b => b | None => lflag l BTrainable end.
Lemma model_set b : forall cs c rest, cs = c :: rest -> forall S fuel, NoDup (map c_i cs) -> strung S cs -> length cs <= fuel ->
  exists S1, set_trainable fuel (Some (c_i c)) (last (map c_i cs)) b S = (Ok tt, S1) /\ ts S1 = ts S /\ rc S1 = rc S /\ alike (lays S) (lays S1) /\
    flagged (fun j => if existsb (fun q => j =? c_i q) (removelast cs) then Some b else None) S S1.
Proof using Type.
  induction cs as [|c0 cs IH]; intros c rest [= -> ->] S fuel Hnd Hs Hf. destruct fuel as [|fuel]; [cbn in Hf; lia|]. cbn [set_trainable]. destruct rest as [|q rest].
  - cbn [map last]. rewrite bool_decide_eq_true_2 by reflexivity. exists S. split; [reflexivity|]. split; [reflexivity|]. split; [reflexivity|]. split; [apply alike_refl|]. intros j l l1 H1 H2. cbn. congruence.
  - destruct Hs as [(l & Hl & Hp) Hs]. cbn [map] in Hnd. apply NoDup_cons in Hnd as [Hni Hnd]. change (last (map c_i (c :: q :: rest))) with (last (map c_i (q :: rest))).
    rewrite bool_decide_eq_false_2.
    2:{ intros E. apply Hni. symmetry in E. apply last_Some in E as [l' E]. cbn [map] in E. rewrite E. apply elem_of_app. right. left. }
    erewrite mbnd_ok by (unfold LSetTrainable; apply updL_ok; exact Hl). pose proof (alike_set (lays S) (c_i c) l b Hl) as Ha. set (S0 := MkL (ts S) _ (rc S)).
    assert (Hl0 : lays S0 !! c_i c = Some (set_flag BTrainable b l)) by (apply list_lookup_insert; eapply lookup_lt_Some; exact Hl).
    erewrite mbnd_ok by (apply getL_ok; exact Hl0). cbn [lpre set_flag]. rewrite Hp.
    destruct (IH q rest eq_refl S0 fuel Hnd (strung_alike S S0 Ha _ Hs)) as (S1 & E & E1 & E2 & E3 & E4); [cbn [length] in *; lia|].
    exists S1. split; [exact E|]. split; [exact E1|]. split; [exact E2|]. split; [exact (alike_trans _ _ _ Ha E3)|].
    intros j l1 l2 H1 H2. change (removelast (c :: q :: rest)) with (c :: removelast (q :: rest)). cbn [existsb]. destruct (alike_l _ _ _ _ Ha H1) as (l0 & H0 & _). rewrite (E4 j l0 l2 H0 H2). destruct (Nat.eqb_spec j (c_i c)) as [->|Hne]; cbn [orb].
    + rewrite list_lookup_insert in H0 by (eapply lookup_lt_Some; exact Hl). injection H0 as <-. cbn. destruct (existsb _ _); reflexivity.
    + rewrite list_lookup_insert_ne in H0 by auto. assert (l0 = l1) as -> by congruence. reflexivity.
Qed.

(** ** The compiled chain *)
Section Hist.
Variables (rnd : nat -> nat -> T) (s0 : lst T) (cs : list (clay T)) (n0 : nat) (U : list nat) (s1 : lst T) (C : list (nat * T)) (W : nat -> Prop) (sf : lst T)
    (top : clay T) (rest : list (clay T)) (e : net T) (inp : nat) (ni : node T) (out : nat).
Hypothesis SU : setup rnd s0 cs n0 U s1 C W sf top rest e inp ni out.
Variables (s' : lst T) (M' : model T) (ish : list N).
Definition later S : Prop := alike (lays sf) (lays S) /\ (exists x, tens (ts S) = tens (ts sf) ++ x) /\
  length (mem (ts sf)) <= length (mem (ts S)) /\ consts C (mem (ts S)) /\
  forall p r v, p ∈ cs -> refc sf (c_i p) = Some r -> mem (ts sf) !! r = Some v -> mem (ts S) !! r = Some v.
Hypothesis Hnow : later s'.
Hypothesis HM : m_last M' = Some (c_i top) /\ m_output M' = Some out /\ m_input M' = Some inp /\ m_ff M' = Some (MkGraph (ctx (ts sf))) /\ m_bp M' = None.
Variable lids : list nat.
Hypothesis Hlids : forall k c, rev cs !! k = Some c -> lids !! k = Some (c_i c).
Hypothesis HM1 : m_first M' = last (map c_i cs).
Hypothesis Hish : shape (nmat ni) = ish.
Hypothesis Htop : c_l top <> None.
Hypothesis Hpos : (0 < prodN (c_sh top))%N.

(** *** What is known about every later state *)
Lemma cs_eq : cs = top :: rest.
Proof using All. exact (su_cs _ _ _ _ _ _ _ _ _ _ _ _ _ _ _ SU). Qed.
Lemma top_in_cs : top ∈ cs.
Proof using All. rewrite cs_eq. left. Qed.
(** The same state with the layers as they were compiled. *)
Definition anew S : lst T := MkL (ts S) (lays sf) (rc S).
Lemma at_forward S : later S -> forward S cs inp ni ish (ctx (ts sf)) C W (fwd_ok sf e) (fwd_run C sf S).
Proof using All.
  intros (El & Et & Em). apply (forward_alike (anew S) S); [exact El|reflexivity|]. rewrite <- Hish. destruct SU. eapply (all_forward U s0 s1 rnd cs C W sf (anew S)) with (n0 := n0) (top := top) (rest := rest); first [exact NewModel|assumption|reflexivity].
Qed.
Lemma at_chain S : later S -> chain S cs.
Proof using All.
  intros (El & Et & Em). apply (chain_alike (anew S) S); [exact El|reflexivity|]. destruct SU. eapply (all_chain U s0 s1 rnd cs C W sf (anew S)) with (n0 := n0) (top := top) (rest := rest) (e := e) (inp := inp) (ni := ni); first [exact NewModel|assumption|reflexivity].
Qed.
Lemma at_apt S : later S -> apt0 S cs.
Proof using All.
  intros (El & Et & Em). apply (apt0_alike (anew S) S); [exact El|reflexivity|]. destruct SU. eapply (all_apt U s0 s1 rnd cs C W sf (anew S)) with (n0 := n0) (top := top) (rest := rest) (e := e) (inp := inp) (ni := ni); first [exact NewModel|assumption|reflexivity].
Qed.
Lemma at_trains S p : later S -> lays S = lays sf -> p ∈ cs -> c_par p = true -> trains S p.
Proof using All.
  intros (_ & Et & Em) El. destruct SU. eapply (all_trains U s0 s1 rnd cs C W sf S) with (n0 := n0) (top := top) (rest := rest) (e := e) (inp := inp) (ni := ni); first [exact NewModel|assumption].
Qed.
Lemma at_prepared S : later S -> prepared S M' top rest out.
Proof using All.
  intros (El & Et & Em). apply (prepared_alike (anew S) S); [exact El|reflexivity|]. destruct HM as (H1 & H2 & _). destruct SU. eapply (all_prepared U s0 s1 rnd cs C W sf (anew S)) with (n0 := n0) (e := e) (inp := inp) (ni := ni); first [exact NewModel|assumption|reflexivity].
Qed.
Lemma at_shows S m m' vx p : later S -> fwd_run C sf S m m' -> net_in sf m inp = Some vx -> (forall p r, p ∈ cs -> refc sf (c_i p) = Some r -> m !! r = mem (ts sf) !! r) -> p ∈ cs ->
  agree (rdg S m') (s_show (net_par sf m) vx 0 cs) (c_i p).
Proof using All.
  intros (El & Et & Em). intros. eapply agree_trans; [apply (same_rdg (anew S) S cs); [apply same_alike; [exact El|reflexivity]|assumption]|].
  destruct SU. eapply (all_shows U s0 s1 rnd cs C W sf (anew S)) with (n0 := n0) (top := top) (rest := rest) (e := e) (inp := inp) (ni := ni); first [exact NewModel|assumption|reflexivity].
Qed.
Lemma at_out m vx : net_in sf m inp = Some vx -> nv sf m e = s_out (net_par sf m) vx cs.
Proof using All.
  intros Hv. destruct SU. eapply (out_val U s1 sf) with (inp := inp) ; eassumption.
Qed.

Lemma at_node S p f : later S -> p ∈ cs -> seenf f -> fnode S (c_i p) f = fnode sf (c_i p) f.
Proof using All.
  intros (El & Et & Em) Hp Hf. rewrite (fnode_alike (anew S) S El eq_refl). destruct SU. eapply (nodep_ U s1 cs C W sf (anew S)); first [assumption|reflexivity].
Qed.
Lemma at_val S p f m : later S -> p ∈ cs -> seenf f -> fval S (c_i p) f m = fval sf (c_i p) f m.
Proof using All. intros HS Hp Hf. unfold fval. rewrite (at_node S p f HS Hp Hf). reflexivity. Qed.
Lemma at_cells S p f a : later S -> p ∈ cs -> seenf f -> cells S (c_i p) f a <-> cells sf (c_i p) f a.
Proof using All. intros HS Hp Hf. unfold cells. rewrite (at_node S p f HS Hp Hf). reflexivity. Qed.
Lemma at_pcells S a : later S -> pcells S cs a <-> pcells sf cs a.
Proof using All.
  intros HS. unfold pcells. split; intros (p & f & Hp & Hc & Hf & Ha); exists p, f; (split; [exact Hp|]); (split; [exact Hc|]); (split; [exact Hf|]); apply (at_cells S p f a HS Hp (pf_seen f Hf)); exact Ha.
Qed.
Lemma at_rcells S a : later S -> rcells S cs a <-> rcells sf cs a.
Proof using All. intros (El & _). exact (rcells_alike sf S cs El a). Qed.
Lemma par_off m m' p : p ∈ cs -> c_par p = true -> (forall a, pcells sf cs a -> m' !! a = m !! a) -> net_par sf m' (c_i p) = net_par sf m (c_i p).
Proof using All.
  intros Hp Hc Ha. rewrite !net_par_fval.
  assert (Hf : forall f, f = FBias \/ f = FWeights -> fval sf (c_i p) f m' = fval sf (c_i p) f m).
  { intros f Hf. unfold fval. destruct (fnode sf (c_i p) f) as [n|] eqn:En; [|reflexivity]. cbn [mbind option_bind]. apply mval_off. intros l Hl. apply Ha. exists p, f. repeat split; auto. exists n. auto. }
  rewrite (Hf FBias), (Hf FWeights) by auto. reflexivity.
Qed.
Notation n1 := (length (mem (ts s'))).
(** What a call of Predict writes. *)
Definition quiet (a : nat) : Prop := inops ni a \/ W a.
Lemma quiet_off a : quiet a -> a < n1 /\ ~ pcells sf cs a /\ ~ rcells sf cs a /\ a ∉ map fst C.
Proof using All.
  pose proof (at_forward s' Hnow) as F. rewrite <- (at_pcells s' a Hnow), <- (at_rcells s' a Hnow). intros [Ha|Ha].
  - destruct (fw_inc _ _ _ _ _ _ _ _ _ _ F a Ha) as (_ & A1 & A2 & A3). split; [|auto]. destruct (fw_in _ _ _ _ _ _ _ _ _ _ F) as (_ & _ & (_ & _ & _ & Hv) & _). rewrite Forall_forall in Hv. apply valid_lt. apply Hv. exact Ha.
  - destruct (fw_W _ _ _ _ _ _ _ _ _ _ F a Ha) as (A0 & _ & A1 & A2 & _ & A3). auto.
Qed.

Lemma ref_in p r : p ∈ cs -> refc sf (c_i p) = Some r -> r < length (mem (ts sf)).
Proof using All.
  intros Hp Hr. destruct SU. assert (Hx : n0 <= r < length (mem (ts s1))) by (eapply (ref_lo U s1 rnd cs C W sf); eassumption). pose proof (fi_len _ _ _ _ _ _ _ su_inv). lia.
Qed.

(** *** The user's tensors *)
Definition utens (P Q : nat) S (v : vten T) (t : nat) : Prop :=
  exists n, node_ok (ts S) t n (vsh v) /\ mval (mem (ts S)) (nmat n) = Some v /\ forall a, inops n a -> n1 <= a /\ ~ (P <= a < Q).
Lemma node_plain (t : tst T) i n sh : node_ok t i n sh -> plain t i n sh.
Proof using All. intros (A & _ & B). split; [exact A|exact B]. Qed.
Lemma node_cell (t : tst T) i n sh a : node_ok t i n sh -> inops n a -> a < length (mem t).
Proof using All. intros (_ & _ & (_ & _ & _ & Hv) & _) Ha. rewrite Forall_forall in Hv. apply valid_lt. apply Hv. exact Ha. Qed.
Lemma utens_keep P Q P' Q' S S1 v t : utens P Q S v t -> keeps (ts S) (ts S1) -> length (mem (ts S)) <= length (mem (ts S1)) ->
  (forall a, a < length (mem (ts S)) -> n1 <= a -> ~ (P <= a < Q) -> mem (ts S1) !! a = mem (ts S) !! a /\ ~ (P' <= a < Q')) -> utens P' Q' S1 v t.
Proof using All.
  intros (n & Hn & Hv & Hc) K Hl Ha. destruct (node_ok_keep _ _ _ _ _ Hn K Hl) as (n' & Hn' & Eo & Ev). exists n'. split; [exact Hn'|]. split.
  - rewrite Ev, <- Hv. apply mval_off. intros l Hlo. destruct (Hc l Hlo) as [H1 H2]. apply Ha; [eapply node_cell; [exact Hn|exact Hlo]|exact H1|exact H2].
  - intros a Hao. unfold inops in Hao. rewrite Eo in Hao. destruct (Hc a Hao) as [H1 H2]. split; [exact H1|]. apply Ha; [eapply node_cell; [exact Hn|exact Hao]|exact H1|exact H2].
Qed.
Lemma keeps_app (t t' : tst T) x : tens t' = tens t ++ x -> keeps t t'.
Proof using All. intros E j n Hj. exists n. rewrite E. rewrite (lookup_app_l_Some _ _ _ _ Hj). repeat split; auto. Qed.

(** *** Every state of a history *)
Record common (P Q : nat) S (st : tstate T) (tids : list nat) : Prop := {
  cm_in : exists n, node_ok (ts S) inp n ish /\ operands (nmat n) = operands (nmat ni) /\ forall m : list T, mval m (nmat n) = mval m (nmat ni);
  cm_out : exists n, node_ok (ts S) out n (c_sh top) /\ forall m : list T, mval m (nmat n) = fval sf (c_i top) FOutput m;
  cm_len : n1 <= length (mem (ts S));
  cm_C : consts C (mem (ts S));
  cm_ref : forall p r v, p ∈ cs -> refc sf (c_i p) = Some r -> mem (ts sf) !! r = Some v -> mem (ts S) !! r = Some v;
  cm_par : forall p, p ∈ cs -> c_par p = true -> net_par sf (mem (ts S)) (c_i p) = t_par st (c_i p);
  cm_user : Forall2 (utens P Q S) (t_vals st) tids;
}.
Lemma Forall2_user P Q P' Q' S S1 : forall vs tids, Forall2 (utens P Q S) vs tids -> keeps (ts S) (ts S1) -> length (mem (ts S)) <= length (mem (ts S1)) ->
  (forall a, a < length (mem (ts S)) -> n1 <= a -> ~ (P <= a < Q) -> mem (ts S1) !! a = mem (ts S) !! a /\ ~ (P' <= a < Q')) -> Forall2 (utens P' Q' S1) vs tids.
Proof using All. intros vs tids Hf K Hl Ha. eapply Forall2_impl; [exact Hf|]. intros v t Hu. eapply utens_keep; eassumption. Qed.
Lemma common_keep P Q P' Q' S S1 st st1 tids : common P Q S st tids -> keeps (ts S) (ts S1) -> length (mem (ts S)) <= length (mem (ts S1)) ->
  (forall a, a < length (mem (ts S)) -> a ∈ map fst C \/ rcells sf cs a -> mem (ts S1) !! a = mem (ts S) !! a) ->
  (forall a, a < length (mem (ts S)) -> n1 <= a -> ~ (P <= a < Q) -> mem (ts S1) !! a = mem (ts S) !! a /\ ~ (P' <= a < Q')) ->
  (forall p, p ∈ cs -> c_par p = true -> net_par sf (mem (ts S1)) (c_i p) = t_par st1 (c_i p)) -> t_vals st1 = t_vals st ->
  common P' Q' S1 st1 tids.
Proof using All.
  intros [c1 c2 c3 c4 c5 c6 c7] K Hl Hk Ha Hp Hv. split.
  - destruct c1 as (n & Hn & Eo & Ev). destruct (node_ok_keep _ _ _ _ _ Hn K Hl) as (n' & Hn' & Eo' & Ev'). exists n'. split; [exact Hn'|]. split; [congruence|]. intros m. rewrite Ev'. apply Ev.
  - destruct c2 as (n & Hn & Ev). destruct (node_ok_keep _ _ _ _ _ Hn K Hl) as (n' & Hn' & Eo' & Ev'). exists n'. split; [exact Hn'|]. intros m. rewrite Ev'. apply Ev.
  - lia.
  - unfold consts in *. rewrite Forall_forall in c4 |- *. intros x Hx. specialize (c4 x Hx). rewrite Hk; [exact c4|eapply lookup_lt_Some; exact c4|]. left. apply elem_of_list_fmap. eauto.
  - intros p r v Hpc Hr Hm. specialize (c5 p r v Hpc Hr Hm). rewrite Hk; [exact c5|eapply lookup_lt_Some; exact c5|]. right. exists p. auto.
  - exact Hp.
  - rewrite Hv. eapply Forall2_user; eassumption.
Qed.
Definition moved (S S1 : lst T) : Prop := lays S1 = lays S /\ (exists x, tens (ts S1) = tens (ts S) ++ x) /\ length (mem (ts S)) <= length (mem (ts S1)) /\
  forall a, a < length (mem (ts S)) -> ~ quiet a -> mem (ts S1) !! a = mem (ts S) !! a.
Lemma par_lt a : pcells sf cs a -> a < n1.
Proof using All.
  intros Ha. apply (at_pcells s' a Hnow) in Ha. destruct Ha as (p & f & Hp & _ & Hf & Hx). exact (a0_lo _ _ (at_apt s' Hnow) p f a Hp (pf_seen _ Hf) Hx).
Qed.
Lemma common_moved P Q S S1 st tids : common P Q S st tids -> moved S S1 -> common P Q S1 st tids.
Proof using All.
  intros Hc (_ & (x & Et) & Hl & Hm). pose proof (cm_len _ _ _ _ _ Hc) as Hlen. eapply (common_keep P Q P Q S S1 st st tids Hc (keeps_app _ _ _ Et) Hl).
  - intros a Ha Hx. apply Hm; [exact Ha|]. intros Hq. destruct (quiet_off a Hq) as (_ & _ & Q1 & Q2). tauto.
  - intros a Ha Hn Hx. split; [|exact Hx]. apply Hm; [exact Ha|]. intros Hq. destruct (quiet_off a Hq) as (Q1 & _). clear - Hn Q1. lia.
  - intros p Hp Hcp. rewrite <- (cm_par _ _ _ _ _ Hc p Hp Hcp). apply par_off; [exact Hp|exact Hcp|]. intros a Ha. apply Hm; [pose proof (par_lt a Ha) as Hlt; clear - Hlt Hlen; lia|]. intros Hq. destruct (quiet_off a Hq) as (_ & Q1 & _). contradiction.
  - reflexivity.
Qed.
Lemma common_add P Q S vs par mb tr tids v t : common P Q S (MkT vs par mb tr) tids -> utens P Q S v t -> common P Q S (MkT (vs ++ [v]) par mb tr) (tids ++ [t]).
Proof using All. intros [c1 c2 c3 c4 c5 c6 c7] Hu. split; try assumption. cbn [t_vals] in *. apply Forall2_app; [exact c7|constructor; [exact Hu|constructor]]. Qed.
Lemma user_at P Q S st tids i v : common P Q S st tids -> t_vals st !! i = Some v -> exists t, tids !! i = Some t /\ utens P Q S v t.
Proof using All. intros Hc Hi. destruct (Forall2_lookup_l _ _ _ _ _ (cm_user _ _ _ _ _ Hc) Hi) as (t & Ht & Hu). eauto. Qed.
(** A new tensor with cells of its own. *)
Lemma utens_new P Q S S1 (nc : node T) v : tens (ts S1) = tens (ts S) ++ [nc] -> nkind nc = KMat -> wf_mat (length (mem (ts S1))) (nmat nc) -> shape (nmat nc) = vsh v -> mval (mem (ts S1)) (nmat nc) = Some v ->
  (forall a, inops nc a -> length (mem (ts S)) <= a) -> n1 <= length (mem (ts S)) -> Q <= length (mem (ts S)) -> utens P Q S1 v (length (tens (ts S))).
Proof using All.
  intros Et Hk Hw Hs Hv Hc Hn HQ. exists nc. split; [|split; [exact Hv|]].
  - split; [rewrite Et; apply list_lookup_middle; reflexivity|]. split; [left; exact Hk|]. split; [exact Hw|exact Hs].
  - intros a Ha. specialize (Hc a Ha). clear - Hc Hn HQ. lia.
Qed.

(** *** New tensors, reading them, Predict *)
Lemma step_new P Q S vs par mb tr tids sh d : common P Q S (MkT vs par mb tr) tids -> Q <= length (mem (ts S)) -> fits sh -> length d = N.to_nat (prodN sh) ->
  exists S1 t, liftT (NewFromValues d sh) S = (Ok t, S1) /\ moved S S1 /\ common P Q S1 (MkT (vs ++ [V sh d]) par mb tr) (tids ++ [t]).
Proof using All.
  intros Hc HQ Hf Hl. destruct (NewFromValues_spec (ts S) d sh Hf) as (t' & ex & ops & E & Em & _ & En & Hh & _ & Hd).
  rewrite take_ge in Hh by (rewrite Hl; apply le_n). rewrite Hl, Nat.sub_diag in Hh. cbn [replicate] in Hh. rewrite app_nil_r in Hh.
  exists (MkL t' (lays S) (rc S)), (length (tens (ts S))). split; [apply liftT_ok; exact E|].
  assert (Hmv : moved S (MkL t' (lays S) (rc S))).
  { split; [reflexivity|]. cbn [ts]. split; [eexists; exact En|]. split; [rewrite Em, app_length; apply Nat.le_add_r|]. intros a Ha _. rewrite Em. apply lookup_app_l. exact Ha. }
  split; [exact Hmv|]. apply common_add; [eapply common_moved; [exact Hc|exact Hmv]|]. pose proof (cm_len _ _ _ _ _ Hc) as Hn.
  cbn [vsh] in En. assert (Ea : tens t' !! length (tens (ts S)) = Some (MkNode KMat (MkMat sh (GetIndexMul sh) ops false))) by (rewrite En; apply list_lookup_middle; reflexivity).
  destruct Hh as (n & Hnn & Hw & Hv). rewrite Ea in Hnn. injection Hnn as <-.
  eapply (utens_new P Q S (MkL t' (lays S) (rc S)) (MkNode KMat (MkMat sh (GetIndexMul sh) ops false))); cbn [ts nmat vsh shape nkind]; try assumption; try reflexivity.
  intros a Ha. unfold inops in Ha. cbn [nmat operands] in Ha. rewrite Forall_forall in Hd. destruct (Hd _ Ha) as (a' & [= <-] & Hge). apply Hge.
Qed.
Lemma step_get P Q S v t : utens P Q S v t -> liftT (GetData t) S = (Ok (vdata v), S).
Proof using All.
  intros (n & (Hn & _ & Hw & Hs) & Hv & _). apply (NetRun4.get_ok S t (vsh v)). destruct n as [k m]. cbn [nmat] in *. exists k, m. split; [exact Hn|]. split; [exact Hs|].
  unfold mval in Hv. destruct (rds (mem (ts S)) (operands m)) as [d|] eqn:Er; [|discriminate]. injection Hv as <-. cbn [vdata vsh] in *. split; [reflexivity|]. rewrite (rds_length _ _ _ Er). apply Hw.
Qed.
Definition reads_as (M : model T) : Prop := m_ff M = Some (MkGraph (ctx (ts sf))) /\ m_input M = Some inp /\ m_output M = Some out.
Lemma in_val m : net_in sf m inp = mval m (nmat ni).
Proof using All.
  unfold net_in, FwdBody.tval. cbn [mbind option_bind]. rewrite (su_ni _ _ _ _ _ _ _ _ _ _ _ _ _ _ _ SU). reflexivity.
Qed.
Lemma apart P Q S v t n nx : utens P Q S v t -> tens (ts S) !! t = Some nx -> operands (nmat n) = operands (nmat ni) -> forall a, inops n a -> ~ inops nx a.
Proof using All.
  intros (n' & (Hn' & _) & _ & Hc) Hx Eo a Ha Hb. rewrite Hn' in Hx. injection Hx as ->. destruct (Hc a Hb) as [Hge _]. unfold inops in Ha. rewrite Eo in Ha. destruct (quiet_off a (or_introl Ha)) as [Hlt _]. clear - Hge Hlt. lia.
Qed.
(** The parameters after the input was loaded. *)
Lemma par_loaded P Q S st tids (Wx : nat -> Prop) m : common P Q S st tids -> ran Wx (mem (ts S)) m -> (forall a, Wx a -> ~ pcells sf cs a) -> forall p, p ∈ cs -> c_par p = true -> net_par sf m (c_i p) = t_par st (c_i p).
Proof using All.
  intros Hc [_ Hr] Hx p Hp Hcp. rewrite <- (cm_par _ _ _ _ _ Hc p Hp Hcp). apply par_off; [exact Hp|exact Hcp|]. intros a Ha. apply Hr. intros Hw. exact (Hx a Hw Ha).
Qed.
Lemma step_predict P Q S M vs par mb tr tids v t y : common P Q S (MkT vs par mb tr) tids -> Q <= length (mem (ts S)) -> reads_as M -> utens P Q S v t -> vsh v = ish -> s_out par v cs = Some y ->
  exists S1, Predict rnd M t S = (Ok (length (tens (ts S)), M), S1) /\ moved S S1 /\ common P Q S1 (MkT (vs ++ [y]) par mb tr) (tids ++ [length (tens (ts S))]).
Proof using All.
  intros Hc HQ (E1 & E2 & E3) Hu Hvs Hy. pose proof (at_forward s' Hnow) as F. destruct (cm_in _ _ _ _ _ Hc) as (n & Hn & Eo & Ev). destruct (cm_out _ _ _ _ _ Hc) as (no & Hno & Evo).
  pose proof Hu as (nx & Hnx & Hvx & Hcx). pose proof (cm_len _ _ _ _ _ Hc) as Hlen. rewrite Hvs in Hnx.
  assert (Hq1 : forall a, inops n a -> quiet a) by (intros a Ha; left; unfold inops in *; rewrite <- Eo; exact Ha).
  destruct (predict_gen rnd M S t nx inp n ish out no (c_sh top) (ctx (ts sf)) v W (fwd_run C sf s') E1 E2 E3 (node_plain _ _ _ _ Hn)) as (m3 & m4 & vo & nc & R3 & V3 & R4 & RR & Hvo & EP & Hw & Hs & Hv & Hcell & Hkn).
  { rewrite Eo. exact (fw_nd _ _ _ _ _ _ _ _ _ _ F). }
  { exact (node_plain _ _ _ _ Hno). }
  { exact (node_plain _ _ _ _ Hnx). }
  { exact (apart P Q S v t n nx Hu (proj1 Hnx) Eo). }
  { exact Hvx. }
  { intros m Rm Vm. apply (fw_acts _ _ _ _ _ _ _ _ _ _ F m).
    - rewrite (proj1 Rm). exact Hlen.
    - pose proof (cm_C _ _ _ _ _ Hc) as HC. unfold consts in *. rewrite Forall_forall in HC |- *. intros x Hx. rewrite (proj2 Rm); [apply HC; exact Hx|]. intros Ha. destruct (quiet_off _ (Hq1 _ Ha)) as (_ & _ & _ & Hni). apply Hni. apply elem_of_list_fmap. eauto.
    - unfold fwd_ok. rewrite (at_out m v) by (rewrite in_val, <- Ev; exact Vm). rewrite (s_out_ext _ par); [rewrite Hy; discriminate|].
      eapply (par_loaded P Q S (MkT vs par mb tr) tids _ m Hc Rm). intros a Ha. apply (quiet_off a (Hq1 a Ha)). }
  set (S1 := MkL (MkSt (m4 ++ vdata vo) (tens (ts S) ++ [nc]) (ctx (ts S))) (lays S) (rc S)) in *.
  assert (L4 : length m4 = length (mem (ts S))) by (rewrite (proj1 R4); exact (proj1 R3)).
  assert (Hmv : moved S S1).
  { split; [reflexivity|]. cbn [S1 ts tens mem]. split; [eexists; reflexivity|]. split; [rewrite app_length, L4; apply Nat.le_add_r|]. intros a Ha Hq. rewrite lookup_app_l by (rewrite L4; exact Ha).
    rewrite (proj2 R4) by (intros Hw'; apply Hq; right; exact Hw'). apply (proj2 R3). intros Hx. apply Hq. apply Hq1. exact Hx. }
  assert (Eyo : vo = y).
  { destruct (at_shows s' m3 m4 v top Hnow RR) as (_ & _ & A3 & _); [rewrite in_val, <- Ev; exact V3| |exact top_in_cs|].
    - intros p r Hp Hr. rewrite (proj2 R3).
      + destruct (lookup_lt_is_Some_2 (mem (ts sf)) r (ref_in p r Hp Hr)) as [w Ew]. rewrite Ew. exact (cm_ref _ _ _ _ _ Hc p r w Hp Hr Ew).
      + intros Ha. destruct (quiet_off _ (Hq1 _ Ha)) as (_ & _ & Hnr & _). apply Hnr. exists p. auto.
    - rewrite cs_eq in A3. cbn [s_show rdg r_y] in A3. rewrite or_else_eq, <- cs_eq in A3. rewrite (at_val s' top FOutput m4 Hnow top_in_cs) in A3 by (apply seen_io). rewrite <- Evo, Hvo in A3.
      rewrite (s_out_ext _ par) in A3; [congruence|]. eapply (par_loaded P Q S (MkT vs par mb tr) tids _ m3 Hc R3). intros a Ha. apply (quiet_off a (Hq1 a Ha)). }
  subst vo. exists S1. split; [exact EP|]. split; [exact Hmv|]. apply common_add; [eapply common_moved; [exact Hc|exact Hmv]|].
  eapply (utens_new P Q S S1 nc y); [reflexivity|exact Hkn|exact Hw| |exact Hv|exact Hcell|exact Hlen|exact HQ]. symmetry. apply (mval_shape _ _ _ Hv).
Qed.
Lemma step_refuse P Q S M st tids v t : common P Q S st tids -> reads_as M -> utens P Q S v t -> vsh v <> ish -> attempt (Predict rnd M t) S = (Ok None, S).
Proof using All.
  intros Hc (E1 & E2 & E3) (nx & Hnx & _) Hne. destruct (cm_in _ _ _ _ _ Hc) as (n & Hn & _). destruct (load_bad (ts S) inp t n nx ish (vsh v) (node_plain _ _ _ _ Hn) (node_plain _ _ _ _ Hnx) Hne) as [er Er].
  unfold attempt, Predict. rewrite E1. erewrite mbnd_ok by reflexivity. rewrite E2. erewrite mbnd_ok by reflexivity. unfold mbnd at 1. unfold liftT. rewrite Er. destruct S; reflexivity.
Qed.

(** *** Training *)
Record fitp (sP L : lst T) (tgt al mo lo : nat) (ocd obp orf : list (op T)) (C2 : list (nat * T)) (Wc Wb : nat -> Prop) : Prop := {
  fp_later : later sP;
  fp_len : n1 <= length (mem (ts sP));
  fp_fit : fitted sP top rest L tgt al mo lo ocd obp orf;
  fp_C : forall x, x ∈ C2 -> mem (ts L) !! fst x = Some (snd x) /\ length (mem (ts sP)) + tsize top <= fst x /\ fst x <> al /\ fst x <> mo /\ ~ Wc (fst x) /\ ~ Wb (fst x);
  fp_Wc : forall l, Wc l -> length (mem (ts sP)) + tsize top <= l < al \/ cells L (c_i top) FDif l;
  fp_Wb : forall l, Wb l -> mo < l < length (mem (ts L)) \/ exists p, p ∈ rest /\ cells L (c_i p) FDif l /\ ~ cells L (c_i top) FDif l;
  fp_ocd : acts ocd (length (mem (ts L))) Wc C2 any (errL L top tgt lo);
  fp_obp : acts obp (length (mem (ts L))) Wb C2 (stepP L L al mo (top :: rest)) (stepR L L al mo (top :: rest));
  fp_orf : acts orf (length (mem (ts L))) (clearW L (top :: rest)) C2 any (fun _ m' => clearR L (top :: rest) m');
}.
Definition trained (tgt al mo lo : nat) (ocd obp orf : list (op T)) : model T :=
  MkModel (m_first M') (m_last M') (m_input M') (m_output M') (Some tgt) (Some al) (Some mo) (Some lo)
    (m_ff M') (Some (MkGraph obp)) (Some (MkGraph ocd)) (Some (MkGraph orf)) (m_reset M').
Definition tagged S (tr : nat -> bool) : Prop := forall p, p ∈ cs -> c_par p = true -> trains S p <-> tr (c_i p) = true.
Record running L C2 S (st : tstate T) : Prop := {
  rn_live : TrnRun.live L S;
  rn_C : consts C2 (mem (ts S));
  rn_mom : forall p, p ∈ cs -> has_mom p = true -> mbv L (mem (ts S)) (c_i p) = t_mom st (c_i p);
  rn_tr : tagged S (t_tr st);
}.
Section Train.
Variables (sP L : lst T) (tgt al mo lo : nat) (ocd obp orf : list (op T)) (C2 : list (nat * T)) (Wc Wb : nat -> Prop).
Hypothesis FP : fitp sP L tgt al mo lo ocd obp orf C2 Wc Wb.
Notation nP := (length (mem (ts sP))).
Notation nL := (length (mem (ts L))).
Lemma FT : fitted sP top rest L tgt al mo lo ocd obp orf.
Proof using All. exact (fp_fit _ _ _ _ _ _ _ _ _ _ _ _ FP). Qed.
Lemma same_later p : p ∈ cs -> (forall f, seenf f -> (forall m, fval L (c_i p) f m = fval sf (c_i p) f m) /\ forall a, cells L (c_i p) f a <-> cells sf (c_i p) f a) /\ refc L (c_i p) = refc sf (c_i p).
Proof using All.
  intros Hp. pose proof (fp_later _ _ _ _ _ _ _ _ _ _ _ _ FP) as HL. pose proof Hp as Hp'. rewrite cs_eq in Hp'. destruct (ft_same _ _ _ _ _ _ _ _ _ _ _ FT p Hp') as (A1 & A2 & _). split.
  - intros f Hf. destruct (A1 f Hf) as (_ & A3 & A4). split; [intros m; rewrite A3; apply at_val; assumption|intros a; rewrite A4; apply at_cells; assumption].
  - rewrite A2. exact (refc_alike _ _ _ (proj1 HL)).
Qed.
Lemma mbcell p a : p ∈ cs -> c_par p = true -> cells L (c_i p) FMBias a -> mo < a.
Proof using All.
  intros Hp Hc Ha. rewrite cs_eq in Hp. destruct (ft_par _ _ _ _ _ _ _ _ _ _ _ FT p Hp Hc FMBias) as (sh & _ & _ & Hx); [auto|]. apply Hx. exact Ha.
Qed.
Lemma almo : nP <= al < nL /\ nP <= mo < nL /\ al <> mo /\ nP <= lo < al.
Proof using All.
  pose proof (ft_lo _ _ _ _ _ _ _ _ _ _ _ FT) as H1. pose proof (ft_mo _ _ _ _ _ _ _ _ _ _ _ FT) as [H2 H3]. clear - H1 H2 H3. lia.
Qed.
Lemma clear_in a : clearW sP (top :: rest) a -> a < n1 /\ ~ pcells sf cs a /\ ~ rcells sf cs a /\ a ∉ map fst C.
Proof using All.
  rewrite <- cs_eq. intros (p & Hp & Ha). pose proof (fp_later _ _ _ _ _ _ _ _ _ _ _ _ FP) as HL. assert (Hf : seenf FDif) by (left; reflexivity).
  apply (at_cells sP p FDif a HL Hp Hf) in Ha. apply (at_cells s' p FDif a Hnow Hp Hf) in Ha. pose proof (at_apt s' Hnow) as HA. split; [exact (a0_lo _ _ HA p FDif a Hp Hf Ha)|]. split; [|split].
  - intros Hx. apply (at_pcells s' a Hnow) in Hx. destruct Hx as (q & f & Hq & _ & Hpf & Hc). eapply (a0_f _ _ HA q p f a); [exact Hq|exact Hp| |exact Ha|exact Hc]. destruct Hpf as [->| ->]; unfold readf; auto.
  - intros Hx. apply (at_rcells s' a Hnow) in Hx. destruct Hx as (q & Hq & Hr). destruct (a0_r _ _ HA q p a Hq Hp Ha) as [Hn _]. contradiction.
  - intros Hx. apply elem_of_list_fmap in Hx as (x & -> & Hx). destruct (fw_C _ _ _ _ _ _ _ _ _ _ (at_forward s' Hnow) x Hx) as (_ & Hn & _). apply Hn. exists p. auto.
Qed.
Lemma C_off a : a ∈ map fst C -> a < n1 /\ ~ pcells sf cs a.
Proof using All.
  intros Hx. apply elem_of_list_fmap in Hx as (x & -> & Hx). destruct (fw_C _ _ _ _ _ _ _ _ _ _ (at_forward s' Hnow) x Hx) as (A1 & _ & A2). split; [eapply lookup_lt_Some; exact A1|]. rewrite <- (at_pcells s' _ Hnow). exact A2.
Qed.
Lemma r_off a : rcells sf cs a -> a < n1 /\ ~ pcells sf cs a.
Proof using All.
  intros Hx. split.
  - destruct Hx as (p & Hp & Hr). pose proof (ref_in p a Hp Hr) as A1. pose proof (proj1 (proj2 (proj2 Hnow))) as A2. clear - A1 A2. lia.
  - rewrite <- (at_pcells s' _ Hnow). apply (fw_ref _ _ _ _ _ _ _ _ _ _ (at_forward s' Hnow)). apply (at_rcells s' a Hnow). exact Hx.
Qed.
(** What one step of training writes: not the user's tensors, not the constants
    and not the counters. *)
Lemma touch_off a : touch sP L (top :: rest) ni W a -> (nP <= a < nL \/ a < n1) /\ a ∉ map fst C /\ ~ rcells sf cs a.
Proof using All.
  pose proof (fp_len _ _ _ _ _ _ _ _ _ _ _ _ FP) as Hlen. intros [Hx|[Hx|[Hx|[Hx|Hx]]]].
  - split; [left; exact Hx|]. split; [intros Hc; apply C_off in Hc|intros Hc; apply r_off in Hc]; destruct Hc as [Hc _]; clear - Hc Hx Hlen; lia.
  - apply clear_in in Hx. tauto.
  - destruct (quiet_off a (or_introl Hx)) as (A1 & _ & A2 & A3). auto.
  - destruct (quiet_off a (or_intror Hx)) as (A1 & _ & A2 & A3). auto.
  - rewrite <- cs_eq in Hx. apply (at_pcells sP a (fp_later _ _ _ _ _ _ _ _ _ _ _ _ FP)) in Hx. split; [right; apply par_lt; exact Hx|]. split; [intros Hc; apply C_off in Hc; tauto|intros Hc; apply r_off in Hc; tauto].
Qed.
Lemma fed_off a : fed sP top rest ni a -> ~ pcells sf cs a /\ ~ rcells sf cs a.
Proof using All.
  pose proof (fp_len _ _ _ _ _ _ _ _ _ _ _ _ FP) as Hlen. intros [Hx|[Hx|Hx]].
  - apply clear_in in Hx. tauto.
  - destruct (quiet_off a (or_introl Hx)) as (A1 & A2 & A3 & _). auto.
  - split; [intros Hc; apply par_lt in Hc|intros Hc; apply r_off in Hc; destruct Hc as [Hc _]]; clear - Hc Hx Hlen; lia.
Qed.
Lemma mbv_off m m' p : p ∈ cs -> has_mom p = true -> (forall a, mo < a -> m' !! a = m !! a) -> mbv L m' (c_i p) = mbv L m (c_i p).
Proof using All.
  intros Hp Hc Ha. unfold mbv, fval. destruct (fnode L (c_i p) FMBias) as [n|] eqn:En; [|reflexivity]. cbn [mbind option_bind]. apply mval_off. intros l Hl. apply Ha. apply (mbcell p); [exact Hp|apply mom_par; exact Hc|]. exists n. auto.
Qed.
Lemma ran_weak (W1 W2 : nat -> Prop) (m m' : list T) : (forall a, W1 a -> W2 a) -> ran W1 m m' -> ran W2 m m'.
Proof using Type. intros Hw [E1 E2]. split; [exact E1|]. intros l Hl. apply E2. intros Hx. apply Hl. apply Hw. exact Hx. Qed.
Lemma wr_ok S (a : nat) (v : T) : a < length (mem (ts S)) -> liftT (wrM (Some a) v) S = (Ok tt, upd S (<[a := v]> (mem (ts S)))).
Proof using Type. intros Ha. apply liftT_ok. unfold wrM, wr. rewrite decide_True by exact Ha. reflexivity. Qed.
Lemma step_train S st tids v w t u a b k par' mb' : running L C2 S st -> common nP nL S st tids -> utens nP nL S v t -> utens nP nL S w u -> vsh v = ish -> vsh w = c_sh top ->
  s_train (t_par st) (t_mom st) a b cs v w = Some (k, par', mb') ->
  exists S1, TrainOne (trained tgt al mo lo ocd obp orf) t u a b S = (Ok (k, trained tgt al mo lo ocd obp orf), S1) /\
    running L C2 S1 (MkT (t_vals st) (s_keep (t_tr st) (t_par st) par') mb' (t_tr st)) /\ common nP nL S1 (MkT (t_vals st) (s_keep (t_tr st) (t_par st) par') mb' (t_tr st)) tids /\ mem (ts S1) !! al = Some a /\ mem (ts S1) !! mo = Some b.
Proof using All.
  intros [Lv HC2 Hmom Htag] Hc Hv Hw Hvs Hws Htr. pose proof (fp_later _ _ _ _ _ _ _ _ _ _ _ _ FP) as HLt. pose proof (fp_len _ _ _ _ _ _ _ _ _ _ _ _ FP) as Hlen.
  pose proof (lv_len _ _ Lv) as HnL. pose proof almo as (Hal & Hmo & Hne & Hlo).
  set (m0 := mem (ts S)) in *. set (ma := <[al := a]> m0). set (mm := <[mo := b]> ma).
  assert (Rm : ran (fun l => l = al \/ l = mo) m0 mm).
  { split; [unfold mm, ma; rewrite !insert_length; reflexivity|]. intros l Hl. unfold mm, ma. rewrite !list_lookup_insert_ne by (intros X; apply Hl; auto). reflexivity. }
  assert (Eal : mm !! al = Some a). { unfold mm. rewrite list_lookup_insert_ne by (intros X; apply Hne; congruence). apply list_lookup_insert. clear - Hal HnL. lia. }
  assert (Emo : mm !! mo = Some b). { apply list_lookup_insert. unfold ma. rewrite insert_length. clear - Hmo HnL. lia. }
  assert (Hlow : forall x, x < nP -> mm !! x = m0 !! x). { intros x Hx. apply (proj2 Rm). clear - Hx Hal Hmo. lia. }
  unfold s_train, s_err in Htr. destruct (s_out (t_par st) v cs) as [vo|] eqn:Eo; [|discriminate]. cbn [mbind option_bind vdata] in Htr.
  rewrite Hws in Htr. set (d := V (c_sh top) (zip_with nsub (vdata w) (vdata vo))) in Htr.
  destruct (s_step (s_show (t_par st) v 0 cs) (t_mom st) a b cs d) as [us|] eqn:Es; [|discriminate]. cbn [mbind option_bind] in Htr.
  destruct (fold1 nadd (map absv (zip_with nsub (vdata w) (vdata vo)))) as [k'|] eqn:Ek; [|discriminate]. cbn [mbind option_bind] in Htr. injection Htr as <- <- <-.
  set (MB := trained tgt al mo lo ocd obp orf). set (S2 := upd S mm).
  pose proof Hv as (nx & Hnx & Hvx & Hcx). pose proof Hw as (ny & Hny & Hvy & Hcy). rewrite Hvs in Hnx. rewrite Hws in Hny.
  pose proof (at_forward sP HLt) as F. rewrite cs_eq in F. pose proof (at_apt sP HLt) as HA. rewrite cs_eq in HA. pose proof (at_chain sP HLt) as Hch. rewrite cs_eq in Hch.
  pose proof (at_prepared sP HLt) as HP.
  assert (Hg : good L top rest C C2 mm).
  { split; [|split].
    - pose proof (cm_C _ _ _ _ _ Hc) as HC. unfold consts in *. rewrite Forall_forall in HC |- *. intros x Hx. rewrite Hlow; [apply HC; exact Hx|]. destruct (C_off (fst x) ltac:(apply elem_of_list_fmap; eauto)) as [Hlt _]. clear - Hlt Hlen. lia.
    - unfold consts in *. rewrite Forall_forall in HC2 |- *. intros x Hx. destruct (fp_C _ _ _ _ _ _ _ _ _ _ _ _ FP x Hx) as (_ & _ & N1 & N2 & _). rewrite (proj2 Rm) by (intros [X|X]; contradiction). apply HC2. exact Hx.
    - rewrite <- cs_eq. intros p Hp r Hr. rewrite (proj2 (same_later p Hp)) in Hr. destruct (lookup_lt_is_Some_2 (mem (ts sf)) r (ref_in p r Hp Hr)) as [z Hz].
      rewrite (hd_mem _ _ (ft_held _ _ _ _ _ _ _ _ _ _ _ FT) r z) by (eapply (proj2 (proj2 (proj2 (proj2 HLt)))); eassumption).
      rewrite Hlow; [exact (cm_ref _ _ _ _ _ Hc p r z Hp Hr Hz)|]. destruct (r_off r ltac:(exists p; auto)) as [Hlt _]. clear - Hlt Hlen. lia. }
  assert (Hout : forall n x, (forall y, inops n y -> n1 <= y /\ ~ (nP <= y < nL)) -> inops n x -> ~ touch sP L (top :: rest) ni W x).
  { intros n x Hn Hx Ht. destruct (Hn x Hx) as [B1 B2]. destruct (touch_off x Ht) as ([B3|B3] & _); [contradiction|clear - B1 B3; lia]. }
  assert (Hsame : forall n z, (forall y, inops n y -> n1 <= y /\ ~ (nP <= y < nL)) -> mval m0 (nmat n) = Some z -> mval mm (nmat n) = Some z).
  { intros n z Hn Hz. rewrite <- Hz. apply mval_off. intros l Hl. apply (proj2 Rm). destruct (Hn l Hl) as [_ B]. intros [X|X]; apply B; subst l; assumption. }
  assert (Hup : length mm = length m0) by exact (proj1 Rm).
  assert (Hpl : forall i n sh, node_ok (ts S) i n sh -> plain (ts S2) i n sh).
  { intros i n sh (B1 & _ & B2 & B3). split; [exact B1|]. split; [|exact B3]. cbn [S2 upd ts mem]. rewrite Hup. exact B2. }
  assert (Hparm : forall m (Wx : nat -> Prop), ran Wx mm m -> (forall x, Wx x -> ~ pcells sf cs x) -> forall p, p ∈ cs -> c_par p = true -> net_par sf m (c_i p) = t_par st (c_i p)).
  { intros m Wx Rx Hx p Hp Hcp. rewrite <- (cm_par _ _ _ _ _ Hc p Hp Hcp). apply par_off; [exact Hp|exact Hcp|]. intros x Hpx. rewrite (proj2 Rx) by (intros X; exact (Hx x X Hpx)). apply Hlow. apply par_lt in Hpx. clear - Hpx Hlen. lia. }
  destruct (exec_fit sP L top rest tgt al mo lo ocd obp orf inp ni ish (ctx (ts sf)) C W (fwd_ok sf e) (fwd_run C sf sP) FT HA Hch (pr_par _ _ _ _ _ HP) F C2 Wc Wb
     (fp_C _ _ _ _ _ _ _ _ _ _ _ _ FP) (fp_Wc _ _ _ _ _ _ _ _ _ _ _ _ FP) (fp_Wb _ _ _ _ _ _ _ _ _ _ _ _ FP) (fp_ocd _ _ _ _ _ _ _ _ _ _ _ _ FP) (fp_obp _ _ _ _ _ _ _ _ _ _ _ _ FP) (fp_orf _ _ _ _ _ _ _ _ _ _ _ _ FP)
     MB S2 t u nx ny a b v w) as (m3 & m4 & R3 & V3 & R4 & RR & Hstep).
  - destruct HM as (h1 & h2 & h3 & h4 & h5). unfold MB, trained. cbn. repeat split; assumption || reflexivity.
  - apply live_upd; [exact Lv|exact Hup].
  - exact Hg.
  - exact Eal.
  - exact Emo.
  - apply Hpl. exact Hnx.
  - apply Hpl. exact Hny.
  - intros l Hl. exact (Hout nx l Hcx Hl).
  - intros l Hl. exact (Hout ny l Hcy Hl).
  - exact (Hsame nx v Hcx Hvx).
  - exact (Hsame ny w Hcy Hvy).
  - intros m Rx Vx. cbn [S2 upd ts mem] in Rx. unfold fwd_ok. rewrite (at_out m v) by (rewrite in_val; exact Vx). rewrite (s_out_ext _ (t_par st)); [rewrite Eo; discriminate|]. apply (Hparm m _ Rx). intros x Hx. apply (fed_off x Hx).
  - cbn [S2 upd ts mem] in R3, Hstep.
    assert (Hag : forall p, p ∈ cs -> agree (rdg L m4) (s_show (t_par st) v 0 cs) (c_i p)).
    { intros p Hp. eapply agree_trans; [apply (same_rdg sP L (top :: rest)); [exact (ft_same _ _ _ _ _ _ _ _ _ _ _ FT)|rewrite <- cs_eq; exact Hp]|].
      eapply agree_trans; [apply (at_shows sP m3 m4 v p HLt RR); [rewrite in_val; exact V3| |exact Hp]|].
      - intros q r Hq Hr. rewrite (proj2 R3) by (intros X; apply fed_off in X; destruct X as [_ X]; apply X; exists q; auto).
        destruct (lookup_lt_is_Some_2 (mem (ts sf)) r (ref_in q r Hq Hr)) as [z Hz]. rewrite Hz. rewrite Hlow; [exact (cm_ref _ _ _ _ _ Hc q r z Hq Hr Hz)|]. destruct (r_off r ltac:(exists q; auto)) as [Hlt _]. clear - Hlt Hlen. lia.
      - apply s_show_ext. apply (Hparm m3 _ R3). intros x Hx. apply (fed_off x Hx). }
    destruct (Hstep vo us) as (m' & EX & RT & (G1 & G2 & G3) & Eal2 & Emo2 & Elo & HL).
    { destruct (Hag top top_in_cs) as (_ & _ & A3 & _). cbn [rdg r_y] in A3. rewrite A3. rewrite cs_eq. cbn [s_show r_y]. rewrite or_else_eq, <- cs_eq. exact Eo. }
    { fold d. rewrite <- Es, <- cs_eq. apply s_step_mom. intros p Hp. split; [apply Hag; exact Hp|]. intros Hm. rewrite <- (Hmom p Hp Hm). apply mbv_off; [exact Hp|exact Hm|]. intros x Hx. apply (proj2 Rm). pose proof (ft_mo _ _ _ _ _ _ _ _ _ _ _ FT) as [Emo' _]. clear - Hx Emo'. lia. }
    assert (Hm' : forall x, n1 <= x -> ~ (nP <= x < nL) -> m' !! x = m0 !! x).
    { intros x Hx Hnx'. rewrite (proj2 RT); [apply (proj2 Rm); intros [X|X]; apply Hnx'; subst x; assumption|]. intros Ht. destruct (touch_off x Ht) as ([B|B] & _); [contradiction|clear - B Hx; lia]. }
    assert (Lm' : length m' = length m0) by (rewrite (proj1 RT); exact Hup).
    rewrite <- cs_eq in HL. pose proof (new_at _ (t_par st) (t_mom st) a b cs us (su_nd _ _ _ _ _ _ _ _ _ _ _ _ _ _ _ SU) HL) as Hnew.
    exists (upd S m'). split; [|split; [|split; [|split; [exact Eal2|exact Emo2]]]].
    + unfold TrainOne. cbn [m_bp MB trained]. erewrite mbnd_ok by reflexivity. cbn [m_alpha m_momentum m_loss]. erewrite mbnd_ok by (apply wr_ok; clear - Hal HnL; unfold m0 in HnL; lia).
      erewrite mbnd_ok by (apply wr_ok; cbn [upd ts mem]; rewrite insert_length; clear - Hmo HnL; unfold m0 in HnL; lia). cbn [upd ts mem tens ctx lays rc].
      rewrite (mbnd_ok _ _ _ _ _ EX). erewrite mbnd_ok by (apply liftT_ok; apply rdM_at; cbn [upd ts mem]; rewrite Elo; exact Ek). reflexivity.
    + split; cbn [upd ts mem t_mom].
      * apply live_upd; [exact Lv|exact Lm'].
      * exact G2.
      * intros p Hp Hm. destruct (Hnew p Hp) as (o & (_ & O2 & O3) & _ & ->). rewrite Hm. destruct (snd o) as [[nb nw]|] eqn:Eso; [|exfalso; apply (proj1 O2); [apply mom_par; exact Hm|reflexivity]].
        destruct (O3 nb nw eq_refl) as (_ & _ & O4). unfold mbv at 1. rewrite (O4 Hm). unfold s_db. rewrite <- (Hmom p Hp Hm).
        replace (mbv L mm (c_i p)) with (mbv L m0 (c_i p)); [reflexivity|]. symmetry. apply mbv_off; [exact Hp|exact Hm|]. intros x Hx. apply (proj2 Rm). pose proof (ft_mo _ _ _ _ _ _ _ _ _ _ _ FT) as [Emo' _]. clear - Hx Emo'. lia.
      * exact Htag.
    + eapply (common_keep nP nL nP nL S (upd S m') st (MkT (t_vals st) _ _ _) tids Hc); cbn [upd ts mem t_par t_vals].
      * intros j n Hj. exists n. repeat split; auto.
      * fold m0. rewrite Lm'. apply le_n.
      * intros x _ Hx. fold m0. rewrite (proj2 RT) by (intros Ht; destruct (touch_off x Ht) as (_ & B1 & B2); tauto). apply Hlow. destruct Hx as [Hx|Hx]; [apply C_off in Hx|apply r_off in Hx]; destruct Hx as [Hx _]; clear - Hx Hlen; lia.
      * intros x _ Hx Hnx'. split; [apply Hm'; assumption|exact Hnx'].
      * intros p Hp Hcp. unfold s_keep. destruct (Hnew p Hp) as (o & (_ & O2 & O3) & -> & _). destruct (snd o) as [[nb nw]|] eqn:Eso; [|exfalso; apply (proj1 O2); [exact Hcp|reflexivity]].
        destruct (O3 nb nw eq_refl) as (O4 & O5 & _). destruct (same_later p Hp) as [Hsl _]. destruct (t_tr st (c_i p)) eqn:Etr.
        -- destruct (O4 (proj2 (Htag p Hp Hcp) Etr)) as [B1 B2]. rewrite net_par_fval. rewrite <- (proj1 (Hsl FBias ltac:(apply pf_seen; auto))), <- (proj1 (Hsl FWeights ltac:(apply pf_seen; auto))), B1, B2. reflexivity.
        -- destruct (O5 ltac:(intros X; apply (Htag p Hp Hcp) in X; congruence)) as [B1 B2]. rewrite <- (Hparm mm (fun _ => False)) by (try split; auto; contradiction).
           rewrite !net_par_fval. rewrite <- !(proj1 (Hsl FBias ltac:(apply pf_seen; auto))), <- !(proj1 (Hsl FWeights ltac:(apply pf_seen; auto))), B1, B2. reflexivity.
      * reflexivity.
Qed.
(** Calls that fail: the errors of the layers are cleared and an input may have
    been loaded, nothing else is written. *)
Lemma fed_keep S st tids m : running L C2 S st -> common nP nL S st tids -> ran (fed sP top rest ni) (mem (ts S)) m ->
  running L C2 (upd S m) st /\ common nP nL (upd S m) st tids /\ m !! al = mem (ts S) !! al /\ m !! mo = mem (ts S) !! mo.
Proof using All.
  intros [Lv HC2 Hmom Htag] Hc Rm. pose proof (fp_len _ _ _ _ _ _ _ _ _ _ _ _ FP) as Hlen. pose proof (ft_lo _ _ _ _ _ _ _ _ _ _ _ FT) as H1. pose proof (ft_mo _ _ _ _ _ _ _ _ _ _ _ FT) as [H2 H3].
  assert (Hf : forall a, fed sP top rest ni a -> a < n1 \/ nP <= a < nP + tsize top).
  { intros a [Hx|[Hx|Hx]]; [apply clear_in in Hx; tauto|destruct (quiet_off a (or_introl Hx)) as (A1 & _); auto|auto]. }
  assert (Hhi : forall a, nP + tsize top <= a -> m !! a = mem (ts S) !! a) by (intros a Ha; apply (proj2 Rm); intros X; apply Hf in X; clear - X Ha Hlen; lia).
  assert (Hto : forall a, fed sP top rest ni a -> touch sP L (top :: rest) ni W a).
  { intros a [Hx|[Hx|Hx]]; [right; left; exact Hx|right; right; left; exact Hx|left; clear - Hx H1 H2 H3; lia]. }
  split; [|split; [|split; apply Hhi; clear - H1 H2; lia]].
  - split; cbn [upd ts mem].
    + apply live_upd; [exact Lv|exact (proj1 Rm)].
    + unfold consts in *. rewrite Forall_forall in HC2 |- *. intros x Hx. destruct (fp_C _ _ _ _ _ _ _ _ _ _ _ _ FP x Hx) as (_ & N1 & _). rewrite (Hhi _ N1). apply HC2. exact Hx.
    + intros p Hp Hm. rewrite <- (Hmom p Hp Hm). apply mbv_off; [exact Hp|exact Hm|]. intros x Hx. apply Hhi. clear - Hx H1 H2. lia.
    + exact Htag.
  - eapply (common_keep nP nL nP nL S (upd S m) st st tids Hc); cbn [upd ts mem].
    + intros j n Hj. exists n. repeat split; auto.
    + rewrite (proj1 Rm). apply le_n.
    + intros x _ Hx. apply (proj2 Rm). intros Ht. destruct (touch_off x (Hto x Ht)) as (_ & B1 & B2). tauto.
    + intros x _ Hx Hnx. split; [|exact Hnx]. apply (proj2 Rm). intros Ht. destruct (touch_off x (Hto x Ht)) as ([B|B] & _); [contradiction|clear - B Hx; lia].
    + intros p Hp Hcp. rewrite <- (cm_par _ _ _ _ _ Hc p Hp Hcp). apply par_off; [exact Hp|exact Hcp|]. intros x Hpx. apply (proj2 Rm). intros X. exact (proj1 (fed_off x X) Hpx).
    + reflexivity.
Qed.
Lemma fit_bad S st tids v w t u : running L C2 S st -> common nP nL S st tids -> utens nP nL S v t -> utens nP nL S w u -> vsh v <> ish \/ vsh w <> c_sh top ->
  exists er S1, ExecFit (trained tgt al mo lo ocd obp orf) t u S = (Err er, S1) /\ running L C2 S1 st /\ common nP nL S1 st tids.
Proof using All.
  intros HR Hc Hv Hw Hbad. pose proof HR as [Lv HC2 _ _]. pose proof (at_forward sP (fp_later _ _ _ _ _ _ _ _ _ _ _ _ FP)) as F. rewrite cs_eq in F.
  destruct HM as (h1 & h2 & h3 & h4 & h5). pose proof Hv as (nx & Hnx & Hvx & Hcx). pose proof Hw as (ny & Hny & Hvy & Hcy).
  destruct (fp_orf _ _ _ _ _ _ _ _ _ _ _ _ FP (mem (ts S)) (lv_len _ _ Lv) HC2 I) as (m1 & X1 & R1 & _).
  assert (F1 : ran (fed sP top rest ni) (mem (ts S)) m1).
  { eapply ran_weak; [|exact R1]. intros a Ha. left. rewrite <- cs_eq in *. destruct Ha as (p & Hp & Ha). exists p. split; [exact Hp|]. rewrite cs_eq in Hp. destruct (ft_same _ _ _ _ _ _ _ _ _ _ _ FT p Hp) as (A1 & _). apply (A1 FDif (or_introl eq_refl)). exact Ha. }
  destruct (cm_in _ _ _ _ _ Hc) as (n & Hn & Eo & Ev).
  assert (Hpl : forall m i k sh, length m = length (mem (ts S)) -> node_ok (ts S) i k sh -> plain (ts (upd S m)) i k sh).
  { intros m i k sh Em (B1 & _ & B2 & B3). split; [exact B1|]. split; [|exact B3]. cbn [upd ts mem]. rewrite Em. exact B2. }
  unfold ExecFit. cbn [m_resetfit m_input m_target trained]. erewrite mbnd_ok by (eapply NetRun2.ExecG_ok; [reflexivity|exact X1]). fold (upd S m1). rewrite h3. erewrite mbnd_ok by reflexivity.
  destruct (decide (vsh v = ish)) as [Ex|Ex].
  - assert (Hy : vsh w <> c_sh top) by tauto. rewrite Ex in Hnx. destruct (load_ok _ _ _ _ _ _ (Hpl m1 _ _ _ (proj1 R1) Hn) (Hpl m1 _ _ _ (proj1 R1) Hnx)) as (m2 & X2 & R2 & _).
    { rewrite Eo. exact (fw_nd _ _ _ _ _ _ _ _ _ _ F). }
    { exact (apart nP nL S v t n nx Hv (proj1 Hnx) Eo). }
    cbn [upd ts mem tens ctx] in X2, R2. rewrite Eo in R2. erewrite mbnd_ok by (apply (liftT_ok _ (upd S m1) _ _ X2)). cbn [upd lays rc]. fold (upd S m2).
    assert (F2 : ran (fed sP top rest ni) (mem (ts S)) m2).
    { split; [rewrite (proj1 R2); exact (proj1 F1)|]. intros l Hl. rewrite (proj2 R2) by (intros X; apply Hl; right; left; exact X). apply (proj2 F1). exact Hl. }
    erewrite mbnd_ok by reflexivity. destruct (ft_tgt _ _ _ _ _ _ _ _ _ _ _ FT) as (nt & (Hnt & _ & Hwt & Hsht) & _).
    assert (Pt : plain (ts (upd S m2)) tgt nt (c_sh top)).
    { split; [exact (lv_tens _ _ Lv _ _ Hnt)|]. cbn [upd ts mem]. split; [|exact Hsht]. eapply wf_mat_mono; [exact Hwt|]. rewrite (proj1 F2). exact (lv_len _ _ Lv). }
    destruct (load_bad _ tgt u nt ny (c_sh top) (vsh w) Pt (Hpl m2 _ _ _ (proj1 F2) Hny) Hy) as [er Er]. exists er, (upd S m2).
    destruct (fed_keep S st tids m2 HR Hc F2) as (K1 & K2 & _). split; [|split; [exact K1|exact K2]]. unfold mbnd at 1. unfold liftT at 1. rewrite Er. reflexivity.
  - destruct (load_bad _ inp t n nx ish (vsh v) (Hpl m1 _ _ _ (proj1 R1) Hn) (Hpl m1 _ _ _ (proj1 R1) Hnx) Ex) as [er Er]. exists er, (upd S m1).
    destruct (fed_keep S st tids m1 HR Hc F1) as (K1 & K2 & _). split; [|split; [exact K1|exact K2]]. unfold mbnd at 1. unfold liftT at 1. rewrite Er. reflexivity.
Qed.
(** Several steps: alpha and momentum are written once. *)
Lemma upd_id (S : lst T) : upd S (mem (ts S)) = S.
Proof using Type. destruct S as [[? ? ?] ? ?]. reflexivity. Qed.
Lemma fit_once S st tids v w t u a b k par' mb' : running L C2 S st -> common nP nL S st tids -> utens nP nL S v t -> utens nP nL S w u -> vsh v = ish -> vsh w = c_sh top ->
  s_train (t_par st) (t_mom st) a b cs v w = Some (k, par', mb') -> mem (ts S) !! al = Some a -> mem (ts S) !! mo = Some b ->
  exists S1, ExecFit (trained tgt al mo lo ocd obp orf) t u S = (Ok tt, S1) /\
    running L C2 S1 (MkT (t_vals st) (s_keep (t_tr st) (t_par st) par') mb' (t_tr st)) /\ common nP nL S1 (MkT (t_vals st) (s_keep (t_tr st) (t_par st) par') mb' (t_tr st)) tids /\ mem (ts S1) !! al = Some a /\ mem (ts S1) !! mo = Some b.
Proof using All.
  intros HR Hc Hv Hw Hvs Hws Htr Ha Hb. destruct (step_train S st tids v w t u a b k par' mb' HR Hc Hv Hw Hvs Hws Htr) as (S1 & E & HR1 & Hc1 & Ha1 & Hb1).
  exists S1. split; [|auto]. pose proof almo as (Hal & Hmo & _). pose proof (lv_len _ _ (rn_live _ _ _ _ HR)) as HnL.
  unfold TrainOne in E. cbn [m_bp trained] in E. erewrite mbnd_ok in E by reflexivity. cbn [m_alpha m_momentum m_loss] in E. erewrite mbnd_ok in E by (apply wr_ok; clear - Hal HnL; lia).
  rewrite (list_insert_id _ _ _ Ha), upd_id in E. erewrite mbnd_ok in E by (apply wr_ok; clear - Hmo HnL; lia). rewrite (list_insert_id _ _ _ Hb), upd_id in E.
  set (MB := trained tgt al mo lo ocd obp orf) in *. unfold mbnd at 1 in E. change (MkModel _ _ _ _ _ _ _ _ _ _ _ _ _) with MB in E. destruct (ExecFit MB t u S) as [[[]|x| |] S2]; try discriminate. f_equal.
  unfold mbnd, liftT, rdM in E. destruct S2 as [[m2 t2 c2] l2 r2]. cbn in E. destruct (m2 !! lo); [|discriminate]. cbn in E. injection E as _ E. exact E.
Qed.
Lemma fit_many xids yids is js pairs a b tids vs : Forall2 (fun i t => tids !! i = Some t) is xids -> Forall2 (fun i t => tids !! i = Some t) js yids ->
  Forall2 (fun i (xy : vten T * vten T) => vs !! i = Some (fst xy)) is pairs -> Forall2 (fun j (xy : vten T * vten T) => vs !! j = Some (snd xy)) js pairs ->
  forall ks S par mb tr par' mb', running L C2 S (MkT vs par mb tr) -> common nP nL S (MkT vs par mb tr) tids -> mem (ts S) !! al = Some a -> mem (ts S) !! mo = Some b ->
    s_trains ish (c_sh top) tr par mb a b cs pairs ks = Some (par', mb') ->
    exists S1, mfor ks (fun k => x <~ mlift (at_or_panic xids k) ; y <~ mlift (at_or_panic yids k) ; ExecFit (trained tgt al mo lo ocd obp orf) x y) S = (Ok tt, S1) /\
      running L C2 S1 (MkT vs par' mb' tr) /\ common nP nL S1 (MkT vs par' mb' tr) tids.
Proof using All.
  intros Hx Hy Hi Hj. induction ks as [|k ks IH]; intros S par mb tr par' mb' HR Hc Ha Hb Hs; cbn [s_trains mfor] in *; [injection Hs as <- <-; exists S; auto|].
  destruct (pairs !! k) as [[x y]|] eqn:Ep; [|discriminate]. cbn [mbind option_bind fst snd] in Hs. destruct (bool_decide_reflect (vsh x = ish)) as [Ex|]; [|discriminate]. destruct (bool_decide_reflect (vsh y = c_sh top)) as [Ey|]; [|discriminate]. cbn [andb] in Hs.
  destruct (s_train par mb a b cs x y) as [[[n par1] mb1]|] eqn:Et; [|discriminate]. cbn [mbind option_bind fst snd] in Hs.
  destruct (Forall2_lookup_r _ _ _ _ _ Hi Ep) as (i & Ei & Hvi). destruct (Forall2_lookup_r _ _ _ _ _ Hj Ep) as (j & Ej & Hvj). cbn [fst snd] in Hvi, Hvj.
  destruct (Forall2_lookup_l _ _ _ _ _ Hx Ei) as (t & Et1 & Ht). destruct (Forall2_lookup_l _ _ _ _ _ Hy Ej) as (u & Eu1 & Hu).
  destruct (user_at _ _ S _ tids i x Hc Hvi) as (t' & Et' & Hux). destruct (user_at _ _ S _ tids j y Hc Hvj) as (u' & Eu' & Huy). assert (t' = t) as -> by congruence. assert (u' = u) as -> by congruence.
  destruct (fit_once S _ tids x y t u a b n par1 mb1 HR Hc Hux Huy Ex Ey Et Ha Hb) as (S1 & E1 & HR1 & Hc1 & Ha1 & Hb1). cbn [t_vals t_par t_tr] in HR1, Hc1.
  destruct (IH S1 _ mb1 tr par' mb' HR1 Hc1 Ha1 Hb1 Hs) as (S2 & E2 & HR2 & Hc2). exists S2. split; [|auto].
  erewrite mbnd_ok; [exact E2|]. erewrite mbnd_ok by (apply NetRun4.ten_ok; exact Et1). erewrite mbnd_ok by (apply NetRun4.ten_ok; exact Eu1). exact E1.
Qed.
Lemma wr_keep S st tids a b : running L C2 S st -> common nP nL S st tids -> let S1 := upd S (<[mo := b]> (<[al := a]> (mem (ts S)))) in
  running L C2 S1 st /\ common nP nL S1 st tids /\ mem (ts S1) !! al = Some a /\ mem (ts S1) !! mo = Some b.
Proof using All.
  intros [Lv HC2 Hmom Htag] Hc S1. pose proof (fp_len _ _ _ _ _ _ _ _ _ _ _ _ FP) as Hlen. pose proof (lv_len _ _ Lv) as HnL. pose proof almo as (Hal & Hmo & Hne & Hlo).
  set (m0 := mem (ts S)) in *. set (ma := <[al := a]> m0). set (mm := <[mo := b]> ma).
  assert (Rm : ran (fun l => l = al \/ l = mo) m0 mm).
  { split; [unfold mm, ma; rewrite !insert_length; reflexivity|]. intros l Hl. unfold mm, ma. rewrite !list_lookup_insert_ne by (intros X; apply Hl; auto). reflexivity. }
  assert (Hlow : forall x, x < nP -> mm !! x = m0 !! x). { intros x Hx. apply (proj2 Rm). clear - Hx Hal Hmo. lia. }
  split; [|split; [|split]].
  - split; cbn [S1 upd ts mem].
    + apply live_upd; [exact Lv|exact (proj1 Rm)].
    + unfold consts in *. rewrite Forall_forall in HC2 |- *. intros x Hx. destruct (fp_C _ _ _ _ _ _ _ _ _ _ _ _ FP x Hx) as (_ & _ & N1 & N2 & _). fold ma mm. rewrite (proj2 Rm) by (intros [X|X]; contradiction). apply HC2. exact Hx.
    + intros p Hp Hm. rewrite <- (Hmom p Hp Hm). apply mbv_off; [exact Hp|exact Hm|]. intros x Hx. apply (proj2 Rm). pose proof (ft_mo _ _ _ _ _ _ _ _ _ _ _ FT) as [Emo' _]. clear - Hx Emo'. lia.
    + exact Htag.
  - eapply (common_keep nP nL nP nL S S1 st st tids Hc); cbn [S1 upd ts mem]; fold m0 ma mm.
    + intros j n Hj. exists n. repeat split; auto.
    + rewrite (proj1 Rm). apply le_n.
    + intros x _ Hx. apply Hlow. destruct Hx as [Hx|Hx]; [apply C_off in Hx|apply r_off in Hx]; destruct Hx as [Hx _]; clear - Hx Hlen; lia.
    + intros x _ Hx Hnx. split; [|exact Hnx]. apply (proj2 Rm). intros [X|X]; apply Hnx; subst x; assumption.
    + intros p Hp Hcp. rewrite <- (cm_par _ _ _ _ _ Hc p Hp Hcp). apply par_off; [exact Hp|exact Hcp|]. intros x Hpx. apply Hlow. apply par_lt in Hpx. clear - Hpx Hlen. lia.
    + reflexivity.
  - cbn. rewrite list_lookup_insert_ne by (intros X; apply Hne; congruence). apply list_lookup_insert. clear - Hal HnL. lia.
  - cbn. apply list_lookup_insert. rewrite insert_length. clear - Hmo HnL. lia.
Qed.
Lemma picks_flat (go : nat -> LM T unit) (picks : nat -> nat -> nat) n epochs batch (s2 : lst T) : n <> 0 \/ epochs = 0 \/ batch = 0 ->
  mfor (range epochs) (fun e => mfor (range batch) (fun b => if n =? 0 then mpanic else go (Nat.modulo (picks e b) n))) s2 = mfor (NetScript.picked picks n epochs batch) go s2.
Proof using Type.
  clear. intros Hn. unfold NetScript.picked. rewrite <- NetRun4.mfor_flat. apply NetRun4.mfor_ext. intros e0 s3 He. unfold range.
  rewrite <- NetRun4.mfor_map. apply NetRun4.mfor_ext. intros b0 s4 Hb. destruct (Nat.eqb_spec n 0) as [E0|]; [|reflexivity]. destruct Hn as [Hn|[->| ->]]; [contradiction|inversion He|inversion Hb].
Qed.
Lemma mfor_split (go : nat -> LM T unit) ks ks' (s2 : lst T) : mfor (ks ++ ks') go s2 = (mfor ks go ;~ mfor ks' go) s2.
Proof using Type.
  clear. revert s2. induction ks as [|k ks IH]; intros s2; cbn [app mfor]; [reflexivity|]. unfold mbnd. destruct (go k s2) as [[[]| | |] s3]; try reflexivity. rewrite IH. reflexivity.
Qed.
Lemma train_bad S st tids i j v w t u a b : running L C2 S st -> common nP nL S st tids -> t_vals st !! i = Some v -> t_vals st !! j = Some w -> tids !! i = Some t -> tids !! j = Some u -> vsh v <> ish \/ vsh w <> c_sh top ->
  exists S1, attempt (TrainOne (trained tgt al mo lo ocd obp orf) t u a b) S = (Ok None, S1) /\ running L C2 S1 st /\ common nP nL S1 st tids.
Proof using All.
  intros HR Hc Hv Hw Et Eu Hbad. pose proof almo as (Hal & Hmo & _). pose proof (lv_len _ _ (rn_live _ _ _ _ HR)) as HnL.
  destruct (wr_keep S _ tids a b HR Hc) as (HR0 & Hc0 & _). destruct (user_at _ _ _ _ tids i v Hc0 Hv) as (t' & Et' & Hux). destruct (user_at _ _ _ _ tids j w Hc0 Hw) as (u' & Eu' & Huy).
  assert (t' = t) as -> by congruence. assert (u' = u) as -> by congruence. destruct (fit_bad _ st tids v w t u HR0 Hc0 Hux Huy Hbad) as (er & S1 & E & HR1 & Hc1). exists S1. split; [|auto].
  unfold attempt, TrainOne. cbn [m_bp trained]. erewrite mbnd_ok by reflexivity. cbn [m_alpha m_momentum m_loss]. erewrite mbnd_ok by (apply wr_ok; clear - Hal HnL; lia).
  erewrite mbnd_ok by (apply wr_ok; cbn [upd ts mem]; rewrite insert_length; clear - Hmo HnL; lia). cbn [upd ts mem tens ctx lays rc]. unfold mbnd at 1. change (ExecFit _ t u _) with (ExecFit (trained tgt al mo lo ocd obp orf) t u (upd S (<[mo := b]> (<[al := a]> (mem (ts S)))))). rewrite E. reflexivity.
Qed.
Lemma steps_stop S vs par mb tr tids xids yids is js pairs picks epochs batch a b ks k ks' x y par' mb' : running L C2 S (MkT vs par mb tr) -> common nP nL S (MkT vs par mb tr) tids ->
  Forall2 (fun i t => tids !! i = Some t) is xids -> Forall2 (fun i t => tids !! i = Some t) js yids ->
  Forall2 (fun i (xy : vten T * vten T) => vs !! i = Some (fst xy)) is pairs -> Forall2 (fun j (xy : vten T * vten T) => vs !! j = Some (snd xy)) js pairs ->
  NetScript.picked picks (length pairs) epochs (if batch =? 0 then length pairs else batch) = ks ++ k :: ks' ->
  s_trains ish (c_sh top) tr par mb a b cs pairs ks = Some (par', mb') -> pairs !! k = Some (x, y) -> vsh x <> ish \/ vsh y <> c_sh top ->
  exists S1, attempt (Train picks (trained tgt al mo lo ocd obp orf) xids yids epochs batch a b) S = (Ok None, S1) /\
    running L C2 S1 (MkT vs par' mb' tr) /\ common nP nL S1 (MkT vs par' mb' tr) tids.
Proof using All.
  intros HR Hc Hx Hy Hi Hj Hk Hs Hp Hbad. pose proof almo as (Hal & Hmo & _ & Hlo). pose proof (lv_len _ _ (rn_live _ _ _ _ HR)) as HnL.
  destruct (wr_keep S _ tids a b HR Hc) as (HR0 & Hc0 & Ha0 & Hb0).
  destruct (fit_many xids yids is js pairs a b tids vs Hx Hy Hi Hj _ _ par mb tr par' mb' HR0 Hc0 Ha0 Hb0 Hs) as (S1 & E & HR1 & Hc1).
  destruct (Forall2_lookup_r _ _ _ _ _ Hi Hp) as (i & Ei & Hvi). destruct (Forall2_lookup_r _ _ _ _ _ Hj Hp) as (j & Ej & Hvj). cbn [fst snd] in Hvi, Hvj.
  destruct (Forall2_lookup_l _ _ _ _ _ Hx Ei) as (t & Et1 & Ht). destruct (Forall2_lookup_l _ _ _ _ _ Hy Ej) as (u & Eu1 & Hu).
  destruct (user_at _ _ S1 _ tids i x Hc1 Hvi) as (t' & Et' & Hux). destruct (user_at _ _ S1 _ tids j y Hc1 Hvj) as (u' & Eu' & Huy). assert (t' = t) as -> by congruence. assert (u' = u) as -> by congruence.
  destruct (fit_bad S1 _ tids x y t u HR1 Hc1 Hux Huy Hbad) as (er & S2 & E2 & HR2 & Hc2). exists S2. split; [|auto].
  assert (Lx : length xids = length pairs) by (rewrite <- (Forall2_length _ _ _ Hx); exact (Forall2_length _ _ _ Hi)).
  assert (Ly : length yids = length pairs) by (rewrite <- (Forall2_length _ _ _ Hy); exact (Forall2_length _ _ _ Hj)).
  unfold attempt, Train. rewrite Lx, Ly, Nat.eqb_refl. cbn [negb]. cbn [m_bp trained]. erewrite mbnd_ok by reflexivity. cbn [m_alpha m_momentum m_loss]. erewrite mbnd_ok by (apply wr_ok; clear - Hal HnL; lia).
  erewrite mbnd_ok by (apply wr_ok; cbn [upd ts mem]; rewrite insert_length; clear - Hmo HnL; lia). cbn [upd ts mem tens ctx lays rc]. cbv zeta.
  match goal with |- context [mbnd (mfor (range epochs) ?body) _ ?S0] => assert (EQ : mfor (range epochs) body S0 = (Err er, S2)) end.
  { eapply eq_trans; [apply (picks_flat (fun k0 => x0 <~ mlift (at_or_panic xids k0) ; y0 <~ mlift (at_or_panic yids k0) ; ExecFit (trained tgt al mo lo ocd obp orf) x0 y0)); left; apply lookup_lt_Some in Hp; clear - Hp; lia|].
    rewrite Hk. rewrite mfor_split. unfold mbnd at 1. match goal with |- context [mfor ks ?g ?s2] => assert (E' : mfor ks g s2 = (Ok tt, S1)) by exact E end. rewrite E'. cbn [mfor]. unfold mbnd at 1. erewrite mbnd_ok by (apply NetRun4.ten_ok; exact Et1). erewrite mbnd_ok by (apply NetRun4.ten_ok; exact Eu1). rewrite E2. reflexivity. }
  unfold mbnd at 1. rewrite EQ. reflexivity.
Qed.
Lemma steps_train S vs par mb tr tids xids yids is js pairs picks epochs batch a b par' mb' : running L C2 S (MkT vs par mb tr) -> common nP nL S (MkT vs par mb tr) tids ->
  Forall2 (fun i t => tids !! i = Some t) is xids -> Forall2 (fun i t => tids !! i = Some t) js yids ->
  Forall2 (fun i (xy : vten T * vten T) => vs !! i = Some (fst xy)) is pairs -> Forall2 (fun j (xy : vten T * vten T) => vs !! j = Some (snd xy)) js pairs -> pairs <> [] \/ epochs = 0 \/ batch = 0 ->
  s_trains ish (c_sh top) tr par mb a b cs pairs (NetScript.picked picks (length pairs) epochs (if batch =? 0 then length pairs else batch)) = Some (par', mb') ->
  exists S1, Train picks (trained tgt al mo lo ocd obp orf) xids yids epochs batch a b S = (Ok (trained tgt al mo lo ocd obp orf), S1) /\
    running L C2 S1 (MkT vs par' mb' tr) /\ common nP nL S1 (MkT vs par' mb' tr) tids.
Proof using All.
  intros HR Hc Hx Hy Hi Hj Hne Hs. pose proof almo as (Hal & Hmo & _ & Hlo). pose proof (lv_len _ _ (rn_live _ _ _ _ HR)) as HnL.
  destruct (wr_keep S _ tids a b HR Hc) as (HR0 & Hc0 & Ha0 & Hb0).
  destruct (fit_many xids yids is js pairs a b tids vs Hx Hy Hi Hj _ _ par mb tr par' mb' HR0 Hc0 Ha0 Hb0 Hs) as (S1 & E & HR1 & Hc1). exists S1. split; [|auto].
  assert (Lx : length xids = length pairs) by (rewrite <- (Forall2_length _ _ _ Hx); exact (Forall2_length _ _ _ Hi)).
  assert (Ly : length yids = length pairs) by (rewrite <- (Forall2_length _ _ _ Hy); exact (Forall2_length _ _ _ Hj)).
  unfold Train. rewrite Lx, Ly, Nat.eqb_refl. cbn [negb]. cbn [m_bp trained]. erewrite mbnd_ok by reflexivity. cbn [m_alpha m_momentum m_loss]. erewrite mbnd_ok by (apply wr_ok; clear - Hal HnL; lia).
  erewrite mbnd_ok by (apply wr_ok; cbn [upd ts mem]; rewrite insert_length; clear - Hmo HnL; lia). cbn [upd ts mem tens ctx lays rc]. cbv zeta.
  match goal with |- mbnd (mfor (range epochs) ?body) _ ?S0 = _ => assert (EQ : mfor (range epochs) body S0 = (Ok tt, S1)) end.
  { rewrite <- E. apply (picks_flat (fun k0 => x0 <~ mlift (at_or_panic xids k0) ; y0 <~ mlift (at_or_panic yids k0) ; ExecFit (trained tgt al mo lo ocd obp orf) x0 y0)).
    destruct Hne as [Hne|[Hne|Hne]]; [left; destruct pairs; [contradiction|discriminate]|right; left; exact Hne|]. destruct pairs; [right; right; rewrite Hne; reflexivity|left; discriminate]. }
  rewrite (mbnd_ok _ _ _ _ _ EQ). assert (El : exists v, mem (ts S1) !! lo = Some v).
  { apply lookup_lt_is_Some_2. pose proof (lv_len _ _ (rn_live _ _ _ _ HR1)) as Hle. clear - Hle Hlo Hal. lia. }
  destruct El as [v Ev]. erewrite mbnd_ok by (apply liftT_ok; apply rdM_at; exact Ev). destruct S1. reflexivity.
Qed.
End Train.

(** *** The first training compiles *)
Lemma zeros_rds (m : list T) : forall ops, Forall (valid (length m)) ops -> (forall a, Some a ∈ ops -> m !! a = Some nzero) -> rds m ops = Some (replicate (length ops) nzero).
Proof using Type.
  clear. induction ops as [|o ops IH]; intros Hv Hz; [reflexivity|]. apply Forall_cons in Hv as [(a & -> & Ha) Hv]. unfold rds in *. cbn [mapM]. assert (E : rd m (Some a) = Some nzero) by exact (Hz a ltac:(left)). rewrite E. cbn [mbind option_bind].
  rewrite IH; [reflexivity|exact Hv|]. intros b Hb. apply Hz. right. exact Hb.
Qed.
Lemma start_train S st tids : later S -> n1 <= length (mem (ts S)) -> common 0 0 S st tids -> (forall p, p ∈ cs -> has_mom p = true -> t_mom st (c_i p) = still (t_par st) (c_i p)) -> tagged S (t_tr st) ->
  exists L tgt al mo lo ocd obp orf C2 Wc Wb, CompileBackPropagation M' S = (Ok (trained tgt al mo lo ocd obp orf), L) /\ fitp S L tgt al mo lo ocd obp orf C2 Wc Wb /\
    running L C2 L st /\ common (length (mem (ts S))) (length (mem (ts L))) L st tids.
Proof using All.
  intros HS Hlen Hc Hmom Htag. destruct (compile_bp S M' top rest out (at_prepared S HS)) as (L & tgt & al & mo & lo & ocd & obp & orf & FT0 & EC).
  destruct (ft_gr _ _ _ _ _ _ _ _ _ _ _ FT0) as (C2 & Wc & Wb & G1 & G2 & G3 & G4 & G5 & G6).
  assert (FP : fitp S L tgt al mo lo ocd obp orf C2 Wc Wb) by (split; assumption).
  exists L, tgt, al, mo, lo, ocd, obp, orf, C2, Wc, Wb. split; [exact EC|]. split; [exact FP|].
  pose proof (ft_held _ _ _ _ _ _ _ _ _ _ _ FT0) as Hh. pose proof (hd_len _ _ Hh) as HnL.
  assert (Hm : forall a, a < length (mem (ts S)) -> mem (ts L) !! a = mem (ts S) !! a). { intros a Ha. destruct (lookup_lt_is_Some_2 _ _ Ha) as [v Hv]. rewrite Hv. apply (hd_mem _ _ Hh). exact Hv. }
  assert (Hcm : common (length (mem (ts S))) (length (mem (ts L))) L st tids).
  { eapply (common_keep 0 0 _ _ S L st st tids Hc); [exact (hd_keep _ _ Hh)|exact HnL| | | |reflexivity].
    - intros a Ha _. apply Hm. exact Ha.
    - intros a Ha _ _. split; [apply Hm; exact Ha|]. clear - Ha. lia.
    - intros p Hp Hcp. rewrite <- (cm_par _ _ _ _ _ Hc p Hp Hcp). apply par_off; [exact Hp|exact Hcp|]. intros a Ha. apply Hm. apply par_lt in Ha. clear - Ha Hlen. lia. }
  split; [|exact Hcm]. split.
  - split; [apply alike_refl|auto|apply le_n].
  - unfold consts. apply Forall_forall. intros x Hx. apply (G1 x Hx).
  - intros p Hp Hmo. rewrite (Hmom p Hp Hmo). pose proof (mom_par p Hmo) as Hcp. pose proof Hp as Hp'. rewrite cs_eq in Hp'.
    destruct (ft_par _ _ _ _ _ _ _ _ _ _ _ FT0 p Hp' Hcp FMBias) as (sh & (t & n & Hf & Hn) & (t' & n' & Hf' & Hn') & _); [auto|]. cbn [twin] in Hf'.
    destruct (ft_par _ _ _ _ _ _ _ _ _ _ _ FT0 p Hp' Hcp FNWeights) as (sh2 & _ & (t2 & n2 & Hf2 & Hn2) & _); [auto|]. cbn [twin] in Hf2.
    destruct (same_later S L tgt al mo lo ocd obp orf C2 Wc Wb FP p Hp) as [Hsl _]. unfold still. rewrite <- (cm_par _ _ _ _ _ Hcm p Hp Hcp). rewrite net_par_fval, <- (proj1 (Hsl FBias ltac:(apply pf_seen; auto))), <- (proj1 (Hsl FWeights ltac:(apply pf_seen; auto))).
    unfold fval at 1 2, fnode. rewrite Hf', Hf2. cbn [mbind option_bind]. destruct Hn' as (N1 & _ & Nw & Ns), Hn2 as (N2 & _ & Nw2 & _). rewrite N1, N2. cbn [mbind option_bind].
    destruct (mval_total _ (mem (ts L)) _ Nw (le_n _)) as (vb & Evb). destruct (mval_total _ (mem (ts L)) _ Nw2 (le_n _)) as (vw & Evw). rewrite Evb. cbn [mbind option_bind]. rewrite Evw. cbn [mbind option_bind fst].
    rewrite (proj1 (mval_shape _ _ _ Evb)), Ns. unfold mbv, fval, fnode. rewrite Hf. cbn [mbind option_bind]. destruct Hn as (N3 & _ & (W1 & W2 & W3 & W4) & Ns3). rewrite N3. cbn [mbind option_bind].
    unfold mval. rewrite (zeros_rds (mem (ts L)) (operands (nmat n)) W4); [unfold vzero; rewrite W3, Ns3; reflexivity|].
    intros a Ha. apply (ft_mb _ _ _ _ _ _ _ _ _ _ _ FT0 p Hp' Hcp). exists n. split; [|exact Ha]. unfold fnode. rewrite Hf. exact N3.
  - intros p Hp Hcp. rewrite <- (Htag p Hp Hcp). destruct (chain_in _ _ _ (at_chain S HS) Hp) as (l & psh & Hs). pose proof (ls_lay _ _ _ _ Hs) as Hl. destruct (ft_kept _ _ _ _ _ _ _ _ _ _ _ FT0 _ _ Hl) as (l' & Hl' & Hfl & _).
    assert (E : lflag l' BTrainable = lflag l BTrainable) by (apply Hfl; discriminate). split; intros (x & Hx & Hb); [exists l; split; [exact Hl|congruence]|exists l'; split; [exact Hl'|congruence]].
Qed.

(** *** Histories *)
Definition held_by (M : model T) S (st : tstate T) (tids : list nat) : Prop :=
  (M = M' /\ later S /\ common 0 0 S st tids /\ (forall p, p ∈ cs -> has_mom p = true -> t_mom st (c_i p) = still (t_par st) (c_i p)) /\ tagged S (t_tr st)) \/
  exists sP L tgt al mo lo ocd obp orf C2 Wc Wb, M = trained tgt al mo lo ocd obp orf /\ fitp sP L tgt al mo lo ocd obp orf C2 Wc Wb /\
    running L C2 S st /\ common (length (mem (ts sP))) (length (mem (ts L))) S st tids.
Lemma held_reads M S st tids : held_by M S st tids -> reads_as M.
Proof using All.
  destruct HM as (h1 & h2 & h3 & h4 & h5). intros [(-> & _)|(sP & L & tgt & al & mo & lo & ocd & obp & orf & C2 & Wc & Wb & -> & _)]; repeat split; assumption.
Qed.
Lemma later_moved S S1 : later S -> n1 <= length (mem (ts S)) -> moved S S1 -> later S1.
Proof using All.
  intros (A1 & (x & A2) & A3 & A4 & A5) Hlen (B1 & (y & B2) & B3 & B4). split; [rewrite B1; exact A1|]. split; [exists (x ++ y); rewrite B2, A2; symmetry; apply app_assoc|]. split; [clear - A3 B3; lia|]. split.
  - unfold consts in *. rewrite Forall_forall in A4 |- *. intros c Hc. specialize (A4 c Hc). rewrite B4; [exact A4|eapply lookup_lt_Some; exact A4|]. intros Hq. destruct (quiet_off _ Hq) as (_ & _ & _ & Q). apply Q. apply elem_of_list_fmap. eauto.
  - intros p r v Hp Hr Hv. specialize (A5 p r v Hp Hr Hv). rewrite B4; [exact A5|eapply lookup_lt_Some; exact A5|]. intros Hq. destruct (quiet_off _ Hq) as (_ & _ & Q & _). apply Q. exists p. auto.
Qed.
Lemma tagged_lays S S1 tr : lays S1 = lays S -> tagged S tr -> tagged S1 tr.
Proof using Type. intros E Ht p Hp Hc. rewrite <- (Ht p Hp Hc). unfold trains. rewrite E. reflexivity. Qed.
Lemma running_moved sP L tgt al mo lo ocd obp orf C2 Wc Wb S S1 st st1 : fitp sP L tgt al mo lo ocd obp orf C2 Wc Wb -> running L C2 S st -> moved S S1 -> t_mom st1 = t_mom st -> t_tr st1 = t_tr st -> running L C2 S1 st1.
Proof using All.
  intros FP [[R1 R2 R3] R4 R5 R6] (B1 & (y & B2) & B3 & B4) Em Etr. pose proof (fp_len _ _ _ _ _ _ _ _ _ _ _ _ FP) as Hlen. split.
  - split; [rewrite B1; exact R1| |clear - R3 B3; lia]. intros i n Hi. rewrite B2. apply lookup_app_l_Some. apply R2. exact Hi.
  - unfold consts in *. rewrite Forall_forall in R4 |- *. intros c Hc. specialize (R4 c Hc). rewrite B4; [exact R4|eapply lookup_lt_Some; exact R4|]. intros Hq. destruct (quiet_off _ Hq) as (Q & _). destruct (fp_C _ _ _ _ _ _ _ _ _ _ _ _ FP c Hc) as (_ & Q2 & _). clear - Q Q2 Hlen. lia.
  - intros p Hp Hm. rewrite Em, <- (R5 p Hp Hm). unfold mbv, fval. destruct (fnode L (c_i p) FMBias) as [n|] eqn:En; [|reflexivity]. cbn [mbind option_bind]. apply mval_off. intros l Hl.
    assert (Hmo : mo < l) by (eapply (mbcell sP L tgt al mo lo ocd obp orf C2 Wc Wb FP p); [exact Hp|apply mom_par; exact Hm|exists n; auto]).
    pose proof (almo sP L tgt al mo lo ocd obp orf C2 Wc Wb FP) as (_ & Hb & _). apply B4.
    + pose proof (ft_par _ _ _ _ _ _ _ _ _ _ _ (fp_fit _ _ _ _ _ _ _ _ _ _ _ _ FP) p ltac:(rewrite <- cs_eq; exact Hp) (mom_par p Hm) FMBias ltac:(auto)) as (sh & (t & n' & Hf & Hn') & _). unfold fnode in En. rewrite Hf in En. cbn [mbind option_bind] in En. rewrite (proj1 Hn') in En. injection En as ->.
      pose proof (node_cell _ _ _ _ l Hn' Hl) as Hlt. clear - Hlt R3. lia.
    + intros Hq. destruct (quiet_off _ Hq) as (Q & _). clear - Q Hmo Hb Hlen. lia.
  - rewrite Etr. exact (tagged_lays S S1 _ B1 R6).
Qed.
Lemma held_split M S st tids : held_by M S st tids -> exists P Q, common P Q S st tids /\ Q <= length (mem (ts S)) /\
  forall S1 vals tids1, moved S S1 -> common P Q S1 (MkT vals (t_par st) (t_mom st) (t_tr st)) tids1 -> held_by M S1 (MkT vals (t_par st) (t_mom st) (t_tr st)) tids1.
Proof using All.
  intros [(-> & HL & Hc & Hm & Htg)|(sP & L & tgt & al & mo & lo & ocd & obp & orf & C2 & Wc & Wb & -> & FP & HR & Hc)].
  - exists 0, 0. split; [exact Hc|]. split; [apply Nat.le_0_l|]. intros S1 vals tids1 Hmv Hc1. left. split; [reflexivity|]. split; [exact (later_moved S S1 HL (cm_len _ _ _ _ _ Hc) Hmv)|]. split; [exact Hc1|]. split; [exact Hm|exact (tagged_lays S S1 _ (proj1 Hmv) Htg)].
  - exists (length (mem (ts sP))), (length (mem (ts L))). split; [exact Hc|]. split; [exact (lv_len _ _ (rn_live _ _ _ _ HR))|]. intros S1 vals tids1 Hmv Hc1. right.
    exists sP, L, tgt, al, mo, lo, ocd, obp, orf, C2, Wc, Wb. split; [reflexivity|]. split; [exact FP|]. split; [eapply running_moved; [exact FP|exact HR|exact Hmv|reflexivity|reflexivity]|exact Hc1].
Qed.
Lemma moved_refl S : moved S S.
Proof using Type. split; [reflexivity|]. split; [exists []; symmetry; apply app_nil_r|]. split; [apply le_n|auto]. Qed.
Lemma held_ends M S st tids : held_by M S st tids -> m_last M = Some (c_i top) /\ m_first M = last (map c_i cs).
Proof using All.
  destruct HM as (h1 & h2 & h3 & h4 & h5). intros [(-> & _)|(sP & L & tgt & al & mo & lo & ocd & obp & orf & C2 & Wc & Wb & -> & _)]; split; assumption.
Qed.
Lemma held_strung M S st tids : held_by M S st tids -> strung S cs /\ tagged S (t_tr st).
Proof using All.
  intros [(-> & HL & Hc & Hm & Htg)|(sP & L & tgt & al & mo & lo & ocd & obp & orf & C2 & Wc & Wb & -> & FP & HR & Hc)].
  - split; [apply chain_strung; apply at_chain; exact HL|exact Htg].
  - split; [|exact (rn_tr _ _ _ _ HR)]. apply (strung_alike L S (lv_lays _ _ (rn_live _ _ _ _ HR))). apply chain_strung. rewrite cs_eq. exact (ft_chain _ _ _ _ _ _ _ _ _ _ _ (fp_fit _ _ _ _ _ _ _ _ _ _ _ _ FP)).
Qed.
Lemma held_retag M S st tids S1 f tr' : held_by M S st tids -> ts S1 = ts S -> alike (lays S) (lays S1) -> flagged f S S1 ->
  (forall j, tr' j = match f j with Some b => b | None => t_tr st j end) -> held_by M S1 (MkT (t_vals st) (t_par st) (t_mom st) tr') tids.
Proof using All.
  intros Hh Et Ea Hfl Htr. destruct (held_strung M S st tids Hh) as [Hstr Htg].
  assert (Htg1 : tagged S1 tr').
  { intros p Hp Hcp. destruct (strung_in S cs p Hstr Hp) as [l Hl]. destruct (alike_l _ _ _ _ Ea Hl) as (l1 & Hl1 & _). pose proof (Hfl _ _ _ Hl Hl1) as E. specialize (Htg p Hp Hcp). rewrite Htr.
    assert (Ex : forall (S2 : lst T) (l2 : layer T), lays S2 !! c_i p = Some l2 -> trains S2 p <-> lflag l2 BTrainable = true) by (intros S2 l2 Hl2; split; [intros (x & Hx & Hb); congruence|intros Hb; exists l2; auto]).
    rewrite (Ex S1 l1 Hl1), E. rewrite (Ex S l Hl) in Htg. destruct (f (c_i p)); [reflexivity|exact Htg]. }
  assert (Hcm : forall P Q, common P Q S st tids -> common P Q S1 (MkT (t_vals st) (t_par st) (t_mom st) tr') tids).
  { intros P Q [c1 c2 c3 c4 c5 c6 c7]. split; rewrite ?Et; try assumption. cbn [t_vals]. eapply Forall2_impl; [exact c7|]. intros v t (n & A1 & A2 & A3). exists n. rewrite Et. auto. }
  destruct Hh as [(-> & HL & Hc & Hm & _)|(sP & L & tgt & al & mo & lo & ocd & obp & orf & C2 & Wc & Wb & -> & FP & [[R1 R2 R3] R4 R5 _] & Hc)].
  - left. split; [reflexivity|]. split; [|split; [apply Hcm; exact Hc|split; [exact Hm|exact Htg1]]]. destruct HL as (A1 & A2). split; [exact (alike_trans _ _ _ A1 Ea)|]. rewrite Et. exact A2.
  - right. exists sP, L, tgt, al, mo, lo, ocd, obp, orf, C2, Wc, Wb. split; [reflexivity|]. split; [exact FP|]. split; [|apply Hcm; exact Hc]. split; rewrite ?Et; try assumption. split; rewrite ?Et; try assumption. exact (alike_trans _ _ _ R1 Ea).
Qed.
(** The first training compiles the model. *)
Lemma held_ensure M S st tids : held_by M S st tids -> exists sP L tgt al mo lo ocd obp orf C2 Wc Wb S1, NetScript.ensure_bp M S = (Ok (trained tgt al mo lo ocd obp orf), S1) /\
  fitp sP L tgt al mo lo ocd obp orf C2 Wc Wb /\ running L C2 S1 st /\ common (length (mem (ts sP))) (length (mem (ts L))) S1 st tids.
Proof using All.
  intros [(-> & HL & Hc & Hm & Htg)|(sP & L & tgt & al & mo & lo & ocd & obp & orf & C2 & Wc & Wb & -> & FP & HR & Hc)].
  - destruct (start_train S st tids HL (cm_len _ _ _ _ _ Hc) Hc Hm Htg) as (L & tgt & al & mo & lo & ocd & obp & orf & C2 & Wc & Wb & EC & FP & HR & Hc1).
    exists S, L, tgt, al, mo, lo, ocd, obp, orf, C2, Wc, Wb, L. destruct HM as (_ & _ & _ & _ & h5). unfold NetScript.ensure_bp. rewrite h5. auto.
  - exists sP, L, tgt, al, mo, lo, ocd, obp, orf, C2, Wc, Wb, S. split; [reflexivity|auto].
Qed.
Lemma ids_at M S vs par mb tr tids : held_by M S (MkT vs par mb tr) tids -> forall l, Forall (fun i => i < length vs) l -> exists ids, Forall2 (fun i t => tids !! i = Some t) l ids /\ forall s : lst T, mmap l (fun i => mlift (at_or_panic tids i)) s = (Ok ids, s).
Proof using All.
  intros Hh. destruct (held_split _ _ _ _ Hh) as (P & Q & Hc & _). induction l as [|i l IH]; intros Hl; [exists []; split; [constructor|reflexivity]|]. apply Forall_cons in Hl as [H1 Hl]. destruct (IH Hl) as (ids & F & E). destruct (lookup_lt_is_Some_2 _ _ H1) as [v Hv].
  destruct (user_at _ _ S _ tids i v Hc Hv) as (t & Et & _). exists (t :: ids). split; [constructor; assumption|]. intros s2. cbn [mmap]. erewrite mbnd_ok by (apply NetRun4.ten_ok; exact Et). rewrite (mbnd_ok _ _ _ _ _ (E s2)). reflexivity.
Qed.
Lemma pairs_lt {A} (f : A -> vten T) (vs : list (vten T)) is (pairs : list A) : Forall2 (fun i z => vs !! i = Some (f z)) is pairs -> Forall (fun i => i < length vs) is.
Proof using Type. intros Hi. apply Forall_lookup. intros n i Hn. destruct (Forall2_lookup_l _ _ _ _ _ Hi Hn) as (p & _ & Hp). eapply lookup_lt_Some; exact Hp. Qed.
Lemma do_tact_ok M S st tids a st1 o : held_by M S st tids -> tstep ish (c_sh top) cs st a st1 o ->
  exists M1 S1 tids1, do_tact rnd lids (M, tids) a S = (Ok (M1, tids1, o), S1) /\ held_by M1 S1 st1 tids1.
Proof using All.
  intros Hh Hs. pose proof (held_reads M S st tids Hh) as HRd. inversion Hs as [vs par mb tr shv d Hf Hl|vs par mb tr i x Hx|vs par mb tr i x y Hx Hxs Hy|vs par mb tr i x Hx Hne|vs par mb tr i j x y al mo k par' mb' Hx Hy Hxs Hys Htr|vs par mb tr i j x y al mo Hx Hy Hbad|vs par mb tr is js pairs picks epochs batch al mo par' mb' Hi Hj Hne Htr|vs par mb tr is js pairs picks epochs batch al mo ks k ks' x y par' mb' Hi Hj Hks Htr Hxy Hbad|vs par mb tr is js picks epochs batch al mo Hi Hj Hne|vs par mb tr k b c Hk|vs par mb tr b]; subst; cbn [do_tact].
  - destruct (held_split _ _ _ _ Hh) as (P & Q & Hc & HQ & Hk). destruct (step_new P Q S vs par mb tr tids shv d Hc HQ Hf Hl) as (S1 & t & E & Hmv & Hc1). rewrite (mbnd_ok _ _ _ _ _ E). eexists _, _, _. split; [reflexivity|]. exact (Hk S1 _ _ Hmv Hc1).
  - destruct (held_split _ _ _ _ Hh) as (P & Q & Hc & HQ & Hk). destruct (user_at P Q S _ tids i x Hc Hx) as (t & Et & Hu). erewrite mbnd_ok by (apply NetRun4.ten_ok; exact Et). erewrite mbnd_ok by (eapply step_get; exact Hu). eexists _, _, _. split; [reflexivity|exact Hh].
  - destruct (held_split _ _ _ _ Hh) as (P & Q & Hc & HQ & Hk). destruct (user_at P Q S _ tids i x Hc Hx) as (t & Et & Hu). erewrite mbnd_ok by (apply NetRun4.ten_ok; exact Et).
    destruct (step_predict P Q S M vs par mb tr tids x t y Hc HQ HRd Hu Hxs Hy) as (S1 & E & Hmv & Hc1). erewrite mbnd_ok by (unfold attempt; rewrite E; reflexivity). eexists _, _, _. split; [reflexivity|]. exact (Hk S1 _ _ Hmv Hc1).
  - destruct (held_split _ _ _ _ Hh) as (P & Q & Hc & HQ & Hk). destruct (user_at P Q S _ tids i x Hc Hx) as (t & Et & Hu). erewrite mbnd_ok by (apply NetRun4.ten_ok; exact Et).
    erewrite mbnd_ok by (eapply (step_refuse P Q); [exact Hc|exact HRd|exact Hu|exact Hne]). eexists _, _, _. split; [reflexivity|exact Hh].
  - destruct (held_split _ _ _ _ Hh) as (P & Q & Hc0 & _). destruct (user_at P Q S _ tids i x Hc0 Hx) as (t & Et & _). destruct (user_at P Q S _ tids j y Hc0 Hy) as (u & Eu & _).
    erewrite mbnd_ok by (apply NetRun4.ten_ok; exact Et). erewrite mbnd_ok by (apply NetRun4.ten_ok; exact Eu).
    destruct (held_ensure M S _ tids Hh) as (sP & L & tgt & al0 & mo0 & lo & ocd & obp & orf & C2 & Wc & Wb & S2 & EE & FP & HR & Hc). rewrite (mbnd_ok _ _ _ _ _ EE).
    destruct (user_at _ _ S2 _ tids i x Hc Hx) as (t' & Et' & Hu). destruct (user_at _ _ S2 _ tids j y Hc Hy) as (u' & Eu' & Hw). assert (t' = t) as -> by congruence. assert (u' = u) as -> by congruence.
    destruct (step_train sP L tgt al0 mo0 lo ocd obp orf C2 Wc Wb FP S2 (MkT vs par mb tr) tids x y t u al mo k par' mb' HR Hc Hu Hw Hxs Hys Htr) as (S1 & E & HR1 & Hc1 & _).
    erewrite mbnd_ok by (unfold attempt; rewrite E; reflexivity). eexists _, _, _. split; [reflexivity|]. right. exists sP, L, tgt, al0, mo0, lo, ocd, obp, orf, C2, Wc, Wb. split; [reflexivity|]. split; [exact FP|]. split; [exact HR1|exact Hc1].
  - destruct (held_split _ _ _ _ Hh) as (P & Q & Hc0 & _). destruct (user_at P Q S _ tids i x Hc0 Hx) as (t & Et & _). destruct (user_at P Q S _ tids j y Hc0 Hy) as (u & Eu & _).
    erewrite mbnd_ok by (apply NetRun4.ten_ok; exact Et). erewrite mbnd_ok by (apply NetRun4.ten_ok; exact Eu).
    destruct (held_ensure M S _ tids Hh) as (sP & L & tgt & al0 & mo0 & lo & ocd & obp & orf & C2 & Wc & Wb & S2 & EE & FP & HR & Hc). rewrite (mbnd_ok _ _ _ _ _ EE).
    destruct (train_bad sP L tgt al0 mo0 lo ocd obp orf C2 Wc Wb FP S2 (MkT vs par mb tr) tids i j x y t u al mo HR Hc Hx Hy Et Eu Hbad) as (S1 & E & HR1 & Hc1).
    rewrite (mbnd_ok _ _ _ _ _ E). eexists _, _, _. split; [reflexivity|]. right. exists sP, L, tgt, al0, mo0, lo, ocd, obp, orf, C2, Wc, Wb. split; [reflexivity|]. split; [exact FP|]. split; [exact HR1|exact Hc1].
  - destruct (ids_at M S vs par mb tr tids Hh is (pairs_lt _ _ _ _ Hi)) as (xids & Fx & Ex). destruct (ids_at M S vs par mb tr tids Hh js (pairs_lt _ _ _ _ Hj)) as (yids & Fy & Ey). rewrite (mbnd_ok _ _ _ _ _ (Ex S)), (mbnd_ok _ _ _ _ _ (Ey S)).
    assert (El : length xids =? length yids = true).
    { apply Nat.eqb_eq. rewrite <- (Forall2_length _ _ _ Fx), <- (Forall2_length _ _ _ Fy), (Forall2_length _ _ _ Hi), (Forall2_length _ _ _ Hj). reflexivity. }
    rewrite El. destruct (held_ensure M S _ tids Hh) as (sP & L & tgt & al0 & mo0 & lo & ocd & obp & orf & C2 & Wc & Wb & S2 & EE & FP & HR & Hc). rewrite (mbnd_ok _ _ _ _ _ EE).
    destruct (steps_train sP L tgt al0 mo0 lo ocd obp orf C2 Wc Wb FP S2 vs par mb tr tids xids yids is js pairs picks epochs batch al mo par' mb' HR Hc Fx Fy Hi Hj Hne Htr) as (S1 & E & HR1 & Hc1).
    erewrite mbnd_ok by (unfold attempt; rewrite E; reflexivity). eexists _, _, _. split; [reflexivity|]. right. exists sP, L, tgt, al0, mo0, lo, ocd, obp, orf, C2, Wc, Wb. split; [reflexivity|]. split; [exact FP|]. split; [exact HR1|exact Hc1].
  - destruct (ids_at M S vs par mb tr tids Hh is (pairs_lt _ _ _ _ Hi)) as (xids & Fx & Ex). destruct (ids_at M S vs par mb tr tids Hh js (pairs_lt _ _ _ _ Hj)) as (yids & Fy & Ey). rewrite (mbnd_ok _ _ _ _ _ (Ex S)), (mbnd_ok _ _ _ _ _ (Ey S)).
    assert (El : length xids =? length yids = true).
    { apply Nat.eqb_eq. rewrite <- (Forall2_length _ _ _ Fx), <- (Forall2_length _ _ _ Fy), (Forall2_length _ _ _ Hi), (Forall2_length _ _ _ Hj). reflexivity. }
    rewrite El. destruct (held_ensure M S _ tids Hh) as (sP & L & tgt & al0 & mo0 & lo & ocd & obp & orf & C2 & Wc & Wb & S2 & EE & FP & HR & Hc). rewrite (mbnd_ok _ _ _ _ _ EE).
    destruct (steps_stop sP L tgt al0 mo0 lo ocd obp orf C2 Wc Wb FP S2 vs par mb tr tids xids yids is js pairs picks epochs batch al mo ks k ks' x y par' mb' HR Hc Fx Fy Hi Hj Hks Htr Hxy Hbad) as (S1 & E & HR1 & Hc1).
    rewrite (mbnd_ok _ _ _ _ _ E). eexists _, _, _. split; [reflexivity|]. right. exists sP, L, tgt, al0, mo0, lo, ocd, obp, orf, C2, Wc, Wb. split; [reflexivity|]. split; [exact FP|]. split; [exact HR1|exact Hc1].
  - destruct (ids_at M S vs par mb tr tids Hh is Hi) as (xids & Fx & Ex). destruct (ids_at M S vs par mb tr tids Hh js Hj) as (yids & Fy & Ey). rewrite (mbnd_ok _ _ _ _ _ (Ex S)), (mbnd_ok _ _ _ _ _ (Ey S)).
    assert (El : length xids =? length yids = false) by (apply Nat.eqb_neq; rewrite <- (Forall2_length _ _ _ Fx), <- (Forall2_length _ _ _ Fy); exact Hne).
    rewrite El. erewrite mbnd_ok by reflexivity. erewrite mbnd_ok by (unfold attempt, Train; rewrite El; reflexivity). eexists _, _, _. split; [reflexivity|exact Hh].
  - destruct (held_strung M S _ tids Hh) as [Hstr _]. assert (Hin : c ∈ cs) by (apply elem_of_list_In; apply in_rev; apply elem_of_list_In; eapply elem_of_list_lookup_2; exact Hk).
    destruct (strung_in S cs c Hstr Hin) as [l Hl]. pose proof (Hlids k c Hk) as Hid.
    erewrite mbnd_ok by (apply NetRun4.ten_ok; exact Hid). erewrite mbnd_ok by (unfold LSetTrainable; apply updL_ok; exact Hl).
    eexists _, _, _. split; [reflexivity|]. eapply (held_retag M S (MkT vs par mb tr) tids _ (fun j => if j =? c_i c then Some b else None)); [exact Hh|reflexivity|cbn [lays]; apply alike_set; exact Hl| |].
    + intros j l1 l2 H1 H2. cbn [lays] in H2. destruct (Nat.eqb_spec j (c_i c)) as [->|Hne].
      * rewrite list_lookup_insert in H2 by (eapply lookup_lt_Some; exact Hl). injection H2 as <-. reflexivity.
      * rewrite list_lookup_insert_ne in H2 by auto. congruence.
    + intros j. unfold tag_one. cbn [t_tr]. destruct (j =? c_i c); reflexivity.
  - destruct (held_strung M S _ tids Hh) as [Hstr _]. destruct (held_ends M S _ tids Hh) as (H1 & H2). pose proof (su_nd _ _ _ _ _ _ _ _ _ _ _ _ _ _ _ SU) as Hnd.
    destruct (model_set b cs top rest cs_eq S (Datatypes.S (length (lays S))) Hnd Hstr) as (S1 & E & Et & _ & Ea & Ht).
    { pose proof (strung_short S cs Hstr Hnd) as Hle. clear - Hle. lia. }
    erewrite mbnd_ok by (unfold SetTrainable, with_fuel; rewrite H1, H2; exact E). eexists _, _, _. split; [reflexivity|]. eapply (held_retag M S (MkT vs par mb tr) tids S1); [exact Hh|exact Et|exact Ea|exact Ht|].
    intros j. unfold tag_all. cbn [t_tr]. destruct (existsb _ _); reflexivity.
Qed.
Lemma do_tacts_ok acts : forall M S st tids st1 os, held_by M S st tids -> thistory ish (c_sh top) cs st acts st1 os ->
  exists M1 S1 tids1, do_tacts rnd lids (M, tids) acts S = (Ok (M1, tids1, os), S1) /\ held_by M1 S1 st1 tids1.
Proof using All.
  induction acts as [|a acts IH]; intros M S st tids st1 os Hh Ht; inversion Ht as [|? ? stm o ? ? os' Hs Ht']; subst; cbn [do_tacts].
  - exists M, S, tids. auto.
  - destruct (do_tact_ok M S st tids a stm o Hh Hs) as (M2 & S2 & t2 & E1 & Hh2). rewrite (mbnd_ok _ _ _ _ _ E1). cbn [fst snd].
    destruct (IH M2 S2 stm t2 st1 os' Hh2 Ht') as (M3 & S3 & t3 & E2 & Hh3). rewrite (mbnd_ok _ _ _ _ _ E2). cbn [fst snd]. exists M3, S3, t3. auto.
Qed.
(** What the layers hold in the end. *)
Lemma held_par M S st tids p : held_by M S st tids -> p ∈ cs -> c_par p = true -> net_par S (mem (ts S)) (c_i p) = t_par st (c_i p).
Proof using All.
  intros Hh Hp Hcp. assert (Hb : seenf FBias) by (apply pf_seen; auto). assert (Hw : seenf FWeights) by (apply pf_seen; auto).
  destruct Hh as [(-> & HL & Hc & Hm & Htg)|(sP & L & tgt & al0 & mo0 & lo & ocd & obp & orf & C2 & Wc & Wb & -> & FP & HR & Hc)].
  - rewrite <- (cm_par _ _ _ _ _ Hc p Hp Hcp), !net_par_fval, !(at_val S p _ _ HL Hp) by assumption. reflexivity.
  - rewrite <- (cm_par _ _ _ _ _ Hc p Hp Hcp), !net_par_fval. destruct (same_later sP L tgt al0 mo0 lo ocd obp orf C2 Wc Wb FP p Hp) as [Hsl _].
    assert (Hv : forall f g, f = FBias /\ g = FMBias \/ f = FWeights /\ g = FNWeights -> fval S (c_i p) f (mem (ts S)) = fval sf (c_i p) f (mem (ts S))).
    { intros f g Hfg. rewrite <- (proj1 (Hsl f ltac:(apply pf_seen; clear - Hfg; intuition))). pose proof Hp as Hp'. rewrite cs_eq in Hp'.
      destruct (ft_par _ _ _ _ _ _ _ _ _ _ _ (fp_fit _ _ _ _ _ _ _ _ _ _ _ _ FP) p Hp' Hcp g) as (sh & _ & (t & n & Hf & Hn) & _); [clear - Hfg; intuition|].
      assert (Ef : twin g = f) by (destruct Hfg as [[-> ->]|[-> ->]]; reflexivity). rewrite Ef in Hf. unfold fval, fnode. assert (Hf' : fid S (c_i p) f = Some t) by (rewrite (fid_alike _ _ _ _ (lv_lays _ _ (rn_live _ _ _ _ HR))); exact Hf).
      rewrite Hf, Hf'. cbn [mbind option_bind]. rewrite (proj1 Hn), (lv_tens _ _ (rn_live _ _ _ _ HR) _ _ (proj1 Hn)). reflexivity. }
    rewrite (Hv FBias FMBias), (Hv FWeights FNWeights) by auto. reflexivity.
Qed.
(** The start. *)
Lemma starts_at (m : list T) : (forall a v, mem (ts sf) !! a = Some v -> m !! a = Some v) -> forall l ep, (forall p, p ∈ l -> p ∈ cs) -> lined U s1 l ep -> FwdSpec.ins ep = [inp] -> starts rnd ish (net_par sf m) l.
Proof using All.
  intros Hmem. induction l as [|p r IH]; intros ep Hin Hln Hine; [destruct Hln|]. pose proof (Hin p ltac:(left)) as Hp.
  pose proof SU as [u1 u2 u3 u4 u5 u6 u7 u8 u9 u10 u11 u12 u13 u14 u15 u16 u17 u18].
  destruct (cline_at s0 cs p u9 Hp) as (L0 & E0 & _). destruct (know U s0 s1 rnd cs C W sf (anew s') u1 u2 u3 u4 u5 u6 u7 eq_refl (proj1 (proj2 Hnow)) (proj2 (proj2 Hnow)) p r ep Hp Hln L0 E0) as (L1 & L & no & to_ & Hkn).
  pose proof (kn_1 _ _ _ _ _ _ _ _ _ _ _ _ Hkn) as E1.
  assert (Hx : forall l psh bs ws, lspec_of (tens (ts s1)) L1 = Some l -> top_par (insh s1) ep = par_shape l psh -> par_shape l psh = Some (bs, ws) -> exists b w, net_par sf m (c_i p) = Some (b, w) /\ drawn rnd bs b /\ drawn rnd ws w).
  { intros l psh bs ws Hl Ht Hps. assert (Hhp : has_par l = true) by (destruct l; try discriminate; reflexivity). destruct (kn_par _ _ _ _ _ _ _ _ _ _ _ _ Hkn l Hl Hhp) as (bs' & ws' & Et & Ob & Ow). rewrite Ht, Hps in Et. injection Et as <- <-.
    assert (Ho : forall f sh, own_field (fun a => length (mem (ts s1)) <= a /\ ~ W a) (drawn rnd sh) (ts sf) L f -> exists v, fval sf (c_i p) f m = Some v /\ drawn rnd sh v).
    { intros f sh (t & n & O1 & O2 & _ & Ow' & _ & v & O3 & O4). exists v. split; [|exact O4]. unfold fval, fnode, fid. rewrite (kn_f _ _ _ _ _ _ _ _ _ _ _ _ Hkn). cbn [mbind option_bind]. rewrite O1. cbn [mbind option_bind]. rewrite O2. cbn [mbind option_bind].
      rewrite <- O3. apply mval_off. intros a Ha. destruct (ops_some _ _ _ Ow' Ha) as (a' & [= <-] & Hlt). destruct (lookup_lt_is_Some_2 _ _ Hlt) as [z Hz]. rewrite Hz. apply Hmem. exact Hz. }
    destruct (Ho FBias bs Ob) as (b & B1 & B2). destruct (Ho FWeights ws Ow) as (w & W1 & W2). exists b, w. split; [|auto]. rewrite net_par_fval, B1. cbn [mbind option_bind]. rewrite W1. reflexivity. }
  pose proof Hln as (L1' & E1' & N1 & N2 & N3 & N4). assert (L1' = L1) as -> by congruence. destruct r as [|q r'].
  - split; [|exact I]. intros l bs ws El Hps. destruct N4 as (t1 & N4 & N5 & N6). rewrite El in N6. destruct N6 as (M1 & M2 & M3 & sh0 & M4 & M5).
    assert (t1 = inp) as ->. { rewrite M3 in Hine. cbn in Hine. congruence. }
    destruct (in_node U s1 u1 rnd _ _ _ _ inp u4 u14) as (n & G1 & G2 & G3 & G4). assert (n = ni) as -> by congruence.
    apply (Hx l ish bs ws M2); [|exact Hps]. rewrite M3. cbn [top_par nshape]. rewrite M4. cbn [mbind option_bind]. assert (Esh : ish = sh0) by congruence. rewrite <- Esh. unfold fit. rewrite <- Hish at 1. rewrite (proj2 (fitsb_fits _) (proj1 G3)). reflexivity.
  - destruct N4 as (l1 & e0 & N4 & N5 & N6 & N7 & N8 & N9 & N10). split.
    + intros l bs ws El Hps. assert (l1 = l) as -> by congruence. apply (Hx l (c_sh q) bs ws N6); [|exact Hps]. rewrite N8. cbn [top_par]. destruct (lined_stands U s1 u1 (q :: r') q r' e0 eq_refl N10) as [_ ->]. reflexivity.
    + apply (IH e0); [intros x Hxr; apply Hin; right; exact Hxr|exact N10|]. rewrite N8 in Hine. exact Hine.
Qed.
Lemma held_start : lays s' = lays sf -> held_by M' s' (MkT [] (net_par sf (mem (ts s'))) (still (net_par sf (mem (ts s')))) every) [].
Proof using All.
  intros Els. left. split; [reflexivity|]. split; [exact Hnow|]. split; [|split; [intros p _ _; reflexivity|intros p Hp Hcp; split; [reflexivity|intros _; exact (at_trains s' p Hnow Els Hp Hcp)]]]. pose proof Hnow as (El & Et & Hlen & HC & Hrf).
  pose proof (at_forward s' Hnow) as F. pose proof (at_chain s' Hnow) as Hch. rewrite cs_eq in Hch. destruct (chain_head _ _ _ Hch) as (l & psh & Hs & _). destruct (ls_io _ _ _ _ Hs Htop) as [_ (t & n & Hf & Hn)].
  assert (Eo : t = out). { unfold fid in Hf. rewrite Els in Hf. pose proof (su_out _ _ _ _ _ _ _ _ _ _ _ _ _ _ _ SU) as Ho. unfold fid in Ho. congruence. }
  subst t. split; cbn [t_vals t_par t_mom].
  - exists ni. split; [apply F|auto].
  - exists n. split; [exact Hn|]. intros m. rewrite <- (at_val s' top FOutput m Hnow top_in_cs) by (unfold seenf, readf; tauto). unfold fval, fnode. rewrite Hf. cbn [mbind option_bind]. rewrite (proj1 Hn). reflexivity.
  - apply le_n.
  - exact HC.
  - exact Hrf.
  - intros p _ _. reflexivity.
  - constructor.
Qed.
End Hist.
End TrnHist.
