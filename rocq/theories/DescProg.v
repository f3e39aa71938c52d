(** * DescProg: programs that train a chain of layers go down *)
From Coq Require Import Reals Lra.
From Verif Require Import Base Num NumReal ModelTools ModelTensor ModelLayer ModelModel Spec NetSpec FwdSpec FwdNet FwdCount FwdChain FwdScript FwdClaims FwdTotal BwdSpec
  TrnSpec TrnScript TrnProg TrnTotal TrnMain GradSpec GradProofs GradMain AdjSpec DescSpec DescLay DescMain.
From Verif Require Import ModelAct ActProofs.
From Coq Require Import Lia.
Open Scope R_scope.
#[local] Existing Instance NumR.
Implicit Types (c : clay R) (cs : list (clay R)).

(** ** Costs *)
Lemma matches_linear c l : (forall m, lact l m = Linear_Activate m) -> (forall m, c_d c m = Linear_Derive m) -> matches half_square c l.
Proof.
  intros Ef Ed t m. rewrite Ef, Ed. unfold Linear_Activate, Linear_Derive. exists (m - t). split; [|lra]. unfold half_square.
  apply (lim_ext (fun y => (y - t) * ((y - t) * / 2))); [intros y; lra|]. assert (L1 : derivable_pt_lim (fun y => y - t) m 1).
  { refine (lim_eq _ _ (1 - 0) _ _ _); [|lra]. exact (derivable_pt_lim_minus (fun y => y) (fun _ => t) m 1 0 (derivable_pt_lim_id m) (derivable_pt_lim_const t m)). }
  assert (L2 : derivable_pt_lim (fun y => (y - t) * / 2) m (/ 2)).
  { apply (lim_ext (fun y => / 2 * (y - t))); [intros y; lra|]. refine (lim_eq _ _ (/ 2 * 1) _ _ _); [|lra]. exact (derivable_pt_lim_scal (fun y => y - t) (/ 2) m 1 L1). }
  refine (lim_eq _ _ _ _ (derivable_pt_lim_mult (fun y => y - t) (fun y => (y - t) * / 2) m 1 (/ 2) L1 L2) _). lra.
Qed.
Lemma matches_sigmoid c l : (forall m, lact l m = Sigmoid_Activate m) -> (forall m, c_d c m = Sigmoid_Derive m) -> matches cross_entropy c l.
Proof.
  intros Ef Ed t m. rewrite Ef, Ed. pose proof (Sigmoid_range m) as [H0 H1]. set (y := Sigmoid_Activate m) in *. exists (- (t * / y + (1 - t) * (/ (1 - y) * (0 - 1)))). split.
  - unfold cross_entropy. assert (L2 : derivable_pt_lim (fun z => ln (1 - z)) y (/ (1 - y) * (0 - 1))).
    { apply (comp_lim ln (fun z => 1 - z)); [exact (derivable_pt_lim_minus (fun _ => 1) (fun z => z) y 0 1 (derivable_pt_lim_const 1 y) (derivable_pt_lim_id y))|]. apply derivable_pt_lim_ln. lra. }
    exact (derivable_pt_lim_opp (fun z => t * ln z + (1 - t) * ln (1 - z)) y _
      (derivable_pt_lim_plus (fun z => t * ln z) (fun z => (1 - t) * ln (1 - z)) y _ _ (derivable_pt_lim_scal ln t y _ (derivable_pt_lim_ln y H0)) (derivable_pt_lim_scal (fun z => ln (1 - z)) (1 - t) y _ L2))).
  - unfold Sigmoid_Derive. fold y. cbv zeta. fold y. field. lra.
Qed.

(** ** Counting *)
Lemma R_counts n : counts_up (T:=R) n.
Proof.
  split; [|exists 0, 1; lra]. assert (Hp : forall k, 0 <= FwdCount.count (T:=R) k /\ ((1 <= k)%nat -> 0 < FwdCount.count (T:=R) k)).
  { induction k as [|k IH]; cbn; [split; [lra|lia]|]. destruct IH as [IH _]. split; [|intros _]; lra. }
  intros k [Hk _]. pose proof (proj2 (Hp k) Hk). cbn. destruct (Req_EM_T _ _); [lra|reflexivity].
Qed.
Lemma R_tallies n : tallies (T:=R) n.
Proof. intros k _. rewrite number_INR. pose proof (INR_pos k). cbn [neqb NumR nzero]. destruct (Req_EM_T _ _); [lra|reflexivity]. Qed.

(** ** Histories keep everything in shape *)
Lemma trains_keep_ok ish osh cs tr al mo pairs : NoDup (map c_i cs) -> chain_ok ish cs -> below ish cs = osh -> (0 < prodN osh)%N -> (forall k p, pairs !! k = Some p -> shaped (vsh (fst p)) (fst p) /\ shaped (vsh (snd p)) (snd p)) ->
  forall ks (par : params (T:=R)) mb par' mb', pars_ok par ish cs -> Forall (mom_ok mb) cs -> s_trains ish osh tr par mb al mo cs pairs ks = Some (par', mb') -> pars_ok par' ish cs /\ Forall (mom_ok mb') cs.
Proof.
  intros Hnd Hc Hb Hpos Hsh. rewrite <- Hb in Hpos. induction ks as [|k ks IH]; intros par mb par' mb' Hp Hm Ht; cbn [s_trains] in Ht; [injection Ht as <- <-; auto|].
  destruct (pairs !! k) as [[v u]|] eqn:Ek; [|discriminate]. cbn [mbind option_bind fst snd] in Ht. destruct (bool_decide_reflect (vsh v = ish)) as [Ev|]; [|discriminate]. destruct (bool_decide_reflect (vsh u = osh)) as [Eu|]; [|discriminate]. cbn [andb] in Ht.
  destruct (Hsh k _ Ek) as [H1 H2]. cbn [fst snd] in H1, H2. rewrite Ev in H1. rewrite Eu, <- Hb in H2.
  destruct (train_total par mb al mo ish cs v u) as (k2 & par2 & mb2 & E2 & Hp2 & Hm2); try assumption; [intros z n _; cbn; discriminate|]. rewrite E2 in Ht. cbn [mbind option_bind fst snd] in Ht. exact (IH _ mb2 _ _ (keep_ok tr _ _ _ _ Hp Hp2) Hm2 Ht).
Qed.
Lemma hist_keeps ish osh cs : NoDup (map c_i cs) -> chain_ok ish cs -> below ish cs = osh -> (0 < prodN osh)%N ->
  forall acts st st' os, thistory ish osh cs st acts st' os -> Forall (fun v : vten R => shaped (vsh v) v) (t_vals st) -> pars_ok (t_par st) ish cs -> Forall (mom_ok (t_mom st)) cs ->
    Forall (fun v : vten R => shaped (vsh v) v) (t_vals st') /\ pars_ok (t_par st') ish cs /\ Forall (mom_ok (t_mom st')) cs.
Proof.
  intros Hnd Hc Hb Hpos acts st st' os Hh. induction Hh as [|st a st1 o acts st2 os Hs _ IH]; intros Hv Hp Hm; [auto|]. destruct Hs as [st par mb tr sh vs Hf Hl|st par mb tr i v Hi|st par mb tr i v u Hi Hsh Ho|st par mb tr i v Hi Hsh|st par mb tr i j v u al mo k par' mb' Hi Hj Hvi Hvj Ht|st par mb tr i j v u al mo Hi Hj Hbad|st par mb tr is js pairs picks epochs batch al mo par' mb' Hi Hj Hne Ht|st par mb tr is js pairs picks epochs batch al mo ks k0 ks' v u par' mb' Hi Hj Hks Ht Hvu Hbad|st par mb tr is js picks epochs batch al mo _ _ _|st par mb tr k b c _|st par mb tr b]; cbn [t_vals t_par t_mom] in *.
  - apply IH; [|exact Hp|exact Hm]. apply Forall_app. split; [exact Hv|]. repeat constructor. exact Hl.
  - apply IH; assumption.
  - apply IH; [|exact Hp|exact Hm]. apply Forall_app. split; [exact Hv|]. rewrite Forall_lookup in Hv. specialize (Hv i v Hi). rewrite Hsh in Hv. destruct (out_total par ish v cs Hc Hp Hv) as (u' & Eu & Hu). assert (u' = u) as -> by congruence. repeat constructor. rewrite (proj1 Hu). apply Hu.
  - apply IH; assumption.
  - rewrite Forall_lookup in Hv. pose proof (Hv i v Hi) as H1. pose proof (Hv j u Hj) as H2. rewrite Hvi in H1. rewrite Hvj, <- Hb in H2. rewrite <- Hb in Hpos.
    destruct (train_total par mb al mo ish cs v u) as (k2 & par2 & mb2 & E2 & Hp2 & Hm2); try assumption; [intros z n _; cbn; discriminate|]. rewrite Ht in E2. injection E2 as <- <- <-. apply IH; [apply Forall_lookup; exact Hv|apply keep_ok; assumption|exact Hm2].
  - apply IH; assumption.
  - assert (Hk : pars_ok par' ish cs /\ Forall (mom_ok mb') cs); [|apply IH; [exact Hv|apply Hk|apply Hk]]. eapply (trains_keep_ok ish osh cs tr al mo pairs Hnd Hc Hb Hpos); [|exact Hp|exact Hm|exact Ht].
    intros k p Hk. destruct (Forall2_lookup_r _ _ _ _ _ Hi Hk) as (i & _ & E1). destruct (Forall2_lookup_r _ _ _ _ _ Hj Hk) as (j & _ & E2). rewrite Forall_lookup in Hv. split; [exact (Hv _ _ E1)|exact (Hv _ _ E2)].
  - assert (Hk : pars_ok par' ish cs /\ Forall (mom_ok mb') cs); [|apply IH; [exact Hv|apply Hk|apply Hk]]. eapply (trains_keep_ok ish osh cs tr al mo pairs Hnd Hc Hb Hpos); [|exact Hp|exact Hm|exact Ht].
    intros k p Hk. destruct (Forall2_lookup_r _ _ _ _ _ Hi Hk) as (i & _ & E1). destruct (Forall2_lookup_r _ _ _ _ _ Hj Hk) as (j & _ & E2). rewrite Forall_lookup in Hv. split; [exact (Hv _ _ E1)|exact (Hv _ _ E2)].
  - apply IH; assumption.
  - apply IH; assumption.
  - apply IH; assumption.
Qed.
Lemma hist_snoc ish osh cs st acts st1 os a st2 o : thistory ish osh cs st acts st1 os -> tstep ish osh cs st1 a st2 o -> thistory ish osh cs st (acts ++ [a]) st2 (os ++ [o]).
Proof. intros Hh Hs. induction Hh as [|st b st' p acts st1 os Hb _ IH]; cbn; [econstructor; [exact Hs|constructor]|]. econstructor; [exact Hb|exact (IH Hs)]. Qed.

(** ** Programs *)
Section Prog.
Variables (rnd : nat -> nat -> R) (s : lst R) (m0 : mk R) (ks : list (lay1 R)) (cs : list (clay R)) (osh : list N).
Hypotheses (His : is_chain (length (lays s)) m0 ks cs osh) (Hrun : chain_runs (in_of m0) cs).

Theorem step_claim : exists par, starts rnd (in_of m0) par cs /\
  forall acts st os, thistory (in_of m0) osh cs (MkT [] par (still par) every) acts st os ->
  forall psi i j x y, t_vals st !! i = Some x -> t_vals st !! j = Some y -> vsh x = in_of m0 -> vsh y = osh -> chain_smooth (t_par st) x cs -> ends psi cs ->
  (forall al mo, exists k par' s' M tids, tprogram rnd m0 ks (acts ++ [TTrain i j al mo]) s = (Ok (seq (length (lays s)) (S (length ks)), (M, tids, os ++ [Some [k]])), s') /\
      (forall p, p ∈ cs -> c_par p = true -> net_par s' (mem (ts s')) (c_i p) = s_keep (t_tr st) (t_par st) par' (c_i p)) /\ goes_down psi cs x y (t_mom st) al mo (t_par st) par') /\
  ((forall p, p ∈ cs -> c_par p = true -> t_tr st (c_i p) = true) -> not_flat psi cs x y (t_par st) -> exists a0, 0 < a0 /\ forall al, 0 < al < a0 -> exists k par' s' M tids e0 e1,
      tprogram rnd m0 ks (acts ++ [TTrain i j al 0]) s = (Ok (seq (length (lays s)) (S (length ks)), (M, tids, os ++ [Some [k]])), s') /\
      (forall p, p ∈ cs -> c_par p = true -> net_par s' (mem (ts s')) (c_i p) = par' (c_i p)) /\ costs psi (t_par st) x y cs e0 /\ costs psi par' x y cs e1 /\ e1 < e0).
Proof using All.
  destruct (train_claim rnd s m0 ks cs osh His (R_counts _) (R_tallies _)) as (par & Hst & Hh). exists par. split; [exact Hst|]. intros acts st os Hhist psi i j x y Hi Hj Hxs Hys Hsm He.
  pose proof His as (_ & Hch & (top & rest & Ecs & _ & Hosh) & Hpos). destruct (chain_of_ok _ _ _ _ Hch) as [Hnd Hok]. specialize (Hok Hrun). pose proof (starts_pars _ _ _ _ Hst) as Hp.
  assert (Hb : below (in_of m0) cs = osh) by (rewrite Ecs; exact Hosh).
  destruct (hist_keeps (in_of m0) osh cs Hnd Hok Hb Hpos _ _ _ _ Hhist) as (Hv & Hp' & Hm'); [constructor|exact Hp|exact (starts_moms par _ _ Hok Hp)|]. rewrite Forall_lookup in Hv. pose proof (Hv i x Hi) as Hx. pose proof (Hv j y Hj) as Hy. rewrite Hxs in Hx. rewrite Hys, <- Hb in Hy.
  pose proof Hpos as Hpos'. rewrite <- Hb in Hpos'.
  assert (Hgo : forall al mo k par' mb', s_train (t_par st) (t_mom st) al mo cs x y = Some (k, par', mb') -> exists s' M tids, tprogram rnd m0 ks (acts ++ [TTrain i j al mo]) s = (Ok (seq (length (lays s)) (S (length ks)), (M, tids, os ++ [Some [k]])), s') /\
      (forall p, p ∈ cs -> c_par p = true -> net_par s' (mem (ts s')) (c_i p) = s_keep (t_tr st) (t_par st) par' (c_i p))).
  { intros al mo k par' mb' Et. destruct st as [vals p0 m1 tr]. cbn [t_vals t_par t_mom t_tr] in *. apply (Hh _ (MkT vals (s_keep tr p0 par') mb' tr)). eapply hist_snoc; [exact Hhist|]. eapply ts_train; eassumption. }
  split.
  - intros al mo. destruct (step_down (t_par st) (in_of m0) x y (t_mom st) psi cs Hnd Hok Hp' Hm' Hpos' Hx Hy Hsm He al mo) as (k & par' & mb' & Et & Hd). destruct (Hgo _ _ _ _ _ Et) as (s' & M & tids & E1 & E2). exists k, par', s', M, tids. auto.
  - intros Htr Hnf. destruct (small_steps (t_par st) (in_of m0) x y (t_mom st) psi cs Hnd Hok Hp' Hm' Hpos' Hx Hy Hsm He Hnf) as (a0 & Ha0 & Hal). exists a0. split; [exact Ha0|]. intros al Ha. destruct (Hal al Ha) as (k & par' & mb' & e0 & e1 & Et & H1 & H2 & H3).
    destruct (Hgo _ _ _ _ _ Et) as (s' & M & tids & E1 & E2). exists k, par', s', M, tids, e0, e1. split; [exact E1|]. split; [|auto]. intros p Hp2 Hc2. rewrite (E2 p Hp2 Hc2). unfold s_keep. rewrite (Htr p Hp2 Hc2). reflexivity.
Qed.
End Prog.
