(** * DescMain: one step of training a chain of layers goes down *)
From Coq Require Import Reals Lra.
From Verif Require Import Base Num NumReal ModelTools ModelTensor ModelLayer ModelModel Spec IndexProofs TensorFacts BuildProofs BuildProofs3 EagerOps NetSpec FwdSpec FwdNet FwdChain FwdScript FwdClaims FwdTotal BwdSpec
  TrnSpec TrnScript TrnProg TrnTotal TrnMain GradSpec GradProofs AdjSpec AdjSum AdjConv AdjDeconv AdjPool DescSpec DescLay DescForm DescChain.
From Verif Require ModelAct ActProofs.
From Coq Require Import Lia.
Open Scope R_scope.
#[local] Existing Instance NumR.
Implicit Types (c : clay R) (cs rest : list (clay R)).

Lemma mom_eq mb c idx : mom mb c idx = bias_mom mb c idx.
Proof. unfold mom, bias_mom, has_mom. destruct (c_l c) as [[]|]; reflexivity. Qed.
Lemma zip_sm (psi : R -> R -> R) sh v w : shaped sh v -> shaped sh w -> total (zip_with psi (vdata v) (vdata w)) = sm (fun o => psi (ent v o) (ent w o)) (indices sh).
Proof.
  intros Hv Hw. rewrite (data_ents sh v Hv), (data_ents sh w Hw). unfold sm. f_equal. induction (indices sh) as [|i l IH]; [reflexivity|]. cbn. f_equal. exact IH.
Qed.
Lemma costs_det psi par x y cs k k' : costs psi par x y cs k -> costs psi par x y cs k' -> k = k'.
Proof. intros (o & E & ->) (o' & E' & ->). congruence. Qed.
Lemma cost_slope_det psi pars x y cs r D D' : cost_slope psi pars x y cs r D -> cost_slope psi pars x y cs r D' -> D = D'.
Proof.
  intros (f & Hf & Lf) (g & Hg & Lg). apply (uniqueness_limite f r); [exact Lf|]. apply (lim_ext g); [|exact Lg]. intros t. exact (costs_det _ _ _ _ _ _ _ (Hg t) (Hf t)).
Qed.
Lemma vset_same sh v idx : shaped sh v -> vset v idx (ent v idx) = v.
Proof.
  intros Hv. apply (vten_eq sh); [apply vset_shaped; exact Hv|exact Hv|]. intros i Hi. rewrite (ent_vset sh v idx _ i Hv Hi). destruct (decide (i = idx)) as [-> |]; reflexivity.
Qed.
Lemma one_i cs c c' : NoDup (map c_i cs) -> c ∈ cs -> c' ∈ cs -> c_i c = c_i c' -> c = c'.
Proof.
  induction cs as [|q r IH]; intros Hn H1 H2 E; [apply elem_of_nil in H1 as []|]. cbn [map] in Hn. apply NoDup_cons in Hn as [Hq Hn]. apply elem_of_cons in H1 as [-> |H1], H2 as [-> |H2].
  - reflexivity. - exfalso. apply Hq. rewrite E. apply elem_of_list_fmap. eauto. - exfalso. apply Hq. rewrite <- E. apply elem_of_list_fmap. eauto. - auto.
Qed.
(** A sum over the layers in which only one counts. *)
Lemma sm_lay (f : clay R -> R) cs c : NoDup (map c_i cs) -> c ∈ cs -> (forall q, q ∈ cs -> c_i q <> c_i c -> f q = 0) -> sm f cs = f c.
Proof.
  induction cs as [|q r IH]; intros Hn Hc Hf; [apply elem_of_nil in Hc as []|]. cbn [map] in Hn. apply NoDup_cons in Hn as [Hq Hn]. rewrite sm_cons. apply elem_of_cons in Hc as [<- |Hc].
  - rewrite sm_none; [lra|]. intros p Hp. apply Hf; [right; exact Hp|]. intros E. apply Hq. rewrite <- E. apply elem_of_list_fmap. eauto.
  - rewrite IH; [|exact Hn|exact Hc|intros p Hp; apply Hf; right; exact Hp]. rewrite Hf; [lra|left|]. intros E. apply Hq. rewrite E. apply elem_of_list_fmap. eauto.
Qed.

Lemma pars_in' par ish cs c : chain_ok ish cs -> pars_ok par ish cs -> c ∈ cs -> c_par c = true -> exists b w, par (c_i c) = Some (b, w) /\ shaped (vsh b) b /\ shaped (vsh w) w.
Proof.
  induction cs as [|q r IH]; intros Hc Hp Hin Hcp; [apply elem_of_nil in Hin as []|]. destruct Hc as (Hl & _ & _ & Hc), Hp as [Hpc Hp]. apply elem_of_cons in Hin as [-> |Hin]; [|exact (IH Hc Hp Hin Hcp)].
  unfold c_par in Hcp. unfold lay_ok in Hl. destruct (c_l q) as [l|] eqn:El; [|discriminate]. destruct Hl as (Hls & _). destruct (par_some l _ _ Hls Hcp) as [ws Hps]. destruct (Hpc l _ _ El Hps) as (b & w & E & Hb & Hw).
  exists b, w. split; [exact E|]. rewrite (proj1 Hb), (proj1 Hw). auto.
Qed.
(** The derivative and the output of the last layer. *)
Lemma top_match psi par ish x y cs o a : NoDup (map c_i cs) -> ends psi cs -> s_out par x cs = Some o -> shaped (below ish cs) o -> s_der (s_show par x 0 cs) cs = Some a ->
  forall i, inr i (below ish cs) -> exists D, derivable_pt_lim (psi (ent y i)) (ent o i) D /\ D * ent a i = ent o i - ent y i.
Proof.
  intros Hnd He Eo Ho Ea i Hi. unfold ends in He. destruct cs as [|c r]; [destruct He|]. destruct He as (l & El & Hhp & Hmt). cbn [s_out] in Eo. destruct (s_out par x r) as [v|] eqn:Ev; [|discriminate]. cbn [mbind option_bind] in Eo. rewrite El in Eo.
  rewrite (plain_map l _ _ Hhp) in Eo. destruct (lay_val (plainly l) (par (c_i c)) v) as [n|] eqn:En; [|discriminate]. injection Eo as Eo. subst o.
  assert (Er : r_n (s_show par x 0 (c :: r)) (c_i c) = Some n).
  { destruct (show_reads' par x (c :: r) 0%nat Hnd) as (_ & _ & _ & R4 & _). destruct (R4 l El Hhp) as [-> _]. rewrite Ev. exact En. }
  revert Ea. generalize dependent (s_show par x 0 (c :: r)). intros Rd Er Ea. cbn [s_der] in Ea. rewrite El in Ea.
  assert (Ea' : Some (v_map (c_d c) n) = Some a) by (rewrite <- Ea; destruct l; try discriminate Hhp; rewrite Er; reflexivity). injection Ea' as <-. cbn [below] in Hi, Ho.
  assert (Hn : shaped (c_sh c) n) by (destruct Ho as [H1 H2]; split; [exact H1|cbn in H2; rewrite map_length in H2; exact H2]).
  rewrite (ent_map (lact l) _ n i Hn Hi), (ent_map (c_d c) _ n i Hn Hi). apply Hmt.
Qed.

Section Main.
Variables (par : params (T:=R)) (ish : list N) (x y : vten R) (mb : nat -> option (vten R)) (psi : R -> R -> R) (cs : list (clay R)).
Hypotheses (Hnd : NoDup (map c_i cs)) (Hc : chain_ok ish cs) (Hp : pars_ok par ish cs) (Hm : Forall (mom_ok mb) cs) (Hpos : (0 < prodN (below ish cs))%N)
  (Hx : shaped ish x) (Hy : shaped (below ish cs) y) (Hs : chain_smooth par x cs) (He : ends psi cs).

Lemma pars_in c : c ∈ cs -> c_par c = true -> exists b w, par (c_i c) = Some (b, w) /\ shaped (vsh b) b /\ shaped (vsh w) w.
Proof using Hc Hp. exact (pars_in' par ish cs c Hc Hp). Qed.

(** Everything about a step in one place. *)
Lemma step_main : exists Gb Gw, (forall al mo, exists k par' mb', s_train par mb al mo cs x y = Some (k, par', mb') /\ stepped par mb al mo (speed 0 cs) Gb Gw cs par') /\
  forall P t0 be om, family par P t0 be om cs -> exists f, (forall t, costs psi (P t) x y cs (f t)) /\ derivable_pt_lim f t0 (- pairs par Gb Gw be om cs).
Proof using All.
  destruct (out_total par ish x cs Hc Hp Hx) as (o & Eo & Ho). set (d := V (vsh y) (zip_with nsub (vdata y) (vdata o))). assert (Hd : shaped (below ish cs) d).
  { split; [apply Hy|]. cbn. rewrite zip_with_length, (proj2 Hy), (proj2 Ho). apply Nat.min_id. }
  assert (Ed : forall i, inr i (below ish cs) -> ent d i = ent y i - ent o i).
  { intros i Hi. assert (E : d = V (below ish cs) (map (fun i => ent y i - ent o i) (indices (below ish cs)))).
    { unfold d. rewrite (proj1 Hy). f_equal. rewrite (data_ents _ y Hy), (data_ents _ o Ho). clear. induction (indices (below ish cs)) as [|i l IH]; [reflexivity|]. cbn. f_equal. exact IH. }
    rewrite E. apply (ent_list (below ish cs) (fun i => ent y i - ent o i) i Hi). }
  assert (Hne : cs <> []) by (intros E; rewrite E in He; destruct He).
  destruct (grads par ish x mb (s_show par x 0 cs) Hx cs 0%nat Hne Hnd Hc Hp Hm (show_reads' par x cs 0%nat Hnd) Hs) as (a & Ea & Ha & Hg). destruct (Hg d Hd) as (Gb & Gw & Hst & Hfo). exists Gb, Gw. split.
  - intros al mo. destruct (Hst al mo) as (us & Eus & Hus). unfold s_train, s_err. rewrite Eo. cbn [mbind option_bind]. fold d. rewrite Eus. cbn [mbind option_bind].
    destruct (fold1_some nadd absv (vdata d)) as [k Ek]; [intros E; destruct Hd as [_ Hd]; rewrite E in Hd; cbn in Hd; lia|]. rewrite Ek. eexists _, _, _. split; [reflexivity|exact Hus].
  - intros P t0 be om HF. destruct (Hfo P t0 be om HF) as (Y & nu & EY & HY & LY & Hsum). exists (fun t => sm (fun i => psi (ent y i) (ent (Y t) i)) (indices (below ish cs))). split.
    { intros t. exists (Y t). split; [apply EY|]. symmetry. apply zip_sm; [exact Hy|apply HY]. }
    assert (EY0 : Y t0 = o) by (pose proof (family_out par P t0 be om x cs HF) as E; rewrite (EY t0), Eo in E; congruence).
    (* the derivative and the output of the last layer *)
    assert (Htop : forall i, inr i (below ish cs) -> exists D, derivable_pt_lim (psi (ent y i)) (ent o i) D /\ D * ent a i = ent o i - ent y i).
    { exact (top_match psi par ish x y cs o a Hnd He Eo Ho Ea). }
    assert (HD : exists Df : list N -> R, forall i, i ∈ indices (below ish cs) -> derivable_pt_lim (psi (ent y i)) (ent o i) (Df i) /\ Df i * ent a i = ent o i - ent y i).
    { assert (Hall : forall i, i ∈ indices (below ish cs) -> exists D, derivable_pt_lim (psi (ent y i)) (ent o i) D /\ D * ent a i = ent o i - ent y i) by (intros i Hi; apply Htop, elem_of_indices; exact Hi).
      revert Hall. generalize (indices (below ish cs)) as L. clear. intros L Hall. induction L as [|i L IH]; [exists (fun _ => 0); intros i Hi; apply elem_of_nil in Hi as []|].
      destruct IH as [Df HDf]; [intros j Hj; apply Hall; right; exact Hj|]. destruct (Hall i ltac:(left)) as [D HDi]. exists (fun j => if decide (j = i) then D else Df j). intros j Hj. destruct (decide (j = i)) as [-> |Hji]; [exact HDi|]. apply HDf. apply elem_of_cons in Hj as [? |Hj]; [congruence|exact Hj]. }
    destruct HD as [Df HDf]. refine (ActProofs.lim_eq _ _ (sm (fun i => Df i * (ent a i * nu i)) (indices (below ish cs))) _ _ _).
    + apply (lims_sm (fun i t => psi (ent y i) (ent (Y t) i))). intros i Hi. apply (comp_lim (psi (ent y i)) (fun t => ent (Y t) i)); [apply LY, elem_of_indices; exact Hi|]. rewrite EY0. apply HDf. exact Hi.
    + rewrite <- Hsum. replace (- sm (fun i => ent d i * nu i) (indices (below ish cs))) with ((-1) * sm (fun i => ent d i * nu i) (indices (below ish cs))) by lra. rewrite <- sm_scale. apply sm_ext. intros i Hi.
      rewrite (Ed i) by (apply elem_of_indices; exact Hi). destruct (HDf i Hi) as [_ E]. rewrite <- Rmult_assoc, E. lra.
Qed.

(** One cell. *)
Definition unit_at (i : nat) (idx : list N) : nat -> list N -> R := fun j q => if decide (j = i /\ q = idx) then 1 else 0.
Definition nothing : nat -> list N -> R := fun _ _ => 0.
Lemma unit_lim sh (v : vten R) idx i (j : nat) q : shaped sh v -> inr q sh -> j = i -> derivable_pt_lim (fun r => ent (vset v idx r) q) (ent v idx) (unit_at i idx j q).
Proof using Type.
  intros Hv Hq ->. unfold unit_at. destruct (decide (q = idx)) as [-> |Hn].
  - rewrite decide_True by auto. apply (lim_ext (fun r => r)); [|apply derivable_pt_lim_id]. intros r. rewrite (ent_vset sh v idx r idx Hv Hq), decide_True by reflexivity. reflexivity.
  - rewrite decide_False by (intros [_ ?]; contradiction). apply (lim_ext (fun _ => ent v q)); [|apply (derivable_pt_lim_const (ent v q))]. intros r. rewrite (ent_vset sh v idx r q Hv Hq), decide_False by exact Hn. reflexivity.
Qed.
Lemma family_b c b w idx : c ∈ cs -> c_par c = true -> par (c_i c) = Some (b, w) -> shaped (vsh b) b -> shaped (vsh w) w -> family par (set_b par (c_i c) idx) (ent b idx) (unit_at (c_i c) idx) nothing cs.
Proof using Hc Hp.
  intros Hin Hcp E Hb Hw q Hq Hqp. destruct (pars_in q Hq Hqp) as (b1 & w1 & E1 & Hb1 & Hw1). unfold set_b. destruct (c_i q =? c_i c)%nat eqn:Eq.
  - apply Nat.eqb_eq in Eq. rewrite Eq, E in E1. injection E1 as <- <-. exists b, w, (fun r => vset b idx r), (fun _ => w). rewrite Eq, E. cbn [mbind option_bind fst snd]. split; [reflexivity|]. split; [reflexivity|]. split; [intros r; split; [apply vset_shaped; exact Hb|exact Hw]|].
    split; [apply (vset_same (vsh b)); exact Hb|]. split; [reflexivity|]. split; intros j Hj; [apply (unit_lim (vsh b)); auto|apply (derivable_pt_lim_const (ent w j))].
  - apply Nat.eqb_neq in Eq. exists b1, w1, (fun _ => b1), (fun _ => w1). rewrite E1. split; [reflexivity|]. split; [reflexivity|]. split; [auto|]. split; [reflexivity|]. split; [reflexivity|]. unfold unit_at, nothing. split; intros j Hj; [rewrite decide_False by (intros [? _]; contradiction)|]; [apply (derivable_pt_lim_const (ent b1 j))|apply (derivable_pt_lim_const (ent w1 j))].
Qed.
Lemma family_w c b w idx : c ∈ cs -> c_par c = true -> par (c_i c) = Some (b, w) -> shaped (vsh b) b -> shaped (vsh w) w -> family par (set_w par (c_i c) idx) (ent w idx) nothing (unit_at (c_i c) idx) cs.
Proof using Hc Hp.
  intros Hin Hcp E Hb Hw q Hq Hqp. destruct (pars_in q Hq Hqp) as (b1 & w1 & E1 & Hb1 & Hw1). unfold set_w. destruct (c_i q =? c_i c)%nat eqn:Eq.
  - apply Nat.eqb_eq in Eq. rewrite Eq, E in E1. injection E1 as <- <-. exists b, w, (fun _ => b), (fun r => vset w idx r). rewrite Eq, E. cbn [mbind option_bind fst snd]. split; [reflexivity|]. split; [reflexivity|]. split; [intros r; split; [exact Hb|apply vset_shaped; exact Hw]|].
    split; [reflexivity|]. split; [apply (vset_same (vsh w)); exact Hw|]. split; intros j Hj; [apply (derivable_pt_lim_const (ent b j))|apply (unit_lim (vsh w)); auto].
  - apply Nat.eqb_neq in Eq. exists b1, w1, (fun _ => b1), (fun _ => w1). rewrite E1. split; [reflexivity|]. split; [reflexivity|]. split; [auto|]. split; [reflexivity|]. split; [reflexivity|]. unfold unit_at, nothing. split; intros j Hj; [|rewrite decide_False by (intros [? _]; contradiction)]; [apply (derivable_pt_lim_const (ent b1 j))|apply (derivable_pt_lim_const (ent w1 j))].
Qed.
Lemma unit_sum (G : nat -> list N -> R) i idx sh : inr idx sh -> sm (fun q => G i q * unit_at i idx i q) (indices sh) = G i idx.
Proof using Type.
  intros Hi. rewrite (sm_one _ idx).
  - unfold unit_at. rewrite decide_True by auto. lra.
  - apply indices_NoDup.
  - apply elem_of_indices. exact Hi.
  - intros q _ Hq. unfold unit_at. rewrite decide_False by (intros [_ ?]; contradiction). lra.
Qed.
Lemma zero_sum (G be : nat -> list N -> R) i sh : (forall q, be i q = 0) -> sm (fun q => G i q * be i q) (indices sh) = 0.
Proof using Type. intros E. apply sm_none. intros q _. rewrite E. lra. Qed.
Lemma pairs_b Gb Gw c b w idx : c ∈ cs -> c_par c = true -> par (c_i c) = Some (b, w) -> inr idx (vsh b) -> pairs par Gb Gw (unit_at (c_i c) idx) nothing cs = Gb (c_i c) idx.
Proof using Hnd.
  intros Hin Hcp E Hi. unfold pairs. rewrite (sm_lay _ cs c Hnd Hin).
  - rewrite Hcp, E, (unit_sum Gb (c_i c) idx (vsh b) Hi), zero_sum by reflexivity. lra.
  - intros q Hq Hne. destruct (c_par q); [|reflexivity]. destruct (par (c_i q)) as [[b1 w1]|]; [|reflexivity]. rewrite !zero_sum; [lra|reflexivity|]. intros j. unfold unit_at. rewrite decide_False by (intros [? _]; contradiction). reflexivity.
Qed.
Lemma pairs_w Gb Gw c b w idx : c ∈ cs -> c_par c = true -> par (c_i c) = Some (b, w) -> inr idx (vsh w) -> pairs par Gb Gw nothing (unit_at (c_i c) idx) cs = Gw (c_i c) idx.
Proof using Hnd.
  intros Hin Hcp E Hi. unfold pairs. rewrite (sm_lay _ cs c Hnd Hin).
  - rewrite Hcp, E, (unit_sum Gw (c_i c) idx (vsh w) Hi), zero_sum by reflexivity. lra.
  - intros q Hq Hne. destruct (c_par q); [|reflexivity]. destruct (par (c_i q)) as [[b1 w1]|]; [|reflexivity]. rewrite !zero_sum; [lra| |reflexivity]. intros j. unfold unit_at. rewrite decide_False by (intros [? _]; contradiction). reflexivity.
Qed.

Theorem step_down al mo : exists k par' mb', s_train par mb al mo cs x y = Some (k, par', mb') /\ goes_down psi cs x y mb al mo par par'.
Proof using All.
  destruct step_main as (Gb & Gw & Hst & Hf). destruct (Hst al mo) as (k & par' & mb' & Et & Hs'). exists k, par', mb'. split; [exact Et|]. intros c b w Hin Hcp E. destruct (Hs' c b w Hin Hcp E) as (b' & w' & E' & Hb' & Hw' & Eb & Ew).
  destruct (pars_in c Hin Hcp) as (b1 & w1 & E1 & Hb & Hw). rewrite E in E1. injection E1 as <- <-. exists b', w'. split; [exact E'|]. split; [apply Hb'|]. split; [apply Hw'|]. split; intros idx Hi; apply elem_of_indices in Hi.
  - destruct (Hf _ _ _ _ (family_b c b w idx Hin Hcp E Hb Hw)) as (f & Hcost & Lf). exists (- Gb (c_i c) idx). split.
    + exists f. split; [exact Hcost|]. rewrite <- (pairs_b Gb Gw c b w idx Hin Hcp E Hi). exact Lf.
    + rewrite (Eb idx Hi), mom_eq. lra.
  - destruct (Hf _ _ _ _ (family_w c b w idx Hin Hcp E Hb Hw)) as (f & Hcost & Lf). exists (- Gw (c_i c) idx). split.
    + exists f. split; [exact Hcost|]. rewrite <- (pairs_w Gb Gw c b w idx Hin Hcp E Hi). exact Lf.
    + rewrite (Ew idx Hi). lra.
Qed.

(** Small steps without momentum make the cost smaller. *)
Definition stepped_to (al : R) : params (T:=R) := match s_train par mb al 0 cs x y with Some (_, p, _) => p | None => par end.
Lemma sm_nonneg {A} (f : A -> R) (l : list A) : (forall z, z ∈ l -> 0 <= f z) -> 0 <= sm f l.
Proof using Type. induction l as [|z l IH]; intros Hz; [rewrite sm_nil; lra|]. rewrite sm_cons. pose proof (Hz z ltac:(left)). pose proof (IH ltac:(intros u Hu; apply Hz; right; exact Hu)). lra. Qed.
Lemma sm_pos {A} (f : A -> R) (l : list A) a : (forall z, z ∈ l -> 0 <= f z) -> a ∈ l -> 0 < f a -> 0 < sm f l.
Proof using Type.
  induction l as [|z l IH]; intros Hz Ha Hf; [apply elem_of_nil in Ha as []|]. rewrite sm_cons. pose proof (Hz z ltac:(left)). assert (Hl : forall u, u ∈ l -> 0 <= f u) by (intros u Hu; apply Hz; right; exact Hu). apply elem_of_cons in Ha as [<- |Ha].
  - pose proof (sm_nonneg f l Hl). lra.
  - pose proof (IH Hl Ha Hf). lra.
Qed.
Lemma falls (f : R -> R) D : derivable_pt_lim f 0 D -> D < 0 -> exists a0, 0 < a0 /\ forall a, 0 < a < a0 -> f a < f 0.
Proof using Type.
  intros L HD. destruct (L (- D / 2) ltac:(lra)) as [[dl Hdl] Hl]. cbn in Hl. exists dl. split; [exact Hdl|]. intros a [Ha1 Ha2].
  specialize (Hl a ltac:(lra) ltac:(rewrite Rabs_right; lra)). rewrite Rplus_0_l in Hl. apply Rabs_def2 in Hl as [Hl _].
  assert (E : (f a - f 0) / a < 0) by lra. assert (E2 : f a - f 0 = (f a - f 0) / a * a) by (field; lra). pose proof (Rmult_lt_compat_r a _ 0 Ha1 E). lra.
Qed.
Theorem small_steps : not_flat psi cs x y par -> exists a0, 0 < a0 /\ forall al, 0 < al < a0 ->
  exists k par' mb' e0 e1, s_train par mb al 0 cs x y = Some (k, par', mb') /\ costs psi par x y cs e0 /\ costs psi par' x y cs e1 /\ e1 < e0.
Proof using All.
  intros (c & b & w & idx & D & Hin & Hcp & E & HD & Hslope). destruct step_main as (Gb & Gw & Hst & Hf).
  set (be := fun i q => speed 0 cs i * Gb i q). set (om := fun i q => speed 0 cs i * Gw i q).
  assert (HF : family par stepped_to 0 be om cs).
  { intros q Hq Hqp. destruct (pars_in q Hq Hqp) as (b1 & w1 & E1 & Hb1 & Hw1).
    set (B := fun al => match stepped_to al (c_i q) with Some (u, _) => u | None => b1 end). set (W := fun al => match stepped_to al (c_i q) with Some (_, u) => u | None => w1 end).
    assert (HBW : forall al, stepped_to al (c_i q) = Some (B al, W al) /\ shaped (vsh b1) (B al) /\ shaped (vsh w1) (W al) /\
      (forall i, inr i (vsh b1) -> ent (B al) i = ent b1 i + al * be (c_i q) i) /\ (forall i, inr i (vsh w1) -> ent (W al) i = ent w1 i + al * om (c_i q) i)).
    { intros al. unfold B, W, stepped_to. destruct (Hst al 0) as (k & par' & mb' & -> & Hsd). destruct (Hsd q b1 w1 Hq Hqp E1) as (b' & w' & -> & Hb' & Hw' & Eb & Ew). split; [reflexivity|]. split; [exact Hb'|]. split; [exact Hw'|]. split; intros i Hi.
      - rewrite (Eb i Hi). unfold be. lra.
      - rewrite (Ew i Hi). unfold om. lra. }
    assert (Haff : forall g0 g1, derivable_pt_lim (fun al => g0 + al * g1) 0 g1).
    { intros g0 g1. refine (ActProofs.lim_eq _ _ (0 + (1 * g1)) _ _ _); [|lra]. refine (derivable_pt_lim_plus (fun _ => g0) (fun al => al * g1) 0 _ _ (derivable_pt_lim_const g0 0) _). apply (lim_ext (fun al => g1 * al)); [intros; lra|]. refine (ActProofs.lim_eq _ _ (g1 * 1) _ _ _); [|lra]. exact (derivable_pt_lim_scal _ g1 0 1 (derivable_pt_lim_id 0)). }
    exists b1, w1, B, W. split; [exact E1|]. split; [intros al; apply HBW|]. split; [intros al; split; apply HBW|]. destruct (HBW 0) as (_ & H1 & H2 & H3 & H4). split; [apply (vten_eq (vsh b1)); [exact H1|exact Hb1|intros i Hi; rewrite (H3 i Hi); lra]|].
    split; [apply (vten_eq (vsh w1)); [exact H2|exact Hw1|intros i Hi; rewrite (H4 i Hi); lra]|]. split; intros i Hi.
    - apply (lim_ext (fun al => ent b1 i + al * be (c_i q) i)); [|apply Haff]. intros al. symmetry. apply HBW. exact Hi.
    - apply (lim_ext (fun al => ent w1 i + al * om (c_i q) i)); [|apply Haff]. intros al. symmetry. apply HBW. exact Hi. }
  destruct (Hf _ _ _ _ HF) as (f & Hcost & Lf).
  assert (Hneg : - pairs par Gb Gw be om cs < 0).
  { destruct (pars_in c Hin Hcp) as (b1 & w1 & E1 & Hb & Hw). rewrite E in E1. injection E1 as <- <-.
    assert (Hsq : forall i G, 0 <= G * (speed 0 cs i * G)) by (intros i G; pose proof (speed_pos cs 0%nat i); replace (G * (speed 0 cs i * G)) with (speed 0 cs i * (G * G)) by lra; apply Rmult_le_pos; [lra|]; pose proof (Rle_0_sqr G) as Hq; unfold Rsqr in Hq; exact Hq).
    assert (Hsq' : forall i G, G <> 0 -> 0 < G * (speed 0 cs i * G)) by (intros i G HG; pose proof (speed_pos cs 0%nat i); replace (G * (speed 0 cs i * G)) with (speed 0 cs i * (G * G)) by lra; apply Rmult_lt_0_compat; [lra|]; pose proof (Rsqr_pos_lt G HG) as Hq; unfold Rsqr in Hq; exact Hq).
    assert (Hcell : 0 < sm (fun i => Gb (c_i c) i * be (c_i c) i) (indices (vsh b)) + sm (fun i => Gw (c_i c) i * om (c_i c) i) (indices (vsh w))).
    { pose proof (sm_nonneg (fun i => Gb (c_i c) i * be (c_i c) i) (indices (vsh b)) ltac:(intros; apply Hsq)) as N1. pose proof (sm_nonneg (fun i => Gw (c_i c) i * om (c_i c) i) (indices (vsh w)) ltac:(intros; apply Hsq)) as N2.
      destruct Hslope as [[Hi Hsl]|[Hi Hsl]].
      - pose proof Hi as Hi'. apply elem_of_indices in Hi'. destruct (Hf _ _ _ _ (family_b c b w idx Hin Hcp E Hb Hw)) as (g & Hg & Lg). rewrite (pairs_b Gb Gw c b w idx Hin Hcp E Hi') in Lg. pose proof (cost_slope_det _ _ _ _ _ _ _ _ Hsl (ex_intro _ g (conj Hg Lg))) as ED.
        pose proof (sm_pos (fun i => Gb (c_i c) i * be (c_i c) i) (indices (vsh b)) idx ltac:(intros; apply Hsq) Hi ltac:(apply Hsq'; lra)). lra.
      - pose proof Hi as Hi'. apply elem_of_indices in Hi'. destruct (Hf _ _ _ _ (family_w c b w idx Hin Hcp E Hb Hw)) as (g & Hg & Lg). rewrite (pairs_w Gb Gw c b w idx Hin Hcp E Hi') in Lg. pose proof (cost_slope_det _ _ _ _ _ _ _ _ Hsl (ex_intro _ g (conj Hg Lg))) as ED.
        pose proof (sm_pos (fun i => Gw (c_i c) i * om (c_i c) i) (indices (vsh w)) idx ltac:(intros; apply Hsq) Hi ltac:(apply Hsq'; lra)). lra. }
    enough (0 < pairs par Gb Gw be om cs) by lra. unfold pairs. refine (sm_pos _ cs c _ Hin _); [|rewrite Hcp, E; exact Hcell]. intros q _. destruct (c_par q); [|lra]. destruct (par (c_i q)) as [[b1 w1]|]; [|lra].
    pose proof (sm_nonneg (fun i => Gb (c_i q) i * be (c_i q) i) (indices (vsh b1)) ltac:(intros; apply Hsq)). pose proof (sm_nonneg (fun i => Gw (c_i q) i * om (c_i q) i) (indices (vsh w1)) ltac:(intros; apply Hsq)). lra. }
  destruct (falls f _ Lf Hneg) as (a0 & Ha0 & Hfall). exists a0. split; [exact Ha0|]. intros al Hal. destruct (Hst al 0) as (k & par' & mb' & Et & _). exists k, par', mb', (f 0), (f al). split; [exact Et|].
  pose proof (family_out par stepped_to 0 be om x cs HF) as E0. destruct (Hcost 0) as (o0 & Eo0 & Ef0). split; [exists o0; split; [rewrite <- E0; exact Eo0|exact Ef0]|]. split; [|apply Hfall; exact Hal].
  pose proof (Hcost al) as Hal'. unfold stepped_to in Hal'. rewrite Et in Hal'. exact Hal'.
Qed.
End Main.
