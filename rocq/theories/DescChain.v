(** * DescChain: errors handed down a chain of layers are derivatives *)
From Coq Require Import Reals Lra.
From Verif Require Import Base Num NumReal ModelTools Spec IndexProofs TensorFacts BuildProofs BuildProofs3 EagerOps NetSpec FwdSpec FwdTotal FwdScript BwdSpec
  TrnSpec TrnScript TrnProg TrnTotal GradSpec GradProofs AdjSpec AdjSum AdjConv AdjDeconv AdjPool DescSpec DescLay DescForm.
From Coq Require Import Lia.
Open Scope R_scope.
#[local] Existing Instance NumR.
Implicit Types (c q : clay R) (cs rest : list (clay R)).

(** ** What a step reads *)
Fixpoint reads (par : params (T:=R)) (x : vten R) (above : nat) cs (Rd : reading R) : Prop :=
  match cs with
  | [] => True
  | c :: rest =>
      r_x Rd (c_i c) = s_out par x rest /\ r_y Rd (c_i c) = s_out par x cs /\
      (c_l c = None -> r_n Rd (c_i c) = s_out par x rest) /\
      (forall l, c_l c = Some l -> has_par l = true -> r_n Rd (c_i c) = (v ← s_out par x rest; lay_val (plainly l) (par (c_i c)) v) /\
         forall b w, par (c_i c) = Some (b, w) -> r_b Rd (c_i c) = Some b /\ r_w Rd (c_i c) = Some w) /\
      r_ref Rd (c_i c) = Some (number (above + leads cs)) /\
      reads par x (if flattens c then S above else 0%nat) rest Rd
  end.
Lemma reads_ext' par x cs : forall above (Rd Rd' : reading R), (forall q, q ∈ cs -> r_x Rd' (c_i q) = r_x Rd (c_i q) /\ r_n Rd' (c_i q) = r_n Rd (c_i q) /\ r_y Rd' (c_i q) = r_y Rd (c_i q) /\ r_b Rd' (c_i q) = r_b Rd (c_i q) /\
    r_w Rd' (c_i q) = r_w Rd (c_i q) /\ r_ref Rd' (c_i q) = r_ref Rd (c_i q)) -> reads par x above cs Rd -> reads par x above cs Rd'.
Proof.
  induction cs as [|c rest IH]; intros above Rd Rd' E Hr; [exact I|]. destruct (E c ltac:(left)) as (E1 & E2 & E3 & E4 & E5 & E6). cbn [reads] in *. rewrite E1, E2, E3, E4, E5, E6.
  destruct Hr as (H1 & H2 & H3 & H4 & H5 & H6). repeat (split; [assumption|]). eapply IH; [|exact H6]. intros q Hq. apply E. right. exact Hq.
Qed.
Lemma show_reads' par x cs : forall above, NoDup (map c_i cs) -> reads par x above cs (s_show par x above cs).
Proof.
  induction cs as [|c rest IH]; intros above Hnd; [exact I|]. cbn [map] in Hnd. apply NoDup_cons in Hnd as [Hni Hnd]. cbn [reads]. assert (Eq : (c_i c =? c_i c)%nat = true) by apply Nat.eqb_refl.
  cbn [s_show r_x r_n r_y r_b r_w r_ref]. unfold or_else. rewrite Eq. split; [reflexivity|]. split; [reflexivity|]. split; [intros ->; reflexivity|]. split.
  { intros l El Hp. rewrite El, Hp. assert (Hc : c_par c = true) by (unfold c_par; rewrite El; exact Hp). rewrite Hc. split; [reflexivity|]. intros b w ->. split; reflexivity. }
  split; [reflexivity|]. eapply reads_ext'; [|apply (IH _ Hnd)]. intros q Hq. cbn [s_show r_x r_n r_y r_b r_w r_ref]. unfold or_else.
  assert ((c_i q =? c_i c)%nat = false) as ->; [|repeat split; reflexivity]. apply Nat.eqb_neq. intros E. apply Hni. rewrite <- E. apply elem_of_list_fmap. eauto.
Qed.

(** ** Families of parameters *)
Definition family (par : params (T:=R)) (P : R -> params (T:=R)) (t0 : R) (be om : nat -> list N -> R) cs : Prop :=
  forall c, c ∈ cs -> c_par c = true -> exists b w (B W : R -> vten R), par (c_i c) = Some (b, w) /\ (forall t, P t (c_i c) = Some (B t, W t)) /\
    (forall t, shaped (vsh b) (B t) /\ shaped (vsh w) (W t)) /\ B t0 = b /\ W t0 = w /\
    (forall idx, inr idx (vsh b) -> derivable_pt_lim (fun t => ent (B t) idx) t0 (be (c_i c) idx)) /\
    (forall idx, inr idx (vsh w) -> derivable_pt_lim (fun t => ent (W t) idx) t0 (om (c_i c) idx)).
Lemma family_rest par P t0 be om c rest : family par P t0 be om (c :: rest) -> family par P t0 be om rest.
Proof. intros HF q Hq. apply HF. right. exact Hq. Qed.
Lemma out_ext (par par' : params (T:=R)) x cs : (forall c, c ∈ cs -> c_par c = true -> par' (c_i c) = par (c_i c)) -> s_out par' x cs = s_out par x cs.
Proof.
  induction cs as [|c rest IH]; intros E; [reflexivity|]. cbn [s_out]. rewrite IH by (intros q Hq; apply E; right; exact Hq). destruct (s_out par x rest) as [v|]; [|reflexivity]. cbn [mbind option_bind].
  specialize (E c ltac:(left)). unfold c_par in E. destruct (c_l c) as [l|]; [|reflexivity]. destruct l; try reflexivity; rewrite (E eq_refl); reflexivity.
Qed.
Lemma family_out par P t0 be om x cs : family par P t0 be om cs -> s_out (P t0) x cs = s_out par x cs.
Proof. intros HF. apply out_ext. intros c Hc Hp. destruct (HF c Hc Hp) as (b & w & B & W & -> & HP & _ & <- & <- & _). apply HP. Qed.

(** Derivatives in all cells of all parameters, combined with directions. *)
Definition pairs (par : params (T:=R)) (Gb Gw be om : nat -> list N -> R) cs : R :=
  sm (fun c => if c_par c then match par (c_i c) with
                               | Some (b, w) => sm (fun i => Gb (c_i c) i * be (c_i c) i) (indices (vsh b)) + sm (fun i => Gw (c_i c) i * om (c_i c) i) (indices (vsh w))
                               | None => 0 end else 0) cs.
Lemma pairs_ext par Gb Gw Gb' Gw' be om cs : (forall c i, c ∈ cs -> Gb (c_i c) i = Gb' (c_i c) i /\ Gw (c_i c) i = Gw' (c_i c) i) -> pairs par Gb Gw be om cs = pairs par Gb' Gw' be om cs.
Proof.
  intros E. unfold pairs. apply sm_ext. intros c Hc. destruct (c_par c); [|reflexivity]. destruct (par (c_i c)) as [[b w]|]; [|reflexivity].
  f_equal; apply sm_ext; intros i _; destruct (E c i Hc) as [E1 E2]; [rewrite E1|rewrite E2]; reflexivity.
Qed.
Lemma pairs_scale par k Gb Gw be om cs : pairs par (fun j i => k * Gb j i) (fun j i => k * Gw j i) be om cs = k * pairs par Gb Gw be om cs.
Proof.
  unfold pairs. rewrite <- sm_scale. apply sm_ext. intros c Hc. destruct (c_par c); [|lra]. destruct (par (c_i c)) as [[b w]|]; [|lra]. rewrite Rmult_plus_distr_l, <- !sm_scale.
  f_equal; apply sm_ext; intros i _; lra.
Qed.
(** The new parameters [np]. *)
Definition stepped (par : params (T:=R)) (mb : nat -> option (vten R)) (al mo : R) (spd : nat -> R) (Gb Gw : nat -> list N -> R) cs (np : params (T:=R)) : Prop :=
  forall c b w, c ∈ cs -> c_par c = true -> par (c_i c) = Some (b, w) -> exists b' w', np (c_i c) = Some (b', w') /\ shaped (vsh b) b' /\ shaped (vsh w) w' /\
    (forall idx, inr idx (vsh b) -> ent b' idx = ent b idx + al * (spd (c_i c) * Gb (c_i c) idx) + mo * mom mb c idx) /\
    (forall idx, inr idx (vsh w) -> ent w' idx = ent w idx + al * (spd (c_i c) * Gw (c_i c) idx)).
Lemma cut_pos above c : 0 < cut above c.
Proof. unfold cut. destruct (flattens c); [lra|]. apply Rinv_0_lt_compat, INR_pos. Qed.
Lemma speed_pos cs : forall above i, 0 < speed above cs i.
Proof.
  induction cs as [|c rest IH]; intros above i; cbn [speed]; [lra|]. pose proof (cut_pos above c). destruct (_ =? _)%nat; [|apply Rmult_lt_0_compat; [assumption|apply IH]].
  destruct (c_l c) as [[]|]; lra.
Qed.

(** ** Chains *)
Section Chain.
Variables (par : params (T:=R)) (ish : list N) (x : vten R) (mb : nat -> option (vten R)) (Rd : reading R).
Hypothesis Hx : shaped ish x.

(** What changes in the output of a chain, in units of [a] per cell. *)
Definition follows cs (d a : vten R) (Gb Gw : nat -> list N -> R) : Prop :=
  forall P t0 be om, family par P t0 be om cs -> exists (Y : R -> vten R) (nu : list N -> R),
    (forall t, s_out (P t) x cs = Some (Y t)) /\ (forall t, shaped (below ish cs) (Y t)) /\
    (forall o, inr o (below ish cs) -> derivable_pt_lim (fun t => ent (Y t) o) t0 (ent a o * nu o)) /\
    sm (fun o => ent d o * nu o) (indices (below ish cs)) = pairs par Gb Gw be om cs.
Lemma neq_i c q rest : c_i c ∉ map c_i rest -> q ∈ rest -> (c_i q =? c_i c)%nat = false.
Proof. intros Hn Hq. apply Nat.eqb_neq. intros E. apply Hn. rewrite <- E. apply elem_of_list_fmap. eauto. Qed.

Theorem grads cs : forall above, cs <> [] -> NoDup (map c_i cs) -> chain_ok ish cs -> pars_ok par ish cs -> Forall (mom_ok mb) cs -> reads par x above cs Rd -> chain_smooth par x cs ->
  exists a, s_der Rd cs = Some a /\ shaped (below ish cs) a /\ forall d, shaped (below ish cs) d -> exists Gb Gw,
    (forall al mo, exists us, s_step Rd mb al mo cs d = Some us /\ stepped par mb al mo (speed above cs) Gb Gw cs (new_par par cs us)) /\ follows cs d a Gb Gw.
Proof using Hx.
  induction cs as [|c rest IH]; intros above Hne Hnd Hc Hp Hm Hr Hs; [congruence|]. clear Hne. cbn [map] in Hnd. apply NoDup_cons in Hnd as [Hni Hnd].
  destruct (out_total par ish x rest) as (v & Ev & Hv); [apply Hc|apply Hp|exact Hx|]. destruct Hc as (Hl & Hbot & Hin & Hc), Hp as [Hpc Hp]. apply Forall_cons in Hm as [Hmc Hm].
  cbn [reads] in Hr. destruct Hr as (R1 & R2 & R3 & R4 & R5 & Hr). cbn [chain_smooth] in Hs. destruct Hs as [Hsc Hs]. rewrite Ev in R1. cbn [s_out] in R2. rewrite Ev in R2. cbn [mbind option_bind] in R2.
  set (above' := if flattens c then S above else 0%nat) in *. cbn [below].
  (* what the layers below do, when the error [d] of this layer leads to the error of its input *)
  assert (Hrest : forall (d : vten R) (Sx : list N -> R), (rest <> [] -> forall a, s_der Rd rest = Some a -> shaped (below ish rest) a -> exists g, s_in Rd c (Some a) (below ish rest) d = Some g /\ shaped (below ish rest) g /\
      forall nu, sm (fun i => ent g i * nu i) (indices (below ish rest)) = cut above c * sm (fun i => Sx i * (ent a i * nu i)) (indices (below ish rest))) ->
    exists Gb Gw, (forall al mo, exists us, match rest with [] => Some [] | q :: _ => d' ← s_in Rd c (s_der Rd rest) (c_sh q) d; s_step Rd mb al mo rest d' end = Some us /\
        stepped par mb al mo (fun i => cut above c * speed above' rest i) Gb Gw rest (new_par par rest us)) /\
      forall P t0 be om, family par P t0 be om rest -> exists X xi, (forall t, s_out (P t) x rest = Some (X t)) /\ (forall t, shaped (below ish rest) (X t)) /\ X t0 = v /\
        (forall i, inr i (below ish rest) -> derivable_pt_lim (fun t => ent (X t) i) t0 (xi i)) /\ sm (fun i => Sx i * xi i) (indices (below ish rest)) = pairs par Gb Gw be om rest).
  { intros d Sx Hg. destruct rest as [|q r].
    - exists (fun _ _ => 0), (fun _ _ => 0). split.
      + intros al mo. exists []. split; [reflexivity|]. intros c' b w Hc'. apply elem_of_nil in Hc' as [].
      + intros P t0 be om _. cbn in Ev. injection Ev as <-. exists (fun _ => x), (fun _ => 0). split; [reflexivity|]. split; [intros _; exact Hx|]. split; [reflexivity|]. split; [intros i _; apply (derivable_pt_lim_const (ent x i))|].
        unfold pairs. rewrite sm_nil. apply sm_none. intros i _. lra.
    - destruct (IH above' ltac:(discriminate) Hnd Hc Hp Hm Hr Hs) as (a & Ea & Ha & Hd). destruct (Hg ltac:(discriminate) a Ea Ha) as (g & Eg & Hgs & Hpair). destruct (Hd g Hgs) as (Gb & Gw & Hst & Hfo).
      pose proof (cut_pos above c) as Hcut. exists (fun j i => / cut above c * Gb j i), (fun j i => / cut above c * Gw j i). split.
      + intros al mo. destruct (Hst al mo) as (us & Eus & Hus). exists us. split.
        { rewrite Ea. cbn [below] in Eg. rewrite Eg. cbn [mbind option_bind]. exact Eus. }
        intros c' b w Hc' Hcp Epar. destruct (Hus c' b w Hc' Hcp Epar) as (b' & w' & En & Hb' & Hw' & Eb & Ew). exists b', w'. split; [exact En|]. split; [exact Hb'|]. split; [exact Hw'|]. split; intros idx Hi.
        * rewrite (Eb idx Hi). do 2 f_equal. field. lra.
        * rewrite (Ew idx Hi). f_equal. field. lra.
      + intros P t0 be om HF. destruct (Hfo P t0 be om HF) as (X & nu & EX & HX & HL & Hsum). exists X, (fun i => ent a i * nu i). split; [exact EX|]. split; [exact HX|]. split; [|split; [exact HL|]].
        * pose proof (family_out par P t0 be om x (q :: r) HF) as E. rewrite (EX t0), Ev in E. congruence.
        * rewrite pairs_scale, <- Hsum, Hpair. field. lra. }
  destruct (c_l c) as [l|] eqn:El.
  2:{ (* the input *)
    assert (rest = []) as -> by (destruct rest; [reflexivity|exfalso; apply (Hin ltac:(discriminate)); reflexivity]). cbn in Ev. injection Ev as <-. unfold lay_ok in Hl. rewrite El in Hl. cbn [below] in Hl.
    exists (v_map (c_d c) x). split; [cbn [s_der]; rewrite El, (R3 eq_refl); reflexivity|]. split; [rewrite Hl; apply map_shaped; exact Hx|]. intros d Hd. exists (fun _ _ => 0), (fun _ _ => 0). assert (Hcp : c_par c = false) by (unfold c_par; rewrite El; reflexivity). split.
    - intros al mo. cbn [s_step]. unfold s_par. rewrite Hcp. cbn [mbind option_bind]. eexists. split; [reflexivity|]. intros c' b w Hc' Hcp'. apply elem_of_list_singleton in Hc' as ->. congruence.
    - intros P t0 be om HF. exists (fun _ => x), (fun _ => 0). cbn [s_out mbind option_bind]. rewrite El. split; [reflexivity|]. cbn [below]. split; [intros _; rewrite Hl; exact Hx|]. split; [intros o _; rewrite Rmult_0_r; apply (derivable_pt_lim_const (ent x o))|].
      unfold pairs. rewrite sm_cons, sm_nil, Hcp. rewrite sm_none; [lra|]. intros o _. lra. }
  destruct (has_par l) eqn:Ehp.
  - (* a layer with parameters *)
    destruct Hsc as [Hder Hshape]. assert (Hsq : square l) by (destruct l; try exact I; exact Hshape). destruct (lin_forms (below ish rest) c l El Ehp Hl Hsq) as (ws & L & src & wsrc & Eps & F).
    destruct (Hpc l _ _ El Eps) as (b & w & Epar & Hb & Hw). destruct (lf_val _ _ _ _ _ _ _ F b w v Hb Hw Hv) as (n & En & Hn & Enc). destruct (R4 l eq_refl Ehp) as [R4n R4p]. destruct (R4p b w Epar) as [Rb Rw].
    rewrite Ev in R4n. cbn [mbind option_bind] in R4n. rewrite Epar, En in R4n. assert (Hcp : c_par c = true) by (unfold c_par; rewrite El; exact Ehp).
    assert (Hfl : flattens c = false) by (unfold flattens; rewrite El; destruct l; try reflexivity; discriminate). assert (Hld : leads (c :: rest) = 0%nat) by (cbn [leads]; rewrite Hfl; reflexivity). rewrite Hld, Nat.add_0_r in R5.
    assert (Hcut : cut above c = / INR (S above)) by (unfold cut; rewrite Hfl; reflexivity).
    assert (Hspd : speed above (c :: rest) (c_i c) = sp c above) by (cbn [speed]; rewrite Nat.eqb_refl; unfold sp; rewrite El; destruct l; try reflexivity; exact Hcut).
    exists (v_map (c_d c) n). split; [cbn [s_der]; rewrite El; destruct l; try discriminate; rewrite R4n; reflexivity|]. split; [apply map_shaped; exact Hn|]. intros d Hd.
    set (Sx := fun i => sm (fun o => ent d o * sm (fun k => if decide (src o k = i) then ent w (wsrc o k) else 0) (L o)) (indices (c_sh c))).
    destruct (Hrest d Sx) as (Gb & Gw & Hst & Hfo).
    { intros _ a Ea Ha. destruct (lf_in _ _ _ _ _ _ _ F Rd above b w v a d R5 Rw Hb Hw Hv Ha Hd) as (g & Eg & Hg & Egc). exists g. split; [exact Eg|]. split; [exact Hg|]. intros nu. rewrite Hcut, <- sm_scale. apply sm_ext. intros i Hi. apply elem_of_indices in Hi.
      rewrite (Egc i Hi). unfold Sx. lra. }
    set (Gw0 := fun idx => sm (fun o => ent d o * sm (fun k => if decide (wsrc o k = idx) then ent v (src o k) else 0) (L o)) (indices (c_sh c))).
    exists (fun j i => if (j =? c_i c)%nat then ent d i else Gb j i), (fun j i => if (j =? c_i c)%nat then Gw0 i else Gw j i). split.
    + intros al mo. destruct (Hst al mo) as (us & Eus & Hus). destruct (lf_par _ _ _ _ _ _ _ F Rd mb above al mo b w v d R5 Rb Rw R1 Hmc Hb Hw Hv Hd) as (b' & w' & Epr & Hb' & Hw' & Eb & Ew).
      exists ((d, Some (b', w')) :: us). split.
      { cbn [s_step]. rewrite Epr. unfold update in Eus. rewrite Eus. reflexivity. }
      intros c' b0 w0 Hc' Hcp' Epar'. apply elem_of_cons in Hc' as [-> |Hc'].
      * rewrite Epar in Epar'. injection Epar' as <- <-. exists b', w'. cbn [new_par snd]. rewrite Nat.eqb_refl. split; [reflexivity|]. rewrite (proj1 Hb), (proj1 Hw). split; [exact Hb'|]. split; [exact Hw'|]. rewrite Hspd. split; [exact Eb|exact Ew].
      * destruct (Hus c' b0 w0 Hc' Hcp' Epar') as (b1 & w1 & E1 & Hb1 & Hw1 & Eb1 & Ew1). pose proof (neq_i c c' rest Hni Hc') as Hneq. exists b1, w1. cbn [new_par speed]. rewrite Hneq. rewrite Nat.eqb_sym, Hneq. repeat (split; [assumption|]). assumption.
    + intros P t0 be om HF. destruct (Hfo P t0 be om (family_rest _ _ _ _ _ _ _ HF)) as (X & xi & EX & HX & EX0 & HL & Hsum).
      destruct (HF c ltac:(left) Hcp) as (b0 & w0 & B & W & Epar' & HP & HBW & EB & EW & LB & LW). rewrite Epar in Epar'. injection Epar' as <- <-. rewrite (proj1 Hb), (proj1 Hw) in HBW. rewrite (proj1 Hb) in LB. rewrite (proj1 Hw) in LW.
      set (nt := fun t => match lay_val (plainly l) (Some (B t, W t)) (X t) with Some z => z | None => n end).
      assert (Hnt : forall t, lay_val (plainly l) (Some (B t, W t)) (X t) = Some (nt t) /\ shaped (c_sh c) (nt t) /\ forall o, inr o (c_sh c) -> ent (nt t) o = ent (B t) o + sm (fun k => ent (X t) (src o k) * ent (W t) (wsrc o k)) (L o)).
      { intros t. destruct (HBW t) as [HB HW]. destruct (lf_val _ _ _ _ _ _ _ F (B t) (W t) (X t) HB HW (HX t)) as (z & Ez & Hz & Ezc). unfold nt. rewrite Ez. auto. }
      exists (fun t => v_map (lact l) (nt t)), (fun o => be (c_i c) o + sm (fun k => xi (src o k) * ent w (wsrc o k) + ent v (src o k) * om (c_i c) (wsrc o k)) (L o)). split; [|split; [|split]].
      * intros t. cbn [s_out]. rewrite (EX t), El, HP. cbn [mbind option_bind]. rewrite (plain_map l _ _ Ehp), (proj1 (Hnt t)). reflexivity.
      * intros t. apply map_shaped. apply (Hnt t).
      * intros o Ho. cbn [below] in Ho. rewrite (ent_map (c_d c) _ n o Hn Ho).
        apply (lim_ext (fun t => lact l (ent (B t) o + sm (fun k => ent (X t) (src o k) * ent (W t) (wsrc o k)) (L o)))).
        { intros t. destruct (Hnt t) as (_ & Hz & Ez). rewrite (ent_map (lact l) _ (nt t) o Hz Ho), (Ez o Ho). reflexivity. }
        apply (comp_lim (lact l) (fun t => ent (B t) o + sm (fun k => ent (X t) (src o k) * ent (W t) (wsrc o k)) (L o))).
        -- refine (derivable_pt_lim_plus (fun t => ent (B t) o) (fun t => sm (fun k => ent (X t) (src o k) * ent (W t) (wsrc o k)) (L o)) t0 _ _ (LB o Ho) _).
           apply (lims_sm (fun k t => ent (X t) (src o k) * ent (W t) (wsrc o k))). intros k Hk. rewrite <- EW, <- EX0.
           exact (derivable_pt_lim_mult (fun t => ent (X t) (src o k)) (fun t => ent (W t) (wsrc o k)) t0 _ _ (HL _ (lf_src _ _ _ _ _ _ _ F o k Ho Hk)) (LW _ (lf_wsrc _ _ _ _ _ _ _ F o k Ho Hk))).
        -- rewrite EB, EW, EX0, <- (Enc o Ho). specialize (Hder eq_refl v n Ev). rewrite Epar in Hder. specialize (Hder En). rewrite Forall_forall in Hder. apply Hder. rewrite (data_ents _ n Hn). apply elem_of_list_fmap. exists o. split; [reflexivity|]. apply elem_of_indices. exact Ho.
      * cbn [below]. unfold pairs. rewrite sm_cons, Hcp, Epar. fold (pairs par (fun j i => if (j =? c_i c)%nat then ent d i else Gb j i) (fun j i => if (j =? c_i c)%nat then Gw0 i else Gw j i) be om rest).
        rewrite (pairs_ext par _ _ Gb Gw be om rest) by (intros c' i Hc'; rewrite (neq_i c c' rest Hni Hc'); split; reflexivity). rewrite <- Hsum, Nat.eqb_refl, (proj1 Hb), (proj1 Hw).
        unfold Sx, Gw0. rewrite (lin_pair (c_sh c) (below ish rest) L src (fun o k => ent w (wsrc o k)) (ent d) xi (lf_src _ _ _ _ _ _ _ F)).
        rewrite (lin_pair (c_sh c) ws L wsrc (fun o k => ent v (src o k)) (ent d) (om (c_i c)) (lf_wsrc _ _ _ _ _ _ _ F)). rewrite <- !sm_add. apply sm_ext. intros o _. rewrite sm_add. rewrite (sm_ext (fun k => xi (src o k) * ent w (wsrc o k)) (fun k => ent w (wsrc o k) * xi (src o k))) by (intros; apply Rmult_comm). lra.
  - (* a layer without parameters *)
    destruct Hsc as [_ Hshape]. assert (Hre : rest <> []) by (intros ->; destruct (Hbot eq_refl) as [|Hb]; [congruence|unfold c_par in Hb; rewrite El, Ehp in Hb; discriminate]).
    assert (HF : exists src, str_form (below ish rest) c l v src).
    { destruct l as [o f|nf kw kh sx sy f|nf kw kh sx sy f|sx sy|sx sy| |mn mx| |dd s t]; try discriminate; try contradiction.
      - apply pool_form; [exact El|exact Hl|exact Hv|]. intros o Ho. apply (Hshape v o Ev Ho).
      - apply up_form; assumption.
      - apply flat_form; assumption. }
    destruct HF as (src & F). assert (Hcp : c_par c = false) by (unfold c_par; rewrite El; exact Ehp). assert (Hnone : forall p, lay_val l p v = lay_val l None v) by (intros p; destruct l; try discriminate; reflexivity). rewrite Hnone in R2.
    destruct (IH above' Hre Hnd Hc Hp Hm Hr Hs) as (a & Ea & Ha & IHd). destruct (sf_der _ _ _ _ _ F Rd a rest Ea Ha R1 R2) as (a' & Ea' & Ha' & Eac). exists a'. split; [exact Ea'|]. split; [exact Ha'|]. intros d Hd.
    destruct (sf_in _ _ _ _ _ F Rd _ a d R5 Ha Hd R1 R2) as (g & Eg & Hg & Egc). destruct (IHd g Hg) as (Gb & Gw & Hst & Hfo). pose proof (cut_pos above c) as Hcut.
    assert (Hk : cut (above + leads (c :: rest)) c = cut above c) by (unfold cut; cbn [leads]; destruct (flattens c); [reflexivity|rewrite Nat.add_0_r; reflexivity]).
    exists (fun j i => / cut above c * Gb j i), (fun j i => / cut above c * Gw j i). split.
    + intros al mo. destruct (Hst al mo) as (us & Eus & Hus). exists ((d, None) :: us). split.
      { assert (Em : match rest with [] => Some [] | q :: _ => d' ← s_in Rd c (s_der Rd rest) (c_sh q) d; s_step Rd mb al mo rest d' end = Some us) by (clear - Hre Ea Eg Eus; destruct rest as [|q r]; [congruence|]; cbn [below] in Eg; rewrite Ea, Eg; exact Eus).
        assert (Epr : s_par Rd mb al mo c d = Some None) by (unfold s_par; rewrite Hcp; reflexivity). cbn [s_step]. rewrite Epr. unfold update in Em. rewrite Em. reflexivity. }
      intros c' b w Hc' Hcp' Epar'. apply elem_of_cons in Hc' as [-> |Hc']; [congruence|]. destruct (Hus c' b w Hc' Hcp' Epar') as (b1 & w1 & E1 & Hb1 & Hw1 & Eb1 & Ew1). pose proof (neq_i c c' rest Hni Hc') as Hneq. exists b1, w1.
      cbn [new_par speed]. rewrite Hneq. rewrite Nat.eqb_sym, Hneq. split; [exact E1|]. split; [exact Hb1|]. split; [exact Hw1|]. split; intros idx Hi.
      * rewrite (Eb1 idx Hi). do 2 f_equal. fold above'. field. lra.
      * rewrite (Ew1 idx Hi). f_equal. fold above'. field. lra.
    + intros P t0 be om HF. pose proof (family_rest _ _ _ _ _ _ _ HF) as HF'. destruct (Hfo P t0 be om HF') as (X & nu & EX & HX & HL & Hsum).
      assert (EX0 : X t0 = v) by (pose proof (family_out par P t0 be om x rest HF') as E; rewrite (EX t0), Ev in E; congruence).
      destruct (sf_val _ _ _ _ _ F X t0 _ HX EX0 HL) as (Y & EY & HY & LY). exists Y, (fun o => nu (src o)). split; [|split; [exact HY|split]].
      * intros t. cbn [s_out]. rewrite (EX t), El. cbn [mbind option_bind]. apply EY.
      * intros o Ho. rewrite (Eac o Ho). apply (LY o Ho).
      * rewrite pairs_scale. unfold pairs. rewrite sm_cons, Hcp, Rplus_0_l. fold (pairs par Gb Gw be om rest). rewrite <- Hsum.
        rewrite (sm_ext (fun i => ent g i * nu i) (fun i => cut above c * (sm (fun o => ent d o * sm (fun _ => if decide (src o = i) then 1 else 0) [tt]) (indices (c_sh c)) * nu i))).
        2:{ intros i Hi. apply elem_of_indices in Hi. rewrite (Egc i Hi), Hk. lra. }
        rewrite sm_scale, (lin_pair (c_sh c) (below ish rest) (fun _ => [tt]) (fun o _ => src o) (fun _ _ => 1) (ent d) nu) by (intros o k Ho _; apply (sf_src _ _ _ _ _ F o Ho)).
        rewrite <- Rmult_assoc, Rinv_l, Rmult_1_l by lra. cbn [below]. apply sm_ext. intros o _. rewrite sm_cons, sm_nil. lra.
Qed.
End Chain.
