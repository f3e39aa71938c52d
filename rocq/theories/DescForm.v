(** * DescForm: layers without parameters, cell by cell *)
From Coq Require Import Reals Lra.
From Verif Require Import Base Num NumReal ModelTools Spec IndexProofs TensorFacts BuildProofs BuildProofs3 EagerOps NetSpec FwdSpec FwdTotal FwdScript BwdSpec
  TrnSpec TrnScript TrnProg TrnTotal GradSpec GradProofs AdjSpec AdjSum AdjConv AdjDeconv AdjPool DescSpec DescLay.
From Coq Require Import Lia.
Open Scope R_scope.
#[local] Existing Instance NumR.

(** Every cell of the output is one cell of the input, near the input [v]. *)
Record str_form (psh : list N) (c : clay R) (l : lspec R) (v : vten R) (src : list N -> list N) : Prop := {
  sf_src : forall o, inr o (c_sh c) -> inr (src o) psh;
  sf_der : forall (Rd : reading R) a rest, s_der Rd rest = Some a -> shaped psh a -> r_x Rd (c_i c) = Some v -> r_y Rd (c_i c) = lay_val l None v ->
    exists a', s_der Rd (c :: rest) = Some a' /\ shaped (c_sh c) a' /\ forall o, inr o (c_sh c) -> ent a' o = ent a (src o);
  sf_in : forall (Rd : reading R) k a d, r_ref Rd (c_i c) = Some (number k) -> shaped psh a -> shaped (c_sh c) d -> r_x Rd (c_i c) = Some v -> r_y Rd (c_i c) = lay_val l None v ->
    exists g, s_in Rd c (Some a) psh d = Some g /\ shaped psh g /\
      forall i, inr i psh -> ent g i = cut k c * sm (fun o => ent d o * sm (fun _ => if decide (src o = i) then 1 else 0) [tt]) (indices (c_sh c));
  sf_val : forall (X : R -> vten R) t0 (xi : list N -> R), (forall t, shaped psh (X t)) -> X t0 = v -> (forall i, inr i psh -> derivable_pt_lim (fun t => ent (X t) i) t0 (xi i)) ->
    exists Y, (forall t p, lay_val l p (X t) = Some (Y t)) /\ (forall t, shaped (c_sh c) (Y t)) /\ forall o, inr o (c_sh c) -> derivable_pt_lim (fun t => ent (Y t) o) t0 (xi (src o));
}.

(** ** Limits that only look near a point *)
Lemma lim_near (f g : R -> R) x d e : 0 < e -> (forall t, Rabs (t - x) < e -> f t = g t) -> derivable_pt_lim f x d -> derivable_pt_lim g x d.
Proof.
  intros He E L eps Hp. destruct (L eps Hp) as [[dl Hdl] Hl]. cbn in Hl. assert (Hm : 0 < Rmin e dl) by (apply Rmin_glb_lt; assumption). exists (mkposreal _ Hm). cbn. intros h Hh Ha.
  pose proof (Rmin_l e dl). pose proof (Rmin_r e dl). rewrite <- (E (x + h)), <- (E x).
  - apply Hl; [exact Hh|lra].
  - replace (x - x) with 0 by lra. rewrite Rabs_R0. exact He.
  - replace (x + h - x) with h by lra. lra.
Qed.
Lemma stays_below (f g : R -> R) x df dg : derivable_pt_lim f x df -> derivable_pt_lim g x dg -> f x < g x -> exists e, 0 < e /\ forall t, Rabs (t - x) < e -> f t < g t.
Proof.
  intros Lf Lg Hlt. assert (Cf : continuity_pt (fun t => g t - f t) x).
  { apply derivable_continuous_pt. exists (dg - df). exact (derivable_pt_lim_minus g f x dg df Lg Lf). }
  destruct (Cf (g x - f x)) as (e & He & Hc); [lra|]. exists e. split; [exact He|]. intros t Ht. destruct (Req_dec t x) as [-> |Hne]; [exact Hlt|].
  specialize (Hc t). cbn in Hc. unfold R_dist in Hc. assert (Hc' : Rabs (g t - f t - (g x - f x)) < g x - f x) by (apply Hc; split; [split; [exact I|auto]|exact Ht]). apply Rabs_def2 in Hc'. lra.
Qed.
Lemma all_below {A} (fs : A -> R -> R) (g : R -> R) x (dfs : A -> R) dg (l : list A) : derivable_pt_lim g x dg -> (forall a, a ∈ l -> derivable_pt_lim (fs a) x (dfs a) /\ fs a x < g x) ->
  exists e, 0 < e /\ forall t, Rabs (t - x) < e -> forall a, a ∈ l -> fs a t < g t.
Proof.
  intros Lg. induction l as [|a l IH]; intros Hl; [exists 1; split; [lra|]; intros t _ a Ha; apply elem_of_nil in Ha as []|].
  destruct IH as (e1 & He1 & H1); [intros b Hb; apply Hl; right; exact Hb|]. destruct (Hl a ltac:(left)) as [La Ha]. destruct (stays_below _ _ _ _ _ La Lg Ha) as (e2 & He2 & H2).
  exists (Rmin e1 e2). split; [apply Rmin_glb_lt; assumption|]. intros t Ht b Hb. pose proof (Rmin_l e1 e2). pose proof (Rmin_r e1 e2). apply elem_of_cons in Hb as [-> |Hb]; [apply H2; lra|apply H1; [lra|exact Hb]].
Qed.

(** ** Max pooling *)
Lemma pool_back c w h sx sy x y d p : let xsh := [c; w; h] in let osh := [c; (w + 1) / sx; (h + 1) / sy]%N in
  shaped xsh x -> shaped osh y -> shaped osh d -> shaped xsh p ->
  exists g, g_pool sx sy d x y p = Some g /\ shaped xsh g /\ forall idx, inr idx xsh ->
    ent g idx = ent p idx + sm (fun o => ent d o * (if decide (idx ∈ wcells w h sx sy o) then if Req_EM_T (ent x idx) (ent y o) then 1 else 0 else 0)) (indices osh).
Proof.
  intros xsh osh Hx Hys Hd Hp. unfold g_pool. rewrite (proj1 Hx), (proj1 Hp), (proj1 Hys). apply tabulate_fn. intros idx Hi.
  rewrite (mapM_fn _ (fun k => ent d (fst k) * (if Req_EM_T (ent x idx) (ent y (fst k)) then 1 else 0))).
  - cbn [mbind option_bind]. rewrite (el_ent xsh p _ Hp Hi). cbn [mbind option_bind]. rewrite fold_sm. do 2 f_equal. rewrite sm_filter. unfold windows. rewrite sm_flat. apply sm_ext. intros o Ho.
    destruct (in3 _ _ _ _ Ho) as (f & X & Y & -> & _). apply elem_of_indices in Ho. rewrite sm_map.
    transitivity (sm (fun q => if bool_decide (q = idx) then ent d [f; X; Y] * (if Req_EM_T (ent x idx) (ent y [f; X; Y]) then 1 else 0) else 0) (wcells w h sx sy [f; X; Y])); [cbn [wcells]; rewrite sm_map; reflexivity|].
    destruct (decide (idx ∈ wcells w h sx sy [f; X; Y])) as [Hin|Hin].
    + rewrite (sm_one _ idx); [rewrite bool_decide_eq_true_2 by reflexivity; reflexivity|apply wcells_NoDup|exact Hin|]. intros q _ E. rewrite bool_decide_eq_false_2 by exact E. reflexivity.
    + rewrite sm_none; [lra|]. intros q Hq. rewrite bool_decide_eq_false_2; [reflexivity|]. intros ->. contradiction.
  - intros k Hk. apply filter_in in Hk as [Hk _]. unfold windows in Hk. apply elem_of_list_In, in_flat_map in Hk as (o & Ho & Hk). apply elem_of_list_In in Ho.
    destruct (in3 _ _ _ _ Ho) as (f & X & Y & -> & _). apply elem_of_indices in Ho. apply in_map_iff in Hk as (q & <- & Hq). cbn [fst].
    rewrite (el_ent osh d _ Hd Ho), (el_ent xsh x _ Hx Hi), (el_ent osh y _ Hys Ho). cbn [mbind option_bind]. f_equal. unfold same. cbn [neqb none nzero nmul NumR].
    destruct (Req_EM_T (ent x idx) (ent y [f; X; Y])); reflexivity.
Qed.
Lemma pool_form psh c sx sy v : c_l c = Some (SPool sx sy) -> lay_ok psh c -> shaped psh v ->
  (forall o, o ∈ indices (c_sh c) -> exists q, q ∈ win sx sy (vsh v) o /\ forall q', q' ∈ win sx sy (vsh v) o -> q' <> q -> ent v q' < ent v q) -> exists src, str_form psh c (SPool sx sy) v src.
Proof.
  intros El Hok Hv Hone. unfold lay_ok in Hok. rewrite El in Hok. destruct Hok as (Hls & Htf & _). cbn [lay_shape] in Hls. destruct psh as [|c0 [|w [|h []]]]; try discriminate. destruct (_ && _) in Hls; [|discriminate]. injection Hls as Hls.
  rewrite (proj1 Hv), <- Hls in Hone.
  assert (Hw : forall o, inr o (c_sh c) -> win sx sy [c0; w; h] o = wcells w h sx sy o).
  { intros o Ho. rewrite <- Hls in Ho. destruct (inr3 _ _ _ _ Ho) as (f & X & Y & -> & _). reflexivity. }
  set (best := fun o => List.find (fun q => forallb (fun q' => bool_decide (q' = q) || nltb (ent v q') (ent v q)) (wcells w h sx sy o)) (wcells w h sx sy o)).
  set (src := fun o => default [] (best o)).
  assert (Hsrc : forall o, inr o (c_sh c) -> src o ∈ wcells w h sx sy o /\ forall q, q ∈ wcells w h sx sy o -> q <> src o -> ent v q < ent v (src o)).
  { intros o Ho. pose proof Ho as Ho'. rewrite <- Hls in Ho'. destruct (Hone o ltac:(apply elem_of_indices; exact Ho')) as (q & Hq & Hm). rewrite (Hw o Ho) in Hq, Hm. unfold src. destruct (best o) as [q0|] eqn:Eb.
    - apply find_some in Eb as [Hi Hf]. cbn. split; [apply elem_of_list_In; exact Hi|]. intros q' Hq' Hne. rewrite forallb_forall in Hf. specialize (Hf q' (proj1 (elem_of_list_In _ _) Hq')). apply orb_true_iff in Hf as [Hf|Hf].
      + apply bool_decide_eq_true in Hf. contradiction.
      + cbn [nltb NumR] in Hf. destruct (Rlt_dec _ _) as [Hlt|]; [exact Hlt|discriminate].
    - exfalso. pose proof (find_none _ _ Eb q (proj1 (elem_of_list_In _ _) Hq)) as Hf. cbn beta in Hf. apply not_true_iff_false in Hf. apply Hf. apply forallb_forall. intros q' Hq'. apply elem_of_list_In in Hq'. apply orb_true_iff.
      destruct (decide (q' = q)) as [-> |Hne]; [left; apply bool_decide_eq_true_2; reflexivity|right]. cbn [nltb NumR]. destruct (Rlt_dec _ _) as [|Hn]; [reflexivity|]. exfalso. apply Hn. apply Hm; assumption. }
  clearbody src. clear best. rewrite <- Hls in Hsrc. set (osh := [c0; (w + 1) / sx; (h + 1) / sy]%N) in *.
  assert (Hne : forall o, inr o osh -> wcells w h sx sy o <> []) by (intros o Ho E; destruct (Hsrc o Ho) as [Hi _]; rewrite E in Hi; apply elem_of_nil in Hi as []).
  destruct (pool_val c0 w h sx sy v Hv Hne) as (y & Ey & Hy & Eyo).
  assert (Hym : forall o, inr o osh -> ent y o = ent v (src o)).
  { intros o Ho. destruct (Hsrc o Ho) as [Hi Hm]. assert (E : reduce RedMax (map (ent v) (wcells w h sx sy o)) = Some (ent v (src o))).
    { apply max_uniq; [apply elem_of_list_fmap; eauto|]. intros u Hu. apply elem_of_list_fmap in Hu as (q' & -> & Hq'). destruct (decide (q' = src o)) as [-> |E]; [lra|]. specialize (Hm q' Hq' E). lra. }
    rewrite <- (Eyo o Ho) in E. congruence. }
  assert (Hin : forall o, inr o osh -> inr (src o) [c0; w; h]) by (intros o Ho; eapply wcells_in; [exact Ho|apply Hsrc; exact Ho]).
  exists src. split; rewrite <- Hls.
  - exact Hin.
  - intros Rd a rest Ea Ha Ex Ey'. cbn [lay_val] in Ey'. rewrite Ey in Ey'. cbn [s_der]. rewrite El, Ex, Ey', Ea. cbn [mbind option_bind].
    apply andb_prop in Htf as [H2x H2y]. apply N.leb_le in H2x, H2y. destruct (pool_der_total c0 w h sx sy v y a H2x H2y Hv Hy Ha) as (g & Eg & Hg). exists g. split; [exact Eg|]. split; [exact Hg|].
    intros o Ho. destruct (Hsrc o Ho) as [Hi Hm]. eapply (pool_der_one c0 w h sx sy v Hv Hne y a g Ey Ha Eg o (src o) Ho Hi). intros q' Hq' E. apply Hm; assumption.
  - intros Rd k a d Er Ha Hd Ex Ey'. cbn [lay_val] in Ey'. rewrite Ey in Ey'. unfold s_in. rewrite El, Er. cbn [mbind option_bind]. destruct (share_cells osh d k Hd) as (e & -> & He & Ee). cbn [mbind option_bind]. rewrite Ex, Ey'. cbn [mbind option_bind].
    destruct (pool_back c0 w h sx sy v y e (vzero [c0; w; h]) Hv Hy He (zero_shaped _)) as (g & -> & Hg & Eg). exists g. split; [reflexivity|]. split; [exact Hg|]. intros i Hi. rewrite (Eg i Hi), ent_zero, Rplus_0_l.
    assert (Hc : cut k c = / INR (S k)) by (unfold cut, flattens; rewrite El; reflexivity). rewrite Hc, <- sm_scale. apply sm_ext. intros o Ho. apply elem_of_indices in Ho. rewrite (Ee o Ho), Rmult_assoc. do 2 f_equal. rewrite sm_cons, sm_nil, Rplus_0_r.
    rewrite (Hym o Ho). destruct (Hsrc o Ho) as [Hso Hm]. destruct (decide (src o = i)) as [<- |E].
    + rewrite decide_True by exact Hso. destruct (Req_EM_T _ _); [reflexivity|congruence].
    + destruct (decide (i ∈ wcells w h sx sy o)) as [Hii|]; [|reflexivity]. specialize (Hm i Hii ltac:(congruence)). destruct (Req_EM_T _ _); [lra|reflexivity].
  - intros X t0 xi HX Et HL. cbn [lay_val]. exists (fun t => match v_pool sx sy (X t) with Some y => y | None => v end).
    assert (HV : forall t, exists z, v_pool sx sy (X t) = Some z /\ shaped osh z /\ forall o, inr o osh -> Some (ent z o) = reduce RedMax (map (ent (X t)) (wcells w h sx sy o))) by (intros t; apply (pool_val c0 w h sx sy (X t) (HX t) Hne)).
    split; [|split].
    + intros t _. destruct (HV t) as (z & -> & _). reflexivity.
    + intros t. destruct (HV t) as (z & -> & Hz & _). exact Hz.
    + intros o Ho. destruct (Hsrc o Ho) as [Hso Hm].
      destruct (all_below (fun q t => ent (X t) q) (fun t => ent (X t) (src o)) t0 xi (xi (src o)) (List.filter (fun q => negb (bool_decide (q = src o))) (wcells w h sx sy o))) as (e & He & Hb); [apply HL; apply Hin; exact Ho| |].
      { intros q Hq. apply filter_in in Hq as [Hq Hne']. apply negb_true_iff, bool_decide_eq_false in Hne'. split; [apply HL; eapply wcells_in; eassumption|]. rewrite Et. apply Hm; assumption. }
      apply (lim_near (fun t => ent (X t) (src o)) _ _ _ e He); [|apply HL; apply Hin; exact Ho]. intros t Ht. destruct (HV t) as (z & -> & _ & Hz). specialize (Hz o Ho).
      rewrite (max_uniq _ (ent (X t) (src o))) in Hz; [congruence|apply elem_of_list_fmap; eauto|]. intros u Hu. apply elem_of_list_fmap in Hu as (q & -> & Hq). destruct (decide (q = src o)) as [-> |E]; [lra|]. apply Rlt_le. apply (Hb t Ht q).
      apply elem_of_list_In, filter_In. split; [apply elem_of_list_In; exact Hq|]. apply negb_true_iff, bool_decide_eq_false_2. exact E.
Qed.

(** ** Up-sampling *)
Lemma up_form psh c sx sy v : c_l c = Some (SUp sx sy) -> lay_ok psh c -> shaped psh v -> exists src, str_form psh c (SUp sx sy) v src.
Proof.
  intros El Hok Hv. unfold lay_ok in Hok. rewrite El in Hok. destruct Hok as (Hls & Htf & _). cbn [lay_shape train_fit] in *. destruct psh as [|c0 [|w [|h []]]]; try discriminate. unfold fit in Hls. destruct (fitsb _); [|discriminate]. injection Hls as Hls.
  apply andb_prop in Htf as [Hsx Hsy]. apply N.ltb_lt in Hsx, Hsy. exists (fun o => usrc sx sy o tt).
  assert (Hup : forall x, shaped [c0; w; h] x -> exists y, v_up sx sy x = Some y /\ shaped [c0; w * sx; h * sy]%N y /\ forall o, inr o [c0; w * sx; h * sy]%N -> ent y o = ent x (usrc sx sy o tt)).
  { intros x Hx. destruct (up_val c0 w h sx sy Hsx Hsy x Hx) as (y & Ey & Hy & Eo). exists y. split; [exact Ey|]. split; [exact Hy|]. intros o Ho. rewrite (Eo o Ho), sm_cons, sm_nil. lra. }
  split; rewrite <- Hls.
  - intros o Ho. apply (usrc_in c0 w h sx sy Hsx Hsy o tt Ho). left.
  - intros Rd a rest Ea Ha _ _. cbn [s_der]. rewrite El, Ea. cbn [mbind option_bind]. apply Hup. exact Ha.
  - intros Rd k a d Er Ha Hd _ _. unfold s_in. rewrite El, Er. cbn [mbind option_bind]. destruct (share_cells _ d k Hd) as (e & -> & He & Ee). cbn [mbind option_bind].
    destruct (up_grad c0 w h sx sy Hsx Hsy e v He Hv) as (g & -> & Hg & Eg). exists g. split; [reflexivity|]. split; [exact Hg|]. intros i Hi. specialize (Eg i Hi).
    rewrite (slope_det _ _ _ _ _ _ Eg (slope_linear (v_up sx sy) e v i _ _ (fun _ => 0) (fun _ => [tt]) (usrc sx sy) (fun _ _ => 1) He Hv (usrc_in c0 w h sx sy Hsx Hsy) (up_val c0 w h sx sy Hsx Hsy))).
    assert (Hc : cut k c = / INR (S k)) by (unfold cut, flattens; rewrite El; reflexivity). rewrite Hc. apply (sum_scaled (/ INR (S k)) _ (ent e) (ent d) (fun o k => if decide (usrc sx sy o k = i) then 1 else 0) (fun _ => [tt])). exact Ee.
  - intros X t0 xi HX Et HL. cbn [lay_val]. exists (fun t => match v_up sx sy (X t) with Some y => y | None => v end). split; [|split].
    + intros t _. destruct (Hup (X t) (HX t)) as (z & -> & _). reflexivity.
    + intros t. destruct (Hup (X t) (HX t)) as (z & -> & Hz & _). exact Hz.
    + intros o Ho. apply (lim_ext (fun t => ent (X t) (usrc sx sy o tt))); [|apply HL; apply (usrc_in c0 w h sx sy Hsx Hsy o tt Ho); left]. intros t. destruct (Hup (X t) (HX t)) as (z & -> & _ & Hz). symmetry. apply Hz. exact Ho.
Qed.

(** ** Flattening *)
Definition unpos (sh o : list N) : list N := match o with [j] => default [] (indices sh !! N.to_nat j) | _ => [] end.
Lemma unpos_in sh o : inr o [prodN sh] -> inr (unpos sh o) sh.
Proof.
  intros Ho. apply inr1 in Ho as (j & -> & Hj). cbn. destruct (lookup_lt_is_Some_2 (indices sh) (N.to_nat j)) as [q Hq]; [rewrite indices_length; lia|]. rewrite Hq. cbn. eapply indices_Forall2. exact Hq.
Qed.
Lemma flat_ent sh x o : shaped sh x -> inr o [prodN sh] -> ent (V [prodN sh] (vdata x)) o = ent x (unpos sh o).
Proof.
  intros Hx Ho. apply inr1 in Ho as (j & -> & Hj). cbn [unpos]. destruct (lookup_lt_is_Some_2 (indices sh) (N.to_nat j)) as [q Hq]; [rewrite indices_length; lia|]. rewrite Hq. cbn [default].
  unfold ent. rewrite (proj1 Hx). cbn [vsh vdata]. rewrite (at_lookup _ _ _ _ Hq). unfold at_. assert (E : flat [prodN sh] [j] = Some j).
  { cbn [flat]. assert (Hlt : (j <? prodN sh)%N = true) by (apply N.ltb_lt; exact Hj). rewrite Hlt. cbn. f_equal. lia. }
  rewrite E. reflexivity.
Qed.
Lemma flat_form psh c v : c_l c = Some SFlat -> lay_ok psh c -> shaped psh v -> exists src, str_form psh c SFlat v src.
Proof.
  intros El Hok Hv. unfold lay_ok in Hok. rewrite El in Hok. destruct Hok as (Hls & _). cbn [lay_shape] in Hls. injection Hls as Hls. exists (unpos psh). split; rewrite <- Hls.
  - apply unpos_in.
  - intros Rd a rest Ea Ha _ _. cbn [s_der]. rewrite El, Ea. cbn [mbind option_bind]. eexists. split; [reflexivity|]. unfold v_flat. rewrite (proj1 Ha). split; [split; [reflexivity|cbn; rewrite (proj2 Ha); f_equal; lia]|]. intros o Ho. apply flat_ent; assumption.
  - intros Rd k a d _ _ Hd _ _. unfold s_in. rewrite El. eexists. split; [reflexivity|]. assert (Hs : shaped psh (V psh (vdata d))) by (split; [reflexivity|cbn; rewrite (proj2 Hd); cbn; f_equal; lia]). split; [exact Hs|]. intros i Hi.
    assert (Hc : cut k c = 1) by (unfold cut, flattens; rewrite El; reflexivity). rewrite Hc, Rmult_1_l.
    assert (Ho : inr [pos psh i] [prodN psh]) by (repeat constructor; apply pos_lt; exact Hi).
    assert (Hu : unpos psh [pos psh i] = i).
    { cbn [unpos]. apply elem_of_indices, elem_of_list_lookup in Hi as [a0 Ha0]. unfold pos. rewrite (proj1 (indices_lookup psh a0 i) Ha0). cbn. rewrite Nat2N.id, Ha0. reflexivity. }
    rewrite (sm_one _ [pos psh i]).
    + rewrite Hu, sm_cons, sm_nil, decide_True by reflexivity. pose proof (flat_ent psh _ _ Hs Ho) as E. cbn [vdata] in E. rewrite Hu in E. rewrite <- E. rewrite <- (ent_V [prodN psh] d) by apply Hd. lra.
    + apply indices_NoDup.
    + apply elem_of_indices. exact Ho.
    + intros o Hoi Hne. apply elem_of_indices in Hoi. rewrite sm_cons, sm_nil, decide_False; [lra|]. intros E. apply Hne. apply inr1 in Hoi as (j & -> & Hj). f_equal. cbn [unpos] in E.
      destruct (lookup_lt_is_Some_2 (indices psh) (N.to_nat j)) as [q Hq]; [rewrite indices_length; lia|]. rewrite Hq in E. cbn in E. subst q. unfold pos. rewrite (proj1 (indices_lookup psh _ i) Hq). cbn. lia.
  - intros X t0 xi HX Et HL. cbn [lay_val]. exists (fun t => v_flat (X t)). split; [reflexivity|]. unfold v_flat. split; [intros t; rewrite (proj1 (HX t)); split; [reflexivity|cbn; rewrite (proj2 (HX t)); f_equal; lia]|].
    intros o Ho. apply (lim_ext (fun t => ent (X t) (unpos psh o))); [|apply HL; apply unpos_in; exact Ho]. intros t. rewrite (proj1 (HX t)). symmetry. apply flat_ent; [apply HX|exact Ho].
Qed.
