(** * GradMain: one training step is one step against the gradient *)
From Coq Require Import Reals Lra.
From Verif Require Import Base Num NumReal ModelTools ModelOps ModelTensor ModelGraph ModelLayer ModelModel Spec NetSpec NetScript NetRun6 NetRun7 NetLaws NetClaims
  ModelAct ActProofs GradSpec GradProofs.
From Coq Require Import Lia.
Open Scope R_scope.
#[local] Existing Instance NumR.

(** ** Changing one unit *)
Lemma forward_app (pre net : list (slayer R)) : forall xs, forward (pre ++ net) xs = forward net (forward pre xs).
Proof. induction pre as [|l pre IH]; intros xs; [reflexivity|]. cbn. apply IH. Qed.
Lemma forward_tail rest : forall l ns, forward rest (map (sf l) ns) = map (sf (last_layer l rest)) (tail_netas l rest ns).
Proof.
  induction rest as [|l' rest IH]; intros l ns; [reflexivity|]. cbn [forward tail_netas]. rewrite last_layer_cons. unfold outs. apply IH.
Qed.
Lemma zip_with_insert {A B C} (f : A -> B -> C) a x : forall (u : list A) (v : list B) y, v !! a = Some y -> zip_with f (<[a := x]> u) v = <[a := f x y]> (zip_with f u v).
Proof.
  induction a as [|a IH]; intros [|p u] [|q v] y Hy; try discriminate; try reflexivity.
  - cbn in Hy. injection Hy as ->. reflexivity.
  - cbn. f_equal. apply IH. exact Hy.
Qed.
Lemma zip_with_insert_r {A B C} (f : A -> B -> C) a y : forall (u : list A) (v : list B) x, u !! a = Some x -> zip_with f u (<[a := y]> v) = <[a := f x y]> (zip_with f u v).
Proof.
  induction a as [|a IH]; intros [|p u] [|q v] x Hx; try discriminate; try reflexivity.
  - cbn in Hx. injection Hx as ->. reflexivity.
  - cbn. f_equal. apply IH. exact Hx.
Qed.
Lemma vals_insert fs a g t : vals (<[a := g]> fs) t = <[a := g t]> (vals fs t).
Proof. revert a. induction fs as [|f fs IH]; intros [|a]; cbn; try reflexivity. f_equal. apply IH. Qed.
Lemma vals_const ns t : vals (map (fun n _ => n) ns) t = ns.
Proof. unfold vals. rewrite map_map. apply map_id. Qed.
Lemma unit_lims t0 ns a g d : derivable_pt_lim g t0 d -> lims t0 (<[a := g]> (map (fun n _ => n) ns)) (<[a := d]> (replicate (length ns) 0)).
Proof.
  intros Hg. apply Forall2_insert; [|exact Hg]. induction ns as [|n ns IH]; cbn; constructor; [apply (derivable_pt_lim_const n)|exact IH].
Qed.
Lemma total_unit e : forall a d x n, e !! a = Some x -> n = length e -> total (zip_with Rmult e (<[a := d]> (replicate n 0))) = x * d.
Proof.
  assert (Hz : forall e n, total (zip_with Rmult e (replicate n 0)) = 0).
  { clear. unfold total. induction e as [|x e IH]; intros [|n]; cbn; try reflexivity. rewrite IH. lra. }
  induction e as [|y e IH]; intros a d x n Hx ->; [discriminate|]. destruct a as [|a].
  - injection Hx as ->. change (x * d + total (zip_with Rmult e (replicate (length e) 0)) = x * d). rewrite Hz. lra.
  - change (y * 0 + total (zip_with Rmult e (<[a := d]> (replicate (length e) 0))) = x * d). rewrite (IH a d x _ Hx eq_refl). lra.
Qed.

Definition cost (psi : R -> R -> R) (ys tgt : list R) : R := total (zip_with psi tgt ys).
(** The rate at which the cost changes with a weighted sum of the last layer is output minus target. *)
Definition fits_cost (psi : R -> R -> R) (l : slayer R) : Prop := forall t n, derivable_pt_lim (fun m => psi t (sf l m)) n (sf l n - t).

Lemma smooth_drop k : forall net xs, smooth net xs -> smooth (drop k net) (forward (take k net) xs).
Proof. induction k as [|k IH]; intros [|l net] xs; try exact (fun H => H). intros [_ Hs]. apply IH. exact Hs. Qed.
Lemma sized_drop k : forall net xs, sized (length xs) net -> sized (length (forward (take k net) xs)) (drop k net).
Proof.
  induction k as [|k IH]; intros [|l net] xs; try exact (fun H => H). intros (_ & HB & Hs). cbn [take drop forward]. apply IH.
  unfold outs. rewrite map_length, netas_len by exact HB. exact Hs.
Qed.
Lemma last_drop (net : list (slayer R)) k l : net !! k = Some l -> last net = Some (last_layer l (drop (S k) net)).
Proof.
  intros Hk. rewrite <- (take_drop_middle _ _ _ Hk) at 1. rewrite last_app, last_cons. unfold last_layer. destruct (last (drop (S k) net)); reflexivity.
Qed.

Lemma unit_gradient psi (net : list (slayer R)) xs tgt k l a (L : R -> slayer R) g v d : sized (length xs) net -> length tgt = length (forward net xs) -> smooth net xs ->
  (forall lz, last net = Some lz -> fits_cost psi lz) -> net !! k = Some l ->
  let x := forward (take k net) xs in
  (a < length (netas l x))%nat -> (forall t, sf (L t) = sf l) -> (forall t, netas (L t) x = <[a := g t]> (netas l x)) -> netas (L v) x = netas l x -> derivable_pt_lim g v d ->
  exists e, err (drop k net) x tgt !! a = Some e /\ derivable_pt_lim (fun t => cost psi (forward (alter (fun _ => L t) k net) xs) tgt) v (- (e * d)).
Proof.
  intros Hs Ht Hsm Hc Hk x Ha HL1 HL2 HL3 Hg. set (rest := drop (S k) net).
  pose proof (sized_drop k _ _ Hs) as Hs'. fold x in Hs'. pose proof (smooth_drop k _ _ Hsm) as Hsm'. fold x in Hsm'.
  rewrite (drop_S _ _ _ Hk) in *. fold rest in Hs', Hsm' |- *. destruct Hs' as (HW & HB & Hs').
  pose proof (smooth_smooth_from _ _ _ Hsm') as Hsf. pose proof (last_drop _ _ _ Hk) as Hlast. fold rest in Hlast.
  set (ns := netas l x) in *. set (gs := <[a := g]> (map (fun n _ => n) ns)).
  assert (Ev : forall t, vals gs t = <[a := g t]> ns) by (intros t; unfold gs; rewrite vals_insert, vals_const; reflexivity).
  assert (E0 : vals gs v = ns) by (rewrite Ev, <- HL2; exact HL3).
  assert (Hfw : forall t, forward (alter (fun _ => L t) k net) xs = map (sf (last_layer l rest)) (tail_netas l rest (vals gs t))).
  { intros t. rewrite <- forward_tail. rewrite Ev, <- HL2.
    assert (E : alter (fun _ => L t) k net = take k net ++ L t :: rest).
    { rewrite <- (take_drop_middle _ _ _ Hk) at 1. rewrite alter_app_r_alt by (rewrite take_length; lia).
      rewrite take_length, Nat.min_l by (apply lookup_lt_Some in Hk; lia). rewrite Nat.sub_diag. reflexivity. }
    rewrite E, forward_app. fold x. cbn [forward]. unfold outs. rewrite HL1. reflexivity. }
  assert (Hfw0 : forward net xs = map (sf (last_layer l rest)) (tail_netas l rest ns)).
  { rewrite <- forward_tail. rewrite <- (take_drop_middle _ _ _ Hk) at 1. rewrite forward_app. reflexivity. }
  rewrite Hfw0, map_length in Ht.
  assert (He : length (e_of l rest ns tgt) = length ns) by (apply e_of_len; exact Ht).
  rewrite err_e_of. fold ns. destruct (lookup_lt_is_Some_2 (e_of l rest ns tgt) a) as [e Ee]; [lia|]. exists e. split; [exact Ee|].
  pose proof (energy_lim (fun t n => psi t (sf (last_layer l rest) n)) tgt v rest l gs _ (unit_lims v ns a g d Hg)) as HE. cbv zeta in HE.
  rewrite E0 in HE.
  refine (lim_ext _ _ _ _ _ (lim_eq _ _ _ _ _ (HE _ Hsf Ht _))).
  - intros t. unfold cost. rewrite Hfw. f_equal. generalize (tail_netas l rest (vals gs t)). clear. induction tgt as [|y tgt IH]; intros [|z zs]; cbn; try reflexivity. rewrite IH. reflexivity.
  - f_equal. apply total_unit; [exact Ee|congruence].
  - unfold ns. rewrite netas_len by exact HB. exact Hs'.
  - pose proof (Hc _ Hlast) as Hc'. clear - Hc' Ht. revert Ht. generalize (tail_netas l rest ns). induction tgt as [|y tgt IH]; intros [|z zs] Ht; try discriminate; constructor; [apply Hc'|apply IH; cbn in Ht; congruence].
Qed.

Lemma row_change x (r : list R) b t v : r !! b = Some v -> forall xb, x !! b = Some xb ->
  total (zip_with Rmult x (<[b := t]> r)) = total (zip_with Rmult x r) + xb * (t - v).
Proof.
  revert x b. induction r as [|y r IH]; intros [|z x] [|b] Hv xb Hx; try discriminate.
  - injection Hv as ->. injection Hx as ->. change (xb * t + total (zip_with Rmult x r) = xb * v + total (zip_with Rmult x r) + xb * (t - v)). lra.
  - change (z * y + total (zip_with Rmult x (<[b := t]> r)) = z * y + total (zip_with Rmult x r) + xb * (t - v)). rewrite (IH x b Hv xb Hx). lra.
Qed.
Theorem weight_gradient psi (net : list (slayer R)) xs tgt k a b v : sized (length xs) net -> length tgt = length (forward net xs) -> smooth net xs ->
  (forall lz, last net = Some lz -> fits_cost psi lz) -> weight_at net k a b = Some v ->
  let x := forward (take k net) xs in
  exists e xb, err (drop k net) x tgt !! a = Some e /\ x !! b = Some xb /\
    derivable_pt_lim (fun t => cost psi (forward (set_weight k a b t net) xs) tgt) v (- (e * xb)).
Proof.
  intros Hs Ht Hsm Hc Hw x. unfold weight_at in Hw. apply bind_Some in Hw as (l & Hk & Hw). apply bind_Some in Hw as (r & Hr & Hv).
  pose proof (sized_drop k _ _ Hs) as Hs'. fold x in Hs'. rewrite (drop_S _ _ _ Hk) in Hs'. destruct Hs' as (HW & HB & _).
  assert (Lr : length r = length x) by (rewrite Forall_lookup in HW; exact (HW _ _ Hr)).
  destruct (lookup_lt_is_Some_2 x b) as [xb Hxb]; [apply lookup_lt_Some in Hv; lia|].
  destruct (lookup_lt_is_Some_2 (sB l) a) as [bb Hbb]; [apply lookup_lt_Some in Hr; lia|].
  set (L := fun t => SL (alter (fun r => <[b := t]> r) a (sW l)) (sB l) (sf l) (sd l) (strain l)).
  assert (EW : forall t, alter (fun r => <[b := t]> r) a (sW l) = <[a := <[b := t]> r]> (sW l)).
  { intros t. apply list_eq. intros i. destruct (decide (a = i)) as [<-|Hn].
    - rewrite list_lookup_alter, list_lookup_insert by (eapply lookup_lt_Some; exact Hr). rewrite Hr. reflexivity.
    - rewrite list_lookup_alter_ne, list_lookup_insert_ne by congruence. reflexivity. }
  destruct (unit_gradient psi net xs tgt k l a L (fun t => neta x (<[b := t]> r) bb) v xb Hs Ht Hsm Hc Hk) as (e & He & HD).
  - fold x. rewrite netas_len by exact HB. eapply lookup_lt_Some. exact Hr.
  - reflexivity.
  - intros t. fold x. unfold netas, L. cbn [sW sB]. rewrite EW. apply zip_with_insert. exact Hbb.
  - fold x. unfold netas, L. cbn [sW sB]. rewrite EW. rewrite (list_insert_id r) by exact Hv. rewrite list_insert_id by exact Hr. reflexivity.
  - eapply lim_ext; [intros t; symmetry; rewrite neta_total; rewrite (row_change x r b t v Hv xb Hxb); reflexivity|].
    eapply lim_ext with (f := fun t => (total (zip_with Rmult x r) - xb * v + bb) + xb * id t); [intros t; unfold id; ring|].
    eapply lim_eq; [|apply (derivable_pt_lim_plus (fun _ => total (zip_with Rmult x r) - xb * v + bb) (fun t => xb * id t)); [apply derivable_pt_lim_const|apply (derivable_pt_lim_scal id xb v 1 (derivable_pt_lim_id v))]]. ring.
  - exists e, xb. split; [exact He|]. split; [exact Hxb|]. eapply lim_ext; [|exact HD]. intros t. cbv beta. f_equal. f_equal. unfold set_weight.
    apply list_eq. intros i. destruct (decide (k = i)) as [<-|Hn]; [|rewrite !list_lookup_alter_ne by congruence; reflexivity]. rewrite !list_lookup_alter, Hk. reflexivity.
Qed.
Theorem bias_gradient psi (net : list (slayer R)) xs tgt k a v : sized (length xs) net -> length tgt = length (forward net xs) -> smooth net xs ->
  (forall lz, last net = Some lz -> fits_cost psi lz) -> bias_at net k a = Some v ->
  let x := forward (take k net) xs in
  exists e, err (drop k net) x tgt !! a = Some e /\ derivable_pt_lim (fun t => cost psi (forward (set_bias k a t net) xs) tgt) v (- e).
Proof.
  intros Hs Ht Hsm Hc Hw x. unfold bias_at in Hw. apply bind_Some in Hw as (l & Hk & Hv).
  pose proof (sized_drop k _ _ Hs) as Hs'. fold x in Hs'. rewrite (drop_S _ _ _ Hk) in Hs'. destruct Hs' as (HW & HB & _).
  destruct (lookup_lt_is_Some_2 (sW l) a) as [r Hr]; [apply lookup_lt_Some in Hv; lia|].
  set (L := fun t => SL (sW l) (<[a := t]> (sB l)) (sf l) (sd l) (strain l)).
  destruct (unit_gradient psi net xs tgt k l a L (fun t => neta x r t) v 1 Hs Ht Hsm Hc Hk) as (e & He & HD).
  - fold x. rewrite netas_len by exact HB. eapply lookup_lt_Some. exact Hr.
  - reflexivity.
  - intros t. fold x. unfold netas, L. cbn [sW sB]. apply zip_with_insert_r. exact Hr.
  - fold x. unfold netas, L. cbn [sW sB]. rewrite list_insert_id by exact Hv. reflexivity.
  - eapply lim_ext with (f := fun t => total (zip_with Rmult x r) + id t); [intros t; symmetry; apply neta_total|].
    eapply lim_eq; [|apply (derivable_pt_lim_plus (fun _ => total (zip_with Rmult x r)) id); [apply derivable_pt_lim_const|apply derivable_pt_lim_id]]. ring.
  - exists e. split; [exact He|]. eapply lim_ext; [|eapply lim_eq; [|exact HD]]; [|ring]. intros t. cbv beta. f_equal. f_equal. unfold set_bias.
    apply list_eq. intros i. destruct (decide (k = i)) as [<-|Hn]; [|rewrite !list_lookup_alter_ne by congruence; reflexivity]. rewrite !list_lookup_alter, Hk. reflexivity.
Qed.

(** ** Costs *)
Definition psi_sq (t y : R) : R := (t - y) * (t - y) / 2.
Lemma squares_cost ys tgt : squares ys tgt = cost psi_sq ys tgt.
Proof. reflexivity. Qed.
Lemma linear_fits l : (forall x, sf l x = x) -> fits_cost psi_sq l.
Proof.
  intros Hl t n. rewrite Hl. eapply lim_ext with (f := fun m => psi_sq t m); [intros m; rewrite Hl; reflexivity|]. unfold psi_sq.
  eapply lim_ext with (f := fun m => / 2 * (Rsqr (t - m))); [intros m; unfold Rsqr; field|].
  eapply lim_eq; cycle 1.
  - apply (derivable_pt_lim_scal (fun m => Rsqr (t - m)) (/ 2) n). apply (derivable_pt_lim_comp (fun m => t - m) Rsqr n (0 - 1)).
    + apply (derivable_pt_lim_minus (fun _ => t) id); [apply derivable_pt_lim_const|apply derivable_pt_lim_id].
    + apply derivable_pt_lim_Rsqr.
  - field.
Qed.
Definition psi_ce (t y : R) : R := - (t * ln y + (1 - t) * ln (1 - y)).

Lemma sigmoid_range n : 0 < Sigmoid_Activate n < 1.
Proof.
  unfold Sigmoid_Activate. pose proof (exp_pos (- n)) as He. split.
  - apply Rdiv_lt_0_compat; lra.
  - apply (Rmult_lt_reg_r (1 + exp (- n))); [lra|]. unfold Rdiv. rewrite Rmult_assoc, Rinv_l by lra. lra.
Qed.
Lemma sigmoid_fits l : (forall x, sf l x = Sigmoid_Activate x) -> fits_cost psi_ce l.
Proof.
  intros Hl t n. rewrite Hl. eapply lim_ext with (f := fun m => psi_ce t (Sigmoid_Activate m)); [intros m; rewrite Hl; reflexivity|]. unfold psi_ce.
  pose proof (sigmoid_range n) as [H0 H1]. pose proof (Sigmoid_der n) as Hs. set (y := Sigmoid_Activate n) in *.
  assert (L1 : derivable_pt_lim (fun m => ln (Sigmoid_Activate m)) n (/ y * Sigmoid_Derive n)).
  { apply comp_lim; [exact Hs|]. apply derivable_pt_lim_ln. exact H0. }
  assert (L2 : derivable_pt_lim (fun m => ln (1 - Sigmoid_Activate m)) n (/ (1 - y) * (0 - Sigmoid_Derive n))).
  { apply (comp_lim ln (fun m => 1 - Sigmoid_Activate m)).
    - apply (derivable_pt_lim_minus (fun _ => 1) Sigmoid_Activate); [apply derivable_pt_lim_const|exact Hs].
    - apply derivable_pt_lim_ln. fold y. lra. }
  refine (lim_ext (fun m => - (t * ln (Sigmoid_Activate m) + (1 - t) * ln (1 - Sigmoid_Activate m))) _ _ _ (fun m => eq_refl) _).
  refine (lim_eq _ _ _ _ _ (derivable_pt_lim_opp (fun m => t * ln (Sigmoid_Activate m) + (1 - t) * ln (1 - Sigmoid_Activate m)) n _
    (derivable_pt_lim_plus (fun m => t * ln (Sigmoid_Activate m)) (fun m => (1 - t) * ln (1 - Sigmoid_Activate m)) n _ _
      (derivable_pt_lim_scal _ t n _ L1) (derivable_pt_lim_scal _ (1 - t) n _ L2)))).
  unfold Sigmoid_Derive. fold y. cbv zeta. fold y. field. lra.
Qed.

(** ** A training step *)
Section Step.
Context (rnd : nat -> nat -> R) (s0 : lst R) (build : LM R (model R * list nat)) (ish osh : list N) (low : bool) (net0 : list (slayer R)).
Context (HS : stack_of rnd (rc s0) build ish osh low net0).
Context (acts : list (act R)) (w : world R) (os : list (option (list R))) (HH : history ish osh low (W net0 []) acts w os).

Lemma counts_R : counts_ok (T:=R).
Proof.
  split; cbn.
  - destruct (Req_EM_T (0 + 1) 0); [exfalso; lra|reflexivity].
  - destruct (Rlt_dec 1 (0 + 1)); [exfalso; lra|reflexivity].
Qed.
Theorem descent_claim psi i j xs tgt alpha mo : w_ten w !! i = Some (ish, xs) -> w_ten w !! j = Some (osh, tgt) ->
  Forall (fun l => sB l <> []) (w_net w) -> smooth (w_net w) xs -> (forall lz, last (w_net w) = Some lz -> fits_cost psi lz) ->
  exists net', shows rnd build (acts ++ [ATrainOne i j alpha mo]) s0 (os ++ [Some [loss (w_net w) xs tgt]]) (W net' (w_ten w)) /\
    (forall k l, w_net w !! k = Some l -> strain l = true ->
      (forall a b v, weight_at (w_net w) k a b = Some v ->
        exists D, derivable_pt_lim (fun t => cost psi (forward (set_weight k a b t (w_net w)) xs) tgt) v D /\ weight_at net' k a b = Some (v - alpha * D)) /\
      (forall a v, bias_at (w_net w) k a = Some v ->
        exists D, derivable_pt_lim (fun t => cost psi (forward (set_bias k a t (w_net w)) xs) tgt) v D /\ bias_at net' k a = Some (v - alpha * D))).
Proof.
  intros Hi Hj Hb Hsm Hc.
  destruct (learn_claim rnd s0 build ish osh low net0 counts_R HS acts w os HH i j xs tgt alpha mo Hi Hj Hb Rmult_0_l Rplus_0_r) as [P1 P2].
  exists (learn alpha nzero (w_net w) xs tgt). split; [exact P1|]. intros k l Hk Hl.
  destruct (stack_good _ _ _ _ _ _ _ HS) as [Hg Hne]. destruct (history_good _ _ _ _ _ _ _ HH Hne Hg) as [Hg' Hne'].
  pose proof (good_at _ _ _ _ _ _ Hg' Hi) as Lx. pose proof (good_at _ _ _ _ _ _ Hg' Hj) as Ly.
  assert (Hs : sized (length xs) (w_net w)) by (rewrite Lx; apply (go_net _ _ _ Hg')).
  assert (Ht : length tgt = length (forward (w_net w) xs)).
  { rewrite forward_len by exact Hs. rewrite Ly, Lx. symmetry. rewrite (units_any _ (N.to_nat (prodN osh)) _ Hne'). exact (go_out _ _ _ Hg'). }
  destruct (P2 k l Hk Hl) as (l' & E1 & E2 & E3 & E4 & E5 & E6). split.
  - intros a b v Hv. destruct (weight_gradient psi _ _ _ _ _ _ _ Hs Ht Hsm Hc Hv) as (e & xb & He & Hxb & HD).
    exists (- (e * xb)). split; [exact HD|]. unfold weight_at in *. apply bind_Some in Hv as (l0 & Hk0 & Hv). rewrite Hk in Hk0. injection Hk0 as <-.
    apply bind_Some in Hv as (r & Hr & Hv). destruct (E6 a e r b v He Hr Hv) as (r' & xb' & Hr' & _ & Hxb' & Hv').
    rewrite E1. cbn. rewrite Hr'. cbn. rewrite Hv'. rewrite Hxb in Hxb'. injection Hxb' as <-. f_equal. cbn. ring.
  - intros a v Hv. destruct (bias_gradient psi _ _ _ _ _ _ Hs Ht Hsm Hc Hv) as (e & He & HD).
    exists (- e). split; [exact HD|]. unfold bias_at in *. apply bind_Some in Hv as (l0 & Hk0 & Hv). rewrite Hk in Hk0. injection Hk0 as <-.
    rewrite E1. cbn. rewrite (E5 a e v He Hv). f_equal. cbn. ring.
Qed.
End Step.
