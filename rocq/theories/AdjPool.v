(** * AdjPool: slopes of dense layers and of max pooling *)
From Coq Require Import Reals Lra.
From Verif Require Import Base Num NumReal ModelTools Spec IndexProofs TensorFacts BuildProofs BuildProofs3 EagerOps NetSpec FwdSpec FwdTotal GradSpec GradProofs BwdSpec AdjSpec AdjSum AdjConv AdjDeconv.
From Coq Require Import Lia.
Open Scope R_scope.
#[local] Existing Instance NumR.

(** ** Dense *)
Lemma mapM_map {A B C} (f : B -> option C) (g : A -> B) l : mapM f (map g l) = mapM (fun x => f (g x)) l.
Proof. induction l as [|x l IH]; [reflexivity|]. cbn. rewrite IH. reflexivity. Qed.
Definition pos (sh k : list N) : N := default 0%N (flat sh k).
Lemma pos_lt sh k : inr k sh -> (pos sh k < prodN sh)%N.
Proof. intros Hk. destruct (proj2 (flat_in_range sh k) Hk) as [q Hq]. unfold pos. rewrite Hq. cbn. apply (flat_lt _ _ _ Hq). Qed.
Lemma pos_inj sh k k' : inr k sh -> inr k' sh -> pos sh k = pos sh k' -> k = k'.
Proof.
  intros Hk Hk'. apply elem_of_indices, elem_of_list_lookup in Hk as [a Ha]. apply elem_of_indices, elem_of_list_lookup in Hk' as [b Hb].
  unfold pos. rewrite (proj1 (indices_lookup sh a k) Ha), (proj1 (indices_lookup sh b k') Hb). cbn. intros E. apply Nat2N.inj in E. congruence.
Qed.
Lemma upto_pos sh : upto (prodN sh) = map (pos sh) (indices sh).
Proof.
  apply list_eq. intros k. change (map (pos sh) (indices sh)) with (pos sh <$> indices sh). rewrite list_lookup_fmap. destruct (indices sh !! k) as [q|] eqn:Hq.
  - cbn. unfold pos. rewrite (proj1 (indices_lookup sh k q) Hq). cbn. unfold upto. apply lookup_lt_Some in Hq. rewrite indices_length in Hq.
    change (map N.of_nat (seq 0 (N.to_nat (prodN sh)))) with (N.of_nat <$> seq 0 (N.to_nat (prodN sh))). rewrite list_lookup_fmap, lookup_seq_lt by exact Hq. reflexivity.
  - cbn. apply lookup_ge_None. rewrite upto_length. apply lookup_ge_None in Hq. rewrite indices_length in Hq. exact Hq.
Qed.
Lemma data_pos sh v k : shaped sh v -> inr k sh -> vdata v !! N.to_nat (pos sh k) = Some (ent v k).
Proof.
  intros Hv Hk. rewrite <- (at_ents sh v k Hv Hk). unfold at_, pos. destruct (proj2 (flat_in_range sh k) Hk) as [q Hq]. rewrite Hq. reflexivity.
Qed.

Section Dense.
Variables (o : N) (xsh : list N).
Hypothesis Ho : (0 < o)%N.
Let wsh := [o; prodN xsh].
Definition ecol (u k : list N) : list N := match u with i :: _ => [i; pos xsh k] | _ => [] end.
Lemma ecol_in u k : inr u [o] -> k ∈ indices xsh -> inr (ecol u k) wsh.
Proof using Type. intros Hu Hk. apply inr1 in Hu as (i & -> & Hi). apply elem_of_indices in Hk. repeat constructor; [exact Hi|apply pos_lt; exact Hk]. Qed.
Lemma dense_val b wt x : shaped [o] b -> shaped wsh wt -> shaped xsh x ->
  exists y, v_dense (fun v => v) b wt x = Some y /\ shaped [o] y /\
    forall u, inr u [o] -> ent y u = ent b u + sm (fun k => ent x k * ent wt (ecol u k)) (indices xsh).
Proof using Type.
  clear Ho. intros Hb Hw Hx. unfold v_dense. rewrite (proj1 Hb). apply tabulate_fn. intros u Hu. destruct (inr1 _ _ Hu) as (i & -> & Hi). cbn [head mbind option_bind].
  rewrite (proj2 Hx), N2Nat.id, upto_pos, mapM_map.
  rewrite (mapM_fn _ (fun k => ent x k * ent wt (ecol [i] k))).
  - cbn [mbind option_bind]. rewrite (at_ents [o] b _ Hb Hu). cbn [mbind option_bind]. rewrite sum1_total, total_app. fold (sm (fun k => ent x k * ent wt (ecol [i] k)) (indices xsh)). f_equal. unfold total. cbn [foldr]. lra.
  - intros k Hk. pose proof (ecol_in [i] k Hu Hk) as He. apply elem_of_indices in Hk. rewrite (data_pos xsh x k Hx Hk). cbn [mbind option_bind].
    cbn [ecol] in He. rewrite (at_ent wsh wt _ Hw He). reflexivity.
Qed.

Variables (d b wt x : vten R).
Hypothesis (Hd : shaped [o] d) (Hb : shaped [o] b) (Hw : shaped wsh wt) (Hx : shaped xsh x).
Lemma dense_x_slope idx :
  slope (v_dense (fun v => v) b wt) d x idx (sm (fun u => ent d u * sm (fun k => if decide (k = idx) then ent wt (ecol u k) else 0) (indices xsh)) (indices [o])).
Proof using Hd Hb Hw Hx.
  apply (slope_linear _ d x idx xsh [o] (ent b) (fun _ => indices xsh) (fun _ k => k) (fun u k => ent wt (ecol u k))); [exact Hd|exact Hx|intros u k _ Hk; apply elem_of_indices; exact Hk|].
  intros x' Hx'. apply dense_val; assumption.
Qed.
Lemma dense_w_slope idx :
  slope (fun wt => v_dense (fun v => v) b wt x) d wt idx (sm (fun u => ent d u * sm (fun k => if decide (ecol u k = idx) then ent x k else 0) (indices xsh)) (indices [o])).
Proof using Hd Hb Hw Hx.
  apply (slope_linear _ d wt idx wsh [o] (ent b) (fun _ => indices xsh) ecol (fun u k => ent x k)); [exact Hd|exact Hw|exact ecol_in|].
  intros w' Hw'. destruct (dense_val b w' x Hb Hw' Hx) as (y & Hy & Hs & He). exists y. split; [exact Hy|]. split; [exact Hs|].
  intros u Hu. rewrite (He u Hu). f_equal. apply sm_ext. intros k Hk. apply Rmult_comm.
Qed.
Lemma dense_b_slope idx : inr idx [o] -> slope (fun b => v_dense (fun v => v) b wt x) d b idx (ent d idx).
Proof using Hd Hb Hw Hx.
  intros Hi.
  apply (slope_eq _ _ _ _ (sm (fun u => ent d u * sm (fun k => if decide (u = idx) then 1 else 0) [tt]) (indices [o]))).
  { rewrite (sm_one _ idx); [rewrite sm_cons, sm_nil, decide_True by reflexivity; lra|apply indices_NoDup|apply elem_of_indices; exact Hi|].
    intros u _ Hne. rewrite sm_cons, sm_nil, decide_False by exact Hne. lra. }
  apply (slope_linear _ d b idx [o] [o] (fun u => sm (fun k => ent x k * ent wt (ecol u k)) (indices xsh)) (fun _ => [tt]) (fun u _ => u) (fun _ _ => 1)); [exact Hd|exact Hb|auto|].
  intros b' Hb'. destruct (dense_val b' wt x Hb' Hw Hx) as (y & Hy & Hs & He). exists y. split; [exact Hy|]. split; [exact Hs|].
  intros u Hu. rewrite (He u Hu), sm_cons, sm_nil. lra.
Qed.
Theorem dense_x_grad a p : shaped xsh a -> shaped xsh p -> exists g, g_dense_in d wt a p = Some g /\ shaped xsh g /\ forall idx, inr idx xsh ->
  exists s, slope (v_dense (fun v => v) b wt) d x idx s /\ ent g idx = ent p idx + s * ent a idx.
Proof using All.
  intros Ha Hp. unfold g_dense_in. rewrite (proj1 Hd), (proj2 Hp), N2Nat.id, upto_pos, mapM_map.
  rewrite (mapM_fn _ (fun k => ent p k + sm (fun u => ent d u * ent wt (ecol u k)) (indices [o]) * ent a k)).
  - cbn [mbind option_bind]. rewrite (proj1 Hp). eexists. split; [reflexivity|]. split; [split; [reflexivity|cbn [vdata]; rewrite map_length; apply indices_length]|].
    intros idx Hi. eexists. split; [apply dense_x_slope|]. rewrite (ent_list xsh _ idx Hi). f_equal. f_equal. apply sm_ext. intros u Hu. f_equal.
    symmetry. rewrite (sm_one _ idx); [rewrite decide_True by reflexivity; reflexivity|apply indices_NoDup|apply elem_of_indices; exact Hi|].
    intros k _ Hne. rewrite decide_False by exact Hne. reflexivity.
  - intros k Hk. apply elem_of_indices in Hk. change (nth 0 [o] 0%N) with o.
    rewrite (mapM_fn _ (fun j => ent d [j] * ent wt (ecol [j] k))).
    + cbn [mbind option_bind]. rewrite fold1_sm by (intros E; apply (f_equal length) in E; rewrite upto_length in E; cbn in E; lia). cbn [mbind option_bind].
      rewrite (data_pos xsh a k Ha Hk), (data_pos xsh p k Hp Hk). cbn [mbind option_bind]. do 3 f_equal.
      change (indices [o]) with (flat_map (fun i => map (cons i) [[]]) (upto o)). rewrite sm_flat. apply sm_ext. intros j _. rewrite sm_map, sm_cons, sm_nil. lra.
    + intros j Hj. apply elem_of_upto in Hj. rewrite (el_ent [o] d) by (try exact Hd; repeat constructor; exact Hj). cbn [mbind option_bind].
      rewrite (el_ent wsh wt) by (first [exact Hw | apply (ecol_in [j] k); [repeat constructor; exact Hj|apply elem_of_indices; exact Hk]]). reflexivity.
Qed.
Theorem dense_w_grad al mo m : shaped wsh m -> exists g, g_dense_w al mo d x wt m = Some g /\ shaped wsh g /\ forall idx, inr idx wsh ->
  exists s, slope (fun wt => v_dense (fun v => v) b wt x) d wt idx s /\ ent g idx = ent wt idx + ent m idx * mo + al * s.
Proof using Hd Hb Hw Hx.
  intros Hm. unfold g_dense_w. rewrite (proj1 Hw). refine (tabulate_rel _ _ (fun idx r => exists s, slope (fun wt => v_dense (fun v => v) b wt x) d wt idx s /\ r = ent wt idx + ent m idx * mo + al * s) _). intros idx Hi. eexists. split. 2:{ eexists. split; [apply dense_w_slope|reflexivity]. }
  destruct (inr2 _ _ _ Hi) as (i & j & -> & Hi' & Hj).
  assert (Hk : exists k, inr k xsh /\ pos xsh k = j).
  { assert (Hj' : j ∈ upto (prodN xsh)) by (apply elem_of_upto; exact Hj). rewrite upto_pos in Hj'. change (map (pos xsh) (indices xsh)) with (pos xsh <$> indices xsh) in Hj'.
    apply elem_of_list_fmap in Hj' as (k & -> & Hk). exists k. split; [apply elem_of_indices; exact Hk|reflexivity]. }
  destruct Hk as (k & Hk & <-). rewrite (el_ent [o] d) by (try exact Hd; repeat constructor; exact Hi'). cbn [mbind option_bind]. rewrite (data_pos xsh x k Hx Hk). cbn [mbind option_bind].
  rewrite (el_ent wsh wt _ Hw Hi). cbn [mbind option_bind]. rewrite (el_ent wsh m _ Hm Hi). cbn [mbind option_bind]. f_equal. cbn [nadd nmul NumR]. f_equal.
  rewrite (sm_one _ [i]); [|apply indices_NoDup|apply elem_of_indices; repeat constructor; exact Hi'|].
  - rewrite (sm_one _ k); [rewrite decide_True by reflexivity; lra|apply indices_NoDup|apply elem_of_indices; exact Hk|].
    intros k' Hk' Hne. apply elem_of_indices in Hk'. rewrite decide_False; [reflexivity|]. cbn [ecol]. intros [= E]. apply Hne. apply (pos_inj xsh); assumption.
  - intros u Hu Hne. apply elem_of_indices, inr1 in Hu as (i' & -> & _). rewrite sm_none; [lra|]. intros k' _. cbn [ecol]. rewrite decide_False by congruence. reflexivity.
Qed.
Theorem dense_b_grad al mo m : shaped [o] m -> exists g, g_dense_b al mo d b m = Some g /\ shaped [o] g /\ forall idx, inr idx [o] ->
  exists s, slope (fun b => v_dense (fun v => v) b wt x) d b idx s /\ ent g idx = ent b idx + ent m idx * mo + al * s.
Proof using Hd Hb Hw Hx.
  intros Hm. unfold g_dense_b. rewrite (proj1 Hb). refine (tabulate_rel _ _ (fun idx r => exists s, slope (fun b => v_dense (fun v => v) b wt x) d b idx s /\ r = ent b idx + ent m idx * mo + al * s) _). intros idx Hi. eexists. split. 2:{ eexists. split; [apply dense_b_slope; exact Hi|reflexivity]. }
  rewrite (el_ent [o] d _ Hd Hi), (el_ent [o] b _ Hb Hi), (el_ent [o] m _ Hm Hi). cbn [mbind option_bind]. f_equal. cbn [nadd nmul NumR]. lra.
Qed.
End Dense.

(** ** Max pooling *)
Lemma loc_lim f x l e : 0 < e -> (forall t, Rabs t < e -> f (x + t) = f x + l * t) -> derivable_pt_lim f x l.
Proof.
  intros He Hf eps Hp. exists (mkposreal e He). cbn. intros t Ht Hl. rewrite (Hf t Hl). replace ((f x + l * t - f x) / t - l) with 0 by (field; exact Ht). rewrite Rabs_R0. exact Hp.
Qed.
(** The maximum: one of the values, none is larger. *)
Lemma max_spec l : l <> [] -> exists v, reduce RedMax l = Some v /\ v ∈ l /\ forall u, u ∈ l -> u <= v.
Proof.
  destruct l as [|a l]; [congruence|]. intros _. cbn [reduce fold1]. set (f := fun m x : R => if nltb m x then x else m).
  assert (Hf : forall a b, (a < b /\ f a b = b) \/ (~ a < b /\ f a b = a)).
  { intros x y. unfold f. cbn [nltb NumR]. destruct (Rlt_dec x y); auto. }
  clearbody f. eexists. split; [reflexivity|]. revert a. induction l as [|b l IH]; intros a; cbn [fold_left].
  - split; [left|]. intros u Hu. apply elem_of_list_singleton in Hu as ->. lra.
  - destruct (Hf a b) as [[Hab ->]|[Hab ->]].
    + destruct (IH b) as [H1 H2]. split; [right; exact H1|]. intros u Hu. apply elem_of_cons in Hu as [-> | Hu]; [|apply H2; exact Hu].
      pose proof (H2 b ltac:(left)). lra.
    + destruct (IH a) as [H1 H2]. split; [apply elem_of_cons in H1 as [H1|H1]; [rewrite H1 at 1; left|right; right; exact H1]|].
      intros u Hu. apply elem_of_cons in Hu as [-> | Hu]; [apply H2; left|]. apply elem_of_cons in Hu as [-> | Hu]; [|apply H2; right; exact Hu]. pose proof (H2 a ltac:(left)). lra.
Qed.
Lemma max_uniq l v : v ∈ l -> (forall u, u ∈ l -> u <= v) -> reduce RedMax l = Some v.
Proof.
  intros Hv Hu. destruct (max_spec l) as (v' & E & Hv' & Hu'); [intros ->; apply elem_of_nil in Hv as []|]. rewrite E. f_equal. apply Rle_antisym; auto.
Qed.
Lemma gap (l : list R) x : Forall (fun u => u < x) l -> exists e, 0 < e /\ Forall (fun u => u + e <= x) l.
Proof.
  induction 1 as [|u l Hu _ IH]; [exists 1; split; [lra|constructor]|]. destruct IH as (e & He & Hl). exists (Rmin e (x - u)). split; [apply Rmin_glb_lt; lra|].
  pose proof (Rmin_l e (x - u)). pose proof (Rmin_r e (x - u)). constructor; [lra|]. eapply Forall_impl; [exact Hl|]. cbv beta. intros z Hz. lra.
Qed.
Section Max.
Context {A : Type} `{EqDecision A} (l : list A) (idx : A) (g : A -> R).
Hypothesis Hl : l <> [].
Let at_r (r : R) : list R := map (fun q => if decide (q = idx) then r else g q) l.
Definition mx (r : R) : R := default 0 (reduce RedMax (at_r r)).
Lemma mx_some r : reduce RedMax (at_r r) = Some (mx r).
Proof using Hl. unfold mx. destruct (max_spec (at_r r)) as (v & E & _); [unfold at_r; destruct l; [congruence|discriminate]|]. rewrite E. reflexivity. Qed.
Lemma in_at r u : u ∈ at_r r <-> (idx ∈ l /\ u = r) \/ exists q, q ∈ l /\ q <> idx /\ u = g q.
Proof using Type.
  unfold at_r. change (map ?f l) with (f <$> l). rewrite elem_of_list_fmap. split.
  - intros (q & -> & Hq). destruct (decide (q = idx)) as [-> |E]; [left; auto|right; eauto].
  - intros [[Hi ->]|(q & Hq & E & ->)]; [exists idx; rewrite decide_True by reflexivity; auto|]. exists q. rewrite decide_False by exact E. auto.
Qed.
Lemma mx_lim : (forall q, q ∈ l -> q <> idx -> g q <> g idx) ->
  derivable_pt_lim mx (g idx) (if decide (idx ∈ l) then if Req_EM_T (g idx) (mx (g idx)) then 1 else 0 else 0).
Proof using Hl.
  intros Hne. destruct (decide (idx ∈ l)) as [Hi|Hi].
  2:{ apply (loc_lim _ _ _ 1); [lra|]. intros t _. replace (mx (g idx + t)) with (mx (g idx)); [lra|]. unfold mx. do 2 f_equal. unfold at_r. apply map_ext_in. intros q Hq.
      apply elem_of_list_In in Hq. rewrite !decide_False by (intros ->; contradiction). reflexivity. }
  pose proof (mx_some (g idx)) as E. destruct (max_spec (at_r (g idx))) as (v & Ev & Hin & Hup); [intros E0; rewrite E0 in E; discriminate|].
  rewrite Ev in E. injection E as E. destruct (Req_EM_T (g idx) (mx (g idx))) as [Ei|Ei].
  - destruct (gap (map g (List.filter (fun q => negb (bool_decide (q = idx))) l)) (g idx)) as (e & He & Hg).
    { apply Forall_forall. intros u Hu. change (map ?f ?k) with (f <$> k) in Hu. apply elem_of_list_fmap in Hu as (q & -> & Hq). apply filter_in in Hq as [Hq Hp].
      apply negb_true_iff, bool_decide_eq_false in Hp. pose proof (Hup (g q)) as Hb. pose proof (Hne q Hq Hp). assert (g q ∈ at_r (g idx)) by (apply in_at; right; eauto). specialize (Hb ltac:(assumption)). lra. }
    apply (loc_lim _ _ _ e He). intros t Ht. rewrite <- Ei. assert (Em : reduce RedMax (at_r (g idx + t)) = Some (g idx + t)).
    { apply max_uniq; [apply in_at; left; auto|]. intros u Hu. apply in_at in Hu as [[_ ->]|(q & Hq & Hp & ->)]; [lra|].
      rewrite Forall_forall in Hg. specialize (Hg (g q)). apply Rabs_def2 in Ht. assert (g q + e <= g idx); [|lra]. apply Hg. change (map ?f ?k) with (f <$> k). apply elem_of_list_fmap. exists q. split; [reflexivity|].
      apply elem_of_list_In, filter_In. split; [apply elem_of_list_In; exact Hq|]. apply negb_true_iff, bool_decide_eq_false_2. exact Hp. }
    unfold mx at 1. rewrite Em. cbn. lra.
  - apply in_at in Hin as [[_ Hv]|(q & Hq & Hp & Hv)]; [congruence|]. assert (Hlt : g idx < v). { pose proof (Hup (g idx) ltac:(apply in_at; left; auto)). destruct (Rle_lt_or_eq_dec _ _ H) as [Hlt|Heq]; [exact Hlt|congruence]. }
    apply (loc_lim _ _ _ (v - g idx)); [lra|]. intros t Ht. apply Rabs_def2 in Ht. assert (Em : reduce RedMax (at_r (g idx + t)) = Some v).
    { apply max_uniq; [apply in_at; right; exists q; auto|]. intros u Hu. apply in_at in Hu as [[_ ->]|(q' & Hq' & Hp' & ->)]; [lra|]. apply Hup. apply in_at. right. eauto. }
    rewrite <- E. unfold mx. rewrite Em. cbn. lra.
Qed.
End Max.

Lemma lims_sm {A} (fs : A -> R -> R) (ds : A -> R) t0 l : (forall x, x ∈ l -> derivable_pt_lim (fs x) t0 (ds x)) -> derivable_pt_lim (fun t => sm (fun x => fs x t) l) t0 (sm ds l).
Proof.
  induction l as [|x l IH]; intros Hf; [apply (derivable_pt_lim_const 0)|].
  refine (derivable_pt_lim_plus (fs x) (fun t => sm (fun x => fs x t) l) t0 (ds x) (sm ds l) (Hf x _) (IH _)); [left|intros y Hy; apply Hf; right; exact Hy].
Qed.
Section Pool.
Variables (c w h sx sy : N).
Let xsh := [c; w; h].
Let osh := [c; (w + 1) / sx; (h + 1) / sy]%N.
(** The cells of the window of an output cell. *)
Definition wcells (o : list N) : list (list N) := match o with [f; X; Y] => map (fun q => [f; fst q; snd q]) (window sx sy w h X Y) | _ => [] end.
Lemma wcells_in o q : inr o osh -> q ∈ wcells o -> inr q xsh.
Proof using Type.
  intros Ho Hq. apply inr3 in Ho as (f & X & Y & -> & Hf & _). cbn in Hq. apply elem_of_list_fmap in Hq as ([i j] & -> & Hq). unfold window in Hq. apply filter_in in Hq as [_ Hq].
  cbn in *. apply andb_true_iff in Hq as [H1 H2]. apply N.ltb_lt in H1, H2. apply mk3; assumption.
Qed.
Lemma wcells_NoDup o : NoDup (wcells o).
Proof using Type.
  destruct o as [|f [|X [|Y [|? ?]]]]; try constructor. cbn. apply NoDup_fmap_2; [intros [a b] [a' b']; cbn; congruence|]. unfold window. apply NoDup_ListNoDup, List.NoDup_filter, NoDup_ListNoDup.
  generalize (NoDup_upto sx). generalize (upto sx) as l. induction l as [|i l IH]; intros Hn; [constructor|]. apply NoDup_cons in Hn as [Hi Hn]. cbn. apply NoDup_app. split; [|split].
  - apply NoDup_fmap_2; [intros a b [= E]; lia|apply NoDup_upto].
  - intros [a b] Ha Hb. apply elem_of_list_fmap in Ha as (j & E & _). apply elem_of_list_In, in_flat_map in Hb as (i' & Hi' & Hb). apply in_map_iff in Hb as (j' & E' & _). apply Hi.
    assert (i' = i) by (inversion E; inversion E'; lia). subst. apply elem_of_list_In. exact Hi'.
  - apply IH. exact Hn.
Qed.
Section Val.
Variable (x : vten R).
Hypothesis (Hx : shaped xsh x) (Hne : forall o, inr o osh -> wcells o <> []).
Lemma pool_val : exists y, v_pool sx sy x = Some y /\ shaped osh y /\ forall o, inr o osh -> Some (ent y o) = reduce RedMax (map (ent x) (wcells o)).
Proof using All.
  unfold v_pool. rewrite (proj1 Hx). fold osh.
  destruct (tabulate_fn osh (fun idx => match idx with [f; X; Y] => l ← mapM (fun p => at_ [c; w; h] (vdata x) [f; fst p; snd p]) (window sx sy w h X Y); reduce RedMax l | _ => None end)
     (fun o => default 0 (reduce RedMax (map (ent x) (wcells o))))) as (y & Hy & Hs & He).
  - intros o Ho. pose proof (wcells_in o) as Hw. pose proof (Hne o Ho) as Hn. destruct (inr3 _ _ _ _ Ho) as (f & X & Y & -> & _). cbn [wcells] in *.
    rewrite (mapM_fn _ (fun q => ent x [f; fst q; snd q])).
    + cbn [mbind option_bind]. rewrite map_map. destruct (max_spec (map (fun q => ent x [f; fst q; snd q]) (window sx sy w h X Y))) as (v & Ev & _).
      { intros E. apply map_eq_nil in E. rewrite E in Hn. apply Hn. reflexivity. }
      rewrite Ev. reflexivity.
    + intros q Hq. apply (at_ents xsh x); [exact Hx|]. apply Hw; [exact Ho|]. apply elem_of_list_fmap. eauto.
  - exists y. split; [exact Hy|]. split; [exact Hs|]. intros o Ho. rewrite (He o Ho). destruct (max_spec (map (ent x) (wcells o))) as (v & Ev & _).
    { intros E. apply map_eq_nil in E. exact (Hne o Ho E). }
    rewrite Ev. reflexivity.
Qed.
End Val.

Variables (x d : vten R).
Hypothesis (Hx : shaped xsh x) (Hd : shaped osh d) (Hne : forall o, inr o osh -> wcells o <> []).
(** No other cell of a window has the same value. *)
Definition alone (idx : list N) : Prop := forall o q, inr o osh -> idx ∈ wcells o -> q ∈ wcells o -> q <> idx -> ent x q <> ent x idx.
Theorem pool_grad p : shaped xsh p -> exists y g, v_pool sx sy x = Some y /\ g_pool sx sy d x y p = Some g /\ shaped xsh g /\ forall idx, inr idx xsh -> alone idx ->
  exists s, slope (v_pool sx sy) d x idx s /\ ent g idx = ent p idx + s.
Proof using All.
  intros Hp. destruct (pool_val x Hx Hne) as (y & Hy & Hys & Hye). exists y.
  enough (Hg : exists g, g_pool sx sy d x y p = Some g /\ shaped xsh g /\ forall idx, inr idx xsh -> alone idx -> exists s, slope (v_pool sx sy) d x idx s /\ ent g idx = ent p idx + s).
  { destruct Hg as (g & Hg). exists g. split; [exact Hy|exact Hg]. }
  unfold g_pool. rewrite (proj1 Hx), (proj1 Hp), (proj1 Hys). refine (tabulate_rel _ _ (fun idx r => alone idx -> exists s, slope (v_pool sx sy) d x idx s /\ r = ent p idx + s) _). intros idx Hi.
  set (val := fun o r => mx (wcells o) idx (ent x) r).
  set (der := fun o => if decide (idx ∈ wcells o) then if Req_EM_T (ent x idx) (ent y o) then 1 else 0 else 0).
  exists (ent p idx + sm (fun o => ent d o * der o) (indices osh)). split; cycle 1.
  - intros Hdist. exists (sm (fun o => ent d o * der o) (indices osh)). split; [|reflexivity]. exists (fun r => sm (fun o => ent d o * val o r) (indices osh)). split.
    + intros r. destruct (pool_val (vset x idx r) (vset_shaped xsh x idx r Hx) Hne) as (z & Hz & Hzs & Hze). exists z. split; [exact Hz|].
      rewrite (weighted_sm osh d z Hd Hzs). apply sm_ext. intros o Ho. apply elem_of_indices in Ho. f_equal. unfold val.
      specialize (Hze o Ho). rewrite (map_ext_in _ (fun q => if decide (q = idx) then r else ent x q)) in Hze.
      2:{ intros q Hq. apply elem_of_list_In in Hq. apply (ent_vset xsh); [exact Hx|]. apply (wcells_in o q Ho Hq). }
      unfold mx. rewrite <- Hze. reflexivity.
    + apply (lims_sm (fun o r => ent d o * val o r) (fun o => ent d o * der o)). intros o Ho. apply elem_of_indices in Ho.
      refine (derivable_pt_lim_scal (val o) (ent d o) (ent x idx) (der o) _).
      assert (Em : mx (wcells o) idx (ent x) (ent x idx) = ent y o).
      { unfold mx. rewrite (map_ext _ (ent x)) by (intros q; destruct (decide (q = idx)) as [-> |]; reflexivity). rewrite <- (Hye o Ho). reflexivity. }
      destruct (decide (idx ∈ wcells o)) as [Hin|Hin].
      * pose proof (mx_lim (wcells o) idx (ent x) (Hne o Ho) (fun q Hq E => Hdist o q Ho Hin Hq E)) as L. unfold der. rewrite decide_True in L |- * by exact Hin. rewrite Em in L. exact L.
      * unfold der. rewrite decide_False by exact Hin. apply (loc_lim _ _ _ 1); [lra|]. intros t _. replace (val o (ent x idx + t)) with (val o (ent x idx)); [lra|].
        unfold val, mx. do 2 f_equal. apply map_ext_in. intros q Hq. apply elem_of_list_In in Hq. rewrite !decide_False by (intros ->; contradiction). reflexivity.
  - rewrite (mapM_fn _ (fun k => ent d (fst k) * (if Req_EM_T (ent x idx) (ent y (fst k)) then 1 else 0))).
    + cbn [mbind option_bind]. rewrite (el_ent xsh p _ Hp Hi). cbn [mbind option_bind]. rewrite fold_sm. do 2 f_equal. rewrite sm_filter. unfold windows. rewrite sm_flat. apply sm_ext. intros o Ho.
      destruct (in3 _ _ _ _ Ho) as (f & X & Y & -> & _). apply elem_of_indices in Ho. rewrite sm_map.
      transitivity (sm (fun q => if bool_decide (q = idx) then ent d [f; X; Y] * (if Req_EM_T (ent x idx) (ent y [f; X; Y]) then 1 else 0) else 0) (wcells [f; X; Y])); [cbn [wcells]; rewrite sm_map; reflexivity|].
      unfold der. destruct (decide (idx ∈ wcells [f; X; Y])) as [Hin|Hin].
      * rewrite (sm_one _ idx); [rewrite bool_decide_eq_true_2 by reflexivity; reflexivity|apply wcells_NoDup|exact Hin|]. intros q _ E. rewrite bool_decide_eq_false_2 by exact E. reflexivity.
      * rewrite sm_none; [lra|]. intros q Hq. rewrite bool_decide_eq_false_2; [reflexivity|]. intros ->. contradiction.
    + intros k Hk. apply filter_in in Hk as [Hk _]. unfold windows in Hk. apply elem_of_list_In, in_flat_map in Hk as (o & Ho & Hk). apply elem_of_list_In in Ho.
      destruct (in3 _ _ _ _ Ho) as (f & X & Y & -> & _). apply elem_of_indices in Ho. apply in_map_iff in Hk as (q & <- & Hq). cbn [fst].
      rewrite (el_ent osh d _ Hd Ho), (el_ent xsh x _ Hx Hi), (el_ent osh y _ Hys Ho). cbn [mbind option_bind]. f_equal. unfold same. cbn [neqb none nzero nmul NumR].
      destruct (Req_EM_T (ent x idx) (ent y [f; X; Y])); reflexivity.
Qed.
(** The derivative above: where the maximum is reached once, that of the cell
    that reaches it. *)
Theorem pool_der_one y a g : v_pool sx sy x = Some y -> shaped xsh a -> g_pool_der sx sy x y a = Some g -> forall o q, inr o osh ->
  q ∈ wcells o -> (forall q', q' ∈ wcells o -> q' <> q -> ent x q' < ent x q) -> ent g o = ent a q.
Proof using Hx Hne.
  intros Hy Ha Hg o q Ho Hq Hm. destruct (pool_val x Hx Hne) as (y' & Hy' & Hys & Hye). rewrite Hy in Hy'. injection Hy' as <-.
  unfold g_pool_der in Hg. rewrite (proj1 Hx), (proj1 Hys) in Hg. apply (tabulate_ent _ _ _ _ _ Hg Ho). clear Hg.
  assert (Em : ent y o = ent x q).
  { assert (E : reduce RedMax (map (ent x) (wcells o)) = Some (ent x q)).
    { apply max_uniq; [apply elem_of_list_fmap; eauto|]. intros u Hu. apply elem_of_list_fmap in Hu as (q' & -> & Hq'). destruct (decide (q' = q)) as [-> |E]; [lra|]. specialize (Hm q' Hq' E). lra. }
    rewrite <- (Hye o Ho) in E. congruence. }
  pose proof (wcells_in o) as Hin. pose proof (wcells_NoDup o) as Hnd. pose proof (Hne o Ho) as Hn. destruct (inr3 _ _ _ _ Ho) as (f & X & Y & -> & _).
  rewrite (el_ent osh y _ Hys Ho). cbn [mbind option_bind].
  rewrite (mapM_fn _ (fun q0 => ent a [f; fst q0; snd q0] * (if Req_EM_T (ent x [f; fst q0; snd q0]) (ent x q) then 1 else 0))).
  - cbn [mbind option_bind]. rewrite fold1_sm by (intros E; apply Hn; cbn [wcells]; rewrite E; reflexivity). f_equal.
    transitivity (sm (fun u => ent a u * (if Req_EM_T (ent x u) (ent x q) then 1 else 0)) (wcells [f; X; Y])); [cbn [wcells]; rewrite sm_map; reflexivity|].
    rewrite (sm_one _ q); [|exact Hnd|exact Hq|].
    + destruct (Req_EM_T (ent x q) (ent x q)); [lra|congruence].
    + intros q' Hq' E. specialize (Hm q' Hq' E). destruct (Req_EM_T (ent x q') (ent x q)); lra.
  - intros q0 Hq0. assert (Hr : inr [f; fst q0; snd q0] xsh) by (apply Hin; [exact Ho|apply elem_of_list_fmap; eauto]).
    rewrite (el_ent xsh a _ Ha Hr), (el_ent xsh x _ Hx Hr). cbn [mbind option_bind]. f_equal. rewrite Em. unfold same. cbn [neqb none nzero nmul NumR].
    destruct (Req_EM_T (ent x [f; fst q0; snd q0]) (ent x q)); reflexivity.
Qed.
End Pool.
