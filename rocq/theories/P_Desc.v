(** * P_Desc: the property theorems of C75 and C76 *)
From Coq Require Import Reals Lra.
From Verif Require Import Base Num NumReal ModelTools ModelTensor ModelLayer ModelModel ModelAct Spec NetSpec FwdSpec FwdNet FwdChain FwdScript BwdSpec
  TrnSpec TrnScript TrnProg TrnTotal TrnMain AdjSpec DescSpec DescProg.
From Verif Require ActProofs.
From Coq Require Import Lia.
Open Scope R_scope.
#[local] Existing Instance NumR.

Section P.
Context (rnd : nat -> nat -> R) (s : lst R).

(** [m0], [ks], [cs], [par]: as for C71. [x], [y]: input and wanted output that
    the program has made. After any history, one call of TrainOne moves every
    cell of every bias and all weights by alpha times the layer's speed against
    the derivative of the cost, and adds the momentum of the bias. *)
Theorem C75_gradient m0 ks cs osh : is_chain (length (lays s)) m0 ks cs osh -> chain_runs (in_of m0) cs ->
  exists par, starts rnd (in_of m0) par cs /\
  forall acts st os, thistory (in_of m0) osh cs (MkT [] par (still par) every) acts st os ->
  forall psi i j x y al mo, t_vals st !! i = Some x -> t_vals st !! j = Some y -> vsh x = in_of m0 -> vsh y = osh -> chain_smooth (t_par st) x cs -> ends psi cs ->
    exists k par' s' M tids, tprogram rnd m0 ks (acts ++ [TTrain i j al mo]) s = (Ok (seq (length (lays s)) (S (length ks)), (M, tids, os ++ [Some [k]])), s') /\
      (forall p, p ∈ cs -> c_par p = true -> net_par s' (mem (ts s')) (c_i p) = s_keep (t_tr st) (t_par st) par' (c_i p)) /\ goes_down psi cs x y (t_mom st) al mo (t_par st) par'.
Proof.
  intros His Hrun. destruct (step_claim rnd s m0 ks cs osh His Hrun) as (par & Hst & H). exists par. split; [exact Hst|]. intros acts st os Hh psi i j x y al mo H1 H2 H3 H4 H5 H6. exact (proj1 (H acts st os Hh psi i j x y H1 H2 H3 H4 H5 H6) al mo).
Qed.
(** Which cost belongs to the error of the last layer: half the squared
    difference if it has no activation, the cross entropy if it has a sigmoid. *)
Theorem C75_costs c cs l : c_l c = Some l -> has_par l = true ->
  ((forall m, lact l m = Linear_Activate m) -> (forall m, c_d c m = Linear_Derive m) -> ends half_square (c :: cs)) /\
  ((forall m, lact l m = Sigmoid_Activate m) -> (forall m, c_d c m = Sigmoid_Derive m) -> ends cross_entropy (c :: cs)).
Proof. intros El Hp. split; intros Hf Hd; exists l; (split; [exact El|]); (split; [exact Hp|]); [exact (matches_linear c l Hf Hd)|exact (matches_sigmoid c l Hf Hd)]. Qed.

(** Small steps without momentum make the cost smaller, unless all derivatives
    are zero. *)
Theorem C76_small_steps m0 ks cs osh : is_chain (length (lays s)) m0 ks cs osh -> chain_runs (in_of m0) cs ->
  exists par, starts rnd (in_of m0) par cs /\
  forall acts st os, thistory (in_of m0) osh cs (MkT [] par (still par) every) acts st os ->
  forall psi i j x y, t_vals st !! i = Some x -> t_vals st !! j = Some y -> vsh x = in_of m0 -> vsh y = osh -> (forall p, p ∈ cs -> c_par p = true -> t_tr st (c_i p) = true) -> chain_smooth (t_par st) x cs -> ends psi cs -> not_flat psi cs x y (t_par st) ->
    exists a0, 0 < a0 /\ forall al, 0 < al < a0 -> exists k par' s' M tids e0 e1,
      tprogram rnd m0 ks (acts ++ [TTrain i j al 0]) s = (Ok (seq (length (lays s)) (S (length ks)), (M, tids, os ++ [Some [k]])), s') /\
      (forall p, p ∈ cs -> c_par p = true -> net_par s' (mem (ts s')) (c_i p) = par' (c_i p)) /\ costs psi (t_par st) x y cs e0 /\ costs psi par' x y cs e1 /\ e1 < e0.
Proof.
  intros His Hrun. destruct (step_claim rnd s m0 ks cs osh His Hrun) as (par & Hst & H). exists par. split; [exact Hst|]. intros acts st os Hh psi i j x y H1 H2 H3 H4 Ht H5 H6. exact (proj2 (H acts st os Hh psi i j x y H1 H2 H3 H4 H5 H6) Ht).
Qed.
End P.
Print Assumptions C75_gradient.
Print Assumptions C75_costs.
Print Assumptions C76_small_steps.

(** ** Concrete cases *)
Section Cases.
Definition a_lin : activation R := MkAct Linear_Activate Linear_Derive.
Definition a_sig : activation R := MkAct Sigmoid_Activate Sigmoid_Derive.
Definition ds0 : lst R := MkL (MkSt [] [] []) [] 0.
(** An image, pooling, a convolution with a sigmoid, flattening, one unit. *)
Definition dm0 : FwdScript.mk R := MInput [1; 2; 2]%N.
Definition dks : list (lay1 R) := [KPool 2 2; KConv 1 1 1 1 1 a_sig; KFlat; KDense 1 a_lin].
Definition dcs : list (clay R) := match chain_of 0 dm0 dks with Some cs => cs | None => [] end.
Definition dx : vten R := V [1; 2; 2]%N [1; 2; 4; 3].
Example C75_chain : is_chain 0 dm0 dks dcs [1]%N.
Proof.
  split; [repeat constructor|]. split; [reflexivity|]. split; [|reflexivity]. eexists _, _. split; [reflexivity|]. split; [discriminate|reflexivity].
Qed.
Example C75_runs : chain_runs (in_of dm0) dcs.
Proof. repeat split; intros l [= <-]; cbn; try lia; repeat split; lia. Qed.
Example C75_smooth par : chain_smooth par dx dcs.
Proof.
  unfold dcs. cbn -[win indices s_out lay_val]. split; [split; [|exact I]|split; [split; [discriminate|exact I]|split; [split; [|split; reflexivity]|split; [split; [discriminate|]|split; exact I]]]].
  - intros _ v n _ _. apply Forall_forall. intros m _. apply ActProofs.Linear_der.
  - intros _ v n _ _. apply Forall_forall. intros m _. apply ActProofs.Sigmoid_der.
  - intros v o Ev Ho. cbn in Ev. injection Ev as <-. vm_compute in Ho. apply elem_of_list_singleton in Ho as ->. change (win 2 2 (vsh dx) [0; 0; 0]%N) with [[0; 0; 0]; [0; 0; 1]; [0; 1; 0]; [0; 1; 1]]%N.
    exists [0; 1; 0]%N. split; [right; right; left|]. intros q Hq Hne. change (ent dx [0; 1; 0]%N) with 4.
    apply elem_of_cons in Hq as [-> |Hq]; [change (1 < 4); lra|]. apply elem_of_cons in Hq as [-> |Hq]; [change (2 < 4); lra|]. apply elem_of_cons in Hq as [-> |Hq]; [congruence|].
    apply elem_of_cons in Hq as [-> |Hq]; [change (3 < 4); lra|]. apply elem_of_nil in Hq as [].
Qed.
Example C75_ends : ends half_square dcs.
Proof. refine (proj1 (C75_costs (MkClay 4 (Some (SDense 1 Linear_Activate)) Linear_Derive [1]%N) _ _ eq_refl eq_refl) _ _); reflexivity. Qed.
Example C75_case rnd y : exists par, starts rnd [1; 2; 2]%N par dcs /\
  forall al mo, exists k par' s' M tids, tprogram rnd dm0 dks [TNew [1; 2; 2]%N [1; 2; 4; 3]; TNew [1]%N [y]; TTrain 0 1 al mo] ds0 = (Ok (seq 0 5, (M, tids, [Some []; Some []; Some [k]])), s') /\
    (forall p, p ∈ dcs -> c_par p = true -> net_par s' (mem (ts s')) (c_i p) = par' (c_i p)) /\ goes_down half_square dcs dx (V [1]%N [y]) (still par) al mo par par'.
Proof.
  destruct (C75_gradient rnd ds0 dm0 dks dcs [1]%N C75_chain C75_runs) as (par & Hst & H). exists par. split; [exact Hst|]. intros al mo.
  refine (H [TNew [1; 2; 2]%N [1; 2; 4; 3]; TNew [1]%N [y]] (MkT [dx; V [1]%N [y]] par (still par) every) [Some []; Some []] _ half_square 0%nat 1%nat dx (V [1]%N [y]) al mo eq_refl eq_refl eq_refl eq_refl (C75_smooth par) C75_ends).
  econstructor; [apply ts_new; [cbv; repeat constructor|reflexivity]|]. econstructor; [apply ts_new; [cbv; repeat constructor|reflexivity]|]. constructor.
Qed.
(** Convolution and unit learn at full speed. A unit below a flattening layer
    learns at half speed. *)
Example C75_speeds : speed 0 dcs 4 = 1 /\ speed 0 dcs 2 = 1 /\ exists cs, chain_of 0 (MDenseIn 1 1 a_lin) [KFlat; KDense 1 a_lin] = Some cs /\ speed 0 cs 2 = 1 /\ speed 0 cs 0 = / 2.
Proof.
  split; [change (/ 1 = 1); lra|]. split; [change (/ 1 * (1 * 1) = 1); lra|]. eexists. split; [reflexivity|]. split; [change (/ 1 = 1); lra|change (/ 1 * (1 * / (1 + 1)) = / 2); lra].
Qed.

(** One unit with a sigmoid and one without activation; all weights are zero. *)
Definition em0 : FwdScript.mk R := MDenseIn 1 1 a_sig.
Definition eks : list (lay1 R) := [KDense 1 a_lin].
Definition ecs : list (clay R) := [MkClay 1 (Some (SDense 1 Linear_Activate)) Linear_Derive [1]%N; MkClay 0 (Some (SDense 1 Sigmoid_Activate)) Sigmoid_Derive [1]%N].
Example C76_chain : is_chain 0 em0 eks ecs [1]%N.
Proof.
  split; [repeat constructor|]. split; [reflexivity|]. split; [|reflexivity]. eexists _, _. split; [reflexivity|]. split; [discriminate|reflexivity].
Qed.
Example C76_runs : chain_runs (in_of em0) ecs.
Proof. repeat split; intros l [= <-]; cbn; try lia; repeat split; lia. Qed.
Example C76_smooth par x : chain_smooth par x ecs.
Proof.
  unfold ecs. cbn -[s_out lay_val]. split; [split; [|exact I]|split; [split; [|exact I]|exact I]]; intros _ v n _ _; apply Forall_forall; intros m _; [apply ActProofs.Linear_der|apply ActProofs.Sigmoid_der].
Qed.
Example one_unit f b w x : v_dense f (V [1]%N [b]) (V [1; 1]%N [w]) (V [1]%N [x]) = Some (V [1]%N [f (x * w + b)]).
Proof. reflexivity. Qed.
Example C76_not_flat par : starts (fun _ _ => 0) [1]%N par ecs -> not_flat half_square ecs (V [1]%N [2]) (V [1]%N [1]) par.
Proof.
  intros (H1 & H0 & _). destruct (H1 _ _ _ eq_refl eq_refl) as (b1 & w1 & E1 & (k1 & ->) & (k2 & ->)). destruct (H0 _ _ _ eq_refl eq_refl) as (b0 & w0 & E0 & (k3 & ->) & (k4 & ->)).
  change (par 1%nat = Some (V [1]%N [0], V [1; 1]%N [0])) in E1. change (par 0%nat = Some (V [1]%N [0], V [1; 1]%N [0])) in E0.
  exists (MkClay 1 (Some (SDense 1 Linear_Activate)) Linear_Derive [1]%N), (V [1]%N [0]), (V [1; 1]%N [0]), [0]%N, (-1). split; [left|]. split; [reflexivity|]. split; [exact E1|]. split; [lra|]. left. split; [left|].
  exists (fun r => (1 - r) * (1 - r) / 2). split.
  - intros r. exists (V [1]%N [Linear_Activate (Sigmoid_Activate (2 * 0 + 0) * 0 + r)]). split.
    + unfold ecs. cbn [s_out c_l c_i mbind option_bind]. unfold set_b. cbn [Nat.eqb]. rewrite E0, E1. reflexivity.
    + cbn. unfold half_square, Linear_Activate. lra.
  - change (ent (V [1]%N [0]) [0]%N) with 0. destruct (matches_linear (MkClay 1 None Linear_Derive [1]%N) (SDense 1 Linear_Activate) (fun _ => eq_refl) (fun _ => eq_refl) 1 0) as (D & HD & ED). unfold half_square in HD. cbn in ED, HD. unfold Linear_Derive, Linear_Activate in ED, HD.
    replace (-1) with D by lra. exact HD.
Qed.
Example C76_case : exists par, starts (fun _ _ => 0) [1]%N par ecs /\ exists a0, 0 < a0 /\ forall al, 0 < al < a0 -> exists k par' s' M tids e0 e1,
  tprogram (fun _ _ => 0) em0 eks [TNew [1]%N [2]; TNew [1]%N [1]; TTrain 0 1 al 0] ds0 = (Ok (seq 0 2, (M, tids, [Some []; Some []; Some [k]])), s') /\
  (forall p, p ∈ ecs -> c_par p = true -> net_par s' (mem (ts s')) (c_i p) = par' (c_i p)) /\
  costs half_square par (V [1]%N [2]) (V [1]%N [1]) ecs e0 /\ costs half_square par' (V [1]%N [2]) (V [1]%N [1]) ecs e1 /\ e1 < e0.
Proof.
  destruct (C76_small_steps (fun _ _ => 0) ds0 em0 eks ecs [1]%N C76_chain C76_runs) as (par & Hst & H). exists par. split; [exact Hst|].
  refine (H [TNew [1]%N [2]; TNew [1]%N [1]] (MkT [V [1]%N [2]; V [1]%N [1]] par (still par) every) [Some []; Some []] _ half_square 0%nat 1%nat _ _ eq_refl eq_refl eq_refl eq_refl (fun _ _ _ => eq_refl) (C76_smooth par _) _ (C76_not_flat par Hst)).
  - econstructor; [apply ts_new; [cbv; repeat constructor|reflexivity]|]. econstructor; [apply ts_new; [cbv; repeat constructor|reflexivity]|]. constructor.
  - exact (proj1 (C75_costs (MkClay 1 (Some (SDense 1 Linear_Activate)) Linear_Derive [1]%N) _ _ eq_refl eq_refl) (fun _ => eq_refl) (fun _ => eq_refl)).
Qed.
End Cases.
