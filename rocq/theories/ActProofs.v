(** * ActProofs: derivatives and ranges of the activation functions *)
From Coq Require Import Reals Lra Lia.
From Verif Require Import ModelAct.
Open Scope R_scope.

Lemma lim_eq f x l l' : derivable_pt_lim f x l -> l = l' -> derivable_pt_lim f x l'.
Proof. intros H <-. exact H. Qed.

(** A function equal to [g] near [x] has the derivative of [g] at [x]. *)
Lemma lim_local f g x l d : 0 < d -> (forall y, Rabs (y - x) < d -> f y = g y) ->
  derivable_pt_lim g x l -> derivable_pt_lim f x l.
Proof.
  intros Hd E Hg eps Heps. destruct (Hg eps Heps) as [[d' Hd'] H]. cbn in H.
  assert (Hm : 0 < Rmin d d') by (apply Rmin_glb_lt; assumption).
  exists (mkposreal _ Hm). cbn. intros h Hh Hlt.
  rewrite (E (x + h)), (E x).
  - apply H; [exact Hh|]. eapply Rlt_le_trans; [exact Hlt|apply Rmin_r].
  - replace (x - x) with 0 by ring. rewrite Rabs_R0. exact Hd.
  - replace (x + h - x) with h by ring. eapply Rlt_le_trans; [exact Hlt|apply Rmin_l].
Qed.
Lemma near_pos x y : 0 < x -> Rabs (y - x) < x -> 0 < y.
Proof. intros Hx H. apply Rabs_def2 in H. lra. Qed.
Lemma near_neg x y : x < 0 -> Rabs (y - x) < - x -> y < 0.
Proof. intros Hx H. apply Rabs_def2 in H. lra. Qed.

Lemma Linear_der x : derivable_pt_lim Linear_Activate x (Linear_Derive x).
Proof. apply derivable_pt_lim_id. Qed.

Lemma Relu_der Alpha x : x <> 0 -> derivable_pt_lim (Relu_Activate Alpha) x (Relu_Derive Alpha x).
Proof.
  intros Hx. unfold Relu_Derive. destruct (Rlt_dec x 0) as [Hn|Hn].
  - apply (lim_local _ (fun t => t * Alpha) _ _ (- x)); [lra| |].
    + intros y Hy. apply near_neg in Hy; [|exact Hn]. unfold Relu_Activate. destruct (Rlt_dec y 0); [reflexivity|lra].
    + eapply lim_eq; [apply (derivable_pt_lim_mult (fun t => t) (fun _ => Alpha)); [apply derivable_pt_lim_id|apply derivable_pt_lim_const]|ring].
  - apply (lim_local _ (fun t => t) _ _ x); [lra| |apply derivable_pt_lim_id].
    intros y Hy. apply near_pos in Hy; [|lra]. unfold Relu_Activate. destruct (Rlt_dec y 0); [lra|reflexivity].
Qed.

(** At 0 the code answers 1, the derivative from the right. *)
Lemma Relu_zero Alpha h : 0 < h -> (Relu_Activate Alpha (0 + h) - Relu_Activate Alpha 0) / h = Relu_Derive Alpha 0.
Proof.
  intros Hh. unfold Relu_Activate, Relu_Derive. destruct (Rlt_dec (0 + h) 0), (Rlt_dec 0 0); try lra. field. lra.
Qed.

Lemma ELU_der_neg Alpha x : x < 0 -> derivable_pt_lim (ELU_Activate Alpha) x (ELU_Derive Alpha x).
Proof.
  intros Hx. unfold ELU_Derive, ELU_Activate at 2. destruct (Rge_dec x 0) as [|_]; [lra|].
  apply (lim_local _ (fun t => Alpha * (exp t - 1)) _ _ (- x)); [lra| |].
  - intros y Hy. apply near_neg in Hy; [|exact Hx]. unfold ELU_Activate. destruct (Rge_dec y 0); [lra|reflexivity].
  - eapply lim_eq.
    + apply (derivable_pt_lim_scal (fun t => exp t - 1)). apply (derivable_pt_lim_minus exp (fun _ => 1)); [apply derivable_pt_lim_exp|apply derivable_pt_lim_const].
    + ring.
Qed.
Lemma ELU_der_pos_one Alpha x : 0 < x -> derivable_pt_lim (ELU_Activate Alpha) x 1.
Proof.
  intros Hx. apply (lim_local _ (fun t => t) _ _ x); [lra| |apply derivable_pt_lim_id].
  intros y Hy. apply near_pos in Hy; [|exact Hx]. unfold ELU_Activate. destruct (Rge_dec y 0); [reflexivity|lra].
Qed.
Lemma ELU_wrong Alpha x : 0 < x -> x <> 1 -> ~ derivable_pt_lim (ELU_Activate Alpha) x (ELU_Derive Alpha x).
Proof.
  intros Hx H1 H. pose proof (uniqueness_limite _ _ _ _ H (ELU_der_pos_one Alpha x Hx)) as E.
  unfold ELU_Derive in E. destruct (Rge_dec x 0); [contradiction|lra].
Qed.
Lemma SELU_der_neg Alpha Lambda x : x < 0 -> derivable_pt_lim (SELU_Activate Alpha Lambda) x (SELU_Derive Alpha Lambda x).
Proof. intros Hx. apply (derivable_pt_lim_scal (ELU_Activate Alpha)). apply ELU_der_neg. exact Hx. Qed.
Lemma SELU_wrong Alpha Lambda x : Lambda <> 0 -> 0 < x -> x <> 1 ->
  ~ derivable_pt_lim (SELU_Activate Alpha Lambda) x (SELU_Derive Alpha Lambda x).
Proof.
  intros Hl Hx H1 H.
  pose proof (uniqueness_limite _ _ _ _ H (derivable_pt_lim_scal _ Lambda _ _ (ELU_der_pos_one Alpha x Hx))) as E.
  unfold SELU_Derive, ELU_Derive in E. destruct (Rge_dec x 0); [|lra].
  apply Rmult_eq_reg_l in E; [contradiction|exact Hl].
Qed.

Lemma den_pos t : 0 < 1 + exp (- t).
Proof. pose proof (exp_pos (- t)). lra. Qed.

Lemma Sigmoid_der x : derivable_pt_lim Sigmoid_Activate x (Sigmoid_Derive x).
Proof.
  pose proof (den_pos x) as Hp.
  assert (H1 : derivable_pt_lim (fun t => 1 + exp (- t)) x (0 + exp (- x) * (- 1))).
  { apply (derivable_pt_lim_plus (fun _ => 1) (fun t => exp (- t))); [apply derivable_pt_lim_const|].
    apply (derivable_pt_lim_comp Ropp exp); [|apply derivable_pt_lim_exp].
    apply (derivable_pt_lim_opp (fun t => t)). apply derivable_pt_lim_id. }
  pose proof (derivable_pt_lim_div (fun _ => 1) (fun t => 1 + exp (- t)) x 0 _ (derivable_pt_lim_const 1 x) H1 ltac:(lra)) as H.
  eapply lim_eq; [exact H|]. unfold Sigmoid_Derive, Sigmoid_Activate, Rsqr. field. lra.
Qed.

Lemma Swish_der x : derivable_pt_lim Swish_Activate x (Swish_Derive x).
Proof.
  pose proof (derivable_pt_lim_mult (fun t => t) Sigmoid_Activate x 1 _ (derivable_pt_lim_id x) (Sigmoid_der x)) as H.
  eapply lim_eq; [exact H|]. unfold Swish_Derive, Swish_Activate, Sigmoid_Derive. ring.
Qed.

Lemma cosh_pos x : 0 < cosh x.
Proof. unfold cosh. pose proof (exp_pos x). pose proof (exp_pos (- x)). lra. Qed.
Lemma cosh_sinh x : cosh x * cosh x - sinh x * sinh x = 1.
Proof.
  unfold cosh, sinh. assert (E : exp x * exp (- x) = 1) by (rewrite <- exp_plus, Rplus_opp_r; apply exp_0).
  replace ((exp x + exp (- x)) / 2 * ((exp x + exp (- x)) / 2) - (exp x - exp (- x)) / 2 * ((exp x - exp (- x)) / 2))
    with (exp x * exp (- x)) by field. exact E.
Qed.
Lemma Tanh_der x : derivable_pt_lim Tanh_Activate x (Tanh_Derive x).
Proof.
  pose proof (cosh_pos x) as Hc.
  pose proof (derivable_pt_lim_div sinh cosh x _ _ (derivable_pt_lim_sinh x) (derivable_pt_lim_cosh x) ltac:(lra)) as H.
  eapply lim_eq; [exact H|]. unfold Tanh_Derive, Rsqr. rewrite cosh_sinh. f_equal. ring.
Qed.
Lemma Sin_der x : derivable_pt_lim Sin_Activate x (Sin_Derive x).
Proof. apply derivable_pt_lim_sin. Qed.

(** ** GELU: the code's quotient is the derivative at a point nearby *)
Definition GELU_inner (x : R) : R := sqrt (2 / PI) * (x + 0.044715 * x ^ 3).
Definition GELU_true (x : R) : R :=
  0.5 * (1 + tanh (GELU_inner x)) + 0.5 * x * (Tanh_Derive (GELU_inner x) * (sqrt (2 / PI) * (1 + 3 * 0.044715 * x ^ 2))).
Lemma GELU_der x : derivable_pt_lim GELU_Activate x (GELU_true x).
Proof.
  assert (Hi : derivable_pt_lim GELU_inner x (sqrt (2 / PI) * (1 + 3 * 0.044715 * x ^ 2))).
  { apply (derivable_pt_lim_scal (fun x => x + 0.044715 * x ^ 3)).
    eapply lim_eq.
    - apply (derivable_pt_lim_plus (fun x => x) (fun x => 0.044715 * x ^ 3)); [apply derivable_pt_lim_id|].
      apply (derivable_pt_lim_scal (fun x => x ^ 3)). apply (derivable_pt_lim_pow x 3).
    - cbn. ring. }
  pose proof (derivable_pt_lim_comp GELU_inner tanh x _ _ Hi (Tanh_der (GELU_inner x))) as Ht.
  assert (H1 : derivable_pt_lim (fun x => 0.5 * x) x (0.5 * 1)).
  { apply (derivable_pt_lim_scal (fun x => x)). apply derivable_pt_lim_id. }
  assert (H2 : derivable_pt_lim (fun x => 1 + tanh (GELU_inner x)) x (0 + Tanh_Derive (GELU_inner x) * (sqrt (2 / PI) * (1 + 3 * 0.044715 * x ^ 2)))).
  { apply (derivable_pt_lim_plus (fun _ => 1) (fun x => tanh (GELU_inner x))); [apply derivable_pt_lim_const|exact Ht]. }
  eapply lim_eq; [exact (derivable_pt_lim_mult _ _ _ _ _ H1 H2)|]. unfold GELU_true. ring.
Qed.
Lemma GELU_near x : exists c, x - GELU_H < c < x + GELU_H /\ derivable_pt_lim GELU_Activate c (GELU_Derive x).
Proof.
  assert (HH : 0 < GELU_H) by (unfold GELU_H; lra).
  destruct (MVT_cor2 GELU_Activate GELU_true (x - GELU_H) (x + GELU_H) ltac:(lra) (fun c _ => GELU_der c)) as (c & E & Hc).
  exists c. split; [exact Hc|]. eapply lim_eq; [apply GELU_der|].
  unfold GELU_Derive. rewrite E. field. lra.
Qed.

(** ** Ranges *)
Lemma Sigmoid_range t : 0 < Sigmoid_Activate t < 1.
Proof.
  unfold Sigmoid_Activate. pose proof (exp_pos (- t)) as He. pose proof (den_pos t) as Hd. split.
  - apply Rdiv_lt_0_compat; lra.
  - apply Rmult_lt_reg_r with (1 + exp (- t)); [exact Hd|]. unfold Rdiv. rewrite Rmult_assoc, Rinv_l by lra. lra.
Qed.
Lemma Sigmoid_increasing a b : a < b -> Sigmoid_Activate a < Sigmoid_Activate b.
Proof.
  intros H. unfold Sigmoid_Activate, Rdiv. rewrite !Rmult_1_l. apply Rinv_lt_contravar.
  - apply Rmult_lt_0_compat; apply den_pos.
  - assert (exp (- b) < exp (- a)) by (apply exp_increasing; lra). lra.
Qed.
Lemma Sigmoid_symmetric t : Sigmoid_Activate (- t) = 1 - Sigmoid_Activate t.
Proof.
  unfold Sigmoid_Activate. rewrite Ropp_involutive. pose proof (den_pos t). pose proof (exp_pos t). pose proof (exp_pos (- t)) as P.
  assert (E : exp t = / exp (- t)) by (rewrite <- exp_Ropp, Ropp_involutive; reflexivity). rewrite E. field. split; lra.
Qed.
Lemma Tanh_range t : -1 < Tanh_Activate t < 1.
Proof.
  unfold Tanh_Activate, tanh. pose proof (cosh_pos t) as Hc.
  assert (H1 : sinh t < cosh t) by (unfold sinh, cosh; pose proof (exp_pos (- t)); lra).
  assert (H2 : - cosh t < sinh t) by (unfold sinh, cosh; pose proof (exp_pos t); lra).
  split; apply Rmult_lt_reg_r with (cosh t); try exact Hc; unfold Rdiv; rewrite Rmult_assoc, Rinv_l by lra; lra.
Qed.
Lemma Sin_range t : -1 <= Sin_Activate t <= 1.
Proof. apply SIN_bound. Qed.
Lemma Relu_monotone Alpha a b : 0 <= Alpha -> a <= b -> Relu_Activate Alpha a <= Relu_Activate Alpha b.
Proof.
  intros HA H. unfold Relu_Activate. destruct (Rlt_dec a 0), (Rlt_dec b 0); try lra.
  - apply Rmult_le_compat_r; assumption.
  - apply Rle_trans with 0; [|lra]. rewrite <- (Rmult_0_l Alpha). apply Rmult_le_compat_r; lra.
Qed.
Lemma Relu_not_monotone Alpha : Alpha < 0 -> Relu_Activate Alpha 0 < Relu_Activate Alpha (-1).
Proof. intros H. unfold Relu_Activate. destruct (Rlt_dec 0 0), (Rlt_dec (-1) 0); lra. Qed.
Lemma ELU_bound Alpha n : 0 <= Alpha -> - Alpha <= ELU_Activate Alpha n.
Proof.
  intros HA. unfold ELU_Activate. destruct (Rge_dec n 0); [lra|]. pose proof (exp_pos n).
  assert (0 <= Alpha * exp n) by (apply Rmult_le_pos; lra). lra.
Qed.
