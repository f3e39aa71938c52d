(** * P_Act: activation functions over the reals (C51, C52) *)
From Coq Require Import Reals Lra.
From Verif Require Import ModelAct ActProofs.
Open Scope R_scope.

(** ** C51: [Derive] is the derivative of [Activate] *)
Theorem C51_linear (x : R) : derivable_pt_lim Linear_Activate x (Linear_Derive x).
Proof. exact (Linear_der x). Qed.
Print Assumptions C51_linear.
Theorem C51_relu (Alpha x : R) : x <> 0 -> derivable_pt_lim (Relu_Activate Alpha) x (Relu_Derive Alpha x).
Proof. exact (Relu_der Alpha x). Qed.
Print Assumptions C51_relu.
Theorem C51_relu_at_zero (Alpha h : R) : 0 < h ->
  (Relu_Activate Alpha (0 + h) - Relu_Activate Alpha 0) / h = Relu_Derive Alpha 0.
Proof. exact (Relu_zero Alpha h). Qed.
Print Assumptions C51_relu_at_zero.
Theorem C51_sigmoid (x : R) : derivable_pt_lim Sigmoid_Activate x (Sigmoid_Derive x).
Proof. exact (Sigmoid_der x). Qed.
Print Assumptions C51_sigmoid.
Theorem C51_swish (x : R) : derivable_pt_lim Swish_Activate x (Swish_Derive x).
Proof. exact (Swish_der x). Qed.
Print Assumptions C51_swish.
Theorem C51_tanh (x : R) : derivable_pt_lim Tanh_Activate x (Tanh_Derive x).
Proof. exact (Tanh_der x). Qed.
Print Assumptions C51_tanh.
Theorem C51_sin (x : R) : derivable_pt_lim Sin_Activate x (Sin_Derive x).
Proof. exact (Sin_der x). Qed.
Print Assumptions C51_sin.

(** ELU and SELU.  Missing: non-negative inputs, where the code is wrong (it
    returns n instead of 1). *)
Theorem C51_elu_partial (Alpha x : R) : x < 0 -> derivable_pt_lim (ELU_Activate Alpha) x (ELU_Derive Alpha x).
Proof. exact (ELU_der_neg Alpha x). Qed.
Print Assumptions C51_elu_partial.
Theorem C51_selu_partial (Alpha Lambda x : R) : x < 0 ->
  derivable_pt_lim (SELU_Activate Alpha Lambda) x (SELU_Derive Alpha Lambda x).
Proof. exact (SELU_der_neg Alpha Lambda x). Qed.
Print Assumptions C51_selu_partial.
Theorem C51_elu_refuted : exists Alpha x, derivable_pt_lim (ELU_Activate Alpha) x 1 /\
  ~ derivable_pt_lim (ELU_Activate Alpha) x (ELU_Derive Alpha x).
Proof. exact (ex_intro _ 1 (ex_intro _ 2 (conj (ELU_der_pos_one 1 2 ltac:(lra)) (ELU_wrong 1 2 ltac:(lra) ltac:(lra))))). Qed.
Print Assumptions C51_elu_refuted.
(** It is wrong for every alpha at every positive input other than 1. *)
Theorem C51_elu_always_wrong (Alpha x : R) : 0 < x -> x <> 1 ->
  ~ derivable_pt_lim (ELU_Activate Alpha) x (ELU_Derive Alpha x).
Proof. exact (ELU_wrong Alpha x). Qed.
Print Assumptions C51_elu_always_wrong.
Theorem C51_selu_refuted : exists Alpha Lambda x,
  ~ derivable_pt_lim (SELU_Activate Alpha Lambda) x (SELU_Derive Alpha Lambda x).
Proof. exact (ex_intro _ 1 (ex_intro _ 1 (ex_intro _ 2 (SELU_wrong 1 1 2 ltac:(lra) ltac:(lra) ltac:(lra))))). Qed.
Print Assumptions C51_selu_refuted.

(** GELU's difference quotient is the derivative at a point within 10^-6. *)
Theorem C51_gelu (x : R) : exists c, x - 0.000001 < c < x + 0.000001 /\ derivable_pt_lim GELU_Activate c (GELU_Derive x).
Proof. exact (GELU_near x). Qed.
Print Assumptions C51_gelu.

Example C51_case : Relu_Derive (1 / 10) (-3) = 1 / 10 /\ Sigmoid_Derive 0 = 1 / 4 /\ Swish_Derive 0 = 1 / 2 /\
  Tanh_Derive 0 = 1 /\ Sin_Derive 0 = 1 /\ ELU_Derive 1 2 = 2 /\ (-3 <> 0)%R.
Proof.
  unfold Relu_Derive, Sigmoid_Derive, Swish_Derive, Swish_Activate, Sigmoid_Activate, Tanh_Derive, Sin_Derive, ELU_Derive, cosh.
  rewrite Ropp_0, exp_0, cos_0. destruct (Rlt_dec (-3) 0); [|lra]. destruct (Rge_dec 2 0); [|lra].
  repeat split; try reflexivity; try field; lra.
Qed.

(** ** C52: ranges *)
Theorem C52_sigmoid (t : R) : 0 < Sigmoid_Activate t < 1.
Proof. exact (Sigmoid_range t). Qed.
Print Assumptions C52_sigmoid.
Theorem C52_sigmoid_increasing (a b : R) : a < b -> Sigmoid_Activate a < Sigmoid_Activate b.
Proof. exact (Sigmoid_increasing a b). Qed.
Print Assumptions C52_sigmoid_increasing.
Theorem C52_sigmoid_symmetric (t : R) : Sigmoid_Activate (- t) = 1 - Sigmoid_Activate t.
Proof. exact (Sigmoid_symmetric t). Qed.
Print Assumptions C52_sigmoid_symmetric.
Theorem C52_tanh (t : R) : -1 < Tanh_Activate t < 1.
Proof. exact (Tanh_range t). Qed.
Print Assumptions C52_tanh.
Theorem C52_sin (t : R) : -1 <= Sin_Activate t <= 1.
Proof. exact (Sin_range t). Qed.
Print Assumptions C52_sin.
Theorem C52_relu (Alpha a b : R) : 0 <= Alpha -> a <= b -> Relu_Activate Alpha a <= Relu_Activate Alpha b.
Proof. exact (Relu_monotone Alpha a b). Qed.
Print Assumptions C52_relu.
(** The condition on alpha is needed. *)
Theorem C52_relu_negative_alpha (Alpha : R) : Alpha < 0 -> Relu_Activate Alpha 0 < Relu_Activate Alpha (-1).
Proof. exact (Relu_not_monotone Alpha). Qed.
Print Assumptions C52_relu_negative_alpha.
Theorem C52_elu (Alpha n : R) : 0 <= Alpha -> - Alpha <= ELU_Activate Alpha n.
Proof. exact (ELU_bound Alpha n). Qed.
Print Assumptions C52_elu.
Example C52_case : Sigmoid_Activate 0 = 1 / 2 /\ Tanh_Activate 0 = 0 /\ Relu_Activate (1 / 2) (-4) = -2 /\ 0 <= 1 / 2 /\ (-4 <= 3)%R /\ Relu_Activate (1 / 2) 3 = 3.
Proof.
  unfold Sigmoid_Activate, Tanh_Activate, tanh, sinh, cosh, Relu_Activate. rewrite Ropp_0, exp_0.
  destruct (Rlt_dec (-4) 0); [|lra]. destruct (Rlt_dec 3 0); [lra|]. repeat split; try field; lra.
Qed.
