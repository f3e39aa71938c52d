(** * ModelAct: activation/*.go over the real numbers

    The Go code is generic in a number type and calls package math on float64.
    Here numbers are reals and math.Exp, Tanh, Cosh, Sin, Cos, Sqrt and Pow are
    the real functions: no rounding, overflow or NaN, and no truncation for
    integer types. *)
From Coq Require Import Reals.
Open Scope R_scope.

(** activation/linear.go:7-13 *)
Definition Linear_Activate (n : R) : R := n.
Definition Linear_Derive (_ : R) : R := 1.

(** activation/relu.go:11-23 *)
Definition Relu_Activate (Alpha t : R) : R := if Rlt_dec t 0 then t * Alpha else t.
Definition Relu_Derive (Alpha t : R) : R := if Rlt_dec t 0 then Alpha else 1.

(** activation/elu.go:13-25 *)
Definition ELU_Activate (Alpha n : R) : R := if Rge_dec n 0 then n else Alpha * (exp n - 1).
Definition ELU_Derive (Alpha n : R) : R := if Rge_dec n 0 then n else ELU_Activate Alpha n + Alpha.

(** activation/selu.go:12-18 *)
Definition SELU_Activate (Alpha Lambda n : R) : R := Lambda * ELU_Activate Alpha n.
Definition SELU_Derive (Alpha Lambda n : R) : R := Lambda * ELU_Derive Alpha n.

(** activation/sigmoid.go:11-18 *)
Definition Sigmoid_Activate (t : R) : R := 1 / (1 + exp (- t)).
Definition Sigmoid_Derive (t : R) : R := let a := Sigmoid_Activate t in a * (1 - a).

(** activation/swish.go:11-17 *)
Definition Swish_Activate (t : R) : R := t * Sigmoid_Activate t.
Definition Swish_Derive (t : R) : R := Swish_Activate t + Sigmoid_Activate t * (1 - Swish_Activate t).

(** activation/tanh.go:11-17 *)
Definition Tanh_Activate (t : R) : R := tanh t.
Definition Tanh_Derive (t : R) : R := 1 / cosh t ^ 2.

(** activation/sin.go:11-17 *)
Definition Sin_Activate (t : R) : R := sin t.
Definition Sin_Derive (t : R) : R := cos t.

(** activation/gelu.go:11-24; T(0.000001) is not zero for reals *)
Definition GELU_Activate (x : R) : R :=
  0.5 * x * (1 + tanh (sqrt (2 / PI) * (x + 0.044715 * x ^ 3))).
Definition GELU_H : R := 0.000001.
Definition GELU_Derive (x : R) : R :=
  (GELU_Activate (x + GELU_H) - GELU_Activate (x - GELU_H)) / (2 * GELU_H).
