(** * BwdPost: what it means that code pushes operations which compute something

    Used to state what the loops of back-propagation do. *)
From Verif Require Import Base Num ModelOps ModelTensor ExecProofs.

Section BwdPost.
Context {T : Type} `{Num T}.
(** [k] new scalars and the operations [ops]. *)
Definition grown (t : tst T) (k : nat) (ops : list (op T)) : tst T := MkSt (mem t ++ replicate k nzero) (tens t) (ctx t ++ ops).
(** [f] run on [t0] succeeds, allocates and pushes and does nothing else; what
    it pushes writes to its own new scalars and to scalars in [O] only; and
    executing it succeeds on every memory and relates the memory before and
    after by [P]. *)
Definition does (t0 : tst T) (f : TM T unit) (O : nat -> Prop) (P : list T -> list T -> Prop) : Prop :=
  exists k ops, f t0 = (Ok tt, grown t0 k ops) /\ (forall d, dst_in d ops -> length (mem t0) <= d < length (mem t0) + k \/ O d) /\
    forall m, length (mem t0) + k <= length m -> exists m', exec ops m = Some m' /\ P m m'.
(** Two tensors without a common scalar. *)
Definition apart (A B : tmat) : Prop := forall l, Some l ∈ operands A -> Some l ∉ operands B.
Definition within (A : tmat) (l : nat) : Prop := Some l ∈ operands A.
(** The value of a scalar. *)
Definition cell (m : list T) (x : nat) : T := default nzero (m !! x).
End BwdPost.
