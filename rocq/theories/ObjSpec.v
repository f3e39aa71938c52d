(** * ObjSpec: vocabulary for statements about tensor objects *)
From Verif Require Import Base Num ModelTools ModelOps ModelTensor Spec Denote.

Section Obj.
Context {T : Type} `{Num T}.

(** Tensor [p] exists, is well-formed, and its shape and data are those of [v]. *)
Definition holds (s : tst T) (p : nat) (v : vten T) : Prop :=
  exists n, tens s !! p = Some n /\ wf_mat (length (mem s)) (nmat n) /\ mval (mem s) (nmat n) = Some v.

(** The scalars of a tensor. *)
Definition cells (s : tst T) (p : nat) : list ptr :=
  match tens s !! p with Some n => operands (nmat n) | None => [] end.
(** No scalar is used at two positions of the tensor. *)
Definition unshared (s : tst T) (p : nat) : Prop := NoDup (cells s p).
(** Two tensors have no scalar in common. *)
Definition apart (s : tst T) (p q : nat) : Prop := forall x, x ∈ cells s p -> x ∈ cells s q -> False.

(** The call returned a new, unshared, plain tensor with value [v], whose
    scalars are all new, and changed nothing else. *)
Definition returns_new (s : tst T) (r : res nat * tst T) (v : vten T) : Prop :=
  exists s' ext ops,
    r = (Ok (length (tens s)), s') /\
    mem s' = mem s ++ ext /\ ctx s' = ctx s /\
    tens s' = tens s ++ [MkNode KMat (MkMat (vsh v) (GetIndexMul (vsh v)) ops false)] /\
    holds s' (length (tens s)) v /\
    NoDup ops /\ Forall (fun p => exists l, p = Some l /\ length (mem s) <= l) ops.

(** As above, or a panic if the value does not exist. *)
Definition returns_new_or_panics (s : tst T) (r : res nat * tst T) (v : option (vten T)) : Prop :=
  match v with
  | Some v => returns_new s r v
  | None => exists s', r = (Panic, s') /\ tens s' = tens s /\ exists ext, mem s' = mem s ++ ext
  end.

(** The call returned an error and changed nothing. *)
Definition refuses {A} (s : tst T) (r : res A * tst T) : Prop := exists e, r = (Err e, s).
End Obj.
