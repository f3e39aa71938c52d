(** * Denote: which mathematical expression a tensor object stands for

    Only the object graph that the user builds with the constructors is looked
    at here; nothing depends on how it is compiled. *)
From Verif Require Import Base Num ModelTools ModelOps ModelTensor ModelGraph Spec.

Section Denote.
Context {T : Type} `{Num T}.

Definition valid (n : nat) (p : ptr) : Prop := exists l, p = Some l /\ l < n.

(** A tensor object whose scalars all exist, with row-major strides and as many
    scalars as its shape says. [n] is the size of the memory. *)
Definition wf_mat (n : nat) (m : tmat) : Prop :=
  fits (shape m) /\
  mulindex m = GetIndexMul (shape m) /\
  length (operands m) = N.to_nat (prodN (shape m)) /\
  Forall (valid n) (operands m).

(** The value held by a tensor object in memory [m]. *)
Definition mval (m : list T) (mt : tmat) : option (vten T) :=
  d ← rds m (operands mt); Some (V (shape mt) d).

Definition bop (o : oper2) : binop :=
  match o with Op2Add => BAdd | Op2Sub => BSub | Op2Mul => BMul | Op2Div => BDiv end.
Definition rop (o : redop) : reduction :=
  match o with RSum => RedSum | RAvg => RedAvg | RMin => RedMin | RMax => RedMax end.

(** Object [id] stands for expression [e]: its operands are older objects, its
    input tensors are well-formed and live in the first [n] memory cells. *)
Inductive denotes (n : nat) (tns : list (node T)) : nat -> expr T -> Prop :=
| D_leaf id m :
    tns !! id = Some (MkNode KMat m) -> wf_mat n m -> denotes n tns id (ELeaf id)
| D_abs id m t e :
    tns !! id = Some (MkNode (KAbs t) m) -> t < id -> denotes n tns t e ->
    denotes n tns id (EMap absv e)
| D_neg id m t e :
    tns !! id = Some (MkNode (KNeg t) m) -> t < id -> denotes n tns t e ->
    denotes n tns id (EMap nneg e)
| D_activate id m t f e :
    tns !! id = Some (MkNode (KActivate t f) m) -> t < id -> denotes n tns t e ->
    denotes n tns id (EMap f e)
| D_op2 id m a b o ea eb :
    tns !! id = Some (MkNode (KOp2 a b o) m) -> a < id -> b < id ->
    denotes n tns a ea -> denotes n tns b eb ->
    denotes n tns id (EBin (bop o) ea eb)
| D_opscalar id m t sc o e :
    tns !! id = Some (MkNode (KOpScalar t (Some sc) o) m) -> t < id -> sc < n ->
    denotes n tns t e -> denotes n tns id (EScal (bop o) e sc)
| D_concat id m a b d ea eb :
    tns !! id = Some (MkNode (KConcat a b d) m) -> a < id -> b < id ->
    denotes n tns a ea -> denotes n tns b eb ->
    denotes n tns id (ECat ea eb (N.to_nat d))
| D_dimmath id m t d o e :
    tns !! id = Some (MkNode (KDimMath t d o) m) -> t < id -> denotes n tns t e ->
    denotes n tns id (EDim (rop o) (N.to_nat d) e)
| D_dot id m a b ea eb :
    tns !! id = Some (MkNode (KDot a b None) m) -> a < id -> b < id ->
    denotes n tns a ea -> denotes n tns b eb ->
    denotes n tns id (EMatMul ea eb)
| D_dotat id m a b da db ea eb :
    tns !! id = Some (MkNode (KDot a b (Some (da, db))) m) -> a < id -> b < id ->
    denotes n tns a ea -> denotes n tns b eb ->
    denotes n tns id (EDot ea eb (N.to_nat da) (N.to_nat db))
| D_reshape id m t e :
    tns !! id = Some (MkNode (KReshape t) m) -> t < id -> denotes n tns t e ->
    denotes n tns id (EReshape e (shape m))
| D_softmax id m t e :
    tns !! id = Some (MkNode (KSoftMax t) m) -> t < id -> denotes n tns t e ->
    denotes n tns id (ESoft e)
| D_sub id m t d s u e :
    tns !! id = Some (MkNode (KSub t d s u false) m) -> t < id -> denotes n tns t e ->
    denotes n tns id (ESub e (N.to_nat d) s u)
| D_subx id m t d s u e :
    tns !! id = Some (MkNode (KSub t d s u true) m) -> t < id -> denotes n tns t e ->
    denotes n tns id (ESubX e (N.to_nat d) s u)
| D_tensormath id m t o e :
    tns !! id = Some (MkNode (KTensorMath t o) m) -> t < id -> denotes n tns t e ->
    denotes n tns id (EReduce (rop o) e)
| D_transpose id m t e :
    tns !! id = Some (MkNode (KTranspose t) m) -> t < id -> denotes n tns t e ->
    denotes n tns id (ETrans e).

(** Shape and current data of the input tensors. *)
Definition leafsh (tns : list (node T)) (id : nat) : option (list N) :=
  match tns !! id with Some (MkNode KMat m) => Some (shape m) | _ => None end.
Definition leafv (tns : list (node T)) (m : list T) (id : nat) : option (vten T) :=
  match tns !! id with Some (MkNode KMat mt) => mval m mt | _ => None end.

(** Tensor operands of an object, and the objects below it. *)
Definition children (k : kind T) : list nat :=
  match k with
  | KMat => []
  | KAbs t | KNeg t | KActivate t _ | KOpScalar t _ _ | KFill t _ | KDimMath t _ _
  | KReshape t | KSoftMax t | KSub t _ _ _ _ | KTensorMath t _ | KTranspose t => [t]
  | KOp2 a b _ | KConcat a b _ | KCopy a b | KDot a b _ => [a; b]
  end.
Inductive below (tns : list (node T)) : nat -> nat -> Prop :=
| B_refl id : below tns id id
| B_step id n c j : tns !! id = Some n -> c ∈ children (nkind n) -> below tns c j -> below tns id j.

Definition is_leaf (k : kind T) : bool := match k with KMat => true | _ => false end.

(** No operation of the expression has been compiled before. *)
Definition uncompiled (tns : list (node T)) (id : nat) : Prop :=
  forall j n, below tns id j -> tns !! j = Some n -> is_leaf (nkind n) = false ->
    builded (nmat n) = false.
End Denote.

(** Memories that can arise once a graph [g] has been compiled: the initial
    one, after writing any value into a cell that existed before compiling (the
    inputs and scalar parameters), and after executing the graph. *)
Inductive history {T} `{Num T} (g : graph T) (nlow : nat) (m0 : list T) : list T -> Prop :=
| Hist_start : history g nlow m0 m0
| Hist_write m l x : history g nlow m0 m -> l < nlow -> history g nlow m0 (<[l := x]> m)
| Hist_exec m m' : history g nlow m0 m -> Exec g m = Some m' -> history g nlow m0 m'.
