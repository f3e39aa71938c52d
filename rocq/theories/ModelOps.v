(** * ModelOps: operation/*.go, number/scalar.go, graph/graph.go

    A [*number.Scalar[T]] is an address in the memory [list T]; a nil pointer
    is [None].  [cal] is one operation's [Cal] method; [None] is a panic. *)
From Verif Require Import Base Num.

(** number/scalar.go:5-8: pointer to a scalar, possibly nil. *)
Notation ptr := (option nat) (only parsing).

Section Ops.
Context {T : Type} `{Num T}.

(** One constructor per operation type of operation/*.go. The first argument
    is the embedded [*number.Scalar[T]] that [Cal] writes. *)
Inductive op : Type :=
| OScalar (p : ptr)                      (* operation/scalar.go:8-14 *)
| OAbs (d a : ptr)                       (* operation/abs.go *)
| ONeg (d a : ptr)                       (* operation/neg.go *)
| OSet (d a : ptr)                       (* operation/set.go *)
| OFunc (d a : ptr) (f : T -> T)         (* operation/func.go *)
| OAdd (d a b : ptr)                     (* operation/add.go *)
| OSub (d a b : ptr)                     (* operation/sub.go *)
| OMul (d a b : ptr)                     (* operation/mul.go *)
| ODiv (d a b : ptr)                     (* operation/div.go *)
| OEquals (d a b : ptr)                  (* operation/equals.go *)
| OSum (d : ptr) (args : list ptr)       (* operation/sum.go *)
| OAvg (d : ptr) (args : list ptr)       (* operation/avg.go *)
| OMax (d : ptr) (args : list ptr)       (* operation/max_min.go:8-26 *)
| OMin (d : ptr) (args : list ptr).      (* operation/max_min.go:28-46 *)

(** [p.Value]: nil (or a dangling address, which Go cannot have) panics. *)
Definition rd (m : list T) (p : ptr) : option T :=
  match p with Some l => m !! l | None => None end.

(** [p.Value = v] *)
Definition wr (m : list T) (p : ptr) (v : T) : option (list T) :=
  match p with
  | Some l => if decide (l < length m) then Some (<[l := v]> m) else None
  | None => None
  end.

(** [for i := 1; i < size; i++ { acc = f(acc, Args[i].Value) }] *)
Definition red_args (f : T -> T -> T) (vs : list T) : option T :=
  match vs with
  | [] => None                            (* Args[0] out of range *)
  | v :: r => Some (fold_left f r v)
  end.

Definition max2 (num x : T) : T := if nltb num x then x else num. (* max_min.go:20-22 *)
Definition min2 (num x : T) : T := if nltb x num then x else num. (* max_min.go:40-42 *)
Definition abs1 (x : T) : T := if nltb x nzero then nneg x else x. (* abs.go:14-18 *)

(** Reading all arguments in order. *)
Definition rds (m : list T) (ps : list ptr) : option (list T) := mapM (rd m) ps.

(** The value an operation computes (the right-hand side of [p.Value = ...]). *)
Definition op_value (o : op) (m : list T) : option T :=
  match o with
  | OScalar _ => None
  | OAbs _ a => x ← rd m a; Some (abs1 x)                            (* abs.go:13-19 *)
  | ONeg _ a => x ← rd m a; Some (nneg x)                            (* neg.go:13-15 *)
  | OSet _ a => rd m a                                               (* set.go:13-16 *)
  | OFunc _ a f => x ← rd m a; Some (f x)                            (* func.go:16-19 *)
  | OAdd _ a b => x ← rd m a; y ← rd m b; Some (nadd x y)            (* add.go:14-17 *)
  | OSub _ a b => x ← rd m a; y ← rd m b; Some (nsub x y)            (* sub.go:14-17 *)
  | OMul _ a b => x ← rd m a; y ← rd m b; Some (nmul x y)            (* mul.go:14-17 *)
  | ODiv _ a b => x ← rd m a; y ← rd m b; ndiv x y                   (* div.go:14-17 *)
  | OEquals _ a b =>                                                 (* equals.go:14-20 *)
      x ← rd m a; y ← rd m b; Some (if neqb x y then none else nzero)
  | OSum _ args => vs ← rds m args; red_args nadd vs                 (* sum.go:13-23 *)
  | OAvg _ args =>                                                   (* avg.go:13-23 *)
      vs ← rds m args; s ← red_args nadd vs; ndiv s (nofN (ulen args))
  | OMax _ args => vs ← rds m args; red_args max2 vs                 (* max_min.go:13-26 *)
  | OMin _ args => vs ← rds m args; red_args min2 vs                 (* max_min.go:33-46 *)
  end.

(** The scalar an operation writes; operation.Scalar writes nothing. *)
Definition op_dst (o : op) : option ptr :=
  match o with
  | OScalar _ => None
  | OAbs d _ | ONeg d _ | OSet d _ | OFunc d _ _
  | OAdd d _ _ | OSub d _ _ | OMul d _ _ | ODiv d _ _ | OEquals d _ _
  | OSum d _ | OAvg d _ | OMax d _ | OMin d _ => Some d
  end.

(** operation/operation.go: Cal *)
Definition cal (o : op) (m : list T) : option (list T) :=
  match op_dst o with
  | None => Some m                                   (* scalar.go:14 *)
  | Some d => v ← op_value o m; wr m d v
  end.

(** graph/graph.go:47-54 Exec: the operations in order. *)
Fixpoint exec (ops : list op) (m : list T) : option (list T) :=
  match ops with
  | [] => Some m
  | o :: r => m' ← cal o m; exec r m'
  end.
End Ops.
Arguments op T : clear implicits.

(** ** graph/graph.go: a graph is its list of operations. *)
(** graph/graph.go:10-12 *)
Record graph (T : Type) := MkGraph { g_ops : list (op T) }.
Arguments MkGraph {T} g_ops.
Arguments g_ops {T} g.
(** graph/graph.go:27-31 NewEmptyGraph *)
Definition NewEmptyGraph {T} : graph T := MkGraph [].
(** graph/graph.go:33-37 NewFromGraph *)
Definition NewFromGraph {T} (g : graph T) : graph T := MkGraph ([] ++ g_ops g).
(** graph/graph.go:39-41 AddFromGraph (the receiver afterwards) *)
Definition AddFromGraph {T} (p g : graph T) : graph T := MkGraph (g_ops p ++ g_ops g).
(** graph/graph.go:43-45 PushOperations (the receiver afterwards) *)
Definition PushOperations {T} (p : graph T) (ops : list (op T)) : graph T :=
  MkGraph (g_ops p ++ ops).
(** graph/graph.go:47-54 Exec *)
Definition Exec {T} `{Num T} (g : graph T) (m : list T) : option (list T) :=
  exec (g_ops g) m.
