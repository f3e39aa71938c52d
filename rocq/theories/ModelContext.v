(** * ModelContext: context/context.go, the linked list itself

    Nodes live in a heap [nodes]; a [*node] is an index or nil.  The rest of
    the development uses the plain list that this structure is proved to
    represent. *)
From Verif Require Import Base.

Section Context.
Context {A : Type}.

(** context/context.go:5-8 *)
Record cnode := { cn_op : A; cn_next : option nat }.

(** context/context.go:10-14, plus the heap its nodes live in *)
Record context := {
  c_size : N;
  c_start : option nat;
  c_end : option nat;
  c_nodes : list cnode;
}.

(** context/context.go:16-18 NewCTX; [heap] is whatever is allocated already *)
Definition NewCTX (heap : list cnode) : context :=
  {| c_size := 0; c_start := None; c_end := None; c_nodes := heap |}.

(** context/context.go:20-32 Push *)
Definition Push (c : context) (o : A) : res context :=
  let n := length (c_nodes c) in
  let heap := c_nodes c ++ [{| cn_op := o; cn_next := None |}] in
  let size := uadd (c_size c) 1 in
  match c_start c with
  | None =>
      Ok {| c_size := size; c_start := Some n; c_end := Some n; c_nodes := heap |}
  | Some _ =>
      match c_end c with
      | None => Panic                       (* p.end.next with p.end == nil *)
      | Some e =>
          match heap !! e with
          | None => Panic
          | Some en =>
              let heap' := <[e := {| cn_op := cn_op en; cn_next := Some n |}]> heap in
              Ok {| c_size := size; c_start := c_start c; c_end := Some n;
                    c_nodes := heap' |}
          end
      end
  end.

(** context/context.go:38-41: follow [size] links, panicking on nil *)
Fixpoint walk (heap : list cnode) (n : nat) (cur : option nat) : res (list A) :=
  match n with
  | O => Ok []
  | S n' =>
      match cur with
      | None => Panic
      | Some i =>
          match heap !! i with
          | None => Panic
          | Some nd => res_bind (walk heap n' (cn_next nd)) (fun r => Ok (cn_op nd :: r))
          end
      end
  end.

(** context/context.go:34-42 GetOps *)
Definition GetOps (c : context) : res (list A) :=
  walk (c_nodes c) (N.to_nat (c_size c)) (c_start c).
End Context.
