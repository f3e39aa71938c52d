(** * Base: outcomes of Go code, machine words, and the state monad

    Modelling conventions shared by every model file.  Nothing in this file
    corresponds to a particular file of /repo; it fixes how Go's control flow
    is written down:

    - a Go call that returns normally is [Ok];
    - a Go call that returns a non-nil [error] is [Err e] (the text of the
      message is abstracted to a constructor of [gerr]);
    - a Go runtime panic (explicit [panic], nil dereference, index out of
      range, integer division by zero) is [Panic];
    - [Diverge] is the result of a recursive function running out of fuel; the
      theorems show that it never happens on the states they talk about. *)

From stdpp Require Export base list numbers option list_numbers.

(** Kinds of errors built with errors.FmtNeuralError (errors/error.go) or
    returned by encoding/binary. *)
Inductive gerr : Type :=
| EInternalDims                     (* tools.go:40 *)
| EIndexRange (i at_ s : N)         (* tools.go:57 *)
| EInternalIndex                    (* tensor_mat.go:62 *)
| EShapeRank (l1 l2 : nat)          (* tools.go:105 *)
| EShapeAt (a b : N) (at_ : nat)    (* tools.go:113 *)
| EDataSize (n m : nat)             (* tensor_mat.go:85 *)
| ECopySize (n m : nat)             (* copy.go:44 *)
| EBadDim (d : N) (rank : nat)      (* sub_tensor.go:52, dim_math.go:47 *)
| EBadRange (s e : N)               (* sub_tensor.go:59 *)
| EBadEnd (e s : N)                 (* sub_tensor.go:66 *)
| EBadStart (e s : N)               (* sub_tensor.go:74 *)
| EEmptyDot                         (* dot_product.go:59 *)
| EDotDims (a b : N)                (* dot_product.go:71 *)
| EDotSize (n m : nat)              (* dot_product.go:167 *)
| EEOF                              (* io.EOF *)
| EUnexpectedEOF                    (* io.ErrUnexpectedEOF *)
| EInvalidType                      (* encoding/binary: invalid type *)
| ELayer (code : nat).              (* errors raised in layer/ and model/ *)

Inductive res (A : Type) : Type :=
| Ok (a : A)
| Err (e : gerr)
| Panic
| Diverge.
Arguments Ok {A} a.
Arguments Err {A} e.
Arguments Panic {A}.
Arguments Diverge {A}.

Definition res_bind {A B} (m : res A) (k : A -> res B) : res B :=
  match m with
  | Ok a => k a
  | Err e => Err e
  | Panic => Panic
  | Diverge => Diverge
  end.

(** A Go slice access [l[i]]: out of range is a runtime panic. *)
Definition at_or_panic {A} (l : list A) (i : nat) : res A :=
  match l !! i with Some a => Ok a | None => Panic end.

(** ** Go's [uint] on a 64-bit platform: numbers below 2^64, arithmetic wraps. *)
Definition W64 : N := 18446744073709551616%N.
Definition uadd (a b : N) : N := ((a + b) mod W64)%N.
Definition umul (a b : N) : N := ((a * b) mod W64)%N.
Definition usub (a b : N) : N := ((a + (W64 - b mod W64)) mod W64)%N.
Definition ulen {A} (l : list A) : N := N.of_nat (length l).

(** ** State and outcome monad: the state survives errors and panics. *)
Definition M (S A : Type) : Type := S -> res A * S.

Definition mret {S A} (a : A) : M S A := fun s => (Ok a, s).
Definition mbnd {S A B} (m : M S A) (k : A -> M S B) : M S B := fun s =>
  match m s with
  | (Ok a, s') => k a s'
  | (Err e, s') => (Err e, s')
  | (Panic, s') => (Panic, s')
  | (Diverge, s') => (Diverge, s')
  end.
Definition mfail {S A} (e : gerr) : M S A := fun s => (Err e, s).
Definition mpanic {S A} : M S A := fun s => (Panic, s).
Definition mdiverge {S A} : M S A := fun s => (Diverge, s).
Definition mlift {S A} (r : res A) : M S A := fun s => (r, s).

Declare Scope gom_scope.
Delimit Scope gom_scope with gom.
Notation "x <~ m ; k" := (mbnd m (fun x => k))
  (at level 100, m at next level, right associativity) : gom_scope.
Notation "m ;~ k" := (mbnd m (fun _ => k))
  (at level 100, right associativity) : gom_scope.
Open Scope gom_scope.

(** [for _, x := range l { f x }] *)
Fixpoint mfor {S A} (l : list A) (f : A -> M S unit) : M S unit :=
  match l with
  | [] => mret tt
  | x :: l' => f x ;~ mfor l' f
  end.

(** [for i := range l], [for i := 0; i < n; i++]: the indices in order. *)
Definition range (n : nat) : list nat := seq 0 n.

(** Loops collecting one result per iteration. *)
Fixpoint mmap {S A B} (l : list A) (f : A -> M S B) : M S (list B) :=
  match l with
  | [] => mret []
  | x :: l' => y <~ f x ; ys <~ mmap l' f ; mret (y :: ys)
  end.
