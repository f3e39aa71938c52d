(** * FailSpec: when computing an expression fails (no code here) *)
From Verif Require Import Base Num Spec.

Section Fail.
Context {T : Type} `{Num T}.
(** [bad z]: dividing by [z] fails. *)
Variable bad : T -> Prop.
Variable leaf : nat -> option (vten T).
Variable scal : nat -> option T.

Definition parts (e : expr T) : list (expr T) :=
  match e with
  | ELeaf _ => []
  | EMap _ e | EScal _ e _ | ETrans e | ESub e _ _ _ | ESubX e _ _ _ | EReshape e _ | EReduce _ e | EDim _ _ e | ESoft e => [e]
  | EBin _ a b | ECat a b _ | EDot a b _ _ | EMatMul a b => [a; b]
  end.
(** Sums without summands, and somebody wants them. *)
Definition empty_sums (x y : vten T) (da db : nat) : Prop :=
  vsh x !! da = Some 0%N /\ (0 < prodN (del da (vsh x) ++ del db (vsh y)))%N.
(** The outermost operation divides by zero, or reduces nothing. *)
Definition fails_here (e : expr T) : Prop :=
  match e with
  | EBin BDiv a b => exists x y, eval leaf scal a = Some x /\ eval leaf scal b = Some y /\ exists z, z ∈ vdata y /\ bad z
  | EScal BDiv a s => exists x z, eval leaf scal a = Some x /\ scal s = Some z /\ bad z /\ vdata x <> []
  | EReduce o a => exists x, eval leaf scal a = Some x /\ (vdata x = [] \/ (o = RedAvg /\ bad (nofN (N.of_nat (length (vdata x))))))
  | EDim o d a => exists x, eval leaf scal a = Some x /\ (0 < prodN (take (S d) (vsh x)))%N /\
      (prodN (drop (S d) (vsh x)) = 0%N \/ (o = RedAvg /\ bad (nofN (prodN (drop (S d) (vsh x))))))
  | EDot a b da db => exists x y, eval leaf scal a = Some x /\ eval leaf scal b = Some y /\ empty_sums x y da db
  | EMatMul a b => exists x y, eval leaf scal a = Some x /\ eval leaf scal b = Some y /\ empty_sums x y (length (vsh x) - 1) (default_db (vsh y))
  | ESoft a => exists x, eval leaf scal a = Some x /\
      (vdata x = [] \/ exists m z, reduce RedMin (vdata x) = Some m /\ reduce RedSum (map (fun v => nsub v m) (vdata x)) = Some z /\ bad z)
  | _ => False
  end.
Inductive fails : expr T -> Prop :=
| Fails_part e p : p ∈ parts e -> fails p -> fails e
| Fails_here e : fails_here e -> fails e.
End Fail.
