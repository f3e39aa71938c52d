(** * AdjSpec: slopes of what layers compute (no code here) *)
From Coq Require Import Reals.
From Verif Require Import Base Num NumReal Spec GradSpec.
Open Scope R_scope.
#[local] Existing Instance NumR.

(** A cell of a tensor; zero outside. *)
Definition ent (v : vten R) (idx : list N) : R := default 0 (at_ (vsh v) (vdata v) idx).
(** The tensor with one cell replaced. *)
Definition vset (v : vten R) (idx : list N) (r : R) : vten R :=
  V (vsh v) (map (fun i => if decide (i = idx) then r else ent v i) (indices (vsh v))).
(** The cells of [y] weighted with those of [d] and added up. *)
Definition weighted (d y : vten R) : R := total (zip_with Rmult (vdata d) (vdata y)).
(** The derivative, with respect to the cell [idx] of [x], of the cells of [F x]
    weighted with [d]. [F] must have a value however the cell is changed. *)
Definition slope (F : vten R -> option (vten R)) (d x : vten R) (idx : list N) (s : R) : Prop :=
  exists f, (forall r, exists y, F (vset x idx r) = Some y /\ f r = weighted d y) /\ derivable_pt_lim f (ent x idx) s.
