(** * GradSpec: the error of a stack of dense layers as a function of one parameter (no code here) *)
From Coq Require Import Reals.
From Verif Require Import Base Num NumReal Spec NetSpec.
Open Scope R_scope.
#[local] Existing Instance NumR.

Definition total (l : list R) : R := foldr Rplus 0 l.
(** Half the sum of squared differences, and the cross entropy. *)
Definition squares (ys tgt : list R) : R := total (zip_with (fun t y => (t - y) * (t - y) / 2) tgt ys).
Definition crossent (ys tgt : list R) : R := total (zip_with (fun t y => - (t * ln y + (1 - t) * ln (1 - y))) tgt ys).

(** The stack with weight [b] of unit [a] of layer [k] replaced, or the unit's bias. *)
Definition set_weight (k a b : nat) (v : R) (net : list (slayer R)) : list (slayer R) :=
  alter (fun l => SL (alter (fun r => <[b := v]> r) a (sW l)) (sB l) (sf l) (sd l) (strain l)) k net.
Definition set_bias (k a : nat) (v : R) (net : list (slayer R)) : list (slayer R) :=
  alter (fun l => SL (sW l) (<[a := v]> (sB l)) (sf l) (sd l) (strain l)) k net.
Definition weight_at (net : list (slayer R)) (k a b : nat) : option R := l ← net !! k; r ← sW l !! a; r !! b.
Definition bias_at (net : list (slayer R)) (k a : nat) : option R := l ← net !! k; sB l !! a.

(** At every weighted sum of a layer below the last, the second function of the
    layer's activation is the derivative of the first. *)
Fixpoint smooth (net : list (slayer R)) (xs : list R) : Prop :=
  match net with
  | [] => True
  | l :: net' => (net' <> [] -> Forall (fun n => derivable_pt_lim (sf l) n (sd l n)) (netas l xs)) /\ smooth net' (outs l xs)
  end.
