(** * NetSpec: what a stack of dense layers computes and how it learns

    Pure functions on lists of numbers; nothing here refers to the code. *)
From Verif Require Import Base Num Spec.

Section Net.
Context {T : Type} `{Num T}.

(** Left-to-right sum of a non-empty list. *)
Definition sum1 (l : list T) : T := default nzero (fold1 nadd l).

(** A dense layer: one row of weights and one bias per unit, an activation
    function and its derivative, and whether it learns. *)
Record slayer : Type := SL {
  sW : list (list T);
  sB : list T;
  sf : T -> T;
  sd : T -> T;
  strain : bool;
}.

(** ** Prediction *)
(** The weighted sum of one unit, and of all units. *)
Definition neta (xs w : list T) (b : T) : T := sum1 (zip_with nmul xs w ++ [b]).
Definition netas (l : slayer) (xs : list T) : list T := zip_with (neta xs) (sW l) (sB l).
Definition outs (l : slayer) (xs : list T) : list T := map (sf l) (netas l xs).
(** The whole stack, from the input on. *)
Fixpoint forward (net : list slayer) (xs : list T) : list T :=
  match net with
  | [] => xs
  | l :: net' => forward net' (outs l xs)
  end.

(** ** Learning *)
(** The error each input of a layer is responsible for. *)
Definition back (l : slayer) (ni : nat) (dif : list T) : list T :=
  map (fun i => sum1 (zip_with nmul dif (map (fun w => nth i w nzero) (sW l)))) (seq 0 ni).

(** One gradient step: [d] is the unit's error, [x] the input; [rest] is what
    the momentum contributes. *)
Definition new_weight (alpha rest d w x : T) : T := nadd (nadd w rest) (nmul (nmul d alpha) x).
Definition new_bias (alpha rest d b : T) : T := nadd (nadd b rest) (nmul d alpha).
Definition adjust (alpha rest : T) (l : slayer) (xs dif : list T) : slayer :=
  if strain l then
    SL (zip_with (fun w d => zip_with (new_weight alpha rest d) w xs) (sW l) dif)
       (zip_with (fun b d => new_bias alpha rest d b) (sB l) dif)
       (sf l) (sd l) (strain l)
  else l.

(** The error of a hidden layer: what its units are responsible for times the
    derivative at their weighted sums, accumulated on zero. *)
Definition hidden_dif (l : slayer) (xs e : list T) : list T :=
  zip_with (fun s n => nadd nzero (nmul s (sd l n))) e (netas l xs).

(** The error at the outputs of the first layer of a stack: target minus output
    for the last layer, what the next layer passes back for the others. *)
Fixpoint err (net : list slayer) (xs tgt : list T) : list T :=
  match net with
  | [] => []
  | l :: net' =>
      match net' with
      | [] => zip_with nsub tgt (outs l xs)
      | l' :: _ =>
          hidden_dif l xs (back l' (length (outs l xs)) (err net' (outs l xs) tgt))
      end
  end.

(** One training step. *)
Fixpoint learn (alpha rest : T) (net : list slayer) (xs tgt : list T) : list slayer :=
  match net with
  | [] => []
  | l :: net' =>
      adjust alpha rest l xs (err net xs tgt) :: learn alpha rest net' (outs l xs) tgt
  end.

Definition loss (net : list slayer) (xs tgt : list T) : T :=
  sum1 (map absv (zip_with nsub tgt (forward net xs))).

(** The net has [ni] inputs: the layers' sizes match. *)
Fixpoint sized (ni : nat) (net : list slayer) : Prop :=
  match net with
  | [] => True
  | l :: net' =>
      Forall (fun w => length w = ni) (sW l) /\ length (sB l) = length (sW l) /\
      sized (length (sW l)) net'
  end.
End Net.
Arguments slayer T : clear implicits.
