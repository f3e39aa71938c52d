(** * ReachSpec: which layers Fit should reach and which it does *)
From Verif Require Import Base Num ModelTools ModelOps ModelTensor ModelLayer Spec Denote ObjSpec.

Section Reach.
Context {T : Type} `{Num T}.

(** Layer [q] feeds layer [p]: it is the previous layer, or one of the two
    layers of a Concat. *)
Definition feeds (ls : list (layer T)) (q p : nat) : Prop :=
  exists l, ls !! p = Some l /\
    (lpre l = Some q \/ exists l1 l2 d, lkind_of l = LConcat l1 l2 d /\ (l1 = Some q \/ l2 = Some q)).
Inductive leads (ls : list (layer T)) (q : nat) : nat -> Prop :=
| leads_same : leads ls q q
| leads_step p r : leads ls q p -> feeds ls p r -> leads ls q r.

(** Going back over previous layers only. *)
Inductive behind (ls : list (layer T)) : nat -> nat -> Prop :=
| behind_same p : behind ls p p
| behind_step p l r q : ls !! p = Some l -> lpre l = Some r -> behind ls r q -> behind ls p q.

(** There are [k] layers from [p] back to the first. *)
Inductive depth (ls : list (layer T)) : nat -> nat -> Prop :=
| depth_first p l : ls !! p = Some l -> lpre l = None -> depth ls p 1
| depth_step p l q k : ls !! p = Some l -> lpre l = Some q -> depth ls q k -> depth ls p (S k).

(** [t] holds parameters of the trainable layer [q], [t'] their new values. *)
Definition param (ls : list (layer T)) (q t t' : nat) : Prop :=
  exists l, ls !! q = Some l /\ lflag l BTrainable = true /\
    ((lten l FWeights = Some t /\ lten l FNWeights = Some t') \/ (lten l FBias = Some t /\ lten l FNBias = Some t')).
End Reach.
