(** * NestSpec: which layers a model of models stands for *)
From Verif Require Import Base ModelNest.

(** [ps]: the pushes, each with the model pushed into. What was pushed into [m]: *)
Definition contents (ps : list (nat * ref)) (m : nat) : list ref := map snd (List.filter (fun p => fst p =? m) ps).
(** The layers of a layer or model from the first to the last. *)
Inductive spelled (ps : list (nat * ref)) : ref -> list nat -> Prop :=
| sp_layer i : spelled ps (RL i) [i]
| sp_model m is : contents ps m <> [] -> spelled_all ps (contents ps m) is -> spelled ps (RM m) is
with spelled_all (ps : list (nat * ref)) : list ref -> list nat -> Prop :=
| sp_nil : spelled_all ps [] []
| sp_cons r is rs js : spelled ps r is -> spelled_all ps rs js -> spelled_all ps (r :: rs) (is ++ js).
(** What [r] is made of. *)
Inductive below (ps : list (nat * ref)) (r : ref) : ref -> Prop :=
| be_self : below ps r r
| be_in m q : below ps r (RM m) -> q ∈ contents ps m -> below ps r q.
(** What SetTrainable reaches: everything but the first of each model. *)
Inductive reached (ps : list (nat * ref)) : ref -> list nat -> Prop :=
| re_layer i : reached ps (RL i) [i]
| re_model m f rs is : contents ps m = f :: rs -> reached_all ps rs is -> reached ps (RM m) is
with reached_all (ps : list (nat * ref)) : list ref -> list nat -> Prop :=
| re_nil : reached_all ps [] []
| re_cons r is rs js : reached ps r is -> reached_all ps rs js -> reached_all ps (rs ++ [r]) (is ++ js).
