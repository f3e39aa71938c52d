(** * P_Nest: models used as layers (claims C98-C100)

    [ps]: pushes in any order, each with the number of the model pushed into and
    what is pushed. [contents], [spelled], [below], [reached]: NestSpec.v. *)
From Verif Require Import Base Num NumIntS ModelTools ModelOps ModelTensor ModelGraph ModelLayer ModelModel ModelNest NestSpec NestProofs NestMain.
From Coq Require Import Lia.

(** ** C98: a model of models is the model of their layers *)
Section P.
Context {T : Type} `{Num T}.
(** [is]: the layers of model [m], from the first to the last. The same state and
    the same model come out when they are pushed one after the other, so every
    method does the same. *)
Theorem C98_nested fuel ps w m is (s : lst T) : NPushes fuel ps new_nest = Ok w -> NoDup (map snd ps) -> RM m ∉ map snd ps ->
  spelled ps (RM m) is -> (forall r, r ∈ map snd ps -> below ps (RM m) r) -> NoDup is -> Forall (fun i => i < length (lays s)) is -> loose s ->
  exists F0 M s', push_all NewModel is s = (Ok M, s') /\ forall F, F0 <= F -> Flatten F w m s = (Ok M, s').
Proof. exact (nested_claim fuel ps w m is s). Qed.
Theorem C98_any {A} (k : model T -> LM T A) fuel ps w m is (s : lst T) : NPushes fuel ps new_nest = Ok w -> NoDup (map snd ps) -> RM m ∉ map snd ps ->
  spelled ps (RM m) is -> (forall r, r ∈ map snd ps -> below ps (RM m) r) -> NoDup is -> Forall (fun i => i < length (lays s)) is -> loose s ->
  exists F0, forall F, F0 <= F -> (M <~ Flatten F w m ; k M) s = (M <~ push_all NewModel is ; k M) s.
Proof.
  intros H1 H2 H3 H4 H5 H6 H7 H8. destruct (nested_claim fuel ps w m is s H1 H2 H3 H4 H5 H6 H7 H8) as (F0 & M & s' & E & G). exists F0. intros F HF. unfold mbnd. rewrite (G F HF), E. reflexivity.
Qed.
End P.
Print Assumptions C98_nested.
Print Assumptions C98_any.

(** ** C99: what SetTrainable reaches in a model of models *)
Theorem C99_reached fuel ps w r is : NPushes fuel ps new_nest = Ok w -> NoDup (map snd ps) -> reached ps r is -> exists n, forall F, n <= F -> NSetTrainable F w r = Ok is.
Proof. exact (trainable_claim fuel ps w r is). Qed.
(** Model 1 has the layers 1 and 2, model 0 has layer 0 and model 1. *)
Definition nps : list (nat * ref) := [(1, RL 1); (1, RL 2); (0, RL 0); (0, RM 1)].
(** Layer 1 is not the first layer of model 0, but is not reached. *)
Theorem C99_refuted : exists w, NPushes 3 nps new_nest = Ok w /\ spelled nps (RM 0) [0; 1; 2] /\ forall F, 6 <= F -> NSetTrainable F w (RM 0) = Ok [2].
Proof.
  eexists. split; [reflexivity|]. split.
  - apply sp_model; [discriminate|]. change (contents nps 0) with [RL 0; RM 1]. apply (sp_cons _ _ [0] _ [1; 2]); [constructor|]. apply (sp_cons _ _ [1; 2] _ []); [|constructor].
    apply sp_model; [discriminate|]. change (contents nps 1) with [RL 1; RL 2]. apply (sp_cons _ _ [1] _ [2]); [constructor|]. apply (sp_cons _ _ [2] _ []); constructor.
  - intros F HF. do 6 (destruct F as [|F]; [lia|]). reflexivity.
Qed.
Print Assumptions C99_reached.
Print Assumptions C99_refuted.
Example C99_case : reached nps (RM 0) [2].
Proof.
  apply (re_model _ 0 (RL 0) [RM 1]); [reflexivity|]. apply (re_cons _ (RM 1) [2] [] []); [|constructor]. apply (re_model _ 1 (RL 1) [RL 2]); [reflexivity|]. apply (re_cons _ (RL 2) [2] [] []); constructor.
Qed.

(** ** C100: models that cannot be pushed *)
(** A model without layers, into a model with a layer; a model into itself is
    accepted if it is empty, and then has no end. *)
Theorem C100_refuted : (forall fuel, NPushes (S fuel) [(0, RL 0); (0, RM 1)] new_nest = Panic) /\
  exists w, NPushes 1 [(0, RM 0)] new_nest = Ok w /\ forall fuel, FirstLeaf fuel w (RM 0) = Diverge /\ LastLeaf fuel w (RM 0) = Diverge.
Proof.
  split; [reflexivity|]. eexists. split; [reflexivity|]. induction fuel as [|fuel IH]; [split; reflexivity|]. exact IH.
Qed.
Print Assumptions C100_refuted.

(** ** Concrete cases: 32-bit integers, identity activation *)
Section Cases.
#[local] Existing Instance NumS32.
Definition ni (z : Z) : intw 32 := NumIntS.mk 32 eq_refl z.
Definition nrnd (c i : nat) : intw 32 := ni (Z.of_nat (c + 2 * i + 1)).
Definition nact1 : activation (intw 32) := MkAct (fun x => x) (fun _ => ni 1).
Definition ns0 : lst (intw 32) := MkL (MkSt [] [] []) [] 0.
Definition three : LM (intw 32) nat := NewInput [1]%N ;~ NewDense 2 nact1 ;~ NewDense 1 nact1.
(** The same with the second layer of model 1 pushed after model 1 was. *)
Definition nps2 : list (nat * ref) := [(1, RL 1); (0, RL 0); (0, RM 1); (1, RL 2)].
Definition nask (ps : list (nat * ref)) : option (list Z) :=
  match NPushes 3 ps new_nest with
  | Ok w => match fst ((three ;~ M <~ Flatten 3 w 0 ; M <~ Compile nrnd M ; x <~ liftT (NewFromValues [ni 3] [1]%N) ; p <~ Predict nrnd M x ; liftT (GetData (fst p))) ns0) with
            | Ok d => Some (map ival d) | _ => None end
  | _ => None
  end.
Definition flat_ask : option (list Z) :=
  match fst ((three ;~ M <~ push_all NewModel [0; 1; 2] ; M <~ Compile nrnd M ; x <~ liftT (NewFromValues [ni 3] [1]%N) ; p <~ Predict nrnd M x ; liftT (GetData (fst p))) ns0) with
  | Ok d => Some (map ival d) | _ => None end.
Example C98_case : match flat_ask with Some _ => nask nps = flat_ask /\ nask nps2 = flat_ask | None => False end.
Proof. vm_compute. split; reflexivity. Qed.
Example C98_hypotheses : NoDup (map snd nps) /\ RM 0 ∉ map snd nps /\ (forall r, r ∈ map snd nps -> below nps (RM 0) r) /\ NoDup [0; 1; 2] /\
  match three ns0 with (Ok _, s) => Forall (fun i => i < length (lays s)) [0; 1; 2] /\ loose s | _ => False end.
Proof.
  split; [apply (bool_decide_unpack _); vm_compute; exact I|]. split; [apply (bool_decide_unpack _); vm_compute; exact I|]. split; [|split; [apply (bool_decide_unpack _); vm_compute; exact I|]].
  - assert (B1 : below nps (RM 0) (RM 1)) by (apply (be_in _ _ 0); [constructor|right; left]). intros r Hr. cbn in Hr. repeat (apply elem_of_cons in Hr as [->|Hr]); [| | | |inversion Hr].
    + apply (be_in _ _ 1); [exact B1|left].
    + apply (be_in _ _ 1); [exact B1|right; left].
    + apply (be_in _ _ 0); [constructor|left].
    + exact B1.
  - vm_compute. split; [repeat constructor|]. repeat (apply Forall_cons_2 || apply Forall_nil_2 || reflexivity).
Qed.
End Cases.
