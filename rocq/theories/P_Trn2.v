(** * P_Trn2: the property theorems of C77 to C79, and C39 for chains *)
From Verif Require Import Base Num NumIntS ModelTools ModelTensor ModelLayer ModelModel Spec NetSpec FwdSpec FwdNet FwdChain FwdScript FwdClaims BwdSpec NetLaws TrnSpec TrnScript TrnProg TrnTotal TrnMain TrnLaws P_Trn.
From Coq Require Import Lia.

Section P.
Context {T : Type} `{Num T}.
Context (rnd : nat -> nat -> T) (s : lst T).

(** ** C77: a layer that is not trainable keeps its parameters *)
(** [k]: the number of the layer [c], the lowest is 0. [a]: a call that makes it
    not trainable. No call of [acts2] makes it trainable again. The layer has the
    same bias and weights after [a] and in the end. *)
Theorem C77_frozen m0 ks cs osh k c acts1 a acts2 : is_chain (length (lays s)) m0 ks cs osh -> counts_up (T:=T) (2 * (length (lays s) + S (length ks)) + 1) -> tallies (T:=T) (length cs) ->
  rev cs !! k = Some c -> c_par c = true -> freezes k a -> Forall (fun a => ~ thaws k a) acts2 ->
  exists par, starts rnd (in_of m0) par cs /\ forall st os, thistory (in_of m0) osh cs (MkT [] par (still par) every) (acts1 ++ a :: acts2) st os ->
    exists os1 os2 b w, os = os1 ++ os2 /\ leaves rnd s m0 ks cs (acts1 ++ [a]) os1 (fun p b' w' => p = c -> b' = b /\ w' = w) /\
      leaves rnd s m0 ks cs (acts1 ++ a :: acts2) os (fun p b' w' => p = c -> b' = b /\ w' = w).
Proof. intros H1 H2 H3. exact (frozen_claim rnd s m0 ks cs osh H1 H2 H3 k c acts1 a acts2). Qed.

(** ** C78: rate zero *)
(** All training in [acts2] has rate zero, and momentum zero if there are
    convolutions: all parameters stay what they were. *)
Theorem C78_rate_zero m0 ks cs osh acts1 acts2 : is_chain (length (lays s)) m0 ks cs osh -> counts_up (T:=T) (2 * (length (lays s) + S (length ks)) + 1) -> tallies (T:=T) (length cs) ->
  zero_laws (T:=T) -> Forall (rate0 cs) acts2 ->
  exists par, starts rnd (in_of m0) par cs /\ forall st os, thistory (in_of m0) osh cs (MkT [] par (still par) every) (acts1 ++ acts2) st os ->
    exists os1 os2 now, os = os1 ++ os2 /\ leaves rnd s m0 ks cs acts1 os1 (has now) /\ leaves rnd s m0 ks cs (acts1 ++ acts2) os (has now).
Proof. intros H1 H2 H3. exact (rate0_claim rnd s m0 ks cs osh H1 H2 H3 acts1 acts2). Qed.

(** ** C79: what the momentum changes *)
(** Nothing in chains without convolutions. *)
Theorem C79_ignored m0 ks cs osh f acts : is_chain (length (lays s)) m0 ks cs osh -> counts_up (T:=T) (2 * (length (lays s) + S (length ks)) + 1) -> tallies (T:=T) (length cs) ->
  (forall x : T, nmul nzero x = nzero) -> still_layers cs ->
  exists par, starts rnd (in_of m0) par cs /\ forall st os, thistory (in_of m0) osh cs (MkT [] par (still par) every) acts st os ->
    leaves rnd s m0 ks cs acts os (has (t_par st)) /\ leaves rnd s m0 ks cs (map (remom f) acts) os (has (t_par st)).
Proof. intros H1 H2 H3. exact (mo_claim rnd s m0 ks cs osh H1 H2 H3 f acts). Qed.
(** In one step only the bias of convolutions. *)
Theorem C79_step m0 ks cs osh acts i j al mo mo' : is_chain (length (lays s)) m0 ks cs osh -> counts_up (T:=T) (2 * (length (lays s) + S (length ks)) + 1) -> tallies (T:=T) (length cs) ->
  (forall x : T, nmul nzero x = nzero) ->
  exists par, starts rnd (in_of m0) par cs /\ forall st os st1 o1 st2 o2, thistory (in_of m0) osh cs (MkT [] par (still par) every) acts st os ->
    thistory (in_of m0) osh cs st [TTrain i j al mo] st1 o1 -> thistory (in_of m0) osh cs st [TTrain i j al mo'] st2 o2 ->
    exists bs ws, leaves rnd s m0 ks cs (acts ++ [TTrain i j al mo]) (os ++ o1) (fun p b w => (has_mom p = false -> b = bs p) /\ w = ws p) /\
      leaves rnd s m0 ks cs (acts ++ [TTrain i j al mo']) (os ++ o1) (fun p b w => (has_mom p = false -> b = bs p) /\ w = ws p).
Proof. intros H1 H2 H3. exact (mo_step_claim rnd s m0 ks cs osh H1 H2 H3 acts i j al mo mo'). Qed.
End P.
Print Assumptions C77_frozen.
Print Assumptions C78_rate_zero.
Print Assumptions C79_ignored.
Print Assumptions C79_step.

(** ** Concrete cases: the chain of P_Trn *)
Section Cases.
#[local] Existing Instance NumS32.
Definition new_pair : list (tact (intw 32)) := [TNew [1; 3; 3]%N (map ti [1; 2; 0; 0; 1; -1; 2; 0; 1]%Z); TNew [2]%N (map ti [9; -4]%Z)].
(** The convolution (layer 1) is not trainable during two steps. *)
Definition c77acts : list (tact (intw 32)) := new_pair ++ [TTrain 0 1 (ti 1) (ti 1)] ++ TLayer 1 false :: [TTrain 0 1 (ti 1) (ti 2); TLayer 0 false; TModel false; TTrain 0 1 (ti 1) (ti 1); TPredict 0; TGet 2].
Definition conv_par (acts : list (tact (intw 32))) : option (list Z * list Z) :=
  let s' := snd (tprogram trnd tm0 tks acts ts0) in match net_par s' (mem (ts s')) 1 with Some (b, w) => Some (map ival (vdata b), map ival (vdata w)) | None => None end.
Example C77_case : freezes 1 (TLayer (T:=intw 32) 1 false) /\ Forall (fun a => ~ thaws 1 a) [TTrain 0 1 (ti 1) (ti 2); TLayer 0 false; TModel false; TTrain 0 1 (ti 1) (ti 1); TPredict 0; TGet 2] /\
  exists c, rev tcs !! 1 = Some c /\ c_par c = true.
Proof. split; [split; reflexivity|]. split; [repeat constructor; cbn; intuition (lia || discriminate)|]. eexists. split; reflexivity. Qed.
Example C77_acts : tacts_ok [1; 3; 3]%N [2]%N 5 [] c77acts.
Proof.
  assert (F1 : fits [1; 3; 3]%N) by (repeat constructor; cbn; lia). assert (F2 : fits [2]%N) by (repeat constructor; cbn; lia).
  split; [exact F1|]. split; [reflexivity|]. split; [exact F2|]. split; [reflexivity|]. do 8 (split; [cbn; lia|]).
  cbn. split; [lia|]. rewrite decide_True by reflexivity. split; [cbn; lia|exact I].
Qed.
Example C77_shows : tshow (tprogram trnd tm0 tks c77acts ts0) = Some [Some []; Some []; Some [16]; Some []; Some [711]; Some []; Some []; Some [376119]; Some []; Some [183572; -192560]]%Z /\
  conv_par new_pair <> conv_par (take 4 c77acts) /\ conv_par (take 4 c77acts) = conv_par c77acts.
Proof. vm_compute. split; [reflexivity|]. split; [discriminate|reflexivity]. Qed.
(** Rate zero keeps everything, a momentum alone moves the bias of the
    convolution. *)
Example C78_laws : zero_laws (T:=intw 32).
Proof. exact (zero_laws_int 32 eq_refl). Qed.
Definition c78acts : list (tact (intw 32)) := [TTrain 0 1 (ti 0) (ti 0); TPredict 0; TMany [0] [1] (fun _ _ => 0) 1 2 (ti 0) (ti 0)].
Example C78_calls : Forall (rate0 tcs) c78acts.
Proof. repeat constructor; left; reflexivity. Qed.
Example C78_case : let acts := new_pair ++ [TTrain 0 1 (ti 1) (ti 1)] in
  conv_par acts = Some ([-2; -1; -11; -10], [-12; 0; -21; -9])%Z /\ conv_par (acts ++ c78acts) = conv_par acts /\ conv_par (acts ++ [TTrain 0 1 (ti 0) (ti 1)]) <> conv_par acts.
Proof. vm_compute. split; [reflexivity|]. split; [reflexivity|discriminate]. Qed.
(** Dense layers only: the momentum changes nothing. *)
Definition dm0 : FwdScript.mk (intw 32) := MInput [2]%N.
Definition dks : list (lay1 (intw 32)) := [KDense 2 tact1; KDense 1 tact1].
Definition dcs : list (clay (intw 32)) := match chain_of 0 dm0 dks with Some cs => cs | None => [] end.
Definition dacts (mo : Z) : list (tact (intw 32)) := [TNew [2]%N (map ti [1; 2]%Z); TNew [1]%N (map ti [3]%Z); TTrain 0 1 (ti 1) (ti mo); TTrain 0 1 (ti 1) (ti mo); TPredict 0; TGet 2].
Example C79_chain : is_chain 0 dm0 dks dcs [1]%N /\ still_layers dcs.
Proof.
  split; [|repeat constructor]. split; [repeat constructor|]. split; [reflexivity|]. split; [|reflexivity]. eexists _, _. split; [reflexivity|]. split; [discriminate|reflexivity].
Qed.
Example C79_case : tshow (tprogram trnd dm0 dks (dacts 0) ts0) = Some [Some []; Some []; Some [2]; Some [10]; Some []; Some [-2347]]%Z /\
  tshow (tprogram trnd dm0 dks (dacts 7) ts0) = tshow (tprogram trnd dm0 dks (dacts 0) ts0).
Proof. vm_compute. split; reflexivity. Qed.
(** In the second step the momentum changes the bias of the convolution, not its
    weights. *)
Example C79_conv : let acts mo := new_pair ++ [TTrain 0 1 (ti 1) (ti 0); TTrain 0 1 (ti 1) (ti mo)] in
  conv_par (acts 0%Z) = Some ([5512; -1; -11; -10], [5502; 11028; -21; 5505])%Z /\ conv_par (acts 1%Z) = Some ([5512; -1; -22; -21], [5502; 11028; -21; 5505])%Z.
Proof. vm_compute. split; reflexivity. Qed.

(** ** C39 for chains: SetTrainable on the model leaves out the lowest layer *)
Theorem C39_chain_refuted : exists m0 ks cs osh, is_chain 0 m0 ks cs osh /\
  tshow (tprogram trnd m0 ks [TNew [1]%N [ti 3]; TNew [1]%N [ti 4]; TModel false; TPredict 0; TGet 2; TTrain 0 1 (ti 1) (ti 0); TPredict 0; TGet 3] ts0) =
    Some [Some []; Some []; Some []; Some []; Some [-7]; Some [11]; Some []; Some [543]]%Z.
Proof.
  exists (MDenseIn 1 2 tact1), [KDense 1 tact1], (match chain_of 0 (MDenseIn 1 2 tact1) [KDense 1 tact1] with Some cs => cs | None => [] end), [1]%N. split; [|vm_compute; reflexivity].
  split; [repeat constructor|]. split; [reflexivity|]. split; [|reflexivity]. eexists _, _. split; [reflexivity|]. split; [discriminate|reflexivity].
Qed.
End Cases.
Print Assumptions C39_chain_refuted.
