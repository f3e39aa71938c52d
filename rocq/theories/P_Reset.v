(** * P_Reset: resetting the inner state of a model (claim C113)

    [comes rnd m]: [m] is a new model or results from one by Push, Compile,
    CompileBackPropagation, Predict, TrainOne, Train and ResetIS, in any order and
    any states. *)
From Verif Require Import Base Num NumIntS ModelTools ModelOps ModelTensor ModelGraph ModelLayer ModelModel ResetProofs.

Section P.
Context {T : Type} `{Num T}.
Context (rnd : nat -> nat -> T).

(** ** C113: ResetIS *)
(** On a compiled model it changes nothing at all: neither a scalar, nor a
    tensor, nor a layer, nor the model. *)
Theorem C113_same m s : comes rnd m -> m_ff m <> None -> ResetIS rnd m s = (Ok m, s).
Proof. apply reset_same. Qed.
(** On a model that is not compiled it is Compile. *)
Theorem C113_compiles m s m' s' : m_ff m = None -> Compile rnd m s = (Ok m', s') -> ResetIS rnd m s = (Ok m', s').
Proof. apply reset_compiles. Qed.
(** The reset graph is empty for layers of every kind. *)
Theorem C113_empty m s m' s' : Compile rnd m s = (Ok m', s') -> m_ff m' <> None /\ m_reset m' = Some (MkGraph []).
Proof. apply compile_resets. Qed.
End P.
Print Assumptions C113_same.
Print Assumptions C113_compiles.
Print Assumptions C113_empty.

(** A dense layer on an input, trained for one step: compiled, with operations,
    and the answer after ResetIS is the one before. *)
Section Case.
#[local] Existing Instance NumS32.
Definition ri (z : Z) : intw 32 := NumIntS.mk 32 eq_refl z.
Definition rrnd (c i : nat) : intw 32 := ri (Z.of_nat (c + 2 * i + 1)).
Definition ract : activation (intw 32) := MkAct (fun x => x) (fun _ => ri 1).
Definition rst0 : lst (intw 32) := MkL (MkSt [] [] []) [] 0.
Definition rask (m : model (intw 32)) : LM (intw 32) (list Z) :=
  x <~ liftT (NewFromValues [ri 5] [1]%N) ; p <~ Predict rrnd m x ; d <~ liftT (GetData (fst p)) ; mret (map ival d).
Definition rrun : LM (intw 32) (model (intw 32) * list Z * list Z) :=
  i <~ NewInput [1]%N ; d <~ NewDense 2 ract ; m <~ MPush NewModel i ; m <~ MPush m d ; m <~ Compile rrnd m ;
  x <~ liftT (NewFromValues [ri 1] [1]%N) ; y <~ liftT (NewFromValues [ri 3; ri 8] [2]%N) ; r <~ TrainOne m x y (ri 1) (ri 0) ;
  a <~ rask (snd r) ; m <~ ResetIS rrnd (snd r) ; b <~ rask m ; mret (m, a, b).
Example C113_case : match fst (rrun rst0) with
  | Ok (m, a, b) => option_map (fun g => length (g_ops g)) (m_ff m) = Some 6 /\ a = [11; 29]%Z /\ b = a
  | _ => False end.
Proof. vm_compute. repeat split. Qed.
Definition rmodel : LM (intw 32) (model (intw 32)) := i <~ NewInput [1]%N ; d <~ NewDense 2 ract ; m <~ MPush NewModel i ; m <~ MPush m d ; Compile rrnd m.
Example C113_built : match fst (rmodel rst0) with Ok _ => true | _ => false end = true.
Proof. vm_compute. reflexivity. Qed.
Example C113_comes s0 : match fst (rmodel s0) with Ok _ => true | _ => false end = true -> exists m s, rmodel s0 = (Ok m, s) /\ comes rrnd m /\ m_ff m <> None.
Proof.
  intros E. destruct (rmodel s0) as [[m| | |] s] eqn:F; try discriminate E. exists m, s. split; [reflexivity|]. clear E. unfold rmodel in F.
  apply mbnd_inv in F as (i & s1 & _ & F). apply mbnd_inv in F as (d & s2 & _ & F). apply mbnd_inv in F as (m1 & s3 & F1 & F). apply mbnd_inv in F as (m2 & s4 & F2 & F).
  split; [|exact (proj1 (compile_resets _ _ _ _ _ F))].
  eapply comes_compile; [|exact F]. eapply comes_push; [|exact F2]. eapply comes_push; [|exact F1]. apply comes_new.
Qed.
End Case.
