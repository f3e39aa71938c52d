(** * P_From: models made of models (claims C84-C87)

    [FromModels rnd ms]: the models [ms] put one after the other.  It returns the
    models as they are afterwards (Go changes them in place) and the new one.
    [stacked], [kept], [linked], [compiled], [same] and [run_all] are in
    FromProofs.v, section Statement. *)
From Verif Require Import Base Num NumIntS ModelTools ModelOps ModelTensor ModelGraph ModelLayer ModelModel ModelFrom FromProofs.

Section P.
Context {T : Type} `{Num T}.
Context (rnd : nat -> nat -> T).

(** ** C84: the new model is the given ones, one after the other *)
Theorem C84_none s : exists e, FromModels rnd [] s = (Err e, s).
Proof. eexists. reflexivity. Qed.
Theorem C84_result ms ms2 M s s' : FromModels rnd ms s = (Ok (ms2, M), s') -> Forall2 kept ms ms2 /\ stacked ms2 M.
Proof. apply result. Qed.
(** Models that are compiled and connected are not touched. *)
Theorem C84_untouched a rest s : linked s a rest -> Forall compiled (a :: rest) ->
  exists M, FromModels rnd (a :: rest) s = (Ok (a :: rest, M), s) /\ stacked (a :: rest) M.
Proof. intros Hl Hc. destruct (untouched rnd a rest s Hl Hc) as [M E]. exists M. split; [done|]. apply (result rnd _ _ _ _ _ E). Qed.
(** Predict loads the input of the first model, runs the models in order and
    copies the output of the last one. *)
Theorem C84_predict ms ms2 M s0 s1 x s : FromModels rnd ms s0 = (Ok (ms2, M), s1) ->
  exists a z, head ms2 = Some a /\ last ms2 = Some z /\
    same (Predict rnd M x s)
      ((i <~ the (m_input a) ; liftT (LoadFromTensor i x) ;~ run_all m_ff ms2 ;~ o <~ the (m_output z) ; c <~ liftT (Copy o) ; mret (c, M)) s).
Proof.
  intros E. destruct (result rnd _ _ _ _ _ E) as [_ K].
  destruct (sk_first _ _ K) as (a & Ea & _ & Ei). destruct (sk_last _ _ K) as (z & Ez & _ & Eo & _).
  exists a, z. split; [done|]. split; [done|]. rewrite <- Ei, <- Eo. apply predict_seq. done.
Qed.
(** A training step runs the models forwards, compares the output of the last
    one, runs the models backwards from the last to the first and then changes the
    parameters from the last layer on. *)
Theorem C84_fit ms ms2 M s0 s1 x y s : FromModels rnd ms s0 = (Ok (ms2, M), s1) ->
  exists a z, head ms2 = Some a /\ last ms2 = Some z /\
    same (ExecFit M x y s)
      ((run_all m_resetfit ms2 ;~
        i <~ the (m_input a) ; liftT (LoadFromTensor i x) ;~ t <~ the (m_target z) ; liftT (LoadFromTensor t y) ;~
        run_all m_ff ms2 ;~ ExecG (m_caldif z) ;~ run_all m_bp (rev ms2) ;~
        l <~ the (m_last z) ; with_fuel (fun n => LFit n l)) s).
Proof.
  intros E. destruct (result rnd _ _ _ _ _ E) as [_ K].
  destruct (sk_first _ _ K) as (a & Ea & _ & Ei). destruct (sk_last _ _ K) as (z & Ez & El & Eo & Et & _ & _ & _ & Ec & _).
  exists a, z. split; [done|]. split; [done|]. rewrite <- Ei, <- Et, <- Ec, <- El. apply fit_seq; done.
Qed.
End P.
Print Assumptions C84_none.
Print Assumptions C84_result.
Print Assumptions C84_untouched.
Print Assumptions C84_predict.
Print Assumptions C84_fit.

(** ** Concrete cases: 32-bit integers, identity activation *)
Section Cases.
#[local] Existing Instance NumS32.
Definition fi (z : Z) : intw 32 := NumIntS.mk 32 eq_refl z.
Definition frnd (c i : nat) : intw 32 := fi (Z.of_nat (c + 2 * i + 1)).
Definition fact1 : activation (intw 32) := MkAct (fun x => x) (fun _ => fi 1).
Definition fs0 : lst (intw 32) := MkL (MkSt [] [] []) [] 0.
Definition fmodel : Type := model (intw 32).
(** Two dense layers, as two models; as two models that were compiled before; as one model. *)
Definition two : LM (intw 32) (list fmodel) :=
  a <~ NewInDense 1 2 fact1 ; m1 <~ MPush NewModel a ; b <~ NewDense 1 fact1 ; m2 <~ MPush NewModel b ; mret [m1; m2].
Definition two_compiled : LM (intw 32) (list fmodel) :=
  a <~ NewInDense 1 2 fact1 ; m1 <~ MPush NewModel a ; m1 <~ Compile frnd m1 ;
  b <~ NewInDense 2 1 fact1 ; m2 <~ MPush NewModel b ; m2 <~ Compile frnd m2 ; mret [m1; m2].
Definition stack (c : LM (intw 32) (list fmodel)) : LM (intw 32) fmodel := ms <~ c ; r <~ FromModels frnd ms ; mret (snd r).
Definition pushed : LM (intw 32) fmodel :=
  a <~ NewInDense 1 2 fact1 ; m1 <~ MPush NewModel a ; b <~ NewDense 1 fact1 ; m2 <~ MPush m1 b ; Compile frnd m2.
(** What a model answers to [v]; and after one training step with the target [t]. *)
Definition ask (c : LM (intw 32) fmodel) (v : Z) : option (list Z) :=
  match fst ((M <~ c ; x <~ liftT (NewFromValues [fi v] [1%N]) ; p <~ Predict frnd M x ; liftT (GetData (fst p))) fs0) with
  | Ok d => Some (map ival d) | _ => None end.
Definition ask_trained (c : LM (intw 32) fmodel) (v t : Z) : option (list Z) :=
  match fst ((M <~ c ; x <~ liftT (NewFromValues [fi v] [1%N]) ; y <~ liftT (NewFromValues [fi t] [1%N]) ;
              r <~ TrainOne M x y (fi 1) (fi 0) ; p <~ Predict frnd (snd r) x ; liftT (GetData (fst p))) fs0) with
  | Ok d => Some (map ival d) | _ => None end.

(** The hypothesis of C84 holds of [two], and stacked it answers like one model. *)
Example C84_case : fst ((ms <~ two ; r <~ FromModels frnd ms ; mret (length (fst r))) fs0) = Ok 2 /\
  map (ask (stack two)) [0; 1; 3]%Z = [Some [25]; Some [57]; Some [121]]%Z /\ map (ask pushed) [0; 1; 3]%Z = [Some [25]; Some [57]; Some [121]]%Z.
Proof. split; [|split]; vm_compute; reflexivity. Qed.
(** The hypotheses of C84_untouched hold of the models as they are afterwards. *)
Example C84_again : fst ((ms <~ two ; r <~ FromModels frnd ms ;
  match fst r with
  | [m1; m2] =>
      f <~ the (m_first m2) ; l <~ getL f ; q <~ the (lpre l) ;
      mret (forallb (fun m => match m_ff m, m_reset m, m_resetfit m, m_bp m, m_caldif m with Some _, Some _, Some _, Some _, Some _ => true | _, _, _, _, _ => false end) [m1; m2], Some q, m_last m1)
  | _ => mpanic
  end) fs0) = Ok (true, Some 0, Some 0).
Proof. vm_compute. reflexivity. Qed.

(** ** C85: a model that cannot be compiled is not reported *)
Theorem C85_refuted : exists (m : LM (intw 32) fmodel),
  fst ((M <~ m ; Compile frnd M) fs0) = Err (ELayer 3) /\ fst ((M <~ m ; FromModels frnd [M]) fs0) = Panic.
Proof. exists (f <~ NewFlatten ; MPush NewModel f). split; vm_compute; reflexivity. Qed.
(** ** C86: models that were compiled before are not connected: the answer does
    not depend on the input *)
Theorem C86_refuted : exists (ms : LM (intw 32) (list fmodel)), map (ask (stack ms)) [0; 1; 3]%Z = [Some [3]; Some [3]; Some [3]]%Z /\
  map (ask (m <~ ms ; mlift (match m with m1 :: _ => Ok m1 | _ => Panic end))) [0; 1; 3]%Z = [Some [1; 3]; Some [3; 7]; Some [7; 15]]%Z.
Proof. exists two_compiled. split; vm_compute; reflexivity. Qed.
(** ** C87: the first model learns half as much as in one model: its last layer
    counts as used twice, by its own model and by the second one *)
Theorem C87_refuted : exists (ms : LM (intw 32) (list fmodel)) (one : LM (intw 32) fmodel),
  map (ask (stack ms)) [0; 1; 3]%Z = map (ask one) [0; 1; 3]%Z /\
  ask_trained (stack ms) 3 4 = Some [8014036]%Z /\ ask_trained one 3 4 = Some [16060126]%Z.
Proof. exists two, pushed. split; [|split]; vm_compute; reflexivity. Qed.
End Cases.
Print Assumptions C85_refuted.
Print Assumptions C86_refuted.
Print Assumptions C87_refuted.
