(** * P_Again: compiling what is compiled already (claims C107-C110)

    [marked f s l]: layer [l] of state [s] has put its operations into a
    feed-forward ([f] is BFF) or backward graph (BBP). *)
From Verif Require Import Base Num NumIntS ModelTools ModelOps ModelTensor ModelGraph ModelLayer ModelModel Spec Denote ObjSpec DenoteDec TensorFacts AgainProofs.
From Coq Require Import Lia.

Section P.
Context {T : Type} `{Num T}.
Context (rnd : nat -> nat -> T).

(** ** C107: compiling a model again *)
(** The second graph has no operation, for every model and every state. *)
Theorem C107_twice m s m1 s1 g m2 s2 : Compile rnd m s = (Ok m1, s1) -> m_ff m1 = Some g -> g_ops g <> [] ->
  Compile rnd m1 s1 = (Ok m2, s2) -> m_ff m2 = Some (MkGraph []).
Proof. intros E Hg Hn E2. destruct (compile_marks rnd _ _ _ _ _ E Hg Hn) as (l & Hl & Hm). exact (compile_again rnd _ _ _ _ _ Hl Hm E2). Qed.
(** The same if something happens in between; predicting, training, compiling and
    pushing layers do not take marks away. *)
Theorem C107_marks m s m1 s1 g : Compile rnd m s = (Ok m1, s1) -> m_ff m1 = Some g -> g_ops g <> [] -> exists l, m_last m1 = Some l /\ marked BFF s1 l.
Proof. exact (compile_marks rnd m s m1 s1 g). Qed.
Theorem C107_kept m x y a mo picks xs ys e b i f s l : marked f s l ->
  marked f (snd (Predict rnd m x s)) l /\ marked f (snd (Compile rnd m s)) l /\ marked f (snd (MPush m i s)) l /\
  marked f (snd (TrainOne m x y a mo s)) l /\ marked f (snd (Train picks m xs ys e b a mo s)) l /\ marked f (snd (CompileBackPropagation m s)) l.
Proof.
  assert (K : forall A (c : LM T A), keeps c -> marked f s l -> marked f (snd (c s)) l) by (intros A c Hc; destruct (c s) as [r s'] eqn:E; exact (Hc _ _ _ _ _ E)).
  intros Hm. split; [|split; [|split; [|split; [|split]]]]; apply K; try exact Hm.
  - apply keeps_Predict.
  - apply keeps_Compile.
  - apply keeps_push.
  - apply keeps_TrainOne.
  - apply keeps_Train.
  - apply keeps_CompileBP.
Qed.
Theorem C107_again m l s m1 s1 : m_last m = Some l -> marked BFF s l -> Compile rnd m s = (Ok m1, s1) -> m_ff m1 = Some (MkGraph []).
Proof. exact (compile_again rnd m l s m1 s1). Qed.
(** Predictions are then what the output held before, whatever the input is. *)
Theorem C107_stale m i o x v s c m' s' : m_ff m = Some (MkGraph []) -> m_input m = Some i -> m_output m = Some o ->
  (forall p, p ∈ cells (ts s) i -> p ∉ cells (ts s) o) -> holds (ts s) o v -> Predict rnd m x s = (Ok (c, m'), s') -> holds (ts s') c v.
Proof. exact (predict_stale rnd m i o x v s c m' s'). Qed.

(** ** C108: models with layers of a compiled model *)
(** A marked layer adds nothing to the graph of any later model, and neither do
    the layers before it. *)
Theorem C108_nothing fuel l s : marked BFF s l -> LBuildFF rnd (S fuel) l s = (Ok tt, s).
Proof. exact (LBuildFF_skip rnd fuel l s). Qed.

(** ** C110: compiling the backward pass again *)
Theorem C110_twice m s m1 s1 g m2 s2 : CompileBackPropagation m s = (Ok m1, s1) -> m_bp m1 = Some g -> g_ops g <> [] ->
  CompileBackPropagation m1 s1 = (Ok m2, s2) -> m_bp m2 = Some (MkGraph []).
Proof. intros E Hg Hn E2. destruct (backward_marks _ _ _ _ _ E Hg Hn) as (l & Hl & Hm). exact (backward_again _ _ _ _ _ Hl Hm E2). Qed.
Theorem C110_again m l s m1 s1 : m_last m = Some l -> marked BBP s l -> CompileBackPropagation m s = (Ok m1, s1) -> m_bp m1 = Some (MkGraph []).
Proof. exact (backward_again m l s m1 s1). Qed.
End P.
Print Assumptions C110_twice.
Print Assumptions C110_again.
Print Assumptions C107_twice.
Print Assumptions C107_marks.
Print Assumptions C107_kept.
Print Assumptions C107_again.
Print Assumptions C107_stale.
Print Assumptions C108_nothing.

(** ** Concrete models: 32-bit integers, identity activation *)
Section Cases.
#[local] Existing Instance NumS32.
Definition ai (z : Z) : intw 32 := NumIntS.mk 32 eq_refl z.
Definition arnd (c i : nat) : intw 32 := ai (Z.of_nat (c + 2 * i + 1)).
Definition aact : activation (intw 32) := MkAct (fun x => x) (fun _ => ai 1).
Definition as0 : lst (intw 32) := MkL (MkSt [] [] []) [] 0.
Definition two : LM (intw 32) (model (intw 32)) := i <~ NewInput [1]%N ; d <~ NewDense 2 aact ; m <~ MPush NewModel i ; MPush m d.
Definition more (m : model (intw 32)) : LM (intw 32) (model (intw 32)) := d <~ NewDense 1 aact ; MPush m d.
Definition ask (m : model (intw 32)) (z : Z) : LM (intw 32) (list Z) :=
  x <~ liftT (NewFromValues [ai z] [1]%N) ; p <~ Predict arnd m x ; d <~ liftT (GetData (fst p)) ; mret (map ival d).
Definition answer {A} (c : LM (intw 32) A) : res A := fst (c as0).
Definition again : LM (intw 32) (list Z) := m <~ two ; m <~ Compile arnd m ; ask m 3 ;~ m <~ Compile arnd m ; ask m 5.
Definition once : LM (intw 32) (list Z) := m <~ two ; m <~ Compile arnd m ; ask m 3 ;~ ask m 5.
Theorem C107_refuted : answer once = Ok [11; 23]%Z /\ answer again = Ok [7; 15]%Z /\ answer (m <~ two ; m <~ Compile arnd m ; ask m 3) = answer again.
Proof. vm_compute. repeat split. Qed.
(** A layer is pushed onto a compiled model: the answer to 3 and the answer to 5
    are the same; compiled only at the end, they differ. *)
Definition longer (early : bool) (z : Z) : LM (intw 32) (list Z) :=
  m <~ two ; m <~ (if early then Compile arnd m else mret m) ; m <~ more m ; m <~ Compile arnd m ; ask m z.
Theorem C108_refuted : exists a b c, answer (longer true 3) = Ok a /\ answer (longer true 5) = Ok a /\
  answer (longer false 3) = Ok b /\ answer (longer false 5) = Ok c /\ b <> c.
Proof. do 3 eexists. do 4 (split; [vm_compute; reflexivity|]). discriminate. Qed.
(** One step of training, after the backward pass was compiled once and twice:
    the second time all parameters become zero. *)
Definition trained (twice : bool) : LM (intw 32) (list Z) :=
  m <~ two ; m <~ Compile arnd m ; m <~ CompileBackPropagation m ; m <~ (if twice then CompileBackPropagation m else mret m) ;
  x <~ liftT (NewFromValues [ai 1] [1]%N) ; y <~ liftT (NewFromValues [ai 3; ai 8] [2]%N) ; r <~ TrainOne m x y (ai 1) (ai 0) ; ask (snd r) 5.
Theorem C110_refuted : answer (trained false) = Ok [11; 29]%Z /\ answer (trained true) = Ok [0; 0]%Z.
Proof. vm_compute. repeat split. Qed.
Print Assumptions C107_refuted.
Print Assumptions C110_refuted.
Print Assumptions C108_refuted.
Example C107_case : match two as0 with
  | (Ok m, s) => match Compile arnd m s with
      | (Ok m1, s1) => match m_ff m1, Compile arnd m1 s1 with Some g, (Ok m2, s2) => length (g_ops g) = 6 /\ option_map (fun g => length (g_ops g)) (m_ff m2) = Some 0 | _, _ => False end
      | _ => False end
  | _ => False end.
Proof. vm_compute. split; reflexivity. Qed.
(** The scalars of input and output after compiling twice. *)
Example C107_stale_case : match (m <~ two ; m <~ Compile arnd m ; Compile arnd m) as0 with
  | (Ok m, s) => match m_input m, m_output m with
      | Some i, Some o => cells (ts s) i = [Some 0] /\ cells (ts s) o = [Some 2; Some 3] /\ option_map (fun d => map ival d) (rds (mem (ts s)) (cells (ts s) o)) = Some [0; 0]%Z
      | _, _ => False end
  | _ => False end.
Proof. vm_compute. repeat split. Qed.
End Cases.

(** ** C109: expressions with parts that belong to another graph *)
(** [b = a + a] is compiled, then [c = b * b] in a graph of its own. Neither graph
    reports anything; after [a] is set to 5 the graph of [c] gives the value for
    the old [b], and the right one if the graph of [b] runs before. *)
Section Graphs.
#[local] Existing Instance NumI32.
Definition parts : TM Z (graph Z * graph Z) :=
  a <~ NewFromValues [1]%Z [1]%N ; b <~ NewOp2 a a Op2Add ; g1 <~ NewGraph b ; ExecM g1 ;~ c <~ NewOp2 b b Op2Mul ; g2 <~ NewGraph c ; Set_ a 5%Z [0]%N ;~ mret (g1, g2).
Definition pst : tst Z := snd (parts (MkSt [] [] [])).
Definition pexpr : expr Z := EBin BMul (EBin BAdd (ELeaf 0) (ELeaf 0)) (EBin BAdd (ELeaf 0) (ELeaf 0)).
Theorem C109_refuted : exists g1 g2 s, parts (MkSt [] [] []) = (Ok (g1, g2), s) /\
  denotes (length (mem s)) (tens s) 2 pexpr /\ eval (leafv (tens s) (mem s)) (fun x => mem s !! x) pexpr = Some (V [1]%N [100]%Z) /\
  fst ((ExecM g2 ;~ GetData 2) s) = Ok [4]%Z /\ fst ((ExecM g1 ;~ ExecM g2 ;~ GetData 2) s) = Ok [100]%Z.
Proof.
  destruct (fst (parts (MkSt [] [] []))) as [[g1 g2]| | |] eqn:E; [|vm_compute in E; discriminate..]. exists g1, g2, pst.
  split; [rewrite <- E; unfold pst; destruct (parts _); reflexivity|]. split; [apply (unfold_expr_sound 3); vm_compute; reflexivity|].
  split; [vm_compute; reflexivity|]. vm_compute in E. injection E as <- <-. split; vm_compute; reflexivity.
Qed.
End Graphs.
Print Assumptions C109_refuted.
