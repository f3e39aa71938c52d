(** * P_Epoch: which pairs Train uses (claims C111, C112)

    [picks e b]: what rand.Intn gives in step [b] of epoch [e]. *)
From Verif Require Import Base Num NumIntS ModelTools ModelOps ModelTensor ModelGraph ModelLayer ModelModel EpochProofs.
From Coq Require Import Lia.

Section P.
Context {T : Type} `{Num T}.

(** ** C111: an epoch uses every pair *)
(** A batch of 0 stands for as many steps as there are pairs. *)
Theorem C111_zero picks (m : model T) xs ys epochs a mo s : xs <> [] ->
  Train picks m xs ys epochs 0 a mo s = Train picks m xs ys epochs (length xs) a mo s.
Proof. intros Hx. unfold Train. destruct xs; [contradiction|]. reflexivity. Qed.
(** Refuted for every model, every state and all pairs: there is a choice of
    rand.Intn for which the call does what it does with the first pair alone. *)
Theorem C111_one_pair picks (m : model T) x y xs ys epochs batch a mo s : length xs = length ys -> 0 < batch ->
  Train (fun _ _ => 0) m (x :: xs) (y :: ys) epochs batch a mo s = Train picks m [x] [y] epochs batch a mo s.
Proof. apply train_one_pair. Qed.
(** What holds: the result depends on the pairs picked only, and whatever one
    list can lead to, so can every list with at least its pairs, in any order. *)
Theorem C111_picked picks picks' (m : model T) xs ys xs' ys' epochs batch a mo s :
  length xs = length ys -> length xs' = length ys' -> xs <> [] -> xs' <> [] -> 0 < batch ->
  (forall e b, e < epochs -> b < batch ->
    xs !! (picks e b mod length xs) = xs' !! (picks' e b mod length xs') /\ ys !! (picks e b mod length xs) = ys' !! (picks' e b mod length xs')) ->
  Train picks m xs ys epochs batch a mo s = Train picks' m xs' ys' epochs batch a mo s.
Proof. apply train_picks. Qed.
Theorem C111_subset picks (m : model T) xs ys xs' ys' epochs batch a mo s :
  length xs = length ys -> length xs' = length ys' -> xs <> [] -> 0 < batch -> (forall p, p ∈ zip xs ys -> p ∈ zip xs' ys') ->
  exists picks', (forall e b, picks' e b < length xs') /\ Train picks m xs ys epochs batch a mo s = Train picks' m xs' ys' epochs batch a mo s.
Proof. apply train_subset. Qed.

(** ** C112: training on no pairs *)
(** Refuted: with a batch given it panics, whatever the compiled model. *)
Theorem C112_panics picks (m : model T) epochs batch a mo s : m_bp m <> None -> 0 < epochs -> 0 < batch -> fst (Train picks m [] [] epochs batch a mo s) = Panic.
Proof. apply train_nothing. Qed.
(** Without a batch, or without epochs, it stores the two parameters of training
    and changes nothing else. *)
Theorem C112_no_step picks (m : model T) xs ys epochs batch a mo s pa pm pl : length xs = length ys -> m_bp m <> None ->
  m_alpha m = Some pa -> m_momentum m = Some pm -> m_loss m = Some pl -> pa < length (mem (ts s)) -> pm < length (mem (ts s)) -> pl < length (mem (ts s)) ->
  epochs = 0 \/ (batch = 0 /\ xs = []) ->
  Train picks m xs ys epochs batch a mo s = (Ok m, MkL (MkSt (<[pm := mo]> (<[pa := a]> (mem (ts s)))) (tens (ts s)) (ctx (ts s))) (lays s) (rc s)).
Proof. apply train_no_step. Qed.
End P.
Print Assumptions C111_zero.
Print Assumptions C111_one_pair.
Print Assumptions C111_picked.
Print Assumptions C111_subset.
Print Assumptions C112_panics.
Print Assumptions C112_no_step.

(** ** A concrete model: 32-bit integers, identity activation *)
Section Cases.
#[local] Existing Instance NumS32.
Definition ei (z : Z) : intw 32 := NumIntS.mk 32 eq_refl z.
Definition ernd (c i : nat) : intw 32 := ei (Z.of_nat (c + 2 * i + 1)).
Definition eact : activation (intw 32) := MkAct (fun x => x) (fun _ => ei 1).
Definition es0 : lst (intw 32) := MkL (MkSt [] [] []) [] 0.
Definition emodel : LM (intw 32) (model (intw 32)) :=
  i <~ NewInput [1]%N ; d <~ NewDense 2 eact ; m <~ MPush NewModel i ; m <~ MPush m d ; m <~ Compile ernd m ; CompileBackPropagation m.
Definition ein (z : Z) : LM (intw 32) nat := liftT (NewFromValues [ei z] [1]%N).
Definition eout (y z : Z) : LM (intw 32) nat := liftT (NewFromValues [ei y; ei z] [2]%N).
Definition easks (m : model (intw 32)) : LM (intw 32) (list Z) :=
  x <~ ein 5 ; p <~ Predict ernd m x ; d <~ liftT (GetData (fst p)) ; mret (map ival d).
(** One epoch over two pairs, the second of which is (2, (y, z)). *)
Definition epoch (picks : nat -> nat -> nat) (y z : Z) : res (list Z) := fst ((
  m <~ emodel ; x1 <~ ein 1 ; y1 <~ eout 3 8 ; x2 <~ ein 2 ; y2 <~ eout y z ; m <~ Train picks m [x1; x2] [y1; y2] 1 0 (ei 1) (ei 0) ; easks m) es0).
(** The second pair has no influence if the first is drawn twice; it has one if
    each is drawn once. *)
Theorem C111_refuted : (exists r, epoch (fun _ _ => 0) 4 4 = Ok r /\ epoch (fun _ _ => 0) 9 0 = Ok r) /\
  exists r r', epoch (fun _ b => b) 4 4 = Ok r /\ epoch (fun _ b => b) 9 0 = Ok r' /\ r <> r'.
Proof.
  split; [eexists; split; vm_compute; reflexivity|]. do 2 eexists. do 2 (split; [vm_compute; reflexivity|]). discriminate.
Qed.
(** No pairs: one step each for one epoch, and no batch given. *)
Definition enone (batch : nat) : res (list Z) := fst ((m <~ emodel ; m <~ Train (fun _ _ => 0) m [] [] 1 batch (ei 1) (ei 0) ; easks m) es0).
Theorem C112_refuted : enone 1 = Panic /\ enone 0 = fst ((m <~ emodel ; easks m) es0) /\ exists r, enone 0 = Ok r.
Proof. split; [vm_compute; reflexivity|]. split; [vm_compute; reflexivity|]. eexists. vm_compute. reflexivity. Qed.
(** The hypotheses of C112_no_step and of C111_subset. *)
Example C112_case : match emodel es0 with
  | (Ok m, s) => match m_bp m, m_alpha m, m_momentum m, m_loss m with
      | Some g, Some pa, Some pm, Some pl => g_ops g <> [] /\ pa <> pm /\ forallb (fun p => p <? length (mem (ts s))) [pa; pm; pl] = true
      | _, _, _, _ => False end
  | _ => False end.
Proof. vm_compute. repeat split; discriminate. Qed.
Example C111_case : forall p, p ∈ zip [4; 6] [5; 7] -> p ∈ zip [6; 8; 4] [7; 9; 5].
Proof. intros p Hp. cbn in *. repeat (apply elem_of_cons in Hp as [-> | Hp]); [right; right; left|left|]. apply elem_of_nil in Hp. contradiction. Qed.
Print Assumptions C111_refuted.
Print Assumptions C112_refuted.
End Cases.
