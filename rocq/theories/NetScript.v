(** * NetScript: histories of user actions on a stack of dense layers

    First what such a history should do, in terms of lists of numbers only; then
    the same history as calls of the modelled code. *)
From Verif Require Import Base Num Spec NetSpec.

Section Script.
Context {T : Type} `{Num T}.

(** ** Actions
    The user keeps a growing list of tensors; an action names them by position.
    Layers are named by position too, counting from the input. *)
Inductive act : Type :=
| ANew (sh : list N) (vs : list T)                 (* a new tensor *)
| AGet (i : nat)                                   (* read a tensor *)
| APredict (i : nat)                               (* the result is a new tensor *)
| ATrainOne (i j : nat) (alpha momentum : T)       (* gives the loss *)
| ATrain (is js : list nat) (picks : nat -> nat -> nat) (epochs batch : nat) (alpha momentum : T)
| ALayer (k : nat) (b : bool)                      (* SetTrainable on one layer *)
| AModel (b : bool).                               (* SetTrainable on the model *)

(** What the user holds: the layers and the tensors. *)
Record world : Type := W { w_net : list (slayer T); w_ten : list (list N * list T) }.

Definition set_strain (b : bool) (l : slayer T) : slayer T := SL (sW l) (sB l) (sf l) (sd l) b.

(** Steps of Train: in epoch [e], step [b] the pair number [picks e b] modulo the
    number of pairs. *)
Definition picked (picks : nat -> nat -> nat) (n epochs batch : nat) : list nat :=
  flat_map (fun e => map (fun b => Nat.modulo (picks e b) n) (seq 0 batch)) (seq 0 epochs).
(** One pick after the other; an unsuitable pair ends the training. *)
Fixpoint learn_picks (ish osh : list N) (alpha rest : T) (pairs : list ((list N * list T) * (list N * list T))) (ks : list nat)
    (net : list (slayer T)) : list (slayer T) * bool :=
  match ks with
  | [] => (net, true)
  | k :: ks' =>
      match pairs !! k with
      | Some (x, y) =>
          if bool_decide (fst x = ish) && bool_decide (fst y = osh)
          then learn_picks ish osh alpha rest pairs ks' (learn alpha rest net (snd x) (snd y))
          else (net, false)
      | None => (net, false)
      end
  end.

(** [ish], [osh]: the shapes of inputs and outputs; [low]: whether the model's
    SetTrainable reaches the lowest dense layer. What is shown after an action:
    numbers, or that the call was refused. *)
Context (ish osh : list N) (low : bool).

Inductive step : world -> act -> world -> option (list T) -> Prop :=
| st_new net st sh vs : fits sh -> length vs = N.to_nat (prodN sh) ->
    step (W net st) (ANew sh vs) (W net (st ++ [(sh, vs)])) (Some [])
| st_get net st i sh vs : st !! i = Some (sh, vs) -> step (W net st) (AGet i) (W net st) (Some vs)
| st_predict net st i xs : st !! i = Some (ish, xs) ->
    step (W net st) (APredict i) (W net (st ++ [(osh, forward net xs)])) (Some [])
| st_predict_bad net st i sh xs : st !! i = Some (sh, xs) -> sh <> ish ->
    step (W net st) (APredict i) (W net st) None
| st_train1 net st i j xs tgt alpha mo : st !! i = Some (ish, xs) -> st !! j = Some (osh, tgt) ->
    Forall (fun l => sB l <> []) net ->
    step (W net st) (ATrainOne i j alpha mo) (W (learn alpha (nmul nzero mo) net xs tgt) st) (Some [loss net xs tgt])
| st_train1_bad net st i j sh xs sh' tgt alpha mo : st !! i = Some (sh, xs) -> st !! j = Some (sh', tgt) ->
    sh <> ish \/ sh' <> osh -> Forall (fun l => sB l <> []) net ->
    step (W net st) (ATrainOne i j alpha mo) (W net st) None
| st_train net st is js pairs picks epochs batch alpha mo net' ok :
    Forall2 (fun i p => st !! i = Some (fst p)) is pairs ->
    Forall2 (fun j p => st !! j = Some (snd p)) js pairs ->
    pairs <> [] -> Forall (fun l => sB l <> []) net ->
    learn_picks ish osh alpha (nmul nzero mo) pairs
      (picked picks (length pairs) epochs (if batch =? 0 then length pairs else batch)) net = (net', ok) ->
    step (W net st) (ATrain is js picks epochs batch alpha mo) (W net' st) (if ok then Some [] else None)
| st_train_bad net st is js picks epochs batch alpha mo :
    Forall (fun i => i < length st) is -> Forall (fun j => j < length st) js -> length is <> length js ->
    step (W net st) (ATrain is js picks epochs batch alpha mo) (W net st) None
| st_layer net st k b : k < length net -> step (W net st) (ALayer k b) (W (alter (set_strain b) k net) st) (Some [])
| st_model net st b :
    step (W net st) (AModel b)
      (W (match net with
          | [] => []
          | l :: net' => (if low then set_strain b l else l) :: map (set_strain b) net'
          end) st) (Some []).

(** A whole history and what it gives to see. *)
Inductive history : world -> list act -> world -> list (option (list T)) -> Prop :=
| hi_nil w : history w [] w []
| hi_cons w a w1 o acts w2 os : step w a w1 o -> history w1 acts w2 os -> history w (a :: acts) w2 (o :: os).
End Script.
Arguments act T : clear implicits.
Arguments world T : clear implicits.

(** ** The initial parameters
    [rnd c i] is the i-th number of the c-th request to the random source; each
    layer makes two requests, first for its biases, then for its weights. *)
Section Init.
Context {T : Type}.
Context (rnd : nat -> nat -> T).
Fixpoint init_net (c ni : nat) (ls : list (N * (T -> T) * (T -> T))) : list (slayer T) :=
  match ls with
  | [] => []
  | (o, f, d) :: ls' =>
      SL (map (fun i => map (fun j => rnd (S c) (i * ni + j)) (seq 0 ni)) (seq 0 (N.to_nat o)))
         (map (rnd c) (seq 0 (N.to_nat o))) f d true :: init_net (c + 2) (N.to_nat o) ls'
  end.
End Init.

(** ** The same as calls of the code *)
From Verif Require Import ModelTools ModelOps ModelTensor ModelGraph ModelLayer ModelModel.
Section Program.
Context {T : Type} `{Num T}.
Context (rnd : nat -> nat -> T).

(** NewInput or not, then NewDense for every layer, pushed one after the other,
    then Compile. *)
Definition push_dense (st : model T * list nat) (l : N * activation T) : LM T (model T * list nat) :=
  d <~ NewDense (fst l) (snd l) ; m <~ MPush (fst st) d ; mret (m, snd st ++ [d]).
Fixpoint push_all (st : model T * list nat) (ls : list (N * activation T)) : LM T (model T * list nat) :=
  match ls with [] => mret st | l :: ls' => st' <~ push_dense st l ; push_all st' ls' end.
Definition build_input (ish : list N) (ls : list (N * activation T)) : LM T (model T * list nat) :=
  i <~ NewInput ish ; m <~ MPush NewModel i ; push_all (m, []) ls.
Definition build_dense (ins : N) (l : N * activation T) (ls : list (N * activation T)) : LM T (model T * list nat) :=
  d <~ NewInDense ins (fst l) (snd l) ; m <~ MPush NewModel d ; push_all (m, [d]) ls.

(** The user goes on after an error. *)
Definition attempt {A} (c : LM T A) : LM T (option A) := fun s =>
  match c s with
  | (Ok a, s') => (Ok (Some a), s')
  | (Err _, s') => (Ok None, s')
  | (Panic, s') => (Panic, s')
  | (Diverge, s') => (Diverge, s')
  end.
(** model.go:296-301, 323-328: what TrainOne and Train do to the model object
    first. Both calls below are made with its result, which changes nothing
    ([TrainOne_ensured], [Train_ensured]) but names the model object after the
    call, also when the call fails. *)
Definition ensure_bp (m : model T) : LM T (model T) :=
  match m_bp m with None => CompileBackPropagation m | Some _ => mret m end.

(** One action: the model, the user's tensors, and what is shown. *)
Definition do_act (lids : list nat) (st : model T * list nat) (a : act T) : LM T (model T * list nat * option (list T)) :=
  let '(m, tids) := st in
  let ten i := mlift (at_or_panic tids i) in
  match a with
  | ANew sh vs => t <~ liftT (NewFromValues vs sh) ; mret (m, tids ++ [t], Some [])
  | AGet i => t <~ ten i ; vs <~ liftT (GetData t) ; mret (m, tids, Some vs)
  | APredict i =>
      t <~ ten i ; r <~ attempt (Predict rnd m t) ;
      match r with Some (y, m') => mret (m', tids ++ [y], Some []) | None => mret (m, tids, None) end
  | ATrainOne i j alpha mo =>
      x <~ ten i ; y <~ ten j ; m' <~ ensure_bp m ; r <~ attempt (TrainOne m' x y alpha mo) ;
      mret (m', tids, match r with Some (v, _) => Some [v] | None => None end)
  | ATrain is js picks epochs batch alpha mo =>
      xs <~ mmap is ten ; ys <~ mmap js ten ;
      m' <~ (if length xs =? length ys then ensure_bp m else mret m) ;
      r <~ attempt (Train picks m' xs ys epochs batch alpha mo) ;
      mret (m', tids, match r with Some _ => Some [] | None => None end)
  | ALayer k b => id <~ mlift (at_or_panic lids k) ; LSetTrainable id b ;~ mret (m, tids, Some [])
  | AModel b => SetTrainable m b ;~ mret (m, tids, Some [])
  end.
Fixpoint do_acts (lids : list nat) (st : model T * list nat) (acts : list (act T)) : LM T (model T * list nat * list (option (list T))) :=
  match acts with
  | [] => mret (st, [])
  | a :: acts' =>
      r <~ do_act lids st a ;
      r' <~ do_acts lids (fst r) acts' ;
      mret (fst r', snd r :: snd r')
  end.

(** The whole program: build, Compile, then the history. It returns the numbers
    of the dense layers too. *)
Definition program (build : LM T (model T * list nat)) (acts : list (act T)) :
    LM T (list nat * (model T * list nat * list (option (list T)))) :=
  b <~ build ; m <~ Compile rnd (fst b) ; r <~ do_acts (snd b) (m, []) acts ; mret (snd b, r).
End Program.
