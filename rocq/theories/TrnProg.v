(** * TrnProg: histories of a network that is used and trained

    The specification says which tensors the user has, which parameters the
    network has and what is shown, in terms of tensor values only. The program is
    the same history as calls of the code. *)
From Verif Require Import Base Num Spec NetSpec FwdSpec BwdSpec TrnSpec TrnScript.
From Verif Require Import ModelTools ModelTensor ModelLayer ModelModel FwdScript.
From Verif Require NetScript.

Section TrnProg.
Context {T : Type} `{Num T}.

(** ** One step of training *)
(** Layers whose bias has a momentum that is kept from step to step. *)
Definition has_mom (c : clay T) : bool := match c_l c with Some (SConv _ _ _ _ _ _) | Some (SDeconv _ _ _ _ _ _) => true | _ => false end.
Definition update : Type := vten T * option (vten T * vten T).
Fixpoint new_par (par : params) (cs : list (clay T)) (us : list update) : params :=
  match cs, us with
  | c :: cs', u :: us' => fun i => if i =? c_i c then match snd u with Some p => Some p | None => par i end else new_par par cs' us' i
  | _, _ => par
  end.
Fixpoint new_mom (mb : nat -> option (vten T)) (al mo : T) (cs : list (clay T)) (us : list update) : nat -> option (vten T) :=
  match cs, us with
  | c :: cs', u :: us' => fun i => if i =? c_i c then if has_mom c then s_db mb al mo i (fst u) else mb i else new_mom mb al mo cs' us' i
  | _, _ => mb
  end.
(** The error of the network at the input [x] with the wanted output [y]. *)
Definition s_err (par : params) (cs : list (clay T)) (x y : vten T) : option (vten T) :=
  o ← s_out par x cs; Some (V (vsh y) (zip_with nsub (vdata y) (vdata o))).
(** The loss that is shown, the new parameters and the new momenta. *)
Definition s_train (par : params) (mb : nat -> option (vten T)) (al mo : T) (cs : list (clay T)) (x y : vten T) :
    option (T * params * (nat -> option (vten T))) :=
  d ← s_err par cs x y;
  us ← s_step (s_show par x 0 cs) mb al mo cs d;
  k ← fold1 nadd (map absv (vdata d));
  Some (k, new_par par cs us, new_mom mb al mo cs us).
(** Layers that are not trainable keep their parameters. *)
Definition s_keep (tr : nat -> bool) (par par' : params (T:=T)) : params := fun i => if tr i then par' i else par i.
(** Steps of training one after the other, with the pairs that have the numbers
    [ks]. *)
Fixpoint s_trains (ish osh : list N) (tr : nat -> bool) (par : params) (mb : nat -> option (vten T)) (al mo : T) (cs : list (clay T)) (pairs : list (vten T * vten T)) (ks : list nat) :
    option (params * (nat -> option (vten T))) :=
  match ks with
  | [] => Some (par, mb)
  | k :: ks' =>
      p ← pairs !! k;
      if bool_decide (vsh (fst p) = ish) && bool_decide (vsh (snd p) = osh)
      then r ← s_train par mb al mo cs (fst p) (snd p); s_trains ish osh tr (s_keep tr par (snd (fst r))) (snd r) al mo cs pairs ks'
      else None
  end.

(** ** Histories *)
Inductive tact : Type :=
| TNew (sh : list N) (vs : list T)               (* a new tensor *)
| TGet (i : nat)                                 (* read a tensor *)
| TPredict (i : nat)                             (* the result is a new tensor *)
| TTrain (i j : nat) (al mo : T)                 (* one step of training: input, wanted output, alpha, momentum *)
| TMany (is js : list nat) (picks : nat -> nat -> nat) (epochs batch : nat) (al mo : T) (* Train: inputs, wanted outputs, what the random source picks *)
| TLayer (k : nat) (b : bool)                    (* SetTrainable on one layer, the lowest is 0 *)
| TModel (b : bool).                             (* SetTrainable on the model *)
Record tstate : Type := MkT { t_vals : list (vten T); t_par : params (T:=T); t_mom : nat -> option (vten T); t_tr : nat -> bool }.
(** The model's SetTrainable leaves out the lowest layer. *)
Definition tag_one (i : nat) (b : bool) (tr : nat -> bool) : nat -> bool := fun j => if j =? i then b else tr j.
Definition tag_all (cs : list (clay T)) (b : bool) (tr : nat -> bool) : nat -> bool := fun j => if existsb (fun c => j =? c_i c) (removelast cs) then b else tr j.
Inductive tstep (ish osh : list N) (cs : list (clay T)) : tstate -> tact -> tstate -> option (list T) -> Prop :=
| ts_new st par mb tr sh vs : fits sh -> length vs = N.to_nat (prodN sh) ->
    tstep ish osh cs (MkT st par mb tr) (TNew sh vs) (MkT (st ++ [V sh vs]) par mb tr) (Some [])
| ts_get st par mb tr i x : st !! i = Some x -> tstep ish osh cs (MkT st par mb tr) (TGet i) (MkT st par mb tr) (Some (vdata x))
| ts_predict st par mb tr i x y : st !! i = Some x -> vsh x = ish -> s_out par x cs = Some y ->
    tstep ish osh cs (MkT st par mb tr) (TPredict i) (MkT (st ++ [y]) par mb tr) (Some [])
| ts_refuse st par mb tr i x : st !! i = Some x -> vsh x <> ish -> tstep ish osh cs (MkT st par mb tr) (TPredict i) (MkT st par mb tr) None
| ts_train st par mb tr i j x y al mo k par' mb' : st !! i = Some x -> st !! j = Some y -> vsh x = ish -> vsh y = osh ->
    s_train par mb al mo cs x y = Some (k, par', mb') -> tstep ish osh cs (MkT st par mb tr) (TTrain i j al mo) (MkT st (s_keep tr par par') mb' tr) (Some [k])
| ts_train_bad st par mb tr i j x y al mo : st !! i = Some x -> st !! j = Some y -> vsh x <> ish \/ vsh y <> osh ->
    tstep ish osh cs (MkT st par mb tr) (TTrain i j al mo) (MkT st par mb tr) None
| ts_many st par mb tr is js pairs picks epochs batch al mo par' mb' :
    Forall2 (fun i p => st !! i = Some (fst p)) is pairs -> Forall2 (fun j p => st !! j = Some (snd p)) js pairs -> pairs <> [] \/ epochs = 0 \/ batch = 0 ->
    s_trains ish osh tr par mb al mo cs pairs (NetScript.picked picks (length pairs) epochs (if batch =? 0 then length pairs else batch)) = Some (par', mb') ->
    tstep ish osh cs (MkT st par mb tr) (TMany is js picks epochs batch al mo) (MkT st par' mb' tr) (Some [])
| ts_many_stop st par mb tr is js pairs picks epochs batch al mo ks k ks' x y par' mb' : (* the steps before the first unsuitable pair count *)
    Forall2 (fun i p => st !! i = Some (fst p)) is pairs -> Forall2 (fun j p => st !! j = Some (snd p)) js pairs ->
    NetScript.picked picks (length pairs) epochs (if batch =? 0 then length pairs else batch) = ks ++ k :: ks' ->
    s_trains ish osh tr par mb al mo cs pairs ks = Some (par', mb') -> pairs !! k = Some (x, y) -> vsh x <> ish \/ vsh y <> osh ->
    tstep ish osh cs (MkT st par mb tr) (TMany is js picks epochs batch al mo) (MkT st par' mb' tr) None
| ts_many_bad st par mb tr is js picks epochs batch al mo :
    Forall (fun i => i < length st) is -> Forall (fun j => j < length st) js -> length is <> length js ->
    tstep ish osh cs (MkT st par mb tr) (TMany is js picks epochs batch al mo) (MkT st par mb tr) None
| ts_layer st par mb tr k b c : rev cs !! k = Some c -> tstep ish osh cs (MkT st par mb tr) (TLayer k b) (MkT st par mb (tag_one (c_i c) b tr)) (Some [])
| ts_model st par mb tr b : tstep ish osh cs (MkT st par mb tr) (TModel b) (MkT st par mb (tag_all cs b tr)) (Some []).
Inductive thistory (ish osh : list N) (cs : list (clay T)) : tstate -> list tact -> tstate -> list (option (list T)) -> Prop :=
| th_nil st : thistory ish osh cs st [] st []
| th_cons st a st1 o acts st2 os : tstep ish osh cs st a st1 o -> thistory ish osh cs st1 acts st2 os -> thistory ish osh cs st (a :: acts) st2 (o :: os).

(** ** The start *)
(** Bias and weights of every layer have the shapes they should have and hold
    each one request to the random source. *)
Fixpoint starts (rnd : nat -> nat -> T) (ish : list N) (par : params) (cs : list (clay T)) : Prop :=
  match cs with
  | [] => True
  | c :: rest =>
      (forall l bs ws, c_l c = Some l -> par_shape l (match rest with [] => ish | q :: _ => c_sh q end) = Some (bs, ws) ->
        exists b w, par (c_i c) = Some (b, w) /\ drawn rnd bs b /\ drawn rnd ws w) /\
      starts rnd ish par rest
  end.
(** Every layer is trainable in the beginning, momenta start with zeros. *)
Definition every : nat -> bool := fun _ => true.
Definition still (par : params (T:=T)) : nat -> option (vten T) := fun i => p ← par i; Some (vzero (vsh (fst p))).
End TrnProg.
Arguments tact T : clear implicits.
Arguments tstate T : clear implicits.

(** ** The same as calls of the code *)
Section Program.
Context {T : Type} `{Num T}.
Context (rnd : nat -> nat -> T).

(** One call: the model, the user's tensors, and what is shown. The first training
    compiles the model, which is written before the call ([ensure_bp], see
    NetScript.v) to name the model object also when the call fails. *)
Definition do_tact (lids : list nat) (st : model T * list nat) (a : tact T) : LM T (model T * list nat * option (list T)) :=
  let '(m, tids) := st in
  let ten i := mlift (at_or_panic tids i) in
  match a with
  | TNew sh vs => t <~ liftT (NewFromValues vs sh) ; mret (m, tids ++ [t], Some [])
  | TGet i => t <~ ten i ; vs <~ liftT (GetData t) ; mret (m, tids, Some vs)
  | TPredict i =>
      t <~ ten i ; r <~ attempt (Predict rnd m t) ;
      match r with Some (y, m') => mret (m', tids ++ [y], Some []) | None => mret (m, tids, None) end
  | TTrain i j al mo =>
      x <~ ten i ; y <~ ten j ; m' <~ NetScript.ensure_bp m ; r <~ attempt (TrainOne m' x y al mo) ;
      mret (m', tids, match r with Some (v, _) => Some [v] | None => None end)
  | TMany is js picks epochs batch al mo =>
      xs <~ mmap is ten ; ys <~ mmap js ten ;
      m' <~ (if length xs =? length ys then NetScript.ensure_bp m else mret m) ;
      r <~ attempt (Train picks m' xs ys epochs batch al mo) ;
      mret (m', tids, match r with Some _ => Some [] | None => None end)
  | TLayer k b => id <~ mlift (at_or_panic lids k) ; LSetTrainable id b ;~ mret (m, tids, Some [])
  | TModel b => SetTrainable m b ;~ mret (m, tids, Some [])
  end.
Fixpoint do_tacts (lids : list nat) (st : model T * list nat) (acts : list (tact T)) : LM T (model T * list nat * list (option (list T))) :=
  match acts with
  | [] => mret (st, [])
  | a :: acts' =>
      r <~ do_tact lids st a ;
      r' <~ do_tacts lids (fst r) acts' ;
      mret (fst r', snd r :: snd r')
  end.
(** NewModel with layers pushed one on the other, Compile, then the history. *)
Definition tprogram (m0 : mk T) (ks : list (lay1 T)) (acts : list (tact T)) :
    LM T (list nat * (model T * list nat * list (option (list T)))) :=
  b <~ build_seq m0 ks ; m <~ Compile rnd (snd b) ; r <~ do_tacts (fst b) (m, []) acts ; mret (fst b, r).
End Program.
