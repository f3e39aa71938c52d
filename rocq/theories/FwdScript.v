(** * FwdScript: programs that build a network of any layers and use it

    First what they should do, in terms of tensor values only; then the same as
    calls of the modelled code. *)
From Verif Require Import Base Num Spec NetSpec FwdSpec.
From Verif Require Import ModelTools ModelOps ModelTensor ModelGraph ModelLayer ModelModel.

Section Networks.
Context {T : Type} `{Num T}.

(** ** Making layers
    The user makes layers one after the other and names them by position. *)
Inductive lay1 : Type :=
| KDense (o : N) (a : activation T)
| KConv (nf kw kh sx sy : N) (a : activation T)
| KDeconv (nf kw kh sx sy : N) (a : activation T)
| KPool (sx sy : N)
| KUp (s : N)
| KFlat
| KNorm
| KENorm
| KSoft
| KSub (dim from to : N).
Inductive mk : Type :=
| MInput (sh : list N)                           (* an input of this shape *)
| MDenseIn (i o : N) (a : activation T)          (* a dense layer with its own input *)
| MOn (k : lay1) (q : nat)                       (* a layer on layer [q] *)
| MCat (a b : nat) (dim : N).                    (* two layers joined *)

(** The network each of them is; inputs are named by the layer that has them. *)
Definition spec1 (k : lay1) : lspec T :=
  match k with
  | KDense o a => SDense o (act_f a)
  | KConv nf kw kh sx sy a => SConv nf kw kh sx sy (act_f a)
  | KDeconv nf kw kh sx sy a => SDeconv nf kw kh sx sy (act_f a)
  | KPool sx sy => SPool sx sy
  | KUp s => SUp s s
  | KFlat => SFlat
  | KNorm => SNorm nzero none
  | KENorm => SNorm (nneg none) none
  | KSoft => SSoft
  | KSub d from to => SSub d from to
  end.
Definition net_step (done : list (net T)) (m : mk) : option (net T) :=
  let p := length done in
  match m with
  | MInput _ => Some (NIn p)
  | MDenseIn _ o a => Some (NLay (SDense o (act_f a)) p (NIn p))
  | MOn k q => e ← done !! q; Some (NLay (spec1 k) p e)
  | MCat a b d => ea ← done !! a; eb ← done !! b; Some (NCat p ea eb d)
  end.
Fixpoint nets (done : list (net T)) (ms : list mk) : option (list (net T)) :=
  match ms with [] => Some done | m :: ms' => e ← net_step done m; nets (done ++ [e]) ms' end.
(** The shapes inputs were made with, and that sizes are no problem. *)
Definition in_shape (ms : list mk) (p : nat) : option (list N) :=
  match ms !! p with Some (MInput sh) => Some sh | Some (MDenseIn i _ _) => Some [i] | _ => None end.
Definition mk_ok (m : mk) : Prop :=
  match m with
  | MInput sh => fits sh
  | MDenseIn i o _ => fits [i] /\ fits [o]
  | MOn (KDense o _) _ => fits [o]
  | _ => True
  end.

(** ** Using it
    [inp]: the layer that gets the user's inputs; other inputs stay zero. [par]:
    the bias and the weights of each layer that has them. *)
Definition answer (ms : list mk) (inp : nat) (e : net T) (par : nat -> option (vten T * vten T)) (x : vten T) : option (vten T) :=
  nval (fun p => if decide (p = inp) then Some x else sh ← in_shape ms p; Some (V sh (replicate (N.to_nat (prodN sh)) nzero))) par e.

Inductive fact : Type :=
| FNew (sh : list N) (vs : list T)               (* a new tensor *)
| FGet (i : nat)                                 (* read a tensor *)
| FPredict (i : nat).                            (* the result is a new tensor *)

(** The user's tensors before and after, and what is shown: numbers, or that the
    call was refused. *)
Inductive fstep (ish : list N) (ans : vten T -> option (vten T)) : list (vten T) -> fact -> list (vten T) -> option (list T) -> Prop :=
| fs_new st sh vs : fits sh -> length vs = N.to_nat (prodN sh) -> fstep ish ans st (FNew sh vs) (st ++ [V sh vs]) (Some [])
| fs_get st i x : st !! i = Some x -> fstep ish ans st (FGet i) st (Some (vdata x))
| fs_predict st i x y : st !! i = Some x -> vsh x = ish -> ans x = Some y -> fstep ish ans st (FPredict i) (st ++ [y]) (Some [])
| fs_refuse st i x : st !! i = Some x -> vsh x <> ish -> fstep ish ans st (FPredict i) st None.
Inductive fhistory (ish : list N) (ans : vten T -> option (vten T)) : list (vten T) -> list fact -> list (vten T) -> list (option (list T)) -> Prop :=
| fh_nil st : fhistory ish ans st [] st []
| fh_cons st a st1 o acts st2 os : fstep ish ans st a st1 o -> fhistory ish ans st1 acts st2 os -> fhistory ish ans st (a :: acts) st2 (o :: os).
End Networks.
Arguments lay1 T : clear implicits.
Arguments mk T : clear implicits.
Arguments fact T : clear implicits.

(** ** The same as calls of the code *)
Section Program.
Context {T : Type} `{Num T}.
Context (rnd : nat -> nat -> T).

Definition make1 (k : lay1 T) : LM T nat :=
  match k with
  | KDense o a => NewDense o a
  | KConv nf kw kh sx sy a => NewConv2Dwh nf kw kh sx sy a
  | KDeconv nf kw kh sx sy a => NewDeconv2Dwh nf kw kh sx sy a
  | KPool sx sy => NewMaxPool2Dxy sx sy
  | KUp s => NewUpSampling2D s
  | KFlat => NewFlatten
  | KNorm => NewNorm
  | KENorm => NewENorm
  | KSoft => NewSoftMax
  | KSub d from to => NewSubTensor d from to
  end.
Definition make (ids : list nat) (m : mk T) : LM T nat :=
  match m with
  | MInput sh => NewInput sh
  | MDenseIn i o a => NewInDense i o a
  | MOn k q => l <~ make1 k ; c <~ mlift (at_or_panic ids q) ; Connect l (Some c) ;~ mret l
  | MCat a b d => la <~ mlift (at_or_panic ids a) ; lb <~ mlift (at_or_panic ids b) ; NewConcat (Some la) (Some lb) d
  end.
Fixpoint makes (ids : list nat) (ms : list (mk T)) : LM T (list nat) :=
  match ms with [] => mret ids | m :: ms' => l <~ make ids m ; makes (ids ++ [l]) ms' end.
(** model.go:45-50: from the layer that gets the inputs to the one that gives the outputs. *)
Definition build_net (ms : list (mk T)) (inp out : nat) : LM T (list nat * model T) :=
  ids <~ makes [] ms ; i <~ mlift (at_or_panic ids inp) ; o <~ mlift (at_or_panic ids out) ; mret (ids, FromInOut i o).

(** NewModel, then layer after layer made and pushed. *)
Definition push_one (st : list nat * model T) (k : lay1 T) : LM T (list nat * model T) :=
  l <~ make1 k ; m <~ MPush (snd st) l ; mret (fst st ++ [l], m).
Fixpoint push_seq (st : list nat * model T) (ks : list (lay1 T)) : LM T (list nat * model T) :=
  match ks with [] => mret st | k :: ks' => st' <~ push_one st k ; push_seq st' ks' end.
Definition build_seq (m0 : mk T) (ks : list (lay1 T)) : LM T (list nat * model T) :=
  l <~ make [] m0 ; m <~ MPush NewModel l ; push_seq ([l], m) ks.
(** the same layers, each on the one before *)
Definition seq_mks (m0 : mk T) (ks : list (lay1 T)) : list (mk T) := m0 :: imap (fun p k => MOn k p) ks.

(** The user goes on after an error. *)
Definition attempt {A} (c : LM T A) : LM T (option A) := fun s =>
  match c s with
  | (Ok a, s') => (Ok (Some a), s')
  | (Err _, s') => (Ok None, s')
  | (Panic, s') => (Panic, s')
  | (Diverge, s') => (Diverge, s')
  end.
Definition do_fact (st : model T * list nat) (a : fact T) : LM T (model T * list nat * option (list T)) :=
  let '(m, tids) := st in
  let ten i := mlift (at_or_panic tids i) in
  match a with
  | FNew sh vs => t <~ liftT (NewFromValues vs sh) ; mret (m, tids ++ [t], Some [])
  | FGet i => t <~ ten i ; vs <~ liftT (GetData t) ; mret (m, tids, Some vs)
  | FPredict i =>
      t <~ ten i ; r <~ attempt (Predict rnd m t) ;
      match r with Some (y, m') => mret (m', tids ++ [y], Some []) | None => mret (m, tids, None) end
  end.
Fixpoint do_facts (st : model T * list nat) (acts : list (fact T)) : LM T (model T * list nat * list (option (list T))) :=
  match acts with
  | [] => mret (st, [])
  | a :: acts' =>
      r <~ do_fact st a ;
      r' <~ do_facts (fst r) acts' ;
      mret (fst r', snd r :: snd r')
  end.
(** Build, Compile, then the history. It returns the layers too. *)
Definition fprogram (build : LM T (list nat * model T)) (acts : list (fact T)) :
    LM T (list nat * (model T * list nat * list (option (list T)))) :=
  b <~ build ; m <~ Compile rnd (snd b) ; r <~ do_facts (m, []) acts ; mret (fst b, r).
End Program.
