(** * ModelModel: model/model.go and model/model_layer.go

    A Model is a record of layer, tensor, scalar numbers and graphs; the
    methods that change a model return it.  Left out: the progress display of
    Train (model.go:334-387, it only prints), FromModels (ModelFrom.v) and String. *)
From Verif Require Import Base Num ModelTools ModelOps ModelTensor ModelGraph ModelLayer.

Section Model.
Context {T : Type} `{Num T}.
Context (rnd : nat -> nat -> T).

(** model.go:23-39 *)
Record model : Type := MkModel {
  m_first : option nat;
  m_last : option nat;
  m_input : option nat;
  m_output : option nat;
  m_target : option nat;
  m_alpha : ptr;
  m_momentum : ptr;
  m_loss : ptr;
  m_ff : option (graph T);
  m_bp : option (graph T);
  m_caldif : option (graph T);
  m_resetfit : option (graph T);
  m_reset : option (graph T);
}.

(** model.go:41-43 NewModel *)
Definition NewModel : model :=
  MkModel None None None None None None None None None None None None None.
(** model.go:45-50 FromInOut *)
Definition FromInOut (i o : nat) : model :=
  MkModel (Some i) (Some o) None None None None None None None None None None None.

(** model.go:141-150 Push *)
Definition MPush (m : model) (l : nat) : LM T model :=
  match m_first m with
  | None => mret (MkModel (Some l) (Some l) (m_input m) (m_output m) (m_target m) (m_alpha m)
                    (m_momentum m) (m_loss m) (m_ff m) (m_bp m) (m_caldif m) (m_resetfit m) (m_reset m))
  | Some f =>
      Connect l (m_last m) ;~
      mret (MkModel (Some f) (Some l) (m_input m) (m_output m) (m_target m) (m_alpha m)
              (m_momentum m) (m_loss m) (m_ff m) (m_bp m) (m_caldif m) (m_resetfit m) (m_reset m))
  end.

(** A fresh [&context.Context{}] filled by [c], as a graph (graph.go:14-16). *)
Definition in_ctx (c : LM T unit) : LM T (graph T) :=
  liftT new_ctx ;~ c ;~ ops <~ liftT get_ctx ; mret (MkGraph ops).

(** model.go:152-186 Compile *)
Definition Compile (m : model) : LM T model :=
  last <~ the (m_last m) ;
  r <~ GetRef last ;
  liftT (incr r) ;~
  with_fuel (fun n => LBuild n last) ;~
  ff <~ in_ctx (with_fuel (fun n => LBuildFF rnd n last)) ;
  reset <~ in_ctx (with_fuel (fun n => LReset n last)) ;
  first <~ the (m_first m) ;
  i <~ GetInputs first ;
  o <~ GetOutputs last ;
  o' <~ the o ;
  t <~ liftT (Copy o') ;
  mret (MkModel (m_first m) (m_last m) i o (Some t) (m_alpha m) (m_momentum m) (m_loss m)
          (Some ff) (m_bp m) (m_caldif m) (m_resetfit m) (Some reset)).

(** tensor_mat.go:24-34 TensorMat.BuildGraph called on the TensorMat embedded in
    a tensor, which is what SetBuild (tensor_mat.go:159-162) returns. *)
Definition BuildEmbedded (id : nat) : TM T unit :=
  mt <~ get_mat id ;
  if builded mt then mret tt
  else set_built id ;~ mfor (operands mt) (fun o => push (OScalar o)).

(** model.go:191-211: the graph computing the error of the last layer and the loss *)
Definition caldif (dif out tgt : nat) : TM T ptr :=
  mo <~ get_mat out ; mt <~ get_mat tgt ; md <~ get_mat dif ;
  mfor (range (length (operands mt))) (fun i =>
    d <~ atM (operands md) i ;
    t <~ atM (operands mt) i ;
    o <~ atM (operands mo) i ;
    push (OSub d t o)) ;~
  a <~ NAbs dif ;
  s <~ TensorMath a RSum ;
  ignore_err (Build s) ;~
  ms <~ get_mat s ;
  atM (operands ms) 0.

(** model.go:188-245 CompileBackPropagation; the fields that are already set
    when something fails are not tracked (the error is reported) *)
Definition CompileBackPropagation (m : model) : LM T model :=
  last <~ the (m_last m) ;
  d <~ GetDif last ; dif <~ the d ;
  liftT (SetBuild dif false) ;~
  liftT new_ctx ;~
  liftT (BuildEmbedded dif) ;~
  out <~ the (m_output m) ; osh <~ shapeT out ;
  tgt <~ liftT (NewZeros osh) ;
  loss <~ liftT (caldif dif out tgt) ;
  ops <~ liftT get_ctx ;
  alpha <~ liftT (alloc nzero) ;
  momentum <~ liftT (alloc nzero) ;
  liftT (SetBuild dif false) ;~
  bp <~ in_ctx (with_fuel (fun n => LBuildBP n last alpha momentum)) ;
  rf <~ in_ctx (with_fuel (fun n => LResetFit n last)) ;
  mret (MkModel (m_first m) (m_last m) (m_input m) (m_output m) (Some tgt) alpha momentum loss
          (m_ff m) (Some bp) (Some (MkGraph ops)) (Some rf) (m_reset m)).

(** [p.G.Exec()]: a nil graph panics *)
Definition ExecG (g : option (graph T)) : LM T unit :=
  g' <~ the g ; liftT (ExecM g').

(** model.go:247-256 ResetIS *)
Definition ResetIS (m : model) : LM T model :=
  m' <~ (match m_ff m with None => Compile m | Some _ => mret m end) ;
  ExecG (m_reset m') ;~ mret m'.

(** model.go:258-271 Predict *)
Definition Predict (m : model) (x : nat) : LM T (nat * model) :=
  m' <~ (match m_ff m with None => Compile m | Some _ => mret m end) ;
  i <~ the (m_input m') ;
  liftT (LoadFromTensor i x) ;~
  ExecG (m_ff m') ;~
  o <~ the (m_output m') ;
  c <~ liftT (Copy o) ;
  mret (c, m').

(** model.go:273-290 ExecFit *)
Definition ExecFit (m : model) (x y : nat) : LM T unit :=
  ExecG (m_resetfit m) ;~
  i <~ the (m_input m) ;
  liftT (LoadFromTensor i x) ;~
  t <~ the (m_target m) ;
  liftT (LoadFromTensor t y) ;~
  ExecG (m_ff m) ;~
  ExecG (m_caldif m) ;~
  ExecG (m_bp m) ;~
  last <~ the (m_last m) ;
  with_fuel (fun n => LFit n last).

(** model.go:292-309 TrainOne *)
Definition TrainOne (m : model) (x y : nat) (alpha momentum : T) : LM T (T * model) :=
  m' <~ (match m_bp m with None => CompileBackPropagation m | Some _ => mret m end) ;
  liftT (wrM (m_alpha m') alpha) ;~
  liftT (wrM (m_momentum m') momentum) ;~
  ExecFit m' x y ;~
  v <~ liftT (rdM (m_loss m')) ;
  mret (v, m').

(** model.go:311-400 Train; [picks e b] is what [rand.Intn(len(inputs))] gives
    in epoch [e], step [b] (any number below the length); with nothing to pick
    from, [rand.Intn(0)] panics. *)
Definition Train (picks : nat -> nat -> nat) (m : model) (xs ys : list nat) (epochs batch : nat)
    (alpha momentum : T) : LM T model :=
  if negb (length xs =? length ys) then mfail (ELayer 7)
  else
    m' <~ (match m_bp m with None => CompileBackPropagation m | Some _ => mret m end) ;
    liftT (wrM (m_alpha m') alpha) ;~
    liftT (wrM (m_momentum m') momentum) ;~
    let batch' := if batch =? 0 then length xs else batch in
    mfor (range epochs) (fun e =>
      mfor (range batch') (fun b =>
        if length xs =? 0 then mpanic
        else
          let k := Nat.modulo (picks e b) (length xs) in
          x <~ mlift (at_or_panic xs k) ;
          y <~ mlift (at_or_panic ys k) ;
          ExecFit m' x y)) ;~
    liftT (rdM (m_loss m')) ;~                              (* model.go:391-397 prints it *)
    mret m'.

(** model_layer.go:40-46 SetTrainable: every layer from the last one down to,
    but not including, the first *)
Fixpoint set_trainable (fuel : nat) (cur first : option nat) (t : bool) : LM T unit :=
  match fuel with
  | O => mdiverge
  | S fuel' =>
      match cur with
      | None => mret tt
      | Some c =>
          if bool_decide (Some c = first) then mret tt
          else LSetTrainable c t ;~ l <~ getL c ; set_trainable fuel' (lpre l) first t
      end
  end.
Definition SetTrainable (m : model) (t : bool) : LM T unit :=
  with_fuel (fun n => set_trainable n (m_last m) (m_first m) t).

End Model.
Arguments model T : clear implicits.
