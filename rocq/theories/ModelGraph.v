(** * ModelGraph: the graph-level tensors (BuildGraph of every tensor type) and
    graph/graph.go NewGraph *)
From Verif Require Import Base Num ModelTools ModelOps ModelTensor.

Section Graph.
Context {T : Type} `{Num T}.

(** An unset embedded TensorMat. *)
Definition empty_mat : tmat := MkMat [] [] [] false.

(** ** Node constructors *)
Definition NAbs (t : nat) : TM T nat := new_node (KAbs t) empty_mat.               (* abs.go:15-19 *)
Definition NNeg (t : nat) : TM T nat := new_node (KNeg t) empty_mat.               (* neg.go:15-19 *)
Definition NActivate (t : nat) (f : T -> T) : TM T nat :=
  new_node (KActivate t f) empty_mat.                                              (* activate.go:16-21 *)
Definition NewOp2 (a b : nat) (o : oper2) : TM T nat := new_node (KOp2 a b o) empty_mat. (* oper2.go:27-33, math.go:8-22 *)
Definition NewOpScalar (t : nat) (s : ptr) (o : oper2) : TM T nat :=
  new_node (KOpScalar t s o) empty_mat.                                            (* oper_scalar.go:26-32, math.go:24-37 *)
Definition NConcat (a b : nat) (d : N) : TM T nat := new_node (KConcat a b d) empty_mat. (* concat.go:18-24 *)
Definition CopyTo (f t : nat) : TM T nat := new_node (KCopy f t) empty_mat.        (* copy.go:16-21 *)
Definition FillWith (t : nat) (v : ptr) : TM T nat := new_node (KFill t v) empty_mat. (* fill.go:16-21 *)
Definition DimMath (t : nat) (d : N) (o : redop) : TM T nat :=
  new_node (KDimMath t d o) empty_mat.                                             (* dim_math.go:28-34 *)
Definition Dot (a b : nat) : TM T nat := new_node (KDot a b None) empty_mat.       (* dot_product.go:23-29 *)
Definition DotAt (a b : nat) (da db : N) : TM T nat :=
  new_node (KDot a b (Some (da, db))) empty_mat.                                   (* dot_product.go:31-38 *)
Definition Reshape (t : nat) (sh : list N) : TM T nat :=
  new_node (KReshape t) (MkMat sh [] [] false).                                    (* reshape.go:15-22 *)
Definition Flatten (t : nat) : TM T nat :=
  m <~ get_mat t ; Reshape t [msize m].                                            (* reshape.go:24-26 *)
Definition SoftMax (t : nat) : TM T nat := new_node (KSoftMax t) empty_mat.        (* softmax.go:16-20 *)
Definition SubTensor (t : nat) (d s e : N) : TM T nat :=
  new_node (KSub t d s e false) empty_mat.                                         (* sub_tensor.go:21-28 *)
Definition SubExtendedTensor (t : nat) (d s e : N) : TM T nat :=
  new_node (KSub t d s e true) empty_mat.                                          (* sub_tensor.go:30-38 *)
Definition TensorMath (t : nat) (o : redop) : TM T nat :=
  new_node (KTensorMath t o) empty_mat.                                            (* tensor_math.go:26-31 *)
Definition Transpose (t : nat) : TM T nat := new_node (KTranspose t) empty_mat.    (* transpose.go:15-19 *)

(** ** Field updates of the receiver *)
Definition set_built (id : nat) : TM T unit :=
  upd_mat id (fun m => MkMat (shape m) (mulindex m) (operands m) true).
Definition set_shape (id : nat) (sh mul : list N) : TM T unit :=
  upd_mat id (fun m => MkMat sh mul (operands m) (builded m)).
Definition set_operands (id : nat) (ops : list ptr) : TM T unit :=
  upd_mat id (fun m => MkMat (shape m) (mulindex m) ops (builded m)).
(** [p.Operands = make([]*Scalar, n)]: n nil pointers *)
Definition make_operands (id : nat) (n : nat) : TM T unit :=
  set_operands id (replicate n None).
(** [p.Operands[i] = o] *)
Definition set_operand (id i : nat) (o : ptr) : TM T unit :=
  m <~ get_mat id ;
  ops <~ updM (operands m) i o ;
  set_operands id ops.

(** [for i := range p.Operands { o := &Scalar{}; p.Operands[i] = o; ctx.Push(f i o) }] *)
Definition emit_each (id : nat) (n : nat) (f : nat -> ptr -> TM T (op T)) : TM T unit :=
  mfor (range n) (fun i =>
    o <~ alloc nzero ;
    set_operand id i o ;~
    x <~ f i o ;
    push x).

(** The operation pushed for one [Oper2] (oper2.go:65-74, oper_scalar.go:54-63). *)
Definition op2_of (o : oper2) (d a b : ptr) : op T :=
  match o with
  | Op2Add => OAdd d a b
  | Op2Sub => OSub d a b
  | Op2Mul => OMul d a b
  | Op2Div => ODiv d a b
  end.
(** The operation pushed for one reduction (dim_math.go:66-87, tensor_math.go:49-70). *)
Definition red_of (o : redop) (d : ptr) (args : list ptr) : op T :=
  match o with
  | RSum => OSum d args
  | RAvg => OAvg d args
  | RMin => OMin d args
  | RMax => OMax d args
  end.

(** concat.go:61-71 *)
Definition concat_check (sa sb : list N) (d : N) : option gerr :=
  let e := Equals sa sb in
  if (e =? -2)%Z then Some (EShapeRank (length sa) (length sb))
  else if ((0 <=? e) && negb (e =? Z.of_N d))%Z
  then Some (EShapeAt (nth (Z.to_nat e) sa 0%N) (nth (Z.to_nat e) sb 0%N) (Z.to_nat e))
  else None.

(** dot_product.go:135-156, the loop of buildLastDim; returns the product
    scalars, or [None] when the first operand's error is swallowed (line 141:
    [return nil], so neither the rest nor the final Sum is pushed). *)
Fixpoint dot_products (ma mb : tmat) (da db : nat) (indA indB : list N)
    (is : list N) : TM T (option (list ptr)) :=
  match is with
  | [] => mret (Some [])
  | i :: is' =>
      indA' <~ updM indA da i ;
      indB' <~ updM indB db i ;
      match GetOperand ma indA' with
      | Err _ => mret None
      | ra =>
          a <~ mlift ra ;
          b <~ mlift (GetOperand mb indB') ;
          o <~ alloc nzero ;
          push (OMul o a b) ;~
          r <~ dot_products ma mb da db indA' indB' is' ;
          mret (match r with Some ops => Some (o :: ops) | None => None end)
      end
  end.

(** dot_product.go:109-163 buildLastDim *)
Definition build_last_dim (ma mb : tmat) (o : ptr) (da db size : N)
    (indexA indexB : list N) : TM T unit :=
  r <~ dot_products ma mb (N.to_nat da) (N.to_nat db)
         (spread_index da indexA) (spread_index db indexB)
         (map N.of_nat (range (N.to_nat size))) ;
  match r with
  | None => mret tt
  | Some ops => push (OSum o ops)
  end.

(** dot_product.go:165-197 buildVector *)
Definition build_vector (id : nat) (ma mb : tmat) : TM T unit :=
  if negb (msize ma =? msize mb)%N
  then mfail (EDotSize (length (operands ma)) (length (operands mb)))
  else
    ops <~ mmap (range (length (operands ma))) (fun i =>
             o <~ alloc nzero ;
             a <~ atM (operands ma) i ;
             b <~ atM (operands mb) i ;
             push (OMul o a b) ;~
             mret o) ;
    o <~ alloc nzero ;
    push (OSum o ops) ;~
    set_operands id [o] ;~
    set_shape id [1%N] [1%N].

(** ** The part of each BuildGraph that follows the recursive calls *)

(** abs.go:32-43, neg.go:32-43, activate.go:34-45 *)
Definition build_map (id t : nat) (mk : ptr -> ptr -> op T) : TM T unit :=
  mt <~ get_mat t ;
  set_shape id (shape mt) (mulindex mt) ;~
  make_operands id (length (operands mt)) ;~
  emit_each id (length (operands mt)) (fun i o =>
    a <~ atM (operands mt) i ; mret (mk o a)).

(** oper2.go:50-77 *)
Definition build_op2 (id a b : nat) (o : oper2) : TM T unit :=
  ma <~ get_mat a ; mb <~ get_mat b ;
  eM (GetEqShapeErr (shape ma) (shape mb)) ;~
  set_shape id (shape ma) (mulindex ma) ;~
  make_operands id (length (operands ma)) ;~
  emit_each id (length (operands ma)) (fun i d =>
    x <~ atM (operands ma) i ;
    y <~ atM (operands mb) i ;
    mret (op2_of o d x y)).

(** oper_scalar.go:45-66 *)
Definition build_opscalar (id t : nat) (s : ptr) (o : oper2) : TM T unit :=
  mt <~ get_mat t ;
  set_shape id (shape mt) (mulindex mt) ;~
  make_operands id (length (operands mt)) ;~
  emit_each id (length (operands mt)) (fun i d =>
    x <~ atM (operands mt) i ; mret (op2_of o d x s)).

(** concat.go:40-72 and concatLastDim 74-90 *)
Definition build_concat (id a b : nat) (dim : N) : TM T unit :=
  ma <~ get_mat a ; mb <~ get_mat b ;
  eM (concat_check (shape ma) (shape mb) dim) ;~
  let d := N.to_nat dim in
  dimSize <~ atM (shape ma) d ;
  dimB <~ atM (shape mb) d ;
  let sh := <[d := uadd dimSize dimB]> (shape ma) in
  let mul := GetIndexMul sh in
  set_shape id sh mul ;~
  make_operands id (N.to_nat (GetDataSize sh)) ;~
  mfor (range (N.to_nat (GetDataSize sh))) (fun i =>
    idx <~ mlift (ReverseIndex mul sh (N.of_nat i)) ;
    c <~ atM idx d ;
    if (c <? dimSize)%N
    then o <~ mlift (GetOperand ma idx) ; set_operand id i o
    else idx' <~ updM idx d (usub c dimSize) ;
         o <~ mlift (GetOperand mb idx') ; set_operand id i o).

(** copy.go:43-61 *)
Definition build_copy (id f t : nat) : TM T unit :=
  mf <~ get_mat f ; mt <~ get_mat t ;
  if negb (msize mf =? msize mt)%N
  then mfail (ECopySize (length (operands mf)) (length (operands mt)))
  else
    set_shape id (shape mt) (mulindex mt) ;~
    set_operands id (operands mt) ;~
    mfor (range (length (operands mt))) (fun i =>
      d <~ atM (operands mt) i ;
      a <~ atM (operands mf) i ;
      push (OSet d a)).

(** fill.go:39-48 *)
Definition build_fill (id t : nat) (v : ptr) : TM T unit :=
  mt <~ get_mat t ;
  set_shape id (shape mt) (mulindex mt) ;~
  set_operands id (operands mt) ;~
  mfor (operands mt) (fun d => push (OSet d v)).

(** dim_math.go:46-90 *)
Definition build_dimmath (id t : nat) (dim : N) (o : redop) : TM T unit :=
  mt <~ get_mat t ;
  if (ulen (shape mt) <=? dim)%N then mfail (EBadDim dim (length (shape mt)))
  else
    let sh := take (N.to_nat (dim + 1)) (shape mt) in
    let n := N.to_nat (GetDataSize sh) in
    set_shape id sh (GetIndexMul sh) ;~
    make_operands id n ;~
    mi <~ atM (mulindex mt) (N.to_nat dim) ;
    emit_each id n (fun i d =>
      let offset := umul (N.of_nat i) mi in
      args <~ oM (slice (operands mt) offset (uadd offset mi)) ;
      mret (red_of o d args)).

(** dot_product.go:55-107 *)
Definition build_dot (id a b : nat) (dims : option (N * N)) : TM T unit :=
  ma <~ get_mat a ; mb <~ get_mat b ;
  let sha := shape ma in
  let shb := shape mb in
  if (length sha =? 0) || (length shb =? 0) then mfail EEmptyDot
  else
    let '(da, db) :=
      match dims with
      | Some dd => dd
      | None =>
          let la := (ulen sha - 1)%N in
          let lb := (ulen shb - 1)%N in
          (la, if (0 <? lb)%N then (lb - 1)%N else lb)
      end in
    sa <~ atM sha (N.to_nat da) ;
    sb <~ atM shb (N.to_nat db) ;
    if negb (sa =? sb)%N then mfail (EDotDims sa sb)
    else if (length sha =? 1) && (length shb =? 1) then build_vector id ma mb
    else
      let sh1 := remove_at (N.to_nat da) sha in
      let d := length sh1 in
      let sh := sh1 ++ take (N.to_nat db) shb ++ drop (S (N.to_nat db)) shb in
      let mul := GetIndexMul sh in
      set_shape id sh mul ;~
      ops <~ mmap (range (N.to_nat (GetDataSize sh))) (fun _ => alloc nzero) ;
      set_operands id ops ;~
      mfor (zip (range (length ops)) ops) (fun io =>
        let '(i, o) := io in
        idx <~ mlift (ReverseIndex mul sh (N.of_nat i)) ;
        build_last_dim ma mb o da db sa (take d idx) (drop d idx)).

(** reshape.go:39-54 *)
Definition build_reshape (id t : nat) : TM T unit :=
  m <~ get_mat id ; mt <~ get_mat t ;
  let sh := shape m in
  let total := N.to_nat (GetDataSize sh) in
  set_shape id sh (GetIndexMul sh) ;~
  make_operands id total ;~
  let mn := if length (operands mt) <? total then length (operands mt) else total in
  mfor (seq 0 mn) (fun i => o <~ atM (operands mt) i ; set_operand id i o) ;~
  mfor (seq mn (total - mn)) (fun i => o <~ alloc nzero ; set_operand id i o).

(** softmax.go:33-68 *)
Definition build_softmax (id t : nat) : TM T unit :=
  mt <~ get_mat t ;
  set_shape id (shape mt) (mulindex mt) ;~
  mn <~ alloc nzero ;
  push (OMin mn (operands mt)) ;~
  make_operands id (length (operands mt)) ;~
  emit_each id (length (operands mt)) (fun i o =>
    a <~ atM (operands mt) i ; mret (OSub o a mn)) ;~
  sum <~ alloc nzero ;
  m <~ get_mat id ;
  push (OSum sum (operands m)) ;~
  mfor (operands m) (fun o => push (ODiv o o sum)).

(** sub_tensor.go:51-102; note the [>] of line 91 *)
Definition build_sub (id t : nat) (dim start end_ : N) (goout : bool) : TM T unit :=
  mt <~ get_mat t ;
  eM (sub_checks (shape mt) dim start end_ goout) ;~
  let d := N.to_nat dim in
  max <~ atM (shape mt) d ;
  let sh := <[d := usub end_ start]> (shape mt) in
  let mul := GetIndexMul sh in
  set_shape id sh mul ;~
  make_operands id (N.to_nat (GetDataSize sh)) ;~
  mfor (range (N.to_nat (GetDataSize sh))) (fun i =>
    idx <~ mlift (ReverseIndex mul sh (N.of_nat i)) ;
    c <~ atM idx d ;
    idx' <~ updM idx d (uadd c start) ;
    if (max <? uadd c start)%N && goout
    then o <~ alloc nzero ; set_operand id i o
    else o <~ mlift (GetOperand mt idx') ; set_operand id i o).

(** tensor_math.go:44-72 *)
Definition build_tensormath (id t : nat) (o : redop) : TM T unit :=
  mt <~ get_mat t ;
  set_shape id [1%N] [1%N] ;~
  x <~ alloc nzero ;
  set_operands id [x] ;~
  push (red_of o x (operands mt)).

(** transpose.go:31-51 *)
Definition build_transpose (id t : nat) : TM T unit :=
  mt <~ get_mat t ;
  let dims := length (shape mt) in
  let sh := map (fun i => nth (dims - i - 1) (shape mt) 0%N) (range dims) in
  let mul := GetIndexMul sh in
  set_shape id sh mul ;~
  make_operands id (length (operands mt)) ;~
  mfor (range (length (operands mt))) (fun i =>
    idx <~ mlift (ReverseIndex mul sh (N.of_nat i)) ;
    o <~ mlift (GetOperand mt (GetInvertedIndex idx)) ;
    set_operand id i o).

(** ** BuildGraph of every tensor type: the [builded] guard comes first, the
    flag is set before anything can fail, then the children are built, then
    the node's own part runs. *)
Fixpoint BuildGraph (fuel : nat) (id : nat) : TM T unit :=
  match fuel with
  | O => mdiverge
  | S fuel' =>
      n <~ get_node id ;
      if builded (nmat n) then mret tt
      else
        set_built id ;~
        match nkind n with
        | KMat => mfor (operands (nmat n)) (fun o => push (OScalar o)) (* tensor_mat.go:24-34 *)
        | KAbs t => BuildGraph fuel' t ;~ build_map id t OAbs           (* abs.go:21-44 *)
        | KNeg t => BuildGraph fuel' t ;~ build_map id t ONeg           (* neg.go:21-44 *)
        | KActivate t f =>                                              (* activate.go:23-46 *)
            BuildGraph fuel' t ;~ build_map id t (fun d a => OFunc d a f)
        | KOp2 a b o =>                                                 (* oper2.go:35-78 *)
            BuildGraph fuel' a ;~ BuildGraph fuel' b ;~ build_op2 id a b o
        | KOpScalar t s o =>                                            (* oper_scalar.go:34-67 *)
            BuildGraph fuel' t ;~ build_opscalar id t s o
        | KConcat a b d =>                                              (* concat.go:26-72 *)
            BuildGraph fuel' a ;~ BuildGraph fuel' b ;~ build_concat id a b d
        | KCopy f t =>                                                  (* copy.go:28-62 *)
            BuildGraph fuel' f ;~ BuildGraph fuel' t ;~ build_copy id f t
        | KFill t v => BuildGraph fuel' t ;~ build_fill id t v          (* fill.go:28-49 *)
        | KDimMath t d o => BuildGraph fuel' t ;~ build_dimmath id t d o (* dim_math.go:36-91 *)
        | KDot a b dims =>                                              (* dot_product.go:40-107 *)
            BuildGraph fuel' a ;~ BuildGraph fuel' b ;~ build_dot id a b dims
        | KReshape t => BuildGraph fuel' t ;~ build_reshape id t        (* reshape.go:28-55 *)
        | KSoftMax t => BuildGraph fuel' t ;~ build_softmax id t        (* softmax.go:22-69 *)
        | KSub t d s e g => BuildGraph fuel' t ;~ build_sub id t d s e g (* sub_tensor.go:40-103 *)
        | KTensorMath t o => BuildGraph fuel' t ;~ build_tensormath id t o (* tensor_math.go:33-73 *)
        | KTranspose t => BuildGraph fuel' t ;~ build_transpose id t    (* transpose.go:21-52 *)
        end
  end.

(** Children are created before their parents, so [S id] is enough fuel. *)
Definition Build (id : nat) : TM T unit := BuildGraph (S id) id.

(** copy.go:23-26 Transfer, fill.go:23-26 Fill *)
Definition Transfer (from to : nat) : TM T unit := c <~ CopyTo from to ; Build c.
Definition Fill (t : nat) (v : ptr) : TM T unit := c <~ FillWith t v ; Build c.

(** Start with a new context: context.NewCTX() *)
Definition new_ctx : TM T unit := fun s => (Ok tt, MkSt (mem s) (tens s) []).
Definition get_ctx : TM T (list (op T)) := fun s => (Ok (ctx s), s).

(** graph/graph.go:18-25 NewGraph *)
Definition NewGraph (id : nat) : TM T (graph T) :=
  new_ctx ;~ Build id ;~ ops <~ get_ctx ; mret (MkGraph ops).

(** graph/graph.go:47-54 Exec on the current memory *)
Definition ExecM (g : graph T) : TM T unit := fun s =>
  match Exec g (mem s) with
  | Some m => (Ok tt, MkSt m (tens s) (ctx s))
  | None => (Panic, s)
  end.
End Graph.
