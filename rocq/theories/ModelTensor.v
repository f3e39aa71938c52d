(** * ModelTensor: tensor objects, tensor_mat.go, constructor.go and the eager
    ("hot") methods of *TensorMat

    State: the memory of scalars, the heap of tensor objects and the context
    currently being filled. *)
From Verif Require Import Base Num ModelTools ModelOps.

Section Tensor.
Context {T : Type} `{Num T}.

Inductive oper2 : Type := Op2Add | Op2Sub | Op2Mul | Op2Div. (* oper2.go:11-18, oper_scalar.go:10-17 *)
Inductive redop : Type := RSum | RAvg | RMin | RMax.   (* dim_math.go:12-19, tensor_math.go:11-18 *)

(** The concrete types behind the Tensor interface; a child is a tensor id. *)
Inductive kind : Type :=
| KMat                                                   (* tensor_mat.go:17-22 *)
| KAbs (t : nat)                                         (* abs.go:10-13 *)
| KNeg (t : nat)                                         (* neg.go:10-13 *)
| KActivate (t : nat) (f : T -> T)                       (* activate.go:10-14 *)
| KOp2 (a b : nat) (o : oper2)                           (* oper2.go:20-25 *)
| KOpScalar (t : nat) (s : ptr) (o : oper2)              (* oper_scalar.go:19-24 *)
| KConcat (a b : nat) (d : N)                            (* concat.go:11-16 *)
| KCopy (f t : nat)                                      (* copy.go:10-14 *)
| KFill (t : nat) (v : ptr)                              (* fill.go:10-14 *)
| KDimMath (t : nat) (d : N) (o : redop)                 (* dim_math.go:21-26 *)
| KDot (a b : nat) (dims : option (N * N))               (* dot_product.go:12-21; None = undef *)
| KReshape (t : nat)                                     (* reshape.go:10-13 *)
| KSoftMax (t : nat)                                     (* softmax.go:11-14 *)
| KSub (t : nat) (d s e : N) (goout : bool)              (* sub_tensor.go:11-19 *)
| KTensorMath (t : nat) (o : redop)                      (* tensor_math.go:20-24 *)
| KTranspose (t : nat).                                  (* transpose.go:10-13 *)

(** tensor_mat.go:17-22 TensorMat (embedded in every other tensor type) *)
Record tmat : Type := MkMat {
  shape : list N;
  mulindex : list N;
  operands : list ptr;
  builded : bool;
}.

Record node : Type := MkNode { nkind : kind; nmat : tmat }.

Record tst : Type := MkSt {
  mem : list T;          (* every scalar allocated so far *)
  tens : list node;      (* every tensor object allocated so far *)
  ctx : list (op T);     (* the current context.Context *)
}.

Definition TM := M tst.

(** ** Primitive heap actions *)
Definition get_node (id : nat) : TM node := fun s =>
  match tens s !! id with Some n => (Ok n, s) | None => (Panic, s) end.
Definition get_mat (id : nat) : TM tmat := n <~ get_node id ; mret (nmat n).
Definition upd_mat (id : nat) (f : tmat -> tmat) : TM unit := fun s =>
  match tens s !! id with
  | Some n =>
      (Ok tt, MkSt (mem s) (<[id := MkNode (nkind n) (f (nmat n))]> (tens s)) (ctx s))
  | None => (Panic, s)
  end.
(** [&number.Scalar[T]{Value: v}] *)
Definition alloc (v : T) : TM ptr := fun s =>
  (Ok (Some (length (mem s))), MkSt (mem s ++ [v]) (tens s) (ctx s)).
(** [p.Value] *)
Definition rdM (p : ptr) : TM T := fun s =>
  match rd (mem s) p with Some v => (Ok v, s) | None => (Panic, s) end.
(** [p.Value = v] *)
Definition wrM (p : ptr) (v : T) : TM unit := fun s =>
  match wr (mem s) p v with
  | Some m => (Ok tt, MkSt m (tens s) (ctx s))
  | None => (Panic, s)
  end.
(** [ctx.Push(o)] *)
Definition push (o : op T) : TM unit := fun s =>
  (Ok tt, MkSt (mem s) (tens s) (ctx s ++ [o])).
Definition new_node (k : kind) (m : tmat) : TM nat := fun s =>
  (Ok (length (tens s)), MkSt (mem s) (tens s ++ [MkNode k m]) (ctx s)).
(** [&TensorMat[T]{Shape: sh, MulIndex: mul, Operands: ops}] *)
Definition new_mat (sh mul : list N) (ops : list ptr) : TM nat :=
  new_node KMat (MkMat sh mul ops false).
(** A value that may be missing because the expression panics. *)
Definition oM {A} (o : option A) : TM A := fun s =>
  match o with Some a => (Ok a, s) | None => (Panic, s) end.
Definition eM (o : option gerr) : TM unit := fun s =>
  match o with Some e => (Err e, s) | None => (Ok tt, s) end.
(** [l[i]] and [l[i] = x] on a local slice *)
Definition atM {A} (l : list A) (i : nat) : TM A := mlift (at_or_panic l i).
Definition updM {A} (l : list A) (i : nat) (x : A) : TM (list A) :=
  if decide (i < length l) then mret (<[i := x]> l) else mpanic.

(** ** tensor_mat.go *)

(** tensor_mat.go:36-38 GetSize *)
Definition msize (m : tmat) : N := ulen (operands m).

(** tensor_mat.go:56-65 GetOperand *)
Definition GetOperand (m : tmat) (index : list N) : res ptr :=
  res_bind (GetIndex (mulindex m) (shape m) index) (fun ind =>
    if (ulen (operands m) <=? ind)%N then Err EInternalIndex
    else at_or_panic (operands m) (N.to_nat ind)).

(** tensor_mat.go:67-70 Bind: [copy(p.Operands, t.GetOperands())] *)
Definition Bind (p t : nat) : TM unit :=
  mt <~ get_mat t ;
  upd_mat p (fun m =>
    let k := Nat.min (length (operands m)) (length (operands mt)) in
    MkMat (shape m) (mulindex m)
      (take k (operands mt) ++ drop k (operands m)) (builded m)).

(** tensor_mat.go:72-81 LoadFromTensor *)
Definition LoadFromTensor (p t : nat) : TM unit :=
  mp <~ get_mat p ; mt <~ get_mat t ;
  eM (GetEqShapeErr (shape mp) (shape mt)) ;~
  mfor (zip (range (length (operands mt))) (operands mt)) (fun io =>
    let '(i, o) := io in
    d <~ atM (operands mp) i ;
    v <~ rdM o ;
    wrM d v).

(** tensor_mat.go:83-95 LoadData *)
Definition LoadData (p : nat) (data : list T) : TM unit :=
  mp <~ get_mat p ;
  if negb (ulen data =? msize mp)%N
  then mfail (EDataSize (length data) (length (operands mp)))
  else mfor (zip (range (length (operands mp))) (operands mp)) (fun io =>
         let '(i, o) := io in
         v <~ atM data i ;
         wrM o v).

(** tensor_mat.go:97-103 GetData *)
Definition GetData (p : nat) : TM (list T) :=
  mp <~ get_mat p ; mmap (operands mp) rdM.

(** tensor_mat.go:105-111 Get *)
Definition Get (p : nat) (index : list N) : TM T :=
  mp <~ get_mat p ; o <~ mlift (GetOperand mp index) ; rdM o.

(** tensor_mat.go:113-121 Set *)
Definition Set_ (p : nat) (v : T) (index : list N) : TM unit :=
  mp <~ get_mat p ; o <~ mlift (GetOperand mp index) ; wrM o v.

(** tensor_mat.go:145-157 Copy *)
Definition Copy (p : nat) : TM nat :=
  mp <~ get_mat p ;
  ops <~ mmap (operands mp) (fun o => v <~ rdM o ; alloc v) ;
  new_mat (shape mp) (mulindex mp) ops.

(** tensor_mat.go:159-162 SetBuild *)
Definition SetBuild (p : nat) (b : bool) : TM unit :=
  upd_mat p (fun m => MkMat (shape m) (mulindex m) (operands m) b).

(** ** constructor.go *)

(** constructor.go:11-16 initMat together with the final [mat.Operands = data] *)
Definition initMat (sh : list N) (data : list ptr) : TM nat :=
  new_mat sh (GetIndexMul sh) data.

(** constructor.go:18-26 NewZeros *)
Definition NewZeros (sh : list N) : TM nat :=
  data <~ mmap (range (N.to_nat (GetDataSize sh))) (fun _ => alloc nzero) ;
  initMat sh data.

(** constructor.go:28-36 NewOnes *)
Definition NewOnes (sh : list N) : TM nat :=
  data <~ mmap (range (N.to_nat (GetDataSize sh))) (fun _ => alloc none) ;
  initMat sh data.

(** constructor.go:38-46 NewRand and 48-56 NewNormRand: the random source is
    the arbitrary sequence [rnd]. *)
Definition NewRandom (rnd : nat -> T) (sh : list N) : TM nat :=
  data <~ mmap (range (N.to_nat (GetDataSize sh))) (fun i => alloc (rnd i)) ;
  initMat sh data.

(** constructor.go:58-77 NewFromValues *)
Definition NewFromValues (values : list T) (sh : list N) : TM nat :=
  let total := N.to_nat (GetDataSize sh) in
  let size := if length values <? total then length values else total in
  d1 <~ mmap (seq 0 size) (fun i => v <~ atM values i ; alloc v) ;
  d2 <~ mmap (seq size (total - size)) (fun _ => alloc nzero) ;
  initMat sh (d1 ++ d2).

(** ** Eager methods *)

(** abs.go:46-64 Abs, neg.go:46-58 Neg, activate.go:48-60 Activate *)
Definition Mat_map (f : T -> T) (p : nat) : TM nat :=
  mp <~ get_mat p ;
  ops <~ mmap (operands mp) (fun o => v <~ rdM o ; alloc (f v)) ;
  new_mat (shape mp) (mulindex mp) ops.
Definition Mat_Abs : nat -> TM nat := Mat_map abs1.
Definition Mat_Neg : nat -> TM nat := Mat_map nneg.
Definition Mat_Activate (f : T -> T) : nat -> TM nat := Mat_map f.

(** The arithmetic of one [Oper2]; [None] is an integer division by zero. *)
Definition arith (o : oper2) (x y : T) : option T :=
  match o with
  | Op2Add => Some (nadd x y)
  | Op2Sub => Some (nsub x y)
  | Op2Mul => Some (nmul x y)
  | Op2Div => ndiv x y
  end.

(** oper2.go:80-101 Add, 103-124 Sub, 126-147 Mul, 149-170 Div *)
Definition Mat_op2 (o : oper2) (p m : nat) : TM nat :=
  mp <~ get_mat p ; mm <~ get_mat m ;
  eM (GetEqShapeErr (shape mp) (shape mm)) ;~
  ops <~ mmap (range (length (operands mp))) (fun i =>
           a <~ atM (operands mp) i ; x <~ rdM a ;
           b <~ atM (operands mm) i ; y <~ rdM b ;
           v <~ oM (arith o x y) ;
           alloc v) ;
  new_mat (shape mp) (mulindex mp) ops.

(** oper_scalar.go:69-84 AddScalar, 86-101 SubScalar, 103-118 MulScalar,
    120-135 DivScalar *)
Definition Mat_opScalar (o : oper2) (p : nat) (n : ptr) : TM nat :=
  mp <~ get_mat p ;
  ops <~ mmap (operands mp) (fun a =>
           x <~ rdM a ; y <~ rdM n ;
           v <~ oM (arith o x y) ;
           alloc v) ;
  new_mat (shape mp) (mulindex mp) ops.

(** tools/math.go reductions used by the eager methods *)
Definition tools_red (o : redop) (vs : list T) : option T :=
  match o with
  | RSum => Some (tools_Sum vs)
  | RAvg => tools_Avg vs
  | RMin => tools_Min vs
  | RMax => tools_Max vs
  end.

(** tensor_math.go:75-113 Sum, Avg, Max, Min *)
Definition Mat_reduce (o : redop) (p : nat) : TM nat :=
  mp <~ get_mat p ;
  vs <~ mmap (operands mp) rdM ;
  v <~ oM (tools_red o vs) ;
  x <~ alloc v ;
  new_mat [1%N] [1%N] [x].

(** [l[a:b]]: panics unless a <= b <= len(l) (every operand slice of the code
    has cap = len) *)
Definition slice {A} (l : list A) (a b : N) : option (list A) :=
  if ((a <=? b) && (b <=? ulen l))%N
  then Some (take (N.to_nat (b - a)) (drop (N.to_nat a) l)) else None.

(** dim_math.go:93-120 DSum, 122-149 DAvg, 151-178 DMax, 180-207 DMin *)
Definition Mat_dimreduce (o : redop) (p : nat) (dim : N) : TM nat :=
  mp <~ get_mat p ;
  if (ulen (shape mp) <=? dim)%N then mfail (EBadDim dim (length (shape mp)))
  else
    let sh := take (N.to_nat (dim + 1)) (shape mp) in
    let mul := GetIndexMul sh in
    mi <~ atM (mulindex mp) (N.to_nat dim) ;
    ops <~ mmap (range (N.to_nat (GetDataSize sh))) (fun i =>
             let offset := umul (N.of_nat i) mi in
             args <~ oM (slice (operands mp) offset (uadd offset mi)) ;
             vs <~ mmap args rdM ;
             v <~ oM (tools_red o vs) ;
             alloc v) ;
    new_mat sh mul ops.

(** transpose.go:54-80 Transpose *)
Definition Mat_Transpose (p : nat) : TM nat :=
  mp <~ get_mat p ;
  let dims := length (shape mp) in
  let sh := map (fun i => nth (dims - i - 1) (shape mp) 0%N) (range dims) in
  let mul := GetIndexMul sh in
  ops <~ mmap (range (length (operands mp))) (fun i =>
           idx <~ mlift (ReverseIndex mul sh (N.of_nat i)) ;
           o <~ mlift (GetOperand mp (GetInvertedIndex idx)) ;
           v <~ rdM o ; alloc v) ;
  new_mat sh mul ops.

(** The four argument checks of sub_tensor.go:51-80 and 108-137 *)
Definition sub_checks (sh : list N) (dim start end_ : N) (goout : bool) : option gerr :=
  if (ulen sh <=? dim)%N then Some (EBadDim dim (length sh))
  else if (end_ <=? start)%N then Some (EBadRange start end_)
  else let s := nth (N.to_nat dim) sh 0%N in
       if negb goout && (s <? end_)%N then Some (EBadEnd end_ s)
       else if negb goout && (s <? start)%N then Some (EBadStart start s)
       else None.

(** sub_tensor.go:105-161 SubTensor *)
Definition Mat_SubTensor (p : nat) (dim start end_ : N) : TM nat :=
  mp <~ get_mat p ;
  eM (sub_checks (shape mp) dim start end_ false) ;~
  let d := N.to_nat dim in
  let sh := <[d := usub end_ start]> (shape mp) in
  let mul := GetIndexMul sh in
  ops <~ mmap (range (N.to_nat (GetDataSize sh))) (fun i =>
           idx <~ mlift (ReverseIndex mul sh (N.of_nat i)) ;
           c <~ atM idx d ;
           idx' <~ updM idx d (uadd c start) ;
           o <~ mlift (GetOperand mp idx') ;
           v <~ rdM o ; alloc v) ;
  new_mat sh mul ops.

(** sub_tensor.go:163-210 FOSubTensor; note the [>] of line 190 *)
Definition Mat_FOSubTensor (p : nat) (dim start end_ : N) (fill : T) : TM nat :=
  mp <~ get_mat p ;
  eM (sub_checks (shape mp) dim start end_ true) ;~
  let d := N.to_nat dim in
  max <~ atM (shape mp) d ;
  let sh := <[d := usub end_ start]> (shape mp) in
  let mul := GetIndexMul sh in
  ops <~ mmap (range (N.to_nat (GetDataSize sh))) (fun i =>
           idx <~ mlift (ReverseIndex mul sh (N.of_nat i)) ;
           c <~ atM idx d ;
           idx' <~ updM idx d (uadd c start) ;
           if (max <? uadd c start)%N then alloc fill
           else o <~ mlift (GetOperand mp idx') ; v <~ rdM o ; alloc v) ;
  new_mat sh mul ops.

(** concat.go:92-134 Concat: no shape check, and the operands are shared. *)
Definition Mat_Concat (p m : nat) (dim : N) : TM nat :=
  mp <~ get_mat p ; mm <~ get_mat m ;
  let d := N.to_nat dim in
  dimSize <~ atM (shape mp) d ;
  dimB <~ atM (shape mm) d ;
  let sh := <[d := uadd dimSize dimB]> (shape mp) in
  let mul := GetIndexMul sh in
  ops <~ mmap (range (N.to_nat (uadd (msize mp) (msize mm)))) (fun i =>
           idx <~ mlift (ReverseIndex mul sh (N.of_nat i)) ;
           c <~ atM idx d ;
           if (c <? dimSize)%N then mlift (GetOperand mp idx)
           else idx' <~ updM idx d (usub c dimSize) ;
                mlift (GetOperand mm idx')) ;
  new_mat sh mul ops.

(** reshape.go:57-81 Reshape; the second loop runs up to the size of the
    source (line 72), whatever the size of the result. *)
Definition Mat_Reshape (p : nat) (sh : list N) : TM nat :=
  mp <~ get_mat p ;
  let mul := GetIndexMul sh in
  let total := N.to_nat (GetDataSize sh) in
  let size := length (operands mp) in
  let mn := if total <? size then total else size in
  d1 <~ mmap (seq 0 mn) (fun i => o <~ atM (operands mp) i ; v <~ rdM o ; alloc v) ;
  let ops := d1 ++ replicate (total - mn) None in
  ops' <~ (fix loop (is : list nat) (ops : list ptr) : TM (list ptr) :=
             match is with
             | [] => mret ops
             | i :: is' => x <~ alloc nzero ; ops' <~ updM ops i x ; loop is' ops'
             end) (seq mn (size - mn)) ops ;
  new_mat sh mul ops'.

(** dot_product.go:118-133 and 270-285: copy the remaining coordinates around
    position [d] of an index with one more coordinate. *)
Definition spread_index (d : N) (index : list N) : list N :=
  fold_left (fun ind i =>
               let x := nth i index 0%N in
               if (N.of_nat i <? d)%N then <[i := x]> ind else <[S i := x]> ind)
    (range (length index)) (replicate (length index + 1) 0%N).

(** [append(s[:d], s[d+1:]...)]; s[:d] and s[d+1:] panic when out of range *)
Definition remove_at (d : nat) (l : list N) : list N := take d l ++ drop (S d) l.

(** dot_product.go:306-332 DotVector *)
Definition Mat_DotVector (p m : nat) : TM nat :=
  mp <~ get_mat p ; mm <~ get_mat m ;
  if negb (msize mp =? msize mm)%N
  then mfail (EDotSize (length (operands mp)) (length (operands mm)))
  else
    ops <~ mmap (range (length (operands mp))) (fun i =>
             a <~ atM (operands mp) i ; x <~ rdM a ;
             b <~ atM (operands mm) i ; y <~ rdM b ;
             alloc (nmul x y)) ;
    vs <~ mmap ops rdM ;
    o <~ alloc (tools_Sum vs) ;
    new_mat [1%N] [1%N] [o].

(** dot_product.go:261-304 dotLastDim: an error from the first operand stops
    the loop silently (line 293), one from the second is returned. *)
Fixpoint dot_loop (mp mm : tmat) (o : ptr) (d1 d2 : nat) (indA indB : list N)
    (is : list N) : TM unit :=
  match is with
  | [] => mret tt
  | i :: is' =>
      indA' <~ updM indA d1 i ;
      indB' <~ updM indB d2 i ;
      match GetOperand mp indA' with
      | Err _ => mret tt
      | ra =>
          a <~ mlift ra ;
          b <~ mlift (GetOperand mm indB') ;
          acc <~ rdM o ; x <~ rdM a ; y <~ rdM b ;
          wrM o (nadd acc (nmul x y)) ;~
          dot_loop mp mm o d1 d2 indA' indB' is'
      end
  end.

(** dot_product.go:209-259 DotAt *)
Definition Mat_DotAt (p m : nat) (dim1 dim2 : N) : TM nat :=
  mp <~ get_mat p ; mm <~ get_mat m ;
  let sha := shape mp in
  let shb := shape mm in
  if (length sha =? 0) || (length shb =? 0) then mfail EEmptyDot
  else
    let d1 := N.to_nat dim1 in
    let d2 := N.to_nat dim2 in
    size <~ atM sha d1 ;
    sb <~ atM shb d2 ;
    if negb (size =? sb)%N then mfail (EDotDims size sb)
    else if (length sha =? 1) && (length shb =? 1) then Mat_DotVector p m
    else
      let sh1 := remove_at d1 sha in
      let dim := length sh1 in
      let sh := sh1 ++ take d2 shb ++ drop (S d2) shb in
      let mul := GetIndexMul sh in
      ops <~ mmap (range (N.to_nat (GetDataSize sh))) (fun _ => alloc nzero) ;
      mfor (zip (range (length ops)) ops) (fun io =>
        let '(i, o) := io in
        idx <~ mlift (ReverseIndex mul sh (N.of_nat i)) ;
        dot_loop mp mm o d1 d2 (spread_index dim1 (take dim idx))
          (spread_index dim2 (drop dim idx)) (map N.of_nat (range (N.to_nat size)))) ;~
      new_mat sh mul ops.

(** dot_product.go:199-207 Dot; [uint(len-1)] of an empty shape wraps *)
Definition Mat_Dot (p m : nat) : TM nat :=
  mp <~ get_mat p ; mm <~ get_mat m ;
  let d1 := usub (ulen (shape mp)) 1 in
  let d2 := usub (ulen (shape mm)) 1 in
  Mat_DotAt p m d1 (if (0 <? d2)%N then usub d2 1 else d2).

(** softmax.go:71-93 SoftMax *)
Definition Mat_SoftMax (p : nat) : TM nat :=
  mp <~ get_mat p ;
  vs <~ mmap (operands mp) rdM ;
  mn <~ oM (tools_Min vs) ;
  let sum := fold_left (fun sum v => nadd sum (nsub v mn)) vs nzero in
  ops <~ mmap (operands mp) (fun o =>
           v <~ rdM o ; q <~ oM (ndiv (nsub v mn) sum) ; alloc q) ;
  new_mat (shape mp) (mulindex mp) ops.

(** fill.go:51-55 Fill, 57-61 FillData *)
Definition Mat_Fill (p : nat) (n : ptr) : TM unit :=
  mp <~ get_mat p ;
  mfor (operands mp) (fun o => v <~ rdM n ; wrM o v).
Definition Mat_FillData (p : nat) (n : T) : TM unit :=
  mp <~ get_mat p ; mfor (operands mp) (fun o => wrM o n).

End Tensor.
Arguments kind T : clear implicits.
Arguments node T : clear implicits.
Arguments tst T : clear implicits.
Arguments TM T : clear implicits.
