(** * ModelLayer: layer/*.go, the layers of a network

    A layer is an object on the heap of layers; the Layer interface value is its
    number.  Layers refer to each other, to tensors and to scalars by number.
    The recursive methods carry fuel because nothing stops a program from
    connecting layers in a circle; a circle overflows Go's stack.

    Left out: [Index], [Type] and the printing methods (they do not influence
    any computation), and using a whole Model as a layer of another one. *)
From Verif Require Import Base Num ModelTools ModelOps ModelTensor ModelGraph.

Section Layer.
Context {T : Type} `{Num T}.

(** activation/activation.go:5-8 *)
Record activation : Type := MkAct { act_f : T -> T; act_d : T -> T }.

(** The concrete layer types and their own fields. *)
Inductive lkind : Type :=
| LInput                                              (* input.go:11-13 *)
| LDense                                              (* dense.go:12-14 *)
| LConv2D (nf kw kh sx sy : N)                        (* conv2d.go:15-22 *)
| LDeconv2D (nf kw kh sx sy : N)                      (* deconv2d.go:15-22 *)
| LMaxPool2D (sx sy : N)                              (* max_pool_2d.go:14-18 *)
| LUpSampling2D (sx sy : N)                           (* up_sampling_2d.go:14-18 *)
| LConcat (l1 l2 : option nat) (dim : N)              (* concat.go:15-20 *)
| LFlatten                                            (* flatten.go:10-12 *)
| LNorm (mn mx : T)                                   (* norm.go:11-16 *)
| LSoftMax                                            (* softmax.go:10-14 *)
| LSubTensor (dim from to : N).                       (* sub_tensor.go:10-15 *)

(** The tensor-valued and the boolean fields of base.go:17-52. *)
Inductive tfield : Type :=
| FWeights | FBias | FNWeights | FMWeights | FNBias | FMBias
| FInput | FNeta | FOutput | FDif | FDer.
Inductive bfield : Type := BTrainable | BBuild | BFF | BBP | BSaved | BLoaded.

Definition tfield_eqb (a b : tfield) : bool :=
  match a, b with
  | FWeights, FWeights | FBias, FBias | FNWeights, FNWeights | FMWeights, FMWeights
  | FNBias, FNBias | FMBias, FMBias | FInput, FInput | FNeta, FNeta
  | FOutput, FOutput | FDif, FDif | FDer, FDer => true
  | _, _ => false
  end.
Definition bfield_eqb (a b : bfield) : bool :=
  match a, b with
  | BTrainable, BTrainable | BBuild, BBuild | BFF, BFF | BBP, BBP
  | BSaved, BSaved | BLoaded, BLoaded => true
  | _, _ => false
  end.

(** base.go:17-52 Base (embedded in every layer); a nil field is [None].
    [lmaxs] is norm.go:15. *)
Record layer : Type := MkLayer {
  lkind_of : lkind;
  lact : option activation;
  lpre : option nat;
  lten : tfield -> option nat;
  lref : ptr;
  lmaxs : ptr;
  lflag : bfield -> bool;
}.

Definition set_ten (f : tfield) (v : option nat) (l : layer) : layer :=
  MkLayer (lkind_of l) (lact l) (lpre l)
    (fun g => if tfield_eqb g f then v else lten l g) (lref l) (lmaxs l) (lflag l).
Definition set_flag (f : bfield) (v : bool) (l : layer) : layer :=
  MkLayer (lkind_of l) (lact l) (lpre l) (lten l) (lref l) (lmaxs l)
    (fun g => if bfield_eqb g f then v else lflag l g).
Definition set_ref (r : ptr) (l : layer) : layer :=
  MkLayer (lkind_of l) (lact l) (lpre l) (lten l) r (lmaxs l) (lflag l).
Definition set_maxs (r : ptr) (l : layer) : layer :=
  MkLayer (lkind_of l) (lact l) (lpre l) (lten l) (lref l) r (lflag l).
Definition set_pre (q : option nat) (l : layer) : layer :=
  MkLayer (lkind_of l) (lact l) q (lten l) (lref l) (lmaxs l) (lflag l).

(** The state of a program using layers: tensors, layers, and how often the
    random source has been asked. *)
Record lst : Type := MkL { ts : tst T; lays : list layer; rc : nat }.
Definition LM := M lst.

(** [math/rand]: what the i-th number of the c-th request is. *)
Context (rnd : nat -> nat -> T).

Definition liftT {A} (c : TM T A) : LM A := fun s =>
  match c (ts s) with (r, t) => (r, MkL t (lays s) (rc s)) end.
Definition getL (id : nat) : LM layer := fun s =>
  match lays s !! id with Some l => (Ok l, s) | None => (Panic, s) end.
Definition updL (id : nat) (f : layer -> layer) : LM unit := fun s =>
  match lays s !! id with
  | Some l => (Ok tt, MkL (ts s) (<[id := f l]> (lays s)) (rc s))
  | None => (Panic, s)
  end.
Definition newL (l : layer) : LM nat := fun s =>
  (Ok (length (lays s)), MkL (ts s) (lays s ++ [l]) (rc s)).
(** tensor.NewNormRand: one request to the random source *)
Definition newRandT (sh : list N) : LM nat := fun s =>
  match NewRandom (rnd (rc s)) sh (ts s) with
  | (r, t) => (r, MkL t (lays s) (S (rc s)))
  end.
(** A possibly-nil value that is used: nil panics. *)
Definition the {A} (o : option A) : LM A := mlift (match o with Some a => Ok a | None => Panic end).
(** A result whose error is ignored. *)
Definition ignore_err {S} (c : M S unit) : M S unit := fun s =>
  match c s with
  | (Err _, s') => (Ok tt, s')
  | r => r
  end.

(** [p.F = t] for a tensor field *)
Definition setF (id : nat) (f : tfield) (t : nat) : LM unit := updL id (set_ten f (Some t)).
(** 0, 1, ..., n-1 as uint *)
Definition urange (n : N) : list N := map N.of_nat (range (N.to_nat n)).
(** [a / b] on uint *)
Definition udiv {S} (a b : N) : M S N := if (b =? 0)%N then mpanic else mret (a / b)%N.

(** ** Constructors *)
Definition no_tens (f : tfield) : option nat := None.
Definition no_flags (f : bfield) : bool := false.
Definition blank (k : lkind) (a : option activation) (tr : bool) : layer :=
  MkLayer k a None no_tens None None (fun f => if bfield_eqb f BTrainable then tr else false).

(** activation/linear.go *)
Definition linear_act : activation := MkAct (fun x => x) (fun _ => none).

(** input.go:15-24 NewInput *)
Definition NewInput (sh : list N) : LM nat :=
  i <~ liftT (NewZeros sh) ;
  d <~ liftT (NewZeros sh) ;
  newL (set_ten FDif (Some d) (set_ten FInput (Some i) (blank LInput (Some linear_act) false))).
(** dense.go:16-26 NewDense *)
Definition NewDense (outs : N) (act : activation) : LM nat :=
  o <~ liftT (NewZeros [outs]) ;
  newL (set_ten FOutput (Some o) (blank LDense (Some act) true)).
(** dense.go:28-40 NewInDense *)
Definition NewInDense (ins outs : N) (act : activation) : LM nat :=
  i <~ liftT (NewZeros [ins]) ;
  o <~ liftT (NewZeros [outs]) ;
  newL (set_ten FOutput (Some o) (set_ten FInput (Some i) (blank LDense (Some act) true))).
(** conv2d.go:24-56, deconv2d.go:24-56 *)
Definition NewConv2Dwh (nf kw kh sx sy : N) (act : activation) : LM nat :=
  newL (blank (LConv2D nf kw kh sx sy) (Some act) true).
Definition NewConv2D (nf k s : N) (act : activation) : LM nat := NewConv2Dwh nf k k s s act.
Definition NewDeconv2Dwh (nf kw kh sx sy : N) (act : activation) : LM nat :=
  newL (blank (LDeconv2D nf kw kh sx sy) (Some act) true).
Definition NewDeconv2D (nf k s : N) (act : activation) : LM nat := NewDeconv2Dwh nf k k s s act.
(** max_pool_2d.go:20-36 *)
Definition NewMaxPool2Dxy (sx sy : N) : LM nat := newL (blank (LMaxPool2D sx sy) None false).
Definition NewMaxPool2D (s : N) : LM nat := NewMaxPool2Dxy s s.
(** up_sampling_2d.go:20-27 *)
Definition NewUpSampling2D (s : N) : LM nat := newL (blank (LUpSampling2D s s) None false).
(** up_sampling_2d.go:29-36: it builds a MaxPool2D *)
Definition NewUpSampling2Dxy (sx sy : N) : LM nat := newL (blank (LMaxPool2D sx sy) None false).
(** concat.go:22-31 *)
Definition NewConcat (l1 l2 : option nat) (dim : N) : LM nat := newL (blank (LConcat l1 l2 dim) None false).
(** flatten.go:14-19 *)
Definition NewFlatten : LM nat := newL (blank LFlatten None false).
(** norm.go:18-34 *)
Definition NewNorm : LM nat := newL (blank (LNorm nzero none) None false).
Definition NewENorm : LM nat := newL (blank (LNorm (nneg none) none) None false).
(** softmax.go:16-20 *)
Definition NewSoftMax : LM nat := newL (blank LSoftMax None false).
(** sub_tensor.go:17-25 *)
Definition NewSubTensor (dim from to : N) : LM nat := newL (blank (LSubTensor dim from to) None false).

(** base.go:185-187 Connect *)
Definition Connect (id : nat) (q : option nat) : LM unit := updL id (set_pre q).

(** ** Getters *)
(** base.go:170-175 GetRef *)
Definition GetRef (id : nat) : LM ptr :=
  l <~ getL id ;
  match lref l with
  | Some r => mret (Some r)
  | None => r <~ liftT (alloc nzero) ; updL id (set_ref r) ;~ mret r
  end.

(** base.go:139-157, overridden by input.go:90-109: an input layer that was
    connected to something passes on what it is connected to. *)
Fixpoint GetT (fuel : nat) (f : tfield) (id : nat) : LM (option nat) :=
  match fuel with
  | O => mdiverge
  | S fuel' =>
      l <~ getL id ;
      match lkind_of l, lpre l with
      | LInput, Some q => GetT fuel' (match f with FInput => FOutput | _ => f end) q
      | _, _ => mret (lten l f)
      end
  end.
Definition with_fuel {A} (m : nat -> LM A) : LM A := fun s => m (S (length (lays s))) s.
Definition GetInputs (id : nat) : LM (option nat) := with_fuel (fun n => GetT n FInput id).
Definition GetOutputs (id : nat) : LM (option nat) := with_fuel (fun n => GetT n FOutput id).
Definition GetDif (id : nat) : LM (option nat) := with_fuel (fun n => GetT n FDif id).

(** ** Build: counting who uses whom *)
(** [p.Ref.Value++] *)
Definition incr (r : ptr) : TM T unit := v <~ rdM r ; wrM r (nadd v none).
(** base.go:73-79 CheckB *)
Definition CheckB (id : nat) : LM bool :=
  l <~ getL id ;
  if lflag l BBuild then mret true else updL id (set_flag BBuild true) ;~ mret false.

(** base.go:81-97 PreBuild, input.go:26-43, dense.go:42-48, conv2d.go:58-64,
    deconv2d.go:58-64, max_pool_2d.go:38-53, up_sampling_2d.go:38-53,
    concat.go:33-57, flatten.go:21-36, norm.go:36-51, softmax.go:22-37,
    sub_tensor.go:27-41 *)
Fixpoint LBuild (fuel : nat) (id : nat) : LM unit :=
  match fuel with
  | O => mdiverge
  | S fuel' =>
      done <~ CheckB id ;
      if (done : bool) then mret tt
      else
        l <~ getL id ;
        let prebuild :=
          GetRef id ;~                                    (* base.go:82-84 *)
          match lpre l with
          | Some q => r <~ GetRef q ; liftT (incr r) ;~ LBuild fuel' q
          | None => mret tt
          end ;~
          l' <~ getL id ;
          v <~ liftT (rdM (lref l')) ;
          if neqb v nzero then mfail (ELayer 1) else mret tt in
        match lkind_of l with
        | LConcat l1 l2 _ =>
            match l1, l2 with
            | Some a, Some b =>
                ra <~ GetRef a ; liftT (incr ra) ;~
                rb <~ GetRef b ; liftT (incr rb) ;~
                LBuild fuel' a ;~ LBuild fuel' b
            | _, _ => mfail (ELayer 2)
            end
        | LInput =>
            prebuild ;~
            match lpre l with
            | Some q =>
                l' <~ getL id ;
                r <~ GetRef q ;
                a <~ liftT (rdM r) ; b <~ liftT (rdM (lref l')) ;
                liftT (wrM r (nadd a b)) ;~
                updL id (set_ref r)
            | None => mret tt
            end
        | LDense | LConv2D _ _ _ _ _ | LDeconv2D _ _ _ _ _ => prebuild
        | _ =>
            prebuild ;~
            match lpre l with Some _ => mret tt | None => mfail (ELayer 3) end
        end
  end.

(** ** Feed-forward *)

(** base.go:99-105 CheckFF, 118-124 CheckBP *)
Definition CheckOnce (f : bfield) (id : nat) : LM bool :=
  l <~ getL id ;
  if lflag l f then mret true
  else
    v <~ liftT (rdM (lref l)) ;
    if neqb v nzero then mret true
    else updL id (set_flag f true) ;~ mret false.

(** dense.go:72-113: the loop over the units *)
Definition dense_unit_ff (mi mb mw mn mo : tmat) (act : option activation) (i : N) : TM T unit :=
  b <~ mlift (GetOperand mb [i]) ;
  ops <~ mmap (urange (msize mi)) (fun j =>
           m <~ alloc nzero ;
           w <~ mlift (GetOperand mw [i; j]) ;
           x <~ atM (operands mi) (N.to_nat j) ;
           push (OMul m x w) ;~
           mret m) ;
  n <~ mlift (GetOperand mn [i]) ;
  push (OSum n (ops ++ [b])) ;~
  o <~ mlift (GetOperand mo [i]) ;
  a <~ oM act ;
  push (OFunc o n (act_f a)).
Definition dense_ff (inp bias weights neta out : nat) (act : option activation) : TM T unit :=
  mi <~ get_mat inp ; mb <~ get_mat bias ; mw <~ get_mat weights ;
  mn <~ get_mat neta ; mo <~ get_mat out ;
  mfor (urange (msize mo)) (dense_unit_ff mi mb mw mn mo act).

(** conv2d.go:103-129: the loop over filters and positions *)
Definition conv_ff (inp weights neta : nat) (c : N) (outSh : list N) (kw kh sx sy : N) : TM T unit :=
  mn <~ get_mat neta ;
  mfor (urange (nth 0 outSh 0%N)) (fun f =>
    mfor (urange (nth 1 outSh 0%N)) (fun x =>
      let offx := umul x sx in
      row <~ SubExtendedTensor inp 1 offx (uadd offx kw) ;
      mfor (urange (nth 2 outSh 0%N)) (fun y =>
        let offy := umul y sy in
        cell <~ SubExtendedTensor row 2 offy (uadd offy kh) ;
        w1 <~ SubTensor weights 0 f (uadd f 1) ;
        w2 <~ Reshape w1 [c; kw; kh] ;
        cw <~ NewOp2 cell w2 Op2Mul ;
        sum <~ TensorMath cw RSum ;
        Build sum ;~
        n <~ mlift (GetOperand mn [f; x; y]) ;
        ms <~ get_mat sum ;
        o <~ atM (operands ms) 0 ;
        push (OAdd n n o)))).

(** deconv2d.go:108-152 *)
Definition deconv_ff (inp weights neta : nat) (inSh : list N) (nf kw kh sx sy : N) : TM T unit :=
  mi <~ get_mat inp ; mw <~ get_mat weights ; mn <~ get_mat neta ;
  mfor (urange nf) (fun outF =>
  mfor (urange (nth 0 inSh 0%N)) (fun inF =>
  mfor (urange (nth 1 inSh 0%N)) (fun x =>
  mfor (urange (nth 2 inSh 0%N)) (fun y =>
  mfor (urange kw) (fun kx =>
  mfor (urange kh) (fun ky =>
    out <~ mlift (GetOperand mn [outF; uadd (umul x sx) kx; uadd (umul y sy) ky]) ;
    i <~ mlift (GetOperand mi [inF; x; y]) ;
    w <~ mlift (GetOperand mw [outF; inF; kx; ky]) ;
    p <~ alloc nzero ;
    push (OMul p i w) ;~
    push (OAdd out out p))))))).

(** The in-range window positions max_pool_2d.go:84-101 visits, row by row;
    rows outside the image are skipped. *)
Definition pool_rows (inSh : list N) (sx sy x y : N) : list (list (N * N)) :=
  flat_map (fun i => let ix := uadd (umul x sx) i in
         if (nth 1 inSh 0 <=? ix)%N then []
         else [flat_map (fun j => let iy := uadd (umul y sy) j in
                if (nth 2 inSh 0 <=? iy)%N then [] else [(ix, iy)]) (urange sy)])
      (urange sx).

(** max_pool_2d.go:77-108 *)
Definition pool_ff (inp out : nat) (inSh outSh : list N) (sx sy : N) : TM T unit :=
  mi <~ get_mat inp ; mo <~ get_mat out ;
  mfor (urange (nth 0 outSh 0%N)) (fun f =>
  mfor (urange (nth 1 outSh 0%N)) (fun x =>
  mfor (urange (nth 2 outSh 0%N)) (fun y =>
    n <~ mlift (GetOperand mo [f; x; y]) ;
    ops <~ mmap (concat (pool_rows inSh sx sy x y)) (fun p =>
             mlift (GetOperand mi [f; fst p; snd p])) ;
    push (OMax n ops)))).

(** up_sampling_2d.go:77-99, and 169-187 for the derivatives *)
Definition up_ff (inp out : nat) (outSh : list N) (sx sy : N) : TM T unit :=
  mi <~ get_mat inp ; mo <~ get_mat out ;
  mfor (urange (nth 0 outSh 0%N)) (fun f =>
  mfor (urange (nth 1 outSh 0%N)) (fun x =>
  mfor (urange (nth 2 outSh 0%N)) (fun y =>
    o <~ mlift (GetOperand mo [f; x; y]) ;
    ix <~ udiv x sx ; iy <~ udiv y sy ;
    i <~ mlift (GetOperand mi [f; ix; iy]) ;
    push (OSet o i)))).

(** [p.GetShape()] of a tensor field that must not be nil *)
Definition shapeT (t : nat) : LM (list N) := m <~ liftT (get_mat t) ; mret (shape m).

(** The part of BuildFeedforward that follows PreBuildFeedforward. [l] is the
    layer after [p.Input] has been set. *)
Definition ff_body (id : nat) : LM unit :=
  l <~ getL id ;
  match lkind_of l with
  | LInput => mret tt
  | LDense =>                                              (* dense.go:59-115 *)
      match lten l FInput with
      | None => mfail (ELayer 4)
      | Some inp =>
          mi <~ liftT (get_mat inp) ;
          out <~ the (lten l FOutput) ;
          mo <~ liftT (get_mat out) ;
          neta <~ liftT (NewZeros [msize mo]) ; setF id FNeta neta ;~
          dif <~ liftT (NewZeros [msize mo]) ; setF id FDif dif ;~
          bias <~ newRandT [msize mo] ; setF id FBias bias ;~
          weights <~ newRandT [msize mo; msize mi] ; setF id FWeights weights ;~
          liftT (dense_ff inp bias weights neta out (lact l))
      end
  | LConv2D nf kw kh sx sy =>                              (* conv2d.go:74-132 *)
      match lten l FInput with
      | None => mfail (ELayer 5)
      | Some inp =>
          inSh <~ shapeT inp ;
          if negb (length inSh =? 3) then mfail (ELayer 6)
          else
            ow <~ udiv (usub (nth 1 inSh 0%N) kw) sx ;
            oh <~ udiv (usub (nth 2 inSh 0%N) kh) sy ;
            let outSh := [nf; uadd ow 1; uadd oh 1] in
            neta <~ liftT (NewZeros outSh) ; setF id FNeta neta ;~
            o0 <~ liftT (NewZeros outSh) ; setF id FOutput o0 ;~
            dif <~ liftT (NewZeros outSh) ; setF id FDif dif ;~
            bias <~ newRandT outSh ; setF id FBias bias ;~
            weights <~ newRandT [nf; nth 0 inSh 0%N; kw; kh] ; setF id FWeights weights ;~
            liftT (Transfer bias neta) ;~
            liftT (conv_ff inp weights neta (nth 0 inSh 0%N) outSh kw kh sx sy) ;~
            a <~ the (lact l) ;
            out <~ liftT (NActivate neta (act_f a)) ; setF id FOutput out ;~
            liftT (Build out)
      end
  | LDeconv2D nf kw kh sx sy =>                            (* deconv2d.go:74-155 *)
      match lten l FInput with
      | None => mfail (ELayer 5)
      | Some inp =>
          inSh <~ shapeT inp ;
          if negb (length inSh =? 3) then mfail (ELayer 6)
          else
            let outSh := [nf; uadd (umul (usub (nth 1 inSh 0%N) 1) sx) kw;
                              uadd (umul (usub (nth 2 inSh 0%N) 1) sy) kh] in
            neta <~ liftT (NewZeros outSh) ; setF id FNeta neta ;~
            o0 <~ liftT (NewZeros outSh) ; setF id FOutput o0 ;~
            dif <~ liftT (NewZeros outSh) ; setF id FDif dif ;~
            bias <~ newRandT outSh ; setF id FBias bias ;~
            weights <~ newRandT [nf; nth 0 inSh 0%N; kw; kh] ; setF id FWeights weights ;~
            liftT (Transfer bias neta) ;~
            liftT (Transfer bias neta) ;~
            liftT (deconv_ff inp weights neta inSh nf kw kh sx sy) ;~
            a <~ the (lact l) ;
            out <~ liftT (NActivate neta (act_f a)) ; setF id FOutput out ;~
            liftT (Build out)
      end
  | LMaxPool2D sx sy =>                                    (* max_pool_2d.go:63-112 *)
      inp <~ the (lten l FInput) ;
      inSh <~ shapeT inp ;
      if negb (length inSh =? 3) then mfail (ELayer 6)
      else
        ow <~ udiv (uadd (nth 1 inSh 0%N) 1) sx ;
        oh <~ udiv (uadd (nth 2 inSh 0%N) 1) sy ;
        let outSh := [nth 0 inSh 0%N; ow; oh] in
        out <~ liftT (NewZeros outSh) ; setF id FOutput out ;~
        liftT (pool_ff inp out inSh outSh sx sy) ;~
        dif <~ liftT (NewZeros outSh) ; setF id FDif dif
  | LUpSampling2D sx sy =>                                 (* up_sampling_2d.go:63-102 *)
      inp <~ the (lten l FInput) ;
      inSh <~ shapeT inp ;
      if negb (length inSh =? 3) then mfail (ELayer 6)
      else
        let outSh := [nth 0 inSh 0%N; umul (nth 1 inSh 0%N) sx; umul (nth 2 inSh 0%N) sy] in
        out <~ liftT (NewZeros outSh) ; setF id FOutput out ;~
        liftT (up_ff inp out outSh sx sy) ;~
        dif <~ liftT (NewZeros outSh) ; setF id FDif dif
  | LFlatten =>                                            (* flatten.go:45-64 *)
      q <~ the (lpre l) ;
      qo <~ GetOutputs q ; qo' <~ the qo ;
      out <~ liftT (Flatten qo') ; setF id FOutput out ;~
      r <~ GetRef q ;
      a <~ liftT (rdM r) ; b <~ liftT (rdM (lref l)) ;
      liftT (wrM r (nadd a b)) ;~
      updL id (set_ref r) ;~
      liftT (Build out) ;~
      sh <~ shapeT out ;
      dif <~ liftT (NewZeros sh) ; setF id FDif dif
  | LNorm mn mx =>                                         (* norm.go:60-86 *)
      inp <~ the (lten l FInput) ;
      abs <~ liftT (NAbs inp) ;
      liftT (Build abs) ;~
      mxs <~ liftT (alloc nzero) ; updL id (set_maxs mxs) ;~
      mabs <~ liftT (get_mat abs) ;
      liftT (push (OMax mxs (operands mabs))) ;~
      n1 <~ liftT (NewOpScalar inp mxs Op2Div) ;
      s1 <~ liftT (alloc (nsub mx mn)) ;
      n2 <~ liftT (NewOpScalar n1 s1 Op2Mul) ;
      s2 <~ liftT (alloc mn) ;
      out <~ liftT (NewOpScalar n2 s2 Op2Add) ; setF id FOutput out ;~
      liftT (Build out) ;~
      sh <~ shapeT out ;
      dif <~ liftT (NewZeros sh) ; setF id FDif dif
  | LSoftMax =>                                            (* softmax.go:64-74 *)
      inp <~ the (lten l FInput) ;
      out <~ liftT (SoftMax inp) ; setF id FOutput out ;~
      liftT (Build out) ;~
      q <~ the (lpre l) ;
      d <~ GetDif q ; updL id (set_ten FDif d)
  | LSubTensor dim from to =>                              (* sub_tensor.go:52-66 *)
      q <~ the (lpre l) ;
      qo <~ GetOutputs q ; qo' <~ the qo ;
      out <~ liftT (SubTensor qo' dim from to) ; setF id FOutput out ;~
      liftT (Build out) ;~
      sh <~ shapeT out ;
      dif <~ liftT (NewZeros sh) ; setF id FDif dif
  | LConcat l1 l2 dim =>                                   (* concat.go:69-84 *)
      a <~ the l1 ; b <~ the l2 ;
      oa <~ GetOutputs a ; oa' <~ the oa ;
      ob <~ GetOutputs b ; ob' <~ the ob ;
      out <~ liftT (NConcat oa' ob' dim) ; setF id FOutput out ;~
      setF id FInput out ;~
      liftT (Build out) ;~
      da <~ GetDif a ; da' <~ the da ;
      db <~ GetDif b ; db' <~ the db ;
      dif <~ liftT (NConcat da' db' dim) ; setF id FDif dif
  end.

(** base.go:107-116 PreBuildFeedforward and the BuildFeedforward of every layer
    (input.go:45-67, dense.go:50, conv2d.go:66, ...) *)
Fixpoint LBuildFF (fuel : nat) (id : nat) : LM unit :=
  match fuel with
  | O => mdiverge
  | S fuel' =>
      done <~ CheckOnce BFF id ;
      if (done : bool) then mret tt
      else
        l <~ getL id ;
        match lkind_of l with
        | LInput =>                                        (* input.go:53-66 *)
            match lpre l with
            | Some q => LBuildFF fuel' q
            | None =>
                updL id (set_ten FNeta (lten l FInput)) ;~
                updL id (set_ten FOutput (lten l FInput)) ;~
                out <~ the (lten l FInput) ;
                sh <~ shapeT out ;
                dif <~ liftT (NewZeros sh) ; setF id FDif dif
            end
        | LConcat l1 l2 _ =>                               (* concat.go:62-69 *)
            a <~ the l1 ; LBuildFF fuel' a ;~
            b <~ the l2 ; LBuildFF fuel' b ;~
            ff_body id
        | _ =>
            match lpre l with
            | Some q =>
                LBuildFF fuel' q ;~
                o <~ GetOutputs q ;
                updL id (set_ten FInput o)
            | None => mret tt
            end ;~
            ff_body id
        end
  end.

(** ** Derivatives *)

(** max_pool_2d.go:201-255; note that the Sum is pushed once per window row,
    with the products gathered so far *)
Definition pool_der (inp out pder der : nat) (inSh outSh : list N) (sx sy : N) : TM T unit :=
  mi <~ get_mat inp ; mo <~ get_mat out ; mp <~ get_mat pder ; md <~ get_mat der ;
  mfor (urange (nth 0 outSh 0%N)) (fun f =>
  mfor (urange (nth 1 outSh 0%N)) (fun x =>
  mfor (urange (nth 2 outSh 0%N)) (fun y =>
    d <~ mlift (GetOperand md [f; x; y]) ;
    o <~ mlift (GetOperand mo [f; x; y]) ;
    (fix rows (rs : list (list (N * N))) (acc : list ptr) : TM T unit :=
       match rs with
       | [] => mret tt
       | r :: rs' =>
           new <~ mmap r (fun p =>
                    pd <~ mlift (GetOperand mp [f; fst p; snd p]) ;
                    i <~ mlift (GetOperand mi [f; fst p; snd p]) ;
                    eq <~ alloc nzero ;
                    push (OEquals eq i o) ;~
                    dd <~ alloc nzero ;
                    push (OMul dd pd eq) ;~
                    mret dd) ;
           push (OSum d (acc ++ new)) ;~
           rows rs' (acc ++ new)
       end) (pool_rows inSh sx sy x y) []))).

(** base.go:159-168, input.go:111-123, max_pool_2d.go:189-258,
    up_sampling_2d.go:156-191, flatten.go:83-96, norm.go:115-124,
    softmax.go:94-103, sub_tensor.go:98-111, concat.go:206-223 *)
Fixpoint LBuildDer (fuel : nat) (id : nat) : LM nat :=
  match fuel with
  | O => mdiverge
  | S fuel' =>
      l <~ getL id ;
      match lkind_of l, lpre l with
      | LInput, Some q => LBuildDer fuel' q
      | _, _ =>
      match lten l FDer with
      | Some d => mret d
      | None =>
          match lkind_of l with
          | LInput | LDense | LConv2D _ _ _ _ _ | LDeconv2D _ _ _ _ _ =>
              neta <~ the (lten l FNeta) ;
              a <~ the (lact l) ;
              d <~ liftT (NActivate neta (act_d a)) ; setF id FDer d ;~
              liftT (Build d) ;~
              mret d
          | LFlatten =>
              q <~ the (lpre l) ; qd <~ LBuildDer fuel' q ;
              d <~ liftT (Flatten qd) ; setF id FDer d ;~
              liftT (Build d) ;~ mret d
          | LNorm _ _ | LSoftMax =>
              q <~ the (lpre l) ; qd <~ LBuildDer fuel' q ;
              setF id FDer qd ;~ mret qd
          | LSubTensor dim from to =>
              q <~ the (lpre l) ; qd <~ LBuildDer fuel' q ;
              d <~ liftT (SubTensor qd dim from to) ; setF id FDer d ;~
              liftT (Build d) ;~ mret d
          | LConcat l1 l2 dim =>
              a <~ the l1 ; da <~ LBuildDer fuel' a ;
              b <~ the l2 ; db <~ LBuildDer fuel' b ;
              d <~ liftT (NConcat da db dim) ; setF id FDer d ;~
              liftT (Build d) ;~ mret d
          | LMaxPool2D sx sy =>
              inp <~ the (lten l FInput) ; out <~ the (lten l FOutput) ;
              inSh <~ shapeT inp ; outSh <~ shapeT out ;
              d <~ liftT (NewZeros outSh) ; setF id FDer d ;~
              q <~ the (lpre l) ; qd <~ LBuildDer fuel' q ;
              liftT (pool_der inp out qd d inSh outSh sx sy) ;~ mret d
          | LUpSampling2D sx sy =>
              out <~ the (lten l FOutput) ; outSh <~ shapeT out ;
              d <~ liftT (NewZeros outSh) ; setF id FDer d ;~
              q <~ the (lpre l) ; qd <~ LBuildDer fuel' q ;
              liftT (up_ff qd d outSh sx sy) ;~ mret d
          end
      end
      end
  end.

(** ** Back-propagation *)

(** [Dif := p.Dif; if p.Ref.Value > 1 { Dif = tensor.DivScalar(Dif, p.Ref) }]
    (dense.go:135-138 and the same lines of the other layers) *)
Definition shared_dif (l : layer) : LM nat :=
  dif <~ the (lten l FDif) ;
  v <~ liftT (rdM (lref l)) ;
  if nltb none v then liftT (NewOpScalar dif (lref l) Op2Div) else mret dif.

(** dense.go:157-194: errors of the inputs *)
Definition dense_input_bp (outs : N) (md mw mder mp : tmat) (i : N) : TM T unit :=
  ops <~ mmap (urange outs) (fun j =>
           d <~ mlift (GetOperand md [j]) ;
           w <~ mlift (GetOperand mw [j; i]) ;
           o <~ alloc nzero ;
           push (OMul o d w) ;~
           mret o) ;
  sum <~ alloc nzero ;
  push (OSum sum ops) ;~
  dd <~ atM (operands mder) (N.to_nat i) ;
  nd <~ alloc nzero ;
  pd <~ atM (operands mp) (N.to_nat i) ;
  push (OMul nd sum dd) ;~
  push (OAdd pd pd nd).

(** dense.go:210-275: new bias and weights *)
Definition dense_unit_bp (mi md mw mb mnw mmw mnb mmb : tmat) (alpha momentum : ptr) (i : N) : TM T unit :=
  d <~ mlift (GetOperand md [i]) ;
  mda <~ alloc nzero ;
  push (OMul mda d alpha) ;~
  mom <~ mlift (GetOperand mmb [i]) ;
  moment <~ alloc nzero ;
  push (OMul moment mom momentum) ;~
  b <~ mlift (GetOperand mb [i]) ;
  nb <~ mlift (GetOperand mnb [i]) ;
  push (OSum nb [b; moment; mda]) ;~
  mfor (urange (msize mi)) (fun j =>
    x <~ atM (operands mi) (N.to_nat j) ;
    mm <~ mlift (GetOperand mmw [i; j]) ;
    delta <~ alloc nzero ;
    push (OMul delta mda x) ;~
    mo <~ alloc nzero ;
    push (OMul mo mm momentum) ;~
    w <~ mlift (GetOperand mw [i; j]) ;
    nw <~ mlift (GetOperand mnw [i; j]) ;
    push (OSum nw [w; mo; delta])).

(** conv2d.go:161-219; the inner loop over ky runs up to KW (line 178) *)
Definition conv_bp_in (inSh outSh : list N) (md mw mder mp : tmat) (kw sx sy : N) : TM T unit :=
  mfor (urange (nth 0 outSh 0%N)) (fun f =>
  mfor (urange (nth 1 outSh 0%N)) (fun x =>
  mfor (urange (nth 2 outSh 0%N)) (fun y =>
    d <~ mlift (GetOperand md [f; x; y]) ;
    mfor (urange (nth 0 inSh 0%N)) (fun i =>
    mfor (urange kw) (fun kx =>
    mfor (urange kw) (fun ky =>
      let ix := uadd (umul x sx) kx in
      let iy := uadd (umul y sy) ky in
      if ((nth 1 inSh 0 <=? ix) || (nth 2 inSh 0 <=? iy))%N then mret tt
      else
        w <~ mlift (GetOperand mw [f; i; kx; ky]) ;
        dw <~ alloc nzero ;
        push (OMul dw d w) ;~
        pd <~ mlift (GetOperand mder [i; ix; iy]) ;
        push (OMul dw dw pd) ;~
        p <~ mlift (GetOperand mp [i; ix; iy]) ;
        push (OAdd p p dw))))))).

(** conv2d.go:243-301; ix uses SY (line 262) and the range test is [||] (264) *)
Definition conv_bp_w (inSh outSh : list N) (mi mdif mw mwm mnw : tmat) (kw kh sy : N) : TM T unit :=
  mfor (urange (nth 0 outSh 0%N)) (fun f =>
  mfor (urange (nth 0 inSh 0%N)) (fun i =>
  mfor (urange kw) (fun kx =>
  mfor (urange kh) (fun ky =>
    w <~ mlift (GetOperand mw [f; i; kx; ky]) ;
    m <~ mlift (GetOperand mwm [f; i; kx; ky]) ;
    nw <~ mlift (GetOperand mnw [f; i; kx; ky]) ;
    opss <~ mmap (urange (nth 1 outSh 0%N)) (fun ox =>
      mmap (urange (nth 2 outSh 0%N)) (fun oy =>
        let ix := uadd (umul ox sy) kx in
        let iy := uadd (umul oy sy) ky in
        x <~ (if ((ix <? nth 1 inSh 0) || (iy <? nth 2 inSh 0))%N
              then mlift (GetOperand mi [i; ix; iy]) else alloc nzero) ;
        d <~ mlift (GetOperand mdif [f; ox; oy]) ;
        o <~ alloc nzero ;
        push (OMul o d x) ;~
        mret o)) ;
    dw <~ alloc nzero ;
    push (OSum dw (concat opss)) ;~
    push (OSum nw [w; dw; m]) ;~
    push (OSet m dw))))).

(** deconv2d.go:184-254 *)
Definition deconv_bp_in (inSh : list N) (nf : N) (md mw mder mp : tmat) (kw kh sx sy : N) : TM T unit :=
  mfor (urange (nth 0 inSh 0%N)) (fun inF =>
  mfor (urange (nth 1 inSh 0%N)) (fun x =>
  mfor (urange (nth 2 inSh 0%N)) (fun y =>
    pder <~ mlift (GetOperand mder [inF; x; y]) ;
    pdif <~ mlift (GetOperand mp [inF; x; y]) ;
    opss <~ mmap (urange nf) (fun outF =>
      mmap (urange kw) (fun kx =>
      mmap (urange kh) (fun ky =>
        d <~ mlift (GetOperand md [outF; uadd (umul x sx) kx; uadd (umul y sy) ky]) ;
        w <~ mlift (GetOperand mw [outF; inF; kx; ky]) ;
        o <~ alloc nzero ;
        push (OMul o d w) ;~
        mret o))) ;
    nd <~ alloc nzero ;
    push (OSum nd (concat (concat opss))) ;~
    push (OMul nd nd pder) ;~
    push (OAdd pdif pdif nd)))).

(** deconv2d.go:277-337 *)
Definition deconv_bp_w (inSh : list N) (nf : N) (mi mdif mw mwm mnw : tmat) (kw kh sx sy : N) : TM T unit :=
  mfor (urange nf) (fun outF =>
  mfor (urange kw) (fun kx =>
  mfor (urange kh) (fun ky =>
  mfor (urange (nth 0 inSh 0%N)) (fun inF =>
    w <~ mlift (GetOperand mw [outF; inF; kx; ky]) ;
    m <~ mlift (GetOperand mwm [outF; inF; kx; ky]) ;
    nw <~ mlift (GetOperand mnw [outF; inF; kx; ky]) ;
    opss <~ mmap (urange (nth 1 inSh 0%N)) (fun x =>
      mmap (urange (nth 2 inSh 0%N)) (fun y =>
        i <~ mlift (GetOperand mi [inF; x; y]) ;
        d <~ mlift (GetOperand mdif [outF; uadd (umul x sx) kx; uadd (umul y sy) ky]) ;
        o <~ alloc nzero ;
        push (OMul o d i) ;~
        mret o)) ;
    dw <~ alloc nzero ;
    push (OSum dw (concat opss)) ;~
    push (OSum nw [w; dw; m]) ;~
    push (OSet m dw))))).

(** The common middle part conv2d.go:221-240, deconv2d.go:256-275: new bias
    with momentum, and the momentum of the weights *)
Definition kernel_bias_bp (id dif bias mbias mweights : nat) (alpha momentum : ptr) : LM (nat * nat) :=
  da <~ liftT (NewOpScalar dif alpha Op2Mul) ;
  bm <~ liftT (NewOpScalar mbias momentum Op2Mul) ;
  db <~ liftT (NewOp2 da bm Op2Add) ;
  nb <~ liftT (NewOp2 bias db Op2Add) ; setF id FNBias nb ;~
  liftT (Build nb) ;~
  liftT (Transfer db mbias) ;~
  wm <~ liftT (NewOpScalar mweights momentum Op2Mul) ;
  liftT (Build wm) ;~
  mret (da, wm).

(** max_pool_2d.go:133-184 *)
Definition pool_bp (inp out pdif dif : nat) (inSh outSh : list N) (sx sy : N) : TM T unit :=
  mi <~ get_mat inp ; mo <~ get_mat out ; mp <~ get_mat pdif ; md <~ get_mat dif ;
  mfor (urange (nth 0 outSh 0%N)) (fun f =>
  mfor (urange (nth 1 outSh 0%N)) (fun x =>
  mfor (urange (nth 2 outSh 0%N)) (fun y =>
    d <~ mlift (GetOperand md [f; x; y]) ;
    n <~ mlift (GetOperand mo [f; x; y]) ;
    mfor (concat (pool_rows inSh sx sy x y)) (fun p =>
      pd <~ mlift (GetOperand mp [f; fst p; snd p]) ;
      i <~ mlift (GetOperand mi [f; fst p; snd p]) ;
      eq <~ alloc nzero ;
      push (OEquals eq i n) ;~
      dd <~ alloc nzero ;
      push (OMul dd d eq) ;~
      push (OAdd pd pd dd))))).

(** up_sampling_2d.go:127-152; the sum overwrites the previous layer's error *)
Definition up_bp (pdif dif : nat) (inSh : list N) (sx sy : N) : TM T unit :=
  mp <~ get_mat pdif ; md <~ get_mat dif ;
  mfor (urange (nth 0 inSh 0%N)) (fun f =>
  mfor (urange (nth 1 inSh 0%N)) (fun x =>
  mfor (urange (nth 2 inSh 0%N)) (fun y =>
    pd <~ mlift (GetOperand mp [f; x; y]) ;
    opss <~ mmap (urange sx) (fun i =>
      mmap (urange sy) (fun j =>
        mlift (GetOperand md [f; uadd (umul x sx) i; uadd (umul y sy) j]))) ;
    push (OSum pd (concat opss))))).

(** The part of BuildBackpropagation between CheckBP and
    PostBuildBackpropagation; [nfuel] is passed on to BuildDer. *)
Definition bp_body (nfuel : nat) (id : nat) (alpha momentum : ptr) : LM unit :=
  l <~ getL id ;
  match lkind_of l with
  | LInput => mret tt                                      (* input.go:69-88 *)
  | LDense =>                                              (* dense.go:122-277 *)
      inp <~ the (lten l FInput) ; mi <~ liftT (get_mat inp) ;
      out <~ the (lten l FOutput) ; mo <~ liftT (get_mat out) ;
      weights <~ the (lten l FWeights) ; shw <~ shapeT weights ;
      nw <~ liftT (NewZeros shw) ; setF id FNWeights nw ;~
      mwt <~ liftT (NewZeros shw) ; setF id FMWeights mwt ;~
      bias <~ the (lten l FBias) ; shb <~ shapeT bias ;
      nb <~ liftT (NewZeros shb) ; setF id FNBias nb ;~
      mbt <~ liftT (NewZeros shb) ; setF id FMBias mbt ;~
      dif <~ shared_dif l ;
      liftT (Build dif) ;~
      match lpre l with
      | Some q =>
          der <~ LBuildDer nfuel q ;
          pd <~ GetDif q ; pdif <~ the pd ;
          liftT (Build pdif) ;~
          liftT (md <~ get_mat dif ; mw <~ get_mat weights ;
                 mder <~ get_mat der ; mp <~ get_mat pdif ;
                 mfor (urange (msize mi)) (dense_input_bp (msize mo) md mw mder mp))
      | None => mret tt
      end ;~
      liftT (md <~ get_mat dif ; mw <~ get_mat weights ; mb <~ get_mat bias ;
             mnw <~ get_mat nw ; mmw <~ get_mat mwt ; mnb <~ get_mat nb ; mmb <~ get_mat mbt ;
             mfor (urange (msize mo)) (dense_unit_bp mi md mw mb mnw mmw mnb mmb alpha momentum))
  | LConv2D nf kw kh sx sy =>                              (* conv2d.go:135-304 *)
      inp <~ the (lten l FInput) ; inSh <~ shapeT inp ;
      out <~ the (lten l FOutput) ; outSh <~ shapeT out ;
      weights <~ the (lten l FWeights) ; shw <~ shapeT weights ;
      nw <~ liftT (NewZeros shw) ; setF id FNWeights nw ;~
      mwt <~ liftT (NewZeros shw) ; setF id FMWeights mwt ;~
      bias <~ the (lten l FBias) ; shb <~ shapeT bias ;
      mbt <~ liftT (NewZeros shb) ; setF id FMBias mbt ;~
      dif <~ shared_dif l ;
      liftT (Build dif) ;~
      match lpre l with
      | Some q =>
          der <~ LBuildDer nfuel q ;
          pd <~ GetDif q ; pdif <~ the pd ;
          liftT (md <~ get_mat dif ; mw <~ get_mat weights ;
                 mder <~ get_mat der ; mp <~ get_mat pdif ;
                 conv_bp_in inSh outSh md mw mder mp kw sx sy)
      | None => mret tt
      end ;~
      dif0 <~ the (lten l FDif) ;
      dw <~ kernel_bias_bp id dif0 bias mbt mwt alpha momentum ;
      liftT (mi <~ get_mat inp ; mdif <~ get_mat (fst dw) ; mw <~ get_mat weights ;
             mwm <~ get_mat (snd dw) ; mnw <~ get_mat nw ;
             conv_bp_w inSh outSh mi mdif mw mwm mnw kw kh sy)
  | LDeconv2D nf kw kh sx sy =>                            (* deconv2d.go:158-340 *)
      inp <~ the (lten l FInput) ; inSh <~ shapeT inp ;
      out <~ the (lten l FOutput) ; outSh <~ shapeT out ;
      weights <~ the (lten l FWeights) ; shw <~ shapeT weights ;
      nw <~ liftT (NewZeros shw) ; setF id FNWeights nw ;~
      mwt <~ liftT (NewZeros shw) ; setF id FMWeights mwt ;~
      bias <~ the (lten l FBias) ; shb <~ shapeT bias ;
      mbt <~ liftT (NewZeros shb) ; setF id FMBias mbt ;~
      dif <~ shared_dif l ;
      liftT (Build dif) ;~
      match lpre l with
      | Some q =>
          der <~ LBuildDer nfuel q ;
          pd <~ GetDif q ; pdif <~ the pd ;
          liftT (md <~ get_mat dif ; mw <~ get_mat weights ;
                 mder <~ get_mat der ; mp <~ get_mat pdif ;
                 deconv_bp_in inSh (nth 0 outSh 0%N) md mw mder mp kw kh sx sy)
      | None => mret tt
      end ;~
      dif0 <~ the (lten l FDif) ;
      dw <~ kernel_bias_bp id dif0 bias mbt mwt alpha momentum ;
      liftT (mi <~ get_mat inp ; mdif <~ get_mat (fst dw) ; mw <~ get_mat weights ;
             mwm <~ get_mat (snd dw) ; mnw <~ get_mat nw ;
             deconv_bp_w inSh (nth 0 outSh 0%N) mi mdif mw mwm mnw kw kh sx sy)
  | LMaxPool2D sx sy =>                                    (* max_pool_2d.go:120-186 *)
      dif <~ shared_dif l ;
      liftT (Build dif) ;~
      inp <~ the (lten l FInput) ; inSh <~ shapeT inp ;
      out <~ the (lten l FOutput) ; outSh <~ shapeT out ;
      q <~ the (lpre l) ; pd <~ GetDif q ; pdif <~ the pd ;
      liftT (pool_bp inp out pdif dif inSh outSh sx sy)
  | LUpSampling2D sx sy =>                                 (* up_sampling_2d.go:112-152 *)
      dif <~ shared_dif l ;
      liftT (Build dif) ;~
      inp <~ the (lten l FInput) ; inSh <~ shapeT inp ;
      q <~ the (lpre l) ; pd <~ GetDif q ; pdif <~ the pd ;
      liftT (up_bp pdif dif inSh sx sy)
  | LFlatten =>                                            (* flatten.go:70-78 *)
      dif <~ the (lten l FDif) ;
      liftT (Build dif) ;~
      q <~ the (lpre l) ; pd <~ GetDif q ; pdif <~ the pd ;
      liftT (Transfer dif pdif)
  | LNorm mn mx =>                                         (* norm.go:96-112 *)
      dif <~ shared_dif l ;
      s <~ liftT (alloc (nsub mx mn)) ;
      d1 <~ liftT (NewOpScalar dif s Op2Mul) ;
      d2 <~ liftT (NewOpScalar d1 (lmaxs l) Op2Div) ;
      q <~ the (lpre l) ; pd <~ GetDif q ; pdif <~ the pd ;
      liftT (Transfer d2 pdif)
  | LSoftMax =>                                            (* softmax.go:82-90 *)
      dif <~ shared_dif l ;
      liftT (Build dif)
  | LSubTensor dim from to =>                              (* sub_tensor.go:75-93 *)
      dif0 <~ the (lten l FDif) ;
      liftT (Build dif0) ;~
      dif <~ shared_dif l ;
      q <~ the (lpre l) ; pd <~ GetDif q ; pdif <~ the pd ;
      p <~ liftT (SubTensor pdif dim from to) ;
      d <~ liftT (NewOp2 dif p Op2Add) ;
      liftT (Transfer d p)
  | LConcat _ _ _ =>                                       (* concat.go:97-104 *)
      dif <~ shared_dif l ;
      liftT (Build dif)
  end.

(** base.go:126-137 PostBuildBackpropagation and the BuildBackpropagation of
    every layer *)
Fixpoint LBuildBP (fuel : nat) (id : nat) (alpha momentum : ptr) : LM unit :=
  match fuel with
  | O => mdiverge
  | S fuel' =>
      done <~ CheckOnce BBP id ;
      if (done : bool) then mret tt
      else
        bp_body fuel' id alpha momentum ;~
        l <~ getL id ;
        match lkind_of l with
        | LConcat l1 l2 _ =>                               (* concat.go:124-131 *)
            a <~ the l1 ; LBuildBP fuel' a alpha momentum ;~
            b <~ the l2 ; LBuildBP fuel' b alpha momentum
        | _ => mret tt
        end ;~
        match lpre l with
        | Some q => LBuildBP fuel' q alpha momentum
        | None => mret tt
        end
  end.

(** ** Fit, ResetFit, Reset *)

(** base.go:189-207 Fit; the previous layer's error is dropped (line 191) *)
Fixpoint LFit (fuel : nat) (id : nat) : LM unit :=
  match fuel with
  | O => mdiverge
  | S fuel' =>
      l <~ getL id ;
      match lpre l with
      | Some q => ignore_err (LFit fuel' q)
      | None => mret tt
      end ;~
      if negb (lflag l BTrainable) then mret tt
      else
        match lten l FWeights, lten l FNWeights with
        | Some w, Some nw => liftT (LoadFromTensor w nw)
        | _, _ => mret tt
        end ;~
        match lten l FBias, lten l FNBias with
        | None, None => mret tt
        | Some b, Some nb => liftT (LoadFromTensor b nb)
        | _, _ => mpanic
        end
  end.

(** base.go:209-211 SetTrainable *)
Definition LSetTrainable (id : nat) (t : bool) : LM unit := updL id (set_flag BTrainable t).

(** base.go:213-221 ResetFit *)
Fixpoint LResetFit (fuel : nat) (id : nat) : LM unit :=
  match fuel with
  | O => mdiverge
  | S fuel' =>
      l <~ getL id ;
      match lpre l with Some q => LResetFit fuel' q | None => mret tt end ;~
      z <~ liftT (alloc nzero) ;
      d <~ the (lten l FDif) ;
      liftT (Fill d z)
  end.

(** base.go:223-231 Reset: nothing but the recursion *)
Fixpoint LReset (fuel : nat) (id : nat) : LM unit :=
  match fuel with
  | O => mdiverge
  | S fuel' =>
      l <~ getL id ;
      match lpre l with Some q => LReset fuel' q | None => mret tt end
  end.

End Layer.
Arguments activation T : clear implicits.
Arguments lkind T : clear implicits.
Arguments layer T : clear implicits.
Arguments lst T : clear implicits.
Arguments LM T : clear implicits.
