(** * ModelIO: saving and loading (tensor/tensor_mat.go, layer/base.go,
    layer/concat.go, model/model_layer.go)

    [encoding/binary] with [binary.LittleEndian] is described by a codec of the
    number type; a type it refuses ([int]) has none.  A writer is the bytes
    written so far and how many more it takes; a reader is the bytes that are
    left.  [binary.Write] hands all bytes of a value to the writer in one call;
    [binary.Read] reads a whole value before storing it. *)
From Verif Require Import Base Num ModelTools ModelOps ModelTensor ModelLayer ModelModel.
From Coq Require Import Init.Byte Strings.Byte.

Record codec (T : Type) : Type := MkCodec {
  cwidth : nat;                 (* binary.Size *)
  cenc : T -> list byte;
  cdec : list byte -> T;
}.
Arguments MkCodec {T}.
Arguments cwidth {T}.
Arguments cenc {T}.
Arguments cdec {T}.

(** Where a Save writes: nothing fails ([room = None]) or only so many bytes fit. *)
Record writer : Type := MkW { written : list byte; room : option nat }.

Section IO.
Context {T : Type} `{Num T}.
Context (cod : option (codec T)).

(** ** encoding/binary *)
Definition wput {S} (bs : list byte) : M (writer * S) unit := fun ws =>
  let '(w, s) := ws in
  match room w with
  | None => (Ok tt, (MkW (written w ++ bs) None, s))
  | Some k =>
      if length bs <=? k then (Ok tt, (MkW (written w ++ bs) (Some (k - length bs)), s))
      else (Err (ELayer 90), (MkW (written w ++ take k bs) (Some 0), s))   (* the writer's error *)
  end.
Definition bWrite {S} (v : T) : M (writer * S) unit :=
  match cod with
  | None => mfail EInvalidType
  | Some c => wput (cenc c v)
  end.
Definition bRead {S} : M (list byte * S) T :=
  match cod with
  | None => mfail EInvalidType
  | Some c => fun rs =>
      let '(r, s) := rs in
      if length r <? cwidth c then (Err (match r with [] => EEOF | _ => EUnexpectedEOF end), ([], s))
      else (Ok (cdec c (take (cwidth c) r)), (drop (cwidth c) r, s))
  end.
(** int and uint values *)
Definition bWrite_int {W S} (n : N) : M (W * S) unit := mfail EInvalidType.
Definition bRead_int {W S} : M (W * S) N := mfail EInvalidType.

(** ** Tensors *)
Definition io {W S A} (c : M S A) : M (W * S) A := fun ws =>
  match c (snd ws) with (r, s) => (r, (fst ws, s)) end.

(** tensor_mat.go:212-220 Save *)
Definition Save (t : nat) : M (writer * tst T) unit :=
  m <~ io (get_mat t) ;
  mfor (operands m) (fun o => v <~ io (rdM o) ; bWrite v).
(** tensor_mat.go:222-231 Load; the address of a nil scalar's field panics before
    anything is read *)
Definition Load (t : nat) : M (list byte * tst T) unit :=
  m <~ io (get_mat t) ;
  mfor (operands m) (fun o => io (rdM o) ;~ v <~ bRead ; io (wrM o v)).
(** tensor_mat.go:164-182 SaveFull *)
Definition SaveFull (t : nat) : M (writer * tst T) unit :=
  m <~ io (get_mat t) ;
  bWrite_int (ulen (shape m)) ;~
  mfor (shape m) bWrite_int ;~
  mfor (operands m) (fun o => v <~ io (rdM o) ; bWrite v).
(** tensor_mat.go:184-210 LoadFull; the new scalars are nil *)
Definition LoadFull (t : nat) : M (list byte * tst T) unit :=
  io (get_mat t) ;~
  dims <~ bRead_int ;
  sh <~ mmap (range (N.to_nat dims)) (fun _ => bRead_int) ;
  let ops := replicate (N.to_nat (GetDataSize sh)) None in
  io (upd_mat t (fun m => MkMat sh (GetIndexMul sh) ops (builded m))) ;~
  mfor ops (fun o => io (rdM o) ;~ v <~ bRead ; io (wrM o v)).

(** ** Layers *)
Definition ioT {W A} (c : M (W * tst T) A) : M (W * lst T) A := fun ws =>
  match c (fst ws, ts (snd ws)) with (r, (w, t)) => (r, (w, MkL t (lays (snd ws)) (rc (snd ws)))) end.
Definition opt {S A} (o : option A) (f : A -> M S unit) : M S unit :=
  match o with Some a => f a | None => mret tt end.

(** base.go:319-343 Save; concat.go:184-204 *)
Fixpoint LSave (fuel : nat) (id : nat) : M (writer * lst T) unit :=
  match fuel with
  | O => mdiverge
  | S fuel' =>
      l <~ io (getL id) ;
      if lflag l BSaved then mret tt
      else
        io (updL id (set_flag BSaved true)) ;~
        match lkind_of l with
        | LConcat l1 l2 _ => opt l1 (LSave fuel') ;~ opt l2 (LSave fuel')
        | _ =>
            opt (lpre l) (LSave fuel') ;~
            opt (lten l FWeights) (fun t => ioT (Save t)) ;~
            opt (lten l FBias) (fun t => ioT (Save t))
        end
  end.
(** base.go:291-317 Load; concat.go:162-182 *)
Fixpoint LLoad (fuel : nat) (id : nat) : M (list byte * lst T) unit :=
  match fuel with
  | O => mdiverge
  | S fuel' =>
      l <~ io (getL id) ;
      if lflag l BLoaded then mret tt
      else
        io (updL id (set_flag BLoaded true)) ;~
        match lkind_of l with
        | LConcat l1 l2 _ => opt l1 (LLoad fuel') ;~ opt l2 (LLoad fuel')
        | _ =>
            opt (lpre l) (LLoad fuel') ;~
            opt (lten l FWeights) (fun t => ioT (Load t)) ;~
            opt (lten l FBias) (fun t => ioT (Load t))
        end
  end.
(** base.go:277-289 ResetLoad, ResetSave; Concat does not have its own *)
Fixpoint LResetIO (f : bfield) (fuel : nat) (id : nat) : LM T unit :=
  match fuel with
  | O => mdiverge
  | S fuel' =>
      updL id (set_flag f false) ;~
      l <~ getL id ;
      opt (lpre l) (LResetIO f fuel')
  end.

(** ** Models *)
Definition with_fuel_io {W A} (m : nat -> M (W * lst T) A) : M (W * lst T) A := fun ws => m (S (length (lays (snd ws)))) ws.
(** model_layer.go:96-110 *)
Definition MSave (m : model T) : M (writer * lst T) unit := last <~ io (the (m_last m)) ; with_fuel_io (fun n => LSave n last).
Definition MLoad (m : model T) : M (list byte * lst T) unit := last <~ io (the (m_last m)) ; with_fuel_io (fun n => LLoad n last).
Definition MResetSave (m : model T) : LM T unit := last <~ the (m_last m) ; with_fuel (fun n => LResetIO BSaved n last).
Definition MResetLoad (m : model T) : LM T unit := last <~ the (m_last m) ; with_fuel (fun n => LResetIO BLoaded n last).
End IO.

(** ** The codecs of Go's number types, little-endian *)
Definition byte_of (n : N) : byte := match of_N (n mod 256)%N with Some b => b | None => x00 end.
Fixpoint le_bytes (k : nat) (n : N) : list byte :=
  match k with O => [] | S k' => byte_of n :: le_bytes k' (n / 256)%N end.
Fixpoint le_value (bs : list byte) : N :=
  match bs with [] => 0 | b :: bs' => (to_N b + 256 * le_value bs')%N end.
