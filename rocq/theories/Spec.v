(** * Spec: what tensors and tensor expressions mean, independently of the code

    Nothing here refers to the model of the code (no strides, no addresses, no
    contexts).  A tensor value is a shape and its elements in row-major order;
    elements are looked up by multi-index with [at_]. *)
From Verif Require Import Base Num.

(** Number of elements of a shape (exact, unbounded). *)
Definition prodN (sh : list N) : N := foldr N.mul 1%N sh.

(** Row-major position of a multi-index; [None] if the rank is wrong or some
    coordinate is out of range. *)
Fixpoint flat (sh idx : list N) : option N :=
  match sh, idx with
  | [], [] => Some 0%N
  | s :: sh', i :: idx' =>
      if (i <? s)%N then
        match flat sh' idx' with
        | Some r => Some (i * prodN sh' + r)%N
        | None => None
        end
      else None
  | _, _ => None
  end.

(** 0, 1, ..., n-1 *)
Definition upto (n : N) : list N := map N.of_nat (seq 0 (N.to_nat n)).

(** All multi-indices of a shape, in lexicographic order. *)
Fixpoint indices (sh : list N) : list (list N) :=
  match sh with
  | [] => [[]]
  | s :: sh' => flat_map (fun i => map (cons i) (indices sh')) (upto s)
  end.

(** Element of a row-major list at a multi-index. *)
Definition at_ {A} (sh : list N) (d : list A) (idx : list N) : option A :=
  match flat sh idx with
  | Some k => d !! N.to_nat k
  | None => None
  end.

(** A shape that a Go program can hold: dimensions and element count fit. *)
Definition fits (sh : list N) : Prop :=
  Forall (fun d => (d < W64)%N) sh /\ (prodN sh < W64)%N.
Definition fitsb (sh : list N) : bool :=
  forallb (fun d => (d <? W64)%N) sh && (prodN sh <? W64)%N.

(** Insert coordinate [k] at position [d]; remove the coordinate at [d]. *)
Definition ins (d : nat) (k : N) (l : list N) : list N := take d l ++ k :: drop d l.
Definition del (d : nat) (l : list N) : list N := take d l ++ drop (S d) l.
(** Change the coordinate at position [d]. *)
Definition on_coord (d : nat) (f : N -> N) (l : list N) : list N := alter f d l.

Section Values.
Context {T : Type} `{Num T}.

Record vten : Type := V { vsh : list N; vdata : list T }.

Inductive binop : Type := BAdd | BSub | BMul | BDiv.
Inductive reduction : Type := RedSum | RedAvg | RedMin | RedMax.

Definition bin (o : binop) (x y : T) : option T :=
  match o with
  | BAdd => Some (nadd x y)
  | BSub => Some (nsub x y)
  | BMul => Some (nmul x y)
  | BDiv => ndiv x y
  end.

Definition absv (x : T) : T := if nltb x nzero then nneg x else x.

(** Left-to-right reductions of a non-empty list. *)
Definition fold1 (f : T -> T -> T) (l : list T) : option T :=
  match l with [] => None | x :: r => Some (fold_left f r x) end.
Definition reduce (o : reduction) (l : list T) : option T :=
  match o with
  | RedSum => fold1 nadd l
  | RedAvg => match fold1 nadd l with
              | Some s => ndiv s (nofN (N.of_nat (length l)))
              | None => None
              end
  | RedMin => fold1 (fun m x => if nltb x m then x else m) l
  | RedMax => fold1 (fun m x => if nltb m x then x else m) l
  end.

(** The sum that starts from zero, as a method that accumulates computes it, and
    the mean computed from it; the other reductions are the same. *)
Definition sum0 (l : list T) : T := fold_left nadd l nzero.
Definition reduce0 (o : reduction) (l : list T) : option T :=
  match o with
  | RedSum => Some (sum0 l)
  | RedAvg => ndiv (sum0 l) (nofN (N.of_nat (length l)))
  | RedMin | RedMax => reduce o l
  end.

(** ** Mathematical operations on tensor values. [None] means that the
    arithmetic itself fails (integer division by zero, reduction of nothing). *)

(** The tensor of shape [sh] with element [f idx] at every multi-index. *)
Definition tabulate (sh : list N) (f : list N -> option T) : option vten :=
  d ← mapM f (indices sh); Some (V sh d).

Definition v_map (f : T -> T) (v : vten) : vten := V (vsh v) (map f (vdata v)).
Definition v_bin (o : binop) (a b : vten) : option vten :=
  tabulate (vsh a) (fun idx =>
    x ← at_ (vsh a) (vdata a) idx; y ← at_ (vsh b) (vdata b) idx; bin o x y).
Definition v_scal (o : binop) (a : vten) (y : T) : option vten :=
  d ← mapM (fun x => bin o x y) (vdata a); Some (V (vsh a) d).
Definition v_transpose (a : vten) : option vten :=
  tabulate (reverse (vsh a)) (fun idx => at_ (vsh a) (vdata a) (reverse idx)).
Definition v_sub (a : vten) (d : nat) (s e : N) : option vten :=
  tabulate (<[d := (e - s)%N]> (vsh a)) (fun idx =>
    at_ (vsh a) (vdata a) (on_coord d (fun c => (c + s)%N) idx)).
(** slice that reads [pad] beyond the end of dimension [d] *)
Definition v_subp (pad : T) (a : vten) (d : nat) (s e : N) : option vten :=
  tabulate (<[d := (e - s)%N]> (vsh a)) (fun idx =>
    let idx' := on_coord d (fun c => (c + s)%N) idx in
    match idx' !! d, vsh a !! d with
    | Some c, Some m => if (c <? m)%N then at_ (vsh a) (vdata a) idx' else Some pad
    | _, _ => None
    end).
Definition v_subx : vten -> nat -> N -> N -> option vten := v_subp nzero.
Definition v_concat (a b : vten) (d : nat) : option vten :=
  match vsh a !! d, vsh b !! d with
  | Some na, Some nb =>
      tabulate (<[d := (na + nb)%N]> (vsh a)) (fun idx =>
        match idx !! d with
        | Some c =>
            if (c <? na)%N then at_ (vsh a) (vdata a) idx
            else at_ (vsh b) (vdata b) (on_coord d (fun c => (c - na)%N) idx)
        | None => None
        end)
  | _, _ => None
  end.
Definition v_reshape (a : vten) (sh : list N) : vten :=
  let n := N.to_nat (prodN sh) in
  V sh (take n (vdata a) ++ replicate (n - length (vdata a)) nzero).
(** The operations below add several numbers; [red] says how. *)
Section With.
Variable red : reduction -> list T -> option T.
Definition v_reduce_with (o : reduction) (a : vten) : option vten :=
  x ← red o (vdata a); Some (V [1%N] [x]).
(** keep the first d+1 axes, reduce over all others *)
Definition v_dim_with (o : reduction) (d : nat) (a : vten) : option vten :=
  tabulate (take (S d) (vsh a)) (fun idx =>
    l ← mapM (fun rest => at_ (vsh a) (vdata a) (idx ++ rest))
             (indices (drop (S d) (vsh a)));
    red o l).
(** contraction of axis [da] of [a] with axis [db] of [b] *)
Definition v_dot_with (a b : vten) (da db : nat) : option vten :=
  match vsh a !! da with
  | Some n =>
      let k := length (vsh a) - 1 in
      let term idx :=
        l ← mapM (fun i => x ← at_ (vsh a) (vdata a) (ins da i (take k idx));
                           y ← at_ (vsh b) (vdata b) (ins db i (drop k idx));
                           Some (nmul x y)) (upto n);
        red RedSum l in
      if (length (vsh a) =? 1) && (length (vsh b) =? 1)
      then x ← term []; Some (V [1%N] [x])     (* two vectors: one number *)
      else tabulate (del da (vsh a) ++ del db (vsh b)) term
  | None => None
  end.
(** subtract the minimum, divide by the sum *)
Definition v_soft_with (a : vten) : option vten :=
  m ← red RedMin (vdata a);
  let d := map (fun x => nsub x m) (vdata a) in
  s ← red RedSum d;
  q ← mapM (fun x => ndiv x s) d;
  Some (V (vsh a) q).
End With.
Definition v_reduce := v_reduce_with reduce.
Definition v_dim := v_dim_with reduce.
Definition v_dot := v_dot_with reduce.
Definition v_soft := v_soft_with reduce.

(** ** Expressions *)
Inductive expr : Type :=
| ELeaf (id : nat)                       (* an input tensor *)
| EMap (f : T -> T) (e : expr)
| EBin (o : binop) (a b : expr)
| EScal (o : binop) (e : expr) (s : nat) (* s: a scalar variable *)
| ETrans (e : expr)
| ESub (e : expr) (d : nat) (s t : N)
| ESubX (e : expr) (d : nat) (s t : N)
| ECat (a b : expr) (d : nat)
| EReshape (e : expr) (sh : list N)
| EReduce (o : reduction) (e : expr)
| EDim (o : reduction) (d : nat) (e : expr)
| EDot (a b : expr) (da db : nat)
| EMatMul (a b : expr)                   (* last axis of a with second to last (or only) of b *)
| ESoft (e : expr).

Definition default_db (sb : list N) : nat := length sb - 2.

(** The shape of an expression; [None] when it is not well-shaped or when some
    intermediate tensor does not fit in a machine word. *)
Section Shape.
Variable leafsh : nat -> option (list N).
Definition fit (sh : list N) : option (list N) := if fitsb sh then Some sh else None.
Definition dot_shape (sa sb : list N) (da db : nat) : option (list N) :=
  match sa !! da, sb !! db with
  | Some na, Some nb =>
      if (na =? nb)%N then
        if (length sa =? 1) && (length sb =? 1) then Some [1%N]
        else fit (del da sa ++ del db sb)
      else None
  | _, _ => None
  end.
Fixpoint shape_of (e : expr) : option (list N) :=
  match e with
  | ELeaf id => sh ← leafsh id; fit sh
  | EMap _ e => shape_of e
  | EBin _ a b =>
      sa ← shape_of a; sb ← shape_of b;
      if decide (sa = sb) then Some sa else None
  | EScal _ e _ => shape_of e
  | ETrans e => sh ← shape_of e; Some (reverse sh)
  | ESub e d s t =>
      sh ← shape_of e;
      m ← sh !! d;
      if ((s <? t) && (t <=? m))%N then fit (<[d := (t - s)%N]> sh) else None
  | ESubX e d s t =>
      sh ← shape_of e;
      m ← sh !! d;
      if ((s <? t) && (t <? W64))%N then fit (<[d := (t - s)%N]> sh) else None
  | ECat a b d =>
      sa ← shape_of a; sb ← shape_of b;
      na ← sa !! d; nb ← sb !! d;
      if decide (<[d := nb]> sa = sb) then fit (<[d := (na + nb)%N]> sa) else None
  | EReshape e sh => _ ← shape_of e; fit sh
  | EReduce _ e => _ ← shape_of e; Some [1%N]
  | EDim _ d e =>
      sh ← shape_of e;
      if decide (d < length sh) then fit (take (S d) sh) else None
  | EDot a b da db => sa ← shape_of a; sb ← shape_of b; dot_shape sa sb da db
  | EMatMul a b =>
      sa ← shape_of a; sb ← shape_of b;
      dot_shape sa sb (length sa - 1) (default_db sb)
  | ESoft e => shape_of e
  end.
End Shape.

(** The value of an expression, given the data of its input tensors and the
    values of its scalar variables. *)
Section Eval.
Variable leaf : nat -> option vten.
Variable scal : nat -> option T.
Fixpoint eval (e : expr) : option vten :=
  match e with
  | ELeaf id => leaf id
  | EMap f e => v ← eval e; Some (v_map f v)
  | EBin o a b => x ← eval a; y ← eval b; v_bin o x y
  | EScal o e s => v ← eval e; y ← scal s; v_scal o v y
  | ETrans e => v ← eval e; v_transpose v
  | ESub e d s t => v ← eval e; v_sub v d s t
  | ESubX e d s t => v ← eval e; v_subx v d s t
  | ECat a b d => x ← eval a; y ← eval b; v_concat x y d
  | EReshape e sh => v ← eval e; Some (v_reshape v sh)
  | EReduce o e => v ← eval e; v_reduce o v
  | EDim o d e => v ← eval e; v_dim o d v
  | EDot a b da db => x ← eval a; y ← eval b; v_dot x y da db
  | EMatMul a b =>
      x ← eval a; y ← eval b; v_dot x y (length (vsh x) - 1) (default_db (vsh y))
  | ESoft e => v ← eval e; v_soft v
  end.
End Eval.

(** Ranges of extended slices that do not cross the end of the dimension. *)
Fixpoint no_crossing (leafsh : nat -> option (list N)) (e : expr) : Prop :=
  match e with
  | ELeaf _ => True
  | EMap _ e | EScal _ e _ | ETrans e | ESub e _ _ _ | EReshape e _
  | EReduce _ e | EDim _ _ e | ESoft e => no_crossing leafsh e
  | EBin _ a b | ECat a b _ | EDot a b _ _ | EMatMul a b =>
      no_crossing leafsh a /\ no_crossing leafsh b
  | ESubX e d s t =>
      no_crossing leafsh e /\
      (forall sh m, shape_of leafsh e = Some sh -> sh !! d = Some m ->
         (t <= m \/ m < s)%N)
  end.
End Values.
Arguments vten T : clear implicits.
Arguments expr T : clear implicits.
