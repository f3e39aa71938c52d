(** * ModelTools: tools/tools.go and tools/math.go *)
From Verif Require Import Base Num.

(** tools/tools.go:12-27 GetIndexMul.  The Go loop walks from the last
    dimension to the first keeping the running product [mul]; the recursion
    returns the strides of a suffix together with that running product after
    the whole suffix has been multiplied in. *)
Fixpoint index_mul_go (shape : list N) : list N * N :=
  match shape with
  | [] => ([], 1%N)
  | s :: rest =>
      let '(m, acc) := index_mul_go rest in
      (acc :: m, umul acc s)
  end.
Definition GetIndexMul (shape : list N) : list N := fst (index_mul_go shape).

(** tools/tools.go:29-36 GetDataSize: the same running product. *)
Fixpoint GetDataSize (shape : list N) : N :=
  match shape with
  | [] => 1%N
  | s :: rest => umul (GetDataSize rest) s
  end.

(** tools/tools.go:55-59: the range check loop of GetIndex; returns the first
    offending coordinate. [at_] is the loop counter. *)
Fixpoint check_range (at_ : N) (shape index : list N) : option gerr :=
  match shape, index with
  | s :: shape', i :: index' =>
      if (s <=? i)%N then Some (EIndexRange i at_ s)
      else check_range (at_ + 1)%N shape' index'
  | _, _ => None
  end.

(** tools/tools.go:61-64: the accumulation loop of GetIndex. *)
Definition dot_index (index mul : list N) : N :=
  fold_left (fun ind im => uadd ind (umul (fst im) (snd im))) (zip index mul) 0%N.

(** tools/tools.go:38-67 GetIndex. A wrong number of indices hits
    [panic("kkk")] (line 47), not the error below it. *)
Definition GetIndex (mul shape index : list N) : res N :=
  if negb (length mul =? length shape) then Err EInternalDims
  else if negb (length shape =? length index) then Panic
  else match check_range 0%N shape index with
       | Some e => Err e
       | None => Ok (dot_index index mul)
       end.

(** tools/tools.go:69-78 ReverseIndex. Dividing by a zero stride panics, as
    does [mul[i]] when [mul] is shorter than [shape]. *)
Fixpoint reverse_go (mul : list N) (n : nat) (index : N) : res (list N) :=
  match n with
  | O => Ok []
  | S n' =>
      match mul with
      | [] => Panic
      | m :: mul' =>
          if (m =? 0)%N then Panic
          else res_bind (reverse_go mul' n' (index mod m)%N)
                 (fun r => Ok ((index / m)%N :: r))
      end
  end.
Definition ReverseIndex (mul shape : list N) (index : N) : res (list N) :=
  reverse_go mul (length shape) index.

(** tools/tools.go:80-88 GetInvertedIndex: ind[i] = index[size-1-i]. *)
Definition GetInvertedIndex (index : list N) : list N :=
  map (fun i => nth (length index - 1 - i) index 0%N) (range (length index)).

(** tools/tools.go:90-100 Equals: -2 for different ranks, the first differing
    position, or -1. *)
Fixpoint equals_go (i : Z) (s1 s2 : list N) : Z :=
  match s1, s2 with
  | a :: s1', b :: s2' => if (b =? a)%N then equals_go (i + 1)%Z s1' s2' else i
  | _, _ => (-1)%Z
  end.
Definition Equals (s1 s2 : list N) : Z :=
  if negb (length s1 =? length s2) then (-2)%Z else equals_go 0 s1 s2.

(** tools/tools.go:102-116 GetEqShapeErr; [s1[e]], [s2[e]] are in range there. *)
Definition GetEqShapeErr (s1 s2 : list N) : option gerr :=
  let e := Equals s1 s2 in
  if (e =? -2)%Z then Some (EShapeRank (length s1) (length s2))
  else if (0 <=? e)%Z then
    Some (EShapeAt (nth (Z.to_nat e) s1 0%N) (nth (Z.to_nat e) s2 0%N) (Z.to_nat e))
  else None.

Section Math.
Context {T : Type} `{Num T}.

(** tools/math.go:8-14 Sum: starts from 0. *)
Definition tools_Sum (args : list T) : T :=
  fold_left (fun sum a => nadd sum a) args nzero.

(** tools/math.go:16-22 Avg: integer types divide by zero when empty. *)
Definition tools_Avg (args : list T) : option T :=
  ndiv (fold_left (fun sum a => nadd sum a) args nzero) (nofN (ulen args)).

(** tools/math.go:24-32 Max: args[0] panics on an empty slice. *)
Definition tools_Max (args : list T) : option T :=
  match args with
  | [] => None
  | a :: r => Some (fold_left (fun mx x => if nltb mx x then x else mx) r a)
  end.

(** tools/math.go:34-42 Min: [min > args[i]] is [args[i] < min]. *)
Definition tools_Min (args : list T) : option T :=
  match args with
  | [] => None
  | a :: r => Some (fold_left (fun mn x => if nltb x mn then x else mn) r a)
  end.
End Math.
