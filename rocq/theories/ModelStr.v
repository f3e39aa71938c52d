(** * ModelStr: texts made by String methods and by the progress display

    Characters are bytes written as [ascii]; strings are lists of them. *)
From Coq Require Import Ascii String.
From Verif Require Import Base Num ModelTools ModelOps ModelTensor ModelGraph ModelLayer ModelModel.

Definition text : Type := list ascii.
Definition tx (s : string) : text := list_ascii_of_string s.
Definition newline : text := [ascii_of_nat 10].

(** fmt.Sprint and %d of an unsigned number: decimal digits. *)
Definition digit (d : N) : ascii := ascii_of_N (48 + d).
Fixpoint digits (fuel : nat) (n : N) (acc : text) : text :=
  match fuel with
  | O => acc
  | S fuel' => let acc' := digit (n mod 10) :: acc in if (n / 10 =? 0)%N then acc' else digits fuel' (n / 10) acc'
  end.
Definition dec (n : N) : text := digits (S (N.to_nat (N.size n))) n [].
(** fmt.Sprint of a signed number. *)
Definition decZ (z : Z) : text := if (z <? 0)%Z then tx "-" ++ dec (Z.abs_N z) else dec (Z.to_N z).

(** The loop of tools.go:121-126 and tensor_mat.go:135-140: a comma behind every
    item but the last *)
Fixpoint commas (l : list text) : text :=
  match l with
  | [] => []
  | [a] => a
  | a :: l' => a ++ tx ", " ++ commas l'
  end.
(** tools.go:118-129 ShapeStr *)
Definition ShapeStr (s : list N) : text := tx "[" ++ commas (map dec s) ++ tx "]".

Section Str.
Context {T : Type} `{Num T}.

(** tensor_mat.go:123-142 String; [show] is what fmt.Sprint makes of a number.
    A nil operand panics. *)
Definition MatString (show : T -> text) (p : nat) : TM T text :=
  mp <~ get_mat p ;
  vs <~ mmap (operands mp) rdM ;
  mret (tx "<Mat (dims: " ++ dec (N.of_nat (length (shape mp))) ++ tx ", len: " ++ dec (N.of_nat (length (operands mp))) ++
        tx ", shape: " ++ ShapeStr (shape mp) ++ tx ") => [" ++ commas (map show vs) ++ tx "]>").

(** The field Type as the constructors set it: dense.go:20,33, conv2d.go:29,46,
    deconv2d.go:29,46, max_pool_2d.go:22,31, up_sampling_2d.go:22,31,
    concat.go:28, flatten.go:16, norm.go:20,29, softmax.go:18; NewInput and
    NewSubTensor do not set it. *)
Definition type_of (k : lkind T) : text :=
  match k with
  | LInput => []
  | LDense => tx "Dense"
  | LConv2D _ _ _ _ _ => tx "Conv2D"
  | LDeconv2D _ _ _ _ _ => tx "Conv2D"
  | LMaxPool2D _ _ => tx "MaxPool"
  | LUpSampling2D _ _ => tx "MaxPool"
  | LConcat _ _ _ => tx "Concat"
  | LFlatten => tx "Flatten"
  | LNorm _ _ => tx "Norm"
  | LSoftMax => tx "SoftMax"
  | LSubTensor _ _ _ => []
  end.

(** ** The field Index
    What the Build methods (see LBuild in ModelLayer.v) do with it: base.go:81-97,
    concat.go:33-57, the other methods return what PreBuild made of it. Dense,
    Conv2D and Deconv2D write [return p.Index, p.PreBuild()] (dense.go:47,
    conv2d.go:63, deconv2d.go:63); Go does not say whether Index is read before
    or after the call: [late] says after. Indices are numbers of layers in a row,
    they do not reach 2^64. *)
Record indices : Type := MkIx { ix_built : nat -> bool; ix_of : nat -> N }.
Definition no_indices : indices := MkIx (fun _ => false) (fun _ => 0%N).
Definition mark (id : nat) (x : indices) : indices := MkIx (fun j => if j =? id then true else ix_built x j) (ix_of x).
Definition set_ix (id : nat) (i : N) (x : indices) : indices := MkIx (ix_built x) (fun j => if j =? id then i else ix_of x j).
Definition one_line (k : lkind T) : bool := match k with LDense | LConv2D _ _ _ _ _ | LDeconv2D _ _ _ _ _ => true | _ => false end.
Fixpoint BuildIx (late : bool) (fuel : nat) (ls : list (layer T)) (id : nat) (x : indices) : option (N * indices) :=
  match fuel with
  | O => None
  | S fuel' =>
      l ← ls !! id;
      if ix_built x id then Some (ix_of x id, x)
      else
        let x0 := mark id x in
        match lkind_of l with
        | LConcat l1 l2 _ =>
            a ← l1; b ← l2;
            ra ← BuildIx late fuel' ls a x0;
            rb ← BuildIx late fuel' ls b (snd ra);
            let i := (if fst rb <? fst ra then fst ra + 1 else fst rb + 1)%N in
            Some (i, set_ix id i (snd rb))
        | k =>
            match lpre l with
            | Some q =>
                r ← BuildIx late fuel' ls q x0;
                let i := (fst r + 1)%N in
                Some (if one_line k && negb late then ix_of x0 id else i, set_ix id i (snd r))
            | None => Some (ix_of x0 id, x0)
            end
        end
  end.

(** ** Summaries of layers and models *)
(** base.go:241-266, concat.go:145-160 PushToString; the text is appended to the
    Builder, here it is returned. Nothing ever sets the field [printed] to true
    (base.go:234, concat.go:139 set it to false), so the test of base.go:242 never
    holds. A nil Output panics. *)
Fixpoint PushToString (ix : nat -> N) (fuel : nat) (id : nat) : LM T text :=
  match fuel with
  | O => mdiverge
  | S fuel' =>
      l <~ getL id ;
      match lkind_of l with
      | LConcat l1 l2 _ =>
          a <~ the l1 ; ta <~ PushToString ix fuel' a ;
          b <~ the l2 ; tb <~ PushToString ix fuel' b ;
          i <~ the (lten l FInput) ; ish <~ shapeT i ;
          o <~ the (lten l FOutput) ; osh <~ shapeT o ;
          mret (ta ++ tb ++ tx "<Layer[" ++ dec (ix id) ++ tx "] (" ++ dec (ix a) ++ tx ", " ++ dec (ix b) ++ tx ") => " ++
                type_of (lkind_of l) ++ tx ": I" ++ ShapeStr ish ++ tx " O" ++ ShapeStr osh ++ tx ">" ++ newline)
      | _ =>
          match lpre l with
          | Some q =>
              t <~ PushToString ix fuel' q ;
              o <~ the (lten l FOutput) ; osh <~ shapeT o ;
              mret (t ++ tx "<Layer[" ++ dec (ix id) ++ tx "] (" ++ dec (ix q) ++ tx ") => " ++
                    type_of (lkind_of l) ++ tx ": O" ++ ShapeStr osh ++ tx ">" ++ newline)
          | None =>
              o <~ the (lten l FOutput) ; osh <~ shapeT o ;
              mret (tx "<Layer[" ++ dec (ix id) ++ tx "] => " ++ type_of (lkind_of l) ++ tx ": O" ++ ShapeStr osh ++ tx ">" ++ newline)
          end
      end
  end.
(** base.go:268-275 String; the concrete layers do not override it *)
Definition LString (ix : nat -> N) (id : nat) : LM T text :=
  l <~ getL id ;
  o <~ the (lten l FOutput) ; osh <~ shapeT o ;
  mret (tx "<Layer[" ++ dec (ix id) ++ tx "] => " ++ type_of (lkind_of l) ++ tx ": O" ++ ShapeStr osh ++ tx ">").
(** model.go:402-410 String with model_layer.go:84-90; ResetPrinted only sets
    [printed], it panics when the last layer is nil *)
Definition MString (ix : nat -> N) (m : model T) : LM T text :=
  last <~ the (m_last m) ;
  t <~ with_fuel (fun n => PushToString ix n last) ;
  mret (tx "<Model => [" ++ newline ++ t ++ tx "]>" ++ newline).
End Str.
