(** * P_Str: the texts of shapes, tensors and models (claims C88-C94) *)
From Coq Require Import Ascii String.
From Verif Require Import Base Num NumIntS ModelTools ModelOps ModelTensor ModelGraph ModelLayer ModelModel ModelFrom ModelStr Spec Denote ObjSpec NetSpec FwdSpec FwdNet FwdChain FwdScript FwdClaims BwdSpec TrnSpec TrnScript TrnProg TrnTotal TrnMain StrSpec StrProofs StrChain StrTwice.
From Coq Require Import Lia.

(** ** C88: numbers and shapes *)
Theorem C88_number n : is_decimal n (dec n).
Proof. exact (dec_decimal n). Qed.
Theorem C88_shape sh : ShapeStr sh = tx "[" ++ joined (tx ", ") (map dec sh) ++ tx "]" /\ ints (ShapeStr sh) = map Z.of_N sh.
Proof. exact (shape_claim sh). Qed.
Theorem C88_apart a b : ShapeStr a = ShapeStr b -> a = b.
Proof. exact (shape_inj a b). Qed.
Print Assumptions C88_number.
Print Assumptions C88_shape.
Print Assumptions C88_apart.
Example C88_case : ShapeStr [3; 0; 120]%N = tx "[3, 0, 120]" /\ ShapeStr [] = tx "[]".
Proof. split; vm_compute; reflexivity. Qed.

(** ** C89: tensors *)
Section Tensors.
Context {T : Type} `{Num T}.
(** [show]: what fmt.Sprint makes of a number. *)
Theorem C89_tensor show (s : tst T) p v : holds s p v ->
  MatString show p s = (Ok (tx "<Mat (dims: " ++ dec (N.of_nat (length (vsh v))) ++ tx ", len: " ++ dec (N.of_nat (length (vdata v))) ++ tx ", shape: " ++
    ShapeStr (vsh v) ++ tx ") => [" ++ joined (tx ", ") (map show (vdata v)) ++ tx "]>"), s).
Proof. intros Hh. rewrite (mat_claim show s p v Hh). unfold mat_text. rewrite (proj1 (shape_claim (vsh v))), <- !app_assoc. reflexivity. Qed.
(** Integers are written in decimal notation, so the text says what the tensor
    is. *)
Theorem C89_integers (f : T -> Z) (s : tst T) p v : holds s p v -> exists t, MatString (fun x => decZ (f x)) p s = (Ok t, s) /\
  ints t = Z.of_nat (length (vsh v)) :: Z.of_nat (length (vdata v)) :: map Z.of_N (vsh v) ++ map f (vdata v).
Proof. intros Hh. eexists. split; [exact (mat_claim _ s p v Hh)|]. apply int_text. Qed.
Theorem C89_apart (f : T -> Z) (s : tst T) p q v w t : (forall x y, f x = f y -> x = y) -> holds s p v -> holds s q w ->
  MatString (fun x => decZ (f x)) p s = (Ok t, s) -> MatString (fun x => decZ (f x)) q s = (Ok t, s) -> v = w.
Proof.
  intros Hf Hv Hw Ep Eq. rewrite (mat_claim _ s p v Hv) in Ep. rewrite (mat_claim _ s q w Hw) in Eq. apply (int_inj f v w Hf). congruence.
Qed.

(** ** C90: the summary of a chain of layers *)
(** [s_summary late cs]: the first line, a line for each layer from the input on,
    the last line (StrChain.v). [number_of late]: StrSpec.v. *)
Theorem C90_summary late rnd (s : lst T) m0 ks cs osh : is_chain (length (lays s)) m0 ks cs osh -> counts_up (T:=T) (2 * (length (lays s) + S (length ks)) + 1) -> tallies (T:=T) (length cs) ->
  exists par, starts rnd (in_of m0) par cs /\
    forall acts st os, thistory (in_of m0) osh cs (MkT [] par (still par) every) acts st os ->
      exists s' M tids ix, tprogram rnd m0 ks acts s = (Ok (seq (length (lays s)) (S (length ks)), (M, tids, os)), s') /\
        numbered late s' M ix /\ MString ix M s' = (Ok (s_summary late cs), s').
Proof. exact (summary_claim late rnd s m0 ks cs osh). Qed.
Theorem C90_lines late (cs : list (clay T)) : lines (s_summary late cs) = length cs + 2.
Proof. exact (lines_summary late cs). Qed.

(** ** C91: layers used twice are listed twice *)
Theorem C91_refuted ix (S : lst T) n fuel : tower S n -> n < fuel -> exists t, PushToString ix fuel n S = (Ok t, S) /\ lines t = 2 ^ Datatypes.S n - 1.
Proof. exact (tower_lines ix S n fuel). Qed.

(** ** C94: the numbers of layers *)
(** When Go reads Index after PreBuild, a layer's number is the number of layers
    below it. *)
Theorem C94_late c (cs : list (clay T)) : number_of true (c :: cs) = N.of_nat (length cs).
Proof. exact (number_late cs c). Qed.
(** When Go reads it before, a layer above a layer with parameters has number 1. *)
Theorem C94_refuted c q (cs : list (clay T)) : c_par q = true -> number_of false (c :: q :: cs) = 1%N.
Proof. intros Hq. cbn [number_of]. rewrite Hq. reflexivity. Qed.
End Tensors.
Print Assumptions C89_tensor.
Print Assumptions C89_integers.
Print Assumptions C89_apart.
Print Assumptions C90_summary.
Print Assumptions C90_lines.
Print Assumptions C91_refuted.
Print Assumptions C94_late.
Print Assumptions C94_refuted.

(** ** Concrete cases: 32-bit integers, identity activation *)
Section Cases.
#[local] Existing Instance NumS32.
Definition gi (x : Z) : intw 32 := NumIntS.mk 32 eq_refl x.
Definition gact1 : activation (intw 32) := MkAct (fun x => x) (fun _ => gi 1).
Definition grnd (c k : nat) : intw 32 := gi (Z.of_nat (c + k) - 2).
Definition gs0 : lst (intw 32) := MkL (MkSt [] [] []) [] 0.
Definition gtext : LM (intw 32) text -> option text := fun c => match fst (c gs0) with Ok t => Some t | _ => None end.
Definition glines (l : list string) : text := flat_map (fun x => tx x ++ newline) l.

Example C89_case :
  gtext (a <~ liftT (NewFromValues (map gi [1; -20; 0; 4]%Z) [2; 2]%N) ; liftT (MatString (fun x => decZ (ival x)) a)) =
  Some (tx "<Mat (dims: 2, len: 4, shape: [2, 2]) => [1, -20, 0, 4]>").
Proof. vm_compute. reflexivity. Qed.

(** The summary of model [M] with numbers as Go gives them when Index is read
    late, or early. *)
Definition gsum (late : bool) (M : model (intw 32)) : LM (intw 32) text := fun s =>
  match m_last M with
  | Some top => match BuildIx late (S (length (lays s))) (lays s) top no_indices with Some (_, x) => MString (ix_of x) M s | None => (Panic, s) end
  | None => (Panic, s)
  end.
(** An image, a convolution, pooling, flattening and two units (the chain of
    C71, see P_Trn.v for its hypotheses). *)
Definition gm0 : FwdScript.mk (intw 32) := MInput [1; 3; 3]%N.
Definition gks : list (lay1 (intw 32)) := [KConv 1 2 2 1 1 gact1; KPool 2 2; KFlat; KDense 2 gact1].
Definition gcs : list (clay (intw 32)) := match chain_of 0 gm0 gks with Some cs => cs | None => [] end.
Example C90_chain : is_chain 0 gm0 gks gcs [2]%N.
Proof.
  split; [repeat constructor|]. split; [reflexivity|]. split; [|reflexivity]. eexists _, _. split; [reflexivity|]. split; [discriminate|reflexivity].
Qed.
Example C90_counts : counts_up (T:=intw 32) (2 * (0 + S (length gks)) + 1).
Proof. split; [|exists (gi 0), (gi 1); discriminate]. cbn. intros k Hk. do 12 (destruct k as [|k]; [lia || reflexivity|]). lia. Qed.
Example C90_tallies : tallies (T:=intw 32) (length gcs).
Proof. intros k Hk. change (length gcs) with 5 in Hk. do 6 (destruct k as [|k]; [reflexivity|]). lia. Qed.
Example C90_case : s_summary true gcs = glines
  ["<Model => ["; "<Layer[0] => : O[1, 3, 3]>"; "<Layer[1] (0) => Conv2D: O[1, 2, 2]>"; "<Layer[2] (1) => MaxPool: O[1, 1, 1]>";
   "<Layer[3] (2) => Flatten: O[1]>"; "<Layer[4] (3) => Dense: O[2]>"; "]>"]%string.
Proof. vm_compute. reflexivity. Qed.
Example C90_run : gtext (r <~ tprogram grnd gm0 gks [] ; gsum true (fst (fst (snd r)))) = Some (s_summary true gcs).
Proof. vm_compute. reflexivity. Qed.

(** Two layers of a chain with the same number. *)
Definition gks2 : list (lay1 (intw 32)) := [KDense 2 gact1; KDense 1 gact1].
Example C94_case : gtext (r <~ tprogram grnd (MInput [2]%N) gks2 [] ; gsum false (fst (fst (snd r)))) = Some (glines
  ["<Model => ["; "<Layer[0] => : O[2]>"; "<Layer[1] (0) => Dense: O[2]>"; "<Layer[1] (1) => Dense: O[1]>"; "]>"]%string).
Proof. vm_compute. reflexivity. Qed.

(** Two joins: three layers, seven lines for them. *)
Definition gjoins : LM (intw 32) (model (intw 32)) :=
  k <~ NewInput [1]%N ; a <~ NewConcat (Some k) (Some k) 0 ; b <~ NewConcat (Some a) (Some a) 0 ; Compile grnd (FromInOut k b).
Example C91_tower : match gjoins gs0 with (Ok _, s) => length (lays s) = 3 /\ tower s 2 | _ => False end.
Proof.
  vm_compute. split; [reflexivity|]. split; [eexists; repeat split; eexists _, _; split; reflexivity|].
  intros k Hk. destruct k as [|[|k]]; [| |lia]; (eexists _, _; repeat split; eexists _, _; split; reflexivity).
Qed.
Example C91_case : gtext (m <~ gjoins ; gsum true m) = Some (glines
  ["<Model => ["; "<Layer[0] => : O[1]>"; "<Layer[0] => : O[1]>"; "<Layer[1] (0, 0) => Concat: I[2] O[2]>";
   "<Layer[0] => : O[1]>"; "<Layer[0] => : O[1]>"; "<Layer[1] (0, 0) => Concat: I[2] O[2]>"; "<Layer[2] (1, 1) => Concat: I[4] O[4]>"; "]>"]%string).
Proof. vm_compute. reflexivity. Qed.

(** ** C92: a summary needs every layer's output *)
Definition gpanics {A} (r : res A * lst (intw 32)) : bool := match fst r with Panic => true | _ => false end.
(** A model that is not compiled; two compiled models put together. *)
Theorem C92_refuted : exists (early joined : LM (intw 32) (model (intw 32))),
  gpanics (early gs0) = false /\ gpanics (joined gs0) = false /\
  forall ix, gpanics ((m <~ early ; MString ix m) gs0) = true /\ gpanics ((m <~ joined ; MString ix m) gs0) = true.
Proof.
  exists (k <~ NewInput [1]%N ; MPush NewModel k),
    (a <~ NewInput [1]%N ; m1 <~ MPush NewModel a ; b <~ NewInput [1]%N ; m2 <~ MPush NewModel b ; r <~ FromModels grnd [m1; m2] ; mret (snd r)).
  split; [vm_compute; reflexivity|]. split; [vm_compute; reflexivity|]. intros ix. split; vm_compute; reflexivity.
Qed.
Print Assumptions C92_refuted.

(** ** C93: kinds of layers that the summary does not tell apart *)
Definition gimage (l : LM (intw 32) nat) : LM (intw 32) (model (intw 32)) :=
  k <~ NewInput [1; 2; 2]%N ; m <~ MPush NewModel k ; a <~ l ; m <~ MPush m a ; Compile grnd m.
Theorem C93_refuted : exists (a b : LM (intw 32) nat) t,
  gtext (m <~ gimage a ; gsum true m) = Some t /\ gtext (m <~ gimage b ; gsum true m) = Some t /\
  option_map lkind_of (lays (snd (a gs0)) !! 0) = Some (LConv2D 1 1 1 1 1) /\ option_map lkind_of (lays (snd (b gs0)) !! 0) = Some (LDeconv2D 1 1 1 1 1).
Proof.
  exists (NewConv2D 1 1 1 gact1), (NewDeconv2D 1 1 1 gact1). eexists. split; [vm_compute; reflexivity|]. split; [vm_compute; reflexivity|]. split; reflexivity.
Qed.
Print Assumptions C93_refuted.
End Cases.
(** Pooling and up-sampling layers carry the same word as well. *)
Theorem C93_pooling_refuted {T} `{Num T} a b c d : type_of (LMaxPool2D (T:=T) a b) = type_of (LUpSampling2D (T:=T) c d).
Proof. reflexivity. Qed.
Print Assumptions C93_pooling_refuted.
