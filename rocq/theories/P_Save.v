(** * P_Save: theorems about tensors on files (claims C27-C30) *)
From Verif Require Import Base Num ModelTools ModelOps ModelTensor Spec DenoteDec ObjSpec ModelIO IOSpec ModelCodec IOProofs IOCodec NumIntS.
From Coq Require Import Init.Byte.

Section P.
Context {T : Type} `{Num T}.

(** ** C27: what Save writes, Load reads back *)
Theorem C27_round (c : codec T) (s s' : tst T) p q v u rest :
  codec_ok c -> holds s p v -> holds s' q u -> unshared s' q -> length (vdata u) = length (vdata v) ->
  exists bytes, Save (Some c) p (MkW [] None, s) = (Ok tt, (MkW bytes None, s)) /\ length bytes = length (vdata v) * cwidth c /\
  exists s2, Load (Some c) q (bytes ++ rest, s') = (Ok tt, (rest, s2)) /\ holds s2 q (V (vsh u) (vdata v)) /\ tens s2 = tens s' /\ ctx s2 = ctx s' /\
    (forall q' u', apart s' q q' -> holds s' q' u' -> holds s2 q' u').
Proof. exact (round_claim c s s' p q v u rest). Qed.
(** The file, also when the writer takes only [k] more bytes. *)
Theorem C27_file (c : codec T) (s : tst T) p v w : holds s p v ->
  Save (Some c) p (MkW w None, s) = (Ok tt, (MkW (w ++ dump c (vdata v)) None, s)) /\
  forall k, Save (Some c) p (MkW w (Some k), s) =
    (if length (dump c (vdata v)) <=? k then Ok tt else Err (ELayer 90), (MkW (w ++ take k (dump c (vdata v))) (Some (k - length (dump c (vdata v)))), s)).
Proof. exact (file_claim c s p v w). Qed.

(** ** C28: files that end early *)
Theorem C28_truncated (c : codec T) (s : tst T) p v r : codec_ok c -> holds s p v -> unshared s p -> length r < length (vdata v) * cwidth c ->
  let q := length r / cwidth c in
  exists e s' d, Load (Some c) p (r, s) = (Err e, ([], s')) /\ holds s' p (V (vsh v) (d ++ drop q (vdata v))) /\ length d = q /\ q < length (vdata v) /\
    (forall i, i < q -> d !! i = Some (cdec c (take (cwidth c) (drop (i * cwidth c) r)))) /\
    tens s' = tens s /\ ctx s' = ctx s /\ (forall q' u', apart s p q' -> holds s q' u' -> holds s' q' u').
Proof. exact (truncated_claim c s p v r). Qed.

(** ** C29: SaveFull and LoadFull fail on every tensor, and do nothing *)
Theorem C29_never (cod : option (codec T)) (s : tst T) p v w r : holds s p v ->
  SaveFull cod p (w, s) = (Err EInvalidType, (w, s)) /\ LoadFull cod p (r, s) = (Err EInvalidType, (r, s)).
Proof. exact (full_claim cod s p v w r). Qed.
End P.

(** ** C30: every number type but int
    [N]: the operations of the type, which do not matter here. *)
Theorem C30_types_partial (g : gotype) (N : Num (gocar g)) : g <> Gint ->
  exists c, gocodec g = Some c /\ codec_ok c /\
    forall (s s' : tst (gocar g)) p q v u rest, holds s p v -> holds s' q u -> unshared s' q -> length (vdata u) = length (vdata v) ->
    exists bytes, Save (gocodec g) p (MkW [] None, s) = (Ok tt, (MkW bytes None, s)) /\ length bytes = length (vdata v) * cwidth c /\
    exists s2, Load (gocodec g) q (bytes ++ rest, s') = (Ok tt, (rest, s2)) /\ holds s2 q (V (vsh u) (vdata v)).
Proof. exact (types_claim g N). Qed.
Theorem C30_int (N : Num (gocar Gint)) (s : tst (gocar Gint)) p v w r : holds s p v -> vdata v <> [] ->
  Save (gocodec Gint) p (w, s) = (Err EInvalidType, (w, s)) /\ Load (gocodec Gint) p (r, s) = (Err EInvalidType, (r, s)).
Proof. exact (refused_claim s p v w r). Qed.
Print Assumptions C27_round.
Print Assumptions C27_file.
Print Assumptions C28_truncated.
Print Assumptions C29_never.
Print Assumptions C30_types_partial.
Print Assumptions C30_int.

Section Cases.
(** Three numbers in a tensor of shape 3 whose scalars lie in no order, and a
    tensor of shape 1 by 3 with other numbers. *)
Definition i16 (z : Z) : intw 16 := NumIntS.mk 16 eq_refl z.
#[local] Instance NumS16 : Num (intw 16) := NumIntS 16 eq_refl.
Definition st1 : tst (intw 16) := MkSt (map i16 [258; -2; 7]%Z) [MkNode KMat (MkMat [3]%N [1]%N [Some 2; Some 0; Some 1] false)] [].
Definition st2 : tst (intw 16) := MkSt (map i16 [0; 1; 2; 3; 4]%Z) [MkNode KMat (MkMat [1; 3]%N [3; 1]%N [Some 4; Some 2; Some 0] false)] [].
Definition c16 := int_codec 2 16 eq_refl.
Example C27_holds : codec_ok c16 /\ holds st1 0 (V [3]%N (map i16 [7; 258; -2]%Z)) /\ holds st2 0 (V [1; 3]%N (map i16 [4; 2; 0]%Z)) /\ unshared st2 0.
Proof.
  split; [apply int_codec_ok; [lia|reflexivity]|]. split; [|split].
  - eexists. split; [reflexivity|]. split; [apply wf_matb_sound; reflexivity|reflexivity].
  - eexists. split; [reflexivity|]. split; [apply wf_matb_sound; reflexivity|reflexivity].
  - unfold unshared. cbn. repeat constructor; rewrite ?elem_of_cons, ?elem_of_nil; intuition discriminate.
Qed.
Example C27_case : Save (Some c16) 0 (MkW [] None, st1) = (Ok tt, (MkW [x07; x00; x02; x01; xfe; xff] None, st1)).
Proof. vm_compute. reflexivity. Qed.
Example C27_back : (fun r => (fst r, fst (snd r), map ival (mem (snd (snd r))))) (Load (Some c16) 0 ([x07; x00; x02; x01; xfe; xff; x55], st2)) = (Ok tt, [x55], [-2; 1; 258; 3; 7]%Z).
Proof. vm_compute. reflexivity. Qed.
Example C27_full : Save (Some c16) 0 (MkW [x11] (Some 3), st1) = (Err (ELayer 90), (MkW [x11; x07; x00; x02] (Some 0), st1)).
Proof. vm_compute. reflexivity. Qed.
(** the file ends in the middle of the second number *)
Example C28_case : (fun r => (fst r, fst (snd r), map ival (mem (snd (snd r))))) (Load (Some c16) 0 ([x07; x00; x02], st2)) = (Err EUnexpectedEOF, [], [0; 1; 2; 3; 7]%Z).
Proof. vm_compute. reflexivity. Qed.

Theorem C29_refuted : exists (s : tst (intw 16)) p v, holds s p v /\ forall w, SaveFull (Some c16) p (w, s) = (Err EInvalidType, (w, s)).
Proof. exists st1, 0, (V [3]%N (map i16 [7; 258; -2]%Z)). split; [apply C27_holds|]. intros w. apply (C29_never (Some c16) st1 0 _ w [] (proj1 (proj2 C27_holds))). Qed.
#[local] Instance NumS64 : Num (intw 64) := NumIntS 64 eq_refl.
Definition st3 : tst (gocar Gint) := MkSt [NumIntS.mk 64 eq_refl 5] [MkNode KMat (MkMat [1]%N [1]%N [Some 0] false)] [].
Theorem C30_refuted : exists (s : tst (gocar Gint)) p v, holds s p v /\ length (vdata v) = 1 /\ forall w, Save (gocodec Gint) p (w, s) = (Err EInvalidType, (w, s)).
Proof.
  exists st3, 0, (V [1]%N [NumIntS.mk 64 eq_refl 5]).
  assert (Hh : holds st3 0 (V [1]%N [NumIntS.mk 64 eq_refl 5])).
  { eexists. split; [reflexivity|]. split; [apply wf_matb_sound; reflexivity|reflexivity]. }
  split; [exact Hh|]. split; [reflexivity|]. intros w. apply (C30_int NumS64 st3 0 _ w [] Hh). discriminate.
Qed.
(** 1.5 and minus zero as float32 *)
Example C30_case : cenc f32_codec (cdec f32_codec [x00; x00; xc0; x3f]) = [x00; x00; xc0; x3f] /\ cenc f32_codec (cdec f32_codec [x00; x00; x00; x80]) = [x00; x00; x00; x80].
Proof. vm_compute. auto. Qed.
End Cases.
Print Assumptions C29_refuted.
Print Assumptions C30_refuted.
