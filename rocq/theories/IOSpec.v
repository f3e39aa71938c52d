(** * IOSpec: what files contain *)
From Verif Require Import Base Num Spec.
From Verif Require Import ModelIO.
From Coq Require Import Init.Byte Strings.Byte.

(** A codec that does not lose anything; [binary.Size] is the number of bytes. *)
Record codec_ok {T} (c : codec T) : Prop := {
  ck_pos : 0 < cwidth c;
  ck_len : forall x, length (cenc c x) = cwidth c;
  ck_dec : forall x, cdec c (cenc c x) = x;
}.

Section IOSpec.
Context {T : Type} (c : codec T).
(** The bytes of a list of numbers, one after the other. *)
Definition dump (l : list T) : list byte := concat (map (cenc c) l).
(** What the numbers [d] become when the bytes [r] are read into them: a number
    whose bytes are not all there keeps its value. *)
Fixpoint fill (r : list byte) (d : list T) : list T :=
  match d with
  | [] => []
  | x :: d' => if length r <? cwidth c then x :: d' else cdec c (take (cwidth c) r) :: fill (drop (cwidth c) r) d'
  end.
End IOSpec.
