(** * StrSpec: what texts should say

    Reading texts: the numbers in a text, from left to right. *)
From Coq Require Import Ascii String.
From Verif Require Import Base Num Spec NetSpec FwdSpec BwdSpec TrnSpec.

(** The digit a character is. *)
Definition digit_of (c : ascii) : option N := let n := N_of_ascii c in if ((48 <=? n) && (n <=? 57))%N then Some (n - 48)%N else None.
Definition signed (neg : bool) (n : N) : Z := if neg then (- Z.of_N n)%Z else Z.of_N n.
(** [neg]: a minus sign was just seen; [cur]: the number read so far. *)
Fixpoint scan (neg : bool) (cur : option N) (l : list ascii) : list Z :=
  match l with
  | [] => match cur with Some n => [signed neg n] | None => [] end
  | c :: l' =>
      match digit_of c, cur with
      | Some d, Some n => scan neg (Some (10 * n + d)%N) l'
      | Some d, None => scan neg (Some d) l'
      | None, Some n => signed neg n :: scan (Ascii.eqb c "-") None l'
      | None, None => scan (Ascii.eqb c "-") None l'
      end
  end.
Definition ints (l : list ascii) : list Z := scan false None l.
(** The decimal notation of a number: digits, no zero in front. *)
Definition is_decimal (n : N) (l : list ascii) : Prop :=
  ints l = [Z.of_N n] /\ Forall (fun c => digit_of c <> None) l /\ (n = 0%N -> l = ["0"%char]) /\ (n <> 0%N -> head l <> Some "0"%char).

(** Texts with a separator between them. *)
Definition joined (sep : list ascii) (l : list (list ascii)) : list ascii :=
  match l with [] => [] | a :: l' => a ++ flat_map (fun b => sep ++ b) l' end.
(** How many lines a text has. *)
Definition lines (l : list ascii) : nat := length (List.filter (fun c => Ascii.eqb c (ascii_of_nat 10)) l).

Section Chain.
Context {T : Type} `{Num T}.
(** What the summary calls a layer. *)
Definition label (l : option (lspec T)) : string :=
  match l with
  | None => ""
  | Some (SDense _ _) => "Dense"
  | Some (SConv _ _ _ _ _ _) | Some (SDeconv _ _ _ _ _ _) => "Conv2D"
  | Some (SPool _ _) | Some (SUp _ _) => "MaxPool"
  | Some SFlat => "Flatten"
  | Some (SNorm _ _) => "Norm"
  | Some SSoft => "SoftMax"
  | Some (SSub _ _ _) => ""
  end.
(** The number a layer has: how many layers are below it; when Go reads the
    number too early, layers with parameters count as nothing. *)
Fixpoint number_of (late : bool) (cs : list (clay T)) : N :=
  match cs with
  | [] => 0
  | c :: rest => match rest with [] => 0 | q :: _ => (if late || negb (c_par q) then number_of late rest else 0) + 1 end
  end%N.
End Chain.
