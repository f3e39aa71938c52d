(** * ImgSpec: what scaled images should be *)
From Coq Require Import Reals.
From Verif Require Import Base Num Spec.

(** [X] is the cell of [n] that cell [x] of [w] shows: the one at [x*n/w]
    rounded down, or the one before if [x*n/w] is a whole number. *)
Definition samples (n w x X : N) : Prop :=
  X = (x * n / w)%N \/ ((x * n) mod w = 0 /\ X + 1 = x * n / w)%N.

(** Euclidean distance *)
Definition sumsq (l : list (R * R)) : R := foldr (fun ab r => ((fst ab - snd ab) * (fst ab - snd ab) + r)%R) 0%R l.
Definition euclid (a b : list R) : R := R_sqrt.sqrt (sumsq (zip a b)).

(** The mean of four neighbours weighted by how close they are. *)
Definition bilinear (dx dy p1 p2 p3 p4 : R) : R :=
  ((1 - dx) * (1 - dy) * p1 + dx * (1 - dy) * p2 + (1 - dx) * dy * p3 + dx * dy * p4)%R.
(** How far the exact place [x*n/w] is behind cell [X]. *)
Definition behind (n w x X : N) : R := (IZR (Z.of_N x) * IZR (Z.of_N n) / IZR (Z.of_N w) - IZR (Z.of_N X))%R.
