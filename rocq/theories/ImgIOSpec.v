(** * ImgIOSpec: what loading and saving images should do *)
From Verif Require Import Base Num Spec ModelImgIO.

(** Red, green, blue and alpha, the channels 0 to 3. *)
Definition chan (c : colour) (d : N) : N := nth (N.to_nat d) [cred c; cgreen c; cblue c; calpha c] 0%N.
(** The colour in column [x] and row [y] of a picture. *)
Definition shown (p : picture) (x y : N) : colour := pat p (pminx p + Z.of_N x) (pminy p + Z.of_N y).
(** The bounds begin at 0. *)
Definition at_origin (p : picture) : Prop := pminx p = 0%Z /\ pminy p = 0%Z.
(** Colours are four numbers up to 65535. *)
Definition colours_ok (p : picture) : Prop := forall x y d, (chan (pat p x y) d <= 65535)%N.
(** A colour of eight bits per channel. *)
Definition eight_bits (c : colour) : Prop := forall d, exists k, (k < 256)%N /\ chan c d = (257 * k)%N.
