(** * P_Show: the progress display of Train (claims C95-C97)

    [fixed p x]: a float64 with p decimals (ModelShow.v). [s_step q epochs batch i
    j loss]: a line with q hundredths of a percent, columns as wide as the largest
    entry; [s_end]: the last line (ShowStep.v). *)
From Coq Require Import ZArith Reals Ascii String.
From Flocq Require Import IEEE754.BinarySingleNaN IEEE754.Binary IEEE754.Bits.
From Verif Require Import Base Num NumIntS ModelTools ModelOps ModelTensor ModelGraph ModelLayer ModelModel ModelImg ImgFloat ModelStr ModelShow StrSpec ShowProofs ShowStep.
From Coq Require Import Lia.

(** ** C95: the lines of the display *)
(** The percentage never goes down, ends at 100.00 and is right up to rounding;
    the bar fills the rest of the terminal. *)
Theorem C95_steps odd width epochs batch : (epochs * batch < 2 ^ 64)%N -> (width <= 2 ^ 53)%Z -> (0 < epochs)%N -> (0 < batch)%N -> let n := (epochs * batch)%N in
  exists q : N -> N, (forall k k', 1 <= k -> k <= k' -> k' <= n -> q k <= q k')%N /\ q n = 10000%N /\
    (forall k, (1 <= k <= n)%N -> (Rabs (IZR (Z.of_N (q k)) - 10000 * (IZR (Z.of_N k) / IZR (Z.of_N n))) <= 501 / 1000)%R) /\
    forall i j loss, (i < epochs)%N -> (1 <= j <= batch)%N -> let line := s_step (q (i * batch + j)%N) epochs batch i j (fixed 8 loss) in
      exists bar, ShowStep odd width epochs batch i j loss = Ok (line ++ tx " " ++ bar) /\ len bar = Z.max (width - len line - 1) 0.
Proof. intros Hf Hw. exact (steps_claim odd width epochs batch Hf Hw). Qed.
Theorem C95_end odd width epochs loss : (width <= 2 ^ 53)%Z ->
  exists bar, ShowEnd odd width epochs loss = Ok (s_end epochs (fixed 6 loss) ++ tx " " ++ bar ++ newline) /\ len bar = Z.max (width - len (s_end epochs (fixed 6 loss)) - 1) 0.
Proof. exact (end_claim odd width epochs loss). Qed.
(** The decimals are the exact value, rounded to the nearest, ties to even. *)
Theorem C95_decimals p x : fin64 x = true -> (0 < R64 x)%R -> fixed p x = point p (Z.to_N (Generic_fmt.Znearest (fun z => negb (Z.even z)) (R64 x * IZR (10 ^ Z.of_nat p)))).
Proof. exact (fixed_pos p x). Qed.
Theorem C95_point q : ints (point 2 q) = [Z.of_N (q / 100); Z.of_N (q mod 100)].
Proof. unfold ints. rewrite <- (app_nil_r (point 2 q)). exact (point_reads q [] I). Qed.
Print Assumptions C95_steps.
Print Assumptions C95_end.
Print Assumptions C95_decimals.
Print Assumptions C95_point.
Definition shown (r : res text) : option text := match r with Ok t => Some t | _ => None end.
Definition three_halves : binary64 := f64_div (f64_of_Z 3) (f64_of_Z 2).
Example C95_case : shown (ShowStep (fun _ => 0%Z) 60 20 4 9 3 three_halves) =
  Some (carriage ++ tx "[ 48.75%]  9 / 20 => <3 / 4> 1.50000000 [########         ]") /\
  shown (ShowEnd (fun _ => 0%Z) 40 20 three_halves) = Some (carriage ++ tx "[100.00%] 20 / 20 => 1.500000 [#######]" ++ newline).
Proof. split; vm_compute; reflexivity. Qed.
Example C95_ties : fixed 2 (f64_div (f64_of_Z 1) (f64_of_Z 8)) = tx "0.12" /\ fixed 2 (f64_div (f64_of_Z (-3)) (f64_of_Z 8)) = tx "-0.38" /\ fixed 2 (f64_of_Z 0) = tx "0.00".
Proof. repeat split; vm_compute; reflexivity. Qed.

(** ** C96: the display does not disturb training *)
Section Same.
Context {T : Type} `{Num T}.
Theorem C96_same_partial odd width shown loss loss_end picks (m : model T) xs ys epochs batch alpha mo s :
  (N.of_nat epochs * N.of_nat (if (batch =? 0)%nat then length xs else batch) < 2 ^ 64)%N -> (width <= 2 ^ 53)%Z ->
  TrainShown odd width shown loss loss_end picks m xs ys epochs batch alpha mo s = Train picks m xs ys epochs batch alpha mo s.
Proof. exact (same_claim odd width shown loss loss_end picks m xs ys epochs batch alpha mo s). Qed.
End Same.
(** With more steps than 2^64 the percentage needs more room than there is and
    strings.Repeat panics: step 1 of epoch 10 of 2^63 + 1 with 2 steps each. *)
Theorem C96_refuted : exists epochs batch i j, (epochs < 2 ^ 64)%N /\ (batch < 2 ^ 64)%N /\ (i < epochs)%N /\ (1 <= j <= batch)%N /\
  forall odd width loss, ShowStep odd width epochs batch i j loss = Panic.
Proof.
  exists (2 ^ 63 + 1)%N, 2%N, 10%N, 1%N. do 3 (split; [reflexivity|]). split; [split; discriminate|]. intros odd width loss. unfold ShowStep. cbv zeta.
  assert (E : fixed 2 (f64_mul (progress (2 ^ 63 + 1) 2 10 1) (f64_of_Z 100)) = tx "1050.00") by (vm_compute; reflexivity). rewrite E. reflexivity.
Qed.
Print Assumptions C96_same_partial.
Print Assumptions C96_refuted.

(** ** C97: 100 percent before the end *)
Theorem C97_refuted : exists epochs batch i j, (i < epochs)%N /\ (1 <= j)%N /\ (i * batch + j < epochs * batch)%N /\
  fixed 2 (f64_mul (progress epochs batch i j) (f64_of_Z 100)) = tx "100.00".
Proof. exists 1000%N, 100%N, 999%N, 97%N. do 3 (split; [reflexivity || discriminate|]). vm_compute. reflexivity. Qed.
Print Assumptions C97_refuted.
