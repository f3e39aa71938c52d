(** * StrProofs: texts of numbers, shapes and tensors *)
From Coq Require Import Ascii String.
From Verif Require Import Base Num ModelTools ModelOps ModelTensor ModelStr StrSpec Spec Denote ObjSpec AccessProofs NumIntS.
From Coq Require Import Lia ZifyBool ZifyNat ZifyN.

Lemma digit_read d : (d < 10)%N -> digit_of (digit d) = Some d.
Proof.
  intros Hd. unfold digit_of, digit. rewrite N_ascii_embedding by lia.
  replace ((48 <=? 48 + d) && (48 + d <=? 57))%N with true by lia. f_equal. lia.
Qed.
Lemma scan_digits neg : forall fuel n acc r, (n < 10 ^ N.of_nat fuel)%N -> 0 < fuel -> scan neg None (digits fuel n acc ++ r) = scan neg (Some n) (acc ++ r).
Proof.
  induction fuel as [|f IH]; intros n acc r Hn Hf; [lia|]. cbn [digits].
  assert (Hm : (n mod 10 < 10)%N) by (apply N.mod_lt; lia). pose proof (N.div_mod n 10 ltac:(lia)) as Hdm.
  destruct (n / 10 =? 0)%N eqn:E.
  - cbn [app scan]. rewrite (digit_read _ Hm). do 2 f_equal. lia.
  - rewrite IH.
    + cbn [app scan]. rewrite (digit_read _ Hm). do 2 f_equal. lia.
    + apply N.div_lt_upper_bound; [lia|]. rewrite Nat2N.inj_succ, N.pow_succ_r' in Hn. exact Hn.
    + destruct f; [|lia]. change (10 ^ N.of_nat 1)%N with 10%N in Hn. apply N.div_small in Hn. lia.
Qed.
Lemma dec_fuel n : (n < 10 ^ N.of_nat (S (N.to_nat (N.size n))))%N.
Proof.
  rewrite Nat2N.inj_succ, N2Nat.id, N.pow_succ_r'. pose proof (N.size_gt n) as H. assert (2 ^ N.size n <= 10 ^ N.size n)%N by (apply N.pow_le_mono_l; lia). lia.
Qed.
Lemma scan_dec neg n r : scan neg None (dec n ++ r) = scan neg (Some n) r.
Proof. unfold dec. rewrite scan_digits; [reflexivity|apply dec_fuel|lia]. Qed.
Lemma digits_all (P : ascii -> Prop) : (forall d, (d < 10)%N -> P (digit d)) -> forall fuel n acc, Forall P acc -> Forall P (digits fuel n acc).
Proof.
  intros HP. induction fuel as [|f IH]; intros n acc Ha; [exact Ha|]. cbn [digits].
  assert (Forall P (digit (n mod 10) :: acc)) by (constructor; [apply HP; apply N.mod_lt; lia|exact Ha]).
  destruct (n / 10 =? 0)%N; [assumption|apply IH; assumption].
Qed.
Lemma digit_zero d : (d < 10)%N -> digit d = "0"%char -> d = 0%N.
Proof. intros Hd E. pose proof (digit_read d Hd) as H. rewrite E in H. cbv in H. congruence. Qed.
Lemma digits_head : forall fuel n acc, (n < 10 ^ N.of_nat fuel)%N -> n <> 0%N -> head (digits fuel n acc) <> Some "0"%char.
Proof.
  induction fuel as [|f IH]; intros n acc Hn H0; [cbn in Hn; lia|]. cbn [digits]. pose proof (N.div_mod n 10 ltac:(lia)) as Hdm.
  assert (Hm : (n mod 10 < 10)%N) by (apply N.mod_lt; lia). destruct (n / 10 =? 0)%N eqn:E.
  - cbn [head]. intros [= X]. apply (digit_zero _ Hm) in X. lia.
  - apply IH; [|lia]. apply N.div_lt_upper_bound; [lia|]. rewrite Nat2N.inj_succ, N.pow_succ_r' in Hn. exact Hn.
Qed.
Lemma dec_decimal n : is_decimal n (dec n).
Proof.
  split; [|split; [|split]].
  - unfold ints. rewrite <- (app_nil_r (dec n)), scan_dec. reflexivity.
  - unfold dec. apply digits_all; [|constructor]. intros d Hd. rewrite (digit_read d Hd). discriminate.
  - intros ->. reflexivity.
  - intros Hn. apply digits_head; [apply dec_fuel|exact Hn].
Qed.
Lemma scan_decZ z r : (match r with [] => True | c :: _ => digit_of c = None end) ->
  scan false None (decZ z ++ r) = z :: match r with [] => [] | c :: r' => scan (Ascii.eqb c "-") None r' end.
Proof.
  intros Hr. unfold decZ. assert (K : forall neg n, scan neg None (dec n ++ r) = signed neg n :: match r with [] => [] | c :: r' => scan (Ascii.eqb c "-") None r' end).
  { intros neg n. rewrite scan_dec. destruct r as [|c r]; [reflexivity|]. cbn [scan]. rewrite Hr. reflexivity. }
  destruct (z <? 0)%Z eqn:E.
  - change (scan false None ((tx "-" ++ dec (Z.abs_N z)) ++ r)) with (scan true None (dec (Z.abs_N z) ++ r)). rewrite K. unfold signed. f_equal. lia.
  - rewrite K. unfold signed. f_equal. lia.
Qed.
Lemma decZ_N n : decZ (Z.of_N n) = dec n.
Proof. unfold decZ. replace (Z.of_N n <? 0)%Z with false by lia. f_equal. lia. Qed.
Lemma commas_joined l : commas l = joined (tx ", ") l.
Proof.
  induction l as [|a l IH]; [reflexivity|]. destruct l as [|b l]; [cbn; rewrite app_nil_r; reflexivity|].
  change (commas (a :: b :: l)) with (a ++ tx ", " ++ commas (b :: l)). rewrite IH. cbn [joined flat_map]. rewrite <- !app_assoc. reflexivity.
Qed.
Lemma scan_commas c r : digit_of c = None -> forall l, scan false None (commas (map decZ l) ++ c :: r) = l ++ scan (Ascii.eqb c "-") None r.
Proof.
  intros Hc. induction l as [|z l IH]; [cbn [map commas app scan]; rewrite Hc; reflexivity|]. destruct l as [|y l].
  - cbn [map commas app]. rewrite scan_decZ by exact Hc. reflexivity.
  - change (commas (map decZ (z :: y :: l))) with (decZ z ++ tx ", " ++ commas (map decZ (y :: l))). rewrite <- !app_assoc.
    rewrite scan_decZ by reflexivity. cbn [app]. f_equal. change (tx ", ") with [","%char; " "%char]. cbn [app]. exact IH.
Qed.
Lemma map_decZ l : map decZ (map Z.of_N l) = map dec l.
Proof. rewrite map_map. apply map_ext. apply decZ_N. Qed.
Lemma scan_shape sh r : scan false None (ShapeStr sh ++ r) = map Z.of_N sh ++ scan false None r.
Proof.
  unfold ShapeStr. rewrite <- map_decZ, <- !app_assoc.
  change (scan false None (tx "[" ++ commas (map decZ (map Z.of_N sh)) ++ tx "]" ++ r)) with (scan false None (commas (map decZ (map Z.of_N sh)) ++ "]"%char :: r)).
  apply scan_commas. reflexivity.
Qed.
Theorem shape_claim sh : ShapeStr sh = tx "[" ++ joined (tx ", ") (map dec sh) ++ tx "]" /\ ints (ShapeStr sh) = map Z.of_N sh.
Proof.
  split; [unfold ShapeStr; rewrite commas_joined; reflexivity|]. unfold ints. rewrite <- (app_nil_r (ShapeStr sh)), scan_shape. apply app_nil_r.
Qed.
Lemma mapZ_inj : forall a b, map Z.of_N a = map Z.of_N b -> a = b.
Proof. induction a as [|x a IH]; intros [|y b] E; try discriminate; [reflexivity|]. injection E as E1 E2. f_equal; [lia|apply IH; exact E2]. Qed.
Theorem shape_inj a b : ShapeStr a = ShapeStr b -> a = b.
Proof. intros E. apply mapZ_inj. rewrite <- (proj2 (shape_claim a)), <- (proj2 (shape_claim b)), E. reflexivity. Qed.

Section Mat.
Context {T : Type} `{Num T}.
(** The text of a tensor value. *)
Definition mat_text (show : T -> text) (v : vten T) : text :=
  tx "<Mat (dims: " ++ dec (N.of_nat (length (vsh v))) ++ tx ", len: " ++ dec (N.of_nat (length (vdata v))) ++ tx ", shape: " ++
  tx "[" ++ joined (tx ", ") (map dec (vsh v)) ++ tx "]" ++ tx ") => [" ++ joined (tx ", ") (map show (vdata v)) ++ tx "]>".
Lemma mat_claim show (s : tst T) p v : holds s p v -> MatString show p s = (Ok (mat_text show v), s).
Proof.
  intros Hh. pose proof (GetData_spec s p v Hh) as E. destruct Hh as (n & Hn & Hw & Hv). unfold GetData in E. unfold MatString.
  assert (G : get_mat p s = (Ok (nmat n), s)) by (unfold get_mat, mbnd, get_node; rewrite Hn; reflexivity).
  unfold mbnd in E at 1. rewrite G in E. unfold mbnd at 1. rewrite G. unfold mbnd. rewrite E.
  unfold mval in Hv. destruct (rds (mem s) (operands (nmat n))) as [d|] eqn:Ed; [|discriminate]. injection Hv as <-. cbn [vsh vdata].
  unfold mat_text, ShapeStr, mret. cbn [vsh vdata]. rewrite !commas_joined.
  assert (L : length (operands (nmat n)) = length d) by (unfold rds in Ed; eapply mapM_length; exact Ed). rewrite L. rewrite <- !app_assoc. reflexivity.
Qed.
End Mat.
(** Texts of integer tensors can be read. *)
Lemma scan_len z r : scan false None (decZ z ++ tx ", len: " ++ r) = z :: scan false None r.
Proof. rewrite scan_decZ by reflexivity. reflexivity. Qed.
Lemma scan_shp z r : scan false None (decZ z ++ tx ", shape: " ++ tx "[" ++ r) = z :: scan false None r.
Proof. rewrite scan_decZ by reflexivity. reflexivity. Qed.
Lemma scan_mid l r : scan false None (commas (map decZ l) ++ tx "]" ++ tx ") => [" ++ r) = l ++ scan false None r.
Proof. change (tx "]" ++ tx ") => [" ++ r) with ("]"%char :: tx ") => [" ++ r). rewrite scan_commas by reflexivity. reflexivity. Qed.
Lemma scan_end l : scan false None (commas (map decZ l) ++ tx "]>") = l.
Proof. change (tx "]>") with ("]"%char :: tx ">"). rewrite scan_commas by reflexivity. apply app_nil_r. Qed.
Lemma int_text {A} (f : A -> Z) (v : vten A) :
  ints (mat_text (fun x => decZ (f x)) v) = Z.of_nat (length (vsh v)) :: Z.of_nat (length (vdata v)) :: map Z.of_N (vsh v) ++ map f (vdata v).
Proof.
  unfold ints, mat_text. rewrite <- (map_map f decZ), <- !commas_joined, <- map_decZ, <- !decZ_N.
  match goal with |- scan false None (tx "<Mat (dims: " ++ ?r) = _ => change (scan false None (tx "<Mat (dims: " ++ r)) with (scan false None r) end.
  rewrite scan_len, scan_shp, scan_mid, scan_end. f_equal; [lia|]. f_equal. lia.
Qed.
Theorem int_inj {A} (f : A -> Z) (v w : vten A) : (forall x y, f x = f y -> x = y) -> mat_text (fun x => decZ (f x)) v = mat_text (fun x => decZ (f x)) w -> v = w.
Proof.
  intros Hf E. pose proof (int_text f v) as Ev. rewrite E, int_text in Ev. injection Ev as E1 E2 E3. destruct v as [a d], w as [b e]. cbn [vsh vdata] in *.
  apply app_inj_1 in E3 as [E4 E5]; [|rewrite !map_length; lia]. apply mapZ_inj in E4 as ->. f_equal.
  clear - Hf E5. revert e E5. induction d as [|x d IH]; intros [|y e] E; try discriminate; [reflexivity|]. injection E as X Y. f_equal; [symmetry; apply Hf; exact X|apply IH; exact Y].
Qed.
