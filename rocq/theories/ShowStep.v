(** * ShowStep: the lines of the progress display *)
From Coq Require Import ZArith Reals Lra Bool Ascii String.
From Flocq Require Import Core.Core IEEE754.BinarySingleNaN IEEE754.Binary IEEE754.Bits.
From Verif Require Import Base Num ModelTools ModelOps ModelTensor ModelGraph ModelLayer ModelModel ModelImg ImgFloat BarProofs ModelStr ModelShow StrSpec StrProofs ShowProofs FwdOps.
From Coq Require Import Init.Byte Lia ZifyBool ZifyNat ZifyN.
Open Scope Z_scope.

(** ** What a line should be *)
(** A text moved to the right edge of a column. *)
Definition column (n : nat) (t : text) : text := replicate (n - length t)%nat " "%char ++ t.
(** [q]: hundredths of a percent. *)
Definition s_step (q epochs batch i j : N) (loss : text) : text :=
  carriage ++ tx "[" ++ column 7 (point 2 q ++ tx "%") ++ tx "] " ++ column (length (dec epochs)) (dec i) ++ tx " / " ++ dec epochs ++
  tx " => <" ++ column (length (dec batch)) (dec j) ++ tx " / " ++ dec batch ++ tx "> " ++ column 10 loss.
Definition s_end (epochs : N) (loss : text) : text :=
  carriage ++ tx "[100.00%] " ++ dec epochs ++ tx " / " ++ dec epochs ++ tx " => " ++ loss.

Lemma padded_reads neg : forall p n acc r, (n < 10 ^ N.of_nat p)%N -> scan neg None (padded p n acc ++ r) = scan neg (match p with O => None | _ => Some n end) (acc ++ r).
Proof.
  induction p as [|p IH]; intros n acc r Hn; [reflexivity|]. cbn [padded]. pose proof (N.div_mod n 10 ltac:(lia)) as Hdm.
  assert (Hm : (n mod 10 < 10)%N) by (apply N.mod_lt; lia). rewrite Nat2N.inj_succ, N.pow_succ_r' in Hn.
  assert (Hd : (n / 10 < 10 ^ N.of_nat p)%N) by (apply N.div_lt_upper_bound; [lia|exact Hn]). rewrite IH by exact Hd. cbn [app scan]. rewrite (digit_read _ Hm).
  destruct p as [|p]; [|do 2 f_equal; lia]. cbn in Hd. do 2 f_equal. lia.
Qed.
(** Reading a fixed-point number. *)
Lemma point_reads q r : match r with [] => True | c :: _ => digit_of c = None end ->
  scan false None (point 2 q ++ r) = Z.of_N (q / 100) :: Z.of_N (q mod 100) :: match r with [] => [] | c :: r' => scan (Ascii.eqb c "-") None r' end.
Proof.
  intros Hr. unfold point. change (10 ^ N.of_nat 2)%N with 100%N. rewrite <- !app_assoc, scan_dec.
  change (tx "." ++ padded 2 (q mod 100) [] ++ r) with ("."%char :: (padded 2 (q mod 100) [] ++ r)). cbn [scan]. change (digit_of ".") with (@None N). cbv iota.
  change (Ascii.eqb "." "-") with false. rewrite padded_reads by (apply N.mod_lt; lia). cbn [app signed]. f_equal.
  destruct r as [|c r]; [reflexivity|]. cbn [scan]. rewrite Hr. reflexivity.
Qed.

Lemma spaces_ok n : 0 <= n -> spaces n = Ok (replicate (Z.to_nat n) " "%char).
Proof.
  intros Hn. unfold spaces, Repeat. destruct (Z.ltb_spec n 0) as [?|_]; [lia|]. cbn [res_bind]. f_equal.
  generalize (Z.to_nat n) as k. induction k as [|k IH]; [reflexivity|]. cbn [replicate map]. rewrite IH. reflexivity.
Qed.
Lemma column_ok n t : (length t <= n)%nat -> exists a, spaces (Z.of_nat n - len t) = Ok a /\ a ++ t = column n t.
Proof. intros Hl. eexists. split; [apply spaces_ok; unfold len; lia|]. unfold column, len. do 2 f_equal. lia. Qed.
Lemma column_length n t : (length t <= n)%nat -> length (column n t) = n.
Proof. intros Hl. unfold column. rewrite app_length, replicate_length. lia. Qed.
Lemma wrap64_id n : (n < 2 ^ 64)%N -> wrap64 n = n.
Proof. intros Hn. unfold wrap64. apply N.mod_small. exact Hn. Qed.

Section Step.
Context (odd : binary64 -> Z) (width : Z) (epochs batch : N) (Hfit : (epochs * batch < 2 ^ 64)%N) (Hw : width <= 2 ^ 53).
Lemma step_ok i j loss : (i < epochs)%N -> (1 <= j <= batch)%N ->
  let q := Z.to_N (shown_at (Z.of_N (epochs * batch)) (Z.of_N (i * batch + j))) in
  exists bar, ShowStep odd width epochs batch i j loss = Ok (s_step q epochs batch i j (fixed 8 loss) ++ tx " " ++ bar) /\
    len bar = Z.max (width - len (s_step q epochs batch i j (fixed 8 loss)) - 1) 0.
Proof using Hfit Hw.
  intros Hi Hj q. assert (Hk : (i * batch + j <= epochs * batch)%N).
  { apply N.le_trans with (i * batch + batch)%N; [lia|]. replace (i * batch + batch)%N with ((i + 1) * batch)%N by lia. apply N.mul_le_mono_r. lia. }
  set (k := (i * batch + j)%N) in *. set (n := (epochs * batch)%N) in *. assert (Hk1 : (1 <= k)%N) by (unfold k; lia).
  assert (Hn : 1 <= Z.of_N n < 2 ^ 64) by lia. assert (Hkn : 1 <= Z.of_N k <= Z.of_N n) by lia.
  assert (EP : progress epochs batch i j = part (Z.of_N k) (Z.of_N n)).
  { unfold progress, part. fold n. assert (wrap64 (i * batch) = i * batch)%N as -> by (apply wrap64_id; lia). fold k. rewrite !wrap64_id by lia. reflexivity. }
  destruct (part_spec (Z.of_N n) Hn (Z.of_N k) Hkn) as (_ & Fp & Bp). destruct (percent_spec (Z.of_N n) Hn (Z.of_N k) Hkn) as (_ & Fc & Bc).
  pose proof (shown_range (Z.of_N n) Hn (Z.of_N k) Hkn) as Hq.
  assert (ET : fixed 2 (f64_mul (progress epochs batch i j) (f64_of_Z 100)) = point 2 q).
  { rewrite EP. change (f64_mul (part (Z.of_N k) (Z.of_N n)) (f64_of_Z 100)) with (percent (Z.of_N k) (Z.of_N n)). rewrite fixed_pos by (exact Fc || apply Bc). reflexivity. }
  unfold ShowStep. cbv zeta. rewrite ET.
  destruct (column_ok 7 (point 2 q ++ tx "%")) as (a & Ea & Ca). { rewrite app_length. pose proof (point_len q ltac:(lia)). cbn [length tx list_ascii_of_string]. lia. }
  change (Z.of_nat 7) with 7 in Ea. rewrite Ea. cbn [res_bind].
  destruct (column_ok (length (dec epochs)) (dec i)) as (b & Eb & Cb). { apply dec_len. lia. }
  change (Z.of_nat (length (dec epochs))) with (len (dec epochs)) in Eb. rewrite Eb. cbn [res_bind].
  destruct (column_ok (length (dec batch)) (dec j)) as (c & Ec & Cc). { apply dec_len. lia. }
  change (Z.of_nat (length (dec batch))) with (len (dec batch)) in Ec. rewrite Ec. cbn [res_bind].
  set (tl := fixed 8 loss). assert (exists d, spaces (if 10 - len tl <? 0 then 0 else 10 - len tl) = Ok d /\ d ++ tl = column 10 tl) as (d & Ed & Cd).
  { unfold len. destruct (Z.ltb_spec (10 - Z.of_nat (length tl)) 0) as [Hl|Hl].
    - exists []. split; [reflexivity|]. unfold column. replace (10 - length tl)%nat with 0%nat by lia. reflexivity.
    - apply (column_ok 10 tl). lia. }
  rewrite Ed. cbn [res_bind].
  assert (EI : carriage ++ tx "[" ++ a ++ (point 2 q ++ tx "%") ++ tx "] " ++ b ++ dec i ++ tx " / " ++ dec epochs ++ tx " => <" ++ c ++ dec j ++ tx " / " ++ dec batch ++ tx "> " ++ d ++ tl = s_step q epochs batch i j tl).
  { unfold s_step. rewrite <- Ca, <- Cb, <- Cc, <- Cd, <- !app_assoc. reflexivity. }
  rewrite EI. set (info := s_step q epochs batch i j tl).
  pose proof (bpow_gt_0 radix2 (-65)) as B65.
  destruct (bar_claim odd (part (Z.of_N k) (Z.of_N n)) (width - len info - 1) Fp) as (l & El & Ll & _). { lra. } { unfold len. lia. }
  rewrite EP, El. cbn [res_bind]. exists (map ascii_of_byte l). split; [reflexivity|]. unfold len at 1. rewrite map_length. exact Ll.
Qed.
Theorem steps_claim : (0 < epochs)%N -> (0 < batch)%N -> let n := (epochs * batch)%N in
  exists q : N -> N, (forall k k', 1 <= k -> k <= k' -> k' <= n -> q k <= q k')%N /\ q n = 10000%N /\
    (forall k, (1 <= k <= n)%N -> (Rabs (IZR (Z.of_N (q k)) - 10000 * (IZR (Z.of_N k) / IZR (Z.of_N n))) <= 501 / 1000)%R) /\
    forall i j loss, (i < epochs)%N -> (1 <= j <= batch)%N -> let line := s_step (q (i * batch + j)%N) epochs batch i j (fixed 8 loss) in
      exists bar, ShowStep odd width epochs batch i j loss = Ok (line ++ tx " " ++ bar) /\ len bar = Z.max (width - len line - 1) 0.
Proof using Hfit Hw.
  intros He Hb n. assert (Hn : 1 <= Z.of_N n < 2 ^ 64) by (unfold n; lia).
  exists (fun k => Z.to_N (shown_at (Z.of_N n) (Z.of_N k))). split; [|split; [|split]].
  - intros k k' H1 H2 H3. pose proof (shown_mono (Z.of_N n) Hn (Z.of_N k) (Z.of_N k') ltac:(lia) ltac:(lia) ltac:(lia)). lia.
  - rewrite shown_last by exact Hn. reflexivity.
  - intros k Hk. pose proof (shown_range (Z.of_N n) Hn (Z.of_N k) ltac:(lia)) as Hr. rewrite Z2N.id by lia. apply shown_near; [exact Hn|lia].
  - intros i j loss Hi Hj. cbv zeta. apply step_ok; assumption.
Qed.
End Step.
Lemma one_fin : fin64 one64 = true /\ R64 one64 = 1%R.
Proof. destruct (f64_of_Z_spec 1 ltac:(lia)) as [E F]. split; [exact F|exact E]. Qed.
Theorem end_claim odd width epochs loss : width <= 2 ^ 53 ->
  exists bar, ShowEnd odd width epochs loss = Ok (s_end epochs (fixed 6 loss) ++ tx " " ++ bar ++ newline) /\ len bar = Z.max (width - len (s_end epochs (fixed 6 loss)) - 1) 0.
Proof.
  intros Hw. unfold ShowEnd. cbv zeta. destruct one_fin as [F1 E1].
  change (carriage ++ tx "[100.00%] " ++ dec epochs ++ tx " / " ++ dec epochs ++ tx " => " ++ fixed 6 loss) with (s_end epochs (fixed 6 loss)).
  destruct (bar_claim odd one64 (width - len (s_end epochs (fixed 6 loss)) - 1) F1) as (l & El & Ll & _); [lra|unfold len; lia|].
  rewrite El. cbn [res_bind]. exists (map ascii_of_byte l). split; [reflexivity|]. unfold len at 1. rewrite map_length. exact Ll.
Qed.

(** ** The display does not disturb training *)
Section Same.
Context {T : Type} `{Num T}.
Lemma mfor_then {S A} (l : list A) (f g : A -> M S unit) (s : S) : (forall a s, a ∈ l -> g a s = (f a ;~ mret tt)%gom s) -> mfor l g s = mfor l f s.
Proof.
  intros Hg. apply FwdOps.mfor_ext. intros a s' Ha. rewrite Hg by exact Ha. unfold mbnd, mret. destruct (f a s') as [[[]| | |] s1]; reflexivity.
Qed.
Theorem same_claim odd width shown loss loss_end picks (m : model T) xs ys epochs batch alpha mo s :
  (N.of_nat epochs * N.of_nat (if (batch =? 0)%nat then length xs else batch) < 2 ^ 64)%N -> width <= 2 ^ 53 ->
  TrainShown odd width shown loss loss_end picks m xs ys epochs batch alpha mo s = Train picks m xs ys epochs batch alpha mo s.
Proof.
  intros Hfit Hw. unfold TrainShown, Train. destruct (negb (length xs =? length ys)%nat); [reflexivity|]. unfold mbnd.
  destruct (match m_bp m with None => CompileBackPropagation m | Some _ => mret m end s) as [[m'| | |] s1]; try reflexivity.
  destruct (liftT (wrM (m_alpha m') alpha) s1) as [[[]| | |] s2]; try reflexivity.
  destruct (liftT (wrM (m_momentum m') mo) s2) as [[[]| | |] s3]; try reflexivity. cbv zeta. set (bt := if (batch =? 0)%nat then length xs else batch) in *.
  assert (EL : forall A (f g : A -> M (lst T) unit) l s, (forall a s, a ∈ l -> f a s = g a s) -> mfor l f s = mfor l g s) by (intros; apply FwdOps.mfor_ext; auto).
  match goal with |- match mfor _ ?f _ with _ => _ end = match mfor _ ?g _ with _ => _ end => rewrite (EL _ f g (range epochs) s3) end.
  - match goal with |- match ?x with _ => _ end = _ => destruct x as [[[]| | |] s4]; try reflexivity end. destruct (liftT (rdM (m_loss m')) s4) as [[?| | |] s5]; try reflexivity.
    destruct (end_claim odd width (N.of_nat epochs) loss_end Hw) as (bar & E & _). unfold mlift. rewrite E. reflexivity.
  - intros e s4 He. apply mfor_then. intros b s5 Hb. unfold range in He, Hb. apply elem_of_seq in He, Hb. unfold mbnd.
    match goal with |- match ?x with _ => _ end = match ?y with _ => _ end => change y with x; destruct x as [[[]| | |] s6]; try reflexivity end.
    destruct (shown e b); [|reflexivity]. assert (B0 : (0 < N.of_nat bt)%N) by lia.
    destruct (step_ok odd width (N.of_nat epochs) (N.of_nat bt) Hfit Hw (N.of_nat e) (N.of_nat (S b)) (loss e b)) as (bar & E & _); [lia|lia|].
    unfold mlift. rewrite E. reflexivity.
Qed.
End Same.
