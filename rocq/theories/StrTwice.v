(** * StrTwice: summaries of networks whose layers are used more than once *)
From Coq Require Import Ascii String.
From Verif Require Import Base Num ModelTools ModelOps ModelTensor ModelGraph ModelLayer ModelModel ModelStr Spec NetLaws TensorFacts StrSpec StrProofs TrnSpec StrChain.
From Coq Require Import Lia ZifyBool ZifyNat ZifyN.

Lemma lines_app a b : lines (a ++ b) = lines a + lines b.
Proof. unfold lines. rewrite List.filter_app, app_length. reflexivity. Qed.
Lemma lines_none l : Forall (fun c => c <> ascii_of_nat 10) l -> lines l = 0.
Proof.
  unfold lines. induction 1 as [|c l Hc Hl IH]; [reflexivity|]. cbn [List.filter]. destruct (Ascii.eqb c (ascii_of_nat 10)) eqn:E; [apply Ascii.eqb_eq in E; contradiction|exact IH].
Qed.
Lemma lines_dec n : lines (dec n) = 0.
Proof.
  apply lines_none. unfold dec. apply digits_all; [|constructor]. intros d Hd E. pose proof (digit_read d Hd) as X. rewrite E in X. discriminate X.
Qed.
Lemma lines_joined l : Forall (fun a => lines a = 0) l -> lines (joined (tx ", ") l) = 0.
Proof.
  intros Hl. destruct l as [|a l]; [reflexivity|]. inversion_clear Hl as [|? ? Ha Hr]. cbn [joined]. rewrite lines_app, Ha. cbn [Nat.add].
  induction Hr as [|b l Hb Hr IH]; [reflexivity|]. cbn [flat_map]. rewrite !lines_app, Hb, IH. reflexivity.
Qed.
Lemma lines_shape sh : lines (ShapeStr sh) = 0.
Proof.
  unfold ShapeStr. rewrite commas_joined, !lines_app, lines_joined; [reflexivity|]. apply List.Forall_forall. intros x Hx. apply in_map_iff in Hx as (n & <- & _). apply lines_dec.
Qed.

Section Twice.
Context {T : Type} `{Num T}.
Lemma lines_type (k : lkind T) : lines (type_of k) = 0.
Proof. destruct k; reflexivity. Qed.
Lemma lines_s_line late (c : clay T) rest : lines (s_line late c rest) = 1.
Proof.
  unfold s_line. rewrite !lines_app, !lines_dec, lines_shape. assert (E : lines (tx (label (c_l c))) = 0) by (destruct (c_l c) as [[]|]; reflexivity). rewrite E.
  destruct rest; [reflexivity|]. rewrite !lines_app, lines_dec. reflexivity.
Qed.
(** One line for each layer of a chain. *)
Lemma lines_chain late (cs : list (clay T)) : lines (s_lines late cs) = length cs.
Proof. induction cs as [|c cs IH]; [reflexivity|]. cbn [s_lines length]. rewrite lines_app, IH, lines_s_line. lia. Qed.
Lemma lines_summary late (cs : list (clay T)) : lines (s_summary late cs) = length cs + 2.
Proof. unfold s_summary. rewrite !lines_app, lines_chain. cbn. lia. Qed.
(** Numbers of layers. *)
Lemma number_late (cs : list (clay T)) c : number_of true (c :: cs) = N.of_nat (length cs).
Proof. revert c. induction cs as [|q cs IH]; intros c; [reflexivity|]. change (number_of true (c :: q :: cs)) with (number_of true (q :: cs) + 1)%N. rewrite IH. cbn [length]. lia. Qed.

(** Layer [0] and [n] joins on top of it, each joining the one below with
    itself. *)
Definition has_out (S : lst T) (l : layer T) (f : tfield) : Prop := exists o n, lten l f = Some o /\ tens (ts S) !! o = Some n.
Definition tower (S : lst T) (n : nat) : Prop :=
  (exists l, lays S !! 0 = Some l /\ lkind_of l = LInput /\ lpre l = None /\ has_out S l FOutput) /\
  forall k, k < n -> exists l d, lays S !! Datatypes.S k = Some l /\ lkind_of l = LConcat (Some k) (Some k) d /\ has_out S l FInput /\ has_out S l FOutput.
Lemma tower_less S n : tower S (Datatypes.S n) -> tower S n.
Proof. intros [H1 H2]. split; [exact H1|]. intros k Hk. apply H2. lia. Qed.
Lemma out_shape (S : lst T) l f {A} (k : list N -> LM T A) : has_out S l f -> exists sh, (o <~ the (lten l f) ; sh <~ shapeT o ; k sh) S = k sh S.
Proof.
  intros (o & n & Ho & Hn). exists (shape (nmat n)). rewrite Ho. cbn [the]. rewrite (mbnd_ok _ _ _ o S) by reflexivity. rewrite (mbnd_ok _ _ _ _ S (shape_at S o n Hn)). reflexivity.
Qed.
Theorem tower_lines ix S : forall n fuel, tower S n -> n < fuel -> exists t, PushToString ix fuel n S = (Ok t, S) /\ lines t = 2 ^ Datatypes.S n - 1.
Proof.
  induction n as [|n IH]; intros fuel Ht Hf; (destruct fuel as [|fuel]; [lia|]).
  - destruct Ht as [(l & Hl & Hk & Hp & Ho) _]. cbn [PushToString]. rewrite (mbnd_ok (getL 0) _ _ l S) by (unfold getL; rewrite Hl; reflexivity). rewrite Hk, Hp.
    destruct (out_shape S l FOutput (fun osh => mret (tx "<Layer[" ++ dec (ix 0) ++ tx "] => " ++ type_of (LInput (T:=T)) ++ tx ": O" ++ ShapeStr osh ++ tx ">" ++ newline)) Ho) as (sh & E).
    eexists. split; [etransitivity; [exact E|reflexivity]|]. rewrite !lines_app, lines_dec, lines_shape. reflexivity.
  - destruct (IH fuel (tower_less S n Ht) ltac:(lia)) as (t & Et & Hn). destruct Ht as [_ Ht]. destruct (Ht n ltac:(lia)) as (l & d & Hl & Hk & Hi & Ho).
    cbn [PushToString]. rewrite (mbnd_ok (getL (Datatypes.S n)) _ _ l S) by (unfold getL; rewrite Hl; reflexivity). rewrite Hk. cbn [the].
    rewrite (mbnd_ok _ _ _ n S) by reflexivity. rewrite (mbnd_ok _ _ _ _ _ Et). rewrite (mbnd_ok _ _ _ n S) by reflexivity. rewrite (mbnd_ok _ _ _ _ _ Et).
    match goal with |- exists t, (i <~ the (lten l FInput) ; ish <~ shapeT i ; @?k ish) S = _ /\ _ => destruct (out_shape S l FInput k Hi) as (ish & Ei) end.
    match type of Ei with _ = ?x => assert (Eo : exists sh, x = (Ok (t ++ t ++ tx "<Layer[" ++ dec (ix (Datatypes.S n)) ++ tx "] (" ++ dec (ix n) ++ tx ", " ++ dec (ix n) ++ tx ") => " ++
                type_of (LConcat (T:=T) (Some n) (Some n) d) ++ tx ": I" ++ ShapeStr ish ++ tx " O" ++ ShapeStr sh ++ tx ">" ++ newline), S)) end.
    { cbv beta. destruct Ho as (o & nd & Ho & Hnd). exists (shape (nmat nd)). rewrite Ho. cbn [the]. rewrite (mbnd_ok _ _ _ o S) by reflexivity. rewrite (mbnd_ok _ _ _ _ S (shape_at S o nd Hnd)). reflexivity. }
    destruct Eo as (sh & Eo). eexists. split; [etransitivity; [exact Ei|exact Eo]|]. rewrite !lines_app, !lines_dec, !lines_shape, Hn. cbn [type_of].
    change (lines (tx "Concat")) with 0. assert (1 <= 2 ^ n) by (clear; induction n; cbn; lia). cbn [Nat.pow]. cbn. lia.
Qed.
End Twice.
