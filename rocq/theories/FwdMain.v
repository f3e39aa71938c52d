(** * FwdMain: whole programs that build, compile and query a network of any layers *)
From stdpp Require Import relations.
From Verif Require Import Base Num ModelTools ModelOps ModelTensor ModelGraph ModelLayer ModelModel Spec Denote NetSpec FwdSpec
  IndexProofs ExecProofs TensorFacts AccessProofs EagerProofs BuildProofs CompileProofs Agree FwdMask FwdBuild FwdSeg FwdOps FwdPool NetBuild NetChain
  NetExec NetFit FwdBody FwdExpr FwdDense FwdConv FwdAct FwdKer FwdDeconv FwdNet FwdCount FwdChain FwdRun FwdScript FwdProg FwdHist.
From Verif Require NetRun NetRun3 NetRun4 NetRun7.
From Coq Require Import Lia ZifyBool ZifyNat ZifyN.

Section FwdMain.
Context {T : Type} `{Num T}.

(** What the parameters of a freshly compiled network are. *)
Definition all_drawn (rnd : nat -> nat -> T) (ish : nat -> option (list N)) (e : net T) (par : nat -> option (vten T * vten T)) : Prop :=
  forall l k e0 bs ws, NLay l k e0 ∈ subs e -> top_par ish (NLay l k e0) = Some (bs, ws) ->
    exists b w, par k = Some (b, w) /\ drawn rnd bs b /\ drawn rnd ws w.

Theorem net_program (rnd : nat -> nat -> T) (s : lst T) ms es inp out e ish sh :
  nets [] ms = Some es -> es !! out = Some e -> in_shape ms inp = Some ish -> inp ∈ ins e -> nshape (in_shape ms) e = Some sh -> Forall mk_ok ms ->
  (forall k, 1 <= k <= 2 * (length (lays s) + length ms) + 1 -> neqb (count (T:=T) k) nzero = false) -> (exists a b : T, a <> b) ->
  exists par, all_drawn rnd (in_shape ms) e par /\
    (forall acts st os, fhistory ish (answer ms inp e par) [] acts st os ->
       exists s' m tids, fprogram rnd (build_net ms inp out) acts s = (Ok (seq (length (lays s)) (length ms), (m, tids, os)), s') /\
         (forall k, k ∈ pars e -> net_par s' (mem (ts s')) (length (lays s) + k) = par k)) /\
    (forall acts st os i x rest, fhistory ish (answer ms inp e par) [] acts st os -> st !! i = Some x -> vsh x = ish -> answer ms inp e par x = None ->
       exists s', fprogram rnd (build_net ms inp out) (acts ++ FPredict i :: rest) s = (Panic, s')).
Proof using Type.
  intros E He Hi Hin Hsh Hok Hnz Htwo.
  assert (Hil : inp < length ms) by (unfold in_shape in Hi; destruct (ms !! inp) eqn:X; [eapply lookup_lt_Some; exact X|discriminate]).
  assert (Hol : out < length ms) by (rewrite <- (nets_len _ _ E); eapply lookup_lt_Some; exact He).
  destruct (build_net_ok s ms es inp out E Hok Hil Hol) as (s1 & lo & tl & EB & W & _).
  destruct (compiled s1 _ ms lo tl W rnd es out e inp ish sh E He Hi Hin Hsh Hnz Htwo) as (s2 & M' & xb & U & s0 & D & C & WW & sf & EC & R & _ & _ & Hone & Hz & Hd & _).
  set (base := length (lays s)) in *. set (par := fun k => net_par s2 (mem (ts s2)) (base + k)).
  assert (L0 : live rnd ms base inp e par (tin s1 base) (base + out) sh ish xb U s0 D C WW sf s2 M' [] []).
  { split; [exact R| |reflexivity|constructor]. intros p Hp _. destruct (Hz p Hp) as (shp & -> & Hv). exact Hv. }
  assert (HP : forall acts, fprogram rnd (build_net ms inp out) acts s = match do_facts rnd (M', []) acts s2 with (Ok r, s') => (Ok (seq base (length ms), r), s') | (Err x, s') => (Err x, s') | (Panic, s') => (Panic, s') | (Diverge, s') => (Diverge, s') end).
  { intros acts. unfold fprogram. rewrite (mbnd_ok _ _ _ _ _ EB). cbn [fst snd]. rewrite (mbnd_ok _ _ _ _ _ EC). unfold mbnd. destruct (do_facts rnd (M', []) acts s2) as [[?|?| |] ?]; reflexivity. }
  exists par. split; [exact Hd|]. split.
  - intros acts st os Hh. destruct (do_facts_ok rnd ms base inp e par _ _ sh ish xb U s0 D C WW sf Hone acts s2 M' [] [] st os L0 Hh) as (s3 & tids & ED & L3 & _ & _).
    exists s3, M', tids. rewrite HP, ED. split; [reflexivity|]. exact (lv_par _ _ _ _ _ _ _ _ _ _ _ _ _ _ _ _ _ _ _ _ _ L3).
  - intros acts st os i x rest Hh Hx Hxs Ha. destruct (do_facts_ok rnd ms base inp e par _ _ sh ish xb U s0 D C WW sf Hone acts s2 M' [] [] st os L0 Hh) as (s3 & tids & ED & L3 & _ & _).
    destruct (do_fact_panic rnd ms base inp e par _ _ sh ish xb U s0 D C WW sf Hone s3 M' st tids i x L3 Hx Hxs Ha) as [s4 E4].
    exists s4. rewrite HP, (do_facts_app rnd acts (FPredict i :: rest) _ _ _ _ ED). cbn [fst snd do_facts]. unfold mbnd at 1. rewrite E4. reflexivity.
Qed.

(** The same for layers pushed one after the other. *)
Lemma fprogram_ext rnd (b1 b2 : LM T (list nat * model T)) acts s : b1 s = b2 s -> fprogram rnd b1 acts s = fprogram rnd b2 acts s.
Proof using Type. intros E. unfold fprogram, mbnd. rewrite E. reflexivity. Qed.
End FwdMain.
