(** * TrnMain: programs that build, use and train a chain of layers *)
From Verif Require Import Base Num ModelTools ModelOps ModelTensor ModelGraph ModelLayer ModelModel Spec NetSpec FwdSpec Denote
  NetBuild NetChain FwdSeg FwdNet FwdCount FwdChain FwdScript FwdProg FwdHist FwdClaims
  NetLaws TensorFacts BwdSpec TrnSpec TrnScript TrnProg FwdTotal TrnTotal TrnSite TrnRun TrnAux TrnLine TrnPrep TrnMade TrnHist.
From Coq Require Import Lia ZifyBool ZifyNat ZifyN.

Section TrnMain.
Context {T : Type} `{Num T}.
Implicit Types (s : lst T) (c q p : clay T) (cs rest : list (clay T)).

(** The chain a program builds whose layers get the numbers from [b] on: the
    last layer is not the input and its output is not empty. *)
Definition is_chain (b : nat) (m0 : mk T) (ks : list (lay1 T)) cs (osh : list N) : Prop :=
  Forall mk_ok (seq_mks m0 ks) /\ chain_of b m0 ks = Some cs /\ (exists top rest, cs = top :: rest /\ c_l top <> None /\ c_sh top = osh) /\ (0 < prodN osh)%N.
(** Numbers of contributions to an error are not zero. *)
Definition tallies (n : nat) : Prop := forall k, k <= n -> neqb (number (T:=T) k) nzero = false.

Theorem train_claim rnd s m0 ks cs osh : is_chain (length (lays s)) m0 ks cs osh -> counts_up (T:=T) (2 * (length (lays s) + S (length ks)) + 1) -> tallies (length cs) ->
  exists par, starts rnd (in_of m0) par cs /\
    forall acts st os, thistory (in_of m0) osh cs (MkT [] par (still par) every) acts st os ->
      exists s' M tids, tprogram rnd m0 ks acts s = (Ok (seq (length (lays s)) (S (length ks)), (M, tids, os)), s') /\
        forall p, p ∈ cs -> c_par p = true -> net_par s' (mem (ts s')) (c_i p) = t_par st (c_i p).
Proof using Type.
  intros (Hok & Hch & (top & rest & Ecs & Htop & Hosh) & Hpos) [Hcnt Htwo] Hty. subst osh.
  destruct (seq_net _ m0 ks cs Hok Hch) as (es & e0 & c & rest' & En & _).
  assert (Hms : length (seq_mks m0 ks) = S (length ks)) by (unfold seq_mks; cbn [length]; rewrite imap_length; reflexivity).
  destruct (build_net_ok s (seq_mks m0 ks) es 0 (length ks) En Hok ltac:(lia) ltac:(lia)) as (s2 & lo & tl & EB & Wd & _). rewrite Hms, Nat.add_0_r in EB. rewrite <- build_seq_eq in EB.
  destruct (made_setup rnd s2 (length (lays s)) m0 ks lo tl cs Wd Hok Hch Hcnt) as (s' & M' & U & s1 & C & W & sf & top' & rest2 & e & inp & ni & out & EC & SU & El & Et & (y & Em) & _ & H1 & H2 & H3 & H4 & H5 & Hish & Hfst).
  { intros k Hk. rewrite tally_number. apply Hty. exact Hk. }
  { exact Htwo. }
  pose proof (su_cs _ _ _ _ _ _ _ _ _ _ _ _ _ _ _ SU) as Ecs'. assert (top' = top /\ rest2 = rest) as [-> ->] by (rewrite Ecs in Ecs'; injection Ecs' as -> ->; auto). clear Ecs'.
  assert (Hmem : forall a v, mem (ts sf) !! a = Some v -> mem (ts s') !! a = Some v) by (intros a v Ha; rewrite Em; apply lookup_app_l_Some; exact Ha).
  assert (Hlat : later cs C sf s').
  { split; [rewrite El; apply alike_refl|]. split; [exact Et|]. split; [rewrite Em, app_length; lia|]. split; [|auto].
    pose proof (su_inv _ _ _ _ _ _ _ _ _ _ _ _ _ _ _ SU) as F. pose proof (fi_C _ _ _ _ _ _ _ F) as HC. unfold consts in *. rewrite Forall_forall in HC |- *. intros x Hx. apply Hmem. apply HC. exact Hx. }
  assert (HM : m_last M' = Some (c_i top) /\ m_output M' = Some out /\ m_input M' = Some inp /\ m_ff M' = Some (MkGraph (ctx (ts sf))) /\ m_bp M' = None) by auto.
  pose proof (chain_of_ids _ _ _ _ Hch) as Hids.
  assert (HM1 : m_first M' = last (map c_i cs)).
  { rewrite Hfst. rewrite <- (rev_involutive cs), map_rev, Hids. cbn [seq rev]. rewrite last_snoc. reflexivity. }
  assert (Hlids : forall k c, rev cs !! k = Some c -> seq (length (lays s)) (S (length ks)) !! k = Some (c_i c)) by (intros k c2 Hk; rewrite <- Hids, list_lookup_fmap, Hk; reflexivity).
  exists (net_par sf (mem (ts s'))). split.
  - eapply (starts_at rnd s2 cs _ U s1 C W sf top rest e inp ni out SU s' M' (in_of m0) Hlat HM _ Hlids HM1 Hish Htop Hpos _ Hmem cs e); [auto|apply SU|apply SU].
  - intros acts st os Hh.
    destruct (do_tacts_ok rnd s2 cs _ U s1 C W sf top rest e inp ni out SU s' M' (in_of m0) Hlat HM _ Hlids HM1 Hish Htop Hpos acts M' s' _ [] st os
      (held_start rnd s2 cs _ U s1 C W sf top rest e inp ni out SU s' M' (in_of m0) Hlat HM _ Hlids HM1 Hish Htop Hpos El) Hh) as (M3 & s3 & tids & ED & Hh3).
    exists s3, M3, tids. split.
    + unfold tprogram. rewrite (mbnd_ok _ _ _ _ _ EB). cbn [fst snd]. rewrite (mbnd_ok _ _ _ _ _ EC), (mbnd_ok _ _ _ _ _ ED). reflexivity.
    + intros p Hp Hcp. exact (held_par rnd s2 cs _ U s1 C W sf top rest e inp ni out SU s' M' (in_of m0) Hlat HM _ Hlids HM1 Hish Htop Hpos M3 s3 st tids p Hh3 Hp Hcp).
Qed.

(** Programs that cannot fail. *)
Theorem train_safe rnd s m0 ks cs osh acts : is_chain (length (lays s)) m0 ks cs osh -> counts_up (T:=T) (2 * (length (lays s) + S (length ks)) + 1) -> tallies (length cs) ->
  (forall (z : T) k, k <= length cs -> ndiv z (number k) <> None) -> chain_runs (in_of m0) cs -> tacts_ok (in_of m0) osh (length cs) [] acts ->
  exists par st os s' M tids, starts rnd (in_of m0) par cs /\ thistory (in_of m0) osh cs (MkT [] par (still par) every) acts st os /\
    tprogram rnd m0 ks acts s = (Ok (seq (length (lays s)) (S (length ks)), (M, tids, os)), s').
Proof using Type.
  intros His Hcu Hty Hdiv Hrun Hacts. destruct (train_claim rnd s m0 ks cs osh His Hcu Hty) as (par & Hst & Hh). destruct His as (_ & Hch & (top & rest & Ecs & _ & Hosh) & Hpos).
  destruct (chain_of_ok _ _ _ _ Hch) as [Hnd Hok]. specialize (Hok Hrun). pose proof (starts_pars _ _ _ _ Hst) as Hp.
  destruct (ok_thistory (in_of m0) osh (length cs) cs Hdiv Hnd Hok) with (acts := acts) (st := @nil (vten T)) (par := par) (mb := still par) (tr := every) as (st & os & Hx);
    [rewrite Ecs; exact Hosh|exact Hpos|reflexivity|constructor|exact Hp|exact (starts_moms par _ _ Hok Hp)|exact Hacts|].
  destruct (Hh _ _ _ Hx) as (s' & M & tids & E & _). exists par, st, os, s', M, tids. auto.
Qed.
End TrnMain.
