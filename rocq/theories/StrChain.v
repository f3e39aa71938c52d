(** * StrChain: the summary of a chain of layers *)
From Coq Require Import Ascii String.
From Verif Require Import Base Num ModelTools ModelOps ModelTensor ModelGraph ModelLayer ModelModel ModelStr Spec NetSpec FwdSpec Denote
  NetBuild NetChain FwdSeg FwdNet FwdCount FwdChain FwdScript FwdProg FwdHist FwdClaims
  NetLaws TensorFacts BwdSpec TrnSpec TrnScript TrnProg FwdTotal TrnTotal TrnSite TrnRun TrnAux TrnLine TrnPrep TrnMade TrnComp TrnTri TrnHist TrnMain StrSpec StrProofs.
From Coq Require Import Lia ZifyBool ZifyNat ZifyN.

Section Text.
Context {T : Type} `{Num T}.
(** The line of the layer [c] above the layers [rest], and all lines. *)
Definition s_line (late : bool) (c : clay T) (rest : list (clay T)) : text :=
  tx "<Layer[" ++ dec (number_of late (c :: rest)) ++ tx "]" ++
  match rest with [] => [] | _ => tx " (" ++ dec (number_of late rest) ++ tx ")" end ++
  tx " => " ++ tx (label (c_l c)) ++ tx ": O" ++ ShapeStr (c_sh c) ++ tx ">" ++ newline.
Fixpoint s_lines (late : bool) (cs : list (clay T)) : text :=
  match cs with [] => [] | c :: rest => s_lines late rest ++ s_line late c rest end.
Definition s_summary (late : bool) (cs : list (clay T)) : text := tx "<Model => [" ++ newline ++ s_lines late cs ++ tx "]>" ++ newline.
End Text.

Section StrChain.
Context {T : Type} `{Num T}.
Implicit Types (S : lst T) (c q : clay T) (cs rest : list (clay T)).

(** The layers of a chain and their outputs. *)
Fixpoint spine0 S cs : Prop :=
  match cs with
  | [] => True
  | c :: rest => (exists l, lays S !! c_i c = Some l /\ kind_is l c /\ lpre l = match rest with [] => None | q :: _ => Some (c_i q) end) /\ spine0 S rest
  end.
Definition outs S cs : Prop := forall c, c ∈ cs -> exists l o n, lays S !! c_i c = Some l /\ lten l FOutput = Some o /\ tens (ts S) !! o = Some n /\ shape (nmat n) = c_sh c.
Lemma chain_spine S : forall cs, chain S cs -> spine0 S cs.
Proof using Type.
  induction cs as [|c rest IH]; [intros _; exact I|]. intros Hch. destruct rest as [|q rest].
  - destruct Hch as (l & psh & Hs & Hp & _). split; [|exact I]. exists l. split; [exact (ls_lay _ _ _ _ Hs)|]. split; [exact (ls_kind _ _ _ _ Hs)|exact Hp].
  - destruct Hch as (l & Hs & Hp & _ & _ & Hc). split; [|apply IH; exact Hc]. exists l. split; [exact (ls_lay _ _ _ _ Hs)|]. split; [exact (ls_kind _ _ _ _ Hs)|exact Hp].
Qed.
Lemma spine_alike S S1 : TrnRun.alike (lays S) (lays S1) -> forall cs, spine0 S cs -> spine0 S1 cs.
Proof using Type.
  intros A. induction cs as [|c rest IH]; [auto|]. intros [(l & Hl & Hk & Hp) Hs]. split; [|apply IH; exact Hs].
  destruct (alike_l _ _ _ _ A Hl) as (l' & Hl' & A1 & A2 & A3 & _). exists l'. split; [exact Hl'|]. split; [|rewrite A3; exact Hp]. unfold kind_is in *. rewrite A1, A3. exact Hk.
Qed.
(** Outputs are what [fval] sees. *)
Lemma outs_fval S cs (m : list T) : (forall c, c ∈ cs -> exists v, fval S (c_i c) FOutput m = Some v /\ vsh v = c_sh c) -> outs S cs.
Proof using Type.
  intros Hf c Hc. destruct (Hf c Hc) as (v & E & Hv). unfold fval, fnode, fid in E. destruct (lays S !! c_i c) as [l|] eqn:El; [|discriminate]. cbn [mbind option_bind] in E.
  destruct (lten l FOutput) as [o|] eqn:Eo; [|discriminate]. cbn [mbind option_bind] in E. destruct (tens (ts S) !! o) as [n|] eqn:En; [|discriminate]. cbn [mbind option_bind] in E.
  exists l, o, n. repeat split; auto. rewrite <- Hv. unfold mval in E. destruct (rds m (operands (nmat n))); [|discriminate]. injection E as <-. reflexivity.
Qed.

(** ** Indices *)
Fixpoint ixok (late : bool) (ix : nat -> N) cs : Prop := match cs with [] => True | c :: rest => ix (c_i c) = number_of late cs /\ ixok late ix rest end.
Lemma one_par (l : layer T) c : kind_is l c -> one_line (lkind_of l) = c_par c.
Proof using Type. unfold kind_is, c_par. destruct (c_l c) as [[]|]; intros Hk; try (match type of Hk with _ /\ _ => destruct Hk as [Hk _] end); try (rewrite Hk; reflexivity); contradiction. Qed.
Lemma not_cat (l : layer T) c a b d : kind_is l c -> lkind_of l <> LConcat a b d.
Proof using Type. unfold kind_is. destruct (c_l c) as [[]|]; intros Hk; try (match type of Hk with _ /\ _ => destruct Hk as [Hk _] end); try (rewrite Hk; discriminate); contradiction. Qed.
Lemma ixok_ext late ix ix' : forall cs, (forall c, c ∈ cs -> ix (c_i c) = ix' (c_i c)) -> ixok late ix cs -> ixok late ix' cs.
Proof using Type.
  induction cs as [|c rest IH]; [auto|]. intros He [H1 H2]. split; [rewrite <- He by left; exact H1|]. apply IH; [|exact H2]. intros q Hq. apply He. right. exact Hq.
Qed.
Lemma build_ix late S : forall cs c rest fuel x, cs = c :: rest -> spine0 S cs -> NoDup (map c_i cs) -> length cs <= fuel ->
  (forall q, q ∈ cs -> ix_built x (c_i q) = false /\ ix_of x (c_i q) = 0%N) ->
  exists x', BuildIx late fuel (lays S) (c_i c) x = Some ((if late || negb (c_par c) then number_of late cs else 0%N), x') /\ ixok late (ix_of x') cs /\
    forall j, j ∉ map c_i cs -> ix_of x' j = ix_of x j.
Proof using Type.
  induction cs as [|c0 cs IH]; intros c rest fuel x [=] Hsp Hnd Hfu Hx. subst c0 cs. destruct Hsp as [(l & Hl & Hk & Hp) Hsp].
  destruct fuel as [|fuel]; [cbn in Hfu; lia|]. cbn [BuildIx]. rewrite Hl. cbn [mbind option_bind]. destruct (Hx c ltac:(left)) as [Hb Hi]. rewrite Hb.
  destruct rest as [|q rest].
  - exists (mark (c_i c) x). split; [|split; [split; [exact Hi|exact I]|reflexivity]].
    replace (match lkind_of l with LConcat _ _ _ => _ | _ => _ end) with (Some (ix_of (mark (c_i c) x) (c_i c), mark (c_i c) x)).
    + do 2 f_equal. cbn [mark ix_of]. rewrite Hi. destruct (late || negb (c_par c)); reflexivity.
    + rewrite Hp. destruct (lkind_of l) eqn:Ek; try reflexivity. exfalso. exact (not_cat l c _ _ _ Hk Ek).
  - cbn [map] in Hnd. apply NoDup_cons in Hnd as [Hni Hnd].
    destruct (IH q rest fuel (mark (c_i c) x) eq_refl Hsp Hnd ltac:(cbn [length] in *; lia)) as (x' & E & Hok & Hfr).
    { intros p Hp'. destruct (Hx p ltac:(right; exact Hp')) as [H1 H2]. cbn [mark ix_built ix_of]. split; [|exact H2].
      destruct (c_i p =? c_i c) eqn:Ee; [|exact H1]. exfalso. apply Hni. apply Nat.eqb_eq in Ee. rewrite <- Ee. change (c_i q :: map c_i rest) with (map c_i (q :: rest)). apply elem_of_list_fmap. eauto. }
    set (i := ((if late || negb (c_par q) then number_of late (q :: rest) else 0) + 1)%N) in *.
    exists (set_ix (c_i c) i x'). split; [|split].
    + replace (match lkind_of l with LConcat _ _ _ => _ | _ => _ end) with (Some (if one_line (lkind_of l) && negb late then ix_of (mark (c_i c) x) (c_i c) else i, set_ix (c_i c) i x')).
      * rewrite (one_par l c Hk). do 2 f_equal. cbn [mark ix_of]. rewrite Hi. destruct late, (c_par c); reflexivity.
      * rewrite Hp. destruct (lkind_of l) eqn:Ek; try (rewrite E; reflexivity). exfalso. exact (not_cat l c _ _ _ Hk Ek).
    + split; [cbn [set_ix ix_of]; rewrite Nat.eqb_refl; reflexivity|]. apply (ixok_ext late (ix_of x')); [|exact Hok]. intros p Hp'. cbn [set_ix ix_of].
      destruct (c_i p =? c_i c) eqn:Ee; [|reflexivity]. exfalso. apply Hni. apply Nat.eqb_eq in Ee. rewrite <- Ee. change (c_i q :: map c_i rest) with (map c_i (q :: rest)). apply elem_of_list_fmap. eauto.
    + intros j Hj. cbn [map] in Hj. apply not_elem_of_cons in Hj as [Hj1 Hj2]. cbn [set_ix ix_of]. apply Nat.eqb_neq in Hj1. rewrite Hj1. rewrite Hfr by exact Hj2. reflexivity.
Qed.

(** ** Lines *)
Lemma type_label (l : layer T) c : kind_is l c -> type_of (lkind_of l) = tx (label (c_l c)).
Proof using Type. unfold kind_is. destruct (c_l c) as [[]|]; intros Hk; try (match type of Hk with _ /\ _ => destruct Hk as [Hk _] end); try (rewrite Hk; reflexivity); contradiction. Qed.
Lemma shape_at S o n : tens (ts S) !! o = Some n -> shapeT o S = (Ok (shape (nmat n)), S).
Proof using Type. intros E. unfold shapeT, liftT, mbnd, get_mat, get_node, mbnd. rewrite E. destruct S. reflexivity. Qed.
Lemma push_ok late ix S : forall cs c rest fuel, cs = c :: rest -> spine0 S cs -> outs S cs -> ixok late ix cs -> length cs <= fuel ->
  PushToString ix fuel (c_i c) S = (Ok (s_lines late cs), S).
Proof using Type.
  induction cs as [|c0 cs IH]; intros c rest fuel [=] Hsp Hout Hix Hfu. subst c0 cs. destruct Hsp as [(l & Hl & Hk & Hp) Hsp].
  destruct fuel as [|fuel]; [cbn in Hfu; lia|]. destruct (Hout c ltac:(left)) as (l' & o & n & Hl' & Ho & Hn & Hsh). assert (l' = l) as -> by congruence. destruct Hix as [Hi Hix].
  cbn [PushToString]. rewrite (mbnd_ok (getL (c_i c)) _ _ l S) by (unfold getL; rewrite Hl; reflexivity).
  assert (Eq : forall K : text -> text, (o0 <~ the (lten l FOutput) ; osh <~ shapeT o0 ; mret (K (ShapeStr osh))) S = (Ok (K (ShapeStr (c_sh c))), S)).
  { intros K. rewrite Ho. cbn [the]. rewrite (mbnd_ok _ _ _ o S) by reflexivity. rewrite (mbnd_ok _ _ _ _ S (shape_at S o n Hn)), Hsh. reflexivity. }
  destruct rest as [|q rest].
  - transitivity ((o0 <~ the (lten l FOutput) ; osh <~ shapeT o0 ; mret (tx "<Layer[" ++ dec (ix (c_i c)) ++ tx "] => " ++ type_of (lkind_of l) ++ tx ": O" ++ ShapeStr osh ++ tx ">" ++ newline)) S).
    + rewrite Hp. destruct (lkind_of l) eqn:Ek; try reflexivity. exfalso. exact (not_cat l c _ _ _ Hk Ek).
    + etransitivity; [exact (Eq (fun z => tx "<Layer[" ++ dec (ix (c_i c)) ++ tx "] => " ++ type_of (lkind_of l) ++ tx ": O" ++ z ++ tx ">" ++ newline))|]. rewrite Hi, (type_label l c Hk). reflexivity.
  - specialize (IH q rest fuel eq_refl Hsp ltac:(intros p Hp'; apply Hout; right; exact Hp') Hix ltac:(cbn [length] in *; lia)).
    transitivity ((t <~ PushToString ix fuel (c_i q) ; o0 <~ the (lten l FOutput) ; osh <~ shapeT o0 ;
      mret (t ++ tx "<Layer[" ++ dec (ix (c_i c)) ++ tx "] (" ++ dec (ix (c_i q)) ++ tx ") => " ++ type_of (lkind_of l) ++ tx ": O" ++ ShapeStr osh ++ tx ">" ++ newline)) S).
    + rewrite Hp. destruct (lkind_of l) eqn:Ek; try reflexivity. exfalso. exact (not_cat l c _ _ _ Hk Ek).
    + rewrite (mbnd_ok _ _ _ _ _ IH).
      etransitivity; [exact (Eq (fun z => s_lines late (q :: rest) ++ tx "<Layer[" ++ dec (ix (c_i c)) ++ tx "] (" ++ dec (ix (c_i q)) ++ tx ") => " ++ type_of (lkind_of l) ++ tx ": O" ++ z ++ tx ">" ++ newline))|].
      rewrite Hi, (proj1 Hix), (type_label l c Hk). change (s_lines late (c :: q :: rest)) with (s_lines late (q :: rest) ++ s_line late c (q :: rest)). unfold s_line. rewrite <- !app_assoc. reflexivity.
Qed.

(** ** Compiled and trained chains *)
Section Hist.
Variables (rnd : nat -> nat -> T) (s0 : lst T) (cs : list (clay T)) (n0 : nat) (U : list nat) (s1 : lst T) (C : list (nat * T)) (W : nat -> Prop) (sf : lst T)
    (top : clay T) (rest : list (clay T)) (e : net T) (inp : nat) (ni : node T) (out : nat).
Hypothesis SU : setup rnd s0 cs n0 U s1 C W sf top rest e inp ni out.
Variables (s' : lst T) (M' : model T) (ish : list N).
Hypothesis Hnow : later cs C sf s'.
Hypothesis HM : m_last M' = Some (c_i top) /\ m_output M' = Some out /\ m_input M' = Some inp /\ m_ff M' = Some (MkGraph (ctx (ts sf))) /\ m_bp M' = None.
Variable lids : list nat.
Hypothesis Hlids : forall k c, rev cs !! k = Some c -> lids !! k = Some (c_i c).
Hypothesis HM1 : m_first M' = last (map c_i cs).
Hypothesis Hish : shape (nmat ni) = ish.
Hypothesis Htop : c_l top <> None.
Hypothesis Hpos : (0 < prodN (c_sh top))%N.

Lemma lined_at : forall l ep p, lined U s1 l ep -> p ∈ l -> exists r ep', lined U s1 (p :: r) ep'.
Proof using Type.
  induction l as [|c r IH]; intros ep p Hl Hp; [inversion Hp|]. apply elem_of_cons in Hp as [->|Hp]; [eauto|].
  destruct Hl as (L & _ & _ & _ & _ & Hr). destruct r as [|q r]; [inversion Hp|]. destruct Hr as (l & e0 & _ & _ & _ & _ & _ & _ & Hr). eapply IH; eassumption.
Qed.
Lemma sf_out p : p ∈ cs -> exists v, fval sf (c_i p) FOutput (mem (ts sf)) = Some v /\ vsh v = c_sh p.
Proof using SU.
  intros Hp. destruct (lined_at cs e p (su_ln _ _ _ _ _ _ _ _ _ _ _ _ _ _ _ SU) Hp) as (r & ep & Hln).
  destruct (lined_stands U s1 (su_site _ _ _ _ _ _ _ _ _ _ _ _ _ _ _ SU) (p :: r) p r ep eq_refl Hln) as [Hst Hsh].
  pose proof (su_inv _ _ _ _ _ _ _ _ _ _ _ _ _ _ _ SU) as F. assert (HD : c_i p ∈ map c_i cs ++ []) by (rewrite app_nil_r; apply elem_of_list_fmap; eauto).
  destruct (fi_done _ _ _ _ _ _ _ F (c_i p) HD) as (L1' & L & n & d & sh & e' & D1 & D2 & D3 & D4 & D5 & D6 & D7 & D8 & D9 & D10 & D11 & D12 & [D13 D14] & D15 & D16).
  assert (e' = ep) as -> by (eapply stands_inj; eassumption).
  unfold outnode in D9. rewrite D2 in D9. cbn [mbind option_bind] in D9. destruct (lten L FOutput) as [to_|] eqn:Eo; [|discriminate]. cbn [mbind option_bind] in D9.
  assert (Hok : node_ok (ts sf) to_ n (c_sh p)) by (split; [exact D9|]; split; [assumption|]; split; [assumption|congruence]).
  destruct (node_ok_total _ _ _ _ (mem (ts sf)) Hok (le_n _)) as (v & E & Hv & _). exists v. split; [|exact Hv]. unfold fval, fnode, fid. rewrite D2. cbn [mbind option_bind]. rewrite Eo. cbn [mbind option_bind]. rewrite D9. exact E.
Qed.
Lemma held_seen M S st tids : held_by cs C sf top rest inp ni out s' M' ish M S st tids -> spine0 S cs /\ outs S cs.
Proof using All.
  intros [(-> & HL & Hc & Hm & Htg)|(sP & L & tgt & al & mo & lo & ocd & obp & orf & C2 & Wc & Wb & -> & FP & HR & Hc)].
  - split.
    + apply chain_spine. eapply at_chain; eassumption.
    + apply (outs_fval S cs (mem (ts sf))). intros p Hp. destruct (sf_out p Hp) as (v & E & Hv). exists v. split; [|exact Hv]. rewrite <- E.
      eapply at_val; try eassumption. apply seen_io.
  - pose proof (rn_live _ _ _ _ _ HR) as HV. split.
    + apply (spine_alike L S (lv_lays _ _ HV)). apply chain_spine. rewrite (su_cs _ _ _ _ _ _ _ _ _ _ _ _ _ _ _ SU). eapply ft_chain. eapply fp_fit. exact FP.
    + assert (HoL : outs L cs).
      { apply (outs_fval L cs (mem (ts sf))). intros p Hp. destruct (sf_out p Hp) as (v & E & Hv). exists v. split; [|exact Hv]. rewrite <- E.
        eapply (same_later rnd s0 cs n0 U s1 C W sf top rest e inp ni out SU s' M' ish Hnow HM lids Hlids HM1 Hish Htop Hpos sP L); try eassumption. apply seen_io. }
      intros p Hp. destruct (HoL p Hp) as (l & o & n & Hl & Ho & Hn & Hs). destruct (alike_l _ _ _ _ (lv_lays _ _ HV) Hl) as (l' & Hl' & A1 & A2 & A3 & A4 & A5 & A6 & _).
      exists l', o, n. split; [exact Hl'|]. split; [rewrite A6; exact Ho|]. split; [apply (lv_tens _ _ HV); exact Hn|exact Hs].
Qed.
End Hist.

(** What the numbering during Build and String together show. *)
Definition numbered (late : bool) S (M : model T) (ix : nat -> N) : Prop :=
  exists top n x, m_last M = Some top /\ BuildIx late (Datatypes.S (length (lays S))) (lays S) top no_indices = Some (n, x) /\ ix = ix_of x.
Lemma summary_ok late S M cs top rest : cs = top :: rest -> m_last M = Some (c_i top) -> NoDup (map c_i cs) -> length cs <= length (lays S) -> spine0 S cs -> outs S cs ->
  exists ix, numbered late S M ix /\ MString ix M S = (Ok (s_summary late cs), S).
Proof using Type.
  intros Ecs Hl Hnd Hlen Hsp Ho.
  destruct (build_ix late S cs top rest (Datatypes.S (length (lays S))) no_indices Ecs Hsp Hnd ltac:(lia) ltac:(auto)) as (x & E & Hix & _).
  exists (ix_of x). split; [exists (c_i top); eauto|]. unfold MString. rewrite Hl. cbn [the]. rewrite (mbnd_ok _ _ _ (c_i top) S) by reflexivity.
  rewrite (mbnd_ok _ _ _ (s_lines late cs) S); [reflexivity|]. unfold with_fuel. apply (push_ok late (ix_of x) S cs top rest); auto.
Qed.
Theorem summary_claim late rnd s m0 ks cs osh : is_chain (length (lays s)) m0 ks cs osh -> counts_up (T:=T) (2 * (length (lays s) + Datatypes.S (length ks)) + 1) -> tallies (length cs) ->
  exists par, starts rnd (in_of m0) par cs /\
    forall acts st os, thistory (in_of m0) osh cs (MkT [] par (still par) every) acts st os ->
      exists s' M tids ix, tprogram rnd m0 ks acts s = (Ok (seq (length (lays s)) (Datatypes.S (length ks)), (M, tids, os)), s') /\
        numbered late s' M ix /\ MString ix M s' = (Ok (s_summary late cs), s').
Proof using Type.
  intros (Hok & Hch & (top & rest & Ecs & Htop & Hosh) & Hpos) [Hcnt Htwo] Hty. subst osh.
  destruct (seq_net _ m0 ks cs Hok Hch) as (es & e0 & c & rest' & En & _).
  assert (Hms : length (seq_mks m0 ks) = Datatypes.S (length ks)) by (unfold seq_mks; cbn [length]; rewrite imap_length; reflexivity).
  destruct (build_net_ok s (seq_mks m0 ks) es 0 (length ks) En Hok ltac:(lia) ltac:(lia)) as (s2 & lo & tl & EB & Wd & _). rewrite Hms, Nat.add_0_r in EB. rewrite <- build_seq_eq in EB.
  destruct (made_setup rnd s2 (length (lays s)) m0 ks lo tl cs Wd Hok Hch Hcnt) as (s' & M' & U & s1 & C & W & sf & top' & rest2 & e & inp & ni & out & EC & SU & El & Et & (y & Em) & _ & H1 & H2 & H3 & H4 & H5 & Hish & Hfst).
  { intros k Hk. rewrite tally_number. apply Hty. exact Hk. }
  { exact Htwo. }
  pose proof (su_cs _ _ _ _ _ _ _ _ _ _ _ _ _ _ _ SU) as Ecs'. assert (top' = top /\ rest2 = rest) as [-> ->] by (rewrite Ecs in Ecs'; injection Ecs' as -> ->; auto). clear Ecs'.
  assert (Hmem : forall a v, mem (ts sf) !! a = Some v -> mem (ts s') !! a = Some v) by (intros a v Ha; rewrite Em; apply lookup_app_l_Some; exact Ha).
  assert (Hlat : later cs C sf s').
  { split; [rewrite El; apply alike_refl|]. split; [exact Et|]. split; [rewrite Em, app_length; lia|]. split; [|auto].
    pose proof (su_inv _ _ _ _ _ _ _ _ _ _ _ _ _ _ _ SU) as F. pose proof (fi_C _ _ _ _ _ _ _ F) as HC. unfold consts in *. rewrite Forall_forall in HC |- *. intros x Hx. apply Hmem. apply HC. exact Hx. }
  assert (HM : m_last M' = Some (c_i top) /\ m_output M' = Some out /\ m_input M' = Some inp /\ m_ff M' = Some (MkGraph (ctx (ts sf))) /\ m_bp M' = None) by auto.
  pose proof (chain_of_ids _ _ _ _ Hch) as Hids.
  assert (HM1 : m_first M' = last (map c_i cs)).
  { rewrite Hfst. rewrite <- (rev_involutive cs), map_rev, Hids. cbn [seq rev]. rewrite last_snoc. reflexivity. }
  assert (Hlids : forall k c, rev cs !! k = Some c -> seq (length (lays s)) (Datatypes.S (length ks)) !! k = Some (c_i c)) by (intros k c2 Hk; rewrite <- Hids, list_lookup_fmap, Hk; reflexivity).
  exists (net_par sf (mem (ts s'))). split.
  - eapply (starts_at rnd s2 cs _ U s1 C W sf top rest e inp ni out SU s' M' (in_of m0) Hlat HM _ Hlids HM1 Hish Htop Hpos _ Hmem cs e); [auto|apply SU|apply SU].
  - intros acts st os Hh.
    destruct (do_tacts_ok rnd s2 cs _ U s1 C W sf top rest e inp ni out SU s' M' (in_of m0) Hlat HM _ Hlids HM1 Hish Htop Hpos acts M' s' _ [] st os
      (held_start rnd s2 cs _ U s1 C W sf top rest e inp ni out SU s' M' (in_of m0) Hlat HM _ Hlids HM1 Hish Htop Hpos El) Hh) as (M3 & s3 & tids & ED & Hh3).
    destruct (held_seen rnd s2 cs _ U s1 C W sf top rest e inp ni out SU s' M' (in_of m0) Hlat HM _ Hlids HM1 Hish Htop Hpos M3 s3 st tids Hh3) as [Hsp Hou].
    destruct (held_ends rnd s2 cs _ U s1 C W sf top rest e inp ni out SU s' M' (in_of m0) Hlat HM _ Hlids HM1 Hish Htop Hpos M3 s3 st tids Hh3) as [Hlast _].
    destruct (held_strung rnd s2 cs _ U s1 C W sf top rest e inp ni out SU s' M' (in_of m0) Hlat HM _ Hlids HM1 Hish Htop Hpos M3 s3 st tids Hh3) as [Hstr _].
    pose proof (su_nd _ _ _ _ _ _ _ _ _ _ _ _ _ _ _ SU) as Hnd.
    destruct (summary_ok late s3 M3 cs top rest Ecs Hlast Hnd (strung_short s3 cs Hstr Hnd) Hsp Hou) as (ix & Hix & ES).
    exists s3, M3, tids, ix. split; [|auto]. unfold tprogram. rewrite (mbnd_ok _ _ _ _ _ EB). cbn [fst snd]. rewrite (mbnd_ok _ _ _ _ _ EC), (mbnd_ok _ _ _ _ _ ED). reflexivity.
Qed.
End StrChain.
