(** * FwdHist: histories of predictions with a network of any layers *)
From stdpp Require Import relations.
From Verif Require Import Base Num ModelTools ModelOps ModelTensor ModelGraph ModelLayer ModelModel Spec Denote NetSpec FwdSpec
  IndexProofs ExecProofs TensorFacts AccessProofs EagerProofs BuildProofs CompileProofs Agree FwdMask FwdBuild FwdSeg FwdOps FwdPool NetBuild NetChain
  NetExec NetFit FwdBody FwdExpr FwdDense FwdConv FwdAct FwdKer FwdDeconv FwdNet FwdCount FwdChain FwdRun FwdScript FwdProg.
From Verif Require NetRun NetRun3 NetRun4 NetRun7.
From Coq Require Import Lia ZifyBool ZifyNat ZifyN.

Section FwdHist.
Context {T : Type} `{Num T}.

(** ** Building *)
Lemma wired_nil (s : lst T) : wired s (length (lays s)) [] (fun _ => length (mem (ts s))) (fun _ => length (tens (ts s))).
Proof using Type. split; try reflexivity; try (cbn; lia). intros p m Hp. discriminate. Qed.
Lemma build_net_ok (s : lst T) ms es inp out : nets [] ms = Some es -> Forall mk_ok ms -> inp < length ms -> out < length ms ->
  exists s' lo tl, build_net ms inp out s = (Ok (seq (length (lays s)) (length ms), FromInOut (length (lays s) + inp) (length (lays s) + out)), s') /\
    wired s' (length (lays s)) ms lo tl /\ grown s s'.
Proof using Type.
  intros E Hok Hi Ho. destruct (makes_ok ms s _ [] _ _ [] es (wired_nil s) eq_refl Hok E) as (s' & lo & tl & Em & W & G). exists s', lo, tl.
  split; [|split; [exact W|exact G]]. unfold build_net. rewrite (mbnd_ok _ _ _ _ _ Em). cbn [length Nat.add].
  erewrite mbnd_ok by (unfold mlift, at_or_panic; rewrite ids_at by exact Hi; reflexivity).
  erewrite mbnd_ok by (unfold mlift, at_or_panic; rewrite ids_at by exact Ho; reflexivity). reflexivity.
Qed.
(** Pushing layer after layer makes the same calls. *)
Lemma mbnd_ext {S A B} (c : M S A) (f g : A -> M S B) s : (forall a s', f a s' = g a s') -> mbnd c f s = mbnd c g s.
Proof using Type. intros Hfg. unfold mbnd. destruct (c s) as [[a|e| |] s']; auto. Qed.
Lemma push_one_eq (ids : list nat) f l n (k : lay1 T) (s : lst T) : ids !! n = Some l ->
  push_one (ids, FromInOut f l) k s = mbnd (make ids (MOn k n)) (fun l' => mret (ids ++ [l'], FromInOut f l')) s.
Proof using Type.
  intros Hl. unfold push_one. cbn [make fst snd]. unfold MPush. cbn [FromInOut m_first m_last]. unfold mbnd, mlift, at_or_panic. rewrite Hl.
  destruct (make1 k s) as [[l'|x| |] s']; try reflexivity. destruct (Connect l' (Some l) s') as [[[]|x| |] s2]; reflexivity.
Qed.
Lemma push_seq_eq : forall (ks : list (lay1 T)) (ids : list nat) f l n (s : lst T), length ids = S n -> ids !! n = Some l ->
  push_seq (ids, FromInOut f l) ks s = mbnd (makes ids (imap (fun i k => MOn k (n + i)) ks)) (fun ids' => mbnd (mlift (at_or_panic ids' (n + length ks))) (fun o => mret (ids', FromInOut f o))) s.
Proof using Type.
  induction ks as [|k ks IH]; intros ids f l n s Hlen Hl; cbn [push_seq imap makes length].
  - rewrite Nat.add_0_r. unfold mbnd, mret, mlift, at_or_panic. rewrite Hl. reflexivity.
  - unfold mbnd at 1. rewrite (push_one_eq ids f l n k s Hl). rewrite NetRun7.mbnd_assoc. rewrite Nat.add_0_r. unfold mbnd at 1 2.
    destruct (make ids (MOn k n) s) as [[l'|e| |] s1]; try reflexivity. unfold mret at 1.
    rewrite (IH (ids ++ [l']) f l' (S n) s1); [|rewrite app_length; cbn; lia|rewrite lookup_app_r by lia; rewrite Hlen, Nat.sub_diag; reflexivity].
    assert (Ei : imap (fun i k => MOn k (S n + i)) ks = imap ((fun i k => MOn k (n + i)) ∘ S) ks) by (apply imap_ext; intros i x _; cbn; f_equal; lia).
    rewrite Ei. replace (S n + length ks) with (n + S (length ks)) by lia. reflexivity.
Qed.
Lemma build_seq_eq (m0 : mk T) ks (s : lst T) : build_seq m0 ks s = build_net (seq_mks m0 ks) 0 (length ks) s.
Proof using Type.
  unfold build_seq, build_net, seq_mks. cbn [makes]. rewrite NetRun7.mbnd_assoc. apply mbnd_ext. intros l s1. cbn [app].
  unfold MPush. cbn [NewModel m_first]. unfold mbnd at 1. unfold mret at 1. change (MkModel (Some l) (Some l) _ _ _ _ _ _ _ _ _ _ _) with (FromInOut (T:=T) l l).
  rewrite (push_seq_eq ks [l] l l 0 s1 eq_refl eq_refl). cbn [Nat.add].
  assert (Hh : forall ms' ids (s0 : lst T), match makes ids ms' s0 with (Ok ids', _) => exists x, ids' = ids ++ x | _ => True end).
  { induction ms' as [|m ms' IH]; intros ids s0; cbn [makes]; [exists []; rewrite app_nil_r; reflexivity|]. unfold mbnd. destruct (make ids m s0) as [[l'|e| |] s2]; auto.
    specialize (IH (ids ++ [l']) s2). destruct (makes (ids ++ [l']) ms' s2) as [[ids'|e| |] s3]; auto. destruct IH as [x ->]. exists (l' :: x). rewrite <- app_assoc. reflexivity. }
  unfold mbnd at 1 3. specialize (Hh (imap (fun (p : nat) (k : lay1 T) => MOn k p) ks) [l] s1). destruct (makes [l] _ s1) as [[ids'|e| |] s2]; try reflexivity. destruct Hh as [x ->].
  unfold mbnd at 2. unfold mlift at 2. unfold at_or_panic at 2. reflexivity.
Qed.

(** ** Compiling what was built *)
Section Site.
Context (s : lst T) (base : nat) (ms : list (mk T)) (lo tl : nat -> nat) (W : wired s base ms lo tl).
Lemma ins_pos es : nets [] ms = Some es -> forall p e q, es !! p = Some e -> q ∈ ins e -> part s (base + p) (base + q) /\ exists sh, in_shape ms q = Some sh.
Proof using W.
  intros E p. induction p as [p IH] using lt_wf_ind. intros e q He Hq.
  assert (Hp : p < length ms) by (rewrite <- (nets_len _ _ E); eapply lookup_lt_Some; exact He).
  destruct (lookup_lt_is_Some_2 _ _ Hp) as [m Hm]. destruct (nets_step _ _ _ _ E Hm) as (e' & He' & Hst & Hlt). assert (e' = e) as -> by congruence.
  destruct (w_laid _ _ _ _ _ W p m Hm) as (L & HL & _ & _ & _ & Hl).
  destruct m as [sh|i o a|k r|a b d]; cbn [net_step laid1] in *; rewrite ?Hlt in Hst.
  - injection Hst as <-. cbn [ins] in Hq. apply elem_of_list_singleton in Hq as ->. split; [apply rtc_refl|]. unfold in_shape. rewrite Hm. eauto.
  - injection Hst as <-. cbn [ins] in Hq. apply elem_of_list_singleton in Hq as ->. split; [apply rtc_refl|]. unfold in_shape. rewrite Hm. eauto.
  - destruct Hl as (Hpre & Hr & Hl). rewrite lookup_take in Hst by exact Hr. destruct (es !! r) as [e0|] eqn:Er; [|discriminate]. injection Hst as <-. cbn [ins] in Hq.
    destruct (IH r Hr e0 q Er Hq) as [H1 H2]. split; [|exact H2]. eapply rtc_l; [|exact H1]. exists L. auto.
  - destruct Hl as (Hk & Hpre & Ha & Hb). rewrite !lookup_take in Hst by assumption. destruct (es !! a) as [ea|] eqn:Ea; [|discriminate]. cbn [mbind option_bind] in Hst.
    destruct (es !! b) as [eb|] eqn:Eb; [|discriminate]. injection Hst as <-. cbn [ins] in Hq. apply elem_of_app in Hq as [Hq|Hq];
      [destruct (IH a Ha ea q Ea Hq) as [H1 H2]|destruct (IH b Hb eb q Eb Hq) as [H1 H2]]; (split; [|exact H2]); (eapply rtc_l; [|exact H1]); exists L; (split; [exact HL|]); right; exists (base + a), (base + b), d; auto.
Qed.
Lemma subs_ren f (e : net T) l k e0 : NLay l k e0 ∈ subs e -> NLay l (base + k) (ren f base e0) ∈ subs (ren f base e).
Proof using Type.
  clear W. induction e as [t|l' i e IH|i a IHa b IHb d]; cbn [subs ren]; intros Hin.
  - apply elem_of_list_singleton in Hin. discriminate.
  - apply elem_of_cons in Hin as [Hin|Hin]; [injection Hin as -> -> ->; apply elem_of_list_here|apply elem_of_list_further; auto].
  - apply elem_of_cons in Hin as [Hin|Hin]; [discriminate|]. apply elem_of_list_further. apply elem_of_app in Hin as [Hin|Hin]; apply elem_of_app; auto.
Qed.
Lemma compiled rnd es out e inp ish sh : nets [] ms = Some es -> es !! out = Some e -> in_shape ms inp = Some ish -> inp ∈ ins e -> nshape (in_shape ms) e = Some sh ->
  (forall k, 1 <= k <= 2 * (base + length ms) + 1 -> neqb (count (T:=T) k) nzero = false) -> (exists a b : T, a <> b) ->
  exists s' M' xb U s1 D C WW sf, Compile rnd (FromInOut (base + inp) (base + out)) s = (Ok M', s') /\
    ready rnd s' M' (base + out) (ren (tin s base) base e) sh (tin s base inp) ish xb U s1 D C WW sf /\
    (exists sb, s1 = emptied sb /\ stages rnd s (base + out) U sb sf s') /\ (forall t, insh s1 t = insh s t) /\
    (forall p, p ∈ ins e -> tin s base p = tin s base inp -> p = inp) /\
    (forall p, p ∈ ins e -> exists shp, in_shape ms p = Some shp /\ net_in s' (mem (ts s')) (tin s base p) = Some (V shp (replicate (N.to_nat (prodN shp)) nzero))) /\
    (forall l k e0 bs ws, NLay l k e0 ∈ subs e -> top_par (in_shape ms) (NLay l k e0) = Some (bs, ws) ->
       exists b w, net_par s' (mem (ts s')) (base + k) = Some (b, w) /\ drawn rnd bs b /\ drawn rnd ws w) /\
    m_last M' = Some (base + out) /\ (forall j L, j ∈ D -> lays s' !! j = Some L -> lflag L BSaved = false /\ lflag L BLoaded = false).
Proof using W.
  intros E He Hi Hin Hsh Hnz Htwo. assert (Hp : out < length ms) by (rewrite <- (nets_len _ _ E); eapply lookup_lt_Some; exact He).
  pose proof (wired_fresh _ _ _ _ _ W es out e sh E He Hsh) as F.
  destruct (in_here _ _ _ _ _ W inp ish Hi) as (Lf & b & HLf & Hpre & Hk & Ht & Hb & Hfit & Hlo & Hhi & Htl & Hz).
  assert (Hil : inp < length ms) by (unfold in_shape in Hi; destruct (ms !! inp) eqn:X; [eapply lookup_lt_Some; exact X|discriminate]).
  assert (Huniq : forall p shp, in_shape ms p = Some shp -> tin s base p = tin s base inp -> p = inp).
  { intros p shp Hps Heq. destruct (in_here _ _ _ _ _ W p shp Hps) as (L & b' & _ & _ & _ & _ & _ & _ & _ & _ & Htl' & _).
    assert (p < length ms) by (unfold in_shape in Hps; destruct (ms !! p) eqn:X; [eapply lookup_lt_Some; exact X|discriminate]).
    eapply (tin_apart _ _ _ _ _ W); [| |exact Htl'|exact Htl|exact Heq]; assumption. }
  destruct (Compile_any rnd s (FromInOut (base + inp) (base + out)) (base + out) _ sh (base + inp) (tin s base inp) ish b F) as (s' & M' & U & s1 & D & C & WW & sf & EC & R & Hsg & _ & K & Hmem & Hish & Hsf & Hfl & Hlast).
  - rewrite (w_len _ _ _ _ _ W). exact Hnz.
  - exact Htwo.
  - reflexivity.
  - reflexivity.
  - exists Lf. split; [exact (proj1 (ins_pos es E out e inp He Hin))|]. auto.
  - exact Hb.
  - pose proof (in_end _ _ _ _ _ W inp Hil). lia.
  - intros t n a Hs Hne Hn Ha Hib. destruct (source_at _ _ _ _ _ W t out Hp Hs) as (q & shq & bq & m & Hq & Hm & Hqi & -> & [bo Hbq] & _ & Hlo' & Hhi' & _). rewrite Hbq in Hn. injection Hn as <-. cbn [nmat] in Ha. apply blk_ops in Ha.
    apply Hne. f_equal. unfold inblock in Hib. apply (apart _ _ _ _ _ W q inp a a); lia.
  - exists s', M', b, U, s1, D, C, WW, sf. split; [exact EC|]. split; [exact R|]. split; [exact Hsg|]. split; [exact Hish|]. split; [|split; [|split; [|split; [rewrite Hlast; reflexivity|exact Hfl]]]].
    + intros p Hpin Heq. destruct (ins_pos es E out e p He Hpin) as (_ & shp & Hps). eapply Huniq; eassumption.
    + intros p Hpin. destruct (ins_pos es E out e p He Hpin) as (_ & shp & Hps). exists shp. split; [exact Hps|].
      destruct (in_here _ _ _ _ _ W p shp Hps) as (L & b' & _ & _ & _ & _ & [bo Hb'] & _ & _ & _ & _ & Hz'). unfold net_in.
      rewrite (kept_tval _ _ _ _ _ K Hb' ltac:(left; reflexivity)). unfold tval. cbn [mbind option_bind]. rewrite Hb'. cbn [mbind option_bind nmat]. unfold mval. cbn [blkm operands shape].
      rewrite <- (replicate_length (N.to_nat (prodN shp)) (nzero (T:=T))) at 1. erewrite rds_seq; [reflexivity|]. intros i Hil'. rewrite replicate_length in Hil'. rewrite lookup_replicate_2 by exact Hil'. apply Hmem. apply Hz'. exact Hil'.
    + intros l k e0 bs ws Hsub Htop. eapply (ready_drawn rnd); [exact R|exact Hsf|apply subs_ren; exact Hsub|].
      cbn [top_par] in Htop |- *. destruct (nshape (in_shape ms) e0) as [sh0|] eqn:E0; [|discriminate]. erewrite nshape_ren; [exact Htop| |exact E0].
      intros q shq Hq. destruct (in_here _ _ _ _ _ W q shq Hq) as (L & b' & _ & _ & _ & _ & [bo Hb'] & _). rewrite Hish. unfold insh. rewrite Hb'. reflexivity.
Qed.
End Site.

(** ** The user's tensors *)
Section Live.
Context (rnd : nat -> nat -> T).
Context (ms : list (mk T)) (base inp : nat) (e : net T) (par : nat -> option (vten T * vten T)) (tn : nat -> nat)
  (root : nat) (sh ish : list N) (xb : nat) (U : list nat) (s1 : lst T) (D : list nat) (C : list (nat * T)) (W : nat -> Prop) (sf : lst T).
Definition param (a : nat) : Prop := exists j L, j ∈ D /\ lays sf !! j = Some L /\ pcell (ts sf) L a.
Definition used (a : nat) : Prop := W a \/ inblock xb ish a \/ param a.
Lemma param_lt s M e' ti a : ready rnd s M root e' sh ti ish xb U s1 D C W sf -> param a -> a < length (mem (ts sf)) /\ a ∉ map fst C.
Proof using Type.
  intros R (j & L & Hj & HL & Ha). destruct (fi_more _ _ _ _ _ _ _ (rd_inv _ _ _ _ _ _ _ _ _ _ _ _ _ _ _ R) j Hj) as (L1 & L' & _ & HL' & _ & Hm). assert (L' = L) as -> by congruence.
  destruct (carries s1 L1); [exact (par_cells_pcell _ _ _ _ Hm Ha)|]. exfalso. eapply nopar_pcell; eassumption.
Qed.
Record live (s : lst T) (M : model T) (st : list (vten T)) (tids : list nat) : Prop := {
  lv_ready : ready rnd s M root (ren tn base e) sh (tn inp) ish xb U s1 D C W sf;
  lv_in : forall p, p ∈ ins e -> p <> inp -> net_in s (mem (ts s)) (tn p) = (shp ← in_shape ms p; Some (V shp (replicate (N.to_nat (prodN shp)) nzero)));
  lv_par : forall k, k ∈ pars e -> net_par s (mem (ts s)) (base + k) = par k;
  lv_store : Forall2 (fun v t => NetRun.reads (ts s) t (vsh v) (vdata v) /\ NetRun.clear_of used (ts s) t) st tids;
}.
Lemma used_lt s M st tids a : live s M st tids -> used a -> a < length (mem (ts s)).
Proof using Type.
  intros [R _ _ _]. pose proof (rd_inv _ _ _ _ _ _ _ _ _ _ _ _ _ _ _ R) as F. pose proof (rd_len _ _ _ _ _ _ _ _ _ _ _ _ _ _ _ R). pose proof (rd_end _ _ _ _ _ _ _ _ _ _ _ _ _ _ _ R). pose proof (fi_len _ _ _ _ _ _ _ F).
  intros [Hw|[Hb|Hp]]; [destruct (fi_W _ _ _ _ _ _ _ F a Hw); lia|unfold inblock in Hb; lia|destruct (param_lt _ _ _ _ _ R Hp); lia].
Qed.
Lemma store_at s M st tids i v : live s M st tids -> st !! i = Some v -> exists t, tids !! i = Some t /\ NetRun.reads (ts s) t (vsh v) (vdata v) /\ NetRun.clear_of used (ts s) t.
Proof using Type. intros Hl Hi. destruct (Forall2_lookup_l _ _ _ _ _ (lv_store _ _ _ _ Hl) Hi) as (t & Ht & Hr & Hc). eauto. Qed.
Lemma store_grow s M st tids (s' : lst T) nc y : live s M st tids -> tens (ts s') = tens (ts s) ++ [nc] -> length (mem (ts s)) <= length (mem (ts s')) ->
  (forall a w, ~ used a -> mem (ts s) !! a = Some w -> mem (ts s') !! a = Some w) ->
  mval (mem (ts s')) (nmat nc) = Some y -> length (vdata y) = N.to_nat (prodN (vsh y)) -> (forall a, Some a ∈ operands (nmat nc) -> length (mem (ts s)) <= a) ->
  Forall2 (fun v t => NetRun.reads (ts s') t (vsh v) (vdata v) /\ NetRun.clear_of used (ts s') t) (st ++ [y]) (tids ++ [length (tens (ts s))]).
Proof using Type.
  intros Hl Et Hlen Hm Hy Hyl Hc. pose proof (tle_app (ts s) (ts s') _ Et) as Ht. apply Forall2_app.
  - eapply Forall2_impl; [exact (lv_store _ _ _ _ Hl)|]. intros v t [Hr Hcl]. cbn beta. split.
    + eapply NetRun.reads_kept; [exact Ht|split; [exact Hlen|exact Hm]|exact Hcl|exact Hr].
    + eapply NetRun.clear_tle; [exact Ht|eapply NetRun4.reads_lt; exact Hr|exact Hcl].
  - constructor; [|constructor]. unfold mval in Hy. destruct (rds (mem (ts s')) (operands (nmat nc))) as [d|] eqn:Ed; [|discriminate]. injection Hy as <-. cbn [vsh vdata] in *. destruct nc as [kc mc]. cbn [nmat] in *.
    assert (En : tens (ts s') !! length (tens (ts s)) = Some (MkNode kc mc)) by (rewrite Et; apply list_lookup_middle; reflexivity).
    split.
    + exists kc, mc. auto.
    + intros k m x Ex Hx Hu. rewrite En in Ex. injection Ex as <- <-. pose proof (used_lt _ _ _ _ _ Hl Hu). specialize (Hc x Hx). lia.
Qed.

Context (Hone : forall p, p ∈ ins e -> tn p = tn inp -> p = inp).
Lemma live_pred s M st tids v : live s M st tids -> predicted s (tn inp) v (ren tn base e) = answer ms inp e par v.
Proof using Hone.
  intros [R Hi Hp _]. unfold predicted, answer. symmetry. apply nval_ren.
  - intros p Hpin. destruct (decide (p = inp)) as [->|Hne]; [rewrite decide_True by reflexivity; reflexivity|]. rewrite decide_False by (intros Heq; apply Hne; apply Hone; assumption). symmetry. apply Hi; assumption.
  - intros k Hk. symmetry. apply Hp. exact Hk.
Qed.
Lemma do_fact_ok s M st tids a st' o : live s M st tids -> fstep ish (answer ms inp e par) st a st' o ->
  exists s' tids', do_fact rnd (M, tids) a s = (Ok (M, tids', o), s') /\ live s' M st' tids' /\ rc s' = rc s /\ lays s' = lays s.
Proof using Hone.
  intros Hl Hs. inversion Hs as [? shv vs Hfit Hlen|? i x Hx|? i x y Hx Hxs Hans|? i x Hx Hne]; subst; cbn [do_fact].
  - destruct (NewFromValues_spec (ts s) vs shv Hfit) as (t' & ex & ops & E & Em & _ & En & Hh & _ & Hd).
    erewrite mbnd_ok by (apply liftT_ok; exact E). eexists _, _. split; [reflexivity|]. split; [|split; reflexivity].
    rewrite take_ge in Hh by lia. rewrite Hlen, Nat.sub_diag in Hh. cbn [replicate] in Hh. rewrite app_nil_r in Hh.
    assert (Ea : tens t' !! length (tens (ts s)) = Some (MkNode KMat (MkMat shv (GetIndexMul shv) ops false))) by (rewrite En; apply list_lookup_middle; reflexivity).
    assert (Hv : mval (mem t') (MkMat shv (GetIndexMul shv) ops false) = Some (V shv vs)) by (destruct Hh as (n & E0 & _ & Hv); rewrite Ea in E0; injection E0 as <-; exact Hv).
    pose proof (lv_ready _ _ _ _ Hl) as R.
    assert (Ks : keeps (ts s) t').
    { intros j n Hj. exists n. rewrite En. rewrite (lookup_app_l_Some _ _ _ _ Hj). repeat split; auto. }
    assert (Hin : forall p, p ∈ ins e -> net_in (MkL t' (lays s) (rc s)) (mem t') (tn p) = net_in s (mem (ts s)) (tn p)).
    { intros p Hp. assert (Hpi : tn p ∈ ins (ren tn base e)) by (rewrite ins_ren; apply elem_of_list_fmap; exists p; auto).
      pose proof (ready_inten _ _ _ _ _ _ _ _ _ _ _ _ _ _ _ _ R Hpi) as Hit. destruct (ready_in _ _ _ _ _ _ _ _ _ _ _ _ _ _ _ _ R Hit) as (n0 & n & Hn0 & Hn & E3 & E1 & Hset & Hc).
      unfold net_in. cbn [ts]. rewrite (kept_tval _ _ (mem t') _ _ Ks Hn Hset). unfold tval. cbn [mbind option_bind]. rewrite Hn. cbn [mbind option_bind].
      apply mval_off. intros a Ha. destruct (Hc a ltac:(rewrite <- E3 in Ha || idtac; exact Ha)) as [Hlt _]. rewrite Em. apply lookup_app_l.
      pose proof (rd_len _ _ _ _ _ _ _ _ _ _ _ _ _ _ _ R). pose proof (fi_len _ _ _ _ _ _ _ (rd_inv _ _ _ _ _ _ _ _ _ _ _ _ _ _ _ R)). lia. }
    split.
    + destruct R as [q1 q2 q3 q4 q5 q6 q7 q8 q9 q10 q11 q12 q13 q14 q15 q16 q17]. split; try assumption.
      * eapply keeps_trans; [exact q8|exact Ks].
      * cbn [ts mem]. rewrite Em, app_length. lia.
      * unfold consts in *. rewrite Forall_forall in q11 |- *. intros c Hc. cbn [ts mem]. rewrite Em. apply lookup_app_l_Some. apply q11. exact Hc.
    + intros p Hp Hne. cbn [ts]. rewrite Hin by exact Hp. apply (lv_in _ _ _ _ Hl); assumption.
    + intros k Hk. rewrite <- (lv_par _ _ _ _ Hl k Hk). assert (Hpi : base + k ∈ pars (ren tn base e)) by (rewrite pars_ren; apply elem_of_list_fmap; exists k; auto).
      destruct (ready_par _ _ _ _ _ _ _ _ _ _ _ _ _ _ _ _ R Hpi) as (L & _ & bs & ws & _ & _ & HL & Hob & How). unfold net_par. cbn [lays ts]. rewrite HL. cbn [mbind option_bind].
      pose proof (rd_keep _ _ _ _ _ _ _ _ _ _ _ _ _ _ _ R) as Kf.
      rewrite (kept_params _ _ _ _ _ _ (mem t') L (keeps_trans _ _ _ Kf Ks) Hob How), (kept_params _ _ _ _ _ _ (mem (ts s)) L Kf Hob How). eapply off_params; [exact Hob|exact How|].
      intros a Ha. rewrite Em. apply lookup_app_l. pose proof (rd_len _ _ _ _ _ _ _ _ _ _ _ _ _ _ _ R). assert (Hx : (length (mem (ts s1)) <= a < length (mem (ts sf))) /\ ~ W a) by tauto. lia.
    + eapply (store_grow s M st tids (MkL t' (lays s) (rc s)) (MkNode KMat _) (V shv vs) Hl); cbn [ts]; [exact En|rewrite Em, app_length; lia| |exact Hv|exact Hlen|].
      * intros a w _ Ha. rewrite Em. apply lookup_app_l_Some. exact Ha.
      * cbn [nmat operands]. intros a Ha. rewrite Forall_forall in Hd. destruct (Hd _ Ha) as (a' & [= <-] & Hge). lia.
  - destruct (store_at _ _ _ _ _ _ Hl Hx) as (t & Et & Hr & _). exists s, tids. split; [|auto].
    erewrite mbnd_ok by (apply NetRun4.ten_ok; exact Et). erewrite mbnd_ok by (eapply NetRun4.get_ok; exact Hr). reflexivity.
  - destruct (store_at _ _ _ _ _ _ Hl Hx) as (t & Et & Hr & Hcl). pose proof (lv_ready _ _ _ _ Hl) as R.
    erewrite mbnd_ok by (apply NetRun4.ten_ok; exact Et). destruct Hr as (kx & mx & Hxn & Hxs' & Hxr & Hxl).
    assert (Hmv : mval (mem (ts s)) (nmat (MkNode kx mx)) = Some x) by (unfold mval; cbn [nmat]; rewrite Hxr, Hxs'; destruct x; reflexivity).
    assert (Hclr : forall a, Some a ∈ operands (nmat (MkNode kx mx : node T)) -> ~ inblock xb ish a) by (cbn [nmat]; intros a Ha Hib; eapply (Hcl kx mx a Hxn Ha); right; left; exact Hib).
    pose proof (Predict_any rnd s M root _ sh (tn inp) ish xb U s1 D C W sf t _ x R Hxn Hmv Hxs ltac:(rewrite <- Hxs; exact Hxl) Hclr) as HP.
    rewrite (live_pred _ _ _ _ _ Hl), Hans in HP. destruct HP as (s' & nc & EP & R' & Ht & Hy & Hnew & Hys & Hyl & Hlay & Hrc & Hm & Hpar & Hin).
    exists s', (tids ++ [length (tens (ts s))]). split; [|split; [|split; [exact Hrc|exact Hlay]]].
    + erewrite mbnd_ok by (unfold attempt; rewrite EP; reflexivity). reflexivity.
    + assert (Hm' : forall a w, ~ used a -> mem (ts s) !! a = Some w -> mem (ts s') !! a = Some w) by (intros a w Hu; apply Hm; intros Hx'; apply Hu; [left|right; left]; exact Hx').
      split.
      * exact R'.
      * intros p Hp Hne. rewrite Hin by (rewrite ins_ren; apply elem_of_list_fmap; exists p; auto). rewrite decide_False by (intros Heq; apply Hne; apply Hone; assumption). apply (lv_in _ _ _ _ Hl); assumption.
      * intros k Hk. rewrite Hpar by (rewrite pars_ren; apply elem_of_list_fmap; exists k; auto). apply (lv_par _ _ _ _ Hl). exact Hk.
      * eapply (store_grow s M st tids s' nc y Hl Ht); [|exact Hm'|exact Hy|rewrite Hys; exact Hyl|exact Hnew].
        destruct (decide (length (mem (ts s)) <= length (mem (ts s')))) as [Hle|Hgt]; [exact Hle|]. exfalso.
        pose proof (rd_len _ _ _ _ _ _ _ _ _ _ _ _ _ _ _ R'). pose proof (fi_W _ _ _ _ _ _ _ (rd_inv _ _ _ _ _ _ _ _ _ _ _ _ _ _ _ R)) as HW.
        pose proof (rd_end _ _ _ _ _ _ _ _ _ _ _ _ _ _ _ R). pose proof (fi_len _ _ _ _ _ _ _ (rd_inv _ _ _ _ _ _ _ _ _ _ _ _ _ _ _ R)).
        destruct (lookup_lt_is_Some_2 (mem (ts s)) (length (mem (ts s')))) as [w Hw]; [lia|]. apply Hm' in Hw; [apply lookup_lt_Some in Hw; lia|].
        intros [Hu|[Hu|Hu]]; [destruct (HW _ Hu); lia|unfold inblock in Hu; lia|destruct (param_lt _ _ _ _ _ R Hu); lia].
  - destruct (store_at _ _ _ _ _ _ Hl Hx) as (t & Et & Hr & Hcl). pose proof (lv_ready _ _ _ _ Hl) as R. exists s, tids. split; [|auto].
    erewrite mbnd_ok by (apply NetRun4.ten_ok; exact Et).
    assert (Hblk : blk (ts s) (tn inp) ish xb).
    { destruct (rd_blk _ _ _ _ _ _ _ _ _ _ _ _ _ _ _ R) as [bb Hbb].
      destruct (keeps_trans _ _ _ (fi_keep _ _ _ _ _ _ _ (rd_inv _ _ _ _ _ _ _ _ _ _ _ _ _ _ _ R)) (rd_keep _ _ _ _ _ _ _ _ _ _ _ _ _ _ _ R) _ _ Hbb) as (n' & Hn' & Hk' & Hb' & E). destruct E as (X1 & X2 & X3); [left; reflexivity|]. cbn [nmat nkind] in *.
      exists (builded (nmat n')). rewrite Hn'. destruct n' as [kn mn]. destruct mn as [a1 a2 a3 a4]. cbn in *. subst. reflexivity. }
    destruct (NetRun3.Load_bad (ts s) (tn inp) ish xb t (vsh x) (vdata x) Hblk Hr Hne) as [err Eerr].
    assert (EP : attempt (Predict rnd M t) s = (Ok None, s)); [|rewrite (mbnd_ok _ _ _ _ _ EP); reflexivity]. unfold attempt, Predict. rewrite (rd_ff _ _ _ _ _ _ _ _ _ _ _ _ _ _ _ R). erewrite mbnd_ok by reflexivity. rewrite (rd_in _ _ _ _ _ _ _ _ _ _ _ _ _ _ _ R).
    erewrite mbnd_ok by reflexivity. unfold mbnd at 1. unfold liftT. rewrite Eerr. destruct s; reflexivity.
Qed.
Lemma do_facts_ok acts : forall s M st tids st' os, live s M st tids -> fhistory ish (answer ms inp e par) st acts st' os ->
  exists s' tids', do_facts rnd (M, tids) acts s = (Ok (M, tids', os), s') /\ live s' M st' tids' /\ rc s' = rc s /\ lays s' = lays s.
Proof using Hone.
  induction acts as [|a acts IH]; intros s M st tids st' os Hl Hh; inversion Hh as [|? ? stm o ? ? os' Hs Hh']; subst; cbn [do_facts].
  - exists s, tids. auto.
  - destruct (do_fact_ok s M st tids a stm o Hl Hs) as (sm & tm & E1 & Hlm & Hrc & Hly). rewrite (mbnd_ok _ _ _ _ _ E1). cbn [fst snd].
    destruct (IH sm M stm tm st' os' Hlm Hh') as (s' & t' & E2 & Hl' & Hrc' & Hly'). rewrite (mbnd_ok _ _ _ _ _ E2). cbn [fst snd]. exists s', t'. split; [reflexivity|]. split; [exact Hl'|]. split; congruence.
Qed.
(** A value the network does not give: the program panics. *)
Lemma do_fact_panic s M st tids i x : live s M st tids -> st !! i = Some x -> vsh x = ish -> answer ms inp e par x = None ->
  exists s', do_fact rnd (M, tids) (FPredict i) s = (Panic, s').
Proof using Hone.
  intros Hl Hx Hxs Hans. destruct (store_at _ _ _ _ _ _ Hl Hx) as (t & Et & Hr & Hcl). pose proof (lv_ready _ _ _ _ Hl) as R. cbn [do_fact].
  erewrite mbnd_ok by (apply NetRun4.ten_ok; exact Et). destruct Hr as (kx & mx & Hxn & Hxs' & Hxr & Hxl).
  assert (Hmv : mval (mem (ts s)) (nmat (MkNode kx mx)) = Some x) by (unfold mval; cbn [nmat]; rewrite Hxr, Hxs'; destruct x; reflexivity).
  assert (Hclr : forall a, Some a ∈ operands (nmat (MkNode kx mx : node T)) -> ~ inblock xb ish a) by (cbn [nmat]; intros a Ha Hib; eapply (Hcl kx mx a Hxn Ha); right; left; exact Hib).
  pose proof (Predict_any rnd s M root _ sh (tn inp) ish xb U s1 D C W sf t _ x R Hxn Hmv Hxs ltac:(rewrite <- Hxs; exact Hxl) Hclr) as HP.
  rewrite (live_pred _ _ _ _ _ Hl), Hans in HP. destruct HP as [s' EP]. eexists. unfold attempt, mbnd. rewrite EP. reflexivity.
Qed.
Lemma do_facts_app acts1 acts2 (st : model T * list nat) s r s' : do_facts rnd st acts1 s = (Ok r, s') ->
  do_facts rnd st (acts1 ++ acts2) s = match do_facts rnd (fst r) acts2 s' with (Ok r2, s2) => (Ok (fst r2, snd r ++ snd r2), s2) | (Err e0, s2) => (Err e0, s2) | (Panic, s2) => (Panic, s2) | (Diverge, s2) => (Diverge, s2) end.
Proof using Type.
  clear. revert st s r s'. induction acts1 as [|a acts IH]; intros st s r s' E; cbn [do_facts app] in *.
  - injection E as <- <-. cbn [fst snd app]. destruct (do_facts rnd st acts2 s) as [[[? ?]|?| |] ?]; reflexivity.
  - unfold mbnd in E |- *. destruct (do_fact rnd st a s) as [[q|e0| |] sq]; try discriminate. destruct (do_facts rnd (fst q) acts sq) as [[q2|e0| |] sq2] eqn:E2; try discriminate.
    unfold mret in E. injection E as <- <-. rewrite (IH _ _ _ _ E2). cbn [fst snd]. destruct (do_facts rnd (fst q2) acts2 sq2) as [[[? ?]|?| |] ?]; reflexivity.
Qed.
End Live.
End FwdHist.
