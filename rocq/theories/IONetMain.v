(** * IONetMain: programs that build, compile, use, save and load networks *)
From stdpp Require Import relations.
From Verif Require Import Base Num ModelTools ModelOps ModelTensor ModelGraph ModelLayer ModelModel ModelIO Spec NetSpec FwdSpec
  IndexProofs TensorFacts Agree FwdNet FwdChain FwdRun FwdScript FwdProg FwdHist FwdTotal FwdMain FwdClaims IOSpec IOProofs IONetSpec IONetWalk IONetRun.
From Coq Require Import Lia ZifyBool ZifyNat ZifyN Init.Byte.

Section IONetMain.
Context {T : Type} `{Num T}.

(** ** Positions *)
Lemma nets_placed (ms : list (mk T)) es : nets [] ms = Some es -> forall p e, es !! p = Some e -> (forall j, j ∈ nodes e -> j <= p) /\ placed (fun j => es !! j) e.
Proof using Type.
  intros E p. induction p as [p IH] using lt_wf_ind. intros e He.
  assert (Hp : p < length ms) by (rewrite <- (nets_len _ _ E); eapply lookup_lt_Some; exact He).
  destruct (lookup_lt_is_Some_2 _ _ Hp) as [m Hm]. destruct (nets_step _ _ _ _ E Hm) as (e' & He' & Hst & Hlt). assert (e' = e) as -> by congruence.
  destruct m as [sh|i o a|k r|a b d]; cbn [net_step] in Hst; rewrite ?Hlt in Hst.
  - injection Hst as <-. split; [intros j Hj; inversion Hj|exact I].
  - injection Hst as <-. cbn [nodes placed]. split; [intros j Hj; apply elem_of_list_singleton in Hj as ->; lia|]. split; [exact He|]. split; [intros Hj; inversion Hj|exact I].
  - destruct (take p es !! r) as [e0|] eqn:Er; [|discriminate]. injection Hst as <-. assert (Hr : r < p) by (apply lookup_lt_Some in Er; rewrite take_length in Er; lia).
    rewrite lookup_take in Er by exact Hr. destruct (IH r Hr e0 Er) as [H1 H2]. cbn [nodes placed]. split; [intros j Hj; apply elem_of_cons in Hj as [->|Hj]; [lia|specialize (H1 j Hj); lia]|].
    split; [exact He|]. split; [intros Hj; specialize (H1 p Hj); lia|exact H2].
  - destruct (take p es !! a) as [ea|] eqn:Ea; [|discriminate]. cbn [mbind option_bind] in Hst. destruct (take p es !! b) as [eb|] eqn:Eb; [|discriminate]. injection Hst as <-.
    assert (Ha : a < p) by (apply lookup_lt_Some in Ea; rewrite take_length in Ea; lia). assert (Hb : b < p) by (apply lookup_lt_Some in Eb; rewrite take_length in Eb; lia).
    rewrite lookup_take in Ea by exact Ha. rewrite lookup_take in Eb by exact Hb. destruct (IH a Ha ea Ea) as [H1 H2]. destruct (IH b Hb eb Eb) as [H3 H4]. cbn [nodes placed].
    split; [intros j Hj; apply elem_of_cons in Hj as [->|Hj]; [lia|apply elem_of_app in Hj as [Hj|Hj]; [specialize (H1 j Hj)|specialize (H3 j Hj)]; lia]|].
    split; [exact He|]. split; [intros Hj; specialize (H1 p Hj); lia|]. split; [intros Hj; specialize (H3 p Hj); lia|]. split; assumption.
Qed.
Lemma is_net_placed ms inp out (e : net T) ish sh : is_net ms inp out e ish sh -> exists at', placed at' e.
Proof using Type. intros [(es & E & He) _ _ _ _]. eexists. apply (nets_placed ms es E out e He). Qed.

(** ** Shapes of the parameters *)
Lemma pars_subs (e : net T) k : k ∈ pars e -> exists l e0, NLay l k e0 ∈ subs e /\ has_par l = true.
Proof using Type.
  induction e as [t|l i e IH|i a IHa b IHb d]; cbn [pars subs]; intros Hk; [inversion Hk| |].
  - apply elem_of_app in Hk as [Hk|Hk].
    + destruct (has_par l) eqn:Hl; [|inversion Hk]. apply elem_of_list_singleton in Hk as ->. exists l, e. split; [left|exact Hl].
    + destruct (IH Hk) as (l' & e0 & Hs & Hl). exists l', e0. split; [right; exact Hs|exact Hl].
  - apply elem_of_app in Hk as [Hk|Hk]; [destruct (IHa Hk) as (l' & e0 & Hs & Hl)|destruct (IHb Hk) as (l' & e0 & Hs & Hl)]; exists l', e0; (split; [right; apply elem_of_app; auto|exact Hl]).
Qed.
Lemma subs_shape (inp : nat -> option (list N)) (e : net T) : forall e0 sh, e0 ∈ subs e -> nshape inp e = Some sh -> exists sh0, nshape inp e0 = Some sh0.
Proof using Type.
  induction e as [t|l i e IH|i a IHa b IHb d]; intros e0 sh He Hs; cbn [subs] in He.
  - apply elem_of_list_singleton in He as ->. eauto.
  - apply elem_of_cons in He as [->|He]; [eauto|]. cbn [nshape] in Hs. apply bind_Some in Hs as (sh1 & Hs & _). eauto.
  - apply elem_of_cons in He as [->|He]; [eauto|]. cbn [nshape] in Hs. apply bind_Some in Hs as (sa & Hsa & Hs). apply bind_Some in Hs as (sb & Hsb & _). apply elem_of_app in He as [He|He]; eauto.
Qed.
Lemma par_shape_some (l : lspec T) sh sh' : has_par l = true -> lay_shape l sh = Some sh' -> exists p, par_shape l sh = Some p.
Proof using Type.
  intros Hl Hs. destruct l; try discriminate; cbn [par_shape lay_shape] in *; [eauto|..]; destruct sh as [|? [|? [|? [|? ?]]]]; try discriminate; eauto.
Qed.

(** ** Reading back *)
Section Back.
Context (c : codec T) (Hc : codec_ok c).
Definition alike (pa pb : params T) (k : nat) : Prop :=
  exists ba wa bb wb, pa k = Some (ba, wa) /\ pb k = Some (bb, wb) /\ vsh ba = vsh bb /\ vsh wa = vsh wb /\ length (vdata ba) = length (vdata bb) /\ length (vdata wa) = length (vdata wb).
Lemma alike_size pa pb k : alike pa pb k -> size c pb k = length (dump c (numbers pa k)).
Proof using Hc.
  intros (ba & wa & bb & wb & Ea & Eb & _ & _ & L1 & L2). rewrite dump_length by exact Hc. unfold size, numbers. rewrite Ea, Eb, !app_length. congruence.
Qed.
Lemma load_back rest : forall ks (pa pb : params T), NoDup ks -> (forall k, k ∈ ks -> alike pa pb k) ->
  forall k, load_pars c (dump c (content pa ks) ++ rest) ks pb k = if decide (k ∈ ks) then pa k else pb k.
Proof using Hc.
  induction ks as [|j ks IH]; intros pa pb HN Hal k; cbn [load_pars]; [destruct (decide (k ∈ [])) as [Hk|]; [inversion Hk|reflexivity]|].
  apply NoDup_cons in HN as [Hj HN]. assert (Hjk : alike pa pb j) by (apply Hal; left).
  assert (Ec : dump c (content pa (j :: ks)) ++ rest = dump c (numbers pa j) ++ (dump c (content pa ks) ++ rest)) by (unfold content; cbn [map concat]; rewrite (dump_app c); rewrite <- app_assoc; reflexivity).
  rewrite Ec, (alike_size pa pb j Hjk), drop_app. rewrite IH; [|exact HN|].
  - destruct (decide (k ∈ ks)) as [Hk|Hk]; [destruct (decide (k ∈ j :: ks)) as [|Hn]; [reflexivity|exfalso; apply Hn; right; exact Hk]|].
    destruct (decide (k = j)) as [->|Hne]; [|destruct (decide (k ∈ j :: ks)) as [Hk'|]; [apply elem_of_cons in Hk' as [?|?]; contradiction|reflexivity]].
    destruct (decide (j ∈ j :: ks)) as [_|Hn]; [|exfalso; apply Hn; left].
    destruct Hjk as (ba & wa & bb & wb & Ea & Eb & S1 & S2 & L1 & L2). rewrite Eb, Ea. cbn [fmap option_fmap option_map load1].
    assert (En : numbers pa j = vdata wa ++ vdata ba) by (unfold numbers; rewrite Ea; reflexivity). rewrite En, (dump_app c), <- !app_assoc.
    rewrite <- L2, <- (dump_length c Hc), drop_app, <- S1, <- S2. rewrite !fill_dump by (exact Hc || congruence). destruct ba, wa. reflexivity.
  - intros i Hi. destruct (Hal i ltac:(right; exact Hi)) as (ba & wa & bb & wb & Ea & Eb & X). exists ba, wa, bb, wb. split; [exact Ea|]. split; [|exact X]. cbn beta. rewrite decide_False by (intros ->; contradiction). exact Eb.
Qed.
Lemma content_like ks (pa pb : params T) : (forall k, k ∈ ks -> alike pa pb k) -> length (content pb ks) = length (content pa ks).
Proof using Type.
  unfold content. induction ks as [|j ks IH]; intros Hal; [reflexivity|]. cbn [map concat]. rewrite !app_length, IH by (intros k Hk; apply Hal; right; exact Hk). f_equal.
  destruct (Hal j ltac:(left)) as (ba & wa & bb & wb & Ea & Eb & _ & _ & L1 & L2). unfold numbers. rewrite Ea, Eb, !app_length. congruence.
Qed.
End Back.

(** ** Saving again *)
(** The layers with numbers between the output and the first join. *)
Fixpoint front (e : net T) : list nat :=
  match e with NIn _ => [] | NLay l i e' => front e' ++ (if has_par l then [i] else []) | NCat _ _ _ _ => [] end.
Fixpoint nocat (e : net T) : Prop := match e with NIn _ => True | NLay _ _ e' => nocat e' | NCat _ _ _ _ => False end.
Lemma walk_front at' (e : net T) : placed at' e -> nocat e -> forall done, (forall j, j ∈ done -> j ∉ nodes e) -> datas (walk_net e done) = front e.
Proof using Type.
  induction e as [t|l i e IH|i a IHa b IHb d]; cbn [placed nocat nodes walk_net front]; intros Hp Hn done Hd; [reflexivity| |contradiction].
  destruct Hp as (_ & Hi & Hp). destruct (decide (i ∈ done)) as [Hx|_]; [exfalso; apply (Hd i Hx); left|]. change (datas (Enter i :: ?x)) with (datas x). rewrite datas_app, IH; [|exact Hp|exact Hn|].
  - f_equal. destruct (has_par l); reflexivity.
  - intros j Hj Hjn. apply elem_of_cons in Hj as [->|Hj]; [contradiction|]. apply (Hd j Hj). right. exact Hjn.
Qed.
(** Marks on everything that the first walk came past, none on the chain. *)
Lemma walk_top (e : net T) : forall done, match e with NIn _ => True | NLay _ i _ | NCat i _ _ _ => i ∈ enters (walk_net e done) ++ done end.
Proof using Type.
  intros done. destruct e as [t|l i e|i a b d]; cbn [walk_net]; [exact I| |]; (destruct (decide (i ∈ done)); [apply elem_of_app; right; assumption|left]).
Qed.
Lemma walk_marked (e : net T) done : match e with NIn _ => True | NLay _ i _ | NCat i _ _ _ => i ∈ done end -> walk_net e done = [].
Proof using Type. destruct e as [t|l i e|i a b d]; cbn [walk_net]; intros Hi; [reflexivity| |]; rewrite decide_True by exact Hi; reflexivity. Qed.
Lemma walk_reset at' (e : net T) : placed at' e -> forall done0 done1,
  (forall j, j ∈ done0 -> j ∉ nodes e) -> (forall j, j ∈ chain e -> j ∉ done1) -> (forall j, j ∈ enters (walk_net e done0) -> j ∉ chain e -> j ∈ done1) -> datas (walk_net e done1) = front e.
Proof using Type.
  induction e as [t|l i e IH|i a IHa b IHb d]; cbn [placed nodes chain front]; intros Hp done0 done1 H0 H1 H2; [reflexivity| |].
  - destruct Hp as (_ & Hi & Hp). cbn [walk_net] in *. destruct (decide (i ∈ done0)) as [Hx|_]; [exfalso; apply (H0 i Hx); left|]. destruct (decide (i ∈ done1)) as [Hx|_]; [exfalso; exact (H1 i ltac:(left) Hx)|].
    change (datas (Enter i :: ?x)) with (datas x). rewrite datas_app. rewrite (IH Hp (i :: done0) (i :: done1)).
    + f_equal. destruct (has_par l); reflexivity.
    + intros j Hj Hjn. apply elem_of_cons in Hj as [->|Hj]; [contradiction|]. apply (H0 j Hj). right. exact Hjn.
    + assert (Hci : forall (e0 : net T) j, j ∈ chain e0 -> j ∈ nodes e0).
      { induction e0 as [t|l0 i0 e0 IH0|i0 a0 _ b0 _ d0]; cbn [chain nodes]; intros j Hj; [inversion Hj|apply elem_of_cons in Hj as [->|Hj]; [left|right; auto]|apply elem_of_list_singleton in Hj as ->; left]. }
      intros j Hj Hjd. apply elem_of_cons in Hjd as [->|Hjd]; [apply Hi; apply Hci; exact Hj|]. exact (H1 j ltac:(right; exact Hj) Hjd).
    + intros j Hj Hjc. destruct (decide (j = i)) as [->|Hne]; [left|]. right. apply H2; [change (enters (Enter i :: ?x)) with (i :: enters x); rewrite enters_app; right; apply elem_of_app; auto|].
      intros Hx. apply elem_of_cons in Hx as [?|?]; contradiction.
  - destruct Hp as (_ & Hia & Hib & _ & _). cbn [walk_net] in *. destruct (decide (i ∈ done0)) as [Hx|_]; [exfalso; apply (H0 i Hx); left|]. destruct (decide (i ∈ done1)) as [Hx|_]; [exfalso; exact (H1 i ltac:(left) Hx)|].
    cbv zeta in *. set (wa := walk_net a (i :: done0)) in *.
    assert (Ha : forall j, j ∈ enters wa -> j <> i -> j ∈ done1).
    { intros j Hj Hne. apply H2; [change (enters (Enter i :: ?x)) with (i :: enters x); rewrite enters_app; right; apply elem_of_app; auto|]. intros Hx. apply elem_of_list_singleton in Hx. contradiction. }
    assert (Hb : forall j, j ∈ enters (walk_net b (enters wa ++ i :: done0)) -> j <> i -> j ∈ done1).
    { intros j Hj Hne. apply H2; [change (enters (Enter i :: ?x)) with (i :: enters x); rewrite enters_app; right; apply elem_of_app; auto|]. intros Hx. apply elem_of_list_singleton in Hx. contradiction. }
    assert (Ea : walk_net a (i :: done1) = []).
    { apply walk_marked. pose proof (walk_top a (i :: done0)) as Ht. fold wa in Ht. destruct a as [t|l j a|j a a' d']; [exact I| |]; right; (apply elem_of_app in Ht as [Ht|Ht];
        [apply Ha; [exact Ht|intros ->; apply Hia; left]|exfalso; apply elem_of_cons in Ht as [->|Ht]; [apply Hia; left|apply (H0 j Ht); right; apply elem_of_app; left; left]]). }
    rewrite Ea. cbn [enters app flat_map].
    assert (Eb : walk_net b (i :: done1) = []).
    { apply walk_marked. pose proof (walk_top b (enters wa ++ i :: done0)) as Ht. destruct b as [t|l j b|j b b' d']; [exact I| |]; right; (apply elem_of_app in Ht as [Ht|Ht];
        [apply Hb; [exact Ht|intros ->; apply Hib; left]|apply elem_of_app in Ht as [Ht|Ht]; [apply Ha; [exact Ht|intros ->; apply Hib; left]|exfalso; apply elem_of_cons in Ht as [->|Ht]; [apply Hib; left|apply (H0 j Ht); right; apply elem_of_app; right; left]]]). }
    rewrite Eb. reflexivity.
Qed.
Lemma nocat_all (e : net T) : nocat e -> forall j, j ∈ nodes e -> j ∈ chain e.
Proof using Type. induction e as [t|l i e IH|i a IHa b IHb d]; cbn [nocat nodes chain]; intros Hn j Hj; [exact Hj| |contradiction]. apply elem_of_cons in Hj as [->|Hj]; [left|right; auto]. Qed.

(** ** Whole programs *)
Lemma ihistory_app (c : codec T) ms inp e ish x acts x1 os acts' x2 os' :
  ihistory c ms inp e ish x acts x1 os -> ihistory c ms inp e ish x1 acts' x2 os' -> ihistory c ms inp e ish x (acts ++ acts') x2 (os ++ os').
Proof using Type. induction 1 as [|? ? ? ? ? ? ? Hs Hh IH]; intros H2; [exact H2|]. cbn [app]. econstructor; [exact Hs|auto]. Qed.
Lemma ihistory_use (c : codec T) ms inp e ish par dS dL st acts st' os : fhistory ish (answer ms inp e par) st acts st' os ->
  ihistory c ms inp e ish (MkI par dS dL st) (map IUse acts) (MkI par dS dL st') (map OShow os).
Proof using Type. induction 1 as [|? ? ? ? ? ? ? Hs Hh IH]; cbn [map]; [constructor|]. econstructor; [constructor; exact Hs|exact IH]. Qed.

Section Claims.
Context (c : codec T) (Hc : codec_ok c) (ms : list (mk T)) (inp out : nat) (e : net T) (ish sh : list N).
Hypothesis HN : is_net ms inp out e ish sh.

Theorem io_claim (rnd : nat -> nat -> T) (s : lst T) : counts_up (T:=T) (2 * (length (lays s) + length ms) + 1) ->
  exists par, all_drawn rnd (in_shape ms) e par /\
    forall acts x os, ihistory c ms inp e ish (MkI par [] [] []) acts x os ->
      exists s' m tids, iprogram rnd (Some c) (build_net ms inp out) acts s = (Ok (seq (length (lays s)) (length ms), (m, tids, os)), s') /\
        (forall k, k ∈ pars e -> net_par s' (mem (ts s')) (length (lays s) + k) = i_par x k).
Proof using Hc HN.
  intros [Hnz Htwo]. destruct HN as [(es & E & He) Hi Hin Hsh Hok].
  assert (Hil : inp < length ms) by (unfold in_shape in Hi; destruct (ms !! inp) eqn:X; [eapply lookup_lt_Some; exact X|discriminate]).
  assert (Hol : out < length ms) by (rewrite <- (nets_len _ _ E); eapply lookup_lt_Some; exact He).
  destruct (build_net_ok s ms es inp out E Hok Hil Hol) as (s1 & lo & tl & EB & W & _).
  destruct (compiled s1 _ ms lo tl W rnd es out e inp ish sh E He Hi Hin Hsh Hnz Htwo) as (s2 & M' & xb & U & s0 & D & C & WW & sf & EC & R & _ & _ & Hone & Hz & Hd & Hlast & Hflag).
  set (base := length (lays s)) in *. set (par := fun k => net_par s2 (mem (ts s2)) (base + k)).
  assert (L0 : live rnd ms base inp e par (tin s1 base) (base + out) sh ish xb U s0 D C WW sf s2 M' [] []).
  { split; [exact R| |reflexivity|constructor]. intros p Hp _. destruct (Hz p Hp) as (shp & -> & Hv). exact Hv. }
  exists par. split; [exact Hd|]. intros acts x os Hh.
  assert (I0 : io_live rnd ms base inp e (tin s1 base) (base + out) sh ish xb U s0 D C WW sf s2 M' (MkI par [] [] []) []).
  { split; [exact L0|exact Hlast| |]; intros j L1 L Hj HL1 Hk HL; apply (Hflag j L); try exact HL; eapply part_D; eassumption. }
  destruct (do_iacts_ok rnd c Hc ms base inp e (tin s1 base) (base + out) sh ish xb U s0 D C WW sf Hone acts s2 M' _ [] x os I0 Hh) as (s3 & tids & ED & I3).
  exists s3, M', tids. split; [|exact (lv_par _ _ _ _ _ _ _ _ _ _ _ _ _ _ _ _ _ _ _ _ _ (il_live _ _ _ _ _ _ _ _ _ _ _ _ _ _ _ _ _ _ _ _ I3))].
  unfold iprogram. rewrite (mbnd_ok _ _ _ _ _ EB). cbn [fst snd]. rewrite (mbnd_ok _ _ _ _ _ EC), (mbnd_ok _ _ _ _ _ ED). reflexivity.
Qed.

(** The layers of a complete file, in order. *)
Definition file_layers : list nat := datas (walk_net e []).
Theorem layers_claim : NoDup file_layers /\ (forall k, k ∈ file_layers <-> k ∈ pars e).
Proof using HN. destruct (is_net_placed _ _ _ _ _ _ HN) as [at' Hp]. split; [apply walk_done|apply (walk_all at' e Hp)]. Qed.

Lemma answer_ext par par' x : (forall k, k ∈ pars e -> par k = par' k) -> answer ms inp e par x = answer ms inp e par' x.
Proof using Type. intros Hp. unfold answer. apply nval_ext; [reflexivity|exact Hp]. Qed.
Lemma fhistory_ext ans ans' : (forall x, ans x = ans' x) -> forall st acts st' os, fhistory (T:=T) ish ans st acts st' os -> fhistory ish ans' st acts st' os.
Proof using Type. clear - T ish. intros Ha st acts st' os Hx. induction Hx as [|? ? ? ? ? ? ? Hs Hh IH]; [constructor|]. econstructor; [|exact IH]. inversion Hs; subst; econstructor; eauto. rewrite <- Ha. assumption. Qed.

Lemma drawn_alike rndA rndB parA parB k : all_drawn rndA (in_shape ms) e parA -> all_drawn rndB (in_shape ms) e parB -> k ∈ pars e -> alike parA parB k.
Proof using HN.
  intros DA DB Hk. destruct (pars_subs e k Hk) as (l & e0 & Hs & Hl). destruct (subs_shape (in_shape ms) e _ _ Hs (isn_shape _ _ _ _ _ _ HN)) as [sh0 Hs0]. cbn [nshape] in Hs0. apply bind_Some in Hs0 as (sh1 & Hs1 & Hs0).
  destruct (par_shape_some _ _ _ Hl Hs0) as [[bq wq] Hp]. assert (Ht : top_par (in_shape ms) (NLay l k e0) = Some (bq, wq)) by (cbn [top_par]; rewrite Hs1; exact Hp).
  destruct (DA _ _ _ _ _ Hs Ht) as (ba' & wa' & Ea' & Hba & Hwa). destruct (DB _ _ _ _ _ Hs Ht) as (bb' & wb' & Eb' & Hbb & Hwb).
  destruct (drawn_shaped _ _ _ Hba) as [X1 X2]. destruct (drawn_shaped _ _ _ Hwa) as [X3 X4]. destruct (drawn_shaped _ _ _ Hbb) as [Y1 Y2]. destruct (drawn_shaped _ _ _ Hwb) as [Y3 Y4].
  exists ba', wa', bb', wb'. repeat split; congruence.
Qed.

Theorem round_trip (rndA rndB : nat -> nat -> T) (sA sB : lst T) :
  counts_up (T:=T) (2 * (length (lays sA) + length ms) + 1) -> counts_up (T:=T) (2 * (length (lays sB) + length ms) + 1) ->
  exists parA parB file, all_drawn rndA (in_shape ms) e parA /\ all_drawn rndB (in_shape ms) e parB /\ file = dump c (content parA file_layers) /\
    (forall acts st os, fhistory ish (answer ms inp e parA) [] acts st os -> exists s' m tids,
       iprogram rndA (Some c) (build_net ms inp out) (map IUse acts ++ [ISave None]) sA =
         (Ok (seq (length (lays sA)) (length ms), (m, tids, map OShow os ++ [OFile true file])), s')) /\
    (forall rest acts1 st1 os1 acts2 st2 os2, fhistory ish (answer ms inp e parB) [] acts1 st1 os1 -> fhistory ish (answer ms inp e parA) st1 acts2 st2 os2 -> exists s' m tids,
       iprogram rndB (Some c) (build_net ms inp out) (map IUse acts1 ++ ILoad (file ++ rest) :: map IUse acts2) sB =
         (Ok (seq (length (lays sB)) (length ms), (m, tids, map OShow os1 ++ OLeft true rest :: map OShow os2)), s') /\
       (forall k, k ∈ pars e -> net_par s' (mem (ts s')) (length (lays sB) + k) = parA k)).
Proof using Hc HN.
  intros CA CB. destruct (io_claim rndA sA CA) as (parA & DA & PA). destruct (io_claim rndB sB CB) as (parB & DB & PB).
  exists parA, parB, (dump c (content parA file_layers)). split; [exact DA|]. split; [exact DB|]. split; [reflexivity|].
  destruct layers_claim as [HND Hall]. split.
  - intros acts st os Hh. edestruct PA as (s' & m & tids & E & _); [|exists s', m, tids; exact E].
    eapply ihistory_app; [apply ihistory_use; exact Hh|]. econstructor; [|constructor].
    change (OFile true (dump c (content parA file_layers))) with (OFile (T:=T) (fits_room None (length (dump c (content parA file_layers)))) (cut None (dump c (content parA file_layers)))). constructor; reflexivity.
  - intros rest acts1 st1 os1 acts2 st2 os2 H1 H2.
    assert (Hal : forall k, k ∈ file_layers -> alike parA parB k) by (intros k Hk; apply Hall in Hk; eapply drawn_alike; eassumption).
    set (file := dump c (content parA file_layers)). set (par2 := load_pars c (file ++ rest) file_layers parB).
    assert (E2 : forall k, k ∈ pars e -> par2 k = parA k) by (intros k Hk; unfold par2, file; rewrite (load_back c Hc) by (assumption); rewrite decide_True by (apply Hall; exact Hk); reflexivity).
    assert (En : length (content parB file_layers) * cwidth c = length file) by (unfold file; rewrite (dump_length c Hc), (content_like file_layers parA parB Hal); reflexivity).
    destruct (PB (map IUse acts1 ++ ILoad (file ++ rest) :: map IUse acts2) (MkI par2 [] (enters (upto (size c parB) (Some (length (file ++ rest))) (walk_net e [])) ++ []) st2) (map OShow os1 ++ OLeft true rest :: map OShow os2)) as (s' & m & tids & E & Ek).
    { eapply ihistory_app; [apply ihistory_use; exact H1|]. econstructor.
      - replace (OLeft true rest) with (OLeft (T:=T) (length (content parB file_layers) * cwidth c <=? length (file ++ rest)) (drop (length (content parB file_layers) * cwidth c) (file ++ rest))).
        + constructor; reflexivity.
        + rewrite En, drop_app, app_length. f_equal. apply Nat.leb_le. lia.
      - apply ihistory_use. eapply fhistory_ext; [|exact H2]. intros x. apply answer_ext. intros k Hk. symmetry. apply E2. exact Hk. }
    exists s', m, tids. split; [exact E|]. intros k Hk. rewrite (Ek k Hk). apply E2. exact Hk.
Qed.

(** Save, save, reset, save. *)
Theorem again_claim (rnd : nat -> nat -> T) (s : lst T) : counts_up (T:=T) (2 * (length (lays s) + length ms) + 1) ->
  exists par, all_drawn rnd (in_shape ms) e par /\
    forall acts st os, fhistory ish (answer ms inp e par) [] acts st os -> exists s' m tids,
      iprogram rnd (Some c) (build_net ms inp out) (map IUse acts ++ [ISave None; ISave None; IResetSave; ISave None]) s =
        (Ok (seq (length (lays s)) (length ms), (m, tids, map OShow os ++
           [OFile true (dump c (content par file_layers)); OFile true []; ODone; OFile true (dump c (content par (front e)))])), s').
Proof using Hc HN.
  intros CA. destruct (io_claim rnd s CA) as (par & DA & PA). exists par. split; [exact DA|]. intros acts st os Hh.
  destruct (is_net_placed _ _ _ _ _ _ HN) as [at' Hp].
  assert (Eup : forall sz l, upto sz None l = l) by (intros sz; induction l as [|[i|k] l IH]; cbn [upto]; rewrite ?IH; reflexivity).
  set (d1 := enters (walk_net e []) ++ []).
  assert (W2 : walk_net e d1 = []) by (apply (walk_again e []); intros j Hj; exact Hj).
  assert (W3 : datas (walk_net e (unmark (chain e) d1)) = front e).
  { apply (walk_reset at' e Hp []).
    - intros j Hj. inversion Hj.
    - intros j Hj Hx. apply unmark_in in Hx. apply Hx. exact Hj.
    - intros j Hj Hn. apply unmark_in. split; [apply elem_of_app; auto|exact Hn]. }
  edestruct PA as (s' & m & tids & E & _); [|exists s', m, tids; exact E].
  eapply ihistory_app; [apply ihistory_use; exact Hh|].
  assert (Hsv : forall par dS dL st, ihistory c ms inp e ish (MkI par dS dL st) [ISave None] (MkI par (enters (walk_net e dS) ++ dS) dL st) [OFile true (dump c (content par (datas (walk_net e dS))))]).
  { intros par0 dS dL st0. econstructor; [|constructor]. rewrite <- (Eup (size c par0) (walk_net e dS)) at 1.
    change (OFile true ?f) with (OFile (T:=T) (fits_room None (length f)) (cut None f)). constructor; reflexivity. }
  change [ISave None; ISave None; IResetSave; ISave None] with ([ISave None] ++ [ISave None] ++ [IResetSave] ++ [ISave (T:=T) None]).
  change [OFile true (dump c (content par file_layers)); OFile true []; ODone; OFile true (dump c (content par (front e)))] with
    ([OFile true (dump c (content par file_layers))] ++ [OFile true (dump c (content par []))] ++ [ODone] ++ [OFile (T:=T) true (dump c (content par (front e)))]).
  eapply ihistory_app; [apply Hsv|]. eapply ihistory_app; [|].
  { fold d1. pose proof (Hsv par d1 [] st) as H1. rewrite W2 in H1. exact H1. }
  eapply ihistory_app; [econstructor; [constructor|constructor]|]. cbn [enters flat_map app]. rewrite <- W3. apply Hsv.
Qed.
Theorem front_claim : nocat e -> front e = file_layers.
Proof using HN. intros Hn. destruct (is_net_placed _ _ _ _ _ _ HN) as [at' Hp]. symmetry. apply (walk_front at' e Hp Hn). intros j Hj. inversion Hj. Qed.

(** ** Trying again after a failure *)
Lemma chain_nodes (e0 : net T) j : j ∈ chain e0 -> j ∈ nodes e0.
Proof using Type. clear. induction e0 as [t|l i e IH|i a _ b _ d]; cbn [chain nodes]; intros Hj; [exact Hj|apply elem_of_cons in Hj as [->|Hj]; [left|right; auto]|apply elem_of_list_singleton in Hj as ->; left]. Qed.
Lemma upto_enters sz l : forall n j, j ∈ enters (upto sz n l) -> j ∈ enters l.
Proof using Type.
  clear. induction l as [|[i|k] l IH]; intros n j Hj; cbn [upto] in Hj; [exact Hj| |].
  - change (enters (Enter i :: ?x)) with (i :: enters x) in *. apply elem_of_cons in Hj as [->|Hj]; [left|right; eauto].
  - change (enters (Data k :: ?x)) with (enters x) in *. destruct n as [m|]; [destruct (m <? sz k); [inversion Hj|]|]; eapply IH; exact Hj.
Qed.
Lemma walk_stuck sz n done : walk_net e (enters (upto sz n (walk_net e done)) ++ done) = [].
Proof using Type.
  clear. apply walk_marked. destruct e as [t|l i e0|i a b d]; [exact I| |]; cbn [walk_net]; (destruct (decide (i ∈ done)); [apply elem_of_app; right; assumption|left]).
Qed.
Lemma walk_unstuck sz n : nocat e -> unmark (chain e) (enters (upto sz n (walk_net e [])) ++ []) = [].
Proof using Type.
  clear HN. intros Hn. apply elem_of_nil_inv. intros j Hj. apply unmark_in in Hj as [Hj Hc0]. apply Hc0. apply nocat_all; [exact Hn|]. rewrite app_nil_r in Hj. apply upto_enters in Hj. eapply walk_nodes. exact Hj.
Qed.
Lemma alike_load pa ks : forall r pb k, alike pa pb k -> alike pa (load_pars c r ks pb) k.
Proof using Hc.
  clear HN. induction ks as [|j ks IH]; intros r pb k Hal; cbn [load_pars]; [exact Hal|]. apply IH. destruct Hal as (ba & wa & bb & wb & Ea & Eb & S1 & S2 & L1 & L2). unfold alike. destruct (decide (k = j)) as [->|]; [|exists ba, wa, bb, wb; auto 10].
  rewrite Eb. cbn [fmap option_fmap option_map load1]. eexists ba, wa, _, _. split; [exact Ea|]. split; [reflexivity|]. cbn [vsh vdata]. rewrite !fill_length. auto.
Qed.
Lemma hist_save par dS dL st rm : ihistory c ms inp e ish (MkI par dS dL st) [ISave rm] (MkI par (enters (upto (size c par) rm (walk_net e dS)) ++ dS) dL st)
  [OFile (fits_room rm (length (dump c (content par (datas (walk_net e dS)))))) (cut rm (dump c (content par (datas (walk_net e dS)))))].
Proof using Type. clear HN Hc. econstructor; [constructor; reflexivity|constructor]. Qed.
Lemma hist_load par dS dL st r : ihistory c ms inp e ish (MkI par dS dL st) [ILoad r] (MkI (load_pars c r (datas (walk_net e dL)) par) dS (enters (upto (size c par) (Some (length r)) (walk_net e dL)) ++ dL) st)
  [OLeft (length (content par (datas (walk_net e dL))) * cwidth c <=? length r) (drop (length (content par (datas (walk_net e dL))) * cwidth c) r)].
Proof using Type. clear HN Hc. econstructor; [constructor; reflexivity|constructor]. Qed.

Theorem stuck_claim (rnd : nat -> nat -> T) (s : lst T) : counts_up (T:=T) (2 * (length (lays s) + length ms) + 1) ->
  exists par, all_drawn rnd (in_shape ms) e par /\ forall acts st os, fhistory ish (answer ms inp e par) [] acts st os ->
    let file := dump c (content par file_layers) in
    (forall room, exists s' m tids, iprogram rnd (Some c) (build_net ms inp out) (map IUse acts ++ [ISave room; ISave None]) s =
        (Ok (seq (length (lays s)) (length ms), (m, tids, map OShow os ++ [OFile (fits_room room (length file)) (cut room file); OFile true []])), s')) /\
    (forall r r2, exists s' m tids, iprogram rnd (Some c) (build_net ms inp out) (map IUse acts ++ [ILoad r; ILoad r2]) s =
        (Ok (seq (length (lays s)) (length ms), (m, tids, map OShow os ++ [OLeft (length file <=? length r) (drop (length file) r); OLeft true r2])), s') /\
        (forall k, k ∈ pars e -> net_par s' (mem (ts s')) (length (lays s) + k) = load_pars c r file_layers par k)).
Proof using Hc HN.
  intros CA. destruct (io_claim rnd s CA) as (par & DA & PA). exists par. split; [exact DA|]. intros acts st os Hh file. split.
  - intros room. edestruct PA as (s' & m & tids & E & _); [|exists s', m, tids; exact E]. eapply ihistory_app; [apply ihistory_use; exact Hh|].
    eapply (ihistory_app c ms inp e ish _ [ISave room] _ [_] [ISave None] _ [_]); [apply hist_save|]. pose proof (hist_save par (enters (upto (size c par) room (walk_net e [])) ++ []) [] st None) as H1. rewrite walk_stuck in H1. exact H1.
  - intros r r2. set (d1 := enters (upto (size c par) (Some (length r)) (walk_net e [])) ++ []). set (par1 := load_pars c r file_layers par).
    edestruct (PA (map IUse acts ++ [ILoad r; ILoad r2]) (MkI par1 [] d1 st)) as (s' & m & tids & E & Ek); [|exists s', m, tids; split; [exact E|exact Ek]]. eapply ihistory_app; [apply ihistory_use; exact Hh|].
    eapply (ihistory_app c ms inp e ish _ [ILoad r] _ [_] [ILoad r2] _ [_]).
    + pose proof (hist_load par [] [] st r) as H1. unfold file. rewrite (dump_length c Hc). exact H1.
    + pose proof (hist_load par1 [] d1 st r2) as H1. assert (Ew : walk_net e d1 = []) by apply walk_stuck. rewrite Ew in H1. exact H1.
Qed.
Theorem retry_claim (rndA rndB : nat -> nat -> T) (sA sB : lst T) : nocat e ->
  counts_up (T:=T) (2 * (length (lays sA) + length ms) + 1) -> counts_up (T:=T) (2 * (length (lays sB) + length ms) + 1) ->
  exists parA parB file, all_drawn rndA (in_shape ms) e parA /\ all_drawn rndB (in_shape ms) e parB /\ file = dump c (content parA file_layers) /\
    (forall acts st os room, fhistory ish (answer ms inp e parA) [] acts st os -> exists s' m tids,
       iprogram rndA (Some c) (build_net ms inp out) (map IUse acts ++ [ISave room; IResetSave; ISave None]) sA =
         (Ok (seq (length (lays sA)) (length ms), (m, tids, map OShow os ++ [OFile (fits_room room (length file)) (cut room file); ODone; OFile true file])), s')) /\
    (forall r rest acts1 st1 os1 acts2 st2 os2, fhistory ish (answer ms inp e parB) [] acts1 st1 os1 -> fhistory ish (answer ms inp e parA) st1 acts2 st2 os2 -> exists s' m tids,
       iprogram rndB (Some c) (build_net ms inp out) (map IUse acts1 ++ [ILoad r; IResetLoad; ILoad (file ++ rest)] ++ map IUse acts2) sB =
         (Ok (seq (length (lays sB)) (length ms), (m, tids, map OShow os1 ++ [OLeft (length file <=? length r) (drop (length file) r); ODone; OLeft true rest] ++ map OShow os2)), s') /\
       (forall k, k ∈ pars e -> net_par s' (mem (ts s')) (length (lays sB) + k) = parA k)).
Proof using Hc HN.
  intros Hnc CA CB. destruct (io_claim rndA sA CA) as (parA & DA & PA). destruct (io_claim rndB sB CB) as (parB & DB & PB).
  exists parA, parB, (dump c (content parA file_layers)). split; [exact DA|]. split; [exact DB|]. split; [reflexivity|].
  destruct layers_claim as [HND Hall]. split.
  - intros acts st os room Hh. edestruct PA as (s' & m & tids & E & _); [|exists s', m, tids; exact E].
    eapply ihistory_app; [apply ihistory_use; exact Hh|]. eapply (ihistory_app c ms inp e ish _ [ISave room] _ [_] [IResetSave; ISave None] _ [_; _]); [apply hist_save|].
    eapply ih_cons; [constructor|]. rewrite (walk_unstuck _ _ Hnc). apply hist_save.
  - intros r rest acts1 st1 os1 acts2 st2 os2 H1 H2.
    assert (Hal : forall k, k ∈ file_layers -> alike parA parB k) by (intros k Hk; apply Hall in Hk; eapply drawn_alike; eassumption).
    set (file := dump c (content parA file_layers)). set (par1 := load_pars c r file_layers parB). set (par2 := load_pars c (file ++ rest) file_layers par1).
    assert (Hal1 : forall k, k ∈ file_layers -> alike parA par1 k) by (intros k Hk; apply alike_load; apply Hal; exact Hk).
    assert (E2 : forall k, k ∈ pars e -> par2 k = parA k) by (intros k Hk; unfold par2, file; rewrite (load_back c Hc) by (assumption); rewrite decide_True by (apply Hall; exact Hk); reflexivity).
    assert (En : length (content parB file_layers) * cwidth c = length file) by (unfold file; rewrite (dump_length c Hc), (content_like file_layers parA parB Hal); reflexivity).
    assert (En1 : length (content par1 file_layers) * cwidth c = length file) by (unfold file; rewrite (dump_length c Hc), (content_like file_layers parA par1 Hal1); reflexivity).
    destruct (PB (map IUse acts1 ++ [ILoad r; IResetLoad; ILoad (file ++ rest)] ++ map IUse acts2) (MkI par2 [] (enters (upto (size c par1) (Some (length (file ++ rest))) (walk_net e [])) ++ []) st2)
      (map OShow os1 ++ [OLeft (length file <=? length r) (drop (length file) r); ODone; OLeft true rest] ++ map OShow os2)) as (s' & m & tids & E & Ek).
    { eapply ihistory_app; [apply ihistory_use; exact H1|]. eapply ihistory_app.
      - eapply (ihistory_app c ms inp e ish _ [ILoad r] _ [_] [IResetLoad; ILoad (file ++ rest)] _ [_; _]).
        + pose proof (hist_load parB [] [] st1 r) as X. fold file_layers in X. rewrite En in X. exact X.
        + eapply ih_cons; [constructor|]. rewrite (walk_unstuck _ _ Hnc). pose proof (hist_load par1 [] [] st1 (file ++ rest)) as X. fold file_layers in X. rewrite En1, drop_app in X.
          rewrite (proj2 (Nat.leb_le _ _)) in X by (rewrite app_length; lia). exact X.
      - apply ihistory_use. eapply fhistory_ext; [|exact H2]. intros x. apply answer_ext. intros k Hk. symmetry. apply E2. exact Hk. }
    exists s', m, tids. split; [exact E|]. intros k Hk. rewrite (Ek k Hk). apply E2. exact Hk.
Qed.
End Claims.
End IONetMain.
