(** * NetRun5: the trainable flags, and whole histories of actions *)
From Verif Require Import Base Num ModelTools ModelOps ModelTensor ModelGraph ModelLayer ModelModel
  Spec Denote ObjSpec IndexProofs ExecProofs TensorFacts AccessProofs EagerProofs
  NetSpec NetExec NetBack NetBuild NetChain NetChain2 NetChain3 NetFit NetMem NetRun NetRun2 NetScript NetRun3 NetRun4.
From Coq Require Import Lia ZifyBool ZifyNat ZifyN.

Section NetRun5.
Context {T : Type} `{Num T}.

(** ** The same stack with other flags *)
Definition sim1 (sp sp' : lsp (T:=T)) : Prop :=
  s_id sp' = s_id sp /\ s_o sp' = s_o sp /\ s_act sp' = s_act sp /\ s_out sp' = s_out sp /\ s_ob sp' = s_ob sp.
Definition simn (l l' : slayer T) : Prop := exists b, l' = set_strain b l.

Lemma sim_sid0 (rst rst' : list (lsp (T:=T))) : Forall2 sim1 rst rst' -> map s_id rst' = map s_id rst.
Proof. induction 1 as [|? ? ? ? (E & _) _ IH]; cbn; [reflexivity|]. rewrite E, IH. reflexivity. Qed.
Section Sim.
Context (sr : src) (rst rst' : list (lsp (T:=T))) (Hsim : Forall2 sim1 rst rst').
Lemma sim_pre : pre_of sr rst' = pre_of sr rst.
Proof. destruct Hsim as [|? ? ? ? (E & _)]; cbn; congruence. Qed.
Lemma sim_width : width_of sr rst' = width_of sr rst.
Proof. destruct Hsim as [|? ? ? ? (? & E & _)]; cbn; congruence. Qed.
Lemma sim_inp : inp_of sr rst' = inp_of sr rst.
Proof. destruct Hsim as [|? ? ? ? (? & ? & ? & E & _)]; cbn; congruence. Qed.
Lemma sim_base : base_of sr rst' = base_of sr rst.
Proof. destruct Hsim as [|? ? ? ? (? & ? & ? & ? & E)]; cbn; congruence. Qed.
Lemma sim_sh : sh_of sr rst' = sh_of sr rst.
Proof. destruct Hsim as [|? ? ? ? (? & E & _)]; cbn; congruence. Qed.
Lemma sim_ids : ids sr rst' = ids sr rst.
Proof. unfold ids. rewrite (sim_sid0 _ _ Hsim). reflexivity. Qed.
End Sim.
Lemma sim_sizes sr (rst rst' : list (lsp (T:=T))) : Forall2 sim1 rst rst' -> sizes_ok sr rst -> sizes_ok sr rst'.
Proof.
  induction 1 as [|sp sp' rst rst' (_ & E & _) Hs IH]; cbn; [auto|]. rewrite E, (sim_width sr _ _ Hs). intros (? & ? & ?). auto.
Qed.
Lemma sim_outs sr (rst rst' : list (lsp (T:=T))) A : Forall2 sim1 rst rst' -> outs_ok sr rst A -> outs_ok sr rst' A.
Proof.
  induction 1 as [|sp sp' rst rst' (_ & E & _ & _ & E2) Hs IH]; cbn; [auto|].
  rewrite E, E2, (sim_width sr _ _ Hs), (sim_base sr _ _ Hs). intros (? & ? & ?). auto.
Qed.
Lemma sim_laid sr (rst rst' : list (lsp (T:=T))) : Forall2 sim1 rst rst' -> forall rnet, laid sr rst rnet -> laid sr rst' rnet.
Proof.
  induction 1 as [|sp sp' rst rst' (_ & E & E3 & _ & E2) Hs IH]; intros [|l rnet]; cbn; auto.
  rewrite E, E2, E3. intros (? & ? & ? & ? & ? & ?). auto 8.
Qed.
Lemma sim_sym (rst rst' : list (lsp (T:=T))) : Forall2 sim1 rst rst' -> Forall2 sim1 rst' rst.
Proof. induction 1 as [|sp sp' rst rst' (? & ? & ? & ? & ?) Hs IH]; constructor; [|exact IH]. repeat split; congruence. Qed.
Lemma sim_own1 sr (rst rst' : list (lsp (T:=T))) da hi a : Forall2 sim1 rst rst' -> own sr rst da hi a -> own sr rst' da hi a.
Proof.
  intros Hs [Ha|[(sp & Hin & Ha)|Ha]]; [left; exact Ha| |right; right; exact Ha]. right. left.
  apply elem_of_list_lookup in Hin as [i Hi]. destruct (Forall2_lookup_l _ _ _ _ _ Hs Hi) as (sp' & Hi' & (_ & E & _ & _ & E2)).
  exists sp'. split; [eapply elem_of_list_lookup_2; exact Hi'|]. rewrite E, E2. exact Ha.
Qed.
Lemma sim_own sr (rst rst' : list (lsp (T:=T))) da hi a : Forall2 sim1 rst rst' -> own sr rst' da hi a <-> own sr rst da hi a.
Proof. intros Hs. split; apply sim_own1; [apply sim_sym; exact Hs|exact Hs]. Qed.

(** ** Layers with other flags *)
Definition flagged (s s' : lst T) (rst rst' : list (lsp (T:=T))) : Prop :=
  forall i sp sp' L, rst !! i = Some sp -> rst' !! i = Some sp' -> lays s !! s_id sp = Some L ->
    (lays s' !! s_id sp = Some L /\ s_tr sp' = s_tr sp) \/ lays s' !! s_id sp = Some (set_flag BTrainable (s_tr sp') L).
Definition src_same (s s' : lst T) (sr : src) : Prop := forall q, r_id sr = Some q -> lays s' !! q = lays s !! q.
Lemma flagged_cons s s' sp sp' rst rst' : flagged s s' (sp :: rst) (sp' :: rst') ->
  flagged s s' [sp] [sp'] /\ flagged s s' rst rst'.
Proof.
  intros Hf. split.
  - intros [|i] a b L E1 E2; cbn in E1, E2; [|discriminate]. exact (Hf 0 a b L E1 E2).
  - intros i a b L E1 E2. exact (Hf (S i) a b L E1 E2).
Qed.

Lemma flag_stk2 (s s' : lst T) sr da : ts s' = ts s -> src_same s s' sr -> forall rst rst', Forall2 sim1 rst rst' -> flagged s s' rst rst' ->
  forall rnet, stk2 s sr da rst rnet -> stk2 s' sr da rst' rnet.
Proof.
  intros Hts Hsrc. induction 1 as [|sp sp' rst rst' Hsp Hs IH]; intros Hf [|l rnet]; cbn [stk2]; try contradiction.
  - unfold sl2. destruct (r_id sr) as [q|] eqn:Hq; [|auto]. intros [L HL]. exists L.
    assert (HA : lays s' !! q = Some L) by (rewrite (Hsrc q Hq); apply HL).
    unfold ref1 in *. destruct HL. split; try assumption; unfold ref1; rewrite ?Hts; assumption.
  - intros ([L HL] & H1 & H2 & H3 & Hst). destruct (flagged_cons _ _ _ _ _ _ Hf) as [Hf1 Hf2].
    destruct Hsp as (Ei & Eo & Ea & Et & Eb). rewrite (sim_pre sr _ _ Hs), (sim_inp sr _ _ Hs), Eb.
    split; [|split; [exact H1|split; [exact H2|split; [exact H3|apply IH; assumption]]]].
    destruct (Hf1 0 sp sp' L eq_refl eq_refl (d2_at _ _ _ _ _ _ _ HL)) as [[HA Htr]|HA].
    + exists L. destruct HL. split; rewrite ?Ei, ?Eo, ?Ea, ?Et, ?Hts; try assumption; [congruence|].
      unfold ref1. rewrite Hts. assumption.
    + eexists. destruct HL. split; rewrite ?Ei; try exact HA; rewrite ?Eo, ?Ea, ?Et, ?Hts; try assumption; try reflexivity.
      unfold ref1. rewrite Hts. assumption.
Qed.
Lemma flag_stk3 (s s' : lst T) sr da : ts s' = ts s -> src_same s s' sr -> forall rst rst', Forall2 sim1 rst rst' -> flagged s s' rst rst' ->
  forall rnet, stk3 s sr da rst rnet -> stk3 s' sr da rst' rnet.
Proof.
  intros Hts Hsrc. induction 1 as [|sp sp' rst rst' Hsp Hs IH]; intros Hf [|l rnet]; cbn [stk3]; try contradiction.
  - unfold sl3. destruct (r_id sr) as [q|] eqn:Hq; [|auto]. intros [L HL]. exists L.
    assert (HA : lays s' !! q = Some L) by (rewrite (Hsrc q Hq); apply HL).
    destruct HL. split; try assumption; rewrite ?Hts; assumption.
  - intros ([L HL] & Hst). destruct (flagged_cons _ _ _ _ _ _ Hf) as [Hf1 Hf2].
    destruct Hsp as (Ei & Eo & Ea & Et & Eb). rewrite (sim_pre sr _ _ Hs).
    split; [|apply IH; assumption].
    destruct (Hf1 0 sp sp' L eq_refl eq_refl (d3_at _ _ _ _ _ HL)) as [[HA Htr]|HA].
    + exists L. destruct HL. split; rewrite ?Ei, ?Eo, ?Ea, ?Et, ?Hts; try assumption. congruence.
    + eexists. destruct HL. split; rewrite ?Ei; try exact HA; rewrite ?Eo, ?Ea, ?Et, ?Hts; try assumption; try reflexivity.
Qed.

Lemma run_retag (s s' : lst T) M sr rst rst' snet snet' P :
  running s M sr rst snet P -> Forall2 sim1 rst rst' -> Forall2 simn snet snet' ->
  map strain (rev snet') = map s_tr rst' -> ts s' = ts s -> length (lays s') = length (lays s) ->
  src_same s s' sr -> flagged s s' rst rst' -> running s' M sr rst' snet' P.
Proof.
  intros HR Hsim Hn Htr Hts Hlen Hsrc Hf.
  assert (HC' : forall rnet da hi, cinv s M sr rst rnet da hi snet -> cinv s' M sr rst' rnet da hi snet').
  { intros rnet da hi []. split; rewrite ?(sim_ids sr _ _ Hsim), ?(sim_pre sr _ _ Hsim), ?(sim_inp sr _ _ Hsim), ?(sim_sh sr _ _ Hsim), ?(sim_base sr _ _ Hsim), ?Hts, ?Hlen; try assumption.
    - intros ->. inversion Hsim. subst. contradiction.
    - eapply sim_sizes; eassumption.
    - unfold src_ok. rewrite Hts. assumption.
    - rewrite <- (Forall2_length _ _ _ Hsim). assumption.
    - eapply sim_laid; eassumption.
    - eapply sim_outs; eassumption.
    - clear -ci_fits Hn. revert snet' Hn. induction ci_fits as [|l sl net snet Hl _ IH]; intros snet' Hn; inversion Hn as [|? ? ? ? [b ->] Hn']; subst; constructor; [|apply IH; exact Hn'].
      destruct Hl. split; assumption.
    - clear -ci_par Hn. revert snet' Hn. induction ci_par as [|l sl net snet Hl _ IH]; intros snet' Hn; inversion Hn as [|? ? ? ? [b ->] Hn']; subst; constructor; [|apply IH; exact Hn'].
      exact Hl. }
  destruct HR as [rnet da hi HC Hb Hs Hr HP|rnet da hi t0 h2 HC HB HP].
  - eapply run_c; [apply HC'; exact HC|exact Hb|eapply flag_stk2; eassumption| |].
    + rewrite (sim_ids sr _ _ Hsim). intros i L r Hi HL Er Ho. apply (sim_own sr _ _ da hi r Hsim) in Ho.
      unfold ids in Hi. apply elem_of_app in Hi as [Hi|Hi].
      * apply elem_of_list_fmap in Hi as (sp & -> & Hsp). apply elem_of_list_lookup in Hsp as [j Hj].
        destruct (Forall2_lookup_l _ _ _ _ _ Hsim Hj) as (sp' & Hj' & _).
        destruct (lookup_lt_is_Some_2 (lays s) (s_id sp)) as [L0 HL0].
        { rewrite <- Hlen. eapply lookup_lt_Some. exact HL. }
        assert (Hin : s_id sp ∈ ids sr rst).
        { unfold ids. apply elem_of_app. left. apply elem_of_list_fmap. exists sp. split; [reflexivity|eapply elem_of_list_lookup_2; exact Hj]. }
        apply (Hr _ L0 r Hin HL0); [|exact Ho].
        destruct (Hf j sp sp' L0 Hj Hj' HL0) as [[HA _]|HA]; rewrite HL in HA; injection HA as ->; exact Er.
      * destruct (r_id sr) as [q|] eqn:Hq; [|apply elem_of_nil in Hi; contradiction]. apply elem_of_list_singleton in Hi. subst i.
        rewrite (Hsrc q Hq) in HL. apply (Hr q L r); try assumption. unfold ids. rewrite Hq. apply elem_of_app. right. left.
    + intros a. rewrite (sim_own sr _ _ da hi a Hsim). apply HP.
  - apply (run_t _ _ _ _ _ _ rnet da hi t0 h2); [apply HC'; exact HC| |].
    + destruct HB. split; rewrite ?(sim_width sr _ _ Hsim), ?(sim_sh sr _ _ Hsim), ?Hts; try assumption. eapply flag_stk3; eassumption.
    + intros a. unfold ownT. rewrite (sim_own sr _ _ da hi a Hsim). apply HP.
Qed.

(** ** SetTrainable of one layer *)
Definition tag (b : bool) (sp : lsp (T:=T)) : lsp (T:=T) := LSp (s_id sp) (s_o sp) (s_act sp) (s_out sp) (s_ob sp) b.
Lemma sim_tag b sp : sim1 sp (tag b sp).
Proof. repeat split. Qed.
Lemma sim_refl1 sp : sim1 sp sp.
Proof. repeat split. Qed.
Lemma simn_refl l : simn l l.
Proof. exists (strain l). destruct l; reflexivity. Qed.
Lemma sim_alter b i (rst : list (lsp (T:=T))) : Forall2 sim1 rst (alter (tag b) i rst).
Proof.
  revert i. induction rst as [|sp rst IH]; intros [|i]; cbn; try constructor; try apply sim_tag; try apply sim_refl1; [|apply IH].
  clear. induction rst; constructor; [apply sim_refl1|assumption].
Qed.
Lemma simn_alter b i (net : list (slayer T)) : Forall2 simn net (alter (set_strain b) i net).
Proof.
  revert i. induction net as [|sp rst IH]; intros [|i]; cbn; try constructor; try apply simn_refl; [eexists; reflexivity| |apply IH].
  clear. induction rst; constructor; [apply simn_refl|assumption].
Qed.
Lemma reverse_rev {A} (l : list A) : reverse l = rev l.
Proof. unfold reverse. symmetry. apply rev_alt. Qed.
Lemma rev_alter {A} (f : A -> A) k (l : list A) : k < length l -> rev (alter f k l) = alter f (length l - 1 - k) (rev l).
Proof.
  intros Hk. apply list_eq. intros i. destruct (decide (i < length l)) as [Hi|Hi].
  - destruct (decide (i = length l - 1 - k)) as [->|Hne].
    + rewrite list_lookup_alter. rewrite <- !reverse_rev, !reverse_lookup by (rewrite ?alter_length; lia).
      rewrite alter_length. replace (length l - S (length l - 1 - k)) with k by lia. rewrite list_lookup_alter. reflexivity.
    + rewrite list_lookup_alter_ne by congruence. rewrite <- !reverse_rev, !reverse_lookup by (rewrite ?alter_length; lia).
      rewrite alter_length. apply list_lookup_alter_ne. lia.
  - rewrite !lookup_ge_None_2; [reflexivity| |]; rewrite ?alter_length, rev_length, ?alter_length; lia.
Qed.
Lemma map_alter {A B} (f : A -> B) (g : A -> A) (h : B -> B) k (l : list A) : (forall a, f (g a) = h (f a)) ->
  map f (alter g k l) = alter h k (map f l).
Proof. intros E. revert k. induction l as [|a l IH]; intros [|k]; cbn; congruence. Qed.

Lemma run_lay (s : lst T) M sr rst snet P i sp : running s M sr rst snet P -> rst !! i = Some sp ->
  exists L, lays s !! s_id sp = Some L /\ lpre L = pre_of sr (drop (S i) rst).
Proof.
  intros [rnet da hi HC _ Hs _ _|rnet da hi t0 h2 HC HB _].
  - clear HC. revert rnet Hs i. induction rst as [|sp0 rst IH]; intros [|l rnet]; cbn [stk2]; try contradiction; try discriminate.
    intros ([L HL] & _ & _ & _ & Hs) [|i] E; cbn in E; [injection E as <-; exists L; split; apply HL|]. eapply IH; eassumption.
  - pose proof (bi_stk _ _ _ _ _ _ _ _ _ HB) as Hs. clear HC HB. revert rnet Hs i. induction rst as [|sp0 rst IH]; intros [|l rnet]; cbn [stk3]; try contradiction; try discriminate.
    intros ([L HL] & Hs) [|i] E; cbn in E; [injection E as <-; exists L; split; apply HL|]. eapply IH; eassumption.
Qed.
Lemma run_basic (s : lst T) M sr rst snet P : running s M sr rst snet P ->
  rst <> [] /\ NoDup (ids sr rst) /\ length rst < S (length (lays s)) /\ length snet = length rst /\
  map strain (rev snet) = map s_tr rst /\ m_last M = pre_of sr rst /\ m_first M = last (ids sr rst).
Proof.
  intros HR. destruct (running_parts _ _ _ _ _ _ HR) as (rnet & da & hi & HC & _). destruct HC.
  repeat split; try assumption. rewrite <- (rev_length snet). rewrite <- (map_length strain), ci_tr. apply map_length.
Qed.

Lemma run_layer (s : lst T) M sr rst snet P k id b : running s M sr rst snet P ->
  k < length snet -> rev (map s_id rst) !! k = Some id ->
  exists s' rst', LSetTrainable id b s = (Ok tt, s') /\ Forall2 sim1 rst rst' /\
    running s' M sr rst' (alter (set_strain b) k snet) P /\ ts s' = ts s /\ rc s' = rc s.
Proof.
  intros HR Hk Hid. destruct (run_basic _ _ _ _ _ _ HR) as (Hne & Hnd & Hlen & Hls & Htr & Hml & Hmf).
  set (i := length rst - 1 - k).
  assert (Hi : map s_id rst !! i = Some id).
  { rewrite <- reverse_rev, reverse_lookup in Hid by (rewrite map_length; lia). rewrite map_length in Hid.
    replace (length rst - S k) with i in Hid by (unfold i; lia). exact Hid. }
  destruct (list_lookup_fmap_inv s_id rst i id Hi) as (sp & -> & Hsp).
  destruct (run_lay _ _ _ _ _ _ _ _ HR Hsp) as (L & HL & _).
  eexists _, (alter (tag b) i rst). split; [unfold LSetTrainable; apply updL_ok; exact HL|].
  split; [apply sim_alter|]. split; [|split; reflexivity].
  assert (Hndr : NoDup (map s_id rst)) by (unfold ids in Hnd; apply NoDup_app in Hnd; apply Hnd).
  eapply run_retag; [exact HR|apply sim_alter|apply simn_alter| |reflexivity|cbn; apply insert_length| |].
  - rewrite rev_alter by exact Hk. rewrite (map_alter strain _ (fun _ => b)) by reflexivity. rewrite Htr, Hls.
    fold i. symmetry. apply map_alter. reflexivity.
  - intros q Hq. cbn. apply list_lookup_insert_ne. intros <-.
    unfold ids in Hnd. rewrite Hq in Hnd. apply NoDup_app in Hnd as (_ & Hd & _). apply (Hd (s_id sp)); [|left].
    apply elem_of_list_fmap. exists sp. split; [reflexivity|eapply elem_of_list_lookup_2; exact Hsp].
  - intros j sp0 sp' L0 Hj Hj' HL0. cbn. destruct (decide (j = i)) as [->|Hne2].
    + rewrite list_lookup_alter, Hsp in Hj'. cbn in Hj'. rewrite Hsp in Hj. injection Hj as <-. injection Hj' as <-.
      right. rewrite list_lookup_insert by (eapply lookup_lt_Some; exact HL). rewrite HL in HL0. injection HL0 as <-. reflexivity.
    + rewrite list_lookup_alter_ne in Hj' by congruence. rewrite Hj in Hj'. injection Hj' as <-. left. split; [|reflexivity].
      rewrite list_lookup_insert_ne; [exact HL0|]. intros E. apply Hne2.
      eapply (NoDup_lookup (map s_id rst)); [exact Hndr| |].
      * rewrite list_lookup_fmap, Hj. reflexivity.
      * rewrite list_lookup_fmap, Hsp. cbn. rewrite E. reflexivity.
Qed.

(** ** SetTrainable of the model *)
Definition low_of (sr : src) : bool := match r_id sr with Some _ => true | None => false end.
Fixpoint tag_model (low b : bool) (rst : list (lsp (T:=T))) : list (lsp (T:=T)) :=
  match rst with
  | [] => []
  | sp :: rst' => (match rst' with [] => if low then tag b sp else sp | _ => tag b sp end) :: tag_model low b rst'
  end.
Definition chainp (s : lst T) (sr : src) (rst : list (lsp (T:=T))) : Prop :=
  forall i sp, rst !! i = Some sp -> exists L, lays s !! s_id sp = Some L /\ lpre L = pre_of sr (drop (S i) rst).
Lemma sim_tag_model low b rst : Forall2 sim1 rst (tag_model low b rst).
Proof. induction rst as [|sp rst IH]; cbn; constructor; [|exact IH]. destruct rst; [destruct low|]; apply sim_tag || apply sim_refl1. Qed.
Lemma set_trainable_ok sr b : forall rst (s : lst T) fuel, chainp s sr rst -> NoDup (ids sr rst) -> length rst < fuel ->
  exists s', set_trainable fuel (pre_of sr rst) (last (ids sr rst)) b s = (Ok tt, s') /\ ts s' = ts s /\ rc s' = rc s /\
    length (lays s') = length (lays s) /\ (forall i, i ∉ map s_id rst -> lays s' !! i = lays s !! i) /\
    flagged s s' rst (tag_model (low_of sr) b rst).
Proof.
  induction rst as [|sp rst IH]; intros s fuel Hc Hnd Hfuel; (destruct fuel as [|fuel]; [cbn in Hfuel; lia|]).
  - exists s. split; [|split; [reflexivity|split; [reflexivity|split; [reflexivity|split; [reflexivity|]]]]].
    + cbn [set_trainable pre_of ids map app]. destruct (r_id sr) as [q|]; [|reflexivity]. cbn.
      rewrite bool_decide_eq_true_2 by reflexivity. reflexivity.
    + intros i ? ? ? E. discriminate.
  - destruct (Hc 0 sp eq_refl) as (L & HL & Hp). cbn [drop] in Hp. rewrite drop_0 in Hp.
    cbn [set_trainable pre_of]. rewrite ids_cons in *. apply NoDup_cons in Hnd as [Hni Hnd].
    destruct (decide (ids sr rst = [])) as [E0|Hne].
    + rewrite E0. assert (rst = []) as ->. { unfold ids in E0. destruct rst; [reflexivity|discriminate]. }
      assert (Er : r_id sr = None). { unfold ids in E0. cbn in E0. destruct (r_id sr); [discriminate|reflexivity]. }
      exists s. cbn [last]. rewrite bool_decide_eq_true_2 by reflexivity.
      split; [reflexivity|]. repeat (split; [reflexivity|]). intros [|i] ? ? ? E1 E2 E3; cbn in E1, E2; [|discriminate].
      unfold low_of in E2. rewrite Er in E2. injection E1 as <-. injection E2 as <-. left. auto.
    + assert (El : last (s_id sp :: ids sr rst) = last (ids sr rst)) by (destruct (ids sr rst); [contradiction|reflexivity]).
      rewrite El. rewrite bool_decide_eq_false_2.
      2:{ intros E. apply Hni. symmetry in E. apply last_Some in E as [l' ->]. apply elem_of_app. right. left. }
      set (s1 := MkL (ts s) (<[s_id sp := set_flag BTrainable b L]> (lays s)) (rc s)).
      assert (HL1 : lays s1 !! s_id sp = Some (set_flag BTrainable b L)) by (apply list_lookup_insert; eapply lookup_lt_Some; exact HL).
      assert (Hmn : s_id sp ∉ map s_id rst) by (intros Hin; apply Hni; unfold ids; apply elem_of_app; left; exact Hin).
      destruct (IH s1 fuel) as (s' & E & Ht & Hr & Hlen & Ho & Hf); [|exact Hnd|cbn in Hfuel; lia|].
      { intros i sp' Hi. destruct (Hc (S i) sp' Hi) as (L' & HL' & Hp'). exists L'. split; [|exact Hp'].
        cbn. rewrite list_lookup_insert_ne; [exact HL'|]. intros E. apply Hmn. rewrite E.
        apply elem_of_list_fmap. exists sp'. split; [reflexivity|eapply elem_of_list_lookup_2; exact Hi]. }
      exists s'. split; [|split; [exact Ht|split; [exact Hr|split; [rewrite Hlen; cbn; apply insert_length|split]]]].
      * erewrite mbnd_ok by (unfold LSetTrainable; apply updL_ok; exact HL). fold s1.
        erewrite mbnd_ok by (apply getL_ok; exact HL1). cbn [lpre set_flag]. rewrite Hp. exact E.
      * intros i Hi. cbn in Hi. rewrite Ho by (intros Hin; apply Hi; right; exact Hin).
        cbn. apply list_lookup_insert_ne. intros <-. apply Hi. left.
      * assert (Ehd : (match rst with [] => if low_of sr then tag b sp else sp | _ => tag b sp end) = tag b sp).
        { destruct rst; [|reflexivity]. unfold ids in Hne. cbn in Hne. unfold low_of. destruct (r_id sr); [reflexivity|contradiction]. }
        cbn [tag_model]. rewrite Ehd. intros [|i] a c L0 E1 E2 E3.
        -- injection E1 as <-. injection E2 as <-. right. rewrite Ho by exact Hmn. rewrite HL1. rewrite HL in E3. injection E3 as <-. reflexivity.
        -- cbn in E1, E2. apply (Hf i a c L0 E1 E2). cbn. rewrite list_lookup_insert_ne; [exact E3|].
           intros E4. apply Hmn. rewrite E4. apply elem_of_list_fmap. exists a. split; [reflexivity|eapply elem_of_list_lookup_2; exact E1].
Qed.
Lemma tag_model_snoc low b rst sp : map s_tr (tag_model low b (rst ++ [sp])) = replicate (length rst) b ++ [if low then b else s_tr sp].
Proof.
  induction rst as [|a rst IH]; cbn; [destruct low; reflexivity|]. rewrite IH. f_equal. destruct rst; reflexivity.
Qed.
Definition tag_net (low b : bool) (net : list (slayer T)) : list (slayer T) :=
  match net with
  | [] => []
  | l :: net' => (if low then set_strain b l else l) :: map (set_strain b) net'
  end.
Lemma run_model (s : lst T) M sr rst snet P b : running s M sr rst snet P ->
  exists s' rst', SetTrainable M b s = (Ok tt, s') /\ Forall2 sim1 rst rst' /\
    running s' M sr rst' (tag_net (low_of sr) b snet) P /\ ts s' = ts s /\ rc s' = rc s.
Proof.
  intros HR. destruct (run_basic _ _ _ _ _ _ HR) as (Hne & Hnd & Hlen & Hls & Htr & Hml & Hmf).
  destruct (set_trainable_ok sr b rst s (S (length (lays s)))) as (s' & E & Ht & Hr & Hl & Ho & Hf); try assumption.
  { intros i sp Hi. eapply run_lay; eassumption. }
  exists s', (tag_model (low_of sr) b rst). split; [unfold SetTrainable, with_fuel; rewrite Hml, Hmf; exact E|].
  split; [apply sim_tag_model|]. split; [|split; assumption].
  eapply run_retag; [exact HR|apply sim_tag_model| | |exact Ht|exact Hl| |exact Hf].
  - destruct snet as [|l net]; cbn; constructor.
    + destruct (low_of sr); [eexists; reflexivity|apply simn_refl].
    + clear. induction net; cbn; constructor; [eexists; reflexivity|assumption].
  - destruct snet as [|l net]; [destruct rst; [contradiction|discriminate]|].
    destruct (exists_last Hne) as (rst0 & sp & ->).
    rewrite tag_model_snoc. cbn [tag_net rev] in *. rewrite map_app in Htr |- *. rewrite map_app in Htr. cbn [map] in *.
    apply app_inj_tail in Htr as [_ Hl0]. f_equal.
    + rewrite map_rev. rewrite app_length in Hls. cbn in Hls. replace (length rst0) with (length net) by lia. clear.
      rewrite map_map. cbn [set_strain strain]. rewrite <- reverse_rev. rewrite <- (reverse_replicate (length net) b). f_equal.
      induction net; cbn; congruence.
    + f_equal. destruct (low_of sr); [reflexivity|exact Hl0].
  - intros q Hq. apply Ho. intros Hin. unfold ids in Hnd. rewrite Hq in Hnd. apply NoDup_app in Hnd as (_ & Hd & _). apply (Hd q Hin). left.
Qed.
End NetRun5.
