(** * TrnLine: a chain of layers as a program leaves it, and Build on it *)
From stdpp Require Import relations.
From Verif Require Import Base Num ModelTools ModelOps ModelTensor ModelGraph ModelLayer ModelModel Spec NetSpec FwdSpec Denote
  IndexProofs ExecProofs TensorFacts AccessProofs BuildProofs CompileProofs Agree FwdMask FwdBuild FwdSeg FwdOps FwdPool NetBuild NetChain FwdBody
  FwdNet FwdCount FwdChain FwdRun FwdScript FwdProg
  BwdSpec TrnSpec TrnScript TrnSite TrnComp TrnAux.
From Coq Require Import Lia ZifyBool ZifyNat ZifyN.

Section TrnLine.
Context {T : Type} `{Num T}.
Implicit Types (s : lst T) (c q p : clay T) (cs rest : list (clay T)).

(** ** A chain that was made and not compiled *)
Record newlay (L : layer T) c : Prop := {
  nl_build : lflag L BBuild = false;
  nl_ref : lref L = None;
  nl_virgin : virgin L;
  nl_trains : lflag L BTrainable = c_par c;
  nl_act : base c = true -> exists a, lact L = Some a /\ act_d a = c_d c;
}.
Fixpoint cline s cs : Prop :=
  match cs with
  | [] => False
  | c :: rest =>
      exists L, lays s !! c_i c = Some L /\ newlay L c /\
      match rest with
      | [] => exists t, lpre L = None /\ lten L FInput = Some t /\
          match c_l c with
          | None => lkind_of L = LInput /\ insh s t = Some (c_sh c)
          | Some l => lkind_of L = LDense /\ lspec_of (tens (ts s)) L = Some l /\ exists sh0, insh s t = Some sh0 /\ lay_shape l sh0 = Some (c_sh c) /\ train_fit l sh0 = true
          end
      | q :: _ => exists l, c_l c = Some l /\ lspec_of (tens (ts s)) L = Some l /\ lpre L = Some (c_i q) /\ lay_shape l (c_sh q) = Some (c_sh c) /\ train_fit l (c_sh q) = true /\ cline s rest
      end
  end.
Lemma fit_nosub (l : lspec T) sh : train_fit l sh = true -> forall a b d, l <> SSub a b d.
Proof using Type. intros E a b d ->. discriminate. Qed.

(** ** Build counts one user for every layer *)
Lemma kind_one (tn : list (node T)) (L : layer T) l : lspec_of tn L = Some l -> lkind_of L <> LInput /\ forall a b d, lkind_of L <> LConcat a b d.
Proof using Type. unfold lspec_of. intros E. split; [intros Hk; rewrite Hk in E; discriminate|intros a b d Hk; rewrite Hk in E; discriminate]. Qed.
Fixpoint bline s cs : Prop :=
  match cs with
  | [] => False
  | c :: rest =>
      exists L, lays s !! c_i c = Some L /\ lflag L BBuild = false /\
      match rest with
      | [] => lpre L = None /\ (lkind_of L = LInput \/ lkind_of L = LDense)
      | q :: _ => lpre L = Some (c_i q) /\ lkind_of L <> LInput /\ (forall a b d, lkind_of L <> LConcat a b d) /\ bline s rest
      end
  end.
Lemma cline_bline s : forall cs, cline s cs -> bline s cs.
Proof using Type.
  induction cs as [|c rest IH]; [auto|]. intros (L & HL & N & Hl). exists L. split; [exact HL|]. split; [apply N|]. destruct rest as [|q rest].
  - destruct Hl as (t & Hp & _ & Hl). split; [exact Hp|]. destruct (c_l c); destruct Hl as (Hk & _); auto.
  - destruct Hl as (l & _ & Hs & Hp & _ & _ & Hl). destruct (kind_one _ _ _ Hs) as [K1 K2]. auto 10.
Qed.
Definition bclose (L L' : layer T) : Prop := lflag L' BBuild = lflag L BBuild /\ lpre L' = lpre L /\ lkind_of L' = lkind_of L.
Lemma bline_ext s s' : forall cs, (forall c L, c ∈ cs -> lays s !! c_i c = Some L -> exists L', lays s' !! c_i c = Some L' /\ bclose L L') -> bline s cs -> bline s' cs.
Proof using Type.
  induction cs as [|c rest IH]; [auto|]. intros He (L & HL & Hb & Hl). destruct (He c L ltac:(left) HL) as (L' & HL' & E1 & E2 & E3). exists L'. split; [exact HL'|]. split; [congruence|].
  rewrite E2, E3. destruct rest as [|q rest]; [exact Hl|]. destruct Hl as (Hp & K1 & K2 & Hl). repeat (split; [assumption|]). apply IH; [|exact Hl]. intros c' L0 Hc. apply He. right. exact Hc.
Qed.
Definition counted s (i : nat) : Prop := exists L r, lays s !! i = Some L /\ lref L = Some r /\ mem (ts s) !! r = Some (count 1).
Section One.
Hypothesis Hone : neqb (count (T:=T) 1) nzero = false.
Lemma LBuild_line : forall cs c rest fuel s, cs = c :: rest -> NoDup (map c_i cs) -> length cs <= fuel -> bline s cs -> counted s (c_i c) ->
  (forall p L, p ∈ rest -> lays s !! c_i p = Some L -> lref L = None) ->
  exists s', LBuild fuel (c_i c) s = (Ok tt, s') /\ (exists x, mem (ts s') = mem (ts s) ++ x) /\ (forall j, j ∉ map c_i cs -> lays s' !! j = lays s !! j) /\
    forall p, p ∈ cs -> counted s' (c_i p).
Proof using Hone.
  induction cs as [|c0 cs IH]; intros c rest fuel s E Hnd Hf Hb Hc Hno; [discriminate|]. injection E as -> ->. set (i := c_i c) in *.
  destruct Hb as (L & HL & Hbf & Hl). fold i in HL. destruct Hc as (L0 & r & HL0 & Hr & Hm). assert (L0 = L) as -> by congruence. clear HL0.
  destruct fuel as [|fuel]; [cbn [length] in Hf; lia|]. cbn [LBuild].
  assert (Hil : i < length (lays s)) by (eapply lookup_lt_Some; exact HL).
  set (La := set_flag BBuild true L). set (sa := MkL (ts s) (<[i := La]> (lays s)) (rc s)).
  assert (HLa : lays sa !! i = Some La) by (apply list_lookup_insert; exact Hil).
  assert (Hna : forall j, j <> i -> lays sa !! j = lays s !! j) by (intros j Hj; apply list_lookup_insert_ne; congruence).
  erewrite mbnd_ok; [|unfold CheckB; erewrite mbnd_ok by (apply getL_ok; exact HL); rewrite Hbf; erewrite mbnd_ok by (apply updL_ok; exact HL); reflexivity].
  fold La. fold sa. cbv beta iota. erewrite mbnd_ok by (apply getL_ok; exact HLa). cbn [La set_flag lkind_of lpre].
  assert (EG : GetRef i sa = (Ok (Some r), sa)).
  { unfold GetRef. erewrite mbnd_ok by (apply getL_ok; exact HLa). cbn [La set_flag lref]. rewrite Hr. reflexivity. }
  cbn [map] in Hnd. apply NoDup_cons in Hnd as [Hni Hnd]. change (c_i c) with i in Hni.
  assert (Hread : forall s', lays s' !! i = Some La -> mem (ts s') !! r = Some (count 1) ->
    (l' <~ getL i ; v <~ liftT (rdM (lref l')) ; if neqb v nzero then mfail (ELayer 1) else mret tt) s' = (Ok tt, s')).
  { intros s' HLs Hms. erewrite mbnd_ok by (apply getL_ok; exact HLs). cbn [La set_flag lref]. rewrite Hr. erewrite mbnd_ok by (apply liftT_ok; apply rdM_at; exact Hms). rewrite Hone. destruct s'; reflexivity. }
  destruct rest as [|q rest].
  - destruct Hl as [Hp Hk]. rewrite Hp. exists sa. split; [|split; [exists []; rewrite app_nil_r; reflexivity|split]].
    + destruct Hk as [->| ->].
      * erewrite mbnd_ok; [reflexivity|]. rewrite (mbnd_ok _ _ _ _ _ EG). erewrite mbnd_ok by reflexivity. apply Hread; [exact HLa|exact Hm].
      * rewrite (mbnd_ok _ _ _ _ _ EG). erewrite mbnd_ok by reflexivity. apply Hread; [exact HLa|exact Hm].
    + intros j Hj. apply Hna. intros Hx. apply Hj. rewrite Hx. left.
    + intros p Hp'. apply elem_of_cons in Hp' as [->|Hp']; [|apply not_elem_of_nil in Hp'; contradiction]. exists La, r. auto.
  - destruct Hl as (Hp & K1 & K2 & Hl). rewrite Hp. set (k := c_i q) in *.
    assert (Hki : k <> i). { intros Hx. apply Hni. rewrite <- Hx. apply elem_of_cons. left. reflexivity. }
    pose proof Hl as (Lq & HLq & Hqb & _). fold k in HLq. pose proof (Hno q Lq ltac:(left) HLq) as Hqr.
    set (rq := length (mem (ts s))). set (Lr := set_ref (Some rq) Lq).
    set (sc := MkL (MkSt (mem (ts s) ++ [count 1]) (tens (ts s)) (ctx (ts s))) (<[k := Lr]> (<[i := La]> (lays s))) (rc s)).
    assert (HLqa : lays sa !! k = Some Lq) by (rewrite Hna by exact Hki; exact HLq).
    assert (Hkl : k < length (lays sa)) by (eapply lookup_lt_Some; exact HLqa).
    assert (EU : (r0 <~ GetRef k ; liftT (incr r0)) sa = (Ok tt, sc)).
    { erewrite mbnd_ok.
      2:{ unfold GetRef. erewrite mbnd_ok by (apply getL_ok; exact HLqa). rewrite Hqr. erewrite mbnd_ok by (apply liftT_ok; reflexivity). cbn [ts lays rc sa].
          erewrite mbnd_ok by (apply updL_ok; cbn [lays]; exact HLqa). reflexivity. }
      cbn [ts lays rc]. fold rq. fold Lr. change sc with (MkL (ts sc) (lays sc) (rc sc)). apply (liftT_ok _ (MkL (MkSt (mem (ts s) ++ [nzero]) (tens (ts s)) (ctx (ts s))) (lays sc) (rc sc))). unfold incr. erewrite mbnd_ok by (apply rdM_at; cbn [mem]; apply list_lookup_middle; reflexivity).
      unfold wrM, wr. cbn [ts mem tens ctx]. rewrite decide_True by (rewrite app_length; cbn; unfold rq; lia). unfold rq. rewrite <- (Nat.add_0_r (length (mem (ts s)))), insert_app_r. reflexivity. }
    assert (Hsc_i : lays sc !! i = Some La) by (cbn [sc lays]; rewrite list_lookup_insert_ne by exact Hki; exact HLa).
    assert (Hsc_k : lays sc !! k = Some Lr) by (apply list_lookup_insert; exact Hkl).
    assert (Hsc_o : forall j, j <> i -> j <> k -> lays sc !! j = lays s !! j) by (intros j H1 H2; cbn [sc lays]; rewrite list_lookup_insert_ne by congruence; apply Hna; exact H1).
    destruct (IH q rest fuel sc eq_refl Hnd) as (s' & E1 & (x & E2) & E3 & E4).
    { cbn [length] in *. lia. }
    { eapply (bline_ext s); [|exact Hl]. intros p L' Hpc HL'. destruct (decide (c_i p = k)) as [Ek|Ek].
      - rewrite Ek in HL' |- *. assert (L' = Lq) as -> by congruence. exists Lr. split; [exact Hsc_k|repeat split].
      - exists L'. split; [rewrite Hsc_o; [exact HL'| |exact Ek]|repeat split]. intros Hx. apply Hni. rewrite <- Hx. apply elem_of_list_fmap_1. exact Hpc. }
    { exists Lr, rq. split; [exact Hsc_k|]. split; [reflexivity|]. cbn [sc ts mem]. apply list_lookup_middle. reflexivity. }
    { intros p L' Hpc HL'. assert (Hpq : c_i p <> k). { intros Hx. apply NoDup_cons in Hnd as [Hn2 _]. apply Hn2. change (c_i q) with k. rewrite <- Hx. apply elem_of_list_fmap_1. exact Hpc. }
      rewrite Hsc_o in HL' by (try exact Hpq; intros Hx; apply Hni; rewrite <- Hx; cbn [map]; right; apply elem_of_list_fmap_1; exact Hpc). eapply Hno; [right; exact Hpc|exact HL']. }
    assert (Hs'i : lays s' !! i = Some La) by (rewrite E3 by exact Hni; exact Hsc_i).
    assert (Hmr : mem (ts s') !! r = Some (count 1)). { rewrite E2. cbn [sc ts mem]. rewrite <- app_assoc. apply lookup_app_l_Some. exact Hm. }
    assert (Hpre : (GetRef i ;~ (r <~ GetRef k ; liftT (incr r) ;~ LBuild fuel k) ;~
        l' <~ getL i ; v <~ liftT (rdM (lref l')) ; if neqb v nzero then mfail (ELayer 1) else mret tt) sa = (Ok tt, s')).
    { rewrite (mbnd_ok _ _ _ _ _ EG). erewrite mbnd_ok.
      2:{ rewrite (use_then _ _ _ _ EU). exact E1. }
      apply Hread; assumption. }
    exists s'. split; [|split; [|split]].
    + destruct (lkind_of L); try congruence; try exact Hpre; try (exfalso; eapply K2; reflexivity); rewrite (mbnd_ok _ _ _ _ _ Hpre); reflexivity.
    + rewrite E2. cbn [sc ts mem]. rewrite <- app_assoc. eexists. reflexivity.
    + intros j Hj. rewrite E3 by (intros Hx; apply Hj; right; exact Hx). apply Hsc_o; intros Hx; apply Hj; rewrite Hx; [left|right; left].
    + intros p Hp'. apply elem_of_cons in Hp' as [->|Hp']; [exists La, r; auto|apply E4; exact Hp'].
Qed.

End One.

(** ** From what was made to what is built *)
Lemma cline_lined s sb U B : forall cs, (forall p, p ∈ cs -> c_i p ∈ U) -> binv U s B sb -> (forall p, p ∈ cs -> counted sb (c_i p)) -> cline s cs -> exists e, lined U (emptied sb) cs e.
Proof using Type.
  induction cs as [|c rest IH]; intros HU Hb Hc Hl; [contradiction|]. destruct Hl as (L & HL & N & Hl). destruct (bi_lay _ _ _ _ Hb (c_i c) (HU c ltac:(left))) as (L0 & Lb & HL0 & HLb & (Ha & Hmx & Hfl) & _).
  assert (L0 = L) as -> by congruence. destruct Ha as (A1 & A2 & A3 & A4).
  assert (Hv : virgin Lb). { destruct (nl_virgin _ _ N) as [V1 V2 V3]. split; [intros f F1 F2 F3; rewrite A4; auto|congruence|rewrite Hfl by discriminate; exact V3]. }
  assert (Hcn : forall r, lref Lb = Some r -> mem (ts (emptied sb)) !! r = Some (count 1)).
  { intros r Hr. destruct (Hc c ltac:(left)) as (L' & r' & HL' & Hr' & Hm). assert (L' = Lb) as -> by congruence. assert (r' = r) as -> by congruence. exact Hm. }
  assert (Hsp : lspec_of (tens (ts (emptied sb))) Lb = lspec_of (tens (ts s)) L). { cbn [emptied ts tens]. rewrite (bi_tens _ _ _ _ Hb). unfold lspec_of. rewrite A1, A2, A4. reflexivity. }
  assert (Hin : forall t, insh (emptied sb) t = insh s t). { intros t. unfold insh. cbn [emptied ts tens]. rewrite (bi_tens _ _ _ _ Hb). reflexivity. }
  destruct rest as [|q rest].
  - destruct Hl as (t & Hp & Ht & Hl). destruct (c_l c) as [l|] eqn:Ecl.
    + destruct Hl as (Hk & Hs & sh0 & Hsh & Hls & _). exists (NLay l (c_i c) (NIn t)). exists Lb. split; [exact HLb|]. split; [apply HU; left|]. split; [exact Hv|]. split; [exact Hcn|]. exists t. rewrite Ecl.
      split; [congruence|]. split; [rewrite A4; exact Ht|]. split; [congruence|]. split; [congruence|]. split; [reflexivity|]. exists sh0. rewrite Hin. auto.
    + destruct Hl as (Hk & Hsh). exists (NIn t). exists Lb. split; [exact HLb|]. split; [apply HU; left|]. split; [exact Hv|]. split; [exact Hcn|]. exists t. rewrite Ecl.
      split; [congruence|]. split; [rewrite A4; exact Ht|]. split; [congruence|]. split; [reflexivity|]. rewrite Hin. exact Hsh.
  - destruct Hl as (l & Ecl & Hs & Hp & Hsh & Hft & Hl). destruct (IH ltac:(intros p Hp'; apply HU; right; exact Hp') Hb ltac:(intros p Hp'; apply Hc; right; exact Hp') Hl) as (e0 & He0).
    exists (NLay l (c_i c) e0). exists Lb. split; [exact HLb|]. split; [apply HU; left|]. split; [exact Hv|]. split; [exact Hcn|]. exists l, e0. split; [exact Ecl|]. split; [eapply fit_nosub; exact Hft|].
    split; [congruence|]. split; [congruence|]. auto.
Qed.
Lemma cline_part s : forall cs c rest p, cs = c :: rest -> cline s cs -> p ∈ cs -> part s (c_i c) (c_i p).
Proof using Type.
  induction cs as [|c0 cs IH]; intros c rest p E Hl Hp; [discriminate|]. injection E as -> ->. apply elem_of_cons in Hp as [->|Hp]; [apply rtc_refl|].
  destruct Hl as (L & HL & _ & Hl). destruct rest as [|q rest]; [apply not_elem_of_nil in Hp; contradiction|]. destruct Hl as (l & _ & _ & Hpre & _ & _ & Hl).
  eapply rtc_l; [exists L; split; [exact HL|left; exact Hpre]|]. eapply IH; [reflexivity|exact Hl|exact Hp].
Qed.
(** ** What a program makes *)
Section Wired.
Variables (s : lst T) (b : nat) (ms : list (mk T)) (lo tl : nat -> nat).
Hypothesis W : wired s b ms lo tl.
Lemma raw_new m L c : lflag L BBuild = false -> raw m L -> mk_trains m = c_par c -> (base c = true -> exists a, mk_act m = Some a /\ act_d a = c_d c) -> newlay L c.
Proof using Type.
  intros Hb (R1 & _ & _ & _ & R2 & R3 & R4 & R5 & R6) Ht Ha. split; [exact Hb|exact R1|split; assumption|congruence|]. intros Hc. destruct (Ha Hc) as (a & E1 & E2). exists a. auto.
Qed.
Lemma src_insh L sh a1 a2 a3 a4 : src_blk s L sh a1 a2 a3 a4 -> exists t, lten L FInput = Some t /\ insh s t = Some sh.
Proof using Type. intros (_ & t & x & Ht & [bo Hb] & _). exists t. split; [exact Ht|]. unfold insh. rewrite Hb. reflexivity. Qed.
Definition low_ids (n : nat) cs : Prop := NoDup (map c_i cs) /\ forall p, p ∈ cs -> b <= c_i p < b + n.
Lemma chain_cline : forall ks n q r cs', (forall j k, ks !! j = Some k -> ms !! S (n + j) = Some (MOn k (n + j))) -> cline s (q :: r) -> c_i q = b + n -> low_ids (S n) (q :: r) ->
  chain_from (b + S n) (q :: r) ks = Some cs' ->
  cline s cs' /\ low_ids (S (n + length ks)) cs' /\ exists q' r', cs' = q' :: r' /\ c_i q' = b + (n + length ks).
Proof using W.
  induction ks as [|k ks IH]; intros n q r cs' Hms Hl Hq Hid E.
  - injection E as <-. cbn [length]. rewrite Nat.add_0_r. split; [exact Hl|]. split; [exact Hid|]. exists q, r. auto.
  - cbn [chain_from] in E. apply bind_Some in E as (sh & Hsh & E). destruct (train_fit (spec1 k) (c_sh q)) eqn:Hft; [|discriminate].
    set (c := MkClay (b + S n) (Some (spec1 k)) (der1 k) sh) in *.
    pose proof (Hms 0 k eq_refl) as Hm. rewrite Nat.add_0_r in Hm. destruct (w_laid _ _ _ _ _ W _ _ Hm) as (L & HL & Hb & _ & Hr & Hpre & _ & Hk).
    assert (Hsp : lspec_of (tens (ts s)) L = Some (spec1 k)).
    { destruct k; try (destruct Hk as (H1 & H2 & H3); apply plain_spec; assumption). destruct Hk as (H1 & H2 & H3). eapply out_spec; eassumption. }
    specialize (IH (S n) c (q :: r) cs'). rewrite <- Nat.add_succ_r in E.
    destruct IH as (H1 & H2 & q' & r' & -> & H3).
    + intros j k' Hj. specialize (Hms (S j) k' Hj). replace (S n + j) with (n + S j) by lia. exact Hms.
    + exists L. split; [exact HL|]. split; [|exists (spec1 k); split; [reflexivity|]; split; [exact Hsp|]; split; [rewrite Hq; exact Hpre|]; auto].
      eapply raw_new; [exact Hb|exact Hr|destruct k; reflexivity|]. intros Hbase. destruct k; try discriminate Hbase; eexists; split; reflexivity.
    + reflexivity.
    + destruct Hid as [Hnd Hlt]. split.
      * apply (NoDup_cons (c_i c) (map c_i (q :: r))). split; [|exact Hnd]. intros Hin. apply elem_of_list_fmap in Hin as (p & Hp & Hin). specialize (Hlt p Hin). cbn [c c_i] in Hp. lia.
      * intros p Hp. apply elem_of_cons in Hp as [->|Hp]; [cbn [c c_i]; lia|]. specialize (Hlt p Hp). lia.
    + exact E.
    + split; [exact H1|]. cbn [length]. replace (S (n + S (length ks))) with (S (S n + length ks)) by lia. split; [exact H2|]. exists q', r'. split; [reflexivity|]. rewrite H3. lia.
Qed.
End Wired.
Lemma seq_at m0 (ks : list (lay1 T)) j k : ks !! j = Some k -> seq_mks m0 ks !! S (0 + j) = Some (MOn k (0 + j)).
Proof using Type. intros Hj. unfold seq_mks. change (imap (fun (n : nat) k => MOn k n) ks !! j = Some (MOn k j)). rewrite list_lookup_imap, Hj. reflexivity. Qed.
Theorem made_chain s b m0 ks lo tl cs : wired s b (seq_mks m0 ks) lo tl -> chain_of b m0 ks = Some cs ->
  cline s cs /\ low_ids b (S (length ks)) cs /\ exists c rest, cs = c :: rest /\ c_i c = b + length ks.
Proof using Type.
  intros W E. destruct (w_laid _ _ _ _ _ W 0 m0 eq_refl) as (L & HL & Hb & _ & Hr & Hl). rewrite Nat.add_0_r in HL.
  assert (G : forall c, c_i c = b -> cline s [c] -> chain_from (S b) [c] ks = Some cs -> cline s cs /\ low_ids b (S (length ks)) cs /\ exists c rest, cs = c :: rest /\ c_i c = b + length ks).
  { intros c Hc Hcl Ec. eapply (chain_cline s b (seq_mks m0 ks) lo tl W ks 0 c [] cs); [apply seq_at|exact Hcl|lia| |].
    - split; [apply NoDup_singleton|]. intros p Hp. apply elem_of_list_singleton in Hp as ->. lia.
    - rewrite Nat.add_1_r. exact Ec. }
  unfold chain_of in E. destruct m0 as [sh|i o a|k q|x y d]; try discriminate.
  - destruct Hl as (Hk & Hp & Hs). destruct (src_insh _ _ _ _ _ _ _ Hs) as (t & Ht & Hsh). eapply G; [| |exact E]; [reflexivity|].
    exists L. split; [exact HL|]. split; [eapply raw_new; [exact Hb|exact Hr|reflexivity|intros _; eexists; split; reflexivity]|]. exists t. split; [exact Hp|]. split; [exact Ht|]. split; [exact Hk|exact Hsh].
  - cbn zeta in E. apply bind_Some in E as (sh & Hls & E). destruct (train_fit _ _) eqn:Ho; [|discriminate]. destruct Hl as (Hk & Hp & Ha & mid & Hs & Ho'). destruct (src_insh _ _ _ _ _ _ _ Hs) as (t & Ht & Hsh). eapply G; [| |exact E]; [reflexivity|].
    exists L. split; [exact HL|]. split; [eapply raw_new; [exact Hb|exact Hr|reflexivity|intros _; eexists; split; reflexivity]|]. exists t. split; [exact Hp|]. split; [exact Ht|].
    split; [exact Hk|]. split; [eapply out_spec; eassumption|]. exists [i]. split; [exact Hsh|]. split; [exact Hls|exact Ho].
Qed.
End TrnLine.
