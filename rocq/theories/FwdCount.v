(** * FwdCount: Build counts who uses whom and reaches every layer *)
From stdpp Require Import relations.
From Verif Require Import Base Num ModelTools ModelOps ModelTensor ModelGraph ModelLayer Spec Denote NetSpec FwdSpec TensorFacts NetChain FwdNet.
From Coq Require Import Lia ZifyBool ZifyNat ZifyN.

Section FwdCount.
Context {T : Type} `{Num T}.

(** 0 + 1 + ... + 1 *)
Fixpoint count (k : nat) : T := match k with O => nzero | S k => nadd (count k) none end.

Section B.
Variables (U : list nat) (s0 : lst T).
Notation A := (length (mem (ts s0))).

Definition builtb (s : lst T) (j : nat) : bool := match lays s !! j with Some L => lflag L BBuild | None => false end.
Definition nb (s : lst T) : nat := length (List.filter (builtb s) U).
Definition bsame (L L' : layer T) : Prop := alike L L' /\ lmaxs L' = lmaxs L /\ forall f, f <> BBuild -> lflag L' f = lflag L f.
Definition refcnt (s : lst T) (L : layer T) (B : nat) : Prop :=
  match lref L with
  | None => lflag L BBuild = false
  | Some r => A <= r < length (mem (ts s)) /\ exists k, mem (ts s) !! r = Some (count k) /\ k <= B /\ (lflag L BBuild = true -> 1 <= k)
  end.
Record binv (B : nat) (s : lst T) : Prop := {
  bi_tens : tens (ts s) = tens (ts s0);
  bi_ctx : ctx (ts s) = ctx (ts s0);
  bi_rc : rc s = rc s0;
  bi_len : A <= length (mem (ts s));
  bi_mem : forall a, a < A -> mem (ts s) !! a = mem (ts s0) !! a;
  bi_nlay : length (lays s) = length (lays s0);
  bi_out : forall j, j ∉ U -> lays s !! j = lays s0 !! j;
  bi_lay : forall j, j ∈ U -> exists L0 L, lays s0 !! j = Some L0 /\ lays s !! j = Some L /\ bsame L0 L /\ refcnt s L B;
  bi_inj : forall i j Li Lj r, i ∈ U -> j ∈ U -> lays s !! i = Some Li -> lays s !! j = Some Lj -> lref Li = Some r -> lref Lj = Some r -> i = j;
}.
Definition refpos (B : nat) (s : lst T) (j : nat) : Prop :=
  exists L r k, lays s !! j = Some L /\ lref L = Some r /\ mem (ts s) !! r = Some (count k) /\ 1 <= k <= B.

Lemma bsame_refl L : bsame L L.
Proof using Type. repeat split; auto. Qed.
Lemma bsame_trans L1 L2 L3 : bsame L1 L2 -> bsame L2 L3 -> bsame L1 L3.
Proof using Type.
  intros ((A1 & A2 & A3 & A4) & A5 & A6) ((B1 & B2 & B3 & B4) & B5 & B6). repeat split; try congruence.
  intros f Hf. rewrite B6 by exact Hf. apply A6. exact Hf.
Qed.
Lemma binv_mono B B' s : B <= B' -> binv B s -> binv B' s.
Proof using Type.
  intros HB [b1 b2 b3 b4 b5 b6 b7 b8 b9]. split; try assumption. intros j Hj. destruct (b8 j Hj) as (L0 & L & E0 & E1 & E2 & E3). exists L0, L.
  repeat (split; [assumption|]). unfold refcnt in *. destruct (lref L) as [r|]; [|exact E3]. destruct E3 as (Hr & k & Hk & Hle & H1). split; [exact Hr|]. exists k. split; [exact Hk|]. split; [lia|exact H1].
Qed.
Lemma nb_le s : nb s <= length U.
Proof using Type. unfold nb. induction U as [|j l IH]; [cbn; lia|]. cbn. destruct (builtb s j); cbn; lia. Qed.
Lemma nb_ext s s' : (forall j, builtb s' j = builtb s j) -> nb s' = nb s.
Proof using Type. intros Hb. unfold nb. f_equal. apply List.filter_ext. exact Hb. Qed.
Lemma nb_set s s' i : NoDup U -> i ∈ U -> builtb s i = false -> builtb s' i = true -> (forall j, j <> i -> builtb s' j = builtb s j) -> nb s' = S (nb s).
Proof using Type.
  intros Hn Hi H0 H1 Hb. unfold nb.  induction U as [|j l IH]; [inversion Hi|]. apply NoDup_cons in Hn as [Hj Hn]. apply elem_of_cons in Hi as [->|Hi].
  - cbn. rewrite H0, H1. cbn. f_equal. f_equal. clear IH. induction l as [|k l IH]; [reflexivity|]. apply not_elem_of_cons in Hj as [Hk Hj]. cbn.
    rewrite (Hb k) by congruence. apply NoDup_cons in Hn as [_ Hn]. destruct (builtb s k); rewrite (IH Hj Hn); reflexivity.
  - assert (Hne : j <> i) by congruence. cbn. rewrite (Hb j Hne). destruct (builtb s j); cbn; rewrite (IH Hn Hi); reflexivity.
Qed.

(** Getting the counter of a layer. *)
Lemma GetRef_b B s j : binv B s -> j ∈ U -> exists s' r L', GetRef j s = (Ok (Some r), s') /\ binv B s' /\ lays s' !! j = Some L' /\ lref L' = Some r /\
  (forall i, builtb s' i = builtb s i) /\ (forall i, refpos B s i -> refpos B s' i) /\ (forall i, i <> j -> lays s' !! i = lays s !! i) /\
  (forall L, lays s !! j = Some L -> bsame L L').
Proof using Type.
  intros Hb Hj. destruct (bi_lay _ _ Hb j Hj) as (L0 & L & E0 & E1 & E2 & E3). unfold GetRef. erewrite mbnd_ok by (apply getL_ok; exact E1).
  unfold refcnt in E3. destruct (lref L) as [r|] eqn:Er.
  - exists s, r, L. split; [reflexivity|]. split; [exact Hb|]. split; [exact E1|]. split; [exact Er|]. split; [auto|]. split; [auto|]. split; [auto|]. intros L1 HL1. assert (L1 = L) as -> by congruence. apply bsame_refl.
  - assert (Hlt : j < length (lays s)) by (eapply lookup_lt_Some; exact E1).
    set (r := length (mem (ts s))). set (L' := set_ref (Some r) L).
    set (s' := MkL (MkSt (mem (ts s) ++ [nzero]) (tens (ts s)) (ctx (ts s))) (<[j := L']> (lays s)) (rc s)).
    assert (HL' : lays s' !! j = Some L') by (apply list_lookup_insert; exact Hlt).
    assert (Hne : forall i, i <> j -> lays s' !! i = lays s !! i) by (intros i Hi; apply list_lookup_insert_ne; congruence).
    assert (Hblt : forall i, builtb s' i = builtb s i).
    { intros i. destruct (decide (i = j)) as [->|Hi]; unfold builtb; [rewrite HL', E1; reflexivity|rewrite Hne by exact Hi; reflexivity]. }
    assert (Hmem : forall a v, mem (ts s) !! a = Some v -> mem (ts s') !! a = Some v).
    { intros a v Ha. cbn [s' ts mem]. rewrite lookup_app_l by (eapply lookup_lt_Some; exact Ha). exact Ha. }
    exists s', r, L'. split.
    { erewrite mbnd_ok by (apply liftT_ok; reflexivity). cbn [ts lays rc]. erewrite mbnd_ok by (apply updL_ok; cbn [lays]; exact E1). reflexivity. }
    destruct Hb as [b1 b2 b3 b4 b5 b6 b7 b8 b9]. split; [split|].
    + exact b1.
    + exact b2.
    + exact b3.
    + cbn [s' ts mem]. rewrite app_length. lia.
    + intros a Ha. cbn [s' ts mem]. rewrite lookup_app_l by lia. apply b5. exact Ha.
    + cbn [s' lays]. rewrite insert_length. exact b6.
    + intros i Hi. rewrite Hne by (intros ->; contradiction). apply b7. exact Hi.
    + intros i Hi. destruct (decide (i = j)) as [->|Hij].
      * exists L0, L'. split; [exact E0|]. split; [exact HL'|]. split; [exact E2|]. unfold refcnt. cbn [L' set_ref lref lflag s' ts mem]. rewrite app_length. cbn [length].
        split; [unfold r; lia|]. exists 0. split; [apply list_lookup_middle; reflexivity|]. split; [lia|]. intros Hc. congruence.
      * destruct (b8 i Hi) as (M0 & M & F0 & F1 & F2 & F3). exists M0, M. rewrite Hne by exact Hij. repeat (split; [assumption|]).
        unfold refcnt in *. destruct (lref M) as [q|]; [|exact F3]. destruct F3 as (Hq & k & Hk & F4). split; [cbn [s' ts mem]; rewrite app_length; cbn; lia|]. exists k. split; [apply Hmem; exact Hk|exact F4].
    + intros i k Li Lk q Hi Hk HLi HLk Hqi Hqk.
      assert (Hold : forall x X, x ∈ U -> lays s !! x = Some X -> lref X = Some r -> False).
      { intros x X Hx HX Hr. destruct (b8 x Hx) as (M0 & M & F0 & F1 & F2 & F3). assert (M = X) as -> by congruence. unfold refcnt in F3. rewrite Hr in F3. unfold r in F3. lia. }
      destruct (decide (i = j)) as [->|Hij]; destruct (decide (k = j)) as [->|Hkj]; try reflexivity.
      * exfalso. rewrite Hne in HLk by exact Hkj. assert (Li = L') as -> by congruence. cbn in Hqi. injection Hqi as <-. eapply Hold; eassumption.
      * exfalso. rewrite Hne in HLi by exact Hij. assert (Lk = L') as -> by congruence. cbn in Hqk. injection Hqk as <-. eapply (Hold i Li); eassumption.
      * rewrite Hne in HLi by exact Hij. rewrite Hne in HLk by exact Hkj. eapply (b9 i k); eassumption.
    + split; [exact HL'|]. split; [reflexivity|]. split; [exact Hblt|]. split; [|split; [exact Hne|intros L1 HL1; assert (L1 = L) as -> by congruence; repeat split; auto]].
      intros i (M & q & k & F1 & F2 & F3 & F4). destruct (decide (i = j)) as [->|Hij]; [congruence|]. exists M, q, k. rewrite Hne by exact Hij. repeat (split; [assumption|]). split; [apply Hmem; exact F3|exact F4].
Qed.
Lemma incr_b B s j L r : binv B s -> j ∈ U -> lays s !! j = Some L -> lref L = Some r ->
  exists s', liftT (incr (Some r)) s = (Ok tt, s') /\ binv (S B) s' /\ lays s' = lays s /\ refpos (S B) s' j /\ forall i, refpos B s i -> refpos (S B) s' i.
Proof using Type.
  intros Hb Hj HL Hr. destruct (bi_lay _ _ Hb j Hj) as (L0 & L1 & E0 & E1 & E2 & E3). assert (L1 = L) as -> by congruence. unfold refcnt in E3. rewrite Hr in E3.
  destruct E3 as (Hrr & k & Hk & Hkb & Hk1).
  set (s' := MkL (MkSt (<[r := count (S k)]> (mem (ts s))) (tens (ts s)) (ctx (ts s))) (lays s) (rc s)).
  assert (Hmr : mem (ts s') !! r = Some (count (S k))) by (apply list_lookup_insert; lia).
  assert (Hmo : forall a, a <> r -> mem (ts s') !! a = mem (ts s) !! a) by (intros a Ha; apply list_lookup_insert_ne; congruence).
  assert (Hlm : length (mem (ts s')) = length (mem (ts s))) by apply insert_length.
  exists s'. split.
  { unfold incr. apply liftT_ok. erewrite mbnd_ok by (apply rdM_at; exact Hk). unfold wrM, wr. rewrite decide_True by lia. reflexivity. }
  destruct Hb as [b1 b2 b3 b4 b5 b6 b7 b8 b9]. split; [split; try assumption|].
  - rewrite Hlm. exact b4.
  - intros a Ha. rewrite Hmo by lia. apply b5. exact Ha.
  - intros i Hi. destruct (b8 i Hi) as (M0 & M & F0 & F1 & F2 & F3). exists M0, M. repeat (split; [assumption|]). unfold refcnt in *. rewrite Hlm.
    destruct (lref M) as [q|] eqn:Eq; [|exact F3]. destruct F3 as (Hq & k' & Hk' & F4 & F5). split; [exact Hq|]. destruct (decide (q = r)) as [->|Hqr].
    + exists (S k). split; [exact Hmr|]. split; [lia|]. intros _. lia.
    + exists k'. split; [rewrite Hmo by exact Hqr; exact Hk'|]. split; [lia|exact F5].
  - split; [reflexivity|]. split; [exists L, r, (S k); repeat (split; [assumption|]); lia|].
    intros i (M & q & k' & F1 & F2 & F3 & F4). destruct (decide (q = r)) as [->|Hqr]; [exists M, r, (S k); repeat (split; [assumption|]); lia|].
    exists M, q, k'. repeat (split; [assumption|]). split; [rewrite Hmo by exact Hqr; exact F3|lia].
Qed.
Lemma refpos_mono B B' s j : B <= B' -> refpos B s j -> refpos B' s j.
Proof using Type. intros HB (L & r & k & R1 & R2 & R3 & R4). exists L, r, k. repeat (split; [assumption|]). lia. Qed.
Lemma flag_b B s j L : binv B s -> j ∈ U -> lays s !! j = Some L -> refpos B s j ->
  exists s', updL j (set_flag BBuild true) s = (Ok tt, s') /\ binv B s' /\ lays s' !! j = Some (set_flag BBuild true L) /\ (forall i, i <> j -> builtb s' i = builtb s i) /\
    builtb s' j = true /\ (forall i, refpos B s i -> refpos B s' i).
Proof using Type.
  intros Hb Hj HL (L1 & r & k & R1 & R2 & R3 & R4). assert (L1 = L) as -> by congruence.
  set (s' := MkL (ts s) (<[j := set_flag BBuild true L]> (lays s)) (rc s)).
  assert (Hlt : j < length (lays s)) by (eapply lookup_lt_Some; exact HL). set (L' := set_flag BBuild true L).
  assert (HL' : lays s' !! j = Some L') by (apply list_lookup_insert; exact Hlt).
  assert (Hne : forall i, i <> j -> lays s' !! i = lays s !! i) by (intros i Hi; apply list_lookup_insert_ne; congruence).
  exists s'. split; [apply updL_ok; exact HL|].
  destruct Hb as [b1 b2 b3 b4 b5 b6 b7 b8 b9]. split; [split; try assumption|].
  - cbn [s' lays]. rewrite insert_length. exact b6.
  - intros i Hi. rewrite Hne by (intros ->; contradiction). apply b7. exact Hi.
  - intros i Hi. destruct (b8 i Hi) as (M0 & M & F0 & F1 & F2 & F3). destruct (decide (i = j)) as [->|Hij].
    + assert (M = L) as -> by congruence. exists M0, L'. split; [exact F0|]. split; [exact HL'|]. split.
      * eapply bsame_trans; [exact F2|]. repeat split. intros f Hf. cbn. destruct f; try reflexivity; contradiction.
      * unfold refcnt in *. cbn [L' set_flag lref]. rewrite R2 in F3 |- *. destruct F3 as (Hq & _). split; [exact Hq|]. exists k. split; [exact R3|]. split; [lia|]. intros _. lia.
    + exists M0, M. rewrite Hne by exact Hij. auto.
  - intros i k' Li Lk q Hi Hk HLi HLk Hqi Hqk.
    assert (G : forall x X, lays s' !! x = Some X -> exists X0, lays s !! x = Some X0 /\ lref X0 = lref X).
    { intros x X HX. destruct (decide (x = j)) as [->|Hx]; [exists L; split; [exact HL|]; assert (X = L') as -> by congruence; reflexivity|]. rewrite Hne in HX by exact Hx. eauto. }
    destruct (G _ _ HLi) as (Xi & HXi & Ri). destruct (G _ _ HLk) as (Xk & HXk & Rk). apply (b9 i k' Xi Xk q Hi Hk HXi HXk); congruence.
  - split; [exact HL'|]. split.
    { intros i Hi. unfold builtb. rewrite Hne by exact Hi. reflexivity. }
    split; [unfold builtb; rewrite HL'; reflexivity|].
    intros i (M & q & k' & F1 & F2 & F3 & F4). destruct (decide (i = j)) as [->|Hij].
    + assert (M = L) as -> by congruence. exists L', q, k'. repeat (split; [assumption|]). exact F4.
    + exists M, q, k'. rewrite Hne by exact Hij. repeat (split; [assumption|]). exact F4.
Qed.

Definition bclosed (Pr : list nat) (s : lst T) : Prop :=
  forall j, j ∈ U -> builtb s j = true -> j ∈ Pr \/ forall c, child s0 j c -> builtb s c = true.
Lemma bclosed_mono Pr s s' : (forall j, builtb s' j = builtb s j) -> bclosed Pr s -> bclosed Pr s'.
Proof using Type. intros Hb Hc j Hj Hbj. rewrite Hb in Hbj. destruct (Hc j Hj Hbj) as [Hp|Hp]; [auto|]. right. intros c Hcc. rewrite Hb. auto. Qed.
(** Asking a lower layer to count one more user. *)
Lemma use_b B s q : binv B s -> q ∈ U -> exists s', (r <~ GetRef q ; liftT (incr r)) s = (Ok tt, s') /\ binv (S B) s' /\ refpos (S B) s' q /\
  (forall i, builtb s' i = builtb s i) /\ (forall i, refpos B s i -> refpos (S B) s' i).
Proof using Type.
  intros Hb Hq. destruct (GetRef_b _ _ _ Hb Hq) as (s1 & r & L & G1 & G2 & G3 & G4 & G5 & G6 & _).
  destruct (incr_b _ _ _ _ _ G2 Hq G3 G4) as (s2 & I1 & I2 & I3 & I4 & I5). exists s2. split; [rewrite (mbnd_ok _ _ _ _ _ G1); exact I1|].
  split; [exact I2|]. split; [exact I4|]. split; [intros i; unfold builtb; rewrite I3; apply G5|auto].
Qed.
Hypothesis HU : NoDup U.
Hypothesis Hnz : forall k, 1 <= k <= 2 * length U + 1 -> neqb (count k) nzero = false.
Lemma use_then q s s' (K : M (lst T) unit) : (r <~ GetRef q ; liftT (incr r)) s = (Ok tt, s') -> (r <~ GetRef q ; liftT (incr r) ;~ K) s = K s'.
Proof using Type. unfold mbnd. destruct (GetRef q s) as [[r|?| |] s1]; try discriminate. intros ->. reflexivity. Qed.
Lemma rd_b B s j L : refpos B s j -> B <= 2 * length U + 1 -> lays s !! j = Some L -> exists v, liftT (rdM (lref L)) s = (Ok v, s) /\ neqb v nzero = false.
Proof using Hnz.
  intros (L1 & r & k & R1 & R2 & R3 & R4) HB HL. assert (L1 = L) as -> by congruence. exists (count k). split; [|apply Hnz; lia].
  rewrite R2. destruct s as [st ly c]. erewrite liftT_ok; [reflexivity|]. apply rdM_at. exact R3.
Qed.
Lemma unpr Pr s i : bclosed (i :: Pr) s -> (forall c, child s0 i c -> builtb s c = true) -> bclosed Pr s.
Proof using Type. intros Hc Hi j Hj Hbj. destruct (Hc j Hj Hbj) as [Hp|Hp]; [|auto]. apply elem_of_cons in Hp as [->|Hp]; auto. Qed.
Lemma LBuild_b e fuel s i Pr : stands s0 i e -> need e <= fuel -> (forall j, part s0 i j -> j ∈ U) -> binv (2 * nb s + 1) s -> refpos (2 * nb s + 1) s i -> bclosed Pr s ->
  exists s', LBuild fuel i s = (Ok tt, s') /\ binv (2 * nb s' + 1) s' /\ builtb s' i = true /\ nb s <= nb s' /\ (forall j, builtb s j = true -> builtb s' j = true) /\
    (forall j, refpos (2 * nb s + 1) s j -> refpos (2 * nb s' + 1) s' j) /\ bclosed Pr s'.
Proof using All.
  intros Hs. revert fuel s Pr. induction Hs as [i L t HL Hk Hp Ht|i L l t HL Hk Hl Hp Ht|i L l q e HL Hl Hp Hs IH|i L a b d ea eb HL Hk Hp Ha IHa Hb IHb];
    intros fuel s Pr Hf HP Hbi Hrp Hcl.
  all: pose proof (HP i (rtc_refl _ _)) as HiU.
  all: destruct fuel as [|fuel]; [cbn [need] in Hf; lia|]; cbn [LBuild]; unfold CheckB.
  all: destruct (bi_lay _ _ Hbi i HiU) as (X & L1 & E0 & E1 & E2 & E3); assert (X = L) as -> by congruence; clear E0.
  all: destruct E2 as ((S1 & S2 & S3 & S4) & S5 & S6).
  all: destruct (lflag L1 BBuild) eqn:Efl;
    [exists s; split; [erewrite mbnd_ok; [|erewrite mbnd_ok by (apply getL_ok; exact E1); rewrite Efl; reflexivity]; reflexivity|];
     split; [exact Hbi|]; split; [unfold builtb; rewrite E1; exact Efl|]; auto|].
  all: assert (Hb0 : builtb s i = false) by (unfold builtb; rewrite E1; exact Efl).
  all: destruct (flag_b _ _ _ _ Hbi HiU E1 Hrp) as (s1 & F1 & F2 & F3 & F4 & F5 & F6).
  all: pose proof (nb_set s s1 i HU HiU Hb0 F5 F4) as Hnb.
  all: erewrite mbnd_ok; [|erewrite mbnd_ok by (apply getL_ok; exact E1); rewrite Efl; rewrite (mbnd_ok _ _ _ _ _ F1); reflexivity].
  all: cbv beta iota; erewrite mbnd_ok by (apply getL_ok; exact F3).
  all: cbn [set_flag lkind_of lpre].
  all: assert (Hmb1 : forall j, builtb s j = true -> builtb s1 j = true)
    by (intros j Hj; destruct (decide (j = i)) as [->|Hji]; [exact F5|rewrite F4 by exact Hji; exact Hj]).
  all: assert (Hcl1 : bclosed (i :: Pr) s1)
    by (intros j Hj Hbj; destruct (decide (j = i)) as [->|Hji]; [left; apply elem_of_list_here|];
        rewrite F4 in Hbj by exact Hji; destruct (Hcl j Hj Hbj) as [Hx|Hx]; [left; apply elem_of_list_further; exact Hx|right; intros c Hc; apply Hmb1, Hx, Hc]).
  - (* input *)
    rewrite S1, S3, Hk, Hp. destruct (GetRef_b _ _ _ F2 HiU) as (s2 & r & L2 & G1 & G2 & G3 & G4 & G5 & G6 & _).
    pose proof (nb_le s1). destruct (rd_b _ _ _ _ (G6 _ (F6 _ Hrp)) ltac:(lia) G3) as (v & V1 & V2).
    pose proof (nb_ext _ _ G5) as Hnb2. exists s2. split.
    { erewrite mbnd_ok; [reflexivity|]. rewrite (mbnd_ok _ _ _ _ _ G1). erewrite mbnd_ok by reflexivity. erewrite mbnd_ok by (apply getL_ok; exact G3). rewrite (mbnd_ok _ _ _ _ _ V1). rewrite V2. reflexivity. }
    split; [eapply binv_mono; [|exact G2]; lia|]. split; [rewrite G5; exact F5|]. split; [lia|]. split; [intros j Hj; rewrite G5; auto|].
    split; [intros j Hj; eapply refpos_mono; [|apply G6, F6, Hj]; lia|]. eapply unpr; [eapply bclosed_mono; [exact G5|exact Hcl1]|].
    intros c (L3 & HL3 & Hc). assert (L3 = L) as -> by congruence. destruct Hc as [Hc|(? & ? & ? & Hc & _)]; congruence.
  - (* dense with its own input *)
    rewrite S1, S3, Hk, Hp. destruct (GetRef_b _ _ _ F2 HiU) as (s2 & r & L2 & G1 & G2 & G3 & G4 & G5 & G6 & _).
    pose proof (nb_le s1). destruct (rd_b _ _ _ _ (G6 _ (F6 _ Hrp)) ltac:(lia) G3) as (v & V1 & V2).
    pose proof (nb_ext _ _ G5) as Hnb2. exists s2. split.
    { rewrite (mbnd_ok _ _ _ _ _ G1). erewrite mbnd_ok by reflexivity. erewrite mbnd_ok by (apply getL_ok; exact G3). rewrite (mbnd_ok _ _ _ _ _ V1). rewrite V2. reflexivity. }
    split; [eapply binv_mono; [|exact G2]; lia|]. split; [rewrite G5; exact F5|]. split; [lia|]. split; [intros j Hj; rewrite G5; auto|].
    split; [intros j Hj; eapply refpos_mono; [|apply G6, F6, Hj]; lia|]. eapply unpr; [eapply bclosed_mono; [exact G5|exact Hcl1]|].
    intros c (L3 & HL3 & Hc). assert (L3 = L) as -> by congruence. destruct Hc as [Hc|(? & ? & ? & Hc & _)]; congruence.
  - (* a layer on another *)
    destruct (lspec_kind _ _ _ Hl) as [K1 K2].
    assert (Hci : child s0 i q) by (exists L; auto).
    assert (HqU : q ∈ U) by (apply HP; eapply rtc_l; [exact Hci|apply rtc_refl]).
    destruct (GetRef_b _ _ _ F2 HiU) as (s2 & r & L2 & G1 & G2 & G3 & G4 & G5 & G6 & _).
    destruct (use_b _ _ _ G2 HqU) as (s3 & U1 & U2 & U3 & U4 & U5).
    pose proof (nb_ext _ _ G5) as Hnb2. pose proof (nb_ext _ _ U4) as Hnb3. pose proof (nb_le s1) as Hle1.
    destruct (IH fuel s3 (i :: Pr)) as (s4 & I1 & I2 & I3 & I4 & I5 & I6 & I7).
    { cbn [need] in Hf. lia. }
    { intros j Hj. apply HP. eapply rtc_l; [exact Hci|exact Hj]. }
    { eapply binv_mono; [|exact U2]. lia. }
    { eapply refpos_mono; [|exact U3]. lia. }
    { eapply bclosed_mono; [|exact Hcl1]. intros j. rewrite U4. apply G5. }
    assert (Hri : refpos (2 * nb s4 + 1) s4 i).
    { apply I6. eapply refpos_mono; [|apply U5, G6, F6, Hrp]. lia. }
    destruct (bi_lay _ _ I2 i HiU) as (X & L4 & _ & E4 & _). pose proof (nb_le s4) as Hle4.
    destruct (rd_b _ _ _ _ Hri ltac:(lia) E4) as (v & V1 & V2).
    assert (Hpre : (GetRef i ;~ (match lpre L1 with Some q => r <~ GetRef q ; liftT (incr r) ;~ LBuild fuel q | None => mret tt end) ;~
        l' <~ getL i ; v <~ liftT (rdM (lref l')) ; if neqb v nzero then mfail (ELayer 1) else mret tt) s1 = (Ok tt, s4)).
    { rewrite (mbnd_ok _ _ _ _ _ G1). rewrite S3, Hp. erewrite mbnd_ok.
      2:{ rewrite (use_then _ _ _ _ U1). exact I1. }
      erewrite mbnd_ok by (apply getL_ok; exact E4). rewrite (mbnd_ok _ _ _ _ _ V1). rewrite V2. reflexivity. }
    exists s4. split.
    { rewrite S1. destruct (lkind_of L); try congruence; try exact Hpre; try (exfalso; eapply K2; reflexivity);
        rewrite (mbnd_ok _ _ _ _ _ Hpre); rewrite S3, Hp; reflexivity. }
    split; [exact I2|]. split; [apply I5; rewrite U4, G5; exact F5|]. split; [lia|]. split; [intros j Hj; apply I5; rewrite U4, G5; auto|].
    split; [intros j Hj; apply I6; eapply refpos_mono; [|apply U5, G6, F6, Hj]; lia|].
    eapply unpr; [exact I7|]. intros c (L3 & HL3 & Hc). assert (L3 = L) as -> by congruence. destruct Hc as [Hc|(? & ? & ? & Hc & _)]; [|exfalso; eapply K2; exact Hc].
    assert (c = q) as -> by congruence. exact I3.
  - (* concatenation *)
    rewrite S1, Hk.
    assert (Hca : child s0 i a) by (exists L; split; [exact HL|]; right; exists a, b, d; auto).
    assert (Hcb : child s0 i b) by (exists L; split; [exact HL|]; right; exists a, b, d; auto).
    assert (HaU : a ∈ U) by (apply HP; eapply rtc_l; [exact Hca|apply rtc_refl]).
    assert (HbU : b ∈ U) by (apply HP; eapply rtc_l; [exact Hcb|apply rtc_refl]).
    destruct (use_b _ _ _ F2 HaU) as (s2 & U1 & U2 & U3 & U4 & U5).
    destruct (use_b _ _ _ U2 HbU) as (s3 & W1 & W2 & W3 & W4 & W5).
    pose proof (nb_ext _ _ U4) as Hnb2. pose proof (nb_ext _ _ W4) as Hnb3. pose proof (nb_le s1) as Hle1.
    destruct (IHa fuel s3 (i :: Pr)) as (s4 & I1 & I2 & I3 & I4 & I5 & I6 & I7).
    { cbn [need] in Hf. lia. }
    { intros j Hj. apply HP. eapply rtc_l; [exact Hca|exact Hj]. }
    { eapply binv_mono; [|exact W2]. lia. }
    { eapply refpos_mono; [|apply W5; exact U3]. lia. }
    { eapply bclosed_mono; [|exact Hcl1]. intros j. rewrite W4. apply U4. }
    destruct (IHb fuel s4 (i :: Pr)) as (s5 & J1 & J2 & J3 & J4 & J5 & J6 & J7).
    { cbn [need] in Hf. lia. }
    { intros j Hj. apply HP. eapply rtc_l; [exact Hcb|exact Hj]. }
    { exact I2. }
    { apply I6. eapply refpos_mono; [|exact W3]. lia. }
    { exact I7. }
    exists s5. split.
    { rewrite (use_then _ _ _ _ U1). rewrite (use_then _ _ _ _ W1). rewrite (mbnd_ok _ _ _ _ _ I1). exact J1. }
    split; [exact J2|]. split; [apply J5, I5; rewrite W4, U4; exact F5|]. split; [lia|]. split; [intros j Hj; apply J5, I5; rewrite W4, U4; auto|].
    split; [intros j Hj; apply J6, I6; eapply refpos_mono; [|apply W5, U5, F6, Hj]; lia|].
    eapply unpr; [exact J7|]. intros c (L3 & HL3 & Hc). assert (L3 = L) as -> by congruence. destruct Hc as [Hc|(? & ? & ? & Hc & Hcc)]; [congruence|].
    rewrite Hk in Hc. injection Hc as <- <- <-. destruct Hcc as [->| ->]; [apply J5; exact I3|exact J3].
Qed.
End B.
End FwdCount.
