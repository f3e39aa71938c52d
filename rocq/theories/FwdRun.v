(** * FwdRun: compiling a network of any layers and predicting with it *)
From stdpp Require Import relations.
From Verif Require Import Base Num ModelTools ModelOps ModelTensor ModelGraph ModelLayer ModelModel Spec Denote NetSpec FwdSpec
  IndexProofs ExecProofs TensorFacts AccessProofs BuildProofs CompileProofs Agree FwdMask FwdBuild FwdSeg FwdOps FwdPool NetBuild NetChain
  NetExec NetFit FwdBody FwdExpr FwdDense FwdConv FwdAct FwdKer FwdDeconv FwdNet FwdCount FwdChain.
From Verif Require NetRun NetRun2.
From Coq Require Import Lia ZifyBool ZifyNat ZifyN.

Section FwdRun.
Context {T : Type} `{Num T}.

(** ** A network whose layers were made and connected, but not built *)
(** The tensors it reads. *)
Definition source (s : lst T) (root t : nat) : Prop :=
  exists j L, part s root j /\ lays s !! j = Some L /\ lpre L = None /\ (lkind_of L = LInput \/ lkind_of L = LDense) /\ lten L FInput = Some t.
(** The cells of the outputs dense layers are made with. *)
Definition outcell (s : lst T) (root j a : nat) : Prop :=
  part s root j /\ exists L t n, lays s !! j = Some L /\ lkind_of L = LDense /\ lten L FOutput = Some t /\ tens (ts s) !! t = Some n /\ Some a ∈ operands (nmat n).
Record fresh (s : lst T) (root : nat) (e : net T) (sh : list N) : Prop := {
  fr_net : stands s root e;
  fr_shape : nshape (insh s) e = Some sh;
  fr_new : forall j L, part s root j -> lays s !! j = Some L -> lflag L BBuild = false /\ lflag L BFF = false /\ lref L = None;
  fr_in : forall t, source s root t -> exists n, tens (ts s) !! t = Some n /\ settled n /\ wf_mat (length (mem (ts s))) (nmat n);
  fr_out : forall j L, part s root j -> lays s !! j = Some L -> lkind_of L = LDense ->
    exists out o ob bo, lten L FOutput = Some out /\ tens (ts s) !! out = Some (MkNode KMat (blkm [o] ob bo)) /\ ob + N.to_nat o <= length (mem (ts s));
  fr_own : forall i j a, outcell s root i a -> outcell s root j a -> i = j;
  fr_sep : forall i a t n, outcell s root i a -> source s root t -> tens (ts s) !! t = Some n -> Some a ∉ operands (nmat n);
  fr_pure : forall j L, part s root j -> lays s !! j = Some L -> nopar L /\ lflag L BSaved = false /\ lflag L BLoaded = false;
}.

Lemma nshape_part (inp : nat -> option (list N)) (s : lst T) i e j ej : stands s i e -> part s i j -> stands s j ej -> nshape inp ej = None -> nshape inp e = None.
Proof using Type.
  intros Hs Hp Hj Hn. revert e Hs. induction Hp as [i|i c j Hc Hp IH]; intros e Hs; [rewrite (stands_inj _ _ _ Hs _ Hj); exact Hn|].
  specialize (IH Hj). destruct Hc as (L0 & HL0 & Hc).
  inversion Hs as [? L' ? HL' Hk Hpp|? L' ? ? HL' Hk ? Hpp|? L' l q e0 HL' Hl Hpp Hq|? L' a b d ea eb HL' Hk Hpp Ha Hb]; subst; assert (L' = L0) as -> by congruence.
  - destruct Hc as [Hc|(? & ? & ? & Hc & _)]; congruence.
  - destruct Hc as [Hc|(? & ? & ? & Hc & _)]; congruence.
  - destruct Hc as [Hc|(? & ? & ? & Hc & _)]; [|exfalso; eapply (proj2 (lspec_kind _ _ _ Hl)); exact Hc]. assert (q = c) as -> by congruence.
    cbn [nshape]. rewrite (IH _ Hq). reflexivity.
  - destruct Hc as [Hc|(? & ? & ? & Hc & Hcc)]; [congruence|]. rewrite Hk in Hc. injection Hc as <- <- <-. cbn [nshape]. destruct Hcc as [->| ->].
    + rewrite (IH _ Ha). reflexivity.
    + rewrite (IH _ Hb). destruct (nshape _ ea); reflexivity.
Qed.
Lemma child_alike (s s' : lst T) i : (forall L, lays s !! i = Some L -> exists L', lays s' !! i = Some L' /\ alike L L') -> forall c, child s' i c -> i < length (lays s) -> child s i c.
Proof using Type.
  intros Ha c (L' & HL' & Hc) Hlt. destruct (lookup_lt_is_Some_2 _ _ Hlt) as [L HL]. destruct (Ha _ HL) as (L2 & HL2 & A1 & A2 & A3 & A4). assert (L2 = L') as -> by congruence.
  exists L. split; [exact HL|]. rewrite <- A1, <- A3. exact Hc.
Qed.
Lemma child_alike' (s s' : lst T) i : (forall L, lays s !! i = Some L -> exists L', lays s' !! i = Some L' /\ alike L L') -> forall c, child s i c -> child s' i c.
Proof using Type.
  intros Ha c (L & HL & Hc). destruct (Ha _ HL) as (L2 & HL2 & A1 & A2 & A3 & A4). exists L2. split; [exact HL2|]. rewrite A1, A3. exact Hc.
Qed.
(** With no context filled yet. *)
Definition emptied (s : lst T) : lst T := MkL (MkSt (mem (ts s)) (tens (ts s)) []) (lays s) (rc s).

Lemma built_site s root e sh U sb : fresh s root e sh -> (forall j, j ∈ U <-> part s root j) ->
  (forall k, 1 <= k <= 2 * length U + 1 -> neqb (count (T:=T) k) nzero = false) -> (exists a b : T, a <> b) ->
  binv U s (2 * nb U sb + 1) sb -> builtb sb root = true -> bclosed U s [] sb ->
  site U (emptied sb) /\ stands (emptied sb) root e /\ forall t, insh (emptied sb) t = insh s t.
Proof using Type.
  intros F HU Hnz Htwo [b1 b2 b3 b4 b5 b6 b7 b8 b9] Hroot Hcl.
  assert (Hal : forall j L, lays s !! j = Some L -> exists L', lays sb !! j = Some L' /\ alike L L').
  { intros j L HL. destruct (decide (j ∈ U)) as [Hj|Hj].
    - destruct (b8 j Hj) as (L0 & L' & E0 & E1 & (E2 & _) & _). assert (L0 = L) as -> by congruence. eauto.
    - exists L. rewrite b7 by exact Hj. split; [exact HL|]. repeat split. }
  assert (Hst : forall i ei, stands s i ei -> stands (emptied sb) i ei) by (intros i ei; apply stands_alike; [exact b1|exact Hal]).
  assert (Hlt : forall i, i ∈ U -> i < length (lays s)).
  { intros i Hi. destruct (b8 i Hi) as (L0 & _ & E0 & _). eapply lookup_lt_Some. exact E0. }
  assert (Hch : forall i c, i ∈ U -> child (emptied sb) i c -> child s i c) by (intros i c Hi Hc; eapply child_alike; [intros L HL; exact (Hal i L HL)|exact Hc|apply Hlt; exact Hi]).
  assert (Hbuilt : forall j, j ∈ U -> builtb sb j = true).
  { assert (G : forall i j, part s i j -> i ∈ U -> builtb sb i = true -> builtb sb j = true).
    { intros i j Hp. induction Hp as [i|i c j Hc Hp IH]; [auto|]. intros Hi Hb. destruct (Hcl i Hi Hb) as [Hx|Hx]; [inversion Hx|]. apply IH; [|apply Hx; exact Hc].
      apply HU. apply HU in Hi. eapply rtc_r; eassumption. }
    intros j Hj. apply (G root j); [apply HU; exact Hj|apply HU; apply rtc_refl|exact Hroot]. }
  assert (Hback : forall j L', j ∈ U -> lays sb !! j = Some L' -> exists L, lays s !! j = Some L /\ bsame L L' /\ refcnt s sb L' (2 * nb U sb + 1)).
  { intros j L' Hj HL'. destruct (b8 j Hj) as (L0 & L1 & E0 & E1 & E2 & E3). assert (L1 = L') as -> by congruence. eauto. }
  assert (Hinten : forall t, inten U (emptied sb) t -> source s root t).
  { intros t (j & L & Hj & HL & Hp & Hk & Ht). destruct (Hback j L Hj HL) as (L0 & HL0 & ((A1 & A2 & A3 & A4) & _) & _). exists j, L0. split; [apply HU; exact Hj|].
    split; [exact HL0|]. rewrite <- A3, <- A1, <- A4. auto. }
  assert (Hown : forall j a, FwdChain.own U (emptied sb) j a -> outcell s root j a).
  { intros j a (Hj & L & t & n & HL & Hk & Ht & Hn & Ha). destruct (Hback j L Hj HL) as (L0 & HL0 & ((A1 & A2 & A3 & A4) & _) & _). split; [apply HU; exact Hj|].
    exists L0, t, n. rewrite <- A1, <- A4, <- b1. auto. }
  assert (Hish : forall t, insh (emptied sb) t = insh s t) by (intros t; unfold insh; cbn [emptied ts tens]; rewrite b1; reflexivity).
  split; [|split; [apply Hst; apply F|exact Hish]]. split.
  - intros j Hj. apply HU in Hj. destruct (stands_part _ _ _ _ (fr_net _ _ _ _ F) Hj) as (ej & Hej & _). exists ej.
    assert (Es : nshape (insh (emptied sb)) ej = nshape (insh s) ej).
    { clear - Hish. induction ej as [t|l i e IH|i a IHa b IHb d]; cbn [nshape]; [rewrite Hish|rewrite IH|rewrite IHa, IHb]; reflexivity. }
    destruct (nshape (insh s) ej) as [shj|] eqn:E; [exists shj; auto|]. exfalso.
    pose proof (fr_shape _ _ _ _ F) as Hc.
    rewrite (nshape_part _ _ _ _ _ _ (fr_net _ _ _ _ F) Hj Hej E) in Hc. discriminate.
  - intros j c Hj Hc. apply HU. apply Hch in Hc; [|exact Hj]. apply HU in Hj. eapply rtc_r; eassumption.
  - intros j L Hj HL. cbn [emptied lays ts mem] in *. destruct (Hback j L Hj HL) as (L0 & HL0 & (_ & _ & Hfl) & Hrc).
    destruct (fr_new _ _ _ _ F j L0 (proj1 (HU j) Hj) HL0) as (_ & Hff & _). split; [rewrite Hfl by discriminate; exact Hff|].
    pose proof (Hbuilt j Hj) as Hbj. unfold builtb in Hbj. rewrite HL in Hbj. unfold refcnt in Hrc. destruct (lref L) as [r|]; [|congruence].
    destruct Hrc as (Hr & k & Hk & Hkb & Hk1). exists r, (count k). split; [reflexivity|]. split; [lia|]. split; [exact Hk|]. apply Hnz. pose proof (nb_le U sb). specialize (Hk1 Hbj). lia.
  - exact b9.
  - intros t Ht. destruct (fr_in _ _ _ _ F t (Hinten t Ht)) as (n & Hn & Hset & Hwf). exists n. cbn [emptied ts tens mem]. rewrite b1. split; [exact Hn|]. split; [exact Hset|].
    eapply wf_mat_mono; eassumption.
  - intros j L Hj HL Hk. cbn [emptied lays ts mem tens] in *. destruct (Hback j L Hj HL) as (L0 & HL0 & ((A1 & A2 & A3 & A4) & _) & _).
    destruct (fr_out _ _ _ _ F j L0 (proj1 (HU j) Hj) HL0 ltac:(congruence)) as (out & o & ob & bo & Ho & Hto & Hob). exists out, o, ob, bo. rewrite A4, b1. split; [exact Ho|]. split; [exact Hto|lia].
  - intros i j a Hi Hj. eapply fr_own; [exact F|apply Hown; exact Hi|apply Hown; exact Hj].
  - intros i a t n Hi Ht Hn. eapply fr_sep; [exact F|apply Hown; exact Hi|apply Hinten; exact Ht|]. cbn [emptied ts tens] in Hn. rewrite b1 in Hn. exact Hn.
  - reflexivity.
  - exact Htwo.
  - intros j L Hj HL. destruct (Hback j L Hj HL) as (L0 & HL0 & ((A1 & A2 & A3 & A4) & _) & _). destruct (fr_pure _ _ _ _ F j L0 (proj1 (HU j) Hj) HL0) as ((N1 & N2) & _). split; rewrite A4; assumption.
Qed.
Context (rnd : nat -> nat -> T).
Lemma start_inv U s1 : FwdChain.site U s1 -> finv U s1 rnd [] [] nowhere s1.
Proof using Type.
  intros SI. split.
  - lia.
  - apply keeps_refl.
  - reflexivity.
  - reflexivity.
  - intros j Hj. inversion Hj.
  - intros j c Hj. inversion Hj.
  - intros j Hj _. destruct (si_net _ _ SI j Hj) as (e & sh & Hs & _). destruct (stands_lay _ _ _ Hs) as [L HL]. exists L. auto.
  - intros j Hj. inversion Hj.
  - intros a [].
  - intros m m' a _ Hx _. rewrite (si_ctx _ _ SI) in Hx. injection Hx as <-. reflexivity.
  - constructor.
  - intros m _ _. rewrite (si_ctx _ _ SI). cbn. intros j e Hj. inversion Hj.
  - auto.
  - intros j Hj. inversion Hj.
  - intros j k Lj Lk a Hj. inversion Hj.
Qed.
Lemma LReset_any (s s1 : lst T) i e fuel : stands s1 i e -> need e <= fuel ->
  (forall j L, part s1 i j -> lays s1 !! j = Some L -> exists L', lays s !! j = Some L' /\ lpre L' = lpre L) -> LReset fuel i s = (Ok tt, s).
Proof using Type.
  clear rnd. intros Hs. revert fuel. induction Hs as [i L t HL Hk Hp Ht|i L l t HL Hk Hl Hp Ht|i L l q e HL Hl Hp Hs IH|i L a b d ea eb HL Hk Hp Ha IHa Hb IHb]; intros fuel Hf Hpre;
    (destruct fuel as [|fuel]; [cbn [need] in Hf; lia|]); cbn [LReset]; destruct (Hpre i L (rtc_refl _ _) HL) as (L' & HL' & Hp'); erewrite mbnd_ok by (apply getL_ok; exact HL'); rewrite Hp', Hp; try reflexivity.
  apply IH; [cbn [need] in Hf; lia|]. intros j Lj Hj HLj. apply Hpre; [|exact HLj]. eapply rtc_l; [|exact Hj]. exists L. auto.
Qed.

(** ** Compiled *)
(** Saving and loading set two flags of a layer. *)
Definition io_alike (L L' : layer T) : Prop := lkind_of L' = lkind_of L /\ lpre L' = lpre L /\ lten L' = lten L /\ forall f, f <> BSaved -> f <> BLoaded -> lflag L' f = lflag L f.
Definition io_same (s s' : lst T) : Prop := length (lays s') = length (lays s) /\ forall j L, lays s !! j = Some L -> exists L', lays s' !! j = Some L' /\ io_alike L L'.
Lemma io_same_refl (s : lst T) : io_same s s.
Proof using Type. split; [reflexivity|]. intros j L HL. exists L. split; [exact HL|repeat split]. Qed.
Lemma io_same_trans (s s' s2 : lst T) : io_same s s' -> io_same s' s2 -> io_same s s2.
Proof using Type.
  intros [E1 G1] [E2 G2]. split; [congruence|]. intros j L HL. destruct (G1 _ _ HL) as (L' & HL' & A1 & A2 & A3 & A4). destruct (G2 _ _ HL') as (L2 & HL2 & B1 & B2 & B3 & B4).
  exists L2. split; [exact HL2|]. split; [congruence|]. split; [congruence|]. split; [congruence|]. intros f Hf1 Hf2. rewrite B4 by assumption. apply A4; assumption.
Qed.
Lemma io_same_lays (s s' s2 : lst T) : io_same s s' -> lays s2 = lays s' -> io_same s s2.
Proof using Type. intros [E1 G1] E. split; [congruence|]. rewrite E. exact G1. Qed.
Definition inblock (xb : nat) (xsh : list N) (a : nat) : Prop := xb <= a < xb + N.to_nat (prodN xsh).
Record ready (s : lst T) (M : model T) (root : nat) (e : net T) (sh : list N) (ti : nat) (xsh : list N) (xb : nat)
    (U : list nat) (s1 : lst T) (D : list nat) (C : list (nat * T)) (W : nat -> Prop) (sf : lst T) : Prop := {
  rd_site : FwdChain.site U s1;
  rd_inv : finv U s1 rnd D C W sf;
  rd_root : root ∈ D;
  rd_parts : forall j, j ∈ D -> part s1 root j;
  rd_end : xb + N.to_nat (prodN xsh) <= length (mem (ts s1));
  rd_net : stands s1 root e;
  rd_sh : nshape (insh s1) e = Some sh;
  rd_keep : keeps (ts sf) (ts s);
  rd_lays : io_same sf s;
  rd_len : length (mem (ts sf)) <= length (mem (ts s));
  rd_C : consts C (mem (ts s));
  rd_ff : m_ff M = Some (MkGraph (ctx (ts sf)));
  rd_in : m_input M = Some ti;
  rd_out : exists L, lays sf !! root = Some L /\ m_output M = lten L FOutput;
  rd_src : inten U s1 ti;
  rd_blk : blk (ts s1) ti xsh xb;
  rd_alone : forall t n a, inten U s1 t -> t <> ti -> tens (ts s1) !! t = Some n -> Some a ∈ operands (nmat n) -> ~ inblock xb xsh a;
}.

(** The calls Compile makes one after the other. *)
Record stages (s : lst T) (root : nat) (U : list nat) (sb sf s' : lst T) : Prop := {
  sg_build : exists r sa sc, GetRef root s = (Ok (Some r), sa) /\ liftT (incr (Some r)) sa = (Ok tt, sc) /\ LBuild (S (length (lays sc))) root sc = (Ok tt, sb);
  sg_U : (forall j, j ∈ U <-> part s root j) /\ NoDup U;
  sg_inv : binv U s (2 * nb U sb + 1) sb;
  sg_ff : LBuildFF rnd (S (length (lays (emptied sb)))) root (emptied sb) = (Ok tt, sf);
  sg_lays : lays s' = lays sf;
  sg_tens : exists x, tens (ts s') = tens (ts sf) ++ x;
  sg_cells : exists y, mem (ts s') = mem (ts sf) ++ y;
  sg_ctx : ctx (ts s') = [];
}.
Lemma Compile_any s M root e sh first ti xsh xb :
  fresh s root e sh -> (forall k, 1 <= k <= 2 * length (lays s) + 1 -> neqb (count (T:=T) k) nzero = false) -> (exists a b : T, a <> b) ->
  m_last M = Some root -> m_first M = Some first ->
  (exists L, part s root first /\ lays s !! first = Some L /\ lpre L = None /\ (lkind_of L = LInput \/ lkind_of L = LDense) /\ lten L FInput = Some ti) ->
  blk (ts s) ti xsh xb -> xb + N.to_nat (prodN xsh) <= length (mem (ts s)) ->
  (forall t n a, source s root t -> t <> ti -> tens (ts s) !! t = Some n -> Some a ∈ operands (nmat n) -> ~ inblock xb xsh a) ->
  exists s' M' U s1 D C W sf, Compile rnd M s = (Ok M', s') /\ ready s' M' root e sh ti xsh xb U s1 D C W sf /\
    (exists sb, s1 = emptied sb /\ stages s root U sb sf s') /\
    (forall a, W a -> length (mem (ts s)) <= a \/ exists j, outcell s root j a) /\
    keeps (ts s) (ts s') /\ (forall a v, mem (ts s) !! a = Some v -> mem (ts s') !! a = Some v) /\
    (forall t, insh s1 t = insh s t) /\ (forall a v, mem (ts sf) !! a = Some v -> mem (ts s') !! a = Some v) /\
    (forall j L, j ∈ D -> lays s' !! j = Some L -> lflag L BSaved = false /\ lflag L BLoaded = false) /\ m_last M' = m_last M.
Proof using Type.
  intros F Hnz Htwo Hlast Hfirst (Lf & Hpf & HLf & Hpre & Hkf & Hti) Hblk Hxend Halone. pose proof (fr_net _ _ _ _ F) as Hst.
  destruct (parts_list _ _ _ Hst) as (U & HnU & HU).
  assert (HUl : length U <= length (lays s)).
  { apply NetRun.ids_fuel; [exact HnU|]. intros j Hj. apply HU in Hj. destruct (stands_part _ _ _ _ Hst Hj) as (ej & Hej & _). destruct (stands_lay _ _ _ Hej) as [L HL]. eapply lookup_lt_Some. exact HL. }
  assert (HnzU : forall k, 1 <= k <= 2 * length U + 1 -> neqb (count (T:=T) k) nzero = false) by (intros k Hk; apply Hnz; lia).
  assert (Hroot : root ∈ U) by (apply HU; apply rtc_refl).
  assert (Hfr : forall j L, j ∈ U -> lays s !! j = Some L -> lflag L BBuild = false /\ lref L = None).
  { intros j L Hj HL. destruct (fr_new _ _ _ _ F j L (proj1 (HU j) Hj) HL) as (? & ? & ?). auto. }
  assert (B0 : binv U s 0 s).
  { split; try reflexivity.
    - intros j Hj. apply HU in Hj. destruct (stands_part _ _ _ _ Hst Hj) as (ej & Hej & _). destruct (stands_lay _ _ _ Hej) as [L HL]. exists L, L. split; [exact HL|]. split; [exact HL|].
      split; [apply bsame_refl|]. apply HU in Hj. destruct (Hfr j L Hj HL) as [H1 H2]. unfold refcnt. rewrite H2. exact H1.
    - intros i j Li Lj r Hi Hj HLi HLj Hri _. destruct (Hfr i Li Hi HLi). congruence. }
  destruct (GetRef_b U s 0 s root B0 Hroot) as (sa & r & La & G1 & G2 & G3 & G4 & G5 & G6 & _).
  destruct (incr_b U s 0 sa root La r G2 Hroot G3 G4) as (sc & I1 & I2 & I3 & I4 & _).
  assert (Hnob : forall j, j ∈ U -> builtb sc j = false).
  { intros j Hj. unfold builtb. rewrite I3. fold (builtb sa j). rewrite G5. unfold builtb. destruct (lays s !! j) as [L|] eqn:HL; [|reflexivity]. apply (Hfr j L Hj HL). }
  assert (Hnb0 : nb U sc = 0).
  { unfold nb. clear - Hnob. induction U as [|j l IH]; [reflexivity|]. cbn. rewrite (Hnob j) by apply elem_of_list_here. apply IH. intros i Hi. apply Hnob. apply elem_of_list_further. exact Hi. }
  assert (Hcl0 : bclosed U s [] sc). { intros j Hj Hb. rewrite Hnob in Hb by exact Hj. discriminate. }
  assert (Hlsc : length (lays sc) = length (lays s)) by (eapply bi_nlay; exact I2).
  destruct (LBuild_b U s HnU HnzU e (S (length (lays sc))) sc root [] Hst) as (sb & L1 & L2 & L3 & L4 & L5 & L6 & L7).
  { rewrite Hlsc. apply need_fuel with (i := root). exact Hst. }
  { intros j Hj. apply HU. exact Hj. }
  { rewrite Hnb0. exact I2. }
  { rewrite Hnb0. exact I4. }
  { exact Hcl0. }
  destruct (built_site s root e sh U sb F HU HnzU Htwo L2 L3 L7) as (SI & Hst1 & Hish).
  assert (Esh : forall e' : net T, nshape (insh (emptied sb)) e' = nshape (insh s) e').
  { induction e' as [t|l i e' IH|i a IHa b IHb d]; cbn [nshape]; [rewrite Hish|rewrite IH|rewrite IHa, IHb]; reflexivity. }
  pose proof (start_inv U (emptied sb) SI) as F0.
  destruct (LBuildFF_ok U (emptied sb) SI rnd e (S (length (lays (emptied sb)))) root [] [] nowhere (emptied sb) sh Hst1) as (sf & D & C & W & E1 & F1 & (P1 & P2 & P3 & P4)).
  { rewrite Esh. apply F. }
  { exact Hroot. }
  { apply need_fuel with (i := root). exact Hst1. }
  { exact F0. }
  { reflexivity. }
  assert (HDU : forall j, j ∈ U -> j ∈ D).
  { intros j Hj. eapply (fi_part U (emptied sb)); [exact F1|exact P1|]. apply HU in Hj.
    assert (G : forall i, part s i j -> part (emptied sb) i j); [|apply G; exact Hj].
    intros i Hp. induction Hp as [i|i c j Hc Hp IH]; [apply rtc_refl|]. eapply rtc_l; [|apply IH].
    - eapply child_alike'; [|exact Hc]. intros L HL. destruct (decide (i ∈ U)) as [Hi|Hi].
      + destruct (bi_lay _ _ _ _ L2 i Hi) as (L0 & L' & Q0 & Q1 & (Q2 & _) & _). assert (L0 = L) as -> by congruence. exists L'. auto.
      + exists L. cbn [emptied lays]. rewrite (bi_out _ _ _ _ L2) by exact Hi. split; [exact HL|repeat split].
    - exact Hj. }
  pose proof (fi_done _ _ _ _ _ _ _ F1) as Hdone.
  (* the counters *)
  assert (Hlsb : length (lays sb) = length (lays s)) by (eapply bi_nlay; exact L2).
  assert (Hlsf : length (lays sf) = length (lays s)) by (rewrite (fi_nlay _ _ _ _ _ _ _ F1); exact Hlsb).
  assert (HR : LReset (S (length (lays sf))) root (emptied sf) = (Ok tt, emptied sf)).
  { eapply LReset_any; [exact Hst1|rewrite Hlsf, <- Hlsb; exact (need_fuel _ _ _ Hst1)|].
    intros j L Hj HL. assert (HjD : j ∈ D) by (eapply (fi_part U (emptied sb)); [exact F1|exact P1|exact Hj]).
    destruct (Hdone j HjD) as (M1 & Mj & n & d & shj & ej & HM1 & HM & Q1 & Q2 & Q3 & _). assert (M1 = L) as -> by congruence. exists Mj. split; [exact HM|exact Q3]. }
  destruct (Hdone root P1) as (R1 & R & n & d & shr & er & HR1 & HRr & Q1 & Q2 & Q3 & Q4 & Q5 & Q6 & Q7 & Q8 & Q9 & Q10 & [Q11 _] & _).
  pose proof (stands_inj _ _ _ Q5 _ Hst1) as ->.
  assert (HfU : first ∈ U) by (apply HU; exact Hpf). pose proof (HDU _ HfU) as HfD.
  destruct (bi_lay _ _ _ _ L2 first HfU) as (X & Lfb & X0 & HLfb & ((A1 & A2 & A3 & A4) & _) & _). assert (X = Lf) as -> by congruence. clear X0.
  destruct (Hdone first HfD) as (M1 & Mf & nf & df & shf & ef & HM1 & HM & V1 & V2 & V3 & V4 & V5 & V6 & V7 & V8 & V9 & V10 & [_ V11] & _).
  cbn [emptied lays] in HM1. assert (M1 = Lfb) as -> by congruence.
  assert (Hfin : lten Mf FInput = Some ti). { rewrite V11; [rewrite A4; exact Hti|congruence|rewrite A1; exact Hkf]. }
  assert (Hro : exists tr, lten R FOutput = Some tr /\ tens (ts sf) !! tr = Some n).
  { unfold outnode in Q7. rewrite HRr in Q7. cbn [mbind option_bind] in Q7. destruct (lten R FOutput) as [tr|]; [|discriminate]. exists tr. auto. }
  destruct Hro as (tr & Hro & Hntr).
  assert (Hrin : lkind_of R = LInput -> lpre R = None) by (intros Hkr; rewrite Q3; eapply (stands_in (emptied sb)); [exact Hst1|exact HR1|congruence]).
  assert (Hrd : exists vs, rds (mem (ts sf)) (operands (nmat n)) = Some vs).
  { destruct (mval_total _ (mem (ts sf)) _ Q9 (le_n _)) as [v Hv]. unfold mval in Hv. destruct (rds _ _) as [vs|]; [eauto|discriminate]. }
  destruct Hrd as [vs Hvs]. destruct n as [kn mn]. cbn [nmat] in *.
  pose proof (NetRun.Copy_rd (ts (emptied sf)) tr kn mn vs Hntr Hvs) as HC. cbn [emptied ts mem tens ctx] in HC.
  set (nc := MkNode KMat _) in HC. set (s' := MkL (MkSt (mem (ts sf) ++ vs) (tens (ts sf) ++ [nc]) []) (lays sf) (rc sf)).
  set (M' := MkModel (m_first M) (m_last M) (Some ti) (Some tr) (Some (length (tens (ts sf)))) (m_alpha M) (m_momentum M) (m_loss M) (Some (MkGraph (ctx (ts sf)))) (m_bp M) (m_caldif M) (m_resetfit M) (Some (MkGraph []))).
  assert (Kf : keeps (ts sf) (ts s')).
  { intros j nj Hj. exists nj. cbn [s' ts tens]. rewrite (lookup_app_l_Some _ _ _ _ Hj). repeat split; auto. }
  assert (Kb : keeps (ts s) (ts sf)).
  { intros j nj Hj. apply (fi_keep _ _ _ _ _ _ _ F1 j nj). cbn [emptied ts tens]. rewrite (bi_tens _ _ _ _ L2). exact Hj. }
  exists s', M', U, (emptied sb), D, C, W, sf. split; [|split; [|split; [exists sb; split; [reflexivity|]|split; [|split; [|split; [|split; [|split; [|split; [|reflexivity]]]]]]]]].
  - unfold Compile. rewrite Hlast. erewrite mbnd_ok by reflexivity. rewrite (mbnd_ok _ _ _ _ _ G1). rewrite (mbnd_ok _ _ _ _ _ I1).
    erewrite mbnd_ok by exact L1. erewrite mbnd_ok by (apply NetRun.in_ctx_ok; exact E1).
    erewrite mbnd_ok by (apply NetRun.in_ctx_ok; exact HR). rewrite Hfirst. erewrite mbnd_ok by reflexivity.
    erewrite mbnd_ok by (apply GetT_direct; [exact HM|congruence]). rewrite Hfin.
    erewrite mbnd_ok by (apply GetT_direct; [exact HRr|exact Hrin]). rewrite Hro.
    erewrite mbnd_ok by reflexivity. erewrite mbnd_ok by (apply liftT_ok; exact HC). cbn [emptied ts lays rc ctx].
    unfold M', s'. rewrite Hlast, Hfirst. reflexivity.
  - split; try assumption; try reflexivity.
    + intros j Hj. destruct (P3 j Hj) as [Hc|Hc]; [inversion Hc|exact Hc].
    + cbn [emptied ts mem]. pose proof (bi_len _ _ _ _ L2). lia.
    + rewrite Esh. apply F.
    + apply (io_same_lays sf sf); [apply io_same_refl|reflexivity].
    + cbn [s' ts mem]. rewrite app_length. lia.
    + pose proof (fi_C _ _ _ _ _ _ _ F1) as FC. unfold consts. eapply Forall_impl; [exact FC|]. cbn. intros c (_ & Hc & _). apply lookup_app_l_Some. exact Hc.
    + exists R. split; [exact HRr|]. cbn [M' m_output]. symmetry. exact Hro.
    + exists first, Lfb. cbn [emptied lays]. rewrite A1, A3, A4. auto 10.
    + destruct Hblk as [b Hb]. exists b. cbn [emptied ts tens]. rewrite (bi_tens _ _ _ _ L2). exact Hb.
    + intros t nt a (j & L & Hj & HL & Hp & Hk & Ht) Hne Hnt. cbn [emptied ts tens lays] in *. rewrite (bi_tens _ _ _ _ L2) in Hnt. apply (Halone t nt a); [|exact Hne|exact Hnt].
      destruct (bi_lay _ _ _ _ L2 j Hj) as (L0 & L' & E0 & E1' & ((B1 & B2 & B3 & B4) & _) & _). assert (L' = L) as -> by congruence. exists j, L0. split; [apply HU; exact Hj|]. split; [exact E0|].
      rewrite <- B3, <- B1, <- B4. auto.
  - split; try assumption; try reflexivity; [exists r, sa, sc; auto|auto|eexists; reflexivity|eexists; reflexivity].
  - intros a Ha. destruct (fi_W _ _ _ _ _ _ _ F1 _ Ha) as [_ [Hge|(j & Hj & (HjU & L & t & nt & HL & Hk & Ht & Hn & Hin))]].
    + left. cbn [emptied ts mem] in Hge. pose proof (bi_len _ _ _ _ L2). lia.
    + right. exists j. split; [apply HU; exact HjU|]. cbn [emptied lays ts tens] in *. destruct (bi_lay _ _ _ _ L2 j HjU) as (L0 & L' & E0 & E1' & ((B1 & B2 & B3 & B4) & _) & _). assert (L' = L) as -> by congruence.
      exists L0, t, nt. rewrite <- B1, <- B4. rewrite (bi_tens _ _ _ _ L2) in Hn. auto.
  - eapply keeps_trans; eassumption.
  - intros a v Ha. pose proof (lookup_lt_Some _ _ _ Ha) as Hlt. cbn [s' ts mem]. apply lookup_app_l_Some.
    rewrite <- (bi_mem _ _ _ _ L2 a Hlt) in Ha. apply (fi_mem _ _ _ _ _ _ _ F1); [|exact Ha].
    intros k Lk Hk HLk Hrk. cbn [emptied lays] in HLk. destruct (bi_lay _ _ _ _ L2 k Hk) as (L0 & L' & E0 & E1' & _ & Hrc). assert (L' = Lk) as -> by congruence. unfold refcnt in Hrc. rewrite Hrk in Hrc. lia.
  - exact Hish.
  - intros a v Ha. apply lookup_app_l_Some. exact Ha.
  - intros j L Hj HL. cbn [s' lays] in HL. destruct (fi_more _ _ _ _ _ _ _ F1 j Hj) as (M1 & M2 & Hm1 & Hm2 & Hfl & _). assert (M2 = L) as -> by congruence.
    cbn [emptied lays] in Hm1. pose proof (fi_DU _ _ _ _ _ _ _ F1 _ Hj) as HjU. destruct (bi_lay _ _ _ _ L2 j HjU) as (L0 & L' & E0 & E1' & (_ & _ & Hfb) & _). assert (L' = M1) as -> by congruence.
    destruct (fr_pure _ _ _ _ F j L0 (proj1 (HU j) HjU) E0) as (_ & S1 & S2). rewrite !Hfl by discriminate. rewrite !Hfb by discriminate. auto.
Qed.

(** What the network says about input [v] with everything else as it is in [s]. *)
Definition predicted (s : lst T) (ti : nat) (v : vten T) (e : net T) : option (vten T) :=
  nval (fun t => if decide (t = ti) then Some v else net_in s (mem (ts s)) t) (net_par s (mem (ts s))) e.

Lemma ready_in s M root e sh ti xsh xb U s1 D C W sf t : ready s M root e sh ti xsh xb U s1 D C W sf -> inten U s1 t ->
  exists n0 n, tens (ts s1) !! t = Some n0 /\ tens (ts s) !! t = Some n /\ operands (nmat n) = operands (nmat n0) /\ shape (nmat n) = shape (nmat n0) /\ settled n /\
    (forall a, Some a ∈ operands (nmat n) -> a < length (mem (ts s1)) /\ ~ W a).
Proof using Type.
  intros R Ht. destruct (si_ten _ _ (rd_site _ _ _ _ _ _ _ _ _ _ _ _ _ _ R) t Ht) as (n0 & Hn0 & Hset & Hwf). pose proof (rd_inv _ _ _ _ _ _ _ _ _ _ _ _ _ _ R) as F.
  pose proof (keeps_trans _ _ _ (fi_keep _ _ _ _ _ _ _ F) (rd_keep _ _ _ _ _ _ _ _ _ _ _ _ _ _ R)) as K.
  destruct (K _ _ Hn0) as (n & Hn & Hk & Hb & E). destruct (E Hset) as (E1 & E2 & E3). exists n0, n. repeat (split; [assumption|]). split; [eapply keeps_settled; eassumption|].
  intros a Ha. rewrite E3 in Ha. pose proof (wf_lt _ _ _ Hwf Ha) as Hlt. split; [exact Hlt|]. intros Hw. destruct (fi_W _ _ _ _ _ _ _ F _ Hw) as [_ [Hge|(j & Hj & Ho)]]; [lia|].
  eapply (si_sep _ _ (rd_site _ _ _ _ _ _ _ _ _ _ _ _ _ _ R)); eassumption.
Qed.
Lemma ready_inten s M root e sh ti xsh xb U s1 D C W sf t : ready s M root e sh ti xsh xb U s1 D C W sf -> t ∈ ins e -> inten U s1 t.
Proof using Type.
  intros R Ht. destruct (ins_part _ _ _ _ (rd_net _ _ _ _ _ _ _ _ _ _ _ _ _ _ R) Ht) as (k & L & Hk & Hr). exists k, L. split; [|exact Hr].
  eapply (part_U U s1); [exact (rd_site _ _ _ _ _ _ _ _ _ _ _ _ _ _ R)| |exact Hk]. eapply fi_DU; [exact (rd_inv _ _ _ _ _ _ _ _ _ _ _ _ _ _ R)|]. apply R.
Qed.
Lemma own_field_lten (P : nat -> Prop) (Q : vten T -> Prop) (t : tst T) (L L' : layer T) f : lten L' = lten L -> own_field P Q t L f -> own_field P Q t L' f.
Proof using Type. intros E. unfold own_field. rewrite E. auto. Qed.
Lemma ready_par s M root e sh ti xsh xb U s1 D C W sf k : ready s M root e sh ti xsh xb U s1 D C W sf -> k ∈ pars e ->
  exists L ek bs ws, stands s1 k ek /\ top_par (insh s1) ek = Some (bs, ws) /\
    lays s !! k = Some L /\ own_field (fun a => length (mem (ts s1)) <= a < length (mem (ts sf)) /\ ~ W a) (drawn rnd bs) (ts sf) L FBias /\
    own_field (fun a => length (mem (ts s1)) <= a < length (mem (ts sf)) /\ ~ W a) (drawn rnd ws) (ts sf) L FWeights.
Proof using Type.
  intros R Hk. pose proof (rd_inv _ _ _ _ _ _ _ _ _ _ _ _ _ _ R) as F. destruct (pars_part _ _ _ _ (rd_net _ _ _ _ _ _ _ _ _ _ _ _ _ _ R) Hk) as (L & l & Hp & HL & Hl & Hpar).
  assert (HkD : k ∈ D) by (eapply (fi_part U s1); [exact F| |exact Hp]; apply R).
  destruct (fi_done _ _ _ _ _ _ _ F k HkD) as (L1 & L' & n & d & shk & e' & HL1 & HL' & _ & _ & _ & _ & Hsk & _ & _ & _ & _ & _ & _ & _ & Hpp). assert (L1 = L) as -> by congruence.
  destruct (Hpp _ Hl Hpar) as (bs & ws & Htp & Hb & Hw). destruct (proj2 (rd_lays _ _ _ _ _ _ _ _ _ _ _ _ _ _ R) _ _ HL') as (L2 & HL2 & _ & _ & Elt & _).
  exists L2, e', bs, ws. split; [exact Hsk|]. split; [exact Htp|]. split; [exact HL2|].
  split; (apply (own_field_lten _ _ _ L'); [exact Elt|]); (eapply own_field_mono; [apply keeps_refl|reflexivity| |eassumption]); cbn beta; intros a Ha [Hge Hnw]; (split; [|reflexivity]); (split; [lia|exact Hnw]).
Qed.
Lemma stands_sub (s0 : lst T) i e l k e0 : stands s0 i e -> NLay l k e0 ∈ subs e -> stands s0 k (NLay l k e0).
Proof using Type.
  clear rnd. intros Hs. induction Hs as [i L t HL Hk Hp Ht|i L l' t HL Hk Hl Hp Ht|i L l' q e HL Hl Hp Hs IH|i L a b d ea eb HL Hk Hp Ha IHa Hb IHb]; cbn [subs]; intros Hin.
  - apply elem_of_list_singleton in Hin. discriminate.
  - apply elem_of_cons in Hin as [Hin|Hin]; [injection Hin as -> -> ->; eapply st_src; eassumption|]. apply elem_of_list_singleton in Hin. discriminate.
  - apply elem_of_cons in Hin as [Hin|Hin]; [injection Hin as -> -> ->; eapply st_lay; eassumption|auto].
  - apply elem_of_cons in Hin as [Hin|Hin]; [discriminate|]. apply elem_of_app in Hin as [Hin|Hin]; auto.
Qed.
Lemma subs_pars (e : net T) l k e0 : NLay l k e0 ∈ subs e -> has_par l = true -> k ∈ pars e.
Proof using Type.
  clear rnd. intros Hin Hp. induction e as [t|l' i e IH|i a IHa b IHb d]; cbn [subs pars] in *.
  - apply elem_of_list_singleton in Hin. discriminate.
  - apply elem_of_cons in Hin as [Hin|Hin]; [injection Hin as <- <- <-; rewrite Hp; apply elem_of_list_here|apply elem_of_app; auto].
  - apply elem_of_cons in Hin as [Hin|Hin]; [discriminate|]. apply elem_of_app in Hin as [Hin|Hin]; apply elem_of_app; auto.
Qed.
(** Right after compiling, bias and weights are draws of the right shapes. *)
Lemma ready_drawn s M root e sh ti xsh xb U s1 D C W sf l k e0 bs ws : ready s M root e sh ti xsh xb U s1 D C W sf ->
  (forall a v, mem (ts sf) !! a = Some v -> mem (ts s) !! a = Some v) -> NLay l k e0 ∈ subs e -> top_par (insh s1) (NLay l k e0) = Some (bs, ws) ->
  exists b w, net_par s (mem (ts s)) k = Some (b, w) /\ drawn rnd bs b /\ drawn rnd ws w.
Proof using Type.
  intros R Hm Hin Ht. assert (Hp : has_par l = true).
  { destruct l; try reflexivity; cbn [top_par] in Ht; destruct (nshape _ e0) as [sh0|]; try discriminate Ht; destruct sh0 as [|? [|? [|? [|]]]]; discriminate Ht. }
  destruct (ready_par _ _ _ _ _ _ _ _ _ _ _ _ _ _ _ R (subs_pars _ _ _ _ Hin Hp)) as (L & ek & bs' & ws' & Hs & Htp & HL & Hb & Hw).
  pose proof (stands_inj _ _ _ Hs _ (stands_sub _ _ _ _ _ _ (rd_net _ _ _ _ _ _ _ _ _ _ _ _ _ _ R) Hin)) as ->. rewrite Ht in Htp. injection Htp as <- <-.
  unfold net_par. rewrite HL. cbn [mbind option_bind]. rewrite (kept_params _ _ _ _ _ _ (mem (ts s)) L (rd_keep _ _ _ _ _ _ _ _ _ _ _ _ _ _ R) Hb Hw).
  destruct Hb as (tb & nb & Hb1 & Hb2 & _ & Hb3 & _ & vb & Hb4 & Hb5). destruct Hw as (tw & nw & Hw1 & Hw2 & _ & Hw3 & _ & vw & Hw4 & Hw5).
  assert (G : forall n v, wf_mat (length (mem (ts sf))) n -> mval (mem (ts sf)) n = Some v -> mval (mem (ts s)) n = Some v).
  { intros n v Hwf Hv. rewrite <- Hv. apply mval_off. intros a Ha. destruct (lookup_lt_is_Some_2 _ _ (wf_lt _ _ _ Hwf Ha)) as [w Hw]. rewrite Hw. apply Hm. exact Hw. }
  exists vb, vw. split; [|split; [exact Hb5|exact Hw5]]. unfold lparams, tval. rewrite Hb1, Hw1. cbn [mbind option_bind]. rewrite Hb2, Hw2. cbn [mbind option_bind].
  rewrite (G _ _ Hb3 Hb4), (G _ _ Hw3 Hw4). reflexivity.
Qed.
(** The memory may change where the network does not read. *)
Lemma ready_vals s M root e sh ti xsh xb U s1 D C W sf (s2 : lst T) m : ready s M root e sh ti xsh xb U s1 D C W sf ->
  keeps (ts sf) (ts s2) -> io_same sf s2 ->
  (forall a, a < length (mem (ts sf)) -> ~ W a -> ~ inblock xb xsh a -> m !! a = mem (ts s) !! a) ->
  (forall t, t ∈ ins e -> t <> ti -> net_in s2 m t = net_in s (mem (ts s)) t) /\ (forall k, k ∈ pars e -> net_par s2 m k = net_par s (mem (ts s)) k).
Proof using Type.
  intros R K Hls Hm. pose proof (rd_inv _ _ _ _ _ _ _ _ _ _ _ _ _ _ R) as F. pose proof (fi_len _ _ _ _ _ _ _ F) as HA. split.
  - intros t Ht Hne. pose proof (ready_inten _ _ _ _ _ _ _ _ _ _ _ _ _ _ _ R Ht) as Hin. destruct (ready_in _ _ _ _ _ _ _ _ _ _ _ _ _ _ _ R Hin) as (n0 & n & Hn0 & Hn & E3 & E1 & Hset & Hc).
    destruct (si_ten _ _ (rd_site _ _ _ _ _ _ _ _ _ _ _ _ _ _ R) t Hin) as (n0' & Hn0' & Hset0 & _). assert (n0' = n0) as -> by congruence.
    unfold net_in. rewrite (kept_tval _ _ m _ _ (keeps_trans _ _ _ (fi_keep _ _ _ _ _ _ _ F) K) Hn0 Hset0). unfold tval. cbn [mbind option_bind]. rewrite Hn0, Hn. cbn [mbind option_bind].
    rewrite (mval_kept n0 n (mem (ts s)) E1 E3). apply mval_off. intros a Ha. rewrite <- E3 in Ha. destruct (Hc a Ha) as [Hlt Hw]. apply Hm; [lia|exact Hw|].
    eapply (rd_alone _ _ _ _ _ _ _ _ _ _ _ _ _ _ R); [exact Hin|exact Hne|exact Hn0|]. rewrite <- E3. exact Ha.
  - intros k Hk. destruct (ready_par _ _ _ _ _ _ _ _ _ _ _ _ _ _ _ R Hk) as (L & _ & bs & ws & _ & _ & HL & Hb & Hw). unfold net_par. rewrite HL.
    destruct (lays sf !! k) as [L0|] eqn:HL0; [|apply lookup_ge_None in HL0; apply lookup_lt_Some in HL; rewrite (proj1 (rd_lays _ _ _ _ _ _ _ _ _ _ _ _ _ _ R)) in HL; lia].
    destruct (proj2 (rd_lays _ _ _ _ _ _ _ _ _ _ _ _ _ _ R) _ _ HL0) as (L' & HL' & _ & _ & El & _). assert (L' = L) as -> by congruence.
    destruct (proj2 Hls _ _ HL0) as (L2 & HL2 & _ & _ & El2 & _). rewrite HL2. cbn [mbind option_bind]. assert (El3 : forall m0, lparams (tens (ts s2)) m0 L2 = lparams (tens (ts s2)) m0 L) by (intros m0; unfold lparams; rewrite El, El2; reflexivity). rewrite El3.
    rewrite (kept_params _ _ _ _ _ _ m L K Hb Hw). rewrite (kept_params _ _ _ _ _ _ (mem (ts s)) L (rd_keep _ _ _ _ _ _ _ _ _ _ _ _ _ _ R) Hb Hw).
    eapply off_params; [exact Hb|exact Hw|]. intros a Ha.
    assert (Ha' : length (mem (ts s1)) <= a < length (mem (ts sf)) /\ ~ W a) by tauto. destruct Ha' as [Hlt Hnw]. apply Hm; [lia|exact Hnw|].
    intros Hib. destruct (ready_in _ _ _ _ _ _ _ _ _ _ _ _ _ _ _ R (rd_src _ _ _ _ _ _ _ _ _ _ _ _ _ _ R)) as (n0 & n & Hn0 & Hn & E3 & E1 & Hset & Hc).
    destruct (rd_blk _ _ _ _ _ _ _ _ _ _ _ _ _ _ R) as [bb Hbb]. assert (n0 = MkNode KMat (blkm xsh xb bb)) as -> by congruence.
    destruct (Hc a) as [Hx _]; [|lia]. rewrite E3. cbn [nmat]. apply blk_ops. exact Hib.
Qed.

Lemma Predict_any s M root e sh ti xsh xb U s1 D C W sf x nx v : ready s M root e sh ti xsh xb U s1 D C W sf ->
  tens (ts s) !! x = Some nx -> mval (mem (ts s)) (nmat nx) = Some v -> vsh v = xsh -> length (vdata v) = N.to_nat (prodN xsh) ->
  (forall a, Some a ∈ operands (nmat nx) -> ~ inblock xb xsh a) ->
  match predicted s ti v e with
  | None => exists s', Predict rnd M x s = (Panic, s')
  | Some y => exists s' nc, Predict rnd M x s = (Ok (length (tens (ts s)), M), s') /\ ready s' M root e sh ti xsh xb U s1 D C W sf /\
      tens (ts s') = tens (ts s) ++ [nc] /\ mval (mem (ts s')) (nmat nc) = Some y /\ (forall a, Some a ∈ operands (nmat nc) -> length (mem (ts s)) <= a) /\ vsh y = sh /\
      length (vdata y) = N.to_nat (prodN sh) /\ lays s' = lays s /\ rc s' = rc s /\
      (forall a w, ~ W a -> ~ inblock xb xsh a -> mem (ts s) !! a = Some w -> mem (ts s') !! a = Some w) /\
      (forall k, k ∈ pars e -> net_par s' (mem (ts s')) k = net_par s (mem (ts s)) k) /\
      (forall t, t ∈ ins e -> net_in s' (mem (ts s')) t = if decide (t = ti) then Some v else net_in s (mem (ts s)) t)
  end.
Proof using Type.
  intros R Hx Hv Hvs Hvl Hclear. pose proof R as [SI F r3 r3a Hend r4 r5 r6 r7 r8 r9 r10 r11 r12 r13 r14 r15].
  pose proof (fi_len _ _ _ _ _ _ _ F) as HA.
  destruct (ready_in _ _ _ _ _ _ _ _ _ _ _ _ _ _ _ R r13) as (n0 & ni & Hn0 & Hni & E3 & E1 & Hseti & Hci). destruct r14 as [bb Hbb]. assert (n0 = MkNode KMat (blkm xsh xb bb)) as -> by congruence.
  cbn [nmat] in E3, E1.
  assert (Hblk : blk (ts s) ti xsh xb).
  { destruct (keeps_trans _ _ _ (fi_keep _ _ _ _ _ _ _ F) r6 _ _ Hbb) as (n' & Hn' & Hk' & Hb' & E). destruct E as (X1 & X2 & X3); [left; reflexivity|]. cbn [nmat nkind] in *.
    exists (builded (nmat n')). rewrite Hn'. destruct n' as [kn mn]. destruct mn as [a1 a2 a3 a4]. cbn in *. subst. reflexivity. }
  unfold mval in Hv. destruct (rds (mem (ts s)) (operands (nmat nx))) as [vs|] eqn:Erd; [|discriminate]. injection Hv as <-. cbn [vsh vdata] in Hvs, Hvl. destruct nx as [kx mx]. cbn [nmat] in *.
  destruct (Load_blk (ts s) ti x xsh xb kx mx vs Hblk Hx Hvs Erd Hvl) as (m1 & El & Sl & Hl); [exact Hclear|lia|].
  assert (Lm1 : length m1 = length (mem (ts s))) by apply Sl.
  assert (HC1 : consts C m1).
  { pose proof (fi_C _ _ _ _ _ _ _ F) as FC. unfold consts in *. rewrite Forall_forall in FC, r9 |- *. intros c Hc. destruct (FC _ Hc) as (Hge & _). destruct Sl as [_ Sl]. rewrite Sl by lia. auto. }
  assert (Hin1 : forall (s2 : lst T) m, keeps (ts sf) (ts s2) -> hold m (fun j => xb + j) vs -> net_in s2 m ti = Some (V xsh vs)).
  { intros s2 m K2 Hh. unfold net_in. assert (Hs0 : settled (MkNode KMat (blkm xsh xb bb) : node T)) by (left; reflexivity).
    rewrite (kept_tval _ _ m _ _ (keeps_trans _ _ _ (fi_keep _ _ _ _ _ _ _ F) K2) Hbb Hs0). unfold tval. cbn [mbind option_bind]. rewrite Hbb. cbn [mbind option_bind nmat]. unfold mval. cbn [blkm operands shape].
    rewrite <- Hvl. erewrite rds_seq; [reflexivity|]. intros i Hi. destruct (lookup_lt_is_Some_2 _ _ Hi) as [w Hw]. rewrite Hw. apply Hh. exact Hw. }
  assert (Hoff1 : forall a, a < length (mem (ts sf)) -> ~ W a -> ~ inblock xb xsh a -> m1 !! a = mem (ts s) !! a).
  { intros a _ _ Hb. destruct Sl as [_ Sl]. apply Sl. exact Hb. }
  destruct (ready_vals _ _ _ _ _ _ _ _ _ _ _ _ _ _ sf m1 R (keeps_refl _) (io_same_refl _) Hoff1) as [Hi1 Hp1].
  assert (Env : nv sf m1 e = predicted s ti (V xsh vs) e).
  { unfold nv, predicted. apply nval_ext; [|exact Hp1]. intros t Ht. destruct (decide (t = ti)) as [->|Hne]; [|apply Hi1; assumption]. apply Hin1; [apply keeps_refl|exact Hl]. }
  subst xsh. pose proof (fi_val _ _ _ _ _ _ _ F m1 ltac:(lia) HC1) as Hval.
  unfold Predict. rewrite r10. erewrite mbnd_ok by reflexivity. rewrite r11. erewrite mbnd_ok by reflexivity.
  erewrite mbnd_ok by (apply liftT_ok; exact El). rewrite r10. rewrite <- Env.
  destruct (exec (ctx (ts sf)) m1) as [m2|] eqn:Ex.
  - destruct (Hval root e r3 r4) as [Hne Ho]. destruct (nv sf m1 e) as [y|] eqn:Ey; [|contradiction].
    pose proof (exec_length _ _ _ Ex) as Lm2.
    destruct (fi_done _ _ _ _ _ _ _ F root r3) as (R1 & Rl & n & d & shr & er & HR1 & HRr & Q1 & Q2 & Q3 & Q4 & Q5 & Q6 & Q7 & Q8 & Q9 & Q10 & _).
    pose proof (stands_inj _ _ _ Q5 _ r4) as ->. assert (shr = sh) as -> by congruence.
    unfold outv in Ho. rewrite Q7 in Ho. cbn [mbind option_bind] in Ho.
    destruct r12 as (Rl' & HRl' & Hmo). assert (Rl' = Rl) as -> by congruence.
    unfold outnode in Q7. rewrite HRr in Q7. cbn [mbind option_bind] in Q7. destruct (lten Rl FOutput) as [tr|] eqn:Eo; [|discriminate]. cbn [mbind option_bind] in Q7.
    destruct (r6 _ _ Q7) as (n' & Hn' & _ & _ & E). destruct (E Q8) as (X1 & X2 & X3).
    rewrite <- (mval_kept n n' m2 X1 X3) in Ho. destruct n' as [kn mn]. cbn [nmat] in *. unfold mval in Ho. destruct (rds m2 (operands mn)) as [ws|] eqn:Ews; [|discriminate]. injection Ho as <-.
    set (s2 := MkL (MkSt m2 (tens (ts s)) (ctx (ts s))) (lays s) (rc s)).
    pose proof (NetRun.Copy_rd (ts s2) tr kn mn ws Hn' Ews) as EC. cbn [s2 ts mem tens ctx] in EC. set (nc := MkNode KMat _) in EC.
    set (s' := MkL (MkSt (m2 ++ ws) (tens (ts s) ++ [nc]) (ctx (ts s))) (lays s) (rc s)).
    assert (Kf : keeps (ts sf) (ts s')).
    { eapply keeps_trans; [exact r6|]. intros j nj Hj. exists nj. cbn [s' ts tens]. rewrite (lookup_app_l_Some _ _ _ _ Hj). repeat split; auto. }
    assert (Hfr : forall a, ~ W a -> m2 !! a = m1 !! a) by (intros a Ha; apply (fi_frame _ _ _ _ _ _ _ F m1 m2 a ltac:(lia) Ex Ha)).
    assert (Hmem : forall a w, ~ W a -> ~ inblock xb (shape mx) a -> mem (ts s) !! a = Some w -> mem (ts s') !! a = Some w).
    { intros a w Hw Hb Ha. cbn [s' ts mem]. apply lookup_app_l_Some. rewrite Hfr by exact Hw. destruct Sl as [_ Sl]. rewrite Sl by exact Hb. exact Ha. }
    exists s', nc.
    assert (R' : ready s' M root e sh ti (shape mx) xb U s1 D C W sf).
    { split; try assumption.
      - cbn [s' ts mem]. rewrite app_length. lia.
      - pose proof (fi_C _ _ _ _ _ _ _ F) as FC. unfold consts in *. rewrite Forall_forall in FC, HC1 |- *. intros c Hc. destruct (FC _ Hc) as (_ & _ & Hnw). cbn [s' ts mem]. apply lookup_app_l_Some.
        rewrite Hfr by exact Hnw. auto.
      - exists Rl. split; [exact HRr|congruence].
      - exists bb. exact Hbb. }
    destruct (ready_vals _ _ _ _ _ _ _ _ _ _ _ _ _ _ s' (mem (ts s')) R Kf r7) as [Hi2 Hp2].
    { intros a Ha Hw Hb. destruct (lookup_lt_is_Some_2 (mem (ts s)) a) as [w Hw']; [lia|]. rewrite Hw'. apply Hmem; assumption. }
    assert (Lws : length ws = N.to_nat (prodN sh)).
    { rewrite (rds_length _ _ _ Ews), X3. destruct Q9 as (_ & _ & Hl9 & _). rewrite Hl9, Q10. reflexivity. }
    split; [|split; [exact R'|split; [reflexivity|split; [|split; [|split; [|split; [exact Lws|split; [reflexivity|split; [reflexivity|split; [exact Hmem|split; [exact Hp2|]]]]]]]]]]].
    + erewrite mbnd_ok by (eapply NetRun2.ExecG_ok; [reflexivity|exact Ex]). cbn [ts mem tens ctx lays rc]. rewrite Hmo. erewrite mbnd_ok by reflexivity.
      erewrite mbnd_ok by (apply liftT_ok; exact EC). reflexivity.
    + unfold mval. cbn [nc nmat operands shape s' ts mem]. erewrite rds_seq; [reflexivity|]. intros i Hi. rewrite lookup_app_r by lia. f_equal. lia.
    + cbn [nc nmat operands]. intros a Ha. apply elem_of_list_fmap in Ha as (z & [= ->] & Hz). apply elem_of_seq in Hz. lia.
    + cbn [vsh]. congruence.
    + intros t Ht. destruct (decide (t = ti)) as [->|Hnt]; [|apply Hi2; assumption]. apply Hin1; [exact Kf|]. intros j w Hj. cbn [s' ts mem]. apply lookup_app_l_Some.
      rewrite Hfr; [apply Hl; exact Hj|]. pose proof (lookup_lt_Some _ _ _ Hj). destruct (Hci (xb + j)) as [_ Hx']; [|exact Hx']. rewrite E3. apply blk_ops. lia.
  - destruct Hval as (j & ej & Hj & Hsj & Hn). assert (Hje : nv sf m1 e = None).
    { eapply (nv_part s1 sf m1 root e j ej); try eassumption. apply r3a. exact Hj. }
    rewrite Hje. eexists. unfold ExecG. unfold mbnd at 1. cbn. unfold ExecM, Exec, liftT. cbn [ts g_ops mem]. rewrite Ex. reflexivity.
Qed.
End FwdRun.
