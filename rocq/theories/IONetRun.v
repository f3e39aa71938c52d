(** * IONetRun: saving and loading the numbers of layers, and histories with files *)
From stdpp Require Import relations.
From Verif Require Import Base Num ModelTools ModelOps ModelTensor ModelGraph ModelLayer ModelModel ModelIO Spec Denote NetSpec FwdSpec
  IndexProofs ExecProofs TensorFacts AccessProofs EagerProofs BuildProofs CompileProofs Agree FwdMask FwdBuild FwdSeg FwdOps FwdPool NetBuild NetChain
  NetExec NetFit FwdBody FwdExpr FwdDense FwdConv FwdAct FwdKer FwdDeconv FwdNet FwdCount FwdChain FwdRun FwdScript FwdProg FwdHist IOSpec IOProofs IONetSpec IONetWalk.
From Verif Require NetRun NetRun3 NetRun4 NetRun7.
From Coq Require Import Lia ZifyBool ZifyNat ZifyN.

(** ** Renamed layers *)
Definition shift (b : nat) (v : ev) : ev := match v with Enter i => Enter (b + i) | Data k => Data (b + k) end.
Lemma enters_shift b l : enters (map (shift b) l) = map (Nat.add b) (enters l).
Proof. induction l as [|[i|k] l IH]; [reflexivity| |]; cbn; [f_equal; exact IH|exact IH]. Qed.
Lemma in_shift b i l : b + i ∈ map (Nat.add b) l <-> i ∈ l.
Proof. rewrite elem_of_list_fmap. split; [intros (j & Hj & Hi); assert (i = j) as -> by lia; exact Hi|intros Hi; exists i; auto]. Qed.
Lemma unmark_in c l j : j ∈ unmark c l <-> j ∈ l /\ j ∉ c.
Proof. unfold unmark. rewrite elem_of_list_In, filter_In, <- elem_of_list_In. destruct (bool_decide_reflect (j ∈ c)); cbn; intuition congruence. Qed.
Section Shift.
Context {T : Type} `{Num T}.
Lemma walk_shift tn b (e : net T) : forall d, walk_net (ren tn b e) (map (Nat.add b) d) = map (shift b) (walk_net e d).
Proof using Type.
  induction e as [t|l i e IH|i a IHa c IHc d0]; intros d; cbn [walk_net ren]; [reflexivity| |].
  - rewrite (decide_ext _ (i ∈ d)) by apply in_shift. destruct (decide (i ∈ d)); [reflexivity|]. cbn [map shift]. rewrite map_app. f_equal. change (b + i :: map (Nat.add b) d) with (map (Nat.add b) (i :: d)). rewrite IH. f_equal. destruct (has_par l); reflexivity.
  - rewrite (decide_ext _ (i ∈ d)) by apply in_shift. destruct (decide (i ∈ d)); [reflexivity|]. cbv zeta. cbn [map shift]. rewrite map_app. f_equal. change (b + i :: map (Nat.add b) d) with (map (Nat.add b) (i :: d)). rewrite IHa. f_equal.
    rewrite enters_shift, <- map_app. apply IHc.
Qed.
Lemma chain_shift tn b (e : net T) : chain (ren tn b e) = map (Nat.add b) (chain e).
Proof using Type. induction e; cbn; [reflexivity|f_equal; assumption|reflexivity]. Qed.
End Shift.
Lemma drive_shift {S} (step : nat -> M S unit) b l x : drive step (map (shift b) l) x = (let '(E, y) := drive (fun k => step (b + k)) l x in (map (Nat.add b) E, y)).
Proof.
  revert x. induction l as [|[i|k] l IH]; intros x; cbn [map shift drive]; [reflexivity| |].
  - rewrite IH. destruct (drive (fun k => step (b + k)) l x) as [E y]. reflexivity.
  - destruct (step (b + k) x) as [[?|?| |] x']; try reflexivity. apply IH.
Qed.

(** ** The numbers of layers *)
Section Data.
Context {T : Type} `{Num T}.
Context (c : codec T) (Hc : codec_ok c).
Context (tn : list (node T)) (tw tb : nat -> option nat) (K : nat -> Prop) (opw opb : nat -> list ptr).
Definition at_ops (t : option nat) (ops : list ptr) : Prop := exists i n, t = Some i /\ tn !! i = Some n /\ operands (nmat n) = ops.
Context (Hw : forall k, K k -> at_ops (tw k) (opw k)) (Hb : forall k, K k -> at_ops (tb k) (opb k)).
Definition vals (m : list T) (par : params T) (k : nat) : Prop :=
  exists b w, par k = Some (b, w) /\ rds m (opw k) = Some (vdata w) /\ rds m (opb k) = Some (vdata b).

Lemma Save_at i ops w (t : tst T) d : tens t = tn -> at_ops i ops -> rds (mem t) ops = Some d ->
  opt i (Save (Some c)) (w, t) = (if holds_room w (length (dump c d)) then Ok tt else Err (ELayer 90), (put w (dump c d), t)).
Proof using Type.
  intros Et (j & n & -> & Hn & <-) Hd. cbn [opt]. unfold Save. erewrite mbnd_ok by (eapply io_ok; eapply get_mat_ok; rewrite Et; exact Hn). apply save_ops. exact Hd.
Qed.
Lemma dump_app a b : dump c (a ++ b) = dump c a ++ dump c b.
Proof using Type. unfold dump. rewrite map_app, concat_app. reflexivity. Qed.
Lemma save_step k w (t : tst T) par : tens t = tn -> K k -> vals (mem t) par k ->
  step (Save (Some c)) tw tb k (w, t) = (if holds_room w (length (dump c (numbers par k))) then Ok tt else Err (ELayer 90), (put w (dump c (numbers par k)), t)).
Proof using Hw Hb.
  intros Et Hk (b & v & Ep & Ew & Eb). unfold numbers. rewrite Ep, dump_app, room_app. unfold step, mbnd. rewrite (Save_at _ _ w t _ Et (Hw k Hk) Ew). rewrite <- put_app.
  destruct (holds_room w (length (dump c (vdata v)))) eqn:E1; cbn [andb].
  - rewrite (Save_at _ _ _ t _ Et (Hb k Hk) Eb). reflexivity.
  - rewrite put_app, put_full by exact E1. reflexivity.
Qed.
Lemma content_cons (par : params T) k ks : content par (k :: ks) = numbers par k ++ content par ks.
Proof using Type. reflexivity. Qed.
Lemma room_zero w : holds_room w 0 = true.
Proof using Type. unfold holds_room. destruct (room w); reflexivity. Qed.
Lemma drive_save evs par (t : tst T) : forall w, tens t = tn -> (forall k, k ∈ datas evs -> K k /\ vals (mem t) par k) ->
  drive (step (Save (Some c)) tw tb) evs (w, t) =
    (enters (upto (size c par) (room w) evs), (if holds_room w (length (dump c (content par (datas evs)))) then Ok tt else Err (ELayer 90), (put w (dump c (content par (datas evs))), t))).
Proof using Hw Hb Hc.
  induction evs as [|[i|k] evs IH]; intros w Et Hk; cbn [drive upto].
  - cbn. rewrite room_zero, put_nil. reflexivity.
  - change (datas (Enter i :: evs)) with (datas evs) in *. rewrite IH by assumption. reflexivity.
  - change (datas (Data k :: evs)) with (k :: datas evs) in *. destruct (Hk k ltac:(left)) as [HkK Hv]. rewrite (save_step k w t par Et HkK Hv). rewrite content_cons, dump_app, room_app.
    assert (Es : size c par k = length (dump c (numbers par k))) by (rewrite dump_length by exact Hc; reflexivity). rewrite Es.
    destruct (holds_room w (length (dump c (numbers par k)))) eqn:E1; cbn [andb].
    + rewrite IH by (try exact Et; intros j Hj; apply Hk; right; exact Hj). rewrite put_app. f_equal. unfold holds_room in E1. unfold put. cbn [room]. destruct (room w) as [m|]; cbn [room]; [|reflexivity].
      destruct (Nat.ltb_spec m (length (dump c (numbers par k)))); [lia|]. reflexivity.
    + rewrite put_full by exact E1. unfold holds_room in E1. destruct (room w) as [m|]; [|discriminate]. destruct (Nat.ltb_spec m (length (dump c (numbers par k)))); [|lia]. reflexivity.
Qed.

Context (Hn : forall k, K k -> NoDup (opw k ++ opb k)) (Hap : forall j k a, K j -> K k -> Some a ∈ opw j ++ opb j -> Some a ∈ opw k ++ opb k -> j = k).
Lemma fill_nil d : fill c [] d = d.
Proof using Hc. pose proof (ck_pos _ Hc). destruct d; [reflexivity|]. cbn [fill length]. destruct (Nat.ltb_spec 0 (cwidth c)); [reflexivity|lia]. Qed.
Lemma Load_at i ops r (t : tst T) d : tens t = tn -> at_ops i ops -> rds (mem t) ops = Some d -> NoDup ops ->
  exists e t', opt i (Load (Some c)) (r, t) = (if length r <? length d * cwidth c then Err e else Ok tt, (drop (length d * cwidth c) r, t')) /\
    rds (mem t') ops = Some (fill c r d) /\ tens t' = tens t /\ ctx t' = ctx t /\ length (mem t') = length (mem t) /\ (forall a, Some a ∉ ops -> mem t' !! a = mem t !! a).
Proof using Hc.
  intros Et (j & n & -> & Hjn & <-) Hd HN. cbn [opt]. unfold Load. destruct (load_ops c Hc (operands (nmat n)) d r t Hd HN) as (e & t' & E & G). exists e, t'. split; [|exact G].
  erewrite mbnd_ok by (eapply io_ok; eapply get_mat_ok; rewrite Et; exact Hjn). exact E.
Qed.
Lemma load_step k r (t : tst T) par : tens t = tn -> K k -> vals (mem t) par k ->
  exists e t', step (Load (Some c)) tw tb k (r, t) = (if length r <? size c par k then Err e else Ok tt, (drop (size c par k) r, t')) /\
    vals (mem t') (fun j => if decide (j = k) then load1 c r <$> par k else par j) k /\ tens t' = tens t /\ ctx t' = ctx t /\ length (mem t') = length (mem t) /\
    (forall a, Some a ∉ opw k ++ opb k -> mem t' !! a = mem t !! a).
Proof using Hw Hb Hc Hn.
  clear Hap. intros Et Hk (b & v & Ep & Ew & Eb). pose proof (Hn k Hk) as Hnk. apply NoDup_app in Hnk as (N1 & N2 & N3).
  destruct (Load_at _ _ r t _ Et (Hw k Hk) Ew N1) as (e1 & t1 & E1 & R1 & T1 & C1 & L1 & O1).
  assert (Es : size c par k = length (vdata v) * cwidth c + length (vdata b) * cwidth c) by (unfold size, numbers; rewrite Ep, app_length; lia). rewrite Es.
  unfold step, mbnd. rewrite E1. destruct (Nat.ltb_spec (length r) (length (vdata v) * cwidth c)) as [Hs|Hs].
  - exists e1, t1. split; [|split; [|split; [exact T1|split; [exact C1|split; [exact L1|]]]]].
    + destruct (Nat.ltb_spec (length r) (length (vdata v) * cwidth c + length (vdata b) * cwidth c)); [|lia]. rewrite !drop_ge by lia. reflexivity.
    + exists (V (vsh b) (vdata b)), (V (vsh v) (fill c r (vdata v))). rewrite decide_True by reflexivity. rewrite Ep. cbn [vdata]. split; [|split; [exact R1|]].
      * cbn [fmap option_fmap option_map load1]. do 2 f_equal. rewrite drop_ge by lia. rewrite fill_nil. reflexivity.
      * rewrite <- Eb. apply rds_same. intros a Ha. apply O1. intros Ha'. exact (N2 _ Ha' Ha).
    + intros a Ha. apply O1. intros X. apply Ha, elem_of_app. auto.
  - assert (Eb1 : rds (mem t1) (opb k) = Some (vdata b)) by (rewrite <- Eb; apply rds_same; intros a Ha; apply O1; intros Ha'; exact (N2 _ Ha' Ha)).
    destruct (Load_at _ _ (drop (length (vdata v) * cwidth c) r) t1 _ ltac:(congruence) (Hb k Hk) Eb1 N3) as (e2 & t2 & E2 & R2 & T2 & C2 & L2 & O2).
    exists e2, t2. split; [|split; [|split; [congruence|split; [congruence|split; [congruence|]]]]].
    + rewrite E2. rewrite drop_length, drop_drop.
      destruct (Nat.ltb_spec (length r - length (vdata v) * cwidth c) (length (vdata b) * cwidth c)), (Nat.ltb_spec (length r) (length (vdata v) * cwidth c + length (vdata b) * cwidth c)); try lia; reflexivity.
    + exists (V (vsh b) (fill c (drop (length (vdata v) * cwidth c) r) (vdata b))), (V (vsh v) (fill c r (vdata v))). rewrite decide_True by reflexivity. rewrite Ep. cbn [vdata]. split; [reflexivity|]. split; [|exact R2].
      rewrite <- R1. apply rds_same. intros a Ha. apply O2. intros Ha'. exact (N2 _ Ha Ha').
    + intros a Ha. rewrite O2, O1; [reflexivity|..]; intros X; apply Ha, elem_of_app; auto.
Qed.
(** Other layers' numbers stay what they are. *)
Lemma load_other ks : forall r (par : params T) k, k ∉ ks -> load_pars c r ks par k = par k.
Proof using Type.
  induction ks as [|j ks IH]; intros r par k Hk; cbn [load_pars]; [reflexivity|]. rewrite IH by (intros X; apply Hk; right; exact X). rewrite decide_False; [reflexivity|]. intros ->. apply Hk. left.
Qed.
Lemma load1_len r p : length (vdata (load1 c r p).1) = length (vdata p.1) /\ length (vdata (load1 c r p).2) = length (vdata p.2).
Proof using Type. destruct p as [b w]. cbn. rewrite !fill_length. auto. Qed.
Lemma size_load r k (par : params T) j : size c (fun i => if decide (i = k) then load1 c r <$> par k else par i) j = size c par j.
Proof using Type.
  unfold size, numbers. destruct (decide (j = k)) as [->|]; [|reflexivity]. destruct (par k) as [[b w]|]; [|reflexivity]. cbn. rewrite !app_length, !fill_length. reflexivity.
Qed.
Lemma content_size (par : params T) ks : length (content par ks) * cwidth c = sum_list_with (size c par) ks.
Proof using Type. clear - T c. induction ks as [|k ks IH]; [reflexivity|]. rewrite content_cons, app_length. cbn [sum_list_with]. rewrite <- IH. unfold size. lia. Qed.
Lemma upto_ext sz sz' evs : (forall k, sz k = sz' k) -> forall n, upto sz n evs = upto sz' n evs.
Proof using Type. intros E. induction evs as [|[i|k] evs IH]; intros n; cbn; [reflexivity|rewrite IH; reflexivity|]. rewrite E. destruct n; rewrite IH; reflexivity. Qed.
Lemma sum_ext (f g : nat -> nat) ks : (forall k, f k = g k) -> sum_list_with f ks = sum_list_with g ks.
Proof using Type. intros E. induction ks; cbn; [reflexivity|]. rewrite E, IHks. reflexivity. Qed.
Lemma drive_load evs : forall r (t : tst T) par, tens t = tn -> NoDup (datas evs) -> (forall k, k ∈ datas evs -> K k) -> (forall k, K k -> vals (mem t) par k) ->
  exists e t', drive (step (Load (Some c)) tw tb) evs (r, t) =
      (enters (upto (size c par) (Some (length r)) evs), (if length r <? length (content par (datas evs)) * cwidth c then Err e else Ok tt, (drop (length (content par (datas evs)) * cwidth c) r, t'))) /\
    tens t' = tens t /\ ctx t' = ctx t /\ length (mem t') = length (mem t) /\ (forall a, (forall k, k ∈ datas evs -> Some a ∉ opw k ++ opb k) -> mem t' !! a = mem t !! a) /\
    (forall k, K k -> vals (mem t') (load_pars c r (datas evs) par) k).
Proof using Hw Hb Hc Hn Hap.
  induction evs as [|[i|k] evs IH]; intros r t par Et HN HK Hv; cbn [drive upto].
  - exists EEOF, t. cbn. rewrite drop_0. repeat split; auto.
  - change (datas (Enter i :: evs)) with (datas evs) in *. destruct (IH r t par Et HN HK Hv) as (e & t' & E & G). exists e, t'. rewrite E. split; [reflexivity|exact G].
  - change (datas (Data k :: evs)) with (k :: datas evs) in *. apply NoDup_cons in HN as [Hnk HN]. rewrite content_size. cbn [sum_list_with load_pars].
    destruct (load_step k r t par Et (HK k ltac:(left)) (Hv k (HK k ltac:(left)))) as (e1 & t1 & E1 & V1 & T1 & C1 & L1 & O1). rewrite E1.
    set (par1 := fun j => if decide (j = k) then load1 c r <$> par k else par j) in *.
    assert (HkK : K k) by (apply HK; left).
    assert (Hv1 : forall j, K j -> vals (mem t1) par1 j).
    { intros j Hj. destruct (decide (j = k)) as [->|Hne]; [exact V1|]. destruct (Hv j Hj) as (b & v & Ep & Ew & Eb). exists b, v. unfold par1. rewrite decide_False by exact Hne.
      assert (Ho : forall a, Some a ∈ opw j ++ opb j -> mem t1 !! a = mem t !! a) by (intros a Ha; apply O1; intros X; apply Hne; eapply Hap; eassumption).
      split; [exact Ep|]. split; [rewrite <- Ew|rewrite <- Eb]; apply rds_same; intros a Ha; apply Ho; apply elem_of_app; auto. }
    destruct (Nat.ltb_spec (length r) (size c par k)) as [Hs|Hs].
    + exists e1, t1. split; [|split; [exact T1|split; [exact C1|split; [exact L1|split]]]].
      * destruct (Nat.ltb_spec (length r) (size c par k + sum_list_with (size c par) (datas evs))); [|lia]. rewrite !drop_ge by lia. reflexivity.
      * intros a Ha. apply O1. apply Ha. left.
      * rewrite drop_ge by lia. assert (El : forall ks p, load_pars c [] ks p = p \/ forall j, load_pars c [] ks p j = p j).
        { induction ks as [|j ks IHk]; intros p; [left; reflexivity|]. right. intros j'. cbn [load_pars]. rewrite drop_nil. destruct (IHk (fun i => if decide (i = j) then load1 c [] <$> p j else p i)) as [Ex|Ex]; rewrite Ex;
            (destruct (decide (j' = j)) as [->|]; [|reflexivity]; destruct (p j) as [[b w]|]; [|reflexivity]; cbn; rewrite drop_nil, !fill_nil; destruct b, w; reflexivity). }
        intros j Hj. destruct (Hv1 j Hj) as (b & v & Ep & Ew & Eb). exists b, v. split; [|auto]. destruct (El (datas evs) par1) as [Ex|Ex]; rewrite Ex; exact Ep.
    + destruct (IH (drop (size c par k) r) t1 par1 ltac:(congruence) HN ltac:(intros j Hj; apply HK; right; exact Hj) Hv1) as (e2 & t2 & E2 & T2 & C2 & L2 & O2 & V2).
      exists e2, t2. rewrite E2. split; [|split; [congruence|split; [congruence|split; [congruence|split; [|exact V2]]]]].
      * rewrite content_size, drop_drop, drop_length. rewrite (sum_ext (size c par1) (size c par)) by (intros j; apply size_load). rewrite (upto_ext (size c par1) (size c par)) by (intros j; apply size_load).
        change (enters (Data k :: ?x)) with (enters x). f_equal. f_equal.
        destruct (Nat.ltb_spec (length r - size c par k) (sum_list_with (size c par) (datas evs))), (Nat.ltb_spec (length r) (size c par k + sum_list_with (size c par) (datas evs))); try lia; reflexivity.
      * intros a Ha. rewrite O2, O1; [reflexivity|apply Ha; left|intros j Hj; apply Ha; right; exact Hj].
Qed.
End Data.

(** ** Histories *)
Section Live.
Context {T : Type} `{Num T}.
Context (rnd : nat -> nat -> T) (c : codec T) (Hc : codec_ok c).
Context (ms : list (mk T)) (base inp : nat) (e : net T) (tn : nat -> nat)
  (root : nat) (sh ish : list N) (xb : nat) (U : list nat) (s1 : lst T) (D : list nat) (C : list (nat * T)) (W : nat -> Prop) (sf : lst T).
Notation Ready s M := (ready rnd s M root (ren tn base e) sh (tn inp) ish xb U s1 D C W sf).
Notation Live par := (live rnd ms base inp e par tn root sh ish xb U s1 D C W sf).

Definition twF (j : nat) : option nat := L ← lays sf !! j; lten L FWeights.
Definition tbF (j : nat) : option nat := L ← lays sf !! j; lten L FBias.
Definition opsF (t : option nat) : list ptr := match (i ← t; tens (ts sf) !! i) with Some n => operands (nmat n) | None => [] end.
Lemma part_D s M j : Ready s M -> part s1 root j -> j ∈ D.
Proof using Type. intros R Hj. eapply (fi_part U s1); [exact (rd_inv _ _ _ _ _ _ _ _ _ _ _ _ _ _ _ R)|exact (rd_root _ _ _ _ _ _ _ _ _ _ _ _ _ _ _ R)|exact Hj]. Qed.
Lemma ready_like s M : Ready s M -> like s1 root twF tbF s.
Proof using Type.
  intros R j L1 Hj HL1. pose proof (part_D _ _ _ R Hj) as HjD. destruct (fi_done _ _ _ _ _ _ _ (rd_inv _ _ _ _ _ _ _ _ _ _ _ _ _ _ _ R) j HjD) as (L1' & L & n & d & shj & ej & E1 & E2 & Ek & _ & Ep & _).
  assert (L1' = L1) as -> by congruence. destruct (proj2 (rd_lays _ _ _ _ _ _ _ _ _ _ _ _ _ _ _ R) _ _ E2) as (L' & HL' & A1 & A2 & A3 & _). exists L'. split; [exact HL'|].
  split; [congruence|]. split; [congruence|]. unfold twF, tbF. rewrite E2, A3. auto.
Qed.
Lemma ready_leafless s M j L1 : Ready s M -> part s1 root j -> lays s1 !! j = Some L1 -> lkind_of L1 = LInput \/ (exists l, lspec_of (tens (ts s1)) L1 = Some l /\ has_par l = false) -> twF j = None /\ tbF j = None.
Proof using Type.
  intros R Hj HL1 Hl. pose proof (part_D _ _ _ R Hj) as HjD. destruct (fi_more _ _ _ _ _ _ _ (rd_inv _ _ _ _ _ _ _ _ _ _ _ _ _ _ _ R) j HjD) as (L1' & L & E1 & E2 & _ & Hm). assert (L1' = L1) as -> by congruence.
  assert (Ec : carries s1 L1 = false) by (unfold carries; destruct Hl as [Hl|(l & -> & Hl)]; [unfold lspec_of; rewrite Hl; reflexivity|exact Hl]). rewrite Ec in Hm. destruct Hm as [Hb Hw]. unfold twF, tbF. rewrite E2. auto.
Qed.
(** Where the numbers of a layer are. *)
Lemma ready_ops s M k : Ready s M -> k ∈ pars (ren tn base e) -> k ∈ D /\
  at_ops (tens (ts s)) (twF k) (opsF (twF k)) /\ at_ops (tens (ts s)) (tbF k) (opsF (tbF k)) /\ NoDup (opsF (twF k) ++ opsF (tbF k)) /\
  (forall a, Some a ∈ opsF (twF k) ++ opsF (tbF k) -> param D sf a /\ length (mem (ts s1)) <= a) /\
  (exists L, lays sf !! k = Some L /\ forall a, Some a ∈ opsF (twF k) ++ opsF (tbF k) -> pcell (ts sf) L a) /\
  (forall p, p ∈ opsF (twF k) ++ opsF (tbF k) -> exists a, p = Some a /\ a < length (mem (ts sf))).
Proof using Type.
  intros R Hk. destruct (pars_part _ _ _ _ (rd_net _ _ _ _ _ _ _ _ _ _ _ _ _ _ _ R) Hk) as (L1 & l & Hp & HL1 & Hl & Hpar). pose proof (part_D _ _ _ R Hp) as HkD.
  destruct (fi_more _ _ _ _ _ _ _ (rd_inv _ _ _ _ _ _ _ _ _ _ _ _ _ _ _ R) k HkD) as (L1' & L & E1 & E2 & _ & Hm). assert (L1' = L1) as -> by congruence.
  assert (Ec : carries s1 L1 = true) by (unfold carries; rewrite Hl; exact Hpar). rewrite Ec in Hm. destruct Hm as (ib & nb & iw & nw & Hb & Hnb & Sb & Wb & Hw & Hnw & Sw & Ww & HN & HC).
  destruct (fi_done _ _ _ _ _ _ _ (rd_inv _ _ _ _ _ _ _ _ _ _ _ _ _ _ _ R) k HkD) as (L1' & L' & n & d & shk & e' & F1 & F2 & _ & _ & _ & _ & _ & _ & _ & _ & _ & _ & _ & _ & Hpp).
  assert (L1' = L1) as -> by congruence. assert (L' = L) as -> by congruence. destruct (Hpp _ Hl Hpar) as (bs & ws & _ & Hob & How).
  assert (Ew : twF k = Some iw) by (unfold twF; rewrite E2; exact Hw). assert (Eb : tbF k = Some ib) by (unfold tbF; rewrite E2; exact Hb). rewrite Ew, Eb.
  assert (Ow : opsF (Some iw) = operands (nmat nw)) by (unfold opsF; cbn [mbind option_bind]; rewrite Hnw; reflexivity). assert (Ob : opsF (Some ib) = operands (nmat nb)) by (unfold opsF; cbn [mbind option_bind]; rewrite Hnb; reflexivity).
  rewrite Ow, Ob. split; [exact HkD|].
  assert (Hpc : forall a, Some a ∈ operands (nmat nw) ++ operands (nmat nb) -> pcell (ts sf) L a) by (intros a Ha; apply elem_of_app in Ha as [Ha|Ha]; [exists FWeights, iw, nw|exists FBias, ib, nb]; auto).
  split; [|split; [|split; [|split; [|split]]]].
  - destruct (rd_keep _ _ _ _ _ _ _ _ _ _ _ _ _ _ _ R _ _ Hnw) as (n' & Hn' & _ & _ & En). destruct (En Sw) as (_ & _ & Eo). exists iw, n'. auto.
  - destruct (rd_keep _ _ _ _ _ _ _ _ _ _ _ _ _ _ _ R _ _ Hnb) as (n' & Hn' & _ & _ & En). destruct (En Sb) as (_ & _ & Eo). exists ib, n'. auto.
  - rewrite Permutation_app_comm. exact HN.
  - intros a Ha. split; [exists k, L; auto|]. apply elem_of_app in Ha as [Ha|Ha].
    + destruct How as (i & n0 & Hi & Hn0 & _ & _ & HP & _). assert (i = iw) as -> by congruence. assert (n0 = nw) as -> by congruence. apply (HP a Ha).
    + destruct Hob as (i & n0 & Hi & Hn0 & _ & _ & HP & _). assert (i = ib) as -> by congruence. assert (n0 = nb) as -> by congruence. apply (HP a Ha).
  - exists L. auto.
  - intros p Hpp0. apply elem_of_app in Hpp0 as [Hpp0|Hpp0].
    + destruct Ww as (_ & _ & _ & Ww). rewrite Forall_forall in Ww. destruct (Ww _ Hpp0) as (a & -> & Ha). eauto.
    + destruct Wb as (_ & _ & _ & Wb). rewrite Forall_forall in Wb. destruct (Wb _ Hpp0) as (a & -> & Ha). eauto.
Qed.
Lemma rds_total (m : list T) ops : (forall p, p ∈ ops -> exists a, p = Some a /\ a < length m) -> exists d, rds m ops = Some d.
Proof using Type.
  clear. intros Ho. unfold rds. induction ops as [|p ops IH]; [exists []; reflexivity|]. destruct (Ho p ltac:(left)) as (a & -> & Ha). destruct (lookup_lt_is_Some_2 m a Ha) as [x Hx].
  destruct IH as [d Hd]; [intros q Hq; apply Ho; right; exact Hq|]. exists (x :: d). cbn. rewrite Hx. cbn. rewrite Hd. reflexivity.
Qed.
Lemma par_form s M k : Ready s M -> k ∈ pars (ren tn base e) ->
  exists shb shw, forall m, net_par s m k = (b ← rds m (opsF (tbF k)); w ← rds m (opsF (twF k)); Some (V shb b, V shw w)).
Proof using Type.
  intros R Hk. destruct (ready_ops s M k R Hk) as (HkD & (iw & nw & Ew & Hnw & Ow) & (ib & nb & Eb & Hnb & Ob) & _). exists (shape (nmat nb)), (shape (nmat nw)). intros m.
  assert (HL : exists L, lays sf !! k = Some L) by (unfold twF in Ew; destruct (lays sf !! k); [eauto|discriminate]). destruct HL as [L HL].
  destruct (proj2 (rd_lays _ _ _ _ _ _ _ _ _ _ _ _ _ _ _ R) _ _ HL) as (L' & HL' & _ & _ & El & _). unfold net_par. rewrite HL'. cbn [mbind option_bind]. unfold lparams, tval. rewrite El.
  unfold twF in Ew. unfold tbF in Eb. rewrite HL in Ew, Eb. cbn [mbind option_bind] in Ew, Eb. rewrite Ew, Eb. cbn [mbind option_bind]. rewrite Hnw, Hnb. cbn [mbind option_bind].
  unfold mval. rewrite Ow, Ob. destruct (rds m (opsF (tbF k))); [|reflexivity]. cbn [mbind option_bind]. destruct (rds m (opsF (twF k))); reflexivity.
Qed.
Definition opw k := opsF (twF (base + k)).
Definition opb k := opsF (tbF (base + k)).
Lemma in_pars k : k ∈ pars e -> base + k ∈ pars (ren tn base e).
Proof using Type. intros Hk. rewrite pars_ren. apply elem_of_list_fmap. exists k. auto. Qed.
Lemma live_vals par s M st tids k : Live par s M st tids -> k ∈ pars e -> vals opw opb (mem (ts s)) par k.
Proof using Type.
  intros Hl Hk. pose proof (lv_ready _ _ _ _ _ _ _ _ _ _ _ _ _ _ _ _ _ _ _ _ _ Hl) as R. pose proof (in_pars k Hk) as Hk'. destruct (par_form s M _ R Hk') as (shb & shw & Hf). specialize (Hf (mem (ts s))).
  rewrite (lv_par _ _ _ _ _ _ _ _ _ _ _ _ _ _ _ _ _ _ _ _ _ Hl k Hk) in Hf. destruct (ready_ops s M _ R Hk') as (_ & _ & _ & _ & _ & _ & Hlt). pose proof (rd_len _ _ _ _ _ _ _ _ _ _ _ _ _ _ _ R) as Hlen.
  destruct (rds_total (mem (ts s)) (opb k)) as [b Hb]; [intros p Hp; destruct (Hlt p) as (a & -> & Ha); [apply elem_of_app; right; exact Hp|exists a; split; [reflexivity|lia]]|].
  destruct (rds_total (mem (ts s)) (opw k)) as [w Hw]; [intros p Hp; destruct (Hlt p) as (a & -> & Ha); [apply elem_of_app; left; exact Hp|exists a; split; [reflexivity|lia]]|].
  unfold opb, opw in Hb, Hw. rewrite Hb, Hw in Hf. cbn [mbind option_bind] in Hf. exists (V shb b), (V shw w). cbn [vdata]. auto.
Qed.

(** Marks do not matter for predictions. *)
Lemma io_marked (f : bfield) (s : lst T) ls' t k : f = BSaved \/ f = BLoaded -> io_same sf s -> marked f (lays s) ls' -> io_same sf (MkL t ls' k).
Proof using Type.
  intros Hf [E G] [E' G']. split; [cbn [lays]; congruence|]. intros j L HL. destruct (G _ _ HL) as (L' & HL' & A1 & A2 & A3 & A4). destruct (G' _ _ HL') as (L2 & HL2 & B1 & B2 & B3 & B4).
  exists L2. cbn [lays]. split; [exact HL2|]. split; [congruence|]. split; [congruence|]. split; [congruence|]. intros g Hg1 Hg2. rewrite B4 by (destruct Hf as [->| ->]; assumption). apply A4; assumption.
Qed.
Lemma live_marked (f : bfield) par s M st tids ls' : f = BSaved \/ f = BLoaded -> Live par s M st tids -> marked f (lays s) ls' -> Live par (MkL (ts s) ls' (rc s)) M st tids.
Proof using Type.
  intros Hf [R Hi Hp Hs] Hm. split.
  - destruct R as [q1 q2 q3 q4 q5 q6 q7 q8 q9 q10 q11 q12 q13 q14 q15 q16 q17]. split; try assumption. eapply io_marked; eassumption.
  - exact Hi.
  - intros k Hk. rewrite <- (Hp k Hk). unfold net_par. cbn [lays ts]. destruct Hm as [El Hm]. destruct (lays s !! (base + k)) as [L|] eqn:HL.
    + destruct (Hm _ _ HL) as (L' & -> & _ & _ & E & _). cbn [mbind option_bind]. unfold lparams. rewrite E. reflexivity.
    + apply lookup_ge_None in HL. rewrite (proj2 (lookup_ge_None ls' (base + k))) by lia. reflexivity.
  - exact Hs.
Qed.
Lemma flagged_other (f g : bfield) (s : lst T) ls' t k done : f <> g -> marked f (lays s) ls' -> flagged g s1 root s done -> flagged g s1 root (MkL t ls' k) done.
Proof using Type.
  clear - T s1 root.
  intros Hne [El Hm] Hf j L1 L' Hj HL1 Hk HL'. cbn [lays] in HL'. destruct (lays s !! j) as [L|] eqn:HL; [|apply lookup_ge_None in HL; apply lookup_lt_Some in HL'; lia].
  destruct (Hm _ _ HL) as (L2 & HL2 & _ & _ & _ & E). assert (L2 = L') as -> by congruence. rewrite E by congruence. eapply Hf; eassumption.
Qed.
(** Loading changes the numbers of layers only. *)
Lemma live_load par par' s M st tids t' : Live par s M st tids -> tens t' = tens (ts s) -> length (mem t') = length (mem (ts s)) ->
  (forall a, (forall k, k ∈ pars e -> Some a ∉ opw k ++ opb k) -> mem t' !! a = mem (ts s) !! a) ->
  (forall k, k ∈ pars e -> net_par (MkL t' (lays s) (rc s)) (mem t') (base + k) = par' k) -> Live par' (MkL t' (lays s) (rc s)) M st tids.
Proof using Type.
  intros Hl Et Hlen Hm Hp'. pose proof (lv_ready _ _ _ _ _ _ _ _ _ _ _ _ _ _ _ _ _ _ _ _ _ Hl) as R.
  assert (Hpar : forall a, (exists k, k ∈ pars e /\ Some a ∈ opw k ++ opb k) -> param D sf a /\ length (mem (ts s1)) <= a) by (intros a (k & Hk & Ha); destruct (ready_ops s M _ R (in_pars k Hk)) as (_ & _ & _ & _ & Hc0 & _); apply Hc0; exact Ha).
  assert (Hdec : forall a, (exists k, k ∈ pars e /\ Some a ∈ opw k ++ opb k) \/ (forall k, k ∈ pars e -> Some a ∉ opw k ++ opb k)).
  { intros a. destruct (decide (Exists (fun k => Some a ∈ opw k ++ opb k) (pars e))) as [He|He]; [left; apply Exists_exists in He; exact He|right]. intros k Hk Ha. apply He. apply Exists_exists. eauto. }
  split.
  - pose proof R as R0. destruct R as [q1 q2 q3 q4 q5 q6 q7 q8 q9 q10 q11 q12 q13 q14 q15 q16 q17]. split; try assumption.
    + eapply keeps_trans; [exact q8|]. intros j n Hj. exists n. cbn [ts]. rewrite Et. repeat split; auto.
    + cbn [ts mem]. lia.
    + unfold consts in *. rewrite Forall_forall in q11 |- *. intros x Hx. cbn [ts]. destruct (Hdec (fst x)) as [Hd|Hd]; [|rewrite Hm by exact Hd; apply q11; exact Hx].
      exfalso. destruct (param_lt rnd root sh ish xb U s1 D C W sf s M (ren tn base e) (tn inp) (fst x)) as [_ HnC]; [exact R0|apply Hpar; exact Hd|]. apply HnC. apply elem_of_list_fmap. exists x. auto.
  - intros p Hp Hne. rewrite <- (lv_in _ _ _ _ _ _ _ _ _ _ _ _ _ _ _ _ _ _ _ _ _ Hl p Hp Hne). assert (Hpi : tn p ∈ ins (ren tn base e)) by (rewrite ins_ren; apply elem_of_list_fmap; exists p; auto).
    pose proof (ready_inten _ _ _ _ _ _ _ _ _ _ _ _ _ _ _ _ R Hpi) as Hit. destruct (ready_in _ _ _ _ _ _ _ _ _ _ _ _ _ _ _ _ R Hit) as (n0 & n & Hn0 & Hn & E3 & E1 & Hset & Hcl).
    unfold net_in, tval. cbn [ts mbind option_bind]. rewrite Et, Hn. cbn [mbind option_bind]. apply mval_off. intros a Ha. apply Hm. intros k Hk Hk2. destruct (Hpar a) as [_ Hge]; [eauto|]. destruct (Hcl a Ha). lia.
  - exact Hp'.
  - eapply Forall2_impl; [exact (lv_store _ _ _ _ _ _ _ _ _ _ _ _ _ _ _ _ _ _ _ _ _ Hl)|]. intros v t [Hr Hcl]. cbn beta in *. cbn [ts].
    assert (Hle : tle (ts s) t') by (intros j k m Hj; exists (builded m); rewrite Et, Hj; destruct m; reflexivity).
    split; [|eapply NetRun.clear_tle; [exact Hle|eapply NetRun4.reads_lt; exact Hr|exact Hcl]].
    eapply NetRun.reads_kept; [exact Hle|split; [lia|]|exact Hcl|exact Hr]. intros a w Hu Ha. destruct (Hdec a) as [Hd|Hd]; [|rewrite Hm by exact Hd; exact Ha]. exfalso. apply Hu. right. right. apply Hpar. exact Hd.
Qed.
Lemma load_shape ks : forall r (par : params T) k b' w', load_pars c r ks par k = Some (b', w') -> exists b w, par k = Some (b, w) /\ vsh b' = vsh b /\ vsh w' = vsh w.
Proof using Type.
  induction ks as [|j ks IH]; intros r par k b' w' E; cbn [load_pars] in E; [eauto|]. destruct (IH _ _ _ _ _ E) as (b & w & Ep & E1 & E2). destruct (decide (k = j)) as [->|].
  - destruct (par j) as [[b0 w0]|]; [|discriminate]. cbn in Ep. injection Ep as <- <-. exists b0, w0. auto.
  - eauto.
Qed.

Record io_live (s : lst T) (M : model T) (x : ist T) (tids : list nat) : Prop := {
  il_live : Live (i_par x) s M (i_store x) tids;
  il_last : m_last M = Some root;
  il_saved : flagged BSaved s1 root s (map (Nat.add base) (i_saved x));
  il_loaded : flagged BLoaded s1 root s (map (Nat.add base) (i_loaded x));
}.
Context (Hone : forall p, p ∈ ins e -> tn p = tn inp -> p = inp).
Lemma do_iact_ok s M x tids a x' o : io_live s M x tids -> istep c ms inp e ish x a x' o ->
  exists s' tids', do_iact rnd (Some c) (M, tids) a s = (Ok (M, tids', o), s') /\ io_live s' M x' tids'.
Proof using Hone Hc.
  intros Hl Hs. destruct Hs as [par dS dL st a st' o Ha|par dS dL st rm evs file -> ->|par dS dL st r evs n -> ->|par dS dL st|par dS dL st]; destruct Hl as [HL Hlast HS HLd]; cbn [i_par i_saved i_loaded i_store] in *; cbn [do_iact fst].
  all: pose proof (lv_ready _ _ _ _ _ _ _ _ _ _ _ _ _ _ _ _ _ _ _ _ _ HL) as R.
  - destruct (do_fact_ok rnd ms base inp e par tn root sh ish xb U s1 D C W sf Hone s M st tids a st' o HL Ha) as (s' & tids' & E & HL' & _ & Hlay).
    exists s', tids'. rewrite (mbnd_ok _ _ _ _ _ E). split; [reflexivity|]. split; cbn [i_par i_saved i_loaded i_store]; try assumption; unfold flagged; rewrite Hlay; assumption.
  - pose proof (walk_ok BSaved (Save (Some c)) s1 root twF tbF (fun j L1 => ready_leafless s M j L1 R) root _ (rd_net _ _ _ _ _ _ _ _ _ _ _ _ _ _ _ R) (rtc_refl _ _) (S (length (lays s)))) as HW.
    assert (Hfu : need (ren tn base e) <= S (length (lays s))).
    { pose proof (need_fuel _ _ _ (rd_net _ _ _ _ _ _ _ _ _ _ _ _ _ _ _ R)) as Hn. pose proof (proj1 (rd_lays _ _ _ _ _ _ _ _ _ _ _ _ _ _ _ R)). pose proof (fi_nlay _ _ _ _ _ _ _ (rd_inv _ _ _ _ _ _ _ _ _ _ _ _ _ _ _ R)). lia. }
    specialize (HW Hfu (MkW [] rm) s _ (ready_like s M R) HS). rewrite walk_shift, drive_shift in HW.
    change (fun k => step (Save (Some c)) twF tbF (base + k)) with (step (Save (Some c)) (fun k => twF (base + k)) (fun k => tbF (base + k))) in HW.
    rewrite (drive_save c Hc (tens (ts s)) _ _ (fun k => k ∈ pars e) opw opb) with (par := par) in HW; [|intros k Hk; apply (ready_ops s M _ R (in_pars k Hk))..|reflexivity|intros k Hk; split; [eapply walk_pars; exact Hk|eapply live_vals; [exact HL|eapply walk_pars; exact Hk]]].
    destruct HW as (ls' & E & Hm & Hf). cbn [room] in *. set (file := dump c (content par (datas (walk_net e dS)))) in *.
    exists (MkL (ts s) ls' (rc s)), tids. split.
    + eassert (EM : MSave (Some c) M (MkW [] rm, s) = _) by (unfold MSave; rewrite Hlast; exact E). rewrite EM. clear EM E.
      unfold holds_room, put, fits_room, cut. cbn [room written app]. destruct rm as [m|]; cbn [written]; [|reflexivity]. destruct (length file <=? m); reflexivity.
    + split; cbn [i_par i_saved i_loaded i_store].
      * eapply live_marked; [left; reflexivity|exact HL|exact Hm].
      * exact Hlast.
      * rewrite map_app. exact Hf.
      * eapply flagged_other; [|exact Hm|exact HLd]. discriminate.
  - pose proof (walk_ok BLoaded (Load (Some c)) s1 root twF tbF (fun j L1 => ready_leafless s M j L1 R) root _ (rd_net _ _ _ _ _ _ _ _ _ _ _ _ _ _ _ R) (rtc_refl _ _) (S (length (lays s)))) as HW.
    assert (Hfu : need (ren tn base e) <= S (length (lays s))).
    { pose proof (need_fuel _ _ _ (rd_net _ _ _ _ _ _ _ _ _ _ _ _ _ _ _ R)) as Hn. pose proof (proj1 (rd_lays _ _ _ _ _ _ _ _ _ _ _ _ _ _ _ R)). pose proof (fi_nlay _ _ _ _ _ _ _ (rd_inv _ _ _ _ _ _ _ _ _ _ _ _ _ _ _ R)). lia. }
    specialize (HW Hfu r s _ (ready_like s M R) HLd). rewrite walk_shift, drive_shift in HW.
    change (fun k => step (Load (Some c)) twF tbF (base + k)) with (step (Load (Some c)) (fun k => twF (base + k)) (fun k => tbF (base + k))) in HW.
    assert (Hap : forall j k a, j ∈ pars e -> k ∈ pars e -> Some a ∈ opw j ++ opb j -> Some a ∈ opw k ++ opb k -> j = k).
    { intros j k a Hj Hk Haj Hak. destruct (ready_ops s M _ R (in_pars j Hj)) as (HjD & _ & _ & _ & _ & (Lj & HLj & Hpj) & _). destruct (ready_ops s M _ R (in_pars k Hk)) as (HkD & _ & _ & _ & _ & (Lk & HLk & Hpk) & _).
      pose proof (fi_apart _ _ _ _ _ _ _ (rd_inv _ _ _ _ _ _ _ _ _ _ _ _ _ _ _ R) _ _ _ _ a HjD HkD HLj HLk (Hpj a Haj) (Hpk a Hak)). lia. }
    destruct (walk_done e dL) as (_ & _ & HN & _).
    destruct (drive_load c Hc (tens (ts s)) (fun k => twF (base + k)) (fun k => tbF (base + k)) (fun k => k ∈ pars e) opw opb
      ltac:(intros k Hk; apply (ready_ops s M _ R (in_pars k Hk))) ltac:(intros k Hk; apply (ready_ops s M _ R (in_pars k Hk))) ltac:(intros k Hk; apply (ready_ops s M _ R (in_pars k Hk))) Hap
      (walk_net e dL) r (ts s) par eq_refl HN (fun k => walk_pars e dL k) (fun k => live_vals par s M st tids k HL)) as (err & t' & ED & Et & Ect & Hlen & Hoff & Hv).
    rewrite ED in HW. clear ED. destruct HW as (ls' & E & Hm & Hf).
    assert (HL1 : Live (load_pars c r (datas (walk_net e dL)) par) (MkL t' (lays s) (rc s)) M st tids).
    { eapply live_load; [exact HL|exact Et|exact Hlen| |].
      - intros a Ha. apply Hoff. intros k Hk. apply Ha. eapply walk_pars. exact Hk.
      - intros k Hk. destruct (par_form s M _ R (in_pars k Hk)) as (shb & shw & Hform). assert (En : net_par (MkL t' (lays s) (rc s)) (mem t') (base + k) = net_par s (mem t') (base + k)) by (unfold net_par; cbn [lays ts]; rewrite Et; reflexivity).
        rewrite En, Hform. destruct (Hv k Hk) as (b' & w' & Ep & Ew & Eb). unfold opw, opb in Ew, Eb. rewrite Ew, Eb. cbn [mbind option_bind]. rewrite Ep.
        destruct (load_shape _ _ _ _ _ _ Ep) as (b & w & Ep0 & E1 & E2). pose proof (Hform (mem (ts s))) as H0. rewrite (lv_par _ _ _ _ _ _ _ _ _ _ _ _ _ _ _ _ _ _ _ _ _ HL k Hk), Ep0 in H0.
        destruct (rds (mem (ts s)) (opsF (tbF (base + k)))); [|discriminate]. cbn [mbind option_bind] in H0. destruct (rds (mem (ts s)) (opsF (twF (base + k)))); [|discriminate]. injection H0 as -> ->. cbn [vsh] in *. subst.
        destruct b', w'. cbn in *. reflexivity. }
    exists (MkL t' ls' (rc s)), tids. split.
    + eassert (EM : MLoad (Some c) M (r, s) = _) by (unfold MLoad; rewrite Hlast; exact E). rewrite EM. clear EM E.
      destruct (Nat.ltb_spec (length r) (length (content par (datas (walk_net e dL))) * cwidth c)), (Nat.leb_spec (length (content par (datas (walk_net e dL))) * cwidth c) (length r)); try lia; reflexivity.
    + split; cbn [i_par i_saved i_loaded i_store].
      * exact (live_marked BLoaded _ (MkL t' (lays s) (rc s)) M st tids ls' ltac:(right; reflexivity) HL1 Hm).
      * exact Hlast.
      * eapply flagged_other; [|exact Hm|exact HS]. discriminate.
      * rewrite map_app. exact Hf.
  - assert (Hfu : need (ren tn base e) <= S (length (lays s))).
    { pose proof (need_fuel _ _ _ (rd_net _ _ _ _ _ _ _ _ _ _ _ _ _ _ _ R)) as Hn. pose proof (proj1 (rd_lays _ _ _ _ _ _ _ _ _ _ _ _ _ _ _ R)). pose proof (fi_nlay _ _ _ _ _ _ _ (rd_inv _ _ _ _ _ _ _ _ _ _ _ _ _ _ _ R)). lia. }
    destruct (reset_ok BSaved s1 root twF tbF root _ (rd_net _ _ _ _ _ _ _ _ _ _ _ _ _ _ _ R) (rtc_refl _ _) _ Hfu s _ (ready_like s M R) HS) as (ls' & E & Hm & Hf).
    exists (MkL (ts s) ls' (rc s)), tids. split.
    + erewrite mbnd_ok; [reflexivity|]. unfold MResetSave. rewrite Hlast. cbn [the]. erewrite mbnd_ok by reflexivity. unfold with_fuel. exact E.
    + split; cbn [i_par i_saved i_loaded i_store].
      * eapply live_marked; [left; reflexivity|exact HL|exact Hm].
      * exact Hlast.
      * intros j L1 L Hj HL1 Hk HLj. rewrite (Hf j L1 L Hj HL1 Hk HLj). apply bool_decide_ext. rewrite chain_shift, unmark_in. rewrite !elem_of_list_fmap. setoid_rewrite unmark_in.
        split; [intros [(q & -> & Hq) Hn]; exists q; split; [reflexivity|]; split; [exact Hq|]; intros X; apply Hn; exists q; auto|intros (q & -> & Hq & Hn); split; [exists q; auto|]; intros (q' & Hq' & Hc'); apply Hn; assert (q = q') as -> by lia; exact Hc'].
      * eapply flagged_other; [|exact Hm|exact HLd]. discriminate.
  - assert (Hfu : need (ren tn base e) <= S (length (lays s))).
    { pose proof (need_fuel _ _ _ (rd_net _ _ _ _ _ _ _ _ _ _ _ _ _ _ _ R)) as Hn. pose proof (proj1 (rd_lays _ _ _ _ _ _ _ _ _ _ _ _ _ _ _ R)). pose proof (fi_nlay _ _ _ _ _ _ _ (rd_inv _ _ _ _ _ _ _ _ _ _ _ _ _ _ _ R)). lia. }
    destruct (reset_ok BLoaded s1 root twF tbF root _ (rd_net _ _ _ _ _ _ _ _ _ _ _ _ _ _ _ R) (rtc_refl _ _) _ Hfu s _ (ready_like s M R) HLd) as (ls' & E & Hm & Hf).
    exists (MkL (ts s) ls' (rc s)), tids. split.
    + erewrite mbnd_ok; [reflexivity|]. unfold MResetLoad. rewrite Hlast. cbn [the]. erewrite mbnd_ok by reflexivity. unfold with_fuel. exact E.
    + split; cbn [i_par i_saved i_loaded i_store].
      * eapply live_marked; [right; reflexivity|exact HL|exact Hm].
      * exact Hlast.
      * eapply flagged_other; [|exact Hm|exact HS]. discriminate.
      * intros j L1 L Hj HL1 Hk HLj. rewrite (Hf j L1 L Hj HL1 Hk HLj). apply bool_decide_ext. rewrite chain_shift, unmark_in. rewrite !elem_of_list_fmap. setoid_rewrite unmark_in.
        split; [intros [(q & -> & Hq) Hn]; exists q; split; [reflexivity|]; split; [exact Hq|]; intros X; apply Hn; exists q; auto|intros (q & -> & Hq & Hn); split; [exists q; auto|]; intros (q' & Hq' & Hc'); apply Hn; assert (q = q') as -> by lia; exact Hc'].
Qed.
Lemma do_iacts_ok acts : forall s M x tids x' os, io_live s M x tids -> ihistory c ms inp e ish x acts x' os ->
  exists s' tids', do_iacts rnd (Some c) (M, tids) acts s = (Ok (M, tids', os), s') /\ io_live s' M x' tids'.
Proof using Hone Hc.
  induction acts as [|a acts IH]; intros s M x tids x' os Hl Hh; inversion Hh as [|? ? xm o ? ? os' Hs Hh']; subst; cbn [do_iacts].
  - exists s, tids. auto.
  - destruct (do_iact_ok s M x tids a xm o Hl Hs) as (sm & tm & E1 & Hlm). rewrite (mbnd_ok _ _ _ _ _ E1). cbn [fst snd].
    destruct (IH sm M xm tm x' os' Hlm Hh') as (s' & t' & E2 & Hl'). rewrite (mbnd_ok _ _ _ _ _ E2). cbn [fst snd]. exists s', t'. auto.
Qed.
End Live.
