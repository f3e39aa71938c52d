(** * BwdOps3: back-propagation through dense layers, pooling and up-sampling *)
From Verif Require Import Base Num ModelTools ModelOps ModelTensor ModelGraph ModelLayer Spec Denote NetSpec FwdSpec
  IndexProofs ExecProofs TensorFacts AccessProofs BuildProofs BuildFrame CompileProofs EagerOps Agree FwdMask FwdBuild FwdSeg FwdOps FwdPool NetExec NetBuild NetChain FwdBody FwdExpr FwdConv FwdConv2 FwdAct FwdKer FwdDeconv BwdSpec BwdPost BwdLoop BwdOps BwdOps2.
From Coq Require Import Lia ZifyBool ZifyNat ZifyN.

Section BwdOps3.
Context {T : Type} `{Num T}.
Notation inr := (Forall2 (fun i d => (i < d)%N)).

(** ** Cells by position *)
Definition flat (M : tmat) (i : N) : nat := match operands M !! N.to_nat i with Some (Some a) => a | _ => 0 end.
Lemma flat_at n M i : wf_mat n M -> (i < msize M)%N -> operands M !! N.to_nat i = Some (Some (flat M i)) /\ flat M i < n /\ Some (flat M i) ∈ operands M.
Proof using Type.
  intros (_ & _ & _ & Hv) Hi. unfold msize, ulen in Hi. destruct (lookup_lt_is_Some_2 (operands M) (N.to_nat i) ltac:(lia)) as [p Hp].
  pose proof (Forall_lookup_1 _ _ _ _ Hv Hp) as Hvp. destruct Hvp as (a & -> & Hvp). unfold flat. rewrite Hp. split; [reflexivity|]. split; [exact Hvp|]. eapply elem_of_list_lookup_2. exact Hp.
Qed.
Lemma flat_inj n M i j : wf_mat n M -> NoDup (operands M) -> (i < msize M)%N -> (j < msize M)%N -> flat M i = flat M j -> i = j.
Proof using Type.
  intros Hw Hn Hi Hj E. destruct (flat_at _ _ _ Hw Hi) as (Ei & _). destruct (flat_at _ _ _ Hw Hj) as (Ej & _). rewrite E in Ei. pose proof (NoDup_lookup _ _ _ _ Hn Ei Ej). lia.
Qed.
Lemma flat_val n m M v i : wf_mat n M -> n <= length m -> mval m M = Some v -> (i < msize M)%N -> vdata v !! N.to_nat i = Some (cell m (flat M i)).
Proof using Type.
  intros Hw Hn Hv Hi. destruct (flat_at _ _ _ Hw Hi) as (Ei & Hl & _). unfold mval in Hv. apply bind_Some in Hv as (d & Hd & [= <-]). cbn [vdata]. rewrite (rds_lookup _ _ _ _ Hd), Ei. cbn. apply cell_at. lia.
Qed.
Lemma elem_of_urange n i : i ∈ urange n <-> (i < n)%N.
Proof using Type. apply elem_of_upto. Qed.
Lemma urange_NoDup n : NoDup (urange n).
Proof using Type. unfold urange, range. apply NoDup_fmap_2; [intros a b; lia|apply NoDup_seq]. Qed.
Lemma mval_flat n m M (g : N -> option T) : wf_mat n M -> (forall i, (i < msize M)%N -> exists v, g i = Some v /\ m !! flat M i = Some v) ->
  mval m M = (l ← mapM g (upto (msize M)); Some (V (shape M) l)).
Proof using Type.
  intros Hw Hg. destruct (mapM_total g (upto (msize M))) as [vs Hvs]; [intros i Hi; apply elem_of_upto in Hi; destruct (Hg i Hi) as (v & -> & _); eauto|].
  rewrite Hvs. cbn [mbind option_bind]. unfold mval. assert (E : rds m (operands M) = Some vs); [|rewrite E; reflexivity].
  apply mapM_Some. apply mapM_Some in Hvs. apply Forall2_same_length_lookup_2.
  - apply Forall2_length in Hvs. rewrite <- Hvs. unfold upto, msize, ulen. rewrite map_length, seq_length. lia.
  - intros k p v Hp Hv. assert (Hk : (N.of_nat k < msize M)%N) by (apply lookup_lt_Some in Hp; unfold msize, ulen; lia).
    destruct (flat_at _ _ _ Hw Hk) as (Ek & _). rewrite Nat2N.id in Ek. assert (p = Some (flat M (N.of_nat k))) as -> by congruence.
    destruct (Hg _ Hk) as (v' & Hv' & Hm'). assert (Hu : upto (msize M) !! k = Some (N.of_nat k)).
    { unfold upto. rewrite list_lookup_fmap, lookup_seq_lt by lia. reflexivity. }
    pose proof (Forall2_lookup_lr _ _ _ _ _ _ Hvs Hu Hv) as Hgk. cbn in Hgk. cbn. congruence.
Qed.

(** ** Dense: errors of the input *)
Section DenseIn.
Variables (t0 : tst T) (md mw mder mp : tmat) (outs n : N).
Hypotheses (Hwd : wf_mat (length (mem t0)) md) (Hww : wf_mat (length (mem t0)) mw) (Hwa : wf_mat (length (mem t0)) mder) (Hwp : wf_mat (length (mem t0)) mp).
Hypotheses (Hshd : shape md = [outs]) (Hshw : shape mw = [outs; n]) (Hsa : msize mder = n) (Hsp : msize mp = n).
Hypotheses (Hnd : NoDup (operands mp)).
Hypothesis Hdd : forall l, Some l ∈ operands md -> Some l ∉ operands mp.
Hypothesis Hdw : forall l, Some l ∈ operands mw -> Some l ∉ operands mp.
Hypothesis Hda : forall l, Some l ∈ operands mder -> Some l ∉ operands mp.
Hypotheses (Ho0 : (0 < outs)%N).
Definition ni_p (i j : N) : nat * nat := (celladdr md [j], celladdr mw [j; i]).
Definition ni_ts (i : N) : list (nat * nat) := map (ni_p i) (urange outs).
Lemma dense_in_does : does t0 (mfor (urange n) (dense_input_bp outs md mw mder mp)) (fun x => Some x ∈ operands mp)
  (fun m m' => forall vd vw va vp, mval m md = Some vd -> mval m mw = Some vw -> mval m mder = Some va -> mval m mp = Some vp -> mval m' mp = g_dense_in vd vw va vp).
Proof using All.
  set (L := urange n).
  assert (HL : forall i, i ∈ L -> (i < n)%N) by (intros i; apply elem_of_urange).
  assert (HP : forall i j, i ∈ L -> j ∈ urange outs -> inr [j] (shape md) /\ inr [j; i] (shape mw)).
  { intros i j Hi Hj. apply HL in Hi. apply elem_of_urange in Hj. rewrite Hshd, Hshw. split; repeat constructor; assumption. }
  assert (HF : forall i, i ∈ L -> operands mder !! N.to_nat i = Some (Some (flat mder i)) /\ flat mder i < length (mem t0) /\ Some (flat mder i) ∈ operands mder /\
     operands mp !! N.to_nat i = Some (Some (flat mp i)) /\ flat mp i < length (mem t0) /\ Some (flat mp i) ∈ operands mp).
  { intros i Hi. apply HL in Hi. destruct (flat_at _ mder i Hwa ltac:(lia)) as (? & ? & ?). destruct (flat_at _ mp i Hwp ltac:(lia)) as (? & ? & ?). auto 10. }
  assert (Hoff : forall x q, q ∈ L -> Some x ∉ operands mp -> x <> flat mp q) by (intros x q Hq Hn ->; apply Hn; apply HF; exact Hq).
  assert (Hts : forall q r p x, q ∈ L -> r ∈ L -> p ∈ ni_ts q -> x = fst p \/ x = snd p -> x < length (mem t0) /\ x <> flat mp r).
  { intros q r p x Hq Hr Hp. apply elem_of_list_fmap in Hp as (j & -> & Hj). destruct (HP q j Hq Hj) as (I1 & I2).
    destruct (celladdr_at _ _ _ Hwd I1) as (_ & L1 & O1). destruct (celladdr_at _ _ _ Hww I2) as (_ & L2 & O2). unfold ni_p. cbn [fst snd].
    intros [-> | ->]; (split; [assumption|]); apply Hoff; try exact Hr; [apply Hdd|apply Hdw]; assumption. }
  assert (Hne : forall q, q ∈ L -> ni_ts q <> []).
  { intros q Hq. unfold ni_ts. assert (H00 : 0%N ∈ urange outs) by (apply elem_of_urange; exact Ho0). destruct (urange outs); [inversion H00|discriminate]. }
  set (k := is_k _ ni_ts 1). set (u := is_ops (T:=T) _ ni_ts (flat mder) (flat mp) 1).
  exists (ltot k L), (lops k u L (length (mem t0))). split; [|split].
  - refine (mfor_grown k u t0 _ L _ t0 eq_refl (le_n _)). intros i t Hi Ht Hlt. destruct (HF i Hi) as (Ea & _ & _ & Ep & _). unfold dense_input_bp.
    set (K := fun sum : ptr => dd <~ atM (operands mder) (N.to_nat i) ; nd <~ alloc nzero ; pd <~ atM (operands mp) (N.to_nat i) ; push (OMul nd sum dd) ;~ push (OAdd pd pd nd) : TM T unit).
    rewrite (gather_run _ (ni_p i) (urange outs) t K); unfold K; clear K.
    + erewrite mbnd_ok by (apply atM_ok; exact Ea). erewrite mbnd_ok by apply alloc_grown. erewrite mbnd_ok by (apply atM_ok; exact Ep). erewrite mbnd_ok by apply push_grown.
      rewrite push_grown, !grown_grown, grown_len. unfold k, u, is_k, is_ops, ni_ts. rewrite map_length, !Nat.add_0_r, !Nat.add_assoc. reflexivity.
    + intros j t1 Hj _ Hlt1. destruct (HP i j Hi Hj) as (I1 & I2).
      erewrite mbnd_ok by (apply (get_ok _ _ _ _ Hwd I1)). erewrite mbnd_ok by (apply (get_ok _ _ _ _ Hww I2)). erewrite mbnd_ok by apply alloc_grown. erewrite mbnd_ok by apply push_grown.
      rewrite grown_grown. reflexivity.
  - apply (lops_dst k u L (fun x => Some x ∈ operands mp) (length (mem t0))); [lia|]. intros q b d Hq Hb Hd.
    destruct (is_dst _ ni_ts (flat mder) (flat mp) 1 q b d Hd) as [?| ->]; [auto|right; apply HF; exact Hq].
  - intros m Hm. destruct (is_sem _ (length (mem t0)) L ni_ts (flat mder) (flat mp)) with (k := 1) (m := m) (a := length (mem t0)) as (m' & E & V).
    + apply urange_NoDup.
    + intros i Hi. apply HF. exact Hi.
    + intros i Hi. apply HF. exact Hi.
    + intros i j Hi Hj. apply flat_inj with (n := length (mem t0)); [exact Hwp|exact Hnd|rewrite Hsp; auto|rewrite Hsp; auto].
    + intros i j Hi Hj. apply Hoff; [exact Hj|]. apply Hda, HF. exact Hi.
    + exact Hts.
    + exact Hne.
    + lia.
    + lia.
    + exact Hm.
    + exists m'. split; [exact E|]. intros vd vw va vp Evd Evw Eva Evp. unfold g_dense_in.
      assert (Sd : vsh vd = [outs]) by (rewrite <- Hshd; exact (proj1 (mval_shape _ _ _ Evd))). destruct (mval_shape _ _ _ Evp) as [Sp Lp].
      rewrite Sd, Sp, Lp. cbn [nth]. change (N.of_nat (length (operands mp))) with (msize mp). apply (mval_flat (length (mem t0))); [exact Hwp|]. intros i Hi.
      assert (HiL : i ∈ L) by (apply elem_of_urange; lia). destruct (is_tot _ L ni_ts (flat mder) (flat mp) Hne m i HiL) as [v Ev]. exists v. split; [|exact (V i v HiL Ev)].
      rewrite <- Ev. unfold is_res, ni_ts. rewrite (mapM_Some_map _ (fun j => pmul m (ni_p i j))).
      * cbn [mbind option_bind]. rewrite map_map. change (upto outs) with (urange outs). destruct (fold1 nadd (map _ (urange outs))) as [s0|]; [|reflexivity]. cbn [mbind option_bind].
        rewrite (flat_val (length (mem t0)) m mder va) by (assumption || lia). cbn [mbind option_bind]. rewrite (flat_val (length (mem t0)) m mp vp) by (assumption || lia). reflexivity.
      * intros j Hj. destruct (HP i j HiL Hj) as (I1 & I2). rewrite (el_ev (length (mem t0)) m md vd) by (assumption || lia). cbn [mbind option_bind]. rewrite (el_ev (length (mem t0)) m mw vw) by (assumption || lia). reflexivity.
Qed.
End DenseIn.

(** ** Dense: new bias and weights *)
Section DenseUnit.
Variables (t0 : tst T) (mi md mw mb mnw mmw mnb mmb : tmat) (al mo : nat) (outs n : N).
Let lo := length (mem t0).
Hypotheses (Hwi : wf_mat lo mi) (Hwd : wf_mat lo md) (Hww : wf_mat lo mw) (Hwb : wf_mat lo mb) (Hwnw : wf_mat lo mnw) (Hwmw : wf_mat lo mmw) (Hwnb : wf_mat lo mnb) (Hwmb : wf_mat lo mmb).
Hypotheses (Hsi : msize mi = n) (Hshd : shape md = [outs]) (Hshw : shape mw = [outs; n]) (Hshb : shape mb = [outs])
  (Hshnw : shape mnw = [outs; n]) (Hshmw : shape mmw = [outs; n]) (Hshnb : shape mnb = [outs]) (Hshmb : shape mmb = [outs]).
Hypotheses (Hal : al < lo) (Hmo : mo < lo) (Hndw : NoDup (operands mnw)) (Hndb : NoDup (operands mnb)).
Definition uO (x : nat) : Prop := Some x ∈ operands mnw \/ Some x ∈ operands mnb.
Hypothesis Hsep : forall l, Some l ∈ operands mi \/ Some l ∈ operands md \/ Some l ∈ operands mw \/ Some l ∈ operands mb \/ Some l ∈ operands mmw \/ Some l ∈ operands mmb \/ l = al \/ l = mo -> ~ uO l.
Hypothesis Hnn : forall l, Some l ∈ operands mnw -> Some l ∉ operands mnb.

Definition ui_ops (i : N) (mda : nat) (j : N) (b : nat) : list (op T) :=
  [OMul (Some b) (Some mda) (Some (flat mi j)); OMul (Some (b + 1)) (Some (celladdr mmw [i; j])) (Some mo);
   OSum (Some (celladdr mnw [i; j])) [Some (celladdr mw [i; j]); Some (b + 1); Some b]].
Definition two (j : N) : nat := 2.
Definition u_ops (i : N) (a : nat) : list (op T) :=
  [OMul (Some a) (Some (celladdr md [i])) (Some al); OMul (Some (a + 1)) (Some (celladdr mmb [i])) (Some mo);
   OSum (Some (celladdr mnb [i])) [Some (celladdr mb [i]); Some (a + 1); Some a]] ++ lops two (ui_ops i a) (urange n) (a + 2).
Definition u_k (i : N) : nat := 2 + ltot two (urange n).
Definition u_b (m : list T) (i : N) : T := nadd (nadd (ev m mb [i]) (nmul (ev m mmb [i]) (cell m mo))) (nmul (ev m md [i]) (cell m al)).
Definition u_w (m : list T) (i j : N) : T := nadd (nadd (ev m mw [i; j]) (nmul (ev m mmw [i; j]) (cell m mo))) (nmul (nmul (ev m md [i]) (cell m al)) (cell m (flat mi j))).
Definition u_R (m : list T) (i : N) (x : nat) (v : T) : Prop := (x = celladdr mnb [i] /\ v = u_b m i) \/ exists j, (j < n)%N /\ x = celladdr mnw [i; j] /\ v = u_w m i j.
Definition u_W (i : N) (x : nat) : Prop := x = celladdr mnb [i] \/ exists j, (j < n)%N /\ x = celladdr mnw [i; j].

Lemma u_in1 i : (i < outs)%N -> inr [i] (shape md) /\ inr [i] (shape mb) /\ inr [i] (shape mnb) /\ inr [i] (shape mmb).
Proof using Hshd Hshb Hshnb Hshmb. clear - Hshd Hshb Hshnb Hshmb. intros Hi. rewrite Hshd, Hshb, Hshnb, Hshmb. repeat split; repeat constructor; assumption. Qed.
Lemma u_in2 i j : (i < outs)%N -> (j < n)%N -> inr [i; j] (shape mw) /\ inr [i; j] (shape mnw) /\ inr [i; j] (shape mmw).
Proof using Hshw Hshnw Hshmw. clear - Hshw Hshnw Hshmw. intros Hi Hj. rewrite Hshw, Hshnw, Hshmw. repeat split; repeat constructor; assumption. Qed.
Lemma ui_dst i a j b d : dst_in d (ui_ops i a j b) -> b <= d < b + two j \/ d = celladdr mnw [i; j].
Proof using Type.
  clear - d. unfold ui_ops, two. rewrite !dst_cons. cbn [op_dst]. intros [[= <-]|[[= <-]|[[= <-]|Hd]]]; [left; lia|left; lia|right; reflexivity|destruct (dst_nil _ Hd)].
Qed.
Lemma u_dst i a d : dst_in d (u_ops i a) -> a <= d < a + u_k i \/ u_W i d.
Proof using Type.
  clear - d. unfold u_ops, u_k, u_W. rewrite dst_in_app, !dst_cons. cbn [op_dst]. intros [[[= <-]|[[= <-]|[[= <-]|Hd]]]|Hd]; [left; lia|left; lia|right; left; reflexivity|destruct (dst_nil _ Hd)|].
  destruct (lops_dst two (ui_ops i a) (urange n) (fun d => exists j, (j < n)%N /\ d = celladdr mnw [i; j]) (a + 2) (a + 2) (le_n _)) with (d := d) as [?|?].
  - intros j b d' Hj _ Hd'. apply elem_of_urange in Hj. destruct (ui_dst _ _ _ _ _ Hd') as [?| ->]; [auto|]. right. exists j. auto.
  - exact Hd.
  - left. lia.
  - right. right. assumption.
Qed.
Lemma u_Wlt i x : (i < outs)%N -> u_W i x -> x < lo /\ uO x.
Proof using Hwnb Hwnw Hshnb Hshnw.
  clear - Hwnb Hwnw Hshnb Hshnw. intros Hi [-> |(j & Hj & ->)].
  - assert (I1 : inr [i] (shape mnb)) by (rewrite Hshnb; repeat constructor; assumption). destruct (celladdr_at _ _ _ Hwnb I1) as (_ & ? & ?). split; [assumption|right; assumption].
  - assert (I1 : inr [i; j] (shape mnw)) by (rewrite Hshnw; repeat constructor; assumption). destruct (celladdr_at _ _ _ Hwnw I1) as (_ & ? & ?). split; [assumption|left; assumption].
Qed.
Lemma u_step i : (i < outs)%N -> forall a (m m1 : list T), lo <= a -> a + u_k i <= length m -> length m1 = length m -> (forall x, x < lo -> ~ uO x -> m1 !! x = m !! x) ->
  exists m2, exec (u_ops i a) m1 = Some m2 /\ forall x v, u_R m i x v -> m2 !! x = Some v.
Proof using All.
  intros Hi a m m1 Ha Hb Hl1 Hkeep. unfold u_k in Hb. destruct (u_in1 i Hi) as (I1 & I2 & I3 & I4).
  destruct (celladdr_at _ _ _ Hwd I1) as (_ & L1 & O1). destruct (celladdr_at _ _ _ Hwb I2) as (_ & L2 & O2). destruct (celladdr_at _ _ _ Hwnb I3) as (_ & L3 & O3). destruct (celladdr_at _ _ _ Hwmb I4) as (_ & L4 & O4).
  assert (Hrd : forall x, x < lo -> (Some x ∈ operands mi \/ Some x ∈ operands md \/ Some x ∈ operands mw \/ Some x ∈ operands mb \/ Some x ∈ operands mmw \/ Some x ∈ operands mmb \/ x = al \/ x = mo) -> m1 !! x = Some (cell m x)).
  { intros x Hx Hin. rewrite Hkeep by (try apply Hsep; assumption). apply cell_at. lia. }
  assert (V1 : m1 !! celladdr md [i] = Some (ev m md [i])) by (apply Hrd; auto 10). assert (V2 : m1 !! celladdr mb [i] = Some (ev m mb [i])) by (apply Hrd; auto 10).
  assert (V4 : m1 !! celladdr mmb [i] = Some (ev m mmb [i])) by (apply Hrd; auto 10). assert (Va : m1 !! al = Some (cell m al)) by (apply Hrd; auto 10). assert (Vm : m1 !! mo = Some (cell m mo)) by (apply Hrd; auto 10).
  set (mda := nmul (ev m md [i]) (cell m al)). set (nb := celladdr mnb [i]) in *.
  set (m4 := <[nb := u_b m i]> (<[a + 1 := nmul (ev m mmb [i]) (cell m mo)]> (<[a := mda]> m1))).
  assert (Hl4 : length m4 = length m) by (unfold m4; rewrite !insert_length; exact Hl1).
  assert (E4 : forall r, exec ([OMul (Some a) (Some (celladdr md [i])) (Some al); OMul (Some (a + 1)) (Some (celladdr mmb [i])) (Some mo);
     OSum (Some nb) [Some (celladdr mb [i]); Some (a + 1); Some a]] ++ r) m1 = exec r m4).
  { intros r. cbn [app]. rewrite (exec_step _ a _ m1 mda); [|reflexivity|lia|cbn; rewrite V1, Va; reflexivity].
    rewrite (exec_step _ (a + 1) _ _ (nmul (ev m mmb [i]) (cell m mo))); [|reflexivity|rewrite insert_length; lia|cbn; rewrite !list_lookup_insert_ne by lia; rewrite V4, Vm; reflexivity].
    rewrite (exec_step _ nb _ _ (u_b m i)); [reflexivity|reflexivity|rewrite !insert_length; lia|].
    cbn. rewrite (list_lookup_insert_ne _ (a + 1) (celladdr mb [i])) by lia. rewrite (list_lookup_insert_ne _ a (celladdr mb [i])) by lia. rewrite V2. cbn.
    rewrite list_lookup_insert by (rewrite insert_length; lia). cbn. rewrite (list_lookup_insert_ne _ (a + 1) a) by lia. rewrite list_lookup_insert by lia. reflexivity. }
  assert (Hm4 : forall x, x < lo -> x <> nb -> m4 !! x = m1 !! x) by (intros x Hx Hn; unfold m4; rewrite !list_lookup_insert_ne by lia; reflexivity).
  assert (Hda : m4 !! a = Some mda) by (unfold m4; rewrite !list_lookup_insert_ne by lia; apply list_lookup_insert; lia).
  assert (Hnb4 : m4 !! nb = Some (u_b m i)) by (unfold m4; apply list_lookup_insert; rewrite !insert_length; lia). clearbody m4.
  unfold u_ops. rewrite E4.
  assert (HW2 : forall j, j ∈ urange n -> celladdr mnw [i; j] < lo /\ Some (celladdr mnw [i; j]) ∈ operands mnw).
  { intros j Hj. apply elem_of_urange in Hj. destruct (u_in2 i j Hi Hj) as (_ & J & _). split; apply (celladdr_at _ _ _ Hwnw J). }
  destruct (put_sem two (ui_ops i a) (a + 2) (fun j x v => x = celladdr mnw [i; j] /\ v = u_w m i j) (fun j x => x = celladdr mnw [i; j]) (fun _ _ => False) (urange n) m4) with (a := a + 2) as (m5 & E5 & V5).
  - apply urange_NoDup.
  - intros j b d _ _. apply ui_dst.
  - intros j x v Hj [-> _]. destruct (HW2 j Hj). lia.
  - intros j j' x v Hj Hj' Hne [-> _] Ec. apply Hne. apply elem_of_urange in Hj, Hj'. destruct (u_in2 i j Hi Hj) as (_ & J1 & _). destruct (u_in2 i j' Hi Hj') as (_ & J2 & _).
    pose proof (celladdr_inj _ _ _ _ Hwnw Hndw J1 J2 Ec) as Eij. congruence.
  - intros ? ? _ [].
  - intros ? ? ? _ _ _ [].
  - intros j b m5 Hj Hab Hb2 Hl5 Hk5 _. destruct (HW2 j Hj) as [Lnw Onw]. pose proof Hj as Hj'. apply elem_of_urange in Hj'. unfold two in Hb2.
    destruct (u_in2 i j Hi Hj') as (J1 & J2 & J3). destruct (celladdr_at _ _ _ Hww J1) as (_ & M1 & N1). destruct (celladdr_at _ _ _ Hwmw J3) as (_ & M3 & N3). destruct (flat_at _ mi j Hwi ltac:(lia)) as (_ & M4 & N4).
    assert (Hrd5 : forall x, x < lo -> (Some x ∈ operands mi \/ Some x ∈ operands md \/ Some x ∈ operands mw \/ Some x ∈ operands mb \/ Some x ∈ operands mmw \/ Some x ∈ operands mmb \/ x = al \/ x = mo) -> m5 !! x = Some (cell m x)).
    { intros x Hx Hin. pose proof (Hsep x Hin) as Hn. rewrite Hk5; [|lia|].
      - rewrite Hm4; [apply Hrd; assumption|exact Hx|]. intros ->. apply Hn. right. exact O3.
      - intros j' Hj'' ->. apply Hn. left. apply HW2. exact Hj''. }
    assert (X1 : m5 !! celladdr mw [i; j] = Some (ev m mw [i; j])) by (apply Hrd5; auto 10). assert (X2 : m5 !! celladdr mmw [i; j] = Some (ev m mmw [i; j])) by (apply Hrd5; auto 10).
    assert (X3 : m5 !! flat mi j = Some (cell m (flat mi j))) by (apply Hrd5; auto 10). assert (X4 : m5 !! mo = Some (cell m mo)) by (apply Hrd5; auto 10).
    assert (X5 : m5 !! a = Some mda). { rewrite Hk5; [exact Hda|lia|]. intros j' Hj'' ->. destruct (HW2 j' Hj''). lia. }
    set (nw := celladdr mnw [i; j]) in *. eexists. split.
    + unfold ui_ops. fold nw. rewrite (exec_step _ b _ m5 (nmul mda (cell m (flat mi j)))); [|reflexivity|lia|cbn; rewrite X5, X3; reflexivity].
      rewrite (exec_step _ (b + 1) _ _ (nmul (ev m mmw [i; j]) (cell m mo))); [|reflexivity|rewrite insert_length; lia|cbn; rewrite !list_lookup_insert_ne by lia; rewrite X2, X4; reflexivity].
      rewrite (exec_step _ nw _ _ (u_w m i j)); [reflexivity|reflexivity|rewrite !insert_length; lia|].
      cbn. rewrite (list_lookup_insert_ne _ (b + 1) (celladdr mw [i; j])) by lia. rewrite (list_lookup_insert_ne _ b (celladdr mw [i; j])) by lia. rewrite X1. cbn.
      rewrite list_lookup_insert by (rewrite insert_length; lia). cbn. rewrite (list_lookup_insert_ne _ (b + 1) b) by lia. rewrite list_lookup_insert by lia. reflexivity.
    + intros x v [-> ->]. apply list_lookup_insert. rewrite !insert_length. lia.
  - lia.
  - lia.
  - exists m5. split; [exact E5|]. intros x v [[-> ->]|(j & Hj & -> & ->)]; [|apply (V5 j); [apply elem_of_urange; exact Hj|auto]].
    rewrite <- Hnb4. eapply exec_frame; [exact E5|]. intros Hd.
    destruct (lops_dst two (ui_ops i a) (urange n) (fun d => exists j, (j < n)%N /\ d = celladdr mnw [i; j]) (a + 2) (a + 2) (le_n _)) with (d := celladdr mnb [i]) as [?|(j & Hj & Ec)].
    + intros j b d' Hj _ Hd'. apply elem_of_urange in Hj. destruct (ui_dst _ _ _ _ _ Hd') as [?| ->]; [auto|]. right. exists j. auto.
    + exact Hd.
    + fold nb in H0. lia.
    + apply (Hnn (celladdr mnw [i; j])); [apply HW2; apply elem_of_urange; exact Hj|]. rewrite <- Ec. exact O3.
Qed.
Lemma dense_unit_does : does t0 (mfor (urange outs) (dense_unit_bp mi md mw mb mnw mmw mnb mmb (Some al) (Some mo))) uO
  (fun m m' => forall vd vx vw vb vmw vmb, mval m md = Some vd -> mval m mi = Some vx -> mval m mw = Some vw -> mval m mb = Some vb -> mval m mmw = Some vmw -> mval m mmb = Some vmb ->
     mval m' mnw = g_dense_w (cell m al) (cell m mo) vd vx vw vmw /\ mval m' mnb = g_dense_b (cell m al) (cell m mo) vd vb vmb).
Proof using All.
  set (L := urange outs). assert (HL : forall i, i ∈ L -> (i < outs)%N) by (intros i; apply elem_of_urange).
  exists (ltot u_k L), (lops u_k u_ops L lo). split; [|split].
  - refine (mfor_grown u_k u_ops t0 _ L _ t0 eq_refl (le_n _)). intros i t Hi Ht Hlt. apply HL in Hi. destruct (u_in1 i Hi) as (I1 & I2 & I3 & I4). unfold dense_unit_bp.
    erewrite mbnd_ok by (apply (get_ok _ _ _ _ Hwd I1)). erewrite mbnd_ok by apply alloc_grown. erewrite mbnd_ok by apply push_grown.
    erewrite mbnd_ok by (apply (get_ok _ _ _ _ Hwmb I4)). erewrite mbnd_ok by apply alloc_grown. erewrite mbnd_ok by apply push_grown.
    erewrite mbnd_ok by (apply (get_ok _ _ _ _ Hwb I2)). erewrite mbnd_ok by (apply (get_ok _ _ _ _ Hwnb I3)). erewrite mbnd_ok by apply push_grown.
    rewrite !grown_grown. cbn [Nat.add app]. rewrite grown_len, Hsi.
    match goal with |- mfor _ _ ?t' = _ => set (t1 := t') end. assert (Hlt1 : length (mem t1) = length (mem t) + 2) by apply grown_len.
    etransitivity; [refine (mfor_grown two (ui_ops i (length (mem t))) t1 _ (urange n) _ t1 eq_refl (le_n _))|].
    { intros j t2 Hj Ht2 Hlt2. apply elem_of_urange in Hj. destruct (u_in2 i j Hi Hj) as (J1 & J2 & J3). destruct (flat_at _ mi j Hwi ltac:(lia)) as (Ej & _).
      erewrite mbnd_ok by (apply atM_ok; exact Ej). erewrite mbnd_ok by (apply (get_ok _ _ _ _ Hwmw J3)). erewrite mbnd_ok by apply alloc_grown. erewrite mbnd_ok by apply push_grown.
      erewrite mbnd_ok by apply alloc_grown. erewrite mbnd_ok by apply push_grown. erewrite mbnd_ok by (apply (get_ok _ _ _ _ Hww J1)). erewrite mbnd_ok by (apply (get_ok _ _ _ _ Hwnw J2)).
      rewrite push_grown, !grown_grown, !grown_len. unfold ui_ops. cbn [Nat.add app]. rewrite ?Nat.add_0_r. reflexivity. }
    rewrite Hlt1. unfold t1. rewrite grown_grown. unfold u_k, u_ops. rewrite ?Nat.add_0_r. reflexivity.
  - apply (lops_dst u_k u_ops L uO lo); [lia|]. intros i b d Hi Hb Hd. apply HL in Hi. destruct (u_dst i b d Hd) as [?|Hw]; [auto|]. right. apply (u_Wlt i); assumption.
  - intros m Hm.
    destruct (put_sem u_k u_ops lo (u_R m) u_W (fun _ _ => False) L m) with (a := lo) as (m' & E & V).
    + apply urange_NoDup.
    + intros i b d Hi _. apply u_dst.
    + intros i x v Hi HR. apply HL in Hi. apply (u_Wlt i x Hi). destruct HR as [[-> _]|(j & Hj & -> & _)]; [left; reflexivity|right; exists j; auto].
    + intros i j x v Hi Hj Hne HR HW. apply Hne. apply HL in Hi, Hj. destruct (u_in1 i Hi) as (_ & _ & I3 & _). destruct (u_in1 j Hj) as (_ & _ & J3 & _).
      destruct (celladdr_at _ _ _ Hwnb I3) as (_ & _ & O3). destruct (celladdr_at _ _ _ Hwnb J3) as (_ & _ & P3).
      destruct HR as [[-> _]|(j1 & Hj1 & -> & _)]; destruct HW as [Ec|(j2 & Hj2 & Ec)].
      * pose proof (celladdr_inj _ _ _ _ Hwnb Hndb I3 J3 Ec). congruence.
      * destruct (u_in2 j j2 Hj Hj2) as (_ & J & _). destruct (celladdr_at _ _ _ Hwnw J) as (_ & _ & Oj). rewrite <- Ec in Oj. destruct (Hnn _ Oj O3).
      * destruct (u_in2 i j1 Hi Hj1) as (_ & J & _). destruct (celladdr_at _ _ _ Hwnw J) as (_ & _ & Oj). rewrite Ec in Oj. destruct (Hnn _ Oj P3).
      * destruct (u_in2 i j1 Hi Hj1) as (_ & J & _). destruct (u_in2 j j2 Hj Hj2) as (_ & J' & _). pose proof (celladdr_inj _ _ _ _ Hwnw Hndw J J' Ec). congruence.
    + intros ? ? _ [].
    + intros ? ? ? _ _ _ [].
    + intros i a m1 Hi Ha Hb Hl1 Hk1 _. apply HL in Hi. apply (u_step i Hi a m m1 Ha Hb Hl1). intros x Hx Hn. apply Hk1; [exact Hx|]. intros j Hj Hw. apply HL in Hj. apply Hn. apply (u_Wlt j x Hj Hw).
    + lia.
    + exact Hm.
    + exists m'. split; [exact E|]. intros vd vx vw vb vmw vmb Evd Evx Evw Evb Evmw Evmb. assert (Hlm : lo <= length m) by (unfold lo in *; lia). split.
      * unfold g_dense_w. assert (Sw : vsh vw = shape mnw) by (rewrite Hshnw, <- Hshw; exact (proj1 (mval_shape _ _ _ Evw))). rewrite Sw. apply (mval_tabulate lo); [exact Hwnw|]. intros idx Hidx.
        rewrite Hshnw in Hidx. pose proof (Forall2_length _ _ _ Hidx) as Hl. destruct idx as [|i [|j [|]]]; try discriminate. clear Hl. repeat (apply Forall2_cons in Hidx; destruct Hidx as [? Hidx]).
        destruct (u_in1 i) as (I1 & I2 & I3 & I4); [assumption|]. destruct (u_in2 i j) as (J1 & J2 & J3); [assumption|assumption|].
        exists (u_w m i j). split; [|apply (V i); [apply elem_of_urange; assumption|right; exists j; auto]].
        rewrite (el_ev lo m md vd) by assumption. cbn [mbind option_bind]. rewrite (flat_val lo m mi vx) by (assumption || lia). cbn [mbind option_bind]. rewrite (el_ev lo m mw vw) by assumption. cbn [mbind option_bind].
        rewrite (el_ev lo m mmw vmw) by assumption. reflexivity.
      * unfold g_dense_b. assert (Sb : vsh vb = shape mnb) by (rewrite Hshnb, <- Hshb; exact (proj1 (mval_shape _ _ _ Evb))). rewrite Sb. apply (mval_tabulate lo); [exact Hwnb|]. intros idx Hidx.
        rewrite Hshnb in Hidx. pose proof (Forall2_length _ _ _ Hidx) as Hl. destruct idx as [|i [|]]; try discriminate. clear Hl. repeat (apply Forall2_cons in Hidx; destruct Hidx as [? Hidx]).
        destruct (u_in1 i) as (I1 & I2 & I3 & I4); [assumption|].
        exists (u_b m i). split; [|apply (V i); [apply elem_of_urange; assumption|left; auto]].
        rewrite (el_ev lo m md vd) by assumption. cbn [mbind option_bind]. rewrite (el_ev lo m mb vb) by assumption. cbn [mbind option_bind]. rewrite (el_ev lo m mmb vmb) by assumption. reflexivity.
Qed.
End DenseUnit.
End BwdOps3.
