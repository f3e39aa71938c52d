(** * SoftProofs: the soft-max formula in exact arithmetic *)
From Verif Require Import Base Num NumQ Spec Laws TensorFacts.
From Coq Require Import QArith Qcanon Lia.

#[local] Existing Instance NumQc.

Lemma Qc_sub_nonneg (a b : Qc) : (a <= b)%Qc -> (0 <= b - a)%Qc.
Proof. intros Hab. apply Qcle_minus_iff in Hab. exact Hab. Qed.

Lemma fold_min (l : list Qc) : forall a,
  let m := fold_left (fun m x => if nltb x m then x else m) l a in
  (m <= a)%Qc /\ (forall x, x ∈ l -> (m <= x)%Qc) /\ (m = a \/ m ∈ l).
Proof.
  induction l as [|y l IH]; intros a; cbn.
  - split; [apply Qcle_refl|]. split; [intros x Hx; inversion Hx|auto].
  - cbn in IH. destruct (Qclt_le_dec y a) as [Hlt|Hle].
    + destruct (IH y) as (H1 & H2 & H3). split; [eapply Qcle_trans; [exact H1|apply Qclt_le_weak; exact Hlt]|].
      split; [|destruct H3 as [->|]; right; [left|right; assumption]].
      intros x Hx. apply elem_of_cons in Hx as [->|Hx]; auto.
    + destruct (IH a) as (H1 & H2 & H3). split; [exact H1|].
      split; [|destruct H3 as [->|]; [left; reflexivity|right; right; assumption]].
      intros x Hx. apply elem_of_cons in Hx as [->|Hx]; [eapply Qcle_trans; eassumption|auto].
Qed.

Lemma fold_add_acc (l : list Qc) : forall a, fold_left Qcplus l a = (a + fold_left Qcplus l 0)%Qc.
Proof.
  induction l as [|x l IH]; intros a; cbn; [ring|]. rewrite IH, (IH (0 + x)%Qc). ring.
Qed.

Lemma fold_add_nonneg (l : list Qc) : Forall (fun x => 0 <= x)%Qc l -> (0 <= fold_left Qcplus l 0)%Qc.
Proof.
  induction 1 as [|x l Hx _ IH]; cbn; [apply Qcle_refl|]. rewrite fold_add_acc.
  replace (0 + x)%Qc with x by ring. replace 0%Qc with (0 + 0)%Qc by ring. apply Qcplus_le_compat; assumption.
Qed.

Lemma fold_add_ge (l : list Qc) x : Forall (fun x => 0 <= x)%Qc l -> x ∈ l -> (x <= fold_left Qcplus l 0)%Qc.
Proof.
  intros Hf Hx. induction Hf as [|y l Hy Hf IH]; [inversion Hx|]. cbn. rewrite fold_add_acc.
  replace (0 + y)%Qc with y by ring. apply elem_of_cons in Hx as [->|Hx].
  - replace y with (y + 0)%Qc at 1 by ring. apply Qcplus_le_compat; [apply Qcle_refl|apply fold_add_nonneg; assumption].
  - replace x with (0 + x)%Qc by ring. apply Qcplus_le_compat; auto.
Qed.

Lemma Qcdiv_le (a b c : Qc) : (0 < c)%Qc -> (a <= b)%Qc -> (a / c <= b / c)%Qc.
Proof.
  intros Hc Hab. unfold Qcdiv. apply Qcmult_le_compat_r; [assumption|].
  assert (Hc' : (c <> 0)%Qc) by (intros ->; exact (Qclt_not_eq _ _ Hc eq_refl)).
  destruct (Qclt_le_dec (/ c)%Qc 0%Qc) as [Hn|Hp]; [|assumption]. exfalso.
  assert (E : (/ c * c = 1)%Qc) by (field; assumption).
  assert (Hle : (/ c * c <= 0 * c)%Qc) by (apply Qcmult_le_compat_r; apply Qclt_le_weak; assumption).
  rewrite E in Hle. replace (0 * c)%Qc with 0%Qc in Hle by ring. apply Hle. reflexivity.
Qed.

Lemma Qcdiv_lt (a b c : Qc) : (0 < c)%Qc -> (a < b)%Qc -> (a / c < b / c)%Qc.
Proof.
  intros Hc Hab. destruct (Qclt_le_dec (a / c) (b / c)) as [|Hle]; [assumption|]. exfalso.
  assert (Hc' : (c <> 0)%Qc) by (intros ->; exact (Qclt_not_eq _ _ Hc eq_refl)).
  apply (Qcmult_le_compat_r _ _ c) in Hle; [|apply Qclt_le_weak; assumption].
  assert (E1 : (b / c * c = b)%Qc) by (field; assumption). assert (E2 : (a / c * c = a)%Qc) by (field; assumption).
  rewrite E1, E2 in Hle. exact (Qclt_not_le _ _ Hab Hle).
Qed.

Lemma fold_add_div (l : list Qc) c : (c <> 0)%Qc ->
  fold_left Qcplus (map (fun x => x / c)%Qc l) 0%Qc = (fold_left Qcplus l 0 / c)%Qc.
Proof.
  intros Hc. induction l as [|x l IH]; cbn [fold_left map]; [field; assumption|].
  rewrite fold_add_acc, IH, (fold_add_acc l (0 + x)%Qc). field. assumption.
Qed.

(** What soft-max means on a list of exact numbers. *)
Definition distribution (xs ys : list Qc) : Prop :=
  length ys = length xs /\
  Forall (fun y => 0 <= y <= 1)%Qc ys /\
  fold_left Qcplus ys 0%Qc = 1%Qc /\
  (forall i j a b y z, xs !! i = Some a -> xs !! j = Some b -> ys !! i = Some y -> ys !! j = Some z ->
     (a < b)%Qc -> (y < z)%Qc).

Theorem soft_ok sh (l : list Qc) x y :
  x ∈ l -> y ∈ l -> x <> y ->
  exists ys, v_soft (V sh l) = Some (V sh ys) /\ distribution l ys.
Proof.
  intros Hx Hy Hne. destruct l as [|a r] eqn:El; [inversion Hx|].
  pose proof (fold_min r a) as Hm. cbv zeta in Hm.
  unfold v_soft, v_soft_with. cbn [vdata vsh].
  set (m := fold_left (fun m x => if nltb x m then x else m) r a) in *.
  change (reduce RedMin (a :: r)) with (Some m). cbn [mbind option_bind].
  destruct Hm as (Hma & Hmr & Hmin).
  assert (Hle : forall z, z ∈ a :: r -> (m <= z)%Qc).
  { intros z Hz. apply elem_of_cons in Hz as [->|Hz]; auto. }
  rewrite <- El in *. clearbody m.
  set (d := map (fun z => nsub z m) l).
  assert (Hd : Forall (fun z => 0 <= z)%Qc d).
  { apply Forall_forall. intros z Hz. unfold d in Hz. apply elem_of_list_fmap in Hz as (w & -> & Hw).
    apply Qc_sub_nonneg. auto. }
  set (s := fold_left Qcplus d 0%Qc).
  assert (Hs : reduce RedSum d = Some s).
  { unfold d, s. rewrite El. cbn. f_equal. unfold d. rewrite El. cbn. f_equal. ring. }
  rewrite Hs. cbn [mbind option_bind].
  assert (Hpos : (0 < s)%Qc).
  { destruct (Qclt_le_dec 0 s) as [|Hn]; [assumption|]. exfalso. apply Hne.
    assert (Hz : forall z, z ∈ l -> z = m).
    { intros z Hz. assert (Hzd : nsub z m ∈ d) by (apply elem_of_list_fmap; eauto).
      pose proof (fold_add_ge _ _ Hd Hzd) as Hge. fold s in Hge.
      assert (Hz0 : (z - m <= 0)%Qc) by (eapply Qcle_trans; [exact Hge|exact Hn]).
      pose proof (Qc_sub_nonneg _ _ (Hle z Hz)) as Hz1.
      assert (E : (z - m = 0)%Qc) by (apply Qcle_antisym; assumption).
      replace z with (z - m + m)%Qc by ring. rewrite E. ring. }
    rewrite (Hz x Hx), (Hz y Hy). reflexivity. }
  assert (Hs0 : (s <> 0)%Qc) by (intros E0; rewrite E0 in Hpos; exact (Qclt_not_eq _ _ Hpos eq_refl)).
  assert (Hq : mapM (fun z => ndiv z s) d = Some (map (fun z => z / s)%Qc d)).
  { clear - Hs0. clearbody s. clearbody d. induction d as [|z d IH]; [reflexivity|]. cbn in *. destruct (Qc_eq_dec s 0); [contradiction|].
    cbn in IH |- *. rewrite IH. reflexivity. }
  rewrite Hq. cbn [mbind option_bind]. eexists. split; [reflexivity|].
  assert (Hdiv1 : (s / s = 1)%Qc) by (field; assumption).
  assert (Hdiv0 : (0 / s = 0)%Qc) by (field; assumption).
  split; [unfold d; rewrite !map_length; reflexivity|]. split; [|split].
  - apply Forall_forall. intros q Hqq. apply elem_of_list_fmap in Hqq as (z & -> & Hz).
    rewrite Forall_forall in Hd. split.
    + rewrite <- Hdiv0. apply Qcdiv_le; [assumption|]. apply Hd. exact Hz.
    + rewrite <- Hdiv1. apply Qcdiv_le; [assumption|]. apply fold_add_ge; [apply Forall_forall; exact Hd|assumption].
  - rewrite fold_add_div by assumption. fold s. exact Hdiv1.
  - intros i j u v p q Hi Hj Hp Hqj Hlt. unfold d in Hp, Hqj. rewrite list_lookup_fmap, list_lookup_fmap, Hi in Hp.
    rewrite list_lookup_fmap, list_lookup_fmap, Hj in Hqj. cbn in Hp, Hqj.
    injection Hp as <-. injection Hqj as <-. apply Qcdiv_lt; [assumption|].
    apply Qclt_minus_iff in Hlt. apply Qclt_minus_iff. replace (v - m + - (u - m))%Qc with (v + - u)%Qc by ring. exact Hlt.
Qed.

Theorem soft_constant_refuted sh (c : Qc) n : v_soft (V sh (replicate n c)) = None.
Proof.
  unfold v_soft, v_soft_with. cbn [vdata vsh]. destruct n as [|n]; [reflexivity|]. cbn [replicate].
  assert (Hm : forall n a, fold_left (fun m x => if nltb x m then x else m) (replicate n a) a = a).
  { intros k. induction k as [|k IH]; intros a; cbn; [reflexivity|]. destruct (Qclt_le_dec a a); apply IH. }
  change (reduce RedMin (c :: replicate n c)) with (Some (fold_left (fun m x => if nltb x m then x else m) (replicate n c) c)).
  rewrite Hm. cbn [mbind option_bind map]. 
  assert (Es : reduce RedSum (nsub c c :: map (fun x => nsub x c) (replicate n c)) = Some 0%Qc).
  { cbn. f_equal. rewrite fold_add_acc. clear. induction n as [|n IH]; cbn; [ring|]. rewrite fold_add_acc.
    transitivity (c - c + (c - c + fold_left Qcplus (map (fun x => (x - c)%Qc) (replicate n c)) 0))%Qc; [ring|].
    rewrite IH. ring. }
  rewrite Es. cbn [mbind option_bind mapM]. cbn. destruct (Qc_eq_dec 0 0) as [_|E]; [reflexivity|congruence].
Qed.

Lemma Qc_add_0_l (x : Qc) : nadd nzero x = x.
Proof. cbn. ring. Qed.
