(** * TransferProofs: Transfer, Fill and Flatten *)
From Verif Require Import Base Num ModelTools ModelOps ModelTensor ModelGraph Spec Denote
  IndexProofs ExecProofs TensorFacts BuildProofs CompileProofs ObjSpec Agree BuildFrame.
From Coq Require Import Lia ZifyNat ZifyN ZifyBool.

Section Transfer.
Context {T : Type} `{Num T}.
Implicit Types (s : tst T).

(** No scalar of [to] is written before it has been read as an element of
    [from]. *)
Definition read_first (from to : list ptr) : Prop :=
  forall i j p, i < j -> to !! i = Some p -> from !! j = Some p -> False.

Lemma wr_valid n (m : list T) p v : valid n p -> n <= length m -> exists l, p = Some l /\ wr m p v = Some (<[l := v]> m).
Proof. intros (l & -> & Hl) Hn. exists l. split; [reflexivity|]. cbn. rewrite decide_True by lia. reflexivity. Qed.

Lemma exec_sets n : forall (ds as_ : list ptr) (m : list T),
  Forall (valid n) ds -> Forall (valid n) as_ -> n <= length m -> length ds = length as_ ->
  NoDup ds -> read_first as_ ds ->
  exists m', exec (zip_with OSet ds as_) m = Some m' /\ rds m' ds = rds m as_ /\
    forall l, Some l ∉ ds -> m' !! l = m !! l.
Proof.
  induction ds as [|d ds IH]; intros [|a as_] m Hd Ha Hn Hl Hnd Hrf; try discriminate.
  - exists m. split; [reflexivity|]. split; [reflexivity|auto].
  - apply Forall_cons in Hd as [Hd Hds]. apply Forall_cons in Ha as [(la & -> & Hla) Has].
    apply NoDup_cons in Hnd as [Hnin Hnd]. injection Hl as Hl.
    destruct (lookup_lt_is_Some_2 m la) as [v Hv]; [lia|].
    destruct (wr_valid n m d v Hd Hn) as (ld & -> & Hw).
    destruct (IH as_ (<[ld := v]> m)) as (m' & Hx & Hr & Hfr); try assumption.
    { rewrite insert_length. exact Hn. }
    { intros i j p Hij Hi Hj. exact (Hrf (S i) (S j) p ltac:(lia) Hi Hj). }
    exists m'. split.
    { cbn [zip_with exec]. unfold cal. cbn [op_dst op_value rd]. rewrite Hv. cbn [mbind option_bind]. rewrite Hw. exact Hx. }
    split.
    + unfold rds in *. cbn [mapM rd]. rewrite (Hfr ld Hnin), list_lookup_insert by (destruct Hd as (? & [= <-] & ?); lia).
      rewrite Hv. cbn [mbind option_bind]. rewrite Hr.
      replace (mapM (rd (<[ld:=v]> m)) as_) with (mapM (rd m) as_); [reflexivity|].
      apply rds_ext. intros l Hlin. rewrite list_lookup_insert_ne; [reflexivity|]. intros ->.
      apply elem_of_list_lookup in Hlin as [j Hj]. exact (Hrf 0 (S j) (Some l) ltac:(lia) eq_refl Hj).
    + intros l Hlin. rewrite not_elem_of_cons in Hlin. destruct Hlin as [Hne Hlin]. rewrite (Hfr l Hlin).
      apply list_lookup_insert_ne. congruence.
Qed.

Lemma exec_fill n v : forall (ds : list ptr) (m : list T) x,
  Forall (valid n) ds -> n <= length m -> m !! v = Some x ->
  exists m', exec (map (fun d => OSet d (Some v)) ds) m = Some m' /\ rds m' ds = Some (replicate (length ds) x) /\
    m' !! v = Some x /\ forall l, Some l ∉ ds -> m' !! l = m !! l.
Proof.
  induction ds as [|d ds IH]; intros m x Hd Hn Hv.
  - exists m. split; [reflexivity|]. split; [reflexivity|]. auto.
  - apply Forall_cons in Hd as [Hd Hds]. destruct (wr_valid n m d x Hd Hn) as (ld & -> & Hw).
    assert (Hld : ld < length m) by (destruct Hd as (? & [= <-] & ?); lia).
    assert (Hv' : <[ld := x]> m !! v = Some x).
    { destruct (decide (v = ld)) as [->|Hne]; [apply list_lookup_insert; exact Hld|]. rewrite list_lookup_insert_ne by auto. exact Hv. }
    destruct (IH (<[ld := x]> m) x Hds ltac:(rewrite insert_length; exact Hn) Hv') as (m' & Hx & Hr & Hvx & Hfr).
    exists m'. split.
    { cbn [map exec]. unfold cal. cbn [op_dst op_value rd]. rewrite Hv. cbn [mbind option_bind]. rewrite Hw. exact Hx. }
    split; [|split; [exact Hvx|]].
    + unfold rds in *. cbn [mapM rd length replicate].
      assert (Hm' : m' !! ld = Some x).
      { destruct (decide (Some ld ∈ ds)) as [Hin|Hnin].
        - apply elem_of_list_lookup in Hin as [j Hj]. pose proof (rds_lookup m' ds _ j Hr) as E. rewrite Hj in E. cbn in E.
          rewrite <- E. apply lookup_replicate_2. eapply lookup_lt_Some. exact Hj.
        - rewrite (Hfr _ Hnin). apply list_lookup_insert. exact Hld. }
      rewrite Hm'. cbn [mbind option_bind]. rewrite Hr. reflexivity.
    + intros l Hlin. rewrite not_elem_of_cons in Hlin. destruct Hlin as [Hne Hlin]. rewrite (Hfr l Hlin).
      apply list_lookup_insert_ne. congruence.
Qed.

Lemma push_sets (ds as_ : list ptr) s :
  length ds = length as_ ->
  mfor (range (length ds)) (fun i => d <~ atM ds i ; a <~ atM as_ i ; push (OSet d a)) s =
  (Ok tt, MkSt (mem s) (tens s) (ctx s ++ zip_with OSet ds as_)).
Proof.
  intros Hl. unfold range.
  assert (Hgen : forall r j s, j + r = length ds ->
    mfor (seq j r) (fun i => d <~ atM ds i ; a <~ atM as_ i ; push (OSet d a)) s =
    (Ok tt, MkSt (mem s) (tens s) (ctx s ++ zip_with OSet (drop j ds) (drop j as_)))).
  { induction r as [|r IH]; intros j s0 Hj; cbn [seq mfor].
    - rewrite drop_ge by lia. cbn. rewrite app_nil_r. destruct s0; reflexivity.
    - destruct (lookup_lt_is_Some_2 ds j) as [d Hd]; [lia|]. destruct (lookup_lt_is_Some_2 as_ j) as [a Ha]; [lia|].
      erewrite mbnd_ok by (erewrite mbnd_ok by (apply atM_ok; exact Hd); erewrite mbnd_ok by (apply atM_ok; exact Ha); reflexivity).
      rewrite IH by lia. cbn [mem tens ctx]. rewrite (drop_S _ _ _ Hd), (drop_S _ _ _ Ha). cbn [zip_with].
      rewrite <- app_assoc. reflexivity. }
  rewrite Hgen by lia. reflexivity.
Qed.
Lemma push_fill (ds : list ptr) v s :
  mfor ds (fun d => push (OSet d v)) s = (Ok tt, MkSt (mem s) (tens s) (ctx s ++ map (fun d => OSet d v) ds)).
Proof.
  revert s. induction ds as [|o ops IH]; intros s.
  - cbn. rewrite app_nil_r. destruct s; reflexivity.
  - cbn [mfor map]. erewrite mbnd_ok by reflexivity. rewrite IH. cbn. rewrite <- app_assoc. reflexivity.
Qed.

(** An object whose scalars are already there: a plain tensor, or an object
    that has been compiled. *)
Definition settled (n : node T) : Prop := nkind n = KMat \/ builded (nmat n) = true.
(** Same object up to the [builded] flag. *)
Definition same_mat (n n' : node T) : Prop :=
  nkind n' = nkind n /\ shape (nmat n') = shape (nmat n) /\ mulindex (nmat n') = mulindex (nmat n) /\ operands (nmat n') = operands (nmat n).

Lemma same_mat_settled n n' : same_mat n n' -> (builded (nmat n) = true -> builded (nmat n') = true) -> settled n -> settled n'.
Proof. intros (Hk & _) Hb [Hs|Hs]; [left; congruence|right; auto]. Qed.

Lemma build_settled fuel j s n :
  tens s !! j = Some n -> settled n ->
  exists s' new, BuildGraph (S fuel) j s = (Ok tt, s') /\ mem s' = mem s /\ ctx s' = ctx s ++ new /\
    (forall m, exec new m = Some m) /\ length (tens s') = length (tens s) /\
    (forall i ni, tens s !! i = Some ni -> exists ni', tens s' !! i = Some ni' /\ same_mat ni ni' /\
       (builded (nmat ni) = true -> builded (nmat ni') = true) /\ (i <> j -> ni' = ni)).
Proof.
  intros Hn Hs. cbn [BuildGraph]. erewrite mbnd_ok by (unfold get_node; rewrite Hn; reflexivity).
  destruct (builded (nmat n)) eqn:Hb.
  - exists s, []. split; [reflexivity|]. split; [reflexivity|]. split; [rewrite app_nil_r; reflexivity|].
    split; [reflexivity|]. split; [reflexivity|]. intros i ni Hi. exists ni. split; [exact Hi|]. split; [repeat split|]. auto.
  - destruct Hs as [Hs|Hs]; [|congruence]. destruct n as [k mt]. cbn [nkind nmat] in *. subst k.
    erewrite mbnd_ok by (apply set_built_state; exact Hn). rewrite push_scalars.
    eexists _, (map OScalar (operands mt)). split; [reflexivity|]. split; [reflexivity|]. split; [reflexivity|].
    split; [intros m; apply exec_scalars|]. cbn [tens st_with]. split; [apply insert_length|].
    intros i ni Hi. destruct (decide (i = j)) as [->|Hne].
    + rewrite Hn in Hi. injection Hi as <-. eexists.
      split; [apply list_lookup_insert; eapply lookup_lt_Some; exact Hn|]. split; [repeat split|]. split; [reflexivity|congruence].
    + rewrite list_lookup_insert_ne by auto. exists ni. split; [exact Hi|]. split; [repeat split|]. auto.
Qed.

Lemma same_mat_trans a b c : same_mat a b -> same_mat b c -> same_mat a c.
Proof. intros (?&?&?&?) (?&?&?&?). repeat split; congruence. Qed.

Section Settled.
Variables (s : tst T) (f t : nat) (nf nt : node T).
Hypothesis Hf : tens s !! f = Some nf.
Hypothesis Ht : tens s !! t = Some nt.
Hypothesis Hsf : settled nf.
Hypothesis Hst : settled nt.

(** Everything up to the comparison of sizes. *)
Lemma transfer_start :
  exists s2 new, mem s2 = mem s /\ ctx s2 = ctx s ++ new /\ (forall m, exec new m = Some m) /\
    length (tens s2) = S (length (tens s)) /\
    (forall j n, tens s !! j = Some n -> exists n', tens s2 !! j = Some n' /\ same_mat n n') /\
    (exists nc, tens s2 !! length (tens s) = Some nc) /\
    Transfer f t s = build_copy (length (tens s)) f t s2.
Proof.
  set (c := length (tens s)).
  assert (Hfl : f < c) by (eapply lookup_lt_Some; exact Hf). assert (Htl : t < c) by (eapply lookup_lt_Some; exact Ht).
  set (s0 := MkSt (mem s) (tens s ++ [MkNode (KCopy f t) empty_mat]) (ctx s)).
  assert (Hc : tens s0 !! c = Some (MkNode (KCopy f t) empty_mat)).
  { cbn. rewrite lookup_app_r by (unfold c; lia). replace (c - length (tens s)) with 0 by (unfold c; lia). reflexivity. }
  destruct c as [|c'] eqn:Ec; [lia|]. rewrite <- Ec in *.
  unfold Transfer, Build. erewrite mbnd_ok by reflexivity. fold s0. change (length (tens s)) with c.
  set (sm := st_with (mem s0) (tens s0) (ctx s0) c (KCopy f t) (MkMat (shape empty_mat) (mulindex empty_mat) (operands empty_mat) true)).
  assert (Hm : forall j n, tens s !! j = Some n -> tens sm !! j = Some n).
  { intros j n Hj. assert (j < c) by (eapply lookup_lt_Some; exact Hj). cbn. rewrite list_lookup_insert_ne by lia.
    rewrite lookup_app_l by (unfold c in *; lia). exact Hj. }
  rewrite Ec. destruct (build_settled c' f sm nf (Hm _ _ Hf) Hsf) as (s1 & new1 & E1 & M1 & C1 & X1 & L1 & K1).
  destruct (K1 _ _ (Hm _ _ Ht)) as (nt1 & Ht1 & Hst1 & Hbt1 & _).
  destruct (build_settled c' t s1 nt1 Ht1 (same_mat_settled _ _ Hst1 Hbt1 Hst)) as (s2 & new2 & E2 & M2 & C2 & X2 & L2 & K2).
  exists s2, (new1 ++ new2). split; [rewrite M2, M1; reflexivity|]. split; [rewrite C2, C1, app_assoc; reflexivity|].
  split; [intros m; rewrite exec_app, X1; apply X2|]. split.
  { rewrite L2, L1. cbn. rewrite insert_length, app_length. cbn. lia. }
  split.
  { intros j n Hj. destruct (K1 _ _ (Hm _ _ Hj)) as (n1 & Hn1 & S1 & _). destruct (K2 _ _ Hn1) as (n2 & Hn2 & S2 & _).
    exists n2. split; [exact Hn2|]. eapply same_mat_trans; eassumption. }
  split.
  { apply lookup_lt_is_Some_2. rewrite L2, L1. cbn. rewrite insert_length, app_length. unfold c in *. cbn. lia. }
  rewrite <- Ec. rewrite <- Ec in E1, E2. cbn [BuildGraph]. erewrite mbnd_ok by (unfold get_node; rewrite Hc; reflexivity).
  cbn [nmat nkind builded empty_mat]. erewrite mbnd_ok by (apply set_built_state; exact Hc). fold sm.
  erewrite mbnd_ok by exact E1. erewrite mbnd_ok by exact E2. reflexivity.
Qed.

Theorem transfer_settled :
  Forall (valid (length (mem s))) (operands (nmat nf)) -> Forall (valid (length (mem s))) (operands (nmat nt)) ->
  length (operands (nmat nf)) = length (operands (nmat nt)) -> NoDup (operands (nmat nt)) ->
  read_first (operands (nmat nf)) (operands (nmat nt)) ->
  exists s' new, Transfer f t s = (Ok tt, s') /\ mem s' = mem s /\ ctx s' = ctx s ++ new /\
    (forall j n, tens s !! j = Some n -> exists n', tens s' !! j = Some n' /\ same_mat n n') /\
    forall m, length (mem s) <= length m -> exists m', exec new m = Some m' /\
      rds m' (operands (nmat nt)) = rds m (operands (nmat nf)) /\
      forall l, Some l ∉ operands (nmat nt) -> m' !! l = m !! l.
Proof.
  intros Vf Vt Hl Hnd Hrf. destruct transfer_start as (s2 & q & M & C & X & L & K & [nc Hc] & E).
  destruct (K _ _ Hf) as ([kf mf] & Hf2 & (_ & _ & _ & Of)). destruct (K _ _ Ht) as ([kt mt] & Ht2 & (_ & Sht & Mit & Ot)).
  cbn [nmat] in *. set (c := length (tens s)) in *.
  assert (Hcl : c < length (tens s2)) by (unfold c; lia).
  eexists _, (q ++ zip_with OSet (operands mt) (operands mf)). split; [|split; [|split; [|split]]].
  - rewrite E. unfold build_copy.
    erewrite mbnd_ok by (unfold get_mat; erewrite mbnd_ok by (unfold get_node; rewrite Hf2; reflexivity); reflexivity).
    erewrite mbnd_ok by (unfold get_mat; erewrite mbnd_ok by (unfold get_node; rewrite Ht2; reflexivity); reflexivity).
    cbn [nmat]. unfold msize, ulen. rewrite Of, Ot, Hl, N.eqb_refl. cbn [negb].
    erewrite mbnd_ok by (unfold set_shape, upd_mat; rewrite Hc; reflexivity).
    erewrite mbnd_ok by (unfold set_operands, upd_mat; cbn [tens]; rewrite list_lookup_insert by exact Hcl; reflexivity).
    rewrite push_sets by congruence. reflexivity.
  - exact M.
  - cbn [ctx]. rewrite C, <- app_assoc, Of, Ot. reflexivity.
  - cbn [tens]. intros j n Hj. destruct (K _ _ Hj) as (n' & Hn' & Sm). exists n'. split; [|exact Sm].
    assert (j <> c) by (apply lookup_lt_Some in Hj; unfold c; lia). rewrite !list_lookup_insert_ne by auto. exact Hn'.
  - intros m Hm. destruct (exec_sets (length (mem s)) (operands (nmat nt)) (operands (nmat nf)) m) as (m' & Hx & Hr & Hfr); try assumption; [congruence|].
    exists m'. rewrite Of, Ot. split; [rewrite exec_app, X; exact Hx|]. split; [exact Hr|exact Hfr].
Qed.

(** Different sizes are refused. *)
Theorem transfer_refused :
  length (operands (nmat nf)) <> length (operands (nmat nt)) ->
  exists s', Transfer f t s = (Err (ECopySize (length (operands (nmat nf))) (length (operands (nmat nt)))), s').
Proof.
  intros Hl. destruct transfer_start as (s2 & q & M & C & X & L & K & Hc & E).
  destruct (K _ _ Hf) as ([kf mf] & Hf2 & (_ & _ & _ & Of)). destruct (K _ _ Ht) as ([kt mt] & Ht2 & (_ & _ & _ & Ot)).
  cbn [nmat] in *. exists s2. rewrite E. unfold build_copy.
  erewrite mbnd_ok by (unfold get_mat; erewrite mbnd_ok by (unfold get_node; rewrite Hf2; reflexivity); reflexivity).
  erewrite mbnd_ok by (unfold get_mat; erewrite mbnd_ok by (unfold get_node; rewrite Ht2; reflexivity); reflexivity).
  cbn [nmat]. unfold msize, ulen. rewrite Of, Ot.
  destruct (N.eqb_spec (N.of_nat (length (operands (nmat nf)))) (N.of_nat (length (operands (nmat nt))))) as [E1|E1]; [lia|].
  reflexivity.
Qed.
End Settled.

Theorem fill_settled s t nt v :
  tens s !! t = Some nt -> settled nt -> Forall (valid (length (mem s))) (operands (nmat nt)) -> v < length (mem s) ->
  exists s' new, Fill t (Some v) s = (Ok tt, s') /\ mem s' = mem s /\ ctx s' = ctx s ++ new /\
    (forall j n, tens s !! j = Some n -> exists n', tens s' !! j = Some n' /\ same_mat n n') /\
    forall m x, length (mem s) <= length m -> m !! v = Some x -> exists m', exec new m = Some m' /\
      rds m' (operands (nmat nt)) = Some (replicate (length (operands (nmat nt))) x) /\
      forall l, Some l ∉ operands (nmat nt) -> m' !! l = m !! l.
Proof.
  intros Ht Hst Vt Hv. set (c := length (tens s)).
  assert (Htl : t < c) by (eapply lookup_lt_Some; exact Ht).
  set (s0 := MkSt (mem s) (tens s ++ [MkNode (KFill t (Some v)) empty_mat]) (ctx s)).
  assert (Hc : tens s0 !! c = Some (MkNode (KFill t (Some v)) empty_mat)).
  { cbn. rewrite lookup_app_r by (unfold c; lia). replace (c - length (tens s)) with 0 by (unfold c; lia). reflexivity. }
  destruct c as [|c'] eqn:Ec; [lia|]. rewrite <- Ec in *.
  set (sm := st_with (mem s0) (tens s0) (ctx s0) c (KFill t (Some v)) (MkMat (shape empty_mat) (mulindex empty_mat) (operands empty_mat) true)).
  assert (Hm : forall j n, tens s !! j = Some n -> tens sm !! j = Some n).
  { intros j n Hj. assert (j < c) by (eapply lookup_lt_Some; exact Hj). cbn. rewrite list_lookup_insert_ne by lia.
    rewrite lookup_app_l by (unfold c in *; lia). exact Hj. }
  destruct (build_settled c' t sm nt (Hm _ _ Ht) Hst) as (s2 & q & E1 & M & C & X & L & K).
  assert (Hcl : c < length (tens s2)).
  { rewrite L. cbn. rewrite insert_length, app_length. unfold c. cbn. lia. }
  destruct (lookup_lt_is_Some_2 (tens s2) c Hcl) as [nc Hnc].
  destruct (K _ _ (Hm _ _ Ht)) as ([kt mt] & Ht2 & (_ & _ & _ & Ot) & _). cbn [nmat] in Ot.
  eexists _, (q ++ map (fun d => OSet d (Some v)) (operands mt)). split; [|split; [|split; [|split]]].
  - unfold Fill, Build. erewrite mbnd_ok by reflexivity. fold s0. fold c. cbn [BuildGraph].
    erewrite mbnd_ok by (unfold get_node; rewrite Hc; reflexivity).
    cbn [nmat nkind builded empty_mat]. erewrite mbnd_ok by (apply set_built_state; exact Hc). fold sm.
    rewrite Ec at 1. erewrite mbnd_ok by exact E1. unfold build_fill.
    erewrite mbnd_ok by (unfold get_mat; erewrite mbnd_ok by (unfold get_node; rewrite Ht2; reflexivity); reflexivity). cbn [nmat].
    erewrite mbnd_ok by (unfold set_shape, upd_mat; rewrite Hnc; reflexivity).
    erewrite mbnd_ok by (unfold set_operands, upd_mat; cbn [tens]; rewrite list_lookup_insert by exact Hcl; reflexivity).
    rewrite push_fill. reflexivity.
  - exact M.
  - cbn [ctx]. rewrite C, <- app_assoc. reflexivity.
  - cbn [tens]. intros j n Hj. destruct (K _ _ (Hm _ _ Hj)) as (n' & Hn' & Sm & _). exists n'. split; [|exact Sm].
    assert (j <> c) by (apply lookup_lt_Some in Hj; unfold c; lia). rewrite !list_lookup_insert_ne by auto. exact Hn'.
  - intros m x Hlm Hx. destruct (exec_fill (length (mem s)) v (operands (nmat nt)) m x Vt Hlm Hx) as (m' & Hxx & Hr & _ & Hfr).
    exists m'. rewrite Ot. split; [rewrite exec_app, X; exact Hxx|]. split; [exact Hr|exact Hfr].
Qed.

(** ** Transfer of an expression that is compiled on the way *)
Lemma denotes_grow n tns x id e : denotes n tns id e -> denotes n (tns ++ [x]) id e.
Proof.
  intros Hd. induction Hd;
    match goal with Hl : tns !! id = Some _ |- _ =>
      pose proof (lookup_app_l_Some _ [x] _ _ Hl) as Hl' end; econstructor; eassumption.
Qed.
Lemma below_grow n tns x id e j : denotes n tns id e -> below (tns ++ [x]) id j -> below tns id j.
Proof.
  intros Hd Hb. revert e Hd. induction Hb as [id|id nn c j Hn Hc Hb IH]; intros e Hd; [constructor|].
  assert (Hn' : tns !! id = Some nn).
  { rewrite lookup_app_l in Hn; [exact Hn|]. inversion Hd; subst; eapply lookup_lt_Some; eassumption. }
  eapply B_step; [exact Hn'|exact Hc|].
  inversion Hd; subst;
    match goal with Hl : tns !! id = Some _ |- _ => rewrite Hn' in Hl; injection Hl as -> end;
    cbn [nkind children] in Hc;
    repeat match goal with
    | Hc : _ ∈ [] |- _ => apply elem_of_nil in Hc; destruct Hc
    | Hc : _ ∈ _ :: _ |- _ => apply elem_of_cons in Hc as [->|Hc]
    end; eauto.
Qed.

Lemma sets_dst l ds as_ : dst_in l (zip_with (@OSet T) ds as_) -> Some l ∈ ds.
Proof.
  intros (o & Ho & Hd). apply elem_of_lookup_zip_with in Ho as (i & d & a & -> & Hdd & _).
  cbn in Hd. injection Hd as ->. eapply elem_of_list_lookup_2. exact Hdd.
Qed.

Theorem transfer_expr s f e sh t mt :
  denotes (length (mem s)) (tens s) f e -> uncompiled (tens s) f ->
  shape_of (leafsh (tens s)) e = Some sh -> no_crossing (leafsh (tens s)) e ->
  tens s !! t = Some (MkNode KMat mt) -> wf_mat (length (mem s)) mt -> NoDup (operands mt) ->
  N.to_nat (prodN sh) = length (operands mt) ->
  exists s' nf, (new_ctx ;~ Transfer f t) s = (Ok tt, s') /\ (exists ext, mem s' = mem s ++ ext) /\
    tens s' !! f = Some nf /\
    (read_first (operands (nmat nf)) (operands mt) ->
     forall m, history (MkGraph (ctx s')) (length (mem s)) (mem s') m ->
      match eval (leafv (tens s) m) (fun x => m !! x) e with
      | Some v => exists m', exec (ctx s') m = Some m' /\ rds m' (operands mt) = Some (vdata v) /\
          (forall l, l < length (mem s) -> Some l ∉ operands mt -> m' !! l = m !! l)
      | None => exec (ctx s') m = None
      end).
Proof.
  intros Hd Hun Hsh Hnc Ht Hwt Hnd Hsz.
  set (c := length (tens s)). set (nc := MkNode (KCopy f t) empty_mat : node T). set (n0 := length (mem s)) in *.
  assert (Hfl : f < c) by (inversion Hd; subst; eapply lookup_lt_Some; eassumption).
  assert (Htl : t < c) by (eapply lookup_lt_Some; exact Ht).
  set (tns0 := tens s ++ [nc]).
  assert (Hc : tns0 !! c = Some nc).
  { unfold tns0. rewrite lookup_app_r by (unfold c; lia). replace (c - length (tens s)) with 0 by (unfold c; lia). reflexivity. }
  assert (Hcf : KCopy f t <> (KMat : kind T)) by discriminate.
  pose proof (denotes_grow _ _ nc _ _ Hd) as Hd0. fold tns0 in Hd0.
  assert (Hun0 : uncompiled tns0 f).
  { intros j n Hb Hn Hlf. pose proof (below_le _ _ _ _ Hd0 _ Hb). apply (Hun j n); [eapply below_grow; eassumption| |assumption].
    unfold tns0 in Hn. rewrite lookup_app_l in Hn by (unfold c in *; lia). exact Hn. }
  rewrite <- (shape_of_ext _ _ _ (leafsh_new s (KCopy f t) empty_mat Hcf)) in Hsh.
  apply (no_crossing_ext _ _ _ (fun j => eq_sym (leafsh_new s (KCopy f t) empty_mat Hcf j))) in Hnc.
  fold nc in Hsh, Hnc. fold tns0 in Hsh, Hnc.
  set (s1 := MkSt (mem s) tns0 (@nil (op T))).
  pose proof (Inv_start (MkSt (mem s) tns0 []) f Hun0) as HI0. cbn [mem tens] in HI0. fold n0 in HI0. fold s1 in HI0.
  set (sm := st_with (mem s1) (tens s1) (ctx s1) c (KCopy f t) (MkMat (shape empty_mat) (mulindex empty_mat) (operands empty_mat) true)).
  destruct (Inv_mark n0 tns0 s1 sm [] _ c nc HI0 Hc eq_refl eq_refl) as (HIm & _ & _).
  assert (Hcp : exists c', c = S c') by (exists (pred c); lia). destruct Hcp as [c' Ec].
  destruct (build_ok n0 tns0 (S c') f sm [] _ e sh ltac:(lia) HIm Hd0 Hsh Hnc) as (s2 & P & E2 & new & G & K & HI & (nf & Hnf & Hbf & Hmf) & Hpr).
  { intros j Hj [HX| ->]; [apply HX; exact Hj|]. pose proof (below_le _ _ _ _ Hd0 _ Hj). lia. }
  (* the target *)
  assert (Ht0 : tns0 !! t = Some (MkNode KMat mt)) by (apply lookup_app_l_Some; exact Ht).
  destruct (kind_of _ _ _ _ _ _ _ _ HI Ht0) as (mt2 & Ht2 & _ & (Shm & Mim & Opm)).
  destruct (build_settled c' t s2 (MkNode KMat mt2) Ht2 (or_introl eq_refl)) as (s3 & q & E3 & M3 & C3 & X3 & L3 & K3).
  destruct (K3 _ _ Ht2) as ([kt3 mt3] & Ht3 & (_ & _ & _ & Ot3) & _). cbn [nmat] in Ot3.
  destruct (K3 _ _ Hnf) as ([kf3 mf3] & Hf3 & (_ & _ & _ & Of3) & _). cbn [nmat] in Of3.
  assert (Hlen2 : length (tens s2) = length tns0).
  { pose proof (inv_skel _ _ _ _ _ HI) as Es. apply (f_equal length) in Es. rewrite !map_length in Es. exact Es. }
  assert (Hcl : c < length (tens s3)).
  { rewrite L3, Hlen2. unfold tns0. rewrite app_length. unfold c. cbn. lia. }
  destruct (lookup_lt_is_Some_2 (tens s3) c Hcl) as [nc3 Hnc3].
  assert (Hlf : length (operands (nmat nf)) = length (operands mt)).
  { destruct Hmf as (Hshf & (_ & _ & Hlo & _) & _). rewrite Hlo. rewrite Hsh in Hshf. injection Hshf as <-. exact Hsz. }
  eexists _, (MkNode kf3 mf3). split; [|split; [|split]].
  - erewrite mbnd_ok by reflexivity. unfold Transfer, Build. erewrite mbnd_ok by reflexivity. cbn [mem tens ctx].
    fold nc. fold tns0. fold c. cbn [BuildGraph].
    erewrite mbnd_ok by (unfold get_node; cbn [tens]; rewrite Hc; reflexivity).
    cbn [nmat nkind builded empty_mat nc].
    erewrite mbnd_ok by (apply set_built_state; exact Hc).
    change (st_with _ _ _ _ _ _) with sm. rewrite <- Ec in E2, E3. erewrite mbnd_ok by exact E2. erewrite mbnd_ok by exact E3.
    unfold build_copy.
    erewrite mbnd_ok by (unfold get_mat; erewrite mbnd_ok by (unfold get_node; rewrite Hf3; reflexivity); reflexivity).
    erewrite mbnd_ok by (unfold get_mat; erewrite mbnd_ok by (unfold get_node; rewrite Ht3; reflexivity); reflexivity).
    cbn [nmat]. unfold msize, ulen. rewrite Of3, Ot3. cbn [nmat]. rewrite Opm, Hlf, N.eqb_refl. cbn [negb].
    erewrite mbnd_ok by (unfold set_shape, upd_mat; rewrite Hnc3; reflexivity).
    erewrite mbnd_ok by (unfold set_operands, upd_mat; cbn [tens]; rewrite list_lookup_insert by exact Hcl; reflexivity).
    rewrite push_sets by congruence. reflexivity.
  - cbn [mem]. rewrite M3. apply G.
  - cbn [tens]. rewrite !list_lookup_insert_ne by lia. exact Hf3.
  - cbn [nmat mem ctx]. rewrite Of3, M3, C3. intros Hrf m Hh.
    set (sets := zip_with OSet (operands mt) (operands (nmat nf))) in *.
    assert (Hpads : length m = length (mem s2) /\ zeroed P m).
    { pose proof (inv_pad _ _ _ _ _ HI) as Hp.
      assert (Hqd : forall l, ~ dst_in l q).
      { clear - E3 Ht2 C3. cbn [BuildGraph] in E3. erewrite mbnd_ok in E3 by (unfold get_node; rewrite Ht2; reflexivity). cbn [nmat nkind] in E3.
        destruct (builded mt2).
        - injection E3 as <-. symmetry in C3. rewrite <- (app_nil_r (ctx s2)) in C3 at 2. apply app_inv_head in C3 as ->. intros l. apply dst_in_nil.
        - erewrite mbnd_ok in E3 by (apply set_built_state; exact Ht2). rewrite push_scalars in E3. injection E3 as <-.
          cbn [ctx st_with] in C3. apply app_inv_head in C3 as <-. intros l. apply dst_scalars. }
      induction Hh as [|m l x Hh [IHl IHz] Hl|m m' Hh [IHl IHz] Hx].
      - split; [reflexivity|]. eapply Forall_impl; [exact Hp|]. intros l (_ & Hz & _). exact Hz.
      - split; [rewrite insert_length; exact IHl|]. unfold zeroed in *. rewrite Forall_forall in IHz |- *.
        intros l' Hl'. rewrite list_lookup_insert_ne; [auto|]. intros <-. rewrite Forall_forall in Hp. destruct (Hp _ Hl') as (Hge & _). lia.
      - unfold Exec in Hx. cbn [g_ops] in Hx. split; [rewrite (exec_length _ _ _ Hx); exact IHl|].
        unfold zeroed in *. rewrite Forall_forall in IHz |- *. intros l' Hl'. rewrite <- (IHz _ Hl').
        eapply exec_frame; [exact Hx|]. rewrite Forall_forall in Hp. destruct (Hp _ Hl') as (Hge & _ & Hnd').
        rewrite !dst_in_app. intros [[Hdl|Hdl]|Hdl]; [auto|eapply Hqd; exact Hdl|]. apply sets_dst in Hdl.
        destruct Hwt as (_ & _ & _ & Hv). rewrite Forall_forall in Hv. destruct (Hv _ Hdl) as (l0 & [= <-] & Hl0). lia. }
    destruct Hpads as [Hlm Hz].
    rewrite <- (eval_ext _ _ _ _ (leafv_new s m (KCopy f t) empty_mat Hcf)). fold nc. fold tns0.
    assert (Hcm : ctx s2 = new) by (rewrite (gr_ctx _ _ _ _ _ G); reflexivity).
    assert (Hn0 : n0 <= length (mem s2)) by apply HI.
    assert (Hex : forall m1, exec (ctx s2) m = Some m1 -> exists m', exec ((ctx s2 ++ q) ++ sets) m = Some m' /\
       rds m' (operands mt) = rds m1 (operands (nmat nf)) /\ forall l, Some l ∉ operands mt -> m' !! l = m1 !! l).
    { intros m1 Hx. pose proof (exec_length _ _ _ Hx) as Hl1.
      destruct (exec_sets (length (mem s2)) (operands mt) (operands (nmat nf)) m1) as (m' & Hxs & Hr & Hfr); try assumption.
      - eapply Forall_impl; [apply Hwt|]. intros p (l & -> & Hl). exists l. split; [reflexivity|lia].
      - apply Hmf.
      - lia.
      - congruence.
      - exists m'. split; [|split; assumption]. rewrite !exec_app, Hx. cbn [mbind option_bind]. rewrite X3. exact Hxs. }
    destruct (eval (leafv tns0 m) (fun x => m !! x) e) as [v|] eqn:Ev.
    + destruct (Hpr m m v) as [m1 Hm1]; [lia|assumption|reflexivity|exact Ev|]. rewrite <- Hcm in Hm1.
      destruct (Hex _ Hm1) as (m' & Hx & Hr & Hfr). exists m'. split; [exact Hx|].
      destruct Hmf as (_ & _ & Hmok). destruct (Hmok m m1 ltac:(lia) Hz Hm1) as (v' & Hv' & Hmv).
      unfold ev in Hv'. rewrite Ev in Hv'. injection Hv' as <-. unfold mval in Hmv.
      destruct (rds m1 (operands (nmat nf))) as [d|] eqn:Ed; [|discriminate]. injection Hmv as <-. split; [rewrite Hr; reflexivity|].
      intros l Hl Hnin. rewrite (Hfr l Hnin). eapply exec_low; eassumption.
    + destruct (exec ((ctx s2 ++ q) ++ sets) m) as [m'|] eqn:Ex; [|reflexivity]. exfalso.
      rewrite !exec_app in Ex. destruct (exec (ctx s2) m) as [m1|] eqn:Ex1; [|discriminate].
      destruct Hmf as (_ & _ & Hmok). destruct (Hmok m m1 ltac:(lia) Hz Ex1) as (v' & Hv' & _). unfold ev in Hv'. congruence.
Qed.

(** ** Flatten of a plain tensor *)
Theorem flatten_plain s t mt d :
  tens s !! t = Some (MkNode KMat mt) -> wf_mat (length (mem s)) mt -> mval (mem s) mt = Some (V (shape mt) d) ->
  exists id s1 g s2 s3 n, Flatten t s = (Ok id, s1) /\ NewGraph id s1 = (Ok g, s2) /\ ExecM g s2 = (Ok tt, s3) /\
    GetData id s3 = (Ok d, s3) /\ tens s3 !! id = Some n /\ shape (nmat n) = [N.of_nat (length d)].
Proof.
  intros Ht Hwf Hv. pose proof Hwf as (Hfit & _ & Hlo & _).
  assert (Hld : length d = length (operands mt)).
  { unfold mval in Hv. destruct (rds (mem s) (operands mt)) as [d'|] eqn:E; [|discriminate]. injection Hv as ->. eapply rds_length. exact E. }
  assert (Hh : holds s t (V (shape mt) d)) by (exists (MkNode KMat mt); auto).
  set (n := N.of_nat (length d)).
  assert (Hn : n = prodN (shape mt)) by (unfold n; rewrite Hld, Hlo; lia).
  assert (Hfn : fits [n]).
  { destruct Hfit as [_ Hf]. split; [constructor; [lia|constructor]|]. cbn. lia. }
  assert (Hlf : leafsh (tens s) t = Some (shape mt)) by (unfold leafsh; rewrite Ht; reflexivity).
  assert (Hlv : leafv (tens s) (mem s) t = Some (V (shape mt) d)) by (unfold leafv; rewrite Ht; exact Hv).
  destruct (graph_side s (PReshape t [n]) [n] (V [n] d)) as (id & s1 & g & s2 & s3 & nn & H1 & H2 & H3 & H4 & H5 & H6 & _).
  - intros p Hp. cbn in Hp. apply elem_of_list_singleton in Hp as ->. eauto.
  - cbn. intros v (n' & Hn' & _ & Hv'). rewrite Ht in Hn'. injection Hn' as <-. cbn [nmat] in Hv'. rewrite Hv in Hv'. injection Hv' as <-. cbn [vsh]. rewrite N.mul_1_r. exact Hn.
  - cbn. rewrite Hlf. cbn. assert (Ef : fit (shape mt) = Some (shape mt)) by (apply fit_Some; auto). rewrite Ef. cbn. apply fit_Some. auto.
  - cbn. auto.
  - cbn. rewrite Hlv. cbn. unfold v_reshape. cbn. do 2 f_equal.
    replace (N.to_nat (n * 1)) with (length d) by (unfold n; lia). rewrite take_ge, Nat.sub_diag, app_nil_r by lia. reflexivity.
  - exists id, s1, g, s2, s3, nn. split; [|repeat (split; [assumption|]); exact H6].
    unfold Flatten. erewrite mbnd_ok by (unfold get_mat; erewrite mbnd_ok by (unfold get_node; rewrite Ht; reflexivity); reflexivity).
    cbn [nmat]. unfold msize, ulen. rewrite <- Hld. exact H1.
Qed.
End Transfer.
