(** * TrnDst: every scalar of a product with a scalar is computed *)
From Verif Require Import Base Num ModelTools ModelOps ModelTensor ModelGraph ModelLayer Spec Denote FwdSpec
  IndexProofs ExecProofs TensorFacts AccessProofs BuildProofs BuildFrame CompileProofs Agree FwdMask FwdBuild FwdSeg FwdOps FwdPool NetBuild NetChain FwdBody FwdExpr FwdConv FwdConv2 FwdAct
  BwdPost BwdLoop TrnSpec TrnTri TrnOwn TransferProofs TrnExpr.
From Coq Require Import Lia.

Section TrnDst.
Context {T : Type} `{Num T}.
Implicit Types (s : tst T) (m : list T).

Definition dst_f (f : nat -> ptr -> TM T (op T)) : Prop := forall i o s x s', f i o s = (Ok x, s') -> op_dst x = Some o.
Lemma dst_loop id f r : pure_f f -> dst_f f -> forall j s s',
  mfor (seq j r) (fun i => o <~ alloc nzero ; set_operand id i o ;~ x <~ f i o ; push x) s = (Ok tt, s') ->
  exists new, ctx s' = ctx s ++ new /\ forall l, length (mem s) <= l < length (mem s) + r -> dst_in l new.
Proof using Type.
  intros Hf Hd. induction r as [|r IH]; intros j s s' E.
  - injection E as <-. exists []. split; [rewrite app_nil_r; reflexivity|]. intros l Hl. lia.
  - cbn [seq mfor] in E. apply bnd_ok in E as (u & s1 & E1 & E2). apply bnd_ok in E1 as (o & s2 & A1 & E1). injection A1 as <- <-.
    apply bnd_ok in E1 as (u2 & s3 & A2 & E1). apply bnd_ok in E1 as (x & s4 & A3 & E1). pose proof (Hd _ _ _ _ _ A3) as Hx. apply Hf in A3 as ->. injection E1 as <- <-.
    assert (Hs3 : mem s3 = mem s ++ [nzero] /\ ctx s3 = ctx s).
    { unfold set_operand in A2. apply bnd_ok in A2 as (mt & s5 & A3 & A2). unfold get_mat, get_node in A3. apply bnd_ok in A3 as (nd & s6 & A4 & A3). cbn [tens] in A4. destruct (tens s !! id) as [nd'|] eqn:En; [|discriminate]. injection A4 as <- <-. injection A3 as <- <-.
      apply bnd_ok in A2 as (ops & s5 & A3 & A2). unfold updM in A3. case_decide as Hlt; [|discriminate]. injection A3 as <- <-.
      unfold set_operands, upd_mat in A2. cbn [tens mem ctx] in A2. rewrite En in A2. injection A2 as <- <-. split; reflexivity. }
    destruct Hs3 as [M3 C3]. destruct (IH _ _ _ E2) as (new & Ec & Hl). cbn [ctx mem] in Ec, Hl. rewrite C3 in Ec. rewrite M3, app_length in Hl. cbn [length] in Hl.
    exists (x :: new). split; [rewrite Ec, <- app_assoc; reflexivity|]. intros l Hlt. apply dst_in_cons. destruct (decide (l = length (mem s))) as [->|Hne]; [left; exact Hx|right; apply Hl; lia].
Qed.
Lemma scal_dst s t n sc o s' : tens s !! t = Some n -> settled n -> t < length (tens s) ->
  Build (length (tens s)) (add s (KOpScalar t (Some sc) o) empty_mat) = (Ok tt, s') ->
  exists new, ctx s' = ctx s ++ new /\ forall n', tens s' !! length (tens s) = Some n' -> forall l, Some l ∈ operands (nmat n') -> dst_in l new.
Proof using Type.
  intros Hn Hset Hlt E. set (id := length (tens s)) in *. set (s1 := add s (KOpScalar t (Some sc) o) empty_mat) in *.
  assert (Hid : tens s1 !! id = Some (MkNode (KOpScalar t (Some sc) o) empty_mat)) by apply add_last. assert (Hil : id < length (tens s1)) by (eapply lookup_lt_Some; exact Hid).
  unfold Build in E. cbn [BuildGraph] in E. apply bnd_ok in E as (nd & s2 & A & E). unfold get_node in A. rewrite Hid in A. injection A as <- <-. cbn [nmat builded empty_mat nkind] in E.
  apply bnd_ok in E as (u & s2 & A & E). unfold set_built, upd_mat in A. rewrite Hid in A. injection A as <- <-.
  apply bnd_ok in E as (u & s3 & A & E).
  set (s2 := {| mem := _ |}) in A.
  assert (H2 : tens s2 !! t = Some n). { cbn [s2 tens]. rewrite list_lookup_insert_ne by lia. cbn [s1 add tens]. rewrite lookup_app_l by exact Hlt. exact Hn. }
  destruct (build_settled (pred id) t s2 n H2 Hset) as (s3' & new1 & E3 & M3 & C3 & _ & L3 & K3). replace (S (pred id)) with id in E3 by lia. rewrite E3 in A. injection A as <- <-.
  assert (Hid3 : exists n3, tens s3' !! id = Some n3). { apply lookup_lt_is_Some_2. rewrite L3. cbn [s2 tens]. rewrite insert_length. exact Hil. }
  destruct Hid3 as (n3 & Hn3).
  unfold build_opscalar in E. apply bnd_ok in E as (mt & s4 & A & E). apply (sat_get_mat still still_po) in A as ->.
  unfold set_shape, make_operands, set_operands, upd_mat in E. apply bnd_ok in E as (u0 & s4 & A & E). rewrite Hn3 in A. injection A as <- <-.
  assert (Hl3 : id < length (tens s3')) by (eapply lookup_lt_Some; exact Hn3).
  apply bnd_ok in E as (u0 & s4 & A & E). cbn [tens mem ctx] in A. rewrite list_lookup_insert in A by exact Hl3. injection A as <- <-. rewrite list_insert_insert in E.
  unfold emit_each, range in E.
  assert (Hpf : pure_f ((fun i d => x <~ atM (operands mt) i ; mret (op2_of o d x (Some sc))) : nat -> ptr -> TM T (op T))).
  { intros i d s5 r s6 Ef. unfold mbnd, Base.mret, atM, mlift in Ef. destruct (at_or_panic (operands mt) i); congruence. }
  assert (Hdf : dst_f ((fun i d => x <~ atM (operands mt) i ; mret (op2_of o d x (Some sc))) : nat -> ptr -> TM T (op T))).
  { intros i d s5 x s6 Ef. apply bnd_ok in Ef as (y & s7 & _ & Ef). injection Ef as <- _. destruct o; reflexivity. }
  destruct (dst_loop _ _ _ Hpf Hdf _ _ _ E) as (new2 & C4 & Hd2). eapply (emit_loop _ _ _ Hpf 0) in E as X; [|exact (list_lookup_insert _ _ _ Hl3)|cbn; apply replicate_length].
  destruct X as (_ & _ & _ & n' & Hn' & _ & O). cbn [mem ctx nmat operands take app] in *.
  exists (new1 ++ new2). split; [rewrite C4, C3; cbn [s2 ctx s1 add]; rewrite app_assoc; reflexivity|]. intros n'' Hn'' l Hl. assert (n'' = n') as -> by congruence. rewrite O in Hl. apply elem_of_list_fmap in Hl as (x & Ex & Hx). injection Ex as <-. apply elem_of_seq in Hx.
  apply dst_in_app. right. apply Hd2. lia.
Qed.

(** As [tri_build], the constants being none of the scalars that are computed. *)
Lemma scal_build_own s t n sh sc o : node_ok s t n sh -> sc < length (mem s) ->
  exists s' W C n', Build (length (tens s)) (add s (KOpScalar t (Some sc) o) empty_mat) = (Ok tt, s') /\
    tri s s' W C (fun m => forall v x, mval m (nmat n) = Some v -> m !! sc = Some x -> v_scal (bop o) v x <> None)
      (fun m m' => exists v x, mval m (nmat n) = Some v /\ m !! sc = Some x /\ mval m' (nmat n') = v_scal (bop o) v x) /\
    (forall l, W l -> length (mem s) <= l) /\ length (tens s') = S (length (tens s)) /\
    node_ok s' (length (tens s)) n' sh /\ owned (length (mem s)) (length (mem s')) n' /\ forall c0 : nat * T, c0 ∈ C -> Some (fst c0) ∉ operands (nmat n').
Proof using Type.
  intros Hn Hsc. pose proof (node_ok_den _ _ _ _ Hn) as D0.
  destruct (scal_node s t sc o _ _ D0 Hsc) as (t' & E1 & _ & _ & _ & D & _). injection E1 as <-.
  set (s1 := add s (KOpScalar t (Some sc) o) empty_mat) in *. fold s1 in D.
  destruct (scal_build s t n sh sc o Hn Hsc) as (s' & W0 & C0 & n' & E & (new0 & S0 & _) & _ & Hl & Hn' & Ho). fold s1 in E.
  destruct D as [D U S N]. destruct (build_expr s1 _ _ sh D U S N) as (s'' & new & pads & E' & B & Hc & Hp & _). assert (s'' = s') as -> by (rewrite E in E'; congruence). clear E'.
  pose proof Hn as (Ht & Hset & _). destruct (scal_dst s t n sc o s' Ht Hset (lookup_lt_Some _ _ _ Ht) E) as (new' & Ec & Hd). pose proof B as [B1 B2 B3 B4 B5 B6].
  assert (new' = new) as -> by (rewrite B2 in Ec; cbn [s1 add ctx] in Ec; apply app_inv_head in Ec; auto).
  exists s', (fun l => dst_in l new), (map (fun l => (l, nzero)) pads), n'. split; [exact E|].
  assert (Hev : forall m, evals s1 m (EScal (bop o) (ELeaf t) sc) = v ← mval m (nmat n); y ← m !! sc; v_scal (bop o) v y).
  { intros m. rewrite <- (node_ok_eval _ _ _ _ m Hn). unfold evals. rewrite (eval_grow s s1 _ _ (EScal (bop o) (ELeaf t) sc) m _ eq_refl eq_refl) by discriminate. reflexivity. }
  assert (SG : seg (fun l => dst_in l new) s s' new (map (fun l => (l, nzero)) pads)).
  { split; try assumption.
    - intros m m' l _ Hx Hy. eapply exec_frame; eassumption.
    - rewrite Forall_map. exact B4.
    - intros l Hy. apply B3 in Hy. lia.
    - apply (sg_keep _ _ _ _ _ S0). }
  split; [|split; [intros l Hy; apply B3 in Hy; exact (proj1 Hy)|split; [exact Hl|split; [exact Hn'|split; [exact Ho|]]]]].
  - exists new. split; [exact SG|]. intros m Hm HC HP. apply zeroed_consts in HC. pose proof (sg_len _ _ _ _ _ SG) as Lg.
    destruct (node_ok_total _ _ _ _ m Hn) as (v & Ev & _); [lia|]. destruct (lookup_lt_is_Some_2 m sc) as [x Ex]; [lia|].
    specialize (Hev m). rewrite Ev, Ex in Hev. cbn [mbind option_bind] in Hev. destruct (v_scal (bop o) v x) as [r|] eqn:Er; [|exfalso; exact (HP v x Ev Ex Er)].
    destruct (Hp m r Hm HC Hev) as (m' & Hx). exists m'. split; [exact Hx|]. split; [split; [eapply exec_length; exact Hx|intros l Hl'; eapply exec_frame; eassumption]|]. exists v, x. split; [exact Ev|]. split; [exact Ex|].
    destruct Hc as (n2 & Hn2 & _ & _ & _ & Hv). assert (n2 = n') as -> by (destruct Hn' as (Y & _); congruence). destruct (Hv m m' Hm HC Hx) as (r' & Er' & Hr'). rewrite Er. rewrite Hr'. unfold evals in Hev. congruence.
  - intros c0 Hc0 Hin. apply elem_of_list_fmap in Hc0 as (l & -> & Hlp). cbn [fst] in Hin. rewrite Forall_forall in B4. apply (B4 _ Hlp). apply (Hd n'); [apply Hn'|exact Hin].
Qed.
End TrnDst.
