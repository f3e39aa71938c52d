(** * TrnOwn: computed tensors have scalars of their own *)
From Verif Require Import Base Num ModelTools ModelOps ModelTensor ModelGraph Spec Denote ExecProofs TensorFacts BuildFrame AccessProofs.
From Coq Require Import Lia.

Section TrnOwn.
Context {T : Type} `{Num T}.
Implicit Types (s : tst T).

Definition opk (k : kind T) : Prop := match k with KActivate _ _ | KOp2 _ _ _ | KOpScalar _ _ _ | KTensorMath _ _ => True | _ => False end.
(** The scalars of a node are consecutive and allocated between [lo] and [hi]. *)
Definition owned (lo hi : nat) (n : node T) : Prop := exists a k, operands (nmat n) = map Some (seq a k) /\ lo <= a /\ a + k <= hi.
Lemma owned_NoDup lo hi n : owned lo hi n -> NoDup (operands (nmat n)).
Proof using Type. intros (a & k & -> & _). apply NoDup_fmap_2; [intros x y E; congruence|apply NoDup_seq]. Qed.
Lemma owned_in lo hi n l : owned lo hi n -> Some l ∈ operands (nmat n) -> lo <= l < hi.
Proof using Type. intros (a & k & -> & H1 & H2) Hl. apply elem_of_list_fmap in Hl as (x & E & Hx). injection E as <-. apply elem_of_seq in Hx. lia. Qed.
Lemma owned_mono lo hi lo' hi' n : owned lo hi n -> lo' <= lo -> hi <= hi' -> owned lo' hi' n.
Proof using Type. intros (a & k & E & H1 & H2) H3 H4. exists a, k. split; [exact E|]. lia. Qed.

Record grows s s' : Prop := {
  gr_len : length (mem s) <= length (mem s');
  gr_built : forall j n, tens s !! j = Some n -> builded (nmat n) = true -> tens s' !! j = Some n;
  gr_new : forall j n, tens s !! j = Some n -> builded (nmat n) = false -> opk (nkind n) ->
    exists n', tens s' !! j = Some n' /\ (n' = n \/ builded (nmat n') = true /\ owned (length (mem s)) (length (mem s')) n');
}.
Lemma grows_refl s : grows s s.
Proof using Type. split; auto. intros j n Hn _ _. exists n. auto. Qed.
Lemma grows_trans s1 s2 s3 : grows s1 s2 -> grows s2 s3 -> grows s1 s3.
Proof using Type.
  intros [a1 a2 a3] [b1 b2 b3]. split; [lia|auto|]. intros j n Hn Hb Hk. destruct (a3 _ _ Hn Hb Hk) as (n' & Hn' & [->|[Hb' Ho]]).
  - destruct (b3 _ _ Hn' Hb Hk) as (n2 & Hn2 & [->|[Hb2 Ho2]]); exists n2 || exists n; (split; [exact Hn2|]); [left; reflexivity|right].
    split; [exact Hb2|]. eapply owned_mono; [exact Ho2|lia|lia].
  - exists n'. split; [auto|]. right. split; [exact Hb'|]. eapply owned_mono; [exact Ho|lia|lia].
Qed.

Lemma bnd_ok {A B} (c : TM T A) (k : A -> TM T B) s b s' : mbnd c k s = (Ok b, s') -> exists a s1, c s = (Ok a, s1) /\ k a s1 = (Ok b, s').
Proof using Type. unfold mbnd. destruct (c s) as [[a| | |] s1] eqn:E; intros E2; try discriminate. eauto. Qed.
Definition pure_f (f : nat -> ptr -> TM T (op T)) : Prop := forall i o s r s', f i o s = (r, s') -> s' = s.
Lemma emit_loop id f r : pure_f f -> forall j s s' n, tens s !! id = Some n -> length (operands (nmat n)) = j + r ->
  mfor (seq j r) (fun i => o <~ alloc nzero ; set_operand id i o ;~ x <~ f i o ; push x) s = (Ok tt, s') ->
  length (mem s') = length (mem s) + r /\ length (tens s') = length (tens s) /\ (forall i, i <> id -> tens s' !! i = tens s !! i) /\
  exists n', tens s' !! id = Some n' /\ builded (nmat n') = builded (nmat n) /\ operands (nmat n') = take j (operands (nmat n)) ++ map Some (seq (length (mem s)) r).
Proof using Type.
  intros Hf. induction r as [|r IH]; intros j s s' n Hn Hl E.
  - injection E as <-. split; [lia|]. split; [reflexivity|]. split; [auto|]. exists n. split; [exact Hn|]. split; [reflexivity|]. cbn. rewrite app_nil_r, take_ge by lia. reflexivity.
  - cbn [seq mfor] in E. apply bnd_ok in E as (u & s1 & E1 & E2). apply bnd_ok in E1 as (o & s2 & A1 & E1). injection A1 as <- <-.
    apply bnd_ok in E1 as (u2 & s3 & A2 & E1). apply bnd_ok in E1 as (x & s4 & A3 & E1). apply Hf in A3 as ->. injection E1 as <- <-.
    unfold set_operand in A2. cbn [tens mem ctx] in A2. rewrite (mbnd_ok _ _ _ _ _ (get_mat_ok _ _ _ Hn)) in A2 || (erewrite mbnd_ok in A2 by (apply get_mat_ok; cbn [tens]; exact Hn)).
    apply bnd_ok in A2 as (ops & s5 & A3 & A2). unfold updM in A3. case_decide as Hlt; [|discriminate]. injection A3 as <- <-.
    unfold set_operands, upd_mat in A2. cbn [tens mem ctx] in A2. rewrite Hn in A2. injection A2 as <- <-. cbn [mem tens ctx] in E2.
    assert (Hid : id < length (tens s)) by (eapply lookup_lt_Some; exact Hn).
    eapply IH in E2 as X; [|exact (list_lookup_insert _ _ _ Hid)|cbn [nmat operands]; rewrite insert_length; lia].
    destruct X as (L1 & L2 & F & n' & Hn' & B & O).
    cbn [mem tens nmat operands builded] in *. rewrite app_length in L1, O. rewrite insert_length in L2. cbn [length] in *.
    split; [lia|]. split; [exact L2|]. split; [intros i Hi; rewrite F by exact Hi; apply list_lookup_insert_ne; auto|].
    exists n'. split; [exact Hn'|]. split; [exact B|]. rewrite O. cbn [seq map]. replace (length (mem s) + 1) with (S (length (mem s))) by lia.
    rewrite (take_S_r _ _ (Some (length (mem s)))) by (apply list_lookup_insert; lia). rewrite take_insert by lia. rewrite <- app_assoc. reflexivity.
Qed.
Lemma emit_own id n0 f sh mul s s' n : pure_f f -> tens s !! id = Some n ->
  (set_shape id sh mul ;~ make_operands id n0 ;~ emit_each id n0 f) s = (Ok tt, s') ->
  length (mem s) <= length (mem s') /\ (forall i, i <> id -> tens s' !! i = tens s !! i) /\
  exists n', tens s' !! id = Some n' /\ builded (nmat n') = builded (nmat n) /\ owned (length (mem s)) (length (mem s')) n'.
Proof using Type.
  intros Hf Hn E. assert (Hid : id < length (tens s)) by (eapply lookup_lt_Some; exact Hn).
  unfold set_shape, make_operands, set_operands, upd_mat in E. apply bnd_ok in E as (u & s1 & A & E). rewrite Hn in A. injection A as <- <-.
  apply bnd_ok in E as (u & s1 & A & E). cbn [tens mem ctx] in A. rewrite list_lookup_insert in A by exact Hid. injection A as <- <-. rewrite list_insert_insert in E.
  unfold emit_each, range in E. eapply (emit_loop id f n0 Hf 0) in E as X; [|exact (list_lookup_insert _ _ _ Hid)|cbn; apply replicate_length].
  destruct X as (L1 & L2 & F & n' & Hn' & B & O).
  cbn [mem tens nmat operands builded take app] in *. split; [lia|]. split; [intros i Hi; rewrite F by exact Hi; apply list_lookup_insert_ne; auto|].
  exists n'. split; [exact Hn'|]. split; [exact B|]. exists (length (mem s)), n0. split; [exact O|]. lia.
Qed.
Definition still s s' : Prop := s' = s.
Lemma still_po : preorder still.
Proof using Type. unfold still. split; [reflexivity|]. intros a b c -> ->. reflexivity. Qed.
Lemma own_op id k s s' n : opk k -> tens s !! id = Some n -> own_part id k s = (Ok tt, s') ->
  length (mem s) <= length (mem s') /\ (forall i, i <> id -> tens s' !! i = tens s !! i) /\
  exists n', tens s' !! id = Some n' /\ builded (nmat n') = builded (nmat n) /\ owned (length (mem s)) (length (mem s')) n'.
Proof using Type.
  intros Hk Hn E. destruct k; try destruct Hk; cbn [own_part] in E.
  - unfold build_map in E. apply bnd_ok in E as (mt & s1 & A & E). apply (sat_get_mat still still_po) in A as ->.
    eapply emit_own; [|exact Hn|exact E]. intros i o s2 r s3 Ef. refine (_ : still s2 s3). revert s2 r s3 Ef. match goal with |- forall s2 r s3, ?f s2 = (r, s3) -> _ => change (sat still f) end. repeat sat_step still_po.
  - unfold build_op2 in E. apply bnd_ok in E as (ma & s1 & A & E). apply (sat_get_mat still still_po) in A as ->.
    apply bnd_ok in E as (mb & s1 & A & E). apply (sat_get_mat still still_po) in A as ->.
    apply bnd_ok in E as (u & s1 & A & E). apply (sat_eM still still_po) in A as ->.
    eapply emit_own; [|exact Hn|exact E]. intros i d s2 r s3 Ef. refine (_ : still s2 s3). revert s2 r s3 Ef.
    match goal with |- forall s2 r s3, ?f s2 = (r, s3) -> _ => change (sat still f) end. repeat sat_step still_po.
  - unfold build_opscalar in E. apply bnd_ok in E as (mt & s1 & A & E). apply (sat_get_mat still still_po) in A as ->.
    eapply emit_own; [|exact Hn|exact E]. intros i d s2 r s3 Ef. refine (_ : still s2 s3). revert s2 r s3 Ef.
    match goal with |- forall s2 r s3, ?f s2 = (r, s3) -> _ => change (sat still f) end. repeat sat_step still_po.
  - unfold build_tensormath in E. apply bnd_ok in E as (mt & s1 & A & E). apply (sat_get_mat still still_po) in A as ->.
    apply bnd_ok in E as (u & s1 & A & E). unfold set_shape, upd_mat in A. rewrite Hn in A. injection A as <- <-.
    assert (Hid : id < length (tens s)) by (eapply lookup_lt_Some; exact Hn).
    apply bnd_ok in E as (x & s1 & A & E). injection A as <- <-. cbn [mem tens ctx] in E.
    apply bnd_ok in E as (u' & s1 & A & E). unfold set_operands, upd_mat in A. cbn [tens mem ctx] in A. rewrite list_lookup_insert in A by exact Hid. injection A as <- <-. injection E as <-. cbn [mem tens ctx].
    rewrite app_length. cbn [length]. split; [lia|]. split; [intros i Hi; rewrite list_insert_insert, list_lookup_insert_ne by congruence; reflexivity|].
    rewrite list_insert_insert. eexists. split; [apply list_lookup_insert; exact Hid|]. cbn [nmat builded operands]. split; [reflexivity|]. exists (length (mem s)), 1. cbn [seq map]. split; [reflexivity|lia].
Qed.

Lemma only_grows id s s' n : only id s s' -> tens s !! id = Some n -> ~ builded (nmat n) = true \/ tens s' !! id = Some n -> ~ opk (nkind n) \/ tens s' !! id = Some n -> grows s s'.
Proof using Type.
  intros ((e & Em) & L & F & K) Hn Hb Hk. split; [rewrite Em, app_length; lia| |].
  - intros j nj Hj Hbj. destruct (decide (j = id)) as [->|Hne]; [|rewrite F by exact Hne; exact Hj]. assert (nj = n) as -> by congruence. destruct Hb; [contradiction|assumption].
  - intros j nj Hj Hbj Hkj. exists nj. split; [|left; reflexivity]. destruct (decide (j = id)) as [->|Hne]; [|rewrite F by exact Hne; exact Hj]. assert (nj = n) as -> by congruence. destruct Hk; [contradiction|assumption].
Qed.
(** [id] is on its way: marked, its scalars still to come. *)
Record opens (id : nat) (n : node T) s s' : Prop := {
  op_len : length (mem s) <= length (mem s');
  op_id : exists n', tens s' !! id = Some n' /\ nkind n' = nkind n /\ builded (nmat n') = true;
  op_built : forall j nj, j <> id -> tens s !! j = Some nj -> builded (nmat nj) = true -> tens s' !! j = Some nj;
  op_new : forall j nj, j <> id -> tens s !! j = Some nj -> builded (nmat nj) = false -> opk (nkind nj) ->
    exists n', tens s' !! j = Some n' /\ (n' = nj \/ builded (nmat n') = true /\ owned (length (mem s)) (length (mem s')) n');
}.
Lemma opens_grows id n s s1 s2 : opens id n s s1 -> grows s1 s2 -> opens id n s s2.
Proof using Type.
  intros [a1 (ni & Hi & Ki & Bi) a2 a3] [b1 b2 b3]. split; [lia|exists ni; auto|auto|]. intros j nj Hne Hj Hb Hk. destruct (a3 _ _ Hne Hj Hb Hk) as (n' & Hn' & [->|[Hb' Ho]]).
  - destruct (b3 _ _ Hn' Hb Hk) as (n2 & Hn2 & [->|[Hb2 Ho2]]); eexists; (split; [exact Hn2|]); [left; reflexivity|right].
    split; [exact Hb2|]. eapply owned_mono; [exact Ho2|lia|lia].
  - exists n'. split; [auto|]. right. split; [exact Hb'|]. eapply owned_mono; [exact Ho|lia|lia].
Qed.
Theorem BuildGraph_grows fuel : forall id s s', BuildGraph fuel id s = (Ok tt, s') ->
  grows s s' /\ forall n, tens s !! id = Some n -> builded (nmat n) = false -> opk (nkind n) ->
    exists n', tens s' !! id = Some n' /\ builded (nmat n') = true /\ owned (length (mem s)) (length (mem s')) n'.
Proof using Type.
  induction fuel as [|fuel IH]; intros id s s' E; [discriminate|]. cbn [BuildGraph] in E. apply bnd_ok in E as (n & s1 & A & E).
  unfold get_node in A. destruct (tens s !! id) as [n1|] eqn:Hn; [|discriminate]. injection A as -> <-.
  destruct (builded (nmat n)) eqn:Hb.
  { injection E as <-. split; [apply grows_refl|]. intros n2 E2 Hb2. congruence. }
  apply bnd_ok in E as (u & s0 & A & E).
  assert (Hid : id < length (tens s)) by (eapply lookup_lt_Some; exact Hn).
  assert (O0 : opens id n s s0).
  { unfold set_built, upd_mat in A. rewrite Hn in A. injection A as <- <-. split; cbn [mem tens]; [lia| | |].
    - rewrite list_lookup_insert by exact Hid. eexists. split; [reflexivity|]. split; reflexivity.
    - intros j nj Hne Hj _. rewrite list_lookup_insert_ne by auto. exact Hj.
    - intros j nj Hne Hj _ _. rewrite list_lookup_insert_ne by auto. exists nj. auto. }
  clear A u.
  assert (Hstep : forall t (c : TM T unit) s1, opens id n s s1 -> (BuildGraph fuel t ;~ c) s1 = (Ok tt, s') -> exists s2, opens id n s s2 /\ c s2 = (Ok tt, s')).
  { intros t c s1 O1 E1. apply bnd_ok in E1 as ([] & s2 & A1 & A2). exists s2. split; [|exact A2]. eapply opens_grows; [exact O1|]. apply (IH _ _ _ A1). }
  assert (Hend : forall s1, opens id n s s1 -> own_part id (nkind n) s1 = (Ok tt, s') -> grows s s' /\
     forall n0, Some n = Some n0 -> builded (nmat n0) = false -> opk (nkind n0) ->
       exists n', tens s' !! id = Some n' /\ builded (nmat n') = true /\ owned (length (mem s)) (length (mem s')) n').
  { intros s1 [a1 (ni & Hi & Ki & Bi) a2 a3] E1. pose proof (only_own id (nkind n) _ _ _ E1) as ((e & Em) & L & F & K).
    assert (Lm : length (mem s1) <= length (mem s')) by (rewrite Em, app_length; lia).
    assert (Hown : opk (nkind n) -> exists n', tens s' !! id = Some n' /\ builded (nmat n') = true /\ owned (length (mem s)) (length (mem s')) n').
    { intros Hk. destruct (own_op _ _ _ _ _ Hk Hi E1) as (_ & _ & n' & Hn' & B & Ho). exists n'. split; [exact Hn'|]. split; [congruence|]. eapply owned_mono; [exact Ho|lia|lia]. }
    split; [|intros n0 [= <-] _; exact Hown]. split; [lia| |].
    - intros j nj Hj Hbj. destruct (decide (j = id)) as [->|Hne]; [congruence|]. rewrite F by exact Hne. auto.
    - intros j nj Hj Hbj Hkj. destruct (decide (j = id)) as [->|Hne].
      + assert (nj = n) as -> by congruence. destruct (Hown Hkj) as (n' & Hn' & B & Ho). exists n'. auto.
      + destruct (a3 _ _ Hne Hj Hbj Hkj) as (n' & Hn' & Hx). exists n'. rewrite F by exact Hne. split; [exact Hn'|]. destruct Hx as [->|[Hb' Ho]]; [left; reflexivity|right]. split; [exact Hb'|]. eapply owned_mono; [exact Ho|lia|lia]. }
  destruct (nkind n) eqn:Hk.
  all: try (match type of E with (mbnd (BuildGraph _ ?a) (fun _ => mbnd (BuildGraph _ _) _)) _ = _ => idtac end;
    destruct (Hstep _ _ _ O0 E) as (s2 & O2 & E2); destruct (Hstep _ _ _ O2 E2) as (s3 & O3 & E3); exact (Hend _ O3 E3)).
  all: try (match type of E with (mbnd (BuildGraph _ ?a) _) _ = _ => idtac end;
    destruct (Hstep _ _ _ O0 E) as (s2 & O2 & E2); exact (Hend _ O2 E2)).
  split; [|intros n0 [= <-] _ Hx; rewrite Hk in Hx; destruct Hx].
  assert (Ho : only id s0 s'). { refine (sat_mfor _ (only_po id) _ _ _ _ _ _ E). intros. apply only_push. }
  destruct Ho as ((e & Em) & L & F & K). destruct O0 as [a1 (ni & Hi & Ki & Bi) a2 a3]. assert (Lm : length (mem s0) <= length (mem s')) by (rewrite Em, app_length; lia). split; [lia| |].
  - intros j nj Hj Hbj. destruct (decide (j = id)) as [->|Hne]; [congruence|]. rewrite F by exact Hne. auto.
  - intros j nj Hj Hbj Hkj. destruct (decide (j = id)) as [->|Hne]; [assert (nj = n) as -> by congruence; rewrite Hk in Hkj; destruct Hkj|].
    destruct (a3 _ _ Hne Hj Hbj Hkj) as (n' & Hn' & Hx). exists n'. rewrite F by exact Hne. split; [exact Hn'|]. destruct Hx as [->|[Hb' Ho]]; [left; reflexivity|right]. split; [exact Hb'|]. eapply owned_mono; [exact Ho|lia|lia].
Qed.
Corollary Build_owned id j s s' n n' : Build id s = (Ok tt, s') -> tens s !! j = Some n -> builded (nmat n) = false -> opk (nkind n) ->
  tens s' !! j = Some n' -> builded (nmat n') = true -> owned (length (mem s)) (length (mem s')) n'.
Proof using Type.
  intros E Hn Hb Hk Hn' Hb'. destruct (BuildGraph_grows _ _ _ _ E) as [G _]. destruct (gr_new _ _ G _ _ Hn Hb Hk) as (n2 & Hn2 & [->|[_ Ho]]); [congruence|].
  assert (n2 = n') as -> by congruence. exact Ho.
Qed.
End TrnOwn.
