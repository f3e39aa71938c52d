(** * TrnExpr: building one node on top of tensors that are there *)
From Verif Require Import Base Num ModelTools ModelOps ModelTensor ModelGraph ModelLayer Spec Denote FwdSpec
  IndexProofs ExecProofs TensorFacts AccessProofs BuildProofs BuildFrame CompileProofs Agree FwdMask FwdBuild FwdSeg FwdOps FwdPool NetBuild NetChain FwdBody FwdExpr FwdConv FwdConv2 FwdAct
  BwdPost BwdLoop TrnSpec TrnTri TrnOwn.
From Coq Require Import Lia ZifyBool ZifyNat ZifyN.

Section TrnExpr.
Context {T : Type} `{Num T}.
Implicit Types (s : tst T) (m : list T).

Definition add s (k : kind T) (mt : tmat) : tst T := MkSt (mem s) (tens s ++ [MkNode k mt]) (ctx s).
Lemma add_seg s k mt : seg nowhere s (add s k mt) [] [].
Proof using Type. destruct (seg_node s k mt) as (s' & E & S & _). injection E as <-. exact S. Qed.
Lemma add_last s k mt : tens (add s k mt) !! length (tens s) = Some (MkNode k mt).
Proof using Type. cbn [add tens]. rewrite lookup_app_r by lia. rewrite Nat.sub_diag. reflexivity. Qed.
Lemma fresh_NoC s s' (W : nat -> Prop) C P (R : list T -> list T -> Prop) : tri s s' W C P R -> forall c, c ∈ C -> ~ W (fst c).
Proof using Type. intros Ht c Hc. apply (tri_C _ _ _ _ _ _ _ Ht Hc). Qed.

(** An operation node over [e]. *)
Lemma op_node s k e sh : opk k -> den (add s k empty_mat) (length (tens s)) e sh ->
  exists s' W C n', Build (length (tens s)) (add s k empty_mat) = (Ok tt, s') /\
    tri s s' W C (fun m => evals s m e <> None) (fun m m' => mval m' (nmat n') = evals s m e) /\
    (forall l, W l -> length (mem s) <= l) /\ length (tens s') = S (length (tens s)) /\
    node_ok s' (length (tens s)) n' sh /\ owned (length (mem s)) (length (mem s')) n'.
Proof using Type.
  intros Hk D. destruct (tri_build _ _ _ _ D) as (s' & W & C & n' & E & Ht & HW & Hl & Hn & _). exists s', W, C, n'. split; [exact E|].
  assert (Hev : forall m, evals (add s k empty_mat) m e = evals s m e).
  { intros m. unfold evals. apply (eval_grow s (add s k empty_mat) k empty_mat e m _ eq_refl eq_refl). intros ->. destruct Hk. }
  split.
  { pose proof (tri_after _ _ _ _ _ _ _ _ (add_seg s k empty_mat) Ht ltac:(intros c Hc; inversion Hc)) as Ha. cbn [app] in Ha.
    eapply tri_post; [exact Ha| |]; cbn beta; intros; rewrite <- ?Hev; auto. rewrite Hev. assumption. }
  split; [exact HW|]. split; [rewrite Hl; cbn [add tens]; rewrite app_length; cbn; lia|]. split; [exact Hn|].
  destruct Hn as (Hn & Hset & _). destruct (BuildGraph_grows _ _ _ _ E) as [_ Ho].
  destruct (Ho _ (add_last _ _ _) eq_refl Hk) as (n2 & Hn2 & _ & O). assert (n2 = n') as -> by congruence. exact O.
Qed.
Lemma act_node s t n sh f : node_ok s t n sh ->
  exists s' W C n', Build (length (tens s)) (add s (KActivate t f) empty_mat) = (Ok tt, s') /\
    tri s s' W C any (fun m m' => exists v, mval m (nmat n) = Some v /\ mval m' (nmat n') = Some (v_map f v)) /\
    (forall l, W l -> length (mem s) <= l) /\ length (tens s') = S (length (tens s)) /\
    node_ok s' (length (tens s)) n' sh /\ owned (length (mem s)) (length (mem s')) n'.
Proof using Type.
  intros Hn. pose proof (node_ok_den _ _ _ _ Hn) as D0.
  assert (D : den (add s (KActivate t f) empty_mat) (length (tens s)) (EMap f (ELeaf t)) sh).
  { eapply (den_un s _ (KActivate t f) empty_mat); [reflexivity|reflexivity|reflexivity|discriminate|reflexivity|exact D0|..].
    - intros Hv Hlt Hde. econstructor; [exact Hv|exact Hlt|exact Hde].
    - exact (dn_sh _ _ _ _ D0).
    - exact I. }
  destruct (op_node s (KActivate t f) _ _ I D) as (s' & W & C & n' & E & Ht & HW & Hl & Hn' & Ho). exists s', W, C, n'. split; [exact E|]. split; [|auto].
  eapply tri_post; [exact Ht| |]; cbn beta.
  - intros m Hm _ _. unfold evals. cbn [eval]. fold (evals s m (ELeaf t)). rewrite (node_ok_eval _ _ _ _ m Hn).
    destruct (node_ok_total _ _ _ _ m Hn) as (v & -> & _); [pose proof (tri_len _ _ _ _ _ _ Ht); lia|]. discriminate.
  - intros m m' Hm _ _ _ Hv. change (evals s m (EMap f (ELeaf t))) with (v ← evals s m (ELeaf t); Some (v_map f v)) in Hv. rewrite (node_ok_eval _ _ _ _ m Hn) in Hv.
    destruct (node_ok_total _ _ _ _ m Hn) as (v & Ev & _); [pose proof (tri_len _ _ _ _ _ _ Ht); lia|]. rewrite Ev in Hv. exists v. auto.
Qed.
Lemma scal_build s t n sh sc o : node_ok s t n sh -> sc < length (mem s) ->
  exists s' W C n', Build (length (tens s)) (add s (KOpScalar t (Some sc) o) empty_mat) = (Ok tt, s') /\
    tri s s' W C (fun m => forall v x, mval m (nmat n) = Some v -> m !! sc = Some x -> v_scal (bop o) v x <> None)
      (fun m m' => exists v x, mval m (nmat n) = Some v /\ m !! sc = Some x /\ mval m' (nmat n') = v_scal (bop o) v x) /\
    (forall l, W l -> length (mem s) <= l) /\ length (tens s') = S (length (tens s)) /\
    node_ok s' (length (tens s)) n' sh /\ owned (length (mem s)) (length (mem s')) n'.
Proof using Type.
  intros Hn Hsc. pose proof (node_ok_den _ _ _ _ Hn) as D0.
  destruct (scal_node s t sc o _ _ D0 Hsc) as (t' & E1 & _ & _ & _ & D & _). injection E1 as <-.
  destruct (op_node s (KOpScalar t (Some sc) o) _ _ I D) as (s' & W & C & n' & E & Ht & HW & Hl & Hn' & Ho). exists s', W, C, n'. split; [exact E|]. split; [|auto].
  assert (Hev : forall m, evals s m (EScal (bop o) (ELeaf t) sc) = v ← mval m (nmat n); y ← m !! sc; v_scal (bop o) v y).
  { intros m. rewrite <- (node_ok_eval _ _ _ _ m Hn). reflexivity. }
  pose proof (tri_len _ _ _ _ _ _ Ht) as Hle.
  assert (Htot : forall m, length (mem s') <= length m -> exists v x, mval m (nmat n) = Some v /\ m !! sc = Some x).
  { intros m Hm. destruct (node_ok_total _ _ _ _ m Hn) as (v & Ev & _); [lia|]. destruct (lookup_lt_is_Some_2 m sc) as [x Ex]; [lia|]. eauto. }
  eapply tri_post; [exact Ht| |]; cbn beta.
  - intros m Hm _ HP. rewrite Hev. destruct (Htot m Hm) as (v & x & Ev & Ex). rewrite Ev, Ex. cbn [mbind option_bind]. auto.
  - intros m m' Hm _ _ _ Hv. rewrite Hev in Hv. destruct (Htot m Hm) as (v & x & Ev & Ex). rewrite Ev, Ex in Hv. exists v, x. auto.
Qed.

(** ** Views *)
Lemma set_operand_step id i o s s' n (A : nat -> Prop) : tens s !! id = Some n -> set_operand id i o s = (Ok tt, s') ->
  (forall l, o = Some l -> A l) -> (forall l, Some l ∈ operands (nmat n) -> A l) ->
  mem s' = mem s /\ exists n', tens s' !! id = Some n' /\ forall l, Some l ∈ operands (nmat n') -> A l.
Proof using Type.
  intros Hn E Ho Ha. unfold set_operand in E. rewrite (mbnd_ok _ _ _ _ _ (get_mat_ok _ _ _ Hn)) in E.
  apply bnd_ok in E as (ops & s1 & A3 & E). unfold updM in A3. case_decide as Hlt; [|discriminate]. injection A3 as <- <-.
  unfold set_operands, upd_mat in E. rewrite Hn in E. injection E as <-. cbn [mem tens]. split; [reflexivity|]. eexists. split; [apply list_lookup_insert; eapply lookup_lt_Some; exact Hn|].
  cbn [nmat operands]. intros l Hl. apply elem_of_list_lookup in Hl as (j & Hj). destruct (decide (i = j)) as [<-|Hne].
  - rewrite list_lookup_insert in Hj by exact Hlt. injection Hj as ->. apply Ho. reflexivity.
  - rewrite list_lookup_insert_ne in Hj by exact Hne. apply Ha. eapply elem_of_list_lookup_2. exact Hj.
Qed.
Lemma set_loop {X} id (l : list X) (f : X -> TM T unit) (A : nat -> Prop) :
  (forall x s s' n, tens s !! id = Some n -> f x s = (Ok tt, s') -> (forall l, Some l ∈ operands (nmat n) -> A l) -> exists n', tens s' !! id = Some n' /\ forall l, Some l ∈ operands (nmat n') -> A l) ->
  forall s s' n, tens s !! id = Some n -> mfor l f s = (Ok tt, s') -> (forall l, Some l ∈ operands (nmat n) -> A l) -> exists n', tens s' !! id = Some n' /\ forall l, Some l ∈ operands (nmat n') -> A l.
Proof using Type.
  intros Hf. induction l as [|x l IH]; intros s s' n Hn E Ha; [injection E as <-; eauto|]. cbn [mfor] in E. apply bnd_ok in E as ([] & s1 & E1 & E2).
  destruct (Hf _ _ _ _ Hn E1 Ha) as (n1 & Hn1 & Ha1). exact (IH _ _ _ Hn1 E2 Ha1).
Qed.
Lemma reshape_ops id t s s' n nt : tens s !! id = Some n -> tens s !! t = Some nt -> length (operands (nmat nt)) = N.to_nat (GetDataSize (shape (nmat n))) -> build_reshape id t s = (Ok tt, s') ->
  exists n', tens s' !! id = Some n' /\ forall l, Some l ∈ operands (nmat n') -> Some l ∈ operands (nmat nt).
Proof using Type.
  intros Hn Ht Hlen E. unfold build_reshape in E. rewrite (mbnd_ok _ _ _ _ _ (get_mat_ok _ _ _ Hn)), (mbnd_ok _ _ _ _ _ (get_mat_ok _ _ _ Ht)) in E.
  rewrite <- Hlen, Nat.ltb_irrefl, Nat.sub_diag in E. change (mfor (seq (length (operands (nmat nt))) 0) _) with (mret tt : TM T unit) in E.
  apply bnd_ok in E as (u & s1 & A & E). unfold set_shape, upd_mat in A. rewrite Hn in A. injection A as <- <-.
  assert (Hid : id < length (tens s)) by (eapply lookup_lt_Some; exact Hn).
  apply bnd_ok in E as (u & s1 & A & E). unfold make_operands, set_operands, upd_mat in A. cbn [tens mem ctx] in A. rewrite list_lookup_insert in A by exact Hid. injection A as <- <-.
  apply bnd_ok in E as ([] & s1 & A & E). injection E as <-. cbn [mem tens ctx] in A. rewrite list_insert_insert in A.
  eapply (set_loop id _ _ (fun l => Some l ∈ operands (nmat nt))) with (2 := list_lookup_insert _ _ _ Hid : tens (MkSt _ (<[id := _]> (tens s)) _) !! id = _) (3 := A).
  - intros x s2 s3 n2 Hn2 E2 Ha. apply bnd_ok in E2 as (o & s4 & A1 & A2). unfold atM, at_or_panic, mlift in A1. destruct (operands (nmat nt) !! x) as [y|] eqn:Ey; [|discriminate]. injection A1 as <- <-.
    apply (set_operand_step _ _ _ _ _ _ _ Hn2 A2); [|exact Ha]. intros l ->. eapply elem_of_list_lookup_2. exact Ey.
  - cbn [nmat operands]. intros l Hl. apply elem_of_replicate in Hl as [Hl _]. discriminate.
Qed.
Lemma flat_node s t n sh : node_ok s t n sh ->
  exists s' W C n', Flatten t s = (Ok (length (tens s)), add s (KReshape t) (MkMat [prodN sh] [] [] false)) /\
    Build (length (tens s)) (add s (KReshape t) (MkMat [prodN sh] [] [] false)) = (Ok tt, s') /\
    tri s s' W C any (fun m m' => exists v, mval m (nmat n) = Some v /\ mval m' (nmat n') = Some (v_flat v)) /\
    (forall l, W l -> length (mem s) <= l) /\ length (tens s') = S (length (tens s)) /\
    node_ok s' (length (tens s)) n' [prodN sh] /\ (forall l, Some l ∈ operands (nmat n') -> Some l ∈ operands (nmat n)).
Proof using Type.
  intros Hn. pose proof (node_ok_den _ _ _ _ Hn) as D0. pose proof Hn as (Hn0 & Hset & Hwf & Hsh).
  assert (Hms : msize (nmat n) = prodN sh). { destruct Hwf as (_ & _ & Hl & _). unfold msize, ulen. rewrite Hl, Hsh. apply N2Nat.id. }
  assert (Hsz : prodN [prodN sh] = prodN sh) by (cbn; lia).
  assert (Hf : fits [prodN sh]). { destruct Hwf as ((_ & Hp) & _). rewrite Hsh in Hp. split; [repeat constructor; exact Hp|]. rewrite Hsz. exact Hp. }
  set (mt := MkMat [prodN sh] [] [] false). set (s1 := add s (KReshape t) mt).
  assert (D : den s1 (length (tens s)) (EReshape (ELeaf t) [prodN sh]) [prodN sh]).
  { eapply (den_un s _ (KReshape t) mt); [reflexivity|reflexivity|reflexivity|discriminate|reflexivity|exact D0|..].
    - intros Hv Hlt Hde. apply (D_reshape _ _ _ mt t); [exact Hv|exact Hlt|exact Hde].
    - cbn [shape_of]. pose proof (dn_sh _ _ _ _ D0) as Hs0. cbn [shape_of] in Hs0. rewrite Hs0. cbn [mbind option_bind]. apply fit_Some. split; [reflexivity|exact Hf].
    - exact I. }
  destruct (tri_build _ _ _ _ D) as (s' & W & C & n' & E & Ht & HW & Hl & Hn' & _). exists s', W, C, n'.
  split; [unfold Flatten; rewrite (mbnd_ok _ _ _ _ _ (get_mat_ok _ _ _ Hn0)), Hms; reflexivity|]. split; [exact E|].
  assert (Hev : forall m, evals s1 m (EReshape (ELeaf t) [prodN sh]) = v ← mval m (nmat n); Some (v_reshape v [prodN sh])).
  { intros m. rewrite <- (node_ok_eval _ _ _ _ m Hn). unfold evals at 1. cbn [eval].
    change (leafv (view s1) m t) with (evals s1 m (ELeaf t)). unfold evals at 1. rewrite (eval_grow s s1 (KReshape t) mt _ _ _ eq_refl eq_refl ltac:(discriminate)). reflexivity. }
  pose proof (tri_len _ _ _ _ _ _ Ht) as Hle. change (mem s1) with (mem s) in Hle.
  split.
  { pose proof (tri_after _ _ _ _ _ _ _ _ (add_seg s (KReshape t) mt) Ht ltac:(intros c Hc; inversion Hc)) as Ha. cbn [app] in Ha.
    eapply tri_post; [exact Ha| |]; cbn beta.
    - intros m Hm _ _. rewrite Hev. destruct (node_ok_total _ _ _ _ m Hn) as (v & -> & _); [lia|]. discriminate.
    - intros m m' Hm _ _ _ Hv. rewrite Hev in Hv. destruct (node_ok_total _ _ _ _ m Hn) as (v & Ev & Es & El); [lia|]. rewrite Ev in Hv. exists v. split; [exact Ev|]. rewrite Hv. cbn [mbind option_bind]. f_equal.
      unfold v_reshape, v_flat. rewrite Hsz. f_equal; [rewrite Es; reflexivity|]. rewrite take_ge by lia. replace (_ - _) with 0 by lia. cbn. apply app_nil_r. }
  split; [exact HW|]. split; [rewrite Hl; unfold s1; cbn [add tens]; rewrite app_length; cbn; lia|]. split; [exact Hn'|].
  assert (Htl : t < length (tens s)) by (eapply lookup_lt_Some; exact Hn0).
  unfold Build in E. cbn [BuildGraph] in E. apply bnd_ok in E as (nn & s2 & A & E). unfold get_node in A. unfold s1 in A. rewrite add_last in A. injection A as <- <-. cbn [nmat builded mt nkind] in E.
  apply bnd_ok in E as (u & s2 & A & E). unfold set_built, upd_mat in A. rewrite add_last in A. injection A as <- <-.
  apply bnd_ok in E as (u & s3 & A & E). destruct (length (tens s)) as [|d] eqn:Ed; [lia|].
  cbn [add mem tens ctx] in A. set (s2 := MkSt _ _ _) in A.
  assert (H2t : tens s2 !! t = Some n). { cbn [tens s2]. rewrite list_lookup_insert_ne by lia. rewrite lookup_app_l by lia. exact Hn0. }
  destruct (TransferProofs.build_settled d t s2 n H2t Hset) as (s3' & new & E3 & Em & Ec & X & Hl3 & K). destruct u. assert (s3' = s3) as -> by congruence.
  assert (H2d : exists n2, tens s2 !! S d = Some n2 /\ shape (nmat n2) = [prodN sh]). { eexists. split; [cbn [tens s2]; apply list_lookup_insert; rewrite app_length; cbn; lia|]. reflexivity. }
  destruct H2d as (n2 & H2d & Hs2). destruct (K _ _ H2t) as (nt' & Ht' & (_ & _ & _ & Ko) & _). destruct (K _ _ H2d) as (n3 & Hn3 & (_ & Ks & _) & _).
  assert (Hlen : length (operands (nmat nt')) = N.to_nat (GetDataSize (shape (nmat n3)))).
  { rewrite Ks, Hs2, Ko. rewrite GetDataSize_fits by exact Hf. destruct Hwf as (_ & _ & -> & _). rewrite Hsh, Hsz. reflexivity. }
  destruct (reshape_ops _ _ _ _ _ _ Hn3 Ht' Hlen E) as (n4 & Hn4 & Hops).
  rewrite Ko in Hops. destruct Hn' as (Hn' & _). assert (n4 = n') as -> by congruence. exact Hops.
Qed.
End TrnExpr.
