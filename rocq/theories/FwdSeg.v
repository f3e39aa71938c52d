(** * FwdSeg: pieces of a program that add operations to the context

    [seg W s s' new C]: running the code from [s] led to [s'] and appended the
    operations [new].  Executing them writes at most the cells [W]; the new
    cells [C] hold constants the operations rely on. *)
From Verif Require Import Base Num ModelTools ModelOps ModelTensor ModelGraph ModelLayer Spec Denote
  IndexProofs ExecProofs TensorFacts AccessProofs BuildFrame BuildProofs CompileProofs TransferProofs Agree FwdMask FwdBuild NetBuild.
From Coq Require Import Lia ZifyBool ZifyNat ZifyN.

Section FwdSeg.
Context {T : Type} `{Num T}.
Implicit Types (s : tst T).

Definition keeps s s' : Prop :=
  forall j n, tens s !! j = Some n -> exists n', tens s' !! j = Some n' /\ nkind n' = nkind n /\
    (builded (nmat n) = true -> builded (nmat n') = true) /\
    (settled n -> shape (nmat n') = shape (nmat n) /\ mulindex (nmat n') = mulindex (nmat n) /\ operands (nmat n') = operands (nmat n)).
Lemma keeps_settled n n' : nkind n' = nkind n -> (builded (nmat n) = true -> builded (nmat n') = true) -> settled n -> @settled T n'.
Proof. intros Hk Hb [Hs|Hs]; [left; congruence|right; auto]. Qed.
Lemma keeps_refl s : keeps s s.
Proof. intros j n Hn. exists n. repeat split; auto. Qed.
Lemma keeps_trans s1 s2 s3 : keeps s1 s2 -> keeps s2 s3 -> keeps s1 s3.
Proof.
  intros K1 K2 j n Hn. destruct (K1 _ _ Hn) as (n1 & Hn1 & Hk1 & Hb1 & Hs1). destruct (K2 _ _ Hn1) as (n2 & Hn2 & Hk2 & Hb2 & Hs2).
  exists n2. split; [exact Hn2|]. split; [congruence|]. split; [auto|]. intros Hst.
  destruct (Hs1 Hst) as (E1 & E2 & E3). destruct (Hs2 (keeps_settled _ _ Hk1 Hb1 Hst)) as (F1 & F2 & F3). repeat split; congruence.
Qed.

Definition consts (C : list (nat * T)) (m : list T) : Prop := Forall (fun c => m !! fst c = Some (snd c)) C.
Lemma consts_app C1 C2 m : consts (C1 ++ C2) m <-> consts C1 m /\ consts C2 m.
Proof. apply Forall_app. Qed.

Record seg (W : nat -> Prop) s s' (new : list (op T)) (C : list (nat * T)) : Prop := {
  sg_mem : exists e, mem s' = mem s ++ e;
  sg_ctx : ctx s' = ctx s ++ new;
  sg_frame : forall m m' l, length (mem s') <= length m -> exec new m = Some m' -> ~ W l -> m' !! l = m !! l;
  sg_const : Forall (fun c => length (mem s) <= fst c /\ mem s' !! fst c = Some (snd c) /\ ~ W (fst c)) C;
  sg_W : forall l, W l -> l < length (mem s');
  sg_keep : keeps s s';
}.
Lemma sg_len W s s' new C : seg W s s' new C -> length (mem s) <= length (mem s').
Proof. intros [[e E] _ _ _ _ _]. rewrite E, app_length. lia. Qed.
Lemma sg_low W s s' new C l v : seg W s s' new C -> mem s !! l = Some v -> mem s' !! l = Some v.
Proof. intros [[e E] _ _ _ _ _] Hv. rewrite E. apply lookup_app_l_Some. exact Hv. Qed.
Lemma seg_const_keep (W : nat -> Prop) s s' new C m m' C' : seg W s s' new C -> length (mem s') <= length m -> exec new m = Some m' ->
  (forall c, c ∈ C' -> ~ W (fst c)) -> consts C' m -> consts C' m'.
Proof.
  intros Hs Hm Hx HW HC. unfold consts in *. rewrite Forall_forall in HC |- *. intros c Hc.
  rewrite (sg_frame _ _ _ _ _ Hs m m' _ Hm Hx (HW _ Hc)). auto.
Qed.

Definition nowhere (l : nat) : Prop := False.
Definition either (A B : nat -> Prop) (l : nat) : Prop := A l \/ B l.
Lemma seg_refl s : seg nowhere s s [] [].
Proof.
  split; [exists []; rewrite app_nil_r; reflexivity|rewrite app_nil_r; reflexivity| |constructor|intros l []|apply keeps_refl].
  intros m m' l _ [= <-] _. reflexivity.
Qed.
Lemma seg_app (W1 W2 : nat -> Prop) s s1 s2 n1 n2 C1 C2 :
  seg W1 s s1 n1 C1 -> seg W2 s1 s2 n2 C2 -> (forall c, c ∈ C1 -> ~ W2 (fst c)) ->
  seg (either W1 W2) s s2 (n1 ++ n2) (C1 ++ C2).
Proof.
  intros S1 S2 HC. pose proof (sg_len _ _ _ _ _ S1) as L1. pose proof (sg_len _ _ _ _ _ S2) as L2. split.
  - destruct (sg_mem _ _ _ _ _ S1) as [e1 E1]. destruct (sg_mem _ _ _ _ _ S2) as [e2 E2]. exists (e1 ++ e2). rewrite E2, E1, app_assoc. reflexivity.
  - rewrite (sg_ctx _ _ _ _ _ S2), (sg_ctx _ _ _ _ _ S1), app_assoc. reflexivity.
  - intros m m' l Hm Hx Hl. rewrite exec_app in Hx. apply bind_Some in Hx as (m1 & X1 & X2).
    pose proof (exec_length _ _ _ X1) as Lm.
    rewrite (sg_frame _ _ _ _ _ S2 m1 m' l ltac:(lia) X2) by (unfold either in Hl; tauto).
    apply (sg_frame _ _ _ _ _ S1 m m1 l ltac:(lia) X1). unfold either in Hl. tauto.
  - apply Forall_app. split.
    + pose proof (sg_const _ _ _ _ _ S1) as Hc. rewrite Forall_forall in Hc |- *. intros c Hcc. destruct (Hc _ Hcc) as (A & B & D).
      split; [exact A|]. split; [eapply sg_low; eassumption|]. intros [Hw|Hw]; [auto|exact (HC _ Hcc Hw)].
    + eapply Forall_impl; [apply (sg_const _ _ _ _ _ S2)|]. intros c (A & B & D). split; [lia|]. split; [exact B|].
      intros [Hw|Hw]; [|auto]. apply (sg_W _ _ _ _ _ S1) in Hw. lia.
  - intros l [Hw|Hw]; [apply (sg_W _ _ _ _ _ S1) in Hw; lia|apply (sg_W _ _ _ _ _ S2); exact Hw].
  - eapply keeps_trans; [apply S1|apply S2].
Qed.
Lemma seg_weaken (W W' : nat -> Prop) s s' new C : seg W s s' new C -> (forall l, W l -> W' l) -> (forall l, W' l -> l < length (mem s')) ->
  (forall c, c ∈ C -> ~ W' (fst c)) -> seg W' s s' new C.
Proof.
  intros [A B F D E K] HW HL HC. split; try assumption.
  - intros m m' l Hm Hx Hl. apply F; auto.
  - rewrite Forall_forall in D |- *. intros c Hc. destruct (D _ Hc) as (D1 & D2 & _). auto.
Qed.
(** Constants that nobody needs may be forgotten. *)
Lemma seg_forget W s s' new C C' : seg W s s' new C -> (forall c, c ∈ C' -> c ∈ C) -> seg W s s' new C'.
Proof.
  intros [A B F D E K] Hi. split; try assumption. rewrite Forall_forall in D |- *. auto.
Qed.

(** ** Single steps *)
(** Tensors that are only added. *)
Lemma keeps_add s s' x : tens s' = tens s ++ x -> keeps s s'.
Proof. intros E j n Hn. exists n. rewrite E. split; [apply lookup_app_l_Some; exact Hn|repeat split; auto]. Qed.
Lemma seg_add s e x : seg nowhere s (MkSt (mem s ++ e) (tens s ++ x) (ctx s)) [] [].
Proof.
  split; cbn [mem tens ctx]; [exists e; reflexivity|rewrite app_nil_r; reflexivity| |constructor|intros l []|eapply keeps_add; reflexivity].
  intros m m' l _ [= <-] _. reflexivity.
Qed.
Lemma seg_zeros s sh : fits sh -> exists s', NewZeros sh s = (Ok (length (tens s)), s') /\ seg nowhere s s' [] [] /\
  mem s' = mem s ++ zeros (N.to_nat (prodN sh)) /\ tens s' = tens s ++ [MkNode KMat (blkm sh (length (mem s)) false)].
Proof. intros Hf. rewrite (NewZeros_blk s sh Hf). eexists. split; [reflexivity|]. split; [apply seg_add|]. split; reflexivity. Qed.
Lemma seg_node s k mt : exists s', new_node k mt s = (Ok (length (tens s)), s') /\ seg nowhere s s' [] [] /\
  mem s' = mem s /\ tens s' = tens s ++ [MkNode k mt] /\ ctx s' = ctx s.
Proof.
  eexists. split; [reflexivity|]. split; [|repeat split].
  pose proof (seg_add s [] [MkNode k mt]) as Hs. rewrite app_nil_r in Hs. exact Hs.
Qed.
Lemma seg_alloc s v : exists s', alloc v s = (Ok (Some (length (mem s))), s') /\ seg nowhere s s' [] [(length (mem s), v)] /\
  mem s' = mem s ++ [v] /\ tens s' = tens s /\ ctx s' = ctx s.
Proof.
  eexists. split; [reflexivity|]. split; [|repeat split].
  split; cbn [mem tens ctx]; [exists [v]; reflexivity|rewrite app_nil_r; reflexivity| | |intros l []|].
  - intros m m' l _ [= <-] _. reflexivity.
  - repeat constructor; cbn; [|intros []]. apply list_lookup_middle. reflexivity.
  - intros j n Hn. exists n. repeat split; auto.
Qed.
Lemma seg_push s (o : op T) d : op_dst o = Some (Some d) -> d < length (mem s) ->
  exists s', push o s = (Ok tt, s') /\ seg (fun l => l = d) s s' [o] [] /\ mem s' = mem s /\ tens s' = tens s.
Proof.
  intros Hd Hl. eexists. split; [reflexivity|]. split; [|split; reflexivity].
  split; cbn [mem tens ctx]; [exists []; rewrite app_nil_r; reflexivity|reflexivity| |constructor|intros l ->; exact Hl|].
  - intros m m' l _ Hx Hne. eapply exec_frame; [exact Hx|]. rewrite dst_in_cons. intros [E|E]; [congruence|]. eapply dst_in_nil. exact E.
  - intros j n Hn. exists n. repeat split; auto.
Qed.

(** ** Expressions over settled tensors *)
Record den s (j : nat) (e : expr T) (sh : list N) : Prop := {
  dn_den : denotes (length (mem s)) (view s) j e;
  dn_un : uncompiled (view s) j;
  dn_sh : shape_of (leafsh (view s)) e = Some sh;
  dn_nc : no_crossing (leafsh (view s)) e;
}.
Lemma view_settled s t n : tens s !! t = Some n -> settled n -> view s !! t = Some (MkNode KMat (nmat n)).
Proof.
  intros Hn Hs. rewrite view_lookup, Hn. cbn. f_equal. unfold mask. destruct (builded (nmat n)) eqn:Hb; [reflexivity|].
  destruct Hs as [Hk|Hk]; [|congruence]. destruct n. cbn in *. subst. reflexivity.
Qed.
Lemma den_leaf s t n : tens s !! t = Some n -> settled n -> wf_mat (length (mem s)) (nmat n) -> den s t (ELeaf t) (shape (nmat n)).
Proof.
  intros Hn Hs Hwf. pose proof (view_settled s t n Hn Hs) as Hv. split.
  - econstructor; eassumption.
  - intros j nj Hj Hnj Hlf. inversion Hj as [|? n0 c j0 Hn0 Hc _]; subst.
    + rewrite Hv in Hnj. injection Hnj as <-. discriminate.
    + rewrite Hv in Hn0. injection Hn0 as <-. inversion Hc.
  - cbn. unfold leafsh. rewrite Hv. cbn. apply fit_Some. split; [reflexivity|apply Hwf].
  - exact I.
Qed.
Lemma leafv_settled s t n m : tens s !! t = Some n -> settled n -> leafv (view s) m t = mval m (nmat n).
Proof. intros Hn Hs. unfold leafv. rewrite (view_settled s t n Hn Hs). reflexivity. Qed.
Lemma view_app s s' k mt : tens s' = tens s ++ [MkNode k mt] -> builded mt = false -> view s' = view s ++ [MkNode k mt].
Proof. intros E Hb. unfold view. rewrite E, map_app. cbn. unfold mask at 2. cbn. rewrite Hb. reflexivity. Qed.

Definition vst s : tst T := MkSt (mem s) (view s) (ctx s).
Lemma den_grow s s' k mt j e sh : tens s' = tens s ++ [MkNode k mt] -> mem s' = mem s -> builded mt = false -> k <> KMat ->
  den s j e sh -> den s' j e sh.
Proof.
  intros E Em Hb Hk [D U S N]. pose proof (view_app s s' k mt E Hb) as Ev. rewrite <- Em in D. split; rewrite Ev.
  - apply denotes_grow. exact D.
  - intros i n Hi Hn Hlf. pose proof (below_grow _ _ _ _ _ _ D Hi) as Hi'. apply (U i n Hi'); [|exact Hlf].
    pose proof (below_le _ _ _ _ D _ Hi') as Hle.
    assert (j < length (view s)) by (inversion D; subst; eapply lookup_lt_Some; eassumption).
    rewrite lookup_app_l in Hn by lia. exact Hn.
  - rewrite <- S. apply shape_of_ext. intros i. apply (leafsh_new (vst s) k mt Hk).
  - eapply no_crossing_ext; [|exact N]. intros i. symmetry. apply (leafsh_new (vst s) k mt Hk).
Qed.
Lemma eval_grow s s' k mt e m h : tens s' = tens s ++ [MkNode k mt] -> builded mt = false -> k <> KMat ->
  eval (leafv (view s') m) h e = eval (leafv (view s) m) h e.
Proof.
  intros E Hb Hk. rewrite (view_app s s' k mt E Hb). apply eval_ext. intros i. apply (leafv_new (vst s) m k mt Hk).
Qed.
(** Memory that grows. *)
Lemma denotes_mem n n' tns j (e : expr T) : n <= n' -> denotes n tns j e -> denotes n' tns j e.
Proof.
  intros Hn D. induction D; econstructor; try eassumption; try lia. eapply wf_mat_mono; eassumption.
Qed.
Lemma den_mem s s' j e sh : tens s' = tens s -> length (mem s) <= length (mem s') -> den s j e sh -> den s' j e sh.
Proof.
  intros E Em [D U S N]. assert (Ev : view s' = view s) by (unfold view; rewrite E; reflexivity).
  split; rewrite Ev; try assumption. eapply denotes_mem; eassumption.
Qed.
(** One more node on top. *)
Lemma den_new s s' k mt e sh :
  tens s' = tens s ++ [MkNode k mt] -> mem s' = mem s -> builded mt = false -> k <> KMat ->
  denotes (length (mem s)) (view s') (length (tens s)) e ->
  (forall c, c ∈ children k -> c < length (tens s) /\ exists ec shc, den s c ec shc) ->
  shape_of (leafsh (view s)) e = Some sh -> no_crossing (leafsh (view s)) e ->
  den s' (length (tens s)) e sh.
Proof.
  intros E Em Hb Hk Hd Hc Hs Hn. pose proof (view_app s s' k mt E Hb) as Ev.
  assert (Hlv : length (view s) = length (tens s)) by (unfold view; apply map_length).
  split.
  - rewrite Em. exact Hd.
  - rewrite Ev. intros i n Hi Hni Hlf. inversion Hi as [|? n0 c ? Hn0 Hcc Hbe]; subst.
    + rewrite lookup_app_r in Hni by lia. rewrite Hlv, Nat.sub_diag in Hni. cbn in Hni. injection Hni as <-. exact Hb.
    + rewrite lookup_app_r in Hn0 by lia. rewrite Hlv, Nat.sub_diag in Hn0. cbn in Hn0. injection Hn0 as <-. cbn [nkind] in Hcc.
      destruct (Hc _ Hcc) as (Hlt & ec & shc & [Dc Uc Sc Nc]). rewrite <- Ev in *.
      pose proof (den_grow s s' k mt c ec shc E Em Hb Hk (Build_den _ _ _ _ Dc Uc Sc Nc)) as [_ U' _ _].
      apply (U' i n Hbe Hni Hlf).
  - rewrite <- Hs. rewrite Ev. apply shape_of_ext. intros i. apply (leafsh_new (vst s) k mt Hk).
  - rewrite Ev. eapply no_crossing_ext; [|exact Hn]. intros i. symmetry. apply (leafsh_new (vst s) k mt Hk).
Qed.
Lemma den_lt s j e sh : den s j e sh -> j < length (tens s).
Proof.
  intros [D _ _ _]. replace (length (tens s)) with (length (view s)) by (unfold view; apply map_length).
  inversion D; subst; eapply lookup_lt_Some; eassumption.
Qed.
Lemma den_denotes_grow s s' k mt j e sh : tens s' = tens s ++ [MkNode k mt] -> builded mt = false ->
  den s j e sh -> denotes (length (mem s)) (view s') j e.
Proof. intros E Hb [D _ _ _]. rewrite (view_app s s' k mt E Hb). apply denotes_grow. exact D. Qed.
Lemma view_top s s' k mt : tens s' = tens s ++ [MkNode k mt] -> builded mt = false -> view s' !! length (tens s) = Some (MkNode k mt).
Proof.
  intros E Hb. rewrite (view_app s s' k mt E Hb). assert (Hlv : length (view s) = length (tens s)) by (unfold view; apply map_length).
  rewrite lookup_app_r by lia. rewrite Hlv, Nat.sub_diag. reflexivity.
Qed.

Ltac one_child := let c := fresh "c" in let Hc := fresh "Hc" in
  intros c Hc; apply elem_of_list_singleton in Hc as ->; split; [eapply den_lt; eassumption|eauto].
(** [unary]: what holds of a new node over one settled or unbuilt expression. *)
Lemma den_un s s' k mt t e e' sh sh' :
  tens s' = tens s ++ [MkNode k mt] -> mem s' = mem s -> builded mt = false -> k <> KMat -> children k = [t] ->
  den s t e sh ->
  (view s' !! length (tens s) = Some (MkNode k mt) -> t < length (tens s) -> denotes (length (mem s)) (view s') t e ->
    denotes (length (mem s)) (view s') (length (tens s)) e') ->
  shape_of (leafsh (view s)) e' = Some sh' -> no_crossing (leafsh (view s)) e' -> den s' (length (tens s)) e' sh'.
Proof.
  intros E Em Hb Hk Hch Hd Hden Hs Hn. eapply den_new; try eassumption.
  - apply Hden; [eapply view_top; eassumption|eapply den_lt; exact Hd|eapply den_denotes_grow; eassumption].
  - rewrite Hch. one_child.
Qed.

(** Building it. *)
Definition evals s (m : list T) (e : expr T) : option (vten T) := eval (leafv (view s) m) (fun x => m !! x) e.
Lemma exec_computes s s' new pads j e sh : computes s s' new pads j e sh ->
  exists n', tens s' !! j = Some n' /\ builded (nmat n') = true /\ wf_mat (length (mem s')) (nmat n') /\ shape (nmat n') = sh /\
    forall m m', length (mem s') <= length m -> zeroed pads m -> exec new m = Some m' ->
      exists v, evals s m e = Some v /\ mval m' (nmat n') = Some v.
Proof. auto. Qed.
Definition outcome (new : list (op T)) (m : list T) (out : tmat) (r : option (vten T)) : Prop :=
  match r with
  | Some v => exists m', exec new m = Some m' /\ mval m' out = Some v
  | None => exec new m = None
  end.
Lemma zeroed_consts pads (m : list T) : consts (map (fun l => (l, nzero)) pads) m <-> zeroed pads m.
Proof. unfold consts, zeroed. rewrite Forall_map. reflexivity. Qed.

Lemma seg_build s id e sh : den s id e sh ->
  exists s' new C W, Build id s = (Ok tt, s') /\ seg W s s' new C /\ (forall l, W l -> length (mem s) <= l) /\
    length (tens s') = length (tens s) /\
    (exists n', tens s' !! id = Some n' /\ builded (nmat n') = true /\ wf_mat (length (mem s')) (nmat n') /\ shape (nmat n') = sh /\
      forall m, length (mem s') <= length m -> consts C m -> outcome new m (nmat n') (evals s m e)) /\
    (forall j ej shj, below (view s) id j -> denotes (length (mem s)) (view s) j ej -> shape_of (leafsh (view s)) ej = Some shj ->
       exists n', tens s' !! j = Some n' /\ builded (nmat n') = true /\ wf_mat (length (mem s')) (nmat n') /\ shape (nmat n') = shj /\
         forall m m', length (mem s') <= length m -> consts C m -> exec new m = Some m' ->
            exists v, evals s m ej = Some v /\ mval m' (nmat n') = Some v).
Proof.
  intros [D U S N]. destruct (build_expr s id e sh D U S N) as (s' & new & pads & E & B & Hc & Hp & Hb).
  exists s', new, (map (fun l => (l, nzero)) pads), (fun l => dst_in l new). split; [exact E|]. split; [|split; [|split; [|split]]].
  - destruct B. split; try assumption.
    + intros m m' l _ Hx Hl. eapply exec_frame; eassumption.
    + rewrite Forall_map. exact be_pads.
    + intros l Hl. apply be_dst in Hl. lia.
    + intros j n Hn. destruct (be_keep _ _ Hn) as (n' & Hn' & Hk & Hbb & Hss). exists n'. split; [exact Hn'|]. split; [exact Hk|].
      split; [|exact Hss]. intros Hbn. rewrite (Hbb Hbn). exact Hbn.
  - intros l Hl. apply (be_dst _ _ _ _ B) in Hl. lia.
  - apply B.
  - destruct Hc as (n' & Hn' & Hbn & Hwf & Hsh & Hex). exists n'. repeat (split; [assumption|]).
    intros m Hm HC. apply zeroed_consts in HC. unfold outcome, evals. destruct (eval _ _ e) as [v|] eqn:Ev.
    + destruct (Hp m v Hm HC Ev) as [m' Hx]. exists m'. split; [exact Hx|]. destruct (Hex m m' Hm HC Hx) as (v' & Hv' & Hmv). congruence.
    + destruct (exec new m) as [m'|] eqn:Hx; [|reflexivity]. destruct (Hex m m' Hm HC Hx) as (v' & Hv' & _). congruence.
  - intros j ej shj Hj Hdj Hsj. destruct (Hb j ej shj Hj Hdj Hsj) as (n' & Hn' & Hbn & Hwf & Hsh & Hex). exists n'.
    repeat (split; [assumption|]). intros m m' Hm HC Hx. apply zeroed_consts in HC. apply Hex; assumption.
Qed.
End FwdSeg.
