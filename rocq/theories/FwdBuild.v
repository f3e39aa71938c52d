(** * FwdBuild: building an expression over tensors that are already there *)
From Verif Require Import Base Num ModelTools ModelOps ModelTensor ModelGraph Spec Denote
  IndexProofs ExecProofs TensorFacts BuildFrame BuildProofs CompileProofs FwdMask.
From Coq Require Import Lia.

Section FwdBuild.
Context {T : Type} `{Num T}.
Implicit Types (s : tst T).

(** ** Everything below a built object is built *)
Definition isbuilt s (j : nat) : Prop := exists n, tens s !! j = Some n /\ builded (nmat n) = true.
Definition closed (X : nat -> Prop) s : Prop :=
  forall j n c, tens s !! j = Some n -> builded (nmat n) = true -> ~ X j -> c ∈ children (nkind n) -> isbuilt s c.

Lemma isbuilt_within P s s' j : within P s s' -> isbuilt s j -> isbuilt s' j.
Proof. intros (_ & _ & _ & K) (n & Hn & Hb). destruct (K _ _ Hn) as (n' & Hn' & _ & Hb'). exists n'. auto. Qed.
Lemma isbuilt_only i s s' j : only i s s' -> isbuilt s j -> isbuilt s' j.
Proof. intros Ho. eapply (isbuilt_within (fun j => j = i)). apply (only_within i); [reflexivity|exact Ho]. Qed.

Lemma closed_only X i s s' : closed (fun j => X j \/ j = i) s -> only i s s' ->
  (forall n c, tens s' !! i = Some n -> c ∈ children (nkind n) -> isbuilt s' c) -> closed X s'.
Proof.
  intros Hc Ho Hi j n c Hn Hb HX Hch. destruct (decide (j = i)) as [->|Hne]; [eapply Hi; eassumption|].
  eapply isbuilt_only; [exact Ho|]. destruct Ho as (_ & _ & F & _). rewrite (F _ Hne) in Hn.
  eapply Hc; [exact Hn|exact Hb| |exact Hch]. tauto.
Qed.
Lemma closed_weak (X Y : nat -> Prop) s : closed X s -> (forall j, X j -> Y j) -> closed Y s.
Proof. intros Hc Hxy j n c Hn Hb HX Hch. eapply Hc; eauto. Qed.
Lemma closed_mark X i s s' : closed X s -> only i s s' -> closed (fun j => X j \/ j = i) s'.
Proof.
  intros Hc Ho j n c Hn Hb HX Hch. eapply isbuilt_only; [exact Ho|]. destruct Ho as (_ & _ & F & _).
  rewrite F in Hn by tauto. eapply Hc; [exact Hn|exact Hb|tauto|exact Hch].
Qed.

Lemma BuildGraph_closed fuel : forall id X s s',
  closed X s -> BuildGraph fuel id s = (Ok tt, s') -> closed X s' /\ isbuilt s' id.
Proof.
  induction fuel as [|fuel IH]; intros id X s s' Hc E; [discriminate|].
  cbn [BuildGraph] in E. destruct (tens s !! id) as [n|] eqn:Hn.
  2:{ rewrite (get_node_none _ _ _ Hn) in E. discriminate. }
  rewrite (get_node_bnd _ _ _ _ Hn) in E. destruct (builded (nmat n)) eqn:Hb.
  { injection E as <-. split; [exact Hc|]. exists n. auto. }
  destruct (set_built id s) as [r0 s0] eqn:E0. unfold mbnd at 1 in E. rewrite E0 in E.
  pose proof (only_set_built id _ _ _ E0) as Ho0.
  assert (Hs0 : r0 = Ok tt /\ isbuilt s0 id /\ exists n', tens s0 !! id = Some n' /\ nkind n' = nkind n).
  { unfold set_built, upd_mat in E0. rewrite Hn in E0. injection E0 as <- <-. split; [reflexivity|].
    unfold isbuilt. cbn [tens]. rewrite list_lookup_insert by (eapply lookup_lt_Some; exact Hn).
    split; eexists; (split; [reflexivity|]); reflexivity. }
  destruct Hs0 as (-> & Hid & (n' & Hn' & Hk')).
  pose proof (closed_mark _ _ _ _ Hc Ho0) as Hc0.
  (* the part after the children *)
  assert (Hown : forall s1, closed (fun j => X j \/ j = id) s1 -> isbuilt s1 id ->
     (exists n1, tens s1 !! id = Some n1 /\ nkind n1 = nkind n) ->
     (forall c, c ∈ children (nkind n) -> isbuilt s1 c) -> own_part id (nkind n) s1 = (Ok tt, s') ->
     closed X s' /\ isbuilt s' id).
  { intros s1 Hc1 Hi1 (n1 & Hn1 & Hk1) Hch E1. pose proof (only_own id (nkind n) _ _ _ E1) as Ho.
    split; [|eapply isbuilt_only; eassumption].
    eapply closed_only; [exact Hc1|exact Ho|]. intros n2 c Hn2 Hcc.
    eapply isbuilt_only; [exact Ho|]. apply Hch.
    destruct Ho as (_ & _ & _ & K). destruct (K _ Hn1) as (n3 & Hn3 & E3 & _). rewrite Hn2 in Hn3. injection Hn3 as <-. 
    rewrite <- Hk1, <- E3. exact Hcc. }
  assert (Hstep : forall t (c : TM T unit) s1,
     closed (fun j => X j \/ j = id) s1 -> isbuilt s1 id -> (exists n1, tens s1 !! id = Some n1 /\ nkind n1 = nkind n) ->
     (BuildGraph fuel t ;~ c) s1 = (Ok tt, s') ->
     exists s2, c s2 = (Ok tt, s') /\ closed (fun j => X j \/ j = id) s2 /\ isbuilt s2 id /\
       (exists n1, tens s2 !! id = Some n1 /\ nkind n1 = nkind n) /\ isbuilt s2 t /\ (forall j, isbuilt s1 j -> isbuilt s2 j)).
  { intros t c s1 Hc1 Hi1 (n1 & Hn1 & Hk1) E1. unfold mbnd in E1. destruct (BuildGraph fuel t s1) as [[[]| | |] s2] eqn:E2; try discriminate.
    pose proof (BuildGraph_within _ _ _ _ _ E2) as W. destruct (IH _ _ _ _ Hc1 E2) as [Hc2 Hb2].
    exists s2. split; [exact E1|]. split; [exact Hc2|]. split; [eapply isbuilt_within; eassumption|].
    split; [|split; [exact Hb2|intros j; eapply isbuilt_within; exact W]].
    destruct W as (_ & _ & _ & K). destruct (K _ _ Hn1) as (n2 & Hn2 & Ek & _). exists n2. split; [exact Hn2|congruence]. }
  destruct (nkind n) eqn:Hk; cbn [children] in *.
  1:{ assert (Ho : only id s0 s').
      { eapply (sat_mfor _ (only_po id)); [|exact E]. intros. apply only_push. }
      split; [|eapply isbuilt_only; eassumption]. eapply closed_only; [exact Hc0|exact Ho|].
      intros n2 c Hn2 Hcc. destruct Ho as (_ & _ & _ & K). destruct (K _ Hn') as (n3 & Hn3 & E3 & _).
      rewrite Hn2 in Hn3. injection Hn3 as <-. rewrite E3, Hk' in Hcc. inversion Hcc. }
  all: try (match type of E with (mbnd (BuildGraph _ ?a) (fun _ => mbnd (BuildGraph _ _) _)) _ = _ => idtac end;
    destruct (Hstep _ _ _ Hc0 Hid (ex_intro _ n' (conj Hn' Hk')) E) as (s2 & E2 & Hc2 & Hi2 & Hk2 & Hb2 & Hm2);
    destruct (Hstep _ _ _ Hc2 Hi2 Hk2 E2) as (s3 & E3 & Hc3 & Hi3 & Hk3 & Hb3 & Hm3);
    apply (Hown s3); [exact Hc3|exact Hi3|exact Hk3| |exact E3];
    intros c Hcc; apply elem_of_cons in Hcc as [->|Hcc]; [auto|];
    apply elem_of_cons in Hcc as [->|Hcc]; [auto|inversion Hcc]).
  all: destruct (Hstep _ _ _ Hc0 Hid (ex_intro _ n' (conj Hn' Hk')) E) as (s2 & E2 & Hc2 & Hi2 & Hk2 & Hb2 & Hm2);
    apply (Hown s2); [exact Hc2|exact Hi2|exact Hk2| |exact E2];
    intros c Hcc; apply elem_of_cons in Hcc as [->|Hcc]; [auto|inversion Hcc].
Qed.

Lemma below_built s s' id X : closed X s' -> (forall j, below (tens s) id j -> ~ X j) ->
  (forall j n, tens s !! j = Some n -> exists n', tens s' !! j = Some n' /\ nkind n' = nkind n) ->
  isbuilt s' id -> forall j, below (tens s) id j -> isbuilt s' j.
Proof.
  intros Hc HX Hk Hb j Hj. induction Hj as [|id n c j Hn Hcc Hj IH]; [exact Hb|].
  destruct (Hk _ _ Hn) as (n' & Hn' & E). apply IH.
  - intros i Hi. apply HX. eapply B_step; eassumption.
  - destruct Hb as (n2 & Hn2 & Hb2). rewrite Hn' in Hn2. injection Hn2 as <-.
    eapply Hc; [exact Hn'|exact Hb2|apply HX; constructor|]. rewrite E. exact Hcc.
Qed.

(** ** The result of building an expression *)
Definition view s : list (node T) := map mask (tens s).
Lemma view_lookup s j : view s !! j = mask <$> tens s !! j.
Proof. apply list_lookup_fmap. Qed.

(** A plain tensor or one that is already built. *)
Definition settled (n : node T) : Prop := nkind n = KMat \/ builded (nmat n) = true.

Record built_expr s s' (new : list (op T)) (pads : list nat) : Prop := {
  be_mem : exists ext, mem s' = mem s ++ ext;
  be_ctx : ctx s' = ctx s ++ new;
  be_dst : forall l, dst_in l new -> length (mem s) <= l < length (mem s');
  be_pads : Forall (fun l => length (mem s) <= l /\ mem s' !! l = Some nzero /\ ~ dst_in l new) pads;
  be_len : length (tens s') = length (tens s);
  be_keep : forall j n, tens s !! j = Some n -> exists n', tens s' !! j = Some n' /\ nkind n' = nkind n /\
    (builded (nmat n) = true -> n' = n) /\
    (settled n -> shape (nmat n') = shape (nmat n) /\ mulindex (nmat n') = mulindex (nmat n) /\ operands (nmat n') = operands (nmat n));
}.
(** After building, object [j] holds the value of [e]. *)
Definition computes s s' (new : list (op T)) (pads : list nat) (j : nat) (e : expr T) (sh : list N) : Prop :=
  exists n', tens s' !! j = Some n' /\ builded (nmat n') = true /\ wf_mat (length (mem s')) (nmat n') /\ shape (nmat n') = sh /\
    forall m m', length (mem s') <= length m -> zeroed pads m -> exec new m = Some m' ->
      exists v, eval (leafv (view s) m) (fun x => m !! x) e = Some v /\ mval m' (nmat n') = Some v.

Lemma mask_skel_settled (n n' : node T) : mask n = n -> skel n' = skel (mask n) -> settled n ->
  shape (nmat n') = shape (nmat n) /\ mulindex (nmat n') = mulindex (nmat n) /\ operands (nmat n') = operands (nmat n).
Proof.
  intros E Hs Hst. rewrite E in Hs. assert (Hk : nkind n = KMat).
  { destruct Hst as [Hk|Hb]; [exact Hk|]. unfold mask in E. rewrite Hb in E. rewrite <- E. reflexivity. }
  pose proof (skel_kind _ _ Hs) as Hk'. rewrite Hk in Hk'. destruct n as [k m], n' as [k' m']. cbn in *. subst.
  unfold skel in Hs. cbn in Hs. injection Hs. auto.
Qed.

Theorem build_expr s id e sh :
  denotes (length (mem s)) (view s) id e -> uncompiled (view s) id ->
  shape_of (leafsh (view s)) e = Some sh -> no_crossing (leafsh (view s)) e ->
  exists s' new pads, Build id s = (Ok tt, s') /\ built_expr s s' new pads /\
    computes s s' new pads id e sh /\
    (forall m v, length (mem s') <= length m -> zeroed pads m ->
       eval (leafv (view s) m) (fun x => m !! x) e = Some v -> exists m', exec new m = Some m') /\
    (forall j ej shj, below (view s) id j -> denotes (length (mem s)) (view s) j ej ->
       shape_of (leafsh (view s)) ej = Some shj -> computes s s' new pads j ej shj).
Proof.
  intros Hd Hun Hsh Hnc. destruct (Build_masked s id) as (s' & s0' & R & E & E0).
  pose proof (Inv_start (masked s) id Hun) as HI0.
  destruct (build_ok (length (mem s)) (view s) (S id) id _ _ _ e sh ltac:(lia) HI0 Hd Hsh Hnc)
    as (s1 & P' & Hb & new & G & K & HI & (n1 & Hn1 & Hbn & Hmok) & Hpr).
  { intros j Hj HX. auto. }
  change (BuildGraph (S id) id (masked s) = (Ok tt, s1)) in Hb.
  unfold Build in E, E0. rewrite Hb in E, E0. cbn [fst snd] in E, E0. subst s0'.
  destruct R as [Rm Rc Rl Rt]. 
  assert (Hnew : ctx s1 = new) by (rewrite (gr_ctx _ _ _ _ _ G); reflexivity).
  assert (Hlen : length (tens s') = length (tens s)).
  { rewrite <- Rl. pose proof (BuildGraph_within _ _ _ _ _ Hb) as (_ & L & _). rewrite L. cbn. rewrite map_length. reflexivity. }
  pose proof (BuildGraph_within _ _ _ _ _ E) as W.
  assert (Hbel : forall j, below (view s) id j -> isbuilt s1 j).
  { eapply (below_built (masked s) s1 id (fun _ => False)).
    - apply (BuildGraph_closed (S id) id (fun _ => False) (masked s)); [|exact Hb].
      intros j n c Hn Hbb _ Hcc. cbn [masked tens] in Hn. rewrite list_lookup_fmap in Hn.
      destruct (tens s !! j) as [n0|]; [|discriminate]. cbn in Hn. injection Hn as <-. unfold mask in Hbb, Hcc.
      destruct (builded (nmat n0)) eqn:Hb0; [inversion Hcc|cbn in Hbb; congruence].
    - auto.
    - intros j n Hn. pose proof (BuildGraph_within _ _ _ _ _ Hb) as (_ & _ & _ & K1). destruct (K1 _ _ Hn) as (n' & Hn' & Ek & _). eauto.
    - exists n1. auto. }
  assert (Hnode : forall j nn, tens s1 !! j = Some nn -> exists n', tens s' !! j = Some n' /\ nmat n' = nmat nn).
  { intros j nn Hj. destruct (lookup_lt_is_Some_2 (tens s') j) as [n' Hn']; [rewrite <- Rl; eapply lookup_lt_Some; exact Hj|].
    exists n'. split; [exact Hn'|]. destruct (Rt _ _ Hn') as (n0 & Hn0 & Em & _). rewrite Hj in Hn0. injection Hn0 as <-. congruence. }
  assert (Hcomp : forall j ej shj nn, tens s1 !! j = Some nn -> builded (nmat nn) = true ->
     shape_of (leafsh (view s)) ej = Some shj ->
     mat_ok (view s) s1 P' ej (nmat nn) -> computes s s' new P' j ej shj).
  { intros j ej shj nn Hj Hbj Hs (Hs' & Hwf & Hex). destruct (Hnode _ _ Hj) as (n' & Hn' & Em).
    exists n'. rewrite Em. split; [exact Hn'|]. split; [exact Hbj|]. rewrite <- Rm. split; [exact Hwf|]. split; [congruence|].
    intros m m' Hm Hz Hx. rewrite Hnew in Hex. destruct (Hex m m' Hm Hz Hx) as (v & Hv & Hmv). exists v. auto. }
  exists s', new, P'. split; [exact E|]. split; [|split; [|split]].
  - split.
    + rewrite <- Rm. exact (gr_mem _ _ _ _ _ G).
    + rewrite Rc, Hnew. reflexivity.
    + intros l Hl. rewrite <- Rm. apply (gr_dst _ _ _ _ _ G) in Hl. exact Hl.
    + rewrite <- Rm. rewrite <- Hnew. exact (inv_pad _ _ _ _ _ HI).
    + exact Hlen.
    + intros j n Hn. destruct W as (_ & _ & _ & KW). destruct (KW _ _ Hn) as (n' & Hn' & Ek & Hbm). exists n'.
      split; [exact Hn'|]. split; [exact Ek|].
      pose proof (Rt _ _ Hn') as (n0 & Hn0 & Em & _).
      assert (Hv : view s !! j = Some (mask n)) by (rewrite view_lookup, Hn; reflexivity).
      split.
      * intros Hbb. assert (Hm : mask n = MkNode KMat (nmat n)) by (unfold mask; rewrite Hbb; reflexivity).
        assert (Hk0 : tens s1 !! j = Some (mask n)).
        { apply K; [exact Hv|rewrite Hm; exact Hbb]. }
        rewrite Hn0 in Hk0. injection Hk0 as ->. rewrite Hm in Em. cbn in Em.
        destruct n, n'. cbn in *. subst. reflexivity.
      * intros Hst. destruct (builded (nmat n)) eqn:Hbb.
        -- assert (Hm : mask n = MkNode KMat (nmat n)) by (unfold mask; rewrite Hbb; reflexivity).
           assert (Hk0 : tens s1 !! j = Some (mask n)).
           { apply K; [exact Hv|rewrite Hm; exact Hbb]. }
           rewrite Hn0 in Hk0. injection Hk0 as ->. rewrite Hm in Em. cbn in Em. rewrite <- Em. auto.
        -- assert (Hm : mask n = n) by (unfold mask; rewrite Hbb; reflexivity).
           destruct (skel_lookup _ _ _ _ (inv_skel _ _ _ _ _ HI) Hv) as (n2 & Hn2 & Hs2).
           rewrite Hn0 in Hn2. injection Hn2 as <-. 
           pose proof (mask_skel_settled n n0 Hm Hs2 Hst) as Hr. rewrite Em in Hr. exact Hr.
  - eapply Hcomp; eassumption.
  - intros m v Hm Hz Hv. apply (Hpr m m v); [rewrite Rm; exact Hm|exact Hz|reflexivity|exact Hv].
  - intros j ej shj Hj Hdj Hsj. destruct (Hbel _ Hj) as (nn & Hnn & Hbb).
    eapply Hcomp; [exact Hnn|exact Hbb|exact Hsj|]. eapply (inv_ok _ _ _ _ _ HI); [exact Hnn|exact Hbb| |exact Hdj|eauto].
    auto.
Qed.
End FwdBuild.
