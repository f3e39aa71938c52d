(** * CompileProofs: compiling an object graph is correct *)
From Verif Require Import Base Num ModelTools ModelOps ModelTensor ModelGraph Spec Denote
  IndexProofs ExecProofs TensorFacts BuildProofs BuildProofs2 BuildProofs3.
From Coq Require Import Lia ZifyBool ZifyNat ZifyN.

Section Compile.
Context {T : Type} `{Num T}.

(** The part of an object that compiling never changes. *)
Definition skel (n : node T) : kind T * list N * list N * list ptr :=
  match nkind n with
  | KMat => (KMat, shape (nmat n), mulindex (nmat n), operands (nmat n))
  | KReshape t => (KReshape t, shape (nmat n), [], [])
  | k => (k, [], [], [])
  end.
Lemma skel_kind n n' : skel n = skel n' -> nkind n = nkind n'.
Proof. destruct n as [k m], n' as [k' m']. unfold skel. cbn. destruct k, k'; congruence. Qed.

Lemma skel_lookup (t1 t2 : list (node T)) id n :
  map skel t1 = map skel t2 -> t2 !! id = Some n -> exists n', t1 !! id = Some n' /\ skel n' = skel n.
Proof.
  intros E Hn. assert (map skel t1 !! id = Some (skel n)) as Hm.
  { rewrite E, list_lookup_fmap, Hn. reflexivity. }
  rewrite list_lookup_fmap in Hm. destruct (t1 !! id) as [n'|]; [|discriminate].
  exists n'. split; [reflexivity|]. cbn in Hm. congruence.
Qed.

Lemma denotes_det n0 tns id e e' : denotes n0 tns id e -> denotes n0 tns id e' -> e = e'.
Proof.
  intros Hd. revert e'. induction Hd; intros e' Hd'; inversion Hd'; subst;
    match goal with
    | H1 : tns !! id = Some ?x, H2 : tns !! id = Some ?y |- _ => rewrite H1 in H2; try discriminate; injection H2 as ?; subst
    end; f_equal; auto.
Qed.

Lemma denotes_skel n0 t1 t2 id e :
  map skel t1 = map skel t2 -> denotes n0 t2 id e -> denotes n0 t1 id e.
Proof.
  intros E Hd. induction Hd;
    match goal with
    | Hl : t2 !! id = Some _ |- _ =>
        destruct (skel_lookup _ _ _ _ E Hl) as ([k' m'] & Hl' & Hs);
        pose proof (skel_kind _ _ Hs) as Hk; cbn in Hk; subst k'; unfold skel in Hs; cbn in Hs
    end; try (econstructor; eassumption).
  - injection Hs as E1 E2 E3. eapply D_leaf; [exact Hl'|].
    destruct H1 as (? & ? & ? & ?). unfold wf_mat. rewrite E1, E2, E3. auto.
  - injection Hs as <-. eapply D_reshape; eassumption.
Qed.

Lemma shape_of_fits ls (e : expr T) sh : shape_of ls e = Some sh -> fits sh.
Proof.
  assert (Hone : fits [1%N]).
  { split; [constructor; [|constructor]|]; reflexivity. }
  revert sh. induction e; intros sh0 E; cbn in E;
    repeat match type of E with
    | (?x ≫= _) = Some _ => destruct x eqn:?; cbn in E; [|discriminate]
    | (if ?c then _ else _) = Some _ => destruct c; [|discriminate]
    | fit _ = Some _ => apply fit_Some in E as [-> ?]
    end; try (injection E as <-); eauto.
  - apply fits_reverse. eauto.
  - unfold dot_shape in E.
    repeat match type of E with
    | match ?x with _ => _ end = Some _ => destruct x eqn:?; try discriminate
    | fit _ = Some _ => apply fit_Some in E as [-> ?]
    | Some _ = Some _ => injection E as <-
    end; auto.
  - unfold dot_shape in E.
    repeat match type of E with
    | match ?x with _ => _ end = Some _ => destruct x eqn:?; try discriminate
    | fit _ = Some _ => apply fit_Some in E as [-> ?]
    | Some _ = Some _ => injection E as <-
    end; auto.
Qed.

Section Fixed.
Variable n0 : nat.
Variable tns0 : list (node T).

Definition ev (m : list T) (e : expr T) : option (vten T) :=
  eval (leafv tns0 m) (fun x => m !! x) e.
Definition zeroed (P : list nat) (m : list T) : Prop := Forall (fun l => m !! l = Some nzero) P.

(** After running the context, the object's scalars hold the value of [e]. *)
Definition mat_ok (s : tst T) (P : list nat) (e : expr T) (mt : tmat) : Prop :=
  shape_of (leafsh tns0) e = Some (shape mt) /\
  wf_mat (length (mem s)) mt /\
  forall m m1, length (mem s) <= length m -> zeroed P m -> exec (ctx s) m = Some m1 ->
    exists v, ev m e = Some v /\ mval m1 mt = Some v.

(** [X]: objects whose own part is still to come. *)
Record Inv (s : tst T) (P : list nat) (X : nat -> Prop) : Prop := {
  inv_skel : map skel (tens s) = map skel tns0;
  inv_len : n0 <= length (mem s);
  inv_pad : Forall (fun l => n0 <= l /\ mem s !! l = Some nzero /\ ~ dst_in l (ctx s)) P;
  inv_dst : forall l, dst_in l (ctx s) -> n0 <= l < length (mem s);
  inv_ok : forall id n e, tens s !! id = Some n -> builded (nmat n) = true -> ~ X id ->
    denotes n0 tns0 id e -> (exists sh, shape_of (leafsh tns0) e = Some sh) -> mat_ok s P e (nmat n);
}.

(** Growing the memory and the context keeps what was already right. *)
Record grows (s s' : tst T) (P P' : list nat) (new : list (op T)) : Prop := {
  gr_mem : exists ext, mem s' = mem s ++ ext;
  gr_ctx : ctx s' = ctx s ++ new;
  gr_pads : forall l, l ∈ P -> l ∈ P';
  gr_dst : forall l, dst_in l new -> length (mem s) <= l < length (mem s');
}.
(** Objects that are built are not touched again. *)
Definition keeps (s s' : tst T) : Prop :=
  forall j n, tens s !! j = Some n -> builded (nmat n) = true -> tens s' !! j = Some n.

Lemma grows_len s s' P P' new : grows s s' P P' new -> length (mem s) <= length (mem s').
Proof. intros [[ext E] _ _ _]. rewrite E, app_length. lia. Qed.

Lemma grows_refl s s' P : mem s' = mem s -> ctx s' = ctx s -> grows s s' P P [].
Proof.
  intros E1 E2. split; auto.
  - exists []. rewrite app_nil_r. assumption.
  - rewrite app_nil_r. assumption.
  - intros l Hl. destruct (dst_in_nil _ Hl).
Qed.
Lemma grows_trans s1 s2 s3 P1 P2 P3 a b :
  grows s1 s2 P1 P2 a -> grows s2 s3 P2 P3 b -> grows s1 s3 P1 P3 (a ++ b).
Proof.
  intros G1 G2. pose proof (grows_len _ _ _ _ _ G1). pose proof (grows_len _ _ _ _ _ G2).
  destruct G1 as [[e1 M1] C1 A1 D1], G2 as [[e2 M2] C2 A2 D2]. split.
  - exists (e1 ++ e2). rewrite M2, M1, app_assoc. reflexivity.
  - rewrite C2, C1, app_assoc. reflexivity.
  - auto.
  - intros l Hl. apply dst_in_app in Hl as [Hl|Hl]; [apply D1 in Hl|apply D2 in Hl]; lia.
Qed.

Lemma zeroed_incl P P' m : (forall l, l ∈ P -> l ∈ P') -> zeroed P' m -> zeroed P m.
Proof. unfold zeroed. rewrite !Forall_forall. auto. Qed.

Lemma exec_split a b (m m' : list T) :
  exec (a ++ b) m = Some m' -> exists m1, exec a m = Some m1 /\ exec b m1 = Some m'.
Proof. rewrite exec_app. destruct (exec a m) as [m1|]; cbn; [eauto|discriminate]. Qed.

Lemma mval_frame (m m' : list T) n mt :
  wf_mat n mt -> (forall l, l < n -> m' !! l = m !! l) -> mval m' mt = mval m mt.
Proof.
  intros (_ & _ & _ & Hv) Hl. unfold mval. rewrite (rds_ext m' m); [reflexivity|].
  intros l Hin. rewrite Forall_forall in Hv. destruct (Hv _ Hin) as (l' & [= <-] & Hlt). auto.
Qed.

Lemma mat_ok_grows s s' P P' new e mt :
  grows s s' P P' new -> mat_ok s P e mt -> mat_ok s' P' e mt.
Proof.
  intros G (Hsh & Hwf & Hex). pose proof (grows_len _ _ _ _ _ G) as Hlen.
  split; [assumption|]. split; [eapply wf_mat_mono; eassumption|].
  intros m m2 Hm Hz Hx. rewrite (gr_ctx _ _ _ _ _ G) in Hx.
  apply exec_split in Hx as (m1 & Hx1 & Hx2).
  destruct (Hex m m1) as (v & Hv & Hmv); [lia|eapply zeroed_incl; [apply G|exact Hz]|assumption|].
  exists v. split; [assumption|]. rewrite <- Hmv. eapply mval_frame; [exact Hwf|].
  intros l Hl. eapply exec_frame; [exact Hx2|]. intros Hd. apply (gr_dst _ _ _ _ _ G) in Hd. lia.
Qed.

(** The result of building object [id] for expression [e]. *)
Definition built_ok (s s' : tst T) (P P' : list nat) (X : nat -> Prop) (id : nat) (e : expr T) : Prop :=
  exists new,
    grows s s' P P' new /\ keeps s s' /\ Inv s' P' X /\
    (exists n', tens s' !! id = Some n' /\ builded (nmat n') = true /\ mat_ok s' P' e (nmat n')) /\
    (forall m m1 v, length (mem s') <= length m -> zeroed P' m ->
       exec (ctx s) m = Some m1 -> ev m e = Some v -> exists m2, exec new m1 = Some m2).

(** Marking an object as built. *)
Lemma Inv_mark s s' P X id n :
  Inv s P X -> tens s !! id = Some n -> builded (nmat n) = false ->
  s' = st_with (mem s) (tens s) (ctx s) id (nkind n)
         (MkMat (shape (nmat n)) (mulindex (nmat n)) (operands (nmat n)) true) ->
  Inv s' P (fun j => X j \/ j = id) /\ grows s s' P P [] /\ keeps s s'.
Proof.
  intros HI Hn Hb ->. assert (Hid : id < length (tens s)) by (eapply lookup_lt_Some; exact Hn).
  split; [|split].
  - split; unfold st_with; cbn [mem tens ctx].
    + rewrite <- (inv_skel _ _ _ HI). rewrite list_fmap_insert.
      apply list_insert_id. rewrite list_lookup_fmap, Hn. reflexivity.
    + exact (inv_len _ _ _ HI).
    + exact (inv_pad _ _ _ HI).
    + exact (inv_dst _ _ _ HI).
    + intros j n' e Hj Hbj HX Hd Hs.
      destruct (decide (j = id)) as [->|Hne]; [exfalso; apply HX; auto|].
      rewrite list_lookup_insert_ne in Hj by congruence.
      destruct (inv_ok _ _ _ HI j n' e Hj Hbj) as (A & B & C); auto. split; [|split]; assumption.
  - apply grows_refl; reflexivity.
  - intros j n' Hj Hbj. unfold st_with. cbn [tens]. rewrite list_lookup_insert_ne; [assumption|]. intros ->. congruence.
Qed.

(** The own part of an operation. *)
Lemma finish s1 s2 P X id k m0 e sh val :
  Inv s1 P (fun j => X j \/ j = id) -> ready s1 id k m0 -> own_spec s1 s2 id k sh val ->
  denotes n0 tns0 id e -> shape_of (leafsh tns0) e = Some sh ->
  (match k with KReshape _ => shape m0 = sh | _ => True end) ->
  is_leaf k = false ->
  (forall m m1, length (mem s1) <= length m -> zeroed P m -> exec (ctx s1) m = Some m1 -> val m1 = ev m e) ->
  exists P2 new, grows s1 s2 P P2 new /\ (forall j, j <> id -> tens s2 !! j = tens s1 !! j) /\ Inv s2 P2 X /\
    (exists n', tens s2 !! id = Some n' /\ builded (nmat n') = true /\ mat_ok s2 P2 e (nmat n')) /\
    (forall m m1 v, length (mem s2) <= length m -> zeroed P2 m ->
       exec (ctx s1) m = Some m1 -> ev m e = Some v -> exists m2, exec new m1 = Some m2).
Proof.
  intros HI Hr Ho Hd Hsh Hsk Hk Hval.
  destruct Hr as [Hnode Hb0].
  destruct Ho as (ext & new & ops & pads & Hmem & Hctx & Htens & Hlo & Hvo & Hdst & Hpads & Hex).
  assert (Hid : id < length (tens s1)) by (eapply lookup_lt_Some; exact Hnode).
  pose proof (shape_of_fits _ _ _ Hsh) as Hfit.
  assert (Hlen : length (mem s1) <= length (mem s2)) by (rewrite Hmem, app_length; lia).
  assert (Hother : forall j, j <> id -> tens s2 !! j = tens s1 !! j).
  { intros j Hj. rewrite Htens. apply list_lookup_insert_ne. congruence. }
  assert (Hz1 : forall m m1, zeroed (P ++ pads) m -> length (mem s2) <= length m ->
     exec (ctx s1) m = Some m1 -> zeroed pads m1).
  { intros m m1 Hz Hm Hx. unfold zeroed in *. rewrite Forall_app in Hz. destruct Hz as [_ Hz].
    rewrite Forall_forall in Hz, Hpads |- *. intros l Hl. rewrite <- (Hz l Hl).
    eapply exec_frame; [exact Hx|]. intros Hdl. apply (inv_dst _ _ _ HI) in Hdl.
    destruct (Hpads l Hl) as (Hge & _). lia. }
  set (mt := MkMat sh (GetIndexMul sh) ops true).
  assert (Hmatok : mat_ok s2 (P ++ pads) e mt).
  { split; [assumption|]. split; [repeat split; try assumption; apply Hfit|].
    intros m m2 Hm Hz Hx. rewrite Hctx in Hx. apply exec_split in Hx as (m1 & Hx1 & Hx2).
    pose proof (exec_length _ _ _ Hx1) as Hl1.
    specialize (Hex m1 ltac:(lia) (Hz1 m m1 Hz Hm Hx1)).
    rewrite (Hval m m1) in Hex; [|lia|eapply zeroed_incl; [|exact Hz]; intros; apply elem_of_app; auto|assumption].
    destruct (ev m e) as [v|]; [|congruence].
    destruct Hex as (m2' & Hx2' & Hvs & Hrd). rewrite Hx2 in Hx2'. injection Hx2' as <-.
    exists v. split; [reflexivity|]. unfold mval, mt. cbn [operands shape]. rewrite Hrd. cbn. destruct v; cbn in *. congruence. }
  assert (HG : grows s1 s2 P (P ++ pads) new).
  { split.
    - eauto.
    - assumption.
    - intros l Hl. apply elem_of_app. auto.
    - assumption. }
  assert (HI2 : Inv s2 (P ++ pads) X).
  { split.
  - rewrite <- (inv_skel _ _ _ HI), Htens, list_fmap_insert. apply list_insert_id.
    rewrite list_lookup_fmap, Hnode. cbn. f_equal. unfold skel. cbn. destruct k; try reflexivity; [discriminate|].
    rewrite Hsk. reflexivity.
  - pose proof (inv_len _ _ _ HI). lia.
  - apply Forall_app. split.
    + eapply Forall_impl; [exact (inv_pad _ _ _ HI)|]. intros l (A & B & C).
      pose proof (lookup_lt_Some _ _ _ B) as Hlt.
      split; [assumption|]. split; [rewrite Hmem, lookup_app_l by assumption; assumption|].
      rewrite Hctx, dst_in_app. intros [Hdl|Hdl]; [auto|]. apply Hdst in Hdl. lia.
    + eapply Forall_impl; [exact Hpads|]. intros l (A & B & C).
      pose proof (inv_len _ _ _ HI). split; [lia|]. split; [assumption|].
      rewrite Hctx, dst_in_app. intros [Hdl|Hdl]; [|auto]. apply (inv_dst _ _ _ HI) in Hdl. lia.
  - intros l Hl. rewrite Hctx in Hl. pose proof (inv_len _ _ _ HI). apply dst_in_app in Hl as [Hl|Hl].
    + apply (inv_dst _ _ _ HI) in Hl. lia.
    + apply Hdst in Hl. lia.
  - intros j n e' Hj Hbj HX Hd' Hs'. destruct (decide (j = id)) as [->|Hne].
    + rewrite Htens, list_lookup_insert in Hj by assumption. injection Hj as <-. cbn [nmat].
      rewrite (denotes_det _ _ _ _ _ Hd' Hd). exact Hmatok.
    + rewrite Hother in Hj by assumption.
      assert (Hold : mat_ok s1 P e' (nmat n)).
      { eapply (inv_ok _ _ _ HI); eauto. intros [?|?]; auto. }
      exact (mat_ok_grows _ _ _ _ _ _ _ HG Hold). }
  assert (HN : tens s2 !! id = Some (MkNode k mt)) by (rewrite Htens; apply list_lookup_insert; assumption).
  exists (P ++ pads), new. split; [assumption|]. split; [assumption|]. split; [assumption|]. split.
  - exists (MkNode k mt). split; [assumption|]. split; [reflexivity|assumption].
  - intros m m1 v Hm Hz Hx Hv. pose proof (exec_length _ _ _ Hx) as Hl1.
    specialize (Hex m1 ltac:(lia) (Hz1 m m1 Hz Hm Hx)).
    rewrite (Hval m m1) in Hex; [|lia|eapply zeroed_incl; [|exact Hz]; intros; apply elem_of_app; auto|assumption].
    rewrite Hv in Hex. destruct Hex as (m' & Hx' & _). eauto.
Qed.

Lemma exec_low s P X m m1 :
  Inv s P X -> exec (ctx s) m = Some m1 -> forall l, l < n0 -> m1 !! l = m !! l.
Proof.
  intros HI Hx l Hl. eapply exec_frame; [exact Hx|]. intros Hd. apply (inv_dst _ _ _ HI) in Hd. lia.
Qed.

Lemma below_le id e : denotes n0 tns0 id e -> forall j, below tns0 id j -> j <= id.
Proof.
  intros Hd j Hb. revert e Hd. induction Hb as [|id n c j Hn Hc Hb IH]; intros e Hd; [lia|].
  inversion Hd; subst;
    match goal with Hl : tns0 !! id = Some _ |- _ => rewrite Hn in Hl; injection Hl as -> end;
    cbn [nkind children] in Hc;
    repeat match goal with
    | Hc : _ ∈ [] |- _ => apply elem_of_nil in Hc; destruct Hc
    | Hc : _ ∈ _ :: _ |- _ => apply elem_of_cons in Hc as [->|Hc]
    end;
    match goal with Hx : denotes _ _ _ _ |- _ => specialize (IH _ Hx); lia end.
Qed.

(** From the objects' children to the object itself. *)
Lemma assemble s sm s1 s2 P P1 X id k m0 e sh val new1 :
  grows s sm P P [] -> keeps s sm ->
  (forall n, tens s !! id = Some n -> builded (nmat n) = false) ->
  grows sm s1 P P1 new1 -> keeps sm s1 -> Inv s1 P1 (fun j => X j \/ j = id) ->
  (forall m m1 v, length (mem s1) <= length m -> zeroed P1 m ->
       exec (ctx sm) m = Some m1 -> ev m e = Some v -> exists m2, exec new1 m1 = Some m2) ->
  ready s1 id k m0 -> own_spec s1 s2 id k sh val ->
  denotes n0 tns0 id e -> shape_of (leafsh tns0) e = Some sh ->
  (match k with KReshape _ => shape m0 = sh | _ => True end) ->
  is_leaf k = false ->
  (forall m m1, length (mem s1) <= length m -> zeroed P1 m -> exec (ctx s1) m = Some m1 -> val m1 = ev m e) ->
  exists P2, built_ok s s2 P P2 X id e.
Proof.
  intros G0 K0 Hub G1 K1 HI1 Hpr1 Hr Ho Hd Hsh Hk1 Hk2 Hval.
  destruct (finish _ _ _ _ _ _ _ _ _ _ HI1 Hr Ho Hd Hsh Hk1 Hk2 Hval) as (P2 & new2 & G2 & Hoth & HI2 & Hn2 & Hpr2).
  exists P2, (new1 ++ new2). split; [|split; [|split; [|split]]].
  - apply (grows_trans _ _ _ _ _ _ [] (new1 ++ new2) G0). eapply grows_trans; eassumption.
  - intros j n Hj Hb. rewrite Hoth.
    + apply K1; [apply K0; assumption|assumption].
    + intros ->. rewrite (Hub _ Hj) in Hb. discriminate.
  - assumption.
  - assumption.
  - intros m m1 v Hm Hz Hx Hv. pose proof (grows_len _ _ _ _ _ G2).
    assert (Hc : ctx sm = ctx s) by (rewrite (gr_ctx _ _ _ _ _ G0), app_nil_r; reflexivity).
    destruct (Hpr1 m m1 v) as [m2 Hm2]; [lia|eapply zeroed_incl; [apply G2|exact Hz]|congruence|assumption|].
    assert (Hx1 : exec (ctx s1) m = Some m2).
    { rewrite (gr_ctx _ _ _ _ _ G1), exec_app, Hc, Hx. exact Hm2. }
    destruct (Hpr2 m m2 v Hm Hz Hx1 Hv) as [m3 Hm3].
    exists m3. rewrite exec_app, Hm2. exact Hm3.
Qed.

Lemma built_child s id t n' P e :
  t < id -> tens s !! t = Some n' -> mat_ok s P e (nmat n') -> child s id t (nmat n').
Proof.
  intros Hlt Ht (_ & Hwf & _). destruct n' as [kt mt]. split; [lia|]. split; [eauto|assumption].
Qed.

Lemma Inv_leaf s P X id m :
  Inv s P X -> tns0 !! id = Some (MkNode KMat m) -> wf_mat n0 m -> mat_ok s P (ELeaf id) m.
Proof.
  intros HI Hl Hwf. split; [|split].
  - cbn. unfold leafsh. rewrite Hl. cbn. apply fit_Some. split; [reflexivity|apply Hwf].
  - eapply wf_mat_mono; [exact Hwf|apply HI].
  - intros mm m1 Hm Hz Hx.
    destruct (mval_Some n0 mm m Hwf) as (d & Hd & _); [pose proof (inv_len _ _ _ HI); lia|].
    exists (V (shape m) d). unfold ev, leafv. cbn. rewrite Hl. rewrite (mval_frame mm m1 n0 m Hwf).
    + unfold mval. rewrite Hd. split; reflexivity.
    + intros l Hlt. eapply exec_low; eassumption.
Qed.

Lemma push_scalars (ops : list ptr) (s : tst T) :
  mfor ops (fun o => push (OScalar o)) s = (Ok tt, MkSt (mem s) (tens s) (ctx s ++ map OScalar ops)).
Proof.
  revert s. induction ops as [|o ops IH]; intros s.
  - cbn. rewrite app_nil_r. destruct s; reflexivity.
  - cbn [mfor map]. erewrite mbnd_ok by reflexivity. rewrite IH. cbn. rewrite <- app_assoc. reflexivity.
Qed.
Lemma exec_scalars (ops : list ptr) (m : list T) : exec (map OScalar ops) m = Some m.
Proof. induction ops as [|o ops IH]; cbn; [reflexivity|assumption]. Qed.
Lemma dst_scalars l (ops : list ptr) : ~ dst_in l (map (@OScalar T) ops).
Proof. intros (o & Ho & Hd). apply elem_of_list_fmap in Ho as (p & -> & _). discriminate. Qed.


(** One operand. *)
Lemma unary s sm P X id k m0 t et e sh body own F fuel :
  Inv s P X ->
  tens s !! id = Some (MkNode k m0) -> builded m0 = false ->
  sm = st_with (mem s) (tens s) (ctx s) id k (MkMat (shape m0) (mulindex m0) (operands m0) true) ->
  denotes n0 tns0 id e -> shape_of (leafsh tns0) e = Some sh ->
  (match k with KReshape _ => shape m0 = sh | _ => True end) -> is_leaf k = false ->
  t < id ->
  (forall P X, Inv sm P X -> (forall j, below tns0 t j -> ~ X j) ->
     exists s1 P1, BuildGraph fuel t sm = (Ok tt, s1) /\ built_ok sm s1 P P1 X t et) ->
  (forall j, below tns0 t j -> ~ (X j \/ j = id)) ->
  (forall s1 mt m0', ready s1 id k m0' -> shape m0' = shape m0 -> child s1 id t mt -> n0 <= length (mem s1) ->
     shape_of (leafsh tns0) et = Some (shape mt) ->
     exists s2, own s1 = (Ok tt, s2) /\ own_spec s1 s2 id k sh (fun m => v ← mval m mt; F m v)) ->
  (forall m, ev m e = (v ← ev m et; F m v)) ->
  (forall m m1, (forall l, l < n0 -> m1 !! l = m !! l) -> forall v, F m1 v = F m v) ->
  body = (BuildGraph fuel t ;~ own) ->
  exists s' P', body sm = (Ok tt, s') /\ built_ok s s' P P' X id e.
Proof.
  intros HI Hn Hb Hsm Hd Hsh Hk1 Hk2 Hlt IH Hbel Hown Hev HF ->.
  destruct (Inv_mark _ _ _ _ _ _ HI Hn Hb Hsm) as (HIm & G0 & K0). cbn [nmat nkind] in *.
  destruct (IH P _ HIm Hbel) as (s1 & P1 & Hbd & new1 & G1 & K1 & HI1 & (nt & Hnt & Hbt & Hmt) & Hpr).
  assert (Hid : id < length (tens s)) by (eapply lookup_lt_Some; exact Hn).
  set (m0' := MkMat (shape m0) (mulindex m0) (operands m0) true) in *.
  assert (Hr : ready s1 id k m0').
  { split; [|reflexivity]. apply K1; [|reflexivity]. rewrite Hsm. apply list_lookup_insert. assumption. }
  pose proof (built_child _ _ _ _ _ _ Hlt Hnt Hmt) as Hc.
  destruct (Hown s1 (nmat nt) m0' Hr eq_refl Hc (inv_len _ _ _ HI1) (proj1 Hmt)) as (s2 & Hs2 & Ho).
  exists s2. edestruct (assemble s sm s1 s2 P P1 X id k m0' e sh) as (P2 & HP2).
  - exact G0.
  - exact K0.
  - intros n' Hn'. rewrite Hn in Hn'. injection Hn' as <-. exact Hb.
  - exact G1.
  - exact K1.
  - exact HI1.
  - intros m m1 v Hm Hz Hx Hv. rewrite Hev in Hv. destruct (ev m et) as [vt|] eqn:Evt; [|discriminate].
    eapply Hpr; eassumption.
  - exact Hr.
  - exact Ho.
  - exact Hd.
  - exact Hsh.
  - exact Hk1.
  - exact Hk2.
  - intros m m1 Hm Hz Hx. cbn beta. destruct Hmt as (_ & _ & Hex).
    destruct (Hex m m1 Hm Hz Hx) as (v & Hv & Hmv). rewrite Hev, Hv, Hmv. cbn.
    apply HF. eapply exec_low; eassumption.
  - exists P2. split; [|exact HP2]. erewrite mbnd_ok by exact Hbd. exact Hs2.
Qed.

(** Two operands. *)
Lemma binary s sm P X id k m0 a b ea eb e sh body own F fuel :
  Inv s P X ->
  tens s !! id = Some (MkNode k m0) -> builded m0 = false ->
  sm = st_with (mem s) (tens s) (ctx s) id k (MkMat (shape m0) (mulindex m0) (operands m0) true) ->
  denotes n0 tns0 id e -> shape_of (leafsh tns0) e = Some sh ->
  (match k with KReshape _ => False | _ => True end) -> is_leaf k = false ->
  a < id -> b < id ->
  (forall s P X, Inv s P X -> (forall j, below tns0 a j -> ~ X j) ->
     exists s1 P1, BuildGraph fuel a s = (Ok tt, s1) /\ built_ok s s1 P P1 X a ea) ->
  (forall s P X, Inv s P X -> (forall j, below tns0 b j -> ~ X j) ->
     exists s1 P1, BuildGraph fuel b s = (Ok tt, s1) /\ built_ok s s1 P P1 X b eb) ->
  (forall j, below tns0 a j -> ~ (X j \/ j = id)) ->
  (forall j, below tns0 b j -> ~ (X j \/ j = id)) ->
  (forall s1 ma mb m0', ready s1 id k m0' -> child s1 id a ma -> child s1 id b mb ->
     shape_of (leafsh tns0) ea = Some (shape ma) -> shape_of (leafsh tns0) eb = Some (shape mb) ->
     exists s2, own s1 = (Ok tt, s2) /\ own_spec s1 s2 id k sh (fun m => x ← mval m ma; y ← mval m mb; F x y)) ->
  (forall m, ev m e = (x ← ev m ea; y ← ev m eb; F x y)) ->
  body = (BuildGraph fuel a ;~ BuildGraph fuel b ;~ own) ->
  exists s' P', body sm = (Ok tt, s') /\ built_ok s s' P P' X id e.
Proof.
  intros HI Hn Hb Hsm Hd Hsh Hk1 Hk2 Hlta Hltb IHa IHb Hbela Hbelb Hown Hev ->.
  destruct (Inv_mark _ _ _ _ _ _ HI Hn Hb Hsm) as (HIm & G0 & K0). cbn [nmat nkind] in *.
  destruct (IHa sm P _ HIm Hbela) as (s1 & P1 & Hbd1 & new1 & G1 & K1 & HI1 & (na & Hna & Hba & Hma) & Hpr1).
  destruct (IHb s1 P1 _ HI1 Hbelb) as (s2 & P2 & Hbd2 & new2 & G2 & K2 & HI2 & (nb & Hnb & Hbb & Hmb) & Hpr2).
  assert (Hid : id < length (tens s)) by (eapply lookup_lt_Some; exact Hn).
  set (m0' := MkMat (shape m0) (mulindex m0) (operands m0) true) in *.
  assert (Hr : ready s2 id k m0').
  { split; [|reflexivity]. apply K2; [|reflexivity]. apply K1; [|reflexivity]. rewrite Hsm. apply list_lookup_insert. assumption. }
  pose proof (K2 _ _ Hna Hba) as Hna2. pose proof (mat_ok_grows _ _ _ _ _ _ _ G2 Hma) as Hma2.
  pose proof (built_child _ _ _ _ _ _ Hlta Hna2 Hma2) as Hca.
  pose proof (built_child _ _ _ _ _ _ Hltb Hnb Hmb) as Hcb.
  destruct (Hown s2 (nmat na) (nmat nb) m0' Hr Hca Hcb (proj1 Hma) (proj1 Hmb)) as (s3 & Hs3 & Ho).
  exists s3. edestruct (assemble s sm s2 s3 P P2 X id k m0' e sh) as (P3 & HP3).
  - exact G0.
  - exact K0.
  - intros n' Hn'. rewrite Hn in Hn'. injection Hn' as <-. exact Hb.
  - eapply grows_trans; eassumption.
  - intros j n Hj Hbj. apply K2; [apply K1; assumption|assumption].
  - exact HI2.
  - intros m m1 v Hm Hz Hx Hv. rewrite Hev in Hv.
    destruct (ev m ea) as [va|] eqn:Eva; [|discriminate]. cbn in Hv.
    destruct (ev m eb) as [vb|] eqn:Evb; [|discriminate].
    pose proof (grows_len _ _ _ _ _ G2).
    destruct (Hpr1 m m1 va) as [m2 Hm2]; [lia|eapply zeroed_incl; [apply G2|exact Hz]|assumption|assumption|].
    destruct (Hpr2 m m2 vb) as [m3 Hm3]; [assumption|assumption| |assumption|].
    { rewrite (gr_ctx _ _ _ _ _ G1), exec_app, Hx. exact Hm2. }
    exists m3. rewrite exec_app, Hm2. exact Hm3.
  - exact Hr.
  - exact Ho.
  - exact Hd.
  - exact Hsh.
  - destruct k; auto. destruct Hk1.
  - exact Hk2.
  - intros m m1 Hm Hz Hx. cbn beta. destruct Hma2 as (_ & _ & Hexa). destruct Hmb as (_ & _ & Hexb).
    destruct (Hexa m m1 Hm Hz Hx) as (va & Hva & Hmva).
    destruct (Hexb m m1 Hm Hz Hx) as (vb & Hvb & Hmvb).
    rewrite Hev, Hva, Hvb, Hmva, Hmvb. reflexivity.
  - exists P3. split; [|exact HP3]. erewrite mbnd_ok by exact Hbd1. erewrite mbnd_ok by exact Hbd2. exact Hs3.
Qed.

Lemma set_built_state (s : tst T) id k m0 :
  tens s !! id = Some (MkNode k m0) ->
  set_built id s = (Ok tt, st_with (mem s) (tens s) (ctx s) id k (MkMat (shape m0) (mulindex m0) (operands m0) true)).
Proof.
  intros Hn. rewrite (state_with s id k m0 Hn) at 1. unfold set_built.
  rewrite upd_mat_with by (eapply lookup_lt_Some; exact Hn). reflexivity.
Qed.

Lemma kind_of s P X id k m0 :
  Inv s P X -> tns0 !! id = Some (MkNode k m0) ->
  exists m1, tens s !! id = Some (MkNode k m1) /\
    (match k with KReshape _ => shape m1 = shape m0 | _ => True end) /\
    (match k with KMat => shape m1 = shape m0 /\ mulindex m1 = mulindex m0 /\ operands m1 = operands m0 | _ => True end).
Proof.
  intros HI Hl. destruct (skel_lookup _ _ _ _ (inv_skel _ _ _ HI) Hl) as ([k' m1] & Hl' & Hs).
  pose proof (skel_kind _ _ Hs) as Hk. cbn in Hk. subst k'. exists m1. split; [assumption|].
  unfold skel in Hs. cbn in Hs. destruct k; split; auto.
  - injection Hs. auto.
  - injection Hs. auto.
Qed.

Lemma build_ok fuel : forall id s P X e sh,
  id < fuel -> Inv s P X -> denotes n0 tns0 id e -> shape_of (leafsh tns0) e = Some sh ->
  no_crossing (leafsh tns0) e -> (forall j, below tns0 id j -> ~ X j) ->
  exists s' P', BuildGraph fuel id s = (Ok tt, s') /\ built_ok s s' P P' X id e.
Proof.
  induction fuel as [|fuel IH]; intros id s P X e sh Hf HI Hd Hsh Hnc Hbel; [lia|].
  (* already built *)
  assert (Hdone : forall n, tens s !! id = Some n -> builded (nmat n) = true ->
     exists s' P', ((fun s0 => (Ok tt, s0)) : TM T unit) s = (Ok tt, s') /\ built_ok s s' P P' X id e).
  { intros n Hn Hb. exists s, P. split; [reflexivity|]. exists [].
    split; [apply grows_refl; reflexivity|]. split; [intros j n'; auto|]. split; [assumption|]. split.
    - exists n. split; [assumption|]. split; [assumption|].
      eapply (inv_ok _ _ _ HI); eauto. apply Hbel. constructor.
    - intros m m1 v _ _ _ _. exists m1. reflexivity. }
  (* an operand, seen from the object *)
  assert (Hb1 : forall n t, tns0 !! id = Some n -> t ∈ children (nkind n) -> t < id ->
     forall et, denotes n0 tns0 t et -> forall j, below tns0 t j -> ~ (X j \/ j = id)).
  { intros n t Hn Hin Hlt et Hdt j Hj [HX| ->].
    - eapply Hbel; [|exact HX]. eapply B_step; eassumption.
    - pose proof (below_le _ _ Hdt _ Hj). lia. }
  assert (IH' : forall t et, t < id -> denotes n0 tns0 t et -> (exists sht, shape_of (leafsh tns0) et = Some sht) ->
     no_crossing (leafsh tns0) et ->
     forall s P X, Inv s P X -> (forall j, below tns0 t j -> ~ X j) ->
     exists s1 P1, BuildGraph fuel t s = (Ok tt, s1) /\ built_ok s s1 P P1 X t et).
  { intros t et Hlt Hdt [sht Hst] Hnct s' P' X' HI' Hbel'. eapply IH; eauto. lia. }
  pose proof Hd as Hd0.
  inversion Hd; subst;
    match goal with Hl : tns0 !! id = Some (MkNode ?k ?m) |- _ =>
      destruct (kind_of _ _ _ _ _ _ HI Hl) as (m1 & Hl1 & Hk1 & Hk2);
      pose proof Hl as Hl0
    end;
    cbn [BuildGraph];
    (erewrite mbnd_ok by (unfold get_node; rewrite Hl1; reflexivity)); cbn [nmat nkind];
    (destruct (builded m1) eqn:Hb; [apply (Hdone _ Hl1 Hb)|]);
    (erewrite mbnd_ok by (apply set_built_state; exact Hl1)).
  - (* input tensor *)
    rename H0 into Hl', H1 into Hwf.
    destruct (Inv_mark _ _ _ _ _ _ HI Hl1 Hb eq_refl) as (HIm & G0 & K0). cbn [nmat nkind] in *.
    rewrite push_scalars. eexists _, P. split; [reflexivity|]. exists (map OScalar (operands m1)).
    destruct Hk2 as (E1 & E2 & E3).
    assert (Hid : id < length (tens s)) by (eapply lookup_lt_Some; exact Hl1).
    set (sm := st_with (mem s) (tens s) (ctx s) id KMat (MkMat (shape m1) (mulindex m1) (operands m1) true)) in *.
    assert (Hmok : mat_ok sm P (ELeaf id) (MkMat (shape m1) (mulindex m1) (operands m1) true)).
    { assert (Hw : wf_mat n0 (MkMat (shape m1) (mulindex m1) (operands m1) true)).
      { destruct Hwf as (? & ? & ? & ?). unfold wf_mat. cbn. rewrite E1, E2, E3. auto. }
      destruct (Inv_leaf _ _ _ _ _ HIm Hl0 Hwf) as (A & B & C).
      split; [cbn [shape]; rewrite E1; exact A|]. split; [eapply wf_mat_mono; [exact Hw|apply HIm]|].
      intros mm mm1 Hm Hz Hx. destruct (C mm mm1 Hm Hz Hx) as (v & Hv & Hmv). exists v. split; [assumption|].
      rewrite <- Hmv. unfold mval. cbn. rewrite E1, E3. reflexivity. }
    assert (G1 : grows sm (MkSt (mem sm) (tens sm) (ctx sm ++ map OScalar (operands m1))) P P (map OScalar (operands m1))).
    { split; cbn [mem ctx]; auto.
      - exists []. rewrite app_nil_r. reflexivity.
      - intros l Hl. destruct (dst_scalars _ _ Hl). }
    assert (Hnode : tens sm !! id = Some (MkNode KMat (MkMat (shape m1) (mulindex m1) (operands m1) true))).
    { apply list_lookup_insert. assumption. }
    split; [apply (grows_trans _ _ _ _ _ _ _ _ G0 G1)|]. split; [exact K0|]. split; [split|split].
    + apply HIm.
    + apply HIm.
    + cbn [mem ctx]. eapply Forall_impl; [exact (inv_pad _ _ _ HIm)|]. intros l (A & B & C).
      split; [assumption|]. split; [assumption|]. rewrite dst_in_app. intros [Hdl|Hdl]; [auto|]. destruct (dst_scalars _ _ Hdl).
    + cbn [mem ctx]. intros l Hdl. apply dst_in_app in Hdl as [Hdl|Hdl]; [exact (inv_dst _ _ _ HIm _ Hdl)|].
      destruct (dst_scalars _ _ Hdl).
    + cbn [tens]. intros j n e' Hj Hbj HX Hd' Hs'. eapply (mat_ok_grows _ _ _ _ _ _ _ G1).
      destruct (decide (j = id)) as [->|Hne].
      * rewrite Hnode in Hj. injection Hj as <-. rewrite (denotes_det _ _ _ _ _ Hd' Hd0). exact Hmok.
      * eapply (inv_ok _ _ _ HIm); eauto. intros [?|?]; auto.
    + eexists. cbn [tens]. split; [exact Hnode|]. split; [reflexivity|]. exact (mat_ok_grows _ _ _ _ _ _ _ G1 Hmok).
    + intros m2 m3 v _ _ _ _. exists m3. apply exec_scalars.
  - (* abs *)
    cbn [shape_of no_crossing] in Hsh, Hnc.
    eapply (unary s _ P X id _ m1 t _ _ _ _ _ (fun m v => Some (v_map absv v)) fuel); try eassumption; try reflexivity.
    + apply IH'; eauto.
    + eapply Hb1; [exact Hl0|apply elem_of_list_singleton; reflexivity|assumption|eassumption].
    + intros s1 mt m0' Hr Hs0 Hc Hn Hst. rewrite Hsh in Hst. injection Hst as ->. eapply build_map_spec; try eassumption; reflexivity.
  - (* neg *)
    cbn [shape_of no_crossing] in Hsh, Hnc.
    eapply (unary s _ P X id _ m1 t _ _ _ _ _ (fun m v => Some (v_map nneg v)) fuel); try eassumption; try reflexivity.
    + apply IH'; eauto.
    + eapply Hb1; [exact Hl0|apply elem_of_list_singleton; reflexivity|assumption|eassumption].
    + intros s1 mt m0' Hr Hs0 Hc Hn Hst. rewrite Hsh in Hst. injection Hst as ->. eapply build_map_spec; try eassumption; reflexivity.
  - (* activate *)
    cbn [shape_of no_crossing] in Hsh, Hnc.
    eapply (unary s _ P X id _ m1 t _ _ _ _ _ (fun m v => Some (v_map f v)) fuel); try eassumption; try reflexivity.
    + apply IH'; eauto.
    + eapply Hb1; [exact Hl0|apply elem_of_list_singleton; reflexivity|assumption|eassumption].
    + intros s1 mt m0' Hr Hs0 Hc Hn Hst. rewrite Hsh in Hst. injection Hst as ->. eapply build_map_spec; try eassumption; reflexivity.
  - (* op2 *)
    cbn [shape_of no_crossing] in Hsh, Hnc. destruct Hnc as [Hnca Hncb].
    destruct (shape_of (leafsh tns0) ea) as [sa|] eqn:Esa; cbn [mbind option_bind] in Hsh; [|discriminate].
    destruct (shape_of (leafsh tns0) eb) as [sb|] eqn:Esb; cbn [mbind option_bind] in Hsh; [|discriminate].
    destruct (decide (sa = sb)) as [->|Hne]; [|discriminate]. injection Hsh as <-.
    eapply (binary s _ P X id _ m1 a b _ _ _ _ _ _ (fun x y => v_bin (bop o) x y) fuel); try eassumption; try reflexivity.
    + cbn [shape_of]. rewrite Esa, Esb. cbn [mbind option_bind]. rewrite decide_True by reflexivity. reflexivity.
    + apply IH'; eauto.
    + apply IH'; eauto.
    + eapply Hb1; [exact Hl0|apply elem_of_cons; left; reflexivity|assumption|eassumption].
    + eapply Hb1; [exact Hl0|apply elem_of_cons; right; apply elem_of_list_singleton; reflexivity|assumption|eassumption].
    + intros s1 ma mb m0' Hr Hca Hcb Hsta Hstb. rewrite Esa in Hsta. rewrite Esb in Hstb. injection Hsta as Hsta. injection Hstb as Hstb. rewrite Hstb. replace (shape mb) with (shape ma) by congruence. eapply build_op2_spec; try eassumption. congruence.
  - (* opscalar *)
    cbn [shape_of no_crossing] in Hsh, Hnc.
    eapply (unary s _ P X id _ m1 t _ _ _ _ _ (fun m v => y ← m !! sc; v_scal (bop o) v y) fuel); try eassumption; try reflexivity.
    + apply IH'; eauto.
    + eapply Hb1; [exact Hl0|apply elem_of_list_singleton; reflexivity|assumption|eassumption].
    + intros s1 mt m0' Hr Hs0 Hc Hn Hst. rewrite Hsh in Hst. injection Hst as ->. eapply build_opscalar_spec; try eassumption. lia.
    + intros m2 m3 Hlow v. cbn beta. rewrite Hlow by assumption. reflexivity.
  - (* concat *)
    cbn [shape_of no_crossing] in Hsh, Hnc. destruct Hnc as [Hnca Hncb].
    destruct (shape_of (leafsh tns0) ea) as [sa|] eqn:Esa; cbn [mbind option_bind] in Hsh; [|discriminate].
    destruct (shape_of (leafsh tns0) eb) as [sb|] eqn:Esb; cbn [mbind option_bind] in Hsh; [|discriminate].
    destruct (sa !! N.to_nat d) as [na|] eqn:Ena; cbn [mbind option_bind] in Hsh; [|discriminate].
    destruct (sb !! N.to_nat d) as [nb|] eqn:Enb; cbn [mbind option_bind] in Hsh; [|discriminate].
    destruct (decide (<[N.to_nat d:=nb]> sa = sb)) as [Heq|Hne]; [|discriminate]. apply fit_Some in Hsh as [-> Hfit].
    eapply (binary s _ P X id _ m1 a b _ _ _ _ _ _ (fun x y => v_concat x y (N.to_nat d)) fuel); try eassumption; try reflexivity.
    + cbn [shape_of]. rewrite Esa, Esb. cbn [mbind option_bind]. rewrite Ena, Enb. cbn [mbind option_bind]. rewrite decide_True by assumption. apply fit_Some. split; [reflexivity|assumption].
    + apply IH'; eauto.
    + apply IH'; eauto.
    + eapply Hb1; [exact Hl0|apply elem_of_cons; left; reflexivity|assumption|eassumption].
    + eapply Hb1; [exact Hl0|apply elem_of_cons; right; apply elem_of_list_singleton; reflexivity|assumption|eassumption].
    + intros s1 ma mb m0' Hr Hca Hcb Hsta Hstb. rewrite Esa in Hsta. rewrite Esb in Hstb. injection Hsta as Hsta. injection Hstb as Hstb. rewrite Hsta in *. eapply build_concat_spec; try eassumption. congruence.
  - (* dimmath *)
    pose proof Hsh as Hsh0. cbn [shape_of no_crossing] in Hsh, Hnc.
    destruct (shape_of (leafsh tns0) e0) as [sh0|] eqn:Esh; cbn [mbind option_bind] in Hsh; [|discriminate].
    destruct (decide (N.to_nat d < length sh0)) as [Hlt|]; [|discriminate]. apply fit_Some in Hsh as [-> Hfit].
    eapply (unary s _ P X id _ m1 t _ _ _ _ _ (fun m v => v_dim (rop o) (N.to_nat d) v) fuel); try eassumption; try reflexivity.
    + apply IH'; eauto.
    + eapply Hb1; [exact Hl0|apply elem_of_list_singleton; reflexivity|assumption|eassumption].
    + intros s1 mt m0' Hr Hs0 Hc Hn Hst. rewrite Esh in Hst. injection Hst as ->. eapply build_dimmath_spec; eassumption.
  - (* matmul *)
    pose proof Hsh as Hsh0. cbn [shape_of no_crossing] in Hsh, Hnc. destruct Hnc as [Hnca Hncb].
    destruct (shape_of (leafsh tns0) ea) as [sa|] eqn:Esa; cbn [mbind option_bind] in Hsh; [|discriminate].
    destruct (shape_of (leafsh tns0) eb) as [sb|] eqn:Esb; cbn [mbind option_bind] in Hsh; [|discriminate].
    eapply (binary s _ P X id _ m1 a b _ _ _ _ _ _ (fun x y => v_dot x y (length (vsh x) - 1) (default_db (vsh y))) fuel); try eassumption; try reflexivity.
    + apply IH'; eauto.
    + apply IH'; eauto.
    + eapply Hb1; [exact Hl0|apply elem_of_cons; left; reflexivity|assumption|eassumption].
    + eapply Hb1; [exact Hl0|apply elem_of_cons; right; apply elem_of_list_singleton; reflexivity|assumption|eassumption].
    + intros s1 ma mb m0' Hr Hca Hcb Hsta Hstb. rewrite Esa in Hsta. rewrite Esb in Hstb. injection Hsta as ->. injection Hstb as ->. 
      destruct (build_dot_spec s1 id _ m0' a b ma mb None _ _ sh Hr Hca Hcb eq_refl Hsh) as (s2 & Hs2 & Ho).
      exists s2. split; [exact Hs2|]. eapply own_spec_ext; [|exact Ho]. intros m2. cbn beta. unfold mval.
      destruct (rds m2 (operands ma)); cbn; [|reflexivity]. destruct (rds m2 (operands mb)); reflexivity.
  - (* dotat *)
    pose proof Hsh as Hsh0. cbn [shape_of no_crossing] in Hsh, Hnc. destruct Hnc as [Hnca Hncb].
    destruct (shape_of (leafsh tns0) ea) as [sa|] eqn:Esa; cbn [mbind option_bind] in Hsh; [|discriminate].
    destruct (shape_of (leafsh tns0) eb) as [sb|] eqn:Esb; cbn [mbind option_bind] in Hsh; [|discriminate].
    eapply (binary s _ P X id _ m1 a b _ _ _ _ _ _ (fun x y => v_dot x y (N.to_nat da) (N.to_nat db)) fuel); try eassumption; try reflexivity.
    + apply IH'; eauto.
    + apply IH'; eauto.
    + eapply Hb1; [exact Hl0|apply elem_of_cons; left; reflexivity|assumption|eassumption].
    + eapply Hb1; [exact Hl0|apply elem_of_cons; right; apply elem_of_list_singleton; reflexivity|assumption|eassumption].
    + intros s1 ma mb m0' Hr Hca Hcb Hsta Hstb. rewrite Esa in Hsta. rewrite Esb in Hstb. injection Hsta as ->. injection Hstb as ->. eapply (build_dot_spec s1 id _ m0' a b ma mb (Some (da, db))); try eassumption. reflexivity.
  - (* reshape *)
    pose proof Hsh as Hsh0. cbn [shape_of no_crossing] in Hsh, Hnc.
    destruct (shape_of (leafsh tns0) e0) as [sh0|] eqn:Esh; cbn [mbind option_bind] in Hsh; [|discriminate].
    apply fit_Some in Hsh as [-> Hfit].
    eapply (unary s _ P X id _ m1 t _ _ _ _ _ (fun _ v => Some (v_reshape v (shape m))) fuel); try eassumption; try reflexivity.
    + apply IH'; eauto.
    + eapply Hb1; [exact Hl0|apply elem_of_list_singleton; reflexivity|assumption|eassumption].
    + intros s1 mt m0' Hr Hs0 Hc Hn Hst. rewrite Esh in Hst. injection Hst as ->. replace (shape m) with (shape m0') by congruence. eapply build_reshape_spec; try eassumption. congruence.
  - (* softmax *)
    pose proof Hsh as Hsh0. cbn [shape_of no_crossing] in Hsh, Hnc.
    eapply (unary s _ P X id _ m1 t _ _ _ _ _ (fun m v => v_soft v) fuel); try eassumption; try reflexivity.
    + apply IH'; eauto.
    + eapply Hb1; [exact Hl0|apply elem_of_list_singleton; reflexivity|assumption|eassumption].
    + intros s1 mt m0' Hr Hs0 Hc Hn Hst. rewrite Hsh in Hst. injection Hst as ->. eapply build_softmax_spec; eassumption.
  - (* sub *)
    pose proof Hsh as Hsh0. cbn [shape_of no_crossing] in Hsh, Hnc.
    destruct (shape_of (leafsh tns0) e0) as [sh0|] eqn:Esh; cbn [mbind option_bind] in Hsh; [|discriminate].
    destruct (sh0 !! N.to_nat d) as [mx|] eqn:Emx; cbn [mbind option_bind] in Hsh; [|discriminate].
    destruct ((s0 <? u) && (u <=? mx))%N eqn:Ec; [|discriminate]. apply fit_Some in Hsh as [-> Hfit].
    eapply (unary s _ P X id _ m1 t _ _ _ _ _ (fun m v => v_sub v (N.to_nat d) s0 u) fuel); try eassumption; try reflexivity.
    + apply IH'; eauto.
    + eapply Hb1; [exact Hl0|apply elem_of_list_singleton; reflexivity|assumption|eassumption].
    + intros s1 mt m0' Hr Hs0 Hc Hn Hst. rewrite Esh in Hst. injection Hst as ->. eapply build_sub_in_spec; try eassumption. lia.
  - (* subx *)
    pose proof Hsh as Hsh0. cbn [shape_of no_crossing] in Hsh, Hnc. destruct Hnc as [Hnc Hnc2].
    destruct (shape_of (leafsh tns0) e0) as [sh0|] eqn:Esh; cbn [mbind option_bind] in Hsh; [|discriminate].
    destruct (sh0 !! N.to_nat d) as [mx|] eqn:Emx; cbn [mbind option_bind] in Hsh; [|discriminate].
    destruct ((s0 <? u) && (u <? W64))%N eqn:Ec; [|discriminate]. apply fit_Some in Hsh as [-> Hfit].
    eapply (unary s _ P X id _ m1 t _ _ _ _ _ (fun m v => v_subx v (N.to_nat d) s0 u) fuel); try eassumption; try reflexivity.
    + apply IH'; eauto.
    + eapply Hb1; [exact Hl0|apply elem_of_list_singleton; reflexivity|assumption|eassumption].
    + intros s1 mt m0' Hr Hs0 Hc Hn Hst. rewrite Esh in Hst. injection Hst as ->. 
      destruct (Hnc2 _ _ eq_refl Emx) as [Hin|Hout].
      * destruct (build_sub_in_spec s1 id _ m0' t mt d s0 u true mx Hr Hc Emx) as (s2 & Hs2 & Ho); [lia|assumption|].
        exists s2. split; [exact Hs2|]. eapply own_spec_ext; [|exact Ho]. intros m2. cbn beta. unfold mval.
        destruct (rds m2 (operands mt)); cbn; [|reflexivity]. symmetry. eapply v_subx_in; [exact Emx|lia].
      * eapply build_sub_out_spec; try eassumption; lia.
  - (* tensormath *)
    pose proof Hsh as Hsh0. cbn [shape_of no_crossing] in Hsh, Hnc.
    destruct (shape_of (leafsh tns0) e0) as [sh0|] eqn:Esh; cbn [mbind option_bind] in Hsh; [|discriminate]. injection Hsh as <-.
    eapply (unary s _ P X id _ m1 t _ _ _ _ _ (fun m v => v_reduce (rop o) v) fuel); try eassumption; try reflexivity.
    + apply IH'; eauto.
    + eapply Hb1; [exact Hl0|apply elem_of_list_singleton; reflexivity|assumption|eassumption].
    + intros s1 mt m0' Hr Hs0 Hc Hn Hst. rewrite Esh in Hst. injection Hst as ->. eapply build_tensormath_spec; eassumption.
  - (* transpose *)
    pose proof Hsh as Hsh0. cbn [shape_of no_crossing] in Hsh, Hnc.
    destruct (shape_of (leafsh tns0) e0) as [sh0|] eqn:Esh; cbn [mbind option_bind] in Hsh; [|discriminate]. injection Hsh as <-.
    eapply (unary s _ P X id _ m1 t _ _ _ _ _ (fun m v => v_transpose v) fuel); try eassumption; try reflexivity.
    + apply IH'; eauto.
    + eapply Hb1; [exact Hl0|apply elem_of_list_singleton; reflexivity|assumption|eassumption].
    + intros s1 mt m0' Hr Hs0 Hc Hn Hst. rewrite Esh in Hst. injection Hst as ->. eapply build_transpose_spec; eassumption.
Qed.

Lemma history_inv g s P X m :
  Inv s P X -> g_ops g = ctx s -> history g n0 (mem s) m -> length m = length (mem s) /\ zeroed P m.
Proof.
  intros HI Hg Hh. induction Hh as [|m l x Hh [IHl IHz] Hl|m m' Hh [IHl IHz] Hx].
  - split; [reflexivity|]. eapply Forall_impl; [exact (inv_pad _ _ _ HI)|]. intros l (_ & Hz & _). exact Hz.
  - split; [rewrite insert_length; exact IHl|]. unfold zeroed in *. rewrite Forall_forall in IHz |- *.
    intros l' Hl'. rewrite list_lookup_insert_ne; [auto|]. intros <-.
    pose proof (inv_pad _ _ _ HI) as Hp. rewrite Forall_forall in Hp. destruct (Hp _ Hl') as (Hge & _). lia.
  - unfold Exec in Hx. rewrite Hg in Hx. split; [rewrite (exec_length _ _ _ Hx); exact IHl|].
    unfold zeroed in *. rewrite Forall_forall in IHz |- *. intros l' Hl'. rewrite <- (IHz _ Hl').
    eapply exec_frame; [exact Hx|]. pose proof (inv_pad _ _ _ HI) as Hp. rewrite Forall_forall in Hp. apply Hp. assumption.
Qed.
End Fixed.

Lemma skel_leafsh t1 t2 id : map skel t1 = map skel t2 -> leafsh t1 id = leafsh t2 id.
Proof.
  intros E. unfold leafsh. assert (Hm : map skel t1 !! id = map skel t2 !! id) by (rewrite E; reflexivity).
  rewrite !list_lookup_fmap in Hm.
  destruct (t1 !! id) as [[k1 m1]|], (t2 !! id) as [[k2 m2]|]; cbn in Hm; try discriminate; [|reflexivity].
  injection Hm as Hm. pose proof (skel_kind _ _ Hm) as Hk. cbn in Hk. subst k2.
  destruct k1; try reflexivity. unfold skel in Hm. cbn in Hm. injection Hm as -> _ _. reflexivity.
Qed.
Lemma skel_leafv t1 t2 m id : map skel t1 = map skel t2 -> leafv t1 m id = leafv t2 m id.
Proof.
  intros E. unfold leafv. assert (Hm : map skel t1 !! id = map skel t2 !! id) by (rewrite E; reflexivity).
  rewrite !list_lookup_fmap in Hm.
  destruct (t1 !! id) as [[k1 m1]|], (t2 !! id) as [[k2 m2]|]; cbn in Hm; try discriminate; [|reflexivity].
  injection Hm as Hm. pose proof (skel_kind _ _ Hm) as Hk. cbn in Hk. subst k2.
  destruct k1; try reflexivity. unfold skel in Hm. cbn in Hm. injection Hm as E1 _ E2.
  unfold mval. rewrite E1, E2. reflexivity.
Qed.

Lemma Inv_start s id :
  uncompiled (tens s) id ->
  Inv (length (mem s)) (tens s) (MkSt (mem s) (tens s) []) [] (fun j => ~ below (tens s) id j).
Proof.
  intros Hun. split; cbn [mem tens ctx]; auto.
  - intros l Hl. destruct (dst_in_nil _ Hl).
  - intros j n e Hj Hb HX Hd Hs.
    assert (is_leaf (nkind n) = true) as Hlf.
    { destruct (is_leaf (nkind n)) eqn:E; [reflexivity|]. exfalso. apply HX. intros Hbel.
      rewrite (Hun _ _ Hbel Hj E) in Hb. discriminate. }
    inversion Hd; subst;
      match goal with Hl : tens s !! j = Some (MkNode _ _) |- _ => rewrite Hj in Hl; injection Hl as -> end;
      try discriminate. cbn [nmat].
    match goal with Hw : wf_mat _ _ |- _ => rename Hw into Hwf end.
    split; [|split; [assumption|]].
    + cbn. unfold leafsh. rewrite Hj. cbn. apply fit_Some. split; [reflexivity|apply Hwf].
    + intros mm m1 Hm _ Hx. cbn in Hx. injection Hx as <-.
      destruct (mval_Some _ mm m Hwf) as (d & Hdd & _); [exact Hm|].
      exists (V (shape m) d). unfold ev, leafv. cbn. rewrite Hj. unfold mval. rewrite Hdd. split; reflexivity.
Qed.

(** Compiling an object and running the result computes the value of the
    expression that the object stands for, at every later moment. *)
Theorem compile_correct s id e sh :
  denotes (length (mem s)) (tens s) id e -> uncompiled (tens s) id ->
  shape_of (leafsh (tens s)) e = Some sh -> no_crossing (leafsh (tens s)) e ->
  exists g s' n', NewGraph id s = (Ok g, s') /\ (exists ext, mem s' = mem s ++ ext) /\
    tens s' !! id = Some n' /\ shape (nmat n') = sh /\ builded (nmat n') = true /\
    (forall m j, leafv (tens s') m j = leafv (tens s) m j) /\
    forall m, history g (length (mem s)) (mem s') m ->
      match eval (leafv (tens s) m) (fun x => m !! x) e with
      | Some v => exists m', Exec g m = Some m' /\ mval m' (nmat n') = Some v /\ vsh v = sh /\
          (forall l, l < length (mem s) -> m' !! l = m !! l)
      | None => Exec g m = None
      end.
Proof.
  intros Hd Hun Hsh Hnc. pose proof (Inv_start s id Hun) as HI0.
  destruct (build_ok (length (mem s)) (tens s) (S id) id _ _ _ e sh ltac:(lia) HI0 Hd Hsh Hnc)
    as (s' & P' & Hb & new & G & K & HI & (n' & Hn' & Hbn & Hmok) & Hpr).
  { intros j Hj HX. auto. }
  exists (MkGraph (ctx s')), s', n'. split.
  { unfold NewGraph. erewrite mbnd_ok by reflexivity. erewrite mbnd_ok by exact Hb.
    erewrite mbnd_ok by reflexivity. reflexivity. }
  split; [apply G|]. split; [assumption|].
  assert (Hshn : shape (nmat n') = sh).
  { destruct Hmok as (E & _). rewrite Hsh in E. congruence. }
  split; [assumption|]. split; [assumption|]. split.
  { intros m j. apply skel_leafv. apply HI. }
  intros m Hh. destruct (history_inv _ _ (MkGraph (ctx s')) _ _ _ _ HI eq_refl Hh) as [Hl Hz].
  unfold Exec. cbn [g_ops].
  destruct (eval (leafv (tens s) m) (fun x => m !! x) e) as [v|] eqn:Ev.
  - destruct (Hpr m m v) as [m' Hm']; [lia|assumption|reflexivity|exact Ev|].
    assert (Hx : exec (ctx s') m = Some m').
    { rewrite (gr_ctx _ _ _ _ _ G). exact Hm'. }
    exists m'. split; [exact Hx|].
    destruct Hmok as (_ & _ & Hex). destruct (Hex m m' ltac:(lia) Hz Hx) as (v' & Hv' & Hmv).
    unfold ev in Hv'. rewrite Ev in Hv'. injection Hv' as <-. split; [exact Hmv|]. split.
    + unfold mval in Hmv. destruct (rds m' (operands (nmat n'))); [|discriminate]. injection Hmv as <-. exact Hshn.
    + eapply exec_low; eassumption.
  - destruct (exec (ctx s') m) as [m'|] eqn:Hx; [|reflexivity].
    destruct Hmok as (_ & _ & Hex). destruct (Hex m m' ltac:(lia) Hz Hx) as (v' & Hv' & _).
    unfold ev in Hv'. congruence.
Qed.
End Compile.

Section Run.
Context {T : Type} `{Num T}.

Lemma mmap_rdM (s : tst T) ops d : rds (mem s) ops = Some d -> mmap ops rdM s = (Ok d, s).
Proof.
  revert d. unfold rds. induction ops as [|p ops IH]; intros d E; cbn in E |- *.
  - injection E as <-. reflexivity.
  - destruct (rd (mem s) p) as [x|] eqn:Ex; cbn in E; [|discriminate].
    destruct (mapM (rd (mem s)) ops) as [xs|] eqn:Exs; cbn in E; [|discriminate]. injection E as <-.
    unfold mbnd, rdM at 1. rewrite Ex. rewrite (IH _ eq_refl). reflexivity.
Qed.

Lemma GetData_mval (s : tst T) id n v :
  tens s !! id = Some n -> mval (mem s) (nmat n) = Some v -> GetData id s = (Ok (vdata v), s).
Proof.
  intros Hn Hv. unfold mval in Hv. destruct (rds (mem s) (operands (nmat n))) as [d|] eqn:E; [|discriminate].
  injection Hv as <-. unfold GetData. erewrite mbnd_ok by (unfold get_mat, mbnd, get_node; rewrite Hn; reflexivity).
  apply mmap_rdM. exact E.
Qed.

Lemma uncompiled_all (s : tst T) id :
  forallb (fun n => is_leaf (nkind n) || negb (builded (nmat n))) (tens s) = true -> uncompiled (tens s) id.
Proof.
  intros Hf j n _ Hj Hl. rewrite forallb_forall in Hf.
  specialize (Hf n). rewrite Hl in Hf. cbn in Hf. destruct (builded (nmat n)); [|reflexivity].
  discriminate Hf. apply elem_of_list_In. eapply elem_of_list_lookup_2. exact Hj.
Qed.

Lemma leafv_keep tns (m m' : list T) j v :
  leafv tns m j = Some v -> (forall l, l < length m -> m' !! l = m !! l) -> leafv tns m' j = Some v.
Proof.
  unfold leafv. destruct (tns !! j) as [[k mt]|]; [|discriminate]. destruct k; try discriminate.
  unfold mval. intros E Hl. destruct (rds m (operands mt)) as [d|] eqn:Ed; [|discriminate].
  replace (rds m' (operands mt)) with (Some d); [exact E|]. rewrite <- Ed. apply rds_ext.
  intros l Hin. symmetry. apply Hl.
  assert (Hmem : is_Some (rd m (Some l))).
  { apply elem_of_list_lookup_1 in Hin as [i Hi]. unfold rds in Ed. apply mapM_Some_1 in Ed.
    destruct (Forall2_lookup_l _ _ _ _ _ Ed Hi) as (y & _ & Hy). eauto. }
  cbn in Hmem. apply lookup_lt_is_Some_1. exact Hmem.
Qed.

Lemma eval_low n tns id e (m m' : list T) :
  denotes n tns id e -> (forall l, l < n -> m' !! l = m !! l) ->
  eval (leafv tns m') (fun x => m' !! x) e = eval (leafv tns m) (fun x => m !! x) e.
Proof.
  intros Hd Hl. induction Hd; cbn [eval]; rewrite ?IHHd, ?IHHd1, ?IHHd2; try reflexivity.
  - unfold leafv. rewrite H0. eapply mval_frame; eassumption.
  - rewrite Hl by assumption. reflexivity.
Qed.

Theorem compile_and_run s id e sh :
  denotes (length (mem s)) (tens s) id e -> uncompiled (tens s) id ->
  shape_of (leafsh (tens s)) e = Some sh -> no_crossing (leafsh (tens s)) e ->
  exists g s', NewGraph id s = (Ok g, s') /\
    match eval (leafv (tens s) (mem s)) (fun x => mem s !! x) e with
    | Some v => exists s2 n, ExecM g s' = (Ok tt, s2) /\ GetData id s2 = (Ok (vdata v), s2) /\
        tens s2 !! id = Some n /\ shape (nmat n) = sh /\ vsh v = sh /\
        (forall j u, leafv (tens s) (mem s) j = Some u -> leafv (tens s2) (mem s2) j = Some u) /\
        (forall l, l < length (mem s) -> mem s2 !! l = mem s !! l)
    | None => ExecM g s' = (Panic, s')
    end.
Proof.
  intros Hd Hun Hsh Hnc.
  destruct (compile_correct s id e sh Hd Hun Hsh Hnc) as (g & s' & n' & Hg & (ext & Hext) & Hn' & Hshn & _ & Hlf & Hall).
  exists g, s'. split; [assumption|].
  assert (Hlow : forall l, l < length (mem s) -> mem s' !! l = mem s !! l).
  { intros l Hl. rewrite Hext. apply lookup_app_l. assumption. }
  specialize (Hall _ (Hist_start _ _ _)). rewrite (eval_low _ _ _ _ _ _ Hd Hlow) in Hall.
  destruct (eval (leafv (tens s) (mem s)) (fun x => mem s !! x) e) as [v|]; unfold ExecM.
  - destruct Hall as (m' & Hx & Hv & Hvs & Hm'). rewrite Hx.
    exists (MkSt m' (tens s') (ctx s')), n'. split; [reflexivity|].
    assert (Hlow' : forall l, l < length (mem s) -> m' !! l = mem s !! l).
    { intros l Hl. rewrite Hm' by assumption. auto. }
    split; [eapply GetData_mval; [exact Hn'|exact Hv]|]. split; [assumption|]. split; [assumption|].
    split; [assumption|]. split; [|assumption].
    cbn [mem tens]. intros j u Hu. rewrite Hlf. eapply leafv_keep; eassumption.
  - rewrite Hall. reflexivity.
Qed.

Theorem compile_twice s id e sh g s' n' m m1 :
  denotes (length (mem s)) (tens s) id e -> uncompiled (tens s) id ->
  shape_of (leafsh (tens s)) e = Some sh -> no_crossing (leafsh (tens s)) e ->
  NewGraph id s = (Ok g, s') -> tens s' !! id = Some n' ->
  history g (length (mem s)) (mem s') m -> Exec g m = Some m1 ->
  exists m2, Exec g m1 = Some m2 /\ mval m2 (nmat n') = mval m1 (nmat n').
Proof.
  intros Hd Hun Hsh Hnc Hg Hn Hh Hx.
  destruct (compile_correct s id e sh Hd Hun Hsh Hnc) as (g0 & s0 & n0 & Hg0 & _ & Hn0 & _ & _ & _ & Hall).
  rewrite Hg in Hg0. injection Hg0 as <- <-. rewrite Hn in Hn0. injection Hn0 as <-.
  pose proof (Hall m Hh) as H1. pose proof (Hall m1 (Hist_exec _ _ _ _ _ Hh Hx)) as H2.
  destruct (eval (leafv (tens s) m) (fun x => m !! x) e) as [v|] eqn:Ev; [|congruence].
  destruct H1 as (m1' & Hx1 & Hv1 & _ & Hl1). rewrite Hx in Hx1. injection Hx1 as <-.
  rewrite (eval_low _ _ _ _ _ _ Hd Hl1), Ev in H2. destruct H2 as (m2 & Hx2 & Hv2 & _).
  exists m2. split; [assumption|]. congruence.
Qed.
End Run.
