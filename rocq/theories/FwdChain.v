(** * FwdChain: the feed-forward part of a whole network *)
From stdpp Require Import relations.
From Verif Require Import Base Num ModelTools ModelOps ModelTensor ModelGraph ModelLayer Spec Denote NetSpec FwdSpec
  IndexProofs ExecProofs TensorFacts AccessProofs BuildProofs CompileProofs Agree FwdMask FwdBuild FwdSeg FwdOps FwdPool NetBuild NetChain
  FwdBody FwdExpr FwdDense FwdConv FwdAct FwdKer FwdDeconv FwdNet.
From Coq Require Import Lia ZifyBool ZifyNat ZifyN.

Section FwdChain.
Context {T : Type} `{Num T}.

(** ** Values depend on the inputs and the parameters only *)
Lemma lay_val_nop (l : lspec T) p p' x : has_par l = false -> lay_val l p x = lay_val l p' x.
Proof using Type. destruct l; try discriminate; reflexivity. Qed.
Lemma has_par_shape (l : lspec T) sh sh' : has_par l = true -> lay_shape l sh = Some sh' -> exists bs ws, par_shape l sh = Some (bs, ws).
Proof using Type. destruct l; try discriminate; intros _; cbn [par_shape lay_shape]; [eauto| |]; destruct sh as [|c [|w [|h [|]]]]; try discriminate; eauto. Qed.
Lemma nval_ext inp inp' par par' (e : net T) : (forall t, t ∈ ins e -> inp t = inp' t) -> (forall i, i ∈ pars e -> par i = par' i) ->
  nval inp par e = nval inp' par' e.
Proof using Type.
  induction e as [t|l i e IH|i a IHa b IHb d]; intros Hi Hp; cbn [nval ins pars] in *.
  - apply Hi. apply elem_of_list_here.
  - rewrite IH by (auto; intros j Hj; apply Hp, elem_of_app; auto). destruct (nval inp' par' e) as [x|]; [|reflexivity]. cbn [mbind option_bind].
    destruct (has_par l) eqn:E; [rewrite (Hp i) by apply elem_of_list_here; reflexivity|apply lay_val_nop; exact E].
  - rewrite IHa, IHb by (intros j Hj; first [apply Hi|apply Hp]; apply elem_of_app; auto). reflexivity.
Qed.
Lemma ins_part (s : lst T) i e t : stands s i e -> t ∈ ins e -> exists j L, part s i j /\ lays s !! j = Some L /\ lpre L = None /\ (lkind_of L = LInput \/ lkind_of L = LDense) /\ lten L FInput = Some t.
Proof using Type.
  induction 1 as [i L u HL Hk Hp Ht|i L l u HL Hk Hl Hp Ht|i L l q e HL Hl Hp Hs IH|i L a b d ea eb HL Hk Hp Ha IHa Hb IHb]; cbn [ins]; intros Hin.
  - apply elem_of_list_singleton in Hin as ->. exists i, L. split; [apply rtc_refl|]. auto.
  - apply elem_of_list_singleton in Hin as ->. exists i, L. split; [apply rtc_refl|]. auto.
  - destruct (IH Hin) as (j & Lj & Hj & Hr). exists j, Lj. split; [|exact Hr]. eapply rtc_l; [|exact Hj]. exists L. auto.
  - apply elem_of_app in Hin as [Hin|Hin]; [destruct (IHa Hin) as (j & Lj & Hj & Hr)|destruct (IHb Hin) as (j & Lj & Hj & Hr)]; exists j, Lj; (split; [|exact Hr]);
      (eapply rtc_l; [|exact Hj]); exists L; (split; [exact HL|]); right; exists a, b, d; auto.
Qed.
Lemma pars_part (s : lst T) i e k : stands s i e -> k ∈ pars e -> exists L l, part s i k /\ lays s !! k = Some L /\ lspec_of (tens (ts s)) L = Some l /\ has_par l = true.
Proof using Type.
  induction 1 as [i L u HL Hk Hp Ht|i L l u HL Hk Hl Hp Ht|i L l q e HL Hl Hp Hs IH|i L a b d ea eb HL Hk Hp Ha IHa Hb IHb]; cbn [pars]; intros Hin.
  - inversion Hin.
  - rewrite app_nil_r in Hin. destruct (has_par l) eqn:E; [|inversion Hin]. apply elem_of_list_singleton in Hin as ->. exists L, l. split; [apply rtc_refl|]. auto.
  - apply elem_of_app in Hin as [Hin|Hin].
    + destruct (has_par l) eqn:E; [|inversion Hin]. apply elem_of_list_singleton in Hin as ->. exists L, l. split; [apply rtc_refl|]. auto.
    + destruct (IH Hin) as (Lj & lj & Hj & Hr). exists Lj, lj. split; [|exact Hr]. eapply rtc_l; [|exact Hj]. exists L. auto.
  - apply elem_of_app in Hin as [Hin|Hin]; [destruct (IHa Hin) as (Lj & lj & Hj & Hr)|destruct (IHb Hin) as (Lj & lj & Hj & Hr)]; exists Lj, lj; (split; [|exact Hr]);
      (eapply rtc_l; [|exact Hj]); exists L; (split; [exact HL|]); right; exists a, b, d; auto.
Qed.

(** What the network reads from memory. *)
Definition net_in (s : lst T) (m : list T) (t : nat) : option (vten T) := tval (tens (ts s)) m (Some t).
Definition net_par (s : lst T) (m : list T) (i : nat) : option (vten T * vten T) := L ← lays s !! i; lparams (tens (ts s)) m L.
Definition nv (s : lst T) (m : list T) (e : net T) : option (vten T) := nval (net_in s m) (net_par s m) e.
Lemma nv_part s0 s m i e j ej : stands s0 i e -> part s0 i j -> stands s0 j ej -> nv s m ej = None -> nv s m e = None.
Proof using Type.
  intros Hs Hp Hj Hn. revert e Hs. induction Hp as [i|i c j Hc Hp IH]; intros e Hs; [rewrite (stands_inj _ _ _ Hs _ Hj); exact Hn|].
  specialize (IH Hj). destruct Hc as (L0 & HL0 & Hc). unfold nv in *.
  inversion Hs as [? L' ? HL' Hk Hpp|? L' ? ? HL' Hk ? Hpp|? L' l q e0 HL' Hl Hpp Hq|? L' a b d ea eb HL' Hk Hpp Ha Hb]; subst; assert (L' = L0) as -> by congruence.
  - destruct Hc as [Hc|(? & ? & ? & Hc & _)]; congruence.
  - destruct Hc as [Hc|(? & ? & ? & Hc & _)]; congruence.
  - destruct Hc as [Hc|(? & ? & ? & Hc & _)]; [|exfalso; eapply (proj2 (lspec_kind _ _ _ Hl)); exact Hc]. assert (q = c) as -> by congruence.
    cbn [nval]. rewrite (IH _ Hq). reflexivity.
  - destruct Hc as [Hc|(? & ? & ? & Hc & Hcc)]; [congruence|]. rewrite Hk in Hc. injection Hc as <- <- <-. cbn [nval]. destruct Hcc as [->| ->].
    + rewrite (IH _ Ha). reflexivity.
    + rewrite (IH _ Hb). destruct (nval _ _ ea); reflexivity.
Qed.

(** ** The body of any layer on a lower one *)
Lemma body_any rnd (s : lst T) id L l inp n sh' :
  lays s !! id = Some L -> lspec_of (tens (ts s)) L = Some l -> lten L FInput = Some inp ->
  tens (ts s) !! inp = Some n -> settled n -> wf_mat (length (mem (ts s))) (nmat n) ->
  lay_shape l (shape (nmat n)) = Some sh' ->
  (lkind_of L = LDense -> exists out o ob bo, lten L FOutput = Some out /\ tens (ts s) !! out = Some (MkNode KMat (blkm [o] ob bo)) /\ ob + N.to_nat o <= length (mem (ts s))) ->
  (lkind_of L = LDense \/ exists q Lq d r v b vr, below_lay s id L q Lq inp d r /\ mem (ts s) !! r = Some v /\ lref L = Some b /\ mem (ts s) !! b = Some vr) ->
  exists s' O, ff_body rnd id s = (Ok tt, s') /\ body_ok rnd O s s' id L (nmat n) l sh' /\
    (forall a, O a -> lkind_of L = LDense /\ exists out nn, lten L FOutput = Some out /\ tens (ts s) !! out = Some nn /\ Some a ∈ operands (nmat nn)) /\
    (lkind_of L = LDense -> exists L', lays s' !! id = Some L' /\ lten L' FInput = lten L FInput).
Proof using Type.
  intros HL Hl Hi Hn Hset Hwf Hls Hde Hbl. unfold lspec_of in Hl.
  destruct (lkind_of L) eqn:Hk; try discriminate.
  - destruct (Hde eq_refl) as (out & o & ob & bo & Ho & Hto & Hob). rewrite Ho in Hl. destruct (lact L) as [act|] eqn:Ha; [|discriminate].
    cbn [mbind option_bind] in Hl. rewrite Hto in Hl. cbn in Hl. injection Hl as <-.
    destruct (body_dense rnd s id L inp n out o ob bo act sh' HL Hk Hi Ho Ha Hn Hset Hwf Hto Hob Hls) as (s' & E & B & HL').
    exists s', (fun a => ob <= a < ob + N.to_nat o). split; [exact E|]. split; [exact B|]. split; [|intros _; exact HL']. intros a Hoa. split; [reflexivity|]. exists out, (MkNode KMat (blkm [o] ob bo)).
    split; [exact Ho|]. split; [exact Hto|]. apply blk_ops. rewrite prod_1. exact Hoa.
  - destruct (lact L) as [act|] eqn:Ha; [|discriminate]. injection Hl as <-.
    destruct (body_conv rnd s id L inp n _ _ _ _ _ act sh' HL Hk Hi Ha Hn Hset Hwf Hls) as (s' & E & B). exists s', nowhere. split; [exact E|]. split; [exact B|]. split; [intros a []|discriminate].
  - destruct (lact L) as [act|] eqn:Ha; [|discriminate]. injection Hl as <-.
    destruct (body_deconv rnd s id L inp n _ _ _ _ _ act sh' HL Hk Hi Ha Hn Hset Hwf Hls) as (s' & E & B). exists s', nowhere. split; [exact E|]. split; [exact B|]. split; [intros a []|discriminate].
  - injection Hl as <-. destruct (body_pool rnd s id L inp n _ _ sh' HL Hk Hi Hn Hset Hwf Hls) as (s' & E & B). exists s', nowhere. split; [exact E|]. split; [exact B|]. split; [intros a []|discriminate].
  - injection Hl as <-. destruct (body_up rnd s id L inp n _ _ sh' HL Hk Hi Hn Hset Hwf Hls) as (s' & E & B). exists s', nowhere. split; [exact E|]. split; [exact B|]. split; [intros a []|discriminate].
  - injection Hl as <-. destruct Hbl as [Hbl|(q & Lq & d & r & v & b & vr & Hb & Hv & Hr & Hvr)]; [discriminate|]. injection Hls as <-.
    destruct (body_flat rnd s id L q Lq inp d r n vr v b HL Hk Hb Hv Hr Hvr Hn Hset Hwf) as (s' & E & B). exists s', nowhere. split; [exact E|]. split; [exact B|]. split; [intros a []|discriminate].
  - injection Hl as <-. injection Hls as <-. destruct (body_norm rnd s id L inp n mn mx HL Hk Hi Hn Hset Hwf) as (s' & E & B). exists s', nowhere. split; [exact E|]. split; [exact B|]. split; [intros a []|discriminate].
  - injection Hl as <-. injection Hls as <-. destruct Hbl as [Hbl|(q & Lq & d & r & v & b & vr & Hb & Hv & Hr & Hvr)]; [discriminate|].
    destruct (body_soft rnd s id L q Lq inp d r n HL Hk Hi Hb Hn Hset Hwf) as (s' & E & B). exists s', nowhere. split; [exact E|]. split; [exact B|]. split; [intros a []|discriminate].
  - injection Hl as <-. destruct Hbl as [Hbl|(q & Lq & d & r & v & b & vr & Hb & Hv & Hr & Hvr)]; [discriminate|].
    destruct (body_sub rnd s id L q Lq inp d r n _ _ _ sh' HL Hk Hb Hn Hset Hwf Hls) as (s' & E & B). exists s', nowhere. split; [exact E|]. split; [exact B|]. split; [intros a []|discriminate].
Qed.

(** ** The cells of bias and weights *)
Definition nopar (L : layer T) : Prop := lten L FBias = None /\ lten L FWeights = None.
Definition pcell (t : tst T) (L : layer T) (a : nat) : Prop :=
  exists f i n, (f = FBias \/ f = FWeights) /\ lten L f = Some i /\ tens t !! i = Some n /\ Some a ∈ operands (nmat n).
Lemma nopar_pcell t L a : nopar L -> ~ pcell t L a.
Proof using Type. intros [Hb Hw] (f & i & n & [->| ->] & Hi & _); congruence. Qed.
Lemma par_cells_pcell C (t : tst T) L a : par_cells C t L -> pcell t L a -> a < length (mem t) /\ a ∉ map fst C.
Proof using Type.
  intros (tb & nb & tw & nw & Hb & Hnb & _ & Wb & Hw & Hnw & _ & Ww & _ & HC) (f & i & n & Hf & Hi & Hn & Ha). destruct Hf as [->| ->].
  - assert (i = tb) as -> by congruence. assert (n = nb) as -> by congruence. split; [exact (wf_lt _ _ _ Wb Ha)|]. apply HC. apply elem_of_app. auto.
  - assert (i = tw) as -> by congruence. assert (n = nw) as -> by congruence. split; [exact (wf_lt _ _ _ Ww Ha)|]. apply HC. apply elem_of_app. auto.
Qed.
Lemma pcell_kept C (t t' : tst T) L a : par_cells C t L -> keeps t t' -> pcell t' L a -> pcell t L a.
Proof using Type.
  intros (tb & nb & tw & nw & Hb & Hnb & Sb & _ & Hw & Hnw & Sw & _) K (f & i & n & Hf & Hi & Hn & Ha). destruct Hf as [->| ->].
  - assert (i = tb) as -> by congruence. destruct (K _ _ Hnb) as (n' & Hn' & _ & _ & E). destruct (E Sb) as (_ & _ & E3). assert (n' = n) as -> by congruence. exists FBias, tb, nb. rewrite <- E3. auto.
  - assert (i = tw) as -> by congruence. destruct (K _ _ Hnw) as (n' & Hn' & _ & _ & E). destruct (E Sw) as (_ & _ & E3). assert (n' = n) as -> by congruence. exists FWeights, tw, nw. rewrite <- E3. auto.
Qed.
Lemma pcell_owned (P P' : nat -> Prop) Q Q' (t : tst T) L a : own_field P Q t L FBias -> own_field P' Q' t L FWeights -> pcell t L a -> P a \/ P' a.
Proof using Type.
  intros (ib & nb & Hb & Hnb & _ & _ & Hpb & _) (iw & nw & Hw & Hnw & _ & _ & Hpw & _) (f & i & n & Hf & Hi & Hn & Ha). destruct Hf as [->| ->].
  - assert (i = ib) as -> by congruence. assert (n = nb) as -> by congruence. auto.
  - assert (i = iw) as -> by congruence. assert (n = nw) as -> by congruence. auto.
Qed.

(** ** The state in which the feed-forward part is built *)
Section Site.
Variables (U : list nat) (s1 : lst T).
Notation A0 := (length (mem (ts s1))).
(** The tensors the network starts from, and the cells each dense layer was made with. *)
Definition inten (t : nat) : Prop :=
  exists j L, j ∈ U /\ lays s1 !! j = Some L /\ lpre L = None /\ (lkind_of L = LInput \/ lkind_of L = LDense) /\ lten L FInput = Some t.
Definition own (j a : nat) : Prop :=
  j ∈ U /\ exists L t n, lays s1 !! j = Some L /\ lkind_of L = LDense /\ lten L FOutput = Some t /\ tens (ts s1) !! t = Some n /\ Some a ∈ operands (nmat n).
Definition insh (t : nat) : option (list N) := n ← tens (ts s1) !! t; Some (shape (nmat n)).
Record site : Prop := {
  si_net : forall j, j ∈ U -> exists e sh, stands s1 j e /\ nshape insh e = Some sh;
  si_child : forall j c, j ∈ U -> child s1 j c -> c ∈ U;
  si_lay : forall j L, j ∈ U -> lays s1 !! j = Some L -> lflag L BFF = false /\
    exists r v, lref L = Some r /\ r < A0 /\ mem (ts s1) !! r = Some v /\ neqb v nzero = false;
  si_inj : forall i j Li Lj r, i ∈ U -> j ∈ U -> lays s1 !! i = Some Li -> lays s1 !! j = Some Lj -> lref Li = Some r -> lref Lj = Some r -> i = j;
  si_ten : forall t, inten t -> exists n, tens (ts s1) !! t = Some n /\ settled n /\ wf_mat A0 (nmat n);
  si_out : forall j L, j ∈ U -> lays s1 !! j = Some L -> lkind_of L = LDense ->
    exists out o ob bo, lten L FOutput = Some out /\ tens (ts s1) !! out = Some (MkNode KMat (blkm [o] ob bo)) /\ ob + N.to_nat o <= A0;
  si_own : forall i j a, own i a -> own j a -> i = j;
  si_sep : forall i a t n, own i a -> inten t -> tens (ts s1) !! t = Some n -> Some a ∉ operands (nmat n);
  si_ctx : ctx (ts s1) = [];
  si_two : exists a b : T, a <> b;
  si_nopar : forall j L, j ∈ U -> lays s1 !! j = Some L -> nopar L;
}.
Hypothesis SI : site.

Lemma own_lt j a : own j a -> a < A0.
Proof using SI.
  intros (Hj & L & t & n & HL & Hk & Ht & Hn & Ha). destruct (si_out SI j L Hj HL Hk) as (out & o & ob & bo & Ho & Hto & Hob).
  assert (t = out) as -> by congruence. assert (n = MkNode KMat (blkm [o] ob bo)) as -> by congruence. cbn [nmat] in Ha. apply blk_ops in Ha. rewrite prod_1 in Ha. lia.
Qed.
Lemma part_U i j : i ∈ U -> part s1 i j -> j ∈ U.
Proof using SI. intros Hi Hp. revert Hi. induction Hp as [i|i c j Hc Hp IH]; [auto|]. intros Hi. apply IH. eapply si_child; eassumption. Qed.

Definition outnode (s : lst T) (j : nat) : option (node T) := L ← lays s !! j; t ← lten L FOutput; tens (ts s) !! t.
Definition outv (s : lst T) (m : list T) (j : nat) : option (vten T) := n ← outnode s j; mval m (nmat n).
(** Not yet reached, or on the way. *)
Definition opened (s : lst T) (j : nat) : Prop :=
  exists L, lays s1 !! j = Some L /\ (lays s !! j = Some L \/ lays s !! j = Some (set_flag BFF true L)) /\
    forall r, lref L = Some r -> mem (ts s) !! r = mem (ts s1) !! r.
Context (rnd : nat -> nat -> T).
Definition lay_done (W : nat -> Prop) (D : list nat) (s : lst T) (j : nat) : Prop :=
  exists L1 L n d sh e, lays s1 !! j = Some L1 /\ lays s !! j = Some L /\ lkind_of L = lkind_of L1 /\ lact L = lact L1 /\ lpre L = lpre L1 /\ lflag L BFF = true /\
    stands s1 j e /\ nshape insh e = Some sh /\
    outnode s j = Some n /\ settled n /\ wf_mat (length (mem (ts s))) (nmat n) /\ shape (nmat n) = sh /\ (lten L FDif = Some d /\ (lpre L1 = None -> lkind_of L1 = LInput \/ lkind_of L1 = LDense -> lten L FInput = lten L1 FInput)) /\
    (exists k Lk r, k ∈ D /\ lays s1 !! k = Some Lk /\ lref Lk = Some r /\ lref L = Some r) /\
    (forall l, lspec_of (tens (ts s1)) L1 = Some l -> has_par l = true -> exists bs ws, top_par insh e = Some (bs, ws) /\
      own_field (fun a => A0 <= a /\ ~ W a) (drawn rnd bs) (ts s) L FBias /\ own_field (fun a => A0 <= a /\ ~ W a) (drawn rnd ws) (ts s) L FWeights).
Definition carries (L1 : layer T) : bool := match lspec_of (tens (ts s1)) L1 with Some l => has_par l | None => false end.
Definition lay_more (C : list (nat * T)) (s : lst T) (j : nat) : Prop :=
  exists L1 L, lays s1 !! j = Some L1 /\ lays s !! j = Some L /\ (forall f, f <> BFF -> lflag L f = lflag L1 f) /\
    if carries L1 then par_cells C (ts s) L else nopar L.
Record finv (D : list nat) (C : list (nat * T)) (W : nat -> Prop) (s : lst T) : Prop := {
  fi_len : A0 <= length (mem (ts s));
  fi_keep : keeps (ts s1) (ts s);
  fi_nlay : length (lays s) = length (lays s1);
  fi_out : forall j, j ∉ U -> lays s !! j = lays s1 !! j;
  fi_DU : forall j, j ∈ D -> j ∈ U;
  fi_cl : forall j c, j ∈ D -> child s1 j c -> c ∈ D;
  fi_open : forall j, j ∈ U -> j ∉ D -> opened s j;
  fi_done : forall j, j ∈ D -> lay_done W D s j;
  fi_W : forall a, W a -> a < length (mem (ts s)) /\ (A0 <= a \/ exists j, j ∈ D /\ own j a);
  fi_frame : forall m m' a, length (mem (ts s)) <= length m -> exec (ctx (ts s)) m = Some m' -> ~ W a -> m' !! a = m !! a;
  fi_C : Forall (fun c => A0 <= fst c /\ mem (ts s) !! fst c = Some (snd c) /\ ~ W (fst c)) C;
  fi_val : forall m, length (mem (ts s)) <= length m -> consts C m ->
    match exec (ctx (ts s)) m with
    | Some m' => forall j e, j ∈ D -> stands s1 j e -> nv s m e <> None /\ outv s m' j = nv s m e
    | None => exists j e, j ∈ D /\ stands s1 j e /\ nv s m e = None
    end;
  fi_mem : forall a v, (forall k Lk, k ∈ U -> lays s1 !! k = Some Lk -> lref Lk <> Some a) -> mem (ts s1) !! a = Some v -> mem (ts s) !! a = Some v;
  fi_more : forall j, j ∈ D -> lay_more C s j;
  fi_apart : forall j k Lj Lk a, j ∈ D -> k ∈ D -> lays s !! j = Some Lj -> lays s !! k = Some Lk -> pcell (ts s) Lj a -> pcell (ts s) Lk a -> j = k;
}.
Lemma fi_part D C W s j k : finv D C W s -> j ∈ D -> part s1 j k -> k ∈ D.
Proof using Type. intros F Hj Hp. revert Hj. induction Hp as [j|j c k Hc Hp IH]; [auto|]. intros Hj. apply IH. eapply fi_cl; eassumption. Qed.

Lemma kept_tval (t0 t1 : tst T) m t n : keeps t0 t1 -> tens t0 !! t = Some n -> settled n -> tval (tens t1) m (Some t) = tval (tens t0) m (Some t).
Proof using Type.
  intros K Hn Hs. destruct (K _ _ Hn) as (n' & Hn' & _ & _ & E). destruct (E Hs) as (E1 & E2 & E3). unfold tval. cbn [mbind option_bind]. rewrite Hn, Hn'. cbn [mbind option_bind].
  apply mval_kept; assumption.
Qed.
Lemma kept_params (P P' : nat -> Prop) Q Q' (t0 t1 : tst T) m L : keeps t0 t1 -> own_field P Q t0 L FBias -> own_field P' Q' t0 L FWeights -> lparams (tens t1) m L = lparams (tens t0) m L.
Proof using Type.
  intros K (tb & nb & Hb & Hnb & Hsb & _) (tw & nw & Hw & Hnw & Hsw & _). unfold lparams. rewrite Hb, Hw.
  rewrite (kept_tval _ _ m _ _ K Hnb Hsb), (kept_tval _ _ m _ _ K Hnw Hsw). reflexivity.
Qed.
Lemma off_params (P P' : nat -> Prop) Q Q' (t0 : tst T) m m' L : own_field P Q t0 L FBias -> own_field P' Q' t0 L FWeights -> (forall a, P a \/ P' a -> m' !! a = m !! a) ->
  lparams (tens t0) m' L = lparams (tens t0) m L.
Proof using Type.
  intros (tb & nb & Hb & Hnb & Hsb & _ & Hpb & _) (tw & nw & Hw & Hnw & Hsw & _ & Hpw & _) Hm. unfold lparams, tval. rewrite Hb, Hw. cbn [mbind option_bind]. rewrite Hnb, Hnw. cbn [mbind option_bind].
  rewrite (mval_off m m' (nmat nb)) by auto. rewrite (mval_off m m' (nmat nw)) by auto. reflexivity.
Qed.
(** Values of the layers that are done do not depend on other layers' cells. *)
Lemma nv_own D C W s i a v m j e : finv D C W s -> i ∉ D -> own i a -> j ∈ D -> stands s1 j e -> nv s (<[a := v]> m) e = nv s m e.
Proof using SI.
  intros F Hi Ho Hj Hs. apply nval_ext.
  - intros t Ht. destruct (ins_part _ _ _ _ Hs Ht) as (k & L & Hk & Hr). assert (Hin : inten t).
    { exists k, L. split; [eapply part_U; [eapply fi_DU; eassumption|exact Hk]|exact Hr]. }
    destruct (si_ten SI t Hin) as (n & Hn & Hset & _). unfold net_in. rewrite !(kept_tval _ _ _ _ _ (fi_keep _ _ _ _ F) Hn Hset). unfold tval. cbn [mbind option_bind]. rewrite Hn. cbn [mbind option_bind].
    apply mval_off. intros b Hb. apply list_lookup_insert_ne. intros ->. eapply si_sep; eassumption.
  - intros k Hk. destruct (pars_part _ _ _ _ Hs Hk) as (L & l & Hp & HL & Hl & Hpar). pose proof (fi_part _ _ _ _ _ _ F Hj Hp) as HkD.
    destruct (fi_done _ _ _ _ F k HkD) as (L1 & L' & n & d & sh & e' & HL1 & HL' & _ & _ & _ & _ & _ & _ & _ & _ & _ & _ & _ & _ & Hpp). assert (L1 = L) as -> by congruence.
    destruct (Hpp _ Hl Hpar) as (bs & ws & _ & Hb & Hw). unfold net_par. rewrite HL'. cbn [mbind option_bind]. eapply off_params; [exact Hb|exact Hw|].
    intros b Hbb. apply list_lookup_insert_ne. intros ->. pose proof (own_lt _ _ Ho). destruct Hbb as [[Hbb _]|[Hbb _]]; lia.
Qed.
Lemma nodep D C W s i a m m' j n : finv D C W s -> i ∉ D -> own i a -> length (mem (ts s)) <= length m -> consts C m -> exec (ctx (ts s)) m = Some m' ->
  j ∈ D -> outnode s j = Some n -> Some a ∉ operands (nmat n).
Proof using SI.
  intros F Hi Ho Hm HC Hx Hj Hn Ha. destruct (si_two SI) as (x & y & Hxy). apply Hxy. pose proof (own_lt _ _ Ho) as Halt. pose proof (fi_len _ _ _ _ F) as HA.
  pose proof (fi_val _ _ _ _ F m Hm HC) as V0. rewrite Hx in V0.
  assert (HaW : ~ W a). { intros Hw. destruct (fi_W _ _ _ _ F _ Hw) as [_ [Hge|(k & Hk & Hok)]]; [lia|]. rewrite (si_own SI _ _ _ Hok Ho) in Hk. contradiction. }
  destruct (fi_done _ _ _ _ F j Hj) as (_ & _ & _ & _ & _ & e & _ & _ & _ & _ & _ & _ & Hs & _). destruct (V0 j e Hj Hs) as [Hne _].
  assert (G : forall v, exists mv, mv !! a = Some v /\ mval mv (nmat n) = nv s m e).
  { intros v. assert (Hlen : length (<[a := v]> m) = length m) by apply insert_length. pose proof (fi_val _ _ _ _ F (<[a := v]> m)) as V1. rewrite Hlen in V1. specialize (V1 Hm).
    assert (HC' : consts C (<[a := v]> m)).
    { pose proof (fi_C _ _ _ _ F) as FC. unfold consts in *. rewrite Forall_forall in FC, HC |- *. intros c Hc. destruct (FC _ Hc) as (Hge & _). rewrite list_lookup_insert_ne by lia. auto. }
    specialize (V1 HC'). destruct (exec (ctx (ts s)) (<[a := v]> m)) as [mv|] eqn:Ex.
    - exists mv. split; [rewrite (fi_frame _ _ _ _ F _ _ a ltac:(rewrite Hlen; exact Hm) Ex HaW); apply list_lookup_insert; lia|].
      destruct (V1 j e Hj Hs) as [_ E]. unfold outv in E. rewrite Hn in E. cbn [mbind option_bind] in E. rewrite E. eapply nv_own; eassumption.
    - exfalso. destruct V1 as (k & ek & Hk & Hsk & Hnk). rewrite (nv_own D C W s i a v m k ek F Hi Ho Hk Hsk) in Hnk. destruct (V0 k ek Hk Hsk) as [Hc _]. contradiction. }
  destruct (G x) as (mx & Hx1 & Hx2). destruct (G y) as (my & Hy1 & Hy2). destruct (nv s m e) as [v|]; [|contradiction].
  eapply (no_dependence x y mx my a (nmat n) v); eassumption.
Qed.

(** ** One more layer *)
Lemma done_ref D C W s j L r : finv D C W s -> j ∈ D -> lays s !! j = Some L -> lref L = Some r ->
  exists k Lk, k ∈ D /\ lays s1 !! k = Some Lk /\ lref Lk = Some r /\ r < A0.
Proof using SI.
  intros F Hj HL Hr. destruct (fi_done _ _ _ _ F j Hj) as (L1 & L' & n & d & sh & e' & HL1 & HL' & _ & _ & _ & _ & _ & _ & _ & _ & _ & _ & _ & (k & Lk & r' & Hk & HLk & Hrk & Hr') & _).
  assert (L' = L) as -> by congruence. assert (r' = r) as -> by congruence. exists k, Lk. repeat (split; [assumption|]).
  destruct (si_lay SI k Lk (fi_DU _ _ _ _ F _ Hk) HLk) as (_ & r' & v & Hr1 & Hlt & _). congruence.
Qed.
Lemma nv_step D C W s s' i j e m : finv D C W s -> keeps (ts s) (ts s') -> (forall k, k <> i -> lays s' !! k = lays s !! k) -> i ∉ D -> j ∈ D -> stands s1 j e -> nv s' m e = nv s m e.
Proof using SI.
  intros F K Hl Hi Hj Hs. apply nval_ext.
  - intros t Ht. destruct (ins_part _ _ _ _ Hs Ht) as (k & L & Hk & Hr). assert (Hin : inten t).
    { exists k, L. split; [eapply part_U; [eapply fi_DU; eassumption|exact Hk]|exact Hr]. }
    destruct (si_ten SI t Hin) as (n & Hn & Hset & _). destruct (fi_keep _ _ _ _ F _ _ Hn) as (n' & Hn' & Hk' & Hb' & _).
    unfold net_in. eapply kept_tval; [exact K|exact Hn'|]. eapply keeps_settled; eassumption.
  - intros k Hk. destruct (pars_part _ _ _ _ Hs Hk) as (L & l & Hp & HL & Hl' & Hpar). pose proof (fi_part _ _ _ _ _ _ F Hj Hp) as HkD.
    destruct (fi_done _ _ _ _ F k HkD) as (L1 & L' & n & d & sh & e' & HL1 & HL' & _ & _ & _ & _ & _ & _ & _ & _ & _ & _ & _ & _ & Hpp). assert (L1 = L) as -> by congruence.
    destruct (Hpp _ Hl' Hpar) as (bs & ws & _ & Hb & Hw). unfold net_par. rewrite Hl by congruence. rewrite HL'. cbn [mbind option_bind]. eapply kept_params; eassumption.
Qed.
Lemma own_field_mono (P P' : nat -> Prop) Q (t0 t1 : tst T) L f : keeps t0 t1 -> length (mem t0) <= length (mem t1) -> (forall a, a < length (mem t0) -> P a -> P' a /\ mem t1 !! a = mem t0 !! a) ->
  own_field P Q t0 L f -> own_field P' Q t1 L f.
Proof using Type.
  intros K Hl HP (t & n & Ht & Hn & Hs & Hwf & Hp & v & Hv & HQ). destruct (K _ _ Hn) as (n' & Hn' & Hk' & Hb' & E). destruct (E Hs) as (E1 & E2 & E3). exists t, n'. split; [exact Ht|]. split; [exact Hn'|].
  split; [eapply keeps_settled; eassumption|]. split; [eapply wf_kept; try eassumption; eapply wf_mat_mono; eassumption|].
  split; [intros a Ha; rewrite E3 in Ha; apply HP; [eapply wf_lt; eassumption|]; apply Hp; exact Ha|]. exists v. split; [|exact HQ].
  rewrite (mval_kept n n' _ E1 E3), <- Hv. apply mval_off. intros a Ha. apply HP; [eapply wf_lt; eassumption|]. apply Hp. exact Ha.
Qed.
Lemma step D C W s i L1 L2 e sh s2 O s' V par t0 L' new Cn Wn to_ no_ :
  finv D C W s -> i ∈ U -> i ∉ D -> (forall c, child s1 i c -> c ∈ D) -> stands s1 i e -> nshape insh e = Some sh ->
  lays s1 !! i = Some L1 -> lays s2 = <[i := L2]> (lays s) -> ts s2 = ts s ->
  lkind_of L2 = lkind_of L1 -> lact L2 = lact L1 -> lpre L2 = lpre L1 -> lref L2 = lref L1 -> lflag L2 BFF = true ->
  body_post O s2 s' i L2 V par sh t0 L' new Cn Wn to_ no_ -> body_more par Cn L2 (ts s') L' -> (par <> None -> carries L1 = true) ->
  lten L2 FBias = lten L1 FBias -> lten L2 FWeights = lten L1 FWeights -> (forall f, f <> BFF -> lflag L2 f = lflag L1 f) ->
  (forall l, lspec_of (tens (ts s1)) L1 = Some l -> has_par l = true -> exists bs ws, top_par insh e = Some (bs, ws) /\ par = Some (drawn rnd bs, drawn rnd ws)) ->
  (forall a, O a -> own i a) ->
  (lpre L1 = None -> lkind_of L1 = LInput \/ lkind_of L1 = LDense -> lten L' FInput = lten L1 FInput) ->
  (forall m m', length (mem (ts s')) <= length m -> exec (ctx (ts s)) m = Some m' ->
     (forall j ej, j ∈ D -> stands s1 j ej -> nv s' m ej <> None /\ outv s m' j = nv s' m ej) ->
     (par <> None -> lparams (tens (ts s')) m' L' = lparams (tens (ts s')) m L') ->
     (forall j n a, j ∈ D -> outnode s j = Some n -> O a -> Some a ∉ operands (nmat n)) ->
     lays s' !! i = Some L' ->
     V (lparams (tens (ts s')) m' L') m' (nv s' m e)) ->
  finv (i :: D) (C ++ Cn) (fun a => W a \/ Wn a) s'.
Proof using SI.
  intros F HiU HiD Hch Hst Hsh HL1 Hls Hts Hkd Hac Hpr Hrf Hfl [bt0 blays bsame bref bseg bW bout bdif bnode bset bwf bsh bpar bval] Hmore Hcar Hfb Hfw Hflg Hpar HO HFI HV.
  assert (HiL : i < length (lays s)) by (rewrite (fi_nlay _ _ _ _ F); eapply lookup_lt_Some; exact HL1).
  assert (Hlays : lays s' = <[i := L']> (lays s)) by (rewrite blays, Hls, list_insert_insert; reflexivity).
  assert (Hlne : forall k, k <> i -> lays s' !! k = lays s !! k) by (intros k Hk; rewrite Hlays; apply list_lookup_insert_ne; congruence).
  assert (HLi : lays s' !! i = Some L') by (rewrite Hlays; apply list_lookup_insert; exact HiL).
  destruct bt0 as (Tt & Tc & Tl & Tm). rewrite Hts in Tt, Tc, Tl, Tm, bW, bpar.
  assert (K0 : keeps (ts s) (ts s')).
  { eapply keeps_trans; [|exact (sg_keep _ _ _ _ _ bseg)]. intros j n Hn. exists n. rewrite Tt. repeat split; auto. }
  assert (Hlen : length (mem (ts s)) <= length (mem (ts s'))) by (rewrite <- Tl; eapply sg_len; exact bseg).
  assert (HA : A0 <= length (mem (ts s))) by apply F.
  assert (Hctx : ctx (ts s') = ctx (ts s) ++ new) by (rewrite (sg_ctx _ _ _ _ _ bseg), Tc; reflexivity).
  (* the counter of a lower layer is one of those of D *)
  assert (Hpref : forall r, pre_ref s2 L2 r -> exists k Lk, k ∈ D /\ lays s1 !! k = Some Lk /\ lref Lk = Some r /\ r < A0).
  { intros r (q & Lq & Hq & HLq & Hr). assert (HqD : q ∈ D) by (apply Hch; exists L1; split; [exact HL1|left; congruence]).
    assert (Hqi : q <> i) by (intros ->; contradiction). rewrite Hls, list_lookup_insert_ne in HLq by congruence. eapply done_ref; eassumption. }
  assert (HWn : forall a, Wn a -> a < length (mem (ts s')) /\ (length (mem (ts s)) <= a \/ own i a)).
  { intros a Ha. split; [apply (sg_W _ _ _ _ _ bseg); exact Ha|]. destruct (bW _ Ha) as [?|Ho]; auto. }
  assert (Hmem : forall a v, (forall k Lk, k ∈ D -> lays s1 !! k = Some Lk -> lref Lk <> Some a) -> mem (ts s) !! a = Some v -> mem (ts s') !! a = Some v).
  { intros a v Ha Hv. eapply sg_low; [exact bseg|]. destruct (Tm a) as [->|Hp]; [exact Hv|]. exfalso. destruct (Hpref _ Hp) as (k & Lk & Hk & HLk & Hrk & _). eapply Ha; eassumption. }
  assert (Hrlt : forall k Lk r, k ∈ U -> lays s1 !! k = Some Lk -> lref Lk = Some r -> r < A0).
  { intros k Lk r Hk HLk Hr. destruct (si_lay SI k Lk Hk HLk) as (_ & r' & v & Hr' & Hlt & _). congruence. }
  assert (Hdo : forall j, j ∈ D -> lay_done (fun a => W a \/ Wn a) (i :: D) s' j).
  { intros j Hj. assert (Hji : j <> i) by congruence.
    destruct (fi_done _ _ _ _ F j Hj) as (M1 & M & n & d & shj & ej & HM1 & HM & Q1 & Q2 & Q3 & Q4 & Q5 & Q6 & Q7 & Q8 & Q9 & Q10 & Q11 & (k & Lk & r & Hk & HLk & Hrk & Hr) & Q12).
    assert (Hn' : exists n', outnode s' j = Some n' /\ nkind n' = nkind n /\ (builded (nmat n) = true -> builded (nmat n') = true) /\
       shape (nmat n') = shape (nmat n) /\ mulindex (nmat n') = mulindex (nmat n) /\ operands (nmat n') = operands (nmat n)).
    { unfold outnode in Q7 |- *. rewrite Hlne by exact Hji. rewrite HM in Q7 |- *. cbn [mbind option_bind] in Q7 |- *. destruct (lten M FOutput) as [t|]; [|discriminate]. cbn [mbind option_bind] in Q7 |- *.
      destruct (K0 _ _ Q7) as (n' & Hn' & Hk' & Hb' & E). exists n'. repeat (split; [assumption|]). apply E. exact Q8. }
    destruct Hn' as (n' & Hn' & Hk' & Hb' & E1 & E2 & E3). exists M1, M, n', d, shj, ej. rewrite Hlne by exact Hji. repeat (split; [assumption|]).
    split; [eapply keeps_settled; eassumption|]. split; [eapply wf_kept; try eassumption; eapply wf_mat_mono; eassumption|]. split; [congruence|]. split; [exact Q11|]. split.
    - exists k, Lk, r. split; [apply elem_of_list_further; exact Hk|]. auto.
    - intros l Hl Hlp. destruct (Q12 l Hl Hlp) as (bs & ws & Htp & Hb & Hw). exists bs, ws. split; [exact Htp|].
      assert (G : forall a, a < length (mem (ts s)) -> A0 <= a /\ ~ W a -> (A0 <= a /\ ~ (W a \/ Wn a)) /\ mem (ts s') !! a = mem (ts s) !! a).
      { intros a Ha [Ha1 Ha2]. split.
        2:{ destruct (lookup_lt_is_Some_2 _ _ Ha) as [w Hwz]. rewrite Hwz. apply Hmem; [|exact Hwz]. intros k' Lk' Hkz HLkz Hrkz. pose proof (Hrlt _ _ _ (fi_DU _ _ _ _ F _ Hkz) HLkz Hrkz). lia. }
        split; [exact Ha1|]. intros [Hx|Hx]; [auto|]. destruct (HWn _ Hx) as [_ [Hy|Hy]]; [lia|]. apply own_lt in Hy. lia. }
      split; (eapply own_field_mono; [exact K0|exact Hlen|exact G|assumption]). }
  assert (Hmo : forall j, j ∈ i :: D -> lay_more (C ++ Cn) s' j).
  { intros j Hj. apply elem_of_cons in Hj as [->|Hj].
    - exists L1, L'. split; [exact HL1|]. split; [exact HLi|]. destruct bsame as (_ & _ & _ & B4). split; [intros f Hf; rewrite B4; auto|].
      destruct (carries L1) eqn:Ec.
      + unfold carries in Ec. destruct (lspec_of (tens (ts s1)) L1) as [l|] eqn:El; [|discriminate]. destruct (Hpar l eq_refl Ec) as (bs & ws & _ & Hpe). rewrite Hpe in Hmore. cbn [body_more] in Hmore.
        destruct (bpar _ _ Hpe) as [Hob How]. pose proof Hmore as (tb & nb & tw & nw & M1 & M2 & M3 & M4 & M5 & M6 & M7 & M8 & M9 & M10). exists tb, nb, tw, nw. repeat (split; [assumption|]).
        intros a Ha Hin. rewrite map_app in Hin. apply elem_of_app in Hin as [Hin|Hin]; [|exact (M10 a Ha Hin)]. apply elem_of_list_fmap in Hin as (c & -> & Hc).
        destruct (proj1 (Forall_forall _ _) (fi_C _ _ _ _ F) c Hc) as (_ & Hcm & _). apply lookup_lt_Some in Hcm.
        assert (Hp : pcell (ts s') L' (fst c)) by (apply elem_of_app in Ha as [Ha|Ha]; [exists FBias, tb, nb|exists FWeights, tw, nw]; auto).
        destruct (pcell_owned _ _ _ _ _ _ _ Hob How Hp) as [[Hge _]|[Hge _]]; lia.
      + destruct par as [pp|]; [exfalso; specialize (Hcar ltac:(discriminate)); discriminate Hcar|]. destruct Hmore as [E1 E2]. destruct (si_nopar SI i L1 HiU HL1) as [N1 N2]. split; congruence.
    - assert (Hji : j <> i) by congruence. destruct (fi_more _ _ _ _ F j Hj) as (M1 & M & HM1 & HM & Hfg & Hc). exists M1, M. rewrite Hlne by exact Hji. repeat (split; [assumption|]).
      destruct (carries M1); [|exact Hc]. eapply par_cells_keep; [exact Hc|exact K0|exact Hlen|reflexivity|reflexivity|]. intros c Hin. apply elem_of_app in Hin as [Hin|Hin]; [auto|]. right.
      rewrite <- Tl. apply (proj1 (Forall_forall _ _) (sg_const _ _ _ _ _ bseg) c Hin). }
  split.
  - lia.
  - eapply keeps_trans; [apply F|exact K0].
  - rewrite Hlays, insert_length. apply F.
  - intros j Hj. rewrite Hlne by congruence. apply F. exact Hj.
  - intros j Hj. apply elem_of_cons in Hj as [->|Hj]; [exact HiU|]. eapply fi_DU; eassumption.
  - intros j c Hj Hc. apply elem_of_list_further. apply elem_of_cons in Hj as [->|Hj]; [auto|]. eapply fi_cl; eassumption.
  - intros j Hj HjD. apply not_elem_of_cons in HjD as [Hji HjD]. destruct (fi_open _ _ _ _ F j Hj HjD) as (Lj & HLj & Hcur & Hrj). exists Lj. split; [exact HLj|].
    rewrite Hlne by exact Hji. split; [exact Hcur|]. intros r Hr. rewrite <- (Hrj r Hr). pose proof (Hrlt _ _ _ Hj HLj Hr) as Hlt.
    destruct (lookup_lt_is_Some_2 (mem (ts s)) r) as [v Hv]; [lia|]. rewrite Hv. apply Hmem; [|exact Hv]. intros k Lk Hk HLk Hrk.
    apply HjD. rewrite (si_inj SI j k Lj Lk r Hj (fi_DU _ _ _ _ F _ Hk) HLj HLk Hr Hrk). exact Hk.
  - intros j Hj. apply elem_of_cons in Hj as [->|Hj]; [|apply Hdo; exact Hj]. destruct bsame as (B1 & B2 & B3 & B4). destruct bdif as [d Hd].
    exists L1, L', no_, d, sh, e. repeat (split; [first [assumption|congruence]|]). split; [unfold outnode; rewrite HLi; cbn [mbind option_bind]; rewrite bout; cbn [mbind option_bind]; exact bnode|].
    do 3 (split; [assumption|]). split; [auto|]. split.
    + destruct (si_lay SI i L1 HiU HL1) as (_ & r & v & Hr & _). destruct bref as [Hb|(r' & Hb & Hp)].
      * exists i, L1, r. split; [apply elem_of_list_here|]. repeat (split; [assumption|]). congruence.
      * destruct (Hpref _ Hp) as (k & Lk & Hk & HLk & Hrk & _). exists k, Lk, r'. split; [apply elem_of_list_further; exact Hk|]. auto.
    + intros l Hl Hlp. destruct (Hpar l Hl Hlp) as (bs & ws & Htp & Hpe). exists bs, ws. split; [exact Htp|]. destruct (bpar _ _ Hpe) as [Hb Hw].
      assert (G : forall a, a < length (mem (ts s')) -> length (mem (ts s)) <= a /\ ~ Wn a -> (A0 <= a /\ ~ (W a \/ Wn a)) /\ mem (ts s') !! a = mem (ts s') !! a).
      { intros a Ha [Ha1 Ha2]. split; [|reflexivity]. split; [lia|]. intros [Hx|Hx]; [|auto]. destruct (fi_W _ _ _ _ F _ Hx) as [Hy _]. lia. }
      split; (eapply own_field_mono; [apply keeps_refl|reflexivity|exact G|assumption]).
  - intros a [Ha|Ha].
    + destruct (fi_W _ _ _ _ F _ Ha) as [Hy [Hz|(j & Hj & Ho)]]; (split; [lia|]); [auto|]. right. exists j. split; [apply elem_of_list_further; exact Hj|exact Ho].
    + destruct (HWn _ Ha) as [Hy [Hz|Hz]]; (split; [exact Hy|]); [left; lia|]. right. exists i. split; [apply elem_of_list_here|exact Hz].
  - intros m m' a Hm Hx Ha. rewrite Hctx, exec_app in Hx. apply bind_Some in Hx as (mm & X1 & X2). pose proof (exec_length _ _ _ X1) as Lm.
    rewrite (sg_frame _ _ _ _ _ bseg mm m' a ltac:(lia) X2) by tauto. apply (fi_frame _ _ _ _ F m mm a ltac:(lia) X1). tauto.
  - apply Forall_app. split.
    + eapply Forall_impl; [apply F|]. cbn. intros c (Hc1 & Hc2 & Hc3). split; [exact Hc1|]. split.
      * apply Hmem; [|exact Hc2]. intros k Lk Hk HLk Hrk. pose proof (Hrlt _ _ _ (fi_DU _ _ _ _ F _ Hk) HLk Hrk). lia.
      * intros [Hx|Hx]; [auto|]. destruct (HWn _ Hx) as [_ [Hy|Hy]]; [|apply own_lt in Hy; lia]. apply lookup_lt_Some in Hc2. lia.
    + eapply Forall_impl; [exact (sg_const _ _ _ _ _ bseg)|]. cbn. intros c (Hc1 & Hc2 & Hc3). split; [lia|]. split; [exact Hc2|]. intros [Hx|Hx]; [|auto].
      destruct (fi_W _ _ _ _ F _ Hx) as [Hy _]. lia.
  - intros m Hm HC. apply consts_app in HC as [HC HCn]. pose proof (fi_val _ _ _ _ F m ltac:(lia) HC) as V0. rewrite Hctx, exec_app.
    assert (Hnv : forall j ej, j ∈ D -> stands s1 j ej -> nv s' m ej = nv s m ej) by (intros j ej Hj Hsj; eapply nv_step; eassumption).
    destruct (exec (ctx (ts s)) m) as [mm|] eqn:X1; cbn [mbind option_bind].
    + pose proof (exec_length _ _ _ X1) as Lm.
      assert (HCn' : consts Cn mm).
      { pose proof (sg_const _ _ _ _ _ bseg) as FC. unfold consts in *. rewrite Forall_forall in FC, HCn |- *. intros c Hc. destruct (FC _ Hc) as (Hge & _).
        rewrite (fi_frame _ _ _ _ F m mm (fst c) ltac:(lia) X1); [auto|]. intros Hx. destruct (fi_W _ _ _ _ F _ Hx) as [Hy _]. lia. }
      assert (Hnd : forall j n a, j ∈ D -> outnode s j = Some n -> O a -> Some a ∉ operands (nmat n)).
      { intros j n a Hj Hn Ho. eapply (nodep D C W s i a m mm j n); eauto. lia. }
      assert (Hvv : V (lparams (tens (ts s')) mm L') mm (nv s' m e)).
      { apply HV; auto.
        - intros j ej Hj Hsj. destruct (V0 j ej Hj Hsj) as [E1 E2]. rewrite (Hnv _ _ Hj Hsj). auto.
        - intros Hp. destruct par as [[Qb Qw]|]; [|contradiction]. destruct (bpar _ _ eq_refl) as [Hb Hw]. eapply off_params; [exact Hb|exact Hw|]. intros a Ha. apply (fi_frame _ _ _ _ F m mm a ltac:(lia) X1). intros Hx.
          destruct (fi_W _ _ _ _ F _ Hx) as [Hy _]. destruct Ha as [[Ha _]|[Ha _]]; lia. }
      pose proof (bval mm _ ltac:(lia) HCn' Hvv) as Ho. destruct (nv s' m e) as [v|] eqn:Ev.
      * destruct Ho as (m2 & X2 & Hv). rewrite X2. intros j ej Hj Hsj. apply elem_of_cons in Hj as [->|Hj].
        -- rewrite (stands_inj _ _ _ Hsj _ Hst), Ev. split; [discriminate|]. unfold outv, outnode. rewrite HLi. cbn [mbind option_bind]. rewrite bout. cbn [mbind option_bind]. rewrite bnode. exact Hv.
        -- destruct (V0 j ej Hj Hsj) as [E1 E2]. rewrite (Hnv _ _ Hj Hsj). split; [exact E1|]. rewrite <- E2.
           assert (Hji : j <> i) by congruence. destruct (fi_done _ _ _ _ F j Hj) as (M1 & M & n & d & shj & e' & HM1 & HM & _ & _ & _ & _ & _ & _ & Q7 & Q8 & Q9 & _).
           unfold outv. unfold outnode in Q7 |- *. rewrite Hlne by exact Hji. rewrite HM in Q7 |- *. cbn [mbind option_bind] in Q7 |- *. destruct (lten M FOutput) as [t|] eqn:Eo; [|discriminate]. cbn [mbind option_bind] in Q7 |- *.
           destruct (K0 _ _ Q7) as (n' & Hn' & _ & _ & E). destruct (E Q8) as (F1 & F2 & F3). rewrite Hn', Q7. cbn [mbind option_bind]. rewrite (mval_kept n n' m2 F1 F3).
           apply mval_off. intros a Ha. apply (sg_frame _ _ _ _ _ bseg mm m2 a ltac:(lia) X2). intros Hx. destruct (bW _ Hx) as [Hy|Hy].
           ++ pose proof (wf_lt _ _ _ Q9 Ha). lia.
           ++ eapply (Hnd j n a Hj); [|exact Hy|exact Ha]. unfold outnode. rewrite HM. cbn [mbind option_bind]. rewrite Eo. exact Q7.
      * cbn [outcome] in Ho. rewrite Ho. exists i, e. split; [apply elem_of_list_here|]. auto.
    + destruct V0 as (j & ej & Hj & Hsj & E). exists j, ej. split; [apply elem_of_list_further; exact Hj|]. split; [exact Hsj|]. rewrite (Hnv _ _ Hj Hsj). exact E.
  - intros a v Ha Hv. apply Hmem; [|exact (fi_mem _ _ _ _ F a v Ha Hv)]. intros k Lk Hk. apply Ha. exact (fi_DU _ _ _ _ F k Hk).
  - exact Hmo.
  - assert (Hold : forall j Lj a, j ∈ D -> lays s' !! j = Some Lj -> pcell (ts s') Lj a -> lays s !! j = Some Lj /\ pcell (ts s) Lj a /\ a < length (mem (ts s))).
    { intros j Lj a Hj HLj Hp. assert (Hji : j <> i) by congruence. rewrite Hlne in HLj by exact Hji. destruct (fi_more _ _ _ _ F j Hj) as (M1 & M & HM1 & HM & _ & Hc). assert (M = Lj) as -> by congruence.
      destruct (carries M1); [|exfalso; eapply nopar_pcell; eassumption]. pose proof (pcell_kept _ _ _ _ _ Hc K0 Hp) as Hp0. split; [exact HLj|]. split; [exact Hp0|]. eapply par_cells_pcell; eassumption. }
    assert (Hnew : forall a, pcell (ts s') L' a -> length (mem (ts s)) <= a).
    { intros a Hp. destruct par as [[Qb Qw]|].
      - destruct (bpar _ _ eq_refl) as [Hb Hw]. destruct (pcell_owned _ _ _ _ _ _ _ Hb Hw Hp) as [[Hge _]|[Hge _]]; exact Hge.
      - exfalso. destruct Hmore as [E1 E2]. destruct (si_nopar SI i L1 HiU HL1) as [N1 N2]. eapply nopar_pcell; [|exact Hp]. split; congruence. }
    intros j k Lj Lk a Hj Hk HLj HLk Pj Pk. apply elem_of_cons in Hj as [->|Hj]; apply elem_of_cons in Hk as [->|Hk].
    + reflexivity.
    + assert (Lj = L') as -> by congruence. apply Hnew in Pj. destruct (Hold k Lk a Hk HLk Pk) as (_ & _ & Hlt). lia.
    + assert (Lk = L') as -> by congruence. apply Hnew in Pk. destruct (Hold j Lj a Hj HLj Pj) as (_ & _ & Hlt). lia.
    + destruct (Hold j Lj a Hj HLj Pj) as (HLj' & Pj' & _). destruct (Hold k Lk a Hk HLk Pk) as (HLk' & Pk' & _). exact (fi_apart _ _ _ _ F j k Lj Lk a Hj Hk HLj' HLk' Pj' Pk').
Qed.

Lemma finv_flag D C W s i L1 s' : finv D C W s -> i ∈ U -> i ∉ D -> lays s1 !! i = Some L1 -> lays s !! i = Some L1 ->
  s' = MkL (ts s) (<[i := set_flag BFF true L1]> (lays s)) (rc s) -> finv D C W s'.
Proof using SI.
  intros F HiU HiD HL1 HL ->. assert (HiL : i < length (lays s)) by (eapply lookup_lt_Some; exact HL).
  set (s' := MkL _ _ _). assert (Hne : forall k, k <> i -> lays s' !! k = lays s !! k) by (intros k Hk; apply list_lookup_insert_ne; congruence).
  assert (Hno : forall j, j ∈ D -> outnode s' j = outnode s j) by (intros j Hj; unfold outnode; rewrite Hne by congruence; reflexivity).
  pose proof F as [f1 f2 f3 f4 f5 f6 f7 f8 f9 f10 f11 f12 f13 f14 f15]. split; try assumption.
  - cbn [s' lays]. rewrite insert_length. exact f3.
  - intros j Hj. rewrite Hne by congruence. auto.
  - intros j Hj HjD. destruct (f7 j Hj HjD) as (Lj & HLj & Hc & Hr). destruct (decide (j = i)) as [->|Hji].
    + exists L1. split; [exact HL1|]. split; [right; apply list_lookup_insert; exact HiL|]. replace L1 with Lj by congruence. exact Hr.
    + exists Lj. rewrite Hne by exact Hji. auto.
  - intros j Hj. assert (Hji : j <> i) by congruence. destruct (f8 j Hj) as (M1 & M & n & d & sh & e & Q). exists M1, M, n, d, sh, e. rewrite Hne, Hno by assumption. exact Q.
  - intros m Hm HC. specialize (f12 m Hm HC). change (ctx (ts s')) with (ctx (ts s)).
    assert (G : forall j ej, j ∈ D -> stands s1 j ej -> nv s' m ej = nv s m ej) by (intros j ej Hj Hsj; eapply (nv_step D C W s s' i j ej m); eauto; apply keeps_refl).
    destruct (exec (ctx (ts s)) m) as [m'|] in f12 |- *.
    + intros j ej Hj Hsj. rewrite (G _ _ Hj Hsj). unfold outv. rewrite (Hno _ Hj). apply f12; assumption.
    + destruct f12 as (j & ej & Hj & Hsj & E). exists j, ej. rewrite (G _ _ Hj Hsj). auto.
  - intros j Hj. assert (Hji : j <> i) by congruence. destruct (f14 j Hj) as (M1 & M & Q). exists M1, M. rewrite Hne by exact Hji. exact Q.
  - intros j k Lj Lk a Hj Hk HLj HLk. rewrite Hne in HLj by congruence. rewrite Hne in HLk by congruence. exact (f15 j k Lj Lk a Hj Hk HLj HLk).
Qed.
(** The tensors the network starts from are not written. *)
Lemma in_val D C W s t n m m' : finv D C W s -> inten t -> tens (ts s) !! t = Some n -> length (mem (ts s)) <= length m -> exec (ctx (ts s)) m = Some m' ->
  settled n /\ wf_mat (length (mem (ts s))) (nmat n) /\ mval m' (nmat n) = mval m (nmat n).
Proof using SI.
  intros F Hin Hn Hm Hx. destruct (si_ten SI t Hin) as (n1 & Hn1 & Hset & Hwf). destruct (fi_keep _ _ _ _ F _ _ Hn1) as (n' & Hn' & Hk' & Hb' & E). assert (n' = n) as -> by congruence.
  destruct (E Hset) as (E1 & E2 & E3). split; [eapply keeps_settled; eassumption|]. split; [eapply wf_kept; try eassumption; eapply wf_mat_mono; [exact Hwf|apply F]|].
  apply mval_off. intros a Ha. rewrite E3 in Ha. apply (fi_frame _ _ _ _ F m m' a Hm Hx). intros Hw. destruct (fi_W _ _ _ _ F _ Hw) as [_ [Hge|(j & _ & Ho)]].
  - pose proof (wf_lt _ _ _ Hwf Ha). lia.
  - eapply si_sep; eassumption.
Qed.
Lemma in_node D C W s t : finv D C W s -> inten t -> exists n, tens (ts s) !! t = Some n /\ settled n /\ wf_mat (length (mem (ts s))) (nmat n) /\ insh t = Some (shape (nmat n)).
Proof using SI.
  intros F Hin. destruct (si_ten SI t Hin) as (n1 & Hn1 & Hset & Hwf). destruct (fi_keep _ _ _ _ F _ _ Hn1) as (n & Hn & Hk' & Hb' & E).
  destruct (E Hset) as (E1 & E2 & E3). exists n. split; [exact Hn|]. split; [eapply keeps_settled; eassumption|]. split; [eapply wf_kept; try eassumption; eapply wf_mat_mono; [exact Hwf|apply F]|].
  unfold insh. rewrite Hn1, E1. reflexivity.
Qed.
(** A dense layer still has the output it was made with. *)
Lemma out_kept D C W s j L : finv D C W s -> j ∈ U -> lays s1 !! j = Some L -> lkind_of L = LDense ->
  exists out o ob bo, lten L FOutput = Some out /\ tens (ts s) !! out = Some (MkNode KMat (blkm [o] ob bo)) /\ ob + N.to_nat o <= length (mem (ts s)) /\
    (exists b1, tens (ts s1) !! out = Some (MkNode KMat (blkm [o] ob b1))).
Proof using SI.
  intros F Hj HL Hk. destruct (si_out SI j L Hj HL Hk) as (out & o & ob & bo & Ho & Hto & Hob). destruct (fi_keep _ _ _ _ F _ _ Hto) as (n & Hn & Hkn & _ & E).
  destruct (E (settled_mat _)) as (E1 & E2 & E3). destruct n as [kn [shn mn on bn]]. cbn [nkind nmat shape mulindex operands blkm] in *. subst. exists out, o, ob, bn.
  split; [exact Ho|]. split; [exact Hn|]. split; [pose proof (fi_len _ _ _ _ F); lia|]. exists bo. exact Hto.
Qed.
Lemma lspec_kept D C W s j L L2 : finv D C W s -> j ∈ U -> lays s1 !! j = Some L -> lkind_of L2 = lkind_of L -> lact L2 = lact L -> lten L2 FOutput = lten L FOutput ->
  lspec_of (tens (ts s)) L2 = lspec_of (tens (ts s1)) L.
Proof using SI.
  intros F Hj HL Hk Ha Ho. unfold lspec_of. rewrite Hk, Ha, Ho. destruct (lkind_of L) eqn:E; try reflexivity.
  destruct (out_kept D C W s j L F Hj HL E) as (out & o & ob & bo & Ho1 & Hto & _ & (b1 & Hto1)). rewrite Ho1. cbn [mbind option_bind]. rewrite Hto, Hto1. reflexivity.
Qed.
Lemma not_below i e c ec : stands s1 i e -> child s1 i c -> stands s1 c ec -> ~ part s1 c i.
Proof using Type.
  clear rnd. intros Hs Hc Hsc Hp. destruct (stands_child _ _ _ _ Hs Hc) as (ec' & Hsc' & Hlt). pose proof (stands_inj _ _ _ Hsc _ Hsc') as ->.
  destruct (stands_part _ _ _ _ Hsc' Hp) as (e' & He' & [->|Hle]); pose proof (stands_inj _ _ _ He' _ Hs) as ->; [pose proof (stands_inj _ _ _ Hs _ Hsc') as ->|]; lia.
Qed.
Lemma stands_in i L e : stands s1 i e -> lays s1 !! i = Some L -> lkind_of L = LInput -> lpre L = None.
Proof using Type.
  intros Hs HL Hk. inversion Hs as [? L' ? HL'|? L' ? ? HL' Hk'|? L' ? ? ? HL' Hl' Hp'|? L' ? ? ? ? ? HL' Hk']; subst; assert (L' = L) as -> by congruence; try congruence.
  exfalso. apply (proj1 (lspec_kind _ _ _ Hl')). exact Hk.
Qed.

Definition ff_post (D : list nat) (i : nat) (s s' : lst T) (D' : list nat) : Prop :=
  i ∈ D' /\ (forall j, j ∈ D -> j ∈ D') /\ (forall j, j ∈ D' -> j ∈ D \/ part s1 i j) /\ forall j, j ∈ D \/ j ∉ D' -> lays s' !! j = lays s !! j.

(** What building one more layer adds. *)
Definition one_more (C : list (nat * T)) (W : nat -> Prop) (s2 s' : lst T) (i : nat) (L2 : layer T) (x : tmat) (l : lspec T) (sh : list N) (C' : list (nat * T)) (W' : nat -> Prop) : Prop :=
  exists (O : nat -> Prop) t0 L' new Cn (Wn : nat -> Prop) to_ no_, C' = C ++ Cn /\ W' = (fun a => W a \/ Wn a) /\ (forall a, O a -> own i a) /\
    body_post O s2 s' i L2 (lay_goal O l x) (par_init rnd l (shape x)) sh t0 L' new Cn Wn to_ no_ /\ body_rest O s2 s' L2 x l sh L' new Cn Wn to_ no_.
(** Layers with one input, once the input is there. *)
Lemma ff_one D C W s i L1 L2 l e0 sh inp n s2 :
  finv D C W s -> i ∈ U -> i ∉ D -> (forall c, child s1 i c -> c ∈ D) -> stands s1 i (NLay l i e0) -> nshape insh (NLay l i e0) = Some sh ->
  lays s1 !! i = Some L1 -> lspec_of (tens (ts s1)) L1 = Some l -> s2 = MkL (ts s) (<[i := L2]> (lays s)) (rc s) ->
  lkind_of L2 = lkind_of L1 -> lact L2 = lact L1 -> lpre L2 = lpre L1 -> lref L2 = lref L1 -> lflag L2 BFF = true -> lten L2 FOutput = lten L1 FOutput ->
  lten L2 FBias = lten L1 FBias -> lten L2 FWeights = lten L1 FWeights -> (forall f, f <> BFF -> lflag L2 f = lflag L1 f) ->
  lten L2 FInput = Some inp -> (lpre L1 = None -> lten L2 FInput = lten L1 FInput) -> tens (ts s) !! inp = Some n -> settled n -> wf_mat (length (mem (ts s))) (nmat n) ->
  nshape insh e0 = Some (shape (nmat n)) ->
  (lkind_of L1 = LDense \/ exists q Lq d r v, below_lay s2 i L2 q Lq inp d r /\ mem (ts s) !! r = Some v) ->
  (forall s' m m', keeps (ts s) (ts s') -> length (mem (ts s)) <= length m -> exec (ctx (ts s)) m = Some m' ->
     (forall j ej, j ∈ D -> stands s1 j ej -> nv s' m ej <> None /\ outv s m' j = nv s' m ej) ->
     nv s' m e0 <> None /\ mval m' (nmat n) = nv s' m e0) ->
  (forall a, own i a -> (forall j nj, j ∈ D -> outnode s j = Some nj -> Some a ∉ operands (nmat nj)) -> Some a ∉ operands (nmat n)) ->
  exists s' C' W', ff_body rnd i s2 = (Ok tt, s') /\ finv (i :: D) C' W' s' /\ (forall j, j <> i -> lays s' !! j = lays s !! j) /\ one_more C W s2 s' i L2 (nmat n) l sh C' W'.
Proof using SI.
  intros F HiU HiD Hch Hst Hsh HL1 Hl -> Hkd Hac Hpr Hrf Hfl Hof Hfb Hfw Hfg Hin Hin1 Hn Hset Hwf Hsh0 Hbl Hval Hsep. set (s2 := MkL _ _ _) in *.
  assert (HiL : i < length (lays s)) by (rewrite (fi_nlay _ _ _ _ F); eapply lookup_lt_Some; exact HL1).
  assert (HL2 : lays s2 !! i = Some L2) by (apply list_lookup_insert; exact HiL).
  assert (Hls : lay_shape l (shape (nmat n)) = Some sh) by (cbn [nshape] in Hsh; rewrite Hsh0 in Hsh; exact Hsh).
  destruct (si_lay SI i L1 HiU HL1) as (_ & b & vb & Hb & Hblt & _).
  destruct (body_any rnd s2 i L2 l inp n sh) as (s' & O & E & (t0 & L' & new & Cn & Wn & to_ & no_ & B & Bm & Bx) & HO & HFI); try assumption.
  { cbn [s2 ts]. rewrite (lspec_kept D C W s i L1 L2 F HiU HL1 Hkd Hac Hof). exact Hl. }
  { intros Hk. rewrite Hkd in Hk. destruct (out_kept D C W s i L1 F HiU HL1 Hk) as (out & o & ob & bo & Ho1 & Hto & Hob & _). exists out, o, ob, bo. rewrite Hof. auto. }
  { rewrite Hkd. destruct Hbl as [Hbl|(q & Lq & d & r & v & Hb1 & Hv)]; [auto|]. right. destruct (lookup_lt_is_Some_2 (mem (ts s2)) b) as [w Hw]; [pose proof (fi_len _ _ _ _ F); cbn [s2 ts]; lia|].
    exists q, Lq, d, r, v, b, w. split; [exact Hb1|]. split; [exact Hv|]. split; [congruence|exact Hw]. }
  assert (HO' : forall a, O a -> own i a).
  { intros a Ha. destruct (HO a Ha) as (Hk & out & nn & Ho1 & Hnn & Hann). rewrite Hkd in Hk. destruct (out_kept D C W s i L1 F HiU HL1 Hk) as (out' & o & ob & bo & Ho2 & Hto & Hob & (b1 & Hto1)).
    assert (out' = out) as -> by congruence. cbn [s2 ts] in Hnn. split; [exact HiU|]. exists L1, out, (MkNode KMat (blkm [o] ob b1)). repeat (split; [assumption|]). 
    assert (nn = MkNode KMat (blkm [o] ob bo)) as -> by congruence. exact Hann. }
  exists s', (C ++ Cn), (fun a => W a \/ Wn a). split; [exact E|]. split; [|split].
  - eapply (step D C W s i L1 L2 (NLay l i e0) sh s2 O s'); try eassumption; try reflexivity.
    + intros Hpi. unfold carries. rewrite Hl. destruct l; try reflexivity; exfalso; apply Hpi; unfold par_init, par_shape; destruct (shape (nmat n)) as [|? [|? [|? [|]]]]; reflexivity.
    + intros l' Hl' Hp'. assert (l' = l) as -> by congruence. destruct (has_par_shape l (shape (nmat n)) sh Hp' Hls) as (bs & ws & Hps). exists bs, ws. unfold par_init. rewrite Hps.
      split; [cbn [top_par]; rewrite Hsh0; exact Hps|reflexivity].
    + intros Hpn Hkn. destruct (lspec_kind _ _ _ Hl) as [Hk1 _]. destruct Hkn as [Hkn|Hkn]; [contradiction|]. destruct HFI as (M & HM & HMi); [congruence|].
      rewrite (bp_lays _ _ _ _ _ _ _ _ _ _ _ _ _ _ _ B) in HM. rewrite list_lookup_insert in HM by (cbn [s2 lays]; rewrite insert_length; exact HiL). injection HM as <-. rewrite HMi. apply Hin1; assumption.
    + intros m m' Hm Hx Hdn Hpp Hnd HLi.
      pose proof (bp_seg _ _ _ _ _ _ _ _ _ _ _ _ _ _ _ B) as Sg. pose proof (sg_len _ _ _ _ _ Sg) as Hle. destruct (bp_t0 _ _ _ _ _ _ _ _ _ _ _ _ _ _ _ B) as (Tt & _ & Tl & _). cbn [s2 ts] in Tl, Tt.
      split.
      * intros a Ha. apply Hsep; [auto|]. intros j nj Hj Hnj. eapply Hnd; eassumption.
      * assert (K : keeps (ts s) (ts s')). { eapply keeps_trans; [|exact (sg_keep _ _ _ _ _ Sg)]. intros j nj Hnj. exists nj. rewrite Tt. repeat split; auto. }
        destruct (Hval s' m m' K ltac:(lia) Hx Hdn) as [Hne Hv]. unfold nv in *. cbn [nval]. destruct (nval (net_in s' m) (net_par s' m) e0) as [vx|]; [|contradiction].
        exists vx. split; [exact Hv|]. cbn [mbind option_bind]. unfold net_par. rewrite HLi. cbn [mbind option_bind]. destruct (has_par l) eqn:Ep; [|apply lay_val_nop; exact Ep].
        rewrite Hpp; [reflexivity|]. destruct (has_par_shape l (shape (nmat n)) sh Ep Hls) as (bs & ws & Hps). unfold par_init. rewrite Hps. discriminate.
  - intros j Hj. rewrite (bp_lays _ _ _ _ _ _ _ _ _ _ _ _ _ _ _ B). rewrite list_lookup_insert_ne by congruence. cbn [s2 lays]. apply list_lookup_insert_ne. congruence.
  - exists O, t0, L', new, Cn, Wn, to_, no_. split; [reflexivity|]. split; [reflexivity|]. split; [exact HO'|]. split; [exact B|exact Bx].
Qed.

Lemma LBuildFF_ok e : forall fuel i D C W s sh, stands s1 i e -> nshape insh e = Some sh -> i ∈ U -> need e <= fuel -> finv D C W s ->
  (forall j, part s1 i j -> j ∉ D -> lays s !! j = lays s1 !! j) ->
  exists s' D' C' W', LBuildFF rnd fuel i s = (Ok tt, s') /\ finv D' C' W' s' /\ ff_post D i s s' D'.
Proof using SI.
  intros fuel i D C W s sh Hs. revert fuel D C W s sh.
  induction Hs as [i L t HL Hk Hp Ht|i L l t HL Hk Hl Hp Ht|i L l q e HL Hl Hp Hs IH|i L a b d ea eb HL Hk Hp Ha IHa Hb IHb];
    intros fuel D C W s sh Hsh HiU Hf F Hfr.
  all: destruct fuel as [|fuel]; [cbn [need] in Hf; lia|]; cbn [LBuildFF].
  all: destruct (decide (i ∈ D)) as [HiD|HiD];
    [destruct (fi_done _ _ _ _ F i HiD) as (L1' & L' & n' & d' & sh' & e' & _ & HL' & _ & _ & _ & Hfl' & _);
     exists s, D, C, W; split; [unfold CheckOnce; erewrite mbnd_ok; [|erewrite mbnd_ok by (apply getL_ok; exact HL'); rewrite Hfl'; reflexivity]; reflexivity|];
     split; [exact F|]; split; [exact HiD|]; auto|].
  all: pose proof (Hfr i (rtc_refl _ _) HiD) as HLs; rewrite HL in HLs.
  all: destruct (si_lay SI i L HiU HL) as (Hfl & r & v & Hr & Hrlt & Hv & Hnz).
  all: destruct (fi_open _ _ _ _ F i HiU HiD) as (L1 & HL1 & _ & Hrv); assert (L1 = L) as -> by congruence; specialize (Hrv r Hr); rewrite Hv in Hrv.
  all: set (Lf := set_flag BFF true L); set (sa := MkL (ts s) (<[i := Lf]> (lays s)) (rc s)).
  all: pose proof (finv_flag D C W s i L sa F HiU HiD HL HLs eq_refl) as Fa.
  all: assert (HiL : i < length (lays s)) by (eapply lookup_lt_Some; exact HLs).
  all: assert (HLa : lays sa !! i = Some Lf) by (apply list_lookup_insert; exact HiL).
  all: assert (Hna : forall j, j <> i -> lays sa !! j = lays s !! j) by (intros j Hj; apply list_lookup_insert_ne; congruence).
  all: assert (ECk : CheckOnce BFF i s = (Ok false, sa))
    by (unfold CheckOnce; erewrite mbnd_ok by (apply getL_ok; exact HLs); rewrite Hfl, Hr;
        erewrite mbnd_ok by (apply liftT_ok; apply rdM_at; exact Hrv); rewrite Hnz; cbn [ts lays rc];
        erewrite mbnd_ok by (apply updL_ok; exact HLs); destruct s; reflexivity).
  all: rewrite (mbnd_ok _ _ _ _ _ ECk); cbv beta iota; erewrite mbnd_ok by (apply getL_ok; exact HLa); cbn [Lf set_flag lkind_of lpre lten].
  - (* input *)
    rewrite Hk, Hp, Ht. assert (Hin : inten t) by (exists i, L; auto 10).
    destruct (in_node D C W sa t Fa Hin) as (n & Hn & Hset & Hwf & Hish).
    assert (Hshn : shape (nmat n) = sh). { cbn [nshape] in Hsh. rewrite Hish in Hsh. cbn [mbind option_bind] in Hsh. apply fit_Some in Hsh as [-> _]. reflexivity. }
    assert (Hfit : fits sh) by (rewrite <- Hshn; apply Hwf).
    destruct (seg_zeros (ts sa) sh Hfit) as (t1 & E1 & S1 & Em & Et).
    set (L2 := set_ten FOutput (Some t) (set_ten FNeta (Some t) Lf)).
    set (L3 := set_ten FDif (Some (length (tens (ts s)))) L2).
    set (s' := MkL t1 (<[i := L3]> (lays s)) (rc s)).
    assert (B : body_post nowhere sa s' i Lf (fun _ m r => r = mval m (nmat n)) None sh (ts sa) L3 [] [] nowhere t n).
    { split.
      - apply touched_refl.
      - cbn [s' sa lays]. rewrite list_insert_insert. reflexivity.
      - repeat split.
      - left. reflexivity.
      - exact S1.
      - intros ? [].
      - reflexivity.
      - eexists. reflexivity.
      - cbn [s' ts]. rewrite Et. apply lookup_app_l_Some. exact Hn.
      - exact Hset.
      - eapply wf_mat_mono; [exact Hwf|]. cbn [s' ts]. rewrite Em, app_length. lia.
      - exact Hshn.
      - discriminate.
      - intros m r0 Hm _ ->. cbn [s' ts] in Hm. destruct (mval_total _ m _ Hwf) as [w Hw]; [rewrite Em, app_length in Hm; lia|]. rewrite Hw. exists m. split; [reflexivity|exact Hw]. }
    assert (Hfi : finv (i :: D) (C ++ []) (fun a => W a \/ nowhere a) s').
    { assert (Hch : forall c, child s1 i c -> c ∈ D).
      { intros c (L0 & HL0 & Hc). assert (L0 = L) as -> by congruence. destruct Hc as [Hc|(? & ? & ? & Hc & _)]; congruence. }
      eapply (step D C W sa i L Lf (NIn t) sh sa nowhere s'); try eassumption; try reflexivity.
      - econstructor; eassumption.
      - cbn [sa lays]. rewrite list_insert_insert. reflexivity.
      - split; reflexivity.
      - intros Hc. contradiction.
      - intros f Hnf. destruct f; try reflexivity. contradiction.
      - intros l Hl _. exfalso. apply (proj1 (lspec_kind _ _ _ Hl)). exact Hk.
      - intros a [].
      - intros m m' Hm Hx _ _ _ _. destruct (in_val D C W sa t n m m' Fa Hin Hn) as (_ & _ & E); [|exact Hx|].
        { cbn [s' ts] in Hm. rewrite Em, app_length in Hm. lia. }
        rewrite E. unfold nv. cbn [nval]. unfold net_in, tval. cbn [mbind option_bind s' ts]. rewrite Et. rewrite (lookup_app_l_Some _ _ _ _ Hn). reflexivity. }
    exists s'. eexists _, _, _. split; [|split; [exact Hfi|]].
    + erewrite mbnd_ok by (apply updL_ok; exact HLa). erewrite mbnd_ok by (apply updL_ok; cbn [lays]; apply list_lookup_insert; cbn [sa lays]; rewrite insert_length; exact HiL).
      erewrite mbnd_ok by reflexivity. erewrite mbnd_ok by (apply shapeT_ok; cbn [ts]; exact Hn). rewrite Hshn.
      erewrite mbnd_ok by (apply liftT_ok; cbn [ts]; exact E1). unfold setF. erewrite updL_ok; [|cbn [lays]; apply list_lookup_insert; rewrite insert_length; cbn [sa lays]; rewrite insert_length; exact HiL].
      cbn [ts lays rc sa]. rewrite !list_insert_insert. reflexivity.
    + split; [apply elem_of_list_here|]. split; [intros j Hj; apply elem_of_list_further; exact Hj|]. split.
      * intros j Hj. apply elem_of_cons in Hj as [->|Hj]; [right; apply rtc_refl|auto].
      * intros j Hj. assert (j <> i). { intros ->. destruct Hj as [Hj|Hj]; [contradiction|]. apply Hj, elem_of_list_here. } cbn [s' lays]. apply list_lookup_insert_ne. congruence.
  - (* dense with its own input *)
    rewrite Hk, Hp. assert (Hin : inten t) by (exists i, L; auto 10).
    destruct (in_node D C W sa t Fa Hin) as (n & Hn & Hset & Hwf & Hish). erewrite mbnd_ok by reflexivity.
    assert (Hst : stands s1 i (NLay l i (NIn t))) by (eapply st_src; eassumption).
    assert (Hfn : fits (shape (nmat n))) by apply Hwf.
    edestruct (ff_one D C W sa i L Lf l (NIn t) sh t n sa) as (s' & C' & W' & E & Fi & Hls & _); try eassumption; try reflexivity.
    + intros c (L0 & HL0 & Hc). assert (L0 = L) as -> by congruence. destruct Hc as [Hc|(? & ? & ? & Hc & _)]; congruence.
    + cbn [sa ts lays rc]. rewrite list_insert_insert. reflexivity.
    + intros f Hnf. destruct f; try reflexivity. contradiction.
    + cbn [nshape]. rewrite Hish. apply fit_Some. auto.
    + left. exact Hk.
    + intros s' m m' K Hm Hx _. destruct (in_val D C W sa t n m m' Fa Hin Hn Hm Hx) as (_ & _ & E). unfold nv. cbn [nval]. unfold net_in.
      rewrite (kept_tval _ _ m _ _ K Hn Hset). unfold tval. cbn [mbind option_bind]. rewrite Hn. cbn [mbind option_bind]. destruct (mval_total _ m _ Hwf Hm) as [w Hw]. rewrite E, Hw. split; [discriminate|reflexivity].
    + intros a Ho _. destruct (si_ten SI t Hin) as (n1 & Hn1 & Hset1 & _). destruct (fi_keep _ _ _ _ Fa _ _ Hn1) as (n' & Hn' & _ & _ & E). assert (n' = n) as -> by congruence.
      destruct (E Hset1) as (_ & _ & E3). rewrite E3. eapply si_sep; eassumption.
    + exists s', (i :: D), C', W'. split; [exact E|]. split; [exact Fi|]. split; [apply elem_of_list_here|]. split; [intros j Hj; apply elem_of_list_further; exact Hj|]. split.
      * intros j Hj. apply elem_of_cons in Hj as [->|Hj]; [right; apply rtc_refl|auto].
      * intros j Hj. assert (j <> i). { intros ->. destruct Hj as [Hj|Hj]; [contradiction|]. apply Hj, elem_of_list_here. } rewrite Hls, Hna by assumption. reflexivity.
  - (* on another layer *)
    destruct (lspec_kind _ _ _ Hl) as [K1 K2]. assert (Hci : child s1 i q) by (exists L; auto). assert (HqU : q ∈ U) by (eapply si_child; eassumption).
    assert (Hst : stands s1 i (NLay l i e)) by (eapply st_lay; eassumption). pose proof (not_below _ _ _ _ Hst Hci Hs) as Hnb.
    destruct (nshape insh e) as [she|] eqn:Eshe; [|cbn [nshape] in Hsh; rewrite Eshe in Hsh; discriminate].
    destruct (IH fuel D C W sa she eq_refl HqU ltac:(cbn [need] in Hf; lia) Fa) as (s3 & D3 & C3 & W3 & E3 & F3 & P1 & P2 & P3 & P4).
    { intros j Hj HjD. rewrite Hna by (intros ->; contradiction). apply Hfr; [|exact HjD]. eapply rtc_l; eassumption. }
    assert (HiD3 : i ∉ D3). { intros Hx. destruct (P3 _ Hx) as [Hy|Hy]; contradiction. }
    assert (HL3 : lays s3 !! i = Some Lf) by (rewrite P4 by auto; exact HLa).
    destruct (fi_done _ _ _ _ F3 q P1) as (Lq1 & Lq & n & dq & shq & eq' & HLq1 & HLq & Q1 & Q2 & Q3 & Q4 & Q5 & Q6 & Q7 & Q8 & Q9 & Q10 & Q11 & (k & Lk & rq & Hk & HLk & Hrk & Hrq) & Q12). destruct Q11 as [Q11 _].
    pose proof (stands_inj _ _ _ Q5 _ Hs) as ->. assert (shq = she) as -> by congruence.
    assert (Hinq : lkind_of Lq = LInput -> lpre Lq = None) by (intros Hkq; rewrite Q3; eapply stands_in; [exact Hs|exact HLq1|congruence]).
    assert (Hqo : exists tq, lten Lq FOutput = Some tq /\ tens (ts s3) !! tq = Some n).
    { unfold outnode in Q7. rewrite HLq in Q7. cbn [mbind option_bind] in Q7. destruct (lten Lq FOutput) as [tq|]; [|discriminate]. exists tq. auto. }
    destruct Hqo as (tq & Hqo & Hnq).
    assert (Hqi : q <> i). { intros ->. apply Hnb. apply rtc_refl. }
    set (L2 := set_ten FInput (Some tq) Lf). set (s4 := MkL (ts s3) (<[i := L2]> (lays s3)) (rc s3)).
    assert (Estep : (LBuildFF rnd fuel q ;~ o <~ GetOutputs q ; updL i (set_ten FInput o)) sa = (Ok tt, s4)).
    { rewrite (mbnd_ok _ _ _ _ _ E3). erewrite mbnd_ok by (apply GetT_direct; [exact HLq|exact Hinq]). rewrite Hqo. apply updL_ok. exact HL3. }
    assert (Hrq3 : rq < length (mem (ts s3))).
    { destruct (si_lay SI k Lk (fi_DU _ _ _ _ F3 _ Hk) HLk) as (_ & r' & v' & Hr1 & Hlt & _). pose proof (fi_len _ _ _ _ F3). assert (r' = rq) as -> by congruence. lia. }
    destruct (lookup_lt_is_Some_2 _ _ Hrq3) as [vq Hvq].
    edestruct (ff_one D3 C3 W3 s3 i L L2 l e sh tq n s4) as (s' & C' & W' & E & Fi & Hls & _); try eassumption; try reflexivity.
    + intros c (L0 & HL0 & Hc). assert (L0 = L) as -> by congruence. destruct Hc as [Hc|(? & ? & ? & Hc & _)]; [|exfalso; eapply K2; exact Hc]. assert (c = q) as -> by congruence. exact P1.
    + intros f Hnf. destruct f; try reflexivity. contradiction.
    + congruence.
    + rewrite Q10. exact Eshe.
    + right. exists q, Lq, dq, rq, vq. split; [|exact Hvq]. split; try assumption. cbn [s4 lays]. rewrite list_lookup_insert_ne by congruence. exact HLq.
    + intros s' m m' K Hm Hx Hdn. destruct (Hdn q e P1 Hs) as [G1 G2]. split; [exact G1|]. rewrite <- G2. unfold outv. rewrite Q7. reflexivity.
    + intros a _ Hj. exact (Hj q n P1 Q7).
    + exists s', (i :: D3), C', W'. split.
      { destruct (lkind_of L); try congruence; try (exfalso; eapply K2; reflexivity); rewrite Hp; rewrite (mbnd_ok _ _ _ _ _ Estep); exact E. }
      split; [exact Fi|]. split; [apply elem_of_list_here|]. split; [intros j Hj; apply elem_of_list_further; auto|]. split.
      * intros j Hj. apply elem_of_cons in Hj as [->|Hj]; [right; apply rtc_refl|]. destruct (P3 _ Hj) as [Hj'|Hj']; [auto|]. right. eapply rtc_l; eassumption.
      * intros j Hj. assert (j <> i). { intros ->. destruct Hj as [Hj|Hj]; [contradiction|]. apply Hj, elem_of_list_here. } rewrite Hls by assumption.
        rewrite P4; [apply Hna; assumption|]. destruct Hj as [Hj|Hj]; [auto|]. right. intros Hx. apply Hj. apply elem_of_list_further. exact Hx.
  - (* concatenation *)
    rewrite Hk. erewrite mbnd_ok by reflexivity.
    assert (Hca : child s1 i a) by (exists L; split; [exact HL|]; right; exists a, b, d; auto). assert (HaU : a ∈ U) by (eapply si_child; eassumption).
    assert (Hcb : child s1 i b) by (exists L; split; [exact HL|]; right; exists a, b, d; auto). assert (HbU : b ∈ U) by (exact (si_child SI i b HiU Hcb)).
    assert (Hst : stands s1 i (NCat i ea eb d)) by (exact (st_cat _ i L a b d ea eb HL Hk Hp Ha Hb)). pose proof (not_below _ _ _ _ Hst Hca Ha) as Hnba. pose proof (not_below _ _ _ _ Hst Hcb Hb) as Hnbb.
    pose proof Hsh as Hsh'. cbn [nshape] in Hsh'. destruct (nshape insh ea) as [sha|] eqn:Esha; [|discriminate]. destruct (nshape insh eb) as [shb|] eqn:Eshb; [|discriminate].
    cbn [mbind option_bind] in Hsh'.
    destruct (IHa fuel D C W sa sha eq_refl HaU ltac:(cbn [need] in Hf; lia) Fa) as (s3 & D3 & C3 & W3 & E3 & F3 & P1 & P2 & P3 & P4).
    { intros j Hj HjD. rewrite Hna by (intros ->; contradiction). apply Hfr; [|exact HjD]. eapply rtc_l; [exact Hca|exact Hj]. }
    destruct (IHb fuel D3 C3 W3 s3 shb eq_refl HbU ltac:(cbn [need] in Hf; lia) F3) as (s4 & D4 & C4 & W4 & E4 & F4 & R1 & R2 & R3 & R4).
    { intros j Hj HjD. rewrite P4 by auto. rewrite Hna by (intros ->; contradiction). apply Hfr; [|auto]. eapply rtc_l; [exact Hcb|exact Hj]. }
    assert (HiD4 : i ∉ D4). { intros Hx. destruct (R3 _ Hx) as [Hy|Hy]; [|contradiction]. destruct (P3 _ Hy); contradiction. }
    assert (HiD3 : i ∉ D3) by auto.
    assert (HL4 : lays s4 !! i = Some Lf) by (rewrite R4, P4 by auto; exact HLa).
    assert (G : forall c ec, c ∈ D4 -> stands s1 c ec -> exists Lc n dc tc, lays s4 !! c = Some Lc /\ (lkind_of Lc = LInput -> lpre Lc = None) /\ lten Lc FOutput = Some tc /\ lten Lc FDif = Some dc /\
        tens (ts s4) !! tc = Some n /\ settled n /\ wf_mat (length (mem (ts s4))) (nmat n) /\ nshape insh ec = Some (shape (nmat n)) /\ outnode s4 c = Some n).
    { intros c ec Hc Hsc. destruct (fi_done _ _ _ _ F4 c Hc) as (Lq1 & Lq & n & dq & shq & eq' & HLq1 & HLq & Q1 & Q2 & Q3 & Q4 & Q5 & Q6 & Q7 & Q8 & Q9 & Q10 & [Q11 _] & _).
      pose proof (stands_inj _ _ _ Q5 _ Hsc) as ->. pose proof Q7 as Q7'. unfold outnode in Q7. rewrite HLq in Q7. cbn [mbind option_bind] in Q7. destruct (lten Lq FOutput) as [tq|] eqn:Eo; [|discriminate].
      exists Lq, n, dq, tq. split; [exact HLq|]. split; [intros Hkq; rewrite Q3; eapply stands_in; [exact Hsc|exact HLq1|congruence]|]. repeat (split; [assumption|]). split; [congruence|exact Q7']. }
    destruct (G a ea (R2 _ P1) Ha) as (La & na & da & ta & A1 & A2 & A3 & A4 & A5 & A6 & A7 & A8 & A9).
    destruct (G b eb R1 Hb) as (Lb & nb & db & tb & B1 & B2 & B3 & B4 & B5 & B6 & B7 & B8 & B9). clear G.
    assert (sha = shape (nmat na)) as -> by congruence. assert (shb = shape (nmat nb)) as -> by congruence.
    assert (Hai : a <> i) by (intros ->; apply Hnba, rtc_refl). assert (Hbi : b <> i) by (intros ->; apply Hnbb, rtc_refl).
    destruct (body_cat rnd s4 i Lf a b La Lb ta tb da db na nb d sh HL4 Hk A1 B1 Hai Hbi A2 B2 A3 B3 A4 B4 A5 A6 A7 B5 B6 B7 Hsh') as (s' & E & t0 & L' & new & Cn & Wn & to_ & no_ & B & Bm).
    assert (Hfi : finv (i :: D4) (C4 ++ Cn) (fun a => W4 a \/ Wn a) s').
    { eapply (step D4 C4 W4 s4 i L Lf (NCat i ea eb d) sh s4 nowhere s'); try eassumption; try reflexivity.
      - intros c (L0 & HL0 & Hc). assert (L0 = L) as -> by congruence. destruct Hc as [Hc|(? & ? & ? & Hc & Hcc)]; [congruence|]. rewrite Hk in Hc. injection Hc as <- <- <-.
        destruct Hcc as [->| ->]; auto.
      - rewrite list_insert_id by exact HL4. reflexivity.
      - intros Hc. contradiction.
      - intros f Hnf. destruct f; try reflexivity. contradiction.
      - intros l Hl _. exfalso. eapply (proj2 (lspec_kind _ _ _ Hl)). exact Hk.
      - intros ? [].
      - intros _ [Hc|Hc]; congruence.
      - intros m m' Hm Hx Hdn _ _ _. destruct (Hdn a ea (R2 _ P1) Ha) as [G1 G2]. destruct (Hdn b eb R1 Hb) as [G3 G4]. unfold outv in G2, G4. rewrite A9 in G2. rewrite B9 in G4. cbn [mbind option_bind] in G2, G4.
        unfold nv in *. cbn [nval]. destruct (nval (net_in s' m) (net_par s' m) ea) as [va|]; [|contradiction]. destruct (nval (net_in s' m) (net_par s' m) eb) as [vb|]; [|contradiction].
        exists va, vb. auto. }
    exists s'. eexists _, _, _. split; [rewrite (mbnd_ok _ _ _ _ _ E3); erewrite mbnd_ok by reflexivity; rewrite (mbnd_ok _ _ _ _ _ E4); exact E|]. split; [exact Hfi|].
    split; [apply elem_of_list_here|]. split; [intros j Hj; apply elem_of_list_further; auto|]. split.
    + intros j Hj. apply elem_of_cons in Hj as [->|Hj]; [right; apply rtc_refl|]. destruct (R3 _ Hj) as [Hj'|Hj']; [|right; eapply rtc_l; [exact Hcb|exact Hj']]. destruct (P3 _ Hj') as [Hj''|Hj'']; [auto|right; eapply rtc_l; [exact Hca|exact Hj'']].
    + intros j Hj. assert (Hji : j <> i). { intros ->. destruct Hj as [Hj|Hj]; [contradiction|]. apply Hj, elem_of_list_here. }
      rewrite (bp_lays _ _ _ _ _ _ _ _ _ _ _ _ _ _ _ B). rewrite list_lookup_insert_ne by congruence.
      rewrite R4; [rewrite P4; [apply Hna; assumption|]|]; (destruct Hj as [Hj|Hj]; [auto|]); right; intros Hx; apply Hj; apply elem_of_list_further; auto.
Qed.
End Site.
End FwdChain.
