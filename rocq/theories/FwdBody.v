(** * FwdBody: what building the feed-forward part of one layer achieves *)
From Verif Require Import Base Num ModelTools ModelOps ModelTensor ModelGraph ModelLayer Spec Denote FwdSpec
  IndexProofs ExecProofs TensorFacts AccessProofs BuildProofs CompileProofs Agree FwdMask FwdBuild FwdSeg FwdOps FwdPool NetBuild NetChain.
From Coq Require Import Lia ZifyBool ZifyNat ZifyN.

Section FwdBody.
Context {T : Type} `{Num T}.
Context (rnd : nat -> nat -> T).

(** Fields that building does not touch. *)
Definition same_lay (L L' : layer T) : Prop :=
  lkind_of L' = lkind_of L /\ lact L' = lact L /\ lpre L' = lpre L /\ lflag L' = lflag L.
(** Bias and weights of a layer, read from memory. *)
Definition tval (tn : list (node T)) (m : list T) (t : option nat) : option (vten T) :=
  i ← t; n ← tn !! i; mval m (nmat n).
Definition lparams (tn : list (node T)) (m : list T) (L : layer T) : option (vten T * vten T) :=
  b ← tval tn m (lten L FBias); w ← tval tn m (lten L FWeights); Some (b, w).
(** The tensor in field [f] is there; all its cells satisfy [P], its value [Q]. *)
Definition own_field (P : nat -> Prop) (Q : vten T -> Prop) (s : tst T) (L : layer T) (f : tfield) : Prop :=
  exists t n, lten L f = Some t /\ tens s !! t = Some n /\ settled n /\ wf_mat (length (mem s)) (nmat n) /\
    (forall l, Some l ∈ operands (nmat n) -> P l) /\ exists v, mval (mem s) (nmat n) = Some v /\ Q v.
(** What bias and weights start with. *)
Definition par_init (l : lspec T) (sh : list N) : option ((vten T -> Prop) * (vten T -> Prop)) :=
  '(b, w) ← par_shape l sh; Some (drawn rnd b, drawn rnd w).
(** Counter of the layer below. *)
Definition pre_ref (s : lst T) (L : layer T) (r : nat) : Prop :=
  exists q Lq, lpre L = Some q /\ lays s !! q = Some Lq /\ lref Lq = Some r.

(** [t0] is [ts s], up to the counter of the layer below. *)
Definition touched (s : lst T) (L : layer T) (t0 : tst T) : Prop :=
  tens t0 = tens (ts s) /\ ctx t0 = ctx (ts s) /\ length (mem t0) = length (mem (ts s)) /\
  forall a, mem t0 !! a = mem (ts s) !! a \/ pre_ref s L a.
Record body_post (O : nat -> Prop) (s s' : lst T) (id : nat) (L : layer T)
    (V : option (vten T * vten T) -> list T -> option (vten T) -> Prop) (par : option ((vten T -> Prop) * (vten T -> Prop))) (sh : list N)
    (t0 : tst T) (L' : layer T) (new : list (op T)) (C : list (nat * T)) (W : nat -> Prop) (to_ : nat) (no_ : node T) : Prop := {
  bp_t0 : touched s L t0;
  bp_lays : lays s' = <[id := L']> (lays s);
  bp_same : same_lay L L';
  bp_ref : lref L' = lref L \/ exists r, lref L' = Some r /\ pre_ref s L r;
  bp_seg : seg W t0 (ts s') new C;
  bp_W : forall l, W l -> length (mem (ts s)) <= l \/ O l;
  bp_out : lten L' FOutput = Some to_;
  bp_dif : exists d, lten L' FDif = Some d;
  bp_node : tens (ts s') !! to_ = Some no_;
  bp_set : settled no_;
  bp_wf : wf_mat (length (mem (ts s'))) (nmat no_);
  bp_sh : shape (nmat no_) = sh;
  bp_par : forall Qb Qw, par = Some (Qb, Qw) -> own_field (fun l => length (mem (ts s)) <= l /\ ~ W l) Qb (ts s') L' FBias /\
                         own_field (fun l => length (mem (ts s)) <= l /\ ~ W l) Qw (ts s') L' FWeights;
  bp_val : forall m r, length (mem (ts s')) <= length m -> consts C m -> V (lparams (tens (ts s')) m L') m r ->
    outcome new m (nmat no_) r;
}.
(** What a layer with one input [x] is to compute. *)
Definition lay_goal (O : nat -> Prop) (l : lspec T) (x : tmat) (p : option (vten T * vten T)) (m : list T) (r : option (vten T)) : Prop :=
  (forall a, O a -> Some a ∉ operands x) /\ exists vx, mval m x = Some vx /\ r = lay_val l p vx.
(** Bias and weights share no cell, with each other or with constants; layers
    without them do not get any. *)
Definition par_cells (C : list (nat * T)) (t : tst T) (L : layer T) : Prop :=
  exists tb nb tw nw, lten L FBias = Some tb /\ tens t !! tb = Some nb /\ settled nb /\ wf_mat (length (mem t)) (nmat nb) /\
    lten L FWeights = Some tw /\ tens t !! tw = Some nw /\ settled nw /\ wf_mat (length (mem t)) (nmat nw) /\
    NoDup (operands (nmat nb) ++ operands (nmat nw)) /\ forall a, Some a ∈ operands (nmat nb) ++ operands (nmat nw) -> a ∉ map fst C.
Definition body_more {A} (par : option A) (C : list (nat * T)) (L : layer T) (t' : tst T) (L' : layer T) : Prop :=
  match par with
  | Some _ => par_cells C t' L'
  | None => lten L' FBias = lten L FBias /\ lten L' FWeights = lten L FWeights
  end.
(** The same layer without its activation. *)
Definition lin (l : lspec T) : lspec T :=
  match l with
  | SDense o _ => SDense o (fun x => x)
  | SConv nf kw kh sx sy _ => SConv nf kw kh sx sy (fun x => x)
  | SDeconv nf kw kh sx sy _ => SDeconv nf kw kh sx sy (fun x => x)
  | _ => l
  end.
(** Fields that building the feed-forward part leaves alone. *)
Definition fixedf (f : tfield) : Prop := f <> FOutput /\ f <> FNeta /\ f <> FDif /\ f <> FBias /\ f <> FWeights.
(** The cells of the results and of the parameters of a layer. *)
Definition taken (t' : tst T) (L' : layer T) (l : lspec T) (no_ : node T) (i : nat) : Prop :=
  Some i ∈ operands (nmat no_) \/
  (has_par l = true /\ exists f t n, (f = FBias \/ f = FWeights \/ f = FNeta) /\ lten L' f = Some t /\ tens t' !! t = Some n /\ Some i ∈ operands (nmat n)) \/
  (exists a b, l = SNorm a b) /\ lmaxs L' = Some i.
(** The differences are in a new block of their own. *)
Definition own_dif (s s' : lst T) (l : lspec T) (sh : list N) (L' : layer T) (C : list (nat * T)) (W : nat -> Prop) (to_ : nat) (no_ : node T) : Prop :=
  exists d a, lten L' FDif = Some d /\ tens (ts s') !! d = Some (MkNode KMat (blkm sh a false)) /\ d <> to_ /\ length (mem (ts s)) <= a /\
    a + N.to_nat (prodN sh) <= length (mem (ts s')) /\
    forall i, a <= i < a + N.to_nat (prodN sh) -> ~ W i /\ i ∉ map fst C /\ ~ taken (ts s') L' l no_ i.
(** What else is known about a layer with one input after building it. *)
Definition aux_neta (O : nat -> Prop) (s s' : lst T) (L : layer T) (x : tmat) (l : lspec T) (sh : list N) (L' : layer T) (new : list (op T)) (C : list (nat * T)) : Prop :=
  if has_par l then
    exists t nn, lten L' FNeta = Some t /\ tens (ts s') !! t = Some nn /\ settled nn /\ wf_mat (length (mem (ts s'))) (nmat nn) /\ shape (nmat nn) = sh /\
      (forall i, Some i ∈ operands (nmat nn) -> length (mem (ts s)) <= i) /\
      forall m m' vx, length (mem (ts s')) <= length m -> consts C m -> (forall a, O a -> Some a ∉ operands x) -> mval m x = Some vx -> exec new m = Some m' ->
        mval m' (nmat nn) = lay_val (lin l) (lparams (tens (ts s')) m L') vx
  else lten L' FNeta = lten L FNeta.
Definition aux_max (s s' : lst T) (L : layer T) (x : tmat) (l : lspec T) (L' : layer T) (new : list (op T)) (C : list (nat * T)) : Prop :=
  match l with
  | SNorm _ _ => exists k, lmaxs L' = Some k /\ length (mem (ts s)) <= k < length (mem (ts s')) /\
      forall m m' vx, length (mem (ts s')) <= length m -> consts C m -> mval m x = Some vx -> exec new m = Some m' -> m' !! k = reduce RedMax (map absv (vdata vx))
  | _ => lmaxs L' = lmaxs L
  end.
Definition aux_dif (s s' : lst T) (L : layer T) (l : lspec T) (sh : list N) (L' : layer T) (C : list (nat * T)) (W : nat -> Prop) (to_ : nat) (no_ : node T) : Prop :=
  match l with
  | SSoft => (exists q Lq, lpre L = Some q /\ lays s !! q = Some Lq /\ lten L' FDif = lten Lq FDif) /\ length (tens (ts s)) <= to_ /\
      forall j n, tens (ts s) !! j = Some n -> lten L FInput <> Some j -> tens (ts s') !! j = Some n
  | _ => own_dif s s' l sh L' C W to_ no_
  end.
Definition aux_ref (s s' : lst T) (L : layer T) (l : lspec T) (L' : layer T) : Prop :=
  match l with
  | SFlat => exists r v b vr, pre_ref s L r /\ lref L' = Some r /\ mem (ts s) !! r = Some v /\ lref L = Some b /\ mem (ts s) !! b = Some vr /\
      mem (ts s') !! r = Some (nadd v vr) /\ forall a w, a <> r -> mem (ts s) !! a = Some w -> mem (ts s') !! a = Some w
  | _ => lref L' = lref L /\ forall a w, mem (ts s) !! a = Some w -> mem (ts s') !! a = Some w
  end.
Record body_aux (O : nat -> Prop) (s s' : lst T) (L : layer T) (x : tmat) (l : lspec T) (sh : list N) (L' : layer T) (new : list (op T)) (C : list (nat * T))
    (W : nat -> Prop) (to_ : nat) (no_ : node T) : Prop := {
  ax_keep : forall f, fixedf f -> lten L' f = lten L f;
  ax_out : forall i, Some i ∈ operands (nmat no_) -> length (mem (ts s)) <= i \/ O i \/ Some i ∈ operands x;
  ax_neta : aux_neta O s s' L x l sh L' new C;
  ax_max : aux_max s s' L x l L' new C;
  ax_dif : aux_dif s s' L l sh L' C W to_ no_;
  ax_ref : aux_ref s s' L l L';
}.
(** Slices are left out. *)
Definition body_rest (O : nat -> Prop) (s s' : lst T) (L : layer T) (x : tmat) (l : lspec T) (sh : list N) (L' : layer T) (new : list (op T)) (C : list (nat * T))
    (W : nat -> Prop) (to_ : nat) (no_ : node T) : Prop :=
  match l with SSub _ _ _ => True | _ => body_aux O s s' L x l sh L' new C W to_ no_ end.
Definition body_ok (O : nat -> Prop) (s s' : lst T) (id : nat) (L : layer T) (x : tmat) (l : lspec T) (sh : list N) : Prop :=
  exists t0 L' new C W to_ no_, body_post O s s' id L (lay_goal O l x) (par_init l (shape x)) sh t0 L' new C W to_ no_ /\
    body_more (par_init l (shape x)) C L (ts s') L' /\ body_rest O s s' L x l sh L' new C W to_ no_.
Lemma touched_refl s L : touched s L (ts s).
Proof using Type. repeat split; auto. Qed.

Lemma shapeT_ok (s : lst T) t n : tens (ts s) !! t = Some n -> shapeT t s = (Ok (shape (nmat n)), s).
Proof using Type.
  intros Hn. unfold shapeT. erewrite mbnd_ok by (apply liftT_ok; apply get_mat_ok; exact Hn). destruct s; reflexivity.
Qed.
Lemma seg_ops (s : tst T) new (W : nat -> Prop) : (forall l, dst_in l new -> W l) -> (forall l, W l -> l < length (mem s)) ->
  seg W s (MkSt (mem s) (tens s) (ctx s ++ new)) new [].
Proof using Type.
  intros Hd HW. split; cbn [mem tens ctx]; [exists []; rewrite app_nil_r; reflexivity|reflexivity| |constructor|exact HW|].
  - intros m m' l _ Hx Hl. eapply exec_frame; [exact Hx|]. intros Hdl. auto.
  - intros j n Hn. exists n. repeat split; auto.
Qed.
Lemma settled_mat (m : tmat) : settled (MkNode KMat m : node T).
Proof using Type. left. reflexivity. Qed.
Lemma wf_lt n (mt : tmat) l : wf_mat n mt -> Some l ∈ operands mt -> l < n.
Proof using Type. intros (_ & _ & _ & Hv) Hl. rewrite Forall_forall in Hv. destruct (Hv _ Hl) as (l' & [= <-] & Hlt). exact Hlt. Qed.

Lemma mval_blk (m pre d post : list T) sh b : m = pre ++ d ++ post -> length d = N.to_nat (prodN sh) -> mval m (blkm sh (length pre) b) = Some (V sh d).
Proof using Type.
  clear rnd. intros -> Hd. unfold mval. cbn [operands blkm shape]. rewrite <- Hd, rds_seq; [reflexivity|]. intros i Hi. rewrite lookup_app_r by lia. rewrite lookup_app_l by lia. f_equal. lia.
Qed.

Ltac mstep := erewrite mbnd_ok by (first [reflexivity | apply liftT_ok; reflexivity | apply updL_ok; eassumption]).

(** ** Max pooling and up-sampling: a new tensor filled by a loop *)
Lemma body_loop (s : lst T) id L inp n (l : lspec T) sh' (loop : nat -> TM T unit) :
  lays s !! id = Some L -> tens (ts s) !! inp = Some n -> settled n -> wf_mat (length (mem (ts s))) (nmat n) ->
  fits sh' -> (forall sh, par_init l sh = None) -> match l with SPool _ _ | SUp _ _ => True | _ => False end ->
  (forall s1 to_ mo, tens s1 !! inp = Some n -> tens s1 !! to_ = Some (MkNode KMat mo) -> length (mem (ts s)) <= length (mem s1) ->
     wf_mat (length (mem s1)) mo -> shape mo = sh' -> NoDup (operands mo) ->
     (forall l, Some l ∈ operands (nmat n) -> Some l ∉ operands mo) ->
     exists new, loop to_ s1 = (Ok tt, MkSt (mem s1) (tens s1) (ctx s1 ++ new)) /\ (forall l, dst_in l new -> Some l ∈ operands mo) /\
       forall m vx, length (mem s1) <= length m -> mval m (nmat n) = Some vx -> outcome new m mo (lay_val l None vx)) ->
  (forall p x, lay_val l p x = lay_val l None x) ->
  exists s', (out <~ liftT (NewZeros sh') ; setF id FOutput out ;~ liftT (loop out) ;~ dif <~ liftT (NewZeros sh') ; setF id FDif dif) s = (Ok tt, s') /\
    body_ok nowhere s s' id L (nmat n) l sh'.
Proof using Type.
  intros HL Hn Hset Hwf Hfit Hpar Hkl Hloop Hnop.
  set (to_ := length (tens (ts s))). set (mo := blkm sh' (length (mem (ts s))) false).
  set (s1 := MkSt (mem (ts s) ++ zeros (N.to_nat (prodN sh'))) (tens (ts s) ++ [MkNode KMat mo]) (ctx (ts s))).
  assert (Hid : id < length (lays s)) by (eapply lookup_lt_Some; exact HL).
  assert (Hto : tens s1 !! to_ = Some (MkNode KMat mo)) by (apply list_lookup_middle; reflexivity).
  assert (Hin1 : tens s1 !! inp = Some n) by (apply lookup_app_l_Some; exact Hn).
  assert (Hlen1 : length (mem s1) = length (mem (ts s)) + N.to_nat (prodN sh')) by (cbn; rewrite app_length, zeros_length; reflexivity).
  assert (Hwo : wf_mat (length (mem s1)) mo) by (rewrite Hlen1; apply wf_blk; exact Hfit).
  assert (Hcells : forall l, Some l ∈ operands mo <-> length (mem (ts s)) <= l < length (mem s1)) by (intros l0; rewrite Hlen1; apply blk_ops).
  destruct (Hloop s1 to_ mo Hin1 Hto ltac:(lia) Hwo eq_refl (blk_NoDup _ _ _)) as (new & E & Hd & Hv).
  { intros l0 Hl. rewrite Hcells. apply (wf_lt _ _ _ Hwf) in Hl. lia. }
  set (s2 := MkSt (mem s1) (tens s1) (ctx s1 ++ new)).
  eexists. split.
  { erewrite mbnd_ok by (apply liftT_ok; apply NewZeros_blk; exact Hfit).
    unfold setF. erewrite mbnd_ok by (apply updL_ok; exact HL). cbn [ts lays rc].
    erewrite mbnd_ok by (apply liftT_ok; cbn [ts]; exact E). cbn [ts lays rc]. fold s2.
    erewrite mbnd_ok by (apply liftT_ok; cbn [ts]; apply NewZeros_blk; exact Hfit). cbn [ts lays rc].
    apply updL_ok. cbn [lays]. apply list_lookup_insert. exact Hid. }
  set (s3 := MkSt _ _ _).
  set (d := length (tens s2)).
  eexists (ts s), _, new, [], (fun l => Some l ∈ operands mo), to_, _. split; [split|split].
  - apply touched_refl.
  - cbn [lays]. rewrite list_insert_insert. reflexivity.
  - repeat split.
  - left. reflexivity.
  - cbn [ts]. pose proof (seg_add (ts s) (zeros (N.to_nat (prodN sh'))) [MkNode KMat mo]) as S1. fold s1 in S1.
    pose proof (seg_ops s1 new (fun l => Some l ∈ operands mo) Hd ltac:(intros l0 Hl; apply Hcells in Hl; lia)) as S2. fold s2 in S2.
    pose proof (seg_add s2 (zeros (N.to_nat (prodN sh'))) [MkNode KMat (blkm sh' (length (mem s2)) false)]) as S3.
    pose proof (seg_app _ _ _ _ _ _ _ _ _ (seg_app _ _ _ _ _ _ _ _ _ S1 S2 ltac:(intros ? Hc; inversion Hc)) S3 ltac:(intros ? Hc; inversion Hc)) as S4.
    cbn [app] in S4. rewrite app_nil_r in S4. eapply seg_weaken; [exact S4| | |].
    + intros l0 [[[]|Hl]|[]]. exact Hl.
    + intros l0 Hl. apply Hcells in Hl. subst s3. cbn [mem s2]. rewrite app_length. lia.
    + intros c Hc. inversion Hc.
  - intros l0 Hl. apply Hcells in Hl. left. lia.
  - reflexivity.
  - eexists. reflexivity.
  - cbn [ts tens s3]. apply lookup_app_l_Some. exact Hto.
  - apply settled_mat.
  - cbn [ts nmat]. eapply wf_mat_mono; [exact Hwo|]. cbn. rewrite !app_length. lia.
  - reflexivity.
  - rewrite Hpar. discriminate.
  - cbn [nmat]. intros m r Hm _ (_ & vx & Hvx & ->). rewrite Hnop. apply Hv; [|exact Hvx]. cbn in Hm. rewrite !app_length in Hm. cbn. rewrite !app_length. lia.
  - rewrite Hpar. split; reflexivity.
  - assert (Hbox : forall sx, ts sx = s3 -> body_aux nowhere s sx L (nmat n) l sh'
      (set_ten FDif (Some d) (set_ten FOutput (Some to_) L)) new [] (fun l0 => Some l0 ∈ operands mo) to_ (MkNode KMat mo)).
    { intros sx Hsx. assert (Hl3 : length (mem s3) = length (mem s1) + N.to_nat (prodN sh')) by (cbn [s3 s2 mem]; rewrite app_length, zeros_length; reflexivity). split; rewrite ?Hsx.
      - intros f (H1 & _ & H2 & _). destruct f; try congruence; reflexivity.
      - intros i Hi2. apply Hcells in Hi2. left. lia.
      - unfold aux_neta. destruct l; try contradiction Hkl; reflexivity.
      - destruct l; try contradiction Hkl; reflexivity.
      - assert (Hod : own_dif s sx l sh'
          (set_ten FDif (Some d) (set_ten FOutput (Some to_) L)) [] (fun l0 => Some l0 ∈ operands mo) to_ (MkNode KMat mo)).
        { exists d, (length (mem s1)). rewrite Hsx. split; [reflexivity|]. split; [apply list_lookup_middle; reflexivity|]. split.
          { unfold d, to_. cbn [s2 s1 tens]. rewrite app_length. cbn [length]. lia. }
          split; [lia|]. split; [lia|]. intros i Hi2. split; [rewrite Hcells; lia|]. split; [intros Hc; inversion Hc|].
          intros [Hc|[[Hc _]|[(a & b & Hc) _]]]; [apply Hcells in Hc; lia|destruct l; try contradiction Hkl; discriminate|subst l; contradiction Hkl]. }
        destruct l; try contradiction Hkl; exact Hod.
      - assert (Hmm : forall a w, mem (ts s) !! a = Some w -> mem s3 !! a = Some w).
        { intros a w Ha. cbn [s3 s2 s1 mem]. rewrite <- app_assoc. apply lookup_app_l_Some. exact Ha. }
        destruct l; try contradiction Hkl; (split; [reflexivity|rewrite Hsx; exact Hmm]). }
    destruct l; try contradiction Hkl; (apply Hbox; reflexivity).
Qed.

Lemma lay_shape_fits (l : lspec T) sh sh' : fits sh -> lay_shape l sh = Some sh' -> fits sh'.
Proof using Type.
  intros Hf. destruct l; cbn [lay_shape].
  - destruct (fitsb [o]) eqn:E; [|discriminate]. cbn [andb]. destruct (fitsb [o; prodN sh]); [|discriminate]. intros [= <-]. apply fitsb_fits. exact E.
  - destruct sh as [|c [|w [|h [|]]]]; try discriminate. intros Hs. destruct (_ && _ && _) eqn:E in Hs; [|discriminate]. injection Hs as <-.
    apply fitsb_fits. destruct (fitsb (conv_shape nf kw kh sx sy w h)); [reflexivity|]. rewrite andb_false_r in E. discriminate.
  - destruct sh as [|c [|w [|h [|]]]]; try discriminate. intros Hs. destruct (_ && _ && _) eqn:E in Hs; [|discriminate]. injection Hs as <-.
    apply fitsb_fits. destruct (fitsb (deconv_shape nf kw kh sx sy w h)); [reflexivity|]. rewrite andb_false_r in E. discriminate.
  - destruct sh as [|c [|w [|h [|]]]]; try discriminate. intros Hs. destruct (_ && _) eqn:E in Hs; [|discriminate]. injection Hs as <-.
    apply fitsb_fits. destruct (fitsb _); [reflexivity|]. rewrite andb_false_r in E. discriminate.
  - destruct sh as [|c [|w [|h [|]]]]; try discriminate. intros Hs. apply fit_Some in Hs as [-> Hs]. exact Hs.
  - intros [= <-]. destruct Hf as [_ Hf]. split; [repeat constructor; exact Hf|]. cbn. lia.
  - intros [= <-]. exact Hf.
  - intros [= <-]. exact Hf.
  - intros Hs. apply bind_Some in Hs as (m & _ & Hs). destruct (_ && _); [|discriminate]. apply fit_Some in Hs as [-> Hs]. exact Hs.
Qed.

Lemma body_pool (s : lst T) id L inp n sx sy sh' :
  lays s !! id = Some L -> lkind_of L = LMaxPool2D sx sy -> lten L FInput = Some inp ->
  tens (ts s) !! inp = Some n -> settled n -> wf_mat (length (mem (ts s))) (nmat n) ->
  lay_shape (SPool sx sy : lspec T) (shape (nmat n)) = Some sh' ->
  exists s', ff_body rnd id s = (Ok tt, s') /\ body_ok nowhere s s' id L (nmat n) (SPool sx sy) sh'.
Proof.
  intros HL Hk Hi Hn Hset Hwf Hls. unfold ff_body. erewrite mbnd_ok by (apply getL_ok; exact HL). rewrite Hk, Hi.
  erewrite mbnd_ok by reflexivity. erewrite mbnd_ok by (apply shapeT_ok; exact Hn).
  pose proof Hls as Hls0. cbn [lay_shape] in Hls0.
  destruct (shape (nmat n)) as [|c [|w [|h [|]]]] eqn:Hsh; try discriminate. cbn [length Nat.eqb negb nth].
  destruct ((0 <? sx) && (0 <? sy) && (w + 1 <? W64) && (h + 1 <? W64) && (sx <? W64) && (sy <? W64))%N eqn:Ec; [|discriminate].
  cbn [andb] in Hls0. destruct (fitsb _) eqn:Ef in Hls0; [|discriminate]. injection Hls0 as <-. apply fitsb_fits in Ef.
  rewrite !uadd_small by lia. unfold udiv. destruct (N.eqb_spec sx 0); [lia|]. mstep. destruct (N.eqb_spec sy 0); [lia|]. mstep.
  eapply body_loop; try eassumption; try reflexivity; try exact I.
  intros s1 to_ mo Hin Hto Hlen Hwo Hso Hnd Hdis. destruct n as [ki mi]. cbn [nmat] in *.
  eapply pool_ff_ok; try eassumption. eapply wf_mat_mono; eassumption.
Qed.
Lemma body_up (s : lst T) id L inp n sx sy sh' :
  lays s !! id = Some L -> lkind_of L = LUpSampling2D sx sy -> lten L FInput = Some inp ->
  tens (ts s) !! inp = Some n -> settled n -> wf_mat (length (mem (ts s))) (nmat n) ->
  lay_shape (SUp sx sy : lspec T) (shape (nmat n)) = Some sh' ->
  exists s', ff_body rnd id s = (Ok tt, s') /\ body_ok nowhere s s' id L (nmat n) (SUp sx sy) sh'.
Proof.
  intros HL Hk Hi Hn Hset Hwf Hls. unfold ff_body. erewrite mbnd_ok by (apply getL_ok; exact HL). rewrite Hk, Hi.
  erewrite mbnd_ok by reflexivity. erewrite mbnd_ok by (apply shapeT_ok; exact Hn).
  pose proof Hls as Hls0. cbn [lay_shape] in Hls0.
  destruct (shape (nmat n)) as [|c [|w [|h [|]]]] eqn:Hsh; try discriminate. cbn [length Nat.eqb negb nth] in *.
  apply fit_Some in Hls0 as [-> Ef]. destruct (proj1 (Forall_cons _ _ _) (proj1 Ef)) as [_ Hw]. apply Forall_cons in Hw as [Hw Hh]. apply Forall_cons in Hh as [Hh _].
  rewrite !umul_small by assumption.
  eapply body_loop; try eassumption; try reflexivity; try exact I.
  intros s1 to_ mo Hin Hto Hlen Hwo Hso Hnd Hdis. destruct n as [ki mi]. cbn [nmat] in *.
  eapply up_ff_ok; try eassumption. eapply wf_mat_mono; eassumption.
Qed.
End FwdBody.
