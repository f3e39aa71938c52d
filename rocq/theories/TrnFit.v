(** * TrnFit: the graphs of Model.CompileBackPropagation for a chain of layers *)
From Verif Require Import Base Num ModelTools ModelOps ModelTensor ModelGraph ModelLayer ModelModel Spec NetSpec FwdSpec Denote
  IndexProofs ExecProofs TensorFacts AccessProofs BuildProofs BuildFrame CompileProofs Agree FwdMask FwdBuild FwdSeg FwdOps FwdPool NetBuild NetChain FwdBody FwdExpr FwdConv FwdConv2 FwdAct FwdTotal
  BwdSpec BwdPost BwdLoop BwdOps BwdOps2 BwdOps3 BwdOps4 TrnSpec TrnTri TrnOwn TrnExpr TrnSite TrnDer TrnXfer TrnBody TrnKind TrnBias TrnPar TrnDense TrnKer TrnConvs TrnChain FwdDense.
From Coq Require Import Lia ZifyBool ZifyNat ZifyN.

Section TrnFit.
Context {T : Type} `{Num T}.
Implicit Types (t : tst T) (s : lst T) (m : list T) (c q : clay T) (cs rest : list (clay T)).

(** ** Filling a tensor *)
Lemma tri_fill t i n sh z : node_ok t i n sh -> z < length (mem t) ->
  exists t', Fill i (Some z) t = (Ok tt, t') /\ mem t' = mem t /\
    tri t t' (fun l => Some l ∈ operands (nmat n)) [] (fun m => m !! z = Some nzero) (fun m m' => mval m' (nmat n) = Some (vzero sh)).
Proof using Type.
  intros (Hn & Hs & Hw & Hsh) Hz. pose proof Hw as (_ & _ & Lw & Vw).
  destruct (TransferProofs.fill_settled t i n z Hn Hs Vw Hz) as (t' & new & E & Em & Ec & Hk & X).
  exists t'. split; [exact E|]. split; [exact Em|]. exists new. split.
  - split; [exists []; rewrite Em, app_nil_r; reflexivity|exact Ec| |constructor| |].
    + intros m m' l Hm Hx Hno. rewrite Em in Hm. destruct (lookup_lt_is_Some_2 m z ltac:(lia)) as [x Hx0]. destruct (X m x Hm Hx0) as (m2 & Hx2 & _ & Hfr). assert (m' = m2) as -> by congruence. apply Hfr. exact Hno.
    + intros l Hin. rewrite Em. rewrite Forall_forall in Vw. destruct (Vw _ Hin) as (l' & [= <-] & Hlt). exact Hlt.
    + intros j nj Hj. destruct (Hk _ _ Hj) as (n' & Hn' & K1 & K2 & K3 & K4). exists n'. split; [exact Hn'|]. split; [exact K1|]. split; [|auto].
      unfold Fill, FillWith in E. cbv beta in E. erewrite mbnd_ok in E by reflexivity.
      unfold Build in E. pose proof (BuildGraph_within (S (length (tens t))) (length (tens t)) _ _ _ E) as (_ & _ & _ & K). cbn [tens] in K.
      destruct (K j nj) as (n2 & Hn2 & _ & Hb); [apply lookup_app_l_Some; exact Hj|]. assert (n2 = n') as -> by congruence. exact Hb.
  - intros m Hm _ Hz0. rewrite Em in Hm. destruct (X m _ Hm Hz0) as (m' & Ex & Hr & Hfr). exists m'. split; [exact Ex|]. split.
    + split; [eapply exec_length; exact Ex|exact Hfr].
    + unfold mval. rewrite Hr. cbn [mbind option_bind]. rewrite Hsh, Lw, Hsh. reflexivity.
Qed.

(** ** The errors of the last layer *)
Lemma opaddr_at n (mt : tmat) j : wf_mat n mt -> j < length (operands mt) -> operands mt !! j = Some (Some (opaddr mt j)) /\ opaddr mt j < n.
Proof using Type.
  intros (_ & _ & _ & Hv) Hj. destruct (lookup_lt_is_Some_2 _ _ Hj) as [p Hp]. rewrite Forall_lookup in Hv. destruct (Hv _ _ Hp) as (l & -> & Hl). unfold opaddr. rewrite Hp. auto.
Qed.
Definition sub_loop (md mt mo : tmat) : TM T unit :=
  mfor (range (length (operands mt))) (fun i => d <~ atM (operands md) i ; t <~ atM (operands mt) i ; o <~ atM (operands mo) i ; push (OSub d t o)).
Lemma mval_lookup m (mt : tmat) n v i : wf_mat n mt -> mval m mt = Some v -> i < length (operands mt) -> exists x, m !! opaddr mt i = Some x /\ vdata v !! i = Some x.
Proof using Type.
  intros Hw Hv Hi. unfold mval in Hv. apply bind_Some in Hv as (d & Hd & [= <-]). cbn [vdata]. destruct (opaddr_at _ _ _ Hw Hi) as [Ho _].
  apply mapM_Some in Hd. destruct (Forall2_lookup_l _ _ _ _ _ Hd Ho) as (x & Hx & E). exists x. split; [exact E|exact Hx].
Qed.
Lemma mval_at m (mt : tmat) n (d : list T) : wf_mat n mt -> length d = length (operands mt) -> (forall i x, d !! i = Some x -> m !! opaddr mt i = Some x) -> mval m mt = Some (V (shape mt) d).
Proof using Type.
  intros Hw Hl Hd. unfold mval. assert (E : rds m (operands mt) = Some d); [|rewrite E; reflexivity]. apply mapM_Some. apply Forall2_same_length_lookup. split; [auto|]. intros i p x Hp Hx.
  assert (Hi : i < length (operands mt)) by (eapply lookup_lt_Some; exact Hp). destruct (opaddr_at _ _ _ Hw Hi) as [Ho _]. assert (p = Some (opaddr mt i)) as -> by congruence. apply Hd. exact Hx.
Qed.
Lemma opaddr_inj n (mt : tmat) i j : wf_mat n mt -> NoDup (operands mt) -> i < length (operands mt) -> j < length (operands mt) -> opaddr mt i = opaddr mt j -> i = j.
Proof using Type.
  intros Hw Hnd Hi Hj E. destruct (opaddr_at _ _ _ Hw Hi) as [Ei _]. destruct (opaddr_at _ _ _ Hw Hj) as [Ej _]. rewrite E in Ei. eapply NoDup_lookup; eassumption.
Qed.
Lemma mval_zero n m (mt : tmat) sh : wf_mat n mt -> shape mt = sh -> mval m mt = Some (vzero sh) <-> forall l, Some l ∈ operands mt -> m !! l = Some nzero.
Proof using Type.
  intros Hw Hs. pose proof Hw as (_ & _ & Hl & _). split.
  - intros Hv l Hin. apply elem_of_list_lookup in Hin as [i Hi]. assert (Hlt : i < length (operands mt)) by (eapply lookup_lt_Some; exact Hi).
    destruct (mval_lookup _ _ _ _ _ Hw Hv Hlt) as (x & Hx & Hd). destruct (opaddr_at _ _ _ Hw Hlt) as [Ho _]. assert (l = opaddr mt i) as -> by congruence. rewrite Hx. unfold vzero in Hd. cbn [vdata] in Hd. apply lookup_replicate in Hd as [-> _]. reflexivity.
  - intros Hz. unfold vzero. rewrite <- Hs at 1. apply (mval_at m mt n); [exact Hw|rewrite replicate_length, Hl, Hs; reflexivity|]. intros i x Hx. apply lookup_replicate in Hx as [-> Hi]. apply Hz. rewrite Hs in Hl. destruct (opaddr_at n mt i Hw ltac:(lia)) as [Ho _]. eapply elem_of_list_lookup_2. exact Ho.
Qed.

Lemma tri_sub t dif out tgt nd no nt sh : node_ok t dif nd sh -> node_ok t out no sh -> node_ok t tgt nt sh -> NoDup (operands (nmat nd)) ->
  (forall l, Some l ∈ operands (nmat nd) -> Some l ∉ operands (nmat no) /\ Some l ∉ operands (nmat nt)) ->
  exists t', sub_loop (nmat nd) (nmat nt) (nmat no) t = (Ok tt, t') /\ tens t' = tens t /\ mem t' = mem t /\
    tri t t' (fun l => Some l ∈ operands (nmat nd)) [] any
      (fun m m' => forall vt vo, mval m (nmat nt) = Some vt -> mval m (nmat no) = Some vo -> mval m' (nmat nd) = Some (V sh (zip_with nsub (vdata vt) (vdata vo)))).
Proof using Type.
  intros (Hd & _ & Wd & Sd) (Ho & _ & Wo & So) (Ht & _ & Wt & St) Hnd Hdis.
  pose proof Wd as (_ & _ & Ld & _). pose proof Wo as (_ & _ & Lo & _). pose proof Wt as (_ & _ & Lt & _). rewrite Sd in Ld. rewrite So in Lo. rewrite St in Lt.
  set (k := N.to_nat (prodN sh)) in *. set (D := opaddr (nmat nd)). set (O := opaddr (nmat no)). set (X := opaddr (nmat nt)).
  set (u := fun (i : nat) (_ : nat) => [OSub (Some (D i)) (Some (X i)) (Some (O i)) : op T]).
  assert (E : sub_loop (nmat nd) (nmat nt) (nmat no) t = (Ok tt, grown t (ltot (fun _ => 0) (range k)) (lops (fun _ => 0) u (range k) (length (mem t))))).
  { unfold sub_loop. rewrite Lt. apply (mfor_grown _ _ t); [|reflexivity|lia]. intros i t1 Hi _ _. apply elem_of_seq in Hi.
    rewrite (mbnd_ok _ _ _ _ _ (atM_ok _ _ _ t1 (proj1 (opaddr_at _ _ i Wd ltac:(lia))))). rewrite (mbnd_ok _ _ _ _ _ (atM_ok _ _ _ t1 (proj1 (opaddr_at _ _ i Wt ltac:(lia))))). rewrite (mbnd_ok _ _ _ _ _ (atM_ok _ _ _ t1 (proj1 (opaddr_at _ _ i Wo ltac:(lia))))).
    apply push_grown. }
  assert (Hz : forall l, ltot (fun _ : nat => 0) l = 0) by (induction l; auto).
  set (ops := lops (fun _ => 0) u (range k) (length (mem t))) in *.
  assert (Hdst : forall l, dst_in l ops -> Some l ∈ operands (nmat nd)).
  { intros l Hl. destruct (lops_dst (fun _ => 0) u (range k) (fun l => Some l ∈ operands (nmat nd)) (length (mem t)) (length (mem t)) ltac:(lia)) with (d := l) as [Hx|Hx]; [|exact Hl| |exact Hx].
    - intros i b d Hi _ Hdd. right. apply dst_cons in Hdd as [Hdd|Hdd]; [|exfalso; exact (dst_nil _ Hdd)]. cbn in Hdd. injection Hdd as <-. apply elem_of_seq in Hi. destruct (opaddr_at _ _ i Wd ltac:(lia)) as [Hq _]. eapply elem_of_list_lookup_2. exact Hq.
    - rewrite Hz in Hx. lia. }
  rewrite Hz in E. exists (grown t 0 ops). split; [exact E|]. split; [reflexivity|]. split; [cbn; rewrite app_nil_r; reflexivity|]. exists ops. split.
  - apply seg_grown; [exact Hdst|]. intros l Hl. destruct Wd as (_ & _ & _ & Vd). rewrite Forall_forall in Vd. destruct (Vd _ Hl) as (l' & [= <-] & Hlt). lia.
  - intros m Hm _ _. rewrite grown_len in Hm.
    destruct (put_sem (fun _ => 0) u (length (mem t)) (fun i x v => x = D i /\ exists a b, m !! X i = Some a /\ m !! O i = Some b /\ v = nsub a b) (fun i x => x = D i) (fun i x => False) (range k) m) with (a := length (mem t)) as (m' & Ex & Hr).
    + apply NoDup_seq.
    + intros i b d Hi _ Hdd. right. apply dst_cons in Hdd as [Hdd|Hdd]; [|exfalso; exact (dst_nil _ Hdd)]. cbn in Hdd. injection Hdd as <-. reflexivity.
    + intros i x v Hi [-> _]. apply elem_of_seq in Hi. apply (opaddr_at _ _ i Wd). lia.
    + intros i j x v Hi Hj Hne [-> _] Hx. apply elem_of_seq in Hi, Hj. apply Hne. eapply (opaddr_inj _ _ i j Wd Hnd); [lia|lia|exact Hx].
    + intros i x _ [].
    + intros i j x _ _ _ [].
    + intros i a m1 Hi _ _ Hl1 Hf _. apply elem_of_seq in Hi.
      assert (Hk : forall l, Some l ∈ operands (nmat nd) -> l < length (mem t)) by (intros l Hl; destruct Wd as (_ & _ & _ & Vd); rewrite Forall_forall in Vd; destruct (Vd _ Hl) as (l' & [= <-] & Hlt); exact Hlt).
      destruct (opaddr_at _ _ i Wd ltac:(lia)) as [Hq Hql]. destruct (opaddr_at _ _ i Wt ltac:(lia)) as [Hqt Hqtl]. destruct (opaddr_at _ _ i Wo ltac:(lia)) as [Hqo Hqol].
      assert (Hnw : forall x, x = X i \/ x = O i -> forall j, j ∈ range k -> x <> D j).
      { intros x Hx j Hj E0. apply elem_of_seq in Hj. destruct (opaddr_at _ _ j Wd ltac:(lia)) as [Hqj _]. destruct (Hdis (D j) ltac:(eapply elem_of_list_lookup_2; exact Hqj)) as [N1 N2]. rewrite <- E0 in N1, N2. destruct Hx as [->| ->]; [apply N2|apply N1]; eapply elem_of_list_lookup_2; eassumption. }
      destruct (lookup_lt_is_Some_2 m (X i) ltac:(unfold X; lia)) as [va Ha]. destruct (lookup_lt_is_Some_2 m (O i) ltac:(unfold O; lia)) as [vb Hb].
      assert (Ha1 : m1 !! X i = Some va) by (rewrite Hf; [exact Ha|exact Hqtl|apply Hnw; auto]). assert (Hb1 : m1 !! O i = Some vb) by (rewrite Hf; [exact Hb|exact Hqol|apply Hnw; auto]).
      exists (<[D i := nsub va vb]> m1). split.
      * unfold u. erewrite (exec_step _ (D i)); [reflexivity|reflexivity|unfold D; lia|]. cbn [op_value rd]. unfold rd. rewrite Ha1, Hb1. reflexivity.
      * intros x v [-> (a' & b' & Ea & Eb & ->)]. rewrite list_lookup_insert by (unfold D; lia). congruence.
    + lia.
    + rewrite Hz. lia.
    + exists m'. split; [exact Ex|]. split; [split; [eapply exec_length; exact Ex|]; intros l Hl; eapply (exec_frame ops m m'); [exact Ex|intros Hx; exact (Hl (Hdst _ Hx))]|].
      intros vt vo Evt Evo. assert (Lvt : length (vdata vt) = k) by (unfold mval in Evt; apply bind_Some in Evt as (d & Ed & [= <-]); cbn; apply rds_length in Ed; lia).
      assert (Lvo : length (vdata vo) = k) by (unfold mval in Evo; apply bind_Some in Evo as (d & Ed & [= <-]); cbn; apply rds_length in Ed; lia).
      rewrite <- Sd. apply (mval_at m' (nmat nd) (length (mem t)) _ Wd); [rewrite zip_with_length; lia|].
      intros i x Hx. apply lookup_zip_with_Some in Hx as (a & b & -> & Ea & Eb). assert (Hi : i < k) by (apply lookup_lt_Some in Ea; lia).
      destruct (mval_lookup _ _ _ _ i Wt Evt ltac:(lia)) as (a' & Ha & Ha'). destruct (mval_lookup _ _ _ _ i Wo Evo ltac:(lia)) as (b' & Hb & Hb').
      apply (Hr i); [apply elem_of_seq; lia|]. split; [reflexivity|]. exists a, b. split; [unfold X; congruence|]. split; [unfold O; congruence|reflexivity].
Qed.

(** The sum of the absolute errors. *)
Lemma abs_den t dif nd sh : node_ok t dif nd sh ->
  den (add t (KAbs dif) empty_mat) (length (tens t)) (EMap absv (ELeaf dif)) sh /\
  den (add (add t (KAbs dif) empty_mat) (KTensorMath (length (tens t)) RSum) empty_mat) (length (tens (add t (KAbs dif) empty_mat))) (EReduce RedSum (EMap absv (ELeaf dif))) [1%N].
Proof using Type.
  intros Hn. pose proof (node_ok_den _ _ _ _ Hn) as D0.
  assert (D1 : den (add t (KAbs dif) empty_mat) (length (tens t)) (EMap absv (ELeaf dif)) sh).
  { eapply (den_un t _ (KAbs dif) empty_mat); [reflexivity|reflexivity|reflexivity|discriminate|reflexivity|exact D0|..].
    - intros Hv Hlt Hde. econstructor; [exact Hv|exact Hlt|exact Hde].
    - exact (dn_sh _ _ _ _ D0).
    - exact I. }
  split; [exact D1|].
  eapply (den_un (add t (KAbs dif) empty_mat) _ (KTensorMath (length (tens t)) RSum) empty_mat); [reflexivity|reflexivity|reflexivity|discriminate|reflexivity|exact D1|..].
  - intros Hv Hlt Hde. change RedSum with (rop RSum). econstructor; [exact Hv|exact Hlt|exact Hde].
  - pose proof (dn_sh _ _ _ _ D1) as Hs1. cbn [shape_of] in Hs1 |- *. rewrite Hs1. reflexivity.
  - exact I.
Qed.
Lemma loss_node t dif nd sh : node_ok t dif nd sh -> (0 < prodN sh)%N ->
  exists t' (W : nat -> Prop) C lo, (a <~ NAbs dif ; s <~ TensorMath a RSum ; ignore_err (Build s) ;~ ms <~ get_mat s ; atM (operands ms) 0) t = (Ok (Some lo), t') /\
    length (mem t) <= lo < length (mem t') /\ (forall l, W l -> length (mem t) <= l) /\
    tri t t' W C any (fun m m' => forall v, mval m (nmat nd) = Some v -> m' !! lo = fold1 nadd (map absv (vdata v))).
Proof using Type.
  intros Hn Hpos. destruct (abs_den t dif nd sh Hn) as [_ D2]. set (t1 := add t (KAbs dif) empty_mat) in *.
  destruct (op_node t1 (KTensorMath (length (tens t)) RSum) _ _ I D2) as (t2 & W & C & n2 & E & Ht & HW & Hl & Hn2 & Hown).
  pose proof Hown as (a & k & Hops & Ha1 & Ha2). destruct Hn2 as (Hn2 & Hset2 & Hwf2 & Hsh2). pose proof Hwf2 as (_ & _ & Hlen2 & _). rewrite Hsh2 in Hlen2. cbn in Hlen2.
  assert (Hk : k = 1) by (rewrite Hops, map_length, seq_length in Hlen2; exact Hlen2). subst k. cbn [seq map] in Hops.
  exists t2, W, C, a. split.
  { unfold NAbs, TensorMath. erewrite mbnd_ok by reflexivity. erewrite mbnd_ok by reflexivity.
    change (MkSt (mem t) (tens t ++ [MkNode (KAbs dif) empty_mat]) (ctx t)) with t1. change (MkSt (mem t1) (tens t1 ++ [MkNode (KTensorMath (length (tens t)) RSum) empty_mat]) (ctx t1)) with (add t1 (KTensorMath (length (tens t)) RSum) empty_mat).
    assert (Ei : ignore_err (Build (length (tens t1))) (add t1 (KTensorMath (length (tens t)) RSum) empty_mat) = (Ok tt, t2)) by (unfold ignore_err; rewrite E; reflexivity).
    rewrite (mbnd_ok _ _ _ _ _ Ei). rewrite (mbnd_ok _ _ _ _ _ (get_mat_ok _ _ _ Hn2)). rewrite Hops. reflexivity. }
  change (mem t1) with (mem t) in *. split; [lia|]. split; [exact HW|].
  pose proof (tri_after _ _ _ _ _ _ _ _ (add_seg t (KAbs dif) empty_mat) Ht ltac:(intros c Hc; inversion Hc)) as Hta. cbn [app] in Hta.
  assert (Hev : forall m, evals t1 m (EReduce RedSum (EMap absv (ELeaf dif))) = v ← mval m (nmat nd); x ← fold1 nadd (map absv (vdata v)); Some (V [1%N] [x])).
  { intros m. unfold evals. rewrite (eval_grow t t1 (KAbs dif) empty_mat _ m _ eq_refl eq_refl ltac:(discriminate)). cbn [eval]. change (leafv (view t) m dif) with (evals t m (ELeaf dif)). rewrite (node_ok_eval _ _ _ _ m Hn).
    destruct (mval m (nmat nd)) as [v|]; [|reflexivity]. reflexivity. }
  pose proof (tri_len _ _ _ _ _ _ Hta) as Hle.
  assert (Htot : forall m, length (mem t2) <= length m -> exists v x, mval m (nmat nd) = Some v /\ fold1 nadd (map absv (vdata v)) = Some x).
  { intros m Hm. destruct (node_ok_total _ _ _ _ m Hn) as (v & Ev & _ & Lv); [lia|]. exists v. destruct (vdata v) as [|x0 r]; [cbn in Lv; lia|]. eexists. split; [exact Ev|reflexivity]. }
  eapply tri_post; [exact Hta| |]; cbn beta.
  - intros m Hm _ _. rewrite Hev. destruct (Htot m Hm) as (v & x & -> & Ex). cbn [mbind option_bind]. rewrite Ex. discriminate.
  - intros m m' Hm _ _ _ Hv v Ev. rewrite Hev, Ev in Hv. cbn [mbind option_bind] in Hv. destruct (Htot m Hm) as (v' & x & Ev' & Ex). assert (v' = v) as -> by congruence. rewrite Ex in Hv |- *. cbn [mbind option_bind] in Hv.
    unfold mval in Hv. rewrite Hops in Hv. cbn [rds mapM] in Hv. unfold rds in Hv. cbn [mapM] in Hv. change (rd m' (Some a)) with (m' !! a) in Hv. destruct (m' !! a) as [y|] eqn:Ey; cbn in Hv; [|discriminate]. congruence.
Qed.
Lemma tri_caldif t dif out tgt nd no nt sh : node_ok t dif nd sh -> node_ok t out no sh -> node_ok t tgt nt sh -> NoDup (operands (nmat nd)) -> (0 < prodN sh)%N ->
  (forall l, Some l ∈ operands (nmat nd) -> Some l ∉ operands (nmat no) /\ Some l ∉ operands (nmat nt)) ->
  exists t' (W : nat -> Prop) C lo, caldif dif out tgt t = (Ok (Some lo), t') /\ length (mem t) <= lo < length (mem t') /\
    (forall l, W l -> length (mem t) <= l \/ Some l ∈ operands (nmat nd)) /\
    tri t t' W C any (fun m m' => forall vt vo, mval m (nmat nt) = Some vt -> mval m (nmat no) = Some vo ->
      mval m' (nmat nd) = Some (V sh (zip_with nsub (vdata vt) (vdata vo))) /\ m' !! lo = fold1 nadd (map absv (zip_with nsub (vdata vt) (vdata vo)))).
Proof using Type.
  intros Hd Ho Ht Hnd Hpos Hdis. destruct (tri_sub t dif out tgt nd no nt sh Hd Ho Ht Hnd Hdis) as (t1 & E1 & Et1 & Em1 & T1).
  assert (Hd1 : node_ok t1 dif nd sh) by (destruct Hd as (A1 & A2 & A3 & A4); split; [rewrite Et1; exact A1|]; split; [exact A2|]; split; [rewrite Em1; exact A3|exact A4]).
  destruct (loss_node t1 dif nd sh Hd1 Hpos) as (t2 & W & C & lo & E2 & Hlo & HW & T2). rewrite Em1 in Hlo, HW.
  exists t2, (either (fun l => Some l ∈ operands (nmat nd)) W), C, lo. split.
  { unfold caldif. destruct Hd as (Hd & _), Ho as (Ho & _), Ht as (Ht & _). rewrite (mbnd_ok _ _ _ _ _ (get_mat_ok _ _ _ Ho)), (mbnd_ok _ _ _ _ _ (get_mat_ok _ _ _ Ht)), (mbnd_ok _ _ _ _ _ (get_mat_ok _ _ _ Hd)).
    rewrite (mbnd_ok _ _ _ _ _ E1). exact E2. }
  split; [exact Hlo|]. split; [intros l [Hl|Hl]; [right; exact Hl|left; exact (HW _ Hl)]|].
  pose proof (tri_seq _ _ _ _ _ _ _ _ _ _ _ T1 T2 ltac:(intros c Hc; inversion Hc)) as Ts. cbn [app] in Ts.
  eapply tri_post; [exact Ts|intros; split; [exact I|intros; exact I]|]. cbn beta. intros m m' Hm _ _ _ (m1 & Hr1 & R1 & Hr2 & R2) vt vo Evt Evo.
  pose proof (R1 vt vo Evt Evo) as Ed. split.
  - rewrite (ran_val _ _ _ (nmat nd) Hr2); [exact Ed|]. intros l Hl Hw. specialize (HW _ Hw). pose proof (node_ok_lt _ _ _ _ _ Hd Hl). lia.
  - rewrite (R2 _ Ed). reflexivity.
Qed.

(** ** The graph that clears the errors *)
Definition clearR s0 cs m' : Prop := forall p, p ∈ cs -> fval s0 (c_i p) FDif m' = Some (vzero (c_sh p)).
Definition clearW s0 cs (l : nat) : Prop := exists p, p ∈ cs /\ cells s0 (c_i p) FDif l.
Lemma clear_lt s0 s cs l : chain s0 cs -> held s0 s -> clearW s0 cs l -> l < length (mem (ts s)).
Proof using Type.
  intros Hch Hh (p & Hp & Hl). destruct (chain_in _ _ _ Hch Hp) as (lp & psh & Hs). pose proof (ok_lt _ _ _ _ _ (proj1 (ls_dif _ _ _ _ Hs)) Hl) as Hlt. pose proof (hd_len _ _ Hh). lia.
Qed.
Lemma fval_zero s0 i sh m : ok s0 i FDif sh -> fval s0 i FDif m = Some (vzero sh) <-> forall a, cells s0 i FDif a -> m !! a = Some nzero.
Proof using Type.
  intros Hok. destruct Hok as (t & n & Ht & Hn). destruct (ok_node s0 i FDif sh t ltac:(exists t, n; auto) Ht) as (n' & Hn' & Hc & Hv). rewrite Hv.
  destruct Hn' as (_ & _ & Hw & Hs). rewrite (mval_zero _ m (nmat n') sh Hw Hs). split; intros Hz a Ha; apply Hz; apply Hc; exact Ha.
Qed.
Lemma ok_dec_cells s0 i a : cells s0 i FDif a \/ ~ cells s0 i FDif a.
Proof using Type.
  unfold cells. destruct (fnode s0 i FDif) as [n|]; [|right; intros (? & [=] & _)]. destruct (decide (Some a ∈ operands (nmat n))) as [Hy|Hn]; [left; eauto|right; intros (? & [= <-] & Hx); exact (Hn Hx)].
Qed.
Lemma reset_one s0 c psh l0 s l : lay_site s0 c psh l0 -> held s0 s -> lays s !! c_i c = Some l -> lheld l0 l ->
  exists s' C, (z <~ liftT (alloc nzero) ; d <~ the (lten l FDif) ; liftT (Fill d z)) s = (Ok tt, s') /\ lays s' = lays s /\ rc s' = rc s /\
    tri (ts s) (ts s') (clearW s0 [c]) C any (fun m m' => clearR s0 [c] m').
Proof using Type.
  intros Hsite Hh Hl Hlh. destruct (ls_dif _ _ _ _ Hsite) as [Hok _]. destruct (ok_held _ _ _ _ _ Hh Hok) as (Hok' & Hce & Hva).
  destruct Hok' as (t & n0 & Hf & Hn0). destruct (ok_node s (c_i c) FDif (c_sh c) t ltac:(exists t, n0; auto) Hf) as (n & Hn & Hc & Hv).
  assert (Hlt : lten l FDif = Some t) by (unfold fid in Hf; rewrite Hl in Hf; exact Hf).
  destruct (seg_alloc (ts s) nzero) as (t1 & Ea & Sa & Ma & Ta & Ca).
  assert (Hn1 : node_ok t1 t n (c_sh c)).
  { destruct Hn as (N1 & N2 & (a1 & a2 & a3 & a4) & N4). split; [rewrite Ta; exact N1|]. split; [exact N2|]. split; [|exact N4]. split; [exact a1|]. split; [exact a2|]. split; [exact a3|]. eapply Forall_impl; [exact a4|]. intros p (x & -> & Hx). exists x. split; [reflexivity|]. rewrite Ma, app_length. lia. }
  destruct (tri_fill t1 t n (c_sh c) (length (mem (ts s))) Hn1 ltac:(rewrite Ma, app_length; cbn; lia)) as (t2 & Ef & Mf & Tf).
  exists (MkL t2 (lays s) (rc s)), [(length (mem (ts s)), nzero)]. split.
  - rewrite (mbnd_ok _ _ _ _ _ (liftT_ok _ _ _ _ Ea)). rewrite Hlt. cbn [the]. erewrite mbnd_ok by reflexivity. erewrite liftT_ok by exact Ef. reflexivity.
  - split; [reflexivity|]. split; [reflexivity|]. cbn [ts].
    assert (Hfr : forall a, Some a ∈ operands (nmat n) -> a < length (mem (ts s))) by (intros a Ha; eapply node_ok_lt; [exact Hn|exact Ha]).
    assert (Hcw : forall a, clearW s0 [c] a <-> Some a ∈ operands (nmat n)).
    { intros a. rewrite <- Hc, Hce. split; [intros (p & Hp & Hpa); apply elem_of_list_singleton in Hp as ->; exact Hpa|intros Ha; exists c; split; [left|exact Ha]]. }
    assert (Hnc : forall x : nat * T, x ∈ [(length (mem (ts s)), nzero : T)] -> ~ Some (fst x) ∈ operands (nmat n)) by (intros x Hx; apply elem_of_list_singleton in Hx as ->; cbn; intros Hx; specialize (Hfr _ Hx); lia).
    change [(length (mem (ts s)), nzero : T)] with ([(length (mem (ts s)), nzero : T)] ++ []). refine (tri_weaken _ _ _ _ _ _ _ _ _ (tri_after _ _ _ _ _ _ _ _ Sa Tf Hnc) _ _ _ _ _).
    + intros a Ha. apply Hcw. exact Ha.
    + intros a Ha. apply Hcw in Ha. specialize (Hfr _ Ha). rewrite Mf, Ma, app_length. lia.
    + intros x Hx Hw. apply Hcw in Hw. rewrite app_nil_r in Hx. exact (Hnc _ Hx Hw).
    + intros m Hm Hcs _. unfold consts in Hcs. rewrite Forall_forall in Hcs. apply (Hcs (length (mem (ts s)), nzero)). left.
    + intros m m' Hm Hcs _ _ HR p Hp. apply elem_of_list_singleton in Hp as ->. rewrite <- Hva, Hv. exact HR.
Qed.
Lemma reset_chain s0 : forall rest c s fuel, chain s0 (c :: rest) -> held s0 s -> length (c :: rest) <= fuel ->
  exists s' C, LResetFit fuel (c_i c) s = (Ok tt, s') /\ lays s' = lays s /\ rc s' = rc s /\
    tri (ts s) (ts s') (clearW s0 (c :: rest)) C any (fun m m' => clearR s0 (c :: rest) m').
Proof using Type.
  induction rest as [|q rest IH]; intros c s fuel Hch Hh Hfu; (destruct fuel as [|fuel]; [cbn [length] in Hfu; lia|]); cbn [length] in Hfu;
    destruct (chain_head _ _ _ Hch) as (l0 & psh & Hsite0 & Hr); destruct (site_held _ _ _ _ _ Hh Hsite0) as (l & Hlh & Hsite); pose proof (ls_lay _ _ _ _ Hsite) as HL; cbn [LResetFit]; rewrite (mbnd_ok _ _ _ _ _ (getL_ok _ _ _ HL)).
  - assert (Hp : lpre l = None) by (destruct Hlh as (_ & _ & -> & _); apply Hr). rewrite Hp. erewrite mbnd_ok by reflexivity.
    destruct (reset_one s0 c psh l0 s l Hsite0 Hh HL Hlh) as (s' & C & E & El & Er & Ht). exists s', C. split; [exact E|]. auto.
  - destruct Hr as (_ & Hpre & _ & Hcr & _). assert (Hp : lpre l = Some (c_i q)) by (destruct Hlh as (_ & _ & -> & _); exact Hpre). rewrite Hp.
    destruct (IH q s fuel Hcr Hh ltac:(cbn [length]; lia)) as (s1 & C1 & E1 & El1 & Er1 & T1). rewrite (mbnd_ok _ _ _ _ _ E1).
    assert (Hh1 : held s s1) by (destruct s1 as [t1 l1 r1]; cbn in El1, Er1, T1; subst l1 r1; exact (held_ts _ _ _ _ _ _ T1)).
    assert (Hh01 : held s0 s1) by exact (held_trans _ _ _ Hh Hh1).
    destruct (reset_one s0 c psh l0 s1 l Hsite0 Hh01 ltac:(rewrite El1; exact HL) Hlh) as (s2 & C2 & E2 & El2 & Er2 & T2).
    exists s2, (C1 ++ C2). split; [exact E2|]. split; [congruence|]. split; [congruence|].
    assert (Hc1 : forall x, x ∈ C1 -> forall cs', (forall p, p ∈ cs' -> p ∈ c :: q :: rest) -> ~ clearW s0 cs' (fst x)).
    { intros x Hx cs' Hsub (p & Hp' & Hw). destruct (tri_C _ _ _ _ _ _ _ T1 Hx) as [Hlt _]. pose proof (clear_lt s0 s (c :: q :: rest) (fst x) Hch Hh ltac:(exists p; auto)). lia. }
    assert (Hc2 : forall x, x ∈ C2 -> ~ clearW s0 (c :: q :: rest) (fst x)).
    { intros x Hx Hw. destruct (tri_C _ _ _ _ _ _ _ T2 Hx) as [Hlt _]. pose proof (clear_lt s0 s1 (c :: q :: rest) (fst x) Hch Hh01 Hw). lia. }
    refine (tri_weaken _ _ _ _ _ _ _ _ _ (tri_seq _ _ _ _ _ _ _ _ _ _ _ T1 T2 _) _ _ _ _ _).
    + intros x Hx. apply (Hc1 x Hx). intros p Hp'. apply elem_of_list_singleton in Hp' as ->. left.
    + intros a [(p & Hp' & Ha)|(p & Hp' & Ha)]; exists p; (split; [|exact Ha]); [right; exact Hp'|apply elem_of_list_singleton in Hp' as ->; left].
    + intros a Ha. pose proof (clear_lt s0 s1 _ _ Hch Hh01 Ha). pose proof (tri_len _ _ _ _ _ _ T2). lia.
    + intros x Hx. apply elem_of_app in Hx as [Hx|Hx]; [apply (Hc1 x Hx); auto|apply Hc2; exact Hx].
    + intros m _ _ _. split; [exact I|]. intros; exact I.
    + intros m m' Hm _ _ _ (m1 & Hr1 & R1 & Hr2 & R2) p Hp'. apply elem_of_cons in Hp' as [->|Hp']; [apply R2; left|].
      destruct (chain_in _ _ p Hch ltac:(right; exact Hp')) as (lp & pp & Hsp). destruct (ls_dif _ _ _ _ Hsp) as [Hokp _]. apply (fval_zero s0 (c_i p) (c_sh p) m' Hokp).
      intros a Ha. destruct (ls_dif _ _ _ _ Hsite0) as [Hokc _]. pose proof (proj1 (fval_zero s0 (c_i c) (c_sh c) m' Hokc) (R2 c ltac:(left))) as Z2. pose proof (proj1 (fval_zero s0 (c_i p) (c_sh p) m1 Hokp) (R1 p Hp')) as Z1.
      destruct (ok_dec_cells s0 (c_i c) a) as [Hy|Hn]; [apply Z2; exact Hy|]. rewrite (ran_cell _ _ _ a Hr2); [apply Z1; exact Ha|]. intros (p' & Hp2 & Hw). apply elem_of_list_singleton in Hp2 as ->. exact (Hn Hw).
Qed.
End TrnFit.
