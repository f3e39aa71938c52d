(** * BuildProofs2: concatenation, dimension-wise reductions, soft-max *)
From Verif Require Import Base Num ModelTools ModelOps ModelTensor ModelGraph Spec Denote
  IndexProofs ExecProofs TensorFacts BuildProofs.
From Coq Require Import Lia ZifyBool ZifyNat ZifyN.

Ltac start Hr :=
  let Hi := fresh "Hnode" in
  destruct Hr as [Hi Hbuilt];
  match type of Hi with
  | tens ?s !! ?id = Some (MkNode ?k ?m0) =>
      assert (Hid : id < length (tens s)) by (eapply lookup_lt_Some; exact Hi);
      pose proof (state_with s id k m0 Hi) as Hst
  end.
Ltac enter Hst := match type of Hst with ?s = ?r => rewrite Hst at 1 end.

Section Build2.
Context {T : Type} `{Num T}.

(** ** Concat *)
Lemma concat_check_None sa d na nb :
  sa !! N.to_nat d = Some na -> concat_check sa (<[N.to_nat d := nb]> sa) d = None.
Proof.
  intros Ha. unfold concat_check.
  destruct (Equals_spec sa (<[N.to_nat d := nb]> sa))
    as [[-> Hl]|[[-> E]|(n & a & b & -> & Hl & Hsa & Hsb & Hne & Ht)]].
  - rewrite insert_length in Hl. congruence.
  - reflexivity.
  - destruct (decide (n = N.to_nat d)) as [->|Hn].
    + destruct (Z.of_nat (N.to_nat d) =? -2)%Z eqn:E1; [lia|].
      destruct (Z.of_nat (N.to_nat d) =? Z.of_N d)%Z eqn:E2; [|lia].
      rewrite andb_false_r. reflexivity.
    + rewrite list_lookup_insert_ne in Hsb by congruence. congruence.
Qed.

Lemma build_concat_spec s id k m0 a b ma mb dim na nb :
  ready s id k m0 -> child s id a ma -> child s id b mb ->
  shape ma !! N.to_nat dim = Some na -> shape mb = <[N.to_nat dim := nb]> (shape ma) ->
  fits (<[N.to_nat dim := (na + nb)%N]> (shape ma)) ->
  exists s', build_concat id a b dim s = (Ok tt, s') /\
    own_spec s s' id k (<[N.to_nat dim := (na + nb)%N]> (shape ma))
      (fun m => x ← mval m ma; y ← mval m mb; v_concat x y (N.to_nat dim)).
Proof.
  intros Hr Hca Hcb Hna Hsb Hfs. pose proof Hca as (_ & _ & Hwfa). pose proof Hcb as (_ & _ & Hwfb).
  pose proof Hwfa as (Hfit & _). 
  pose proof (lookup_lt_Some _ _ _ Hna) as Hdl.
  pose proof (concat_check_None _ _ _ nb Hna) as Hck. rewrite <- Hsb in Hck.
  set (d := N.to_nat dim) in *.
  set (sh := <[d := (na + nb)%N]> (shape ma)) in *.
  assert (Hnb : shape mb !! d = Some nb) by (rewrite Hsb; apply list_lookup_insert; assumption).
  assert (Hsum : (na + nb < W64)%N).
  { eapply fits_dim; [exact Hfs|]. apply list_lookup_insert. assumption. }
  assert (Hcoord : forall idx, idx ∈ indices sh -> exists c, idx !! d = Some c /\ (c < na + nb)%N /\
     on_coord d (fun c => (c - na)%N) idx = <[d := (c - na)%N]> idx /\
     ((c < na)%N -> Forall2 (fun i m => (i < m)%N) idx (shape ma)) /\
     ((na <= c)%N -> Forall2 (fun i m => (i < m)%N) (<[d := (c - na)%N]> idx) (shape mb))).
  { intros idx Hidx. apply elem_of_indices in Hidx.
    destruct (Forall2_lt_coord _ _ _ _ Hidx Hdl) as (c & Hcd & Hlt).
    exists c. split; [assumption|]. split; [lia|].
    split; [apply (alter_insert (fun c => (c - na)%N) _ _ _ Hcd)|]. split.
    - intros Hc. rewrite <- (list_insert_id idx d c) by assumption.
      eapply Forall2_lt_insert; [exact Hidx|exact Hna|lia].
    - intros Hc. apply (Forall2_lt_insert _ _ d (na + nb)%N nb); [|assumption|lia].
      rewrite Hsb, list_insert_insert. assumption. }
  set (F idx := match idx !! d with
    | Some c => if (c <? na)%N then at_ (shape ma) (operands ma) idx
                else at_ (shape mb) (operands mb) (on_coord d (fun c => (c - na)%N) idx)
    | None => None end).
  edestruct (views_spec s id k m0 sh F) as (s' & Hs' & Ho); cycle 6.
  { exists s'. split; [|exact Ho]. pose proof Hr as Hr'. start Hr'.
    rewrite Hst in Hs' |- * at 1. unfold build_concat.
    erewrite mbnd_ok by (eapply get_mat_child; eassumption).
    erewrite mbnd_ok by (eapply get_mat_child; eassumption).
    rewrite Hck. erewrite mbnd_ok by reflexivity. fold d.
    erewrite mbnd_ok by (apply atM_ok; exact Hna).
    erewrite mbnd_ok by (apply atM_ok; exact Hnb).
    rewrite uadd_small by lia. fold sh. exact Hs'. }
  all: try assumption.
  - rewrite GetDataSize_fits by assumption. reflexivity.
  - intros idx Hidx. destruct (Hcoord _ Hidx) as (c & Hcd & _ & Heq & HA & HB).
    unfold F. rewrite Hcd. destruct (c <? na)%N eqn:E.
    + eapply at_child; [eassumption|apply HA; lia].
    + rewrite Heq. eapply at_child; [eassumption|apply HB; lia].
  - intros i idx p s0 Hidx Hat. cbn beta.
    destruct (Hcoord idx) as (c & Hcd & Hlt & Heq & HA & HB); [eapply elem_of_list_lookup_2; eassumption|].
    unfold F in Hat. rewrite Hcd, Heq in Hat.
    erewrite mbnd_ok by (unfold mlift; rewrite (ReverseIndex_lookup _ _ _ Hfs Hidx); reflexivity).
    erewrite mbnd_ok by (apply atM_ok; exact Hcd).
    destruct (c <? na)%N eqn:E.
    + erewrite mbnd_ok by (unfold mlift; rewrite (GetOperand_at _ _ _ _ Hwfa Hat); reflexivity).
      reflexivity.
    + rewrite usub_small by lia.
      erewrite mbnd_ok by (apply updM_ok; eapply lookup_lt_Some; exact Hcd).
      erewrite mbnd_ok by (unfold mlift; rewrite (GetOperand_at _ _ _ _ Hwfb Hat); reflexivity).
      reflexivity.
  - intros m Hm. destruct (mval_Some _ m ma Hwfa Hm) as (da & Ea & _).
    destruct (mval_Some _ m mb Hwfb Hm) as (db & Eb & _).
    unfold mval. rewrite Ea, Eb. cbn [mbind option_bind]. unfold v_concat. cbn [vsh vdata].
    rewrite Hna, Hnb. fold sh. unfold tabulate. f_equal. apply mapM_ext_in. intros idx _.
    unfold F. destruct (idx !! d) as [c|]; [|reflexivity].
    destruct (c <? na)%N; apply at_rds; assumption.
Qed.

(** ** Dimension-wise reductions *)
Lemma flat_app a : forall b i j, length i = length a ->
  flat (a ++ b) (i ++ j) = (x ← flat a i; y ← flat b j; Some (x * prodN b + y)%N).
Proof.
  induction a as [|s a IH]; intros b [|x i] j Hl; try discriminate; cbn [app flat].
  - cbn. destruct (flat b j); reflexivity.
  - destruct (x <? s)%N; [|reflexivity]. rewrite IH by (cbn in Hl; lia).
    destruct (flat a i) as [fa|]; cbn; [|reflexivity].
    destruct (flat b j) as [fb|]; cbn; [|reflexivity].
    rewrite prodN_app. f_equal. lia.
Qed.

Lemma mapM_take_drop (d : list T) sh2 off (f : list N -> option T) :
  off + N.to_nat (prodN sh2) <= length d ->
  (forall k idx, indices sh2 !! k = Some idx -> f idx = d !! (off + k)) ->
  mapM f (indices sh2) = Some (take (N.to_nat (prodN sh2)) (drop off d)).
Proof.
  intros Hl Hf. apply mapM_Some. apply Forall2_same_length_lookup_2.
  - rewrite indices_length, take_length, drop_length. lia.
  - intros k idx x Hidx Hx. rewrite (Hf _ _ Hidx).
    rewrite lookup_take, lookup_drop in Hx; [exact Hx|].
    rewrite <- indices_length. eapply lookup_lt_Some. exact Hidx.
Qed.

Lemma strides_lookup sh : forall d, d < length sh -> strides sh !! d = Some (prodN (drop (S d) sh)).
Proof.
  induction sh as [|s sh IH]; intros d Hd; cbn [length] in Hd; [lia|].
  destruct d as [|d]; cbn [strides]; [reflexivity|]. cbn. apply IH. lia.
Qed.

Lemma fold1_dim (v : list T) sh d i idx :
  length v = N.to_nat (prodN sh) -> d < length sh ->
  indices (take (S d) sh) !! i = Some idx ->
  i * N.to_nat (prodN (drop (S d) sh)) + N.to_nat (prodN (drop (S d) sh)) <= length v /\
  mapM (fun rest => at_ sh v (idx ++ rest)) (indices (drop (S d) sh)) =
  Some (take (N.to_nat (prodN (drop (S d) sh))) (drop (i * N.to_nat (prodN (drop (S d) sh))) v)).
Proof.
  intros Hv Hd Hi.
  assert (Hp : prodN sh = (prodN (take (S d) sh) * prodN (drop (S d) sh))%N)
    by (rewrite <- prodN_app, take_drop; reflexivity).
  assert (Hlt : i < N.to_nat (prodN (take (S d) sh)))
    by (rewrite <- indices_length; eapply lookup_lt_Some; exact Hi).
  assert (Hb : i * N.to_nat (prodN (drop (S d) sh)) + N.to_nat (prodN (drop (S d) sh)) <= length v).
  { rewrite Hv, Hp, N2Nat.inj_mul. nia. }
  split; [assumption|].
  apply mapM_take_drop; [assumption|].
  intros k rest Hk. unfold at_. rewrite <- (take_drop (S d) sh) at 1.
  rewrite flat_app.
  - apply indices_lookup in Hi. apply indices_lookup in Hk. rewrite Hi, Hk. cbn.
    f_equal. lia.
  - apply indices_Forall2, Forall2_length in Hi. exact Hi.
Qed.

Lemma build_dimmath_spec s id k m0 t mt dim o :
  ready s id k m0 -> child s id t mt ->
  N.to_nat dim < length (shape mt) -> fits (take (S (N.to_nat dim)) (shape mt)) ->
  exists s', build_dimmath id t dim o s = (Ok tt, s') /\
    own_spec s s' id k (take (S (N.to_nat dim)) (shape mt))
      (fun m => v ← mval m mt; v_dim (rop o) (N.to_nat dim) v).
Proof.
  intros Hr Hc Hd Hfs. pose proof Hc as (_ & _ & Hwf).
  pose proof Hwf as (Hfit & Hmul & Hlen & Hval). start Hr.
  set (d := N.to_nat dim) in *. set (sh := take (S d) (shape mt)) in *.
  set (P := prodN (drop (S d) (shape mt))).
  set (n := N.to_nat (prodN sh)).
  assert (Hp : prodN (shape mt) = (prodN sh * P)%N)
    by (unfold sh, P; rewrite <- prodN_app, take_drop; reflexivity).
  pose proof (proj2 Hfit) as Hf2.
  assert (Hpn : length (operands mt) = n * N.to_nat P) by (rewrite Hlen, Hp; unfold n; lia).
  assert (Hmi : exists mi, mulindex mt !! d = Some mi /\ (0 < n -> mi = P)).
  { rewrite Hmul, GetIndexMul_mod, list_lookup_fmap, strides_lookup by assumption. cbn.
    fold P. eexists. split; [reflexivity|]. intros Hn. apply N.mod_small. nia. }
  destruct Hmi as (mi & Hmi & HmiP).
  set (args i := take (N.to_nat P) (drop (i * N.to_nat P) (operands mt))).
  set (g i o0 := red_of (T:=T) o o0 (args i)).
  eexists. split.
  - enter Hst. unfold build_dimmath. erewrite mbnd_ok by (eapply get_mat_child; eassumption).
    destruct (ulen (shape mt) <=? dim)%N eqn:E; [unfold ulen in E; lia|].
    replace (N.to_nat (dim + 1)) with (S d) by lia. fold sh.
    rewrite GetDataSize_fits by assumption. fold n.
    erewrite mbnd_ok by (apply set_shape_with; assumption).
    unfold make_operands. erewrite mbnd_ok by (apply set_operands_with; assumption).
    erewrite mbnd_ok by (apply atM_ok; exact Hmi).
    cbn [shape mulindex operands builded]. rewrite Hbuilt.
    apply (emit_each_ok _ g); [assumption|].
    intros i o0 s0 Hi0. rewrite HmiP by lia.
    assert (Hoff : (N.of_nat i * P + P <= N.of_nat (length (operands mt)))%N) by (rewrite Hpn; nia).
    assert (Hll : (N.of_nat (length (operands mt)) < W64)%N) by lia.
    rewrite umul_small by lia. rewrite uadd_small by lia.
    unfold slice, ulen.
    destruct ((N.of_nat i * P <=? N.of_nat i * P + P)%N &&
              (N.of_nat i * P + P <=? N.of_nat (length (operands mt)))%N) eqn:E2; [|lia].
    unfold oM, mbnd, mret, g, args. do 3 f_equal. 
    replace (N.to_nat (N.of_nat i * P + P - N.of_nat i * P)) with (N.to_nat P) by lia.
    replace (N.to_nat (N.of_nat i * P)) with (i * N.to_nat P) by lia. reflexivity.
  - eapply (emit_spec _ _ _ _ g (fun i m => l ← rds m (args i); reduce (rop o) l)).
    + reflexivity.
    + intros; apply red_of_dst.
    + intros; apply red_of_value.
    + intros i o0 l Hi0 Hl. unfold g in Hl. rewrite red_of_args in Hl.
      unfold args in Hl. apply elem_of_take in Hl as (j & Hl & _). rewrite lookup_drop in Hl.
      rewrite Forall_lookup in Hval. destruct (Hval _ _ Hl) as (l' & [= <-] & Hlt). assumption.
    + intros m Hm. unfold mval.
      destruct (mval_Some _ m mt Hwf Hm) as (dd & Ed & Hld).
      rewrite Ed. cbn [mbind option_bind]. unfold v_dim, v_dim_with. cbn [vsh vdata]. fold sh.
      apply tabulate_range. intros i idx Hi0.
      destruct (fold1_dim dd (shape mt) d i idx Hld Hd Hi0) as [_ ->].
      unfold args. rewrite (rds_take m _ _ _ (rds_drop m _ _ (i * N.to_nat P) Ed)).
      reflexivity.
Qed.

(** ** SoftMax *)
Lemma mfor_push {A} (f : A -> op T) l : forall mm tn c,
  mfor l (fun x => push (f x)) (MkSt mm tn c) = (Ok tt, MkSt mm tn (c ++ map f l)).
Proof.
  induction l as [|x l IH]; intros mm tn c; cbn [mfor map].
  - rewrite app_nil_r. reflexivity.
  - erewrite mbnd_ok by reflexivity. cbn [mem tens ctx]. rewrite IH, <- app_assoc. reflexivity.
Qed.

Definition soft_ops (b n : nat) (args : list ptr) : list (op T) :=
  [OMin (Some b) args] ++
  map (fun i => OSub (Some (S b + i)) (nth i args None) (Some b)) (range n) ++
  [OSum (Some (S b + n)) (map Some (seq (S b) n))] ++
  map (fun o => ODiv o o (Some (S b + n))) (map Some (seq (S b) n)).

Lemma soft_ops_dst b n args l : dst_in l (soft_ops b n args) -> b <= l < b + n + 2.
Proof.
  unfold soft_ops. rewrite !dst_in_app.
  intros [Hd|[Hd|[Hd|Hd]]].
  - apply dst_in_cons in Hd as [[= <-]|Hd]; [lia|]. destruct (dst_in_nil _ Hd).
  - apply (dst_in_emit (fun i o => OSub o (nth i args None) (Some b)) (S b) n l) in Hd; [lia|reflexivity].
  - apply dst_in_cons in Hd as [[= <-]|Hd]; [lia|]. destruct (dst_in_nil _ Hd).
  - destruct Hd as (o & Ho & Hd). apply elem_of_list_fmap in Ho as (p & -> & Hp).
    apply elem_of_list_fmap in Hp as (q & -> & Hq). apply elem_of_seq in Hq.
    cbn in Hd. injection Hd as ->. lia.
Qed.

Lemma fold1_Some (f : T -> T -> T) l : l <> [] -> exists x, fold1 f l = Some x.
Proof. destruct l; [congruence|cbn; eauto]. Qed.

Lemma exec_soft b n args d (m : list T) :
  rds m args = Some d -> n = length args -> Forall (valid b) args -> b + n + 2 <= length m ->
  match v_soft (V [] d) with
  | Some v => exists m', exec (soft_ops b n args) m = Some m' /\
      rds m' (map Some (seq (S b) n)) = Some (vdata v)
  | None => exec (soft_ops b n args) m = None
  end.
Proof.
  intros Ed Hn Hv Hm. pose proof (rds_length _ _ _ Ed) as Hld.
  unfold v_soft, v_soft_with. cbn [vdata vsh]. unfold soft_ops.
  rewrite exec_app. cbn [exec cal op_dst op_value]. rewrite Ed. cbn [mbind option_bind].
  change (red_args min2 d) with (reduce RedMin d).
  destruct (reduce RedMin d) as [mn|] eqn:Emn; cbn [mbind option_bind]; [|reflexivity].
  assert (Hne : d <> []) by (intros ->; discriminate).
  rewrite wr_Some by lia. cbn [mbind option_bind].
  set (m1 := <[b := mn]> m).
  assert (Hm1 : length m1 = length m) by apply insert_length.
  assert (Ed1 : rds m1 args = Some d).
  { rewrite <- Ed. apply rds_ext. intros l Hl. rewrite Forall_forall in Hv.
    destruct (Hv _ Hl) as (l' & [= <-] & Hlt). apply list_lookup_insert_ne. lia. }
  assert (Eb : m1 !! b = Some mn) by (apply list_lookup_insert; lia).
  rewrite exec_app.
  change (map (fun i => OSub (Some (S b + i)) (nth i args None) (Some b)) (range n))
    with (map (fun i => (fun i o => OSub (T:=T) o (nth i args None) (Some b)) i (Some (S b + i))) (range n)).
  rewrite (exec_emit _ (fun i m => x ← rd m (nth i args None); y ← rd m (Some b); Some (nsub x y)) (S b) n m1);
    [| reflexivity | reflexivity | | lia].
  2:{ intros i o l Hi Hl. cbn in Hl. left.
      rewrite Hn in Hi. apply lookup_lt_is_Some_2 in Hi as [p Hp].
      rewrite (nth_lookup_Some _ _ _ _ Hp) in Hl. rewrite Forall_lookup in Hv.
      destruct (Hv _ _ Hp) as (l' & -> & Hlt).
      apply elem_of_cons in Hl as [[= <-]|Hl]; [lia|]. apply elem_of_list_singleton in Hl. injection Hl as <-. lia. }
  set (vs := map (fun x => nsub x mn) d).
  assert (Evs : mapM (fun i => x ← rd m1 (nth i args None); y ← rd m1 (Some b); Some (nsub x y)) (range n) = Some vs).
  { rewrite Hn, <- (data_mapM m1 args d (fun x => y ← rd m1 (Some b); Some (nsub x y)) Ed1).
    cbn [rd]. rewrite Eb. cbn. apply mapM_pure. }
  rewrite Evs. cbn [mbind option_bind].
  assert (Hlvs : length vs = n) by (unfold vs; rewrite map_length; lia).
  set (m2 := list_inserts (S b) vs m1).
  assert (Hm2 : length m2 = length m) by (unfold m2; rewrite inserts_length; lia).
  assert (Ed2 : rds m2 (map Some (seq (S b) n)) = Some vs).
  { unfold m2. rewrite <- Hlvs. apply rds_inserted. lia. }
  cbn [exec cal op_dst op_value app]. rewrite Ed2. cbn [mbind option_bind].
  change (red_args nadd vs) with (reduce RedSum vs). fold vs.
  destruct (fold1_Some nadd vs) as [sm Esm].
  { unfold vs. destruct d; [congruence|discriminate]. }
  cbn [reduce]. rewrite Esm. cbn [mbind option_bind].
  rewrite wr_Some by lia. cbn [mbind option_bind].
  set (m3 := <[S b + n := sm]> m2).
  assert (Hm3 : length m3 = length m) by (unfold m3; rewrite insert_length; assumption).
  rewrite (exec_block _ (S b)).
  - assert (Emap : mapM (fun o => op_value o m3) (map (fun o => ODiv o o (Some (S b + n))) (map Some (seq (S b) n)))
      = mapM (fun x => ndiv x sm) vs).
    { assert (Ed3 : rds m3 (map Some (seq (S b) n)) = Some vs).
      { rewrite <- Ed2. apply rds_ext. intros l Hl. apply elem_of_list_fmap in Hl as (q & [= <-] & Hq).
        apply elem_of_seq in Hq. unfold m3. apply list_lookup_insert_ne. lia. }
      assert (Es : rd m3 (Some (S b + n)) = Some sm).
      { cbn. unfold m3. apply list_lookup_insert. lia. }
      rewrite (mapM_bind _ (fun x => ndiv x sm) _ _ Ed3).
      generalize (map Some (seq (S b) n)). intros l. induction l as [|p l IH]; [reflexivity|].
      cbn [map mapM]. rewrite IH. cbn [op_value]. rewrite Es.
      destruct (rd m3 p) as [x|]; cbn; [|reflexivity].
      destruct (ndiv x sm); reflexivity. }
    rewrite Emap. destruct (mapM (fun x => ndiv x sm) vs) as [q|] eqn:Eq; cbn [mbind option_bind vdata]; [|reflexivity].
    eexists. split; [reflexivity|].
    apply mapM_length in Eq. replace n with (length q) by congruence. apply rds_inserted. lia.
  - intros i o Ho. apply list_lookup_fmap_inv in Ho as (p & -> & Hp).
    apply list_lookup_fmap_inv in Hp as (q & -> & Hq). apply lookup_seq in Hq as [-> _]. reflexivity.
  - intros i o l Ho Hl. rewrite !map_length, seq_length.
    apply list_lookup_fmap_inv in Ho as (p & -> & Hp).
    apply list_lookup_fmap_inv in Hp as (q & -> & Hq). apply lookup_seq in Hq as [-> Hi].
    cbn in Hl. apply elem_of_cons in Hl as [[= ->]|Hl]; [lia|].
    apply elem_of_list_singleton in Hl. injection Hl as ->. lia.
  - rewrite !map_length, seq_length. lia.
Qed.

Lemma build_softmax_spec s id k m0 t mt :
  ready s id k m0 -> child s id t mt ->
  exists s', build_softmax id t s = (Ok tt, s') /\
    own_spec s s' id k (shape mt) (fun m => v ← mval m mt; v_soft v).
Proof.
  intros Hr Hc. pose proof Hc as (_ & _ & Hwf).
  pose proof Hwf as (Hfit & Hmul & Hlen & Hval). start Hr.
  set (n := length (operands mt)). set (b := length (mem s)).
  set (s1 := st_with (mem s ++ [nzero] ++ replicate n nzero ++ [nzero]) (tens s)
    (ctx s ++ soft_ops b n (operands mt)) id k
    (MkMat (shape mt) (GetIndexMul (shape mt)) (map Some (seq (S b) n)) true)).
  exists s1. split.
  - enter Hst. unfold build_softmax. erewrite mbnd_ok by (eapply get_mat_child; eassumption).
    erewrite mbnd_ok by (apply set_shape_with; assumption).
    erewrite mbnd_ok by reflexivity. cbn [mem tens ctx st_with].
    erewrite mbnd_ok by reflexivity. cbn [mem tens ctx st_with].
    match goal with |- context [MkSt ?mm (<[id := MkNode k ?m]> _) ?c] =>
      change (MkSt mm (<[id := MkNode k m]> (tens s)) c) with (st_with mm (tens s) c id k m) end.
    unfold make_operands. erewrite mbnd_ok by (apply set_operands_with; assumption).
    cbn [shape mulindex operands builded]. rewrite Hbuilt, Hmul. fold n.
    erewrite mbnd_ok.
    2:{ apply (emit_each_ok _ (fun i o => OSub o (nth i (operands mt) None) (Some b))); [assumption|].
        intros i o s0 Hi0. destruct (child_lookup _ _ _ _ _ Hc Hi0) as (l & Hl & _).
        rewrite (mbnd_ok _ _ _ _ _ (atM_ok _ _ _ _ Hl)). unfold mret.
        rewrite (nth_lookup_Some _ _ _ _ Hl). reflexivity. }
    rewrite app_length. cbn [length]. fold b. replace (b + 1) with (S b) by lia.
    erewrite mbnd_ok by reflexivity. cbn [mem tens ctx st_with].
    match goal with |- context [MkSt ?mm (<[id := MkNode k ?m]> _) ?c] =>
      change (MkSt mm (<[id := MkNode k m]> (tens s)) c) with (st_with mm (tens s) c id k m) end.
    erewrite mbnd_ok by (apply get_mat_with; assumption). cbn [operands].
    erewrite mbnd_ok by reflexivity. cbn [mem tens ctx st_with].
    rewrite mfor_push. f_equal. unfold s1, st_with. f_equal.
    + rewrite <- !app_assoc. reflexivity.
    + unfold soft_ops. rewrite <- !app_assoc. f_equal. rewrite !app_length. cbn [length].
      rewrite replicate_length. fold b.
      replace (b + (1 + n)) with (S b + n) by lia. replace (b + 1 + n) with (S b + n) by lia. reflexivity.
  - exists ([nzero] ++ replicate n nzero ++ [nzero]), (soft_ops b n (operands mt)),
      (map Some (seq (S b) n)), [].
    unfold s1, st_with. cbn [mem ctx tens].
    assert (Hll : length (mem s ++ [nzero] ++ replicate n nzero ++ [nzero]) = b + n + 2).
    { rewrite !app_length, replicate_length. cbn. fold b. lia. }
    rewrite Hll.
    split; [reflexivity|]. split; [reflexivity|]. split; [reflexivity|].
    split; [rewrite map_length, seq_length; assumption|].
    split.
    { apply Forall_forall. intros p Hp. apply elem_of_list_fmap in Hp as (l & -> & Hl).
      apply elem_of_seq in Hl. exists l. split; [reflexivity|lia]. }
    split; [intros l Hl; apply soft_ops_dst in Hl; fold b; lia|].
    split; [constructor|].
    intros m Hm _. destruct (mval_Some _ m mt Hwf) as (d & Ed & Hld); [fold b; lia|].
    unfold mval. rewrite Ed. cbn [mbind option_bind].
    pose proof (exec_soft b n (operands mt) d m Ed eq_refl Hval) as Hx.
    specialize (Hx ltac:(lia)). unfold v_soft, v_soft_with in *. cbn [vdata vsh] in *.
    destruct (reduce RedMin d) as [mn|]; cbn [mbind option_bind] in *; [|assumption].
    destruct (reduce RedSum _) as [sm|]; cbn [mbind option_bind] in *; [|assumption].
    destruct (mapM _ _) as [q|]; cbn [mbind option_bind] in *; [|assumption].
    destruct Hx as (m' & Hx & Hq). exists m'. cbn. auto.
Qed.
End Build2.
