(** * FwdDense: the dense layer on any input tensor *)
From Verif Require Import Base Num ModelTools ModelOps ModelTensor ModelGraph ModelLayer Spec Denote NetSpec FwdSpec
  IndexProofs ExecProofs TensorFacts AccessProofs BuildProofs CompileProofs Agree FwdMask FwdBuild FwdSeg FwdOps FwdPool NetExec NetBuild NetChain FwdBody FwdExpr.
From Coq Require Import Lia ZifyBool ZifyNat ZifyN.

Section FwdDense.
Context {T : Type} `{Num T}.

(** Address of the [j]-th scalar of a tensor. *)
Definition opaddr (mt : tmat) (j : nat) : nat := match operands mt !! j with Some (Some a) => a | _ => 0 end.
Lemma opaddr_in_ops n mt : wf_mat n mt -> in_ops mt (length (operands mt)) (opaddr mt).
Proof using Type.
  intros (_ & _ & _ & Hv). unfold in_ops. apply list_eq_same_length with (n := length (operands mt)); [rewrite map_length, seq_length; reflexivity|reflexivity|].
  intros i x y Hi Hx Hy. rewrite list_lookup_fmap, lookup_seq_lt in Hy by exact Hi. cbn in Hy. injection Hy as <-.
  rewrite Forall_lookup in Hv. destruct (Hv _ _ Hx) as (a & -> & Ha). unfold opaddr. rewrite Hx. reflexivity.
Qed.
Lemma opaddr_lt n mt j : wf_mat n mt -> j < length (operands mt) -> opaddr mt j < n /\ Some (opaddr mt j) ∈ operands mt.
Proof using Type.
  intros (_ & _ & _ & Hv) Hj. destruct (lookup_lt_is_Some_2 _ _ Hj) as [p Hp]. rewrite Forall_lookup in Hv. destruct (Hv _ _ Hp) as (a & -> & Ha).
  unfold opaddr. rewrite Hp. split; [exact Ha|]. eapply elem_of_list_lookup_2. exact Hp.
Qed.
Lemma dst_unit (l : dlay T) i a : dst_in a (ff_unit l i) -> unitP l i a.
Proof using Type.
  unfold ff_unit. intros (o & Ho & E). apply elem_of_app in Ho as [Ho|Ho].
  - apply elem_of_list_fmap in Ho as (j & -> & Hj). apply elem_of_seq in Hj. cbn in E. injection E as <-. left. exists j. split; [lia|reflexivity].
  - apply elem_of_cons in Ho as [->|Ho]; [cbn in E; injection E as <-; right; left; reflexivity|].
    apply elem_of_list_singleton in Ho as ->. cbn in E. injection E as <-. right. right. reflexivity.
Qed.
Lemma dst_ff (l : dlay T) a : dst_in a (ff l) -> ffP l a.
Proof using Type.
  intros (o & Ho & E). unfold ff in Ho. apply elem_of_list_In, in_flat_map in Ho as (i & Hi & Ho). apply in_seq in Hi.
  eapply unitP_ffP; [apply Hi|]. apply dst_unit. exists o. split; [apply elem_of_list_In; exact Ho|exact E].
Qed.

(** What the operations compute, against the mathematical layer. *)
Lemma dense_value (l : dlay T) (o n : N) mi bb bw vx (m : list T) :
  N.to_nat o = no l -> N.to_nat n = ni l -> fits [o] -> fits [o; n] -> ni l = length (operands mi) -> in_ops mi (ni l) (ain l) ->
  aout l + no l <= a0 l -> aend l <= length m -> (forall j, j < ni l -> ~ ffP l (ain l j)) ->
  mval m mi = Some vx ->
  exists m' b w, exec (ff l) m = Some m' /\ mval m (blkm [o] (ab l 0) bb) = Some b /\ mval m (blkm [o; n] (aw l 0 0) bw) = Some w /\
    (exists v, v_dense (df l) b w vx = Some v /\ forall bo, mval m' (blkm [o] (aout l) bo) = Some v) /\
    forall bo, mval m' (blkm [o] (a0 l) bo) = v_dense (fun x => x) b w vx.
Proof using Type.
  intros Ho Hn Hfo Hfon Hni Hin Hao Hend Hsep Hvx.
  assert (Hwb : wf_mat (length m) (blkm [o] (ab l 0) bb)).
  { eapply wf_mat_mono; [apply wf_blk; exact Hfo|]. rewrite prod_1, Ho. unfold ab, aend in *. lia. }
  assert (Hww : wf_mat (length m) (blkm [o; n] (aw l 0 0) bw)).
  { eapply wf_mat_mono; [apply wf_blk; exact Hfon|]. rewrite prod_2. replace (N.to_nat (o * n)) with (no l * ni l) by lia. unfold aw, aend in *. lia. }
  destruct (mval_total _ _ _ Hwb (Nat.le_refl _)) as [b Hb]. destruct (mval_total _ _ _ Hww (Nat.le_refl _)) as [w Hw].
  set (cell := fun a => default nzero (m !! a)).
  set (row := fun i => map (fun j => cell (aw l i j)) (seq 0 (ni l))).
  set (s := SL (map row (seq 0 (no l))) (map (fun i => cell (ab l i)) (seq 0 (no l))) (df l) (dd l) true).
  assert (Hcell : forall a, a < length m -> m !! a = Some (cell a)).
  { intros a Ha. unfold cell. destruct (lookup_lt_is_Some_2 _ _ Ha) as [x ->]. reflexivity. }
  assert (Hfit : fits_layer l s).
  { split; cbn; try reflexivity; rewrite ?map_length, ?seq_length; try reflexivity.
    apply Forall_forall. intros r Hr. apply elem_of_list_fmap in Hr as (i & -> & _). unfold row. rewrite map_length, seq_length. reflexivity. }
  assert (Hpar : has_params m l s).
  { split.
    - intros i r Hr. cbn in Hr. rewrite list_lookup_fmap in Hr. apply fmap_Some in Hr as (k & Hk & ->). apply lookup_seq in Hk as [-> Hi].
      intros j v Hv. unfold row in Hv. rewrite list_lookup_fmap in Hv. apply fmap_Some in Hv as (k & Hk & ->). apply lookup_seq in Hk as [-> Hj]. cbn.
      apply Hcell. pose proof (off_lt (ni l) (no l) i j Hi Hj). unfold aw, aend in *. lia.
    - intros i v Hv. cbn in Hv. rewrite list_lookup_fmap in Hv. apply fmap_Some in Hv as (k & Hk & ->). apply lookup_seq in Hk as [-> Hi]. cbn.
      apply Hcell. unfold ab, aend in *. lia. }
  destruct vx as [shx xs]. assert (Hxs : rds m (operands mi) = Some xs /\ shape mi = shx).
  { unfold mval in Hvx. destruct (rds m (operands mi)) as [d|]; [|discriminate]. injection Hvx as <- <-. auto. }
  destruct Hxs as [Hrd <-]. assert (Hlx : length xs = ni l) by (pose proof (mapM_length _ _ _ Hrd); lia).
  assert (Hhx : hold m (ain l) xs).
  { intros j v Hv. pose proof (lookup_lt_Some _ _ _ Hv) as Hj. unfold rds in Hrd. apply mapM_Some in Hrd. destruct (Forall2_lookup_r _ _ _ _ _ Hrd Hv) as (p & Hp & Hr).
    unfold in_ops in Hin. rewrite Hin, list_lookup_fmap, lookup_seq_lt in Hp by lia. injection Hp as <-. exact Hr. }
  destruct (ff_exec l s xs m Hfit Hlx Hhx Hpar Hsep Hao Hend) as (m' & Hx & Hs & Hnet & Hout).
  exists m', b, w. repeat (split; [assumption|]).
  assert (Hlo : length (outs s xs) = no l) by (apply outs_length; exact Hfit).
  assert (Hidx : indices [o] = map (fun i => [N.of_nat i]) (seq 0 (no l))).
  { cbn [indices]. unfold upto. rewrite Ho. rewrite flat_map_concat_map, map_map. cbn.
    clear. induction (seq 0 (no l)) as [|i r IH]; [reflexivity|]. cbn. rewrite IH. reflexivity. }
  destruct (mval_shape _ _ _ Hb) as [Hbs _]. destruct (mval_shape _ _ _ Hw) as [Hws _]. cbn in Hbs, Hws.
  assert (Hln : length (netas s xs) = no l) by (unfold outs in Hlo; rewrite map_length in Hlo; exact Hlo).
  assert (Hall : forall f, v_dense f b w (V (shape mi) xs) = Some (V [o] (map f (netas s xs)))).
  { intros f. unfold v_dense, tabulate. rewrite Hbs. cbn [mbind option_bind].
    replace (mapM _ (indices [o])) with (Some (map f (netas s xs))); [reflexivity|]. symmetry. apply mapM_Some. rewrite Hidx.
    apply Forall2_same_length_lookup. split; [rewrite !map_length, seq_length; congruence|].
    intros i idx v Hi Hv. rewrite list_lookup_fmap in Hi. apply fmap_Some in Hi as (k & Hk & ->). apply lookup_seq in Hk as [-> Hi]. cbn [Nat.add head].
    rewrite list_lookup_fmap in Hv. apply fmap_Some in Hv as (nt & Hnt & ->).
    assert (Hrow : sW s !! i = Some (row i)) by (cbn; rewrite list_lookup_fmap, lookup_seq_lt by exact Hi; reflexivity).
    assert (Hbi : sB s !! i = Some (cell (ab l i))) by (cbn; rewrite list_lookup_fmap, lookup_seq_lt by exact Hi; reflexivity).
    rewrite (lookup_netas s xs i _ _ Hrow Hbi) in Hnt. injection Hnt as <-. cbn [mbind option_bind vdata].
    replace (mapM _ (upto (N.of_nat (length xs)))) with (Some (zip_with nmul xs (row i))).
    + cbn [mbind option_bind]. rewrite <- Hbs. rewrite (mval_at _ _ _ _ _ Hwb Hb) by (repeat constructor; cbn; lia).
      rewrite (blk_celladdr _ _ _ _ (N.of_nat i)) by (assumption || (cbn; destruct (N.ltb_spec (N.of_nat i) o); [f_equal; lia|lia])).
      rewrite Nat2N.id. replace (ab l 0 + i) with (ab l i) by (unfold ab; lia). rewrite Hcell by (unfold ab, aend in *; lia). reflexivity.
    + symmetry. apply mapM_Some. unfold upto. apply Forall2_same_length_lookup. split.
      { rewrite map_length, seq_length, zip_with_length. unfold row. rewrite map_length, seq_length. lia. }
      intros j jn v Hj Hv. rewrite list_lookup_fmap in Hj. apply fmap_Some in Hj as (k & Hk & ->). apply lookup_seq in Hk as [-> Hj]. cbn [Nat.add].
      rewrite Nat2N.id in Hj |- *. rewrite lookup_zip_with in Hv. destruct (xs !! j) as [xj|] eqn:Exj; [|discriminate]. cbn [mbind option_bind] in Hv |- *.
      unfold row in Hv. rewrite list_lookup_fmap, lookup_seq_lt in Hv by lia. injection Hv as <-. cbn [Nat.add].
      rewrite (mval_at _ _ _ _ _ Hww Hw) by (repeat constructor; cbn; lia).
      rewrite (blk_celladdr _ _ _ _ (N.of_nat i * n + N.of_nat j)%N) by (assumption || (cbn; destruct (N.ltb_spec (N.of_nat i) o); [|lia]; destruct (N.ltb_spec (N.of_nat j) n); [|lia]; f_equal; lia)).
      replace (aw l 0 0 + N.to_nat (N.of_nat i * n + N.of_nat j)) with (aw l i j) by (unfold aw; lia).
      rewrite Hcell by (pose proof (off_lt (ni l) (no l) i j Hi ltac:(lia)); unfold aw, aend in *; lia). reflexivity. }
  split; [exists (V [o] (outs s xs)); split; [apply Hall|]|].
  - intros bo. unfold mval. cbn [operands blkm shape]. rewrite prod_1, Ho, map_Some_seq.
    change (fun j : nat => Some (aout l + j)) with (fun j : nat => Some (ao l j)). rewrite (rds_hold m' (ao l) (outs s xs) (no l)) by assumption. reflexivity.
  - intros bo. rewrite Hall, map_id. unfold mval. cbn [operands blkm shape]. rewrite prod_1, Ho, map_Some_seq.
    change (fun j : nat => Some (a0 l + j)) with (fun j : nat => Some (aneta l j)). rewrite (rds_hold m' (aneta l) (netas s xs) (no l)) by assumption. reflexivity.
Qed.

Context (rnd : nat -> nat -> T).
Lemma body_dense (s : lst T) id L inp n out o ob bo act sh' :
  lays s !! id = Some L -> lkind_of L = LDense -> lten L FInput = Some inp -> lten L FOutput = Some out -> lact L = Some act ->
  tens (ts s) !! inp = Some n -> settled n -> wf_mat (length (mem (ts s))) (nmat n) ->
  tens (ts s) !! out = Some (MkNode KMat (blkm [o] ob bo)) -> ob + N.to_nat o <= length (mem (ts s)) ->
  lay_shape (SDense o (act_f act)) (shape (nmat n)) = Some sh' ->
  exists s', ff_body rnd id s = (Ok tt, s') /\ body_ok rnd (fun a => ob <= a < ob + N.to_nat o) s s' id L (nmat n) (SDense o (act_f act)) sh' /\
    exists L', lays s' !! id = Some L' /\ lten L' FInput = lten L FInput.
Proof using Type.
  intros HL Hk Hi Ho Ha Hn Hset Hwf Hto Hob Hls.
  cbn [lay_shape] in Hls. destruct (fitsb [o] && fitsb [o; prodN (shape (nmat n))]) eqn:Fo; [|discriminate].
  injection Hls as <-. apply andb_true_iff in Fo as [Fo Fon]. apply fitsb_fits in Fo, Fon. set (sz := prodN (shape (nmat n))) in *.
  set (o' := N.to_nat o). set (A := length (mem (ts s))). set (K := length (tens (ts s))).
  set (l := dense_rec (length (operands (nmat n))) o' (opaddr (nmat n)) ob A act).
  assert (Hni : N.to_nat sz = ni l) by (cbn; unfold sz; destruct Hwf as (_ & _ & -> & _); reflexivity).
  assert (Hms : msize (nmat n) = sz) by (unfold msize, ulen; cbn in Hni; lia).
  assert (Ho1 : N.to_nat (prodN [o]) = o') by (rewrite prod_1; reflexivity).
  assert (Ho2 : N.to_nat (prodN [o; sz]) = o' * ni l) by (rewrite prod_2; unfold o'; lia).
  pose proof (opaddr_in_ops _ _ Hwf) as Hin.
  set (e1 := zeros o' ++ zeros o' ++ map (rnd (rc s)) (seq 0 o') ++ map (rnd (S (rc s))) (seq 0 (o' * ni l)) ++ zeros (o' * ni l)).
  set (x1 := [MkNode KMat (blkm [o] (a0 l) false); MkNode KMat (blkm [o] (adif l 0) false); MkNode KMat (blkm [o] (ab l 0) false); MkNode KMat (blkm [o; sz] (aw l 0 0) false)] : list (node T)).
  set (L' := set_ten FWeights (Some (K + 3)) (set_ten FBias (Some (K + 2)) (set_ten FDif (Some (K + 1)) (set_ten FNeta (Some K) L)))).
  assert (E : ff_body rnd id s = (Ok tt, MkL (MkSt (mem (ts s) ++ e1) (tens (ts s) ++ x1) (ctx (ts s) ++ ff l)) (<[id := L']> (lays s)) (S (S (rc s))))).
  { destruct s as [[mm tn c] ls r]. cbn [ts mem tens ctx lays rc] in *. destruct n as [ki mi]. cbn [nmat] in *.
    unfold ff_body. erewrite mbnd_ok by (apply getL_ok; exact HL). rewrite Hk, Hi.
    erewrite mbnd_ok by (apply liftT_ok; eapply get_mat_tens; exact Hn).
    rewrite Ho. erewrite mbnd_ok by reflexivity.
    erewrite mbnd_ok by (apply liftT_ok; eapply get_mat_tens; exact Hto).
    rewrite !msize_blk, prod_1, Hms. cbn [ts lays rc].
    erewrite mbnd_ok by (apply liftT_ok; apply NewZeros_blk; assumption). cbn [ts lays rc mem tens ctx].
    unfold setF. erewrite mbnd_ok by (apply updL_ok; exact HL). cbn [ts lays rc mem tens ctx].
    assert (HL1 : forall L1, (<[id := L1]> ls : list (layer T)) !! id = Some L1) by (intros; eapply list_lookup_insert, lookup_lt_Some; exact HL).
    erewrite mbnd_ok by (apply liftT_ok; apply NewZeros_blk; assumption). cbn [ts lays rc mem tens ctx].
    erewrite mbnd_ok by (apply updL_ok; apply HL1). cbn [ts lays rc mem tens ctx]. rewrite list_insert_insert.
    erewrite mbnd_ok by (apply newRandT_ok; assumption). cbn [ts lays rc mem tens ctx].
    erewrite mbnd_ok by (apply updL_ok; apply HL1). cbn [ts lays rc mem tens ctx]. rewrite list_insert_insert.
    erewrite mbnd_ok by (apply newRandT_ok; assumption). cbn [ts lays rc mem tens ctx].
    erewrite mbnd_ok by (apply updL_ok; apply HL1). cbn [ts lays rc mem tens ctx]. rewrite list_insert_insert.
    rewrite Ho1, Ho2. rewrite !app_length, !map_length, !seq_length, !zeros_length. cbn [length]. fold K A.
    rewrite Ha. unfold liftT. cbn [ts lays rc].
    rewrite (dense_ff_ok l o sz inp (K + 1 + 1) (K + 1 + 1 + 1) K out ki mi false false false bo act); cbn [mem tens ctx].
    - rewrite <- !app_assoc. cbn [app]. unfold e1, x1, L'.
      replace (K + 1 + 1 + 1) with (K + 3) by lia. replace (K + 1 + 1) with (K + 2) by lia.
      replace (A + o') with (adif l 0) by (unfold l, adif; cbn; lia).
      replace (adif l 0 + o') with (ab l 0) by (unfold l, adif, ab; cbn; lia).
      replace (ab l 0 + o') with (aw l 0 0) by (unfold l, aw, ab; cbn; lia).
      reflexivity.
    - reflexivity.
    - exact Hni.
    - assumption.
    - destruct Fo as [Fo1 _]. inversion Fo1. assumption.
    - exact Hin.
    - reflexivity.
    - rewrite !app_length, !map_length, !seq_length, !zeros_length. unfold ascr, l. cbn. fold A. lia.
    - rewrite <- !app_assoc. rewrite lookup_app_l by (eapply lookup_lt_Some; exact Hn). exact Hn.
    - rewrite <- !app_assoc. rewrite lookup_app_r by (unfold K; lia). change (length tn) with K. replace (K + 1 + 1 - K) with 2 by lia.
      cbn [lookup list_lookup]. replace (A + o' + o') with (ab l 0) by (unfold l, ab; cbn; lia). reflexivity.
    - rewrite <- !app_assoc. rewrite lookup_app_r by (unfold K; lia). change (length tn) with K. replace (K + 1 + 1 + 1 - K) with 3 by lia.
      cbn [lookup list_lookup]. replace (A + o' + o' + o') with (aw l 0 0) by (unfold l, aw; cbn; lia). reflexivity.
    - rewrite <- !app_assoc. rewrite lookup_app_r by (unfold K; lia). change (length tn) with K. rewrite Nat.sub_diag. reflexivity.
    - rewrite <- !app_assoc. rewrite lookup_app_l by (eapply lookup_lt_Some; exact Hto). exact Hto. }
  eexists. split; [exact E|]. split; [|exists L'; split; [apply list_lookup_insert; eapply lookup_lt_Some; exact HL|reflexivity]].
  set (t1 := MkSt (mem (ts s) ++ e1) (tens (ts s) ++ x1) (ctx (ts s))).
  set (t2 := MkSt (mem (ts s) ++ e1) (tens (ts s) ++ x1) (ctx (ts s) ++ ff l)).
  assert (Hlen : length (mem t1) = aend l).
  { cbn [mem t1]. unfold e1. rewrite !app_length, !map_length, !seq_length, !zeros_length. unfold aend, l. cbn. fold A. lia. }
  assert (Hle : aout l + no l <= a0 l) by (cbn; unfold o', A; exact Hob).
  assert (Htb : tens t2 !! (K + 2) = Some (MkNode KMat (blkm [o] (ab l 0) false))).
  { cbn [tens t2]. rewrite lookup_app_r by (unfold K; lia). fold K. replace (K + 2 - K) with 2 by lia. reflexivity. }
  assert (Htw : tens t2 !! (K + 3) = Some (MkNode KMat (blkm [o; sz] (aw l 0 0) false))).
  { cbn [tens t2]. rewrite lookup_app_r by (unfold K; lia). fold K. replace (K + 3 - K) with 3 by lia. reflexivity. }
  exists (ts s), L', (ff l), [], (ffP l), out, (MkNode KMat (blkm [o] ob bo)). split; [split|split].
  - apply touched_refl.
  - reflexivity.
  - repeat split.
  - left. reflexivity.
  - cbn [ts]. fold t2. pose proof (seg_add (ts s) e1 x1) as S1. fold t1 in S1.
    assert (HffP : forall a, ffP l a -> a < length (mem t1)).
    { rewrite Hlen. unfold ffP, aend in *. intros a Ha'. lia. }
    pose proof (seg_ops t1 (ff l) (ffP l) (dst_ff l) HffP) as S2.
    pose proof (seg_app _ _ _ _ _ _ _ _ _ S1 S2 ltac:(intros ? Hc; inversion Hc)) as S3. cbn [app] in S3.
    eapply seg_weaken; [exact S3|intros a [[]|Hx]; exact Hx|exact HffP|intros ? Hc; inversion Hc].
  - unfold ffP, aend. cbn. fold A. intros a Hx. fold o' in Hx |- *. lia.
  - exact Ho.
  - exists (K + 1). reflexivity.
  - cbn [ts tens]. apply lookup_app_l_Some. exact Hto.
  - apply settled_mat.
  - cbn [ts nmat]. eapply wf_mat_mono; [apply wf_blk; exact Fo|]. rewrite Ho1. change (mem t2) with (mem t1). cbn [ts]. fold t2. change (mem t2) with (mem t1). rewrite Hlen. fold o' in Hob. cbn in Hle. unfold aend. cbn. lia.
  - reflexivity.
  - intros Qb Qw [= <- <-]. cbn [ts]. fold t2. change (mem t2) with (mem t1). fold sz. split.
    + exists (K + 2), (MkNode KMat (blkm [o] (ab l 0) false)). split; [reflexivity|]. split; [exact Htb|]. split; [apply settled_mat|]. split.
      * eapply wf_mat_mono; [apply wf_blk; exact Fo|]. change (mem t2) with (mem t1). rewrite Hlen, Ho1. unfold ab, aend. cbn. lia.
      * split; [cbn [nmat]; intros a Hx; apply blk_ops in Hx; rewrite Ho1 in Hx; unfold ffP, ab, aend in *; cbn in *; fold A; fold o' in Hx |- *; lia|].
        eexists. split; [|exists (rc s); reflexivity]. cbn [nmat]. replace (ab l 0) with (length (mem (ts s) ++ zeros o' ++ zeros o' : list T)) by (rewrite !app_length, !zeros_length; unfold ab, l; cbn; fold A; lia).
        eapply mval_blk; [|rewrite map_length, seq_length; reflexivity]. rewrite Ho1. cbn [mem t1]. unfold e1. rewrite <- !app_assoc. reflexivity.
    + exists (K + 3), (MkNode KMat (blkm [o; sz] (aw l 0 0) false)). split; [reflexivity|]. split; [exact Htw|]. split; [apply settled_mat|]. split.
      * eapply wf_mat_mono; [apply wf_blk; exact Fon|]. change (mem t2) with (mem t1). rewrite Hlen, Ho2. unfold aw, aend. cbn. lia.
      * split; [cbn [nmat]; intros a Hx; apply blk_ops in Hx; rewrite Ho2 in Hx; unfold ffP, aw, aend in *; cbn in *; fold A; fold o' in Hx |- *; lia|].
        eexists. split; [|exists (S (rc s)); reflexivity]. cbn [nmat].
        replace (aw l 0 0) with (length (mem (ts s) ++ zeros o' ++ zeros o' ++ map (rnd (rc s)) (seq 0 o') : list T)) by (rewrite !app_length, map_length, seq_length, !zeros_length; unfold aw, l; cbn; fold A; lia).
        eapply mval_blk; [|rewrite map_length, seq_length; reflexivity]. rewrite Ho2. cbn [mem t1]. unfold e1. rewrite <- !app_assoc. reflexivity.
  - cbn [ts]. fold t2. intros m r Hm _ (Hdis & vx & Hvx & ->). cbn [nmat].
    assert (Hsep : forall j, j < ni l -> ~ ffP l (ain l j)).
    { intros j Hj. cbn in Hj |- *. destruct (opaddr_lt _ _ _ Hwf Hj) as [Hlt Hel]. fold A in Hlt. unfold ffP. cbn. fold o'.
      intros [Hx|[Hx|Hx]]; [unfold aend in *; lia..|]. apply (Hdis _ Hx). exact Hel. }
    change (mem t2) with (mem t1) in Hm. rewrite Hlen in Hm.
    destruct (dense_value l o sz (nmat n) false false vx m eq_refl Hni Fo Fon eq_refl Hin Hle Hm Hsep Hvx) as (m' & b & w & Hx & Hb & Hw & (v & Hv & Hv') & _).
    cbn [lay_val]. unfold lparams, tval. cbn [lten L' set_ten tfield_eqb mbind option_bind]. rewrite Htb, Htw. cbn [mbind option_bind nmat]. rewrite Hb, Hw. cbn [mbind option_bind].
    change (act_f act) with (df l). rewrite Hv. exists m'. split; [exact Hx|]. apply Hv'.
  - cbn [body_more par_init par_shape mbind option_bind ts]. fold t2. exists (K + 2), (MkNode KMat (blkm [o] (ab l 0) false)), (K + 3), (MkNode KMat (blkm [o; sz] (aw l 0 0) false)).
    change (mem t2) with (mem t1). rewrite Hlen. split; [reflexivity|]. split; [exact Htb|]. split; [apply settled_mat|].
    split; [eapply wf_mat_mono; [apply wf_blk; exact Fo|]; rewrite Ho1; unfold ab, aend; cbn; lia|]. split; [reflexivity|]. split; [exact Htw|]. split; [apply settled_mat|].
    split; [eapply wf_mat_mono; [apply wf_blk; exact Fon|]; rewrite Ho2; unfold aw, aend; cbn; lia|]. split; [|intros a _ Hc; inversion Hc]. cbn [nmat].
    apply NoDup_app. split; [apply blk_NoDup|]. split; [|apply blk_NoDup]. intros [a|] Hx Hy.
    + apply blk_ops in Hx, Hy. rewrite Ho1 in Hx. rewrite Ho2 in Hy. unfold ab, aw in *. cbn in *. lia.
    + unfold blkm in Hx. cbn [operands] in Hx. apply elem_of_list_fmap in Hx as (? & ? & _). discriminate.
  - assert (Htn : tens t2 !! K = Some (MkNode KMat (blkm [o] (a0 l) false))).
    { cbn [tens t2]. rewrite lookup_app_r by (unfold K; lia). fold K. rewrite Nat.sub_diag. reflexivity. }
    assert (Htd : tens t2 !! (K + 1) = Some (MkNode KMat (blkm [o] (adif l 0) false))).
    { cbn [tens t2]. rewrite lookup_app_r by (unfold K; lia). fold K. replace (K + 1 - K) with 1 by lia. reflexivity. }
    assert (Hlt2 : length (mem t2) = aend l) by exact Hlen.
    unfold body_rest. split; cbn [ts]; fold t2.
    + intros f (F1 & F2 & F3 & F4 & F5). unfold L'. destruct f; try reflexivity; contradiction.
    + intros i Hin'. cbn [nmat] in Hin'. apply blk_ops in Hin'. rewrite Ho1 in Hin'. right. left. exact Hin'.
    + unfold aux_neta. cbn [has_par ts]. fold t2. exists K, (MkNode KMat (blkm [o] (a0 l) false)). split; [reflexivity|]. split; [exact Htn|]. split; [apply settled_mat|].
      split; [cbn [nmat]; rewrite Hlt2; eapply wf_mat_mono; [apply wf_blk; exact Fo|]; rewrite Ho1; unfold aend; cbn; lia|]. split; [reflexivity|].
      split; [cbn [nmat]; intros i Hin'; apply blk_ops in Hin'; cbn in Hin'; fold A; lia|].
      intros m m' vx Hm _ Hdis Hvx Hex. rewrite Hlt2 in Hm.
      assert (Hsep : forall j, j < ni l -> ~ ffP l (ain l j)).
      { intros j Hj. cbn in Hj |- *. destruct (opaddr_lt _ _ _ Hwf Hj) as [Hlt Hel]. fold A in Hlt. unfold ffP. cbn. fold o'.
        intros [Hx|[Hx|Hx]]; [unfold aend in *; lia..|]. apply (Hdis _ Hx). exact Hel. }
      destruct (dense_value l o sz (nmat n) false false vx m eq_refl Hni Fo Fon eq_refl Hin Hle Hm Hsep Hvx) as (m'' & b & w & Hx & Hb & Hw & _ & Hv).
      assert (m'' = m') as -> by congruence. cbn [lin lay_val nmat]. unfold lparams, tval. cbn [lten L' set_ten tfield_eqb mbind option_bind]. rewrite Htb, Htw. cbn [mbind option_bind nmat]. rewrite Hb, Hw. cbn [mbind option_bind]. apply Hv.
    + reflexivity.
    + exists (K + 1), (adif l 0). split; [reflexivity|]. split; [exact Htd|]. split; [apply lookup_lt_Some in Hto; unfold K; lia|]. split; [unfold adif; cbn; fold A; lia|].
      cbn [ts]. fold t2. rewrite Hlt2, Ho1. split; [unfold adif, aend; cbn; lia|]. intros i Hi'. unfold adif in Hi'. cbn in Hi', Hle. split; [unfold ffP, aend; cbn; lia|]. split; [intros Hc; inversion Hc|].
      intros [Hx|[(_ & f & t & nf & Hf & Ht & Hnf & Hx)|((? & ? & Hx) & _)]]; [| |discriminate].
      * cbn [nmat] in Hx. apply blk_ops in Hx. rewrite Ho1 in Hx. lia.
      * destruct Hf as [->|[->| ->]]; cbn [L' lten set_ten tfield_eqb] in Ht; injection Ht as <-.
        -- rewrite Htb in Hnf. injection Hnf as <-. cbn [nmat] in Hx. apply blk_ops in Hx. unfold ab in Hx. cbn in Hx. lia.
        -- rewrite Htw in Hnf. injection Hnf as <-. cbn [nmat] in Hx. apply blk_ops in Hx. unfold aw in Hx. cbn in Hx. lia.
        -- rewrite Htn in Hnf. injection Hnf as <-. cbn [nmat] in Hx. apply blk_ops in Hx. rewrite Ho1 in Hx. cbn in Hx. lia.
    + split; [reflexivity|]. intros a w Haw. cbn [ts mem]. apply lookup_app_l_Some. exact Haw.
Qed.
End FwdDense.
