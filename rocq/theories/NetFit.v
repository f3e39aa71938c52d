(** * NetFit: what training adds to the operations: the error of the last layer,
    clearing the errors, and copying the new parameters back *)
From Verif Require Import Base Num ModelTools ModelOps ModelTensor ModelGraph ModelLayer ModelModel
  Spec Denote IndexProofs ExecProofs TensorFacts AccessProofs BuildProofs CompileProofs
  NetSpec NetExec NetBack NetBuild NetChain NetChain2 NetChain3.
From Coq Require Import Lia ZifyBool ZifyNat ZifyN.

Section NetFit.
Context {T : Type} `{Num T}.

(** ** Flags *)
Lemma SetBuild_blk (s : tst T) t sh a b : blk s t sh a ->
  exists s', SetBuild t b s = (Ok tt, s') /\ mem s' = mem s /\ ctx s' = ctx s /\ tle s s' /\
    tens s' !! t = Some (MkNode KMat (blkm sh a b)).
Proof.
  intros [b0 E]. pose proof (lookup_lt_Some _ _ _ E) as Hlt.
  exists (st_with (mem s) (tens s) (ctx s) t KMat (blkm sh a b)). split; [|split; [reflexivity|split; [reflexivity|split]]].
  - unfold SetBuild. rewrite (state_with s t KMat _ E) at 1. rewrite upd_mat_with by exact Hlt. reflexivity.
  - intros j k m Ej. cbn. destruct (decide (j = t)) as [->|Hn].
    + rewrite list_lookup_insert by exact Hlt. rewrite E in Ej. injection Ej as <- <-. exists b. reflexivity.
    + rewrite list_lookup_insert_ne by congruence. rewrite Ej. exists (builded m). destruct m; reflexivity.
  - cbn. apply list_lookup_insert. exact Hlt.
Qed.
Lemma BuildEmbedded_blk (s : tst T) t sh a :
  tens s !! t = Some (MkNode KMat (blkm sh a false)) ->
  exists s' ps, BuildEmbedded t s = (Ok tt, s') /\ mem s' = mem s /\ ctx s' = ctx s ++ map OScalar ps /\ tle s s'.
Proof.
  intros E. pose proof (lookup_lt_Some _ _ _ E) as Hlt.
  set (s1 := st_with (mem s) (tens s) (ctx s) t KMat (blkm sh a true)).
  exists (MkSt (mem s1) (tens s1) (ctx s1 ++ map OScalar (operands (blkm sh a true)))), (operands (blkm sh a true)).
  split; [|split; [reflexivity|split; [reflexivity|]]].
  - unfold BuildEmbedded. erewrite mbnd_ok by (eapply get_mat_tens; exact E). cbn [builded blkm].
    erewrite mbnd_ok by (apply set_built_state; exact E). cbn [shape mulindex operands blkm].
    change (MkMat sh (GetIndexMul sh) (map Some (seq a (N.to_nat (prodN sh)))) true) with (blkm sh a true). fold s1.
    rewrite push_scalars. reflexivity.
  - intros j k m Ej. cbn. destruct (decide (j = t)) as [->|Hn].
    + rewrite list_lookup_insert by exact Hlt. rewrite E in Ej. injection Ej as <- <-. exists true. reflexivity.
    + rewrite list_lookup_insert_ne by congruence. rewrite Ej. exists (builded m). destruct m; reflexivity.
Qed.

(** ** The error of the last layer (model.go:191-211) *)
Definition cal_ops (da ta oa n : nat) : list (op T) :=
  map (fun i => OSub (Some (da + i)) (Some (ta + i)) (Some (oa + i))) (seq 0 n).
Definition loss_ops (da la n : nat) : list (op T) :=
  map (fun i => OAbs (Some (la + i)) (Some (da + i))) (seq 0 n) ++
  [OSum (Some (la + n)) (map (fun i => Some (la + i)) (seq 0 n))].
Lemma caldif_ok (s : tst T) td tout tgt sh da oa ta : blk s td sh da -> blk s tout sh oa -> blk s tgt sh ta ->
  exists s' ops, caldif td tout tgt s = (Ok (Some (length (mem s) + N.to_nat (prodN sh))), s') /\
    mem s' = mem s ++ zeros (N.to_nat (prodN sh)) ++ [nzero] /\ tle s s' /\
    ctx s' = ctx s ++ ops /\
    strip ops = cal_ops da ta oa (N.to_nat (prodN sh)) ++ loss_ops da (length (mem s)) (N.to_nat (prodN sh)).
Proof.
  intros [bd Bd] [bo Bo] [bt Bt]. set (n := N.to_nat (prodN sh)).
  set (s1 := MkSt (mem s) (tens s) (ctx s ++ cal_ops da ta oa n)).
  destruct (abs_sum_built s1 td sh da) as (s' & E & M & Ht & ops & C & O).
  { exists bd. exact Bd. }
  exists s', (cal_ops da ta oa n ++ ops). split; [|split; [exact M|split; [exact Ht|split]]].
  - unfold caldif. erewrite mbnd_ok by (eapply get_mat_tens; exact Bo).
    erewrite mbnd_ok by (eapply get_mat_tens; exact Bt). erewrite mbnd_ok by (eapply get_mat_tens; exact Bd).
    erewrite mbnd_ok; [exact E|].
    rewrite (in_ops_blk sh ta bt), map_length, seq_length. fold n. unfold range.
    rewrite (st_eta s) at 1.
    rewrite (mfor_emit 0 _ (fun i _ => [OSub (Some (da + i)) (Some (ta + i)) (Some (oa + i))])).
    + unfold s1. rewrite Nat.mul_0_r. cbn [zeros replicate]. unfold zeros; cbn [replicate]. rewrite app_nil_r. f_equal.
    + intros i mm c Hi. 
      erewrite mbnd_ok by (apply (in_ops_at _ n _ i _ (in_ops_blk sh da bd)); lia).
      erewrite mbnd_ok by (rewrite map_Some_seq || idtac; first [apply (in_ops_at (blkm sh ta bt) n _ i _ (in_ops_blk sh ta bt)); lia | rewrite <- map_Some_seq; apply (in_ops_at (blkm sh ta bt) n _ i _ (in_ops_blk sh ta bt)); lia]).
      erewrite mbnd_ok by (apply (in_ops_at _ n _ i _ (in_ops_blk sh oa bo)); lia).
      unfold push, zeros. cbn. rewrite app_nil_r. reflexivity.
  - rewrite C. cbn [s1 ctx]. rewrite <- app_assoc. reflexivity.
  - rewrite strip_app, O. unfold cal_ops at 1. rewrite strip_map by reflexivity. reflexivity.
Qed.

(** ** Clearing the errors (base.go:213-221) *)
Definition clear_ops (a n z : nat) : list (op T) := map (fun i => OSet (Some (a + i)) (Some z)) (seq 0 n).
Definition src_cnt (sr : src) : nat := match r_id sr with Some _ => 1 | None => 0 end.
Fixpoint clears (B : nat) (sr : src) (da : nat) (rnet : list (dlay T)) : list (op T) :=
  match rnet with
  | [] => match r_id sr with Some _ => clear_ops da (N.to_nat (prodN (r_sh sr))) B | None => [] end
  | l :: rnet' => clears B sr da rnet' ++ clear_ops (adif l 0) (no l) (B + src_cnt sr + length rnet')
  end.

Lemma clear_one (s : lst T) t sh a : blk (ts s) t sh a ->
  exists s' ops, (z <~ liftT (alloc nzero) ; d <~ the (Some t) ; liftT (Fill d z)) s = (Ok tt, s') /\
    mem (ts s') = mem (ts s) ++ [nzero] /\ tle (ts s) (ts s') /\ lays s' = lays s /\ rc s' = rc s /\
    ctx (ts s') = ctx (ts s) ++ ops /\ strip ops = clear_ops a (N.to_nat (prodN sh)) (length (mem (ts s))).
Proof.
  intros Hb. set (s1 := MkSt (mem (ts s) ++ [nzero]) (tens (ts s)) (ctx (ts s))).
  destruct (Fill_built s1 t sh a (length (mem (ts s)))) as (s2 & ops & E & M & Ht & C & O).
  { destruct Hb as [b Hb]. exists b. exact Hb. }
  exists (MkL s2 (lays s) (rc s)), ops. split; [|split; [exact M|split; [exact Ht|split; [reflexivity|split; [reflexivity|split; [exact C|exact O]]]]]].
  unfold mbnd at 1. change (liftT (alloc nzero) s) with ((Ok (Some (length (mem (ts s)))), MkL s1 (lays s) (rc s)) : res ptr * lst T).
  cbv beta iota. unfold mbnd, the, mret. cbv beta iota. apply (liftT_ok (Fill t (Some (length (mem (ts s))))) (MkL s1 (lays s) (rc s))). exact E.
Qed.

Lemma LResetFit_stk sr da : forall rst rnet (s : lst T) fuel id,
  pre_of sr rst = Some id -> length rst < fuel -> stk3 s sr da rst rnet ->
  exists s' ops, LResetFit fuel id s = (Ok tt, s') /\
    mem (ts s') = mem (ts s) ++ zeros (src_cnt sr + length rnet) /\ tle (ts s) (ts s') /\
    lays s' = lays s /\ rc s' = rc s /\ ctx (ts s') = ctx (ts s) ++ ops /\
    strip ops = clears (length (mem (ts s))) sr da rnet.
Proof.
  induction rst as [|sp rst IH]; intros rnet s fuel id Hid Hfuel Hs;
    (destruct fuel as [|fuel]; [cbn in Hfuel; lia|]); destruct rnet as [|l rnet]; cbn [stk3] in Hs; try contradiction.
  - cbn [pre_of] in Hid. unfold sl3 in Hs. rewrite Hid in Hs. destruct Hs as [L HL].
    destruct (i3_dif _ _ _ _ _ HL) as (t & Et & Bt).
    destruct (clear_one s t _ _ Bt) as (s' & ops & E & M & Ht & Y & R & C & O).
    exists s', ops. split; [|split; [|split; [exact Ht|split; [exact Y|split; [exact R|split; [exact C|]]]]]].
    + cbn [LResetFit]. erewrite mbnd_ok by (apply getL_ok; apply HL). rewrite (i3_pre _ _ _ _ _ HL).
      erewrite mbnd_ok by reflexivity. rewrite Et. exact E.
    + rewrite M. unfold src_cnt. rewrite Hid. reflexivity.
    + cbn [clears]. rewrite Hid. exact O.
  - cbn [pre_of] in Hid. injection Hid as <-. destruct Hs as [[L HL] Hs].
    assert (Hrest : exists s1 ops, (match pre_of sr rst with Some q => LResetFit fuel q | None => mret tt end) s = (Ok tt, s1) /\
      mem (ts s1) = mem (ts s) ++ zeros (src_cnt sr + length rnet) /\ tle (ts s) (ts s1) /\
      lays s1 = lays s /\ rc s1 = rc s /\ ctx (ts s1) = ctx (ts s) ++ ops /\
      strip ops = clears (length (mem (ts s))) sr da rnet).
    { destruct (pre_of sr rst) as [q|] eqn:Hq.
      - apply (IH rnet s fuel q); [reflexivity|cbn in Hfuel; lia|exact Hs].
      - destruct rst as [|sp' rst]; [|discriminate]. destruct rnet as [|l1 rnet]; [|contradiction]. cbn in Hq.
        exists s, []. unfold src_cnt. cbn [clears]. rewrite Hq. rewrite !app_nil_r.
        repeat split; try apply tle_refl. }
    destruct Hrest as (s1 & ops1 & E1 & M1 & T1 & Y1 & R1 & C1 & O1).
    destruct (d3_dif _ _ _ _ _ HL) as (t & Et & Bt).
    destruct (clear_one s1 t [s_o sp] (adif l 0)) as (s' & ops & E & M & Ht & Y & R & C & O).
    { eapply tle_blk; eassumption. }
    exists s', (ops1 ++ ops). split; [|split; [|split; [|split; [|split; [|split]]]]].
    + cbn [LResetFit]. erewrite mbnd_ok by (apply getL_ok; apply HL). rewrite (d3_pre _ _ _ _ _ HL).
      erewrite mbnd_ok by exact E1. rewrite Et. exact E.
    + rewrite M, M1, <- app_assoc. f_equal. cbn [length]. rewrite Nat.add_succ_r, <- Nat.add_1_r, (zeros_add _ 1). reflexivity.
    + eapply tle_trans; eassumption.
    + congruence.
    + congruence.
    + rewrite C, C1, app_assoc. reflexivity.
    + rewrite strip_app, O1, O, prod_1. cbn [clears]. rewrite M1, app_length, zeros_length, <- (d3_no _ _ _ _ _ HL). 
      rewrite Nat.add_assoc. reflexivity.
Qed.

(** Executing them. *)
Lemma clear_exec a n z : forall m : list T, m !! z = Some nzero -> ~ (a <= z < a + n) -> a + n <= length m ->
  exists m', exec (clear_ops a n z) m = Some m' /\ same_off (fun x => a <= x < a + n) m m' /\
    hold m' (fun j => a + j) (zeros n).
Proof.
  intros m Hz Hn Hl.
  destruct (exec_writes n (fun j => a + j) (fun j => OSet (Some (a + j)) (Some z)) (zeros n) m) as (m' & E & S & Hh).
  - apply zeros_length.
  - reflexivity.
  - intros; lia.
  - intros; lia.
  - intros j m' Hj [_ S]. cbn. rewrite S; [|intros (k & Hk & Hx); lia]. rewrite Hz. unfold zeros.
    symmetry. apply lookup_replicate_2. exact Hj.
  - exists m'. split; [exact E|]. split; [|exact Hh].
    eapply same_off_weaken; [exact S|]. intros x (k & Hk & ->). lia.
Qed.

(** ** Copying a tensor into a block *)
Lemma Load_blk (s : tst T) p t sh a k mt vs :
  blk s p sh a -> tens s !! t = Some (MkNode k mt) -> shape mt = sh ->
  rds (mem s) (operands mt) = Some vs -> length vs = N.to_nat (prodN sh) ->
  (forall x, Some x ∈ operands mt -> ~ (a <= x < a + N.to_nat (prodN sh))) ->
  a + N.to_nat (prodN sh) <= length (mem s) ->
  exists m', LoadFromTensor p t s = (Ok tt, MkSt m' (tens s) (ctx s)) /\
    same_off (fun x => a <= x < a + N.to_nat (prodN sh)) (mem s) m' /\ hold m' (fun j => a + j) vs.
Proof.
  intros [b Bp] Et Esh Hr Hlen Hd Hend. set (n := N.to_nat (prodN sh)) in *.
  unfold LoadFromTensor. erewrite mbnd_ok by (eapply get_mat_tens; exact Bp).
  erewrite mbnd_ok by (unfold get_mat; erewrite mbnd_ok by (unfold get_node; rewrite Et; reflexivity); reflexivity).
  rewrite (proj2 (GetEqShapeErr_None _ _)) by (cbn; congruence). erewrite mbnd_ok by reflexivity.
  assert (Hlo : length (operands mt) = n) by (rewrite <- (rds_length _ _ _ Hr); exact Hlen).
  cbn [nmat]. 
  enough (G : forall os vs' i m, operands mt = take i (operands mt) ++ os -> i + length os = n -> length vs' = length os ->
     same_off (fun x => a <= x < a + n) (mem s) m -> rds (mem s) os = Some vs' -> hold m (fun j => a + j) (take i vs) ->
     vs = take i vs ++ vs' ->
     exists m', mfor (zip (seq i (length os)) os) (fun io => let '(i0, o) := io in
        d <~ atM (operands (blkm sh a b)) i0 ; v <~ rdM o ; wrM d v) (MkSt m (tens s) (ctx s)) = (Ok tt, MkSt m' (tens s) (ctx s)) /\
       same_off (fun x => a <= x < a + n) (mem s) m' /\ hold m' (fun j => a + j) vs).
  { destruct (G (operands mt) vs 0 (mem s)) as (m' & E & S & Hh); try assumption; try reflexivity.
    - lia.
    - apply same_off_refl.
    - intros j v Hv. rewrite take_0 in Hv. rewrite lookup_nil in Hv. discriminate.
    - exists m'. split; [|split; assumption]. rewrite Hlo in *. rewrite <- E. unfold range. destruct s; reflexivity. }
  induction os as [|o os IH]; intros vs' i m Eo Hi Hl So Hrd Hh Ev.
  - destruct vs'; [|discriminate]. exists m. split; [reflexivity|]. split; [exact So|].
    rewrite Ev, app_nil_r. exact Hh.
  - destruct vs' as [|v vs']; [discriminate|]. cbn [length seq zip_with mfor].
    cbn [rds] in Hrd. unfold rds in Hrd. cbn [mapM] in Hrd.
    destruct (rd (mem s) o) as [v0|] eqn:Ev0; [|discriminate]. cbn [mbind option_bind] in Hrd.
    destruct (mapM (rd (mem s)) os) as [vs0|] eqn:Eos; [|discriminate]. cbn in Hrd. injection Hrd as -> ->.
    destruct o as [x|]; [|discriminate]. cbn in Ev0.
    assert (Hx : m !! x = Some v).
    { destruct So as [_ So]. rewrite So; [exact Ev0|]. apply Hd. rewrite Eo. apply elem_of_app. right. left. }
    cbn [length] in Hi, Hl.
    assert (Hm : length m = length (mem s)) by apply So.
    set (m1 := <[a + i := v]> m).
    destruct (IH vs' (S i) m1) as (m' & E & S' & Hh').
    + rewrite Eo at 1. change (Some x :: os) with ([Some x] ++ os). rewrite app_assoc. f_equal.
      assert (Ei : length (take i (operands mt)) = i) by (rewrite take_length; lia).
      erewrite take_S_r; [reflexivity|]. rewrite Eo, lookup_app_r by lia. rewrite Ei, Nat.sub_diag. reflexivity.
    + lia.
    + lia.
    + split; [unfold m1; rewrite insert_length; exact Hm|]. intros y Hy. unfold m1.
      rewrite list_lookup_insert_ne by (intros <-; apply Hy; lia). apply So. exact Hy.
    + exact Eos.
    + intros j w Hw. unfold m1. destruct (decide (j = i)) as [->|Hj].
      * rewrite list_lookup_insert by lia. rewrite lookup_take in Hw by lia. rewrite Ev in Hw.
        rewrite lookup_app_r in Hw by (rewrite take_length; lia). rewrite take_length in Hw.
        replace (i - i `min` length vs) with 0 in Hw by lia. exact Hw.
      * rewrite list_lookup_insert_ne by lia. apply Hh. 
        assert (j < S i) by (apply lookup_lt_Some in Hw; rewrite take_length in Hw; lia).
        rewrite lookup_take in * by lia. exact Hw.
    + rewrite Ev at 1. erewrite take_S_r; [rewrite <- app_assoc; reflexivity|].
      rewrite Ev, lookup_app_r by (rewrite take_length; lia). rewrite take_length.
      replace (i - i `min` length vs) with 0 by lia. reflexivity.
    + exists m'. split; [|split; assumption]. rewrite <- E.
      erewrite mbnd_ok; [reflexivity|].
      erewrite mbnd_ok by (apply (in_ops_at (blkm sh a b) n _ i _ (in_ops_blk sh a b)); lia).
      erewrite mbnd_ok by (apply rdM_at; exact Hx).
      unfold wrM. cbn [wr mem tens ctx]. rewrite decide_True by lia. reflexivity.
Qed.

Lemma slice_hold (m : list T) c n : c + n <= length m -> hold m (fun j => c + j) (take n (drop c m)).
Proof.
  intros Hl j v Hv. rewrite <- lookup_drop. destruct (decide (j < n)).
  - rewrite lookup_take in Hv by assumption. exact Hv.
  - rewrite lookup_take_ge in Hv by lia. discriminate.
Qed.
Lemma Load_blk_blk (s : tst T) p t sh a c :
  blk s p sh a -> blk s t sh c ->
  (c + N.to_nat (prodN sh) <= a \/ a + N.to_nat (prodN sh) <= c) ->
  a + N.to_nat (prodN sh) <= length (mem s) -> c + N.to_nat (prodN sh) <= length (mem s) ->
  exists m', LoadFromTensor p t s = (Ok tt, MkSt m' (tens s) (ctx s)) /\
    same_off (fun x => a <= x < a + N.to_nat (prodN sh)) (mem s) m' /\
    forall j, j < N.to_nat (prodN sh) -> m' !! (a + j) = mem s !! (c + j).
Proof.
  intros Bp [b Bt] Hd Ha Hc. set (n := N.to_nat (prodN sh)) in *.
  assert (Hs := slice_hold (mem s) c n Hc).
  assert (Hlen : length (take n (drop c (mem s))) = n) by (rewrite take_length, drop_length; lia).
  destruct (Load_blk s p t sh a KMat (blkm sh c b) (take n (drop c (mem s)))) as (m' & E & S & Hh); try assumption.
  - reflexivity.
  - rewrite (in_ops_blk sh c b). fold n. apply rds_hold; [exact Hs|exact Hlen].
  - intros x Hx. cbn in Hx. apply elem_of_list_fmap in Hx as (y & [= ->] & Hy). apply elem_of_seq in Hy. fold n in Hy |- *. lia.
  - exists m'. split; [exact E|]. split; [exact S|]. intros j Hj.
    destruct (lookup_lt_is_Some_2 (take n (drop c (mem s))) j) as [v Hv]; [lia|].
    rewrite (Hh j v Hv), (Hs j v Hv). reflexivity.
Qed.

(** ** Copying the new parameters back (base.go:189-207) *)
Definition fit_ready (m : list T) (sp : lsp (T:=T)) (l : dlay T) (sn : slayer T) : Prop :=
  fits_layer l sn /\
  if s_tr sp then hold2 m (anw l) (sW sn) /\ hold m (anb l) (sB sn) else has_params m l sn.
Fixpoint fits_ready (m : list T) (rst : list (lsp (T:=T))) (rnet : list (dlay T)) (snew : list (slayer T)) : Prop :=
  match rst, rnet, snew with
  | [], [], [] => True
  | sp :: rst', l :: rnet', sn :: snew' => fit_ready m sp l sn /\ fits_ready m rst' rnet' snew'
  | _, _, _ => False
  end.
Lemma hold2_off_eq (m m' : list T) f g W : hold2 m f W ->
  (forall i w j, W !! i = Some w -> j < length w -> m' !! g i j = m !! f i j) -> hold2 m' g W.
Proof.
  intros Hh He i w Hw j v Hv. rewrite (He i w j Hw) by (eapply lookup_lt_Some; exact Hv). apply (Hh i w Hw j v Hv).
Qed.
Lemma hold_off_eq (m m' : list T) f g vs : hold m f vs -> (forall j, j < length vs -> m' !! g j = m !! f j) -> hold m' g vs.
Proof. intros Hh He j v Hv. rewrite He by (eapply lookup_lt_Some; exact Hv). apply Hh. exact Hv. Qed.

Lemma rlay_le lo (rnet : list (dlay T)) : forall hi, rlay lo rnet hi -> lo <= hi.
Proof.
  induction rnet as [|l rnet IH]; intros hi; cbn [rlay]; [intros ->; lia|]. intros [Hr <-]. apply IH in Hr. unfold aend. lia.
Qed.

Lemma LFit_stk sr da : forall rst rnet snew (s : lst T) fuel id lo hi,
  pre_of sr rst = Some id -> length rst < fuel -> stk3 s sr da rst rnet -> rlay lo rnet hi ->
  Forall (fun l => hi <= b0 l /\ bend l <= length (mem (ts s))) rnet ->
  fits_ready (mem (ts s)) rst rnet snew ->
  exists m', LFit fuel id s = (Ok tt, MkL (MkSt m' (tens (ts s)) (ctx (ts s))) (lays s) (rc s)) /\
    same_off (fun a => lo <= a < hi) (mem (ts s)) m' /\ Forall2 (has_params m') rnet snew.
Proof.
  induction rst as [|sp rst IH]; intros rnet snew s fuel id lo hi Hid Hfuel Hs Hy Hb Hr;
    (destruct fuel as [|fuel]; [cbn in Hfuel; lia|]); destruct rnet as [|l rnet]; cbn [stk3] in Hs; try contradiction;
    destruct snew as [|sn snew]; cbn [fits_ready] in Hr; try contradiction.
  - cbn [pre_of] in Hid. unfold sl3 in Hs. rewrite Hid in Hs. destruct Hs as [L HL].
    exists (mem (ts s)). split; [|split; [apply same_off_refl|constructor]].
    cbn [LFit]. erewrite mbnd_ok by (apply getL_ok; apply HL). rewrite (i3_pre _ _ _ _ _ HL).
    erewrite mbnd_ok by reflexivity. rewrite (i3_tr _ _ _ _ _ HL). cbn. destruct s as [[? ? ?] ? ?]; reflexivity.
  - cbn [pre_of] in Hid. injection Hid as <-. destruct Hs as [[L HL] Hs].
    cbn [rlay] in Hy. destruct Hy as [Hy Ehi]. apply Forall_cons in Hb as [[Hb1 Hb2] Hb]. destruct Hr as [Hr1 Hr].
    pose proof (rlay_le _ _ _ Hy) as Hlo. pose proof (bend_ge l) as Hbe.
    assert (Hrest : exists m1, (match pre_of sr rst with Some q => ignore_err (LFit fuel q) | None => mret tt end) s =
        (Ok tt, MkL (MkSt m1 (tens (ts s)) (ctx (ts s))) (lays s) (rc s)) /\
      same_off (fun a => lo <= a < a0 l) (mem (ts s)) m1 /\ Forall2 (has_params m1) rnet snew).
    { destruct (pre_of sr rst) as [q|] eqn:Hq.
      - destruct (IH rnet snew s fuel q lo (a0 l)) as (m1 & E1 & S1 & P1); try assumption; try reflexivity.
        + cbn in Hfuel. lia.
        + eapply Forall_impl; [exact Hb|]. intros x [? ?]. cbv beta. unfold aend in Ehi. lia.
        + exists m1. split; [unfold ignore_err; rewrite E1; reflexivity|]. split; assumption.
      - destruct rst as [|sp' rst]; [|discriminate]. destruct rnet as [|l1 rnet]; [|contradiction].
        destruct snew; [|contradiction].
        exists (mem (ts s)). split; [destruct s as [[? ? ?] ? ?]; reflexivity|]. split; [apply same_off_refl|constructor]. }
    destruct Hrest as (m1 & E1 & S1 & P1).
    assert (Hm1 : length m1 = length (mem (ts s))) by apply S1.
    destruct Hr1 as [Hf Hr1].
    assert (Hkeep : forall a, a0 l <= a -> m1 !! a = mem (ts s) !! a) by (intros a Ha; apply S1; lia).
    assert (Htr := d3_tr _ _ _ _ _ HL).
    destruct (s_tr sp) eqn:Etr.
    + destruct Hr1 as [HW HB].
      destruct (d3_w _ _ _ _ _ HL) as (tw & Ew & Bw). destruct (d3_nw _ _ _ _ _ HL) as (tnw & Enw & Bnw).
      destruct (d3_bias _ _ _ _ _ HL) as (tb & Eb & Bb). destruct (d3_nb _ _ _ _ _ HL) as (tnb & Enb & Bnb).
      pose proof (d3_no _ _ _ _ _ HL) as Hno.
      set (s1 := MkSt m1 (tens (ts s)) (ctx (ts s))).
      assert (P2 : N.to_nat (prodN [s_o sp; N.of_nat (ni l)]) = no l * ni l) by (rewrite prod_2; lia).
      assert (P1' : N.to_nat (prodN [s_o sp]) = no l) by (rewrite prod_1; lia).
      destruct (Load_blk_blk s1 tw tnw [s_o sp; N.of_nat (ni l)] (aw l 0 0) (anw l 0 0) Bw Bnw) as (m2 & E2 & S2 & V2);
        rewrite ?P2 in *; cbn [s1 mem]; try (unfold aw, anw, aend in *; lia).
      set (s2 := MkSt m2 (tens (ts s)) (ctx (ts s))).
      assert (Hm2 : length m2 = length m1) by apply S2.
      destruct (Load_blk_blk s2 tb tnb [s_o sp] (ab l 0) (anb l 0) Bb Bnb) as (m3 & E3 & S3 & V3);
        rewrite ?P1' in *; cbn [s2 mem]; try (unfold ab, anb, aend in *; lia).
      cbn [s1 s2 mem] in *.
      exists m3. split; [|split].
      * cbn [LFit]. erewrite mbnd_ok by (apply getL_ok; apply HL). rewrite (d3_pre _ _ _ _ _ HL).
        erewrite mbnd_ok by exact E1. rewrite Htr. cbn [negb]. rewrite Ew, Enw, Eb, Enb.
        erewrite mbnd_ok by (apply liftT_ok; exact E2). apply (liftT_ok _ (MkL s2 (lays s) (rc s))). exact E3.
      * assert (Hin : forall a, paramP l a -> lo <= a < hi) by (intros a Ha; unfold paramP, aend in *; lia).
        eapply same_off_trans; [exact S1|eapply same_off_trans; [exact S2|exact S3| |]| |].
        -- intros a Ha. exact (Hin a ltac:(unfold paramP, aw in *; lia)).
        -- intros a Ha. exact (Hin a ltac:(unfold paramP, ab in *; lia)).
        -- intros a Ha. cbv beta in *. unfold aend in Ehi. lia.
        -- intros a Ha. exact Ha.
      * constructor.
        -- split.
           ++ eapply hold2_off_eq; [exact HW|]. intros i w j Hw Hj.
              pose proof (row_length _ _ _ _ Hf Hw) as Hwl. pose proof (lookup_lt_Some _ _ _ Hw) as Hi. rewrite (fl_W _ _ Hf) in Hi.
              assert (Hlt : i * ni l + j < no l * ni l) by (apply off_lt; lia).
              destruct S3 as [_ S3]. rewrite S3 by (unfold aw, ab; lia).
              replace (aw l i j) with (aw l 0 0 + (i * ni l + j)) by (unfold aw; lia). rewrite V2 by exact Hlt.
              rewrite Hkeep by (unfold anw, aend in *; lia). f_equal. unfold anw. lia.
           ++ eapply hold_off_eq; [exact HB|]. intros j Hj. rewrite (fl_B _ _ Hf) in Hj.
              replace (ab l j) with (ab l 0 + j) by (unfold ab; lia). rewrite V3 by exact Hj.
              destruct S2 as [_ S2]. rewrite S2 by (unfold aw, anb, aend in *; lia).
              rewrite Hkeep by (unfold anb, aend in *; lia). f_equal. unfold anb. lia.
        -- assert (HF : Forall2 fits_layer rnet snew).
           { clear - Hr. revert rnet snew Hr. induction rst as [|sp' rst IHr]; intros [|l1 rnet] [|s1 snew]; cbn; try contradiction; [constructor|].
             intros [[Hf _] Hr]. constructor; [exact Hf|]. apply IHr. exact Hr. }
           clear - HF P1 S2 S3 Hy. revert HF P1. 
           assert (Hk : forall a, a < a0 l -> m3 !! a = m1 !! a).
           { intros a Ha. destruct S2 as [_ S2]. destruct S3 as [_ S3]. rewrite S3 by (unfold ab; lia). apply S2. unfold aw. lia. }
           clear S2 S3. revert snew Hy Hk. generalize (a0 l). clear l. induction rnet as [|l rnet IHr]; intros h snew Hy Hk HF HP.
           ++ inversion HP; subst. constructor.
           ++ inversion HF as [|? s0 ? snew' Hf0 HF']; subst. inversion HP as [|? ? ? ? [HW HB] HP']; subst.
              cbn [rlay] in Hy. destruct Hy as [Hy <-]. constructor.
              ** split.
                 --- eapply hold2_off_eq; [exact HW|]. intros i w j Hw Hj. apply Hk.
                     pose proof (row_length _ _ _ _ Hf0 Hw) as Hwl. pose proof (lookup_lt_Some _ _ _ Hw) as Hi. rewrite (fl_W _ _ Hf0) in Hi.
                     assert (Hlt : i * ni l + j < no l * ni l) by (apply off_lt; lia). unfold aw, aend. lia.
                 --- eapply hold_off_eq; [exact HB|]. intros j Hj. rewrite (fl_B _ _ Hf0) in Hj. apply Hk. unfold ab, aend. lia.
              ** eapply (IHr (a0 l)); try assumption. intros a Ha. apply Hk. unfold aend. lia.
    + exists m1. split; [|split].
      * cbn [LFit]. erewrite mbnd_ok by (apply getL_ok; apply HL). rewrite (d3_pre _ _ _ _ _ HL).
        erewrite mbnd_ok by exact E1. rewrite Htr. reflexivity.
      * eapply same_off_weaken; [exact S1|]. intros a Ha. cbv beta in *. unfold aend in *. lia.
      * constructor; [|exact P1]. destruct Hr1 as [HW HB]. split.
        -- eapply hold2_off_eq; [exact HW|]. intros i w j Hw Hj. apply Hkeep. unfold aw. lia.
        -- eapply hold_off_eq; [exact HB|]. intros j Hj. apply Hkeep. unfold ab. lia.
Qed.
End NetFit.
