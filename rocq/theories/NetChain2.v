(** * NetChain2: building the back-propagation of a stack of dense layers *)
From Verif Require Import Base Num ModelTools ModelOps ModelTensor ModelGraph ModelLayer
  Spec Denote IndexProofs ExecProofs TensorFacts AccessProofs BuildProofs CompileProofs
  NetSpec NetExec NetBack NetBuild NetChain.
From Coq Require Import Lia ZifyBool ZifyNat ZifyN.

Section NetChain2.
Context {T : Type} `{Num T}.
Context (Hone0 : neqb (one (T:=T)) nzero = false) (Hone1 : nltb none (one (T:=T)) = false).

Lemma with_len (s : tst T) id k m : length (tens s) = length (tens (st_with (mem s) (tens s) (ctx s) id k m)).
Proof. cbn. rewrite insert_length. reflexivity. Qed.

(** A layer in front of a dense layer: where its weighted sums and errors are. *)
Record prv (s : lst T) (q n : nat) (pv : pvl) (Lq : layer T) : Prop := {
  p_at : lays s !! q = Some Lq;
  p_kind : (lkind_of Lq = LInput /\ lpre Lq = None) \/ lkind_of Lq = LDense;
  p_der : lten Lq FDer = None;
  p_neta : exists t sh a, lten Lq FNeta = Some t /\ blk (ts s) t sh a /\ N.to_nat (prodN sh) = n /\
             forall i, pneta pv i = a + i;
  p_dif : exists t sh a, lten Lq FDif = Some t /\ blk (ts s) t sh a /\ N.to_nat (prodN sh) = n /\
             forall i, pdif pv i = a + i;
  p_act : exists a, lact Lq = Some a /\ pder pv = act_d a;
}.
Lemma prv_pre (s : lst T) q n pv Lq : prv s q n pv Lq -> lkind_of Lq = LInput -> lpre Lq = None.
Proof. intros [_ [[_ E]|E] _ _ _ _] Hk; [exact E|congruence]. Qed.

Lemma LBuildDer_ok (s : lst T) q n pv Lq fuel : prv s q n pv Lq ->
  exists s' d ops sh, LBuildDer (S fuel) q s = (Ok d, s') /\ mem (ts s') = mem (ts s) ++ zeros n /\
    tle (ts s) (ts s') /\ ctx (ts s') = ctx (ts s) ++ ops /\ rc s' = rc s /\
    lays s' = <[q := set_ten FDer (Some d) Lq]> (lays s) /\
    strip ops = map (fun i => OFunc (Some (length (mem (ts s)) + i)) (Some (pneta pv i)) (pder pv)) (seq 0 n) /\
    (exists k, tens (ts s') !! d = Some (MkNode k (blkm sh (length (mem (ts s))) true))) /\ N.to_nat (prodN sh) = n.
Proof.
  intros HP. destruct (p_neta _ _ _ _ _ HP) as (t & sh & a & Ht & Hb & Hn & Ha).
  destruct (p_act _ _ _ _ _ HP) as (act & Hact & Hpd).
  destruct (NActivate_built (ts s) t sh a (act_d act) Hb) as (s1 & s2 & ops & E1 & E2 & M2 & L2 & D2 & C2 & O2).
  exists (MkL s2 (<[q := set_ten FDer (Some (length (tens (ts s)))) Lq]> (lays s)) (rc s)), (length (tens (ts s))), ops, sh.
  split; [|split; [|split; [exact L2|split; [exact C2|split; [reflexivity|split; [reflexivity|split; [|split; [|exact Hn]]]]]]]].
  - cbn [LBuildDer]. erewrite mbnd_ok by (apply getL_ok; apply HP). rewrite (p_der _ _ _ _ _ HP).
    assert (Hk : (neta <~ the (lten Lq FNeta) ; a <~ the (lact Lq) ; d <~ liftT (NActivate neta (act_d a)) ;
                  setF q FDer d ;~ liftT (Build d) ;~ mret d) s =
      (Ok (length (tens (ts s))), MkL s2 (<[q := set_ten FDer (Some (length (tens (ts s)))) Lq]> (lays s)) (rc s))).
    { rewrite Ht, Hact. erewrite mbnd_ok by reflexivity. erewrite mbnd_ok by reflexivity.
      erewrite mbnd_ok by (apply liftT_ok; exact E1). unfold setF.
      erewrite mbnd_ok by (apply updL_ok; cbn; apply HP). cbn [ts lays rc].
      erewrite mbnd_ok by (apply liftT_ok; cbn; exact E2). reflexivity. }
    destruct (p_kind _ _ _ _ _ HP) as [[Ek Ep]|Ek]; rewrite Ek; [rewrite Ep; exact Hk|].
    destruct (lpre Lq); exact Hk.
  - cbn. rewrite M2, Hn. reflexivity.
  - rewrite O2, Hn, Hpd. apply map_ext. intros i. rewrite Ha. reflexivity.
  - eexists. exact D2.
Qed.

Definition with_b (l : dlay T) (b : nat) (p : bool) : dlay T :=
  DL (ni l) (no l) (ain l) (aout l) (a0 l) b p (df l) (dd l).

Lemma in_ops_ext mi n a b : in_ops mi n a -> (forall i, i < n -> a i = b i) -> in_ops mi n b.
Proof.
  unfold in_ops. intros -> He. apply map_ext_in. intros i Hi. apply in_seq in Hi. rewrite He by lia. reflexivity.
Qed.
Lemma in_ops_blk_n sh a b n : N.to_nat (prodN sh) = n -> in_ops (blkm sh a b) n (fun j => a + j).
Proof. intros <-. apply in_ops_blk. Qed.

(** What is known about a dense layer when its back-propagation is built. *)
Record ready_bp (s : lst T) (id : nat) (o : N) (pre : option nat) (l : dlay T) (L : layer T) : Prop := {
  r_at : lays s !! id = Some L;
  r_kind : lkind_of L = LDense;
  r_pre : lpre L = pre;
  r_ref : ref1 s L;
  r_in : exists t sh a, lten L FInput = Some t /\ blk (ts s) t sh a /\ N.to_nat (prodN sh) = ni l /\ ain l = (fun j => a + j);
  r_out : exists t a, lten L FOutput = Some t /\ blk (ts s) t [o] a;
  r_dif : exists t, lten L FDif = Some t /\ blk (ts s) t [o] (adif l 0);
  r_bias : exists t, lten L FBias = Some t /\ blk (ts s) t [o] (ab l 0);
  r_w : exists t, lten L FWeights = Some t /\ blk (ts s) t [o; N.of_nat (ni l)] (aw l 0 0);
  r_no : no l = N.to_nat o;
  r_o : (o < W64)%N;
  r_fits : fits [o; N.of_nat (ni l)];
}.

Lemma zeros_add a b : zeros (T:=T) (a + b) = zeros a ++ zeros b.
Proof. apply replicate_add. Qed.

Lemma st_eta (s : tst T) : s = MkSt (mem s) (tens s) (ctx s).
Proof. destruct s; reflexivity. Qed.
Lemma blk_app (s : tst T) x t sh a mm c : blk s t sh a -> blk (MkSt mm (tens s ++ x) c) t sh a.
Proof. intros [b E]. exists b. cbn. apply lookup_app_l_Some. exact E. Qed.

(** The input errors (dense.go:157-194). *)
Lemma in_loop_ok (s : tst T) td tw tder tp (o : N) mi pv (l : dlay T) kd shd kp shp ap :
  blk s td [o] (adif l 0) -> blk s tw [o; N.of_nat (ni l)] (aw l 0 0) ->
  (exists b, tens s !! tder = Some (MkNode kd (blkm shd (c0 l) b))) -> N.to_nat (prodN shd) = ni l ->
  (exists b, tens s !! tp = Some (MkNode kp (blkm shp ap b))) -> N.to_nat (prodN shp) = ni l -> (forall i, pdif pv i = ap + i) ->
  msize mi = N.of_nat (ni l) -> no l = N.to_nat o -> (o < W64)%N -> fits [o; N.of_nat (ni l)] ->
  length (mem s) = c0 l + ni l ->
  (md <~ get_mat td ; mw <~ get_mat tw ; mder <~ get_mat tder ; mp <~ get_mat tp ;
   mfor (urange (msize mi)) (dense_input_bp o md mw mder mp)) s =
  (Ok tt, MkSt (mem s ++ zeros (ni l * (no l + 2))) (tens s) (ctx s ++ flat_map (bp_in pv l) (seq 0 (ni l)))).
Proof.
  intros [bd Bd] [bw Bw] [bder Bder] Hder [bp Bp] Hp Hpd Hmi Hno Ho Hf Hlen.
  erewrite mbnd_ok by (eapply get_mat_tens; exact Bd).
  erewrite mbnd_ok by (eapply get_mat_tens; exact Bw).
  erewrite mbnd_ok by (eapply get_mat_tens; exact Bder).
  erewrite mbnd_ok by (eapply get_mat_tens; exact Bp).
  rewrite Hmi, urange_seq, mfor_map, Nat2N.id.
  rewrite (st_eta s) at 1.
  apply (mfor_grow (no l + 2) _ _ (fun i => asc l i 0)).
  - intros i Hi. unfold asc. lia.
  - unfold asc. lia.
  - intros i mm c Hi Hl. apply dense_input_bp_ok; try assumption; try lia.
    + eapply in_ops_ext; [apply in_ops_blk_n; exact Hder|]. intros; unfold ader; reflexivity.
    + eapply in_ops_ext; [apply in_ops_blk_n; exact Hp|]. intros; rewrite Hpd; reflexivity.
Qed.

(** The updates (dense.go:210-275). *)
Lemma upd_loop_ok (s : tst T) td tw tb tnw tmw tnb tmb (o : N) mi mo' al mo (l : dlay T) :
  blk s td [o] (adif l 0) -> blk s tw [o; N.of_nat (ni l)] (aw l 0 0) -> blk s tb [o] (ab l 0) ->
  blk s tnw [o; N.of_nat (ni l)] (anw l 0 0) -> blk s tmw [o; N.of_nat (ni l)] (amw l 0 0) ->
  blk s tnb [o] (anb l 0) -> blk s tmb [o] (amb l 0) ->
  in_ops mi (ni l) (ain l) -> msize mo' = o ->
  no l = N.to_nat o -> (o < W64)%N -> fits [o; N.of_nat (ni l)] -> length (mem s) = u0 l ->
  (md <~ get_mat td ; mw <~ get_mat tw ; mb <~ get_mat tb ;
   mnw <~ get_mat tnw ; mmw <~ get_mat tmw ; mnb <~ get_mat tnb ; mmb <~ get_mat tmb ;
   mfor (urange (msize mo')) (dense_unit_bp mi md mw mb mnw mmw mnb mmb (Some al) (Some mo))) s =
  (Ok tt, MkSt (mem s ++ zeros (no l * (ni l + ni l + 2))) (tens s) (ctx s ++ flat_map (bp_unit al mo l) (seq 0 (no l)))).
Proof.
  intros [bd Bd] [bw Bw] [bb Bb] [b1 B1] [b2 B2] [b3 B3] [b4 B4] Hmi Hmo Hno Ho Hf Hlen.
  erewrite mbnd_ok by (eapply get_mat_tens; exact Bd).
  erewrite mbnd_ok by (eapply get_mat_tens; exact Bw).
  erewrite mbnd_ok by (eapply get_mat_tens; exact Bb).
  erewrite mbnd_ok by (eapply get_mat_tens; exact B1).
  erewrite mbnd_ok by (eapply get_mat_tens; exact B2).
  erewrite mbnd_ok by (eapply get_mat_tens; exact B3).
  erewrite mbnd_ok by (eapply get_mat_tens; exact B4).
  rewrite Hmo, urange_seq, mfor_map, <- Hno.
  rewrite (st_eta s) at 1.
  apply (mfor_grow (ni l + ni l + 2) _ _ (fun i => au l i 0)).
  - intros i Hi. unfold au. lia.
  - unfold au. lia.
  - intros i mm c Hi Hl. apply dense_unit_bp_ok; try assumption; try lia.
Qed.

(** The four tensors a dense layer allocates. *)
Definition bp_lay (K : nat) (L : layer T) : layer T :=
  set_ten FMBias (Some (K + 3)) (set_ten FNBias (Some (K + 2)) (set_ten FMWeights (Some (K + 1)) (set_ten FNWeights (Some K) L))).

Lemma u0_eq (l : dlay T) : u0 l = c0 l + (if dpre l then ni l + ni l * (no l + 2) else 0).
Proof. unfold u0. destruct (dpre l); lia. Qed.

Lemma strip_flat {A} (g : A -> list (op T)) (xs : list A) : (forall x, strip (g x) = g x) -> strip (flat_map g xs) = flat_map g xs.
Proof. intros Hg. induction xs as [|x xs IH]; [reflexivity|]. cbn [flat_map]. rewrite strip_app, Hg, IH. reflexivity. Qed.
Lemma strip_in pv (l : dlay T) i : strip (bp_in pv l i) = bp_in pv l i.
Proof. unfold bp_in. rewrite strip_app, strip_map by reflexivity. reflexivity. Qed.
Lemma strip_unit al mo (l : dlay T) i : strip (bp_unit al mo l i) = bp_unit al mo l i.
Proof. unfold bp_unit. rewrite strip_app, strip_flat by reflexivity. reflexivity. Qed.

Lemma dense_bp_body al mo (s : lst T) id o pre l0 L fuel pv Lq :
  ready_bp s id o pre l0 L ->
  match pre with Some q => q <> id /\ prv s q (ni l0) pv Lq | None => True end ->
  let l := with_b l0 (length (mem (ts s))) (bool_decide (is_Some pre)) in
  let K := length (tens (ts s)) in
  exists s' ops,
    bp_body (S fuel) id (Some al) (Some mo) s = (Ok tt, s') /\
    mem (ts s') = mem (ts s) ++ zeros (bend l - b0 l) /\ tle (ts s) (ts s') /\
    ctx (ts s') = ctx (ts s) ++ ops /\ rc s' = rc s /\
    blk (ts s') K [o; N.of_nat (ni l)] (anw l 0 0) /\ blk (ts s') (K + 2) [o] (anb l 0) /\
    match pre with
    | Some q => strip ops = bp_layer al mo (Some pv) l /\
        exists d, lays s' = <[q := set_ten FDer (Some d) Lq]> (<[id := bp_lay K L]> (lays s))
    | None => strip ops = bp_layer al mo None l /\ lays s' = <[id := bp_lay K L]> (lays s)
    end.
Proof.
  intros HR Hpre. cbv zeta. set (l := with_b l0 _ _). set (K := length (tens (ts s))).
  destruct (r_in _ _ _ _ _ _ HR) as (ti & shi & ib & Eti & Bti & Hni & Hain).
  destruct (r_out _ _ _ _ _ _ HR) as (to_ & oa & Eto & Bto).
  destruct (r_dif _ _ _ _ _ _ HR) as (td & Etd & Btd).
  destruct (r_bias _ _ _ _ _ _ HR) as (tb & Etb & Btb).
  destruct (r_w _ _ _ _ _ _ HR) as (tw & Etw & Btw).
  pose proof (r_o _ _ _ _ _ _ HR) as Ho. pose proof (r_fits _ _ _ _ _ _ HR) as Hf. pose proof (r_no _ _ _ _ _ _ HR) as Hno.
  pose proof (r_at _ _ _ _ _ _ HR) as HA.
  destruct (r_ref _ _ _ _ _ _ HR) as (r & Er & Hm).
  destruct Bti as [bi Bi]. destruct Bto as [bo Bo]. destruct Btw as [bw Bw]. destruct Btb as [bb Bb].
  assert (Fo : fits [o]) by (apply fits_1; assumption).
  assert (P1 : N.to_nat (prodN [o]) = no l0) by (rewrite prod_1; lia).
  assert (P2 : N.to_nat (prodN [o; N.of_nat (ni l0)]) = no l0 * ni l0) by (rewrite prod_2; lia).
  set (B := length (mem (ts s))).
  pose (sn := MkL (MkSt (mem (ts s) ++ zeros (no l0 * ni l0) ++ zeros (no l0 * ni l0) ++ zeros (no l0) ++ zeros (no l0))
     (tens (ts s) ++ [MkNode KMat (blkm [o; N.of_nat (ni l0)] (anw l 0 0) false); MkNode KMat (blkm [o; N.of_nat (ni l0)] (amw l 0 0) false);
                      MkNode KMat (blkm [o] (anb l 0) false); MkNode KMat (blkm [o] (amb l 0) false)]) (ctx (ts s)))
     (<[id := bp_lay K L]> (lays s)) (rc s)).
  assert (HL1 : forall L1, (<[id := L1]> (lays s) : list (layer T)) !! id = Some L1) by (intros; eapply list_lookup_insert, lookup_lt_Some; exact HA).
  assert (Hn : forall k nd, [MkNode KMat (blkm [o; N.of_nat (ni l0)] (anw l 0 0) false); MkNode KMat (blkm [o; N.of_nat (ni l0)] (amw l 0 0) false);
                      MkNode KMat (blkm [o] (anb l 0) false); MkNode KMat (blkm [o] (amb l 0) false)] !! k = Some nd ->
       tens (ts sn) !! (K + k) = Some nd).
  { intros k nd Hk. cbn [sn ts tens]. rewrite lookup_app_r by (unfold K; lia). fold K. rewrite Nat.add_comm, Nat.add_sub. exact Hk. }
  assert (Tn : tle (ts s) (ts sn)) by (eapply tle_app; reflexivity).
  assert (Ln : length (mem (ts sn)) = c0 l).
  { cbn [sn ts mem]. rewrite !app_length, !zeros_length. unfold c0, l, B. cbn. lia. }
  (* first half: the allocations and the layer's own error *)
  destruct (leaf_built (ts sn) td [o] (adif l0 0) td) as (s1 & ps & E1 & M1 & T1 & C1 & N1 & _).
  { eapply tle_blk; [exact Tn|exact Btd]. }
  assert (Hhead : forall k : nat -> LM T unit, 
    (inp <~ the (lten L FInput) ; mi <~ liftT (get_mat inp) ;
      out <~ the (lten L FOutput) ; mo' <~ liftT (get_mat out) ;
      weights <~ the (lten L FWeights) ; shw <~ shapeT weights ;
      nw <~ liftT (NewZeros shw) ; setF id FNWeights nw ;~
      mwt <~ liftT (NewZeros shw) ; setF id FMWeights mwt ;~
      bias <~ the (lten L FBias) ; shb <~ shapeT bias ;
      nb <~ liftT (NewZeros shb) ; setF id FNBias nb ;~
      mbt <~ liftT (NewZeros shb) ; setF id FMBias mbt ;~
      dif <~ shared_dif L ;
      liftT (Build dif) ;~
      match lpre L with
      | Some q =>
          der <~ LBuildDer (S fuel) q ;
          pd <~ GetDif q ; pdif <~ the pd ;
          liftT (Build pdif) ;~
          liftT (md <~ get_mat dif ; mw <~ get_mat weights ;
                 mder <~ get_mat der ; mp <~ get_mat pdif ;
                 mfor (urange (msize mi)) (dense_input_bp (msize mo') md mw mder mp))
      | None => mret tt
      end ;~
      liftT (md <~ get_mat dif ; mw <~ get_mat weights ; mb <~ get_mat bias ;
             mnw <~ get_mat nw ; mmw <~ get_mat mwt ; mnb <~ get_mat nb ; mmb <~ get_mat mbt ;
             mfor (urange (msize mo')) (dense_unit_bp mi md mw mb mnw mmw mnb mmb (Some al) (Some mo)))) s =
    (match pre with
      | Some q =>
          der <~ LBuildDer (S fuel) q ;
          pd <~ GetDif q ; pdif <~ the pd ;
          liftT (Build pdif) ;~
          liftT (md <~ get_mat td ; mw <~ get_mat tw ;
                 mder <~ get_mat der ; mp <~ get_mat pdif ;
                 mfor (urange (msize (blkm shi ib bi))) (dense_input_bp (msize (blkm [o] oa bo)) md mw mder mp))
      | None => mret tt
      end ;~
      liftT (md <~ get_mat td ; mw <~ get_mat tw ; mb <~ get_mat tb ;
             mnw <~ get_mat K ; mmw <~ get_mat (K + 1) ; mnb <~ get_mat (K + 2) ; mmb <~ get_mat (K + 3) ;
             mfor (urange (msize (blkm [o] oa bo))) (dense_unit_bp (blkm shi ib bi) md mw mb mnw mmw mnb mmb (Some al) (Some mo))))
     (MkL s1 (lays sn) (rc s))).
  { intros _. rewrite Eti, Eto, Etw, Etb. destruct s as [[mm tn c] ls rr]. cbn [ts mem tens ctx lays rc] in *.
    erewrite mbnd_ok by reflexivity. erewrite mbnd_ok by (apply liftT_ok; eapply get_mat_tens; exact Bi).
    erewrite mbnd_ok by reflexivity. erewrite mbnd_ok by (apply liftT_ok; eapply get_mat_tens; exact Bo).
    erewrite mbnd_ok by reflexivity.
    erewrite mbnd_ok by (unfold shapeT; erewrite mbnd_ok by (apply liftT_ok; eapply get_mat_tens; exact Bw); reflexivity).
    cbn [shape blkm ts lays rc].
    erewrite mbnd_ok by (apply liftT_ok; apply NewZeros_blk; assumption). cbn [ts lays rc mem tens ctx].
    unfold setF. erewrite mbnd_ok by (apply updL_ok; exact HA). cbn [ts lays rc mem tens ctx].
    erewrite mbnd_ok by (apply liftT_ok; apply NewZeros_blk; assumption). cbn [ts lays rc mem tens ctx].
    erewrite mbnd_ok by (apply updL_ok; apply HL1). cbn [ts lays rc mem tens ctx]. rewrite list_insert_insert.
    erewrite mbnd_ok by reflexivity.
    erewrite mbnd_ok.
    2:{ unfold shapeT; erewrite mbnd_ok; [reflexivity|]. apply liftT_ok; eapply get_mat_tens. cbn [ts tens].
        rewrite <- app_assoc. apply lookup_app_l_Some. exact Bb. }
    cbn [shape blkm ts lays rc mem tens ctx].
    erewrite mbnd_ok by (apply liftT_ok; apply NewZeros_blk; assumption). cbn [ts lays rc mem tens ctx].
    erewrite mbnd_ok by (apply updL_ok; apply HL1). cbn [ts lays rc mem tens ctx]. rewrite list_insert_insert.
    erewrite mbnd_ok by (apply liftT_ok; apply NewZeros_blk; assumption). cbn [ts lays rc mem tens ctx].
    erewrite mbnd_ok by (apply updL_ok; apply HL1). cbn [ts lays rc mem tens ctx]. rewrite list_insert_insert.
    rewrite P1, P2. rewrite !app_length, !zeros_length. cbn [length]. fold K B. change (length tn) with K. change (length mm) with B.
    rewrite <- !app_assoc. cbn [app].
    replace (K + 1 + 1 + 1) with (K + 3) by lia. replace (K + 1 + 1) with (K + 2) by lia.
    replace (B + no l0 * ni l0 + no l0 * ni l0 + no l0) with (amb l 0) by (unfold amb, l; cbn; unfold B; lia).
    replace (B + no l0 * ni l0 + no l0 * ni l0) with (anb l 0) by (unfold anb, l; cbn; unfold B; lia).
    replace (B + no l0 * ni l0) with (amw l 0 0) by (unfold amw, l; cbn; unfold B; lia).
    assert (HB : anw l 0 0 = B) by (unfold anw, l; cbn; unfold B; lia).
    match goal with |- mbnd (shared_dif L) ?k ?st = _ =>
      assert (Est : st = sn) by (unfold sn; rewrite HB; reflexivity); rewrite Est; clear Est; set (kk := k) end.
    erewrite mbnd_ok.
    2:{ unfold shared_dif. rewrite Etd. erewrite mbnd_ok by reflexivity. rewrite Er.
        erewrite mbnd_ok.
        2:{ apply liftT_ok. apply rdM_at. cbn [sn ts mem]. apply lookup_app_l_Some. exact Hm. }
        rewrite Hone1. reflexivity. }
    unfold kk. erewrite mbnd_ok by (apply liftT_ok; cbn [ts]; exact E1).
    rewrite (r_pre _ _ _ _ _ _ HR). reflexivity. }
  pose proof (Hhead (fun _ => mret tt)) as Hbody.
  match type of Hbody with ?x = _ => assert (Hb0 : bp_body (S fuel) id (Some al) (Some mo) s = x) end.
  { unfold bp_body. erewrite mbnd_ok by (apply getL_ok; exact HA). rewrite (r_kind _ _ _ _ _ _ HR). reflexivity. }
  rewrite <- Hb0 in Hbody. clear Hb0.
  clear Hhead. rewrite !(msize_blk [o]), prod_1 in Hbody.
  assert (T01 : tle (ts s) s1) by (eapply tle_trans; eassumption).
  assert (Hn1 : forall k sh a, (exists b, tens (ts sn) !! k = Some (MkNode KMat (blkm sh a b))) -> blk s1 k sh a).
  { intros k sh a Hk. eapply tle_blk; [exact T1|exact Hk]. }
  assert (Bnw : blk s1 K [o; N.of_nat (ni l)] (anw l 0 0)) by (apply Hn1; eexists; rewrite <- (Nat.add_0_r K); apply Hn; reflexivity).
  assert (Bmw : blk s1 (K + 1) [o; N.of_nat (ni l)] (amw l 0 0)) by (apply Hn1; eexists; apply Hn; reflexivity).
  assert (Bnb : blk s1 (K + 2) [o] (anb l 0)) by (apply Hn1; eexists; apply Hn; reflexivity).
  assert (Bmb : blk s1 (K + 3) [o] (amb l 0)) by (apply Hn1; eexists; apply Hn; reflexivity).
  assert (Bd1 : blk s1 td [o] (adif l 0)) by (eapply tle_blk; [exact T01|exact Btd]).
  assert (Bw1 : blk s1 tw [o; N.of_nat (ni l)] (aw l 0 0)) by (eapply tle_blk; [exact T01|eexists; exact Bw]).
  assert (Bb1 : blk s1 tb [o] (ab l 0)) by (eapply tle_blk; [exact T01|eexists; exact Bb]).
  assert (Hii : in_ops (blkm shi ib bi) (ni l) (ain l)).
  { change (ain l) with (ain l0). rewrite Hain. apply in_ops_blk_n. exact Hni. }
  assert (Hm1 : length (mem s1) = c0 l) by (rewrite M1; exact Ln).
  assert (Emem : mem (ts sn) = mem (ts s) ++ zeros (c0 l - b0 l)).
  { cbn [sn ts mem]. f_equal. rewrite <- !zeros_add. f_equal. unfold c0, l. cbn. lia. }
  destruct pre as [q|].
  - destruct Hpre as [Hqi HP].
    assert (HP1 : prv (MkL s1 (lays sn) (rc s)) q (ni l0) pv Lq).
    { destruct HP. split; try assumption.
      - cbn [lays sn]. rewrite list_lookup_insert_ne by congruence. exact p_at0.
      - destruct p_neta0 as (t & sh & a & E & Bl & X). exists t, sh, a. split; [exact E|]. split; [eapply tle_blk; [exact T01|exact Bl]|exact X].
      - destruct p_dif0 as (t & sh & a & E & Bl & X). exists t, sh, a. split; [exact E|]. split; [eapply tle_blk; [exact T01|exact Bl]|exact X]. }
    destruct (LBuildDer_ok _ q (ni l0) pv Lq fuel HP1) as (s2 & d & ops2 & shd & E2 & M2 & T2 & C2 & R2 & Y2 & O2 & (kd & D2) & Hd2).
    cbn [ts lays rc] in *.
    destruct (p_dif _ _ _ _ _ HP1) as (tp & shp & ap & Ep & Bp & Hnp & Hap). cbn [ts] in Bp.
    assert (Bp2 : blk (ts s2) tp shp ap) by (eapply tle_blk; eassumption).
    destruct (leaf_built (ts s2) tp shp ap tp Bp2) as (s3 & ps3 & E3 & M3 & T3 & C3 & N3 & D3 & _).
    assert (T13 : tle s1 s3) by (eapply tle_trans; eassumption).
    assert (D23 : exists b, tens s3 !! d = Some (MkNode kd (blkm shd (c0 l) b))).
    { destruct (T3 _ _ _ D2) as [b Eb]. exists b. rewrite <- Hm1. exact Eb. }
    assert (Hm3 : length (mem s3) = c0 l + ni l) by (rewrite M3, M2, app_length, zeros_length, Hm1; reflexivity).
    assert (E4 : (md <~ get_mat td ; mw <~ get_mat tw ; mder <~ get_mat d ; mp <~ get_mat tp ;
       mfor (urange (msize (blkm shi ib bi))) (dense_input_bp o md mw mder mp)) s3 =
      (Ok tt, MkSt (mem s3 ++ zeros (ni l * (no l + 2))) (tens s3) (ctx s3 ++ flat_map (bp_in pv l) (seq 0 (ni l))))).
    { eapply (in_loop_ok s3 td tw d tp o _ pv l); try eassumption.
      + eapply tle_blk; [exact T13|exact Bd1].
      + eapply tle_blk; [exact T13|exact Bw1].
      + eexists. exact D3.
      + rewrite msize_blk. change (ni l) with (ni l0). lia. }
    set (s4 := MkSt _ _ _) in E4.
    assert (T14 : tle s1 s4).
    { eapply tle_trans; [exact T13|]. apply tle_app with (x := []). cbn. rewrite app_nil_r. reflexivity. }
    assert (Hpl : dpre l = true) by reflexivity.
    assert (Hm4 : length (mem s4) = u0 l).
    { cbn [s4 mem]. rewrite app_length, zeros_length, Hm3. rewrite u0_eq, Hpl. lia. }
    assert (E5 := upd_loop_ok s4 td tw tb K (K + 1) (K + 2) (K + 3) o (blkm shi ib bi) (blkm [o] oa bo) al mo l).
    eexists _, (map OScalar ps ++ ops2 ++ map OScalar ps3 ++ flat_map (bp_in pv l) (seq 0 (ni l)) ++ flat_map (bp_unit al mo l) (seq 0 (no l))).
    split; [|split; [|split; [|split; [|split; [|split; [|split]]]]]].
    + rewrite Hbody. erewrite mbnd_ok.
      2:{ erewrite mbnd_ok by exact E2.
          erewrite mbnd_ok.
          2:{ eapply GetDif_ok.
              - rewrite Y2. eapply list_lookup_insert, lookup_lt_Some. apply (p_at _ _ _ _ _ HP1).
              - intros Hk. exact (prv_pre _ _ _ _ _ HP1 Hk).
              - exact Ep. }
          erewrite mbnd_ok by reflexivity.
          erewrite mbnd_ok by (apply liftT_ok; exact E3).
          apply liftT_ok. cbn [ts]. exact E4. }
      apply liftT_ok. cbn [ts]. rewrite (msize_blk [o]), prod_1 in E5. apply E5.
      * eapply tle_blk; [exact T14|exact Bd1].
      * eapply tle_blk; [exact T14|exact Bw1].
      * eapply tle_blk; [exact T14|exact Bb1].
      * eapply tle_blk; [exact T14|exact Bnw].
      * eapply tle_blk; [exact T14|exact Bmw].
      * eapply tle_blk; [exact T14|exact Bnb].
      * eapply tle_blk; [exact T14|exact Bmb].
      * exact Hii.
      * reflexivity.
      * exact Hno.
      * exact Ho.
      * exact Hf.
      * exact Hm4.
    + cbn [ts mem s4]. rewrite M3, M2, M1, Emem, <- !app_assoc, <- !zeros_add. do 2 f_equal.
      unfold bend. rewrite u0_eq, Hpl. unfold c0, l. cbn. lia.
    + cbn [ts]. eapply tle_trans; [exact T01|]. eapply tle_trans; [exact T14|].
      apply tle_app with (x := []). cbn. rewrite app_nil_r. reflexivity.
    + cbn [ts ctx s4]. rewrite C3, C2, C1. cbn [sn ts ctx]. rewrite <- !app_assoc. reflexivity.
    + cbn [rc]. exact R2.
    + cbn [ts]. eapply tle_blk; [|exact Bnw]. exact T14.
    + cbn [ts]. eapply tle_blk; [|exact Bnb]. exact T14.
    + split; [|exists d; cbn [lays]; rewrite Y2; reflexivity].
      rewrite !strip_app, !strip_scalars, O2. cbn [app]. rewrite Hm1.
      rewrite (strip_flat (bp_in pv l)), (strip_flat (bp_unit al mo l)) by (intros; apply strip_in || apply strip_unit).
      unfold bp_layer, bp_der. rewrite <- app_assoc. reflexivity.
  - assert (Hpl : dpre l = false) by reflexivity.
    assert (Hm1' : length (mem s1) = u0 l) by (rewrite Hm1, u0_eq, Hpl; lia).
    assert (E5 := upd_loop_ok s1 td tw tb K (K + 1) (K + 2) (K + 3) o (blkm shi ib bi) (blkm [o] oa bo) al mo l
       Bd1 Bw1 Bb1 Bnw Bmw Bnb Bmb Hii). rewrite (msize_blk [o]), prod_1 in E5.
    specialize (E5 eq_refl Hno Ho Hf Hm1').
    eexists _, (map OScalar ps ++ flat_map (bp_unit al mo l) (seq 0 (no l))).
    split; [|split; [|split; [|split; [|split; [|split; [|split]]]]]].
    + rewrite Hbody. erewrite mbnd_ok by reflexivity. apply liftT_ok. cbn [ts]. exact E5.
    + cbn [ts mem]. rewrite M1, Emem, <- !app_assoc, <- !zeros_add. do 2 f_equal.
      unfold bend. rewrite u0_eq, Hpl. unfold c0, l. cbn. lia.
    + cbn [ts]. eapply tle_trans; [exact T01|].
      apply tle_app with (x := []). cbn. rewrite app_nil_r. reflexivity.
    + cbn [ts ctx]. rewrite C1. cbn [sn ts ctx]. rewrite <- !app_assoc. reflexivity.
    + reflexivity.
    + exact Bnw.
    + exact Bnb.
    + split; [|reflexivity].
      rewrite !strip_app, !strip_scalars. cbn [app].
      rewrite (strip_flat (bp_unit al mo l)) by (intros; apply strip_unit). reflexivity.
Qed.
End NetChain2.
