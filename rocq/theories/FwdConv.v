(** * FwdConv: the convolution layer *)
From Verif Require Import Base Num ModelTools ModelOps ModelTensor ModelGraph ModelLayer Spec Denote NetSpec FwdSpec
  IndexProofs ExecProofs TensorFacts AccessProofs BuildProofs BuildFrame CompileProofs EagerOps Agree FwdMask FwdBuild FwdSeg FwdOps FwdPool NetExec NetBuild NetChain FwdBody FwdExpr.
From Verif Require TransferProofs.
From Coq Require Import Lia ZifyBool ZifyNat ZifyN.

Section FwdConv.
Context {T : Type} `{Num T}.

(** ** Values *)
Notation inr := (Forall2 (fun i d => (i < d)%N)).
Definition vwf (v : vten T) : Prop := length (vdata v) = N.to_nat (prodN (vsh v)).
Lemma mval_vwf n (m : list T) mt v : wf_mat n mt -> mval m mt = Some v -> vwf v.
Proof using Type. intros (_ & _ & Hl & _) Hv. destruct (mval_shape _ _ _ Hv) as [E1 E2]. unfold vwf. rewrite E1, E2. lia. Qed.
Lemma tab_some sh (f : list N -> option T) : (forall idx, inr idx sh -> exists x, f idx = Some x) ->
  exists v, tabulate sh f = Some v /\ vsh v = sh /\ vwf v /\ forall idx, inr idx sh -> at_ sh (vdata v) idx = f idx.
Proof using Type.
  intros Hf. destruct (tabulate_total sh f Hf) as [v Hv]. exists v. split; [exact Hv|].
  assert (Hs : vsh v = sh /\ vwf v).
  { unfold tabulate in Hv. destruct (mapM f (indices sh)) as [d|] eqn:E; [|discriminate]. injection Hv as <-. split; [reflexivity|].
    unfold vwf. cbn. rewrite <- (mapM_length _ _ _ E). apply indices_length. }
  destruct Hs as [Hs Hw]. split; [exact Hs|]. split; [exact Hw|]. intros idx Hi. destruct (tabulate_lookup _ _ _ _ Hv Hi) as [_ Ha]. rewrite <- Ha, Hs. reflexivity.
Qed.
Lemma tab_ext sh (f g : list N -> option T) : (forall idx, inr idx sh -> f idx = g idx) -> tabulate sh f = tabulate sh g.
Proof using Type.
  intros Hfg. unfold tabulate. replace (mapM f (indices sh)) with (mapM g (indices sh)); [reflexivity|].
  apply mapM_ext_in. intros i Hi. symmetry. apply Hfg. apply elem_of_indices. exact Hi.
Qed.
Lemma mapM_app {A B} (f : A -> option B) l k : mapM f (l ++ k) = (x ← mapM f l; y ← mapM f k; Some (x ++ y)).
Proof using Type.
  induction l as [|a l IH]; cbn [mapM app mbind option_bind]; [destruct (mapM f k); reflexivity|]. rewrite IH.
  destruct (f a); [|reflexivity]. cbn [mbind option_bind]. destruct (mapM f l); [|reflexivity]. cbn [mbind option_bind]. destruct (mapM f k); reflexivity.
Qed.
(** The terms of one cell of a convolution. *)
Definition cterm (sx sy : N) (F X Y : N) (vx vw : vten T) (k : list N) : option T :=
  match k with
  | [c; i; j] => u ← at_ (vsh vx) (vdata vx) [c; X * sx + i; Y * sy + j]%N; p ← at_ (vsh vw) (vdata vw) [F; c; i; j]; Some (nmul u p)
  | _ => None
  end.
Definition csum (kw kh sx sy : N) (vx vw : vten T) (idx : list N) : option T :=
  match idx with
  | [F; X; Y] => l ← mapM (cterm sx sy F X Y vx vw) (indices [nth 0 (vsh vx) 0; kw; kh]%N); fold1 nadd l
  | _ => None
  end.
Lemma inr3 c i j a b d : inr [c; i; j] [a; b; d] <-> (c < a /\ i < b /\ j < d)%N.
Proof using Type.
  split.
  - intros Hf. apply Forall2_cons in Hf as [? Hf]. apply Forall2_cons in Hf as [? Hf]. apply Forall2_cons in Hf as [? Hf]. auto.
  - intros (? & ? & ?). repeat constructor; assumption.
Qed.
Lemma inr3_inv idx a b d : inr idx [a; b; d] -> exists c i j, idx = [c; i; j] /\ (c < a /\ i < b /\ j < d)%N.
Proof using Type.
  intros Hf. pose proof (Forall2_length _ _ _ Hf) as Hl. destruct idx as [|c [|i [|j [|]]]]; try discriminate. exists c, i, j. split; [reflexivity|]. apply inr3. exact Hf.
Qed.

Lemma row_value vx c w h o k : vsh vx = [c; w; h] -> vwf vx -> (o + k <= w)%N ->
  exists v, v_subx vx 1 o (o + k) = Some v /\ vsh v = [c; k; h] /\ vwf v /\
    forall a i j, (a < c -> i < k -> j < h -> at_ [c; k; h] (vdata v) [a; i; j] = at_ [c; w; h] (vdata vx) [a; o + i; j])%N.
Proof using Type.
  intros Hs Hw Hk. unfold v_subx, v_subp. rewrite Hs. cbn [insert list_insert].
  replace (o + k - o)%N with k by lia. unfold vwf in Hw. rewrite Hs in Hw.
  edestruct (tab_some [c; k; h]) as (v & Hv & Hvs & Hvw & Ha); [|exists v; split; [exact Hv|split; [exact Hvs|split; [exact Hvw|]]]].
  - intros idx Hi. apply inr3_inv in Hi as (a & i & j & -> & ? & ? & ?). cbn [on_coord alter list_alter lookup list_lookup].
    destruct (N.ltb_spec (i + o) w); [|lia]. apply at_total; [exact Hw|]. apply inr3. lia.
  - intros a i j ? ? ?. rewrite Ha by (apply inr3; lia). cbn [on_coord alter list_alter lookup list_lookup].
    destruct (N.ltb_spec (i + o) w); [|lia]. rewrite (N.add_comm i o). reflexivity.
Qed.
Lemma col_value vx c w h o k : vsh vx = [c; w; h] -> vwf vx -> (o + k <= h)%N ->
  exists v, v_subx vx 2 o (o + k) = Some v /\ vsh v = [c; w; k] /\ vwf v /\
    forall a i j, (a < c -> i < w -> j < k -> at_ [c; w; k] (vdata v) [a; i; j] = at_ [c; w; h] (vdata vx) [a; i; o + j])%N.
Proof using Type.
  intros Hs Hw Hk. unfold v_subx, v_subp. rewrite Hs. cbn [insert list_insert].
  replace (o + k - o)%N with k by lia. unfold vwf in Hw. rewrite Hs in Hw.
  edestruct (tab_some [c; w; k]) as (v & Hv & Hvs & Hvw & Ha); [|exists v; split; [exact Hv|split; [exact Hvs|split; [exact Hvw|]]]].
  - intros idx Hi. apply inr3_inv in Hi as (a & i & j & -> & ? & ? & ?). cbn [on_coord alter list_alter lookup list_lookup].
    destruct (N.ltb_spec (j + o) h); [|lia]. apply at_total; [exact Hw|]. apply inr3. lia.
  - intros a i j ? ? ?. rewrite Ha by (apply inr3; lia). cbn [on_coord alter list_alter lookup list_lookup].
    destruct (N.ltb_spec (j + o) h); [|lia]. rewrite (N.add_comm j o). reflexivity.
Qed.
Lemma ker_value vw nf c kw kh f : vsh vw = [nf; c; kw; kh] -> vwf vw -> (f < nf)%N ->
  exists v, v_sub vw 0 f (f + 1) = Some v /\ vsh v = [1; c; kw; kh]%N /\ vwf v /\
    vsh (v_reshape v [c; kw; kh]) = [c; kw; kh] /\ vwf (v_reshape v [c; kw; kh]) /\
    forall a i j, (a < c -> i < kw -> j < kh -> at_ [c; kw; kh] (vdata (v_reshape v [c; kw; kh])) [a; i; j] = at_ [nf; c; kw; kh] (vdata vw) [f; a; i; j])%N.
Proof using Type.
  intros Hs Hw Hf. unfold v_sub. rewrite Hs. cbn [insert list_insert].
  replace (f + 1 - f)%N with 1%N by lia. unfold vwf in Hw. rewrite Hs in Hw.
  edestruct (tab_some [1; c; kw; kh]%N) as (v & Hv & Hvs & Hvw & Ha); [|exists v; split; [exact Hv|split; [exact Hvs|split; [exact Hvw|]]]].
  - intros idx Hi. apply at_total; [exact Hw|]. inversion Hi as [|a ? i2 ? Ha Hi2]; subst. cbn [on_coord alter list_alter]. constructor; [lia|exact Hi2].
  - assert (Hlen : length (vdata v) = N.to_nat (prodN [c; kw; kh])).
    { unfold vwf in Hvw. rewrite Hvw, Hvs. f_equal. apply N.mul_1_l. }
    assert (Hr : vdata (v_reshape v [c; kw; kh]) = vdata v).
    { unfold v_reshape. cbn [vdata]. rewrite Hlen, Nat.sub_diag. cbn [replicate]. rewrite app_nil_r. apply take_ge. lia. }
    split; [reflexivity|]. split; [unfold vwf; rewrite Hr; exact Hlen|]. intros a i j ? ? ?. rewrite Hr.
    assert (Hi : inr [0%N; a; i; j] [1%N; c; kw; kh]) by (repeat constructor; lia). specialize (Ha _ Hi). cbn [on_coord alter list_alter] in Ha.
    replace (0 + f)%N with f in Ha by lia. rewrite <- Ha. unfold at_.
    replace (flat [1%N; c; kw; kh] [0%N; a; i; j]) with (flat [c; kw; kh] [a; i; j]); [reflexivity|].
    cbn [flat]. destruct (N.ltb_spec 0 1); [|lia]. destruct (a <? c)%N; [|reflexivity]. destruct (i <? kw)%N; [|reflexivity]. destruct (j <? kh)%N; reflexivity.
Qed.
Lemma cell_value vx vw nf c w h kw kh sx sy F X Y :
  vsh vx = [c; w; h] -> vwf vx -> vsh vw = [nf; c; kw; kh] -> vwf vw -> (F < nf -> X * sx + kw <= w -> Y * sy + kh <= h ->
  (row ← v_subx vx 1 (X * sx) (X * sx + kw); cell ← v_subx row 2 (Y * sy) (Y * sy + kh);
   k1 ← v_sub vw 0 F (F + 1); p ← v_bin BMul cell (v_reshape k1 [c; kw; kh]); v_reduce RedSum p) =
  (s ← csum kw kh sx sy vx vw [F; X; Y]; Some (V [1] [s])))%N.
Proof using Type.
  intros Hsx Hwx Hsw Hww HF HX HY. destruct (row_value vx c w h (X * sx)%N kw Hsx Hwx HX) as (row & -> & Hrs & Hrw & Hra). cbn [mbind option_bind].
  destruct (col_value row c kw h (Y * sy)%N kh Hrs Hrw HY) as (cell & -> & Hcs & Hcw & Hca). cbn [mbind option_bind].
  destruct (ker_value vw nf c kw kh F Hsw Hww HF) as (k1 & -> & _ & _ & Hks & Hkw & Hka). cbn [mbind option_bind].
  unfold v_bin. rewrite Hcs. unfold tabulate. cbn [csum]. rewrite Hsx. cbn [nth].
  replace (mapM _ (indices [c; kw; kh])) with (mapM (cterm sx sy F X Y vx vw) (indices [c; kw; kh])).
  2:{ apply mapM_ext_in. intros k Hk. apply elem_of_indices, inr3_inv in Hk as (a & i & j & -> & ? & ? & ?).
      rewrite Hks, Hca, Hka, Hra by lia. cbn [cterm]. rewrite Hsx, Hsw. destruct (at_ [c; w; h] _ _) as [u|]; [|reflexivity]. cbn [mbind option_bind].
      destruct (at_ [nf; c; kw; kh] _ _) as [u'|]; reflexivity. }
  destruct (mapM _ _) as [l|]; [|reflexivity]. cbn [mbind option_bind]. unfold v_reduce, v_reduce_with. cbn [vdata reduce].
  destruct (fold1 nadd l) as [s|]; reflexivity.
Qed.

(** ** Building one cell *)
Lemma node_step (s : tst T) k mt : builded mt = false -> k <> KMat -> exists s', new_node k mt s = (Ok (length (tens s)), s') /\
  seg nowhere s s' [] [] /\ mem s' = mem s /\ tens s' = tens s ++ [MkNode k mt] /\ ctx s' = ctx s /\
  (forall j e sh, den s j e sh -> den s' j e sh) /\ (forall m e, evals s' m e = evals s m e).
Proof using Type.
  intros Hb Hk. destruct (seg_node s k mt) as (s' & E & Sg & Em & Et & Ec). exists s'. repeat (split; [assumption|]). split.
  - intros j e sh Hd. eapply den_grow; eassumption.
  - intros m e. unfold evals. eapply eval_grow; eassumption.
Qed.
Lemma seg_still (s1 s2 s3 : tst T) : seg nowhere s1 s2 [] [] -> seg nowhere s2 s3 [] [] -> seg nowhere s1 s3 [] [].
Proof using Type.
  intros S1 S2. eapply seg_weaken; [exact (seg_app _ _ _ _ _ _ _ _ _ S1 S2 ltac:(intros ? Hx; inversion Hx))|intros l [[]|[]]|intros l []|intros ? Hx; inversion Hx].
Qed.
Lemma mval_off (m m' : list T) mt : (forall l, Some l ∈ operands mt -> m' !! l = m !! l) -> mval m' mt = mval m mt.
Proof using Type.
  intros Hl. unfold mval. replace (rds m' (operands mt)) with (rds m (operands mt)); [reflexivity|].
  unfold rds. apply mapM_ext_in. intros [l|] Hp; [|reflexivity]. cbn. symmetry. apply Hl. exact Hp.
Qed.
(** A tensor whose value does not depend on a cell does not read it. *)
Lemma no_dependence (a b : T) (m1 m2 : list T) l mt v :
  Some l ∈ operands mt -> m1 !! l = Some a -> m2 !! l = Some b -> mval m1 mt = Some v -> mval m2 mt = Some v -> a = b.
Proof using Type.
  intros Hl Ha Hb H1 H2. apply elem_of_list_lookup in Hl as [k Hk]. unfold mval in *.
  destruct (rds m1 (operands mt)) as [d1|] eqn:E1; [|discriminate]. destruct (rds m2 (operands mt)) as [d2|] eqn:E2; [|discriminate].
  injection H1 as <-. injection H2 as <-. unfold rds in *.
  pose proof (mapM_lookup _ _ _ _ _ E1 Hk) as L1. pose proof (mapM_lookup _ _ _ _ _ E2 Hk) as L2. cbn in L1, L2. congruence.
Qed.

Section Loop.
Variables (t0 : tst T) (inp weights neta : nat) (ni nw nn : node T) (nf c w h kw kh sx sy : N).
Let mi := nmat ni. Let mw := nmat nw. Let mn := nmat nn.
Hypotheses (Hti : tens t0 !! inp = Some ni) (Hsi : settled ni) (Hwi : wf_mat (length (mem t0)) mi) (Hshi : shape mi = [c; w; h]).
Hypotheses (Htw : tens t0 !! weights = Some nw) (Hsw : settled nw) (Hww : wf_mat (length (mem t0)) mw) (Hshw : shape mw = [nf; c; kw; kh]).
Hypotheses (Htn : tens t0 !! neta = Some nn) (Hsn : settled nn) (Hwn : wf_mat (length (mem t0)) mn) (Hshn : shape mn = conv_shape nf kw kh sx sy w h) (Hnd : NoDup (operands mn)).
Hypothesis Hdi : forall l, Some l ∈ operands mn -> Some l ∉ operands mi.
Hypothesis Hdw : forall l, Some l ∈ operands mn -> Some l ∉ operands mw.
Hypotheses (Hkw : (0 < kw <= w)%N) (Hkh : (0 < kh <= h)%N) (Hsx : (0 < sx)%N) (Hsy : (0 < sy)%N).

Definition cW (l : nat) : Prop := length (mem t0) <= l \/ Some l ∈ operands mn.
Record cinv (t : tst T) (done : list (list N)) (new : list (op T)) (C : list (nat * T)) (W : nat -> Prop) : Prop := {
  ci_seg : seg W t0 t new C;
  ci_W : forall l, W l -> cW l;
  ci_done : forall idx, idx ∈ done -> inr idx (shape mn);
  ci_val : forall m vx vw, length (mem t) <= length m -> consts C m -> mval m mi = Some vx -> mval m mw = Some vw ->
    match mapM (csum kw kh sx sy vx vw) done with
    | Some ss => exists m', exec new m = Some m' /\
        (forall k idx s, done !! k = Some idx -> ss !! k = Some s -> exists b, m !! celladdr mn idx = Some b /\ m' !! celladdr mn idx = Some (nadd b s)) /\
        (forall idx, inr idx (shape mn) -> idx ∉ done -> m' !! celladdr mn idx = m !! celladdr mn idx)
    | None => exec new m = None
    end;
}.
Definition rowok (t : tst T) (new : list (op T)) (C : list (nat * T)) (row : nat) (X : N) : Prop :=
  exists er, den t row er [c; kw; h] /\
    forall m m' vx, length (mem t) <= length m -> consts C m -> mval m mi = Some vx -> exec new m = Some m' ->
      evals t m' er = v_subx vx 1 (X * sx) (X * sx + kw) /\
      forall l a, Some l ∈ operands mn -> evals t (<[l := a]> m') er = evals t m' er.

Lemma fits_i : fits [c; w; h].
Proof using Hwi Hshi. rewrite <- Hshi. apply Hwi. Qed.
Lemma fits_le3 a b d a' b' d' : fits [a; b; d] -> (a' <= a)%N -> (b' <= b)%N -> (d' <= d)%N -> fits [a'; b'; d'].
Proof using Type.
  clear. intros [F1 F2] Ha Hb Hd. inversion F1 as [|? ? A1 F1']; subst. inversion F1' as [|? ? B1 F1'']; subst. inversion F1'' as [|? ? D1 _]; subst.
  split; [repeat constructor; lia|]. unfold prodN in *. cbn [foldr] in *. eapply N.le_lt_trans; [|exact F2].
  apply N.mul_le_mono; [exact Ha|]. apply N.mul_le_mono; [exact Hb|]. apply N.mul_le_mono; [exact Hd|]. lia.
Qed.
Lemma pos_lt k s W0 X : (0 < k <= W0 -> 0 < s -> X < (W0 - k) / s + 1 -> X * s + k <= W0)%N.
Proof using Type. clear. intros. assert (X <= (W0 - k) / s)%N by lia. pose proof (N.mul_div_le (W0 - k) s ltac:(lia)). nia. Qed.

Lemma conv_piece t done new C W row F X Y :
  cinv t done new C W -> rowok t new C row X -> (F < nf)%N -> (X < (w - kw) / sx + 1)%N -> (Y < (h - kh) / sy + 1)%N -> [F; X; Y] ∉ done ->
  exists t' new' C' W',
    (let offy := umul Y sy in
        cell <~ SubExtendedTensor row 2 offy (uadd offy kh) ;
        w1 <~ SubTensor weights 0 F (uadd F 1) ;
        w2 <~ Reshape w1 [c; kw; kh] ;
        cw <~ NewOp2 cell w2 Op2Mul ;
        sum <~ TensorMath cw RSum ;
        Build sum ;~
        n <~ mlift (GetOperand mn [F; X; Y]) ;
        ms <~ get_mat sum ;
        o <~ atM (operands ms) 0 ;
        push (OAdd n n o)) t = (Ok tt, t') /\
    cinv t' (done ++ [[F; X; Y]]) new' C' W' /\ rowok t' new' C' row X.
Proof using Hti Hsi Hwi Hshi Htw Hsw Hww Hshw Htn Hsn Hwn Hshn Hnd Hdi Hdw Hkw Hkh Hsx Hsy.
  intros [Sg HW Hdone Hval] (er & Hder & Her) HF HX HY Hnin.
  pose proof fits_i as Hfi. pose proof (pos_lt kw sx w X Hkw Hsx HX) as HXk. pose proof (pos_lt kh sy h Y Hkh Hsy HY) as HYk.
  assert (Hfw : fits [nf; c; kw; kh]) by (rewrite <- Hshw; apply Hww).
  assert (HwW : (w < W64)%N) by (destruct Hfi as [Hf _]; rewrite !Forall_cons in Hf; tauto).
  assert (HhW : (h < W64)%N) by (destruct Hfi as [Hf _]; rewrite !Forall_cons in Hf; tauto).
  assert (HnW : (nf < W64)%N) by (destruct Hfw as [Hf _]; rewrite !Forall_cons in Hf; tauto).
  assert (Hf3 : fits [c; kw; kh]) by (eapply fits_le3; [exact Hfi|lia..]).
  assert (Eoy : umul Y sy = (Y * sy)%N) by (apply umul_small; nia).
  assert (Eoy2 : uadd (umul Y sy) kh = (Y * sy + kh)%N) by (rewrite Eoy; apply uadd_small; lia).
  assert (EF : uadd F 1 = (F + 1)%N) by (apply uadd_small; lia).
  destruct (sg_keep _ _ _ _ _ Sg _ _ Htw) as (nw' & Htw' & Hkw' & Hbw' & Hsw'). destruct (Hsw' Hsw) as (Ew1 & Ew2 & Ew3).
  pose proof (keeps_settled _ _ Hkw' Hbw' Hsw) as Hsetw'.
  pose proof (sg_len _ _ _ _ _ Sg) as Hlen0.
  assert (Hwfw' : wf_mat (length (mem t)) (nmat nw')) by (eapply wf_kept; try eassumption; eapply wf_mat_mono; eassumption).
  pose proof (den_leaf _ _ _ Htw' Hsetw' Hwfw') as Hdw0. assert (Esh : shape (nmat nw') = [nf; c; kw; kh]) by (rewrite Ew1; exact Hshw). rewrite Esh in Hdw0.
  (* nodes *)
  destruct (node_step t (KSub row 2 (Y * sy) (Y * sy + kh) true) empty_mat eq_refl ltac:(discriminate)) as (t1 & E1 & S1 & Em1 & Et1 & Ec1 & G1 & V1).
  assert (D1 : den t1 (length (tens t)) (ESubX er 2 (Y * sy) (Y * sy + kh)) [c; kw; kh]).
  { eapply den_un; [exact Et1|exact Em1|reflexivity|discriminate|reflexivity|exact Hder|..].
    - intros Hv Hlt Hde. change 2 with (N.to_nat 2). econstructor; [exact Hv|exact Hlt|exact Hde].
    - cbn [shape_of]. rewrite (dn_sh _ _ _ _ Hder). cbn [mbind option_bind lookup list_lookup insert list_insert].
      replace (((Y * sy <? Y * sy + kh) && (Y * sy + kh <? W64))%N) with true by lia. replace (Y * sy + kh - Y * sy)%N with kh by lia. unfold fit.
      rewrite (proj2 (fitsb_fits _) Hf3). reflexivity.
    - split; [exact (dn_nc _ _ _ _ Hder)|]. intros sh0 m0 Hs0 Hm0. rewrite (dn_sh _ _ _ _ Hder) in Hs0. injection Hs0 as <-. cbn in Hm0. injection Hm0 as <-. left. exact HYk. }
  pose proof (G1 _ _ _ Hdw0) as Hdw1.
  destruct (node_step t1 (KSub weights 0 F (F + 1) false) empty_mat eq_refl ltac:(discriminate)) as (t2 & E2 & S2 & Em2 & Et2 & Ec2 & G2 & V2).
  assert (D2 : den t2 (length (tens t1)) (ESub (ELeaf weights) 0 F (F + 1)) [1; c; kw; kh]%N).
  { eapply den_un; [exact Et2|exact Em2|reflexivity|discriminate|reflexivity|exact Hdw1|..].
    - intros Hv Hlt Hde. change 0 with (N.to_nat 0). econstructor; [exact Hv|exact Hlt|exact Hde].
    - pose proof (dn_sh _ _ _ _ Hdw1) as Hs1. cbn [shape_of] in Hs1 |- *. rewrite Hs1. cbn [mbind option_bind lookup list_lookup insert list_insert].
      replace (((F <? F + 1) && (F + 1 <=? nf))%N) with true by lia. replace (F + 1 - F)%N with 1%N by lia. unfold fit.
      rewrite (proj2 (fitsb_fits _)); [reflexivity|]. destruct Hf3 as [Fa Fb]. split; [constructor; [reflexivity|exact Fa]|]. change (1 * prodN [c; kw; kh] < W64)%N. lia.
    - exact I. }
  pose proof (G2 _ _ _ D1) as D12.
  destruct (node_step t2 (KReshape (length (tens t1))) (MkMat [c; kw; kh] [] [] false) eq_refl ltac:(discriminate)) as (t3 & E3 & S3 & Em3 & Et3 & Ec3 & G3 & V3).
  assert (D3 : den t3 (length (tens t2)) (EReshape (ESub (ELeaf weights) 0 F (F + 1)) [c; kw; kh]) [c; kw; kh]).
  { eapply den_un; [exact Et3|exact Em3|reflexivity|discriminate|reflexivity|exact D2|..].
    - intros Hv Hlt Hde. change [c; kw; kh] with (shape (MkMat [c; kw; kh] [] [] false)). econstructor; [exact Hv|exact Hlt|exact Hde].
    - pose proof (dn_sh _ _ _ _ D2) as Hs2. cbn [shape_of] in Hs2 |- *. rewrite Hs2. cbn [mbind option_bind]. unfold fit. rewrite (proj2 (fitsb_fits _) Hf3). reflexivity.
    - exact I. }
  pose proof (G3 _ _ _ D12) as D13.
  destruct (node_step t3 (KOp2 (length (tens t)) (length (tens t2)) Op2Mul) empty_mat eq_refl ltac:(discriminate)) as (t4 & E4 & S4 & Em4 & Et4 & Ec4 & G4 & V4).
  set (eb := EBin BMul (ESubX er 2 (Y * sy) (Y * sy + kh)) (EReshape (ESub (ELeaf weights) 0 F (F + 1)) [c; kw; kh])).
  assert (D4 : den t4 (length (tens t3)) eb [c; kw; kh]).
  { eapply den_new; [exact Et4|exact Em4|reflexivity|discriminate|..].
    - unfold eb. change BMul with (bop Op2Mul). econstructor; [eapply view_top; [exact Et4|reflexivity]|eapply den_lt; exact D13|eapply den_lt; exact D3| |];
        (eapply den_denotes_grow; [exact Et4|reflexivity|eassumption]).
    - cbn [children]. intros x Hx. apply elem_of_cons in Hx as [->|Hx]; [split; [eapply den_lt; exact D13|eauto]|].
      apply elem_of_list_singleton in Hx as ->. split; [eapply den_lt; exact D3|eauto].
    - unfold eb. pose proof (dn_sh _ _ _ _ D13) as Ha. pose proof (dn_sh _ _ _ _ D3) as Hb. cbn [shape_of] in Ha, Hb |- *. rewrite Ha, Hb.
      cbn [mbind option_bind]. rewrite decide_True by reflexivity. reflexivity.
    - split; [exact (dn_nc _ _ _ _ D13)|exact (dn_nc _ _ _ _ D3)]. }
  destruct (node_step t4 (KTensorMath (length (tens t3)) RSum) empty_mat eq_refl ltac:(discriminate)) as (t5 & E5 & S5 & Em5 & Et5 & Ec5 & G5 & V5).
  assert (D5 : den t5 (length (tens t4)) (EReduce RedSum eb) [1%N]).
  { eapply den_un; [exact Et5|exact Em5|reflexivity|discriminate|reflexivity|exact D4|..].
    - intros Hv Hlt Hde. change RedSum with (rop RSum). econstructor; [exact Hv|exact Hlt|exact Hde].
    - cbn [shape_of]. rewrite (dn_sh _ _ _ _ D4). reflexivity.
    - exact (dn_nc _ _ _ _ D4). }
  pose proof (G5 _ _ _ (G4 _ _ _ (G3 _ _ _ (G2 _ _ _ (G1 _ _ _ Hder))))) as Dr5.
  assert (Em : mem t5 = mem t) by congruence.
  assert (Hev : forall m e, evals t5 m e = evals t m e) by (intros; rewrite V5, V4, V3, V2, V1; reflexivity).
  destruct (seg_build t5 (length (tens t4)) _ _ D5) as (t6 & new2 & C2 & W2 & EB & S6 & HW2 & Hl6 & (ns & Hns & Hbs & Hwfs & Hshs & Hout) & Hbelow).
  assert (Hbr : below (view t5) (length (tens t4)) row).
  { assert (Q5 : view t5 !! length (tens t4) = Some (MkNode (KTensorMath (length (tens t3)) RSum) empty_mat)) by (eapply view_top; [exact Et5|reflexivity]).
    assert (Q4 : view t5 !! length (tens t3) = Some (MkNode (KOp2 (length (tens t)) (length (tens t2)) Op2Mul) empty_mat))
      by (rewrite (view_app t4 t5 _ _ Et5 eq_refl); apply lookup_app_l_Some; eapply view_top; [exact Et4|reflexivity]).
    assert (Q1 : view t5 !! length (tens t) = Some (MkNode (KSub row 2 (Y * sy) (Y * sy + kh) true) empty_mat)).
    { rewrite (view_app t4 t5 _ _ Et5 eq_refl), (view_app t3 t4 _ _ Et4 eq_refl), (view_app t2 t3 _ _ Et3 eq_refl), (view_app t1 t2 _ _ Et2 eq_refl).
      do 4 apply lookup_app_l_Some. eapply view_top; [exact Et1|reflexivity]. }
    eapply B_step; [exact Q5|cbn; left|]. eapply B_step; [exact Q4|cbn; left|]. eapply B_step; [exact Q1|cbn; left|]. constructor. }
  destruct (Hbelow row er _ Hbr (dn_den _ _ _ _ Dr5) (dn_sh _ _ _ _ Dr5)) as (nr & Hnr & Hbr' & Hwfr & Hshr & Hrow).
  assert (Hcell : inr [F; X; Y] (shape mn)) by (rewrite Hshn; apply inr3; auto).
  destruct (celladdr_at _ _ _ Hwn Hcell) as (_ & Hclt & Hcin).
  set (a := celladdr mn [F; X; Y]) in *.
  assert (Hops : length (operands (nmat ns)) = 1) by (destruct Hwfs as (_ & _ & Hl & _); rewrite Hshs in Hl; cbn in Hl; lia).
  destruct (operands (nmat ns)) as [|os [|]] eqn:Eops; try discriminate. clear Hops.
  assert (Hos : exists lo, os = Some lo /\ lo < length (mem t6)).
  { destruct Hwfs as (_ & _ & _ & Hv). rewrite Eops in Hv. inversion Hv; subst. assumption. }
  destruct Hos as (lo & -> & Hlo).
  pose proof (sg_len _ _ _ _ _ S6) as Hlen6. rewrite Em in Hlen6, HW2.
  destruct (seg_push t6 (OAdd (Some a) (Some a) (Some lo)) a eq_refl ltac:(lia)) as (t7 & E7 & S7 & Em7 & Et7).
  exists t7, (new ++ new2 ++ [OAdd (Some a) (Some a) (Some lo)]), (C ++ C2), (either W (either W2 (fun l => l = a))). split.
  { cbv zeta. rewrite Eoy2, Eoy, EF. erewrite mbnd_ok by exact E1. erewrite mbnd_ok by exact E2. erewrite mbnd_ok by exact E3. erewrite mbnd_ok by exact E4. erewrite mbnd_ok by exact E5.
    erewrite mbnd_ok by exact EB. erewrite mbnd_ok by (rewrite (GetOperand_cell _ _ _ Hwn Hcell); reflexivity).
    erewrite mbnd_ok by (apply get_mat_ok; exact Hns). erewrite mbnd_ok by (apply atM_ok; rewrite Eops; reflexivity). exact E7. }
  pose proof (seg_still _ _ _ S1 (seg_still _ _ _ S2 (seg_still _ _ _ S3 (seg_still _ _ _ S4 S5)))) as S15.
  pose proof (proj1 (Forall_forall _ _) (sg_const _ _ _ _ _ Sg)) as HCo. pose proof (proj1 (Forall_forall _ _) (sg_const _ _ _ _ _ S6)) as HC2.
  assert (S67 : seg (either W2 (fun l => l = a)) t t7 (new2 ++ [OAdd (Some a) (Some a) (Some lo)]) C2).
  { pose proof (seg_app _ _ _ _ _ _ _ _ _ S15 S6 ltac:(intros ? Hx; inversion Hx)) as Q1. cbn [app] in Q1.
    assert (Q2 : seg W2 t t6 new2 C2).
    { eapply seg_weaken; [exact Q1|intros l [[]|Hl]; exact Hl|exact (sg_W _ _ _ _ _ S6)|intros c0 Hc0; apply (HC2 _ Hc0)]. }
    pose proof (seg_app _ _ _ _ _ _ _ _ _ Q2 S7 ltac:(intros c0 Hc0 Hx; destruct (HC2 _ Hc0) as [Hc1 _]; rewrite Em in Hc1; lia)) as Q3.
    rewrite app_nil_r in Q3. exact Q3. }
  assert (S07 : seg (either W (either W2 (fun l => l = a))) t0 t7 (new ++ new2 ++ [OAdd (Some a) (Some a) (Some lo)]) (C ++ C2)).
  { eapply seg_app; [exact Sg|exact S67|]. intros c0 Hc0. destruct (HCo _ Hc0) as (Hc1 & Hc2 & _). apply lookup_lt_Some in Hc2.
    intros [Hx|Hx]; [apply HW2 in Hx; lia|lia]. }
  assert (Hcv : forall m vx vw, mval m mi = Some vx -> mval m mw = Some vw ->
    (row ← v_subx vx 1 (X * sx) (X * sx + kw); cell ← v_subx row 2 (Y * sy) (Y * sy + kh);
     k1 ← v_sub vw 0 F (F + 1); p ← v_bin BMul cell (v_reshape k1 [c; kw; kh]); v_reduce RedSum p) =
    (s ← csum kw kh sx sy vx vw [F; X; Y]; Some (V [1%N] [s]))).
  { intros m vx vw Hvx Hvw. destruct (mval_shape _ _ _ Hvx) as [Hsvx _]. destruct (mval_shape _ _ _ Hvw) as [Hsvw _].
    apply (cell_value vx vw nf c w h kw kh sx sy F X Y); [rewrite Hsvx; exact Hshi|eapply (mval_vwf _ _ _ _ Hwi); exact Hvx|rewrite Hsvw; exact Hshw|eapply (mval_vwf _ _ _ _ Hww); exact Hvw|exact HF|exact HXk|exact HYk]. }
  assert (Hrv : forall m vx, mval m mi = Some vx -> exists vr, v_subx vx 1 (X * sx) (X * sx + kw) = Some vr).
  { intros m vx Hvx. destruct (row_value vx c w h (X * sx)%N kw) as (vr & Hvr & _); [destruct (mval_shape _ _ _ Hvx) as [-> _]; exact Hshi|eapply (mval_vwf _ _ _ _ Hwi); exact Hvx|exact HXk|eauto]. }
  clear Hkw Hkh Hsx Hsy HXk HYk HwW HhW HnW Eoy Eoy2 EF HF HX HY Hf3 Hfw Hfi.
  (* what the piece does *)
  assert (Hmiw : forall m m' l, length (mem t) <= length m -> exec new m = Some m' -> (Some l ∈ operands mi \/ Some l ∈ operands mw) -> m' !! l = m !! l).
  { intros m m' l Hm Hx Hl. eapply (sg_frame _ _ _ _ _ Sg); [exact Hm|exact Hx|]. intros Hw. apply HW in Hw as [Hw|Hw].
    - destruct Hl as [Hl|Hl]; [destruct Hwi as (_ & _ & _ & Hv)|destruct Hww as (_ & _ & _ & Hv)]; rewrite Forall_forall in Hv; destruct (Hv _ Hl) as (l' & [= <-] & Hlt); lia.
    - destruct Hl as [Hl|Hl]; [exact (Hdi _ Hw Hl)|exact (Hdw _ Hw Hl)]. }
  assert (Hpiece : forall m m1 vx vw x, length (mem t6) <= length m -> consts (C ++ C2) m -> mval m mi = Some vx -> mval m mw = Some vw -> exec new m = Some m1 ->
      (x = m1 \/ exists l v, x = <[l := v]> m1 /\ Some l ∈ operands mn) ->
      consts C2 x /\ length x = length m /\ evals t5 x er = v_subx vx 1 (X * sx) (X * sx + kw) /\
      evals t5 x (EReduce RedSum eb) = (s ← csum kw kh sx sy vx vw [F; X; Y]; Some (V [1%N] [s]))).
  { intros m m1 vx vw x Hm HC Hvx Hvw Hx Hxm. apply consts_app in HC as [HCa HCb]. assert (Hmt : length (mem t) <= length m) by lia.
    destruct (Her m m1 vx Hmt HCa Hvx Hx) as [Her1 Her2]. pose proof (exec_length _ _ _ Hx) as Hl1.
    assert (HC2m : consts C2 m1).
    { eapply (seg_const_keep _ _ _ _ _ m m1); [exact Sg|lia|exact Hx| |exact HCb]. intros c0 Hc0 Hw. apply (sg_W _ _ _ _ _ Sg) in Hw. destruct (HC2 _ Hc0) as [Hc1 _]. rewrite Em in Hc1. lia. }
    assert (Hvw1 : mval m1 mw = Some vw) by (rewrite <- Hvw; apply mval_off; intros l Hl; eapply Hmiw; eauto).
    assert (Hxs : consts C2 x /\ length x = length m /\ evals t x er = v_subx vx 1 (X * sx) (X * sx + kw) /\ mval x mw = Some vw).
    { destruct Hxm as [->|(l & v & -> & Hl)]; [auto|]. repeat split.
      - unfold consts in *. rewrite Forall_forall in HC2m |- *. intros c0 Hc0. rewrite list_lookup_insert_ne; [auto|]. destruct (HC2 _ Hc0) as [Hc1 _]. rewrite Em in Hc1.
        destruct Hwn as (_ & _ & _ & Hv). rewrite Forall_forall in Hv. destruct (Hv _ Hl) as (l' & [= <-] & Hlt). lia.
      - rewrite insert_length. exact Hl1.
      - rewrite Her2 by exact Hl. exact Her1.
      - rewrite <- Hvw1. apply mval_off. intros l0 Hl0. apply list_lookup_insert_ne. intros ->. exact (Hdw _ Hl Hl0). }
    destruct Hxs as (Hx1 & Hx2 & Hx3 & Hx4). split; [exact Hx1|]. split; [exact Hx2|]. split; [rewrite Hev; exact Hx3|].
    rewrite Hev. unfold evals in Hx3 |- *. unfold eb. cbn [eval]. rewrite Hx3. rewrite (leafv_settled _ _ _ _ Htw' Hsetw').
    rewrite (mval_kept _ _ _ Ew1 Ew3). fold mw. rewrite Hx4. cbn [mbind option_bind].
    rewrite <- (Hcv _ _ _ Hvx Hvw).
    destruct (v_subx vx 1 _ _) as [vr|]; [|reflexivity]. cbn [mbind option_bind]. destruct (v_subx vr 2 _ _) as [vc|]; [|reflexivity]. cbn [mbind option_bind].
    destruct (v_sub vw 0 _ _) as [vk|]; reflexivity. }
  assert (Hstep : forall m m1 vx vw s, length (mem t6) <= length m -> consts (C ++ C2) m -> mval m mi = Some vx -> mval m mw = Some vw -> exec new m = Some m1 ->
      csum kw kh sx sy vx vw [F; X; Y] = Some s -> forall x, (x = m1 \/ exists l v, x = <[l := v]> m1 /\ Some l ∈ operands mn) ->
      exists m2, exec new2 x = Some m2 /\ m2 !! lo = Some s /\ mval m2 (nmat nr) = v_subx vx 1 (X * sx) (X * sx + kw) /\ (forall l, l < length (mem t) -> m2 !! l = x !! l)).
  { intros m m1 vx vw s Hm HC Hvx Hvw Hx Hs x Hxm. destruct (Hpiece m m1 vx vw x Hm HC Hvx Hvw Hx Hxm) as (Hx1 & Hx2 & Hx3 & Hx4).
    rewrite Hs in Hx4. cbn [mbind option_bind] in Hx4. assert (Hlx : length (mem t6) <= length x) by lia.
    specialize (Hout x Hlx Hx1). rewrite Hx4 in Hout. destruct Hout as (m2 & Y1 & Y2). exists m2. split; [exact Y1|].
    destruct (Hrow x m2 Hlx Hx1 Y1) as (vr & Hvr & Hmr). split; [|split].
    - unfold mval in Y2. rewrite Eops in Y2. unfold rds in Y2. cbn in Y2. destruct (m2 !! lo) as [y|]; [|discriminate]. cbn in Y2. injection Y2 as _ ->. reflexivity.
    - rewrite Hmr, <- Hvr. exact Hx3.
    - intros l Hl. eapply (sg_frame _ _ _ _ _ S6); [exact Hlx|exact Y1|]. intros Hw. apply HW2 in Hw. lia. }
  assert (Hadd : forall m2 s b, m2 !! lo = Some s -> m2 !! a = Some b -> exec [OAdd (Some a) (Some a) (Some lo)] m2 = Some (<[a := nadd b s]> m2)).
  { intros m2 s b Hs Hb. cbn. rewrite Hb, Hs. cbn. rewrite decide_True by (eapply lookup_lt_Some; exact Hb). reflexivity. }
  split.
  - split.
    + exact S07.
    + intros l [Hl|[Hl|Hl]]; [auto|left; apply HW2 in Hl; lia|right; subst l; exact Hcin].
    + intros idx Hidx. apply elem_of_app in Hidx as [Hidx|Hidx]; [auto|]. apply elem_of_list_singleton in Hidx as ->. exact Hcell.
    + rewrite Em7. intros m vx vw Hm HC Hvx Hvw. pose proof (proj1 (consts_app _ _ _) HC) as [HCa _].
      specialize (Hval m vx vw ltac:(lia) HCa Hvx Hvw). rewrite mapM_app. destruct (mapM (csum kw kh sx sy vx vw) done) as [ss|] eqn:Ess; cbn [mbind option_bind].
      2:{ rewrite exec_app, Hval. reflexivity. }
      destruct Hval as (m1 & X1 & Hd1 & Hn1). rewrite exec_app, X1. cbn [mbind option_bind mapM]. pose proof (exec_length _ _ _ X1) as Hl1.
      destruct (csum kw kh sx sy vx vw [F; X; Y]) as [s0|] eqn:Es; cbn [mbind option_bind].
      2:{ destruct (Hpiece m m1 vx vw m1 Hm HC Hvx Hvw X1 (or_introl eq_refl)) as (Hx1 & Hx2 & _ & Hx4). rewrite Es in Hx4. cbn [mbind option_bind] in Hx4.
          specialize (Hout m1 ltac:(lia) Hx1). rewrite Hx4 in Hout. cbn [outcome] in Hout. rewrite exec_app, Hout. reflexivity. }
      destruct (Hstep m m1 vx vw s0 Hm HC Hvx Hvw X1 Es m1 (or_introl eq_refl)) as (m2 & X2 & Hlo2 & _ & Hlow).
      assert (Ha1 : m1 !! a = m !! a) by (apply Hn1; assumption).
      destruct (lookup_lt_is_Some_2 m a ltac:(lia)) as [b Hb].
      assert (Ha2 : m2 !! a = Some b) by (rewrite Hlow by lia; congruence).
      pose proof (exec_length _ _ _ X2) as Hl2.
      exists (<[a := nadd b s0]> m2). split; [rewrite exec_app, X2; apply Hadd; assumption|]. pose proof (mapM_length _ _ _ Ess) as Hlss. split.
      * intros k idx s Hk Hs. destruct (decide (k < length done)) as [Hlt|Hge].
        { rewrite lookup_app_l in Hk by lia. rewrite lookup_app_l in Hs by lia. destruct (Hd1 _ _ _ Hk Hs) as (b' & Hb' & Hm1). exists b'. split; [exact Hb'|].
          assert (Hidx : inr idx (shape mn)). { eapply Hdone. eapply elem_of_list_lookup_2. exact Hk. }
          assert (Hne : celladdr mn idx <> a).
          { intros Ec. eapply celladdr_inj in Ec; [|exact Hwn|exact Hnd|exact Hidx|exact Hcell]. subst idx. apply Hnin. eapply elem_of_list_lookup_2. exact Hk. }
          rewrite list_lookup_insert_ne by auto. rewrite Hlow; [exact Hm1|]. destruct (celladdr_at _ _ _ Hwn Hidx) as (_ & Hlt' & _). lia. }
        { rewrite lookup_app_r in Hk by lia. rewrite lookup_app_r in Hs by lia. destruct (k - length done) as [|q] eqn:Eq; [|rewrite lookup_nil in Hk || cbn in Hk; discriminate].
          cbn in Hk. injection Hk as <-. replace (k - length ss) with 0 in Hs by lia. cbn in Hs. injection Hs as <-. exists b. split; [exact Hb|].
          apply list_lookup_insert. lia. }
      * intros idx Hidx Hni. rewrite elem_of_app in Hni. assert (Hne : celladdr mn idx <> a).
        { intros Ec. eapply celladdr_inj in Ec; [|exact Hwn|exact Hnd|exact Hidx|exact Hcell]. subst idx. apply Hni. right. left. }
        rewrite list_lookup_insert_ne by auto. rewrite Hlow by (destruct (celladdr_at _ _ _ Hwn Hidx) as (_ & Hlt' & _); lia). apply Hn1; tauto.
  - exists (ELeaf row). assert (Hnr7 : tens t7 !! row = Some nr) by (rewrite Et7; exact Hnr).
    assert (Hwfr7 : wf_mat (length (mem t7)) (nmat nr)) by (rewrite Em7; exact Hwfr). split.
    + rewrite <- Hshr. apply den_leaf; [exact Hnr7|right; exact Hbr'|exact Hwfr7].
    + rewrite Em7. intros m m3 vx Hm HC Hvx Hx3. unfold evals. cbn [eval].
      rewrite (leafv_settled _ _ _ _ Hnr7 (or_intror Hbr')). rewrite exec_app in Hx3. apply bind_Some in Hx3 as (m1 & X1 & Hx3). rewrite exec_app in Hx3. apply bind_Some in Hx3 as (m2' & X2' & Hx3).
      destruct (mval_total _ m mw Hww ltac:(lia)) as [vw Hvw].
      destruct (csum kw kh sx sy vx vw [F; X; Y]) as [s0|] eqn:Es.
      2:{ destruct (Hpiece m m1 vx vw m1 Hm HC Hvx Hvw X1 (or_introl eq_refl)) as (Hx1 & Hx2 & _ & Hx4). rewrite Es in Hx4. cbn [mbind option_bind] in Hx4.
          specialize (Hout m1 ltac:(lia) Hx1). rewrite Hx4 in Hout. cbn [outcome] in Hout. congruence. }
      destruct (Hstep m m1 vx vw s0 Hm HC Hvx Hvw X1 Es m1 (or_introl eq_refl)) as (m2 & X2 & Hlo2 & Hr2 & Hlow).
      assert (m2' = m2) as -> by congruence. pose proof (exec_length _ _ _ X1) as Hl1. pose proof (exec_length _ _ _ X2) as Hl2.
      destruct (lookup_lt_is_Some_2 m2 a ltac:(lia)) as [b Hb]. rewrite (Hadd _ _ _ Hlo2 Hb) in Hx3. injection Hx3 as <-.
      assert (Hins : forall l (v : T) (x : list T), Some l ∈ operands mn -> length x = length m2 -> mval (<[l := v]> x) (nmat nr) = mval x (nmat nr)).
      { intros l v x Hl Hlx. assert (Hll : l < length (mem t0)) by (destruct Hwn as (_ & _ & _ & Hv); rewrite Forall_forall in Hv; destruct (Hv _ Hl) as (l' & [= <-] & Hlt); exact Hlt).
        apply mval_off. intros l0 Hl0. destruct (decide (l0 = l)) as [->|Hne]; [|apply list_lookup_insert_ne; auto].
        rewrite list_lookup_insert by lia. destruct (lookup_lt_is_Some_2 x l ltac:(lia)) as [u Hu]. rewrite Hu. f_equal.
        destruct (Hrv _ _ Hvx) as [vr Hvr].
        destruct (Hstep m m1 vx vw s0 Hm HC Hvx Hvw X1 Es (<[l := v]> m1)) as (p1 & _ & _ & Hp1 & Hp1l); [right; eauto|].
        destruct (Hstep m m1 vx vw s0 Hm HC Hvx Hvw X1 Es (<[l := u]> m1)) as (p2 & _ & _ & Hp2 & Hp2l); [right; eauto|].
        eapply (no_dependence v u p1 p2 l (nmat nr) vr); [exact Hl0| | |rewrite Hp1; exact Hvr|rewrite Hp2; exact Hvr].
        - rewrite Hp1l by lia. apply list_lookup_insert. lia.
        - rewrite Hp2l by lia. apply list_lookup_insert. lia. }
      split.
      * rewrite Hins by (auto || exact Hcin). exact Hr2.
      * intros l v Hl. rewrite !(leafv_settled _ _ _ _ Hnr7 (or_intror Hbr')). rewrite Hins by (auto; rewrite insert_length; reflexivity). reflexivity.
Qed.
End Loop.
End FwdConv.
