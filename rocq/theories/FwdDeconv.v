(** * FwdDeconv: the deconvolution layer *)
From Verif Require Import Base Num ModelTools ModelOps ModelTensor ModelGraph ModelLayer Spec Denote NetSpec FwdSpec
  IndexProofs ExecProofs TensorFacts AccessProofs BuildProofs BuildFrame CompileProofs EagerOps Agree FwdMask FwdBuild FwdSeg FwdOps FwdPool NetExec NetBuild NetChain FwdProv FwdOnly FwdBody FwdExpr FwdConv FwdConv2 FwdAct FwdKer.
From Coq Require Import Lia ZifyBool ZifyNat ZifyN.

Section FwdDeconv.
Context {T : Type} `{Num T}.
Notation inr := (Forall2 (fun i d => (i < d)%N)).

Lemma mval_tabulate n (m : list T) mt (g : list N -> option T) : wf_mat n mt ->
  (forall idx, inr idx (shape mt) -> exists v, g idx = Some v /\ m !! celladdr mt idx = Some v) -> mval m mt = tabulate (shape mt) g.
Proof using Type.
  intros Hwf Hg. assert (Hg' : forall idx, idx ∈ indices (shape mt) -> exists v, g idx = Some v /\ m !! celladdr mt idx = Some v) by (intros idx Hi; apply Hg, elem_of_indices; exact Hi).
  destruct (mapM_total g (indices (shape mt))) as [vs Hvs]; [intros idx Hin; destruct (Hg' idx Hin) as (v & Hv & _); eauto|].
  unfold tabulate. rewrite Hvs. cbn [mbind option_bind]. apply (mval_tab n); [exact Hwf|]. apply mapM_Some in Hvs.
  apply Forall2_same_length_lookup_2; [eapply Forall2_length; exact Hvs|]. intros p idx v Hpi Hpv.
  pose proof (Forall2_lookup_lr _ _ _ _ _ _ Hvs Hpi Hpv) as Hk1. destruct (Hg' idx) as (v' & Hv' & Hm'); [eapply elem_of_list_lookup_2; exact Hpi|]. cbn in Hk1. congruence.
Qed.

(** ** One contribution and the sum of those that reach a cell *)
Definition dterm (vx vw : vten T) (q : list N) : option T :=
  match q with
  | [F; c; i; j; u; v] => a ← at_ (vsh vx) (vdata vx) [c; i; j]; b ← at_ (vsh vw) (vdata vw) [F; c; u; v]; Some (nmul a b)
  | _ => None
  end.
Definition dhit (sx sy : N) (q : list N) : list N :=
  match q with [F; c; i; j; u; v] => [F; i * sx + u; j * sy + v]%N | _ => [] end.
Definition dsum (sx sy : N) (vx vw : vten T) (done : list (list N)) (idx : list N) (b : T) : option T :=
  l ← mapM (dterm vx vw) (List.filter (fun q => bool_decide (dhit sx sy q = idx)) done); Some (fold_left nadd l b).
Definition dcell (sx sy : N) (vx vw vb : vten T) (sh6 : list N) (idx : list N) : option T :=
  b ← at_ (vsh vb) (vdata vb) idx; dsum sx sy vx vw (indices sh6) idx b.

Lemma filter_flat_map {A B} (p : B -> bool) (f : A -> list B) l : List.filter p (flat_map f l) = flat_map (fun a => List.filter p (f a)) l.
Proof using Type. induction l as [|a l IH]; [reflexivity|]. cbn [flat_map]. rewrite List.filter_app, IH. reflexivity. Qed.
Lemma filter_false {A} (p : A -> bool) l : (forall x, x ∈ l -> p x = false) -> List.filter p l = [].
Proof using Type. induction l as [|a l IH]; intros Hp; [reflexivity|]. cbn. rewrite (Hp a) by left. apply IH. intros; apply Hp; right; assumption. Qed.
Lemma filter_map {A B} (p : B -> bool) (f : A -> B) l : List.filter p (map f l) = map f (List.filter (fun a => p (f a)) l).
Proof using Type. induction l as [|a l IH]; [reflexivity|]. cbn. destruct (p (f a)); cbn; rewrite IH; reflexivity. Qed.
Lemma filter_ext_el {A} (p q : A -> bool) l : (forall x, x ∈ l -> p x = q x) -> List.filter p l = List.filter q l.
Proof using Type. induction l as [|a l IH]; intros Hp; [reflexivity|]. cbn. rewrite (Hp a) by left. rewrite IH by (intros; apply Hp; right; assumption). reflexivity. Qed.
Lemma hits_row sx sy nf c w h kw kh F X Y : (F < nf)%N ->
  List.filter (fun q => bool_decide (dhit sx sy q = [F; X; Y])) (indices [nf; c; w; h; kw; kh]) =
  map (cons F) (List.filter (fun q => match q with [_; i; j; u; v] => (i * sx + u =? X)%N && (j * sy + v =? Y)%N | _ => false end) (indices [c; w; h; kw; kh])).
Proof using Type.
  intros HF. change (indices [nf; c; w; h; kw; kh]) with (flat_map (fun i => map (cons i) (indices [c; w; h; kw; kh])) (upto nf)). rewrite filter_flat_map.
  assert (Hrow : forall G, List.filter (fun q => bool_decide (dhit sx sy q = [F; X; Y])) (map (cons G) (indices [c; w; h; kw; kh])) =
    if (G =? F)%N then map (cons F) (List.filter (fun q => match q with [_; i; j; u; v] => (i * sx + u =? X)%N && (j * sy + v =? Y)%N | _ => false end) (indices [c; w; h; kw; kh])) else []).
  { intros G. destruct (N.eqb_spec G F) as [->|Hne].
    - rewrite filter_map. f_equal. apply filter_ext_el. intros q Hq. apply elem_of_indices in Hq. pose proof (Forall2_length _ _ _ Hq) as Hl.
      destruct q as [|a [|i [|j [|u [|v [|]]]]]]; try discriminate. cbn [dhit].
      destruct (N.eqb_spec (i * sx + u) X) as [->|N1]; destruct (N.eqb_spec (j * sy + v) Y) as [->|N2]; cbn [andb].
      + apply bool_decide_eq_true_2. reflexivity.
      + apply bool_decide_eq_false_2. intros [=]. contradiction.
      + apply bool_decide_eq_false_2. intros [=]. contradiction.
      + apply bool_decide_eq_false_2. intros [=]. contradiction.
    - apply filter_false. intros q Hq. apply elem_of_list_fmap in Hq as (q' & -> & Hq). apply elem_of_indices in Hq. pose proof (Forall2_length _ _ _ Hq) as Hl.
      destruct q' as [|a [|i [|j [|u [|v [|]]]]]]; try discriminate. cbn [dhit]. apply bool_decide_eq_false_2. intros [=]. contradiction. }
  assert (Hu : exists p q, upto nf = p ++ F :: q /\ F ∉ p /\ F ∉ q).
  { assert (Hn : NoDup (upto nf)). { unfold upto. apply NoDup_fmap_2; [intros a b; lia|apply NoDup_seq]. }
    assert (HFi : F ∈ upto nf) by (apply elem_of_upto; exact HF). apply elem_of_list_split in HFi as (p & q & E). exists p, q. split; [exact E|].
    rewrite E in Hn. apply NoDup_app in Hn as (_ & Hn & Hn2). apply NoDup_cons in Hn2 as [Hn2 _]. split; [|exact Hn2]. intros Hp. apply (Hn F Hp). left. }
  destruct Hu as (p & q & -> & Hp & Hq).
  assert (Hz : forall l, F ∉ l -> flat_map (fun a => List.filter (fun q => bool_decide (dhit sx sy q = [F; X; Y])) (map (cons a) (indices [c; w; h; kw; kh]))) l = []).
  { induction l as [|a l IH]; intros Ha; [reflexivity|]. cbn [flat_map]. rewrite Hrow. apply not_elem_of_cons in Ha as [Ha Hb]. destruct (N.eqb_spec a F); [congruence|]. apply IH. exact Hb. }
  rewrite flat_map_app. cbn [flat_map]. rewrite (Hz p Hp), (Hz q Hq), Hrow, N.eqb_refl, app_nil_r. reflexivity.
Qed.
Lemma mapM_map {A B C} (f : B -> option C) (g : A -> B) l : mapM f (map g l) = mapM (fun a => f (g a)) l.
Proof using Type. induction l as [|a l IH]; [reflexivity|]. cbn. rewrite IH. reflexivity. Qed.
Lemma v_deconv_eq kw kh sx sy f (b wt x : vten T) nf c w h ow oh : vsh b = [nf; ow; oh] -> vsh x = [c; w; h] ->
  v_deconv kw kh sx sy f b wt x = (v ← tabulate (vsh b) (dcell sx sy x wt b [nf; c; w; h; kw; kh]); Some (v_map f v)).
Proof using Type.
  intros Hb Hx. rewrite <- tab_map. unfold v_deconv. apply tab_ext. rewrite Hb. intros idx Hi. apply inr3_inv in Hi as (F & X & Y & -> & HF & _). unfold dcell, dsum. rewrite Hb, Hx.
  rewrite hits_row by exact HF. rewrite mapM_map. change ([c; w; h] ++ [kw; kh]) with [c; w; h; kw; kh].
  set (l := List.filter _ _).
  assert (E : mapM (fun k => match k with [c0; i; j; u; v] => p ← at_ [c; w; h] (vdata x) [c0; i; j]; q ← at_ (vsh wt) (vdata wt) [F; c0; u; v]; Some (nmul p q) | _ => None end) l = mapM (fun a => dterm x wt (F :: a)) l).
  { apply mapM_ext_in. intros q _. destruct q as [|c0 [|i [|j [|u [|v [|]]]]]]; try reflexivity. cbn [dterm]. rewrite Hx. reflexivity. }
  rewrite E. clearbody l. clear E. destruct (at_ [nf; ow; oh] (vdata b) [F; X; Y]); destruct (mapM (fun a => dterm x wt (F :: a)) l); reflexivity.
Qed.

(** ** The loops *)
Section Loop.
Variables (t0 : tst T) (inp weights neta : nat) (ni nw nn : node T) (nf c w h kw kh sx sy : N).
Notation mi := (nmat ni). Notation mw := (nmat nw). Notation mn := (nmat nn).
Hypotheses (Hti : tens t0 !! inp = Some ni) (Hwi : wf_mat (length (mem t0)) mi) (Hshi : shape mi = [c; w; h]).
Hypotheses (Htw : tens t0 !! weights = Some nw) (Hww : wf_mat (length (mem t0)) mw) (Hshw : shape mw = [nf; c; kw; kh]).
Hypotheses (Htn : tens t0 !! neta = Some nn) (Hwn : wf_mat (length (mem t0)) mn) (Hshn : shape mn = deconv_shape nf kw kh sx sy w h) (Hnd : NoDup (operands mn)).
Hypothesis Hdi : forall l, Some l ∈ operands mn -> Some l ∉ operands mi.
Hypothesis Hdw : forall l, Some l ∈ operands mn -> Some l ∉ operands mw.
Hypotheses (Hw0 : (0 < w)%N) (Hh0 : (0 < h)%N).

Definition dW (l : nat) : Prop := length (mem t0) <= l \/ Some l ∈ operands mn.
Record dinv (done : list (list N)) (t : tst T) (new : list (op T)) (W : nat -> Prop) : Prop := {
  di_seg : seg W t0 t new [];
  di_W : forall l, W l -> dW l;
  di_val : forall m vx vw, length (mem t) <= length m -> mval m mi = Some vx -> mval m mw = Some vw ->
    exists m', exec new m = Some m' /\ forall idx, inr idx (shape mn) ->
      exists b v, m !! celladdr mn idx = Some b /\ dsum sx sy vx vw done idx b = Some v /\ m' !! celladdr mn idx = Some v;
}.
Lemma in6 q : inr q [nf; c; w; h; kw; kh] -> exists F a i j u v, q = [F; a; i; j; u; v] /\ inr [a; i; j] (shape mi) /\ inr [F; a; u; v] (shape mw) /\
  inr [F; i * sx + u; j * sy + v]%N (shape mn) /\ (i * sx + u <= (w - 1) * sx + kw)%N /\ (j * sy + v <= (h - 1) * sy + kh)%N.
Proof using Hshi Hshw Hshn Hw0 Hh0.
  clear Hti Hwi Htw Hww Htn Hwn Hnd Hdi Hdw. intros Hq. pose proof (Forall2_length _ _ _ Hq) as Hl. destruct q as [|F [|a [|i [|j [|u [|v [|]]]]]]]; try discriminate.
  repeat (apply Forall2_cons in Hq; destruct Hq as [? Hq]). exists F, a, i, j, u, v. split; [reflexivity|].
  assert (Hx : (i * sx + u < (w - 1) * sx + kw)%N) by nia. assert (Hy : (j * sy + v < (h - 1) * sy + kh)%N) by nia.
  split; [rewrite Hshi; repeat constructor; assumption|]. split; [rewrite Hshw; repeat constructor; assumption|].
  split; [rewrite Hshn; repeat constructor; assumption|]. split; lia.
Qed.
Lemma filter_snoc {A} (p : A -> bool) l x : List.filter p (l ++ [x]) = List.filter p l ++ (if p x then [x] else []).
Proof using Type. rewrite List.filter_app. cbn. destruct (p x); reflexivity. Qed.
Lemma deconv_piece done t new W q : dinv done t new W -> inr q [nf; c; w; h; kw; kh] ->
  exists t', match q with
    | [outF; inF; x; y; kx; ky] =>
        out <~ mlift (GetOperand mn [outF; uadd (umul x sx) kx; uadd (umul y sy) ky]) ;
        i <~ mlift (GetOperand mi [inF; x; y]) ;
        w <~ mlift (GetOperand mw [outF; inF; kx; ky]) ;
        p <~ alloc nzero ; push (OMul p i w) ;~ push (OAdd out out p)
    | _ => mpanic end t = (Ok tt, t') /\ exists new' W', dinv (done ++ [q]) t' new' W'.
Proof using All.
  intros [Sg HW HV] Hq. destruct (in6 q Hq) as (F & a & i & j & u & v & -> & Ri & Rw & Rn & Bx & By).
  assert (Hf3 : fits (shape mn)) by apply Hwn.
  assert (Hsm : uadd (umul i sx) u = (i * sx + u)%N /\ uadd (umul j sy) v = (j * sy + v)%N).
  { rewrite Hshn in Hf3. unfold deconv_shape in Hf3. destruct Hf3 as [Hf3 _]. rewrite !Forall_cons in Hf3.
    split; (rewrite umul_small by lia; apply uadd_small; lia). }
  destruct Hsm as [-> ->]. clear Hq Hf3 Bx By Hw0 Hh0.
  set (idx0 := [F; i * sx + u; j * sy + v]%N) in *.
  destruct (celladdr_at _ _ _ Hwi Ri) as (_ & Li & Oi). destruct (celladdr_at _ _ _ Hww Rw) as (_ & Lw & Ow). destruct (celladdr_at _ _ _ Hwn Rn) as (_ & Ln & On).
  set (ai := celladdr mi [a; i; j]) in *. set (aw := celladdr mw [F; a; u; v]) in *. set (an := celladdr mn idx0) in *. set (ap := length (mem t)).
  pose proof (sg_len _ _ _ _ _ Sg) as Hlt.
  destruct (seg_alloc t nzero) as (t1 & E1 & S1 & Em1 & Et1 & Ec1).
  destruct (seg_push t1 (OMul (Some ap) (Some ai) (Some aw)) ap eq_refl ltac:(rewrite Em1, app_length; cbn; unfold ap; lia)) as (t2 & E2 & S2 & Em2 & Et2).
  destruct (seg_push t2 (OAdd (Some an) (Some an) (Some ap)) an eq_refl ltac:(rewrite Em2, Em1, app_length; cbn; lia)) as (t3 & E3 & S3 & Em3 & Et3).
  exists t3. split.
  { erewrite mbnd_ok by (unfold mlift; rewrite (GetOperand_cell _ _ _ Hwn Rn); reflexivity).
    erewrite mbnd_ok by (unfold mlift; rewrite (GetOperand_cell _ _ _ Hwi Ri); reflexivity).
    erewrite mbnd_ok by (unfold mlift; rewrite (GetOperand_cell _ _ _ Hww Rw); reflexivity).
    erewrite mbnd_ok by exact E1. erewrite mbnd_ok by exact E2. exact E3. }
  assert (S1' : seg nowhere t t1 [] []) by (eapply seg_forget; [exact S1|intros ? Hc; inversion Hc]).
  pose proof (seg_app _ _ _ _ _ _ _ _ _ Sg S1' ltac:(intros ? Hc; inversion Hc)) as P1.
  pose proof (seg_app _ _ _ _ _ _ _ _ _ P1 S2 ltac:(intros ? Hc; inversion Hc)) as P2.
  pose proof (seg_app _ _ _ _ _ _ _ _ _ P2 S3 ltac:(intros ? Hc; inversion Hc)) as P3. cbn [app] in P3.
  eexists _, _. split; [exact P3| |].
  - intros l [[[Hl|[]]| ->]| ->]; [apply HW; exact Hl|left; exact Hlt|right; exact On].
  - intros m vx vw Hm Hvx Hvw. assert (Hmt : length (mem t) < length m) by (rewrite Em3, Em2, Em1, app_length in Hm; cbn in Hm; lia).
    destruct (HV m vx vw ltac:(lia) Hvx Hvw) as (m1 & X1 & C1). pose proof (exec_length _ _ _ X1) as Hl1.
    assert (Hoff : forall l, Some l ∈ operands mi \/ Some l ∈ operands mw -> m1 !! l = m !! l).
    { intros l Hl. apply (sg_frame _ _ _ _ _ Sg m m1); [lia|exact X1|]. intros Hw. apply HW in Hw as [Hw|Hw].
      - destruct Hl as [Hl|Hl]; [pose proof (wf_lt _ _ _ Hwi Hl)|pose proof (wf_lt _ _ _ Hww Hl)]; lia.
      - destruct Hl as [Hl|Hl]; [exact (Hdi _ Hw Hl)|exact (Hdw _ Hw Hl)]. }
    destruct (lookup_lt_is_Some_2 m ai ltac:(lia)) as [xi Hxi]. destruct (lookup_lt_is_Some_2 m aw ltac:(lia)) as [xw Hxw].
    assert (Hxi1 : m1 !! ai = Some xi) by (rewrite Hoff by auto; exact Hxi). assert (Hxw1 : m1 !! aw = Some xw) by (rewrite Hoff by auto; exact Hxw).
    assert (Hterm : dterm vx vw [F; a; i; j; u; v] = Some (nmul xi xw)).
    { cbn [dterm]. rewrite (mval_at _ _ _ _ _ Hwi Hvx Ri). fold ai. rewrite Hxi. cbn [mbind option_bind]. rewrite (mval_at _ _ _ _ _ Hww Hvw Rw). fold aw. rewrite Hxw. reflexivity. }
    destruct (C1 idx0 Rn) as (b0 & v0 & Hb0 & Hs0 & Hv0). fold an in Hb0, Hv0.
    exists (<[an := nadd v0 (nmul xi xw)]> (<[ap := nmul xi xw]> m1)). split.
    + rewrite app_nil_r, !exec_app, X1. cbn [mbind option_bind].
      assert (Ex : exec [OMul (Some ap) (Some ai) (Some aw)] m1 = Some (<[ap := nmul xi xw]> m1)).
      { cbn. rewrite Hxi1, Hxw1. cbn. rewrite decide_True by (unfold ap; lia). reflexivity. }
      rewrite Ex. cbn [mbind option_bind]. set (mx := <[ap := nmul xi xw]> m1). assert (Hy1 : mx !! an = Some v0) by (unfold mx; rewrite list_lookup_insert_ne by (unfold ap; lia); exact Hv0).
      assert (Hy2 : mx !! ap = Some (nmul xi xw)) by (unfold mx; apply list_lookup_insert; unfold ap; lia). assert (Hlx : length mx = length m1) by apply insert_length. clearbody mx.
      cbn. rewrite Hy1, Hy2. cbn.
      rewrite decide_True by lia. reflexivity.
    + intros idx Hidx. destruct (C1 idx Hidx) as (b & y & Hb & Hs & Hy). exists b.
      destruct (celladdr_at _ _ _ Hwn Hidx) as (_ & Lx & Ox).
      destruct (decide (idx = idx0)) as [->|Hne].
      * fold an. fold an in Hb, Hy. assert (b0 = b) as -> by congruence. assert (v0 = y) as -> by congruence. exists (nadd y (nmul xi xw)). split; [exact Hb|]. split.
        { unfold dsum in Hs |- *. rewrite filter_snoc. cbn [dhit]. fold idx0. rewrite bool_decide_eq_true_2 by reflexivity. rewrite mapM_app.
          destruct (mapM (dterm vx vw) (List.filter _ done)) as [l|]; [|discriminate]. cbn [mbind option_bind] in Hs |- *. injection Hs as <-.
          cbn [mapM]. rewrite Hterm. unfold stdpp.base.mret, option_ret. cbn [mbind option_bind]. rewrite fold_left_app. reflexivity. }
        rewrite list_lookup_insert by (rewrite insert_length; lia). reflexivity.
      * exists y. split; [exact Hb|]. split.
        { unfold dsum in Hs |- *. rewrite filter_snoc. cbn [dhit]. fold idx0. rewrite bool_decide_eq_false_2 by congruence. rewrite app_nil_r. exact Hs. }
        rewrite list_lookup_insert_ne.
        2:{ intros Ec. apply Hne. eapply celladdr_inj; [exact Hwn|exact Hnd|exact Hidx|exact Rn|]. symmetry. exact Ec. }
        rewrite list_lookup_insert_ne by (unfold ap; lia). exact Hy.
Qed.
Lemma deconv_ff_ok : exists t' new W, deconv_ff inp weights neta [c; w; h] nf kw kh sx sy t0 = (Ok tt, t') /\ dinv (indices [nf; c; w; h; kw; kh]) t' new W.
Proof using All.
  unfold deconv_ff. erewrite mbnd_ok by (apply get_mat_ok; exact Hti). erewrite mbnd_ok by (apply get_mat_ok; exact Htw). erewrite mbnd_ok by (apply get_mat_ok; exact Htn).
  cbn [nth].
  set (f := fun q : list N => match q with
    | [outF; inF; x; y; kx; ky] =>
        out <~ mlift (GetOperand mn [outF; uadd (umul x sx) kx; uadd (umul y sy) ky]) ;
        i <~ mlift (GetOperand mi [inF; x; y]) ;
        w <~ mlift (GetOperand mw [outF; inF; kx; ky]) ;
        p <~ alloc nzero ; push (OMul p i w) ;~ push (OAdd out out p)
    | _ => mpanic end : TM T unit).
  match goal with |- exists t' new W, ?e = _ /\ _ => assert (E : e = mfor (indices [nf; c; w; h; kw; kh]) f t0) end.
  { symmetry. do 6 (rewrite mfor_indices_cons; apply mfor_ext; intros ? ? _). rewrite mfor_indices_nil. reflexivity. }
  rewrite E. destruct (mfor_inv (fun done t => exists new W, dinv done t new W) f (indices [nf; c; w; h; kw; kh]) t0) as (t' & E' & new & W & P).
  - exists [], nowhere. split; [apply seg_refl|intros l []|]. intros m vx vw Hm _ _. exists m. split; [reflexivity|]. intros idx Hidx.
    destruct (celladdr_at _ _ _ Hwn Hidx) as (_ & Lx & _). destruct (lookup_lt_is_Some_2 m (celladdr mn idx) ltac:(lia)) as [b Hb]. exists b, b. repeat split; assumption.
  - intros pre q post t Ep (new & W & P). apply (deconv_piece pre t new W q P). apply elem_of_indices. rewrite Ep. apply elem_of_app. right. left.
  - exists t', new, W. split; [exact E'|exact P].
Qed.
End Loop.

Context (rnd : nat -> nat -> T).
Lemma body_deconv (s : lst T) id L inp n nf kw kh sx sy act sh' :
  lays s !! id = Some L -> lkind_of L = LDeconv2D nf kw kh sx sy -> lten L FInput = Some inp -> lact L = Some act ->
  tens (ts s) !! inp = Some n -> settled n -> wf_mat (length (mem (ts s))) (nmat n) ->
  lay_shape (SDeconv nf kw kh sx sy (act_f act)) (shape (nmat n)) = Some sh' ->
  exists s', ff_body rnd id s = (Ok tt, s') /\ body_ok rnd nowhere s s' id L (nmat n) (SDeconv nf kw kh sx sy (act_f act)) sh'.
Proof using Type.
  intros HL Hk Hi Ha Hn Hset Hwf Hls. unfold ff_body. erewrite mbnd_ok by (apply getL_ok; exact HL). rewrite Hk, Hi.
  erewrite mbnd_ok by (apply shapeT_ok; exact Hn). cbn [lay_shape] in Hls.
  destruct (shape (nmat n)) as [|c [|w [|h [|]]]] eqn:Hsh; try discriminate. cbn [length Nat.eqb negb nth].
  destruct ((0 <? w) && (0 <? h))%N eqn:Ec; [|discriminate].
  cbn [andb] in Hls. destruct (fitsb _) eqn:Ef in Hls; [|discriminate]. destruct (fitsb _) eqn:Ew in Hls; [|discriminate]. injection Hls as <-.
  apply fitsb_fits in Ef, Ew.
  assert (Hfi : fits [c; w; h]) by (rewrite <- Hsh; apply Hwf).
  assert (HwW : (w < W64 /\ h < W64)%N) by (destruct Hfi as [Hf _]; rewrite !Forall_cons in Hf; tauto).
  assert (Hd : (0 < w /\ 0 < h)%N) by lia. clear Ec. destruct Hd as (Hw0 & Hh0).
  assert (Hq : ((w - 1) * sx + kw < W64 /\ (h - 1) * sy + kh < W64)%N) by (destruct Ef as [Hf _]; unfold deconv_shape in Hf; rewrite !Forall_cons in Hf; tauto).
  rewrite !usub_small by lia. rewrite !umul_small by lia. rewrite !uadd_small by lia. cbv zeta. change [nf; (w - 1) * sx + kw; (h - 1) * sy + kh]%N with (deconv_shape nf kw kh sx sy w h).
  set (outSh := deconv_shape nf kw kh sx sy w h) in *. set (wsh := [nf; c; kw; kh]) in *.
  rewrite (alloc5 rnd s id L outSh wsh (fun neta bias weights => liftT (Transfer bias neta) ;~ liftT (Transfer bias neta) ;~ liftT (deconv_ff inp weights neta [c; w; h] nf kw kh sx sy) ;~
            a <~ the (lact L) ; out <~ liftT (NActivate neta (act_f a)) ; setF id FOutput out ;~ liftT (Build out)) HL Ef Ew).
  destruct (bias_first rnd s outSh wsh Ef Ew) as (t6' & new6' & E6' & B6'). erewrite mbnd_ok by (apply liftT_ok; exact E6'). cbn [lays rc].
  destruct (bias_again rnd s outSh wsh Ef Ew _ _ B6') as (t6 & new6 & E6 & Em6 & S6 & X6). erewrite mbnd_ok by (apply liftT_ok; exact E6). cbn [lays rc].
  clear B6'.
  set (A := length (mem (ts s))) in *. set (K := length (tens (ts s))) in *. set (k := N.to_nat (prodN outSh)) in *. set (kw_ := N.to_nat (prodN wsh)) in *.
  pose proof (five_n rnd s outSh wsh Ef Ew) as Hn5. pose proof (five_w rnd s outSh wsh Ef Ew) as Hw5.
  pose proof (wf_n rnd s outSh wsh Ef Ew) as Wn5. pose proof (wf_w rnd s outSh wsh Ef Ew) as Ww5. pose proof (wf_b rnd s outSh wsh Ef Ew) as Wb5.
  pose proof (five_lenM rnd s outSh wsh Ef Ew) as Hl5. fold A K k kw_ in Hn5, Hw5, Wn5, Ww5, Wb5, Hl5.
  set (t5 := MkSt (mem (ts s) ++ five_mem rnd (rc s) k kw_) (tens (ts s) ++ five_tens A k outSh wsh) (ctx (ts s))) in *.
  change (length (mem t5) = A + 4 * k + kw_) in Hl5.
  assert (Hi5 : tens t5 !! inp = Some n) by (apply lookup_app_l_Some; exact Hn).
  assert (Wi5 : wf_mat (length (mem t5)) (nmat n)) by (eapply wf_mat_mono; [exact Hwf|fold A; lia]).
  set (mn := blkm outSh A false) in *. set (mw := blkm wsh (A + 4 * k) false) in *. set (mb := blkm outSh (A + 3 * k) false) in *.
  destruct (sg_keep _ _ _ _ _ S6 _ _ Hn5) as (nn & Hnn & N1 & N2 & N3). destruct (N3 (settled_mat _)) as (En1 & En2 & En3). cbn [nmat] in En1, En2, En3.
  destruct (sg_keep _ _ _ _ _ S6 _ _ Hw5) as (nw & Hnw & K1 & K2 & K3). destruct (K3 (settled_mat _)) as (Ew1 & Ew2 & Ew3). cbn [nmat] in Ew1, Ew2, Ew3.
  destruct (sg_keep _ _ _ _ _ S6 _ _ Hi5) as (ni & Hni & I1 & I2 & I3). destruct (I3 Hset) as (Ei1 & Ei2 & Ei3).
  assert (Hii : forall a, Some a ∈ operands (nmat n) -> a < A) by (intros a Hin; eapply wf_lt; eassumption).
  destruct (deconv_ff_ok t6 inp (K + 4) K ni nw nn nf c w h kw kh sx sy) as (t7 & new7 & W & E7 & [S7 HW7 V7]); try assumption.
  { apply (wf_kept _ n ni); [exact Ei1|exact Ei2|exact Ei3|]. rewrite Em6. exact Wi5. }
  { rewrite Ei1. exact Hsh. }
  { apply (wf_kept _ (MkNode KMat mw) nw); [exact Ew1|exact Ew2|exact Ew3|]. rewrite Em6. exact Ww5. }
  { apply (wf_kept _ (MkNode KMat mn) nn); [exact En1|exact En2|exact En3|]. rewrite Em6. exact Wn5. }
  { rewrite En3. apply blk_NoDup. }
  { rewrite En3, Ei3. intros a Hin Hin'. apply blk_ops in Hin. apply Hii in Hin'. lia. }
  { rewrite En3, Ew3. intros a Hin Hin'. apply blk_ops in Hin. apply blk_ops in Hin'. fold k in Hin. lia. }
  erewrite mbnd_ok by (apply liftT_ok; exact E7). cbn [lays rc].
  pose proof (seg_app _ _ _ _ _ _ _ _ _ S6 S7 ltac:(intros ? Hc; inversion Hc)) as S57. cbn [app] in S57.
  pose proof (sg_len _ _ _ _ _ S7) as Hl7. rewrite Em6 in Hl7.
  assert (HWW : forall a, either (fun a => A <= a < A + k) W a -> A <= a < A + k \/ length (mem t5) <= a).
  { intros a [Hx|Hx]; [auto|]. apply HW7 in Hx as [Hx|Hx]; [rewrite Em6 in Hx; auto|]. left. rewrite En3 in Hx. apply blk_ops in Hx. exact Hx. }
  eapply (body_ker rnd s outSh wsh Ef Ew id L act (nmat n) _ (v_deconv kw kh sx sy (act_f act)) (v_deconv kw kh sx sy (fun x => x)) t7 _ (new6 ++ new7) []); [exact HL|exact Ha|exact S57|exact HWW|rewrite Hsh; reflexivity|reflexivity|reflexivity|reflexivity| |].
  { pose proof (five_closed rnd s outSh wsh Ef Ew inp n Hn Hset) as Q1. pose proof (five_d rnd s outSh wsh Ef Ew) as Q2.
    destruct (dif_stays rnd s outSh wsh Ef Ew inp n _ _ _ Hn (bias_stays rnd s outSh wsh Ef Ew inp) Q1 Q2 E6') as [Q3 Q4].
    destruct (dif_stays rnd s outSh wsh Ef Ew inp n _ _ _ Hn (bias_stays rnd s outSh wsh Ef Ew inp) Q3 Q4 E6) as [Q5 Q6].
    refine (proj2 (dif_stays rnd s outSh wsh Ef Ew inp n _ _ _ Hn _ Q5 Q6 E7)). apply st_deconv_ff. }
  fold A k mn mb mw. intros m vx vb vw Hm _ Hvx Hvb Hvw. rewrite exec_app. destruct (X6 m ltac:(lia)) as (m6 & Y6 & Z6). rewrite Y6. cbn [mbind option_bind].
  pose proof (exec_length _ _ _ Y6) as Hlm6.
  assert (Hoff : forall a, ~ (A <= a < A + k) -> m6 !! a = m !! a) by (intros a Hx; apply (sg_frame _ _ _ _ _ S6 m m6); [rewrite Em6; lia|exact Y6|exact Hx]).
  assert (Hvx6 : mval m6 (nmat ni) = Some vx).
  { unfold mval. rewrite Ei1, Ei3. change (mval m6 (nmat n) = Some vx). rewrite <- Hvx. apply mval_off. intros a Hin. apply Hoff. apply Hii in Hin. lia. }
  assert (Hvw6 : mval m6 (nmat nw) = Some vw).
  { unfold mval. rewrite Ew1, Ew3. change (mval m6 mw = Some vw). rewrite <- Hvw. apply mval_off. intros a Hin. apply Hoff. apply blk_ops in Hin. lia. }
  destruct (V7 m6 vx vw ltac:(lia) Hvx6 Hvw6) as (m7 & X7 & C7). rewrite X7. rewrite En1 in C7. change (shape mn) with outSh in C7.
  destruct (mval_shape _ _ _ Hvb) as [Hsb _]. destruct (mval_shape _ _ _ Hvx) as [Hsx _].
  rewrite (v_deconv_eq kw kh sx sy _ vb vw vx nf c w h ((w - 1) * sx + kw)%N ((h - 1) * sy + kh)%N Hsb) by congruence. rewrite (v_deconv_eq kw kh sx sy (fun x => x) vb vw vx nf c w h ((w - 1) * sx + kw)%N ((h - 1) * sy + kh)%N Hsb) by congruence. rewrite v_map_id.
  rewrite Hsb. change (shape mb) with (shape mn).
  enough (Hmt : mval m7 mn = tabulate (shape mn) (dcell sx sy vx vw vb [nf; c; w; h; kw; kh])) by (rewrite Hmt; split; reflexivity). apply (mval_tabulate _ _ mn _ Wn5). intros idx Hidx. destruct (C7 idx Hidx) as (b & v & Hb & Hs & Hv).
  assert (Hcd : celladdr (nmat nn) idx = celladdr mn idx) by (unfold celladdr; rewrite En1, En3; reflexivity). rewrite Hcd in Hb, Hv. exists v. split; [|exact Hv].
  destruct (blk_pos rnd s outSh wsh Ef Ew A idx Hidx) as (j & Hj & Hcj & Hall). fold k in Hj. fold mn in Hcj.
  unfold dcell. rewrite (mval_at _ _ _ _ _ Wb5 Hvb Hidx). unfold mb. rewrite Hall. rewrite Hcj, Z6 in Hb by exact Hj. rewrite Hb. exact Hs.
Qed.
End FwdDeconv.
