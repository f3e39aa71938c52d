(** * BwdOps: what the loops of back-propagation push computes the new values

    Each loop is shown to do nothing but allocate scalars and push operations,
    and what executing these leaves in the tensors is the value given by
    [BwdSpec]. *)
From Verif Require Import Base Num ModelTools ModelOps ModelTensor ModelGraph ModelLayer Spec Denote NetSpec FwdSpec
  IndexProofs ExecProofs TensorFacts AccessProofs BuildProofs BuildFrame CompileProofs EagerOps Agree FwdMask FwdBuild FwdSeg FwdOps FwdPool NetExec NetBuild NetChain FwdBody FwdExpr FwdConv FwdConv2 FwdAct FwdKer FwdDeconv BwdSpec BwdPost BwdLoop.
From Coq Require Import Lia ZifyBool ZifyNat ZifyN.

Section BwdOps.
Context {T : Type} `{Num T}.
Notation inr := (Forall2 (fun i d => (i < d)%N)).

(** ** Cells *)
Definition ev (m : list T) (M : tmat) (idx : list N) : T := default nzero (m !! celladdr M idx).
Lemma ev_at n m M idx : wf_mat n M -> n <= length m -> inr idx (shape M) -> m !! celladdr M idx = Some (ev m M idx).
Proof using Type.
  intros Hwf Hn Hi. unfold ev. destruct (celladdr_at _ _ _ Hwf Hi) as (_ & Hl & _). destruct (lookup_lt_is_Some_2 m (celladdr M idx) ltac:(lia)) as [v ->]. reflexivity.
Qed.
Lemma el_ev n m M v idx : wf_mat n M -> n <= length m -> mval m M = Some v -> inr idx (shape M) -> el v idx = Some (ev m M idx).
Proof using Type. intros Hwf Hn Hv Hi. unfold el. rewrite (mval_at _ _ _ _ _ Hwf Hv Hi). apply (ev_at n); assumption. Qed.
Lemma ev_keep n (m m1 : list T) M idx (O : nat -> Prop) : wf_mat n M -> n <= length m -> (forall x, Some x ∈ operands M -> ~ O x) -> (forall x, x < n -> ~ O x -> m1 !! x = m !! x) ->
  inr idx (shape M) -> m1 !! celladdr M idx = Some (ev m M idx).
Proof using Type.
  intros Hwf Hn Ho Hx Hi. destruct (celladdr_at _ _ _ Hwf Hi) as (_ & Hl & Hop). rewrite Hx; [apply (ev_at n); assumption|exact Hl|apply Ho; exact Hop].
Qed.
Lemma get_ok n M idx (s : tst T) : wf_mat n M -> inr idx (shape M) -> mlift (GetOperand M idx) s = (Ok (Some (celladdr M idx)), s).
Proof using Type. intros Hwf Hi. unfold mlift. rewrite (GetOperand_cell _ _ _ Hwf Hi). reflexivity. Qed.
Lemma mapM_Some_map {A B} (f : A -> option B) (g : A -> B) l : (forall i, i ∈ l -> f i = Some (g i)) -> mapM f l = Some (map g l).
Proof using Type. induction l as [|a l IH]; intros Hf; [reflexivity|]. cbn. rewrite (Hf a) by left. cbn. rewrite IH by (intros; apply Hf; right; assumption). reflexivity. Qed.
Lemma in_filter {A} (p : A -> bool) l x : x ∈ List.filter p l -> x ∈ l /\ p x = true.
Proof using Type. intros Hx. apply elem_of_list_In, filter_In in Hx as [Hx Hp]. split; [apply elem_of_list_In; exact Hx|exact Hp]. Qed.

(** ** Convolution: errors of the input *)
Section ConvIn.
Variables (t0 : tst T) (md mw mder mp : tmat) (nf ow oh c w h kw kh sx sy : N).
Hypotheses (Hwd : wf_mat (length (mem t0)) md) (Hww : wf_mat (length (mem t0)) mw) (Hwa : wf_mat (length (mem t0)) mder) (Hwp : wf_mat (length (mem t0)) mp).
Hypotheses (Hshd : shape md = [nf; ow; oh]) (Hshw : shape mw = [nf; c; kw; kh]) (Hsha : shape mder = [c; w; h]) (Hshp : shape mp = [c; w; h]).
Hypotheses (Hnd : NoDup (operands mp)).
Hypothesis Hdd : forall l, Some l ∈ operands md -> Some l ∉ operands mp.
Hypothesis Hdw : forall l, Some l ∈ operands mw -> Some l ∉ operands mp.
Hypothesis Hda : forall l, Some l ∈ operands mder -> Some l ∉ operands mp.
Hypotheses (Hk : (kw <= kh)%N) (Hx : ((ow - 1) * sx + kw <= w)%N) (Hy : ((oh - 1) * sy + kh <= h)%N).

Definition ci_ops (q : list N) (a : nat) : list (op T) :=
  match q with
  | [f; x; y; i; kx; ky] =>
      let p := Some (celladdr mp [i; x * sx + kx; y * sy + ky]%N) in
      [OMul (Some a) (Some (celladdr md [f; x; y])) (Some (celladdr mw [f; i; kx; ky])); OMul (Some a) (Some a) (Some (celladdr mder [i; x * sx + kx; y * sy + ky]%N)); OAdd p p (Some a)]
  | _ => []
  end.
Definition ci_dest (q : list N) : list N := match q with [f; x; y; i; kx; ky] => [i; x * sx + kx; y * sy + ky]%N | _ => [] end.
Definition ci_val (m : list T) (q : list N) : T :=
  match q with [f; x; y; i; kx; ky] => nmul (nmul (ev m md [f; x; y]) (ev m mw [f; i; kx; ky])) (ev m mder (ci_dest q)) | _ => nzero end.
Lemma ci_in q : inr q [nf; ow; oh; c; kw; kw] -> exists f x y i kx ky, q = [f; x; y; i; kx; ky] /\ inr [f; x; y] (shape md) /\ inr [f; i; kx; ky] (shape mw) /\
  inr [i; x * sx + kx; y * sy + ky]%N (shape mder) /\ inr [i; x * sx + kx; y * sy + ky]%N (shape mp) /\ (x * sx + kx < w)%N /\ (y * sy + ky < h)%N.
Proof using Hshd Hshw Hsha Hshp Hk Hx Hy.
  clear Hwd Hww Hwa Hwp Hnd Hdd Hdw Hda. intros Hq. pose proof (Forall2_length _ _ _ Hq) as Hl. destruct q as [|f [|x [|y [|i [|kx [|ky [|]]]]]]]; try discriminate.
  repeat (apply Forall2_cons in Hq; destruct Hq as [? Hq]). exists f, x, y, i, kx, ky. split; [reflexivity|].
  assert (x * sx + kx < w)%N by nia. assert (y * sy + ky < h)%N by nia.
  rewrite Hshd, Hshw, Hsha, Hshp. repeat split; repeat constructor; try assumption; lia.
Qed.
Lemma conv_in_does : does t0 (conv_bp_in [c; w; h] [nf; ow; oh] md mw mder mp kw sx sy) (fun x => Some x ∈ operands mp)
  (fun m m' => forall vd vw va vp, mval m md = Some vd -> mval m mw = Some vw -> mval m mder = Some va -> mval m mp = Some vp -> mval m' mp = g_conv_in kw sx sy vd vw va vp).
Proof using All.
  set (k := fun _ : list N => 1). set (l := indices [nf; ow; oh; c; kw; kw]).
  assert (Hl : forall q, q ∈ l -> inr q [nf; ow; oh; c; kw; kw]) by (intros q; apply elem_of_indices).
  assert (Hbig : (w < W64)%N /\ (h < W64)%N). { destruct Hwa as ([Hf _] & _). rewrite Hsha, !Forall_cons in Hf. tauto. }
  exists (ltot k l), (lops k ci_ops l (length (mem t0))). split; [|split].
  - set (fb := fun q : list N => match q with
      | [f; x; y; i; kx; ky] =>
        d <~ mlift (GetOperand md [f; x; y]) ;
        let ix := uadd (umul x sx) kx in
        let iy := uadd (umul y sy) ky in
        if ((w <=? ix) || (h <=? iy))%N then mret tt
        else
          w <~ mlift (GetOperand mw [f; i; kx; ky]) ;
          dw <~ alloc nzero ;
          push (OMul dw d w) ;~
          pd <~ mlift (GetOperand mder [i; ix; iy]) ;
          push (OMul dw dw pd) ;~
          p <~ mlift (GetOperand mp [i; ix; iy]) ;
          push (OAdd p p dw)
      | _ => mpanic end : TM T unit).
    transitivity (mfor l fb t0).
    + unfold conv_bp_in, l. cbn [nth]. symmetry. rewrite mfor_indices_cons. apply mfor_ext; intros f s1 Hf. rewrite mfor_indices_cons. apply mfor_ext; intros x s2 Hxx. rewrite mfor_indices_cons. apply mfor_ext; intros y s3 Hyy.
      assert (Hin : inr [f; x; y] (shape md)). { rewrite Hshd. repeat constructor; [apply elem_of_upto in Hf|apply elem_of_upto in Hxx|apply elem_of_upto in Hyy]; assumption. }
      rewrite (mbnd_ok _ _ _ _ _ (get_ok _ _ _ s3 Hwd Hin)).
      do 3 (rewrite mfor_indices_cons; apply mfor_ext; intros ? ? _). rewrite mfor_indices_nil. unfold fb. erewrite mbnd_ok by (apply (get_ok _ _ _ _ Hwd Hin)). reflexivity.
    + refine (mfor_grown k ci_ops t0 fb l _ t0 eq_refl (le_n _)). intros q t Hq Ht Hlt. destruct (ci_in q (Hl q Hq)) as (f & x & y & i & kx & ky & -> & I1 & I2 & I3 & I4 & B1 & B2).
      unfold fb. erewrite mbnd_ok by (apply (get_ok _ _ _ _ Hwd I1)). cbv zeta. rewrite !umul_small by lia. rewrite !uadd_small by lia.
      destruct (N.leb_spec w (x * sx + kx)); [lia|]. destruct (N.leb_spec h (y * sy + ky)); [lia|]. cbn [orb].
      erewrite mbnd_ok by (apply (get_ok _ _ _ _ Hww I2)). erewrite mbnd_ok by apply alloc_grown. erewrite mbnd_ok by apply push_grown. erewrite mbnd_ok by (apply (get_ok _ _ _ _ Hwa I3)).
      erewrite mbnd_ok by apply push_grown. erewrite mbnd_ok by (apply (get_ok _ _ _ _ Hwp I4)). rewrite push_grown, !grown_grown. reflexivity.
  - apply (lops_dst k ci_ops l (fun x => Some x ∈ operands mp) (length (mem t0))); [lia|]. intros q b d Hq Hb Hd.
    destruct (ci_in q (Hl q Hq)) as (f & x & y & i & kx & ky & -> & I1 & I2 & I3 & I4 & B1 & B2). unfold ci_ops in Hd. rewrite !dst_cons in Hd. cbn in Hd.
    destruct Hd as [[= <-]|[[= <-]|[[= <-]|Hd]]]; [left; unfold k; lia|left; unfold k; lia|right; apply (celladdr_at _ _ _ Hwp I4)|destruct (dst_nil _ Hd)].
  - intros m Hm.
    destruct (acc_sem k ci_ops (length (mem t0)) (length (mem t0)) mp ci_dest (ci_val m) l m Hwp (le_n _)) with (a := length (mem t0)) as (m' & E & V); [lia|exact Hnd| | | |lia|exact Hm|].
    + intros q b d Hq Hb Hd. destruct (ci_in q (Hl q Hq)) as (f & x & y & i & kx & ky & -> & I1 & I2 & I3 & I4 & B1 & B2). unfold ci_ops in Hd. rewrite !dst_cons in Hd. cbn in Hd.
      destruct Hd as [[= <-]|[[= <-]|[[= <-]|Hd]]]; [left; unfold k; lia|left; unfold k; lia|right; reflexivity|destruct (dst_nil _ Hd)].
    + intros q Hq. destruct (ci_in q (Hl q Hq)) as (f & x & y & i & kx & ky & -> & I1 & I2 & I3 & I4 & B1 & B2). exact I4.
    + intros q a m1 b Hq Ha Hb Hl1 Hkeep Hv. destruct (ci_in q (Hl q Hq)) as (f & x & y & i & kx & ky & -> & I1 & I2 & I3 & I4 & B1 & B2). unfold ci_dest in Hv |- *. unfold k in Hb.
      destruct (celladdr_at _ _ _ Hwd I1) as (_ & L1 & _). destruct (celladdr_at _ _ _ Hww I2) as (_ & L2 & _). destruct (celladdr_at _ _ _ Hwa I3) as (_ & L3 & _). destruct (celladdr_at _ _ _ Hwp I4) as (_ & L4 & _).
      assert (V1 : m1 !! celladdr md [f; x; y] = Some (ev m md [f; x; y])) by (eapply (ev_keep _ m m1 md _ (fun x => Some x ∈ operands mp)); [exact Hwd|lia|exact Hdd|exact Hkeep|exact I1]).
      assert (V2 : m1 !! celladdr mw [f; i; kx; ky] = Some (ev m mw [f; i; kx; ky])) by (eapply (ev_keep _ m m1 mw _ (fun x => Some x ∈ operands mp)); [exact Hww|lia|exact Hdw|exact Hkeep|exact I2]).
      assert (V3 : m1 !! celladdr mder [i; x * sx + kx; y * sy + ky]%N = Some (ev m mder [i; x * sx + kx; y * sy + ky]%N)) by (eapply (ev_keep _ m m1 mder _ (fun x => Some x ∈ operands mp)); [exact Hwa|lia|exact Hda|exact Hkeep|exact I3]).
      unfold ci_ops. set (p := celladdr mp _) in *. set (a1 := celladdr md _) in *. set (a2 := celladdr mw _) in *. set (a3 := celladdr mder _) in *. clearbody p a1 a2 a3.
      eexists. split.
      * cbv zeta. rewrite (exec_step _ a _ m1 (nmul (ev m md [f; x; y]) (ev m mw [f; i; kx; ky]))); [|reflexivity|lia|cbn; rewrite V1, V2; reflexivity].
        rewrite (exec_step _ a _ _ (ci_val m [f; x; y; i; kx; ky])); [|reflexivity|rewrite insert_length; lia|cbn; rewrite list_lookup_insert by lia; rewrite list_lookup_insert_ne by lia; rewrite V3; reflexivity].
        rewrite (exec_step _ p _ _ (nadd b (ci_val m [f; x; y; i; kx; ky]))); [reflexivity|reflexivity|rewrite !insert_length; lia|].
        cbn -[ci_val]. rewrite !(list_lookup_insert_ne _ a p) by lia. rewrite Hv. rewrite list_lookup_insert by (rewrite insert_length; lia). reflexivity.
      * rewrite list_lookup_insert by (rewrite !insert_length; lia). reflexivity.
    + exists m'. split; [exact E|]. intros vd vw va vp Evd Evw Eva Evp. unfold g_conv_in.
      assert (Sd : vsh vd = [nf; ow; oh]) by (rewrite <- Hshd; exact (proj1 (mval_shape _ _ _ Evd))). assert (Sp : vsh vp = [c; w; h]) by (rewrite <- Hshp; exact (proj1 (mval_shape _ _ _ Evp))).
      rewrite Sd, Sp. cbn [app nth]. fold l. rewrite <- Hshp. apply (mval_tabulate (length (mem t0))); [exact Hwp|]. intros idx Hidx. destruct (V idx Hidx) as (b & Hb & Hv).
      exists (fold_left nadd (map (ci_val m) (List.filter (fun i => bool_decide (ci_dest i = idx)) l)) b). split; [|exact Hv].
      set (flt := List.filter _ l). assert (Ef : flt = List.filter (fun i => bool_decide (ci_dest i = idx)) l).
      { apply filter_ext_el. intros q Hq. destruct (ci_in q (Hl q Hq)) as (f & x & y & i & kx & ky & -> & _). reflexivity. }
      rewrite Ef. clear Ef flt. rewrite (mapM_Some_map _ (ci_val m)).
      * cbn [mbind option_bind]. rewrite (el_ev (length (mem t0)) m mp vp) by (assumption || lia). cbn [mbind option_bind]. unfold ev. rewrite Hb. reflexivity.
      * intros q Hq. apply in_filter in Hq as [Hq Hd]. destruct (ci_in q (Hl q Hq)) as (f & x & y & i & kx & ky & -> & I1 & I2 & I3 & I4 & B1 & B2).
        apply bool_decide_eq_true_1 in Hd. cbn [ci_dest] in Hd. subst idx.
        rewrite (el_ev (length (mem t0)) m md vd) by (assumption || lia). cbn [mbind option_bind]. rewrite (el_ev (length (mem t0)) m mw vw) by (assumption || lia). cbn [mbind option_bind].
        rewrite (el_ev (length (mem t0)) m mder va) by (assumption || lia). reflexivity.
Qed.
End ConvIn.

(** ** Sums of products *)
Definition pmul (m : list T) (p : nat * nat) : T := nmul (cell m (fst p)) (cell m (snd p)).
Definition gmul (p : nat * nat) (d : nat) : op T := OMul (Some d) (Some (fst p)) (Some (snd p)).
Definition gops (l : list (nat * nat)) (a : nat) : list (op T) :=
  lops one (fun p d => [gmul p d]) l a ++ [OSum (Some (a + length l)) (map Some (seq a (length l)))].
Lemma cell_at (m : list T) x : x < length m -> m !! x = Some (cell m x).
Proof using Type. intros Hx. unfold cell. destruct (lookup_lt_is_Some_2 m x Hx) as [v ->]. reflexivity. Qed.
Lemma red_fold1 (f : T -> T -> T) l : red_args f l = fold1 f l.
Proof using Type. destruct l; reflexivity. Qed.
Lemma gops_dst l a d : dst_in d (gops l a) -> a <= d < a + (length l + 1).
Proof using Type.
  unfold gops. rewrite dst_in_app, dst_cons. intros [Hd|[Hd|Hd]]; [|injection Hd as <-; lia|destruct (dst_nil _ Hd)]. pose proof (terms_dst gmul l a d ltac:(reflexivity) Hd). lia.
Qed.
Lemma gops_sem l (m m1 : list T) lo a s : lo <= a -> a + length l + 1 <= length m1 -> length m1 = length m -> 
  (forall p, p ∈ l -> fst p < lo /\ snd p < lo /\ m1 !! fst p = m !! fst p /\ m1 !! snd p = m !! snd p) -> fold1 nadd (map (pmul m) l) = Some s ->
  exists m', exec (gops l a) m1 = Some m' /\ m' !! (a + length l) = Some s /\ length m' = length m /\ forall x, ~ (a <= x < a + (length l + 1)) -> m' !! x = m1 !! x.
Proof using Type.
  intros Ha Hb Hl1 Hp Hs. destruct (terms_sem gmul (pmul m) lo l m1 a Ha ltac:(lia)) as (m2 & E2 & R2 & F2).
  - reflexivity.
  - intros p d m2 Hpl Hl2 Hk. destruct (Hp p Hpl) as (L1 & L2 & K1 & K2). unfold gmul. cbn. rewrite (Hk (fst p)), (Hk (snd p)), K1, K2 by lia. rewrite (cell_at m (fst p)), (cell_at m (snd p)) by lia. reflexivity.
  - exists (<[a + length l := s]> m2). pose proof (exec_length _ _ _ E2) as Hl2. split; [|split; [|split]].
    + unfold gops. rewrite exec_app, E2. cbn [mbind option_bind]. rewrite (exec_step _ (a + length l) _ _ s); [reflexivity|reflexivity|lia|]. cbn [op_value]. rewrite R2. cbn [mbind option_bind]. rewrite red_fold1. exact Hs.
    + apply list_lookup_insert. lia.
    + rewrite insert_length. lia.
    + intros x Hx. rewrite list_lookup_insert_ne by lia. apply F2. lia.
Qed.
(** The code of a sum of products: the loop and the sum. *)
Lemma gather_run {A} (f : A -> TM T ptr) (g : A -> nat * nat) (L : list A) (t : tst T) (k : ptr -> TM T unit) :
  (forall i t1, i ∈ L -> tens t1 = tens t -> length (mem t) <= length (mem t1) -> f i t1 = (Ok (Some (length (mem t1))), grown t1 1 [gmul (g i) (length (mem t1))])) ->
  (ops <~ mmap L f ; s <~ alloc nzero ; push (OSum s ops) ;~ k s) t =
  k (Some (length (mem t) + length L)) (grown t (length L + 1) (gops (map g L) (length (mem t)))).
Proof using Type.
  intros Hf. pose proof (mmap_grown one (fun p d => [gmul (g p) d]) t f (fun _ b => Some b) L Hf t eq_refl (le_n _)) as E.
  rewrite (mbnd_ok _ _ _ _ _ E). erewrite mbnd_ok by apply alloc_grown. erewrite mbnd_ok by apply push_grown. rewrite !grown_grown, grown_len, ltot_one, lres_one. unfold gops.
  rewrite map_length. cbn [app]. rewrite ?Nat.add_0_r.
  assert (E1 : lops one (fun p d => [gmul (g p) d]) L (length (mem t)) = lops one (fun p d => [gmul p d]) (map g L) (length (mem t))).
  { clear. generalize (length (mem t)). induction L as [|i r IH]; intros a; [reflexivity|]. cbn. rewrite IH. reflexivity. }
  rewrite E1. reflexivity.
Qed.

(** ** New weights of the two kinds of convolution *)
Section KerW.
Variables (t0 : tst T) (mw mwm mnw : tmat) (L : list (list N)) (tgt : list N -> list N) (ts : list N -> list (nat * nat)).
Hypotheses (Hww : wf_mat (length (mem t0)) mw) (Hwm : wf_mat (length (mem t0)) mwm) (Hwn : wf_mat (length (mem t0)) mnw).
Hypotheses (Hshm : shape mwm = shape mw) (Hshn : shape mnw = shape mw) (HnL : NoDup L).
Hypothesis HL : forall q, q ∈ L -> inr (tgt q) (shape mw).
Hypothesis Hinj : forall p q, p ∈ L -> q ∈ L -> tgt p = tgt q -> p = q.
Hypotheses (Hndn : NoDup (operands mnw)) (Hndm : NoDup (operands mwm)).
Hypothesis Hwo : forall l, Some l ∈ operands mw -> Some l ∉ operands mnw /\ Some l ∉ operands mwm.
Hypothesis Hmo : forall l, Some l ∈ operands mwm -> Some l ∉ operands mnw.
Hypothesis Hts : forall q p x, q ∈ L -> p ∈ ts q -> x = fst p \/ x = snd p -> x < length (mem t0) /\ Some x ∉ operands mnw /\ Some x ∉ operands mwm.
Hypothesis Hne : forall q, q ∈ L -> ts q <> [].

Definition kw_k (q : list N) : nat := length (ts q) + 1.
Definition kw_ops (q : list N) (a : nat) : list (op T) :=
  let dw := Some (a + length (ts q)) in let m := Some (celladdr mwm (tgt q)) in
  gops (ts q) a ++ [OSum (Some (celladdr mnw (tgt q))) [Some (celladdr mw (tgt q)); dw; m]; OSet m dw].
Definition kw_res (m : list T) (q : list N) : option T :=
  s ← fold1 nadd (map (pmul m) (ts q)); Some (nadd (nadd (ev m mw (tgt q)) s) (ev m mwm (tgt q))).
Lemma kw_dst q b d : q ∈ L -> dst_in d (kw_ops q b) -> b <= d < b + kw_k q \/ d = celladdr mnw (tgt q) \/ d = celladdr mwm (tgt q).
Proof using Type.
  intros Hq. unfold kw_ops, kw_k. cbv zeta. rewrite dst_in_app, !dst_cons. cbn [op_dst]. intros [Hd|[[= <-]|[[= <-]|Hd]]]; [|auto|auto|destruct (dst_nil _ Hd)].
  left. apply gops_dst in Hd. exact Hd.
Qed.
Lemma kw_tot (m : list T) q : q ∈ L -> exists v, kw_res m q = Some v.
Proof using Hne. intros Hq. unfold kw_res. specialize (Hne q Hq). destruct (ts q) as [|p r]; [contradiction|]. cbn [map fold1]. eexists. reflexivity. Qed.
Lemma kw_sem (m : list T) : length (mem t0) + ltot kw_k L <= length m ->
  exists m', exec (lops kw_k kw_ops L (length (mem t0))) m = Some m' /\ forall q v, q ∈ L -> kw_res m q = Some v -> m' !! celladdr mnw (tgt q) = Some v.
Proof using All.
  intros Hm.
  assert (Hc : forall q, q ∈ L -> celladdr mw (tgt q) < length (mem t0) /\ celladdr mwm (tgt q) < length (mem t0) /\ celladdr mnw (tgt q) < length (mem t0) /\
     Some (celladdr mw (tgt q)) ∈ operands mw /\ Some (celladdr mwm (tgt q)) ∈ operands mwm /\ Some (celladdr mnw (tgt q)) ∈ operands mnw).
  { intros q Hq. pose proof (HL q Hq) as Hi. destruct (celladdr_at _ _ _ Hww Hi) as (_ & ? & ?). rewrite <- Hshm in Hi. destruct (celladdr_at _ _ _ Hwm Hi) as (_ & ? & ?).
    rewrite Hshm, <- Hshn in Hi. destruct (celladdr_at _ _ _ Hwn Hi) as (_ & ? & ?). auto 10. }
  assert (Hn1 : forall p q, p ∈ L -> q ∈ L -> celladdr mnw (tgt p) = celladdr mnw (tgt q) -> p = q).
  { intros p q Hp Hq E. apply Hinj; [exact Hp|exact Hq|]. eapply celladdr_inj; [exact Hwn|exact Hndn| | |exact E]; rewrite Hshn; apply HL; assumption. }
  assert (Hn2 : forall p q, p ∈ L -> q ∈ L -> celladdr mwm (tgt p) = celladdr mwm (tgt q) -> p = q).
  { intros p q Hp Hq E. apply Hinj; [exact Hp|exact Hq|]. eapply celladdr_inj; [exact Hwm|exact Hndm| | |exact E]; rewrite Hshm; apply HL; assumption. }
  destruct (put_sem kw_k kw_ops (length (mem t0)) (fun q x v => x = celladdr mnw (tgt q) /\ kw_res m q = Some v)
    (fun q d => d = celladdr mnw (tgt q) \/ d = celladdr mwm (tgt q)) (fun q x => x = celladdr mwm (tgt q)) L m) with (a := length (mem t0)) as (m' & E & V).
  - exact HnL.
  - intros i b d Hi _. apply kw_dst. exact Hi.
  - intros i x v Hi [-> _]. apply Hc. exact Hi.
  - intros i j x v Hi Hj Hij [-> _] [Ec|Ec]; [apply Hij, Hn1; assumption|]. destruct (Hc i Hi) as (_ & _ & _ & _ & _ & Oi). destruct (Hc j Hj) as (_ & _ & _ & _ & Oj & _). rewrite Ec in Oi. exact (Hmo _ Oj Oi).
  - intros i x Hi ->. apply Hc. exact Hi.
  - intros i j x Hi Hj Hij -> [Ec|Ec]; [|apply Hij, Hn2; assumption]. destruct (Hc i Hi) as (_ & _ & _ & _ & Oi & _). destruct (Hc j Hj) as (_ & _ & _ & _ & _ & Oj). rewrite <- Ec in Oj. exact (Hmo _ Oi Oj).
  - intros q a m1 Hq Ha Hb Hl1 Hk1 Hk2. destruct (Hc q Hq) as (L1 & L2 & L3 & O1 & O2 & O3). destruct (kw_tot m q Hq) as [v Ev]. unfold kw_k in Hb.
    assert (Hkeep : forall x, x < length (mem t0) -> Some x ∉ operands mnw -> Some x ∉ operands mwm -> m1 !! x = m !! x).
    { intros x Hx X1 X2. apply Hk1; [exact Hx|]. intros j Hj. destruct (Hc j Hj) as (_ & _ & _ & _ & Oj2 & Oj3). intros [-> | ->]; contradiction. }
    unfold kw_res in Ev. destruct (fold1 nadd (map (pmul m) (ts q))) as [s|] eqn:Es; [|discriminate]. cbn [mbind option_bind] in Ev. injection Ev as Ev.
    destruct (gops_sem (ts q) m m1 (length (mem t0)) a s Ha ltac:(lia) Hl1) as (m2 & E2 & V2 & Hl2 & F2); [|exact Es|].
    { intros p Hp. destruct (Hts q p (fst p) Hq Hp (or_introl eq_refl)) as (X1 & X2 & X3). destruct (Hts q p (snd p) Hq Hp (or_intror eq_refl)) as (X4 & X5 & X6).
      split; [exact X1|]. split; [exact X4|]. split; apply Hkeep; assumption. }
    assert (W1 : m2 !! celladdr mw (tgt q) = Some (ev m mw (tgt q))). { rewrite F2 by lia. destruct (Hwo _ O1). rewrite Hkeep by assumption. apply cell_at. lia. }
    assert (W2 : m2 !! celladdr mwm (tgt q) = Some (ev m mwm (tgt q))). { rewrite F2 by lia. rewrite Hk2 by reflexivity. apply cell_at. lia. }
    assert (D1 : celladdr mwm (tgt q) <> celladdr mnw (tgt q)). { intros Ec. rewrite Ec in O2. exact (Hmo _ O2 O3). }
    unfold kw_ops. cbv zeta. set (aw := celladdr mw (tgt q)) in *. set (am := celladdr mwm (tgt q)) in *. set (an := celladdr mnw (tgt q)) in *.
    eexists. split.
    + rewrite exec_app, E2. cbn [mbind option_bind].
      rewrite (exec_step _ an _ m2 v); [|reflexivity|lia|].
      2:{ cbn. rewrite W1. cbn. rewrite V2. cbn. rewrite W2. cbn. rewrite Ev. reflexivity. }
      rewrite (exec_step _ am _ _ s); [reflexivity|reflexivity|rewrite insert_length; lia|]. cbn. rewrite list_lookup_insert_ne by lia. exact V2.
    + intros x v' [-> Hv']. rewrite list_lookup_insert_ne by exact D1. rewrite list_lookup_insert by lia.
      unfold kw_res in Hv'. rewrite Es in Hv'. cbn [mbind option_bind] in Hv'. congruence.
  - lia.
  - exact Hm.
  - exists m'. split; [exact E|]. intros q v Hq Hv. apply (V q); [exact Hq|]. split; [reflexivity|exact Hv].
Qed.
End KerW.

(** ** Nested loops *)
Definition pairs (a b : N) : list (N * N) := flat_map (fun x => map (fun y => (x, y)) (urange b)) (urange a).
Definition triples (a b c : N) : list (N * N * N) := flat_map (fun p => map (fun y => (p, y)) (urange c)) (pairs a b).
Lemma elem_of_pairs a b p : p ∈ pairs a b <-> (fst p < a /\ snd p < b)%N.
Proof using Type.
  unfold pairs. rewrite elem_of_list_In, in_flat_map. split.
  - intros (x & Hx & Hp). apply in_map_iff in Hp as (y & <- & Hy). apply elem_of_list_In, elem_of_upto in Hx. apply elem_of_list_In, elem_of_upto in Hy. auto.
  - destruct p as [x y]. intros [Hx Hy]. exists x. split; [apply elem_of_list_In, elem_of_upto; exact Hx|]. apply in_map. apply elem_of_list_In, elem_of_upto. exact Hy.
Qed.
Lemma elem_of_triples a b c p : p ∈ triples a b c <-> (fst (fst p) < a /\ snd (fst p) < b /\ snd p < c)%N.
Proof using Type.
  unfold triples. rewrite elem_of_list_In, in_flat_map. split.
  - intros (x & Hx & Hp). apply in_map_iff in Hp as (y & <- & Hy). apply elem_of_list_In, elem_of_pairs in Hx. apply elem_of_list_In, elem_of_upto in Hy. cbn. tauto.
  - destruct p as [x y]. cbn. intros (Hx & Hx' & Hy). exists x. split; [apply elem_of_list_In, elem_of_pairs; auto|]. apply in_map. apply elem_of_list_In, elem_of_upto. exact Hy.
Qed.
Lemma indices1 b : indices [b] = map (fun y => [y]) (upto b).
Proof using Type. change (indices [b]) with (flat_map (fun i : N => [[i]]) (upto b)). induction (upto b) as [|x l IH]; [reflexivity|]. cbn [flat_map map]. rewrite IH. reflexivity. Qed.
Lemma indices_pairs a b : indices [a; b] = map (fun p => [fst p; snd p]) (pairs a b).
Proof using Type.
  unfold pairs. change (urange a) with (upto a). change (urange b) with (upto b). change (indices [a; b]) with (flat_map (fun i => map (cons i) (indices [b])) (upto a)). rewrite indices1.
  induction (upto a) as [|x l IH]; [reflexivity|]. cbn [flat_map]. rewrite map_app, <- IH. f_equal. rewrite !map_map. reflexivity.
Qed.
Lemma indices_triples a b c : indices [a; b; c] = map (fun p => [fst (fst p); snd (fst p); snd p]) (triples a b c).
Proof using Type.
  unfold triples, pairs. change (urange a) with (upto a). change (urange b) with (upto b). change (urange c) with (upto c).
  change (indices [a; b; c]) with (flat_map (fun i => map (cons i) (indices [b; c])) (upto a)). rewrite indices_pairs. unfold pairs. change (urange b) with (upto b). change (urange c) with (upto c).
  induction (upto a) as [|x l IH]; [reflexivity|]. cbn [flat_map]. rewrite flat_map_app, map_app, <- IH. f_equal. rewrite map_map.
  generalize (upto b) as lb. induction lb as [|y r IHr]; [reflexivity|]. cbn [flat_map map]. rewrite !map_app. cbn [flat_map]. rewrite IHr. f_equal. rewrite !map_map. reflexivity.
Qed.
Lemma indices_NoDup sh : NoDup (indices sh).
Proof using Type.
  induction sh as [|n sh IH]; [apply NoDup_singleton|]. cbn [indices].
  assert (Hn : NoDup (upto n)). { unfold upto. apply NoDup_fmap_2; [intros a b; lia|apply NoDup_seq]. }
  induction (upto n) as [|x l IHl]; [constructor|]. cbn [flat_map]. apply NoDup_cons in Hn as [Hx Hn]. apply NoDup_app. split; [apply NoDup_fmap_2; [intros a b [=]; assumption|exact IH]|]. split; [|apply IHl; exact Hn].
  intros q Hq Hc. apply elem_of_list_fmap in Hq as (q' & -> & _). apply elem_of_list_In, in_flat_map in Hc as (y & Hy & Hc). apply in_map_iff in Hc as (z & [= -> _] & _). apply Hx, elem_of_list_In. exact Hy.
Qed.
Lemma gather2 {S A B C D} (l : list A) (h : A -> list B) (g : A -> B -> M S C) (f : list C -> M S D) (s : S) :
  (x <~ mmap l (fun a => mmap (h a) (g a)) ; f (concat x)) s = (x <~ mmap (flat_map (fun a => map (fun b => (a, b)) (h a)) l) (fun p => g (fst p) (snd p)) ; f x) s.
Proof using Type. rewrite mbnd_concat. unfold mbnd at 1 3. rewrite <- mmap_flat. reflexivity. Qed.

(** ** Convolution: new weights *)
Section ConvW.
Variables (t0 : tst T) (mi mdif mw mwm mnw : tmat) (nf ow oh c w h kw kh sy : N).
Hypotheses (Hwi : wf_mat (length (mem t0)) mi) (Hwd : wf_mat (length (mem t0)) mdif).
Hypotheses (Hww : wf_mat (length (mem t0)) mw) (Hwm : wf_mat (length (mem t0)) mwm) (Hwn : wf_mat (length (mem t0)) mnw).
Hypotheses (Hshi : shape mi = [c; w; h]) (Hshd : shape mdif = [nf; ow; oh]) (Hshw : shape mw = [nf; c; kw; kh]) (Hshm : shape mwm = shape mw) (Hshn : shape mnw = shape mw).
Hypotheses (Hndn : NoDup (operands mnw)) (Hndm : NoDup (operands mwm)).
Hypothesis Hwo : forall l, Some l ∈ operands mw -> Some l ∉ operands mnw /\ Some l ∉ operands mwm.
Hypothesis Hmo : forall l, Some l ∈ operands mwm -> Some l ∉ operands mnw.
Hypothesis Hio : forall l, Some l ∈ operands mi -> Some l ∉ operands mnw /\ Some l ∉ operands mwm.
Hypothesis Hdo : forall l, Some l ∈ operands mdif -> Some l ∉ operands mnw /\ Some l ∉ operands mwm.
Hypotheses (How : (0 < ow)%N) (Hoh : (0 < oh)%N) (Hx : ((ow - 1) * sy + kw <= w)%N) (Hy : ((oh - 1) * sy + kh <= h)%N).

Definition cw_p (f i kx ky : N) (p : N * N) : nat * nat := (celladdr mdif [f; fst p; snd p], celladdr mi [i; fst p * sy + kx; snd p * sy + ky]%N).
Definition cw_ts (q : list N) : list (nat * nat) := match q with [f; i; kx; ky] => map (cw_p f i kx ky) (pairs ow oh) | _ => [] end.
Lemma cw_in q : inr q [nf; c; kw; kh] -> exists f i kx ky, q = [f; i; kx; ky] /\
  forall p, p ∈ pairs ow oh -> inr [f; fst p; snd p] (shape mdif) /\ inr [i; fst p * sy + kx; snd p * sy + ky]%N (shape mi) /\ (fst p * sy + kx < w)%N /\ (snd p * sy + ky < h)%N.
Proof using Hshi Hshd Hx Hy How Hoh.
  clear - Hshi Hshd Hx Hy How Hoh. intros Hq. pose proof (Forall2_length _ _ _ Hq) as Hl. destruct q as [|f [|i [|kx [|ky [|]]]]]; try discriminate.
  repeat (apply Forall2_cons in Hq; destruct Hq as [? Hq]). exists f, i, kx, ky. split; [reflexivity|]. intros [X Y] Hp. apply elem_of_pairs in Hp. cbn [fst snd] in *. destruct Hp as [HX HY].
  assert (X * sy + kx < w)%N by nia. assert (Y * sy + ky < h)%N by nia. rewrite Hshi, Hshd. repeat split; repeat constructor; assumption.
Qed.
Lemma conv_w_does : does t0 (conv_bp_w [c; w; h] [nf; ow; oh] mi mdif mw mwm mnw kw kh sy) (fun x => Some x ∈ operands mnw \/ Some x ∈ operands mwm)
  (fun m m' => forall vd vx vw vm, mval m mdif = Some vd -> mval m mi = Some vx -> mval m mw = Some vw -> mval m mwm = Some vm -> mval m' mnw = g_conv_w sy vd vx vw vm).
Proof using All.
  set (L := indices [nf; c; kw; kh]).
  assert (HL : forall q, q ∈ L -> inr q [nf; c; kw; kh]) by (intros q; apply elem_of_indices).
  assert (HLw : forall q, q ∈ L -> inr q (shape mw)) by (intros q Hq; rewrite Hshw; apply HL; exact Hq).
  assert (Hts : forall q p x, q ∈ L -> p ∈ cw_ts q -> x = fst p \/ x = snd p -> x < length (mem t0) /\ Some x ∉ operands mnw /\ Some x ∉ operands mwm).
  { intros q p x Hq Hp. destruct (cw_in q (HL q Hq)) as (f & i & kx & ky & -> & HP). cbn [cw_ts] in Hp. apply elem_of_list_fmap in Hp as (p' & -> & Hp'). destruct (HP p' Hp') as (I1 & I2 & _).
    destruct (celladdr_at _ _ _ Hwd I1) as (_ & L1 & O1). destruct (celladdr_at _ _ _ Hwi I2) as (_ & L2 & O2). unfold cw_p. cbn [fst snd]. intros [-> | ->]; (split; [assumption|]); [apply Hdo|apply Hio]; assumption. }
  assert (Hne : forall q, q ∈ L -> cw_ts q <> []).
  { intros q Hq. destruct (cw_in q (HL q Hq)) as (f & i & kx & ky & -> & HP). cbn [cw_ts]. assert (H00 : (0, 0)%N ∈ pairs ow oh) by (apply elem_of_pairs; auto).
    destruct (pairs ow oh); [inversion H00|discriminate]. }
  assert (Hbig : (w < W64)%N /\ (h < W64)%N). { destruct Hwi as ([Hf _] & _). rewrite Hshi, !Forall_cons in Hf. tauto. }
  set (k := kw_k cw_ts). set (u := kw_ops mw mwm mnw (fun q => q) cw_ts).
  exists (ltot k L), (lops k u L (length (mem t0))). split; [|split].
  - set (fb := fun q : list N => match q with
      | [f; i; kx; ky] =>
        w1 <~ mlift (GetOperand mw [f; i; kx; ky]) ;
        m <~ mlift (GetOperand mwm [f; i; kx; ky]) ;
        nw <~ mlift (GetOperand mnw [f; i; kx; ky]) ;
        opss <~ mmap (urange ow) (fun ox =>
          mmap (urange oh) (fun oy =>
            let ix := uadd (umul ox sy) kx in
            let iy := uadd (umul oy sy) ky in
            x <~ (if ((ix <? w) || (iy <? h))%N
                  then mlift (GetOperand mi [i; ix; iy]) else alloc nzero) ;
            d <~ mlift (GetOperand mdif [f; ox; oy]) ;
            o <~ alloc nzero ;
            push (OMul o d x) ;~
            mret o)) ;
        dw <~ alloc nzero ;
        push (OSum dw (concat opss)) ;~
        push (OSum nw [w1; dw; m]) ;~
        push (OSet m dw)
      | _ => mpanic end : TM T unit).
    transitivity (mfor L fb t0).
    + unfold conv_bp_w, L. cbn [nth]. symmetry. do 4 (rewrite mfor_indices_cons; apply mfor_ext; intros ? ? _). rewrite mfor_indices_nil. reflexivity.
    + refine (mfor_grown k u t0 fb L _ t0 eq_refl (le_n _)). intros q t Hq Ht Hlt. pose proof (HLw q Hq) as Hqw. pose proof Hqw as Hqm. rewrite <- Hshm in Hqm. pose proof Hqw as Hqn. rewrite <- Hshn in Hqn.
      destruct (cw_in q (HL q Hq)) as (f & i & kx & ky & -> & HP). unfold fb.
      erewrite mbnd_ok by (apply (get_ok _ _ _ _ Hww Hqw)). erewrite mbnd_ok by (apply (get_ok _ _ _ _ Hwm Hqm)). erewrite mbnd_ok by (apply (get_ok _ _ _ _ Hwn Hqn)).
      set (K := fun dw : ptr => push (OSum (Some (celladdr mnw [f; i; kx; ky])) [Some (celladdr mw [f; i; kx; ky]); dw; Some (celladdr mwm [f; i; kx; ky])]) ;~ push (OSet (Some (celladdr mwm [f; i; kx; ky])) dw) : TM T unit).
      etransitivity; [exact (gather2 (urange ow) (fun _ => urange oh) _ (fun ops => dw <~ alloc nzero ; push (OSum dw ops) ;~ K dw) t)|]. fold (pairs ow oh).
      rewrite (gather_run _ (cw_p f i kx ky) (pairs ow oh) t K); unfold K; clear K.
      * erewrite mbnd_ok by apply push_grown. rewrite push_grown, !grown_grown. unfold k, u, kw_k, kw_ops. cbn [cw_ts]. rewrite map_length, !Nat.add_0_r. reflexivity.
      * intros p t1 Hp _ Hlt1. destruct (HP p Hp) as (I1 & I2 & B1 & B2). cbv zeta. rewrite !umul_small by lia. rewrite !uadd_small by lia.
        destruct (N.ltb_spec (fst p * sy + kx) w); [|lia]. cbn [orb].
        erewrite mbnd_ok by (apply (get_ok _ _ _ _ Hwi I2)). erewrite mbnd_ok by (apply (get_ok _ _ _ _ Hwd I1)). erewrite mbnd_ok by apply alloc_grown. erewrite mbnd_ok by apply push_grown.
        rewrite grown_grown. reflexivity.
  - apply (lops_dst k u L (fun x => Some x ∈ operands mnw \/ Some x ∈ operands mwm) (length (mem t0))); [lia|]. intros q b d Hq Hb Hd.
    pose proof (HLw q Hq) as Hqw. pose proof Hqw as Hqm. rewrite <- Hshm in Hqm. pose proof Hqw as Hqn. rewrite <- Hshn in Hqn.
    destruct (kw_dst mw mwm mnw L (fun q => q) cw_ts q b d Hq Hd) as [?|[-> | ->]]; [auto|right; left; apply (celladdr_at _ _ _ Hwn Hqn)|right; right; apply (celladdr_at _ _ _ Hwm Hqm)].
  - intros m Hm. destruct (kw_sem t0 mw mwm mnw L (fun q => q) cw_ts Hww Hwm Hwn Hshm Hshn (indices_NoDup _) HLw (fun p q _ _ E => E) Hndn Hndm Hwo Hmo Hts Hne m Hm) as (m' & E & V).
    exists m'. split; [exact E|]. intros vd vx vw vm Evd Evx Evw Evm. unfold g_conv_w.
    assert (Sd : vsh vd = [nf; ow; oh]) by (rewrite <- Hshd; exact (proj1 (mval_shape _ _ _ Evd))). assert (Sw : vsh vw = shape mnw) by (rewrite Hshn; exact (proj1 (mval_shape _ _ _ Evw))).
    rewrite Sd, Sw. cbn [nth]. apply (mval_tabulate (length (mem t0))); [exact Hwn|]. intros idx Hidx. pose proof Hidx as Hiw. rewrite Hshn in Hiw. pose proof Hiw as Him. rewrite <- Hshm in Him.
    assert (HqL : idx ∈ L) by (apply elem_of_indices; rewrite <- Hshw; exact Hiw). destruct (kw_tot mw mwm L (fun q => q) cw_ts Hne m idx HqL) as [v Ev]. exists v. split; [|apply (V idx v HqL Ev)].
    destruct (cw_in idx (HL idx HqL)) as (f & i & kx & ky & -> & HP). rewrite <- Ev. unfold kw_res. cbn [cw_ts]. rewrite indices_pairs, mapM_map.
    rewrite (mapM_Some_map _ (fun p => pmul m (cw_p f i kx ky p))).
    + cbn [mbind option_bind]. rewrite map_map. destruct (fold1 nadd (map _ (pairs ow oh))) as [s0|]; [|reflexivity]. cbn [mbind option_bind].
      rewrite (el_ev (length (mem t0)) m mw vw) by (assumption || lia). cbn [mbind option_bind]. rewrite (el_ev (length (mem t0)) m mwm vm) by (assumption || lia). reflexivity.
    + intros p Hp. destruct (HP p Hp) as (I1 & I2 & _). rewrite (el_ev (length (mem t0)) m mdif vd) by (assumption || lia). cbn [mbind option_bind]. rewrite (el_ev (length (mem t0)) m mi vx) by (assumption || lia). reflexivity.
Qed.
End ConvW.
End BwdOps.
