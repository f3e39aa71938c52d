(** * BwdOps4: back-propagation through pooling and up-sampling *)
From Verif Require Import Base Num ModelTools ModelOps ModelTensor ModelGraph ModelLayer Spec Denote NetSpec FwdSpec
  IndexProofs ExecProofs TensorFacts AccessProofs BuildProofs BuildFrame CompileProofs EagerOps Agree FwdMask FwdBuild FwdSeg FwdOps FwdPool NetExec NetBuild NetChain FwdBody FwdExpr FwdConv FwdConv2 FwdAct FwdKer FwdDeconv BwdSpec BwdPost BwdLoop BwdOps BwdOps2 BwdOps3.
From Coq Require Import Lia ZifyBool ZifyNat ZifyN.

Section BwdOps4.
Context {T : Type} `{Num T}.
Notation inr := (Forall2 (fun i d => (i < d)%N)).

(** ** Up-sampling *)
Section Up.
Variables (t0 : tst T) (pdif dif : nat) (np nd : node T) (c w h sx sy : N).
Notation mp := (nmat np). Notation md := (nmat nd).
Hypotheses (Htp : tens t0 !! pdif = Some np) (Htd : tens t0 !! dif = Some nd) (Hwp : wf_mat (length (mem t0)) mp) (Hwd : wf_mat (length (mem t0)) md).
Hypotheses (Hshp : shape mp = [c; w; h]) (Hshd : shape md = [c; w * sx; h * sy]%N) (Hnd : NoDup (operands mp)).
Hypothesis Hdd : forall l, Some l ∈ operands md -> Some l ∉ operands mp.
Hypotheses (Hx0 : (0 < sx)%N) (Hy0 : (0 < sy)%N).
Definition up_c (q : list N) (p : N * N) : nat := match q with [f; x; y] => celladdr md [f; x * sx + fst p; y * sy + snd p]%N | _ => 0 end.
Definition up_ops (q : list N) (a : nat) : list (op T) := [OSum (Some (celladdr mp q)) (map (fun p => Some (up_c q p)) (pairs sx sy))].
Lemma up_bp_does : does t0 (up_bp pdif dif [c; w; h] sx sy) (fun x => Some x ∈ operands mp)
  (fun m m' => forall vd, mval m md = Some vd -> mval m' mp = g_up sx sy vd [c; w; h]).
Proof using All.
  set (L := indices [c; w; h]). assert (HL : forall q, q ∈ L -> inr q [c; w; h]) by (intros q; apply elem_of_indices).
  assert (HLp : forall q, q ∈ L -> inr q (shape mp)) by (intros q Hq; rewrite Hshp; apply HL; exact Hq).
  assert (HP : forall q, q ∈ L -> exists f x y, q = [f; x; y] /\ forall p, p ∈ pairs sx sy -> inr [f; x * sx + fst p; y * sy + snd p]%N (shape md) /\ (x * sx + fst p < w * sx)%N /\ (y * sy + snd p < h * sy)%N).
  { intros q Hq. destruct (F3 _ _ _ _ _ (HL q Hq)) as (f & x & y & -> & Hf & Hx & Hy). exists f, x, y. split; [reflexivity|]. intros p Hp. apply elem_of_pairs in Hp as [H1 H2].
    assert (x * sx + fst p < w * sx)%N by nia. assert (y * sy + snd p < h * sy)%N by nia. rewrite Hshd. repeat split; repeat constructor; assumption. }
  assert (Hbig : (w * sx < W64)%N /\ (h * sy < W64)%N). { destruct Hwd as ([Hf _] & _). rewrite Hshd, !Forall_cons in Hf. tauto. }
  set (k := fun _ : list N => 0).
  assert (Hmm : forall {A B : Type} (l : list A) (f : A -> TM T B) (g : A -> B) t, (forall a, a ∈ l -> f a t = (Ok (g a), t)) -> mmap l f t = (Ok (map g l), t)).
  { clear. intros A B l f g t. induction l as [|a l IH]; intros Hf; [reflexivity|]. cbn [mmap]. erewrite mbnd_ok by (apply Hf; left). erewrite mbnd_ok by (apply IH; intros; apply Hf; right; assumption). reflexivity. }
  exists (ltot k L), (lops k up_ops L (length (mem t0))). split; [|split].
  - unfold up_bp. erewrite mbnd_ok by (apply get_mat_ok; exact Htp). erewrite mbnd_ok by (apply get_mat_ok; exact Htd). cbn [nth]. rewrite loop3. fold L.
    refine (mfor_grown k up_ops t0 _ L _ t0 eq_refl (le_n _)). intros q t Hq Ht Hlt. pose proof (HLp q Hq) as Hqp. destruct (HP q Hq) as (f & x & y & -> & HPq).
    erewrite mbnd_ok by (apply (get_ok _ _ _ _ Hwp Hqp)).
    etransitivity; [exact (gather2 (urange sx) (fun _ => urange sy) _ (fun ops => push (OSum (Some (celladdr mp [f; x; y])) ops)) t)|]. cbv beta. fold (pairs sx sy).
    erewrite mbnd_ok.
    2:{ apply (Hmm _ _ _ _ (fun p => Some (up_c [f; x; y] p))). intros p Hp. destruct (HPq p Hp) as (I1 & B1 & B2). rewrite !umul_small by lia. rewrite !uadd_small by lia. apply (get_ok _ _ _ _ Hwd I1). }
    rewrite push_grown. reflexivity.
  - apply (lops_dst k up_ops L (fun x => Some x ∈ operands mp) (length (mem t0))); [lia|]. intros q b d Hq Hb Hd. unfold up_ops in Hd. rewrite dst_cons in Hd. cbn [op_dst] in Hd.
    destruct Hd as [[= <-]|Hd]; [right; apply (celladdr_at _ _ _ Hwp (HLp q Hq))|destruct (dst_nil _ Hd)].
  - intros m Hm. set (val := fun q => fold1 nadd (map (fun p => cell m (up_c q p)) (pairs sx sy))).
    assert (Htot : forall q, exists v, val q = Some v).
    { intros q. unfold val. assert (H00 : (0, 0)%N ∈ pairs sx sy) by (apply elem_of_pairs; auto). destruct (pairs sx sy); [inversion H00|]. eexists. reflexivity. }
    destruct (put_sem k up_ops (length (mem t0)) (fun q x v => x = celladdr mp q /\ val q = Some v) (fun q x => x = celladdr mp q) (fun _ _ => False) L m) with (a := length (mem t0)) as (m' & E & V).
    + apply indices_NoDup.
    + intros q b d Hq Hb Hd. unfold up_ops in Hd. rewrite dst_cons in Hd. cbn [op_dst] in Hd. destruct Hd as [[= <-]|Hd]; [auto|destruct (dst_nil _ Hd)].
    + intros q x v Hq [-> _]. apply (celladdr_at _ _ _ Hwp (HLp q Hq)).
    + intros i j x v Hi Hj Hne [-> _] Ec. apply Hne. exact (celladdr_inj _ _ _ _ Hwp Hnd (HLp i Hi) (HLp j Hj) Ec).
    + intros ? ? _ [].
    + intros ? ? ? _ _ _ [].
    + intros q a m1 Hq Ha Hb Hl1 Hk1 _. destruct (Htot q) as [v Hv]. exists (<[celladdr mp q := v]> m1). destruct (celladdr_at _ _ _ Hwp (HLp q Hq)) as (_ & Lq & _). split.
      * unfold up_ops. rewrite (exec_step _ (celladdr mp q) _ m1 v); [reflexivity|reflexivity|lia|]. cbn [op_value]. destruct (HP q Hq) as (f & x & y & -> & HPq).
        unfold rds. rewrite mapM_map. rewrite (mapM_Some_map _ (fun p => cell m (up_c [f; x; y] p))).
        { cbn [mbind option_bind]. rewrite red_fold1. exact Hv. }
        intros p Hp. destruct (HPq p Hp) as (I1 & _). destruct (celladdr_at _ _ _ Hwd I1) as (_ & L1 & O1). cbn. rewrite Hk1; [apply cell_at; lia|exact L1|].
        intros j Hj Ec. apply (Hdd _ O1). rewrite Ec. apply (celladdr_at _ _ _ Hwp (HLp j Hj)).
      * intros x v' [-> Hv']. rewrite list_lookup_insert by lia. congruence.
    + lia.
    + exact Hm.
    + exists m'. split; [exact E|]. intros vd Evd. unfold g_up. rewrite <- Hshp. apply (mval_tabulate (length (mem t0))); [exact Hwp|]. intros idx Hidx.
      assert (HqL : idx ∈ L) by (apply elem_of_indices; rewrite <- Hshp; exact Hidx). destruct (Htot idx) as [v Hv]. exists v. split; [|exact (V idx _ _ HqL (conj eq_refl Hv))].
      rewrite <- Hv. unfold val. destruct (HP idx HqL) as (f & x & y & -> & HPq). rewrite indices_pairs, mapM_map. rewrite (mapM_Some_map _ (fun p => cell m (up_c [f; x; y] p))); [reflexivity|].
      intros p Hp. destruct (HPq p Hp) as (I1 & _). apply (el_ev (length (mem t0)) m md vd); [exact Hwd|lia|exact Evd|exact I1].
Qed.
End Up.

(** ** Max pooling: errors of the input *)
Section Pool.
Variables (t0 : tst T) (inp out pdif dif : nat) (ni no np nd : node T) (c w h sx sy : N).
Notation mi := (nmat ni). Notation mo := (nmat no). Notation mp := (nmat np). Notation md := (nmat nd).
Hypotheses (Hti : tens t0 !! inp = Some ni) (Hto : tens t0 !! out = Some no) (Htp : tens t0 !! pdif = Some np) (Htd : tens t0 !! dif = Some nd).
Hypotheses (Hwi : wf_mat (length (mem t0)) mi) (Hwo : wf_mat (length (mem t0)) mo) (Hwp : wf_mat (length (mem t0)) mp) (Hwd : wf_mat (length (mem t0)) md).
Notation osh := ([c; (w + 1) / sx; (h + 1) / sy]%N).
Hypotheses (Hshi : shape mi = [c; w; h]) (Hsho : shape mo = osh) (Hsx : (0 < sx)%N) (Hsy : (0 < sy)%N) (Hw : (w + 1 < W64)%N) (Hh : (h + 1 < W64)%N).

Lemma win_in f x y : inr [f; x; y] osh -> (x * sx + sx <= w + 1 /\ y * sy + sy <= h + 1)%N /\ forall p, p ∈ window sx sy w h x y -> inr [f; fst p; snd p] [c; w; h].
Proof using Hsx Hsy.
  clear - Hsx Hsy. intros Hi. destruct (F3 _ _ _ _ _ Hi) as (f' & x' & y' & [= <- <- <-] & Hf & Hx & Hy). split.
  - pose proof (N.mul_div_le (w + 1) sx ltac:(lia)). pose proof (N.mul_div_le (h + 1) sy ltac:(lia)). nia.
  - intros p Hp. apply window_in in Hp as [H1 H2]. repeat constructor; assumption.
Qed.
Section PoolBp.
Hypotheses (Hshp : shape mp = [c; w; h]) (Hshd : shape md = osh) (Hnd : NoDup (operands mp)).
Hypothesis Hdi : forall l, Some l ∈ operands mi -> Some l ∉ operands mp.
Hypothesis Hdo : forall l, Some l ∈ operands mo -> Some l ∉ operands mp.
Hypothesis Hdd : forall l, Some l ∈ operands md -> Some l ∉ operands mp.
Definition po_ops (k : list N * list N) (a : nat) : list (op T) :=
  let p := Some (celladdr mp (snd k)) in
  [OEquals (Some a) (Some (celladdr mi (snd k))) (Some (celladdr mo (fst k))); OMul (Some (a + 1)) (Some (celladdr md (fst k))) (Some a); OAdd p p (Some (a + 1))].
Definition po_val (m : list T) (k : list N * list N) : T := nmul (ev m md (fst k)) (same (ev m mi (snd k)) (ev m mo (fst k))).
Definition ktwo (k : list N * list N) : nat := 2.
Lemma po_in k : k ∈ windows sx sy w h osh -> inr (fst k) osh /\ inr (snd k) [c; w; h].
Proof using Hsx Hsy.
  clear - Hsx Hsy. unfold windows. intros Hk. apply elem_of_list_In, in_flat_map in Hk as (o & Ho & Hk). apply elem_of_list_In, elem_of_indices in Ho.
  destruct (F3 _ _ _ _ _ Ho) as (f & x & y & -> & _). apply in_map_iff in Hk as (q & <- & Hq). cbn [fst snd]. split; [exact Ho|]. apply (win_in f x y Ho). apply elem_of_list_In. exact Hq.
Qed.
Lemma pool_bp_does : does t0 (pool_bp inp out pdif dif [c; w; h] osh sx sy) (fun x => Some x ∈ operands mp)
  (fun m m' => forall vd vx vy vp, mval m md = Some vd -> mval m mi = Some vx -> mval m mo = Some vy -> mval m mp = Some vp -> mval m' mp = g_pool sx sy vd vx vy vp).
Proof using All.
  set (L := windows sx sy w h osh).
  assert (HL : forall k, k ∈ L -> inr (fst k) (shape md) /\ inr (fst k) (shape mo) /\ inr (snd k) (shape mi) /\ inr (snd k) (shape mp)).
  { intros k Hk. destruct (po_in k Hk) as [I1 I2]. rewrite Hshd, Hsho, Hshi, Hshp. auto. }
  assert (Hdst : forall k b d, k ∈ L -> dst_in d (po_ops k b) -> b <= d < b + ktwo k \/ d = celladdr mp (snd k)).
  { clear. intros k b d _. unfold po_ops, ktwo. rewrite !dst_cons. cbn [op_dst]. intros [[= <-]|[[= <-]|[[= <-]|Hd]]]; [left; lia|left; lia|right; reflexivity|destruct (dst_nil _ Hd)]. }
  exists (ltot ktwo L), (lops ktwo po_ops L (length (mem t0))). split; [|split].
  - unfold pool_bp. erewrite mbnd_ok by (apply get_mat_ok; exact Hti). erewrite mbnd_ok by (apply get_mat_ok; exact Hto). erewrite mbnd_ok by (apply get_mat_ok; exact Htp). erewrite mbnd_ok by (apply get_mat_ok; exact Htd).
    rewrite loop3. cbn [nth].
    set (fb := fun k : list N * list N =>
      d <~ mlift (GetOperand md (fst k)) ; n <~ mlift (GetOperand mo (fst k)) ;
      pd <~ mlift (GetOperand mp (snd k)) ; i <~ mlift (GetOperand mi (snd k)) ;
      eq <~ alloc nzero ; push (OEquals eq i n) ;~ dd <~ alloc nzero ; push (OMul dd d eq) ;~ push (OAdd pd pd dd) : TM T unit).
    transitivity (mfor L fb t0).
    + unfold L, windows. rewrite mfor_flat_map. symmetry. apply mfor_ext. intros q t Hq. apply elem_of_indices in Hq. destruct (F3 _ _ _ _ _ Hq) as (f & x & y & -> & _).
      pose proof Hq as Hq1. rewrite <- Hshd in Hq1. pose proof Hq as Hq2. rewrite <- Hsho in Hq2.
      erewrite mbnd_ok by (apply (get_ok _ _ _ _ Hwd Hq1)). erewrite mbnd_ok by (apply (get_ok _ _ _ _ Hwo Hq2)).
      destruct (win_in f x y Hq) as [[B1 B2] _]. rewrite pool_rows_window by assumption. rewrite mfor_map. apply mfor_ext. intros p t1 Hp. unfold fb. cbn [fst snd].
      erewrite mbnd_ok by (apply (get_ok _ _ _ _ Hwd Hq1)). erewrite mbnd_ok by (apply (get_ok _ _ _ _ Hwo Hq2)). reflexivity.
    + refine (mfor_grown ktwo po_ops t0 fb L _ t0 eq_refl (le_n _)). intros k t Hk Ht Hlt. destruct (HL k Hk) as (I1 & I2 & I3 & I4). unfold fb.
      erewrite mbnd_ok by (apply (get_ok _ _ _ _ Hwd I1)). erewrite mbnd_ok by (apply (get_ok _ _ _ _ Hwo I2)). erewrite mbnd_ok by (apply (get_ok _ _ _ _ Hwp I4)). erewrite mbnd_ok by (apply (get_ok _ _ _ _ Hwi I3)).
      erewrite mbnd_ok by apply alloc_grown. erewrite mbnd_ok by apply push_grown. erewrite mbnd_ok by apply alloc_grown. erewrite mbnd_ok by apply push_grown. rewrite push_grown, !grown_grown, !grown_len.
      cbn [Nat.add app]. reflexivity.
  - apply (lops_dst ktwo po_ops L (fun x => Some x ∈ operands mp) (length (mem t0))); [lia|]. intros k b d Hk Hb Hd. destruct (Hdst k b d Hk Hd) as [?| ->]; [auto|]. right. apply (celladdr_at _ _ _ Hwp). apply HL. exact Hk.
  - intros m Hm.
    destruct (acc_sem ktwo po_ops (length (mem t0)) (length (mem t0)) mp snd (po_val m) L m Hwp (le_n _)) with (a := length (mem t0)) as (m' & E & V); [lia|exact Hnd| | | |lia|exact Hm|].
    + intros k b d Hk _. apply Hdst. exact Hk.
    + intros k Hk. apply HL. exact Hk.
    + intros k a m1 b Hk Ha Hb Hl1 Hkeep Hv. destruct (HL k Hk) as (I1 & I2 & I3 & I4). unfold ktwo in Hb.
      destruct (celladdr_at _ _ _ Hwd I1) as (_ & L1 & _). destruct (celladdr_at _ _ _ Hwo I2) as (_ & L2 & _). destruct (celladdr_at _ _ _ Hwi I3) as (_ & L3 & _). destruct (celladdr_at _ _ _ Hwp I4) as (_ & L4 & _).
      assert (V1 : m1 !! celladdr md (fst k) = Some (ev m md (fst k))) by (eapply (ev_keep _ m m1 md _ (fun x => Some x ∈ operands mp)); [exact Hwd|lia|exact Hdd|exact Hkeep|exact I1]).
      assert (V2 : m1 !! celladdr mo (fst k) = Some (ev m mo (fst k))) by (eapply (ev_keep _ m m1 mo _ (fun x => Some x ∈ operands mp)); [exact Hwo|lia|exact Hdo|exact Hkeep|exact I2]).
      assert (V3 : m1 !! celladdr mi (snd k) = Some (ev m mi (snd k))) by (eapply (ev_keep _ m m1 mi _ (fun x => Some x ∈ operands mp)); [exact Hwi|lia|exact Hdi|exact Hkeep|exact I3]).
      unfold po_ops. cbv zeta. set (p := celladdr mp _) in *. eexists. split.
      * rewrite (exec_step _ a _ m1 (same (ev m mi (snd k)) (ev m mo (fst k)))); [|reflexivity|lia|cbn; rewrite V3, V2; reflexivity].
        rewrite (exec_step _ (a + 1) _ _ (po_val m k)); [|reflexivity|rewrite insert_length; lia|].
        2:{ cbn. rewrite (list_lookup_insert_ne _ a (celladdr md (fst k))) by lia. rewrite V1. rewrite list_lookup_insert by lia. reflexivity. }
        rewrite (exec_step _ p _ _ (nadd b (po_val m k))); [reflexivity|reflexivity|rewrite !insert_length; lia|].
        cbn. rewrite (list_lookup_insert_ne _ (a + 1) p) by lia. rewrite (list_lookup_insert_ne _ a p) by lia. rewrite Hv. rewrite list_lookup_insert by (rewrite insert_length; lia). reflexivity.
      * rewrite list_lookup_insert by (rewrite !insert_length; lia). reflexivity.
    + exists m'. split; [exact E|]. intros vd vx vy vp Evd Evx Evy Evp. unfold g_pool.
      assert (Sx : vsh vx = [c; w; h]) by (rewrite <- Hshi; exact (proj1 (mval_shape _ _ _ Evx))). assert (Sy : vsh vy = osh) by (rewrite <- Hsho; exact (proj1 (mval_shape _ _ _ Evy))).
      assert (Sp : vsh vp = shape mp) by exact (proj1 (mval_shape _ _ _ Evp)).
      rewrite Sx, Sp, Sy. fold L. apply (mval_tabulate (length (mem t0))); [exact Hwp|]. intros idx Hidx. destruct (V idx Hidx) as (b & Hb & Hv).
      eexists. split; [|exact Hv]. rewrite (mapM_Some_map _ (po_val m)).
      * cbn [mbind option_bind]. rewrite (el_ev (length (mem t0)) m mp vp) by (assumption || lia). cbn [mbind option_bind]. unfold ev. rewrite Hb. reflexivity.
      * intros k Hk. apply in_filter in Hk as [Hk Hd]. apply bool_decide_eq_true_1 in Hd. subst idx. destruct (HL k Hk) as (I1 & I2 & I3 & I4).
        rewrite (el_ev (length (mem t0)) m md vd) by (assumption || lia). cbn [mbind option_bind]. rewrite (el_ev (length (mem t0)) m mi vx) by (assumption || lia). cbn [mbind option_bind].
        rewrite (el_ev (length (mem t0)) m mo vy) by (assumption || lia). reflexivity.
Qed.
End PoolBp.

(** ** Max pooling: derivatives.  [pdif] is the derivative at the input, [dif]
    the one at the output. *)
Section PoolDer.
Hypotheses (Hshp : shape mp = [c; w; h]) (Hshd : shape md = osh) (Hnd : NoDup (operands md)).
Hypothesis Hsi : forall l, Some l ∈ operands mi -> Some l ∉ operands md.
Hypothesis Hso : forall l, Some l ∈ operands mo -> Some l ∉ operands md.
Hypothesis Hsp : forall l, Some l ∈ operands mp -> Some l ∉ operands md.
Hypothesis Hwin : forall f x y, inr [f; x; y] osh -> window sx sy w h x y <> [].
Definition ptwo (p : N * N) : nat := 2.
Definition pt_ops (f : N) (o : list N) (p : N * N) (a : nat) : list (op T) :=
  [OEquals (Some a) (Some (celladdr mi [f; fst p; snd p])) (Some (celladdr mo o)); OMul (Some (a + 1)) (Some (celladdr mp [f; fst p; snd p])) (Some a)].
Definition pt_val (m : list T) (f : N) (o : list N) (p : N * N) : T := nmul (ev m mp [f; fst p; snd p]) (same (ev m mi [f; fst p; snd p]) (ev m mo o)).
Definition pt_res (_ : N * N) (b : nat) : ptr := Some (b + 1).
Lemma ltot_ptwo l : ltot ptwo l = 2 * length l.
Proof using Type. clear. induction l as [|x l IH]; [reflexivity|]. cbn [ltot length]. rewrite IH. unfold ptwo. lia. Qed.
Lemma pt_dst f o l a d : dst_in d (lops ptwo (pt_ops f o) l a) -> a <= d < a + 2 * length l.
Proof using Type.
  clear. intros Hd. destruct (lops_dst ptwo (pt_ops f o) l (fun _ => False) a a (le_n _)) with (d := d) as [?|[]].
  - intros p b d' _ _. unfold pt_ops, ptwo. rewrite !dst_cons. cbn [op_dst]. intros [[= <-]|[[= <-]|Hd']]; [left; lia|left; lia|destruct (dst_nil _ Hd')].
  - exact Hd.
  - rewrite ltot_ptwo in *. lia.
Qed.
(** The products of one row of a window. *)
Lemma pt_sem f o (m : list T) lo l : forall a (m1 : list T), lo <= a -> a + 2 * length l <= length m1 -> lo <= length m ->
  (forall p, p ∈ l -> celladdr mi [f; fst p; snd p] < lo /\ celladdr mp [f; fst p; snd p] < lo /\ celladdr mo o < lo) ->
  (forall p x, p ∈ l -> x = celladdr mi [f; fst p; snd p] \/ x = celladdr mp [f; fst p; snd p] \/ x = celladdr mo o -> m1 !! x = m !! x) ->
  exists m2, exec (lops ptwo (pt_ops f o) l a) m1 = Some m2 /\ rds m2 (lres ptwo pt_res l a) = Some (map (pt_val m f o) l).
Proof using Type.
  clear - lo. induction l as [|p l IH]; intros a m1 Ha Hb Hlo Hc Hk; [exists m1; auto|]. cbn [length] in Hb.
  destruct (Hc p ltac:(left)) as (C1 & C2 & C3). cbn [lops lres map].
  set (v1 := same (ev m mi [f; fst p; snd p]) (ev m mo o)). set (m2 := <[a + 1 := pt_val m f o p]> (<[a := v1]> m1)).
  assert (Hl2 : length m2 = length m1) by (unfold m2; rewrite !insert_length; reflexivity).
  assert (Hm2 : forall x, x < lo -> m2 !! x = m1 !! x) by (intros x Hx; unfold m2; rewrite !list_lookup_insert_ne by lia; reflexivity).
  assert (E2 : forall r, exec (pt_ops f o p a ++ r) m1 = exec r m2).
  { intros r. unfold pt_ops. cbn [app]. rewrite (exec_step _ a _ m1 v1); [|reflexivity|lia|].
    2:{ cbn. rewrite (Hk p (celladdr mi [f; fst p; snd p])) by (auto || left). rewrite (Hk p (celladdr mo o)) by (auto || left). rewrite (cell_at m (celladdr mi [f; fst p; snd p])), (cell_at m (celladdr mo o)) by lia. reflexivity. }
    rewrite (exec_step _ (a + 1) _ _ (pt_val m f o p)); [reflexivity|reflexivity|rewrite insert_length; lia|].
    cbn. rewrite (list_lookup_insert_ne _ a (celladdr mp [f; fst p; snd p])) by lia. rewrite (Hk p (celladdr mp [f; fst p; snd p])) by (auto || left). rewrite (cell_at m (celladdr mp [f; fst p; snd p])) by lia.
    rewrite list_lookup_insert by lia. reflexivity. }
  destruct (IH (a + ptwo p) m2) as (m3 & E3 & V3).
  - unfold ptwo. lia.
  - unfold ptwo. lia.
  - exact Hlo.
  - intros q Hq. apply Hc. right. exact Hq.
  - intros q x Hq Hx. assert (Hxl : x < lo) by (destruct (Hc q ltac:(right; exact Hq)) as (? & ? & ?); destruct Hx as [-> |[-> | ->]]; assumption).
    rewrite Hm2 by exact Hxl. apply (Hk q); [right; exact Hq|exact Hx].
  - exists m3. split; [rewrite E2; exact E3|]. unfold rds in *. cbn [mapM].
    assert (Hv : m3 !! (a + 1) = Some (pt_val m f o p)).
    { rewrite (exec_frame _ _ _ (a + 1) E3); [unfold m2; apply list_lookup_insert; rewrite insert_length; lia|]. intros Hd. apply pt_dst in Hd. unfold ptwo in Hd. lia. }
    assert (Hr : rd m3 (pt_res p a) = Some (pt_val m f o p)) by exact Hv. rewrite Hr. cbn [mbind option_bind]. rewrite V3. reflexivity.
Qed.
Fixpoint row_ops (f : N) (o : list N) (rs : list (list (N * N))) (acc : list ptr) (a : nat) : list (op T) :=
  match rs with
  | [] => []
  | r :: rs' => lops ptwo (pt_ops f o) r a ++ OSum (Some (celladdr md o)) (acc ++ lres ptwo pt_res r a) :: row_ops f o rs' (acc ++ lres ptwo pt_res r a) (a + 2 * length r)
  end.
Lemma row_dst f o rs : forall acc a d, dst_in d (row_ops f o rs acc a) -> a <= d < a + 2 * length (concat rs) \/ d = celladdr md o.
Proof using Type.
  clear. induction rs as [|r rs IH]; intros acc a d Hd; [destruct (dst_nil _ Hd)|]. cbn [row_ops concat] in *. rewrite app_length. rewrite dst_in_app, dst_cons in Hd. cbn [op_dst] in Hd.
  destruct Hd as [Hd|[[= <-]|Hd]]; [apply pt_dst in Hd; left; lia|auto|]. destruct (IH _ _ _ Hd) as [?|?]; [left; lia|auto].
Qed.
Lemma lres_in (l : list (N * N)) : forall a x, Some x ∈ lres ptwo pt_res l a -> a <= x < a + 2 * length l.
Proof using Type.
  clear. induction l as [|p l IH]; intros a x Hx; [inversion Hx|]. cbn [lres length] in *. apply elem_of_cons in Hx as [[= ->]|Hx]; [lia|]. apply IH in Hx. unfold ptwo in Hx. lia.
Qed.
Lemma rds_app (m : list T) a b x y : rds m a = Some x -> rds m b = Some y -> rds m (a ++ b) = Some (x ++ y).
Proof using Type. clear. unfold rds. intros Ha Hb. rewrite mapM_app, Ha. cbn. rewrite Hb. reflexivity. Qed.
Lemma rds_same (m m' : list T) ps : (forall x, Some x ∈ ps -> m' !! x = m !! x) -> Forall (fun p => p <> None) ps -> rds m' ps = rds m ps.
Proof using Type.
  clear. intros Hs Hn. unfold rds. apply mapM_ext_in. intros p Hp. destruct p as [x|]; [apply Hs; exact Hp|]. rewrite Forall_forall in Hn. destruct (Hn _ Hp eq_refl).
Qed.
Lemma row_sem f o (m : list T) lo rs : celladdr md o < lo -> lo <= length m -> Forall (fun r => r <> []) rs ->
  (forall p, p ∈ concat rs -> celladdr mi [f; fst p; snd p] < lo /\ celladdr mp [f; fst p; snd p] < lo /\ celladdr mo o < lo) ->
  (forall p x, p ∈ concat rs -> x = celladdr mi [f; fst p; snd p] \/ x = celladdr mp [f; fst p; snd p] \/ x = celladdr mo o -> x <> celladdr md o) ->
  forall acc a (m1 : list T) vals, lo <= a -> a + 2 * length (concat rs) <= length m1 ->
  (forall p x, p ∈ concat rs -> x = celladdr mi [f; fst p; snd p] \/ x = celladdr mp [f; fst p; snd p] \/ x = celladdr mo o -> m1 !! x = m !! x) ->
  (forall p, p ∈ acc -> exists x, p = Some x /\ lo <= x < a) -> rds m1 acc = Some vals -> (acc = [] \/ m1 !! celladdr md o = fold1 nadd vals) ->
  exists m2, exec (row_ops f o rs acc a) m1 = Some m2 /\ (acc ++ concat (map (map (fun _ => None)) rs) <> [] -> m2 !! celladdr md o = fold1 nadd (vals ++ map (pt_val m f o) (concat rs))).
Proof using Type.
  clear - lo. intros Hd Hlo. induction rs as [|r rs IH]; intros Hne Hc Hs acc a m1 vals Ha Hb Hk Hacc Hv Hdd.
  { exists m1. split; [reflexivity|]. cbn. rewrite !app_nil_r. intros Hn. destruct Hdd as [?|?]; [contradiction|assumption]. }
  cbn [concat] in Hb. rewrite app_length in Hb. inversion Hne as [|r' rs' Hr Hrs]; subst r' rs'. cbn [row_ops concat].
  assert (Hcr : forall p, p ∈ r -> p ∈ concat (r :: rs)) by (intros p Hp; cbn; apply elem_of_app; auto). assert (Hcs : forall p, p ∈ concat rs -> p ∈ concat (r :: rs)) by (intros p Hp; cbn; apply elem_of_app; auto).
  destruct (pt_sem f o m lo r a m1 Ha ltac:(lia) Hlo (fun p Hp => Hc p (Hcr p Hp)) (fun p x Hp => Hk p x (Hcr p Hp))) as (m2 & E2 & V2).
  pose proof (exec_length _ _ _ E2) as Hl2.
  assert (F2 : forall x, x < a -> m2 !! x = m1 !! x) by (intros x Hx; apply (exec_frame _ _ _ _ E2); intros Hdx; apply pt_dst in Hdx; lia).
  assert (Ha2 : rds m2 acc = Some vals).
  { rewrite (rds_same m1); [exact Hv| |apply Forall_forall; intros p Hp; destruct (Hacc p Hp) as (x & -> & _); discriminate]. intros x Hx. destruct (Hacc _ Hx) as (x' & [= <-] & Hx'). apply F2. lia. }
  pose proof (rds_app _ _ _ _ _ Ha2 V2) as Hall.
  assert (Hs1 : exists s, fold1 nadd (vals ++ map (pt_val m f o) r) = Some s).
  { destruct r as [|p0 r0]; [contradiction|]. destruct vals; eexists; reflexivity. }
  destruct Hs1 as [s Hs1].
  set (m3 := <[celladdr md o := s]> m2). assert (Hl3 : length m3 = length m2) by apply insert_length.
  assert (E3 : forall q, exec (OSum (Some (celladdr md o)) (acc ++ lres ptwo pt_res r a) :: q) m2 = exec q m3).
  { intros q. apply exec_step; [reflexivity|lia|]. cbn [op_value]. rewrite Hall. cbn [mbind option_bind]. rewrite red_fold1. exact Hs1. }
  assert (F3' : forall x, x <> celladdr md o -> m3 !! x = m2 !! x) by (intros x Hx; unfold m3; apply list_lookup_insert_ne; congruence).
  assert (Hacc3 : forall p, p ∈ acc ++ lres ptwo pt_res r a -> exists x, p = Some x /\ lo <= x < a + 2 * length r).
  { intros p Hp. apply elem_of_app in Hp as [Hp|Hp]; [destruct (Hacc p Hp) as (x & -> & ?); exists x; split; [reflexivity|lia]|].
    destruct p as [x|]; [exists x; split; [reflexivity|]; apply lres_in in Hp; lia|]. exfalso. clear - Hp. revert a Hp. induction r as [|q r IHr]; intros a Hp; [inversion Hp|]. cbn [lres] in Hp. apply elem_of_cons in Hp as [Hp|Hp]; [discriminate|]. apply (IHr _ Hp). }
  assert (Hv3 : rds m3 (acc ++ lres ptwo pt_res r a) = Some (vals ++ map (pt_val m f o) r)).
  { rewrite (rds_same m2); [exact Hall| |apply Forall_forall; intros p Hp; destruct (Hacc3 p Hp) as (x & -> & _); discriminate]. intros x Hx. destruct (Hacc3 _ Hx) as (x' & [= <-] & Hx'). apply F3'. lia. }
  destruct (IH Hrs (fun p Hp => Hc p (Hcs p Hp)) (fun p x Hp => Hs p x (Hcs p Hp)) (acc ++ lres ptwo pt_res r a) (a + 2 * length r) m3 (vals ++ map (pt_val m f o) r)) as (m4 & E4 & V4).
  - lia.
  - lia.
  - intros p x Hp Hx. assert (Hxl : x < lo) by (destruct (Hc p (Hcs p Hp)) as (? & ? & ?); destruct Hx as [-> |[-> | ->]]; assumption).
    rewrite F3' by (apply (Hs p x (Hcs p Hp) Hx)). rewrite F2 by lia. apply (Hk p x (Hcs p Hp) Hx).
  - exact Hacc3.
  - exact Hv3.
  - right. unfold m3. rewrite list_lookup_insert by lia. symmetry. exact Hs1.
  - exists m4. split; [rewrite exec_app, E2; cbn [mbind option_bind]; rewrite E3; exact E4|]. intros _. rewrite V4, map_app, app_assoc; [reflexivity|].
    destruct r as [|p0 r0]; [contradiction|]. cbn [lres]. destruct acc; discriminate.
Qed.
Lemma win_rows f x y : inr [f; x; y] osh -> Forall (fun r => r <> []) (pool_rows [c; w; h] sx sy x y).
Proof using Hsx Hsy Hw Hh Hwin.
  intros Hi. specialize (Hwin f x y Hi). destruct (win_in f x y Hi) as [[B1 B2] _]. clear - Hwin B1 B2 Hw Hh. rewrite <- (pool_rows_window c) in Hwin by assumption. unfold pool_rows in *. cbn [nth] in *.
  set (cols := fun i => flat_map (fun j => if (h <=? uadd (umul y sy) j)%N then [] else [(uadd (umul x sx) i, uadd (umul y sy) j)]) (urange sy)) in *.
  assert (Hc : forall i i', cols i = [] -> cols i' = []).
  { intros i i'. unfold cols. clear. induction (urange sy) as [|j l IH]; [reflexivity|]. cbn [flat_map]. destruct (h <=? uadd (umul y sy) j)%N; [exact IH|discriminate]. }
  apply Forall_forall. intros r Hr. apply elem_of_list_In, in_flat_map in Hr as (i & _ & Hr). destruct (w <=? uadd (umul x sx) i)%N; [destruct Hr|]. destruct Hr as [<-|[]]. intros Hn. apply Hwin.
  change (cols i = []) in Hn. clear Hwin. induction (urange sx) as [|i' l IH]; [reflexivity|]. cbn [flat_map]. rewrite concat_app, IH, app_nil_r. destruct (w <=? uadd (umul x sx) i')%N; [reflexivity|]. cbn [concat]. rewrite app_nil_r. apply (Hc i i' Hn).
Qed.
Definition pd_rows (q : list N) : list (list (N * N)) := match q with [f; x; y] => pool_rows [c; w; h] sx sy x y | _ => [] end.
Definition pd_k (q : list N) : nat := 2 * length (concat (pd_rows q)).
Definition pd_ops (q : list N) (a : nat) : list (op T) := row_ops (nth 0 q 0%N) q (pd_rows q) [] a.
Lemma pool_der_does : does t0 (pool_der inp out pdif dif [c; w; h] osh sx sy) (fun x => Some x ∈ operands md)
  (fun m m' => forall va vx vy, mval m mp = Some va -> mval m mi = Some vx -> mval m mo = Some vy -> mval m' md = g_pool_der sx sy vx vy va).
Proof using All.
  set (L := indices osh). assert (HL : forall q, q ∈ L -> inr q osh) by (intros q; apply elem_of_indices).
  assert (HLd : forall q, q ∈ L -> inr q (shape md)) by (intros q Hq; rewrite Hshd; apply HL; exact Hq).
  assert (HLo : forall q, q ∈ L -> inr q (shape mo)) by (intros q Hq; rewrite Hsho; apply HL; exact Hq).
  assert (HP : forall q, q ∈ L -> exists f x y, q = [f; x; y] /\ concat (pd_rows q) = window sx sy w h x y /\ forall p, p ∈ concat (pd_rows q) -> inr [f; fst p; snd p] (shape mi) /\ inr [f; fst p; snd p] (shape mp)).
  { intros q Hq. pose proof (HL q Hq) as Hi. destruct (F3 _ _ _ _ _ Hi) as (f & x & y & -> & _). exists f, x, y. split; [reflexivity|]. destruct (win_in f x y Hi) as [[B1 B2] Hin]. cbn [pd_rows].
    rewrite pool_rows_window by assumption. split; [reflexivity|]. intros p Hp. rewrite Hshi, Hshp. split; apply Hin; exact Hp. }
  assert (Hdst : forall q b d, q ∈ L -> dst_in d (pd_ops q b) -> b <= d < b + pd_k q \/ d = celladdr md q) by (intros q b d _ Hd; apply row_dst in Hd; exact Hd).
  exists (ltot pd_k L), (lops pd_k pd_ops L (length (mem t0))). split; [|split].
  - unfold pool_der. erewrite mbnd_ok by (apply get_mat_ok; exact Hti). erewrite mbnd_ok by (apply get_mat_ok; exact Hto). erewrite mbnd_ok by (apply get_mat_ok; exact Htp). erewrite mbnd_ok by (apply get_mat_ok; exact Htd).
    rewrite loop3. cbn [nth]. fold L. refine (mfor_grown pd_k pd_ops t0 _ L _ t0 eq_refl (le_n _)). intros q t Hq Ht Hlt. pose proof (HLd q Hq) as Hqd. pose proof (HLo q Hq) as Hqo. destruct (HP q Hq) as (f & x & y & -> & _ & Hin).
    erewrite mbnd_ok by (apply (get_ok _ _ _ _ Hwd Hqd)). erewrite mbnd_ok by (apply (get_ok _ _ _ _ Hwo Hqo)). unfold pd_k, pd_ops. cbn [nth]. cbn [pd_rows] in *.
    generalize ([] : list ptr) as acc. revert Hin t Ht Hlt. generalize (pool_rows [c; w; h] sx sy x y) as rs. induction rs as [|r rs IH]; intros Hin t Ht Hlt acc; [cbn [concat length Nat.mul row_ops]; rewrite grown_0; reflexivity|].
    match goal with |- context [mmap r ?g] => pose proof (mmap_grown ptwo (pt_ops f [f; x; y]) t g pt_res r) as EM end.
    erewrite mbnd_ok.
    2:{ apply EM; [|reflexivity|lia]. intros p t1 Hp _ Hlt1. destruct (Hin p ltac:(cbn; apply elem_of_app; auto)) as [I1 I2].
        erewrite mbnd_ok by (apply (get_ok _ _ _ _ Hwp I2)). erewrite mbnd_ok by (apply (get_ok _ _ _ _ Hwi I1)). erewrite mbnd_ok by apply alloc_grown. erewrite mbnd_ok by apply push_grown.
        erewrite mbnd_ok by apply alloc_grown. erewrite mbnd_ok by apply push_grown. rewrite !grown_grown, !grown_len. cbn [Nat.add app]. reflexivity. }
    clear EM. erewrite mbnd_ok by apply push_grown. rewrite grown_grown, Nat.add_0_r, ltot_ptwo. cbn [concat row_ops]. rewrite app_length.
    rewrite IH; [|intros p Hp; apply Hin; cbn; apply elem_of_app; auto|exact Ht|rewrite grown_len; lia].
    rewrite grown_grown, grown_len. rewrite <- app_assoc. cbn [app]. replace (2 * length r + 2 * length (concat rs)) with (2 * (length r + length (concat rs))) by lia. reflexivity.
  - apply (lops_dst pd_k pd_ops L (fun x => Some x ∈ operands md) (length (mem t0))); [lia|]. intros q b d Hq Hb Hd. destruct (Hdst q b d Hq Hd) as [?| ->]; [auto|]. right. apply (celladdr_at _ _ _ Hwd (HLd q Hq)).
  - intros m Hm. set (val := fun q => fold1 nadd (map (pt_val m (nth 0 q 0%N) q) (concat (pd_rows q)))).
    assert (Htot : forall q, q ∈ L -> exists v, val q = Some v).
    { intros q Hq. unfold val. destruct (HP q Hq) as (f & x & y & -> & -> & _). specialize (Hwin f x y (HL _ Hq)). destruct (window sx sy w h x y); [contradiction|]. eexists. reflexivity. }
    assert (Hoff : forall x q, q ∈ L -> Some x ∉ operands md -> x <> celladdr md q) by (intros x q Hq Hn ->; apply Hn, (celladdr_at _ _ _ Hwd (HLd q Hq))).
    destruct (put_sem pd_k pd_ops (length (mem t0)) (fun q x v => x = celladdr md q /\ val q = Some v) (fun q x => x = celladdr md q) (fun _ _ => False) L m) with (a := length (mem t0)) as (m' & E & V).
    + apply indices_NoDup.
    + intros q b d Hq _. apply Hdst. exact Hq.
    + intros q x v Hq [-> _]. apply (celladdr_at _ _ _ Hwd (HLd q Hq)).
    + intros i j x v Hi Hj Hne [-> _] Ec. apply Hne. exact (celladdr_inj _ _ _ _ Hwd Hnd (HLd i Hi) (HLd j Hj) Ec).
    + intros ? ? _ [].
    + intros ? ? ? _ _ _ [].
    + intros q a m1 Hq Ha Hb Hl1 Hk1 _. destruct (Htot q Hq) as [v Hv]. destruct (celladdr_at _ _ _ Hwd (HLd q Hq)) as (_ & Lq & _). destruct (celladdr_at _ _ _ Hwo (HLo q Hq)) as (_ & Lo & Oo).
      pose proof Hq as Hq0. destruct (HP q Hq) as (f & x & y & -> & Ew & Hin). unfold pd_k in Hb. unfold val in Hv. cbn [nth] in Hv.
      assert (Hcells : forall p z, p ∈ concat (pd_rows [f; x; y]) -> z = celladdr mi [f; fst p; snd p] \/ z = celladdr mp [f; fst p; snd p] \/ z = celladdr mo [f; x; y] -> z < length (mem t0) /\ Some z ∉ operands md).
      { intros p z Hp Hz. destruct (Hin p Hp) as [I1 I2]. destruct (celladdr_at _ _ _ Hwi I1) as (_ & ? & ?). destruct (celladdr_at _ _ _ Hwp I2) as (_ & ? & ?).
        destruct Hz as [-> |[-> | ->]]; (split; [assumption|]); [apply Hsi|apply Hsp|apply Hso]; assumption. }
      destruct (row_sem f [f; x; y] m (length (mem t0)) (pd_rows [f; x; y])) with (acc := @nil ptr) (a := a) (m1 := m1) (vals := @nil T) as (m2 & E2 & V2).
      * exact Lq.
      * lia.
      * apply (win_rows f x y). apply HL. exact Hq0.
      * intros p Hp. split; [apply (Hcells p); auto|]. split; [apply (Hcells p); auto|exact Lo].
      * intros p z Hp Hz. apply Hoff; [exact Hq0|]. apply (Hcells p z Hp Hz).
      * exact Ha.
      * lia.
      * intros p z Hp Hz. destruct (Hcells p z Hp Hz) as [Z1 Z2]. apply Hk1; [exact Z1|]. intros j Hj. apply Hoff; assumption.
      * intros p Hp. inversion Hp.
      * reflexivity.
      * left. reflexivity.
      * exists m2. split; [exact E2|]. intros z v' [-> Hv']. rewrite V2; [cbn [app]; unfold val in Hv'; cbn [nth] in Hv'; exact Hv'|].
        cbn [app]. intros Hn. specialize (Hwin f x y (HL _ Hq0)). apply Hwin. rewrite <- Ew. clear - Hn. induction (pd_rows [f; x; y]) as [|r rs IH]; [reflexivity|]. cbn in Hn |- *. apply app_eq_nil in Hn as [H1 H2]. rewrite (IH H2).
        destruct r; [reflexivity|discriminate].
    + lia.
    + exact Hm.
    + exists m'. split; [exact E|]. intros va vx vy Eva Evx Evy. unfold g_pool_der.
      assert (Sx : vsh vx = [c; w; h]) by (rewrite <- Hshi; exact (proj1 (mval_shape _ _ _ Evx))). assert (Sy : vsh vy = osh) by (rewrite <- Hsho; exact (proj1 (mval_shape _ _ _ Evy))).
      rewrite Sx, Sy, <- Hshd. apply (mval_tabulate (length (mem t0))); [exact Hwd|]. intros idx Hidx.
      assert (HqL : idx ∈ L) by (apply elem_of_indices; rewrite <- Hshd; exact Hidx). destruct (Htot idx HqL) as [v Hv]. exists v. split; [|exact (V idx _ _ HqL (conj eq_refl Hv))].
      pose proof (HLo idx HqL) as Hio. rewrite <- Hv. unfold val. destruct (HP idx HqL) as (f & x & y & -> & Ew & Hin). rewrite Ew in *. cbn [nth].
      rewrite (el_ev (length (mem t0)) m mo vy) by (assumption || lia). cbn [mbind option_bind]. rewrite (mapM_Some_map _ (pt_val m f [f; x; y])); [reflexivity|].
      intros p Hp. destruct (Hin p Hp) as [I1 I2]. rewrite (el_ev (length (mem t0)) m mp va) by (assumption || lia). cbn [mbind option_bind]. rewrite (el_ev (length (mem t0)) m mi vx) by (assumption || lia). reflexivity.
Qed.
End PoolDer.
End Pool.
End BwdOps4.
