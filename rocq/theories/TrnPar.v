(** * TrnPar: the training code of the layers with bias and weights *)
From Verif Require Import Base Num ModelTools ModelOps ModelTensor ModelGraph ModelLayer Spec NetSpec FwdSpec Denote
  IndexProofs ExecProofs TensorFacts AccessProofs BuildProofs BuildFrame CompileProofs Agree FwdMask FwdBuild FwdSeg FwdOps FwdPool NetBuild NetChain FwdBody FwdExpr FwdConv FwdConv2 FwdAct FwdTotal
  BwdSpec BwdPost BwdLoop BwdOps BwdOps2 BwdOps3 BwdOps4 TrnSpec TrnTri TrnOwn TrnExpr TrnSite TrnDer TrnXfer TrnBody TrnKind TrnBias.
From Coq Require Import Lia ZifyBool ZifyNat ZifyN.

Section TrnPar.
Context {T : Type} `{Num T}.
Implicit Types (s : lst T) (m : list T) (c q : clay T) (cs rest : list (clay T)).

(** ** A field that starts as a tensor of zeros *)
Definition zcs s (sh : list N) : list (nat * T) := zconst (length (mem (ts s))) (N.to_nat (prodN sh)).
Record zset s s1 (i : nat) (f : tfield) (sh : list N) (t : nat) (l : layer T) : Prop := {
  zs_held : held s s1;
  zs_frame : frame (fun j g => j = i /\ g = f) s s1;
  zs_lay : lays s1 !! i = Some (set_ten f (Some t) l);
  zs_len : length (mem (ts s1)) = length (mem (ts s)) + N.to_nat (prodN sh);
  zs_seg : seg nowhere (ts s) (ts s1) [] [];
  zs_con : seg nowhere (ts s) (ts s1) [] (zcs s sh);
  zs_node : node_ok (ts s1) t (MkNode KMat (blkm sh (length (mem (ts s))) false)) sh;
}.
Lemma zero_step s i f sh l : lays s !! i = Some l -> lten l f = None -> fits sh ->
  exists sa s1 t, liftT (NewZeros sh) s = (Ok t, sa) /\ setF i f t sa = (Ok tt, s1) /\ zset s s1 i f sh t l.
Proof using Type.
  intros Hl Hf Hfi. destruct (seg_zeros_const (ts s) sh Hfi) as (t1 & n & E & S & -> & L & Et & Hn). destruct (seg_zeros (ts s) sh Hfi) as (t1' & E' & S' & _). assert (t1' = t1) as -> by congruence.
  exists (MkL t1 (lays s) (rc s)), (MkL t1 (<[i := set_ten f (Some (length (tens (ts s)))) l]> (lays s)) (rc s)), (length (tens (ts s))).
  split; [apply liftT_ok; exact E|]. split; [apply (updL_ok (MkL t1 (lays s) (rc s))); exact Hl|]. split; cbn [ts lays rc].
  - exact (held_step s t1 i l f _ _ _ _ _ (tri_quiet _ _ _ S') Hl Hf).
  - apply frame_set. exact Hl.
  - apply list_lookup_insert. eapply lookup_lt_Some; exact Hl.
  - exact L.
  - exact S'.
  - exact S.
  - exact Hn.
Qed.
Lemma zset_field s s1 s2 i f sh t l : zset s s1 i f sh t l -> held s1 s2 ->
  exists n, fid s2 i f = Some t /\ node_ok (ts s2) t n sh /\ NoDup (operands (nmat n)) /\ (forall a, Some a ∈ operands (nmat n) -> length (mem (ts s)) <= a < length (mem (ts s1))) /\
    forall m, consts (zcs s sh) m -> mval m (nmat n) = Some (vzero sh).
Proof using Type.
  intros [_ _ Hl HL _ _ Hn] Hh. destruct (node_ok_keep _ _ _ _ _ Hn (hd_keep _ _ Hh) (hd_len _ _ Hh)) as (n & Hn' & Ho & Hv). exists n.
  split; [eapply fid_held; [exact Hh|]; rewrite (fid_lay _ _ _ _ Hl); apply set_ten_same|]. split; [exact Hn'|]. rewrite Ho. cbn [nmat].
  assert (Hop : operands (blkm sh (length (mem (ts s))) false) = map Some (seq (length (mem (ts s))) (N.to_nat (prodN sh)))) by reflexivity. rewrite Hop. split; [apply NoDup_fmap_2; [intros x y E; congruence|apply NoDup_seq]|]. split.
  - intros a Ha. apply elem_of_list_fmap in Ha as (x & E & Hx). injection E as <-. apply elem_of_seq in Hx. lia.
  - intros m Hc. rewrite Hv. cbn [nmat]. apply zconst_val. exact Hc.
Qed.
Lemma field_at s i f t n sh : fid s i f = Some t -> node_ok (ts s) t n sh -> ok s i f sh /\ (forall a, cells s i f a -> Some a ∈ operands (nmat n)) /\ forall m, fval s i f m = mval m (nmat n).
Proof using Type.
  intros Hf Hn. assert (E : fnode s i f = Some n) by (unfold fnode; rewrite Hf; apply Hn). split; [exists t, n; auto|]. split; [intros a (n' & En & Ha); congruence|]. intros m. unfold fval. rewrite E. reflexivity.
Qed.
Lemma zset_zero s s1 s2 i f sh t l : zset s s1 i f sh t l -> held s1 s2 -> forall a, cells s2 i f a -> mem (ts s2) !! a = Some nzero.
Proof using Type.
  intros [_ _ Hl HL _ Hs Hn] Hh a Ha. destruct (field_at s1 i f t _ _ ltac:(rewrite (fid_lay _ _ _ _ Hl); apply set_ten_same) Hn) as (Ho & Hc & _).
  destruct (ok_held _ _ _ _ _ Hh Ho) as (_ & Hce & _). apply Hce, Hc in Ha. cbn [nmat] in Ha.
  assert (Hop : operands (blkm sh (length (mem (ts s))) false) = map Some (seq (length (mem (ts s))) (N.to_nat (prodN sh)))) by reflexivity. rewrite Hop in Ha. apply elem_of_list_fmap in Ha as (x & E & Hx). injection E as <-.
  apply (hd_mem _ _ Hh). refine (proj2 (proj2 (tri_C _ _ _ _ _ _ (a, nzero) (tri_quiet _ _ _ Hs) _))). unfold zcs, zconst. apply elem_of_list_fmap. exists a. auto.
Qed.

(** ** The error of the layer below *)
Lemma in_par s0 s c q rest l (L : layer T) fuel al mo (F : tmat -> tmat -> tmat -> tmat -> TM T unit) (G : vten T -> vten T -> vten T -> vten T -> option (vten T)) ws tw (b : bool) :
  chain s0 (c :: q :: rest) -> apt s0 (c :: q :: rest) al mo -> lay_site s0 c (c_sh q) l -> held s0 s -> lten L FDif = fid s0 (c_i c) FDif -> lref L = lref l ->
  (forall j, j ∈ dertop (q :: rest) -> fid s j FDer = None) -> length (q :: rest) <= fuel -> shares c = true ->
  (forall R a psh e, g_in R c a psh e = (w ← r_w R (c_i c); a' ← a; G e w a' (vzero psh))) ->
  ok s0 (c_i c) FWeights ws -> fid s0 (c_i c) FWeights = Some tw ->
  (forall t0 md mw mder mp, wf_mat (length (mem t0)) md -> wf_mat (length (mem t0)) mw -> wf_mat (length (mem t0)) mder -> wf_mat (length (mem t0)) mp ->
     shape md = c_sh c -> shape mw = ws -> shape mder = c_sh q -> shape mp = c_sh q -> NoDup (operands mp) ->
     (forall l, Some l ∈ operands md -> Some l ∉ operands mp) -> (forall l, Some l ∈ operands mw -> Some l ∉ operands mp) -> (forall l, Some l ∈ operands mder -> Some l ∉ operands mp) ->
     does t0 (F md mw mder mp) (fun x => Some x ∈ operands mp) (fun m m' => forall vd vw va vp, mval m md = Some vd -> mval m mw = Some vw -> mval m mder = Some va -> mval m mp = Some vp -> mval m' mp = G vd vw va vp)) ->
  exists e sa s1 t s2 p s2b s3 ne W C, shared_dif L s = (Ok e, sa) /\ liftT (Build e) sa = (Ok tt, s1) /\ LBuildDer fuel (c_i q) s1 = (Ok t, s2) /\ GetDif (c_i q) s2 = (Ok (Some p), s2) /\
    (if b then liftT (Build p) s2 = (Ok tt, s2b) else s2b = s2) /\
    liftT (md <~ get_mat e ; mw <~ get_mat tw ; mder <~ get_mat t ; mp <~ get_mat p ; F md mw mder mp) s2b = (Ok tt, s3) /\
    in_post s0 c q rest s s3 e ne W C.
Proof using Type.
  intros Hch Hapt Hsite Hh Hd Hr HF Hfu Hsh HG Hw Htw HFd.
  destruct (chain_head _ _ _ Hch) as (l0 & psh0 & Hsite0 & -> & _ & Hcn & Hchr & Hdis & _). pose proof (ap_nd _ _ _ _ Hapt) as Hnd0. apply NoDup_cons in Hnd0 as [_ Hnd].
  assert (Hns : c_l c <> Some SSoft) by (intros E; unfold shares in Hsh; rewrite E in Hsh; discriminate Hsh).
  destruct (pre_ok s0 s c q rest l L fuel al mo Hsite Hchr Hapt Hnd Hh Hd Hr HF Hfu) as (e & sa & s1 & t & s2 & p & W & C & ne & nt & np & E1 & E2 & E3 & E4 & [p1 p2 p3 p4 p5 p6 p7 [p8 p8'] p9 p10 p11]).
  assert (HB : exists s2b, (if b then liftT (Build p) s2 = (Ok tt, s2b) else s2b = s2) /\ tri (ts s2) (ts s2b) nowhere [] any stay /\ lays s2b = lays s2 /\ rc s2b = rc s2 /\ mem (ts s2b) = mem (ts s2)).
  { destruct b; [|exists s2; repeat split; apply tri_refl]. destruct (tri_settle _ _ _ _ p7) as (t' & EB & Em & Tt & _). exists (MkL t' (lays s2) (rc s2)). split; [apply liftT_ok; exact EB|]. repeat split; assumption. }
  destruct HB as (s2b & EB & TB & LB & RB & MB).
  assert (Hhb : held s s2b). { eapply held_trans; [exact p1|]. destruct s2b as [tb lb rb]. cbn [lays rc] in LB, RB. subst. exact (held_ts _ _ _ _ _ _ TB). }
  pose proof (held_trans _ _ _ Hh Hhb) as Hh0b. pose proof (hd_len _ _ Hh) as L0. pose proof (hd_len _ _ p1) as L1.
  assert (LMB : length (mem (ts s2)) <= length (mem (ts s2b))) by (rewrite MB; lia).
  destruct (node_ok_keep _ _ _ _ _ p5 (tri_keep _ _ _ _ _ _ TB) LMB) as (neb & Heb & Oeb & Veb). destruct (node_ok_keep _ _ _ _ _ p6 (tri_keep _ _ _ _ _ _ TB) LMB) as (ntb & Htb & Otb & Vtb). destruct (node_ok_keep _ _ _ _ _ p7 (tri_keep _ _ _ _ _ _ TB) LMB) as (npb & Hpb & Opb & Vpb).
  destruct (field_ok _ _ _ _ _ Hh0b Hw) as (tw' & nw & Hf0 & Hfw & Hnw & Hvw & Hcw & Hlw). assert (tw' = tw) as -> by congruence.
  assert (Hqc : forall a, cells s0 (c_i q) FDif a -> a < length (mem (ts s0))) by (intros a Ha; destruct (chain_head _ _ _ Hchr) as (lq & pq & Hsq & _); destruct (ls_dif _ _ _ _ Hsq) as [Ho _]; exact (ok_lt _ _ _ _ _ Ho Ha)).
  assert (Hdoes : does (ts s2b) (F (nmat neb) (nmat nw) (nmat ntb) (nmat npb)) (fun x => Some x ∈ operands (nmat npb)) (fun m m' => forall vd vw va vp, mval m (nmat neb) = Some vd -> mval m (nmat nw) = Some vw -> mval m (nmat ntb) = Some va -> mval m (nmat npb) = Some vp -> mval m' (nmat npb) = G vd vw va vp)).
  { apply HFd; try (first [apply Heb|apply Hnw|apply Htb|apply Hpb]); rewrite ?Opb, ?Oeb, ?Otb; [exact p8'|..].
    - intros x Hx Hy. apply p9 in Hy. destruct (p10 _ Hx) as [Hz|Hz]; [apply Hqc in Hy; lia|]. exact (Hdis Hns q x ltac:(left) Hz Hy).
    - intros x Hx Hy. apply Hcw in Hx. apply p9 in Hy. refine (ap_f _ _ _ _ Hapt c q FWeights x _ _ _ Hy Hx); [left|right; left|]. unfold readf. auto.
    - intros x Hx Hy. apply p9, Hqc in Hy. apply p11 in Hx. lia. }
  destruct (tri_does _ _ _ _ Hdoes) as (t3 & E5 & Et3 & T3). { intros x Hx. apply (node_ok_lt _ _ _ _ _ Hpb Hx). }
  pose proof (tri_seq _ _ _ _ _ _ _ _ _ _ _ TB T3 ltac:(intros c0 Hc0; inversion Hc0)) as T23. cbn [app] in T23.
  assert (T23' : tri (ts s2) t3 (either nowhere (fun l => length (mem (ts s2b)) <= l < length (mem t3) \/ Some l ∈ operands (nmat npb))) [] any
     (fun m m' => forall vd vw va vp, mval m (nmat ne) = Some vd -> mval m (nmat nw) = Some vw -> mval m (nmat nt) = Some va -> mval m (nmat np) = Some vp -> mval m' (nmat np) = G vd vw va vp)).
  { eapply tri_post; [exact T23| |]; cbn beta; [intros; split; [exact I|intros; exact I]|]. intros m m' _ _ _ _ (m1 & _ & -> & _ & HR) vd vw va vp X1 X2 X3 X4. rewrite <- Vpb. apply HR; [rewrite Veb|..|rewrite Vtb|rewrite Vpb]; assumption. }
  destruct (in_from s0 s c q rest l s2 e p W C ne np (fun m m' => exists a, s_der (rdg s0 m) (q :: rest) = Some a /\ mval m' (nmat nt) = Some a) t3 _ _ Hsh Hsite (fun a Ha => Hdis Hns q a ltac:(left) Ha) (fun a Ha => Nat.lt_le_trans _ _ _ (Hqc a Ha) L0) p1 p2 p3 p4 p5 p10 p7 p8 p9 T23'
    ltac:(intros x [[]|[Hx|Hx]]; [left; rewrite <- MB; lia|right; rewrite <- Opb; exact Hx])) as (ne' & W' & C' & HI).
  - intros m m1 m' ve Hm Hr1 (a & Ha & Hna) HR Hve Hz. rewrite HG. cbn [r_w rdg]. rewrite Ha. destruct (ok_total _ _ _ _ m Hw) as (vw & Ew & _); [lia|]. rewrite Ew. cbn [mbind option_bind]. apply HR; [exact Hve| |exact Hna|exact Hz].
    rewrite Hvw, (fresh_field _ _ _ _ _ _ _ Hw Hr1); [exact Ew|]. intros x Hx. apply p4 in Hx. lia.
  - exists e, sa, s1, t, s2, p, s2b, (MkL t3 (lays s2) (rc s2)), ne', W', C'. repeat (split; [assumption|]). split; [|exact HI]. rewrite <- LB, <- RB. apply liftT_ok.
    erewrite mbnd_ok by (apply get_mat_ok; apply Heb). erewrite mbnd_ok by (apply get_mat_ok; apply Hnw). erewrite mbnd_ok by (apply get_mat_ok; apply Htb). erewrite mbnd_ok by (apply get_mat_ok; apply Hpb). exact E5.
Qed.

(** ** Putting the parts together *)
Definition midP s0 c rest m : Prop := shareP s0 c m /\ match rest with [] => True | q :: _ => fval s0 (c_i q) FDif m = Some (vzero (c_sh q)) end.
Definition midR s0 c rest (ne : node T) m m' : Prop := shareR s0 c ne m m' /\
  match rest with [] => True | q :: _ => forall d, fval s0 (c_i c) FDif m = Some d -> fval s0 (c_i q) FDif m' = s_in (rdg s0 m) c (s_der (rdg s0 m) rest) (c_sh q) d end.
Record mid_post s0 c rest s s3 (e : nat) (ne : node T) (W : nat -> Prop) (C : list (nat * T)) : Prop := {
  mp_held : held s s3;
  mp_frame : frame (derD rest) s s3;
  mp_tri : tri (ts s) (ts s3) W C (midP s0 c rest) (midR s0 c rest ne);
  mp_W : forall l, W l -> length (mem (ts s)) <= l \/ match rest with [] => False | q :: _ => cells s0 (c_i q) FDif l end;
  mp_e : node_ok (ts s3) e ne (c_sh c);
  mp_ec : forall a, Some a ∈ operands (nmat ne) -> length (mem (ts s)) <= a \/ cells s0 (c_i c) FDif a;
}.
Lemma in_mid s0 c q rest s s3 e ne W C : in_post s0 c q rest s s3 e ne W C -> mid_post s0 c (q :: rest) s s3 e ne W C.
Proof using Type. intros [a1 a2 a3 a4 a5 a6]. split; assumption. Qed.
Lemma share_mid s0 s c psh l (L : layer T) : lay_site s0 c psh l -> held s0 s -> lten L FDif = fid s0 (c_i c) FDif -> lref L = lref l ->
  exists e sa s3 ne W C, shared_dif L s = (Ok e, sa) /\ liftT (Build e) sa = (Ok tt, s3) /\ mid_post s0 c [] s s3 e ne W C.
Proof using Type.
  intros Hsite Hh Hd Hr. destruct (share_ok _ _ _ _ _ L Hsite Hh Hd Hr) as (e & sa & t1 & W & C & ne & E1 & E2 & HT & HW & Hne & Hec). exists e, sa, (MkL t1 (lays s) (rc s)), ne, W, C. split; [exact E1|]. split; [exact E2|]. split.
  - exact (held_ts _ _ _ _ _ _ HT).
  - exact (frame_lays _ _ _ _ (frame_refl _ s) eq_refl).
  - eapply tri_post; [exact HT|intros m _ _ [HP _]; exact HP|]. intros m m' _ _ _ _ HR. split; [exact HR|exact I].
  - auto.
  - exact Hne.
  - exact Hec.
Qed.
Definition own (i : nat) (j : nat) (g : tfield) : Prop := j = i /\ parf g.
Lemma par_from s0 al mo c rest s s4 s5 s6 Cz e ne W C Wf Cf Pf Rf :
  chain s0 (c :: rest) -> held s0 s -> c_par c = true ->
  held s s4 -> frame (own (c_i c)) s s4 -> tri (ts s) (ts s4) nowhere Cz any stay ->
  mid_post s0 c rest s4 s5 e ne W C ->
  held s5 s6 -> frame (own (c_i c)) s5 s6 -> tri (ts s5) (ts s6) Wf Cf Pf Rf ->
  (forall l, Wf l -> length (mem (ts s5)) <= l \/ length (mem (ts s)) <= l < length (mem (ts s4))) -> (forall c0 : nat * T, c0 ∈ Cz -> ~ Wf (fst c0)) ->
  (forall m, length (mem (ts s6)) <= length m -> bodyP s0 s6 al mo c rest m -> shareP s0 c m) ->
  (forall m m1, length (mem (ts s6)) <= length m -> consts Cz m -> bodyP s0 s6 al mo c rest m -> ran W m m1 -> midR s0 c rest ne m m1 -> Pf m1) ->
  (forall m m1 m' d a b, length (mem (ts s6)) <= length m -> consts Cz m -> bodyP s0 s6 al mo c rest m -> ran W m m1 -> midR s0 c rest ne m m1 -> ran Wf m1 m' -> Rf m1 m' ->
     fval s0 (c_i c) FDif m = Some d -> m !! al = Some a -> m !! mo = Some b ->
     exists nb nw, s_par (rdg s0 m) (mbv s6 m) a b c d = Some (Some (nb, nw)) /\ fval s6 (c_i c) FNBias m' = Some nb /\ fval s6 (c_i c) FNWeights m' = Some nw /\
       (c_mom c = true -> fval s6 (c_i c) FMBias m' = s_db (mbv s6 m) a b (c_i c) d)) ->
  (forall f, f = FNBias \/ f = FNWeights \/ f = FMBias -> exists sh, ok s6 (c_i c) f sh /\ ok s0 (c_i c) (twin f) sh /\ forall a, cells s6 (c_i c) f a -> length (mem (ts s)) <= a) -> mbzero s6 (c_i c) ->
  body_post s0 al mo c rest s s6.
Proof using Type.
  intros Hch Hh Hpar H4 F4 T4 [m1 m2 m3 m4 m5 m6] H6 F6 T6 HWf HCz HP HPf HR Hbd Hmb.
  assert (Hns : c_l c <> Some SSoft) by (intros E; unfold c_par in Hpar; rewrite E in Hpar; discriminate Hpar).
  pose proof (hd_len _ _ Hh) as L0. pose proof (tri_len _ _ _ _ _ _ T4) as L4. pose proof (tri_len _ _ _ _ _ _ m3) as L5. pose proof (tri_len _ _ _ _ _ _ T6) as L6.
  assert (Hq : forall q r, rest = q :: r -> exists sh, ok s0 (c_i q) FDif sh).
  { intros q r ->. destruct (chain_head _ _ _ Hch) as (l & psh & _ & _ & _ & _ & Hchr & _). destruct (chain_head _ _ _ Hchr) as (lq & pq & Hsq & _). destruct (ls_dif _ _ _ _ Hsq) as [Ho _]. eauto. }
  assert (Hql : forall q r a, rest = q :: r -> cells s0 (c_i q) FDif a -> a < length (mem (ts s0))) by (intros q r a E Ha; destruct (Hq q r E) as (sh & Ho); exact (ok_lt _ _ _ _ _ Ho Ha)).
  assert (Cw : forall c0 : nat * T, c0 ∈ Cz -> ~ W (fst c0)).
  { intros c0 Hc0 Hw. destruct (tri_C _ _ _ _ _ _ _ T4 Hc0) as ([X1 X2] & _). apply m4 in Hw as [Hw|Hw]; [lia|]. destruct rest as [|q r]; [destruct Hw|]. pose proof (Hql q r _ eq_refl Hw). lia. }
  assert (Cf' : forall c0 : nat * T, c0 ∈ Cz ++ C -> ~ Wf (fst c0)).
  { intros c0 Hc0 Hw. apply elem_of_app in Hc0 as [Hc0|Hc0]; [exact (HCz _ Hc0 Hw)|]. destruct (tri_C _ _ _ _ _ _ _ m3 Hc0) as ([X1 X2] & _). apply HWf in Hw as [Hw|Hw]; lia. }
  pose proof (tri_seq _ _ _ _ _ _ _ _ _ _ _ (tri_seq _ _ _ _ _ _ _ _ _ _ _ T4 m3 Cw) T6 Cf') as TT.
  split.
  - eapply held_trans; [exact H4|]. eapply held_trans; [exact m1|exact H6].
  - eapply frame_trans; [exact F4|eapply (frame_trans (derD rest) (own (c_i c)) (bodyD c rest)); [exact m2|exact F6|]|]; unfold own, bodyD; rewrite ?Hpar; tauto.
  - eexists _, _. split.
    + eapply tri_post; [exact TT| |]; cbn beta.
      * intros m Hm HC HB. apply consts_app in HC as [HC _]. apply consts_app in HC as [HC _]. split; [split; [exact I|]|].
        -- intros ma _ ->. split; [exact (HP _ Hm HB)|]. destruct rest; [exact I|]. destruct HB as (_ & d & a & b & _ & _ & _ & _ & _ & Hz). exact (Hz Hns).
        -- intros mb _ (ma & _ & -> & Rb & Mb). exact (HPf m mb Hm HC HB Rb Mb).
      * intros m m' Hm HC HB _ (mb & _ & (ma & _ & -> & Rb & Mb) & Rc & HRf) d a b Hd Ha Hb. apply consts_app in HC as [HC _]. apply consts_app in HC as [HC _]. split.
        -- destruct rest as [|q r]; [exact I|]. rewrite <- (proj2 Mb d Hd). destruct (Hq q r eq_refl) as (sh & Ho). eapply ok_off; [exact Ho|exact Rc|]. intros x Hx Hw. pose proof (Hql q r x eq_refl Hx). apply HWf in Hw as [Hw|Hw]; lia.
        -- intros _. exact (HR m mb m' d a b Hm HC HB Rb Mb Rc HRf Hd Ha Hb).
    + intros l [[[]|Hl]|Hl].
      * apply m4 in Hl as [Hl|Hl]; [left; lia|]. destruct rest as [|q r]; [destruct Hl|]. right. exists q, r. auto.
      * apply HWf in Hl as [Hl|Hl]; left; lia.
  - intros _. exact Hbd.
  - intros _. exact Hmb.
Qed.
End TrnPar.
