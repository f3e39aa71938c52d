(** * TrnMade: layers made one on the other and compiled can be trained *)
From stdpp Require Import relations.
From Verif Require Import Base Num ModelTools ModelOps ModelTensor ModelGraph ModelLayer ModelModel Spec NetSpec FwdSpec Denote
  IndexProofs ExecProofs TensorFacts AccessProofs BuildProofs CompileProofs Agree FwdMask FwdBuild FwdSeg FwdOps FwdPool NetBuild NetChain FwdBody
  FwdNet FwdCount FwdChain FwdRun FwdScript FwdProg FwdHist
  NetLaws BwdSpec TrnSpec TrnScript TrnTri TrnSite TrnDer TrnBody TrnChain TrnFit TrnComp TrnRun TrnAux TrnLine TrnPrep.
From Coq Require Import Lia ZifyBool ZifyNat ZifyN.

Section TrnMade.
Context {T : Type} `{Num T}.
Implicit Types (s : lst T) (c q p : clay T) (cs rest : list (clay T)).

(** ** The network a chain of layers is *)
Lemma nets_on inp : forall (ks : list (lay1 T)) n done e, length done = S n -> done !! n = Some e ->
  exists es e', nets done (imap (fun (p : nat) k => MOn k (n + p)) ks) = Some es /\ es !! (n + length ks) = Some e' /\ FwdSpec.ins e' = FwdSpec.ins e /\
    forall b q r cs', nshape inp e = Some (c_sh q) -> chain_from b (q :: r) ks = Some cs' -> exists q' r', cs' = q' :: r' /\ nshape inp e' = Some (c_sh q').
Proof using Type.
  induction ks as [|k ks IH]; intros n done e Hl He.
  - exists done, e. cbn. rewrite Nat.add_0_r. split; [reflexivity|]. split; [exact He|]. split; [reflexivity|]. intros b q r cs' Hs [= <-]. eauto.
  - cbn [imap]. destruct (IH (S n) (done ++ [NLay (spec1 k) (length done) e]) (NLay (spec1 k) (length done) e)) as (es & e' & E1 & E2 & E3 & E4).
    { rewrite app_length. cbn. lia. }
    { rewrite lookup_app_r by lia. replace (S n - length done) with 0 by lia. reflexivity. }
    exists es, e'. split.
    { cbn [nets net_step]. rewrite Nat.add_0_r, He. cbn [mbind option_bind]. rewrite <- E1. f_equal. apply imap_ext. intros i x _. cbn. f_equal. lia. }
    split; [rewrite <- E2; f_equal; cbn [length]; lia|]. split; [rewrite E3; reflexivity|]. intros b q r cs' Hs. cbn [chain_from].
    destruct (lay_shape (spec1 k) (c_sh q)) as [sh|] eqn:Es; [|discriminate]. cbn [mbind option_bind]. destruct (train_fit (spec1 k) (c_sh q)); [|discriminate].
    apply E4. cbn [c_sh nshape]. rewrite Hs. cbn [mbind option_bind]. exact Es.
Qed.
Lemma seq_net b (m0 : mk T) ks cs : Forall mk_ok (seq_mks m0 ks) -> chain_of b m0 ks = Some cs ->
  exists es e c rest, nets [] (seq_mks m0 ks) = Some es /\ es !! length ks = Some e /\ in_shape (seq_mks m0 ks) 0 = Some (in_of m0) /\ FwdSpec.ins e = [0] /\
    cs = c :: rest /\ nshape (in_shape (seq_mks m0 ks)) e = Some (c_sh c).
Proof using Type.
  intros Hok Hc. pose proof (Forall_inv Hok) as H0. set (ms := seq_mks m0 ks) in *.
  assert (Hm0 : ms !! 0 = Some m0) by reflexivity.
  assert (Hx : exists e0 q r b', nets [] ms = nets [e0] (imap (fun (p : nat) k => MOn k (0 + p)) ks) /\ in_shape ms 0 = Some (in_of m0) /\ FwdSpec.ins e0 = [0] /\ nshape (in_shape ms) e0 = Some (c_sh q) /\ chain_from b' (q :: r) ks = Some cs).
  { unfold chain_of in Hc. destruct m0 as [sh|i o a|k q|a1 a2 d]; try discriminate.
    - exists (NIn 0), (MkClay b None (fun _ => none) sh), [], (S b). split; [reflexivity|]. split; [reflexivity|]. split; [reflexivity|]. split; [|exact Hc].
      cbn [nshape]. unfold in_shape. rewrite Hm0. cbn [mbind option_bind c_sh]. unfold fit. rewrite (proj2 (fitsb_fits sh) H0). reflexivity.
    - destruct (lay_shape (SDense o (act_f a)) [i]) as [sh|] eqn:Es; [|discriminate]. cbn [mbind option_bind] in Hc. destruct (train_fit (SDense o (act_f a)) [i]); [|discriminate].
      exists (NLay (SDense o (act_f a)) 0 (NIn 0)), (MkClay b (Some (SDense o (act_f a))) (act_d a) sh), [], (S b). split; [reflexivity|]. split; [reflexivity|]. split; [reflexivity|]. split; [|exact Hc].
      cbn [nshape]. unfold in_shape. rewrite Hm0. cbn [mbind option_bind c_sh]. unfold fit. destruct H0 as [H0 _]. rewrite (proj2 (fitsb_fits [i]) H0). cbn [mbind option_bind]. exact Es. }
  destruct Hx as (e0 & q & r & b' & E1 & E2 & E3 & E4 & E5). destruct (nets_on (in_shape ms) ks 0 [e0] e0 eq_refl eq_refl) as (es & e & F1 & F2 & F3 & F4).
  destruct (F4 b' q r cs E4 E5) as (c & rest & -> & F5). exists es, e, c, rest. split; [rewrite E1; exact F1|]. split; [exact F2|]. split; [exact E2|]. split; [congruence|]. auto.
Qed.

(** ** Every layer is counted once *)
Lemma cline_at s : forall cs p, cline s cs -> p ∈ cs -> exists L, lays s !! c_i p = Some L /\ newlay L p.
Proof using Type.
  induction cs as [|c rest IH]; intros p Hc Hp; [inversion Hp|]. destruct Hc as (L & HL & Hn & Hr). apply elem_of_cons in Hp as [->|Hp]; [eauto|].
  destruct rest as [|q r]; [inversion Hp|]. destruct Hr as (l & _ & _ & _ & _ & _ & Hr). apply IH; assumption.
Qed.
Lemma cline_len s cs : NoDup (map c_i cs) -> cline s cs -> length cs <= length (lays s).
Proof using Type.
  intros Hnd Hc. rewrite <- (map_length c_i). apply nodup_bound; [exact Hnd|]. intros x Hx. apply elem_of_list_fmap in Hx as (p & -> & Hp). destruct (cline_at s cs p Hc Hp) as (L & HL & _). eapply lookup_lt_Some; exact HL.
Qed.
Lemma built_counted rnd s root U sb sf s' cs c rest : neqb (count (T:=T) 1) nzero = false -> stages rnd s root U sb sf s' -> cs = c :: rest -> root = c_i c -> NoDup (map c_i cs) -> cline s cs ->
  forall p, p ∈ cs -> counted sb (c_i p).
Proof using Type.
  intros Hone [(r & sa & sc & E1 & E2 & E3) _ _ _ _ _ _ _] Ecs -> Hnd Hcl. destruct (cline_at s cs c Hcl ltac:(rewrite Ecs; left)) as (L & HL & Hn).
  set (n := length (mem (ts s))).
  set (t1 := MkSt (mem (ts s) ++ [nzero]) (tens (ts s)) (ctx (ts s)) : tst T). set (L' := set_ref (Some n) L).
  assert (Ea : GetRef (c_i c) s = (Ok (Some n), MkL t1 (<[c_i c := L']> (lays s)) (rc s))).
  { unfold GetRef. erewrite mbnd_ok by (apply getL_ok; exact HL). rewrite (nl_ref _ _ Hn). erewrite mbnd_ok by (apply liftT_ok; reflexivity). erewrite mbnd_ok by (apply (updL_ok (MkL _ (lays s) (rc s))); exact HL). reflexivity. }
  rewrite E1 in Ea. injection Ea as -> ->.
  set (t2 := MkSt (<[n := nadd nzero none]> (mem t1)) (tens t1) (ctx t1) : tst T).
  assert (Eb : liftT (incr (Some n)) (MkL t1 (<[c_i c := L']> (lays s)) (rc s)) = (Ok tt, MkL t2 (<[c_i c := L']> (lays s)) (rc s))).
  { apply (liftT_ok _ (MkL t1 _ (rc s))). cbn [ts]. unfold incr. assert (Hv : mem t1 !! n = Some nzero) by (cbn [t1 mem]; rewrite lookup_app_r by (unfold n; lia); unfold n; rewrite Nat.sub_diag; reflexivity).
    erewrite mbnd_ok by (apply rdM_at; exact Hv). unfold wrM, wr. rewrite decide_True; [reflexivity|]. eapply lookup_lt_Some; exact Hv. }
  rewrite E2 in Eb. injection Eb as ->.
  assert (Hlt : c_i c < length (lays s)) by (eapply lookup_lt_Some; exact HL).
  assert (Hrest : forall p, p ∈ rest -> c_i p <> c_i c). { intros p Hp E. subst cs. cbn [map] in Hnd. apply NoDup_cons in Hnd as [Hni _]. apply Hni. rewrite <- E. apply elem_of_list_fmap. eauto. }
  destruct (LBuild_line Hone cs c rest (S (length (lays (MkL t2 (<[c_i c := L']> (lays s)) (rc s))))) (MkL t2 (<[c_i c := L']> (lays s)) (rc s)) Ecs Hnd) as (sb' & E & _ & _ & Hb).
  - cbn [lays]. rewrite insert_length. pose proof (cline_len s cs Hnd Hcl). lia.
  - eapply bline_ext; [|exact (cline_bline _ _ Hcl)]. intros p Lp Hp HLp. cbn [lays]. destruct (decide (c_i p = c_i c)) as [Epc|Hne].
    + rewrite Epc, list_lookup_insert by exact Hlt. exists L'. split; [reflexivity|]. rewrite Epc, HL in HLp. injection HLp as <-. repeat split; reflexivity.
    + rewrite list_lookup_insert_ne by congruence. exists Lp. split; [exact HLp|]. repeat split; reflexivity.
  - exists L', n. cbn [lays ts]. rewrite list_lookup_insert by exact Hlt. split; [reflexivity|]. split; [reflexivity|]. cbn [t2 mem]. apply list_lookup_insert. cbn [t1 mem]. rewrite app_length. cbn. unfold n. lia.
  - intros p Lp Hp HLp. cbn [lays] in HLp. rewrite list_lookup_insert_ne in HLp by (intros X; apply (Hrest p Hp); congruence).
    destruct (cline_at s cs p Hcl ltac:(rewrite Ecs; right; exact Hp)) as (L2 & HL2 & Hn2). assert (Lp = L2) as -> by congruence. exact (nl_ref _ _ Hn2).
  - rewrite E in E3. injection E3 as ->. exact Hb.
Qed.

(** ** Compiled *)
(** Everything about a compiled chain that later changes leave alone. *)
Record setup (rnd : nat -> nat -> T) (s0 : lst T) (cs : list (clay T)) (n0 : nat) (U : list nat) (s1 : lst T) (C : list (nat * T)) (W : nat -> Prop) (sf : lst T)
    (top : clay T) (rest : list (clay T)) (e : net T) (inp : nat) (ni : node T) (out : nat) : Prop := {
  su_site : FwdChain.site U s1;
  su_tens : tens (ts s1) = tens (ts s0);
  su_alike : forall p L0, p ∈ cs -> lays s0 !! c_i p = Some L0 -> exists L1, lays s1 !! c_i p = Some L1 /\ bsame L0 L1;
  su_inv : finv U s1 rnd (map c_i cs ++ []) C W sf;
  su_aux : aux U s1 C W sf cs;
  su_nd : NoDup (map c_i cs);
  su_tally : forall k, k <= length cs -> neqb (tally (T:=T) k) nzero = false;
  su_cs : cs = top :: rest;
  su_cl : cline s0 cs;
  su_ln : lined U s1 cs e;
  su_refs : forall j L r, j ∈ U -> lays s1 !! j = Some L -> lref L = Some r -> n0 <= r;
  su_owns : forall j a, own U s1 j a -> a < n0;
  su_ins : forall t n a, inten U s1 t -> tens (ts s1) !! t = Some n -> Some a ∈ operands (nmat n) -> a < n0;
  su_inp : inten U s1 inp;
  su_ni : tens (ts sf) !! inp = Some ni;
  su_nin : NoDup (operands (nmat ni));
  su_ine : FwdSpec.ins e = [inp];
  su_out : fid sf (c_i top) FOutput = Some out;
}.
Lemma Compile_bp rnd (M M' : model T) s s' : Compile rnd M s = (Ok M', s') -> m_bp M' = m_bp M.
Proof using Type.
  unfold Compile. intros E. do 11 (let a := fresh "a" in let s2 := fresh "s" in let X := fresh "X" in apply NetLaws.mbnd_inv in E as (a & s2 & X & E)). injection E as <- _. reflexivity.
Qed.
Lemma Compile_first rnd (M M' : model T) s s' : Compile rnd M s = (Ok M', s') -> m_first M' = m_first M.
Proof using Type.
  unfold Compile. intros E. do 11 (let a := fresh "a" in let s2 := fresh "s" in let X := fresh "X" in apply NetLaws.mbnd_inv in E as (a & s2 & X & E)). injection E as <- _. reflexivity.
Qed.
(** The layers of a chain are numbered from below. *)
Lemma chain_from_ids : forall (ks : list (lay1 T)) n cs cs', chain_from n cs ks = Some cs' -> rev (map c_i cs') = rev (map c_i cs) ++ seq n (length ks).
Proof using Type.
  induction ks as [|k ks IH]; intros n cs cs' E; cbn [chain_from] in E; [injection E as <-; symmetry; apply app_nil_r|].
  destruct cs as [|q cs]; [discriminate|]. destruct (lay_shape (spec1 k) (c_sh q)) as [sh|]; [|discriminate]. cbn [mbind option_bind] in E. destruct (train_fit _ _); [|discriminate].
  rewrite (IH _ _ _ E). cbn [map rev length seq c_i]. rewrite <- !app_assoc. reflexivity.
Qed.
Lemma chain_of_ids b m0 (ks : list (lay1 T)) cs : chain_of b m0 ks = Some cs -> map c_i (rev cs) = seq b (S (length ks)).
Proof using Type.
  intros E. rewrite map_rev. destruct m0; try discriminate; cbn [chain_of] in E; [|destruct (lay_shape _ _); [|discriminate]; cbn [mbind option_bind] in E; destruct (train_fit _ _); [|discriminate]];
    rewrite (chain_from_ids _ _ _ _ E); reflexivity.
Qed.
Lemma blk_node (t : tst T) i sh a : blk t i sh a -> exists n, tens t !! i = Some n /\ settled n /\ shape (nmat n) = sh /\ NoDup (operands (nmat n)).
Proof using Type.
  intros [b E]. exists (MkNode KMat (blkm sh a b)). split; [exact E|]. split; [left; reflexivity|]. split; [reflexivity|]. cbn [nmat blkm operands]. apply NoDup_fmap_2; [intros x y; congruence|apply NoDup_seq].
Qed.
Theorem made_setup rnd s b m0 ks lo tl cs : wired s b (seq_mks m0 ks) lo tl -> Forall mk_ok (seq_mks m0 ks) -> chain_of b m0 ks = Some cs ->
  (forall k, 1 <= k <= 2 * (b + S (length ks)) + 1 -> neqb (count (T:=T) k) nzero = false) -> (forall k, k <= length cs -> neqb (tally (T:=T) k) nzero = false) -> (exists x y : T, x <> y) ->
  exists s' M' U s1 C W sf top rest e inp ni out, Compile rnd (FromInOut b (b + length ks)) s = (Ok M', s') /\ setup rnd s cs (length (mem (ts s))) U s1 C W sf top rest e inp ni out /\
    lays s' = lays sf /\ (exists x, tens (ts s') = tens (ts sf) ++ x) /\ (exists y, mem (ts s') = mem (ts sf) ++ y) /\ ctx (ts s') = [] /\
    m_last M' = Some (c_i top) /\ m_output M' = Some out /\ m_input M' = Some inp /\ m_ff M' = Some (MkGraph (ctx (ts sf))) /\ m_bp M' = None /\ shape (nmat ni) = in_of m0 /\ m_first M' = Some b.
Proof using Type.
  intros Wd Hok Hch Hcnt Hty Htwo. destruct (seq_net b m0 ks cs Hok Hch) as (es & e0 & c & rest & En & Ee & Ein & Eins & Ecs & Esh).
  assert (Hms : length (seq_mks m0 ks) = S (length ks)) by (unfold seq_mks; cbn [length]; rewrite imap_length; reflexivity).
  destruct (compiled s b (seq_mks m0 ks) lo tl Wd rnd es (length ks) e0 0 (in_of m0) (c_sh c) En Ee Ein) as (s' & M' & xb & U & s1 & D & C0 & WW & sf & EC & R & (sb & Es1 & Sg) & Hish & _ & _ & _ & Hlast & _).
  { rewrite Eins. left. }
  { exact Esh. }
  { rewrite Hms. exact Hcnt. }
  { exact Htwo. }
  destruct (made_chain s b m0 ks lo tl cs Wd Hch) as (Hcl & [Hnd _] & c' & rest' & Ecs' & Ei). assert (c' = c /\ rest' = rest) as [-> ->] by (rewrite Ecs in Ecs'; injection Ecs' as -> ->; auto). clear Ecs'.
  rewrite Nat.add_0_r in EC. set (root := b + length ks) in *.
  assert (Hone : neqb (count (T:=T) 1) nzero = false) by (apply Hcnt; lia).
  pose proof (built_counted rnd s root U sb sf s' cs c rest Hone Sg Ecs (eq_sym Ei) Hnd Hcl) as Hctd.
  pose proof (wired_fresh _ _ _ _ _ Wd es (length ks) e0 (c_sh c) En Ee Esh) as Fr. fold root in Fr.
  pose proof Sg as [_ [HU _] Hbi Hff Hl Ht Hm Hctx].
  assert (HcU : forall p, p ∈ cs -> c_i p ∈ U). { intros p Hp. apply HU. rewrite <- Ei. exact (cline_part s cs c rest p Ecs Hcl Hp). }
  destruct (cline_lined s sb U _ cs HcU Hbi Hctd Hcl) as (e & Hln). rewrite <- Es1 in Hln.
  pose proof (rd_site _ _ _ _ _ _ _ _ _ _ _ _ _ _ _ R) as SI.
  pose proof (lined_stands U s1 SI cs c rest e Ecs Hln) as [Hst _]. rewrite Ei in Hst. pose proof (stands_inj _ _ _ Hst _ (rd_net _ _ _ _ _ _ _ _ _ _ _ _ _ _ _ R)) as Ee1.
  destruct (build_chain U s1 SI rnd cs c rest e (S (length (lays s1))) [] [] nowhere s1 Ecs Hln Hnd) as (sf' & C & W & E & F & _ & A).
  { eapply need_fuel. exact Hst. }
  { apply start_inv. exact SI. }
  { intros p Hp. split; [intros Hx; inversion Hx|reflexivity]. }
  rewrite <- Es1 in Hff. rewrite Ei in E. rewrite E in Hff. injection Hff as ->.
  assert (Els : forall j L1, j ∈ U -> lays s1 !! j = Some L1 -> exists L0, lays s !! j = Some L0 /\ bsame L0 L1 /\ refcnt s sb L1 (2 * nb U sb + 1)).
  { intros j L1 Hj HL1. destruct (bi_lay _ _ _ _ Hbi j Hj) as (L0 & L & X1 & X2 & X3 & X4). subst s1. cbn [emptied lays] in HL1. assert (L1 = L) as -> by congruence. eauto. }
  assert (Hts : tens (ts s1) = tens (ts s)) by (subst s1; cbn [emptied ts tens]; exact (bi_tens _ _ _ _ Hbi)).
  assert (Hint : forall t, inten U s1 t -> source s root t).
  { intros t (j & L1 & Hj & HL1 & Hp & Hk & Hf). destruct (Els j L1 Hj HL1) as (L0 & HL0 & Hb & _). destruct Hb as ((B1 & B2 & B3 & B4) & _). exists j, L0. split; [apply HU; exact Hj|]. split; [exact HL0|]. rewrite <- B1, <- B3, <- B4. auto. }
  set (inp := tin s b 0) in *. pose proof (rd_src _ _ _ _ _ _ _ _ _ _ _ _ _ _ _ R) as Hinp. destruct (blk_node _ _ _ _ (rd_blk _ _ _ _ _ _ _ _ _ _ _ _ _ _ _ R)) as (n1 & Hn1 & Hs1 & Hsh1 & Hnd1).
  destruct (fi_keep _ _ _ _ _ _ _ F _ _ Hn1) as (ni & Hni & _ & _ & Hkp). destruct (Hkp Hs1) as (K1 & K2 & K3).
  destruct (fi_done _ _ _ _ _ _ _ F root) as (_ & Lr & nr & _ & _ & _ & _ & HLr & _ & _ & _ & _ & _ & _ & Hnr & _). { apply elem_of_app. left. apply elem_of_list_fmap. exists c. split; [symmetry; exact Ei|rewrite Ecs; left]. }
  destruct (rd_out _ _ _ _ _ _ _ _ _ _ _ _ _ _ _ R) as (Lr' & HLr' & Hmo). assert (Lr' = Lr) as -> by congruence.
  unfold outnode in Hnr. rewrite HLr in Hnr. cbn [mbind option_bind] in Hnr. destruct (lten Lr FOutput) as [out|] eqn:Eo; [|discriminate].
  exists s', M', U, s1, C, W, sf, c, rest, e, inp, ni, out. split; [exact EC|]. split.
  { split.
    - exact SI.
    - exact Hts.
    - intros p L0 Hp HL0. destruct (bi_lay _ _ _ _ Hbi _ (HcU p Hp)) as (L0' & L & X1 & X2 & X3 & _). assert (L0' = L0) as -> by congruence. exists L. subst s1. auto.
    - exact F.
    - exact A.
    - exact Hnd.
    - exact Hty.
    - exact Ecs.
    - exact Hcl.
    - exact Hln.
    - intros j L r Hj HL Hr. destruct (Els j L Hj HL) as (_ & _ & _ & Hc). unfold refcnt in Hc. rewrite Hr in Hc. apply Hc.
    - intros j a (Hj & L & t & n & HL & Hk & Ht' & Hn & Ha). destruct (Els j L Hj HL) as (L0 & HL0 & Hb & _). destruct Hb as ((B1 & B2 & B3 & B4) & _). rewrite B1 in Hk. rewrite B4 in Ht'. rewrite Hts in Hn.
      destruct (fr_out _ _ _ _ Fr j L0 (proj1 (HU j) Hj) HL0 Hk) as (o1 & o & ob & bo & Y1 & Y2 & Y3). assert (o1 = t) as -> by congruence. assert (n = MkNode KMat (blkm [o] ob bo)) as -> by congruence. cbn [nmat] in Ha. apply blk_ops in Ha. rewrite prod_1 in Ha. lia.
    - intros t n a Hi Hn Ha. rewrite Hts in Hn. destruct (fr_in _ _ _ _ Fr t (Hint t Hi)) as (n' & Y1 & _ & Y3). assert (n' = n) as -> by congruence. destruct (ops_some _ _ _ Y3 Ha) as (a' & [= <-] & Hlt). exact Hlt.
    - exact Hinp.
    - exact Hni.
    - rewrite K3. exact Hnd1.
    - rewrite Ee1, ins_ren, Eins. reflexivity.
    - rewrite (fid_lay sf (c_i c) Lr FOutput) by (rewrite Ei; exact HLr). exact Eo. }
  split; [exact Hl|]. split; [exact Ht|]. split; [exact Hm|]. split; [exact Hctx|]. split; [rewrite Ei; exact Hlast|]. split; [exact Hmo|]. split; [exact (rd_in _ _ _ _ _ _ _ _ _ _ _ _ _ _ _ R)|].
  split; [exact (rd_ff _ _ _ _ _ _ _ _ _ _ _ _ _ _ _ R)|]. split; [rewrite (Compile_bp _ _ _ _ _ EC); reflexivity|]. split; [congruence|]. rewrite (Compile_first _ _ _ _ _ EC). reflexivity.
Qed.
End TrnMade.
