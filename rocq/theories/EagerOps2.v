(** * EagerOps2: eager padding slices across the end, concatenation, reshaping,
    dot products, soft-max and filling *)
From Verif Require Import Base Num ModelTools ModelOps ModelTensor Spec Denote ObjSpec
  IndexProofs ExecProofs TensorFacts BuildProofs BuildProofs2 BuildProofs3 EagerProofs AccessProofs EagerOps.
From Coq Require Import Lia ZifyBool ZifyNat ZifyN.

Section EagerOps2.
Context {T : Type} `{Num T}.

(** ** FOSubTensor over a range that crosses the end of the dimension *)
Lemma mmap_err {A} (l : list A) (body : A -> TM T ptr) (s0 : tst T) : forall s,
  (exists ext, mem s = mem s0 ++ ext) -> tens s = tens s0 -> ctx s = ctx s0 ->
  (forall x s1, x ∈ l -> (exists ext, mem s1 = mem s0 ++ ext) -> tens s1 = tens s0 -> ctx s1 = ctx s0 ->
     (exists v, body x s1 = alloc v s1) \/ (exists e, body x s1 = (Err e, s1))) ->
  (exists x, x ∈ l /\ forall s1, (exists ext, mem s1 = mem s0 ++ ext) -> tens s1 = tens s0 -> exists e, body x s1 = (Err e, s1)) ->
  exists e s', mmap l body s = (Err e, s') /\ tens s' = tens s0 /\ (exists ext, mem s' = mem s0 ++ ext).
Proof.
  induction l as [|y l IH]; intros s Hm Ht Hc Hb (x & Hx & Herr); [inversion Hx|].
  cbn [mmap]. destruct (Hb y s ltac:(left) Hm Ht Hc) as [[v Hv]|[e He]].
  - erewrite mbnd_ok by (rewrite Hv; reflexivity).
    apply elem_of_cons in Hx as [->|Hx].
    { destruct (Herr s Hm Ht) as [e He]. rewrite Hv in He. discriminate. }
    destruct Hm as [ext Hm].
    destruct (IH (MkSt (mem s ++ [v]) (tens s) (ctx s))) as (e & s' & Hs' & Ht' & Hm'); cbn [mem tens ctx]; try assumption.
    + exists (ext ++ [v]). rewrite Hm, <- app_assoc. reflexivity.
    + intros z s1 Hz. apply Hb. right. assumption.
    + eauto.
    + exists e, s'. split; [|auto]. erewrite mbnd_err by exact Hs'. reflexivity.
  - exists e, s. split; [|auto]. erewrite mbnd_err by exact He. reflexivity.
Qed.

Lemma zero_index sh : (0 < prodN sh)%N -> Forall2 (fun i m => (i < m)%N) (replicate (length sh) 0%N) sh.
Proof.
  intros Hp. apply prodN_pos_inv in Hp. induction Hp as [|d sh Hd _ IH]; cbn; constructor; assumption.
Qed.

Theorem Mat_FOSubTensor_crossing (s : tst T) p v dim st en mx pad :
  holds s p v -> vsh v !! N.to_nat dim = Some mx -> (en < W64)%N -> (st <= mx < en)%N ->
  fits (<[N.to_nat dim := (en - st)%N]> (vsh v)) -> (0 < prodN (<[N.to_nat dim := (en - st)%N]> (vsh v)))%N ->
  exists e s', Mat_FOSubTensor p dim st en pad s = (Err e, s') /\ tens s' = tens s.
Proof.
  intros Hp Hd Hen Hcr Hfs Hpos. destruct (holds_exists _ _ _ Hp) as [n Hn].
  destruct (holds_data _ _ _ _ Hp Hn) as (Hs1 & Hd1 & Hwf1 & _ & Hl1 & Hf1).
  pose proof Hwf1 as (_ & Hmul & Hlo & _). pose proof (fits_dim _ _ _ Hf1 Hd) as Hmx.
  assert (Hck : sub_checks (shape (nmat n)) dim st en true = None).
  { rewrite Hs1. unfold sub_checks. destruct (ulen (vsh v) <=? dim)%N eqn:E1.
    { pose proof (lookup_lt_Some _ _ _ Hd). unfold ulen in E1. lia. }
    destruct (en <=? st)%N eqn:E2; [lia|]. reflexivity. }
  set (d := N.to_nat dim) in *. set (sh := <[d := (en - st)%N]> (vsh v)) in *.
  pose proof (lookup_lt_Some _ _ _ Hd) as Hdl.
  assert (Hco : forall idx, Forall2 (fun i m => (i < m)%N) idx sh -> exists c, idx !! d = Some c /\ (c + st < en)%N /\
     length idx = length (vsh v) /\
     ((c + st < mx)%N -> Forall2 (fun i m => (i < m)%N) (<[d := (c + st)%N]> idx) (vsh v))).
  { intros idx Hi. destruct (Forall2_lt_coord _ _ _ _ Hi Hdl) as (c & Hcd & Hlt).
    exists c. split; [assumption|]. split; [lia|]. split.
    - rewrite (Forall2_length _ _ _ Hi). unfold sh. apply insert_length.
    - intros Hc. eapply Forall2_lt_insert; [exact Hi|exact Hd|lia]. }
  assert (Hbad : forall idx c, idx !! d = Some c -> length idx = length (vsh v) -> (c + st = mx)%N ->
    exists i a m, GetOperand (nmat n) (<[d := (c + st)%N]> idx) = Err (EIndexRange i a m)).
  { intros idx c Hcd Hl Hc. eapply GetOperand_err; [exact Hwf1|rewrite insert_length, Hs1; exact Hl|].
    intros Hf. rewrite Hs1 in Hf.
    assert (Hc' : <[d:=(c + st)%N]> idx !! d = Some (c + st)%N) by (apply list_lookup_insert; eapply lookup_lt_Some; exact Hcd).
    pose proof (Forall2_lookup_lr _ _ _ _ _ _ Hf Hc' Hd) as Hq. cbn in Hq. lia. }
  unfold Mat_FOSubTensor. erewrite mbnd_ok by (eapply get_mat_ok; exact Hn).
  rewrite Hck. erewrite mbnd_ok by reflexivity. rewrite usub_small by lia. rewrite Hs1. fold d. fold sh.
  erewrite mbnd_ok by (apply atM_ok; exact Hd).
  destruct (mmap_err (range (N.to_nat (GetDataSize sh)))
    (fun i => idx <~ mlift (ReverseIndex (GetIndexMul sh) sh (N.of_nat i)) ;
           c <~ atM idx d ; idx' <~ updM idx d (uadd c st) ;
           if (mx <? uadd c st)%N then alloc pad
           else o <~ mlift (GetOperand (nmat n) idx') ; v <~ rdM o ; alloc v) s s) as (e & s' & Hs' & Ht' & _).
  - exists []. rewrite app_nil_r. reflexivity.
  - reflexivity.
  - reflexivity.
  - intros i s1 Hi [ext He] _ _. rewrite GetDataSize_fits in Hi by assumption. apply elem_of_seq in Hi.
    destruct (indices_lookup_total sh i) as [idx Hidx]; [lia|].
    destruct (Hco idx) as (c & Hcd & Hlt & Hle & Hr); [eapply indices_Forall2; exact Hidx|].
    erewrite mbnd_ok by (unfold mlift; rewrite (ReverseIndex_lookup _ _ _ Hfs Hidx); reflexivity).
    erewrite mbnd_ok by (apply atM_ok; exact Hcd). rewrite uadd_small by lia.
    erewrite mbnd_ok by (apply updM_ok; eapply lookup_lt_Some; exact Hcd).
    destruct (mx <? c + st)%N eqn:E; [left; eauto|].
    destruct (N.eq_dec (c + st) mx) as [Eq|Ne].
    + right. destruct (Hbad _ _ Hcd Hle Eq) as (? & ? & ? & Hg). rewrite Hg. eexists. reflexivity.
    + left. destruct (at_total (vsh v) (vdata v) (<[d := (c + st)%N]> idx) Hl1) as [x Hx]; [apply Hr; lia|].
      destruct (read_at _ _ _ _ _ _ Hp Hn Hx) as (o & _ & Ho & Hrd). exists x.
      erewrite mbnd_ok by (unfold mlift; rewrite Ho; reflexivity).
      erewrite mbnd_ok by (eapply rdM_grown; eassumption). reflexivity.
  - pose proof (zero_index _ Hpos) as Hz.
    assert (Hw : Forall2 (fun i m => (i < m)%N) (<[d := (mx - st)%N]> (replicate (length sh) 0%N)) sh).
    { assert (Hii : <[d:=(en - st)%N]> sh = sh) by (unfold sh; apply list_insert_insert).
      apply (Forall2_lt_insert _ _ d (en - st)%N (en - st)%N).
      - rewrite Hii. exact Hz.
      - apply list_lookup_insert. exact Hdl.
      - lia. }
    assert (Hwd : <[d := (mx - st)%N]> (replicate (length sh) 0%N) !! d = Some (mx - st)%N).
    { apply list_lookup_insert. rewrite replicate_length. unfold sh. rewrite insert_length. exact Hdl. }
    pose proof Hw as Hw'. apply elem_of_indices, elem_of_list_lookup in Hw' as [i Hi].
    exists i. split.
    { apply elem_of_seq. rewrite GetDataSize_fits by assumption. apply lookup_lt_Some in Hi as Hi'. rewrite indices_length in Hi'. lia. }
    intros s1 _ _. destruct (Hco _ Hw) as (c & Hcd & Hlt & Hle & _). rewrite Hwd in Hcd. injection Hcd as <-.
    erewrite mbnd_ok by (unfold mlift; rewrite (ReverseIndex_lookup _ _ _ Hfs Hi); reflexivity).
    erewrite mbnd_ok by (apply atM_ok; exact Hwd). rewrite uadd_small by lia.
    erewrite mbnd_ok by (apply updM_ok; eapply lookup_lt_Some; exact Hwd).
    destruct (mx <? mx - st + st)%N eqn:E; [lia|].
    destruct (Hbad _ _ Hwd Hle ltac:(lia)) as (? & ? & ? & Hg). rewrite Hg. eexists. reflexivity.
  - exists e, s'. split; [|assumption]. erewrite mbnd_err by exact Hs'. reflexivity.
Qed.

(** ** Concat: the result shares the scalars of its inputs *)
Lemma del_insert (d : nat) (x : N) (l : list N) : del d (<[d := x]> l) = del d l.
Proof. unfold del. rewrite take_insert by lia. rewrite drop_insert_gt by lia. reflexivity. Qed.
Lemma prodN_insert (d : nat) (x mx : N) (l : list N) : l !! d = Some mx -> prodN (<[d := x]> l) = (x * prodN (del d l))%N.
Proof.
  intros Hd. rewrite (prodN_del d _ x); [|apply list_lookup_insert; eapply lookup_lt_Some; exact Hd].
  rewrite del_insert. reflexivity.
Qed.

Lemma mmap_pure {A B} (l : list A) (body : A -> TM T B) (g : A -> option B) r (s : tst T) :
  (forall x y, x ∈ l -> g x = Some y -> body x s = (Ok y, s)) -> mapM g l = Some r -> mmap l body s = (Ok r, s).
Proof.
  revert r. induction l as [|x l IH]; intros r Hb E; cbn in E |- *.
  - injection E as <-. reflexivity.
  - destruct (g x) as [y|] eqn:Ey; cbn in E; [|discriminate].
    destruct (mapM g l) as [ys|]; cbn in E; [|discriminate]. injection E as <-.
    erewrite mbnd_ok by (apply Hb; [left|exact Ey]).
    erewrite mbnd_ok by (apply IH; [intros z w Hz; apply Hb; right; exact Hz|reflexivity]). reflexivity.
Qed.

Lemma mapM_range_indices {B} sh (F : list N -> option B) :
  mapM F (indices sh) = mapM (fun i => idx ← indices sh !! i; F idx) (range (N.to_nat (prodN sh))).
Proof. rewrite <- indices_length. apply mapM_range. intros i x Hi. rewrite Hi. reflexivity. Qed.

Theorem Mat_Concat_spec (s : tst T) p q v u dim na nb :
  holds s p v -> holds s q u ->
  vsh v !! N.to_nat dim = Some na -> vsh u = <[N.to_nat dim := nb]> (vsh v) ->
  fits (<[N.to_nat dim := (na + nb)%N]> (vsh v)) ->
  exists w c s', v_concat v u (N.to_nat dim) = Some w /\
    v_concat (V (vsh v) (cells s p)) (V (vsh u) (cells s q)) (N.to_nat dim) = Some (V (vsh w) c) /\
    Mat_Concat p q dim s = (Ok (length (tens s)), s') /\
    mem s' = mem s /\ ctx s' = ctx s /\ cells s' (length (tens s)) = c /\
    tens s' = tens s ++ [MkNode KMat (MkMat (vsh w) (GetIndexMul (vsh w)) c false)] /\
    holds s' (length (tens s)) w.
Proof.
  intros Hp Hq Hna Hsb Hfs. destruct (holds_exists _ _ _ Hp) as [n Hn]. destruct (holds_exists _ _ _ Hq) as [n' Hn'].
  destruct (holds_data _ _ _ _ Hp Hn) as (Hs1 & Hd1 & Hwf1 & Hc1 & Hl1 & Hf1).
  destruct (holds_data _ _ _ _ Hq Hn') as (Hs2 & Hd2 & Hwf2 & Hc2 & Hl2 & Hf2).
  pose proof Hwf1 as (_ & _ & Ho1 & Hv1). pose proof Hwf2 as (_ & _ & Ho2 & Hv2). rewrite Hs1 in Ho1. rewrite Hs2 in Ho2.
  pose proof (lookup_lt_Some _ _ _ Hna) as Hdl.
  set (d := N.to_nat dim) in *. set (sh := <[d := (na + nb)%N]> (vsh v)) in *.
  assert (Hnb : vsh u !! d = Some nb) by (rewrite Hsb; apply list_lookup_insert; assumption).
  assert (Hsum : (na + nb < W64)%N).
  { eapply fits_dim; [exact Hfs|]. apply list_lookup_insert. assumption. }
  assert (Hcoord : forall idx, Forall2 (fun i m => (i < m)%N) idx sh -> exists c, idx !! d = Some c /\ (c < na + nb)%N /\
     on_coord d (fun c => (c - na)%N) idx = <[d := (c - na)%N]> idx /\
     ((c < na)%N -> Forall2 (fun i m => (i < m)%N) idx (vsh v)) /\
     ((na <= c)%N -> Forall2 (fun i m => (i < m)%N) (<[d := (c - na)%N]> idx) (vsh u))).
  { intros idx Hidx.
    destruct (Forall2_lt_coord _ _ _ _ Hidx Hdl) as (c & Hcd & Hlt).
    exists c. split; [assumption|]. split; [lia|].
    split; [apply (alter_insert (fun c => (c - na)%N) _ _ _ Hcd)|]. split.
    - intros Hc. rewrite <- (list_insert_id idx d c) by assumption.
      eapply Forall2_lt_insert; [exact Hidx|exact Hna|lia].
    - intros Hc. apply (Forall2_lt_insert _ _ d (na + nb)%N nb); [|assumption|lia].
      rewrite Hsb, list_insert_insert. assumption. }
  set (F idx := match idx !! d with
    | Some c => if (c <? na)%N then at_ (vsh v) (operands (nmat n)) idx
                else at_ (vsh u) (operands (nmat n')) (on_coord d (fun c => (c - na)%N) idx)
    | None => None end).
  assert (HF : forall idx, Forall2 (fun i m => (i < m)%N) idx sh -> exists o, F idx = Some o /\ valid (length (mem s)) o).
  { intros idx Hi. destruct (Hcoord _ Hi) as (c & Hcd & _ & Heq & HA & HB). unfold F. rewrite Hcd.
    destruct (c <? na)%N eqn:E.
    - destruct (at_total _ (operands (nmat n)) idx Ho1) as [o Ho]; [apply HA; lia|]. exists o. split; [assumption|].
      eapply at_valid; [exact Hv1|exact Ho].
    - rewrite Heq. destruct (at_total _ (operands (nmat n')) (<[d := (c - na)%N]> idx) Ho2) as [o Ho]; [apply HB; lia|]. exists o. split; [assumption|].
      eapply at_valid; [exact Hv2|exact Ho]. }
  destruct (mapM_total F (indices sh)) as [ops Hops].
  { intros idx Hi. apply elem_of_indices in Hi. destruct (HF idx Hi) as (o & Ho & _). eauto. }
  assert (Hlops : length ops = N.to_nat (prodN sh)) by (rewrite <- (mapM_length _ _ _ Hops); apply indices_length).
  assert (Hvops : Forall (valid (length (mem s))) ops).
  { eapply Forall_mapM; [exact Hops|]. intros idx o Hi Ho. apply elem_of_indices in Hi.
    destruct (HF idx Hi) as (o' & Ho' & Hv). congruence. }
  destruct (rds_Some_valid (mem s) ops Hvops) as [dd Hdd].
  assert (Hw : v_concat v u d = Some (V sh dd)).
  { unfold v_concat. rewrite Hna, Hnb. fold sh. unfold tabulate.
    match goal with |- context [mapM ?f (indices sh)] => replace (mapM f (indices sh)) with (Some dd); [reflexivity|] end.
    rewrite <- Hdd. unfold rds. rewrite (mapM_bind F (rd (mem s)) _ _ Hops). apply mapM_ext_in. intros idx _.
    unfold F. destruct (idx !! d) as [c|]; [|reflexivity]. 
    destruct (c <? na)%N; [rewrite (at_rds _ _ _ _ _ Hd1)|rewrite (at_rds _ _ _ _ _ Hd2)]; reflexivity. }
  exists (V sh dd), ops.
  exists (MkSt (mem s) (tens s ++ [MkNode KMat (MkMat sh (GetIndexMul sh) ops false)]) (ctx s)).
  split; [exact Hw|]. split.
  { unfold v_concat. cbn [vsh vdata]. rewrite Hna, Hnb. fold sh. unfold tabulate. rewrite Hc1, Hc2. fold F.
    rewrite Hops. reflexivity. }
  split.
  { unfold Mat_Concat. erewrite mbnd_ok by (eapply get_mat_ok; exact Hn).
    erewrite mbnd_ok by (eapply get_mat_ok; exact Hn'). rewrite Hs1, Hs2. fold d.
    erewrite mbnd_ok by (apply atM_ok; exact Hna). erewrite mbnd_ok by (apply atM_ok; exact Hnb).
    rewrite (uadd_small na nb) by lia. fold sh.
    assert (Hsz : N.to_nat (uadd (msize (nmat n)) (msize (nmat n'))) = N.to_nat (prodN sh)).
    { assert (E : (msize (nmat n) + msize (nmat n') = prodN sh)%N).
      { unfold msize, ulen. rewrite Ho1, Ho2. rewrite !N2Nat.id. unfold sh.
        rewrite (prodN_del _ _ _ Hna). rewrite Hsb. rewrite !(prodN_insert _ _ _ _ Hna). lia. }
      rewrite uadd_small; [rewrite E; reflexivity|]. rewrite E. apply Hfs. }
    rewrite Hsz. erewrite mbnd_ok.
    2:{ rewrite mapM_range_indices in Hops. eapply mmap_pure; [|exact Hops].
        intros i o Hi Ho. cbn beta in Ho. destruct (indices sh !! i) as [idx|] eqn:Hidx; [|discriminate]. cbn in Ho.
        destruct (Hcoord idx) as (c & Hcd & Hlt & Heq & HA & HB); [eapply indices_Forall2; exact Hidx|].
        unfold F in Ho. rewrite Hcd in Ho. rewrite Heq in Ho.
        erewrite mbnd_ok by (unfold mlift; rewrite (ReverseIndex_lookup _ _ _ Hfs Hidx); reflexivity).
        erewrite mbnd_ok by (apply atM_ok; exact Hcd). destruct (c <? na)%N eqn:E.
        - rewrite <- Hs1 in Ho. unfold mlift. rewrite (GetOperand_at _ _ _ _ Hwf1 Ho). reflexivity.
        - rewrite usub_small by lia. erewrite mbnd_ok by (apply updM_ok; eapply lookup_lt_Some; exact Hcd).
          rewrite <- Hs2 in Ho. unfold mlift. rewrite (GetOperand_at _ _ _ _ Hwf2 Ho). reflexivity. }
    reflexivity. }
  cbn [mem tens ctx vsh]. split; [reflexivity|]. split; [reflexivity|].
  assert (Hlk : (tens s ++ [MkNode KMat (MkMat sh (GetIndexMul sh) ops false)]) !! length (tens s)
    = Some (MkNode KMat (MkMat sh (GetIndexMul sh) ops false))).
  { rewrite lookup_app_r by lia. replace (length (tens s) - length (tens s)) with 0 by lia. reflexivity. }
  split; [unfold cells; cbn [tens]; rewrite Hlk; reflexivity|]. split; [reflexivity|].
  eexists. cbn [tens mem]. split; [exact Hlk|]. split.
  - split; [exact Hfs|]. split; [reflexivity|]. split; assumption.
  - unfold mval. cbn [nmat operands shape]. rewrite Hdd. reflexivity.
Qed.

(** ** Reshape *)

Lemma copy_prefix (s : tst T) p v n k :
  holds s p v -> tens s !! p = Some n -> k <= length (vdata v) ->
  mmap (seq 0 k) (fun i => o <~ atM (operands (nmat n)) i ; v <~ rdM o ; alloc v) s =
  (Ok (map Some (seq (length (mem s)) k)), MkSt (mem s ++ take k (vdata v)) (tens s) (ctx s)).
Proof.
  intros Hp Hn Hk. destruct (holds_data _ _ _ _ Hp Hn) as (Hs1 & Hd1 & _).
  pose proof (mmap_fresh (seq 0 k) (fun i => o <~ atM (operands (nmat n)) i ; v <~ rdM o ; alloc v)
    (fun i => vdata v !! i) s s) as Hm.
  rewrite mapM_seq_lookup in Hm by assumption.
  rewrite Hm; [|exists []; rewrite app_nil_r; reflexivity|reflexivity|reflexivity|].
  - rewrite take_length, Nat.min_l by assumption. reflexivity.
  - intros i s1 Hi [ext He] _ _. apply elem_of_seq in Hi.
    destruct (lookup_lt_is_Some_2 (vdata v) i) as [x Hx]; [lia|]. rewrite Hx.
    rewrite (rds_lookup _ _ _ i Hd1) in Hx.
    destruct (operands (nmat n) !! i) as [o|] eqn:Ho; [|discriminate]. cbn in Hx.
    erewrite mbnd_ok by (apply atM_ok; exact Ho). erewrite mbnd_ok by (eapply rdM_grown; eassumption). reflexivity.
Qed.

Theorem Mat_Reshape_same (s : tst T) p v sh :
  holds s p v -> fits sh -> prodN sh = prodN (vsh v) ->
  returns_new s (Mat_Reshape p sh s) (V sh (vdata v)).
Proof.
  intros Hp Hf Hpr. destruct (holds_exists _ _ _ Hp) as [n Hn].
  destruct (holds_data _ _ _ _ Hp Hn) as (Hs1 & Hd1 & Hwf1 & _ & Hl1 & Hf1).
  pose proof (rds_length _ _ _ Hd1) as Hlo.
  unfold Mat_Reshape. erewrite mbnd_ok by (eapply get_mat_ok; exact Hn).
  rewrite (GetDataSize_fits _ Hf), Hpr, <- Hl1, <- Hlo. rewrite Nat.ltb_irrefl.
  erewrite mbnd_ok by (eapply copy_prefix; [eassumption|eassumption|lia]).
  rewrite Nat.sub_diag. cbn [seq replicate]. erewrite mbnd_ok by reflexivity. rewrite app_nil_r, take_ge by lia.
  apply new_tensor; [assumption|]. rewrite Hpr. exact Hl1.
Qed.

(** A smaller shape makes the method panic. *)
Theorem Mat_Reshape_smaller (s : tst T) p v sh :
  holds s p v -> fits sh -> (prodN sh < prodN (vsh v))%N ->
  exists s', Mat_Reshape p sh s = (Panic, s').
Proof.
  intros Hp Hf Hpr. destruct (holds_exists _ _ _ Hp) as [n Hn].
  destruct (holds_data _ _ _ _ Hp Hn) as (Hs1 & Hd1 & Hwf1 & _ & Hl1 & Hf1).
  pose proof (rds_length _ _ _ Hd1) as Hlo.
  unfold Mat_Reshape. erewrite mbnd_ok by (eapply get_mat_ok; exact Hn).
  rewrite (GetDataSize_fits _ Hf).
  destruct (Nat.ltb_spec (N.to_nat (prodN sh)) (length (operands (nmat n)))) as [Hlt|Hge]; [|lia].
  erewrite mbnd_ok by (eapply copy_prefix; [eassumption|eassumption|lia]).
  rewrite Nat.sub_diag. cbn [replicate]. rewrite app_nil_r.
  destruct (length (operands (nmat n)) - N.to_nat (prodN sh)) as [|k] eqn:Ek; [lia|]. cbn [seq].
  eexists. erewrite mbnd_panic; [reflexivity|].
  erewrite mbnd_ok by reflexivity. erewrite mbnd_panic; [reflexivity|].
  unfold updM. rewrite decide_False; [reflexivity|]. rewrite map_length, seq_length. lia.
Qed.

Lemma read_nil (s : tst T) ops d rest :
  rds (mem s) ops = Some d -> mmap (ops ++ None :: rest) rdM s = (Panic, s).
Proof.
  revert d. unfold rds. induction ops as [|o ops IH]; intros d E; cbn [app mmap]; [reflexivity|].
  cbn [mapM] in E. destruct (rd (mem s) o) as [x|] eqn:Ex; cbn in E; [|discriminate].
  destruct (mapM (rd (mem s)) ops) as [xs|] eqn:Exs; cbn in E; [|discriminate].
  erewrite mbnd_ok by (apply rdM_ok; exact Ex). erewrite mbnd_panic by (eapply IH; reflexivity). reflexivity.
Qed.

(** A larger shape leaves nil scalars at the end of the result: reading it panics. *)
Theorem Mat_Reshape_larger (s : tst T) p v sh :
  holds s p v -> fits sh -> (prodN (vsh v) < prodN sh)%N ->
  exists r s', Mat_Reshape p sh s = (Ok r, s') /\ GetData r s' = (Panic, s').
Proof.
  intros Hp Hf Hpr. destruct (holds_exists _ _ _ Hp) as [n Hn].
  destruct (holds_data _ _ _ _ Hp Hn) as (Hs1 & Hd1 & Hwf1 & _ & Hl1 & Hf1).
  pose proof (rds_length _ _ _ Hd1) as Hlo.
  unfold Mat_Reshape. erewrite mbnd_ok by (eapply get_mat_ok; exact Hn).
  rewrite (GetDataSize_fits _ Hf).
  destruct (Nat.ltb_spec (N.to_nat (prodN sh)) (length (operands (nmat n)))) as [Hlt|Hge]; [lia|].
  erewrite mbnd_ok by (eapply copy_prefix; [eassumption|eassumption|lia]).
  rewrite Nat.sub_diag. cbn [seq]. erewrite mbnd_ok by reflexivity. rewrite take_ge by lia.
  eexists _, _. split; [reflexivity|].
  unfold GetData. erewrite mbnd_ok.
  2:{ apply get_mat_ok. cbn [tens]. rewrite lookup_app_r by lia. rewrite Nat.sub_diag. reflexivity. }
  cbn [nmat operands].
  set (s2 := MkSt _ _ _).
  assert (Hr : rds (mem s2) (map Some (seq (length (mem s)) (length (operands (nmat n))))) = Some (vdata v)).
  { unfold s2. cbn [mem]. rewrite <- Hlo. apply rds_new. }
  assert (Hk : exists k, N.to_nat (prodN sh) - length (operands (nmat n)) = S k).
  { exists (N.to_nat (prodN sh) - length (operands (nmat n)) - 1). lia. }
  destruct Hk as [k ->]. cbn [replicate].
  eapply read_nil. exact Hr.
Qed.

(** ** Soft-max *)
Theorem Mat_SoftMax_spec (s : tst T) p v :
  holds s p v -> returns_new_or_panics s (Mat_SoftMax p s) (v_soft_with reduce0 v).
Proof.
  intros Hp. destruct (holds_exists _ _ _ Hp) as [n Hn].
  destruct (holds_data _ _ _ _ Hp Hn) as (Hs1 & Hd1 & Hwf1 & _ & Hl1 & Hf1).
  pose proof Hwf1 as (_ & Hm1 & Ho1 & _). rewrite Hs1 in Hm1, Ho1.
  unfold Mat_SoftMax. erewrite mbnd_ok by (eapply get_mat_ok; exact Hn).
  erewrite mbnd_ok by (eapply read_all; exact Hd1). unfold v_soft_with.
  change (tools_Min (vdata v)) with (tools_red RMin (vdata v)). rewrite tools_red_reduce0. change (rop RMin) with RedMin.
  destruct (reduce0 RedMin (vdata v)) as [mn|] eqn:Emn; cbn [mbind option_bind].
  2:{ exists s. split; [reflexivity|]. split; [reflexivity|]. exists []. rewrite app_nil_r. reflexivity. }
  change (oM (Some mn)) with (mret (S:=tst T) mn). erewrite mbnd_ok by reflexivity.
  assert (Esum : fold_left (fun sum v0 => nadd sum (nsub v0 mn)) (vdata v) nzero = sum0 (map (fun x => nsub x mn) (vdata v))).
  { unfold sum0. rewrite <- (map_id (vdata v)) at 1. clear. generalize (nzero : T). induction (vdata v) as [|x l IH]; intros acc; cbn; [reflexivity|apply IH]. }
  rewrite Esum. cbn [reduce0 mbind option_bind].
  set (sm := sum0 _). rewrite Hs1.
  assert (Eq : mapM (fun x => ndiv x sm) (map (fun x => nsub x mn) (vdata v)) =
    mapM (fun o => x ← rd (mem s) o; ndiv (nsub x mn) sm) (operands (nmat n))).
  { rewrite <- (mapM_bind (rd (mem s)) (fun x => ndiv (nsub x mn) sm) _ _ Hd1).
    rewrite (mapM_bind (fun x => Some (nsub x mn)) _ (vdata v)); [reflexivity|]. apply mapM_pure. }
  rewrite Eq. apply eager_method; try assumption.
  intros o s1 Ho [ext He] _ _. destruct (rd_operand _ _ _ _ o Hp Hn Ho) as [x Hx]. rewrite Hx. cbn [mbind option_bind].
  destruct (ndiv (nsub x mn) sm) as [q|] eqn:Eqq.
  - erewrite mbnd_ok by (eapply rdM_grown; eassumption). rewrite Eqq. reflexivity.
  - erewrite mbnd_ok by (eapply rdM_grown; eassumption). rewrite Eqq. reflexivity.
Qed.

(** ** Fill *)
Theorem Mat_FillData_spec (s : tst T) p v x :
  holds s p v -> unshared s p ->
  exists s', Mat_FillData p x s = (Ok tt, s') /\ tens s' = tens s /\ ctx s' = ctx s /\
    holds s' p (V (vsh v) (replicate (length (vdata v)) x)) /\
    (forall q u, apart s p q -> holds s q u -> holds s' q u).
Proof.
  intros Hp Hu. destruct (holds_exists _ _ _ Hp) as [n Hn].
  destruct (holds_data _ _ _ _ Hp Hn) as (Hs1 & Hd1 & _ & Hc & _).
  unfold Mat_FillData. erewrite mbnd_ok by (eapply get_mat_ok; exact Hn).
  apply (mfor_write p (replicate (length (vdata v)) x)); try assumption.
  - symmetry. eapply rds_length. exact Hd1.
  - apply replicate_length.
  - intros i a y o s1 Ha Hy Ho Ht _ _ _. apply lookup_replicate in Hy as [-> _].
    unfold cells in Ho. rewrite Ht, Hn in Ho. congruence.
Qed.
End EagerOps2.
