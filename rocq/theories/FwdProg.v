(** * FwdProg: what making layers leaves behind is a network ready to compile *)
From stdpp Require Import relations.
From Verif Require Import Base Num ModelTools ModelOps ModelTensor ModelGraph ModelLayer ModelModel Spec Denote NetSpec FwdSpec
  IndexProofs ExecProofs TensorFacts AccessProofs BuildProofs CompileProofs Agree FwdMask FwdBuild FwdSeg FwdOps FwdPool NetBuild NetChain
  NetExec NetFit FwdBody FwdExpr FwdDense FwdConv FwdAct FwdKer FwdDeconv FwdNet FwdCount FwdChain FwdRun FwdScript.
From Coq Require Import Lia ZifyBool ZifyNat ZifyN.

Section FwdProg.
Context {T : Type} `{Num T}.

(** ** Layers made and not yet built *)
(** the activation it was made with, if it has one *)
Definition mk_act (m : mk T) : option (activation T) :=
  match m with
  | MInput _ => Some linear_act
  | MDenseIn _ _ a | MOn (KDense _ a) _ | MOn (KConv _ _ _ _ _ a) _ | MOn (KDeconv _ _ _ _ _ a) _ => Some a
  | _ => None
  end.
Definition mk_trains (m : mk T) : bool :=
  match m with MDenseIn _ _ _ | MOn (KDense _ _) _ | MOn (KConv _ _ _ _ _ _) _ | MOn (KDeconv _ _ _ _ _ _) _ => true | _ => false end.
Definition raw (m : mk T) (L : layer T) : Prop := lref L = None /\ nopar L /\ lflag L BSaved = false /\ lflag L BLoaded = false /\
  (forall f, f <> FInput -> f <> FOutput -> f <> FDif -> lten L f = None) /\ lmaxs L = None /\ lflag L BBP = false /\ lflag L BTrainable = mk_trains m /\
  (forall a, mk_act m = Some a -> lact L = Some a).
Ltac raw_tac := repeat split; try (let f := fresh "f" in intros f; destruct f; intros; first [reflexivity|contradiction]); intros; cbn in *; congruence.
Definition src_blk (s : lst T) (L : layer T) (sh : list N) (lo hi tl th : nat) : Prop :=
  fits sh /\ exists t b, lten L FInput = Some t /\ blk (ts s) t sh b /\ tl <= t < th /\ lo <= b /\ b + N.to_nat (prodN sh) <= hi /\ hi <= length (mem (ts s)) /\
    forall j, j < N.to_nat (prodN sh) -> mem (ts s) !! (b + j) = Some nzero.
Definition out_blk (s : lst T) (L : layer T) (o : N) (lo hi : nat) : Prop :=
  fits [o] /\ exists t b, lten L FOutput = Some t /\ blk (ts s) t [o] b /\ lo <= b /\ b + N.to_nat o <= hi /\ hi <= length (mem (ts s)).
Definition laid1 (s : lst T) (L : layer T) (base p : nat) (m : mk T) (lo hi tl th : nat) : Prop :=
  match m with
  | MInput sh => lkind_of L = LInput /\ lpre L = None /\ src_blk s L sh lo hi tl th
  | MDenseIn i o a => lkind_of L = LDense /\ lpre L = None /\ lact L = Some a /\ exists mid, src_blk s L [i] lo mid tl th /\ out_blk s L o mid hi
  | MOn k q => lpre L = Some (base + q) /\ q < p /\
      match k with
      | KDense o a => lkind_of L = LDense /\ lact L = Some a /\ out_blk s L o lo hi
      | _ => lkind_of L <> LDense /\ lkind_of L <> LInput /\ lspec_of [] L = Some (spec1 k)
      end
  | MCat a b d => lkind_of L = LConcat (Some (base + a)) (Some (base + b)) d /\ lpre L = None /\ a < p /\ b < p
  end.
Definition laid (s : lst T) (base p : nat) (m : mk T) (lo hi tl th : nat) : Prop :=
  exists L, lays s !! (base + p) = Some L /\ lflag L BBuild = false /\ lflag L BFF = false /\ raw m L /\ laid1 s L base p m lo hi tl th.
Record wired (s : lst T) (base : nat) (ms : list (mk T)) (lo tl : nat -> nat) : Prop := {
  w_len : length (lays s) = base + length ms;
  w_lo : forall p, p < length ms -> lo p <= lo (S p);
  w_tl : forall p, p < length ms -> tl p <= tl (S p);
  w_hi : lo (length ms) = length (mem (ts s));
  w_th : tl (length ms) = length (tens (ts s));
  w_laid : forall p m, ms !! p = Some m -> laid s base p m (lo p) (lo (S p)) (tl p) (tl (S p));
}.
Lemma mono_le (f : nat -> nat) n : (forall p, p < n -> f p <= f (S p)) -> forall p q, p <= q -> q <= n -> f p <= f q.
Proof using Type. intros Hf p q Hle. induction Hle as [|q Hle IH]; intros Hq; [lia|]. specialize (Hf q). specialize (IH ltac:(lia)). lia. Qed.

Lemma blk_more (s s' : tst T) t sh b x : tens s' = tens s ++ x -> blk s t sh b -> blk s' t sh b.
Proof using Type. intros E [bo Hb]. exists bo. rewrite E. apply lookup_app_l_Some. exact Hb. Qed.
Lemma laid_more (s s' : lst T) base p m lo hi tl th l x y : lays s' = lays s ++ l -> tens (ts s') = tens (ts s) ++ x -> mem (ts s') = mem (ts s) ++ y ->
  laid s base p m lo hi tl th -> laid s' base p m lo hi tl th.
Proof using Type.
  intros El Ex Ey (L & HL & Hb & Hf & Hr & Hm). exists L. split; [rewrite El; apply lookup_app_l_Some; exact HL|]. split; [exact Hb|]. split; [exact Hf|]. split; [exact Hr|].
  assert (Hlen : length (mem (ts s)) <= length (mem (ts s'))) by (rewrite Ey, app_length; lia).
  assert (Hs : forall sh lo hi tl th, src_blk s L sh lo hi tl th -> src_blk s' L sh lo hi tl th).
  { intros sh lo' hi' tl' th' (Hfi & t & b & H1 & H2 & H3 & H4 & H5 & H6 & H7). split; [exact Hfi|]. exists t, b. split; [exact H1|]. split; [eapply blk_more; eassumption|]. split; [exact H3|]. split; [exact H4|]. split; [exact H5|].
    split; [lia|]. intros j Hj. rewrite Ey. apply lookup_app_l_Some. auto. }
  assert (Ho : forall o lo hi, out_blk s L o lo hi -> out_blk s' L o lo hi).
  { intros o lo' hi' (Hfi & t & b & H1 & H2 & H3 & H4 & H5). split; [exact Hfi|]. exists t, b. split; [exact H1|]. split; [eapply blk_more; eassumption|]. repeat split; lia. }
  destruct m as [sh|i o a|k q|a b d]; cbn [laid1] in *.
  - destruct Hm as (H1 & H2 & H3). auto.
  - destruct Hm as (H1 & H2 & H3 & mid & H4 & H5). repeat (split; [assumption|]). exists mid. auto.
  - destruct Hm as (H1 & H2 & H3). split; [exact H1|]. split; [exact H2|]. destruct k; try exact H3. destruct H3 as (H3 & H4 & H5). auto.
  - exact Hm.
Qed.
Definition ext (f : nat -> nat) (n v : nat) : nat -> nat := fun q => if q <=? n then f q else v.
Lemma ext_old f n v q : q <= n -> ext f n v q = f q.
Proof using Type. intros Hq. unfold ext. destruct (Nat.leb_spec q n); [reflexivity|lia]. Qed.
Lemma ext_new f n v : ext f n v (S n) = v.
Proof using Type. unfold ext. destruct (Nat.leb_spec (S n) n); [lia|reflexivity]. Qed.
Lemma wired_snoc (s s' : lst T) base ms lo tl m L x y : wired s base ms lo tl ->
  lays s' = lays s ++ [L] -> tens (ts s') = tens (ts s) ++ x -> mem (ts s') = mem (ts s) ++ y ->
  lflag L BBuild = false -> lflag L BFF = false -> raw m L ->
  laid1 s' L base (length ms) m (length (mem (ts s))) (length (mem (ts s'))) (length (tens (ts s))) (length (tens (ts s'))) ->
  exists lo' tl', wired s' base (ms ++ [m]) lo' tl'.
Proof using Type.
  intros W El Ex Ey Hb Hf Hr Hm. exists (ext lo (length ms) (length (mem (ts s')))), (ext tl (length ms) (length (tens (ts s')))).
  split.
  - rewrite El, !app_length, (w_len _ _ _ _ _ W). cbn. lia.
  - intros p Hp. rewrite app_length in Hp. cbn in Hp. rewrite ext_old by lia. destruct (decide (p = length ms)) as [->|Hne].
    + rewrite ext_new, (w_hi _ _ _ _ _ W), Ey, app_length. lia.
    + rewrite ext_old by lia. apply W. lia.
  - intros p Hp. rewrite app_length in Hp. cbn in Hp. rewrite ext_old by lia. destruct (decide (p = length ms)) as [->|Hne].
    + rewrite ext_new, (w_th _ _ _ _ _ W), Ex, app_length. lia.
    + rewrite ext_old by lia. apply W. lia.
  - rewrite app_length. cbn. rewrite Nat.add_1_r. apply ext_new.
  - rewrite app_length. cbn. rewrite Nat.add_1_r. apply ext_new.
  - intros p m' Hp. destruct (decide (p < length ms)) as [Hlt|Hge].
    + rewrite lookup_app_l in Hp by exact Hlt. rewrite !ext_old by lia. eapply laid_more; [exact El|exact Ex|exact Ey|]. apply W. exact Hp.
    + assert (p = length ms) as -> by (apply lookup_lt_Some in Hp; rewrite app_length in Hp; cbn in Hp; lia).
      rewrite lookup_app_r, Nat.sub_diag in Hp by lia. injection Hp as <-. rewrite !ext_new, !ext_old by lia. rewrite (w_hi _ _ _ _ _ W), (w_th _ _ _ _ _ W).
      exists L. split; [|auto]. rewrite El, <- (w_len _ _ _ _ _ W). rewrite lookup_app_r by lia. rewrite Nat.sub_diag. reflexivity.
Qed.

(** ** The code that makes them *)
Lemma ids_at base n q : q < n -> seq base n !! q = Some (base + q).
Proof using Type. intros Hq. apply lookup_seq. split; [reflexivity|exact Hq]. Qed.
Definition same_ts (s s' : lst T) : Prop := ts s' = ts s /\ rc s' = rc s.
Lemma make1_plain (k : lay1 T) : (forall o a, k <> KDense o a) -> forall s : lst T,
  exists L, make1 k s = (Ok (length (lays s)), MkL (ts s) (lays s ++ [L]) (rc s)) /\
    lflag L BBuild = false /\ lflag L BFF = false /\ (forall q, raw (MOn k q) L) /\ lkind_of L <> LDense /\ lkind_of L <> LInput /\ lspec_of [] L = Some (spec1 k).
Proof using Type.
  intros Hk s. destruct k; try (exfalso; eapply Hk; reflexivity); (eexists; split; [reflexivity|]); repeat split; try discriminate; intros; cbn in *; first [reflexivity|congruence].
Qed.
Lemma connect_new (s : lst T) L q : Connect (length (lays s)) q (MkL (ts s) (lays s ++ [L]) (rc s)) = (Ok tt, MkL (ts s) (lays s ++ [set_pre q L]) (rc s)).
Proof using Type.
  unfold Connect, updL. cbn [lays]. rewrite list_lookup_middle by reflexivity. cbn [ts rc]. do 2 f_equal. rewrite <- (Nat.add_0_r (length (lays s))), insert_app_r. reflexivity.
Qed.
(** A list of tensors and of cells was added, nothing else. *)
Definition grown (s s' : lst T) : Prop := (exists l, lays s' = lays s ++ l) /\ (exists x, tens (ts s') = tens (ts s) ++ x) /\ (exists y, mem (ts s') = mem (ts s) ++ y) /\ rc s' = rc s.
Lemma grown_refl s : grown s s.
Proof using Type. repeat split; exists []; rewrite app_nil_r; reflexivity. Qed.
Lemma grown_trans s1 s2 s3 : grown s1 s2 -> grown s2 s3 -> grown s1 s3.
Proof using Type.
  intros ([l1 A1] & [x1 B1] & [y1 C1] & D1) ([l2 A2] & [x2 B2] & [y2 C2] & D2).
  repeat split; [exists (l1 ++ l2)|exists (x1 ++ x2)|exists (y1 ++ y2)|congruence]; rewrite app_assoc; congruence.
Qed.
Lemma zeros_at (m : list T) n z j : j < n -> (m ++ zeros n ++ z) !! (length m + j) = Some nzero.
Proof using Type. intros Hj. rewrite lookup_app_r by lia. replace (length m + j - length m) with j by lia. apply lookup_app_l_Some. unfold zeros. apply lookup_replicate_2. exact Hj. Qed.
Lemma blk_here (tn : list (node T)) sh a b x (mm : list T) c : blk (MkSt mm (tn ++ MkNode KMat (blkm sh a b) :: x) c) (length tn) sh a.
Proof using Type. exists b. cbn [tens]. apply list_lookup_middle. reflexivity. Qed.

Lemma make_ok s base ms lo tl (done : list (net T)) m e : wired s base ms lo tl -> length done = length ms -> mk_ok m -> net_step done m = Some e ->
  exists s' lo' tl', make (seq base (length ms)) m s = (Ok (base + length ms), s') /\ wired s' base (ms ++ [m]) lo' tl' /\ grown s s'.
Proof using Type.
  intros W Hd Hok He. pose proof (w_len _ _ _ _ _ W) as Hlen. destruct m as [sh|i o a|k q|a b d]; cbn [mk_ok net_step make] in *.
  - unfold NewInput. erewrite mbnd_ok by (apply liftT_ok; apply NewZeros_blk; exact Hok). cbn [ts lays rc mem tens ctx].
    erewrite mbnd_ok by (apply liftT_ok; apply NewZeros_blk; exact Hok). cbn [ts lays rc mem tens ctx]. unfold newL. cbn [lays ts rc].
    match goal with |- context [MkL ?t (lays s ++ [?L]) _] => set (s' := MkL t (lays s ++ [L]) (rc s)); set (Ln := L) in s' end.
    assert (Et : tens (ts s') = tens (ts s) ++ [MkNode KMat (blkm sh (length (mem (ts s))) false); MkNode KMat (blkm sh (length (mem (ts s) ++ zeros (N.to_nat (prodN sh)))) false)])
      by (cbn [s' ts tens]; rewrite <- app_assoc; reflexivity).
    assert (Em : mem (ts s') = mem (ts s) ++ zeros (N.to_nat (prodN sh)) ++ zeros (N.to_nat (prodN sh))) by (cbn [s' ts mem]; rewrite <- app_assoc; reflexivity).
    destruct (wired_snoc s s' base ms lo tl (MInput sh) Ln _ _ W eq_refl Et Em) as (lo' & tl' & W'); try reflexivity; [raw_tac| |].
    + cbn [laid1]. split; [reflexivity|]. split; [reflexivity|]. split; [exact Hok|]. exists (length (tens (ts s))), (length (mem (ts s))). split; [reflexivity|].
      split; [exists false; rewrite Et; apply list_lookup_middle; reflexivity|]. rewrite Et, Em, !app_length, !zeros_length. cbn [length]. split; [lia|]. split; [lia|]. split; [lia|]. split; [lia|].
      intros j Hj. apply zeros_at. exact Hj.
    + exists s', lo', tl'. split; [rewrite Hlen; reflexivity|]. split; [exact W'|]. repeat split; eexists; eassumption || reflexivity.
  - destruct Hok as [Hi Ho]. unfold NewInDense. erewrite mbnd_ok by (apply liftT_ok; apply NewZeros_blk; exact Hi). cbn [ts lays rc mem tens ctx].
    erewrite mbnd_ok by (apply liftT_ok; apply NewZeros_blk; exact Ho). cbn [ts lays rc mem tens ctx]. unfold newL. cbn [lays ts rc].
    match goal with |- context [MkL ?t (lays s ++ [?L]) _] => set (s' := MkL t (lays s ++ [L]) (rc s)); set (Ln := L) in s' end.
    assert (Et : tens (ts s') = tens (ts s) ++ [MkNode KMat (blkm [i] (length (mem (ts s))) false); MkNode KMat (blkm [o] (length (mem (ts s) ++ zeros (N.to_nat (prodN [i])))) false)])
      by (cbn [s' ts tens]; rewrite <- app_assoc; reflexivity).
    assert (Em : mem (ts s') = mem (ts s) ++ zeros (N.to_nat (prodN [i])) ++ zeros (N.to_nat (prodN [o]))) by (cbn [s' ts mem]; rewrite <- app_assoc; reflexivity).
    destruct (wired_snoc s s' base ms lo tl (MDenseIn i o a) Ln _ _ W eq_refl Et Em) as (lo' & tl' & W'); try reflexivity; [raw_tac| |].
    + cbn [laid1]. split; [reflexivity|]. split; [reflexivity|]. split; [reflexivity|]. exists (length (mem (ts s)) + N.to_nat (prodN [i])). split.
      * split; [exact Hi|]. exists (length (tens (ts s))), (length (mem (ts s))). split; [reflexivity|].
        split; [exists false; rewrite Et; apply list_lookup_middle; reflexivity|]. rewrite Et, Em, !app_length, !zeros_length. cbn [length]. split; [lia|]. split; [lia|]. split; [lia|]. split; [lia|].
        intros j Hj. apply zeros_at. exact Hj.
      * split; [exact Ho|]. exists (S (length (tens (ts s)))), (length (mem (ts s) ++ zeros (N.to_nat (prodN [i])))). split; [cbn; rewrite app_length; cbn; f_equal; lia|].
        split; [exists false; rewrite Et; rewrite lookup_app_r by lia; replace (S _ - _) with 1 by lia; reflexivity|].
        rewrite Em, !app_length, !zeros_length. rewrite (prod_1 o). lia.
    + exists s', lo', tl'. split; [rewrite Hlen; reflexivity|]. split; [exact W'|]. repeat split; eexists; eassumption || reflexivity.
  - destruct (done !! q) as [eq0|] eqn:Eq; [|discriminate]. pose proof (lookup_lt_Some _ _ _ Eq) as Hq. rewrite Hd in Hq.
    assert (Hc : forall s0 : lst T, mlift (at_or_panic (seq base (length ms)) q) s0 = (Ok (base + q), s0)) by (intros s0; unfold mlift, at_or_panic; rewrite ids_at by exact Hq; reflexivity).
    assert (Hp : (exists o a, k = KDense o a) \/ forall o a, k <> KDense o a) by (destruct k; [left; eauto|right; discriminate..]).
    destruct Hp as [(o & a & ->)|Hp].
    + cbn [make1 mk_ok] in *. unfold NewDense. erewrite mbnd_ok.
      2:{ erewrite mbnd_ok by (apply liftT_ok; apply NewZeros_blk; exact Hok). cbn [ts lays rc mem tens ctx]. unfold newL. cbn [lays ts rc]. reflexivity. }
      rewrite (mbnd_ok _ _ _ _ _ (Hc _)).
      match goal with |- context [MkL ?t (lays s ++ [?L]) _] => set (t' := t); set (L0 := L) end.
      erewrite mbnd_ok by (exact (connect_new (MkL t' (lays s) (rc s)) L0 _)). cbn [ts lays rc].
      set (Ln := set_pre (Some (base + q)) L0). set (s' := MkL t' (lays s ++ [Ln]) (rc s)).
      destruct (wired_snoc s s' base ms lo tl (MOn (KDense o a) q) Ln _ _ W eq_refl eq_refl eq_refl) as (lo' & tl' & W'); try reflexivity; [raw_tac| |].
      * cbn [laid1]. split; [reflexivity|]. split; [exact Hq|]. split; [reflexivity|]. split; [reflexivity|]. split; [exact Hok|].
        exists (length (tens (ts s))), (length (mem (ts s))). split; [reflexivity|]. split; [exists false; cbn; apply list_lookup_middle; reflexivity|].
        cbn [s' ts mem t']. rewrite !app_length, !zeros_length, (prod_1 o). lia.
      * exists s', lo', tl'. split; [rewrite <- Hlen; reflexivity|]. split; [exact W'|]. repeat split; eexists; reflexivity.
    + destruct (make1_plain k Hp s) as (L0 & E0 & F1 & F2 & F3 & F4 & F5 & F6). rewrite (mbnd_ok _ _ _ _ _ E0). rewrite (mbnd_ok _ _ _ _ _ (Hc _)).
      erewrite mbnd_ok by apply connect_new. set (Ln := set_pre (Some (base + q)) L0). set (s' := MkL (ts s) (lays s ++ [Ln]) (rc s)).
      destruct (wired_snoc s s' base ms lo tl (MOn k q) Ln [] [] W eq_refl) as (lo' & tl' & W'); try (cbn; rewrite ?app_nil_r; reflexivity); try assumption; [exact (F3 q)| |].
      * cbn [laid1]. split; [reflexivity|]. split; [exact Hq|]. assert (G : lkind_of Ln <> LDense /\ lkind_of Ln <> LInput /\ lspec_of [] Ln = Some (spec1 k)) by (split; [exact F4|split; [exact F5|exact F6]]).
        destruct k; try exact G. exfalso. eapply Hp. reflexivity.
      * exists s', lo', tl'. split; [rewrite <- Hlen; reflexivity|]. split; [exact W'|]. repeat split; try (exists []; cbn; rewrite app_nil_r; reflexivity). eexists; reflexivity.
  - destruct (done !! a) as [ea|] eqn:Ea; [|discriminate]. cbn [mbind option_bind] in He. destruct (done !! b) as [eb|] eqn:Eb; [|discriminate].
    pose proof (lookup_lt_Some _ _ _ Ea) as Ha. pose proof (lookup_lt_Some _ _ _ Eb) as Hb. rewrite Hd in Ha, Hb.
    assert (Hc : forall p (s0 : lst T), p < length ms -> mlift (at_or_panic (seq base (length ms)) p) s0 = (Ok (base + p), s0)) by (intros p s0 Hp; unfold mlift, at_or_panic; rewrite ids_at by exact Hp; reflexivity).
    rewrite (mbnd_ok _ _ _ _ _ (Hc a _ Ha)). rewrite (mbnd_ok _ _ _ _ _ (Hc b _ Hb)). unfold NewConcat, newL.
    match goal with |- context [lays s ++ [?L]] => set (Ln := L) end. set (s' := MkL (ts s) (lays s ++ [Ln]) (rc s)).
    destruct (wired_snoc s s' base ms lo tl (MCat a b d) Ln [] [] W eq_refl) as (lo' & tl' & W'); try (cbn; rewrite ?app_nil_r; reflexivity); [raw_tac| |].
    + cbn [laid1]. repeat split; lia.
    + exists s', lo', tl'. split; [rewrite <- Hlen; reflexivity|]. split; [exact W'|]. repeat split; try (exists []; cbn; rewrite app_nil_r; reflexivity). eexists; reflexivity.
Qed.
Lemma makes_ok : forall ms' s base ms lo tl (done es : list (net T)), wired s base ms lo tl -> length done = length ms -> Forall mk_ok ms' -> nets done ms' = Some es ->
  exists s' lo' tl', makes (seq base (length ms)) ms' s = (Ok (seq base (length ms + length ms')), s') /\ wired s' base (ms ++ ms') lo' tl' /\ grown s s'.
Proof using Type.
  induction ms' as [|m ms' IH]; intros s base ms lo tl done es W Hd Hok Hes; cbn [nets makes] in *.
  - exists s, lo, tl. rewrite Nat.add_0_r, app_nil_r. split; [reflexivity|]. split; [exact W|apply grown_refl].
  - destruct (net_step done m) as [e|] eqn:Ee; [|discriminate]. cbn [mbind option_bind] in Hes. apply Forall_cons in Hok as [Hm Hok].
    destruct (make_ok s base ms lo tl done m e W Hd Hm Ee) as (s1 & lo1 & tl1 & E1 & W1 & G1). rewrite (mbnd_ok _ _ _ _ _ E1).
    replace (seq base (length ms) ++ [base + length ms]) with (seq base (length (ms ++ [m]))) by (rewrite app_length; cbn; rewrite seq_app; reflexivity).
    destruct (IH s1 base (ms ++ [m]) lo1 tl1 (done ++ [e]) es W1) as (s2 & lo2 & tl2 & E2 & W2 & G2); [rewrite !app_length; cbn; lia|exact Hok|exact Hes|].
    exists s2, lo2, tl2. split; [rewrite E2, app_length; cbn; do 3 f_equal; lia|]. split; [rewrite <- app_assoc in W2; exact W2|eapply grown_trans; eassumption].
Qed.

(** ** The network they are *)
Definition tin (s : lst T) (base p : nat) : nat := match lays s !! (base + p) with Some L => default 0 (lten L FInput) | None => 0 end.
Fixpoint ren (f : nat -> nat) (base : nat) (e : net T) : net T :=
  match e with NIn p => NIn (f p) | NLay l i e => NLay l (base + i) (ren f base e) | NCat i a b d => NCat (base + i) (ren f base a) (ren f base b) d end.
Lemma nshape_ren f base inp inp' : (forall p sh, inp p = Some sh -> inp' (f p) = Some sh) -> forall (e : net T) sh, nshape inp e = Some sh -> nshape inp' (ren f base e) = Some sh.
Proof using Type.
  intros Hi e. induction e as [p|l i e IH|i a IHa b IHb d]; intros sh He; cbn [nshape ren] in *; [destruct (inp p) as [x|] eqn:Ep; [|discriminate]; rewrite (Hi _ _ Ep); exact He| |].
  - destruct (nshape inp e) as [x|] eqn:E; [|discriminate]. rewrite (IH _ eq_refl). exact He.
  - destruct (nshape inp a) as [x|] eqn:E; [|discriminate]. rewrite (IHa _ eq_refl). cbn [mbind option_bind] in *. destruct (nshape inp b) as [y|] eqn:E2; [|discriminate]. rewrite (IHb _ eq_refl). exact He.
Qed.
Lemma nval_ren f base inp par inp' par' : forall (e : net T), (forall p, p ∈ ins e -> inp p = inp' (f p)) -> (forall k, k ∈ pars e -> par k = par' (base + k)) ->
  nval inp par e = nval inp' par' (ren f base e).
Proof using Type.
  intros e. induction e as [p|l i e IH|i a IHa b IHb d]; cbn [nval ren ins pars]; intros Hi Hp.
  - apply Hi. apply elem_of_list_here.
  - rewrite IH by (auto; intros j Hj; apply Hp, elem_of_app; auto). destruct (nval inp' par' (ren f base e)) as [x|]; [|reflexivity]. cbn [mbind option_bind].
    destruct (has_par l) eqn:E; [rewrite (Hp i) by apply elem_of_list_here; reflexivity|apply lay_val_nop; exact E].
  - rewrite IHa, IHb; [reflexivity|..]; intros j Hj; (apply Hi || apply Hp); apply elem_of_app; auto.
Qed.
Lemma ins_ren f base e : ins (ren f base e) = map f (ins e).
Proof using Type. induction e; cbn; [reflexivity|assumption|]. rewrite IHe1, IHe2, map_app. reflexivity. Qed.
Lemma pars_ren f base e : pars (ren f base e) = map (Nat.add base) (pars e).
Proof using Type. induction e; cbn; [reflexivity| |]; rewrite ?map_app; [|congruence]. rewrite IHe. destruct (has_par l); reflexivity. Qed.

Lemma nets_at : forall (ms : list (mk T)) done es, nets done ms = Some es ->
  exists rest, es = done ++ rest /\ length rest = length ms /\ forall p m, ms !! p = Some m -> exists e, rest !! p = Some e /\ net_step (done ++ take p rest) m = Some e.
Proof using Type.
  induction ms as [|m ms IH]; intros done es E; cbn [nets] in E.
  - injection E as <-. exists []. rewrite app_nil_r. split; [reflexivity|]. split; [reflexivity|]. intros p m Hp. discriminate.
  - destruct (net_step done m) as [e|] eqn:Ee; [|discriminate]. cbn [mbind option_bind] in E. destruct (IH _ _ E) as (rest & -> & Hl & Hr). exists (e :: rest). rewrite <- app_assoc. split; [reflexivity|].
    split; [cbn; lia|]. intros [|p] m' Hp; cbn in Hp.
    + injection Hp as <-. exists e. cbn. rewrite app_nil_r. auto.
    + destruct (Hr p m' Hp) as (e' & H1 & H2). exists e'. split; [exact H1|]. cbn [take]. rewrite <- app_assoc in H2. exact H2.
Qed.
Lemma nets_step ms es p m : nets [] ms = Some es -> ms !! p = Some m -> exists e, es !! p = Some e /\ net_step (take p es) m = Some e /\ length (take p es) = p.
Proof using Type.
  intros E Hp. destruct (nets_at _ _ _ E) as (rest & -> & Hl & Hr). cbn. destruct (Hr p m Hp) as (e & H1 & H2). exists e. split; [exact H1|]. split; [exact H2|].
  apply take_length_le. apply lookup_lt_Some in Hp. lia.
Qed.
Lemma nets_len ms es : nets [] ms = Some es -> length es = length ms.
Proof using Type. intros E. destruct (nets_at _ _ _ E) as (rest & -> & Hl & _). exact Hl. Qed.

Section Wired.
Context (s : lst T) (base : nat) (ms : list (mk T)) (lo tl : nat -> nat) (W : wired s base ms lo tl).
Lemma src_tin L p sh a b c d : lays s !! (base + p) = Some L -> src_blk s L sh a b c d -> lten L FInput = Some (tin s base p).
Proof using Type. intros HL (_ & t & bb & Ht & _). unfold tin. rewrite HL, Ht. reflexivity. Qed.
Lemma out_spec L o a p q : lkind_of L = LDense -> lact L = Some a -> out_blk s L o p q -> lspec_of (tens (ts s)) L = Some (SDense o (act_f a)).
Proof using Type. intros Hk Ha (_ & t & b & Ht & [bo Hb] & _). unfold lspec_of. rewrite Hk, Ha, Ht. cbn [mbind option_bind]. rewrite Hb. reflexivity. Qed.
Lemma plain_spec (L : layer T) l tn : lkind_of L <> LDense -> lspec_of [] L = Some l -> lspec_of tn L = Some l.
Proof using Type. intros Hk. unfold lspec_of. destruct (lkind_of L); auto. contradiction. Qed.
Lemma wired_stands es : nets [] ms = Some es -> forall p e, es !! p = Some e -> stands s (base + p) (ren (tin s base) base e).
Proof using W.
  intros E p. induction p as [p IH] using lt_wf_ind. intros e He.
  assert (Hp : p < length ms) by (rewrite <- (nets_len _ _ E); eapply lookup_lt_Some; exact He).
  destruct (lookup_lt_is_Some_2 _ _ Hp) as [m Hm]. destruct (nets_step _ _ _ _ E Hm) as (e' & He' & Hst & Hlt). assert (e' = e) as -> by congruence.
  destruct (w_laid _ _ _ _ _ W p m Hm) as (L & HL & _ & _ & _ & Hl).
  destruct m as [sh|i o a|k q|a b d]; cbn [net_step laid1] in *; rewrite ?Hlt in Hst.
  - injection Hst as <-. destruct Hl as (Hk & Hpre & Hs). cbn [ren]. eapply st_in; [exact HL|exact Hk|exact Hpre|]. eapply src_tin; eassumption.
  - injection Hst as <-. destruct Hl as (Hk & Hpre & Ha & mid & Hs & Ho). cbn [ren]. eapply st_src; [exact HL|exact Hk|eapply out_spec; eassumption|exact Hpre|]. eapply src_tin; eassumption.
  - destruct Hl as (Hpre & Hq & Hl). rewrite lookup_take in Hst by exact Hq. destruct (es !! q) as [e0|] eqn:Eq; [|discriminate]. injection Hst as <-. cbn [ren].
    eapply st_lay; [exact HL| |exact Hpre|apply IH; assumption].
    destruct k; try (destruct Hl as (H1 & H2 & H3); apply plain_spec; assumption). destruct Hl as (H1 & H2 & H3). eapply out_spec; eassumption.
  - destruct Hl as (Hk & Hpre & Ha & Hb). rewrite !lookup_take in Hst by assumption. destruct (es !! a) as [ea|] eqn:Ea; [|discriminate]. cbn [mbind option_bind] in Hst.
    destruct (es !! b) as [eb|] eqn:Eb; [|discriminate]. injection Hst as <-. cbn [ren]. eapply st_cat; [exact HL|exact Hk|exact Hpre|apply IH; assumption..].
Qed.
Lemma wired_child p c : p < length ms -> child s (base + p) c -> exists q, c = base + q /\ q < p.
Proof using W.
  intros Hp (L & HL & Hc). destruct (lookup_lt_is_Some_2 _ _ Hp) as [m Hm]. destruct (w_laid _ _ _ _ _ W p m Hm) as (L' & HL' & _ & _ & _ & Hl). assert (L' = L) as -> by congruence.
  destruct m as [sh|i o a|k q|a b d]; cbn [laid1] in Hl.
  - destruct Hl as (Hk & Hpre & _). destruct Hc as [Hc|(? & ? & ? & Hc & _)]; congruence.
  - destruct Hl as (Hk & Hpre & _). destruct Hc as [Hc|(? & ? & ? & Hc & _)]; congruence.
  - destruct Hl as (Hpre & Hq & Hl). destruct Hc as [Hc|(? & ? & ? & Hc & _)]; [exists q; split; [congruence|exact Hq]|]. exfalso.
    unfold lspec_of in Hl. rewrite Hc in Hl. destruct k; destruct Hl as (? & ? & ?); congruence.
  - destruct Hl as (Hk & Hpre & Ha & Hb). destruct Hc as [Hc|(? & ? & ? & Hc & Hj)]; [congruence|]. rewrite Hk in Hc. injection Hc as <- <- <-. destruct Hj as [->| ->]; eauto.
Qed.
Lemma wired_part p j : p < length ms -> part s (base + p) j -> exists q, j = base + q /\ q <= p.
Proof using W.
  intros Hp Hj. remember (base + p) as i eqn:Ei. revert p Hp Ei. induction Hj as [i|i c j Hc Hj IH]; intros p Hp ->; [eauto|].
  destruct (wired_child p c Hp Hc) as (q & -> & Hq). destruct (IH q ltac:(lia) eq_refl) as (r & -> & Hr). exists r. split; [reflexivity|lia].
Qed.
(** Where the cells of inputs and outputs are. *)
Lemma source_at t p : p < length ms -> source s (base + p) t -> exists q sh b m, q <= p /\ ms !! q = Some m /\ in_shape ms q = Some sh /\ t = tin s base q /\ blk (ts s) t sh b /\ fits sh /\
  lo q <= b /\ b + N.to_nat (prodN sh) <= lo (S q) /\ tl q <= t < tl (S q) /\ (forall j, j < N.to_nat (prodN sh) -> mem (ts s) !! (b + j) = Some nzero) /\
  (forall a, outcell s (base + p) (base + q) a -> b + N.to_nat (prodN sh) <= a).
Proof using W.
  intros Hp (j & L & Hj & HL & Hpre & Hk & Ht). destruct (wired_part p j Hp Hj) as (q & -> & Hq). assert (Hqm : q < length ms) by lia.
  destruct (lookup_lt_is_Some_2 _ _ Hqm) as [m Hm]. destruct (w_laid _ _ _ _ _ W q m Hm) as (L' & HL' & _ & _ & _ & Hl). assert (L' = L) as -> by congruence.
  destruct m as [sh|i o a|k r|a b d]; cbn [laid1] in Hl.
  - destruct Hl as (Hk' & _ & Hs). pose proof (src_tin _ _ _ _ _ _ _ HL Hs) as Htin. destruct Hs as (Hfi & t' & b & Ht' & Hb & Htl & Hlo & Hhi & Hmem & Hz). assert (t' = t) as -> by congruence.
    exists q, sh, b, (MInput sh). split; [exact Hq|]. split; [exact Hm|]. split; [unfold in_shape; rewrite Hm; reflexivity|]. split; [congruence|]. repeat (split; [assumption|]).
    intros a (_ & L2 & ? & ? & HL2 & Hd & _). assert (L2 = L) as -> by congruence. congruence.
  - destruct Hl as (Hk' & _ & _ & mid & Hs & Ho). pose proof (src_tin _ _ _ _ _ _ _ HL Hs) as Htin. destruct Hs as (Hfi & t' & b & Ht' & Hb & Htl & Hlo & Hhi & Hmem & Hz). assert (t' = t) as -> by congruence.
    destruct Ho as (Hfo & to & bo & Hto & Hbo & Hmid & Hoe & _).
    exists q, [i], b, (MDenseIn i o a). split; [exact Hq|]. split; [exact Hm|]. split; [unfold in_shape; rewrite Hm; reflexivity|]. split; [congruence|]. split; [exact Hb|]. split; [exact Hfi|]. split; [exact Hlo|].
    split; [lia|]. split; [exact Htl|]. split; [exact Hz|].
    intros c (_ & L2 & t2 & n2 & HL2 & Hd & Ht2 & Hn2 & Hc). assert (L2 = L) as -> by congruence. assert (t2 = to) as -> by congruence. destruct Hbo as [bb Hbb]. rewrite Hbb in Hn2. injection Hn2 as <-.
    cbn [nmat] in Hc. apply blk_ops in Hc. lia.
  - destruct Hl as (Hpre' & _). congruence.
  - destruct Hl as (Hk' & _). destruct Hk; congruence.
Qed.
Lemma out_at p j a : p < length ms -> outcell s (base + p) j a -> exists q, j = base + q /\ q <= p /\ lo q <= a < lo (S q) /\
  exists L t o b bo, lays s !! j = Some L /\ lten L FOutput = Some t /\ tens (ts s) !! t = Some (MkNode KMat (blkm [o] b bo)) /\ b + N.to_nat o <= length (mem (ts s)).
Proof using W.
  intros Hp (Hj & L & t & n & HL & Hk & Ht & Hn & Ha). destruct (wired_part p j Hp Hj) as (q & -> & Hq). exists q. split; [reflexivity|]. split; [exact Hq|].
  assert (Hqm : q < length ms) by lia.
  destruct (lookup_lt_is_Some_2 _ _ Hqm) as [m Hm]. destruct (w_laid _ _ _ _ _ W q m Hm) as (L' & HL' & _ & _ & _ & Hl). assert (L' = L) as -> by congruence.
  assert (Ho : exists o lo', lo q <= lo' /\ out_blk s L o lo' (lo (S q))).
  { destruct m as [sh|i o x|k r|x b d]; cbn [laid1] in Hl.
    - destruct Hl as (Hk' & _). congruence.
    - destruct Hl as (_ & _ & _ & mid & Hs & Ho). exists o, mid. split; [|exact Ho]. destruct Hs as (_ & ? & ? & _ & _ & _ & ? & ? & _). lia.
    - destruct Hl as (_ & _ & Hl). destruct k; try (destruct Hl as (? & _); contradiction). destruct Hl as (_ & _ & Ho). eexists _, _. split; [|exact Ho]. lia.
    - destruct Hl as (Hk' & _). congruence. }
  destruct Ho as (o & lo' & Hlo & Hfo & to & bo & Hto & [bb Hbb] & Hmid & Hoe & Hom). assert (to = t) as -> by congruence. rewrite Hbb in Hn. injection Hn as <-. cbn [nmat] in Ha. apply blk_ops in Ha. rewrite prod_1 in Ha.
  split; [lia|]. exists L, t, o, bo, bb. split; [exact HL|]. split; [exact Hto|]. split; [exact Hbb|lia].
Qed.
Lemma wired_out p j L : p < length ms -> part s (base + p) j -> lays s !! j = Some L -> lkind_of L = LDense ->
  exists t o b bo, lten L FOutput = Some t /\ tens (ts s) !! t = Some (MkNode KMat (blkm [o] b bo)) /\ b + N.to_nat o <= length (mem (ts s)).
Proof using W.
  intros Hp Hj HL Hk. destruct (wired_part p j Hp Hj) as (q & -> & Hq). assert (Hqm : q < length ms) by lia.
  destruct (lookup_lt_is_Some_2 _ _ Hqm) as [m Hm]. destruct (w_laid _ _ _ _ _ W q m Hm) as (L' & HL' & _ & _ & _ & Hl). assert (L' = L) as -> by congruence.
  assert (Ho : exists o lo', out_blk s L o lo' (lo (S q))).
  { destruct m as [sh|i o x|k r|x b d]; cbn [laid1] in Hl.
    - destruct Hl as (Hk' & _). congruence.
    - destruct Hl as (_ & _ & _ & mid & Hs & Ho). eauto.
    - destruct Hl as (_ & _ & Hl). destruct k; try (destruct Hl as (? & _); contradiction). destruct Hl as (_ & _ & Ho). eauto.
    - destruct Hl as (Hk' & _). congruence. }
  destruct Ho as (o & lo' & Hfo & t & bo & Hto & [bb Hbb] & Hmid & Hoe & Hom). exists t, o, bo, bb. split; [exact Hto|]. split; [exact Hbb|lia].
Qed.
Lemma apart p q a b : p < length ms -> q < length ms -> lo p <= a < lo (S p) -> lo q <= b < lo (S q) -> a = b -> p = q.
Proof using W.
  intros Hp Hq Ha Hb ->. destruct (lt_eq_lt_dec p q) as [[Hlt|Heq]|Hlt]; [|exact Heq|]; exfalso.
  - pose proof (mono_le lo (length ms) (w_lo _ _ _ _ _ W) (S p) q ltac:(lia) ltac:(lia)). lia.
  - pose proof (mono_le lo (length ms) (w_lo _ _ _ _ _ W) (S q) p ltac:(lia) ltac:(lia)). lia.
Qed.
Lemma tin_apart p q t u : p < length ms -> q < length ms -> tl p <= t < tl (S p) -> tl q <= u < tl (S q) -> t = u -> p = q.
Proof using W.
  intros Hp Hq Ha Hb ->. destruct (lt_eq_lt_dec p q) as [[Hlt|Heq]|Hlt]; [|exact Heq|]; exfalso.
  - pose proof (mono_le tl (length ms) (w_tl _ _ _ _ _ W) (S p) q ltac:(lia) ltac:(lia)). lia.
  - pose proof (mono_le tl (length ms) (w_tl _ _ _ _ _ W) (S q) p ltac:(lia) ltac:(lia)). lia.
Qed.
Lemma in_end q : q < length ms -> lo (S q) <= length (mem (ts s)).
Proof using W. intros Hq. rewrite <- (w_hi _ _ _ _ _ W). apply (mono_le lo (length ms) (w_lo _ _ _ _ _ W)); lia. Qed.
Lemma in_here p sh : in_shape ms p = Some sh -> exists L b, lays s !! (base + p) = Some L /\ lpre L = None /\ (lkind_of L = LInput \/ lkind_of L = LDense) /\ lten L FInput = Some (tin s base p) /\
  blk (ts s) (tin s base p) sh b /\ fits sh /\ lo p <= b /\ b + N.to_nat (prodN sh) <= lo (S p) /\ tl p <= tin s base p < tl (S p) /\
  (forall j, j < N.to_nat (prodN sh) -> mem (ts s) !! (b + j) = Some nzero).
Proof using W.
  unfold in_shape. intros E. destruct (ms !! p) as [m|] eqn:Hm; [|discriminate]. destruct (w_laid _ _ _ _ _ W p m Hm) as (L & HL & _ & _ & _ & Hl).
  destruct m as [sh'|i o x|k r|x b d]; try discriminate; injection E as <-; cbn [laid1] in Hl.
  - destruct Hl as (Hk & Hpre & Hs). pose proof (src_tin _ _ _ _ _ _ _ HL Hs) as Htin. destruct Hs as (Hfi & t & b & Ht & Hb & Htl & Hlo & Hhi & _ & Hz). rewrite Htin in Ht. injection Ht as Ht. subst t.
    exists L, b. split; [exact HL|]. split; [exact Hpre|]. split; [auto|]. auto 10.
  - destruct Hl as (Hk & Hpre & Ha & mid & Hs & Ho). pose proof (src_tin _ _ _ _ _ _ _ HL Hs) as Htin. destruct Hs as (Hfi & t & b & Ht & Hb & Htl & Hlo & Hhi & _ & Hz). rewrite Htin in Ht. injection Ht as Ht. subst t.
    destruct Ho as (_ & ? & ? & _ & _ & ? & ? & _).
    exists L, b. split; [exact HL|]. split; [exact Hpre|]. split; [auto|]. split; [exact Htin|]. split; [exact Hb|]. split; [exact Hfi|]. split; [exact Hlo|]. split; [lia|]. auto.
Qed.

Lemma wired_fresh es p e sh : nets [] ms = Some es -> es !! p = Some e -> nshape (in_shape ms) e = Some sh -> fresh s (base + p) (ren (tin s base) base e) sh.
Proof using W.
  intros E He Hsh. assert (Hp : p < length ms) by (rewrite <- (nets_len _ _ E); eapply lookup_lt_Some; exact He). split.
  - eapply wired_stands; eassumption.
  - eapply nshape_ren; [|exact Hsh]. intros q shq Hq. destruct (in_here q shq Hq) as (L & b & _ & _ & _ & _ & [bo Hb] & _). unfold insh. rewrite Hb. reflexivity.
  - intros j L Hj HL. destruct (wired_part p j Hp Hj) as (q & -> & Hq). destruct (lookup_lt_is_Some_2 ms q) as [m Hm]; [lia|].
    destruct (w_laid _ _ _ _ _ W q m Hm) as (L' & HL' & H1 & H2 & H3 & _). assert (L' = L) as -> by congruence. split; [exact H1|]. split; [exact H2|apply H3].
  - intros t Ht. destruct (source_at t p Hp Ht) as (q & shq & b & m & Hq & Hm & Hi & -> & [bo Hb] & Hf & Hlo & Hhi & _). eexists. split; [exact Hb|]. split; [left; reflexivity|]. cbn [nmat].
    eapply wf_mat_mono; [apply wf_blk; exact Hf|]. pose proof (in_end q ltac:(lia)). lia.
  - intros j L Hj HL Hk. eapply wired_out; eassumption.
  - intros i j a Hi Hj. destruct (out_at p i a Hp Hi) as (q & -> & Hq & Ha & _). destruct (out_at p j a Hp Hj) as (r & -> & Hr & Hb & _). f_equal. eapply apart; [..|reflexivity]; try eassumption; lia.
  - intros i a t n Hi Ht Hn Ha. destruct (out_at p i a Hp Hi) as (q & -> & Hq & Hqa & _).
    destruct (source_at t p Hp Ht) as (r & shr & b & m & Hr & Hm & Hir & -> & [bo Hb] & Hf & Hlo & Hhi & _ & _ & Hsep). rewrite Hb in Hn. injection Hn as <-. cbn [nmat] in Ha. apply blk_ops in Ha.
    assert (q = r) as ->; [|specialize (Hsep a Hi); lia]. apply (apart q r a a); try lia.
  - intros j L Hj HL. destruct (wired_part p j Hp Hj) as (q & -> & Hq). destruct (lookup_lt_is_Some_2 ms q) as [m Hm]; [lia|].
    destruct (w_laid _ _ _ _ _ W q m Hm) as (L' & HL' & H1 & H2 & H3 & _). assert (L' = L) as -> by congruence. destruct H3 as (_ & X1 & X2 & X3 & _). auto.
Qed.
End Wired.
End FwdProg.
