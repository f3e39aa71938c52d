(** * BuildProofs3: dot products *)
From Verif Require Import Base Num ModelTools ModelOps ModelTensor ModelGraph Spec Denote
  IndexProofs ExecProofs TensorFacts BuildProofs BuildProofs2.
From Coq Require Import Lia ZifyBool ZifyNat ZifyN.

Section Build3.
Context {T : Type} `{Num T}.

(** ** Index manipulation *)
Lemma spread_index_ins (dim : N) (l : list N) (i : N) :
  (N.to_nat dim <= length l)%nat ->
  <[N.to_nat dim := i]> (spread_index dim l) = ins (N.to_nat dim) i l.
Proof.
  intros Hd. set (d := N.to_nat dim) in *.
  set (step := fun (ind : list N) (j : nat) =>
               let x := nth j l 0%N in
               if (N.of_nat j <? dim)%N then <[j := x]> ind else <[S j := x]> ind).
  assert (Hgen : forall j, j <= length l ->
    length (fold_left step (seq 0 j) (replicate (length l + 1) 0%N)) = length l + 1 /\
    forall p, fold_left step (seq 0 j) (replicate (length l + 1) 0%N) !! p =
      if decide (p < length l + 1) then
        Some (if decide (p < d) then (if decide (p < j) then nth p l 0%N else 0%N)
              else if decide (d < p) then (if decide (p <= j) then nth (p - 1) l 0%N else 0%N)
              else 0%N)
      else None).
  { induction j as [|j IH]; intros Hj.
    - cbn. split; [apply replicate_length|]. intros p. case_decide as Hp.
      + rewrite (proj2 (lookup_replicate _ _ _ _) (conj eq_refl Hp)). f_equal.
        repeat case_decide; try lia; reflexivity.
      + apply lookup_ge_None. rewrite replicate_length. lia.
    - destruct (IH ltac:(lia)) as [IHl IHp].
      rewrite seq_S, fold_left_app. cbn [fold_left Nat.add].
      set (r := fold_left step (seq 0 j) (replicate (length l + 1) 0%N)) in *.
      change (step r j) with (if (N.of_nat j <? dim)%N then <[j := nth j l 0%N]> r else <[S j := nth j l 0%N]> r).
      destruct (N.of_nat j <? dim)%N eqn:E.
      + split; [rewrite insert_length; assumption|]. intros p.
        destruct (decide (p = j)) as [->|Hne].
        * rewrite list_lookup_insert by lia.
          repeat case_decide; try lia; reflexivity.
        * rewrite list_lookup_insert_ne by congruence. rewrite IHp.
          repeat case_decide; try lia; reflexivity.
      + split; [rewrite insert_length; assumption|]. intros p.
        destruct (decide (p = S j)) as [->|Hne].
        * rewrite list_lookup_insert by lia.
          repeat case_decide; try lia. f_equal. f_equal. lia.
        * rewrite list_lookup_insert_ne by congruence. rewrite IHp.
          repeat case_decide; try lia; reflexivity. }
  destruct (Hgen (length l) ltac:(lia)) as [Hl Hp].
  change (spread_index dim l) with (fold_left step (seq 0 (length l)) (replicate (length l + 1) 0%N)).
  apply list_eq. intros p. unfold ins.
  destruct (decide (p = d)) as [->|Hne].
  - rewrite list_lookup_insert by lia.
    rewrite lookup_app_r by (rewrite take_length; lia). rewrite take_length.
    replace (d - Nat.min d (length l)) with 0 by lia. reflexivity.
  - rewrite list_lookup_insert_ne by congruence. rewrite Hp.
    destruct (decide (p < d)) as [Hpd|Hpd].
    + rewrite decide_True by lia. rewrite decide_True by lia.
      rewrite lookup_app_l by (rewrite take_length; lia). rewrite lookup_take by lia.
      assert (is_Some (l !! p)) as [x Hx] by (apply lookup_lt_is_Some_2; lia).
      rewrite Hx, (nth_lookup_Some _ _ _ _ Hx). reflexivity.
    + rewrite lookup_app_r by (rewrite take_length; lia). rewrite take_length.
      replace (p - Nat.min d (length l)) with (S (p - d - 1)) by lia.
      change ((i :: drop d l) !! S (p - d - 1)) with (drop d l !! (p - d - 1)).
      rewrite lookup_drop. replace (d + (p - d - 1)) with (p - 1) by lia.
      case_decide.
      * rewrite decide_True by lia. rewrite decide_True by lia.
        assert (is_Some (l !! (p - 1))) as [x Hx] by (apply lookup_lt_is_Some_2; lia).
        rewrite Hx, (nth_lookup_Some _ _ _ _ Hx). reflexivity.
      * symmetry. apply lookup_ge_None. lia.
Qed.

Lemma spread_index_length (dim : N) (l : list N) : length (spread_index dim l) = length l + 1.
Proof.
  unfold spread_index, range. 
  assert (Hgen : forall is acc, length (fold_left (fun (ind : list N) (j : nat) =>
               let x := nth j l 0%N in
               if (N.of_nat j <? dim)%N then <[j := x]> ind else <[S j := x]> ind) is acc) = length acc).
  { induction is as [|j is IH]; intros acc; cbn; [reflexivity|]. rewrite IH.
    destruct (N.of_nat j <? dim)%N; apply insert_length. }
  rewrite Hgen. apply replicate_length.
Qed.

Lemma del_length (d : nat) (l : list N) : d < length l -> length (del d l) = length l - 1.
Proof. intros Hd. unfold del. rewrite app_length, take_length, drop_length. lia. Qed.

Lemma ins_in_range d i l sh n :
  sh !! d = Some n -> (i < n)%N -> Forall2 (fun i s => (i < s)%N) l (del d sh) ->
  Forall2 (fun i s => (i < s)%N) (ins d i l) sh.
Proof.
  intros Hd Hi Hf. pose proof (lookup_lt_Some _ _ _ Hd) as Hlt.
  rewrite <- (take_drop_middle _ _ _ Hd). unfold ins, del in *.
  apply Forall2_app_inv_r in Hf as (l1 & l2 & H1 & H2 & ->).
  assert (Hl1 : length l1 = d) by (rewrite (Forall2_length _ _ _ H1), take_length; lia).
  rewrite take_app_alt by lia. rewrite drop_app_alt by lia.
  apply Forall2_app; [assumption|]. constructor; assumption.
Qed.

Lemma prodN_del d sh n : sh !! d = Some n -> prodN sh = (n * prodN (del d sh))%N.
Proof.
  intros Hd. rewrite <- (take_drop_middle _ _ _ Hd) at 1. unfold del.
  rewrite !prodN_app, prodN_cons. lia.
Qed.

(** ** One block: the products and their sum *)
Definition mul_ops (pa pb : N -> ptr) (base : nat) (is : list N) : list (op T) :=
  imap (fun j i => OMul (Some (base + j)) (pa i) (pb i)) is.

Lemma dot_products_ok ma mb da db (pa pb : N -> ptr) is : forall indA indB mm tn c,
  da < length indA -> db < length indB ->
  (forall i, i ∈ is -> GetOperand ma (<[da := i]> indA) = Ok (pa i)) ->
  (forall i, i ∈ is -> GetOperand mb (<[db := i]> indB) = Ok (pb i)) ->
  dot_products ma mb da db indA indB is (MkSt mm tn c) =
  (Ok (Some (map Some (seq (length mm) (length is)))),
   MkSt (mm ++ replicate (length is) nzero) tn (c ++ mul_ops pa pb (length mm) is)).
Proof.
  induction is as [|i is IH]; intros indA indB mm tn c HA HB Ha Hb; cbn [dot_products].
  - unfold mret, mul_ops. cbn. rewrite !app_nil_r. reflexivity.
  - erewrite mbnd_ok by (apply updM_ok; assumption).
    erewrite mbnd_ok by (apply updM_ok; assumption).
    rewrite (Ha i) by left. erewrite mbnd_ok by reflexivity.
    rewrite (Hb i) by left. erewrite mbnd_ok by reflexivity.
    erewrite mbnd_ok by reflexivity. erewrite mbnd_ok by reflexivity. cbn [mem tens ctx].
    erewrite mbnd_ok.
    2:{ apply IH; rewrite ?insert_length; try assumption;
        intros i' Hi'; rewrite list_insert_insert; [apply Ha|apply Hb]; right; assumption. }
    unfold mret. rewrite app_length. cbn [length]. f_equal.
    + do 2 f_equal. cbn [seq map]. do 3 f_equal. lia.
    + f_equal.
      * rewrite <- app_assoc. reflexivity.
      * rewrite <- app_assoc. f_equal. unfold mul_ops. cbn [imap app]. f_equal.
        -- f_equal. f_equal. lia.
        -- apply imap_ext. intros j x Hx. cbn. f_equal. f_equal. lia.
Qed.

(** The value of one result element, from the pointers. *)
Definition dot_term (pa pb : N -> ptr) (is : list N) (m : list T) : option T :=
  l ← mapM (fun i => x ← rd m (pa i); y ← rd m (pb i); Some (nmul x y)) is; reduce RedSum l.

Definition block_ops (pa pb : N -> ptr) (o base : nat) (is : list N) : list (op T) :=
  mul_ops pa pb base is ++ [OSum (Some o) (map Some (seq base (length is)))].

Lemma mul_ops_dst pa pb base is l : dst_in l (mul_ops pa pb base is) -> base <= l < base + length is.
Proof.
  intros (o & Ho & Hd). unfold mul_ops in Ho. apply elem_of_lookup_imap in Ho as (j & i & -> & Hj).
  cbn in Hd. injection Hd as <-. apply lookup_lt_Some in Hj. lia.
Qed.
Lemma block_ops_dst pa pb o base is l :
  dst_in l (block_ops pa pb o base is) -> l = o \/ base <= l < base + length is.
Proof.
  unfold block_ops. rewrite dst_in_app. intros [Hd|Hd].
  - right. eapply mul_ops_dst; eassumption.
  - apply dst_in_cons in Hd as [[= <-]|Hd]; [auto|]. destruct (dst_in_nil _ Hd).
Qed.

(** Executing one block. *)
Lemma exec_block_ops pa pb o base is (m : list T) :
  (forall i, i ∈ is -> exists l, pa i = Some l /\ l < base) ->
  (forall i, i ∈ is -> exists l, pb i = Some l /\ l < base) ->
  o < length m -> base + length is <= length m ->
  match dot_term pa pb is m with
  | Some v => exists m', exec (block_ops pa pb o base is) m = Some m' /\ m' !! o = Some v
  | None => exec (block_ops pa pb o base is) m = None
  end.
Proof.
  intros Ha Hb Ho Hm. unfold block_ops. rewrite exec_app.
  assert (Hlm : length (mul_ops pa pb base is) = length is) by apply imap_length.
  rewrite (exec_block _ base).
  - assert (E : mapM (fun o0 => op_value o0 m) (mul_ops pa pb base is) =
      mapM (fun i => x ← rd m (pa i); y ← rd m (pb i); Some (nmul x y)) is).
    { unfold mul_ops. clear.
      assert (Hgen : forall f : nat -> ptr, mapM (fun o0 => op_value o0 m)
          (imap (fun j i => OMul (f j) (pa i) (pb i)) is) =
        mapM (fun i => x ← rd m (pa i); y ← rd m (pb i); Some (nmul x y)) is).
      { induction is as [|i is IH]; intros f; [reflexivity|].
        cbn [imap mapM op_value]. rewrite <- (IH (f ∘ S)). reflexivity. }
      apply Hgen. }
    rewrite E. unfold dot_term.
    destruct (mapM _ is) as [vs|] eqn:Evs; cbn [mbind option_bind]; [|reflexivity].
    pose proof (mapM_length _ _ _ Evs) as Hlv.
    cbn [exec cal op_dst op_value].
    rewrite Hlv, rds_inserted by lia. cbn [mbind option_bind].
    change (red_args nadd vs) with (reduce RedSum vs).
    destruct (reduce RedSum vs) as [v|]; cbn [mbind option_bind]; [|reflexivity].
    rewrite wr_Some by (rewrite inserts_length; lia). cbn.
    eexists. split; [reflexivity|]. apply list_lookup_insert. rewrite inserts_length. lia.
  - intros j o0 Hj. unfold mul_ops in Hj. rewrite list_lookup_imap in Hj.
    destruct (is !! j); cbn in Hj; [|discriminate]. injection Hj as <-. reflexivity.
  - intros j o0 l Hj Hl. rewrite Hlm. unfold mul_ops in Hj. rewrite list_lookup_imap in Hj.
    destruct (is !! j) as [i|] eqn:Ei; cbn in Hj; [|discriminate]. injection Hj as <-.
    apply elem_of_list_lookup_2 in Ei.
    destruct (Ha _ Ei) as (la & Ea & Hla). destruct (Hb _ Ei) as (lb & Eb & Hlb).
    cbn in Hl. rewrite Ea, Eb in Hl.
    apply elem_of_cons in Hl as [[= ->]|Hl]; [lia|].
    apply elem_of_list_singleton in Hl. injection Hl as ->. lia.
  - lia.
Qed.

(** ** All blocks *)
Fixpoint blocks (pa pb : nat -> N -> ptr) (b base : nat) (is : list N) (j r : nat) : list (op T) :=
  match r with
  | O => []
  | S r' => block_ops (pa j) (pb j) (b + j) base is ++
            blocks pa pb b (base + length is) is (S j) r'
  end.

Lemma block_ops_length pa pb o base is : length (block_ops pa pb o base is) = length is + 1.
Proof. unfold block_ops, mul_ops. rewrite app_length, imap_length. reflexivity. Qed.
Lemma blocks_length pa pb b is : forall r j base, length (blocks pa pb b base is j r) = r * (length is + 1).
Proof. induction r as [|r IH]; intros j base; cbn [blocks]; [reflexivity|]. rewrite app_length, block_ops_length, IH. lia. Qed.
Lemma blocks_dst pa pb b is : forall r j base l,
  dst_in l (blocks pa pb b base is j r) ->
  b + j <= l < b + j + r \/ base <= l < base + r * length is.
Proof.
  induction r as [|r IH]; intros j base l Hd; cbn [blocks] in Hd.
  - destruct (dst_in_nil _ Hd).
  - apply dst_in_app in Hd as [Hd|Hd].
    + apply block_ops_dst in Hd as [->|Hd]; [lia|]. right. nia.
    + apply IH in Hd. destruct Hd; [lia|]. right. nia.
Qed.

Lemma dot_term_ext pa pb is (m m' : list T) :
  (forall i l, i ∈ is -> pa i = Some l \/ pb i = Some l -> m !! l = m' !! l) ->
  dot_term pa pb is m = dot_term pa pb is m'.
Proof.
  intros Hl. unfold dot_term. f_equal. apply mapM_ext_in. intros i Hi.
  assert (Ha : rd m (pa i) = rd m' (pa i)).
  { destruct (pa i) as [l|] eqn:E; cbn; [|reflexivity]. eapply Hl; eauto. }
  assert (Hb : rd m (pb i) = rd m' (pb i)).
  { destruct (pb i) as [l|] eqn:E; cbn; [|reflexivity]. eapply Hl; eauto. }
  rewrite Ha, Hb. reflexivity.
Qed.

Lemma exec_blocks pa pb b is : forall r j base (m : list T),
  (forall q i, j <= q < j + r -> i ∈ is -> exists l, pa q i = Some l /\ l < b) ->
  (forall q i, j <= q < j + r -> i ∈ is -> exists l, pb q i = Some l /\ l < b) ->
  b + j + r <= base -> base + r * length is <= length m ->
  match mapM (fun q => dot_term (pa q) (pb q) is m) (seq j r) with
  | Some vs => exists m', exec (blocks pa pb b base is j r) m = Some m' /\
      forall q, q < r -> m' !! (b + j + q) = vs !! q
  | None => exec (blocks pa pb b base is j r) m = None
  end.
Proof.
  induction r as [|r IH]; intros j base m Ha Hb Hbase Hm; cbn [seq mapM blocks].
  - exists m. split; [reflexivity|]. lia.
  - rewrite exec_app.
    pose proof (exec_block_ops (pa j) (pb j) (b + j) base is m) as Hx.
    destruct (dot_term (pa j) (pb j) is m) as [v|] eqn:Ev.
    + destruct Hx as (m1 & Hx & Hv).
      { intros i Hi. destruct (Ha j i ltac:(lia) Hi) as (l & El & Hl). exists l. split; [assumption|lia]. }
      { intros i Hi. destruct (Hb j i ltac:(lia) Hi) as (l & El & Hl). exists l. split; [assumption|lia]. }
      { cbn in Hm. lia. }
      { cbn in Hm. lia. }
      rewrite Hx. cbn [mbind option_bind].
      pose proof (exec_length _ _ _ Hx) as Hl1.
      assert (Hext : forall q, S j <= q < S j + r -> dot_term (pa q) (pb q) is m = dot_term (pa q) (pb q) is m1).
      { intros q Hq. apply dot_term_ext. intros i l Hi Hor.
        assert (Hlb : l < b).
        { destruct Hor as [E|E].
          - destruct (Ha q i ltac:(lia) Hi) as (l' & El & Hl). congruence.
          - destruct (Hb q i ltac:(lia) Hi) as (l' & El & Hl). congruence. }
        symmetry. eapply exec_frame; [exact Hx|]. intros Hd. apply block_ops_dst in Hd. lia. }
      specialize (IH (S j) (base + length is) m1).
      rewrite (mapM_ext_in _ (fun q => dot_term (pa q) (pb q) is m1)).
      2:{ intros q Hq. apply elem_of_seq in Hq. apply Hext. lia. }
      assert (IH' := IH ltac:(intros; apply Ha; [lia|assumption]) ltac:(intros; apply Hb; [lia|assumption])
        ltac:(lia) ltac:(cbn in Hm; lia)). clear IH.
      destruct (mapM _ (seq (S j) r)) as [vs|]; cbn [mbind option_bind].
      * destruct IH' as (m' & Hx' & Hv'). exists m'. split; [assumption|].
        intros [|q] Hq.
        -- rewrite Nat.add_0_r. rewrite (exec_frame _ _ _ _ Hx').
           ++ assumption.
           ++ intros Hd. apply blocks_dst in Hd. lia.
        -- cbn [lookup list_lookup]. replace (b + j + S q) with (b + S j + q) by lia. apply Hv'. lia.
      * assumption.
    + rewrite Hx; [reflexivity| | | |].
      { intros i Hi. destruct (Ha j i ltac:(lia) Hi) as (l & El & Hl). exists l. split; [assumption|lia]. }
      { intros i Hi. destruct (Hb j i ltac:(lia) Hi) as (l & El & Hl). exists l. split; [assumption|lia]. }
      { cbn in Hm. lia. }
      { cbn in Hm. lia. }
Qed.

Lemma mfor_blocks (f : nat * ptr -> TM T unit) pa pb b is id k tn mt :
  forall r j bj mm c, bj = b + j ->
  (forall q s mm' c', j <= q < j + r -> s = st_with mm' tn c' id k mt ->
     f (q, Some (b + q)) s = (Ok tt, st_with (mm' ++ replicate (length is) nzero) tn
        (c' ++ block_ops (pa q) (pb q) (b + q) (length mm') is) id k mt)) ->
  mfor (zip (seq j r) (map Some (seq bj r))) f (st_with mm tn c id k mt) =
  (Ok tt, st_with (mm ++ replicate (r * length is) nzero) tn
     (c ++ blocks pa pb b (length mm) is j r) id k mt).
Proof.
  induction r as [|r IH]; intros j bj mm c -> Hf; cbn [seq map zip zip_with mfor blocks].
  - unfold mret. cbn. rewrite !app_nil_r. reflexivity.
  - erewrite mbnd_ok by (apply Hf; [lia|reflexivity]).
    rewrite IH.
    + f_equal. unfold st_with. f_equal.
      * rewrite <- app_assoc, <- replicate_add. f_equal.
      * rewrite <- app_assoc, app_length, replicate_length. reflexivity.
    + lia.
    + intros q s mm' c' Hq. apply Hf. lia.
Qed.

Lemma elem_of_upto n i : i ∈ upto n <-> (i < n)%N.
Proof.
  unfold upto. rewrite elem_of_list_fmap. split.
  - intros (x & -> & Hx). apply elem_of_seq in Hx. lia.
  - intros Hi. exists (N.to_nat i). split; [lia|]. apply elem_of_seq. lia.
Qed.

Lemma build_vector_spec s id k m0 a b ma mb :
  ready s id k m0 -> child s id a ma -> child s id b mb -> shape ma = shape mb -> length (shape ma) = 1 ->
  exists s', build_vector id ma mb s = (Ok tt, s') /\
    own_spec s s' id k [1%N] (fun m => x ← mval m ma; y ← mval m mb; v_dot x y 0 0) /\
    length (ctx s') = length (ctx s) + (length (operands ma) + 1).
Proof.
  intros Hr Hca Hcb Hsh Hlen1. pose proof Hca as (_ & _ & Hwfa). pose proof Hcb as (_ & _ & Hwfb).
  pose proof Hwfa as (Hfa & _ & Hla & Hva). pose proof Hwfb as (Hfb & _ & Hlb & Hvb).
  start Hr.
  set (n := length (operands ma)). set (bb := length (mem s)).
  assert (Hlb2 : length (operands mb) = n) by (unfold n; rewrite Hla, Hlb, Hsh; reflexivity).
  set (pa i := nth (N.to_nat i) (operands ma) None). set (pb i := nth (N.to_nat i) (operands mb) None).
  set (is := upto (N.of_nat n)).
  assert (Hlis : length is = n) by (unfold is; rewrite upto_length; lia).
  assert (Hpa : forall i, i ∈ is -> exists l, pa i = Some l /\ l < bb).
  { intros i Hi. apply elem_of_upto in Hi. unfold pa.
    destruct (child_lookup _ _ _ _ (N.to_nat i) Hca) as (l & Hl & Hlt); [fold n; lia|].
    rewrite (nth_lookup_Some _ _ _ _ Hl). eauto. }
  assert (Hpb : forall i, i ∈ is -> exists l, pb i = Some l /\ l < bb).
  { intros i Hi. apply elem_of_upto in Hi. unfold pb.
    destruct (child_lookup _ _ _ _ (N.to_nat i) Hcb) as (l & Hl & Hlt); [lia|].
    rewrite (nth_lookup_Some _ _ _ _ Hl). eauto. }
  set (s1 := st_with (mem s ++ replicate n nzero ++ [nzero]) (tens s)
    (ctx s ++ block_ops pa pb (bb + n) bb is) id k
    (MkMat [1%N] (GetIndexMul [1%N]) [Some (bb + n)] true)).
  exists s1. split; [|split].
  - enter Hst. unfold build_vector, msize.
    assert (E : (ulen (operands ma) =? ulen (operands mb))%N = true) by (unfold ulen; lia).
    rewrite E. cbn [negb].
    assert (Hloop : forall r j mm c, j + r = n ->
      mmap (seq j r) (fun i => o <~ alloc nzero ; a <~ atM (operands ma) i ; b <~ atM (operands mb) i ;
             push (OMul o a b) ;~ mret o) (st_with mm (tens s) c id k m0) =
      (Ok (map Some (seq (length mm) r)), st_with (mm ++ replicate r nzero) (tens s)
         (c ++ mul_ops pa pb (length mm) (map N.of_nat (seq j r))) id k m0)).
    { induction r as [|r IH]; intros j mm c Hj; cbn [seq mmap].
      - unfold mret, mul_ops. cbn. rewrite !app_nil_r. reflexivity.
      - destruct (child_lookup _ _ _ _ j Hca) as (l & Hl & _); [fold n; lia|].
        destruct (child_lookup _ _ _ _ j Hcb) as (l' & Hl' & _); [lia|].
        erewrite mbnd_ok.
        2:{ erewrite mbnd_ok by reflexivity. erewrite mbnd_ok by (apply atM_ok; exact Hl).
            erewrite mbnd_ok by (apply atM_ok; exact Hl'). reflexivity. }
        cbn [mem tens ctx st_with].
        match goal with |- context [MkSt ?mm (<[id := MkNode k ?m]> _) ?c] =>
          change (MkSt mm (<[id := MkNode k m]> (tens s)) c) with (st_with mm (tens s) c id k m) end.
        erewrite mbnd_ok by (apply IH; lia). unfold mret. rewrite app_length. cbn [length].
        f_equal; [rewrite Nat.add_1_r; reflexivity|].
        unfold st_with. f_equal.
        + rewrite <- app_assoc. reflexivity.
        + rewrite <- app_assoc. f_equal. unfold mul_ops. cbn [map imap app]. f_equal.
          * f_equal; [f_equal; lia| |].
            -- unfold pa. rewrite Nat2N.id, (nth_lookup_Some _ _ _ _ Hl). reflexivity.
            -- unfold pb. rewrite Nat2N.id, (nth_lookup_Some _ _ _ _ Hl'). reflexivity.
          * apply imap_ext. intros q x Hx. cbn. f_equal. f_equal. lia. }
    fold n. unfold range. erewrite mbnd_ok by (apply Hloop; lia).
    erewrite mbnd_ok by reflexivity. erewrite mbnd_ok by reflexivity. cbn [mem tens ctx st_with].
    match goal with |- context [MkSt ?mm (<[id := MkNode k ?m]> _) ?c] =>
      change (MkSt mm (<[id := MkNode k m]> (tens s)) c) with (st_with mm (tens s) c id k m) end.
    erewrite mbnd_ok by (apply set_operands_with; assumption).
    rewrite set_shape_with by assumption. cbn [operands builded]. rewrite Hbuilt.
    unfold s1. f_equal. rewrite app_length, replicate_length. fold bb. unfold st_with. f_equal.
    + rewrite <- app_assoc. reflexivity.
    + rewrite <- app_assoc. unfold block_ops, is, upto. rewrite map_length, seq_length, Nat2N.id. reflexivity.
  - exists (replicate n nzero ++ [nzero]), (block_ops pa pb (bb + n) bb is), [Some (bb + n)], [].
    unfold s1, st_with. cbn [mem ctx tens].
    assert (Hll : length (mem s ++ replicate n nzero ++ [nzero]) = bb + n + 1).
    { rewrite !app_length, replicate_length. cbn. fold bb. lia. }
    rewrite Hll.
    split; [reflexivity|]. split; [reflexivity|]. split; [reflexivity|].
    split; [reflexivity|].
    split. { constructor; [|constructor]. eexists. split; [reflexivity|lia]. }
    split; [intros l Hl; apply block_ops_dst in Hl; fold bb; lia|].
    split; [constructor|].
    intros m Hm _. destruct (mval_Some _ m ma Hwfa) as (da & Eda & Hda); [fold bb; lia|].
    destruct (mval_Some _ m mb Hwfb) as (db & Edb & Hdb); [fold bb; lia|].
    unfold mval. rewrite Eda, Edb. cbn [mbind option_bind].
    destruct (shape ma) as [|n0 [|]] eqn:Esa; try discriminate.
    assert (Hn0 : N.of_nat n = n0). { unfold n. rewrite Hla. cbn. lia. }
    pose proof (exec_block_ops pa pb (bb + n) bb is m Hpa Hpb ltac:(lia) ltac:(lia)) as Hx.
    assert (Et : dot_term pa pb is m =
      (l ← mapM (fun i => x ← at_ [n0] da (ins 0 i []); y ← at_ [n0] db (ins 0 i []); Some (nmul x y)) (upto n0);
       reduce RedSum l)).
    { unfold dot_term. unfold is. rewrite Hn0. f_equal. apply mapM_ext_in. intros i Hi.
      apply elem_of_upto in Hi. unfold ins. cbn [take drop app].
      assert (Hat : forall (dd : list T), at_ [n0] dd [i] = dd !! N.to_nat i).
      { intros dd. unfold at_. cbn [flat]. destruct (i <? n0)%N eqn:E; [|lia]. do 2 f_equal. cbn. lia. }
      rewrite !Hat. rewrite (rds_lookup _ _ _ _ Eda), (rds_lookup _ _ _ _ Edb).
      destruct (child_lookup _ _ _ _ (N.to_nat i) Hca) as (l & Hl & _); [fold n; lia|].
      destruct (child_lookup _ _ _ _ (N.to_nat i) Hcb) as (l' & Hl' & _); [lia|].
      unfold pa, pb. rewrite (nth_lookup_Some _ _ _ _ Hl), (nth_lookup_Some _ _ _ _ Hl'), Hl, Hl'. reflexivity. }
    unfold v_dot, v_dot_with. cbn [vsh vdata lookup list_lookup]. rewrite <- Hsh. cbn [length Nat.eqb andb Nat.sub].
    change (take 0 []) with (@nil N). change (drop 0 []) with (@nil N).
    rewrite <- Et. destruct (dot_term pa pb is m) as [v|]; cbn [mbind option_bind]; [|assumption].
    destruct Hx as (m' & Hx & Hv). exists m'. split; [assumption|]. split; [reflexivity|].
    cbn. rewrite Hv. reflexivity.
  - unfold s1, st_with. cbn [ctx]. rewrite app_length, block_ops_length, Hlis. reflexivity.
Qed.

Lemma build_dot_general s id k m0 a b ma mb (da db : N) n :
  ready s id k m0 -> child s id a ma -> child s id b mb ->
  shape ma !! N.to_nat da = Some n -> shape mb !! N.to_nat db = Some n ->
  ((length (shape ma) =? 1) && (length (shape mb) =? 1)) = false ->
  fits (del (N.to_nat da) (shape ma) ++ del (N.to_nat db) (shape mb)) ->
  exists s', build_dot id a b (Some (da, db)) s = (Ok tt, s') /\
    own_spec s s' id k (del (N.to_nat da) (shape ma) ++ del (N.to_nat db) (shape mb))
      (fun m => x ← mval m ma; y ← mval m mb; v_dot x y (N.to_nat da) (N.to_nat db)) /\
    length (ctx s') = length (ctx s) +
      N.to_nat (prodN (del (N.to_nat da) (shape ma) ++ del (N.to_nat db) (shape mb))) * (N.to_nat n + 1).
Proof.
  intros Hr Hca Hcb Hna Hnb Hnv Hfs. pose proof Hca as (_ & _ & Hwfa). pose proof Hcb as (_ & _ & Hwfb).
  pose proof Hwfa as (Hfa & _ & Hla & Hva). pose proof Hwfb as (Hfb & _ & Hlb & Hvb).
  start Hr.
  pose proof (lookup_lt_Some _ _ _ Hna) as HdA. pose proof (lookup_lt_Some _ _ _ Hnb) as HdB.
  set (sh := del (N.to_nat da) (shape ma) ++ del (N.to_nat db) (shape mb)) in *.
  set (kk := length (shape ma) - 1).
  assert (Hkk : length (del (N.to_nat da) (shape ma)) = kk) by (apply del_length; assumption).
  set (total := N.to_nat (prodN sh)).
  set (is := upto n). set (bb := length (mem s)).
  set (ix q := nth q (indices sh) []).
  set (pa q i := match at_ (shape ma) (operands ma) (ins (N.to_nat da) i (take kk (ix q))) with Some p => p | None => None end).
  set (pb q i := match at_ (shape mb) (operands mb) (ins (N.to_nat db) i (drop kk (ix q))) with Some p => p | None => None end).
  assert (Hix : forall q, q < total -> indices sh !! q = Some (ix q) /\
     Forall2 (fun i s => (i < s)%N) (take kk (ix q)) (del (N.to_nat da) (shape ma)) /\
     Forall2 (fun i s => (i < s)%N) (drop kk (ix q)) (del (N.to_nat db) (shape mb))).
  { intros q Hq. destruct (indices_lookup_total sh q Hq) as [idx Hidx].
    unfold ix. rewrite (nth_lookup_Some _ _ _ _ Hidx). split; [assumption|].
    apply indices_Forall2 in Hidx. unfold sh in Hidx.
    apply Forall2_app_inv_r in Hidx as (l1 & l2 & H1 & H2 & ->).
    pose proof (Forall2_length _ _ _ H1) as Hl1. rewrite Hkk in Hl1.
    rewrite take_app_alt, drop_app_alt by lia. auto. }
  assert (Hpa : forall q i, q < total -> i ∈ is ->
    at_ (shape ma) (operands ma) (ins (N.to_nat da) i (take kk (ix q))) = Some (pa q i) /\
    exists l, pa q i = Some l /\ l < bb).
  { intros q i Hq Hi. apply elem_of_upto in Hi. destruct (Hix q Hq) as (_ & H1 & _).
    destruct (at_child s id a ma _ Hca (ins_in_range _ _ _ _ _ Hna Hi H1)) as (l & E & Hl).
    unfold pa. rewrite E. eauto. }
  assert (Hpb : forall q i, q < total -> i ∈ is ->
    at_ (shape mb) (operands mb) (ins (N.to_nat db) i (drop kk (ix q))) = Some (pb q i) /\
    exists l, pb q i = Some l /\ l < bb).
  { intros q i Hq Hi. apply elem_of_upto in Hi. destruct (Hix q Hq) as (_ & _ & H1).
    destruct (at_child s id b mb _ Hcb (ins_in_range _ _ _ _ _ Hnb Hi H1)) as (l & E & Hl).
    unfold pb. rewrite E. eauto. }
  set (s1 := st_with ((mem s ++ replicate total nzero) ++ replicate (total * length is) nzero) (tens s)
    (ctx s ++ blocks pa pb bb (bb + total) is 0 total) id k
    (MkMat sh (GetIndexMul sh) (map Some (seq bb total)) true)).
  exists s1. split; [|split].
  - enter Hst. unfold build_dot. erewrite mbnd_ok by (eapply get_mat_child; eassumption).
    erewrite mbnd_ok by (eapply get_mat_child; eassumption).
    assert (E : (length (shape ma) =? 0) || (length (shape mb) =? 0) = false) by lia.
    rewrite E. erewrite mbnd_ok by (apply atM_ok; exact Hna).
    erewrite mbnd_ok by (apply atM_ok; exact Hnb).
    rewrite N.eqb_refl. cbn [negb]. rewrite Hnv.
    change (remove_at (N.to_nat da) (shape ma) ++ take (N.to_nat db) (shape mb) ++ drop (S (N.to_nat db)) (shape mb))
      with sh.
    change (length (remove_at (N.to_nat da) (shape ma))) with (length (del (N.to_nat da) (shape ma))). rewrite Hkk.
    erewrite mbnd_ok by (apply set_shape_with; assumption).
    rewrite GetDataSize_fits by assumption. fold total.
    erewrite mbnd_ok by (unfold range; apply mmap_alloc). fold bb.
    match goal with |- context [MkSt ?mm (<[id := MkNode k ?m]> _) ?c] =>
      change (MkSt mm (<[id := MkNode k m]> (tens s)) c) with (st_with mm (tens s) c id k m) end.
    erewrite mbnd_ok by (apply set_operands_with; assumption).
    cbn [shape mulindex operands builded]. rewrite Hbuilt, map_length, seq_length. unfold range.
    rewrite (mfor_blocks _ pa pb bb is _ _ _ _ _ 0); [|lia|].
    + unfold s1. rewrite app_length, replicate_length. reflexivity.
    + intros q s0 mm' c' Hq ->. destruct (Hix q ltac:(lia)) as (Hidx & H1 & H2).
      erewrite mbnd_ok by (unfold mlift; rewrite (ReverseIndex_lookup _ _ _ Hfs Hidx); reflexivity).
      unfold build_last_dim.
      pose proof (Forall2_length _ _ _ H1) as Hl1. pose proof (Forall2_length _ _ _ H2) as Hl2.
      rewrite del_length in Hl1, Hl2 by assumption.
      change (map N.of_nat (seq 0 (N.to_nat n))) with is.
      erewrite mbnd_ok.
      2:{ apply (dot_products_ok ma mb _ _ (pa q) (pb q)).
          - rewrite spread_index_length. lia.
          - rewrite spread_index_length. lia.
          - intros i Hi. rewrite spread_index_ins by lia. eapply GetOperand_at; [exact Hwfa|].
            apply (proj1 (Hpa q i ltac:(lia) Hi)).
          - intros i Hi. rewrite spread_index_ins by lia. eapply GetOperand_at; [exact Hwfb|].
            apply (proj1 (Hpb q i ltac:(lia) Hi)). }
      unfold push. cbn [mem tens ctx]. f_equal. unfold st_with. f_equal.
      unfold block_ops. rewrite <- app_assoc. reflexivity.
  - exists (replicate total nzero ++ replicate (total * length is) nzero),
      (blocks pa pb bb (bb + total) is 0 total), (map Some (seq bb total)), [].
    unfold s1, st_with. cbn [mem ctx tens].
    assert (Hll : length ((mem s ++ replicate total nzero) ++ replicate (total * length is) nzero)
      = bb + total + total * length is).
    { rewrite !app_length, !replicate_length. fold bb. lia. }
    rewrite Hll.
    split; [rewrite app_assoc; reflexivity|]. split; [reflexivity|]. split; [reflexivity|].
    split; [rewrite map_length, seq_length; reflexivity|].
    split.
    { apply Forall_forall. intros p Hp. apply elem_of_list_fmap in Hp as (l & -> & Hl).
      apply elem_of_seq in Hl. exists l. split; [reflexivity|lia]. }
    split; [intros l Hl; apply blocks_dst in Hl; fold bb; lia|].
    split; [constructor|].
    intros m Hm _. destruct (mval_Some _ m ma Hwfa) as (dda & Eda & Hda); [fold bb; lia|].
    destruct (mval_Some _ m mb Hwfb) as (ddb & Edb & Hdb); [fold bb; lia|].
    unfold mval. rewrite Eda, Edb. cbn [mbind option_bind].
    unfold v_dot, v_dot_with. cbn [vsh vdata]. rewrite Hna, Hnv. fold kk. fold sh.
    rewrite (tabulate_range _ _ (fun q => dot_term (pa q) (pb q) is m)).
    2:{ intros q idx Hidx.
        assert (Hq : q < total) by (unfold total; rewrite <- indices_length; eapply lookup_lt_Some; exact Hidx).
        destruct (Hix q Hq) as (Hidx' & _ & _). rewrite Hidx in Hidx'. injection Hidx' as ->.
        unfold dot_term. f_equal. apply mapM_ext_in. intros i Hi.
        rewrite (at_rds m _ _ _ _ Eda), (at_rds m _ _ _ _ Edb).
        rewrite (proj1 (Hpa q i Hq Hi)), (proj1 (Hpb q i Hq Hi)). reflexivity. }
    fold total. unfold range.
    pose proof (exec_blocks pa pb bb is total 0 (bb + total) m) as Hx.
    assert (Hx' := Hx ltac:(intros q i Hq Hi; apply (Hpa q i ltac:(lia) Hi))
      ltac:(intros q i Hq Hi; apply (Hpb q i ltac:(lia) Hi)) ltac:(lia) ltac:(lia)). clear Hx.
    destruct (mapM _ (seq 0 total)) as [vs|] eqn:Evs; cbn [mbind option_bind]; [|assumption].
    destruct Hx' as (m' & Hx & Hv). exists m'. split; [assumption|]. split; [reflexivity|].
    cbn [vdata]. apply mapM_length in Evs. rewrite seq_length in Evs. rewrite Evs. apply rds_seq.
    intros i Hi. rewrite <- (Hv i) by lia. f_equal. lia.
  - unfold s1, st_with. cbn [ctx]. rewrite app_length, blocks_length. unfold is. rewrite upto_length. reflexivity.
Qed.

Lemma build_dot_spec_len s id k m0 a b ma mb (dims : option (N * N)) da db sh :
  ready s id k m0 -> child s id a ma -> child s id b mb ->
  (da, db) = match dims with
             | Some (x, y) => (N.to_nat x, N.to_nat y)
             | None => (length (shape ma) - 1, default_db (shape mb))
             end ->
  dot_shape (shape ma) (shape mb) da db = Some sh ->
  exists s', build_dot id a b dims s = (Ok tt, s') /\
    own_spec s s' id k sh
      (fun m => x ← mval m ma; y ← mval m mb; v_dot x y da db) /\
    length (ctx s') = length (ctx s) + N.to_nat (prodN sh) * (N.to_nat (nth da (shape ma) 0%N) + 1).
Proof.
  intros Hr Hca Hcb Hdims Hds. unfold dot_shape in Hds.
  destruct (shape ma !! da) as [na|] eqn:Hna; [|discriminate].
  destruct (shape mb !! db) as [nb|] eqn:Hnb; [|discriminate].
  destruct (na =? nb)%N eqn:Enn; [|discriminate]. apply N.eqb_eq in Enn as ->.
  pose proof (lookup_lt_Some _ _ _ Hna) as HdA. pose proof (lookup_lt_Some _ _ _ Hnb) as HdB.
  assert (Hred : exists dA dB, N.to_nat dA = da /\ N.to_nat dB = db /\
    build_dot id a b dims s = build_dot id a b (Some (dA, dB)) s).
  { destruct dims as [[x y]|]; injection Hdims as -> ->.
    - exists x, y. auto.
    - exists (ulen (shape ma) - 1)%N, (if (0 <? ulen (shape mb) - 1) then (ulen (shape mb) - 1 - 1) else (ulen (shape mb) - 1))%N.
      split; [unfold ulen; lia|]. split.
      { unfold ulen, default_db. destruct (0 <? N.of_nat (length (shape mb)) - 1)%N eqn:E; lia. }
      destruct Hr as [Hi Hb0]. rewrite (state_with s id k m0 Hi). unfold build_dot.
      erewrite mbnd_ok by (eapply get_mat_child; eassumption).
      erewrite mbnd_ok by (eapply get_mat_child; eassumption).
      erewrite (mbnd_ok (get_mat a)) by (eapply get_mat_child; eassumption).
      erewrite (mbnd_ok (get_mat b)) by (eapply get_mat_child; eassumption).
      reflexivity. }
  destruct Hred as (dA & dB & <- & <- & ->). clear Hdims.
  destruct ((length (shape ma) =? 1) && (length (shape mb) =? 1)) eqn:Ev.
  - injection Hds as <-.
    assert (Hla : length (shape ma) = 1) by lia. assert (Hlb : length (shape mb) = 1) by lia.
    destruct (shape ma) as [|x [|]] eqn:Ea; try discriminate.
    destruct (shape mb) as [|y [|]] eqn:Eb; try discriminate.
    cbn in HdA, HdB. assert (N.to_nat dA = 0) as E0 by lia. assert (N.to_nat dB = 0) as E0' by lia.
    rewrite E0, E0' in *. cbn in Hna, Hnb. injection Hna as ->. injection Hnb as ->.
    destruct (build_vector_spec s id k m0 a b ma mb Hr Hca Hcb) as (s' & Hs' & Ho & Hlc); [congruence|rewrite Ea; reflexivity|].
    exists s'. split; [|split; [assumption|]].
    2:{ rewrite Hlc. pose proof (proj1 (proj2 (proj2 (proj2 (proj2 Hca))))) as Hop. rewrite Ea in Hop. rewrite Hop. cbn. lia. }
    pose proof Hr as Hr'. start Hr'. rewrite Hst in Hs' |- * at 1. unfold build_dot.
    erewrite mbnd_ok by (eapply get_mat_child; eassumption).
    erewrite mbnd_ok by (eapply get_mat_child; eassumption).
    rewrite Ea, Eb. cbn [length Nat.eqb orb]. rewrite E0, E0'.
    erewrite mbnd_ok by reflexivity. erewrite mbnd_ok by reflexivity.
    rewrite N.eqb_refl. cbn [negb andb]. exact Hs'.
  - apply fit_Some in Hds as [-> Hfs]. rewrite (nth_lookup_Some _ _ _ _ Hna). eapply build_dot_general; eassumption.
Qed.

Lemma build_dot_spec s id k m0 a b ma mb (dims : option (N * N)) da db sh :
  ready s id k m0 -> child s id a ma -> child s id b mb ->
  (da, db) = match dims with
             | Some (x, y) => (N.to_nat x, N.to_nat y)
             | None => (length (shape ma) - 1, default_db (shape mb))
             end ->
  dot_shape (shape ma) (shape mb) da db = Some sh ->
  exists s', build_dot id a b dims s = (Ok tt, s') /\
    own_spec s s' id k sh
      (fun m => x ← mval m ma; y ← mval m mb; v_dot x y da db).
Proof.
  intros Hr Hca Hcb Hdims Hds.
  destruct (build_dot_spec_len s id k m0 a b ma mb dims da db sh Hr Hca Hcb Hdims Hds) as (s' & Hs' & Ho & _). eauto.
Qed.
End Build3.
