(** * EagerDot: eager dot products *)
From Verif Require Import Base Num ModelTools ModelOps ModelTensor Spec Denote ObjSpec
  IndexProofs ExecProofs TensorFacts BuildProofs BuildProofs2 BuildProofs3 EagerProofs AccessProofs EagerOps EagerOps2.
From Coq Require Import Lia ZifyBool ZifyNat ZifyN.

Section EagerDot.
Context {T : Type} `{Num T}.

Lemma dot_loop_ok (mp mm : tmat) l d1 d2 (pa pb : N -> ptr) (xa xb : N -> T) is : forall indA indB (s1 : tst T) acc,
  mem s1 !! l = Some acc -> d1 < length indA -> d2 < length indB ->
  (forall i, i ∈ is -> GetOperand mp (<[d1 := i]> indA) = Ok (pa i) /\ rd (mem s1) (pa i) = Some (xa i) /\ pa i <> Some l) ->
  (forall i, i ∈ is -> GetOperand mm (<[d2 := i]> indB) = Ok (pb i) /\ rd (mem s1) (pb i) = Some (xb i) /\ pb i <> Some l) ->
  dot_loop mp mm (Some l) d1 d2 indA indB is s1 =
  (Ok tt, MkSt (<[l := fold_left nadd (map (fun i => nmul (xa i) (xb i)) is) acc]> (mem s1)) (tens s1) (ctx s1)).
Proof.
  induction is as [|i is IH]; intros indA indB s1 acc Hl HA HB Ha Hb; cbn [dot_loop].
  - cbn. rewrite list_insert_id by assumption. destruct s1; reflexivity.
  - destruct (Ha i ltac:(left)) as (Ga & Ra & Na). destruct (Hb i ltac:(left)) as (Gb & Rb & Nb).
    erewrite mbnd_ok by (apply updM_ok; assumption). erewrite mbnd_ok by (apply updM_ok; assumption).
    rewrite Ga. erewrite mbnd_ok by reflexivity. rewrite Gb. erewrite mbnd_ok by reflexivity.
    erewrite mbnd_ok by (apply rdM_ok; exact Hl). erewrite mbnd_ok by (apply rdM_ok; exact Ra).
    erewrite mbnd_ok by (apply rdM_ok; exact Rb).
    assert (Hlt : l < length (mem s1)) by (eapply lookup_lt_Some; exact Hl).
    erewrite mbnd_ok by (unfold wrM; rewrite (wr_Some _ _ _ Hlt); reflexivity).
    assert (Hrd : forall p x, rd (mem s1) p = Some x -> p <> Some l ->
      forall y, rd (<[l := y]> (mem s1)) p = Some x).
    { intros [p|] x Hx Hne y; [|discriminate]. cbn in Hx |- *. rewrite list_lookup_insert_ne by congruence. exact Hx. }
    rewrite (IH _ _ _ (nadd acc (nmul (xa i) (xb i)))); cbn [mem tens ctx].
    + rewrite list_insert_insert. reflexivity.
    + apply list_lookup_insert. exact Hlt.
    + rewrite insert_length. exact HA.
    + rewrite insert_length. exact HB.
    + intros j Hj. rewrite list_insert_insert. destruct (Ha j ltac:(right; exact Hj)) as (G & R & N0).
      split; [exact G|]. split; [apply Hrd; assumption|exact N0].
    + intros j Hj. rewrite list_insert_insert. destruct (Hb j ltac:(right; exact Hj)) as (G & R & N0).
      split; [exact G|]. split; [apply Hrd; assumption|exact N0].
Qed.

(** The outer loop: one accumulator after the other. *)
Lemma mfor_accumulate (body : nat * ptr -> TM T unit) (vals : nat -> T) (s : tst T) total : forall r j,
  j + r = total ->
  (forall q s1 ext, q < total -> mem s1 = mem s ++ ext -> tens s1 = tens s -> ctx s1 = ctx s ->
     mem s1 !! (length (mem s) + q) = Some nzero ->
     body (q, Some (length (mem s) + q)) s1 =
     (Ok tt, MkSt (<[length (mem s) + q := vals q]> (mem s1)) (tens s1) (ctx s1))) ->
  mfor (zip (seq j r) (map Some (seq (length (mem s) + j) r))) body
    (MkSt (mem s ++ map vals (seq 0 j) ++ replicate r nzero) (tens s) (ctx s)) =
  (Ok tt, MkSt (mem s ++ map vals (seq 0 total)) (tens s) (ctx s)).
Proof.
  induction r as [|r IH]; intros j Hj Hb.
  - cbn [seq map zip_with mfor replicate]. rewrite app_nil_r. replace total with j by lia. reflexivity.
  - cbn [seq map zip_with mfor].
    set (b := length (mem s)).
    assert (Hlv : length (map vals (seq 0 j)) = j) by (rewrite map_length, seq_length; reflexivity).
    erewrite mbnd_ok.
    2:{ eapply Hb; cbn [mem tens ctx]; try reflexivity; [lia|].
        fold b. rewrite lookup_app_r by (unfold b; lia). replace (b + j - length (mem s)) with j by (unfold b; lia).
        rewrite lookup_app_r by lia. rewrite Hlv, Nat.sub_diag. reflexivity. }
    cbn [mem tens ctx]. fold b.
    replace (<[b + j := vals j]> (mem s ++ map vals (seq 0 j) ++ replicate (S r) nzero))
      with (mem s ++ map vals (seq 0 (S j)) ++ replicate r nzero).
    + replace (S (b + j)) with (b + S j) by lia. unfold b. apply IH; [lia|exact Hb].
    + unfold b. rewrite insert_app_r. f_equal.
      replace j with (length (map vals (seq 0 j)) + 0) at 2 by lia. rewrite insert_app_r. cbn [replicate].
      rewrite seq_S, map_app. cbn [map]. rewrite <- app_assoc. reflexivity.
Qed.

Theorem Mat_DotAt_general (s : tst T) p q v u (da db : N) n :
  holds s p v -> holds s q u ->
  vsh v !! N.to_nat da = Some n -> vsh u !! N.to_nat db = Some n ->
  ((length (vsh v) =? 1) && (length (vsh u) =? 1)) = false ->
  fits (del (N.to_nat da) (vsh v) ++ del (N.to_nat db) (vsh u)) ->
  exists w, v_dot_with reduce0 v u (N.to_nat da) (N.to_nat db) = Some w /\ returns_new s (Mat_DotAt p q da db s) w.
Proof.
  intros Hp Hq Hna Hnb Hnv Hfs. destruct (holds_exists _ _ _ Hp) as [np Hn]. destruct (holds_exists _ _ _ Hq) as [nq Hn'].
  destruct (holds_data _ _ _ _ Hp Hn) as (Hs1 & Hd1 & Hwf1 & Hc1 & Hl1 & Hf1).
  destruct (holds_data _ _ _ _ Hq Hn') as (Hs2 & Hd2 & Hwf2 & Hc2 & Hl2 & Hf2).
  pose proof Hwf1 as (_ & _ & Ho1 & Hv1). pose proof Hwf2 as (_ & _ & Ho2 & Hv2). rewrite Hs1 in Ho1. rewrite Hs2 in Ho2.
  pose proof (lookup_lt_Some _ _ _ Hna) as HdA. pose proof (lookup_lt_Some _ _ _ Hnb) as HdB.
  set (sh := del (N.to_nat da) (vsh v) ++ del (N.to_nat db) (vsh u)) in *.
  set (kk := length (vsh v) - 1).
  assert (Hkk : length (del (N.to_nat da) (vsh v)) = kk) by (apply del_length; assumption).
  set (total := N.to_nat (prodN sh)).
  set (is := upto n). set (b := length (mem s)).
  set (ix r := nth r (indices sh) []).
  set (pa r i := match at_ (vsh v) (operands (nmat np)) (ins (N.to_nat da) i (take kk (ix r))) with Some o => o | None => None end).
  set (pb r i := match at_ (vsh u) (operands (nmat nq)) (ins (N.to_nat db) i (drop kk (ix r))) with Some o => o | None => None end).
  set (xa r i := match rd (mem s) (pa r i) with Some x => x | None => nzero end).
  set (xb r i := match rd (mem s) (pb r i) with Some x => x | None => nzero end).
  assert (Hix : forall r, r < total -> indices sh !! r = Some (ix r) /\
     Forall2 (fun i s => (i < s)%N) (take kk (ix r)) (del (N.to_nat da) (vsh v)) /\
     Forall2 (fun i s => (i < s)%N) (drop kk (ix r)) (del (N.to_nat db) (vsh u))).
  { intros r Hr. destruct (indices_lookup_total sh r Hr) as [idx Hidx].
    unfold ix. rewrite (nth_lookup_Some _ _ _ _ Hidx). split; [assumption|].
    apply indices_Forall2 in Hidx. unfold sh in Hidx.
    apply Forall2_app_inv_r in Hidx as (l1 & l2 & H1 & H2 & ->).
    pose proof (Forall2_length _ _ _ H1) as Hl1'. rewrite Hkk in Hl1'.
    rewrite take_app_alt, drop_app_alt by lia. auto. }
  assert (Hpa : forall r i, r < total -> i ∈ is ->
    GetOperand (nmat np) (ins (N.to_nat da) i (take kk (ix r))) = Ok (pa r i) /\
    at_ (vsh v) (vdata v) (ins (N.to_nat da) i (take kk (ix r))) = Some (xa r i) /\
    rd (mem s) (pa r i) = Some (xa r i) /\ exists l, pa r i = Some l /\ l < b).
  { intros r i Hr Hi. apply elem_of_upto in Hi. destruct (Hix r Hr) as (_ & H1 & _).
    destruct (at_holds _ _ _ _ Hp (ins_in_range _ _ _ _ _ Hna Hi H1)) as [x Hx].
    destruct (read_at _ _ _ _ _ _ Hp Hn Hx) as (o & Hat & Hg & Hrd). rewrite Hs1 in Hat.
    unfold xa, pa. rewrite Hat, Hrd, Hx, Hg. split; [reflexivity|]. split; [reflexivity|]. split; [first [reflexivity|assumption]|].
    destruct (at_valid _ _ _ _ _ Hv1 Hat) as (l & -> & Hlt). eauto. }
  assert (Hpb : forall r i, r < total -> i ∈ is ->
    GetOperand (nmat nq) (ins (N.to_nat db) i (drop kk (ix r))) = Ok (pb r i) /\
    at_ (vsh u) (vdata u) (ins (N.to_nat db) i (drop kk (ix r))) = Some (xb r i) /\
    rd (mem s) (pb r i) = Some (xb r i) /\ exists l, pb r i = Some l /\ l < b).
  { intros r i Hr Hi. apply elem_of_upto in Hi. destruct (Hix r Hr) as (_ & _ & H1).
    destruct (at_holds _ _ _ _ Hq (ins_in_range _ _ _ _ _ Hnb Hi H1)) as [x Hx].
    destruct (read_at _ _ _ _ _ _ Hq Hn' Hx) as (o & Hat & Hg & Hrd). rewrite Hs2 in Hat.
    unfold xb, pb. rewrite Hat, Hrd, Hx, Hg. split; [reflexivity|]. split; [reflexivity|]. split; [first [reflexivity|assumption]|].
    destruct (at_valid _ _ _ _ _ Hv2 Hat) as (l & -> & Hlt). eauto. }
  set (vals r := fold_left nadd (map (fun i => nmul (xa r i) (xb r i)) is) nzero).
  exists (V sh (map vals (seq 0 total))). split.
  { unfold v_dot_with. rewrite Hna, Hnv. fold kk. fold sh.
    rewrite (tabulate_range _ _ (fun r => Some (vals r))).
    - rewrite mapM_pure. reflexivity.
    - intros r idx Hidx.
      assert (Hr : r < total) by (unfold total; rewrite <- indices_length; eapply lookup_lt_Some; exact Hidx).
      destruct (Hix r Hr) as (Hidx' & _ & _). rewrite Hidx in Hidx'. injection Hidx' as ->. fold is.
      rewrite (mapM_ext_in _ (fun i => Some (nmul (xa r i) (xb r i)))).
      + rewrite mapM_pure. reflexivity.
      + intros i Hi. destruct (Hpa r i Hr Hi) as (_ & -> & _). destruct (Hpb r i Hr Hi) as (_ & -> & _). reflexivity. }
  unfold Mat_DotAt. erewrite mbnd_ok by (eapply get_mat_ok; exact Hn). erewrite mbnd_ok by (eapply get_mat_ok; exact Hn').
  rewrite Hs1, Hs2.
  assert (E : (length (vsh v) =? 0) || (length (vsh u) =? 0) = false) by lia.
  rewrite E. erewrite mbnd_ok by (apply atM_ok; exact Hna). erewrite mbnd_ok by (apply atM_ok; exact Hnb).
  rewrite N.eqb_refl. cbn [negb]. rewrite Hnv.
  change (remove_at (N.to_nat da) (vsh v) ++ take (N.to_nat db) (vsh u) ++ drop (S (N.to_nat db)) (vsh u)) with sh.
  change (length (remove_at (N.to_nat da) (vsh v))) with (length (del (N.to_nat da) (vsh v))). rewrite Hkk.
  rewrite GetDataSize_fits by assumption. fold total.
  destruct s as [ms ts cs]. cbn [mem tens ctx] in *.
  erewrite mbnd_ok by (unfold range; apply mmap_alloc). rewrite map_length, seq_length.
  pose proof (mfor_accumulate (fun io =>
        let '(i, o) := io in
        idx <~ mlift (ReverseIndex (GetIndexMul sh) sh (N.of_nat i)) ;
        dot_loop (nmat np) (nmat nq) o (N.to_nat da) (N.to_nat db) (spread_index da (take kk idx))
          (spread_index db (drop kk idx)) (map N.of_nat (range (N.to_nat n)))) vals (MkSt ms ts cs) total total 0 eq_refl) as Hm.
  cbn [mem tens ctx map seq app] in Hm. rewrite Nat.add_0_r in Hm.
  erewrite mbnd_ok.
  2:{ unfold range. apply Hm. clear Hm. intros r s1 ext Hr He Ht Hc Hz.
      destruct (Hix r Hr) as (Hidx & H1 & H2).
      erewrite mbnd_ok by (unfold mlift; rewrite (ReverseIndex_lookup _ _ _ Hfs Hidx); reflexivity).
      pose proof (Forall2_length _ _ _ H1) as Hl1'. pose proof (Forall2_length _ _ _ H2) as Hl2'.
      rewrite del_length in Hl1', Hl2' by assumption.
      change (map N.of_nat (seq 0 (N.to_nat n))) with is. fold b.
      apply (dot_loop_ok _ _ _ _ _ (pa r) (pb r) (xa r) (xb r)); [exact Hz| | | |].
      - rewrite spread_index_length. lia.
      - rewrite spread_index_length. lia.
      - intros i Hi. rewrite spread_index_ins by lia. destruct (Hpa r i Hr Hi) as (Hg & _ & Hrd & l & Hl & Hlt).
        split; [exact Hg|]. split; [rewrite He; apply rd_app; exact Hrd|]. rewrite Hl. intros [= ->]. unfold b in Hlt. lia.
      - intros i Hi. rewrite spread_index_ins by lia. destruct (Hpb r i Hr Hi) as (Hg & _ & Hrd & l & Hl & Hlt).
        split; [exact Hg|]. split; [rewrite He; apply rd_app; exact Hrd|]. rewrite Hl. intros [= ->]. unfold b in Hlt. lia. }
  pose proof (new_tensor (MkSt ms ts cs) sh (map vals (seq 0 total)) Hfs) as Hnt.
  rewrite map_length, seq_length in Hnt. cbn [mem tens ctx] in Hnt. apply Hnt. reflexivity.
Qed.

Theorem Mat_DotVector_spec (s : tst T) p q v u :
  holds s p v -> holds s q u -> vsh v = vsh u -> length (vsh v) = 1 ->
  exists w, v_dot_with reduce0 v u 0 0 = Some w /\ returns_new s (Mat_DotVector p q s) w.
Proof.
  intros Hp Hq Hsh H1. destruct (holds_exists _ _ _ Hp) as [np Hn]. destruct (holds_exists _ _ _ Hq) as [nq Hn'].
  destruct (holds_data _ _ _ _ Hp Hn) as (Hs1 & Hd1 & Hwf1 & Hc1 & Hl1 & Hf1).
  destruct (holds_data _ _ _ _ Hq Hn') as (Hs2 & Hd2 & Hwf2 & Hc2 & Hl2 & Hf2).
  pose proof Hwf1 as (_ & _ & Ho1 & Hv1). pose proof Hwf2 as (_ & _ & Ho2 & Hv2). rewrite Hs1 in Ho1. rewrite Hs2 in Ho2.
  set (prods := zip_with nmul (vdata v) (vdata u)).
  assert (Hlp : length prods = length (operands (nmat np))).
  { unfold prods. rewrite zip_with_length, Hl1, Hl2, Ho1, Hsh. lia. }
  assert (Hg : mapM (fun i => x ← vdata v !! i; y ← vdata u !! i; Some (nmul x y)) (seq 0 (length (operands (nmat np)))) = Some prods).
  { apply mapM_Some. apply Forall2_same_length_lookup_2; [rewrite seq_length; congruence|].
    intros i j z Hi Hz. apply lookup_seq in Hi as [-> Hi]. unfold prods in Hz. rewrite lookup_zip_with in Hz.
    cbn. destruct (vdata v !! i); cbn in *; [|discriminate]. destruct (vdata u !! i); cbn in *; [|discriminate]. exact Hz. }
  exists (V [1%N] [sum0 prods]). split.
  - unfold v_dot_with. destruct v as [sv dv], u as [su du]. cbn [vsh vdata] in *. subst su.
    destruct sv as [|n0 [|]]; try discriminate. cbn [lookup list_lookup length Nat.eqb andb Nat.sub].
    change (take 0 []) with (@nil N). change (drop 0 []) with (@nil N).
    assert (Ef : mapM (fun i => x ← at_ [n0] dv (ins 0 i []); y ← at_ [n0] du (ins 0 i []); Some (nmul x y)) (upto n0) = Some prods).
    { rewrite <- Hg. unfold upto. rewrite Ho1. change (prodN [n0]) with (n0 * 1)%N. rewrite N.mul_1_r.
      rewrite (mapM_bind (fun i => Some (N.of_nat i)) _ (seq 0 (N.to_nat n0))) by apply mapM_pure.
      apply mapM_ext_in. intros i Hi. apply elem_of_seq in Hi. cbn [mbind option_bind]. unfold ins. cbn [take drop app].
      assert (Hat : forall dd : list T, at_ [n0] dd [N.of_nat i] = dd !! i).
      { intros dd. unfold at_. cbn [flat]. destruct (N.of_nat i <? n0)%N eqn:E; [|lia]. f_equal. cbn. lia. }
      rewrite !Hat. reflexivity. }
    rewrite Ef. reflexivity.
  - unfold Mat_DotVector. erewrite mbnd_ok by (eapply get_mat_ok; exact Hn). erewrite mbnd_ok by (eapply get_mat_ok; exact Hn').
    unfold msize, ulen. rewrite Ho1, Ho2, Hsh, N.eqb_refl. cbn [negb].
    pose proof (mmap_fresh (seq 0 (length (operands (nmat np)))) (fun i =>
             a <~ atM (operands (nmat np)) i ; x <~ rdM a ;
             b <~ atM (operands (nmat nq)) i ; y <~ rdM b ;
             alloc (nmul x y)) (fun i => x ← vdata v !! i; y ← vdata u !! i; Some (nmul x y)) s s) as Hm.
    rewrite Hg in Hm. unfold range. rewrite <- Hsh, <- Ho1.
    erewrite mbnd_ok.
    2:{ apply Hm; [exists []; rewrite app_nil_r; reflexivity|reflexivity|reflexivity|]. clear Hm.
        intros i s1 Hi [ext He] _ _. apply elem_of_seq in Hi.
        destruct (lookup_lt_is_Some_2 (vdata v) i) as [x Hx]; [rewrite Hl1, <- Ho1; lia|].
        destruct (lookup_lt_is_Some_2 (vdata u) i) as [y Hy]; [rewrite Hl2, <- Hsh, <- Ho1; lia|].
        rewrite Hx, Hy. cbn [mbind option_bind].
        rewrite (rds_lookup _ _ _ i Hd1) in Hx. rewrite (rds_lookup _ _ _ i Hd2) in Hy.
        destruct (operands (nmat np) !! i) as [a|] eqn:Ea; [|discriminate].
        destruct (operands (nmat nq) !! i) as [b|] eqn:Eb; [|discriminate]. cbn in Hx, Hy.
        erewrite mbnd_ok by (apply atM_ok; exact Ea). erewrite mbnd_ok by (eapply rdM_grown; eassumption).
        erewrite mbnd_ok by (apply atM_ok; exact Eb). erewrite mbnd_ok by (eapply rdM_grown; eassumption). reflexivity. }
    erewrite mbnd_ok by (apply read_all; cbn [mem]; apply rds_new).
    erewrite mbnd_ok by reflexivity. cbn [mem tens ctx].
    pose proof (new_tensor (MkSt (mem s ++ prods) (tens s) (ctx s)) [1%N] [tools_Sum prods]) as Hnt.
    assert (Hf : fits [1%N]) by (split; [constructor; [reflexivity|constructor]|reflexivity]).
    destruct (Hnt Hf eq_refl) as (s' & ext & ops & E & Em & Ec & Et & Eh & End & Efr).
    exists s', (prods ++ ext), ops. cbn [mem tens ctx] in *. split; [exact E|].
    split; [rewrite Em, app_assoc; reflexivity|]. split; [assumption|]. split; [assumption|]. split; [assumption|].
    split; [assumption|]. eapply Forall_impl; [exact Efr|]. intros x (l & -> & Hl). exists l. split; [reflexivity|].
    rewrite app_length in Hl. lia.
Qed.

Theorem Mat_DotAt_spec (s : tst T) p q v u (da db : N) sh :
  holds s p v -> holds s q u -> dot_shape (vsh v) (vsh u) (N.to_nat da) (N.to_nat db) = Some sh ->
  exists w, v_dot_with reduce0 v u (N.to_nat da) (N.to_nat db) = Some w /\ vsh w = sh /\
    returns_new s (Mat_DotAt p q da db s) w.
Proof.
  intros Hp Hq Hds. unfold dot_shape in Hds.
  destruct (vsh v !! N.to_nat da) as [na|] eqn:Hna; [|discriminate].
  destruct (vsh u !! N.to_nat db) as [nb|] eqn:Hnb; [|discriminate].
  destruct (na =? nb)%N eqn:Enn; [|discriminate]. apply N.eqb_eq in Enn as ->.
  destruct ((length (vsh v) =? 1) && (length (vsh u) =? 1)) eqn:Ev.
  - injection Hds as <-.
    assert (Hlv : length (vsh v) = 1) by lia. assert (Hlu : length (vsh u) = 1) by lia.
    pose proof (lookup_lt_Some _ _ _ Hna). pose proof (lookup_lt_Some _ _ _ Hnb).
    assert (E0 : N.to_nat da = 0) by lia. assert (E1 : N.to_nat db = 0) by lia.
    assert (Hsh : vsh v = vsh u).
    { rewrite E0 in Hna. rewrite E1 in Hnb. destruct (vsh v) as [|x [|]]; try discriminate.
      destruct (vsh u) as [|y [|]]; try discriminate. cbn in *. congruence. }
    destruct (Mat_DotVector_spec s p q v u Hp Hq Hsh Hlv) as (w & Hw & Hr). rewrite E0, E1.
    exists w. split; [assumption|]. split.
    { unfold v_dot_with in Hw. rewrite E0 in Hna. rewrite Hna, Ev in Hw.
      repeat match type of Hw with (match ?x with _ => _ end = _) => destruct x; cbn in Hw; try discriminate
        | (?x ≫= _) = _ => destruct x; cbn in Hw; try discriminate end. injection Hw as <-. reflexivity. }
    destruct (holds_exists _ _ _ Hp) as [np Hn]. destruct (holds_exists _ _ _ Hq) as [nq Hn'].
    destruct (holds_data _ _ _ _ Hp Hn) as (Hs1 & _). destruct (holds_data _ _ _ _ Hq Hn') as (Hs2 & _).
    unfold Mat_DotAt. erewrite mbnd_ok by (eapply get_mat_ok; exact Hn). erewrite mbnd_ok by (eapply get_mat_ok; exact Hn').
    rewrite Hs1, Hs2, Hlv, Hlu. cbn [Nat.eqb orb andb].
    erewrite mbnd_ok by (apply atM_ok; exact Hna). erewrite mbnd_ok by (apply atM_ok; exact Hnb).
    rewrite N.eqb_refl. cbn [negb]. exact Hr.
  - apply fit_Some in Hds as [-> Hfs].
    destruct (Mat_DotAt_general s p q v u da db nb Hp Hq Hna Hnb Ev Hfs) as (w & Hw & Hr).
    exists w. split; [assumption|]. split; [|assumption].
    unfold v_dot_with in Hw. rewrite Hna, Ev in Hw. unfold tabulate in Hw. destruct (mapM _ _); [|discriminate].
    injection Hw as <-. reflexivity.
Qed.

Theorem Mat_DotAt_refuses (s : tst T) p q v u (da db : N) na nb :
  holds s p v -> holds s q u ->
  vsh v !! N.to_nat da = Some na -> vsh u !! N.to_nat db = Some nb -> na <> nb ->
  refuses s (Mat_DotAt p q da db s).
Proof.
  intros Hp Hq Hna Hnb Hne. destruct (holds_exists _ _ _ Hp) as [np Hn]. destruct (holds_exists _ _ _ Hq) as [nq Hn'].
  destruct (holds_data _ _ _ _ Hp Hn) as (Hs1 & _). destruct (holds_data _ _ _ _ Hq Hn') as (Hs2 & _).
  eexists. unfold Mat_DotAt. erewrite mbnd_ok by (eapply get_mat_ok; exact Hn). erewrite mbnd_ok by (eapply get_mat_ok; exact Hn').
  pose proof (lookup_lt_Some _ _ _ Hna). pose proof (lookup_lt_Some _ _ _ Hnb).
  rewrite Hs1, Hs2. assert (E : (length (vsh v) =? 0) || (length (vsh u) =? 0) = false) by lia. rewrite E.
  erewrite mbnd_ok by (apply atM_ok; exact Hna). erewrite mbnd_ok by (apply atM_ok; exact Hnb).
  destruct (N.eqb_spec na nb); [contradiction|]. reflexivity.
Qed.

Theorem Mat_Dot_is_DotAt (s : tst T) p q v u :
  holds s p v -> holds s q u -> vsh v <> [] -> vsh u <> [] -> (N.of_nat (length (vsh v)) < W64)%N -> (N.of_nat (length (vsh u)) < W64)%N ->
  Mat_Dot p q s = Mat_DotAt p q (N.of_nat (length (vsh v) - 1)) (N.of_nat (default_db (vsh u))) s.
Proof.
  intros Hp Hq Hv Hu Hlv Hlu. destruct (holds_exists _ _ _ Hp) as [np Hn]. destruct (holds_exists _ _ _ Hq) as [nq Hn'].
  destruct (holds_data _ _ _ _ Hp Hn) as (Hs1 & _). destruct (holds_data _ _ _ _ Hq Hn') as (Hs2 & _).
  unfold Mat_Dot. erewrite mbnd_ok by (eapply get_mat_ok; exact Hn). erewrite mbnd_ok by (eapply get_mat_ok; exact Hn').
  rewrite Hs1, Hs2. destruct (vsh v) as [|x sv] eqn:Ev; [congruence|]. destruct (vsh u) as [|y su] eqn:Eu; [congruence|].
  unfold ulen, default_db. rewrite (usub_small (N.of_nat (length (x :: sv)))) by (cbn [length] in *; lia).
  rewrite (usub_small (N.of_nat (length (y :: su)))) by (cbn [length] in *; lia).
  cbn [length] in *.
  replace (N.of_nat (S (length sv)) - 1)%N with (N.of_nat (S (length sv) - 1)) by lia.
  destruct (0 <? N.of_nat (S (length su)) - 1)%N eqn:E.
  - rewrite usub_small by lia. do 2 f_equal. lia.
  - do 2 f_equal. lia.
Qed.
End EagerDot.

Section Vectors.
Context {T : Type} `{Num T}.
Theorem Mat_Dot_vectors (s : tst T) p q v u :
  holds s p v -> holds s q u -> vsh v = vsh u -> length (vsh v) = 1 ->
  returns_new s (Mat_DotAt p q 0 0 s) (V [1%N] [sum0 (zip_with nmul (vdata v) (vdata u))]).
Proof.
  intros Hp Hq Hsh H1.
  destruct (Mat_DotAt_spec s p q v u 0 0 [1%N] Hp Hq) as (w & Hw & _ & Hr).
  { unfold dot_shape. cbn. destruct (vsh v) as [|n [|]] eqn:Ev; try discriminate. rewrite <- Hsh. cbn.
    rewrite N.eqb_refl. reflexivity. }
  replace (V [1%N] [sum0 (zip_with nmul (vdata v) (vdata u))]) with w; [exact Hr|].
  destruct (holds_exists _ _ _ Hp) as [np Hn]. destruct (holds_exists _ _ _ Hq) as [nq Hn'].
  destruct (holds_data _ _ _ _ Hp Hn) as (_ & _ & _ & _ & Hl1 & _).
  destruct (holds_data _ _ _ _ Hq Hn') as (_ & _ & _ & _ & Hl2 & _).
  destruct v as [sv dv], u as [su du]. cbn [vsh vdata] in *. subst su.
  destruct sv as [|n0 [|]]; try discriminate. unfold v_dot_with in Hw. cbn [vsh vdata lookup list_lookup length Nat.eqb andb Nat.sub N.to_nat] in Hw.
  change (take 0 []) with (@nil N) in Hw. change (drop 0 []) with (@nil N) in Hw.
  assert (Ef : mapM (fun i => x ← at_ [n0] dv (ins 0 i []); y ← at_ [n0] du (ins 0 i []); Some (nmul x y)) (upto n0) = Some (zip_with nmul dv du)).
  { apply mapM_Some. apply Forall2_same_length_lookup_2.
    - unfold upto. rewrite map_length, seq_length, zip_with_length, Hl1, Hl2. cbn. lia.
    - intros i j z Hi Hz. unfold upto in Hi. rewrite list_lookup_fmap in Hi. destruct (seq 0 (N.to_nat n0) !! i) as [k|] eqn:Ek; [|discriminate].
      apply lookup_seq in Ek as [-> Hk]. cbn in Hi. injection Hi as <-.
      assert (Hat : forall dd : list T, at_ [n0] dd [N.of_nat i] = dd !! i).
      { intros dd. unfold at_. cbn [flat]. destruct (N.of_nat i <? n0)%N eqn:E; [|lia]. f_equal. cbn. lia. }
      unfold ins. cbn [take drop app]. rewrite !Hat. rewrite lookup_zip_with in Hz.
      cbn [mbind option_bind]. cbn. destruct (dv !! i); cbn in *; [|discriminate]. destruct (du !! i); cbn in *; [|discriminate]. exact Hz. }
  rewrite Ef in Hw. cbn in Hw. injection Hw as <-. reflexivity.
Qed.
End Vectors.
