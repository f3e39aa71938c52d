(** * AccessProofs: Get, Set, LoadData, LoadFromTensor, Copy *)
From Verif Require Import Base Num ModelTools ModelOps ModelTensor Spec Denote ObjSpec
  IndexProofs ExecProofs TensorFacts BuildProofs EagerProofs.
From Coq Require Import Lia ZifyBool ZifyNat ZifyN.

Section Access.
Context {T : Type} `{Num T}.

Lemma get_mat_ok (s : tst T) p n : tens s !! p = Some n -> get_mat p s = (Ok (nmat n), s).
Proof. intros Hn. unfold get_mat, mbnd, get_node. rewrite Hn. reflexivity. Qed.

Lemma rdM_ok (s : tst T) o x : rd (mem s) o = Some x -> rdM o s = (Ok x, s).
Proof. intros E. unfold rdM. rewrite E. reflexivity. Qed.

Lemma holds_data (s : tst T) p v n :
  holds s p v -> tens s !! p = Some n ->
  shape (nmat n) = vsh v /\ rds (mem s) (operands (nmat n)) = Some (vdata v) /\
  wf_mat (length (mem s)) (nmat n) /\ cells s p = operands (nmat n) /\
  length (vdata v) = N.to_nat (prodN (vsh v)) /\ fits (vsh v).
Proof.
  intros (n' & Hn & Hwf & Hv) Hn'. rewrite Hn in Hn'. injection Hn' as ->.
  unfold mval in Hv. destruct (rds (mem s) (operands (nmat n))) as [d|] eqn:E; [|discriminate].
  injection Hv as <-. cbn [vsh vdata]. split; [reflexivity|]. split; [reflexivity|]. split; [assumption|].
  split; [unfold cells; rewrite Hn; reflexivity|]. destruct Hwf as (Hf & _ & Hl & _).
  split; [|assumption]. rewrite (rds_length _ _ _ E). exact Hl.
Qed.

Lemma mval_intro (m : list T) mt v :
  shape mt = vsh v -> rds m (operands mt) = Some (vdata v) -> mval m mt = Some v.
Proof. intros E1 E2. unfold mval. rewrite E2, E1. destruct v; reflexivity. Qed.

Lemma holds_exists (s : tst T) p v : holds s p v -> exists n, tens s !! p = Some n.
Proof. intros (n & Hn & _). eauto. Qed.

(** ** Reading and writing one element *)
Theorem Get_spec (s : tst T) p v idx x :
  holds s p v -> at_ (vsh v) (vdata v) idx = Some x -> Get p idx s = (Ok x, s).
Proof.
  intros Hp Hx. destruct (holds_exists _ _ _ Hp) as [n Hn].
  destruct (holds_data _ _ _ _ Hp Hn) as (Hsh & Hd & Hwf & _ & Hl & Hf).
  rewrite (at_rds _ _ _ _ _ Hd) in Hx. rewrite <- Hsh in Hx.
  destruct (at_ (shape (nmat n)) (operands (nmat n)) idx) as [o|] eqn:Ho; [|discriminate].
  unfold Get. erewrite mbnd_ok by (eapply get_mat_ok; exact Hn).
  erewrite mbnd_ok by (unfold mlift; rewrite (GetOperand_at _ _ _ _ Hwf Ho); reflexivity).
  apply rdM_ok. exact Hx.
Qed.

Theorem Get_in_range (s : tst T) p v idx :
  holds s p v -> Forall2 (fun i d => (i < d)%N) idx (vsh v) ->
  exists x, at_ (vsh v) (vdata v) idx = Some x /\ Get p idx s = (Ok x, s).
Proof.
  intros Hp Hr. destruct (holds_exists _ _ _ Hp) as [n Hn].
  destruct (holds_data _ _ _ _ Hp Hn) as (Hsh & Hd & Hwf & _ & Hl & Hf).
  destruct (at_total _ _ _ Hl Hr) as [x Hx]. exists x. split; [assumption|]. eapply Get_spec; eassumption.
Qed.

Theorem Get_out (s : tst T) p v idx :
  holds s p v -> length idx = length (vsh v) -> ~ Forall2 (fun i d => (i < d)%N) idx (vsh v) ->
  refuses s (Get p idx s).
Proof.
  intros Hp Hl Hr. destruct (holds_exists _ _ _ Hp) as [n Hn].
  destruct (holds_data _ _ _ _ Hp Hn) as (Hsh & Hd & Hwf & _). rewrite <- Hsh in *.
  destruct (GetOperand_err _ _ _ Hwf Hl Hr) as (i & a & d & E).
  exists (EIndexRange i a d). unfold Get. erewrite mbnd_ok by (eapply get_mat_ok; exact Hn).
  unfold mbnd at 1, mlift. rewrite E. reflexivity.
Qed.

Theorem Set_out (s : tst T) p v x idx :
  holds s p v -> length idx = length (vsh v) -> ~ Forall2 (fun i d => (i < d)%N) idx (vsh v) ->
  refuses s (Set_ p x idx s).
Proof.
  intros Hp Hl Hr. destruct (holds_exists _ _ _ Hp) as [n Hn].
  destruct (holds_data _ _ _ _ Hp Hn) as (Hsh & Hd & Hwf & _). rewrite <- Hsh in *.
  destruct (GetOperand_err _ _ _ Hwf Hl Hr) as (i & a & d & E).
  exists (EIndexRange i a d). unfold Set_. erewrite mbnd_ok by (eapply get_mat_ok; exact Hn).
  unfold mbnd at 1, mlift. rewrite E. reflexivity.
Qed.

Lemma rds_write (m : list T) ops d k l x :
  rds m ops = Some d -> NoDup ops -> ops !! k = Some (Some l) -> rds (<[l := x]> m) ops = Some (<[k := x]> d).
Proof.
  intros E Hnd Hk. unfold rds. apply mapM_Some. apply Forall2_same_length_lookup_2.
  - rewrite insert_length. symmetry. eapply rds_length. exact E.
  - intros i o y Hi Hy. pose proof (rds_lookup _ _ _ i E) as Hr. rewrite Hi in Hr. cbn in Hr.
    destruct (decide (i = k)) as [->|Hne].
    + rewrite Hk in Hi. injection Hi as <-.
      rewrite list_lookup_insert in Hy by (rewrite (rds_length _ _ _ E); eapply lookup_lt_Some; exact Hk).
      injection Hy as <-. cbn. apply list_lookup_insert.
      assert (is_Some (d !! k)) as [z Hz].
      { apply lookup_lt_is_Some_2. rewrite (rds_length _ _ _ E). eapply lookup_lt_Some; exact Hk. }
      rewrite Hz in Hr. cbn in Hr. eapply lookup_lt_Some. symmetry. exact Hr.
    + rewrite list_lookup_insert_ne in Hy by congruence. rewrite Hy in Hr.
      destruct o as [l'|]; [|discriminate]. cbn in Hr |- *.
      rewrite list_lookup_insert_ne; [congruence|]. intros ->. apply Hne.
      eapply NoDup_lookup; eassumption.
Qed.

Lemma holds_write (s : tst T) q u l x :
  holds s q u -> Some l ∉ cells s q -> holds (MkSt (<[l := x]> (mem s)) (tens s) (ctx s)) q u.
Proof.
  intros (n & Hn & Hwf & Hv) Hni. exists n. cbn [mem tens]. split; [assumption|].
  rewrite insert_length. split; [assumption|]. rewrite <- Hv. unfold mval.
  replace (rds (<[l:=x]> (mem s)) (operands (nmat n))) with (rds (mem s) (operands (nmat n))); [reflexivity|].
  apply rds_ext. intros l' Hl'. rewrite list_lookup_insert_ne; [reflexivity|]. intros ->.
  apply Hni. unfold cells. rewrite Hn. exact Hl'.
Qed.

(** What writing position [k] of an unshared tensor does. *)
Lemma write_cell (s : tst T) p v k x o :
  holds s p v -> unshared s p -> cells s p !! k = Some o ->
  exists s', wrM o x s = (Ok tt, s') /\ tens s' = tens s /\ ctx s' = ctx s /\ length (mem s') = length (mem s) /\
    holds s' p (V (vsh v) (<[k := x]> (vdata v))) /\
    forall q u, apart s p q -> holds s q u -> holds s' q u.
Proof.
  intros Hp Hu Hk. destruct (holds_exists _ _ _ Hp) as [n Hn].
  destruct (holds_data _ _ _ _ Hp Hn) as (Hsh & Hd & Hwf & Hc & Hl & Hf).
  unfold unshared in Hu. pose proof Hk as Hk0. rewrite Hc in Hk, Hu.
  pose proof Hwf as (W1 & W2 & W3 & W4). rewrite Forall_lookup in W4. destruct (W4 _ _ Hk) as (l & -> & Hlt).
  eexists. split; [unfold wrM; rewrite (wr_Some _ _ _ Hlt); reflexivity|]. cbn [tens ctx mem].
  split; [reflexivity|]. split; [reflexivity|]. split; [apply insert_length|]. split.
  - exists n. cbn [mem tens]. split; [assumption|]. rewrite insert_length. split; [assumption|].
    apply mval_intro; [exact Hsh|]. cbn. apply rds_write; assumption.
  - intros q u Ha Hq. apply holds_write; [assumption|]. intros Hin. apply (Ha (Some l)); [|assumption].
    eapply elem_of_list_lookup_2. exact Hk0.
Qed.

Lemma flat_Some_lookup {A} sh (d : list A) idx x :
  at_ sh d idx = Some x -> exists k, flat sh idx = Some k /\ d !! N.to_nat k = Some x.
Proof. unfold at_. destruct (flat sh idx) as [k|]; [|discriminate]. eauto. Qed.

Theorem Set_spec (s : tst T) p v x idx :
  holds s p v -> unshared s p -> Forall2 (fun i d => (i < d)%N) idx (vsh v) ->
  exists s', Set_ p x idx s = (Ok tt, s') /\ tens s' = tens s /\ ctx s' = ctx s /\
    Get p idx s' = (Ok x, s') /\
    (forall j y, j <> idx -> at_ (vsh v) (vdata v) j = Some y -> Get p j s' = (Ok y, s')) /\
    (forall q u, apart s p q -> holds s q u -> holds s' q u).
Proof.
  intros Hp Hu Hr. destruct (holds_exists _ _ _ Hp) as [n Hn].
  destruct (holds_data _ _ _ _ Hp Hn) as (Hsh & Hd & Hwf & Hc & Hl & Hf).
  pose proof Hwf as (W1 & W2 & W3 & W4).
  rewrite Hsh in W3. destruct (at_total (vsh v) (operands (nmat n)) idx W3 Hr) as [o Ho].
  pose proof (flat_Some_lookup _ _ _ _ Ho) as (k & Hk & Hko). rewrite <- Hc in Hko.
  destruct (write_cell s p v _ x o Hp Hu Hko) as (s' & Hw & Ht & Hcx & _ & Hp' & Hq).
  exists s'. split.
  { unfold Set_. erewrite mbnd_ok by (eapply get_mat_ok; exact Hn).
    rewrite <- Hsh in Ho.
    erewrite mbnd_ok by (unfold mlift; rewrite (GetOperand_at _ _ _ _ Hwf Ho); reflexivity). exact Hw. }
  split; [assumption|]. split; [assumption|]. split; [|split; [|exact Hq]].
  - eapply Get_spec; [exact Hp'|]. cbn [vsh vdata]. unfold at_. rewrite Hk. apply list_lookup_insert.
    rewrite Hl. pose proof (flat_lt _ _ _ Hk). lia.
  - intros j y Hne Hy. eapply Get_spec; [exact Hp'|]. cbn [vsh vdata].
    destruct (flat_Some_lookup _ _ _ _ Hy) as (kj & Hkj & Hyj). unfold at_. rewrite Hkj.
    rewrite list_lookup_insert_ne; [exact Hyj|]. intros E. apply Hne. eapply flat_inj; [exact Hkj|].
    rewrite Hk. f_equal. lia.
Qed.

(** Set needs no assumption on sharing to succeed. *)
Theorem Set_in_range (s : tst T) p v x idx :
  holds s p v -> Forall2 (fun i d => (i < d)%N) idx (vsh v) -> exists s', Set_ p x idx s = (Ok tt, s').
Proof.
  intros Hp Hr. destruct (holds_exists _ _ _ Hp) as [n Hn].
  destruct (holds_data _ _ _ _ Hp Hn) as (Hsh & Hd & Hwf & Hc & Hl & Hf).
  pose proof Hwf as (W1 & W2 & W3 & W4). rewrite Hsh in W3.
  destruct (at_total (vsh v) (operands (nmat n)) idx W3 Hr) as [o Ho].
  pose proof (at_valid _ _ _ _ _ W4 Ho) as (l & -> & Hlt). eexists.
  unfold Set_. erewrite mbnd_ok by (eapply get_mat_ok; exact Hn). rewrite <- Hsh in Ho.
  erewrite mbnd_ok by (unfold mlift; rewrite (GetOperand_at _ _ _ _ Hwf Ho); reflexivity).
  unfold wrM. rewrite (wr_Some _ _ _ Hlt). reflexivity.
Qed.

(** ** Writing the whole tensor *)

(** A loop that writes position [i] of tensor [p] at step [i]. *)
Lemma mfor_write {A} (p : nat) (xs : list T) (body : A -> TM T unit) (items : list A) : forall s v,
  holds s p v -> unshared s p -> length items = length (vdata v) -> length xs = length (vdata v) ->
  (forall i a x o (s1 : tst T), items !! i = Some a -> xs !! i = Some x -> cells s1 p !! i = Some o ->
     tens s1 = tens s -> ctx s1 = ctx s -> length (mem s1) = length (mem s) ->
     (forall q u, apart s p q -> holds s q u -> holds s1 q u) -> body a s1 = wrM o x s1) ->
  exists s', mfor items body s = (Ok tt, s') /\ tens s' = tens s /\ ctx s' = ctx s /\
    holds s' p (V (vsh v) xs) /\ (forall q u, apart s p q -> holds s q u -> holds s' q u).
Proof.
  intros s v Hp Hu Hli Hlx Hb.
  assert (Hgen : forall k s1, k + length (drop k items) = length items ->
    tens s1 = tens s -> ctx s1 = ctx s -> length (mem s1) = length (mem s) ->
    holds s1 p (V (vsh v) (take k xs ++ drop k (vdata v))) ->
    (forall q u, apart s p q -> holds s q u -> holds s1 q u) ->
    exists s', mfor (drop k items) body s1 = (Ok tt, s') /\ tens s' = tens s /\ ctx s' = ctx s /\
      holds s' p (V (vsh v) xs) /\ (forall q u, apart s p q -> holds s q u -> holds s' q u)).
  { intros k. remember (drop k items) as rest eqn:Er. revert k Er.
    induction rest as [|a rest IH]; intros k Er s1 Hk Ht Hc Hm Hp1 Hq1.
    - exists s1. cbn in Hk. split; [reflexivity|]. split; [assumption|]. split; [assumption|]. split; [|assumption].
      rewrite take_ge, drop_ge, app_nil_r in Hp1 by lia. exact Hp1.
    - assert (Ha : items !! k = Some a).
      { replace k with (k + 0) by lia. rewrite <- lookup_drop, <- Er. reflexivity. }
      assert (Hkl : k < length items) by (eapply lookup_lt_Some; exact Ha).
      assert (Er' : rest = drop (S k) items).
      { rewrite (drop_S _ _ _ Ha) in Er. congruence. }
      destruct (lookup_lt_is_Some_2 xs k) as [x Hx]; [lia|].
      assert (Hc1 : cells s1 p = cells s p) by (unfold cells; rewrite Ht; reflexivity).
      destruct (holds_exists _ _ _ Hp) as [n Hn].
      destruct (holds_data _ _ _ _ Hp Hn) as (Hsh & Hd & Hwf & Hcs & Hl & Hf).
      assert (is_Some (cells s1 p !! k)) as [o Ho].
      { apply lookup_lt_is_Some_2. rewrite Hc1, Hcs. rewrite <- (rds_length _ _ _ Hd). lia. }
      assert (Hu1 : unshared s1 p) by (unfold unshared; rewrite Hc1; exact Hu).
      destruct (write_cell s1 p _ k x o Hp1 Hu1 Ho) as (s2 & Hw & Ht2 & Hc2 & Hm2 & Hp2 & Hq2).
      cbn [mfor]. erewrite mbnd_ok by (rewrite (Hb _ _ _ _ _ Ha Hx Ho Ht Hc Hm Hq1); exact Hw).
      apply (IH (S k) Er' s2).
      + cbn [length] in Hk. lia.
      + congruence.
      + congruence.
      + congruence.
      + cbn [vsh vdata] in Hp2.
        replace (<[k:=x]> (take k xs ++ drop k (vdata v))) with (take (S k) xs ++ drop (S k) (vdata v)) in Hp2; [exact Hp2|].
        destruct (lookup_lt_is_Some_2 (vdata v) k) as [y Hy]; [lia|].
        rewrite (drop_S _ _ _ Hy). rewrite (take_S_r _ _ _ Hx), <- app_assoc. cbn [app].
        assert (Hlt : length (take k xs) = k) by (rewrite take_length; lia).
        replace k with (length (take k xs) + 0) at 3 by lia. rewrite insert_app_r. reflexivity.
      + intros q u Ha' Hq'. apply Hq2; [|apply Hq1; assumption].
        intros z. unfold cells. rewrite Ht. apply Ha'. }
  specialize (Hgen 0 s). rewrite take_0, drop_0 in Hgen. cbn [app] in Hgen.
  apply Hgen; try reflexivity.
  - rewrite drop_0. destruct v; exact Hp.
  - auto.
Qed.

Lemma lookup_zip_range {A} (l : list A) i a : zip (range (length l)) l !! i = Some a -> exists x, a = (i, x) /\ l !! i = Some x.
Proof.
  intros E. rewrite lookup_zip_with in E. unfold range in E.
  destruct (seq 0 (length l) !! i) as [j|] eqn:Ej; cbn in E; [|discriminate].
  destruct (l !! i) as [x|] eqn:Ex; cbn in E; [|discriminate]. injection E as <-.
  apply lookup_seq in Ej as [-> _]. eauto.
Qed.
Lemma length_zip_range {A} (l : list A) : length (zip (range (length l)) l) = length l.
Proof. rewrite zip_with_length. unfold range. rewrite seq_length. lia. Qed.

Theorem LoadData_spec (s : tst T) p v data :
  holds s p v -> unshared s p -> length data = length (vdata v) ->
  exists s', LoadData p data s = (Ok tt, s') /\ tens s' = tens s /\ ctx s' = ctx s /\
    holds s' p (V (vsh v) data) /\ (forall q u, apart s p q -> holds s q u -> holds s' q u).
Proof.
  intros Hp Hu Hl. destruct (holds_exists _ _ _ Hp) as [n Hn].
  destruct (holds_data _ _ _ _ Hp Hn) as (Hsh & Hd & Hwf & Hc & Hlv & Hf).
  pose proof (rds_length _ _ _ Hd) as Hlo.
  unfold LoadData. erewrite mbnd_ok by (eapply get_mat_ok; exact Hn).
  unfold msize, ulen. rewrite Hl, Hlo, N.eqb_refl. cbn [negb].
  apply (mfor_write p data); try assumption.
  - rewrite length_zip_range. congruence.
  - intros i a x o s1 Ha Hx Ho Ht _ _ _. apply lookup_zip_range in Ha as (o' & -> & Ho').
    assert (o' = o) as ->.
    { unfold cells in Ho. rewrite Ht, Hn in Ho. congruence. }
    erewrite mbnd_ok by (apply atM_ok; exact Hx). reflexivity.
Qed.

Theorem LoadData_wrong_size (s : tst T) p v data :
  holds s p v -> length data <> length (vdata v) -> refuses s (LoadData p data s).
Proof.
  intros Hp Hl. destruct (holds_exists _ _ _ Hp) as [n Hn].
  destruct (holds_data _ _ _ _ Hp Hn) as (Hsh & Hd & Hwf & Hc & Hlv & Hf).
  pose proof (rds_length _ _ _ Hd) as Hlo. eexists.
  unfold LoadData. erewrite mbnd_ok by (eapply get_mat_ok; exact Hn).
  unfold msize, ulen. destruct (N.eqb_spec (N.of_nat (length data)) (N.of_nat (length (operands (nmat n))))); [lia|].
  reflexivity.
Qed.

Lemma read_all (s : tst T) ops d : rds (mem s) ops = Some d -> mmap ops rdM s = (Ok d, s).
Proof.
  revert d. unfold rds. induction ops as [|p ops IH]; intros d E; cbn in E |- *.
  - injection E as <-. reflexivity.
  - destruct (rd (mem s) p) as [x|] eqn:Ex; cbn in E; [|discriminate].
    destruct (mapM (rd (mem s)) ops) as [xs|] eqn:Exs; cbn in E; [|discriminate]. injection E as <-.
    unfold mbnd, rdM at 1. rewrite Ex. rewrite (IH _ eq_refl). reflexivity.
Qed.

Theorem GetData_spec (s : tst T) p v : holds s p v -> GetData p s = (Ok (vdata v), s).
Proof.
  intros Hp. destruct (holds_exists _ _ _ Hp) as [n Hn].
  destruct (holds_data _ _ _ _ Hp Hn) as (Hsh & Hd & _).
  unfold GetData. erewrite mbnd_ok by (eapply get_mat_ok; exact Hn). apply read_all. exact Hd.
Qed.

Theorem LoadFromTensor_spec (s : tst T) p t v u :
  holds s p v -> unshared s p -> holds s t u -> apart s p t -> vsh v = vsh u ->
  exists s', LoadFromTensor p t s = (Ok tt, s') /\ tens s' = tens s /\ ctx s' = ctx s /\
    holds s' p u /\ (forall q w, apart s p q -> holds s q w -> holds s' q w).
Proof.
  intros Hp Hu Ht Ha Hsh. destruct (holds_exists _ _ _ Hp) as [n Hn].
  destruct (holds_exists _ _ _ Ht) as [n' Hn'].
  destruct (holds_data _ _ _ _ Hp Hn) as (Hsp & Hd & Hwf & Hc & Hlv & Hf).
  destruct (holds_data _ _ _ _ Ht Hn') as (Hst & Hd' & Hwf' & Hc' & Hlv' & Hf').
  pose proof (rds_length _ _ _ Hd) as Hlo. pose proof (rds_length _ _ _ Hd') as Hlo'.
  unfold LoadFromTensor. erewrite mbnd_ok by (eapply get_mat_ok; exact Hn).
  erewrite mbnd_ok by (eapply get_mat_ok; exact Hn').
  rewrite (proj2 (GetEqShapeErr_None _ _)) by congruence. erewrite mbnd_ok by reflexivity.
  replace u with (V (vsh v) (vdata u)) by (rewrite Hsh; destruct u; reflexivity).
  apply (mfor_write p (vdata u)); try assumption.
  - rewrite length_zip_range. rewrite <- Hlo', Hlv, Hlv'. congruence.
  - rewrite Hlv, Hlv'. congruence.
  - intros i a x o s1 Hai Hx Ho Ht1 _ _ Hq1. apply lookup_zip_range in Hai as (o' & -> & Ho').
    assert (Hop : operands (nmat n) !! i = Some o).
    { unfold cells in Ho. rewrite Ht1, Hn in Ho. exact Ho. }
    erewrite mbnd_ok by (apply atM_ok; exact Hop).
    pose proof (Hq1 t u Ha Ht) as Ht'. rewrite <- Ht1 in Hn'.
    destruct (holds_data _ _ _ _ Ht' Hn') as (_ & Hd1 & _).
    pose proof (rds_lookup _ _ _ i Hd1) as Hr. rewrite Ho', Hx in Hr. cbn in Hr.
    erewrite mbnd_ok by (apply rdM_ok; symmetry; exact Hr). reflexivity.
Qed.

Theorem LoadFromTensor_wrong_shape (s : tst T) p t v u :
  holds s p v -> holds s t u -> vsh v <> vsh u -> refuses s (LoadFromTensor p t s).
Proof.
  intros Hp Ht Hsh. destruct (holds_exists _ _ _ Hp) as [n Hn].
  destruct (holds_exists _ _ _ Ht) as [n' Hn'].
  destruct (holds_data _ _ _ _ Hp Hn) as (Hsp & _). destruct (holds_data _ _ _ _ Ht Hn') as (Hst & _).
  destruct (GetEqShapeErr (shape (nmat n)) (shape (nmat n'))) as [e|] eqn:E.
  - exists e. unfold LoadFromTensor. erewrite mbnd_ok by (eapply get_mat_ok; exact Hn).
    erewrite mbnd_ok by (eapply get_mat_ok; exact Hn'). rewrite E. reflexivity.
  - apply GetEqShapeErr_None in E. congruence.
Qed.

(** ** Copy *)
Lemma rdM_grown (s s1 : tst T) o x ext :
  rd (mem s) o = Some x -> mem s1 = mem s ++ ext -> rdM o s1 = (Ok x, s1).
Proof. intros E Hm. apply rdM_ok. rewrite Hm. apply rd_app. exact E. Qed.

Lemma rd_operand (s : tst T) p v n o :
  holds s p v -> tens s !! p = Some n -> o ∈ operands (nmat n) -> exists x, rd (mem s) o = Some x.
Proof.
  intros Hp Hn Ho. destruct (holds_data _ _ _ _ Hp Hn) as (_ & _ & (_ & _ & _ & Hv) & _).
  rewrite Forall_forall in Hv. destruct (Hv _ Ho) as (l & -> & Hl). cbn. apply lookup_lt_is_Some_2. exact Hl.
Qed.

Lemma mapM_rd_map (s : tst T) p v n (f : T -> T) :
  holds s p v -> tens s !! p = Some n ->
  mapM (fun o => x ← rd (mem s) o; Some (f x)) (operands (nmat n)) = Some (map f (vdata v)).
Proof.
  intros Hp Hn. destruct (holds_data _ _ _ _ Hp Hn) as (_ & Hd & _).
  rewrite <- (mapM_bind (rd (mem s)) (fun x => Some (f x)) _ _ Hd). apply mapM_pure.
Qed.

Theorem Mat_map_spec (s : tst T) p v f : holds s p v -> returns_new s (Mat_map f p s) (v_map f v).
Proof.
  intros Hp. destruct (holds_exists _ _ _ Hp) as [n Hn].
  destruct (holds_data _ _ _ _ Hp Hn) as (Hsh & Hd & Hwf & Hc & Hl & Hf).
  pose proof Hwf as (_ & Hmul & Hlo & _).
  unfold Mat_map. erewrite mbnd_ok by (eapply get_mat_ok; exact Hn).
  pose proof (eager_method s (operands (nmat n)) (fun o => v <~ rdM o ; alloc (f v))
    (fun o => x ← rd (mem s) o; Some (f x)) (shape (nmat n)) (mulindex (nmat n))) as Hm.
  rewrite (mapM_rd_map s p v n f Hp Hn) in Hm. cbn [mbind option_bind returns_new_or_panics] in Hm.
  rewrite Hsh in Hm, Hlo, Hmul |- *. apply Hm; try assumption. clear Hm.
  intros o s1 Ho [ext Hm1] _ _. destruct (rd_operand _ _ _ _ _ Hp Hn Ho) as [x Hx]. rewrite Hx. cbn.
  erewrite mbnd_ok by (eapply rdM_grown; eassumption). reflexivity.
Qed.

Theorem Copy_spec (s : tst T) p v : holds s p v -> returns_new s (Copy p s) v.
Proof.
  intros Hp. pose proof (Mat_map_spec s p v (fun x => x) Hp) as Hm.
  unfold v_map in Hm. rewrite map_id in Hm. destruct v as [sh d]. exact Hm.
Qed.

(** ** Sequences of writes *)

(** [s'] is [s] after any number of writes to scalars of tensor [q]. *)
Inductive rewritten (q : nat) : tst T -> tst T -> Prop :=
| RW_none s : rewritten q s s
| RW_write s o x s1 s2 : o ∈ cells s q -> wrM o x s = (Ok tt, s1) -> rewritten q s1 s2 -> rewritten q s s2.

Theorem rewritten_apart (s s' : tst T) q p v :
  rewritten q s s' -> apart s q p -> holds s p v -> holds s' p v.
Proof.
  induction 1 as [|s o x s1 s2 Ho Hw _ IH]; intros Ha Hp; [assumption|].
  unfold wrM in Hw. destruct o as [l|]; [|discriminate]. cbn in Hw. case_decide; [|discriminate].
  injection Hw as <-. apply IH; [exact Ha|]. apply holds_write; [assumption|].
  intros Hin. exact (Ha _ Ho Hin).
Qed.

Lemma apart_sym (s : tst T) p q : apart s p q -> apart s q p.
Proof. intros Ha x Hx Hy. exact (Ha x Hy Hx). Qed.

Theorem Copy_deep (s : tst T) p v :
  holds s p v ->
  exists c s', Copy p s = (Ok c, s') /\ c <> p /\ holds s' c v /\ unshared s' c /\
    (forall q u, holds s q u -> apart s' c q /\
       (forall s2, rewritten c s' s2 -> holds s2 q u) /\
       (forall s2, rewritten q s' s2 -> holds s2 c v)).
Proof.
  intros Hp. pose proof (Copy_spec s p v Hp) as Hr.
  pose proof Hr as (s' & ext & ops & Hr' & _ & _ & _ & Hh & _).
  exists (length (tens s)), s'. split; [assumption|]. split.
  { destruct (holds_exists _ _ _ Hp) as [n Hn]. apply lookup_lt_Some in Hn. lia. }
  split; [assumption|]. split; [eapply returns_new_unshared; eassumption|].
  intros q u Hq. pose proof (returns_new_apart _ _ _ _ _ _ Hr Hr' Hq) as Ha.
  split; [assumption|]. split; intros s2 Hs2.
  - eapply rewritten_apart; [exact Hs2|exact Ha|]. eapply returns_new_keeps; eassumption.
  - eapply rewritten_apart; [exact Hs2|apply apart_sym; exact Ha|exact Hh].
Qed.
End Access.

Section More.
Context {T : Type} `{Num T}.
Theorem LoadData_GetData (s : tst T) p v data :
  holds s p v -> unshared s p -> length data = length (vdata v) ->
  exists s', LoadData p data s = (Ok tt, s') /\ tens s' = tens s /\ ctx s' = ctx s /\
    GetData p s' = (Ok data, s') /\
    holds s' p (V (vsh v) data) /\ (forall q u, apart s p q -> holds s q u -> holds s' q u).
Proof.
  intros Hp Hu Hl. destruct (LoadData_spec s p v data Hp Hu Hl) as (s' & H1 & H2 & H3 & H4 & H5).
  exists s'. repeat (split; [assumption|]). split; [exact (GetData_spec _ _ _ H4)|]. split; assumption.
Qed.
Theorem element_count (s : tst T) sh :
  fits sh -> exists id n s',
    NewZeros sh s = (Ok id, s') /\ tens s' !! id = Some n /\ N.of_nat (length (operands (nmat n))) = prodN sh.
Proof.
  intros Hf. destruct (NewZeros_spec s sh Hf) as (s' & ext & ops & E & _ & _ & Ht & (n & Hn & (_ & _ & Hl & _) & Hv) & _).
  exists (length (tens s)), n, s'. split; [exact E|]. split; [exact Hn|].
  unfold mval in Hv. destruct (rds _ _); [|discriminate]. injection Hv as E1 _. rewrite E1 in Hl. lia.
Qed.
End More.
