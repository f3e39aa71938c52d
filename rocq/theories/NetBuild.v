(** * NetBuild: the operations the code pushes for a dense layer *)
From Verif Require Import Base Num ModelTools ModelOps ModelTensor ModelGraph ModelLayer
  Spec Denote IndexProofs ExecProofs TensorFacts AccessProofs BuildProofs CompileProofs NetSpec NetExec NetBack.
From Coq Require Import Lia ZifyBool ZifyNat ZifyN.

Section NetBuild.
Context {T : Type} `{Num T}.

(** A tensor whose scalars are the block of memory starting at [a]. *)
Definition blkm (sh : list N) (a : nat) (b : bool) : tmat :=
  MkMat sh (GetIndexMul sh) (map Some (seq a (N.to_nat (prodN sh)))) b.
Definition zeros (n : nat) : list T := replicate n nzero.
Lemma zeros_length n : length (zeros n) = n.
Proof. apply replicate_length. Qed.

(** ** Loops *)
Lemma mmap_alloc_f (g : nat -> T) (n : nat) : forall j mm tn c,
  mmap (seq j n) (fun i => alloc (g i)) (MkSt mm tn c) =
  (Ok (map Some (seq (length mm) n)), MkSt (mm ++ map g (seq j n)) tn c).
Proof.
  induction n as [|n IH]; intros j mm tn c; cbn [seq mmap].
  - unfold mret. rewrite app_nil_r. reflexivity.
  - erewrite mbnd_ok by reflexivity. cbn [mem tens ctx].
    erewrite mbnd_ok by apply IH. unfold mret. rewrite app_length. cbn [length].
    rewrite <- app_assoc. cbn. rewrite Nat.add_1_r. reflexivity.
Qed.
Lemma map_const_seq (n : nat) : forall j, map (fun _ => nzero : T) (seq j n) = zeros n.
Proof. induction n as [|n IH]; intros j; cbn; [reflexivity|]. f_equal. apply IH. Qed.

(** [mfor] over a body that allocates [k] cells and pushes operations depending
    on the index and the next free address. *)
Lemma mfor_emit (k : nat) (f : nat -> TM T unit) (g : nat -> nat -> list (op T)) tn n : forall j mm c,
  (forall i mm c, j <= i < j + n -> f i (MkSt mm tn c) = (Ok tt, MkSt (mm ++ zeros k) tn (c ++ g i (length mm)))) ->
  mfor (seq j n) f (MkSt mm tn c) =
  (Ok tt, MkSt (mm ++ zeros (n * k)) tn (c ++ flat_map (fun i => g (j + i) (length mm + i * k)) (seq 0 n))).
Proof.
  induction n as [|n IH]; intros j mm c Hf; cbn [seq mfor].
  - unfold mret. cbn. rewrite !app_nil_r. reflexivity.
  - erewrite mbnd_ok by (apply Hf; lia). rewrite IH by (intros; apply Hf; lia).
    rewrite app_length. rewrite zeros_length.
    rewrite <- !app_assoc. f_equal. f_equal.
    + f_equal. unfold zeros. rewrite <- replicate_add. reflexivity.
    + f_equal. cbn [flat_map]. rewrite !Nat.add_0_r. f_equal.
      rewrite <- seq_shift, flat_map_concat_map, flat_map_concat_map, map_map. f_equal.
      apply map_ext. intros a. f_equal; lia.
Qed.
Lemma mmap_emit (f : nat -> TM T ptr) (g : nat -> nat -> op T) tn n : forall j mm c,
  (forall i mm c, j <= i < j + n -> f i (MkSt mm tn c) = (Ok (Some (length mm)), MkSt (mm ++ [nzero]) tn (c ++ [g i (length mm)]))) ->
  mmap (seq j n) f (MkSt mm tn c) =
  (Ok (map Some (seq (length mm) n)), MkSt (mm ++ zeros n) tn (c ++ map (fun i => g (j + i) (length mm + i)) (seq 0 n))).
Proof.
  induction n as [|n IH]; intros j mm c Hf; cbn [seq mmap].
  - unfold mret. cbn. rewrite !app_nil_r. reflexivity.
  - erewrite mbnd_ok by (apply Hf; lia). erewrite mbnd_ok by (apply IH; intros; apply Hf; lia).
    rewrite app_length. cbn [length]. unfold mret.
    rewrite <- !app_assoc. cbn [app map seq]. f_equal.
    + f_equal. f_equal. rewrite Nat.add_1_r. reflexivity.
    + f_equal. f_equal. rewrite !Nat.add_0_r. f_equal.
      rewrite <- seq_shift, map_map. apply map_ext. intros a. f_equal; lia.
Qed.
Lemma mmap_map {S A B C} (h : A -> B) (l : list A) (f : B -> M S C) (s : S) :
  mmap (map h l) f s = mmap l (fun a => f (h a)) s.
Proof.
  revert s. induction l as [|a l IH]; intros s; cbn; [reflexivity|].
  unfold mbnd. destruct (f (h a) s) as [[y| | |] s1]; try reflexivity. rewrite IH. reflexivity.
Qed.
Lemma mfor_map {S A B} (h : A -> B) (l : list A) (f : B -> M S unit) (s : S) :
  mfor (map h l) f s = mfor l (fun a => f (h a)) s.
Proof.
  revert s. induction l as [|a l IH]; intros s; cbn; [reflexivity|].
  unfold mbnd. destruct (f (h a) s) as [[y| | |] s1]; try reflexivity. apply IH.
Qed.

(** ** New tensors *)
Lemma NewZeros_blk (s : tst T) sh : fits sh ->
  NewZeros sh s = (Ok (length (tens s)),
    MkSt (mem s ++ zeros (N.to_nat (prodN sh))) (tens s ++ [MkNode KMat (blkm sh (length (mem s)) false)]) (ctx s)).
Proof.
  intros Hf. destruct s as [mm tn c]. unfold NewZeros. rewrite (GetDataSize_fits sh Hf).
  erewrite mbnd_ok by apply mmap_alloc. reflexivity.
Qed.
Lemma NewRandom_blk (s : tst T) g sh : fits sh ->
  NewRandom g sh s = (Ok (length (tens s)),
    MkSt (mem s ++ map g (seq 0 (N.to_nat (prodN sh)))) (tens s ++ [MkNode KMat (blkm sh (length (mem s)) false)]) (ctx s)).
Proof.
  intros Hf. destruct s as [mm tn c]. unfold NewRandom. rewrite (GetDataSize_fits sh Hf).
  erewrite mbnd_ok by apply mmap_alloc_f. reflexivity.
Qed.

Lemma fits_1 (o : N) : (o < W64)%N -> fits [o].
Proof. intros Ho. split; [repeat constructor; assumption|]. cbn. lia. Qed.
Lemma prod_1 (o : N) : prodN [o] = o.
Proof. cbn. lia. Qed.
Lemma prod_2 (o n : N) : prodN [o; n] = (o * n)%N.
Proof. cbn. lia. Qed.

Lemma wf_blk sh a b : fits sh -> wf_mat (a + N.to_nat (prodN sh)) (blkm sh a b).
Proof.
  intros Hf. split; [assumption|]. split; [reflexivity|]. split.
  - cbn. rewrite map_length, seq_length. reflexivity.
  - cbn. apply Forall_forall. intros p Hp. apply elem_of_list_fmap in Hp as (x & -> & Hx).
    apply elem_of_seq in Hx. exists x. split; [reflexivity|lia].
Qed.
Lemma GetOperand_blk sh a b idx k :
  fits sh -> flat sh idx = Some k -> GetOperand (blkm sh a b) idx = Ok (Some (a + N.to_nat k)).
Proof.
  intros Hf Hk. eapply GetOperand_at; [apply wf_blk; assumption|].
  unfold at_. cbn [shape blkm operands]. rewrite Hk. pose proof (flat_lt _ _ _ Hk).
  rewrite list_lookup_fmap, lookup_seq_lt by lia. reflexivity.
Qed.
Lemma GetOperand_blk1 o a b (i : nat) :
  (o < W64)%N -> i < N.to_nat o -> GetOperand (blkm [o] a b) [N.of_nat i] = Ok (Some (a + i)).
Proof.
  intros Ho Hi. rewrite (GetOperand_blk _ _ _ _ (N.of_nat i)).
  - rewrite Nat2N.id. reflexivity.
  - apply fits_1. assumption.
  - cbn. destruct (N.of_nat i <? o)%N eqn:E; [|lia]. f_equal. lia.
Qed.
Lemma GetOperand_blk2 o n a b (i j : nat) :
  fits [o; n] -> i < N.to_nat o -> j < N.to_nat n ->
  GetOperand (blkm [o; n] a b) [N.of_nat i; N.of_nat j] = Ok (Some (a + (i * N.to_nat n + j))).
Proof.
  intros Hf Hi Hj. rewrite (GetOperand_blk _ _ _ _ (N.of_nat i * n + N.of_nat j)%N); [|assumption|].
  - do 3 f_equal. lia.
  - cbn. destruct (N.of_nat i <? o)%N eqn:E; [|lia]. destruct (N.of_nat j <? n)%N eqn:E2; [|lia].
    f_equal. lia.
Qed.

(** The input tensor of a layer: [n] scalars at [ain 0], [ain 1], ... *)
Definition in_ops (mi : tmat) (n : nat) (a : nat -> nat) : Prop :=
  operands mi = map (fun j => Some (a j)) (seq 0 n).
Lemma in_ops_size mi n a : in_ops mi n a -> msize mi = N.of_nat n.
Proof. intros E. unfold msize, ulen. rewrite E, map_length, seq_length. reflexivity. Qed.
Lemma in_ops_at mi n a j (s : tst T) : in_ops mi n a -> j < n -> atM (operands mi) j s = (Ok (Some (a j)), s).
Proof.
  intros E Hj. unfold atM, mlift, at_or_panic. rewrite E, list_lookup_fmap, lookup_seq_lt by assumption.
  reflexivity.
Qed.
Lemma map_Some_seq a n : map Some (seq a n) = map (fun j => Some (a + j)) (seq 0 n).
Proof.
  revert a. induction n as [|n IH]; intros a; [reflexivity|]. cbn [seq map]. rewrite Nat.add_0_r. f_equal.
  rewrite IH, <- seq_shift, map_map. apply map_ext. intros j. f_equal. lia.
Qed.
Lemma in_ops_blk sh a b : in_ops (blkm sh a b) (N.to_nat (prodN sh)) (fun j => a + j).
Proof. apply map_Some_seq. Qed.
Lemma msize_blk sh a b : msize (blkm sh a b) = prodN sh.
Proof. rewrite (in_ops_size _ _ _ (in_ops_blk sh a b)). lia. Qed.

(** ** Feed-forward *)
Lemma urange_seq (n : N) : urange n = map N.of_nat (seq 0 (N.to_nat n)).
Proof. reflexivity. Qed.

Lemma dense_unit_ff_ok (l : dlay T) (o n : N) mi bb bw bn bo act mm tn c (i : nat) :
  N.to_nat o = no l -> N.to_nat n = ni l -> fits [o; n] -> (o < W64)%N ->
  in_ops mi (ni l) (ain l) -> df l = act_f act -> i < no l -> length mm = ascr l i 0 ->
  dense_unit_ff mi (blkm [o] (ab l 0) bb) (blkm [o; n] (aw l 0 0) bw) (blkm [o] (a0 l) bn) (blkm [o] (aout l) bo)
    (Some act) (N.of_nat i) (MkSt mm tn c) =
  (Ok tt, MkSt (mm ++ zeros (ni l)) tn (c ++ ff_unit l i)).
Proof.
  intros Ho Hn Hf Ho64 Hin Hdf Hi Hlen. unfold dense_unit_ff.
  erewrite mbnd_ok by (unfold mlift; rewrite GetOperand_blk1 by lia; reflexivity).
  rewrite urange_seq, (in_ops_size _ _ _ Hin), Nat2N.id.
  erewrite mbnd_ok.
  2:{ rewrite mmap_map.
      apply (mmap_emit _ (fun j a => OMul (Some a) (Some (ain l j)) (Some (aw l i j)))).
      intros j mm' c' Hj. erewrite mbnd_ok by reflexivity. cbn [mem tens ctx].
      erewrite mbnd_ok by (unfold mlift; rewrite GetOperand_blk2 by (try assumption; lia); reflexivity).
      rewrite Nat2N.id.
      erewrite mbnd_ok by (apply in_ops_at with (1 := Hin); lia).
      erewrite mbnd_ok by reflexivity. unfold mret. cbn [mem tens ctx].
      unfold aw. rewrite Hn. do 4 f_equal. do 3 f_equal. lia. }
  erewrite mbnd_ok by (unfold mlift; rewrite GetOperand_blk1 by lia; reflexivity).
  erewrite mbnd_ok by reflexivity.
  erewrite mbnd_ok by (unfold mlift; rewrite GetOperand_blk1 by lia; reflexivity).
  erewrite mbnd_ok by reflexivity. unfold push. cbn [mem tens ctx].
  rewrite <- !app_assoc. unfold ff_unit. do 3 f_equal. rewrite Hlen. cbn [app Nat.add].
  f_equal.
  - apply map_ext. intros j. unfold ascr. do 2 f_equal. lia.
  - f_equal; [|rewrite Hdf; reflexivity]. f_equal. f_equal.
    + rewrite map_Some_seq. apply map_ext. intros j. unfold ascr. f_equal. lia.
    + unfold ab. do 2 f_equal. lia.
Qed.

Lemma get_mat_tens (s : tst T) t k m : tens s !! t = Some (MkNode k m) -> get_mat t s = (Ok m, s).
Proof. intros E. rewrite (get_mat_ok _ _ _ E). reflexivity. Qed.

Lemma dense_ff_ok (l : dlay T) (o n : N) ti tb tw tn0 to_ ki mi bb bw bn bo act (s : tst T) :
  N.to_nat o = no l -> N.to_nat n = ni l -> fits [o; n] -> (o < W64)%N ->
  in_ops mi (ni l) (ain l) -> df l = act_f act -> length (mem s) = ascr l 0 0 ->
  tens s !! ti = Some (MkNode ki mi) ->
  tens s !! tb = Some (MkNode KMat (blkm [o] (ab l 0) bb)) ->
  tens s !! tw = Some (MkNode KMat (blkm [o; n] (aw l 0 0) bw)) ->
  tens s !! tn0 = Some (MkNode KMat (blkm [o] (a0 l) bn)) ->
  tens s !! to_ = Some (MkNode KMat (blkm [o] (aout l) bo)) ->
  dense_ff ti tb tw tn0 to_ (Some act) s =
  (Ok tt, MkSt (mem s ++ zeros (no l * ni l)) (tens s) (ctx s ++ ff l)).
Proof.
  intros Ho Hn Hf Ho64 Hin Hdf Hlen Hti Htb Htw Htn Hto. unfold dense_ff.
  erewrite mbnd_ok by (eapply get_mat_tens; exact Hti).
  erewrite mbnd_ok by (eapply get_mat_tens; exact Htb).
  erewrite mbnd_ok by (eapply get_mat_tens; exact Htw).
  erewrite mbnd_ok by (eapply get_mat_tens; exact Htn).
  erewrite mbnd_ok by (eapply get_mat_tens; exact Hto).
  rewrite msize_blk, prod_1, urange_seq, mfor_map, Ho.
  destruct s as [mm tn c]. cbn [mem tens ctx] in *.
  assert (Hgen : forall k mm' c', k <= no l -> length mm' = ascr l (no l - k) 0 ->
    mfor (seq (no l - k) k) (fun a => dense_unit_ff mi (blkm [o] (ab l 0) bb) (blkm [o; n] (aw l 0 0) bw)
        (blkm [o] (a0 l) bn) (blkm [o] (aout l) bo) (Some act) (N.of_nat a)) (MkSt mm' tn c') =
    (Ok tt, MkSt (mm' ++ zeros (k * ni l)) tn (c' ++ flat_map (ff_unit l) (seq (no l - k) k)))).
  { induction k as [|k IH]; intros mm' c' Hk Hl.
    - cbn. unfold mret. rewrite !app_nil_r. reflexivity.
    - cbn [seq mfor]. erewrite mbnd_ok by (apply dense_unit_ff_ok; try assumption; lia).
      replace (S (no l - S k)) with (no l - k) by lia.
      rewrite IH.
      + rewrite <- !app_assoc. cbn [flat_map]. do 2 f_equal. f_equal.
        unfold zeros. rewrite <- replicate_add. reflexivity.
      + lia.
      + rewrite app_length. unfold zeros. rewrite replicate_length, Hl. unfold ascr. nia. }
  specialize (Hgen (no l) mm c). rewrite Nat.sub_diag in Hgen. rewrite Hgen by (auto; lia). reflexivity.
Qed.

(** ** Back-propagation: the loops *)
Lemma dense_input_bp_ok (pv : pvl) (l : dlay T) (o n : N) bd bw mder mp mm tn c (i : nat) :
  N.to_nat o = no l -> N.to_nat n = ni l -> fits [o; n] -> (o < W64)%N ->
  in_ops mder (ni l) (ader l) -> in_ops mp (ni l) (pdif pv) -> i < ni l ->
  length mm = asc l i 0 ->
  dense_input_bp o (blkm [o] (adif l 0) bd) (blkm [o; n] (aw l 0 0) bw) mder mp (N.of_nat i) (MkSt mm tn c) =
  (Ok tt, MkSt (mm ++ zeros (no l + 2)) tn (c ++ bp_in pv l i)).
Proof.
  intros Ho Hn Hf Ho64 Hder Hp Hi Hlen. unfold dense_input_bp.
  rewrite urange_seq, Ho. erewrite mbnd_ok.
  2:{ rewrite mmap_map.
      apply (mmap_emit _ (fun j a => OMul (Some a) (Some (adif l j)) (Some (aw l j i)))).
      intros j mm' c' Hj.
      erewrite mbnd_ok by (unfold mlift; rewrite GetOperand_blk1 by lia; reflexivity).
      erewrite mbnd_ok by (unfold mlift; rewrite GetOperand_blk2 by (try assumption; lia); reflexivity).
      erewrite mbnd_ok by reflexivity. cbn [mem tens ctx].
      erewrite mbnd_ok by reflexivity. unfold mret. cbn [mem tens ctx].
      unfold aw, adif. rewrite Hn. do 4 f_equal. do 2 f_equal; f_equal; lia. }
  erewrite mbnd_ok by reflexivity. erewrite mbnd_ok by reflexivity. rewrite Nat2N.id.
  erewrite mbnd_ok by (apply in_ops_at with (1 := Hder); lia).
  erewrite mbnd_ok by reflexivity. cbn [mem tens ctx].
  erewrite mbnd_ok by (apply in_ops_at with (1 := Hp); lia).
  erewrite mbnd_ok by reflexivity. unfold push. cbn [mem tens ctx].
  rewrite <- !app_assoc. unfold bp_in. f_equal. f_equal.
  - f_equal. unfold zeros. rewrite replicate_add. reflexivity.
  - f_equal. rewrite !app_length. unfold zeros. rewrite replicate_length, Hlen. cbn [app length Nat.add].
    f_equal.
    + apply map_ext. intros j. unfold asc. do 2 f_equal. lia.
    + f_equal; [|f_equal; [|f_equal]].
      * f_equal; [f_equal; unfold asc; lia|]. rewrite map_Some_seq. apply map_ext. intros j. unfold asc. f_equal. lia.
      * f_equal; f_equal; unfold asc; lia.
      * f_equal; f_equal; unfold asc; lia.
Qed.

Lemma dense_unit_bp_ok (al mo : nat) (l : dlay T) (o n : N) mi bd bw bb bnw bmw bnb bmb mm tn c (i : nat) :
  N.to_nat o = no l -> N.to_nat n = ni l -> fits [o; n] -> (o < W64)%N ->
  in_ops mi (ni l) (ain l) -> i < no l -> length mm = au l i 0 ->
  dense_unit_bp mi (blkm [o] (adif l 0) bd) (blkm [o; n] (aw l 0 0) bw) (blkm [o] (ab l 0) bb)
    (blkm [o; n] (anw l 0 0) bnw) (blkm [o; n] (amw l 0 0) bmw) (blkm [o] (anb l 0) bnb) (blkm [o] (amb l 0) bmb)
    (Some al) (Some mo) (N.of_nat i) (MkSt mm tn c) =
  (Ok tt, MkSt (mm ++ zeros (ni l + ni l + 2)) tn (c ++ bp_unit al mo l i)).
Proof.
  intros Ho Hn Hf Ho64 Hin Hi Hlen. unfold dense_unit_bp.
  erewrite mbnd_ok by (unfold mlift; rewrite GetOperand_blk1 by lia; reflexivity).
  erewrite mbnd_ok by reflexivity. erewrite mbnd_ok by reflexivity. cbn [mem tens ctx].
  erewrite mbnd_ok by (unfold mlift; rewrite GetOperand_blk1 by lia; reflexivity).
  erewrite mbnd_ok by reflexivity. erewrite mbnd_ok by reflexivity. cbn [mem tens ctx].
  erewrite mbnd_ok by (unfold mlift; rewrite GetOperand_blk1 by lia; reflexivity).
  erewrite mbnd_ok by (unfold mlift; rewrite GetOperand_blk1 by lia; reflexivity).
  erewrite mbnd_ok by reflexivity. cbn [mem tens ctx].
  rewrite urange_seq, (in_ops_size _ _ _ Hin), Nat2N.id, mfor_map.
  assert (Hmm : length ((mm ++ [nzero]) ++ [nzero]) = au l i 2).
  { rewrite !app_length, Hlen. unfold au. cbn. lia. }
  set (mm2 := (mm ++ [nzero]) ++ [nzero]) in *.
  assert (H0 : adif l 0 + i = adif l i) by (unfold adif; lia).
  assert (H1 : ab l 0 + i = ab l i) by (unfold ab; lia).
  assert (H2 : anb l 0 + i = anb l i) by (unfold anb; lia).
  assert (H3 : amb l 0 + i = amb l i) by (unfold amb; lia).
  rewrite (mfor_emit 2 _ (fun j a => [OMul (Some a) (Some (au l i 0)) (Some (ain l j));
     OMul (Some (S a)) (Some (amw l i j)) (Some mo);
     OSum (Some (anw l i j)) [Some (aw l i j); Some (S a); Some a]])).
  - f_equal. f_equal.
    + unfold mm2. rewrite <- !app_assoc. f_equal. cbn [app]. change (nzero :: nzero :: zeros (ni l * 2)) with (zeros (2 + ni l * 2)).
      f_equal. lia.
    + rewrite <- !app_assoc. f_equal. unfold bp_unit. cbn [app].
      rewrite app_length, Hlen, H0, H1, H2, H3. cbn [length].
      assert (E1 : au l i 0 + 1 = au l i 1) by (unfold au; lia). rewrite E1.
      do 3 f_equal. rewrite Hmm. rewrite !flat_map_concat_map. f_equal. apply map_ext. intros j. cbn [Nat.add].
      unfold bp_cell.
      assert (E2 : au l i 2 + j * 2 = au l i (2 + 2 * j)) by (unfold au; lia). rewrite E2.
      assert (E3 : S (au l i (2 + 2 * j)) = au l i (3 + 2 * j)) by (unfold au; lia). rewrite E3. reflexivity.
  - intros j mm' c' Hj. rewrite Nat2N.id.
    erewrite mbnd_ok by (apply in_ops_at with (1 := Hin); lia).
    erewrite mbnd_ok by (unfold mlift; rewrite GetOperand_blk2 by (try assumption; lia); reflexivity).
    erewrite mbnd_ok by reflexivity. erewrite mbnd_ok by reflexivity. cbn [mem tens ctx].
    erewrite mbnd_ok by reflexivity. erewrite mbnd_ok by reflexivity. cbn [mem tens ctx].
    erewrite mbnd_ok by (unfold mlift; rewrite GetOperand_blk2 by (try assumption; lia); reflexivity).
    erewrite mbnd_ok by (unfold mlift; rewrite GetOperand_blk2 by (try assumption; lia); reflexivity).
    unfold push. cbn [mem tens ctx]. rewrite <- !app_assoc, app_length, Hlen, Nat.add_1_r. cbn [app].
    rewrite Hn.
    assert (E1 : amw l 0 0 + (i * ni l + j) = amw l i j) by (unfold amw; lia). rewrite E1.
    assert (E2 : anw l 0 0 + (i * ni l + j) = anw l i j) by (unfold anw; lia). rewrite E2.
    assert (E3 : aw l 0 0 + (i * ni l + j) = aw l i j) by (unfold aw; lia). rewrite E3. reflexivity.
Qed.

Lemma mfor_grow (k : nat) (f : nat -> TM T unit) (g : nat -> list (op T)) (a : nat -> nat) tn n mm c :
  (forall i, i < n -> a (S i) = a i + k) -> length mm = a 0 ->
  (forall i mm c, i < n -> length mm = a i -> f i (MkSt mm tn c) = (Ok tt, MkSt (mm ++ zeros k) tn (c ++ g i))) ->
  mfor (seq 0 n) f (MkSt mm tn c) = (Ok tt, MkSt (mm ++ zeros (n * k)) tn (c ++ flat_map g (seq 0 n))).
Proof.
  intros Ha H0 Hf.
  assert (Hgen : forall r j mm c, j + r = n -> length mm = a j ->
    mfor (seq j r) f (MkSt mm tn c) = (Ok tt, MkSt (mm ++ zeros (r * k)) tn (c ++ flat_map g (seq j r)))).
  { induction r as [|r IH]; intros j mm' c' Hj Hl; cbn [seq mfor].
    - cbn. unfold mret. rewrite !app_nil_r. reflexivity.
    - erewrite mbnd_ok by (apply Hf; [lia|assumption]). rewrite IH.
      + rewrite <- !app_assoc. cbn [flat_map]. do 2 f_equal. f_equal.
        unfold zeros. rewrite <- replicate_add. reflexivity.
      + lia.
      + rewrite app_length, zeros_length, Ha by lia. lia. }
  apply Hgen; auto.
Qed.

(** ** Building tensors modulo the "built" flag *)
Definition blk (s : tst T) (t : nat) (sh : list N) (a : nat) : Prop :=
  exists b, tens s !! t = Some (MkNode KMat (blkm sh a b)).
(** Nothing that existed changed, except "built" flags. *)
Definition tle (s s' : tst T) : Prop :=
  forall t k m, tens s !! t = Some (MkNode k m) ->
    exists b, tens s' !! t = Some (MkNode k (MkMat (shape m) (mulindex m) (operands m) b)).
Lemma tle_refl s : tle s s.
Proof. intros t k m E. exists (builded m). rewrite E. destruct m; reflexivity. Qed.
Lemma tle_trans s s1 s2 : tle s s1 -> tle s1 s2 -> tle s s2.
Proof.
  intros H1 H2 t k m E. destruct (H1 t k m E) as [b Eb]. destruct (H2 _ _ _ Eb) as [b' Eb'].
  exists b'. rewrite Eb'. reflexivity.
Qed.
Lemma tle_app s s' x : tens s' = tens s ++ x -> tle s s'.
Proof.
  intros E t k m Ht. exists (builded m). rewrite E, lookup_app_l by (eapply lookup_lt_Some; eassumption).
  rewrite Ht. destruct m; reflexivity.
Qed.
Lemma tle_blk s s' t sh a : tle s s' -> blk s t sh a -> blk s' t sh a.
Proof. intros HL [b E]. destruct (HL _ _ _ E) as [b' E']. exists b'. exact E'. Qed.
Lemma tle_len s s' : tle s s' -> length (tens s) <= length (tens s').
Proof.
  intros HL. destruct (length (tens s)) as [|n] eqn:E; [lia|].
  destruct (lookup_lt_is_Some_2 (tens s) n) as [[k m] Hx]; [lia|].
  destruct (HL _ _ _ Hx) as [b Hb]. apply lookup_lt_Some in Hb. lia.
Qed.

(** Operations without the marker operations of plain tensors, which do nothing. *)
Fixpoint strip (ops : list (op T)) : list (op T) :=
  match ops with [] => [] | OScalar _ :: r => strip r | o :: r => o :: strip r end.
Lemma strip_app a b : strip (a ++ b) = strip a ++ strip b.
Proof. induction a as [|o a IH]; [reflexivity|]. destruct o; cbn; rewrite IH; reflexivity. Qed.
Lemma strip_scalars ps : strip (map OScalar ps) = [].
Proof. induction ps as [|p ps IH]; [reflexivity|exact IH]. Qed.
Lemma exec_strip ops : forall m, exec ops m = exec (strip ops) m.
Proof.
  induction ops as [|o ops IH]; intros m; [reflexivity|].
  destruct o; cbn [strip exec]; try exact (IH m);
  match goal with |- match ?X with _ => _ end = _ => destruct X; [apply IH|reflexivity] | |- mbind _ ?X = _ => destruct X; cbn; [apply IH|reflexivity] end.
Qed.
Lemma strip_map {A} (g : A -> op T) (l : list A) : (forall x, strip [g x] = [g x]) -> strip (map g l) = map g l.
Proof.
  intros Hg. induction l as [|x l IH]; [reflexivity|]. cbn [map].
  change (g x :: map g l) with ([g x] ++ map g l). rewrite strip_app, Hg, IH. reflexivity.
Qed.
Definition plain (ops : list (op T)) : Prop := strip ops = ops.

Lemma leaf_built (s : tst T) t sh a fuel : blk s t sh a ->
  exists s' ps, BuildGraph (S fuel) t s = (Ok tt, s') /\ mem s' = mem s /\ tle s s' /\
    ctx s' = ctx s ++ map OScalar ps /\ length (tens s') = length (tens s) /\
    tens s' !! t = Some (MkNode KMat (blkm sh a true)) /\
    (forall j, j <> t -> tens s' !! j = tens s !! j).
Proof.
  intros [b E]. cbn [BuildGraph].
  erewrite mbnd_ok by (unfold get_node; rewrite E; reflexivity). cbn [nmat nkind builded blkm].
  destruct b.
  - exists s, []. split; [reflexivity|]. split; [reflexivity|]. split; [apply tle_refl|].
    split; [cbn; rewrite app_nil_r; reflexivity|]. split; [reflexivity|]. split; [exact E|reflexivity].
  - erewrite mbnd_ok by (apply set_built_state; exact E). rewrite push_scalars.
    eexists _, _. split; [reflexivity|]. unfold st_with. cbn [mem tens ctx shape mulindex operands builded blkm].
    pose proof (lookup_lt_Some _ _ _ E) as Hlt.
    split; [reflexivity|]. split; [|split; [reflexivity|]].
    + intros j k m Hj. destruct (decide (j = t)) as [->|Hne].
      * rewrite E in Hj. injection Hj as <- <-. exists true. cbn [tens]. apply list_lookup_insert. assumption.
      * exists (builded m). cbn [tens]. rewrite list_lookup_insert_ne by congruence. rewrite Hj. destruct m; reflexivity.
    + split; [apply insert_length|]. split.
      * cbn [tens]. apply list_lookup_insert. assumption.
      * intros j Hne. cbn [tens]. rewrite list_lookup_insert_ne by congruence. reflexivity.
Qed.

Lemma st_with_id (s : tst T) id k m : tens s !! id = Some (MkNode k m) ->
  s = st_with (mem s) (tens s) (ctx s) id k m.
Proof. intros E. unfold st_with. rewrite list_insert_id by assumption. destruct s; reflexivity. Qed.

Lemma build_map_blk (s : tst T) d t sh a b mk k m0 :
  tens s !! t = Some (MkNode KMat (blkm sh a b)) \/ (exists k', tens s !! t = Some (MkNode k' (blkm sh a b))) ->
  tens s !! d = Some (MkNode k m0) -> t <> d ->
  build_map d t mk s = (Ok tt, st_with (mem s ++ zeros (N.to_nat (prodN sh))) (tens s)
     (ctx s ++ map (fun i => mk (Some (length (mem s) + i)) (Some (a + i))) (seq 0 (N.to_nat (prodN sh))))
     d k (blkm sh (length (mem s)) (builded m0))).
Proof.
  intros Ht0 Hd Hne.
  assert (Ht : exists k', tens s !! t = Some (MkNode k' (blkm sh a b))) by (destruct Ht0; eauto). clear Ht0.
  destruct Ht as [k' Ht].
  pose proof (lookup_lt_Some _ _ _ Hd) as Hlt.
  unfold build_map. erewrite mbnd_ok by (eapply get_mat_tens; exact Ht).
  rewrite (st_with_id s d k m0 Hd) at 1.
  erewrite mbnd_ok by (apply set_shape_with; assumption).
  unfold make_operands. erewrite mbnd_ok by (apply set_operands_with; assumption).
  cbn [shape mulindex operands builded blkm]. rewrite map_length, seq_length.
  rewrite (emit_each_ok _ (fun i o => mk o (Some (a + i)))).
  - reflexivity.
  - assumption.
  - intros i o s' Hi. erewrite mbnd_ok.
    2:{ apply atM_ok. rewrite list_lookup_fmap, lookup_seq_lt by assumption. reflexivity. }
    reflexivity.
Qed.

Lemma tens_with mm (tn : list (node T)) c d k m j : d < length tn ->
  tens (st_with mm tn c d k m) !! j = if decide (j = d) then Some (MkNode k m) else tn !! j.
Proof.
  intros Hd. unfold st_with. cbn [tens]. case_decide as E.
  - subst j. apply list_lookup_insert. assumption.
  - apply list_lookup_insert_ne. congruence.
Qed.

Lemma new_node_tens (s : tst T) k m j :
  tens (snd (new_node k m s)) !! j = if decide (j = length (tens s)) then Some (MkNode k m) else tens s !! j.
Proof.
  unfold new_node. cbn [snd tens]. case_decide as E.
  - subst j. apply list_lookup_middle. reflexivity.
  - destruct (decide (j < length (tens s))) as [Hl|Hl].
    + apply lookup_app_l. assumption.
    + rewrite !lookup_ge_None_2; [reflexivity|lia|rewrite app_length; cbn; lia].
Qed.

(** A node over a plain tensor, created and built: its derivative (activate.go). *)
Lemma NActivate_built (s : tst T) t sh a f : blk s t sh a ->
  exists s1 s2 ops, NActivate t f s = (Ok (length (tens s)), s1) /\ Build (length (tens s)) s1 = (Ok tt, s2) /\
    mem s2 = mem s ++ zeros (N.to_nat (prodN sh)) /\ tle s s2 /\
    tens s2 !! length (tens s) = Some (MkNode (KActivate t f) (blkm sh (length (mem s)) true)) /\
    ctx s2 = ctx s ++ ops /\
    strip ops = map (fun i => OFunc (Some (length (mem s) + i)) (Some (a + i)) f) (seq 0 (N.to_nat (prodN sh))).
Proof.
  intros Hb. destruct Hb as [b Hb]. pose proof (lookup_lt_Some _ _ _ Hb) as Hlt.
  set (d := length (tens s)).
  pose (s1 := snd (new_node (KActivate t f) empty_mat s)).
  assert (Hs1 : forall j, tens s1 !! j = if decide (j = d) then Some (MkNode (KActivate t f) empty_mat) else tens s !! j)
    by (intros; apply new_node_tens).
  assert (Hd1 : tens s1 !! d = Some (MkNode (KActivate t f) empty_mat)) by (rewrite Hs1, decide_True; reflexivity).
  assert (Hl1 : length (tens s1) = S d) by (cbn; rewrite app_length; cbn; fold d; lia).
  pose (s2 := st_with (mem s1) (tens s1) (ctx s1) d (KActivate t f) (MkMat [] [] [] true)).
  assert (Hb2 : blk s2 t sh a).
  { exists b. unfold s2. rewrite tens_with by lia. rewrite decide_False by (fold d in Hlt; lia).
    rewrite Hs1, decide_False by (fold d in Hlt; lia). exact Hb. }
  assert (Hd : exists d', d = S d') by (exists (pred d); fold d in Hlt; lia). destruct Hd as [d' Hd].
  destruct (leaf_built s2 t sh a d' Hb2) as (s3 & ps & E3 & M3 & L3 & C3 & N3 & T3 & O3).
  assert (Hd3 : tens s3 !! d = Some (MkNode (KActivate t f) (MkMat [] [] [] true))).
  { rewrite O3 by (fold d in Hlt; lia). unfold s2. rewrite tens_with by lia. rewrite decide_True; reflexivity. }
  assert (Hl3 : length (tens s3) = S d) by (rewrite N3; unfold s2, st_with; cbn [tens]; rewrite insert_length; exact Hl1).
  pose proof (build_map_blk s3 d t sh a true (fun d a => OFunc d a f) _ _ (or_introl T3) Hd3) as E4.
  rewrite M3 in E4.
  eexists s1, _, (map OScalar ps ++ _). split; [reflexivity|]. split; [|split; [|split; [|split; [|split]]]].
  - unfold Build. cbn [BuildGraph]. erewrite mbnd_ok by (unfold get_node; rewrite Hd1; reflexivity).
    cbn [nmat nkind builded empty_mat]. erewrite mbnd_ok by (apply set_built_state; exact Hd1).
    fold s2. rewrite Hd at 1. erewrite mbnd_ok by exact E3. apply E4. fold d in Hlt. lia.
  - reflexivity.
  - intros j k m Hj. pose proof (lookup_lt_Some _ _ _ Hj) as Hjl. fold d in Hjl.
    rewrite tens_with by lia. rewrite decide_False by lia.
    destruct (L3 j k m) as [b' Hb']; [|exists b'; exact Hb'].
    unfold s2. rewrite tens_with by lia. rewrite decide_False by lia. rewrite Hs1, decide_False by lia. exact Hj.
  - rewrite tens_with by lia.
    rewrite decide_True by reflexivity. reflexivity.
  - cbn [ctx st_with]. rewrite C3. rewrite <- app_assoc. reflexivity.
  - rewrite strip_app, strip_scalars. cbn [app].
    apply strip_map. reflexivity.
Qed.

Definition tle_off (d : nat) (s s' : tst T) : Prop :=
  length (tens s') = length (tens s) /\
  forall t k m, t <> d -> tens s !! t = Some (MkNode k m) ->
    exists b, tens s' !! t = Some (MkNode k (MkMat (shape m) (mulindex m) (operands m) b)).

Lemma abs_node_built (s : tst T) d t sh a fuel :
  tens s !! d = Some (MkNode (KAbs t) empty_mat) -> blk s t sh a ->
  exists s' ops, BuildGraph (S (S fuel)) d s = (Ok tt, s') /\
    mem s' = mem s ++ zeros (N.to_nat (prodN sh)) /\ tle_off d s s' /\
    tens s' !! d = Some (MkNode (KAbs t) (blkm sh (length (mem s)) true)) /\
    ctx s' = ctx s ++ ops /\
    strip ops = map (fun i => OAbs (Some (length (mem s) + i)) (Some (a + i))) (seq 0 (N.to_nat (prodN sh))).
Proof.
  intros Hd Hb. pose proof (lookup_lt_Some _ _ _ Hd) as Hlt.
  assert (Hne : t <> d) by (destruct Hb as [b Hb]; intros ->; congruence).
  pose (s2 := st_with (mem s) (tens s) (ctx s) d (KAbs t) (MkMat [] [] [] true)).
  assert (Hb2 : blk s2 t sh a).
  { destruct Hb as [b Hb]. exists b. unfold s2. rewrite tens_with by lia. rewrite decide_False by assumption. exact Hb. }
  destruct (leaf_built s2 t sh a fuel Hb2) as (s3 & ps & E3 & M3 & L3 & C3 & N3 & T3 & O3).
  assert (Hd3 : tens s3 !! d = Some (MkNode (KAbs t) (MkMat [] [] [] true))).
  { rewrite O3 by congruence. unfold s2. rewrite tens_with by lia. rewrite decide_True; reflexivity. }
  assert (Hl3 : length (tens s3) = length (tens s)) by (rewrite N3; unfold s2, st_with; cbn [tens]; apply insert_length).
  pose proof (build_map_blk s3 d t sh a true OAbs _ _ (or_introl T3) Hd3 Hne) as E4.
  rewrite M3 in E4.
  eexists _, (map OScalar ps ++ _). split; [|split; [|split; [|split; [|split]]]].
  - cbn [BuildGraph]. erewrite mbnd_ok by (unfold get_node; rewrite Hd; reflexivity).
    cbn [nmat nkind builded empty_mat]. erewrite mbnd_ok by (apply set_built_state; exact Hd).
    fold s2. erewrite mbnd_ok by exact E3. apply E4.
  - reflexivity.
  - split; [unfold st_with; cbn [tens]; rewrite insert_length; exact Hl3|].
    intros j k m Hj0 Hj. rewrite tens_with by lia. rewrite decide_False by assumption.
    destruct (L3 j k m) as [b' Hb']; [|exists b'; exact Hb'].
    unfold s2. rewrite tens_with by lia. rewrite decide_False by assumption. exact Hj.
  - rewrite tens_with by lia. rewrite decide_True by reflexivity. reflexivity.
  - cbn [ctx st_with]. rewrite C3. rewrite <- app_assoc. reflexivity.
  - rewrite strip_app, strip_scalars. cbn [app]. apply strip_map. reflexivity.
Qed.

(** The loss: absolute values, then their sum (model.go:208-211). *)
Lemma abs_sum_built (s : tst T) t sh a : blk s t sh a ->
  exists s', (x <~ NAbs t ; y <~ TensorMath x RSum ; ignore_err (Build y) ;~
              ms <~ get_mat y ; atM (operands ms) 0) s =
      (Ok (Some (length (mem s) + N.to_nat (prodN sh))), s') /\
    mem s' = mem s ++ zeros (N.to_nat (prodN sh)) ++ [nzero] /\ tle s s' /\
    exists ops, ctx s' = ctx s ++ ops /\
    strip ops = map (fun i => OAbs (Some (length (mem s) + i)) (Some (a + i))) (seq 0 (N.to_nat (prodN sh))) ++
      [OSum (Some (length (mem s) + N.to_nat (prodN sh)))
         (map (fun i => Some (length (mem s) + i)) (seq 0 (N.to_nat (prodN sh))))].
Proof.
  intros Hb. destruct Hb as [b Hb]. pose proof (lookup_lt_Some _ _ _ Hb) as Hlt.
  set (d := length (tens s)) in *. set (n := N.to_nat (prodN sh)).
  pose (sa := snd (new_node (KAbs t) empty_mat s)).
  pose (sb := snd (new_node (KTensorMath d RSum) empty_mat sa)).
  assert (La : length (tens sa) = S d) by (cbn; rewrite app_length; cbn; fold d; lia).
  assert (Hsb : forall j, tens sb !! j = if decide (j = S d) then Some (MkNode (KTensorMath d RSum) empty_mat)
     else if decide (j = d) then Some (MkNode (KAbs t) empty_mat) else tens s !! j).
  { intros j. unfold sb. rewrite new_node_tens, La. case_decide; [reflexivity|]. unfold sa. rewrite new_node_tens. reflexivity. }
  assert (Lb : length (tens sb) = S (S d)) by (cbn; rewrite !app_length; cbn; fold d; lia).
  assert (Hd1 : tens sb !! S d = Some (MkNode (KTensorMath d RSum) empty_mat)) by (rewrite Hsb, decide_True; reflexivity).
  pose (s2 := st_with (mem sb) (tens sb) (ctx sb) (S d) (KTensorMath d RSum) (MkMat [] [] [] true)).
  assert (Hs2 : forall j, j <> S d -> tens s2 !! j = tens sb !! j).
  { intros j Hj. unfold s2. rewrite tens_with by lia. rewrite decide_False by assumption. reflexivity. }
  assert (Hd : exists d', d = S d') by (exists (pred d); lia). destruct Hd as [d' Hd].
  destruct (abs_node_built s2 d t sh a d') as (s3 & ops & E3 & M3 & (N3 & L3) & T3 & C3 & O3).
  { rewrite Hs2, Hsb by lia. rewrite decide_False, decide_True by lia. reflexivity. }
  { exists b. rewrite Hs2, Hsb by lia. rewrite !decide_False by lia. exact Hb. }
  assert (Hl3 : length (tens s3) = S (S d)) by (rewrite N3; unfold s2, st_with; cbn [tens]; rewrite insert_length; exact Lb).
  assert (Hd3 : exists b3, tens s3 !! S d = Some (MkNode (KTensorMath d RSum) (MkMat [] [] [] b3))).
  { destruct (L3 (S d) (KTensorMath d RSum) (MkMat [] [] [] true)) as [b3 H3]; [lia| |exists b3; exact H3].
    unfold s2. rewrite tens_with by lia. rewrite decide_True; reflexivity. }
  destruct Hd3 as [b3 Hd3].
  assert (E5 : exists bb, build_tensormath (S d) d RSum s3 =
     (Ok tt, st_with (mem s3 ++ [nzero]) (tens s3)
        (ctx s3 ++ [OSum (Some (length (mem s3))) (map Some (seq (length (mem s2)) n))])
        (S d) (KTensorMath d RSum) (MkMat [1%N] [1%N] [Some (length (mem s3))] bb))).
  { exists b3. unfold build_tensormath. erewrite mbnd_ok by (eapply get_mat_tens; exact T3).
    rewrite (st_with_id s3 (S d) _ _ Hd3) at 1.
    erewrite mbnd_ok by (apply set_shape_with; lia).
    erewrite mbnd_ok by reflexivity. cbn [mem tens ctx st_with].
    match goal with |- context [MkSt ?mm (<[S d := MkNode ?k ?m]> (tens s3)) ?c] =>
      change (MkSt mm (<[S d := MkNode k m]> (tens s3)) c) with (st_with mm (tens s3) c (S d) k m) end.
    erewrite mbnd_ok by (apply set_operands_with; lia). reflexivity. }
  destruct E5 as [bb E5].
  assert (EB : Build (S d) sb = (Ok tt, st_with (mem s3 ++ [nzero]) (tens s3)
        (ctx s3 ++ [OSum (Some (length (mem s3))) (map Some (seq (length (mem s2)) n))])
        (S d) (KTensorMath d RSum) (MkMat [1%N] [1%N] [Some (length (mem s3))] bb))).
  { unfold Build.
    change (BuildGraph (S (S d)) (S d) sb) with
      ((n0 <~ get_node (S d) ; if builded (nmat n0) then mret tt else set_built (S d) ;~
        match nkind n0 with
        | KMat => mfor (operands (nmat n0)) (fun o => push (OScalar o))
        | KAbs t => BuildGraph (S d) t ;~ build_map (S d) t OAbs
        | KNeg t => BuildGraph (S d) t ;~ build_map (S d) t ONeg
        | KActivate t f => BuildGraph (S d) t ;~ build_map (S d) t (fun d a => OFunc d a f)
        | KOp2 a b o => BuildGraph (S d) a ;~ BuildGraph (S d) b ;~ build_op2 (S d) a b o
        | KOpScalar t s o => BuildGraph (S d) t ;~ build_opscalar (S d) t s o
        | KConcat a b d0 => BuildGraph (S d) a ;~ BuildGraph (S d) b ;~ build_concat (S d) a b d0
        | KCopy f t => BuildGraph (S d) f ;~ BuildGraph (S d) t ;~ build_copy (S d) f t
        | KFill t v => BuildGraph (S d) t ;~ build_fill (S d) t v
        | KDimMath t d0 o => BuildGraph (S d) t ;~ build_dimmath (S d) t d0 o
        | KDot a b dims => BuildGraph (S d) a ;~ BuildGraph (S d) b ;~ build_dot (S d) a b dims
        | KReshape t => BuildGraph (S d) t ;~ build_reshape (S d) t
        | KSoftMax t => BuildGraph (S d) t ;~ build_softmax (S d) t
        | KSub t d0 s e g => BuildGraph (S d) t ;~ build_sub (S d) t d0 s e g
        | KTensorMath t o => BuildGraph (S d) t ;~ build_tensormath (S d) t o
        | KTranspose t => BuildGraph (S d) t ;~ build_transpose (S d) t
        end) sb).
    erewrite mbnd_ok by (unfold get_node; rewrite Hd1; reflexivity).
    cbn [nmat nkind builded empty_mat]. erewrite mbnd_ok by (apply set_built_state; exact Hd1).
    cbn [shape mulindex operands empty_mat]. fold s2. rewrite Hd at 1.
    erewrite mbnd_ok by exact E3. exact E5. }
  eexists. split; [|split; [|split]].
  - erewrite mbnd_ok by reflexivity. fold sa. fold d.
    assert (ET : TensorMath d RSum sa = (Ok (S d), sb)) by (rewrite <- La; reflexivity).
    erewrite mbnd_ok by exact ET.
    erewrite mbnd_ok by (unfold ignore_err; rewrite EB; reflexivity).
    erewrite mbnd_ok.
    2:{ eapply get_mat_tens. rewrite tens_with by lia. rewrite decide_True by reflexivity. reflexivity. }
    cbn [operands]. unfold atM, mlift, at_or_panic. cbn [lookup list_lookup].
    assert (Lm : length (mem s3) = length (mem s) + n) by (rewrite M3, app_length, zeros_length; reflexivity).
    rewrite <- Lm. reflexivity.
  - cbn [mem st_with]. rewrite M3. rewrite <- app_assoc. reflexivity.
  - intros j k m Hj. pose proof (lookup_lt_Some _ _ _ Hj) as Hjl. fold d in Hjl.
    rewrite tens_with by lia. rewrite decide_False by lia. apply L3; [lia|].
    rewrite Hs2, Hsb by lia. rewrite !decide_False by lia. exact Hj.
  - eexists (ops ++ _). cbn [ctx st_with]. rewrite C3, <- app_assoc. split; [reflexivity|].
    rewrite strip_app, O3. cbn [strip]. rewrite M3, app_length, zeros_length, map_Some_seq. reflexivity.
Qed.

(** fill.go *)
Lemma Fill_built (s : tst T) t sh a z : blk s t sh a ->
  exists s' ops, Fill t (Some z) s = (Ok tt, s') /\ mem s' = mem s /\ tle s s' /\
    ctx s' = ctx s ++ ops /\
    strip ops = map (fun i => OSet (Some (a + i)) (Some z)) (seq 0 (N.to_nat (prodN sh))).
Proof.
  intros Hb. destruct Hb as [b Hb]. pose proof (lookup_lt_Some _ _ _ Hb) as Hlt.
  set (d := length (tens s)) in *.
  pose (s1 := snd (new_node (KFill t (Some z)) empty_mat s)).
  assert (Hs1 : forall j, tens s1 !! j = if decide (j = d) then Some (MkNode (KFill t (Some z)) empty_mat) else tens s !! j)
    by (intros; apply new_node_tens).
  assert (Hd1 : tens s1 !! d = Some (MkNode (KFill t (Some z)) empty_mat)) by (rewrite Hs1, decide_True; reflexivity).
  assert (Hl1 : length (tens s1) = S d) by (cbn; rewrite app_length; cbn; fold d; lia).
  pose (s2 := st_with (mem s1) (tens s1) (ctx s1) d (KFill t (Some z)) (MkMat [] [] [] true)).
  assert (Hb2 : blk s2 t sh a).
  { exists b. unfold s2. rewrite tens_with by lia. rewrite decide_False by lia.
    rewrite Hs1, decide_False by lia. exact Hb. }
  assert (Hd : exists d', d = S d') by (exists (pred d); lia). destruct Hd as [d' Hd].
  destruct (leaf_built s2 t sh a d' Hb2) as (s3 & ps & E3 & M3 & L3 & C3 & N3 & T3 & O3).
  assert (Hd3 : tens s3 !! d = Some (MkNode (KFill t (Some z)) (MkMat [] [] [] true))).
  { rewrite O3 by lia. unfold s2. rewrite tens_with by lia. rewrite decide_True; reflexivity. }
  assert (Hl3 : length (tens s3) = S d) by (rewrite N3; unfold s2, st_with; cbn [tens]; rewrite insert_length; exact Hl1).
  assert (Hpush : forall ops (s0 : tst T), mfor ops (fun p => push (OSet p (Some z))) s0 =
     (Ok tt, MkSt (mem s0) (tens s0) (ctx s0 ++ map (fun p => OSet p (Some z)) ops))).
  { induction ops as [|p ops IH]; intros s0.
    - cbn. rewrite app_nil_r. destruct s0; reflexivity.
    - cbn [mfor map]. erewrite mbnd_ok by reflexivity. rewrite IH. cbn. rewrite <- app_assoc. reflexivity. }
  eexists _, (map OScalar ps ++ map (fun p => OSet p (Some z)) (map Some (seq a (N.to_nat (prodN sh))))).
  split; [|split; [|split; [|split]]].
  - unfold Fill. assert (EF : FillWith t (Some z) s = (Ok d, s1)) by reflexivity.
    erewrite mbnd_ok by exact EF.
    unfold Build. cbn [BuildGraph]. erewrite mbnd_ok by (unfold get_node; rewrite Hd1; reflexivity).
    cbn [nmat nkind builded empty_mat]. erewrite mbnd_ok by (apply set_built_state; exact Hd1).
    fold s2. rewrite Hd at 1. erewrite mbnd_ok by exact E3.
    unfold build_fill. erewrite mbnd_ok by (eapply get_mat_tens; exact T3).
    rewrite (st_with_id s3 d _ _ Hd3) at 1.
    erewrite mbnd_ok by (apply set_shape_with; lia).
    erewrite mbnd_ok by (apply set_operands_with; lia).
    rewrite Hpush. reflexivity.
  - cbn [mem st_with]. rewrite M3. reflexivity.
  - intros j k m Hj. pose proof (lookup_lt_Some _ _ _ Hj) as Hjl. fold d in Hjl.
    unfold st_with. cbn [tens]. rewrite list_lookup_insert_ne by lia.
    destruct (L3 j k m) as [b' Hb']; [|exists b'; exact Hb'].
    unfold s2. rewrite tens_with by lia. rewrite decide_False by lia. rewrite Hs1, decide_False by lia. exact Hj.
  - cbn [ctx st_with]. rewrite C3. rewrite <- app_assoc. reflexivity.
  - rewrite strip_app, strip_scalars. cbn [app]. rewrite map_Some_seq, map_map. apply strip_map. reflexivity.
Qed.
End NetBuild.
