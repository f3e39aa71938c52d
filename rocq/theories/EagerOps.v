(** * EagerOps: the eager methods compute their mathematical operation *)
From Verif Require Import Base Num ModelTools ModelOps ModelTensor Spec Denote ObjSpec
  IndexProofs ExecProofs TensorFacts BuildProofs BuildProofs2 BuildProofs3 EagerProofs AccessProofs.
From Coq Require Import Lia ZifyBool ZifyNat ZifyN.

Section EagerOps.
Context {T : Type} `{Num T}.

(** ** Loops over the positions of the result *)
Lemma eager_tab (s : tst T) sh mul n body (G : list N -> option T) :
  fits sh -> mul = GetIndexMul sh -> n = N.to_nat (prodN sh) ->
  (forall i idx s1, indices sh !! i = Some idx ->
     (exists ext, mem s1 = mem s ++ ext) -> tens s1 = tens s -> ctx s1 = ctx s ->
     match G idx with Some v => body i s1 = alloc v s1 | None => body i s1 = (Panic, s1) end) ->
  returns_new_or_panics s ((ops <~ mmap (range n) body ; new_mat sh mul ops) s) (tabulate sh G).
Proof.
  intros Hf -> -> Hb.
  pose proof (eager_method s (range (N.to_nat (prodN sh))) body
    (fun i => idx ← indices sh !! i; G idx) sh (GetIndexMul sh) Hf eq_refl) as Hm.
  rewrite (tabulate_range sh G (fun i => idx ← indices sh !! i; G idx)).
  - apply Hm; [unfold range; apply seq_length|].
    intros i s1 Hi He Ht Hc. apply elem_of_seq in Hi.
    destruct (indices_lookup_total sh i) as [idx Hidx]; [lia|]. rewrite Hidx. cbn [mbind option_bind].
    apply Hb; assumption.
  - intros i idx Hidx. rewrite Hidx. reflexivity.
Qed.

(** Every element copied from one position of an existing tensor. *)
Lemma read_at (s : tst T) p v n idx x :
  holds s p v -> tens s !! p = Some n -> at_ (vsh v) (vdata v) idx = Some x ->
  exists o, at_ (shape (nmat n)) (operands (nmat n)) idx = Some o /\ GetOperand (nmat n) idx = Ok o /\ rd (mem s) o = Some x.
Proof.
  intros Hp Hn Hx. destruct (holds_data _ _ _ _ Hp Hn) as (Hsh & Hd & Hwf & _).
  rewrite (at_rds _ _ _ _ _ Hd), <- Hsh in Hx.
  destruct (at_ (shape (nmat n)) (operands (nmat n)) idx) as [o|] eqn:Ho; [|discriminate].
  exists o. split; [reflexivity|]. split; [eapply GetOperand_at; eassumption|exact Hx].
Qed.

Lemma at_in_range {A} sh (d : list A) idx x : at_ sh d idx = Some x -> Forall2 (fun i m => (i < m)%N) idx sh.
Proof.
  unfold at_. destruct (flat sh idx) as [k|] eqn:E; [|discriminate]. intros _. apply flat_in_range. eauto.
Qed.

Lemma at_holds (s : tst T) p v idx :
  holds s p v -> Forall2 (fun i m => (i < m)%N) idx (vsh v) -> exists x, at_ (vsh v) (vdata v) idx = Some x.
Proof.
  intros Hp. destruct (holds_exists _ _ _ Hp) as [n Hn].
  destruct (holds_data _ _ _ _ Hp Hn) as (_ & _ & _ & _ & Hl & _). apply at_total. exact Hl.
Qed.

Lemma tabulate_total sh (G : list N -> option T) :
  (forall idx, Forall2 (fun i m => (i < m)%N) idx sh -> exists x, G idx = Some x) ->
  exists v, tabulate sh G = Some v.
Proof.
  intros Hg. unfold tabulate. destruct (mapM_total G (indices sh)) as [l ->].
  - intros idx Hi. apply Hg. apply elem_of_indices. exact Hi.
  - eauto.
Qed.

(** ** Element-wise arithmetic *)
Lemma arith_bin o (x y : T) : arith o x y = bin (bop o) x y.
Proof. destruct o; reflexivity. Qed.

Theorem Mat_op2_spec (s : tst T) p q v u o :
  holds s p v -> holds s q u -> vsh v = vsh u ->
  returns_new_or_panics s (Mat_op2 o p q s) (v_bin (bop o) v u).
Proof.
  intros Hp Hq Hsh. destruct (holds_exists _ _ _ Hp) as [n Hn]. destruct (holds_exists _ _ _ Hq) as [n' Hn'].
  destruct (holds_data _ _ _ _ Hp Hn) as (Hs1 & Hd1 & Hwf1 & _ & Hl1 & Hf1).
  destruct (holds_data _ _ _ _ Hq Hn') as (Hs2 & Hd2 & Hwf2 & _ & Hl2 & Hf2).
  pose proof Hwf1 as (_ & Hm1 & Ho1 & _).
  unfold Mat_op2. erewrite mbnd_ok by (eapply get_mat_ok; exact Hn).
  erewrite mbnd_ok by (eapply get_mat_ok; exact Hn').
  rewrite (proj2 (GetEqShapeErr_None _ _)) by congruence. erewrite mbnd_ok by reflexivity.
  unfold v_bin. rewrite Hs1 in *. apply eager_tab; try assumption.
  intros i idx s1 Hidx [ext He] _ _.
  rewrite <- Hsh. rewrite !(at_lookup _ _ _ _ Hidx).
  rewrite (rds_lookup _ _ _ i Hd1), (rds_lookup _ _ _ i Hd2).
  assert (Hi : i < N.to_nat (prodN (vsh v))) by (rewrite <- indices_length; eapply lookup_lt_Some; exact Hidx).
  destruct (lookup_lt_is_Some_2 (operands (nmat n)) i) as [a Ha]; [lia|].
  destruct (lookup_lt_is_Some_2 (operands (nmat n')) i) as [b Hb].
  { rewrite <- (rds_length _ _ _ Hd2), Hl2, <- Hsh. exact Hi. }
  rewrite Ha, Hb. cbn [mbind option_bind].
  destruct (rd_operand _ _ _ _ a Hp Hn) as [x Hx]; [eapply elem_of_list_lookup_2; exact Ha|].
  destruct (rd_operand _ _ _ _ b Hq Hn') as [y Hy]; [eapply elem_of_list_lookup_2; exact Hb|].
  rewrite Hx, Hy. cbn [mbind option_bind].
  erewrite mbnd_ok by (apply atM_ok; exact Ha). erewrite mbnd_ok by (eapply rdM_grown; eassumption).
  erewrite mbnd_ok by (apply atM_ok; exact Hb). erewrite mbnd_ok by (eapply rdM_grown; eassumption).
  rewrite arith_bin. destruct (bin (bop o) x y); reflexivity.
Qed.

Theorem Mat_op2_refuses (s : tst T) p q v u o :
  holds s p v -> holds s q u -> vsh v <> vsh u -> refuses s (Mat_op2 o p q s).
Proof.
  intros Hp Hq Hsh. destruct (holds_exists _ _ _ Hp) as [n Hn]. destruct (holds_exists _ _ _ Hq) as [n' Hn'].
  destruct (holds_data _ _ _ _ Hp Hn) as (Hs1 & _). destruct (holds_data _ _ _ _ Hq Hn') as (Hs2 & _).
  unfold Mat_op2. erewrite mbnd_ok by (eapply get_mat_ok; exact Hn).
  erewrite mbnd_ok by (eapply get_mat_ok; exact Hn').
  destruct (GetEqShapeErr (shape (nmat n)) (shape (nmat n'))) as [e|] eqn:E.
  - exists e. reflexivity.
  - apply GetEqShapeErr_None in E. congruence.
Qed.

Theorem Mat_opScalar_spec (s : tst T) p v sc y o :
  holds s p v -> mem s !! sc = Some y ->
  returns_new_or_panics s (Mat_opScalar o p (Some sc) s) (v_scal (bop o) v y).
Proof.
  intros Hp Hy. destruct (holds_exists _ _ _ Hp) as [n Hn].
  destruct (holds_data _ _ _ _ Hp Hn) as (Hs1 & Hd1 & Hwf1 & _ & Hl1 & Hf1).
  pose proof Hwf1 as (_ & Hm1 & Ho1 & _).
  unfold Mat_opScalar. erewrite mbnd_ok by (eapply get_mat_ok; exact Hn).
  unfold v_scal. rewrite (mapM_bind (rd (mem s)) (fun x => bin (bop o) x y) _ _ Hd1).
  rewrite Hs1 in *. apply eager_method; try assumption.
  intros a s1 Ha [ext He] _ _. destruct (rd_operand _ _ _ _ a Hp Hn Ha) as [x Hx]. rewrite Hx. cbn [mbind option_bind].
  erewrite mbnd_ok by (eapply rdM_grown; eassumption).
  erewrite mbnd_ok by (eapply (rdM_grown s); [exact Hy|eassumption]).
  rewrite arith_bin. destruct (bin (bop o) x y); reflexivity.
Qed.

(** ** Reductions *)
Lemma tools_red_reduce0 o (l : list T) : tools_red o l = reduce0 (rop o) l.
Proof. destruct o; try reflexivity; destruct l; reflexivity. Qed.

Theorem Mat_reduce_spec (s : tst T) p v o :
  holds s p v -> returns_new_or_panics s (Mat_reduce o p s) (v_reduce_with reduce0 (rop o) v).
Proof.
  intros Hp. destruct (holds_exists _ _ _ Hp) as [n Hn].
  destruct (holds_data _ _ _ _ Hp Hn) as (Hs1 & Hd1 & Hwf1 & _ & Hl1 & Hf1).
  unfold Mat_reduce. erewrite mbnd_ok by (eapply get_mat_ok; exact Hn).
  erewrite mbnd_ok by (eapply read_all; exact Hd1).
  unfold v_reduce_with. rewrite tools_red_reduce0. destruct (reduce0 (rop o) (vdata v)) as [x|]; cbn [mbind option_bind].
  - unfold returns_new_or_panics. erewrite mbnd_ok by reflexivity. erewrite mbnd_ok by reflexivity.
    apply (new_tensor s [1%N] [x]); [|reflexivity]. split; [|reflexivity].
    constructor; [|constructor]. reflexivity.
  - exists s. split; [reflexivity|]. split; [reflexivity|]. exists []. rewrite app_nil_r. reflexivity.
Qed.

Lemma read_all_grown (s s1 : tst T) ops d ext :
  rds (mem s) ops = Some d -> mem s1 = mem s ++ ext -> mmap ops rdM s1 = (Ok d, s1).
Proof. intros E Hm. apply read_all. rewrite Hm. apply rds_app_mem. exact E. Qed.

Theorem Mat_dimreduce_spec (s : tst T) p v dim o :
  holds s p v -> N.to_nat dim < length (vsh v) -> fits (take (S (N.to_nat dim)) (vsh v)) ->
  returns_new_or_panics s (Mat_dimreduce o p dim s) (v_dim_with reduce0 (rop o) (N.to_nat dim) v).
Proof.
  intros Hp Hdim Hfs. destruct (holds_exists _ _ _ Hp) as [n Hn].
  destruct (holds_data _ _ _ _ Hp Hn) as (Hs1 & Hd1 & Hwf1 & _ & Hl1 & Hf1).
  pose proof Hwf1 as (_ & Hmul & Hlo & _). rewrite Hs1 in Hmul, Hlo.
  set (d := N.to_nat dim) in *. set (sh := take (S d) (vsh v)) in *.
  set (P := prodN (drop (S d) (vsh v))).
  assert (Hpr : prodN (vsh v) = (prodN sh * P)%N)
    by (unfold sh, P; rewrite <- prodN_app, take_drop; reflexivity).
  pose proof (proj2 Hf1) as Hf2.
  assert (Hpn : length (operands (nmat n)) = N.to_nat (prodN sh) * N.to_nat P) by (rewrite Hlo, Hpr; lia).
  assert (Hmi : exists mi, mulindex (nmat n) !! d = Some mi /\ ((0 < prodN sh)%N -> mi = P)).
  { rewrite Hmul, GetIndexMul_mod, list_lookup_fmap, strides_lookup by assumption. cbn.
    fold P. eexists. split; [reflexivity|]. intros Hn0. apply N.mod_small. nia. }
  destruct Hmi as (mi & Hmi & HmiP).
  unfold Mat_dimreduce. erewrite mbnd_ok by (eapply get_mat_ok; exact Hn). rewrite Hs1.
  destruct (ulen (vsh v) <=? dim)%N eqn:E; [unfold ulen in E; lia|].
  replace (N.to_nat (dim + 1)) with (S d) by lia. fold sh.
  erewrite mbnd_ok by (apply atM_ok; exact Hmi).
  unfold v_dim_with. fold sh. apply eager_tab; [assumption|reflexivity|rewrite GetDataSize_fits by assumption; reflexivity|].
  intros i idx s1 Hidx [ext He] _ _.
  assert (Hi : i < N.to_nat (prodN sh)) by (rewrite <- indices_length; eapply lookup_lt_Some; exact Hidx).
  destruct (fold1_dim (vdata v) (vsh v) d i idx Hl1 Hdim Hidx) as [_ ->]. cbn [mbind option_bind].
  rewrite HmiP by lia.
  assert (Hoff : (N.of_nat i * P + P <= N.of_nat (length (operands (nmat n))))%N) by (rewrite Hpn; nia).
  assert (Hll : (N.of_nat (length (operands (nmat n))) < W64)%N) by lia.
  rewrite umul_small by lia. rewrite uadd_small by lia. unfold slice, ulen.
  destruct ((N.of_nat i * P <=? N.of_nat i * P + P)%N &&
            (N.of_nat i * P + P <=? N.of_nat (length (operands (nmat n))))%N) eqn:E2; [|lia].
  replace (N.to_nat (N.of_nat i * P + P - N.of_nat i * P)) with (N.to_nat P) by lia.
  replace (N.to_nat (N.of_nat i * P)) with (i * N.to_nat P) by lia.
  pose proof (rds_take _ _ _ (N.to_nat P) (rds_drop _ _ _ (i * N.to_nat P) Hd1)) as Hr.
  assert (E3 : forall (k : T -> TM T ptr),
    (args <~ oM (Some (take (N.to_nat P) (drop (i * N.to_nat P) (operands (nmat n))))) ;
     vs <~ mmap args rdM ; v0 <~ oM (tools_red o vs) ; k v0) s1 =
    (v0 <~ oM (tools_red o (take (N.to_nat P) (drop (i * N.to_nat P) (vdata v)))) ; k v0) s1).
  { intros k. erewrite mbnd_ok by reflexivity. erewrite mbnd_ok by (eapply read_all_grown; eassumption). reflexivity. }
  fold P. rewrite <- tools_red_reduce0.
  destruct (tools_red o _) as [x|] eqn:Ex.
  - rewrite E3. reflexivity.
  - rewrite E3. reflexivity.
Qed.

Theorem Mat_dimreduce_refuses (s : tst T) p v dim o :
  holds s p v -> length (vsh v) <= N.to_nat dim -> refuses s (Mat_dimreduce o p dim s).
Proof.
  intros Hp Hdim. destruct (holds_exists _ _ _ Hp) as [n Hn].
  destruct (holds_data _ _ _ _ Hp Hn) as (Hs1 & _). eexists.
  unfold Mat_dimreduce. erewrite mbnd_ok by (eapply get_mat_ok; exact Hn). rewrite Hs1.
  destruct (ulen (vsh v) <=? dim)%N eqn:E; [reflexivity|unfold ulen in E; lia].
Qed.

(** ** Transpose *)
Theorem Mat_Transpose_spec (s : tst T) p v :
  holds s p v -> exists w, v_transpose v = Some w /\ returns_new s (Mat_Transpose p s) w.
Proof.
  intros Hp. destruct (holds_exists _ _ _ Hp) as [n Hn].
  destruct (holds_data _ _ _ _ Hp Hn) as (Hs1 & Hd1 & Hwf1 & _ & Hl1 & Hf1).
  pose proof Hwf1 as (_ & Hmul & Hlo & _).
  assert (Hin : forall idx, Forall2 (fun i m => (i < m)%N) idx (reverse (vsh v)) ->
    exists x, at_ (vsh v) (vdata v) (reverse idx) = Some x).
  { intros idx Hi. apply at_total; [assumption|]. apply Forall2_reverse in Hi. rewrite reverse_involutive in Hi. exact Hi. }
  destruct (tabulate_total _ _ Hin) as [w Hw]. exists w. split; [exact Hw|].
  assert (Hfr : fits (reverse (vsh v))) by (apply fits_reverse; assumption).
  unfold Mat_Transpose. erewrite mbnd_ok by (eapply get_mat_ok; exact Hn).
  rewrite transpose_shape_reverse, Hs1.
  pose proof (eager_tab s (reverse (vsh v)) (GetIndexMul (reverse (vsh v))) (length (operands (nmat n)))
    (fun i => idx <~ mlift (ReverseIndex (GetIndexMul (reverse (vsh v))) (reverse (vsh v)) (N.of_nat i)) ;
           o <~ mlift (GetOperand (nmat n) (GetInvertedIndex idx)) ;
           v <~ rdM o ; alloc v) (fun idx => at_ (vsh v) (vdata v) (reverse idx))) as Hm.
  rewrite Hw in Hm. apply Hm; try assumption; try reflexivity; clear Hm.
  { rewrite prodN_reverse, <- Hs1. exact Hlo. }
  intros i idx s1 Hidx [ext He] _ _. destruct (Hin idx) as [x Hx]; [eapply indices_Forall2; exact Hidx|].
  rewrite Hx. destruct (read_at _ _ _ _ _ _ Hp Hn Hx) as (o & _ & Ho & Hr).
  erewrite mbnd_ok by (unfold mlift; rewrite (ReverseIndex_lookup _ _ _ Hfr Hidx); reflexivity).
  rewrite GetInvertedIndex_reverse.
  erewrite mbnd_ok by (unfold mlift; rewrite Ho; reflexivity).
  erewrite mbnd_ok by (eapply rdM_grown; eassumption). reflexivity.
Qed.

(** Transposing twice. *)
Lemma tabulate_at sh (d : list T) : length d = N.to_nat (prodN sh) -> tabulate sh (at_ sh d) = Some (V sh d).
Proof.
  intros Hl. unfold tabulate. replace (mapM (at_ sh d) (indices sh)) with (Some d); [reflexivity|]. symmetry.
  apply mapM_Some. apply Forall2_same_length_lookup_2.
  - rewrite indices_length. congruence.
  - intros i idx x Hi Hx. rewrite (at_lookup _ _ _ _ Hi). exact Hx.
Qed.

Lemma tabulate_lookup sh (f : list N -> option T) v idx :
  tabulate sh f = Some v -> Forall2 (fun i m => (i < m)%N) idx sh ->
  vsh v = sh /\ at_ (vsh v) (vdata v) idx = f idx.
Proof.
  unfold tabulate. destruct (mapM f (indices sh)) as [d|] eqn:E; [|discriminate]. intros [= <-] Hi. cbn.
  split; [reflexivity|]. apply elem_of_indices, elem_of_list_lookup in Hi as [k Hk].
  rewrite (at_lookup _ _ _ _ Hk). symmetry. eapply mapM_lookup; eassumption.
Qed.

Theorem transpose_twice (v w : vten T) :
  length (vdata v) = N.to_nat (prodN (vsh v)) -> v_transpose v = Some w -> v_transpose w = Some v.
Proof.
  intros Hl Hw. assert (Hs : vsh w = reverse (vsh v)).
  { unfold v_transpose, tabulate in Hw. destruct (mapM _ _); [|discriminate]. injection Hw as <-. reflexivity. }
  unfold v_transpose. rewrite Hs, reverse_involutive.
  replace v with (V (vsh v) (vdata v)) at 2 by (destruct v; reflexivity).
  rewrite <- (tabulate_at _ _ Hl). unfold tabulate. f_equal. apply mapM_ext_in. intros idx Hi.
  apply elem_of_indices in Hi.
  destruct (tabulate_lookup _ _ _ (reverse idx) Hw) as [Hs' Hat]; [apply Forall2_reverse; exact Hi|].
  rewrite <- Hs, Hat, reverse_involutive. reflexivity.
Qed.

(** ** Sub-tensors *)
Lemma sub_coord sh d (st en : N) idx mx :
  sh !! d = Some mx -> (st < en <= mx)%N -> Forall2 (fun i m => (i < m)%N) idx (<[d := (en - st)%N]> sh) ->
  exists c, idx !! d = Some c /\ (c + st < en)%N /\ on_coord d (fun c => (c + st)%N) idx = <[d := (c + st)%N]> idx /\
     Forall2 (fun i m => (i < m)%N) (<[d := (c + st)%N]> idx) sh.
Proof.
  intros Hd Hse Hidx. pose proof (lookup_lt_Some _ _ _ Hd) as Hdl.
  destruct (Forall2_lt_coord _ _ _ _ Hidx Hdl) as (c & Hcd & Hlt).
  exists c. split; [assumption|]. split; [lia|]. split; [apply (alter_insert (fun c => (c + st)%N) _ _ _ Hcd)|].
  eapply Forall2_lt_insert; [exact Hidx|exact Hd|lia].
Qed.

Lemma prodN_insert_le sh d x mx : sh !! d = Some mx -> (x <= mx)%N -> (prodN (<[d := x]> sh) <= prodN sh)%N.
Proof.
  revert d. induction sh as [|y sh IH]; intros [|d] Hd Hx; try discriminate; cbn in Hd |- *; rewrite ?prodN_cons.
  - injection Hd as ->. apply N.mul_le_mono_r. exact Hx.
  - apply N.mul_le_mono_l. eapply IH; eassumption.
Qed.

Lemma fits_insert_le sh d x mx : fits sh -> sh !! d = Some mx -> (x <= mx)%N -> fits (<[d := x]> sh).
Proof.
  intros [H1 H2] Hd Hx. split.
  - apply Forall_insert; [assumption|]. rewrite Forall_lookup in H1. specialize (H1 _ _ Hd). cbn in H1. lia.
  - pose proof (prodN_insert_le _ _ _ _ Hd Hx). lia.
Qed.

Theorem Mat_SubTensor_spec (s : tst T) p v dim st en mx :
  holds s p v -> vsh v !! N.to_nat dim = Some mx -> (st < en <= mx)%N ->
  exists w, v_sub v (N.to_nat dim) st en = Some w /\ returns_new s (Mat_SubTensor p dim st en s) w.
Proof.
  intros Hp Hd Hse. destruct (holds_exists _ _ _ Hp) as [n Hn].
  destruct (holds_data _ _ _ _ Hp Hn) as (Hs1 & Hd1 & Hwf1 & _ & Hl1 & Hf1).
  pose proof Hwf1 as (_ & Hmul & Hlo & _). pose proof (fits_dim _ _ _ Hf1 Hd) as Hmx.
  assert (Hck : sub_checks (shape (nmat n)) dim st en false = None).
  { rewrite Hs1. eapply sub_checks_None; [eassumption|lia|lia]. }
  set (d := N.to_nat dim) in *. set (sh := <[d := (en - st)%N]> (vsh v)) in *.
  assert (Hfs : fits sh) by (eapply fits_insert_le; [assumption|exact Hd|lia]).
  assert (Hin : forall idx, Forall2 (fun i m => (i < m)%N) idx sh ->
    exists x, at_ (vsh v) (vdata v) (on_coord d (fun c => (c + st)%N) idx) = Some x).
  { intros idx Hi. destruct (sub_coord _ _ _ _ _ _ Hd Hse Hi) as (c & _ & _ & -> & Hr). apply at_total; assumption. }
  destruct (tabulate_total _ _ Hin) as [w Hw]. exists w. split; [exact Hw|].
  unfold Mat_SubTensor. erewrite mbnd_ok by (eapply get_mat_ok; exact Hn).
  rewrite Hck. erewrite mbnd_ok by reflexivity. rewrite usub_small by lia. rewrite Hs1. fold d. fold sh.
  pose proof (eager_tab s sh (GetIndexMul sh) (N.to_nat (GetDataSize sh))
    (fun i => idx <~ mlift (ReverseIndex (GetIndexMul sh) sh (N.of_nat i)) ;
           c <~ atM idx d ; idx' <~ updM idx d (uadd c st) ;
           o <~ mlift (GetOperand (nmat n) idx') ; v <~ rdM o ; alloc v)
    (fun idx => at_ (vsh v) (vdata v) (on_coord d (fun c => (c + st)%N) idx))) as Hm.
  rewrite Hw in Hm. apply Hm; try assumption; try reflexivity; clear Hm.
  { rewrite GetDataSize_fits by assumption. reflexivity. }
  intros i idx s1 Hidx [ext He] _ _. pose proof (indices_Forall2 _ _ _ Hidx) as Hi.
  destruct (Hin idx Hi) as [x Hx]. rewrite Hx.
  destruct (sub_coord _ _ _ _ _ _ Hd Hse Hi) as (c & Hcd & Hlt & Heq & Hr). rewrite Heq in Hx.
  destruct (read_at _ _ _ _ _ _ Hp Hn Hx) as (o & _ & Ho & Hrd).
  erewrite mbnd_ok by (unfold mlift; rewrite (ReverseIndex_lookup _ _ _ Hfs Hidx); reflexivity).
  erewrite mbnd_ok by (apply atM_ok; exact Hcd). rewrite uadd_small by lia.
  erewrite mbnd_ok by (apply updM_ok; eapply lookup_lt_Some; exact Hcd).
  erewrite mbnd_ok by (unfold mlift; rewrite Ho; reflexivity).
  erewrite mbnd_ok by (eapply rdM_grown; eassumption). reflexivity.
Qed.

Lemma sub_checks_Some sh dim st en :
  ~ (exists mx, sh !! N.to_nat dim = Some mx /\ (st < en <= mx)%N) ->
  exists e, sub_checks sh dim st en false = Some e.
Proof.
  intros Hn. unfold sub_checks. destruct (ulen sh <=? dim)%N eqn:E1; [eauto|].
  destruct (en <=? st)%N eqn:E2; [eauto|]. cbn [negb andb].
  destruct (lookup_lt_is_Some_2 sh (N.to_nat dim)) as [mx Hmx]; [unfold ulen in E1; lia|].
  rewrite (nth_lookup_Some _ _ _ _ Hmx).
  destruct (mx <? en)%N eqn:E3; [eauto|]. exfalso. apply Hn. exists mx. split; [assumption|]. lia.
Qed.

Theorem Mat_SubTensor_refuses (s : tst T) p v dim st en :
  holds s p v -> ~ (exists mx, vsh v !! N.to_nat dim = Some mx /\ (st < en <= mx)%N) ->
  refuses s (Mat_SubTensor p dim st en s).
Proof.
  intros Hp Hno. destruct (holds_exists _ _ _ Hp) as [n Hn].
  destruct (holds_data _ _ _ _ Hp Hn) as (Hs1 & _). rewrite <- Hs1 in Hno.
  destruct (sub_checks_Some _ _ _ _ Hno) as [e He]. exists e.
  unfold Mat_SubTensor. erewrite mbnd_ok by (eapply get_mat_ok; exact Hn). rewrite He. reflexivity.
Qed.

(** FOSubTensor: the ranges that do not cross the end. *)
Theorem Mat_FOSubTensor_spec (s : tst T) p v dim st en mx pad :
  holds s p v -> vsh v !! N.to_nat dim = Some mx -> (st < en < W64)%N -> (en <= mx \/ mx < st)%N ->
  fits (<[N.to_nat dim := (en - st)%N]> (vsh v)) ->
  exists w, v_subp pad v (N.to_nat dim) st en = Some w /\
    returns_new s (Mat_FOSubTensor p dim st en pad s) w.
Proof.
  intros Hp Hd Hse Hcr Hfs. destruct (holds_exists _ _ _ Hp) as [n Hn].
  destruct (holds_data _ _ _ _ Hp Hn) as (Hs1 & Hd1 & Hwf1 & _ & Hl1 & Hf1).
  pose proof Hwf1 as (_ & Hmul & Hlo & _). pose proof (fits_dim _ _ _ Hf1 Hd) as Hmx.
  assert (Hck : sub_checks (shape (nmat n)) dim st en true = None).
  { rewrite Hs1. unfold sub_checks. destruct (ulen (vsh v) <=? dim)%N eqn:E1.
    { pose proof (lookup_lt_Some _ _ _ Hd). unfold ulen in E1. lia. }
    destruct (en <=? st)%N eqn:E2; [lia|]. reflexivity. }
  set (d := N.to_nat dim) in *. set (sh := <[d := (en - st)%N]> (vsh v)) in *.
  set (G idx := let idx' := on_coord d (fun c => (c + st)%N) idx in
    match idx' !! d, vsh v !! d with
    | Some c, Some m => if (c <? m)%N then at_ (vsh v) (vdata v) idx' else Some pad
    | _, _ => None
    end).
  assert (Hco : forall idx, Forall2 (fun i m => (i < m)%N) idx sh -> exists c, idx !! d = Some c /\ (c + st < en)%N /\
     on_coord d (fun c => (c + st)%N) idx = <[d := (c + st)%N]> idx /\
     G idx = (if (c + st <? mx)%N then at_ (vsh v) (vdata v) (<[d := (c + st)%N]> idx) else Some pad) /\
     ((c + st < mx)%N -> Forall2 (fun i m => (i < m)%N) (<[d := (c + st)%N]> idx) (vsh v))).
  { intros idx Hi. pose proof (lookup_lt_Some _ _ _ Hd) as Hdl.
    destruct (Forall2_lt_coord _ _ _ _ Hi Hdl) as (c & Hcd & Hlt).
    pose proof (alter_insert (fun c => (c + st)%N) _ _ _ Hcd) as Ha.
    exists c. split; [assumption|]. split; [lia|]. split; [exact Ha|]. split.
    - unfold G, on_coord. rewrite Ha. cbv zeta.
      rewrite list_lookup_insert by (eapply lookup_lt_Some; exact Hcd). rewrite Hd. reflexivity.
    - intros Hc. eapply Forall2_lt_insert; [exact Hi|exact Hd|lia]. }
  assert (Hin : forall idx, Forall2 (fun i m => (i < m)%N) idx sh -> exists x, G idx = Some x).
  { intros idx Hi. destruct (Hco idx Hi) as (c & _ & _ & _ & -> & Hr).
    destruct (c + st <? mx)%N eqn:E; [|eauto]. apply at_total; [assumption|]. apply Hr. lia. }
  destruct (tabulate_total _ _ Hin) as [w Hw]. exists w. split; [exact Hw|].
  unfold Mat_FOSubTensor. erewrite mbnd_ok by (eapply get_mat_ok; exact Hn).
  rewrite Hck. erewrite mbnd_ok by reflexivity. rewrite usub_small by lia. rewrite Hs1. fold d. fold sh.
  erewrite mbnd_ok by (apply atM_ok; exact Hd).
  pose proof (eager_tab s sh (GetIndexMul sh) (N.to_nat (GetDataSize sh))
    (fun i => idx <~ mlift (ReverseIndex (GetIndexMul sh) sh (N.of_nat i)) ;
           c <~ atM idx d ; idx' <~ updM idx d (uadd c st) ;
           if (mx <? uadd c st)%N then alloc pad
           else o <~ mlift (GetOperand (nmat n) idx') ; v <~ rdM o ; alloc v) G) as Hm.
  rewrite Hw in Hm. apply Hm; try assumption; try reflexivity; clear Hm.
  { rewrite GetDataSize_fits by assumption. reflexivity. }
  intros i idx s1 Hidx [ext He] _ _. pose proof (indices_Forall2 _ _ _ Hidx) as Hi.
  destruct (Hco idx Hi) as (c & Hcd & Hlt & Heq & HG & Hr). rewrite HG.
  erewrite mbnd_ok by (unfold mlift; rewrite (ReverseIndex_lookup _ _ _ Hfs Hidx); reflexivity).
  erewrite mbnd_ok by (apply atM_ok; exact Hcd). rewrite uadd_small by lia.
  erewrite mbnd_ok by (apply updM_ok; eapply lookup_lt_Some; exact Hcd).
  destruct (c + st <? mx)%N eqn:E.
  - destruct (mx <? c + st)%N eqn:E'; [lia|].
    destruct (at_total (vsh v) (vdata v) (<[d := (c + st)%N]> idx) Hl1) as [x Hx]; [apply Hr; lia|]. rewrite Hx.
    destruct (read_at _ _ _ _ _ _ Hp Hn Hx) as (o & _ & Ho & Hrd).
    erewrite mbnd_ok by (unfold mlift; rewrite Ho; reflexivity).
    erewrite mbnd_ok by (eapply rdM_grown; eassumption). reflexivity.
  - destruct (mx <? c + st)%N eqn:E'; [reflexivity|]. lia.
Qed.
End EagerOps.
