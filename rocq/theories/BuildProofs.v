(** * BuildProofs: what each builder adds to the context computes the value of
    its operation *)
From Verif Require Import Base Num ModelTools ModelOps ModelTensor ModelGraph Spec Denote
  IndexProofs ExecProofs TensorFacts.
From Coq Require Import Lia ZifyBool ZifyNat ZifyN.

Section Build.
Context {T : Type} `{Num T}.

(** [s'] is [s] after the own part of the builder of node [id] has run: it
    allocated [ext], pushed [new], and the operands of the node are [ops].
    [pads] are freshly allocated cells that nothing ever writes. *)
Definition own_spec (s s' : tst T) (id : nat) (k : kind T) (sh : list N)
    (val : list T -> option (vten T)) : Prop :=
  exists ext new ops pads,
    mem s' = mem s ++ ext /\
    ctx s' = ctx s ++ new /\
    tens s' = <[id := MkNode k (MkMat sh (GetIndexMul sh) ops true)]> (tens s) /\
    length ops = N.to_nat (prodN sh) /\
    Forall (valid (length (mem s'))) ops /\
    (forall l, dst_in l new -> length (mem s) <= l < length (mem s')) /\
    Forall (fun l => length (mem s) <= l /\ mem s' !! l = Some nzero /\ ~ dst_in l new) pads /\
    forall m, length (mem s') <= length m -> Forall (fun l => m !! l = Some nzero) pads ->
      match val m with
      | Some v => exists m', exec new m = Some m' /\ vsh v = sh /\ rds m' ops = Some (vdata v)
      | None => exec new m = None
      end.

Lemma own_spec_ext s s' id k sh val val' :
  (forall m, val m = val' m) -> own_spec s s' id k sh val -> own_spec s s' id k sh val'.
Proof.
  intros E (ext & new & ops & pads & A & B & C & D & F & G & I & J).
  exists ext, new, ops, pads. repeat (split; [assumption|]). intros m Hm Hz. rewrite <- E. exact (J m Hm Hz).
Qed.

Lemma mval_Some n (m : list T) mt :
  wf_mat n mt -> n <= length m -> exists d, rds m (operands mt) = Some d /\
    length d = N.to_nat (prodN (shape mt)).
Proof.
  intros (_ & _ & Hl & Hv) Hn.
  destruct (rds_Some_valid m (operands mt)) as [d Hd].
  - eapply Forall_impl; [exact Hv|]. intros p (l & -> & Hlt). exists l. split; [reflexivity|lia].
  - exists d. split; [assumption|]. rewrite (rds_length _ _ _ Hd). assumption.
Qed.

(** A builder that only rearranges existing scalars. *)
Lemma view_spec s id k sh ps (val : list T -> option (vten T)) :
  length ps = N.to_nat (prodN sh) ->
  Forall (valid (length (mem s))) ps ->
  (forall m, length (mem s) <= length m -> exists v, val m = Some v /\ vsh v = sh /\ rds m ps = Some (vdata v)) ->
  own_spec s (st_with (mem s) (tens s) (ctx s) id k (MkMat sh (GetIndexMul sh) ps true)) id k sh val.
Proof.
  intros Hl Hv Hval. exists [], [], ps, []. unfold st_with. cbn [mem ctx tens].
  rewrite !app_nil_r. repeat split; try assumption; try reflexivity.
  - exfalso. eapply dst_in_nil; eassumption.
  - exfalso. eapply dst_in_nil; eassumption.
  - constructor.
  - intros m Hm _. destruct (Hval m Hm) as (v & -> & Hsh & Hr). exists m. auto.
Qed.

Lemma dst_in_emit (g : nat -> ptr -> op T) (b n l : nat) :
  (forall i o, op_dst (g i o) = Some o) ->
  dst_in l (map (fun i => g i (Some (b + i))) (range n)) -> b <= l < b + n.
Proof.
  intros Hd (o & Ho & Hod). apply elem_of_list_fmap in Ho as (i & -> & Hi).
  rewrite Hd in Hod. injection Hod as <-. unfold range in Hi. apply elem_of_seq in Hi. lia.
Qed.

(** Running a block emitted by [emit_each]. *)
Lemma exec_emit (g : nat -> ptr -> op T) (w : nat -> list T -> option T) (b n : nat) m :
  (forall i o, op_dst (g i o) = Some o) ->
  (forall i o mm, op_value (g i o) mm = w i mm) ->
  (forall i o l, i < n -> Some l ∈ op_args (g i o) -> l < b \/ b + n <= l) ->
  b + n <= length m ->
  exec (map (fun i => g i (Some (b + i))) (range n)) m =
  (vs ← mapM (fun i => w i m) (range n); Some (list_inserts b vs m)).
Proof.
  intros Hd Hw Ha Hlen.
  assert (Hn : length (map (fun i => g i (Some (b + i))) (range n)) = n)
    by (unfold range; rewrite map_length, seq_length; reflexivity).
  rewrite (exec_block _ b).
  - f_equal. unfold range. generalize (seq 0 n) as is. intros is.
    induction is as [|i is IH]; cbn; [reflexivity|]. rewrite Hw.
    destruct (w i m); cbn; [|reflexivity]. f_equal. apply IH.
  - intros i o Ho. apply list_lookup_fmap_inv in Ho as (j & -> & Hj).
    unfold range in Hj. apply lookup_seq in Hj as [-> _]. rewrite Hd. reflexivity.
  - intros i o l Ho Hl. apply list_lookup_fmap_inv in Ho as (j & -> & Hj).
    unfold range in Hj. apply lookup_seq in Hj as [-> Hi]. right. rewrite Hn. eapply Ha; eassumption.
  - rewrite Hn. assumption.
Qed.

Lemma rds_inserted b (vs m : list T) :
  b + length vs <= length m -> rds (list_inserts b vs m) (map Some (seq b (length vs))) = Some vs.
Proof.
  intros Hl. apply rds_seq. intros i Hi. rewrite list_lookup_inserts by lia. f_equal. lia.
Qed.

(** A builder that allocates one scalar per element and pushes one operation
    for each. *)
Lemma emit_spec s id k sh (g : nat -> ptr -> op T) (w : nat -> list T -> option T)
    (val : list T -> option (vten T)) n :
  n = N.to_nat (prodN sh) ->
  (forall i o, op_dst (g i o) = Some o) ->
  (forall i o m, op_value (g i o) m = w i m) ->
  (forall i o l, i < n -> Some l ∈ op_args (g i o) -> l < length (mem s)) ->
  (forall m, length (mem s) <= length m -> val m = (d ← mapM (fun i => w i m) (range n); Some (V sh d))) ->
  own_spec s (st_with (mem s ++ replicate n nzero) (tens s)
                (ctx s ++ map (fun i => g i (Some (length (mem s) + i))) (range n)) id k
                (MkMat sh (GetIndexMul sh) (map Some (seq (length (mem s)) n)) true)) id k sh val.
Proof.
  intros Hn Hd Hw Ha Hval.
  exists (replicate n nzero), (map (fun i => g i (Some (length (mem s) + i))) (range n)),
    (map Some (seq (length (mem s)) n)), [].
  unfold st_with. cbn [mem ctx tens]. rewrite app_length, replicate_length.
  split; [reflexivity|]. split; [reflexivity|]. split; [reflexivity|].
  split; [rewrite map_length, seq_length; assumption|].
  split.
  { apply Forall_forall. intros p Hp. apply elem_of_list_fmap in Hp as (l & -> & Hl).
    apply elem_of_seq in Hl. exists l. split; [reflexivity|lia]. }
  split; [intros l Hl; eapply dst_in_emit; eassumption|].
  split; [constructor|].
  intros m Hm _. rewrite Hval by lia.
  rewrite (exec_emit g w) by (try assumption; intros; left; eapply Ha; eassumption).
  destruct (mapM (fun i => w i m) (range n)) as [vs|] eqn:E; cbn; [|reflexivity].
  eexists. split; [reflexivity|]. split; [reflexivity|].
  apply mapM_length in E. unfold range in E. rewrite seq_length in E.
  rewrite E. apply rds_inserted. lia.
Qed.

(** ** Entry of a builder *)
Lemma state_with (s : tst T) id k m0 :
  tens s !! id = Some (MkNode k m0) -> s = st_with (mem s) (tens s) (ctx s) id k m0.
Proof. intros Hi. unfold st_with. rewrite list_insert_id by assumption. destruct s; reflexivity. Qed.

Lemma set_shape_with mm tn c id k m sh mul :
  id < length tn ->
  set_shape id sh mul (st_with mm tn c id k m) =
  (Ok tt, @st_with T mm tn c id k (MkMat sh mul (operands m) (builded m))).
Proof. intros Hi. unfold set_shape. apply upd_mat_with. assumption. Qed.
Lemma set_operands_with mm tn c id k m ops :
  id < length tn ->
  set_operands id ops (st_with mm tn c id k m) =
  (Ok tt, @st_with T mm tn c id k (MkMat (shape m) (mulindex m) ops (builded m))).
Proof. intros Hi. unfold set_operands. apply upd_mat_with. assumption. Qed.

(** Ready to run the own part of node [id]: it is being built and its child
    [t] is built and well-formed. *)
Definition ready (s : tst T) (id : nat) (k : kind T) (m0 : tmat) : Prop :=
  tens s !! id = Some (MkNode k m0) /\ builded m0 = true.
Definition child (s : tst T) (id t : nat) (mt : tmat) : Prop :=
  t <> id /\ (exists kt, tens s !! t = Some (MkNode kt mt)) /\ wf_mat (length (mem s)) mt.

Lemma get_mat_child (s : tst T) id t mt k m0 mm c :
  child s id t mt ->
  get_mat t (st_with mm (tens s) c id k m0) = (Ok mt, st_with mm (tens s) c id k m0).
Proof. intros (Hne & (kt & Ht) & _). eapply (get_mat_other mm (tens s) c id k m0 t _ Hne Ht). Qed.

Lemma child_lookup (s : tst T) id t mt i :
  child s id t mt -> i < length (operands mt) ->
  exists l, operands mt !! i = Some (Some l) /\ l < length (mem s).
Proof.
  intros (_ & _ & _ & _ & _ & Hv) Hi. apply lookup_lt_is_Some_2 in Hi as [p Hp].
  rewrite Forall_lookup in Hv. destruct (Hv _ _ Hp) as (l & -> & Hl). eauto.
Qed.

Ltac start Hr :=
  let Hi := fresh "Hi" in
  destruct Hr as [Hi Hbuilt];
  match type of Hi with
  | tens ?s !! ?id = Some (MkNode ?k ?m0) =>
      assert (Hid : id < length (tens s)) by (eapply lookup_lt_Some; exact Hi);
      pose proof (state_with s id k m0 Hi) as Hst
  end.
Ltac enter Hst := match type of Hst with ?s = ?r => rewrite Hst at 1 end.

Lemma mapM_range {A B} (f : A -> option B) (l : list A) (g : nat -> option B) :
  (forall i x, l !! i = Some x -> g i = f x) -> mapM f l = mapM g (range (length l)).
Proof.
  unfold range. intros Hg.
  assert (Hgen : forall l j, (forall i x, l !! i = Some x -> g (j + i) = f x) ->
    mapM f l = mapM g (seq j (length l))).
  { induction l0 as [|x l0 IH]; intros j Hj; cbn; [reflexivity|].
    rewrite <- (Hj 0 x eq_refl), Nat.add_0_r. destruct (g j); cbn; [|reflexivity].
    rewrite (IH (S j)); [reflexivity|]. intros i y Hy. rewrite <- (Hj (S i) y Hy). f_equal. lia. }
  apply Hgen. assumption.
Qed.

Lemma at_or_panic_Some {A} (l : list A) i x : l !! i = Some x -> at_or_panic l i = Ok x.
Proof. unfold at_or_panic. intros ->. reflexivity. Qed.
Lemma atM_ok {A} (l : list A) i x (s : tst T) : l !! i = Some x -> atM l i s = (Ok x, s).
Proof. intros Hx. unfold atM, mlift. rewrite (at_or_panic_Some _ _ _ Hx). reflexivity. Qed.

Lemma mapM_pure {A B} (f : A -> B) l : mapM (fun x => Some (f x)) l = Some (map f l).
Proof. induction l as [|x l IH]; cbn; [reflexivity|]. rewrite IH. reflexivity. Qed.

(** Mapping a partial function over the data of a child, by positions. *)
Lemma data_mapM {B} (m : list T) ops d (f : T -> option B) :
  rds m ops = Some d ->
  mapM f d = mapM (fun i => rd m (nth i ops None) ≫= f) (range (length ops)).
Proof.
  intros E. rewrite (mapM_bind _ f _ _ E). apply mapM_range.
  intros i p Hp. rewrite (nth_lookup_Some _ _ _ _ Hp). reflexivity.
Qed.

(** ** Abs, Neg, Activate *)
Lemma build_map_spec s id k m0 t mt mk f :
  ready s id k m0 -> child s id t mt ->
  (forall d a, op_dst (mk d a) = Some d) -> (forall d a, op_args (mk d a) = [a]) ->
  (forall d a m, op_value (mk d a) m = (x ← rd m a; Some (f x))) ->
  exists s', build_map id t mk s = (Ok tt, s') /\
    own_spec s s' id k (shape mt) (fun m => v ← mval m mt; Some (v_map f v)).
Proof.
  intros Hr Hc Hd Ha Hv. pose proof Hc as (_ & _ & Hwf).
  pose proof Hwf as (Hfit & Hmul & Hlen & Hval). start Hr.
  set (n := length (operands mt)).
  set (g i o := mk o (nth i (operands mt) None)).
  eexists. split.
  - enter Hst. unfold build_map. erewrite mbnd_ok by (eapply get_mat_child; eassumption).
    erewrite mbnd_ok by (apply set_shape_with; assumption).
    unfold make_operands. erewrite mbnd_ok by (apply set_operands_with; assumption).
    cbn [shape mulindex operands builded]. rewrite Hbuilt, Hmul.
    apply (emit_each_ok _ g); [assumption|].
    intros i o s0 Hi0. destruct (child_lookup _ _ _ _ _ Hc Hi0) as (l & Hl & _).
    rewrite (mbnd_ok _ _ _ _ _ (atM_ok _ _ _ _ Hl)). unfold mret, g.
    rewrite (nth_lookup_Some _ _ _ _ Hl). reflexivity.
  - eapply (emit_spec _ _ _ _ g (fun i m => x ← rd m (nth i (operands mt) None); Some (f x))).
    + exact Hlen.
    + intros; apply Hd.
    + intros; apply Hv.
    + intros i o l Hi0 Hl. unfold g in Hl. rewrite Ha in Hl. apply elem_of_list_singleton in Hl.
      destruct (child_lookup _ _ _ _ _ Hc Hi0) as (l' & Hl' & Hlt).
      rewrite (nth_lookup_Some _ _ _ _ Hl') in Hl. congruence.
    + intros m Hm. unfold mval.
      destruct (mval_Some _ m mt Hwf Hm) as (d & Ed & Hld).
      rewrite Ed. cbn. unfold v_map. cbn.
      pose proof (data_mapM _ _ _ (fun x => Some (f x)) Ed) as E2. cbn in E2. rewrite <- E2, mapM_pure.
      reflexivity.
Qed.

Lemma op2_of_dst o (d a b : ptr) : op_dst (op2_of (T:=T) o d a b) = Some d.
Proof. destruct o; reflexivity. Qed.
Lemma op2_of_args o (d a b : ptr) : op_args (op2_of (T:=T) o d a b) = [a; b].
Proof. destruct o; reflexivity. Qed.
Lemma op2_of_value o (d a b : ptr) (m : list T) :
  op_value (op2_of o d a b) m = (x ← rd m a; y ← rd m b; bin (bop o) x y).
Proof. destruct o; reflexivity. Qed.
Lemma red_of_dst o (d : ptr) args : op_dst (red_of (T:=T) o d args) = Some d.
Proof. destruct o; reflexivity. Qed.
Lemma red_of_args o (d : ptr) args : op_args (red_of (T:=T) o d args) = args.
Proof. destruct o; reflexivity. Qed.
Lemma red_of_value o (d : ptr) args (m : list T) :
  op_value (red_of o d args) m = (l ← rds m args; reduce (rop o) l).
Proof.
  destruct o; cbn [op_value red_of rop]; destruct (rds m args) as [l|] eqn:E; cbn; try reflexivity.
  unfold red_args, fold1, ulen. destruct l; cbn; [reflexivity|].
  rewrite <- (rds_length _ _ _ E). reflexivity.
Qed.

Lemma mapM_ext_in {A B} (f g : A -> option B) l :
  (forall x, x ∈ l -> f x = g x) -> mapM f l = mapM g l.
Proof. intros Hfg. apply Forall_mapM_ext. apply Forall_forall. assumption. Qed.

(** Tabulating by position. *)
Lemma tabulate_range sh (f : list N -> option T) (w : nat -> option T) :
  (forall i idx, indices sh !! i = Some idx -> w i = f idx) ->
  tabulate sh f = (d ← mapM w (range (N.to_nat (prodN sh))); Some (V sh d)).
Proof.
  intros Hw. unfold tabulate. rewrite (mapM_range f (indices sh) w Hw), indices_length. reflexivity.
Qed.

(** ** Add, Sub, Mul, Div *)
Lemma build_op2_spec s id k m0 a b ma mb o :
  ready s id k m0 -> child s id a ma -> child s id b mb -> shape ma = shape mb ->
  exists s', build_op2 id a b o s = (Ok tt, s') /\
    own_spec s s' id k (shape ma) (fun m => x ← mval m ma; y ← mval m mb; v_bin (bop o) x y).
Proof.
  intros Hr Hca Hcb Hsh. pose proof Hca as (_ & _ & Hwfa). pose proof Hcb as (_ & _ & Hwfb).
  pose proof Hwfa as (Hfit & Hmul & Hlen & Hval). pose proof Hwfb as (_ & _ & Hlenb & _). start Hr.
  assert (Hl2 : length (operands mb) = length (operands ma)) by congruence.
  set (g i o0 := op2_of (T:=T) o o0 (nth i (operands ma) None) (nth i (operands mb) None)).
  eexists. split.
  - enter Hst. unfold build_op2. erewrite mbnd_ok by (eapply get_mat_child; eassumption).
    erewrite mbnd_ok by (eapply get_mat_child; eassumption).
    rewrite (proj2 (GetEqShapeErr_None _ _) Hsh). erewrite mbnd_ok by reflexivity.
    erewrite mbnd_ok by (apply set_shape_with; assumption).
    unfold make_operands. erewrite mbnd_ok by (apply set_operands_with; assumption).
    cbn [shape mulindex operands builded]. rewrite Hbuilt, Hmul.
    apply (emit_each_ok _ g); [assumption|].
    intros i o0 s0 Hi0. destruct (child_lookup _ _ _ _ _ Hca Hi0) as (l & Hl & _).
    rewrite <- Hl2 in Hi0. destruct (child_lookup _ _ _ _ _ Hcb Hi0) as (l' & Hl' & _).
    rewrite (mbnd_ok _ _ _ _ _ (atM_ok _ _ _ _ Hl)).
    rewrite (mbnd_ok _ _ _ _ _ (atM_ok _ _ _ _ Hl')). unfold mret, g.
    rewrite (nth_lookup_Some _ _ _ _ Hl), (nth_lookup_Some _ _ _ _ Hl'). reflexivity.
  - eapply (emit_spec _ _ _ _ g (fun i m => x ← rd m (nth i (operands ma) None);
                                   y ← rd m (nth i (operands mb) None); bin (bop o) x y)).
    + exact Hlen.
    + intros; apply op2_of_dst.
    + intros; apply op2_of_value.
    + intros i o0 l Hi0 Hl. unfold g in Hl. rewrite op2_of_args in Hl.
      destruct (child_lookup _ _ _ _ _ Hca Hi0) as (l' & Hl' & Hlt).
      rewrite <- Hl2 in Hi0. destruct (child_lookup _ _ _ _ _ Hcb Hi0) as (l2 & Hl2' & Hlt2).
      rewrite (nth_lookup_Some _ _ _ _ Hl'), (nth_lookup_Some _ _ _ _ Hl2') in Hl.
      apply elem_of_cons in Hl as [Hl|Hl]; [congruence|].
      apply elem_of_list_singleton in Hl. congruence.
    + intros m Hm. unfold mval.
      destruct (mval_Some _ m ma Hwfa Hm) as (da & Ea & Hlda).
      destruct (mval_Some _ m mb Hwfb Hm) as (db & Eb & Hldb).
      rewrite Ea, Eb. cbn [mbind option_bind]. unfold v_bin. cbn [vsh vdata].
      rewrite (tabulate_range _ _ (fun i => x ← rd m (nth i (operands ma) None);
                                   y ← rd m (nth i (operands mb) None); bin (bop o) x y)).
      { rewrite Hlen. reflexivity. }
      intros i idx Hidx. rewrite <- Hsh. rewrite !(at_lookup _ _ _ _ Hidx).
      rewrite (rds_lookup _ _ _ i Ea), (rds_lookup _ _ _ i Eb).
      assert (Hi0 : i < length (operands ma)).
      { rewrite Hlen, <- indices_length. eapply lookup_lt_Some. exact Hidx. }
      destruct (child_lookup _ _ _ _ _ Hca Hi0) as (l' & Hl' & _).
      rewrite <- Hl2 in Hi0. destruct (child_lookup _ _ _ _ _ Hcb Hi0) as (l2 & Hl2' & _).
      rewrite (nth_lookup_Some _ _ _ _ Hl'), (nth_lookup_Some _ _ _ _ Hl2'), Hl', Hl2'. reflexivity.
Qed.

(** ** AddScalar, SubScalar, MulScalar, DivScalar *)
Lemma build_opscalar_spec s id k m0 t mt sc o :
  ready s id k m0 -> child s id t mt -> sc < length (mem s) ->
  exists s', build_opscalar id t (Some sc) o s = (Ok tt, s') /\
    own_spec s s' id k (shape mt) (fun m => v ← mval m mt; y ← m !! sc; v_scal (bop o) v y).
Proof.
  intros Hr Hc Hsc. pose proof Hc as (_ & _ & Hwf).
  pose proof Hwf as (Hfit & Hmul & Hlen & Hval). start Hr.
  set (g i o0 := op2_of (T:=T) o o0 (nth i (operands mt) None) (Some sc)).
  eexists. split.
  - enter Hst. unfold build_opscalar. erewrite mbnd_ok by (eapply get_mat_child; eassumption).
    erewrite mbnd_ok by (apply set_shape_with; assumption).
    unfold make_operands. erewrite mbnd_ok by (apply set_operands_with; assumption).
    cbn [shape mulindex operands builded]. rewrite Hbuilt, Hmul.
    apply (emit_each_ok _ g); [assumption|].
    intros i o0 s0 Hi0. destruct (child_lookup _ _ _ _ _ Hc Hi0) as (l & Hl & _).
    rewrite (mbnd_ok _ _ _ _ _ (atM_ok _ _ _ _ Hl)). unfold mret, g.
    rewrite (nth_lookup_Some _ _ _ _ Hl). reflexivity.
  - eapply (emit_spec _ _ _ _ g (fun i m => x ← rd m (nth i (operands mt) None); y ← m !! sc; bin (bop o) x y)).
    + exact Hlen.
    + intros; apply op2_of_dst.
    + intros; apply op2_of_value.
    + intros i o0 l Hi0 Hl. unfold g in Hl. rewrite op2_of_args in Hl.
      destruct (child_lookup _ _ _ _ _ Hc Hi0) as (l' & Hl' & Hlt).
      rewrite (nth_lookup_Some _ _ _ _ Hl') in Hl.
      apply elem_of_cons in Hl as [Hl|Hl]; [congruence|].
      apply elem_of_list_singleton in Hl. congruence.
    + intros m Hm. unfold mval.
      destruct (mval_Some _ m mt Hwf Hm) as (d & Ed & Hld).
      assert (is_Some (m !! sc)) as [y Hy] by (apply lookup_lt_is_Some_2; lia).
      rewrite Ed, Hy. cbn [mbind option_bind]. unfold v_scal. cbn [vsh vdata].
      rewrite (data_mapM _ _ _ (fun x => bin (bop o) x y) Ed). reflexivity.
Qed.

(** ** Sum, Avg, Max, Min *)
Lemma build_tensormath_spec s id k m0 t mt o :
  ready s id k m0 -> child s id t mt ->
  exists s', build_tensormath id t o s = (Ok tt, s') /\
    own_spec s s' id k [1%N] (fun m => v ← mval m mt; v_reduce (rop o) v).
Proof.
  intros Hr Hc. pose proof Hc as (_ & _ & Hwf).
  pose proof Hwf as (Hfit & Hmul & Hlen & Hval). start Hr.
  set (g (i : nat) o0 := red_of (T:=T) o o0 (operands mt)).
  eexists. split.
  - enter Hst. unfold build_tensormath. erewrite mbnd_ok by (eapply get_mat_child; eassumption).
    erewrite mbnd_ok by (apply set_shape_with; assumption).
    erewrite mbnd_ok by reflexivity. cbn [mem st_with].
    change (MkSt (mem s ++ [nzero]) _ _) with
      (st_with (mem s ++ [nzero]) (tens s) (ctx s) id k (MkMat [1%N] [1%N] (operands m0) (builded m0))).
    erewrite mbnd_ok by (apply set_operands_with; assumption).
    cbn [shape mulindex operands builded]. rewrite Hbuilt. reflexivity.
  - pose proof (emit_spec s id k [1%N] g (fun i m => l ← rds m (operands mt); reduce (rop o) l)
      (fun m => v ← mval m mt; v_reduce (rop o) v) 1) as He.
    unfold st_with in *. cbn [replicate range seq map mem ctx tens] in *.
    rewrite Nat.add_0_r in He. apply He.
    + reflexivity.
    + intros; apply red_of_dst.
    + intros; apply red_of_value.
    + intros i o0 l Hi0 Hl. unfold g in Hl. rewrite red_of_args in Hl.
      rewrite Forall_forall in Hval. destruct (Hval _ Hl) as (l' & [= <-] & Hlt). assumption.
    + intros m Hm. unfold mval.
      destruct (mval_Some _ m mt Hwf Hm) as (d & Ed & Hld).
      rewrite Ed. cbn [mbind option_bind mapM]. unfold v_reduce, v_reduce_with. cbn.
      destruct (reduce (rop o) d); reflexivity.
Qed.

(** ** Views *)
Lemma views_spec s id k m0 sh (F : list N -> option ptr) (body : nat -> TM T unit) val n :
  ready s id k m0 -> fits sh -> n = N.to_nat (prodN sh) ->
  (forall idx, idx ∈ indices sh -> exists l, F idx = Some (Some l) /\ l < length (mem s)) ->
  (forall i idx p s0, indices sh !! i = Some idx -> F idx = Some p -> body i s0 = set_operand id i p s0) ->
  (forall m, length (mem s) <= length m -> val m = tabulate sh (fun idx => p ← F idx; rd m p)) ->
  exists s', (set_shape id sh (GetIndexMul sh) ;~ make_operands id n ;~ mfor (range n) body) s = (Ok tt, s') /\
    own_spec s s' id k sh val.
Proof.
  intros Hr Hfs Hn HF Hbody Hval. start Hr.
  destruct (mapM_total F (indices sh)) as [ps Hps].
  { intros idx Hidx. destruct (HF _ Hidx) as (l & -> & _). eauto. }
  pose proof (mapM_length _ _ _ Hps) as Hpl. rewrite indices_length in Hpl.
  assert (Hv : Forall (valid (length (mem s))) ps).
  { eapply Forall_mapM; [exact Hps|]. intros idx p Hin Hp.
    destruct (HF _ Hin) as (l & E & Hl). exists l. split; [congruence|assumption]. }
  eexists. split.
  - enter Hst. erewrite mbnd_ok by (apply set_shape_with; assumption).
    unfold make_operands. erewrite mbnd_ok by (apply set_operands_with; assumption).
    cbn [shape mulindex operands builded]. rewrite Hbuilt.
    apply (mfor_views_range _ ps); [assumption|lia|].
    intros i p s0 Hpi.
    destruct (indices_lookup_total sh i) as [idx Hidx]; [apply lookup_lt_Some in Hpi; lia|].
    eapply Hbody; [exact Hidx|]. rewrite (mapM_lookup _ _ _ _ _ Hps Hidx). assumption.
  - apply view_spec; [lia|assumption|].
    intros m Hm. rewrite (Hval m Hm). unfold tabulate.
    rewrite <- (mapM_bind _ (fun p => rd m p) _ _ Hps). change (mapM (fun p => rd m p) ps) with (rds m ps).
    destruct (rds_Some_valid m ps) as [vs Hvs].
    { eapply Forall_impl; [exact Hv|]. intros p (l & -> & Hl). exists l. split; [reflexivity|lia]. }
    rewrite Hvs. cbn. eexists. split; [reflexivity|]. auto.
Qed.

Lemma at_child (s : tst T) id t mt idx :
  child s id t mt -> Forall2 (fun i d => (i < d)%N) idx (shape mt) ->
  exists l, at_ (shape mt) (operands mt) idx = Some (Some l) /\ l < length (mem s).
Proof.
  intros (_ & _ & _ & _ & Hl & Hv) Hr. destruct (at_total _ (operands mt) _ Hl Hr) as [p Hp].
  destruct (at_valid _ _ _ _ _ Hv Hp) as (l & -> & Hlt). eauto.
Qed.

(** ** Transpose *)
Lemma build_transpose_spec s id k m0 t mt :
  ready s id k m0 -> child s id t mt ->
  exists s', build_transpose id t s = (Ok tt, s') /\
    own_spec s s' id k (reverse (shape mt)) (fun m => v ← mval m mt; v_transpose v).
Proof.
  intros Hr Hc. pose proof Hc as (_ & _ & Hwf).
  pose proof Hwf as (Hfit & Hmul & Hlen & Hval).
  assert (Hfs : fits (reverse (shape mt))) by (apply fits_reverse; assumption).
  edestruct (views_spec s id k m0 (reverse (shape mt))
    (fun idx => at_ (shape mt) (operands mt) (reverse idx))) as (s' & Hs' & Ho); cycle 6.
  { exists s'. split; [|exact Ho]. pose proof Hr as Hr'. start Hr'.
    rewrite Hst in Hs' |- * at 1. unfold build_transpose.
    erewrite mbnd_ok by (eapply get_mat_child; eassumption).
    rewrite transpose_shape_reverse. exact Hs'. }
  all: try assumption.
  - rewrite prodN_reverse. assumption.
  - intros idx Hidx. apply elem_of_indices in Hidx. eapply at_child; [eassumption|].
    apply Forall2_reverse in Hidx. rewrite reverse_involutive in Hidx. assumption.
  - intros i idx p s0 Hidx Hat. cbn beta.
    erewrite mbnd_ok by (unfold mlift; rewrite (ReverseIndex_lookup _ _ _ Hfs Hidx); reflexivity).
    rewrite GetInvertedIndex_reverse.
    erewrite mbnd_ok by (unfold mlift; rewrite (GetOperand_at _ _ _ _ Hwf Hat); reflexivity).
    reflexivity.
  - intros m Hm. destruct (mval_Some _ m mt Hwf Hm) as (d & Ed & Hld).
    unfold mval. rewrite Ed. cbn [mbind option_bind]. unfold v_transpose, tabulate. cbn [vsh vdata].
    f_equal. apply mapM_ext_in. intros idx _. apply at_rds. assumption.
Qed.

(** ** Sub-tensors *)
Lemma alter_insert {A} (f : A -> A) d (l : list A) c :
  l !! d = Some c -> alter f d l = <[d := f c]> l.
Proof.
  revert d. induction l as [|x l IH]; intros [|d] Hc; cbn in *; try discriminate.
  - congruence.
  - f_equal. apply IH. assumption.
Qed.

Lemma Forall2_lt_insert idx sh d x mx c :
  Forall2 (fun i m => (i < m)%N) idx (<[d := x]> sh) -> sh !! d = Some mx -> (c < mx)%N ->
  Forall2 (fun i m => (i < m)%N) (<[d := c]> idx) sh.
Proof.
  intros Hf Hd Hc.
  replace sh with (<[d := mx]> (<[d := x]> sh)).
  - apply Forall2_insert; assumption.
  - rewrite list_insert_insert. apply list_insert_id. assumption.
Qed.
Lemma Forall2_lt_coord idx sh d x :
  Forall2 (fun i m => (i < m)%N) idx (<[d := x]> sh) -> d < length sh ->
  exists c, idx !! d = Some c /\ (c < x)%N.
Proof.
  intros Hf Hd. eapply (Forall2_lookup_r _ _ _ d x) in Hf as (c & Hc & Hlt).
  - eauto.
  - apply list_lookup_insert. assumption.
Qed.
Lemma fits_dim sh d mx : fits sh -> sh !! d = Some mx -> (mx < W64)%N.
Proof. intros [Hf _] Hd. rewrite Forall_lookup in Hf. eauto. Qed.

Lemma updM_ok {A} (l : list A) i x (s : tst T) :
  i < length l -> updM l i x s = (Ok (<[i := x]> l), s).
Proof. intros Hi. unfold updM. rewrite decide_True by assumption. reflexivity. Qed.

Lemma sub_checks_None sh dim st en goout mx :
  sh !! N.to_nat dim = Some mx -> (st < en)%N -> (goout = false -> (en <= mx)%N) ->
  sub_checks sh dim st en goout = None.
Proof.
  intros Hd Hr Hm. unfold sub_checks. pose proof (lookup_lt_Some _ _ _ Hd) as Hlt. unfold ulen.
  destruct (N.of_nat (length sh) <=? dim)%N eqn:E1; [lia|].
  destruct (en <=? st)%N eqn:E2; [lia|].
  rewrite (nth_lookup_Some _ _ _ _ Hd).
  destruct goout; cbn; [reflexivity|]. specialize (Hm eq_refl).
  destruct (mx <? en)%N eqn:E3; [lia|]. destruct (mx <? st)%N eqn:E4; [lia|reflexivity].
Qed.

Lemma build_sub_in_spec s id k m0 t mt dim st en goout mx :
  ready s id k m0 -> child s id t mt ->
  shape mt !! N.to_nat dim = Some mx -> (st < en <= mx)%N ->
  fits (<[N.to_nat dim := (en - st)%N]> (shape mt)) ->
  exists s', build_sub id t dim st en goout s = (Ok tt, s') /\
    own_spec s s' id k (<[N.to_nat dim := (en - st)%N]> (shape mt))
      (fun m => v ← mval m mt; v_sub v (N.to_nat dim) st en).
Proof.
  intros Hr Hc Hd Hse Hfs. pose proof Hc as (_ & _ & Hwf).
  pose proof Hwf as (Hfit & Hmul & Hlen & Hval).
  pose proof (fits_dim _ _ _ Hfit Hd) as Hmx.
  pose proof (lookup_lt_Some _ _ _ Hd) as Hdl.
  set (d := N.to_nat dim) in *.
  set (sh := <[d := (en - st)%N]> (shape mt)) in *.
  assert (Hcoord : forall idx, idx ∈ indices sh -> exists c, idx !! d = Some c /\ (c + st < en)%N /\
     on_coord d (fun c => (c + st)%N) idx = <[d := (c + st)%N]> idx /\
     Forall2 (fun i m => (i < m)%N) (<[d := (c + st)%N]> idx) (shape mt)).
  { intros idx Hidx. apply elem_of_indices in Hidx.
    destruct (Forall2_lt_coord _ _ _ _ Hidx Hdl) as (c & Hcd & Hlt).
    exists c. split; [assumption|]. split; [lia|]. split; [apply (alter_insert (fun c => (c + st)%N) _ _ _ Hcd)|].
    eapply Forall2_lt_insert; [exact Hidx|exact Hd|lia]. }
  edestruct (views_spec s id k m0 sh
    (fun idx => at_ (shape mt) (operands mt) (on_coord d (fun c => (c + st)%N) idx))) as (s' & Hs' & Ho); cycle 6.
  { exists s'. split; [|exact Ho]. pose proof Hr as Hr'. start Hr'.
    rewrite Hst in Hs' |- * at 1. unfold build_sub.
    erewrite mbnd_ok by (eapply get_mat_child; eassumption).
    rewrite (sub_checks_None _ _ _ _ _ mx) by (try assumption; lia).
    erewrite mbnd_ok by reflexivity. fold d.
    erewrite mbnd_ok by (apply atM_ok; exact Hd).
    rewrite usub_small by lia. fold sh. exact Hs'. }
  all: try assumption.
  - rewrite GetDataSize_fits by assumption. reflexivity.
  - intros idx Hidx. destruct (Hcoord _ Hidx) as (c & _ & _ & -> & Hr2). eapply at_child; eassumption.
  - intros i idx p s0 Hidx Hat. cbn beta.
    destruct (Hcoord idx) as (c & Hcd & Hlt & Heq & Hr2); [eapply elem_of_list_lookup_2; eassumption|].
    rewrite Heq in Hat.
    erewrite mbnd_ok by (unfold mlift; rewrite (ReverseIndex_lookup _ _ _ Hfs Hidx); reflexivity).
    erewrite mbnd_ok by (apply atM_ok; exact Hcd).
    rewrite uadd_small by lia.
    erewrite mbnd_ok by (apply updM_ok; eapply lookup_lt_Some; exact Hcd).
    destruct (mx <? c + st)%N eqn:E; [lia|]. cbn [andb].
    erewrite mbnd_ok by (unfold mlift; rewrite (GetOperand_at _ _ _ _ Hwf Hat); reflexivity).
    reflexivity.
  - intros m Hm. destruct (mval_Some _ m mt Hwf Hm) as (dd & Ed & Hld).
    unfold mval. rewrite Ed. cbn [mbind option_bind]. unfold v_sub, tabulate. cbn [vsh vdata]. fold sh.
    f_equal. apply mapM_ext_in. intros idx _. apply at_rds. assumption.
Qed.

(** When the range does not pass the end, the padded slice is the slice. *)
Lemma v_subx_in (v : vten T) d st en mx :
  vsh v !! d = Some mx -> (st < en <= mx)%N -> v_subx v d st en = v_sub v d st en.
Proof.
  intros Hd Hse. unfold v_subx, v_subp, v_sub, tabulate. f_equal. apply mapM_ext_in. intros idx Hidx.
  apply elem_of_indices in Hidx.
  destruct (Forall2_lt_coord _ _ _ _ Hidx (lookup_lt_Some _ _ _ Hd)) as (c & Hcd & Hlt).
  unfold on_coord at 1. rewrite list_lookup_alter, Hcd, Hd. cbn.
  destruct (c + st <? mx)%N eqn:E; [reflexivity|lia].
Qed.

(** Cells that are allocated and never written. *)
Lemma pads_spec (s : tst T) id k sh ps q n (val : list T -> option (vten T)) :
  length ps + n = N.to_nat (prodN sh) ->
  Forall (valid (length (mem s))) ps ->
  (forall m, length (mem s) <= length m -> exists v d, val m = Some v /\ vsh v = sh /\
     rds m ps = Some d /\ vdata v = d ++ replicate n nzero) ->
  q = ps ++ map Some (seq (length (mem s)) n) ->
  own_spec s (st_with (mem s ++ replicate n nzero) (tens s) (ctx s) id k
                (MkMat sh (GetIndexMul sh) q true)) id k sh val.
Proof.
  intros Hl Hv Hval ->. exists (replicate n nzero), [], (ps ++ map Some (seq (length (mem s)) n)), (seq (length (mem s)) n).
  unfold st_with. cbn [mem ctx tens]. rewrite app_nil_r.
  split; [reflexivity|]. split; [reflexivity|]. split; [reflexivity|].
  split; [rewrite app_length, map_length, seq_length; assumption|].
  split.
  { apply Forall_app. split.
    - eapply Forall_impl; [exact Hv|]. intros p Hp. eapply valid_mono; [exact Hp|]. rewrite app_length. lia.
    - apply Forall_forall. intros p Hp. apply elem_of_list_fmap in Hp as (l & -> & Hp).
      apply elem_of_seq in Hp. exists l. split; [reflexivity|]. rewrite app_length, replicate_length. lia. }
  split; [intros l Hd; exfalso; eapply dst_in_nil; eassumption|].
  split.
  { apply Forall_forall. intros l Hp. apply elem_of_seq in Hp. split; [lia|]. split; [|apply dst_in_nil].
    rewrite lookup_app_r by lia. apply lookup_replicate. split; [reflexivity|lia]. }
  intros m Hm Hpads. rewrite app_length, replicate_length in Hm.
  destruct (Hval m) as (v & d & -> & Hsh & Hd & Hdata); [lia|].
  exists m. split; [reflexivity|]. split; [assumption|].
  rewrite rds_app, Hd. cbn. rewrite <- (replicate_length n (nzero : T)) at 1. rewrite rds_seq.
  - cbn. congruence.
  - rewrite replicate_length. intros i Hi. rewrite Forall_forall in Hpads.
    rewrite Hpads by (apply elem_of_seq; lia). symmetry. apply lookup_replicate. auto.
Qed.

Lemma build_sub_out_spec s id k m0 t mt dim st en mx :
  ready s id k m0 -> child s id t mt ->
  shape mt !! N.to_nat dim = Some mx -> (mx < st)%N -> (st < en)%N -> (en < W64)%N ->
  fits (<[N.to_nat dim := (en - st)%N]> (shape mt)) ->
  exists s', build_sub id t dim st en true s = (Ok tt, s') /\
    own_spec s s' id k (<[N.to_nat dim := (en - st)%N]> (shape mt))
      (fun m => v ← mval m mt; v_subx v (N.to_nat dim) st en).
Proof.
  intros Hr Hc Hd Hms Hse Hen Hfs. pose proof Hc as (_ & _ & Hwf).
  pose proof Hwf as (Hfit & Hmul & Hlen & Hval).
  pose proof (lookup_lt_Some _ _ _ Hd) as Hdl.
  set (d := N.to_nat dim) in *.
  set (sh := <[d := (en - st)%N]> (shape mt)) in *.
  assert (Hcoord : forall idx, idx ∈ indices sh -> exists c, idx !! d = Some c /\ (c + st < en)%N).
  { intros idx Hidx. apply elem_of_indices in Hidx.
    destruct (Forall2_lt_coord _ _ _ _ Hidx Hdl) as (c & Hcd & Hlt). exists c. split; [assumption|lia]. }
  start Hr. eexists. split.
  - enter Hst. unfold build_sub.
    erewrite mbnd_ok by (eapply get_mat_child; eassumption).
    rewrite (sub_checks_None _ _ _ _ _ mx) by (try assumption; lia).
    erewrite mbnd_ok by reflexivity. fold d.
    erewrite mbnd_ok by (apply atM_ok; exact Hd).
    rewrite usub_small by lia. fold sh.
    erewrite mbnd_ok by (apply set_shape_with; assumption).
    unfold make_operands. erewrite mbnd_ok by (apply set_operands_with; assumption).
    cbn [shape mulindex operands builded]. rewrite Hbuilt, GetDataSize_fits by assumption.
    unfold range. rewrite mfor_pads; [reflexivity|assumption|rewrite replicate_length; reflexivity|].
    intros i s0 Hi0. destruct (indices_lookup_total sh i) as [idx Hidx]; [lia|].
    destruct (Hcoord idx) as (c & Hcd & Hlt); [eapply elem_of_list_lookup_2; eassumption|].
    erewrite mbnd_ok by (unfold mlift; rewrite (ReverseIndex_lookup _ _ _ Hfs Hidx); reflexivity).
    erewrite mbnd_ok by (apply atM_ok; exact Hcd).
    rewrite uadd_small by lia.
    erewrite mbnd_ok by (apply updM_ok; eapply lookup_lt_Some; exact Hcd).
    destruct (mx <? c + st)%N eqn:E; [|lia]. reflexivity.
  - apply (pads_spec _ _ _ _ []); [reflexivity|constructor| |reflexivity].
    intros m Hm. destruct (mval_Some _ m mt Hwf Hm) as (dd & Ed & Hld).
    unfold mval. rewrite Ed. cbn [mbind option_bind].
    assert (E : v_subx (V (shape mt) dd) d st en = Some (V sh (replicate (N.to_nat (prodN sh)) nzero))).
    { unfold v_subx, v_subp, tabulate. cbn [vsh vdata]. fold sh.
      rewrite (mapM_ext_in _ (fun _ => Some nzero)).
      - rewrite mapM_pure. cbn. do 2 f_equal. rewrite <- indices_length.
        generalize (indices sh). intros l. induction l as [|x l IH]; [reflexivity|]. cbn. f_equal. apply IH.
      - intros idx Hidx. destruct (Hcoord _ Hidx) as (c & Hcd & Hlt).
        unfold on_coord at 1. rewrite list_lookup_alter, Hcd, Hd. cbn.
        destruct (c + st <? mx)%N eqn:E; [lia|reflexivity]. }
    rewrite E. exists (V sh (replicate (N.to_nat (prodN sh)) nzero)), []. auto.
Qed.

(** ** Reshape *)
Lemma rds_take (m : list T) ps vs n : rds m ps = Some vs -> rds m (take n ps) = Some (take n vs).
Proof.
  unfold rds. revert vs n. induction ps as [|p ps IH]; intros vs n E; cbn in E.
  - injection E as <-. rewrite !take_nil. reflexivity.
  - destruct (rd m p) as [v|] eqn:Ep; cbn in E; [|discriminate].
    destruct (mapM (rd m) ps) as [vs'|]; cbn in E; [|discriminate]. injection E as <-.
    destruct n; [reflexivity|]. cbn. rewrite Ep. cbn. rewrite (IH _ n eq_refl). reflexivity.
Qed.
Lemma rds_drop (m : list T) ps vs n : rds m ps = Some vs -> rds m (drop n ps) = Some (drop n vs).
Proof.
  unfold rds. revert vs n. induction ps as [|p ps IH]; intros vs n E; cbn in E.
  - injection E as <-. rewrite !drop_nil. reflexivity.
  - destruct (rd m p) as [v|] eqn:Ep; cbn in E; [|discriminate].
    destruct (mapM (rd m) ps) as [vs'|] eqn:Eps; cbn in E; [|discriminate]. injection E as <-.
    destruct n; cbn; [rewrite Ep; cbn; rewrite Eps; reflexivity|]. apply (IH _ n eq_refl).
Qed.

Lemma build_reshape_spec s id k m0 t mt :
  ready s id k m0 -> child s id t mt -> fits (shape m0) ->
  exists s', build_reshape id t s = (Ok tt, s') /\
    own_spec s s' id k (shape m0) (fun m => v ← mval m mt; Some (v_reshape v (shape m0))).
Proof.
  intros Hr Hc Hfs. pose proof Hc as (_ & _ & Hwf).
  pose proof Hwf as (Hfit & Hmul & Hlen & Hval). start Hr.
  set (sh := shape m0) in *. set (total := N.to_nat (prodN sh)).
  set (mn := if length (operands mt) <? total then length (operands mt) else total).
  assert (Hmn : mn = Nat.min total (length (operands mt))) by (unfold mn; destruct (length (operands mt) <? total) eqn:E; lia).
  set (ps := take total (operands mt)).
  assert (Hps : length ps = mn) by (unfold ps; rewrite take_length; lia).
  eexists. split.
  - enter Hst. unfold build_reshape.
    erewrite mbnd_ok by (apply get_mat_with; assumption).
    erewrite mbnd_ok by (eapply get_mat_child; eassumption). fold sh.
    rewrite GetDataSize_fits by assumption. fold total. fold mn.
    erewrite mbnd_ok by (apply set_shape_with; assumption).
    unfold make_operands. erewrite mbnd_ok by (apply set_operands_with; assumption).
    cbn [shape mulindex operands builded]. rewrite Hbuilt.
    erewrite mbnd_ok.
    2:{ pose proof (mfor_segment (fun i => o <~ atM (operands mt) i ; set_operand id i o)
          (mem s) (tens s) (ctx s) id k sh (GetIndexMul sh) true ps Hid [] (replicate mn None)
          (replicate (total - mn) None)) as Hseg.
        cbn [app length] in Hseg. rewrite <- replicate_add, Hps in Hseg.
        replace (mn + (total - mn)) with total in Hseg by lia.
        apply Hseg; [rewrite replicate_length; reflexivity|].
        intros i p s0 Hp. cbn [Nat.add].
        assert (operands mt !! i = Some p) as Hop.
        { unfold ps in Hp. rewrite lookup_take in Hp; [assumption|]. apply lookup_lt_Some in Hp. rewrite take_length in Hp. lia. }
        erewrite mbnd_ok by (apply atM_ok; exact Hop). reflexivity. }
    rewrite mfor_pads; [reflexivity|assumption| |reflexivity].
    rewrite app_length, replicate_length. lia.
  - apply (pads_spec _ _ _ _ ps).
    + lia.
    + unfold ps. apply Forall_take. assumption.
    + intros m Hm. destruct (mval_Some _ m mt Hwf Hm) as (dd & Ed & Hld).
      unfold mval. rewrite Ed. cbn [mbind option_bind]. eexists _, (take total dd). split; [reflexivity|].
      unfold v_reshape. cbn [vsh vdata]. fold total. split; [reflexivity|].
      split; [unfold ps; apply rds_take; assumption|]. f_equal. f_equal. lia.
    + f_equal. rewrite take_app_alt by lia. reflexivity.
Qed.
End Build.
