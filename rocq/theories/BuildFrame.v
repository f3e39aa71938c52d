(** * BuildFrame: what building an object may touch *)
From Verif Require Import Base Num ModelTools ModelOps ModelTensor ModelGraph Spec Denote
  ExecProofs TensorFacts.
From Coq Require Import Lia.

Section Frame.
Context {T : Type} `{Num T}.
Implicit Types (s : tst T) (R : tst T -> tst T -> Prop).

(** Every outcome of [c] is related to its start by [R]. *)
Definition sat {A} R (c : TM T A) : Prop := forall s r s', c s = (r, s') -> R s s'.
Definition preorder R : Prop := (forall s, R s s) /\ (forall a b c, R a b -> R b c -> R a c).

Section Gen.
Variable R : tst T -> tst T -> Prop.
Hypothesis Hpo : preorder R.

Lemma sat_id {A} (c : TM T A) : (forall s, snd (c s) = s) -> sat R c.
Proof. intros Hc s r s' E. specialize (Hc s). rewrite E in Hc. cbn in Hc. subst s'. apply Hpo. Qed.
Lemma sat_ret {A} (a : A) : sat R (mret a). Proof. apply sat_id. reflexivity. Qed.
Lemma sat_fail {A} e : sat R (mfail e : TM T A). Proof. apply sat_id. reflexivity. Qed.
Lemma sat_panic {A} : sat R (mpanic : TM T A). Proof. apply sat_id. reflexivity. Qed.
Lemma sat_diverge {A} : sat R (mdiverge : TM T A). Proof. apply sat_id. reflexivity. Qed.
Lemma sat_lift {A} (r : res A) : sat R (mlift r). Proof. apply sat_id. reflexivity. Qed.
Lemma sat_eM e : sat R (eM e). Proof. apply sat_id. intros s. destruct e; reflexivity. Qed.
Lemma sat_oM {A} (o : option A) : sat R (oM o). Proof. apply sat_id. intros s. destruct o; reflexivity. Qed.
Lemma sat_atM {A} (l : list A) i : sat R (atM l i). Proof. apply sat_lift. Qed.
Lemma sat_updM {A} (l : list A) i x : sat R (updM l i x).
Proof. unfold updM. case_decide; [apply sat_ret|apply sat_panic]. Qed.
Lemma sat_get_node j : sat R (get_node j).
Proof. apply sat_id. intros s. unfold get_node. destruct (tens s !! j); reflexivity. Qed.
Lemma sat_bnd {A B} (c : TM T A) (k : A -> TM T B) : sat R c -> (forall a, sat R (k a)) -> sat R (mbnd c k).
Proof.
  intros Hc Hk s r s' E. unfold mbnd in E. destruct (c s) as [[a| | |] s1] eqn:E1;
    try (injection E as <- <-; exact (Hc _ _ _ E1)).
  destruct Hpo as [_ Ht]. eapply Ht; [exact (Hc _ _ _ E1)|exact (Hk _ _ _ _ E)].
Qed.
Lemma sat_get_mat j : sat R (get_mat j).
Proof. apply sat_bnd; [apply sat_get_node|intros; apply sat_ret]. Qed.
Lemma sat_mfor {A} (l : list A) f : (forall x, sat R (f x)) -> sat R (mfor l f).
Proof. intros Hf. induction l as [|x l IH]; cbn; [apply sat_ret|apply sat_bnd; [apply Hf|intros; exact IH]]. Qed.
Lemma sat_mmap {A B} (l : list A) (f : A -> TM T B) : (forall x, sat R (f x)) -> sat R (mmap l f).
Proof.
  intros Hf. induction l as [|x l IH]; cbn; [apply sat_ret|].
  apply sat_bnd; [apply Hf|intros]. apply sat_bnd; [exact IH|intros; apply sat_ret].
Qed.
End Gen.

Ltac sat_step Hpo :=
  first
  [ assumption
  | apply (sat_ret _ Hpo) | apply (sat_fail _ Hpo) | apply (sat_panic _ Hpo) | apply (sat_diverge _ Hpo)
  | apply (sat_eM _ Hpo) | apply (sat_oM _ Hpo) | apply (sat_atM _ Hpo) | apply (sat_updM _ Hpo)
  | apply (sat_get_node _ Hpo) | apply (sat_get_mat _ Hpo) | apply (sat_lift _ Hpo)
  | apply (sat_mfor _ Hpo); intros
  | apply (sat_mmap _ Hpo); intros
  | apply (sat_bnd _ Hpo); [|intros]
  | match goal with |- sat _ (if ?b then _ else _) => destruct b end
  | match goal with |- sat _ (match ?x with _ => _ end) => destruct x end
  ].

(** ** Only object [id] and new scalars change. *)
Definition only (id : nat) s s' : Prop :=
  (exists ext, mem s' = mem s ++ ext) /\ length (tens s') = length (tens s) /\
  (forall j, j <> id -> tens s' !! j = tens s !! j) /\
  (forall n, tens s !! id = Some n -> exists n', tens s' !! id = Some n' /\ nkind n' = nkind n /\
     (builded (nmat n) = true -> builded (nmat n') = true)).
Lemma only_po id : preorder (only id).
Proof.
  split.
  - intros s. split; [exists []; rewrite app_nil_r; reflexivity|]. split; [reflexivity|]. split; [auto|]. intros n Hn. eauto.
  - intros a b c ((e1 & M1) & L1 & F1 & K1) ((e2 & M2) & L2 & F2 & K2). split; [|split; [|split]].
    + exists (e1 ++ e2). rewrite M2, M1, app_assoc. reflexivity.
    + congruence.
    + intros j Hj. rewrite F2, F1 by assumption. reflexivity.
    + intros n Hn. destruct (K1 _ Hn) as (n1 & H1 & E1 & B1). destruct (K2 _ H1) as (n2 & H2 & E2 & B2).
      exists n2. split; [assumption|]. split; [congruence|auto].
Qed.
Lemma only_alloc id v : sat (only id) (alloc v).
Proof.
  intros s r s' E. injection E as <- <-. split; [cbn; eauto|]. split; [reflexivity|]. split; [reflexivity|].
  intros n Hn. eauto.
Qed.
Lemma only_push id o : sat (only id) (push o).
Proof.
  intros s r s' E. injection E as <- <-. split; [exists []; cbn; rewrite app_nil_r; reflexivity|].
  split; [reflexivity|]. split; [reflexivity|]. intros n Hn. eauto.
Qed.
Lemma only_upd id f :
  (forall m, builded m = true -> builded (f m) = true) -> sat (only id) (upd_mat id f : TM T unit).
Proof.
  intros Hf s r s' E. unfold upd_mat in E. destruct (tens s !! id) as [n|] eqn:Hn; injection E as <- <-.
  - split; [exists []; cbn; rewrite app_nil_r; reflexivity|]. split; [cbn; apply insert_length|]. split.
    + intros j Hj. cbn. apply list_lookup_insert_ne. congruence.
    + intros n0 Hn0. rewrite Hn in Hn0. injection Hn0 as <-. eexists. cbn. split.
      * apply list_lookup_insert. eapply lookup_lt_Some. exact Hn.
      * cbn. auto.
  - apply only_po.
Qed.
Lemma only_set_built id : sat (only id) (set_built id : TM T unit).
Proof. apply only_upd. reflexivity. Qed.
Lemma only_set_shape id sh mul : sat (only id) (set_shape id sh mul : TM T unit).
Proof. apply only_upd. auto. Qed.
Lemma only_set_operands id ops : sat (only id) (set_operands id ops : TM T unit).
Proof. apply only_upd. auto. Qed.
Lemma only_set_operand id i o : sat (only id) (set_operand id i o : TM T unit).
Proof. unfold set_operand. repeat sat_step (only_po id). apply only_set_operands. Qed.
Lemma only_emit id n f : (forall i o, sat (only id) (f i o)) -> sat (only id) (emit_each id n f).
Proof.
  intros Hf. unfold emit_each.
  repeat (first [apply only_alloc | apply only_set_operand | apply only_push | apply Hf | sat_step (only_po id)]).
Qed.
Lemma only_dot_products id ma mb da db : forall is ia ib, sat (only id) (dot_products ma mb da db ia ib is : TM T _).
Proof.
  induction is as [|i is IH]; intros ia ib; cbn [dot_products];
    repeat (first [apply only_alloc | apply only_push | apply IH | sat_step (only_po id)]).
Qed.

Definition own_part (id : nat) (k : kind T) : TM T unit :=
  match k with
  | KMat => mret tt
  | KAbs t => build_map id t OAbs
  | KNeg t => build_map id t ONeg
  | KActivate t f => build_map id t (fun d a => OFunc d a f)
  | KOp2 a b o => build_op2 id a b o
  | KOpScalar t s o => build_opscalar id t s o
  | KConcat a b d => build_concat id a b d
  | KCopy f t => build_copy id f t
  | KFill t v => build_fill id t v
  | KDimMath t d o => build_dimmath id t d o
  | KDot a b dims => build_dot id a b dims
  | KReshape t => build_reshape id t
  | KSoftMax t => build_softmax id t
  | KSub t d s e g => build_sub id t d s e g
  | KTensorMath t o => build_tensormath id t o
  | KTranspose t => build_transpose id t
  end.

Ltac only_tac id :=
  repeat (first [ apply only_alloc | apply only_push | apply only_set_shape | apply only_set_operands | apply only_set_operand
    | apply only_dot_products | apply only_emit; intros | progress unfold make_operands | sat_step (only_po id) ]).
Lemma only_own id k : sat (only id) (own_part id k).
Proof.
  destruct k; cbn [own_part];
    unfold build_map, build_op2, build_opscalar, build_concat, build_copy, build_fill, build_dimmath,
      build_dot, build_vector, build_last_dim, build_reshape, build_softmax, build_sub, build_tensormath, build_transpose;
    only_tac id.
Qed.


(** Building an object changes only objects below it (and their kind never). *)
Definition within (P : nat -> Prop) s s' : Prop :=
  (exists ext, mem s' = mem s ++ ext) /\ length (tens s') = length (tens s) /\
  (forall j, ~ P j -> tens s' !! j = tens s !! j) /\
  (forall j n, tens s !! j = Some n -> exists n', tens s' !! j = Some n' /\ nkind n' = nkind n /\
     (builded (nmat n) = true -> builded (nmat n') = true)).
Lemma within_po P : preorder (within P).
Proof.
  split.
  - intros s. split; [exists []; rewrite app_nil_r; reflexivity|]. split; [reflexivity|]. split; [auto|]. intros j n Hn. eauto.
  - intros a b c ((e1 & M1) & L1 & F1 & K1) ((e2 & M2) & L2 & F2 & K2). split; [|split; [|split]].
    + exists (e1 ++ e2). rewrite M2, M1, app_assoc. reflexivity.
    + congruence.
    + intros j Hj. rewrite F2, F1 by assumption. reflexivity.
    + intros j n Hn. destruct (K1 _ _ Hn) as (n1 & H1 & E1 & B1). destruct (K2 _ _ H1) as (n2 & H2 & E2 & B2).
      exists n2. split; [assumption|]. split; [congruence|auto].
Qed.
Lemma only_within id (P : nat -> Prop) s s' : P id -> only id s s' -> within P s s'.
Proof.
  intros Hp (M & L & F & K). split; [exact M|]. split; [exact L|]. split.
  - intros j Hj. apply F. intros ->. auto.
  - intros j n Hn. destruct (decide (j = id)) as [->|Hne]; [auto|]. rewrite (F _ Hne). eauto.
Qed.
Lemma within_mono (P Q : nat -> Prop) s s' : (forall j, P j -> Q j) -> within P s s' -> within Q s s'.
Proof. intros Hpq (M & L & F & K). split; [exact M|]. split; [exact L|]. split; [|exact K]. intros j Hj. apply F. auto. Qed.
Lemma sat_mono {A} (R R' : tst T -> tst T -> Prop) (c : TM T A) : (forall a b, R a b -> R' a b) -> sat R c -> sat R' c.
Proof. intros Hr Hc s r s' E. apply Hr. eapply Hc. exact E. Qed.

Lemma kind_below (t1 t2 : list (node T)) :
  (forall j n, t1 !! j = Some n -> exists n', t2 !! j = Some n' /\ nkind n' = nkind n) ->
  length t1 = length t2 -> forall a b, below t2 a b -> below t1 a b.
Proof.
  intros Hk Hl a b Hb. induction Hb as [|id n c j Hn Hc Hb IH]; [constructor|].
  destruct (lookup_lt_is_Some_2 t1 id) as [n1 Hn1]; [rewrite Hl; eapply lookup_lt_Some; exact Hn|].
  destruct (Hk _ _ Hn1) as (n' & Hn' & E). rewrite Hn in Hn'. injection Hn' as <-.
  eapply B_step; [exact Hn1| |exact IH]. rewrite <- E. exact Hc.
Qed.

Lemma BuildGraph_within fuel : forall id s r s',
  BuildGraph fuel id s = (r, s') -> within (below (tens s) id) s s'.
Proof.
  induction fuel as [|fuel IH]; intros id s r s' E.
  { injection E as <- <-. apply within_po. }
  cbn [BuildGraph] in E. unfold mbnd at 1 in E. unfold get_node in E.
  destruct (tens s !! id) as [n|] eqn:Hn; [|injection E as <- <-; apply within_po].
  destruct (builded (nmat n)); [injection E as <- <-; apply within_po|].
  set (P := below (tens s) id) in *.
  (* all later states have the same kinds *)
  set (sees := fun s1 : tst T => within P s s1).
  assert (Hchild : forall s1 t r1 s2, within P s s1 -> t ∈ children (nkind n) -> BuildGraph fuel t s1 = (r1, s2) -> within P s s2).
  { intros s1 t r1 s2 W Ht E1. apply IH in E1. destruct (within_po P) as [_ Htr]. eapply Htr; [exact W|].
    eapply within_mono; [|exact E1]. intros j Hj. eapply B_step; [exact Hn|exact Ht|].
    destruct W as (_ & L & _ & K). eapply kind_below; [|symmetry; exact L|exact Hj].
    intros j0 n0 Hj0. destruct (K _ _ Hj0) as (n' & Hn' & Ek & _). eauto. }
  assert (Hown : forall s1 r1 s2 (c : TM T unit), within P s s1 -> sat (only id) c -> c s1 = (r1, s2) -> within P s s2).
  { intros s1 r1 s2 c W Hc E1. destruct (within_po P) as [_ Htr]. eapply Htr; [exact W|].
    eapply only_within; [constructor|]. eapply Hc. exact E1. }
  destruct (set_built id s) as [r0 s0] eqn:E0. unfold mbnd at 1 in E. rewrite E0 in E.
  assert (W0 : within P s s0).
  { eapply (Hown s r0 s0); [apply within_po|apply only_set_built|exact E0]. }
  assert (r0 = Ok tt) as -> by (unfold set_built, upd_mat in E0; rewrite Hn in E0; injection E0; auto).
  assert (Hbnd : forall t (c : TM T unit) s1, within P s s1 -> t ∈ children (nkind n) ->
    (forall s2, within P s s2 -> forall r3 s3, c s2 = (r3, s3) -> within P s s3) ->
    forall r3 s3, (BuildGraph fuel t ;~ c) s1 = (r3, s3) -> within P s s3).
  { intros t c s1 W Ht Hc r3 s3 E3. unfold mbnd in E3. destruct (BuildGraph fuel t s1) as [r2 s2] eqn:E2.
    pose proof (Hchild _ _ _ _ W Ht E2) as W2. destruct r2; try (injection E3 as <- <-; exact W2). eauto. }
  destruct (nkind n) eqn:Hk; cbn [children] in *;
    try (eapply Hbnd; [exact W0|repeat (first [left|right])|intros s2 W2 r3 s3 E3|exact E]).
  all: try (eapply (Hown s2 r3 s3 _ W2); [|exact E3]; match goal with |- sat _ ?c => pose proof (only_own id (nkind n)) as Ho; rewrite Hk in Ho; exact Ho end).
  all: try (revert E3; eapply Hbnd; [exact W2|repeat (first [left|right])|];
    intros s4 W4 r5 s5 E5; eapply (Hown s4 r5 s5 _ W4); [|exact E5];
    match goal with |- sat _ ?c => pose proof (only_own id (nkind n)) as Ho; rewrite Hk in Ho; exact Ho end).
  eapply (Hown s0 r s' _ W0); [|exact E]. apply (sat_mfor _ (only_po id)). intros. apply only_push.
Qed.
End Frame.

Ltac sat_step Hpo :=
  first
  [ assumption
  | apply (sat_ret _ Hpo) | apply (sat_fail _ Hpo) | apply (sat_panic _ Hpo) | apply (sat_diverge _ Hpo)
  | apply (sat_eM _ Hpo) | apply (sat_oM _ Hpo) | apply (sat_atM _ Hpo) | apply (sat_updM _ Hpo)
  | apply (sat_get_node _ Hpo) | apply (sat_get_mat _ Hpo) | apply (sat_lift _ Hpo)
  | apply (sat_mfor _ Hpo); intros
  | apply (sat_mmap _ Hpo); intros
  | apply (sat_bnd _ Hpo); [|intros]
  | match goal with |- sat _ (if ?b then _ else _) => destruct b end
  | match goal with |- sat _ (match ?x with _ => _ end) => destruct x end
  ].

