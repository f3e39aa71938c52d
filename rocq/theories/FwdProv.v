(** * FwdProv: where the scalars of a built tensor come from

    Building absolute values, activations, products with a scalar, soft max and
    reshaped tensors takes no scalar that is not one of the tensors below. *)
From Verif Require Import Base Num ModelTools ModelOps ModelTensor ModelGraph Spec Denote ExecProofs TensorFacts BuildProofs BuildFrame FwdBuild FwdSeg.
From Coq Require Import Lia ZifyBool ZifyNat ZifyN.

Section FwdProv.
Context {T : Type} `{Num T}.
Implicit Types s : tst T.

Definition easy (B : nat -> Prop) (k : kind T) : Prop :=
  match k with
  | KMat => True
  | KAbs t | KActivate t _ | KOpScalar t _ _ | KReshape t | KSoftMax t => B t
  | _ => False
  end.
(** None of the scalars [X] is in a list. *)
Definition free (X : nat -> Prop) (l : list ptr) : Prop := forall i, X i -> Some i ∉ l.
(** The scalars [X] are there, but in none of the tensors [B]. *)
Definition absent (X : nat -> Prop) (B : nat -> Prop) s : Prop :=
  (forall i, X i -> i < length (mem s)) /\ forall j n, B j -> tens s !! j = Some n -> free X (operands (nmat n)) /\ (builded (nmat n) = false -> easy B (nkind n)).
Definition avoids {A} (X : nat -> Prop) (B : nat -> Prop) (c : TM T A) (Q : A -> Prop) : Prop :=
  forall s a s', absent X B s -> c s = (Ok a, s') -> absent X B s' /\ (forall j, ~ B j -> tens s' !! j = tens s !! j) /\ Q a.

Section Av.
Variables (X B : nat -> Prop).
Notation av c Q := (avoids X B c Q).
Lemma av_bnd {A C} (c : TM T A) (k : A -> TM T C) Q R : av c Q -> (forall a, Q a -> av (k a) R) -> av (mbnd c k) R.
Proof using Type.
  intros Hc Hk s b s' Hs E. unfold mbnd in E. destruct (c s) as [[a| | |] s1] eqn:E1; try discriminate.
  destruct (Hc _ _ _ Hs E1) as (H1 & F1 & HQ). destruct (Hk a HQ _ _ _ H1 E) as (H2 & F2 & HR). split; [exact H2|]. split; [|exact HR]. intros j Hj. rewrite F2, F1 by exact Hj. reflexivity.
Qed.
Lemma av_ret {A} (a : A) (Q : A -> Prop) : Q a -> av (mret a) Q.
Proof using Type. intros Ha s b s' Hs E. unfold mret in E. injection E as <- <-. auto. Qed.
Lemma av_mfor {A} (l : list A) f : (forall x, x ∈ l -> av (f x) (fun _ => True)) -> av (mfor l f) (fun _ => True).
Proof using Type.
  intros Hf. induction l as [|x l IH]; [apply av_ret; exact I|]. cbn [mfor]. eapply av_bnd; [apply Hf; left|]. intros [] _. apply IH. intros y Hy. apply Hf. right. exact Hy.
Qed.
Lemma av_alloc v : av (alloc v) (fun o => forall i, X i -> o <> Some i).
Proof using Type.
  intros s a s' [Hi Hb] E. unfold alloc in E. injection E as <- <-. split; [|split; [reflexivity|intros i Xi Hx; injection Hx; specialize (Hi i Xi); lia]].
  split; [intros i Xi; specialize (Hi i Xi); cbn; rewrite app_length; lia|]. exact Hb.
Qed.
Lemma av_push o : av (push o) (fun _ => True).
Proof using Type. intros s a s' Hs E. unfold push in E. injection E as <- <-. split; [exact Hs|]. split; [reflexivity|exact I]. Qed.
Lemma av_get_node j : av (get_node j) (fun n => B j -> free X (operands (nmat n)) /\ (builded (nmat n) = false -> easy B (nkind n))).
Proof using Type.
  intros s a s' Hs E. unfold get_node in E. destruct (tens s !! j) as [n|] eqn:En; [|discriminate]. injection E as <- <-. split; [exact Hs|]. split; [reflexivity|]. intros Hj. exact (proj2 Hs _ _ Hj En).
Qed.
Lemma av_get_mat j : av (get_mat j) (fun m => B j -> free X (operands m)).
Proof using Type. unfold get_mat. eapply av_bnd; [apply av_get_node|]. intros n Hn. apply av_ret. intros Hj. apply Hn. exact Hj. Qed.
Lemma av_atM {A} (l : list A) k : av (atM l k) (fun x => x ∈ l).
Proof using Type.
  intros s a s' Hs E. unfold atM, mlift, at_or_panic in E. destruct (l !! k) as [x|] eqn:Ex; [|discriminate]. injection E as <- <-. split; [exact Hs|]. split; [reflexivity|]. eapply elem_of_list_lookup_2. exact Ex.
Qed.
Lemma av_updM (l : list ptr) k x : free X l -> (forall i, X i -> x <> Some i) -> av (updM l k x) (fun l' => free X l').
Proof using Type.
  intros Hl Hx s a s' Hs E. unfold updM in E. destruct (decide (k < length l)) as [Hlt|]; [|discriminate]. unfold mret in E. injection E as <- <-. split; [exact Hs|]. split; [reflexivity|].
  intros i Xi Hin. apply elem_of_list_lookup in Hin as (q & Hq). destruct (decide (q = k)) as [->|Hne].
  - rewrite list_lookup_insert in Hq by exact Hlt. injection Hq as Hq. exact (Hx i Xi Hq).
  - rewrite list_lookup_insert_ne in Hq by auto. apply (Hl i Xi). eapply elem_of_list_lookup_2. exact Hq.
Qed.
Lemma av_upd id (f : tmat -> tmat) : B id -> (forall m, free X (operands m) -> free X (operands (f m))) -> (forall m, builded (f m) = false -> builded m = false) -> av (upd_mat id f) (fun _ => True).
Proof using Type.
  intros Hid Hf Hb s a s' [Hi Hs] E. unfold upd_mat in E. destruct (tens s !! id) as [n|] eqn:En; [|discriminate]. injection E as <- <-. split; [|split; [|exact I]].
  - split; [exact Hi|]. cbn [tens]. intros j n' Hj Hn'. destruct (decide (j = id)) as [->|Hne].
    + rewrite list_lookup_insert in Hn' by (eapply lookup_lt_Some; exact En). injection Hn' as <-. destruct (Hs _ _ Hj En) as [H1 H2]. cbn [nmat nkind]. split; [auto|]. intros Hbf. apply H2, Hb, Hbf.
    + rewrite list_lookup_insert_ne in Hn' by auto. exact (Hs _ _ Hj Hn').
  - intros j Hj. cbn [tens]. apply list_lookup_insert_ne. intros ->. contradiction.
Qed.
Lemma av_set_built id : B id -> av (set_built id) (fun _ => True).
Proof using Type. intros Hid. apply av_upd; [exact Hid|auto|discriminate]. Qed.
Lemma av_set_shape id sh mu : B id -> av (set_shape id sh mu) (fun _ => True).
Proof using Type. intros Hid. apply av_upd; auto. Qed.
Lemma av_set_operands id ops : B id -> free X ops -> av (set_operands id ops) (fun _ => True).
Proof using Type. intros Hid Ho. apply av_upd; auto. Qed.
Lemma av_make id n : B id -> av (make_operands id n) (fun _ => True).
Proof using Type. intros Hid. apply av_set_operands; [exact Hid|]. intros i Xi Hin. apply elem_of_replicate in Hin as [E _]. discriminate. Qed.
Lemma av_set_operand id k o : B id -> (forall i, X i -> o <> Some i) -> av (set_operand id k o) (fun _ => True).
Proof using Type.
  intros Hid Ho. unfold set_operand. eapply av_bnd; [apply av_get_mat|]. intros m Hm. eapply av_bnd; [apply av_updM; [exact (Hm Hid)|exact Ho]|]. intros l Hl. apply av_set_operands; [exact Hid|exact Hl].
Qed.
Lemma av_emit id n f : B id -> (forall k o, av (f k o) (fun _ => True)) -> av (emit_each id n f) (fun _ => True).
Proof using Type.
  intros Hid Hf. unfold emit_each. apply av_mfor. intros k _. eapply av_bnd; [apply av_alloc|]. intros o Ho. eapply av_bnd; [apply av_set_operand; [exact Hid|exact Ho]|].
  intros [] _. eapply av_bnd; [apply Hf|]. intros x _. apply av_push.
Qed.
Lemma av_weak {A} (c : TM T A) (Q R : A -> Prop) : av c Q -> (forall a, Q a -> R a) -> av c R.
Proof using Type. intros Hc HQ s a s' Hs E. destruct (Hc _ _ _ Hs E) as (? & ? & ?). auto. Qed.
Lemma av_at' {A} (l : list A) k : av (atM l k) (fun _ => True).
Proof using Type. eapply av_weak; [apply av_atM|]. auto. Qed.

Lemma av_map id t mk : B id -> B t -> av (build_map id t mk) (fun _ => True).
Proof using Type.
  intros Hid Ht. unfold build_map. eapply av_bnd; [apply av_get_mat|]. intros mt Hm. eapply av_bnd; [apply av_set_shape; exact Hid|]. intros [] _. eapply av_bnd; [apply av_make; exact Hid|]. intros [] _.
  apply av_emit; [exact Hid|]. intros k o. eapply av_bnd; [apply av_at'|]. intros a _. apply av_ret. exact I.
Qed.
Lemma av_scalar id t sc o : B id -> B t -> av (build_opscalar id t sc o) (fun _ => True).
Proof using Type.
  intros Hid Ht. unfold build_opscalar. eapply av_bnd; [apply av_get_mat|]. intros mt Hm. eapply av_bnd; [apply av_set_shape; exact Hid|]. intros [] _. eapply av_bnd; [apply av_make; exact Hid|]. intros [] _.
  apply av_emit; [exact Hid|]. intros k p. eapply av_bnd; [apply av_at'|]. intros a _. apply av_ret. exact I.
Qed.
Lemma av_soft id t : B id -> B t -> av (build_softmax id t) (fun _ => True).
Proof using Type.
  intros Hid Ht. unfold build_softmax. eapply av_bnd; [apply av_get_mat|]. intros mt Hm. eapply av_bnd; [apply av_set_shape; exact Hid|]. intros [] _. eapply av_bnd; [apply av_alloc|]. intros mn _.
  eapply av_bnd; [apply av_push|]. intros [] _. eapply av_bnd; [apply av_make; exact Hid|]. intros [] _.
  eapply av_bnd; [apply av_emit; [exact Hid|]; intros k o; eapply av_bnd; [apply av_at'|]; intros a _; apply (av_ret _ (fun _ => True)); exact I|]. intros [] _.
  eapply av_bnd; [apply av_alloc|]. intros sum _. eapply av_bnd; [apply av_get_mat|]. intros m _. eapply av_bnd; [apply av_push|]. intros [] _. apply av_mfor. intros o _. apply av_push.
Qed.
Lemma av_reshape id t : B id -> B t -> av (build_reshape id t) (fun _ => True).
Proof using Type.
  intros Hid Ht. unfold build_reshape. eapply av_bnd; [apply av_get_mat|]. intros m _. eapply av_bnd; [apply av_get_mat|]. intros mt Hm. specialize (Hm Ht).
  eapply av_bnd; [apply av_set_shape; exact Hid|]. intros [] _. eapply av_bnd; [apply av_make; exact Hid|]. intros [] _. eapply av_bnd.
  - apply av_mfor. intros k _. eapply av_bnd; [apply av_atM|]. intros o Ho. apply av_set_operand; [exact Hid|]. intros i Xi ->. exact (Hm i Xi Ho).
  - intros [] _. apply av_mfor. intros k _. eapply av_bnd; [apply av_alloc|]. intros o Ho. apply av_set_operand; assumption.
Qed.
Lemma av_build fuel : forall id, B id -> av (BuildGraph fuel id) (fun _ => True).
Proof using Type.
  induction fuel as [|fuel IH]; intros id Hid; [intros s a s' _ E; discriminate|]. cbn [BuildGraph]. eapply av_bnd; [apply av_get_node|]. intros n Hn. destruct (Hn Hid) as [_ He].
  destruct (builded (nmat n)); [apply av_ret; exact I|]. specialize (He eq_refl). eapply av_bnd; [apply av_set_built; exact Hid|]. intros [] _.
  destruct (nkind n); cbn [easy] in He; try contradiction.
  - apply av_mfor. intros o _. apply av_push.
  - eapply av_bnd; [apply IH; exact He|]. intros [] _. apply av_map; assumption.
  - eapply av_bnd; [apply IH; exact He|]. intros [] _. apply av_map; assumption.
  - eapply av_bnd; [apply IH; exact He|]. intros [] _. apply av_scalar; assumption.
  - eapply av_bnd; [apply IH; exact He|]. intros [] _. apply av_reshape; assumption.
  - eapply av_bnd; [apply IH; exact He|]. intros [] _. apply av_soft; assumption.
Qed.
End Av.

(** The scalars of the object built are new or were in one of the objects [B]. *)
Lemma build_prov (B : nat -> Prop) s id s' n : B id -> (forall j n, B j -> tens s !! j = Some n -> builded (nmat n) = false -> easy B (nkind n)) ->
  Build id s = (Ok tt, s') -> tens s' !! id = Some n ->
  forall i, Some i ∈ operands (nmat n) -> length (mem s) <= i \/ ~ forall j nj, B j -> tens s !! j = Some nj -> Some i ∉ operands (nmat nj).
Proof using Type.
  intros Hid He E Hn i Hi. destruct (decide (length (mem s) <= i)) as [Hle|Hlt]; [left; exact Hle|right]. intros Hno.
  destruct (av_build (fun k => k = i) B (S id) id Hid s tt s') as [[_ Ha] _]; [|exact E|].
  - split; [intros k ->; lia|]. intros j nj Hj Hnj. split; [intros k ->; exact (Hno _ _ Hj Hnj)|exact (He _ _ Hj Hnj)].
  - exact (proj1 (Ha _ _ Hid Hn) i eq_refl Hi).
Qed.
(** Nothing else is changed. *)
Lemma build_only (B : nat -> Prop) s id s' : B id -> (forall j n, B j -> tens s !! j = Some n -> builded (nmat n) = false -> easy B (nkind n)) ->
  Build id s = (Ok tt, s') -> forall j, ~ B j -> tens s' !! j = tens s !! j.
Proof using Type.
  intros Hid He E. destruct (av_build (fun _ => False) B (S id) id Hid s tt s') as (_ & F & _); [|exact E|exact F].
  split; [intros _ []|]. intros j nj Hj Hnj. split; [intros _ []|exact (He _ _ Hj Hnj)].
Qed.
End FwdProv.
