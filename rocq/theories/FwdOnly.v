(** * FwdOnly: building changes no tensor but those below what is built *)
From Verif Require Import Base Num ModelTools ModelOps ModelTensor ModelGraph ModelLayer Spec Denote ExecProofs TensorFacts BuildProofs BuildFrame FwdBuild FwdSeg.
From Coq Require Import Lia ZifyBool ZifyNat ZifyN.

Section FwdOnly.
Context {T : Type} `{Num T}.
Implicit Types s : tst T.

Section St.
Variables (B : nat -> Prop) (hi : nat).
Hypothesis Hhi : forall j, hi <= j -> B j.
(** The tensors [B] that are still to be built are made of tensors [B] only. *)
Definition closed s : Prop :=
  hi <= length (tens s) /\ forall j n, B j -> tens s !! j = Some n -> builded (nmat n) = false -> forall c, c ∈ children (nkind n) -> B c.
Definition stays {A} (c : TM T A) (Q : A -> Prop) : Prop :=
  forall s a s', closed s -> c s = (Ok a, s') -> closed s' /\ (forall j, ~ B j -> tens s' !! j = tens s !! j) /\ Q a.
Lemma st_bnd {A C} (c : TM T A) (k : A -> TM T C) Q R : stays c Q -> (forall a, Q a -> stays (k a) R) -> stays (mbnd c k) R.
Proof using Type.
  intros Hc Hk s b s' Hs E. unfold mbnd in E. destruct (c s) as [[a| | |] s1] eqn:E1; try discriminate.
  destruct (Hc _ _ _ Hs E1) as (H1 & F1 & HQ). destruct (Hk a HQ _ _ _ H1 E) as (H2 & F2 & HR). split; [exact H2|]. split; [|exact HR]. intros j Hj. rewrite F2, F1 by exact Hj. reflexivity.
Qed.
Lemma st_same {A} (c : TM T A) : (forall s, tens (snd (c s)) = tens s) -> stays c (fun _ => True).
Proof using Type. intros Hc s a s' Hs E. specialize (Hc s). rewrite E in Hc. cbn in Hc. unfold closed. rewrite Hc. auto. Qed.
Lemma st_mfor {A} (l : list A) f : (forall x, stays (f x) (fun _ => True)) -> stays (mfor l f) (fun _ => True).
Proof using Type.
  intros Hf. induction l as [|x l IH]; [apply st_same; reflexivity|]. cbn [mfor]. eapply st_bnd; [apply Hf|]. intros [] _. exact IH.
Qed.
Lemma st_only {A} id (c : TM T A) : B id -> sat (only id) c -> stays c (fun _ => True).
Proof using Type.
  intros Hid Hc s a s' [Hl Hs] E. destruct (Hc _ _ _ E) as (_ & Hl' & F & K). split; [|split; [|exact I]].
  - split; [rewrite Hl'; exact Hl|]. intros j n Hj Hn Hb. destruct (decide (j = id)) as [->|Hne]; [|rewrite F in Hn by exact Hne; eapply Hs; eassumption].
    destruct (lookup_lt_is_Some_2 (tens s) id) as [n0 Hn0]; [rewrite <- Hl'; eapply lookup_lt_Some; exact Hn|].
    destruct (K _ Hn0) as (n' & Hn' & Ek & Eb). assert (n' = n) as -> by congruence. rewrite Ek. eapply Hs; [exact Hj|exact Hn0|]. destruct (builded (nmat n0)); [rewrite Eb in Hb by reflexivity; discriminate|reflexivity].
  - intros j Hj. apply F. intros ->. contradiction.
Qed.
Lemma st_new k m : (forall c, c ∈ children k -> B c) -> stays (new_node k m) B.
Proof using Hhi.
  intros Hk s a s' [Hl Hs] E. unfold new_node in E. injection E as <- <-. cbn [tens]. split; [|split].
  - split; [cbn [tens]; rewrite app_length; lia|]. intros j n Hj Hn Hb. cbn [tens] in Hn. apply lookup_app_Some in Hn as [Hn|[Hge Hn]]; [eapply Hs; eassumption|].
    apply list_lookup_singleton_Some in Hn as [_ <-]. exact Hk.
  - intros j Hj. apply lookup_app_l. destruct (decide (j < length (tens s))); [assumption|]. exfalso. apply Hj, Hhi. lia.
  - apply Hhi. lia.
Qed.
Lemma st_build fuel : forall id, B id -> stays (BuildGraph fuel id) (fun _ => True).
Proof using Type.
  induction fuel as [|fuel IH]; intros id Hid; [intros s a s' _ E; discriminate|]. intros s a s' Hs E. cbn [BuildGraph] in E. unfold mbnd at 1 in E. unfold get_node in E.
  destruct (tens s !! id) as [n|] eqn:Hn; [|discriminate].
  destruct (builded (nmat n)) eqn:Hb; [unfold mret in E; injection E as <- <-; auto|].
  assert (HB : forall c, c ∈ children (nkind n) -> B c) by (eapply (proj2 Hs); eassumption).
  revert s a s' Hs E Hn. intros s a s' Hs E _. revert s a s' Hs E.
  match goal with |- forall s a s', closed s -> ?c s = _ -> _ => change (stays c (fun _ => True)) end.
  eapply st_bnd; [apply (st_only id); [exact Hid|apply only_set_built]|]. intros [] _.
  pose proof (only_own id (nkind n)) as Ho.
  destruct (nkind n) eqn:Hk; cbn [children own_part] in *;
    repeat (first [ eapply st_bnd; [apply IH; apply HB; first [left|right; left]|intros [] _] | apply (st_only id); [exact Hid|exact Ho] ]).
  apply (st_only id); [exact Hid|]. apply (sat_mfor _ (only_po id)). intros. apply only_push.
Qed.
Lemma st_Build id : B id -> stays (Build id) (fun _ => True).
Proof using Type. intros Hid s a s' Hs E. unfold Build in E. exact (st_build _ _ Hid _ _ _ Hs E). Qed.
Lemma st_transfer f t : B f -> B t -> stays (Transfer f t) (fun _ => True).
Proof using Hhi.
  intros Hf Ht. unfold Transfer, CopyTo. eapply st_bnd; [apply st_new|].
  - intros c Hc. cbn [children] in Hc. repeat (apply elem_of_cons in Hc as [->|Hc]; [assumption|]). inversion Hc.
  - intros c Hc. apply st_Build. exact Hc.
Qed.
Ltac one Hc := cbn [children] in Hc; repeat (apply elem_of_cons in Hc; destruct Hc as [->|Hc]; [assumption|]); inversion Hc.
Lemma st_conv_ff inp weights neta c outSh kw kh sx sy : B inp -> B weights -> stays (conv_ff inp weights neta c outSh kw kh sx sy) (fun _ => True).
Proof using Hhi.
  intros Hi Hw. unfold conv_ff. eapply st_bnd; [apply st_same; intros s; unfold get_mat, mbnd, get_node; destruct (tens s !! neta); reflexivity|]. intros mn _.
  apply st_mfor; intros f. apply st_mfor; intros x. cbv zeta.
  eapply st_bnd; [apply st_new; intros z Hz; one Hz|]. intros row Hrow. apply st_mfor; intros y.
  eapply st_bnd; [apply st_new; intros z Hz; one Hz|]. intros cell Hcell.
  eapply st_bnd; [apply st_new; intros z Hz; one Hz|]. intros w1 Hw1.
  eapply st_bnd; [apply st_new; intros z Hz; one Hz|]. intros w2 Hw2.
  eapply st_bnd; [apply st_new; intros z Hz; one Hz|]. intros cw Hcw.
  eapply st_bnd; [apply st_new; intros z Hz; one Hz|]. intros sum Hsum.
  eapply st_bnd; [apply st_Build; exact Hsum|]. intros [] _.
  eapply st_bnd; [apply st_same; reflexivity|]. intros n _.
  eapply st_bnd; [apply st_same; intros s; unfold get_mat, mbnd, get_node; destruct (tens s !! sum); reflexivity|]. intros ms _.
  eapply st_bnd; [apply st_same; reflexivity|]. intros o _. apply st_same. reflexivity.
Qed.
Lemma st_deconv_ff inp weights neta inSh nf kw kh sx sy : stays (deconv_ff inp weights neta inSh nf kw kh sx sy) (fun _ => True).
Proof using Type.
  assert (Hg : forall j, stays (get_mat j) (fun _ => True)) by (intros j; apply st_same; intros s; unfold get_mat, mbnd, get_node; destruct (tens s !! j); reflexivity).
  unfold deconv_ff. do 3 (eapply st_bnd; [apply Hg|intros ? _]). do 6 (apply st_mfor; intros ?).
  do 3 (eapply st_bnd; [apply st_same; reflexivity|intros ? _]). eapply st_bnd; [apply st_same; reflexivity|intros ? _]. eapply st_bnd; [apply st_same; reflexivity|intros [] _]. apply st_same. reflexivity.
Qed.
End St.
End FwdOnly.
