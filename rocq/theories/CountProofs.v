(** * CountProofs: how many operations compiling an object pushes *)
From Verif Require Import Base Num ModelTools ModelOps ModelTensor ModelGraph Spec Denote
  IndexProofs ExecProofs TensorFacts BuildProofs BuildProofs2 BuildProofs3 CompileProofs Agree BuildFrame GraphSpec.
From Coq Require Import Lia ZifyNat ZifyN ZifyBool.

Section Count.
Context {T : Type} `{Num T}.
Implicit Types (s : tst T).

(** Whenever [c] succeeds it has appended exactly [k] operations. *)
Definition gives {A} (k : nat) (c : TM T A) : Prop :=
  forall s a s', c s = (Ok a, s') -> exists new, ctx s' = ctx s ++ new /\ length new = k.

Lemma gives_id {A} (c : TM T A) : (forall s, ctx (snd (c s)) = ctx s) -> gives 0 c.
Proof. intros Hc s a s' E. specialize (Hc s). rewrite E in Hc. cbn in Hc. exists []. rewrite app_nil_r. auto. Qed.
Lemma gives_bnd {A B} k1 k2 (c : TM T A) (f : A -> TM T B) :
  gives k1 c -> (forall a, gives k2 (f a)) -> gives (k1 + k2) (mbnd c f).
Proof.
  intros Hc Hf s b s' E. unfold mbnd in E. destruct (c s) as [[a| | |] s1] eqn:E1; try discriminate.
  destruct (Hc _ _ _ E1) as (n1 & C1 & L1). destruct (Hf _ _ _ _ E) as (n2 & C2 & L2).
  exists (n1 ++ n2). rewrite C2, C1, app_assoc, app_length. split; [reflexivity|lia].
Qed.
Lemma gives_bnd0 {A B} k (c : TM T A) (f : A -> TM T B) :
  gives 0 c -> (forall a, gives k (f a)) -> gives k (mbnd c f).
Proof. intros Hc Hf. apply (gives_bnd 0 k); assumption. Qed.
Lemma gives_never {A} k (c : TM T A) : (forall s a s', c s <> (Ok a, s')) -> gives k c.
Proof. intros Hc s a s' E. destruct (Hc _ _ _ E). Qed.
Lemma gives_fail {A} k e : gives k (mfail e : TM T A). Proof. apply gives_never. discriminate. Qed.
Lemma gives_panic {A} k : gives k (mpanic : TM T A). Proof. apply gives_never. discriminate. Qed.
Lemma gives_push o : gives 1 (push o).
Proof. intros s a s' E. injection E as _ <-. exists [o]. split; reflexivity. Qed.
Lemma gives_ret {A} (a : A) : gives 0 (mret a). Proof. apply gives_id. reflexivity. Qed.
Lemma gives_lift {A} (r : res A) : gives 0 (mlift r). Proof. apply gives_id. reflexivity. Qed.
Lemma gives_atM {A} (l : list A) i : gives 0 (atM l i). Proof. apply gives_lift. Qed.
Lemma gives_updM {A} (l : list A) i x : gives 0 (updM l i x).
Proof. unfold updM. case_decide; [apply gives_ret|apply gives_panic]. Qed.
Lemma gives_eM e : gives 0 (eM e : TM T unit). Proof. apply gives_id. intros s. destruct e; reflexivity. Qed.
Lemma gives_oM {A} (o : option A) : gives 0 (oM o : TM T A). Proof. apply gives_id. intros s. destruct o; reflexivity. Qed.
Lemma gives_alloc v : gives 0 (alloc v : TM T _). Proof. apply gives_id. reflexivity. Qed.
Lemma gives_upd id f : gives 0 (upd_mat id f : TM T unit).
Proof. apply gives_id. intros s. unfold upd_mat. destruct (tens s !! id); reflexivity. Qed.
Lemma gives_get_node j : gives 0 (get_node j : TM T _).
Proof. apply gives_id. intros s. unfold get_node. destruct (tens s !! j); reflexivity. Qed.
Lemma gives_get_mat j : gives 0 (get_mat j : TM T _).
Proof. apply gives_bnd0; [apply gives_get_node|intros; apply gives_ret]. Qed.
Lemma gives_set_operands id ops : gives 0 (set_operands id ops : TM T unit). Proof. apply gives_upd. Qed.
Lemma gives_set_shape id a b : gives 0 (set_shape id a b : TM T unit). Proof. apply gives_upd. Qed.
Lemma gives_set_operand id i o : gives 0 (set_operand id i o : TM T unit).
Proof.
  unfold set_operand. apply gives_bnd0; [apply gives_get_mat|intros].
  apply gives_bnd0; [apply gives_updM|intros]. apply gives_set_operands.
Qed.
Lemma gives_mfor {A} k (l : list A) (f : A -> TM T unit) : (forall x, gives k (f x)) -> gives (length l * k) (mfor l f).
Proof.
  intros Hf. induction l as [|x l IH]; cbn [mfor length]; [apply gives_ret|].
  change (S (length l) * k) with (k + length l * k). apply gives_bnd; [apply Hf|intros; exact IH].
Qed.
Lemma gives_mfor0 {A} (l : list A) (f : A -> TM T unit) : (forall x, gives 0 (f x)) -> gives 0 (mfor l f).
Proof. intros Hf. replace 0 with (length l * 0) by lia. apply gives_mfor. exact Hf. Qed.
Lemma gives_eq {A} k k' (c : TM T A) : gives k c -> k = k' -> gives k' c.
Proof. intros Hg <-. exact Hg. Qed.
Lemma gives_emit id n f : (forall i o, gives 0 (f i o)) -> gives n (emit_each id n f).
Proof.
  intros Hf. unfold emit_each. eapply gives_eq; [apply (gives_mfor 1)|unfold range; rewrite seq_length; lia].
  intros i. apply gives_bnd0; [apply gives_alloc|intros o]. apply gives_bnd0; [apply gives_set_operand|intros _].
  apply gives_bnd0; [apply Hf|intros; apply gives_push].
Qed.

Ltac gives0 :=
  repeat first
  [ apply gives_ret | apply gives_fail | apply gives_panic | apply gives_lift | apply gives_atM | apply gives_updM
  | apply gives_eM | apply gives_oM | apply gives_alloc | apply gives_get_node | apply gives_get_mat
  | apply gives_set_operands | apply gives_set_shape | apply gives_set_operand
  | apply gives_emit; intros
  | progress unfold make_operands
  | match goal with |- gives _ (if ?b then _ else _) => destruct b end
  | apply gives_bnd0; [solve [gives0_]|intros] ]
with gives0_ :=
  repeat first
  [ apply gives_ret | apply gives_lift | apply gives_atM | apply gives_updM
  | apply gives_eM | apply gives_oM | apply gives_alloc | apply gives_get_node | apply gives_get_mat
  | apply gives_set_operands | apply gives_set_shape | apply gives_set_operand | progress unfold make_operands ].

Lemma after_get {A} k t s kt mt (f : tmat -> TM T A) :
  tens s !! t = Some (MkNode kt mt) -> gives k (f mt) ->
  forall a s', (x <~ get_mat t ; f x) s = (Ok a, s') -> exists new, ctx s' = ctx s ++ new /\ length new = k.
Proof.
  intros Ht Hf a s' E. apply Hf with a. rewrite <- E. symmetry. erewrite mbnd_ok; [reflexivity|].
  unfold get_mat. erewrite mbnd_ok by (unfold get_node; rewrite Ht; reflexivity). reflexivity.
Qed.
Lemma after_get2 {A} k a b s ka ma kb mb (f : tmat -> tmat -> TM T A) :
  tens s !! a = Some (MkNode ka ma) -> tens s !! b = Some (MkNode kb mb) -> gives k (f ma mb) ->
  forall r s', (x <~ get_mat a ; y <~ get_mat b ; f x y) s = (Ok r, s') -> exists new, ctx s' = ctx s ++ new /\ length new = k.
Proof.
  intros Ha Hb Hf r s' E. apply Hf with r. rewrite <- E. symmetry.
  erewrite mbnd_ok by (unfold get_mat; erewrite mbnd_ok by (unfold get_node; rewrite Ha; reflexivity); reflexivity).
  erewrite mbnd_ok by (unfold get_mat; erewrite mbnd_ok by (unfold get_node; rewrite Hb; reflexivity); reflexivity). reflexivity.
Qed.

(** The number of operands of [id] does not change. *)
Definition same_len (id : nat) s s' : Prop :=
  forall n, tens s !! id = Some n -> exists n', tens s' !! id = Some n' /\ length (operands (nmat n')) = length (operands (nmat n)).
Lemma same_len_po id : preorder (same_len id).
Proof.
  split; [intros s n Hn; eauto|]. intros a b c H1 H2 n Hn. destruct (H1 _ Hn) as (n1 & Hn1 & E1).
  destruct (H2 _ Hn1) as (n2 & Hn2 & E2). exists n2. split; [assumption|congruence].
Qed.
Lemma same_len_alloc id v : sat (same_len id) (alloc v). Proof. intros s r s' E. injection E as <- <-. intros n Hn. eauto. Qed.
Lemma same_len_push id o : sat (same_len id) (push o). Proof. intros s r s' E. injection E as <- <-. intros n Hn. eauto. Qed.
Lemma same_len_set id i o : sat (same_len id) (set_operand id i o).
Proof.
  intros s r s' E. unfold set_operand, mbnd in E. intros n Hn.
  unfold get_mat, mbnd, get_node in E. rewrite Hn in E. cbn in E. unfold updM in E. case_decide; cbn in E.
  - unfold set_operands, upd_mat in E. rewrite Hn in E. injection E as <- <-. cbn.
    eexists. split; [apply list_lookup_insert; eapply lookup_lt_Some; exact Hn|]. cbn. apply insert_length.
  - injection E as <- <-. eauto.
Qed.
Lemma same_len_emit id n f : (forall i o, sat (same_len id) (f i o)) -> sat (same_len id) (emit_each id n f).
Proof.
  intros Hf. unfold emit_each.
  repeat (first [apply same_len_alloc | apply same_len_set | apply same_len_push | apply Hf | sat_step (same_len_po id)]).
Qed.

Lemma mbnd_assoc {A B C} (c : TM T A) (f : A -> TM T B) (g : B -> TM T C) u :
  mbnd (mbnd c f) g u = mbnd c (fun a => mbnd (f a) g) u.
Proof. unfold mbnd. destruct (c u) as [[] ?]; reflexivity. Qed.
Lemma mbnd_ext {A B} (c : TM T A) (f g : A -> TM T B) u :
  (forall a v, f a v = g a v) -> mbnd c f u = mbnd c g u.
Proof. intros Hfg. unfold mbnd. destruct (c u) as [[] ?]; auto. Qed.

Lemma count_softmax s id k m0 t mt s' :
  ready s id k m0 -> child s id t mt -> build_softmax id t s = (Ok tt, s') ->
  exists new, ctx s' = ctx s ++ new /\ length new = 2 * length (operands mt) + 2.
Proof.
  intros [Hid _] (Hne & (kt & Ht) & _) E. revert E. unfold build_softmax.
  erewrite mbnd_ok by (unfold get_mat; erewrite mbnd_ok by (unfold get_node; rewrite Ht; reflexivity); reflexivity). cbn [nmat].
  set (n := length (operands mt)).
  (* up to the sum *)
  set (pre := (set_shape id (shape mt) (mulindex mt) ;~ mn <~ alloc nzero ; push (OMin mn (operands mt)) ;~ make_operands id n ;~
    emit_each id n (fun i o => a <~ atM (operands mt) i ; mret (OSub o a mn)) ;~ alloc nzero) : TM T _).
  set (post := fun sum : ptr => (m <~ get_mat id ; push (OSum sum (operands m)) ;~ mfor (operands m) (fun o => push (ODiv o o sum))) : TM T unit).
  intros E. assert (E' : mbnd pre post s = (Ok tt, s')).
  { rewrite <- E. unfold pre. repeat (rewrite mbnd_assoc; apply mbnd_ext; intros). reflexivity. }
  clear E. unfold mbnd in E'. destruct (pre s) as [[sum| | |] s1] eqn:E1; try discriminate.
  assert (Hg : gives (1 + n) pre).
  { unfold pre. apply gives_bnd0; [apply gives_set_shape|intros _]. apply gives_bnd0; [apply gives_alloc|intros mn].
    apply gives_bnd; [apply gives_push|intros _]. apply gives_bnd0; [apply gives_set_operands|intros _].
    replace n with (n + 0) at 1 by lia. apply gives_bnd; [|intros; apply gives_alloc]. gives0. }
  destruct (Hg _ _ _ E1) as (new1 & C1 & L1).
  (* the operands of [id] *)
  assert (Hl : exists n1, tens s1 !! id = Some n1 /\ length (operands (nmat n1)) = n).
  { unfold pre in E1.
    erewrite mbnd_ok in E1 by (unfold set_shape, upd_mat; rewrite Hid; reflexivity).
    erewrite mbnd_ok in E1 by reflexivity. erewrite mbnd_ok in E1 by reflexivity. cbn [mem tens ctx] in E1.
    unfold make_operands, set_operands in E1.
    erewrite mbnd_ok in E1 by (unfold upd_mat; cbn [tens]; rewrite list_lookup_insert by (eapply lookup_lt_Some; exact Hid); reflexivity).
    cbn [mem tens ctx nmat nkind shape mulindex operands builded] in E1.
    match type of E1 with mbnd ?c _ ?st = _ => 
      assert (Hs : sat (same_len id) (mbnd c (fun _ => alloc nzero)));
      [apply (sat_bnd _ (same_len_po id)); [apply same_len_emit; intros; repeat sat_step (same_len_po id)|intros; apply same_len_alloc]|];
      destruct (Hs _ _ _ E1 (MkNode k (MkMat (shape mt) (mulindex mt) (replicate n None) (builded m0)))) as (n1 & Hn1 & El)
    end.
    - cbn [tens]. rewrite list_insert_insert. apply list_lookup_insert. eapply lookup_lt_Some. exact Hid.
    - exists n1. split; [assumption|]. rewrite El. cbn. apply replicate_length. }
  destruct Hl as ([k1 m1] & Hn1 & El). cbn [nmat] in El.
  destruct (after_get (1 + n) id s1 k1 m1 (fun m => push (OSum sum (operands m)) ;~ mfor (operands m) (fun o => push (ODiv o o sum))) Hn1) with (a := tt) (s' := s')
    as (new2 & C2 & L2).
  - apply gives_bnd; [apply gives_push|intros _]. rewrite <- El.
    eapply gives_eq; [apply (gives_mfor 1); intros; apply gives_push|lia].
  - exact E'.
  - exists (new1 ++ new2). rewrite C2, C1, app_assoc, app_length. split; [reflexivity|lia].
Qed.

(** The operations pushed for one object: as many as its outermost operation
    needs; for an input, no-operations. *)
Definition seg_ok (ls : nat -> option (list N)) (e : expr T) (seg : list (op T)) : Prop :=
  length seg = own_cost ls e /\ forall i, e = ELeaf i -> Forall (fun o => exists p, o = OScalar p) seg.

Section Fixed.
Variable n0 : nat.
Variable tns0 : list (node T).
Notation ls := (leafsh tns0).

Definition built s j : Prop := exists n, tens s !! j = Some n /\ builded (nmat n) = true.
Definition unbuilt s j : Prop := exists n, tens s !! j = Some n /\ builded (nmat n) = false.
Lemma built_not s j : built s j -> unbuilt s j -> False.
Proof. intros (n & Hn & E) (n' & Hn' & E'). congruence. Qed.
Lemma built_dec s j n : tens s !! j = Some n -> built s j \/ unbuilt s j.
Proof. intros Hn. destruct (builded (nmat n)) eqn:E; [left|right]; exists n; auto. Qed.

Definition emitted s s' id : Prop := exists js segs,
  NoDup js /\ (forall j, j ∈ js <-> below tns0 id j /\ unbuilt s j) /\
  ctx s' = ctx s ++ concat segs /\
  Forall2 (fun j seg => forall e, denotes n0 tns0 j e -> seg_ok ls e seg) js segs /\
  (forall j, built s' j -> unbuilt s j -> j ∈ js).
Definition all_built s id : Prop := forall k, below tns0 id k -> built s k.
Definition closed s (X : nat -> Prop) : Prop := forall j, built s j -> ~ X j -> all_built s j.

Lemma below_trans (tns : list (node T)) a b c : below tns a b -> below tns b c -> below tns a c.
Proof. intros Hab Hbc. induction Hab; [assumption|]. eapply B_step; eauto. Qed.
Lemma below_denotes id e j : denotes n0 tns0 id e -> below tns0 id j -> exists e', denotes n0 tns0 j e'.
Proof.
  intros Hd Hb. revert e Hd. induction Hb as [id|id n c j Hn Hc Hb IH]; intros e Hd; [eauto|].
  inversion Hd; subst;
    match goal with Hl : tns0 !! id = Some _ |- _ => rewrite Hn in Hl; injection Hl as -> end;
    cbn [nkind children] in Hc;
    repeat match goal with
    | Hc : _ ∈ [] |- _ => apply elem_of_nil in Hc; destruct Hc
    | Hc : _ ∈ _ :: _ |- _ => apply elem_of_cons in Hc as [->|Hc]
    end; eauto.
Qed.
Lemma denotes_exists id e : denotes n0 tns0 id e -> exists n, tns0 !! id = Some n.
Proof. intros Hd. inversion Hd; eauto. Qed.
Lemma below_exists s P X id e j : Inv n0 tns0 s P X -> denotes n0 tns0 id e -> below tns0 id j -> exists n, tens s !! j = Some n.
Proof.
  intros HI Hd Hb. destruct (below_denotes _ _ _ Hd Hb) as [e' Hd']. destruct (denotes_exists _ _ Hd') as [[k m] Hn].
  destruct (kind_of _ _ _ _ _ _ _ _ HI Hn) as (m1 & Hm1 & _). eauto.
Qed.
Lemma within_built Q s s' j : within Q s s' -> built s j -> built s' j.
Proof. intros (_ & _ & _ & K) (n & Hn & Hb). destruct (K _ _ Hn) as (n' & Hn' & _ & Hb'). exists n'. auto. Qed.

(** After an operand has been built. *)
Lemma child_closed s s1 Q X t :
  within Q s s1 -> closed s X -> emitted s s1 t -> all_built s1 t -> closed s1 X.
Proof.
  intros W Hc (js & segs & _ & Hjs & _ & _ & Hnew) Hall j Hj HX k Hk.
  pose proof Hj as (n1 & Hn1 & _).
  destruct (lookup_lt_is_Some_2 (tens s) j) as [n Hn].
  { destruct W as (_ & L & _). rewrite <- L. eapply lookup_lt_Some. exact Hn1. }
  destruct (built_dec _ _ _ Hn) as [Hb|Hu].
  - eapply within_built; [exact W|]. eapply Hc; eassumption.
  - apply Hall. eapply below_trans; [|exact Hk]. apply Hjs. auto.
Qed.

Lemma count_ok fuel : forall id s P X e sh s',
  id < fuel -> Inv n0 tns0 s P X -> closed s X -> denotes n0 tns0 id e -> shape_of ls e = Some sh ->
  no_crossing ls e -> (forall j, below tns0 id j -> ~ X j) ->
  BuildGraph fuel id s = (Ok tt, s') -> emitted s s' id /\ all_built s' id.
Proof.
  induction fuel as [|fuel IH]; intros id s P X e sh s' Hf HI Hcl Hd Hsh Hnc Hbel E; [lia|].
  cbn [BuildGraph] in E.
  destruct (denotes_exists _ _ Hd) as [[k m0] Hk]. destruct (kind_of _ _ _ _ _ _ _ _ HI Hk) as (m1 & Hm1 & Hre & Hmat).
  erewrite mbnd_ok in E by (unfold get_node; rewrite Hm1; reflexivity). cbn [nmat nkind] in E.
  destruct (builded m1) eqn:Hb1.
  { injection E as <-. assert (Ha : all_built s id).
    { apply Hcl; [exists (MkNode k m1); auto|]. apply Hbel. constructor. }
    split; [|exact Ha]. exists [], []. split; [constructor|]. split.
    { intros j. split; [intros Hj; apply elem_of_nil in Hj; destruct Hj|]. intros [Hbj Huj].
      destruct (built_not _ _ (Ha _ Hbj) Huj). }
    split; [cbn; rewrite app_nil_r; reflexivity|]. split; [constructor|]. intros j Hj Hu. destruct (built_not _ _ Hj Hu). }
  erewrite mbnd_ok in E by (apply set_built_state; exact Hm1).
  set (sm := st_with (mem s) (tens s) (ctx s) id k (MkMat (shape m1) (mulindex m1) (operands m1) true)) in *.
  destruct (Inv_mark n0 tns0 s sm P X id _ HI Hm1 Hb1 eq_refl) as (HIm & _ & K0).
  assert (Hid : id < length (tens s)) by (eapply lookup_lt_Some; exact Hm1).
  assert (Hoth : forall j, j <> id -> tens sm !! j = tens s !! j) by (intros j Hj; apply list_lookup_insert_ne; auto).
  assert (Hidb : built sm id) by (eexists; split; [apply list_lookup_insert; exact Hid|reflexivity]).
  assert (Hbs : forall j, built s j -> built sm j).
  { intros j (n & Hn & Hb). exists n. split; [apply K0; assumption|assumption]. }
  assert (Hclm : closed sm (fun j => X j \/ j = id)).
  { intros j Hj HX k' Hk'. apply Hbs. eapply Hcl; [|intros HX'; apply HX; left; exact HX'|exact Hk'].
    destruct Hj as (n & Hn & Hb). exists n. rewrite <- Hoth; [auto|]. intros ->. apply HX. auto. }
  assert (Hidu : unbuilt s id) by (exists (MkNode k m1); auto).
  assert (Hr0 : ready sm id k (MkMat (shape m1) (mulindex m1) (operands m1) true)).
  { split; [|reflexivity]. apply list_lookup_insert. exact Hid. }
  set (m0' := MkMat (shape m1) (mulindex m1) (operands m1) true) in *.
  (* one operand *)
  assert (Hch : forall t et sht sa Pa sb, t ∈ children k -> t < id -> denotes n0 tns0 t et -> shape_of ls et = Some sht -> no_crossing ls et ->
     Inv n0 tns0 sa Pa (fun j => X j \/ j = id) -> closed sa (fun j => X j \/ j = id) -> ready sa id k m0' ->
     BuildGraph fuel t sa = (Ok tt, sb) ->
     exists Pb mt, Inv n0 tns0 sb Pb (fun j => X j \/ j = id) /\ closed sb (fun j => X j \/ j = id) /\ ready sb id k m0' /\
       emitted sa sb t /\ all_built sb t /\ within (below (tens sa) t) sa sb /\ keeps sa sb /\
       child sb id t mt /\ shape mt = sht /\ builded mt = true /\ length (operands mt) = N.to_nat (prodN sht)).
  { intros t et sht sa Pa sb Hin Hlt Hdt Hst Hnct HIa Hcla Hra Eb.
    assert (HbX : forall j, below tns0 t j -> ~ (X j \/ j = id)).
    { intros j Hj [HX| ->]; [eapply Hbel; [eapply B_step; [exact Hk|exact Hin|exact Hj]|exact HX]|].
      pose proof (below_le _ _ _ _ Hdt _ Hj). lia. }
    destruct (IH t sa Pa _ et sht sb ltac:(lia) HIa Hcla Hdt Hst Hnct HbX Eb) as [Hem Hall].
    destruct (build_ok n0 tns0 fuel t sa Pa _ et sht ltac:(lia) HIa Hdt Hst Hnct HbX) as (s1 & P1 & E1 & new & G & K & HI1 & (nt & Hnt & Hbt & Hmt) & _).
    rewrite Eb in E1. injection E1 as <-. pose proof (BuildGraph_within _ _ _ _ _ Eb) as W.
    assert (Hshe : shape (nmat nt) = sht) by (destruct Hmt as (Hx & _); unfold ls in *; congruence).
    exists P1, (nmat nt). split; [exact HI1|]. split; [eapply child_closed; eassumption|]. split.
    { destruct Hra as [Hra Hrb]. split; [|exact Hrb]. apply K; [exact Hra|exact Hrb]. }
    split; [exact Hem|]. split; [exact Hall|]. split; [exact W|]. split; [exact K|].
    split; [eapply built_child; eassumption|]. split; [exact Hshe|]. split; [exact Hbt|].
    destruct Hmt as (_ & (_ & _ & Hlo & _) & _). rewrite <- Hshe. exact Hlo. }
  (* the own part *)
  assert (Hfin : forall sl js segs new,
     NoDup js -> (forall j, j ∈ js <-> (exists t, t ∈ children k /\ below tns0 t j) /\ unbuilt sm j) ->
     ctx sl = ctx sm ++ concat segs -> Forall2 (fun j seg => forall e, denotes n0 tns0 j e -> seg_ok ls e seg) js segs ->
     (forall j, built sl j -> unbuilt sm j -> j ∈ js) ->
     (forall t, t ∈ children k -> all_built sl t) ->
     within (fun _ => True) sm sl -> only id sl s' -> ctx s' = ctx sl ++ new -> seg_ok ls e new ->
     emitted s s' id /\ all_built s' id).
  { intros sl js segs new Hnd Hjs Hc Hfa Hnew Hall Hw Hon Hc' Hlen.
    assert (Hwl : within (fun _ => True) sl s') by (eapply only_within; [exact I|exact Hon]).
    split.
    - exists (js ++ [id]), (segs ++ [new]). split.
      { apply NoDup_app. split; [exact Hnd|]. split; [|apply NoDup_singleton].
        intros j Hj Hj'. apply elem_of_list_singleton in Hj' as ->. apply Hjs in Hj as [_ Hj]. eapply built_not; eassumption. }
      split.
      { intros j. rewrite elem_of_app, elem_of_list_singleton, Hjs. split.
        - intros [[(t & Ht & Hbj) Hu]| ->].
          + assert (j <> id) by (intros ->; eapply built_not; eassumption).
            split; [eapply B_step; [exact Hk|exact Ht|exact Hbj]|]. destruct Hu as (n & Hn & Hu). exists n. rewrite <- Hoth; auto.
          + split; [constructor|assumption].
        - intros [Hbj Hu]. destruct (decide (j = id)) as [->|Hne]; [auto|]. left. split.
          + inversion Hbj as [|? n c ? Hn Hcc Hbc]; subst; [congruence|]. rewrite Hk in Hn. injection Hn as <-. eauto.
          + destruct Hu as (n & Hn & Hu). exists n. rewrite Hoth; auto. }
      split; [rewrite Hc', Hc, concat_app; cbn; rewrite app_nil_r, app_assoc; reflexivity|].
      split.
      { apply Forall2_app; [exact Hfa|]. constructor; [|constructor]. intros e' He'. rewrite (denotes_det _ _ _ _ _ He' Hd). exact Hlen. }
      intros j Hj Hu. rewrite elem_of_app, elem_of_list_singleton. destruct (decide (j = id)) as [->|Hne]; [auto|]. left.
      apply Hnew.
      + destruct Hj as (n & Hn & Hbj). exists n. destruct Hon as (_ & _ & Ho & _). rewrite <- Ho; auto.
      + destruct Hu as (n & Hn & Hu). exists n. rewrite Hoth; auto.
    - intros k' Hk'. eapply within_built; [exact Hwl|].
      inversion Hk' as [|? n c ? Hn Hcc Hbc]; subst.
      + eapply within_built; eassumption.
      + rewrite Hk in Hn. injection Hn as <-. eapply Hall; eassumption. }
  assert (Hun : forall t et, children k = [t] -> t < id -> denotes n0 tns0 t et -> (exists sht, shape_of ls et = Some sht) -> no_crossing ls et ->
     (BuildGraph fuel t ;~ own_part id k) sm = (Ok tt, s') ->
     (forall sl mt s2, ready sl id k m0' -> child sl id t mt -> shape_of ls et = Some (shape mt) -> own_part id k sl = (Ok tt, s2) ->
        exists new, ctx s2 = ctx sl ++ new /\ length new = own_cost ls e) -> (forall i, e <> ELeaf i) ->
     emitted s s' id /\ all_built s' id).
  { intros t et Hc Hlt Hdt [sht Hst] Hnct Eb Hown Hnl.
    unfold mbnd in Eb. destruct (BuildGraph fuel t sm) as [[[]| | |] sl] eqn:E1; try discriminate.
    destruct (Hch t et sht sm P sl) as (Pb & mt & HIb & Hclb & Hrb & (js & segs & Hnd & Hjs & Hcc & Hfa & Hnew) & Hall & W & _ & Hct & Hsht & _ & _);
      try assumption; [rewrite Hc; left|].
    destruct (Hown sl mt s' Hrb Hct ltac:(congruence) Eb) as (new & Hcn & Hln).
    eapply (Hfin sl js segs new); try assumption.
    - intros j. rewrite Hjs, Hc. split; intros [Hx Hu]; (split; [|exact Hu]).
      + exists t. split; [left|exact Hx].
      + destruct Hx as (t' & Ht' & Hx). apply elem_of_list_singleton in Ht' as ->. exact Hx.
    - intros t' Ht'. rewrite Hc in Ht'. apply elem_of_list_singleton in Ht' as ->. exact Hall.
    - eapply within_mono; [|exact W]. auto.
    - eapply only_own. exact Eb.
    - split; [exact Hln|]. intros i ->. destruct (Hnl i eq_refl). }
  assert (Hbi : forall a b ea eb, children k = [a; b] -> a < id -> b < id -> denotes n0 tns0 a ea -> denotes n0 tns0 b eb ->
     (exists sa, shape_of ls ea = Some sa) -> (exists sb, shape_of ls eb = Some sb) -> no_crossing ls ea -> no_crossing ls eb ->
     (BuildGraph fuel a ;~ BuildGraph fuel b ;~ own_part id k) sm = (Ok tt, s') ->
     (forall sl ma mb s2, ready sl id k m0' -> child sl id a ma -> child sl id b mb -> shape_of ls ea = Some (shape ma) ->
        shape_of ls eb = Some (shape mb) -> own_part id k sl = (Ok tt, s2) ->
        exists new, ctx s2 = ctx sl ++ new /\ length new = own_cost ls e) -> (forall i, e <> ELeaf i) ->
     emitted s s' id /\ all_built s' id).
  { intros a b ea eb Hc Hla Hlb Hda Hdb [sha Hsa] [shb Hsb] Hna Hnb Eb Hown Hnl.
    unfold mbnd at 1 in Eb. destruct (BuildGraph fuel a sm) as [[[]| | |] sa] eqn:E1; try discriminate.
    destruct (Hch a ea sha sm P sa) as (Pa & ma & HIa & Hcla & Hra & (js & segs & Hnd & Hjs & Hcc & Hfa & Hnew) & Hall & W & Ka & Hca & Hsha & Hba & _);
      try assumption; [rewrite Hc; left|].
    unfold mbnd at 1 in Eb. destruct (BuildGraph fuel b sa) as [[[]| | |] sl] eqn:E2; try discriminate.
    destruct (Hch b eb shb sa Pa sl) as (Pb & mb & HIb & Hclb & Hrb & (js2 & segs2 & Hnd2 & Hjs2 & Hcc2 & Hfa2 & Hnew2) & Hall2 & W2 & Kb & Hcb & Hshb & _ & _);
      try assumption; [rewrite Hc; right; left|].
    assert (Hca2 : child sl id a ma).
    { destruct Hca as (Hne & (ka & Hta) & Hwf). split; [exact Hne|]. split; [exists ka; apply Kb; assumption|].
      eapply wf_mat_mono; [exact Hwf|]. destruct W2 as ((ext & ->) & _). rewrite app_length. lia. }
    destruct (Hown sl ma mb s' Hrb Hca2 Hcb ltac:(congruence) ltac:(congruence) Eb) as (new & Hcn & Hln).
    assert (Hus : forall j, unbuilt sa j -> unbuilt sm j).
    { intros j Hu. pose proof Hu as (n1 & Hn1 & _).
      destruct (lookup_lt_is_Some_2 (tens sm) j) as [n Hn].
      { destruct W as (_ & L & _). rewrite <- L. eapply lookup_lt_Some. exact Hn1. }
      destruct (built_dec _ _ _ Hn) as [Hb|Hu']; [|exact Hu']. exfalso. eapply built_not; [|exact Hu]. eapply within_built; eassumption. }
    eapply (Hfin sl (js ++ js2) (segs ++ segs2) new); try assumption.
    - apply NoDup_app. split; [assumption|]. split; [|assumption]. intros j Hj Hj2.
      apply Hjs in Hj as [Hbj _]. apply Hjs2 in Hj2 as [_ Hu]. eapply built_not; [exact (Hall _ Hbj)|exact Hu].
    - intros j. rewrite elem_of_app, Hjs, Hjs2, Hc. split.
      + intros [[Hx Hu]|[Hx Hu]].
        * split; [|exact Hu]. exists a. split; [left|exact Hx].
        * split; [|auto]. exists b. split; [right; left|exact Hx].
      + intros [(t & Ht & Hx) Hu]. apply elem_of_cons in Ht as [->|Ht]; [auto|]. apply elem_of_list_singleton in Ht as ->.
        destruct (below_exists _ _ _ _ _ _ HIa Hdb Hx) as [n Hn]. destruct (built_dec _ _ _ Hn) as [Hb|Hu']; [|auto].
        left. apply Hjs. apply Hnew; assumption.
    - rewrite Hcc2, Hcc, concat_app, app_assoc. reflexivity.
    - apply Forall2_app; assumption.
    - intros j Hj Hu. rewrite elem_of_app.
      destruct (lookup_lt_is_Some_2 (tens sa) j) as [n Hn].
      { destruct Hj as (n1 & Hn1 & _). destruct W2 as (_ & L & _). rewrite <- L. eapply lookup_lt_Some. exact Hn1. }
      destruct (built_dec _ _ _ Hn) as [Hb|Hu']; auto.
    - intros t Ht. rewrite Hc in Ht. apply elem_of_cons in Ht as [->|Ht].
      + intros k' Hk'. eapply within_built; [exact W2|]. apply Hall. exact Hk'.
      + apply elem_of_list_singleton in Ht as ->. exact Hall2.
    - destruct (@within_po T (fun _ : nat => True)) as [_ Htr]. eapply Htr; [eapply within_mono; [|exact W]; auto|eapply within_mono; [|exact W2]; auto].
    - eapply only_own. exact Eb.
    - split; [exact Hln|]. intros i ->. destruct (Hnl i eq_refl). }
  pose proof Hsh as Hsh0.
  inversion Hd; subst;
    match goal with Hl : tns0 !! id = Some (MkNode ?k ?m) |- _ => rewrite Hk in Hl; injection Hl as -> -> end.
  all: cbn [shape_of] in Hsh; cbn [no_crossing] in Hnc.
  all: repeat match type of Hsh with
    | (?x ≫= _) = Some _ => let E := fresh "Ex" in destruct x eqn:E; cbn [mbind option_bind] in Hsh; [|discriminate]
    end.
  all: repeat match goal with Hx : _ /\ _ |- _ => destruct Hx end.
  all: match type of E with
    | (BuildGraph _ ?a ;~ BuildGraph _ ?b ;~ _) _ = _ =>
      match goal with Hda : denotes _ _ a ?ea, Hdb : denotes _ _ b ?eb |- _ => eapply (Hbi a b ea eb); eauto; try discriminate; clear E end
    | (BuildGraph _ ?a ;~ _) _ = _ =>
      match goal with Hda : denotes _ _ a ?ea |- _ => eapply (Hun a ea); eauto; try discriminate; clear E end
    | _ => idtac
    end.
  { (* input *)
    rewrite push_scalars in E. injection E as <-. eapply (Hfin sm [] [] (map OScalar (operands m1))); try assumption.
    - constructor.
    - intros j. split; [intros Hj; apply elem_of_nil in Hj; destruct Hj|]. intros [(t & Ht & _) _]. apply elem_of_nil in Ht. destruct Ht.
    - cbn. rewrite app_nil_r. reflexivity.
    - constructor.
    - intros j Hj Hu. destruct (built_not _ _ Hj Hu).
    - intros t Ht. apply elem_of_nil in Ht. destruct Ht.
    - apply within_po.
    - split; [exists []; rewrite app_nil_r; reflexivity|]. split; [reflexivity|]. split; [reflexivity|]. intros n Hn. eauto.
    - reflexivity.
    - split; [|intros i _; apply Forall_forall; intros o Ho; apply elem_of_list_fmap in Ho as (p & -> & _); eauto].
      rewrite map_length. unfold own_cost. rewrite Hsh0. match goal with Hx : operands m1 = operands _ |- _ => rewrite Hx end.
      unfold leafsh in Ex. rewrite Hk in Ex. injection Ex as <-. apply fit_Some in Hsh as [-> _].
      match goal with Hw : wf_mat _ _ |- _ => apply Hw end. }
  all: match goal with
    | |- forall (sl : tst T) (mt : tmat) s2, _ =>
      intros sl mt s2 Hr Hct Hsht Eo; pose proof Hct as (_ & (kt & Htt) & (Hft & Hmi & Hlo & _)); cbn [own_part] in Eo
    | _ => intros sl ma mb s2 Hr Hca Hcb Hsa Hsb Eo; pose proof Hca as (_ & (kka & Hta) & (_ & _ & Hloa & _)); pose proof Hcb as (_ & (kkb & Htb) & _); cbn [own_part] in Eo
    end; unfold own_cost; cbv zeta beta iota; rewrite ?Hsh0.
  Ltac fin1 Htt Eo := refine (after_get _ _ _ _ _ _ Htt _ _ _ Eo); cbv zeta beta.
  - fin1 Htt Eo. replace sh with (shape mt) by congruence. rewrite <- Hlo. gives0.
  - fin1 Htt Eo. replace sh with (shape mt) by congruence. rewrite <- Hlo. gives0.
  - fin1 Htt Eo. replace sh with (shape mt) by congruence. rewrite <- Hlo. gives0.
  - refine (after_get2 _ _ _ _ _ _ _ _ _ Hta Htb _ _ _ Eo); cbv zeta beta.
    destruct (decide _); [|discriminate]. replace sh with (shape ma) by congruence. rewrite <- Hloa. gives0.
  - fin1 Htt Eo. replace sh with (shape mt) by congruence. rewrite <- Hlo. gives0.
  - refine (after_get2 _ _ _ _ _ _ _ _ _ Hta Htb _ _ _ Eo); cbv zeta beta.
    gives0. apply gives_mfor0. intros i. gives0.
  - fin1 Htt Eo. destruct (decide _); [|discriminate]. apply fit_Some in Hsh as [-> Hfs].
    replace l with (shape mt) in * by congruence.
    replace (S (N.to_nat d)) with (N.to_nat (d + 1)) in * by lia. rewrite <- GetDataSize_fits by assumption.
    destruct (ulen (shape mt) <=? d)%N; gives0.
  - destruct (build_dot_spec_len sl id _ _ a b ma mb None (length (shape ma) - 1) (default_db (shape mb)) sh Hr Hca Hcb eq_refl) as (s3 & E3 & Ho & Hlc).
    { congruence. }
    rewrite Eo in E3. injection E3 as <-. destruct Ho as (ext & new & ops & pads & _ & Hcn & _). exists new. split; [exact Hcn|].
    rewrite Hcn, app_length in Hlc. rewrite Hsa. lia.
  - destruct (build_dot_spec_len sl id _ _ a b ma mb (Some (da, db)) _ _ sh Hr Hca Hcb eq_refl) as (s3 & E3 & Ho & Hlc).
    { congruence. }
    rewrite Eo in E3. injection E3 as <-. destruct Ho as (ext & new & ops & pads & _ & Hcn & _). exists new. split; [exact Hcn|].
    rewrite Hcn, app_length in Hlc. rewrite Hsa. lia.
  - refine (after_get2 _ _ _ _ _ _ _ _ _ (proj1 Hr) Htt _ _ _ Eo); cbv zeta beta. gives0.
    all: try (apply gives_bnd0; [apply gives_mfor0; intros i; gives0|intros _]).
    all: try (apply gives_mfor0; intros i; gives0).
  - destruct (count_softmax _ _ _ _ _ _ _ Hr Hct Eo) as (new & Hcn & Hln). exists new. split; [exact Hcn|].
    rewrite Hln, Hlo. replace sh with (shape mt) by congruence. lia.
  - fin1 Htt Eo. gives0. apply gives_mfor0. intros i. gives0.
  - fin1 Htt Eo. gives0. apply gives_mfor0. intros i. gives0.
  - fin1 Htt Eo. gives0. apply gives_push.
  - fin1 Htt Eo. gives0. apply gives_mfor0. intros i. gives0.
Qed.
End Fixed.

(** Compiling an expression from a fresh context. *)
Theorem compile_counts s id e sh :
  denotes (length (mem s)) (tens s) id e -> uncompiled (tens s) id ->
  shape_of (leafsh (tens s)) e = Some sh -> no_crossing (leafsh (tens s)) e ->
  exists g s' js es segs, NewGraph id s = (Ok g, s') /\
    NoDup js /\ (forall j, j ∈ js <-> below (tens s) id j /\ unbuilt s j) /\
    Forall2 (denotes (length (mem s)) (tens s)) js es /\
    Forall2 (seg_ok (leafsh (tens s))) es segs /\ g_ops g = concat segs /\
    Build id s' = (Ok tt, s').
Proof.
  intros Hd Hun Hsh Hnc. pose proof (Inv_start s id Hun) as HI0.
  set (s0 := MkSt (mem s) (tens s) []) in *.
  destruct (build_ok (length (mem s)) (tens s) (S id) id s0 _ _ e sh ltac:(lia) HI0 Hd Hsh Hnc)
    as (s' & P' & Hb & new & G & K & HI & (n' & Hn' & Hbn & Hmok) & Hpr).
  { intros j Hj HX. auto. }
  destruct (count_ok (length (mem s)) (tens s) (S id) id s0 [] _ e sh s' ltac:(lia) HI0) as [(js & segs & Hnd & Hjs & Hc & Hfa & _) _]; try assumption.
  - intros j (n & Hn & Hbj) HX k Hk. cbn [tens s0] in Hn.
    assert (is_leaf (nkind n) = true) as Hlf.
    { destruct (is_leaf (nkind n)) eqn:El; [reflexivity|]. exfalso. apply HX. intros Hbel.
      rewrite (Hun _ _ Hbel Hn El) in Hbj. discriminate. }
    inversion Hk as [|? n1 c ? Hn1 Hcc Hbc]; subst; [exists n; auto|].
    rewrite Hn in Hn1. injection Hn1 as <-. destruct (nkind n); try discriminate. cbn in Hcc. apply elem_of_nil in Hcc. destruct Hcc.
  - intros j Hj HX. auto.
  - assert (Hes : exists es, Forall2 (denotes (length (mem s)) (tens s)) js es /\ Forall2 (seg_ok (leafsh (tens s))) es segs).
    { assert (Hin : Forall (fun j => below (tens s) id j) js) by (apply Forall_forall; intros j Hj; apply Hjs in Hj; apply Hj).
      clear - Hin Hfa Hd. induction Hfa as [|j seg js segs Hjs Hfa IH]; [exists []; split; constructor|].
      apply Forall_cons in Hin as [Hj Hin]. destruct (IH Hin) as (es & H1 & H2).
      destruct (below_denotes _ _ _ _ _ Hd Hj) as [e' He']. exists (e' :: es). split; constructor; auto. }
    destruct Hes as (es & H1 & H2). exists (MkGraph (ctx s')), s', js, es, segs. split.
    { unfold NewGraph. erewrite mbnd_ok by reflexivity. erewrite mbnd_ok by exact Hb.
      erewrite mbnd_ok by reflexivity. reflexivity. }
    split; [exact Hnd|]. split; [exact Hjs|]. split; [exact H1|]. split; [exact H2|]. split; [exact Hc|].
    unfold Build. cbn [BuildGraph]. erewrite mbnd_ok by (unfold get_node; rewrite Hn'; reflexivity). rewrite Hbn. reflexivity.
Qed.

(** Views. *)
Lemma rearranges_below n tns id e j e' :
  denotes n tns id e -> rearranges e -> below tns id j -> denotes n tns j e' -> rearranges e'.
Proof.
  intros Hd Hr Hb Hd'. revert e Hd Hr. induction Hb as [id|id nn c j Hn Hc Hb IH]; intros e Hd Hr.
  - rewrite (denotes_det _ _ _ _ _ Hd' Hd). exact Hr.
  - specialize (IH Hd').
    inversion Hd; subst;
    match goal with Hl : tns !! id = Some _ |- _ => rewrite Hn in Hl; injection Hl as -> end;
    cbn [nkind children] in Hc; cbn [rearranges] in Hr; try contradiction;
    repeat match goal with
    | Hc : _ ∈ [] |- _ => apply elem_of_nil in Hc; destruct Hc
    | Hc : _ ∈ _ :: _ |- _ => apply elem_of_cons in Hc as [->|Hc]
    end; try (destruct Hr); eauto.
Qed.

Lemma exec_quiet (l : list (op T)) (m : list T) : Forall (fun o => exists p, o = OScalar p) l -> exec l m = Some m.
Proof. induction 1 as [|o l [p ->] Hl IH]; [reflexivity|]. exact IH. Qed.

Theorem view_quiet s id e sh :
  denotes (length (mem s)) (tens s) id e -> uncompiled (tens s) id ->
  shape_of (leafsh (tens s)) e = Some sh -> no_crossing (leafsh (tens s)) e -> rearranges e ->
  exists g s', NewGraph id s = (Ok g, s') /\ forall m, Exec g m = Some m.
Proof.
  intros Hd Hun Hsh Hnc Hre.
  destruct (compile_counts s id e sh Hd Hun Hsh Hnc) as (g & s' & js & es & segs & Hg & _ & Hjs & Hde & Hse & Hc & _).
  exists g, s'. split; [exact Hg|]. intros m. unfold Exec. apply exec_quiet. rewrite Hc.
  assert (Hin : Forall (fun j => below (tens s) id j) js) by (apply Forall_forall; intros j Hj; apply Hjs in Hj; apply Hj).
  clear - Hd Hre Hde Hse Hin. revert segs Hse. induction Hde as [|j e' js es Hj Hde IH]; intros segs Hse.
  - inversion Hse; subst. constructor.
  - apply Forall_cons in Hin as [Hbj Hin]. inversion Hse as [|? seg ? segs' [Hl Hq] Hse']; subst.
    cbn [concat]. apply Forall_app. split; [|apply IH; assumption].
    pose proof (rearranges_below _ _ _ _ _ _ Hd Hre Hbj Hj) as Hr.
    destruct e'; cbn [rearranges] in Hr; try contradiction; cbn [own_cost] in Hl;
      try (destruct seg; [constructor|discriminate]).
    eapply Hq. reflexivity.
Qed.

(** The data of a compiled view is, at every later moment, the rearrangement of
    the current data of its sources. *)
Theorem view_live s id e sh :
  denotes (length (mem s)) (tens s) id e -> uncompiled (tens s) id ->
  shape_of (leafsh (tens s)) e = Some sh -> no_crossing (leafsh (tens s)) e -> rearranges e ->
  exists g s', NewGraph id s = (Ok g, s') /\
    forall s2, tens s2 = tens s' -> history g (length (mem s)) (mem s') (mem s2) ->
      exists v, eval (leafv (tens s2) (mem s2)) (fun x => mem s2 !! x) e = Some v /\
        GetData id s2 = (Ok (vdata v), s2).
Proof.
  intros Hd Hun Hsh Hnc Hre.
  destruct (view_quiet s id e sh Hd Hun Hsh Hnc Hre) as (g & s' & Hg & Hq).
  destruct (compile_correct s id e sh Hd Hun Hsh Hnc) as (g' & s'' & n' & Hg' & _ & Hn' & _ & _ & Hlf & Hall).
  rewrite Hg in Hg'. injection Hg' as <- <-. exists g, s'. split; [exact Hg|].
  intros s2 Ht Hh. specialize (Hall _ Hh).
  assert (Hev : eval (leafv (tens s2) (mem s2)) (fun x => mem s2 !! x) e = eval (leafv (tens s) (mem s2)) (fun x => mem s2 !! x) e).
  { apply eval_ext. intros j. rewrite Ht. apply Hlf. }
  rewrite Hev. destruct (eval (leafv (tens s) (mem s2)) (fun x => mem s2 !! x) e) as [v|]; [|congruence].
  destruct Hall as (m' & Hx & Hv & _). rewrite Hq in Hx. injection Hx as <-. exists v. split; [reflexivity|].
  eapply GetData_mval; [rewrite Ht; exact Hn'|exact Hv].
Qed.

(** Writing into a source through Set and reading through the view, without
    executing anything. *)
Theorem view_set s id e sh :
  denotes (length (mem s)) (tens s) id e -> uncompiled (tens s) id ->
  shape_of (leafsh (tens s)) e = Some sh -> no_crossing (leafsh (tens s)) e -> rearranges e ->
  exists g s', NewGraph id s = (Ok g, s') /\
    forall j u x idx s2, leafv (tens s) (mem s) j = Some u -> Set_ j x idx s' = (Ok tt, s2) ->
      exists v, eval (leafv (tens s2) (mem s2)) (fun x => mem s2 !! x) e = Some v /\
        GetData id s2 = (Ok (vdata v), s2).
Proof.
  intros Hd Hun Hsh Hnc Hre.
  destruct (view_live s id e sh Hd Hun Hsh Hnc Hre) as (g & s' & Hg & Hall).
  destruct (compile_correct s id e sh Hd Hun Hsh Hnc) as (g' & s'' & n' & Hg' & _ & _ & _ & _ & Hlf & _).
  rewrite Hg in Hg'. injection Hg' as <- <-. exists g, s'. split; [exact Hg|].
  intros j u x idx s2 Hj Hset. rewrite <- Hlf in Hj. unfold leafv in Hj.
  destruct (tens s' !! j) as [[k mt]|] eqn:Et; [|discriminate]. destruct k; try discriminate.
  unfold Set_ in Hset. erewrite mbnd_ok in Hset
    by (unfold get_mat; erewrite mbnd_ok by (unfold get_node; rewrite Et; reflexivity); reflexivity).
  cbn [nmat] in Hset. unfold mbnd, mlift in Hset.
  destruct (GetOperand mt idx) as [o| | |] eqn:Eo; try discriminate.
  unfold wrM in Hset. destruct (wr (mem s') o x) as [m2|] eqn:Ew; [|discriminate]. injection Hset as <-.
  apply Hall; [reflexivity|]. cbn [mem].
  assert (Hin : o ∈ operands mt).
  { unfold GetOperand in Eo. destruct (GetIndex _ _ _) as [k| | |]; cbn in Eo; try discriminate.
    destruct (_ <=? k)%N; [discriminate|]. unfold at_or_panic in Eo.
    destruct (operands mt !! N.to_nat k) as [o'|] eqn:El; [|discriminate]. injection Eo as <-.
    eapply elem_of_list_lookup_2. exact El. }
  destruct o as [l|]; [|discriminate]. cbn in Ew. destruct (decide (l < length (mem s'))); [|discriminate]. injection Ew as <-.
  apply Hist_write; [constructor|]. unfold mval in Hj.
  destruct (rds (mem s) (operands mt)) as [d|] eqn:Er; [|discriminate].
  apply elem_of_list_lookup_1 in Hin as [i Hi]. pose proof (rds_lookup _ _ _ i Er) as Hr. rewrite Hi in Hr. cbn in Hr.
  destruct (d !! i) as [y|] eqn:Ed.
  - eapply lookup_lt_Some. symmetry. first [exact Hr | symmetry; exact Hr].
  - apply lookup_ge_None in Ed. apply lookup_lt_Some in Hi. rewrite (rds_length _ _ _ Er) in Ed. lia.
Qed.
End Count.
