(** * IllProofs: compiling an ill-shaped expression returns an error *)
From Verif Require Import Base Num ModelTools ModelOps ModelTensor ModelGraph Spec GraphSpec Denote
  IndexProofs ExecProofs TensorFacts BuildProofs BuildProofs2 BuildProofs3 CompileProofs BuildFrame.
From Coq Require Import Lia ZifyBool ZifyNat ZifyN.

Section Ill.
Context {T : Type} `{Num T}.

Lemma ill_shape ls (e : expr T) : ill ls e -> shape_of ls e = None.
Proof.
  intros Hi. induction Hi; unfold well in *; cbn [shape_of]; rewrite ?IHHi;
    repeat match goal with
    | Hw : _ /\ _ |- _ => destruct Hw
    | Hs : shape_of ls ?x = Some _ |- context [shape_of ls ?x] => rewrite Hs
    end; cbn [mbind option_bind]; rewrite ?IHHi; cbn [mbind option_bind]; try reflexivity.
  - unfold bad_slice in *. destruct (sh !! d); cbn [mbind option_bind]; [|reflexivity].
    destruct ((s <? t)%N && (t <=? n)%N) eqn:E; [lia|reflexivity].
  - unfold bad_slicex in *. destruct (sh !! d) eqn:E0; cbn [mbind option_bind]; [|reflexivity].
    apply lookup_lt_Some in E0.
    destruct ((s <? t)%N && (t <? W64)%N) eqn:E; [lia|reflexivity].
  - destruct (decide (d < length sh)); [lia|reflexivity].
  - destruct (decide (sa = sb)); [congruence|reflexivity].
  - destruct (sa !! d); cbn [mbind option_bind]; [|reflexivity].
    destruct (sb !! d); cbn [mbind option_bind]; [|reflexivity].
    destruct (decide (<[d:=n0]> sa = sb)) as [<-|]; [|reflexivity]. exfalso.
    match goal with Hb : bad_join _ _ _ |- _ => destruct Hb as [Hb|(k & x & y & Hx & Hy & Hxy & Hkd & _)] end.
    + rewrite insert_length in *. congruence.
    + rewrite list_lookup_insert_ne in Hy by auto. congruence.
  - unfold dot_shape, bad_contraction in *. destruct H2 as [->|[->|(na & nb & -> & -> & Hne)]].
    + reflexivity.
    + destruct (sa !! da); reflexivity.
    + destruct (na =? nb)%N eqn:E; [lia|reflexivity].
  - unfold dot_shape, bad_contraction in *. destruct H2 as [->|[->|(na & nb & -> & -> & Hne)]].
    + reflexivity.
    + destruct (sa !! (length sa - 1)); reflexivity.
    + destruct (na =? nb)%N eqn:E; [lia|reflexivity].
Qed.

Section Fixed.
Variable n0 : nat.
Variable tns0 : list (node T).
Notation ls := (leafsh tns0).

Lemma below_shape id e j e' :
  denotes n0 tns0 id e -> below tns0 id j -> denotes n0 tns0 j e' ->
  (exists sh, shape_of ls e = Some sh) -> exists sh, shape_of ls e' = Some sh.
Proof.
  intros Hd Hb Hd' Hs. revert e Hd Hs. induction Hb as [id|id n c j Hn Hc Hb IH]; intros e Hd [sh Hs].
  - rewrite (denotes_det _ _ _ _ _ Hd' Hd). eauto.
  - specialize (IH Hd').
    inversion Hd; subst;
    match goal with Hl : tns0 !! id = Some _ |- _ => rewrite Hn in Hl; injection Hl as -> end;
    cbn [nkind children] in Hc;
    repeat match goal with
    | Hc : _ ∈ [] |- _ => apply elem_of_nil in Hc; destruct Hc
    | Hc : _ ∈ _ :: _ |- _ => apply elem_of_cons in Hc as [->|Hc]
    end;
    cbn [shape_of] in Hs;
    repeat match type of Hs with
    | (?x ≫= _) = Some _ => let E := fresh "E" in destruct x eqn:E; cbn [mbind option_bind] in Hs; [|discriminate]
    end; eauto.
Qed.

(** Every object built so far is well-shaped. *)
Definition built_well (s : tst T) (X : nat -> Prop) : Prop :=
  forall j n e, tens s !! j = Some n -> builded (nmat n) = true -> ~ X j -> denotes n0 tns0 j e ->
    exists sh, shape_of ls e = Some sh.

Lemma tens_below s P X a j : Inv n0 tns0 s P X -> below (tens s) a j -> below tns0 a j.
Proof.
  intros HI. apply kind_below.
  - intros k n Hk. destruct (skel_lookup _ _ _ _ (inv_skel _ _ _ _ _ HI) Hk) as (n' & Hn' & Hs).
    exists n'. split; [assumption|]. symmetry. apply skel_kind. congruence.
  - pose proof (inv_skel _ _ _ _ _ HI) as E. apply (f_equal length) in E. rewrite !map_length in E. auto.
Qed.

(** Building a well-shaped object keeps [built_well]. *)
Lemma built_well_step s s1 P X fuel a ea :
  Inv n0 tns0 s P X -> built_well s X -> denotes n0 tns0 a ea -> (exists sh, shape_of ls ea = Some sh) ->
  BuildGraph fuel a s = (Ok tt, s1) -> built_well s1 X.
Proof.
  intros HI Hw Hd Hs Hb j n e Hj Hbj HX Hdj.
  destruct (BuildGraph_within fuel a s _ _ Hb) as (_ & _ & Hf & _).
  destruct (shape_of ls e) as [sh|] eqn:Es; [eauto|].
  assert (Hnb : ~ below (tens s) a j).
  { intros Hbl. destruct (below_shape _ _ _ _ Hd (tens_below _ _ _ _ _ HI Hbl) Hdj Hs) as [sh Hsh]. congruence. }
  destruct (Hw j n e) as [sh Hsh]; [rewrite <- (Hf j Hnb); exact Hj|exact Hbj|exact HX|exact Hdj|congruence].
Qed.

(** The mark set on an object, and what its operands look like afterwards. *)
Lemma mark_state s P X id k m1 :
  Inv n0 tns0 s P X -> built_well s X -> tens s !! id = Some (MkNode k m1) -> builded m1 = false ->
  exists sm, set_built id s = (Ok tt, sm) /\ Inv n0 tns0 sm P (fun j => X j \/ j = id) /\
    built_well sm (fun j => X j \/ j = id).
Proof.
  intros HI Hw Hn Hb. eexists. split; [apply set_built_state; exact Hn|].
  destruct (Inv_mark n0 tns0 _ _ _ _ _ _ HI Hn Hb eq_refl) as (HIm & _ & _). split; [exact HIm|].
  intros j n e Hj Hbj HX Hd. unfold st_with in Hj. cbn [tens] in Hj.
  rewrite list_lookup_insert_ne in Hj by (intros ->; apply HX; auto). eapply Hw; eauto.
Qed.

Lemma own_err1 (s1 : tst T) t kt mt e (k : tmat -> TM T unit) :
  tens s1 !! t = Some (MkNode kt mt) -> (forall s, k mt s = (Err e, s)) -> exists e' s', (x <~ get_mat t ; k x) s1 = (Err e', s').
Proof.
  intros Ht Hk. exists e, s1. erewrite mbnd_ok; [apply Hk|]. unfold get_mat. erewrite mbnd_ok by (unfold get_node; rewrite Ht; reflexivity). reflexivity.
Qed.
Lemma own_err2 (s1 : tst T) a ka ma b kb mb e (k : tmat -> tmat -> TM T unit) :
  tens s1 !! a = Some (MkNode ka ma) -> tens s1 !! b = Some (MkNode kb mb) ->
  (forall s, k ma mb s = (Err e, s)) -> exists e' s', (x <~ get_mat a ; y <~ get_mat b ; k x y) s1 = (Err e', s').
Proof.
  intros Ha Hb Hk. exists e, s1. erewrite mbnd_ok by (unfold get_mat; erewrite mbnd_ok by (unfold get_node; rewrite Ha; reflexivity); reflexivity).
  erewrite mbnd_ok by (unfold get_mat; erewrite mbnd_ok by (unfold get_node; rewrite Hb; reflexivity); reflexivity). apply Hk.
Qed.
Lemma eM_err {A} e (k : TM T A) s : (eM (Some e) ;~ k) s = (Err e, s).
Proof. reflexivity. Qed.

Lemma concat_check_bad sa sb d : bad_join sa sb (N.to_nat d) -> exists e, concat_check sa sb d = Some e.
Proof.
  intros Hb. unfold concat_check. destruct (Equals_spec sa sb) as [[E Hl]|[[E Hl]|(n & a & b & E & Hl & Ha & Hb' & Hab & Ht)]]; rewrite E.
  - cbn. eauto.
  - exfalso. subst. destruct Hb as [Hb|(n & x & y & Hx & Hy & Hxy & _)]; congruence.
  - destruct Hb as [Hb|(n' & x & y & Hx & Hy & Hxy & Hnd & Ht')]; [congruence|].
    assert (n' = n).
    { destruct (Nat.lt_trichotomy n n') as [Hlt|[->|Hlt]]; [|reflexivity|].
      - apply (f_equal (fun l => l !! n)) in Ht'. rewrite !lookup_take in Ht' by assumption. congruence.
      - apply (f_equal (fun l => l !! n')) in Ht. rewrite !lookup_take in Ht by assumption. congruence. }
    subst n'. destruct (Z.of_nat n =? -2)%Z eqn:E1; [eauto|].
    replace ((0 <=? Z.of_nat n)%Z && negb (Z.of_nat n =? Z.of_N d)%Z) with true by lia. eauto.
Qed.
Lemma eqshape_err sa sb : sa <> sb -> exists e, GetEqShapeErr sa sb = Some e.
Proof.
  intros Hne. destruct (GetEqShapeErr sa sb) eqn:E; [eauto|]. apply GetEqShapeErr_None in E. congruence.
Qed.
Lemma sub_check_err sh d s t : bad_slice sh (N.to_nat d) s t -> exists e, sub_checks sh d s t false = Some e.
Proof.
  unfold bad_slice, sub_checks. destruct (ulen sh <=? d)%N eqn:E; [eauto|].
  destruct (sh !! N.to_nat d) as [n|] eqn:En; [|apply lookup_ge_None in En; unfold ulen in E; lia].
  rewrite (nth_lookup_Some _ _ 0%N _ En). intros Hb. destruct (t <=? s)%N eqn:E1; [eauto|]. cbn.
  destruct (n <? t)%N eqn:E2; [eauto|]. lia.
Qed.
Lemma subx_check_err sh d s t : bad_slicex sh (N.to_nat d) s t -> exists e, sub_checks sh d s t true = Some e.
Proof.
  unfold bad_slicex, sub_checks. intros Hb. destruct (ulen sh <=? d)%N eqn:E; [eauto|].
  destruct (t <=? s)%N eqn:E1; [eauto|]. unfold ulen in E. lia.
Qed.
Lemma dot_err id a b (ma mb : tmat) s dims da db :
  (da, db) = match dims with
             | Some (x, y) => (N.to_nat x, N.to_nat y)
             | None => (length (shape ma) - 1, default_db (shape mb))
             end ->
  bad_contraction (shape ma) (shape mb) da db ->
  (exists ka, tens s !! a = Some (MkNode ka ma)) -> (exists kb, tens s !! b = Some (MkNode kb mb)) ->
  exists e s', build_dot id a b dims s = (Err e, s').
Proof.
  intros Hd Hb [ka Ha] [kb Hb'].
  unfold build_dot.
  erewrite mbnd_ok by (unfold get_mat; erewrite mbnd_ok by (unfold get_node; rewrite Ha; reflexivity); reflexivity).
  erewrite mbnd_ok by (unfold get_mat; erewrite mbnd_ok by (unfold get_node; rewrite Hb'; reflexivity); reflexivity).
  cbn [nmat]. cbv zeta.
  destruct ((length (shape ma) =? 0) || (length (shape mb) =? 0)) eqn:E0; [do 2 eexists; unfold mfail; reflexivity|].
  assert (Hb1 : exists na nb, shape ma !! da = Some na /\ shape mb !! db = Some nb /\ na <> nb).
  { destruct Hb as [E|[E|Hb]]; [rewrite E in E0; discriminate|rewrite E in E0; cbn in E0; rewrite orb_true_r in E0; discriminate|exact Hb]. }
  destruct Hb1 as (na & nb & Hna & Hnb & Hne).
  destruct dims as [[x y]|]; injection Hd as -> ->.
  - erewrite mbnd_ok by (apply atM_ok; exact Hna). erewrite mbnd_ok by (apply atM_ok; exact Hnb).
    destruct (na =? nb)%N eqn:E; [lia|]. do 2 eexists. reflexivity.
  - cbn beta iota.
    replace (N.to_nat (ulen (shape ma) - 1)) with (length (shape ma) - 1) by (unfold ulen; lia).
    replace (N.to_nat (if (0 <? ulen (shape mb) - 1)%N then (ulen (shape mb) - 1 - 1)%N else (ulen (shape mb) - 1)%N))
      with (default_db (shape mb))
      by (unfold ulen, default_db; destruct (0 <? N.of_nat (length (shape mb)) - 1)%N eqn:E; lia).
    erewrite mbnd_ok by (apply atM_ok; exact Hna). erewrite mbnd_ok by (apply atM_ok; exact Hnb).
    destruct (na =? nb)%N eqn:E; [lia|]. do 2 eexists. reflexivity.
Qed.

Lemma ill_refused fuel : forall id s P X e,
  id < fuel -> Inv n0 tns0 s P X -> built_well s X -> denotes n0 tns0 id e -> ill ls e ->
  (forall j, below tns0 id j -> ~ X j) ->
  exists er s', BuildGraph fuel id s = (Err er, s').
Proof.
  induction fuel as [|fuel IH]; intros id s P X e Hf HI Hw Hd Hill Hbel; [lia|].
  pose proof (ill_shape _ _ Hill) as Hsn.
  (* an operand, seen from the object *)
  assert (Hb1 : forall n t, tns0 !! id = Some n -> t ∈ children (nkind n) -> t < id ->
     forall et, denotes n0 tns0 t et -> forall j, below tns0 t j -> ~ (X j \/ j = id)).
  { intros n t Hn Hin Hlt et Hdt j Hj [HX| ->].
    - eapply Hbel; [|exact HX]. eapply B_step; eassumption.
    - pose proof (below_le _ _ _ _ Hdt _ Hj). lia. }
  (* entering the object *)
  assert (Henter : forall k m0, tns0 !! id = Some (MkNode k m0) -> is_leaf k = false ->
     forall (body : kind T -> tmat -> TM T unit),
     (forall sm m1 P, Inv n0 tns0 sm P (fun j => X j \/ j = id) -> built_well sm (fun j => X j \/ j = id) ->
        exists er s', body k m1 sm = (Err er, s')) ->
     exists er s', (n <~ get_node id ; if builded (nmat n) then mret tt else set_built id ;~ body (nkind n) (nmat n)) s = (Err er, s')).
  { intros k m0 Hk Hlf body Hbody. destruct (kind_of _ _ _ _ _ _ _ _ HI Hk) as (m1 & Hm1 & _).
    assert (Hbf : builded m1 = false).
    { destruct (builded m1) eqn:E; [|reflexivity].
      destruct (Hw id _ e Hm1 E) as [sh Hsh]; [apply Hbel; constructor|exact Hd|congruence]. }
    erewrite mbnd_ok by (unfold get_node; rewrite Hm1; reflexivity). cbn [nmat nkind]. rewrite Hbf.
    destruct (mark_state _ _ _ _ _ _ HI Hw Hm1 Hbf) as (sm & Hsm & HIm & Hwm).
    erewrite mbnd_ok by exact Hsm. eapply Hbody; eassumption. }
  (* a failing operand *)
  assert (Hfail : forall k m0 t et, tns0 !! id = Some (MkNode k m0) -> t ∈ children k -> t < id -> denotes n0 tns0 t et -> ill ls et ->
     forall sm P, Inv n0 tns0 sm P (fun j => X j \/ j = id) -> built_well sm (fun j => X j \/ j = id) ->
     forall c : TM T unit, exists er s', (BuildGraph fuel t ;~ c) sm = (Err er, s')).
  { intros k m0 t et Hk Hin Hlt Hdt Hil sm P' HIm Hwm c.
    destruct (IH t sm P' _ et ltac:(lia) HIm Hwm Hdt Hil) as (er & s' & E); [eapply (Hb1 _ t Hk Hin Hlt); eassumption|].
    exists er, s'. erewrite mbnd_err by exact E. reflexivity. }
  (* a good operand *)
  assert (Hgood : forall k m0 t et sht, tns0 !! id = Some (MkNode k m0) -> t ∈ children k -> t < id -> denotes n0 tns0 t et -> well ls et sht ->
     forall sm P, Inv n0 tns0 sm P (fun j => X j \/ j = id) -> built_well sm (fun j => X j \/ j = id) ->
     exists s1 P1 nt, BuildGraph fuel t sm = (Ok tt, s1) /\ Inv n0 tns0 s1 P1 (fun j => X j \/ j = id) /\
       built_well s1 (fun j => X j \/ j = id) /\ tens s1 !! t = Some nt /\ shape (nmat nt) = sht /\ keeps sm s1 /\ builded (nmat nt) = true).
  { intros k m0 t et sht Hk Hin Hlt Hdt [Hst Hnc] sm P' HIm Hwm.
    destruct (build_ok n0 tns0 fuel t sm P' _ et sht ltac:(lia) HIm Hdt Hst Hnc) as (s1 & P1 & E & new & G & K & HI1 & (nt & Hnt & Hbt & Hmt) & _).
    { eapply (Hb1 _ t Hk Hin Hlt); eassumption. }
    exists s1, P1, nt. split; [exact E|]. split; [exact HI1|]. split; [exact (built_well_step _ _ _ _ _ _ _ HIm Hwm Hdt (ex_intro _ _ Hst) E)|]. split; [exact Hnt|].
    split; [destruct Hmt as (Hx & _); unfold ls in *; congruence|]. split; [exact K|exact Hbt]. }
  cbn [BuildGraph].
  assert (Hun : forall k m0 t et, tns0 !! id = Some (MkNode k m0) -> children k = [t] -> is_leaf k = false -> t < id -> denotes n0 tns0 t et ->
    (ill ls et \/ (exists sht, well ls et sht /\ forall s1 nt, tens s1 !! t = Some nt -> shape (nmat nt) = sht -> exists er s', own_part id k s1 = (Err er, s'))) ->
    forall sm P, Inv n0 tns0 sm P (fun j => X j \/ j = id) -> built_well sm (fun j => X j \/ j = id) ->
    exists er s', (BuildGraph fuel t ;~ own_part id k) sm = (Err er, s')).
  { intros k m0 t et Hk Hc Hlf Hlt Hdt Hcase sm P' HIm Hwm. assert (Hin : t ∈ children k) by (rewrite Hc; left).
    destruct Hcase as [Hil|(sht & Hwl & Hown)]; [eapply Hfail; eauto|].
    destruct (Hgood _ _ _ _ _ Hk Hin Hlt Hdt Hwl sm P' HIm Hwm) as (s1 & P1 & nt & E & _ & _ & Hnt & Hsh & _).
    destruct (Hown s1 nt Hnt Hsh) as (er & s' & Eo). exists er, s'. erewrite mbnd_ok by exact E. exact Eo. }
  assert (Hbi : forall k m0 a b ea eb, tns0 !! id = Some (MkNode k m0) -> children k = [a; b] -> is_leaf k = false -> a < id -> b < id ->
    denotes n0 tns0 a ea -> denotes n0 tns0 b eb ->
    (ill ls ea \/ (exists sa, well ls ea sa /\ ill ls eb) \/
     (exists sa sb, well ls ea sa /\ well ls eb sb /\ forall s1 na nb, tens s1 !! a = Some na -> tens s1 !! b = Some nb ->
        shape (nmat na) = sa -> shape (nmat nb) = sb -> exists er s', own_part id k s1 = (Err er, s'))) ->
    forall sm P, Inv n0 tns0 sm P (fun j => X j \/ j = id) -> built_well sm (fun j => X j \/ j = id) ->
    exists er s', (BuildGraph fuel a ;~ BuildGraph fuel b ;~ own_part id k) sm = (Err er, s')).
  { intros k m0 a b ea eb Hk Hc Hlf Hla Hlb Hda Hdb Hcase sm P' HIm Hwm.
    assert (Hina : a ∈ children k) by (rewrite Hc; left). assert (Hinb : b ∈ children k) by (rewrite Hc; right; left).
    destruct Hcase as [Hil|Hcase]; [eapply Hfail; eauto|].
    assert (exists sa, well ls ea sa) as [sa Hwa] by (destruct Hcase as [(sa & Hwa & _)|(sa & sb & Hwa & _)]; eauto).
    destruct (Hgood _ _ _ _ _ Hk Hina Hla Hda Hwa sm P' HIm Hwm) as (s1 & P1 & na & E & HI1 & Hw1 & Hna & Hsa & _ & Hba).
    erewrite mbnd_ok by exact E.
    destruct Hcase as [(sa' & _ & Hil)|(sa' & sb & Hwa' & Hwb & Hown)]; [eapply Hfail; eauto|].
    destruct (Hgood _ _ _ _ _ Hk Hinb Hlb Hdb Hwb s1 P1 HI1 Hw1) as (s2 & P2 & nb & E2 & _ & _ & Hnb & Hsb & K2 & _).
    erewrite mbnd_ok by exact E2. eapply Hown; [apply K2; eassumption|exact Hnb| |exact Hsb].
    destruct Hwa as [Hx _], Hwa' as [Hx' _]. congruence. }
  inversion Hd; subst;
    match goal with Hl : tns0 !! id = Some (MkNode ?k ?m) |- _ => pose proof Hl as Hl0 end;
    try (inversion Hill; fail).
  all: refine (Henter _ _ Hl0 eq_refl (fun k m1 => match k with
    | KMat => mfor (operands m1) (fun o => push (OScalar o))
    | KAbs t => BuildGraph fuel t ;~ build_map id t OAbs
    | KNeg t => BuildGraph fuel t ;~ build_map id t ONeg
    | KActivate t f => BuildGraph fuel t ;~ build_map id t (fun d a => OFunc d a f)
    | KOp2 a b o => BuildGraph fuel a ;~ BuildGraph fuel b ;~ build_op2 id a b o
    | KOpScalar t s o => BuildGraph fuel t ;~ build_opscalar id t s o
    | KConcat a b d => BuildGraph fuel a ;~ BuildGraph fuel b ;~ build_concat id a b d
    | KCopy f t => BuildGraph fuel f ;~ BuildGraph fuel t ;~ build_copy id f t
    | KFill t v => BuildGraph fuel t ;~ build_fill id t v
    | KDimMath t d o => BuildGraph fuel t ;~ build_dimmath id t d o
    | KDot a b dims => BuildGraph fuel a ;~ BuildGraph fuel b ;~ build_dot id a b dims
    | KReshape t => BuildGraph fuel t ;~ build_reshape id t
    | KSoftMax t => BuildGraph fuel t ;~ build_softmax id t
    | KSub t d s e g => BuildGraph fuel t ;~ build_sub id t d s e g
    | KTensorMath t o => BuildGraph fuel t ;~ build_tensormath id t o
    | KTranspose t => BuildGraph fuel t ;~ build_transpose id t
    end) _).
  all: intros sm m1 P' HIm Hwm; cbn beta iota.
  all: match goal with
    | Hda : denotes _ _ ?a ?ea, Hdb : denotes _ _ ?b ?eb |- exists er s', (BuildGraph _ ?a ;~ BuildGraph _ ?b ;~ _) _ = _ => refine (Hbi _ _ a b ea eb Hl0 eq_refl eq_refl _ _ Hda Hdb _ sm P' HIm Hwm)
    | Hda : denotes _ _ ?a ?ea |- exists er s', (BuildGraph _ ?a ;~ BuildGraph _ ?a ;~ _) _ = _ => refine (Hbi _ _ a a ea ea Hl0 eq_refl eq_refl _ _ Hda Hda _ sm P' HIm Hwm)
    | Hda : denotes _ _ ?a ?ea |- exists er s', (BuildGraph _ ?a ;~ _) _ = _ => refine (Hun _ _ a ea Hl0 eq_refl eq_refl _ Hda _ sm P' HIm Hwm)
    end; try assumption.
  all: inversion Hill; subst; try (left; assumption); try (right; left; eauto; fail).
  all: match goal with
    | Hw1 : well _ ?a ?sa, Hw2 : well _ ?b ?sb |- _ \/ (_ \/ _) =>
        right; right; exists sa, sb; split; [exact Hw1|]; split; [exact Hw2|]; intros s1 na nb Hna Hnb Hsa Hsb; destruct na as [kka mma], nb as [kkb mmb]; cbn [nmat] in Hsa, Hsb; cbn [own_part]
    | Hw1 : well _ ?a ?sa |- _ \/ _ =>
        right; exists sa; split; [exact Hw1|]; intros s1 nt Hnt Hsh; destruct nt as [kt mt]; cbn [nmat] in Hsh; cbn [own_part]
    end.
  - destruct (eqshape_err (shape mma) (shape mmb)) as [er Her]; [congruence|].
    unfold build_op2. eapply own_err2; [exact Hna|exact Hnb|]. intros s2. rewrite Her. reflexivity.
  - destruct (concat_check_bad (shape mma) (shape mmb) d) as [er Her]; [subst; assumption|].
    unfold build_concat. eapply own_err2; [exact Hna|exact Hnb|]. intros s2. rewrite Her. reflexivity.
  - unfold build_dimmath. eapply own_err1; [exact Hnt|]. intros s2.
    destruct (ulen (shape mt) <=? d)%N eqn:E; [reflexivity|unfold ulen in E; subst; lia].
  - eapply (dot_err id a b mma mmb); [reflexivity|subst; assumption|eauto|eauto].
  - eapply (dot_err id a b mma mmb); [reflexivity|subst; assumption|eauto|eauto].
  - destruct (sub_check_err (shape mt) d s0 u) as [er Her]; [subst; assumption|].
    unfold build_sub. eapply own_err1; [exact Hnt|]. intros s2. rewrite Her. reflexivity.
  - destruct (subx_check_err (shape mt) d s0 u) as [er Her]; [subst; assumption|].
    unfold build_sub. eapply own_err1; [exact Hnt|]. intros s2. rewrite Her. reflexivity.
Qed.
End Fixed.

Theorem NewGraph_refuses s id e :
  denotes (length (mem s)) (tens s) id e -> uncompiled (tens s) id -> ill (leafsh (tens s)) e ->
  exists er s', NewGraph id s = (Err er, s').
Proof.
  intros Hd Hun Hill. pose proof (Inv_start s id Hun) as HI0.
  destruct (ill_refused (length (mem s)) (tens s) (S id) id _ _ _ e ltac:(lia) HI0) as (er & s' & E); try assumption.
  - intros j n e' Hj Hb HX Hd'. cbn [tens] in Hj.
    assert (is_leaf (nkind n) = true) as Hlf.
    { destruct (is_leaf (nkind n)) eqn:El; [reflexivity|]. exfalso. apply HX. intros Hbel.
      rewrite (Hun _ _ Hbel Hj El) in Hb. discriminate. }
    inversion Hd'; subst;
      match goal with Hl : tens s !! j = Some (MkNode _ _) |- _ => rewrite Hj in Hl; injection Hl as -> end;
      try discriminate. cbn [shape_of]. unfold leafsh. rewrite Hj. cbn. exists (shape m). apply fit_Some. split; [reflexivity|]. match goal with Hw : wf_mat _ _ |- _ => apply Hw end.
  - intros j Hj HX. auto.
  - exists er, s'. unfold NewGraph. erewrite mbnd_ok by reflexivity. erewrite mbnd_err by exact E. reflexivity.
Qed.
End Ill.
