(** * Agree: the eager method and the graph node compute the same tensor *)
From Verif Require Import Base Num ModelTools ModelOps ModelTensor ModelGraph Spec Denote ObjSpec Laws
  IndexProofs TensorFacts CompileProofs EagerProofs AccessProofs EagerOps EagerOps2 EagerDot.
From Coq Require Import Lia ZifyBool ZifyNat ZifyN.

Section Agree.
Context {T : Type} `{Num T}.

(** The operations that exist both as a method of *TensorMat and as a node. *)
Inductive operation : Type :=
| PAbs (p : nat) | PNeg (p : nat) | PActivate (p : nat) (f : T -> T)
| PArith (o : oper2) (p q : nat)
| PScalar (o : oper2) (p sc : nat)
| PConcat (p q : nat) (d : N)
| PReduce (o : redop) (p : nat)
| PDim (o : redop) (p : nat) (d : N)
| PDot (p q : nat) | PDotAt (p q : nat) (da db : N)
| PReshape (p : nat) (sh : list N)
| PSoftMax (p : nat)
| PSub (p : nat) (d s e : N)
| PSubX (p : nat) (d s e : N)
| PTranspose (p : nat).

Definition eager_of (o : operation) : TM T nat :=
  match o with
  | PAbs p => Mat_Abs p
  | PNeg p => Mat_Neg p
  | PActivate p f => Mat_Activate f p
  | PArith o p q => Mat_op2 o p q
  | PScalar o p sc => Mat_opScalar o p (Some sc)
  | PConcat p q d => Mat_Concat p q d
  | PReduce o p => Mat_reduce o p
  | PDim o p d => Mat_dimreduce o p d
  | PDot p q => Mat_Dot p q
  | PDotAt p q da db => Mat_DotAt p q da db
  | PReshape p sh => Mat_Reshape p sh
  | PSoftMax p => Mat_SoftMax p
  | PSub p d s e => Mat_SubTensor p d s e
  | PSubX p d s e => Mat_FOSubTensor p d s e nzero
  | PTranspose p => Mat_Transpose p
  end.

Definition graph_of (o : operation) : TM T nat :=
  match o with
  | PAbs p => NAbs p
  | PNeg p => NNeg p
  | PActivate p f => NActivate p f
  | PArith o p q => NewOp2 p q o
  | PScalar o p sc => NewOpScalar p (Some sc) o
  | PConcat p q d => NConcat p q d
  | PReduce o p => TensorMath p o
  | PDim o p d => DimMath p d o
  | PDot p q => Dot p q
  | PDotAt p q da db => DotAt p q da db
  | PReshape p sh => Reshape p sh
  | PSoftMax p => SoftMax p
  | PSub p d s e => SubTensor p d s e
  | PSubX p d s e => SubExtendedTensor p d s e
  | PTranspose p => Transpose p
  end.

Definition meaning (o : operation) : expr T :=
  match o with
  | PAbs p => EMap absv (ELeaf p)
  | PNeg p => EMap nneg (ELeaf p)
  | PActivate p f => EMap f (ELeaf p)
  | PArith o p q => EBin (bop o) (ELeaf p) (ELeaf q)
  | PScalar o p sc => EScal (bop o) (ELeaf p) sc
  | PConcat p q d => ECat (ELeaf p) (ELeaf q) (N.to_nat d)
  | PReduce o p => EReduce (rop o) (ELeaf p)
  | PDim o p d => EDim (rop o) (N.to_nat d) (ELeaf p)
  | PDot p q => EMatMul (ELeaf p) (ELeaf q)
  | PDotAt p q da db => EDot (ELeaf p) (ELeaf q) (N.to_nat da) (N.to_nat db)
  | PReshape p sh => EReshape (ELeaf p) sh
  | PSoftMax p => ESoft (ELeaf p)
  | PSub p d s e => ESub (ELeaf p) (N.to_nat d) s e
  | PSubX p d s e => ESubX (ELeaf p) (N.to_nat d) s e
  | PTranspose p => ETrans (ELeaf p)
  end.

Definition inputs (o : operation) : list nat :=
  match o with
  | PAbs p | PNeg p | PActivate p _ | PScalar _ p _ | PReduce _ p | PDim _ p _
  | PReshape p _ | PSoftMax p | PSub p _ _ _ | PSubX p _ _ _ | PTranspose p => [p]
  | PArith _ p q | PConcat p q _ | PDot p q | PDotAt p q _ _ => [p; q]
  end.

(** The parameters that are not tensors: the scalar exists; a reshape keeps the
    element count (see C14); the number of dimensions is a Go slice length. *)
Definition params_ok (s : tst T) (o : operation) : Prop :=
  match o with
  | PScalar _ _ sc => sc < length (mem s)
  | PReshape p sh => forall v, holds s p v -> prodN sh = prodN (vsh v)
  | PDot p q => forall v, holds s p v \/ holds s q v -> (N.of_nat (length (vsh v)) < W64)%N
  | _ => True
  end.

Lemma plain_leaf (s : tst T) p v m :
  holds s p v -> tens s !! p = Some (MkNode KMat m) ->
  leafsh (tens s) p = Some (vsh v) /\ leafv (tens s) (mem s) p = Some v /\ fits (vsh v) /\ p < length (tens s).
Proof.
  intros (n & Hn & Hwf & Hv) Hm. rewrite Hm in Hn. injection Hn as <-. cbn [nmat] in *.
  unfold leafsh, leafv. rewrite Hm. split.
  { unfold mval in Hv. destruct (rds (mem s) (operands m)); [|discriminate]. injection Hv as <-. reflexivity. }
  split; [exact Hv|]. split; [|eapply lookup_lt_Some; exact Hm].
  destruct Hwf as (Hf & _). unfold mval in Hv. destruct (rds _ _); [|discriminate]. injection Hv as <-. exact Hf.
Qed.

Lemma plain_denotes (s : tst T) p v m n :
  holds s p v -> tens s !! p = Some (MkNode KMat m) -> denotes (length (mem s)) (tens s ++ [n]) p (ELeaf p).
Proof.
  intros (n' & Hn & Hwf & Hv) Hm. rewrite Hm in Hn. injection Hn as <-.
  eapply D_leaf; [|exact Hwf]. rewrite lookup_app_l by (eapply lookup_lt_Some; exact Hm). exact Hm.
Qed.

Lemma returns_new_holds (s : tst T) r v : returns_new s r v -> exists c s1, r = (Ok c, s1) /\ holds s1 c v.
Proof. intros (s' & ext & ops & -> & _ & _ & _ & Hh & _). eauto. Qed.

Lemma fit_fits sh sh' : fit sh = Some sh' -> fits sh /\ sh' = sh.
Proof. unfold fit. destruct (fitsb sh) eqn:E; [|discriminate]. intros [= <-]. split; [apply fitsb_fits; exact E|reflexivity]. Qed.

Hypothesis add_0_l : forall x : T, nadd nzero x = x.

Theorem eager_side (s : tst T) o sh w :
  (forall p, p ∈ inputs o -> exists v m, holds s p v /\ tens s !! p = Some (MkNode KMat m)) ->
  params_ok s o ->
  shape_of (leafsh (tens s)) (meaning o) = Some sh -> no_crossing (leafsh (tens s)) (meaning o) ->
  eval (leafv (tens s) (mem s)) (fun x => mem s !! x) (meaning o) = Some w ->
  exists c s1, eager_of o s = (Ok c, s1) /\ holds s1 c w.
Proof.
  intros Hin Hpar Hsh Hnc Hev.
  assert (H1 : forall p, p ∈ inputs o -> exists v, holds s p v /\ leafsh (tens s) p = Some (vsh v) /\
     leafv (tens s) (mem s) p = Some v /\ fits (vsh v) /\ fit (vsh v) = Some (vsh v)).
  { intros p Hp. destruct (Hin p Hp) as (v & m & Hv & Hm). destruct (plain_leaf _ _ _ _ Hv Hm) as (Ha & Hb & Hc & _).
    exists v. repeat (split; [assumption|]). unfold fit. destruct (fitsb (vsh v)) eqn:E; [reflexivity|].
    apply fitsb_fits in Hc. congruence. }
  clear Hin.
  destruct o; cbn [inputs eager_of meaning shape_of eval no_crossing params_ok] in *;
    (destruct (H1 p ltac:(left)) as (v & Hv & Hl & Hlv & Hfv & Hfit); rewrite Hl, Hlv in *; cbn [mbind option_bind] in Hsh, Hev; rewrite Hfit in Hsh;
     cbn [mbind option_bind] in Hsh);
    try (destruct (H1 q ltac:(right; left)) as (u & Hu & Hlu & Hlvu & Hfu & Hfitu); rewrite Hlu, Hlvu in *; cbn [mbind option_bind] in Hsh, Hev; rewrite Hfitu in Hsh;
     cbn [mbind option_bind] in Hsh).
  - injection Hev as <-. eapply returns_new_holds, Mat_map_spec. exact Hv.
  - injection Hev as <-. eapply returns_new_holds, Mat_map_spec. exact Hv.
  - injection Hev as <-. eapply returns_new_holds, Mat_map_spec. exact Hv.
  - destruct (decide (vsh v = vsh u)) as [E|]; [|discriminate].
    pose proof (Mat_op2_spec s p q v u o Hv Hu E) as Hr. rewrite Hev in Hr. eapply returns_new_holds. exact Hr.
  - destruct (mem s !! sc) as [y|] eqn:Ey; [|discriminate]. cbn in Hev.
    pose proof (Mat_opScalar_spec s p v sc y o Hv Ey) as Hr. rewrite Hev in Hr. eapply returns_new_holds. exact Hr.
  - destruct (vsh v !! N.to_nat d) as [na|] eqn:Ena; [|discriminate]. cbn in Hsh.
    destruct (vsh u !! N.to_nat d) as [nb|] eqn:Enb; [|discriminate]. cbn in Hsh.
    destruct (decide _) as [E|]; [|discriminate]. apply fit_fits in Hsh as [Hf ->].
    destruct (Mat_Concat_spec s p q v u d na nb Hv Hu Ena (eq_sym E) Hf) as (w' & c & s' & Hw & _ & Hr & _ & _ & _ & _ & Hh).
    rewrite Hev in Hw. injection Hw as <-. eauto.
  - pose proof (Mat_reduce_spec s p v o Hv) as Hr. rewrite (v_reduce_with0 add_0_l _ _ _ Hev) in Hr. eapply returns_new_holds. exact Hr.
  - destruct (decide _) as [E|]; [|discriminate]. apply fit_fits in Hsh as [Hf _].
    pose proof (Mat_dimreduce_spec s p v d o Hv E Hf) as Hr. rewrite (v_dim_with0 add_0_l _ _ _ _ Hev) in Hr. eapply returns_new_holds. exact Hr.
  - assert (Hne : vsh v <> [] /\ vsh u <> []).
    { unfold dot_shape, default_db in Hsh. destruct (vsh v); [discriminate|]. destruct (vsh u); [|split; discriminate].
      destruct (_ !! _); discriminate. }
    rewrite (Mat_Dot_is_DotAt s p q v u Hv Hu (proj1 Hne) (proj2 Hne)) by (apply Hpar; auto).
    rewrite <- (Nat2N.id (length (vsh v) - 1)), <- (Nat2N.id (default_db (vsh u))) in Hsh, Hev.
    destruct (Mat_DotAt_spec s p q v u _ _ sh Hv Hu Hsh) as (w' & Hw & _ & Hr).
    rewrite (v_dot_with0 add_0_l _ _ _ _ _ Hev) in Hw. injection Hw as <-. eapply returns_new_holds. exact Hr.
  - destruct (Mat_DotAt_spec s p q v u _ _ sh Hv Hu Hsh) as (w' & Hw & _ & Hr).
    rewrite (v_dot_with0 add_0_l _ _ _ _ _ Hev) in Hw. injection Hw as <-. eapply returns_new_holds. exact Hr.
  - apply fit_fits in Hsh as [Hf ->]. injection Hev as <-. specialize (Hpar _ Hv).
    destruct (holds_exists _ _ _ Hv) as [n Hn]. destruct (holds_data _ _ _ _ Hv Hn) as (_ & _ & _ & _ & Hlen & _).
    replace (v_reshape v sh0) with (V sh0 (vdata v)).
    + eapply returns_new_holds, Mat_Reshape_same; eassumption.
    + unfold v_reshape. rewrite Hpar, <- Hlen, Nat.sub_diag, take_ge, app_nil_r by lia. reflexivity.
  - pose proof (Mat_SoftMax_spec s p v Hv) as Hr. rewrite (v_soft_with0 add_0_l _ _ Hev) in Hr. eapply returns_new_holds. exact Hr.
  - destruct (vsh v !! N.to_nat d) as [mx|] eqn:Emx; [|discriminate]. cbn in Hsh.
    destruct ((s0 <? e) && (e <=? mx))%N eqn:E; [|discriminate].
    destruct (Mat_SubTensor_spec s p v d s0 e mx Hv Emx ltac:(lia)) as (w' & Hw & Hr).
    rewrite Hev in Hw. injection Hw as <-. eapply returns_new_holds. exact Hr.
  - destruct (vsh v !! N.to_nat d) as [mx|] eqn:Emx; [|discriminate]. cbn in Hsh.
    destruct ((s0 <? e) && (e <? W64))%N eqn:E; [|discriminate]. apply fit_fits in Hsh as [Hf ->].
    destruct Hnc as [_ Hnc]. cbn [shape_of] in Hnc. cbn [mbind option_bind] in Hnc. 
    specialize (Hnc _ _ Hfit Emx).
    destruct (Mat_FOSubTensor_spec s p v d s0 e mx nzero Hv Emx ltac:(lia) Hnc Hf) as (w' & Hw & Hr).
    unfold v_subx in Hev. rewrite Hev in Hw. injection Hw as <-. eapply returns_new_holds. exact Hr.
  - destruct (Mat_Transpose_spec s p v Hv) as (w' & Hw & Hr). rewrite Hev in Hw. injection Hw as <-.
    eapply returns_new_holds. exact Hr.
Qed.
End Agree.
Arguments operation T : clear implicits.

Section AgreeGraph.
Context {T : Type} `{Num T}.

Lemma graph_of_state (s : tst T) o :
  exists k m, graph_of o s = (Ok (length (tens s)), MkSt (mem s) (tens s ++ [MkNode k m]) (ctx s)) /\
    builded m = false /\ k <> KMat.
Proof. destruct o; cbn; eexists _, _; (split; [reflexivity|]); split; try reflexivity; discriminate. Qed.

Lemma graph_denotes (s s1 : tst T) id o :
  (forall p, p ∈ inputs o -> exists v m, holds s p v /\ tens s !! p = Some (MkNode KMat m)) ->
  params_ok s o -> graph_of o s = (Ok id, s1) ->
  denotes (length (mem s1)) (tens s1) id (meaning o).
Proof.
  intros Hin Hpar Hg.
  assert (H1 : forall p n, p ∈ inputs o -> denotes (length (mem s)) (tens s ++ [n]) p (ELeaf p) /\ p < length (tens s)).
  { intros p n Hp. destruct (Hin p Hp) as (v & m & Hv & Hm). split; [eapply plain_denotes; eassumption|].
    eapply lookup_lt_Some. exact Hm. }
  assert (Hlast : forall n : node T, (tens s ++ [n]) !! length (tens s) = Some n).
  { intros n. rewrite lookup_app_r by lia. replace (length (tens s) - length (tens s)) with 0 by lia. reflexivity. }
  destruct o; cbn in Hg; injection Hg as <- <-; cbn [mem tens meaning inputs params_ok] in *;
    match goal with
    | |- denotes _ (_ ++ [?n]) _ _ =>
      try (destruct (H1 p n ltac:(left)) as [Hd1 Hlt1]); try (destruct (H1 q n ltac:(right; left)) as [Hd2 Hlt2]);
      pose proof (Hlast n) as Hl
    end.
  - eapply D_abs; eassumption.
  - eapply D_neg; eassumption.
  - eapply D_activate; eassumption.
  - eapply D_op2; eassumption.
  - eapply D_opscalar; eassumption.
  - eapply D_concat; eassumption.
  - eapply D_tensormath; eassumption.
  - eapply D_dimmath; eassumption.
  - eapply D_dot; eassumption.
  - eapply D_dotat; eassumption.
  - change sh with (shape (MkMat sh [] [] false)) at 2. eapply D_reshape; eassumption.
  - eapply D_softmax; eassumption.
  - eapply D_sub; eassumption.
  - eapply D_subx; eassumption.
  - eapply D_transpose; eassumption.
Qed.

Lemma leafsh_new (s : tst T) k m : k <> KMat -> forall j, leafsh (tens s ++ [MkNode k m]) j = leafsh (tens s) j.
Proof.
  intros Hk j. unfold leafsh. destruct (decide (j < length (tens s))) as [Hj|Hj].
  - rewrite lookup_app_l by assumption. reflexivity.
  - rewrite (lookup_ge_None_2 (tens s)) by lia. destruct (_ !! j) as [[k' m']|] eqn:E; [|reflexivity].
    rewrite lookup_app_r in E by lia. destruct (j - length (tens s)); [|discriminate]. injection E as <- <-.
    destruct k; congruence.
Qed.
Lemma leafv_new (s : tst T) mm k m : k <> KMat -> forall j, leafv (tens s ++ [MkNode k m]) mm j = leafv (tens s) mm j.
Proof.
  intros Hk j. unfold leafv. destruct (decide (j < length (tens s))) as [Hj|Hj].
  - rewrite lookup_app_l by assumption. reflexivity.
  - rewrite (lookup_ge_None_2 (tens s)) by lia. destruct (_ !! j) as [[k' m']|] eqn:E; [|reflexivity].
    rewrite lookup_app_r in E by lia. destruct (j - length (tens s)); [|discriminate]. injection E as <- <-.
    destruct k; congruence.
Qed.

Lemma shape_of_ext f g (e : expr T) : (forall j, f j = g j) -> shape_of f e = shape_of g e.
Proof. intros E. induction e; cbn; rewrite ?E, ?IHe, ?IHe1, ?IHe2; reflexivity. Qed.
Lemma eval_ext f g h (e : expr T) : (forall j, f j = g j) -> eval f h e = eval g h e.
Proof. intros E. induction e; cbn; rewrite ?E, ?IHe, ?IHe1, ?IHe2; reflexivity. Qed.
Lemma no_crossing_ext f g (e : expr T) : (forall j, f j = g j) -> no_crossing f e -> no_crossing g e.
Proof.
  intros E. induction e; cbn; try tauto.
  intros [Ha Hb]. split; [auto|]. intros sh m Hs. apply Hb. rewrite (shape_of_ext _ _ _ E). exact Hs.
Qed.

Theorem graph_side (s : tst T) o sh w :
  (forall p, p ∈ inputs o -> exists v m, holds s p v /\ tens s !! p = Some (MkNode KMat m)) ->
  params_ok s o ->
  shape_of (leafsh (tens s)) (meaning o) = Some sh -> no_crossing (leafsh (tens s)) (meaning o) ->
  eval (leafv (tens s) (mem s)) (fun x => mem s !! x) (meaning o) = Some w ->
  exists id s1 g s2 s3 n, graph_of o s = (Ok id, s1) /\ NewGraph id s1 = (Ok g, s2) /\ ExecM g s2 = (Ok tt, s3) /\
    GetData id s3 = (Ok (vdata w), s3) /\ tens s3 !! id = Some n /\ shape (nmat n) = vsh w /\ sh = vsh w.
Proof.
  intros Hin Hpar Hsh Hnc Hev.
  destruct (graph_of_state s o) as (k & m & Hg & Hb & Hk).
  exists (length (tens s)), (MkSt (mem s) (tens s ++ [MkNode k m]) (ctx s)).
  pose proof (graph_denotes _ _ _ _ Hin Hpar Hg) as Hd.
  rewrite <- (shape_of_ext _ _ _ (leafsh_new s k m Hk)) in Hsh.
  rewrite <- (eval_ext _ _ _ _ (leafv_new s (mem s) k m Hk)) in Hev.
  apply (no_crossing_ext _ _ _ (fun j => eq_sym (leafsh_new s k m Hk j))) in Hnc.
  assert (Hun : uncompiled (tens s ++ [MkNode k m]) (length (tens s))).
  { intros j n Hbl Hn Hlf.
    assert (Hj : j = length (tens s)).
    { inversion Hbl as [|? n0 c ? Hn0 Hc Hbl']; subst; [reflexivity|]. exfalso.
      rewrite lookup_app_r in Hn0 by lia. replace (length (tens s) - length (tens s)) with 0 in Hn0 by lia. injection Hn0 as <-.
      assert (Hck : c ∈ inputs o).
      { destruct o; cbn in Hg; injection Hg as E1; apply app_inj_tail in E1 as [_ E1]; injection E1 as <- <-; exact Hc. }
      destruct (Hin c Hck) as (v & mc & _ & Hmc).
      assert (Hmc' : (tens s ++ [MkNode k m]) !! c = Some (MkNode KMat mc)).
      { rewrite lookup_app_l by (eapply lookup_lt_Some; exact Hmc). exact Hmc. }
      inversion Hbl' as [|? n1 c' ? Hn1 Hc' _]; subst.
      - rewrite Hmc' in Hn. injection Hn as <-. discriminate.
      - rewrite Hmc' in Hn1. injection Hn1 as <-. inversion Hc'. }
    subst j. rewrite lookup_app_r in Hn by lia. replace (length (tens s) - length (tens s)) with 0 in Hn by lia.
    injection Hn as <-. exact Hb. }
  destruct (compile_and_run (MkSt (mem s) (tens s ++ [MkNode k m]) (ctx s)) _ _ _ Hd Hun Hsh Hnc) as (g & s2 & Hng & Hres).
  cbn [mem tens] in Hres. rewrite Hev in Hres. destruct Hres as (s3 & n & Hx & Hgd & Hn & Hs1 & Hs2 & _).
  exists g, s2, s3, n. repeat (split; [first [assumption|congruence]|]). congruence.
Qed.
End AgreeGraph.
