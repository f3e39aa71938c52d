(** * DenoteDec: computing the expression of an object (used for examples) *)
From Verif Require Import Base Num ModelTools ModelOps ModelTensor ModelGraph Spec Denote IndexProofs.
From Coq Require Import Lia ZifyBool ZifyNat ZifyN.

Section Dec.
Context {T : Type} `{Num T}.

Definition validb (n : nat) (p : ptr) : bool := match p with Some l => l <? n | None => false end.
Definition wf_matb (n : nat) (m : tmat) : bool :=
  fitsb (shape m) && bool_decide (mulindex m = GetIndexMul (shape m)) &&
  (length (operands m) =? N.to_nat (prodN (shape m))) && forallb (validb n) (operands m).
Lemma wf_matb_sound n m : wf_matb n m = true -> wf_mat n m.
Proof.
  unfold wf_matb, wf_mat. rewrite !andb_true_iff. intros [[[H1 H2] H3] H4].
  split; [apply fitsb_fits; assumption|]. split; [eapply bool_decide_eq_true_1; exact H2|].
  split; [apply Nat.eqb_eq; assumption|].
  rewrite forallb_forall in H4. apply Forall_forall. intros p Hp. apply elem_of_list_In in Hp.
  specialize (H4 _ Hp). destruct p as [l|]; [|discriminate]. exists l. split; [reflexivity|]. apply Nat.ltb_lt. exact H4.
Qed.

Fixpoint unfold_expr (fuel n : nat) (tns : list (node T)) (id : nat) : option (expr T) :=
  match fuel with
  | O => None
  | S f =>
      nd ← tns !! id;
      let u (t : nat) := if t <? id then unfold_expr f n tns t else None in
      match nkind nd with
      | KMat => if wf_matb n (nmat nd) then Some (ELeaf id) else None
      | KAbs t => e ← u t; Some (EMap absv e)
      | KNeg t => e ← u t; Some (EMap nneg e)
      | KActivate t g => e ← u t; Some (EMap g e)
      | KOp2 a b o => x ← u a; y ← u b; Some (EBin (bop o) x y)
      | KOpScalar t s o =>
          match s with
          | Some l => if l <? n then e ← u t; Some (EScal (bop o) e l) else None
          | None => None
          end
      | KConcat a b d => x ← u a; y ← u b; Some (ECat x y (N.to_nat d))
      | KCopy _ _ | KFill _ _ => None
      | KDimMath t d o => e ← u t; Some (EDim (rop o) (N.to_nat d) e)
      | KDot a b None => x ← u a; y ← u b; Some (EMatMul x y)
      | KDot a b (Some (da, db)) => x ← u a; y ← u b; Some (EDot x y (N.to_nat da) (N.to_nat db))
      | KReshape t => e ← u t; Some (EReshape e (shape (nmat nd)))
      | KSoftMax t => e ← u t; Some (ESoft e)
      | KSub t d s u' false => e ← u t; Some (ESub e (N.to_nat d) s u')
      | KSub t d s u' true => e ← u t; Some (ESubX e (N.to_nat d) s u')
      | KTensorMath t o => e ← u t; Some (EReduce (rop o) e)
      | KTranspose t => e ← u t; Some (ETrans e)
      end
  end.

Lemma unfold_expr_sound fuel : forall n tns id e,
  unfold_expr fuel n tns id = Some e -> denotes n tns id e.
Proof.
  induction fuel as [|f IH]; intros n tns id e E; [discriminate|]. cbn [unfold_expr] in E.
  destruct (tns !! id) as [[k m]|] eqn:Ei; cbn [mbind option_bind nkind nmat] in E; [|discriminate].
  destruct k;
    repeat match type of E with
    | match ?x with Some _ => _ | None => _ end = Some _ => destruct x as [?|] eqn:?; try discriminate
    | (let '(_, _) := ?x in _) = Some _ => destruct x
    | (if ?g then _ else _) = Some _ => destruct g eqn:?; try discriminate
    | option_bind _ _ _ ?x = Some _ => destruct x as [?|] eqn:?; cbn [option_bind] in E; try discriminate
    | ((if ?c then ?a else None) ≫= _) = Some _ => destruct c eqn:?; cbn [mbind option_bind] in E; try discriminate
    | (?x ≫= _) = Some _ => destruct x as [?|] eqn:?; cbn [mbind option_bind] in E; try discriminate
    end; try (injection E as <-);
    repeat match goal with Hu : unfold_expr _ _ _ _ = Some _ |- _ => apply IH in Hu end;
    try (econstructor; try eassumption; lia).
  - eapply D_leaf; [exact Ei|]. apply wf_matb_sound. assumption.
  - discriminate.
  - discriminate.

Qed.
End Dec.
