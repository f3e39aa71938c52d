(** * Laws: what follows when 0 + x = x *)
From Verif Require Import Base Num Spec.

Section Laws.
Context {T : Type} `{Num T}.
Hypothesis add_0_l : forall x : T, nadd nzero x = x.

Lemma sum0_fold1 (l : list T) x : fold1 nadd l = Some x -> sum0 l = x.
Proof. destruct l as [|a l]; cbn; [discriminate|]. intros [= <-]. unfold sum0. cbn. rewrite add_0_l. reflexivity. Qed.

Lemma reduce_reduce0 o (l : list T) x : reduce o l = Some x -> reduce0 o l = Some x.
Proof.
  destruct o; cbn; intros E; try assumption.
  - rewrite (sum0_fold1 _ _ E). reflexivity.
  - destruct (fold1 nadd l) as [s|] eqn:Es; [|discriminate]. rewrite (sum0_fold1 _ _ Es). exact E.
Qed.

Lemma mapM_impl {A B} (f g : A -> option B) l r :
  (forall x y, f x = Some y -> g x = Some y) -> mapM f l = Some r -> mapM g l = Some r.
Proof.
  intros Hfg. revert r. induction l as [|x l IH]; intros r E; cbn in *; [assumption|].
  destruct (f x) as [y|] eqn:Ef; [|discriminate]. rewrite (Hfg _ _ Ef). cbn in *.
  destruct (mapM f l) as [ys|]; [|discriminate]. rewrite (IH _ eq_refl). assumption.
Qed.

Lemma tabulate_impl sh (f g : list N -> option T) v :
  (forall x y, f x = Some y -> g x = Some y) -> tabulate sh f = Some v -> tabulate sh g = Some v.
Proof.
  intros Hfg E. unfold tabulate in *. destruct (mapM f (indices sh)) as [d|] eqn:Em; [|discriminate].
  rewrite (mapM_impl _ _ _ _ Hfg Em). exact E.
Qed.

Lemma v_reduce_with0 o (v w : vten T) : v_reduce o v = Some w -> v_reduce_with reduce0 o v = Some w.
Proof.
  unfold v_reduce, v_reduce_with. destruct (reduce o (vdata v)) eqn:E; [|discriminate].
  rewrite (reduce_reduce0 _ _ _ E). tauto.
Qed.
Lemma v_dim_with0 o d (v w : vten T) : v_dim o d v = Some w -> v_dim_with reduce0 o d v = Some w.
Proof.
  unfold v_dim, v_dim_with. apply tabulate_impl. intros idx y.
  destruct (mapM _ (indices (drop (S d) (vsh v)))) as [l|]; [|discriminate]. cbn. apply reduce_reduce0.
Qed.
Lemma v_dot_with0 da db (v u w : vten T) : v_dot v u da db = Some w -> v_dot_with reduce0 v u da db = Some w.
Proof.
  unfold v_dot, v_dot_with. destruct (vsh v !! da) as [n|]; [|discriminate].
  destruct (_ && _).
  - intros E. destruct (mapM _ (upto n)) as [l|]; [|discriminate]. cbn in *.
    destruct (fold1 nadd l) eqn:Ef; [|discriminate]. rewrite (sum0_fold1 _ _ Ef). exact E.
  - apply tabulate_impl. intros idx y. destruct (mapM _ (upto n)) as [l|]; [|discriminate]. cbn.
    intros Ef. rewrite (sum0_fold1 _ _ Ef). reflexivity.
Qed.
Lemma v_soft_with0 (v w : vten T) : v_soft v = Some w -> v_soft_with reduce0 v = Some w.
Proof.
  unfold v_soft, v_soft_with. change (reduce0 RedMin) with (reduce RedMin).
  destruct (reduce RedMin (vdata v)) as [m|]; [|discriminate]. cbn [mbind option_bind].
  destruct (reduce RedSum _) as [s|] eqn:E; [|discriminate]. rewrite (reduce_reduce0 _ _ _ E). tauto.
Qed.
End Laws.
