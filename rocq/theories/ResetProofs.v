(** * ResetProofs: the reset graph of a model is empty *)
From Verif Require Import Base Num ModelTools ModelOps ModelTensor ModelGraph ModelLayer ModelModel.

Lemma mbnd_inv {S A B} (m : M S A) (f : A -> M S B) s r s' : mbnd m f s = (Ok r, s') -> exists a s1, m s = (Ok a, s1) /\ f a s1 = (Ok r, s').
Proof. unfold mbnd. destruct (m s) as [[a| | |] s1]; try discriminate. intros E. eauto. Qed.
Ltac inv E := let a := fresh "a" in let t := fresh "t" in let E1 := fresh "E" in apply mbnd_inv in E as (a & t & E1 & E).

Section Reset.
Context {T : Type} `{Num T}.
Context (rnd : nat -> nat -> T).

(** The models a program can have: [comes m] if [m] is new or results from
    another one by a call of a method, in any state. *)
Inductive comes : model T -> Prop :=
| comes_new : comes NewModel
| comes_inout i o : comes (FromInOut i o)
| comes_push m l s m' s' : comes m -> MPush m l s = (Ok m', s') -> comes m'
| comes_compile m s m' s' : comes m -> Compile rnd m s = (Ok m', s') -> comes m'
| comes_backward m s m' s' : comes m -> CompileBackPropagation m s = (Ok m', s') -> comes m'
| comes_predict m x s o m' s' : comes m -> Predict rnd m x s = (Ok (o, m'), s') -> comes m'
| comes_one m x y a mo s v m' s' : comes m -> TrainOne m x y a mo s = (Ok (v, m'), s') -> comes m'
| comes_train picks m xs ys e b a mo s m' s' : comes m -> Train picks m xs ys e b a mo s = (Ok m', s') -> comes m'
| comes_reset m s m' s' : comes m -> ResetIS rnd m s = (Ok m', s') -> comes m'.

Lemma LReset_state : forall fuel id s r s', LReset (T:=T) fuel id s = (Ok r, s') -> s' = s.
Proof.
  induction fuel as [|fuel IH]; intros id s r s' E; cbn [LReset] in E; [discriminate|]. inv E. unfold getL in E0.
  destruct (lays s !! id) as [l|]; [|discriminate]. injection E0 as <- <-. destruct (lpre l) as [q|]; [exact (IH _ _ _ _ E)|]. injection E as _ <-. reflexivity.
Qed.
Lemma reset_ops last s g s' : in_ctx (with_fuel (fun n => LReset (T:=T) n last)) s = (Ok g, s') -> g = MkGraph [].
Proof.
  unfold in_ctx. intros E. inv E. unfold liftT, new_ctx in E0. injection E0 as _ <-. inv E. apply LReset_state in E0 as ->.
  inv E. unfold liftT, get_ctx in E0. injection E0 as <- <-. injection E as <- _. reflexivity.
Qed.
Definition resets (m : model T) : Prop := m_ff m = None \/ m_reset m = Some (MkGraph []).
Lemma compile_resets m s m' s' : Compile rnd m s = (Ok m', s') -> m_ff m' <> None /\ m_reset m' = Some (MkGraph []).
Proof.
  unfold Compile. intros E. do 5 inv E. inv E. apply reset_ops in E5 as ->. do 5 inv E. injection E as <- _. split; [discriminate|reflexivity].
Qed.
Lemma backward_resets m s m' s' : resets m -> CompileBackPropagation m s = (Ok m', s') -> resets m'.
Proof. unfold CompileBackPropagation. intros R E. repeat (inv E). injection E as <- _. exact R. Qed.
Lemma push_resets m l s m' s' : resets m -> MPush m l s = (Ok m', s') -> resets m'.
Proof. unfold MPush. intros R E. destruct (m_first m); [inv E|]; injection E as <- _; exact R. Qed.
Lemma if_backward m s m' s' : resets m -> (match m_bp m with None => CompileBackPropagation m | Some _ => mret m end) s = (Ok m', s') -> resets m'.
Proof. intros R E. destruct (m_bp m); [injection E as <- _; exact R|exact (backward_resets _ _ _ _ R E)]. Qed.
Lemma if_compile m s m' s' : resets m -> (match m_ff m with None => Compile rnd m | Some _ => mret m end) s = (Ok m', s') -> m_reset m' = Some (MkGraph []).
Proof.
  intros R E. destruct (m_ff m) eqn:F; [injection E as <- _|exact (proj2 (compile_resets _ _ _ _ E))]. destruct R as [R|R]; [congruence|exact R].
Qed.
Theorem comes_resets m : comes m -> resets m.
Proof.
  induction 1 as [|i o|m l s m' s' _ IH E|m s m' s' _ IH E|m s m' s' _ IH E|m x s o m' s' _ IH E|m x y a mo s v m' s' _ IH E|picks m xs ys e b a mo s m' s' _ IH E|m s m' s' _ IH E].
  - left. reflexivity.
  - left. reflexivity.
  - exact (push_resets _ _ _ _ _ IH E).
  - right. exact (proj2 (compile_resets _ _ _ _ E)).
  - exact (backward_resets _ _ _ _ IH E).
  - unfold Predict in E. inv E. apply (if_compile _ _ _ _ IH) in E0. repeat (inv E). injection E as _ <- _. right. exact E0.
  - unfold TrainOne in E. inv E. apply (if_backward _ _ _ _ IH) in E0. repeat (inv E). injection E as _ <- _. exact E0.
  - unfold Train in E. destruct (negb _); [discriminate|]. inv E. apply (if_backward _ _ _ _ IH) in E0. do 2 (inv E). cbv zeta in E. do 2 (inv E). injection E as <- _. exact E0.
  - unfold ResetIS in E. inv E. apply (if_compile _ _ _ _ IH) in E0. inv E. injection E as <- _. right. exact E0.
Qed.
Lemma exec_nothing s : ExecG (T:=T) (Some (MkGraph [])) s = (Ok tt, s).
Proof. unfold ExecG, the, mlift, mbnd, liftT, ExecM. cbn. destruct s as [[] ]. reflexivity. Qed.
Theorem reset_same m s : comes m -> m_ff m <> None -> ResetIS rnd m s = (Ok m, s).
Proof.
  intros C F. destruct (comes_resets m C) as [R|R]; [contradiction|]. unfold ResetIS. destruct (m_ff m); [|contradiction]. unfold mbnd at 1. cbn [mret].
  unfold mbnd. rewrite R, exec_nothing. reflexivity.
Qed.
Theorem reset_compiles m s m' s' : m_ff m = None -> Compile rnd m s = (Ok m', s') -> ResetIS rnd m s = (Ok m', s').
Proof.
  intros F E. unfold ResetIS. rewrite F. unfold mbnd. rewrite E, (proj2 (compile_resets _ _ _ _ E)), exec_nothing. reflexivity.
Qed.
End Reset.
