(** * AgainProofs: what compiling a model again does *)
From Verif Require Import Base Num ModelTools ModelOps ModelTensor ModelGraph ModelLayer ModelModel Spec Denote ObjSpec TensorFacts AccessProofs FitProofs IOProofs.
From Coq Require Import Lia.

Lemma mbnd_inv {S A B} (m : M S A) (f : A -> M S B) s r s' : mbnd m f s = (Ok r, s') -> exists a s1, m s = (Ok a, s1) /\ f a s1 = (Ok r, s').
Proof. unfold mbnd. destruct (m s) as [[a| | |] s1]; try discriminate. intros E. eauto. Qed.

Section Again.
Context {T : Type} `{Num T}.
Context (rnd : nat -> nat -> T).

(** Layer [l] has its feed-forward ([BFF]) or backward ([BBP]) operations. *)
Definition marked (f : bfield) (s : lst T) (l : nat) : Prop := exists L, lays s !! l = Some L /\ lflag L f = true.
(** [c] takes no mark away. *)
Definition keeps {A} (c : LM T A) : Prop := forall f s r s' l, c s = (r, s') -> marked f s l -> marked f s' l.

Lemma keeps_ret {A} (a : A) : keeps (mret a).
Proof. intros f s r s' l [= _ <-]. auto. Qed.
Lemma keeps_lift {A} (a : res A) : keeps (mlift a).
Proof. intros f s r s' l [= _ <-]. auto. Qed.
Lemma keeps_fail {A} e : keeps (mfail e : LM T A).
Proof. intros f s r s' l [= _ <-]. auto. Qed.
Lemma keeps_panic {A} : keeps (mpanic : LM T A).
Proof. intros f s r s' l [= _ <-]. auto. Qed.
Lemma keeps_diverge {A} : keeps (mdiverge : LM T A).
Proof. intros f s r s' l [= _ <-]. auto. Qed.
Lemma keeps_bind {A B} (c : LM T A) (k : A -> LM T B) : keeps c -> (forall a, keeps (k a)) -> keeps (mbnd c k).
Proof.
  intros Hc Hk f s r s' l. unfold mbnd. destruct (c s) as [rc s1] eqn:E. intros E2 Hm. pose proof (Hc _ _ _ _ _ E Hm) as H1.
  destruct rc; [exact (Hk _ _ _ _ _ _ E2 H1)|..]; injection E2 as _ <-; exact H1.
Qed.
Lemma keeps_T {A} (c : TM T A) : keeps (liftT c).
Proof. intros f s r s' l. unfold liftT. destruct (c (ts s)). intros [= _ <-]. auto. Qed.
Lemma keeps_getL id : keeps (getL (T:=T) id).
Proof. intros f s r s' l. unfold getL. destruct (lays s !! id); intros [= _ <-]; auto. Qed.
Lemma keeps_updL id (f : layer T -> layer T) : (forall L g, lflag L g = true -> lflag (f L) g = true) -> keeps (updL id f).
Proof.
  intros Hf g s r s' l. unfold updL. destruct (lays s !! id) as [L|] eqn:E; intros [= _ <-]; [|auto]. intros (L1 & E1 & F1). unfold marked. cbn [lays].
  destruct (decide (id = l)) as [->|Hne].
  - exists (f L). split; [apply list_lookup_insert; eapply lookup_lt_Some; exact E|]. apply Hf. congruence.
  - exists L1. rewrite list_lookup_insert_ne by exact Hne. auto.
Qed.
Lemma keeps_rand sh : keeps (newRandT rnd sh).
Proof. intros f s r s' l. unfold newRandT. destruct (NewRandom (rnd (rc s)) sh (ts s)). intros [= _ <-]. auto. Qed.
Lemma keeps_fuel {A} (c : nat -> LM T A) : (forall n, keeps (c n)) -> keeps (with_fuel c).
Proof. intros Hc f s r s' l. apply Hc. Qed.
Lemma keeps_GetT : forall fuel f id, keeps (GetT (T:=T) fuel f id).
Proof.
  induction fuel as [|fuel IH]; intros f id; cbn [GetT]; [apply keeps_diverge|]. apply keeps_bind; [apply keeps_getL|]. intros l.
  destruct (lkind_of l); try apply keeps_ret. destruct (lpre l); [apply IH|apply keeps_ret].
Qed.
Ltac kstep := intros; lazymatch goal with
  | |- keeps (mbnd _ _) => apply keeps_bind
  | |- keeps (mret _) => apply keeps_ret
  | |- keeps (mfail _) => apply keeps_fail
  | |- keeps mpanic => apply keeps_panic
  | |- keeps mdiverge => apply keeps_diverge
  | |- keeps (mlift _) => apply keeps_lift
  | |- keeps (liftT _) => apply keeps_T
  | |- keeps (getL _) => apply keeps_getL
  | |- keeps (newRandT _ _) => apply keeps_rand
  | |- keeps (with_fuel _) => apply keeps_fuel
  | |- keeps (GetT _ _ _) => apply keeps_GetT
  | |- keeps (updL _ _) => apply keeps_updL; intros ? []; cbn; auto
  | |- keeps (if ?x then _ else _) => destruct x
  | |- keeps (match ?x with _ => _ end) => destruct x
  end.
Ltac kp := repeat kstep; intros.
Lemma keeps_the {A} (o : option A) : keeps (the (T:=T) o).
Proof. apply keeps_lift. Qed.
Lemma keeps_shapeT t : keeps (shapeT (T:=T) t).
Proof. unfold shapeT. kp. Qed.
Lemma keeps_GetRef id : keeps (GetRef (T:=T) id).
Proof. unfold GetRef. kp. Qed.
Lemma keeps_out id : keeps (GetOutputs (T:=T) id).
Proof. unfold GetOutputs. kp. Qed.
Lemma keeps_in id : keeps (GetInputs (T:=T) id).
Proof. unfold GetInputs. kp. Qed.
Lemma keeps_dif id : keeps (GetDif (T:=T) id).
Proof. unfold GetDif. kp. Qed.
Lemma keeps_udiv a b : keeps (udiv a b).
Proof. unfold udiv. kp. Qed.
Lemma keeps_setF id f t : keeps (setF (T:=T) id f t).
Proof. unfold setF. kp. Qed.
Ltac kq_step := intros; lazymatch goal with
  | |- keeps (the _) => apply keeps_the
  | |- keeps (shapeT _) => apply keeps_shapeT
  | |- keeps (GetRef _) => apply keeps_GetRef
  | |- keeps (GetOutputs _) => apply keeps_out
  | |- keeps (GetInputs _) => apply keeps_in
  | |- keeps (GetDif _) => apply keeps_dif
  | |- keeps (udiv _ _) => apply keeps_udiv
  | |- keeps (setF _ _ _) => apply keeps_setF
  | _ => kstep
  end.
Ltac kq := repeat kq_step; intros.
Lemma keeps_ff_body id : keeps (ff_body rnd id).
Proof. unfold ff_body. kq. Qed.
Lemma keeps_check f id : keeps (CheckOnce (T:=T) f id).
Proof. unfold CheckOnce. kq; destruct f; auto. Qed.
(** The feed-forward part of a layer that was not marked. *)
Definition ff_rest (fuel id : nat) : LM T unit :=
  l <~ getL id ;
  match lkind_of l with
  | LInput =>
      match lpre l with
      | Some q => LBuildFF rnd fuel q
      | None =>
          updL id (set_ten FNeta (lten l FInput)) ;~
          updL id (set_ten FOutput (lten l FInput)) ;~
          out <~ the (lten l FInput) ;
          sh <~ shapeT out ;
          dif <~ liftT (NewZeros sh) ; setF id FDif dif
      end
  | LConcat l1 l2 _ =>
      a <~ the l1 ; LBuildFF rnd fuel a ;~
      b <~ the l2 ; LBuildFF rnd fuel b ;~
      ff_body rnd id
  | _ =>
      match lpre l with
      | Some q => LBuildFF rnd fuel q ;~ o <~ GetOutputs q ; updL id (set_ten FInput o)
      | None => mret tt
      end ;~
      ff_body rnd id
  end.
Lemma LBuildFF_eq fuel id : LBuildFF rnd (S fuel) id = (done <~ CheckOnce BFF id ; if (done : bool) then mret tt else ff_rest fuel id).
Proof. reflexivity. Qed.
Lemma keeps_LBuildFF : forall fuel id, keeps (LBuildFF rnd fuel id) /\ keeps (ff_rest fuel id).
Proof.
  induction fuel as [|fuel IH]; intros id.
  - assert (H0 : forall i, keeps (LBuildFF rnd 0 i)) by (intros i; apply keeps_diverge). split; [apply H0|]. unfold ff_rest. apply keeps_bind; [apply keeps_getL|]. intros l.
    destruct (lkind_of l); kq; try apply keeps_ff_body; try apply H0.
  - assert (HF : forall i, keeps (LBuildFF rnd (S fuel) i)).
    { intros i. rewrite LBuildFF_eq. apply keeps_bind; [apply keeps_check|]. intros [|]; [apply keeps_ret|]. apply IH. }
    split; [apply HF|]. unfold ff_rest. apply keeps_bind; [apply keeps_getL|]. intros l. destruct (lkind_of l); kq; try apply keeps_ff_body; try apply HF.
Qed.
Lemma keeps_LReset : forall fuel id, keeps (LReset (T:=T) fuel id).
Proof. induction fuel as [|fuel IH]; intros id; cbn [LReset]; [apply keeps_diverge|]. kq; apply IH. Qed.
Lemma keeps_CheckB id : keeps (CheckB (T:=T) id).
Proof. unfold CheckB. kq. Qed.
Lemma keeps_LBuild : forall fuel id, keeps (LBuild (T:=T) fuel id).
Proof.
  induction fuel as [|fuel IH]; intros id; cbn [LBuild]; [apply keeps_diverge|]. apply keeps_bind; [apply keeps_CheckB|]. intros [|]; [apply keeps_ret|].
  apply keeps_bind; [apply keeps_getL|]. intros l. destruct (lkind_of l); kq; apply IH.
Qed.
Lemma keeps_in_ctx c : keeps c -> keeps (in_ctx c).
Proof. intros Hc. unfold in_ctx. kq; exact Hc. Qed.
Lemma keeps_Compile m : keeps (Compile rnd m).
Proof. unfold Compile. kq; try (apply keeps_in_ctx; kq). 1: apply keeps_LBuild. 1: apply keeps_LBuildFF. apply keeps_LReset. Qed.
Lemma keeps_ExecG g : keeps (ExecG (T:=T) g).
Proof. unfold ExecG. kq. Qed.
Lemma keeps_Predict m x : keeps (Predict rnd m x).
Proof. unfold Predict. kq; [apply keeps_Compile|apply keeps_ExecG]. Qed.
Lemma keeps_push m i : keeps (MPush (T:=T) m i).
Proof. unfold MPush, Connect. kq. Qed.

Lemma keeps_for {A} (f : A -> LM T unit) (l : list A) : (forall a, keeps (f a)) -> keeps (mfor l f).
Proof. intros Hf. induction l as [|a l IH]; cbn [mfor]; [apply keeps_ret|]. apply keeps_bind; [apply Hf|]. intros []. exact IH. Qed.
Lemma keeps_ignore (c : LM T unit) : keeps c -> keeps (ignore_err c).
Proof. intros Hc f s r s' l. unfold ignore_err. destruct (c s) as [rc s1] eqn:E. intros E2 Hm. pose proof (Hc _ _ _ _ _ E Hm) as H1. destruct rc; injection E2 as _ <-; exact H1. Qed.
Lemma keeps_LBuildDer : forall fuel id, keeps (LBuildDer (T:=T) fuel id).
Proof.
  induction fuel as [|fuel IH]; intros id; cbn [LBuildDer]; [apply keeps_diverge|]. apply keeps_bind; [apply keeps_getL|]. intros l.
  destruct (lkind_of l); kq; apply IH.
Qed.
Lemma keeps_shared (l : layer T) : keeps (shared_dif l).
Proof. unfold shared_dif. kq. Qed.
Lemma keeps_kernel id a b c d al mo : keeps (kernel_bias_bp (T:=T) id a b c d al mo).
Proof. unfold kernel_bias_bp. kq. Qed.
Lemma keeps_bp_body n id al mo : keeps (bp_body (T:=T) n id al mo).
Proof. unfold bp_body. kq; first [apply keeps_LBuildDer|apply keeps_shared|apply keeps_kernel]. Qed.
(** The backward part of a layer that was not marked. *)
Definition bp_rest (fuel id : nat) (alpha momentum : ptr) : LM T unit :=
  bp_body fuel id alpha momentum ;~
  l <~ getL id ;
  match lkind_of l with
  | LConcat l1 l2 _ => a <~ the l1 ; LBuildBP fuel a alpha momentum ;~ b <~ the l2 ; LBuildBP fuel b alpha momentum
  | _ => mret tt
  end ;~
  match lpre l with Some q => LBuildBP fuel q alpha momentum | None => mret tt end.
Lemma LBuildBP_eq fuel id al mo : LBuildBP (T:=T) (S fuel) id al mo = (done <~ CheckOnce BBP id ; if (done : bool) then mret tt else bp_rest fuel id al mo).
Proof. reflexivity. Qed.
Lemma keeps_LBuildBP al mo : forall fuel id, keeps (LBuildBP (T:=T) fuel id al mo) /\ keeps (bp_rest fuel id al mo).
Proof.
  assert (HR : forall fuel, (forall i, keeps (LBuildBP (T:=T) fuel i al mo)) -> forall id, keeps (bp_rest fuel id al mo)).
  { intros fuel HF id. unfold bp_rest. kq; first [apply keeps_bp_body|apply HF]. }
  induction fuel as [|fuel IH]; intros id.
  - split; [apply keeps_diverge|]. apply HR. intros i. apply keeps_diverge.
  - assert (HF : forall i, keeps (LBuildBP (T:=T) (S fuel) i al mo)).
    { intros i. rewrite LBuildBP_eq. apply keeps_bind; [apply keeps_check|]. intros [|]; [apply keeps_ret|]. apply IH. }
    split; [apply HF|apply HR, HF].
Qed.
Lemma keeps_LResetFit : forall fuel id, keeps (LResetFit (T:=T) fuel id).
Proof. induction fuel as [|fuel IH]; intros id; cbn [LResetFit]; [apply keeps_diverge|]. kq; apply IH. Qed.
Lemma keeps_LFit : forall fuel id, keeps (LFit (T:=T) fuel id).
Proof. induction fuel as [|fuel IH]; intros id; cbn [LFit]; [apply keeps_diverge|]. kq; apply keeps_ignore, IH. Qed.
Lemma keeps_CompileBP m : keeps (CompileBackPropagation (T:=T) m).
Proof. unfold CompileBackPropagation. kq; apply keeps_in_ctx; kq; [apply keeps_LBuildBP|apply keeps_LResetFit]. Qed.
Lemma keeps_ExecFit m x y : keeps (ExecFit (T:=T) m x y).
Proof. unfold ExecFit. kq; first [apply keeps_ExecG|apply keeps_LFit]. Qed.
Lemma keeps_TrainOne m x y a mo : keeps (TrainOne (T:=T) m x y a mo).
Proof. unfold TrainOne. kq; first [apply keeps_CompileBP|apply keeps_ExecFit]. Qed.
Lemma keeps_Train picks m xs ys e b a mo : keeps (Train (T:=T) picks m xs ys e b a mo).
Proof. unfold Train. kq; try apply keeps_CompileBP. repeat (apply keeps_for; intros; kq). all: try apply keeps_ExecFit. Qed.

(** ** One layer *)
Lemma LBuildFF_skip fuel id s : marked BFF s id -> LBuildFF rnd (S fuel) id s = (Ok tt, s).
Proof.
  intros (L & HL & HF). cbn [LBuildFF]. unfold CheckOnce. rewrite (mbnd_ok _ _ _ true s); [reflexivity|]. unfold getL. unfold mbnd. rewrite HL, HF. reflexivity.
Qed.
(** Either nothing is done or the layer is marked. *)
Lemma LBuildFF_marks fuel id s s' : LBuildFF rnd fuel id s = (Ok tt, s') -> ts s' = ts s \/ marked BFF s' id.
Proof.
  destruct fuel as [|fuel]; [discriminate|]. cbn [LBuildFF]. intros E. apply mbnd_inv in E as (b & s1 & E1 & E2).
  unfold CheckOnce in E1. apply mbnd_inv in E1 as (L & s0 & E0 & E1). unfold getL in E0. destruct (lays s !! id) as [L0|] eqn:HL; [|discriminate]. injection E0 as <- <-.
  destruct (lflag L0 BFF) eqn:HF. { injection E1 as <- <-. injection E2 as <-. left. reflexivity. }
  apply mbnd_inv in E1 as (v & s2 & E3 & E1). unfold liftT in E3. destruct (rdM (lref L0) (ts s)) as [rv tv] eqn:Er. injection E3 as -> <-.
  assert (tv = ts s) as ->. { unfold rdM in Er. destruct (rd (mem (ts s)) (lref L0)); injection Er; auto. }
  destruct (neqb v nzero). { injection E1 as <- <-. injection E2 as <-. left. reflexivity. }
  apply mbnd_inv in E1 as ([] & s3 & E4 & E1). injection E1 as <- <-. right.
  assert (Hm : marked BFF s3 id).
  { unfold updL in E4. cbn [lays] in E4. rewrite HL in E4. injection E4 as <-. eexists. cbn [lays]. split; [apply list_lookup_insert; eapply lookup_lt_Some; exact HL|reflexivity]. }
  exact (proj2 (keeps_LBuildFF fuel id) BFF _ _ _ _ E2 Hm).
Qed.

(** ** Compile *)
Lemma in_ctx_inv (c : LM T unit) s g s' : in_ctx c s = (Ok g, s') ->
  exists s1, c (MkL (MkSt (mem (ts s)) (tens (ts s)) []) (lays s) (rc s)) = (Ok tt, s1) /\ g = MkGraph (ctx (ts s1)) /\ s' = s1.
Proof.
  unfold in_ctx. intros E. apply mbnd_inv in E as ([] & s1 & E1 & E). injection E1 as <-. apply mbnd_inv in E as ([] & s2 & E2 & E).
  apply mbnd_inv in E as (ops & s3 & E3 & E). injection E3 as <- <-. injection E as <- <-. exists s2. split; [exact E2|]. split; [reflexivity|]. destruct s2; reflexivity.
Qed.
Theorem compile_marks m s m1 s1 g : Compile rnd m s = (Ok m1, s1) -> m_ff m1 = Some g -> g_ops g <> [] -> exists l, m_last m1 = Some l /\ marked BFF s1 l.
Proof.
  unfold Compile. intros E Hg Hne. apply mbnd_inv in E as (l & a0 & E0 & E). unfold the in E0. destruct (m_last m) as [l0|] eqn:Hl; [|discriminate]. injection E0 as -> <-.
  apply mbnd_inv in E as (r & a1 & _ & E). apply mbnd_inv in E as ([] & a2 & _ & E). apply mbnd_inv in E as ([] & a3 & _ & E).
  apply mbnd_inv in E as (ff & a4 & EF & E).
  assert (K : forall (c : LM T (model T)), keeps c -> c a4 = (Ok m1, s1) -> m_last m1 = Some l /\ m_ff m1 = Some ff -> exists l, m_last m1 = Some l /\ marked BFF s1 l).
  { intros c Hc Ec [Hm1 Hm2]. exists l. split; [exact Hm1|]. eapply Hc; [exact Ec|]. apply in_ctx_inv in EF as (b & EF & -> & ->). unfold with_fuel in EF.
    apply LBuildFF_marks in EF as [EF|EF]; [|exact EF]. exfalso. apply Hne. rewrite Hg in Hm2. injection Hm2 as ->. cbn [g_ops]. rewrite EF. reflexivity. }
  eapply K; [|exact E|]; [kq; apply keeps_in_ctx; kq; apply keeps_LReset|].
  apply mbnd_inv in E as (? & ? & _ & E). apply mbnd_inv in E as (? & ? & _ & E). apply mbnd_inv in E as (? & ? & _ & E). apply mbnd_inv in E as (? & ? & _ & E).
  apply mbnd_inv in E as (? & ? & _ & E). apply mbnd_inv in E as (? & ? & _ & E). injection E as <- _. split; reflexivity.
Qed.
Theorem compile_again m l s m1 s1 : m_last m = Some l -> marked BFF s l -> Compile rnd m s = (Ok m1, s1) -> m_ff m1 = Some (MkGraph []).
Proof.
  unfold Compile. intros Hl Hm E. rewrite Hl in E. apply mbnd_inv in E as (l0 & a0 & E0 & E). injection E0 as <- <-.
  apply mbnd_inv in E as (r & a1 & E1 & E). apply mbnd_inv in E as ([] & a2 & E2 & E). apply mbnd_inv in E as ([] & a3 & E3 & E).
  assert (H3 : marked BFF a3 l). { eapply (keeps_fuel _ (fun n => keeps_LBuild n l)); [exact E3|]. eapply keeps_T; [exact E2|]. eapply keeps_GetRef; [exact E1|exact Hm]. }
  apply mbnd_inv in E as (ff & a4 & EF & E). apply in_ctx_inv in EF as (b & EF & -> & ->). unfold with_fuel in EF. rewrite LBuildFF_skip in EF by exact H3. injection EF as <-.
  apply mbnd_inv in E as (? & ? & _ & E). apply mbnd_inv in E as (? & ? & _ & E). apply mbnd_inv in E as (? & ? & _ & E). apply mbnd_inv in E as (? & ? & _ & E).
  apply mbnd_inv in E as (? & ? & _ & E). apply mbnd_inv in E as (? & ? & _ & E). injection E as <- _. reflexivity.
Qed.

(** ** CompileBackPropagation *)
Lemma LBuildBP_skip fuel id al mo s : marked BBP s id -> LBuildBP (S fuel) id al mo s = (Ok tt, s).
Proof.
  intros (L & HL & HF). rewrite LBuildBP_eq. unfold CheckOnce. rewrite (mbnd_ok _ _ _ true s); [reflexivity|]. unfold getL. unfold mbnd. rewrite HL, HF. reflexivity.
Qed.
Lemma LBuildBP_marks fuel id al mo s s' : LBuildBP fuel id al mo s = (Ok tt, s') -> ts s' = ts s \/ marked BBP s' id.
Proof.
  destruct fuel as [|fuel]; [discriminate|]. rewrite LBuildBP_eq. intros E. apply mbnd_inv in E as (b & s1 & E1 & E2).
  unfold CheckOnce in E1. apply mbnd_inv in E1 as (L & s0 & E0 & E1). unfold getL in E0. destruct (lays s !! id) as [L0|] eqn:HL; [|discriminate]. injection E0 as <- <-.
  destruct (lflag L0 BBP) eqn:HF. { injection E1 as <- <-. injection E2 as <-. left. reflexivity. }
  apply mbnd_inv in E1 as (v & s2 & E3 & E1). unfold liftT in E3. destruct (rdM (lref L0) (ts s)) as [rv tv] eqn:Er. injection E3 as -> <-.
  assert (tv = ts s) as ->. { unfold rdM in Er. destruct (rd (mem (ts s)) (lref L0)); injection Er; auto. }
  destruct (neqb v nzero). { injection E1 as <- <-. injection E2 as <-. left. reflexivity. }
  apply mbnd_inv in E1 as ([] & s3 & E4 & E1). injection E1 as <- <-. right.
  assert (Hm : marked BBP s3 id).
  { unfold updL in E4. cbn [lays] in E4. rewrite HL in E4. injection E4 as <-. eexists. cbn [lays]. split; [apply list_lookup_insert; eapply lookup_lt_Some; exact HL|reflexivity]. }
  exact (proj2 (keeps_LBuildBP al mo fuel id) BBP _ _ _ _ E2 Hm).
Qed.
Theorem backward_marks m s m1 s1 g : CompileBackPropagation m s = (Ok m1, s1) -> m_bp m1 = Some g -> g_ops g <> [] -> exists l, m_last m1 = Some l /\ marked BBP s1 l.
Proof.
  unfold CompileBackPropagation. intros E Hg Hne. apply mbnd_inv in E as (l & a0 & E0 & E). unfold the in E0. destruct (m_last m) as [l0|] eqn:Hl; [|discriminate]. injection E0 as -> <-.
  do 12 (let a := fresh in let b := fresh in apply mbnd_inv in E as (a & b & _ & E)). apply mbnd_inv in E as (alpha & b1 & _ & E).
  apply mbnd_inv in E as (bp & a4 & EF & E). apply mbnd_inv in E as (rf & a5 & ER & E). injection E as <- <-. cbn [m_bp m_last] in *. injection Hg as ->. exists l. split; [reflexivity|].
  eapply (keeps_in_ctx _ (keeps_fuel _ (fun n => keeps_LResetFit n l))); [exact ER|].
  apply in_ctx_inv in EF as (b & EF & -> & ->). unfold with_fuel in EF. apply LBuildBP_marks in EF as [EF|EF]; [|exact EF]. exfalso. apply Hne. cbn [g_ops]. rewrite EF. reflexivity.
Qed.
Theorem backward_again m l s m1 s1 : m_last m = Some l -> marked BBP s l -> CompileBackPropagation m s = (Ok m1, s1) -> m_bp m1 = Some (MkGraph []).
Proof.
  unfold CompileBackPropagation. intros Hl Hm E. rewrite Hl in E. apply mbnd_inv in E as (l0 & a0 & E0 & E). injection E0 as <- <-.
  repeat (lazymatch type of E with (mbnd (in_ctx _) _) _ = _ => fail | _ => idtac end;
    let a := fresh "a" in let b := fresh "b" in let X := fresh "X" in apply mbnd_inv in E as (a & b & X & E);
    lazymatch goal with Hm : marked BBP ?u l |- _ => assert (marked BBP b l) by (refine (_ X Hm); match goal with |- ?c u = _ -> _ => let K := fresh in assert (K : keeps c) by (clear; kq); apply K end); clear Hm end).
  apply mbnd_inv in E as (bp & u4 & EF & E). apply mbnd_inv in E as (rf & u5 & ER & E). injection E as <- <-. cbn [m_bp].
  apply in_ctx_inv in EF as (bb & EF & -> & ->). unfold with_fuel in EF. rewrite LBuildBP_skip in EF by assumption. injection EF as <-. reflexivity.
Qed.

(** ** Predict with an empty graph *)
Theorem predict_stale m i o x v s c m' s' : m_ff m = Some (MkGraph []) -> m_input m = Some i -> m_output m = Some o ->
  (forall p, p ∈ cells (ts s) i -> p ∉ cells (ts s) o) -> holds (ts s) o v -> Predict rnd m x s = (Ok (c, m'), s') -> holds (ts s') c v.
Proof.
  intros Hg Hi Ho Hd Hv E. unfold Predict in E. rewrite Hg in E. apply mbnd_inv in E as (m0 & a0 & E0 & E). injection E0 as <- <-. rewrite Hi, Ho, Hg in E.
  apply mbnd_inv in E as (i0 & a0 & E0 & E). injection E0 as <- <-. apply mbnd_inv in E as ([] & a1 & E1 & E). apply mbnd_inv in E as ([] & a2 & E2 & E).
  apply mbnd_inv in E as (o0 & a3 & E0 & E). injection E0 as <- <-. apply mbnd_inv in E as (c0 & a4 & E4 & E). injection E as <- <- <-.
  unfold liftT in E1. destruct (LoadFromTensor i x (ts s)) as [r1 t1] eqn:EL. injection E1 as -> <-. pose proof (LoadFromTensor_only _ _ _ _ _ EL) as (At & Ac & Al & Am).
  assert (a2 = MkL t1 (lays s) (rc s)) as ->. { unfold ExecG in E2. cbn in E2. injection E2 as <-. destruct t1; reflexivity. }
  unfold liftT in E4. cbn [ts] in E4. destruct (Copy o t1) as [r4 t4] eqn:EC. injection E4 as -> <-. cbn [ts].
  assert (Hv1 : holds t1 o v).
  { destruct Hv as (n & En & Hw & Hmv). exists n. split; [rewrite At; exact En|]. split; [rewrite Al; exact Hw|]. rewrite <- Hmv. unfold mval. rewrite (IOProofs.rds_same (mem (ts s)) (mem t1)); [reflexivity|].
    intros a Ha. apply Am. intros Hi'. apply (Hd _ Hi'). unfold cells. rewrite En. exact Ha. }
  pose proof (Copy_spec t1 o v Hv1) as (t5 & ext & ops & E5 & _ & _ & _ & Hh & _). rewrite EC in E5. injection E5 as -> <-. exact Hh.
Qed.
End Again.
