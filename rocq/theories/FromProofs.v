(** * FromProofs: what FromModels puts together *)
From Verif Require Import Base Num ModelTools ModelOps ModelTensor ModelGraph ModelLayer ModelModel ModelFrom ExecProofs.

Section From.
Context {T : Type} `{Num T}.
Context (rnd : nat -> nat -> T).

(** ** Statement *)
(** The operations of the graphs of some models, one model after the other. *)
Definition ops_of (get : model T -> option (graph T)) (ms : list (model T)) : list (op T) :=
  flat_map (fun m => match get m with Some g => g_ops g | None => [] end) ms.
(** [M] is the models [ms] one after the other. *)
Record stacked (ms : list (model T)) (M : model T) : Prop := {
  sk_all : Forall (fun m => m_ff m <> None /\ m_reset m <> None /\ m_resetfit m <> None /\ m_bp m <> None) ms;
  sk_first : exists a, head ms = Some a /\ m_first M = m_first a /\ m_input M = m_input a;
  sk_last : exists z, last ms = Some z /\ m_last M = m_last z /\ m_output M = m_output z /\ m_target M = m_target z /\
    m_alpha M = m_alpha z /\ m_momentum M = m_momentum z /\ m_loss M = m_loss z /\ m_caldif M = m_caldif z /\ m_caldif z <> None;
  sk_ff : m_ff M = Some (MkGraph (ops_of m_ff ms));
  sk_reset : m_reset M = Some (MkGraph (ops_of m_reset ms));
  sk_resetfit : m_resetfit M = Some (MkGraph (ops_of m_resetfit ms));
  sk_bp : m_bp M = Some (MkGraph (ops_of m_bp (rev ms)));
}.
(** A model before and after: the same layers, and what was compiled is kept. *)
Definition kept (m m' : model T) : Prop :=
  m_first m' = m_first m /\ m_last m' = m_last m /\ (m_ff m <> None -> m_ff m' = m_ff m /\ m_reset m' = m_reset m /\ m_input m' = m_input m /\ m_output m' = m_output m) /\
  (m_bp m <> None -> m_bp m' = m_bp m /\ m_resetfit m' = m_resetfit m /\ m_caldif m' = m_caldif m).
(** Every model's first layer is on the last layer of the model before. *)
Fixpoint linked (s : lst T) (prev : model T) (ms : list (model T)) : Prop :=
  match ms with
  | [] => True
  | m :: ms' => (exists f l, m_first m = Some f /\ lays s !! f = Some l /\ lpre l = m_last prev) /\ linked s m ms'
  end.
Definition compiled (m : model T) : Prop :=
  m_ff m <> None /\ m_reset m <> None /\ m_resetfit m <> None /\ m_bp m <> None /\ m_caldif m <> None.
(** Two calls end in the same way; after a panic the state does not matter. *)
Definition same {A} (x y : res A * lst T) : Prop :=
  match x, y with
  | (Ok a, s), (Ok b, s') => a = b /\ s = s'
  | (Err a, s), (Err b, s') => a = b /\ s = s'
  | (Panic, _), (Panic, _) => True
  | (Diverge, _), (Diverge, _) => True
  | _, _ => False
  end.
(** The graphs of the models run one after the other. *)
Definition run_all (get : model T -> option (graph T)) (ms : list (model T)) : LM T unit := mfor ms (fun m => ExecG (get m)).

(** ** Joining *)
Lemma joined_inv get : forall ms g g' (s s' : lst T), joined get ms g s = (Ok g', s') ->
  s' = s /\ g_ops g' = g_ops g ++ ops_of get ms /\ Forall (fun m => get m <> None) ms.
Proof.
  induction ms as [|m ms IH]; intros g g' s s' E; cbn in E.
  - injection E as <- <-. rewrite app_nil_r. repeat split; auto.
  - destruct (get m) as [h|] eqn:Eg; [|discriminate]. destruct (IH _ _ _ _ E) as (-> & E2 & F).
    split; [done|]. split; [|constructor; [congruence|done]].
    rewrite E2. cbn. rewrite Eg, <- app_assoc. done.
Qed.
Lemma joined_ok get : forall ms g (s : lst T), Forall (fun m => get m <> None) ms -> joined get ms g s = (Ok (MkGraph (g_ops g ++ ops_of get ms)), s).
Proof.
  induction ms as [|m ms IH]; intros g s F; cbn.
  - rewrite app_nil_r. destruct g; done.
  - inversion F as [|? ? Hm F']; subst. destruct (get m) as [h|] eqn:Eg; [|done].
    rewrite IH by done. cbn. rewrite <- app_assoc. done.
Qed.
Lemma graph_eta (g : graph T) l : g_ops g = l -> g = MkGraph l.
Proof. destruct g; cbn; intros ->; done. Qed.

Lemma bnd_ok {S A B} (c : M S A) (f : A -> M S B) s r s' : mbnd c f s = (Ok r, s') -> exists a s1, c s = (Ok a, s1) /\ f a s1 = (Ok r, s').
Proof. unfold mbnd. destruct (c s) as [[a|e| |] s1]; intros E; try discriminate. eauto. Qed.
Lemma the_ok {A} (o : option A) a (s s' : lst T) : the o s = (Ok a, s') -> o = Some a /\ s' = s.
Proof. destruct o; cbn; intros E; try discriminate. injection E as <- <-. done. Qed.
Lemma mmap_kept {A} (R : A -> A -> Prop) (f : A -> LM T A) : (forall m s m' s', f m s = (Ok m', s') -> R m m') ->
  forall ms s ms' s', mmap ms f s = (Ok ms', s') -> Forall2 R ms ms'.
Proof.
  intros Hf. induction ms as [|m ms IH]; intros s ms' s' E; cbn in E.
  - injection E as <- <-. constructor.
  - destruct (bnd_ok _ _ _ _ _ E) as (m' & s1 & E1 & E2). destruct (bnd_ok _ _ _ _ _ E2) as (ms1 & s2 & E3 & E4).
    injection E4 as <- <-. constructor; eauto.
Qed.
Lemma drop_err_ok {A} (c : LM T A) d s r s' : drop_err c d s = (Ok r, s') -> r = d \/ exists s1, c s = (Ok r, s1).
Proof. unfold drop_err. destruct (c s) as [[a|e| |] s1] eqn:E; intros E'; try discriminate; injection E' as <- <-; eauto. Qed.

Ltac walk := repeat match goal with
  | X : mbnd _ _ _ = (Ok _, _) |- _ => apply bnd_ok in X; destruct X as (? & ? & ? & X)
  | X : mret _ _ = (Ok _, _) |- _ => injection X as <- <-
  end.
Lemma Compile_fields (m m' : model T) s s' : Compile rnd m s = (Ok m', s') -> m_first m' = m_first m /\ m_last m' = m_last m /\
  m_bp m' = m_bp m /\ m_resetfit m' = m_resetfit m /\ m_caldif m' = m_caldif m.
Proof. unfold Compile. intros E. walk. done. Qed.
Lemma CompileBP_fields (m m' : model T) s s' : CompileBackPropagation m s = (Ok m', s') -> m_first m' = m_first m /\ m_last m' = m_last m /\
  m_ff m' = m_ff m /\ m_reset m' = m_reset m /\ m_input m' = m_input m /\ m_output m' = m_output m.
Proof. unfold CompileBackPropagation. intros E. walk. done. Qed.
Lemma kept_refl m : kept m m.
Proof. unfold kept. auto 10. Qed.
Lemma ensure_ff_kept m s m' s' : ensure_ff rnd m s = (Ok m', s') -> kept m m'.
Proof.
  unfold ensure_ff. destruct (m_ff m) as [g|] eqn:E.
  - intros E'. injection E' as <- <-. apply kept_refl.
  - intros E'. destruct (drop_err_ok _ _ _ _ _ E') as [->|[s1 E1]]; [apply kept_refl|].
    destruct (Compile_fields _ _ _ _ E1) as (? & ? & ? & ? & ?). unfold kept.
    split; [done|]. split; [done|]. split; intros N; [congruence|auto].
Qed.
Lemma ensure_back_kept m s m' s' : ensure_back m s = (Ok m', s') -> kept m m'.
Proof.
  unfold ensure_back. destruct (m_bp m) as [g|] eqn:E.
  - intros E'. injection E' as <- <-. apply kept_refl.
  - intros E'. destruct (drop_err_ok _ _ _ _ _ E') as [->|[s1 E1]]; [apply kept_refl|].
    destruct (CompileBP_fields _ _ _ _ E1) as (? & ? & ? & ? & ? & ?). unfold kept.
    split; [done|]. split; [done|]. split; intros N; [auto|congruence].
Qed.
Lemma kept_trans m1 m2 m3 : kept m1 m2 -> kept m2 m3 -> kept m1 m3.
Proof.
  intros (A1 & A2 & A3 & A4) (B1 & B2 & B3 & B4). unfold kept. split; [congruence|]. split; [congruence|]. split.
  - intros N. destruct (A3 N) as (? & ? & ? & ?). destruct B3 as (? & ? & ? & ?); [congruence|]. repeat split; congruence.
  - intros N. destruct (A4 N) as (? & ? & ?). destruct B4 as (? & ? & ?); [congruence|]. repeat split; congruence.
Qed.
Lemma Forall2_kept_trans l1 l2 l3 : Forall2 kept l1 l2 -> Forall2 kept l2 l3 -> Forall2 kept l1 l3.
Proof.
  intros F. revert l3. induction F as [|a b l1 l2 Hab F IH]; intros l3 G; inversion G; subst; constructor; eauto using kept_trans.
Qed.

Theorem result ms ms2 M s s' : FromModels rnd ms s = (Ok (ms2, M), s') -> Forall2 kept ms ms2 /\ stacked ms2 M.
Proof.
  unfold FromModels. destruct ms as [|m0 rest]; [discriminate|]. intros E. cbn zeta in E.
  apply bnd_ok in E. destruct E as ([] & s1 & E1 & E). apply bnd_ok in E. destruct E as (ms1 & s2 & E2 & E).
  apply bnd_ok in E. destruct E as (ms2r & s3 & E3 & E).
  apply (mmap_kept _ _ ensure_ff_kept) in E2. apply (mmap_kept _ _ ensure_back_kept) in E3.
  apply bnd_ok in E. destruct E as (a & s4 & Ea & E). apply the_ok in Ea. destruct Ea as [Ea ->].
  apply bnd_ok in E. destruct E as (z & s4 & Ez & E). apply the_ok in Ez. destruct Ez as [Ez ->].
  apply bnd_ok in E. destruct E as (ff & s4 & Jff & E). apply joined_inv in Jff. destruct Jff as (-> & Jff & Fff).
  apply bnd_ok in E. destruct E as (rs & s4 & Jrs & E). apply joined_inv in Jrs. destruct Jrs as (-> & Jrs & Frs).
  apply bnd_ok in E. destruct E as (rf & s4 & Jrf & E). apply joined_inv in Jrf. destruct Jrf as (-> & Jrf & Frf).
  apply bnd_ok in E. destruct E as (cd & s4 & Ecd & E). apply the_ok in Ecd. destruct Ecd as [Ecd ->].
  apply bnd_ok in E. destruct E as (bp & s4 & Jbp & E). apply joined_inv in Jbp. destruct Jbp as (-> & Jbp & Fbp).
  injection E as <- <- <-.
  split.
  { apply (Forall2_kept_trans _ _ _ E2). rewrite <- (rev_involutive ms1).
    assert (R : forall l l' : list (model T), Forall2 kept l l' -> Forall2 kept (rev l) (rev l')).
    { intros l l' F. induction F as [|x y l l' Hxy F IH]; cbn; [constructor|]. apply Forall2_app; [done|]. constructor; [done|constructor]. }
    apply R. done. }
  rewrite rev_involutive in Jbp, Fbp.
  assert (Fbp' : Forall (fun m => m_bp m <> None) (rev ms2r)).
  { apply List.Forall_forall. intros m Hm. rewrite <- in_rev in Hm. rewrite List.Forall_forall in Fbp. auto. }
  constructor; cbn.
  - rewrite List.Forall_forall in *. auto 10.
  - exists a. done.
  - exists z. rewrite Ecd. destruct cd. cbn. repeat split; done.
  - f_equal. apply graph_eta. done.
  - f_equal. apply graph_eta. done.
  - f_equal. apply graph_eta. done.
  - f_equal. apply graph_eta. rewrite Jbp, rev_involutive. done.
Qed.

Lemma link_ok s : forall ms prev, linked s prev ms -> link prev ms s = (Ok tt, s).
Proof.
  induction ms as [|m ms IH]; intros prev; cbn; [done|]. intros ((f & l & Ef & El & Ep) & Hl).
  unfold the, mlift, mbnd. rewrite Ef. unfold getL. rewrite El. rewrite bool_decide_eq_true_2 by done. cbn. apply IH. done.
Qed.
Lemma mmap_id {A} (f : A -> LM T A) s : forall l, Forall (fun m => f m s = (Ok m, s)) l -> mmap l f s = (Ok l, s).
Proof.
  induction l as [|m l IH]; intros F; cbn; [done|]. inversion F as [|? ? Hm F']; subst.
  unfold mbnd. rewrite Hm, (IH F'). done.
Qed.
(** Models that are compiled and connected already are not touched. *)
Theorem untouched a rest s : linked s a rest -> Forall compiled (a :: rest) -> exists M, FromModels rnd (a :: rest) s = (Ok (a :: rest, M), s).
Proof.
  intros Hl Hc. unfold FromModels. set (ms := a :: rest) in *. unfold mbnd at 1. rewrite link_ok by done.
  assert (E1 : mmap ms (ensure_ff rnd) s = (Ok ms, s)).
  { apply mmap_id. eapply List.Forall_impl; [|exact Hc]. intros m (N & _). cbn. unfold ensure_ff. destruct (m_ff m); done. }
  assert (E2 : mmap (rev ms) ensure_back s = (Ok (rev ms), s)).
  { apply mmap_id. apply List.Forall_forall. intros m Hm. rewrite <- in_rev in Hm. rewrite List.Forall_forall in Hc.
    destruct (Hc _ Hm) as (_ & _ & _ & N & _). unfold ensure_back. destruct (m_bp m); done. }
  unfold mbnd at 1. rewrite E1. unfold mbnd at 1. rewrite E2. cbn zeta. rewrite rev_involutive.
  assert (exists z, last ms = Some z) as [z Ez]. { subst ms. rewrite last_cons. destruct (last rest); eauto. }
  assert (Cz : compiled z). { rewrite List.Forall_forall in Hc. apply Hc. apply elem_of_list_In. apply last_Some_elem_of. done. }
  assert (Eh : head ms = Some a) by done. rewrite Eh, Ez. clearbody ms.
  unfold the at 1, mlift, mbnd at 1. unfold the at 1, mlift, mbnd at 1.
  rewrite List.Forall_forall in Hc.
  unfold mbnd at 1. rewrite joined_ok by (apply List.Forall_forall; intros m Hm; apply (Hc m Hm)).
  unfold mbnd at 1. rewrite joined_ok by (apply List.Forall_forall; intros m Hm; apply (Hc m Hm)).
  unfold mbnd at 1. rewrite joined_ok by (apply List.Forall_forall; intros m Hm; apply (Hc m Hm)).
  destruct Cz as (_ & _ & _ & _ & Cz). destruct (m_caldif z) as [cd|]; [|done].
  unfold the at 1, mlift, mbnd at 1.
  unfold mbnd at 1. rewrite joined_ok by (apply List.Forall_forall; intros m Hm; rewrite <- in_rev in Hm; apply (Hc m Hm)).
  eexists. reflexivity.
Qed.

(** ** Running the joined graphs *)
Lemma same_refl {A} (x : res A * lst T) : same x x.
Proof. destruct x as [[] ?]; cbn; auto. Qed.
Lemma same_bnd {A B} (c d : LM T A) (f g : A -> LM T B) s : same (c s) (d s) -> (forall a s', same (f a s') (g a s')) -> same (mbnd c f s) (mbnd d g s).
Proof.
  intros E F. unfold mbnd. destruct (c s) as [[a|e| |] s1], (d s) as [[b|e'| |] s2]; cbn in E; try done.
  destruct E as [-> ->]. apply F.
Qed.
Lemma run_joined get : forall ms s, Forall (fun m => get m <> None) ms -> same (ExecG (Some (MkGraph (ops_of get ms))) s) (run_all get ms s).
Proof.
  induction ms as [|m ms IH]; intros s F.
  - cbn. destruct s as [[] ? ?]. done.
  - inversion F as [|? ? Hm F']; subst. specialize (fun s => IH s F').
    change (run_all get (m :: ms) s) with (mbnd (ExecG (get m)) (fun _ => run_all get ms) s). cbn [ops_of flat_map] in *.
    fold (ops_of get ms) in *. destruct (get m) as [g|]; [|done].
    unfold ExecG in *. unfold mbnd, the, mlift, liftT, ExecM, Exec in *. cbn [g_ops] in *. rewrite exec_app.
    destruct (exec (g_ops g) (mem (ts s))) as [m'|] eqn:E; [|done].
    specialize (IH (MkL (MkSt m' (tens (ts s)) (ctx (ts s))) (lays s) (rc s))). cbn in IH. cbn.
    destruct (exec (ops_of get ms) m') as [m''|]; cbn in *; exact IH.
Qed.

Theorem predict_seq ms M x s : stacked ms M ->
  same (Predict rnd M x s)
    ((i <~ the (m_input M) ; liftT (LoadFromTensor i x) ;~ run_all m_ff ms ;~ o <~ the (m_output M) ; c <~ liftT (Copy o) ; mret (c, M)) s).
Proof.
  intros K. unfold Predict. rewrite (sk_ff _ _ K). change (mbnd (mret M) ?f s) with (f M s). cbv beta. rewrite (sk_ff _ _ K).
  apply same_bnd; [apply same_refl|intros i s1]. apply same_bnd; [apply same_refl|intros [] s2].
  apply same_bnd; [|intros [] s3; apply same_refl].
  apply run_joined. eapply List.Forall_impl; [|exact (sk_all _ _ K)]. cbn. tauto.
Qed.
Theorem fit_seq ms M x y s : stacked ms M ->
  same (ExecFit M x y s)
    ((run_all m_resetfit ms ;~
      i <~ the (m_input M) ; liftT (LoadFromTensor i x) ;~ t <~ the (m_target M) ; liftT (LoadFromTensor t y) ;~
      run_all m_ff ms ;~ ExecG (m_caldif M) ;~ run_all m_bp (rev ms) ;~
      l <~ the (m_last M) ; with_fuel (fun n => LFit n l)) s).
Proof.
  intros K. unfold ExecFit. rewrite (sk_ff _ _ K), (sk_resetfit _ _ K), (sk_bp _ _ K).
  assert (Fa := sk_all _ _ K).
  apply same_bnd; [apply run_joined; eapply List.Forall_impl; [|exact Fa]; cbn; tauto|intros [] s1].
  apply same_bnd; [apply same_refl|intros i s2]. apply same_bnd; [apply same_refl|intros [] s3].
  apply same_bnd; [apply same_refl|intros t s4]. apply same_bnd; [apply same_refl|intros [] s5].
  apply same_bnd; [apply run_joined; eapply List.Forall_impl; [|exact Fa]; cbn; tauto|intros [] s6].
  apply same_bnd; [apply same_refl|intros [] s7].
  apply same_bnd; [|intros [] s8; apply same_refl].
  apply run_joined. apply List.Forall_forall. intros m Hm. rewrite <- in_rev in Hm. rewrite List.Forall_forall in Fa. apply (Fa m Hm).
Qed.
End From.
