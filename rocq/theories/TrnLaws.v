(** * TrnLaws: consequences of the description of histories on chains *)
From Verif Require Import Base Num ModelTools ModelTensor ModelLayer ModelModel Spec NetSpec FwdSpec FwdScript FwdNet FwdChain FwdConv FwdTotal FwdClaims NetLaws
  TensorFacts EagerOps Laws BwdSpec TrnSpec TrnScript TrnProg TrnTotal TrnSite TrnMade TrnHist TrnMain.
From Coq Require Import Lia ZifyBool ZifyNat ZifyN.

Section TrnLaws.
Context {T : Type} `{Num T}.
Implicit Types (c q p : clay T) (cs rest : list (clay T)) (par : params (T:=T)) (mb : nat -> option (vten T)).

Lemma thistory_app ish osh cs st a1 : forall a2 st2 os, thistory ish osh cs st (a1 ++ a2) st2 os ->
  exists st1 o1 o2, thistory ish osh cs st a1 st1 o1 /\ thistory ish osh cs st1 a2 st2 o2 /\ os = o1 ++ o2.
Proof using Type.
  revert st. induction a1 as [|a a1 IH]; intros st a2 st2 os Hh; [exists st, [], os; repeat split; [constructor|exact Hh]|].
  cbn [app] in Hh. inversion Hh as [|? ? st1 o ? ? os' Hs Hr]; subst. destruct (IH _ _ _ _ Hr) as (st3 & o1 & o2 & H1 & H2 & ->). exists st3, (o :: o1), o2. repeat split; [econstructor; eassumption|exact H2].
Qed.
Lemma thistory_join ish osh cs st a1 st1 o1 a2 st2 o2 : thistory ish osh cs st a1 st1 o1 -> thistory ish osh cs st1 a2 st2 o2 -> thistory ish osh cs st (a1 ++ a2) st2 (o1 ++ o2).
Proof using Type. induction 1; intros H2; cbn; [exact H2|]. econstructor; eauto. Qed.

(** ** Layers that are not trainable *)
(** Calls after which the layer [k] is not trainable, and calls that make it
    trainable again. *)
Definition freezes (k : nat) (a : tact T) : Prop := match a with TLayer j b => j = k /\ b = false | TModel b => 0 < k /\ b = false | _ => False end.
Definition thaws (k : nat) (a : tact T) : Prop := match a with TLayer j b => j = k /\ b = true | TModel b => 0 < k /\ b = true | _ => False end.

Lemma lowest_or cs k c : NoDup (map c_i cs) -> rev cs !! k = Some c -> existsb (fun q => c_i c =? c_i q) (removelast cs) = (0 <? k).
Proof using Type.
  intros Hnd Hk. rewrite <- (rev_involutive cs) in Hnd |- *. destruct (rev cs) as [|a l] eqn:E; [discriminate|]. cbn [rev] in *. rewrite removelast_last. rewrite map_app in Hnd.
  apply NoDup_app in Hnd as (_ & Hnd & _). destruct k as [|k]; cbn in Hk.
  - injection Hk as ->. destruct (existsb _ _) eqn:Ee; [|reflexivity]. apply existsb_exists in Ee as (q & Hq & Eq). apply Nat.eqb_eq in Eq. exfalso.
    apply (Hnd (c_i q)); [apply elem_of_list_fmap; exists q; split; [reflexivity|apply elem_of_list_In; exact Hq]|]. cbn. rewrite Eq. left.
  - change (0 <? S k) with true. apply existsb_exists. exists c. split; [apply in_rev; rewrite rev_involutive; apply elem_of_list_In; apply elem_of_list_lookup_2 in Hk; exact Hk|apply Nat.eqb_refl].
Qed.
Lemma rev_same cs k j c q : NoDup (map c_i cs) -> rev cs !! k = Some c -> rev cs !! j = Some q -> c_i c = c_i q -> j = k.
Proof using Type.
  intros Hnd Hk Hj E. apply (NoDup_lookup (map c_i (rev cs)) j k (c_i q)).
  - rewrite map_rev. apply NoDup_ListNoDup, NoDup_rev, NoDup_ListNoDup. exact Hnd.
  - rewrite list_lookup_fmap, Hj. reflexivity.
  - rewrite list_lookup_fmap, Hk. cbn. congruence.
Qed.
Lemma freezes_step ish osh cs st a st' o k c : NoDup (map c_i cs) -> rev cs !! k = Some c -> freezes k a -> tstep ish osh cs st a st' o -> t_tr st' (c_i c) = false.
Proof using Type.
  intros Hnd Hk Hf Hs. inversion Hs; subst; try destruct Hf; cbn [t_tr]; subst.
  - unfold tag_one. assert (c0 = c) as -> by congruence. rewrite Nat.eqb_refl. reflexivity.
  - unfold tag_all. rewrite (lowest_or cs k c Hnd Hk). destruct (0 <? k) eqn:E; [reflexivity|apply Nat.ltb_ge in E; lia].
Qed.
Lemma trains_keep ish osh tr al mo cs pairs i : tr i = false -> forall ks par mb par' mb', s_trains ish osh tr par mb al mo cs pairs ks = Some (par', mb') -> par' i = par i.
Proof using Type.
  intros Hi. induction ks as [|k ks IH]; intros par mb par' mb' E; cbn [s_trains] in E; [injection E as <- _; reflexivity|].
  apply bind_Some in E as (xy & _ & E). destruct (_ && _); [|discriminate]. apply bind_Some in E as (r & _ & E). rewrite (IH _ _ _ _ E). unfold s_keep. rewrite Hi. reflexivity.
Qed.
Lemma thaws_step ish osh cs st a st' o k c : NoDup (map c_i cs) -> rev cs !! k = Some c -> ~ thaws k a -> tstep ish osh cs st a st' o -> t_tr st (c_i c) = false ->
  t_tr st' (c_i c) = false /\ t_par st' (c_i c) = t_par st (c_i c).
Proof using Type.
  intros Hnd Hk Hf Hs Ht. inversion Hs; subst; cbn [t_tr t_par thaws] in *; auto.
  - split; [exact Ht|]. unfold s_keep. rewrite Ht. reflexivity.
  - split; [exact Ht|]. eapply trains_keep; eassumption.
  - split; [exact Ht|]. eapply trains_keep; eassumption.
  - split; [|reflexivity]. unfold tag_one. destruct (Nat.eqb_spec (c_i c) (c_i c0)) as [E|_]; [|exact Ht]. rewrite (rev_same cs k k0 c c0 Hnd Hk) in Hf by assumption. destruct b; [|reflexivity]. destruct Hf. auto.
  - split; [|reflexivity]. unfold tag_all. rewrite (lowest_or cs k c Hnd Hk). destruct (0 <? k) eqn:E; [|exact Ht]. apply Nat.ltb_lt in E. destruct b; [|reflexivity]. destruct Hf. auto.
Qed.
Lemma frozen_history ish osh cs k c : NoDup (map c_i cs) -> rev cs !! k = Some c -> forall acts st st' os, Forall (fun a => ~ thaws k a) acts -> thistory ish osh cs st acts st' os -> t_tr st (c_i c) = false ->
  t_par st' (c_i c) = t_par st (c_i c).
Proof using Type.
  intros Hnd Hk. induction acts as [|a acts IH]; intros st st' os Hf Hh Ht; inversion Hh as [|? ? st1 o ? ? os' Hs Hr]; subst; [reflexivity|]. apply Forall_cons in Hf as [Hf1 Hf2].
  destruct (thaws_step _ _ _ _ _ _ _ _ _ Hnd Hk Hf1 Hs Ht) as [Ht1 E]. rewrite (IH _ _ _ Hf2 Hr Ht1). exact E.
Qed.

(** ** Zeros *)
Definition zeros (v : vten T) : Prop := Forall (eq nzero) (vdata v).
Lemma zero_zeros sh : zeros (vzero sh).
Proof using Type. apply Forall_replicate. reflexivity. Qed.
Lemma zeros_el v idx z : zeros v -> el v idx = Some z -> z = nzero.
Proof using Type. unfold zeros, el, at_. intros Hz E. rewrite Forall_lookup in Hz. symmetry. destruct (flat (vsh v) idx) as [k|]; [|discriminate]. exact (Hz _ _ E). Qed.
Lemma mapM_forall {A B} (f : A -> option B) (P : B -> Prop) l r : (forall x y, x ∈ l -> f x = Some y -> P y) -> mapM f l = Some r -> Forall P r.
Proof using Type.
  intros Hf E. apply mapM_Some in E. revert Hf. induction E as [|x y l r Hx _ IH]; intros Hf; constructor; [eapply Hf; [left|exact Hx]|apply IH; intros; eapply Hf; [right|]; eassumption].
Qed.
Lemma scal_zeros v (k : T) g : v_scal BMul v k = Some g -> (forall x, x ∈ vdata v -> nmul x k = nzero) -> zeros g.
Proof using Type.
  unfold v_scal. intros E Hz. apply bind_Some in E as (d & E & Hd). injection Hd as <-. unfold zeros. cbn [vdata]. eapply mapM_forall; [|exact E]. cbn. intros x y Hx Hy. injection Hy as <-. symmetry. apply Hz. exact Hx.
Qed.
Lemma add_zeros (v w g : vten T) : (forall x : T, nadd x nzero = x) -> zeros v -> zeros w -> v_bin BAdd v w = Some g -> zeros g.
Proof using Type.
  intros Ha Hv Hw E. unfold v_bin, tabulate in E. apply bind_Some in E as (d & E & Hd). injection Hd as <-. unfold zeros. cbn [vdata]. eapply mapM_forall; [|exact E]. intros idx z _ Hz.
  apply bind_Some in Hz as (x & Hx & Hz). apply bind_Some in Hz as (y & Hy & Hz). cbn in Hz. injection Hz as <-. rewrite (zeros_el v idx x Hv Hx), (zeros_el w idx y Hw Hy), Ha. reflexivity.
Qed.
Lemma fold_zeros (l : list T) z : (forall x : T, nadd x nzero = x) -> Forall (eq nzero) l -> fold1 nadd l = Some z -> z = nzero.
Proof using Type.
  intros Ha Hl E. destruct l as [|x l]; [discriminate|]. cbn [fold1] in E. injection E as <-. apply Forall_cons in Hl as [<- Hl]. induction Hl as [|y l <- _ IH]; [reflexivity|]. cbn [fold_left]. rewrite Ha. exact IH.
Qed.
(** A tensor that is read cell by cell. *)
Lemma same_cells (b v : vten T) f : shaped (vsh b) b -> (forall idx z, f idx = Some z -> el b idx = Some z) -> tabulate (vsh b) f = Some v -> v = b.
Proof using Type.
  intros [_ Hl] Hf E. apply (tabulate_impl _ _ (at_ (vsh b) (vdata b))) in E; [|exact Hf]. rewrite tabulate_at in E by exact Hl. injection E as <-. destruct b. reflexivity.
Qed.

(** ** Training with rate zero *)
Definition still_layers cs : Prop := Forall (fun c => has_mom c = false) cs.
Lemma step_each (R : reading T) mb al mo : forall cs d us, s_step R mb al mo cs d = Some us -> Forall2 (fun c u => s_par R mb al mo c (fst u) = Some (snd u)) cs us.
Proof using Type.
  induction cs as [|c cs IH]; intros d us E; cbn [s_step] in E; [injection E as <-; constructor|]. apply bind_Some in E as (u & Eu & E). apply bind_Some in E as (us' & Es & E). injection E as <-.
  constructor; [exact Eu|]. destruct cs as [|q r]; [injection Es as <-; constructor|]. apply bind_Some in Es as (d' & _ & Es). eapply IH. exact Es.
Qed.
Lemma show_pars par x : forall cs k p, NoDup (map c_i cs) -> p ∈ cs -> c_par p = true -> r_b (s_show par x k cs) (c_i p) = fst <$> par (c_i p) /\ r_w (s_show par x k cs) (c_i p) = snd <$> par (c_i p).
Proof using Type.
  induction cs as [|c cs IH]; intros k p Hnd Hp Hc; [inversion Hp|]. cbn [map] in Hnd. apply NoDup_cons in Hnd as [Hni Hnd]. cbn [s_show r_b r_w]. unfold or_else. apply elem_of_cons in Hp as [->|Hp].
  - rewrite Nat.eqb_refl, Hc. auto.
  - destruct (Nat.eqb_spec (c_i p) (c_i c)) as [E|_]; [exfalso; apply Hni; rewrite <- E; apply elem_of_list_fmap; eauto|]. apply IH; assumption.
Qed.
(** Bias and weights have as many numbers as their shapes say. *)
Definition sound par cs : Prop := forall p b w, p ∈ cs -> c_par p = true -> par (c_i p) = Some (b, w) -> shaped (vsh b) b /\ shaped (vsh w) w.
Lemma par_sound (R : reading T) mb al mo c d b w : s_par R mb al mo c d = Some (Some (b, w)) -> shaped (vsh b) b /\ shaped (vsh w) w.
Proof using Type.
  assert (Ht : forall sh (f : list N -> option T) v, tabulate sh f = Some v -> shaped (vsh v) v) by (intros sh f v E; apply tabulate_is in E; rewrite (proj1 E); exact E).
  unfold s_par, s_bias, s_weights. destruct (c_par c); [|discriminate]. intros E. apply bind_Some in E as (b' & Eb & E). apply bind_Some in E as (w' & Ew & E). injection E as <- <-.
  destruct (c_l c) as [[]|]; try discriminate;
    repeat match goal with E : (_ ≫= _) = Some _ |- _ => apply bind_Some in E as (? & _ & E) end; unfold v_bin, g_dense_b, g_dense_w, g_conv_w, g_deconv_w in *; split; eapply Ht; eassumption.
Qed.
Lemma train_sound par mb al mo cs x y k par' mb' : NoDup (map c_i cs) -> sound par cs -> s_train par mb al mo cs x y = Some (k, par', mb') -> sound par' cs.
Proof using Type.
  intros Hnd Hs E p b w Hp Hc Hb. unfold s_train in E. apply bind_Some in E as (d & _ & E). apply bind_Some in E as (us & Es & E). apply bind_Some in E as (z & _ & E). injection E as _ <- _.
  destruct (new_at _ par mb al mo cs us Hnd (step_each _ _ _ _ _ _ _ Es) p Hp) as (u & Hu & En & _). rewrite En in Hb. destruct (snd u) as [[b' w']|]; [|eapply Hs; eassumption]. injection Hb as <- <-. eapply par_sound. exact Hu.
Qed.
Lemma keep_sound tr par par' cs : sound par cs -> sound par' cs -> sound (s_keep tr par par') cs.
Proof using Type. intros H1 H2 p b w Hp Hc. unfold s_keep. destruct (tr (c_i p)); [apply H2|apply H1]; assumption. Qed.

Lemma par_rate0 (R : reading T) mb mo c d b w u : zero_laws (T:=T) -> mo = nzero \/ has_mom c = false -> c_par c = true -> r_b R (c_i c) = Some b -> r_w R (c_i c) = Some w -> shaped (vsh b) b -> shaped (vsh w) w ->
  s_par R mb nzero mo c d = Some u -> u = Some (b, w).
Proof using Type.
  intros Z Hmo Hc Eb Ew Hb Hw E. unfold s_par in E. rewrite Hc in E. apply bind_Some in E as (b' & E1 & E). apply bind_Some in E as (w' & E2 & E). injection E as <-. unfold s_bias in E1. unfold s_weights in E2. unfold has_mom in Hmo.
  assert (Hdb : forall db, mo = nzero -> s_db mb nzero mo (c_i c) d = Some db -> zeros db).
  { intros db -> E. unfold s_db in E. apply bind_Some in E as (da & Ed & E). apply bind_Some in E as (v & _ & E). apply bind_Some in E as (bm & Em & E).
    eapply add_zeros; [apply (zl_a Z)| | |exact E]; eapply scal_zeros; try eassumption; intros; apply (zl_r Z). }
  assert (Hbb : forall db, zeros db -> v_bin BAdd b db = Some b' -> b' = b).
  { intros db Hz E. unfold v_bin in E. eapply same_cells; [exact Hb| |exact E]. intros idx z Ez. apply bind_Some in Ez as (x & Ex & Ez). apply bind_Some in Ez as (y & Ey & Ez). cbn in Ez. injection Ez as <-.
    rewrite (zeros_el db idx y Hz Ey), (zl_a Z). exact Ex. }
  assert (Hm0 : forall m, v_scal BMul (vzero (vsh w)) mo = Some m -> zeros m).
  { intros m Em. eapply scal_zeros; [exact Em|]. intros x Hx. pose proof (zero_zeros (vsh w)) as Hz. unfold zeros in Hz. rewrite Forall_forall in Hz. rewrite <- (Hz x Hx). apply (zl_l Z). }
  assert (Hda : forall da, v_scal BMul d nzero = Some da -> zeros da) by (intros da Ed; eapply scal_zeros; [exact Ed|intros; apply (zl_r Z)]).
  destruct (c_l c) as [[]|]; try discriminate; rewrite Eb in E1; rewrite ?Ew in E2.
  - apply bind_Some in E1 as (r & Er & E1). rewrite Er in E2. cbn [mbind option_bind] in E1, E2. apply bind_Some in E1 as (e & Ee & E1). rewrite Ee in E2. cbn [mbind option_bind] in E1, E2. apply bind_Some in E2 as (x & Ex & E2).
    unfold g_dense_b in E1. unfold g_dense_w in E2.
    rewrite (same_cells b b' _ Hb) with (2 := E1), (same_cells w w' _ Hw) with (2 := E2); [reflexivity| |].
    + intros idx z Ez. destruct idx as [|i [|j []]]; try discriminate. apply bind_Some in Ez as (di & _ & Ez). apply bind_Some in Ez as (xj & _ & Ez). apply bind_Some in Ez as (wi & Ewi & Ez). apply bind_Some in Ez as (mi & Em & Ez).
      injection Ez as <-. rewrite (zeros_el _ _ _ (zero_zeros _) Em), (zl_l Z), (zl_r Z), (zl_l Z), !(zl_a Z). exact Ewi.
    + intros idx z Ez. apply bind_Some in Ez as (di & _ & Ez). apply bind_Some in Ez as (bi & Ebi & Ez). apply bind_Some in Ez as (mi & Em & Ez).
      injection Ez as <-. rewrite (zeros_el _ _ _ (zero_zeros _) Em), (zl_l Z), (zl_r Z), !(zl_a Z). exact Ebi.
  - destruct Hmo as [Hmo|Hmo]; [|discriminate]. cbn [mbind option_bind] in E1. apply bind_Some in E1 as (db & Edb & E1). rewrite (Hbb db (Hdb db Hmo Edb) E1).
    apply bind_Some in E2 as (da & Eda & E2). apply bind_Some in E2 as (x & Ex & E2). cbn [mbind option_bind] in E2. apply bind_Some in E2 as (m & Em & E2). unfold g_conv_w in E2.
    rewrite (same_cells w w' _ Hw) with (2 := E2); [reflexivity|]. intros idx z Ez. destruct idx as [|f0 [|c' [|i [|j []]]]]; try discriminate. apply bind_Some in Ez as (l & El & Ez). apply bind_Some in Ez as (s & Es & Ez).
    apply bind_Some in Ez as (wi & Ewi & Ez). apply bind_Some in Ez as (mi & Emi & Ez). injection Ez as <-. rewrite (zeros_el _ _ _ (Hm0 m Em) Emi). rewrite (fold_zeros l s (zl_a Z)); [rewrite !(zl_a Z); exact Ewi| |exact Es].
    eapply mapM_forall; [|exact El]. intros k y _ Hy. destruct k as [|X [|Y []]]; try discriminate. apply bind_Some in Hy as (u & Hu & Hy). apply bind_Some in Hy as (v & _ & Hy). injection Hy as <-. rewrite (zeros_el _ _ _ (Hda da Eda) Hu). symmetry. apply (zl_l Z).
  - destruct Hmo as [Hmo|Hmo]; [|discriminate]. cbn [mbind option_bind] in E1. apply bind_Some in E1 as (db & Edb & E1). rewrite (Hbb db (Hdb db Hmo Edb) E1).
    apply bind_Some in E2 as (da & Eda & E2). apply bind_Some in E2 as (x & Ex & E2). cbn [mbind option_bind] in E2. apply bind_Some in E2 as (m & Em & E2). unfold g_deconv_w in E2.
    rewrite (same_cells w w' _ Hw) with (2 := E2); [reflexivity|]. intros idx z Ez. destruct idx as [|f0 [|c' [|i [|j []]]]]; try discriminate. apply bind_Some in Ez as (l & El & Ez). apply bind_Some in Ez as (s & Es & Ez).
    apply bind_Some in Ez as (wi & Ewi & Ez). apply bind_Some in Ez as (mi & Emi & Ez). injection Ez as <-. rewrite (zeros_el _ _ _ (Hm0 m Em) Emi). rewrite (fold_zeros l s (zl_a Z)); [rewrite !(zl_a Z); exact Ewi| |exact Es].
    eapply mapM_forall; [|exact El]. intros k y _ Hy. destruct k as [|X [|Y []]]; try discriminate. apply bind_Some in Hy as (u & Hu & Hy). apply bind_Some in Hy as (v & _ & Hy). injection Hy as <-. rewrite (zeros_el _ _ _ (Hda da Eda) Hu). symmetry. apply (zl_l Z).
Qed.
Definition calm cs (mo : T) : Prop := mo = nzero \/ still_layers cs.
Lemma train_rate0 par mb mo cs x y k par' mb' p : zero_laws (T:=T) -> NoDup (map c_i cs) -> sound par cs -> calm cs mo -> s_train par mb nzero mo cs x y = Some (k, par', mb') -> p ∈ cs -> c_par p = true -> par (c_i p) <> None ->
  par' (c_i p) = par (c_i p).
Proof using Type.
  intros Z Hnd Hs Hmo E Hp Hc Hne. unfold s_train in E. apply bind_Some in E as (d & _ & E). apply bind_Some in E as (us & Es & E). apply bind_Some in E as (z & _ & E). injection E as _ <- _.
  destruct (new_at _ par mb nzero mo cs us Hnd (step_each _ _ _ _ _ _ _ Es) p Hp) as (u & Hu & En & _). rewrite En. destruct (show_pars par x cs 0 p Hnd Hp Hc) as [Eb Ew].
  destruct (par (c_i p)) as [[b w]|] eqn:Ep; [|congruence]. destruct (Hs p b w Hp Hc Ep) as [Hb Hw].
  rewrite (par_rate0 _ _ _ _ _ _ _ _ Z) with (7 := Hu) (3 := Eb) (4 := Ew) (5 := Hb) (6 := Hw); [reflexivity| |exact Hc]. destruct Hmo as [->|Hmo]; [left; reflexivity|right]. unfold still_layers in Hmo. rewrite Forall_forall in Hmo. apply Hmo. exact Hp.
Qed.
(** Calls that train with rate zero only. *)
Definition rate0 cs (a : tact T) : Prop := match a with TTrain _ _ al mo | TMany _ _ _ _ _ al mo => al = nzero /\ calm cs mo | _ => True end.
Definition whole par cs : Prop := sound par cs /\ forall p, p ∈ cs -> c_par p = true -> par (c_i p) <> None.
Lemma train_whole par mb al mo cs x y k par' mb' : NoDup (map c_i cs) -> whole par cs -> s_train par mb al mo cs x y = Some (k, par', mb') -> whole par' cs.
Proof using Type.
  intros Hnd [Hs Hn] E. split; [eapply train_sound; eassumption|]. intros p Hp Hc. unfold s_train in E. apply bind_Some in E as (d & _ & E). apply bind_Some in E as (us & Es & E). apply bind_Some in E as (z & _ & E). injection E as _ <- _.
  destruct (new_at _ par mb al mo cs us Hnd (step_each _ _ _ _ _ _ _ Es) p Hp) as (u & Hu & En & _). rewrite En. destruct (snd u); [discriminate|apply Hn; assumption].
Qed.
Lemma keep_whole tr par par' cs : whole par cs -> whole par' cs -> whole (s_keep tr par par') cs.
Proof using Type. intros [H1 H2] [H3 H4]. split; [apply keep_sound; assumption|]. intros p Hp Hc. unfold s_keep. destruct (tr (c_i p)); auto. Qed.
Lemma trains_whole ish osh tr al mo cs pairs : NoDup (map c_i cs) -> forall ks par mb par' mb', whole par cs -> s_trains ish osh tr par mb al mo cs pairs ks = Some (par', mb') -> whole par' cs.
Proof using Type.
  intros Hnd. induction ks as [|k ks IH]; intros par mb par' mb' Hw E; cbn [s_trains] in E; [injection E as <- _; exact Hw|].
  apply bind_Some in E as (xy & _ & E). destruct (_ && _); [|discriminate]. apply bind_Some in E as ([[z par1] mb1] & E1 & E). cbn [fst snd] in E. eapply IH; [|exact E]. apply keep_whole; [exact Hw|]. eapply train_whole; eassumption.
Qed.
Lemma trains_rate0 ish osh tr mo cs pairs p : zero_laws (T:=T) -> NoDup (map c_i cs) -> calm cs mo -> p ∈ cs -> c_par p = true -> forall ks par mb par' mb', whole par cs ->
  s_trains ish osh tr par mb nzero mo cs pairs ks = Some (par', mb') -> par' (c_i p) = par (c_i p).
Proof using Type.
  intros Z Hnd Hmo Hp Hc. induction ks as [|k ks IH]; intros par mb par' mb' Hw E; cbn [s_trains] in E; [injection E as <- _; reflexivity|].
  apply bind_Some in E as (xy & _ & E). destruct (_ && _); [|discriminate]. apply bind_Some in E as ([[z par1] mb1] & E1 & E). cbn [fst snd] in E.
  rewrite (IH _ _ _ _ ltac:(apply keep_whole; [exact Hw|eapply train_whole; eassumption]) E). unfold s_keep. destruct (tr (c_i p)); [|reflexivity]. destruct Hw as [Hs Hn]. eapply train_rate0; try eassumption. apply Hn; assumption.
Qed.
Lemma step_whole ish osh cs st a st' o : NoDup (map c_i cs) -> whole (t_par st) cs -> tstep ish osh cs st a st' o -> whole (t_par st') cs.
Proof using Type.
  intros Hnd Hw Hs. inversion Hs; subst; cbn [t_par] in *; auto.
  - apply keep_whole; [exact Hw|]. eapply train_whole; eassumption.
  - eapply trains_whole; eassumption.
  - eapply trains_whole; eassumption.
Qed.
Lemma history_whole ish osh cs st acts st' os : NoDup (map c_i cs) -> whole (t_par st) cs -> thistory ish osh cs st acts st' os -> whole (t_par st') cs.
Proof using Type. intros Hnd Hw Hh. induction Hh; [exact Hw|]. apply IHHh. eapply step_whole; eassumption. Qed.
Lemma rate0_history ish osh cs p : zero_laws (T:=T) -> NoDup (map c_i cs) -> p ∈ cs -> c_par p = true -> forall acts st st' os, whole (t_par st) cs -> Forall (rate0 cs) acts -> thistory ish osh cs st acts st' os ->
  t_par st' (c_i p) = t_par st (c_i p).
Proof using Type.
  intros Z Hnd Hp Hc. induction acts as [|a acts IH]; intros st st' os Hw Hr Hh; inversion Hh as [|? ? st1 o ? ? os' Hs Hh']; subst; [reflexivity|]. apply Forall_cons in Hr as [Hr1 Hr2].
  rewrite (IH _ _ _ (step_whole _ _ _ _ _ _ _ Hnd Hw Hs) Hr2 Hh'). inversion Hs; subst; cbn [t_par rate0] in *; auto; destruct Hr1 as [-> Hmo].
  - unfold s_keep. destruct (tr (c_i p)); [|reflexivity]. destruct Hw as [Hs' Hn]. eapply train_rate0; try eassumption. apply Hn; assumption.
  - eapply trains_rate0; eassumption.
  - eapply trains_rate0; eassumption.
Qed.

(** ** Momentum *)
(** The same calls with other momenta. *)
Definition remom (f : T -> T) (a : tact T) : tact T :=
  match a with TTrain i j al mo => TTrain i j al (f mo) | TMany is js picks epochs batch al mo => TMany is js picks epochs batch al (f mo) | _ => a end.
Lemma par_mo (R : reading T) mb mb' al mo mo' c d : (forall x : T, nmul nzero x = nzero) -> has_mom c = false -> s_par R mb al mo c d = s_par R mb' al mo' c d.
Proof using Type.
  intros Z Hm. assert (Hz : forall sh idx (z : T), el (vzero sh) idx = Some z -> z = nzero) by (intros sh idx z; apply zeros_el; apply zero_zeros).
  unfold s_par, s_bias, s_weights. destruct (c_par c); [|reflexivity]. unfold has_mom in Hm. destruct (c_l c) as [[]|]; try discriminate Hm; try reflexivity.
  destruct (r_ref R (c_i c)) as [r|]; [|reflexivity]. cbn [mbind option_bind]. destruct (share r d) as [e|]; [|reflexivity]. cbn [mbind option_bind]. destruct (r_b R (c_i c)) as [b|]; [|reflexivity]. cbn [mbind option_bind].
  replace (g_dense_b al mo e b (vzero (vsh b))) with (g_dense_b al mo' e b (vzero (vsh b))).
  - destruct (g_dense_b al mo' e b (vzero (vsh b))) as [b'|]; [|reflexivity]. cbn [mbind option_bind]. destruct (r_x R (c_i c)) as [x|]; [|reflexivity]. cbn [mbind option_bind]. destruct (r_w R (c_i c)) as [w|]; [|reflexivity]. cbn [mbind option_bind].
    replace (g_dense_w al mo e x w (vzero (vsh w))) with (g_dense_w al mo' e x w (vzero (vsh w))); [reflexivity|].
    unfold g_dense_w. apply tab_ext. intros idx _. destruct idx as [|i [|j []]]; try reflexivity. destruct (el e [i]); [|reflexivity]. cbn [mbind option_bind]. destruct (vdata x !! N.to_nat j); [|reflexivity]. cbn [mbind option_bind].
    destruct (el w [i; j]); [|reflexivity]. cbn [mbind option_bind]. destruct (el (vzero (vsh w)) [i; j]) as [z|] eqn:Ez; [|reflexivity]. cbn [mbind option_bind]. rewrite (Hz _ _ _ Ez), !Z. reflexivity.
  - unfold g_dense_b. apply tab_ext. intros idx _. destruct (el e idx); [|reflexivity]. cbn [mbind option_bind]. destruct (el b idx); [|reflexivity]. cbn [mbind option_bind].
    destruct (el (vzero (vsh b)) idx) as [z|] eqn:Ez; [|reflexivity]. cbn [mbind option_bind]. rewrite (Hz _ _ _ Ez), !Z. reflexivity.
Qed.
Lemma step_mo (R R' : reading T) mb mb' al mo mo' : (forall x : T, nmul nzero x = nzero) -> forall cs, still_layers cs -> (forall c, c ∈ cs -> agree R R' (c_i c)) -> forall d, s_step R mb al mo cs d = s_step R' mb' al mo' cs d.
Proof using Type.
  intros Z cs Hs Ha d. transitivity (s_step R' mb al mo cs d).
  { apply s_step_mom. intros c Hc. split; [apply Ha; exact Hc|reflexivity]. }
  clear Ha. revert d. induction cs as [|c cs IH]; intros d; [reflexivity|]. unfold still_layers in Hs. apply Forall_cons in Hs as [Hc Hs]. cbn [s_step]. rewrite (par_mo R' mb mb' al mo mo' c d Z Hc). destruct (s_par R' mb' al mo' c d) as [u|]; [|reflexivity]. cbn [mbind option_bind].
  destruct cs as [|q r]; [reflexivity|]. destruct (s_in _ _ _ _ d) as [d'|]; [|reflexivity]. cbn [mbind option_bind]. rewrite (IH Hs). reflexivity.
Qed.
Lemma new_par_ext par par' i : par i = par' i -> forall cs us, new_par par cs us i = new_par par' cs us i.
Proof using Type. intros E. induction cs as [|c cs IH]; intros us; [exact E|]. destruct us as [|u us]; [exact E|]. cbn [new_par]. destruct (i =? c_i c); [destruct (snd u); [reflexivity|exact E]|apply IH]. Qed.
Definition same_par par par' cs : Prop := forall p, p ∈ cs -> c_par p = true -> par (c_i p) = par' (c_i p).
Lemma train_mo par par' mb mb' al mo mo' cs x y k par1 mb1 : (forall x : T, nmul nzero x = nzero) -> still_layers cs -> same_par par par' cs -> s_train par mb al mo cs x y = Some (k, par1, mb1) ->
  exists par2 mb2, s_train par' mb' al mo' cs x y = Some (k, par2, mb2) /\ same_par par1 par2 cs.
Proof using Type.
  intros Z Hs Hp E. unfold s_train, s_err in *. rewrite <- (s_out_ext par par' x cs Hp). apply bind_Some in E as (d & -> & E). cbn [mbind option_bind]. apply bind_Some in E as (us & Es & E). apply bind_Some in E as (z & -> & E). injection E as <- <- <-.
  rewrite (step_mo _ (s_show par' x 0 cs) mb mb' al mo mo' Z cs Hs) in Es by (intros; apply s_show_ext; exact Hp). rewrite Es. cbn [mbind option_bind]. eexists _, _. split; [reflexivity|]. intros p Hq Hc. apply new_par_ext. apply Hp; assumption.
Qed.
Lemma keep_same tr par par' par1 par1' cs : same_par par par' cs -> same_par par1 par1' cs -> same_par (s_keep tr par par1) (s_keep tr par' par1') cs.
Proof using Type. intros H1 H2 p Hp Hc. unfold s_keep. destruct (tr (c_i p)); auto. Qed.
Lemma trains_mo ish osh tr al mo mo' cs pairs : (forall x : T, nmul nzero x = nzero) -> still_layers cs -> forall ks par par' mb mb' par1 mb1, same_par par par' cs -> s_trains ish osh tr par mb al mo cs pairs ks = Some (par1, mb1) ->
  exists par2 mb2, s_trains ish osh tr par' mb' al mo' cs pairs ks = Some (par2, mb2) /\ same_par par1 par2 cs.
Proof using Type.
  intros Z Hs. induction ks as [|k ks IH]; intros par par' mb mb' par1 mb1 Hp E; cbn [s_trains] in *; [injection E as <- _; eauto|].
  apply bind_Some in E as (xy & -> & E). cbn [mbind option_bind]. destruct (_ && _); [|discriminate]. apply bind_Some in E as ([[z para] mba] & E1 & E). cbn [fst snd] in E.
  destruct (train_mo par par' mb mb' al mo mo' cs _ _ _ _ _ Z Hs Hp E1) as (parb & mbb & -> & Hp2). cbn [mbind option_bind fst snd]. eapply IH; [|exact E]. apply keep_same; assumption.
Qed.
Lemma history_mo ish osh cs f : (forall x : T, nmul nzero x = nzero) -> still_layers cs -> forall acts st st' os, thistory ish osh cs st acts st' os -> forall par mb, same_par (t_par st) par cs ->
  exists par2 mb2, thistory ish osh cs (MkT (t_vals st) par mb (t_tr st)) (map (remom f) acts) (MkT (t_vals st') par2 mb2 (t_tr st')) os /\ same_par (t_par st') par2 cs.
Proof using Type.
  intros Z Hs. induction 1 as [st|st a st1 o acts st2 os Hst _ IH]; intros par0 mb0 Hp; [exists par0, mb0; split; [constructor|exact Hp]|].
  assert (Hst2 : exists par2 mb2, tstep ish osh cs (MkT (t_vals st) par0 mb0 (t_tr st)) (remom f a) (MkT (t_vals st1) par2 mb2 (t_tr st1)) o /\ same_par (t_par st1) par2 cs).
  { inversion Hst; subst; cbn [t_vals t_par t_tr remom] in *.
    - eexists _, _. split; [constructor; assumption|exact Hp].
    - eexists _, _. split; [constructor; assumption|exact Hp].
    - eexists _, _. split; [eapply ts_predict; [eassumption|reflexivity|]|exact Hp]. rewrite <- (s_out_ext par par0 x cs Hp). assumption.
    - eexists _, _. split; [eapply ts_refuse; eassumption|exact Hp].
    - destruct (train_mo par par0 mb mb0 al mo (f mo) cs x y k par' mb' Z Hs Hp) as (par2 & mb2 & E & Hp2); [assumption|]. eexists _, _. split; [eapply ts_train; try eassumption; reflexivity|]. apply keep_same; assumption.
    - eexists _, _. split; [eapply ts_train_bad; eassumption|exact Hp].
    - destruct (trains_mo ish osh tr al mo (f mo) cs pairs Z Hs _ par par0 mb mb0 par' mb' Hp ltac:(eassumption)) as (par2 & mb2 & E & Hp2). eexists _, _. split; [eapply ts_many; eassumption|exact Hp2].
    - destruct (trains_mo ish osh tr al mo (f mo) cs pairs Z Hs _ par par0 mb mb0 par' mb' Hp ltac:(eassumption)) as (par2 & mb2 & E & Hp2). eexists _, _. split; [eapply ts_many_stop; eassumption|exact Hp2].
    - eexists _, _. split; [apply ts_many_bad; assumption|exact Hp].
    - eexists _, _. split; [constructor; assumption|exact Hp].
    - eexists _, _. split; [constructor|exact Hp]. }
  destruct Hst2 as (par2 & mb2 & Hst2 & Hp2). destruct (IH par2 mb2 Hp2) as (par3 & mb3 & Hh & Hp3). exists par3, mb3. split; [econstructor; eassumption|exact Hp3].
Qed.
(** One step with two momenta: the same errors and weights, and the same bias
    where none is kept. *)
Lemma weights_mo (R : reading T) al mo mo' c d : (forall x : T, nmul nzero x = nzero) -> s_weights R al mo c d = s_weights R al mo' c d.
Proof using Type.
  intros Z. destruct (has_mom c) eqn:Hm.
  - assert (Hv : forall w : vten T, v_scal BMul (vzero (vsh w)) mo = v_scal BMul (vzero (vsh w)) mo').
    { intros w. unfold v_scal, vzero. cbn [vdata vsh]. f_equal. generalize (N.to_nat (prodN (vsh w))). intros n. induction n as [|n IH]; [reflexivity|]. cbn [replicate mapM]. rewrite IH. cbn [bin]. rewrite !Z. reflexivity. }
    unfold s_weights. unfold has_mom in Hm. destruct (c_l c) as [[]|]; try discriminate Hm;
      (destruct (v_scal BMul d al); [|reflexivity]; cbn [mbind option_bind]; destruct (r_x R (c_i c)); [|reflexivity]; cbn [mbind option_bind]; destruct (r_w R (c_i c)) as [w|]; [|reflexivity]; cbn [mbind option_bind]; rewrite (Hv w); reflexivity).
  - unfold s_weights. unfold has_mom in Hm. destruct (c_l c) as [[]|]; try discriminate Hm; try reflexivity.
    destruct (r_ref R (c_i c)) as [r|]; [|reflexivity]. cbn [mbind option_bind]. destruct (share r d) as [e|]; [|reflexivity]. cbn [mbind option_bind]. destruct (r_x R (c_i c)) as [x|]; [|reflexivity]. cbn [mbind option_bind]. destruct (r_w R (c_i c)) as [w|]; [|reflexivity]. cbn [mbind option_bind].
    unfold g_dense_w. apply tab_ext. intros idx _. destruct idx as [|i [|j []]]; try reflexivity. destruct (el e [i]); [|reflexivity]. cbn [mbind option_bind]. destruct (vdata x !! N.to_nat j); [|reflexivity]. cbn [mbind option_bind].
    destruct (el w [i; j]); [|reflexivity]. cbn [mbind option_bind]. destruct (el (vzero (vsh w)) [i; j]) as [z|] eqn:Ez; [|reflexivity]. cbn [mbind option_bind]. rewrite (zeros_el _ _ _ (zero_zeros _) Ez), !Z. reflexivity.
Qed.
Lemma step_two (R : reading T) mb al mo mo' : (forall x : T, nmul nzero x = nzero) -> forall cs d us us', s_step R mb al mo cs d = Some us -> s_step R mb al mo' cs d = Some us' ->
  Forall2 (fun c uu => s_par R mb al mo c (fst (fst uu)) = Some (snd (fst uu)) /\ s_par R mb al mo' c (fst (fst uu)) = Some (snd (snd uu))) cs (zip us us') /\ length us = length us'.
Proof using Type.
  intros Z. induction cs as [|c cs IH]; intros d us us' E E'; cbn [s_step] in *; [injection E as <-; injection E' as <-; split; [constructor|reflexivity]|].
  apply bind_Some in E as (u & Eu & E). apply bind_Some in E as (us1 & Es & E). injection E as <-. apply bind_Some in E' as (u' & Eu' & E'). apply bind_Some in E' as (us1' & Es' & E'). injection E' as <-.
  destruct cs as [|q r].
  - injection Es as <-. injection Es' as <-. split; [|reflexivity]. repeat constructor; assumption.
  - apply bind_Some in Es as (d' & Ed & Es). rewrite Ed in Es'. cbn [mbind option_bind] in Es'. destruct (IH _ _ _ Es Es') as [Hf Hl]. split; [|cbn [length]; f_equal; exact Hl]. cbn [zip zip_with]. constructor; [split; assumption|exact Hf].
Qed.

(** ** Programs *)
Fixpoint fitted (ish : list N) cs : Prop :=
  match cs with [] => True | c :: rest => (forall l, c_l c = Some l -> lay_shape l (below ish rest) = Some (c_sh c)) /\ fitted ish rest end.
Lemma chain_from_fitted ish (ks : list (lay1 T)) : forall n cs cs', chain_from n cs ks = Some cs' -> fitted ish cs -> fitted ish cs'.
Proof using Type.
  induction ks as [|k ks IH]; intros n cs cs' E Hf; cbn [chain_from] in E; [injection E as <-; exact Hf|]. destruct cs as [|q r]; [discriminate|]. apply bind_Some in E as (sh & Hsh & E).
  destruct (train_fit _ _); [|discriminate]. eapply IH; [exact E|]. split; [|exact Hf]. cbn [c_l c_sh below]. intros l [= <-]. exact Hsh.
Qed.
Lemma chain_of_fitted b m0 (ks : list (lay1 T)) cs : chain_of b m0 ks = Some cs -> fitted (in_of m0) cs.
Proof using Type.
  unfold chain_of. destruct m0 as [sh|i o a|? ?|? ? ?]; try discriminate; intros E; cbn [in_of].
  - eapply chain_from_fitted; [exact E|]. split; [discriminate|exact I].
  - apply bind_Some in E as (sh & Hsh & E). destruct (train_fit _ _); [|discriminate]. eapply chain_from_fitted; [exact E|]. split; [|exact I]. cbn [c_l c_sh below]. intros l [= <-]. exact Hsh.
Qed.
Lemma starts_whole rnd ish par : forall cs, fitted ish cs -> starts rnd ish par cs -> forall p, p ∈ cs -> c_par p = true -> exists b w, par (c_i p) = Some (b, w) /\ shaped (vsh b) b /\ shaped (vsh w) w.
Proof using Type.
  induction cs as [|c rest IH]; intros Hf Hs p Hp Hc; [inversion Hp|]. destruct Hf as [Hf1 Hf2], Hs as [Hs1 Hs2]. apply elem_of_cons in Hp as [->|Hp]; [|apply IH; assumption].
  unfold c_par in Hc. destruct (c_l c) as [l|] eqn:El; [|discriminate]. destruct (par_some l _ _ (Hf1 l eq_refl) Hc) as (ws & Ews). destruct (Hs1 l _ _ eq_refl Ews) as (b & w & E & Hb & Hw).
  exists b, w. split; [exact E|]. apply drawn_sized in Hb. apply drawn_sized in Hw. rewrite (proj1 Hb), (proj1 Hw). auto.
Qed.
Lemma start_whole rnd b m0 (ks : list (lay1 T)) cs osh par : is_chain b m0 ks cs osh -> starts rnd (in_of m0) par cs -> NoDup (map c_i cs) /\ whole par cs.
Proof using Type.
  intros (_ & Hch & _) Hs. split; [apply (chain_of_ok _ _ _ _ Hch)|]. pose proof (starts_whole _ _ _ _ (chain_of_fitted _ _ _ _ Hch) Hs) as Hw. split.
  - intros p b0 w Hp Hc E. destruct (Hw p Hp Hc) as (b' & w' & E' & Hb & Hw'). rewrite E in E'. injection E' as <- <-. auto.
  - intros p Hp Hc. destruct (Hw p Hp Hc) as (b' & w' & E' & _). congruence.
Qed.
Section Programs.
Variables (rnd : nat -> nat -> T) (s : lst T) (m0 : mk T) (ks : list (lay1 T)) (cs : list (clay T)) (osh : list N).
(** The program ran, showed [os], and the layer [p] has the bias [b] and the
    weights [w] in the end. *)
Definition leaves (acts : list (tact T)) (os : list (option (list T))) (pars : clay T -> vten T -> vten T -> Prop) : Prop :=
  exists s' M tids, tprogram rnd m0 ks acts s = (Ok (seq (length (lays s)) (S (length ks)), (M, tids, os)), s') /\
    forall p, p ∈ cs -> c_par p = true -> exists b w, net_par s' (mem (ts s')) (c_i p) = Some (b, w) /\ pars p b w.
Definition has par (p : clay T) (b w : vten T) : Prop := par (c_i p) = Some (b, w).
Hypothesis His : is_chain (length (lays s)) m0 ks cs osh.
Hypothesis Hcu : counts_up (T:=T) (2 * (length (lays s) + S (length ks)) + 1).
Hypothesis Hty : tallies (T:=T) (length cs).
Notation begins par := (MkT [] par (still par) every).
Notation hist := (thistory (in_of m0) osh cs).
Lemma claim : exists par, starts rnd (in_of m0) par cs /\ NoDup (map c_i cs) /\ whole par cs /\ forall acts st os, hist (begins par) acts st os -> whole (t_par st) cs /\ leaves acts os (has (t_par st)).
Proof using His Hcu Hty.
  destruct (train_claim rnd s m0 ks cs osh His Hcu Hty) as (par & Hst & Hh). destruct (start_whole rnd _ _ _ _ _ par His Hst) as [Hnd Hw]. exists par. split; [exact Hst|]. split; [exact Hnd|]. split; [exact Hw|].
  intros acts st os Ha. pose proof (history_whole _ _ _ (begins par) _ _ _ Hnd Hw Ha) as Hw'. split; [exact Hw'|]. destruct (Hh _ _ _ Ha) as (s' & M & tids & E & Hp). exists s', M, tids. split; [exact E|]. intros p Hi Hc.
  rewrite (Hp p Hi Hc). destruct (t_par st (c_i p)) as [[b w]|] eqn:Ep; [|destruct Hw' as [_ Hn]; destruct (Hn p Hi Hc Ep)]. exists b, w. auto.
Qed.
Theorem frozen_claim k c acts1 a acts2 : rev cs !! k = Some c -> c_par c = true -> freezes k a -> Forall (fun a => ~ thaws k a) acts2 ->
  exists par, starts rnd (in_of m0) par cs /\ forall st os, hist (begins par) (acts1 ++ a :: acts2) st os ->
    exists os1 os2 b w, os = os1 ++ os2 /\ leaves (acts1 ++ [a]) os1 (fun p b' w' => p = c -> b' = b /\ w' = w) /\ leaves (acts1 ++ a :: acts2) os (fun p b' w' => p = c -> b' = b /\ w' = w).
Proof using His Hcu Hty.
  intros Hk Hc Hf Ht. destruct claim as (par & Hst & Hnd & Hw & Hh). exists par. split; [exact Hst|]. intros st os Ha. destruct (Hh _ _ _ Ha) as [Hw2 L2].
  change (a :: acts2) with ([a] ++ acts2) in Ha. rewrite app_assoc in Ha. destruct (thistory_app _ _ _ _ _ _ _ _ Ha) as (st1 & o1 & o2 & H1 & H2 & ->). destruct (Hh _ _ _ H1) as [Hw1 L1].
  assert (Ht1 : t_tr st1 (c_i c) = false).
  { destruct (thistory_app _ _ _ _ _ _ _ _ H1) as (st0 & o3 & o4 & _ & H4 & _). inversion H4 as [|? ? st3 ? ? ? ? Hs Hr]; subst. inversion Hr; subst. eapply freezes_step; eassumption. }
  pose proof (frozen_history _ _ _ k c Hnd Hk _ _ _ _ Ht H2 Ht1) as E.
  assert (Hin : c ∈ cs) by (apply elem_of_list_In, in_rev, elem_of_list_In; eapply elem_of_list_lookup_2; exact Hk).
  destruct (t_par st1 (c_i c)) as [[b w]|] eqn:Ep; [|destruct Hw1 as [_ Hn]; destruct (Hn c Hin Hc Ep)].
  exists o1, o2, b, w. split; [reflexivity|]. split.
  - destruct L1 as (s' & M & tids & E1 & Hp). exists s', M, tids. split; [exact E1|]. intros p Hi Hcp. destruct (Hp p Hi Hcp) as (b' & w' & En & Hx). exists b', w'. split; [exact En|]. intros ->. unfold has in Hx. rewrite Ep in Hx. injection Hx as <- <-. auto.
  - destruct L2 as (s' & M & tids & E1 & Hp). exists s', M, tids. split; [exact E1|]. intros p Hi Hcp. destruct (Hp p Hi Hcp) as (b' & w' & En & Hx). exists b', w'. split; [exact En|]. intros ->. unfold has in Hx. rewrite E in Hx. injection Hx as <- <-. auto.
Qed.
Theorem rate0_claim acts1 acts2 : zero_laws (T:=T) -> Forall (rate0 cs) acts2 ->
  exists par, starts rnd (in_of m0) par cs /\ forall st os, hist (begins par) (acts1 ++ acts2) st os ->
    exists os1 os2 now, os = os1 ++ os2 /\ leaves acts1 os1 (has now) /\ leaves (acts1 ++ acts2) os (has now).
Proof using His Hcu Hty.
  intros Z Hr. destruct claim as (par & Hst & Hnd & Hw & Hh). exists par. split; [exact Hst|]. intros st os Ha. destruct (Hh _ _ _ Ha) as [Hw2 L2].
  destruct (thistory_app _ _ _ _ _ _ _ _ Ha) as (st1 & o1 & o2 & H1 & H2 & ->). destruct (Hh _ _ _ H1) as [Hw1 L1]. exists o1, o2, (t_par st1). split; [reflexivity|]. split; [exact L1|].
  destruct L2 as (s' & M & tids & E1 & Hp). exists s', M, tids. split; [exact E1|]. intros p Hi Hcp. destruct (Hp p Hi Hcp) as (b' & w' & En & Hx). exists b', w'. split; [exact En|]. unfold has in *.
  rewrite <- (rate0_history _ _ _ p Z Hnd Hi Hcp _ _ _ _ Hw1 Hr H2). exact Hx.
Qed.
Theorem mo_claim f acts : (forall x : T, nmul nzero x = nzero) -> still_layers cs ->
  exists par, starts rnd (in_of m0) par cs /\ forall st os, hist (begins par) acts st os ->
    leaves acts os (has (t_par st)) /\ leaves (map (remom f) acts) os (has (t_par st)).
Proof using His Hcu Hty.
  intros Z Hsl. destruct claim as (par & Hst & Hnd & Hw & Hh). exists par. split; [exact Hst|]. intros st os Ha. split; [apply (Hh _ _ _ Ha)|].
  destruct (history_mo _ _ _ f Z Hsl _ _ _ _ Ha par (still par)) as (par2 & mb2 & Hb & Hs); [intros p _ _; reflexivity|]. cbn [t_vals t_tr] in Hb. destruct (Hh _ _ _ Hb) as [_ (s' & M & tids & E1 & Hp)]. exists s', M, tids. split; [exact E1|].
  intros p Hi Hcp. destruct (Hp p Hi Hcp) as (b' & w' & En & Hx). exists b', w'. split; [exact En|]. unfold has in *. rewrite (Hs p Hi Hcp). exact Hx.
Qed.
Theorem mo_step_claim acts i j al mo mo' : (forall x : T, nmul nzero x = nzero) ->
  exists par, starts rnd (in_of m0) par cs /\ forall st os st1 o1 st2 o2, hist (begins par) acts st os -> hist st [TTrain i j al mo] st1 o1 -> hist st [TTrain i j al mo'] st2 o2 ->
    exists bs ws, leaves (acts ++ [TTrain i j al mo]) (os ++ o1) (fun p b w => (has_mom p = false -> b = bs p) /\ w = ws p) /\ leaves (acts ++ [TTrain i j al mo']) (os ++ o1) (fun p b w => (has_mom p = false -> b = bs p) /\ w = ws p).
Proof using His Hcu Hty.
  intros Z. destruct claim as (par & Hst & Hnd & Hw & Hh). exists par. split; [exact Hst|]. intros st os st1 o1 st2 o2 H0 H1 H2.
  destruct (Hh _ _ _ (thistory_join _ _ _ _ _ _ _ _ _ _ H0 H1)) as [_ L1]. destruct (Hh _ _ _ (thistory_join _ _ _ _ _ _ _ _ _ _ H0 H2)) as [_ L2].
  inversion H1 as [|? ? sta oa ? ? osa S1 N1]; subst. inversion N1; subst. inversion H2 as [|? ? stb ob ? ? osb S2 N2]; subst. inversion N2; subst.
  inversion S1 as [| | | |vs pr mb tr ? ? x y ? ? z par1 mb1 X1 X2 X3 X4 X5|vs pr mb tr ? ? x y ? ? X1 X2 X3| | | | | ]; subst; (inversion S2 as [| | | |vs' pr' mb' tr' ? ? x' y' ? ? z' par2 mb2 Y1 Y2 Y3 Y4 Y5|vs' pr' mb' tr' ? ? x' y' ? ? Y1 Y2 Y3| | | | | ]; subst);
    try (exfalso; rewrite X1 in Y1; injection Y1 as <-; rewrite X2 in Y2; injection Y2 as <-; tauto).
  2:{ set (P1 := pr). exists (fun p => match P1 (c_i p) with Some (b, _) => b | None => vzero [] end), (fun p => match P1 (c_i p) with Some (_, w) => w | None => vzero [] end).
    split; [destruct L1 as (s' & M & tids & E1 & Hp)|destruct L2 as (s' & M & tids & E1 & Hp)]; exists s', M, tids; (split; [exact E1|]); intros p Hi Hcp; destruct (Hp p Hi Hcp) as (b' & w' & En & Hx); exists b', w'; (split; [exact En|]); unfold has in Hx; change (P1 (c_i p) = Some (b', w')) in Hx; rewrite Hx; auto. }
  rewrite X1 in Y1. injection Y1 as <-. rewrite X2 in Y2. injection Y2 as <-.
  unfold s_train in X5, Y5. apply bind_Some in X5 as (d & Ed & X5). rewrite Ed in Y5. cbn [mbind option_bind] in Y5. apply bind_Some in X5 as (us & Es & X5). apply bind_Some in Y5 as (us' & Es' & Y5).
  apply bind_Some in X5 as (zz & Ez & X5). rewrite Ez in Y5. cbn [mbind option_bind] in Y5. injection X5 as <- <- <-. injection Y5 as <- <- <-.
  destruct (step_two _ _ _ _ _ Z _ _ _ _ Es Es') as [Hf Hl].
  assert (Hk : forall p, p ∈ cs -> c_par p = true -> exists b b' w, t_par (MkT vs (s_keep tr pr (new_par pr cs us)) (new_mom mb al mo cs us) tr) (c_i p) = Some (b, w) /\ t_par (MkT vs (s_keep tr pr (new_par pr cs us')) (new_mom mb al mo' cs us') tr) (c_i p) = Some (b', w) /\ (has_mom p = false -> b = b')).
  { intros p Hp Hc. cbn [t_par]. destruct (history_whole _ _ _ (begins par) _ _ _ Hnd Hw H0) as [_ Hn]. cbn [t_par] in Hn. specialize (Hn p Hp Hc). unfold s_keep. destruct (tr (c_i p)); [|destruct (pr (c_i p)) as [[b w]|]; [|congruence]; exists b, b, w; auto].
    set (R := s_show pr x 0 cs) in Hf. clearbody R. clear - Hf Hl Hnd Hp Hc Z. revert us us' Hf Hl. induction cs as [|c rest IH]; [inversion Hp|]. intros us us' Hf Hl. destruct us as [|u us]; [inversion Hf|]. destruct us' as [|u' us']; [discriminate|]. cbn [zip zip_with] in Hf. apply Forall2_cons in Hf as [[E1 E2] Hf]. cbn [fst snd] in E1, E2. cbn [map] in Hnd. apply NoDup_cons in Hnd as [Hni Hnd].
    cbn [new_par]. apply elem_of_cons in Hp as [->|Hp].
    - rewrite Nat.eqb_refl. unfold s_par in E1, E2. rewrite Hc in E1, E2. apply bind_Some in E1 as (b & Eb & E1). apply bind_Some in E1 as (w & Ew & E1). apply bind_Some in E2 as (b' & Eb' & E2). apply bind_Some in E2 as (w' & Ew' & E2).
      injection E1 as <-. injection E2 as <-. rewrite (weights_mo _ _ mo mo' _ _ Z), Ew' in Ew. injection Ew as <-. exists b, b', w'. split; [reflexivity|]. split; [reflexivity|]. intros Hm.
      pose proof (par_mo R mb mb al mo mo' c (fst u) Z Hm) as E. unfold s_par in E. rewrite Hc, Eb, Eb' in E. cbn [mbind option_bind] in E. rewrite (weights_mo _ _ mo mo' _ _ Z), Ew' in E. cbn [mbind option_bind] in E. congruence.
    - destruct (Nat.eqb_spec (c_i p) (c_i c)) as [E|_]; [exfalso; apply Hni; rewrite <- E; apply elem_of_list_fmap; eauto|]. apply IH; try assumption. cbn [length] in Hl. lia. }
  set (P1 := t_par _) in Hk. 
  exists (fun p => match P1 (c_i p) with Some (b, _) => b | None => vzero [] end), (fun p => match P1 (c_i p) with Some (_, w) => w | None => vzero [] end). split.
  - destruct L1 as (s' & M & tids & E1 & Hp). exists s', M, tids. split; [exact E1|]. intros p Hi Hcp. destruct (Hp p Hi Hcp) as (b' & w' & En & Hx). exists b', w'. split; [exact En|]. unfold has in Hx. change (P1 (c_i p) = Some (b', w')) in Hx. rewrite Hx. auto.
  - destruct L2 as (s' & M & tids & E1 & Hp). exists s', M, tids. split; [exact E1|]. intros p Hi Hcp. destruct (Hp p Hi Hcp) as (b' & w' & En & Hx). exists b', w'. split; [exact En|]. unfold has in Hx. destruct (Hk p Hi Hcp) as (b1 & b2 & w & F1 & F2 & F3).
    rewrite F1. rewrite F2 in Hx. injection Hx as <- <-. split; [|reflexivity]. intros Hm. symmetry. auto.
Qed.
End Programs.
End TrnLaws.
