(** * NetChain: building a stack of dense layers *)
From Verif Require Import Base Num ModelTools ModelOps ModelTensor ModelGraph ModelLayer
  Spec Denote IndexProofs ExecProofs TensorFacts AccessProofs BuildProofs CompileProofs NetSpec NetExec NetBack NetBuild.
From Coq Require Import Lia ZifyBool ZifyNat ZifyN.

Section NetChain.
Context {T : Type} `{Num T}.
Context (rnd : nat -> nat -> T).
(** What a reference count of one is, and that it counts as "used" but not as "shared". *)
Definition one : T := nadd nzero none.
Context (Hone0 : neqb one nzero = false) (Hone1 : nltb none one = false).

Lemma getL_ok (s : lst T) id L : lays s !! id = Some L -> getL id s = (Ok L, s).
Proof. clear Hone0 Hone1 rnd. intros E. unfold getL. rewrite E. reflexivity. Qed.
Lemma updL_ok (s : lst T) id L f : lays s !! id = Some L ->
  updL id f s = (Ok tt, MkL (ts s) (<[id := f L]> (lays s)) (rc s)).
Proof. clear Hone0 Hone1 rnd. intros E. unfold updL. rewrite E. reflexivity. Qed.
Lemma liftT_ok {A} (c : TM T A) (s : lst T) a t : c (ts s) = (Ok a, t) -> liftT c s = (Ok a, MkL t (lays s) (rc s)).
Proof. clear Hone0 Hone1 rnd. intros E. unfold liftT. rewrite E. reflexivity. Qed.
Lemma rdM_at (s : tst T) r v : mem s !! r = Some v -> rdM (Some r) s = (Ok v, s).
Proof. clear Hone0 Hone1 rnd. intros E. unfold rdM. cbn. rewrite E. reflexivity. Qed.

(** One dense layer of the stack and the source of the stack: an input layer,
    or nothing when the first dense layer carries its own input tensor. *)
Record lsp : Type := LSp { s_id : nat; s_o : N; s_act : activation T; s_out : nat; s_ob : nat; s_tr : bool }.
Record src : Type := Src { r_id : option nat; r_t : nat; r_sh : list N; r_b : nat }.

Definition pre_of (sr : src) (rst : list lsp) : option nat :=
  match rst with [] => r_id sr | sp :: _ => Some (s_id sp) end.
Definition width_of (sr : src) (rst : list lsp) : N :=
  match rst with [] => prodN (r_sh sr) | sp :: _ => s_o sp end.
Definition inp_of (sr : src) (rst : list lsp) : nat :=
  match rst with [] => r_t sr | sp :: _ => s_out sp end.
Definition base_of (sr : src) (rst : list lsp) : nat :=
  match rst with [] => r_b sr | sp :: _ => s_ob sp end.
Definition ids (sr : src) (rst : list lsp) : list nat :=
  map s_id rst ++ match r_id sr with Some q => [q] | None => [] end.

(** Only the layers in [is] changed; memory and tensors grew. *)
(** A layer put at [i] has the counter of the one there, if there is one, or a new one. *)
Definition ref_ok (s : lst T) (i : nat) (L : layer T) : Prop :=
  forall L0, lays s !! i = Some L0 ->
    match lref L0 with Some r => lref L = Some r | None => forall r, lref L = Some r -> length (mem (ts s)) <= r end.
Record grow (is : list nat) (s s' : lst T) : Prop := {
  g_mem : exists e, mem (ts s') = mem (ts s) ++ e;
  g_tens : tle (ts s) (ts s');
  g_lays : forall i, i ∉ is -> lays s' !! i = lays s !! i;
  g_len : length (lays s') = length (lays s);
  g_ref : forall i L, lays s' !! i = Some L -> ref_ok s i L;
}.
Lemma ref_keep (s : lst T) i L0 L : lays s !! i = Some L0 -> lref L = lref L0 -> ref_ok s i L.
Proof. clear Hone0 Hone1 rnd.
  intros E1 E2 L1 HL1. rewrite E1 in HL1. injection HL1 as <-. rewrite E2. destruct (lref L0); [reflexivity|discriminate].
Qed.
Lemma ref_new (s : lst T) i L0 L : lays s !! i = Some L0 -> lref L0 = None -> lref L = Some (length (mem (ts s))) -> ref_ok s i L.
Proof. clear Hone0 Hone1 rnd.
  intros E1 E2 E L1 HL1. rewrite E1 in HL1. injection HL1 as <-. rewrite E2. intros r Hr. rewrite E in Hr. injection Hr as <-. lia.
Qed.
Lemma grow_refl is s : grow is s s.
Proof. clear Hone0 Hone1 rnd. split; [exists []; rewrite app_nil_r; reflexivity|apply tle_refl|reflexivity|reflexivity|]. intros i L HL. eapply ref_keep; [exact HL|reflexivity]. Qed.
Lemma grow_trans is s s1 s2 : grow is s s1 -> grow is s1 s2 -> grow is s s2.
Proof. clear Hone0 Hone1 rnd.
  intros [[e1 E1] T1 L1 N1 R1] [[e2 E2] T2 L2 N2 R2]. split.
  - exists (e1 ++ e2). rewrite E2, E1, app_assoc. reflexivity.
  - eapply tle_trans; eassumption.
  - intros i Hi. rewrite L2, L1 by assumption. reflexivity.
  - congruence.
  - intros i L HL L0 HL0. destruct (lookup_lt_is_Some_2 (lays s1) i) as [L' HL'].
    { rewrite N1. eapply lookup_lt_Some. exact HL0. }
    specialize (R2 i L HL L' HL'). specialize (R1 i L' HL' L0 HL0).
    destruct (lref L0) as [r0|]; [rewrite R1 in R2; exact R2|]. intros r Hr. destruct (lref L') as [r1|].
    + rewrite R2 in Hr. injection Hr as <-. apply R1. reflexivity.
    + specialize (R2 r Hr). rewrite E1, app_length in R2. lia.
Qed.
Lemma grow_weaken is is' s s' : grow is s s' -> (forall i, i ∈ is -> i ∈ is') -> grow is' s s'.
Proof. clear Hone0 Hone1 rnd. intros [] Hs. split; auto. Qed.
Lemma grow_mem is s s' a v : grow is s s' -> mem (ts s) !! a = Some v -> mem (ts s') !! a = Some v.
Proof. clear Hone0 Hone1 rnd.
  intros [[e E] _ _ _ _] Hv. rewrite E. apply lookup_app_l_Some. assumption.
Qed.
Lemma grow_len is s s' : grow is s s' -> length (mem (ts s)) <= length (mem (ts s')).
Proof. clear Hone0 Hone1 rnd. intros [[e E] _ _ _ _]. rewrite E, app_length. lia. Qed.

Definition ref1 (s : lst T) (L : layer T) : Prop :=
  exists r, lref L = Some r /\ mem (ts s) !! r = Some one.
Lemma ref1_grow is s s' L : grow is s s' -> ref1 s L -> ref1 s' L.
Proof. clear Hone0 Hone1 rnd. intros Hg (r & Hr & Hm). exists r. split; [assumption|]. eapply grow_mem; eassumption. Qed.

(** A dense layer of the stack before feed-forward is built. *)
Record dl (built refd : bool) (s : lst T) (sp : lsp) (pre preset : option nat) (L : layer T) : Prop := {
  dl_at : lays s !! s_id sp = Some L;
  dl_kind : lkind_of L = LDense;
  dl_act : lact L = Some (s_act sp);
  dl_pre : lpre L = pre;
  dl_out : lten L FOutput = Some (s_out sp);
  dl_blk : blk (ts s) (s_out sp) [s_o sp] (s_ob sp);
  dl_tr : lflag L BTrainable = s_tr sp;
  dl_bp : lflag L BBP = false;
  dl_ff : lflag L BFF = false;
  dl_der : lten L FDer = None;
  dl_set : match preset with Some t => lten L FInput = Some t | None => True end;
  dl_built : lflag L BBuild = built;
  dl_ref : if refd then ref1 s L else lref L = None;
}.
Record il (built refd : bool) (s : lst T) (q : nat) (sr : src) (L : layer T) : Prop := {
  il_at : lays s !! q = Some L;
  il_kind : lkind_of L = LInput;
  il_act : lact L = Some linear_act;
  il_pre : lpre L = None;
  il_in : lten L FInput = Some (r_t sr);
  il_bp : lflag L BBP = false;
  il_ff : lflag L BFF = false;
  il_der : lten L FDer = None;
  il_tr : lflag L BTrainable = false;
  il_w : lten L FWeights = None /\ lten L FBias = None /\ lten L FNBias = None;
  il_built : lflag L BBuild = built;
  il_ref : if refd then ref1 s L else lref L = None;
}.
Definition preset_of (sr : src) (rst : list lsp) : option nat :=
  match rst, r_id sr with [], None => Some (r_t sr) | _, _ => None end.
Definition sl (built refd : bool) (s : lst T) (sr : src) : Prop :=
  match r_id sr with Some q => exists L, il built refd s q sr L | None => True end.
Fixpoint stk (built refd : bool) (s : lst T) (sr : src) (rst : list lsp) : Prop :=
  match rst with
  | [] => sl built refd s sr
  | sp :: rst' =>
      (exists L, dl built refd s sp (pre_of sr rst') (preset_of sr rst') L) /\ stk built refd s sr rst'
  end.
(** The last layer has been counted, nothing else has been done. *)
Definition stk_top (s : lst T) (sr : src) (rst : list lsp) : Prop :=
  match rst with
  | [] => sl false true s sr
  | sp :: rst' =>
      (exists L, dl false true s sp (pre_of sr rst') (preset_of sr rst') L) /\ stk false false s sr rst'
  end.

Lemma dl_grow is b r s s' sp pre preset L :
  grow is s s' -> s_id sp ∉ is -> dl b r s sp pre preset L -> dl b r s' sp pre preset L.
Proof. clear Hone0 Hone1 rnd.
  intros Hg Hi []. split; try assumption.
  - rewrite (g_lays _ _ _ Hg) by assumption. assumption.
  - eapply tle_blk; [apply (g_tens _ _ _ Hg)|assumption].
  - destruct r; [eapply ref1_grow; eassumption|assumption].
Qed.
Lemma il_grow is b r s s' q sr L : grow is s s' -> q ∉ is -> il b r s q sr L -> il b r s' q sr L.
Proof. clear Hone0 Hone1 rnd.
  intros Hg Hi []. split; try assumption.
  - rewrite (g_lays _ _ _ Hg) by assumption. assumption.
  - destruct r; [eapply ref1_grow; eassumption|assumption].
Qed.
Lemma stk_grow is b r s s' sr rst :
  grow is s s' -> (forall i, i ∈ is -> i ∉ ids sr rst) -> stk b r s sr rst -> stk b r s' sr rst.
Proof. clear Hone0 Hone1 rnd.
  intros Hg. induction rst as [|sp rst IH]; intros Hi; cbn [stk].
  - unfold sl, ids in *. destruct (r_id sr) as [q|]; [|auto]. intros [L HL]. exists L.
    eapply il_grow; [exact Hg| |exact HL]. intros Hq. apply (Hi q Hq). cbn. left.
  - intros [[L HL] Hr]. split.
    + exists L. eapply dl_grow; [exact Hg| |exact HL]. intros Hq. apply (Hi _ Hq). cbn. left.
    + apply IH; [|assumption]. intros i Hx Hin. apply (Hi i Hx). cbn. right. exact Hin.
Qed.

(** *** Counting *)
(** [GetRef] and [++] on a layer nobody has counted yet. *)
Lemma count_fresh (s : lst T) q L : lays s !! q = Some L -> lref L = None ->
  (r <~ GetRef q ; liftT (incr r)) s =
  (Ok tt, MkL (MkSt (mem (ts s) ++ [one]) (tens (ts s)) (ctx (ts s)))
            (<[q := set_ref (Some (length (mem (ts s)))) L]> (lays s)) (rc s)).
Proof. clear Hone0 Hone1 rnd.
  intros HL Hr. unfold GetRef. erewrite mbnd_ok.
  2:{ erewrite mbnd_ok by (apply getL_ok; exact HL). rewrite Hr.
      erewrite mbnd_ok by (apply liftT_ok; reflexivity).
      erewrite mbnd_ok by (apply updL_ok; exact HL). reflexivity. }
  cbn [ts lays rc mem tens ctx].
  assert (E : incr (Some (length (mem (ts s)))) (MkSt (mem (ts s) ++ [nzero]) (tens (ts s)) (ctx (ts s))) =
    (Ok tt, MkSt (mem (ts s) ++ [one]) (tens (ts s)) (ctx (ts s)))).
  { unfold incr. erewrite mbnd_ok.
    2:{ apply rdM_at. cbn [mem]. apply list_lookup_middle. reflexivity. }
    unfold wrM. cbn [wr mem tens ctx]. rewrite decide_True by (rewrite app_length; cbn; lia).
    rewrite insert_app_r_alt by lia. rewrite Nat.sub_diag. reflexivity. }
  unfold liftT. cbn [ts]. rewrite E. reflexivity.
Qed.


Lemma count_then {A} (s : lst T) q L (k : LM T A) : lays s !! q = Some L -> lref L = None ->
  (r <~ GetRef q ; liftT (incr r) ;~ k) s =
  k (MkL (MkSt (mem (ts s) ++ [one]) (tens (ts s)) (ctx (ts s)))
            (<[q := set_ref (Some (length (mem (ts s)))) L]> (lays s)) (rc s)).
Proof. clear Hone0 Hone1 rnd.
  intros HL Hr. pose proof (count_fresh s q L HL Hr) as E. revert E. unfold mbnd.
  destruct (GetRef q s) as [[r| | |] s1]; try discriminate.
  intros ->. reflexivity.
Qed.
Lemma lay_ne (s : lst T) i j L : i <> j -> <[j := L]> (lays s) !! i = lays s !! i.
Proof. clear Hone0 Hone1 rnd. intros Hn. apply list_lookup_insert_ne. congruence. Qed.
Lemma lay_eq (s : lst T) i L L0 : lays s !! i = Some L0 -> <[i := L]> (lays s) !! i = Some L.
Proof. clear Hone0 Hone1 rnd. intros E. apply list_lookup_insert. eapply lookup_lt_Some. exact E. Qed.

(** Setting fields of one layer. *)
Lemma grow_ins (s : lst T) i L j L' : ref_ok s i L -> <[i := L]> (lays s) !! j = Some L' -> ref_ok s j L'.
Proof. clear Hone0 Hone1 rnd.
  intros Hrf E. apply list_lookup_insert_Some in E as [(-> & -> & _)|[_ E]]; [exact Hrf|].
  eapply ref_keep; [exact E|reflexivity].
Qed.
Lemma grow_upd is (s : lst T) i L e c r :
  i ∈ is -> ref_ok s i L -> grow is s (MkL (MkSt (mem (ts s) ++ e) (tens (ts s)) c) (<[i := L]> (lays s)) r).
Proof. clear Hone0 Hone1 rnd.
  intros Hi Hrf. split; cbn.
  - exists e. reflexivity.
  - apply tle_app with (x := []). cbn. rewrite app_nil_r. reflexivity.
  - intros j Hj. apply list_lookup_insert_ne. intros ->. contradiction.
  - apply insert_length.
  - intros j L' HL'. apply (grow_ins s i L); assumption.
Qed.
Lemma grow_upd0 is (s : lst T) i L : i ∈ is -> ref_ok s i L -> grow is s (MkL (ts s) (<[i := L]> (lays s)) (rc s)).
Proof. clear Hone0 Hone1 rnd.
  intros Hi Hrf. pose proof (grow_upd is s i L [] (ctx (ts s)) (rc s) Hi Hrf) as Hg. rewrite app_nil_r in Hg.
  destruct s as [[mm tn c] ls r]. exact Hg.
Qed.

Lemma ids_cons sr sp rst : ids sr (sp :: rst) = s_id sp :: ids sr rst.
Proof. clear Hone0 Hone1 rnd. reflexivity. Qed.
Lemma pre_in sr rst q : pre_of sr rst = Some q -> q ∈ ids sr rst.
Proof. clear Hone0 Hone1 rnd.
  destruct rst as [|sp rst]; cbn; [|intros [= <-]; left]. unfold ids. cbn. intros ->. left.
Qed.

Lemma stk_fresh s sr rst q : stk false false s sr rst -> pre_of sr rst = Some q ->
  exists L, lays s !! q = Some L /\ lref L = None.
Proof. clear Hone0 Hone1 rnd.
  destruct rst as [|sp rst]; cbn [stk pre_of].
  - unfold sl. intros Hs E. rewrite E in Hs. destruct Hs as [L HL]. exists L. split; apply HL.
  - intros [[L HL] _] [= <-]. exists L. split; apply HL.
Qed.
Lemma stk_counted s sr rst q L : NoDup (ids sr rst) -> stk false false s sr rst -> pre_of sr rst = Some q ->
  lays s !! q = Some L ->
  stk_top (MkL (MkSt (mem (ts s) ++ [one]) (tens (ts s)) (ctx (ts s)))
             (<[q := set_ref (Some (length (mem (ts s)))) L]> (lays s)) (rc s)) sr rst.
Proof. clear Hone0 Hone1 rnd.
  intros Hnd Hs Hq HL.
  set (s' := MkL _ _ _).
  assert (Hrn : lref L = None).
  { destruct (stk_fresh _ _ _ _ Hs Hq) as (L0 & HL0 & Hr0). rewrite HL in HL0. injection HL0 as <-. exact Hr0. }
  assert (Hg : grow [q] s s') by (apply grow_upd; [left|eapply ref_new; [exact HL|exact Hrn|reflexivity]]).
  assert (Hr : mem (ts s') !! length (mem (ts s)) = Some one) by (apply list_lookup_middle; reflexivity).
  assert (HL' : lays s' !! q = Some (set_ref (Some (length (mem (ts s)))) L)) by (eapply lay_eq; exact HL).
  destruct rst as [|sp rst]; cbn [stk stk_top pre_of] in *.
  - unfold sl in *. rewrite Hq in *. destruct Hs as [L0 HL0].
    pose proof (il_at _ _ _ _ _ _ HL0) as E. rewrite HL in E. injection E as <-.
    eexists. destruct HL0. split; try eassumption; try (exact HL').
    exists (length (mem (ts s))). split; [reflexivity|exact Hr].
  - injection Hq as <-. destruct Hs as [[L0 HL0] Hs]. split.
    + pose proof (dl_at _ _ _ _ _ _ _ HL0) as E. rewrite HL in E. injection E as <-.
      eexists. destruct HL0. split; try eassumption; try (exact HL').
      exists (length (mem (ts s))). split; [reflexivity|exact Hr].
    + rewrite ids_cons in Hnd. apply NoDup_cons in Hnd as [Hn _].
      eapply stk_grow; [exact Hg| |exact Hs]. intros i Hi. apply elem_of_list_singleton in Hi. subst i. exact Hn.
Qed.

Lemma LBuild_stk sr : forall rst s fuel id,
  pre_of sr rst = Some id -> length rst < fuel -> NoDup (ids sr rst) -> stk_top s sr rst ->
  exists s', LBuild fuel id s = (Ok tt, s') /\ stk true true s' sr rst /\ grow (ids sr rst) s s' /\
    tens (ts s') = tens (ts s) /\ ctx (ts s') = ctx (ts s) /\ rc s' = rc s.
Proof. clear Hone1.
  induction rst as [|sp rst IH]; intros s fuel id Hid Hfuel Hnd Hs; (destruct fuel as [|fuel]; [cbn in Hfuel; lia|]).
  - cbn [pre_of stk_top] in *. unfold sl in Hs. rewrite Hid in Hs. destruct Hs as [L HL].
    pose proof (il_at _ _ _ _ _ _ HL) as HA.
    set (L1 := set_flag BBuild true L).
    set (s1 := MkL (ts s) (<[id := L1]> (lays s)) (rc s)).
    assert (H1 : lays s1 !! id = Some L1) by (eapply lay_eq; exact HA).
    pose proof (il_ref _ _ _ _ _ _ HL) as (r & Hr & Hm). 
    exists s1. split; [|split; [|split; [|repeat split]]].
    + cbn [LBuild]. erewrite mbnd_ok.
      2:{ unfold CheckB. erewrite mbnd_ok by (apply getL_ok; exact HA). rewrite (il_built _ _ _ _ _ _ HL).
          erewrite mbnd_ok by (apply updL_ok; exact HA). reflexivity. }
      cbn iota. fold L1. fold s1. erewrite mbnd_ok by (apply getL_ok; exact H1).
      change (lkind_of L1) with (lkind_of L). rewrite (il_kind _ _ _ _ _ _ HL).
      change (lpre L1) with (lpre L). rewrite (il_pre _ _ _ _ _ _ HL).
      erewrite mbnd_ok; [reflexivity|].
      erewrite mbnd_ok.
      2:{ unfold GetRef. erewrite mbnd_ok by (apply getL_ok; exact H1). change (lref L1) with (lref L). rewrite Hr. reflexivity. }
      erewrite mbnd_ok by reflexivity. erewrite mbnd_ok by (apply getL_ok; exact H1).
      change (lref L1) with (lref L). rewrite Hr.
      erewrite mbnd_ok by (apply liftT_ok; apply rdM_at; exact Hm). rewrite Hone0. reflexivity.
    + cbn [stk]. unfold sl. rewrite Hid. exists L1. destruct HL. split; try assumption. reflexivity.
    + apply grow_upd0; [apply pre_in; exact Hid|eapply ref_keep; [exact HA|reflexivity]].
  - cbn [pre_of] in Hid. injection Hid as <-. cbn [stk_top] in Hs. destruct Hs as [[L HL] Hs].
    pose proof (dl_at _ _ _ _ _ _ _ HL) as HA. rewrite ids_cons in Hnd. apply NoDup_cons in Hnd as [Hni Hnd].
    set (id := s_id sp) in *. set (L1 := set_flag BBuild true L).
    set (s1 := MkL (ts s) (<[id := L1]> (lays s)) (rc s)).
    assert (H1 : lays s1 !! id = Some L1) by (eapply lay_eq; exact HA).
    pose proof (dl_ref _ _ _ _ _ _ _ HL) as (r & Hr & Hm).
    assert (Hg1 : grow [id] s s1) by (apply grow_upd0; [left|eapply ref_keep; [exact HA|reflexivity]]).
    assert (Hs1 : stk false false s1 sr rst).
    { eapply stk_grow; [exact Hg1| |exact Hs]. intros i Hi. apply elem_of_list_singleton in Hi. subst i. exact Hni. }
    (* the rest of the stack *)
    assert (Hrest : exists s2,
      (match pre_of sr rst with
       | Some q => r <~ GetRef q ; liftT (incr r) ;~ LBuild fuel q
       | None => mret tt end) s1 = (Ok tt, s2) /\ stk true true s2 sr rst /\ grow (ids sr rst) s1 s2 /\
       tens (ts s2) = tens (ts s) /\ ctx (ts s2) = ctx (ts s) /\ rc s2 = rc s).
    { destruct (pre_of sr rst) as [q|] eqn:Hq.
      - destruct (stk_fresh _ _ _ _ Hs1 Hq) as (Lq & HLq & Hrq).
        rewrite (count_then s1 q Lq _ HLq Hrq).
        set (s2 := MkL _ _ _).
        destruct (IH s2 fuel q) as (s3 & E3 & S3 & G3 & T3 & C3 & R3).
        + reflexivity.
        + cbn in Hfuel. lia.
        + exact Hnd.
        + apply stk_counted; assumption.
        + exists s3. split; [exact E3|]. split; [exact S3|]. split; [|split; [|split]].
          * eapply grow_trans; [|exact G3]. apply grow_upd; [apply pre_in; exact Hq|eapply ref_new; [exact HLq|exact Hrq|reflexivity]].
          * rewrite T3. reflexivity.
          * rewrite C3. reflexivity.
          * rewrite R3. reflexivity.
      - exists s1. split; [reflexivity|]. split; [|split; [apply grow_refl|repeat split]].
        destruct rst; [|discriminate]. cbn. unfold sl. cbn in Hq. rewrite Hq. exact I. }
    destruct Hrest as (s2 & E2 & S2 & G2 & T2 & C2 & R2).
    assert (H2 : lays s2 !! id = Some L1) by (rewrite (g_lays _ _ _ G2) by exact Hni; exact H1).
    assert (Hm2 : mem (ts s2) !! r = Some one) by (eapply grow_mem; [exact G2|exact Hm]).
    exists s2. split; [|split; [|split; [|repeat split; assumption]]].
    + cbn [LBuild]. erewrite mbnd_ok.
      2:{ unfold CheckB. erewrite mbnd_ok by (apply getL_ok; exact HA). rewrite (dl_built _ _ _ _ _ _ _ HL).
          erewrite mbnd_ok by (apply updL_ok; exact HA). reflexivity. }
      cbn iota. fold L1. fold s1. erewrite mbnd_ok by (apply getL_ok; exact H1).
      change (lkind_of L1) with (lkind_of L). rewrite (dl_kind _ _ _ _ _ _ _ HL).
      change (lpre L1) with (lpre L). rewrite (dl_pre _ _ _ _ _ _ _ HL).
      erewrite mbnd_ok.
      2:{ unfold GetRef. erewrite mbnd_ok by (apply getL_ok; exact H1). change (lref L1) with (lref L). rewrite Hr. reflexivity. }
      erewrite mbnd_ok by exact E2. erewrite mbnd_ok by (apply getL_ok; exact H2).
      change (lref L1) with (lref L). rewrite Hr.
      erewrite mbnd_ok by (apply liftT_ok; apply rdM_at; exact Hm2). rewrite Hone0. destruct s2; reflexivity.
    + cbn [stk]. split; [|exact S2]. exists L1. destruct HL. split; try assumption; try reflexivity.
      * eapply tle_blk; [apply (g_tens _ _ _ G2)|exact dl_blk0].
      * exists r. split; [exact Hr|exact Hm2].
    + eapply grow_trans.
      * eapply grow_weaken; [exact Hg1|]. intros i Hi. apply elem_of_list_singleton in Hi. subst i. left.
      * eapply grow_weaken; [exact G2|]. intros i Hi. right. exact Hi.
Qed.

(** *** Feed-forward *)
(** A dense layer whose feed-forward part has been built at the addresses of [l]. *)
Record dl2 (dn : bool) (s : lst T) (sp : lsp) (pre : option nat) (inp : nat) (l : dlay T) (L : layer T) : Prop := {
  d2_at : lays s !! s_id sp = Some L;
  d2_kind : lkind_of L = LDense;
  d2_act : lact L = Some (s_act sp);
  d2_pre : lpre L = pre;
  d2_out : lten L FOutput = Some (s_out sp);
  d2_blk : blk (ts s) (s_out sp) [s_o sp] (aout l);
  d2_tr : lflag L BTrainable = s_tr sp;
  d2_bp : lflag L BBP = false;
  d2_der : dn = true -> lten L FDer = None;
  d2_ref : ref1 s L;
  d2_in : lten L FInput = Some inp;
  d2_neta : exists t, lten L FNeta = Some t /\ blk (ts s) t [s_o sp] (a0 l);
  d2_dif : exists t, lten L FDif = Some t /\ blk (ts s) t [s_o sp] (adif l 0);
  d2_bias : exists t, lten L FBias = Some t /\ blk (ts s) t [s_o sp] (ab l 0);
  d2_w : exists t, lten L FWeights = Some t /\ blk (ts s) t [s_o sp; N.of_nat (ni l)] (aw l 0 0);
  d2_no : no l = N.to_nat (s_o sp);
  d2_df : df l = act_f (s_act sp);
  d2_dd : dd l = act_d (s_act sp);
}.
(** The input layer, its errors in the block at [da]. *)
Record il2 (dn : bool) (s : lst T) (q : nat) (sr : src) (da : nat) (L : layer T) : Prop := {
  i2_at : lays s !! q = Some L;
  i2_kind : lkind_of L = LInput;
  i2_act : lact L = Some linear_act;
  i2_pre : lpre L = None;
  i2_in : lten L FInput = Some (r_t sr);
  i2_neta : lten L FNeta = Some (r_t sr);
  i2_out : lten L FOutput = Some (r_t sr);
  i2_dif : exists t, lten L FDif = Some t /\ blk (ts s) t (r_sh sr) da;
  i2_bp : lflag L BBP = false;
  i2_der : dn = true -> lten L FDer = None;
  i2_tr : lflag L BTrainable = false;
  i2_ref : ref1 s L;
}.
Definition sl2 (dn : bool) (s : lst T) (sr : src) (da : nat) : Prop :=
  match r_id sr with Some q => exists L, il2 dn s q sr da L | None => True end.
Definition ain_of (sr : src) (rnet : list (dlay T)) : nat -> nat :=
  match rnet with [] => fun j => r_b sr + j | l :: _ => ao l end.
Definition ni_of (sr : src) (rnet : list (dlay T)) : nat :=
  match rnet with [] => N.to_nat (prodN (r_sh sr)) | l :: _ => no l end.
Fixpoint stk2 (s : lst T) (sr : src) (da : nat) (rst : list lsp) (rnet : list (dlay T)) : Prop :=
  match rst, rnet with
  | [], [] => sl2 true s sr da
  | sp :: rst', l :: rnet' =>
      (exists L, dl2 true s sp (pre_of sr rst') (inp_of sr rst') l L) /\
      ain l = ain_of sr rnet' /\ ni l = ni_of sr rnet' /\ aout l = s_ob sp /\
      stk2 s sr da rst' rnet'
  | _, _ => False
  end.
Definition src_ok (s : lst T) (sr : src) : Prop := fits (r_sh sr) /\ blk (ts s) (r_t sr) (r_sh sr) (r_b sr).

Lemma dl2_grow is dn s s' sp pre inp l L :
  grow is s s' -> s_id sp ∉ is -> dl2 dn s sp pre inp l L -> dl2 dn s' sp pre inp l L.
Proof. clear Hone0 Hone1 rnd.
  intros Hg Hi []. pose proof (g_tens _ _ _ Hg) as Ht.
  split; try assumption;
    try (match goal with HE : exists t, _ /\ blk _ t _ _ |- _ => destruct HE as (t & E & B); exists t; split; [exact E|eapply tle_blk; eassumption] end).
  - rewrite (g_lays _ _ _ Hg) by assumption. assumption.
  - eapply tle_blk; eassumption.
  - eapply ref1_grow; eassumption.
Qed.
Lemma il2_grow is dn s s' q sr da L : grow is s s' -> q ∉ is -> il2 dn s q sr da L -> il2 dn s' q sr da L.
Proof. clear Hone0 Hone1 rnd.
  intros Hg Hi []. pose proof (g_tens _ _ _ Hg) as Ht. split; try assumption.
  - rewrite (g_lays _ _ _ Hg) by assumption. assumption.
  - destruct i2_dif0 as (t & E & B). exists t. split; [exact E|]. eapply tle_blk; eassumption.
  - eapply ref1_grow; eassumption.
Qed.
Lemma stk2_grow is s s' sr da : grow is s s' -> forall rst rnet,
  (forall i, i ∈ is -> i ∉ ids sr rst) -> stk2 s sr da rst rnet -> stk2 s' sr da rst rnet.
Proof. clear Hone0 Hone1 rnd.
  intros Hg. induction rst as [|sp rst IH]; intros [|l rnet] Hi; cbn [stk2]; try contradiction.
  - unfold sl2, ids in *. destruct (r_id sr) as [q|]; [|auto]. intros [L HL]. exists L.
    eapply il2_grow; [exact Hg| |exact HL]. intros Hq. apply (Hi q Hq). cbn. left.
  - intros ([L HL] & H1 & H2 & H3 & Hr). split; [|split; [assumption|split; [assumption|split; [assumption|]]]].
    + exists L. eapply dl2_grow; [exact Hg| |exact HL]. intros Hq. apply (Hi _ Hq). cbn. left.
    + apply IH; [|assumption]. intros i Hx Hin. apply (Hi i Hx). cbn. right. exact Hin.
Qed.

(** The random parameters of a new layer: request [c] gives the biases,
    request [S c] the weights. *)
Definition init_layer (c n : nat) (sp : lsp) : slayer T :=
  SL (map (fun i => map (fun j => rnd (S c) (i * n + j)) (seq 0 n)) (seq 0 (N.to_nat (s_o sp))))
     (map (rnd c) (seq 0 (N.to_nat (s_o sp)))) (act_f (s_act sp)) (act_d (s_act sp)) (s_tr sp).
Fixpoint init_rev (c : nat) (sr : src) (rst : list lsp) : list (slayer T) :=
  match rst with
  | [] => []
  | sp :: rst' => init_layer (c + 2 * length rst') (N.to_nat (width_of sr rst')) sp :: init_rev c sr rst'
  end.
Fixpoint sizes_ok (sr : src) (rst : list lsp) : Prop :=
  match rst with
  | [] => True
  | sp :: rst' => (s_o sp < W64)%N /\ fits [s_o sp; width_of sr rst'] /\ sizes_ok sr rst'
  end.

Lemma get_blk_mat (s : tst T) t sh a : blk s t sh a -> exists b, get_mat t s = (Ok (blkm sh a b), s).
Proof. clear Hone0 Hone1 rnd. intros [b E]. exists b. eapply get_mat_tens. exact E. Qed.
Lemma GetOutputs_ok (s : lst T) q L t : lays s !! q = Some L -> (lkind_of L = LInput -> lpre L = None) ->
  lten L FOutput = Some t -> GetOutputs q s = (Ok (Some t), s).
Proof. clear Hone0 Hone1 rnd.
  intros HL Hk Ht. unfold GetOutputs, with_fuel. cbn [GetT].
  erewrite mbnd_ok by (apply getL_ok; exact HL).
  destruct (lkind_of L); try (rewrite Ht; reflexivity).
  rewrite Hk by reflexivity. rewrite Ht. reflexivity.
Qed.
Lemma GetDif_ok (s : lst T) q L t : lays s !! q = Some L -> (lkind_of L = LInput -> lpre L = None) ->
  lten L FDif = Some t -> GetDif q s = (Ok (Some t), s).
Proof. clear Hone0 Hone1 rnd.
  intros HL Hk Ht. unfold GetDif, with_fuel. cbn [GetT].
  erewrite mbnd_ok by (apply getL_ok; exact HL).
  destruct (lkind_of L); try (rewrite Ht; reflexivity).
  rewrite Hk by reflexivity. rewrite Ht. reflexivity.
Qed.

(** The body of a dense layer's BuildFeedforward. *)
Definition dense_rec (n o : nat) (a : nat -> nat) (out base : nat) (act : activation T) : dlay T :=
  DL n o a out base 0 false (act_f act) (act_d act).
Lemma newRandT_ok (s : lst T) sh : fits sh ->
  newRandT rnd sh s = (Ok (length (tens (ts s))),
    MkL (MkSt (mem (ts s) ++ map (rnd (rc s)) (seq 0 (N.to_nat (prodN sh))))
           (tens (ts s) ++ [MkNode KMat (blkm sh (length (mem (ts s))) false)]) (ctx (ts s))) (lays s) (S (rc s))).
Proof. clear Hone0 Hone1. intros Hf. unfold newRandT. rewrite NewRandom_blk by assumption. reflexivity. Qed.

Lemma dense_body_ok (s : lst T) id L inp out shi o ob ib act :
  lays s !! id = Some L -> lkind_of L = LDense -> lten L FInput = Some inp -> lten L FOutput = Some out ->
  lact L = Some act -> fits shi -> (o < W64)%N -> fits [o; prodN shi] ->
  blk (ts s) inp shi ib -> blk (ts s) out [o] ob ->
  let n := N.to_nat (prodN shi) in let o' := N.to_nat o in
  let A := length (mem (ts s)) in let K := length (tens (ts s)) in
  let l := dense_rec n o' (fun j => ib + j) ob A act in
  exists tn bn bd bb bw,
  ff_body rnd id s = (Ok tt,
    MkL (MkSt (mem (ts s) ++ zeros o' ++ zeros o' ++ map (rnd (rc s)) (seq 0 o') ++
                 map (rnd (S (rc s))) (seq 0 (o' * n)) ++ zeros (o' * n))
           tn (ctx (ts s) ++ ff l))
      (<[id := set_ten FWeights (Some (K + 3)) (set_ten FBias (Some (K + 2))
                 (set_ten FDif (Some (K + 1)) (set_ten FNeta (Some K) L)))]> (lays s)) (S (S (rc s)))) /\
  tn = tens (ts s) ++ [MkNode KMat (blkm [o] (a0 l) bn); MkNode KMat (blkm [o] (adif l 0) bd);
                       MkNode KMat (blkm [o] (ab l 0) bb); MkNode KMat (blkm [o; prodN shi] (aw l 0 0) bw)].
Proof. clear Hone0 Hone1.
  intros HL Hk Hinp Hout Hact Hfi Ho Hf Bi Bo. cbv zeta.
  destruct Bi as [bi Bi]. destruct Bo as [bo Bo].
  set (n := N.to_nat (prodN shi)). set (o' := N.to_nat o).
  set (A := length (mem (ts s))). set (K := length (tens (ts s))).
  set (l := dense_rec n o' (fun j => ib + j) ob A act).
  destruct s as [[mm tn c] ls r]. cbn [ts mem tens ctx lays rc] in *.
  eexists _, false, false, false, false. split; [|reflexivity].
  unfold ff_body. erewrite mbnd_ok by (apply getL_ok; exact HL). rewrite Hk, Hinp.
  erewrite mbnd_ok by (apply liftT_ok; eapply get_mat_tens; exact Bi).
  rewrite Hout. erewrite mbnd_ok by reflexivity.
  erewrite mbnd_ok by (apply liftT_ok; eapply get_mat_tens; exact Bo).
  rewrite !msize_blk, prod_1. cbn [ts lays rc].
  assert (Fo : fits [o]) by (apply fits_1; assumption).
  assert (Ho1 : N.to_nat (prodN [o]) = o') by (rewrite prod_1; reflexivity).
  assert (Ho2 : N.to_nat (prodN [o; prodN shi]) = o' * n) by (rewrite prod_2; unfold o', n; lia).
  erewrite mbnd_ok by (apply liftT_ok; apply NewZeros_blk; assumption). cbn [ts lays rc mem tens ctx].
  unfold setF. erewrite mbnd_ok by (apply updL_ok; exact HL). cbn [ts lays rc mem tens ctx].
  assert (HL1 : forall L1, (<[id := L1]> ls : list (layer T)) !! id = Some L1) by (intros; eapply list_lookup_insert, lookup_lt_Some; exact HL).
  erewrite mbnd_ok by (apply liftT_ok; apply NewZeros_blk; assumption). cbn [ts lays rc mem tens ctx].
  erewrite mbnd_ok by (apply updL_ok; apply HL1). cbn [ts lays rc mem tens ctx]. rewrite list_insert_insert.
  erewrite mbnd_ok by (apply newRandT_ok; assumption). cbn [ts lays rc mem tens ctx].
  erewrite mbnd_ok by (apply updL_ok; apply HL1). cbn [ts lays rc mem tens ctx]. rewrite list_insert_insert.
  erewrite mbnd_ok by (apply newRandT_ok; assumption). cbn [ts lays rc mem tens ctx].
  erewrite mbnd_ok by (apply updL_ok; apply HL1). cbn [ts lays rc mem tens ctx]. rewrite list_insert_insert.
  rewrite Ho1, Ho2. rewrite !app_length, !map_length, !seq_length, !zeros_length. cbn [length]. fold K A.
  rewrite Hact.
  unfold liftT. cbn [ts lays rc].
  rewrite (dense_ff_ok l o (prodN shi) inp (K + 1 + 1) (K + 1 + 1 + 1) K out KMat (blkm shi ib bi) false false false bo act); cbn [mem tens ctx].
  - rewrite <- !app_assoc. cbn [app].
    replace (K + 1 + 1 + 1) with (K + 3) by lia. replace (K + 1 + 1) with (K + 2) by lia.
    replace (A + o') with (adif l 0) by (unfold l, adif; cbn; lia).
    replace (adif l 0 + o') with (ab l 0) by (unfold l, adif, ab; cbn; lia).
    replace (ab l 0 + o') with (aw l 0 0) by (unfold l, aw, ab; cbn; lia).
    reflexivity.
  - reflexivity.
  - reflexivity.
  - assumption.
  - assumption.
  - apply in_ops_blk.
  - reflexivity.
  - rewrite !app_length, !map_length, !seq_length, !zeros_length. unfold ascr, l. cbn. fold A. lia.
  - rewrite <- !app_assoc. rewrite lookup_app_l by (eapply lookup_lt_Some; exact Bi). exact Bi.
  - rewrite <- !app_assoc. rewrite lookup_app_r by (unfold K; lia). change (length tn) with K. replace (K + 1 + 1 - K) with 2 by lia.
    cbn [lookup list_lookup]. replace (A + o' + o') with (ab l 0) by (unfold l, ab; cbn; lia). reflexivity.
  - rewrite <- !app_assoc. rewrite lookup_app_r by (unfold K; lia). change (length tn) with K. replace (K + 1 + 1 + 1 - K) with 3 by lia.
    cbn [lookup list_lookup]. replace (A + o' + o' + o') with (aw l 0 0) by (unfold l, aw; cbn; lia). reflexivity.
  - rewrite <- !app_assoc. rewrite lookup_app_r by (unfold K; lia). change (length tn) with K. rewrite Nat.sub_diag. reflexivity.
  - rewrite <- !app_assoc. rewrite lookup_app_l by (eapply lookup_lt_Some; exact Bo). exact Bo.
Qed.

Definition sh_of (sr : src) (rst : list lsp) : list N :=
  match rst with [] => r_sh sr | sp :: _ => [s_o sp] end.
Definition src_size (sr : src) : nat :=
  match r_id sr with Some _ => N.to_nat (prodN (r_sh sr)) | None => 0 end.
(** The feed-forward blocks lie one behind the other. *)
Fixpoint rlay (lo : nat) (rnet : list (dlay T)) (hi : nat) : Prop :=
  match rnet with
  | [] => lo = hi
  | l :: rnet' => rlay lo rnet' (a0 l) /\ aend l = hi
  end.

Lemma stk2_out s sr da rst rnet q : stk2 s sr da rst rnet -> pre_of sr rst = Some q ->
  exists L, lays s !! q = Some L /\ (lkind_of L = LInput -> lpre L = None) /\ lten L FOutput = Some (inp_of sr rst).
Proof. clear Hone0 Hone1 rnd.
  destruct rst as [|sp rst]; destruct rnet as [|l rnet]; cbn [stk2 pre_of inp_of]; try contradiction.
  - unfold sl2. intros Hs E. rewrite E in Hs. destruct Hs as [L HL]. exists L. split; [apply HL|]. split; [intros _; apply HL|apply HL].
  - intros [[L HL] _] [= <-]. exists L. split; [apply HL|]. split; [|apply HL]. rewrite (d2_kind _ _ _ _ _ _ _ HL). discriminate.
Qed.
Lemma stk2_blk s sr da rst rnet : stk2 s sr da rst rnet -> src_ok s sr ->
  blk (ts s) (inp_of sr rst) (sh_of sr rst) (base_of sr rst).
Proof. clear Hone0 Hone1 rnd.
  destruct rst as [|sp rst]; destruct rnet as [|l rnet]; cbn [stk2 inp_of sh_of base_of]; try contradiction.
  - intros _ [_ Hb]. exact Hb.
  - intros ([L HL] & _ & _ & E & _) _. pose proof (d2_blk _ _ _ _ _ _ _ HL) as Hb. rewrite E in Hb. exact Hb.
Qed.
Lemma stk2_ain s sr da rst rnet : stk2 s sr da rst rnet -> ain_of sr rnet = (fun j => base_of sr rst + j).
Proof. clear Hone0 Hone1 rnd.
  destruct rst as [|sp rst]; destruct rnet as [|l rnet]; cbn [stk2 ain_of base_of]; try contradiction.
  - reflexivity.
  - intros (_ & _ & _ & E & _). unfold ao. rewrite E. reflexivity.
Qed.
Lemma stk2_ni s sr da rst rnet : stk2 s sr da rst rnet -> ni_of sr rnet = N.to_nat (width_of sr rst).
Proof. clear Hone0 Hone1 rnd.
  destruct rst as [|sp rst]; destruct rnet as [|l rnet]; cbn [stk2 ni_of width_of]; try contradiction.
  - reflexivity.
  - intros ([L HL] & _). apply HL.
Qed.
Lemma sh_width sr rst : prodN (sh_of sr rst) = width_of sr rst.
Proof. clear Hone0 Hone1 rnd. destruct rst; [reflexivity|apply prod_1]. Qed.
Lemma src_grow is s s' sr : grow is s s' -> src_ok s sr -> src_ok s' sr.
Proof. clear Hone0 Hone1 rnd. intros Hg [Hf Hb]. split; [assumption|]. eapply tle_blk; [apply Hg|exact Hb]. Qed.

Lemma hold_map (m : list T) f (g : nat -> T) n :
  (forall i, i < n -> m !! f i = Some (g i)) -> hold m f (map g (seq 0 n)).
Proof. clear Hone0 Hone1 rnd.
  intros Hm i v Hv. rewrite list_lookup_fmap in Hv. apply fmap_Some in Hv as (k & Hk & ->).
  apply lookup_seq in Hk as [-> Hk]. apply Hm. cbn. lia.
Qed.
Lemma init_params c n sp (l : dlay T) m x :
  no l = N.to_nat (s_o sp) -> ni l = n ->
  length m = a0 l ->
  has_params (m ++ zeros (no l) ++ zeros (no l) ++ map (rnd c) (seq 0 (no l)) ++ map (rnd (S c)) (seq 0 (no l * n)) ++ x)
    l (init_layer c n sp).
Proof. clear Hone0 Hone1.
  intros Hno Hni Hlen. subst n. unfold init_layer, has_params. cbn [sW sB]. rewrite <- Hno. split.
  - intros i w Hw. rewrite list_lookup_fmap in Hw. apply fmap_Some in Hw as (k & Hk & ->).
    apply lookup_seq in Hk as [-> Hk]. apply hold_map. intros j Hj. cbn [Nat.add].
    assert (i * ni l + j < no l * ni l) by (apply off_lt; lia).
    rewrite lookup_app_r by (unfold aw; lia). rewrite Hlen.
    rewrite lookup_app_r by (rewrite zeros_length; unfold aw; lia).
    rewrite lookup_app_r by (rewrite !zeros_length; unfold aw; lia).
    rewrite lookup_app_r by (rewrite !zeros_length, map_length, seq_length; unfold aw; lia).
    rewrite !zeros_length, map_length, seq_length.
    rewrite lookup_app_l by (rewrite map_length, seq_length; unfold aw; lia).
    rewrite list_lookup_fmap. replace (aw l i j - a0 l - no l - no l - no l) with (i * ni l + j) by (unfold aw; lia).
    rewrite lookup_seq_lt by lia. reflexivity.
  - apply hold_map. intros i Hi.
    rewrite lookup_app_r by (unfold ab; lia). rewrite Hlen.
    rewrite lookup_app_r by (rewrite zeros_length; unfold ab; lia).
    rewrite lookup_app_r by (rewrite !zeros_length; unfold ab; lia).
    rewrite !zeros_length.
    rewrite lookup_app_l by (rewrite map_length, seq_length; unfold ab; lia).
    rewrite list_lookup_fmap. replace (ab l i - a0 l - no l - no l) with i by (unfold ab; lia).
    rewrite lookup_seq_lt by lia. reflexivity.
Qed.
Lemma init_fits c n sp (l : dlay T) :
  no l = N.to_nat (s_o sp) -> ni l = n -> df l = act_f (s_act sp) -> dd l = act_d (s_act sp) ->
  fits_layer l (init_layer c n sp).
Proof. clear Hone0 Hone1.
  intros Hno Hni Hf Hd. unfold init_layer. split; cbn.
  - rewrite map_length, seq_length. lia.
  - apply Forall_forall. intros w Hw. apply elem_of_list_fmap in Hw as (k & -> & _). rewrite map_length, seq_length. lia.
  - rewrite map_length, seq_length. lia.
  - exact Hf.
  - exact Hd.
Qed.
Lemma has_params_app (m e : list T) l sl0 : has_params m l sl0 -> has_params (m ++ e) l sl0.
Proof. clear Hone0 Hone1 rnd.
  intros [HW HB]. split.
  - intros i w Hw j v Hv. apply lookup_app_l_Some. exact (HW i w Hw j v Hv).
  - intros j v Hv. apply lookup_app_l_Some. exact (HB j v Hv).
Qed.

Lemma CheckOnce_ok (s : lst T) f id L : lays s !! id = Some L -> lflag L f = false -> ref1 s L ->
  CheckOnce f id s = (Ok false, MkL (ts s) (<[id := set_flag f true L]> (lays s)) (rc s)).
Proof.
  intros HL Hf (r & Hr & Hm). unfold CheckOnce. erewrite mbnd_ok by (apply getL_ok; exact HL).
  rewrite Hf, Hr. erewrite mbnd_ok by (apply liftT_ok; apply rdM_at; exact Hm). rewrite Hone0.
  erewrite mbnd_ok by (apply updL_ok; exact HL). reflexivity.
Qed.

Lemma LBuildFF_input (s : lst T) sr q fuel L : r_id sr = Some q -> src_ok s sr -> il true true s q sr L ->
  exists s', LBuildFF rnd (S fuel) q s = (Ok tt, s') /\ grow [q] s s' /\ ctx (ts s') = ctx (ts s) /\
    rc s' = rc s /\ sl2 true s' sr (length (mem (ts s))) /\
    mem (ts s') = mem (ts s) ++ zeros (N.to_nat (prodN (r_sh sr))).
Proof.
  intros Hq [Hfit Hb] HL. pose proof (il_at _ _ _ _ _ _ HL) as HA.
  destruct s as [[mm tn c] ls r]. cbn [ts mem tens ctx lays rc] in *. destruct Hb as [b Hb]. cbn [tens] in Hb.
  set (L1 := set_flag BFF true L).
  assert (HL1 : forall L1, (<[q := L1]> ls : list (layer T)) !! q = Some L1) by (intros; eapply list_lookup_insert, lookup_lt_Some; exact HA).
  set (L2 := set_ten FDif (Some (length tn)) (set_ten FOutput (lten L1 FInput) (set_ten FNeta (lten L1 FInput) L1))).
  set (s' := MkL (MkSt (mm ++ zeros (N.to_nat (prodN (r_sh sr)))) (tn ++ [MkNode KMat (blkm (r_sh sr) (length mm) false)]) c)
     (<[q := L2]> ls) r).
  assert (Hg : grow [q] (MkL (MkSt mm tn c) ls r) s').
  { split; cbn.
    - eexists. reflexivity.
    - eapply tle_app. cbn. reflexivity.
    - intros j Hj. apply list_lookup_insert_ne. intros ->. apply Hj. left.
    - apply insert_length.
    - intros j L' HL'. eapply (grow_ins (MkL (MkSt mm tn c) ls r) q L2); [|exact HL'].
      eapply ref_keep; [exact HA|reflexivity]. }
  exists s'. split; [|split; [exact Hg|split; [reflexivity|split; [reflexivity|split; [|reflexivity]]]]].
  - cbn [LBuildFF].
    erewrite mbnd_ok by (apply CheckOnce_ok; [exact HA|apply HL|apply (il_ref _ _ _ _ _ _ HL)]).
    cbn iota. cbn [ts lays rc]. fold L1. erewrite mbnd_ok by (apply getL_ok; apply HL1).
    change (lkind_of L1) with (lkind_of L). rewrite (il_kind _ _ _ _ _ _ HL).
    change (lpre L1) with (lpre L). rewrite (il_pre _ _ _ _ _ _ HL).
    erewrite mbnd_ok by (apply updL_ok; apply HL1). cbn [ts lays rc]. rewrite list_insert_insert.
    erewrite mbnd_ok by (apply updL_ok; apply HL1). cbn [ts lays rc]. rewrite list_insert_insert.
    change (lten L1 FInput) with (lten L FInput). rewrite (il_in _ _ _ _ _ _ HL).
    erewrite mbnd_ok by reflexivity. unfold shapeT.
    erewrite mbnd_ok.
    2:{ erewrite mbnd_ok by (apply liftT_ok; eapply get_mat_tens; exact Hb). reflexivity. }
    cbn [shape blkm ts lays rc].
    erewrite mbnd_ok by (apply liftT_ok; apply NewZeros_blk; assumption). cbn [ts lays rc mem tens ctx].
    unfold setF. erewrite updL_ok by apply HL1. cbn [ts lays rc]. rewrite list_insert_insert.
    unfold s', L2. change (lten L1 FInput) with (lten L FInput). rewrite (il_in _ _ _ _ _ _ HL). reflexivity.
  - unfold sl2. rewrite Hq. exists L2. destruct HL. split; try assumption; try reflexivity; try (intros _; assumption).
    + cbn. apply HL1.
    + exists (length tn). split; [reflexivity|]. exists false. cbn. apply list_lookup_middle. reflexivity.
    + destruct il_ref0 as (r0 & Hr & Hm). exists r0. split; [exact Hr|]. cbn. apply lookup_app_l_Some. exact Hm.
Qed.

Lemma LBuildFF_stk sr : forall rst s fuel id,
  pre_of sr rst = Some id -> length rst < fuel -> NoDup (ids sr rst) -> sizes_ok sr rst ->
  src_ok s sr -> stk true true s sr rst ->
  exists s' rnet, LBuildFF rnd fuel id s = (Ok tt, s') /\ grow (ids sr rst) s s' /\
    ctx (ts s') = ctx (ts s) ++ ffs (rev rnet) /\ rc s' = rc s + 2 * length rst /\
    stk2 s' sr (length (mem (ts s))) rst rnet /\
    rlay (length (mem (ts s)) + src_size sr) rnet (length (mem (ts s'))) /\
    Forall2 fits_layer rnet (init_rev (rc s) sr rst) /\
    Forall2 (has_params (mem (ts s'))) rnet (init_rev (rc s) sr rst).
Proof.
  induction rst as [|sp rst IH]; intros s fuel id Hid Hfuel Hnd Hsz Hsrc Hs; (destruct fuel as [|fuel]; [cbn in Hfuel; lia|]).
  - cbn [pre_of stk] in *. unfold sl in Hs. rewrite Hid in Hs. destruct Hs as [L HL].
    destruct (LBuildFF_input s sr id fuel L Hid Hsrc HL) as (s' & E & G & C & R & S2 & M).
    exists s', []. split; [exact E|]. split; [|split; [|split; [|split; [exact S2|split; [|split; constructor]]]]].
    + eapply grow_weaken; [exact G|]. intros i Hi. apply elem_of_list_singleton in Hi. subst i. apply pre_in. exact Hid.
    + cbn. rewrite app_nil_r. exact C.
    + cbn. lia.
    + cbn. rewrite M, app_length, zeros_length. unfold src_size. rewrite Hid. reflexivity.
  - cbn [pre_of] in Hid. injection Hid as <-. cbn [stk] in Hs. destruct Hs as [[L HL] Hs].
    pose proof (dl_at _ _ _ _ _ _ _ HL) as HA. rewrite ids_cons in Hnd. apply NoDup_cons in Hnd as [Hni Hnd].
    cbn [sizes_ok] in Hsz. destruct Hsz as (Ho & Hfit & Hsz).
    set (id := s_id sp) in *. set (L1 := set_flag BFF true L).
    set (s1 := MkL (ts s) (<[id := L1]> (lays s)) (rc s)).
    assert (H1 : lays s1 !! id = Some L1) by (eapply lay_eq; exact HA).
    assert (Hg1 : grow [id] s s1) by (apply grow_upd0; [left|eapply ref_keep; [exact HA|reflexivity]]).
    assert (Hs1 : stk true true s1 sr rst).
    { eapply stk_grow; [exact Hg1| |exact Hs]. intros i Hi. apply elem_of_list_singleton in Hi. subst i. exact Hni. }
    assert (Hsrc1 : src_ok s1 sr) by (eapply src_grow; eassumption).
    (* the rest of the stack, and the input of this layer *)
    assert (Hrest : exists s2 rnet L2,
      (match pre_of sr rst with
       | Some q => LBuildFF rnd fuel q ;~ o <~ GetOutputs q ; updL id (set_ten FInput o)
       | None => mret tt end) s1 = (Ok tt, s2) /\ grow (id :: ids sr rst) s1 s2 /\
       ctx (ts s2) = ctx (ts s) ++ ffs (rev rnet) /\ rc s2 = rc s + 2 * length rst /\
       stk2 s2 sr (length (mem (ts s))) rst rnet /\
       rlay (length (mem (ts s)) + src_size sr) rnet (length (mem (ts s2))) /\
       Forall2 fits_layer rnet (init_rev (rc s) sr rst) /\
       Forall2 (has_params (mem (ts s2))) rnet (init_rev (rc s) sr rst) /\
       lays s2 !! id = Some L2 /\ lten L2 FInput = Some (inp_of sr rst) /\
       L2 = (match pre_of sr rst with Some _ => set_ten FInput (Some (inp_of sr rst)) L1 | None => L1 end)).
    { destruct (pre_of sr rst) as [q|] eqn:Hq.
      - destruct (IH s1 fuel q) as (s2 & rnet & E2 & G2 & C2 & R2 & S2 & Y2 & F2 & P2); try assumption.
        + reflexivity.
        + cbn in Hfuel. lia.
        + assert (H2 : lays s2 !! id = Some L1) by (rewrite (g_lays _ _ _ G2) by exact Hni; exact H1).
          destruct (stk2_out _ _ _ _ _ _ S2 Hq) as (Lq & HLq & Hkq & Hoq).
          set (s3 := MkL (ts s2) (<[id := set_ten FInput (Some (inp_of sr rst)) L1]> (lays s2)) (rc s2)).
          assert (G3 : grow [id] s2 s3) by (apply grow_upd0; [left|eapply ref_keep; [exact H2|reflexivity]]).
          exists s3, rnet, (set_ten FInput (Some (inp_of sr rst)) L1).
          split; [|split; [|split; [exact C2|split; [exact R2|split; [|split; [exact Y2|split; [exact F2|split; [exact P2|split; [|split; reflexivity]]]]]]]]].
          * erewrite mbnd_ok by exact E2. erewrite mbnd_ok by (eapply GetOutputs_ok; eassumption).
            rewrite (updL_ok _ _ _ _ H2). reflexivity.
          * eapply grow_trans; [eapply grow_weaken; [exact G2|]|eapply grow_weaken; [exact G3|]]; intros i Hi.
            -- right. exact Hi.
            -- apply elem_of_list_singleton in Hi. subst i. left.
          * eapply stk2_grow; [exact G3| |exact S2]. intros i Hi. apply elem_of_list_singleton in Hi. subst i. exact Hni.
          * eapply lay_eq. exact H2.
      - destruct rst as [|sp' rst]; [|discriminate]. cbn in Hq.
        exists s1, [], L1. split; [reflexivity|]. split; [apply grow_refl|]. split; [cbn; rewrite app_nil_r; reflexivity|].
        split; [cbn; lia|]. split; [cbn; unfold sl2; rewrite Hq; exact I|]. split; [cbn; unfold src_size; rewrite Hq; cbn; lia|].
        split; [constructor|]. split; [constructor|]. split; [exact H1|]. split; [|reflexivity].
        pose proof (dl_set _ _ _ _ _ _ _ HL) as Hset. unfold preset_of in Hset. rewrite Hq in Hset. exact Hset. }
    destruct Hrest as (s2 & rnet & L2 & E2 & G2 & C2 & R2 & S2 & Y2 & F2 & P2 & H2 & I2 & EL2).
    assert (Hsrc2 : src_ok s2 sr) by (eapply src_grow; eassumption).
    pose proof (stk2_blk _ _ _ _ _ S2 Hsrc2) as Bi.
    assert (Bo : blk (ts s2) (s_out sp) [s_o sp] (s_ob sp)).
    { eapply tle_blk; [apply (g_tens _ _ _ G2)|]. apply (dl_blk _ _ _ _ _ _ _ HL). }
    assert (K2 : lkind_of L2 = LDense /\ lact L2 = Some (s_act sp) /\ lpre L2 = pre_of sr rst /\ lten L2 FOutput = Some (s_out sp) /\
                 lflag L2 BTrainable = s_tr sp /\ lflag L2 BBP = false /\ lten L2 FDer = None /\ lref L2 = lref L).
    { destruct HL. rewrite EL2. destruct (pre_of sr rst); repeat split; assumption. }
    destruct K2 as (K2a & K2b & K2c & K2d & K2e & K2f & K2g & K2h).
    assert (Hshf : fits (sh_of sr rst)).
    { destruct rst as [|sp' rst]; cbn [sh_of]; [apply Hsrc|]. cbn [sizes_ok] in Hsz. apply fits_1. apply Hsz. }
    destruct (dense_body_ok s2 id L2 (inp_of sr rst) (s_out sp) (sh_of sr rst) (s_o sp) (s_ob sp) (base_of sr rst) (s_act sp))
      as (tn & bn & bd & bb & bw & E3 & Etn); try assumption.
    { rewrite sh_width. exact Hfit. }
    rewrite (sh_width sr rst) in E3, Etn.
    set (l := dense_rec (N.to_nat (width_of sr rst)) (N.to_nat (s_o sp)) (fun j => base_of sr rst + j) (s_ob sp) (length (mem (ts s2))) (s_act sp)) in *.
    match type of E3 with _ = (_, ?x) => set (s3 := x) in * end.
    assert (G3 : grow [id] s2 s3).
    { split; cbn.
      - eexists. reflexivity.
      - eapply tle_app. cbn. exact Etn.
      - intros j Hj. apply list_lookup_insert_ne. intros ->. apply Hj. left.
      - apply insert_length.
      - intros j L' HL'. eapply (grow_ins s2 id _); [|exact HL'].
        eapply ref_keep; [exact H2|reflexivity]. }
    assert (Hn3 : forall k nd, [MkNode KMat (blkm [s_o sp] (a0 l) bn); MkNode KMat (blkm [s_o sp] (adif l 0) bd);
                       MkNode KMat (blkm [s_o sp] (ab l 0) bb); MkNode KMat (blkm [s_o sp; width_of sr rst] (aw l 0 0) bw)] !! k = Some nd ->
       tens (ts s3) !! (length (tens (ts s2)) + k) = Some nd).
    { intros k nd Hk. cbn [s3 ts tens]. rewrite Etn, lookup_app_r by lia. rewrite Nat.add_comm, Nat.add_sub. exact Hk. }
    exists s3, (l :: rnet). split; [|split; [|split; [|split; [|split; [|split; [|split]]]]]].
    + cbn [LBuildFF].
      erewrite mbnd_ok by (apply CheckOnce_ok; [exact HA|apply HL|apply (dl_ref _ _ _ _ _ _ _ HL)]).
      cbn iota. fold L1. fold s1. erewrite mbnd_ok by (apply getL_ok; exact H1).
      change (lkind_of L1) with (lkind_of L). rewrite (dl_kind _ _ _ _ _ _ _ HL).
      change (lpre L1) with (lpre L). rewrite (dl_pre _ _ _ _ _ _ _ HL).
      erewrite mbnd_ok by exact E2. exact E3.
    + eapply grow_trans; [eapply grow_weaken; [exact Hg1|]|eapply grow_trans; [exact G2|eapply grow_weaken; [exact G3|]]];
        intros i Hi; apply elem_of_list_singleton in Hi; subst i; left.
    + cbn [s3 ts ctx rev]. rewrite C2. unfold ffs. rewrite flat_map_app. cbn [flat_map]. rewrite app_nil_r, app_assoc. reflexivity.
    + cbn [s3 rc length]. lia.
    + cbn [stk2]. split; [|split; [|split; [|split]]].
      * eexists. split; try reflexivity.
        -- eapply lay_eq. exact H2.
        -- exact K2a.
        -- exact K2b.
        -- exact K2c.
        -- exact K2d.
        -- eapply tle_blk; [apply (g_tens _ _ _ G3)|exact Bo].
        -- exact K2e.
        -- exact K2f.
        -- intros _. exact K2g.
        -- destruct (dl_ref _ _ _ _ _ _ _ HL) as (r & Hr & Hm). exists r. cbn [lref set_ten]. split; [rewrite K2h; exact Hr|].
           eapply grow_mem; [exact G3|]. eapply grow_mem; [exact G2|]. exact Hm.
        -- exact I2.
        -- exists (length (tens (ts s2))). split; [reflexivity|]. exists bn. rewrite <- (Nat.add_0_r (length _)). apply Hn3. reflexivity.
        -- exists (length (tens (ts s2)) + 1). split; [reflexivity|]. exists bd. apply Hn3. reflexivity.
        -- exists (length (tens (ts s2)) + 2). split; [reflexivity|]. exists bb. apply Hn3. reflexivity.
        -- exists (length (tens (ts s2)) + 3). split; [reflexivity|]. exists bw.
           replace (N.of_nat (ni l)) with (width_of sr rst) by (cbn; lia). apply Hn3. reflexivity.
      * rewrite (stk2_ain _ _ _ _ _ S2). reflexivity.
      * rewrite (stk2_ni _ _ _ _ _ S2). reflexivity.
      * reflexivity.
      * eapply stk2_grow; [exact G3| |exact S2]. intros i Hi. apply elem_of_list_singleton in Hi. subst i. exact Hni.
    + cbn [rlay]. split; [exact Y2|]. cbn [s3 ts mem]. rewrite !app_length, !zeros_length, !map_length, !seq_length.
      unfold aend. cbn. lia.
    + cbn [init_rev]. constructor; [|exact F2]. apply init_fits; reflexivity.
    + cbn [init_rev]. constructor.
      * cbn [s3 ts mem]. rewrite R2. apply init_params; reflexivity.
      * eapply Forall2_impl; [exact P2|]. intros l0 s0 Hp. cbn [s3 ts mem]. apply has_params_app. exact Hp.
Qed.

(** *** The blocks front to back *)
Fixpoint outs_ok (sr : src) (rst : list lsp) (A0 : nat) : Prop :=
  match rst with
  | [] => True
  | sp :: rst' => base_of sr rst' + N.to_nat (width_of sr rst') <= s_ob sp /\
      s_ob sp + N.to_nat (s_o sp) <= A0 /\ outs_ok sr rst' A0
  end.
Lemma chain_snoc A0 (l : dlay T) net : forall lo_out lo_a,
  chain A0 (a0 l) lo_out lo_a net -> aout l + no l <= A0 -> A0 <= lo_a ->
  match last net with
  | Some p => ain l = ao p /\ ni l = no p /\ aout p + no p <= aout l
  | None => lo_out <= aout l
  end -> chain A0 (aend l) lo_out lo_a (net ++ [l]).
Proof. clear Hone0 Hone1 rnd.
  induction net as [|h net IH]; intros lo_out lo_a Hc Ho Ha Hl; cbn [chain app] in *.
  - repeat split; try assumption. lia.
  - destruct Hc as (H1 & H2 & H3 & H4 & Hk & Hc). split; [assumption|]. split; [assumption|]. split; [assumption|].
    split; [assumption|]. split.
    + destruct net as [|h' net]; cbn in *; [split; apply Hl|exact Hk].
    + apply IH; [exact Hc|assumption|unfold aend; lia|].
      destruct net as [|h' net]; [cbn in *; lia|]. rewrite last_cons_cons in Hl.
      destruct (last (h' :: net)) eqn:E; [exact Hl|]. apply last_None in E. discriminate.
Qed.
Lemma last_rev {A} (l : list A) : last (rev l) = head l.
Proof. clear Hone0 Hone1 rnd. destruct l as [|a l]; [reflexivity|]. cbn. apply last_snoc. Qed.

(** What the addresses of a stack have to do with its layers. *)
Fixpoint laid (sr : src) (rst : list lsp) (rnet : list (dlay T)) : Prop :=
  match rst, rnet with
  | [], [] => True
  | sp :: rst', l :: rnet' =>
      ain l = ain_of sr rnet' /\ ni l = ni_of sr rnet' /\ aout l = s_ob sp /\ no l = N.to_nat (s_o sp) /\
      dd l = act_d (s_act sp) /\ laid sr rst' rnet'
  | _, _ => False
  end.
Lemma stk2_laid s sr da rst : forall rnet, stk2 s sr da rst rnet -> laid sr rst rnet.
Proof. clear Hone0 Hone1 rnd.
  induction rst as [|sp rst IH]; intros [|l rnet]; cbn [stk2 laid]; try contradiction; [auto|].
  intros ([L HL] & H1 & H2 & H3 & Hr). repeat split; try assumption; [apply HL|apply HL|apply IH; exact Hr].
Qed.
Lemma laid_chain sr A0 lo rst : forall rnet hi, laid sr rst rnet -> outs_ok sr rst A0 -> rlay lo rnet hi -> A0 <= lo ->
  chain A0 hi (r_b sr + N.to_nat (prodN (r_sh sr))) lo (rev rnet).
Proof. clear Hone0 Hone1 rnd.
  induction rst as [|sp rst IH]; intros [|l rnet] hi; cbn [laid outs_ok rlay rev]; try contradiction.
  - intros _ _ -> _. cbn. lia.
  - intros (H1 & H2 & H3 & H4 & _ & Hr) (O1 & O2 & Ho) (Y & <-) Ha.
    apply chain_snoc; [apply IH; assumption|lia|assumption|].
    rewrite last_rev. destruct rnet as [|p rnet]; destruct rst as [|sp' rst]; cbn [laid] in Hr; try contradiction; cbn in *.
    + lia.
    + destruct Hr as (_ & _ & R3 & R4 & _). split; [exact H1|]. split; [exact H2|]. lia.
Qed.
Lemma laid_length sr rst : forall rnet, laid sr rst rnet -> length rnet = length rst.
Proof. clear Hone0 Hone1 rnd.
  induction rst as [|sp rst IH]; intros [|l rnet]; cbn [laid]; try contradiction; [auto|].
  intros (_ & _ & _ & _ & _ & Hr). cbn. f_equal. apply IH. exact Hr.
Qed.
End NetChain.
