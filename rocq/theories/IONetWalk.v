(** * IONetWalk: the way through the layers when a network is saved, loaded or reset *)
From stdpp Require Import relations.
From Verif Require Import Base Num ModelTools ModelOps ModelTensor ModelGraph ModelLayer ModelModel ModelIO Spec Denote NetSpec FwdSpec
  IndexProofs ExecProofs TensorFacts NetChain FwdNet FwdScript IOSpec IOProofs IONetSpec.
From Coq Require Import Lia ZifyBool ZifyNat ZifyN.

(** ** Events *)
Lemma enters_app a b : enters (a ++ b) = enters a ++ enters b.
Proof. unfold enters. apply flat_map_app. Qed.
Lemma datas_app a b : datas (a ++ b) = datas a ++ datas b.
Proof. unfold datas. apply flat_map_app. Qed.

Section Events.
Context {T : Type} `{Num T}.
Lemma walk_done (e : net T) : forall done, NoDup (enters (walk_net e done)) /\ (forall j, j ∈ enters (walk_net e done) -> j ∉ done) /\
  NoDup (datas (walk_net e done)) /\ (forall k, k ∈ datas (walk_net e done) -> k ∈ enters (walk_net e done)).
Proof using Type.
  induction e as [t|l i e IH|i a IHa b IHb d]; intros done; cbn [walk_net].
  - cbn. repeat split; try constructor; intros j Hj; inversion Hj.
  - destruct (decide (i ∈ done)) as [Hi|Hi]; [cbn; repeat split; try constructor; intros j Hj; inversion Hj|].
    destruct (IH (i :: done)) as (N1 & D1 & N2 & D2). set (w := walk_net e (i :: done)) in *.
    change (enters (Enter i :: w ++ ?x)) with (i :: enters (w ++ x)). change (datas (Enter i :: w ++ ?x)) with (datas (w ++ x)). rewrite enters_app, datas_app.
    assert (E0 : enters (if has_par l then [Data i] else []) = []) by (destruct (has_par l); reflexivity). rewrite E0, app_nil_r.
    assert (Hiw : i ∉ enters w) by (intros Hw; apply (D1 _ Hw); left).
    split; [constructor; assumption|]. split.
    { intros j Hj. apply elem_of_cons in Hj as [->|Hj]; [exact Hi|]. intros Hd. apply (D1 _ Hj). right. exact Hd. }
    assert (Hx : forall k, k ∈ datas (if has_par l then [Data i] else []) -> k = i) by (intros k; destruct (has_par l); cbn; intros Hk; [apply elem_of_list_singleton in Hk; exact Hk|inversion Hk]).
    split.
    { apply NoDup_app. split; [exact N2|]. split; [intros k Hk Hk2; apply Hx in Hk2 as ->; apply Hiw; auto|]. destruct (has_par l); cbn; [apply NoDup_singleton|constructor]. }
    intros k Hk. apply elem_of_app in Hk as [Hk|Hk]; [right; auto|]. rewrite (Hx _ Hk). left.
  - destruct (decide (i ∈ done)) as [Hi|Hi]; [cbn; repeat split; try constructor; intros j Hj; inversion Hj|]. cbv zeta.
    destruct (IHa (i :: done)) as (N1 & D1 & N2 & D2). set (wa := walk_net a (i :: done)) in *. destruct (IHb (enters wa ++ i :: done)) as (M1 & E1 & M2 & E2). set (wb := walk_net b (enters wa ++ i :: done)) in *.
    change (enters (Enter i :: wa ++ wb)) with (i :: enters (wa ++ wb)). change (datas (Enter i :: wa ++ wb)) with (datas (wa ++ wb)). rewrite enters_app, datas_app.
    assert (Hab : forall j, j ∈ enters wb -> j ∉ enters wa) by (intros j Hj Hw; apply (E1 _ Hj); apply elem_of_app; auto).
    split.
    { constructor; [|apply NoDup_app; split; [exact N1|split; [|exact M1]]].
      - intros Hj. apply elem_of_app in Hj as [Hj|Hj]; [apply (D1 _ Hj); left|apply (E1 _ Hj); apply elem_of_app; right; left].
      - intros j Ha Hb. exact (Hab _ Hb Ha). }
    split.
    { intros j Hj Hd. apply elem_of_cons in Hj as [->|Hj]; [exact (Hi Hd)|]. apply elem_of_app in Hj as [Hj|Hj]; [apply (D1 _ Hj); right; exact Hd|apply (E1 _ Hj); apply elem_of_app; right; right; exact Hd]. }
    split.
    { apply NoDup_app. split; [exact N2|]. split; [|exact M2]. intros k Ha Hb. exact (Hab _ (E2 _ Hb) (D2 _ Ha)). }
    intros k Hk. right. apply elem_of_app in Hk as [Hk|Hk]; apply elem_of_app; auto.
Qed.
Lemma walk_pars (e : net T) : forall done k, k ∈ datas (walk_net e done) -> k ∈ pars e.
Proof using Type.
  induction e as [t|l i e IH|i a IHa b IHb d]; intros done k; cbn [walk_net pars].
  - intros Hk. inversion Hk.
  - destruct (decide (i ∈ done)); [intros Hk; inversion Hk|]. change (datas (Enter i :: ?x)) with (datas x). rewrite datas_app. intros Hk. apply elem_of_app in Hk as [Hk|Hk]; apply elem_of_app; [right; eauto|].
    left. destruct (has_par l); exact Hk.
  - destruct (decide (i ∈ done)); [intros Hk; inversion Hk|]. cbv zeta. change (datas (Enter i :: ?x)) with (datas x). rewrite datas_app. intros Hk. apply elem_of_app in Hk as [Hk|Hk]; apply elem_of_app; eauto.
Qed.

(** A net whose layers are told apart by their positions. *)
Fixpoint nodes (e : net T) : list nat :=
  match e with NIn _ => [] | NLay _ i e => i :: nodes e | NCat i a b _ => i :: nodes a ++ nodes b end.
Fixpoint placed (at' : nat -> option (net T)) (e : net T) : Prop :=
  match e with
  | NIn _ => True
  | NLay _ i e' => at' i = Some e /\ i ∉ nodes e' /\ placed at' e'
  | NCat i a b _ => at' i = Some e /\ i ∉ nodes a /\ i ∉ nodes b /\ placed at' a /\ placed at' b
  end.
Lemma placed_node at' e j : placed at' e -> j ∈ nodes e -> exists e', at' j = Some e'.
Proof using Type.
  induction e as [t|l i e IH|i a IHa b IHb d]; cbn [placed nodes]; intros Hp Hj; [inversion Hj| |].
  - apply elem_of_cons in Hj as [->|Hj]; [exists (NLay l i e); apply Hp|]. apply IH; [apply Hp|exact Hj].
  - apply elem_of_cons in Hj as [->|Hj]; [exists (NCat i a b d); apply Hp|]. apply elem_of_app in Hj as [Hj|Hj]; [apply IHa|apply IHb]; try exact Hj; apply Hp.
Qed.
Lemma walk_nodes (e : net T) : forall done k, k ∈ enters (walk_net e done) -> k ∈ nodes e.
Proof using Type.
  induction e as [t|l i e IH|i a IHa b IHb d]; intros done k; cbn [walk_net nodes].
  - intros Hk. inversion Hk.
  - destruct (decide (i ∈ done)); [intros Hk; inversion Hk|]. change (enters (Enter i :: ?x)) with (i :: enters x). rewrite enters_app. intros Hk. apply elem_of_cons in Hk as [->|Hk]; [left|]. right.
    apply elem_of_app in Hk as [Hk|Hk]; [eauto|]. destruct (has_par l); inversion Hk.
  - destruct (decide (i ∈ done)); [intros Hk; inversion Hk|]. cbv zeta. change (enters (Enter i :: ?x)) with (i :: enters x). rewrite enters_app. intros Hk. apply elem_of_cons in Hk as [->|Hk]; [left|]. right.
    apply elem_of_app in Hk as [Hk|Hk]; apply elem_of_app; eauto.
Qed.
Lemma walk_all_gen at' (e : net T) : forall done (X : nat -> Prop), placed at' e ->
  (forall j ej k, j ∈ done -> j ∈ nodes e -> at' j = Some ej -> k ∈ pars ej -> X k) ->
  (forall k, k ∈ pars e -> X k \/ k ∈ datas (walk_net e done)) /\
  (forall j ej k, j ∈ enters (walk_net e done) -> at' j = Some ej -> k ∈ pars ej -> X k \/ k ∈ datas (walk_net e done)).
Proof using Type.
  induction e as [t|l i e IH|i a IHa b IHb d]; intros done X Hp HX; cbn [walk_net pars nodes placed] in *.
  - split; intros; exfalso; [inversion H0|inversion H0].
  - destruct Hp as (Hi & Hn & Hp). destruct (decide (i ∈ done)) as [Hd|Hd].
    { split; [|intros j ej k Hj; inversion Hj]. intros k Hk. left. eapply (HX i (NLay l i e)); [exact Hd|left|exact Hi|exact Hk]. }
    destruct (IH (i :: done) X Hp) as [G1 G2].
    { intros j ej k Hj Hjn. apply elem_of_cons in Hj as [->|Hj]; [contradiction|]. apply HX; [exact Hj|right; exact Hjn]. }
    assert (HP : forall k, k ∈ (if has_par l then [i] else []) ++ pars e -> X k \/ k ∈ datas (Enter i :: walk_net e (i :: done) ++ (if has_par l then [Data i] else []))).
    { change (datas (Enter i :: ?x)) with (datas x). rewrite datas_app. intros k Hk. apply elem_of_app in Hk as [Hk|Hk].
      - right. apply elem_of_app. right. destruct (has_par l); exact Hk.
      - destruct (G1 k Hk) as [?|?]; [auto|]. right. apply elem_of_app. auto. }
    split; [exact HP|]. intros j ej k Hj Ej Hk. change (enters (Enter i :: ?x)) with (i :: enters x) in Hj. apply elem_of_cons in Hj as [->|Hj].
    + assert (ej = NLay l i e) as -> by congruence. apply HP. exact Hk.
    + rewrite enters_app in Hj. apply elem_of_app in Hj as [Hj|Hj]; [|destruct (has_par l); inversion Hj]. change (datas (Enter i :: ?x)) with (datas x). rewrite datas_app.
      destruct (G2 j ej k Hj Ej Hk) as [?|?]; [auto|]. right. apply elem_of_app. auto.
  - destruct Hp as (Hi & Hna & Hnb & Hpa & Hpb). destruct (decide (i ∈ done)) as [Hd|Hd].
    { split; [|intros j ej k Hj; inversion Hj]. intros k Hk. left. eapply (HX i (NCat i a b d)); [exact Hd|left|exact Hi|exact Hk]. }
    cbv zeta. set (wa := walk_net a (i :: done)) in *.
    destruct (IHa (i :: done) X Hpa) as [G1 G2].
    { intros j ej k Hj Hjn. apply elem_of_cons in Hj as [->|Hj]; [contradiction|]. apply HX; [exact Hj|right; apply elem_of_app; auto]. }
    destruct (IHb (enters wa ++ i :: done) (fun k => X k \/ k ∈ datas wa) Hpb) as [F1 F2].
    { intros j ej k Hj Hjn Ej Hk. apply elem_of_app in Hj as [Hj|Hj]; [eapply G2; eassumption|]. left. apply elem_of_cons in Hj as [->|Hj]; [contradiction|]. eapply HX; [exact Hj|right; apply elem_of_app; auto|exact Ej|exact Hk]. }
    fold wa in G1, G2. set (wb := walk_net b (enters wa ++ i :: done)) in *.
    assert (HP : forall k, k ∈ pars a ++ pars b -> X k \/ k ∈ datas (Enter i :: wa ++ wb)).
    { change (datas (Enter i :: ?x)) with (datas x). rewrite datas_app. intros k Hk. apply elem_of_app in Hk as [Hk|Hk].
      - destruct (G1 k Hk) as [?|?]; [auto|]. right. apply elem_of_app. auto.
      - destruct (F1 k Hk) as [[?|?]|?]; [auto|right; apply elem_of_app; auto..]. }
    split; [exact HP|]. intros j ej k Hj Ej Hk. change (enters (Enter i :: ?x)) with (i :: enters x) in Hj. apply elem_of_cons in Hj as [->|Hj].
    + assert (ej = NCat i a b d) as -> by congruence. apply HP. exact Hk.
    + rewrite enters_app in Hj. change (datas (Enter i :: ?x)) with (datas x). rewrite datas_app. apply elem_of_app in Hj as [Hj|Hj].
      * destruct (G2 j ej k Hj Ej Hk) as [?|?]; [auto|]. right. apply elem_of_app. auto.
      * destruct (F2 j ej k Hj Ej Hk) as [[?|?]|?]; [auto|right; apply elem_of_app; auto..].
Qed.
Lemma walk_all at' (e : net T) : placed at' e -> forall k, k ∈ datas (walk_net e []) <-> k ∈ pars e.
Proof using Type.
  intros Hp k. split; [apply walk_pars|]. intros Hk. destruct (walk_all_gen at' e [] (fun _ => False) Hp) as [G _]; [intros j ej k' Hj; inversion Hj|]. destruct (G k Hk) as [[]|?]; assumption.
Qed.
(** Everything behind a marked root is passed over. *)
Lemma walk_again (e : net T) done : forall done', (forall j, j ∈ enters (walk_net e done) ++ done -> j ∈ done') -> walk_net e done' = [].
Proof using Type.
  intros done' Hd. destruct e as [t|l i e|i a b d]; cbn [walk_net] in *; [reflexivity| |].
  - destruct (decide (i ∈ done')) as [_|Hn]; [reflexivity|]. exfalso. apply Hn, Hd. destruct (decide (i ∈ done)); [apply elem_of_app; right; assumption|left].
  - destruct (decide (i ∈ done')) as [_|Hn]; [reflexivity|]. exfalso. apply Hn, Hd. destruct (decide (i ∈ done)); [apply elem_of_app; right; assumption|left].
Qed.
Lemma walk_ext (e : net T) : forall d d', (forall j, j ∈ nodes e -> (j ∈ d <-> j ∈ d')) -> walk_net e d = walk_net e d'.
Proof using Type.
  induction e as [t|l i e IH|i a IHa b IHb d0]; intros d d' Hd; cbn [walk_net nodes] in *; [reflexivity| |].
  - rewrite (decide_ext _ (i ∈ d')) by (apply Hd; left). destruct (decide (i ∈ d')); [reflexivity|]. rewrite (IH (i :: d) (i :: d')); [reflexivity|]. intros j Hj. rewrite !elem_of_cons. rewrite (Hd j) by (right; exact Hj). reflexivity.
  - rewrite (decide_ext _ (i ∈ d')) by (apply Hd; left). destruct (decide (i ∈ d')); [reflexivity|]. cbv zeta.
    rewrite (IHa (i :: d) (i :: d')) by (intros j Hj; rewrite !elem_of_cons, (Hd j) by (right; apply elem_of_app; auto); reflexivity).
    rewrite (IHb (enters (walk_net a (i :: d')) ++ i :: d) (enters (walk_net a (i :: d')) ++ i :: d')); [reflexivity|].
    intros j Hj. rewrite !elem_of_app, !elem_of_cons, (Hd j) by (right; apply elem_of_app; auto). reflexivity.
Qed.
End Events.

(** ** One walk for both directions *)
Section Walk.
Context {T : Type} `{Num T} {W : Type}.
Context (f : bfield) (leaf : nat -> M (W * tst T) unit).
Fixpoint walkL (fuel : nat) (id : nat) : M (W * lst T) unit :=
  match fuel with
  | O => mdiverge
  | S fuel' =>
      l <~ io (getL id) ;
      if lflag l f then mret tt
      else
        io (updL id (set_flag f true)) ;~
        match lkind_of l with
        | LConcat l1 l2 _ => opt l1 (walkL fuel') ;~ opt l2 (walkL fuel')
        | _ =>
            opt (lpre l) (walkL fuel') ;~
            opt (lten l FWeights) (fun t => ioT (leaf t)) ;~
            opt (lten l FBias) (fun t => ioT (leaf t))
        end
  end.
Section Drive.
Context {S : Type} (step : nat -> M S unit).
Fixpoint drive (l : list ev) (x : S) : list nat * (res unit * S) :=
  match l with
  | [] => ([], (Ok tt, x))
  | Enter i :: l' => let '(E, y) := drive l' x in (i :: E, y)
  | Data k :: l' => match step k x with (Ok _, x') => drive l' x' | (bad, x') => ([], (bad, x')) end
  end.
Lemma drive_app a b x : drive (a ++ b) x =
  match drive a x with
  | (E, (Ok _, x')) => let '(E', y) := drive b x' in (E ++ E', y)
  | bad => bad
  end.
Proof using Type.
  revert x. induction a as [|[i|k] a IH]; intros x; cbn [app drive].
  - destruct (drive b x) as [E y]. reflexivity.
  - rewrite IH. destruct (drive a x) as [E [[?|?| |] x']]; try reflexivity. destruct (drive b x') as [E' y]. reflexivity.
  - destruct (step k x) as [[?|?| |] x']; try reflexivity. apply IH.
Qed.
End Drive.

Context (s1 : lst T) (root : nat) (tw tb : nat -> option nat).
Definition step (k : nat) : M (W * tst T) unit := opt (tw k) leaf ;~ opt (tb k) leaf.
Definition like (s : lst T) : Prop := forall j L1, part s1 root j -> lays s1 !! j = Some L1 ->
  exists L, lays s !! j = Some L /\ lkind_of L = lkind_of L1 /\ lpre L = lpre L1 /\ lten L FWeights = tw j /\ lten L FBias = tb j.
Definition flagged (s : lst T) (done : list nat) : Prop := forall j L1 L, part s1 root j -> lays s1 !! j = Some L1 -> lkind_of L1 <> LInput ->
  lays s !! j = Some L -> lflag L f = bool_decide (j ∈ done).
Definition marked (ls ls' : list (layer T)) : Prop := length ls' = length ls /\ forall j L, ls !! j = Some L ->
  exists L', ls' !! j = Some L' /\ lkind_of L' = lkind_of L /\ lpre L' = lpre L /\ lten L' = lten L /\ forall g, g <> f -> lflag L' g = lflag L g.
Lemma marked_refl ls : marked ls ls.
Proof using Type. split; [reflexivity|]. intros j L HL. exists L. auto 10. Qed.
Lemma marked_trans a b d : marked a b -> marked b d -> marked a d.
Proof using Type.
  intros [E1 G1] [E2 G2]. split; [congruence|]. intros j L HL. destruct (G1 _ _ HL) as (L' & HL' & A1 & A2 & A3 & A4). destruct (G2 _ _ HL') as (L2 & HL2 & B1 & B2 & B3 & B4).
  exists L2. split; [exact HL2|]. split; [congruence|]. split; [congruence|]. split; [congruence|]. intros g Hg. rewrite B4, A4 by exact Hg. reflexivity.
Qed.
Lemma marked_set ls i L v : ls !! i = Some L -> marked ls (<[i := set_flag f v L]> ls).
Proof using Type.
  intros HL. split; [apply insert_length|]. intros j Lj HLj. destruct (decide (j = i)) as [->|Hne].
  - assert (Lj = L) as -> by congruence. exists (set_flag f v L). split; [apply list_lookup_insert; eapply lookup_lt_Some; exact HL|]. repeat split.
    intros g Hg. cbn. destruct (bfield_eqb g f) eqn:E; [|reflexivity]. exfalso. apply Hg. destruct g, f; cbn in E; congruence.
  - exists Lj. rewrite list_lookup_insert_ne by congruence. auto 10.
Qed.
Lemma like_marked s ls t k : like s -> marked (lays s) ls -> like (MkL t ls k).
Proof using Type.
  intros Hl [_ Hm] j L1 Hj HL1. destruct (Hl j L1 Hj HL1) as (L & HL & A1 & A2 & A3 & A4). destruct (Hm _ _ HL) as (L' & HL' & B1 & B2 & B3 & _).
  exists L'. cbn [lays]. split; [exact HL'|]. rewrite B3. repeat split; congruence.
Qed.
Lemma set_flag_same (L : layer T) v : lflag (set_flag f v L) f = v.
Proof using Type. cbn. destruct f; reflexivity. Qed.
Lemma flagged_set s i L1 L done t k : part s1 root i -> lays s1 !! i = Some L1 -> lays s !! i = Some L -> flagged s done -> flagged (MkL t (<[i := set_flag f true L]> (lays s)) k) (i :: done).
Proof using Type.
  clear tw tb leaf. intros Hi HL1 HL Hf j Lj1 Lj Hj HLj1 Hk HLj. cbn [lays] in HLj. destruct (decide (j = i)) as [->|Hne].
  - rewrite list_lookup_insert in HLj by (eapply lookup_lt_Some; exact HL). injection HLj as <-. rewrite set_flag_same. symmetry. apply bool_decide_eq_true. left.
  - rewrite list_lookup_insert_ne in HLj by congruence. rewrite (Hf j Lj1 Lj Hj HLj1 Hk HLj). apply bool_decide_ext. rewrite elem_of_cons. intuition congruence.
Qed.

Context (Hleafless : forall j L1, part s1 root j -> lays s1 !! j = Some L1 -> lkind_of L1 = LInput \/ (exists l, lspec_of (tens (ts s1)) L1 = Some l /\ has_par l = false) -> tw j = None /\ tb j = None).

Lemma part_child i j : part s1 root i -> child s1 i j -> part s1 root j.
Proof using Type. intros Hi Hc. eapply rtc_r; eassumption. Qed.
(** The numbers of one layer. *)
Lemma leaf_step (L : layer T) i w (s : lst T) r w' t' : lten L FWeights = tw i -> lten L FBias = tb i -> step i (w, ts s) = (r, (w', t')) ->
  (opt (lten L FWeights) (fun t => ioT (leaf t)) ;~ opt (lten L FBias) (fun t => ioT (leaf t))) (w, s) = (r, (w', MkL t' (lays s) (rc s))).
Proof using Type.
  intros Ew Eb E. rewrite Ew, Eb. unfold step in E. unfold mbnd in E |- *. destruct (tw i) as [a|]; cbn [opt] in *.
  - unfold ioT at 1. cbn [fst snd]. destruct (leaf a (w, ts s)) as [[[]|x| |] [w1 t1]]; try (injection E as <- <- <-; reflexivity).
    destruct (tb i) as [b|]; cbn [opt] in *; [|unfold mret in *; injection E as <- <- <-; reflexivity]. unfold ioT. cbn [fst snd ts lays rc]. rewrite E. reflexivity.
  - unfold mret at 1. unfold mret at 1 in E. destruct (tb i) as [b|]; cbn [opt] in *; [|unfold mret in *; injection E as <- <- <-; destruct s; reflexivity]. unfold ioT. cbn [fst snd ts lays rc]. rewrite E. reflexivity.
Qed.
Lemma leaf_none (L : layer T) i w (s : lst T) : lten L FWeights = tw i -> lten L FBias = tb i -> tw i = None -> tb i = None ->
  (opt (lten L FWeights) (fun t => ioT (leaf t)) ;~ opt (lten L FBias) (fun t => ioT (leaf t))) (w, s) = (Ok tt, (w, s)).
Proof using Type. intros -> -> -> ->. reflexivity. Qed.

Theorem walk_ok i e : stands s1 i e -> part s1 root i -> forall fuel, need e <= fuel -> forall w (s : lst T) done, like s -> flagged s done ->
  match drive step (walk_net e done) (w, ts s) with
  | (E, (r, (w', t'))) => exists ls', walkL fuel i (w, s) = (r, (w', MkL t' ls' (rc s))) /\ marked (lays s) ls' /\ flagged (MkL t' ls' (rc s)) (E ++ done)
  end.
Proof using Hleafless.
  intros Hs. induction Hs as [i L t HL Hk Hp Ht|i L l t HL Hk Hl Hp Ht|i L l q e HL Hl Hp Hs IH|i L a b d ea eb HL Hk Hp Ha IHa Hb IHb]; intros Hi fuel Hf w s done Hlk Hfl;
    (destruct fuel as [|fuel]; [cbn [need] in Hf; lia|]); cbn [walkL walk_net].
  all: destruct (Hlk i L Hi HL) as (L' & HL' & Ek & Ep & Ew & Eb).
  all: erewrite mbnd_ok by (apply io_ok; apply getL_ok; exact HL').
  - cbn [drive]. destruct (Hleafless i L Hi HL) as [Hw0 Hb0]; [auto|]. destruct (lflag L' f).
    + exists (lays s). split; [destruct s; reflexivity|]. split; [apply marked_refl|]. destruct s; exact Hfl.
    + erewrite mbnd_ok by (apply io_ok; apply updL_ok; exact HL'). rewrite Ek, Hk, Ep, Hp. cbn [opt]. erewrite mbnd_ok by reflexivity.
      exists (<[i:=set_flag f true L']> (lays s)). split; [apply (leaf_none L' i); assumption|]. split; [apply marked_set; exact HL'|].
      intros j Lj1 Lj Hj HLj1 Hkj HLj. cbn [lays app] in *. rewrite list_lookup_insert_ne in HLj by congruence. eapply Hfl; eassumption.
  - assert (Hki : lkind_of L <> LInput) by congruence. rewrite (Hfl i L L' Hi HL Hki HL'). destruct (decide (i ∈ done)) as [Hd|Hd].
    + rewrite bool_decide_eq_true_2 by exact Hd. cbn [drive]. exists (lays s). split; [destruct s; reflexivity|]. split; [apply marked_refl|]. destruct s; exact Hfl.
    + rewrite bool_decide_eq_false_2 by exact Hd. erewrite mbnd_ok by (apply io_ok; apply updL_ok; exact HL'). rewrite Ek, Hk, Ep, Hp. cbn [opt]. erewrite mbnd_ok by reflexivity. cbn [app drive].
      pose proof (flagged_set s i L L' done (ts s) (rc s) Hi HL HL' Hfl) as Hfl2. pose proof (marked_set (lays s) i L' true HL') as Hm. destruct (has_par l) eqn:Hpar; cbn [drive].
      * destruct (step i (w, ts s)) as [[[]|x| |] [w' t']] eqn:Es; cbn [drive]; (exists (<[i:=set_flag f true L']> (lays s)); split; [apply (leaf_step L' i w (MkL (ts s) (<[i:=set_flag f true L']> (lays s)) (rc s))); assumption|split; [exact Hm|exact Hfl2]]).
      * exists (<[i:=set_flag f true L']> (lays s)). destruct (Hleafless i L Hi HL) as [Hw0 Hb0]; [eauto|]. split; [apply (leaf_none L' i); assumption|]. split; [exact Hm|exact Hfl2].
  - pose proof (lspec_kind _ _ _ Hl) as [Hki Hkc]. rewrite (Hfl i L L' Hi HL Hki HL'). destruct (decide (i ∈ done)) as [Hd|Hd].
    + rewrite bool_decide_eq_true_2 by exact Hd. cbn [drive]. exists (lays s). split; [destruct s; reflexivity|]. split; [apply marked_refl|]. destruct s; exact Hfl.
    + rewrite bool_decide_eq_false_2 by exact Hd. erewrite mbnd_ok by (apply io_ok; apply updL_ok; exact HL'). rewrite Ek.
      assert (Ec : match lkind_of L with LConcat l1 l2 _ => opt l1 (walkL fuel) ;~ opt l2 (walkL fuel) | _ => opt (lpre L') (walkL fuel) ;~ opt (lten L' FWeights) (fun t => ioT (leaf t)) ;~ opt (lten L' FBias) (fun t => ioT (leaf t)) end
                   = (opt (lpre L') (walkL fuel) ;~ opt (lten L' FWeights) (fun t => ioT (leaf t)) ;~ opt (lten L' FBias) (fun t => ioT (leaf t)))).
      { destruct (lkind_of L) eqn:E; try reflexivity. exfalso. eapply Hkc. reflexivity. }
      rewrite Ec. rewrite Ep, Hp. cbn [opt drive]. set (s0 := MkL (ts s) (<[i:=set_flag f true L']> (lays s)) (rc s)).
      pose proof (flagged_set s i L L' done (ts s) (rc s) Hi HL HL' Hfl) as Hfl2. pose proof (marked_set (lays s) i L' true HL') as Hm.
      assert (Hq : part s1 root q) by (eapply part_child; [exact Hi|]; exists L; auto).
      specialize (IH Hq fuel ltac:(cbn [need] in Hf; lia) w s0 (i :: done) (like_marked _ _ _ _ Hlk Hm) Hfl2). rewrite drive_app. cbn [s0 ts] in IH |- *.
      destruct (drive step (walk_net e (i :: done)) (w, ts s)) as [E [r [w' t']]]. destruct IH as (ls' & E1 & M1 & F1). cbn [lays rc] in *.
      pose proof (marked_trans _ _ _ Hm M1) as M2.
      assert (Ed : forall E', (i :: E ++ E') ++ done = i :: (E ++ E') ++ done) by reflexivity.
      assert (Hset : forall E0, flagged (MkL t' ls' (rc s)) (E0 ++ i :: done) -> forall t2, flagged (MkL t2 ls' (rc s)) (i :: E0 ++ done)).
      { intros E0 G t2 j Lj1 Lj Hj HLj1 Hkj HLj. rewrite (G j Lj1 Lj Hj HLj1 Hkj HLj). apply bool_decide_ext. rewrite !elem_of_app, !elem_of_cons, !elem_of_app. tauto. }
      destruct r as [[]|x| |]; try (unfold mbnd; rewrite E1; exists ls'; split; [reflexivity|split; [exact M2|apply Hset; exact F1]]).
      rewrite (mbnd_ok _ _ _ _ _ E1). destruct (has_par l) eqn:Hpar; cbn [drive].
      * destruct (step i (w', t')) as [[[]|x| |] [w2 t2]] eqn:Es; rewrite app_nil_r; (exists ls'; split; [apply (leaf_step L' i w' (MkL t' ls' (rc s))); assumption|split; [exact M2|apply Hset; exact F1]]).
      * rewrite app_nil_r. exists ls'. destruct (Hleafless i L Hi HL) as [Hw0 Hb0]; [eauto|]. split; [apply (leaf_none L' i); assumption|]. split; [exact M2|apply Hset; exact F1].
  - assert (Hki : lkind_of L <> LInput) by congruence. rewrite (Hfl i L L' Hi HL Hki HL'). destruct (decide (i ∈ done)) as [Hd|Hd].
    + rewrite bool_decide_eq_true_2 by exact Hd. cbn [drive]. exists (lays s). split; [destruct s; reflexivity|]. split; [apply marked_refl|]. destruct s; exact Hfl.
    + rewrite bool_decide_eq_false_2 by exact Hd. erewrite mbnd_ok by (apply io_ok; apply updL_ok; exact HL'). rewrite Ek, Hk. cbn [opt drive]. cbv zeta. set (s0 := MkL (ts s) (<[i:=set_flag f true L']> (lays s)) (rc s)).
      pose proof (flagged_set s i L L' done (ts s) (rc s) Hi HL HL' Hfl) as Hfl2. pose proof (marked_set (lays s) i L' true HL') as Hm.
      assert (Hqa : part s1 root a) by (eapply part_child; [exact Hi|]; exists L; split; [exact HL|]; right; exists a, b, d; auto).
      assert (Hqb : part s1 root b) by (eapply part_child; [exact Hi|]; exists L; split; [exact HL|]; right; exists a, b, d; auto).
      specialize (IHa Hqa fuel ltac:(cbn [need] in Hf; lia) w s0 (i :: done) (like_marked _ _ _ _ Hlk Hm) Hfl2). rewrite drive_app. cbn [s0 ts] in IHa |- *.
      assert (Hall : forall x E r0 y, drive step (walk_net ea (i :: done)) x = (E, (Ok r0, y)) -> E = enters (walk_net ea (i :: done))).
      { clear. generalize (walk_net ea (i :: done)). induction l as [|[j|k] l IH]; intros x E r0 y; cbn [drive].
        - intros [= <- _ _]. reflexivity.
        - destruct (drive step l x) as [E' [r' y']] eqn:Ed. intros [= <- -> ->]. change (enters (Enter j :: l)) with (j :: enters l). f_equal. eapply IH. exact Ed.
        - destruct (step k x) as [[?|?| |] x']; [|intros [=]..]. intros Ed. change (enters (Data k :: l)) with (enters l). eapply IH. exact Ed. }
      destruct (drive step (walk_net ea (i :: done)) (w, ts s)) as [E [r [w' t']]] eqn:Edr. destruct IHa as (ls' & E1 & M1 & F1). cbn [lays rc] in *.
      pose proof (marked_trans _ _ _ Hm M1) as M2.
      assert (Hset : forall E0 t0 ls2, flagged (MkL t0 ls2 (rc s)) (E0 ++ i :: done) -> forall t2, flagged (MkL t2 ls2 (rc s)) (i :: E0 ++ done)).
      { intros E0 t0 ls2 G t2 j Lj1 Lj Hj HLj1 Hkj HLj. rewrite (G j Lj1 Lj Hj HLj1 Hkj HLj). apply bool_decide_ext. rewrite !elem_of_app, !elem_of_cons, !elem_of_app. tauto. }
      destruct r as [[]|x| |]; try (unfold mbnd; rewrite E1; exists ls'; split; [reflexivity|split; [exact M2|eapply Hset; exact F1]]).
      rewrite (mbnd_ok _ _ _ _ _ E1). pose proof (Hall _ _ _ _ Edr) as EE. rewrite EE in F1.
      specialize (IHb Hqb fuel ltac:(cbn [need] in Hf; lia) w' (MkL t' ls' (rc s)) (enters (walk_net ea (i :: done)) ++ i :: done) (like_marked _ _ _ _ Hlk M2) F1). cbn [ts lays rc] in IHb.
      destruct (drive step (walk_net eb (enters (walk_net ea (i :: done)) ++ i :: done)) (w', t')) as [E' [r' [w2 t2]]]. destruct IHb as (ls2 & E2 & M3 & F2). exists ls2. split; [exact E2|]. split; [eapply marked_trans; eassumption|].
      rewrite EE. cbn [app]. apply Hset with (t0 := t2). intros j Lj1 Lj Hj HLj1 Hkj HLj. rewrite (F2 j Lj1 Lj Hj HLj1 Hkj HLj). apply bool_decide_ext. rewrite !elem_of_app, !elem_of_cons. tauto.
Qed.
End Walk.

(** ** Removing the marks *)
Section Reset.
Context {T : Type} `{Num T}.
Context (f : bfield) (s1 : lst T) (root : nat) (tw tb : nat -> option nat).
Theorem reset_ok i e : stands s1 i e -> part s1 root i -> forall fuel, need e <= fuel -> forall (s : lst T) done, like s1 root tw tb s -> flagged f s1 root s done ->
  exists ls', LResetIO f fuel i s = (Ok tt, MkL (ts s) ls' (rc s)) /\ marked f (lays s) ls' /\ flagged f s1 root (MkL (ts s) ls' (rc s)) (unmark (chain e) done).
Proof using Type.
  intros Hs. induction Hs as [i L t HL Hk Hp Ht|i L l t HL Hk Hl Hp Ht|i L l q e HL Hl Hp Hs IH|i L a b d ea eb HL Hk Hp Ha IHa Hb IHb]; intros Hi fuel Hf s done Hlk Hfl;
    (destruct fuel as [|fuel]; [cbn [need] in Hf; lia|]); cbn [LResetIO chain].
  all: destruct (Hlk i L Hi HL) as (L' & HL' & Ek & Ep & Ew & Eb).
  all: pose proof (marked_set f (lays s) i L' false HL') as Hm.
  all: assert (HU : forall c j, j ∈ unmark c done <-> j ∈ done /\ j ∉ c) by (intros c j; unfold unmark; rewrite elem_of_list_In, filter_In, <- elem_of_list_In; destruct (bool_decide_reflect (j ∈ c)); cbn; intuition congruence).
  all: assert (Hi1 : lkind_of L <> LInput -> forall c, (forall j, j ∈ c <-> j = i) -> flagged f s1 root (MkL (ts s) (<[i := set_flag f false L']> (lays s)) (rc s)) (unmark c done)).
  1,3,5,7: intros _ c Hc j Lj1 Lj Hj HLj1 Hkj HLj; cbn [lays] in HLj; destruct (decide (j = i)) as [->|Hne];
    [rewrite list_lookup_insert in HLj by (eapply lookup_lt_Some; exact HL'); injection HLj as <-; rewrite set_flag_same; symmetry; apply bool_decide_eq_false; rewrite HU, Hc; tauto
    |rewrite list_lookup_insert_ne in HLj by congruence; rewrite (Hfl j Lj1 Lj Hj HLj1 Hkj HLj); apply bool_decide_ext; rewrite HU, Hc; tauto].
  all: erewrite mbnd_ok by (apply updL_ok; exact HL').
  all: erewrite mbnd_ok by (apply getL_ok; cbn [lays]; apply list_lookup_insert; eapply lookup_lt_Some; exact HL').
  all: change (lpre (set_flag f false L')) with (lpre L'); rewrite Ep, Hp; cbn [opt].
  - exists (<[i := set_flag f false L']> (lays s)). split; [reflexivity|]. split; [exact Hm|]. intros j Lj1 Lj Hj HLj1 Hkj HLj. cbn [lays] in *. rewrite list_lookup_insert_ne in HLj by congruence.
    rewrite (Hfl j Lj1 Lj Hj HLj1 Hkj HLj). apply bool_decide_ext. rewrite HU. split; [intros; split; [assumption|intros X; inversion X]|tauto].
  - exists (<[i := set_flag f false L']> (lays s)). split; [reflexivity|]. split; [exact Hm|]. apply Hi1; [congruence|]. intros j. apply elem_of_list_singleton.
  - pose proof (lspec_kind _ _ _ Hl) as [Hki Hkc]. assert (Hq : part s1 root q) by (eapply part_child; [exact Hi|]; exists L; auto).
    destruct (IH Hq fuel ltac:(cbn [need] in Hf; lia) (MkL (ts s) (<[i := set_flag f false L']> (lays s)) (rc s)) (unmark [i] done)) as (ls' & E1 & M1 & F1).
    + eapply like_marked; eassumption.
    + apply Hi1; [exact Hki|]. intros j. apply elem_of_list_singleton.
    + cbn [lays ts rc] in *. exists ls'. split; [exact E1|]. split; [eapply marked_trans; eassumption|]. intros j Lj1 Lj Hj HLj1 Hkj HLj. rewrite (F1 j Lj1 Lj Hj HLj1 Hkj HLj). apply bool_decide_ext.
      assert (HU2 : forall c x y, x ∈ unmark c y <-> x ∈ y /\ x ∉ c) by (intros c x y; unfold unmark; rewrite elem_of_list_In, filter_In, <- elem_of_list_In; destruct (bool_decide_reflect (x ∈ c)); cbn; intuition congruence).
      rewrite !HU2, elem_of_list_singleton, elem_of_cons. tauto.
  - exists (<[i := set_flag f false L']> (lays s)). split; [reflexivity|]. split; [exact Hm|]. apply Hi1; [congruence|]. intros j. apply elem_of_list_singleton.
Qed.
End Reset.
