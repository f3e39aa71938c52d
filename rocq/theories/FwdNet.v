(** * FwdNet: the network that layer objects describe *)
From Verif Require Import Base Num ModelTools ModelOps ModelTensor ModelGraph ModelLayer Spec Denote NetSpec FwdSpec.
From stdpp Require Import relations.
From Coq Require Import Lia ZifyBool ZifyNat ZifyN.

Section FwdNet.
Context {T : Type} `{Num T}.

(** The kind and the settings of a layer; the number of units of a dense layer
    is the size of the output it was made with. *)
Definition lspec_of (tn : list (node T)) (L : layer T) : option (lspec T) :=
  match lkind_of L with
  | LInput | LConcat _ _ _ => None
  | LDense => a ← lact L; t ← lten L FOutput; n ← tn !! t;
              match shape (nmat n) with [o] => Some (SDense o (act_f a)) | _ => None end
  | LConv2D nf kw kh sx sy => a ← lact L; Some (SConv nf kw kh sx sy (act_f a))
  | LDeconv2D nf kw kh sx sy => a ← lact L; Some (SDeconv nf kw kh sx sy (act_f a))
  | LMaxPool2D sx sy => Some (SPool sx sy)
  | LUpSampling2D sx sy => Some (SUp sx sy)
  | LFlatten => Some SFlat
  | LNorm mn mx => Some (SNorm mn mx)
  | LSoftMax => Some SSoft
  | LSubTensor d a b => Some (SSub d a b)
  end.

(** Layer [i] with everything below it is the network [e]. *)
Inductive stands (s : lst T) : nat -> net T -> Prop :=
| st_in i L t : lays s !! i = Some L -> lkind_of L = LInput -> lpre L = None -> lten L FInput = Some t -> stands s i (NIn t)
| st_src i L l t : lays s !! i = Some L -> lkind_of L = LDense -> lspec_of (tens (ts s)) L = Some l -> lpre L = None ->
    lten L FInput = Some t -> stands s i (NLay l i (NIn t))
| st_lay i L l q e : lays s !! i = Some L -> lspec_of (tens (ts s)) L = Some l -> lpre L = Some q -> stands s q e ->
    stands s i (NLay l i e)
| st_cat i L a b d ea eb : lays s !! i = Some L -> lkind_of L = LConcat (Some a) (Some b) d -> lpre L = None ->
    stands s a ea -> stands s b eb -> stands s i (NCat i ea eb d).

(** The layers a layer is put on, and all layers of the network below it. *)
Definition child (s : lst T) (i j : nat) : Prop :=
  exists L, lays s !! i = Some L /\ (lpre L = Some j \/ exists a b d, lkind_of L = LConcat (Some a) (Some b) d /\ (j = a \/ j = b)).
Definition part (s : lst T) : nat -> nat -> Prop := rtc (child s).

Fixpoint nsize (e : net T) : nat :=
  match e with NIn _ => 1 | NLay _ _ e => S (nsize e) | NCat _ a b _ => S (nsize a + nsize b) end.
Fixpoint need (e : net T) : nat :=
  match e with NIn _ => 1 | NLay _ _ e => S (need e) | NCat _ a b _ => S (Nat.max (need a) (need b)) end.

Lemma lspec_kind tn (L : layer T) l : lspec_of tn L = Some l -> lkind_of L <> LInput /\ forall a b d, lkind_of L <> LConcat a b d.
Proof using Type. unfold lspec_of. destruct (lkind_of L); intros E; split; try discriminate; intros; discriminate. Qed.
Lemma stands_inj s i e : stands s i e -> forall e', stands s i e' -> e = e'.
Proof using Type.
  induction 1 as [i L t HL Hk Hp Ht|i L l t HL Hk Hl Hp Ht|i L l q e HL Hl Hp Hs IH|i L a b d ea eb HL Hk Hp Ha IHa Hb IHb]; intros e' He.
  - inversion He as [? L' ? HL'|? L' ? ? HL' Hk'|? L' ? ? ? HL' Hl' Hp'|? L' ? ? ? ? ? HL' Hk']; subst; assert (L' = L) as -> by congruence; congruence.
  - inversion He as [? L' ? HL'|? L' ? ? HL' Hk'|? L' ? ? ? HL' Hl' Hp'|? L' ? ? ? ? ? HL' Hk']; subst; assert (L' = L) as -> by congruence; try congruence.
  - pose proof (lspec_kind _ _ _ Hl) as [Hk1 Hk2].
    inversion He as [? L' ? HL'|? L' ? ? HL' Hk'|? L' ? ? ? HL' Hl' Hp'|? L' ? ? ? ? ? HL' Hk']; subst; assert (L' = L) as -> by congruence; try congruence.
    assert (q0 = q) as -> by congruence. f_equal; [congruence|]. apply IH. assumption.
  - inversion He as [? L' ? HL'|? L' ? ? HL' Hk'|? L' ? ? ? HL' Hl' Hp'|? L' ? ? ? ? ? HL' Hk']; subst; assert (L' = L) as -> by congruence; try congruence.
    rewrite Hk in Hk'. injection Hk' as -> -> ->. f_equal; [apply IHa|apply IHb]; assumption.
Qed.
Lemma stands_child s i e j : stands s i e -> child s i j -> exists e', stands s j e' /\ nsize e' < nsize e.
Proof using Type.
  intros Hs (L & HL & Hc). inversion Hs as [? L' ? HL' Hk Hp|? L' ? ? HL' Hk ? Hp|? L' ? q e0 HL' Hl Hp Hq|? L' a b d ea eb HL' Hk Hp Ha Hb]; subst; assert (L' = L) as -> by congruence.
  - destruct Hc as [Hc|(? & ? & ? & Hc & _)]; congruence.
  - destruct Hc as [Hc|(? & ? & ? & Hc & _)]; congruence.
  - pose proof (lspec_kind _ _ _ Hl) as [Hk1 Hk2]. destruct Hc as [Hc|(? & ? & ? & Hc & _)]; [|exfalso; eapply Hk2; exact Hc].
    assert (q = j) as -> by congruence. exists e0. cbn. split; [exact Hq|lia].
  - destruct Hc as [Hc|(? & ? & ? & Hc & Hj)]; [congruence|]. rewrite Hk in Hc. injection Hc as <- <- <-. cbn. destruct Hj as [->| ->]; eexists; (split; [eassumption|lia]).
Qed.
Lemma stands_part s i e j : stands s i e -> part s i j -> exists e', stands s j e' /\ (j = i \/ nsize e' < nsize e).
Proof using Type.
  intros Hs Hp. revert e Hs. induction Hp as [i|i c j Hc Hp IH]; intros e Hs; [eauto|].
  destruct (stands_child _ _ _ _ Hs Hc) as (ec & Hsc & Hlt). destruct (IH ec Hsc) as (e' & He' & Hj). exists e'. split; [exact He'|]. right.
  destruct Hj as [->|Hj]; [|lia]. pose proof (stands_inj _ _ _ He' _ Hsc) as ->. exact Hlt.
Qed.
Lemma stands_lay s i e : stands s i e -> exists L, lays s !! i = Some L.
Proof using Type. destruct 1; eauto. Qed.

(** A list of the layers of a network. *)
Lemma part_inv s i j : part s i j <-> j = i \/ exists c, child s i c /\ part s c j.
Proof using Type.
  split.
  - intros Hp. inversion Hp as [|? c ? Hc Hp']; subst; [auto|]. right. eauto.
  - intros [->|(c & Hc & Hp)]; [apply rtc_refl|eapply rtc_l; eassumption].
Qed.
Lemma parts_list s i e : stands s i e -> exists U : list nat, NoDup U /\ forall j, j ∈ U <-> part s i j.
Proof using Type.
  intros Hs. enough (E : exists U : list nat, forall j, j ∈ U <-> part s i j).
  { destruct E as [U HU]. exists (remove_dups U). split; [apply NoDup_remove_dups|]. intros j. rewrite elem_of_remove_dups. apply HU. }
  induction Hs as [i L t HL Hk Hp Ht|i L l t HL Hk Hl Hp Ht|i L l q e HL Hl Hp Hs IH|i L a b d ea eb HL Hk Hp Ha IHa Hb IHb].
  - exists [i]. intros j. rewrite part_inv, elem_of_list_singleton. split; [auto|]. intros [->|(c & (L' & HL' & Hc) & _)]; [reflexivity|].
    assert (L' = L) as -> by congruence. destruct Hc as [Hc|(? & ? & ? & Hc & _)]; congruence.
  - exists [i]. intros j. rewrite part_inv, elem_of_list_singleton. split; [auto|]. intros [->|(c & (L' & HL' & Hc) & _)]; [reflexivity|].
    assert (L' = L) as -> by congruence. destruct Hc as [Hc|(? & ? & ? & Hc & _)]; congruence.
  - destruct IH as [U HU]. exists (i :: U). intros j. rewrite part_inv, elem_of_cons, HU. split.
    + intros [->|Hj]; [auto|]. right. exists q. split; [|exact Hj]. exists L. auto.
    + intros [->|(c & (L' & HL' & Hc) & Hj)]; [auto|]. right. assert (L' = L) as -> by congruence.
      destruct Hc as [Hc|(? & ? & ? & Hc & _)]; [|exfalso; eapply (proj2 (lspec_kind _ _ _ Hl)); exact Hc]. assert (c = q) as -> by congruence. exact Hj.
  - destruct IHa as [Ua HUa]. destruct IHb as [Ub HUb]. exists (i :: Ua ++ Ub). intros j. rewrite part_inv, elem_of_cons, elem_of_app, HUa, HUb. split.
    + intros [->|[Hj|Hj]]; [auto| |]; right; [exists a|exists b]; (split; [|exact Hj]); exists L; (split; [exact HL|]); right; exists a, b, d; auto.
    + intros [->|(c & (L' & HL' & Hc) & Hj)]; [auto|]. right. assert (L' = L) as -> by congruence. destruct Hc as [Hc|(? & ? & ? & Hc & Hcc)]; [congruence|].
      rewrite Hk in Hc. injection Hc as <- <- <-. destruct Hcc as [->| ->]; auto.
Qed.
(** The recursions go at most as deep as there are layers. *)
Lemma need_path s i e : stands s i e -> exists p : list nat, NoDup p /\ (forall j, j ∈ p -> part s i j) /\ need e <= S (length p).
Proof using Type.
  assert (G : forall i c e ec p, stands s i e -> child s i c -> stands s c ec -> NoDup p -> (forall j, j ∈ p -> part s c j) ->
     NoDup (i :: p) /\ forall j, j ∈ i :: p -> part s i j).
  { intros i0 c e0 ec p Hs Hc Hsc Hn Hp. split.
    - apply NoDup_cons. split; [|exact Hn]. intros Hi. apply Hp in Hi. destruct (stands_child _ _ _ _ Hs Hc) as (ec' & Hsc' & Hlt).
      pose proof (stands_inj _ _ _ Hsc _ Hsc') as ->. destruct (stands_part _ _ _ _ Hsc' Hi) as (e' & He' & [->|Hle]).
      + pose proof (stands_inj _ _ _ He' _ Hs) as ->. pose proof (stands_inj _ _ _ Hs _ Hsc') as ->. lia.
      + pose proof (stands_inj _ _ _ He' _ Hs) as ->. lia.
    - intros j Hj. apply elem_of_cons in Hj as [->|Hj]; [apply rtc_refl|]. eapply rtc_l; [exact Hc|]. apply Hp. exact Hj. }
  induction 1 as [i L t HL Hk Hp Ht|i L l t HL Hk Hl Hp Ht|i L l q e HL Hl Hp Hs IH|i L a b d ea eb HL Hk Hp Ha IHa Hb IHb].
  - exists [i]. split; [apply NoDup_singleton|]. split; [intros j Hj; apply elem_of_list_singleton in Hj as ->; apply rtc_refl|cbn; lia].
  - exists [i]. split; [apply NoDup_singleton|]. split; [intros j Hj; apply elem_of_list_singleton in Hj as ->; apply rtc_refl|cbn; lia].
  - destruct IH as (p & Hn & Hpp & Hl'). destruct (G i q (NLay l i e) e p) as [G1 G2]; [econstructor; eassumption|exists L; auto|exact Hs|exact Hn|exact Hpp|].
    exists (i :: p). split; [exact G1|]. split; [exact G2|cbn; lia].
  - destruct IHa as (pa & Hna & Hpa & Hla). destruct IHb as (pb & Hnb & Hpb & Hlb).
    assert (Hsi : stands s i (NCat i ea eb d)) by (econstructor; eassumption).
    destruct (decide (need ea <= need eb)).
    + destruct (G i b _ eb pb Hsi) as [G1 G2]; [exists L; split; [exact HL|]; right; exists a, b, d; auto|assumption..|]. exists (i :: pb). split; [exact G1|]. split; [exact G2|cbn; lia].
    + destruct (G i a _ ea pa Hsi) as [G1 G2]; [exists L; split; [exact HL|]; right; exists a, b, d; auto|assumption..|]. exists (i :: pa). split; [exact G1|]. split; [exact G2|cbn; lia].
Qed.
Lemma need_fuel s i e : stands s i e -> need e <= S (length (lays s)).
Proof using Type.
  intros Hs. destruct (need_path _ _ _ Hs) as (p & Hn & Hp & Hl).
  assert (Hle : length p <= length (lays s)); [|lia].
  rewrite <- (seq_length (length (lays s)) 0). apply NoDup_incl_length; [apply NoDup_ListNoDup; exact Hn|].
  intros j Hj. apply elem_of_list_In in Hj. destruct (stands_part _ _ _ _ Hs (Hp _ Hj)) as (e' & He' & _). destruct (stands_lay _ _ _ He') as [L HL].
  apply elem_of_list_In, elem_of_seq. apply lookup_lt_Some in HL. lia.
Qed.
(** The description depends only on what building leaves alone. *)
Definition alike (L L' : layer T) : Prop := lkind_of L' = lkind_of L /\ lact L' = lact L /\ lpre L' = lpre L /\ (forall f, lten L' f = lten L f).
Lemma stands_alike s s' i e : tens (ts s') = tens (ts s) -> (forall j L, lays s !! j = Some L -> exists L', lays s' !! j = Some L' /\ alike L L') ->
  stands s i e -> stands s' i e.
Proof using Type.
  intros Ht Ha. induction 1 as [i L t HL Hk Hp Ho|i L l t HL Hk Hl Hp Ho|i L l q e HL Hl Hp Hs IH|i L a b d ea eb HL Hk Hp Hsa IHa Hsb IHb].
  - destruct (Ha _ _ HL) as (L' & HL' & A1 & A2 & A3 & A4). eapply st_in; [exact HL'| | |]; rewrite ?A4; congruence.
  - destruct (Ha _ _ HL) as (L' & HL' & A1 & A2 & A3 & A4). eapply st_src; [exact HL'| | | |]; rewrite ?A4; try congruence. rewrite <- Hl. unfold lspec_of. rewrite A1, A2, A4, Ht. reflexivity.
  - destruct (Ha _ _ HL) as (L' & HL' & A1 & A2 & A3 & A4). eapply st_lay; [exact HL'| | |exact IH]; [|congruence]. rewrite <- Hl. unfold lspec_of. rewrite A1, A2, A4, Ht. reflexivity.
  - destruct (Ha _ _ HL) as (L' & HL' & A1 & A2 & A3 & A4). eapply st_cat; [exact HL'| | |exact IHa|exact IHb]; congruence.
Qed.
End FwdNet.
