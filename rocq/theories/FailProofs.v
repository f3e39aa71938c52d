(** * FailProofs: an expression has no value exactly if some operation in it fails *)
From Verif Require Import Base Num ModelTools ModelOps ModelTensor ModelGraph Spec Denote FailSpec IndexProofs ExecProofs TensorFacts BuildProofs BuildProofs3 EagerProofs EagerOps CompileProofs FwdTotal.
From Coq Require Import Lia ZifyBool ZifyNat ZifyN.

Section Fail.
Context {T : Type} `{Num T}.
Context (bad : T -> Prop) (Hbad : forall x y : T, ndiv x y = None <-> bad y).
Context (leaf : nat -> option (vten T)) (scal : nat -> option T) (ls : nat -> option (list N)).

Notation inr idx sh := (Forall2 (fun i m => (i < m)%N) idx sh).
Lemma tabulate_cases sh (G : list N -> option T) :
  (exists v, tabulate sh G = Some v /\ shaped sh v /\ forall idx, inr idx sh -> G idx <> None) \/
  (tabulate sh G = None /\ exists idx, inr idx sh /\ G idx = None).
Proof using Type.
  unfold tabulate. destruct (mapM G (indices sh)) as [d|] eqn:E.
  - left. exists (V sh d). split; [reflexivity|]. split; [split; [reflexivity|]; cbn; rewrite <- (mapM_length _ _ _ E); apply indices_length|].
    intros idx Hi. apply elem_of_indices in Hi. intros En. assert (Ex : mapM G (indices sh) = None); [|congruence].
    apply mapM_None. apply Exists_exists. eauto.
  - right. split; [reflexivity|]. apply mapM_None, Exists_exists in E as (idx & Hi & En). exists idx. split; [apply elem_of_indices; exact Hi|exact En].
Qed.
Lemma shaped_ne sh (v : vten T) : shaped sh v -> vdata v = [] <-> prodN sh = 0%N.
Proof using Type. intros (_ & Hl). split; [intros E; rewrite E in Hl; cbn in Hl; lia|]. intros E. rewrite E in Hl. apply nil_length_inv. exact Hl. Qed.

(** What must be there *)
Fixpoint supplied (e : expr T) : Prop :=
  match e with
  | ELeaf id => forall sh, ls id = Some sh -> exists v, leaf id = Some v /\ shaped sh v
  | EScal _ a s => supplied a /\ is_Some (scal s)
  | EMap _ e | ETrans e | ESub e _ _ _ | ESubX e _ _ _ | EReshape e _ | EReduce _ e | EDim _ _ e | ESoft e => supplied e
  | EBin _ a b | ECat a b _ | EDot a b _ _ | EMatMul a b => supplied a /\ supplied b
  end.
Notation ev := (eval leaf scal).
Notation fl := (fails bad leaf scal).
Definition decided (e : expr T) (sh : list N) : Prop := (exists v, ev e = Some v /\ shaped sh v /\ ~ fl e) \/ (ev e = None /\ fl e).

Lemma dec1 (e a : expr T) (f : vten T -> option (vten T)) sa sh : parts e = [a] -> ev e = (x ← ev a; f x) -> decided a sa ->
  (forall x, ev a = Some x -> shaped sa x -> (exists v, f x = Some v /\ shaped sh v /\ ~ fails_here bad leaf scal e) \/ (f x = None /\ fails_here bad leaf scal e)) -> decided e sh.
Proof using Type.
  intros Hp He [(x & Ex & Hx & Hn)|(En & Hn)] Hh.
  - destruct (Hh x Ex Hx) as [(v & Ev & Hv & Hf)|(Ev & Hf)].
    + left. exists v. rewrite He, Ex. cbn. split; [exact Ev|]. split; [exact Hv|]. intros F. inversion F as [? p Hin Fp|? Fh]; subst; [|contradiction].
      rewrite Hp in Hin. apply elem_of_list_singleton in Hin. subst p. contradiction.
    + right. rewrite He, Ex. split; [exact Ev|]. apply Fails_here. exact Hf.
  - right. rewrite He, En. split; [reflexivity|]. eapply Fails_part; [rewrite Hp; left|exact Hn].
Qed.
Lemma dec2 (e a b : expr T) (f : vten T -> vten T -> option (vten T)) sa sb sh : parts e = [a; b] -> ev e = (x ← ev a; y ← ev b; f x y) -> decided a sa -> decided b sb ->
  (forall x y, ev a = Some x -> ev b = Some y -> shaped sa x -> shaped sb y ->
     (exists v, f x y = Some v /\ shaped sh v /\ ~ fails_here bad leaf scal e) \/ (f x y = None /\ fails_here bad leaf scal e)) -> decided e sh.
Proof using Type.
  intros Hp He [(x & Ex & Hx & Hn)|(En & Hn)] Hb Hh.
  2:{ right. rewrite He, En. split; [reflexivity|]. eapply Fails_part; [rewrite Hp; left|exact Hn]. }
  destruct Hb as [(y & Ey & Hy & Hny)|(En & Hny)].
  2:{ right. rewrite He, Ex, En. split; [reflexivity|]. eapply Fails_part; [rewrite Hp; right; left|exact Hny]. }
  destruct (Hh x y Ex Ey Hx Hy) as [(v & Ev & Hv & Hf)|(Ev & Hf)].
  - left. exists v. rewrite He, Ex, Ey. cbn. split; [exact Ev|]. split; [exact Hv|]. intros F. inversion F as [? p Hin Fp|? Fh]; subst; [|contradiction].
    rewrite Hp in Hin. apply elem_of_cons in Hin as [->|Hin]; [contradiction|]. apply elem_of_list_singleton in Hin. subst p. contradiction.
  - right. rewrite He, Ex, Ey. split; [exact Ev|]. apply Fails_here. exact Hf.
Qed.
Lemma reduce_none o (l : list T) : reduce o l = None <-> l = [] \/ (o = RedAvg /\ bad (nofN (N.of_nat (length l)))).
Proof using Hbad.
  destruct l as [|x l]; [destruct o; cbn; split; auto; discriminate|]. destruct o; cbn [reduce fold1]; split; try discriminate; try (intros [?|(? & _)]; discriminate).
  - intros E. right. split; [reflexivity|]. apply Hbad in E. exact E.
  - intros [?|(_ & Hb)]; [discriminate|]. apply Hbad. exact Hb.
Qed.
Lemma dot_cases x y sa sb sh da db : shaped sa x -> shaped sb y -> dot_shape sa sb da db = Some sh ->
  (exists v, v_dot x y da db = Some v /\ shaped sh v /\ ~ empty_sums x y da db) \/ (v_dot x y da db = None /\ empty_sums x y da db).
Proof using Hbad.
  clear leaf scal ls. intros (Hxs & Hxl) (Hys & Hyl) Hd. unfold dot_shape in Hd. destruct (sa !! da) as [na|] eqn:Ea; [|discriminate]. destruct (sb !! db) as [nb|] eqn:Eb; [|discriminate].
  destruct (N.eqb_spec na nb) as [<-|]; [|discriminate].
  pose proof (lookup_lt_Some _ _ _ Ea) as La. pose proof (lookup_lt_Some _ _ _ Eb) as Lb.
  set (term := fun idx => l ← mapM (fun i => u ← at_ (vsh x) (vdata x) (ins da i (take (length sa - 1) idx)); w ← at_ (vsh y) (vdata y) (ins db i (drop (length sa - 1) idx)); Some (nmul u w)) (upto na); reduce RedSum l).
  assert (Ht : forall idx, inr idx (del da sa ++ del db sb) -> term idx = None <-> na = 0%N).
  { intros idx Hi. apply Forall2_app_inv_r in Hi as (i1 & i2 & H1 & H2 & ->). pose proof (Forall2_length _ _ _ H1) as L1. rewrite del_length in L1 by lia. unfold term.
    rewrite take_app_alt, drop_app_alt by lia.
    destruct (mapM_total (fun i => u ← at_ (vsh x) (vdata x) (ins da i i1); w ← at_ (vsh y) (vdata y) (ins db i i2); Some (nmul u w)) (upto na)) as [l El].
    { intros i Hi. apply elem_of_upto in Hi. rewrite Hxs, Hys. destruct (at_total sa (vdata x) (ins da i i1)) as [u ->]; [congruence|eapply ins_in_range; eassumption|].
      destruct (at_total sb (vdata y) (ins db i i2)) as [w ->]; [congruence|eapply ins_in_range; eassumption|]. cbn. eauto. }
    rewrite El. cbn [mbind option_bind]. rewrite reduce_none. apply mapM_length in El. unfold upto in El. rewrite map_length, seq_length in El.
    split; [intros [->|(? & _)]; [cbn in El; lia|discriminate]|]. intros ->. left. apply nil_length_inv. rewrite <- El. reflexivity. }
  assert (Hv : v_dot x y da db = if (length sa =? 1) && (length sb =? 1) then z ← term []; Some (V [1%N] [z]) else tabulate (del da sa ++ del db sb) term).
  { unfold v_dot, v_dot_with, term. rewrite Hxs, Hys, Ea. reflexivity. }
  rewrite Hv. unfold empty_sums. rewrite Hxs, Hys, Ea. destruct ((length sa =? 1) && (length sb =? 1)) eqn:E1.
  - injection Hd as <-. assert (D0 : del da sa ++ del db sb = []). { apply nil_length_inv. rewrite app_length, !del_length by lia. lia. }
    rewrite D0 in *. specialize (Ht [] (List.Forall2_nil _)). destruct (term []) as [z|].
    + left. eexists. split; [reflexivity|]. split; [split; reflexivity|]. intros ([= ->] & _). destruct Ht as (_ & Ht). discriminate (Ht eq_refl).
    + right. split; [reflexivity|]. split; [f_equal; apply Ht; reflexivity|]. cbn. lia.
  - unfold fit in Hd. destruct (fitsb (del da sa ++ del db sb)); [|discriminate]. injection Hd as <-.
    destruct (tabulate_cases (del da sa ++ del db sb) term) as [(v & Ev & Hs & Hn)|(Ev & idx & Hi & En)].
    + left. exists v. split; [exact Ev|]. split; [exact Hs|]. intros ([= ->] & Hp). destruct (indices_lookup_total (del da sa ++ del db sb) 0) as [idx Hidx]; [lia|].
      assert (Hi : inr idx (del da sa ++ del db sb)). { apply elem_of_indices. eapply elem_of_list_lookup_2. exact Hidx. }
      apply (Hn idx Hi). apply Ht; [exact Hi|reflexivity].
    + right. split; [exact Ev|]. split; [f_equal; apply (Ht idx Hi); exact En|]. pose proof Hi as Hin. apply elem_of_indices in Hin. pose proof (indices_length (del da sa ++ del db sb)) as Hl.
      destruct (indices (del da sa ++ del db sb)); [inversion Hin|]. cbn in Hl. lia.
Qed.

Theorem eval_fails (e : expr T) : supplied e -> forall sh, shape_of ls e = Some sh -> decided e sh.
Proof using Hbad.
  induction e as [id|f e IH|o a IHa b IHb|o e IH s|e IH|e IH d s t|e IH d s t|a IHa b IHb d|e IH rs|o e IH|o d e IH|a IHa b IHb da db|a IHa b IHb|e IH]; intros Hsup sh Hsh; cbn [supplied shape_of] in *.
  - destruct (ls id) as [sh0|] eqn:El; [|discriminate]. cbn [mbind option_bind] in Hsh. unfold fit in Hsh. destruct (fitsb sh0); [|discriminate]. injection Hsh as <-.
    destruct (Hsup sh0 eq_refl) as (v & Ev & Hv). left. exists v. split; [exact Ev|]. split; [exact Hv|]. intros F. inversion F as [? p Hin Fp|? Fh]; subst; [inversion Hin|exact Fh].
  - apply (dec1 _ e (fun x => Some (v_map f x)) sh); [reflexivity|reflexivity|apply IH; assumption|]. intros x Ex (Hs & Hl). left. eexists. split; [reflexivity|]. split; [|auto].
    split; cbn; [exact Hs|]. rewrite map_length. exact Hl.
  - destruct Hsup as (Ha & Hb). apply bind_Some in Hsh as (sa & Esa & Hsh). apply bind_Some in Hsh as (sb & Esb & Hsh). destruct (decide (sa = sb)) as [<-|]; [|discriminate]. injection Hsh as <-.
    apply (dec2 _ a b (v_bin o) sa sa); [reflexivity|reflexivity|apply IHa; assumption|apply IHb; assumption|]. intros x y Ex Ey (Hxs & Hxl) (Hys & Hyl).
    unfold v_bin. rewrite Hxs, Hys.
    destruct (tabulate_cases sa (fun idx => u ← at_ sa (vdata x) idx; w ← at_ sa (vdata y) idx; bin o u w)) as [(v & Ev & Hv & Hn)|(Ev & idx & Hi & En)].
    + left. exists v. split; [exact Ev|]. split; [exact Hv|]. destruct o; [intros []|intros []|intros []|]. intros (x' & y' & Ex' & Ey' & z & Hz & Hb0).
      rewrite Ex in Ex'. injection Ex' as <-. rewrite Ey in Ey'. injection Ey' as <-. apply elem_of_list_lookup in Hz as (k & Hk).
      destruct (indices_lookup_total sa k) as [idx Hidx]; [rewrite <- Hyl; eapply lookup_lt_Some; exact Hk|]. assert (Hi : inr idx sa) by (apply elem_of_indices; eapply elem_of_list_lookup_2; exact Hidx).
      apply (Hn idx Hi). rewrite (at_lookup sa (vdata y) k idx Hidx), Hk. destruct (at_total sa (vdata x) idx) as [u ->]; [exact Hxl|exact Hi|]. cbn. apply Hbad. exact Hb0.
    + right. split; [exact Ev|]. destruct (at_total sa (vdata x) idx) as [u Eu]; [exact Hxl|exact Hi|]. destruct (at_total sa (vdata y) idx) as [w Ew]; [exact Hyl|exact Hi|].
      rewrite Eu, Ew in En. cbn in En. destruct o; try discriminate En. exists x, y. split; [exact Ex|]. split; [exact Ey|]. exists w. split; [|apply (Hbad u w); exact En].
      unfold at_ in Ew. destruct (flat sa idx); [|discriminate]. eapply elem_of_list_lookup_2. exact Ew.
  - destruct Hsup as (Ha & z & Ez). apply (dec1 _ e (fun x => y ← scal s; v_scal o x y) sh); [reflexivity|reflexivity|apply IH; assumption|]. intros x Ex (Hs & Hl). rewrite Ez. cbn [mbind option_bind]. unfold v_scal.
    destruct (mapM (fun u => bin o u z) (vdata x)) as [d|] eqn:Em; cbn [mbind option_bind].
    + left. eexists. split; [reflexivity|]. split; [split; cbn; [exact Hs|]; rewrite <- (mapM_length _ _ _ Em); exact Hl|].
      destruct o; [intros []|intros []|intros []|]. intros (x' & z' & Ex' & Ez' & Hb & Hne). rewrite Ex in Ex'. injection Ex' as <-. rewrite Ez in Ez'. injection Ez' as <-.
      destruct (vdata x) as [|u l]; [congruence|]. cbn in Em. rewrite (proj2 (Hbad u z) Hb) in Em. discriminate.
    + right. split; [reflexivity|]. apply mapM_None, Exists_exists in Em as (u & Hu & Eu). destruct o; try discriminate Eu. exists x, z. split; [exact Ex|]. split; [exact Ez|]. split; [apply (Hbad u z); exact Eu|].
      intros E. rewrite E in Hu. inversion Hu.
  - apply bind_Some in Hsh as (s0 & Es & [= <-]). apply (dec1 _ e v_transpose s0); [reflexivity|reflexivity|apply IH; assumption|]. intros x Ex (Hs & Hl). left. unfold v_transpose. rewrite Hs.
    destruct (tabulate_shaped (reverse s0) (fun idx => at_ s0 (vdata x) (reverse idx))) as (v & Ev & Hv); [|exists v; auto].
    intros idx Hi. apply at_total; [exact Hl|]. rewrite <- (reverse_involutive s0). apply Forall2_reverse. exact Hi.
  - apply bind_Some in Hsh as (s0 & Es & Hsh). apply bind_Some in Hsh as (m & Em & Hsh). destruct ((s <? t)%N && (t <=? m)%N) eqn:Est; [|discriminate]. unfold fit in Hsh. destruct (fitsb _); [|discriminate]. injection Hsh as <-.
    apply (dec1 _ e (fun x => v_sub x d s t) s0); [reflexivity|reflexivity|apply IH; assumption|]. intros x Ex (Hs & Hl). left. unfold v_sub. rewrite Hs.
    destruct (tabulate_shaped (<[d := (t - s)%N]> s0) (fun idx => at_ s0 (vdata x) (on_coord d (fun c => (c + s)%N) idx))) as (v & Ev & Hv); [|exists v; auto].
    intros idx Hi. destruct (sub_coord s0 d s t idx m Em ltac:(lia) Hi) as (c & _ & _ & -> & Hin). apply at_total; [exact Hl|exact Hin].
  - apply bind_Some in Hsh as (s0 & Es & Hsh). apply bind_Some in Hsh as (m & Em & Hsh). destruct ((s <? t)%N && (t <? W64)%N) eqn:Est; [|discriminate]. unfold fit in Hsh. destruct (fitsb _); [|discriminate]. injection Hsh as <-.
    apply (dec1 _ e (fun x => v_subx x d s t) s0); [reflexivity|reflexivity|apply IH; assumption|]. intros x Ex (Hs & Hl). left. unfold v_subx, v_subp. rewrite Hs.
    match goal with |- context [tabulate ?a ?g] => destruct (tabulate_shaped a g) as (v & Ev & Hv); [|exists v; auto] end.
    intros idx Hi. pose proof (lookup_lt_Some _ _ _ Em) as Hdl. destruct (Forall2_lt_coord _ _ _ _ Hi Hdl) as (c & Hcd & Hlt). cbv zeta. unfold on_coord. rewrite (alter_insert (fun c => (c + s)%N) _ _ _ Hcd).
    rewrite list_lookup_insert by (eapply lookup_lt_Some; exact Hcd). rewrite Em. destruct (N.ltb_spec (c + s) m) as [Lc|Lc]; [|eauto].
    apply at_total; [exact Hl|]. eapply Forall2_lt_insert; [exact Hi|exact Em|exact Lc].
  - destruct Hsup as (Ha & Hb). apply bind_Some in Hsh as (sa & Esa & Hsh). apply bind_Some in Hsh as (sb & Esb & Hsh). apply bind_Some in Hsh as (na & Ena & Hsh). apply bind_Some in Hsh as (nb & Enb & Hsh).
    destruct (decide (<[d := nb]> sa = sb)) as [Eab|]; [|discriminate]. unfold fit in Hsh. destruct (fitsb _); [|discriminate]. injection Hsh as <-.
    apply (dec2 _ a b (fun x y => v_concat x y d) sa sb); [reflexivity|reflexivity|apply IHa; assumption|apply IHb; assumption|]. intros x y Ex Ey Hx Hy. left.
    destruct (concat_total sa sb na nb d x y Ena Enb Eab Hx Hy) as (z & Ez & Hz). exists z. auto.
  - apply bind_Some in Hsh as (s0 & Es & Hsh). unfold fit in Hsh. destruct (fitsb rs); [|discriminate]. injection Hsh as <-.
    apply (dec1 _ e (fun x => Some (v_reshape x rs)) s0); [reflexivity|reflexivity|apply IH; assumption|]. intros x Ex (Hs & Hl). left. eexists. split; [reflexivity|]. split; [|auto].
    split; [reflexivity|]. cbn. rewrite app_length, take_length, replicate_length. lia.
  - apply bind_Some in Hsh as (s0 & Es & [= <-]). apply (dec1 _ e (v_reduce o) s0); [reflexivity|reflexivity|apply IH; assumption|]. intros x Ex (Hs & Hl). unfold v_reduce, v_reduce_with.
    pose proof (reduce_none o (vdata x)) as Hr. destruct (reduce o (vdata x)) as [z|].
    + left. eexists. split; [reflexivity|]. split; [split; reflexivity|]. intros (x' & Ex' & Hc). rewrite Ex in Ex'. injection Ex' as <-. apply Hr in Hc. discriminate.
    + right. split; [reflexivity|]. exists x. split; [exact Ex|]. apply Hr. reflexivity.
  - apply bind_Some in Hsh as (s0 & Es & Hsh). destruct (decide (d < length s0)) as [Hd|]; [|discriminate]. unfold fit in Hsh. destruct (fitsb _); [|discriminate]. injection Hsh as <-.
    apply (dec1 _ e (v_dim o d) s0); [reflexivity|reflexivity|apply IH; assumption|]. intros x Ex (Hs & Hl). unfold v_dim, v_dim_with. rewrite Hs.
    assert (Hg : forall idx, inr idx (take (S d) s0) -> (l ← mapM (fun rest => at_ s0 (vdata x) (idx ++ rest)) (indices (drop (S d) s0)); reduce o l) = None <->
      (prodN (drop (S d) s0) = 0%N \/ (o = RedAvg /\ bad (nofN (prodN (drop (S d) s0)))))).
    { intros idx Hi. destruct (mapM_total (fun rest => at_ s0 (vdata x) (idx ++ rest)) (indices (drop (S d) s0))) as [l El].
      - intros rest Hrest. apply elem_of_indices in Hrest. apply at_total; [exact Hl|]. rewrite <- (take_drop (S d) s0). apply Forall2_app; assumption.
      - rewrite El. cbn [mbind option_bind]. rewrite reduce_none. apply mapM_length in El. rewrite indices_length in El. rewrite <- El, N2Nat.id.
        assert (Hz : l = [] <-> prodN (drop (S d) s0) = 0%N). { split; [intros ->; cbn in El; lia|]. intros E. rewrite E in El. apply nil_length_inv. symmetry. exact El. }
        rewrite Hz. reflexivity. }
    match goal with |- context [tabulate ?a ?g] => destruct (tabulate_cases a g) as [(v & Ev & Hv & Hn)|(Ev & idx & Hi & En)] end.
    + left. exists v. split; [exact Ev|]. split; [exact Hv|]. intros (x' & Ex' & Hp & Hc). rewrite Ex in Ex'. injection Ex' as <-. rewrite Hs in Hp, Hc.
      destruct (indices_lookup_total (take (S d) s0) 0) as [idx Hidx]; [lia|]. assert (Hi : inr idx (take (S d) s0)) by (apply elem_of_indices; eapply elem_of_list_lookup_2; exact Hidx).
      apply (Hn idx Hi). apply Hg; assumption.
    + right. split; [exact Ev|]. exists x. split; [exact Ex|]. rewrite Hs. split; [|apply (Hg idx Hi); exact En].
      pose proof Hi as Hin. apply elem_of_indices in Hin. pose proof (indices_length (take (S d) s0)) as Hl'. destruct (indices (take (S d) s0)); [inversion Hin|]. cbn [length] in Hl'. lia.
  - destruct Hsup as (Ha & Hb). apply bind_Some in Hsh as (sa & Esa & Hsh). apply bind_Some in Hsh as (sb & Esb & Hsh).
    apply (dec2 _ a b (fun x y => v_dot x y da db) sa sb); [reflexivity|reflexivity|apply IHa; assumption|apply IHb; assumption|]. intros x y Ex Ey Hx Hy.
    destruct (dot_cases x y sa sb sh da db Hx Hy Hsh) as [(v & Ev & Hv & Hn)|(Ev & Hn)].
    + left. exists v. split; [exact Ev|]. split; [exact Hv|]. intros (x' & y' & Ex' & Ey' & He). rewrite Ex in Ex'. injection Ex' as <-. rewrite Ey in Ey'. injection Ey' as <-. contradiction.
    + right. split; [exact Ev|]. exists x, y. auto.
  - destruct Hsup as (Ha & Hb). apply bind_Some in Hsh as (sa & Esa & Hsh). apply bind_Some in Hsh as (sb & Esb & Hsh).
    apply (dec2 _ a b (fun x y => v_dot x y (length (vsh x) - 1) (default_db (vsh y))) sa sb); [reflexivity|reflexivity|apply IHa; assumption|apply IHb; assumption|]. intros x y Ex Ey Hx Hy.
    pose proof (proj1 Hx) as Hxs. pose proof (proj1 Hy) as Hys. rewrite Hxs, Hys.
    destruct (dot_cases x y sa sb sh (length sa - 1) (default_db sb) Hx Hy Hsh) as [(v & Ev & Hv & Hn)|(Ev & Hn)].
    + left. exists v. split; [exact Ev|]. split; [exact Hv|]. intros (x' & y' & Ex' & Ey' & He). rewrite Ex in Ex'. injection Ex' as <-. rewrite Ey in Ey'. injection Ey' as <-. rewrite Hxs, Hys in He. contradiction.
    + right. split; [exact Ev|]. exists x, y. rewrite Hxs, Hys. auto.
  - apply (dec1 _ e v_soft sh); [reflexivity|reflexivity|apply IH; assumption|]. intros x Ex (Hs & Hl). unfold v_soft, v_soft_with.
    destruct (reduce RedMin (vdata x)) as [m|] eqn:Em; cbn [mbind option_bind].
    2:{ right. split; [reflexivity|]. exists x. split; [exact Ex|]. left. apply reduce_none in Em as [Em|(? & _)]; [exact Em|discriminate]. }
    assert (Hne : vdata x <> []) by (intros E; rewrite E in Em; discriminate).
    destruct (reduce RedSum (map (fun v => nsub v m) (vdata x))) as [z|] eqn:Ez; cbn [mbind option_bind].
    2:{ exfalso. apply reduce_none in Ez as [Ez|(? & _)]; [|discriminate]. apply Hne. destruct (vdata x); [reflexivity|discriminate]. }
    destruct (mapM (fun v => ndiv v z) (map (fun v => nsub v m) (vdata x))) as [q|] eqn:Eq; cbn [mbind option_bind].
    + left. eexists. split; [reflexivity|]. split; [split; cbn; [exact Hs|]; rewrite <- (mapM_length _ _ _ Eq), map_length; exact Hl|].
      intros (x' & Ex' & Hc). rewrite Ex in Ex'. injection Ex' as <-. destruct Hc as [Hc|(m' & z' & Em' & Ez' & Hb)]; [contradiction|]. rewrite Em in Em'. injection Em' as <-. rewrite Ez in Ez'. injection Ez' as <-.
      destruct (vdata x) as [|u l]; [congruence|]. cbn in Eq. rewrite (proj2 (Hbad (nsub u m) z) Hb) in Eq. discriminate.
    + right. split; [reflexivity|]. exists x. split; [exact Ex|]. right. exists m, z. split; [exact Em|]. split; [exact Ez|]. apply mapM_None, Exists_exists in Eq as (u & _ & Eu). apply (Hbad u z). exact Eu.
Qed.
End Fail.
