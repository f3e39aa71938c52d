(** * NestProofs: models used as layers *)
From Verif Require Import Base Num ModelTools ModelOps ModelTensor ModelGraph ModelLayer ModelModel ModelNest NestSpec TensorFacts.
From Coq Require Import Lia.

Lemma contents_app ps m r k : contents (ps ++ [(m, r)]) k = contents ps k ++ (if m =? k then [r] else []).
Proof. unfold contents. rewrite List.filter_app, map_app. cbn [List.filter fst]. destruct (m =? k); reflexivity. Qed.
Lemma contents_elem ps m r : r ∈ contents ps m <-> (m, r) ∈ ps.
Proof.
  unfold contents. rewrite !elem_of_list_In, in_map_iff. split.
  - intros ((k & q) & E & Hi). apply filter_In in Hi as [Hi He]. cbn in *. apply Nat.eqb_eq in He as ->. subst q. exact Hi.
  - intros Hi. exists (m, r). split; [reflexivity|]. apply filter_In. split; [exact Hi|apply Nat.eqb_refl].
Qed.
Lemma contents_pushed ps m r : r ∈ contents ps m -> r ∈ map snd ps.
Proof. intros Hr. apply contents_elem in Hr. apply elem_of_list_In, in_map_iff. exists (m, r). split; [reflexivity|]. apply elem_of_list_In. exact Hr. Qed.
Lemma contents_nodup ps m : NoDup (map snd ps) -> NoDup (contents ps m).
Proof.
  unfold contents. induction ps as [|p ps IH]; intros Hnd; [constructor|]. cbn [map] in Hnd. apply NoDup_cons in Hnd as [Hn Hnd]. cbn [List.filter]. destruct (fst p =? m); [|apply IH; exact Hnd].
  cbn [map]. constructor; [|apply IH; exact Hnd]. intros Hi. apply Hn. apply (contents_pushed ps m). exact Hi.
Qed.
Lemma one_parent ps m m' r : NoDup (map snd ps) -> r ∈ contents ps m -> r ∈ contents ps m' -> m = m'.
Proof.
  intros Hnd H1 H2. apply contents_elem in H1, H2. induction ps as [|p ps IH]; [inversion H1|]. cbn [map] in Hnd. apply NoDup_cons in Hnd as [Hn Hnd].
  assert (K : forall k, (k, r) ∈ ps -> r ∈ map snd ps) by (intros k Hk; apply elem_of_list_In, in_map_iff; exists (k, r); split; [reflexivity|apply elem_of_list_In; exact Hk]).
  apply elem_of_cons in H1 as [E1|H1], H2 as [E2|H2]; [congruence| | |auto]; exfalso; apply Hn.
  - rewrite <- E1. apply (K m'). exact H2.
  - rewrite <- E2. apply (K m). exact H1.
Qed.

(** ** Ways down to the first layer *)
Definition fl (w : nest) (r : ref) (x : nat) : Prop := exists n, FirstLeaf n w r = Ok x.
Definition ll (w : nest) (r : ref) (x : nat) : Prop := exists n, LastLeaf n w r = Ok x.
Lemma first_more w : forall n n' r x, FirstLeaf n w r = Ok x -> n <= n' -> FirstLeaf n' w r = Ok x.
Proof.
  induction n as [|n IH]; intros n' r x E Hn; [discriminate E|]. destruct n' as [|n']; [lia|]. cbn [FirstLeaf] in *. destruct r as [i|m]; [exact E|].
  destruct (n_mod w m) as [[f l]|]; [|discriminate E]. apply IH; [exact E|lia].
Qed.
Lemma last_more w : forall n n' r x, LastLeaf n w r = Ok x -> n <= n' -> LastLeaf n' w r = Ok x.
Proof.
  induction n as [|n IH]; intros n' r x E Hn; [discriminate E|]. destruct n' as [|n']; [lia|]. cbn [LastLeaf] in *. destruct r as [i|m]; [exact E|].
  destruct (n_mod w m) as [[f l]|]; [|discriminate E]. apply IH; [exact E|lia].
Qed.
Lemma fl_fun w r x y : fl w r x -> fl w r y -> x = y.
Proof. intros [n E] [k F]. pose proof (first_more w n (n + k) r x E ltac:(lia)). pose proof (first_more w k (n + k) r y F ltac:(lia)). congruence. Qed.
Lemma ll_fun w r x y : ll w r x -> ll w r y -> x = y.
Proof. intros [n E] [k F]. pose proof (last_more w n (n + k) r x E ltac:(lia)). pose proof (last_more w k (n + k) r y F ltac:(lia)). congruence. Qed.
Definition firstof (w : nest) (y z : ref) : Prop := exists m l, y = RM m /\ n_mod w m = Some (z, l).
Fixpoint up (w : nest) (n : nat) (r z : ref) : Prop := match n with O => r = z | S n' => exists y, up w n' r y /\ firstof w y z end.
Lemma up_first w : forall n r y z, firstof w r y -> up w n y z -> up w (S n) r z.
Proof.
  induction n as [|n IH]; intros r y z Hf Hu.
  - cbn in Hu. subst z. exists r. split; [reflexivity|exact Hf].
  - destruct Hu as (v & Hv & Hz). exists v. split; [|exact Hz]. apply (IH r y v Hf Hv).
Qed.
Lemma fl_up w r x : fl w r x -> exists n, up w n r (RL x).
Proof.
  intros [n E]. revert r E. induction n as [|n IH]; intros r E; [discriminate E|]. cbn [FirstLeaf] in E. destruct r as [i|m].
  - injection E as ->. exists 0. reflexivity.
  - destruct (n_mod w m) as [[f l]|] eqn:Em; [|discriminate E]. destruct (IH f E) as (k & Hk). exists (S k). apply (up_first w k _ f); [exists m, l; auto|exact Hk].
Qed.
Lemma up_split w : forall n k r z, up w (n + k) r z -> exists y, up w k r y /\ up w n y z.
Proof.
  induction n as [|n IH]; intros k r z Hu; [exists z; split; [exact Hu|reflexivity]|]. destruct Hu as (v & Hv & Hz). destruct (IH k r v Hv) as (y & H1 & H2). exists y. split; [exact H1|]. exists v. auto.
Qed.

(** ** What holds after any pushes *)
Definition ends (l : list ref) : option (ref * ref) := match l with [] => None | f :: rs => Some (f, List.last rs f) end.
Record inv (ps : list (nat * ref)) (w : nest) : Prop := {
  iv_mod : forall m, n_mod w m = ends (contents ps m);
  iv_adj : forall m a r1 r2 b, contents ps m = a ++ r1 :: r2 :: b -> exists x, fl w r2 x /\ n_pre w x = Some r1;
  iv_pre : forall x r, n_pre w x = Some r -> exists m a r2 b, contents ps m = a ++ r :: r2 :: b /\ fl w r2 x }.
Lemma first_contents ps w y z : inv ps w -> firstof w y z -> exists m rs, y = RM m /\ contents ps m = z :: rs.
Proof.
  intros Hi (m & l & -> & E). rewrite (iv_mod _ _ Hi) in E. destruct (contents ps m) as [|f rs] eqn:Ec; [discriminate E|]. injection E as -> _. exists m, rs. auto.
Qed.
Lemma up_fun ps w : inv ps w -> NoDup (map snd ps) -> forall n r r' z, up w n r z -> up w n r' z -> r = r'.
Proof.
  intros Hi Hnd. induction n as [|n IH]; intros r r' z H1 H2; [cbn in *; congruence|]. destruct H1 as (y & Hy & Fy), H2 as (y' & Hy' & Fy').
  apply (IH r r' y Hy). destruct (first_contents _ _ _ _ Hi Fy) as (m & rs & -> & E). destruct (first_contents _ _ _ _ Hi Fy') as (m' & rs' & -> & E').
  assert (m = m') as -> by (apply (one_parent ps m m' z Hnd); [rewrite E|rewrite E']; left). exact Hy'.
Qed.
(** What was not pushed shares its first layer with nothing that follows
    something. *)
Lemma apart ps w r r2 x m a r1 b : inv ps w -> NoDup (map snd ps) -> r ∉ map snd ps -> fl w r x -> contents ps m = a ++ r1 :: r2 :: b -> fl w r2 x -> False.
Proof.
  intros Hi Hnd Hr Hx Hc Hx2. destruct (fl_up _ _ _ Hx) as (n & U). destruct (fl_up _ _ _ Hx2) as (n2 & U2). assert (In2 : r2 ∈ contents ps m) by (rewrite Hc; apply elem_of_app; right; right; left).
  destruct (le_lt_dec n n2) as [Hl|Hl].
  - replace n2 with (n + (n2 - n)) in U2 by lia. destruct (up_split w n (n2 - n) r2 _ U2) as (y & V1 & V2). assert (y = r) as -> by (eapply (up_fun ps w Hi Hnd n); eassumption).
    destruct (n2 - n) as [|k].
    + cbn in V1. subst r2. apply Hr. apply (contents_pushed ps m). exact In2.
    + destruct V1 as (v & _ & Fv). destruct (first_contents _ _ _ _ Hi Fv) as (m' & rs & _ & E). apply Hr. apply (contents_pushed ps m'). rewrite E. left.
  - replace n with (n2 + S (n - n2 - 1)) in U by lia. destruct (up_split w n2 _ r _ U) as (y & V1 & V2). assert (y = r2) as -> by (eapply (up_fun ps w Hi Hnd n2); eassumption).
    destruct V1 as (v & _ & Fv). destruct (first_contents _ _ _ _ Hi Fv) as (m' & rs & _ & E).
    assert (m' = m) as -> by (apply (one_parent ps m' m r2 Hnd); [rewrite E; left|exact In2]).
    pose proof (contents_nodup ps m Hnd) as Hd. rewrite E in Hc. destruct a as [|a0 a]; injection Hc as E1 E2.
    + rewrite E, E2, E1 in Hd. apply NoDup_cons in Hd as [Hd _]. apply Hd. left.
    + rewrite E, E2 in Hd. apply NoDup_cons in Hd as [Hd _]. apply Hd. apply elem_of_app. right. right. left.
Qed.
Lemma ends_app l r : ends (l ++ [r]) = match ends l with None => Some (r, r) | Some (f, _) => Some (f, r) end.
Proof. destruct l as [|f rs]; [reflexivity|]. cbn. rewrite last_last. reflexivity. Qed.
Lemma ends_last l f q : ends l = Some (f, q) -> exists a, l = a ++ [q].
Proof.
  destruct l as [|f' rs]; [discriminate|]. intros [= -> <-]. destruct rs as [|y rs] using rev_ind; [exists []; reflexivity|]. rewrite last_last. exists (f :: rs). reflexivity.
Qed.
Lemma adj_snoc (l a b : list ref) r r1 r2 : l ++ [r] = a ++ r1 :: r2 :: b -> (exists b', b = b' ++ [r] /\ l = a ++ r1 :: r2 :: b') \/ (b = [] /\ r2 = r /\ l = a ++ [r1]).
Proof.
  destruct b as [|y b _] using rev_ind.
  - intros E. right. replace (a ++ [r1; r2]) with ((a ++ [r1]) ++ [r2]) in E by (rewrite <- app_assoc; reflexivity). apply app_inj_tail in E as [-> ->]. auto.
  - intros E. left. exists b. replace (a ++ r1 :: r2 :: b ++ [y]) with ((a ++ r1 :: r2 :: b) ++ [y]) in E by (rewrite <- app_assoc; reflexivity). apply app_inj_tail in E as [-> ->]. auto.
Qed.
Lemma fl_grow w w' : (forall m f l, n_mod w m = Some (f, l) -> exists l', n_mod w' m = Some (f, l')) -> forall r x, fl w r x -> fl w' r x.
Proof.
  intros Hg r x [n E]. exists n. revert r E. induction n as [|n IH]; intros r E; [discriminate E|]. cbn [FirstLeaf] in *. destruct r as [i|m]; [exact E|].
  destruct (n_mod w m) as [[f l]|] eqn:Em; [|discriminate E]. destruct (Hg m f l Em) as (l' & ->). apply IH. exact E.
Qed.
Lemma push_inv ps w fuel m r w' : inv ps w -> NoDup (map snd (ps ++ [(m, r)])) -> NPush fuel m r w = Ok w' -> inv (ps ++ [(m, r)]) w'.
Proof.
  intros Hi Hnd2. rewrite map_app in Hnd2. cbn [map snd] in Hnd2. apply NoDup_app in Hnd2 as (Hnd & Hr0 & _). assert (Hr : r ∉ map snd ps) by (intros X; apply (Hr0 r X); left). clear Hr0.
  unfold NPush. rewrite (iv_mod _ _ Hi m). destruct (ends (contents ps m)) as [[f q]|] eqn:Ee.
  - destruct (FirstLeaf fuel w r) as [x| | |] eqn:Ex; try discriminate. intros [= <-]. assert (Fx : fl w r x) by (exists fuel; exact Ex).
    set (w' := MkNest _ _). assert (G : forall r x, fl w r x -> fl w' r x).
    { apply fl_grow. intros k f' l' Hk. unfold w'. cbn [n_mod]. destruct (Nat.eqb_spec k m) as [->|]; [|eauto]. rewrite (iv_mod _ _ Hi m), Ee in Hk. injection Hk as -> ->. eauto. }
    split.
    + intros k. rewrite contents_app. unfold w'. cbn [n_mod]. destruct (Nat.eqb_spec k m) as [->|Hk].
      * rewrite Nat.eqb_refl, ends_app, Ee. reflexivity.
      * destruct (Nat.eqb_spec m k) as [->|_]; [contradiction|]. rewrite app_nil_r. apply (iv_mod _ _ Hi).
    + assert (Old : forall k a r1 r2 b, contents ps k = a ++ r1 :: r2 :: b -> exists y, fl w' r2 y /\ n_pre w' y = Some r1).
      { intros k a r1 r2 b Hc. destruct (iv_adj _ _ Hi k a r1 r2 b Hc) as (y & Fy & Py). exists y. split; [apply G; exact Fy|]. unfold w'. cbn [n_pre].
        destruct (Nat.eqb_spec y x) as [->|_]; [|exact Py]. exfalso. exact (apart ps w r r2 x k a r1 b Hi Hnd Hr Fx Hc Fy). }
      intros k a r1 r2 b. rewrite contents_app. destruct (Nat.eqb_spec m k) as [<-|_]; [|rewrite app_nil_r; apply Old].
      intros Hc. apply adj_snoc in Hc as [(b' & -> & Hc)|(-> & -> & Hc)]; [exact (Old m a r1 r2 b' Hc)|].
      exists x. split; [apply G; exact Fx|]. unfold w'. cbn [n_pre]. rewrite Nat.eqb_refl. destruct (ends_last _ _ _ Ee) as (a' & E'). rewrite E' in Hc. apply app_inj_tail in Hc as [_ ->]. reflexivity.
    + intros y r1. unfold w' at 1. cbn [n_pre]. destruct (Nat.eqb_spec y x) as [->|_].
      * intros [= <-]. destruct (ends_last _ _ _ Ee) as (a' & E'). exists m, a', r, []. split; [|apply G; exact Fx]. rewrite contents_app, Nat.eqb_refl, E', <- app_assoc. reflexivity.
      * intros Hy. destruct (iv_pre _ _ Hi y r1 Hy) as (k & a & r2 & b & Hc & Fy). exists k, a, r2, (b ++ (if m =? k then [r] else [])). split; [|apply G; exact Fy]. rewrite contents_app, Hc, <- app_assoc. reflexivity.
  - intros [= <-]. set (w' := MkNest _ _). assert (En : contents ps m = []) by (destruct (contents ps m); [reflexivity|discriminate Ee]).
    assert (G : forall r x, fl w r x -> fl w' r x).
    { apply fl_grow. intros k f' l' Hk. unfold w'. cbn [n_mod]. destruct (Nat.eqb_spec k m) as [->|]; [|eauto]. rewrite (iv_mod _ _ Hi m), Ee in Hk. discriminate Hk. }
    split.
    + intros k. rewrite contents_app. unfold w'. cbn [n_mod]. destruct (Nat.eqb_spec k m) as [->|Hk].
      * rewrite Nat.eqb_refl, En. reflexivity.
      * destruct (Nat.eqb_spec m k) as [->|_]; [contradiction|]. rewrite app_nil_r. apply (iv_mod _ _ Hi).
    + intros k a r1 r2 b. rewrite contents_app. destruct (Nat.eqb_spec m k) as [<-|_].
      * rewrite En. intros Hc. destruct a as [|? [|? ?]]; discriminate Hc.
      * rewrite app_nil_r. intros Hc. destruct (iv_adj _ _ Hi k a r1 r2 b Hc) as (y & Fy & Py). exists y. split; [apply G; exact Fy|exact Py].
    + intros y r1 Hy. destruct (iv_pre _ _ Hi y r1 Hy) as (k & a & r2 & b & Hc & Fy). exists k, a, r2, (b ++ (if m =? k then [r] else [])). split; [|apply G; exact Fy]. rewrite contents_app, Hc, <- app_assoc. reflexivity.
Qed.
Lemma pushes_app fuel : forall ps p w, NPushes fuel (ps ++ [p]) w = res_bind (NPushes fuel ps w) (NPush fuel (fst p) (snd p)).
Proof.
  induction ps as [|q ps IH]; intros p w; cbn [app NPushes].
  - cbn [res_bind]. destruct (NPush fuel (fst p) (snd p) w); reflexivity.
  - destruct (NPush fuel (fst q) (snd q) w) as [w1| | |]; cbn [res_bind]; [apply IH|reflexivity..].
Qed.
Lemma pushes_inv fuel : forall ps w, NoDup (map snd ps) -> NPushes fuel ps new_nest = Ok w -> inv ps w.
Proof.
  induction ps as [|[m r] ps IH] using rev_ind; intros w Hnd E.
  - injection E as <-. split; [reflexivity| |discriminate]. intros k a r1 r2 b Hc. destruct a; discriminate Hc.
  - rewrite pushes_app in E. destruct (NPushes fuel ps new_nest) as [w1| | |] eqn:E1; try discriminate E. cbn [res_bind fst snd] in E.
    apply (push_inv ps w1 fuel m r w); [|exact Hnd|exact E]. apply IH; [|reflexivity]. rewrite map_app in Hnd. apply NoDup_app in Hnd as (Hnd & _). exact Hnd.
Qed.

(** ** The layers of a model *)
(** Each layer's PreLayer leads to the layer before it. *)
Definition chained (w : nest) (is : list nat) : Prop := forall a x y b, is = a ++ x :: y :: b -> exists q, n_pre w y = Some q /\ ll w q x.
Definition spells (w : nest) (r : ref) (is : list nat) : Prop := exists f l, head is = Some f /\ last is = Some l /\ fl w r f /\ ll w r l /\ chained w is.
Scheme spelled_ind2 := Minimality for spelled Sort Prop with spelled_all_ind2 := Minimality for spelled_all Sort Prop.
Combined Scheme spelled_mutind from spelled_ind2, spelled_all_ind2.
Lemma chained_app w is js : (forall x y, last is = Some x -> head js = Some y -> exists q, n_pre w y = Some q /\ ll w q x) -> chained w is -> chained w js -> chained w (is ++ js).
Proof.
  intros Hm Hi Hj a x y b E. apply app_eq_inv in E as [(k & E1 & E2)|(k & E1 & E2)].
  - destruct k as [|x' k].
    + rewrite app_nil_r in E1. cbn in E2. apply (Hj [] x y b). symmetry. exact E2.
    + cbn in E2. injection E2 as <- E2. destruct k as [|y' k].
      * cbn in E2. apply Hm; [rewrite E1; apply last_snoc|rewrite <- E2; reflexivity].
      * cbn in E2. injection E2 as <- E2. apply (Hi a x y k). exact E1.
  - apply (Hj k x y b). exact E2.
Qed.
Section Spell.
Context (ps : list (nat * ref)) (w : nest) (Hi : inv ps w) (Hnd : NoDup (map snd ps)).
Lemma spell_both : (forall r is, spelled ps r is -> spells w r is) /\
  (forall rs is, spelled_all ps rs is -> (rs = [] -> is = []) /\ forall m a, contents ps m = a ++ rs -> rs <> [] -> exists f l f0 rl, head is = Some f /\ last is = Some l /\ head rs = Some f0 /\ last rs = Some rl /\ fl w f0 f /\ ll w rl l /\ chained w is).
Proof using Hi.
  apply spelled_mutind.
  - intros i. exists i, i. do 2 (split; [reflexivity|]). split; [exists 1; reflexivity|]. split; [exists 1; reflexivity|]. intros a x y b E. destruct a as [|? [|? ?]]; discriminate E.
  - intros m is Hne _ [_ IH]. destruct (IH m [] eq_refl Hne) as (f & l & f0 & rl & H1 & H2 & H3 & H4 & (n & H5) & (k & H6) & H7). exists f, l. do 2 (split; [assumption|]).
    pose proof (iv_mod _ _ Hi m) as Em. assert (ends (contents ps m) = Some (f0, rl)) as Ee.
    { destruct (contents ps m) as [|c0 cs]; [discriminate H3|]. cbn in H3. injection H3 as ->. cbn. f_equal. f_equal. destruct cs as [|y cs _] using rev_ind.
      - cbn in H4. injection H4 as <-. reflexivity.
      - rewrite app_comm_cons, last_snoc in H4. injection H4 as ->. apply last_last. }
    rewrite Ee in Em. split; [exists (S n); cbn [FirstLeaf]; rewrite Em; exact H5|]. split; [exists (S k); cbn [LastLeaf]; rewrite Em; exact H6|exact H7].
  - split; [reflexivity|]. intros m a _ Hne. contradiction.
  - intros r is rs js _ (f & l & H1 & H2 & H3 & H4 & H5) _ [IH0 IH]. split; [discriminate|]. intros m a Hc _. destruct rs as [|r2 rs].
    + rewrite (IH0 eq_refl).
      rewrite app_nil_r. exists f, l, r, r. auto 10.
    + destruct (IH m (a ++ [r]) ltac:(rewrite Hc, <- app_assoc; reflexivity) ltac:(discriminate)) as (f' & l' & f0 & rl & J1 & J2 & J3 & J4 & J5 & J6 & J7).
      injection J3 as <-. exists f, l', r, rl. split; [destruct is; [discriminate H1|exact H1]|]. split.
      { destruct js as [|j js _] using rev_ind; [discriminate J2|]. rewrite last_snoc in J2. rewrite app_assoc, last_snoc. exact J2. }
      split; [reflexivity|]. split; [exact J4|]. split; [exact H3|]. split; [exact J6|]. apply chained_app; [|exact H5|exact J7].
      intros x y Hx Hy. rewrite H2 in Hx. injection Hx as <-. rewrite J1 in Hy. injection Hy as <-. destruct (iv_adj _ _ Hi m a r r2 rs Hc) as (z & Fz & Pz).
      rewrite (fl_fun w r2 z f' Fz J5) in Pz. exists r. auto.
Qed.
End Spell.
