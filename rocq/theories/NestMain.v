(** * NestMain: models used as layers, the claims *)
From Verif Require Import Base Num ModelTools ModelOps ModelTensor ModelGraph ModelLayer ModelModel ModelNest NestSpec NestProofs TensorFacts.
From Coq Require Import Lia.

(** The one before [y] in a list. *)
Fixpoint before (is : list nat) (y : nat) : option nat :=
  match is with
  | x :: rest => match rest with z :: _ => if z =? y then Some x else before rest y | [] => None end
  | [] => None
  end.
Lemma before_at : forall a x y b, NoDup (a ++ x :: y :: b) -> before (a ++ x :: y :: b) y = Some x.
Proof.
  induction a as [|c a IH]; intros x y b Hnd.
  - cbn. rewrite Nat.eqb_refl. reflexivity.
  - cbn [app] in *. apply NoDup_cons in Hnd as [Hc Hnd]. specialize (IH x y b Hnd). destruct a as [|d a]; cbn [app before] in *.
    + apply NoDup_cons in Hnd as [Hx _]. destruct (Nat.eqb_spec x y) as [->|_]; [exfalso; apply Hx; left|]. exact IH.
    + destruct (Nat.eqb_spec d y) as [->|_]; [|exact IH]. exfalso. apply NoDup_cons in Hnd as [Hd _]. apply Hd. apply elem_of_app. right. right. left.
Qed.
Lemma before_not : forall is y, y ∉ is -> before is y = None.
Proof.
  induction is as [|x [|z r] IH]; intros y Hy; [reflexivity|reflexivity|]. cbn [before]. destruct (Nat.eqb_spec z y) as [->|_]; [exfalso; apply Hy; right; left|].
  apply (IH y). intros X. apply Hy. right. exact X.
Qed.
Lemma before_head : forall r y, y ∉ r -> before (y :: r) y = None.
Proof.
  intros r y Hy. destruct r as [|z r]; [reflexivity|]. cbn [before]. destruct (Nat.eqb_spec z y) as [->|_]; [exfalso; apply Hy; left|]. exact (before_not (z :: r) y Hy).
Qed.
Lemma elem_split_at (is : list nat) y : y ∈ is -> (exists r, is = y :: r) \/ exists a x b, is = a ++ x :: y :: b.
Proof.
  intros Hy. apply elem_of_list_split in Hy as (a & b & ->). destruct a as [|x a _] using rev_ind; [left; eauto|]. right. exists a, x, b. rewrite <- app_assoc. reflexivity.
Qed.

Section Flat.
Context {T : Type} `{Num T}.
(** Pushing layers one after the other. *)
Fixpoint push_all (m : model T) (is : list nat) : LM T (model T) :=
  match is with [] => mret m | i :: is' => m' <~ MPush m i ; push_all m' is' end.
Definition relay (p : nat -> option nat) (s : lst T) : lst T := MkL (ts s) (imap (fun i x => set_pre (p i) x) (lays s)) (rc s).
Definition loose (s : lst T) : Prop := Forall (fun l => lpre l = None) (lays s).
Lemma set_pre_set a b (l : layer T) : set_pre a (set_pre b l) = set_pre a l.
Proof. destruct l. reflexivity. Qed.
Lemma set_pre_same (l : layer T) : set_pre (lpre l) l = l.
Proof. destruct l. reflexivity. Qed.
Lemma connect_relay p (s : lst T) i q : i < length (lays s) -> Connect i q (relay p s) = (Ok tt, relay (fun k => if k =? i then q else p k) s).
Proof.
  intros Hi. destruct (lookup_lt_is_Some_2 (lays s) i Hi) as [l Hl]. unfold Connect, updL. cbn [relay lays ts rc]. rewrite list_lookup_imap, Hl. cbn [fmap option_fmap option_map].
  f_equal. unfold relay. cbn. f_equal. apply list_eq. intros k. rewrite list_lookup_imap. destruct (decide (k = i)) as [->|Hk].
  - rewrite list_lookup_insert by (rewrite imap_length; exact Hi). rewrite Hl. cbn. rewrite Nat.eqb_refl, set_pre_set. reflexivity.
  - rewrite list_lookup_insert_ne by auto. rewrite list_lookup_imap. destruct (lays s !! k); [|reflexivity]. cbn. destruct (Nat.eqb_spec k i); [contradiction|reflexivity].
Qed.
Lemma relay_ext p p' (s : lst T) : (forall i, i < length (lays s) -> p i = p' i) -> relay p s = relay p' s.
Proof.
  intros He. unfold relay. f_equal. apply list_eq. intros k. rewrite !list_lookup_imap. destruct (lays s !! k) as [l|] eqn:Hl; [|reflexivity]. cbn. rewrite (He k) by (eapply lookup_lt_Some; exact Hl). reflexivity.
Qed.
Lemma relay_loose (s : lst T) : loose s -> relay (fun _ => None) s = s.
Proof.
  intros Hs. destruct s as [t ly c]. unfold relay, loose in *. cbn in *. f_equal. apply list_eq. intros k. rewrite list_lookup_imap. destruct (ly !! k) as [l|] eqn:Hl; [|reflexivity]. cbn. f_equal.
  rewrite Forall_forall in Hs. pose proof (Hs l (elem_of_list_lookup_2 _ _ _ Hl)) as E. rewrite <- E. apply set_pre_same.
Qed.
Lemma push_relay (s : lst T) f0 : forall is l p, Forall (fun i => i < length (lays s)) is -> NoDup (l :: is) ->
  push_all (FromInOut f0 l) is (relay p s) = (Ok (FromInOut f0 (List.last is l)), relay (fun k => match before (l :: is) k with Some x => Some x | None => p k end) s).
Proof.
  induction is as [|i is IH]; intros l p Hb Hnd; [reflexivity|]. inversion_clear Hb as [|? ? Hi Hb']. apply NoDup_cons in Hnd as [Hl Hnd]. cbn [push_all].
  rewrite (mbnd_ok _ _ _ (FromInOut f0 i) (relay (fun k => if k =? i then Some l else p k) s)).
  - rewrite IH by assumption. f_equal; [f_equal; f_equal; destruct is; [reflexivity|]; cbn; f_equal|].
    + assert (E : forall (z : list nat) a b, z <> [] -> List.last z a = List.last z b) by (clear; induction z as [|c [|d z] IHz]; intros a b Hz; [contradiction|reflexivity|]; apply IHz; discriminate).
      destruct is; [reflexivity|]. apply E. discriminate.
    + apply relay_ext. intros k _. cbn [before]. rewrite (Nat.eqb_sym i k). destruct (Nat.eqb_spec k i) as [->|Hk]; [|reflexivity].
      assert (before (i :: is) i = None) as Hn by (apply before_head; apply NoDup_cons in Hnd as [X _]; exact X). cbn [before] in Hn. rewrite Hn. reflexivity.
  - unfold MPush. cbn [FromInOut m_first m_last]. rewrite (mbnd_ok _ _ _ tt _ (connect_relay p s i (Some l) Hi)). reflexivity.
Qed.

Lemma below_in ps r is q : spelled ps r is -> below ps r q -> exists js, spelled ps q js /\ forall x, x ∈ js -> x ∈ is.
Proof.
  intros Hs Hb. induction Hb as [|m q Hb IH Hq]; [exists is; auto|]. destruct IH as (js & Hj & Hin). inversion Hj as [|m' js' Hne Ha]; subst.
  assert (G : forall rs ks, spelled_all ps rs ks -> q ∈ rs -> exists ls, spelled ps q ls /\ forall x, x ∈ ls -> x ∈ ks).
  { clear. intros rs ks Ha. induction Ha as [|r is rs js Hr Ha IH]; intros Hq; [inversion Hq|]. apply elem_of_cons in Hq as [->|Hq].
    - exists is. split; [exact Hr|]. intros x Hx. apply elem_of_app. left. exact Hx.
    - destruct (IH Hq) as (ls & Hl & Hx). exists ls. split; [exact Hl|]. intros x Hx'. apply elem_of_app. right. apply Hx. exact Hx'. }
  destruct (G _ _ Ha Hq) as (ls & Hl & Hx). exists ls. split; [exact Hl|]. auto.
Qed.
Theorem nested_claim fuel ps w m is (s : lst T) : NPushes fuel ps new_nest = Ok w -> NoDup (map snd ps) -> RM m ∉ map snd ps ->
  spelled ps (RM m) is -> (forall r, r ∈ map snd ps -> below ps (RM m) r) -> NoDup is -> Forall (fun i => i < length (lays s)) is -> loose s ->
  exists F0 M s', push_all NewModel is s = (Ok M, s') /\ forall F, F0 <= F -> Flatten F w m s = (Ok M, s').
Proof.
  intros E Hnd Hm Hsp Hbe Hni Hlt Hlo. pose proof (pushes_inv fuel ps w Hnd E) as Hi. pose proof (spell_both ps w Hi) as [SB _].
  destruct (SB _ _ Hsp) as (f & l & Hf & Hl & (n1 & F1) & (n2 & F2) & Hch). destruct is as [|f' is]; [discriminate Hf|]. cbn in Hf. injection Hf as ->.
  inversion_clear Hlt as [|? ? Hf0 Hlt']. assert (List.last is f = l) as El.
  { destruct is as [|y is _] using rev_ind; [cbn in Hl; injection Hl as ->; reflexivity|]. rewrite app_comm_cons, last_snoc in Hl. injection Hl as ->. apply last_last. }
  (* what PreLayer leads to *)
  assert (P : forall y, exists n, forall F, n <= F -> leads F w (n_pre w y) = before (f :: is) y).
  { intros y. destruct (decide (y ∈ f :: is)) as [Hy|Hy].
    - apply elem_split_at in Hy as [(r & Er)|(a & x & b & Er)].
      + injection Er as <- <-. exists 0. intros F _. rewrite before_head by (apply NoDup_cons in Hni as [X _]; exact X). destruct (n_pre w f) as [q|] eqn:Hq; [|reflexivity]. exfalso.
        destruct (iv_pre _ _ Hi f q Hq) as (k & a & r2 & b & Hc & Hx). apply (apart ps w (RM m) r2 f k a q b Hi Hnd Hm); [exists n1; exact F1|exact Hc|exact Hx].
      + destruct (Hch a x y b Er) as (q & Hq & (n & Hn)). exists n. intros F HF. rewrite Er. rewrite before_at by (rewrite <- Er; exact Hni). rewrite Hq. unfold leads. rewrite (last_more w n F q x Hn HF). reflexivity.
    - exists 0. intros F _. rewrite before_not by exact Hy. destruct (n_pre w y) as [q|] eqn:Hq; [|reflexivity]. exfalso. apply Hy.
      destruct (iv_pre _ _ Hi y q Hq) as (k & a & r2 & b & Hc & Hx). destruct (below_in ps (RM m) (f :: is) r2 Hsp) as (js & Hj & Hin).
      { apply Hbe. apply (contents_pushed ps k). rewrite Hc. apply elem_of_app. right. right. left. }
      destruct (SB _ _ Hj) as (f2 & _ & Hf2 & _ & G2 & _). rewrite (fl_fun w r2 y f2 Hx G2). apply Hin. destruct js; [discriminate Hf2|]. cbn in Hf2. injection Hf2 as ->. left. }
  assert (U : forall N, exists n, forall F, n <= F -> forall y, y < N -> leads F w (n_pre w y) = before (f :: is) y).
  { induction N as [|N (n & Hn)]; [exists 0; lia|]. destruct (P N) as (k & Hk). exists (n + k). intros F HF y Hy. destruct (decide (y = N)) as [->|]; [apply Hk; lia|apply Hn; lia]. }
  destruct (U (length (lays s))) as (n3 & Hn3).
  exists (n1 + n2 + n3), (FromInOut f l), (relay (before (f :: is)) s). split.
  - cbn [push_all]. rewrite (mbnd_ok _ _ _ (FromInOut f f) s) by reflexivity. rewrite <- (relay_loose s Hlo) at 1. rewrite push_relay by assumption. rewrite El. f_equal. apply relay_ext. intros k _. destruct (before (f :: is) k); reflexivity.
  - intros F HF. unfold Flatten. rewrite (mbnd_ok _ _ _ f s) by (unfold mlift; rewrite (first_more w n1 F _ f F1 ltac:(lia)); reflexivity).
    rewrite (mbnd_ok _ _ _ l s) by (unfold mlift; rewrite (last_more w n2 F _ l F2 ltac:(lia)); reflexivity).
    rewrite (mbnd_ok _ _ _ tt (relay (fun i => leads F w (n_pre w i)) s)) by reflexivity. unfold mret. f_equal. apply relay_ext. intros i Hk. apply Hn3; [lia|exact Hk].
Qed.
End Flat.

(** ** SetTrainable *)
Scheme reached_ind2 := Minimality for reached Sort Prop with reached_all_ind2 := Minimality for reached_all Sort Prop.
Combined Scheme reached_mutind from reached_ind2, reached_all_ind2.
Theorem trainable_claim fuel ps w r is : NPushes fuel ps new_nest = Ok w -> NoDup (map snd ps) -> reached ps r is -> exists n, forall F, n <= F -> NSetTrainable F w r = Ok is.
Proof.
  intros E Hnd. pose proof (pushes_inv fuel ps w Hnd E) as Hi.
  assert (G : (forall r is, reached ps r is -> exists n, forall F, n <= F -> NSetTrainable F w r = Ok is) /\
    (forall rs is, reached_all ps rs is -> forall m f tl, contents ps m = f :: rs ++ tl -> exists n, forall F, n <= F -> NWalk F w f (Some (List.last rs f)) = Ok is)).
  { apply reached_mutind.
    - intros i. exists 1. intros [|F] HF; [lia|]. reflexivity.
    - intros m f rs is0 Hc _ IH. destruct (IH m f [] ltac:(rewrite app_nil_r; exact Hc)) as (n & Hn). exists (S n). intros [|F] HF; [lia|]. cbn [NSetTrainable]. rewrite (iv_mod _ _ Hi m), Hc. cbn [ends]. apply Hn. lia.
    - intros m f tl _. exists 1. intros [|F] HF; [lia|]. cbn [NWalk List.last]. rewrite bool_decide_eq_true_2 by reflexivity. reflexivity.
    - intros q is0 rs js _ (n1 & H1) _ IH m f tl Hc. assert (Hc' : contents ps m = f :: rs ++ (q :: tl)) by (rewrite Hc, <- app_assoc; reflexivity). destruct (IH m f (q :: tl) Hc') as (n2 & H2).
      assert (Ha : exists a, f :: rs = a ++ [List.last rs f]) by (destruct rs as [|y rs _] using rev_ind; [exists []; reflexivity|exists (f :: rs); rewrite last_last; reflexivity]). destruct Ha as (a & Ha).
      assert (Hadj : contents ps m = a ++ List.last rs f :: q :: tl) by (rewrite Hc', app_comm_cons, Ha, <- app_assoc; reflexivity).
      destruct (iv_adj _ _ Hi m a _ q tl Hadj) as (x & (n3 & Fx) & Px). exists (S (n1 + n2 + n3)). intros [|F] HF; [lia|]. rewrite last_last. cbn [NWalk].
      rewrite bool_decide_eq_false_2. 2:{ intros ->. pose proof (contents_nodup ps m Hnd) as Hd. rewrite Hc' in Hd. apply NoDup_cons in Hd as [Hd _]. apply Hd. apply elem_of_app. right. left. }
      rewrite H1 by lia. cbn [res_bind]. rewrite (first_more w n3 F q x Fx ltac:(lia)). cbn [res_bind]. rewrite Px, H2 by lia. reflexivity. }
  intros Hr. apply (proj1 G). exact Hr.
Qed.
