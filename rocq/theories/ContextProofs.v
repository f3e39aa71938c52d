(** * ContextProofs: the linked list of operations behaves as a queue *)
From Verif Require Import Base Num ModelOps ModelContext ExecProofs.
From Coq Require Import Lia ZifyBool ZifyNat ZifyN.

Section Ctx.
Context {A : Type}.
Notation cnode := (@cnode A).
Notation context := (@context A).

(** [chain heap cur l last]: following links from [cur] meets exactly the
    operations [l], the last of them in node [last], whose link is nil. *)
Inductive chain (heap : list cnode) : nat -> list A -> nat -> list nat -> Prop :=
| Ch_one i nd : heap !! i = Some nd -> cn_next nd = None -> chain heap i [cn_op nd] i [i]
| Ch_cons i nd j l last path :
    heap !! i = Some nd -> cn_next nd = Some j -> chain heap j l last path -> i ∉ path ->
    chain heap i (cn_op nd :: l) last (i :: path).

Lemma chain_walk heap cur l last path : chain heap cur l last path -> walk heap (length l) (Some cur) = Ok l.
Proof.
  induction 1 as [i nd Hi Hn|i nd j l last path Hi Hn Hc IH Hp]; cbn; rewrite Hi; [reflexivity|].
  rewrite Hn, IH. reflexivity.
Qed.
Lemma chain_last heap cur l last path : chain heap cur l last path -> last ∈ path.
Proof. induction 1; [left|right; assumption]. Qed.
Lemma chain_bound heap cur l last path i : chain heap cur l last path -> i ∈ path -> i < length heap.
Proof.
  induction 1 as [j nd Hi Hn|j nd k l last path Hi Hn Hc IH Hp]; intros Hin.
  - apply elem_of_list_singleton in Hin as ->. eapply lookup_lt_Some. exact Hi.
  - apply elem_of_cons in Hin as [->|Hin]; [eapply lookup_lt_Some; exact Hi|auto].
Qed.
Lemma chain_ext heap heap' cur l last path :
  chain heap cur l last path -> (forall i, i ∈ path -> heap' !! i = heap !! i) -> chain heap' cur l last path.
Proof.
  induction 1 as [j nd Hi Hn|j nd k l last path Hi Hn Hc IH Hp]; intros He.
  - apply Ch_one; [rewrite He by left; exact Hi|exact Hn].
  - eapply Ch_cons; [rewrite He by left; exact Hi|exact Hn| |exact Hp]. apply IH. intros i Hin. apply He. right. exact Hin.
Qed.
Lemma chain_head heap cur l last path : chain heap cur l last path -> cur ∈ path.
Proof. destruct 1; left. Qed.

Lemma chain_push heap cur l last path o en :
  chain heap cur l last path -> heap !! last = Some en ->
  let n := length heap in
  chain (<[last := {| cn_op := cn_op en; cn_next := Some n |}]> (heap ++ [{| cn_op := o; cn_next := None |}]))
    cur (l ++ [o]) n (path ++ [n]).
Proof.
  intros Hc Hen n. induction Hc as [j nd Hi Hn|j nd k l last path Hi Hn Hc IH Hp]; cbn.
  - rewrite Hi in Hen. injection Hen as <-. pose proof (lookup_lt_Some _ _ _ Hi) as Hlt.
    eapply (Ch_cons _ _ {| cn_op := cn_op nd; cn_next := Some n |}).
    + apply list_lookup_insert. rewrite app_length. cbn. lia.
    + reflexivity.
    + apply (Ch_one _ n {| cn_op := o; cn_next := None |}); [|reflexivity].
      rewrite list_lookup_insert_ne by (unfold n; lia). rewrite lookup_app_r by (unfold n; lia).
      unfold n. replace (length heap - length heap) with 0 by lia. reflexivity.
    + rewrite elem_of_list_singleton. unfold n. lia.
  - pose proof (lookup_lt_Some _ _ _ Hi) as Hlt. eapply Ch_cons; [|exact Hn|apply IH; exact Hen|].
    + rewrite list_lookup_insert_ne by (intros ->; apply Hp; eapply chain_last; exact Hc).
      rewrite lookup_app_l by assumption. exact Hi.
    + rewrite elem_of_app, elem_of_list_singleton. unfold n. intros [Hin| ->]; [auto|lia].
Qed.

(** A context represents the list of operations pushed so far. *)
Definition repr (c : context) (l : list A) (path : list nat) : Prop :=
  c_size c = N.of_nat (length l) /\
  match l with
  | [] => c_start c = None /\ path = []
  | _ => exists i e, c_start c = Some i /\ c_end c = Some e /\ chain (c_nodes c) i l e path
  end.

Lemma repr_GetOps c l path : repr c l path -> GetOps c = Ok l.
Proof.
  intros [Hs Hl]. unfold GetOps. rewrite Hs, Nat2N.id. destruct l as [|x l]; [reflexivity|].
  destruct Hl as (i & e & -> & _ & Hc). exact (chain_walk _ _ _ _ _ Hc).
Qed.

Lemma repr_Push c l path o :
  repr c l path -> (N.of_nat (length l) + 1 < W64)%N ->
  exists c', Push c o = Ok c' /\ repr c' (l ++ [o]) (path ++ [length (c_nodes c)]) /\
    length (c_nodes c') = S (length (c_nodes c)) /\
    (forall i, i ∉ path -> i < length (c_nodes c) -> c_nodes c' !! i = c_nodes c !! i).
Proof.
  intros [Hs Hl] Hw. unfold Push.
  assert (Hsz : uadd (c_size c) 1 = N.of_nat (length (l ++ [o]))).
  { rewrite Hs. unfold uadd. rewrite N.mod_small by assumption. rewrite app_length. cbn. lia. }
  destruct l as [|x l].
  - destruct Hl as [-> ->]. eexists. split; [reflexivity|]. split; [|split].
    + split; [exact Hsz|]. cbn. do 2 eexists. split; [reflexivity|]. split; [reflexivity|].
      apply (Ch_one _ _ {| cn_op := o; cn_next := None |}); [|reflexivity].
      rewrite lookup_app_r by lia. replace (length (c_nodes c) - length (c_nodes c)) with 0 by lia. reflexivity.
    + cbn. rewrite app_length. cbn. lia.
    + intros i _ Hi. cbn. apply lookup_app_l. exact Hi.
  - destruct Hl as (i & e & Hst & Hen & Hc). rewrite Hst, Hen.
    pose proof (chain_bound _ _ _ _ _ _ Hc (chain_last _ _ _ _ _ Hc)) as He.
    destruct (lookup_lt_is_Some_2 _ _ He) as [en Hle]. rewrite lookup_app_l by assumption. rewrite Hle.
    eexists. split; [reflexivity|]. split; [|split].
    + split; [exact Hsz|]. cbn [app c_start c_end c_nodes]. do 2 eexists. split; [reflexivity|]. split; [reflexivity|].
      change (x :: l ++ [o]) with ((x :: l) ++ [o]). apply chain_push; assumption.
    + cbn. rewrite insert_length, app_length. cbn. lia.
    + intros j Hj Hlt. cbn. rewrite list_lookup_insert_ne; [apply lookup_app_l; exact Hlt|].
      intros ->. apply Hj. eapply chain_last. exact Hc.
Qed.

(** Contexts that share a heap: [push_at k o] is [ctx_k.Push(o)]. *)
Record world : Type := { w_heap : list cnode; w_ctxs : list (N * option nat * option nat) }.
Definition ctx_at (w : world) (k : nat) : option context :=
  match w_ctxs w !! k with
  | Some (sz, st, en) => Some {| c_size := sz; c_start := st; c_end := en; c_nodes := w_heap w |}
  | None => None
  end.
Definition push_at (w : world) (k : nat) (o : A) : res world :=
  match ctx_at w k with
  | None => Panic
  | Some c => res_bind (Push c o) (fun c' =>
      Ok {| w_heap := c_nodes c'; w_ctxs := <[k := (c_size c', c_start c', c_end c')]> (w_ctxs w) |})
  end.
Fixpoint push_all (w : world) (l : list (nat * A)) : res world :=
  match l with
  | [] => Ok w
  | (k, o) :: r => res_bind (push_at w k o) (fun w' => push_all w' r)
  end.
(** What was pushed to context [k]. *)
Definition pushed (k : nat) (l : list (nat * A)) : list A :=
  flat_map (fun p => if fst p =? k then [snd p] else []) l.
(** [n] new contexts over an arbitrary heap *)
Definition new_world (heap : list cnode) (n : nat) : world :=
  {| w_heap := heap; w_ctxs := replicate n (c_size (NewCTX heap), c_start (NewCTX heap), c_end (NewCTX heap)) |}.

(** Every context represents its list, in nodes of its own. *)
Definition good (w : world) (ls : list (list A)) : Prop :=
  exists paths, length paths = length (w_ctxs w) /\ length ls = length (w_ctxs w) /\
    (forall k c l path, ctx_at w k = Some c -> ls !! k = Some l -> paths !! k = Some path ->
       repr c l path /\ (forall i, i ∈ path -> i < length (w_heap w))) /\
    (forall j k pj pk i, j <> k -> paths !! j = Some pj -> paths !! k = Some pk -> i ∈ pj -> i ∈ pk -> False).

Lemma good_new heap n : good (new_world heap n) (replicate n []).
Proof.
  exists (replicate n []). cbn. rewrite !replicate_length. split; [reflexivity|]. split; [reflexivity|]. split.
  - intros k c l path Hc Hl Hp. apply lookup_replicate in Hl as [-> _]. apply lookup_replicate in Hp as [-> _].
    unfold ctx_at in Hc. cbn in Hc. destruct (replicate n _ !! k) as [[[sz st] en]|] eqn:E; [|discriminate].
    apply lookup_replicate in E as [E _]. injection E as -> -> ->. injection Hc as <-.
    split; [split; [reflexivity|split; reflexivity]|]. intros i Hi. inversion Hi.
  - intros j k pj pk i _ Hj _ Hi. apply lookup_replicate in Hj as [-> _]. inversion Hi.
Qed.

Lemma good_push w ls k o l :
  good w ls -> ls !! k = Some l -> (N.of_nat (length l) + 1 < W64)%N ->
  exists w', push_at w k o = Ok w' /\ good w' (<[k := l ++ [o]]> ls).
Proof.
  intros (paths & Hlp & Hll & Hr & Hd) Hl Hw.
  pose proof (lookup_lt_Some _ _ _ Hl) as Hk.
  destruct (lookup_lt_is_Some_2 (w_ctxs w) k) as [[[sz st] en] Hx]; [lia|].
  destruct (lookup_lt_is_Some_2 paths k) as [path Hp]; [lia|].
  assert (Hc : ctx_at w k = Some {| c_size := sz; c_start := st; c_end := en; c_nodes := w_heap w |}).
  { unfold ctx_at. rewrite Hx. reflexivity. }
  destruct (Hr _ _ _ _ Hc Hl Hp) as [Hrep Hb].
  destruct (repr_Push _ _ _ o Hrep Hw) as (c' & HP & Hrep' & Hlen & Hsame). cbn in Hlen, Hsame, Hrep'.
  unfold push_at. rewrite Hc, HP. cbn. eexists. split; [reflexivity|].
  exists (<[k := path ++ [length (w_heap w)]]> paths). cbn. rewrite !insert_length.
  split; [assumption|]. split; [assumption|]. split.
  - intros j c lj pj Hcj Hlj Hpj. destruct (decide (j = k)) as [->|Hne].
    + rewrite list_lookup_insert in Hlj by lia. rewrite list_lookup_insert in Hpj by lia. injection Hlj as <-. injection Hpj as <-.
      unfold ctx_at in Hcj. cbn in Hcj. rewrite list_lookup_insert in Hcj by lia. injection Hcj as <-.
      split; [destruct c'; exact Hrep'|]. intros i Hi. rewrite elem_of_app, elem_of_list_singleton in Hi.
      rewrite Hlen. destruct Hi as [Hi| ->]; [specialize (Hb i Hi); cbn in Hb; lia|lia].
    + rewrite list_lookup_insert_ne in Hlj by congruence. rewrite list_lookup_insert_ne in Hpj by congruence.
      unfold ctx_at in Hcj. cbn in Hcj. rewrite list_lookup_insert_ne in Hcj by congruence.
      destruct (w_ctxs w !! j) as [[[szj stj] enj]|] eqn:Hxj; [|discriminate]. injection Hcj as <-.
      destruct (Hr j {| c_size := szj; c_start := stj; c_end := enj; c_nodes := w_heap w |} lj pj) as [[Hs Hm] Hbj].
      { unfold ctx_at. rewrite Hxj. reflexivity. } { exact Hlj. } { exact Hpj. }
      split; [|intros i Hi; rewrite Hlen; specialize (Hbj i Hi); lia].
      split; [exact Hs|]. cbn in *. destruct lj as [|y lj]; [exact Hm|].
      destruct Hm as (i & e & H1 & H2 & H3). exists i, e. split; [exact H1|]. split; [exact H2|].
      eapply chain_ext; [exact H3|]. intros q Hq. apply Hsame; [|exact (Hbj q Hq)].
      intros Hqp. exact (Hd j k pj path q Hne Hpj Hp Hq Hqp).
  - intros j1 j2 p1 p2 i Hne H1 H2 Hi1 Hi2.
    assert (Haux : forall j pj, j <> k -> paths !! j = Some pj -> i ∈ pj -> i ∈ path ++ [length (w_heap w)] -> False).
    { intros j pj Hj Hpj Hi Hip. rewrite elem_of_app, elem_of_list_singleton in Hip. destruct Hip as [Hip| ->].
      - exact (Hd j k pj path i Hj Hpj Hp Hi Hip).
      - destruct (lookup_lt_is_Some_2 (w_ctxs w) j) as [[[szj stj] enj] Hxj]; [rewrite <- Hlp; eapply lookup_lt_Some; exact Hpj|].
        destruct (lookup_lt_is_Some_2 ls j) as [lj Hlj]; [rewrite Hll, <- Hlp; eapply lookup_lt_Some; exact Hpj|].
        destruct (Hr j {| c_size := szj; c_start := stj; c_end := enj; c_nodes := w_heap w |} lj pj) as [_ Hbj].
        { unfold ctx_at. rewrite Hxj. reflexivity. } { exact Hlj. } { exact Hpj. }
        specialize (Hbj _ Hi). lia. }
    destruct (decide (j1 = k)) as [->|Hn1]; destruct (decide (j2 = k)) as [->|Hn2]; try congruence.
    + rewrite list_lookup_insert in H1 by lia. injection H1 as <-. rewrite list_lookup_insert_ne in H2 by congruence.
      exact (Haux j2 p2 Hn2 H2 Hi2 Hi1).
    + rewrite list_lookup_insert in H2 by lia. injection H2 as <-. rewrite list_lookup_insert_ne in H1 by congruence.
      exact (Haux j1 p1 Hn1 H1 Hi1 Hi2).
    + rewrite list_lookup_insert_ne in H1 by congruence. rewrite list_lookup_insert_ne in H2 by congruence. exact (Hd _ _ _ _ _ Hne H1 H2 Hi1 Hi2).
Qed.

Lemma push_all_good ops : forall w ls,
  good w ls -> (forall p, p ∈ ops -> fst p < length ls) ->
  (forall k l, ls !! k = Some l -> (N.of_nat (length l + length ops) < W64)%N) ->
  exists w', push_all w ops = Ok w' /\ good w' (imap (fun k l => l ++ pushed k ops) ls).
Proof.
  induction ops as [|[k o] r IH]; intros w ls Hg Hk Hsz; cbn [push_all].
  - exists w. split; [reflexivity|]. cbn.
    replace (imap (fun (k : nat) (l : list A) => l ++ []) ls) with ls; [exact Hg|].
    apply list_eq. intros j. rewrite list_lookup_imap. destruct (ls !! j); cbn; [rewrite app_nil_r|]; reflexivity.
  - pose proof (Hk (k, o) ltac:(left)) as Hlt. cbn in Hlt.
    destruct (lookup_lt_is_Some_2 ls k Hlt) as [l Hl].
    destruct (good_push w ls k o l Hg Hl) as (w1 & H1 & Hg1).
    { specialize (Hsz _ _ Hl). cbn [length] in Hsz. lia. }
    rewrite H1. cbn [res_bind].
    destruct (IH w1 _ Hg1) as (w' & Hw' & Hg').
    + intros p Hp. rewrite insert_length. apply Hk. right. exact Hp.
    + intros j lj Hj. destruct (decide (j = k)) as [->|Hne].
      * rewrite list_lookup_insert in Hj by assumption. injection Hj as <-. specialize (Hsz _ _ Hl). rewrite app_length. cbn [length] in *. lia.
      * rewrite list_lookup_insert_ne in Hj by congruence. specialize (Hsz _ _ Hj). cbn [length] in Hsz. lia.
    + exists w'. split; [exact Hw'|].
      replace (imap (fun (k0 : nat) (l0 : list A) => l0 ++ pushed k0 ((k, o) :: r)) ls)
        with (imap (fun (k0 : nat) (l0 : list A) => l0 ++ pushed k0 r) (<[k := l ++ [o]]> ls)); [exact Hg'|].
      apply list_eq. intros j. rewrite !list_lookup_imap. destruct (decide (j = k)) as [->|Hne].
      * rewrite list_lookup_insert by assumption. rewrite Hl. cbn. rewrite Nat.eqb_refl. cbn. rewrite <- app_assoc. reflexivity.
      * rewrite list_lookup_insert_ne by congruence. destruct (ls !! j); cbn; [|reflexivity].
        destruct (Nat.eqb_spec k j); [congruence|]. reflexivity.
Qed.

(** After any interleaving of pushes to [n] contexts, every context returns
    exactly what was pushed to it, in order; reading again gives the same. *)
Theorem contexts_are_queues heap n (ops : list (nat * A)) :
  Forall (fun p => fst p < n) ops -> (N.of_nat (length ops) < W64)%N ->
  exists w, push_all (new_world heap n) ops = Ok w /\
    forall k, k < n -> exists c, ctx_at w k = Some c /\ GetOps c = Ok (pushed k ops).
Proof.
  intros Hf Hsz. destruct (push_all_good ops (new_world heap n) (replicate n []) (good_new heap n)) as (w & Hw & Hg).
  - intros p Hp. rewrite replicate_length. rewrite Forall_forall in Hf. auto.
  - intros k l Hl. apply lookup_replicate in Hl as [-> _]. exact Hsz.
  - exists w. split; [exact Hw|]. intros k Hk. destruct Hg as (paths & Hlp & Hll & Hr & _).
    rewrite imap_length, replicate_length in Hll.
    destruct (lookup_lt_is_Some_2 (w_ctxs w) k) as [[[sz st] en] Hx]; [lia|].
    destruct (lookup_lt_is_Some_2 paths k) as [path Hp]; [lia|].
    exists {| c_size := sz; c_start := st; c_end := en; c_nodes := w_heap w |}.
    assert (Hc : ctx_at w k = Some {| c_size := sz; c_start := st; c_end := en; c_nodes := w_heap w |}).
    { unfold ctx_at. rewrite Hx. reflexivity. }
    split; [exact Hc|]. destruct (Hr k _ (pushed k ops) path Hc) as [Hrep _]; [|exact Hp|exact (repr_GetOps _ _ _ Hrep)].
    rewrite list_lookup_imap, lookup_replicate_2 by assumption. reflexivity.
Qed.
End Ctx.

Section Run.
Context {T : Type} `{Num T}.
(** Executing: left to right, stopping at the first panic. *)
Theorem exec_order (o : op T) r m :
  Exec (MkGraph (o :: r)) m = match cal o m with Some m' => Exec (MkGraph r) m' | None => None end.
Proof. unfold Exec. cbn. destruct (cal o m); reflexivity. Qed.
Theorem exec_append (p g : graph T) m :
  Exec (AddFromGraph p g) m = match Exec p m with Some m' => Exec g m' | None => None end.
Proof.
  unfold Exec, AddFromGraph. destruct p as [a], g as [b]. cbn. revert m. induction a as [|o a IH]; intros m; cbn; [reflexivity|].
  destruct (cal o m); cbn; [apply IH|reflexivity].
Qed.
Theorem exec_copy (g : graph T) m : Exec (NewFromGraph g) m = Exec g m.
Proof. reflexivity. Qed.
End Run.
