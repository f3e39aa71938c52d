(** * EagerProofs: constructors, accessors and eager methods *)
From Verif Require Import Base Num ModelTools ModelOps ModelTensor Spec Denote ObjSpec
  IndexProofs ExecProofs TensorFacts BuildProofs.
From Coq Require Import Lia ZifyBool ZifyNat ZifyN.

Section Eager.
Context {T : Type} `{Num T}.

(** ** What a new tensor does not disturb *)
Lemma rd_app (m ext : list T) p v : rd m p = Some v -> rd (m ++ ext) p = Some v.
Proof.
  destruct p as [l|]; cbn; [|discriminate]. intros E. rewrite lookup_app_l; [exact E|].
  eapply lookup_lt_Some; exact E.
Qed.
Lemma rds_app_mem (m ext : list T) ps d : rds m ps = Some d -> rds (m ++ ext) ps = Some d.
Proof.
  unfold rds. revert d. induction ps as [|p ps IH]; intros d E; cbn in E |- *; [assumption|].
  destruct (rd m p) as [x|] eqn:Ex; cbn in E; [|discriminate].
  destruct (mapM (rd m) ps) as [xs|]; cbn in E; [|discriminate].
  rewrite (rd_app _ _ _ _ Ex), (IH _ eq_refl). exact E.
Qed.

Lemma holds_grow (s s' : tst T) p v ext tl :
  holds s p v -> mem s' = mem s ++ ext -> tens s' = tens s ++ tl -> holds s' p v.
Proof.
  intros (n & Hn & Hwf & Hv) Hm Ht. exists n. split; [|split].
  - rewrite Ht. apply lookup_app_l_Some. exact Hn.
  - eapply wf_mat_mono; [exact Hwf|]. rewrite Hm, app_length. lia.
  - rewrite Hm. unfold mval in *. destruct (rds (mem s) (operands (nmat n))) as [d|] eqn:Ed; [|discriminate].
    rewrite (rds_app_mem _ _ _ _ Ed). exact Hv.
Qed.

Lemma returns_new_keeps (s : tst T) r v s' p u :
  returns_new s r v -> r = (Ok (length (tens s)), s') -> holds s p u -> holds s' p u.
Proof.
  intros (s0 & ext & ops & Hr & Hm & Hc & Ht & _) Hr' Hp. rewrite Hr' in Hr. injection Hr as <-.
  eapply holds_grow; eassumption.
Qed.

Lemma returns_new_apart (s : tst T) r v s' p u :
  returns_new s r v -> r = (Ok (length (tens s)), s') -> holds s p u -> apart s' (length (tens s)) p.
Proof.
  intros (s0 & ext & ops & Hr & Hm & Hc & Ht & _ & _ & Hnew) Hr' (n & Hn & Hwf & _). rewrite Hr' in Hr. injection Hr as <-.
  intros x Hx Hp. unfold cells in Hx, Hp. rewrite Ht in Hx, Hp.
  rewrite lookup_app_r in Hx by lia. replace (length (tens s) - length (tens s)) with 0 in Hx by lia. cbn in Hx.
  rewrite (lookup_app_l_Some _ _ _ _ Hn) in Hp.
  destruct Hwf as (_ & _ & _ & Hv). rewrite Forall_forall in Hv, Hnew.
  destruct (Hv _ Hp) as (l & -> & Hl). destruct (Hnew _ Hx) as (l' & [= <-] & Hl'). lia.
Qed.

Lemma returns_new_unshared (s : tst T) r v s' :
  returns_new s r v -> r = (Ok (length (tens s)), s') -> unshared s' (length (tens s)).
Proof.
  intros (s0 & ext & ops & Hr & Hm & Hc & Ht & _ & Hnd & _) Hr'. rewrite Hr' in Hr. injection Hr as <-.
  unfold unshared, cells. rewrite Ht, lookup_app_r by lia. replace (length (tens s) - length (tens s)) with 0 by lia. exact Hnd.
Qed.

(** ** Loops that allocate one scalar per step *)
Lemma mmap_fresh {A} (l : list A) (body : A -> TM T ptr) (g : A -> option T) : forall s0 s,
  (exists ext, mem s = mem s0 ++ ext) -> tens s = tens s0 -> ctx s = ctx s0 ->
  (forall x s1, x ∈ l -> (exists ext, mem s1 = mem s0 ++ ext) -> tens s1 = tens s0 -> ctx s1 = ctx s0 ->
     match g x with Some v => body x s1 = alloc v s1 | None => body x s1 = (Panic, s1) end) ->
  match mapM g l with
  | Some vs => mmap l body s =
      (Ok (map Some (seq (length (mem s)) (length vs))), MkSt (mem s ++ vs) (tens s) (ctx s))
  | None => exists s1, mmap l body s = (Panic, s1) /\ tens s1 = tens s0 /\ exists ext, mem s1 = mem s0 ++ ext
  end.
Proof.
  intros s0. induction l as [|x l IH]; intros s Hm Ht Hc Hb.
  - cbn. rewrite app_nil_r. destruct s; reflexivity.
  - pose proof (Hb x s ltac:(apply elem_of_cons; auto) Hm Ht Hc) as Hx.
    cbn [mapM mmap]. destruct (g x) as [v|] eqn:Eg; cbn [mbind option_bind].
    + destruct Hm as [ext Hm].
      specialize (IH (MkSt (mem s ++ [v]) (tens s) (ctx s))). cbn [mem tens ctx] in IH.
      specialize (IH ltac:(rewrite Hm, <- app_assoc; eauto) Ht Hc).
      specialize (IH ltac:(intros y s1 Hy; apply Hb; apply elem_of_cons; auto)).
      erewrite mbnd_ok by (rewrite Hx; reflexivity).
      destruct (mapM g l) as [vs|]; cbn [option_bind].
      * erewrite mbnd_ok by exact IH. unfold mret. rewrite app_length. cbn [length seq map].
        rewrite Nat.add_1_r. f_equal. f_equal. rewrite <- app_assoc. reflexivity.
      * destruct IH as (s1 & Hs1 & Ht1 & Hm1). exists s1. split; [|auto]. erewrite mbnd_panic by exact Hs1. reflexivity.
    + exists s. split; [|auto]. erewrite mbnd_panic by exact Hx. reflexivity.
Qed.

Lemma rds_new (m vs : list T) : rds (m ++ vs) (map Some (seq (length m) (length vs))) = Some vs.
Proof. apply rds_seq. intros i Hi. rewrite lookup_app_r by lia. f_equal. lia. Qed.

Lemma NoDup_new a n : NoDup (map Some (seq a n)).
Proof. apply NoDup_fmap_2; [intros x y [= ->]; reflexivity|apply NoDup_seq]. Qed.
Lemma Forall_new a n : Forall (fun p => exists l, p = Some l /\ a <= l) (map Some (seq a n)).
Proof.
  apply Forall_forall. intros p Hp. apply elem_of_list_fmap in Hp as (l & -> & Hl).
  apply elem_of_seq in Hl. exists l. split; [reflexivity|lia].
Qed.

Lemma new_tensor (s : tst T) sh vs :
  fits sh -> length vs = N.to_nat (prodN sh) ->
  returns_new s (new_mat sh (GetIndexMul sh) (map Some (seq (length (mem s)) (length vs)))
     (MkSt (mem s ++ vs) (tens s) (ctx s))) (V sh vs).
Proof.
  intros Hf Hl. eexists _, vs, _. split; [reflexivity|]. cbn [mem tens ctx vsh vdata].
  split; [reflexivity|]. split; [reflexivity|]. split; [reflexivity|].
  split; [|split; [apply NoDup_new|apply Forall_new]].
  exists (MkNode KMat (MkMat sh (GetIndexMul sh) (map Some (seq (length (mem s)) (length vs))) false)).
  cbn [mem tens nmat]. split; [rewrite lookup_app_r by lia; replace (length (tens s) - length (tens s)) with 0 by lia; reflexivity|].
  split.
  - split; [exact Hf|]. split; [reflexivity|]. cbn [operands shape]. split; [rewrite map_length, seq_length; exact Hl|].
    apply Forall_forall. intros p Hp. apply elem_of_list_fmap in Hp as (l & -> & Hl').
    apply elem_of_seq in Hl'. exists l. split; [reflexivity|]. rewrite app_length. lia.
  - unfold mval. cbn [operands shape]. rewrite rds_new. reflexivity.
Qed.

(** The usual shape of an eager method: compute the elements one by one. *)
Lemma eager_method {A} (s : tst T) (l : list A) body g sh mul :
  fits sh -> mul = GetIndexMul sh -> length l = N.to_nat (prodN sh) ->
  (forall x s1, x ∈ l -> (exists ext, mem s1 = mem s ++ ext) -> tens s1 = tens s -> ctx s1 = ctx s ->
     match g x with Some v => body x s1 = alloc v s1 | None => body x s1 = (Panic, s1) end) ->
  returns_new_or_panics s ((ops <~ mmap l body ; new_mat sh mul ops) s) (d ← mapM g l; Some (V sh d)).
Proof.
  intros Hf -> Hl Hb. pose proof (mmap_fresh l body g s s) as Hm.
  specialize (Hm ltac:(exists []; rewrite app_nil_r; reflexivity) eq_refl eq_refl Hb).
  destruct (mapM g l) as [vs|] eqn:Evs; cbn [mbind option_bind].
  - unfold returns_new_or_panics. erewrite mbnd_ok by exact Hm.
    apply (new_tensor s sh vs Hf). rewrite (mapM_length _ _ _ Evs) in Hl. exact Hl.
  - destruct Hm as (s1 & Hs1 & Ht1 & Hm1). exists s1. split; [|auto]. erewrite mbnd_panic by exact Hs1. reflexivity.
Qed.

(** ** Constructors *)
Lemma mapM_const {A B} (y : B) (l : list A) : mapM (fun _ => Some y) l = Some (replicate (length l) y).
Proof. induction l as [|x l IH]; cbn; [reflexivity|]. rewrite IH. reflexivity. Qed.

Theorem NewZeros_spec (s : tst T) sh :
  fits sh -> returns_new s (NewZeros sh s) (V sh (replicate (N.to_nat (prodN sh)) nzero)).
Proof.
  intros Hf. unfold NewZeros, initMat. rewrite (GetDataSize_fits _ Hf).
  pose proof (eager_method s (range (N.to_nat (prodN sh))) (fun _ => alloc nzero) (fun _ => Some nzero) sh (GetIndexMul sh) Hf eq_refl) as Hm.
  unfold range in *. rewrite seq_length in Hm. specialize (Hm eq_refl ltac:(reflexivity)).
  rewrite mapM_const, seq_length in Hm. exact Hm.
Qed.
Theorem NewOnes_spec (s : tst T) sh :
  fits sh -> returns_new s (NewOnes sh s) (V sh (replicate (N.to_nat (prodN sh)) none)).
Proof.
  intros Hf. unfold NewOnes, initMat. rewrite (GetDataSize_fits _ Hf).
  pose proof (eager_method s (range (N.to_nat (prodN sh))) (fun _ => alloc none) (fun _ => Some none) sh (GetIndexMul sh) Hf eq_refl) as Hm.
  unfold range in *. rewrite seq_length in Hm. specialize (Hm eq_refl ltac:(reflexivity)).
  rewrite mapM_const, seq_length in Hm. exact Hm.
Qed.
Theorem NewRandom_spec (s : tst T) rnd sh :
  fits sh -> returns_new s (NewRandom rnd sh s) (V sh (map rnd (seq 0 (N.to_nat (prodN sh))))).
Proof.
  intros Hf. unfold NewRandom, initMat. rewrite (GetDataSize_fits _ Hf).
  pose proof (eager_method s (range (N.to_nat (prodN sh))) (fun i => alloc (rnd i)) (fun i => Some (rnd i)) sh (GetIndexMul sh) Hf eq_refl) as Hm.
  unfold range in *. rewrite seq_length in Hm. specialize (Hm eq_refl ltac:(reflexivity)).
  rewrite mapM_pure in Hm. exact Hm.
Qed.

Lemma mapM_seq_lookup {A} (l : list A) n : n <= length l -> mapM (fun i => l !! i) (seq 0 n) = Some (take n l).
Proof.
  intros Hn. assert (Hg : forall n j, j + n <= length l -> mapM (fun i => l !! i) (seq j n) = Some (take n (drop j l))).
  { induction n0 as [|k IH]; intros j Hj; [rewrite take_0; reflexivity|]. cbn [seq mapM].
    destruct (lookup_lt_is_Some_2 l j) as [x Hx]; [lia|].
    rewrite (drop_S _ _ _ Hx). change (take (S k) (x :: drop (S j) l)) with (x :: take k (drop (S j) l)).
    rewrite Hx. cbn [mbind option_bind]. rewrite IH by lia. reflexivity. }
  rewrite Hg by lia. rewrite drop_0. reflexivity.
Qed.

Theorem NewFromValues_spec (s : tst T) values sh :
  fits sh ->
  returns_new s (NewFromValues values sh s)
    (V sh (take (N.to_nat (prodN sh)) values ++
           replicate (N.to_nat (prodN sh) - length values) nzero)).
Proof.
  intros Hf. unfold NewFromValues, initMat. rewrite (GetDataSize_fits _ Hf).
  set (total := N.to_nat (prodN sh)).
  set (size := if length values <? total then length values else total).
  assert (Hsz : size = Nat.min (length values) total) by (unfold size; destruct (Nat.ltb_spec (length values) total); lia).
  pose proof (mmap_fresh (seq 0 size) (fun i => v <~ atM values i ; alloc v) (fun i => values !! i) s s) as H1.
  specialize (H1 ltac:(exists []; rewrite app_nil_r; reflexivity) eq_refl eq_refl).
  assert (Hb1 : forall x (s1 : tst T), x ∈ seq 0 size -> (exists ext, mem s1 = mem s ++ ext) -> tens s1 = tens s -> ctx s1 = ctx s ->
     match values !! x with Some v => (v <~ atM values x ; alloc v) s1 = alloc v s1
       | None => (v <~ atM values x ; alloc v) s1 = (Panic, s1) end).
  { intros x s1 Hx _ _ _. apply elem_of_seq in Hx.
    destruct (values !! x) as [v|] eqn:E; [|apply lookup_ge_None in E; lia].
    erewrite mbnd_ok by (apply atM_ok; exact E). reflexivity. }
  specialize (H1 Hb1). clear Hb1. rewrite (mapM_seq_lookup values size) in H1 by lia.
  erewrite mbnd_ok by exact H1. clear H1.
  pose proof (mmap_alloc (total - size) size (mem s ++ take size values) (tens s) (ctx s)) as H2.
  erewrite mbnd_ok by exact H2. clear H2.
  replace (take total values) with (take size values).
  2:{ rewrite Hsz. destruct (Nat.le_ge_cases (length values) total).
      - rewrite Nat.min_l, !take_ge by lia. reflexivity.
      - rewrite Nat.min_r by lia. reflexivity. }
  replace (total - length values) with (total - size) by lia.
  set (vs := take size values ++ replicate (total - size) nzero).
  assert (Hlv : length vs = total) by (unfold vs; rewrite app_length, take_length, replicate_length; lia).
  rewrite <- app_assoc. fold vs. rewrite app_length, <- map_app, <- seq_app.
  replace (length (take size values) + (total - size)) with (length vs) by (unfold vs; rewrite app_length, replicate_length; lia).
  apply new_tensor; assumption.
Qed.

End Eager.
