(** * EpochProofs: which pairs Train uses *)
From Verif Require Import Base Num ModelTools ModelOps ModelTensor ModelGraph ModelLayer ModelModel Spec Denote ObjSpec TensorFacts AccessProofs FitProofs.
From Coq Require Import Lia.

Section Epoch.
Context {T : Type} `{Num T}.

Lemma mfor_ext {A} (f g : A -> LM T unit) (l : list A) : (forall a s, a ∈ l -> f a s = g a s) -> forall s, mfor l f s = mfor l g s.
Proof.
  intros Hfg. induction l as [|a l IH]; intros s; [reflexivity|]. cbn [mfor]. unfold mbnd. rewrite (Hfg a s) by left. destruct (g a s) as [[[]| | |] s1]; try reflexivity.
  apply IH. intros b t Hb. apply Hfg. right. exact Hb.
Qed.
Lemma mbnd_ext {A B} (c : LM T A) (f g : A -> LM T B) s : (forall a t, f a t = g a t) -> mbnd c f s = mbnd c g s.
Proof. intros Hfg. unfold mbnd. destruct (c s) as [[]]; try reflexivity. apply Hfg. Qed.
Lemma mbnd_first {A B} (c d : LM T A) (f : A -> LM T B) s : c s = d s -> mbnd c f s = mbnd d f s.
Proof. intros E. unfold mbnd. rewrite E. reflexivity. Qed.

(** Two calls that pick the same tensors in every step do the same. *)
Theorem train_picks picks picks' (m : model T) xs ys xs' ys' epochs batch a mo s :
  length xs = length ys -> length xs' = length ys' -> xs <> [] -> xs' <> [] -> 0 < batch ->
  (forall e b, e < epochs -> b < batch ->
    xs !! (picks e b mod length xs) = xs' !! (picks' e b mod length xs') /\ ys !! (picks e b mod length xs) = ys' !! (picks' e b mod length xs')) ->
  Train picks m xs ys epochs batch a mo s = Train picks' m xs' ys' epochs batch a mo s.
Proof.
  intros Hl Hl' Hx Hx' Hb Hp. unfold Train. rewrite (proj2 (Nat.eqb_eq _ _) Hl), (proj2 (Nat.eqb_eq _ _) Hl'). cbn [negb].
  apply mbnd_ext. intros m1 s1. apply mbnd_ext. intros [] s2. apply mbnd_ext. intros [] s3.
  replace (batch =? 0) with false by (symmetry; apply Nat.eqb_neq; lia). cbv zeta. apply mbnd_first.
  assert (N0 : (length xs =? 0) = false) by (apply Nat.eqb_neq; destruct xs; [contradiction|cbn; lia]).
  assert (N0' : (length xs' =? 0) = false) by (apply Nat.eqb_neq; destruct xs'; [contradiction|cbn; lia]). rewrite N0, N0'.
  apply mfor_ext. intros e t He. apply mfor_ext. intros b u Hbb.
  assert (e < epochs) as He' by (apply elem_of_seq in He; lia). assert (b < batch) as Hb' by (apply elem_of_seq in Hbb; lia).
  destruct (Hp e b He' Hb') as [E1 E2]. unfold at_or_panic. rewrite E1, E2. reflexivity.
Qed.
Theorem train_one_pair picks (m : model T) x y xs ys epochs batch a mo s : length xs = length ys -> 0 < batch ->
  Train (fun _ _ => 0) m (x :: xs) (y :: ys) epochs batch a mo s = Train picks m [x] [y] epochs batch a mo s.
Proof.
  intros Hl Hb. apply train_picks; [cbn; lia|reflexivity|discriminate|discriminate|exact Hb|]. intros e b _ _. cbn [length].
  rewrite Nat.mod_1_r, Nat.mod_0_l by lia. split; reflexivity.
Qed.
(** Nothing to pick from. *)
Theorem train_nothing picks (m : model T) epochs batch a mo s : m_bp m <> None -> 0 < epochs -> 0 < batch -> fst (Train picks m [] [] epochs batch a mo s) = Panic.
Proof.
  intros Hb He Hba. unfold Train. cbn [length Nat.eqb negb]. destruct (m_bp m) as [g|]; [|contradiction]. rewrite (mbnd_ok _ _ _ m s) by reflexivity.
  destruct epochs as [|e]; [lia|]. destruct batch as [|b]; [lia|]. cbn [Nat.eqb]. cbv zeta. unfold range. cbn [seq mfor].
  unfold mbnd at 1. unfold liftT at 1. destruct (wrM (m_alpha m) a (ts s)) as [r1 t1] eqn:E1.
  assert (r1 = Ok tt \/ r1 = Panic) as [-> | ->]; [unfold wrM in E1; destruct (wr (mem (ts s)) (m_alpha m) a); injection E1 as <- <-; auto| |reflexivity].
  unfold mbnd at 1. unfold liftT at 1. cbn [ts]. destruct (wrM (m_momentum m) mo t1) as [r2 t2] eqn:E2.
  assert (r2 = Ok tt \/ r2 = Panic) as [-> | ->]; [unfold wrM in E2; destruct (wr (mem t1) (m_momentum m) mo); injection E2 as <- <-; auto| |reflexivity]. reflexivity.
Qed.
(** Nothing to do: only the two parameters of training are stored. *)
Theorem train_no_step picks (m : model T) xs ys epochs batch a mo s pa pm pl : length xs = length ys -> m_bp m <> None ->
  m_alpha m = Some pa -> m_momentum m = Some pm -> m_loss m = Some pl -> pa < length (mem (ts s)) -> pm < length (mem (ts s)) -> pl < length (mem (ts s)) ->
  epochs = 0 \/ (batch = 0 /\ xs = []) ->
  Train picks m xs ys epochs batch a mo s = (Ok m, MkL (MkSt (<[pm := mo]> (<[pa := a]> (mem (ts s)))) (tens (ts s)) (ctx (ts s))) (lays s) (rc s)).
Proof.
  intros Hl Hb Ha Hm Hlo La Lm Ll He. unfold Train. rewrite (proj2 (Nat.eqb_eq _ _) Hl). cbn [negb]. destruct (m_bp m) as [g|]; [|contradiction]. rewrite (mbnd_ok _ _ _ m s) by reflexivity.
  rewrite Ha, Hm, Hlo.
  erewrite mbnd_ok; [|unfold liftT, wrM, wr; rewrite decide_True by exact La; reflexivity].
  erewrite mbnd_ok; [|unfold liftT, wrM, wr; cbn [ts mem]; rewrite decide_True by (rewrite insert_length; exact Lm); reflexivity]. cbn [ts mem tens ctx lays rc]. cbv zeta.
  set (s2 := MkL _ _ _). rewrite (mbnd_ok _ _ _ tt s2).
  2: { destruct He as [-> | [-> ->]]; [reflexivity|]. cbn [Nat.eqb length].
       induction (range epochs) as [|e l IH]; [reflexivity|]. cbn [mfor]. rewrite (mbnd_ok _ _ _ tt s2) by reflexivity. exact IH. }
  destruct (lookup_lt_is_Some_2 (<[pm := mo]> (<[pa := a]> (mem (ts s)))) pl) as [v Hv]; [rewrite !insert_length; exact Ll|].
  rewrite (mbnd_ok _ _ _ v s2); [reflexivity|]. unfold liftT, rdM, rd, s2. cbn [ts mem]. rewrite Hv. reflexivity.
Qed.
(** Whatever a call picks, another list with the same pairs (in another order, or
    with more pairs) can be picked from in the same way. *)
Theorem train_subset picks (m : model T) xs ys xs' ys' epochs batch a mo s :
  length xs = length ys -> length xs' = length ys' -> xs <> [] -> 0 < batch -> (forall p, p ∈ zip xs ys -> p ∈ zip xs' ys') ->
  exists picks', (forall e b, picks' e b < length xs') /\ Train picks m xs ys epochs batch a mo s = Train picks' m xs' ys' epochs batch a mo s.
Proof.
  intros Hl Hl' Hx Hb Hs.
  set (find k := match zip xs ys !! k with Some p => match list_find (fun q => q = p) (zip xs' ys') with Some (j, _) => j | None => 0 end | None => 0 end).
  assert (F : forall k, k < length xs -> find k < length xs' /\ xs !! k = xs' !! find k /\ ys !! k = ys' !! find k).
  { intros k Hk. destruct (lookup_lt_is_Some_2 (zip xs ys) k) as [[x y] Hxy]; [rewrite zip_with_length; lia|]. unfold find. rewrite Hxy.
    destruct (list_find_elem_of (fun q => q = (x, y)) (zip xs' ys') (x, y)) as [[j q] Hj]; [apply Hs; apply elem_of_list_lookup; eauto|reflexivity|]. rewrite Hj.
    apply list_find_Some in Hj as (Hj & -> & _). assert (j < length (zip xs' ys')) as Lj by (apply lookup_lt_Some in Hj; exact Hj). rewrite zip_with_length in Lj.
    apply lookup_zip_with_Some in Hxy as (? & ? & [= <- <-] & -> & ->). apply lookup_zip_with_Some in Hj as (? & ? & [= <- <-] & -> & ->). repeat split; lia. }
  assert (L : 0 < length xs) by (destruct xs; [contradiction|cbn; lia]).
  exists (fun e b => find (picks e b mod length xs)). assert (B : forall e b, picks e b mod length xs < length xs) by (intros; apply Nat.mod_upper_bound; lia).
  split; [intros e b; apply F, B|]. apply train_picks; try assumption.
  - intros ->. destruct (F 0 L) as [Q _]. cbn in Q. lia.
  - intros e b _ _. destruct (F _ (B e b)) as (F1 & F2 & F3). rewrite (Nat.mod_small (find _)) by exact F1. split; assumption.
Qed.
End Epoch.
