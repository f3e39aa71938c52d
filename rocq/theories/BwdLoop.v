(** * BwdLoop: loops that allocate scalars and push operations

    [grown t k ops]: [k] new scalars and the operations [ops].  A loop whose
    bodies do just that does it too; what executing its operations achieves is
    shown by an invariant. *)
From Verif Require Import Base Num ModelTools ModelOps ModelTensor ModelGraph ModelLayer Spec Denote NetSpec FwdSpec
  IndexProofs ExecProofs TensorFacts AccessProofs BuildProofs BuildFrame CompileProofs EagerOps Agree FwdMask FwdBuild FwdSeg FwdOps FwdPool NetExec NetBuild NetChain FwdBody FwdExpr FwdConv FwdConv2 FwdDeconv BwdPost.
From Coq Require Import Lia ZifyBool ZifyNat ZifyN.

Section BwdLoop.
Context {T : Type} `{Num T}.

Lemma grown_tens t k ops : tens (grown t k ops) = tens t. Proof using Type. reflexivity. Qed.
Lemma grown_len t k ops : length (mem (grown t k ops)) = length (mem t) + k.
Proof using Type. cbn. rewrite app_length, replicate_length. reflexivity. Qed.
Lemma grown_grown t k1 o1 k2 o2 : grown (grown t k1 o1) k2 o2 = grown t (k1 + k2) (o1 ++ o2).
Proof using Type. unfold grown. cbn. rewrite <- !app_assoc. rewrite replicate_add. reflexivity. Qed.
Lemma grown_0 t : grown t 0 [] = t.
Proof using Type. destruct t. unfold grown. cbn. rewrite !app_nil_r. reflexivity. Qed.
Lemma alloc_grown t : alloc nzero t = (Ok (Some (length (mem t))), grown t 1 []).
Proof using Type. destruct t. unfold alloc, grown. cbn. rewrite app_nil_r. reflexivity. Qed.
Lemma push_grown (t : tst T) o : push o t = (Ok tt, grown t 0 [o]).
Proof using Type. destruct t. unfold push, grown. cbn. rewrite app_nil_r. reflexivity. Qed.
Lemma seg_grown (t : tst T) k ops (W : nat -> Prop) : (forall l, dst_in l ops -> W l) -> (forall l, W l -> l < length (mem t) + k) -> seg W t (grown t k ops) ops [].
Proof using Type.
  intros Hd HW. pose proof (seg_add t (zeros k) []) as S1. rewrite app_nil_r in S1.
  pose proof (seg_ops (MkSt (mem t ++ zeros k) (tens t) (ctx t)) ops W Hd ltac:(intros l Hl; cbn; rewrite app_length, zeros_length; auto)) as S2.
  pose proof (seg_app _ _ _ _ _ _ _ _ _ S1 S2 ltac:(intros ? Hc; inversion Hc)) as S3. cbn [app mem tens ctx] in S3. eapply seg_weaken; [exact S3|intros l [[]|Hl]; exact Hl| |intros ? Hc; inversion Hc].
  intros l Hl. cbn. rewrite app_length, replicate_length. auto.
Qed.

(** ** Loops *)
Section Loop.
Context {A : Type} (k : A -> nat) (u : A -> nat -> list (op T)).
Fixpoint ltot (l : list A) : nat := match l with [] => 0 | i :: r => k i + ltot r end.
Fixpoint lops (l : list A) (a : nat) : list (op T) := match l with [] => [] | i :: r => u i a ++ lops r (a + k i) end.
Fixpoint lres {B} (r : A -> nat -> B) (l : list A) (a : nat) : list B := match l with [] => [] | i :: l' => r i a :: lres r l' (a + k i) end.

Lemma mfor_grown t0 (f : A -> TM T unit) (l : list A) :
  (forall i t, i ∈ l -> tens t = tens t0 -> length (mem t0) <= length (mem t) -> f i t = (Ok tt, grown t (k i) (u i (length (mem t))))) ->
  forall t, tens t = tens t0 -> length (mem t0) <= length (mem t) -> mfor l f t = (Ok tt, grown t (ltot l) (lops l (length (mem t)))).
Proof using Type.
  induction l as [|i l IH]; intros Hf t Ht Hl; cbn [mfor ltot lops]; [rewrite grown_0; reflexivity|].
  rewrite (mbnd_ok _ _ _ _ _ (Hf i t ltac:(left) Ht Hl)). rewrite IH.
  - rewrite grown_grown, grown_len. reflexivity.
  - intros j t' Hj. apply Hf. right. exact Hj.
  - exact Ht.
  - rewrite grown_len. lia.
Qed.
Lemma mmap_grown {B} t0 (f : A -> TM T B) (r : A -> nat -> B) (l : list A) :
  (forall i t, i ∈ l -> tens t = tens t0 -> length (mem t0) <= length (mem t) -> f i t = (Ok (r i (length (mem t))), grown t (k i) (u i (length (mem t))))) ->
  forall t, tens t = tens t0 -> length (mem t0) <= length (mem t) -> mmap l f t = (Ok (lres r l (length (mem t))), grown t (ltot l) (lops l (length (mem t)))).
Proof using Type.
  induction l as [|i l IH]; intros Hf t Ht Hl; cbn [mmap ltot lops lres]; [rewrite grown_0; reflexivity|].
  rewrite (mbnd_ok _ _ _ _ _ (Hf i t ltac:(left) Ht Hl)). erewrite mbnd_ok by (apply IH; [intros j t' Hj; apply Hf; right; exact Hj|exact Ht|rewrite grown_len; lia]).
  rewrite grown_grown, grown_len. reflexivity.
Qed.
Lemma lops_dst (l : list A) (P : nat -> Prop) lo : forall a, lo <= a -> (forall i b d, i ∈ l -> lo <= b -> dst_in d (u i b) -> b <= d < b + k i \/ P d) ->
  forall d, dst_in d (lops l a) -> lo <= d < a + ltot l \/ P d.
Proof using Type.
  induction l as [|i l IH]; intros a Ha Hu d; cbn [lops ltot]; [intros (? & Hc & _); inversion Hc|]. intros (o & Ho & Hd). apply elem_of_app in Ho as [Ho|Ho].
  - destruct (Hu i a d ltac:(left) Ha) as [?|?]; [exists o; auto|left; lia|auto].
  - destruct (IH (a + k i) ltac:(lia) ltac:(intros j b e Hj; apply Hu; right; exact Hj) d) as [?|?]; [exists o; auto|left; lia|auto].
Qed.
(** What executing a loop achieves. [O] are the old cells it writes, [lo] the
    first new one. *)
Lemma lops_sem (lo : nat) (O : nat -> Prop) (Q : list A -> list T -> Prop) (l : list A) (m : list T) :
  (forall i b d, i ∈ l -> lo <= b -> dst_in d (u i b) -> b <= d < b + k i \/ O d) -> 
  Q [] m ->
  (forall pre i post a m1, l = pre ++ i :: post -> lo <= a -> a + k i <= length m -> length m1 = length m -> (forall x, x < lo -> ~ O x -> m1 !! x = m !! x) -> Q pre m1 ->
     exists m2, exec (u i a) m1 = Some m2 /\ Q (pre ++ [i]) m2) ->
  forall a, lo <= a -> a + ltot l <= length m -> exists m', exec (lops l a) m = Some m' /\ Q l m' /\ forall x, x < lo -> ~ O x -> m' !! x = m !! x.
Proof using Type.
  intros Hd Q0 Hs.
  assert (G : forall post pre a m1, l = pre ++ post -> lo <= a -> a + ltot post <= length m -> length m1 = length m -> (forall x, x < lo -> ~ O x -> m1 !! x = m !! x) -> Q pre m1 ->
    exists m', exec (lops post a) m1 = Some m' /\ Q l m' /\ forall x, x < lo -> ~ O x -> m' !! x = m !! x).
  { induction post as [|i post IH]; intros pre a m1 E Ha Hb Hm Hx HQ; cbn [lops ltot] in *.
    - rewrite app_nil_r in E. subst pre. exists m1. auto.
    - destruct (Hs pre i post a m1 E Ha ltac:(lia) Hm Hx HQ) as (m2 & E2 & Q2). pose proof (exec_length _ _ _ E2) as L2.
      destruct (IH (pre ++ [i]) (a + k i) m2) as (m3 & E3 & Q3 & X3); [rewrite <- app_assoc; exact E|lia|lia|lia| |exact Q2|].
      + intros x Hlt Ho. rewrite <- (Hx x Hlt Ho). eapply exec_frame; [exact E2|]. intros Hc. destruct (Hd i a x ltac:(rewrite E; apply elem_of_app; right; left) Ha Hc); [lia|contradiction].
      + exists m3. split; [|auto]. rewrite exec_app, E2. exact E3. }
  intros a Ha Hb. apply (G l []); auto.
Qed.
End Loop.

(** ** Lists of terms, one new scalar each *)
Section Terms.
Context {A : Type}.
Definition one (i : A) : nat := 1.
Lemma ltot_one (l : list A) : ltot one l = length l.
Proof using Type. induction l as [|i l IH]; [reflexivity|]. cbn [ltot length]. rewrite IH. reflexivity. Qed.
Lemma lres_one (l : list A) : forall a, lres one (fun _ b => Some b) l a = map Some (seq a (length l)).
Proof using Type. induction l as [|i l IH]; intros a; [reflexivity|]. cbn [lres length seq map]. rewrite IH. unfold one. rewrite Nat.add_1_r. reflexivity. Qed.
Lemma terms_sem (op_ : A -> nat -> op T) (val : A -> T) lo (l : list A) : forall (m : list T) a,
  lo <= a -> a + length l <= length m ->
  (forall i d, i ∈ l -> op_dst (op_ i d) = Some (Some d)) ->
  (forall i d m1, i ∈ l -> length m1 = length m -> (forall x, x < lo -> m1 !! x = m !! x) -> op_value (op_ i d) m1 = Some (val i)) ->
  exists m', exec (lops one (fun i d => [op_ i d]) l a) m = Some m' /\ rds m' (map Some (seq a (length l))) = Some (map val l) /\
    forall x, ~ (a <= x < a + length l) -> m' !! x = m !! x.
Proof using Type.
  induction l as [|i l IH]; intros m a Ha Hb Hd Hv; cbn [lops length seq map]; [exists m; auto|].
  cbn [length] in Hb. change (a + one i) with (a + 1).
  rewrite exec_app, (exec_single _ a); [|apply Hd; left|lia]. rewrite (Hv i a m ltac:(left) eq_refl ltac:(auto)). cbn [mbind option_bind].
  destruct (IH (<[a := val i]> m) (a + 1)) as (m' & E & R & X).
  - lia.
  - rewrite insert_length. lia.
  - intros j d Hj. apply Hd. right. exact Hj.
  - intros j d m1 Hj Hl Hx. rewrite insert_length in Hl. apply Hv; [right; exact Hj|exact Hl|]. intros x Hlt. rewrite Hx by exact Hlt. apply list_lookup_insert_ne. lia.
  - exists m'. split; [exact E|]. split.
    + rewrite Nat.add_1_r in R. unfold rds in *. cbn [mapM]. cbn [rd]. rewrite X by lia. rewrite list_lookup_insert by lia. cbn [mbind option_bind]. rewrite R. reflexivity.
    + intros x Hx. rewrite X by lia. apply list_lookup_insert_ne. lia.
Qed.
Lemma terms_dst (op_ : A -> nat -> op T) (l : list A) a d :
  (forall i d, i ∈ l -> op_dst (op_ i d) = Some (Some d)) -> dst_in d (lops one (fun i d => [op_ i d]) l a) -> a <= d < a + length l.
Proof using Type.
  intros Hd Hc. destruct (lops_dst one (fun i d => [op_ i d]) l (fun _ => False) a a (le_n _)) with (d := d) as [Hx|[]]; [|exact Hc|rewrite ltot_one in Hx; exact Hx].
  intros i b e Hi _ (o & Ho & He). apply elem_of_list_singleton in Ho as ->. rewrite Hd in He by exact Hi. left. injection He as ->. unfold one. lia.
Qed.
End Terms.
(** Nested loops that gather pointers. *)
Lemma mmap_flat {S A B C} (l : list A) (h : A -> list B) (g : A -> B -> M S C) (s : S) :
  (x <~ mmap l (fun a => mmap (h a) (g a)) ; mret (concat x)) s = mmap (flat_map (fun a => map (fun b => (a, b)) (h a)) l) (fun p => g (fst p) (snd p)) s.
Proof using Type.
  assert (Happ : forall D (x y : list D) (f : D -> M S C) (s : S), mmap (x ++ y) f s = (a <~ mmap x f ; b <~ mmap y f ; mret (a ++ b)) s).
  { intros D x y f. induction x as [|e x IH]; intros s1; cbn [mmap app].
    - unfold mbnd, mret. destruct (mmap y f s1) as [[]?]; reflexivity.
    - unfold mbnd. destruct (f e s1) as [[r| | |] s2]; try reflexivity. rewrite IH. unfold mbnd, mret. destruct (mmap x f s2) as [[] s3]; try reflexivity. destruct (mmap y f s3) as [[] ?]; reflexivity. }
  assert (Hmap : forall D (x : list B) (e : D) (f : D -> B -> M S C) (s : S), mmap (map (fun b => (e, b)) x) (fun p => f (fst p) (snd p)) s = mmap x (f e) s).
  { intros D x e f. induction x as [|b x IH]; intros s1; [reflexivity|]. cbn [mmap map fst snd]. unfold mbnd. destruct (f e b s1) as [[] s2]; try reflexivity. rewrite IH. reflexivity. }
  revert s. induction l as [|a l IH]; intros s; [reflexivity|]. cbn [mmap flat_map]. rewrite Happ.
  pose proof (Hmap A (h a) a g s) as E1. unfold mbnd, mret in *. rewrite E1. clear E1. destruct (mmap (h a) (g a) s) as [[r| | |] s1]; try reflexivity.
  rewrite <- IH. destruct (mmap l (fun a0 => mmap (h a0) (g a0)) s1) as [[] ?]; reflexivity.
Qed.
Lemma mbnd_concat {S A B} (m : M S (list (list A))) (f : list A -> M S B) (s : S) :
  (x <~ m ; f (concat x)) s = (y <~ (x <~ m ; mret (concat x)) ; f y) s.
Proof using Type. unfold mbnd, mret. destruct (m s) as [[] ?]; reflexivity. Qed.

Notation inr := (Forall2 (fun i d => (i < d)%N)).
(** ** Bodies that add something to one cell *)
Lemma acc_sem {A} (k : A -> nat) (u : A -> nat -> list (op T)) n lo (mp : tmat) (dest : A -> list N) (val : A -> T) (l : list A) (m : list T) :
  wf_mat n mp -> n <= lo -> lo <= length m -> NoDup (operands mp) ->
  (forall i b d, i ∈ l -> lo <= b -> dst_in d (u i b) -> b <= d < b + k i \/ d = celladdr mp (dest i)) ->
  (forall i, i ∈ l -> inr (dest i) (shape mp)) ->
  (forall i a m1 b, i ∈ l -> lo <= a -> a + k i <= length m -> length m1 = length m -> (forall x, x < lo -> Some x ∉ operands mp -> m1 !! x = m !! x) ->
     m1 !! celladdr mp (dest i) = Some b -> exists m2, exec (u i a) m1 = Some m2 /\ m2 !! celladdr mp (dest i) = Some (nadd b (val i))) ->
  forall a, lo <= a -> a + ltot k l <= length m ->
    exists m', exec (lops k u l a) m = Some m' /\ forall idx, inr idx (shape mp) ->
      exists b, m !! celladdr mp idx = Some b /\ m' !! celladdr mp idx = Some (fold_left nadd (map val (List.filter (fun i => bool_decide (dest i = idx)) l)) b).
Proof using Type.
  intros Hwf Hn Hlo Hnd Hd Hin Hs a Ha Hb.
  destruct (lops_sem k u lo (fun x => Some x ∈ operands mp)
    (fun pre m1 => forall idx, inr idx (shape mp) -> exists b, m !! celladdr mp idx = Some b /\ m1 !! celladdr mp idx = Some (fold_left nadd (map val (List.filter (fun i => bool_decide (dest i = idx)) pre)) b)) l m) with (a := a) as (m' & E & Q & _).
  - intros i b d Hi Hlb Hdd. destruct (Hd i b d Hi Hlb Hdd) as [?| ->]; [auto|]. right. apply (celladdr_at _ _ _ Hwf (Hin i Hi)).
  - intros idx Hidx. destruct (celladdr_at _ _ _ Hwf Hidx) as (_ & Hlt & _). destruct (lookup_lt_is_Some_2 m (celladdr mp idx) ltac:(lia)) as [b Hbv]. exists b. auto.
  - intros pre i post a1 m1 El Ha1 Hb1 Hl1 Hx HQ. assert (Hi : i ∈ l) by (rewrite El; apply elem_of_app; right; left).
    destruct (HQ (dest i) (Hin i Hi)) as (b & Hb0 & Hb1'). destruct (Hs i a1 m1 _ Hi Ha1 Hb1 Hl1 Hx Hb1') as (m2 & E2 & V2). exists m2. split; [exact E2|].
    intros idx Hidx. rewrite filter_snoc. destruct (decide (dest i = idx)) as [Heq|Hne].
    + subst idx. rewrite bool_decide_eq_true_2 by reflexivity. exists b. split; [exact Hb0|]. rewrite map_app, fold_left_app. exact V2.
    + rewrite bool_decide_eq_false_2 by exact Hne. rewrite app_nil_r. destruct (HQ idx Hidx) as (b' & Hb' & Hv'). exists b'. split; [exact Hb'|]. rewrite <- Hv'.
      eapply exec_frame; [exact E2|]. intros Hc. destruct (celladdr_at _ _ _ Hwf Hidx) as (_ & Hlt & _). destruct (Hd i a1 _ Hi Ha1 Hc) as [?|Ec]; [lia|].
      apply Hne. symmetry. eapply celladdr_inj; [exact Hwf|exact Hnd|exact Hidx|apply Hin; exact Hi|exact Ec].
  - exact Ha.
  - exact Hb.
  - exists m'. auto.
Qed.
(** ** Bodies that write cells of their own: [R i x v] says that the body [i]
    leaves [v] in [x], [W i] the old cells it writes, [K i] those of the written
    cells whose old values it needs. *)
Lemma put_sem {A} (k : A -> nat) (u : A -> nat -> list (op T)) lo (R : A -> nat -> T -> Prop) (W K : A -> nat -> Prop) (l : list A) (m : list T) :
  NoDup l ->
  (forall i b d, i ∈ l -> lo <= b -> dst_in d (u i b) -> b <= d < b + k i \/ W i d) ->
  (forall i x v, i ∈ l -> R i x v -> x < lo) ->
  (forall i j x v, i ∈ l -> j ∈ l -> i <> j -> R i x v -> ~ W j x) ->
  (forall i x, i ∈ l -> K i x -> x < lo) ->
  (forall i j x, i ∈ l -> j ∈ l -> i <> j -> K i x -> ~ W j x) ->
  (forall i a m1, i ∈ l -> lo <= a -> a + k i <= length m -> length m1 = length m -> (forall x, x < lo -> (forall j, j ∈ l -> ~ W j x) -> m1 !! x = m !! x) -> (forall x, K i x -> m1 !! x = m !! x) ->
     exists m2, exec (u i a) m1 = Some m2 /\ forall x v, R i x v -> m2 !! x = Some v) ->
  forall a, lo <= a -> a + ltot k l <= length m ->
    exists m', exec (lops k u l a) m = Some m' /\ forall i x v, i ∈ l -> R i x v -> m' !! x = Some v.
Proof using Type.
  intros Hnd Hd HRl HRW HKl HKW Hs a Ha Hb.
  destruct (lops_sem k u lo (fun x => exists j, j ∈ l /\ W j x)
    (fun pre m1 => (forall i x v, i ∈ pre -> R i x v -> m1 !! x = Some v) /\ (forall i x, i ∈ l -> i ∉ pre -> K i x -> m1 !! x = m !! x)) l m) with (a := a) as (m' & E & [Q _] & _).
  - intros i b d Hi Hlb Hdd. destruct (Hd i b d Hi Hlb Hdd) as [?|?]; [auto|]. right. exists i. auto.
  - split; [intros i x v Hc; inversion Hc|auto].
  - intros pre i post a1 m1 El Ha1 Hb1 Hl1 Hx [HQ HK]. assert (Hi : i ∈ l) by (rewrite El; apply elem_of_app; right; left).
    assert (Hpre : i ∉ pre). { rewrite El in Hnd. apply NoDup_app in Hnd as (_ & Hnd & _). intros Hc. apply (Hnd i Hc). left. }
    destruct (Hs i a1 m1 Hi Ha1 Hb1 Hl1) as (m2 & E2 & V2).
    { intros x Hlt Hj. apply Hx; [exact Hlt|]. intros (j & Hj1 & Hj2). exact (Hj j Hj1 Hj2). }
    { intros x. apply HK; assumption. }
    exists m2. split; [exact E2|]. split.
    + intros j x v Hj HR. apply elem_of_app in Hj as [Hj|Hj]; [|apply elem_of_list_singleton in Hj as ->; apply V2; exact HR].
      rewrite <- (HQ j x v Hj HR). eapply exec_frame; [exact E2|]. intros Hc. assert (Hjl : j ∈ l) by (rewrite El; apply elem_of_app; auto).
      pose proof (HRl j x v Hjl HR). destruct (Hd i a1 x Hi Ha1 Hc) as [?|Hw]; [lia|]. apply (HRW j i x v Hjl Hi); [intros ->; contradiction|exact HR|exact Hw].
    + intros j x Hj Hjp HKx. assert (Hjp1 : j ∉ pre /\ j <> i) by (split; intros Hc; apply Hjp; apply elem_of_app; [auto|right; rewrite Hc; left]). destruct Hjp1 as [Hjp1 Hji].
      rewrite <- (HK j x Hj Hjp1 HKx). eapply exec_frame; [exact E2|]. intros Hc.
      pose proof (HKl j x Hj HKx). destruct (Hd i a1 x Hi Ha1 Hc) as [?|Hw]; [lia|]. exact (HKW j i x Hj Hi Hji HKx Hw).
  - exact Ha.
  - exact Hb.
  - exists m'. split; [exact E|]. exact Q.
Qed.
(** One operation. *)
Lemma exec_step (o : op T) (d : nat) (r : list (op T)) m v : op_dst o = Some (Some d) -> d < length m -> op_value o m = Some v -> exec (o :: r) m = exec r (<[d := v]> m).
Proof using Type. intros Hd Hl Hv. change (o :: r) with ([o] ++ r). rewrite exec_app, (exec_single _ d), Hv by assumption. reflexivity. Qed.
Lemma dst_nil (d : nat) : ~ dst_in d ([] : list (op T)).
Proof using Type. intros (? & Hc & _). inversion Hc. Qed.
Lemma dst_cons (d : nat) (o : op T) r : dst_in d (o :: r) <-> op_dst o = Some (Some d) \/ dst_in d r.
Proof using Type.
  split.
  - intros (o' & Ho & Hd). apply elem_of_cons in Ho as [->|Ho]; [auto|]. right. exists o'. auto.
  - intros [Hd|(o' & Ho & Hd)]; [exists o; split; [left|exact Hd]|exists o'; split; [right; exact Ho|exact Hd]].
Qed.
End BwdLoop.
