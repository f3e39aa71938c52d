(** * TensorFacts: well-formed tensors, and the loops of the builders *)
From Verif Require Import Base Num ModelTools ModelOps ModelTensor ModelGraph Spec Denote IndexProofs ExecProofs.
From Coq Require Import Lia ZifyBool ZifyNat ZifyN.

Section Facts.
Context {T : Type} `{Num T}.

Lemma valid_mono n n' p : valid n p -> n <= n' -> valid n' p.
Proof. intros (l & -> & Hl) Hle. exists l. split; [reflexivity|lia]. Qed.
Lemma wf_mat_mono n n' m : wf_mat n m -> n <= n' -> wf_mat n' m.
Proof.
  intros (H1 & H2 & H3 & H4) Hle. repeat split; try assumption; try apply H1.
  eapply Forall_impl; [exact H4|]. intros p Hp. eapply valid_mono; eassumption.
Qed.

Lemma at_lookup {A} sh (d : list A) k idx :
  indices sh !! k = Some idx -> at_ sh d idx = d !! k.
Proof. intros Hk. apply indices_lookup in Hk. unfold at_. rewrite Hk, Nat2N.id. reflexivity. Qed.

Lemma at_total {A} sh (d : list A) idx :
  length d = N.to_nat (prodN sh) -> Forall2 (fun i s => (i < s)%N) idx sh ->
  exists x, at_ sh d idx = Some x.
Proof.
  intros Hl Hr. apply flat_in_range in Hr as [k Hk]. unfold at_. rewrite Hk.
  apply flat_lt in Hk. apply lookup_lt_is_Some_2. lia.
Qed.

Lemma GetOperand_at n m idx p :
  wf_mat n m -> at_ (shape m) (operands m) idx = Some p -> GetOperand m idx = Ok p.
Proof.
  intros (Hf & Hm & Hl & _) Ha. unfold at_ in Ha.
  destruct (flat (shape m) idx) as [k|] eqn:Hk; [|discriminate].
  unfold GetOperand. rewrite Hm, (GetIndex_flat _ _ _ Hf Hk). cbn [res_bind].
  pose proof (flat_lt _ _ _ Hk). unfold ulen.
  destruct (N.of_nat (length (operands m)) <=? k)%N eqn:E; [lia|].
  unfold at_or_panic. rewrite Ha. reflexivity.
Qed.

Lemma GetOperand_err n m idx :
  wf_mat n m -> length idx = length (shape m) ->
  ~ Forall2 (fun i s => (i < s)%N) idx (shape m) ->
  exists i a s, GetOperand m idx = Err (EIndexRange i a s).
Proof.
  intros (Hf & Hm & Hl & _) Hlen Hr. unfold GetOperand. rewrite Hm.
  destruct (flat (shape m) idx) as [k|] eqn:Hk.
  - exfalso. apply Hr, flat_in_range. eauto.
  - destruct (GetIndex_out _ _ Hlen Hk) as (i & a & s & ->). cbn. eauto.
Qed.

(** Data read through pointers agrees with pointer lookup followed by a read. *)
Lemma at_rds (m : list T) ps vs sh idx :
  rds m ps = Some vs -> at_ sh vs idx = (p ← at_ sh ps idx; rd m p).
Proof.
  intros E. unfold at_. destruct (flat sh idx) as [k|]; [|reflexivity].
  apply (rds_lookup _ _ _ _ E).
Qed.

Lemma mapM_bind {A B C} (f : A -> option B) (g : B -> option C) (l : list A) (l' : list B) :
  mapM f l = Some l' -> mapM g l' = mapM (fun x => f x ≫= g) l.
Proof.
  revert l'. induction l as [|x l IH]; intros l' E; cbn in E.
  - injection E as <-. reflexivity.
  - destruct (f x) as [y|] eqn:Ey; cbn in E; [|discriminate].
    destruct (mapM f l) as [ys|] eqn:Eys; cbn in E; [|discriminate].
    injection E as <-. cbn. rewrite Ey. cbn. rewrite (IH _ eq_refl). reflexivity.
Qed.

Lemma mapM_total {A B} (f : A -> option B) (l : list A) :
  (forall x, x ∈ l -> exists y, f x = Some y) -> exists l', mapM f l = Some l'.
Proof.
  intros Hf. apply mapM_is_Some_2. apply Forall_forall. intros x Hx. cbn.
  destruct (Hf x Hx) as [y ->]. eauto.
Qed.
Lemma mapM_lookup {A B} (f : A -> option B) l l' i x :
  mapM f l = Some l' -> l !! i = Some x -> f x = l' !! i.
Proof.
  intros E Hx. apply mapM_Some in E.
  destruct (Forall2_lookup_l _ _ _ _ _ E Hx) as (y & Hy & Hf). congruence.
Qed.

Lemma Forall_mapM {A B} (f : A -> option B) (P : B -> Prop) l l' :
  mapM f l = Some l' -> (forall x y, x ∈ l -> f x = Some y -> P y) -> Forall P l'.
Proof.
  intros E Hp. apply Forall_lookup. intros i y Hy. apply mapM_Some in E.
  destruct (Forall2_lookup_r _ _ _ _ _ E Hy) as (x & Hx & Hf).
  eapply Hp; [|exact Hf]. eapply elem_of_list_lookup_2; eassumption.
Qed.

Lemma at_valid n sh ps idx p : Forall (valid n) ps -> at_ sh ps idx = Some p -> valid n p.
Proof.
  intros Hf Ha. unfold at_ in Ha. destruct (flat sh idx); [|discriminate].
  rewrite Forall_lookup in Hf. eauto.
Qed.

(** ** Monad *)
Lemma mbnd_ok {S A B} (m : M S A) (k : A -> M S B) s a s' :
  m s = (Ok a, s') -> mbnd m k s = k a s'.
Proof. intros E. unfold mbnd. rewrite E. reflexivity. Qed.
Lemma mbnd_err {S A B} (m : M S A) (k : A -> M S B) s e s' :
  m s = (Err e, s') -> mbnd m k s = (Err e, s').
Proof. intros E. unfold mbnd. rewrite E. reflexivity. Qed.
Lemma mbnd_panic {S A B} (m : M S A) (k : A -> M S B) s s' :
  m s = (Panic, s') -> mbnd m k s = (Panic, s').
Proof. intros E. unfold mbnd. rewrite E. reflexivity. Qed.

Lemma mfor_app {S A} (l1 l2 : list A) (f : A -> M S unit) s s' :
  mfor l1 f s = (Ok tt, s') -> mfor (l1 ++ l2) f s = mfor l2 f s'.
Proof.
  revert s. induction l1 as [|x l1 IH]; intros s E; cbn in *.
  - injection E as ->. reflexivity.
  - unfold mbnd in *. destruct (f x s) as [[[]| | |] s1]; try discriminate. apply IH. exact E.
Qed.

(** ** States in which node [id] is being filled in *)
Definition st_with (mm : list T) (tn : list (node T)) (c : list (op T)) (id : nat) (k : kind T) (m : tmat) : tst T :=
  MkSt mm (<[id := MkNode k m]> tn) c.

Lemma st_with_insert mm tn c id k m m' :
  MkSt mm (<[id := MkNode k m']> (<[id := MkNode k m]> tn)) c = st_with mm tn c id k m'.
Proof. unfold st_with. rewrite list_insert_insert. reflexivity. Qed.

Lemma upd_mat_with mm tn c id k m f :
  id < length tn -> upd_mat id f (st_with mm tn c id k m) = (Ok tt, st_with mm tn c id k (f m)).
Proof.
  intros Hi. unfold upd_mat, st_with. cbn [tens mem ctx].
  rewrite list_lookup_insert by assumption. cbn. rewrite list_insert_insert. reflexivity.
Qed.
Lemma get_node_with mm tn c id k m :
  id < length tn -> get_node id (st_with mm tn c id k m) = (Ok (MkNode k m), st_with mm tn c id k m).
Proof. intros Hi. unfold get_node, st_with. cbn. rewrite list_lookup_insert by assumption. reflexivity. Qed.
Lemma get_mat_with mm tn c id k m :
  id < length tn -> get_mat id (st_with mm tn c id k m) = (Ok m, st_with mm tn c id k m).
Proof. intros Hi. unfold get_mat. erewrite mbnd_ok by (apply get_node_with; assumption). reflexivity. Qed.
Lemma get_mat_other mm tn c id k m t n :
  t <> id -> tn !! t = Some n ->
  get_mat t (st_with mm tn c id k m) = (Ok (nmat n), st_with mm tn c id k m).
Proof.
  intros Hne Ht. unfold get_mat, get_node, mbnd, st_with. cbn.
  rewrite list_lookup_insert_ne by congruence. rewrite Ht. reflexivity.
Qed.
Lemma set_operand_with mm tn c id k m i o :
  id < length tn -> i < length (operands m) ->
  set_operand id i o (st_with mm tn c id k m) =
  (Ok tt, st_with mm tn c id k (MkMat (shape m) (mulindex m) (<[i := o]> (operands m)) (builded m))).
Proof.
  intros Hi Ho. unfold set_operand. erewrite mbnd_ok by (apply get_mat_with; assumption).
  unfold updM. rewrite decide_True by assumption. unfold mbnd at 1, mret.
  unfold set_operands. apply upd_mat_with. assumption.
Qed.

(** The view loops: every iteration stores a pointer that exists already. *)
Lemma mfor_views (f : nat -> TM T unit) (ps : list ptr) mm tn c id k sh mul b : 
  id < length tn ->
  (forall i p s, ps !! i = Some p -> f i s = set_operand id i p s) ->
  forall j ops, length ops = length ps -> j <= length ps -> take j ops = take j ps ->
  mfor (seq j (length ps - j)) f (st_with mm tn c id k (MkMat sh mul ops b)) =
  (Ok tt, st_with mm tn c id k (MkMat sh mul ps b)).
Proof.
  intros Hid Hf j. remember (length ps - j) as n eqn:En. revert j En.
  induction n as [|n IH]; intros j En ops Hl Hj Ht; cbn [seq mfor].
  - unfold mret. assert (j = length ps) as -> by lia.
    rewrite <- Hl in Ht at 1. rewrite firstn_all in Ht. rewrite firstn_all in Ht. subst. reflexivity.
  - assert (is_Some (ps !! j)) as [p Hp] by (apply lookup_lt_is_Some_2; lia).
    erewrite mbnd_ok.
    2:{ rewrite (Hf _ _ _ Hp). apply set_operand_with; cbn; lia. }
    cbn [shape mulindex operands builded].
    apply IH; [lia|rewrite insert_length; assumption|lia|].
    rewrite (take_S_r _ _ p), (take_S_r ps _ p).
    + f_equal. rewrite take_insert by lia. assumption.
    + assumption.
    + apply list_lookup_insert. lia.
Qed.

Lemma mfor_views_range (f : nat -> TM T unit) (ps : list ptr) mm tn c id k sh mul b n :
  id < length tn -> n = length ps ->
  (forall i p s, ps !! i = Some p -> f i s = set_operand id i p s) ->
  mfor (range n) f (st_with mm tn c id k (MkMat sh mul (replicate n None) b)) =
  (Ok tt, st_with mm tn c id k (MkMat sh mul ps b)).
Proof.
  intros Hid -> Hf. unfold range.
  rewrite <- (mfor_views f ps mm tn c id k sh mul b Hid Hf 0 (replicate (length ps) None)).
  - rewrite Nat.sub_0_r. reflexivity.
  - apply replicate_length.
  - lia.
  - reflexivity.
Qed.

(** The same for a segment of the operands. *)
Lemma mfor_segment (f : nat -> TM T unit) mm tn c id k sh mul b ps :
  id < length tn ->
  forall pre mid post, length mid = length ps ->
  (forall i p s, ps !! i = Some p -> f (length pre + i) s = set_operand id (length pre + i) p s) ->
  mfor (seq (length pre) (length ps)) f (st_with mm tn c id k (MkMat sh mul (pre ++ mid ++ post) b)) =
  (Ok tt, st_with mm tn c id k (MkMat sh mul (pre ++ ps ++ post) b)).
Proof.
  intros Hid. induction ps as [|p ps IH]; intros pre mid post Hl Hf; destruct mid as [|x mid]; try discriminate.
  - reflexivity.
  - cbn [length seq mfor]. erewrite mbnd_ok.
    2:{ rewrite <- (Nat.add_0_r (length pre)). rewrite (Hf 0 p _ eq_refl).
        apply set_operand_with; cbn [operands]; [assumption|]. rewrite !app_length. cbn. lia. }
    cbn [shape mulindex operands builded].
    rewrite insert_app_r. cbn [app insert list_insert].
    replace (pre ++ p :: mid ++ post) with ((pre ++ [p]) ++ mid ++ post) by (rewrite <- app_assoc; reflexivity).
    replace (pre ++ p :: ps ++ post) with ((pre ++ [p]) ++ ps ++ post) by (rewrite <- app_assoc; reflexivity).
    replace (S (length pre)) with (length (pre ++ [p])) by (rewrite app_length; cbn; lia).
    apply IH; [cbn in Hl; lia|].
    intros i q s Hq. rewrite app_length. cbn [length].
    replace (length pre + 1 + i) with (length pre + S i) by lia. apply Hf. exact Hq.
Qed.

(** Loops that allocate a scalar per position (padding). *)
Lemma mfor_pads (f : nat -> TM T unit) mm tn c id k sh mul b n :
  id < length tn ->
  forall j ops, length ops = j + n ->
  (forall i s, j <= i < j + n -> f i s = (o <~ alloc nzero ; set_operand id i o) s) ->
  mfor (seq j n) f (st_with mm tn c id k (MkMat sh mul ops b)) =
  (Ok tt, st_with (mm ++ replicate n nzero) tn c id k
            (MkMat sh mul (take j ops ++ map Some (seq (length mm) n)) b)).
Proof.
  intros Hid. revert mm. induction n as [|n IH]; intros mm j ops Hl Hf; cbn [seq mfor].
  - unfold mret. cbn. rewrite !app_nil_r. rewrite take_ge by lia. reflexivity.
  - erewrite mbnd_ok.
    2:{ rewrite Hf by lia. erewrite mbnd_ok by reflexivity.
        change (MkSt _ _ _) with (st_with (mm ++ [nzero]) tn c id k (MkMat sh mul ops b)).
        apply set_operand_with; cbn; [assumption|lia]. }
    cbn [shape mulindex operands builded mem st_with].
    rewrite IH by (try rewrite insert_length; try lia; intros; apply Hf; lia).
    rewrite app_length. cbn [length]. f_equal. f_equal.
    + rewrite <- app_assoc. reflexivity.
    + f_equal. assert (Hx : <[j:=(Some (length mm))]> ops !! j = Some (Some (length mm)))
        by (apply list_lookup_insert; lia).
      cbn [mem st_with]. rewrite (take_S_r _ _ _ Hx).
      rewrite take_insert by lia. rewrite <- app_assoc. cbn. do 3 f_equal.
      rewrite Nat.add_1_r. reflexivity.
Qed.

(** Loops that allocate a scalar and push the operation computing it. *)
Lemma emit_each_ok (f : nat -> ptr -> TM T (op T)) (g : nat -> ptr -> op T) tn id k sh mul b n :
  id < length tn ->
  (forall i o s, i < n -> f i o s = (Ok (g i o), s)) ->
  forall mm c,
  emit_each id n f (st_with mm tn c id k (MkMat sh mul (replicate n None) b)) =
  (Ok tt, st_with (mm ++ replicate n nzero) tn
            (c ++ map (fun i => g i (Some (length mm + i))) (range n)) id k
            (MkMat sh mul (map Some (seq (length mm) n)) b)).
Proof.
  intros Hid Hf.
  assert (Hgen : forall r j mm c ops, j + r = n -> length ops = n ->
    mfor (seq j r) (fun i => o <~ alloc nzero ; set_operand id i o ;~ x <~ f i o ; push x)
      (st_with mm tn c id k (MkMat sh mul ops b)) =
    (Ok tt, st_with (mm ++ replicate r nzero) tn
       (c ++ map (fun i => g (j + i) (Some (length mm + i))) (seq 0 r)) id k
       (MkMat sh mul (take j ops ++ map Some (seq (length mm) r)) b))).
  { induction r as [|r IH]; intros j mm c ops Hj Hl; cbn [seq mfor].
    - unfold mret. cbn. rewrite !app_nil_r. rewrite take_ge by lia. reflexivity.
    - erewrite mbnd_ok.
      2:{ erewrite mbnd_ok by reflexivity.
          change (MkSt _ _ _) with (st_with (mm ++ [nzero]) tn c id k (MkMat sh mul ops b)).
          erewrite mbnd_ok by (apply set_operand_with; cbn; [assumption|lia]).
          erewrite mbnd_ok by (apply Hf; lia). reflexivity. }
      cbn [shape mulindex operands builded ctx mem tens st_with].
      change (MkSt (mm ++ [nzero]) _ (c ++ ?x)) with
        (st_with (mm ++ [nzero]) tn (c ++ x) id k
           (MkMat sh mul (<[j := Some (length mm)]> ops) b)).
      rewrite IH by (try rewrite insert_length; lia).
      rewrite app_length. cbn [length]. f_equal. unfold st_with. f_equal.
      + rewrite <- app_assoc. reflexivity.
      + do 2 f_equal. f_equal. assert (Hx : <[j:=(Some (length mm))]> ops !! j = Some (Some (length mm)))
        by (apply list_lookup_insert; lia).
        cbn [mem st_with]. rewrite (take_S_r _ _ _ Hx).
        rewrite take_insert by lia. rewrite <- app_assoc. cbn. do 3 f_equal.
        rewrite Nat.add_1_r. reflexivity.
      + rewrite <- app_assoc. f_equal. cbn [map app]. f_equal.
        * f_equal; [lia|f_equal; lia].
        * rewrite <- seq_shift, map_map. apply map_ext. intros a. f_equal; [lia|f_equal; lia]. }
  intros mm c. unfold emit_each, range.
  rewrite (Hgen n 0 mm c (replicate n None)) by (try apply replicate_length; lia).
  cbn. reflexivity.
Qed.

Lemma mmap_alloc (n : nat) : forall j mm tn c,
  mmap (seq j n) (fun _ => alloc nzero) (MkSt mm tn c) =
  (Ok (map Some (seq (length mm) n)), MkSt (mm ++ replicate n (nzero : T)) tn c).
Proof.
  induction n as [|n IH]; intros j mm tn c; cbn [seq mmap].
  - unfold mret. rewrite app_nil_r. reflexivity.
  - erewrite mbnd_ok by reflexivity. cbn [mem tens ctx].
    erewrite mbnd_ok by apply IH. unfold mret. rewrite app_length. cbn [length].
    rewrite <- app_assoc. cbn. rewrite Nat.add_1_r. reflexivity.
Qed.
End Facts.
