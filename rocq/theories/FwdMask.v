(** * FwdMask: building inside a larger program

    Building an object behaves the same whatever is already in the context, and
    an object that is already built may as well be a plain tensor.  So what is
    known about compiling expressions over plain tensors (CompileProofs) holds
    for expressions over anything that is already built. *)
From Verif Require Import Base Num ModelTools ModelOps ModelTensor ModelGraph Spec Denote
  ExecProofs TensorFacts BuildFrame.
From Coq Require Import Lia.

Section Mask.
Context {T : Type} `{Num T}.
Implicit Types (s : tst T).

(** A built object seen as a plain tensor. *)
Definition mask (n : node T) : node T := if builded (nmat n) then MkNode KMat (nmat n) else n.

Section Sim.
Variable c0 : list (op T).

Definition nsim (n n0 : node T) : Prop :=
  nmat n0 = nmat n /\ (n0 = n \/ builded (nmat n) = true).
Record ssim (s s0 : tst T) : Prop := {
  ss_mem : mem s0 = mem s;
  ss_ctx : ctx s = c0 ++ ctx s0;
  ss_len : length (tens s0) = length (tens s);
  ss_tens : forall j n, tens s !! j = Some n -> exists n0, tens s0 !! j = Some n0 /\ nsim n n0;
}.
Definition sims {A} (c : TM T A) : Prop :=
  forall s s0, ssim s s0 -> fst (c s0) = fst (c s) /\ ssim (snd (c s)) (snd (c s0)).

Lemma sims_id {A} (r : res A) : sims (fun s => (r, s)).
Proof. intros s s0 R. split; [reflexivity|exact R]. Qed.
Lemma sims_bnd {A B} (c : TM T A) (k : A -> TM T B) : sims c -> (forall a, sims (k a)) -> sims (mbnd c k).
Proof.
  intros Hc Hk s s0 R. destruct (Hc s s0 R) as [E R1]. unfold mbnd.
  destruct (c s) as [r s1], (c s0) as [r0 s01]. cbn in E, R1. subst r0.
  destruct r; [apply Hk; exact R1|split; [reflexivity|exact R1]..].
Qed.
Lemma sims_mfor {A} (l : list A) f : (forall x, sims (f x)) -> sims (mfor l f).
Proof. intros Hf. induction l as [|x l IH]; cbn; [apply sims_id|apply sims_bnd; [apply Hf|intros; exact IH]]. Qed.
Lemma sims_mmap {A B} (l : list A) (f : A -> TM T B) : (forall x, sims (f x)) -> sims (mmap l f).
Proof.
  intros Hf. induction l as [|x l IH]; cbn; [apply sims_id|].
  apply sims_bnd; [apply Hf|intros]. apply sims_bnd; [exact IH|intros; apply sims_id].
Qed.
Lemma sims_eM e : sims (eM e). Proof. destruct e; apply sims_id. Qed.
Lemma sims_oM {A} (o : option A) : sims (oM o). Proof. destruct o; apply sims_id. Qed.
Lemma sims_updM {A} (l : list A) i x : sims (updM l i x).
Proof. unfold updM. case_decide; apply sims_id. Qed.

Lemma ssim_get s s0 j : ssim s s0 -> (tens s !! j = None /\ tens s0 !! j = None) \/
  exists n n0, tens s !! j = Some n /\ tens s0 !! j = Some n0 /\ nsim n n0.
Proof.
  intros R. destruct (tens s !! j) as [n|] eqn:E.
  - right. destruct (ss_tens _ _ R _ _ E) as (n0 & E0 & Hn). eauto.
  - left. split; [reflexivity|]. apply lookup_ge_None in E. apply lookup_ge_None. rewrite (ss_len _ _ R). exact E.
Qed.
Lemma sims_get_mat j : sims (get_mat j).
Proof.
  intros s s0 R. unfold get_mat, get_node, mbnd.
  destruct (ssim_get s s0 j R) as [[E E0]|(n & n0 & E & E0 & Hm & _)]; rewrite E, E0.
  - split; [reflexivity|exact R].
  - cbn. rewrite Hm. split; [reflexivity|exact R].
Qed.
Lemma sims_upd_mat j f : (forall m, builded m = true -> builded (f m) = true) -> sims (upd_mat j f).
Proof.
  intros Hf s s0 R. unfold upd_mat.
  destruct (ssim_get s s0 j R) as [[E E0]|(n & n0 & E & E0 & Hm & Hn)]; rewrite E, E0.
  - split; [reflexivity|exact R].
  - split; [reflexivity|]. cbn [snd]. destruct R as [Rm Rc Rl Rt]. split; cbn [mem tens ctx].
    + exact Rm.
    + exact Rc.
    + rewrite !insert_length. exact Rl.
    + intros i x Hi. destruct (decide (i = j)) as [->|Hne].
      * pose proof (lookup_lt_Some _ _ _ E) as Hl. rewrite list_lookup_insert in Hi by exact Hl. injection Hi as <-.
        eexists. rewrite list_lookup_insert by (rewrite Rl; exact Hl). split; [reflexivity|].
        split; cbn [nmat]; [rewrite Hm; reflexivity|]. destruct Hn as [->|Hb]; [left; reflexivity|right; auto].
      * rewrite list_lookup_insert_ne in Hi by congruence. rewrite list_lookup_insert_ne by congruence. apply Rt. exact Hi.
Qed.
Lemma sims_alloc v : sims (alloc v).
Proof.
  intros s s0 [Rm Rc Rl Rt]. unfold alloc. cbn. rewrite Rm. split; [reflexivity|]. split; cbn; auto. 
Qed.
Lemma sims_push o : sims (push o).
Proof.
  intros s s0 [Rm Rc Rl Rt]. unfold push. cbn. split; [reflexivity|]. split; cbn; auto. rewrite Rc, app_assoc. reflexivity.
Qed.
Lemma sims_set_built j : sims (set_built j).
Proof. apply sims_upd_mat. reflexivity. Qed.
Lemma sims_set_shape j sh mul : sims (set_shape j sh mul).
Proof. apply sims_upd_mat. auto. Qed.
Lemma sims_set_operands j ops : sims (set_operands j ops).
Proof. apply sims_upd_mat. auto. Qed.
Lemma sims_set_operand j i o : sims (set_operand j i o).
Proof.
  unfold set_operand. apply sims_bnd; [apply sims_get_mat|intros]. apply sims_bnd; [apply sims_updM|intros].
  apply sims_set_operands.
Qed.

Ltac sims_step :=
  first
  [ assumption
  | apply sims_get_mat | apply sims_alloc | apply sims_push | apply sims_set_shape | apply sims_set_operands
  | apply sims_set_operand | apply sims_eM | apply sims_oM | apply sims_updM
  | apply sims_mfor; intros
  | apply sims_mmap; intros
  | apply sims_bnd; [|intros]
  | match goal with |- sims (if ?b then _ else _) => destruct b end
  | match goal with |- sims (match ?x with _ => _ end) => destruct x end
  | apply sims_id
  ].
Lemma sims_emit id n f : (forall i o, sims (f i o)) -> sims (emit_each id n f).
Proof. intros Hf. unfold emit_each. repeat (first [apply Hf|sims_step]). Qed.
Lemma sims_dot_products ma mb da db : forall is ia ib, sims (dot_products ma mb da db ia ib is : TM T _).
Proof. induction is as [|i is IH]; intros ia ib; cbn [dot_products]; repeat (first [apply IH|sims_step]). Qed.
Lemma sims_own id k : sims (own_part id k).
Proof.
  destruct k; cbn [own_part];
    unfold build_map, build_op2, build_opscalar, build_concat, build_copy, build_fill, build_dimmath,
      build_dot, build_vector, build_last_dim, build_reshape, build_softmax, build_sub, build_tensormath, build_transpose, make_operands;
    repeat (first [apply sims_dot_products|apply sims_emit; intros|sims_step]).
Qed.

Lemma get_node_bnd {B} s id n (k : node T -> TM T B) : tens s !! id = Some n -> (mbnd (get_node id) k) s = k n s.
Proof. intros E. unfold mbnd, get_node. rewrite E. reflexivity. Qed.
Lemma get_node_none {B} s id (k : node T -> TM T B) : tens s !! id = None -> (mbnd (get_node id) k) s = (Panic, s).
Proof. intros E. unfold mbnd, get_node. rewrite E. reflexivity. Qed.
Lemma sims_BuildGraph fuel : forall id, sims (BuildGraph fuel id).
Proof.
  induction fuel as [|fuel IH]; intros id; [apply sims_id|].
  intros s s0 R. cbn [BuildGraph].
  destruct (ssim_get s s0 id R) as [[E E0]|(n & n0 & E & E0 & Hm & Hn)].
  - rewrite !(get_node_none _ _ _ E), !(get_node_none _ _ _ E0). split; [reflexivity|exact R].
  - rewrite !(get_node_bnd _ _ _ _ E), !(get_node_bnd _ _ _ _ E0). rewrite Hm. destruct (builded (nmat n)) eqn:Hb; [split; [reflexivity|exact R]|].
    destruct Hn as [->|Hn]; [|congruence].
    match goal with |- fst (?a s0) = _ /\ _ => cut (sims a); [intros Hs; exact (Hs s s0 R)|] end.
    apply sims_bnd; [apply sims_set_built|intros _].
    destruct (nkind n) eqn:Hk;
      repeat (first [apply IH
        | match goal with |- sims ?c => pose proof (sims_own id (nkind n)) as Ho; rewrite Hk in Ho; exact Ho end
        | apply sims_bnd; [|intros _]
        | apply sims_mfor; intros; apply sims_push ]).
Qed.
End Sim.

(** The state seen from an expression that is about to be built. *)
Definition masked s : tst T := MkSt (mem s) (map mask (tens s)) [].
Lemma masked_sim s : ssim (ctx s) s (masked s).
Proof.
  split; cbn; auto.
  - rewrite app_nil_r. reflexivity.
  - rewrite map_length. reflexivity.
  - intros j n Hn. exists (mask n). rewrite list_lookup_fmap, Hn. split; [reflexivity|].
    unfold nsim, mask. destruct (builded (nmat n)) eqn:E; cbn; auto.
Qed.
Lemma Build_masked s id : exists s' s0', 
  ssim (ctx s) s' s0' /\ Build id s = (fst (Build id (masked s)), s') /\ snd (Build id (masked s)) = s0'.
Proof.
  destruct (sims_BuildGraph (ctx s) (S id) id s (masked s) (masked_sim s)) as [E R].
  exists (snd (Build id s)), (snd (Build id (masked s))). split; [exact R|]. split; [|reflexivity].
  unfold Build. rewrite E. destruct (BuildGraph (S id) id s); reflexivity.
Qed.
End Mask.
