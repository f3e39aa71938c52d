(** * AdjSum: finite sums and slopes of linear maps *)
From Coq Require Import Reals Lra.
From Verif Require Import Base Num NumReal ModelTools Spec IndexProofs TensorFacts BuildProofs BuildProofs3 EagerOps FwdTotal GradSpec GradProofs AdjSpec.
From Coq Require Import Lia.
Open Scope R_scope.
#[local] Existing Instance NumR.
Notation inr := (Forall2 (fun i d => (i < d)%N)).

Definition sm {A} (f : A -> R) (l : list A) : R := total (map f l).
Lemma sm_nil {A} (f : A -> R) : sm f [] = 0.
Proof. reflexivity. Qed.
Lemma sm_cons {A} (f : A -> R) x l : sm f (x :: l) = f x + sm f l.
Proof. reflexivity. Qed.
Lemma sm_app {A} (f : A -> R) l k : sm f (l ++ k) = sm f l + sm f k.
Proof. unfold sm. rewrite map_app. apply total_app. Qed.
Lemma sm_ext {A} (f g : A -> R) l : (forall x, x ∈ l -> f x = g x) -> sm f l = sm g l.
Proof.
  induction l as [|x l IH]; intros E; [reflexivity|]. rewrite !sm_cons, (E x) by left. f_equal. apply IH. intros y Hy. apply E. right. exact Hy.
Qed.
Lemma sm_add {A} (f g : A -> R) l : sm (fun x => f x + g x) l = sm f l + sm g l.
Proof. induction l as [|x l IH]; [unfold sm, total; cbn; lra|]. rewrite !sm_cons, IH. lra. Qed.
Lemma sm_scale {A} c (f : A -> R) l : sm (fun x => c * f x) l = c * sm f l.
Proof. induction l as [|x l IH]; [unfold sm, total; cbn; lra|]. rewrite !sm_cons, IH. lra. Qed.
Lemma sm_scale_r {A} c (f : A -> R) l : sm (fun x => f x * c) l = sm f l * c.
Proof. induction l as [|x l IH]; [unfold sm, total; cbn; lra|]. rewrite !sm_cons, IH. lra. Qed.
Lemma sm_zero {A} (l : list A) : sm (fun _ => 0) l = 0.
Proof. induction l as [|x l IH]; [reflexivity|]. rewrite sm_cons, IH. lra. Qed.
Lemma sm_swap {A B} (f : A -> B -> R) l k : sm (fun x => sm (f x) k) l = sm (fun y => sm (fun x => f x y) l) k.
Proof.
  induction l as [|x l IH]; [symmetry; apply sm_zero|]. rewrite sm_cons, IH. rewrite <- sm_add. reflexivity.
Qed.
Lemma sm_map {A B} (f : B -> R) (g : A -> B) l : sm f (map g l) = sm (fun x => f (g x)) l.
Proof. unfold sm. rewrite map_map. reflexivity. Qed.
Lemma sm_flat {A B} (f : B -> R) (g : A -> list B) l : sm f (flat_map g l) = sm (fun x => sm f (g x)) l.
Proof. induction l as [|x l IH]; [reflexivity|]. cbn [flat_map]. rewrite sm_app, sm_cons, IH. reflexivity. Qed.
Lemma sm_filter {A} (f : A -> R) (p : A -> bool) l : sm f (List.filter p l) = sm (fun x => if p x then f x else 0) l.
Proof. induction l as [|x l IH]; [reflexivity|]. cbn [List.filter]. rewrite sm_cons. destruct (p x); rewrite ?sm_cons, IH; lra. Qed.
Lemma sm_none {A} (f : A -> R) l : (forall x, x ∈ l -> f x = 0) -> sm f l = 0.
Proof. intros E. rewrite (sm_ext f (fun _ => 0) l E). apply sm_zero. Qed.
(** A sum in which only one element counts. *)
Lemma sm_one {A} `{EqDecision A} (f : A -> R) (a : A) l : NoDup l -> a ∈ l -> (forall x, x ∈ l -> x <> a -> f x = 0) -> sm f l = f a.
Proof.
  intros Hn. induction Hn as [|x l Hx Hn IH]; intros Ha Hf; [apply elem_of_nil in Ha as []|].
  rewrite sm_cons. apply elem_of_cons in Ha as [<- | Ha].
  - rewrite sm_none; [lra|]. intros y Hy. apply Hf; [right; exact Hy|]. intros ->. contradiction.
  - rewrite IH; [|exact Ha|intros y Hy; apply Hf; right; exact Hy]. rewrite Hf; [lra|left|]. intros ->. contradiction.
Qed.

(** ** Cells *)
Lemma ent_at v idx r : at_ (vsh v) (vdata v) idx = Some r -> ent v idx = r.
Proof. unfold ent. intros ->. reflexivity. Qed.
Lemma at_ent sh v idx : shaped sh v -> inr idx sh -> at_ (vsh v) (vdata v) idx = Some (ent v idx).
Proof.
  intros [Hs Hl] Hi. unfold ent. destruct (at_total (vsh v) (vdata v) idx) as [x Hx]; [congruence|rewrite Hs; exact Hi|]. rewrite Hx. reflexivity.
Qed.
Lemma vset_shaped sh v idx r : shaped sh v -> shaped sh (vset v idx r).
Proof. intros [Hs Hl]. split; [exact Hs|]. cbn. rewrite map_length, indices_length, Hs. reflexivity. Qed.
Lemma ent_list sh (g : list N -> R) idx : inr idx sh -> ent (V sh (map g (indices sh))) idx = g idx.
Proof.
  intros Hi. apply elem_of_indices, elem_of_list_lookup in Hi as [k Hk]. unfold ent. cbn [vsh vdata]. rewrite (at_lookup _ _ _ _ Hk).
  change (map g (indices sh)) with (g <$> indices sh). rewrite list_lookup_fmap, Hk. reflexivity.
Qed.
Lemma ent_vset sh v idx r q : shaped sh v -> inr q sh -> ent (vset v idx r) q = if decide (q = idx) then r else ent v q.
Proof. intros [Hs Hl] Hq. unfold vset. rewrite Hs. apply (ent_list sh (fun i => if decide (i = idx) then r else ent v i) q Hq). Qed.
Lemma data_ents sh v : shaped sh v -> vdata v = map (ent v) (indices sh).
Proof.
  intros Hv. apply list_eq. intros k. change (map (ent v) (indices sh)) with (ent v <$> indices sh). rewrite list_lookup_fmap.
  destruct (indices sh !! k) as [idx|] eqn:Hk.
  - cbn. destruct Hv as [Hs Hl]. rewrite <- (at_lookup sh (vdata v) k idx Hk). rewrite <- Hs at 1. apply (at_ent sh); [split; assumption|]. apply (indices_Forall2 sh k). exact Hk.
  - cbn. apply lookup_ge_None in Hk. rewrite indices_length in Hk. apply lookup_ge_None. destruct Hv as [_ Hl]. lia.
Qed.
Lemma weighted_sm sh d y : shaped sh d -> shaped sh y -> weighted d y = sm (fun o => ent d o * ent y o) (indices sh).
Proof.
  intros Hd Hy. unfold weighted, sm. rewrite (data_ents sh d Hd), (data_ents sh y Hy). f_equal.
  induction (indices sh) as [|x l IH]; [reflexivity|]. cbn. f_equal. exact IH.
Qed.
Lemma tabulate_fn sh (G : list N -> option R) (g : list N -> R) : (forall idx, inr idx sh -> G idx = Some (g idx)) ->
  exists v, tabulate sh G = Some v /\ shaped sh v /\ forall idx, inr idx sh -> ent v idx = g idx.
Proof.
  intros Hg. destruct (tabulate_shaped sh G) as (v & Hv & Hs); [intros; eauto|]. exists v. split; [exact Hv|]. split; [exact Hs|].
  intros idx Hi. apply ent_at. rewrite (proj2 (tabulate_lookup _ _ _ _ Hv Hi)). apply Hg. exact Hi.
Qed.
Lemma tabulate_ent sh (G : list N -> option R) v idx r : tabulate sh G = Some v -> inr idx sh -> G idx = Some r -> ent v idx = r.
Proof. intros Hv Hi Hg. apply ent_at. rewrite (proj2 (tabulate_lookup _ _ _ _ Hv Hi)). exact Hg. Qed.
Lemma tabulate_rel sh (G : list N -> option R) (P : list N -> R -> Prop) : (forall idx, inr idx sh -> exists r, G idx = Some r /\ P idx r) ->
  exists v, tabulate sh G = Some v /\ shaped sh v /\ forall idx, inr idx sh -> P idx (ent v idx).
Proof.
  intros Hg. destruct (tabulate_shaped sh G) as (v & Hv & Hs); [intros idx Hi; destruct (Hg idx Hi) as (r & E & _); eauto|]. exists v. split; [exact Hv|]. split; [exact Hs|].
  intros idx Hi. destruct (Hg idx Hi) as (r & E & Hp). rewrite (tabulate_ent _ _ _ _ _ Hv Hi E). exact Hp.
Qed.
Lemma mapM_fn {A} (f : A -> option R) (g : A -> R) l : (forall i, i ∈ l -> f i = Some (g i)) -> mapM f l = Some (map g l).
Proof. induction l as [|a l IH]; intros Hf; [reflexivity|]. cbn. rewrite (Hf a) by left. cbn. rewrite IH by (intros; apply Hf; right; assumption). reflexivity. Qed.
Lemma fold1_sm {A} (g : A -> R) l : l <> [] -> fold1 nadd (map g l) = Some (sm g l).
Proof. destruct l as [|x l]; [congruence|]. intros _. cbn. rewrite (fold_total (map g l) (g x)). reflexivity. Qed.
Lemma fold_sm {A} (g : A -> R) l (a : R) : fold_left nadd (map g l) a = a + sm g l.
Proof. apply (fold_total (map g l) a). Qed.
Lemma indices_app a b : indices (a ++ b) = flat_map (fun o => map (app o) (indices b)) (indices a).
Proof.
  induction a as [|s a IH]; cbn [app indices].
  - cbn. rewrite app_nil_r. symmetry. apply map_id.
  - rewrite IH. generalize (upto s) as l. induction l as [|i l IHl]; [reflexivity|]. cbn [flat_map]. rewrite IHl, flat_map_app. f_equal.
    generalize (indices a) as k. induction k as [|o k IHk]; [reflexivity|]. cbn [flat_map map]. rewrite map_app, IHk. f_equal. rewrite map_map. reflexivity.
Qed.
Lemma indices_cons s a : indices (s :: a) = flat_map (fun i => map (cons i) (indices a)) (upto s).
Proof. reflexivity. Qed.
Lemma inr3 idx a b c : inr idx [a; b; c] -> exists x y z, idx = [x; y; z] /\ (x < a)%N /\ (y < b)%N /\ (z < c)%N.
Proof.
  intros Hi. inversion_clear Hi as [|x ? ? ? Hx Hi1]. inversion_clear Hi1 as [|y ? ? ? Hy Hi2]. inversion_clear Hi2 as [|z ? ? ? Hz Hi3]. inversion_clear Hi3.
  eexists _, _, _. split; [reflexivity|]. auto.
Qed.
Lemma inr4 idx a b c d : inr idx [a; b; c; d] -> exists x y z u, idx = [x; y; z; u] /\ (x < a)%N /\ (y < b)%N /\ (z < c)%N /\ (u < d)%N.
Proof.
  intros Hi. inversion_clear Hi as [|x ? ? ? Hx Hi1]. apply inr3 in Hi1 as (y & z & u & -> & Hy & Hz & Hu). exists x, y, z, u. auto.
Qed.
Lemma inr2 idx a b : inr idx [a; b] -> exists x y, idx = [x; y] /\ (x < a)%N /\ (y < b)%N.
Proof.
  intros Hi. inversion_clear Hi as [|x ? ? ? Hx Hi1]. inversion_clear Hi1 as [|y ? ? ? Hy Hi2]. inversion_clear Hi2. eexists _, _. split; [reflexivity|]. auto.
Qed.
Lemma in3 k a b c : k ∈ indices [a; b; c] -> exists x y z, k = [x; y; z] /\ (x < a)%N /\ (y < b)%N /\ (z < c)%N.
Proof. intros Hk. apply inr3. apply elem_of_indices. exact Hk. Qed.
Lemma mk3 x y z a b c : (x < a)%N -> (y < b)%N -> (z < c)%N -> inr [x; y; z] [a; b; c].
Proof. intros. repeat constructor; assumption. Qed.
Lemma mk4 x y z u a b c d : (x < a)%N -> (y < b)%N -> (z < c)%N -> (u < d)%N -> inr [x; y; z; u] [a; b; c; d].
Proof. intros. repeat constructor; assumption. Qed.

(** ** Affine functions of one cell *)
Lemma affine_lim a b x : derivable_pt_lim (fun r => a + b * r) x b.
Proof.
  apply (lim_eq _ _ (0 + b * 1)); [lra|].
  apply (derivable_pt_lim_plus (fun _ => a) (fun r => b * r) x 0 (b * 1)); [apply derivable_pt_lim_const|].
  apply (derivable_pt_lim_scal (fun r => r) b x 1). apply derivable_pt_lim_id.
Qed.
Lemma slope_affine F d x idx osh (C B : list N -> R) : shaped osh d ->
  (forall r, exists y, F (vset x idx r) = Some y /\ shaped osh y /\ forall o, inr o osh -> ent y o = C o + B o * r) ->
  slope F d x idx (sm (fun o => ent d o * B o) (indices osh)).
Proof.
  intros Hd HF. exists (fun r => sm (fun o => ent d o * C o) (indices osh) + sm (fun o => ent d o * B o) (indices osh) * r). split.
  - intros r. destruct (HF r) as (y & Hy & Hs & He). exists y. split; [exact Hy|]. rewrite (weighted_sm osh d y Hd Hs), <- sm_scale_r, <- sm_add.
    apply sm_ext. intros o Ho. rewrite He by (apply elem_of_indices; exact Ho). lra.
  - apply affine_lim.
Qed.
(** Every cell of the result is a constant plus a sum of cells of the argument
    with coefficients. *)
Lemma slope_linear {K} F d x idx xsh osh (c0 : list N -> R) (L : list N -> list K) (src : list N -> K -> list N) (cf : list N -> K -> R) :
  shaped osh d -> shaped xsh x -> (forall o k, inr o osh -> k ∈ L o -> inr (src o k) xsh) ->
  (forall x', shaped xsh x' -> exists y, F x' = Some y /\ shaped osh y /\ forall o, inr o osh -> ent y o = c0 o + sm (fun k => ent x' (src o k) * cf o k) (L o)) ->
  slope F d x idx (sm (fun o => ent d o * sm (fun k => if decide (src o k = idx) then cf o k else 0) (L o)) (indices osh)).
Proof.
  intros Hd Hx Hsrc HF.
  apply (slope_affine F d x idx osh (fun o => c0 o + sm (fun k => if decide (src o k = idx) then 0 else ent x (src o k) * cf o k) (L o))); [exact Hd|].
  intros r. destruct (HF (vset x idx r) (vset_shaped xsh x idx r Hx)) as (y & Hy & Hs & He). exists y. split; [exact Hy|]. split; [exact Hs|].
  intros o Ho. rewrite (He o Ho), Rplus_assoc. f_equal. rewrite <- sm_scale_r, <- sm_add. apply sm_ext. intros k Hk.
  rewrite (ent_vset xsh x idx r (src o k) Hx (Hsrc o k Ho Hk)). destruct (decide (src o k = idx)); lra.
Qed.
Lemma slope_eq F d x idx s s' : s = s' -> slope F d x idx s -> slope F d x idx s'.
Proof. intros ->. auto. Qed.
Lemma NoDup_upto n : NoDup (upto n).
Proof. unfold upto. apply NoDup_fmap_2; [intros a b; lia|apply NoDup_seq]. Qed.
