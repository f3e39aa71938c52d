(** * FwdPool: max pooling and up-sampling *)
From Verif Require Import Base Num ModelTools ModelOps ModelTensor ModelGraph ModelLayer Spec Denote FwdSpec
  IndexProofs ExecProofs TensorFacts AccessProofs BuildProofs CompileProofs FwdBuild FwdSeg FwdOps NetBuild.
From Coq Require Import Lia ZifyBool ZifyNat ZifyN.

Section FwdPool.
Context {T : Type} `{Num T}.
Implicit Types (s : tst T).

Lemma exec_single (o : op T) (d : nat) m : op_dst o = Some (Some d) -> d < length m ->
  exec [o] m = (v ← op_value o m; Some (<[d := v]> m)).
Proof.
  intros Hd Hl. cbn. unfold cal. rewrite Hd. destruct (op_value o m) as [v|]; [|reflexivity]. cbn [mbind option_bind].
  rewrite wr_Some by exact Hl. reflexivity.
Qed.
(** One operation per cell. *)
Lemma outcome_single n (out : tmat) (o : list N -> op T) (f : list N -> option T) (m : list T) :
  wf_mat n out -> n <= length m -> NoDup (operands out) ->
  (forall idx, idx ∈ indices (shape out) -> op_dst (o idx) = Some (Some (celladdr out idx))) ->
  (forall idx m', idx ∈ indices (shape out) -> length m' = length m -> (forall l, Some l ∉ operands out -> m' !! l = m !! l) ->
     op_value (o idx) m' = f idx) ->
  outcome (flat_map (fun idx => [o idx]) (indices (shape out))) m out (tabulate (shape out) f).
Proof.
  intros Hwf Hn Hnd Hd Hv.
  set (ps := map (fun idx => (idx, [o idx])) (indices (shape out))).
  assert (E : flat_map (fun idx => [o idx]) (indices (shape out)) = concat (map snd ps)).
  { unfold ps. rewrite map_map. cbn. apply flat_map_concat_map. }
  assert (Hlt : forall idx, idx ∈ indices (shape out) -> celladdr out idx < length m).
  { intros idx Hi. apply elem_of_indices in Hi. destruct (celladdr_at n out idx Hwf Hi) as (_ & Ha & _). lia. }
  rewrite E. apply (outcome_each n out f (fun _ l => Some l ∉ operands out) (fun i l => l = celladdr out i)).
  - exact Hwf.
  - exact Hn.
  - unfold ps. rewrite map_map. cbn. apply map_id.
  - intros p m' Hp Hl Hm. apply elem_of_list_fmap in Hp as (idx & -> & Hi). unfold piece. cbn [fst snd].
    rewrite (exec_single _ (celladdr out idx)) by (auto; rewrite Hl; auto). rewrite (Hv idx m' Hi Hl Hm).
    destruct (f idx) as [v|]; [|reflexivity]. cbn. eexists. split; [reflexivity|]. apply list_lookup_insert. rewrite Hl. auto.
  - intros p m1 m2 l Hp Hl Hx Hne. apply elem_of_list_fmap in Hp as (idx & -> & Hi). cbn [fst snd] in *.
    rewrite (exec_single _ (celladdr out idx)) in Hx by (auto; rewrite Hl; auto). apply bind_Some in Hx as (v & _ & [= <-]).
    apply list_lookup_insert_ne. congruence.
  - intros i j l _ Hi _ -> Hno. apply Hno. apply elem_of_indices in Hi. apply (celladdr_at n out i Hwf Hi).
  - intros i j Hne Hi Hj E'. apply Hne. apply elem_of_indices in Hi, Hj. eapply celladdr_inj; eauto.
Qed.
Lemma dst_single (o : list N -> op T) (d : list N -> nat) l (is : list (list N)) :
  (forall i, i ∈ is -> op_dst (o i) = Some (Some (d i))) -> dst_in l (flat_map (fun i => [o i]) is) -> exists i, i ∈ is /\ l = d i.
Proof.
  intros Hd (x & Hx & E). apply elem_of_list_In, in_flat_map in Hx as (i & Hi & Hx). apply elem_of_list_In in Hi.
  destruct Hx as [<-|[]]. rewrite (Hd i Hi) in E. injection E as <-. eauto.
Qed.

(** ** Max pooling *)
Lemma flat_map_if {A B} (c : A -> bool) (g : A -> list B) (l : list A) :
  concat (flat_map (fun i => if c i then [] else [g i]) l) = flat_map (fun i => if c i then [] else g i) l.
Proof.
  induction l as [|a l IH]; cbn; [reflexivity|]. rewrite concat_app, IH. destruct (c a); cbn; [reflexivity|].
  rewrite app_nil_r. reflexivity.
Qed.
Lemma filter_flat_map {A B} (p : B -> bool) (g : A -> list B) (l : list A) :
  List.filter p (flat_map g l) = flat_map (fun a => List.filter p (g a)) l.
Proof. induction l as [|a l IH]; cbn; [reflexivity|]. rewrite List.filter_app, IH. reflexivity. Qed.
Lemma filter_map_flat {A B} (p : B -> bool) (g : A -> B) (l : list A) :
  List.filter p (map g l) = flat_map (fun a => if p (g a) then [g a] else []) l.
Proof. induction l as [|a l IH]; cbn; [reflexivity|]. rewrite IH. destruct (p (g a)); reflexivity. Qed.
Lemma flat_map_nil {A B} (g : A -> list B) (l : list A) : (forall a, a ∈ l -> g a = []) -> flat_map g l = [].
Proof. induction l as [|a l IH]; intros Hg; cbn; [reflexivity|]. rewrite Hg by left. apply IH. intros b Hb. apply Hg. right. exact Hb. Qed.
Lemma flat_map_ext_in {A B} (f g : A -> list B) (l : list A) : (forall a, a ∈ l -> f a = g a) -> flat_map f l = flat_map g l.
Proof. induction l as [|a l IH]; intros Hg; cbn; [reflexivity|]. rewrite Hg by left. f_equal. apply IH. intros b Hb. apply Hg. right. exact Hb. Qed.
Lemma elem_of_upto n i : i ∈ upto n <-> (i < n)%N.
Proof.
  unfold upto. rewrite elem_of_list_fmap. split.
  - intros (k & -> & Hk). apply elem_of_seq in Hk. lia.
  - intros Hi. exists (N.to_nat i). split; [lia|]. apply elem_of_seq. lia.
Qed.

Lemma pool_rows_window c w h sx sy x y : (x * sx + sx <= w + 1 -> w + 1 < W64 -> y * sy + sy <= h + 1 -> h + 1 < W64 ->
  concat (pool_rows [c; w; h] sx sy x y) = window sx sy w h x y)%N.
Proof.
  intros Hx Hw Hy Hh. unfold pool_rows, window. cbn [nth].
  rewrite flat_map_if, filter_flat_map. apply flat_map_ext_in. intros i Hi. apply elem_of_upto in Hi.
  rewrite filter_map_flat. rewrite umul_small, uadd_small by lia.
  destruct (N.leb_spec w (x * sx + i)) as [Hge|Hlt].
  - symmetry. apply flat_map_nil. intros j _. cbn. destruct (N.ltb_spec (x * sx + i) w); [lia|]. reflexivity.
  - apply flat_map_ext_in. intros j Hj. apply elem_of_upto in Hj. rewrite umul_small, uadd_small by lia. cbn.
    destruct (N.ltb_spec (x * sx + i) w); [|lia]. cbn.
    destruct (N.leb_spec h (y * sy + j)), (N.ltb_spec (y * sy + j) h); try lia; reflexivity.
Qed.
Lemma window_in sx sy w h x y p : p ∈ window sx sy w h x y -> (fst p < w /\ snd p < h)%N.
Proof. unfold window. intros Hp. apply elem_of_list_In, filter_In in Hp as [_ Hp]. lia. Qed.

Lemma F3 (P : N -> N -> Prop) (idx : list N) a b c : Forall2 P idx [a; b; c] -> exists i j k, idx = [i; j; k] /\ P i a /\ P j b /\ P k c.
Proof.
  intros Hf. apply Forall2_cons_inv_r in Hf as (i & l1 & H1 & Hf & ->). apply Forall2_cons_inv_r in Hf as (j & l2 & H2 & Hf & ->).
  apply Forall2_cons_inv_r in Hf as (k & l3 & H3 & Hf & ->). apply Forall2_nil_inv_r in Hf as ->. eauto 10.
Qed.

Lemma mapM_map {A B C} (g : A -> B) (f : B -> option C) (l : list A) : mapM f (map g l) = mapM (fun a => f (g a)) l.
Proof. induction l as [|a l IH]; [reflexivity|]. cbn. rewrite IH. reflexivity. Qed.

Definition pool_op (mi mo : tmat) (w h sx sy : N) (idx : list N) : op T :=
  match idx with
  | [f; x; y] => OMax (Some (celladdr mo idx)) (map (fun p => Some (celladdr mi [f; fst p; snd p])) (window sx sy w h x y))
  | _ => OScalar None
  end.
Lemma pool_ff_ok s ti to_ mi mo ki ko sx sy c w h outSh :
  tens s !! ti = Some (MkNode ki mi) -> tens s !! to_ = Some (MkNode ko mo) ->
  wf_mat (length (mem s)) mi -> shape mi = [c; w; h] -> lay_shape (T:=T) (SPool sx sy) [c; w; h] = Some outSh ->
  wf_mat (length (mem s)) mo -> shape mo = outSh -> NoDup (operands mo) ->
  (forall l, Some l ∈ operands mi -> Some l ∉ operands mo) ->
  exists new, pool_ff ti to_ [c; w; h] outSh sx sy s = (Ok tt, MkSt (mem s) (tens s) (ctx s ++ new)) /\
    (forall l, dst_in l new -> Some l ∈ operands mo) /\
    forall m vx, length (mem s) <= length m -> mval m mi = Some vx -> outcome new m mo (v_pool sx sy vx).
Proof.
  intros Hti Hto Hwi Hshi Hls Hwo Hsho Hnd Hdis.
  cbn [lay_shape] in Hls. set (out := [c; ((w + 1) / sx)%N; ((h + 1) / sy)%N]) in *.
  destruct ((0 <? sx) && (0 <? sy) && (w + 1 <? W64) && (h + 1 <? W64) && (sx <? W64) && (sy <? W64))%N eqn:Ec; [|discriminate]. cbn [andb] in Hls.
  destruct (fitsb out) eqn:Ef; [|discriminate]. injection Hls as <-.
  assert (Hs : (0 < sx /\ 0 < sy /\ w + 1 < W64 /\ h + 1 < W64)%N) by lia. destruct Hs as (Hsx & Hsy & Hw & Hh).
  exists (flat_map (fun idx => [pool_op mi mo w h sx sy idx]) (indices out)).
  assert (Hwin : forall x y, (x < (w + 1) / sx -> y < (h + 1) / sy -> x * sx + sx <= w + 1 /\ y * sy + sy <= h + 1)%N).
  { intros x y Hx Hy. pose proof (N.mul_div_le (w + 1) sx ltac:(lia)). pose proof (N.mul_div_le (h + 1) sy ltac:(lia)). nia. }
  assert (Hread : forall f x y p, (f < c)%N -> p ∈ window sx sy w h x y -> Forall2 (fun i d => (i < d)%N) [f; fst p; snd p] (shape mi)).
  { intros f x y p Hf Hp. apply window_in in Hp as [H1 H2]. rewrite Hshi. repeat constructor; assumption. }
  split; [|split].
  - unfold pool_ff. erewrite mbnd_ok by (eapply get_mat_tens; exact Hti). erewrite mbnd_ok by (eapply get_mat_tens; exact Hto).
    rewrite loop3. change [nth 0 out 0%N; nth 1 out 0%N; nth 2 out 0%N] with out.
    destruct s as [mm tn cc]. cbn [mem tens ctx] in *. apply mfor_push. intros idx c' Hidx. apply elem_of_indices in Hidx.
    destruct (F3 _ _ _ _ _ Hidx) as (f & x & y & -> & Hf & Hx & Hy). destruct (Hwin x y Hx Hy) as [Hbx Hby].
    erewrite mbnd_ok by (unfold mlift; rewrite (GetOperand_cell _ _ _ Hwo) by (rewrite Hsho; exact Hidx); reflexivity).
    rewrite pool_rows_window by assumption.
    assert (G : forall ps, (forall p, p ∈ ps -> Forall2 (fun i d => (i < d)%N) [f; fst p; snd p] (shape mi)) ->
       mmap ps (fun p => mlift (GetOperand mi [f; fst p; snd p])) (MkSt mm tn c') =
       (Ok (map (fun p => Some (celladdr mi [f; fst p; snd p])) ps), MkSt mm tn c')).
    { induction ps as [|p ps IH]; intros Hps; [reflexivity|]. cbn [mmap map].
      erewrite mbnd_ok by (unfold mlift; rewrite (GetOperand_cell _ _ _ Hwi) by (apply Hps; left); reflexivity).
      erewrite mbnd_ok by (apply IH; intros q Hq; apply Hps; right; exact Hq). reflexivity. }
    erewrite mbnd_ok by (apply G; intros p Hp; eapply Hread; eassumption). reflexivity.
  - intros l Hl. apply (dst_single _ (celladdr mo)) in Hl as (idx & Hi & ->).
    + apply elem_of_indices in Hi. rewrite <- Hsho in Hi. apply (celladdr_at _ _ _ Hwo Hi).
    + intros idx Hi. apply elem_of_indices in Hi. destruct (F3 _ _ _ _ _ Hi) as (f & x & y & -> & _). reflexivity.
  - intros m vx Hm Hvx. unfold v_pool. destruct (mval_shape _ _ _ Hvx) as [Hsv _]. rewrite Hsv, Hshi.
    change [c; ((w + 1) / sx)%N; ((h + 1) / sy)%N] with out. rewrite <- Hsho.
    apply (outcome_single (length (mem s))); try assumption.
    + intros idx Hi. apply elem_of_indices in Hi. rewrite Hsho in Hi. destruct (F3 _ _ _ _ _ Hi) as (f & x & y & -> & _). reflexivity.
    + intros idx m' Hi Hl Hm'. apply elem_of_indices in Hi. rewrite Hsho in Hi.
      destruct (F3 _ _ _ _ _ Hi) as (f & x & y & -> & Hf & Hx & Hy). cbn [pool_op op_value].
      assert (E : rds m' (map (fun p => Some (celladdr mi [f; fst p; snd p])) (window sx sy w h x y)) =
        mapM (fun p => at_ (vsh vx) (vdata vx) [f; fst p; snd p]) (window sx sy w h x y)).
      { unfold rds. rewrite mapM_map. apply mapM_ext_in. intros p Hp. cbn.
        rewrite (mval_at _ m mi vx _ Hwi Hvx) by (eapply Hread; eassumption). apply Hm'. apply Hdis.
        eapply celladdr_at; [exact Hwi|eapply Hread; eassumption]. }
      rewrite Hsv, Hshi in E. rewrite E. reflexivity.
Qed.

(** ** Up-sampling *)
Definition up_op (mi mo : tmat) (sx sy : N) (idx : list N) : op T :=
  match idx with
  | [f; x; y] => OSet (Some (celladdr mo idx)) (Some (celladdr mi [f; x / sx; y / sy]%N))
  | _ => OScalar None
  end.
Lemma up_ff_ok s ti to_ mi mo ki ko sx sy c w h outSh :
  tens s !! ti = Some (MkNode ki mi) -> tens s !! to_ = Some (MkNode ko mo) ->
  wf_mat (length (mem s)) mi -> shape mi = [c; w; h] -> lay_shape (T:=T) (SUp sx sy) [c; w; h] = Some outSh ->
  wf_mat (length (mem s)) mo -> shape mo = outSh -> NoDup (operands mo) ->
  (forall l, Some l ∈ operands mi -> Some l ∉ operands mo) ->
  exists new, up_ff ti to_ outSh sx sy s = (Ok tt, MkSt (mem s) (tens s) (ctx s ++ new)) /\
    (forall l, dst_in l new -> Some l ∈ operands mo) /\
    forall m vx, length (mem s) <= length m -> mval m mi = Some vx -> outcome new m mo (v_up sx sy vx).
Proof.
  intros Hti Hto Hwi Hshi Hls Hwo Hsho Hnd Hdis.
  cbn [lay_shape] in Hls. set (out := [c; (w * sx)%N; (h * sy)%N]) in *. apply fit_Some in Hls as [-> Hfit].
  exists (flat_map (fun idx => [up_op mi mo sx sy idx]) (indices out)).
  assert (Hread : forall f x y, Forall2 (fun i d => (i < d)%N) [f; x; y] out ->
     (sx <> 0 /\ sy <> 0)%N /\ Forall2 (fun i d => (i < d)%N) [f; x / sx; y / sy]%N (shape mi)).
  { intros f x y Hi. destruct (F3 _ _ _ _ _ Hi) as (f' & x' & y' & [= <- <- <-] & Hf & Hx & Hy). split; [lia|].
    rewrite Hshi. repeat constructor; [exact Hf|apply N.div_lt_upper_bound; lia|apply N.div_lt_upper_bound; lia]. }
  split; [|split].
  - unfold up_ff. erewrite mbnd_ok by (eapply get_mat_tens; exact Hti). erewrite mbnd_ok by (eapply get_mat_tens; exact Hto).
    rewrite loop3. change [nth 0 out 0%N; nth 1 out 0%N; nth 2 out 0%N] with out.
    destruct s as [mm tn cc]. cbn [mem tens ctx] in *. apply mfor_push. intros idx c' Hidx. apply elem_of_indices in Hidx.
    destruct (F3 _ _ _ _ _ Hidx) as (f & x & y & -> & Hf & Hx & Hy). destruct (Hread f x y Hidx) as [[Hsx Hsy] Hr].
    erewrite mbnd_ok by (unfold mlift; rewrite (GetOperand_cell _ _ _ Hwo) by (rewrite Hsho; exact Hidx); reflexivity).
    unfold udiv. destruct (N.eqb_spec sx 0); [contradiction|]. erewrite mbnd_ok by reflexivity.
    destruct (N.eqb_spec sy 0); [contradiction|]. erewrite mbnd_ok by reflexivity.
    erewrite mbnd_ok by (unfold mlift; rewrite (GetOperand_cell _ _ _ Hwi) by exact Hr; reflexivity). reflexivity.
  - intros l Hl. apply (dst_single _ (celladdr mo)) in Hl as (idx & Hi & ->).
    + apply elem_of_indices in Hi. rewrite <- Hsho in Hi. apply (celladdr_at _ _ _ Hwo Hi).
    + intros idx Hi. apply elem_of_indices in Hi. destruct (F3 _ _ _ _ _ Hi) as (f & x & y & -> & _). reflexivity.
  - intros m vx Hm Hvx. unfold v_up. destruct (mval_shape _ _ _ Hvx) as [Hsv _]. rewrite Hsv, Hshi.
    change [c; (w * sx)%N; (h * sy)%N] with out. rewrite <- Hsho.
    apply (outcome_single (length (mem s))); try assumption.
    + intros idx Hi. apply elem_of_indices in Hi. rewrite Hsho in Hi. destruct (F3 _ _ _ _ _ Hi) as (f & x & y & -> & _). reflexivity.
    + intros idx m' Hi Hl Hm'. apply elem_of_indices in Hi. rewrite Hsho in Hi.
      destruct (F3 _ _ _ _ _ Hi) as (f & x & y & -> & Hf & Hx & Hy). cbn [up_op op_value rd].
      destruct (Hread f x y Hi) as [_ Hr]. rewrite Hm' by (apply Hdis; apply (celladdr_at _ _ _ Hwi Hr)).
      rewrite <- Hshi, <- Hsv. symmetry. apply (mval_at _ m mi vx _ Hwi Hvx Hr).
Qed.
End FwdPool.
