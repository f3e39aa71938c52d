(** * EagerFacts: combinations of the eager results used by the property files *)
From Verif Require Import Base Num NumQ ModelTools ModelOps ModelTensor ModelGraph Spec Denote ObjSpec Laws SoftProofs
  IndexProofs TensorFacts CompileProofs EagerProofs AccessProofs EagerOps EagerOps2 EagerDot Pointwise Agree.
From Coq Require Import Lia ZifyBool ZifyNat ZifyN QArith Qcanon.

Section Facts.
Context {T : Type} `{Num T}.
Implicit Types s : tst T.

Theorem transpose_involution s p v :
  holds s p v -> exists c s1 d s2, Mat_Transpose p s = (Ok c, s1) /\ Mat_Transpose c s1 = (Ok d, s2) /\ holds s2 d v.
Proof.
  intros Hp. destruct (Mat_Transpose_spec s p v Hp) as (w & Hw & Hr).
  destruct (returns_new_holds _ _ _ Hr) as (c & s1 & E1 & H1).
  destruct (Mat_Transpose_spec s1 c w H1) as (w' & Hw' & Hr').
  destruct (holds_exists _ _ _ Hp) as [n Hn]. destruct (holds_data _ _ _ _ Hp Hn) as (_ & _ & _ & _ & Hl & _).
  rewrite (transpose_twice v w Hl Hw) in Hw'. injection Hw' as <-.
  destruct (returns_new_holds _ _ _ Hr') as (d & s2 & E2 & H2). exists c, s1, d, s2. auto.
Qed.

Theorem same_result (o : operation T) s sh w :
  (forall x : T, nadd nzero x = x) ->
  (forall p, p ∈ inputs o -> exists v m, holds s p v /\ tens s !! p = Some (MkNode KMat m)) ->
  params_ok s o ->
  shape_of (leafsh (tens s)) (meaning o) = Some sh -> no_crossing (leafsh (tens s)) (meaning o) ->
  eval (leafv (tens s) (mem s)) (fun x => mem s !! x) (meaning o) = Some w ->
  (exists c s1 n, eager_of o s = (Ok c, s1) /\ tens s1 !! c = Some n /\ shape (nmat n) = vsh w /\ GetData c s1 = (Ok (vdata w), s1)) /\
  (exists id s1 g s2 s3 n, graph_of o s = (Ok id, s1) /\ NewGraph id s1 = (Ok g, s2) /\ ExecM g s2 = (Ok tt, s3) /\
    tens s3 !! id = Some n /\ shape (nmat n) = vsh w /\ GetData id s3 = (Ok (vdata w), s3)).
Proof.
  intros Hadd Hin Hpar Hsh Hnc Hev. split.
  - destruct (eager_side Hadd s o sh w Hin Hpar Hsh Hnc Hev) as (c & s1 & E & Hh).
    destruct (holds_exists _ _ _ Hh) as [n Hn]. destruct (holds_data _ _ _ _ Hh Hn) as (Hs & _).
    exists c, s1, n. repeat (split; [assumption|]). apply GetData_spec. exact Hh.
  - destruct (graph_side s o sh w Hin Hpar Hsh Hnc Hev) as (id & s1 & g & s2 & s3 & n & H1 & H2 & H3 & H4 & H5 & H6 & _).
    exists id, s1, g, s2, s3, n. auto 10.
Qed.
End Facts.

#[local] Existing Instance NumQc.
Theorem softmax_eager (s : tst Qc) p v x y :
  holds s p v -> x ∈ vdata v -> y ∈ vdata v -> x <> y ->
  exists ys, returns_new s (Mat_SoftMax p s) (V (vsh v) ys) /\ distribution (vdata v) ys.
Proof.
  intros Hp Hx Hy Hne. destruct (soft_ok (vsh v) (vdata v) x y Hx Hy Hne) as (ys & Hs & Hd).
  exists ys. split; [|exact Hd]. pose proof (Mat_SoftMax_spec s p v Hp) as Hr.
  destruct v as [sh l]. cbn [vsh vdata] in *. rewrite (v_soft_with0 Qc_add_0_l _ _ Hs) in Hr. exact Hr.
Qed.
Theorem softmax_graph (s : tst Qc) p v m x y :
  holds s p v -> tens s !! p = Some (MkNode KMat m) -> x ∈ vdata v -> y ∈ vdata v -> x <> y ->
  exists ys id s1 g s2 s3, SoftMax p s = (Ok id, s1) /\ NewGraph id s1 = (Ok g, s2) /\ ExecM g s2 = (Ok tt, s3) /\
    GetData id s3 = (Ok ys, s3) /\ distribution (vdata v) ys.
Proof.
  intros Hp Hm Hx Hy Hne. destruct (soft_ok (vsh v) (vdata v) x y Hx Hy Hne) as (ys & Hs & Hd).
  destruct (plain_leaf _ _ _ _ Hp Hm) as (Hls & Hlv & Hf & _).
  destruct (graph_side s (PSoftMax p) (vsh v) (V (vsh v) ys)) as (id & s1 & g & s2 & s3 & n & H1 & H2 & H3 & H4 & _).
  - intros q Hq. apply elem_of_list_singleton in Hq as ->. eauto.
  - exact I.
  - cbn. rewrite Hls. cbn. unfold fit. apply fitsb_fits in Hf. rewrite Hf. reflexivity.
  - exact I.
  - cbn [meaning eval]. rewrite Hlv. cbn [mbind option_bind]. destruct v. exact Hs.
  - exists ys, id, s1, g, s2, s3. auto 10.
Qed.
Theorem softmax_constant (s : tst Qc) p sh c n :
  holds s p (V sh (replicate n c)) -> exists s', Mat_SoftMax p s = (Panic, s').
Proof.
  intros Hp. pose proof (Mat_SoftMax_spec s p _ Hp) as Hr.
  assert (E : v_soft_with reduce0 (V sh (replicate n c)) = None).
  { destruct (v_soft_with reduce0 (V sh (replicate n c))) as [w|] eqn:E; [|reflexivity]. exfalso.
    pose proof (soft_constant_refuted sh c n) as Hc.
    unfold v_soft, v_soft_with in E, Hc. change (reduce0 RedMin) with (reduce RedMin) in E.
    destruct (reduce RedMin _) as [mn|] eqn:Em; [|discriminate]. cbn [mbind option_bind vdata vsh] in E, Hc.
    destruct n as [|n]; [discriminate Em|]. 
    match type of Hc with (reduce RedSum ?l ≫= _) = _ => destruct (reduce RedSum l) as [t|] eqn:Et end; [|discriminate Et].
    rewrite (reduce_reduce0 Qc_add_0_l _ _ _ Et) in E. cbn [mbind option_bind] in E, Hc. rewrite Hc in E. discriminate. }
  rewrite E in Hr. destruct Hr as (s' & Hr & _). eauto.
Qed.
