(** * P_Back: the property theorems of C69 *)
From Verif Require Import Base Num ModelTools ModelOps ModelTensor ModelGraph ModelLayer Spec Denote DenoteDec NetSpec FwdSpec BwdSpec BwdPost
  ExecProofs NetBuild FwdOps BwdOps BwdOps2 BwdOps3 BwdOps4 NumIntS.
From Coq Require Import ZArith Lia.

Section C69.
Context {T : Type} `{Num T} (t0 : tst T).
Let n := length (mem t0).

(** Convolution, error of the input (conv2d.go:161-219). *)
Theorem C69_conv_input (md mw mder mp : tmat) (nf ow oh c w h kw kh sx sy : N) :
  wf_mat n md -> wf_mat n mw -> wf_mat n mder -> wf_mat n mp ->
  shape md = [nf; ow; oh] -> shape mw = [nf; c; kw; kh] -> shape mder = [c; w; h] -> shape mp = [c; w; h] ->
  NoDup (operands mp) -> apart md mp -> apart mw mp -> apart mder mp ->
  (kw <= kh)%N -> ((ow - 1) * sx + kw <= w)%N -> ((oh - 1) * sy + kh <= h)%N ->
  does t0 (conv_bp_in [c; w; h] [nf; ow; oh] md mw mder mp kw sx sy) (within mp)
    (fun m m' => forall vd vw va vp, mval m md = Some vd -> mval m mw = Some vw -> mval m mder = Some va -> mval m mp = Some vp ->
       mval m' mp = g_conv_in kw sx sy vd vw va vp).
Proof. exact (conv_in_does t0 md mw mder mp nf ow oh c w h kw kh sx sy). Qed.

(** Convolution, new weights (conv2d.go:243-301). *)
Theorem C69_conv_weights (mi mdif mw mwm mnw : tmat) (nf ow oh c w h kw kh sy : N) :
  wf_mat n mi -> wf_mat n mdif -> wf_mat n mw -> wf_mat n mwm -> wf_mat n mnw ->
  shape mi = [c; w; h] -> shape mdif = [nf; ow; oh] -> shape mw = [nf; c; kw; kh] -> shape mwm = shape mw -> shape mnw = shape mw ->
  NoDup (operands mnw) -> NoDup (operands mwm) ->
  (forall l, within mw l -> ~ within mnw l /\ ~ within mwm l) -> apart mwm mnw ->
  (forall l, within mi l -> ~ within mnw l /\ ~ within mwm l) -> (forall l, within mdif l -> ~ within mnw l /\ ~ within mwm l) ->
  (0 < ow)%N -> (0 < oh)%N -> ((ow - 1) * sy + kw <= w)%N -> ((oh - 1) * sy + kh <= h)%N ->
  does t0 (conv_bp_w [c; w; h] [nf; ow; oh] mi mdif mw mwm mnw kw kh sy) (fun x => within mnw x \/ within mwm x)
    (fun m m' => forall vd vx vw vm, mval m mdif = Some vd -> mval m mi = Some vx -> mval m mw = Some vw -> mval m mwm = Some vm ->
       mval m' mnw = g_conv_w sy vd vx vw vm).
Proof. exact (conv_w_does t0 mi mdif mw mwm mnw nf ow oh c w h kw kh sy). Qed.

(** Deconvolution, error of the input (deconv2d.go:184-254). *)
Theorem C69_deconv_input (md mw mder mp : tmat) (nf ow oh c w h kw kh sx sy : N) :
  wf_mat n md -> wf_mat n mw -> wf_mat n mder -> wf_mat n mp ->
  shape md = [nf; ow; oh] -> shape mw = [nf; c; kw; kh] -> shape mder = [c; w; h] -> shape mp = [c; w; h] ->
  NoDup (operands mp) -> apart md mp -> apart mw mp -> apart mder mp ->
  (0 < nf)%N -> (0 < kw)%N -> (0 < kh)%N -> ((w - 1) * sx + kw <= ow)%N -> ((h - 1) * sy + kh <= oh)%N ->
  does t0 (deconv_bp_in [c; w; h] nf md mw mder mp kw kh sx sy) (within mp)
    (fun m m' => forall vd vw va vp, mval m md = Some vd -> mval m mw = Some vw -> mval m mder = Some va -> mval m mp = Some vp ->
       mval m' mp = g_deconv_in kw kh sx sy vd vw va vp).
Proof. exact (deconv_in_does t0 md mw mder mp nf ow oh c w h kw kh sx sy). Qed.

(** Deconvolution, new weights (deconv2d.go:277-337). *)
Theorem C69_deconv_weights (mi mdif mw mwm mnw : tmat) (nf ow oh c w h kw kh sx sy : N) :
  wf_mat n mi -> wf_mat n mdif -> wf_mat n mw -> wf_mat n mwm -> wf_mat n mnw ->
  shape mi = [c; w; h] -> shape mdif = [nf; ow; oh] -> shape mw = [nf; c; kw; kh] -> shape mwm = shape mw -> shape mnw = shape mw ->
  NoDup (operands mnw) -> NoDup (operands mwm) ->
  (forall l, within mw l -> ~ within mnw l /\ ~ within mwm l) -> apart mwm mnw ->
  (forall l, within mi l -> ~ within mnw l /\ ~ within mwm l) -> (forall l, within mdif l -> ~ within mnw l /\ ~ within mwm l) ->
  (0 < w)%N -> (0 < h)%N -> ((w - 1) * sx + kw <= ow)%N -> ((h - 1) * sy + kh <= oh)%N ->
  does t0 (deconv_bp_w [c; w; h] nf mi mdif mw mwm mnw kw kh sx sy) (fun x => within mnw x \/ within mwm x)
    (fun m m' => forall vd vx vw vm, mval m mdif = Some vd -> mval m mi = Some vx -> mval m mw = Some vw -> mval m mwm = Some vm ->
       mval m' mnw = g_deconv_w sx sy vd vx vw vm).
Proof. exact (deconv_w_does t0 mi mdif mw mwm mnw nf ow oh c w h kw kh sx sy). Qed.

(** Dense, error of the input (dense.go:157-194). *)
Theorem C69_dense_input (md mw mder mp : tmat) (outs ins : N) :
  wf_mat n md -> wf_mat n mw -> wf_mat n mder -> wf_mat n mp ->
  shape md = [outs] -> shape mw = [outs; ins] -> msize mder = ins -> msize mp = ins ->
  NoDup (operands mp) -> apart md mp -> apart mw mp -> apart mder mp -> (0 < outs)%N ->
  does t0 (mfor (urange ins) (dense_input_bp outs md mw mder mp)) (within mp)
    (fun m m' => forall vd vw va vp, mval m md = Some vd -> mval m mw = Some vw -> mval m mder = Some va -> mval m mp = Some vp ->
       mval m' mp = g_dense_in vd vw va vp).
Proof. exact (dense_in_does t0 md mw mder mp outs ins). Qed.

(** Dense, new weights and bias (dense.go:210-275). *)
Theorem C69_dense_params (mi md mw mb mnw mmw mnb mmb : tmat) (al mo : nat) (outs ins : N) :
  wf_mat n mi -> wf_mat n md -> wf_mat n mw -> wf_mat n mb -> wf_mat n mnw -> wf_mat n mmw -> wf_mat n mnb -> wf_mat n mmb ->
  msize mi = ins -> shape md = [outs] -> shape mw = [outs; ins] -> shape mb = [outs] ->
  shape mnw = [outs; ins] -> shape mmw = [outs; ins] -> shape mnb = [outs] -> shape mmb = [outs] ->
  al < n -> mo < n -> NoDup (operands mnw) -> NoDup (operands mnb) ->
  (forall l, within mi l \/ within md l \/ within mw l \/ within mb l \/ within mmw l \/ within mmb l \/ l = al \/ l = mo -> ~ (within mnw l \/ within mnb l)) ->
  apart mnw mnb ->
  does t0 (mfor (urange outs) (dense_unit_bp mi md mw mb mnw mmw mnb mmb (Some al) (Some mo))) (fun x => within mnw x \/ within mnb x)
    (fun m m' => forall vd vx vw vb vmw vmb, mval m md = Some vd -> mval m mi = Some vx -> mval m mw = Some vw -> mval m mb = Some vb -> mval m mmw = Some vmw -> mval m mmb = Some vmb ->
       mval m' mnw = g_dense_w (cell m al) (cell m mo) vd vx vw vmw /\ mval m' mnb = g_dense_b (cell m al) (cell m mo) vd vb vmb).
Proof. exact (dense_unit_does t0 mi md mw mb mnw mmw mnb mmb al mo outs ins). Qed.

(** Max pooling, error of the input (max_pool_2d.go:133-184). *)
Theorem C69_pool_input (inp out pdif dif : nat) (ni no np nd : node T) (c w h sx sy : N) :
  let osh := [c; (w + 1) / sx; (h + 1) / sy]%N in
  tens t0 !! inp = Some ni -> tens t0 !! out = Some no -> tens t0 !! pdif = Some np -> tens t0 !! dif = Some nd ->
  wf_mat n (nmat ni) -> wf_mat n (nmat no) -> wf_mat n (nmat np) -> wf_mat n (nmat nd) ->
  shape (nmat ni) = [c; w; h] -> shape (nmat no) = osh -> (0 < sx)%N -> (0 < sy)%N -> (w + 1 < W64)%N -> (h + 1 < W64)%N ->
  shape (nmat np) = [c; w; h] -> shape (nmat nd) = osh -> NoDup (operands (nmat np)) ->
  apart (nmat ni) (nmat np) -> apart (nmat no) (nmat np) -> apart (nmat nd) (nmat np) ->
  does t0 (pool_bp inp out pdif dif [c; w; h] osh sx sy) (within (nmat np))
    (fun m m' => forall vd vx vy vp, mval m (nmat nd) = Some vd -> mval m (nmat ni) = Some vx -> mval m (nmat no) = Some vy -> mval m (nmat np) = Some vp ->
       mval m' (nmat np) = g_pool sx sy vd vx vy vp).
Proof. exact (pool_bp_does t0 inp out pdif dif ni no np nd c w h sx sy). Qed.

(** Max pooling, derivatives (max_pool_2d.go:201-255); no window may be empty. *)
Theorem C69_pool_derivatives (inp out pder der : nat) (ni no np nd : node T) (c w h sx sy : N) :
  let osh := [c; (w + 1) / sx; (h + 1) / sy]%N in
  tens t0 !! inp = Some ni -> tens t0 !! out = Some no -> tens t0 !! pder = Some np -> tens t0 !! der = Some nd ->
  wf_mat n (nmat ni) -> wf_mat n (nmat no) -> wf_mat n (nmat np) -> wf_mat n (nmat nd) ->
  shape (nmat ni) = [c; w; h] -> shape (nmat no) = osh -> (0 < sx)%N -> (0 < sy)%N -> (w + 1 < W64)%N -> (h + 1 < W64)%N ->
  shape (nmat np) = [c; w; h] -> shape (nmat nd) = osh -> NoDup (operands (nmat nd)) ->
  apart (nmat ni) (nmat nd) -> apart (nmat no) (nmat nd) -> apart (nmat np) (nmat nd) ->
  (forall f x y, Forall2 N.lt [f; x; y] osh -> window sx sy w h x y <> []) ->
  does t0 (pool_der inp out pder der [c; w; h] osh sx sy) (within (nmat nd))
    (fun m m' => forall va vx vy, mval m (nmat np) = Some va -> mval m (nmat ni) = Some vx -> mval m (nmat no) = Some vy ->
       mval m' (nmat nd) = g_pool_der sx sy vx vy va).
Proof. exact (pool_der_does t0 inp out pder der ni no np nd c w h sx sy). Qed.

(** Up-sampling, error of the input (up_sampling_2d.go:127-152): whatever was
    there before is lost. *)
Theorem C69_up_input (pdif dif : nat) (np nd : node T) (c w h sx sy : N) :
  tens t0 !! pdif = Some np -> tens t0 !! dif = Some nd -> wf_mat n (nmat np) -> wf_mat n (nmat nd) ->
  shape (nmat np) = [c; w; h] -> shape (nmat nd) = [c; w * sx; h * sy]%N -> NoDup (operands (nmat np)) -> apart (nmat nd) (nmat np) ->
  (0 < sx)%N -> (0 < sy)%N ->
  does t0 (up_bp pdif dif [c; w; h] sx sy) (within (nmat np))
    (fun m m' => forall vd, mval m (nmat nd) = Some vd -> mval m' (nmat np) = g_up sx sy vd [c; w; h]).
Proof. exact (up_bp_does t0 pdif dif np nd c w h sx sy). Qed.
End C69.
Print Assumptions C69_conv_input.
Print Assumptions C69_conv_weights.
Print Assumptions C69_deconv_input.
Print Assumptions C69_deconv_weights.
Print Assumptions C69_dense_input.
Print Assumptions C69_dense_params.
Print Assumptions C69_pool_input.
Print Assumptions C69_pool_derivatives.
Print Assumptions C69_up_input.

(** ** Cases that meet the hypotheses
    Small layers on 32-bit integers.  Each case shows that the hypotheses hold
    and what the model computes when the graph it built is executed. *)
Section Cases.
#[local] Existing Instance NumS32.
Definition bi (x : Z) : intw 32 := NumIntS.mk 32 eq_refl x.
Definition bt (l : list Z) (ms : list tmat) : tst (intw 32) := MkSt (map bi l) (map (MkNode KMat) ms) [].
Definition ran (f : TM (intw 32) unit) (t : tst (intw 32)) (o : tmat) : option (list Z) :=
  match f t with
  | (Ok _, t') => m ← exec (ctx t') (mem t'); v ← mval m o; Some (map ival (vdata v))
  | _ => None
  end.
Ltac wfs := apply wf_matb_sound; vm_compute; reflexivity.
Ltac conc := repeat match goal with H : context [N.to_nat ?x] |- _ => let y := eval vm_compute in (N.to_nat x) in change (N.to_nat x) with y in H end.
Ltac away := unfold apart, within; intros; repeat match goal with H : _ \/ _ |- _ => destruct H as [H|H] end; subst;
  repeat match goal with H : Some _ ∈ operands _ |- _ => apply blk_ops in H end;
  repeat match goal with |- _ /\ _ => split end; intros;
  repeat match goal with |- ~ _ => intro end;
  repeat match goal with H : _ \/ _ |- _ => destruct H as [H|H] end;
  repeat match goal with H : Some _ ∈ operands _ |- _ => apply blk_ops in H end; conc; lia.
Ltac hyps := try wfs; try reflexivity; try apply blk_NoDup; try (solve [away]); try (vm_compute; discriminate); try (solve [vm_compute; lia]).

(** Error [1 10 / 100 1000], kernel [1 2 / 3 4], derivatives one but for the
    last, error of the input zero but for the last. *)
Definition conv_st := bt [1;10;100;1000; 1;2;3;4; 1;1;1;1;1;1;1;1;2; 0;0;0;0;0;0;0;0;5]%Z [].
Example C69_conv_input_case : exists P, does conv_st (conv_bp_in [1;3;3] [1;2;2] (blkm [1;2;2] 0 false) (blkm [1;1;2;2] 4 false) (blkm [1;3;3] 8 false) (blkm [1;3;3] 17 false) 2 1 1)%N (within (blkm [1;3;3]%N 17 false)) P
  /\ ran (conv_bp_in [1;3;3] [1;2;2] (blkm [1;2;2] 0 false) (blkm [1;1;2;2] 4 false) (blkm [1;3;3] 8 false) (blkm [1;3;3] 17 false) 2 1 1)%N conv_st (blkm [1;3;3]%N 17 false)
     = Some [1; 12; 20; 103; 1234; 2040; 300; 3400; 8005]%Z.
Proof.
  eexists. split; [apply (C69_conv_input _ _ _ _ _ 1 2 2 1 3 3 2 2 1 1); hyps|vm_compute; reflexivity].
Qed.
(** Input [1 .. 9], the same errors and kernel; momenta zero. *)
Definition convw_st := bt [1;2;3;4;5;6;7;8;9; 1;10;100;1000; 1;2;3;4; 0;0;0;0; 7;7;7;7]%Z [].
Example C69_conv_weights_case : exists P, does convw_st (conv_bp_w [1;3;3] [1;2;2] (blkm [1;3;3] 0 false) (blkm [1;2;2] 9 false) (blkm [1;1;2;2] 13 false) (blkm [1;1;2;2] 17 false) (blkm [1;1;2;2] 21 false) 2 2 1)%N
    (fun x => within (blkm [1;1;2;2]%N 21 false) x \/ within (blkm [1;1;2;2]%N 17 false) x) P
  /\ ran (conv_bp_w [1;3;3] [1;2;2] (blkm [1;3;3] 0 false) (blkm [1;2;2] 9 false) (blkm [1;1;2;2] 13 false) (blkm [1;1;2;2] 17 false) (blkm [1;1;2;2] 21 false) 2 2 1)%N convw_st (blkm [1;1;2;2]%N 21 false)
     = Some [5422; 6534; 8757; 9869]%Z.
Proof. eexists. split; [apply (C69_conv_weights _ _ _ _ _ _ 1 2 2 1 3 3 2 2 1); hyps|vm_compute; reflexivity]. Qed.
(** Deconvolution from two by two to three by three cells. *)
Definition deconv_st := bt [1;2;3;4;5;6;7;8;9; 1;10;100;1000; 1;1;1;2; 0;0;0;5]%Z [].
Example C69_deconv_input_case : exists P, does deconv_st (deconv_bp_in [1;2;2] 1 (blkm [1;3;3] 0 false) (blkm [1;1;2;2] 9 false) (blkm [1;2;2] 13 false) (blkm [1;2;2] 17 false) 2 2 1 1)%N (within (blkm [1;2;2]%N 17 false)) P
  /\ ran (deconv_bp_in [1;2;2] 1 (blkm [1;3;3] 0 false) (blkm [1;1;2;2] 9 false) (blkm [1;2;2] 13 false) (blkm [1;2;2] 17 false) 2 2 1 1)%N deconv_st (blkm [1;2;2]%N 17 false)
     = Some [5421; 6532; 8754; 19735]%Z.
Proof. eexists. split; [apply (C69_deconv_input _ _ _ _ _ 1 3 3 1 2 2 2 2 1 1); hyps|vm_compute; reflexivity]. Qed.
Definition deconvw_st := bt [1;10;100;1000; 1;2;3;4;5;6;7;8;9; 1;2;3;4; 0;0;0;0; 7;7;7;7]%Z [].
Example C69_deconv_weights_case : exists P, does deconvw_st (deconv_bp_w [1;2;2] 1 (blkm [1;2;2] 0 false) (blkm [1;3;3] 4 false) (blkm [1;1;2;2] 13 false) (blkm [1;1;2;2] 17 false) (blkm [1;1;2;2] 21 false) 2 2 1 1)%N
    (fun x => within (blkm [1;1;2;2]%N 21 false) x \/ within (blkm [1;1;2;2]%N 17 false) x) P
  /\ ran (deconv_bp_w [1;2;2] 1 (blkm [1;2;2] 0 false) (blkm [1;3;3] 4 false) (blkm [1;1;2;2] 13 false) (blkm [1;1;2;2] 17 false) (blkm [1;1;2;2] 21 false) 2 2 1 1)%N deconvw_st (blkm [1;1;2;2]%N 21 false)
     = Some [5422; 6534; 8757; 9869]%Z.
Proof. eexists. split; [apply (C69_deconv_weights _ _ _ _ _ _ 1 3 3 1 2 2 2 2 1 1); hyps|vm_compute; reflexivity]. Qed.
(** Dense: two units on three inputs. *)
Definition dense_st := bt [1;10; 1;2;3;4;5;6; 1;1;2; 0;0;5]%Z [].
Example C69_dense_input_case : exists P, does dense_st (mfor (urange 3) (dense_input_bp 2 (blkm [2] 0 false) (blkm [2;3] 2 false) (blkm [3] 8 false) (blkm [3] 11 false)))%N (within (blkm [3]%N 11 false)) P
  /\ ran (mfor (urange 3) (dense_input_bp 2 (blkm [2] 0 false) (blkm [2;3] 2 false) (blkm [3] 8 false) (blkm [3] 11 false)))%N dense_st (blkm [3]%N 11 false) = Some [41; 52; 131]%Z.
Proof. eexists. split; [apply (C69_dense_input _ _ _ _ _ 2 3); hyps|vm_compute; reflexivity]. Qed.
(** Input [1 2], errors [1 10], weights [1 2 / 3 4], bias [5 6], new weights and
    bias, momenta [1 0 / 0 0] and [0 1], learning rate 2, momentum 3. *)
Definition densew_st := bt [1;2; 1;10; 1;2;3;4; 5;6; 7;7;7;7; 7;7; 1;0;0;0; 0;1; 2; 3]%Z [].
Definition densew := (mfor (urange 2) (dense_unit_bp (blkm [2] 0 false) (blkm [2] 2 false) (blkm [2;2] 4 false) (blkm [2] 8 false) (blkm [2;2] 10 false) (blkm [2;2] 16 false) (blkm [2] 14 false) (blkm [2] 20 false) (Some 22%nat) (Some 23%nat)))%N.
Example C69_dense_params_case : exists P, does densew_st densew (fun x => within (blkm [2;2]%N 10 false) x \/ within (blkm [2]%N 14 false) x) P
  /\ ran densew densew_st (blkm [2;2]%N 10 false) = Some [6; 6; 23; 44]%Z /\ ran densew densew_st (blkm [2]%N 14 false) = Some [7; 29]%Z.
Proof. eexists. split; [apply (C69_dense_params _ _ _ _ _ _ _ _ _ 22 23 2 2); hyps|split; vm_compute; reflexivity]. Qed.
(** Pooling two by two over three by three cells: the last row and column have
    windows of their own. *)
Definition pool_ms := [blkm [1;3;3] 0 false; blkm [1;2;2] 9 false; blkm [1;3;3] 13 false; blkm [1;2;2] 22 false]%N.
Definition pool_st := bt [1;2;3;4;5;6;7;8;9; 5;6;8;9; 0;0;0;0;0;0;0;0;5; 1;10;100;1000]%Z pool_ms.
Example C69_pool_input_case : exists P, does pool_st (pool_bp 0 1 2 3 [1;3;3] [1;2;2] 2 2)%N (within (blkm [1;3;3]%N 13 false)) P
  /\ ran (pool_bp 0 1 2 3 [1;3;3] [1;2;2] 2 2)%N pool_st (blkm [1;3;3]%N 13 false) = Some [0;0;0;0;1;10;0;100;1005]%Z.
Proof.
  eexists. split; [|vm_compute; reflexivity].
  apply (C69_pool_input pool_st 0 1 2 3 (MkNode KMat (blkm [1;3;3]%N 0 false)) (MkNode KMat (blkm [1;2;2]%N 9 false)) (MkNode KMat (blkm [1;3;3]%N 13 false)) (MkNode KMat (blkm [1;2;2]%N 22 false)) 1 3 3 2 2); hyps.
Qed.
Example C69_pool_derivatives_case : exists P, does pool_st (pool_der 0 1 2 3 [1;3;3] [1;2;2] 2 2)%N (within (blkm [1;2;2]%N 22 false)) P
  /\ ran (pool_der 0 1 2 3 [1;3;3] [1;2;2] 2 2)%N pool_st (blkm [1;2;2]%N 22 false) = Some [0;0;0;5]%Z.
Proof.
  eexists. split; [|vm_compute; reflexivity].
  apply (C69_pool_derivatives pool_st 0 1 2 3 (MkNode KMat (blkm [1;3;3]%N 0 false)) (MkNode KMat (blkm [1;2;2]%N 9 false)) (MkNode KMat (blkm [1;3;3]%N 13 false)) (MkNode KMat (blkm [1;2;2]%N 22 false)) 1 3 3 2 2); hyps.
  intros f x y Hf. inversion_clear Hf as [|? ? ? ? _ Hf1]. inversion_clear Hf1 as [|? ? ? ? Hx Hf2]. inversion_clear Hf2 as [|? ? ? ? Hy _].
  assert (Ex : x = 0%N \/ x = 1%N) by (change (x < 2)%N in Hx; lia). assert (Ey : y = 0%N \/ y = 1%N) by (change (y < 2)%N in Hy; lia).
  destruct Ex as [-> | ->], Ey as [-> | ->]; vm_compute; discriminate.
Qed.
Definition up_st := bt [7;7; 1;2;3;4;5;6;7;8]%Z [blkm [1;1;2] 0 false; blkm [1;2;4] 2 false]%N.
Example C69_up_input_case : exists P, does up_st (up_bp 0 1 [1;1;2] 2 2)%N (within (blkm [1;1;2]%N 0 false)) P
  /\ ran (up_bp 0 1 [1;1;2] 2 2)%N up_st (blkm [1;1;2]%N 0 false) = Some [14; 22]%Z.
Proof.
  eexists. split; [|vm_compute; reflexivity].
  apply (C69_up_input up_st 0 1 (MkNode KMat (blkm [1;1;2]%N 0 false)) (MkNode KMat (blkm [1;2;4]%N 2 false)) 1 1 2 2 2); hyps.
Qed.
End Cases.
