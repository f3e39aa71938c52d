(** * P_Adj: the errors and updates of each layer against derivatives (claim C70)
    [slope F d x idx s]: [s] is the derivative with respect to cell [idx] of [x]
    of the cells of [F x] weighted with [d].  [g_conv_in] etc. are what the model
    computes (C69).  [a] is the derivative below, [p] the error gathered so far. *)
From Coq Require Import Reals Lra.
From Verif Require Import Base Num NumReal Spec FwdSpec FwdTotal BwdSpec AdjSpec AdjConv AdjDeconv AdjPool AdjBad.
From Coq Require Import Lia.
Open Scope R_scope.
#[local] Existing Instance NumR.
Notation inr := (Forall2 (fun i d => (i < d)%N)).

Section Conv.
Variables (nf ow oh c w h kw kh sx sy : N) (d b wt x : vten R).
Let osh := [nf; ow; oh].
Let xsh := [c; w; h].
Let wsh := [nf; c; kw; kh].
(** Convolution with square kernels. *)
Theorem C70_conv_input : (0 < c)%N -> (0 < kw)%N -> (0 < kh)%N -> ((ow - 1) * sx + kw <= w)%N -> ((oh - 1) * sy + kh <= h)%N ->
  shaped osh d -> shaped osh b -> shaped wsh wt -> shaped xsh x -> forall a p, kw = kh -> shaped xsh a -> shaped xsh p ->
  exists g, g_conv_in kw sx sy d wt a p = Some g /\ shaped xsh g /\ forall idx, inr idx xsh ->
  exists s, slope (v_conv kw kh sx sy (fun v => v) b wt) d x idx s /\ ent g idx = ent p idx + s * ent a idx.
Proof. exact (fun Hc Hkw Hkh Hfx Hfy => conv_x_grad nf ow oh c w h kw kh sx sy Hc Hkw Hkh Hfx Hfy d b wt x). Qed.
(** Convolution with equal steps. *)
Theorem C70_conv_weights : (0 < c)%N -> (0 < kw)%N -> (0 < kh)%N -> ((ow - 1) * sx + kw <= w)%N -> ((oh - 1) * sy + kh <= h)%N ->
  shaped osh d -> shaped osh b -> shaped wsh wt -> shaped xsh x -> forall m, sx = sy -> (0 < ow)%N -> (0 < oh)%N -> shaped wsh m ->
  exists g, g_conv_w sy d x wt m = Some g /\ shaped wsh g /\ forall idx, inr idx wsh ->
  exists s, slope (fun wt => v_conv kw kh sx sy (fun v => v) b wt x) d wt idx s /\ ent g idx = ent wt idx + s + ent m idx.
Proof. exact (fun Hc Hkw Hkh Hfx Hfy => conv_w_grad nf ow oh c w h kw kh sx sy Hc Hkw Hkh Hfx Hfy d b wt x). Qed.
Theorem C70_conv_bias : (0 < c)%N -> (0 < kw)%N -> (0 < kh)%N -> ((ow - 1) * sx + kw <= w)%N -> ((oh - 1) * sy + kh <= h)%N ->
  shaped osh d -> shaped osh b -> shaped wsh wt -> shaped xsh x -> forall idx, inr idx osh ->
  slope (fun b => v_conv kw kh sx sy (fun v => v) b wt x) d b idx (ent d idx).
Proof. exact (fun Hc Hkw Hkh Hfx Hfy => conv_b_slope nf ow oh c w h kw kh sx sy Hc Hkw Hkh Hfx Hfy d b wt x). Qed.
End Conv.
Section Deconv.
Variables (nf ow oh c w h kw kh sx sy : N) (d b wt x : vten R).
Let osh := [nf; ow; oh].
Let xsh := [c; w; h].
Let wsh := [nf; c; kw; kh].
Theorem C70_deconv_input : ((w - 1) * sx + kw <= ow)%N -> ((h - 1) * sy + kh <= oh)%N ->
  shaped osh d -> shaped osh b -> shaped wsh wt -> shaped xsh x -> forall a p, (0 < nf)%N -> (0 < kw)%N -> (0 < kh)%N -> shaped xsh a -> shaped xsh p ->
  exists g, g_deconv_in kw kh sx sy d wt a p = Some g /\ shaped xsh g /\ forall idx, inr idx xsh ->
  exists s, slope (v_deconv kw kh sx sy (fun v => v) b wt) d x idx s /\ ent g idx = ent p idx + s * ent a idx.
Proof. exact (fun Hfx Hfy => deconv_x_grad nf ow oh c w h kw kh sx sy Hfx Hfy d b wt x). Qed.
Theorem C70_deconv_weights : ((w - 1) * sx + kw <= ow)%N -> ((h - 1) * sy + kh <= oh)%N ->
  shaped osh d -> shaped osh b -> shaped wsh wt -> shaped xsh x -> forall m, (0 < w)%N -> (0 < h)%N -> shaped wsh m ->
  exists g, g_deconv_w sx sy d x wt m = Some g /\ shaped wsh g /\ forall idx, inr idx wsh ->
  exists s, slope (fun wt => v_deconv kw kh sx sy (fun v => v) b wt x) d wt idx s /\ ent g idx = ent wt idx + s + ent m idx.
Proof. exact (fun Hfx Hfy => deconv_w_grad nf ow oh c w h kw kh sx sy Hfx Hfy d b wt x). Qed.
Theorem C70_deconv_bias : shaped osh d -> shaped osh b -> shaped wsh wt -> shaped xsh x -> forall idx, inr idx osh ->
  slope (fun b => v_deconv kw kh sx sy (fun v => v) b wt x) d b idx (ent d idx).
Proof. exact (deconv_b_slope nf ow oh c w h kw kh sx sy d b wt x). Qed.
End Deconv.
Section Dense.
Variables (o : N) (xsh : list N) (d b wt x : vten R).
Theorem C70_dense_input : (0 < o)%N -> shaped [o] d -> shaped [o] b -> shaped [o; prodN xsh] wt -> shaped xsh x -> forall a p, shaped xsh a -> shaped xsh p ->
  exists g, g_dense_in d wt a p = Some g /\ shaped xsh g /\ forall idx, inr idx xsh ->
  exists s, slope (v_dense (fun v => v) b wt) d x idx s /\ ent g idx = ent p idx + s * ent a idx.
Proof. exact (fun Ho => dense_x_grad o xsh Ho d b wt x). Qed.
Theorem C70_dense_weights : shaped [o] d -> shaped [o] b -> shaped [o; prodN xsh] wt -> shaped xsh x -> forall al mo m, shaped [o; prodN xsh] m ->
  exists g, g_dense_w al mo d x wt m = Some g /\ shaped [o; prodN xsh] g /\ forall idx, inr idx [o; prodN xsh] ->
  exists s, slope (fun wt => v_dense (fun v => v) b wt x) d wt idx s /\ ent g idx = ent wt idx + ent m idx * mo + al * s.
Proof. exact (dense_w_grad o xsh d b wt x). Qed.
Theorem C70_dense_bias : shaped [o] d -> shaped [o] b -> shaped [o; prodN xsh] wt -> shaped xsh x -> forall al mo m, shaped [o] m ->
  exists g, g_dense_b al mo d b m = Some g /\ shaped [o] g /\ forall idx, inr idx [o] ->
  exists s, slope (fun b => v_dense (fun v => v) b wt x) d b idx s /\ ent g idx = ent b idx + ent m idx * mo + al * s.
Proof. exact (dense_b_grad o xsh d b wt x). Qed.
End Dense.
Theorem C70_up (c w h sx sy : N) : (0 < sx)%N -> (0 < sy)%N -> forall d x, shaped [c; w * sx; h * sy]%N d -> shaped [c; w; h] x ->
  exists g, g_up sx sy d [c; w; h] = Some g /\ shaped [c; w; h] g /\ forall idx, inr idx [c; w; h] -> slope (v_up sx sy) d x idx (ent g idx).
Proof. exact (up_grad c w h sx sy). Qed.
(** Max pooling, at cells whose value occurs only once in their window
    ([wcells sx sy w h o]: the cells of the window of the output cell [o]). *)
Section Pool.
Variables (c w h sx sy : N) (x d : vten R).
Let osh := [c; (w + 1) / sx; (h + 1) / sy]%N.
Theorem C70_pool_input : shaped [c; w; h] x -> shaped osh d -> (forall o, inr o osh -> wcells w h sx sy o <> []) -> forall p, shaped [c; w; h] p ->
  exists y g, v_pool sx sy x = Some y /\ g_pool sx sy d x y p = Some g /\ shaped [c; w; h] g /\ forall idx, inr idx [c; w; h] ->
  (forall o q, inr o osh -> idx ∈ wcells w h sx sy o -> q ∈ wcells w h sx sy o -> q <> idx -> ent x q <> ent x idx) ->
  exists s, slope (v_pool sx sy) d x idx s /\ ent g idx = ent p idx + s.
Proof. exact (pool_grad c w h sx sy x d). Qed.
Theorem C70_pool_derivative : shaped [c; w; h] x -> (forall o, inr o osh -> wcells w h sx sy o <> []) -> forall y a g,
  v_pool sx sy x = Some y -> shaped [c; w; h] a -> g_pool_der sx sy x y a = Some g -> forall o q, inr o osh ->
  q ∈ wcells w h sx sy o -> (forall q', q' ∈ wcells w h sx sy o -> q' <> q -> ent x q' < ent x q) -> ent g o = ent a q.
Proof. exact (pool_der_one c w h sx sy x). Qed.
End Pool.
(** A kernel higher than wide loses errors; different steps mix up the cells. *)
Theorem C70_tall_kernel_refuted : exists d b wt x a p idx g s, g_conv_in 1 1 1 d wt a p = Some g /\
  slope (v_conv 1 2 1 1 (fun v => v) b wt) d x idx s /\ inr idx (vsh x) /\ ent g idx <> ent p idx + s * ent a idx.
Proof.
  destruct tall as (g & s & Hg & Hs & E & ->). exists bd, bb, bw, bx, bone, bzero, [0; 0; 1]%N, g, 1. repeat split; try assumption; [repeat constructor|].
  rewrite E. cbv -[Rplus Rmult IZR]. lra.
Qed.
Theorem C70_unequal_steps_refuted : exists d b wt x m idx g s, g_conv_w 1 d x wt m = Some g /\
  slope (fun wt => v_conv 1 1 2 1 (fun v => v) b wt x) d wt idx s /\ inr idx (vsh wt) /\ ent g idx <> ent wt idx + s + ent m idx.
Proof.
  destruct skew as (g & s & Hg & Hs & E & ->). exists sd_, sb_, sw_, sx_, sm_, [0; 0; 0; 0]%N, g, 6. repeat split; try assumption; [repeat constructor|].
  rewrite E. cbv -[Rplus Rmult IZR]. lra.
Qed.
(** There is never more than one slope. *)
Theorem C70_one_slope F d x idx s s' : slope F d x idx s -> slope F d x idx s' -> s = s'.
Proof. exact (slope_fun F d x idx s s'). Qed.

(** Cases: two by two kernels on three by three cells, step one. *)
Definition v9 : vten R := V [1; 3; 3]%N [1; 2; 3; 4; 5; 6; 7; 8; 9].
Definition v4 : vten R := V [1; 2; 2]%N [1; 10; 100; 1000].
Definition k4 : vten R := V [1; 1; 2; 2]%N [1; 2; 3; 4].
Example C70_conv_case : exists g, g_conv_in 2 1 1 v4 k4 v9 v9 = Some g /\ shaped [1; 3; 3]%N g /\ ent g [0; 1; 1]%N = 6175.
Proof.
  destruct (C70_conv_input 1 2 2 1 3 3 2 2 1 1 v4 v4 k4 v9 ltac:(lia) ltac:(lia) ltac:(lia) ltac:(lia) ltac:(lia) ltac:(split; reflexivity) ltac:(split; reflexivity) ltac:(split; reflexivity) ltac:(split; reflexivity)
    v9 v9 eq_refl ltac:(split; reflexivity) ltac:(split; reflexivity)) as (g & Hg & Hs & _).
  exists g. split; [exact Hg|]. split; [exact Hs|]. injection Hg as <-. cbv -[Rplus Rmult IZR]. lra.
Qed.
Example C70_conv_weights_case : exists g, g_conv_w 1 v4 v9 k4 k4 = Some g /\ shaped [1; 1; 2; 2]%N g /\ ent g [0; 0; 0; 1]%N = 6536.
Proof.
  destruct (C70_conv_weights 1 2 2 1 3 3 2 2 1 1 v4 v4 k4 v9 ltac:(lia) ltac:(lia) ltac:(lia) ltac:(lia) ltac:(lia) ltac:(split; reflexivity) ltac:(split; reflexivity) ltac:(split; reflexivity) ltac:(split; reflexivity)
    k4 eq_refl ltac:(lia) ltac:(lia) ltac:(split; reflexivity)) as (g & Hg & Hs & _).
  exists g. split; [exact Hg|]. split; [exact Hs|]. injection Hg as <-. cbv -[Rplus Rmult IZR]. lra.
Qed.
Example C70_deconv_case : exists g, g_deconv_in 2 2 1 1 v9 k4 v4 v4 = Some g /\ shaped [1; 2; 2]%N g.
Proof.
  destruct (C70_deconv_input 1 3 3 1 2 2 2 2 1 1 v9 v9 k4 v4 ltac:(lia) ltac:(lia) ltac:(split; reflexivity) ltac:(split; reflexivity) ltac:(split; reflexivity) ltac:(split; reflexivity)
    v4 v4 ltac:(lia) ltac:(lia) ltac:(lia) ltac:(split; reflexivity) ltac:(split; reflexivity)) as (g & Hg & Hs & _). eauto.
Qed.
Example C70_dense_case : exists g, g_dense_in (V [2]%N [1; 10]) (V [2; 4]%N [1; 2; 3; 4; 5; 6; 7; 8]) v4 v4 = Some g /\ shaped [1; 2; 2]%N g /\ ent g [0; 0; 1]%N = 630.
Proof.
  destruct (C70_dense_input 2 [1; 2; 2]%N (V [2]%N [1; 10]) (V [2]%N [1; 10]) (V [2; 4]%N [1; 2; 3; 4; 5; 6; 7; 8]) v4 ltac:(lia) ltac:(split; reflexivity) ltac:(split; reflexivity) ltac:(split; reflexivity) ltac:(split; reflexivity)
    v4 v4 ltac:(split; reflexivity) ltac:(split; reflexivity)) as (g & Hg & Hs & _). exists g. split; [exact Hg|]. split; [exact Hs|]. injection Hg as <-. cbv -[Rplus Rmult IZR]. lra.
Qed.
(** Two windows of two cells; all values differ. *)
Example C70_pool_case : exists y g s, v_pool 2 2 v9 = Some y /\ g_pool 2 2 v4 v9 y v9 = Some g /\ slope (v_pool 2 2) v4 v9 [0; 1; 1]%N s /\ ent g [0; 1; 1]%N = 5 + s.
Proof.
  destruct (C70_pool_input 1 3 3 2 2 v9 v4 ltac:(split; reflexivity) ltac:(split; reflexivity)) with (p := v9) as (y & g & Hy & Hg & Hs & Hd).
  - intros o Ho. apply AdjSum.inr3 in Ho as (f & X & Y & -> & Hf & HX & HY). assert (f = 0%N) as -> by lia.
    assert (EX : X = 0%N \/ X = 1%N) by (change (X < 2)%N in HX; lia). assert (EY : Y = 0%N \/ Y = 1%N) by (change (Y < 2)%N in HY; lia).
    destruct EX as [-> | ->], EY as [-> | ->]; vm_compute; discriminate.
  - split; reflexivity.
  - destruct (Hd [0; 1; 1]%N) as (s & Hsl & E); [repeat constructor| |exists y, g, s; repeat split; try assumption; exact E].
    intros o q Ho _ Hq Hne. apply AdjSum.inr3 in Ho as (f & X & Y & -> & Hf & HX & HY). apply AdjPool.wcells_in with (c := 1%N) in Hq; [|apply AdjSum.mk3; assumption].
    apply AdjSum.inr3 in Hq as (a & i & j & -> & Ha & Hi & Hj). assert (a = 0%N) as -> by lia.
    assert (Ei : i = 0%N \/ i = 1%N \/ i = 2%N) by lia. assert (Ej : j = 0%N \/ j = 1%N \/ j = 2%N) by lia.
    destruct Ei as [-> |[-> | ->]], Ej as [-> |[-> | ->]]; try congruence; cbv -[Rplus Rmult IZR]; lra.
Qed.
Example C70_up_case : exists g, g_up 2 2 (V [1; 2; 2]%N [1; 10; 100; 1000]) [1; 1; 1]%N = Some g /\ ent g [0; 0; 0]%N = 1111.
Proof.
  destruct (C70_up 1 1 1 2 2 ltac:(lia) ltac:(lia) v4 (V [1; 1; 1]%N [0]) ltac:(split; reflexivity) ltac:(split; reflexivity)) as (g & Hg & _). exists g. split; [exact Hg|].
  injection Hg as <-. cbv -[Rplus Rmult IZR]. lra.
Qed.
Print Assumptions C70_conv_input.
Print Assumptions C70_conv_weights.
Print Assumptions C70_conv_bias.
Print Assumptions C70_deconv_input.
Print Assumptions C70_deconv_weights.
Print Assumptions C70_deconv_bias.
Print Assumptions C70_dense_input.
Print Assumptions C70_dense_weights.
Print Assumptions C70_dense_bias.
Print Assumptions C70_up.
Print Assumptions C70_pool_input.
Print Assumptions C70_pool_derivative.
Print Assumptions C70_tall_kernel_refuted.
Print Assumptions C70_unequal_steps_refuted.
Print Assumptions C70_one_slope.
