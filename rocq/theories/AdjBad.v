(** * AdjBad: where the errors and weights are not the slopes *)
From Coq Require Import Reals Lra.
From Verif Require Import Base Num NumReal ModelTools Spec IndexProofs FwdSpec FwdTotal GradSpec GradProofs BwdSpec AdjSpec AdjSum AdjConv.
From Coq Require Import Lia.
Open Scope R_scope.
#[local] Existing Instance NumR.

Lemma slope_fun F d x idx s s' : slope F d x idx s -> slope F d x idx s' -> s = s'.
Proof.
  intros (f & Hf & Lf) (g & Hg & Lg). apply (uniqueness_limite f (ent x idx)); [exact Lf|]. refine (lim_ext g f _ _ _ Lg). intros r.
  destruct (Hf r) as (y & Ey & ->). destruct (Hg r) as (y' & Ey' & ->). rewrite Ey in Ey'. injection Ey' as <-. reflexivity.
Qed.
(** One filter of one by two cells that sees its whole input: the error of the
    second input cell stays zero. *)
Definition bx : vten R := V [1; 1; 2]%N [1; 1].
Definition bw : vten R := V [1; 1; 1; 2]%N [1; 1].
Definition bd : vten R := V [1; 1; 1]%N [1].
Definition bb : vten R := V [1; 1; 1]%N [0].
Definition bone : vten R := V [1; 1; 2]%N [1; 1].
Definition bzero : vten R := V [1; 1; 2]%N [0; 0].
Lemma tall : exists g s, g_conv_in 1 1 1 bd bw bone bzero = Some g /\ slope (v_conv 1 2 1 1 (fun v => v) bb bw) bd bx [0; 0; 1]%N s /\
  ent g [0; 0; 1]%N = 0 /\ s = 1.
Proof.
  eexists _, _. split; [reflexivity|]. split.
  { apply (conv_x_slope 1 1 1 1 1 2 1 2 1 1); try lia; split; reflexivity. }
  split; [reflexivity|]. cbv -[Rplus Rmult IZR]. lra.
Qed.
(** Step two along the first axis, one along the second: the weights learn from
    the cells 0 and 1 instead of 0 and 2. *)
Definition sx_ : vten R := V [1; 3; 1]%N [1; 2; 5].
Definition sw_ : vten R := V [1; 1; 1; 1]%N [1].
Definition sd_ : vten R := V [1; 2; 1]%N [1; 1].
Definition sb_ : vten R := V [1; 2; 1]%N [0; 0].
Definition sm_ : vten R := V [1; 1; 1; 1]%N [0].
Lemma skew : exists g s, g_conv_w 1 sd_ sx_ sw_ sm_ = Some g /\ slope (fun w => v_conv 1 1 2 1 (fun v => v) sb_ w sx_) sd_ sw_ [0; 0; 0; 0]%N s /\
  ent g [0; 0; 0; 0]%N = 1 + 3 + 0 /\ s = 6.
Proof.
  eexists _, _. split; [reflexivity|]. split.
  { apply (conv_w_slope 1 2 1 1 3 1 1 1 2 1); try lia; split; reflexivity. }
  split; [cbv -[Rplus Rmult IZR]; lra|]. cbv -[Rplus Rmult IZR]. lra.
Qed.
