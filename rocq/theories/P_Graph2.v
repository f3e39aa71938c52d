(** * Further properties of graphs: C18, C21, C23, C24, C25, C26 *)
From Verif Require Import Base Num ModelTools ModelOps ModelContext ModelTensor ModelGraph Spec Denote GraphSpec
  IndexProofs DenoteDec ExecProofs CompileProofs ObjSpec ObjDec ContextProofs IllProofs CountProofs TransferProofs.

Section Properties.
Context {T : Type} `{Num T}.
Implicit Types s : tst T.

(** C18: [n] contexts over a heap with arbitrary content, [ops] any interleaving
    of pushes to them: reading a context gives what was pushed to it, in order. *)
Theorem C18_contexts_are_queues {A} heap n (ops : list (nat * A)) :
  Forall (fun p => fst p < n) ops -> (N.of_nat (length ops) < W64)%N ->
  exists w, push_all (new_world heap n) ops = Ok w /\
    forall k, k < n -> exists c, ctx_at w k = Some c /\ GetOps c = Ok (pushed k ops).
Proof. exact (contexts_are_queues heap n ops). Qed.
Theorem C18_execution_order (o : op T) r m :
  Exec (MkGraph (o :: r)) m = match cal o m with Some m' => Exec (MkGraph r) m' | None => None end.
Proof. exact (exec_order o r m). Qed.
Theorem C18_appended_graph_runs_after (p g : graph T) m :
  Exec (AddFromGraph p g) m = match Exec p m with Some m' => Exec g m' | None => None end.
Proof. exact (exec_append p g m). Qed.
Theorem C18_copied_graph (g : graph T) m : Exec (NewFromGraph g) m = Exec g m.
Proof. exact (exec_copy g m). Qed.

(** C21 *)
Theorem C21_ill_shaped_is_refused_partial s id e :
  denotes (length (mem s)) (tens s) id e -> uncompiled (tens s) id -> ill (leafsh (tens s)) e ->
  exists er s', NewGraph id s = (Err er, s').
Proof. exact (NewGraph_refuses s id e). Qed.

(** C23: both objects exist with their scalars; [new] are the operations
    appended to the context. *)
Theorem C23_transfer_partial s f t nf nt :
  tens s !! f = Some nf -> tens s !! t = Some nt -> settled nf -> settled nt ->
  Forall (valid (length (mem s))) (operands (nmat nf)) -> Forall (valid (length (mem s))) (operands (nmat nt)) ->
  length (operands (nmat nf)) = length (operands (nmat nt)) -> NoDup (operands (nmat nt)) ->
  read_first (operands (nmat nf)) (operands (nmat nt)) ->
  exists s' new, Transfer f t s = (Ok tt, s') /\ mem s' = mem s /\ ctx s' = ctx s ++ new /\
    (forall j n, tens s !! j = Some n -> exists n', tens s' !! j = Some n' /\ same_mat n n') /\
    forall m, length (mem s) <= length m -> exists m', exec new m = Some m' /\
      rds m' (operands (nmat nt)) = rds m (operands (nmat nf)) /\
      forall l, Some l ∉ operands (nmat nt) -> m' !! l = m !! l.
Proof. exact (transfer_settled s f t nf nt). Qed.
(** The source may be an expression, compiled on the way; the target then holds
    its value after every execution. *)
Theorem C23_transfer_expression_partial s f e sh t mt :
  denotes (length (mem s)) (tens s) f e -> uncompiled (tens s) f ->
  shape_of (leafsh (tens s)) e = Some sh -> no_crossing (leafsh (tens s)) e ->
  tens s !! t = Some (MkNode KMat mt) -> wf_mat (length (mem s)) mt -> NoDup (operands mt) ->
  N.to_nat (prodN sh) = length (operands mt) ->
  exists s' nf, (new_ctx ;~ Transfer f t) s = (Ok tt, s') /\ (exists ext, mem s' = mem s ++ ext) /\
    tens s' !! f = Some nf /\
    (read_first (operands (nmat nf)) (operands mt) ->
     forall m, history (MkGraph (ctx s')) (length (mem s)) (mem s') m ->
      match eval (leafv (tens s) m) (fun x => m !! x) e with
      | Some v => exists m', exec (ctx s') m = Some m' /\ rds m' (operands mt) = Some (vdata v) /\
          (forall l, l < length (mem s) -> Some l ∉ operands mt -> m' !! l = m !! l)
      | None => exec (ctx s') m = None
      end).
Proof. exact (transfer_expr s f e sh t mt). Qed.
Theorem C23_other_size_is_refused s f t nf nt :
  tens s !! f = Some nf -> tens s !! t = Some nt -> settled nf -> settled nt ->
  length (operands (nmat nf)) <> length (operands (nmat nt)) ->
  exists s', Transfer f t s = (Err (ECopySize (length (operands (nmat nf))) (length (operands (nmat nt)))), s').
Proof. exact (transfer_refused s f t nf nt). Qed.
Theorem C23_fill s t nt v :
  tens s !! t = Some nt -> settled nt -> Forall (valid (length (mem s))) (operands (nmat nt)) -> v < length (mem s) ->
  exists s' new, Fill t (Some v) s = (Ok tt, s') /\ mem s' = mem s /\ ctx s' = ctx s ++ new /\
    (forall j n, tens s !! j = Some n -> exists n', tens s' !! j = Some n' /\ same_mat n n') /\
    forall m x, length (mem s) <= length m -> m !! v = Some x -> exists m', exec new m = Some m' /\
      rds m' (operands (nmat nt)) = Some (replicate (length (operands (nmat nt))) x) /\
      forall l, Some l ∉ operands (nmat nt) -> m' !! l = m !! l.
Proof. exact (fill_settled s t nt v). Qed.

(** C24 *)
Theorem C24_flatten_plain_tensor_partial s t mt d :
  tens s !! t = Some (MkNode KMat mt) -> wf_mat (length (mem s)) mt -> mval (mem s) mt = Some (V (shape mt) d) ->
  exists id s1 g s2 s3 n, Flatten t s = (Ok id, s1) /\ NewGraph id s1 = (Ok g, s2) /\ ExecM g s2 = (Ok tt, s3) /\
    GetData id s3 = (Ok d, s3) /\ tens s3 !! id = Some n /\ shape (nmat n) = [N.of_nat (length d)].
Proof. exact (flatten_plain s t mt d). Qed.

(** C25: at every later moment, whatever was written to the inputs and whether
    or not the graph was executed, the view's data is the rearrangement of the
    current data of its sources. *)
Theorem C25_views_are_live s id e sh :
  denotes (length (mem s)) (tens s) id e -> uncompiled (tens s) id ->
  shape_of (leafsh (tens s)) e = Some sh -> no_crossing (leafsh (tens s)) e -> rearranges e ->
  exists g s', NewGraph id s = (Ok g, s') /\
    forall s2, tens s2 = tens s' -> history g (length (mem s)) (mem s') (mem s2) ->
      exists v, eval (leafv (tens s2) (mem s2)) (fun x => mem s2 !! x) e = Some v /\
        GetData id s2 = (Ok (vdata v), s2).
Proof. exact (view_live s id e sh). Qed.
Theorem C25_set_then_read_view s id e sh :
  denotes (length (mem s)) (tens s) id e -> uncompiled (tens s) id ->
  shape_of (leafsh (tens s)) e = Some sh -> no_crossing (leafsh (tens s)) e -> rearranges e ->
  exists g s', NewGraph id s = (Ok g, s') /\
    forall j u x idx s2, leafv (tens s) (mem s) j = Some u -> Set_ j x idx s' = (Ok tt, s2) ->
      exists v, eval (leafv (tens s2) (mem s2)) (fun x => mem s2 !! x) e = Some v /\
        GetData id s2 = (Ok (vdata v), s2).
Proof. exact (view_set s id e sh). Qed.
Theorem C25_view_execution_does_nothing s id e sh :
  denotes (length (mem s)) (tens s) id e -> uncompiled (tens s) id ->
  shape_of (leafsh (tens s)) e = Some sh -> no_crossing (leafsh (tens s)) e -> rearranges e ->
  exists g s', NewGraph id s = (Ok g, s') /\ forall m, Exec g m = Some m.
Proof. exact (view_quiet s id e sh). Qed.

(** C26: [js] are the objects used by [id] (each once, however often it is
    used), [es] the expressions they stand for, [segs] the operations emitted
    for each: as many as the outermost operation of its expression costs. *)
Theorem C26_each_subexpression_once s id e sh :
  denotes (length (mem s)) (tens s) id e -> uncompiled (tens s) id ->
  shape_of (leafsh (tens s)) e = Some sh -> no_crossing (leafsh (tens s)) e ->
  exists g s' js es segs, NewGraph id s = (Ok g, s') /\
    NoDup js /\ (forall j, j ∈ js <-> below (tens s) id j /\ unbuilt s j) /\
    Forall2 (denotes (length (mem s)) (tens s)) js es /\
    Forall2 (seg_ok (leafsh (tens s))) es segs /\ g_ops g = concat segs /\
    Build id s' = (Ok tt, s').
Proof. exact (compile_counts s id e sh). Qed.
End Properties.
Print Assumptions C18_contexts_are_queues.
Print Assumptions C18_execution_order.
Print Assumptions C18_appended_graph_runs_after.
Print Assumptions C18_copied_graph.
Print Assumptions C21_ill_shaped_is_refused_partial.
Print Assumptions C23_transfer_partial.
Print Assumptions C23_transfer_expression_partial.
Print Assumptions C23_other_size_is_refused.
Print Assumptions C23_fill.
Print Assumptions C24_flatten_plain_tensor_partial.
Print Assumptions C25_views_are_live.
Print Assumptions C25_set_then_read_view.
Print Assumptions C25_view_execution_does_nothing.
Print Assumptions C26_each_subexpression_once.

(** ** Concrete cases *)
#[local] Existing Instance NumI32.
(* existential goals one conjunct at a time, so that nothing is evaluated symbolically *)
Ltac conjs := repeat match goal with |- _ /\ _ => split; [vm_compute; reflexivity|] end; vm_compute; reflexivity.
Definition run {A} (c : TM Z A) : res A * tst Z := c (MkSt [] [] []).

Example C18_case :
  match push_all (new_world [] 2) [(0, 10); (1, 20); (0, 11); (1, 21); (0, 12)] with
  | Ok w => (fun c => GetOps c) <$> ctx_at w 0 = Some (Ok [10; 11; 12]) /\
            (fun c => GetOps c) <$> ctx_at w 1 = Some (Ok [20; 21])
  | _ => False
  end.
Proof. vm_compute. split; reflexivity. Qed.
Example C18_order_matters :
  Exec (AddFromGraph (MkGraph [OAdd (Some 0) (Some 0) (Some 0)]) (MkGraph [OMul (Some 0) (Some 0) (Some 0)])) [3%Z] = Some [36%Z] /\
  Exec (AddFromGraph (MkGraph [OMul (Some 0) (Some 0) (Some 0)]) (MkGraph [OAdd (Some 0) (Some 0) (Some 0)])) [3%Z] = Some [18%Z].
Proof. conjs. Qed.

(** -(a + b) . a with a : 2 x 3, b : 3 x 2 *)
Definition ill_st : tst Z :=
  snd (run (a <~ NewFromValues [1; 2; 3; 4; 5; 6]%Z [2; 3]%N ; b <~ NewFromValues [1; 2]%Z [3; 2]%N ;
            c <~ NewOp2 a b Op2Add ; d <~ NNeg c ; Dot d a)).
Definition ill_expr : expr Z := EMatMul (EMap nneg (EBin BAdd (ELeaf 0) (ELeaf 1))) (ELeaf 0).
Example C21_case :
  denotes (length (mem ill_st)) (tens ill_st) 4 ill_expr /\ uncompiled (tens ill_st) 4 /\ ill (leafsh (tens ill_st)) ill_expr.
Proof.
  split; [apply (unfold_expr_sound 5); reflexivity|]. split; [apply uncompiled_all; reflexivity|].
  apply Ill_mul_l, Ill_map. apply (Ill_bin_here _ _ _ _ [2; 3]%N [3; 2]%N);
    [split; [vm_compute; reflexivity|exact I]|split; [vm_compute; reflexivity|exact I]|discriminate].
Qed.

(** "Every time it is attempted" is false: the flag that marks an object as
    compiled is set before its operands are checked, so a second attempt on the
    same object succeeds, with an empty result. *)
Theorem C21_every_time_refuted :
  exists (s : tst Z) id e, denotes (length (mem s)) (tens s) id e /\ uncompiled (tens s) id /\ ill (leafsh (tens s)) e /\
    exists er s1 g s2, NewGraph id s = (Err er, s1) /\ NewGraph id s1 = (Ok g, s2) /\ g_ops g = [] /\ GetData id s2 = (Ok [], s2).
Proof.
  exists ill_st, 4, ill_expr. destruct C21_case as (Hd & Hu & Hi). repeat (split; [assumption|]).
  eexists _, _, _, _. conjs.
Qed.
(** A contraction over a dimension that does not exist panics. *)
Theorem C21_missing_dimension_refuted :
  exists (s : tst Z) id s', tens s !! id = Some (MkNode (KDot 0 0 (Some (5, 0)%N)) empty_mat) /\ NewGraph id s = (Panic, s').
Proof.
  exists (snd (run (a <~ NewFromValues [1; 2; 3; 4]%Z [2; 2]%N ; DotAt a a 5 0))), 1. eexists. conjs.
Qed.
(** Joining 2 x 1 x 2 and 2 x 2 x 3 along dimension 1 succeeds, though their last
    dimensions differ, and loses elements. *)
Theorem C21_join_refuted :
  exists (s : tst Z) id g s', tens s !! id = Some (MkNode (KConcat 0 1 1%N) empty_mat) /\
    leafsh (tens s) 0 = Some [2; 1; 2]%N /\ leafsh (tens s) 1 = Some [2; 2; 3]%N /\
    NewGraph id s = (Ok g, s') /\ exists d, GetData id s' = (Ok d, s') /\ length d = 12.
Proof.
  exists (snd (run (a <~ NewFromValues [1; 2; 3; 4]%Z [2; 1; 2]%N ;
                    b <~ NewFromValues [1; 2; 3; 4; 5; 6; 7; 8; 9; 10; 11; 12]%Z [2; 2; 3]%N ; NConcat a b 1))), 2.
  eexists _, _. do 4 (split; [vm_compute; reflexivity|]). eexists. conjs.
Qed.

(** C23: a 2 x 2 target overwritten by a product of two tensors *)
Definition tr_st : tst Z :=
  snd (run (a <~ NewFromValues [1; 2; 3; 4]%Z [2; 2]%N ; b <~ NewFromValues [5; 6; 7; 8]%Z [2; 2]%N ;
            t <~ NewZeros [2; 2]%N ; c <~ Dot a b ; mret tt)).
Example C23_case :
  denotes (length (mem tr_st)) (tens tr_st) 3 (EMatMul (ELeaf 0) (ELeaf 1)) /\ uncompiled (tens tr_st) 3 /\
  exists s', (new_ctx ;~ Transfer 3 2) tr_st = (Ok tt, s') /\
    match exec (ctx s') (mem s') with
    | Some m => rds m (cells s' 2) = Some [19; 22; 43; 50]%Z
    | None => False
    end.
Proof.
  split; [apply (unfold_expr_sound 4); vm_compute; reflexivity|]. split; [apply uncompiled_all; reflexivity|].
  eexists. conjs.
Qed.
Example C23_read_first_case :
  exists s' nf nt, (new_ctx ;~ Transfer 3 2) tr_st = (Ok tt, s') /\ tens s' !! 3 = Some nf /\ tens s' !! 2 = Some nt /\
    read_first (operands (nmat nf)) (operands (nmat nt)).
Proof.
  eexists _, _, _. split; [vm_compute; reflexivity|]. split; [vm_compute; reflexivity|]. split; [vm_compute; reflexivity|].
  intros i j p _ Hi Hj. apply elem_of_list_lookup_2 in Hi, Hj. cbn in Hi, Hj.
  repeat (apply elem_of_cons in Hi as [->|Hi]; [revert Hj; rewrite !elem_of_cons, elem_of_nil; intros; naive_solver|]).
  inversion Hi.
Qed.
Example C23_fill_case :
  let s := snd (run (x <~ alloc 9%Z ; t <~ NewFromValues [1; 2; 3]%Z [3]%N ; new_ctx ;~ Fill t (Some 0))) in
  exec (ctx s) (mem s) = Some [9; 9; 9; 9]%Z.
Proof. vm_compute. reflexivity. Qed.
(** Transfer looks at the number of elements only. *)
Theorem C23_other_shape_refuted :
  exists (s : tst Z) s', leafsh (tens s) 0 = Some [2; 3]%N /\ leafsh (tens s) 1 = Some [3; 2]%N /\ Transfer 0 1 s = (Ok tt, s').
Proof.
  exists (snd (run (a <~ NewZeros [2; 3]%N ; NewZeros [3; 2]%N))). eexists. conjs.
Qed.
(** Without [read_first] the copy is wrong: transferring the transpose of a
    tensor into the tensor itself. *)
Theorem C23_in_place_refuted :
  exists (s : tst Z) s' m, leafv (tens s) (mem s) 0 = Some (V [2; 2]%N [1; 2; 3; 4]%Z) /\
    tens s !! 1 = Some (MkNode (KTranspose 0) empty_mat) /\
    (new_ctx ;~ Transfer 1 0) s = (Ok tt, s') /\ exec (ctx s') (mem s') = Some m /\
    rds m (cells s' 0) = Some [1; 3; 3; 4]%Z.
Proof.
  exists (snd (run (a <~ NewFromValues [1; 2; 3; 4]%Z [2; 2]%N ; Transpose a))). eexists _, _. conjs.
Qed.

(** C24 *)
Example C24_case :
  let s := snd (run (NewFromValues [1; 2; 3; 4; 5; 6]%Z [2; 3]%N)) in
  exists mt, tens s !! 0 = Some (MkNode KMat mt) /\ mval (mem s) mt = Some (V [2; 3]%N [1; 2; 3; 4; 5; 6]%Z).
Proof. cbv zeta. eexists. conjs. Qed.
(** Flatten of an operation that is not compiled yet: the size is read when the
    object is created, so the flattened tensor is empty. *)
Theorem C24_flatten_operation_refuted :
  exists (s : tst Z) id s1 g s2 s3, denotes (length (mem s)) (tens s) 1 (EMap nneg (ELeaf 0)) /\
    shape_of (leafsh (tens s)) (EMap nneg (ELeaf 0)) = Some [2; 2]%N /\
    Flatten 1 s = (Ok id, s1) /\ NewGraph id s1 = (Ok g, s2) /\ ExecM g s2 = (Ok tt, s3) /\ GetData id s3 = (Ok [], s3).
Proof.
  exists (snd (run (a <~ NewFromValues [1; 2; 3; 4]%Z [2; 2]%N ; NNeg a))), 2. eexists _, _, _, _.
  split; [apply (unfold_expr_sound 2); reflexivity|]. conjs.
Qed.

(** C25: the transpose of the last two columns of a 2 x 3 tensor; writing 70 at
    (1, 2) shows at (1, 1) of the view. *)
Definition view_st : tst Z :=
  snd (run (a <~ NewFromValues [1; 2; 3; 4; 5; 6]%Z [2; 3]%N ; b <~ SubTensor a 1 1 3 ; Transpose b)).
Example C25_case :
  denotes (length (mem view_st)) (tens view_st) 2 (ETrans (ESub (ELeaf 0) 1 1 3)) /\ uncompiled (tens view_st) 2 /\
  shape_of (leafsh (tens view_st)) (ETrans (ESub (ELeaf 0) 1 1 3) : expr Z) = Some [2; 2]%N /\
  let s1 := snd (NewGraph 2 view_st) in let s2 := snd (Set_ 0 70%Z [1; 2]%N s1) in
  fst (GetData 2 s1) = Ok [2; 5; 3; 6]%Z /\ fst (GetData 2 s2) = Ok [2; 5; 3; 70]%Z /\ fst (Get 2 [1; 1]%N s2) = Ok 70%Z.
Proof.
  split; [apply (unfold_expr_sound 3); vm_compute; reflexivity|]. split; [apply uncompiled_all; reflexivity|].
  split; [vm_compute; reflexivity|]. cbv zeta. conjs.
Qed.

(** C26: (a + a) * (a + a) with one shared sum: 2 inputs read once, one addition
    and one product per element. *)
Definition share_st : tst Z := snd (run (a <~ NewFromValues [1; 2]%Z [2]%N ; b <~ NewOp2 a a Op2Add ; NewOp2 b b Op2Mul)).
Example C26_case :
  match NewGraph 2 share_st with (Ok g, _) => length (g_ops g) = 6 | _ => False end.
Proof. vm_compute. reflexivity. Qed.
