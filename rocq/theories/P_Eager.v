(** * Properties of the eager methods: C09 to C17, C22 *)
From Verif Require Import Base Num NumIntS NumQ ModelTools ModelOps ModelTensor ModelGraph Spec Denote ObjSpec ObjDec
  SoftProofs AccessProofs EagerOps EagerOps2 EagerDot Pointwise Agree EagerFacts.
From Coq Require Import QArith Qcanon.
Close Scope Qc_scope. Close Scope Q_scope. Open Scope nat_scope.

Notation inside idx sh := (Forall2 (fun i m => (i < m)%N) idx sh) (only parsing).

Section Properties.
Context {T : Type} `{Num T}.
Implicit Types s : tst T.

(** C09: element-wise methods. A panic stands for an integer division by zero
    (the value does not exist). *)
Theorem C09_abs s p v : holds s p v -> returns_new s (Mat_Abs p s) (v_map absv v).
Proof. exact (Mat_map_spec s p v absv). Qed.
Theorem C09_neg s p v : holds s p v -> returns_new s (Mat_Neg p s) (v_map nneg v).
Proof. exact (Mat_map_spec s p v nneg). Qed.
Theorem C09_activate s p v f : holds s p v -> returns_new s (Mat_Activate f p s) (v_map f v).
Proof. exact (Mat_map_spec s p v f). Qed.
Theorem C09_arithmetic s p q v u o :
  holds s p v -> holds s q u -> vsh v = vsh u ->
  returns_new_or_panics s (Mat_op2 o p q s) (v_bin (bop o) v u).
Proof. exact (Mat_op2_spec s p q v u o). Qed.
Theorem C09_arithmetic_elements o v u (w : vten T) :
  v_bin o v u = Some w -> vsh w = vsh v /\ forall idx, inside idx (vsh v) ->
    exists x y, at_ (vsh v) (vdata v) idx = Some x /\ at_ (vsh u) (vdata u) idx = Some y /\
      at_ (vsh w) (vdata w) idx = bin o x y.
Proof. exact (bin_elements o v u w). Qed.
Theorem C09_arithmetic_refuses s p q v u o :
  holds s p v -> holds s q u -> vsh v <> vsh u -> refuses s (Mat_op2 o p q s).
Proof. exact (Mat_op2_refuses s p q v u o). Qed.
Theorem C09_scalar s p v sc y o :
  holds s p v -> mem s !! sc = Some y ->
  returns_new_or_panics s (Mat_opScalar o p (Some sc) s) (v_scal (bop o) v y).
Proof. exact (Mat_opScalar_spec s p v sc y o). Qed.

(** C10 *)
Theorem C10_reduce s p v o :
  holds s p v -> returns_new_or_panics s (Mat_reduce o p s) (v_reduce_with reduce0 (rop o) v).
Proof. exact (Mat_reduce_spec s p v o). Qed.
Theorem C10_dim_reduce s p v dim o :
  holds s p v -> N.to_nat dim < length (vsh v) -> fits (take (S (N.to_nat dim)) (vsh v)) ->
  returns_new_or_panics s (Mat_dimreduce o p dim s) (v_dim_with reduce0 (rop o) (N.to_nat dim) v).
Proof. exact (Mat_dimreduce_spec s p v dim o). Qed.
Theorem C10_dim_reduce_elements red o d v (w : vten T) :
  v_dim_with red o d v = Some w -> vsh w = take (S d) (vsh v) /\ forall idx, inside idx (vsh w) ->
    at_ (vsh w) (vdata w) idx =
    (l ← mapM (fun rest => at_ (vsh v) (vdata v) (idx ++ rest)) (indices (drop (S d) (vsh v))); red o l).
Proof. exact (dim_elements red o d v w). Qed.
Theorem C10_dim_reduce_refuses s p v dim o :
  holds s p v -> length (vsh v) <= N.to_nat dim -> refuses s (Mat_dimreduce o p dim s).
Proof. exact (Mat_dimreduce_refuses s p v dim o). Qed.

(** C11 *)
Theorem C11_transpose s p v :
  holds s p v -> exists w, v_transpose v = Some w /\ returns_new s (Mat_Transpose p s) w.
Proof. exact (Mat_Transpose_spec s p v). Qed.
Theorem C11_transpose_elements v (w : vten T) :
  v_transpose v = Some w -> vsh w = reverse (vsh v) /\ forall idx, inside idx (vsh w) ->
    at_ (vsh w) (vdata w) idx = at_ (vsh v) (vdata v) (reverse idx).
Proof. exact (transpose_elements v w). Qed.
Theorem C11_transpose_involution s p v :
  holds s p v -> exists c s1 d s2, Mat_Transpose p s = (Ok c, s1) /\ Mat_Transpose c s1 = (Ok d, s2) /\ holds s2 d v.
Proof. exact (transpose_involution s p v). Qed.

(** C12 *)
Theorem C12_sub_tensor s p v dim st en mx :
  holds s p v -> vsh v !! N.to_nat dim = Some mx -> (st < en <= mx)%N ->
  exists w, v_sub v (N.to_nat dim) st en = Some w /\ returns_new s (Mat_SubTensor p dim st en s) w.
Proof. exact (Mat_SubTensor_spec s p v dim st en mx). Qed.
Theorem C12_sub_tensor_elements v (w : vten T) d st en :
  v_sub v d st en = Some w -> vsh w = <[d := (en - st)%N]> (vsh v) /\ forall idx, inside idx (vsh w) ->
    at_ (vsh w) (vdata w) idx = at_ (vsh v) (vdata v) (alter (fun c => c + st)%N d idx).
Proof. exact (sub_elements v w d st en). Qed.
Theorem C12_sub_tensor_refuses s p v dim st en :
  holds s p v -> ~ (exists mx, vsh v !! N.to_nat dim = Some mx /\ (st < en <= mx)%N) ->
  refuses s (Mat_SubTensor p dim st en s).
Proof. exact (Mat_SubTensor_refuses s p v dim st en). Qed.

(** C13: for compatible shapes. The result's scalars are those of the inputs. *)
Theorem C13_concat_partial s p q v u dim na nb :
  holds s p v -> holds s q u ->
  vsh v !! N.to_nat dim = Some na -> vsh u = <[N.to_nat dim := nb]> (vsh v) ->
  fits (<[N.to_nat dim := (na + nb)%N]> (vsh v)) ->
  exists w c s', v_concat v u (N.to_nat dim) = Some w /\
    v_concat (V (vsh v) (cells s p)) (V (vsh u) (cells s q)) (N.to_nat dim) = Some (V (vsh w) c) /\
    Mat_Concat p q dim s = (Ok (length (tens s)), s') /\
    mem s' = mem s /\ ctx s' = ctx s /\ cells s' (length (tens s)) = c /\
    tens s' = tens s ++ [MkNode KMat (MkMat (vsh w) (GetIndexMul (vsh w)) c false)] /\
    holds s' (length (tens s)) w.
Proof. exact (Mat_Concat_spec s p q v u dim na nb). Qed.
Theorem C13_concat_elements v u (w : vten T) d na nb :
  vsh v !! d = Some na -> vsh u !! d = Some nb -> v_concat v u d = Some w ->
  vsh w = <[d := (na + nb)%N]> (vsh v) /\ forall idx c, inside idx (vsh w) -> idx !! d = Some c ->
    at_ (vsh w) (vdata w) idx =
    if (c <? na)%N then at_ (vsh v) (vdata v) idx
    else at_ (vsh u) (vdata u) (alter (fun c => c - na)%N d idx).
Proof. exact (concat_elements v u w d na nb). Qed.

(** C14: the eager method, which works only when the element count stays. *)
Theorem C14_reshape_same s p v sh :
  holds s p v -> fits sh -> prodN sh = prodN (vsh v) -> returns_new s (Mat_Reshape p sh s) (V sh (vdata v)).
Proof. exact (Mat_Reshape_same s p v sh). Qed.
Theorem C14_reshape_smaller_panics s p v sh :
  holds s p v -> fits sh -> (prodN sh < prodN (vsh v))%N -> exists s', Mat_Reshape p sh s = (Panic, s').
Proof. exact (Mat_Reshape_smaller s p v sh). Qed.
Theorem C14_reshape_larger_unreadable s p v sh :
  holds s p v -> fits sh -> (prodN (vsh v) < prodN sh)%N ->
  exists r s', Mat_Reshape p sh s = (Ok r, s') /\ GetData r s' = (Panic, s').
Proof. exact (Mat_Reshape_larger s p v sh). Qed.

(** C15 *)
Theorem C15_dot s p q v u (da db : N) sh :
  holds s p v -> holds s q u -> dot_shape (vsh v) (vsh u) (N.to_nat da) (N.to_nat db) = Some sh ->
  exists w, v_dot_with reduce0 v u (N.to_nat da) (N.to_nat db) = Some w /\ vsh w = sh /\
    returns_new s (Mat_DotAt p q da db s) w.
Proof. exact (Mat_DotAt_spec s p q v u da db sh). Qed.
Theorem C15_dot_elements red v u (w : vten T) da db n :
  vsh v !! da = Some n -> ((length (vsh v) =? 1) && (length (vsh u) =? 1)) = false ->
  v_dot_with red v u da db = Some w ->
  vsh w = del da (vsh v) ++ del db (vsh u) /\ forall i j, inside i (del da (vsh v)) -> inside j (del db (vsh u)) ->
    at_ (vsh w) (vdata w) (i ++ j) =
    (l ← mapM (fun k => x ← at_ (vsh v) (vdata v) (ins da k i);
                        y ← at_ (vsh u) (vdata u) (ins db k j); Some (nmul x y)) (upto n); red RedSum l).
Proof. exact (dot_elements red v u w da db n). Qed.
Theorem C15_dot_vectors s p q v u :
  holds s p v -> holds s q u -> vsh v = vsh u -> length (vsh v) = 1 ->
  returns_new s (Mat_DotAt p q 0 0 s) (V [1%N] [sum0 (zip_with nmul (vdata v) (vdata u))]).
Proof. exact (Mat_Dot_vectors s p q v u). Qed.
Theorem C15_dot_refuses s p q v u (da db : N) na nb :
  holds s p v -> holds s q u ->
  vsh v !! N.to_nat da = Some na -> vsh u !! N.to_nat db = Some nb -> na <> nb ->
  refuses s (Mat_DotAt p q da db s).
Proof. exact (Mat_DotAt_refuses s p q v u da db na nb). Qed.
Theorem C15_default_dimensions s p q v u :
  holds s p v -> holds s q u -> vsh v <> [] -> vsh u <> [] ->
  (N.of_nat (length (vsh v)) < W64)%N -> (N.of_nat (length (vsh u)) < W64)%N ->
  Mat_Dot p q s = Mat_DotAt p q (N.of_nat (length (vsh v) - 1)) (N.of_nat (length (vsh u) - 2)) s.
Proof. exact (Mat_Dot_is_DotAt s p q v u). Qed.

(** C17: works when the range is inside the dimension or starts after its end... *)
Theorem C17_extended_slice_partial s p v dim st en mx pad :
  holds s p v -> vsh v !! N.to_nat dim = Some mx -> (st < en < W64)%N -> (en <= mx \/ mx < st)%N ->
  fits (<[N.to_nat dim := (en - st)%N]> (vsh v)) ->
  exists w, v_subp pad v (N.to_nat dim) st en = Some w /\
    returns_new s (Mat_FOSubTensor p dim st en pad s) w.
Proof. exact (Mat_FOSubTensor_spec s p v dim st en mx pad). Qed.
(** ...and always fails when it crosses the end. *)
Theorem C17_extended_slice_crossing_fails s p v dim st en mx pad :
  holds s p v -> vsh v !! N.to_nat dim = Some mx -> (en < W64)%N -> (st <= mx < en)%N ->
  fits (<[N.to_nat dim := (en - st)%N]> (vsh v)) -> (0 < prodN (<[N.to_nat dim := (en - st)%N]> (vsh v)))%N ->
  exists e s', Mat_FOSubTensor p dim st en pad s = (Err e, s') /\ tens s' = tens s.
Proof. exact (Mat_FOSubTensor_crossing s p v dim st en mx pad). Qed.

(** C22: [eager_of o] is the method call, [graph_of o] creates the graph node of
    the same operation, [meaning o] is the expression it stands for. *)
Theorem C22_eager_equals_graph (o : operation T) s sh w :
  (forall x : T, nadd nzero x = x) ->
  (forall p, p ∈ inputs o -> exists v m, holds s p v /\ tens s !! p = Some (MkNode KMat m)) ->
  params_ok s o ->
  shape_of (leafsh (tens s)) (meaning o) = Some sh -> no_crossing (leafsh (tens s)) (meaning o) ->
  eval (leafv (tens s) (mem s)) (fun x => mem s !! x) (meaning o) = Some w ->
  (exists c s1 n, eager_of o s = (Ok c, s1) /\ tens s1 !! c = Some n /\ shape (nmat n) = vsh w /\
     GetData c s1 = (Ok (vdata w), s1)) /\
  (exists id s1 g s2 s3 n, graph_of o s = (Ok id, s1) /\ NewGraph id s1 = (Ok g, s2) /\ ExecM g s2 = (Ok tt, s3) /\
     tens s3 !! id = Some n /\ shape (nmat n) = vsh w /\ GetData id s3 = (Ok (vdata w), s3)).
Proof. exact (same_result o s sh w). Qed.
End Properties.

(** C16: in exact (rational) arithmetic, for inputs that are not all equal. *)
Section Soft.
#[local] Existing Instance NumQc.
Theorem C16_softmax_partial (s : tst Qc) p v x y :
  holds s p v -> x ∈ vdata v -> y ∈ vdata v -> x <> y ->
  exists ys, returns_new s (Mat_SoftMax p s) (V (vsh v) ys) /\ distribution (vdata v) ys.
Proof. exact (softmax_eager s p v x y). Qed.
Theorem C16_softmax_graph_partial (s : tst Qc) p v m x y :
  holds s p v -> tens s !! p = Some (MkNode KMat m) -> x ∈ vdata v -> y ∈ vdata v -> x <> y ->
  exists ys id s1 g s2 s3, SoftMax p s = (Ok id, s1) /\ NewGraph id s1 = (Ok g, s2) /\ ExecM g s2 = (Ok tt, s3) /\
    GetData id s3 = (Ok ys, s3) /\ distribution (vdata v) ys.
Proof. exact (softmax_graph s p v m x y). Qed.
(** For inputs that are all equal there is no result. *)
Theorem C16_softmax_constant_fails (s : tst Qc) p sh c n :
  holds s p (V sh (replicate n c)) -> exists s', Mat_SoftMax p s = (Panic, s').
Proof. exact (softmax_constant s p sh c n). Qed.
End Soft.

Print Assumptions C09_abs.
Print Assumptions C09_neg.
Print Assumptions C09_activate.
Print Assumptions C09_arithmetic.
Print Assumptions C09_arithmetic_elements.
Print Assumptions C09_arithmetic_refuses.
Print Assumptions C09_scalar.
Print Assumptions C10_reduce.
Print Assumptions C10_dim_reduce.
Print Assumptions C10_dim_reduce_elements.
Print Assumptions C10_dim_reduce_refuses.
Print Assumptions C11_transpose.
Print Assumptions C11_transpose_elements.
Print Assumptions C11_transpose_involution.
Print Assumptions C12_sub_tensor.
Print Assumptions C12_sub_tensor_elements.
Print Assumptions C12_sub_tensor_refuses.
Print Assumptions C13_concat_partial.
Print Assumptions C13_concat_elements.
Print Assumptions C14_reshape_same.
Print Assumptions C14_reshape_smaller_panics.
Print Assumptions C14_reshape_larger_unreadable.
Print Assumptions C15_dot.
Print Assumptions C15_dot_elements.
Print Assumptions C15_dot_vectors.
Print Assumptions C15_dot_refuses.
Print Assumptions C15_default_dimensions.
Print Assumptions C16_softmax_partial.
Print Assumptions C16_softmax_graph_partial.
Print Assumptions C16_softmax_constant_fails.
Print Assumptions C17_extended_slice_partial.
Print Assumptions C17_extended_slice_crossing_fails.
Print Assumptions C22_eager_equals_graph.

(** Concrete cases on a = [[1,-2,3],[4,5,-6]], b = [[2,2,2],[1,1,1]], c = [7,8]. *)
#[local] Existing Instance NumI32.
Definition demo : TM Z unit :=
  NewFromValues [1; -2; 3; 4; 5; -6]%Z [2; 3]%N ;~
  NewFromValues [2; 2; 2; 1; 1; 1]%Z [2; 3]%N ;~
  NewFromValues [7; 8]%Z [2]%N ;~
  mret tt.
Definition st : tst Z := snd (demo (MkSt [] [] [])).
Example demo_holds :
  holds st 0 (V [2; 3]%N [1; -2; 3; 4; 5; -6]%Z) /\ holds st 1 (V [2; 3]%N [2; 2; 2; 1; 1; 1]%Z) /\
  holds st 2 (V [2]%N [7; 8]%Z).
Proof. split; [holds_tac|]. split; holds_tac. Qed.
(** The data of the tensor a call returns. *)
Definition result (m : TM Z nat) : res (list Z) := fst ((c <~ m ; GetData c) st).
Example C09_case : result (Mat_op2 Op2Mul 0 1) = Ok [2; -4; 6; 4; 5; -6]%Z /\
  result (Mat_op2 Op2Div 1 0) = Ok [2; -1; 0; 0; 0; 0]%Z /\ result (Mat_Abs 0) = Ok [1; 2; 3; 4; 5; 6]%Z /\
  refuses st (Mat_op2 Op2Add 0 2 st).
Proof. repeat split; try (vm_compute; reflexivity). eexists. vm_compute. reflexivity. Qed.
Example C10_case : result (Mat_reduce RSum 0) = Ok [5]%Z /\ result (Mat_reduce RMin 0) = Ok [-6]%Z /\
  result (Mat_dimreduce RMax 0 0) = Ok [3; 5]%Z.
Proof. repeat split. Qed.
Example C11_case : result (Mat_Transpose 0) = Ok [1; 4; -2; 5; 3; -6]%Z.
Proof. reflexivity. Qed.
Example C12_case : result (Mat_SubTensor 0 1 1 3) = Ok [-2; 3; 5; -6]%Z /\ refuses st (Mat_SubTensor 0 1 1 4 st).
Proof. split; [reflexivity|eexists; vm_compute; reflexivity]. Qed.
Example C13_case : result (Mat_Concat 0 1 1) = Ok [1; -2; 3; 2; 2; 2; 4; 5; -6; 1; 1; 1]%Z.
Proof. reflexivity. Qed.
Example C14_case : result (Mat_Reshape 0 [3; 2]%N) = Ok [1; -2; 3; 4; 5; -6]%Z.
Proof. reflexivity. Qed.
Example C15_case : result (Mat_DotAt 0 1 1 1) = Ok [4; 2; 6; 3]%Z /\ result (Mat_DotAt 2 0 0 0) = Ok [39; 26; -27]%Z /\
  result (Mat_DotAt 2 2 0 0) = Ok [113]%Z.
Proof. repeat split. Qed.
Example C17_case : result (Mat_FOSubTensor 0 1 4 6 0%Z) = Ok [0; 0; 0; 0]%Z /\
  result (Mat_FOSubTensor 0 1 1 3 0%Z) = Ok [-2; 3; 5; -6]%Z.
Proof. repeat split. Qed.
Section SoftCase.
#[local] Existing Instance NumQc.
Definition q (z : Z) : Qc := Q2Qc (inject_Z z).
Definition qst : tst Qc := snd (NewFromValues [q 1; q 4; q 2] [3%N] (MkSt [] [] [])).
Example C16_case : holds qst 0 (V [3%N] [q 1; q 4; q 2]) /\ q 1 <> q 4 /\
  exists ys, fst ((c <~ Mat_SoftMax 0 ; GetData c) qst) = Ok ys /\ map this ys = [0; 3 # 4; 1 # 4]%Q.
Proof.
  split; [holds_tac|]. split; [discriminate|]. eexists. split; [vm_compute; reflexivity|reflexivity].
Qed.
End SoftCase.
Section AgreeCase.
#[local] Existing Instance NumS32.
Definition i32 (z : Z) : intw 32 := mk 32 eq_refl z.
Definition ist : tst (intw 32) :=
  snd ((NewFromValues (map i32 [1; -2; 3; 4; 5; -6]%Z) [2; 3]%N ;~
        NewFromValues (map i32 [2; 2; 2; 1; 1; 1]%Z) [2; 3]%N) (MkSt [] [] [])).
Definition ints (r : res (list (intw 32)) * tst (intw 32)) : res (list Z) :=
  match fst r with Ok l => Ok (map ival l) | Err e => Err e | Panic => Panic | Diverge => Diverge end.
Example C22_case :
  (forall x : intw 32, nadd nzero x = x) /\
  (forall p, p ∈ @inputs (intw 32) (PDotAt 0 1 1 1) -> exists v m, holds ist p v /\ tens ist !! p = Some (MkNode KMat m)) /\
  shape_of (leafsh (tens ist)) (meaning (PDotAt 0 1 1 1)) = Some [2; 2]%N /\
  (exists w, eval (leafv (tens ist) (mem ist)) (fun x => mem ist !! x) (meaning (PDotAt 0 1 1 1)) = Some w /\
     map ival (vdata w) = [4; 2; 6; 3]%Z) /\
  ints ((id <~ graph_of (PDotAt 0 1 1 1) ; g <~ NewGraph id ; ExecM g ;~ GetData id) ist) = Ok [4; 2; 6; 3]%Z /\
  ints ((c <~ eager_of (PDotAt 0 1 1 1) ; GetData c) ist) = Ok [4; 2; 6; 3]%Z.
Proof.
  split; [exact (intS_add_0_l 32 eq_refl)|]. split.
  { intros p Hp. cbn in Hp. apply elem_of_cons in Hp as [->|Hp]; [|apply elem_of_list_singleton in Hp as ->];
      do 2 eexists; (split; [holds_tac|vm_compute; reflexivity]). }
  split; [vm_compute; reflexivity|]. split; [eexists; split; [vm_compute; reflexivity|vm_compute; reflexivity]|].
  split; vm_compute; reflexivity.
Qed.
End AgreeCase.

(** ** What is false of the code *)

(** C13: incompatible shapes are not refused. The eager method returns a tensor
    whose element count is not the product of its shape... *)
Definition st13 : tst Z := snd ((NewOnes [3; 2]%N ;~ NewOnes [2; 2]%N) (MkSt [] [] [])).
Theorem C13_concat_refuses_refuted :
  exists (s : tst Z) p q v u d c s' n,
    holds s p v /\ holds s q u /\ vsh v <> vsh u /\
    (forall nb, vsh u <> <[N.to_nat d := nb]> (vsh v)) /\
    Mat_Concat p q d s = (Ok c, s') /\ tens s' !! c = Some n /\
    N.of_nat (length (operands (nmat n))) <> prodN (shape (nmat n)).
Proof.
  exists st13, 0, 1, (V [3; 2]%N [1; 1; 1; 1; 1; 1]%Z), (V [2; 2]%N [1; 1; 1; 1]%Z), 1%N.
  do 3 eexists. split; [holds_tac|]. split; [holds_tac|]. split; [discriminate|].
  split; [intros nb; discriminate|]. split; [vm_compute; reflexivity|]. split; [vm_compute; reflexivity|]. discriminate.
Qed.
Print Assumptions C13_concat_refuses_refuted.
(** ...and the graph version silently drops elements. *)
Definition st13g : tst Z :=
  snd ((NewFromValues [1; 2]%Z [1; 2]%N ;~ NewFromValues [3; 4; 5; 6; 7; 8]%Z [2; 3]%N ;~ NConcat 0 1 0) (MkSt [] [] [])).
Theorem C13_concat_graph_refuses_refuted :
  exists (s : tst Z) p q v u d id g s1 s2,
    holds s p v /\ holds s q u /\ (forall nb, vsh u <> <[N.to_nat d := nb]> (vsh v)) /\
    tens s !! id = Some (MkNode (KConcat p q d) empty_mat) /\
    NewGraph id s = (Ok g, s1) /\ ExecM g s1 = (Ok tt, s2) /\
    GetData id s2 = (Ok [1; 2; 3; 4; 6; 7]%Z, s2) /\ vdata v ++ vdata u = [1; 2; 3; 4; 5; 6; 7; 8]%Z.
Proof.
  exists st13g, 0, 1, (V [1; 2]%N [1; 2]%Z), (V [2; 3]%N [3; 4; 5; 6; 7; 8]%Z), 0%N, 2. do 3 eexists.
  split; [holds_tac|]. split; [holds_tac|]. split; [intros nb; discriminate|]. split; [vm_compute; reflexivity|].
  split; [vm_compute; reflexivity|]. split; [vm_compute; reflexivity|]. split; [vm_compute; reflexivity|reflexivity].
Qed.
Print Assumptions C13_concat_graph_refuses_refuted.

(** C14: the eager reshape to another element count does not pad or truncate. *)
Theorem C14_reshape_any_size_refuted :
  exists (s : tst Z) p v sh, holds s p v /\ fits sh /\
    fst ((r <~ Mat_Reshape p sh ; GetData r) s) = Panic.
Proof.
  exists st, 0, (V [2; 3]%N [1; -2; 3; 4; 5; -6]%Z), [2; 4]%N. split; [exact (proj1 demo_holds)|].
  split; [apply IndexProofs.fitsb_fits; reflexivity|vm_compute; reflexivity].
Qed.
Print Assumptions C14_reshape_any_size_refuted.

(** C17: a range that reaches past the end is refused. *)
Theorem C17_extended_slice_refuted :
  exists (s : tst Z) p v e s', holds s p v /\ vsh v = [2; 3]%N /\
    Mat_FOSubTensor p 1 2 4 0%Z s = (Err e, s').
Proof.
  exists st, 0, (V [2; 3]%N [1; -2; 3; 4; 5; -6]%Z). do 2 eexists. split; [exact (proj1 demo_holds)|].
  split; [reflexivity|vm_compute; reflexivity].
Qed.
Print Assumptions C17_extended_slice_refuted.

(** C16: integers panic on a constant input. *)
Definition st16 : tst Z := snd (NewFromValues [5; 5; 5]%Z [3%N] (MkSt [] [] [])).
Theorem C16_softmax_refuted :
  exists (s : tst Z) p v s', holds s p v /\ vdata v <> [] /\ Mat_SoftMax p s = (Panic, s').
Proof.
  exists st16, 0, (V [3%N] [5; 5; 5]%Z). eexists. split; [holds_tac|]. split; [discriminate|vm_compute; reflexivity].
Qed.
Print Assumptions C16_softmax_refuted.
