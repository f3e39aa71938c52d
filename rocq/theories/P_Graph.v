(** * Properties of compiled graphs: C19, C20 *)
From Verif Require Import Base Num ModelTools ModelOps ModelTensor ModelGraph Spec Denote
  IndexProofs DenoteDec CompileProofs.

(** C19: an object [id] that stands for the well-shaped expression [e] compiles;
    executing the graph makes its data the value of [e] on the data of the
    inputs and leaves every scalar that existed before compiling (so every
    input) as it was.  If the value does not exist (integer division by zero,
    reduction of nothing), the execution panics.

    [no_crossing] excludes extended slices that run over the end of their
    dimension: those are refused (see C17). *)
Theorem C19_graph_computes_value {T} `{Num T} (s : tst T) (id : nat) (e : expr T) (sh : list N) :
  denotes (length (mem s)) (tens s) id e ->
  uncompiled (tens s) id ->
  shape_of (leafsh (tens s)) e = Some sh ->
  no_crossing (leafsh (tens s)) e ->
  exists g s', NewGraph id s = (Ok g, s') /\
    match eval (leafv (tens s) (mem s)) (fun x => mem s !! x) e with
    | Some v => exists s2 n, ExecM g s' = (Ok tt, s2) /\ GetData id s2 = (Ok (vdata v), s2) /\
        tens s2 !! id = Some n /\ shape (nmat n) = sh /\ vsh v = sh /\
        (forall j u, leafv (tens s) (mem s) j = Some u -> leafv (tens s2) (mem s2) j = Some u) /\
        (forall l, l < length (mem s) -> mem s2 !! l = mem s !! l)
    | None => ExecM g s' = (Panic, s')
    end.
Proof. exact (compile_and_run s id e sh). Qed.
Print Assumptions C19_graph_computes_value.

(** C20: the same at every later moment: [m] is any memory reached from the one
    after compiling by writing input scalars and executing the graph, in any
    order and number. *)
Theorem C20_graph_reruns {T} `{Num T} (s : tst T) (id : nat) (e : expr T) (sh : list N) :
  denotes (length (mem s)) (tens s) id e ->
  uncompiled (tens s) id ->
  shape_of (leafsh (tens s)) e = Some sh ->
  no_crossing (leafsh (tens s)) e ->
  exists g s' n', NewGraph id s = (Ok g, s') /\ (exists ext, mem s' = mem s ++ ext) /\
    tens s' !! id = Some n' /\ shape (nmat n') = sh /\ builded (nmat n') = true /\
    (forall m j, leafv (tens s') m j = leafv (tens s) m j) /\
    forall m, history g (length (mem s)) (mem s') m ->
      match eval (leafv (tens s) m) (fun x => m !! x) e with
      | Some v => exists m', Exec g m = Some m' /\ mval m' (nmat n') = Some v /\ vsh v = sh /\
          (forall l, l < length (mem s) -> m' !! l = m !! l)
      | None => Exec g m = None
      end.
Proof. exact (compile_correct s id e sh). Qed.
Print Assumptions C20_graph_reruns.

(** C20: executing twice in a row gives the same result as executing once. *)
Theorem C20_twice_is_once {T} `{Num T} (s : tst T) (id : nat) (e : expr T) (sh : list N) g s' n' m m1 :
  denotes (length (mem s)) (tens s) id e ->
  uncompiled (tens s) id ->
  shape_of (leafsh (tens s)) e = Some sh ->
  no_crossing (leafsh (tens s)) e ->
  NewGraph id s = (Ok g, s') -> tens s' !! id = Some n' ->
  history g (length (mem s)) (mem s') m -> Exec g m = Some m1 ->
  exists m2, Exec g m1 = Some m2 /\ mval m2 (nmat n') = mval m1 (nmat n').
Proof. exact (compile_twice s id e sh g s' n' m m1). Qed.
Print Assumptions C20_twice_is_once.

(** A concrete case: (a * b) . a^T, added to itself, on 2 x 3 integer tensors,
    with one shared sub-expression. *)
#[local] Existing Instance NumI32.
Definition demo : TM Z nat :=
  a <~ NewFromValues [1; -2; 3; 4; 5; -6]%Z [2; 3]%N ;
  b <~ NewFromValues [2; 2; 2; 1; 1; 1]%Z [2; 3]%N ;
  c <~ NewOp2 a b Op2Mul ;
  d <~ Transpose a ;
  e <~ Dot c d ;
  NewOp2 e e Op2Add.
Definition demo_state : tst Z := snd (demo (MkSt [] [] [])).
Definition demo_expr : expr Z :=
  let c := EMatMul (EBin BMul (ELeaf 0) (ELeaf 1)) (ETrans (ELeaf 0)) in EBin BAdd c c.

Example C19_case :
  denotes (length (mem demo_state)) (tens demo_state) 5 demo_expr /\
  uncompiled (tens demo_state) 5 /\
  shape_of (leafsh (tens demo_state)) demo_expr = Some [2; 2]%N /\
  no_crossing (leafsh (tens demo_state)) demo_expr /\
  eval (leafv (tens demo_state) (mem demo_state)) (fun x => mem demo_state !! x) demo_expr
    = Some (V [2; 2]%N [56; -96; -48; 154]%Z).
Proof.
  split; [|split; [|split; [|split]]].
  - apply (unfold_expr_sound 6). vm_compute. reflexivity.
  - apply uncompiled_all. reflexivity.
  - reflexivity.
  - repeat split.
  - vm_compute. reflexivity.
Qed.
