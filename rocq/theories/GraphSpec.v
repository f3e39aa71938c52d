(** * GraphSpec: further vocabulary for statements about graphs (no code here) *)
From Verif Require Import Base Num Spec.

Section Ill.
Context {T : Type} `{Num T}.
Variable ls : nat -> option (list N).

(** Well-shaped, and no extended slice that crosses the end (see C17). *)
Definition well (e : expr T) (sh : list N) : Prop := shape_of ls e = Some sh /\ no_crossing ls e.

(** The own operation of an expression does not fit the shapes of its
    operands. *)
Definition bad_slice (sh : list N) (d : nat) (s t : N) : Prop :=
  match sh !! d with Some n => (t <= s \/ n < t)%N | None => True end.
Definition bad_slicex (sh : list N) (d : nat) (s t : N) : Prop :=
  d >= length sh \/ (t <= s)%N.
(** Ranks differ, or the first dimension in which the shapes differ is not the
    one along which they are joined. *)
Definition bad_join (sa sb : list N) (d : nat) : Prop :=
  length sa <> length sb \/
  exists n x y, sa !! n = Some x /\ sb !! n = Some y /\ x <> y /\ n <> d /\ take n sa = take n sb.
Definition bad_contraction (sa sb : list N) (da db : nat) : Prop :=
  sa = [] \/ sb = [] \/ exists na nb, sa !! da = Some na /\ sb !! db = Some nb /\ na <> nb.

(** Somewhere in the expression an operation does not fit its operands; the
    operands evaluated before it are fine. *)
Inductive ill : expr T -> Prop :=
| Ill_map f e : ill e -> ill (EMap f e)
| Ill_scal o e x : ill e -> ill (EScal o e x)
| Ill_trans e : ill e -> ill (ETrans e)
| Ill_reshape e sh : ill e -> ill (EReshape e sh)
| Ill_reduce o e : ill e -> ill (EReduce o e)
| Ill_soft e : ill e -> ill (ESoft e)
| Ill_sub e d s t : ill e -> ill (ESub e d s t)
| Ill_sub_here e d s t sh : well e sh -> bad_slice sh d s t -> ill (ESub e d s t)
| Ill_subx e d s t : ill e -> ill (ESubX e d s t)
| Ill_subx_here e d s t sh : well e sh -> bad_slicex sh d s t -> ill (ESubX e d s t)
| Ill_dim o d e : ill e -> ill (EDim o d e)
| Ill_dim_here o d e sh : well e sh -> d >= length sh -> ill (EDim o d e)
| Ill_bin_l o a b : ill a -> ill (EBin o a b)
| Ill_bin_r o a b sa : well a sa -> ill b -> ill (EBin o a b)
| Ill_bin_here o a b sa sb : well a sa -> well b sb -> sa <> sb -> ill (EBin o a b)
| Ill_cat_l a b d : ill a -> ill (ECat a b d)
| Ill_cat_r a b d sa : well a sa -> ill b -> ill (ECat a b d)
| Ill_cat_here a b d sa sb : well a sa -> well b sb -> bad_join sa sb d -> ill (ECat a b d)
| Ill_dot_l a b da db : ill a -> ill (EDot a b da db)
| Ill_dot_r a b da db sa : well a sa -> ill b -> ill (EDot a b da db)
| Ill_dot_here a b da db sa sb :
    well a sa -> well b sb -> bad_contraction sa sb da db -> ill (EDot a b da db)
| Ill_mul_l a b : ill a -> ill (EMatMul a b)
| Ill_mul_r a b sa : well a sa -> ill b -> ill (EMatMul a b)
| Ill_mul_here a b sa sb :
    well a sa -> well b sb -> bad_contraction sa sb (length sa - 1) (default_db sb) -> ill (EMatMul a b).
End Ill.

(** Expressions that only rearrange elements. *)
Fixpoint rearranges {T} (e : expr T) : Prop :=
  match e with
  | ELeaf _ => True
  | ETrans e | ESub e _ _ _ | ESubX e _ _ _ | EReshape e _ => rearranges e
  | ECat a b _ => rearranges a /\ rearranges b
  | _ => False
  end.

(** Number of elementary operations for the outermost operation of an
    expression (one per input element for an input tensor). *)
Definition own_cost {T} `{Num T} (ls : nat -> option (list N)) (e : expr T) : nat :=
  let n e := match shape_of ls e with Some sh => N.to_nat (prodN sh) | None => 0 end in
  let dim e d := match shape_of ls e with Some sh => N.to_nat (nth d sh 0%N) | None => 0 end in
  let rank e := match shape_of ls e with Some sh => length sh | None => 0 end in
  match e with
  | ELeaf _ => n e
  | EMap _ _ | EBin _ _ _ | EScal _ _ _ => n e          (* one per element *)
  | ETrans _ | ESub _ _ _ _ | ESubX _ _ _ _ | ECat _ _ _ | EReshape _ _ => 0
  | EReduce _ _ => 1
  | EDim _ _ _ => n e                                   (* one per result *)
  | EDot a b da db => n e * (dim a da + 1)              (* products and their sum *)
  | EMatMul a b => n e * (dim a (rank a - 1) + 1)
  | ESoft _ => 2 * n e + 2                              (* minimum, differences, sum, quotients *)
  end.
