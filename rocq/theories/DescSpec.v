(** * DescSpec: the error of a chain of layers as a function of its parameters (no code here) *)
From Coq Require Import Reals.
From Verif Require Import Base Num NumReal Spec NetSpec FwdSpec BwdSpec TrnSpec TrnScript GradSpec AdjSpec.
Open Scope R_scope.
#[local] Existing Instance NumR.

(** Parameters with one cell of a bias or of the weights replaced. *)
Definition set_b (par : params (T:=R)) (i : nat) (idx : list N) (r : R) : params (T:=R) :=
  fun j => if (j =? i)%nat then p ← par j; Some (vset (fst p) idx r, snd p) else par j.
Definition set_w (par : params (T:=R)) (i : nat) (idx : list N) (r : R) : params (T:=R) :=
  fun j => if (j =? i)%nat then p ← par j; Some (fst p, vset (snd p) idx r) else par j.

(** [costs psi par x y cs k]: with the parameters [par] the answer to [x] costs
    [k] when [y] is wanted; every cell of the answer costs [psi wanted given]. *)
Definition costs (psi : R -> R -> R) (par : params (T:=R)) (x y : vten R) (cs : list (clay R)) (k : R) : Prop :=
  exists o, s_out par x cs = Some o /\ k = total (zip_with psi (vdata y) (vdata o)).
(** The derivative at [r0] of the cost as one number [r] changes the parameters. *)
Definition cost_slope (psi : R -> R -> R) (pars : R -> params (T:=R)) (x y : vten R) (cs : list (clay R)) (r0 D : R) : Prop :=
  exists f, (forall r, costs psi (pars r) x y cs (f r)) /\ derivable_pt_lim f r0 D.

(** The activation that belongs to a layer. *)
Definition lact (l : lspec R) : R -> R := match l with SDense _ f | SConv _ _ _ _ _ f | SDeconv _ _ _ _ _ f => f | _ => fun v => v end.
(** The cells of the window of a cell of the output of a pooling layer. *)
Definition win (sx sy : N) (sh o : list N) : list (list N) :=
  match sh, o with [_; w; h], [f; X; Y] => map (fun q => [f; fst q; snd q]) (window sx sy w h X Y) | _, _ => [] end.
(** No activation is used where its derivative is wrong; kernels are square and
    move by the same step along both axes; every maximum that a pooling layer
    takes is reached once. Chains with other layers are left out. *)
Fixpoint chain_smooth (par : params (T:=R)) (x : vten R) (cs : list (clay R)) : Prop :=
  match cs with
  | [] => True
  | c :: rest =>
      match c_l c with
      | None => True
      | Some l =>
          (has_par l = true -> forall v n, s_out par x rest = Some v -> lay_val (plainly l) (par (c_i c)) v = Some n ->
            Forall (fun m => derivable_pt_lim (lact l) m (c_d c m)) (vdata n)) /\
          match l with
          | SDense _ _ | SDeconv _ _ _ _ _ _ | SUp _ _ | SFlat => True
          | SConv _ kw kh sx sy _ => kw = kh /\ sx = sy
          | SPool sx sy => forall v o, s_out par x rest = Some v -> o ∈ indices (c_sh c) ->
              exists q, q ∈ win sx sy (vsh v) o /\ forall q', q' ∈ win sx sy (vsh v) o -> q' <> q -> ent v q' < ent v q
          | SNorm _ _ | SSoft | SSub _ _ _ => False
          end
      end /\ chain_smooth par x rest
  end.

(** ** How fast a layer learns
    A layer under [k] layers that flatten hands on a [k + 1]-th of its error, and a
    dense layer also uses only that much for itself. *)
Definition cut (above : nat) (c : clay R) : R := if flattens c then 1 else / INR (S above).
Fixpoint speed (above : nat) (cs : list (clay R)) (i : nat) : R :=
  match cs with
  | [] => 1
  | c :: rest =>
      if (c_i c =? i)%nat then match c_l c with Some (SDense _ _) => cut above c | _ => 1 end
      else cut above c * speed (if flattens c then S above else 0%nat) rest i
  end.

(** ** Costs that belong to the error of the last layer
    The error is what is wanted minus what is given. For which costs is that the
    derivative in the sums before the activation, with the other sign? *)
Definition matches (psi : R -> R -> R) (c : clay R) (l : lspec R) : Prop :=
  forall t m, exists D, derivable_pt_lim (psi t) (lact l m) D /\ D * c_d c m = lact l m - t.
Definition ends (psi : R -> R -> R) (cs : list (clay R)) : Prop :=
  match cs with c :: _ => exists l, c_l c = Some l /\ has_par l = true /\ matches psi c l | [] => False end.
(** Half a squared difference, and the cross entropy. *)
Definition half_square (t y : R) : R := (t - y) * (t - y) / 2.
Definition cross_entropy (t y : R) : R := - (t * ln y + (1 - t) * ln (1 - y)).

(** The momentum of a cell of a bias: only layers of the two kinds of
    convolution have one. *)
Definition bias_mom (mb : nat -> option (vten R)) (c : clay R) (idx : list N) : R :=
  match c_l c with Some (SConv _ _ _ _ _ _) | Some (SDeconv _ _ _ _ _ _) => match mb (c_i c) with Some v => ent v idx | None => 0 end | _ => 0 end.
(** [goes_down psi cs x y mb al mo par par']: every cell of every bias and all
    weights moves against the derivative of the cost. *)
Definition goes_down (psi : R -> R -> R) (cs : list (clay R)) (x y : vten R) (mb : nat -> option (vten R)) (al mo : R) (par par' : params (T:=R)) : Prop :=
  forall c b w, c ∈ cs -> c_par c = true -> par (c_i c) = Some (b, w) -> exists b' w', par' (c_i c) = Some (b', w') /\ vsh b' = vsh b /\ vsh w' = vsh w /\
    (forall idx, idx ∈ indices (vsh b) -> exists D, cost_slope psi (set_b par (c_i c) idx) x y cs (ent b idx) D /\ ent b' idx = ent b idx - al * speed 0 cs (c_i c) * D + mo * bias_mom mb c idx) /\
    (forall idx, idx ∈ indices (vsh w) -> exists D, cost_slope psi (set_w par (c_i c) idx) x y cs (ent w idx) D /\ ent w' idx = ent w idx - al * speed 0 cs (c_i c) * D).
(** Some derivative is not zero. *)
Definition not_flat (psi : R -> R -> R) (cs : list (clay R)) (x y : vten R) (par : params (T:=R)) : Prop :=
  exists c b w idx D, c ∈ cs /\ c_par c = true /\ par (c_i c) = Some (b, w) /\ D <> 0 /\
    (idx ∈ indices (vsh b) /\ cost_slope psi (set_b par (c_i c) idx) x y cs (ent b idx) D \/
     idx ∈ indices (vsh w) /\ cost_slope psi (set_w par (c_i c) idx) x y cs (ent w idx) D).
