(** * FwdSpec: what networks of any layers compute

    Pure functions on tensor values; nothing here refers to the code. *)
From Verif Require Import Base Num Spec NetSpec.

Section FwdSpec.
Context {T : Type} `{Num T}.

(** The layers and their settings. *)
Inductive lspec : Type :=
| SDense (o : N) (f : T -> T)                    (* units, activation *)
| SConv (nf kw kh sx sy : N) (f : T -> T)        (* filters, kernel, strides *)
| SDeconv (nf kw kh sx sy : N) (f : T -> T)
| SPool (sx sy : N)
| SUp (sx sy : N)
| SFlat
| SNorm (mn mx : T)
| SSoft
| SSub (dim from to : N).

(** ** Values *)
(** Dense: every unit sees all inputs in row-major order. *)
Definition v_dense (f : T -> T) (b w x : vten T) : option (vten T) :=
  tabulate (vsh b) (fun idx =>
    i ← head idx;
    l ← mapM (fun j => xj ← vdata x !! N.to_nat j; wj ← at_ (vsh w) (vdata w) [i; j]; Some (nmul xj wj))
             (upto (N.of_nat (length (vdata x))));
    bi ← at_ (vsh b) (vdata b) [i];
    Some (f (sum1 (l ++ [bi])))).

(** Convolution: the activation of the bias plus the sum over the window that
    starts at [(x * sx, y * sy)], over all channels. *)
Definition v_conv (kw kh sx sy : N) (f : T -> T) (b w x : vten T) : option (vten T) :=
  tabulate (vsh b) (fun idx =>
    match idx with
    | [F; X; Y] =>
        l ← mapM (fun k => match k with
                           | [c; i; j] =>
                               u ← at_ (vsh x) (vdata x) [c; X * sx + i; Y * sy + j]%N;
                               p ← at_ (vsh w) (vdata w) [F; c; i; j];
                               Some (nmul u p)
                           | _ => None
                           end) (indices [nth 0 (vsh x) 0; kw; kh]%N);
        s ← fold1 nadd l;
        bv ← at_ (vsh b) (vdata b) idx;
        Some (f (nadd bv s))
    | _ => None
    end).

(** Deconvolution: every input cell adds itself times the kernel to the window
    that starts at [(x * sx, y * sy)]. *)
Definition v_deconv (kw kh sx sy : N) (f : T -> T) (b w x : vten T) : option (vten T) :=
  tabulate (vsh b) (fun idx =>
    match idx with
    | [F; X; Y] =>
        l ← mapM (fun k => match k with
                           | [c; i; j; u; v] =>
                               p ← at_ (vsh x) (vdata x) [c; i; j];
                               q ← at_ (vsh w) (vdata w) [F; c; u; v];
                               Some (nmul p q)
                           | _ => None
                           end)
                 (List.filter (fun k => match k with
                                        | [c; i; j; u; v] => (i * sx + u =? X) && (j * sy + v =? Y)
                                        | _ => false
                                        end)%N (indices (vsh x ++ [kw; kh])));
        bv ← at_ (vsh b) (vdata b) idx;
        Some (f (fold_left nadd l bv))
    | _ => None
    end).

(** The cells of the window [(x, y)] that lie inside a [w] by [h] image. *)
Definition window (sx sy w h x y : N) : list (N * N) :=
  List.filter (fun p => (fst p <? w) && (snd p <? h))%N
    (flat_map (fun i => map (fun j => (x * sx + i, y * sy + j)%N) (upto sy)) (upto sx)).
Definition v_pool (sx sy : N) (x : vten T) : option (vten T) :=
  match vsh x with
  | [c; w; h] =>
      tabulate [c; (w + 1) / sx; (h + 1) / sy]%N (fun idx =>
        match idx with
        | [f; X; Y] =>
            l ← mapM (fun p => at_ (vsh x) (vdata x) [f; fst p; snd p]) (window sx sy w h X Y);
            reduce RedMax l
        | _ => None
        end)
  | _ => None
  end.
Definition v_up (sx sy : N) (x : vten T) : option (vten T) :=
  match vsh x with
  | [c; w; h] =>
      tabulate [c; w * sx; h * sy]%N (fun idx =>
        match idx with
        | [f; X; Y] => at_ (vsh x) (vdata x) [f; X / sx; Y / sy]%N
        | _ => None
        end)
  | _ => None
  end.
Definition v_flat (x : vten T) : vten T := V [prodN (vsh x)] (vdata x).
(** Divide by the largest absolute value and stretch to [mn, mx]. *)
Definition v_norm (mn mx : T) (x : vten T) : option (vten T) :=
  m ← reduce RedMax (map absv (vdata x));
  d ← mapM (fun a => q ← ndiv a m; Some (nadd (nmul q (nsub mx mn)) mn)) (vdata x);
  Some (V (vsh x) d).

(** [p]: bias and weights, for the layers that have them. *)
Definition lay_val (l : lspec) (p : option (vten T * vten T)) (x : vten T) : option (vten T) :=
  match l with
  | SDense o f => '(b, w) ← p; v_dense f b w x
  | SConv nf kw kh sx sy f => '(b, w) ← p; v_conv kw kh sx sy f b w x
  | SDeconv nf kw kh sx sy f => '(b, w) ← p; v_deconv kw kh sx sy f b w x
  | SPool sx sy => v_pool sx sy x
  | SUp sx sy => v_up sx sy x
  | SFlat => Some (v_flat x)
  | SNorm mn mx => v_norm mn mx x
  | SSoft => v_soft x
  | SSub d s t => v_sub x (N.to_nat d) s t
  end.

(** ** Shapes; [None] when the layer does not fit its input. *)
Definition conv_shape (nf kw kh sx sy w h : N) : list N := [nf; (w - kw) / sx + 1; (h - kh) / sy + 1]%N.
Definition deconv_shape (nf kw kh sx sy w h : N) : list N := [nf; (w - 1) * sx + kw; (h - 1) * sy + kh]%N.
Definition lay_shape (l : lspec) (sh : list N) : option (list N) :=
  match l with
  | SDense o f => if fitsb [o] && fitsb [o; prodN sh] then Some [o] else None
  | SConv nf kw kh sx sy f =>
      match sh with
      | [c; w; h] =>
          let out := conv_shape nf kw kh sx sy w h in
          if ((0 <? kw) && (kw <=? w) && (0 <? kh) && (kh <=? h) && (0 <? sx) && (0 <? sy))%N
             && fitsb out && fitsb [nf; c; kw; kh]
          then Some out else None
      | _ => None
      end
  | SDeconv nf kw kh sx sy f =>
      match sh with
      | [c; w; h] =>
          let out := deconv_shape nf kw kh sx sy w h in
          if ((0 <? w) && (0 <? h))%N && fitsb out && fitsb [nf; c; kw; kh] then Some out else None
      | _ => None
      end
  | SPool sx sy =>
      match sh with
      | [c; w; h] =>
          let out := [c; (w + 1) / sx; (h + 1) / sy]%N in
          if ((0 <? sx) && (0 <? sy) && (w + 1 <? W64) && (h + 1 <? W64) && (sx <? W64) && (sy <? W64))%N
             && fitsb out then Some out else None
      | _ => None
      end
  | SUp sx sy =>
      match sh with
      | [c; w; h] => fit [c; w * sx; h * sy]%N
      | _ => None
      end
  | SFlat => Some [prodN sh]
  | SNorm _ _ | SSoft => Some sh
  | SSub d s t =>
      m ← sh !! N.to_nat d;
      if ((s <? t) && (t <=? m))%N then fit (<[N.to_nat d := (t - s)%N]> sh) else None
  end.

(** ** Networks: an input, a layer (with its number) on top of a network, or
    two networks joined along a dimension. *)
Inductive net : Type :=
| NIn (t : nat)
| NLay (l : lspec) (i : nat) (e : net)
| NCat (i : nat) (a b : net) (d : N).

(** The layers with a bias and weights; the inputs a network reads and its layers
    that have a bias and weights. *)
Definition has_par (l : lspec) : bool :=
  match l with SDense _ _ | SConv _ _ _ _ _ _ | SDeconv _ _ _ _ _ _ => true | _ => false end.
Fixpoint ins (e : net) : list nat := match e with NIn t => [t] | NLay _ _ e => ins e | NCat _ a b _ => ins a ++ ins b end.
Fixpoint pars (e : net) : list nat :=
  match e with NIn _ => [] | NLay l i e => (if has_par l then [i] else []) ++ pars e | NCat _ a b _ => pars a ++ pars b end.

(** Shapes of the bias and of the weights of a layer on an input of shape [sh]. *)
Definition par_shape (l : lspec) (sh : list N) : option (list N * list N) :=
  match l, sh with
  | SDense o _, _ => Some ([o], [o; prodN sh])
  | SConv nf kw kh sx sy _, [c; w; h] => Some (conv_shape nf kw kh sx sy w h, [nf; c; kw; kh])
  | SDeconv nf kw kh sx sy _, [c; w; h] => Some (deconv_shape nf kw kh sx sy w h, [nf; c; kw; kh])
  | _, _ => None
  end.
(** A tensor that holds one request to the random source. *)
Definition drawn (rnd : nat -> nat -> T) (sh : list N) (v : vten T) : Prop :=
  exists c, v = V sh (map (rnd c) (seq 0 (N.to_nat (prodN sh)))).

(** The networks inside a network. *)
Fixpoint subs (e : net) : list net :=
  e :: match e with NIn _ => [] | NLay _ _ e0 => subs e0 | NCat _ a b _ => subs a ++ subs b end.

Section Shape.
Variable inp : nat -> option (list N).
Fixpoint nshape (e : net) : option (list N) :=
  match e with
  | NIn t => sh ← inp t; fit sh
  | NLay l _ e => sh ← nshape e; lay_shape l sh
  | NCat _ a b d =>
      sa ← nshape a; sb ← nshape b;
      na ← sa !! N.to_nat d; nb ← sb !! N.to_nat d;
      if decide (<[N.to_nat d := nb]> sa = sb) then fit (<[N.to_nat d := (na + nb)%N]> sa) else None
  end.
(** Shapes of the bias and the weights of the last layer. *)
Definition top_par (e : net) : option (list N * list N) :=
  match e with NLay l _ e0 => sh ← nshape e0; par_shape l sh | _ => None end.
End Shape.

Section Value.
Variable inp : nat -> option (vten T).
Variable par : nat -> option (vten T * vten T).
Fixpoint nval (e : net) : option (vten T) :=
  match e with
  | NIn t => inp t
  | NLay l i e => x ← nval e; lay_val l (par i) x
  | NCat _ a b d => x ← nval a; y ← nval b; v_concat x y (N.to_nat d)
  end.
End Value.
End FwdSpec.
Arguments lspec T : clear implicits.
Arguments net T : clear implicits.
