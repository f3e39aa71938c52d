(** * BwdSpec: what one step of training computes in layers of any kind

    Pure functions on tensor values; nothing here refers to the code.  [d] is
    the error of a layer's output, [x] its input, [y] its output, [w] and [b]
    its weights and bias, [a] the derivative at its input and [p] the error of
    its input before the layer is reached. *)
From Verif Require Import Base Num Spec NetSpec FwdSpec.

Section BwdSpec.
Context {T : Type} `{Num T}.

Definition el (v : vten T) (idx : list N) : option T := at_ (vsh v) (vdata v) idx.
(** One if equal, zero if not. *)
Definition same (x y : T) : T := if neqb x y then none else nzero.

(** ** Dense *)
Definition g_dense_in (d w a p : vten T) : option (vten T) :=
  l ← mapM (fun i =>
    ts ← mapM (fun j => dj ← el d [j]; wj ← el w [j; i]; Some (nmul dj wj)) (upto (nth 0 (vsh d) 0%N));
    s ← fold1 nadd ts;
    ai ← vdata a !! N.to_nat i; pi ← vdata p !! N.to_nat i;
    Some (nadd pi (nmul s ai))) (upto (N.of_nat (length (vdata p))));
  Some (V (vsh p) l).
(** [mb], [mw]: the momenta. *)
Definition g_dense_b (al mo : T) (d b mb : vten T) : option (vten T) :=
  tabulate (vsh b) (fun idx => di ← el d idx; bi ← el b idx; mi ← el mb idx; Some (nadd (nadd bi (nmul mi mo)) (nmul di al))).
Definition g_dense_w (al mo : T) (d x w mw : vten T) : option (vten T) :=
  tabulate (vsh w) (fun idx =>
    match idx with
    | [i; j] => di ← el d [i]; xj ← vdata x !! N.to_nat j; wi ← el w idx; mi ← el mw idx;
                Some (nadd (nadd wi (nmul mi mo)) (nmul (nmul di al) xj))
    | _ => None
    end).

(** ** Convolution *)
(** Everything that meets the cell [idx] of the input, in the order of the
    output cells [(f, x, y)], channels and kernel cells.  The kernel is walked
    over [kw] by [kw] cells. *)
Definition g_conv_in (kw sx sy : N) (d w a p : vten T) : option (vten T) :=
  tabulate (vsh p) (fun idx =>
    l ← mapM (fun k => match k with
                       | [f; x; y; c; i; j] => u ← el d [f; x; y]; q ← el w [f; c; i; j]; e ← el a idx; Some (nmul (nmul u q) e)
                       | _ => None
                       end)
             (List.filter (fun k => match k with
                                    | [f; x; y; c; i; j] => bool_decide ([c; x * sx + i; y * sy + j] = idx)%N
                                    | _ => false
                                    end) (indices (vsh d ++ [nth 0 (vsh p) 0; kw; kw]%N)));
    q ← el p idx;
    Some (fold_left nadd l q)).
(** [d] here is the error times the learning rate, [m] what is added on top.
    Both axes of the input are walked in steps of [sy]. *)
Definition g_conv_w (sy : N) (d x w m : vten T) : option (vten T) :=
  tabulate (vsh w) (fun idx =>
    match idx with
    | [f; c; i; j] =>
        l ← mapM (fun k => match k with
                           | [X; Y] => u ← el d [f; X; Y]; v ← el x [c; X * sy + i; Y * sy + j]%N; Some (nmul u v)
                           | _ => None
                           end) (indices [nth 1 (vsh d) 0; nth 2 (vsh d) 0]%N);
        s ← fold1 nadd l;
        wi ← el w idx; mi ← el m idx;
        Some (nadd (nadd wi s) mi)
    | _ => None
    end).

(** ** Deconvolution *)
Definition g_deconv_in (kw kh sx sy : N) (d w a p : vten T) : option (vten T) :=
  tabulate (vsh p) (fun idx =>
    match idx with
    | [c; x; y] =>
        l ← mapM (fun k => match k with
                           | [f; i; j] => u ← el d [f; x * sx + i; y * sy + j]%N; q ← el w [f; c; i; j]; Some (nmul u q)
                           | _ => None
                           end) (indices [nth 0 (vsh d) 0; kw; kh]%N);
        s ← fold1 nadd l;
        e ← el a idx; q ← el p idx;
        Some (nadd q (nmul s e))
    | _ => None
    end).
Definition g_deconv_w (sx sy : N) (d x w m : vten T) : option (vten T) :=
  tabulate (vsh w) (fun idx =>
    match idx with
    | [f; c; i; j] =>
        l ← mapM (fun k => match k with
                           | [X; Y] => u ← el d [f; X * sx + i; Y * sy + j]%N; v ← el x [c; X; Y]; Some (nmul u v)
                           | _ => None
                           end) (indices [nth 1 (vsh x) 0; nth 2 (vsh x) 0]%N);
        s ← fold1 nadd l;
        wi ← el w idx; mi ← el m idx;
        Some (nadd (nadd wi s) mi)
    | _ => None
    end).

(** ** Max pooling *)
(** The output cells and, for each, the cells of its window. *)
Definition windows (sx sy w h : N) (osh : list N) : list (list N * list N) :=
  flat_map (fun o => match o with
                     | [f; X; Y] => map (fun q => (o, [f; fst q; snd q])) (window sx sy w h X Y)
                     | _ => []
                     end) (indices osh).
Definition g_pool (sx sy : N) (d x y p : vten T) : option (vten T) :=
  match vsh x with
  | [c; w; h] =>
      tabulate (vsh p) (fun idx =>
        l ← mapM (fun k => u ← el d (fst k); i ← el x idx; o ← el y (fst k); Some (nmul u (same i o)))
                 (List.filter (fun k => bool_decide (snd k = idx)) (windows sx sy w h (vsh y)));
        q ← el p idx;
        Some (fold_left nadd l q))
  | _ => None
  end.
(** The derivative above a pooling layer: the sum of the derivatives at the
    cells of the window that reach the maximum. *)
Definition g_pool_der (sx sy : N) (x y a : vten T) : option (vten T) :=
  match vsh x with
  | [c; w; h] =>
      tabulate (vsh y) (fun idx =>
        match idx with
        | [f; X; Y] =>
            o ← el y idx;
            l ← mapM (fun q => e ← el a [f; fst q; snd q]; i ← el x [f; fst q; snd q]; Some (nmul e (same i o))) (window sx sy w h X Y);
            fold1 nadd l
        | _ => None
        end)
  | _ => None
  end.

(** ** Up-sampling *)
Definition g_up (sx sy : N) (d : vten T) (psh : list N) : option (vten T) :=
  tabulate psh (fun idx =>
    match idx with
    | [f; x; y] =>
        l ← mapM (fun k => match k with [i; j] => el d [f; x * sx + i; y * sy + j]%N | _ => None end) (indices [sx; sy]);
        fold1 nadd l
    | _ => None
    end).
End BwdSpec.
