(** * TrnSpec: one step of training for a chain of layers of any kind

    Pure functions on tensor values; nothing here refers to the code.  A chain
    is listed from the last layer down to the first. *)
From Verif Require Import Base Num Spec NetSpec FwdSpec BwdSpec.

Section TrnSpec.
Context {T : Type} `{Num T}.

(** A layer of a chain: its number, what it is ([None]: the input), the
    derivative of its activation and the shape of its output. *)
Record clay : Type := MkClay { c_i : nat; c_l : option (lspec T); c_d : T -> T; c_sh : list N }.

Definition vzero (sh : list N) : vten T := V sh (replicate (N.to_nat (prodN sh)) nzero).
(** An error that [r] layers contribute to. *)
Definition share (r : T) (d : vten T) : option (vten T) := if nltb none r then v_scal BDiv d r else Some d.

(** What a step reads of every layer: input, sums before the activation and
    output; bias and weights; the largest absolute input of a normalization;
    how many layers contribute to the error. *)
Record reading : Type := MkRd {
  r_x : nat -> option (vten T);
  r_n : nat -> option (vten T);
  r_y : nat -> option (vten T);
  r_b : nat -> option (vten T);
  r_w : nat -> option (vten T);
  r_max : nat -> option T;
  r_ref : nat -> option T;
}.
Variable R : reading.

(** The derivative at the output of the last layer of a chain. *)
Fixpoint s_der (cs : list clay) : option (vten T) :=
  match cs with
  | [] => None
  | c :: rest =>
      match c_l c with
      | None | Some (SDense _ _) | Some (SConv _ _ _ _ _ _) | Some (SDeconv _ _ _ _ _ _) => n ← r_n R (c_i c); Some (v_map (c_d c) n)
      | Some (SPool sx sy) => x ← r_x R (c_i c); y ← r_y R (c_i c); a ← s_der rest; g_pool_der sx sy x y a
      | Some (SUp sx sy) => a ← s_der rest; v_up sx sy a
      | Some SFlat => a ← s_der rest; Some (v_flat a)
      | Some (SNorm _ _) | Some SSoft => s_der rest
      | Some (SSub d s t) => a ← s_der rest; v_sub a (N.to_nat d) s t
      end
  end.

(** The error of the layer below, from the error [d] of a layer; [a] is the
    derivative at its input, [psh] the shape of its input. *)
Definition s_in (c : clay) (a : option (vten T)) (psh : list N) (d : vten T) : option (vten T) :=
  let i := c_i c in
  let p := vzero psh in
  match c_l c with
  | Some (SDense _ _) => r ← r_ref R i; e ← share r d; w ← r_w R i; a' ← a; g_dense_in e w a' p
  | Some (SConv _ kw _ sx sy _) => r ← r_ref R i; e ← share r d; w ← r_w R i; a' ← a; g_conv_in kw sx sy e w a' p
  | Some (SDeconv _ kw kh sx sy _) => r ← r_ref R i; e ← share r d; w ← r_w R i; a' ← a; g_deconv_in kw kh sx sy e w a' p
  | Some (SPool sx sy) => r ← r_ref R i; e ← share r d; x ← r_x R i; y ← r_y R i; g_pool sx sy e x y p
  | Some (SUp sx sy) => r ← r_ref R i; e ← share r d; g_up sx sy e psh
  | Some SFlat => Some (V psh (vdata d))
  | Some (SNorm mn mx) =>
      r ← r_ref R i; e ← share r d; k ← r_max R i; u ← v_scal BMul e (nsub mx mn); v_scal BDiv u k
  | Some SSoft => r ← r_ref R i; _ ← share r d; Some d
  | Some (SSub _ _ _) | None => None
  end.

(** The momentum of the bias of every layer. *)
Variable mb : nat -> option (vten T).
(** What is added to the bias of the two kinds of convolution, which is also
    the new momentum of the bias. *)
Definition s_db (al mo : T) (i : nat) (d : vten T) : option (vten T) :=
  da ← v_scal BMul d al; v ← mb i; bm ← v_scal BMul v mo; v_bin BAdd da bm.
(** The new bias and the new weights of a layer with error [d]. *)
Definition s_bias (al mo : T) (c : clay) (d : vten T) : option (vten T) :=
  let i := c_i c in
  match c_l c with
  | Some (SDense _ _) => r ← r_ref R i; e ← share r d; b ← r_b R i; g_dense_b al mo e b (vzero (vsh b))
  | Some (SConv _ _ _ _ _ _) | Some (SDeconv _ _ _ _ _ _) => b ← r_b R i; db ← s_db al mo i d; v_bin BAdd b db
  | _ => None
  end.
Definition s_weights (al mo : T) (c : clay) (d : vten T) : option (vten T) :=
  let i := c_i c in
  match c_l c with
  | Some (SDense _ _) => r ← r_ref R i; e ← share r d; x ← r_x R i; w ← r_w R i; g_dense_w al mo e x w (vzero (vsh w))
  | Some (SConv _ _ _ _ sy _) => da ← v_scal BMul d al; x ← r_x R i; w ← r_w R i; m ← v_scal BMul (vzero (vsh w)) mo; g_conv_w sy da x w m
  | Some (SDeconv _ _ _ sx sy _) =>
      da ← v_scal BMul d al; x ← r_x R i; w ← r_w R i; m ← v_scal BMul (vzero (vsh w)) mo; g_deconv_w sx sy da x w m
  | _ => None
  end.
Definition c_par (c : clay) : bool := match c_l c with Some l => has_par l | None => false end.
Definition s_par (al mo : T) (c : clay) (d : vten T) : option (option (vten T * vten T)) :=
  if c_par c then b ← s_bias al mo c d; w ← s_weights al mo c d; Some (Some (b, w)) else Some None.

(** The error of every layer of a chain and its new bias and weights, from the
    error [d] of the last layer. *)
Fixpoint s_step (al mo : T) (cs : list clay) (d : vten T) : option (list (vten T * option (vten T * vten T))) :=
  match cs with
  | [] => Some []
  | c :: rest =>
      u ← s_par al mo c d;
      us ← match rest with
           | [] => Some []
           | q :: _ => d' ← s_in c (s_der rest) (c_sh q) d; s_step al mo rest d'
           end;
      Some ((d, u) :: us)
  end.

(** The settings with which a layer on an input of shape [sh] can be trained:
    the kernel of a convolution is not wider than high and its windows stay
    inside the input when both axes are walked in steps of [sy]; no window of
    a pooling layer is empty. *)
Definition train_fit (l : lspec T) (sh : list N) : bool :=
  match l, sh with
  | SDense o _, _ => (0 <? o)%N
  | SConv nf kw kh sx sy _, [c; w; h] => ((kw <=? kh) && ((w - kw) / sx * sy + kw <=? w))%N
  | SDeconv nf kw kh sx sy _, [c; w; h] => ((0 <? nf) && (0 <? kw) && (0 <? kh))%N
  | SPool sx sy, _ => ((2 <=? sx) && (2 <=? sy))%N
  | SUp sx sy, _ => ((0 <? sx) && (0 <? sy))%N
  | SFlat, _ | SNorm _ _, _ | SSoft, _ => true
  | _, _ => false
  end.
End TrnSpec.
Arguments clay T : clear implicits.
Arguments reading T : clear implicits.
