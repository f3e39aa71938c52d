(** * TrnScript: networks that are made layer on layer and trained

    What they should do, in terms of tensor values only. *)
From Verif Require Import Base Num Spec NetSpec FwdSpec BwdSpec TrnSpec.
From Verif Require Import ModelLayer FwdScript.

Section TrnScript.
Context {T : Type} `{Num T}.

(** The derivative that belongs to a layer. *)
Definition der1 (k : lay1 T) : T -> T :=
  match k with KDense _ a | KConv _ _ _ _ _ a | KDeconv _ _ _ _ _ a => act_d a | _ => fun _ => none end.
(** Layers [ks], the first one with number [p], on the chain [cs]; [None] if they
    do not fit or cannot be trained. *)
Fixpoint chain_from (p : nat) (cs : list (clay T)) (ks : list (lay1 T)) : option (list (clay T)) :=
  match ks with
  | [] => Some cs
  | k :: ks' =>
      match cs with
      | [] => None
      | q :: _ =>
          sh ← lay_shape (spec1 k) (c_sh q);
          if train_fit (spec1 k) (c_sh q) then chain_from (S p) (MkClay p (Some (spec1 k)) (der1 k) sh :: cs) ks' else None
      end
  end.
(** The chain that starts with [m0], the numbers of its layers starting with [b]. *)
Definition chain_of (b : nat) (m0 : mk T) (ks : list (lay1 T)) : option (list (clay T)) :=
  match m0 with
  | MInput sh => chain_from (S b) [MkClay b None (fun _ => none) sh] ks
  | MDenseIn i o a =>
      let l := SDense o (act_f a) in
      sh ← lay_shape l [i];
      if train_fit l [i] then chain_from (S b) [MkClay b (Some l) (act_d a) sh] ks else None
  | _ => None
  end.
Definition in_of (m0 : mk T) : list N := match m0 with MInput sh => sh | MDenseIn i _ _ => [i] | _ => [] end.

(** ** What the layers show when the network is given [x] *)
Definition params : Type := nat -> option (vten T * vten T).
Fixpoint s_out (par : params) (x : vten T) (cs : list (clay T)) : option (vten T) :=
  match cs with
  | [] => Some x
  | c :: rest => v ← s_out par x rest; match c_l c with None => Some v | Some l => lay_val l (par (c_i c)) v end
  end.
(** A layer without its activation. *)
Definition plainly (l : lspec T) : lspec T :=
  match l with
  | SDense o _ => SDense o (fun x => x)
  | SConv nf kw kh sx sy _ => SConv nf kw kh sx sy (fun x => x)
  | SDeconv nf kw kh sx sy _ => SDeconv nf kw kh sx sy (fun x => x)
  | _ => l
  end.
(** How many layers contribute to an error: a flattening layer adds its own
    number to that of the layer below. *)
Definition flattens (c : clay T) : bool := match c_l c with Some SFlat => true | _ => false end.
Fixpoint leads (cs : list (clay T)) : nat := match cs with c :: rest => if flattens c then S (leads rest) else 0 | [] => 0 end.
Fixpoint number (k : nat) : T := match k with O => nadd nzero none | S k => nadd (number k) (nadd nzero none) end.
Definition or_else {A} (c : clay T) (v : option A) (f : nat -> option A) : nat -> option A := fun i => if i =? c_i c then v else f i.
Fixpoint s_show (par : params) (x : vten T) (above : nat) (cs : list (clay T)) : reading T :=
  match cs with
  | [] => MkRd (fun _ => None) (fun _ => None) (fun _ => None) (fun _ => None) (fun _ => None) (fun _ => None) (fun _ => None)
  | c :: rest =>
      let R := s_show par x (if flattens c then S above else 0) rest in
      let v := s_out par x rest in
      let p := if c_par c then par (c_i c) else None in
      MkRd (or_else c v (r_x R))
        (or_else c (match c_l c with None => v | Some l => if has_par l then v' ← v; lay_val (plainly l) p v' else None end) (r_n R))
        (or_else c (s_out par x cs) (r_y R))
        (or_else c (fst <$> p) (r_b R))
        (or_else c (snd <$> p) (r_w R))
        (or_else c (match c_l c with Some (SNorm _ _) => v' ← v; reduce RedMax (map absv (vdata v')) | _ => None end) (r_max R))
        (or_else c (Some (number (above + leads cs))) (r_ref R))
  end.
End TrnScript.
