(** * ModelNest: models used as layers (model/model_layer.go)

    Model implements layer.Layer, so a model can be pushed into a model. Every
    method hands the call on to the first or to the last layer. *)
From Verif Require Import Base Num ModelTools ModelOps ModelTensor ModelGraph ModelLayer ModelModel.

(** A value of the interface layer.Layer: a layer or a model. *)
Inductive ref : Type := RL (id : nat) | RM (m : nat).
#[export] Instance ref_eq_dec : EqDecision ref. Proof. solve_decision. Defined.

(** The fields FirstLayer and LastLayer of each model (nil before the first Push)
    and PreLayer of each layer. *)
Record nest : Type := MkNest { n_mod : nat -> option (ref * ref); n_pre : nat -> option ref }.
Definition new_nest : nest := MkNest (fun _ => None) (fun _ => None).

(** model_layer.go:48-50, 76-82: Connect and GetPrelayer (and GetInputs) reach the
    first layer of the first layer and so on. A model without layers panics; a
    model inside of itself never ends. *)
Fixpoint FirstLeaf (fuel : nat) (w : nest) (r : ref) : res nat :=
  match fuel with
  | O => Diverge
  | S fuel' => match r with RL i => Ok i | RM m => match n_mod w m with Some (f, _) => FirstLeaf fuel' w f | None => Panic end end
  end.
(** model_layer.go:13-38, 52-70, 84-110: the other methods reach the last one. *)
Fixpoint LastLeaf (fuel : nat) (w : nest) (r : ref) : res nat :=
  match fuel with
  | O => Diverge
  | S fuel' => match r with RL i => Ok i | RM m => match n_mod w m with Some (_, l) => LastLeaf fuel' w l | None => Panic end end
  end.
(** model.go:141-150 Push; model_layer.go:80-82 Connect *)
Definition NPush (fuel : nat) (m : nat) (r : ref) (w : nest) : res nest :=
  match n_mod w m with
  | None => Ok (MkNest (fun k => if k =? m then Some (r, r) else n_mod w k) (n_pre w))
  | Some (f, l) =>
      res_bind (FirstLeaf fuel w r) (fun x =>
      Ok (MkNest (fun k => if k =? m then Some (f, r) else n_mod w k) (fun y => if y =? x then Some l else n_pre w y)))
  end.
Fixpoint NPushes (fuel : nat) (ps : list (nat * ref)) (w : nest) : res nest :=
  match ps with
  | [] => Ok w
  | p :: ps' => res_bind (NPush fuel (fst p) (snd p) w) (NPushes fuel ps')
  end.

(** model_layer.go:40-46 SetTrainable: the layers it reaches; [cur] walks from
    LastLayer over GetPrelayer and stops at nil or at FirstLayer. *)
Fixpoint NSetTrainable (fuel : nat) (w : nest) (r : ref) : res (list nat) :=
  match fuel with
  | O => Diverge
  | S fuel' =>
      match r with
      | RL i => Ok [i]
      | RM m =>
          match n_mod w m with
          | None => Ok []
          | Some (f, l) => NWalk fuel' w f (Some l)
          end
      end
  end
with NWalk (fuel : nat) (w : nest) (f : ref) (cur : option ref) : res (list nat) :=
  match fuel with
  | O => Diverge
  | S fuel' =>
      match cur with
      | None => Ok []
      | Some c =>
          if bool_decide (c = f) then Ok []
          else
            res_bind (NSetTrainable fuel' w c) (fun a =>
            res_bind (FirstLeaf fuel' w c) (fun x =>
            res_bind (NWalk fuel' w f (n_pre w x)) (fun b => Ok (a ++ b))))
      end
  end.

(** ** As a model of layers
    While no Push happens, a call of a method of PreLayer is a call of the method
    of a layer: of the last one of what PreLayer is, or, for a model's first and
    last layer, of the layers they lead to. *)
Section Flat.
Context {T : Type} `{Num T}.
Definition leads (fuel : nat) (w : nest) (q : option ref) : option nat :=
  match q with None => None | Some r => match LastLeaf fuel w r with Ok i => Some i | _ => None end end.
Definition Flatten (fuel : nat) (w : nest) (m : nat) : LM T (model T) :=
  f <~ mlift (FirstLeaf fuel w (RM m)) ;
  l <~ mlift (LastLeaf fuel w (RM m)) ;
  (fun s => (Ok tt, MkL (ts s) (imap (fun i x => set_pre (leads fuel w (n_pre w i)) x) (lays s)) (rc s))) ;~
  mret (FromInOut f l).
End Flat.
