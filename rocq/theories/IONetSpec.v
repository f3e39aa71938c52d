(** * IONetSpec: what saving and loading a network does

    First what happens, in terms of layers, numbers and bytes only; then the same
    as calls of the modelled code. *)
From Verif Require Import Base Num Spec NetSpec FwdSpec FwdScript.
From Verif Require Import ModelTools ModelOps ModelTensor ModelGraph ModelLayer ModelModel ModelIO IOSpec.
From Coq Require Import Init.Byte.

(** ** The order of a file
    Layers are visited from the output towards the inputs; a layer that was
    visited before is passed over with everything behind it. A layer's own numbers
    come after those of the layers behind it. *)
Inductive ev : Type :=
| Enter (i : nat)                                (* the layer is marked *)
| Data (k : nat).                                (* its weights, then its bias *)
Definition enters (l : list ev) : list nat := flat_map (fun v => match v with Enter i => [i] | Data _ => [] end) l.
Definition datas (l : list ev) : list nat := flat_map (fun v => match v with Data k => [k] | Enter _ => [] end) l.

Section IONet.
Context {T : Type} `{Num T}.
Fixpoint walk_net (e : net T) (done : list nat) : list ev :=
  match e with
  | NIn _ => []
  | NLay l i e' => if decide (i ∈ done) then [] else Enter i :: walk_net e' (i :: done) ++ (if has_par l then [Data i] else [])
  | NCat i a b _ =>
      if decide (i ∈ done) then []
      else let wa := walk_net a (i :: done) in Enter i :: wa ++ walk_net b (enters wa ++ i :: done)
  end.
(** The layers whose marks the reset functions remove. *)
Fixpoint chain (e : net T) : list nat :=
  match e with NIn _ => [] | NLay _ i e' => i :: chain e' | NCat i _ _ _ => [i] end.
Definition unmark (l done : list nat) : list nat := List.filter (fun j => negb (bool_decide (j ∈ l))) done.

Definition params := nat -> option (vten T * vten T).
Definition numbers (par : params) (k : nat) : list T :=
  match par k with Some (b, w) => vdata w ++ vdata b | None => [] end.
Definition content (par : params) (ks : list nat) : list T := concat (map (numbers par) ks).

Context (c : codec T).
(** The bytes of one layer; what is visited when [n] bytes can be moved. *)
Definition size (par : params) (k : nat) : nat := length (numbers par k) * cwidth c.
Fixpoint upto (sz : nat -> nat) (n : option nat) (l : list ev) : list ev :=
  match l with
  | [] => []
  | Enter i :: l' => Enter i :: upto sz n l'
  | Data k :: l' =>
      match n with
      | None => Data k :: upto sz None l'
      | Some m => if m <? sz k then [] else Data k :: upto sz (Some (m - sz k)) l'
      end
  end.
(** Reading a file: each layer takes the bytes of its numbers as long as there are any. *)
Definition load1 (r : list byte) (p : vten T * vten T) : vten T * vten T :=
  let '(b, w) := p in
  (V (vsh b) (fill c (drop (length (vdata w) * cwidth c) r) (vdata b)), V (vsh w) (fill c r (vdata w))).
Fixpoint load_pars (r : list byte) (ks : list nat) (par : params) : params :=
  match ks with
  | [] => par
  | k :: ks' => load_pars (drop (size par k) r) ks' (fun j => if decide (j = k) then load1 r <$> par k else par j)
  end.

(** ** Histories *)
Inductive iact : Type :=
| IUse (a : fact T)
| ISave (room : option nat)                      (* into a file that may hold so many bytes *)
| ILoad (file : list byte)
| IResetSave
| IResetLoad.
Inductive iobs : Type :=
| OShow (o : option (list T))
| OFile (ok : bool) (bytes : list byte)          (* what was written *)
| OLeft (ok : bool) (rest : list byte)           (* what was not read *)
| ODone.
Record ist : Type := MkI { i_par : params; i_saved : list nat; i_loaded : list nat; i_store : list (vten T) }.
Definition fits_room (room : option nat) (n : nat) : bool := match room with Some k => n <=? k | None => true end.
Definition cut {A} (room : option nat) (l : list A) : list A := match room with Some k => take k l | None => l end.

Context (ms : list (mk T)) (inp : nat) (e : net T) (ish : list N).
Inductive istep : ist -> iact -> ist -> iobs -> Prop :=
| is_use par dS dL st a st' o :
    fstep ish (answer ms inp e par) st a st' o -> istep (MkI par dS dL st) (IUse a) (MkI par dS dL st') (OShow o)
| is_save par dS dL st room evs file :
    evs = walk_net e dS -> file = dump c (content par (datas evs)) ->
    istep (MkI par dS dL st) (ISave room) (MkI par (enters (upto (size par) room evs) ++ dS) dL st)
          (OFile (fits_room room (length file)) (cut room file))
| is_load par dS dL st r evs n :
    evs = walk_net e dL -> n = length (content par (datas evs)) * cwidth c ->
    istep (MkI par dS dL st) (ILoad r) (MkI (load_pars r (datas evs) par) dS (enters (upto (size par) (Some (length r)) evs) ++ dL) st)
          (OLeft (n <=? length r) (drop n r))
| is_reset_save par dS dL st : istep (MkI par dS dL st) IResetSave (MkI par (unmark (chain e) dS) dL st) ODone
| is_reset_load par dS dL st : istep (MkI par dS dL st) IResetLoad (MkI par dS (unmark (chain e) dL) st) ODone.
Inductive ihistory : ist -> list iact -> ist -> list iobs -> Prop :=
| ih_nil x : ihistory x [] x []
| ih_cons x a x1 o acts x2 os : istep x a x1 o -> ihistory x1 acts x2 os -> ihistory x (a :: acts) x2 (o :: os).
End IONet.
Arguments params T : clear implicits.
Arguments iact T : clear implicits.
Arguments iobs T : clear implicits.
Arguments ist T : clear implicits.

(** ** The same as calls of the code *)
Section Program.
Context {T : Type} `{Num T}.
Context (rnd : nat -> nat -> T) (cod : option (codec T)).

Definition do_iact (st : model T * list nat) (a : iact T) : LM T (model T * list nat * iobs T) :=
  match a with
  | IUse f => r <~ do_fact rnd st f ; mret (fst r, OShow (snd r))
  | ISave room => fun s =>
      match MSave cod (fst st) (MkW [] room, s) with
      | (Ok _, (w, s')) => (Ok (st, OFile true (written w)), s')
      | (Err _, (w, s')) => (Ok (st, OFile false (written w)), s')
      | (Panic, (_, s')) => (Panic, s')
      | (Diverge, (_, s')) => (Diverge, s')
      end
  | ILoad file => fun s =>
      match MLoad cod (fst st) (file, s) with
      | (Ok _, (r, s')) => (Ok (st, OLeft true r), s')
      | (Err _, (r, s')) => (Ok (st, OLeft false r), s')
      | (Panic, (_, s')) => (Panic, s')
      | (Diverge, (_, s')) => (Diverge, s')
      end
  | IResetSave => MResetSave (fst st) ;~ mret (st, ODone)
  | IResetLoad => MResetLoad (fst st) ;~ mret (st, ODone)
  end.
Fixpoint do_iacts (st : model T * list nat) (acts : list (iact T)) : LM T (model T * list nat * list (iobs T)) :=
  match acts with
  | [] => mret (st, [])
  | a :: acts' => r <~ do_iact st a ; r' <~ do_iacts (fst r) acts' ; mret (fst r', snd r :: snd r')
  end.
Definition iprogram (build : LM T (list nat * model T)) (acts : list (iact T)) :
    LM T (list nat * (model T * list nat * list (iobs T))) :=
  b <~ build ; m <~ Compile rnd (snd b) ; r <~ do_iacts (m, []) acts ; mret (fst b, r).
End Program.
