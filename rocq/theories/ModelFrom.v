(** * ModelFrom: FromModels (model/model.go:52-139)

    The models given are different objects.  Go changes them in place, so the
    function returns them too. *)
From Verif Require Import Base Num ModelTools ModelOps ModelTensor ModelGraph ModelLayer ModelModel.

Section From.
Context {T : Type} `{Num T}.
Context (rnd : nat -> nat -> T).

(** A call that changes [d] in place and whose error is dropped.  When it fails
    neither GraphFeedForward nor GraphResetFit was set (model.go:180-181,
    242-243), so FromModels gives up before it looks at anything else. *)
Definition drop_err {A} (c : LM T A) (d : A) : LM T A := fun s =>
  match c s with
  | (Err _, s') => (Ok d, s')
  | r => r
  end.

(** model.go:57-61 *)
Fixpoint link (prev : model T) (ms : list (model T)) : LM T unit :=
  match ms with
  | [] => mret tt
  | m :: ms' =>
      f <~ the (m_first m) ;
      l <~ getL f ;
      (if bool_decide (lpre l = m_last prev) then mret tt else Connect f (m_last prev)) ;~
      link m ms'
  end.
(** model.go:63-67 and 69-73 *)
Definition ensure_ff (m : model T) : LM T (model T) :=
  match m_ff m with None => drop_err (Compile rnd m) m | Some _ => mret m end.
Definition ensure_back (m : model T) : LM T (model T) :=
  match m_bp m with None => drop_err (CompileBackPropagation m) m | Some _ => mret m end.
(** model.go:89-98, 100-106, 108-117 and 127-136: one graph after the other *)
Fixpoint joined (get : model T -> option (graph T)) (ms : list (model T)) (g : graph T) : LM T (graph T) :=
  match ms with
  | [] => mret g
  | m :: ms' =>
      match get m with
      | None => mfail (ELayer 8)
      | Some g' => joined get ms' (AddFromGraph g g')
      end
  end.

(** model.go:52-139 FromModels; line 119 reads the graph it checks only afterwards *)
Definition FromModels (ms : list (model T)) : LM T (list (model T) * model T) :=
  match ms with
  | [] => mfail (ELayer 9)
  | m0 :: rest =>
      link m0 rest ;~
      ms1 <~ mmap ms ensure_ff ;
      ms2r <~ mmap (rev ms1) ensure_back ;
      let ms2 := rev ms2r in
      a <~ the (head ms2) ; z <~ the (last ms2) ;
      ff <~ joined m_ff ms2 NewEmptyGraph ;
      reset <~ joined m_reset ms2 NewEmptyGraph ;
      rf <~ joined m_resetfit ms2 NewEmptyGraph ;
      cd <~ the (m_caldif z) ;
      bp <~ joined m_bp (rev ms2) NewEmptyGraph ;
      mret (ms2, MkModel (m_first a) (m_last z) (m_input a) (m_output z) (m_target z) (m_alpha z) (m_momentum z) (m_loss z)
                   (Some ff) (Some bp) (Some (NewFromGraph cd)) (Some rf) (Some reset))
  end.
End From.
