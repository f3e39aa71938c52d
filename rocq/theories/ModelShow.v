(** * ModelShow: the progress display of Train

    Texts as in ModelStr.v. *)
From Coq Require Import Ascii String.
From Verif Require Import Base Num ModelTools ModelOps ModelTensor ModelGraph ModelLayer ModelModel ModelImg ModelStr.
From Flocq Require Import IEEE754.BinarySingleNaN IEEE754.Binary IEEE754.Bits.
From Coq Require Import Init.Byte.

(** ** %.pf of a float64 (strconv.FormatFloat with 'f'): the exact value rounded
    to p decimals, ties to even *)
Definition half_even (n d : Z) : Z :=
  let q := (n / d)%Z in let r := (n mod d)%Z in
  match (2 * r ?= d)%Z with Lt => q | Gt => (q + 1)%Z | Eq => if Z.even q then q else (q + 1)%Z end.
Definition rounded (p : nat) (m : positive) (e : Z) : Z :=
  let n := (Z.pos m * 10 ^ Z.of_nat p)%Z in
  if (0 <=? e)%Z then (n * 2 ^ e)%Z else half_even n (2 ^ (- e)).
Fixpoint padded (p : nat) (n : N) (acc : text) : text :=
  match p with O => acc | S p' => padded p' (n / 10) (digit (n mod 10) :: acc) end.
Definition point (p : nat) (q : N) : text := dec (q / 10 ^ N.of_nat p) ++ tx "." ++ padded p (q mod 10 ^ N.of_nat p) [].
Definition minus (s : bool) : text := if s then tx "-" else [].
Definition fixed (p : nat) (x : binary64) : text :=
  match x with
  | B754_zero _ _ s => minus s ++ point p 0
  | B754_infinity _ _ s => tx (if s then "-Inf" else "+Inf")
  | B754_nan _ _ _ _ _ => tx "NaN"
  | B754_finite _ _ s m e _ => minus s ++ point p (Z.to_N (rounded p m e))
  end.

(** strings.Repeat(" ", n) *)
Definition spaces (n : Z) : res text := res_bind (Repeat x20 n) (fun l => Ok (map ascii_of_byte l)).
Definition len (t : text) : Z := Z.of_nat (length t).
Definition carriage : text := [ascii_of_nat 13].

(** uint arithmetic wraps around at 2^64 *)
Definition wrap64 (n : N) : N := (n mod 2 ^ 64)%N.
(** model.go:354 *)
Definition progress (epochs batch i j : N) : binary64 :=
  f64_div (f64_of_Z (Z.of_N (wrap64 (wrap64 (i * batch) + j)))) (f64_of_Z (Z.of_N (wrap64 (epochs * batch)))).
(** model.go:352-384: what is printed in step [j] of epoch [i]; [loss] is
    float64(p.Loss.Value), [width] the width of the terminal, a 16-bit number. *)
Definition ShowStep (odd : binary64 -> Z) (width : Z) (epochs batch i j : N) (loss : binary64) : res text :=
  let prog := progress epochs batch i j in
  let sProg := fixed 2 (f64_mul prog (f64_of_Z 100)) ++ tx "%" in
  let sI := dec i in let sJ := dec j in let sE := dec epochs in let sB := dec batch in
  let sLoss := fixed 8 loss in
  let lLoss := (10 - len sLoss)%Z in
  let lLoss := if (lLoss <? 0)%Z then 0%Z else lLoss in
  res_bind (spaces (7 - len sProg)) (fun a =>
  res_bind (spaces (len sE - len sI)) (fun b =>
  res_bind (spaces (len sB - len sJ)) (fun c =>
  res_bind (spaces lLoss) (fun d =>
  let info := carriage ++ tx "[" ++ a ++ sProg ++ tx "] " ++ b ++ sI ++ tx " / " ++ sE ++ tx " => <" ++ c ++ sJ ++ tx " / " ++ sB ++ tx "> " ++ d ++ sLoss in
  res_bind (Bar odd prog (width - len info - 1)) (fun bar => Ok (info ++ tx " " ++ map ascii_of_byte bar)))))).
(** model.go:391-397: what is printed at the end; Println puts a space between
    its arguments. *)
Definition ShowEnd (odd : binary64 -> Z) (width : Z) (epochs : N) (loss : binary64) : res text :=
  let info := carriage ++ tx "[100.00%] " ++ dec epochs ++ tx " / " ++ dec epochs ++ tx " => " ++ fixed 6 loss in
  res_bind (Bar odd one64 (width - len info - 1)) (fun bar => Ok (info ++ tx " " ++ map ascii_of_byte bar ++ newline)).

(** model.go:311-400 Train as in ModelModel.v, with the display: [shown e b] says
    whether 300 ms have passed, [loss e b] and [loss_end] are the values
    printed. Its texts are dropped. *)
Section Train.
Context {T : Type} `{Num T}.
Definition TrainShown (odd : binary64 -> Z) (width : Z) (shown : nat -> nat -> bool) (loss : nat -> nat -> binary64) (loss_end : binary64)
    (picks : nat -> nat -> nat) (m : model T) (xs ys : list nat) (epochs batch : nat) (alpha momentum : T) : LM T (model T) :=
  if negb (length xs =? length ys) then mfail (ELayer 7)
  else
    m' <~ (match m_bp m with None => CompileBackPropagation m | Some _ => mret m end) ;
    liftT (wrM (m_alpha m') alpha) ;~
    liftT (wrM (m_momentum m') momentum) ;~
    let batch' := if batch =? 0 then length xs else batch in
    mfor (range epochs) (fun e =>
      mfor (range batch') (fun b =>
        (if length xs =? 0 then mpanic
         else
           let k := Nat.modulo (picks e b) (length xs) in
           x <~ mlift (at_or_panic xs k) ;
           y <~ mlift (at_or_panic ys k) ;
           ExecFit m' x y) ;~
        (if shown e b
         then mlift (ShowStep odd width (N.of_nat epochs) (N.of_nat batch') (N.of_nat e) (N.of_nat (S b)) (loss e b)) ;~ mret tt
         else mret tt))) ;~
    liftT (rdM (m_loss m')) ;~
    mlift (ShowEnd odd width (N.of_nat epochs) loss_end) ;~
    mret m'.
End Train.
