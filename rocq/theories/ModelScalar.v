(** * ModelScalar: the interface scalar.Scalar with its three types

    float32 and float64 operations are those of Flocq, as in ModelF16.v. *)
From Verif Require Import Base.
From Flocq Require Import IEEE754.BinarySingleNaN IEEE754.Binary IEEE754.Bits.
From Coq Require Import Ascii.
From Verif Require Import ModelF16.

(** What a value of type Scalar points to: F16 (f16.go:8-10), F32 (f32.go:5-7) or
    F64 (f64.go:5-7). *)
Inductive scal : Type := F16v (bits : Z) | F32v (x : binary32) | F64v (x : binary64).

(** f16.go:22-25, f32.go:23, f64.go:23 *)
Definition SG32 (p : scal) : binary32 := match p with F16v b => G32 b | F32v x => x | F64v x => b32_of_b64 x end.
(** f16.go:27-29, f32.go:24, f64.go:24 *)
Definition SG64 (p : scal) : binary64 := match p with F16v b => b64_of_b32 (G32 b) | F32v x => b64_of_b32 x | F64v x => x end.
(** f16.go:31-33, f32.go:25, f64.go:25: the value after the call *)
Definition SS32 (p : scal) (v : binary32) : scal := match p with F16v _ => F16v (F16fromF32 v) | F32v _ => F32v v | F64v _ => F64v (b64_of_b32 v) end.
(** f16.go:35-37, f32.go:26, f64.go:26 *)
Definition SS64 (p : scal) (v : binary64) : scal := match p with F16v _ => F16v (F16fromF32 (b32_of_b64 v)) | F32v _ => F32v (b32_of_b64 v) | F64v _ => F64v v end.

Inductive aop : Type := OAdd | OSub | OMul | ODiv.
Definition op32 (o : aop) : binary32 -> binary32 -> binary32 :=
  match o with OAdd => b32_plus mode_NE | OSub => b32_minus mode_NE | OMul => b32_mult mode_NE | ODiv => b32_div mode_NE end.
Definition op64 (o : aop) : binary64 -> binary64 -> binary64 :=
  match o with OAdd => b64_plus mode_NE | OSub => b64_minus mode_NE | OMul => b64_mult mode_NE | ODiv => b64_div mode_NE end.
(** f16.go:44-58, f32.go:31-34, f64.go:31-34 Add, Sub, Mul, Div: what the new
    scalar points to *)
Definition Arith (o : aop) (p v : scal) : scal :=
  match p with
  | F16v _ => F16v (F16fromF32 (op32 o (SG32 p) (SG32 v)))
  | F32v x => F32v (op32 o x (SG32 v))
  | F64v x => F64v (op64 o x (SG64 v))
  end.
(** f16.go:77-85, f32.go:42-50, f64.go:42-50 *)
Definition SCmp (p v : scal) : CmpRes :=
  match p with F64v _ => F64_Cmp (SG64 p) (SG64 v) | _ => F32_Cmp (SG32 p) (SG32 v) end.
(** f16.go:211-213, f32.go:52-54, f64.go:52-54; [sprint] is fmt.Sprint of a
    float32. *)
Definition SString {text : Type} (sprint : binary32 -> text) (p : scal) : text := sprint (SG32 p).

(** ** Scalars in memory: a pointer is a position *)
Notation cells := (list scal).
Definition rd (h : cells) (p : nat) : res scal := match h !! p with Some x => Ok x | None => Panic end.
(** Add, Sub, Mul, Div *)
Definition New (o : aop) (p v : nat) (h : cells) : res (nat * cells) :=
  res_bind (rd h p) (fun a => res_bind (rd h v) (fun b => Ok (length h, h ++ [Arith o a b]))).
(** f16.go:39-41, f32.go:28, f64.go:28 *)
Definition Copy (p : nat) (h : cells) : res (nat * cells) := res_bind (rd h p) (fun a => Ok (length h, h ++ [a])).
(** f16.go:61-75, f32.go:37-40, f64.go:37-40 SelfAdd, SelfSub, SelfMul, SelfDiv *)
Definition Self (o : aop) (p v : nat) (h : cells) : res cells :=
  res_bind (rd h p) (fun a => res_bind (rd h v) (fun b =>
  Ok (<[p := match a with F64v x => SS64 a (op64 o x (SG64 b)) | _ => SS32 a (op32 o (SG32 a) (SG32 b)) end]> h))).
