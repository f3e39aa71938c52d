(** * ModelCodec: the number types of types/type.go:3-5 on files

    encoding/binary with LittleEndian: fixed-size integers are written in two's
    complement, floats by math.Float32bits and math.Float64bits; int is not a
    fixed-size type and is refused. *)
From Verif Require Import Base Num NumIntS ModelIO.
From Flocq Require Import IEEE754.Binary IEEE754.Bits.
From Coq Require Import ZArith Init.Byte.

Definition int_codec (k : nat) (w : Z) (Hw : (0 < w)%Z) : codec (intw w) :=
  MkCodec k (fun x => le_bytes k (Z.to_N (ival x mod 2 ^ w)%Z)) (fun bs => mk w Hw (Z.of_N (le_value bs))).
Definition f32_codec : codec binary32 :=
  MkCodec 4 (fun x => le_bytes 4 (Z.to_N (bits_of_b32 x))) (fun bs => b32_of_bits (Z.of_N (le_value bs))).
Definition f64_codec : codec binary64 :=
  MkCodec 8 (fun x => le_bytes 8 (Z.to_N (bits_of_b64 x))) (fun bs => b64_of_bits (Z.of_N (le_value bs))).

(** types/type.go:3-5 Number *)
Inductive gotype : Type := Gfloat32 | Gfloat64 | Gint | Gint16 | Gint32 | Gint64.
Definition gocar (g : gotype) : Type :=
  match g with
  | Gfloat32 => binary32 | Gfloat64 => binary64
  | Gint => intw 64 | Gint16 => intw 16 | Gint32 => intw 32 | Gint64 => intw 64
  end.
Definition gocodec (g : gotype) : option (codec (gocar g)) :=
  match g with
  | Gfloat32 => Some f32_codec
  | Gfloat64 => Some f64_codec
  | Gint => None
  | Gint16 => Some (int_codec 2 16 eq_refl)
  | Gint32 => Some (int_codec 4 32 eq_refl)
  | Gint64 => Some (int_codec 8 64 eq_refl)
  end.
