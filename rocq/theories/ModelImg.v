(** * ModelImg: img/simple_scale.go, img/smooth_scale.go, tools/bar.go and Distant of tools/tools.go

    float64 is Flocq's binary64 with rounding to nearest even; the products and
    sums of smooth_scale.go are not fused. Loading and saving: ModelImgIO.v. *)
From Verif Require Import Base Num ModelTools ModelOps ModelTensor ModelGraph ModelLayer.
From Flocq Require Import IEEE754.BinarySingleNaN IEEE754.Binary IEEE754.Bits.
From Coq Require Import Init.Byte.

(** float64(n) of an integer *)
Definition f64_of_Z (z : Z) : binary64 := binary_normalize 53 1024 eq_refl eq_refl mode_NE z 0 false.
Definition f64_mul : binary64 -> binary64 -> binary64 := b64_mult mode_NE.
Definition f64_div : binary64 -> binary64 -> binary64 := b64_div mode_NE.
Definition f64_sub : binary64 -> binary64 -> binary64 := b64_minus mode_NE.
Definition f64_add : binary64 -> binary64 -> binary64 := b64_plus mode_NE.
(** Conversions to integers cut off the fraction. Outside of the range of the
    integer type the language leaves the result open: [odd]. *)
Definition uint_of_f64 (odd : binary64 -> N) (x : binary64) : N :=
  let z := Btrunc 53 1024 x in
  if is_finite 53 1024 x && (0 <=? z)%Z && (z <? 2 ^ 64)%Z then Z.to_N z else odd x.
Definition int_of_f64 (odd : binary64 -> Z) (x : binary64) : Z :=
  let z := Btrunc 53 1024 x in
  if is_finite 53 1024 x && (- 2 ^ 63 <=? z)%Z && (z <? 2 ^ 63)%Z then z else odd x.

(** img/simple_scale.go:19-20 and 30-31: where output cell [x] of [w] looks in [n] input cells *)
Definition pick (odd : binary64 -> N) (n w x : N) : N :=
  uint_of_f64 odd (f64_mul (f64_of_Z (Z.of_N x)) (f64_div (f64_of_Z (Z.of_N n)) (f64_of_Z (Z.of_N w)))).

Section Img.
Context {T : Type} `{Num T}.
Context (odd : binary64 -> N).

(** img/simple_scale.go:9-44 SimpleScale; [ELayer 70], [ELayer 71]: not an image. *)
Definition SimpleScale (img : nat) (width height : N) : TM T nat :=
  m <~ get_mat img ;
  match shape m with
  | [ch; w; h] =>
      new <~ NewZeros [ch; width; height] ;
      mfor (urange width) (fun x => mfor (urange height) (fun y =>
        let X := pick odd w width x in
        let Y := pick odd h height y in
        mfor (urange ch) (fun d => c <~ Get img [d; X; Y] ; ignore_err (Set_ new c [d; x; y])))) ;~
      mret new
  | _ => mfail (ELayer 70)
  end.

(** img/smooth_scale.go:58-120 SmoothScale: four channels whatever the input has.
    [to64], [of64]: float64(p) and T(f). *)
Context (to64 : T -> binary64) (of64 : binary64 -> T).
Definition one64 : binary64 := f64_of_Z 1.
Definition frac (n w x : N) : binary64 :=
  f64_sub (f64_mul (f64_of_Z (Z.of_N x)) (f64_div (f64_of_Z (Z.of_N n)) (f64_of_Z (Z.of_N w)))) (f64_of_Z (Z.of_N (pick odd n w x))).
(** (1-dx)*(1-dy)*p1 + dx*(1-dy)*p2 + (1-dx)*dy*p3 + dx*dy*p4 *)
Definition blend (dx dy : binary64) (p1 p2 p3 p4 : T) : T :=
  let ex := f64_sub one64 dx in
  let ey := f64_sub one64 dy in
  of64 (f64_add (f64_add (f64_add (f64_mul (f64_mul ex ey) (to64 p1)) (f64_mul (f64_mul dx ey) (to64 p2)))
                         (f64_mul (f64_mul ex dy) (to64 p3))) (f64_mul (f64_mul dx dy) (to64 p4))).
Definition SmoothScale (img : nat) (width height : N) : TM T nat :=
  m <~ get_mat img ;
  match shape m with
  | [ch; w; h] =>
      t <~ NewZeros [4; width; height]%N ;
      mfor (urange width) (fun x => mfor (urange height) (fun y =>
        let X := pick odd w width x in
        let Y := pick odd h height y in
        mfor (urange ch) (fun d =>
          p1 <~ Get img [d; X; Y] ; p2 <~ Get img [d; uadd X 1; Y] ; p3 <~ Get img [d; X; uadd Y 1] ; p4 <~ Get img [d; uadd X 1; uadd Y 1] ;
          ignore_err (Set_ t (blend (frac w width x) (frac h height y) p1 p2 p3 p4) [d; x; y])))) ;~
      mret t
  | _ => mfail (ELayer 71)
  end.

(** tools/tools.go:131-145 Distant; [root x] is T(math.Sqrt(float64(x))). *)
Definition Distant (root : T -> T) (t1 t2 : list T) : res T :=
  if negb (length t1 =? length t2) then Err (EDataSize (length t1) (length t2))
  else Ok (root (fold_left (fun d ab => nadd d (nmul (nsub (fst ab) (snd ab)) (nsub (fst ab) (snd ab)))) (zip t1 t2) nzero)).
End Img.

(** strings.Repeat of a single character: a negative count panics. *)
Definition Repeat (b : byte) (n : Z) : res (list byte) := if (n <? 0)%Z then Panic else Ok (replicate (Z.to_nat n) b).
(** tools/bar.go:5-25 Bar; int is 64 bits wide. *)
Definition Bar (odd : binary64 -> Z) (pro : binary64) (size : Z) : res (list byte) :=
  if (size <=? 0)%Z then Ok []
  else if (size <? 4)%Z then Repeat x2e size
  else
    let size := (size - 2)%Z in
    let prog := int_of_f64 odd (f64_mul (f64_of_Z size) pro) in
    let left := wrapZ 64 (size - prog) in
    let left := if (left <? 0)%Z then 0%Z else left in
    res_bind (Repeat x23 prog) (fun a => res_bind (Repeat x20 left) (fun b => Ok ([x5b] ++ a ++ b ++ [x5d]))).
