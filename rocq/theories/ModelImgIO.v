(** * ModelImgIO: img/image.go and img/save.go

    Reading and writing of files is left out: what image.Decode gives is an
    argument, an error or a picture, and ToImg gives the image that png.Encode and
    jpeg.Encode are handed. *)
From Verif Require Import Base Num ModelTools ModelOps ModelTensor ModelLayer ModelImg.
From Flocq Require Import IEEE754.BinarySingleNaN IEEE754.Binary IEEE754.Bits.

(** What RGBA() of a colour gives: four numbers up to 65535. *)
Record colour := MkColour { cred : N; cgreen : N; cblue : N; calpha : N }.
(** image.Image: the corner of its bounds, its size, and At, which has a result
    outside of the bounds too. What that is depends on the kind of image. *)
Record picture := MkPicture { pminx : Z; pminy : Z; pwidth : N; pheight : N; pat : Z -> Z -> colour }.

(** image.go:14 MaxColor *)
Definition MaxColor : binary64 := f64_of_Z 65535.
(** float64(r)/MaxColor *)
Definition level (n : N) : binary64 := f64_div (f64_of_Z (Z.of_N n)) MaxColor.
(** image.go:69-70 and 107-108: int(float64(i) * scal) *)
Definition picki (odd : binary64 -> Z) (n w x : N) : Z :=
  int_of_f64 odd (f64_mul (f64_of_Z (Z.of_N x)) (f64_div (f64_of_Z (Z.of_N n)) (f64_of_Z (Z.of_N w)))).
(** image.go:117-118: dx and dy *)
Definition fraci (odd : binary64 -> Z) (n w x : N) : binary64 :=
  f64_sub (f64_mul (f64_of_Z (Z.of_N x)) (f64_div (f64_of_Z (Z.of_N n)) (f64_of_Z (Z.of_N w)))) (f64_of_Z (picki odd n w x)).
(** uint32(f): left open outside of the range *)
Definition uint32_of_f64 (odd : binary64 -> N) (x : binary64) : N :=
  let z := Btrunc 53 1024 x in
  if is_finite 53 1024 x && (0 <=? z)%Z && (z <? 2 ^ 32)%Z then Z.to_N z else odd x.

Section Load.
Context {T : Type} `{Num T}.
(** [of64]: T(f) *)
Context (of64 : binary64 -> T).

(** t.Set(T(float64(n)/MaxColor), d, i, j), whose error is dropped *)
Definition put (t : nat) (n d i j : N) : TM T unit := ignore_err (Set_ t (of64 (level n)) [d; i; j]).
(** image.go:36-39, 73-76 and 172-175 *)
Definition put_colour (t : nat) (c : colour) (i j : N) : TM T unit :=
  put t (cred c) 0 i j ;~ put t (cgreen c) 1 i j ;~ put t (cblue c) 2 i j ;~ put t (calpha c) 3 i j.

(** image.go:16-44 LoadImage *)
Definition LoadImage (file : res picture) : TM T nat :=
  p <~ mlift file ;
  t <~ NewZeros [4; pwidth p; pheight p]%N ;
  mfor (urange (pwidth p)) (fun i => mfor (urange (pheight p)) (fun j =>
    put_colour t (pat p (Z.of_N i) (Z.of_N j)) i j)) ;~
  mret t.

Context (oddi : binary64 -> Z).
(** image.go:46-81 LoadSimpleScaled *)
Definition LoadSimpleScaled (file : res picture) (width height : N) : TM T nat :=
  p <~ mlift file ;
  t <~ NewZeros [4; width; height]%N ;
  mfor (urange width) (fun i => mfor (urange height) (fun j =>
    let X := picki oddi (pwidth p) width i in
    let Y := picki oddi (pheight p) height j in
    put_colour t (pat p X Y) i j)) ;~
  mret t.

Context (odd32 : binary64 -> N).
(** image.go:126-169: one of r, g, b and a *)
Definition blend_level (dx dy : binary64) (n1 n2 n3 n4 : N) : N :=
  let f n := f64_of_Z (Z.of_N n) in
  uint32_of_f64 odd32 (blend (fun x => x) (fun x => x) dx dy (f n1) (f n2) (f n3) (f n4)).
Definition blend_colour (dx dy : binary64) (c1 c2 c3 c4 : colour) : colour :=
  MkColour (blend_level dx dy (cred c1) (cred c2) (cred c3) (cred c4)) (blend_level dx dy (cgreen c1) (cgreen c2) (cgreen c3) (cgreen c4))
           (blend_level dx dy (cblue c1) (cblue c2) (cblue c3) (cblue c4)) (blend_level dx dy (calpha c1) (calpha c2) (calpha c3) (calpha c4)).
(** image.go:83-180 LoadSmoothScaled; int is 64 bits wide. *)
Definition LoadSmoothScaled (file : res picture) (width height : N) : TM T nat :=
  p <~ mlift file ;
  t <~ NewZeros [4; width; height]%N ;
  mfor (urange width) (fun x => mfor (urange height) (fun y =>
    let X := picki oddi (pwidth p) width x in
    let Y := picki oddi (pheight p) height y in
    let p1 := pat p X Y in
    let p2 := pat p (wrapZ 64 (X + 1)) Y in
    let p3 := pat p X (wrapZ 64 (Y + 1)) in
    let p4 := pat p (wrapZ 64 (X + 1)) (wrapZ 64 (Y + 1)) in
    put_colour t (blend_colour (fraci oddi (pwidth p) width x) (fraci oddi (pheight p) height y) p1 p2 p3 p4) x y)) ;~
  mret t.
End Load.

(** image.RGBA: its size and its pixels, row by row, four numbers up to 255 each *)
Record rgba := MkRgba { gwidth : N; gheight : N; gpix : list colour }.
(** color.RGBA{} *)
Definition no_colour : colour := MkColour 0 0 0 0.
(** image.NewRGBA(image.Rect(0, 0, int(w), int(h))): panics if there are too many
    bytes. Simplified: for sizes of 2^63 and more, which int turns negative, too. *)
Definition NewRGBA {S} (w h : N) : M S rgba :=
  if ((w <? 2 ^ 63) && (h <? 2 ^ 63) && (4 * w * h <? 2 ^ 63))%N then mret (MkRgba w h (replicate (N.to_nat (w * h)) no_colour)) else mpanic.
(** SetRGBA: nothing happens outside of the bounds. *)
Definition SetRGBA (g : rgba) (x y : N) (c : colour) : rgba :=
  if ((x <? gwidth g) && (y <? gheight g))%N then MkRgba (gwidth g) (gheight g) (<[N.to_nat (y * gwidth g + x) := c]> (gpix g)) else g.
(** At, and RGBA() of color.RGBA: r |= r << 8 *)
Definition wide (c : colour) : colour := MkColour (257 * cred c) (257 * cgreen c) (257 * cblue c) (257 * calpha c).
Definition rgba_at (g : rgba) (x y : Z) : colour :=
  if ((0 <=? x) && (0 <=? y) && (x <? Z.of_N (gwidth g)) && (y <? Z.of_N (gheight g)))%Z
  then wide (default no_colour (gpix g !! Z.to_nat (y * Z.of_N (gwidth g) + x))) else no_colour.
Definition rgba_picture (g : rgba) : picture := MkPicture 0 0 (gwidth g) (gheight g) (rgba_at g).

(** A loop that changes a local variable. *)
Fixpoint mfold {S A B} (l : list A) (b : B) (f : A -> B -> M S B) : M S B :=
  match l with
  | [] => mret b
  | x :: l' => b' <~ f x b ; mfold l' b' f
  end.

Section Save.
Context {T : Type} `{Num T}.
(** [u8]: uint8(v) *)
Context (u8 : T -> N).
(** save.go:15-64 ToImg; [ELayer 72]: not an image. *)
Definition ToImg (img : nat) : TM T rgba :=
  m <~ get_mat img ;
  match shape m with
  | [_; w; h] =>
      g <~ NewRGBA w h ;
      mfold (urange w) g (fun i g => mfold (urange h) g (fun j g =>
        r <~ Get img [0; i; j]%N ; gr <~ Get img [1; i; j]%N ; b <~ Get img [2; i; j]%N ; a <~ Get img [3; i; j]%N ;
        mret (SetRGBA g i j (MkColour (u8 (nmul r (nofN 255))) (u8 (nmul gr (nofN 255))) (u8 (nmul b (nofN 255))) (u8 (nmul a (nofN 255)))))))
  | _ => mfail (ELayer 72)
  end.
End Save.
