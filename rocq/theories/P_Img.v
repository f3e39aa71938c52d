(** * P_Img: scaling images, progress bars, distances and machine integers (claims C53-C57) *)
From Coq Require Import Reals.
From Flocq Require Import Core.Core.
From Verif Require Import Base Num NumReal NumIntS ModelTools ModelOps ModelTensor ModelGraph ModelLayer ModelImg Spec Denote ObjSpec DenoteDec ObjDec CompileProofs
  FailSpec ImgSpec ImgFloat ImgMain BarProofs DistProofs IntMain.
From Coq Require Import Init.Byte.
Open Scope nat_scope.

(** ** C53: SimpleScale
    [odd]: what the hardware makes of a float64 that is outside the range of uint. *)
Section Scale.
Context {T : Type} `{Num T} (odd : Bits.binary64 -> N) (s : tst T) (img : nat) (u : vten T).

Theorem C53_samples_partial c W H' w h : holds s img u -> vsh u = [c; W; H'] -> fits [c; w; h] -> (0 < W)%N -> (0 < H')%N -> (W * w < 2 ^ 51)%N -> (H' * h < 2 ^ 51)%N ->
  exists (X Y : N -> N) v, (forall x, (x < w)%N -> samples W w x (X x)) /\ (forall y, (y < h)%N -> samples H' h y (Y y)) /\
    returns_new s (SimpleScale odd img w h s) v /\ vsh v = [c; w; h] /\
    forall d x y, (d < c)%N -> (x < w)%N -> (y < h)%N ->
      exists p, at_ (vsh u) (vdata u) [d; X x; Y y] = Some p /\ at_ (vsh v) (vdata v) [d; x; y] = Some p.
Proof. exact (simple_claim odd s img u c W H' w h). Qed.
(** Exact if the image shrinks by whole factors; a copy if the size stays the same. *)
Theorem C53_whole_factors c k l w h : holds s img u -> vsh u = [c; k * w; l * h]%N -> (0 < k)%N -> (0 < l)%N -> (k * w < 2 ^ 53)%N -> (l * h < 2 ^ 53)%N ->
  exists v, returns_new s (SimpleScale odd img w h s) v /\ vsh v = [c; w; h] /\
    forall d x y, (d < c)%N -> (x < w)%N -> (y < h)%N -> at_ (vsh v) (vdata v) [d; x; y] = at_ (vsh u) (vdata u) [d; x * k; y * l]%N.
Proof. exact (simple_whole_claim odd s img u c k l w h). Qed.
Theorem C53_same_size c W H' : holds s img u -> vsh u = [c; W; H'] -> (W < 2 ^ 53)%N -> (H' < 2 ^ 53)%N -> returns_new s (SimpleScale odd img W H' s) u.
Proof. exact (simple_same_claim odd s img u c W H'). Qed.
Theorem C53_not_an_image w h : holds s img u -> length (vsh u) <> 3 -> refuses s (SimpleScale odd img w h s).
Proof. exact (simple_not_image_claim odd s img u w h). Qed.
Theorem C53_no_pixels c W H' w h : holds s img u -> vsh u = [c; W; H'] -> fits [c; w; h] -> (0 < c)%N -> (0 < w)%N -> (0 < h)%N -> W = 0%N \/ H' = 0%N ->
  exists e s', SimpleScale odd img w h s = (Err e, s').
Proof. exact (simple_empty_claim odd s img u c W H' w h). Qed.

(** ** C54: SmoothScale
    The result has four channels: further channels of the image are lost, missing
    ones are zero. A cell is the mean of its four neighbours, weighted by how far
    the exact place [x*W/w] is [behind] each, up to the errors of float64. *)
Context (to64 : T -> Bits.binary64) (of64 : Bits.binary64 -> T).
Theorem C54_shrink_partial c W H' w h : holds s img u -> vsh u = [c; W; H'] -> fits [4; w; h]%N -> (w < W)%N -> (h < H')%N -> (W * w < 2 ^ 51)%N -> (H' * h < 2 ^ 51)%N -> (W < W64)%N -> (H' < W64)%N ->
  exists (X Y : N -> N) v, (forall x, (x < w)%N -> samples W w x (X x)) /\ (forall y, (y < h)%N -> samples H' h y (Y y)) /\
    returns_new s (SmoothScale odd to64 of64 img w h s) v /\ vsh v = [4; w; h]%N /\
    forall d x y, (d < 4)%N -> (x < w)%N -> (y < h)%N ->
      ((d < c)%N -> exists p1 p2 p3 p4 z, at_ (vsh u) (vdata u) [d; X x; Y y] = Some p1 /\ at_ (vsh u) (vdata u) [d; X x + 1; Y y]%N = Some p2 /\
         at_ (vsh u) (vdata u) [d; X x; Y y + 1]%N = Some p3 /\ at_ (vsh u) (vdata u) [d; X x + 1; Y y + 1]%N = Some p4 /\
         at_ (vsh v) (vdata v) [d; x; y] = Some (of64 z) /\
         forall M, (1 <= M <= bpow radix2 1000)%R -> (forall p, p = p1 \/ p = p2 \/ p = p3 \/ p = p4 -> fin64 (to64 p) = true /\ (Rabs (R64 (to64 p)) <= M)%R) ->
           fin64 z = true /\
           (Rabs (R64 z - bilinear (behind W w x (X x)) (behind H' h y (Y y)) (R64 (to64 p1)) (R64 (to64 p2)) (R64 (to64 p3)) (R64 (to64 p4)))
            <= M * (IZR (Z.of_N (W + H')) + 8) * bpow radix2 (-49))%R) /\
      ((c <= d)%N -> at_ (vsh v) (vdata v) [d; x; y] = Some nzero).
Proof. exact (smooth_claim odd s img u to64 of64 c W H' w h). Qed.
(** Every other target size fails. *)
Theorem C54_otherwise_fails c W H' w h : holds s img u -> vsh u = [c; W; H'] -> fits [4; w; h]%N -> (0 < c)%N -> (0 < W)%N -> (0 < H')%N -> (0 < w)%N -> (0 < h)%N ->
  (W <= w)%N \/ (H' <= h)%N -> (W * w < 2 ^ 51)%N -> (H' * h < 2 ^ 51)%N -> (W < W64)%N -> (H' < W64)%N ->
  exists e s', SmoothScale odd to64 of64 img w h s = (Err e, s').
Proof. exact (smooth_grow_claim odd s img u to64 of64 c W H' w h). Qed.
End Scale.
Print Assumptions C53_samples_partial.
Print Assumptions C53_whole_factors.
Print Assumptions C53_same_size.
Print Assumptions C53_not_an_image.
Print Assumptions C53_no_pixels.
Print Assumptions C54_shrink_partial.
Print Assumptions C54_otherwise_fails.

Section Witness.
#[local] Existing Instance NumS32.
Definition pi (x : Z) : intw 32 := NumIntS.mk 32 eq_refl x.
Definition pic (vs : list Z) (sh : list N) : tst (intw 32) := snd (NewFromValues (map pi vs) sh (MkSt [] [] [])).
Definition got {A} (f : A -> Z) (r : res A * tst (intw 32)) : option Z := match fst r with Ok x => Some (f x) | _ => None end.

(** 49 * 2 / 98 is 1, but computed in float64 it is slightly less. *)
Theorem C53_refuted : exists (s : tst (intw 32)) img u, holds s img u /\ vsh u = [1; 2; 1]%N /\ forall odd, exists id s',
  SimpleScale odd img 98 1 s = (Ok id, s') /\
  got ival (Get id [0; 49; 0]%N s') = Some 10%Z /\ got ival (Get img [0; 49 * 2 / 98; 0]%N s') = Some 20%Z.
Proof.
  exists (pic [10; 20]%Z [1; 2; 1]%N), 0, (V [1; 2; 1]%N (map pi [10; 20]%Z)).
  split; [holds_tac|]. split; [reflexivity|]. intros odd. eexists _, _. split; [vm_compute; reflexivity|]. split; vm_compute; reflexivity.
Qed.
Print Assumptions C53_refuted.
Theorem C54_refuted : exists (s : tst (intw 32)) img u, holds s img u /\ vsh u = [1; 2; 2]%N /\ forall odd to64 of64, exists e s',
  SmoothScale odd to64 of64 img 2 2 s = (Err e, s').
Proof.
  exists (pic [10; 20; 30; 40]%Z [1; 2; 2]%N), 0, (V [1; 2; 2]%N (map pi [10; 20; 30; 40]%Z)).
  split; [holds_tac|]. split; [reflexivity|]. intros odd to64 of64.
  apply (C54_otherwise_fails odd _ 0 (V [1; 2; 2]%N (map pi [10; 20; 30; 40]%Z)) to64 of64 1 2 2 2 2); try reflexivity; [holds_tac|apply IndexProofs.fitsb_fits; reflexivity|left; lia].
Qed.
Print Assumptions C54_refuted.
(** cases *)
Definition dump_tensor (r : res nat * tst (intw 32)) : option (list Z) :=
  match r with (Ok id, s) => match GetData id s with (Ok d, _) => Some (map ival d) | _ => None end | _ => None end.
Definition six : list Z := [1; 2; 3; 4; 5; 6]%Z.
Example C53_case : exists u, holds (pic six [1; 2; 3]%N) 0 u /\ vsh u = [1; 2; 3]%N /\
  dump_tensor (SimpleScale (fun _ => 0%N) 0 4 3 (pic six [1; 2; 3]%N)) = Some [1; 2; 3; 1; 2; 3; 4; 5; 6; 4; 5; 6]%Z /\
  dump_tensor (SimpleScale (fun _ => 0%N) 0 2 1 (pic six [1; 2; 3]%N)) = Some [1; 4]%Z /\
  dump_tensor (SimpleScale (fun _ => 0%N) 0 2 3 (pic six [1; 2; 3]%N)) = Some six.
Proof. exists (V [1; 2; 3]%N (map pi six)). split; [holds_tac|]. split; [reflexivity|]. split; [vm_compute; reflexivity|]. split; vm_compute; reflexivity. Qed.
Definition f64 (x : intw 32) := f64_of_Z (ival x).
Definition i32 (x : Bits.binary64) := pi (int_of_f64 (fun _ => 0%Z) x).
Definition nine : list Z := [0; 0; 0; 0; 100; 200; 0; 300; 400]%Z.
Example C54_meets : exists u, holds (pic nine [1; 3; 3]%N) 0 u /\ vsh u = [1; 3; 3]%N /\ fits [4; 2; 2]%N /\
  Forall (fun p => fin64 (f64 p) = true /\ (Rabs (R64 (f64 p)) <= 400)%R) (vdata u) /\ (1 <= 400 <= bpow radix2 1000)%R.
Proof.
  exists (V [1; 3; 3]%N (map pi nine)). split; [holds_tac|]. split; [reflexivity|]. split; [apply IndexProofs.fitsb_fits; reflexivity|]. split.
  - cbn [vdata map nine]. assert (P : forall z, (0 <= z <= 400)%Z -> fin64 (f64 (pi z)) = true /\ (Rabs (R64 (f64 (pi z))) <= 400)%R).
    { intros z Hz. unfold f64. replace (ival (pi z)) with z. 2:{ symmetry. apply mk_small. unfold in_range. change (2 ^ (32 - 1))%Z with 2147483648%Z. lia. }
      destruct (f64_of_Z_spec z) as (E & F); [lia|]. split; [exact F|]. rewrite E, <- abs_IZR. apply IZR_le. lia. }
    repeat (apply Forall_cons_2; [apply P; lia|]). apply Forall_nil_2.
  - split; [apply IZR_le; lia|]. apply Rle_trans with (bpow radix2 9); [apply IZR_le; vm_compute; discriminate|apply bpow_le; lia].
Qed.
(** 3 x 3 to 2 x 2: at 1.5 the mean of the neighbours *)
Example C54_case : dump_tensor (SmoothScale (fun _ => 0%N) f64 i32 0 2 2 (pic [0; 0; 0; 0; 100; 200; 0; 300; 400]%Z [1; 3; 3]%N)) =
  Some ([0; 0; 0; 250] ++ replicate 12 0)%Z.
Proof. vm_compute. reflexivity. Qed.
End Witness.

(** ** C55: progress bars
    [fin64], [R64]: the progress is a finite number, and which. *)
Theorem C55_bar_partial odd pro size : fin64 pro = true -> (0 <= R64 pro <= 1)%R -> (size <= 2 ^ 53)%Z ->
  exists l, Bar odd pro size = Ok l /\ Z.of_nat (length l) = Z.max size 0 /\
    ((4 <= size)%Z -> exists k, k <= Z.to_nat (size - 2) /\ l = [x5b] ++ replicate k x23 ++ replicate (Z.to_nat (size - 2) - k) x20 ++ [x5d] /\
       (IZR (Z.of_nat k) < IZR (size - 2) * R64 pro + 1)%R /\ (IZR (size - 2) * R64 pro < IZR (Z.of_nat k) + 1)%R).
Proof. exact (bar_claim odd pro size). Qed.
Theorem C55_refuted odd : exists l, Bar odd (f64_of_Z 1) (2 ^ 53 + 5) = Ok l /\ Z.of_nat (length l) = (2 ^ 53 + 6)%Z.
Proof. exact (bar_huge_claim odd). Qed.
Print Assumptions C55_bar_partial.
Print Assumptions C55_refuted.
(** Half of 12 characters; outside of the range 0 to 1 the bar panics or is too long. *)
Example C55_case : let half := f64_div (f64_of_Z 1) (f64_of_Z 2) in
  Bar (fun _ => 0%Z) half 12 = Ok ([x5b] ++ replicate 5 x23 ++ replicate 5 x20 ++ [x5d]) /\
  Bar (fun _ => 0%Z) (f64_of_Z (-1)) 12 = Panic /\
  match Bar (fun _ => 0%Z) (f64_of_Z 2) 12 with Ok l => length l = 22 | _ => False end.
Proof. vm_compute. auto. Qed.

(** ** C56: machine integers of [w] bits *)
Theorem C56_wraps w Hw (a b : intw w) : let N := NumIntS w Hw in
  (in_range w (ival (nadd a b)) /\ same_mod w (ival (nadd a b)) (ival a + ival b)) /\
  (in_range w (ival (nsub a b)) /\ same_mod w (ival (nsub a b)) (ival a - ival b)) /\
  (in_range w (ival (nmul a b)) /\ same_mod w (ival (nmul a b)) (ival a * ival b)) /\
  (in_range w (ival (nneg a)) /\ same_mod w (ival (nneg a)) (- ival a)).
Proof. exact (ring_claim w Hw a b). Qed.
Theorem C56_divides w Hw (a b : intw w) : let N := NumIntS w Hw in
  (ndiv a b = None <-> ival b = 0%Z) /\
  forall q, ndiv a b = Some q ->
    (ival a = (- 2 ^ (w - 1))%Z -> ival b = (-1)%Z -> (1 < w)%Z -> q = a) /\
    (~ (ival a = (- 2 ^ (w - 1))%Z /\ ival b = (-1)%Z) -> ival q = Z.quot (ival a) (ival b)).
Proof. exact (div_claim w Hw a b). Qed.
(** At every later moment a compiled graph panics if and only if an operation of
    its expression divides by zero or reduces nothing. *)
Theorem C56_panics w Hw (s : tst (intw w)) id e sh : let N := NumIntS w Hw in
  denotes (length (mem s)) (tens s) id e -> uncompiled (tens s) id -> shape_of (leafsh (tens s)) e = Some sh -> no_crossing (leafsh (tens s)) e ->
  exists g s', NewGraph id s = (Ok g, s') /\ forall m, history g (length (mem s)) (mem s') m ->
    (Exec g m = None <-> fails (fun z => ival z = 0%Z) (leafv (tens s) m) (fun x => m !! x) e).
Proof. exact (@panic_claim (intw w) (NumIntS w Hw) _ s id e sh (fun x y => proj1 (div_claim w Hw x y))). Qed.
(** With a division that always gives a number only reductions of nothing panic. *)
Theorem C56_panics_without_division {T} `{Num T} (s : tst T) id e sh : (forall x y : T, ndiv x y <> None) ->
  denotes (length (mem s)) (tens s) id e -> uncompiled (tens s) id -> shape_of (leafsh (tens s)) e = Some sh -> no_crossing (leafsh (tens s)) e ->
  exists g s', NewGraph id s = (Ok g, s') /\ forall m, history g (length (mem s)) (mem s') m ->
    (Exec g m = None <-> fails (fun _ => False) (leafv (tens s) m) (fun x => m !! x) e).
Proof. exact (fun Hd => panic_claim (fun _ => False) s id e sh (fun x y => conj (Hd x y) (False_ind _))). Qed.
Print Assumptions C56_wraps.
Print Assumptions C56_divides.
Print Assumptions C56_panics.
Print Assumptions C56_panics_without_division.

(** The mean of 65536 numbers of 16 bits: the count is zero. The soft maximum of equal numbers. *)
Section Cases.
#[local] Existing Instance NumS16.
Definition p16 (x : Z) : intw 16 := NumIntS.mk 16 eq_refl x.
Example C56_wrap_case : ival (nadd (p16 32767) (p16 1)) = (-32768)%Z /\ ival (nmul (p16 300) (p16 300)) = 24464%Z /\
  option_map ival (ndiv (p16 (-32768)) (p16 (-1))) = Some (-32768)%Z /\ option_map ival (ndiv (p16 (-7)) (p16 2)) = Some (-3)%Z /\ ndiv (p16 1) (p16 0) = None.
Proof. vm_compute. auto. Qed.
Example C56_count_case : ival (nofN 65536 : intw 16) = 0%Z.
Proof. vm_compute. reflexivity. Qed.
Definition soft_demo : TM (intw 16) nat := a <~ NewFromValues [p16 3; p16 3] [2]%N ; SoftMax a.
Definition soft_state : tst (intw 16) := snd (soft_demo (MkSt [] [] [])).
Example C56_soft_case : denotes (length (mem soft_state)) (tens soft_state) 1 (ESoft (ELeaf 0)) /\ uncompiled (tens soft_state) 1 /\
  shape_of (T:=intw 16) (leafsh (tens soft_state)) (ESoft (ELeaf 0)) = Some [2]%N /\
  fails (fun z => ival z = 0%Z) (leafv (tens soft_state) (mem soft_state)) (fun x => mem soft_state !! x) (ESoft (ELeaf 0)).
Proof.
  split; [|split; [|split]].
  - apply (unfold_expr_sound 3). vm_compute. reflexivity.
  - apply uncompiled_all. reflexivity.
  - reflexivity.
  - apply Fails_here. eexists. split; [reflexivity|]. right. eexists _, _. split; [reflexivity|]. split; [reflexivity|]. vm_compute. reflexivity.
Qed.
End Cases.

(** ** C57: distances *)
Theorem C57_refused {T} `{Num T} (root : T -> T) (a b : list T) : length a <> length b -> exists e, Distant root a b = Err e.
Proof. exact (dist_sizes root a b). Qed.
Theorem C57_integers w Hw (root : intw w -> intw w) (a b : list (intw w)) : let N := NumIntS w Hw in length a = length b ->
  (exists d, Distant root a b = Ok d /\ Distant root b a = Ok d) /\ Distant root a a = Ok (root nzero).
Proof. exact (fun Hl => conj (@dist_sym _ (NumIntS w Hw) root (int_sym w Hw) a b Hl) (@dist_same _ (NumIntS w Hw) root (int_same w Hw) a)). Qed.
(** Exact arithmetic: the distance is a metric. *)
Theorem C57_metric (a b c : list R) : length a = length b -> length b = length c ->
  @Distant R NumR R_sqrt.sqrt a b = Ok (euclid a b) /\ @Distant R NumR R_sqrt.sqrt b a = Ok (euclid a b) /\
  (0 <= euclid a b)%R /\ (euclid a b = 0%R <-> a = b) /\ (euclid a c <= euclid a b + euclid b c)%R.
Proof. exact (dist_metric a b c). Qed.
Print Assumptions C57_refused.
Print Assumptions C57_integers.
Print Assumptions C57_metric.
Example C57_case : euclid [0; 3]%R [4; 0]%R = 5%R.
Proof.
  unfold euclid, sumsq. cbn [zip_with foldr fst snd]. replace ((0 - 4) * (0 - 4) + ((3 - 0) * (3 - 0) + 0))%R with (5 * 5)%R by ring. apply sqrt_square. apply IZR_le. lia.
Qed.
