(** * ImgIO: loading and saving images *)
From Coq Require Import Reals Lra.
From Flocq Require Import Core.Core IEEE754.Binary.
From Verif Require Import Base Num NumIntS ModelTools ModelOps ModelTensor ModelLayer ModelImg Spec Denote ObjSpec IndexProofs ExecProofs TensorFacts BuildProofs AccessProofs
  NetBuild BuildProofs3 FwdConv2 FwdBody FwdOps ImgSpec ImgFloat ImgBlend ImgProofs ImgMain ModelImgIO NumFloat ImgIOSpec.
From Coq Require Import Lia ZifyBool ZifyNat ZifyN.
Open Scope nat_scope.

(** ** Numbers *)
Lemma level_spec n : (n <= 65535)%N -> fin64 (level n) = true /\ R64 (level n) = rnd64 (IZR (Z.of_N n) / 65535).
Proof.
  intros Hn. unfold level, MaxColor. destruct (f64_of_Z_spec (Z.of_N n)) as (E & F); [lia|]. destruct (f64_of_Z_spec 65535) as (E' & F'); [lia|].
  assert (Hb : (0 <= IZR (Z.of_N n) <= 65535)%R) by (split; [apply IZR_le|change 65535%R with (IZR 65535); apply IZR_le]; lia).
  destruct (f64_div_spec (f64_of_Z (Z.of_N n)) (f64_of_Z 65535) 0 F) as (Ed & Fd); [rewrite E'; lra|lia| |].
  - rewrite E, E', Rabs_pos_eq; [|apply Rmult_le_pos; [lra|]; left; apply Rinv_0_lt_compat; lra]. change (bpow radix2 0) with 1%R. apply Rmult_le_reg_r with 65535%R; [lra|]. unfold Rdiv. rewrite Rmult_assoc, Rinv_l; lra.
  - split; [exact Fd|]. rewrite Ed, E, E'. reflexivity.
Qed.
(** Every colour but the brightest is less than one. *)
Lemma level_below n : (n < 65535)%N -> (0 <= R64 (level n) < 1)%R.
Proof.
  intros Hn. destruct (level_spec n) as (_ & ->); [lia|]. assert (Hb : (0 <= IZR (Z.of_N n) <= 65534)%R) by (split; [apply IZR_le|change 65534%R with (IZR 65534); apply IZR_le]; lia).
  assert (P : (0 <= IZR (Z.of_N n) / 65535)%R) by (apply Rmult_le_pos; [lra|]; left; apply Rinv_0_lt_compat; lra).
  split.
  - unfold rnd64. apply Rle_trans with (round radix2 fexp64 ZnearestE 0); [rewrite round_0 by typeclasses eauto; lra|]. apply round_le; [apply FLT_exp_valid; reflexivity|typeclasses eauto|exact P].
  - apply Rle_lt_trans with (1 - bpow radix2 (-17))%R; [|pose proof (bpow_gt_0 radix2 (-17)); lra].
    assert (F : generic_format radix2 fexp64 (1 - bpow radix2 (-17))).
    { apply generic_format_FLT. exists (Float radix2 (2 ^ 17 - 1) (-17)); [|vm_compute; reflexivity|vm_compute; discriminate].
      unfold F2R. cbn [Fnum Fexp]. rewrite minus_IZR. change (IZR (2 ^ 17)) with (bpow radix2 17). rewrite Rmult_minus_distr_r, <- bpow_plus. cbn [Z.add]. change (bpow radix2 (17 + -17)) with 1%R. lra. }
    rewrite <- (round_generic radix2 fexp64 ZnearestE _ F). unfold rnd64. apply round_le; [apply FLT_exp_valid; reflexivity|typeclasses eauto|].
    change (bpow radix2 (-17)) with (/ 131072)%R. apply Rmult_le_reg_r with 65535%R; [lra|]. unfold Rdiv. rewrite Rmult_assoc, Rinv_l; lra.
Qed.
Lemma level_zero : R64 (level 0) = 0%R.
Proof. destruct (level_spec 0) as (_ & ->); [lia|]. cbn [Z.of_N]. unfold Rdiv. rewrite Rmult_0_l. unfold rnd64. apply round_0. typeclasses eauto. Qed.
Lemma level_full : R64 (level 65535) = 1%R.
Proof.
  destruct (level_spec 65535) as (_ & ->); [lia|]. cbn [Z.of_N]. replace (65535 / 65535)%R with 1%R by (field; lra). unfold rnd64. apply round_generic; [typeclasses eauto|]. apply (int_format 1). lia.
Qed.
Lemma int_level odd n : (n <= 65535)%N -> int_of_f64 odd (level n) = (if (n =? 65535)%N then 1 else 0)%Z.
Proof.
  intros Hn. destruct (level_spec n Hn) as (F & _). assert (B : (0 <= R64 (level n) < 2)%R).
  { destruct (N.eq_dec n 65535) as [->|Hne]; [rewrite level_full; lra|]. pose proof (level_below n). assert ((n < 65535)%N) by lia. specialize (H ltac:(assumption)). lra. }
  pose proof (trunc_spec (level n) (proj1 B)) as (T1 & T2). set (z := Btrunc 53 1024 (level n)) in *.
  assert (Z0 : (0 <= z)%Z). { assert (-1 < z)%Z; [|lia]. apply lt_IZR. lra. }
  assert (E : z = (if (n =? 65535)%N then 1 else 0)%Z).
  { destruct (N.eqb_spec n 65535) as [->|Hne].
    - rewrite level_full in T1, T2. assert (z < 2)%Z by (apply lt_IZR; lra). assert (0 < z)%Z by (apply lt_IZR; lra). lia.
    - pose proof (level_below n ltac:(lia)). assert (z < 1)%Z by (apply lt_IZR; lra). lia. }
  unfold int_of_f64. change (is_finite 53 1024 (level n)) with (fin64 (level n)). rewrite F. fold z. rewrite E. destruct (n =? 65535)%N; reflexivity.
Qed.

(** Positions as int and as uint *)
Lemma picki_pick oddi odd W w x : (0 < W)%N -> (W * w < 2 ^ 51)%N -> (x < w)%N -> picki oddi W w x = Z.of_N (pick odd W w x).
Proof.
  intros HW Hs Hx. destruct (pick_quot (fun _ => 2 ^ 70)%N W w x) as (H1 & _); [lia..|].
  assert (L : (pick (fun _ => 2 ^ 70)%N W w x < 2 ^ 51)%N) by nia. revert L. clear H1. unfold picki, pick, int_of_f64, uint_of_f64. cbv zeta.
  set (q := f64_mul _ _). set (z := Btrunc 53 1024 q). destruct (is_finite 53 1024 q) eqn:F; cbn [andb]; [|lia].
  destruct (Z.leb_spec 0 z) as [L0|L0]; cbn [andb]; [|lia]. destruct (Z.ltb_spec z (2 ^ 64)) as [L1|L1]; [|lia]. intros L.
  rewrite (proj2 (Z.leb_le (- 2 ^ 63) z)) by lia. rewrite (proj2 (Z.ltb_lt z (2 ^ 63))) by lia. cbn [andb]. lia.
Qed.
Lemma fraci_frac oddi odd W w x : (0 < W)%N -> (W * w < 2 ^ 51)%N -> (x < w)%N -> fraci oddi W w x = frac odd W w x.
Proof. intros HW Hs Hx. unfold fraci, frac. rewrite (picki_pick oddi odd W w x HW Hs Hx). reflexivity. Qed.

Section Load.
Context {T : Type} `{Num T}.
Context (of64 : Bits.binary64 -> T).

Lemma put_colour_loop t c i j (s : tst T) :
  put_colour of64 t c i j s = mfor (urange 4) (fun d => ignore_err (Set_ t (of64 (level (chan c d))) [d; i; j])) s.
Proof using Type.
  unfold put_colour, put. change (urange 4) with [0; 1; 2; 3]%N. cbn [mfor]. unfold chan. cbn [N.to_nat Pos.to_nat Pos.iter_op nth].
  change (Pos.to_nat 1) with 1. change (Pos.to_nat 2) with 2. change (Pos.to_nat 3) with 3. cbn [nth Nat.add].
  unfold mbnd, mret. destruct (ignore_err _ s) as [[] s1]; try reflexivity. destruct (ignore_err _ s1) as [[] s2]; try reflexivity. destruct (ignore_err _ s2) as [[] s3]; try reflexivity.
  destruct (ignore_err _ s3) as [[[]|e| |] s4]; reflexivity.
Qed.
(** All three loaders: a new tensor filled with the colours [col]. *)
Lemma load_fills (s : tst T) (col : N -> N -> colour) w h : fits [4; w; h]%N ->
  exists v, returns_new s ((t <~ NewZeros [4; w; h]%N ; mfor (urange w) (fun i => mfor (urange h) (fun j => put_colour of64 t (col i j) i j)) ;~ mret t) s) v /\ vsh v = [4; w; h]%N /\
    forall d x y, (d < 4)%N -> (x < w)%N -> (y < h)%N -> at_ (vsh v) (vdata v) [d; x; y] = Some (of64 (level (chan (col x y) d))).
Proof using Type.
  intros Hf. set (f := fun idx : list N => of64 (level (chan (col (nth 1 idx 0%N) (nth 2 idx 0%N)) (nth 0 idx 0%N)))).
  destruct (paint s [4; w; h]%N Hf f (order 4 w h)
    (fun idx => ignore_err (Set_ (length (tens s)) (f idx) [nth 0 idx 0%N; nth 1 idx 0%N; nth 2 idx 0%N]))) as (D & E & HD & HP).
  { intros idx D Hi HD. apply elem_of_order in Hi as (d & x & y & -> & Ld & Lx & Ly). split; reflexivity. }
  exists (V [4; w; h]%N D). split; [|split; [reflexivity|]].
  - apply canvas_returns; [exact Hf|exact HD|]. erewrite mbnd_ok by (apply canvas_new; exact Hf). erewrite mbnd_ok; [reflexivity|].
    etransitivity; [|exact E]. etransitivity; [|apply (loops 4 w h (fun d x y => ignore_err (Set_ (length (tens s)) (of64 (level (chan (col x y) d))) [d; x; y])))].
    apply mfor_ext. intros x s1 _. apply mfor_ext. intros y s2 _. apply put_colour_loop.
  - intros d x y Ld Lx Ly. cbn [vsh vdata]. destruct (HP [d; x; y]) as (H1 & _); [apply range3; assumption|]. rewrite H1; [reflexivity|]. apply elem_of_order. exists d, x, y. auto.
Qed.
Lemma load_claim (s : tst T) p : fits [4; pwidth p; pheight p]%N ->
  exists v, returns_new s (LoadImage of64 (Ok p) s) v /\ vsh v = [4; pwidth p; pheight p]%N /\
    forall d x y, (d < 4)%N -> (x < pwidth p)%N -> (y < pheight p)%N -> at_ (vsh v) (vdata v) [d; x; y] = Some (of64 (level (chan (pat p (Z.of_N x) (Z.of_N y)) d))).
Proof using Type. intros Hf. exact (load_fills s (fun i j => pat p (Z.of_N i) (Z.of_N j)) _ _ Hf). Qed.
Lemma load_simple_claim oddi (s : tst T) p w h : fits [4; w; h]%N ->
  exists v, returns_new s (LoadSimpleScaled of64 oddi (Ok p) w h s) v /\ vsh v = [4; w; h]%N /\
    forall d x y, (d < 4)%N -> (x < w)%N -> (y < h)%N ->
      at_ (vsh v) (vdata v) [d; x; y] = Some (of64 (level (chan (pat p (picki oddi (pwidth p) w x) (picki oddi (pheight p) h y)) d))).
Proof using Type. intros Hf. exact (load_fills s (fun i j => pat p (picki oddi (pwidth p) w i) (picki oddi (pheight p) h j)) _ _ Hf). Qed.
Definition four oddi odd32 p w h (x y : N) : colour :=
  let X := picki oddi (pwidth p) w x in let Y := picki oddi (pheight p) h y in
  blend_colour odd32 (fraci oddi (pwidth p) w x) (fraci oddi (pheight p) h y) (pat p X Y) (pat p (wrapZ 64 (X + 1)) Y) (pat p X (wrapZ 64 (Y + 1))) (pat p (wrapZ 64 (X + 1)) (wrapZ 64 (Y + 1))).
Lemma load_smooth_claim oddi odd32 (s : tst T) p w h : fits [4; w; h]%N ->
  exists v, returns_new s (LoadSmoothScaled of64 oddi odd32 (Ok p) w h s) v /\ vsh v = [4; w; h]%N /\
    forall d x y, (d < 4)%N -> (x < w)%N -> (y < h)%N -> at_ (vsh v) (vdata v) [d; x; y] = Some (of64 (level (chan (four oddi odd32 p w h x y) d))).
Proof using Type. intros Hf. exact (load_fills s (four oddi odd32 p w h) _ _ Hf). Qed.
Lemma chan_lt4 d : (d < 4)%N -> d = 0%N \/ d = 1%N \/ d = 2%N \/ d = 3%N.
Proof using Type. lia. Qed.
Lemma chan_blend odd32 dx dy c1 c2 c3 c4 d : (d < 4)%N ->
  chan (blend_colour odd32 dx dy c1 c2 c3 c4) d = blend_level odd32 dx dy (chan c1 d) (chan c2 d) (chan c3 d) (chan c4 d).
Proof using Type. intros Hd. destruct (chan_lt4 d Hd) as [->|[->|[->| ->]]]; reflexivity. Qed.

(** Two tensors of one shape with the same cells are the same. *)
Lemma same_cells (s1 s2 : tst T) r1 r2 v1 v2 c w h : returns_new s1 r1 v1 -> returns_new s2 r2 v2 -> vsh v1 = [c; w; h] -> vsh v2 = [c; w; h] ->
  (forall d x y, (d < c)%N -> (x < w)%N -> (y < h)%N -> at_ (vsh v1) (vdata v1) [d; x; y] = at_ (vsh v2) (vdata v2) [d; x; y]) -> v1 = v2.
Proof using Type.
  intros (s1' & _ & _ & _ & _ & _ & _ & H1 & _) (s2' & _ & _ & _ & _ & _ & _ & H2 & _) E1 E2 He.
  destruct (holds_exists _ _ _ H1) as [n1 Hn1]. destruct (holds_data _ _ _ _ H1 Hn1) as (_ & _ & _ & _ & L1 & _).
  destruct (holds_exists _ _ _ H2) as [n2 Hn2]. destruct (holds_data _ _ _ _ H2 Hn2) as (_ & _ & _ & _ & L2 & _).
  destruct v1 as [sh1 d1], v2 as [sh2 d2]. cbn [vsh vdata] in *. subst sh1 sh2. f_equal. apply (at_ext [c; w; h]); [assumption..|].
  intros idx Hi. inversion Hi as [|d ? ? ? Ld Hi1]; subst. inversion Hi1 as [|x ? ? ? Lx Hi2]; subst. inversion Hi2 as [|y ? ? ? Ly Hi3]; subst. inversion Hi3; subst. auto.
Qed.

(** Loading and then scaling. *)
Lemma load_then_scale odd oddi (s : tst T) p w h : (0 < pwidth p)%N -> (0 < pheight p)%N -> (pwidth p * w < 2 ^ 51)%N -> (pheight p * h < 2 ^ 51)%N ->
  fits [4; pwidth p; pheight p]%N -> fits [4; w; h]%N ->
  exists img s1 v, LoadImage of64 (Ok p) s = (Ok img, s1) /\ returns_new s (LoadSimpleScaled of64 oddi (Ok p) w h s) v /\ returns_new s1 (SimpleScale odd img w h s1) v.
Proof using Type.
  intros HW HH LW LH Fp Fw. destruct (load_claim s p Fp) as (u & Ru & Eu & Cu). destruct (load_simple_claim oddi s p w h Fw) as (v & Rv & Ev & Cv).
  pose proof Ru as (s1 & _ & _ & E1 & _ & _ & _ & Hu & _). exists (length (tens s)), s1, v. split; [exact E1|]. split; [exact Rv|].
  destruct (SimpleScale_picks odd s1 (length (tens s)) u 4 (pwidth p) (pheight p) w h Hu Eu Fw) as (v' & Rv' & Ev' & Cv').
  { intros x Hx. apply pick_samples; assumption. } { intros y Hy. apply pick_samples; assumption. }
  replace v with v'; [exact Rv'|]. eapply same_cells; [exact Rv'|exact Rv|exact Ev'|exact Ev|]. intros d x y Hd Hx Hy. rewrite Cv', Cv by assumption.
  rewrite Cu by (try apply pick_samples; assumption). rewrite (picki_pick oddi odd), (picki_pick oddi odd) by assumption. reflexivity.
Qed.
End Load.

(** ** Smooth loading *)
Lemma u32_spec odd (z : Bits.binary64) : fin64 z = true -> (-1 < R64 z < 4294967295)%R ->
  (R64 z - 1 < IZR (Z.of_N (uint32_of_f64 odd z)) <= Rmax 0 (R64 z))%R.
Proof.
  intros F (L & U). assert (E : Btrunc 53 1024 z = Ztrunc (R64 z)).
  { apply eq_IZR. rewrite (Btrunc_correct 53 1024 (eq_refl _)). rewrite round_FIX_IZR. reflexivity. }
  unfold uint32_of_f64. cbv zeta. change (is_finite 53 1024 z) with (fin64 z). rewrite F, E. destruct (Rle_lt_dec 0 (R64 z)) as [H0|H0].
  - rewrite Ztrunc_floor by exact H0. pose proof (Zfloor_lb (R64 z)) as A. pose proof (Zfloor_ub (R64 z)) as B. set (k := Zfloor (R64 z)) in *.
    assert (K0 : (0 <= k)%Z). { assert (-1 < k)%Z; [|lia]. apply lt_IZR. lra. } assert (K1 : (k < 2 ^ 32)%Z). { apply lt_IZR. change (IZR (2 ^ 32)) with 4294967296%R. lra. }
    rewrite (proj2 (Z.leb_le 0 k) K0), (proj2 (Z.ltb_lt k _) K1). cbn [andb]. rewrite Z2N.id by exact K0. rewrite Rmax_right by exact H0. lra.
  - rewrite Ztrunc_ceil by lra. assert (Zceil (R64 z) = 0)%Z as ->.
    { apply Zceil_imp. change (IZR (0 - 1)) with (-1)%R. lra. }
    change (true && (0 <=? 0)%Z && (0 <? 2 ^ 32)%Z) with true. cbn iota. change (IZR (Z.of_N (Z.to_N 0))) with 0%R. rewrite Rmax_left by lra. lra.
Qed.
Definition slack (W H' : N) : R := (65535 * (IZR (Z.of_N (W + H')) + 8) * bpow radix2 (-49))%R.
Lemma blend_level_near odd oddi odd32 W H' w h x y (n1 n2 n3 n4 : N) : (0 < W)%N -> (0 < H')%N -> (W * w < 2 ^ 51)%N -> (H' * h < 2 ^ 51)%N -> (W + H' < 2 ^ 32)%N ->
  (x < w)%N -> (y < h)%N -> (n1 <= 65535)%N -> (n2 <= 65535)%N -> (n3 <= 65535)%N -> (n4 <= 65535)%N ->
  let B := bilinear (behind W w x (pick odd W w x)) (behind H' h y (pick odd H' h y)) (IZR (Z.of_N n1)) (IZR (Z.of_N n2)) (IZR (Z.of_N n3)) (IZR (Z.of_N n4)) in
  let k := IZR (Z.of_N (blend_level odd32 (fraci oddi W w x) (fraci oddi H' h y) n1 n2 n3 n4)) in
  (B - 1 - slack W H' < k <= B + slack W H')%R.
Proof.
  intros HW HH LW LH LS Hx Hy B1 B2 B3 B4 B k.
  destruct (frac_place odd W w x HW LW Hx) as (Ux & Dx & Nx). destruct (frac_place odd H' h y HH LH Hy) as (Uy & Dy & Ny).
  subst k. unfold blend_level. cbv zeta. rewrite (fraci_frac oddi odd W w x HW LW Hx), (fraci_frac oddi odd H' h y HH LH Hy).
  assert (PW : (0 <= IZR (Z.of_N W))%R) by (apply IZR_le; lia). assert (PH : (0 <= IZR (Z.of_N H'))%R) by (apply IZR_le; lia).
  pose proof (bpow_gt_0 radix2 (-51)) as P51. pose proof u52_pos as P52.
  destruct (blend_near (fun z => z) (fun z => z) _ _ _ _ _ _ (f64_of_Z (Z.of_N n1)) (f64_of_Z (Z.of_N n2)) (f64_of_Z (Z.of_N n3)) (f64_of_Z (Z.of_N n4)) Ux Uy Nx Ny Dx Dy ltac:(nra) ltac:(nra)) as (z & Ez & Hz).
  rewrite Ez. clear Ez. assert (Q : forall n, (n <= 65535)%N -> fin64 (f64_of_Z (Z.of_N n)) = true /\ R64 (f64_of_Z (Z.of_N n)) = IZR (Z.of_N n) /\ (0 <= IZR (Z.of_N n) <= 65535)%R).
  { intros n Hn. destruct (f64_of_Z_spec (Z.of_N n)) as (E & F); [lia|]. split; [exact F|]. split; [exact E|]. split; [apply IZR_le|change 65535%R with (IZR 65535); apply IZR_le]; lia. }
  destruct (Q _ B1) as (F1 & E1 & R1). destruct (Q _ B2) as (F2 & E2 & R2). destruct (Q _ B3) as (F3 & E3 & R3). destruct (Q _ B4) as (F4 & E4 & R4).
  destruct (Hz 65535%R) as (Fz & Bz).
  { split; [lra|]. change 65535%R with (IZR 65535). apply Rle_trans with (bpow radix2 16); [change (bpow radix2 16) with (IZR 65536); apply IZR_le; lia|apply bpow_le; lia]. }
  { intros q [->|[->|[->| ->]]]; (split; [assumption|]); rewrite ?E1, ?E2, ?E3, ?E4, Rabs_pos_eq; lra. }
  rewrite E1, E2, E3, E4 in Bz. fold B in Bz.
  assert (Sl : (65535 * (4 * (IZR (Z.of_N W) * bpow radix2 (-51) + bpow radix2 (-52)) + 4 * (IZR (Z.of_N H') * bpow radix2 (-51) + bpow radix2 (-52)) + 37 * u52) <= slack W H')%R).
  { unfold slack. rewrite N2Z.inj_add, plus_IZR, Rmult_assoc. apply Rmult_le_compat_l; [lra|].
    replace (bpow radix2 (-49)) with (8 * bpow radix2 (-52))%R by (change 8%R with (bpow radix2 3); rewrite <- bpow_plus; reflexivity).
    replace (bpow radix2 (-51)) with (2 * bpow radix2 (-52))%R by (change 2%R with (bpow radix2 1); rewrite <- bpow_plus; reflexivity). nra. }
  assert (Hs : (0 <= slack W H' < 1)%R).
  { unfold slack. assert (I : (0 <= IZR (Z.of_N (W + H')) <= 4294967295)%R) by (split; [apply IZR_le|change 4294967295%R with (IZR 4294967295); apply IZR_le]; lia).
    change (bpow radix2 (-49)) with (/ 562949953421312)%R. split; [nra|]. lra. }
  assert (HB : (0 <= B <= 65535)%R).
  { subst B. unfold bilinear. set (a := behind W w x _) in *. set (b := behind H' h y _) in *.
    assert (W1 : (0 <= (1 - a) * (1 - b))%R) by nra. assert (W2 : (0 <= a * (1 - b))%R) by nra. assert (W3 : (0 <= (1 - a) * b)%R) by nra. assert (W4 : (0 <= a * b)%R) by nra.
    assert (WS : ((1 - a) * (1 - b) + a * (1 - b) + (1 - a) * b + a * b = 1)%R) by ring.
    set (w1 := ((1 - a) * (1 - b))%R) in *. set (w2 := (a * (1 - b))%R) in *. set (w3 := ((1 - a) * b)%R) in *. set (w4 := (a * b)%R) in *. clearbody w1 w2 w3 w4. nra. }
  apply abs_near in Bz. destruct (u32_spec odd32 z Fz) as (K1 & K2); [lra|]. split; [lra|]. eapply Rle_trans; [exact K2|]. apply Rmax_lub; lra.
Qed.

(** The size of the picture itself: nothing is blended. *)
Lemma rnd_int z : (Z.abs z < 2 ^ 53)%Z -> rnd64 (IZR z) = IZR z.
Proof. intros Hz. apply round_generic; [typeclasses eauto|]. apply int_format. exact Hz. Qed.
Lemma ratio_one w : (0 < w < 2 ^ 53)%N -> R64 (f64_div (f64_of_Z (Z.of_N w)) (f64_of_Z (Z.of_N w))) = 1%R /\ fin64 (f64_div (f64_of_Z (Z.of_N w)) (f64_of_Z (Z.of_N w))) = true.
Proof.
  intros Hw. destruct (f64_of_Z_spec (Z.of_N w)) as (E & F); [lia|]. assert (P : (1 <= IZR (Z.of_N w))%R) by (apply IZR_le; lia).
  assert (Q : (R64 (f64_of_Z (Z.of_N w)) / R64 (f64_of_Z (Z.of_N w)) = 1)%R) by (rewrite E; field; lra).
  destruct (f64_div_spec (f64_of_Z (Z.of_N w)) (f64_of_Z (Z.of_N w)) 0 F) as (Ed & Fd); [rewrite E; lra|lia|rewrite Q, Rabs_R1; apply Rle_refl|].
  rewrite Q, (rnd_int 1) in Ed by lia. auto.
Qed.
Lemma place_same w x : (x < w)%N -> (w < 2 ^ 53)%N ->
  let q := f64_mul (f64_of_Z (Z.of_N x)) (f64_div (f64_of_Z (Z.of_N w)) (f64_of_Z (Z.of_N w))) in R64 q = IZR (Z.of_N x) /\ fin64 q = true.
Proof.
  intros Hx Hw q. destruct (ratio_one w) as (E1 & F1); [lia|]. destruct (f64_of_Z_spec (Z.of_N x)) as (E & F); [lia|].
  destruct (f64_mul_spec (f64_of_Z (Z.of_N x)) _ 53 F F1) as (Em & Fm); [lia| |].
  - rewrite E1, E, Rmult_1_r, Rabs_pos_eq by (apply IZR_le; lia). change (bpow radix2 53) with (IZR (2 ^ 53)). apply IZR_le. lia.
  - rewrite E1, E, Rmult_1_r, rnd_int in Em by lia. auto.
Qed.
Lemma trunc_int (z : Bits.binary64) n : (0 <= n)%Z -> R64 z = IZR n -> Btrunc 53 1024 z = n.
Proof.
  intros Hn E. pose proof (trunc_spec z) as Hs. rewrite E in Hs. destruct Hs as (A & B); [apply IZR_le; exact Hn|]. apply le_IZR in A. rewrite <- plus_IZR in B. apply lt_IZR in B. lia.
Qed.
Lemma picki_same oddi w x : (x < w)%N -> (w < 2 ^ 53)%N -> picki oddi w w x = Z.of_N x.
Proof.
  intros Hx Hw. destruct (place_same w x Hx Hw) as (E & F). unfold picki, int_of_f64. cbv zeta. set (q := f64_mul _ _) in *. rewrite (trunc_int q (Z.of_N x) ltac:(lia) E).
  change (is_finite 53 1024 q) with (fin64 q). rewrite F, (proj2 (Z.leb_le (- 2 ^ 63) _)), (proj2 (Z.ltb_lt _ (2 ^ 63))) by lia. reflexivity.
Qed.
Lemma fraci_same oddi w x : (x < w)%N -> (w < 2 ^ 53)%N -> R64 (fraci oddi w w x) = 0%R /\ fin64 (fraci oddi w w x) = true.
Proof.
  intros Hx Hw. destruct (place_same w x Hx Hw) as (E & F). unfold fraci. rewrite picki_same by assumption. destruct (f64_of_Z_spec (Z.of_N x)) as (E' & F'); [lia|].
  destruct (f64_sub_spec _ _ 0 F F') as (Es & Fs); [lia|rewrite E, E', Rminus_eq_0, Rabs_R0; apply bpow_ge_0|]. rewrite E, E', Rminus_eq_0 in Es. rewrite (rnd_int 0) in Es by lia. auto.
Qed.
Lemma mul_int a b i j : fin64 a = true -> fin64 b = true -> R64 a = IZR i -> R64 b = IZR j -> (Z.abs (i * j) < 2 ^ 53)%Z -> R64 (f64_mul a b) = IZR (i * j) /\ fin64 (f64_mul a b) = true.
Proof.
  intros Fa Fb Ea Eb L. destruct (f64_mul_spec a b 53 Fa Fb) as (E & F); [lia| |].
  - rewrite Ea, Eb, <- mult_IZR, <- abs_IZR. change (bpow radix2 53) with (IZR (2 ^ 53)). apply IZR_le. lia.
  - rewrite Ea, Eb, <- mult_IZR, rnd_int in E by exact L. auto.
Qed.
Lemma add_int a b i j : fin64 a = true -> fin64 b = true -> R64 a = IZR i -> R64 b = IZR j -> (Z.abs (i + j) < 2 ^ 53)%Z -> R64 (f64_add a b) = IZR (i + j) /\ fin64 (f64_add a b) = true.
Proof.
  intros Fa Fb Ea Eb L. destruct (f64_add_spec a b 53 Fa Fb) as (E & F); [lia| |].
  - rewrite Ea, Eb, <- plus_IZR, <- abs_IZR. change (bpow radix2 53) with (IZR (2 ^ 53)). apply IZR_le. lia.
  - rewrite Ea, Eb, <- plus_IZR, rnd_int in E by exact L. auto.
Qed.
Lemma sub_int a b i j : fin64 a = true -> fin64 b = true -> R64 a = IZR i -> R64 b = IZR j -> (Z.abs (i - j) < 2 ^ 53)%Z -> R64 (f64_sub a b) = IZR (i - j) /\ fin64 (f64_sub a b) = true.
Proof.
  intros Fa Fb Ea Eb L. destruct (f64_sub_spec a b 53 Fa Fb) as (E & F); [lia| |].
  - rewrite Ea, Eb, <- minus_IZR, <- abs_IZR. change (bpow radix2 53) with (IZR (2 ^ 53)). apply IZR_le. lia.
  - rewrite Ea, Eb, <- minus_IZR, rnd_int in E by exact L. auto.
Qed.
Lemma blend_level_exact odd32 dx dy (n1 n2 n3 n4 : N) : R64 dx = 0%R -> fin64 dx = true -> R64 dy = 0%R -> fin64 dy = true ->
  (n1 <= 65535)%N -> (n2 <= 65535)%N -> (n3 <= 65535)%N -> (n4 <= 65535)%N -> blend_level odd32 dx dy n1 n2 n3 n4 = n1.
Proof.
  intros E Fx E' Fy B1 B2 B3 B4. unfold blend_level, blend. cbv zeta. destruct one64_spec as (E1 & F1).
  destruct (sub_int one64 dx 1 0 F1 Fx E1 E) as (X1 & X2); [clear - B1 B2 B3 B4; lia|]. destruct (sub_int one64 dy 1 0 F1 Fy E1 E') as (Y1 & Y2); [clear - B1 B2 B3 B4; lia|].
  set (ex := f64_sub one64 dx) in *. set (ey := f64_sub one64 dy) in *. change (1 - 0)%Z with 1%Z in X1, Y1.
  destruct (mul_int ex ey 1 1 X2 Y2 X1 Y1) as (P1 & Q1); [clear - B1 B2 B3 B4; lia|]. destruct (mul_int dx ey 0 1 Fx Y2 E Y1) as (P2 & Q2); [clear - B1 B2 B3 B4; lia|].
  destruct (mul_int ex dy 1 0 X2 Fy X1 E') as (P3 & Q3); [clear - B1 B2 B3 B4; lia|]. destruct (mul_int dx dy 0 0 Fx Fy E E') as (P4 & Q4); [clear - B1 B2 B3 B4; lia|].
  destruct (f64_of_Z_spec (Z.of_N n1)) as (A1 & C1); [clear - B1 B2 B3 B4; lia|]. destruct (f64_of_Z_spec (Z.of_N n2)) as (A2 & C2); [clear - B1 B2 B3 B4; lia|].
  destruct (f64_of_Z_spec (Z.of_N n3)) as (A3 & C3); [clear - B1 B2 B3 B4; lia|]. destruct (f64_of_Z_spec (Z.of_N n4)) as (A4 & C4); [clear - B1 B2 B3 B4; lia|].
  destruct (mul_int _ _ _ _ Q1 C1 P1 A1) as (S1 & T1); [clear - B1 B2 B3 B4; lia|]. destruct (mul_int _ _ _ _ Q2 C2 P2 A2) as (S2 & T2); [clear - B1 B2 B3 B4; lia|].
  destruct (mul_int _ _ _ _ Q3 C3 P3 A3) as (S3 & T3); [clear - B1 B2 B3 B4; lia|]. destruct (mul_int _ _ _ _ Q4 C4 P4 A4) as (S4 & T4); [clear - B1 B2 B3 B4; lia|].
  destruct (add_int _ _ _ _ T1 T2 S1 S2) as (U1 & V1); [clear - B1 B2 B3 B4; lia|]. destruct (add_int _ _ _ _ V1 T3 U1 S3) as (U2 & V2); [clear - B1 B2 B3 B4; lia|]. destruct (add_int _ _ _ _ V2 T4 U2 S4) as (U3 & V3); [clear - B1 B2 B3 B4; lia|].
  match type of U3 with R64 ?q = IZR ?i => replace i with (Z.of_N n1) in U3 by (clear - B1; lia); set (z := q) in * end.
  unfold uint32_of_f64. cbv zeta. rewrite (trunc_int z (Z.of_N n1) ltac:(clear - B1; lia) U3). change (is_finite 53 1024 z) with (fin64 z). rewrite V3, (proj2 (Z.leb_le 0 _)), (proj2 (Z.ltb_lt _ (2 ^ 32))) by (clear - B1; lia). cbn [andb]. clear - B1. lia.
Qed.
Section Same.
Context {T : Type} `{Num T}.
Context (of64 : Bits.binary64 -> T).
Lemma smooth_same oddi odd32 (s : tst T) p : colours_ok p -> (pwidth p < 2 ^ 53)%N -> (pheight p < 2 ^ 53)%N -> fits [4; pwidth p; pheight p]%N ->
  exists v, returns_new s (LoadImage of64 (Ok p) s) v /\ returns_new s (LoadSmoothScaled of64 oddi odd32 (Ok p) (pwidth p) (pheight p) s) v.
Proof using Type.
  intros Hc LW LH Hf. destruct (load_claim of64 s p Hf) as (u & Ru & Eu & Cu). destruct (load_smooth_claim of64 oddi odd32 s p _ _ Hf) as (v & Rv & Ev & Cv).
  exists u. split; [exact Ru|]. replace u with v; [exact Rv|]. eapply same_cells; [exact Rv|exact Ru|exact Ev|exact Eu|]. intros d x y Hd Hx Hy. rewrite Cu, Cv by assumption.
  do 3 f_equal. unfold four. cbv zeta. rewrite chan_blend by exact Hd. destruct (fraci_same oddi (pwidth p) x Hx LW) as (A1 & A2). destruct (fraci_same oddi (pheight p) y Hy LH) as (B1 & B2).
  rewrite blend_level_exact by (try assumption; apply Hc). rewrite !picki_same by assumption. reflexivity.
Qed.
End Same.

(** ** Saving *)
Lemma mfold_app {S A B} (l1 l2 : list A) (b : B) (f : A -> B -> M S B) s : mfold (l1 ++ l2) b f s = (b' <~ mfold l1 b f ; mfold l2 b' f) s.
Proof.
  revert b s. induction l1 as [|a l1 IH]; intros b s; [reflexivity|]. cbn [app mfold]. unfold mbnd in *. destruct (f a b s) as [[b'|e| |] s']; try reflexivity. apply IH.
Qed.
Lemma mfold_ext {S A B} (l : list A) (b : B) (f g : A -> B -> M S B) s : (forall x b s, f x b s = g x b s) -> mfold l b f s = mfold l b g s.
Proof. intros He. revert b s. induction l as [|a l IH]; intros b s; [reflexivity|]. cbn [mfold]. unfold mbnd. rewrite He. destruct (g a b s) as [[b'|e| |] s']; try reflexivity. apply IH. Qed.
Lemma mfold_nest {S A C B} (l1 : list A) (l2 : list C) (b : B) (f : A -> C -> B -> M S B) s :
  mfold l1 b (fun i b => mfold l2 b (fun j b => f i j b)) s = mfold (flat_map (fun i => map (pair i) l2) l1) b (fun ij b => f (fst ij) (snd ij) b) s.
Proof.
  assert (G : forall i b s, mfold (map (pair i) l2) b (fun ij b => f (fst ij) (snd ij) b) s = mfold l2 b (fun j b => f i j b) s).
  { intros i. clear b s. induction l2 as [|j l2' IH]; intros b s; [reflexivity|]. cbn [map mfold fst snd]. unfold mbnd. destruct (f i j b s) as [[b'|e| |] s']; try reflexivity. apply IH. }
  revert b s. induction l1 as [|i l1 IH]; intros b s; [reflexivity|]. cbn [flat_map mfold]. rewrite mfold_app. unfold mbnd. rewrite G. destruct (mfold l2 b _ s) as [[b'|e| |] s']; try reflexivity. apply IH.
Qed.
Lemma mfold_inv {S A B} (P : list A -> B -> Prop) (f : A -> B -> M S B) l b s : P [] b ->
  (forall pre x post b, l = pre ++ x :: post -> P pre b -> exists b', f x b s = (Ok b', s) /\ P (pre ++ [x]) b') ->
  exists b', mfold l b f s = (Ok b', s) /\ P l b'.
Proof.
  intros H0 Hs. assert (G : forall post pre b, l = pre ++ post -> P pre b -> exists b', mfold post b f s = (Ok b', s) /\ P l b').
  { induction post as [|x post IH]; intros pre b1 El Hp; [exists b1; rewrite app_nil_r in El; subst pre; split; [reflexivity|exact Hp]|].
    destruct (Hs pre x post b1 El Hp) as (b2 & E & Hp2). cbn [mfold]. unfold mbnd. rewrite E. apply (IH (pre ++ [x])); [rewrite <- app_assoc; exact El|exact Hp2]. }
  apply (G l [] b eq_refl H0).
Qed.
Definition spots (w h : N) : list (N * N) := flat_map (fun i => map (pair i) (urange h)) (urange w).
Lemma urange_upto n : urange n = upto n.
Proof. reflexivity. Qed.
Lemma elem_of_spots w h x y : (x, y) ∈ spots w h <-> (x < w)%N /\ (y < h)%N.
Proof.
  unfold spots. rewrite elem_of_list_In, in_flat_map. rewrite !urange_upto. split.
  - intros (i & Hi & Hx). apply in_map_iff in Hx as (j & [= -> ->] & Hj). apply elem_of_list_In, elem_of_upto in Hi, Hj. auto.
  - intros (Hx & Hy). exists x. split; [apply elem_of_list_In, elem_of_upto; exact Hx|]. apply in_map_iff. exists y. split; [reflexivity|]. apply elem_of_list_In, elem_of_upto; exact Hy.
Qed.

Section Save.
Context {T : Type} `{Num T}.
Context (u8 : T -> N) (s : tst T) (img : nat) (u : vten T) (c W H' : N) (Hu : holds s img u) (Es : vsh u = [c; W; H']).
Definition byte_of (v : T) : N := u8 (nmul v (nofN 255)).
Definition cell (d x y : N) : T := default nzero (at_ (vsh u) (vdata u) [d; x; y]).
Definition colour_of (x y : N) : colour := MkColour (byte_of (cell 0 x y)) (byte_of (cell 1 x y)) (byte_of (cell 2 x y)) (byte_of (cell 3 x y)).
Lemma get_cell d x y : (d < c)%N -> (x < W)%N -> (y < H')%N -> Get img [d; x; y] s = (Ok (cell d x y), s) /\ at_ (vsh u) (vdata u) [d; x; y] = Some (cell d x y).
Proof using Hu Es.
  intros Hd Hx Hy. destruct (Get_in_range s img u [d; x; y] Hu) as (v & Ev & Eg); [rewrite Es; apply range3; assumption|]. unfold cell. rewrite Ev. auto.
Qed.
Lemma no_cell d x y : (c <= d)%N -> exists e, Get img [d; x; y] s = (Err e, s).
Proof using Hu Es. intros Hd. apply (Get_out _ _ u); [exact Hu|rewrite Es; reflexivity|]. rewrite Es. intros Hr. apply unrange3 in Hr. lia. Qed.
Notation body := (fun (i j : N) (g : rgba) => r <~ Get img [0; i; j]%N ; gr <~ Get img [1; i; j]%N ; b <~ Get img [2; i; j]%N ; a <~ Get img [3; i; j]%N ;
        mret (SetRGBA g i j (MkColour (u8 (nmul r (nofN 255))) (u8 (nmul gr (nofN 255))) (u8 (nmul b (nofN 255))) (u8 (nmul a (nofN 255)))))).
Lemma ToImg_loop : (4 * W * H' < 2 ^ 63)%N -> (W < 2 ^ 63)%N -> (H' < 2 ^ 63)%N ->
  ToImg u8 img s = mfold (spots W H') (MkRgba W H' (replicate (N.to_nat (W * H')) no_colour)) (fun ij g => body (fst ij) (snd ij) g) s.
Proof using Hu Es.
  intros L L1 L2. destruct (holds_exists _ _ _ Hu) as [n Hn]. destruct (holds_data _ _ _ _ Hu Hn) as (E & _). unfold ToImg. erewrite mbnd_ok by (eapply get_mat_ok; exact Hn).
  rewrite E, Es. unfold NewRGBA. rewrite (proj2 (N.ltb_lt W _) L1), (proj2 (N.ltb_lt H' _) L2), (proj2 (N.ltb_lt _ _) L). cbn [andb].
  erewrite mbnd_ok by reflexivity. etransitivity; [apply mfold_nest|]. reflexivity.
Qed.
Lemma toimg_claim : (4 <= c)%N -> (4 * W * H' < 2 ^ 63)%N -> (W < 2 ^ 63)%N -> (H' < 2 ^ 63)%N ->
  exists g, ToImg u8 img s = (Ok g, s) /\ gwidth g = W /\ gheight g = H' /\ length (gpix g) = N.to_nat (W * H') /\
    forall x y, (x < W)%N -> (y < H')%N -> gpix g !! N.to_nat (y * W + x) = Some (colour_of x y).
Proof using Hu Es.
  intros Hc L L1 L2. rewrite ToImg_loop by assumption.
  destruct (mfold_inv (fun pre g => gwidth g = W /\ gheight g = H' /\ length (gpix g) = N.to_nat (W * H') /\ forall x y, (x, y) ∈ pre -> (x < W)%N -> (y < H')%N -> gpix g !! N.to_nat (y * W + x) = Some (colour_of x y))
    (fun ij g => body (fst ij) (snd ij) g) (spots W H') (MkRgba W H' (replicate (N.to_nat (W * H')) no_colour)) s) as (g & E & G1 & G2 & G3 & G4).
  - split; [reflexivity|]. split; [reflexivity|]. split; [apply replicate_length|]. intros x y Hx. inversion Hx.
  - intros pre [i j] post g El (G1 & G2 & G3 & G4). assert (Hij : (i, j) ∈ spots W H') by (rewrite El; apply elem_of_app; right; left). apply elem_of_spots in Hij as (Hi & Hj). cbn [fst snd].
    destruct (get_cell 0 i j) as (C0 & _); [lia|assumption..|]. destruct (get_cell 1 i j) as (C1 & _); [lia|assumption..|]. destruct (get_cell 2 i j) as (C2 & _); [lia|assumption..|]. destruct (get_cell 3 i j) as (C3 & _); [lia|assumption..|].
    rewrite (mbnd_ok _ _ _ _ _ C0), (mbnd_ok _ _ _ _ _ C1), (mbnd_ok _ _ _ _ _ C2), (mbnd_ok _ _ _ _ _ C3). eexists. split; [reflexivity|].
    unfold SetRGBA. rewrite G1, G2, (proj2 (N.ltb_lt i W) Hi), (proj2 (N.ltb_lt j H') Hj). cbn [andb gwidth gheight gpix]. split; [reflexivity|]. split; [reflexivity|]. split; [rewrite insert_length; exact G3|].
    intros x y Hin Hx Hy. destruct (decide ((x, y) = (i, j))) as [[= -> ->]|Hne].
    + apply list_lookup_insert. rewrite G3. nia.
    + rewrite list_lookup_insert_ne; [apply G4; try assumption|].
      * apply elem_of_app in Hin as [Hin|Hin]; [exact Hin|]. apply elem_of_list_singleton in Hin. contradiction.
      * intros E. apply Hne. assert (E2 : (j * W + i = y * W + x)%N) by lia. assert (y = j) by nia. subst y. f_equal. nia.
  - exists g. split; [exact E|]. split; [exact G1|]. split; [exact G2|]. split; [exact G3|]. intros x y Hx Hy. apply G4; [apply elem_of_spots; auto|assumption..].
Qed.
Lemma toimg_missing : (c < 4)%N -> (0 < W)%N -> (0 < H')%N -> (4 * W * H' < 2 ^ 63)%N -> refuses s (ToImg u8 img s).
Proof using Hu Es.
  intros Hc HW HH L. rewrite ToImg_loop by nia.
  assert (E : exists l, spots W H' = (0, 0)%N :: l).
  { assert (U : forall n, (0 < n)%N -> exists l, urange n = 0%N :: l).
    { intros n Hn. unfold urange, range. destruct (N.to_nat n) as [|k] eqn:Ek; [lia|]. cbn [seq map]. eauto. }
    unfold spots. destruct (U W HW) as (l1 & ->). destruct (U H' HH) as (l2 & ->). cbn [flat_map map app]. eauto. }
  destruct E as (l & ->). cbn [mfold fst snd].
  assert (C : c = 0%N \/ c = 1%N \/ c = 2%N \/ c = 3%N) by lia. unfold refuses, mbnd at 1. destruct C as [Ec|[Ec|[Ec|Ec]]].
  - destruct (no_cell 0 0 0) as (e & Ee); [lia|]. exists e. unfold mbnd at 1. rewrite Ee. reflexivity.
  - destruct (get_cell 0 0 0) as (C0 & _); [lia..|]. rewrite (mbnd_ok _ _ _ _ _ C0). destruct (no_cell 1 0 0) as (e & Ee); [lia|]. exists e. unfold mbnd at 1. rewrite Ee. reflexivity.
  - destruct (get_cell 0 0 0) as (C0 & _); [lia..|]. destruct (get_cell 1 0 0) as (C1 & _); [lia..|]. rewrite (mbnd_ok _ _ _ _ _ C0), (mbnd_ok _ _ _ _ _ C1).
    destruct (no_cell 2 0 0) as (e & Ee); [lia|]. exists e. unfold mbnd at 1. rewrite Ee. reflexivity.
  - destruct (get_cell 0 0 0) as (C0 & _); [lia..|]. destruct (get_cell 1 0 0) as (C1 & _); [lia..|]. destruct (get_cell 2 0 0) as (C2 & _); [lia..|].
    rewrite (mbnd_ok _ _ _ _ _ C0), (mbnd_ok _ _ _ _ _ C1), (mbnd_ok _ _ _ _ _ C2). destruct (no_cell 3 0 0) as (e & Ee); [lia|]. exists e. unfold mbnd at 1. rewrite Ee. reflexivity.
Qed.
Lemma toimg_empty : W = 0%N \/ H' = 0%N -> (W < 2 ^ 63)%N -> (H' < 2 ^ 63)%N -> ToImg u8 img s = (Ok (MkRgba W H' []), s).
Proof using Hu Es.
  intros H0 L1 L2. rewrite ToImg_loop by (destruct H0 as [->| ->]; lia). assert (spots W H' = []) as ->.
  { destruct (spots W H') as [|[x y] l] eqn:E; [reflexivity|]. assert (Hx : (x, y) ∈ spots W H') by (rewrite E; left). apply elem_of_spots in Hx. lia. }
  replace (N.to_nat (W * H')) with 0 by (destruct H0 as [->| ->]; lia). reflexivity.
Qed.
End Save.
Lemma toimg_rank {T} `{Num T} (u8 : T -> N) (s : tst T) img u : holds s img u -> length (vsh u) <> 3 -> refuses s (ToImg u8 img s).
Proof.
  intros Hu Hl. destruct (holds_exists _ _ _ Hu) as [n Hn]. destruct (holds_data _ _ _ _ Hu Hn) as (E & _). exists (ELayer 72).
  unfold ToImg. erewrite mbnd_ok by (eapply get_mat_ok; exact Hn). rewrite E. destruct (vsh u) as [|a [|b [|d [|e l]]]]; try reflexivity. exfalso. apply Hl. reflexivity.
Qed.
Lemma rgba_at_in g x y c : (x < gwidth g)%N -> (y < gheight g)%N -> gpix g !! N.to_nat (y * gwidth g + x) = Some c -> rgba_at g (Z.of_N x) (Z.of_N y) = wide c.
Proof.
  intros Hx Hy E. unfold rgba_at. rewrite (proj2 (Z.leb_le 0 (Z.of_N x))), (proj2 (Z.leb_le 0 (Z.of_N y))), (proj2 (Z.ltb_lt (Z.of_N x) _)), (proj2 (Z.ltb_lt (Z.of_N y) _)) by lia. cbn [andb].
  replace (Z.to_nat (Z.of_N y * Z.of_N (gwidth g) + Z.of_N x)) with (N.to_nat (y * gwidth g + x)) by lia. rewrite E. reflexivity.
Qed.
(** Loading and saving again. *)
Lemma round_trip {T} `{Num T} (of64 : Bits.binary64 -> T) (u8 : T -> N) (s : tst T) p :
  (forall k, (k < 256)%N -> u8 (nmul (of64 (level (257 * k))) (nofN 255)) = k) ->
  fits [4; pwidth p; pheight p]%N -> (4 * pwidth p * pheight p < 2 ^ 63)%N -> (pwidth p < 2 ^ 63)%N -> (pheight p < 2 ^ 63)%N -> at_origin p ->
  (forall x y, (x < pwidth p)%N -> (y < pheight p)%N -> eight_bits (shown p x y)) ->
  exists img s1 g, LoadImage of64 (Ok p) s = (Ok img, s1) /\ ToImg u8 img s1 = (Ok g, s1) /\ gwidth g = pwidth p /\ gheight g = pheight p /\
    forall x y, (x < pwidth p)%N -> (y < pheight p)%N -> shown (rgba_picture g) x y = shown p x y.
Proof.
  intros H8 Hf L L1 L2 (O1 & O2) He. destruct (load_claim of64 s p Hf) as (u & Ru & Eu & Cu). pose proof Ru as (s1 & _ & _ & E1 & _ & _ & _ & Hu & _).
  destruct (toimg_claim u8 s1 (length (tens s)) u 4 _ _ Hu Eu) as (g & Eg & G1 & G2 & _ & G4); [lia|assumption..|].
  exists (length (tens s)), s1, g. split; [exact E1|]. split; [exact Eg|]. split; [exact G1|]. split; [exact G2|]. intros x y Hx Hy.
  unfold shown at 1. cbn [rgba_picture pminx pminy pat]. change (0 + Z.of_N x)%Z with (Z.of_N x). change (0 + Z.of_N y)%Z with (Z.of_N y).
  erewrite rgba_at_in; [|rewrite G1; exact Hx|rewrite G2; exact Hy|rewrite G1; apply G4; assumption].
  specialize (He x y Hx Hy). assert (Es : shown p x y = pat p (Z.of_N x) (Z.of_N y)) by (unfold shown; rewrite O1, O2; reflexivity). rewrite Es in *. set (cc := pat p (Z.of_N x) (Z.of_N y)) in *.
  assert (K : forall d, (d < 4)%N -> (257 * byte_of u8 (cell u d x y))%N = chan cc d).
  { intros d Hd. unfold cell. rewrite (Cu d x y Hd Hx Hy). cbn [default from_option]. unfold Datatypes.id. fold cc. destruct (He d) as (k & Hk & Ek). rewrite Ek. unfold byte_of. rewrite H8 by exact Hk. reflexivity. }
  unfold wide, colour_of. cbn [cred cgreen cblue calpha]. rewrite (K 0%N), (K 1%N), (K 2%N), (K 3%N) by lia. destruct cc. reflexivity.
Qed.

(** ** Eight bits survive in float64 and in float32. *)
Definition keeps64 (k : N) : bool := let x := f64_mul (level (257 * k)) (f64_of_Z 255) in is_finite 53 1024 x && (Btrunc 53 1024 x =? Z.of_N k)%Z.
Definition keeps32 (k : N) : bool := let x := Bits.b32_mult BinarySingleNaN.mode_NE (f32_of_f64 (level (257 * k))) (f32_of_Z 255) in is_finite 24 128 x && (Btrunc 24 128 x =? Z.of_N k)%Z.
Lemma all_keep64 : forallb keeps64 (upto 256) = true. Proof. vm_compute. reflexivity. Qed.
Lemma all_keep32 : forallb keeps32 (upto 256) = true. Proof. vm_compute. reflexivity. Qed.
Lemma bytes64 odd k : (k < 256)%N -> u8_of_f64 odd (@nmul _ Num64 (level (257 * k)) (@nofN _ Num64 255)) = k.
Proof.
  intros Hk. pose proof (proj1 (forallb_forall _ _) all_keep64 k (proj1 (elem_of_list_In _ _) (proj2 (elem_of_upto _ _) Hk))) as E. unfold keeps64 in E. apply andb_true_iff in E as (F & E). apply Z.eqb_eq in E.
  cbn [Num64 nmul nofN]. change (Z.of_N 255) with 255%Z. unfold u8_of_f64. cbv zeta. rewrite F, E, (proj2 (Z.leb_le 0 _)), (proj2 (Z.ltb_lt _ 256)) by lia. cbn [andb]. lia.
Qed.
Lemma bytes32 odd k : (k < 256)%N -> u8_of_f32 odd (@nmul _ Num32 (f32_of_f64 (level (257 * k))) (@nofN _ Num32 255)) = k.
Proof.
  intros Hk. pose proof (proj1 (forallb_forall _ _) all_keep32 k (proj1 (elem_of_list_In _ _) (proj2 (elem_of_upto _ _) Hk))) as E. unfold keeps32 in E. apply andb_true_iff in E as (F & E). apply Z.eqb_eq in E.
  cbn [Num32 nmul nofN]. change (Z.of_N 255) with 255%Z. unfold u8_of_f32. cbv zeta. rewrite F, E, (proj2 (Z.leb_le 0 _)), (proj2 (Z.ltb_lt _ 256)) by lia. cbn [andb]. lia.
Qed.
