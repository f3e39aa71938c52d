(** * P_ImgIO: loading and saving images (claims C80-C83) *)
From Coq Require Import Reals.
From Flocq Require Import Core.Core IEEE754.Binary.
From Verif Require Import Base Num NumIntS ModelTools ModelOps ModelTensor ModelGraph ModelLayer ModelImg Spec Denote ObjSpec DenoteDec ObjDec
  IndexProofs ImgSpec ImgFloat ImgProofs ImgMain ModelImgIO NumFloat ImgIOSpec ImgIO.
From Coq Require Import Lia ZifyBool ZifyNat ZifyN.
Open Scope nat_scope.

Section Load.
Context {T : Type} `{Num T}.
(** T(f) and the conversions to int, uint and uint32 outside of their ranges *)
Context (of64 : Bits.binary64 -> T) (oddi : Bits.binary64 -> Z) (odd odd32 : Bits.binary64 -> N) (s : tst T) (p : picture).

(** ** C80: LoadImage
    Four channels. Every cell is the colour divided by 65535, as exactly as float64
    can say. [at_origin]: the bounds begin at 0. *)
Theorem C80_loads_partial : fits [4; pwidth p; pheight p]%N -> at_origin p -> colours_ok p ->
  exists v, returns_new s (LoadImage of64 (Ok p) s) v /\ vsh v = [4; pwidth p; pheight p]%N /\
    forall d x y, (d < 4)%N -> (x < pwidth p)%N -> (y < pheight p)%N ->
      exists z, at_ (vsh v) (vdata v) [d; x; y] = Some (of64 z) /\ fin64 z = true /\ R64 z = rnd64 (IZR (Z.of_N (chan (shown p x y) d)) / 65535).
Proof.
  intros Hf (O1 & O2) Hc. destruct (load_claim of64 s p Hf) as (v & Rv & Ev & Cv). exists v. split; [exact Rv|]. split; [exact Ev|]. intros d x y Hd Hx Hy.
  exists (level (chan (shown p x y) d)). split; [|apply level_spec; apply Hc]. rewrite Cv by assumption. unfold shown. rewrite O1, O2. reflexivity.
Qed.
Theorem C80_no_file e : refuses s (LoadImage of64 (Err e) s) /\ (forall w h, refuses s (LoadSimpleScaled of64 oddi (Err e) w h s)) /\
  forall w h, refuses s (LoadSmoothScaled of64 oddi odd32 (Err e) w h s).
Proof. split; [exists e; reflexivity|]. split; intros w h; exists e; reflexivity. Qed.

(** ** C82: LoadSimpleScaled
    is loading followed by scaling; the cells are those of the picture at [samples]. *)
Theorem C82_is_scaling w h : (0 < pwidth p)%N -> (0 < pheight p)%N -> (pwidth p * w < 2 ^ 51)%N -> (pheight p * h < 2 ^ 51)%N ->
  fits [4; pwidth p; pheight p]%N -> fits [4; w; h]%N ->
  exists img s1 v, LoadImage of64 (Ok p) s = (Ok img, s1) /\ returns_new s (LoadSimpleScaled of64 oddi (Ok p) w h s) v /\ returns_new s1 (SimpleScale odd img w h s1) v.
Proof. exact (load_then_scale of64 odd oddi s p w h). Qed.
Theorem C82_samples_partial w h : (0 < pwidth p)%N -> (0 < pheight p)%N -> (pwidth p * w < 2 ^ 51)%N -> (pheight p * h < 2 ^ 51)%N -> fits [4; w; h]%N -> at_origin p -> colours_ok p ->
  exists (X Y : N -> N) v, (forall x, (x < w)%N -> samples (pwidth p) w x (X x)) /\ (forall y, (y < h)%N -> samples (pheight p) h y (Y y)) /\
    returns_new s (LoadSimpleScaled of64 oddi (Ok p) w h s) v /\ vsh v = [4; w; h]%N /\
    forall d x y, (d < 4)%N -> (x < w)%N -> (y < h)%N ->
      exists z, at_ (vsh v) (vdata v) [d; x; y] = Some (of64 z) /\ fin64 z = true /\ R64 z = rnd64 (IZR (Z.of_N (chan (shown p (X x) (Y y)) d)) / 65535).
Proof.
  intros HW HH LW LH Hf (O1 & O2) Hc. exists (pick odd (pwidth p) w), (pick odd (pheight p) h). destruct (load_simple_claim of64 oddi s p w h Hf) as (v & Rv & Ev & Cv). exists v.
  split; [intros x Hx; apply pick_samples; assumption|]. split; [intros y Hy; apply pick_samples; assumption|]. split; [exact Rv|]. split; [exact Ev|]. intros d x y Hd Hx Hy.
  exists (level (chan (shown p (pick odd (pwidth p) w x) (pick odd (pheight p) h y)) d)). split; [|apply level_spec; apply Hc]. rewrite Cv by assumption.
  rewrite (picki_pick oddi odd), (picki_pick oddi odd) by assumption. unfold shown. rewrite O1, O2. reflexivity.
Qed.

(** ** C83: LoadSmoothScaled
    never fails, unlike SmoothScale. A cell is a colour [k] of 16 bits, less than one
    and a rounding error below the mean of the four neighbours. *)
Theorem C83_never_fails w h : fits [4; w; h]%N -> exists v, returns_new s (LoadSmoothScaled of64 oddi odd32 (Ok p) w h s) v /\ vsh v = [4; w; h]%N.
Proof. intros Hf. destruct (load_smooth_claim of64 oddi odd32 s p w h Hf) as (v & Rv & Ev & _). eauto. Qed.
Theorem C83_blends_partial w h : (0 < pwidth p)%N -> (0 < pheight p)%N -> (pwidth p * w < 2 ^ 51)%N -> (pheight p * h < 2 ^ 51)%N -> (pwidth p + pheight p < 2 ^ 32)%N ->
  fits [4; w; h]%N -> at_origin p -> colours_ok p ->
  exists (X Y : N -> N) v, (forall x, (x < w)%N -> samples (pwidth p) w x (X x)) /\ (forall y, (y < h)%N -> samples (pheight p) h y (Y y)) /\
    returns_new s (LoadSmoothScaled of64 oddi odd32 (Ok p) w h s) v /\ vsh v = [4; w; h]%N /\
    forall d x y, (d < 4)%N -> (x < w)%N -> (y < h)%N ->
      exists z k, at_ (vsh v) (vdata v) [d; x; y] = Some (of64 z) /\ z = f64_div (f64_of_Z (Z.of_N k)) (f64_of_Z 65535) /\
        let mean := bilinear (behind (pwidth p) w x (X x)) (behind (pheight p) h y (Y y)) (IZR (Z.of_N (chan (shown p (X x) (Y y)) d))) (IZR (Z.of_N (chan (shown p (X x + 1) (Y y)) d)))
          (IZR (Z.of_N (chan (shown p (X x) (Y y + 1)) d))) (IZR (Z.of_N (chan (shown p (X x + 1) (Y y + 1)) d))) in
        let error := (65535 * (IZR (Z.of_N (pwidth p + pheight p)) + 8) * bpow radix2 (-49))%R in
        (mean - 1 - error < IZR (Z.of_N k) <= mean + error)%R.
Proof.
  intros HW HH LW LH LS Hf (O1 & O2) Hc. exists (pick odd (pwidth p) w), (pick odd (pheight p) h). destruct (load_smooth_claim of64 oddi odd32 s p w h Hf) as (v & Rv & Ev & Cv). exists v.
  split; [intros x Hx; apply pick_samples; assumption|]. split; [intros y Hy; apply pick_samples; assumption|]. split; [exact Rv|]. split; [exact Ev|]. intros d x y Hd Hx Hy.
  exists (level (chan (four oddi odd32 p w h x y) d)), (chan (four oddi odd32 p w h x y) d). split; [apply Cv; assumption|]. split; [reflexivity|]. cbv zeta.
  destruct (pick_samples odd (pwidth p) w x HW LW Hx) as (_ & PX). destruct (pick_samples odd (pheight p) h y HH LH Hy) as (_ & PY).
  unfold four. cbv zeta. rewrite chan_blend by exact Hd. rewrite (picki_pick oddi odd (pwidth p)), (picki_pick oddi odd (pheight p)) by assumption.
  set (X := pick odd (pwidth p) w x) in *. set (Y := pick odd (pheight p) h y) in *.
  replace (wrapZ 64 (Z.of_N X + 1)) with (Z.of_N (X + 1)) by (rewrite NumIntS.wrapZ_id; [lia|lia|change (2 ^ (64 - 1))%Z with 9223372036854775808%Z; lia]).
  replace (wrapZ 64 (Z.of_N Y + 1)) with (Z.of_N (Y + 1)) by (rewrite NumIntS.wrapZ_id; [lia|lia|change (2 ^ (64 - 1))%Z with 9223372036854775808%Z; lia]).
  unfold shown. rewrite O1, O2. rewrite !Z.add_0_l. apply (blend_level_near odd oddi odd32); try assumption; apply Hc.
Qed.
(** Asked for the size the picture has, it does what LoadImage does. *)
Theorem C83_same_size : colours_ok p -> (pwidth p < 2 ^ 53)%N -> (pheight p < 2 ^ 53)%N -> fits [4; pwidth p; pheight p]%N ->
  exists v, returns_new s (LoadImage of64 (Ok p) s) v /\ returns_new s (LoadSmoothScaled of64 oddi odd32 (Ok p) (pwidth p) (pheight p) s) v.
Proof. exact (smooth_same of64 oddi odd32 s p). Qed.
End Load.
Print Assumptions C80_loads_partial.
Print Assumptions C80_no_file.
Print Assumptions C82_is_scaling.
Print Assumptions C82_samples_partial.
Print Assumptions C83_never_fails.
Print Assumptions C83_blends_partial.
Print Assumptions C83_same_size.

(** Tensors of integers keep nothing but the brightest value of each channel. *)
Theorem C80_integers w Hw (oddi : Bits.binary64 -> Z) (s : tst (intw w)) (p : picture) : (1 < w)%Z -> let N := NumIntS w Hw in
  fits [4; pwidth p; pheight p]%N -> at_origin p -> colours_ok p ->
  exists v, returns_new s (LoadImage (fun z => NumIntS.mk w Hw (int_of_f64 oddi z)) (Ok p) s) v /\ vsh v = [4; pwidth p; pheight p]%N /\
    forall d x y, (d < 4)%N -> (x < pwidth p)%N -> (y < pheight p)%N ->
      exists i, at_ (vsh v) (vdata v) [d; x; y] = Some i /\ ival i = (if (chan (shown p x y) d =? 65535)%N then 1 else 0)%Z.
Proof.
  intros Hw1 N Hf (O1 & O2) Hc. destruct (load_claim (fun z => NumIntS.mk w Hw (int_of_f64 oddi z)) s p Hf) as (v & Rv & Ev & Cv). exists v. split; [exact Rv|]. split; [exact Ev|].
  intros d x y Hd Hx Hy. eexists. split; [apply Cv; assumption|]. rewrite mk_val, int_level by apply Hc. unfold shown. rewrite O1, O2. rewrite !Z.add_0_l.
  assert (P : (2 ^ 1 <= 2 ^ (w - 1))%Z) by (apply Z.pow_le_mono_r; lia). apply NumIntS.wrapZ_id; [exact Hw|]. destruct (_ =? _)%N; lia.
Qed.
Print Assumptions C80_integers.

(** ** C81: ToImg *)
Section Save.
Context {T : Type} `{Num T}.
(** uint8(v) *)
Context (u8 : T -> N) (s : tst T) (img : nat) (u : vten T).
Theorem C81_not_an_image : holds s img u -> length (vsh u) <> 3 -> refuses s (ToImg u8 img s).
Proof. exact (toimg_rank u8 s img u). Qed.
Theorem C81_missing_channels c W H' : holds s img u -> vsh u = [c; W; H'] -> (c < 4)%N -> (0 < W)%N -> (0 < H')%N -> (4 * W * H' < 2 ^ 63)%N -> refuses s (ToImg u8 img s).
Proof. intros Hu Es. exact (toimg_missing u8 s img u c W H' Hu Es). Qed.
(** Channels after the fourth are not looked at. *)
Theorem C81_pixels c W H' : holds s img u -> vsh u = [c; W; H'] -> (4 <= c)%N -> (4 * W * H' < 2 ^ 63)%N -> (W < 2 ^ 63)%N -> (H' < 2 ^ 63)%N ->
  exists g, ToImg u8 img s = (Ok g, s) /\ gwidth g = W /\ gheight g = H' /\
    forall x y, (x < W)%N -> (y < H')%N -> forall d, (d < 4)%N ->
      exists v, at_ (vsh u) (vdata u) [d; x; y] = Some v /\ chan (shown (rgba_picture g) x y) d = (257 * u8 (nmul v (nofN 255)))%N.
Proof.
  intros Hu Es Hc L L1 L2. destruct (toimg_claim u8 s img u c W H' Hu Es Hc L L1 L2) as (g & E & G1 & G2 & _ & G4). exists g. split; [exact E|]. split; [exact G1|]. split; [exact G2|].
  intros x y Hx Hy d Hd. exists (cell u d x y). split; [apply (get_cell s img u c W H' Hu Es); [lia|assumption..]|].
  unfold shown. cbn [rgba_picture pminx pminy pat]. rewrite !Z.add_0_l. erewrite rgba_at_in; [|rewrite G1; exact Hx|rewrite G2; exact Hy|rewrite G1; apply G4; assumption].
  destruct (chan_lt4 d Hd) as [->|[->|[->| ->]]]; reflexivity.
Qed.
End Save.
Print Assumptions C81_not_an_image.
Print Assumptions C81_missing_channels.
Print Assumptions C81_pixels.
(** Colours of eight bits survive loading and saving, in float64 and float32. *)
Theorem C81_round_trip_partial (s : tst Bits.binary64) odd p : let N := Num64 in
  fits [4; pwidth p; pheight p]%N -> (4 * pwidth p * pheight p < 2 ^ 63)%N -> (pwidth p < 2 ^ 63)%N -> (pheight p < 2 ^ 63)%N -> at_origin p ->
  (forall x y, (x < pwidth p)%N -> (y < pheight p)%N -> eight_bits (shown p x y)) ->
  exists img s1 g, LoadImage (fun z => z) (Ok p) s = (Ok img, s1) /\ ToImg (u8_of_f64 odd) img s1 = (Ok g, s1) /\ gwidth g = pwidth p /\ gheight g = pheight p /\
    forall x y, (x < pwidth p)%N -> (y < pheight p)%N -> shown (rgba_picture g) x y = shown p x y.
Proof. intros N. apply round_trip. intros k Hk. exact (bytes64 odd k Hk). Qed.
Theorem C81_round_trip_32_partial (s : tst Bits.binary32) odd p : let N := Num32 in
  fits [4; pwidth p; pheight p]%N -> (4 * pwidth p * pheight p < 2 ^ 63)%N -> (pwidth p < 2 ^ 63)%N -> (pheight p < 2 ^ 63)%N -> at_origin p ->
  (forall x y, (x < pwidth p)%N -> (y < pheight p)%N -> eight_bits (shown p x y)) ->
  exists img s1 g, LoadImage f32_of_f64 (Ok p) s = (Ok img, s1) /\ ToImg (u8_of_f32 odd) img s1 = (Ok g, s1) /\ gwidth g = pwidth p /\ gheight g = pheight p /\
    forall x y, (x < pwidth p)%N -> (y < pheight p)%N -> shown (rgba_picture g) x y = shown p x y.
Proof. intros N. apply round_trip. intros k Hk. exact (bytes32 odd k Hk). Qed.
Print Assumptions C81_round_trip_partial.
Print Assumptions C81_round_trip_32_partial.

(** ** Witnesses *)
Section Witness.
#[local] Existing Instance NumS32.
Definition white : colour := MkColour 65535 65535 65535 65535.
Definition i32 (x : Bits.binary64) : intw 32 := NumIntS.mk 32 eq_refl (int_of_f64 (fun _ => 0%Z) x).
Definition none32 : tst (intw 32) := MkSt [] [] [].
Definition dump (r : res nat * tst (intw 32)) : option (list Z) :=
  match r with (Ok id, s) => match GetData id s with (Ok d, _) => Some (map ival d) | _ => None end | _ => None end.
(** White inside of its bounds, nothing outside, as image.RGBA is. *)
Definition plain_white (mx my : Z) (w h : N) : picture :=
  MkPicture mx my w h (fun x y => if ((mx <=? x) && (x <? mx + Z.of_N w) && (my <=? y) && (y <? my + Z.of_N h))%Z then white else no_colour).
Lemma plain_white_ok mx my w h : colours_ok (plain_white mx my w h).
Proof. intros x y d. cbn [plain_white pat]. destruct (_ && _)%bool; unfold chan; destruct (N.to_nat d) as [|[|[|[|[]]]]]; cbn; lia. Qed.
(** A white picture of one pixel whose bounds begin at (1, 0), as the first frame of
    a GIF file can: what is loaded is black. *)
Theorem C80_refuted : exists p, colours_ok p /\ fits [4; pwidth p; pheight p]%N /\ shown p 0 0 = white /\ dump (LoadImage i32 (Ok p) none32) = Some [0; 0; 0; 0]%Z.
Proof. exists (plain_white 1 0 1 1). split; [apply plain_white_ok|]. split; [apply fitsb_fits; reflexivity|]. split; [reflexivity|]. vm_compute. reflexivity. Qed.
(** Colours of 16 bits do not survive: every colour saved has the same upper and lower byte. *)
Theorem C81_refuted : exists p, at_origin p /\ colours_ok p /\ shown p 0 0 <> no_colour /\ forall odd (s : tst Bits.binary64), let N := Num64 in
  ~ exists img s1 g, LoadImage (fun z => z) (Ok p) s = (Ok img, s1) /\ ToImg (u8_of_f64 odd) img s1 = (Ok g, s1) /\ shown (rgba_picture g) 0 0 = shown p 0 0.
Proof.
  exists (MkPicture 0 0 1 1 (fun _ _ => MkColour 300 0 0 65535)). split; [split; reflexivity|]. split; [intros x y d; unfold chan; cbn [pat cred cgreen cblue calpha]; destruct (N.to_nat d) as [|[|[|[|[]]]]]; cbn; lia|].
  split; [intros E; apply (f_equal cred) in E; cbv in E; discriminate|]. intros odd s N (img & s1 & g & _ & _ & E). apply (f_equal cred) in E. revert E.
  unfold shown, rgba_picture, rgba_at. cbn [pminx pminy pat cred]. destruct (_ && _)%bool; cbn [wide no_colour cred]; lia.
Qed.
Lemma bytes_eight r g b a : (r < 256)%N -> (g < 256)%N -> (b < 256)%N -> (a < 256)%N -> eight_bits (MkColour (257 * r) (257 * g) (257 * b) (257 * a)).
Proof.
  intros Hr Hg Hb Ha d. unfold chan. cbn [cred cgreen cblue calpha]. destruct (N.to_nat d) as [|[|[|[|n]]]]; [exists r; auto|exists g; auto|exists b; auto|exists a; auto|].
  exists 0%N. split; [lia|]. destruct n; reflexivity.
Qed.
(** A tensor of integers loses every colour but the brightest. *)
Theorem C81_integers_refuted : exists p, at_origin p /\ eight_bits (shown p 0 0) /\ shown p 0 0 = MkColour (257 * 200) (257 * 200) (257 * 200) 65535 /\
  dump (LoadImage i32 (Ok p) none32) = Some [0; 0; 0; 1]%Z.
Proof.
  exists (MkPicture 0 0 1 1 (fun _ _ => MkColour (257 * 200) (257 * 200) (257 * 200) 65535)). split; [split; reflexivity|]. split.
  - apply (bytes_eight 200 200 200 255); lia.
  - split; [reflexivity|]. vm_compute. reflexivity.
Qed.
(** Enlarging a white picture of one pixel: three of four pixels are blended with
    what is outside of the picture. *)
Theorem C83_refuted : exists p, at_origin p /\ colours_ok p /\ (forall x y, (x < pwidth p)%N -> (y < pheight p)%N -> shown p x y = white) /\
  dump (LoadSmoothScaled i32 (fun _ => 0%Z) (fun _ => 0%N) (Ok p) 2 2 none32) = Some [1; 0; 0; 0; 1; 0; 0; 0; 1; 0; 0; 0; 1; 0; 0; 0]%Z.
Proof.
  exists (plain_white 0 0 1 1). split; [split; reflexivity|]. split; [apply plain_white_ok|]. split; [|vm_compute; reflexivity].
  cbn [plain_white pwidth pheight]. intros x y Hx Hy. assert (x = 0%N) by lia. assert (y = 0%N) by lia. subst. reflexivity.
Qed.
Print Assumptions C80_refuted.
Print Assumptions C81_refuted.
Print Assumptions C81_integers_refuted.
Print Assumptions C83_refuted.
(** A picture that all of the theorems are about. *)
Definition stripes : picture := MkPicture 0 0 2 1 (fun x _ => if (x =? 0)%Z then MkColour 65535 (257 * 3) 0 65535 else if (x =? 1)%Z then MkColour 0 65535 257 65535 else no_colour).
Example C80_case : fits [4; 2; 1]%N /\ at_origin stripes /\ colours_ok stripes /\ (forall x y, (x < 2)%N -> (y < 1)%N -> eight_bits (shown stripes x y)) /\
  dump (LoadImage i32 (Ok stripes) none32) = Some [1; 0; 0; 1; 0; 0; 1; 1]%Z.
Proof.
  split; [apply fitsb_fits; reflexivity|]. split; [split; reflexivity|]. split.
  - intros x y d. cbn [stripes pat]. destruct (x =? 0)%Z; [|destruct (x =? 1)%Z]; unfold chan; destruct (N.to_nat d) as [|[|[|[|[]]]]]; cbn; lia.
  - split; [|vm_compute; reflexivity]. intros x y Hx Hy. assert (y = 0%N) by lia. subst y. assert (x = 0%N \/ x = 1%N) as [-> | ->] by lia; [apply (bytes_eight 255 3 0 255)|apply (bytes_eight 0 255 1 255)]; lia.
Qed.
Example C82_case : dump (LoadSimpleScaled i32 (fun _ => 0%Z) (Ok stripes) 4 1 none32) = Some [1; 1; 0; 0; 0; 0; 1; 1; 0; 0; 0; 0; 1; 1; 1; 1]%Z.
Proof. vm_compute. reflexivity. Qed.
(** What saving makes of two channels and of four; a loaded tensor of integers holds 0 and 1. *)
Definition u8i (i : intw 32) : N := Z.to_N (ival i mod 256).
Definition saved (r : res rgba * tst (intw 32)) : option (list colour) := match fst r with Ok g => Some (gpix g) | _ => None end.
Definition tens32 (vs : list Z) (sh : list N) : tst (intw 32) := snd (NewFromValues (map (NumIntS.mk 32 eq_refl) vs) sh none32).
Example C81_case : holds (tens32 [1; 0; 2; 1; 0; 0; 1; 1]%Z [4; 2; 1]%N) 0 (V [4; 2; 1]%N (map (NumIntS.mk 32 eq_refl) [1; 0; 2; 1; 0; 0; 1; 1]%Z)) /\
  saved (ToImg u8i 0 (tens32 [1; 0; 2; 1; 0; 0; 1; 1]%Z [4; 2; 1]%N)) = Some [MkColour 255 254 0 255; MkColour 0 255 0 255] /\
  saved (ToImg u8i 0 (tens32 [1; 0]%Z [2; 1; 1]%N)) = None.
Proof. split; [holds_tac|]. split; vm_compute; reflexivity. Qed.
End Witness.
