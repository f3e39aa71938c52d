(** * ImgMain: scaling images, progress bars and distances *)
From Coq Require Import Reals Lra.
From Flocq Require Import Core.Core.
From Verif Require Import Base Num ModelTools ModelOps ModelTensor ModelLayer ModelImg Spec Denote ObjSpec IndexProofs ExecProofs TensorFacts BuildProofs AccessProofs
  NetBuild ImgSpec ImgFloat ImgBlend ImgProofs.
From Coq Require Import Lia ZifyBool ZifyNat ZifyN.
Open Scope nat_scope.

Lemma samples_quot n w x X : (0 < w)%N -> (X * w <= x * n)%N -> (x * n <= (X + 1) * w)%N -> samples n w x X.
Proof.
  intros Hw H1 H2. unfold samples. destruct (N.eq_dec (x * n) ((X + 1) * w)) as [E|E].
  - right. rewrite E, N.mod_mul, N.div_mul by lia. lia.
  - left. apply (N.div_unique (x * n) w X (x * n - X * w)); nia.
Qed.
Lemma pick_samples odd W w x : (0 < W)%N -> (W * w < 2 ^ 51)%N -> (x < w)%N -> samples W w x (pick odd W w x) /\ (pick odd W w x < W)%N.
Proof.
  intros HW Hs Hx. destruct (pick_quot odd W w x) as (H1 & H2); [lia..|]. split; [apply samples_quot; lia|]. nia.
Qed.
Lemma at_ext {A} sh (a b : list A) : length a = N.to_nat (prodN sh) -> length b = N.to_nat (prodN sh) ->
  (forall idx, Forall2 (fun i n => (i < n)%N) idx sh -> at_ sh a idx = at_ sh b idx) -> a = b.
Proof.
  intros La Lb He. apply list_eq. intros k. destruct (indices sh !! k) as [idx|] eqn:Ek.
  - rewrite <- !(at_lookup sh _ k idx Ek). apply He. apply elem_of_indices. eapply elem_of_list_lookup_2. exact Ek.
  - apply lookup_ge_None in Ek. rewrite indices_length in Ek. rewrite !lookup_ge_None_2 by lia. reflexivity.
Qed.

Section Img.
Context {T : Type} `{Num T}.
Context (odd : Bits.binary64 -> N) (s : tst T) (img : nat) (u : vten T).

Theorem simple_claim c W H' w h : holds s img u -> vsh u = [c; W; H'] -> fits [c; w; h] -> (0 < W)%N -> (0 < H')%N -> (W * w < 2 ^ 51)%N -> (H' * h < 2 ^ 51)%N ->
  exists (X Y : N -> N) v, (forall x, (x < w)%N -> samples W w x (X x)) /\ (forall y, (y < h)%N -> samples H' h y (Y y)) /\
    returns_new s (SimpleScale odd img w h s) v /\ vsh v = [c; w; h] /\
    forall d x y, (d < c)%N -> (x < w)%N -> (y < h)%N ->
      exists p, at_ (vsh u) (vdata u) [d; X x; Y y] = Some p /\ at_ (vsh v) (vdata v) [d; x; y] = Some p.
Proof using Type.
  intros Hu Es Hf HW HH LW LH. exists (pick odd W w), (pick odd H' h).
  destruct (SimpleScale_picks odd s img u c W H' w h Hu Es Hf) as (v & Hr & Ev & Hv).
  - intros x Hx. apply pick_samples; assumption.
  - intros y Hy. apply pick_samples; assumption.
  - exists v. split; [intros x Hx; apply pick_samples; assumption|]. split; [intros y Hy; apply pick_samples; assumption|]. split; [exact Hr|]. split; [exact Ev|].
    intros d x y Hd Hx Hy. destruct (get_px s img u c W H' Hu Es [c; w; h] [] d (pick odd W w x) (pick odd H' h y)) as (p & Ep & _); [exact Hd|apply pick_samples; assumption..|].
    exists p. split; [exact Ep|]. rewrite Hv by assumption. exact Ep.
Qed.
(** Shrinking by whole factors is exact. *)
Theorem simple_whole_claim c k l w h : holds s img u -> vsh u = [c; k * w; l * h]%N -> (0 < k)%N -> (0 < l)%N -> (k * w < 2 ^ 53)%N -> (l * h < 2 ^ 53)%N ->
  exists v, returns_new s (SimpleScale odd img w h s) v /\ vsh v = [c; w; h] /\
    forall d x y, (d < c)%N -> (x < w)%N -> (y < h)%N -> at_ (vsh v) (vdata v) [d; x; y] = at_ (vsh u) (vdata u) [d; x * k; y * l]%N.
Proof using Type.
  intros Hu Es Hk Hl LW LH.
  assert (Hf : fits [c; w; h]).
  { destruct (holds_exists _ _ _ Hu) as [n Hn]. destruct (holds_data _ _ _ _ Hu Hn) as (_ & _ & _ & _ & _ & Hf). rewrite Es in Hf. revert Hf. unfold fits. cbn [prodN foldr]. intros (F1 & F2).
    assert (Lw : (w <= k * w)%N) by nia. assert (Lh : (h <= l * h)%N) by nia.
    split; [|eapply N.le_lt_trans; [|exact F2]; unfold prodN; cbn [foldr]; apply N.mul_le_mono_l, N.mul_le_mono; [exact Lw|lia]]. inversion F1 as [|? ? A1 F1']; subst. inversion F1' as [|? ? A2 F2']; subst. inversion F2' as [|? ? A3 _]; subst.
    repeat constructor; [exact A1|lia|lia]. }
  destruct (SimpleScale_picks odd s img u c (k * w) (l * h) w h Hu Es Hf) as (v & Hr & Ev & Hv).
  - intros x Hx. rewrite pick_exact by assumption. nia.
  - intros y Hy. rewrite pick_exact by assumption. nia.
  - exists v. split; [exact Hr|]. split; [exact Ev|]. intros d x y Hd Hx Hy. rewrite Hv by assumption. rewrite !pick_exact by assumption. reflexivity.
Qed.
(** Scaling to the size the image has copies it. *)
Theorem simple_same_claim c W H' : holds s img u -> vsh u = [c; W; H'] -> (W < 2 ^ 53)%N -> (H' < 2 ^ 53)%N ->
  returns_new s (SimpleScale odd img W H' s) u.
Proof using Type.
  intros Hu Es LW LH. destruct (simple_whole_claim c 1 1 W H') as (v & Hr & Ev & Hv); try lia; [exact Hu|rewrite !N.mul_1_l; exact Es|].
  assert (E : v = u).
  { destruct Hr as (s' & ext & ops & _ & _ & _ & _ & Hh & _). destruct (holds_exists _ _ _ Hh) as [n Hn]. destruct (holds_data _ _ _ _ Hh Hn) as (_ & _ & _ & _ & Lv & _).
    destruct (holds_exists _ _ _ Hu) as [n' Hn']. destruct (holds_data _ _ _ _ Hu Hn') as (_ & _ & _ & _ & Lu & _).
    destruct v as [shv dv], u as [shu du]. cbn [vsh vdata] in *. subst shv shu. f_equal. apply (at_ext [c; W; H']); [assumption..|].
    intros idx Hi. inversion Hi as [|d ? ? ? Ld H1]; subst. inversion H1 as [|x ? ? ? Lx H2]; subst. inversion H2 as [|y ? ? ? Ly H3]; subst. inversion H3; subst.
    rewrite Hv by assumption. rewrite !N.mul_1_r. reflexivity. }
  rewrite <- E. exact Hr.
Qed.
Theorem simple_not_image_claim w h : holds s img u -> length (vsh u) <> 3 -> refuses s (SimpleScale odd img w h s).
Proof using Type.
  intros Hu Hl. destruct (holds_exists _ _ _ Hu) as [n Hn]. destruct (holds_data _ _ _ _ Hu Hn) as (E & _). exists (ELayer 70).
  unfold SimpleScale. erewrite mbnd_ok by (eapply get_mat_ok; exact Hn). rewrite E. destruct (vsh u) as [|a [|b [|d [|e l]]]]; try reflexivity. exfalso. apply Hl. reflexivity.
Qed.
(** An image without pixels can only be scaled to one without pixels. *)
Theorem simple_empty_claim c W H' w h : holds s img u -> vsh u = [c; W; H'] -> fits [c; w; h] -> (0 < c)%N -> (0 < w)%N -> (0 < h)%N -> W = 0%N \/ H' = 0%N ->
  exists e s', SimpleScale odd img w h s = (Err e, s').
Proof using Type.
  intros Hu Es Hf Hc Hw Hh H0. destruct (holds_exists _ _ _ Hu) as [n Hn]. destruct (holds_data _ _ _ _ Hu Hn) as (E & _).
  destruct (paint_fails s [c; w; h] Hf (fun _ => nzero) (order c w h)
    (fun idx => v <~ Get img [nth 0 idx 0%N; pick odd W w (nth 1 idx 0%N); pick odd H' h (nth 2 idx 0%N)] ; ignore_err (Set_ (length (tens s)) v [nth 0 idx 0%N; nth 1 idx 0%N; nth 2 idx 0%N])) [0; 0; 0]%N) as (e & s' & Ee).
  - apply elem_of_order. exists 0%N, 0%N, 0%N. auto.
  - intros idx D Hi _. apply elem_of_order in Hi as (d & x & y & -> & _). split; [reflexivity|]. right. cbn [nth].
    destruct (no_px s img u c W H' Hu Es [c; w; h] D d (pick odd W w x) (pick odd H' h y)) as (e & G); [lia|]. exists e. unfold mbnd. rewrite G. reflexivity.
  - intros D _. cbn [nth]. destruct (no_px s img u c W H' Hu Es [c; w; h] D 0%N (pick odd W w 0) (pick odd H' h 0)) as (e & G); [lia|]. exists e. unfold mbnd. rewrite G. reflexivity.
  - exists e, s'. unfold SimpleScale. erewrite mbnd_ok by (eapply get_mat_ok; exact Hn). rewrite E, Es. erewrite mbnd_ok by (apply canvas_new; exact Hf).
    unfold mbnd at 1. rewrite (loops c w h (fun d x y => v <~ Get img [d; pick odd W w x; pick odd H' h y] ; ignore_err (Set_ (length (tens s)) v [d; x; y]))), Ee. reflexivity.
Qed.

(** ** SmoothScale *)
Context (to64 : T -> Bits.binary64) (of64 : Bits.binary64 -> T).
Lemma shrink_next W w x : (w < W)%N -> (W * w < 2 ^ 51)%N -> (x < w)%N -> (pick odd W w x + 1 < W)%N.
Proof using Type. intros Hw Hs Hx. destruct (pick_quot odd W w x) as (H1 & _); [lia..|]. nia. Qed.
Lemma grow_next W w : (0 < W)%N -> (W <= w)%N -> (W * w < 2 ^ 51)%N -> (pick odd W w (w - 1) + 1 >= W)%N.
Proof using Type.
  intros HW Hw Hs. destruct (N.eq_dec W w) as [->|Hne].
  - replace (pick odd w w (w - 1)) with (pick odd (1 * w) w (w - 1)) by (rewrite N.mul_1_l; reflexivity). rewrite pick_exact by nia. lia.
  - destruct (pick_quot odd W w (w - 1)) as (_ & H2); [lia..|]. nia.
Qed.
Lemma frac_place W w x : (0 < W)%N -> (W * w < 2 ^ 51)%N -> (x < w)%N ->
  unit (frac odd W w x) /\ (0 <= behind W w x (pick odd W w x) <= 1)%R /\
  near (frac odd W w x) (behind W w x (pick odd W w x)) (IZR (Z.of_N W) * bpow radix2 (-51) + bpow radix2 (-52)).
Proof using Type.
  intros HW Hs Hx. assert (Hw : (0 < w)%N) by lia. destruct (frac_near odd W w x HW Hw Hs Hx) as (U & Nn). split; [exact U|]. split; [|exact Nn].
  destruct (pick_quot odd W w x HW Hw Hs Hx) as (A & B). unfold behind. apply N2Z.inj_le, IZR_le in A, B. rewrite !N2Z.inj_mul, !mult_IZR in A, B. rewrite N2Z.inj_add, plus_IZR in B.
  assert (Hb : (1 <= IZR (Z.of_N w))%R) by (apply IZR_le; lia). change (IZR (Z.of_N 1)) with 1%R in B.
  set (q := IZR (Z.of_N (pick odd W w x))) in *. set (cx := IZR (Z.of_N x)) in *. set (cw := IZR (Z.of_N W)) in *. set (b := IZR (Z.of_N w)) in *.
  assert (E : ((cx * cw / b - q) * b = cx * cw - q * b)%R) by (field; lra). split; (apply Rmult_le_reg_r with b; [lra|]); rewrite E; lra.
Qed.
Theorem smooth_claim c W H' w h : holds s img u -> vsh u = [c; W; H'] -> fits [4; w; h]%N -> (w < W)%N -> (h < H')%N -> (W * w < 2 ^ 51)%N -> (H' * h < 2 ^ 51)%N -> (W < W64)%N -> (H' < W64)%N ->
  exists (X Y : N -> N) v, (forall x, (x < w)%N -> samples W w x (X x)) /\ (forall y, (y < h)%N -> samples H' h y (Y y)) /\
    returns_new s (SmoothScale odd to64 of64 img w h s) v /\ vsh v = [4; w; h]%N /\
    forall d x y, (d < 4)%N -> (x < w)%N -> (y < h)%N ->
      ((d < c)%N -> exists p1 p2 p3 p4 z, at_ (vsh u) (vdata u) [d; X x; Y y] = Some p1 /\ at_ (vsh u) (vdata u) [d; X x + 1; Y y]%N = Some p2 /\
         at_ (vsh u) (vdata u) [d; X x; Y y + 1]%N = Some p3 /\ at_ (vsh u) (vdata u) [d; X x + 1; Y y + 1]%N = Some p4 /\
         at_ (vsh v) (vdata v) [d; x; y] = Some (of64 z) /\
         forall M, (1 <= M <= bpow radix2 1000)%R -> (forall p, p = p1 \/ p = p2 \/ p = p3 \/ p = p4 -> fin64 (to64 p) = true /\ (Rabs (R64 (to64 p)) <= M)%R) ->
           fin64 z = true /\
           (Rabs (R64 z - bilinear (behind W w x (X x)) (behind H' h y (Y y)) (R64 (to64 p1)) (R64 (to64 p2)) (R64 (to64 p3)) (R64 (to64 p4)))
            <= M * (IZR (Z.of_N (W + H')) + 8) * bpow radix2 (-49))%R) /\
      ((c <= d)%N -> at_ (vsh v) (vdata v) [d; x; y] = Some nzero).
Proof using Type.
  intros Hu Es Hf HW HH LW LH BW BH. exists (pick odd W w), (pick odd H' h).
  destruct (SmoothScale_picks odd s img u c W H' w h Hu Es to64 of64 BW BH Hf) as (v & Hr & Ev & Hv).
  { intros x Hx. apply shrink_next; assumption. } { intros y Hy. apply shrink_next; assumption. }
  exists v. split; [intros x Hx; apply pick_samples; lia|]. split; [intros y Hy; apply pick_samples; lia|]. split; [exact Hr|]. split; [exact Ev|].
  intros d x y Hd Hx Hy. rewrite (Hv d x y Hd Hx Hy). split.
  - intros Hc. destruct (N.ltb_spec d c) as [_|Hn]; [|lia]. pose proof (shrink_next W w x HW LW Hx). pose proof (shrink_next H' h y HH LH Hy).
    assert (P : forall X Y, (X < W)%N -> (Y < H')%N -> exists p, at_ (vsh u) (vdata u) [d; X; Y] = Some p).
    { intros X Y HX HY. destruct (get_px s img u c W H' Hu Es [] [] d X Y Hc HX HY) as (p & E & _). eauto. }
    destruct (frac_place W w x ltac:(lia) LW Hx) as (Ux & Dx & Nx). destruct (frac_place H' h y ltac:(lia) LH Hy) as (Uy & Dy & Ny).
    unfold mix, px. cbv zeta. set (X := pick odd W w x) in *. set (Y := pick odd H' h y) in *.
    destruct (P X Y) as (p1 & E1); [lia..|]. destruct (P (X + 1)%N Y) as (p2 & E2); [lia..|]. destruct (P X (Y + 1)%N) as (p3 & E3); [lia..|]. destruct (P (X + 1)%N (Y + 1)%N) as (p4 & E4); [lia..|].
    exists p1, p2, p3, p4. rewrite E1, E2, E3, E4. cbn [default from_option].
    assert (PW : (0 <= IZR (Z.of_N W))%R) by (apply IZR_le; lia). assert (PH : (0 <= IZR (Z.of_N H'))%R) by (apply IZR_le; lia).
    pose proof (bpow_gt_0 radix2 (-51)). pose proof u52_pos.
    destruct (blend_near to64 of64 _ _ _ _ _ _ p1 p2 p3 p4 Ux Uy Nx Ny Dx Dy ltac:(nra) ltac:(nra)) as (z & Ez & Hz).
    exists z. split; [reflexivity|]. split; [reflexivity|]. split; [reflexivity|]. split; [reflexivity|]. split; [f_equal; exact Ez|].
    intros M HM Hp. destruct (Hz M HM Hp) as (Fz & Bz). split; [exact Fz|]. eapply Rle_trans; [exact Bz|]. rewrite N2Z.inj_add, plus_IZR, Rmult_assoc. apply Rmult_le_compat_l; [lra|].
    replace (bpow radix2 (-49)) with (8 * bpow radix2 (-52))%R by (change 8%R with (bpow radix2 3); rewrite <- bpow_plus; reflexivity).
    replace (bpow radix2 (-51)) with (2 * bpow radix2 (-52))%R by (change 2%R with (bpow radix2 1); rewrite <- bpow_plus; reflexivity). nra.
  - intros Hc. destruct (N.ltb_spec d c) as [Hn|_]; [lia|]. reflexivity.
Qed.
Theorem smooth_grow_claim c W H' w h : holds s img u -> vsh u = [c; W; H'] -> fits [4; w; h]%N -> (0 < c)%N -> (0 < W)%N -> (0 < H')%N -> (0 < w)%N -> (0 < h)%N ->
  (W <= w)%N \/ (H' <= h)%N -> (W * w < 2 ^ 51)%N -> (H' * h < 2 ^ 51)%N -> (W < W64)%N -> (H' < W64)%N ->
  exists e s', SmoothScale odd to64 of64 img w h s = (Err e, s').
Proof using Type.
  intros Hu Es Hf Hc HW HH Hw Hh Hg LW LH BW BH.
  apply (SmoothScale_fails odd s img u c W H' w h Hu Es to64 of64 BW BH (w - 1)%N (h - 1)%N); [exact Hf|exact Hc|lia|lia| | |].
  - intros x Hx. apply pick_samples; assumption.
  - intros y Hy. apply pick_samples; assumption.
  - intros (A & B). destruct Hg as [Hg|Hg]; [pose proof (grow_next W w HW Hg LW)|pose proof (grow_next H' h HH Hg LH)]; lia.
Qed.
End Img.
