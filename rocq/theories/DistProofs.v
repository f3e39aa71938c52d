(** * DistProofs: the distance of two slices *)
From Coq Require Import Reals Lra.
From Verif Require Import Base Num NumReal NumIntS ModelTools ModelImg ImgSpec.
From Coq Require Import Lia.

Section Laws.
Context {T : Type} `{Num T} (root : T -> T).
Theorem dist_sizes (a b : list T) : length a <> length b -> exists e, Distant root a b = Err e.
Proof. intros Hl. unfold Distant. destruct (Nat.eqb_spec (length a) (length b)) as [?|_]; [contradiction|]. eexists. reflexivity. Qed.
Theorem dist_sym (Hs : forall x y : T, nmul (nsub x y) (nsub x y) = nmul (nsub y x) (nsub y x)) (a b : list T) :
  length a = length b -> exists d, Distant root a b = Ok d /\ Distant root b a = Ok d.
Proof.
  intros Hl. unfold Distant. rewrite Hl, Nat.eqb_refl. cbn [negb]. eexists. split; [reflexivity|]. f_equal. f_equal. generalize nzero as acc. revert b Hl.
  induction a as [|x a IH]; intros [|y b] Hl acc; try discriminate Hl; [reflexivity|]. cbn [zip_with fold_left fst snd]. rewrite (Hs x y). apply IH. injection Hl as Hl. exact Hl.
Qed.
Theorem dist_same (Hs : forall x y : T, nadd y (nmul (nsub x x) (nsub x x)) = y) (a : list T) : Distant root a a = Ok (root nzero).
Proof.
  unfold Distant. rewrite Nat.eqb_refl. cbn [negb]. do 2 f_equal. generalize nzero as acc. induction a as [|x a IH]; intros acc; [reflexivity|].
  cbn [zip_with fold_left fst snd]. rewrite Hs. apply IH.
Qed.
End Laws.

(** ** Machine integers *)
Lemma int_sym w Hw (x y : intw w) : let N := NumIntS w Hw in nmul (nsub x y) (nsub x y) = nmul (nsub y x) (nsub y x).
Proof.
  cbn. apply intw_eq. rewrite !mk_val. destruct (wrapZ_congr w (ival x - ival y) Hw) as (k & ->). destruct (wrapZ_congr w (ival y - ival x) Hw) as (l & ->).
  unfold wrapZ. f_equal. set (m := (2 ^ w)%Z). set (p := ival x). set (q := ival y).
  replace ((p - q + k * m) * (p - q + k * m) + 2 ^ (w - 1))%Z with ((p - q) * (p - q) + 2 ^ (w - 1) + (2 * (p - q) * k + k * k * m) * m)%Z by ring.
  replace ((q - p + l * m) * (q - p + l * m) + 2 ^ (w - 1))%Z with ((p - q) * (p - q) + 2 ^ (w - 1) + (2 * (q - p) * l + l * l * m) * m)%Z by ring.
  assert (Hm : (m <> 0)%Z) by (unfold m; pose proof (Z.pow_pos_nonneg 2 w); lia). rewrite !Z_mod_plus_full. reflexivity.
Qed.
Lemma int_same w Hw (x y : intw w) : let N := NumIntS w Hw in nadd y (nmul (nsub x x) (nsub x x)) = y.
Proof. cbn. apply intw_eq. rewrite !mk_val. rewrite Z.sub_diag, (wrapZ_0 w Hw), Z.mul_0_l, (wrapZ_0 w Hw), Z.add_0_r. apply Z.eqb_eq. exact (iok y). Qed.

(** ** Exact arithmetic *)
Open Scope R_scope.
Notation sqrt := R_sqrt.sqrt (only parsing).
Lemma fold_sq (l : list (R * R)) acc : fold_left (fun d ab => d + (fst ab - snd ab) * (fst ab - snd ab)) l acc = acc + sumsq l.
Proof. revert acc. induction l as [|[x y] l IH]; intros acc; cbn [fold_left fst snd]; [unfold sumsq; cbn [foldr]; lra|]. rewrite IH. unfold sumsq. cbn [foldr fst snd]. fold (sumsq l). ring. Qed.
Lemma Distant_R (a b : list R) : length a = length b -> @Distant R NumR sqrt a b = Ok (euclid a b).
Proof.
  intros Hl. unfold Distant. rewrite Hl, Nat.eqb_refl. cbn [negb]. f_equal. unfold euclid. f_equal. cbn [nadd nmul nsub nzero NumR]. rewrite fold_sq. lra.
Qed.
Lemma sumsq_nonneg l : 0 <= sumsq l.
Proof. induction l as [|[x y] l IH]; unfold sumsq; cbn [foldr]; [lra|]. fold (sumsq l). cbn [fst snd]. pose proof (Rle_0_sqr (x - y)) as Hq. unfold Rsqr in Hq. lra. Qed.
Lemma euclid_zero a b : length a = length b -> euclid a b = 0 -> a = b.
Proof.
  unfold euclid. intros Hl E. apply sqrt_eq_0 in E; [|apply sumsq_nonneg]. revert b Hl E. induction a as [|x a IH]; intros [|y b] Hl E; try discriminate Hl; [reflexivity|].
  unfold sumsq in E. cbn [zip_with foldr fst snd] in E. fold (sumsq (zip a b)) in E. pose proof (sumsq_nonneg (zip a b)). injection Hl as Hl.
  pose proof (Rle_0_sqr (x - y)) as Hq. unfold Rsqr in Hq. assert (x - y = 0) by (apply Rsqr_0_uniq; unfold Rsqr; lra). assert (sumsq (zip a b) = 0) by lra. f_equal; [lra|]. apply IH; assumption.
Qed.
Lemma minkowski p q a b : 0 <= p -> 0 <= q -> sqrt ((p + q) * (p + q) + (a + b) * (a + b)) <= sqrt (p * p + a * a) + sqrt (q * q + b * b).
Proof.
  intros Hp Hq. set (A := sqrt (p * p + a * a)). set (B := sqrt (q * q + b * b)).
  assert (HA : 0 <= A) by apply sqrt_pos. assert (HB : 0 <= B) by apply sqrt_pos.
  assert (EA : A * A = p * p + a * a) by (apply sqrt_sqrt; nra). assert (EB : B * B = q * q + b * b) by (apply sqrt_sqrt; nra).
  assert (AB : p * q + a * b <= A * B).
  { destruct (Rle_dec (p * q + a * b) 0) as [?|Hn]; [nra|]. apply Rsqr_incr_0_var; [|nra]. unfold Rsqr.
    replace (A * B * (A * B)) with ((A * A) * (B * B)) by ring. rewrite EA, EB. pose proof (Rle_0_sqr (p * b - a * q)) as Hc. unfold Rsqr in Hc. nra. }
  rewrite <- (sqrt_square (A + B)) by lra. apply sqrt_le_1_alt. nra.
Qed.
Lemma euclid_tri a b c : length a = length b -> length b = length c -> euclid a c <= euclid a b + euclid b c.
Proof.
  revert b c. induction a as [|x a IH]; intros [|y b] [|z c] H1 H2; try discriminate; [unfold euclid; cbn; rewrite sqrt_0; lra|].
  injection H1 as H1. injection H2 as H2. specialize (IH b c H1 H2). unfold euclid in *. cbn [zip_with]. unfold sumsq. cbn [foldr fst snd].
  fold (sumsq (zip a b)). fold (sumsq (zip b c)). fold (sumsq (zip a c)).
  pose proof (sumsq_nonneg (zip a b)) as S1. pose proof (sumsq_nonneg (zip b c)) as S2. pose proof (sumsq_nonneg (zip a c)) as S3.
  set (p := sqrt (sumsq (zip a b))) in *. set (q := sqrt (sumsq (zip b c))) in *.
  assert (Ep : sumsq (zip a b) = p * p) by (symmetry; apply sqrt_sqrt; assumption). assert (Eq : sumsq (zip b c) = q * q) by (symmetry; apply sqrt_sqrt; assumption).
  rewrite Ep, Eq. replace ((x - y) * (x - y) + p * p) with (p * p + (x - y) * (x - y)) by ring. replace ((y - z) * (y - z) + q * q) with (q * q + (y - z) * (y - z)) by ring.
  eapply Rle_trans; [|apply minkowski; apply sqrt_pos]. apply sqrt_le_1_alt. replace (x - y + (y - z)) with (x - z) by ring.
  assert (sumsq (zip a c) <= (p + q) * (p + q)); [|lra].
  rewrite <- (sqrt_sqrt (sumsq (zip a c))) by assumption. apply Rmult_le_compat; try apply sqrt_pos; assumption.
Qed.
Theorem dist_metric (a b c : list R) : length a = length b -> length b = length c ->
  @Distant R NumR sqrt a b = Ok (euclid a b) /\ @Distant R NumR sqrt b a = Ok (euclid a b) /\
  0 <= euclid a b /\ (euclid a b = 0 <-> a = b) /\ euclid a c <= euclid a b + euclid b c.
Proof.
  intros H1 H2. split; [apply Distant_R; exact H1|]. split.
  - destruct (@dist_sym R NumR sqrt) with (a := a) (b := b) as (d & E1 & E2); [intros x y; cbn; ring|exact H1|]. rewrite (Distant_R a b H1) in E1. congruence.
  - split; [apply sqrt_pos|]. split; [|apply euclid_tri; assumption]. split; [apply euclid_zero; exact H1|]. intros <-.
    assert (E : Ok (euclid a a) = Ok (sqrt 0)); [|injection E as ->; apply sqrt_0]. rewrite <- (Distant_R a a eq_refl). apply (@dist_same R NumR sqrt). intros x y. cbn. ring.
Qed.
