(** * FwdTotal: when the layers of a network have a value

    About the specification only. *)
From Verif Require Import Base Num Spec NetSpec FwdSpec IndexProofs TensorFacts EagerProofs EagerOps BuildProofs.
From Coq Require Import Lia ZifyBool ZifyNat ZifyN.

Section FwdTotal.
Context {T : Type} `{Num T}.

(** A tensor of shape [sh] with all its elements. *)
Definition shaped (sh : list N) (v : vten T) : Prop := vsh v = sh /\ length (vdata v) = N.to_nat (prodN sh).

(** What a layer needs besides fitting its input: a convolution needs a channel, a
    pooling window that cannot lie outside the image, a normalisation something
    to look at and a division that never fails. *)
Definition runs (l : lspec T) (sh : list N) : Prop :=
  match l with
  | SConv _ _ _ _ _ _ => match sh with c :: _ => (0 < c)%N | [] => False end
  | SPool sx sy => (2 <= sx)%N /\ (2 <= sy)%N
  | SNorm _ _ | SSoft => (0 < prodN sh)%N /\ forall a b : T, ndiv a b <> None
  | _ => True
  end.

Lemma tabulate_shaped sh (G : list N -> option T) :
  (forall idx, Forall2 (fun i m => (i < m)%N) idx sh -> exists x, G idx = Some x) -> exists v, tabulate sh G = Some v /\ shaped sh v.
Proof using Type.
  intros Hg. destruct (tabulate_total sh G Hg) as [v Hv]. exists v. split; [exact Hv|]. unfold tabulate in Hv.
  destruct (mapM G (indices sh)) as [d|] eqn:E; [|discriminate]. injection Hv as <-. split; [reflexivity|]. cbn [vdata].
  rewrite <- (mapM_length _ _ _ E). apply indices_length.
Qed.
Lemma fold1_some {A} (f : T -> T -> T) (g : A -> T) l : l <> [] -> exists x, fold1 f (map g l) = Some x.
Proof using Type. destruct l; [congruence|]. cbn. eauto. Qed.
Lemma fold1_ne (f : T -> T -> T) l : l <> [] -> exists x, fold1 f l = Some x.
Proof using Type. destruct l; [congruence|]. cbn. eauto. Qed.
Lemma mapM_ne {A B} (f : A -> option B) l l' : mapM f l = Some l' -> l <> [] -> l' <> [].
Proof using Type. intros E Hl ->. apply mapM_length in E. destruct l; [congruence|discriminate]. Qed.
Lemma indices_ne sh : (0 < prodN sh)%N -> indices sh <> [].
Proof using Type. intros Hp E. pose proof (indices_length sh) as Hl. rewrite E in Hl. cbn in Hl. lia. Qed.
Lemma bind_total {A B C} (f : A -> option B) l (k : list B -> option C) (P : C -> Prop) :
  (forall x, x ∈ l -> exists y, f x = Some y) -> (forall l', mapM f l = Some l' -> exists z, k l' = Some z /\ P z) -> exists z, (l' ← mapM f l; k l') = Some z /\ P z.
Proof using Type. intros Hf Hk. destruct (mapM_total f l Hf) as [l' E]. rewrite E. apply Hk. exact E. Qed.
Lemma bind_total' {A B C} (f : A -> option B) l (k : list B -> option C) :
  (forall x, x ∈ l -> exists y, f x = Some y) -> (forall l', mapM f l = Some l' -> exists z, k l' = Some z) -> exists z, (l' ← mapM f l; k l') = Some z.
Proof using Type. intros Hf Hk. destruct (mapM_total f l Hf) as [l' E]. rewrite E. apply Hk. exact E. Qed.
Lemma F3 (a b c : N) x y z : (a < x)%N -> (b < y)%N -> (c < z)%N -> Forall2 (fun i m => (i < m)%N) [a; b; c] [x; y; z].
Proof using Type. repeat constructor; assumption. Qed.
Lemma F4 (a b c d : N) x y z u : (a < x)%N -> (b < y)%N -> (c < z)%N -> (d < u)%N -> Forall2 (fun i m => (i < m)%N) [a; b; c; d] [x; y; z; u].
Proof using Type. repeat constructor; assumption. Qed.
Ltac inv3 H := let a := fresh "F" in let b := fresh "X" in let c := fresh "Y" in
  apply Forall2_cons_inv_r in H as (a & ? & ? & H & ->); apply Forall2_cons_inv_r in H as (b & ? & ? & H & ->);
  apply Forall2_cons_inv_r in H as (c & ? & ? & H & ->); apply Forall2_nil_inv_r in H as ->.

Lemma conv_pos k s W0 X : (0 < k <= W0 -> 0 < s -> (X < (W0 - k) / s + 1 <-> X * s + k <= W0))%N.
Proof using Type.
  clear. intros Hk Hs. split; intros Hx.
  - assert (X <= (W0 - k) / s)%N by lia. pose proof (N.mul_div_le (W0 - k) s ltac:(lia)). nia.
  - assert (X <= (W0 - k) / s)%N; [|lia]. apply N.div_le_lower_bound; lia.
Qed.
Lemma window_first sx sy w h X Y : (2 <= sx)%N -> (2 <= sy)%N -> (X < (w + 1) / sx)%N -> (Y < (h + 1) / sy)%N -> (X * sx, Y * sy)%N ∈ window sx sy w h X Y.
Proof using Type.
  clear. intros Hx Hy HX HY. unfold window. apply elem_of_list_In, filter_In. cbn [fst snd].
  assert (forall s m Z, 2 <= s -> Z < (m + 1) / s -> Z * s < m)%N as Hlt.
  { intros s m Z Hs HZ. pose proof (N.mul_div_le (m + 1) s ltac:(lia)). nia. }
  split; [|pose proof (Hlt sx w X Hx HX); pose proof (Hlt sy h Y Hy HY); lia].
  apply in_flat_map. exists 0%N. split.
  - apply elem_of_list_In. unfold upto. apply elem_of_list_fmap. exists 0. split; [reflexivity|]. apply elem_of_seq. lia.
  - apply in_map_iff. exists 0%N. split; [f_equal; lia|]. apply elem_of_list_In. unfold upto. apply elem_of_list_fmap. exists 0. split; [reflexivity|]. apply elem_of_seq. lia.
Qed.
Lemma window_in sx sy w h X Y p : p ∈ window sx sy w h X Y -> (fst p < w)%N /\ (snd p < h)%N.
Proof using Type. clear. unfold window. intros Hp. apply elem_of_list_In, filter_In in Hp as [_ Hp]. lia. Qed.

Lemma lay_total (l : lspec T) sh out p x :
  lay_shape l sh = Some out -> shaped sh x -> runs l sh ->
  (forall bs ws, par_shape l sh = Some (bs, ws) -> exists b w, p = Some (b, w) /\ shaped bs b /\ shaped ws w) ->
  exists y, lay_val l p x = Some y /\ shaped out y.
Proof using Type.
  intros Hls [Hxs Hxl] Hr Hp. destruct l as [o f|nf kw kh sx sy f|nf kw kh sx sy f|sx sy|sx sy| |mn mx| |d s t]; cbn [lay_shape lay_val runs par_shape] in *.
  - destruct (fitsb [o] && fitsb [o; prodN sh]); [|discriminate]. injection Hls as <-. destruct (Hp _ _ eq_refl) as (b & w & -> & [Hbs Hbl] & [Hws Hwl]). cbn [mbind option_bind].
    unfold v_dense. rewrite Hbs. apply tabulate_shaped. intros idx Hi. apply Forall2_cons_inv_r in Hi as (i & ? & Hil & Hi & ->). apply Forall2_nil_inv_r in Hi as ->. cbn [head mbind option_bind].
    apply bind_total'.
    + intros j Hj. unfold upto in Hj. apply elem_of_list_fmap in Hj as (j' & -> & Hj). apply elem_of_seq in Hj.
      destruct (lookup_lt_is_Some_2 (vdata x) (N.to_nat (N.of_nat j'))) as [xj ->]; [lia|]. cbn [mbind option_bind].
      destruct (at_total (vsh w) (vdata w) [i; N.of_nat j']) as [wj ->]; [congruence|rewrite Hws; repeat constructor; lia|]. cbn. eauto.
    + intros l Hl. destruct (at_total [o] (vdata b) [i]) as [bi ->]; [exact Hbl|repeat constructor; lia|]. cbn. eauto.
  - destruct sh as [|c [|w0 [|h0 []]]]; try discriminate. destruct (_ && _) eqn:Ec in Hls; [|discriminate]. injection Hls as <-. destruct (Hp _ _ eq_refl) as (b & w & -> & [Hbs Hbl] & [Hws Hwl]). cbn [mbind option_bind].
    unfold v_conv. rewrite Hbs. apply tabulate_shaped. intros idx Hi. unfold conv_shape in Hi. inv3 Hi. rewrite Hxs. cbn [nth].
    assert (Hkw : (0 < kw <= w0)%N /\ (0 < kh <= h0)%N /\ (0 < sx)%N /\ (0 < sy)%N) by lia.
    apply bind_total'.
    + intros k Hk. apply elem_of_indices in Hk. inv3 Hk.
      cbn beta iota. rename F0 into c1, X0 into i1, Y0 into j1.
      assert (X * sx + kw <= w0)%N by (apply conv_pos; lia). assert (Y * sy + kh <= h0)%N by (apply conv_pos; lia).
      destruct (at_total [c; w0; h0] (vdata x) [c1; X * sx + i1; Y * sy + j1]%N) as [u ->]; [exact Hxl|apply F3; lia|]. cbn [mbind option_bind].
      rewrite Hws. destruct (at_total [nf; c; kw; kh] (vdata w) [F; c1; i1; j1]) as [q ->]; [exact Hwl|apply F4; lia|]. cbn. eauto.
    + intros l Hl. destruct (fold1_ne nadd l) as [s Es].
      { eapply mapM_ne; [exact Hl|]. apply indices_ne. cbn. lia. }
      rewrite Es. cbn [mbind option_bind]. destruct (at_total (conv_shape nf kw kh sx sy w0 h0) (vdata b) [F; X; Y]) as [bv ->]; [exact Hbl|apply F3; assumption|]. cbn. eauto.
  - destruct sh as [|c [|w0 [|h0 []]]]; try discriminate. destruct (_ && _) eqn:Ec in Hls; [|discriminate]. injection Hls as <-. destruct (Hp _ _ eq_refl) as (b & w & -> & [Hbs Hbl] & [Hws Hwl]). cbn [mbind option_bind].
    unfold v_deconv. rewrite Hbs. apply tabulate_shaped. intros idx Hi. unfold deconv_shape in Hi. inv3 Hi. rewrite Hxs.
    apply bind_total'.
    + intros k Hk. apply elem_of_list_In, filter_In in Hk as [Hk _]. apply elem_of_list_In, elem_of_indices in Hk. cbn [app] in Hk.
      apply Forall2_cons_inv_r in Hk as (c1 & ? & ? & Hk & ->). apply Forall2_cons_inv_r in Hk as (i1 & ? & ? & Hk & ->). inv3 Hk.
      cbn beta iota. rename F0 into j1, X0 into u1, Y0 into v1.
      destruct (at_total [c; w0; h0] (vdata x) [c1; i1; j1]%N) as [u ->]; [exact Hxl|apply F3; lia|]. cbn [mbind option_bind].
      rewrite Hws. destruct (at_total [nf; c; kw; kh] (vdata w) [F; c1; u1; v1]) as [q ->]; [exact Hwl|apply F4; lia|]. cbn. eauto.
    + intros l Hl. destruct (at_total (deconv_shape nf kw kh sx sy w0 h0) (vdata b) [F; X; Y]) as [bv ->]; [exact Hbl|apply F3; assumption|]. cbn. eauto.
  - destruct sh as [|c [|w0 [|h0 []]]]; try discriminate. destruct (_ && _) eqn:Ec in Hls; [|discriminate]. injection Hls as <-. unfold v_pool. rewrite Hxs.
    apply tabulate_shaped. intros idx Hi. inv3 Hi. destruct Hr as [Hr1 Hr2].
    apply bind_total'.
    + intros k Hk. apply window_in in Hk as [Hw1 Hw2]. apply at_total; [exact Hxl|apply F3; assumption].
    + intros l Hl. unfold reduce. apply fold1_ne. eapply mapM_ne; [exact Hl|]. intros E. pose proof (window_first sx sy w0 h0 X Y Hr1 Hr2 ltac:(assumption) ltac:(assumption)) as Hw. rewrite E in Hw. inversion Hw.
  - destruct sh as [|c [|w0 [|h0 []]]]; try discriminate. unfold fit in Hls. destruct (fitsb _); [|discriminate]. injection Hls as <-. unfold v_up. rewrite Hxs.
    apply tabulate_shaped. intros idx Hi. inv3 Hi. apply at_total; [exact Hxl|]. apply F3; [assumption| |]; apply N.div_lt_upper_bound; nia.
  - injection Hls as <-. eexists. split; [reflexivity|]. split; cbn; [rewrite Hxs; reflexivity|]. rewrite Hxl. cbn. lia.
  - injection Hls as <-. destruct Hr as [Hpos Hdiv]. unfold v_norm. unfold reduce. destruct (fold1_some (fun m x => if nltb m x then x else m) absv (vdata x)) as [m ->]; [intros E; rewrite E in Hxl; cbn in Hxl; lia|]. cbn [mbind option_bind].
    apply bind_total.
    + intros a _. specialize (Hdiv a m). destruct (ndiv a m); [|congruence]. cbn. eauto.
    + intros l Hl. eexists. split; [reflexivity|]. split; cbn; [assumption|]. rewrite <- (mapM_length _ _ _ Hl). exact Hxl.
  - injection Hls as <-. destruct Hr as [Hpos Hdiv]. unfold v_soft, v_soft_with, reduce. assert (Hne : vdata x <> []) by (intros E; rewrite E in Hxl; cbn in Hxl; lia).
    destruct (fold1_ne (fun m x => if nltb x m then x else m) (vdata x) Hne) as [m ->]. cbn [mbind option_bind].
    destruct (fold1_some nadd (fun x => nsub x m) (vdata x) Hne) as [q ->]. cbn [mbind option_bind].
    apply bind_total.
    + intros a _. specialize (Hdiv a q). destruct (ndiv a q); [|congruence]. eauto.
    + intros l Hl. eexists. split; [reflexivity|]. split; cbn; [assumption|]. rewrite <- (mapM_length _ _ _ Hl), map_length. exact Hxl.
  - destruct (sh !! N.to_nat d) as [m|] eqn:Em; [|discriminate]. cbn [mbind option_bind] in Hls. destruct (_ && _) eqn:Ec in Hls; [|discriminate]. unfold fit in Hls. destruct (fitsb _); [|discriminate]. injection Hls as <-.
    unfold v_sub. rewrite Hxs. apply tabulate_shaped. intros idx Hi. destruct (sub_coord sh _ s t idx m Em ltac:(lia) Hi) as (c & _ & _ & -> & Hin). apply at_total; [exact Hxl|exact Hin].
Qed.

Lemma concat_total sa sb na nb d (x y : vten T) : sa !! d = Some na -> sb !! d = Some nb -> <[d := nb]> sa = sb -> shaped sa x -> shaped sb y ->
  exists z, v_concat x y d = Some z /\ shaped (<[d := (na + nb)%N]> sa) z.
Proof using Type.
  intros Ha Hb Hab [Hxs Hxl] [Hys Hyl]. unfold v_concat. rewrite Hxs, Hys, Ha, Hb. apply tabulate_shaped. intros idx Hi.
  pose proof (lookup_lt_Some _ _ _ Ha) as Hdl. destruct (Forall2_lt_coord _ _ _ _ Hi Hdl) as (c & Hcd & Hlt). rewrite Hcd.
  destruct (c <? na)%N eqn:Ec.
  - apply at_total; [exact Hxl|]. assert (idx = <[d := c]> idx) as -> by (symmetry; apply list_insert_id; exact Hcd). eapply Forall2_lt_insert; [exact Hi|exact Ha|lia].
  - apply at_total; [exact Hyl|]. unfold on_coord. rewrite (alter_insert (fun c => (c - na)%N) _ _ _ Hcd). eapply (Forall2_lt_insert _ sb); [|exact Hb|lia].
    instantiate (1 := (na + nb)%N). rewrite <- Hab, list_insert_insert. exact Hi.
Qed.

(** ** Networks *)
(** Every layer of the network has what it needs. *)
Fixpoint net_runs (ish : nat -> option (list N)) (e : net T) : Prop :=
  match e with
  | NIn _ => True
  | NLay l _ e0 => net_runs ish e0 /\ forall sh, nshape ish e0 = Some sh -> runs l sh
  | NCat _ a b _ => net_runs ish a /\ net_runs ish b
  end.
Lemma nval_total (ish : nat -> option (list N)) (inp : nat -> option (vten T)) par (e : net T) :
  (forall p sh, p ∈ ins e -> ish p = Some sh -> exists v, inp p = Some v /\ shaped sh v) ->
  (forall l k e0 bs ws, NLay l k e0 ∈ subs e -> top_par ish (NLay l k e0) = Some (bs, ws) -> exists b w, par k = Some (b, w) /\ shaped bs b /\ shaped ws w) ->
  net_runs ish e -> forall sh, nshape ish e = Some sh -> exists y, nval inp par e = Some y /\ shaped sh y.
Proof using Type.
  induction e as [t|l i e IH|i a IHa b IHb d]; intros Hin Hpar Hr sh Hsh; cbn [nshape nval ins subs net_runs] in *.
  - destruct (ish t) as [sh0|] eqn:E; [|discriminate]. cbn [mbind option_bind] in Hsh. unfold fit in Hsh. destruct (fitsb sh0); [|discriminate]. injection Hsh as <-. apply Hin; [left|exact E].
  - destruct (nshape ish e) as [sh0|] eqn:E; [|discriminate]. cbn [mbind option_bind] in Hsh. destruct Hr as [Hr Hrl].
    destruct (IH Hin ltac:(intros; eapply Hpar; [right; eassumption|assumption]) Hr sh0 eq_refl) as (x & -> & Hx). cbn [mbind option_bind].
    eapply lay_total; [exact Hsh|exact Hx|auto|]. intros bs ws Hps. eapply Hpar; [left|]. cbn [top_par]. rewrite E. exact Hps.
  - destruct (nshape ish a) as [sa|] eqn:Ea; [|discriminate]. destruct (nshape ish b) as [sb|] eqn:Eb; [|discriminate]. cbn [mbind option_bind] in Hsh.
    destruct (sa !! N.to_nat d) as [na|] eqn:Hna; [|discriminate]. destruct (sb !! N.to_nat d) as [nb|] eqn:Hnb; [|discriminate]. cbn [mbind option_bind] in Hsh.
    destruct (decide _) as [Hab|]; [|discriminate]. unfold fit in Hsh. destruct (fitsb _); [|discriminate]. injection Hsh as <-. destruct Hr as [Hra Hrb].
    destruct (IHa ltac:(intros; eapply Hin; [apply elem_of_app; left; eassumption|assumption]) ltac:(intros; eapply Hpar; [right; apply elem_of_app; left; eassumption|assumption]) Hra sa eq_refl) as (x & -> & Hx).
    destruct (IHb ltac:(intros; eapply Hin; [apply elem_of_app; right; eassumption|assumption]) ltac:(intros; eapply Hpar; [right; apply elem_of_app; right; eassumption|assumption]) Hrb sb eq_refl) as (y & -> & Hy).
    cbn [mbind option_bind]. eapply concat_total; eassumption.
Qed.
Lemma drawn_shaped rnd sh (v : vten T) : drawn rnd sh v -> shaped sh v.
Proof using Type. intros [c ->]. split; [reflexivity|]. cbn. rewrite map_length, seq_length. reflexivity. Qed.
Lemma zeros_shaped sh : shaped sh (V sh (replicate (N.to_nat (prodN sh)) (nzero (T:=T)))).
Proof using Type. split; [reflexivity|]. cbn. apply replicate_length. Qed.

(** What has a value has the right shape. *)
Lemma tabulate_is sh (G : list N -> option T) v : tabulate sh G = Some v -> shaped sh v.
Proof using Type.
  unfold tabulate. destruct (mapM G (indices sh)) as [d|] eqn:E; [|discriminate]. intros [= <-]. split; [reflexivity|]. cbn [vdata].
  rewrite <- (mapM_length _ _ _ E). apply indices_length.
Qed.
Lemma lay_shaped (l : lspec T) sh out p x y :
  lay_shape l sh = Some out -> shaped sh x -> (forall bs ws, par_shape l sh = Some (bs, ws) -> exists b w, p = Some (b, w) /\ shaped bs b /\ shaped ws w) ->
  lay_val l p x = Some y -> shaped out y.
Proof using Type.
  intros Hls [Hxs Hxl] Hp Hy. destruct l as [o f|nf kw kh sx sy f|nf kw kh sx sy f|sx sy|sx sy| |mn mx| |d s t]; cbn [lay_shape lay_val par_shape] in *.
  - destruct (fitsb [o] && fitsb [o; prodN sh]); [|discriminate]. injection Hls as <-. destruct (Hp _ _ eq_refl) as (b & w & -> & [Hbs Hbl] & _). cbn [mbind option_bind] in Hy.
    apply tabulate_is in Hy. rewrite Hbs in Hy. exact Hy.
  - destruct sh as [|c [|w0 [|h0 []]]]; try discriminate. destruct (_ && _) eqn:Ec in Hls; [|discriminate]. injection Hls as <-. destruct (Hp _ _ eq_refl) as (b & w & -> & [Hbs Hbl] & _). cbn [mbind option_bind] in Hy.
    apply tabulate_is in Hy. rewrite Hbs in Hy. exact Hy.
  - destruct sh as [|c [|w0 [|h0 []]]]; try discriminate. destruct (_ && _) eqn:Ec in Hls; [|discriminate]. injection Hls as <-. destruct (Hp _ _ eq_refl) as (b & w & -> & [Hbs Hbl] & _). cbn [mbind option_bind] in Hy.
    apply tabulate_is in Hy. rewrite Hbs in Hy. exact Hy.
  - destruct sh as [|c [|w0 [|h0 []]]]; try discriminate. destruct (_ && _) eqn:Ec in Hls; [|discriminate]. injection Hls as <-. unfold v_pool in Hy. rewrite Hxs in Hy. apply tabulate_is in Hy. exact Hy.
  - destruct sh as [|c [|w0 [|h0 []]]]; try discriminate. unfold fit in Hls. destruct (fitsb _); [|discriminate]. injection Hls as <-. unfold v_up in Hy. rewrite Hxs in Hy. apply tabulate_is in Hy. exact Hy.
  - injection Hls as <-. injection Hy as <-. split; cbn; [rewrite Hxs; reflexivity|]. rewrite Hxl. cbn. lia.
  - injection Hls as <-. unfold v_norm in Hy. apply bind_Some in Hy as (m & _ & Hy). apply bind_Some in Hy as (l & Hl & [= <-]). split; [exact Hxs|]. cbn. rewrite <- (mapM_length _ _ _ Hl). exact Hxl.
  - injection Hls as <-. unfold v_soft, v_soft_with in Hy. apply bind_Some in Hy as (m & _ & Hy). apply bind_Some in Hy as (q & _ & Hy). apply bind_Some in Hy as (l & Hl & [= <-]).
    split; [exact Hxs|]. cbn. rewrite <- (mapM_length _ _ _ Hl), map_length. exact Hxl.
  - destruct (sh !! N.to_nat d) as [m|] eqn:Em; [|discriminate]. cbn [mbind option_bind] in Hls. destruct (_ && _) eqn:Ec in Hls; [|discriminate]. unfold fit in Hls. destruct (fitsb _); [|discriminate]. injection Hls as <-.
    unfold v_sub in Hy. rewrite Hxs in Hy. apply tabulate_is in Hy. exact Hy.
Qed.
Lemma nval_shaped (ish : nat -> option (list N)) (inp : nat -> option (vten T)) par (e : net T) :
  (forall p sh, p ∈ ins e -> ish p = Some sh -> exists v, inp p = Some v /\ shaped sh v) ->
  (forall l k e0 bs ws, NLay l k e0 ∈ subs e -> top_par ish (NLay l k e0) = Some (bs, ws) -> exists b w, par k = Some (b, w) /\ shaped bs b /\ shaped ws w) ->
  forall sh y, nshape ish e = Some sh -> nval inp par e = Some y -> shaped sh y.
Proof using Type.
  induction e as [t|l i e IH|i a IHa b IHb d]; intros Hin Hpar sh y Hsh Hy; cbn [nshape nval ins subs] in *.
  - destruct (ish t) as [sh0|] eqn:E; [|discriminate]. cbn [mbind option_bind] in Hsh. unfold fit in Hsh. destruct (fitsb sh0); [|discriminate]. injection Hsh as <-.
    destruct (Hin t sh0 ltac:(left) E) as (v & Hv & Hs). rewrite Hv in Hy. injection Hy as <-. exact Hs.
  - destruct (nshape ish e) as [sh0|] eqn:E; [|discriminate]. cbn [mbind option_bind] in Hsh. apply bind_Some in Hy as (x & Hx & Hy).
    pose proof (IH Hin ltac:(intros; eapply Hpar; [right; eassumption|assumption]) sh0 x eq_refl Hx) as Hxs.
    eapply lay_shaped; [exact Hsh|exact Hxs| |exact Hy]. intros bs ws Hps. eapply Hpar; [left|]. cbn [top_par]. rewrite E. exact Hps.
  - destruct (nshape ish a) as [sa|] eqn:Ea; [|discriminate]. destruct (nshape ish b) as [sb|] eqn:Eb; [|discriminate]. cbn [mbind option_bind] in Hsh.
    destruct (sa !! N.to_nat d) as [na|] eqn:Hna; [|discriminate]. destruct (sb !! N.to_nat d) as [nb|] eqn:Hnb; [|discriminate]. cbn [mbind option_bind] in Hsh.
    destruct (decide _) as [Hab|]; [|discriminate]. unfold fit in Hsh. destruct (fitsb _); [|discriminate]. injection Hsh as <-.
    apply bind_Some in Hy as (x & Hx & Hy). apply bind_Some in Hy as (z & Hz & Hy).
    destruct (IHa ltac:(intros; eapply Hin; [apply elem_of_app; left; eassumption|assumption]) ltac:(intros; eapply Hpar; [right; apply elem_of_app; left; eassumption|assumption]) sa x eq_refl Hx) as [Hxs _].
    destruct (IHb ltac:(intros; eapply Hin; [apply elem_of_app; right; eassumption|assumption]) ltac:(intros; eapply Hpar; [right; apply elem_of_app; right; eassumption|assumption]) sb z eq_refl Hz) as [Hzs _].
    unfold v_concat in Hy. rewrite Hxs, Hzs, Hna, Hnb in Hy. apply tabulate_is in Hy. exact Hy.
Qed.

(** ** Windows of a pooling layer *)
Lemma window_spec sx sy w h X Y x y : (x, y) ∈ window sx sy w h X Y <-> (x < w)%N /\ (y < h)%N /\ (X * sx <= x < X * sx + sx)%N /\ (Y * sy <= y < Y * sy + sy)%N.
Proof using Type.
  clear. unfold window. rewrite elem_of_list_In, filter_In, in_flat_map. cbn [fst snd]. split.
  - intros [(i & Hi & Hj) Hb]. apply in_map_iff in Hj as (j & [= <- <-] & Hj). apply elem_of_list_In in Hi, Hj. unfold upto in Hi, Hj.
    apply elem_of_list_fmap in Hi as (i' & -> & Hi). apply elem_of_list_fmap in Hj as (j' & -> & Hj). apply elem_of_seq in Hi, Hj. lia.
  - intros (Hx & Hy & HX & HY). split; [|lia]. exists (x - X * sx)%N. split.
    + apply elem_of_list_In. unfold upto. apply elem_of_list_fmap. exists (N.to_nat (x - X * sx)). split; [lia|]. apply elem_of_seq. lia.
    + apply in_map_iff. exists (y - Y * sy)%N. split; [f_equal; lia|]. apply elem_of_list_In. unfold upto. apply elem_of_list_fmap. exists (N.to_nat (y - Y * sy)). split; [lia|]. apply elem_of_seq. lia.
Qed.
(** With stride 2 every cell lies in a window of the output. *)
Lemma window_cover w h x y : (x < w)%N -> (y < h)%N -> exists X Y, (X < (w + 1) / 2)%N /\ (Y < (h + 1) / 2)%N /\ (x, y) ∈ window 2 2 w h X Y.
Proof using Type.
  clear. intros Hx Hy. exists (x / 2)%N, (y / 2)%N.
  assert (forall a b, a < b -> a / 2 < (b + 1) / 2)%N as Hd.
  { intros a b Hab. pose proof (N.div_mod a 2 ltac:(lia)). pose proof (N.mod_lt a 2 ltac:(lia)). pose proof (N.div_mod (b + 1) 2 ltac:(lia)). pose proof (N.mod_lt (b + 1) 2 ltac:(lia)). lia. }
  split; [apply Hd; exact Hx|]. split; [apply Hd; exact Hy|]. apply window_spec.
  pose proof (N.div_mod x 2 ltac:(lia)). pose proof (N.mod_lt x 2 ltac:(lia)). pose proof (N.div_mod y 2 ltac:(lia)). pose proof (N.mod_lt y 2 ltac:(lia)). lia.
Qed.
(** A cell lies in at most one window. *)
Lemma window_once sx sy w h X Y X' Y' x y : (x, y) ∈ window sx sy w h X Y -> (x, y) ∈ window sx sy w h X' Y' -> X = X' /\ Y = Y'.
Proof using Type.
  clear. rewrite !window_spec. intros (_ & _ & H1 & H2) (_ & _ & H3 & H4).
  assert (forall s A B z, A * s <= z < A * s + s -> B * s <= z < B * s + s -> A = B)%N as Hu.
  { intros s A B z Ha Hb. destruct (N.lt_trichotomy A B) as [Hl|[E|Hl]]; [exfalso; assert (A + 1 <= B)%N by lia; nia|exact E|exfalso; assert (B + 1 <= A)%N by lia; nia]. }
  split; eauto.
Qed.
(** With stride 1 the last window lies outside the image. *)
Lemma window_empty sy w h Y : window 1 sy w h w Y = [].
Proof using Type.
  clear. destruct (window 1 sy w h w Y) as [|[x y] l] eqn:E; [reflexivity|]. assert (Hin : (x, y) ∈ window 1 sy w h w Y) by (rewrite E; left). apply window_spec in Hin. lia.
Qed.
Lemma window_empty_y sx w h X : window sx 1 w h X h = [].
Proof using Type.
  clear. destruct (window sx 1 w h X h) as [|[x y] l] eqn:E; [reflexivity|]. assert (Hin : (x, y) ∈ window sx 1 w h X h) by (rewrite E; left). apply window_spec in Hin. lia.
Qed.
Lemma pool_none sx sy c w h (x : vten T) : vsh x = [c; w; h] -> (0 < c)%N -> (0 < (w + 1) / sx)%N -> (0 < (h + 1) / sy)%N -> sx = 1%N \/ sy = 1%N -> v_pool sx sy x = None.
Proof using Type.
  intros Hs Hc Hw Hh Hone. unfold v_pool. rewrite Hs. destruct (tabulate _ _) as [y|] eqn:E; [|reflexivity]. exfalso.
  pose proof (tabulate_is _ _ _ E) as [_ Hl].
  destruct Hone as [-> | ->].
  - assert (Hr : Forall2 (fun i m => (i < m)%N) [0; w; 0]%N [c; (w + 1) / 1; (h + 1) / sy]%N) by (repeat constructor; rewrite ?N.div_1_r; lia).
    destruct (at_total _ _ _ Hl Hr) as [a Ha]. destruct (tabulate_lookup _ _ _ _ E Hr) as [E1 E2]. rewrite E1, Ha, window_empty in E2. discriminate.
  - assert (Hr : Forall2 (fun i m => (i < m)%N) [0; 0; h]%N [c; (w + 1) / sx; (h + 1) / 1]%N) by (repeat constructor; rewrite ?N.div_1_r; lia).
    destruct (at_total _ _ _ Hl Hr) as [a Ha]. destruct (tabulate_lookup _ _ _ _ E Hr) as [E1 E2]. rewrite E1, Ha, window_empty_y in E2. discriminate.
Qed.

(** The largest element of a list, for numbers that are ordered. *)
Lemma redmax_spec (l : list T) m : (forall a b : T, nltb a b = true -> nltb b a = false) -> (forall a b c : T, nltb a b = false -> nltb b c = false -> nltb a c = false) ->
  reduce RedMax l = Some m -> m ∈ l /\ forall x, x ∈ l -> nltb m x = false.
Proof using Type.
  intros Hr Ht. cbn [reduce]. destruct l as [|x0 l]; [discriminate|]. cbn [fold1]. intros [= <-].
  revert x0. induction l as [|y l IH]; intros x0; cbn [fold_left].
  - split; [left|]. intros x Hx. apply elem_of_list_singleton in Hx as ->. destruct (nltb x0 x0) eqn:E; [|reflexivity]. rewrite <- E. apply Hr. exact E.
  - destruct (nltb x0 y) eqn:E.
    + destruct (IH y) as [H1 H2]. split; [right; exact H1|]. intros x Hx. apply elem_of_cons in Hx as [->|Hx]; [|apply H2; exact Hx].
      apply (Ht _ y); [apply H2; left|]. apply Hr. exact E.
    + destruct (IH x0) as [H1 H2]. split; [apply elem_of_cons in H1 as [->|H1]; [left|right; right; exact H1]|].
      intros x Hx. apply elem_of_cons in Hx as [->|Hx]; [apply H2; left|]. apply elem_of_cons in Hx as [->|Hx]; [|apply H2; right; exact Hx].
      apply (Ht _ x0); [apply H2; left|exact E].
Qed.
End FwdTotal.
