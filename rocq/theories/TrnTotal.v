(** * TrnTotal: when one step of training has a result

    About the specification only. *)
From Verif Require Import Base Num Spec NetSpec FwdSpec BwdSpec TrnSpec TrnScript TrnProg IndexProofs TensorFacts EagerProofs EagerOps BuildProofs FwdTotal FwdScript.
From Coq Require Import Lia ZifyBool ZifyNat ZifyN.

Section TrnTotal.
Context {T : Type} `{Num T}.
Implicit Types (v w d x a p m b : vten T) (c q : clay T) (cs rest : list (clay T)).
Notation inr := (Forall2 (fun i s => (i < s)%N)).

Lemma el_total sh v idx : shaped sh v -> inr idx sh -> exists z, el v idx = Some z.
Proof using Type. intros [Hs Hl] Hi. unfold el. rewrite Hs. apply at_total; assumption. Qed.
Lemma vlook_total sh v (i : N) : shaped sh v -> (i < prodN sh)%N -> exists z, vdata v !! N.to_nat i = Some z.
Proof using Type. intros [_ Hl] Hi. apply lookup_lt_is_Some_2. lia. Qed.
Lemma upto_lt (n i : N) : i ∈ upto n -> (i < n)%N.
Proof using Type. unfold upto. intros Hi. apply elem_of_list_fmap in Hi as (k & -> & Hk). apply elem_of_seq in Hk. lia. Qed.
Lemma upto_ne (n : N) : (0 < n)%N -> upto n <> [].
Proof using Type. intros Hn E. apply (f_equal length) in E. unfold upto in E. rewrite map_length, seq_length in E. cbn in E. lia. Qed.
Ltac inv1 H a := let l := fresh "tl_" in let h := fresh "lt_" in apply Forall2_cons_inv_r in H as (a & l & h & H & ->).
Ltac invn H := apply Forall2_nil_inv_r in H as ->.
Ltac inr_ := repeat (apply Forall2_cons; split || constructor); try lia.

(** ** Layers *)
Lemma dense_in_total o n (psh : list N) d w a p : (0 < o)%N -> prodN psh = n -> shaped [o] d -> shaped [o; n] w -> shaped psh a -> shaped psh p -> exists g, g_dense_in d w a p = Some g /\ shaped psh g.
Proof using Type.
  intros Ho <- Hd Hw Ha Hp. unfold g_dense_in. apply bind_total.
  - intros i Hi. apply upto_lt in Hi. rewrite (proj2 Hp), N2Nat.id in Hi. rewrite (proj1 Hd). cbn [nth]. apply bind_total'.
    + intros j Hj. apply upto_lt in Hj. destruct (el_total _ d [j] Hd) as [z ->]; [repeat constructor; lia|]. cbn [mbind option_bind].
      destruct (el_total _ w [j; i] Hw) as [y ->]; [repeat constructor; lia|]. cbn. eauto.
    + intros l El. destruct (fold1_ne nadd l) as [s Es]; [eapply mapM_ne; [exact El|apply upto_ne; exact Ho]|]. rewrite Es. cbn [mbind option_bind].
      destruct (vlook_total _ a i Ha Hi) as [z ->]. cbn [mbind option_bind]. destruct (vlook_total _ p i Hp Hi) as [y ->]. cbn. eauto.
  - intros l El. eexists. split; [reflexivity|]. split; cbn; [apply Hp|]. rewrite <- (mapM_length _ _ _ El). unfold upto. rewrite map_length, seq_length, Nat2N.id. apply Hp.
Qed.
Lemma dense_b_total al mo sh d b m : shaped sh d -> shaped sh b -> shaped sh m -> exists g, g_dense_b al mo d b m = Some g /\ shaped sh g.
Proof using Type.
  intros Hd Hb Hm. unfold g_dense_b. rewrite (proj1 Hb). apply tabulate_shaped. intros idx Hi.
  destruct (el_total _ d idx Hd Hi) as [z ->], (el_total _ b idx Hb Hi) as [y ->], (el_total _ m idx Hm Hi) as [u ->]. cbn. eauto.
Qed.
Lemma dense_w_total al mo o (psh : list N) d x w m : shaped [o] d -> shaped psh x -> shaped [o; prodN psh] w -> shaped [o; prodN psh] m -> exists g, g_dense_w al mo d x w m = Some g /\ shaped [o; prodN psh] g.
Proof using Type.
  intros Hd Hx Hw Hm. unfold g_dense_w. rewrite (proj1 Hw). apply tabulate_shaped. intros idx Hi. pose proof Hi as Hi0. inv1 Hi i. inv1 Hi j. invn Hi.
  destruct (el_total _ d [i] Hd) as [z ->]; [repeat constructor; assumption|]. cbn [mbind option_bind]. destruct (vlook_total _ x j Hx ltac:(assumption)) as [y ->]. cbn [mbind option_bind].
  destruct (el_total _ w [i; j] Hw Hi0) as [u ->], (el_total _ m [i; j] Hm Hi0) as [v ->]. cbn. eauto.
Qed.
Lemma conv_in_total (nf ow oh c w0 h0 kw kh sx sy : N) d w a p : (kw <= kh)%N -> shaped [nf; ow; oh] d -> shaped [nf; c; kw; kh] w -> shaped [c; w0; h0] a -> shaped [c; w0; h0] p ->
  exists g, g_conv_in kw sx sy d w a p = Some g /\ shaped [c; w0; h0] g.
Proof using Type.
  intros Hk Hd Hw Ha Hp. unfold g_conv_in. rewrite (proj1 Hp), (proj1 Hd). cbn [nth app]. apply tabulate_shaped. intros idx Hi. apply bind_total'.
  - intros k Hin. apply elem_of_list_In, filter_In in Hin as [Hin _]. apply elem_of_list_In, elem_of_indices in Hin. inv1 Hin f. inv1 Hin x. inv1 Hin y. inv1 Hin e. inv1 Hin i. inv1 Hin j. invn Hin.
    destruct (el_total _ d [f; x; y] Hd) as [z ->]; [apply F3; assumption|]. cbn [mbind option_bind]. destruct (el_total _ w [f; e; i; j] Hw) as [u ->]; [apply F4; lia|]. cbn [mbind option_bind].
    destruct (el_total _ a idx Ha Hi) as [v ->]. cbn. eauto.
  - intros l _. destruct (el_total _ p idx Hp Hi) as [z ->]. cbn. eauto.
Qed.
Lemma conv_w_total (nf ow oh c w0 h0 kw kh sy : N) d x w m : (0 < ow)%N -> (0 < oh)%N -> ((ow - 1) * sy + kw <= w0)%N -> ((oh - 1) * sy + kh <= h0)%N ->
  shaped [nf; ow; oh] d -> shaped [c; w0; h0] x -> shaped [nf; c; kw; kh] w -> shaped [nf; c; kw; kh] m -> exists g, g_conv_w sy d x w m = Some g /\ shaped [nf; c; kw; kh] g.
Proof using Type.
  intros Ho1 Ho2 E1 E2 Hd Hx Hw Hm. unfold g_conv_w. rewrite (proj1 Hw), (proj1 Hd). cbn [nth]. apply tabulate_shaped. intros idx Hi. pose proof Hi as Hi0. inv1 Hi f. inv1 Hi e. inv1 Hi i. inv1 Hi j. invn Hi. apply bind_total'.
  - intros k Hk. apply elem_of_indices in Hk. inv1 Hk X. inv1 Hk Y. invn Hk. destruct (el_total _ d [f; X; Y] Hd) as [z ->]; [apply F3; assumption|]. cbn [mbind option_bind].
    destruct (el_total _ x [e; X * sy + i; Y * sy + j]%N Hx) as [y ->]; [apply F3; nia|]. cbn. eauto.
  - intros l El. destruct (fold1_ne nadd l) as [s Es]; [eapply mapM_ne; [exact El|apply indices_ne; cbn; nia]|]. rewrite Es. cbn [mbind option_bind].
    destruct (el_total _ w _ Hw Hi0) as [u ->], (el_total _ m _ Hm Hi0) as [v ->]. cbn. eauto.
Qed.
Lemma deconv_in_total (nf c w0 h0 kw kh sx sy : N) d w a p : (0 < nf)%N -> (0 < kw)%N -> (0 < kh)%N -> shaped (deconv_shape nf kw kh sx sy w0 h0) d -> shaped [nf; c; kw; kh] w -> shaped [c; w0; h0] a -> shaped [c; w0; h0] p ->
  exists g, g_deconv_in kw kh sx sy d w a p = Some g /\ shaped [c; w0; h0] g.
Proof using Type.
  intros Hn Hk1 Hk2 Hd Hw Ha Hp. unfold g_deconv_in. rewrite (proj1 Hp), (proj1 Hd). cbn [nth deconv_shape]. apply tabulate_shaped. intros idx Hi. pose proof Hi as Hi0. inv1 Hi e. inv1 Hi x. inv1 Hi y. invn Hi. apply bind_total'.
  - intros k Hk. apply elem_of_indices in Hk. inv1 Hk f. inv1 Hk i. inv1 Hk j. invn Hk. destruct (el_total _ d [f; x * sx + i; y * sy + j]%N Hd) as [z ->]; [apply F3; nia|]. cbn [mbind option_bind].
    destruct (el_total _ w [f; e; i; j] Hw) as [u ->]; [apply F4; assumption|]. cbn. eauto.
  - intros l El. destruct (fold1_ne nadd l) as [s Es]; [eapply mapM_ne; [exact El|apply indices_ne; cbn; nia]|]. rewrite Es. cbn [mbind option_bind].
    destruct (el_total _ a _ Ha Hi0) as [u ->], (el_total _ p _ Hp Hi0) as [v ->]. cbn. eauto.
Qed.
Lemma deconv_w_total (nf c w0 h0 kw kh sx sy : N) d x w m : (0 < w0)%N -> (0 < h0)%N -> shaped (deconv_shape nf kw kh sx sy w0 h0) d -> shaped [c; w0; h0] x -> shaped [nf; c; kw; kh] w -> shaped [nf; c; kw; kh] m ->
  exists g, g_deconv_w sx sy d x w m = Some g /\ shaped [nf; c; kw; kh] g.
Proof using Type.
  intros Hw0 Hh0 Hd Hx Hw Hm. unfold g_deconv_w. rewrite (proj1 Hw), (proj1 Hx). cbn [nth]. apply tabulate_shaped. intros idx Hi. pose proof Hi as Hi0. inv1 Hi f. inv1 Hi e. inv1 Hi i. inv1 Hi j. invn Hi. apply bind_total'.
  - intros k Hk. apply elem_of_indices in Hk. inv1 Hk X. inv1 Hk Y. invn Hk. destruct (el_total _ d [f; X * sx + i; Y * sy + j]%N Hd) as [z ->]; [apply F3; nia|]. cbn [mbind option_bind].
    destruct (el_total _ x [e; X; Y] Hx) as [y ->]; [apply F3; assumption|]. cbn. eauto.
  - intros l El. destruct (fold1_ne nadd l) as [s Es]; [eapply mapM_ne; [exact El|apply indices_ne; cbn; nia]|]. rewrite Es. cbn [mbind option_bind].
    destruct (el_total _ w _ Hw Hi0) as [u ->], (el_total _ m _ Hm Hi0) as [v ->]. cbn. eauto.
Qed.
Lemma pool_total (c w0 h0 sx sy : N) (osh : list N) d x y p : shaped osh d -> shaped [c; w0; h0] x -> shaped osh y -> shaped [c; w0; h0] p -> exists g, g_pool sx sy d x y p = Some g /\ shaped [c; w0; h0] g.
Proof using Type.
  intros Hd Hx Hy Hp. unfold g_pool. rewrite (proj1 Hx), (proj1 Hp), (proj1 Hy). apply tabulate_shaped. intros idx Hi. apply bind_total'.
  - intros k Hk. apply elem_of_list_In, filter_In in Hk as [Hk _]. unfold windows in Hk. apply in_flat_map in Hk as (o & Ho & Hk). apply elem_of_list_In, elem_of_indices in Ho.
    assert (fst k = o) as -> by (destruct o as [|? [|? [|? []]]]; try destruct Hk; apply in_map_iff in Hk as (? & <- & _); reflexivity).
    destruct (el_total _ d o Hd Ho) as [z ->], (el_total _ x idx Hx Hi) as [u ->], (el_total _ y o Hy Ho) as [v ->]. cbn. eauto.
  - intros l _. destruct (el_total _ p idx Hp Hi) as [z ->]. cbn. eauto.
Qed.
Lemma pool_der_total (c w0 h0 sx sy : N) x y a : (2 <= sx)%N -> (2 <= sy)%N -> shaped [c; w0; h0] x -> shaped [c; (w0 + 1) / sx; (h0 + 1) / sy]%N y -> shaped [c; w0; h0] a ->
  exists g, g_pool_der sx sy x y a = Some g /\ shaped [c; (w0 + 1) / sx; (h0 + 1) / sy]%N g.
Proof using Type.
  intros Hsx Hsy Hx Hy Ha. unfold g_pool_der. rewrite (proj1 Hx), (proj1 Hy). apply tabulate_shaped. intros idx Hi. pose proof Hi as Hi0. inv1 Hi f. inv1 Hi X. inv1 Hi Y. invn Hi.
  destruct (el_total _ y _ Hy Hi0) as [o ->]. cbn [mbind option_bind]. apply bind_total'.
  - intros k Hk. apply window_in in Hk as [Hk1 Hk2]. assert (Hin : inr [f; fst k; snd k] [c; w0; h0]) by (apply F3; assumption). destruct (el_total _ a _ Ha Hin) as [z ->], (el_total _ x _ Hx Hin) as [u ->]. cbn. eauto.
  - intros l El. apply fold1_ne. eapply mapM_ne; [exact El|]. intros E. pose proof (window_first sx sy w0 h0 X Y Hsx Hsy ltac:(assumption) ltac:(assumption)) as Hw. rewrite E in Hw. inversion Hw.
Qed.
Lemma up_total (c w0 h0 sx sy : N) d : (0 < sx)%N -> (0 < sy)%N -> shaped [c; w0 * sx; h0 * sy]%N d -> exists g, g_up sx sy d [c; w0; h0] = Some g /\ shaped [c; w0; h0] g.
Proof using Type.
  intros Hsx Hsy Hd. unfold g_up. apply tabulate_shaped. intros idx Hi. inv1 Hi f. inv1 Hi x. inv1 Hi y. invn Hi. apply bind_total'.
  - intros k Hk. apply elem_of_indices in Hk. inv1 Hk i. inv1 Hk j. invn Hk. apply (el_total _ d _ Hd). apply F3; nia.
  - intros l El. apply fold1_ne. eapply mapM_ne; [exact El|apply indices_ne; cbn; nia].
Qed.
Lemma scal_total o sh v (k : T) : (forall z, z ∈ vdata v -> bin o z k <> None) -> shaped sh v -> exists g, v_scal o v k = Some g /\ shaped sh g.
Proof using Type.
  intros Ho Hv. unfold v_scal. apply bind_total.
  - intros z Hz. destruct (bin o z k) eqn:E; [eauto|]. destruct (Ho z Hz E).
  - intros l El. eexists. split; [reflexivity|]. split; cbn; [apply Hv|]. rewrite <- (mapM_length _ _ _ El). apply Hv.
Qed.
Lemma mul_total sh v (k : T) : shaped sh v -> exists g, v_scal BMul v k = Some g /\ shaped sh g.
Proof using Type. apply scal_total. intros z _. discriminate. Qed.
Lemma add_total sh v w : shaped sh v -> shaped sh w -> exists g, v_bin BAdd v w = Some g /\ shaped sh g.
Proof using Type.
  intros Hv Hw. unfold v_bin. rewrite (proj1 Hv). apply tabulate_shaped. intros idx Hi. destruct (el_total _ v idx Hv Hi) as [z Ez], (el_total _ w idx Hw Hi) as [u Eu]. unfold el in *. rewrite (proj1 Hv) in Ez. rewrite Ez, Eu. cbn. eauto.
Qed.
Lemma zero_shaped sh : shaped sh (vzero (T:=T) sh).
Proof using Type. split; [reflexivity|]. cbn. apply replicate_length. Qed.
Lemma share_total sh d (r : T) : (forall z, ndiv z r <> None) -> shaped sh d -> exists g, share r d = Some g /\ shaped sh g.
Proof using Type. intros Hr Hd. unfold share. destruct (nltb none r); [|eauto]. apply scal_total; [|exact Hd]. intros z _. apply Hr. Qed.

(** ** One layer of a step *)
(** A layer on an input of shape [psh] that can be trained. *)
Definition lay_ok (psh : list N) c : Prop :=
  match c_l c with None => c_sh c = psh | Some l => lay_shape l psh = Some (c_sh c) /\ train_fit l psh = true /\ runs l psh end.
(** Its parameters and momenta have the right shapes. *)
Definition par_ok (par : params (T:=T)) (psh : list N) c : Prop :=
  forall l bs ws, c_l c = Some l -> par_shape l psh = Some (bs, ws) -> exists b w, par (c_i c) = Some (b, w) /\ shaped bs b /\ shaped ws w.
Definition mom_ok (mb : nat -> option (vten T)) c : Prop := has_mom c = true -> exists v, mb (c_i c) = Some v /\ shaped (c_sh c) v.
(** What is read of it has the right shapes. *)
Record read_ok (R : reading T) (psh : list N) c : Prop := {
  ro_x : exists x, r_x R (c_i c) = Some x /\ shaped psh x;
  ro_n : c_l c = None \/ c_par c = true -> exists n, r_n R (c_i c) = Some n /\ shaped (c_sh c) n;
  ro_y : exists y, r_y R (c_i c) = Some y /\ shaped (c_sh c) y;
  ro_p : forall l bs ws, c_l c = Some l -> par_shape l psh = Some (bs, ws) -> exists b w, r_b R (c_i c) = Some b /\ r_w R (c_i c) = Some w /\ shaped bs b /\ shaped ws w;
  ro_max : forall u u0 : T, c_l c = Some (SNorm u u0) -> exists k, r_max R (c_i c) = Some k;
  ro_ref : exists r, r_ref R (c_i c) = Some r /\ forall z, ndiv z r <> None;
}.
Lemma bias_sh (l : lspec T) psh bs ws osh : lay_shape l psh = Some osh -> par_shape l psh = Some (bs, ws) -> bs = osh.
Proof using Type.
  destruct l; cbn [lay_shape par_shape]; try discriminate.
  - destruct (_ && _); [|discriminate]. congruence.
  - destruct psh as [|? [|? [|? []]]]; try discriminate. destruct (_ && _); [|discriminate]. congruence.
  - destruct psh as [|? [|? [|? []]]]; try discriminate. destruct (_ && _); [|discriminate]. congruence.
Qed.
Lemma par_some (l : lspec T) psh osh : lay_shape l psh = Some osh -> has_par l = true -> exists ws, par_shape l psh = Some (osh, ws).
Proof using Type.
  destruct l; cbn [lay_shape par_shape has_par]; try discriminate.
  - destruct (_ && _); [|discriminate]. intros [= <-] _. eauto.
  - destruct psh as [|? [|? [|? []]]]; try discriminate. destruct (_ && _); [|discriminate]. intros [= <-] _. eauto.
  - destruct psh as [|? [|? [|? []]]]; try discriminate. destruct (_ && _); [|discriminate]. intros [= <-] _. eauto.
Qed.
Lemma in_total R psh c (av : vten T) d : lay_ok psh c -> c_l c <> None -> read_ok R psh c -> shaped psh av -> shaped (c_sh c) d -> exists g, s_in R c (Some av) psh d = Some g /\ shaped psh g.
Proof using Type.
  intros Hok Hne [(x & Ex & Hx) Hn (y & Ey & Hy) Hp Hmx (r & Er & Hr)] Ha Hd. unfold lay_ok in Hok. destruct (c_l c) as [l|] eqn:El; [clear Hne|congruence]. destruct Hok as (Hls & Htf & Hrun).
  destruct (share_total (c_sh c) d r Hr Hd) as (e & Ee & He). unfold s_in. rewrite El, Er. pose proof (zero_shaped psh) as Hz. specialize (Hp l).
  destruct l as [o f|nf kw kh sx sy f|nf kw kh sx sy f|sx sy|sx sy| |mn mx| |dd s t]; cbn [lay_shape train_fit runs par_shape mbind option_bind] in *; rewrite ?Ee; cbn [mbind option_bind].
  - destruct (_ && _) in Hls; [|discriminate]. injection Hls as Hls. destruct (Hp _ _ eq_refl eq_refl) as (b & w & _ & -> & _ & Hw). cbn [mbind option_bind]. rewrite <- Hls in He. eapply dense_in_total; [|reflexivity|eassumption..]. lia.
  - destruct psh as [|c0 [|w0 [|h0 []]]]; try discriminate. destruct (_ && _) eqn:Ec in Hls; [|discriminate]. injection Hls as Hls. destruct (Hp _ _ eq_refl eq_refl) as (b & w & _ & -> & _ & Hw). cbn [mbind option_bind].
    rewrite <- Hls in He. eapply conv_in_total; try eassumption. lia.
  - destruct psh as [|c0 [|w0 [|h0 []]]]; try discriminate. destruct (_ && _) eqn:Ec in Hls; [|discriminate]. injection Hls as Hls. destruct (Hp _ _ eq_refl eq_refl) as (b & w & _ & -> & _ & Hw). cbn [mbind option_bind].
    rewrite <- Hls in He. eapply deconv_in_total; try eassumption; lia.
  - destruct psh as [|c0 [|w0 [|h0 []]]]; try discriminate. rewrite Ex, Ey. cbn [mbind option_bind]. eapply pool_total; eassumption.
  - destruct psh as [|c0 [|w0 [|h0 []]]]; try discriminate. unfold fit in Hls. destruct (fitsb _); [|discriminate]. injection Hls as Hls. rewrite <- Hls in He. apply up_total; [lia|lia|exact He].
  - injection Hls as Hls. rewrite <- Hls in Hd. eexists. split; [reflexivity|]. split; [reflexivity|]. cbn. rewrite (proj2 Hd). cbn. f_equal. lia.
  - injection Hls as Hls. rewrite <- Hls in He. destruct (Hmx _ _ eq_refl) as [k ->]. cbn [mbind option_bind]. destruct (mul_total psh e (nsub mx mn) He) as (u & -> & Hu). cbn [mbind option_bind].
    apply scal_total; [|exact Hu]. intros z _. apply (proj2 Hrun).
  - injection Hls as Hls. rewrite <- Hls in Hd. eauto.
  - discriminate.
Qed.
Lemma par_total R mb al mo psh c d : lay_ok psh c -> read_ok R psh c -> mom_ok mb c -> shaped (c_sh c) d ->
  exists u, s_par R mb al mo c d = Some u /\ (c_par c = true -> exists b w ws l, u = Some (b, w) /\ c_l c = Some l /\ par_shape l psh = Some (c_sh c, ws) /\ shaped (c_sh c) b /\ shaped ws w) /\
    (has_mom c = true -> exists v, s_db mb al mo (c_i c) d = Some v /\ shaped (c_sh c) v).
Proof using Type.
  intros Hok [(x & Ex & Hx) Hn Hy Hp Hmx (r & Er & Hr)] Hmb Hd. unfold lay_ok in Hok. unfold s_par, c_par, has_mom in *. destruct (c_l c) as [l|] eqn:El; [|exists None; split; [reflexivity|]; split; discriminate].
  destruct Hok as (Hls & Htf & Hrun). destruct (has_par l) eqn:Ehp; [|exists None; split; [reflexivity|]; split; [discriminate|destruct l; discriminate]].
  destruct (par_some l psh _ Hls Ehp) as [ws Eps]. destruct (Hp l _ _ eq_refl Eps) as (b & w & Eb & Ew & Hb & Hw). destruct (share_total (c_sh c) d r Hr Hd) as (e & Ee & He).
  assert (Hdb : has_mom c = true -> exists v, s_db mb al mo (c_i c) d = Some v /\ shaped (c_sh c) v).
  { intros Hm. unfold mom_ok in Hmb. destruct (Hmb Hm) as (v & Ev & Hv). unfold s_db. destruct (mul_total _ d al Hd) as (da & -> & Hda). cbn [mbind option_bind]. rewrite Ev. cbn [mbind option_bind].
    destruct (mul_total _ v mo Hv) as (vm & -> & Hvm). cbn [mbind option_bind]. apply add_total; assumption. }
  unfold has_mom in Hdb. rewrite El in Hdb. unfold s_bias, s_weights. rewrite El. assert (Hgo : forall B W, B = Some b \/ True -> (exists b', B = Some b' /\ shaped (c_sh c) b') -> (exists w', W = Some w' /\ shaped ws w') ->
    exists u, (b0 ← B; w0 ← W; Some (Some (b0, w0))) = Some u /\ (true = true -> exists b w ws0 l0, u = Some (b, w) /\ Some l = Some l0 /\ par_shape l0 psh = Some (c_sh c, ws0) /\ shaped (c_sh c) b /\ shaped ws0 w)).
  { intros B W0 _ (b' & -> & Hb') (w' & -> & Hw'). cbn [mbind option_bind]. eexists. split; [reflexivity|]. intros _. exists b', w', ws, l. auto. }
  destruct l as [o f|nf kw kh sx sy f|nf kw kh sx sy f|sx sy|sx sy| |mn mx| |dd s t]; try discriminate; cbn [lay_shape train_fit runs par_shape] in *; rewrite ?Er, ?Eb, ?Ew, ?Ex; cbn [mbind option_bind]; rewrite ?Ee; cbn [mbind option_bind].
  - destruct (_ && _) in Hls; [|discriminate]. injection Hls as Hls. injection Eps as Eo <-. rewrite <- Hls in He, Hb. rewrite (proj1 Hb), (proj1 Hw).
    destruct (dense_b_total al mo [o] e b (vzero [o]) He Hb (zero_shaped _)) as (b' & Eb' & Hb'). destruct (dense_w_total al mo o psh e x w (vzero [o; prodN psh]) He Hx Hw (zero_shaped _)) as (w' & Ew' & Hw').
    destruct (Hgo (Some b') (Some w')) as (u & Eu & Hu); [auto|exists b'; split; [reflexivity|rewrite <- Hls; exact Hb']|eauto|]. exists u. rewrite Eb'. cbn [mbind option_bind]. rewrite Ew'. split; [exact Eu|]. split; [exact Hu|discriminate].
  - destruct psh as [|c0 [|w0 [|h0 []]]]; try discriminate. destruct (_ && _) eqn:Ec in Hls; [|discriminate]. injection Hls as Hls. injection Eps as Eo <-.
    destruct (Hdb eq_refl) as (db & Edb & Hdbs). rewrite Edb. cbn [mbind option_bind]. destruct (add_total _ b db Hb Hdbs) as (b' & Eb' & Hb'). rewrite Eb'. destruct (mul_total _ d al Hd) as (da & -> & Hda). cbn [mbind option_bind].
    rewrite (proj1 Hw). destruct (mul_total _ (vzero [nf; c0; kw; kh]) mo (zero_shaped _)) as (m & -> & Hm). cbn [mbind option_bind]. rewrite <- Hls in Hda.
    destruct (conv_w_total nf ((w0 - kw) / sx + 1) ((h0 - kh) / sy + 1) c0 w0 h0 kw kh sy da x w m) as (w' & Ew' & Hw'); try assumption; [clear; rewrite N.add_1_r; apply N.lt_0_succ|clear; rewrite N.add_1_r; apply N.lt_0_succ| | |].
    { rewrite N.add_sub. apply andb_prop in Htf as [_ Htf]. apply N.leb_le. exact Htf. }
    { rewrite N.add_sub. apply conv_pos; [lia|lia|]. rewrite N.add_1_r. apply N.lt_succ_diag_r. }
    destruct (Hgo (Some b') (Some w')) as (u & Eu & Hu); [auto|eauto|eauto|]. exists u. rewrite Ew'. split; [exact Eu|]. split; [exact Hu|eauto].
  - destruct psh as [|c0 [|w0 [|h0 []]]]; try discriminate. destruct (_ && _) eqn:Ec in Hls; [|discriminate]. injection Hls as Hls. injection Eps as Eo <-.
    destruct (Hdb eq_refl) as (db & Edb & Hdbs). rewrite Edb. cbn [mbind option_bind]. destruct (add_total _ b db Hb Hdbs) as (b' & Eb' & Hb'). rewrite Eb'. destruct (mul_total _ d al Hd) as (da & -> & Hda). cbn [mbind option_bind].
    rewrite (proj1 Hw). destruct (mul_total _ (vzero [nf; c0; kw; kh]) mo (zero_shaped _)) as (m & -> & Hm). cbn [mbind option_bind]. rewrite <- Hls in Hda.
    destruct (deconv_w_total nf c0 w0 h0 kw kh sx sy da x w m) as (w' & Ew' & Hw'); try assumption; [lia|lia|].
    destruct (Hgo (Some b') (Some w')) as (u & Eu & Hu); [auto|eauto|eauto|]. exists u. rewrite Ew'. split; [exact Eu|]. split; [exact Hu|eauto].
Qed.

(** ** Chains *)
Definition below (ish : list N) cs : list N := match cs with [] => ish | q :: _ => c_sh q end.
Fixpoint chain_ok (ish : list N) cs : Prop :=
  match cs with
  | [] => True
  | c :: rest => lay_ok (below ish rest) c /\ (rest = [] -> c_l c = None \/ c_par c = true) /\ (rest <> [] -> c_l c <> None) /\ chain_ok ish rest
  end.
Fixpoint pars_ok (par : params (T:=T)) (ish : list N) cs : Prop :=
  match cs with [] => True | c :: rest => par_ok par (below ish rest) c /\ pars_ok par ish rest end.
Fixpoint reads_ok (R : reading T) (ish : list N) cs : Prop :=
  match cs with [] => True | c :: rest => read_ok R (below ish rest) c /\ reads_ok R ish rest end.

Lemma out_total par ish x cs : chain_ok ish cs -> pars_ok par ish cs -> shaped ish x -> exists y, s_out par x cs = Some y /\ shaped (below ish cs) y.
Proof using Type.
  intros Hc Hp Hx. induction cs as [|c rest IH]; [exists x; auto|]. destruct Hc as (Hl & _ & _ & Hc), Hp as [Hpc Hp]. destruct (IH Hc Hp) as (v & Ev & Hv). cbn [s_out below]. rewrite Ev. cbn [mbind option_bind].
  unfold lay_ok in Hl. unfold par_ok in Hpc. destruct (c_l c) as [l|] eqn:El; [|exists v; split; [reflexivity|rewrite Hl; exact Hv]]. destruct Hl as (Hls & _ & Hr).
  eapply lay_total; [exact Hls|exact Hv|exact Hr|]. intros bs ws Hps. exact (Hpc l bs ws eq_refl Hps).
Qed.
Lemma reads_ext (R R' : reading T) ish cs : (forall q, q ∈ cs -> r_x R' (c_i q) = r_x R (c_i q) /\ r_n R' (c_i q) = r_n R (c_i q) /\ r_y R' (c_i q) = r_y R (c_i q) /\ r_b R' (c_i q) = r_b R (c_i q) /\
    r_w R' (c_i q) = r_w R (c_i q) /\ r_max R' (c_i q) = r_max R (c_i q) /\ r_ref R' (c_i q) = r_ref R (c_i q)) -> reads_ok R ish cs -> reads_ok R' ish cs.
Proof using Type.
  induction cs as [|c rest IH]; intros He Hr; [exact I|]. destruct Hr as [[A1 A2 A3 A4 A5 A6] Hr]. split.
  - destruct (He c ltac:(left)) as (E1 & E2 & E3 & E4 & E5 & E6 & E7). split; rewrite ?E1, ?E2, ?E3, ?E4, ?E5, ?E6, ?E7; assumption.
  - apply IH; [|exact Hr]. intros q Hq. apply He. right. exact Hq.
Qed.
Lemma leads_le cs : leads cs <= length cs.
Proof using Type. induction cs as [|c rest IH]; cbn [leads length]; [lia|]. destruct (flattens c); lia. Qed.
Lemma show_reads par ish x n : (forall (z : T) k, k <= n -> ndiv z (number k) <> None) -> shaped ish x ->
  forall cs above, above + length cs <= n -> NoDup (map c_i cs) -> chain_ok ish cs -> pars_ok par ish cs -> reads_ok (s_show par x above cs) ish cs.
Proof using Type.
  intros Hdiv Hx. induction cs as [|c rest IH]; intros above Hab Hnd Hc Hp; [exact I|]. cbn [length map] in *. apply NoDup_cons in Hnd as [Hni Hnd]. pose proof (out_total par ish x _ Hc Hp Hx) as (y & Ey & Hy).
  destruct Hc as (Hl & Hbot & _ & Hc), Hp as [Hpc Hp]. destruct (out_total par ish x rest Hc Hp Hx) as (v & Ev & Hv). pose proof (leads_le (c :: rest)) as Hle. cbn [length] in Hle.
  assert (Eq : (c_i c =? c_i c) = true) by apply Nat.eqb_refl. split.
  - split; cbn [s_show r_x r_n r_y r_b r_w r_max r_ref]; unfold or_else; rewrite Eq.
    + exists v. auto.
    + intros Hcp. rewrite Ev. unfold lay_ok in Hl. unfold c_par in *. destruct (c_l c) as [l|] eqn:El; [|exists v; split; [reflexivity|rewrite Hl; exact Hv]]. destruct Hcp as [Hcp|Hcp]; [discriminate|]. rewrite Hcp. cbn [mbind option_bind].
      destruct Hl as (Hls & _ & Hr). apply (lay_total (plainly l) (below ish rest)); [destruct l; exact Hls|exact Hv|destruct l; exact Hr|]. intros bs ws Hps. apply (Hpc l bs ws El). destruct l; exact Hps.
    + exists y. auto.
    + intros l bs ws El Hps. destruct (Hpc l bs ws El Hps) as (b & w & Eb & Hb & Hw). assert (c_par c = true) as -> by (unfold c_par; rewrite El; destruct l; try discriminate; reflexivity). rewrite Eb. exists b, w. auto.
    + intros u u0 El. rewrite El, Ev. cbn [mbind option_bind]. unfold lay_ok in Hl. rewrite El in Hl. destruct Hl as (_ & _ & Hpos & _). unfold reduce. apply fold1_some. intros E. destruct Hv as [_ Hv]. rewrite E in Hv. cbn in Hv. lia.
    + eexists. split; [reflexivity|]. intros z. apply Hdiv. lia.
  - eapply reads_ext; [|eapply (IH (if flattens c then S above else 0)); [destruct (flattens c); lia|exact Hnd|exact Hc|exact Hp]].
    intros q Hq. cbn [s_show r_x r_n r_y r_b r_w r_max r_ref]. unfold or_else. assert (c_i q =? c_i c = false) as ->.
    { apply Nat.eqb_neq. intros E. apply Hni. rewrite <- E. apply elem_of_list_fmap. eauto. }
    repeat split; reflexivity.
Qed.
Lemma map_shaped (f : T -> T) sh v : shaped sh v -> shaped sh (v_map f v).
Proof using Type. intros [Hs Hl]. split; [exact Hs|]. cbn. rewrite map_length. exact Hl. Qed.
Lemma der_total R ish cs : cs <> [] -> chain_ok ish cs -> reads_ok R ish cs -> exists a, s_der R cs = Some a /\ shaped (below ish cs) a.
Proof using Type.
  induction cs as [|c rest IH]; intros Hne Hc Hr; [congruence|]. clear Hne. destruct Hc as (Hl & Hbot & _ & Hc), Hr as [[(x & Ex & Hx) Hn (y & Ey & Hy) _ _ _] Hr]. cbn [s_der below].
  assert (Hb : c_l c = None \/ c_par c = true -> exists a, (n ← r_n R (c_i c); Some (v_map (c_d c) n)) = Some a /\ shaped (c_sh c) a).
  { intros Hcp. destruct (Hn Hcp) as (n & -> & Hns). cbn [mbind option_bind]. eexists. split; [reflexivity|]. apply map_shaped. exact Hns. }
  unfold c_par in *. unfold lay_ok in Hl. destruct (c_l c) as [l|] eqn:El; [|apply Hb; auto]. destruct (has_par l) eqn:Ehp; [destruct l; try discriminate; apply Hb; auto|].
  assert (Hre : rest <> []) by (intros ->; destruct (Hbot eq_refl); discriminate). destruct (IH Hre Hc Hr) as (a & Ea & Ha). destruct Hl as (Hls & Htf & Hrun).
  set (psh := below ish rest) in *. rewrite Ea. destruct l as [o f|nf kw kh sx sy f|nf kw kh sx sy f|sx sy|sx sy| |mn mx| |dd s t]; try discriminate; cbn [lay_shape train_fit runs mbind option_bind] in *.
  - destruct psh as [|c0 [|w0 [|h0 []]]]; try discriminate. destruct (_ && _) eqn:Ec in Hls; [|discriminate]. injection Hls as Hls. rewrite Ex, Ey. cbn [mbind option_bind]. rewrite <- Hls in Hy |- *. apply pool_der_total; [lia|lia|assumption..].
  - eapply (lay_total (SUp sx sy) psh _ None a); [exact Hls|exact Ha|exact I|discriminate].
  - injection Hls as Hls. eexists. split; [reflexivity|]. rewrite <- Hls. split; cbn; [rewrite (proj1 Ha); reflexivity|]. rewrite (proj2 Ha). cbn. lia.
  - injection Hls as Hls. rewrite <- Hls. eauto.
  - injection Hls as Hls. rewrite <- Hls. eauto.
Qed.
(** The errors, parameters and momenta after a step. *)
Fixpoint ups_ok (mb : nat -> option (vten T)) (al mo : T) (ish : list N) cs (us : list (update (T:=T))) : Prop :=
  match cs, us with
  | [], [] => True
  | c :: rest, u :: us' =>
      (c_par c = true -> exists b w ws l, snd u = Some (b, w) /\ c_l c = Some l /\ par_shape l (below ish rest) = Some (c_sh c, ws) /\ shaped (c_sh c) b /\ shaped ws w) /\
      (has_mom c = true -> exists v, s_db mb al mo (c_i c) (fst u) = Some v /\ shaped (c_sh c) v) /\ ups_ok mb al mo ish rest us'
  | _, _ => False
  end.
Lemma step_total R mb al mo ish cs : chain_ok ish cs -> reads_ok R ish cs -> Forall (mom_ok mb) cs -> forall d, shaped (below ish cs) d -> exists us, s_step R mb al mo cs d = Some us /\ ups_ok mb al mo ish cs us.
Proof using Type.
  induction cs as [|c rest IH]; intros Hc Hr Hm d Hd; [exists []; split; [reflexivity|exact I]|]. destruct Hc as (Hl & Hbot & Hin & Hc), Hr as [Hrc Hr]. apply Forall_cons in Hm as [Hmc Hm]. cbn [below] in Hd.
  destruct (par_total R mb al mo _ c d Hl Hrc Hmc Hd) as (u & Eu & Hu & Hv). cbn [s_step]. rewrite Eu. cbn [mbind option_bind]. destruct rest as [|q r].
  - cbn [mbind option_bind]. eexists. split; [reflexivity|]. cbn [ups_ok fst snd]. split; [exact Hu|]. split; [exact Hv|exact I].
  - destruct (der_total R ish (q :: r) ltac:(discriminate) Hc Hr) as (a & Ea & Ha). rewrite Ea. destruct (in_total R _ c a d Hl (Hin ltac:(discriminate)) Hrc Ha Hd) as (d' & Ed & Hd'). cbn [below] in Ed, Hd'. rewrite Ed. cbn [mbind option_bind].
    destruct (IH Hc Hr Hm d' Hd') as (us & Eus & Hus). rewrite Eus. cbn [mbind option_bind]. eexists. split; [reflexivity|]. cbn [ups_ok fst snd]. split; [exact Hu|]. split; [exact Hv|exact Hus].
Qed.
Lemma pars_ext (par par' : params (T:=T)) ish cs : (forall q, q ∈ cs -> par' (c_i q) = par (c_i q)) -> pars_ok par ish cs -> pars_ok par' ish cs.
Proof using Type.
  induction cs as [|c rest IH]; intros He Hp; [exact I|]. destruct Hp as [Hpc Hp]. split; [intros l bs ws; rewrite (He c ltac:(left)); apply Hpc|]. apply IH; [|exact Hp]. intros q Hq. apply He. right. exact Hq.
Qed.
Lemma new_par_ok par mb al mo ish cs : NoDup (map c_i cs) -> forall us, ups_ok mb al mo ish cs us -> pars_ok (new_par par cs us) ish cs.
Proof using Type.
  induction cs as [|c rest IH]; intros Hnd us Hu; [exact I|]. cbn [map] in Hnd. apply NoDup_cons in Hnd as [Hni Hnd]. destruct us as [|u us]; [destruct Hu|]. destruct Hu as (Hp & _ & Hu). split.
  - intros l bs ws El Hps. cbn [new_par]. rewrite Nat.eqb_refl. destruct Hp as (b & w & ws' & l' & -> & El' & Hps' & Hb & Hw); [unfold c_par; rewrite El; destruct l; try discriminate; reflexivity|].
    assert (l' = l) as -> by congruence. rewrite Hps in Hps'. injection Hps' as -> ->. exists b, w. auto.
  - eapply pars_ext; [|exact (IH Hnd us Hu)]. intros q Hq. cbn [new_par]. assert (c_i q =? c_i c = false) as ->; [|reflexivity]. apply Nat.eqb_neq. intros E. apply Hni. rewrite <- E. apply elem_of_list_fmap. eauto.
Qed.
Lemma new_mom_ok mb al mo ish cs : NoDup (map c_i cs) -> forall us, ups_ok mb al mo ish cs us -> Forall (mom_ok (new_mom mb al mo cs us)) cs.
Proof using Type.
  induction cs as [|c rest IH]; intros Hnd us Hu; [constructor|]. cbn [map] in Hnd. apply NoDup_cons in Hnd as [Hni Hnd]. destruct us as [|u us]; [destruct Hu|]. destruct Hu as (_ & Hv & Hu). constructor.
  - intros Hm. cbn [new_mom]. rewrite Nat.eqb_refl, Hm. exact (Hv Hm).
  - specialize (IH Hnd us Hu). rewrite Forall_forall in IH |- *. intros q Hq Hm. destruct (IH q Hq Hm) as (v & Ev & Hvs). exists v. split; [|exact Hvs]. cbn [new_mom].
    assert (c_i q =? c_i c = false) as ->; [|exact Ev]. apply Nat.eqb_neq. intros E. apply Hni. rewrite <- E. apply elem_of_list_fmap. eauto.
Qed.
Lemma train_total par mb al mo ish cs x y : (forall (z : T) k, k <= length cs -> ndiv z (number k) <> None) -> NoDup (map c_i cs) -> chain_ok ish cs -> pars_ok par ish cs -> Forall (mom_ok mb) cs ->
  (0 < prodN (below ish cs))%N -> shaped ish x -> shaped (below ish cs) y -> exists k par' mb', s_train par mb al mo cs x y = Some (k, par', mb') /\ pars_ok par' ish cs /\ Forall (mom_ok mb') cs.
Proof using Type.
  intros Hdiv Hnd Hc Hp Hm Hpos Hx Hy. destruct (out_total par ish x cs Hc Hp Hx) as (o & Eo & Ho). unfold s_train, s_err. rewrite Eo. cbn [mbind option_bind].
  set (d := V (vsh y) (zip_with nsub (vdata y) (vdata o))). assert (Hd : shaped (below ish cs) d).
  { split; [apply Hy|]. cbn. rewrite zip_with_length, (proj2 Hy), (proj2 Ho). apply Nat.min_id. }
  pose proof (show_reads par ish x (length cs) Hdiv Hx cs 0 (le_n _) Hnd Hc Hp) as Hr. destruct (step_total _ mb al mo ish cs Hc Hr Hm d Hd) as (us & Eus & Hus). rewrite Eus. cbn [mbind option_bind].
  destruct (fold1_some nadd absv (vdata d)) as [k Ek]; [intros E; destruct Hd as [_ Hd]; rewrite E in Hd; cbn in Hd; lia|]. rewrite Ek. cbn [mbind option_bind].
  eexists _, _, _. split; [reflexivity|]. split; [eapply new_par_ok; eassumption|apply (new_mom_ok mb al mo ish); assumption].
Qed.
Lemma keep_ok tr par par' ish : forall cs, pars_ok par ish cs -> pars_ok par' ish cs -> pars_ok (s_keep tr par par') ish cs.
Proof using Type.
  induction cs as [|c rest IH]; [auto|]. intros [H1 H2] [H3 H4]. split; [|apply IH; assumption]. unfold par_ok, s_keep in *. destruct (tr (c_i c)); assumption.
Qed.
(** Either every pair is suitable, or the steps before the first one that is not
    can be done. *)
Lemma trains_total tr al mo ish cs pairs : (forall (z : T) k, k <= length cs -> ndiv z (number k) <> None) -> NoDup (map c_i cs) -> chain_ok ish cs -> (0 < prodN (below ish cs))%N ->
  Forall (fun xy : vten T * vten T => shaped (vsh (fst xy)) (fst xy) /\ shaped (vsh (snd xy)) (snd xy)) pairs -> forall ks par mb, Forall (fun k => k < length pairs) ks -> pars_ok par ish cs -> Forall (mom_ok mb) cs ->
  exists par' mb', pars_ok par' ish cs /\ Forall (mom_ok mb') cs /\ (s_trains ish (below ish cs) tr par mb al mo cs pairs ks = Some (par', mb') \/
    exists ks1 k ks2 x y, ks = ks1 ++ k :: ks2 /\ s_trains ish (below ish cs) tr par mb al mo cs pairs ks1 = Some (par', mb') /\ pairs !! k = Some (x, y) /\ (vsh x <> ish \/ vsh y <> below ish cs)).
Proof using Type.
  intros Hdiv Hnd Hc Hpos Hpr. induction ks as [|k ks IH]; intros par mb Hk Hp Hm; [exists par, mb; auto|]. apply Forall_cons in Hk as [Hk Hks].
  destruct (lookup_lt_is_Some_2 _ _ Hk) as [[x y] Ep]. rewrite Forall_lookup in Hpr. destruct (Hpr k _ Ep) as [Hx Hy]. cbn [fst snd] in Hx, Hy.
  destruct (decide (vsh x = ish)) as [Ex|Ex]; [destruct (decide (vsh y = below ish cs)) as [Ey|Ey]|].
  - rewrite Ex in Hx. rewrite Ey in Hy.
    destruct (train_total par mb al mo ish cs x y Hdiv Hnd Hc Hp Hm Hpos Hx Hy) as (n & par1 & mb1 & E & Hp1 & Hm1).
    assert (Es : forall l, s_trains ish (below ish cs) tr par mb al mo cs pairs (k :: l) = s_trains ish (below ish cs) tr (s_keep tr par par1) mb1 al mo cs pairs l).
    { intros l. cbn [s_trains]. rewrite Ep. cbn [mbind option_bind fst snd]. rewrite (bool_decide_eq_true_2 _ Ex), (bool_decide_eq_true_2 _ Ey). cbn [andb]. rewrite E. reflexivity. }
    destruct (IH (s_keep tr par par1) mb1 Hks (keep_ok tr _ _ _ _ Hp Hp1) Hm1) as (par' & mb' & A1 & A2 & A3). exists par', mb'. split; [exact A1|]. split; [exact A2|].
    destruct A3 as [A3|(ks1 & k' & ks2 & x' & y' & -> & B1 & B2 & B3)]; [left; rewrite Es; exact A3|]. right. exists (k :: ks1), k', ks2, x', y'. split; [reflexivity|]. rewrite Es. auto.
  - exists par, mb. split; [exact Hp|]. split; [exact Hm|]. right. exists [], k, ks, x, y. auto.
  - exists par, mb. split; [exact Hp|]. split; [exact Hm|]. right. exists [], k, ks, x, y. auto.
Qed.
Lemma picked_lt picks n epochs batch : 0 < n -> Forall (fun k => k < n) (NetScript.picked picks n epochs batch).
Proof using Type.
  intros Hn. apply Forall_forall. intros k Hk. unfold NetScript.picked in Hk. apply elem_of_list_In, in_flat_map in Hk as (e & _ & Hk). apply in_map_iff in Hk as (b & <- & _). apply Nat.mod_upper_bound. lia.
Qed.

(** ** Histories *)
Section Acts.
Variables (ish osh : list N) (nl : nat).
(** Calls that name tensors and layers that exist and do not draw from empty lists;
    [shs] are the shapes of the tensors, [nl] is the number of layers. *)
Fixpoint tacts_ok (shs : list (list N)) (acts : list (tact T)) : Prop :=
  match acts with
  | [] => True
  | TNew sh0 vs :: acts' => fits sh0 /\ length vs = N.to_nat (prodN sh0) /\ tacts_ok (shs ++ [sh0]) acts'
  | TGet i :: acts' => i < length shs /\ tacts_ok shs acts'
  | TPredict i :: acts' => i < length shs /\ tacts_ok (if decide (shs !! i = Some ish) then shs ++ [osh] else shs) acts'
  | TTrain i j _ _ :: acts' => i < length shs /\ j < length shs /\ tacts_ok shs acts'
  | TMany is js _ epochs batch _ _ :: acts' =>
      Forall (fun i => i < length shs) is /\ Forall (fun j => j < length shs) js /\ (length is <> length js \/ is <> [] \/ epochs = 0 \/ batch = 0) /\ tacts_ok shs acts'
  | TLayer k _ :: acts' => k < nl /\ tacts_ok shs acts'
  | TModel _ :: acts' => tacts_ok shs acts'
  end.
Lemma ok_thistory cs : (forall (z : T) k, k <= length cs -> ndiv z (number k) <> None) -> NoDup (map c_i cs) -> chain_ok ish cs -> below ish cs = osh -> (0 < prodN osh)%N -> length cs = nl ->
  forall acts st par mb tr, Forall (fun v => shaped (vsh v) v) st -> pars_ok par ish cs -> Forall (mom_ok mb) cs -> tacts_ok (map vsh st) acts -> exists st' os, thistory ish osh cs (MkT st par mb tr) acts st' os.
Proof using Type.
  intros Hdiv Hnd Hc Hb Hpos Hnl. induction acts as [|a acts IH]; intros st par mb tr Hst Hp Hm Hok; [exists (MkT st par mb tr), []; constructor|].
  assert (Hlk : forall i sh, map vsh st !! i = Some sh -> exists x, st !! i = Some x /\ vsh x = sh /\ shaped sh x).
  { intros i sh Hi. rewrite list_lookup_fmap in Hi. destruct (st !! i) as [x|] eqn:Ex; [|discriminate]. injection Hi as Hi. exists x. split; [reflexivity|]. split; [exact Hi|]. rewrite Forall_lookup in Hst. rewrite <- Hi. exact (Hst i x Ex). }
  destruct a as [sh0 vs|i|i|i j al mo|is js picks epochs batch al mo|k b|b]; cbn [tacts_ok] in Hok.
  - destruct Hok as (Hf & Hl & Hok). destruct (IH (st ++ [V sh0 vs]) par mb tr) as (st' & os & Hh); [|exact Hp|exact Hm|rewrite map_app; exact Hok|exists st', (Some [] :: os); econstructor; [constructor; assumption|exact Hh]].
    apply Forall_app. split; [exact Hst|]. repeat constructor. exact Hl.
  - destruct Hok as [Hi Hok]. rewrite map_length in Hi. destruct (lookup_lt_is_Some_2 _ _ Hi) as [x Hx]. destruct (IH st par mb tr Hst Hp Hm Hok) as (st' & os & Hh).
    exists st', (Some (vdata x) :: os). econstructor; [constructor; exact Hx|exact Hh].
  - destruct Hok as [Hi Hok]. rewrite map_length in Hi. destruct (lookup_lt_is_Some_2 _ _ Hi) as [x Hx]. destruct (decide _) as [E|E].
    + destruct (Hlk _ _ E) as (x' & Hx' & Hxs & Hxx). assert (x' = x) as -> by congruence. destruct (out_total par ish x cs Hc Hp Hxx) as (y & Ey & Hy). rewrite Hb in Hy.
      destruct (IH (st ++ [y]) par mb tr) as (st' & os & Hh); [apply Forall_app; split; [exact Hst|]; repeat constructor; rewrite (proj1 Hy); apply Hy|exact Hp|exact Hm|rewrite map_app; cbn [map]; rewrite (proj1 Hy); exact Hok|].
      exists st', (Some [] :: os). econstructor; [econstructor; eassumption|exact Hh].
    + destruct (IH st par mb tr Hst Hp Hm Hok) as (st' & os & Hh). exists st', (None :: os). econstructor; [|exact Hh]. eapply ts_refuse; [exact Hx|]. intros Hs. apply E. rewrite list_lookup_fmap, Hx. cbn. congruence.
  - destruct Hok as (Hi & Hj & Hok). rewrite map_length in Hi, Hj. destruct (lookup_lt_is_Some_2 _ _ Hi) as [x Hx]. destruct (lookup_lt_is_Some_2 _ _ Hj) as [y Hy].
    pose proof Hst as Hst'. rewrite Forall_lookup in Hst'. pose proof (Hst' i x Hx) as Hxx. pose proof (Hst' j y Hy) as Hyy.
    assert (Hbad : vsh x <> ish \/ vsh y <> osh -> exists st' os, thistory ish osh cs (MkT st par mb tr) (TTrain i j al mo :: acts) st' os).
    { intros Hb'. destruct (IH st par mb tr Hst Hp Hm Hok) as (st' & os & Hh). exists st', (None :: os). econstructor; [eapply ts_train_bad; eassumption|exact Hh]. }
    destruct (decide (vsh x = ish)) as [Hxs|Hxs]; [|apply Hbad; auto]. destruct (decide (vsh y = osh)) as [Hys|Hys]; [|apply Hbad; auto]. rewrite Hxs in Hxx. rewrite Hys in Hyy.
    destruct (train_total par mb al mo ish cs x y Hdiv Hnd Hc Hp Hm) as (k & par' & mb' & Et & Hp' & Hm'); [rewrite Hb; exact Hpos|exact Hxx|rewrite Hb; exact Hyy|].
    destruct (IH st (s_keep tr par par') mb' tr Hst (keep_ok tr _ _ _ _ Hp Hp') Hm' Hok) as (st' & os & Hh). exists st', (Some [k] :: os). econstructor; [eapply ts_train; eassumption|exact Hh].
  - destruct Hok as (Hi & Hj & Hne & Hok). rewrite map_length in Hi, Hj. destruct (decide (length is = length js)) as [Hlen|Hlen].
    + assert (Hpr : forall is js, length is = length js -> Forall (fun i => i < length st) is -> Forall (fun j => j < length st) js ->
        exists pairs, Forall2 (fun i (xy : vten T * vten T) => st !! i = Some (fst xy)) is pairs /\ Forall2 (fun j (xy : vten T * vten T) => st !! j = Some (snd xy)) js pairs /\ Forall (fun xy : vten T * vten T => shaped (vsh (fst xy)) (fst xy) /\ shaped (vsh (snd xy)) (snd xy)) pairs).
      { clear - Hst. rewrite Forall_lookup in Hst. induction is as [|i is IH]; intros [|j js] Hl Fi Fj; try discriminate; [exists []; repeat constructor|]. apply Forall_cons in Fi as [Hi Fi]. apply Forall_cons in Fj as [Hj Fj]. destruct (IH js ltac:(cbn in Hl; lia) Fi Fj) as (pairs & P1 & P2 & P3).
        destruct (lookup_lt_is_Some_2 _ _ Hi) as [x Hx]. destruct (lookup_lt_is_Some_2 _ _ Hj) as [y Hy]. exists ((x, y) :: pairs). split; [constructor; assumption|]. split; constructor; try assumption. split; cbn [fst snd]; eapply Hst; eassumption. }
      destruct (Hpr is js Hlen Hi Hj) as (pairs & P1 & P2 & P3). assert (Hn : pairs <> [] \/ epochs = 0 \/ batch = 0).
      { destruct Hne as [Hne|[Hne|Hne]]; [contradiction| |right; exact Hne]. left. intros ->. inversion P1. congruence. }
      assert (Hpk : Forall (fun k => k < length pairs) (NetScript.picked picks (length pairs) epochs (if batch =? 0 then length pairs else batch))).
      { destruct pairs as [|xy pairs']; [|apply picked_lt; cbn; lia]. destruct Hn as [Hn|[->| ->]]; [contradiction|constructor|]. cbn. unfold NetScript.picked. cbn. induction (seq 0 epochs) as [|z l IHl]; [constructor|exact IHl]. }
      destruct (trains_total tr al mo ish cs pairs Hdiv Hnd Hc) with (ks := NetScript.picked picks (length pairs) epochs (if batch =? 0 then length pairs else batch)) (par := par) (mb := mb) as (par' & mb' & Hp' & Hm' & Hcase);
        [rewrite Hb; exact Hpos|exact P3|exact Hpk|exact Hp|exact Hm|]. rewrite Hb in Hcase.
      destruct (IH st par' mb' tr Hst Hp' Hm' Hok) as (st' & os & Hh). destruct Hcase as [Et|(ks1 & k & ks2 & x & y & Ek & Et & Exy & Hbad)].
      * exists st', (Some [] :: os). econstructor; [eapply ts_many; eassumption|exact Hh].
      * exists st', (None :: os). econstructor; [eapply ts_many_stop; eassumption|exact Hh].
    + destruct (IH st par mb tr Hst Hp Hm Hok) as (st' & os & Hh). exists st', (None :: os). econstructor; [eapply ts_many_bad; eassumption|exact Hh].
  - destruct Hok as [Hk Hok]. destruct (lookup_lt_is_Some_2 (rev cs) k) as [c Ec]; [rewrite rev_length, Hnl; exact Hk|]. destruct (IH st par mb (tag_one (c_i c) b tr) Hst Hp Hm Hok) as (st' & os & Hh).
    exists st', (Some [] :: os). econstructor; [eapply ts_layer; exact Ec|exact Hh].
  - destruct (IH st par mb (tag_all cs b tr) Hst Hp Hm Hok) as (st' & os & Hh). exists st', (Some [] :: os). econstructor; [apply ts_model|exact Hh].
Qed.
End Acts.

(** ** The start *)
Lemma drawn_sized rnd sh v : drawn rnd sh v -> shaped sh v.
Proof using Type. intros (k & ->). split; [reflexivity|]. cbn. rewrite map_length, seq_length. reflexivity. Qed.
Lemma starts_pars rnd ish par cs : starts rnd ish par cs -> pars_ok par ish cs.
Proof using Type.
  induction cs as [|c rest IH]; intros Hs; [exact I|]. destruct Hs as [Hc Hs]. split; [|exact (IH Hs)]. intros l bs ws El Hps. destruct (Hc l bs ws El Hps) as (b & w & Eb & Hb & Hw). exists b, w. split; [exact Eb|]. split; eapply drawn_sized; eassumption.
Qed.
Lemma starts_moms par ish cs : chain_ok ish cs -> pars_ok par ish cs -> Forall (mom_ok (still par)) cs.
Proof using Type.
  induction cs as [|c rest IH]; intros Hc Hp; [constructor|]. destruct Hc as (Hl & _ & _ & Hc), Hp as [Hpc Hp]. constructor; [|exact (IH Hc Hp)]. intros Hm. unfold has_mom in Hm. unfold lay_ok in Hl. destruct (c_l c) as [l|] eqn:El; [|discriminate].
  destruct Hl as (Hls & _). destruct (par_some l _ _ Hls) as [ws Hps]; [destruct l; try discriminate; reflexivity|]. destruct (Hpc l _ _ El Hps) as (b & w & Eb & Hb & _). unfold still. rewrite Eb. cbn. eexists. split; [reflexivity|]. rewrite (proj1 Hb). apply zero_shaped.
Qed.
(** What a convolution, a pooling layer, a normalisation and a softmax need
    besides. *)
Fixpoint chain_runs (ish : list N) cs : Prop :=
  match cs with [] => True | c :: rest => (forall l, c_l c = Some l -> runs l (below ish rest)) /\ chain_runs ish rest end.
Lemma chain_from_ok ish (ks : list (lay1 T)) : forall n cs cs', chain_from n cs ks = Some cs' -> cs <> [] -> Forall (fun c => c_i c < n) cs -> NoDup (map c_i cs) -> (chain_runs ish cs -> chain_ok ish cs) ->
  NoDup (map c_i cs') /\ (chain_runs ish cs' -> chain_ok ish cs').
Proof using Type.
  induction ks as [|k ks IH]; intros n cs cs' Hc Hne Hlt Hnd Hok; cbn [chain_from] in Hc; [injection Hc as <-; auto|]. destruct cs as [|q r]; [congruence|].
  destruct (lay_shape (spec1 k) (c_sh q)) as [sh|] eqn:Es; [|discriminate]. cbn [mbind option_bind] in Hc. destruct (train_fit (spec1 k) (c_sh q)) eqn:Et; [|discriminate].
  eapply IH; [exact Hc|discriminate| | |].
  - constructor; [cbn; lia|]. eapply Forall_impl; [exact Hlt|]. cbn. lia.
  - cbn [map c_i]. constructor; [|exact Hnd]. intros Hin. apply (elem_of_list_fmap c_i (q :: r)) in Hin as (c & Ec & Hc'). rewrite Forall_forall in Hlt. specialize (Hlt c Hc'). lia.
  - intros [Hr Hrs]. split; [unfold lay_ok; cbn [c_l c_sh below]; split; [exact Es|]; split; [exact Et|exact (Hr _ eq_refl)]|]. split; [discriminate|]. split; [discriminate|exact (Hok Hrs)].
Qed.
Lemma chain_of_ok (b : nat) (m0 : mk T) ks cs : chain_of b m0 ks = Some cs -> NoDup (map c_i cs) /\ (chain_runs (in_of m0) cs -> chain_ok (in_of m0) cs).
Proof using Type.
  unfold chain_of. destruct m0 as [sh|i o a|? ?|? ? ?]; try discriminate; intros Hc; cbn [in_of].
  - eapply chain_from_ok; [exact Hc|discriminate|repeat constructor|cbn; apply NoDup_singleton|]. intros _. split; [reflexivity|]. split; [auto|]. split; [congruence|exact I].
  - destruct (lay_shape _ [i]) as [sh|] eqn:Es in Hc; [|discriminate]. cbn [mbind option_bind] in Hc. destruct (train_fit _ _) eqn:Et in Hc; [|discriminate].
    eapply chain_from_ok; [exact Hc|discriminate|repeat constructor|cbn; apply NoDup_singleton|]. intros _. split; [unfold lay_ok; cbn [c_l c_sh below]; split; [exact Es|]; split; [exact Et|exact I]|]. split; [auto|]. split; [congruence|exact I].
Qed.
End TrnTotal.
