(** * DescLay: what layers compute and hand back, cell by cell *)
From Coq Require Import Reals Lra.
From Verif Require Import Base Num NumReal ModelTools Spec IndexProofs TensorFacts BuildProofs BuildProofs3 EagerOps NetSpec FwdSpec FwdTotal FwdScript BwdSpec
  TrnSpec TrnScript TrnProg TrnTotal GradSpec GradProofs AdjSpec AdjSum AdjConv AdjDeconv AdjPool DescSpec.
From Coq Require Import Lia.
Open Scope R_scope.
#[local] Existing Instance NumR.
Notation inr := (Forall2 (fun i d => (i < d)%N)).

(** ** Sums *)
Lemma slope_det F d x idx s s' : slope F d x idx s -> slope F d x idx s' -> s = s'.
Proof.
  intros (f & Hf & Lf) (g & Hg & Lg). apply (uniqueness_limite f (ent x idx)); [exact Lf|]. apply (lim_ext g); [|exact Lg].
  intros r. destruct (Hf r) as (y & Ey & ->), (Hg r) as (z & Ez & ->). congruence.
Qed.
Lemma lin_pair {K} osh xsh (L : list N -> list K) (src : list N -> K -> list N) (cf : list N -> K -> R) (d be : list N -> R) :
  (forall o k, inr o osh -> k ∈ L o -> inr (src o k) xsh) ->
  sm (fun i => sm (fun o => d o * sm (fun k => if decide (src o k = i) then cf o k else 0) (L o)) (indices osh) * be i) (indices xsh) =
  sm (fun o => d o * sm (fun k => cf o k * be (src o k)) (L o)) (indices osh).
Proof.
  intros Hs. rewrite (sm_ext _ (fun i => sm (fun o => d o * sm (fun k => if decide (src o k = i) then cf o k * be i else 0) (L o)) (indices osh))).
  2:{ intros i _. rewrite <- sm_scale_r. apply sm_ext. intros o _. rewrite Rmult_assoc. f_equal. rewrite <- sm_scale_r. apply sm_ext. intros k _. destruct (decide _); lra. }
  rewrite sm_swap. apply sm_ext. intros o Ho. apply elem_of_indices in Ho. rewrite sm_scale. f_equal. rewrite sm_swap. apply sm_ext. intros k Hk.
  rewrite (sm_one _ (src o k)); [rewrite decide_True by reflexivity; reflexivity|apply indices_NoDup|apply elem_of_indices; apply Hs; assumption|].
  intros i _ E. rewrite decide_False by congruence. reflexivity.
Qed.

(** ** Cells *)
Lemma ent_map f sh n o : shaped sh n -> inr o sh -> ent (v_map f n) o = f (ent n o).
Proof.
  intros Hn Ho. unfold v_map. rewrite (data_ents sh n Hn), (proj1 Hn), map_map. apply (ent_list sh (fun i => f (ent n i)) o Ho).
Qed.
Lemma ent_V sh (v : vten R) idx : vsh v = sh -> ent (V sh (vdata v)) idx = ent v idx.
Proof. intros <-. destruct v. reflexivity. Qed.
Lemma ent_zero sh idx : ent (vzero sh) idx = 0.
Proof.
  unfold ent, vzero. cbn [vsh vdata]. unfold at_. destruct (flat sh idx) as [k|]; [|reflexivity]. cbn [mbind option_bind]. destruct (replicate _ _ !! _) as [r|] eqn:E; [|reflexivity].
  apply lookup_replicate_1 in E as [-> _]. reflexivity.
Qed.
Lemma vten_eq sh (v w : vten R) : shaped sh v -> shaped sh w -> (forall i, inr i sh -> ent v i = ent w i) -> v = w.
Proof.
  intros Hv Hw E. destruct v as [s1 d1], w as [s2 d2]. pose proof (data_ents sh _ Hv) as E1. pose proof (data_ents sh _ Hw) as E2. destruct Hv as [H1 _], Hw as [H2 _]. cbn in H1, H2, E1, E2. subst s1 s2. f_equal.
  rewrite E1, E2. apply map_ext_in. intros i Hi. apply E. apply elem_of_indices, elem_of_list_In. exact Hi.
Qed.
Lemma scal_cells o sh v (k : R) : shaped sh v -> (forall z, bin o z k <> None) -> exists g, v_scal o v k = Some g /\ shaped sh g /\ forall idx, inr idx sh -> Some (ent g idx) = bin o (ent v idx) k.
Proof.
  intros Hv Hb. unfold v_scal. rewrite (mapM_fn _ (fun z => default 0 (bin o z k))); [|intros z _; specialize (Hb z); destruct (bin o z k); [reflexivity|congruence]]. cbn [mbind option_bind].
  eexists. split; [reflexivity|]. split; [split; [apply Hv|cbn; rewrite map_length; apply Hv]|]. intros idx Hi. rewrite (data_ents sh v Hv), (proj1 Hv), map_map, (ent_list sh _ idx Hi).
  specialize (Hb (ent v idx)). destruct (bin o (ent v idx) k); [reflexivity|congruence].
Qed.
Lemma mul_cells sh v (k : R) : shaped sh v -> exists g, v_scal BMul v k = Some g /\ shaped sh g /\ forall idx, inr idx sh -> ent g idx = ent v idx * k.
Proof. intros Hv. destruct (scal_cells BMul sh v k Hv) as (g & E & Hs & Hc); [discriminate|]. exists g. split; [exact E|]. split; [exact Hs|]. intros idx Hi. specialize (Hc idx Hi). injection Hc as ->. reflexivity. Qed.
Lemma add_cells sh v w : shaped sh v -> shaped sh w -> exists g, v_bin BAdd v w = Some g /\ shaped sh g /\ forall idx, inr idx sh -> ent g idx = ent v idx + ent w idx.
Proof.
  intros Hv Hw. unfold v_bin. rewrite (proj1 Hv). apply tabulate_fn. intros idx Hi. rewrite (at_ents sh v idx Hv Hi). cbn [mbind option_bind]. rewrite (at_ent sh w idx Hw Hi). reflexivity.
Qed.
Lemma number_INR k : number k = INR (S k).
Proof.
  induction k as [|k IH]; [cbn; lra|]. change (number (S k)) with (number k + (0 + 1)). rewrite IH. rewrite !S_INR. lra.
Qed.
Lemma INR_pos k : 0 < INR (S k).
Proof. apply lt_0_INR. lia. Qed.
Lemma share_cells sh d k : shaped sh d -> exists e, share (number k) d = Some e /\ shaped sh e /\ forall idx, inr idx sh -> ent e idx = / INR (S k) * ent d idx.
Proof.
  intros Hd. unfold share. rewrite number_INR. cbn [nltb none NumR]. destruct (Rlt_dec 1 (INR (S k))) as [Hl|Hl].
  - destruct (scal_cells BDiv sh d (INR (S k)) Hd) as (e & E & Hs & He); [discriminate|]. exists e. split; [exact E|]. split; [exact Hs|]. intros idx Hi. specialize (He idx Hi). cbn in He. injection He as ->. unfold Rdiv. apply Rmult_comm.
  - exists d. split; [reflexivity|]. split; [exact Hd|]. intros idx _. assert (E : INR (S k) = 1); [|rewrite E; lra]. apply Rle_antisym; [lra|]. rewrite S_INR. pose proof (pos_INR k). lra.
Qed.
Lemma tabulate_map sh (G G' : list N -> option R) f : (forall idx, G' idx = option_map f (G idx)) -> tabulate sh G' = option_map (v_map f) (tabulate sh G).
Proof.
  intros E. unfold tabulate. assert (Em : forall l, mapM G' l = option_map (map f) (mapM G l)).
  { induction l as [|i l IH]; [reflexivity|]. cbn. rewrite E, IH. destruct (G i); cbn; [|reflexivity]. destruct (mapM G l); reflexivity. }
  rewrite Em. destruct (mapM G (indices sh)); reflexivity.
Qed.
Lemma plain_map l p (x : vten R) : has_par l = true -> lay_val l p x = option_map (v_map (lact l)) (lay_val (plainly l) p x).
Proof.
  destruct l; try discriminate; intros _; destruct p as [[b w]|]; try reflexivity; cbn [lay_val plainly lact mbind option_bind].
  - apply tabulate_map. intros idx. destruct (head idx); [|reflexivity]. cbn [mbind option_bind]. destruct (mapM _ _); [|reflexivity]. cbn [mbind option_bind]. destruct (at_ _ _ _); reflexivity.
  - apply tabulate_map. intros [|F [|X [|Y []]]]; try reflexivity. destruct (mapM _ _); [|reflexivity]. cbn [mbind option_bind]. destruct (fold1 _ _); [|reflexivity]. cbn [mbind option_bind]. destruct (at_ _ _ _); reflexivity.
  - apply tabulate_map. intros [|F [|X [|Y []]]]; try reflexivity. destruct (mapM _ _); [|reflexivity]. cbn [mbind option_bind]. destruct (at_ _ _ _); reflexivity.
Qed.

(** ** Layers with parameters *)
Definition sp (c : clay R) (k : nat) : R := match c_l c with Some (SDense _ _) => / INR (S k) | _ => 1 end.
Definition mom (mb : nat -> option (vten R)) (c : clay R) (idx : list N) : R := if has_mom c then match mb (c_i c) with Some v => ent v idx | None => 0 end else 0.
Definition square (l : lspec R) : Prop := match l with SConv _ kw kh sx sy _ => kw = kh /\ sx = sy | _ => True end.
Record lin_form (psh : list N) (c : clay R) (l : lspec R) (ws : list N) (L : list N -> list (list N)) (src wsrc : list N -> list N -> list N) : Prop := {
  lf_src : forall o k, inr o (c_sh c) -> k ∈ L o -> inr (src o k) psh;
  lf_wsrc : forall o k, inr o (c_sh c) -> k ∈ L o -> inr (wsrc o k) ws;
  lf_val : forall b w x, shaped (c_sh c) b -> shaped ws w -> shaped psh x -> exists n, lay_val (plainly l) (Some (b, w)) x = Some n /\ shaped (c_sh c) n /\
    forall o, inr o (c_sh c) -> ent n o = ent b o + sm (fun k => ent x (src o k) * ent w (wsrc o k)) (L o);
  lf_in : forall (Rd : reading R) k (b w x a d : vten R), r_ref Rd (c_i c) = Some (number k) -> r_w Rd (c_i c) = Some w -> shaped (c_sh c) b -> shaped ws w -> shaped psh x -> shaped psh a -> shaped (c_sh c) d ->
    exists g, s_in Rd c (Some a) psh d = Some g /\ shaped psh g /\
      forall i, inr i psh -> ent g i = / INR (S k) * sm (fun o => ent d o * sm (fun k => if decide (src o k = i) then ent w (wsrc o k) else 0) (L o)) (indices (c_sh c)) * ent a i;
  lf_par : forall (Rd : reading R) mb k (al mo : R) (b w x d : vten R), r_ref Rd (c_i c) = Some (number k) -> r_b Rd (c_i c) = Some b -> r_w Rd (c_i c) = Some w -> r_x Rd (c_i c) = Some x -> mom_ok mb c ->
    shaped (c_sh c) b -> shaped ws w -> shaped psh x -> shaped (c_sh c) d ->
    exists b' w', s_par Rd mb al mo c d = Some (Some (b', w')) /\ shaped (c_sh c) b' /\ shaped ws w' /\
      (forall idx, inr idx (c_sh c) -> ent b' idx = ent b idx + al * (sp c k * ent d idx) + mo * mom mb c idx) /\
      (forall idx, inr idx ws -> ent w' idx = ent w idx + al * (sp c k * sm (fun o => ent d o * sm (fun k => if decide (wsrc o k = idx) then ent x (src o k) else 0) (L o)) (indices (c_sh c))));
}.
Lemma sum_scaled {K} (c : R) (sh : list N) (e d : list N -> R) (h : list N -> K -> R) (L : list N -> list K) : (forall o, inr o sh -> e o = c * d o) ->
  sm (fun o => e o * sm (h o) (L o)) (indices sh) = c * sm (fun o => d o * sm (h o) (L o)) (indices sh).
Proof. intros E. rewrite <- sm_scale. apply sm_ext. intros o Ho. apply elem_of_indices in Ho. rewrite (E o Ho). lra. Qed.

Lemma db_cells mb (c : clay R) al mo sh d : mom_ok mb c -> has_mom c = true -> c_sh c = sh -> shaped sh d ->
  exists g, s_db mb al mo (c_i c) d = Some g /\ shaped sh g /\ forall idx, inr idx sh -> ent g idx = ent d idx * al + mom mb c idx * mo.
Proof.
  intros Hm Hh Hc Hd. unfold mom_ok in Hm. destruct (Hm Hh) as (v & Ev & Hv). rewrite Hc in Hv. unfold s_db, mom. rewrite Hh, Ev. destruct (mul_cells sh d al Hd) as (da & -> & Hda & Ea). cbn [mbind option_bind].
  destruct (mul_cells sh v mo Hv) as (bm & -> & Hbm & Ebm). cbn [mbind option_bind]. destruct (add_cells sh da bm Hda Hbm) as (g & -> & Hg & Eg). exists g. split; [reflexivity|]. split; [exact Hg|].
  intros idx Hi. rewrite (Eg idx Hi), (Ea idx Hi), (Ebm idx Hi). reflexivity.
Qed.
Lemma lin_forms psh c l : c_l c = Some l -> has_par l = true -> lay_ok psh c -> square l -> exists ws L src wsrc, par_shape l psh = Some (c_sh c, ws) /\ lin_form psh c l ws L src wsrc.
Proof.
  intros El Hp Hok Hsq. unfold lay_ok in Hok. rewrite El in Hok. destruct Hok as (Hls & Htf & Hrun). destruct l as [o f|nf kw kh sx sy f|nf kw kh sx sy f|sx sy|sx sy| |mn mx| |dd s t]; try discriminate.
  - cbn [lay_shape train_fit par_shape square] in *. destruct (_ && _) in Hls; [|discriminate]. injection Hls as Hls. apply N.ltb_lt in Htf. exists [o; prodN psh], (fun _ => indices psh), (fun _ k => k), (ecol psh). rewrite <- Hls. split; [reflexivity|].
    assert (Hsp : forall k, sp c k = / INR (S k)) by (intros k; unfold sp; rewrite El; reflexivity).
    assert (Hhm : has_mom c = false) by (unfold has_mom; rewrite El; reflexivity). split; rewrite <- Hls.
    + intros u k _ Hk. apply elem_of_indices. exact Hk.
    + intros u k Hu Hk. apply (ecol_in o psh u k Hu Hk).
    + intros b w x Hb Hw Hx. cbn [lay_val plainly mbind option_bind]. apply dense_val; assumption.
    + intros Rd k b w x a d Er Ew Hb Hw Hx Ha Hd. unfold s_in. rewrite El, Er. cbn [mbind option_bind]. destruct (share_cells [o] d k Hd) as (e & -> & He & Ee). cbn [mbind option_bind]. rewrite Ew. cbn [mbind option_bind].
      destruct (dense_x_grad o psh Htf e b w x He Hb Hw Hx a (vzero psh) Ha (zero_shaped _)) as (g & -> & Hg & Eg). exists g. split; [reflexivity|]. split; [exact Hg|].
      intros i Hi. destruct (Eg i Hi) as (s & Hs & ->). rewrite (slope_det _ _ _ _ _ _ Hs (dense_x_slope o psh e b w x He Hb Hw Hx i)), ent_zero, Rplus_0_l. f_equal. apply sum_scaled. exact Ee.
    + intros Rd mb k al mo b w x d Er Eb Ew Ex Hm Hb Hw Hx Hd. unfold s_par, c_par. rewrite El. cbn [has_par]. unfold s_bias, s_weights. rewrite El, Er, Eb, Ew, Ex. cbn [mbind option_bind]. destruct (share_cells [o] d k Hd) as (e & -> & He & Ee). cbn [mbind option_bind].
      rewrite (proj1 Hb), (proj1 Hw). destruct (dense_b_grad o psh e b w x He Hb Hw Hx al mo (vzero [o]) (zero_shaped _)) as (b' & -> & Hb' & Eb'). cbn [mbind option_bind].
      destruct (dense_w_grad o psh e b w x He Hb Hw Hx al mo (vzero [o; prodN psh]) (zero_shaped _)) as (w' & -> & Hw' & Ew'). cbn [mbind option_bind]. exists b', w'. split; [reflexivity|]. split; [exact Hb'|]. split; [exact Hw'|]. split; intros idx Hi.
      * destruct (Eb' idx Hi) as (s & Hs & ->). rewrite (slope_det _ _ _ _ _ _ Hs (dense_b_slope o psh e b w x He Hb Hw Hx idx Hi)), ent_zero, (Ee idx Hi), Hsp. unfold mom. rewrite Hhm. lra.
      * destruct (Ew' idx Hi) as (s & Hs & ->). rewrite (slope_det _ _ _ _ _ _ Hs (dense_w_slope o psh e b w x He Hb Hw Hx idx)), ent_zero, Hsp. rewrite (sum_scaled (/ INR (S k)) [o] (ent e) (ent d) (fun u k => if decide (ecol psh u k = idx) then ent x k else 0) (fun _ => indices psh) Ee). lra.
  - cbn [lay_shape train_fit par_shape runs square] in *. destruct psh as [|c0 [|w0 [|h0 []]]]; try discriminate. destruct (_ && _) eqn:Ec in Hls; [|discriminate]. injection Hls as Hls. destruct Hsq as [<- <-].
    apply andb_prop in Ec as [Ec _]. apply andb_prop in Ec as [Ec _]. repeat (apply andb_prop in Ec as [Ec ?]). repeat match goal with H : (_ <? _)%N = true |- _ => apply N.ltb_lt in H | H : (_ <=? _)%N = true |- _ => apply N.leb_le in H end.
    set (ow := ((w0 - kw) / sx + 1)%N) in *. set (oh := ((h0 - kw) / sx + 1)%N) in *. assert (Hfx : ((ow - 1) * sx + kw <= w0)%N) by (apply conv_pos; [lia|lia|unfold ow; rewrite N.add_1_r; lia]).
    assert (Hfy : ((oh - 1) * sx + kw <= h0)%N) by (apply conv_pos; [lia|lia|unfold oh; rewrite N.add_1_r; lia]). assert (How : (0 < ow)%N) by (unfold ow; rewrite N.add_1_r; lia). assert (Hoh : (0 < oh)%N) by (unfold oh; rewrite N.add_1_r; lia).
    assert (Hsh : conv_shape nf kw kw sx sx w0 h0 = [nf; ow; oh]) by reflexivity. rewrite Hsh in Hls. clearbody ow oh.
    exists [nf; c0; kw; kw], (fun _ => indices [c0; kw; kw]), (csrc sx sx), wsrc. rewrite Hsh, <- Hls. split; [reflexivity|]. assert (Hsp : forall k, sp c k = 1) by (intros k; unfold sp; rewrite El; reflexivity).
    assert (Hhm : has_mom c = true) by (unfold has_mom; rewrite El; reflexivity). split; rewrite <- Hls.
    + intros u k Hu Hk. eapply csrc_in; eassumption.
    + intros u k Hu Hk. eapply wsrc_in; eassumption.
    + intros b w x Hb Hw Hx. cbn [lay_val plainly mbind option_bind]. eapply conv_val; eassumption.
    + intros Rd k b w x a d Er Ew Hb Hw Hx Ha Hd. unfold s_in. rewrite El, Er. cbn [mbind option_bind]. destruct (share_cells [nf; ow; oh] d k Hd) as (e & -> & He & Ee). cbn [mbind option_bind]. rewrite Ew. cbn [mbind option_bind].
      edestruct (conv_x_grad nf ow oh c0 w0 h0 kw kw sx sx) with (d := e) (b := b) (wt := w) (x := x) (a := a) (p := vzero [c0; w0; h0]) as (g & -> & Hg & Eg); try eassumption; [reflexivity|apply zero_shaped|]. exists g. split; [reflexivity|]. split; [exact Hg|].
      intros i Hi. destruct (Eg i Hi) as (s & Hs & ->). erewrite (slope_det _ _ _ _ s _ Hs); [|eapply conv_x_slope with (nf := nf) (ow := ow) (oh := oh) (c := c0) (w := w0) (h := h0); eassumption]. rewrite ent_zero, Rplus_0_l. f_equal. apply sum_scaled. exact Ee.
    + intros Rd mb k al mo b w x d Er Eb Ew Ex Hm Hb Hw Hx Hd. unfold s_par, c_par. rewrite El. cbn [has_par]. unfold s_bias, s_weights. rewrite El, Eb, Ew, Ex. cbn [mbind option_bind].
      destruct (db_cells mb c al mo [nf; ow; oh] d Hm Hhm (eq_sym Hls) Hd) as (db & -> & Hdb & Edb). cbn [mbind option_bind]. destruct (add_cells _ b db Hb Hdb) as (b' & -> & Hb' & Eb'). cbn [mbind option_bind].
      destruct (mul_cells _ d al Hd) as (da & -> & Hda & Eda). cbn [mbind option_bind]. rewrite (proj1 Hw). destruct (mul_cells _ (vzero [nf; c0; kw; kw]) mo (zero_shaped _)) as (m & -> & Hms & Em). cbn [mbind option_bind].
      edestruct (conv_w_grad nf ow oh c0 w0 h0 kw kw sx sx) with (d := da) (b := b) (wt := w) (x := x) (m := m) as (w' & -> & Hw' & Ew'); try eassumption; [reflexivity|]. cbn [mbind option_bind]. exists b', w'. split; [reflexivity|]. split; [exact Hb'|]. split; [exact Hw'|]. split; intros idx Hi.
      * rewrite (Eb' idx Hi), (Edb idx Hi), Hsp. lra.
      * destruct (Ew' idx Hi) as (s & Hs & ->). erewrite (slope_det _ _ _ _ s _ Hs); [|eapply conv_w_slope with (nf := nf) (ow := ow) (oh := oh) (c := c0) (w := w0) (h := h0); eassumption]. rewrite (Em idx Hi), ent_zero, Hsp.
        rewrite (sum_scaled al [nf; ow; oh] (ent da) (ent d) (fun u k => if decide (wsrc u k = idx) then ent x (csrc sx sx u k) else 0) (fun _ => indices [c0; kw; kw])) by (intros u Hu; rewrite (Eda u Hu); apply Rmult_comm). lra.
  - cbn [lay_shape train_fit par_shape runs square] in *. destruct psh as [|c0 [|w0 [|h0 []]]]; try discriminate. destruct (_ && _) eqn:Ec in Hls; [|discriminate]. injection Hls as Hls.
    apply andb_prop in Ec as [Ec _]. apply andb_prop in Ec as [Ec _]. apply andb_prop in Ec as [Hw0 Hh0]. apply andb_prop in Htf as [Htf Hkh]. apply andb_prop in Htf as [Hnf Hkw]. apply N.ltb_lt in Hw0, Hh0, Hnf, Hkw, Hkh.
    unfold deconv_shape in Hls. set (ow := ((w0 - 1) * sx + kw)%N) in *. set (oh := ((h0 - 1) * sy + kh)%N) in *. assert (Hfx : ((w0 - 1) * sx + kw <= ow)%N) by (unfold ow; lia). assert (Hfy : ((h0 - 1) * sy + kh <= oh)%N) by (unfold oh; lia).
    assert (Hsh : deconv_shape nf kw kh sx sy w0 h0 = [nf; ow; oh]) by reflexivity. clearbody ow oh.
    exists [nf; c0; kw; kh], (dpairs c0 w0 h0 kw kh sx sy), dsrc, dker. rewrite Hsh, <- Hls. split; [reflexivity|]. assert (Hsp : forall k, sp c k = 1) by (intros k; unfold sp; rewrite El; reflexivity).
    assert (Hhm : has_mom c = true) by (unfold has_mom; rewrite El; reflexivity). split; rewrite <- Hls.
    + intros u k Hu Hk. eapply dsrc_in; eassumption.
    + intros u k Hu Hk. eapply dker_in; eassumption.
    + intros b w x Hb Hw Hx. cbn [lay_val plainly mbind option_bind]. eapply deconv_val; eassumption.
    + intros Rd k b w x a d Er Ew Hb Hw Hx Ha Hd. unfold s_in. rewrite El, Er. cbn [mbind option_bind]. destruct (share_cells [nf; ow; oh] d k Hd) as (e & -> & He & Ee). cbn [mbind option_bind]. rewrite Ew. cbn [mbind option_bind].
      edestruct (deconv_x_grad nf ow oh c0 w0 h0 kw kh sx sy) with (d := e) (b := b) (wt := w) (x := x) (a := a) (p := vzero [c0; w0; h0]) as (g & -> & Hg & Eg); try eassumption; [apply zero_shaped|]. exists g. split; [reflexivity|]. split; [exact Hg|].
      intros i Hi. destruct (Eg i Hi) as (s & Hs & ->). erewrite (slope_det _ _ _ _ s _ Hs); [|eapply deconv_x_slope with (nf := nf) (ow := ow) (oh := oh) (c := c0) (w := w0) (h := h0); eassumption]. rewrite ent_zero, Rplus_0_l. f_equal. apply sum_scaled. exact Ee.
    + intros Rd mb k al mo b w x d Er Eb Ew Ex Hm Hb Hw Hx Hd. unfold s_par, c_par. rewrite El. cbn [has_par]. unfold s_bias, s_weights. rewrite El, Eb, Ew, Ex. cbn [mbind option_bind].
      destruct (db_cells mb c al mo [nf; ow; oh] d Hm Hhm (eq_sym Hls) Hd) as (db & -> & Hdb & Edb). cbn [mbind option_bind]. destruct (add_cells _ b db Hb Hdb) as (b' & -> & Hb' & Eb'). cbn [mbind option_bind].
      destruct (mul_cells _ d al Hd) as (da & -> & Hda & Eda). cbn [mbind option_bind]. rewrite (proj1 Hw). destruct (mul_cells _ (vzero [nf; c0; kw; kh]) mo (zero_shaped _)) as (m & -> & Hms & Em). cbn [mbind option_bind].
      edestruct (deconv_w_grad nf ow oh c0 w0 h0 kw kh sx sy) with (d := da) (b := b) (wt := w) (x := x) (m := m) as (w' & -> & Hw' & Ew'); try eassumption. cbn [mbind option_bind]. exists b', w'. split; [reflexivity|]. split; [exact Hb'|]. split; [exact Hw'|]. split; intros idx Hi.
      * rewrite (Eb' idx Hi), (Edb idx Hi), Hsp. lra.
      * destruct (Ew' idx Hi) as (s & Hs & ->). erewrite (slope_det _ _ _ _ s _ Hs); [|eapply deconv_w_slope with (nf := nf) (ow := ow) (oh := oh) (c := c0) (w := w0) (h := h0); eassumption]. rewrite (Em idx Hi), ent_zero, Hsp.
        rewrite (sum_scaled al [nf; ow; oh] (ent da) (ent d) (fun u k => if decide (dker u k = idx) then ent x (dsrc u k) else 0) (dpairs c0 w0 h0 kw kh sx sy)) by (intros u Hu; rewrite (Eda u Hu); apply Rmult_comm). lra.
Qed.
