(** * AdjDeconv: slopes of deconvolution, dense layers and up-sampling *)
From Coq Require Import Reals Lra.
From Verif Require Import Base Num NumReal ModelTools Spec IndexProofs TensorFacts BuildProofs BuildProofs3 EagerOps NetSpec FwdSpec FwdTotal GradSpec GradProofs BwdSpec AdjSpec AdjSum AdjConv.
From Coq Require Import Lia.
Open Scope R_scope.
#[local] Existing Instance NumR.

Lemma filter_in {A} (p : A -> bool) l x : x ∈ List.filter p l -> x ∈ l /\ p x = true.
Proof. intros Hx. apply elem_of_list_In, filter_In in Hx as [Hx Hp]. split; [apply elem_of_list_In; exact Hx|exact Hp]. Qed.
Lemma in5 k a b c d e : k ∈ indices [a; b; c; d; e] -> exists x y z u v, k = [x; y; z; u; v] /\ (x < a)%N /\ (y < b)%N /\ (z < c)%N /\ (u < d)%N /\ (v < e)%N.
Proof.
  intros Hi. apply elem_of_indices in Hi. inversion_clear Hi as [|x ? ? ? Hx Hi1]. apply inr4 in Hi1 as (y & z & u & v & -> & H1). exists x, y, z, u, v. tauto.
Qed.
Lemma inr1 idx a : inr idx [a] -> exists x, idx = [x] /\ (x < a)%N.
Proof. intros Hi. inversion Hi as [|x ? ? ? Hx Hi1]. subst. inversion Hi1. subst. eauto. Qed.
Lemma if_and (p q : bool) (r : R) : (if p && q then r else 0) = if p then if q then r else 0 else 0.
Proof. destruct p, q; reflexivity. Qed.

Section Deconv.
Variables (nf ow oh c w h kw kh sx sy : N).
Hypothesis (Hfx : ((w - 1) * sx + kw <= ow)%N) (Hfy : ((h - 1) * sy + kh <= oh)%N).
Let osh := [nf; ow; oh].
Let xsh := [c; w; h].
Let wsh := [nf; c; kw; kh].
(** The pairs of an input cell and a kernel cell that meet in an output cell. *)
Definition dpairs (o : list N) : list (list N) :=
  List.filter (fun k => match o, k with [F; X; Y], [i; x; y; u; v] => (x * sx + u =? X)%N && (y * sy + v =? Y)%N | _, _ => false end) (indices [c; w; h; kw; kh]).
Definition dsrc (o k : list N) : list N := match k with [i; x; y; u; v] => [i; x; y] | _ => [] end.
Definition dker (o k : list N) : list N := match o, k with F :: _, [i; x; y; u; v] => [F; i; u; v] | _, _ => [] end.
Lemma dsrc_in o k : inr o osh -> k ∈ dpairs o -> inr (dsrc o k) xsh.
Proof using Type. intros _ Hk. apply filter_in in Hk as [Hk _]. apply in5 in Hk as (i & x & y & u & v & -> & Hi & Hx & Hy & _). apply mk3; assumption. Qed.
Lemma dker_in o k : inr o osh -> k ∈ dpairs o -> inr (dker o k) wsh.
Proof using Type.
  intros Ho Hk. apply inr3 in Ho as (F & X & Y & -> & HF & _). apply filter_in in Hk as [Hk _]. apply in5 in Hk as (i & x & y & u & v & -> & Hi & _ & _ & Hu & Hv). apply mk4; assumption.
Qed.
Lemma deconv_val b wt x : shaped osh b -> shaped wsh wt -> shaped xsh x ->
  exists y, v_deconv kw kh sx sy (fun v => v) b wt x = Some y /\ shaped osh y /\
    forall o, inr o osh -> ent y o = ent b o + sm (fun k => ent x (dsrc o k) * ent wt (dker o k)) (dpairs o).
Proof using Type.
  intros Hb Hw Hx. unfold v_deconv. rewrite (proj1 Hb). apply tabulate_fn. intros o Ho.
  destruct (inr3 _ _ _ _ Ho) as (F & X & Y & -> & HF & HX & HY). rewrite (proj1 Hx). change (xsh ++ [kw; kh]) with [c; w; h; kw; kh].
  change (List.filter _ _) with (dpairs [F; X; Y]).
  rewrite (mapM_fn _ (fun k => ent x (dsrc [F; X; Y] k) * ent wt (dker [F; X; Y] k))).
  - cbn [mbind option_bind]. rewrite (at_ents osh b _ Hb Ho). cbn [mbind option_bind]. rewrite fold_sm. reflexivity.
  - intros k Hk. pose proof (dsrc_in _ _ Ho Hk) as H1. pose proof (dker_in _ _ Ho Hk) as H2. apply filter_in in Hk as [Hk _].
    apply in5 in Hk as (i & p & q & u & v & -> & _). cbn [dsrc dker] in *. rewrite (at_ents xsh x _ Hx H1). cbn [mbind option_bind]. rewrite (at_ent wsh wt _ Hw H2). reflexivity.
Qed.

Variables (d b wt x : vten R).
Hypothesis (Hd : shaped osh d) (Hb : shaped osh b) (Hw : shaped wsh wt) (Hx : shaped xsh x).
(** Summing over output cells the pairs that meet there is summing over all pairs. *)
Lemma meet (f : list N -> list N -> R) :
  sm (fun o => sm (f o) (dpairs o)) (indices osh) =
  sm (fun F => sm (fun k => match k with [i; x; y; u; v] => f [F; x * sx + u; y * sy + v]%N k | _ => 0 end) (indices [c; w; h; kw; kh])) (upto nf).
Proof using Hfx Hfy.
  clear Hd Hb Hw Hx. unfold osh. rewrite indices_cons, sm_flat. apply sm_ext. intros F HF. rewrite sm_map.
  rewrite (sm_ext _ (fun q => sm (fun k => if match q, k with [X; Y], [i; x; y; u; v] => (x * sx + u =? X)%N && (y * sy + v =? Y)%N | _, _ => false end then f (F :: q) k else 0) (indices [c; w; h; kw; kh]))).
  2:{ intros q Hq. apply elem_of_indices, inr2 in Hq as (X & Y & -> & _). unfold dpairs. rewrite sm_filter. reflexivity. }
  rewrite sm_swap. apply sm_ext. intros k Hk. destruct (in5 _ _ _ _ _ _ Hk) as (i & p & q & u & v & -> & Hi & Hp & Hq & Hu & Hv).
  rewrite (sm_one _ [(p * sx + u)%N; (q * sy + v)%N]).
  - rewrite !N.eqb_refl. reflexivity.
  - apply indices_NoDup.
  - apply elem_of_indices. repeat constructor; nia.
  - intros o Ho Hne. apply elem_of_indices, inr2 in Ho as (X & Y & -> & _). destruct (N.eqb_spec (p * sx + u) X); [|reflexivity]. destruct (N.eqb_spec (q * sy + v) Y); [|reflexivity]. subst. congruence.
Qed.
Lemma deconv_x_slope idx :
  slope (v_deconv kw kh sx sy (fun v => v) b wt) d x idx
    (sm (fun o => ent d o * sm (fun k => if decide (dsrc o k = idx) then ent wt (dker o k) else 0) (dpairs o)) (indices osh)).
Proof using Hd Hb Hw Hx.
  apply (slope_linear _ d x idx xsh osh (ent b) dpairs dsrc (fun o k => ent wt (dker o k))); [exact Hd|exact Hx|exact dsrc_in|].
  intros x' Hx'. apply deconv_val; assumption.
Qed.
Lemma deconv_w_slope idx :
  slope (fun wt => v_deconv kw kh sx sy (fun v => v) b wt x) d wt idx
    (sm (fun o => ent d o * sm (fun k => if decide (dker o k = idx) then ent x (dsrc o k) else 0) (dpairs o)) (indices osh)).
Proof using Hd Hb Hw Hx.
  apply (slope_linear _ d wt idx wsh osh (ent b) dpairs dker (fun o k => ent x (dsrc o k))); [exact Hd|exact Hw|exact dker_in|].
  intros w' Hw'. destruct (deconv_val b w' x Hb Hw' Hx) as (y & Hy & Hs & He). exists y. split; [exact Hy|]. split; [exact Hs|].
  intros o Ho. rewrite (He o Ho). f_equal. apply sm_ext. intros k Hk. apply Rmult_comm.
Qed.
Lemma deconv_b_slope idx : inr idx osh -> slope (fun b => v_deconv kw kh sx sy (fun v => v) b wt x) d b idx (ent d idx).
Proof using Hd Hb Hw Hx.
  intros Hi.
  apply (slope_eq _ _ _ _ (sm (fun o => ent d o * sm (fun k => if decide (o = idx) then 1 else 0) [tt]) (indices osh))).
  { rewrite (sm_one _ idx); [rewrite sm_cons, sm_nil, decide_True by reflexivity; lra|apply indices_NoDup|apply elem_of_indices; exact Hi|].
    intros o _ Hne. rewrite sm_cons, sm_nil, decide_False by exact Hne. lra. }
  apply (slope_linear _ d b idx osh osh (fun o => sm (fun k => ent x (dsrc o k) * ent wt (dker o k)) (dpairs o)) (fun _ => [tt]) (fun o _ => o) (fun _ _ => 1)); [exact Hd|exact Hb|auto|].
  intros b' Hb'. destruct (deconv_val b' wt x Hb' Hw Hx) as (y & Hy & Hs & He). exists y. split; [exact Hy|]. split; [exact Hs|].
  intros o Ho. rewrite (He o Ho), sm_cons, sm_nil. lra.
Qed.

Theorem deconv_x_grad a p : (0 < nf)%N -> (0 < kw)%N -> (0 < kh)%N -> shaped xsh a -> shaped xsh p -> exists g, g_deconv_in kw kh sx sy d wt a p = Some g /\ shaped xsh g /\ forall idx, inr idx xsh ->
  exists s, slope (v_deconv kw kh sx sy (fun v => v) b wt) d x idx s /\ ent g idx = ent p idx + s * ent a idx.
Proof using All.
  intros Hnf Hkw Hkh Ha Hp. unfold g_deconv_in. rewrite (proj1 Hp). refine (tabulate_rel _ _ (fun idx r => exists s, slope (v_deconv kw kh sx sy (fun v => v) b wt) d x idx s /\ r = ent p idx + s * ent a idx) _). intros idx Hi. eexists. split. 2:{ eexists. split; [apply deconv_x_slope|reflexivity]. }
  rewrite (proj1 Hd). change (nth 0 osh 0%N) with nf.
  destruct (inr3 _ _ _ _ Hi) as (i & X & Y & -> & Hi' & HX & HY).
  rewrite (mapM_fn _ (fun q => match q with [F; u; v] => ent d [F; X * sx + u; Y * sy + v]%N * ent wt [F; i; u; v] | _ => 0 end)).
  - cbn [mbind option_bind]. rewrite fold1_sm by (apply ne_prod, prod3; assumption). cbn [mbind option_bind]. rewrite (el_ent xsh a _ Ha Hi). cbn [mbind option_bind].
    rewrite (el_ent xsh p _ Hp Hi). cbn [mbind option_bind]. do 2 f_equal. unfold nmul; cbn [NumR]. f_equal.
    rewrite indices_cons, sm_flat.
    rewrite (sm_ext (fun o => ent d o * _) (fun o => sm (fun k => ent d o * (if decide (dsrc o k = [i; X; Y]) then ent wt (dker o k) else 0)) (dpairs o)) (indices osh)) by (intros; symmetry; apply sm_scale).
    rewrite meet. apply sm_ext. intros F HF. rewrite sm_map. change [c; w; h; kw; kh] with ([c; w; h] ++ [kw; kh]). rewrite indices_app, sm_flat.
    symmetry. rewrite (sm_one _ [i; X; Y]); [|apply indices_NoDup|apply elem_of_indices; exact Hi|].
    + rewrite sm_map. apply sm_ext. intros q Hq. apply elem_of_indices, inr2 in Hq as (u & v & -> & _). cbn [app dsrc dker]. rewrite decide_True by reflexivity. reflexivity.
    + intros q Hq Hne. destruct (in3 _ _ _ _ Hq) as (i' & X' & Y' & -> & _). rewrite sm_map. apply sm_none. intros k Hk. apply elem_of_indices, inr2 in Hk as (u & v & -> & _).
      cbn [app dsrc]. rewrite decide_False by congruence. lra.
  - intros q Hq. apply in3 in Hq as (F & u & v & -> & HF & Hu & Hv).
    rewrite (el_ent osh d) by (try exact Hd; apply mk3; nia). cbn [mbind option_bind]. rewrite (el_ent wsh wt) by (try exact Hw; apply mk4; assumption). reflexivity.
Qed.
Theorem deconv_w_grad m : (0 < w)%N -> (0 < h)%N -> shaped wsh m -> exists g, g_deconv_w sx sy d x wt m = Some g /\ shaped wsh g /\ forall idx, inr idx wsh ->
  exists s, slope (fun wt => v_deconv kw kh sx sy (fun v => v) b wt x) d wt idx s /\ ent g idx = ent wt idx + s + ent m idx.
Proof using All.
  intros Hw0 Hh0 Hm. unfold g_deconv_w. rewrite (proj1 Hw). refine (tabulate_rel _ _ (fun idx r => exists s, slope (fun wt => v_deconv kw kh sx sy (fun v => v) b wt x) d wt idx s /\ r = ent wt idx + s + ent m idx) _). intros idx Hi. eexists. split. 2:{ eexists. split; [apply deconv_w_slope|reflexivity]. }
  rewrite (proj1 Hx). change (nth 1 xsh 0%N) with w. change (nth 2 xsh 0%N) with h.
  destruct (inr4 _ _ _ _ _ Hi) as (F & i & u & v & -> & HF & Hi' & Hu & Hv).
  rewrite (mapM_fn _ (fun q => match q with [X; Y] => ent d [F; X * sx + u; Y * sy + v]%N * ent x [i; X; Y] | _ => 0 end)).
  - cbn [mbind option_bind]. rewrite fold1_sm by (apply ne_prod; cbn; lia). cbn [mbind option_bind]. rewrite (el_ent wsh wt _ Hw Hi). cbn [mbind option_bind].
    rewrite (el_ent wsh m _ Hm Hi). cbn [mbind option_bind]. do 3 f_equal.
    rewrite (sm_ext (fun o => ent d o * _) (fun o => sm (fun k => ent d o * (if decide (dker o k = [F; i; u; v]) then ent x (dsrc o k) else 0)) (dpairs o)) (indices osh)) by (intros; symmetry; apply sm_scale).
    rewrite meet. symmetry. rewrite (sm_one _ F); [|apply NoDup_upto|apply elem_of_upto; exact HF|].
    + change [c; w; h; kw; kh] with ([c] ++ [w; h; kw; kh]). rewrite indices_app, sm_flat. rewrite (sm_one _ [i]); [|apply indices_NoDup|apply elem_of_indices; repeat constructor; exact Hi'|].
      * rewrite sm_map. change [w; h; kw; kh] with ([w; h] ++ [kw; kh]). rewrite indices_app, sm_flat. apply sm_ext. intros q Hq. apply elem_of_indices, inr2 in Hq as (X & Y & -> & HX & HY).
        rewrite sm_map. rewrite (sm_one _ [u; v]); [|apply indices_NoDup|apply elem_of_indices; repeat constructor; assumption|].
        -- cbn [app dker dsrc]. rewrite decide_True by reflexivity. reflexivity.
        -- intros k Hk Hne. apply elem_of_indices, inr2 in Hk as (u' & v' & -> & _). cbn [app dker]. rewrite decide_False by congruence. lra.
      * intros q Hq Hne. rewrite sm_map. apply sm_none. intros k Hk. apply elem_of_indices, inr4 in Hk as (X & Y & u' & v' & -> & _).
        apply elem_of_indices, inr1 in Hq as (i' & -> & _). cbn [app dker]. rewrite decide_False by congruence. lra.
    + intros F' _ Hne. apply sm_none. intros k Hk. apply in5 in Hk as (i' & X & Y & u' & v' & -> & _). cbn [dker]. rewrite decide_False by congruence. lra.
  - intros q Hq. apply elem_of_indices, inr2 in Hq as (X & Y & -> & HX & HY).
    rewrite (el_ent osh d) by (try exact Hd; apply mk3; nia). cbn [mbind option_bind]. rewrite (el_ent xsh x) by (try exact Hx; apply mk3; assumption). reflexivity.
Qed.
End Deconv.

(** ** Up-sampling *)
Section Up.
Variables (c w h sx sy : N).
Hypothesis (Hsx : (0 < sx)%N) (Hsy : (0 < sy)%N).
Let xsh := [c; w; h].
Let osh := [c; w * sx; h * sy]%N.
Definition usrc (o : list N) (_ : unit) : list N := match o with [F; X; Y] => [F; X / sx; Y / sy]%N | _ => [] end.
Lemma usrc_in o k : inr o osh -> k ∈ [tt] -> inr (usrc o k) xsh.
Proof using Hsx Hsy.
  intros Ho _. apply inr3 in Ho as (F & X & Y & -> & HF & HX & HY). apply mk3; [exact HF|apply N.div_lt_upper_bound; lia|apply N.div_lt_upper_bound; lia].
Qed.
Lemma up_val x : shaped xsh x -> exists y, v_up sx sy x = Some y /\ shaped osh y /\ forall o, inr o osh -> ent y o = 0 + sm (fun k => ent x (usrc o k) * 1) [tt].
Proof using Hsx Hsy.
  intros Hx. unfold v_up. rewrite (proj1 Hx). apply tabulate_fn. intros o Ho. pose proof (usrc_in o tt Ho ltac:(left)) as Hs.
  destruct (inr3 _ _ _ _ Ho) as (F & X & Y & -> & HF & HX & HY). cbn [usrc] in Hs. rewrite <- (proj1 Hx), (at_ent xsh x _ Hx Hs). rewrite sm_cons, sm_nil. cbn [usrc]. f_equal. lra.
Qed.
Theorem up_grad d x : shaped osh d -> shaped xsh x -> exists g, g_up sx sy d xsh = Some g /\ shaped xsh g /\ forall idx, inr idx xsh -> slope (v_up sx sy) d x idx (ent g idx).
Proof using Hsx Hsy.
  intros Hd Hx. unfold g_up. refine (tabulate_rel _ _ (fun idx r => slope (v_up sx sy) d x idx r) _). intros idx Hi.
  exists (sm (fun o => ent d o * sm (fun k => if decide (usrc o k = idx) then 1 else 0) [tt]) (indices osh)). split.
  2:{ apply (slope_linear (v_up sx sy) d x idx xsh osh (fun _ => 0) (fun _ => [tt]) usrc (fun _ _ => 1)); [exact Hd|exact Hx|exact usrc_in|]. intros x' Hx'. apply up_val. exact Hx'. }
  destruct (inr3 _ _ _ _ Hi) as (F & X & Y & -> & HF & HX & HY).
  rewrite (mapM_fn _ (fun q => match q with [i; j] => ent d [F; X * sx + i; Y * sy + j]%N | _ => 0 end)).
  - cbn [mbind option_bind]. rewrite fold1_sm by (apply ne_prod; cbn; lia). f_equal. unfold osh. symmetry.
    rewrite (indices_cons c), sm_flat, (sm_one _ F); [|apply NoDup_upto|apply elem_of_upto; exact HF|].
    + rewrite sm_map. 
      assert (Hup : forall n s k (f : N -> R), (0 < s)%N -> (k < n)%N -> (forall z, (z / s <> k)%N -> f z = 0) -> sm f (upto (n * s)) = sm (fun i => f (k * s + i)%N) (upto s)).
      { clear. intros n s k f Hs Hk Hf.
        assert (E : upto (n * s) = map (fun q => nth 0 q 0 * s + nth 1 q 0)%N (indices [n; s])).
        { apply list_eq. intros z. rewrite list_lookup_fmap. destruct (decide (z < N.to_nat (n * s))%nat) as [Hz|Hz].
          - unfold upto. rewrite list_lookup_fmap, lookup_seq_lt by exact Hz.
            assert (Hkk : indices [n; s] !! z = Some [N.of_nat z / s; N.of_nat z mod s]%N).
            { apply indices_lookup. cbn [flat prodN foldr]. assert (Hd : (N.of_nat z / s < n)%N) by (apply N.div_lt_upper_bound; lia).
              assert (Hm : (N.of_nat z mod s < s)%N) by (apply N.mod_lt; lia). apply N.ltb_lt in Hd, Hm. rewrite Hd, Hm. f_equal. pose proof (N.div_mod (N.of_nat z) s ltac:(lia)). nia. }
            rewrite Hkk. cbn. f_equal. pose proof (N.div_mod (N.of_nat z) s ltac:(lia)). nia.
          - rewrite (proj2 (lookup_ge_None _ _)) by (rewrite upto_length; lia). rewrite (proj2 (lookup_ge_None _ _)); [reflexivity|]. rewrite indices_length. cbn. lia. }
        rewrite E, sm_map, indices_cons, sm_flat, (sm_one _ k); [|apply NoDup_upto|apply elem_of_upto; exact Hk|].
        - rewrite sm_map. change (indices [s]) with (flat_map (fun i => map (cons i) [[]]) (upto s)). rewrite sm_flat. apply sm_ext. intros i _. rewrite sm_map, sm_cons, sm_nil. cbn. lra.
        - intros k' Hk' Hne. rewrite sm_map. apply sm_none. intros q Hq. apply elem_of_indices in Hq. inversion_clear Hq as [|i ? ? ? Hi Hq1]. inversion_clear Hq1. cbn [nth].
          apply Hf. rewrite N.div_add_l by lia. rewrite N.div_small by exact Hi. lia. }
      rewrite (indices_cons (w * sx)), sm_flat, (Hup w sx X); [|exact Hsx|exact HX|].
      * rewrite (indices_cons sx), sm_flat. apply sm_ext. intros i Hi'. apply elem_of_upto in Hi'. rewrite !sm_map. change (indices [(h * sy)%N]) with (flat_map (fun i => map (cons i) [[]]) (upto (h * sy))).
        change (indices [sy]) with (flat_map (fun i => map (cons i) [[]]) (upto sy)). rewrite !sm_flat, (Hup h sy Y); [|exact Hsy|exact HY|].
        -- apply sm_ext. intros j Hj. apply elem_of_upto in Hj. rewrite !sm_map, !sm_cons, !sm_nil. cbn [usrc]. rewrite decide_True; [lra|].
           f_equal. f_equal; [|f_equal]; rewrite N.div_add_l by lia; rewrite N.div_small by assumption; lia.
        -- intros z Hz. rewrite sm_map, !sm_cons, !sm_nil. cbn [usrc]. rewrite decide_False; [lra|]. congruence.
      * intros z Hz. rewrite sm_map. apply sm_none. intros q Hq. apply elem_of_indices in Hq. inversion_clear Hq as [|j ? ? ? Hj Hq1]. inversion_clear Hq1. rewrite sm_cons, sm_nil. cbn [usrc]. rewrite decide_False; [lra|]. congruence.
    + intros F' _ Hne. rewrite sm_map. apply sm_none. intros q Hq. apply elem_of_indices, inr2 in Hq as (X' & Y' & -> & _). rewrite sm_cons, sm_nil. cbn [usrc]. rewrite decide_False by congruence. lra.
  - intros q Hq. apply elem_of_indices, inr2 in Hq as (i & j & -> & Hi' & Hj). apply (el_ent osh d); [exact Hd|apply mk3; nia].
Qed.
End Up.
