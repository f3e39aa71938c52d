(** * AdjConv: slopes of convolution and deconvolution *)
From Coq Require Import Reals Lra.
From Verif Require Import Base Num NumReal ModelTools Spec IndexProofs TensorFacts BuildProofs BuildProofs3 EagerOps FwdSpec FwdTotal GradSpec GradProofs BwdSpec AdjSpec AdjSum.
From Coq Require Import Lia.
Open Scope R_scope.
#[local] Existing Instance NumR.

Lemma ne_prod sh : (0 < prodN sh)%N -> indices sh <> [].
Proof. apply indices_ne. Qed.
Lemma prod3 a b c : (0 < a)%N -> (0 < b)%N -> (0 < c)%N -> (0 < prodN [a; b; c])%N.
Proof. intros. cbn. lia. Qed.
Lemma el_ent sh v idx : shaped sh v -> inr idx sh -> el v idx = Some (ent v idx).
Proof. apply at_ent. Qed.

Lemma at_ents sh v idx : shaped sh v -> inr idx sh -> at_ sh (vdata v) idx = Some (ent v idx).
Proof. intros Hv Hi. rewrite <- (at_ent sh v idx Hv Hi), (proj1 Hv). reflexivity. Qed.

Section Conv.
Variables (nf ow oh c w h kw kh sx sy : N).
Hypothesis (Hc : (0 < c)%N) (Hkw : (0 < kw)%N) (Hkh : (0 < kh)%N).
Hypothesis (Hfx : ((ow - 1) * sx + kw <= w)%N) (Hfy : ((oh - 1) * sy + kh <= h)%N).
Let osh := [nf; ow; oh].
Let xsh := [c; w; h].
Let wsh := [nf; c; kw; kh].

(** The input cell that the cell [k] of the window of the output cell [o] sees. *)
Definition csrc (o k : list N) : list N := match o, k with [F; X; Y], [i; x; y] => [i; X * sx + x; Y * sy + y]%N | _, _ => [] end.
Definition wsrc (o k : list N) : list N := match o with F :: _ => F :: k | _ => [] end.
Lemma csrc_in o k : inr o osh -> k ∈ indices [c; kw; kh] -> inr (csrc o k) xsh.
Proof using Hfx Hfy.
  clear Hc Hkw Hkh. intros Ho Hk. apply inr3 in Ho as (F & X & Y & -> & HF & HX & HY). apply in3 in Hk as (i & x & y & -> & Hi & Hx & Hy). cbn. apply mk3; nia.
Qed.
Lemma wsrc_in o k : inr o osh -> k ∈ indices [c; kw; kh] -> inr (wsrc o k) wsh.
Proof using Type.
  intros Ho Hk. apply inr3 in Ho as (F & X & Y & -> & HF & HX & HY). apply in3 in Hk as (i & x & y & -> & Hi & Hx & Hy). cbn. apply mk4; assumption.
Qed.
Lemma conv_val b wt x : shaped osh b -> shaped wsh wt -> shaped xsh x ->
  exists y, v_conv kw kh sx sy (fun v => v) b wt x = Some y /\ shaped osh y /\
    forall o, inr o osh -> ent y o = ent b o + sm (fun k => ent x (csrc o k) * ent wt (wsrc o k)) (indices [c; kw; kh]).
Proof using Hc Hkw Hkh Hfx Hfy.
  intros Hb Hw Hx. unfold v_conv. rewrite (proj1 Hb). apply tabulate_fn. intros o Ho.
  destruct (inr3 _ _ _ _ Ho) as (F & X & Y & -> & HF & HX & HY). rewrite (proj1 Hx). change (nth 0 xsh 0%N) with c.
  rewrite (mapM_fn _ (fun k => ent x (csrc [F; X; Y] k) * ent wt (wsrc [F; X; Y] k))).
  - cbn [mbind option_bind]. rewrite fold1_sm by (apply ne_prod, prod3; assumption). cbn [mbind option_bind]. rewrite (at_ents osh b _ Hb Ho). reflexivity.
  - intros k Hk. pose proof (csrc_in _ _ Ho Hk) as H1. pose proof (wsrc_in _ _ Ho Hk) as H2. destruct (in3 _ _ _ _ Hk) as (i & u & v & -> & Hi & Hu & Hv).
    cbn [csrc wsrc] in *. rewrite (at_ents xsh x _ Hx H1). cbn [mbind option_bind]. rewrite (at_ent wsh wt _ Hw H2). reflexivity.
Qed.

Variables (d b wt x : vten R).
Hypothesis (Hd : shaped osh d) (Hb : shaped osh b) (Hw : shaped wsh wt) (Hx : shaped xsh x).

Lemma conv_x_slope idx :
  slope (v_conv kw kh sx sy (fun v => v) b wt) d x idx
    (sm (fun o => ent d o * sm (fun k => if decide (csrc o k = idx) then ent wt (wsrc o k) else 0) (indices [c; kw; kh])) (indices osh)).
Proof using All.
  apply (slope_linear _ d x idx xsh osh (ent b) (fun _ => indices [c; kw; kh]) csrc (fun o k => ent wt (wsrc o k))); [exact Hd|exact Hx|exact csrc_in|].
  intros x' Hx'. apply conv_val; assumption.
Qed.
Lemma conv_w_slope idx :
  slope (fun wt => v_conv kw kh sx sy (fun v => v) b wt x) d wt idx
    (sm (fun o => ent d o * sm (fun k => if decide (wsrc o k = idx) then ent x (csrc o k) else 0) (indices [c; kw; kh])) (indices osh)).
Proof using All.
  apply (slope_linear _ d wt idx wsh osh (ent b) (fun _ => indices [c; kw; kh]) wsrc (fun o k => ent x (csrc o k))); [exact Hd|exact Hw|exact wsrc_in|].
  intros w' Hw'. destruct (conv_val b w' x Hb Hw' Hx) as (y & Hy & Hs & He). exists y. split; [exact Hy|]. split; [exact Hs|].
  intros o Ho. rewrite (He o Ho). f_equal. apply sm_ext. intros k Hk. apply Rmult_comm.
Qed.
Lemma conv_b_slope idx : inr idx osh -> slope (fun b => v_conv kw kh sx sy (fun v => v) b wt x) d b idx (ent d idx).
Proof using All.
  intros Hi.
  apply (slope_eq _ _ _ _ (sm (fun o => ent d o * sm (fun k => if decide (o = idx) then 1 else 0) [tt]) (indices osh))).
  { rewrite (sm_one _ idx); [rewrite sm_cons, sm_nil, decide_True by reflexivity; lra|apply indices_NoDup|apply elem_of_indices; exact Hi|].
    intros o _ Hne. rewrite sm_cons, sm_nil, decide_False by exact Hne. lra. }
  apply (slope_linear _ d b idx osh osh (fun o => sm (fun k => ent x (csrc o k) * ent wt (wsrc o k)) (indices [c; kw; kh])) (fun _ => [tt]) (fun o _ => o) (fun _ _ => 1)); [exact Hd|exact Hb|auto|].
  intros b' Hb'. destruct (conv_val b' wt x Hb' Hw Hx) as (y & Hy & Hs & He). exists y. split; [exact Hy|]. split; [exact Hs|].
  intros o Ho. rewrite (He o Ho), sm_cons, sm_nil. lra.
Qed.

(** What training does. *)
Theorem conv_x_grad a p : kw = kh -> shaped xsh a -> shaped xsh p -> exists g, g_conv_in kw sx sy d wt a p = Some g /\ shaped xsh g /\ forall idx, inr idx xsh ->
  exists s, slope (v_conv kw kh sx sy (fun v => v) b wt) d x idx s /\ ent g idx = ent p idx + s * ent a idx.
Proof using All.
  intros Ek Ha Hp. unfold g_conv_in. rewrite (proj1 Hp). refine (tabulate_rel _ _ (fun idx r => exists s, slope (v_conv kw kh sx sy (fun v => v) b wt) d x idx s /\ r = ent p idx + s * ent a idx) _). intros idx Hi. eexists. split. 2:{ eexists. split; [apply conv_x_slope|reflexivity]. }
  rewrite (proj1 Hd). change (nth 0 xsh 0%N) with c.
  rewrite (mapM_fn _ (fun q => match q with [f; X; Y; i; u; v] => ent d [f; X; Y] * ent wt [f; i; u; v] * ent a idx | _ => 0 end)).
  - cbn [mbind option_bind]. rewrite (el_ent xsh p idx Hp Hi). cbn [mbind option_bind]. rewrite fold_sm. do 2 f_equal.
    rewrite sm_filter, indices_app, sm_flat, <- sm_scale_r. apply sm_ext. intros o Ho. destruct (in3 _ _ _ _ Ho) as (F & X & Y & -> & _).
    rewrite sm_map. replace [c; kw; kw] with [c; kw; kh] by (rewrite Ek; reflexivity). rewrite <- sm_scale, <- sm_scale_r. apply sm_ext. intros k Hk. destruct (in3 _ _ _ _ Hk) as (i & u & v & -> & _).
    cbn [app csrc wsrc]. destruct (decide ([i; (X * sx + u)%N; (Y * sy + v)%N] = idx)) as [E|E].
    + rewrite bool_decide_eq_true_2 by exact E. lra.
    + rewrite bool_decide_eq_false_2 by exact E. lra.
  - intros q Hq. apply elem_of_list_In, filter_In in Hq as [Hq _]. apply elem_of_list_In in Hq. apply elem_of_indices in Hq.
    change (osh ++ [c; kw; kw]) with ([nf; ow; oh; c; kw; kw]) in Hq.
    inversion_clear Hq as [|f ? ? ? Hf Hq1]. inversion_clear Hq1 as [|X ? ? ? HX Hq2]. inversion_clear Hq2 as [|Y ? ? ? HY Hq3].
    apply inr3 in Hq3 as (i & u & v & -> & Hi' & Hu & Hv).
    rewrite (el_ent osh d) by (try exact Hd; apply mk3; assumption). cbn [mbind option_bind].
    rewrite (el_ent wsh wt) by (try exact Hw; apply mk4; lia). cbn [mbind option_bind]. rewrite (el_ent xsh a idx Ha Hi). reflexivity.
Qed.
Theorem conv_w_grad m : sx = sy -> (0 < ow)%N -> (0 < oh)%N -> shaped wsh m -> exists g, g_conv_w sy d x wt m = Some g /\ shaped wsh g /\ forall idx, inr idx wsh ->
  exists s, slope (fun wt => v_conv kw kh sx sy (fun v => v) b wt x) d wt idx s /\ ent g idx = ent wt idx + s + ent m idx.
Proof using All.
  intros Es How Hoh Hm. unfold g_conv_w. rewrite (proj1 Hw). refine (tabulate_rel _ _ (fun idx r => exists s, slope (fun wt => v_conv kw kh sx sy (fun v => v) b wt x) d wt idx s /\ r = ent wt idx + s + ent m idx) _). intros idx Hi. eexists. split. 2:{ eexists. split; [apply conv_w_slope|reflexivity]. }
  rewrite (proj1 Hd). change (nth 1 osh 0%N) with ow. change (nth 2 osh 0%N) with oh.
  destruct (inr4 _ _ _ _ _ Hi) as (F & i & u & v & -> & HF & Hi' & Hu & Hv).
  rewrite (mapM_fn _ (fun q => match q with [X; Y] => ent d [F; X; Y] * ent x [i; X * sy + u; Y * sy + v]%N | _ => 0 end)).
  - cbn [mbind option_bind]. rewrite fold1_sm by (apply ne_prod; cbn; lia). cbn [mbind option_bind]. rewrite (el_ent wsh wt _ Hw Hi). cbn [mbind option_bind].
    rewrite (el_ent wsh m _ Hm Hi). cbn [mbind option_bind]. do 3 f_equal.
    symmetry. unfold osh. rewrite (indices_cons nf), sm_flat. rewrite (sm_one _ F); [|apply NoDup_upto|apply elem_of_upto; exact HF|].
    + rewrite sm_map. apply sm_ext. intros q Hq. apply elem_of_indices, inr2 in Hq as (X & Y & -> & HX & HY).
      rewrite (sm_one _ [i; u; v]); [|apply indices_NoDup|apply elem_of_indices, mk3; assumption|].
      * cbn [wsrc csrc]. rewrite decide_True by reflexivity. rewrite Es. reflexivity.
      * intros k Hk Hne. rewrite decide_False; [reflexivity|]. cbn. congruence.
    + intros F' _ Hne. rewrite sm_map. apply sm_none. intros q Hq. rewrite sm_none; [lra|]. intros k Hk. rewrite decide_False; [reflexivity|]. cbn. congruence.
  - intros q Hq. apply elem_of_indices, inr2 in Hq as (X & Y & -> & HX & HY).
    rewrite (el_ent osh d) by (try exact Hd; apply mk3; assumption). cbn [mbind option_bind].
    rewrite (el_ent xsh x) by (try exact Hx; apply mk3; nia). reflexivity.
Qed.
End Conv.
