(** * TrnConvs: the training code of convolutions and of the input *)
From Verif Require Import Base Num ModelTools ModelOps ModelTensor ModelGraph ModelLayer Spec NetSpec FwdSpec Denote
  IndexProofs ExecProofs TensorFacts AccessProofs BuildProofs BuildFrame CompileProofs Agree FwdMask FwdBuild FwdSeg FwdOps FwdPool NetBuild NetChain FwdBody FwdExpr FwdConv FwdConv2 FwdAct FwdTotal
  BwdSpec BwdPost BwdLoop BwdOps BwdOps2 BwdOps3 BwdOps4 TrnSpec TrnTri TrnOwn TrnExpr TrnSite TrnDer TrnXfer TrnBody TrnKind TrnBias TrnPar TrnDense TrnKer.
From Coq Require Import Lia ZifyBool ZifyNat ZifyN.

Section TrnConvs.
Context {T : Type} `{Num T}.
Implicit Types (s : lst T) (m : list T) (c q : clay T) (cs rest : list (clay T)).

Section Convs.
Variables (s0 s : lst T) (al mo : nat) (c q : clay T) (rest : list (clay T)) (fuel : nat).
Hypotheses (Hch : chain s0 (c :: q :: rest)) (Hapt : apt s0 (c :: q :: rest) al mo) (Hh : held s0 s).
Hypotheses (Hnone : forall g, parf g -> fid s (c_i c) g = None) (Hder : forall j, j ∈ dertop (q :: rest) -> fid s j FDer = None) (Hfu : length (q :: rest) <= fuel).

Lemma conv_body nf kw kh sx sy f : c_l c = Some (SConv nf kw kh sx sy f) -> exists s', bp_body fuel (c_i c) (Some al) (Some mo) s = (Ok tt, s') /\ body_post s0 al mo c (q :: rest) s s'.
Proof using All.
  intros Hk. destruct (chain_head _ _ _ Hch) as (l & psh & Hsite & -> & _). destruct (ls_fit _ _ _ _ Hsite _ Hk) as [Hls Hfit]. cbn [lay_shape train_fit] in Hls, Hfit.
  destruct (c_sh q) as [|ch [|w [|h [|? ?]]]] eqn:Eq; try discriminate Hls. set (cs := conv_shape nf kw kh sx sy w h) in *.
  destruct ((0 <? kw) && (kw <=? w) && (0 <? kh) && (kh <=? h) && (0 <? sx) && (0 <? sy))%N eqn:Eb; [|discriminate Hls]. cbn [andb] in Hls. destruct (fitsb cs) eqn:F1; [|discriminate Hls]. cbn [andb] in Hls. destruct (fitsb [nf; ch; kw; kh]) eqn:F2; [|discriminate Hls]. injection Hls as Esh.
  apply fitsb_fits in F1. apply fitsb_fits in F2. apply andb_prop in Hfit as [Hf1 Hf2]. repeat (apply andb_prop in Eb as [Eb ?]).
  destruct (ls_par _ _ _ _ Hsite _ Hk eq_refl) as (bs & ws & Eps & Hob & How). cbn [par_shape] in Eps. fold cs in Eps. injection Eps as <- <-. rewrite Esh in Hob.
  set (ow := ((w - kw) / sx + 1)%N). set (oh := ((h - kh) / sy + 1)%N). assert (Ecs : c_sh c = [nf; ow; oh]) by (rewrite <- Esh; reflexivity).
  assert (X1 : ((ow - 1) * sx + kw <= w)%N). { unfold ow. rewrite N.add_sub. pose proof (N.mul_div_le (w - kw) sx ltac:(lia)). lia. }
  assert (X2 : ((oh - 1) * sy + kh <= h)%N). { unfold oh. rewrite N.add_sub. pose proof (N.mul_div_le (h - kh) sy ltac:(lia)). lia. }
  assert (X3 : ((ow - 1) * sy + kw <= w)%N). { unfold ow. rewrite N.add_sub. lia. }
  destruct (ker_body s0 s al mo c q rest fuel [nf; ch; kw; kh] (fun md mw mder mp => conv_bp_in [ch; w; h] [nf; ow; oh] md mw mder mp kw sx sy) (fun mi mdif mw mwm mnw => conv_bp_w [ch; w; h] [nf; ow; oh] mi mdif mw mwm mnw kw kh sy) (g_conv_in kw sx sy) (g_conv_w sy)) as (l' & s' & HL & Hki & HC & HP).
  - exact Hch.
  - exact Hapt.
  - exact Hh.
  - exact Hnone.
  - exact Hder.
  - exact Hfu.
  - unfold c_par. rewrite Hk. reflexivity.
  - unfold c_mom. rewrite Hk. reflexivity.
  - exact Hob.
  - exact How.
  - rewrite <- Esh. exact F1.
  - exact F2.
  - intros R a psh e. unfold g_in. rewrite Hk. reflexivity.
  - intros R mbx a b d. unfold s_bias. rewrite Hk. reflexivity.
  - intros R a b d. unfold s_weights. rewrite Hk. reflexivity.
  - rewrite Eq, Ecs. intros t0 md mw mder mp w1 w2 w3 w4 e1 e2 e3 e4 nd d1 d2 d3. apply (conv_in_does t0 md mw mder mp nf ow oh ch w h kw kh sx sy); try assumption. lia.
  - rewrite Eq, Ecs. intros t0 mi mdif mw mwm mnw w1 w2 w3 w4 w5 e1 e2 e3 e4 e5 n1 n2 d1 d2 d3 d4. apply (conv_w_does t0 mi mdif mw mwm mnw nf ow oh ch w h kw kh sy); try assumption; try congruence; try (unfold ow; lia); unfold oh; lia.
  - exists s'. split; [|exact HP]. unfold bp_body. erewrite mbnd_ok by (apply getL_ok; exact HL). unfold kind_is in Hki. rewrite Hk in Hki. rewrite Hki.
    assert (X : _) by (refine (HC (fun inSh outSh md mw mder mp => conv_bp_in inSh outSh md mw mder mp kw sx sy) (fun inSh outSh mi mdif mw mwm mnw => conv_bp_w inSh outSh mi mdif mw mwm mnw kw kh sy) _ _); intros; rewrite Eq, Ecs; reflexivity).
    unfold ker_code in X. exact X.
Qed.
Lemma deconv_body nf kw kh sx sy f : c_l c = Some (SDeconv nf kw kh sx sy f) -> exists s', bp_body fuel (c_i c) (Some al) (Some mo) s = (Ok tt, s') /\ body_post s0 al mo c (q :: rest) s s'.
Proof using All.
  intros Hk. destruct (chain_head _ _ _ Hch) as (l & psh & Hsite & -> & _). destruct (ls_fit _ _ _ _ Hsite _ Hk) as [Hls Hfit]. cbn [lay_shape train_fit] in Hls, Hfit.
  destruct (c_sh q) as [|ch [|w [|h [|? ?]]]] eqn:Eq; try discriminate Hls. set (cs := deconv_shape nf kw kh sx sy w h) in *.
  destruct ((0 <? w) && (0 <? h))%N eqn:Eb; [|discriminate Hls]. cbn [andb] in Hls. destruct (fitsb cs) eqn:F1; [|discriminate Hls]. cbn [andb] in Hls. destruct (fitsb [nf; ch; kw; kh]) eqn:F2; [|discriminate Hls]. injection Hls as Esh.
  apply fitsb_fits in F1. apply fitsb_fits in F2. repeat (apply andb_prop in Hfit as [Hfit ?]). repeat (apply andb_prop in Eb as [Eb ?]).
  destruct (ls_par _ _ _ _ Hsite _ Hk eq_refl) as (bs & ws & Eps & Hob & How). cbn [par_shape] in Eps. fold cs in Eps. injection Eps as <- <-. rewrite Esh in Hob.
  set (ow := ((w - 1) * sx + kw)%N). set (oh := ((h - 1) * sy + kh)%N). assert (Ecs : c_sh c = [nf; ow; oh]) by (rewrite <- Esh; reflexivity).
  destruct (ker_body s0 s al mo c q rest fuel [nf; ch; kw; kh] (fun md mw mder mp => deconv_bp_in [ch; w; h] nf md mw mder mp kw kh sx sy) (fun mi mdif mw mwm mnw => deconv_bp_w [ch; w; h] nf mi mdif mw mwm mnw kw kh sx sy) (g_deconv_in kw kh sx sy) (g_deconv_w sx sy)) as (l' & s' & HL & Hki & HC & HP).
  - exact Hch.
  - exact Hapt.
  - exact Hh.
  - exact Hnone.
  - exact Hder.
  - exact Hfu.
  - unfold c_par. rewrite Hk. reflexivity.
  - unfold c_mom. rewrite Hk. reflexivity.
  - exact Hob.
  - exact How.
  - rewrite <- Esh. exact F1.
  - exact F2.
  - intros R a psh e. unfold g_in. rewrite Hk. reflexivity.
  - intros R mbx a b d. unfold s_bias. rewrite Hk. reflexivity.
  - intros R a b d. unfold s_weights. rewrite Hk. reflexivity.
  - rewrite Eq, Ecs. intros t0 md mw mder mp w1 w2 w3 w4 e1 e2 e3 e4 nd d1 d2 d3. apply (deconv_in_does t0 md mw mder mp nf ow oh ch w h kw kh sx sy); try assumption; try lia.
  - rewrite Eq, Ecs. intros t0 mi mdif mw mwm mnw w1 w2 w3 w4 w5 e1 e2 e3 e4 e5 n1 n2 d1 d2 d3 d4. apply (deconv_w_does t0 mi mdif mw mwm mnw nf ow oh ch w h kw kh sx sy); try assumption; try congruence; lia.
  - exists s'. split; [|exact HP]. unfold bp_body. erewrite mbnd_ok by (apply getL_ok; exact HL). unfold kind_is in Hki. rewrite Hk in Hki. rewrite Hki.
    assert (X : _) by (refine (HC (fun inSh outSh md mw mder mp => deconv_bp_in inSh (nth 0 outSh 0%N) md mw mder mp kw kh sx sy) (fun inSh outSh mi mdif mw mwm mnw => deconv_bp_w inSh (nth 0 outSh 0%N) mi mdif mw mwm mnw kw kh sx sy) _ _); intros; rewrite Eq, Ecs; reflexivity).
    unfold ker_code in X. exact X.
Qed.
End Convs.

(** The input of the chain. *)
Lemma input_body s0 s al mo c fuel : chain s0 [c] -> held s0 s -> c_l c = None -> exists s', bp_body fuel (c_i c) (Some al) (Some mo) s = (Ok tt, s') /\ body_post s0 al mo c [] s s'.
Proof using Type.
  intros Hch Hh Hk. destruct (chain_head _ _ _ Hch) as (l & psh & Hsite & _). destruct (site_held _ _ _ _ _ Hh Hsite) as (l' & _ & Hsite'). pose proof (ls_kind _ _ _ _ Hsite') as Hki. unfold kind_is in Hki. rewrite Hk in Hki. destruct Hki as [Hki _].
  exists s. split; [unfold bp_body; erewrite mbnd_ok by (apply getL_ok; exact (ls_lay _ _ _ _ Hsite')); rewrite Hki; reflexivity|].
  assert (Hp : c_par c = false) by (unfold c_par; rewrite Hk; reflexivity).
  split; [apply held_refl|apply frame_refl| |rewrite Hp; discriminate|rewrite Hp; discriminate]. exists nowhere, []. split; [|intros x []]. eapply tri_post; [apply tri_refl|intros; exact I|]. intros m m' _ _ _ _ _ d a b _ _ _. split; [exact I|rewrite Hp; discriminate].
Qed.
End TrnConvs.
