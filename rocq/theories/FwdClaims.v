(** * FwdClaims: what the claims about networks of any layers say, and single layers *)
From stdpp Require Import relations.
From Verif Require Import Base Num ModelTools ModelOps ModelTensor ModelGraph ModelLayer ModelModel Spec NetSpec FwdSpec
  IndexProofs TensorFacts EagerProofs EagerOps BuildProofs CompileProofs Agree FwdNet FwdChain FwdRun FwdCount FwdScript FwdProg FwdHist FwdTotal FwdMain.
From Coq Require Import Lia ZifyBool ZifyNat ZifyN.

Section FwdClaims.
Context {T : Type} `{Num T}.

(** The network that the layers [ms] make between [inp] and [out]. *)
Record is_net (ms : list (mk T)) (inp out : nat) (e : net T) (ish sh : list N) : Prop := {
  isn_nets : exists es, nets [] ms = Some es /\ es !! out = Some e;
  isn_in : in_shape ms inp = Some ish;
  isn_uses : inp ∈ ins e;
  isn_shape : nshape (in_shape ms) e = Some sh;
  isn_ok : Forall mk_ok ms;
}.
(** Counting to [n] in the number type does not come back to zero. *)
Definition counts_up (n : nat) : Prop := (forall k, 1 <= k <= n -> neqb (count (T:=T) k) nzero = false) /\ exists a b : T, a <> b.

Context (rnd : nat -> nat -> T) (s : lst T) (ms : list (mk T)) (inp out : nat) (e : net T) (ish sh : list N).
Hypothesis HN : is_net ms inp out e ish sh.
Hypothesis HC : counts_up (2 * (length (lays s) + length ms) + 1).

Theorem network_claim : exists par, all_drawn rnd (in_shape ms) e par /\
  (forall acts st os, fhistory ish (answer ms inp e par) [] acts st os ->
     exists s' m tids, fprogram rnd (build_net ms inp out) acts s = (Ok (seq (length (lays s)) (length ms), (m, tids, os)), s') /\
       (forall k, k ∈ pars e -> net_par s' (mem (ts s')) (length (lays s) + k) = par k)) /\
  (forall acts st os i x rest, fhistory ish (answer ms inp e par) [] acts st os -> st !! i = Some x -> vsh x = ish -> answer ms inp e par x = None ->
     exists s', fprogram rnd (build_net ms inp out) (acts ++ FPredict i :: rest) s = (Panic, s')).
Proof using HN HC.
  destruct HN as [(es & E & He) Hi Hu Hs Hok]. destruct HC as [Hnz H2]. exact (net_program rnd s ms es inp out e ish sh E He Hi Hu Hs Hok Hnz H2).
Qed.

(** ** Programs that cannot fail *)
(** Calls that name tensors that exist; [shs] are their shapes. *)
Fixpoint acts_ok (shs : list (list N)) (acts : list (fact T)) : Prop :=
  match acts with
  | [] => True
  | FNew sh0 vs :: acts' => fits sh0 /\ length vs = N.to_nat (prodN sh0) /\ acts_ok (shs ++ [sh0]) acts'
  | FGet i :: acts' => i < length shs /\ acts_ok shs acts'
  | FPredict i :: acts' => i < length shs /\ acts_ok (if decide (shs !! i = Some ish) then shs ++ [sh] else shs) acts'
  end.
Lemma ok_history (ans : vten T -> option (vten T)) : (forall x, shaped ish x -> exists y, ans x = Some y /\ shaped sh y) ->
  forall acts st, Forall (fun v => shaped (vsh v) v) st -> acts_ok (map vsh st) acts -> exists st' os, fhistory ish ans st acts st' os.
Proof using Type.
  clear HN HC. intros Ha. induction acts as [|a acts IH]; intros st Hst Hok; [exists st, []; constructor|]. destruct a as [sh0 vs|i|i]; cbn [acts_ok] in Hok.
  - destruct Hok as (Hf & Hl & Hok). destruct (IH (st ++ [V sh0 vs])) as (st' & os & Hh); [|rewrite map_app; exact Hok|exists st', (Some [] :: os); econstructor; [constructor; assumption|exact Hh]].
    apply Forall_app. split; [exact Hst|]. repeat constructor. exact Hl.
  - destruct Hok as [Hi Hok]. rewrite map_length in Hi. destruct (lookup_lt_is_Some_2 _ _ Hi) as [x Hx]. destruct (IH st Hst Hok) as (st' & os & Hh).
    exists st', (Some (vdata x) :: os). econstructor; [constructor; exact Hx|exact Hh].
  - destruct Hok as [Hi Hok]. rewrite map_length in Hi. destruct (lookup_lt_is_Some_2 _ _ Hi) as [x Hx]. destruct (decide _) as [E|E].
    + rewrite list_lookup_fmap, Hx in E. injection E as E. rewrite Forall_lookup in Hst. destruct (Ha x) as (y & Hy & Hys); [rewrite <- E; eapply Hst; exact Hx|].
      destruct (IH (st ++ [y])) as (st' & os & Hh); [apply Forall_app; split; [apply Forall_lookup; exact Hst|]; repeat constructor; destruct Hys as [Hys Hyl]; [congruence]|rewrite map_app; cbn [map]; rewrite (proj1 Hys); exact Hok|].
      exists st', (Some [] :: os). econstructor; [econstructor; eassumption|exact Hh].
    + destruct (IH st Hst Hok) as (st' & os & Hh). exists st', (None :: os). econstructor; [|exact Hh]. eapply fs_refuse; [exact Hx|]. intros Hs. apply E. rewrite list_lookup_fmap, Hx. cbn. congruence.
Qed.
Lemma answer_total par : all_drawn rnd (in_shape ms) e par -> net_runs (in_shape ms) e -> forall x, shaped ish x -> exists y, answer ms inp e par x = Some y /\ shaped sh y.
Proof using HN.
  intros Hd Hr x Hx. unfold answer. eapply nval_total; [| |exact Hr|exact (isn_shape _ _ _ _ _ _ HN)].
  - intros p shp _ Hp. destruct (decide (p = inp)) as [->|Hne].
    + rewrite (isn_in _ _ _ _ _ _ HN) in Hp. injection Hp as <-. exists x. auto.
    + rewrite Hp. cbn [mbind option_bind]. eexists. split; [reflexivity|]. apply zeros_shaped.
  - intros l k e0 bs ws Hsub Htop. destruct (Hd _ _ _ _ _ Hsub Htop) as (b & w & Hp & Hb & Hw). exists b, w. split; [exact Hp|]. split; eapply drawn_shaped; eassumption.
Qed.
Lemma answer_shaped par x y : all_drawn rnd (in_shape ms) e par -> shaped ish x -> answer ms inp e par x = Some y -> shaped sh y.
Proof using HN.
  intros Hd Hx. unfold answer. eapply nval_shaped; [| |exact (isn_shape _ _ _ _ _ _ HN)].
  - intros p shp _ Hp. destruct (decide (p = inp)) as [->|Hne].
    + rewrite (isn_in _ _ _ _ _ _ HN) in Hp. injection Hp as <-. exists x. auto.
    + rewrite Hp. cbn [mbind option_bind]. eexists. split; [reflexivity|]. apply zeros_shaped.
  - intros l k e0 bs ws Hsub Htop. destruct (Hd _ _ _ _ _ Hsub Htop) as (b & w & Hp & Hb & Hw). exists b, w. split; [exact Hp|]. split; eapply drawn_shaped; eassumption.
Qed.
Theorem safe_claim acts : net_runs (in_shape ms) e -> acts_ok [] acts ->
  exists par s' m tids st os, all_drawn rnd (in_shape ms) e par /\ fhistory ish (answer ms inp e par) [] acts st os /\
    fprogram rnd (build_net ms inp out) acts s = (Ok (seq (length (lays s)) (length ms), (m, tids, os)), s').
Proof using HN HC.
  intros Hr Hok. destruct network_claim as (par & Hd & Hh & _). destruct (ok_history _ (answer_total par Hd Hr) acts [] ltac:(constructor) Hok) as (st & os & Hx).
  destruct (Hh _ _ _ Hx) as (s' & m & tids & E & _). exists par, s', m, tids, st, os. auto.
Qed.
End FwdClaims.

(** ** One layer on an input *)
Section One.
Context {T : Type} `{Num T}.
Context (rnd : nat -> nat -> T) (s : lst T).
Lemma is_net_one (k : lay1 T) ish osh : fits ish -> lay_shape (spec1 k) ish = Some osh -> is_net [MInput ish; MOn k 0] 0 1 (NLay (spec1 k) 1 (NIn 0)) ish osh.
Proof using Type.
  intros Hf Hl. split.
  - eexists. split; reflexivity.
  - reflexivity.
  - left.
  - cbn [nshape in_shape]. unfold in_shape. cbn [lookup list_lookup mbind option_bind]. unfold fit. rewrite (proj2 (fitsb_fits _) Hf). cbn [mbind option_bind]. exact Hl.
  - constructor; [exact Hf|]. constructor; [|constructor]. destruct k; cbn [mk_ok]; try exact I. cbn [spec1 lay_shape] in Hl. destruct (fitsb [o]) eqn:E; [|discriminate]. apply fitsb_fits. exact E.
Qed.
(** Predicting one input and reading the answer; the program shows the numbers of
    the layer, with a bias and weights fresh from the random source. *)
Definition one_program (k : lay1 T) (ish : list N) (vs : list T) : LM T (list nat * (model T * list nat * list (option (list T)))) :=
  fprogram rnd (build_net [MInput ish; MOn k 0] 0 1) [FNew ish vs; FPredict 0; FGet 1].
Theorem one_claim (k : lay1 T) ish osh : fits ish -> lay_shape (spec1 k) ish = Some osh -> counts_up (T:=T) (2 * (length (lays s) + 2) + 1) ->
  exists p, (forall bs ws, par_shape (spec1 k) ish = Some (bs, ws) -> exists b w, p = Some (b, w) /\ drawn rnd bs b /\ drawn rnd ws w) /\
    forall vs, length vs = N.to_nat (prodN ish) ->
      match lay_val (spec1 k) p (V ish vs) with
      | Some y => shaped osh y /\ exists r s', one_program k ish vs s = (Ok r, s') /\ snd (snd r) = [Some []; Some []; Some (vdata y)]
      | None => exists s', one_program k ish vs s = (Panic, s')
      end.
Proof using Type.
  intros Hf Hl HC. pose proof (is_net_one k ish osh Hf Hl) as HN. destruct (network_claim rnd s _ _ _ _ _ _ HN HC) as (par & Hd & Hh & Hp). exists (par 1). split.
  - intros bs ws Hps. apply (Hd (spec1 k) 1 (NIn 0) bs ws); [left|]. cbn [top_par nshape]. unfold in_shape. cbn [lookup list_lookup mbind option_bind].
    unfold fit. rewrite (proj2 (fitsb_fits _) Hf). exact Hps.
  - intros vs Hlen. assert (Ea : answer [MInput ish; MOn k 0] 0 (NLay (spec1 k) 1 (NIn 0)) par (V ish vs) = lay_val (spec1 k) (par 1) (V ish vs)) by reflexivity.
    destruct (lay_val (spec1 k) (par 1) (V ish vs)) as [y|] eqn:Ev.
    + split.
      * eapply answer_shaped; [exact HN|exact Hd| |exact Ea]. split; [reflexivity|exact Hlen].
      * destruct (Hh [FNew ish vs; FPredict 0; FGet 1] [V ish vs; y] [Some []; Some []; Some (vdata y)]) as (s' & m & tids & E & _).
        { econstructor; [apply fs_new; assumption|]. cbn [app]. econstructor; [eapply fs_predict; [reflexivity|reflexivity|exact Ea]|]. cbn [app]. econstructor; [eapply fs_get; reflexivity|constructor]. }
        eexists _, _. split; [exact E|reflexivity].
    + destruct (Hp [FNew ish vs] [V ish vs] [Some []] 0 (V ish vs) [FGet 1]) as [s' E]; [econstructor; [apply fs_new; assumption|constructor]|reflexivity|reflexivity|exact Ea|].
      exists s'. exact E.
Qed.

(** *** Conv2D *)
Theorem conv_claim nf kw kh sx sy (a : activation T) c w h :
  fits [c; w; h] -> fits (conv_shape nf kw kh sx sy w h) -> fits [nf; c; kw; kh] -> (0 < c)%N -> (0 < kw <= w)%N -> (0 < kh <= h)%N -> (0 < sx)%N -> (0 < sy)%N ->
  counts_up (T:=T) (2 * (length (lays s) + 2) + 1) ->
  (forall X Y, (X < (w - kw) / sx + 1 <-> X * sx + kw <= w)%N /\ (Y < (h - kh) / sy + 1 <-> Y * sy + kh <= h)%N) /\
  exists b wt, drawn rnd (conv_shape nf kw kh sx sy w h) b /\ drawn rnd [nf; c; kw; kh] wt /\
    forall vs, length vs = N.to_nat (prodN [c; w; h]) -> exists y r s',
      one_program (KConv nf kw kh sx sy a) [c; w; h] vs s = (Ok r, s') /\ snd (snd r) = [Some []; Some []; Some (vdata y)] /\
      shaped (conv_shape nf kw kh sx sy w h) y /\
      forall F X Y, (F < nf)%N -> (X * sx + kw <= w)%N -> (Y * sy + kh <= h)%N ->
        exists bv terms sum, at_ (vsh b) (vdata b) [F; X; Y] = Some bv /\
          mapM (fun k => match k with
                         | [ch; i; j] => u ← at_ [c; w; h] vs [ch; X * sx + i; Y * sy + j]%N; p ← at_ [nf; c; kw; kh] (vdata wt) [F; ch; i; j]; Some (nmul u p)
                         | _ => None end) (indices [c; kw; kh]) = Some terms /\
          fold1 nadd terms = Some sum /\ at_ (vsh y) (vdata y) [F; X; Y] = Some (act_f a (nadd bv sum)).
Proof using Type.
  intros Hf Hfo Hfw Hc Hkw Hkh Hsx Hsy HC.
  assert (Hl : lay_shape (spec1 (KConv nf kw kh sx sy a)) [c; w; h] = Some (conv_shape nf kw kh sx sy w h)).
  { cbn [spec1 lay_shape]. rewrite (proj2 (fitsb_fits _) Hfo), (proj2 (fitsb_fits _) Hfw). destruct (_ && _) eqn:E; [reflexivity|]. lia. }
  split; [intros X Y; split; apply conv_pos; assumption|].
  destruct (one_claim _ _ _ Hf Hl HC) as (p & Hp & Hv). destruct (Hp _ _ eq_refl) as (b & wt & -> & Hb & Hw). exists b, wt. split; [exact Hb|]. split; [exact Hw|].
  intros vs Hlen. specialize (Hv vs Hlen).
  destruct (lay_total _ _ _ (Some (b, wt)) (V [c; w; h] vs) Hl) as (y & Hy & Hys); [split; [reflexivity|exact Hlen]|exact Hc| |].
  { intros bs ws Hps. cbn in Hps. injection Hps as <- <-. exists b, wt. split; [reflexivity|]. split; eapply drawn_shaped; eassumption. }
  rewrite Hy in Hv. destruct Hv as (_ & r & s' & E & Eo). exists y, r, s'. split; [exact E|]. split; [exact Eo|]. split; [exact Hys|].
  intros F X Y HF HX HY. cbn [spec1 lay_val mbind option_bind] in Hy. unfold v_conv in Hy. destruct (drawn_shaped _ _ _ Hb) as [Hbs _]. destruct (drawn_shaped _ _ _ Hw) as [Hws _].
  rewrite Hbs in Hy. assert (Hr : Forall2 (fun i m => (i < m)%N) [F; X; Y] (conv_shape nf kw kh sx sy w h)).
  { unfold conv_shape. apply F3; [exact HF|apply conv_pos; assumption|apply conv_pos; assumption]. }
  destruct (tabulate_lookup _ _ _ _ Hy Hr) as [E1 E2]. destruct (at_total (vsh y) (vdata y) [F; X; Y]) as [z Ez]; [destruct Hys as [-> Hyl]; exact Hyl|rewrite E1; exact Hr|].
  rewrite Ez in E2. symmetry in E2. apply bind_Some in E2 as (terms & Et & E2). apply bind_Some in E2 as (sum & Es & E2). apply bind_Some in E2 as (bv & Eb & E2). injection E2 as <-.
  exists bv, terms, sum. rewrite Hbs. split; [exact Eb|]. rewrite Hws in Et. split; [exact Et|]. split; [exact Es|exact Ez].
Qed.

(** *** Deconv2D *)
Theorem deconv_claim nf kw kh sx sy (a : activation T) c w h :
  fits [c; w; h] -> fits (deconv_shape nf kw kh sx sy w h) -> fits [nf; c; kw; kh] -> (0 < w)%N -> (0 < h)%N ->
  counts_up (T:=T) (2 * (length (lays s) + 2) + 1) ->
  exists b wt, drawn rnd (deconv_shape nf kw kh sx sy w h) b /\ drawn rnd [nf; c; kw; kh] wt /\
    forall vs, length vs = N.to_nat (prodN [c; w; h]) -> exists y r s',
      one_program (KDeconv nf kw kh sx sy a) [c; w; h] vs s = (Ok r, s') /\ snd (snd r) = [Some []; Some []; Some (vdata y)] /\
      shaped (deconv_shape nf kw kh sx sy w h) y /\
      forall F X Y, (F < nf)%N -> (X < (w - 1) * sx + kw)%N -> (Y < (h - 1) * sy + kh)%N ->
        exists bv terms, at_ (vsh b) (vdata b) [F; X; Y] = Some bv /\
          mapM (fun k => match k with
                         | [ch; i; j; u; v] => q ← at_ [c; w; h] vs [ch; i; j]; p ← at_ [nf; c; kw; kh] (vdata wt) [F; ch; u; v]; Some (nmul q p)
                         | _ => None end)
               (List.filter (fun k => match k with [ch; i; j; u; v] => (i * sx + u =? X) && (j * sy + v =? Y) | _ => false end)%N (indices [c; w; h; kw; kh])) = Some terms /\
          at_ (vsh y) (vdata y) [F; X; Y] = Some (act_f a (fold_left nadd terms bv)).
Proof using Type.
  intros Hf Hfo Hfw Hw0 Hh0 HC.
  assert (Hl : lay_shape (spec1 (KDeconv nf kw kh sx sy a)) [c; w; h] = Some (deconv_shape nf kw kh sx sy w h)).
  { cbn [spec1 lay_shape]. rewrite (proj2 (fitsb_fits _) Hfo), (proj2 (fitsb_fits _) Hfw). destruct (_ && _) eqn:E; [reflexivity|]. lia. }
  destruct (one_claim _ _ _ Hf Hl HC) as (p & Hp & Hv). destruct (Hp _ _ eq_refl) as (b & wt & -> & Hb & Hw). exists b, wt. split; [exact Hb|]. split; [exact Hw|].
  intros vs Hlen. specialize (Hv vs Hlen).
  destruct (lay_total _ _ _ (Some (b, wt)) (V [c; w; h] vs) Hl) as (y & Hy & Hys); [split; [reflexivity|exact Hlen]|exact I| |].
  { intros bs ws Hps. cbn in Hps. injection Hps as <- <-. exists b, wt. split; [reflexivity|]. split; eapply drawn_shaped; eassumption. }
  rewrite Hy in Hv. destruct Hv as (_ & r & s' & E & Eo). exists y, r, s'. split; [exact E|]. split; [exact Eo|]. split; [exact Hys|].
  intros F X Y HF HX HY. cbn [spec1 lay_val mbind option_bind] in Hy. unfold v_deconv in Hy. destruct (drawn_shaped _ _ _ Hb) as [Hbs _]. destruct (drawn_shaped _ _ _ Hw) as [Hws _].
  rewrite Hbs in Hy. assert (Hr : Forall2 (fun i m => (i < m)%N) [F; X; Y] (deconv_shape nf kw kh sx sy w h)) by (apply F3; assumption).
  destruct (tabulate_lookup _ _ _ _ Hy Hr) as [E1 E2]. destruct (at_total (vsh y) (vdata y) [F; X; Y]) as [z Ez]; [destruct Hys as [-> Hyl]; exact Hyl|rewrite E1; exact Hr|].
  rewrite Ez in E2. symmetry in E2. apply bind_Some in E2 as (terms & Et & E2). apply bind_Some in E2 as (bv & Eb & E2). injection E2 as <-.
  exists bv, terms. rewrite Hbs. split; [exact Eb|]. rewrite Hws in Et. split; [exact Et|exact Ez].
Qed.

(** *** MaxPool2D *)
Lemma pool_shape sx sy c w h : (0 < sx < W64)%N -> (0 < sy < W64)%N -> (w + 1 < W64)%N -> (h + 1 < W64)%N -> fits [c; (w + 1) / sx; (h + 1) / sy]%N ->
  lay_shape (T:=T) (SPool sx sy) [c; w; h] = Some [c; (w + 1) / sx; (h + 1) / sy]%N.
Proof using Type. intros. cbn [lay_shape]. rewrite (proj2 (fitsb_fits _) ltac:(eassumption)). destruct (_ && _) eqn:E; [reflexivity|]. lia. Qed.
Theorem pool_claim sx sy c w h :
  fits [c; w; h] -> fits [c; (w + 1) / sx; (h + 1) / sy]%N -> (2 <= sx < W64)%N -> (2 <= sy < W64)%N -> (w + 1 < W64)%N -> (h + 1 < W64)%N ->
  counts_up (T:=T) (2 * (length (lays s) + 2) + 1) ->
  forall vs, length vs = N.to_nat (prodN [c; w; h]) -> exists y r s',
    one_program (KPool sx sy) [c; w; h] vs s = (Ok r, s') /\ snd (snd r) = [Some []; Some []; Some (vdata y)] /\
    shaped [c; (w + 1) / sx; (h + 1) / sy]%N y /\
    forall f X Y, (f < c)%N -> (X < (w + 1) / sx)%N -> (Y < (h + 1) / sy)%N ->
      exists cells m, cells <> [] /\ mapM (fun p => at_ [c; w; h] vs [f; fst p; snd p]) (window sx sy w h X Y) = Some cells /\
        at_ (vsh y) (vdata y) [f; X; Y] = Some m /\ reduce RedMax cells = Some m.
Proof using Type.
  intros Hf Hfo Hsx Hsy Hw Hh HC vs Hlen. pose proof (pool_shape sx sy c w h ltac:(lia) ltac:(lia) Hw Hh Hfo) as Hl. pose proof (one_claim (KPool sx sy) _ _ Hf Hl HC) as (p & _ & Hv). specialize (Hv vs Hlen).
  destruct (lay_total _ _ _ p (V [c; w; h] vs) Hl) as (y & Hy & Hys); [split; [reflexivity|exact Hlen]|split; lia|discriminate|].
  cbn [spec1] in Hv. rewrite Hy in Hv. destruct Hv as (_ & r & s' & E & Eo). exists y, r, s'. split; [exact E|]. split; [exact Eo|]. split; [exact Hys|].
  intros f X Y HF HX HY. cbn [lay_val] in Hy. unfold v_pool in Hy. cbn [vsh vdata] in Hy.
  assert (Hr : Forall2 (fun i m => (i < m)%N) [f; X; Y] [c; (w + 1) / sx; (h + 1) / sy]%N) by (apply F3; assumption).
  destruct (tabulate_lookup _ _ _ _ Hy Hr) as [E1 E2]. destruct (at_total (vsh y) (vdata y) [f; X; Y]) as [z Ez]; [destruct Hys as [-> Hyl]; exact Hyl|rewrite E1; exact Hr|].
  rewrite Ez in E2. symmetry in E2. apply bind_Some in E2 as (cells & Et & E2). exists cells, z. split; [|auto].
  eapply mapM_ne; [exact Et|]. intros E0. pose proof (window_first sx sy w h X Y ltac:(lia) ltac:(lia) HX HY) as Hin. rewrite E0 in Hin. inversion Hin.
Qed.
Theorem pool_one_claim sx sy c w h :
  fits [c; w; h] -> fits [c; (w + 1) / sx; (h + 1) / sy]%N -> (0 < sx < W64)%N -> (0 < sy < W64)%N -> (w + 1 < W64)%N -> (h + 1 < W64)%N ->
  counts_up (T:=T) (2 * (length (lays s) + 2) + 1) ->
  (0 < c)%N -> (0 < (w + 1) / sx)%N -> (0 < (h + 1) / sy)%N -> sx = 1%N \/ sy = 1%N ->
  forall vs, length vs = N.to_nat (prodN [c; w; h]) -> exists s', one_program (KPool sx sy) [c; w; h] vs s = (Panic, s').
Proof using Type.
  intros Hf Hfo Hsx Hsy Hw Hh HC Hc Hx Hy Hone vs Hlen. pose proof (pool_shape sx sy c w h Hsx Hsy Hw Hh Hfo) as Hl. pose proof (one_claim (KPool sx sy) _ _ Hf Hl HC) as (p & _ & Hv). specialize (Hv vs Hlen).
  cbn [spec1 lay_val] in Hv. rewrite (pool_none sx sy c w h) in Hv by (assumption || reflexivity). exact Hv.
Qed.

(** *** UpSampling2D *)
Theorem up_claim k c w h :
  fits [c; w; h] -> fits [c; w * k; h * k]%N -> counts_up (T:=T) (2 * (length (lays s) + 2) + 1) ->
  forall vs, length vs = N.to_nat (prodN [c; w; h]) -> exists y r s',
    one_program (KUp k) [c; w; h] vs s = (Ok r, s') /\ snd (snd r) = [Some []; Some []; Some (vdata y)] /\
    shaped [c; w * k; h * k]%N y /\
    forall f X Y, (f < c)%N -> (X < w * k)%N -> (Y < h * k)%N ->
      exists v, at_ (vsh y) (vdata y) [f; X; Y] = Some v /\ at_ [c; w; h] vs [f; X / k; Y / k]%N = Some v.
Proof using Type.
  intros Hf Hfo HC vs Hlen.
  assert (Hl : lay_shape (T:=T) (SUp k k) [c; w; h] = Some [c; w * k; h * k]%N) by (cbn [lay_shape]; unfold fit; rewrite (proj2 (fitsb_fits _) Hfo); reflexivity).
  pose proof (one_claim (KUp k) _ _ Hf Hl HC) as (p & _ & Hv). specialize (Hv vs Hlen).
  destruct (lay_total _ _ _ p (V [c; w; h] vs) Hl) as (y & Hy & Hys); [split; [reflexivity|exact Hlen]|exact I|discriminate|].
  cbn [spec1] in Hv. rewrite Hy in Hv. destruct Hv as (_ & r & s' & E & Eo). exists y, r, s'. split; [exact E|]. split; [exact Eo|]. split; [exact Hys|].
  intros f X Y HF HX HY. cbn [lay_val] in Hy. unfold v_up in Hy. cbn [vsh vdata] in Hy.
  assert (Hr : Forall2 (fun i m => (i < m)%N) [f; X; Y] [c; w * k; h * k]%N) by (apply F3; assumption).
  destruct (tabulate_lookup _ _ _ _ Hy Hr) as [E1 E2]. destruct (at_total (vsh y) (vdata y) [f; X; Y]) as [z Ez]; [destruct Hys as [-> Hyl]; exact Hyl|rewrite E1; exact Hr|].
  exists z. split; [exact Ez|]. rewrite <- E2. exact Ez.
Qed.
End One.
