(** * NetMem: one training step on the memory *)
From Verif Require Import Base Num ModelTools ModelOps ModelTensor ModelGraph ModelLayer
  Spec Denote IndexProofs ExecProofs TensorFacts
  NetSpec NetExec NetBack NetBuild NetChain NetChain2 NetChain3 NetFit.
From Coq Require Import Lia ZifyBool ZifyNat ZifyN.

Section NetMem.
Context {T : Type} `{Num T}.

Lemma chain_apart A0 hi (net : list (dlay T)) : forall lo_out lo_a l r,
  chain A0 hi lo_out lo_a net -> l ∈ net -> r ∈ net -> l = r \/ aend l <= a0 r \/ aend r <= a0 l.
Proof.
  induction net as [|h net IH]; intros lo_out lo_a l r Hc Hl Hr; [apply elem_of_nil in Hl; contradiction|].
  cbn [chain] in Hc. destruct Hc as (H1 & H2 & H3 & H4 & _ & Hc).
  apply elem_of_cons in Hl as [->|Hl]; apply elem_of_cons in Hr as [->|Hr].
  - left. reflexivity.
  - destruct (chain_in _ _ _ _ _ _ Hc Hr) as (? & ? & ? & ? & ?). right. left. lia.
  - destruct (chain_in _ _ _ _ _ _ Hc Hl) as (? & ? & ? & ? & ?). right. right. lia.
  - eapply IH; eassumption.
Qed.
Lemma chainB_apart hiB (net : list (dlay T)) : forall pre l r,
  chainB hiB pre net -> l ∈ net -> r ∈ net -> l = r \/ bend l <= b0 r \/ bend r <= b0 l.
Proof.
  induction net as [|h net IH]; intros pre l r Hc Hl Hr; [apply elem_of_nil in Hl; contradiction|].
  cbn [chainB] in Hc. destruct Hc as (_ & Hb & Hc).
  apply elem_of_cons in Hl as [->|Hl]; apply elem_of_cons in Hr as [->|Hr].
  - left. reflexivity.
  - destruct (chainB_in _ _ _ _ Hc Hr). right. right. lia.
  - destruct (chainB_in _ _ _ _ Hc Hl). right. left. lia.
  - eapply IH; eassumption.
Qed.

(** Keeping facts. *)
Lemma params_off (P : nat -> Prop) m m' (net : list (dlay T)) snet :
  Forall2 fits_layer net snet -> Forall2 (has_params m) net snet -> same_off P m m' ->
  (forall l a, l ∈ net -> paramP l a -> ~ P a) -> Forall2 (has_params m') net snet.
Proof.
  intros Hf Hp HS Hd. apply Forall2_same_length_lookup.
  split; [eapply Forall2_length; eassumption|]. intros i l s Hl Hs.
  pose proof (Forall2_lookup_lr _ _ _ _ _ _ Hf Hl Hs) as Hf1.
  pose proof (Forall2_lookup_lr _ _ _ _ _ _ Hp Hl Hs) as Hp1.
  eapply params_keep; [exact Hf1|exact Hp1|exact HS|]. intros a. apply Hd. eapply elem_of_list_lookup_2. eassumption.
Qed.
Lemma moments_off (P : nat -> Prop) (m m' : list T) (net : list (dlay T)) :
  Forall (zero_moments m) net -> same_off P m m' ->
  (forall l a, l ∈ net -> (b0 l + no l * ni l <= a < b0 l + no l * ni l + no l * ni l \/
                         b0 l + no l * ni l + no l * ni l + no l <= a < c0 l) -> ~ P a) ->
  Forall (zero_moments m') net.
Proof.
  intros Hz [_ HS] Hd. rewrite Forall_forall in *. intros l Hl. destruct (Hz l Hl) as [Zw Zb]. split.
  - intros i j Hi Hj. rewrite HS; [apply Zw; assumption|]. apply (Hd l); [assumption|].
    assert (i * ni l + j < no l * ni l) by (apply off_lt; lia). unfold amw. lia.
  - intros i Hi. rewrite HS; [apply Zb; assumption|]. apply (Hd l); [assumption|]. unfold amb, c0. lia.
Qed.
Lemma ran_off (P : nat -> Prop) (m m' : list T) A0 hi (net : list (dlay T)) : forall snet lo_out lo_a xs,
  Forall2 fits_layer net snet -> chain A0 hi lo_out lo_a net -> ran m net snet xs -> same_off P m m' ->
  match net with [] => True | l :: _ => forall j, j < ni l -> ~ P (ain l j) end ->
  (forall r a, r ∈ net -> (aout r <= a < aout r + no r \/ a0 r <= a < a0 r + no r) -> ~ P a) ->
  ran m' net snet xs.
Proof.
  induction net as [|l net IH]; intros snet lo_out lo_a xs Hf Hc HR HS Hin HP; [exact I|].
  apply Forall2_cons_inv_l in Hf as (s & snet' & Hfs & Hf & ->). cbn [ran] in *.
  destruct HR as (Hl & H1 & H2 & H3 & HR). cbn [chain] in Hc. destruct Hc as (C1 & C2 & C3 & C4 & Hk & Hc).
  split; [exact Hl|]. split; [|split; [|split]].
  - eapply hold_keep; [exact H1|exact HS|]. intros j Hj. apply Hin. lia.
  - eapply hold_keep; [exact H2|exact HS|]. intros j Hj. rewrite (netas_length l) in Hj by assumption.
    apply (HP l); [left|]. unfold aneta. lia.
  - eapply hold_keep; [exact H3|exact HS|]. intros j Hj. rewrite (outs_length l) in Hj by assumption.
    apply (HP l); [left|]. unfold ao. lia.
  - eapply IH; [exact Hf|exact Hc|exact HR|exact HS| |].
    + destruct net as [|l' net]; [exact I|]. destruct Hk as [-> ->]. intros j Hj. apply (HP l); [left|]. unfold ao. lia.
    + intros r a Hr. apply HP. right. exact Hr.
Qed.

(** *** Clearing the errors *)
Definition clearP (sr : src) (da : nat) (rnet : list (dlay T)) (a : nat) : Prop :=
  (r_id sr <> None /\ da <= a < da + src_size sr) \/ exists l, l ∈ rnet /\ difP l a.
Lemma clears_exec sr da (B : nat) : forall rnet hi (m : list T),
  rlay (da + src_size sr) rnet hi -> hi <= B -> B + src_cnt sr + length rnet <= length m ->
  (forall k, k < src_cnt sr + length rnet -> m !! (B + k) = Some nzero) ->
  exists m', exec (clears B sr da rnet) m = Some m' /\ same_off (clearP sr da rnet) m m' /\
    (r_id sr <> None -> hold m' (fun j => da + j) (zeros (src_size sr))) /\
    Forall (fun l => hold m' (adif l) (zeros (no l))) rnet.
Proof.
  induction rnet as [|l rnet IH]; intros hi m Hy HB Hm Hz; cbn [rlay clears length] in *.
  - unfold src_cnt, src_size in *. destruct (r_id sr) as [q|] eqn:Hq.
    + destruct (clear_exec da (N.to_nat (prodN (r_sh sr))) B m) as (m' & E & S & Hh).
      * rewrite <- (Nat.add_0_r B). apply Hz. lia.
      * lia.
      * lia.
      * exists m'. split; [exact E|]. split; [|split; [intros _; exact Hh|constructor]].
        eapply same_off_weaken; [exact S|]. intros a Ha. left. unfold src_size. rewrite Hq. split; [discriminate|exact Ha].
    + exists m. split; [reflexivity|]. split; [apply same_off_refl|]. split; [congruence|constructor].
  - destruct Hy as [Hy Ehi]. destruct (IH (a0 l) m Hy) as (m1 & E1 & S1 & H1 & F1).
    + unfold aend in Ehi. lia.
    + lia.
    + intros k Hk. apply Hz. lia.
    + pose proof (rlay_le _ _ _ Hy) as Hlo.
      assert (Hin : forall r, r ∈ rnet -> aend r <= a0 l).
      { clear - Hy. revert Hy. generalize (a0 l). induction rnet as [|h rnet IHr]; intros x Hy r Hr; [apply elem_of_nil in Hr; contradiction|].
        cbn [rlay] in Hy. destruct Hy as [Hy E]. apply elem_of_cons in Hr as [->|Hr]; [lia|].
        specialize (IHr _ Hy r Hr). unfold aend in *. lia. }
      assert (Hm1 : length m1 = length m) by apply S1.
      destruct (clear_exec (adif l 0) (no l) (B + src_cnt sr + length rnet) m1) as (m2 & E2 & S2 & H2).
      * destruct S1 as [_ S1]. rewrite S1.
        -- rewrite <- Nat.add_assoc. apply Hz. lia.
        -- intros [[_ Ha]|(r & Hr & Ha)]; [unfold aend in *; lia|]. specialize (Hin r Hr). unfold difP, aend in *. lia.
      * unfold adif, aend in *. lia.
      * unfold adif, aend in *. lia.
      * exists m2. split; [rewrite exec_app, E1; cbn [mbind option_bind]; exact E2|].
        split; [|split].
        -- eapply same_off_trans; [exact S1|exact S2| |].
           ++ intros a [Ha|(r & Hr & Ha)]; [left; exact Ha|]. right. exists r. split; [right; exact Hr|exact Ha].
           ++ intros a Ha. right. exists l. split; [left|]. unfold difP, adif in *. lia.
        -- intros Hq. eapply hold_keep; [apply H1; exact Hq|exact S2|]. intros j Hj. rewrite zeros_length in Hj.
           unfold adif. lia.
        -- constructor.
           ++ eapply hold_ext; [exact H2|]. intros j _. unfold adif. lia.
           ++ apply Forall_forall. intros r Hr. rewrite Forall_forall in F1.
              eapply hold_keep; [apply F1; exact Hr|exact S2|]. intros j Hj. rewrite zeros_length in Hj.
              specialize (Hin r Hr). unfold adif, aend in *. lia.
Qed.

(** *** The error of the last layer and the loss *)
Lemma cal_exec d t o la n (tgt ys m : list T) :
  0 < n -> length tgt = n -> length ys = n -> hold m (fun j => t + j) tgt -> hold m (fun j => o + j) ys ->
  o + n <= d -> d + n <= t -> t + n <= la -> la + n < length m ->
  exists m', exec (cal_ops d t o n ++ loss_ops d la n) m = Some m' /\
    same_off (fun a => d <= a < d + n \/ la <= a <= la + n) m m' /\
    hold m' (fun j => d + j) (zip_with nsub tgt ys) /\ m' !! (la + n) = Some (sum1 (map absv (zip_with nsub tgt ys))).
Proof.
  intros Hn Hlt Hly Ht Hy Hod Hdt Htl Hm.
  set (es := zip_with nsub tgt ys). assert (Hle : length es = n) by (unfold es; rewrite zip_with_length; lia).
  destruct (exec_writes n (fun j => d + j) (fun i => OSub (Some (d + i)) (Some (t + i)) (Some (o + i))) es m) as (m1 & E1 & S1 & H1).
  - exact Hle.
  - reflexivity.
  - intros; lia.
  - intros; lia.
  - intros j m' Hj [_ S]. cbn.
    destruct (lookup_lt_is_Some_2 tgt j) as [x Hx]; [lia|]. destruct (lookup_lt_is_Some_2 ys j) as [y Hy']; [lia|].
    rewrite (S (t + j)) by (intros (k & Hk & He); lia). rewrite (S (o + j)) by (intros (k & Hk & He); lia).
    rewrite (Ht j x Hx), (Hy j y Hy'). cbn. unfold es. rewrite lookup_zip_with, Hx, Hy'. reflexivity.
  - assert (Hm1 : length m1 = length m) by apply S1.
    destruct (exec_writes n (fun j => la + j) (fun i => OAbs (Some (la + i)) (Some (d + i))) (map absv es) m1) as (m2 & E2 & S2 & H2).
    + rewrite map_length. exact Hle.
    + reflexivity.
    + intros; lia.
    + intros; lia.
    + intros j m' Hj [_ S]. cbn. destruct (lookup_lt_is_Some_2 es j) as [x Hx]; [lia|].
      rewrite (S (d + j)) by (intros (k & Hk & He); lia). rewrite (H1 j x Hx). cbn. rewrite list_lookup_fmap, Hx. reflexivity.
    + assert (Hm2 : length m2 = length m1) by apply S2.
      destruct (exec_one (OSum (Some (la + n)) (map (fun i => Some (la + i)) (seq 0 n))) (la + n) (sum1 (map absv es)) m2) as (E3 & S3 & L3).
      * reflexivity.
      * cbn. rewrite (rds_hold m2 (fun i => la + i) (map absv es) n H2) by (rewrite map_length; exact Hle).
        apply red_sum1. destruct es; [cbn in Hle; lia|discriminate].
      * lia.
      * eexists. split; [|split; [|split; [|exact L3]]].
        -- unfold cal_ops, loss_ops. rewrite exec_app, E1. cbn [mbind option_bind]. rewrite exec_app, E2. cbn [mbind option_bind]. exact E3.
        -- eapply same_off_trans; [exact S1|eapply same_off_trans; [exact S2|exact S3| |]| |].
           ++ intros a (k & Hk & ->). instantiate (1 := fun a => la <= a <= la + n). cbv beta. lia.
           ++ intros a ->. lia.
           ++ intros a (k & Hk & ->). left. lia.
           ++ intros a Ha. right. exact Ha.
        -- eapply hold_keep; [eapply hold_keep; [exact H1|exact S2|]|exact S3|]; intros j Hj; cbv beta; rewrite Hle in Hj; [intros (k & Hk & He); lia|lia].
Qed.

Lemma dready_snoc (m : list T) (net : list (dlay T)) l : forall snet xs tgt,
  Forall2 fits_layer (net ++ [l]) snet ->
  Forall (fun r => hold m (adif r) (zeros (no r))) net ->
  hold m (adif l) (zip_with nsub tgt (forward snet xs)) -> dready m (net ++ [l]) snet xs tgt.
Proof.
  induction net as [|h net IH]; intros snet xs tgt Hf Hz Hd; cbn [app] in *.
  - apply Forall2_cons_inv_l in Hf as (s & snet' & Hfs & Hf & ->). apply Forall2_nil_inv_l in Hf as ->. cbn in *. auto.
  - apply Forall2_cons_inv_l in Hf as (s & snet' & Hfs & Hf & ->). apply Forall_cons in Hz as [Hz1 Hz].
    cbn [dready]. split.
    + destruct (net ++ [l]) eqn:E; [apply app_eq_nil in E as [_ E]; discriminate|]. exact Hz1.
    + apply IH; [exact Hf|exact Hz|exact Hd].
Qed.

(** *** The new parameters are those of [learn] *)
Definition fit_ready' (m : list T) (l : dlay T) (sn : slayer T) : Prop :=
  fits_layer l sn /\
  if strain sn then hold2 m (anw l) (sW sn) /\ hold m (anb l) (sB sn) else has_params m l sn.
Lemma fits_ready_of m rst : forall rnet snew, Forall2 (fit_ready' m) rnet snew ->
  map strain snew = map s_tr rst -> fits_ready m rst rnet snew.
Proof.
  induction rst as [|sp rst IH]; intros rnet snew HF Ht; destruct HF as [|l sn rnet snew [Hf Hr] HF]; cbn in *; try discriminate; [exact I|].
  injection Ht as E Ht. split; [|apply IH; assumption]. split; [exact Hf|]. rewrite <- E. exact Hr.
Qed.
Lemma strain_adjust alpha rest (s : slayer T) xs e : strain (adjust alpha rest s xs e) = strain s.
Proof. unfold adjust. destruct (strain s) eqn:E; [reflexivity|exact E]. Qed.
Lemma strain_learn alpha rest (snet : list (slayer T)) : forall xs tgt, map strain (learn alpha rest snet xs tgt) = map strain snet.
Proof. induction snet as [|s snet IH]; intros xs tgt; cbn [learn map]; [reflexivity|]. rewrite strain_adjust, IH. reflexivity. Qed.
Lemma fits_adjust (l : dlay T) s alpha rest xs e : fits_layer l s -> length xs = ni l -> length e = no l ->
  fits_layer l (adjust alpha rest s xs e).
Proof.
  intros Hf Hx He. unfold adjust. destruct (strain s); [|exact Hf]. destruct Hf. split; cbn; try assumption.
  - rewrite zip_with_length. lia.
  - rewrite Forall_forall in *. intros w Hw. apply elem_of_lookup_zip_with in Hw as (i & w0 & d & -> & Hw & Hd).
    rewrite zip_with_length. rewrite (fl_row w0) by (eapply elem_of_list_lookup_2; exact Hw). lia.
  - rewrite zip_with_length. lia.
Qed.
Lemma learn_ready m alpha rest A0 hi (net : list (dlay T)) : forall snet lo_out lo_a xs tgt,
  Forall2 fits_layer net snet -> chain A0 hi lo_out lo_a net ->
  ran m net snet xs -> (forall r, last snet = Some r -> length tgt = length (sW r)) ->
  Forall2 (has_params m) net snet -> news m alpha rest net snet xs tgt ->
  Forall2 (fit_ready' m) net (learn alpha rest snet xs tgt).
Proof.
  induction net as [|l net IH]; intros snet lo_out lo_a xs tgt Hf Hc HR Ht Hp HN.
  - apply Forall2_nil_inv_l in Hf as ->. constructor.
  - assert (Hf0 := Hf). assert (Hc0 := Hc).
    apply Forall2_cons_inv_l in Hf as (s & snet' & Hfs & Hf & ->). apply Forall2_cons in Hp as [Hps Hp].
    destruct HR as (Hlx & _ & _ & _ & HR). destruct HN as [HN1 HN].
    cbn [chain] in Hc. destruct Hc as (_ & _ & _ & _ & _ & Hc).
    assert (Hlen : length (err (s :: snet') xs tgt) = no l).
    { eapply (err_length (l :: net)); [exact Hf0|reflexivity|exact Ht|exact Hc0]. }
    cbn [learn]. constructor.
    + split; [apply fits_adjust; assumption|]. rewrite strain_adjust. unfold adjust. destruct (strain s); [exact HN1|exact Hps].
    + eapply IH; [exact Hf|exact Hc|exact HR| |exact Hp|exact HN].
      intros r Hr. apply Ht. destruct snet'; [discriminate|exact Hr].
Qed.

(** *** Back-propagation leaves the momentum cells alone *)
Definition momP (l : dlay T) (a : nat) : Prop :=
  b0 l + no l * ni l <= a < b0 l + no l * ni l + no l * ni l \/
  b0 l + no l * ni l + no l * ni l + no l <= a < c0 l.
Lemma bpPs_mom A0 hiA hiB (net : list (dlay T)) : forall pre opv lo_out lo_a l a,
  chain A0 hiA lo_out lo_a net -> chainB hiB pre net -> hiA <= hiB ->
  match opv, net with Some pv, h :: _ => forall i, i < ni h -> pdif pv i < hiB | _, _ => True end ->
  l ∈ net -> momP l a -> bpPs opv net a -> False.
Proof.
  induction net as [|h net IH]; intros pre opv lo_out lo_a l a Hc HcB Hh Hpv Hl Hm Hb; [apply elem_of_nil in Hl; contradiction|].
  assert (HcB0 := HcB). assert (Hc0 := Hc).
  cbn [chain] in Hc. destruct Hc as (C1 & C2 & C3 & C4 & Hk & Hc). cbn [chainB] in HcB. destruct HcB as (Ed & Hb0 & HcB).
  destruct (chainB_in _ _ _ _ HcB0 Hl) as [G1 G2].
  pose proof (bend_ge l) as Gl. pose proof (bend_ge h) as Gh.
  assert (Hdif : forall r, r ∈ net -> aend r <= hiA) by (intros r Hr; apply (chain_in _ _ _ _ _ _ Hc Hr)).
  pose proof (chain_lo _ _ _ _ _ Hc) as Hlo. pose proof (bpe_ge _ _ _ HcB) as Hge.
  assert (Ha : b0 l <= a < bend l).
  { assert (c0 l <= bend l) by (unfold bend, u0, c0; destruct (dpre l); lia). unfold momP, c0 in *. lia. }
  apply elem_of_cons in Hl as [->|Hl]; destruct Hb as [Hb|Hb].
  - destruct (bpPs_bound _ _ _ _ _ _ _ _ _ Hc HcB Hb) as [Hr|[(r & Hr & Hd)|Hp]].
    + lia.
    + specialize (Hdif r Hr). unfold difP, aend in *. lia.
    + destruct net as [|l' net]; [exact Hp|]. destruct Hp as (i & Hi & ->). destruct Hk as [_ E]. cbn in *. unfold adif, aend in *. lia.
  - destruct Hb as [Hb|[Hb|Hb]].
    + unfold updsP, momP, u0, c0 in *. destruct (dpre h); lia.
    + unfold momP in *. unfold c0 in *. lia.
    + destruct opv as [pv|]; [|exact Hb]. destruct Hb as (i & Hi & ->). specialize (Hpv i Hi). lia.
  - eapply (IH true (Some (pv_of h))); [exact Hc|exact HcB|exact Hh| |exact Hl|exact Hm|exact Hb].
    destruct net as [|l' net]; [exact I|]. destruct Hk as [_ E]. intros i Hi. cbn. unfold adif, aend in *. lia.
  - destruct (chainB_in _ _ _ _ HcB Hl) as [G3 G4].
    destruct Hb as [Hb|[Hb|Hb]].
    + unfold updsP, bend, u0, c0 in *. destruct (dpre h); lia.
    + unfold bend, u0, c0 in *. destruct (dpre h); lia.
    + destruct opv as [pv|]; [|exact Hb]. destruct Hb as (i & Hi & ->). specialize (Hpv i Hi). lia.
Qed.

(** *** Feed-forward, error, back-propagation *)
Definition stepP (sr : src) (da t0 o h2 : nat) (rnet : list (dlay T)) (a : nat) : Prop :=
  ffPs (rev rnet) a \/ clearP sr da rnet a \/ t0 + o <= a <= t0 + o + o \/ t0 + o + o + 3 <= a < h2.
Lemma outs_bottom sr (rst : list (lsp (T:=T))) A0 : outs_ok sr rst A0 -> rst <> [] ->
  r_b sr + N.to_nat (prodN (r_sh sr)) <= A0.
Proof.
  induction rst as [|sp rst IH]; [contradiction|]. cbn [outs_ok]. intros (H1 & H2 & H3) _.
  destruct rst as [|sp' rst]; [cbn in *; lia|]. apply IH; [exact H3|discriminate].
Qed.
Lemma bottom sr (rst : list (lsp (T:=T))) : forall rnet, laid sr rst rnet -> rst <> [] ->
  exists l net, rev rnet = l :: net /\ ain l = (fun j => r_b sr + j) /\ ni l = N.to_nat (prodN (r_sh sr)).
Proof.
  induction rst as [|sp rst IH]; intros [|l rnet]; cbn [laid]; try contradiction.
  intros (H1 & H2 & _ & _ & _ & Hr) _. destruct rst as [|sp' rst].
  - destruct rnet; [|contradiction]. exists l, []. split; [reflexivity|]. split; [exact H1|exact H2].
  - destruct (IH rnet Hr) as (l0 & net & E & E1 & E2); [discriminate|]. exists l0, (net ++ [l]). cbn [rev]. rewrite E. auto.
Qed.
Lemma forward_length (net : list (dlay T)) : forall snet xs l, Forall2 fits_layer net snet -> last net = Some l ->
  length (forward snet xs) = no l.
Proof.
  induction net as [|h net IH]; intros snet xs l Hf Hl; [discriminate|].
  apply Forall2_cons_inv_l in Hf as (s & snet' & Hfs & Hf & ->). cbn [forward].
  destruct net as [|h' net].
  - apply Forall2_nil_inv_l in Hf as ->. cbn in *. injection Hl as ->. apply outs_length. exact Hfs.
  - rewrite last_cons_cons in Hl. apply IH; [exact Hf|exact Hl].
Qed.

Lemma step_mem sr da (rst : list (lsp (T:=T))) (l : dlay T) rnet hi t0 h2 snet xs tgt (m : list T) valpha vmo :
  laid sr rst (l :: rnet) -> outs_ok sr rst da -> rlay (da + src_size sr) (l :: rnet) hi ->
  blay (t0 + no l + no l + 3) sr (l :: rnet) h2 -> hi <= t0 -> h2 <= length m ->
  Forall2 fits_layer (rev (l :: rnet)) snet -> Forall2 (has_params m) (rev (l :: rnet)) snet ->
  Forall (zero_moments m) (l :: rnet) -> Forall (fun l => 0 < no l) (l :: rnet) ->
  length xs = N.to_nat (prodN (r_sh sr)) -> hold m (fun j => r_b sr + j) xs ->
  length tgt = no l -> hold m (fun j => t0 + j) tgt ->
  (r_id sr <> None -> hold m (fun j => da + j) (zeros (src_size sr))) ->
  Forall (fun r => hold m (adif r) (zeros (no r))) (l :: rnet) ->
  m !! (t0 + no l + no l + 1) = Some valpha -> m !! (t0 + no l + no l + 2) = Some vmo ->
  exists m1 m2 m3, exec (ffs (rev (l :: rnet))) m = Some m1 /\
    exec (cal_ops (adif l 0) t0 (aout l) (no l) ++ loss_ops (adif l 0) (t0 + no l) (no l)) m1 = Some m2 /\
    exec (bps_rev (t0 + no l + no l + 1) (t0 + no l + no l + 2) sr da (l :: rnet)) m2 = Some m3 /\
    same_off (stepP sr da t0 (no l) h2 (l :: rnet)) m m3 /\
    m3 !! (t0 + no l + no l) = Some (loss snet xs tgt) /\
    Forall2 (fit_ready' m3) (rev (l :: rnet)) (learn valpha (nmul nzero vmo) snet xs tgt) /\
    Forall (zero_moments m3) (l :: rnet).
Proof.
  intros Hlaid Houts Hrlay Hblay Hhi Hh2 Hf Hp Hz Hw Hlx Hx Hlt Ht Hzin Hzd Hal Hmo.
  assert (Hne : rst <> []) by (destruct rst; [contradiction|discriminate]).
  pose proof (outs_bottom _ _ _ Houts Hne) as Hbot.
  assert (Hc : chain da hi (r_b sr + N.to_nat (prodN (r_sh sr))) (da + src_size sr) (rev (l :: rnet))) by (apply (laid_chain sr da (da + src_size sr) rst (l :: rnet) hi); try assumption; lia).
  destruct (blay_chainB _ _ _ _ Hblay) as [HcB Hbpe].
  destruct (bottom _ _ _ Hlaid Hne) as (lb & netb & Eb & Eain & Eni).
  set (net := rev (l :: rnet)) in *. set (size := N.to_nat (prodN (r_sh sr))) in *.
  assert (Hnet : net = rev rnet ++ [l]) by reflexivity.
  assert (Hin : forall r, r ∈ net <-> r ∈ l :: rnet) by (intros r; unfold net; rewrite !elem_of_list_In; symmetry; apply in_rev).
  assert (Hll : l ∈ net) by (apply Hin; left).
  destruct (chain_in _ _ _ _ _ _ Hc Hll) as (L1 & L2 & L3 & L4 & L5).
  pose proof (bpe_ge _ _ _ HcB) as Hge. rewrite Hbpe in Hge.
  assert (Hdh : da + src_size sr <= hi) by (unfold aend in *; lia).
  assert (Hnol : 0 < no l) by (inversion Hw; assumption).
  assert (Elast : last net = Some l) by (rewrite Hnet; apply last_snoc).
  set (al := t0 + no l + no l + 1) in *. set (mo := t0 + no l + no l + 2) in *. set (hiB := t0 + no l + no l + 3) in *.
  (* feed-forward *)
  destruct (ffs_exec da hi net snet (r_b sr + size) (da + src_size sr) xs m) as (m1 & E1 & S1 & R1); try assumption.
  { rewrite Eb. rewrite Eain, Eni. split; [exact Hlx|]. split; [exact Hx|]. intros; lia. }
  { lia. }
  assert (Len1 : length m1 = length m) by apply S1.
  assert (HP1 : Forall2 (has_params m1) net snet) by (eapply params_ff; eauto).
  assert (Hff : forall a, ffPs net a -> r_b sr + size <= a < da \/ da + src_size sr <= a < hi) by (intros a; apply ffPs_low; exact Hc).
  assert (Hdff : forall r a, r ∈ net -> difP r a -> ~ ffPs net a).
  { intros r a Hr Hd (r' & Hr' & Hff'). destruct (chain_apart _ _ _ _ _ _ _ Hc Hr Hr') as [<-|[?|?]];
      destruct (chain_in _ _ _ _ _ _ Hc Hr) as (? & ? & ? & ? & ?); destruct (chain_in _ _ _ _ _ _ Hc Hr') as (? & ? & ? & ? & ?);
      unfold difP, ffP, aend in *; lia. }
  assert (T1 : hold m1 (fun j => t0 + j) tgt).
  { eapply hold_keep; [exact Ht|exact S1|]. intros j Hj Hb. apply Hff in Hb. cbv beta in *. unfold aend in *. lia. }
  assert (D1 : Forall (fun r => hold m1 (adif r) (zeros (no r))) (l :: rnet)).
  { rewrite Forall_forall in *. intros r Hr. eapply hold_keep; [apply Hzd; exact Hr|exact S1|].
    intros j Hj. rewrite zeros_length in Hj. apply (Hdff r); [apply Hin; exact Hr|]. unfold difP, adif. lia. }
  assert (O1 : hold m1 (fun j => aout l + j) (forward snet xs)).
  { eapply ran_forward; [eapply Forall2_length; exact Hf|exact R1|exact Elast]. }
  assert (LF : length (forward snet xs) = no l) by (eapply forward_length; eassumption).
  (* error and loss *)
  destruct (cal_exec (adif l 0) t0 (aout l) (t0 + no l) (no l) tgt (forward snet xs) m1) as (m2 & E2 & S2 & H2 & V2);
    try assumption; try (unfold adif, aend in *; lia).
  assert (Len2 : length m2 = length m1) by apply S2.
  set (P2 := fun a => adif l 0 <= a < adif l 0 + no l \/ t0 + no l <= a <= t0 + no l + no l) in *.
  assert (P2d : forall a, P2 a -> difP l a \/ t0 + no l <= a <= t0 + no l + no l) by (unfold P2, difP, adif; lia).
  assert (HP2 : Forall2 (has_params m2) net snet).
  { eapply params_off; [exact Hf|exact HP1|exact S2|]. intros r a Hr Ha Hb. apply P2d in Hb.
    destruct (chain_apart _ _ _ _ _ _ _ Hc Hr Hll) as [->|[?|?]]; destruct (chain_in _ _ _ _ _ _ Hc Hr) as (? & ? & ? & ? & ?);
      unfold paramP, difP, aend in *; lia. }
  assert (Hran2 : ran m2 net snet xs).
  { eapply ran_off; [exact Hf|exact Hc|exact R1|exact S2| |].
    - rewrite Eb. intros j Hj Hb. rewrite Eain in Hb. rewrite Eni in Hj. apply P2d in Hb. cbv beta in *. unfold difP, aend in *. lia.
    - intros r a Hr Ha Hb. apply P2d in Hb.
      destruct (chain_apart _ _ _ _ _ _ _ Hc Hr Hll) as [->|[?|?]]; destruct (chain_in _ _ _ _ _ _ Hc Hr) as (? & ? & ? & ? & ?);
        unfold difP, aend in *; lia. }
  assert (Hd2 : dready m2 net snet xs tgt).
  { rewrite Hnet. apply dready_snoc; [rewrite <- Hnet; exact Hf| |].
    - apply Forall_forall. intros r Hr. assert (Hr' : r ∈ rnet) by (apply elem_of_list_In; apply in_rev; apply elem_of_list_In; exact Hr).
      rewrite Forall_forall in D1. eapply hold_keep; [apply D1; right; exact Hr'|exact S2|].
      intros j Hj Hb. rewrite zeros_length in Hj. apply P2d in Hb.
      assert (Hrl : aend r <= a0 l).
      { cbn [rlay] in Hrlay. destruct Hrlay as [Hy _]. clear - Hy Hr'. revert Hy. generalize (a0 l). induction rnet as [|h rnet IHr]; intros x Hy; [apply elem_of_nil in Hr'; contradiction|].
        cbn [rlay] in Hy. destruct Hy as [Hy E]. apply elem_of_cons in Hr' as [->|Hr']; [lia|].
        specialize (IHr Hr' _ Hy). unfold aend in *. lia. }
      destruct (chain_in _ _ _ _ _ _ Hc (proj2 (Hin r) ltac:(right; exact Hr'))) as (? & ? & ? & ? & ?).
      unfold difP, adif, aend in *. lia.
    - eapply hold_ext; [exact H2|]. intros j _. unfold adif. lia. }
  assert (Hz2 : Forall (zero_moments m2) (l :: rnet)).
  { eapply moments_off; [eapply moments_off; [exact Hz|exact S1|]|exact S2|].
    - intros r a Hr Ha Hb. apply Hff in Hb. destruct (chainB_in _ _ _ _ HcB (proj2 (Hin r) Hr)). lia.
    - intros r a Hr Ha Hb. apply P2d in Hb. destruct (chainB_in _ _ _ _ HcB (proj2 (Hin r) Hr)). unfold difP, aend in *. lia. }
  assert (Hal2 : m2 !! al = Some valpha).
  { rewrite (proj2 S2), (proj2 S1); [exact Hal| |].
    - intros Hb. apply Hff in Hb. cbv beta in *. unfold aend in *. lia.
    - intros Hb. apply P2d in Hb. cbv beta in *. unfold difP, aend in *. lia. }
  assert (Hmo2 : m2 !! mo = Some vmo).
  { rewrite (proj2 S2), (proj2 S1); [exact Hmo| |].
    - intros Hb. apply Hff in Hb. cbv beta in *. unfold aend in *. lia.
    - intros Hb. apply P2d in Hb. cbv beta in *. unfold difP, aend in *. lia. }
  assert (Hz2n : Forall (zero_moments m2) net) by (rewrite Forall_forall in *; intros r Hr; apply Hz2; apply Hin; exact Hr).
  assert (Hwn : Forall (fun l => 0 < no l) net) by (rewrite Forall_forall in *; intros r Hr; apply Hw; apply Hin; exact Hr).
  assert (Hlast : forall r, last snet = Some r -> length tgt = length (sW r)).
  { intros r Hr. rewrite Hlt. assert (Hfl : fits_layer l r); [|destruct Hfl; congruence].
    clear - Hf Elast Hr. revert snet Hf Hr. induction net as [|h net IHn]; intros snet Hf Hr; [discriminate|].
    apply Forall2_cons_inv_l in Hf as (s & snet' & Hfs & Hf & ->). destruct net as [|h' net].
    - apply Forall2_nil_inv_l in Hf as ->. cbn in *. congruence.
    - rewrite last_cons_cons in Elast. apply (IHn Elast snet' Hf). destruct snet'; [inversion Hf|]. rewrite last_cons_cons in Hr. exact Hr. }
  assert (Hx2 : hold m2 (fun j => r_b sr + j) xs).
  { eapply hold_keep; [eapply hold_keep; [exact Hx|exact S1|]|exact S2|]; intros j Hj Hb.
    - apply Hff in Hb. cbv beta in *. unfold aend in *. lia.
    - apply P2d in Hb. cbv beta in *. unfold difP, aend in *. lia. }
  assert (Hi2 : r_id sr <> None -> hold m2 (fun j => da + j) (zeros (src_size sr))).
  { intros Hq. eapply hold_keep; [eapply hold_keep; [exact (Hzin Hq)|exact S1|]|exact S2|]; intros j Hj Hb; rewrite zeros_length in Hj.
    - apply Hff in Hb. cbv beta in *. unfold aend in *. lia.
    - apply P2d in Hb. cbv beta in *. unfold difP, aend in *. lia. }
  (* back-propagation *)
  destruct (bps_exec da hi hiB al mo valpha vmo tgt m2 net snet (has_pre (T:=T) sr []) (opv_at sr da []) (r_b sr + size) (da + src_size sr) xs xs (zeros (src_size sr)))
    as (m3 & E3 & S3 & N3 & _); try assumption; try (unfold al, mo, hiB; lia).
  { rewrite Hbpe. lia. }
  { rewrite Eb. rewrite Eain, Eni. fold size. split; [intros; lia|]. unfold opv_at, has_pre.
    assert (Hsz : r_id sr <> None -> src_size sr = size) by (unfold src_size; destruct (r_id sr); [reflexivity|congruence]).
    destruct (r_id sr) as [q|]; [|reflexivity].
    rewrite Hsz in * by discriminate. cbn.
    repeat split; try (intros; lia).
    - apply zeros_length.
    - exact Hx2.
    - apply Hi2. discriminate. }
  assert (Len3 : length m3 = length m2) by apply S3.
  assert (HB : forall a, bpPs (opv_at sr da []) net a -> hiB <= a < h2 \/ clearP sr da (l :: rnet) a).
  { intros a Ha. destruct (bpPs_bound _ _ _ _ _ _ _ _ _ Hc HcB Ha) as [Hr|[(r & Hr & Hd)|Hpp]].
    - left. rewrite <- Hbpe. exact Hr.
    - right. right. exists r. split; [apply Hin; exact Hr|exact Hd].
    - right. left. unfold opv_at, has_pre in Hpp. unfold src_size. destruct (r_id sr) as [q|]; [|contradiction].
      rewrite Eb in Hpp. destruct Hpp as (i & Hi & ->). cbn. rewrite Eni in Hi. split; [discriminate|]. fold size. lia. }
  assert (HBlow : forall a, clearP sr da (l :: rnet) a -> da <= a < hi /\ (da + src_size sr <= a -> exists r, r ∈ net /\ difP r a)).
  { intros a [[Hq Ha]|(r & Hr & Hd)].
    - split; [unfold aend in *; lia|lia].
    - apply Hin in Hr. destruct (chain_in _ _ _ _ _ _ Hc Hr) as (? & ? & ? & ? & ?). split; [unfold difP, aend in *; lia|]. intros _. exists r. auto. }
  assert (HP3 : Forall2 (has_params m3) net snet).
  { eapply params_off; [exact Hf|exact HP2|exact S3|]. intros r a Hr Ha Hb. apply HB in Hb.
    destruct (chain_in _ _ _ _ _ _ Hc Hr) as (? & ? & ? & ? & ?).
    destruct Hb as [Hb|Hb]; [unfold paramP, aend in *; lia|]. apply HBlow in Hb as [_ Hb].
    destruct Hb as (r' & Hr' & Hd); [unfold paramP in *; lia|].
    destruct (chain_apart _ _ _ _ _ _ _ Hc Hr Hr') as [->|[?|?]]; unfold paramP, difP, aend in *; lia. }
  assert (Hran3 : ran m3 net snet xs).
  { eapply ran_off; [exact Hf|exact Hc|exact Hran2|exact S3| |].
    - assert (HB' := HB). rewrite Eb in HB' |- *. intros j Hj Hb. rewrite Eain in Hb. rewrite Eni in Hj. apply HB' in Hb as [Hb|Hb]; [lia|]. apply HBlow in Hb as [Hb _]. lia.
    - intros r a Hr Ha Hb. apply HB in Hb. destruct (chain_in _ _ _ _ _ _ Hc Hr) as (? & ? & ? & ? & ?).
      destruct Hb as [Hb|Hb]; [unfold aend in *; lia|]. apply HBlow in Hb as [Hb1 Hb].
      destruct Hb as (r' & Hr' & Hd); [lia|]. destruct (chain_in _ _ _ _ _ _ Hc Hr') as (? & ? & ? & ? & ?).
      destruct (chain_apart _ _ _ _ _ _ _ Hc Hr Hr') as [->|[?|?]]; unfold difP, aend in *; lia. }
  exists m1, m2, m3. split; [exact E1|]. split; [exact E2|]. split; [rewrite <- bps_rev_ok; exact E3|].
  split; [|split; [|split]].
  - eapply same_off_trans; [exact S1|eapply same_off_trans; [exact S2|exact S3| |]| |].
    + instantiate (1 := fun a => clearP sr da (l :: rnet) a \/ t0 + no l <= a <= t0 + no l + no l \/ hiB <= a < h2).
      intros a Ha. apply P2d in Ha as [Ha|Ha]; [|right; left; exact Ha]. left. right. exists l. split; [left|exact Ha].
    + intros a Ha. apply HB in Ha as [Ha|Ha]; [right; right; exact Ha|left; exact Ha].
    + intros a Ha. left. exact Ha.
    + intros a Ha. right. exact Ha.
  - rewrite (proj2 S3); [exact V2|]. intros Hb. apply HB in Hb as [Hb|Hb]; [lia|]. apply HBlow in Hb as [Hb _]. lia.
  - eapply learn_ready; [exact Hf|exact Hc|exact Hran3|exact Hlast|exact HP3|exact N3].
  - eapply moments_off; [exact Hz2|exact S3|]. intros r a Hr Ha Hb.
    eapply (bpPs_mom da hi hiB net); [exact Hc|exact HcB|lia| |apply Hin; exact Hr|exact Ha|exact Hb].
    unfold opv_at, has_pre. destruct (r_id sr) as [q|] eqn:Eq; [|exact I]. rewrite Eb. rewrite Eni. cbn.
    unfold src_size in *. rewrite Eq in *. fold size in L4. intros i Hi. fold size in Hi. unfold aend in *. lia.
Qed.
End NetMem.
