(** * NetExec: what the operations a dense layer pushes compute

    Addresses and operations only: the lists of operations below are what
    NetBuild proves the code pushes. *)
From Verif Require Import Base Num Spec ModelOps ExecProofs NetSpec.
From Coq Require Import Lia ZifyBool ZifyNat.

Section NetExec.
Context {T : Type} `{Num T}.

(** The cells [f 0], [f 1], ... hold the values [vs]. *)
Definition hold (m : list T) (f : nat -> nat) (vs : list T) : Prop :=
  forall j v, vs !! j = Some v -> m !! f j = Some v.
Definition hold2 (m : list T) (f : nat -> nat -> nat) (W : list (list T)) : Prop :=
  forall i w, W !! i = Some w -> hold m (f i) w.
(** The same memory outside [P]. *)
Definition same_off (P : nat -> Prop) (m m' : list T) : Prop :=
  length m' = length m /\ forall a, ~ P a -> m' !! a = m !! a.

Lemma same_off_refl P m : same_off P m m.
Proof. split; auto. Qed.
Lemma same_off_trans (P Q R : nat -> Prop) m1 m2 m3 :
  same_off P m1 m2 -> same_off Q m2 m3 ->
  (forall a, P a -> R a) -> (forall a, Q a -> R a) -> same_off R m1 m3.
Proof.
  intros [L1 H1] [L2 H2] HP HQ. split; [congruence|].
  intros a Ha. rewrite H2, H1 by auto. reflexivity.
Qed.
Lemma same_off_weaken (P Q : nat -> Prop) m m' :
  same_off P m m' -> (forall a, P a -> Q a) -> same_off Q m m'.
Proof. intros [L Ha] HP. split; auto. Qed.
Lemma hold_keep (P : nat -> Prop) m m' f vs :
  hold m f vs -> same_off P m m' -> (forall j, j < length vs -> ~ P (f j)) -> hold m' f vs.
Proof.
  intros Hh [_ Hs] Hd j v Hv. rewrite Hs; [apply Hh; assumption|].
  apply Hd. apply lookup_lt_Some in Hv. assumption.
Qed.
Lemma hold2_keep (P : nat -> Prop) m m' f W :
  hold2 m f W -> same_off P m m' ->
  (forall i w j, W !! i = Some w -> j < length w -> ~ P (f i j)) -> hold2 m' f W.
Proof. intros Hh Hs Hd i w Hw. eapply hold_keep; eauto. Qed.
Lemma hold_ext m f g vs : hold m f vs -> (forall j, j < length vs -> f j = g j) -> hold m g vs.
Proof.
  intros Hh He j v Hv. rewrite <- He by (apply lookup_lt_Some in Hv; assumption). apply Hh. assumption.
Qed.
Lemma hold_nil m f : hold m f [].
Proof. intros j v Hv. rewrite lookup_nil in Hv. discriminate. Qed.

(** ** Loops *)
Lemma exec_units (n : nat) (u : nat -> list (op T)) (P : nat -> nat -> Prop)
    (Q : nat -> list T -> Prop) (m0 : list T) :
  (forall i m, i < n -> same_off (fun a => exists k, k < i /\ P k a) m0 m ->
     exists m', exec (u i) m = Some m' /\ same_off (P i) m m' /\ Q i m') ->
  (forall i k m m', k < i -> i < n -> Q k m -> same_off (P i) m m' -> Q k m') ->
  exists m', exec (flat_map u (seq 0 n)) m0 = Some m' /\
    same_off (fun a => exists k, k < n /\ P k a) m0 m' /\ forall i, i < n -> Q i m'.
Proof.
  intros Hstep Hkeep. induction n as [|n IH].
  - exists m0. repeat split; auto. intros; lia.
  - destruct IH as (m1 & E1 & S1 & Q1).
    { intros i m Hi. apply Hstep. lia. }
    { intros i k m m' Hk Hi. apply Hkeep; lia. }
    destruct (Hstep n m1) as (m2 & E2 & S2 & Q2); [lia|exact S1|].
    exists m2. repeat split.
    + rewrite seq_S, flat_map_app. cbn [flat_map]. rewrite app_nil_r, exec_app, E1. cbn. exact E2.
    + destruct S1, S2; congruence.
    + intros a Ha. destruct S1 as [_ S1], S2 as [_ S2]. rewrite S2, S1.
      * reflexivity.
      * intros (k & Hk & Pk). apply Ha. exists k. split; [lia|assumption].
      * intros Pk. apply Ha. exists n. split; [lia|assumption].
    + intros i Hi. destruct (decide (i = n)) as [->|Hne]; [assumption|].
      apply (Hkeep n i m1 m2); [lia|lia|apply Q1; lia|assumption].
Qed.

(** One operation. *)
Lemma exec_one (o : op T) (d : nat) (v : T) (m : list T) :
  op_dst o = Some (Some d) -> op_value o m = Some v -> d < length m ->
  exec [o] m = Some (<[d := v]> m) /\ same_off (fun a => a = d) m (<[d := v]> m) /\
  (<[d := v]> m) !! d = Some v.
Proof.
  intros Hd Hv Hl. split; [|split].
  - cbn. unfold cal. rewrite Hd, Hv. cbn [mbind option_bind]. rewrite wr_Some by assumption. reflexivity.
  - split; [apply insert_length|]. intros a Ha. apply list_lookup_insert_ne. congruence.
  - apply list_lookup_insert. assumption.
Qed.

(** A loop of single, independent writes. *)
Lemma exec_writes (n : nat) (d : nat -> nat) (o : nat -> op T) (vs : list T) (m : list T) :
  length vs = n ->
  (forall j, j < n -> op_dst (o j) = Some (Some (d j))) ->
  (forall j k, j < n -> k < n -> d j = d k -> j = k) ->
  (forall j, j < n -> d j < length m) ->
  (forall j m', j < n -> same_off (fun a => exists k, k < j /\ a = d k) m m' ->
     op_value (o j) m' = vs !! j) ->
  exists m', exec (map o (seq 0 n)) m = Some m' /\
    same_off (fun a => exists k, k < n /\ a = d k) m m' /\ hold m' d vs.
Proof.
  intros Hlen Hdst Hinj Hlt Hval.
  destruct (exec_units n (fun j => [o j]) (fun k a => a = d k)
              (fun k m' => m' !! d k = vs !! k) m) as (m' & E & S & Q).
  - intros i m1 Hi S1.
    destruct (lookup_lt_is_Some_2 vs i) as [v Hv]; [lia|].
    assert (Hv' : op_value (o i) m1 = Some v) by (rewrite (Hval i m1 Hi S1); assumption).
    assert (Hl : d i < length m1) by (destruct S1 as [-> _]; auto).
    destruct (exec_one (o i) (d i) v m1) as (E1 & S2 & L); [auto|assumption|assumption|].
    exists (<[d i := v]> m1). split; [assumption|]. split; [assumption|]. congruence.
  - intros i k m1 m2 Hk Hi HQ [_ S]. rewrite S; [assumption|].
    intros Heq. apply Hinj in Heq; lia.
  - exists m'. split; [|split].
    + replace (map o (seq 0 n)) with (flat_map (fun j => [o j]) (seq 0 n)); [exact E|].
      clear. induction (seq 0 n) as [|x l IH]; cbn; [reflexivity|].
      rewrite IH. reflexivity.
    + assumption.
    + intros j v Hv. rewrite Q; [assumption|]. apply lookup_lt_Some in Hv. lia.
Qed.

Lemma rds_hold m f vs n :
  hold m f vs -> length vs = n -> rds m (map (fun j => Some (f j)) (seq 0 n)) = Some vs.
Proof.
  intros Hh <-. unfold rds. apply mapM_Some. apply Forall2_same_length_lookup. split.
  - rewrite map_length, seq_length. reflexivity.
  - intros i x y Hx Hy. rewrite list_lookup_fmap in Hx.
    apply fmap_Some in Hx as (k & Hk & ->). apply lookup_seq in Hk as [-> Hlt]. cbn.
    apply Hh. assumption.
Qed.
Lemma rds_app_Some (m : list T) a b x y :
  rds m a = Some x -> rds m b = Some y -> rds m (a ++ b) = Some (x ++ y).
Proof. intros Ha Hb. rewrite rds_app, Ha, Hb. reflexivity. Qed.
Lemma rds_1 (m : list T) (p : nat) v : m !! p = Some v -> rds m [Some p] = Some [v].
Proof. intros Hp. unfold rds. cbn. rewrite Hp. reflexivity. Qed.
Lemma red_sum1 (l : list T) : l <> [] -> red_args nadd l = Some (sum1 l).
Proof. destruct l; [congruence|reflexivity]. Qed.
Lemma off_lt n k i j : i < k -> j < n -> i * n + j < k * n.
Proof. nia. Qed.
Lemma off_le n k i : i < k -> i * n + n <= k * n.
Proof. nia. Qed.

(** ** A dense layer, as addresses

    [ain j] is the cell of input [j]; the outputs start at [aout].  From [a0] on
    lie the weighted sums, the errors, the biases, the weights, and the products;
    from [b0] on what back-propagation allocates. *)
Record dlay : Type := DL {
  ni : nat; no : nat;
  ain : nat -> nat;
  aout : nat;
  a0 : nat;
  b0 : nat;
  dpre : bool;
  df : T -> T; dd : T -> T;
}.
Definition aneta (l : dlay) (i : nat) : nat := a0 l + i.
Definition adif (l : dlay) (i : nat) : nat := a0 l + no l + i.
Definition ab (l : dlay) (i : nat) : nat := a0 l + no l + no l + i.
Definition aw (l : dlay) (i j : nat) : nat := a0 l + no l + no l + no l + (i * ni l + j).
Definition ascr (l : dlay) (i j : nat) : nat :=
  a0 l + no l + no l + no l + no l * ni l + (i * ni l + j).
Definition aend (l : dlay) : nat := a0 l + no l + no l + no l + no l * ni l + no l * ni l.
Definition ao (l : dlay) (i : nat) : nat := aout l + i.

(** dense.go:72-113 *)
Definition ff_unit (l : dlay) (i : nat) : list (op T) :=
  map (fun j => OMul (Some (ascr l i j)) (Some (ain l j)) (Some (aw l i j))) (seq 0 (ni l)) ++
  [OSum (Some (aneta l i)) (map (fun j => Some (ascr l i j)) (seq 0 (ni l)) ++ [Some (ab l i)]);
   OFunc (Some (ao l i)) (Some (aneta l i)) (df l)].
Definition ff (l : dlay) : list (op T) := flat_map (ff_unit l) (seq 0 (no l)).

(** The cells the feed-forward operations write. *)
Definition ffP (l : dlay) (a : nat) : Prop :=
  a0 l <= a < a0 l + no l \/
  a0 l + no l + no l + no l + no l * ni l <= a < aend l \/
  aout l <= a < aout l + no l.
Definition unitP (l : dlay) (i a : nat) : Prop :=
  (exists j, j < ni l /\ a = ascr l i j) \/ a = aneta l i \/ a = ao l i.

Lemma unitP_ffP l i a : i < no l -> unitP l i a -> ffP l a.
Proof.
  unfold unitP, ffP, ascr, aneta, ao, aend. intros Hi [(j & Hj & ->)|[->| ->]]; [|lia|lia].
  pose proof (off_lt (ni l) (no l) i j Hi Hj). lia.
Qed.

(** The layer [l] in memory computes what [s] says. *)
Record fits_layer (l : dlay) (s : slayer T) : Prop := {
  fl_W : length (sW s) = no l;
  fl_row : Forall (fun w => length w = ni l) (sW s);
  fl_B : length (sB s) = no l;
  fl_f : df l = sf s;
  fl_d : dd l = sd s;
}.
Definition has_params (m : list T) (l : dlay) (s : slayer T) : Prop :=
  hold2 m (aw l) (sW s) /\ hold m (ab l) (sB s).

Lemma row_length l s i w : fits_layer l s -> sW s !! i = Some w -> length w = ni l.
Proof. intros [] Hw. rewrite Forall_lookup in fl_row0. eapply fl_row0. eassumption. Qed.

Lemma netas_length l s xs : fits_layer l s -> length (netas s xs) = no l.
Proof. intros []. unfold netas. rewrite zip_with_length. lia. Qed.
Lemma outs_length l s xs : fits_layer l s -> length (outs s xs) = no l.
Proof. intros Hf. unfold outs. rewrite map_length. apply netas_length. assumption. Qed.

Lemma ff_unit_exec l s xs m i w b :
  fits_layer l s -> i < no l ->
  sW s !! i = Some w -> sB s !! i = Some b ->
  length xs = ni l -> hold m (ain l) xs ->
  hold m (aw l i) w -> m !! ab l i = Some b ->
  (forall j, j < ni l -> ~ ffP l (ain l j)) ->
  aout l + no l <= a0 l -> aend l <= length m ->
  exists m', exec (ff_unit l i) m = Some m' /\ same_off (unitP l i) m m' /\
    m' !! aneta l i = Some (neta xs w b) /\ m' !! ao l i = Some (sf s (neta xs w b)).
Proof.
  intros Hf Hi Hw Hb Hxs Hin Hwm Hbm Hsep Hout Hend.
  assert (Hwl : length w = ni l) by (eapply row_length; eassumption).
  assert (Hbnd : forall j, j < ni l -> i * ni l + j < no l * ni l) by (intros; apply off_lt; assumption).
  destruct (exec_writes (ni l) (ascr l i)
    (fun j => OMul (Some (ascr l i j)) (Some (ain l j)) (Some (aw l i j)))
    (zip_with nmul xs w) m) as (m1 & E1 & S1 & H1).
  - rewrite zip_with_length. lia.
  - reflexivity.
  - unfold ascr. intros; lia.
  - intros j Hj. specialize (Hbnd j Hj). unfold ascr, aend in *. lia.
  - intros j m' Hj [_ S]. cbn.
    destruct (lookup_lt_is_Some_2 xs j) as [x Hx]; [lia|].
    destruct (lookup_lt_is_Some_2 w j) as [v Hv]; [lia|].
    rewrite (S (ain l j)), (S (aw l i j)).
    + rewrite (Hin j x Hx), (Hwm j v Hv). cbn. rewrite lookup_zip_with, Hx, Hv. reflexivity.
    + intros (k & Hk & He). unfold aw, ascr in He. specialize (Hbnd j Hj). lia.
    + intros (k & Hk & He). apply (Hsep j Hj). rewrite He.
      apply (unitP_ffP l i); [assumption|]. left. exists k. split; [lia|reflexivity].
  - assert (Hlen : length (zip_with nmul xs w) = ni l) by (rewrite zip_with_length; lia).
    assert (Hb1 : m1 !! ab l i = Some b).
    { destruct S1 as [_ S1]. rewrite S1; [assumption|]. intros (k & Hk & He).
      unfold ab, ascr in He. lia. }
    destruct (exec_one (OSum (Some (aneta l i))
        (map (fun j => Some (ascr l i j)) (seq 0 (ni l)) ++ [Some (ab l i)]))
        (aneta l i) (neta xs w b) m1) as (E2 & S2 & L2).
    + reflexivity.
    + cbn. rewrite (rds_app_Some _ _ _ (zip_with nmul xs w) [b]).
      * cbn. apply red_sum1. destruct (zip_with nmul xs w); discriminate.
      * apply rds_hold; assumption.
      * apply rds_1. assumption.
    + destruct S1 as [-> _]. unfold aneta, aend in *. lia.
    + set (m2 := <[aneta l i := neta xs w b]> m1) in *.
      destruct (exec_one (OFunc (Some (ao l i)) (Some (aneta l i)) (df l)) (ao l i)
        (sf s (neta xs w b)) m2) as (E3 & S3 & L3).
      * reflexivity.
      * cbn. rewrite L2. cbn. rewrite (fl_f _ _ Hf). reflexivity.
      * destruct S2 as [-> _], S1 as [-> _]. unfold ao, aend in *. lia.
      * set (m3 := <[ao l i := sf s (neta xs w b)]> m2) in *.
        exists m3. split; [|split; [|split]].
        -- unfold ff_unit. rewrite exec_app, E1. cbn [mbind option_bind].
           change (exec ([OSum (Some (aneta l i))
             (map (fun j => Some (ascr l i j)) (seq 0 (ni l)) ++ [Some (ab l i)])] ++
             [OFunc (Some (ao l i)) (Some (aneta l i)) (df l)]) m1 = Some m3).
           rewrite exec_app, E2. cbn [mbind option_bind]. exact E3.
        -- eapply same_off_trans; [exact S1| |intros a (k & Hk & ->); left; eauto|intros a Ha; exact Ha].
           eapply same_off_trans; [exact S2|exact S3|intros a ->; right; left; reflexivity|].
           intros a ->; right; right; reflexivity.
        -- destruct S3 as [_ S3]. rewrite S3; [assumption|]. unfold ao, aneta. lia.
        -- assumption.
Qed.

Lemma lookup_netas s xs i w b :
  sW s !! i = Some w -> sB s !! i = Some b -> netas s xs !! i = Some (neta xs w b).
Proof. intros Hw Hb. unfold netas. rewrite lookup_zip_with, Hw, Hb. reflexivity. Qed.

Lemma ff_exec l s xs m :
  fits_layer l s -> length xs = ni l -> hold m (ain l) xs -> has_params m l s ->
  (forall j, j < ni l -> ~ ffP l (ain l j)) ->
  aout l + no l <= a0 l -> aend l <= length m ->
  exists m', exec (ff l) m = Some m' /\ same_off (ffP l) m m' /\
    hold m' (aneta l) (netas s xs) /\ hold m' (ao l) (outs s xs).
Proof.
  intros Hf Hxs Hin [HW HB] Hsep Hout Hend.
  destruct (exec_units (no l) (ff_unit l) (unitP l)
    (fun i m' => forall w b, sW s !! i = Some w -> sB s !! i = Some b ->
       m' !! aneta l i = Some (neta xs w b) /\ m' !! ao l i = Some (sf s (neta xs w b))) m)
    as (m' & E & S & Q).
  - intros i m1 Hi S1.
    assert (S1' : same_off (ffP l) m m1).
    { eapply same_off_weaken; [exact S1|]. intros a (k & Hk & Ha).
      apply (unitP_ffP l k); [lia|assumption]. }
    destruct (lookup_lt_is_Some_2 (sW s) i) as [w Hw]; [rewrite (fl_W _ _ Hf); lia|].
    destruct (lookup_lt_is_Some_2 (sB s) i) as [b Hb]; [rewrite (fl_B _ _ Hf); lia|].
    assert (Hwl : length w = ni l) by (eapply row_length; eassumption).
    destruct (ff_unit_exec l s xs m1 i w b) as (m2 & E2 & S2 & Q2); try assumption.
    + eapply hold_keep; [exact Hin|exact S1'|]. intros j Hj. apply Hsep. lia.
    + eapply hold_keep; [apply HW; exact Hw|exact S1'|]. intros j Hj Hp.
      assert (i * ni l + j < no l * ni l) by (apply off_lt; lia).
      unfold ffP, aw, aend in *. lia.
    + destruct S1' as [_ S1']. rewrite S1'; [apply HB; assumption|].
      unfold ffP, ab, aend in *. lia.
    + destruct S1' as [-> _]. assumption.
    + exists m2. repeat split; [assumption|apply S2|apply S2|..]; congruence || idtac.
      * assert (w0 = w) by congruence. assert (b1 = b) by congruence. subst. apply Q2.
      * assert (w0 = w) by congruence. assert (b1 = b) by congruence. subst. apply Q2.
  - intros i k m1 m2 Hk Hi HQ [_ S] w b Hw Hb. destruct (HQ w b Hw Hb) as [Q1 Q2].
    rewrite !S; [split; assumption|..].
    + intros [(j & Hj & He)|[He|He]]; unfold ascr, aneta, ao in *; lia.
    + intros [(j & Hj & He)|[He|He]]; unfold ascr, aneta, ao in *; lia.
  - exists m'. split; [exact E|]. split.
    { eapply same_off_weaken; [exact S|]. intros a (k & Hk & Ha).
      apply (unitP_ffP l k); assumption. }
    assert (HQ : forall i n, netas s xs !! i = Some n ->
               m' !! aneta l i = Some n /\ m' !! ao l i = Some (sf s n)).
    { intros i n Hn. assert (Hi : i < no l).
      { apply lookup_lt_Some in Hn. rewrite (netas_length l s xs Hf) in Hn. assumption. }
      destruct (lookup_lt_is_Some_2 (sW s) i) as [w Hw]; [rewrite (fl_W _ _ Hf); lia|].
      destruct (lookup_lt_is_Some_2 (sB s) i) as [b Hb]; [rewrite (fl_B _ _ Hf); lia|].
      rewrite (lookup_netas s xs i w b Hw Hb) in Hn. injection Hn as <-. apply Q; assumption. }
    split.
    + intros i n Hn. apply HQ. assumption.
    + intros i o Ho. unfold outs in Ho. rewrite list_lookup_fmap in Ho.
      apply fmap_Some in Ho as (n & Hn & ->). apply HQ. assumption.
Qed.

(** ** The whole stack, forwards *)

(** Where the layers lie: outputs first (below [A0]), then layer after layer. *)
Definition linked (l : dlay) (net : list dlay) : Prop :=
  match net with [] => True | l' :: _ => ain l' = ao l /\ ni l' = no l end.
Fixpoint chain (A0 hiA lo_out lo_a : nat) (net : list dlay) : Prop :=
  match net with
  | [] => lo_a <= hiA
  | l :: net' =>
      lo_out <= aout l /\ aout l + no l <= A0 /\ A0 <= lo_a /\ lo_a <= a0 l /\
      linked l net' /\ chain A0 hiA (aout l + no l) (aend l) net'
  end.
Lemma aend_ge l : a0 l + no l + no l + no l + no l * ni l + no l * ni l = aend l.
Proof. reflexivity. Qed.
Lemma chain_lo A0 hiA net : forall lo_out lo_a, chain A0 hiA lo_out lo_a net -> lo_a <= hiA.
Proof.
  induction net as [|l net IH]; intros lo_out lo_a; cbn [chain]; [auto|].
  intros (_ & _ & _ & Ha & _ & Hc). apply IH in Hc. unfold aend in Hc. lia.
Qed.
Lemma chain_in A0 hiA net : forall lo_out lo_a r, chain A0 hiA lo_out lo_a net -> r ∈ net ->
  lo_out <= aout r /\ aout r + no r <= A0 /\ A0 <= a0 r /\ lo_a <= a0 r /\ aend r <= hiA.
Proof.
  induction net as [|l net IH]; intros lo_out lo_a r Hc Hr; [apply elem_of_nil in Hr; contradiction|].
  cbn [chain] in Hc. destruct Hc as (H1 & H2 & H3 & H4 & _ & Hc).
  apply elem_of_cons in Hr as [->|Hr].
  - apply chain_lo in Hc. lia.
  - destruct (IH _ _ _ Hc Hr) as (? & ? & ? & ? & ?). unfold aend in *. lia.
Qed.

Definition ffs (net : list dlay) : list (op T) := flat_map ff net.
Definition ffPs (net : list dlay) (a : nat) : Prop := exists l, l ∈ net /\ ffP l a.

(** What the cells hold once the input [xs] has gone through. *)
Fixpoint ran (m : list T) (net : list dlay) (snet : list (slayer T)) (xs : list T) : Prop :=
  match net, snet with
  | l :: net', s :: snet' =>
      length xs = ni l /\
      hold m (ain l) xs /\ hold m (aneta l) (netas s xs) /\ hold m (ao l) (outs s xs) /\
      ran m net' snet' (outs s xs)
  | _, _ => True
  end.

Definition paramP (l : dlay) (a : nat) : Prop := a0 l + no l + no l <= a < a0 l + no l + no l + no l + no l * ni l.
Lemma params_keep (P : nat -> Prop) m m' l s :
  fits_layer l s -> has_params m l s -> same_off P m m' ->
  (forall a, paramP l a -> ~ P a) -> has_params m' l s.
Proof.
  intros Hf [HW HB] HS Hd. split.
  - eapply hold2_keep; [exact HW|exact HS|]. intros i w j Hw Hj. apply Hd.
    assert (length w = ni l) by (eapply row_length; eassumption).
    apply lookup_lt_Some in Hw. rewrite (fl_W _ _ Hf) in Hw.
    assert (i * ni l + j < no l * ni l) by (apply off_lt; lia).
    unfold paramP, aw. lia.
  - eapply hold_keep; [exact HB|exact HS|]. intros j Hj. apply Hd.
    rewrite (fl_B _ _ Hf) in Hj. unfold paramP, ab. nia.
Qed.
Lemma ffP_param A0 hiA lo_out lo_a net l r a :
  chain A0 hiA lo_out lo_a net -> l ∈ net -> r ∈ net -> paramP l a -> ~ ffP r a.
Proof.
  revert lo_out lo_a. induction net as [|h net IH]; intros lo_out lo_a Hc Hl Hr Hp Hf;
    [apply elem_of_nil in Hl; contradiction|].
  cbn [chain] in Hc. destruct Hc as (H1 & H2 & H3 & H4 & _ & Hc).
  apply elem_of_cons in Hl as [->|Hl]; apply elem_of_cons in Hr as [->|Hr].
  - unfold paramP, ffP, aend in *. lia.
  - destruct (chain_in _ _ _ _ _ _ Hc Hr) as (? & ? & ? & ? & ?).
    unfold paramP, ffP, aend in *. lia.
  - destruct (chain_in _ _ _ _ _ _ Hc Hl) as (? & ? & ? & ? & ?).
    unfold paramP, ffP, aend in *. lia.
  - eapply IH; eassumption.
Qed.
Lemma ffPs_low A0 hiA lo_out lo_a net a :
  chain A0 hiA lo_out lo_a net -> ffPs net a -> (lo_out <= a < A0) \/ lo_a <= a < hiA.
Proof.
  intros Hc (r & Hr & Hf). destruct (chain_in _ _ _ _ _ _ Hc Hr) as (? & ? & ? & ? & ?).
  unfold ffP, aend in *. lia.
Qed.

Lemma params_ff (net : list dlay) snet A0 hiA lo_out lo_a net0 m m' :
  chain A0 hiA lo_out lo_a net0 -> (forall l, l ∈ net -> l ∈ net0) ->
  Forall2 fits_layer net snet -> Forall2 (has_params m) net snet ->
  same_off (ffPs net0) m m' -> Forall2 (has_params m') net snet.
Proof.
  intros Hc Hsub Hf Hp HS. apply Forall2_same_length_lookup.
  split; [eapply Forall2_length; eassumption|]. intros i l s Hl Hs.
  pose proof (Forall2_lookup_lr _ _ _ _ _ _ Hf Hl Hs) as Hf1.
  pose proof (Forall2_lookup_lr _ _ _ _ _ _ Hp Hl Hs) as Hp1.
  eapply params_keep; [exact Hf1|exact Hp1|exact HS|].
  intros a Ha (r & Hr & Hff). eapply ffP_param; [exact Hc| |exact Hr|exact Ha|exact Hff].
  apply Hsub. eapply elem_of_list_lookup_2. eassumption.
Qed.

Lemma ffs_exec A0 hiA net : forall snet lo_out lo_a xs m,
  chain A0 hiA lo_out lo_a net ->
  Forall2 fits_layer net snet -> Forall2 (has_params m) net snet ->
  match net with
  | [] => True
  | l :: _ => length xs = ni l /\ hold m (ain l) xs /\ forall j, j < ni l -> ain l j < lo_out
  end ->
  hiA <= length m ->
  exists m', exec (ffs net) m = Some m' /\ same_off (ffPs net) m m' /\ ran m' net snet xs.
Proof.
  induction net as [|l net IH]; intros snet lo_out lo_a xs m Hc Hf Hp Hin Hm.
  - exists m. split; [reflexivity|]. split; [apply same_off_refl|]. destruct snet; exact I.
  - apply Forall2_cons_inv_l in Hf as (s & snet' & Hfs & Hf & ->).
    apply Forall2_cons in Hp as [Hps Hp].
    destruct Hin as (Hlx & Hin & Hlow).
    assert (Hc0 := Hc). cbn [chain] in Hc. destruct Hc as (H1 & H2 & H3 & H4 & Hlink & Hc).
    pose proof (chain_lo _ _ _ _ _ Hc) as Hend.
    destruct (ff_exec l s xs m) as (m1 & E1 & S1 & N1 & O1); try assumption.
    { intros j Hj Hff. specialize (Hlow j Hj). unfold ffP, aend in *. lia. }
    { lia. } { lia. }
    assert (L1 : length m1 = length m) by apply S1.
    assert (S1' : same_off (ffPs (l :: net)) m m1).
    { eapply same_off_weaken; [exact S1|]. intros a Ha. exists l. split; [left|assumption]. }
    destruct (IH snet' (aout l + no l) (aend l) (outs s xs) m1) as (m2 & E2 & S2 & R2).
    + exact Hc.
    + exact Hf.
    + eapply params_ff; [exact Hc0| |exact Hf|exact Hp|exact S1'].
      intros r Hr. right. assumption.
    + destruct net as [|l' net]; [exact I|]. destruct Hlink as [He Hn]. rewrite He, Hn.
      split; [eapply outs_length; eassumption|]. split; [exact O1|].
      intros j Hj. unfold ao. lia.
    + lia.
    + assert (S2' : same_off (ffPs (l :: net)) m1 m2).
      { eapply same_off_weaken; [exact S2|]. intros a (r & Hr & Ha). exists r.
        split; [right; assumption|assumption]. }
      exists m2. split; [|split].
      * cbn [ffs flat_map]. rewrite exec_app, E1. cbn [mbind option_bind]. exact E2.
      * eapply same_off_trans; [exact S1'|exact S2'|auto|auto].
      * cbn [ran]. split; [assumption|].
        assert (Hlow2 : forall a, ffPs net a -> aout l + no l <= a < A0 \/ aend l <= a < hiA)
          by (intros a; eapply ffPs_low; eassumption).
        split; [|split; [|split]].
        -- eapply hold_keep; [|exact S2|].
           ++ eapply hold_keep; [exact Hin|exact S1|].
              intros j Hj Hff. rewrite Hlx in Hj. specialize (Hlow j Hj).
              unfold ffP, aend in *. lia.
           ++ intros j Hj Hff. rewrite Hlx in Hj. specialize (Hlow j Hj).
              apply Hlow2 in Hff. unfold aend in *. lia.
        -- eapply hold_keep; [exact N1|exact S2|]. intros j Hj Hff.
           rewrite (netas_length l) in Hj by assumption. apply Hlow2 in Hff.
           unfold aneta, aend in *. lia.
        -- eapply hold_keep; [exact O1|exact S2|]. intros j Hj Hff.
           rewrite (outs_length l) in Hj by assumption. apply Hlow2 in Hff.
           unfold ao, aend in *. lia.
        -- exact R2.
Qed.

(** The prediction: what the last layer's output cells hold. *)
Lemma ran_forward m net : forall snet xs l,
  length net = length snet -> ran m net snet xs -> last net = Some l ->
  hold m (ao l) (forward snet xs).
Proof.
  induction net as [|h net IH]; intros snet xs l Hlen HR Hl; [discriminate|].
  destruct snet as [|s snet]; [discriminate|]. cbn [ran] in HR.
  destruct HR as (_ & _ & _ & HO & HR). cbn [forward].
  destruct net as [|h' net].
  - destruct snet; [|discriminate]. cbn in Hl. injection Hl as <-. exact HO.
  - rewrite last_cons_cons in Hl. apply IH; [cbn in *; lia|assumption|assumption].
Qed.
End NetExec.
Arguments dlay T : clear implicits.
