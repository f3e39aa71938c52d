(** * NetBack: what the back-propagation operations of a stack of dense layers compute *)
From Verif Require Import Base Num Spec ModelOps ExecProofs NetSpec NetExec.
From Coq Require Import Lia ZifyBool ZifyNat.

Section NetBack.
Context {T : Type} `{Num T}.

(** What back-propagation allocates, from [b0 l] on: new weights, weight
    momentum, new biases, bias momentum; for a layer with a previous layer its
    derivatives and the scratch cells of the input errors; the scratch cells of
    the updates. *)
Definition anw (l : dlay T) (i j : nat) : nat := b0 l + (i * ni l + j).
Definition amw (l : dlay T) (i j : nat) : nat := b0 l + no l * ni l + (i * ni l + j).
Definition anb (l : dlay T) (i : nat) : nat := b0 l + no l * ni l + no l * ni l + i.
Definition amb (l : dlay T) (i : nat) : nat := b0 l + no l * ni l + no l * ni l + no l + i.
Definition c0 (l : dlay T) : nat := b0 l + no l * ni l + no l * ni l + no l + no l.
Definition ader (l : dlay T) (i : nat) : nat := c0 l + i.
Definition asc (l : dlay T) (i j : nat) : nat := c0 l + ni l + (i * (no l + 2) + j).
Definition u0 (l : dlay T) : nat :=
  if dpre l then c0 l + ni l + ni l * (no l + 2) else c0 l.
Definition au (l : dlay T) (i k : nat) : nat := u0 l + (i * (ni l + ni l + 2) + k).
Definition bend (l : dlay T) : nat := u0 l + no l * (ni l + ni l + 2).

(** The previous layer: its weighted sums, its errors, its derivative. *)
Record pvl : Type := PV { pneta : nat -> nat; pdif : nat -> nat; pder : T -> T }.
Definition pv_of (l : dlay T) : pvl := PV (aneta l) (adif l) (dd l).

(** base.go:159-168 *)
Definition bp_der (pv : pvl) (l : dlay T) : list (op T) :=
  map (fun i => OFunc (Some (ader l i)) (Some (pneta pv i)) (pder pv)) (seq 0 (ni l)).
(** dense.go:157-194 *)
Definition bp_in (pv : pvl) (l : dlay T) (i : nat) : list (op T) :=
  map (fun j => OMul (Some (asc l i j)) (Some (adif l j)) (Some (aw l j i))) (seq 0 (no l)) ++
  [OSum (Some (asc l i (no l))) (map (fun j => Some (asc l i j)) (seq 0 (no l)));
   OMul (Some (asc l i (no l + 1))) (Some (asc l i (no l))) (Some (ader l i));
   OAdd (Some (pdif pv i)) (Some (pdif pv i)) (Some (asc l i (no l + 1)))].
(** dense.go:210-275 *)
Definition bp_cell (mo : nat) (l : dlay T) (i j : nat) : list (op T) :=
  [OMul (Some (au l i (2 + 2 * j))) (Some (au l i 0)) (Some (ain l j));
   OMul (Some (au l i (3 + 2 * j))) (Some (amw l i j)) (Some mo);
   OSum (Some (anw l i j)) [Some (aw l i j); Some (au l i (3 + 2 * j)); Some (au l i (2 + 2 * j))]].
Definition bp_unit (al mo : nat) (l : dlay T) (i : nat) : list (op T) :=
  [OMul (Some (au l i 0)) (Some (adif l i)) (Some al);
   OMul (Some (au l i 1)) (Some (amb l i)) (Some mo);
   OSum (Some (anb l i)) [Some (ab l i); Some (au l i 1); Some (au l i 0)]] ++
  flat_map (bp_cell mo l i) (seq 0 (ni l)).
Definition bp_layer (al mo : nat) (opv : option pvl) (l : dlay T) : list (op T) :=
  match opv with
  | Some pv => bp_der pv l ++ flat_map (bp_in pv l) (seq 0 (ni l))
  | None => []
  end ++ flat_map (bp_unit al mo l) (seq 0 (no l)).

Lemma exec_cons1 (o : op T) ops m m1 : exec [o] m = Some m1 -> exec (o :: ops) m = exec ops m1.
Proof.
  intros E. change (o :: ops) with ([o] ++ ops). rewrite exec_app, E. reflexivity.
Qed.

(** *** The derivatives *)
Lemma bp_der_exec pv l ns m :
  length ns = ni l -> hold m (pneta pv) ns ->
  (forall j, j < ni l -> pneta pv j < c0 l) -> c0 l + ni l <= length m ->
  exists m', exec (bp_der pv l) m = Some m' /\
    same_off (fun a => c0 l <= a < c0 l + ni l) m m' /\ hold m' (ader l) (map (pder pv) ns).
Proof.
  intros Hlen Hn Hlow Hm.
  destruct (exec_writes (ni l) (ader l)
    (fun i => OFunc (Some (ader l i)) (Some (pneta pv i)) (pder pv)) (map (pder pv) ns) m)
    as (m' & E & S & Q).
  - rewrite map_length. assumption.
  - reflexivity.
  - unfold ader. intros; lia.
  - unfold ader. intros; lia.
  - intros j m' Hj [_ S]. cbn.
    destruct (lookup_lt_is_Some_2 ns j) as [x Hx]; [lia|].
    rewrite S by (intros (k & Hk & He); specialize (Hlow j Hj); unfold ader in He; lia).
    rewrite (Hn j x Hx). cbn. rewrite list_lookup_fmap, Hx. reflexivity.
  - exists m'. split; [exact E|]. split; [|exact Q].
    eapply same_off_weaken; [exact S|]. intros a (k & Hk & ->). unfold ader. lia.
Qed.

(** *** The errors of the inputs *)
Definition column (W : list (list T)) (i : nat) : list T := map (fun w => nth i w nzero) W.
Definition back1 (W : list (list T)) (dif : list T) (i : nat) : T :=
  sum1 (zip_with nmul dif (column W i)).

Lemma hold_column m l s i :
  fits_layer l s -> hold2 m (aw l) (sW s) -> i < ni l -> hold m (fun j => aw l j i) (column (sW s) i).
Proof.
  intros Hf HW Hi j v Hv. unfold column in Hv. rewrite list_lookup_fmap in Hv.
  apply fmap_Some in Hv as (w & Hw & ->). apply (HW j w Hw).
  assert (length w = ni l) by (eapply row_length; eassumption).
  destruct (nth_lookup_or_length w i nzero) as [Hn|Hn]; [exact Hn|lia].
Qed.

Lemma same_off_lookup P (m m' : list T) a : same_off P m m' -> ~ P a -> m' !! a = m !! a.
Proof. intros [_ HS]. apply HS. Qed.
Lemma same_off_length P (m m' : list T) : same_off P m m' -> length m' = length m.
Proof. intros [HL _]. exact HL. Qed.

Definition inP (pv : pvl) (l : dlay T) (i a : nat) : Prop :=
  (asc l i 0 <= a < asc l i (no l + 2)) \/ a = pdif pv i.

Lemma bp_in_exec pv l s dif d p m i :
  fits_layer l s -> 0 < no l -> i < ni l -> dpre l = true ->
  length dif = no l -> hold m (adif l) dif -> hold2 m (aw l) (sW s) ->
  m !! ader l i = Some d -> m !! pdif pv i = Some p ->
  (forall j, j < ni l -> pdif pv j < b0 l) ->
  aend l <= b0 l -> bend l <= length m ->
  exists m', exec (bp_in pv l i) m = Some m' /\ same_off (inP pv l i) m m' /\
    m' !! pdif pv i = Some (nadd p (nmul (back1 (sW s) dif i) d)).
Proof.
  intros Hf Hpos Hi Hpre Hld Hd HW Hder Hp Hlow Hord Hm.
  assert (Hcl : length (column (sW s) i) = no l) by (unfold column; rewrite map_length; apply (fl_W _ _ Hf)).
  pose proof (hold_column m l s i Hf HW Hi) as Hc.
  assert (Hsc : i * (no l + 2) + (no l + 2) <= ni l * (no l + 2)) by (apply off_le; assumption).
  assert (Hend : asc l i (no l + 2) <= length m).
  { unfold asc, bend, u0 in *. rewrite Hpre in Hm. lia. }
  assert (Hpl : pdif pv i < b0 l) by (apply Hlow; assumption).
  destruct (exec_writes (no l) (asc l i)
    (fun j => OMul (Some (asc l i j)) (Some (adif l j)) (Some (aw l j i)))
    (zip_with nmul dif (column (sW s) i)) m) as (m1 & E1 & S1 & H1).
  - rewrite zip_with_length. lia.
  - reflexivity.
  - unfold asc. intros; lia.
  - unfold asc in *. intros; lia.
  - intros j m' Hj S. cbn.
    destruct (lookup_lt_is_Some_2 dif j) as [x Hx]; [lia|].
    destruct (lookup_lt_is_Some_2 (column (sW s) i) j) as [w Hw]; [lia|].
    rewrite (same_off_lookup _ _ _ (adif l j) S), (same_off_lookup _ _ _ (aw l j i) S).
    + rewrite (Hd j x Hx), (Hc j w Hw). cbn. rewrite lookup_zip_with, Hx, Hw. reflexivity.
    + intros (k & Hk & He). assert (j * ni l + i < no l * ni l) by (apply off_lt; assumption).
      unfold aw, asc, c0, aend in *. lia.
    + intros (k & Hk & He). unfold adif, asc, c0, aend in *. lia.
  - assert (L1 : length m1 = length m) by apply S1.
    assert (Hcell : asc l i (no l + 1) < length m1) by (unfold asc in *; lia).
    destruct (exec_one (OSum (Some (asc l i (no l))) (map (fun j => Some (asc l i j)) (seq 0 (no l))))
      (asc l i (no l)) (back1 (sW s) dif i) m1) as (E2 & S2 & V2).
    + reflexivity.
    + cbn. rewrite (rds_hold m1 (asc l i) (zip_with nmul dif (column (sW s) i)));
        [|exact H1|rewrite zip_with_length; lia].
      cbn. apply red_sum1. intros He. apply (f_equal length) in He.
      rewrite zip_with_length in He. cbn in He. lia.
    + unfold asc in *. lia.
    + set (m2 := <[asc l i (no l) := _]> m1) in *.
      assert (L2 : length m2 = length m1) by apply S2.
      destruct (exec_one (OMul (Some (asc l i (no l + 1))) (Some (asc l i (no l))) (Some (ader l i)))
        (asc l i (no l + 1)) (nmul (back1 (sW s) dif i) d) m2) as (E3 & S3 & V3).
      * reflexivity.
      * cbn. rewrite V2. cbn. rewrite (same_off_lookup _ _ _ _ S2) by (unfold ader, asc; lia).
        rewrite (same_off_lookup _ _ _ _ S1), Hder; [reflexivity|].
        intros (k & Hk & He). unfold ader, asc in He. lia.
      * lia.
      * set (m3 := <[asc l i (no l + 1) := _]> m2) in *.
        assert (Hp3 : m3 !! pdif pv i = Some p).
        { rewrite (same_off_lookup _ _ _ _ S3) by (unfold asc, c0; lia).
          rewrite (same_off_lookup _ _ _ _ S2) by (unfold asc, c0; lia).
          rewrite (same_off_lookup _ _ _ _ S1); [assumption|].
          intros (k & Hk & He). unfold asc, c0 in He. lia. }
        destruct (exec_one (OAdd (Some (pdif pv i)) (Some (pdif pv i)) (Some (asc l i (no l + 1))))
          (pdif pv i) (nadd p (nmul (back1 (sW s) dif i) d)) m3) as (E4 & S4 & V4).
        -- reflexivity.
        -- cbn. rewrite Hp3. cbn. rewrite V3. reflexivity.
        -- apply lookup_lt_Some in Hp3. assumption.
        -- eexists. split; [|split].
           ++ unfold bp_in. rewrite exec_app, E1. cbn [mbind option_bind].
              rewrite (exec_cons1 _ _ _ _ E2), (exec_cons1 _ _ _ _ E3). exact E4.
           ++ eapply same_off_trans; [exact S1| |intros a (k & Hk & ->); left; unfold asc; lia|intros a Ha; exact Ha].
              eapply same_off_trans; [exact S2| |intros a ->; left; unfold asc; lia|intros a Ha; exact Ha].
              eapply same_off_trans; [exact S3|exact S4|intros a ->; left; unfold asc; lia|].
              intros a ->. right. reflexivity.
           ++ exact V4.
Qed.

Definition insP (pv : pvl) (l : dlay T) (a : nat) : Prop :=
  (c0 l + ni l <= a < c0 l + ni l + ni l * (no l + 2)) \/ exists i, i < ni l /\ a = pdif pv i.
Lemma inP_insP pv (l : dlay T) i a : i < ni l -> inP pv l i a -> insP pv l a.
Proof.
  intros Hi [Ha| ->]; [|right; eauto].
  left. assert (i * (no l + 2) + (no l + 2) <= ni l * (no l + 2)) by (apply off_le; assumption).
  unfold asc in Ha. lia.
Qed.

(** Accumulating onto [ps] the errors [es] times the derivatives [ds]. *)
Definition acc (ps es ds : list T) : list T := zip_with nadd ps (zip_with nmul es ds).

Lemma bp_ins_exec pv l s dif ds ps m :
  fits_layer l s -> 0 < no l -> dpre l = true ->
  length dif = no l -> hold m (adif l) dif -> hold2 m (aw l) (sW s) ->
  length ds = ni l -> hold m (ader l) ds ->
  length ps = ni l -> hold m (pdif pv) ps ->
  (forall j, j < ni l -> pdif pv j < b0 l) ->
  (forall j k, j < ni l -> k < ni l -> pdif pv j = pdif pv k -> j = k) ->
  (forall j, j < ni l -> pdif pv j < a0 l \/ aend l <= pdif pv j) ->
  aend l <= b0 l -> bend l <= length m ->
  exists m', exec (flat_map (bp_in pv l) (seq 0 (ni l))) m = Some m' /\
    same_off (insP pv l) m m' /\ hold m' (pdif pv) (acc ps (back s (ni l) dif) ds).
Proof.
  intros Hf Hpos Hpre Hld Hd HW Hlds Hder Hlps Hp Hlow Hinj Hout Hord Hm.
  destruct (exec_units (ni l) (bp_in pv l) (inP pv l)
    (fun i m' => forall p d, ps !! i = Some p -> ds !! i = Some d ->
       m' !! pdif pv i = Some (nadd p (nmul (back1 (sW s) dif i) d))) m) as (m' & E & S & Q).
  - intros i m1 Hi S1.
    assert (S1' : same_off (insP pv l) m m1).
    { eapply same_off_weaken; [exact S1|]. intros a (k & Hk & Ha).
      apply (inP_insP pv l k); [lia|assumption]. }
    destruct (lookup_lt_is_Some_2 ps i) as [p Hpi]; [lia|].
    destruct (lookup_lt_is_Some_2 ds i) as [d Hdi]; [lia|].
    destruct (bp_in_exec pv l s dif d p m1 i) as (m2 & E2 & S2 & V2); try assumption.
    + eapply hold_keep; [exact Hd|exact S1'|]. intros j Hj [Ha|(k & Hk & Ha)].
      * unfold adif, c0, aend in *. lia.
      * specialize (Hout k Hk). unfold adif, aend in *. lia.
    + eapply hold2_keep; [exact HW|exact S1'|]. intros r w j Hw Hj.
      assert (length w = ni l) by (eapply row_length; eassumption).
      apply lookup_lt_Some in Hw. rewrite (fl_W _ _ Hf) in Hw.
      assert (r * ni l + j < no l * ni l) by (apply off_lt; lia).
      intros [Ha|(k & Hk & Ha)].
      * unfold aw, c0, aend in *. lia.
      * specialize (Hout k Hk). unfold aw, aend in *. lia.
    + rewrite (same_off_lookup _ _ _ _ S1); [apply Hder; assumption|].
      intros (k & Hk & [Ha|Ha]); [unfold ader, asc in Ha; lia|].
      specialize (Hlow k ltac:(lia)). unfold ader, c0 in Ha. lia.
    + rewrite (same_off_lookup _ _ _ _ S1); [apply Hp; assumption|].
      specialize (Hlow i Hi).
      intros (k & Hk & [Ha|Ha]); [unfold asc, c0 in Ha; lia|].
      apply Hinj in Ha; lia.
    + rewrite (same_off_length _ _ _ S1). assumption.
    + exists m2. split; [assumption|]. split; [assumption|].
      intros p' d' Hp' Hd'. rewrite V2. congruence.
  - intros i k m1 m2 Hk Hi HQ S p d Hpk Hdk. rewrite (same_off_lookup _ _ _ _ S); [auto|].
    assert (Hk' : k < ni l) by lia. specialize (Hlow k Hk').
    intros [Ha|Ha]; [unfold asc, c0 in Ha; lia|]. apply Hinj in Ha; lia.
  - exists m'. split; [exact E|]. split.
    { eapply same_off_weaken; [exact S|]. intros a (k & Hk & Ha).
      apply (inP_insP pv l k); assumption. }
    intros i v Hv. unfold acc in Hv.
    apply lookup_zip_with_Some in Hv as (p & x & -> & Hpi & Hx).
    apply lookup_zip_with_Some in Hx as (e & d & -> & He & Hdi).
    unfold back in He. rewrite list_lookup_fmap in He. apply fmap_Some in He as (k & Hk & ->).
    apply lookup_seq in Hk as [-> Hk]. cbn. apply Q; assumption.
Qed.

(** *** New weights and biases *)
Definition cellP (l : dlay T) (i j a : nat) : Prop :=
  a = au l i (2 + 2 * j) \/ a = au l i (3 + 2 * j) \/ a = anw l i j.

Lemma rds_3 (m : list T) a b c x y z :
  m !! a = Some x -> m !! b = Some y -> m !! c = Some z ->
  rds m [Some a; Some b; Some c] = Some [x; y; z].
Proof. intros Ha Hb Hc. unfold rds. cbn. rewrite Ha, Hb, Hc. reflexivity. Qed.

Lemma u0_ge (l : dlay T) : c0 l <= u0 l.
Proof. unfold u0. destruct (dpre l); lia. Qed.

Lemma bp_cell_exec mo l m i j vmo da x w mw :
  i < no l -> j < ni l ->
  m !! au l i 0 = Some da -> m !! ain l j = Some x -> m !! amw l i j = Some mw ->
  m !! mo = Some vmo -> m !! aw l i j = Some w ->
  ain l j < b0 l -> mo < b0 l -> aend l <= b0 l -> bend l <= length m ->
  exists m', exec (bp_cell mo l i j) m = Some m' /\ same_off (cellP l i j) m m' /\
    m' !! anw l i j = Some (nadd (nadd w (nmul mw vmo)) (nmul da x)).
Proof.
  intros Hi Hj Hda Hx Hmw Hmo Hw Hx0 Hmo0 Hord Hm.
  pose proof (u0_ge l) as Hu0.
  assert (H1 : i * ni l + j < no l * ni l) by (apply off_lt; assumption).
  assert (H2 : i * (ni l + ni l + 2) + (ni l + ni l + 2) <= no l * (ni l + ni l + 2)) by (apply off_le; assumption).
  destruct (exec_one (OMul (Some (au l i (2 + 2 * j))) (Some (au l i 0)) (Some (ain l j)))
    (au l i (2 + 2 * j)) (nmul da x) m) as (E1 & S1 & V1).
  { reflexivity. } { cbn. rewrite Hda. cbn. rewrite Hx. reflexivity. }
  { unfold au, bend in *. lia. }
  set (m1 := <[_ := _]> m) in *. assert (L1 : length m1 = length m) by apply S1.
  destruct (exec_one (OMul (Some (au l i (3 + 2 * j))) (Some (amw l i j)) (Some mo))
    (au l i (3 + 2 * j)) (nmul mw vmo) m1) as (E2 & S2 & V2).
  { reflexivity. }
  { cbn. rewrite !(same_off_lookup _ _ _ _ S1) by (unfold au, amw, c0 in *; lia).
    rewrite Hmw. cbn. rewrite Hmo. reflexivity. }
  { unfold au, bend in *. lia. }
  set (m2 := <[_ := _]> m1) in *. assert (L2 : length m2 = length m1) by apply S2.
  destruct (exec_one (OSum (Some (anw l i j)) [Some (aw l i j); Some (au l i (3 + 2 * j)); Some (au l i (2 + 2 * j))])
    (anw l i j) (nadd (nadd w (nmul mw vmo)) (nmul da x)) m2) as (E3 & S3 & V3).
  { reflexivity. }
  { cbn [op_value]. rewrite (rds_3 m2 _ _ _ w (nmul mw vmo) (nmul da x)).
    - reflexivity.
    - rewrite (same_off_lookup _ _ _ _ S2) by (unfold au, aw, c0, aend in *; lia).
      rewrite (same_off_lookup _ _ _ _ S1) by (unfold au, aw, c0, aend in *; lia). exact Hw.
    - exact V2.
    - rewrite (same_off_lookup _ _ _ _ S2) by (unfold au; lia). exact V1. }
  { unfold anw, bend, c0 in *. lia. }
  eexists. split; [|split].
  - unfold bp_cell. rewrite (exec_cons1 _ _ _ _ E1), (exec_cons1 _ _ _ _ E2). exact E3.
  - eapply same_off_trans; [exact S1| |intros a ->; left; reflexivity|intros a Ha; exact Ha].
    eapply same_off_trans; [exact S2|exact S3|intros a ->; right; left; reflexivity|].
    intros a ->. right; right; reflexivity.
  - exact V3.
Qed.

(** Everything unit [i] writes. *)
Definition updP (l : dlay T) (i a : nat) : Prop :=
  (au l i 0 <= a < au l i (ni l + ni l + 2)) \/ a = anb l i \/ (anw l i 0 <= a < anw l i (ni l)).

Lemma bp_unit_exec al mo l m i valpha vmo d b mb xs w mws :
  i < no l -> length xs = ni l -> length w = ni l -> length mws = ni l ->
  m !! adif l i = Some d -> m !! ab l i = Some b -> m !! amb l i = Some mb ->
  m !! al = Some valpha -> m !! mo = Some vmo ->
  hold m (ain l) xs -> hold m (aw l i) w -> hold m (amw l i) mws ->
  (forall j, j < ni l -> ain l j < b0 l) -> al < b0 l -> mo < b0 l ->
  aend l <= b0 l -> bend l <= length m ->
  exists m', exec (bp_unit al mo l i) m = Some m' /\ same_off (updP l i) m m' /\
    m' !! anb l i = Some (nadd (nadd b (nmul mb vmo)) (nmul d valpha)) /\
    hold m' (anw l i)
      (zip_with (fun wm x => nadd (nadd (fst wm) (nmul (snd wm) vmo)) (nmul (nmul d valpha) x)) (zip w mws) xs).
Proof.
  intros Hi Hlx Hlw Hlm Hd Hb Hmb Hal Hmo Hx Hw Hmw Hx0 Hal0 Hmo0 Hord Hm.
  pose proof (u0_ge l) as Hu0.
  assert (H2 : i * (ni l + ni l + 2) + (ni l + ni l + 2) <= no l * (ni l + ni l + 2)) by (apply off_le; assumption).
  assert (H1 : i * ni l + ni l <= no l * ni l) by (apply off_le; assumption).
  destruct (exec_one (OMul (Some (au l i 0)) (Some (adif l i)) (Some al)) (au l i 0) (nmul d valpha) m)
    as (E1 & S1 & V1).
  { reflexivity. } { cbn. rewrite Hd. cbn. rewrite Hal. reflexivity. }
  { unfold au, bend in *. lia. }
  set (m1 := <[_ := _]> m) in *. assert (L1 : length m1 = length m) by apply S1.
  destruct (exec_one (OMul (Some (au l i 1)) (Some (amb l i)) (Some mo)) (au l i 1) (nmul mb vmo) m1)
    as (E2 & S2 & V2).
  { reflexivity. }
  { cbn. rewrite !(same_off_lookup _ _ _ _ S1) by (unfold au, amb, c0 in *; lia).
    rewrite Hmb. cbn. rewrite Hmo. reflexivity. }
  { unfold au, bend in *. lia. }
  set (m2 := <[_ := _]> m1) in *. assert (L2 : length m2 = length m1) by apply S2.
  destruct (exec_one (OSum (Some (anb l i)) [Some (ab l i); Some (au l i 1); Some (au l i 0)])
    (anb l i) (nadd (nadd b (nmul mb vmo)) (nmul d valpha)) m2) as (E3 & S3 & V3).
  { reflexivity. }
  { cbn [op_value]. rewrite (rds_3 m2 _ _ _ b (nmul mb vmo) (nmul d valpha)).
    - reflexivity.
    - rewrite (same_off_lookup _ _ _ _ S2) by (unfold au, ab, c0, aend in *; lia).
      rewrite (same_off_lookup _ _ _ _ S1) by (unfold au, ab, c0, aend in *; lia). exact Hb.
    - exact V2.
    - rewrite (same_off_lookup _ _ _ _ S2) by (unfold au; lia). exact V1. }
  { unfold anb, bend, c0 in *. lia. }
  set (m3 := <[_ := _]> m2) in *. assert (L3 : length m3 = length m2) by apply S3.
  assert (S123 : same_off (fun a => a = au l i 0 \/ a = au l i 1 \/ a = anb l i) m m3).
  { eapply same_off_trans; [exact S1| |intros a ->; left; reflexivity|intros a Ha; exact Ha].
    eapply same_off_trans; [exact S2|exact S3|intros a ->; right; left; reflexivity|].
    intros a ->. right; right; reflexivity. }
  destruct (exec_units (ni l) (bp_cell mo l i) (cellP l i)
    (fun j m' => forall ww mm x, w !! j = Some ww -> mws !! j = Some mm -> xs !! j = Some x ->
       m' !! anw l i j = Some (nadd (nadd ww (nmul mm vmo)) (nmul (nmul d valpha) x))) m3)
    as (m4 & E4 & S4 & Q4).
  - intros j mj Hj Sj.
    destruct (lookup_lt_is_Some_2 w j) as [ww Hww]; [lia|].
    destruct (lookup_lt_is_Some_2 mws j) as [mm Hmm]; [lia|].
    destruct (lookup_lt_is_Some_2 xs j) as [x Hxj]; [lia|].
    assert (Hij : i * ni l + j < no l * ni l) by (apply off_lt; assumption).
    specialize (Hx0 j Hj).
    assert (Hlow : forall a, a < b0 l \/ (amw l i 0 <= a < amw l i (ni l)) -> mj !! a = m !! a).
    { intros a Ha. rewrite (same_off_lookup _ _ _ _ Sj).
      - apply (same_off_lookup _ _ _ _ S123). unfold au, anb, amw, c0, aend in *. lia.
      - intros (k & Hk & [He|[He|He]]); unfold au, anw, amw, c0, aend in *; lia. }
    destruct (bp_cell_exec mo l mj i j vmo (nmul d valpha) x ww mm) as (m5 & E5 & S5 & V5); try assumption.
    + rewrite (same_off_lookup _ _ _ _ Sj).
      * rewrite (same_off_lookup _ _ _ _ S3) by (unfold au, anb, c0 in *; lia).
        rewrite (same_off_lookup _ _ _ _ S2) by (unfold au; lia). exact V1.
      * intros (k & Hk & [He|[He|He]]); unfold au, anw, c0 in *; lia.
    + rewrite Hlow by lia. apply Hx. assumption.
    + rewrite Hlow by (unfold amw; lia). apply Hmw. assumption.
    + rewrite Hlow by lia. assumption.
    + rewrite Hlow; [apply Hw; assumption|]. left. unfold aw, aend in *. lia.
    + rewrite (same_off_length _ _ _ Sj). lia.
    + exists m5. split; [assumption|]. split; [assumption|].
      intros ww' mm' x' E1' E2' E3'. rewrite V5. congruence.
  - intros j k ma mb' Hk Hj HQ S ww mm x Hww Hmm Hxk. rewrite (same_off_lookup _ _ _ _ S); [auto|].
    assert (i * ni l + k < no l * ni l) by (apply off_lt; lia).
    intros [He|[He|He]]; unfold au, anw, c0 in *; lia.
  - exists m4. split; [|split; [|split]].
    + unfold bp_unit. cbn [app].
      rewrite (exec_cons1 _ _ _ _ E1), (exec_cons1 _ _ _ _ E2), (exec_cons1 _ _ _ _ E3). exact E4.
    + eapply same_off_trans; [exact S123|exact S4| |].
      * intros a Ha. unfold updP, au in *. lia.
      * intros a (k & Hk & Ha). unfold updP, cellP, au, anw in *. lia.
    + rewrite (same_off_lookup _ _ _ _ S4); [exact V3|].
      intros (k & Hk & [He|[He|He]]);
        (assert (i * ni l + k < no l * ni l) by (apply off_lt; assumption));
        unfold au, anw, anb, c0 in *; lia.
    + intros j v Hv. apply lookup_zip_with_Some in Hv as ([ww mm] & x & -> & Hz & Hxj).
      unfold zip in Hz. apply lookup_zip_with_Some in Hz as (ww' & mm' & Heq & Hww & Hmm).
      injection Heq as <- <-. cbn. apply Q4; try assumption.
      apply lookup_lt_Some in Hxj. lia.
Qed.

Definition updsP (l : dlay T) (a : nat) : Prop :=
  b0 l <= a < b0 l + no l * ni l \/
  b0 l + no l * ni l + no l * ni l <= a < b0 l + no l * ni l + no l * ni l + no l \/
  u0 l <= a < bend l.
Lemma updP_updsP (l : dlay T) i a : i < no l -> updP l i a -> updsP l a.
Proof.
  intros Hi Ha.
  assert (H2 : i * (ni l + ni l + 2) + (ni l + ni l + 2) <= no l * (ni l + ni l + 2)) by (apply off_le; assumption).
  assert (H1 : i * ni l + ni l <= no l * ni l) by (apply off_le; assumption).
  unfold updP, updsP, au, anb, anw, bend in *. lia.
Qed.

(** The new parameters of a layer; the momentum terms multiply cells that hold
    zero. *)
Definition new_W (alpha rest : T) (s : slayer T) (xs dif : list T) : list (list T) :=
  zip_with (fun w d => zip_with (new_weight alpha rest d) w xs) (sW s) dif.
Definition new_B (alpha rest : T) (s : slayer T) (dif : list T) : list T :=
  zip_with (fun b d => new_bias alpha rest d b) (sB s) dif.
Definition zero_moments (m : list T) (l : dlay T) : Prop :=
  (forall i j, i < no l -> j < ni l -> m !! amw l i j = Some nzero) /\
  (forall i, i < no l -> m !! amb l i = Some nzero).
Definition has_news (m : list T) (alpha rest : T) (l : dlay T) (s : slayer T) (xs dif : list T) : Prop :=
  hold2 m (anw l) (new_W alpha rest s xs dif) /\ hold m (anb l) (new_B alpha rest s dif).

Lemma bp_units_exec al mo l s m valpha vmo dif xs :
  fits_layer l s -> length xs = ni l -> length dif = no l ->
  hold m (adif l) dif -> has_params m l s -> zero_moments m l ->
  m !! al = Some valpha -> m !! mo = Some vmo -> hold m (ain l) xs ->
  (forall j, j < ni l -> ain l j < b0 l) -> al < b0 l -> mo < b0 l ->
  aend l <= b0 l -> bend l <= length m ->
  exists m', exec (flat_map (bp_unit al mo l) (seq 0 (no l))) m = Some m' /\
    same_off (updsP l) m m' /\ has_news m' valpha (nmul nzero vmo) l s xs dif.
Proof.
  intros Hf Hlx Hld Hd [HW HB] [Zw Zb] Hal Hmo Hx Hx0 Hal0 Hmo0 Hord Hm.
  pose proof (u0_ge l) as Hu0.
  destruct (exec_units (no l) (bp_unit al mo l) (updP l)
    (fun i m' => forall w b d, sW s !! i = Some w -> sB s !! i = Some b -> dif !! i = Some d ->
       m' !! anb l i = Some (new_bias valpha (nmul nzero vmo) d b) /\
       hold m' (anw l i) (zip_with (new_weight valpha (nmul nzero vmo) d) w xs)) m)
    as (m' & E & S & Q).
  - intros i m1 Hi S1.
    destruct (lookup_lt_is_Some_2 (sW s) i) as [w Hw]; [rewrite (fl_W _ _ Hf); lia|].
    destruct (lookup_lt_is_Some_2 (sB s) i) as [b Hb]; [rewrite (fl_B _ _ Hf); lia|].
    destruct (lookup_lt_is_Some_2 dif i) as [d Hdi]; [lia|].
    assert (Hwl : length w = ni l) by (eapply row_length; eassumption).
    assert (Hij : i * ni l + ni l <= no l * ni l) by (apply off_le; assumption).
    assert (Hlow : forall a, ~ updsP l a -> m1 !! a = m !! a).
    { intros a Ha. apply (same_off_lookup _ _ _ _ S1). intros (k & Hk & Hp). apply Ha.
      apply (updP_updsP l k); [lia|assumption]. }
    destruct (bp_unit_exec al mo l m1 i valpha vmo d b nzero xs w (replicate (ni l) nzero))
      as (m2 & E2 & S2 & V2 & W2); try assumption.
    + apply replicate_length.
    + rewrite Hlow; [apply Hd; assumption|]. unfold updsP, adif, c0, aend in *. lia.
    + rewrite Hlow; [apply HB; assumption|]. unfold updsP, ab, c0, aend in *. lia.
    + rewrite Hlow; [apply Zb; assumption|]. unfold updsP, amb, c0, aend in *. lia.
    + rewrite Hlow; [assumption|]. unfold updsP, c0, aend in *. lia.
    + rewrite Hlow; [assumption|]. unfold updsP, c0, aend in *. lia.
    + intros j v Hv. assert (Hj : j < ni l) by (apply lookup_lt_Some in Hv; lia).
      specialize (Hx0 j Hj).
      rewrite Hlow; [apply Hx; assumption|]. unfold updsP, c0, aend in *. lia.
    + intros j v Hv. assert (Hj : j < ni l) by (apply lookup_lt_Some in Hv; lia).
      rewrite Hlow; [apply (HW i w Hw); assumption|]. unfold updsP, aw, c0, aend in *. lia.
    + intros j v Hv. apply lookup_replicate in Hv as [-> Hj].
      rewrite Hlow; [apply Zw; assumption|]. unfold updsP, amw, c0, aend in *. lia.
    + rewrite (same_off_length _ _ _ S1). assumption.
    + exists m2. split; [assumption|]. split; [assumption|].
      intros w' b' d' Hw' Hb' Hd'.
      assert (w' = w) by congruence. assert (b' = b) by congruence. assert (d' = d) by congruence. subst.
      split; [exact V2|]. intros j v Hv. apply W2.
      apply lookup_zip_with_Some in Hv as (ww & x & -> & Hww & Hxj).
      assert (Hz : zip w (replicate (ni l) nzero) !! j = Some (ww, nzero)).
      { apply lookup_zip_with_Some. exists ww, nzero. split; [reflexivity|]. split; [assumption|].
        apply lookup_replicate_2. apply lookup_lt_Some in Hxj. lia. }
      apply lookup_zip_with_Some. exists (ww, nzero), x. split; [reflexivity|]. split; assumption.
  - intros i k ma mb Hk Hi HQ S w b d Hw Hb Hdk. destruct (HQ w b d Hw Hb Hdk) as [Q1 Q2].
    assert (k * ni l + ni l <= i * ni l) by nia.
    assert (H1 : i * ni l + ni l <= no l * ni l) by (apply off_le; assumption).
    split.
    + rewrite (same_off_lookup _ _ _ _ S); [assumption|].
      unfold updP, au, anb, anw, c0 in *. lia.
    + eapply hold_keep; [exact Q2|exact S|]. intros j Hj.
      rewrite zip_with_length in Hj. unfold updP, au, anb, anw, c0 in *. lia.
  - exists m'. split; [exact E|]. split.
    { eapply same_off_weaken; [exact S|]. intros a (k & Hk & Ha).
      apply (updP_updsP l k); assumption. }
    split.
    + intros i w' Hw'. apply lookup_zip_with_Some in Hw' as (w & d & -> & Hw & Hdi).
      destruct (lookup_lt_is_Some_2 (sB s) i) as [b Hb].
      { apply lookup_lt_Some in Hdi. rewrite (fl_B _ _ Hf). lia. }
      eapply Q; [apply lookup_lt_Some in Hdi; lia|eassumption|eassumption|assumption].
    + intros i b' Hb'. apply lookup_zip_with_Some in Hb' as (b & d & -> & Hb & Hdi).
      destruct (lookup_lt_is_Some_2 (sW s) i) as [w Hw].
      { apply lookup_lt_Some in Hdi. rewrite (fl_W _ _ Hf). lia. }
      eapply Q; [apply lookup_lt_Some in Hdi; lia|eassumption|eassumption|assumption].
Qed.

(** *** One layer *)
Definition bpP (opv : option pvl) (l : dlay T) (a : nat) : Prop :=
  updsP l a \/ c0 l <= a < u0 l \/
  match opv with Some pv => exists i, i < ni l /\ a = pdif pv i | None => False end.
Definition pre_ok (opv : option pvl) (l : dlay T) (ns ps : list T) (m : list T) : Prop :=
  match opv with
  | Some pv =>
      dpre l = true /\ 0 < no l /\ length ns = ni l /\ length ps = ni l /\
      hold m (pneta pv) ns /\ hold m (pdif pv) ps /\
      (forall j, j < ni l -> pneta pv j < a0 l) /\
      (forall j, j < ni l -> pdif pv j < a0 l) /\
      (forall j k, j < ni l -> k < ni l -> pdif pv j = pdif pv k -> j = k) /\
      (forall j k, j < ni l -> k < ni l -> ain l j <> pdif pv k)
  | None => dpre l = false
  end.
Definition pre_done (opv : option pvl) (l : dlay T) (s : slayer T) (dif ns ps : list T) (m : list T) : Prop :=
  match opv with
  | Some pv => hold m (pdif pv) (acc ps (back s (ni l) dif) (map (pder pv) ns))
  | None => True
  end.

Lemma bp_layer_exec al mo opv l s m valpha vmo dif xs ns ps :
  fits_layer l s -> length xs = ni l -> length dif = no l ->
  hold m (adif l) dif -> has_params m l s -> zero_moments m l ->
  m !! al = Some valpha -> m !! mo = Some vmo -> hold m (ain l) xs ->
  (forall j, j < ni l -> ain l j < b0 l) ->
  aend l <= al -> al < b0 l -> aend l <= mo -> mo < b0 l ->
  bend l <= length m -> pre_ok opv l ns ps m ->
  exists m', exec (bp_layer al mo opv l) m = Some m' /\ same_off (bpP opv l) m m' /\
    has_news m' valpha (nmul nzero vmo) l s xs dif /\ pre_done opv l s dif ns ps m'.
Proof.
  intros Hf Hlx Hld Hd Hp Hz Hal Hmo Hx Hx0 Hal1 Hal2 Hmo1 Hmo2 Hm Hpre.
  assert (Hord : aend l <= b0 l) by lia.
  destruct opv as [pv|].
  - destruct Hpre as (Hdp & Hpos & Hln & Hlp & Hn & Hpd & Hn0 & Hp0 & Hinj & Hne).
    assert (Hu : u0 l = c0 l + ni l + ni l * (no l + 2)) by (unfold u0; rewrite Hdp; reflexivity).
    destruct (bp_der_exec pv l ns m Hln Hn) as (m1 & E1 & S1 & D1).
    { intros j Hj. specialize (Hn0 j Hj). unfold c0, aend in *. lia. }
    { unfold bend in Hm. nia. }
    assert (Hl1 : forall a, a < c0 l -> m1 !! a = m !! a).
    { intros a Ha. apply (same_off_lookup _ _ _ _ S1). lia. }
    assert (HW1 : has_params m1 l s).
    { eapply params_keep; [exact Hf|exact Hp|exact S1|].
      intros a Ha. unfold paramP, c0, aend in *. lia. }
    destruct (bp_ins_exec pv l s dif (map (pder pv) ns) ps m1) as (m2 & E2 & S2 & P2); try assumption.
    { eapply hold_keep; [exact Hd|exact S1|]. intros j Hj. unfold adif, c0, aend in *. lia. }
    { apply HW1. }
    { rewrite map_length. assumption. }
    { eapply hold_keep; [exact Hpd|exact S1|]. intros j Hj.
      specialize (Hp0 j ltac:(lia)). unfold c0, aend in *. lia. }
    { intros j Hj. specialize (Hp0 j Hj). unfold aend in *. lia. }
    { intros j Hj. left. apply Hp0. assumption. }
    { rewrite (same_off_length _ _ _ S1). assumption. }
    assert (S12 : same_off (fun a => c0 l <= a < u0 l \/ exists i, i < ni l /\ a = pdif pv i) m m2).
    { eapply same_off_trans; [exact S1|exact S2| |].
      - intros a Ha. cbv beta in Ha. left. rewrite Hu. nia.
      - intros a [Ha|Ha]; [left; lia|right; assumption]. }
    assert (Hl2 : forall a, a < c0 l -> (forall i, i < ni l -> a <> pdif pv i) -> m2 !! a = m !! a).
    { intros a Ha Hnp. apply (same_off_lookup _ _ _ _ S12). intros [Hc|(i & Hi & Hc)]; [lia|].
      apply (Hnp i Hi). assumption. }
    destruct (bp_units_exec al mo l s m2 valpha vmo dif xs) as (m3 & E3 & S3 & N3); try assumption.
    { intros j v Hv. assert (j < no l) by (apply lookup_lt_Some in Hv; lia).
      rewrite Hl2; [apply Hd; assumption|unfold adif, c0, aend in *; lia|].
      intros i Hi. specialize (Hp0 i Hi). unfold adif. lia. }
    { eapply params_keep; [exact Hf|exact Hp|exact S12|].
      intros a Ha [Hc|(i & Hi & Hc)]; [unfold paramP, c0, aend in *; lia|].
      specialize (Hp0 i Hi). unfold paramP in Ha. lia. }
    { destruct Hz as [Zw Zb]. split.
      - intros i j Hi Hj. assert (i * ni l + j < no l * ni l) by (apply off_lt; assumption).
        rewrite Hl2; [apply Zw; assumption|unfold amw, c0; lia|].
        intros k Hk. specialize (Hp0 k Hk). unfold amw, aend in *. lia.
      - intros i Hi.
        rewrite Hl2; [apply Zb; assumption|unfold amb, c0; lia|].
        intros k Hk. specialize (Hp0 k Hk). unfold amb, aend in *. lia. }
    { rewrite Hl2; [assumption|unfold c0; lia|].
      intros k Hk. specialize (Hp0 k Hk). unfold aend in *. lia. }
    { rewrite Hl2; [assumption|unfold c0; lia|].
      intros k Hk. specialize (Hp0 k Hk). unfold aend in *. lia. }
    { intros j v Hv. assert (Hj : j < ni l) by (apply lookup_lt_Some in Hv; lia).
      specialize (Hx0 j Hj). rewrite Hl2; [apply Hx; assumption|unfold c0; lia|].
      intros k Hk. apply Hne; assumption. }
    { rewrite (same_off_length _ _ _ S12). assumption. }
    exists m3. split; [|split; [|split]].
    + unfold bp_layer. rewrite !exec_app, E1. cbn [mbind option_bind]. rewrite E2.
      cbn [mbind option_bind]. exact E3.
    + eapply same_off_trans; [exact S12|exact S3| |].
      * intros a [Ha|Ha]; right; [left|right]; assumption.
      * intros a Ha. left. assumption.
    + exact N3.
    + cbn [pre_done]. eapply hold_keep; [exact P2|exact S3|].
      intros j Hj Ha. unfold acc in Hj. rewrite zip_with_length in Hj.
      specialize (Hp0 j ltac:(lia)). unfold updsP, u0, c0, aend in *. destruct (dpre l); lia.
  - cbn [pre_ok] in Hpre.
    destruct (bp_units_exec al mo l s m valpha vmo dif xs) as (m3 & E3 & S3 & N3); try assumption.
    exists m3. split; [|split; [|split]].
    + exact E3.
    + eapply same_off_weaken; [exact S3|]. intros a Ha. left. assumption.
    + exact N3.
    + exact I.
Qed.

(** *** The whole stack, backwards *)
Definition bpe (hiB : nat) (net : list (dlay T)) : nat :=
  match net with [] => hiB | l :: _ => bend l end.
Fixpoint chainB (hiB : nat) (pre : bool) (net : list (dlay T)) : Prop :=
  match net with
  | [] => True
  | l :: net' => dpre l = pre /\ bpe hiB net' <= b0 l /\ chainB hiB true net'
  end.
Fixpoint bps (al mo : nat) (opv : option pvl) (net : list (dlay T)) : list (op T) :=
  match net with
  | [] => []
  | l :: net' => bps al mo (Some (pv_of l)) net' ++ bp_layer al mo opv l
  end.
Fixpoint bpPs (opv : option pvl) (net : list (dlay T)) (a : nat) : Prop :=
  match net with
  | [] => False
  | l :: net' => bpPs (Some (pv_of l)) net' a \/ bpP opv l a
  end.
Fixpoint dready (m : list T) (net : list (dlay T)) (snet : list (slayer T)) (xs tgt : list T) : Prop :=
  match net, snet with
  | l :: net', s :: snet' =>
      match net' with
      | [] => hold m (adif l) (zip_with nsub tgt (outs s xs))
      | _ => hold m (adif l) (replicate (no l) nzero)
      end /\ dready m net' snet' (outs s xs) tgt
  | _, _ => True
  end.
Fixpoint news (m : list T) (alpha rest : T) (net : list (dlay T)) (snet : list (slayer T)) (xs tgt : list T) : Prop :=
  match net, snet with
  | l :: net', s :: snet' =>
      has_news m alpha rest l s xs (err snet xs tgt) /\ news m alpha rest net' snet' (outs s xs) tgt
  | _, _ => True
  end.

Lemma bend_ge (l : dlay T) : b0 l + no l * ni l + no l * ni l + no l + no l <= bend l.
Proof. pose proof (u0_ge l). unfold bend, c0 in *. lia. Qed.
Lemma bpe_ge hiB net : forall pre, chainB hiB pre net -> hiB <= bpe hiB net.
Proof.
  induction net as [|l net IH]; intros pre Hc; cbn in *; [lia|].
  destruct Hc as (_ & Hb & Hc). apply IH in Hc. pose proof (bend_ge l). lia.
Qed.
Lemma chainB_in hiB net : forall pre r, chainB hiB pre net -> r ∈ net ->
  hiB <= b0 r /\ bend r <= bpe hiB net.
Proof.
  induction net as [|l net IH]; intros pre r Hc Hr; [apply elem_of_nil in Hr; contradiction|].
  cbn in Hc. destruct Hc as (_ & Hb & Hc). pose proof (bpe_ge _ _ _ Hc). pose proof (bend_ge l).
  apply elem_of_cons in Hr as [->|Hr]; cbn [bpe]; [lia|].
  destruct (IH _ _ Hc Hr). lia.
Qed.

Definition difP (l : dlay T) (a : nat) : Prop := a0 l + no l <= a < a0 l + no l + no l.
Lemma bpP_bound hiB net pre l opv a :
  chainB hiB pre net -> l ∈ net -> bpP opv l a ->
  (hiB <= a < bpe hiB net) \/ match opv with Some pv => exists i, i < ni l /\ a = pdif pv i | None => False end.
Proof.
  intros Hc Hl [Ha|[Ha|Ha]]; [| |right; assumption];
    destruct (chainB_in _ _ _ _ Hc Hl); pose proof (u0_ge l); pose proof (bend_ge l); left;
    unfold updsP, bend, c0 in *; lia.
Qed.
Lemma bpPs_bound A0 hiA hiB net : forall pre opv lo_out lo_a a,
  chain A0 hiA lo_out lo_a net -> chainB hiB pre net -> bpPs opv net a ->
  (hiB <= a < bpe hiB net) \/ (exists r, r ∈ net /\ difP r a) \/
  match opv, net with Some pv, l :: _ => exists i, i < ni l /\ a = pdif pv i | _, _ => False end.
Proof.
  induction net as [|l net IH]; intros pre opv lo_out lo_a a Hc HcB Ha; [contradiction|].
  destruct Ha as [Ha|Ha].
  - cbn [chain] in Hc. destruct Hc as (_ & _ & _ & _ & Hlink & Hc).
    assert (HcB' := HcB). cbn [chainB] in HcB. destruct HcB as (_ & Hb & HcB).
    destruct (IH _ _ _ _ _ Hc HcB Ha) as [Hr|[(r & Hr & Hd)|Hp]].
    + left. pose proof (bend_ge l). cbn [bpe]. lia.
    + right. left. exists r. split; [right; assumption|assumption].
    + right. left. destruct net as [|l' net]; [contradiction|].
      destruct Hp as (i & Hi & ->). exists l. split; [left|].
      cbn. destruct Hlink as [_ Hn]. unfold difP, adif. lia.
  - destruct (bpP_bound hiB (l :: net) pre l opv a HcB) as [Hr|Hr]; [left|assumption|left; assumption|].
    right. right. assumption.
Qed.

Lemma hidden_dif_acc (s : slayer T) xs es :
  length es = length (netas s xs) ->
  acc (replicate (length (netas s xs)) nzero) es (map (sd s) (netas s xs)) = hidden_dif s xs es.
Proof.
  intros Hl. unfold acc, hidden_dif. revert Hl. generalize (netas s xs).
  induction es as [|e es IH]; intros [|n ns] Hl; try discriminate; [reflexivity|].
  cbn in *. f_equal. apply IH. lia.
Qed.
Lemma err_length net : forall snet xs tgt l, Forall2 fits_layer net snet -> head net = Some l ->
  (forall r, last snet = Some r -> length tgt = length (sW r)) ->
  (forall A0 hiA lo_out lo_a, chain A0 hiA lo_out lo_a net -> length (err snet xs tgt) = no l).
Proof.
  induction net as [|l net IH]; intros snet xs tgt l0 Hf Hl Ht A0 hiA lo_out lo_a Hc; [discriminate|].
  cbn in Hl. injection Hl as <-.
  apply Forall2_cons_inv_l in Hf as (s & snet' & Hfs & Hf & ->).
  destruct net as [|l' net].
  - apply Forall2_nil_inv_l in Hf as ->. cbn [err]. rewrite zip_with_length.
    rewrite (outs_length l) by assumption. rewrite (Ht s eq_refl). rewrite (fl_W _ _ Hfs). lia.
  - destruct snet' as [|s' snet']; [inversion Hf|]. cbn [err].
    unfold hidden_dif. rewrite zip_with_length. unfold back. rewrite map_length, seq_length.
    rewrite (outs_length l), (netas_length l) by assumption. lia.
Qed.
Lemma back_length (s : slayer T) n dif : length (back s n dif) = n.
Proof. unfold back. rewrite map_length, seq_length. reflexivity. Qed.

Lemma has_news_keep (P : nat -> Prop) m m' alpha rest l s xs dif :
  fits_layer l s -> length xs = ni l -> has_news m alpha rest l s xs dif -> same_off P m m' ->
  (forall a, b0 l <= a < bend l -> ~ P a) -> has_news m' alpha rest l s xs dif.
Proof.
  intros Hf Hx [HW HB] HS Hd. pose proof (bend_ge l). split.
  - eapply hold2_keep; [exact HW|exact HS|]. intros i w j Hw Hj. apply Hd.
    apply lookup_zip_with_Some in Hw as (w0 & d & -> & Hw & _).
    assert (length w0 = ni l) by (eapply row_length; eassumption).
    rewrite zip_with_length in Hj. apply lookup_lt_Some in Hw. rewrite (fl_W _ _ Hf) in Hw.
    assert (i * ni l + j < no l * ni l) by (apply off_lt; lia). unfold anw. lia.
  - eapply hold_keep; [exact HB|exact HS|]. intros j Hj. apply Hd.
    unfold new_B in Hj. rewrite zip_with_length, (fl_B _ _ Hf) in Hj. unfold anb. lia.
Qed.
Lemma news_keep (P : nat -> Prop) m m' alpha rest net : forall snet xs tgt,
  Forall2 fits_layer net snet -> ran m net snet xs ->
  news m alpha rest net snet xs tgt -> same_off P m m' ->
  (forall l a, l ∈ net -> b0 l <= a < bend l -> ~ P a) -> news m' alpha rest net snet xs tgt.
Proof.
  induction net as [|l net IH]; intros snet xs tgt Hf HR HN HS Hd; [exact I|].
  apply Forall2_cons_inv_l in Hf as (s & snet' & Hfs & Hf & ->).
  destruct HR as (Hlx & _ & _ & _ & HR). destruct HN as [H1 HN]. split.
  - eapply has_news_keep; [exact Hfs|exact Hlx|exact H1|exact HS|]. intros a. apply Hd. left.
  - eapply IH; [exact Hf|exact HR|exact HN|exact HS|]. intros r a Hr. apply Hd. right. assumption.
Qed.

Lemma bps_exec A0 hiA hiB al mo valpha vmo tgt m net : forall snet pre opv lo_out lo_a xs ns ps,
  chain A0 hiA lo_out lo_a net -> chainB hiB pre net ->
  hiA <= al -> al < hiB -> hiA <= mo -> mo < hiB -> bpe hiB net <= length m ->
  Forall2 fits_layer net snet -> Forall2 (has_params m) net snet ->
  Forall (zero_moments m) net -> Forall (fun l => 0 < no l) net ->
  ran m net snet xs -> dready m net snet xs tgt ->
  (forall r, last snet = Some r -> length tgt = length (sW r)) ->
  m !! al = Some valpha -> m !! mo = Some vmo ->
  match net with
  | [] => True
  | l :: _ =>
      (forall j, j < ni l -> ain l j < lo_a) /\
      match opv with
      | Some pv =>
          pre = true /\ length ns = ni l /\ length ps = ni l /\
          hold m (pneta pv) ns /\ hold m (pdif pv) ps /\
          (forall j, j < ni l -> pneta pv j < lo_a) /\
          (forall j, j < ni l -> pdif pv j < lo_a) /\
          (forall j k, j < ni l -> k < ni l -> pdif pv j = pdif pv k -> j = k) /\
          (forall j k, j < ni l -> k < ni l -> ain l j <> pdif pv k)
      | None => pre = false
      end
  end ->
  exists m', exec (bps al mo opv net) m = Some m' /\ same_off (bpPs opv net) m m' /\
    news m' valpha (nmul nzero vmo) net snet xs tgt /\
    match net, snet with
    | l :: _, s :: _ => pre_done opv l s (err snet xs tgt) ns ps m'
    | _, _ => True
    end.
Proof.
  induction net as [|l net IH];
    intros snet pre opv lo_out lo_a xs ns ps Hc HcB Hal1 Hal2 Hmo1 Hmo2 Hm Hf Hp Hz Hw HR HD Ht Hal Hmo Hpre.
  { exists m. split; [reflexivity|]. split; [apply same_off_refl|]. split; [destruct snet; exact I|exact I]. }
  assert (Hf0 := Hf). assert (Hc0 := Hc). assert (HcB0 := HcB).
  apply Forall2_cons_inv_l in Hf as (s & snet' & Hfs & Hf & ->).
  apply Forall2_cons in Hp as [Hps Hp]. apply Forall_cons in Hz as [Hzs Hz].
  apply Forall_cons in Hw as [Hws Hw].
  destruct HR as (Hlx & Hin & Hneta & Hout & HR). destruct HD as [Hd1 HD].
  cbn [chain] in Hc. destruct Hc as (C1 & C2 & C3 & C4 & Hlink & Hc).
  cbn [chainB] in HcB. destruct HcB as (Hdp & Hb & HcB).
  pose proof (chain_lo _ _ _ _ _ Hc) as Hend.
  pose proof (bpe_ge _ _ _ HcB) as Hge. cbn [bpe] in Hm. pose proof (bend_ge l) as Hbend.
  destruct Hpre as [Hain Hpre].
  destruct (IH snet' true (Some (pv_of l)) (aout l + no l) (aend l) (outs s xs) (netas s xs) (replicate (no l) nzero))
    as (m1 & E1 & S1 & N1 & P1); try assumption.
  { lia. }
  { intros r Hr. apply Ht. destruct snet'; [discriminate|]. exact Hr. }
  { destruct net as [|l' net']; [exact I|]. destruct Hlink as [He Hn]. rewrite He, Hn.
    split; [intros j Hj; unfold ao, aend; lia|]. cbn [pv_of pneta pdif].
    split; [reflexivity|]. split; [apply netas_length; assumption|].
    split; [apply replicate_length|]. split; [assumption|]. split; [exact Hd1|].
    unfold aneta, adif, aend, ao. repeat split; intros; lia. }
  assert (HB1 : forall a, bpPs (Some (pv_of l)) net a -> (hiB <= a < b0 l) \/ (aend l <= a < hiA) \/ difP l a).
  { intros a Ha. destruct (bpPs_bound _ _ _ _ _ _ _ _ _ Hc HcB Ha) as [Hr|[(r & Hr & Hd)|Hr]].
    - left. lia.
    - right. left. destruct (chain_in _ _ _ _ _ _ Hc Hr) as (? & ? & ? & ? & ?).
      unfold difP, aend in *. lia.
    - right. right. destruct net as [|l' net']; [contradiction|]. destruct Hr as (i & Hi & ->).
      destruct Hlink as [_ Hn]. cbn. unfold difP, adif. lia. }
  assert (Hkeep : forall a, (a < a0 l \/ (a0 l <= a < a0 l + no l) \/ (a0 l + no l + no l <= a < aend l) \/
                             (hiA <= a < hiB) \/ b0 l <= a) -> m1 !! a = m !! a).
  { intros a Ha. apply (same_off_lookup _ _ _ _ S1). intros Hx. apply HB1 in Hx.
    unfold difP, aend in *. lia. }
  assert (Hlen : length (err (s :: snet') xs tgt) = no l).
  { eapply (err_length (l :: net)); [exact Hf0|reflexivity|exact Ht|exact Hc0]. }
  assert (Hdif : hold m1 (adif l) (err (s :: snet') xs tgt)).
  { destruct net as [|l' net'].
    - apply Forall2_nil_inv_l in Hf as ->. cbn [bps exec] in E1. injection E1 as <-. exact Hd1.
    - destruct snet' as [|s' snet']; [inversion Hf|].
      cbn [pre_done] in P1. destruct Hlink as [He Hn]. rewrite Hn in P1.
      cbn [pv_of pdif pder] in P1. rewrite (fl_d _ _ Hfs) in P1.
      rewrite <- (netas_length l s xs Hfs) in P1 at 1.
      rewrite hidden_dif_acc in P1.
      + cbn [err]. rewrite (outs_length l) by assumption. exact P1.
      + rewrite back_length. symmetry. apply netas_length. assumption. }
  destruct (bp_layer_exec al mo opv l s m1 valpha vmo (err (s :: snet') xs tgt) xs ns ps)
    as (m2 & E2 & S2 & N2 & P2); try assumption.
  { eapply params_keep; [exact Hfs|exact Hps|exact S1|].
    intros a Ha Hx. apply HB1 in Hx. unfold paramP, difP, aend in *. lia. }
  { destruct Hzs as [Zw Zb]. split.
    - intros i j Hi Hj. rewrite Hkeep; [apply Zw; assumption|]. unfold amw. lia.
    - intros i Hi. rewrite Hkeep; [apply Zb; assumption|]. unfold amb. lia. }
  { rewrite Hkeep; [assumption|lia]. }
  { rewrite Hkeep; [assumption|lia]. }
  { intros j v Hv. assert (Hj : j < ni l) by (apply lookup_lt_Some in Hv; lia).
    specialize (Hain j Hj). rewrite Hkeep; [apply Hin; assumption|lia]. }
  { intros j Hj. specialize (Hain j Hj). unfold aend in *. lia. }
  { lia. } { lia. } { lia. } { lia. }
  { rewrite (same_off_length _ _ _ S1). assumption. }
  { destruct opv as [pv|]; cbn [pre_ok].
    - destruct Hpre as (Hp1 & Hln & Hlp & Hn & Hpd & Hn0 & Hp0 & Hinj & Hne).
      split; [congruence|]. split; [assumption|]. split; [assumption|]. split; [assumption|].
      split; [|split; [|split; [|split; [|split]]]].
      + intros j v Hv. assert (Hj : j < ni l) by (apply lookup_lt_Some in Hv; lia).
        specialize (Hn0 j Hj). rewrite Hkeep; [apply Hn; assumption|lia].
      + intros j v Hv. assert (Hj : j < ni l) by (apply lookup_lt_Some in Hv; lia).
        specialize (Hp0 j Hj). rewrite Hkeep; [apply Hpd; assumption|lia].
      + intros j Hj. specialize (Hn0 j Hj). lia.
      + intros j Hj. specialize (Hp0 j Hj). lia.
      + assumption.
      + assumption.
    - congruence. }
  exists m2. split; [|split; [|split]].
  - cbn [bps]. rewrite exec_app, E1. cbn [mbind option_bind]. exact E2.
  - cbn [bpPs]. eapply same_off_trans; [exact S1|exact S2|intros a Ha; left; exact Ha|intros a Ha; right; exact Ha].
  - cbn [news]. split; [exact N2|].
    assert (HR1 : ran m1 net snet' (outs s xs)).
    { clear - HR S1 Hf Hlink Hc HB1 Hfs C2 C3 C4 Hend HcB Hge Hb Hal1 Hal2.
      assert (HB : forall r a, r ∈ net -> a < A0 \/ a0 r <= a < a0 r + no r -> ~ bpPs (Some (pv_of l)) net a).
      { intros r a Hr Ha Hx.
        destruct (chain_in _ _ _ _ _ _ Hc Hr) as (? & ? & ? & ? & ?).
        destruct (bpPs_bound _ _ _ _ _ _ _ _ _ Hc HcB Hx) as [Hq|[(r' & Hr' & Hd)|Hq]].
        - unfold aend in *. lia.
        - destruct (chain_in _ _ _ _ _ _ Hc Hr') as (? & ? & ? & ? & ?).
          destruct Ha as [Ha|Ha]; [unfold difP in Hd; lia|].
          clear - Hc Hr Hr' Hd Ha. revert Hc. generalize (aout l + no l), (aend l).
          induction net as [|h t IHt]; intros q1 q2 Hc; [apply elem_of_nil in Hr; contradiction|].
          cbn [chain] in Hc. destruct Hc as (_ & _ & _ & _ & _ & Hc).
          apply elem_of_cons in Hr as [->|Hr]; apply elem_of_cons in Hr' as [->|Hr'].
          + unfold difP in Hd. lia.
          + destruct (chain_in _ _ _ _ _ _ Hc Hr') as (? & ? & ? & ? & ?). unfold difP, aend in *. lia.
          + destruct (chain_in _ _ _ _ _ _ Hc Hr) as (? & ? & ? & ? & ?). unfold difP, aend in *. lia.
          + eapply IHt; eassumption.
        - destruct net as [|l' net']; [contradiction|]. destruct Hq as (i & Hi & ->).
          destruct Hlink as [_ Hn]. cbn [pv_of pdif] in *. unfold adif, aend in *. lia. }
      revert HR. assert (Hain : match net with [] => True | l' :: _ => forall j, j < ni l' -> ain l' j < A0 end).
      { destruct net as [|l' net']; [exact I|]. destruct Hlink as [He Hn]. rewrite He, Hn. unfold ao. lia. }
      revert Hf Hain HB Hc. generalize (aout l + no l), (aend l), (outs s xs). clear - S1.
      revert S1. generalize (bpPs (Some (pv_of l)) net). intros P S1. revert snet'.
      induction net as [|h t IHt]; intros snet' q1 q2 ys Hf Hain HB Hc HR; [exact I|].
      apply Forall2_cons_inv_l in Hf as (s0 & snet0 & Hfs & Hf & ->).
      cbn [ran] in *. destruct HR as (Hl & H1 & H2 & H3 & HR).
      cbn [chain] in Hc. destruct Hc as (D1 & D2 & D3 & D4 & Dl & Hc).
      split; [assumption|]. split; [|split; [|split]].
      - eapply hold_keep; [exact H1|exact S1|]. intros j Hj.
        apply (HB h); [left|]. left. apply Hain. lia.
      - eapply hold_keep; [exact H2|exact S1|]. intros j Hj.
        rewrite (netas_length h) in Hj by assumption. apply (HB h); [left|]. unfold aneta. lia.
      - eapply hold_keep; [exact H3|exact S1|]. intros j Hj.
        rewrite (outs_length h) in Hj by assumption. apply (HB h); [left|]. unfold ao. lia.
      - eapply IHt; [exact Hf| | |exact Hc|exact HR].
        + destruct t as [|l' t]; [exact I|]. destruct Dl as [He Hn]. rewrite He, Hn. unfold ao. lia.
        + intros r a Hr. apply HB. right. assumption. }
    eapply news_keep; [exact Hf|exact HR1|exact N1|exact S2|].
    intros r a Hr Ha Hx. destruct (chainB_in _ _ _ _ HcB Hr) as [Hr1 Hr2].
    pose proof (u0_ge l). destruct Hx as [Hx|[Hx|Hx]].
    + unfold updsP, c0 in *. lia.
    + unfold c0 in *. lia.
    + destruct opv as [pv|]; [|contradiction]. destruct Hx as (i & Hi & ->).
      destruct Hpre as (Hp1 & Hln & Hlp & Hn & Hpd & Hn0 & Hp0 & Hinj & Hne).
      specialize (Hp0 i Hi). unfold aend in *. lia.
  - exact P2.
Qed.
End NetBack.
