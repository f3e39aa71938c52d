(** * IOProofs: tensors on files *)
From Verif Require Import Base Num ModelTools ModelOps ModelTensor ModelLayer ModelModel Spec Denote ObjSpec ModelIO IOSpec
  BuildProofs ExecProofs TensorFacts AccessProofs EagerProofs.
From Coq Require Import Lia ZifyBool ZifyNat ZifyN Init.Byte.

Section IOProofs.
Context {T : Type} `{Num T}.

Lemma io_ok {W S A} (c : M S A) (w : W) s r s' : c s = (r, s') -> io c (w, s) = (r, (w, s')).
Proof using Type. intros E. unfold io. cbn [snd fst]. rewrite E. reflexivity. Qed.

Section Some_codec.
Context (c : codec T) (Hc : codec_ok c).

Lemma dump_length l : length (dump c l) = length l * cwidth c.
Proof using Hc. unfold dump. induction l as [|x l IH]; [reflexivity|]. cbn [map concat length]. rewrite app_length, IH, (ck_len _ Hc). lia. Qed.
Lemma fill_length r d : length (fill c r d) = length d.
Proof using Type. revert r. induction d as [|x d IH]; intros r; [reflexivity|]. cbn [fill]. destruct (length r <? cwidth c); cbn [length]; [reflexivity|]. rewrite IH. reflexivity. Qed.
(** Reading back what was written. *)
Lemma fill_dump l rest d : length l = length d -> fill c (dump c l ++ rest) d = l.
Proof using Hc.
  unfold dump. revert d. induction l as [|x l IH]; intros [|y d] Hl; try discriminate; [reflexivity|]. cbn [map concat fill].
  rewrite <- app_assoc, app_length, (ck_len _ Hc). destruct (Nat.ltb_spec (cwidth c + length (concat (map (cenc c) l) ++ rest)) (cwidth c)) as [?|_]; [lia|].
  rewrite take_app_alt, drop_app_alt by (symmetry; apply (ck_len _ Hc)). rewrite (ck_dec _ Hc), IH by (cbn in Hl; lia). reflexivity.
Qed.
(** Which numbers a short file reaches. *)
Lemma fill_split r d : length r < length d * cwidth c ->
  let q := length r / cwidth c in fill c r d = take q (fill c r d) ++ drop q d /\ q < length d.
Proof using Hc.
  pose proof (ck_pos _ Hc) as Hp. revert r. induction d as [|x d IH]; intros r Hl; [cbn in Hl; lia|]. cbn [fill length] in *.
  destruct (Nat.ltb_spec (length r) (cwidth c)) as [Hs|Hs].
  - rewrite Nat.div_small by exact Hs. cbn. split; [reflexivity|lia].
  - assert (E : length r / cwidth c = S (length (drop (cwidth c) r) / cwidth c)).
    { rewrite drop_length. replace (length r) with (length r - cwidth c + 1 * cwidth c) at 1 by lia. rewrite Nat.div_add by lia. lia. }
    destruct (IH (drop (cwidth c) r)) as [E1 E2]; [rewrite drop_length; lia|]. cbv zeta. rewrite E. cbn [take drop app]. split; [f_equal; exact E1|lia].
Qed.

(** ** Writing *)
Definition put (w : writer) (bs : list byte) : writer :=
  match room w with
  | None => MkW (written w ++ bs) None
  | Some k => MkW (written w ++ take k bs) (Some (k - length bs))
  end.
Definition holds_room (w : writer) (n : nat) : bool := match room w with None => true | Some k => n <=? k end.
Lemma wput_eq {S} bs w (s : S) : wput bs (w, s) = (if holds_room w (length bs) then Ok tt else Err (ELayer 90), (put w bs, s)).
Proof using Type.
  unfold wput, holds_room, put. destruct (room w) as [k|]; [|reflexivity]. destruct (Nat.leb_spec (length bs) k) as [Hl|Hl].
  - rewrite take_ge by exact Hl. reflexivity.
  - replace (k - length bs) with 0 by lia. reflexivity.
Qed.
Lemma put_nil w : put w [] = w.
Proof using Type. destruct w as [a [k|]]; unfold put; cbn; rewrite ?take_nil, app_nil_r, ?Nat.sub_0_r; reflexivity. Qed.
Lemma put_app w a b : put (put w a) b = put w (a ++ b).
Proof using Type.
  destruct w as [x [k|]]; unfold put; cbn [room written]; [|rewrite <- app_assoc; reflexivity].
  rewrite firstn_app, app_length, <- app_assoc. f_equal. f_equal. lia.
Qed.
Lemma put_full w a b : holds_room w (length a) = false -> put w (a ++ b) = put w a.
Proof using Type.
  unfold holds_room, put. destruct (room w) as [k|]; [|discriminate]. intros E. rewrite app_length, take_app_le by lia. f_equal. f_equal. lia.
Qed.
Lemma room_app w a b : holds_room w (length (a ++ b)) = holds_room w (length a) && holds_room (put w a) (length b).
Proof using Type. unfold holds_room, put. destruct (room w) as [k|]; [|reflexivity]. cbn [room]. rewrite app_length. lia. Qed.

Lemma save_ops ops : forall d w (s : tst T), rds (mem s) ops = Some d ->
  mfor ops (fun o => v <~ io (rdM o) ; bWrite (Some c) v) (w, s) = (if holds_room w (length (dump c d)) then Ok tt else Err (ELayer 90), (put w (dump c d), s)).
Proof using Type.
  unfold rds. induction ops as [|o ops IH]; intros d w s E; cbn in E.
  - injection E as <-. cbn. rewrite put_nil. unfold holds_room. destruct (room w); reflexivity.
  - destruct (rd (mem s) o) as [x|] eqn:Ex; cbn in E; [|discriminate]. destruct (mapM (rd (mem s)) ops) as [xs|] eqn:Exs; cbn in E; [|discriminate]. injection E as <-.
    cbn [mfor]. unfold mbnd at 1. erewrite mbnd_ok by (eapply io_ok; apply rdM_ok; exact Ex). change (bWrite (Some c) x (w, s)) with (wput (cenc c x) (w, s)). rewrite wput_eq.
    unfold dump. cbn [map concat]. fold (dump c xs). rewrite room_app. destruct (holds_room w (length (cenc c x))) eqn:Er; cbn [andb].
    + rewrite (IH xs (put w (cenc c x)) s Exs), put_app. reflexivity.
    + rewrite put_full by exact Er. reflexivity.
Qed.
Theorem Save_spec (s : tst T) p v w : holds s p v ->
  Save (Some c) p (w, s) = (if holds_room w (length (dump c (vdata v))) then Ok tt else Err (ELayer 90), (put w (dump c (vdata v)), s)).
Proof using Type.
  intros Hp. destruct (holds_exists _ _ _ Hp) as [n Hn]. destruct (holds_data _ _ _ _ Hp Hn) as (_ & Hd & _).
  unfold Save. erewrite mbnd_ok by (eapply io_ok; eapply get_mat_ok; exact Hn). apply save_ops. exact Hd.
Qed.

(** ** Reading *)
Lemma load_ops ops : forall d r (s : tst T), rds (mem s) ops = Some d -> NoDup ops ->
  exists e s', mfor ops (fun o => io (rdM o) ;~ v <~ bRead (Some c) ; io (wrM o v)) (r, s) =
      (if length r <? length d * cwidth c then Err e else Ok tt, (drop (length d * cwidth c) r, s')) /\
    rds (mem s') ops = Some (fill c r d) /\ tens s' = tens s /\ ctx s' = ctx s /\ length (mem s') = length (mem s) /\
    (forall a, Some a ∉ ops -> mem s' !! a = mem s !! a).
Proof using Hc.
  induction ops as [|o ops IH]; intros d r s E Hnd; pose proof E as E0; unfold rds in E; cbn in E.
  - injection E as <-. exists EEOF, s. cbn. replace (length r <? 0) with false by lia. rewrite drop_0. auto 10.
  - destruct (rd (mem s) o) as [x|] eqn:Ex; cbn in E; [|discriminate]. destruct (mapM (rd (mem s)) ops) as [xs|] eqn:Exs; cbn in E; [|discriminate]. injection E as <-.
    apply NoDup_cons in Hnd as [Hni Hnd]. cbn [mfor]. unfold mbnd at 1. erewrite mbnd_ok by (eapply io_ok; apply rdM_ok; exact Ex).
    unfold mbnd at 1. unfold bRead at 1. cbn [fill length]. destruct (Nat.ltb_spec (length r) (cwidth c)) as [Hs|Hs].
    + exists (match r with [] => EEOF | _ => EUnexpectedEOF end), s. replace (length r <? S (length xs) * cwidth c) with true by lia. rewrite drop_ge by lia.
      split; [reflexivity|]. split; [exact E0|]. auto.
    + destruct o as [l|]; [|discriminate]. cbn [rd] in Ex. pose proof (lookup_lt_Some _ _ _ Ex) as Hl.
      set (v := cdec c (take (cwidth c) r)). set (s1 := MkSt (<[l := v]> (mem s)) (tens s) (ctx s)).
      assert (Ew : wrM (Some l) v s = (Ok tt, s1)) by (unfold wrM; rewrite (wr_Some _ _ _ Hl); reflexivity). rewrite (io_ok _ _ _ _ _ Ew).
      assert (E1 : rds (mem s1) ops = Some xs).
      { cbn [mem s1]. rewrite <- Exs. unfold rds. apply mapM_ext_in. intros [a|] Ha; [|reflexivity]. cbn [rd]. apply list_lookup_insert_ne. intros ->. exact (Hni Ha). }
      destruct (IH xs (drop (cwidth c) r) s1 E1 Hnd) as (e & s' & Em & Er & Et & Ec & Elen & Eo). exists e, s'. rewrite Em, drop_length, drop_drop.
      split; [|split; [|split; [exact Et|split; [exact Ec|split; [rewrite Elen; cbn [mem s1]; apply insert_length|]]]]].
      * replace (length r <? S (length xs) * cwidth c) with (length r - cwidth c <? length xs * cwidth c) by lia. reflexivity.
      * unfold rds. cbn [mapM rd]. rewrite Eo by (intros Hi; exact (Hni Hi)). cbn [mem s1]. rewrite list_lookup_insert by exact Hl. cbn. unfold rds in Er. rewrite Er. reflexivity.
      * intros a Ha. rewrite Eo by (intros Hi; apply Ha; right; exact Hi). cbn [mem s1]. apply list_lookup_insert_ne. intros ->. apply Ha. left.
Qed.
Lemma rds_same (m m' : list T) ops : (forall a, Some a ∈ ops -> m' !! a = m !! a) -> rds m' ops = rds m ops.
Proof using Type. intros Hm. unfold rds. apply mapM_ext_in. intros [a|] Ha; [|reflexivity]. cbn [rd]. apply Hm. exact Ha. Qed.
Theorem Load_spec (s : tst T) p v r : holds s p v -> unshared s p ->
  exists e s', Load (Some c) p (r, s) = (if length r <? length (vdata v) * cwidth c then Err e else Ok tt, (drop (length (vdata v) * cwidth c) r, s')) /\
    holds s' p (V (vsh v) (fill c r (vdata v))) /\ tens s' = tens s /\ ctx s' = ctx s /\
    (forall q u, apart s p q -> holds s q u -> holds s' q u).
Proof using Hc.
  intros Hp Hu. destruct (holds_exists _ _ _ Hp) as [n Hn]. destruct (holds_data _ _ _ _ Hp Hn) as (Hs & Hd & Hwf & Hcs & _).
  unfold unshared in Hu. rewrite Hcs in Hu. destruct (load_ops _ _ r s Hd Hu) as (e & s' & Em & Er & Et & Ec & Elen & Eo). exists e, s'.
  unfold Load. erewrite mbnd_ok by (eapply io_ok; eapply get_mat_ok; exact Hn). split; [exact Em|]. split; [|split; [exact Et|split; [exact Ec|]]].
  - exists n. rewrite Et. split; [exact Hn|]. rewrite Elen. split; [exact Hwf|]. unfold mval. rewrite Er, Hs. reflexivity.
  - intros q u Ha (n' & Hn' & Hw' & Hv'). exists n'. rewrite Et, Elen. split; [exact Hn'|]. split; [exact Hw'|]. rewrite <- Hv'. unfold mval. erewrite rds_same; [reflexivity|].
    intros a Hin. apply Eo. intros Hin'. eapply (Ha (Some a)); [rewrite Hcs; exact Hin'|]. unfold cells. rewrite Hn'. exact Hin.
Qed.
End Some_codec.

(** ** The claims *)
Theorem round_claim (c : codec T) (s s' : tst T) p q v u rest : codec_ok c -> holds s p v -> holds s' q u -> unshared s' q -> length (vdata u) = length (vdata v) ->
  exists bytes, Save (Some c) p (MkW [] None, s) = (Ok tt, (MkW bytes None, s)) /\ length bytes = length (vdata v) * cwidth c /\
  exists s2, Load (Some c) q (bytes ++ rest, s') = (Ok tt, (rest, s2)) /\ holds s2 q (V (vsh u) (vdata v)) /\ tens s2 = tens s' /\ ctx s2 = ctx s' /\
    (forall q' u', apart s' q q' -> holds s' q' u' -> holds s2 q' u').
Proof using Type.
  intros Hc Hp Hq Hu Hl. exists (dump c (vdata v)). split; [rewrite (Save_spec c s p v _ Hp); reflexivity|]. split; [apply dump_length; exact Hc|].
  destruct (Load_spec c Hc s' q u (dump c (vdata v) ++ rest) Hq Hu) as (e & s2 & E & Hh & Ht & Hx & Hf). exists s2.
  assert (Hlen : length (dump c (vdata v)) = length (vdata u) * cwidth c) by (rewrite dump_length, Hl by exact Hc; reflexivity).
  rewrite E, app_length. destruct (Nat.ltb_spec (length (dump c (vdata v)) + length rest) (length (vdata u) * cwidth c)); [lia|].
  rewrite drop_app_alt by (symmetry; exact Hlen). split; [reflexivity|]. rewrite (fill_dump c Hc) in Hh by congruence. auto.
Qed.
Theorem file_claim (c : codec T) (s : tst T) p v w : holds s p v ->
  Save (Some c) p (MkW w None, s) = (Ok tt, (MkW (w ++ dump c (vdata v)) None, s)) /\
  forall k, Save (Some c) p (MkW w (Some k), s) =
    (if length (dump c (vdata v)) <=? k then Ok tt else Err (ELayer 90), (MkW (w ++ take k (dump c (vdata v))) (Some (k - length (dump c (vdata v)))), s)).
Proof using Type. intros Hp. split; [|intros k]; rewrite (Save_spec c s p v _ Hp); reflexivity. Qed.
Theorem truncated_claim (c : codec T) (s : tst T) p v r : codec_ok c -> holds s p v -> unshared s p -> length r < length (vdata v) * cwidth c ->
  let q := length r / cwidth c in
  exists e s' d, Load (Some c) p (r, s) = (Err e, ([], s')) /\ holds s' p (V (vsh v) (d ++ drop q (vdata v))) /\ length d = q /\ q < length (vdata v) /\
    (forall i, i < q -> d !! i = Some (cdec c (take (cwidth c) (drop (i * cwidth c) r)))) /\
    tens s' = tens s /\ ctx s' = ctx s /\ (forall q' u', apart s p q' -> holds s q' u' -> holds s' q' u').
Proof using Type.
  intros Hc Hp Hu Hl q. destruct (Load_spec c Hc s p v r Hp Hu) as (e & s' & E & Hh & Ht & Hx & Hf). destruct (fill_split c Hc r (vdata v) Hl) as [E1 E2]. fold q in E1, E2.
  exists e, s', (take q (fill c r (vdata v))). rewrite E. replace (length r <? _) with true by lia. rewrite drop_ge by lia. split; [reflexivity|]. split; [rewrite <- E1; exact Hh|].
  split; [rewrite take_length, fill_length; lia|]. split; [exact E2|]. split; [|auto].
  intros i Hi. rewrite lookup_take by exact Hi. assert (Hr : (i + 1) * cwidth c <= length r). { pose proof (Nat.mul_div_le (length r) (cwidth c)). pose proof (ck_pos _ Hc). assert (i + 1 <= length r / cwidth c) by (fold q; lia). nia. }
  clear - Hr E2 Hi Hc. pose proof (ck_pos _ Hc). assert (Hil : i < length (vdata v)) by lia. clear E2 Hi q. revert i r Hr Hil. generalize (vdata v). induction l as [|x l IH]; intros i r Hr Hil; [cbn in Hil; lia|]. cbn [fill].
  destruct (Nat.ltb_spec (length r) (cwidth c)); [lia|]. destruct i as [|i]; cbn [lookup list_lookup].
  - cbn. rewrite drop_0. reflexivity.
  - rewrite IH; [|rewrite drop_length; lia|cbn in Hil; lia]. rewrite drop_drop. repeat f_equal.
Qed.
(** A type [encoding/binary] refuses. *)
Theorem refused_claim (s : tst T) p v w r : holds s p v -> vdata v <> [] ->
  Save None p (w, s) = (Err EInvalidType, (w, s)) /\ Load None p (r, s) = (Err EInvalidType, (r, s)).
Proof using Type.
  intros Hp Hne. destruct (holds_exists _ _ _ Hp) as [n Hn]. destruct (holds_data _ _ _ _ Hp Hn) as (_ & Hd & _).
  unfold Save, Load. split; (erewrite mbnd_ok by (eapply io_ok; eapply get_mat_ok; exact Hn)).
  all: destruct (operands (nmat n)) as [|o ops]; [cbn in Hd; injection Hd as Hd; congruence|]; cbn in Hd; destruct (rd (mem s) o) as [x|] eqn:Ex; [|discriminate].
  all: cbn [mfor]; unfold mbnd at 1; erewrite mbnd_ok by (eapply io_ok; apply rdM_ok; exact Ex); reflexivity.
Qed.
(** SaveFull and LoadFull never do anything. *)
Theorem full_claim (cod : option (codec T)) (s : tst T) p v w r : holds s p v ->
  SaveFull cod p (w, s) = (Err EInvalidType, (w, s)) /\ LoadFull cod p (r, s) = (Err EInvalidType, (r, s)).
Proof using Type.
  intros Hp. destruct (holds_exists _ _ _ Hp) as [n Hn]. unfold SaveFull, LoadFull. split; (erewrite mbnd_ok by (eapply io_ok; eapply get_mat_ok; exact Hn)); reflexivity.
Qed.
End IOProofs.
