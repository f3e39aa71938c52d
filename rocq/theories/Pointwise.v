(** * Pointwise: the tensor operations of Spec, element by element *)
From Verif Require Import Base Num ModelTools ModelOps ModelTensor Spec Denote IndexProofs TensorFacts EagerOps.
From Coq Require Import Lia.

Section Pointwise.
Context {T : Type} `{Num T}.
Implicit Types v u w : vten T.
Notation inside idx sh := (Forall2 (fun i m => (i < m)%N) idx sh).

Lemma bin_elements o v u w :
  v_bin o v u = Some w -> vsh w = vsh v /\ forall idx, inside idx (vsh v) ->
    exists x y, at_ (vsh v) (vdata v) idx = Some x /\ at_ (vsh u) (vdata u) idx = Some y /\
      at_ (vsh w) (vdata w) idx = bin o x y.
Proof.
  intros E. assert (Hs : vsh w = vsh v).
  { unfold v_bin, tabulate in E. destruct (mapM _ _); [|discriminate]. injection E as <-. reflexivity. }
  split; [exact Hs|]. intros idx Hi.
  destruct (tabulate_lookup _ _ _ _ E Hi) as [_ Hl].
  assert (Hne : at_ (vsh w) (vdata w) idx <> None).
  { rewrite Hs. intros Hn. unfold v_bin, tabulate in E. destruct (mapM _ (indices (vsh v))) as [d|] eqn:Em; [|discriminate].
    injection E as <-. cbn [vdata] in Hn. assert (Hlen := mapM_length _ _ _ Em). rewrite indices_length in Hlen.
    destruct (at_total (vsh v) d idx) as [z Hz]; [lia|exact Hi|]. congruence. }
  destruct (at_ (vsh v) (vdata v) idx) as [x|]; cbn in Hl; [|congruence].
  destruct (at_ (vsh u) (vdata u) idx) as [y|]; cbn in Hl; [|congruence]. exists x, y. auto.
Qed.

Lemma transpose_elements v w :
  v_transpose v = Some w -> vsh w = reverse (vsh v) /\ forall idx, inside idx (vsh w) ->
    at_ (vsh w) (vdata w) idx = at_ (vsh v) (vdata v) (reverse idx).
Proof.
  intros E. assert (Hs : vsh w = reverse (vsh v)).
  { unfold v_transpose, tabulate in E. destruct (mapM _ _); [|discriminate]. injection E as <-. reflexivity. }
  split; [exact Hs|]. intros idx Hi. rewrite Hs in Hi. exact (proj2 (tabulate_lookup _ _ _ _ E Hi)).
Qed.

Lemma sub_elements v w d s e :
  v_sub v d s e = Some w -> vsh w = <[d := (e - s)%N]> (vsh v) /\ forall idx, inside idx (vsh w) ->
    at_ (vsh w) (vdata w) idx = at_ (vsh v) (vdata v) (alter (fun c => c + s)%N d idx).
Proof.
  intros E. assert (Hs : vsh w = <[d := (e - s)%N]> (vsh v)).
  { unfold v_sub, tabulate in E. destruct (mapM _ _); [|discriminate]. injection E as <-. reflexivity. }
  split; [exact Hs|]. intros idx Hi. rewrite Hs in Hi. exact (proj2 (tabulate_lookup _ _ _ _ E Hi)).
Qed.

Lemma concat_elements v u w d na nb :
  vsh v !! d = Some na -> vsh u !! d = Some nb -> v_concat v u d = Some w ->
  vsh w = <[d := (na + nb)%N]> (vsh v) /\ forall idx c, inside idx (vsh w) -> idx !! d = Some c ->
    at_ (vsh w) (vdata w) idx =
    if (c <? na)%N then at_ (vsh v) (vdata v) idx
    else at_ (vsh u) (vdata u) (alter (fun c => c - na)%N d idx).
Proof.
  intros Ha Hb E. unfold v_concat in E. rewrite Ha, Hb in E.
  assert (Hs : vsh w = <[d := (na + nb)%N]> (vsh v)).
  { unfold tabulate in E. destruct (mapM _ _); [|discriminate]. injection E as <-. reflexivity. }
  split; [exact Hs|]. intros idx c Hi Hc. rewrite Hs in Hi. rewrite (proj2 (tabulate_lookup _ _ _ _ E Hi)), Hc. reflexivity.
Qed.

Lemma dot_elements red v u w da db n :
  vsh v !! da = Some n -> ((length (vsh v) =? 1) && (length (vsh u) =? 1)) = false ->
  v_dot_with red v u da db = Some w ->
  vsh w = del da (vsh v) ++ del db (vsh u) /\ forall i j, inside i (del da (vsh v)) -> inside j (del db (vsh u)) ->
    at_ (vsh w) (vdata w) (i ++ j) =
    (l ← mapM (fun k => x ← at_ (vsh v) (vdata v) (ins da k i);
                        y ← at_ (vsh u) (vdata u) (ins db k j); Some (nmul x y)) (upto n); red RedSum l).
Proof.
  intros Ha Hv E. unfold v_dot_with in E. rewrite Ha, Hv in E.
  assert (Hs : vsh w = del da (vsh v) ++ del db (vsh u)).
  { unfold tabulate in E. destruct (mapM _ _); [|discriminate]. injection E as <-. reflexivity. }
  split; [exact Hs|]. intros i j Hi Hj.
  pose proof (Forall2_app Hi Hj) as Hij.
  rewrite (proj2 (tabulate_lookup _ _ _ _ E Hij)).
  assert (Hl : length i = length (vsh v) - 1).
  { rewrite (Forall2_length _ _ _ Hi). pose proof (lookup_lt_Some _ _ _ Ha).
    unfold del. rewrite app_length, take_length, drop_length. lia. }
  rewrite <- Hl, take_app, drop_app. reflexivity.
Qed.

Lemma dim_elements red o d v w :
  v_dim_with red o d v = Some w -> vsh w = take (S d) (vsh v) /\ forall idx, inside idx (vsh w) ->
    at_ (vsh w) (vdata w) idx =
    (l ← mapM (fun rest => at_ (vsh v) (vdata v) (idx ++ rest)) (indices (drop (S d) (vsh v))); red o l).
Proof.
  intros E. assert (Hs : vsh w = take (S d) (vsh v)).
  { unfold v_dim_with, tabulate in E. destruct (mapM _ _); [|discriminate]. injection E as <-. reflexivity. }
  split; [exact Hs|]. intros idx Hi. rewrite Hs in Hi. exact (proj2 (tabulate_lookup _ _ _ _ E Hi)).
Qed.
End Pointwise.
