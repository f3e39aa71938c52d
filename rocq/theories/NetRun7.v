(** * NetRun7: whole programs that build, compile, train and use a stack of dense layers *)
From Verif Require Import Base Num ModelTools ModelOps ModelTensor ModelGraph ModelLayer ModelModel
  Spec Denote ObjSpec IndexProofs ExecProofs TensorFacts AccessProofs EagerProofs
  NetSpec NetExec NetBack NetBuild NetChain NetChain2 NetChain3 NetFit NetMem NetRun NetRun2 NetScript NetRun3 NetRun4 NetRun5 NetRun6.
From Coq Require Import Lia ZifyBool ZifyNat ZifyN.

Section NetRun7.
Context {T : Type} `{Num T}.
Context (rnd : nat -> nat -> T).

(** ** The first layer *)
Lemma start_input (s : lst T) ish : fits ish ->
  exists s' M sr, (i <~ NewInput ish ; MPush NewModel i) s = (Ok M, s') /\ built s' M sr [] (rc s) /\
    r_sh sr = ish /\ low_of sr = true /\ r_id sr <> None.
Proof.
  intros Hf. set (id := length (lays s)). set (A := length (mem (ts s))). set (t := length (tens (ts s))).
  exists (MkL (MkSt ((mem (ts s) ++ zeros (N.to_nat (prodN ish))) ++ zeros (N.to_nat (prodN ish)))
     ((tens (ts s) ++ [MkNode KMat (blkm ish A false)]) ++ [MkNode KMat (blkm ish (length (mem (ts s) ++ zeros (N.to_nat (prodN ish)))) false)]) (ctx (ts s)))
     (lays s ++ [set_ten FDif (Some (length (tens (ts s) ++ [MkNode KMat (blkm ish A false)]))) (set_ten FInput (Some t) (blank LInput (Some linear_act) false))]) (rc s)).
  eexists _, (Src (Some id) t ish A). split; [|split; [|auto]].
  - unfold NewInput. erewrite mbnd_ok.
    2:{ erewrite mbnd_ok by (apply liftT_ok; apply NewZeros_blk; exact Hf).
        erewrite mbnd_ok by (apply liftT_ok; apply NewZeros_blk; exact Hf). unfold newL. cbn [ts lays rc mem tens ctx]. reflexivity. }
    reflexivity.
  - split; cbn [m_last m_first m_bp]; try reflexivity; try exact I.
    + cbn [stk]. unfold sl. cbn [r_id]. eexists. split; [apply list_lookup_middle; reflexivity|..]; cbn; auto.
    + split; [exact Hf|]. exists false. cbn. rewrite <- app_assoc. apply list_lookup_middle. reflexivity.
    + cbn [r_b r_sh ts mem]. rewrite !app_length, !zeros_length. fold A. lia.
    + cbn. apply NoDup_singleton.
    + cbn. constructor; [|constructor]. rewrite app_length. cbn. unfold id. lia.
    + discriminate.
    + constructor.
Qed.
Lemma start_dense (s : lst T) n o act : (n < W64)%N -> (o < W64)%N -> fits [o; n] ->
  exists s' M sr sp, (d <~ NewInDense n o act ; m <~ MPush NewModel d ; mret (m, [d])) s = (Ok (M, [s_id sp]), s') /\
    built s' M sr [sp] (rc s) /\ r_sh sr = [n] /\ low_of sr = false /\ lay3 sp = spec3 (o, act) /\ s_o sp = o.
Proof.
  intros Hn Ho Hf. set (id := length (lays s)). set (A := length (mem (ts s))). set (t := length (tens (ts s))).
  assert (Hfn : fits [n]) by (apply fits_1; exact Hn). assert (Hfo : fits [o]) by (apply fits_1; exact Ho).
  exists (MkL (MkSt ((mem (ts s) ++ zeros (N.to_nat n)) ++ zeros (N.to_nat o))
     ((tens (ts s) ++ [MkNode KMat (blkm [n] A false)]) ++ [MkNode KMat (blkm [o] (length (mem (ts s) ++ zeros (N.to_nat n))) false)]) (ctx (ts s)))
     (lays s ++ [set_ten FOutput (Some (length (tens (ts s) ++ [MkNode KMat (blkm [n] A false)]))) (set_ten FInput (Some t) (blank LDense (Some act) true))]) (rc s)).
  eexists _, (Src None t [n] A), (LSp id o act (length (tens (ts s) ++ [MkNode KMat (blkm [n] A false)])) (length (mem (ts s) ++ zeros (N.to_nat n))) true).
  split; [|split; [|repeat split; reflexivity]].
  - unfold NewInDense. erewrite mbnd_ok.
    2:{ erewrite mbnd_ok by (apply liftT_ok; apply NewZeros_blk; exact Hfn).
        erewrite mbnd_ok by (apply liftT_ok; apply NewZeros_blk; exact Hfo). unfold newL. cbn [ts lays rc mem tens ctx]. reflexivity. }
    cbn [MPush NewModel m_first]. erewrite mbnd_ok by reflexivity. unfold mret. rewrite !prod_1. reflexivity.
  - split; cbn [m_last m_first m_bp]; try reflexivity; try exact I.
    + cbn [stk]. split; [|exact I]. eexists. split; [apply list_lookup_middle; reflexivity|..]; cbn; try reflexivity.
       exists false. cbn. apply list_lookup_middle. reflexivity.
    + split; [exact Hfn|]. exists false. cbn. rewrite <- app_assoc. apply list_lookup_middle. reflexivity.
    + cbn [outs_ok base_of width_of r_b r_sh s_ob s_o ts mem]. rewrite prod_1, !app_length, !zeros_length. fold A. split; [lia|]. split; [lia|exact I].
    + cbn [r_b r_sh ts mem]. rewrite prod_1, !app_length, !zeros_length. fold A. lia.
    + cbn [sizes_ok s_o width_of r_sh]. rewrite prod_1. auto.
    + cbn. apply NoDup_singleton.
    + cbn. constructor; [|constructor]. rewrite app_length. cbn. unfold id. lia.
    + discriminate.
    + constructor; [reflexivity|constructor].
Qed.

Lemma mbnd_assoc {S A B C} (m : M S A) (f : A -> M S B) (g : B -> M S C) s :
  mbnd (mbnd m f) g s = mbnd m (fun a => mbnd (f a) g) s.
Proof. unfold mbnd. destruct (m s) as [[a|e| |] s']; reflexivity. Qed.

Context (Hone0 : neqb (one (T:=T)) nzero = false) (Hone1 : nltb none (one (T:=T)) = false).

(** ** Whole programs *)
Definition holds_world (s : lst T) (lids tids : list nat) (w : world T) : Prop :=
  Forall2 (layer_holds s) lids (w_net w) /\ Forall2 (fun t e => reads (ts s) t (fst e) (snd e)) tids (w_ten w).
Lemma alive_holds sr osh lids (s : lst T) M tids w : alive sr osh lids s M tids w -> holds_world s lids tids w.
Proof. clear Hone0 Hone1 rnd.
  intros (rst & P & HR & Hs & -> & _). split; [eapply run_params; exact HR|].
  eapply Forall2_impl; [exact Hs|]. cbv beta. intros t e [Hr _]. exact Hr.
Qed.
Definition out_width (d : N) (ls : list (N * activation T)) : N := List.last (map fst ls) d.

Lemma input_program (s0 : lst T) ish ls acts w os : fits ish -> ls <> [] -> net_sizes (prodN ish) (map fst ls) ->
  history ish [out_width 0 ls] true (W (init_net rnd (rc s0) (N.to_nat (prodN ish)) (map spec3 ls)) []) acts w os ->
  exists s lids M tids, program rnd (build_input ish ls) acts s0 = (Ok (lids, (M, tids, os)), s) /\ holds_world s lids tids w.
Proof.
  intros Hf Hne Hsz Hh.
  destruct (start_input s0 ish Hf) as (s1 & M1 & sr & E1 & HB1 & Esh & Elow & Hid). subst ish.
  destruct (push_all_ok sr (rc s0) ls s1 M1 [] [] HB1) as (s2 & M2 & rst & E2 & HB2 & El & Hn & _ & Hw & Hsh); [auto|exact Hsz|reflexivity|].
  destruct (built_compile rnd Hone0 Hone1 s2 M2 sr rst (rc s0) HB2 (Hn Hne)) as (s3 & M3 & E3 & HA).
  rewrite El in HA. cbn [rev map app] in HA.
  assert (Ew : sh_of sr rst = [out_width 0 ls]).
  { rewrite (Hsh (Hn Hne)), Hw. cbn [width_of]. unfold out_width. destruct ls as [|l ls]; [contradiction|]. cbn [map]. rewrite !last_from. reflexivity. }
  rewrite Ew in HA. rewrite <- Elow in Hh.
  destruct (acts_ok rnd Hone0 Hone1 _ _ _ _ _ _ _ Hh _ _ _ HA) as (s4 & M4 & tids & E4 & HA4).
  eexists s4, _, M4, tids. split; [|eapply alive_holds; exact HA4].
  unfold program. erewrite mbnd_ok.
  2:{ unfold build_input. rewrite <- mbnd_assoc. erewrite mbnd_ok by exact E1. exact E2. }
  cbn [fst snd]. erewrite mbnd_ok by exact E3. erewrite mbnd_ok by exact E4. reflexivity.
Qed.
Lemma dense_program (s0 : lst T) n l ls acts w os : (n < W64)%N -> net_sizes n (map fst (l :: ls)) ->
  history [n] [out_width 0 (l :: ls)] false (W (init_net rnd (rc s0) (N.to_nat n) (map spec3 (l :: ls))) []) acts w os ->
  exists s lids M tids, program rnd (build_dense n l ls) acts s0 = (Ok (lids, (M, tids, os)), s) /\ holds_world s lids tids w.
Proof.
  intros Hn Hsz Hh. destruct l as [o act]. cbn [map fst net_sizes] in Hsz. destruct Hsz as (Ho & Hf & Hsz).
  destruct (start_dense s0 n o act Hn Ho Hf) as (s1 & M1 & sr & sp & E1 & HB1 & Esh & Elow & Elay & Eo).
  destruct (push_all_ok sr (rc s0) ls s1 M1 [sp] [s_id sp] HB1) as (s2 & M2 & rst & E2 & HB2 & El & _ & Hn2 & Hw & Hsh);
    [discriminate|cbn [width_of]; rewrite Eo; exact Hsz|reflexivity|].
  assert (Hne : rst <> []) by (apply Hn2; discriminate).
  destruct (built_compile rnd Hone0 Hone1 s2 M2 sr rst (rc s0) HB2 Hne) as (s3 & M3 & E3 & HA).
  rewrite El in HA. cbn [rev map app] in HA.
  assert (Ew : sh_of sr rst = [out_width 0 ((o, act) :: ls)]).
  { rewrite (Hsh Hne), Hw. cbn [width_of]. unfold out_width. cbn [map fst]. rewrite last_from, Eo. reflexivity. }
  rewrite Ew, Esh, prod_1, Elay in HA. rewrite <- Elow, <- Esh in Hh. rewrite Esh in Hh.
  rewrite <- Esh in Hh at 1.
  destruct (acts_ok rnd Hone0 Hone1 _ _ _ _ _ _ _ Hh _ _ _ HA) as (s4 & M4 & tids & E4 & HA4).
  eexists s4, _, M4, tids. split; [|eapply alive_holds; exact HA4].
  unfold program. erewrite mbnd_ok.
  2:{ unfold build_dense. cbn [fst snd].
      transitivity (mbnd (d <~ NewInDense n o act ; m <~ MPush NewModel d ; mret (m, [d])) (fun st => push_all st ls) s0).
      - unfold mbnd. destruct (NewInDense n o act s0) as [[d|e| |] sx]; [|reflexivity..].
        destruct (MPush NewModel d sx) as [[m|e| |] sy]; reflexivity.
      - erewrite mbnd_ok by exact E1. exact E2. }
  cbn [fst snd]. erewrite mbnd_ok by exact E3. erewrite mbnd_ok by exact E4. reflexivity.
Qed.
End NetRun7.
