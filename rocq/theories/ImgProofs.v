(** * ImgProofs: scaling images *)
From Coq Require Import Reals.
From Verif Require Import Base Num ModelTools ModelOps ModelTensor ModelLayer ModelImg Spec Denote ObjSpec IndexProofs ExecProofs TensorFacts BuildProofs BuildProofs3 EagerProofs AccessProofs
  NetBuild FwdConv2 FwdBody FwdOps ImgSpec ImgFloat.
From Coq Require Import Lia ZifyBool ZifyNat ZifyN.
Open Scope nat_scope.

Section Img.
Context {T : Type} `{Num T}.

(** ** Filling a new tensor *)
Section Fill.
Context (s : tst T) (sh : list N) (Hf : fits sh).
Definition canvas (D : list T) : tst T := MkSt (mem s ++ D) (tens s ++ [MkNode KMat (blkm sh (length (mem s)) false)]) (ctx s).
Notation new := (length (tens s)).
Notation size := (N.to_nat (prodN sh)).

Lemma canvas_new : NewZeros sh s = (Ok new, canvas (zeros size)).
Proof using Hf. apply NewZeros_blk. exact Hf. Qed.
Lemma canvas_wf D : length D = size -> wf_mat (length (mem (canvas D))) (blkm sh (length (mem s)) false).
Proof using Hf. intros HD. cbn [canvas mem]. rewrite app_length, HD. apply wf_blk. exact Hf. Qed.
Lemma canvas_lookup D : tens (canvas D) !! new = Some (MkNode KMat (blkm sh (length (mem s)) false)).
Proof using Type. cbn [canvas tens]. rewrite lookup_app_r, Nat.sub_diag by lia. reflexivity. Qed.
Lemma canvas_holds D : length D = size -> holds (canvas D) new (V sh D).
Proof using Hf.
  intros HD. exists (MkNode KMat (blkm sh (length (mem s)) false)). split; [apply canvas_lookup|]. split; [apply canvas_wf; exact HD|].
  apply (mval_blk _ (mem s) D []); [|exact HD]. cbn [canvas mem]. rewrite app_nil_r. reflexivity.
Qed.
Lemma canvas_other D p u : holds s p u -> holds (canvas D) p u.
Proof using Type.
  intros (n & Hn & Hwf & Hv). exists n. cbn [canvas mem tens]. split; [apply lookup_app_l_Some; exact Hn|]. split.
  - eapply wf_mat_mono; [exact Hwf|]. rewrite app_length. lia.
  - rewrite <- Hv. unfold mval. replace (rds (mem s ++ D) (operands (nmat n))) with (rds (mem s) (operands (nmat n))); [reflexivity|].
    apply rds_ext. intros l Hl. destruct Hwf as (_ & _ & _ & W). rewrite Forall_forall in W. destruct (W _ Hl) as (l' & [= <-] & Hlt).
    rewrite lookup_app_l by exact Hlt. reflexivity.
Qed.
Lemma canvas_set D x idx k : length D = size -> flat sh idx = Some k ->
  Set_ new x idx (canvas D) = (Ok tt, canvas (<[N.to_nat k := x]> D)).
Proof using Hf.
  intros HD Hk. pose proof (flat_lt _ _ _ Hk) as Hlt. unfold Set_. erewrite mbnd_ok by (eapply get_mat_ok; apply canvas_lookup). cbn [nmat].
  assert (Ha : at_ (shape (blkm sh (length (mem s)) false)) (operands (blkm sh (length (mem s)) false)) idx = Some (Some (length (mem s) + N.to_nat k))).
  { cbn [blkm shape operands]. unfold at_. rewrite Hk, list_lookup_fmap. rewrite lookup_seq_lt by lia. reflexivity. }
  erewrite mbnd_ok by (unfold mlift; rewrite (GetOperand_at _ _ _ _ (canvas_wf D HD) Ha); reflexivity).
  unfold wrM. rewrite wr_Some by (cbn [canvas mem]; rewrite app_length; lia). cbn [canvas mem tens ctx]. unfold canvas.
  rewrite insert_app_r. reflexivity.
Qed.
Lemma canvas_set_out D x idx : length D = size -> length idx = length sh -> flat sh idx = None ->
  ignore_err (Set_ new x idx) (canvas D) = (Ok tt, canvas D).
Proof using Hf.
  intros HD Hl Hn. destruct (Set_out (canvas D) new (V sh D) x idx) as (e & E); [apply canvas_holds; exact HD|exact Hl| |].
  - cbn [vsh]. intros Hr. apply flat_in_range in Hr as [k Hk]. congruence.
  - unfold ignore_err. rewrite E. reflexivity.
Qed.
Definition dim (idx : list N) : Prop := length idx = length sh.
(** Writing [f] at the positions [l], in any order. *)
Definition painted (f : list N -> T) (l : list (list N)) (D : list T) : Prop :=
  length D = size /\ forall idx, Forall2 (fun i n => (i < n)%N) idx sh ->
    (idx ∈ l -> at_ sh D idx = Some (f idx)) /\ (idx ∉ l -> at_ sh D idx = Some nzero).
Lemma painted_nil f : painted f [] (zeros size).
Proof using Type.
  split; [apply zeros_length|]. intros idx Hr. split; [intros Hx; inversion Hx|]. intros _. apply flat_in_range in Hr as [k Hk]. unfold at_. rewrite Hk.
  unfold zeros. apply lookup_replicate_2. apply flat_lt in Hk. lia.
Qed.
Lemma painted_step f l idx D : painted f l D -> length idx = length sh ->
  exists D', ignore_err (Set_ new (f idx) idx) (canvas D) = (Ok tt, canvas D') /\ painted f (l ++ [idx]) D'.
Proof using Hf.
  intros (HD & HP) Hl. destruct (flat sh idx) as [k|] eqn:Hk.
  - exists (<[N.to_nat k := f idx]> D). split; [unfold ignore_err; rewrite (canvas_set D (f idx) idx k HD Hk); reflexivity|].
    split; [rewrite insert_length; exact HD|]. intros j Hj. destruct (HP j Hj) as (H1 & H2).
    pose proof (flat_in_range sh j) as Hjj. destruct (proj2 Hjj Hj) as [kj Hkj]. unfold at_ in *. rewrite Hkj in *. destruct (decide (j = idx)) as [->|Hne].
    + assert (kj = k) by congruence. subst kj. split; [|intros Hn; exfalso; apply Hn, elem_of_app; right; left].
      intros _. apply list_lookup_insert. apply flat_lt in Hk. lia.
    + rewrite list_lookup_insert_ne; [|intros E; apply Hne; eapply flat_inj; [exact Hkj|]; rewrite Hk; f_equal; lia].
      split; [intros Hx; apply H1|intros Hx; apply H2; intros Hy; apply Hx, elem_of_app; left; exact Hy].
      apply elem_of_app in Hx as [Hx|Hx]; [exact Hx|]. apply elem_of_list_singleton in Hx. contradiction.
  - exists D. split; [apply canvas_set_out; assumption|]. split; [exact HD|]. intros j Hj. destruct (HP j Hj) as (H1 & H2).
    assert (Hne : j <> idx). { intros ->. destruct (proj2 (flat_in_range sh idx) Hj) as [k Hk']. congruence. }
    split; [intros Hx; apply H1|intros Hx; apply H2; intros Hy; apply Hx, elem_of_app; left; exact Hy].
    apply elem_of_app in Hx as [Hx|Hx]; [exact Hx|]. apply elem_of_list_singleton in Hx. contradiction.
Qed.
Lemma paint f l (body : list N -> TM T unit) :
  (forall idx D, idx ∈ l -> length D = size -> length idx = length sh /\ body idx (canvas D) = ignore_err (Set_ new (f idx) idx) (canvas D)) ->
  exists D, mfor l body (canvas (zeros size)) = (Ok tt, canvas D) /\ painted f l D.
Proof using Hf.
  intros Hb. destruct (mfor_inv (fun pre s' => exists D, s' = canvas D /\ painted f pre D) body l (canvas (zeros size))) as (s' & E & D & -> & HP).
  - exists (zeros size). split; [reflexivity|apply painted_nil].
  - intros pre idx post s1 El (D & -> & HP). destruct (Hb idx D) as (Hl & E); [rewrite El; apply elem_of_app; right; left|apply HP|].
    rewrite E. destruct (painted_step f pre idx D HP Hl) as (D' & E' & HP'). exists (canvas D'). split; [exact E'|]. eauto.
  - eauto.
Qed.
(** A loop one of whose steps fails. *)
Lemma paint_fails f l (body : list N -> TM T unit) bad : bad ∈ l ->
  (forall idx D, idx ∈ l -> length D = size -> length idx = length sh /\
     (body idx (canvas D) = ignore_err (Set_ new (f idx) idx) (canvas D) \/ exists e, body idx (canvas D) = (Err e, canvas D))) ->
  (forall D, length D = size -> exists e, body bad (canvas D) = (Err e, canvas D)) ->
  exists e s', mfor l body (canvas (zeros size)) = (Err e, s').
Proof using Hf.
  intros Hbad Hb Hbb. assert (G : forall post D, post ⊆ l -> bad ∈ post -> length D = size -> exists e s', mfor post body (canvas D) = (Err e, s')).
  { induction post as [|idx post IH]; intros D Hsub Hin HD; [inversion Hin|]. cbn [mfor].
    destruct (Hb idx D) as (Hl & [E|(e & E)]); [apply Hsub; left|exact HD| |].
    - destruct (decide (idx = bad)) as [->|Hne].
      + destruct (Hbb D HD) as (e & E'). exists e, (canvas D). unfold mbnd. rewrite E'. reflexivity.
      + assert (exists D', length D' = size /\ body idx (canvas D) = (Ok tt, canvas D')) as (D' & HD' & E').
        { rewrite E. destruct (flat sh idx) as [k|] eqn:Hk.
          - exists (<[N.to_nat k := f idx]> D). split; [rewrite insert_length; exact HD|]. unfold ignore_err. rewrite (canvas_set D (f idx) idx k HD Hk). reflexivity.
          - exists D. split; [exact HD|]. apply canvas_set_out; assumption. }
        destruct (IH D') as (e & s' & E2); [intros z Hz; apply Hsub; right; exact Hz|inversion Hin; [congruence|assumption]|exact HD'|].
        exists e, s'. erewrite mbnd_ok by exact E'. exact E2.
    - exists e, (canvas D). unfold mbnd. rewrite E. reflexivity. }
  apply (G l); [reflexivity|exact Hbad|apply zeros_length].
Qed.
Lemma canvas_returns D r : length D = size -> r = (Ok new, canvas D) -> returns_new s r (V sh D).
Proof using Hf.
  intros HD ->. exists (canvas D), D, (map Some (seq (length (mem s)) size)). split; [reflexivity|]. split; [reflexivity|]. split; [reflexivity|].
  split; [reflexivity|]. split; [apply canvas_holds; exact HD|]. split.
  - apply NoDup_fmap_2; [intros a b [=]; assumption|apply NoDup_seq].
  - apply Forall_forall. intros p Hp. apply elem_of_list_fmap in Hp as (l & -> & Hl). apply elem_of_seq in Hl. exists l. split; [reflexivity|lia].
Qed.
End Fill.

(** ** The loops *)
Definition order (c w h : N) : list (list N) :=
  flat_map (fun x => flat_map (fun y => map (fun d => [d; x; y]) (upto c)) (upto h)) (upto w).
Lemma elem_of_order c w h idx : idx ∈ order c w h <-> exists d x y, idx = [d; x; y] /\ (d < c)%N /\ (x < w)%N /\ (y < h)%N.
Proof using Type.
  unfold order. rewrite elem_of_list_In, in_flat_map. split.
  - intros (x & Hx & Hi). apply in_flat_map in Hi as (y & Hy & Hi). apply in_map_iff in Hi as (d & <- & Hd).
    apply elem_of_list_In, elem_of_upto in Hx, Hy, Hd. exists d, x, y. auto.
  - intros (d & x & y & -> & Hd & Hx & Hy). exists x. split; [apply elem_of_list_In, elem_of_upto; exact Hx|]. apply in_flat_map. exists y.
    split; [apply elem_of_list_In, elem_of_upto; exact Hy|]. apply in_map_iff. exists d. split; [reflexivity|]. apply elem_of_list_In, elem_of_upto; exact Hd.
Qed.
Lemma loops c w h (body : N -> N -> N -> TM T unit) (s : tst T) :
  mfor (urange w) (fun x => mfor (urange h) (fun y => mfor (urange c) (fun d => body d x y))) s =
  mfor (order c w h) (fun idx => body (nth 0 idx 0%N) (nth 1 idx 0%N) (nth 2 idx 0%N)) s.
Proof using Type.
  unfold order. rewrite mfor_flat_map. apply mfor_ext. intros x s1 _. rewrite mfor_flat_map. apply mfor_ext. intros y s2 _.
  rewrite mfor_map. reflexivity.
Qed.
Lemma range3 (a b c d e f : N) : (a < d)%N -> (b < e)%N -> (c < f)%N -> Forall2 (fun i n => (i < n)%N) [a; b; c] [d; e; f].
Proof using Type. intros. repeat constructor; assumption. Qed.
Lemma unrange3 (a b c d e f : N) : Forall2 (fun i n => (i < n)%N) [a; b; c] [d; e; f] -> (a < d)%N /\ (b < e)%N /\ (c < f)%N.
Proof using Type. intros Hr. inversion Hr as [|? ? ? ? H1 Hr1]; subst. inversion Hr1 as [|? ? ? ? H2 Hr2]; subst. inversion Hr2; subst. auto. Qed.

Section Scale.
Context (odd : Bits.binary64 -> N) (s : tst T) (img : nat) (u : vten T) (c W H' w h : N).
Context (Himg : holds s img u) (Hsh : vsh u = [c; W; H']).
Notation look d X Y := (at_ (vsh u) (vdata u) [d; X; Y]).
Definition ink (d x y : N) : T := default nzero (look d (pick odd W w x) (pick odd H' h y)).
Lemma shape_img : exists n, tens s !! img = Some n /\ shape (nmat n) = [c; W; H'].
Proof using Himg Hsh.
  destruct (holds_exists _ _ _ Himg) as [n Hn]. exists n. split; [exact Hn|]. destruct (holds_data _ _ _ _ Himg Hn) as (E & _). congruence.
Qed.
Lemma get_px (sh : list N) D d X Y : (d < c)%N -> (X < W)%N -> (Y < H')%N ->
  exists v, look d X Y = Some v /\ Get img [d; X; Y] (canvas s sh D) = (Ok v, canvas s sh D).
Proof using Himg Hsh.
  intros Hd HX HY. apply Get_in_range; [apply canvas_other; exact Himg|]. rewrite Hsh. apply range3; assumption.
Qed.
Lemma no_px (sh : list N) D d X Y : ~ ((X < W)%N /\ (Y < H')%N) ->
  exists e, Get img [d; X; Y] (canvas s sh D) = (Err e, canvas s sh D).
Proof using Himg Hsh.
  intros Hn. apply (Get_out _ _ u); [apply canvas_other; exact Himg|rewrite Hsh; reflexivity|]. rewrite Hsh. intros Hr. apply unrange3 in Hr. tauto.
Qed.
Lemma SimpleScale_picks : fits [c; w; h] -> (forall x, (x < w)%N -> (pick odd W w x < W)%N) -> (forall y, (y < h)%N -> (pick odd H' h y < H')%N) ->
  exists v, returns_new s (SimpleScale odd img w h s) v /\ vsh v = [c; w; h] /\
    forall d x y, (d < c)%N -> (x < w)%N -> (y < h)%N -> at_ (vsh v) (vdata v) [d; x; y] = look d (pick odd W w x) (pick odd H' h y).
Proof using Himg Hsh.
  intros Hf Hx Hy. destruct shape_img as (n & Hn & En).
  destruct (paint s [c; w; h] Hf (fun idx => ink (nth 0 idx 0%N) (nth 1 idx 0%N) (nth 2 idx 0%N)) (order c w h)
    (fun idx => v <~ Get img [nth 0 idx 0%N; pick odd W w (nth 1 idx 0%N); pick odd H' h (nth 2 idx 0%N)] ; ignore_err (Set_ (length (tens s)) v [nth 0 idx 0%N; nth 1 idx 0%N; nth 2 idx 0%N]))) as (D & E & HD & HP).
  { intros idx D Hi HD. apply elem_of_order in Hi as (d & x & y & -> & Ld & Lx & Ly). split; [reflexivity|]. cbn [nth].
    destruct (get_px [c; w; h] D d (pick odd W w x) (pick odd H' h y)) as (v & Ev & Eg); auto. erewrite mbnd_ok by exact Eg. unfold ink. rewrite Ev. reflexivity. }
  exists (V [c; w; h] D). split; [|split; [reflexivity|]].
  - apply canvas_returns; [exact Hf|exact HD|]. unfold SimpleScale. erewrite mbnd_ok by (eapply get_mat_ok; exact Hn). rewrite En.
    erewrite mbnd_ok by (apply canvas_new; exact Hf). erewrite mbnd_ok; [reflexivity|]. etransitivity; [apply (loops c w h (fun d x y => v <~ Get img [d; pick odd W w x; pick odd H' h y] ; ignore_err (Set_ (length (tens s)) v [d; x; y])))|]. exact E.
  - intros d x y Ld Lx Ly. cbn [vsh vdata]. destruct (HP [d; x; y]) as (H1 & _); [apply range3; assumption|]. rewrite H1.
    + cbn [nth]. unfold ink. destruct (get_px [c; w; h] D d (pick odd W w x) (pick odd H' h y)) as (v & Ev & _); auto. rewrite Ev. reflexivity.
    + apply elem_of_order. exists d, x, y. auto.
Qed.

Context (to64 : T -> Bits.binary64) (of64 : Bits.binary64 -> T).
Notation body t := (fun d x y : N => p1 <~ Get img [d; pick odd W w x; pick odd H' h y] ; p2 <~ Get img [d; uadd (pick odd W w x) 1; pick odd H' h y] ;
  p3 <~ Get img [d; pick odd W w x; uadd (pick odd H' h y) 1] ; p4 <~ Get img [d; uadd (pick odd W w x) 1; uadd (pick odd H' h y) 1] ;
  ignore_err (Set_ t (blend to64 of64 (frac odd W w x) (frac odd H' h y) p1 p2 p3 p4) [d; x; y])).
Definition px (d X Y : N) : T := default nzero (look d X Y).
Definition mix (d x y : N) : T := let X := pick odd W w x in let Y := pick odd H' h y in
  blend to64 of64 (frac odd W w x) (frac odd H' h y) (px d X Y) (px d (X + 1)%N Y) (px d X (Y + 1)%N) (px d (X + 1)%N (Y + 1)%N).
Context (LW : (W < W64)%N) (LH : (H' < W64)%N).
Lemma step_in D d x y : (d < c)%N -> (pick odd W w x + 1 < W)%N -> (pick odd H' h y + 1 < H')%N ->
  body (length (tens s)) d x y (canvas s [4; w; h]%N D) = ignore_err (Set_ (length (tens s)) (mix d x y) [d; x; y]) (canvas s [4; w; h]%N D).
Proof using Himg Hsh LW LH.
  intros Ld LX LY. unfold mix, px. cbv zeta. set (X := pick odd W w x) in *. set (Y := pick odd H' h y) in *.
  assert (EX : uadd X 1 = (X + 1)%N) by (apply N.mod_small; lia). assert (EY : uadd Y 1 = (Y + 1)%N) by (apply N.mod_small; lia). rewrite EX, EY.
  destruct (get_px [4; w; h]%N D d X Y) as (v1 & E1 & G1); [lia..|]. destruct (get_px [4; w; h]%N D d (X + 1)%N Y) as (v2 & E2 & G2); [lia..|].
  destruct (get_px [4; w; h]%N D d X (Y + 1)%N) as (v3 & E3 & G3); [lia..|]. destruct (get_px [4; w; h]%N D d (X + 1)%N (Y + 1)%N) as (v4 & E4 & G4); [lia..|].
  rewrite (mbnd_ok _ _ _ _ _ G1), (mbnd_ok _ _ _ _ _ G2), (mbnd_ok _ _ _ _ _ G3), (mbnd_ok _ _ _ _ _ G4). rewrite E1, E2, E3, E4. reflexivity.
Qed.
Lemma step_out D d x y : (d < c)%N -> (pick odd W w x < W)%N -> (pick odd H' h y < H')%N -> ~ ((pick odd W w x + 1 < W)%N /\ (pick odd H' h y + 1 < H')%N) ->
  exists e, body (length (tens s)) d x y (canvas s [4; w; h]%N D) = (Err e, canvas s [4; w; h]%N D).
Proof using Himg Hsh LW LH.
  intros Ld LX LY Hn. cbv beta. set (X := pick odd W w x) in *. set (Y := pick odd H' h y) in *.
  assert (EX : uadd X 1 = ((X + 1) mod W64)%N) by reflexivity. assert (EY : uadd Y 1 = ((Y + 1) mod W64)%N) by reflexivity.
  rewrite N.mod_small in EX by lia. rewrite N.mod_small in EY by lia. rewrite EX, EY.
  destruct (get_px [4; w; h]%N D d X Y) as (v1 & E1 & G1); [lia..|]. rewrite (mbnd_ok _ _ _ _ _ G1).
  destruct (decide (X + 1 < W)%N) as [L1|L1].
  - destruct (get_px [4; w; h]%N D d (X + 1)%N Y) as (v2 & E2 & G2); [lia..|]. rewrite (mbnd_ok _ _ _ _ _ G2).
    destruct (no_px [4; w; h]%N D d X (Y + 1)%N) as (e & G); [lia|]. exists e. unfold mbnd at 1. rewrite G. reflexivity.
  - destruct (no_px [4; w; h]%N D d (X + 1)%N Y) as (e & G); [lia|]. exists e. unfold mbnd at 1. rewrite G. reflexivity.
Qed.
Lemma SmoothScale_picks : fits [4; w; h]%N -> (forall x, (x < w)%N -> (pick odd W w x + 1 < W)%N) -> (forall y, (y < h)%N -> (pick odd H' h y + 1 < H')%N) ->
  exists v, returns_new s (SmoothScale odd to64 of64 img w h s) v /\ vsh v = [4; w; h]%N /\
    forall d x y, (d < 4)%N -> (x < w)%N -> (y < h)%N -> at_ (vsh v) (vdata v) [d; x; y] = Some (if (d <? c)%N then mix d x y else nzero).
Proof using Himg Hsh LW LH.
  intros Hf Hx Hy. destruct shape_img as (n & Hn & En).
  destruct (paint s [4; w; h]%N Hf (fun idx => mix (nth 0 idx 0%N) (nth 1 idx 0%N) (nth 2 idx 0%N)) (order c w h)
    (fun idx => body (length (tens s)) (nth 0 idx 0%N) (nth 1 idx 0%N) (nth 2 idx 0%N))) as (D & E & HD & HP).
  { intros idx D Hi HD. apply elem_of_order in Hi as (d & x & y & -> & Ld & Lx & Ly). split; [reflexivity|]. cbn [nth]. apply step_in; auto. }
  exists (V [4; w; h]%N D). split; [|split; [reflexivity|]].
  - apply canvas_returns; [exact Hf|exact HD|]. unfold SmoothScale. erewrite mbnd_ok by (eapply get_mat_ok; exact Hn). rewrite En.
    erewrite mbnd_ok by (apply canvas_new; exact Hf). erewrite mbnd_ok; [reflexivity|]. etransitivity; [apply (loops c w h (body (length (tens s))))|]. exact E.
  - intros d x y Ld Lx Ly. cbn [vsh vdata]. destruct (HP [d; x; y]) as (H1 & H2); [apply range3; assumption|]. destruct (N.ltb_spec d c) as [Lc|Lc].
    + rewrite H1; [reflexivity|]. apply elem_of_order. exists d, x, y. auto.
    + rewrite H2; [reflexivity|]. intros Hi. apply elem_of_order in Hi as (? & ? & ? & [= <- <- <-] & ? & _). lia.
Qed.
Lemma SmoothScale_fails x0 y0 : fits [4; w; h]%N -> (0 < c)%N -> (x0 < w)%N -> (y0 < h)%N ->
  (forall x, (x < w)%N -> (pick odd W w x < W)%N) -> (forall y, (y < h)%N -> (pick odd H' h y < H')%N) ->
  ~ ((pick odd W w x0 + 1 < W)%N /\ (pick odd H' h y0 + 1 < H')%N) ->
  exists e s', SmoothScale odd to64 of64 img w h s = (Err e, s').
Proof using Himg Hsh LW LH.
  intros Hf Lc Lx0 Ly0 Hx Hy Hbad. destruct shape_img as (n & Hn & En).
  destruct (paint_fails s [4; w; h]%N Hf (fun idx => mix (nth 0 idx 0%N) (nth 1 idx 0%N) (nth 2 idx 0%N)) (order c w h)
    (fun idx => body (length (tens s)) (nth 0 idx 0%N) (nth 1 idx 0%N) (nth 2 idx 0%N)) [0%N; x0; y0]) as (e & s' & E).
  - apply elem_of_order. exists 0%N, x0, y0. auto.
  - intros idx D Hi HD. apply elem_of_order in Hi as (d & x & y & -> & Ld & Lx & Ly). split; [reflexivity|]. cbn [nth].
    destruct (decide ((pick odd W w x + 1 < W)%N /\ (pick odd H' h y + 1 < H')%N)) as [(A & B)|Hd]; [left; apply step_in; assumption|right; apply step_out; auto].
  - intros D HD. cbn [nth]. apply step_out; auto.
  - exists e, s'. unfold SmoothScale. erewrite mbnd_ok by (eapply get_mat_ok; exact Hn). rewrite En.
    erewrite mbnd_ok by (apply canvas_new; exact Hf). unfold mbnd at 1. rewrite (loops c w h (body (length (tens s)))), E. reflexivity.
Qed.
End Scale.
End Img.
