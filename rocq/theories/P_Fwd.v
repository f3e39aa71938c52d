(** * P_Fwd: theorems about networks of any layers (claims C44-C46, C63-C66) *)
From Verif Require Import Base Num ModelTools ModelOps ModelTensor ModelGraph ModelLayer ModelModel Spec NetSpec FwdSpec FwdScript
  FwdCount FwdChain FwdHist FwdTotal FwdMain FwdClaims NumIntS.

Section P.
Context {T : Type} `{Num T}.
Context (rnd : nat -> nat -> T) (s : lst T).

(** ** Whole networks
    [ms]: the layers the program makes, in order. [e]: the network between the
    layers [inp] and [out]; it may share layers, join them and have inputs the
    program never sets. [par]: bias and weights. *)
Theorem C63_network ms inp out e ish sh : is_net ms inp out e ish sh -> counts_up (T:=T) (2 * (length (lays s) + length ms) + 1) ->
  exists par, all_drawn rnd (in_shape ms) e par /\
    (forall acts st os, fhistory ish (answer ms inp e par) [] acts st os ->
       exists s' m tids, fprogram rnd (build_net ms inp out) acts s = (Ok (seq (length (lays s)) (length ms), (m, tids, os)), s') /\
         (forall k, k ∈ pars e -> net_par s' (mem (ts s')) (length (lays s) + k) = par k)) /\
    (forall acts st os i x rest, fhistory ish (answer ms inp e par) [] acts st os -> st !! i = Some x -> vsh x = ish -> answer ms inp e par x = None ->
       exists s', fprogram rnd (build_net ms inp out) (acts ++ FPredict i :: rest) s = (Panic, s')).
Proof. exact (network_claim rnd s ms inp out e ish sh). Qed.

Theorem C64_safe ms inp out e ish sh acts : is_net ms inp out e ish sh -> counts_up (T:=T) (2 * (length (lays s) + length ms) + 1) ->
  net_runs (in_shape ms) e -> acts_ok ish sh [] acts ->
  exists par s' m tids st os, all_drawn rnd (in_shape ms) e par /\ fhistory ish (answer ms inp e par) [] acts st os /\
    fprogram rnd (build_net ms inp out) acts s = (Ok (seq (length (lays s)) (length ms), (m, tids, os)), s').
Proof. exact (fun HN HC => safe_claim rnd s ms inp out e ish sh HN HC acts). Qed.

(** Pushing layers into a model and connecting them by hand is the same. *)
Theorem C65_pushed m0 ks acts : fprogram rnd (build_seq m0 ks) acts s = fprogram rnd (build_net (seq_mks m0 ks) 0 (length ks)) acts s.
Proof. exact (fprogram_ext rnd _ _ acts s (build_seq_eq m0 ks s)). Qed.

(** ** MaxPool2D *)
Theorem C44_pool_partial sx sy c w h :
  fits [c; w; h] -> fits [c; (w + 1) / sx; (h + 1) / sy]%N -> (2 <= sx < W64)%N -> (2 <= sy < W64)%N -> (w + 1 < W64)%N -> (h + 1 < W64)%N ->
  counts_up (T:=T) (2 * (length (lays s) + 2) + 1) ->
  forall vs, length vs = N.to_nat (prodN [c; w; h]) -> exists y r s',
    one_program rnd (KPool sx sy) [c; w; h] vs s = (Ok r, s') /\ snd (snd r) = [Some []; Some []; Some (vdata y)] /\
    shaped [c; (w + 1) / sx; (h + 1) / sy]%N y /\
    forall f X Y, (f < c)%N -> (X < (w + 1) / sx)%N -> (Y < (h + 1) / sy)%N ->
      exists cells m, cells <> [] /\ mapM (fun p => at_ [c; w; h] vs [f; fst p; snd p]) (window sx sy w h X Y) = Some cells /\
        at_ (vsh y) (vdata y) [f; X; Y] = Some m /\ reduce RedMax cells = Some m.
Proof. exact (pool_claim rnd s sx sy c w h). Qed.
Theorem C44_maximum (l : list T) m : (forall a b : T, nltb a b = true -> nltb b a = false) ->
  (forall a b c : T, nltb a b = false -> nltb b c = false -> nltb a c = false) ->
  reduce RedMax l = Some m -> m ∈ l /\ forall x, x ∈ l -> nltb m x = false.
Proof. exact (redmax_spec l m). Qed.
Theorem C44_stride_one sx sy c w h :
  fits [c; w; h] -> fits [c; (w + 1) / sx; (h + 1) / sy]%N -> (0 < sx < W64)%N -> (0 < sy < W64)%N -> (w + 1 < W64)%N -> (h + 1 < W64)%N ->
  counts_up (T:=T) (2 * (length (lays s) + 2) + 1) ->
  (0 < c)%N -> (0 < (w + 1) / sx)%N -> (0 < (h + 1) / sy)%N -> sx = 1%N \/ sy = 1%N ->
  forall vs, length vs = N.to_nat (prodN [c; w; h]) -> exists s', one_program rnd (KPool sx sy) [c; w; h] vs s = (Panic, s').
Proof. exact (pool_one_claim rnd s sx sy c w h). Qed.

(** ** UpSampling2D *)
Theorem C45_up_partial k c w h :
  fits [c; w; h] -> fits [c; w * k; h * k]%N -> counts_up (T:=T) (2 * (length (lays s) + 2) + 1) ->
  forall vs, length vs = N.to_nat (prodN [c; w; h]) -> exists y r s',
    one_program rnd (KUp k) [c; w; h] vs s = (Ok r, s') /\ snd (snd r) = [Some []; Some []; Some (vdata y)] /\
    shaped [c; w * k; h * k]%N y /\
    forall f X Y, (f < c)%N -> (X < w * k)%N -> (Y < h * k)%N ->
      exists v, at_ (vsh y) (vdata y) [f; X; Y] = Some v /\ at_ [c; w; h] vs [f; X / k; Y / k]%N = Some v.
Proof. exact (up_claim rnd s k c w h). Qed.

(** ** Conv2D and Deconv2D *)
Theorem C46_conv nf kw kh sx sy (a : activation T) c w h :
  fits [c; w; h] -> fits (conv_shape nf kw kh sx sy w h) -> fits [nf; c; kw; kh] -> (0 < c)%N -> (0 < kw <= w)%N -> (0 < kh <= h)%N -> (0 < sx)%N -> (0 < sy)%N ->
  counts_up (T:=T) (2 * (length (lays s) + 2) + 1) ->
  (forall X Y, (X < (w - kw) / sx + 1 <-> X * sx + kw <= w)%N /\ (Y < (h - kh) / sy + 1 <-> Y * sy + kh <= h)%N) /\
  exists b wt, drawn rnd (conv_shape nf kw kh sx sy w h) b /\ drawn rnd [nf; c; kw; kh] wt /\
    forall vs, length vs = N.to_nat (prodN [c; w; h]) -> exists y r s',
      one_program rnd (KConv nf kw kh sx sy a) [c; w; h] vs s = (Ok r, s') /\ snd (snd r) = [Some []; Some []; Some (vdata y)] /\
      shaped (conv_shape nf kw kh sx sy w h) y /\
      forall F X Y, (F < nf)%N -> (X * sx + kw <= w)%N -> (Y * sy + kh <= h)%N ->
        exists bv terms sum, at_ (vsh b) (vdata b) [F; X; Y] = Some bv /\
          mapM (fun k => match k with
                         | [ch; i; j] => u ← at_ [c; w; h] vs [ch; X * sx + i; Y * sy + j]%N; p ← at_ [nf; c; kw; kh] (vdata wt) [F; ch; i; j]; Some (nmul u p)
                         | _ => None end) (indices [c; kw; kh]) = Some terms /\
          fold1 nadd terms = Some sum /\ at_ (vsh y) (vdata y) [F; X; Y] = Some (act_f a (nadd bv sum)).
Proof. exact (conv_claim rnd s nf kw kh sx sy a c w h). Qed.
Theorem C66_deconv nf kw kh sx sy (a : activation T) c w h :
  fits [c; w; h] -> fits (deconv_shape nf kw kh sx sy w h) -> fits [nf; c; kw; kh] -> (0 < w)%N -> (0 < h)%N ->
  counts_up (T:=T) (2 * (length (lays s) + 2) + 1) ->
  exists b wt, drawn rnd (deconv_shape nf kw kh sx sy w h) b /\ drawn rnd [nf; c; kw; kh] wt /\
    forall vs, length vs = N.to_nat (prodN [c; w; h]) -> exists y r s',
      one_program rnd (KDeconv nf kw kh sx sy a) [c; w; h] vs s = (Ok r, s') /\ snd (snd r) = [Some []; Some []; Some (vdata y)] /\
      shaped (deconv_shape nf kw kh sx sy w h) y /\
      forall F X Y, (F < nf)%N -> (X < (w - 1) * sx + kw)%N -> (Y < (h - 1) * sy + kh)%N ->
        exists bv terms, at_ (vsh b) (vdata b) [F; X; Y] = Some bv /\
          mapM (fun k => match k with
                         | [ch; i; j; u; v] => q ← at_ [c; w; h] vs [ch; i; j]; p ← at_ [nf; c; kw; kh] (vdata wt) [F; ch; u; v]; Some (nmul q p)
                         | _ => None end)
               (List.filter (fun k => match k with [ch; i; j; u; v] => (i * sx + u =? X) && (j * sy + v =? Y) | _ => false end)%N (indices [c; w; h; kw; kh])) = Some terms /\
          at_ (vsh y) (vdata y) [F; X; Y] = Some (act_f a (fold_left nadd terms bv)).
Proof. exact (deconv_claim rnd s nf kw kh sx sy a c w h). Qed.
End P.
(** The windows of stride 2 cover the image; no cell lies in two windows. *)
Theorem C44_cover w h x y : (x < w)%N -> (y < h)%N -> exists X Y, (X < (w + 1) / 2)%N /\ (Y < (h + 1) / 2)%N /\ (x, y) ∈ window 2 2 w h X Y.
Proof. exact (window_cover w h x y). Qed.
Theorem C44_once sx sy w h X Y X' Y' x y : (x, y) ∈ window sx sy w h X Y -> (x, y) ∈ window sx sy w h X' Y' -> X = X' /\ Y = Y'.
Proof. exact (window_once sx sy w h X Y X' Y' x y). Qed.
Print Assumptions C63_network.
Print Assumptions C64_safe.
Print Assumptions C65_pushed.
Print Assumptions C44_pool_partial.
Print Assumptions C44_maximum.
Print Assumptions C44_stride_one.
Print Assumptions C44_cover.
Print Assumptions C44_once.
Print Assumptions C45_up_partial.
Print Assumptions C46_conv.
Print Assumptions C66_deconv.

(** ** Concrete cases: 32-bit integers, identity activation *)
Section Cases.
#[local] Existing Instance NumS32.
Definition fi (x : Z) : intw 32 := mk 32 eq_refl x.
Definition fact1 : activation (intw 32) := MkAct (fun x => x) (fun _ => fi 1).
Definition frnd (c k : nat) : intw 32 := fi (Z.of_nat (c + k + 1)).
Definition fs0 : lst (intw 32) := MkL (MkSt [] [] []) [] 0.
(** what a program shows; [None] for a panic *)
Definition fshow {A B} (r : res (A * (B * list (option (list (intw 32))))) * lst (intw 32)) : option (list (option (list Z))) :=
  match fst r with Ok r => Some (map (option_map (map ival)) (snd (snd r))) | _ => None end.
Example C63_counts : counts_up (T:=intw 32) 21.
Proof.
  split; [|exists (fi 0), (fi 1); discriminate]. intros k Hk. do 22 (destruct k as [|k]; [lia || reflexivity|]). lia.
Qed.
(** An image that goes through a convolution, which is used twice: pooled and
    flattened, and flattened; the two are joined with an input that stays zero. *)
Definition fnet : list (FwdScript.mk (intw 32)) :=
  [MInput [1; 3; 3]%N; MOn (KConv 2 2 2 1 1 fact1) 0; MOn (KPool 2 2) 1; MOn KFlat 2; MOn KFlat 1; MCat 3 4 0; MInput [2]%N; MCat 5 6 0; MOn (KDense 2 fact1) 7].
Definition fnet_e : net (intw 32) :=
  let cv := NLay (SConv 2 2 2 1 1 (act_f fact1)) 1 (NIn 0) in
  NLay (SDense 2 (act_f fact1)) 8 (NCat 7 (NCat 5 (NLay SFlat 3 (NLay (SPool 2 2) 2 cv)) (NLay SFlat 4 cv) 0) (NIn 6) 0).
Example C63_is_net : is_net fnet 0 8 fnet_e [1; 3; 3]%N [2]%N.
Proof.
  split; [eexists; split; reflexivity|reflexivity|left|reflexivity|]. repeat constructor.
Qed.
Example C64_runs : net_runs (in_shape fnet) fnet_e.
Proof. repeat split; auto; intros sh; vm_compute; intros [= <-]; repeat split; discriminate. Qed.
Example C64_acts : acts_ok [1; 3; 3]%N [2]%N [] [FNew [1; 3; 3]%N (map fi [1; 2; 3; 4; 5; 6; 7; 8; 9]%Z); FPredict 0; FGet 1; FPredict 1; FPredict 0; FGet 2].
Proof. repeat split; cbn; try lia; repeat constructor. Qed.
Example C63_case : fshow (fprogram frnd (build_net fnet 0 8)
    [FNew [1; 3; 3]%N (map fi [1; 2; 3; 4; 5; 6; 7; 8; 9]%Z); FPredict 0; FGet 1; FPredict 1; FPredict 0; FGet 2] fs0) =
  Some [Some []; Some []; Some [11788; 27461]; None; Some []; Some [11788; 27461]]%Z.
Proof. vm_compute. reflexivity. Qed.
(** the same numbers from the description, with the parameters of requests 0 and 1
    (convolution) and 2 and 3 (dense layer) of the random source *)
Definition fdraw (c : nat) (sh : list N) : vten (intw 32) := V sh (map (frnd c) (seq 0 (N.to_nat (prodN sh)))).
Definition fpar (k : nat) : option (vten (intw 32) * vten (intw 32)) :=
  match k with 1 => Some (fdraw 0 [2; 2; 2]%N, fdraw 1 [2; 1; 2; 2]%N) | 8 => Some (fdraw 2 [2]%N, fdraw 3 [2; 12]%N) | _ => None end.
Example C63_spec : option_map (fun y => map ival (vdata y)) (answer fnet 0 fnet_e fpar (V [1; 3; 3]%N (map fi [1; 2; 3; 4; 5; 6; 7; 8; 9]%Z))) = Some [11788; 27461]%Z.
Proof. vm_compute. reflexivity. Qed.
(** Layers pushed one after the other. *)
Example C65_case : fshow (fprogram frnd (build_seq (MInput [1; 3; 3]%N) [KUp 2; KPool 3 3; KDeconv 1 2 2 2 2 fact1; KSub 1 0 2; KFlat])
    [FNew [1; 3; 3]%N (map fi [1; 2; 3; 4; 5; 6; 7; 8; 9]%Z); FPredict 0; FGet 1] fs0) = Some [Some []; Some []; Some [11; 17; 15; 22; 25; 31; 31; 38]]%Z.
Proof. vm_compute. reflexivity. Qed.

(** ** C44: stride 1 panics; stride 3 never looks at the last cell *)
Definition fimg (x : Z) : list (intw 32) := map fi [1; 2; 3; 4; 5; 6; 7; 8; 9; 10; 11; 12; 13; 14; 15; x]%Z.
Theorem C44_refuted :
  (exists ish vs, fst (one_program frnd (KPool 1 1) ish vs fs0) = Panic /\ length vs = N.to_nat (prodN ish) /\ lay_shape (T:=intw 32) (SPool 1 1) ish <> None) /\
  (exists ish vs1 vs2, vs1 <> vs2 /\ fshow (one_program frnd (KPool 3 3) ish vs1 fs0) = Some [Some []; Some []; Some [11]]%Z /\ fshow (one_program frnd (KPool 3 3) ish vs2 fs0) = Some [Some []; Some []; Some [11]]%Z /\
     ~ exists X Y, (X < (4 + 1) / 3)%N /\ (Y < (4 + 1) / 3)%N /\ (3, 3)%N ∈ window 3 3 4 4 X Y).
Proof.
  split.
  - exists [1; 2; 2]%N, (map fi [1; 2; 3; 4]%Z). split; [vm_compute; reflexivity|]. split; [reflexivity|]. discriminate.
  - exists [1; 4; 4]%N, (fimg 16), (fimg 99). split; [intros E; apply (f_equal (map ival)) in E; vm_compute in E; discriminate|]. split.
    + vm_compute. reflexivity.
    + split; [vm_compute; reflexivity|]. intros (X & Y & HX & HY & Hin). apply window_spec in Hin. cbn in HX, HY. lia.
Qed.
(** ** C45: the constructor with two factors makes a pooling layer *)
Definition up_xy (sx sy : N) (ish : list N) : LM (intw 32) (list nat * model (intw 32)) :=
  i <~ NewInput ish ; u <~ NewUpSampling2Dxy sx sy ; Connect u (Some i) ;~ mret ([i; u], FromInOut i u).
Theorem C45_refuted : exists ish vs, length vs = N.to_nat (prodN ish) /\
  fshow (fprogram frnd (up_xy 2 2 ish) [FNew ish vs; FPredict 0; FGet 1] fs0) = Some [Some []; Some []; Some [4]]%Z /\
  fshow (one_program frnd (KUp 2) ish vs fs0) = Some [Some []; Some []; Some [1; 1; 2; 2; 1; 1; 2; 2; 3; 3; 4; 4; 3; 3; 4; 4]]%Z.
Proof. exists [1; 2; 2]%N, (map fi [1; 2; 3; 4]%Z). vm_compute. auto. Qed.
Print Assumptions C44_refuted.
Print Assumptions C45_refuted.
(** C46: two filters of size 2 by 1 on a 3 by 2 image with strides 1 and 1. *)
Example C46_case : fshow (one_program frnd (KConv 2 2 1 1 1 fact1) [1; 3; 2]%N (map fi [1; 2; 3; 4; 5; 6]%Z) fs0) = Some [Some []; Some []; Some [12; 18; 24; 30; 24; 34; 44; 54]]%Z.
Proof. vm_compute. reflexivity. Qed.
Example C66_case : fshow (one_program frnd (KDeconv 1 2 1 1 2 fact1) [1; 2; 2]%N (map fi [1; 2; 3; 4]%Z) fs0) = Some [Some []; Some []; Some [3; 2; 7; 13; 5; 20; 16; 8; 21]]%Z.
Proof. vm_compute. reflexivity. Qed.
End Cases.
