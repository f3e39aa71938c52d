(** * P_Save2: theorems about networks on files (claims C40, C41, C67) *)
From Verif Require Import Base Num ModelTools ModelOps ModelTensor ModelGraph ModelLayer ModelModel ModelIO Spec NetSpec FwdSpec FwdScript
  FwdChain FwdHist FwdMain FwdClaims IOSpec ModelCodec IOCodec IONetSpec IONetMain NumIntS.
From Coq Require Import Init.Byte.

Section P.
Context {T : Type} `{Num T}.
Context (c : codec T) (Hc : codec_ok c).
(** [ms]: the layers the programs make. [e]: the network between the layers
    [inp] and [out], of any layers, shared and joined in any way. *)
Context (ms : list (FwdScript.mk T)) (inp out : nat) (e : net T) (ish sh : list N).
Hypothesis HN : is_net ms inp out e ish sh.

(** ** C40: a file brings the predictions of one network to another
    Two programs that make the same layers, with any random numbers. The first
    predicts and saves. The second predicts, loads the file and goes on: from then
    on it shows what the first network would show. *)
Theorem C40_round (rndA rndB : nat -> nat -> T) (sA sB : lst T) :
  counts_up (T:=T) (2 * (length (lays sA) + length ms) + 1) -> counts_up (T:=T) (2 * (length (lays sB) + length ms) + 1) ->
  exists parA parB file, all_drawn rndA (in_shape ms) e parA /\ all_drawn rndB (in_shape ms) e parB /\ file = dump c (content parA (file_layers e)) /\
    (forall acts st os, fhistory ish (answer ms inp e parA) [] acts st os -> exists s' m tids,
       iprogram rndA (Some c) (build_net ms inp out) (map IUse acts ++ [ISave None]) sA =
         (Ok (seq (length (lays sA)) (length ms), (m, tids, map OShow os ++ [OFile true file])), s')) /\
    (forall rest acts1 st1 os1 acts2 st2 os2, fhistory ish (answer ms inp e parB) [] acts1 st1 os1 -> fhistory ish (answer ms inp e parA) st1 acts2 st2 os2 -> exists s' m tids,
       iprogram rndB (Some c) (build_net ms inp out) (map IUse acts1 ++ ILoad (file ++ rest) :: map IUse acts2) sB =
         (Ok (seq (length (lays sB)) (length ms), (m, tids, map OShow os1 ++ OLeft true rest :: map OShow os2)), s') /\
       (forall k, k ∈ pars e -> net_par s' (mem (ts s')) (length (lays sB) + k) = parA k)).
Proof using Hc HN. exact (round_trip c Hc ms inp out e ish sh HN rndA rndB sA sB). Qed.
(** A complete file has every layer with a bias and weights once. *)
Theorem C40_layers : NoDup (file_layers e) /\ (forall k, k ∈ file_layers e <-> k ∈ pars e).
Proof using HN. exact (layers_claim ms inp out e ish sh HN). Qed.
(** Any sequence of predictions, saves into files that may fill up, loads of any
    bytes, and resets does what [ihistory] says. *)
Theorem C40_history (rnd : nat -> nat -> T) (s : lst T) : counts_up (T:=T) (2 * (length (lays s) + length ms) + 1) ->
  exists par, all_drawn rnd (in_shape ms) e par /\
    forall acts x os, ihistory c ms inp e ish (MkI par [] [] []) acts x os ->
      exists s' m tids, iprogram rnd (Some c) (build_net ms inp out) acts s = (Ok (seq (length (lays s)) (length ms), (m, tids, os)), s') /\
        (forall k, k ∈ pars e -> net_par s' (mem (ts s')) (length (lays s) + k) = i_par x k).
Proof using Hc HN. exact (io_claim c Hc ms inp out e ish sh HN rnd s). Qed.

(** ** C41: saving again
    The second save writes nothing; after ResetSave the third writes the layers
    between the output and the first join, which is everything in networks that
    join nothing. *)
Theorem C41_again_partial (rnd : nat -> nat -> T) (s : lst T) : counts_up (T:=T) (2 * (length (lays s) + length ms) + 1) ->
  exists par, all_drawn rnd (in_shape ms) e par /\
    forall acts st os, fhistory ish (answer ms inp e par) [] acts st os -> exists s' m tids,
      iprogram rnd (Some c) (build_net ms inp out) (map IUse acts ++ [ISave None; ISave None; IResetSave; ISave None]) s =
        (Ok (seq (length (lays s)) (length ms), (m, tids, map OShow os ++
           [OFile true (dump c (content par (file_layers e))); OFile true []; ODone; OFile true (dump c (content par (front e)))])), s').
Proof using Hc HN. exact (again_claim c Hc ms inp out e ish sh HN rnd s). Qed.
Theorem C41_chain : nocat e -> front e = file_layers e.
Proof using HN. exact (front_claim ms inp out e ish sh HN). Qed.

(** ** C67: trying again after a failure
    However a save or a load ended, the next one moves no byte and reports success. *)
Theorem C67_stuck (rnd : nat -> nat -> T) (s : lst T) : counts_up (T:=T) (2 * (length (lays s) + length ms) + 1) ->
  exists par, all_drawn rnd (in_shape ms) e par /\ forall acts st os, fhistory ish (answer ms inp e par) [] acts st os ->
    let file := dump c (content par (file_layers e)) in
    (forall room, exists s' m tids, iprogram rnd (Some c) (build_net ms inp out) (map IUse acts ++ [ISave room; ISave None]) s =
        (Ok (seq (length (lays s)) (length ms), (m, tids, map OShow os ++ [OFile (fits_room room (length file)) (cut room file); OFile true []])), s')) /\
    (forall r r2, exists s' m tids, iprogram rnd (Some c) (build_net ms inp out) (map IUse acts ++ [ILoad r; ILoad r2]) s =
        (Ok (seq (length (lays s)) (length ms), (m, tids, map OShow os ++ [OLeft (length file <=? length r) (drop (length file) r); OLeft true r2])), s') /\
        (forall k, k ∈ pars e -> net_par s' (mem (ts s')) (length (lays s) + k) = load_pars c r (file_layers e) par k)).
Proof using Hc HN. exact (stuck_claim c Hc ms inp out e ish sh HN rnd s). Qed.
(** After a reset it works, in networks that join nothing. *)
Theorem C67_retry_partial (rndA rndB : nat -> nat -> T) (sA sB : lst T) : nocat e ->
  counts_up (T:=T) (2 * (length (lays sA) + length ms) + 1) -> counts_up (T:=T) (2 * (length (lays sB) + length ms) + 1) ->
  exists parA parB file, all_drawn rndA (in_shape ms) e parA /\ all_drawn rndB (in_shape ms) e parB /\ file = dump c (content parA (file_layers e)) /\
    (forall acts st os room, fhistory ish (answer ms inp e parA) [] acts st os -> exists s' m tids,
       iprogram rndA (Some c) (build_net ms inp out) (map IUse acts ++ [ISave room; IResetSave; ISave None]) sA =
         (Ok (seq (length (lays sA)) (length ms), (m, tids, map OShow os ++ [OFile (fits_room room (length file)) (cut room file); ODone; OFile true file])), s')) /\
    (forall r rest acts1 st1 os1 acts2 st2 os2, fhistory ish (answer ms inp e parB) [] acts1 st1 os1 -> fhistory ish (answer ms inp e parA) st1 acts2 st2 os2 -> exists s' m tids,
       iprogram rndB (Some c) (build_net ms inp out) (map IUse acts1 ++ [ILoad r; IResetLoad; ILoad (file ++ rest)] ++ map IUse acts2) sB =
         (Ok (seq (length (lays sB)) (length ms), (m, tids, map OShow os1 ++ [OLeft (length file <=? length r) (drop (length file) r); ODone; OLeft true rest] ++ map OShow os2)), s') /\
       (forall k, k ∈ pars e -> net_par s' (mem (ts s')) (length (lays sB) + k) = parA k)).
Proof using Hc HN. exact (retry_claim c Hc ms inp out e ish sh HN rndA rndB sA sB). Qed.
End P.
Print Assumptions C40_round.
Print Assumptions C40_layers.
Print Assumptions C40_history.
Print Assumptions C41_again_partial.
Print Assumptions C41_chain.
Print Assumptions C67_stuck.
Print Assumptions C67_retry_partial.

(** ** Concrete cases: 32-bit integers, identity activation *)
Section Cases.
#[local] Existing Instance NumS32.
Definition gi (x : Z) : intw 32 := NumIntS.mk 32 eq_refl x.
Definition gact : activation (intw 32) := MkAct (fun x => x) (fun _ => gi 1).
Definition gA (c k : nat) : intw 32 := gi (Z.of_nat (c + k + 1)).
Definition gB (c k : nat) : intw 32 := gi (100 + Z.of_nat (c + k))%Z.
Definition gs0 : lst (intw 32) := MkL (MkSt [] [] []) [] 0.
Definition c32 := int_codec 4 32 eq_refl.
Example C40_codec : codec_ok c32.
Proof. apply int_codec_ok; [lia|reflexivity]. Qed.
Example C40_counts : counts_up (T:=intw 32) 21.
Proof. split; [|exists (gi 0), (gi 1); discriminate]. intros k Hk. do 22 (destruct k as [|k]; [lia || reflexivity|]). lia. Qed.
(** A dense layer with its own input, used twice: by a dense layer and directly;
    the two are joined, and another dense layer is the output. *)
Definition gnet : list (FwdScript.mk (intw 32)) := [MDenseIn 1 1 gact; MOn (KDense 1 gact) 0; MCat 1 0 0; MOn (KDense 1 gact) 2].
Definition gnet_e : net (intw 32) :=
  let d := NLay (SDense 1 (act_f gact)) 0 (NIn 0) in NLay (SDense 1 (act_f gact)) 3 (NCat 2 (NLay (SDense 1 (act_f gact)) 1 d) d 0).
Example C40_is_net : is_net gnet 0 3 gnet_e [1]%N [1]%N.
Proof. split; [eexists; split; reflexivity|reflexivity|left|reflexivity|]. repeat constructor. Qed.
(** numbers shown, numbers in files and bytes left over *)
Definition gshow (o : iobs (intw 32)) : option (list Z) * bool :=
  match o with
  | OShow o => (option_map (map ival) o, true)
  | OFile ok bs => (Some (map ival (fill c32 bs (replicate (length bs / 4) (gi 0)))), ok)
  | OLeft ok bs => (Some [Z.of_nat (length bs)], ok)
  | ODone => (None, true)
  end.
Definition gobs {A B} (r : res (A * (B * list (iobs (intw 32)))) * lst (intw 32)) : option (list (option (list Z) * bool)) :=
  match fst r with Ok r => Some (map gshow (snd (snd r))) | _ => None end.
Definition gask : list (iact (intw 32)) := [IUse (FNew [1]%N [gi 10]); IUse (FPredict 0); IUse (FGet 1)].
Definition gfile : list byte := dump c32 (map gi [2; 1; 4; 3; 6; 7; 5]%Z).
(** What the first network shows and saves (weights, then bias, of the layers 0, 1 and 3);
    the second network, before and after loading; layer 0 is in the file once. *)
Example C40_layers_case : file_layers gnet_e = [0; 1; 3].
Proof. reflexivity. Qed.
Example C40_save_case : gobs (iprogram gA (Some c32) (build_net gnet 0 3) (gask ++ [ISave None]) gs0) =
  Some [(Some [], true); (Some [], true); (Some [674], true); (Some [2; 1; 4; 3; 6; 7; 5], true)]%Z.
Proof. vm_compute. reflexivity. Qed.
Example C40_load_case : gobs (iprogram gB (Some c32) (build_net gnet 0 3) (gask ++ ILoad (gfile ++ [x01; x02]) :: [IUse (FPredict 0); IUse (FGet 1); IUse (FGet 2)]) gs0) =
  Some [(Some [], true); (Some [], true); (Some [12133124], true); (Some [2], true); (Some [], true); (Some [12133124], true); (Some [674], true)]%Z.
Proof. vm_compute. reflexivity. Qed.
(** a file that ends in the middle of the weights of the output layer *)
Example C40_short_case : gobs (iprogram gB (Some c32) (build_net gnet 0 3) (ILoad (take 18 gfile) :: gask ++ [ISave None]) gs0) =
  Some [(Some [0], false); (Some [], true); (Some [], true); (Some [11465], true); (Some [2; 1; 4; 3; 105; 106; 104], true)]%Z.
Proof. vm_compute. reflexivity. Qed.

(** ** C41: with a join, the file that is written after ResetSave misses layers *)
Theorem C41_refuted : exists (ms : list (FwdScript.mk (intw 32))) inp out e ish sh, is_net ms inp out e ish sh /\
  gobs (iprogram gA (Some c32) (build_net ms inp out) [ISave None; IResetSave; ISave None] gs0) = Some [(Some [2; 1; 4; 3; 6; 7; 5], true); (None, true); (Some [6; 7; 5], true)]%Z.
Proof. exists gnet, 0, 3, gnet_e, [1]%N, [1]%N. split; [exact C40_is_net|]. vm_compute. reflexivity. Qed.
Definition gline : list (FwdScript.mk (intw 32)) := [MInput [1]%N; MOn (KDense 2 gact) 0; MOn (KDense 1 gact) 1].
Definition gline_e : net (intw 32) := NLay (SDense 1 (act_f gact)) 2 (NLay (SDense 2 (act_f gact)) 1 (NIn 0)).
Example C41_line : is_net gline 0 2 gline_e [1]%N [1]%N /\ nocat gline_e.
Proof. split; [|exact I]. split; [eexists; split; reflexivity|reflexivity|left|reflexivity|]. repeat constructor. Qed.
Example C41_case : gobs (iprogram gA (Some c32) (build_net gline 0 2) [ISave None; ISave None; IResetSave; ISave None] gs0) =
  Some [(Some [2; 3; 1; 2; 4; 5; 3], true); (Some [], true); (None, true); (Some [2; 3; 1; 2; 4; 5; 3], true)]%Z.
Proof. vm_compute. reflexivity. Qed.

(** ** C67: the second save reports success though no file is complete *)
Theorem C67_refuted : exists (ms : list (FwdScript.mk (intw 32))) inp out e ish sh, is_net ms inp out e ish sh /\ nocat e /\
  gobs (iprogram gA (Some c32) (build_net ms inp out) [ISave (Some 10); ISave None] gs0) = Some [(Some [2; 3], false); (Some [], true)]%Z /\
  gobs (iprogram gA (Some c32) (build_net ms inp out) [ILoad []; ILoad (dump c32 (map gi [9; 9; 9; 9; 9; 9; 9]%Z)); ISave None] gs0) =
    Some [(Some [0], false); (Some [28], true); (Some [2; 3; 1; 2; 4; 5; 3], true)]%Z.
Proof. exists gline, 0, 2, gline_e, [1]%N, [1]%N. split; [apply C41_line|]. split; [exact I|]. split; vm_compute; reflexivity. Qed.
Example C67_case : gobs (iprogram gA (Some c32) (build_net gline 0 2) [ISave (Some 10); IResetSave; ISave None; ILoad []; IResetLoad; ILoad (dump c32 (map gi [9; 8; 7; 6; 5; 4; 3]%Z)); IResetSave; ISave None] gs0) =
  Some [(Some [2; 3], false); (None, true); (Some [2; 3; 1; 2; 4; 5; 3], true); (Some [0], false); (None, true); (Some [0], true); (None, true); (Some [9; 8; 7; 6; 5; 4; 3], true)]%Z.
Proof. vm_compute. reflexivity. Qed.
End Cases.
Print Assumptions C41_refuted.
Print Assumptions C67_refuted.
