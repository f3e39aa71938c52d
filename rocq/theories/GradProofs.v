(** * GradProofs: the errors passed back are derivatives *)
From Coq Require Import Reals Lra.
From Verif Require Import Base Num NumReal Spec NetSpec GradSpec.
From Coq Require Import Lia.
Open Scope R_scope.
#[local] Existing Instance NumR.

(** ** Sums *)
Lemma total_app a b : total (a ++ b) = total a + total b.
Proof. unfold total. induction a as [|x a IH]; cbn; [lra|]. rewrite IH. lra. Qed.
Lemma fold_total l : forall a, fold_left Rplus l a = a + total l.
Proof. unfold total. induction l as [|x l IH]; intros a; cbn; [lra|]. rewrite IH. lra. Qed.
Lemma sum1_total (l : list R) : sum1 l = total l.
Proof. unfold sum1, fold1. destruct l as [|x l]; [reflexivity|]. cbn. rewrite (fold_total l x). reflexivity. Qed.
Lemma neta_total xs w b : neta xs w b = total (zip_with Rmult xs w) + b.
Proof. unfold neta. rewrite sum1_total, total_app. cbn. unfold total. lra. Qed.
Lemma total_scale c l : total (map (Rmult c) l) = c * total l.
Proof. unfold total. induction l as [|x l IH]; cbn; [lra|]. rewrite IH. lra. Qed.
Lemma total_zip_plus f g (l : list nat) (ds : list R) :
  total (zip_with Rmult (map (fun j => f j + g j) l) ds) = total (zip_with Rmult (map f l) ds) + total (zip_with Rmult (map g l) ds).
Proof.
  unfold total. revert ds. induction l as [|x l IH]; intros [|d ds]; cbn; try lra. rewrite IH. lra.
Qed.
Lemma nth_seq (w : list R) m : length w = m -> map (fun j => nth j w 0) (seq 0 m) = w.
Proof.
  intros <-. apply list_eq. intros i. change (map (fun j => nth j w 0) (seq 0 (length w))) with ((fun j => nth j w 0) <$> seq 0 (length w)). rewrite list_lookup_fmap.
  destruct (decide (i < length w)%nat) as [Hi|Hi].
  - rewrite lookup_seq_lt by exact Hi. cbn. destruct (lookup_lt_is_Some_2 w i Hi) as [x Hx]. rewrite Hx. f_equal. apply nth_lookup_Some with (d:=0) in Hx. exact Hx.
  - rewrite lookup_seq_ge by lia. symmetry. apply lookup_ge_None. lia.
Qed.
Lemma swap_sums (ds : list R) (W : list (list R)) : Forall (fun w => length w = length ds) W -> forall e, length e = length W ->
  total (zip_with Rmult e (map (fun w => total (zip_with Rmult ds w)) W)) =
  total (zip_with Rmult (map (fun j => total (zip_with Rmult e (map (fun w => nth j w 0) W))) (seq 0 (length ds))) ds).
Proof.
  intros HW. induction HW as [|w W Hw HW IH]; intros [|e0 e] Hl; try discriminate.
  - cbn [map zip_with length]. generalize (seq 0 (length ds)) as is. unfold total. cbn [foldr]. clear. induction ds as [|d ds IHd]; intros [|i is]; cbn [map zip_with foldr]; try reflexivity. rewrite <- (IHd is). lra.
  - cbn [map zip_with]. injection Hl as Hl.
    change (map (fun j => total (e0 * nth j w 0 :: zip_with Rmult e (map (fun w0 => nth j w0 0) W))) (seq 0 (length ds)))
      with (map (fun j => e0 * nth j w 0 + total (zip_with Rmult e (map (fun w0 => nth j w0 0) W))) (seq 0 (length ds))).
    rewrite total_zip_plus, <- (IH e Hl). change (total (?x :: ?l)) with (x + total l). f_equal.
    rewrite <- (map_map (fun j => nth j w 0) (Rmult e0)), (nth_seq w _ Hw). clear.
    unfold total. revert w. induction ds as [|d ds IH]; intros [|x w]; cbn; try lra. rewrite <- IH. lra.
Qed.

(** ** Lists of differentiable functions *)
Definition lims (t0 : R) (fs : list (R -> R)) (ds : list R) : Prop := Forall2 (fun f d => derivable_pt_lim f t0 d) fs ds.
Definition vals (fs : list (R -> R)) (t : R) : list R := map (fun f => f t) fs.
Lemma lim_ext f g x d : (forall t, f t = g t) -> derivable_pt_lim f x d -> derivable_pt_lim g x d.
Proof. intros E Hf eps He. destruct (Hf eps He) as [del Hd]. exists del. intros h Hh Hl. rewrite <- !E. apply Hd; assumption. Qed.
Lemma lim_eq f x d d' : d = d' -> derivable_pt_lim f x d -> derivable_pt_lim f x d'.
Proof. intros ->. auto. Qed.
Lemma total_lim t0 fs ds : lims t0 fs ds -> derivable_pt_lim (fun t => total (vals fs t)) t0 (total ds).
Proof.
  intros Hf. induction Hf as [|f d fs ds Hf _ IH]; [apply (derivable_pt_lim_const 0)|].
  exact (derivable_pt_lim_plus f (fun t => total (vals fs t)) t0 d _ Hf IH).
Qed.
Lemma comp_lim f g t0 d e : derivable_pt_lim g t0 d -> derivable_pt_lim f (g t0) e -> derivable_pt_lim (fun t => f (g t)) t0 (e * d).
Proof. intros Hg Hf. exact (derivable_pt_lim_comp g f t0 d e Hg Hf). Qed.
Lemma scaled_lims t0 fs ds w : lims t0 fs ds -> lims t0 (zip_with (fun f x t => f t * x) fs w) (zip_with Rmult ds w).
Proof.
  intros Hf. revert w. induction Hf as [|f d fs ds Hf _ IH]; intros [|x w]; cbn [zip_with]; constructor; [|apply IH].
  eapply lim_ext; [|eapply lim_eq; [|apply (derivable_pt_lim_scal f x t0 d Hf)]]; [intros t; unfold mult_real_fct; ring|ring].
Qed.
Lemma vals_scaled fs w t : vals (zip_with (fun f x t => f t * x) fs w) t = zip_with Rmult (vals fs t) w.
Proof. revert w. induction fs as [|f fs IH]; intros [|x w]; cbn; try reflexivity. unfold vals in IH. rewrite IH. reflexivity. Qed.
Lemma neta_lim t0 fs ds w b : lims t0 fs ds -> derivable_pt_lim (fun t => neta (vals fs t) w b) t0 (total (zip_with Rmult ds w)).
Proof.
  intros Hf. eapply lim_ext; [intros t; symmetry; apply neta_total|].
  eapply lim_eq; [apply Rplus_0_r|]. apply (derivable_pt_lim_plus (fun t => total (zip_with Rmult (vals fs t) w)) (fun _ => b)); [|apply (derivable_pt_lim_const b)].
  eapply lim_ext; [intros t; rewrite <- vals_scaled; reflexivity|]. apply total_lim. apply scaled_lims. exact Hf.
Qed.

(** ** From the weighted sums of one layer to the error at the end *)
Fixpoint tail_netas (l : slayer R) (rest : list (slayer R)) (ns : list R) : list R :=
  match rest with [] => ns | l' :: rest' => tail_netas l' rest' (netas l' (map (sf l) ns)) end.
Fixpoint e_of (l : slayer R) (rest : list (slayer R)) (ns tgt : list R) : list R :=
  match rest with
  | [] => zip_with Rminus tgt (map (sf l) ns)
  | l' :: rest' => zip_with (fun s n => 0 + s * sd l n) (back l' (length ns) (e_of l' rest' (netas l' (map (sf l) ns)) tgt)) ns
  end.
Lemma err_e_of rest : forall l xs tgt, err (l :: rest) xs tgt = e_of l rest (netas l xs) tgt.
Proof.
  induction rest as [|l' rest IH]; intros l xs tgt; [reflexivity|].
  change (err (l :: l' :: rest) xs tgt) with (hidden_dif l xs (back l' (length (outs l xs)) (err (l' :: rest) (outs l xs) tgt))).
  rewrite IH. unfold outs at 1. rewrite map_length. reflexivity.
Qed.
Fixpoint smooth_from (l : slayer R) (rest : list (slayer R)) (ns : list R) : Prop :=
  match rest with
  | [] => True
  | l' :: rest' => Forall (fun n => derivable_pt_lim (sf l) n (sd l n)) ns /\ smooth_from l' rest' (netas l' (map (sf l) ns))
  end.
Lemma smooth_smooth_from rest : forall l xs, smooth (l :: rest) xs -> smooth_from l rest (netas l xs).
Proof.
  induction rest as [|l' rest IH]; intros l xs; [intros _; exact I|]. intros [H1 H2]. split; [apply H1; discriminate|]. apply IH. exact H2.
Qed.
Definition last_layer (l : slayer R) (rest : list (slayer R)) : slayer R := default l (last rest).
Lemma last_layer_cons l l' rest : last_layer l (l' :: rest) = last_layer l' rest.
Proof. unfold last_layer. rewrite last_cons. destruct (last rest); reflexivity. Qed.

Lemma e_of_len rest l ns tgt : length tgt = length (tail_netas l rest ns) -> length (e_of l rest ns tgt) = length ns.
Proof.
  destruct rest as [|l' rest]; cbn [tail_netas e_of].
  - intros E. rewrite zip_with_length, map_length. lia.
  - intros _. rewrite zip_with_length. unfold back. rewrite map_length, seq_length. lia.
Qed.
Lemma netas_len l xs : length (sB l) = length (sW l) -> length (netas l xs) = length (sW l).
Proof. intros E. unfold netas. rewrite zip_with_length. lia. Qed.
Lemma vals_zip {A B} (h : A -> B -> R -> R) (a : list A) (b : list B) t : vals (zip_with h a b) t = zip_with (fun x y => h x y t) a b.
Proof. revert b. induction a as [|x a IH]; intros [|y b]; cbn; try reflexivity. unfold vals in IH. rewrite IH. reflexivity. Qed.

Theorem energy_lim (phi : R -> R -> R) tgt t0 : forall rest l gs dn, lims t0 gs dn ->
  let ns := vals gs t0 in
  sized (length ns) rest -> smooth_from l rest ns -> length tgt = length (tail_netas l rest ns) ->
  Forall2 (fun t n => derivable_pt_lim (phi t) n (sf (last_layer l rest) n - t)) tgt (tail_netas l rest ns) ->
  derivable_pt_lim (fun t => total (zip_with phi tgt (tail_netas l rest (vals gs t)))) t0 (- total (zip_with Rmult (e_of l rest ns tgt) dn)).
Proof.
  induction rest as [|l' rest IH]; intros l gs dn Hg ns Hs Hsm Ht Hphi.
  - cbn [tail_netas e_of] in *. subst ns. change (last_layer l []) with l in Hphi.
    eapply lim_eq; cycle 1.
    + assert (Ez : forall t, total (vals (zip_with (fun x g t => phi x (g t)) tgt gs) t) = total (zip_with phi tgt (vals gs t))).
      { intros t. rewrite (vals_zip (fun x g t => phi x (g t)) tgt gs t). f_equal. unfold vals. clear. revert gs. induction tgt as [|x tgt IH]; intros [|g gs]; cbn; try reflexivity. rewrite IH. reflexivity. }
      eapply lim_ext; [exact Ez|].
      apply (total_lim t0 _ (zip_with Rmult (zip_with (fun t g => sf l (g t0) - t) tgt gs) dn)).
      clear Ht Hsm Hs Ez. revert gs dn Hg Hphi. induction tgt as [|x tgt IHt]; intros gs dn Hg Hphi; [constructor|].
      destruct Hg as [|g d gs dn Hg1 Hg]; [constructor|]. cbn in Hphi. inversion Hphi as [|? ? ? ? P1 P2]; subst.
      cbn [zip_with]. constructor; [apply comp_lim; [exact Hg1|exact P1]|apply IHt; assumption].
    + clear Hphi Hsm Hs Ht Hg. unfold total, vals. revert gs dn. induction tgt as [|x tgt IHt]; intros [|g gs] [|d dn]; cbn; try lra. rewrite IHt. lra.
  - destruct Hs as (HW & HB & Hs). cbn [tail_netas] in *. destruct Hsm as [Hsm1 Hsm2]. rewrite last_layer_cons in Hphi.
    set (fs := map (fun g t => sf l (g t)) gs). set (ds := zip_with (fun n d => sd l n * d) ns dn).
    assert (Hf : lims t0 fs ds).
    { unfold fs, ds, ns. clear - Hg Hsm1. subst ns. unfold lims in *. induction Hg as [|g d gs dn Hg1 Hg IHg]; [constructor|]. cbn in Hsm1.
      inversion Hsm1 as [|? ? P1 P2]; subst. cbn. constructor; [apply comp_lim; assumption|apply IHg; exact P2]. }
    assert (Ef : forall t, vals fs t = map (sf l) (vals gs t)).
    { intros t. unfold vals, fs. rewrite !map_map. reflexivity. }
    set (gs' := zip_with (fun w b t => neta (vals fs t) w b) (sW l') (sB l')).
    assert (Eg : forall t, vals gs' t = netas l' (map (sf l) (vals gs t))).
    { intros t. unfold gs'. rewrite vals_zip. rewrite Ef. reflexivity. }
    set (dn' := map (fun w => total (zip_with Rmult ds w)) (sW l')).
    assert (Hg' : lims t0 gs' dn').
    { unfold gs', dn'. clear - Hf HB. revert HB. generalize (sB l'). induction (sW l') as [|w W IHW]; intros [|b B] HB; try discriminate; [constructor|].
      cbn [zip_with map]. constructor; [apply neta_lim; exact Hf|]. apply IHW. cbn in HB. lia. }
    assert (Hlen : length (vals gs' t0) = length (sW l')) by (rewrite Eg; apply netas_len; exact HB).
    pose proof (IH l' gs' dn' Hg') as IH'. cbv zeta in IH'. rewrite Hlen, Eg in IH'.
    specialize (IH' Hs Hsm2 Ht Hphi).
    eapply lim_ext; [intros t; rewrite <- Eg; reflexivity|]. eapply lim_eq; [|exact IH'].
    set (e := e_of l' rest (netas l' (map (sf l) ns)) tgt).
    assert (He : length e = length (sW l')) by (unfold e; rewrite e_of_len by exact Ht; apply netas_len; exact HB).
    assert (Lds : length ds = length ns).
    { pose proof (Forall2_length _ _ _ Hf) as L. unfold fs in L. rewrite map_length in L. unfold ns, vals. rewrite map_length. congruence. }
    f_equal. cbn [e_of]. fold e. unfold dn'. rewrite (swap_sums ds (sW l')); [|rewrite Lds; exact HW|exact He].
    rewrite Lds. unfold back, ds.
    match goal with |- total (zip_with Rmult (map ?f ?s) _) = total (zip_with Rmult (zip_with _ (map ?g ?s) _) _) =>
      replace (map g s) with (map f s) by (apply map_ext; intros i; symmetry; apply sum1_total); generalize f end. intros h.

    clearbody ns.
    generalize (seq 0 (length ns)). clear. unfold total. revert dn. induction ns as [|n ns IH]; intros [|d dn] [|i is]; cbn; try lra. rewrite IH. ring.
Qed.
