(** * ObjDec: checking by computation that an object holds a value (used for examples) *)
From Verif Require Import Base Num ModelTools ModelOps ModelTensor Spec Denote DenoteDec ObjSpec.

Section Dec.
Context {T : Type} `{Num T}.
Lemma holds_check (s : tst T) p v n :
  tens s !! p = Some n -> wf_matb (length (mem s)) (nmat n) = true -> mval (mem s) (nmat n) = Some v -> holds s p v.
Proof. intros Hn Hw Hv. exists n. split; [exact Hn|]. split; [apply wf_matb_sound; exact Hw|exact Hv]. Qed.
Lemma unshared_check (s : tst T) p : bool_decide (NoDup (cells s p)) = true -> unshared s p.
Proof. apply bool_decide_eq_true_1. Qed.
Lemma apart_check (s : tst T) p q :
  forallb (fun x => negb (bool_decide (x ∈ cells s q))) (cells s p) = true -> apart s p q.
Proof.
  rewrite forallb_forall. intros Hf x Hp Hq. apply elem_of_list_In in Hp. specialize (Hf _ Hp).
  rewrite negb_true_iff in Hf. apply bool_decide_eq_false_1 in Hf. contradiction.
Qed.
End Dec.
Ltac holds_tac := eapply holds_check; [vm_compute; reflexivity|vm_compute; reflexivity|vm_compute; reflexivity].
