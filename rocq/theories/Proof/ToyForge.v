(** Hash functions for which signatures can be forged: they ignore their input. Used only by an Example. *)
From Verif Require Import Spec.Fips205 Spec.Fips205Hash.
From Verif Require Import Model.Api Proof.Facts Proof.HashP Proof.Fun Proof.SlhP Proof.SerP Proof.ApiP Spec.Vocab
  Proof.Summary Proof.TopCorrect Proof.Toy.
Import ListNotations.
Open Scope list_scope.
Open Scope N_scope.

Definition weak_prims : Prims.
Proof.
  refine {| sha256 := fun _ => nrepeat (n2b 7) 32; sha512 := fun _ => nrepeat (n2b 7) 64;
            shake128 := fun _ k => nrepeat (n2b 7) k; shake256 := fun _ k => nrepeat (n2b 7) k |};
    intros; apply nlen_nrepeat.
Defined.

Lemma climb_const nd auth idx c : (forall z i x y, nd z i x y = c) ->
  forall cnt k x, climb nd auth idx (S cnt) k x = c.
Proof.
  intros K. induction cnt as [|cnt IH]; intros k x.
  - cbn [climb]. unfold up. destruct (N.even _); apply K.
  - change (climb nd auth idx (S cnt) (k + 1) (up nd idx k x (auth k)) = c). apply IH.
Qed.

Lemma weak_H q a m : H (hf_of (PR := weak_prims) (param_set SHA2_128f)) q a m = nrepeat (n2b 7) 16.
Proof. reflexivity. Qed.

(** every signature of the right length is accepted *)
Lemma weak_accepts (T : Target) m sig : nlen sig = sig_size SHA2_128f ->
  result (raw_verify (P := weak_prims) (param_set SHA2_128f) (fst (toy_key (P := weak_prims) SHA2_128f)) m sig) = Val true.
Proof.
  intros L. rewrite <- param_sig in L.
  destruct (runs_raw_verify (P := weak_prims) (param_set SHA2_128f) (param_PF SHA2_128f)
              (fst (toy_key (P := weak_prims) SHA2_128f)) m sig L) as [V _].
  etransitivity; [exact V|]. apply f_equal. unfold verify_val. apply bytes_eqb_eq.
  transitivity (nrepeat (n2b 7) 16).
  - unfold vroot. change (N.to_nat (cD (param_set SHA2_128f))) with 22%nat. cbn [hval]. unfold xpk at 1.
    change (N.to_nat (cHP (param_set SHA2_128f))) with 3%nat. apply climb_const. intros z i x y.
    unfold xnd. apply weak_H.
  - unfold toy_key, key_of. cbn [fst pk_root]. unfold proot, xnode.
    change (N.to_nat (cHP (param_set SHA2_128f))) with 3%nat. cbn [mnode]. unfold xnd at 1. symmetry. apply weak_H.
Qed.
