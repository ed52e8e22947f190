(** Hash functions that ignore their input: Python's verify accepts one signature for all messages. Used only by an
    Example. *)
From Verif Require Import Spec.Fips205 Spec.Fips205Hash.
From Verif Require Import Model.Py Proof.Facts Proof.HashP Proof.Fun Proof.SlhP Proof.SerP Proof.ApiP Spec.Vocab
  Proof.Summary Proof.TopCorrect Proof.TopPy Proof.TopPyObj Proof.TopPyExact Proof.Toy Proof.ToyForge.
Import ListNotations.
Open Scope list_scope.
Open Scope N_scope.

Lemma weak_verifies (T : Target) m sig : nlen sig = sig_size SHA2_128f ->
  result (verify (P := weak_prims) (param_set SHA2_128f) (fst (toy_key (P := weak_prims) SHA2_128f)) m sig []) = Val true.
Proof.
  intros L.
  pose proof (weak_accepts T (concat (pure_pieces m [])) sig L) as A. rewrite <- param_sig in L.
  destruct (runs_raw_verify (P := weak_prims) (param_set SHA2_128f) (param_PF SHA2_128f)
              (fst (toy_key (P := weak_prims) SHA2_128f)) (concat (pure_pieces m [])) sig L) as [V _].
  destruct (runs_verify (P := weak_prims) (param_set SHA2_128f) (param_PF SHA2_128f)
              (fst (toy_key (P := weak_prims) SHA2_128f)) m sig [] ltac:(discriminate) L) as [V2 _].
  etransitivity; [exact V2|]. etransitivity; [symmetry; exact V|exact A].
Qed.

Lemma weak_python m sig : nlen m < 2 ^ 31 -> nlen sig = sig_size SHA2_128f ->
  let pk := fst (toy_key (P := weak_prims) SHA2_128f) in
  let key := pk_seed pk ++ pk_root pk in
  PyPublicKey key = PyReturn key /\ py_verify (T := debug64) (P := weak_prims) key m sig = PyReturn true.
Proof.
  intros L LS. cbv zeta. pose proof (weak_verifies debug64 m sig LS) as A.
  destruct (toy_pk_typed weak_prims SHA2_128f) as [L1 L2].
  set (pk := fst (toy_key (P := weak_prims) SHA2_128f)) in *. clearbody pk. destruct pk as [sd rt]. cbn [pk_seed pk_root] in *.
  change (seed_bytes SHA2_128f) with 16 in L1, L2.
  assert (LK : nlen (sd ++ rt) = 32) by (rewrite nlen_app; lia).
  split; [unfold PyPublicKey; rewrite LK; reflexivity|].
  unfold py_verify. rewrite LS. change (sig_size SHA2_128f =? PY_SIG_LEN) with true. cbn [negb].
  unfold ffi_verify. rewrite (whole_slice (T := debug64) m L); [|eapply N.lt_trans; [exact L|reflexivity]].
  destruct (runs_pk_try_from_bytes (param_set SHA2_128f) (param_PF SHA2_128f) (sd ++ rt) LK) as [V _].
  change (param_set SHA2_128f) with slh_dsa_sha2_128f in *. change (cN slh_dsa_sha2_128f) with 16 in V. change (2 * 16) with 32 in V.
  rewrite V.
  replace (sub_bytes (sd ++ rt) 0 16) with sd.
  2: { rewrite sub_bytes_app_l by lia. rewrite <- L1. symmetry. apply sub_bytes_all. }
  replace (sub_bytes (sd ++ rt) 16 32) with rt.
  2: { rewrite sub_bytes_app_r by lia. replace (16 - nlen sd) with 0 by lia. replace (32 - nlen sd) with (nlen rt) by lia.
       symmetry. apply sub_bytes_all. }
  rewrite A. reflexivity.
Qed.
