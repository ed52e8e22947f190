(** With hash functions that ignore their input, one private-key string accepted under two parameter sets.
    Used only by Examples. *)
From Verif Require Import Spec.Fips205 Spec.Fips205Hash.
From Verif Require Import Model.Api Proof.Facts Proof.HashP Proof.Fun Proof.SlhP Proof.SerP Proof.ApiP
  Spec.Vocab Proof.Summary Proof.Toy Proof.ToyForge.
Import ListNotations.
Open Scope list_scope.
Open Scope N_scope.

Definition weak_key (b : N) : bytes :=
  nrepeat (n2b b) 16 ++ nrepeat (n2b 1) 16 ++ nrepeat (n2b 2) 16 ++ nrepeat (n2b 7) 16.

Lemma weak_proot_f ps ss : proot (param_set SHA2_128f) (hf_of (PR := weak_prims) (param_set SHA2_128f)) ps ss = nrepeat (n2b 7) 16.
Proof. unfold proot, xnode. change (N.to_nat (cHP (param_set SHA2_128f))) with 3%nat. cbn [mnode]. unfold xnd at 1. reflexivity. Qed.
Lemma weak_proot_s ps ss : proot (param_set SHA2_128s) (hf_of (PR := weak_prims) (param_set SHA2_128s)) ps ss = nrepeat (n2b 7) 16.
Proof. unfold proot, xnode. change (N.to_nat (cHP (param_set SHA2_128s))) with 9%nat. cbn [mnode]. unfold xnd at 1. reflexivity. Qed.

Lemma weak_quarter b : sub_bytes (weak_key b) 48 64 = nrepeat (n2b 7) 16.
Proof.
  unfold weak_key. rewrite !sub_bytes_app_r by (rewrite nlen_nrepeat; lia). rewrite !nlen_nrepeat. reflexivity.
Qed.

Lemma weak_imports (T : Target) b s : s = SHA2_128s \/ s = SHA2_128f ->
  nlen (weak_key b) = sk_size s /\
  exists sk, result (sk_try_from_bytes (P := weak_prims) (param_set s) (weak_key b)) = Val sk.
Proof.
  intros Hs. assert (L : nlen (weak_key b) = sk_size s)
    by (unfold weak_key; rewrite !nlen_app, !nlen_nrepeat; destruct Hs as [-> | ->]; reflexivity).
  split; [exact L|]. rewrite <- param_sk in L.
  assert (C : consistent (P := weak_prims) (param_set s) (sk_of_bytes (param_set s) (weak_key b))).
  { unfold consistent, sk_of_bytes. cbn [sk_pk_root sk_pk_seed sk_seed].
    destruct Hs as [-> | ->]; [rewrite weak_proot_s|rewrite weak_proot_f]; exact (weak_quarter b). }
  exists (sk_of_bytes (param_set s) (weak_key b)).
  exact (proj1 (runs_sk_try_from_bytes (P := weak_prims) (param_set s) (param_PF s) (weak_key b) L C)).
Qed.
