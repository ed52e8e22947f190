(** What the root in a private key commits to. *)
From Coq Require Import String.
From Verif Require Import Spec.Fips205 Spec.Fips205Hash.
From Verif Require Import Model.Api Spec.Vocab Spec.VocabPrim Spec.VocabCommit Proof.TopCommit Proof.Toy Proof.ToyForge Proof.ToyCommit.
Import ListNotations.
Open Scope list_scope.
Open Scope N_scope.

(** C69. The root in a private key commits to its seeds and its parameter set. If importing private-key
    bytes succeeds, damage outside the second quarter (SK.prf) and a mix-up of parameter sets do not
    go unnoticed: the same SK.seed and PK.seed have only one PK.root under a set; and two accepted
    private-key strings with the same PK.root, under sets of the same hash family and security level
    (the s and f variants), have the same SK.seed and the same PK.seed and belong to the same set,
    unless the two imports hashed two different strings of the same length on which the same one of
    SHA-256, SHA-512 and SHAKE256 agrees in its first n bytes. In particular a private key accepted
    under both the s and the f set exhibits such a collision. *)
Theorem private_key_root_commits :
  forall (T : Target) (P : Prims) (s1 s2 : set_name) (bs1 bs2 : bytes) (sk1 sk2 : SlhPrivateKey),
    let import1 := sk_try_from_bytes (param_set s1) bs1 in
    let import2 := sk_try_from_bytes (param_set s2) bs2 in
    let n := seed_bytes s1 in
    same_functions s1 s2 ->
    nlen bs1 = sk_size s1 -> nlen bs2 = sk_size s2 ->
    result import1 = Val sk1 -> result import2 = Val sk2 ->
    (** the same seeds and the same set have only one root, *)
    (s1 = s2 -> sub_bytes bs1 0 n = sub_bytes bs2 0 n -> sub_bytes bs1 (2 * n) (3 * n) = sub_bytes bs2 (2 * n) (3 * n) ->
       sub_bytes bs1 (3 * n) (4 * n) = sub_bytes bs2 (3 * n) (4 * n)) /\
    (** and one root has only one set and one pair of seeds *)
    (sub_bytes bs1 (3 * n) (4 * n) = sub_bytes bs2 (3 * n) (4 * n) ->
       (s1 = s2 /\ sub_bytes bs1 0 n = sub_bytes bs2 0 n /\ sub_bytes bs1 (2 * n) (3 * n) = sub_bytes bs2 (2 * n) (3 * n)) \/
       string_collision s1 s2 (trace import1) (trace import2)).
Proof. exact prop_private_key_root_commits. Qed.
Print Assumptions private_key_root_commits.

(** with hash functions that ignore their input, one string is accepted under SHA2_128s and SHA2_128f *)
Example private_key_root_commits_applies :
  exists sk1 sk2, same_functions SHA2_128s SHA2_128f /\
    nlen (weak_key 3) = sk_size SHA2_128s /\ nlen (weak_key 3) = sk_size SHA2_128f /\
    result (sk_try_from_bytes (T := debug64) (P := weak_prims) (param_set SHA2_128s) (weak_key 3)) = Val sk1 /\
    result (sk_try_from_bytes (T := debug64) (P := weak_prims) (param_set SHA2_128f) (weak_key 3)) = Val sk2 /\
    string_collision (P := weak_prims) SHA2_128s SHA2_128f
      (trace (sk_try_from_bytes (T := debug64) (P := weak_prims) (param_set SHA2_128s) (weak_key 3)))
      (trace (sk_try_from_bytes (T := debug64) (P := weak_prims) (param_set SHA2_128f) (weak_key 3))).
Proof.
  destruct (weak_imports debug64 3 SHA2_128s (or_introl eq_refl)) as [L1 [sk1 E1]].
  destruct (weak_imports debug64 3 SHA2_128f (or_intror eq_refl)) as [L2 [sk2 E2]].
  assert (S : same_functions SHA2_128s SHA2_128f) by (split; reflexivity).
  exists sk1, sk2. refine (conj S (conj L1 (conj L2 (conj E1 (conj E2 _))))).
  destruct (private_key_root_commits debug64 weak_prims SHA2_128s SHA2_128f (weak_key 3) (weak_key 3) sk1 sk2 S L1 L2 E1 E2)
    as [_ K].
  destruct (K eq_refl) as [[K1 _]|K1]; [discriminate K1|exact K1].
Qed.

(** and two strings with different SK.seed *)
Example private_key_root_commits_applies_seeds :
  exists sk1 sk2, same_functions SHA2_128f SHA2_128f /\
    nlen (weak_key 3) = sk_size SHA2_128f /\ nlen (weak_key 4) = sk_size SHA2_128f /\
    result (sk_try_from_bytes (T := debug64) (P := weak_prims) (param_set SHA2_128f) (weak_key 3)) = Val sk1 /\
    result (sk_try_from_bytes (T := debug64) (P := weak_prims) (param_set SHA2_128f) (weak_key 4)) = Val sk2 /\
    sub_bytes (weak_key 3) (3 * 16) (4 * 16) = sub_bytes (weak_key 4) (3 * 16) (4 * 16).
Proof.
  destruct (weak_imports debug64 3 SHA2_128f (or_intror eq_refl)) as [L1 [sk1 E1]].
  destruct (weak_imports debug64 4 SHA2_128f (or_intror eq_refl)) as [L2 [sk2 E2]].
  assert (S : same_functions SHA2_128f SHA2_128f) by (split; reflexivity).
  exists sk1, sk2. refine (conj S (conj L1 (conj L2 (conj E1 (conj E2 _))))).
  exact (eq_trans (weak_quarter 3) (eq_sym (weak_quarter 4))).
Qed.
