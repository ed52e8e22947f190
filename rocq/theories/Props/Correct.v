(** Honest signatures verify. *)
From Coq Require Import String.
From Verif Require Import Spec.Fips205 Spec.Fips205Hash.
From Verif Require Import Model.Api Spec.Vocab Proof.TopCorrect Proof.TopKeys Proof.Toy.
Import ListNotations.
Open Scope list_scope.
Open Scope N_scope.

(** C01. Pure signatures always verify. If key generation succeeds and returns (pk, sk), then for every
    message m, every context of at most 255 bytes, hedged or not, whenever try_sign_with_rng(m, ctx)
    succeeds the returned signature makes pk.verify(m, sig, ctx) return true; and signing does
    succeed unless the random generator fails. *)
Theorem pure_signatures_verify :
  forall (T : Target) (P : Prims) (s : set_name) (pk : SlhPublicKey) (sk : SlhPrivateKey),
    key_pair s pk sk ->
    forall (r : Rng) (g : rng_st r) (m ctx : bytes) (hedged : bool),
      nlen ctx <= 255 ->
      (forall sig, call (try_sign_with_rng (param_set s) r sk m ctx hedged) g = Val sig ->
                   nlen sig = sig_size s /\ result (verify (param_set s) pk m sig ctx) = Val true) /\
      ((hedged = true -> exists b g', gives r g (seed_bytes s) b g') ->
       exists sig, call (try_sign_with_rng (param_set s) r sk m ctx hedged) g = Val sig).
Proof. exact prop_pure_signatures_verify. Qed.
Print Assumptions pure_signatures_verify.

Example pure_signatures_verify_applies :
  exists sig,
    key_pair (T := debug64) (P := toy_prims) SHA2_128s (tpk SHA2_128s) (tsk SHA2_128s) /\
    call (try_sign_with_rng (T := debug64) (P := toy_prims) (param_set SHA2_128s) counter (tsk SHA2_128s) toy_m toy_ctx true) 5
      = Val sig /\
    result (verify (T := debug64) (P := toy_prims) (param_set SHA2_128s) (tpk SHA2_128s) toy_m sig toy_ctx)
      = Val true.
Proof.
  destruct (toy_signs debug64 toy_prims SHA2_128s) as [sig E]. exists sig.
  split; [apply toy_key_pair|]. split; [exact E|].
  apply (pure_signatures_verify debug64 toy_prims SHA2_128s _ _ (toy_key_pair _ toy_prims _) counter 5 toy_m toy_ctx true
           toy_ctx_le). exact E.
Qed.

(** C02. Pre-hash signatures always verify. If key generation returned (pk, sk), then for every message,
    context of at most 255 bytes and each of the four supported pre-hash functions, whenever
    try_hash_sign_with_rng succeeds, hash_verify with the same message, context and pre-hash
    function returns true; and it succeeds unless the random generator fails. *)
Theorem prehash_signatures_verify :
  forall (T : Target) (P : Prims) (s : set_name) (pk : SlhPublicKey) (sk : SlhPrivateKey),
    key_pair s pk sk ->
    forall (r : Rng) (g : rng_st r) (m ctx : bytes) (ph : prehash) (hedged : bool),
      nlen ctx <= 255 ->
      (forall sig, call (try_hash_sign_with_rng (param_set s) r sk m ctx (ph_arg ph) hedged) g = Val sig ->
                   nlen sig = sig_size s /\
                   result (hash_verify (param_set s) pk m sig ctx (ph_arg ph)) = Val true) /\
      ((hedged = true -> exists b g', gives r g (seed_bytes s) b g') ->
       exists sig, call (try_hash_sign_with_rng (param_set s) r sk m ctx (ph_arg ph) hedged) g = Val sig).
Proof. exact prop_prehash_signatures_verify. Qed.
Print Assumptions prehash_signatures_verify.

Example prehash_signatures_verify_applies :
  exists sig,
    call (try_hash_sign_with_rng (T := release16) (P := toy_prims) (param_set SHAKE_256f) counter
            (tsk SHAKE_256f) toy_m toy_ctx PhSHAKE128 true) 5 = Val sig /\
    result (hash_verify (T := release16) (P := toy_prims) (param_set SHAKE_256f) (tpk SHAKE_256f) toy_m sig
              toy_ctx PhSHAKE128) = Val true.
Proof.
  destruct (prehash_signatures_verify release16 toy_prims SHAKE_256f _ _ (toy_key_pair _ toy_prims _) counter 5 toy_m toy_ctx
              PH_SHAKE128 true toy_ctx_le) as [K1 K2].
  destruct (K2 (counter_ok _ _ _)) as [sig E]. exists sig. split; [exact E|]. apply (K1 sig E).
Qed.

(** C03. Raw (internal-interface) signatures verify with the raw verifier. A signature made by
    _test_only_raw_sign on a byte string verifies with _test_only_raw_verify on the same byte string
    under the matching public key, for every generated key pair. *)
Theorem raw_signatures_verify :
  forall (T : Target) (P : Prims) (s : set_name) (pk : SlhPublicKey) (sk : SlhPrivateKey),
    key_pair s pk sk ->
    forall (r : Rng) (g : rng_st r) (m : bytes) (hedged : bool),
      (forall sig, call (raw_sign (param_set s) r sk m hedged) g = Val sig ->
                   nlen sig = sig_size s /\ result (raw_verify (param_set s) pk m sig) = Val true) /\
      ((hedged = true -> exists b g', gives r g (seed_bytes s) b g') ->
       exists sig, call (raw_sign (param_set s) r sk m hedged) g = Val sig).
Proof. exact prop_raw_signatures_verify. Qed.
Print Assumptions raw_signatures_verify.

Example raw_signatures_verify_applies :
  exists sig,
    call (raw_sign (T := release16) (P := toy_prims) (param_set SHA2_192f) broken (tsk SHA2_192f) toy_m false)
      tt = Val sig /\
    result (raw_verify (T := release16) (P := toy_prims) (param_set SHA2_192f) (tpk SHA2_192f) toy_m sig)
      = Val true.
Proof.
  destruct (raw_signatures_verify release16 toy_prims SHA2_192f _ _ (toy_key_pair _ toy_prims _) broken tt toy_m false)
    as [K1 K2].
  destruct K2 as [sig E]; [discriminate|]. exists sig. split; [exact E|]. apply (K1 sig E).
Qed.

(** C18. Imported private keys are usable. Every private key accepted by import yields, for every message
    and context, signatures that verify under the public key returned by get_public_key. *)
Theorem imported_keys_usable :
  forall (T : Target) (P : Prims) (s : set_name) (bs : bytes) (sk : SlhPrivateKey),
    nlen bs = sk_size s -> result (sk_try_from_bytes (param_set s) bs) = Val sk ->
    forall (r : Rng) (g : rng_st r) (m ctx : bytes) (ph : prehash) (hedged : bool),
      nlen ctx <= 255 -> (hedged = true -> exists b g', gives r g (seed_bytes s) b g') ->
      (exists sig, call (try_sign_with_rng (param_set s) r sk m ctx hedged) g = Val sig /\
                   result (verify (param_set s) (get_public_key sk) m sig ctx) = Val true) /\
      (exists sig, call (try_hash_sign_with_rng (param_set s) r sk m ctx (ph_arg ph) hedged) g = Val sig /\
                   result (hash_verify (param_set s) (get_public_key sk) m sig ctx (ph_arg ph)) = Val true).
Proof. exact prop_imported_keys_usable. Qed.
Print Assumptions imported_keys_usable.

Example imported_keys_usable_applies :
  exists bs, nlen bs = sk_size SHAKE_192s /\
    result (sk_try_from_bytes (T := debug64) (P := toy_prims) (param_set SHAKE_192s) bs) = Val (tsk SHAKE_192s).
Proof.
  destruct (proj1 (prop_private_key_round_trip debug64 toy_prims SHAKE_192s) _ _ (toy_key_pair _ toy_prims _))
    as [bs [_ [L E]]]. exists bs. split; [exact L|exact E].
Qed.
