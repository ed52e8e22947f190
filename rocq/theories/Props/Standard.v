(** The crate linked with the standard hash functions. *)
From Coq Require Import String.
From Verif Require Import Spec.Fips205 Spec.Fips205Hash.
From Verif Require Import Model.Api Spec.Vocab Spec.Standard Proof.TopStd Proof.TopSafety Proof.Toy.
Import ListNotations.
Open Scope list_scope.
Open Scope N_scope.

(** C56. With the standard hash functions the crate is SLH-DSA. When the external hash crates compute
    SHA-256, SHA-512 (FIPS 180-4) and SHAKE128, SHAKE256 (FIPS 202), key generation, pure and
    pre-hash signing, and pure and pre-hash verification compute exactly the functions FIPS 205
    defines over those standards, for every input and every state of the random generator. *)
Theorem standard_slh_dsa :
  forall (T : Target) (s : set_name) (r : Rng) (g : rng_st r),
    let hash := fips_hash (PR := standard_prims) s in
    let sets := fips_params s in
    (let '(g1, SKseed) := try_fill r g (seed_bytes s) in
     let '(g2, SKprf) := try_fill r g1 (seed_bytes s) in
     let '(g3, PKseed) := try_fill r g2 (seed_bytes s) in
     exported s (call (try_keygen_with_rng (P := standard_prims) (param_set s) r) g) =
     Fips205.slh_keygen sets hash (ok SKseed) (ok SKprf) (ok PKseed)) /\
    (forall sk SK, sk_typed s sk -> result (sk_into_bytes (param_set s) sk) = Val SK ->
     forall m ctx ph hedged,
       ok (call (try_sign_with_rng (P := standard_prims) (param_set s) r sk m ctx hedged) g) =
         Fips205.slh_sign sets hash m ctx SK (addrnd s r g hedged) /\
       ok (call (try_hash_sign_with_rng (P := standard_prims) (param_set s) r sk m ctx (ph_arg ph) hedged) g) =
         Fips205.hash_slh_sign sets hash m ctx (PH_fn (PR := standard_prims) ph) SK (addrnd s r g hedged)) /\
    (forall pk PK, pk_typed s pk -> result (pk_into_bytes (param_set s) pk) = Val PK ->
     forall m sig ctx ph, nlen sig = sig_size s ->
       result (verify (P := standard_prims) (param_set s) pk m sig ctx) =
         Val (Fips205.slh_verify sets hash m sig ctx PK) /\
       result (hash_verify (P := standard_prims) (param_set s) pk m sig ctx (ph_arg ph)) =
         Val (Fips205.hash_slh_verify sets hash m sig ctx (PH_fn (PR := standard_prims) ph) PK)).
Proof. exact prop_standard_slh_dsa. Qed.
Print Assumptions standard_slh_dsa.

Example standard_slh_dsa_applies :
  key_pair (T := debug64) (P := standard_prims) SHA2_128s (fst (toy_key (P := standard_prims) SHA2_128s))
    (snd (toy_key (P := standard_prims) SHA2_128s)) /\
  sk_typed SHA2_128s (snd (toy_key (P := standard_prims) SHA2_128s)) /\
  exists SK sig,
    result (sk_into_bytes (T := debug64) (param_set SHA2_128s) (snd (toy_key (P := standard_prims) SHA2_128s))) = Val SK /\
    Fips205.slh_sign (fips_params SHA2_128s) (fips_hash (PR := standard_prims) SHA2_128s) toy_m toy_ctx SK
      (addrnd SHA2_128s counter 5 true) = Some sig.
Proof.
  split; [apply toy_key_pair|]. pose proof (toy_sk_typed standard_prims SHA2_128s) as K. split; [exact K|].
  destruct (proj1 (proj1 (proj2 (prop_output_sizes debug64 standard_prims SHA2_128s)) _ K)) as [SK [E _]].
  exists SK. destruct (toy_signs debug64 standard_prims SHA2_128s) as [sig V]. exists sig. split; [exact E|].
  rewrite <- (proj1 (proj1 (proj2 (standard_slh_dsa debug64 SHA2_128s counter 5)) _ SK K E toy_m toy_ctx PH_SHA256 true)).
  rewrite V. reflexivity.
Qed.
