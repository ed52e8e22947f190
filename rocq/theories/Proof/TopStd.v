(** The crate linked with the standard hash functions. *)
From Coq Require Import String.
From Verif Require Import Spec.Fips205 Spec.Fips205Hash Spec.Standard.
From Verif Require Import Model.Api Spec.Vocab Proof.TopFips.
Import ListNotations.
Open Scope list_scope.
Open Scope N_scope.

Lemma prop_standard_slh_dsa :
  forall (T : Target) (s : set_name) (r : Rng) (g : rng_st r),
    let hash := fips_hash (PR := standard_prims) s in
    let sets := fips_params s in
    (let '(g1, SKseed) := try_fill r g (seed_bytes s) in
     let '(g2, SKprf) := try_fill r g1 (seed_bytes s) in
     let '(g3, PKseed) := try_fill r g2 (seed_bytes s) in
     exported s (call (try_keygen_with_rng (P := standard_prims) (param_set s) r) g) =
     Fips205.slh_keygen sets hash (ok SKseed) (ok SKprf) (ok PKseed)) /\
    (forall sk SK, sk_typed s sk -> result (sk_into_bytes (param_set s) sk) = Val SK ->
     forall m ctx ph hedged,
       ok (call (try_sign_with_rng (P := standard_prims) (param_set s) r sk m ctx hedged) g) =
         Fips205.slh_sign sets hash m ctx SK (addrnd s r g hedged) /\
       ok (call (try_hash_sign_with_rng (P := standard_prims) (param_set s) r sk m ctx (ph_arg ph) hedged) g) =
         Fips205.hash_slh_sign sets hash m ctx (PH_fn (PR := standard_prims) ph) SK (addrnd s r g hedged)) /\
    (forall pk PK, pk_typed s pk -> result (pk_into_bytes (param_set s) pk) = Val PK ->
     forall m sig ctx ph, nlen sig = sig_size s ->
       result (verify (P := standard_prims) (param_set s) pk m sig ctx) =
         Val (Fips205.slh_verify sets hash m sig ctx PK) /\
       result (hash_verify (P := standard_prims) (param_set s) pk m sig ctx (ph_arg ph)) =
         Val (Fips205.hash_slh_verify sets hash m sig ctx (PH_fn (PR := standard_prims) ph) PK)).
Proof.
  intros T s r g hash sets. split; [|split].
  - exact (prop_keygen_is_fips T standard_prims s r g).
  - intros sk SK Ts E m ctx ph hedged. split.
    + exact (prop_sign_is_fips T standard_prims s r g sk SK m ctx hedged Ts E).
    + exact (prop_hash_sign_is_fips T standard_prims s r g sk SK m ctx ph hedged Ts E).
  - intros pk PK Tp E m sig ctx ph L. split.
    + exact (prop_verify_is_fips T standard_prims s pk PK m sig ctx Tp E L).
    + exact (prop_hash_verify_is_fips T standard_prims s pk PK m sig ctx ph Tp E L).
Qed.
