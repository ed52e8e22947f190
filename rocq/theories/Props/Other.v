(** Another implementation of FIPS 205. *)
From Coq Require Import String.
From Verif Require Import Spec.Fips205 Spec.Fips205Hash.
From Verif Require Import Model.Api Spec.Vocab Proof.TopOther Proof.Toy Proof.ToyKeys.
Import ListNotations.
Open Scope list_scope.
Open Scope N_scope.

(** C87. Any other implementation of FIPS 205 can be used at the other end. Let another program compute
    exactly what FIPS 205 prescribes, with the same hash functions. Every key pair it generates is
    accepted by this library's import functions, works as a key pair here and is exported unchanged.
    Every key pair this library holds exports to a private and a public key that the standard's key
    generation produces from some three seeds. A signature the other program makes with the exported
    private key, pure or pre-hash, deterministic or with n random bytes, verifies here under the
    public key. A signature this library makes, pure or pre-hash, is accepted by the other program's
    verification under the exported public key. *)
Theorem works_with_other_implementations :
  forall (T : Target) (P : Prims) (s : set_name),
    let other_keygen := Fips205.slh_keygen_internal (fips_params s) (fips_hash s) in
    let other_sign := Fips205.slh_sign (fips_params s) (fips_hash s) in
    let other_verify := Fips205.slh_verify (fips_params s) (fips_hash s) in
    let other_hash_sign := Fips205.hash_slh_sign (fips_params s) (fips_hash s) in
    let other_hash_verify := Fips205.hash_slh_verify (fips_params s) (fips_hash s) in
    (** a key pair made elsewhere *)
    (forall SKseed SKprf PKseed SK PK,
       nlen SKseed = seed_bytes s -> nlen SKprf = seed_bytes s -> nlen PKseed = seed_bytes s ->
       other_keygen SKseed SKprf PKseed = (SK, PK) ->
       exists pk sk, result (sk_try_from_bytes (param_set s) SK) = Val sk /\
         result (pk_try_from_bytes (param_set s) PK) = Val pk /\ key_pair s pk sk /\
         result (sk_into_bytes (param_set s) sk) = Val SK /\ result (pk_into_bytes (param_set s) pk) = Val PK) /\
    (** any key pair this library holds, and what it exports *)
    (forall pk sk SK PK, key_pair s pk sk ->
       result (sk_into_bytes (param_set s) sk) = Val SK -> result (pk_into_bytes (param_set s) pk) = Val PK ->
       (exists SKseed SKprf PKseed,
          nlen SKseed = seed_bytes s /\ nlen SKprf = seed_bytes s /\ nlen PKseed = seed_bytes s /\
          other_keygen SKseed SKprf PKseed = (SK, PK)) /\
       (** made there, checked here *)
       (forall m ctx rnd sig, (forall b, rnd = Some (Some b) -> nlen b = seed_bytes s) ->
          other_sign m ctx SK rnd = Some sig -> result (verify (param_set s) pk m sig ctx) = Val true) /\
       (forall m ctx ph rnd sig, (forall b, rnd = Some (Some b) -> nlen b = seed_bytes s) ->
          other_hash_sign m ctx (PH_fn ph) SK rnd = Some sig ->
          result (hash_verify (param_set s) pk m sig ctx (ph_arg ph)) = Val true) /\
       (** made here, checked there *)
       (forall (r : Rng) (g : rng_st r) m ctx hedged sig,
          call (try_sign_with_rng (param_set s) r sk m ctx hedged) g = Val sig -> other_verify m sig ctx PK = true) /\
       (forall (r : Rng) (g : rng_st r) m ctx ph hedged sig,
          call (try_hash_sign_with_rng (param_set s) r sk m ctx (ph_arg ph) hedged) g = Val sig ->
          other_hash_verify m sig ctx (PH_fn ph) PK = true)).
Proof. exact prop_works_with_other_implementations. Qed.
Print Assumptions works_with_other_implementations.

(** a key pair made elsewhere is imported, signs there with randomness, and the signature verifies here *)
Example works_with_other_implementations_applies :
  exists SK PK pk sk sig,
    let b := nrepeat (n2b 9) 24 in
    Fips205.slh_keygen_internal (fips_params SHAKE_192s) (fips_hash (PR := toy_prims) SHAKE_192s) b b b = (SK, PK) /\
    result (sk_try_from_bytes (T := debug64) (P := toy_prims) (param_set SHAKE_192s) SK) = Val sk /\
    result (sk_into_bytes (T := debug64) (param_set SHAKE_192s) sk) = Val SK /\
    result (pk_try_from_bytes (param_set SHAKE_192s) PK) = Val pk /\
    Fips205.slh_sign (fips_params SHAKE_192s) (fips_hash (PR := toy_prims) SHAKE_192s) toy_m toy_ctx SK (Some (Some b)) = Some sig /\
    result (verify (T := debug64) (P := toy_prims) (param_set SHAKE_192s) pk toy_m sig toy_ctx) = Val true.
Proof. exact (other_toy debug64 toy_prims toy_m toy_ctx toy_ctx_le). Qed.
