(** The functions that use the generator of the operating system. *)
From Coq Require Import String.
From Verif Require Import Spec.Fips205 Spec.Fips205Hash.
From Verif Require Import Model.Api Spec.Vocab Proof.TopSystem Proof.TopRandom Proof.TopCorrect Proof.TopSafety Proof.Toy Proof.ToyKeys.
Import ListNotations.
Open Scope list_scope.
Open Scope N_scope.

(** C89. The functions without a generator argument use the system generator and nothing else.
    try_keygen, try_sign and try_hash_sign, which take no generator, behave as FIPS 205 prescribes
    with the bytes the operating system's generator supplies. Key generation returns the FIPS 205
    key pair of the three strings drawn and fails when one draw fails. Signing returns exactly the
    FIPS 205 signature, pure or pre-hash, deterministic or hedged as the caller asked; it draws n
    bytes once when hedged and the context has at most 255 bytes, and otherwise leaves the generator
    alone. Every signature made with a key pair from try_keygen verifies. No call panics unless the
    generator does. *)
Theorem system_generator_functions :
  forall (T : Target) (P : Prims) (s : set_name) (os : Rng) (g : rng_st os),
    let n := seed_bytes s in
    let drawn (hedged : bool) (ctx : bytes) := (hedged && (nlen ctx <=? 255))%bool in
    (** key generation *)
    (let '(g1, SKseed) := try_fill os g n in
     let '(g2, SKprf) := try_fill os g1 n in
     let '(g3, PKseed) := try_fill os g2 n in
     exported s (call (try_keygen (param_set s) os) g) =
     Fips205.slh_keygen (fips_params s) (fips_hash s) (ok SKseed) (ok SKprf) (ok PKseed)) /\
    (** signing *)
    (forall sk SK m ctx hedged, sk_typed s sk -> result (sk_into_bytes (param_set s) sk) = Val SK ->
       let sign := try_sign (param_set s) os sk m ctx hedged in
       ok (call sign g) = Fips205.slh_sign (fips_params s) (fips_hash s) m ctx SK (addrnd s os g hedged) /\
       draws (trace_of sign g) = (if drawn hedged ctx then [n] else []) /\
       gen_after sign g = (if drawn hedged ctx then fst (try_fill os g n) else g)) /\
    (forall sk SK m ctx ph hedged, sk_typed s sk -> result (sk_into_bytes (param_set s) sk) = Val SK ->
       let sign := try_hash_sign (param_set s) os sk m ctx (ph_arg ph) hedged in
       ok (call sign g) = Fips205.hash_slh_sign (fips_params s) (fips_hash s) m ctx (PH_fn ph) SK (addrnd s os g hedged) /\
       draws (trace_of sign g) = (if drawn hedged ctx then [n] else []) /\
       gen_after sign g = (if drawn hedged ctx then fst (try_fill os g n) else g)) /\
    (** a generated key pair works *)
    (forall pk sk, call (try_keygen (param_set s) os) g = Val (pk, sk) ->
       forall g' m ctx ph hedged sig,
         (call (try_sign (param_set s) os sk m ctx hedged) g' = Val sig ->
          result (verify (param_set s) pk m sig ctx) = Val true) /\
         (call (try_hash_sign (param_set s) os sk m ctx (ph_arg ph) hedged) g' = Val sig ->
          result (hash_verify (param_set s) pk m sig ctx (ph_arg ph)) = Val true)) /\
    (** nothing panics unless the generator does *)
    (never_panics os ->
       no_panic (call (try_keygen (param_set s) os) g) /\
       forall sk m ctx ph hedged, sk_typed s sk ->
         no_panic (call (try_sign (param_set s) os sk m ctx hedged) g) /\
         no_panic (call (try_hash_sign (param_set s) os sk m ctx (ph_arg ph) hedged) g)).
Proof. exact prop_system_generator_functions. Qed.
Print Assumptions system_generator_functions.

(** a system generator that works, one that fails, and a key with which a context of 256 bytes draws nothing *)
Example system_generator_functions_applies :
  (exists pk sk sig, call (try_keygen (T := debug64) (P := toy_prims) (param_set SHAKE_128f) counter) 0 = Val (pk, sk) /\
     call (try_hash_sign (T := debug64) (P := toy_prims) (param_set SHAKE_128f) counter sk toy_m toy_ctx (ph_arg PH_SHA512) true) 9 = Val sig) /\
  exported (T := debug64) SHAKE_128f (call (try_keygen (T := debug64) (P := toy_prims) (param_set SHAKE_128f) broken) tt) = None /\
  sk_typed SHAKE_128f (tsk SHAKE_128f) /\ 255 < nlen long_ctx /\ never_panics counter.
Proof.
  destruct (prop_keygen_draws debug64 toy_prims SHAKE_128f counter 0) as (_ & _ & _ & K).
  destruct (K _ _ _ _ _ _ (counter_gives 0 _) (counter_gives _ _) (counter_gives _ _)) as (pk & sk & E & _).
  split; [|split; [|split; [apply toy_sk_typed|split; [exact long_ctx_gt|exact counter_safe]]]].
  - exists pk, sk.
    destruct (proj2 (prop_prehash_signatures_verify debug64 toy_prims SHAKE_128f pk sk (kp_generated _ _ _ _ _ E) counter 9 toy_m toy_ctx PH_SHA512 true toy_ctx_le)
                (counter_ok _ _ _)) as [sig V].
    exists sig. split; [exact E|exact V].
  - exact (proj1 (system_generator_functions debug64 toy_prims SHAKE_128f broken tt)).
Qed.
