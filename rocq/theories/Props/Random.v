(** Use of the random generator. *)
From Coq Require Import String.
From Verif Require Import Spec.Fips205 Spec.Fips205Hash.
From Verif Require Import Model.Api Spec.Vocab Proof.TopRandom Proof.TopSafety Proof.Toy.
Import ListNotations.
Open Scope list_scope.
Open Scope N_scope.

(** C25. Deterministic signing ignores the random generator. With hedged = false, signing makes no call
    to the random generator, leaves its state unchanged and returns a signature that depends only on
    key, message and context (and pre-hash function), even with a generator that always fails. *)
Theorem deterministic_signing_ignores_rng :
  forall (T : Target) (P : Prims) (s : set_name) (sk : SlhPrivateKey) (m ctx : bytes) (ph : prehash),
    sk_typed s sk -> nlen ctx <= 255 ->
    exists sig hsig rsig, forall (r : Rng) (g : rng_st r),
      let f1 := try_sign_with_rng (param_set s) r sk m ctx false in
      let f2 := try_hash_sign_with_rng (param_set s) r sk m ctx (ph_arg ph) false in
      let f3 := raw_sign (param_set s) r sk m false in
      (call f1 g = Val sig /\ gen_after f1 g = g /\ draws (trace_of f1 g) = []) /\
      (call f2 g = Val hsig /\ gen_after f2 g = g /\ draws (trace_of f2 g) = []) /\
      (call f3 g = Val rsig /\ gen_after f3 g = g /\ draws (trace_of f3 g) = []).
Proof. exact prop_deterministic_signing_ignores_rng. Qed.
Print Assumptions deterministic_signing_ignores_rng.

Example deterministic_signing_ignores_rng_applies :
  sk_typed SHA2_192f (tsk SHA2_192f) /\ nlen toy_ctx <= 255.
Proof. split; [apply toy_sk_typed|exact toy_ctx_le]. Qed.

(** C26. Hedged signing draws exactly once and fails closed. With hedged = true and an acceptable
    context, signing makes exactly one request of n bytes to the generator; if it fails an error is
    returned and no signature; if it succeeds the signature is the one FIPS 205 defines for those n
    bytes. *)
Theorem hedged_signing_draws_once :
  forall (T : Target) (P : Prims) (s : set_name) (r : Rng) (g : rng_st r) (sk : SlhPrivateKey)
         (SK m ctx : bytes) (ph : prehash),
    sk_typed s sk -> result (sk_into_bytes (param_set s) sk) = Val SK -> nlen ctx <= 255 ->
    let fips M b := Fips205.slh_sign_internal (fips_params s) (fips_hash s) M SK (Some b) in
    let '(OID, digest) := PH_fn ph m in
    forall (f : RM r bytes) (M' : bytes),
      f = try_sign_with_rng (param_set s) r sk m ctx true /\ M' = Fips205.pure_M' m ctx \/
      f = try_hash_sign_with_rng (param_set s) r sk m ctx (ph_arg ph) true /\
        M' = Fips205.hash_M' OID digest ctx \/
      f = raw_sign (param_set s) r sk m true /\ M' = m ->
      draws (trace_of f g) = [seed_bytes s] /\
      gen_after f g = fst (try_fill r g (seed_bytes s)) /\
      (forall g' b, gives r g (seed_bytes s) b g' -> call f g = Val (fips M' b)) /\
      (refuses r g (seed_bytes s) -> call f g = Err "Alg17: rng failed"%string).
Proof. exact prop_hedged_signing_draws_once. Qed.
Print Assumptions hedged_signing_draws_once.

Example hedged_signing_draws_once_applies :
  exists SK, sk_typed SHA2_192s (tsk SHA2_192s) /\
    result (sk_into_bytes (T := debug64) (param_set SHA2_192s) (tsk SHA2_192s)) = Val SK /\
    gives counter 5 24 (nrepeat (n2b 5) 24) 6 /\ refuses broken tt 24.
Proof.
  destruct (prop_output_sizes debug64 toy_prims SHA2_192s) as [_ [K _]].
  destruct (K _ (toy_sk_typed toy_prims _)) as [[bs [E _]] _].
  exists bs. split; [apply toy_sk_typed|]. split; [exact E|]. split; [apply counter_gives|apply broken_refuses].
Qed.

(** C27. Key generation draws three n-byte strings in order and fails closed. try_keygen_with_rng
    requests exactly SK.seed, SK.prf and PK.seed, n bytes each, in that order; the first failing
    request ends the call with an error, without further requests and without a key. *)
Theorem keygen_draws :
  forall (T : Target) (P : Prims) (s : set_name) (r : Rng) (g : rng_st r),
    let n := seed_bytes s in
    let f := try_keygen_with_rng (param_set s) r in
    (refuses r g n ->
       call f g = Err "Alg17: rng failed1"%string /\ draws (trace_of f g) = [n] /\
       gen_after f g = fst (try_fill r g n)) /\
    (forall a g1, gives r g n a g1 -> refuses r g1 n ->
       call f g = Err "Alg17: rng failed2"%string /\ draws (trace_of f g) = [n; n] /\
       gen_after f g = fst (try_fill r g1 n)) /\
    (forall a b g1 g2, gives r g n a g1 -> gives r g1 n b g2 -> refuses r g2 n ->
       call f g = Err "Alg17: rng failed3"%string /\ draws (trace_of f g) = [n; n; n] /\
       gen_after f g = fst (try_fill r g2 n)) /\
    (forall a b c g1 g2 g3, gives r g n a g1 -> gives r g1 n b g2 -> gives r g2 n c g3 ->
       exists pk sk, call f g = Val (pk, sk) /\ draws (trace_of f g) = [n; n; n] /\ gen_after f g = g3 /\
         exported s (Val (pk, sk)) =
           Some (Fips205.slh_keygen_internal (fips_params s) (fips_hash s) a b c)).
Proof. exact prop_keygen_draws. Qed.
Print Assumptions keygen_draws.

Example keygen_draws_applies :
  (exists a g1, gives flaky 0 16 a g1 /\ refuses flaky g1 16) /\
  call (try_keygen_with_rng (T := debug64) (P := toy_prims) (param_set SHA2_128s) flaky) 0 = Err "Alg17: rng failed2"%string.
Proof.
  assert (G : gives flaky 0 16 (nrepeat (n2b 0) 16) 1) by reflexivity.
  assert (R : refuses flaky 1 16) by (do 2 eexists; reflexivity).
  split; [do 2 eexists; split; [exact G|exact R]|].
  apply (proj1 (proj2 (keygen_draws debug64 toy_prims SHA2_128s flaky 0)) _ _ G R).
Qed.

(** C28. Seeded key generation equals key generation from those bytes. keygen_with_seeds with n-byte
    seeds returns exactly the key pair that try_keygen_with_rng returns for a generator that outputs
    those three seeds, and never panics; with seeds of another size it panics. *)
Theorem keygen_with_seeds :
  forall (T : Target) (P : Prims) (s : set_name) (a b c : bytes),
    (nlen a = seed_bytes s -> nlen b = seed_bytes s -> nlen c = seed_bytes s ->
       exists pk sk, result (keygen_with_seeds (param_set s) a b c) = Val (pk, sk) /\
         exported s (Val (pk, sk)) = Some (Fips205.slh_keygen_internal (fips_params s) (fips_hash s) a b c) /\
         forall (r : Rng) (g g1 g2 g3 : rng_st r),
           gives r g (seed_bytes s) a g1 -> gives r g1 (seed_bytes s) b g2 -> gives r g2 (seed_bytes s) c g3 ->
           call (try_keygen_with_rng (param_set s) r) g = Val (pk, sk)) /\
    (~ (nlen a = seed_bytes s /\ nlen b = seed_bytes s /\ nlen c = seed_bytes s) ->
       exists q, result (keygen_with_seeds (param_set s) a b c) = Panic q).
Proof. exact prop_keygen_with_seeds. Qed.
Print Assumptions keygen_with_seeds.

Example keygen_with_seeds_applies :
  nlen (nrepeat (n2b 9) 16) = seed_bytes SHA2_128s /\
  (exists q, result (Api.keygen_with_seeds (T := debug64) (P := toy_prims) (param_set SHA2_128s) toy_m toy_m toy_m) = Panic q).
Proof.
  split; [reflexivity|]. apply (keygen_with_seeds debug64 toy_prims SHA2_128s). intros [K _]. discriminate K.
Qed.
