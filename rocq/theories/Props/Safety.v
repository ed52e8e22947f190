(** Absence of panics, the context-length rule, errors and sizes. *)
From Coq Require Import String.
From Verif Require Import Spec.Fips205 Spec.Fips205Hash.
From Verif Require Import Model.Api Spec.Vocab Proof.TopSafety Proof.Toy.
Import ListNotations.
Open Scope list_scope.
Open Scope N_scope.

(** C04. Verification never panics on hostile input. verify, hash_verify and _test_only_raw_verify return
    a boolean, and do not panic, overflow an integer, index out of bounds or fail an assertion, for
    every public key byte string of the right size, every signature byte string of the right size,
    every message and every context of any length, with or without debug assertions and overflow
    checks. *)
Theorem verify_never_panics :
  forall (T : Target) (P : Prims) (s : set_name) (pkb m sig ctx : bytes) (ph : prehash),
    nlen pkb = pk_size s -> nlen sig = sig_size s ->
    exists pk,
      result (pk_try_from_bytes (param_set s) pkb) = Val pk /\
      (exists b, result (verify (param_set s) pk m sig ctx) = Val b) /\
      (exists b, result (hash_verify (param_set s) pk m sig ctx (ph_arg ph)) = Val b) /\
      (exists b, result (raw_verify (param_set s) pk m sig) = Val b).
Proof. exact prop_verify_never_panics. Qed.
Print Assumptions verify_never_panics.

Example verify_never_panics_applies :
  nlen (toy_pkb SHA2_256s) = pk_size SHA2_256s /\ nlen (toy_sig SHA2_256s) = sig_size SHA2_256s /\
  exists pk b, result (verify (T := debug64) (P := toy_prims) (param_set SHA2_256s) pk toy_m (toy_sig SHA2_256s) long_ctx)
    = Val b.
Proof.
  split; [apply toy_pkb_len|]. split; [apply toy_sig_len|].
  destruct (verify_never_panics debug64 toy_prims SHA2_256s _ toy_m _ long_ctx PH_SHA256 (toy_pkb_len _) (toy_sig_len _))
    as [pk [_ [[b E] _]]].
  exists pk, b. exact E.
Qed.

(** C05. Key generation and signing never panic. With a random generator that does not itself panic,
    try_keygen_with_rng, try_sign_with_rng, try_hash_sign_with_rng, _test_only_raw_sign, and both
    key-import functions return a value or an error and never panic, overflow, index out of bounds
    or fail an assertion. *)
Theorem keygen_sign_import_never_panic :
  forall (T : Target) (P : Prims) (s : set_name) (r : Rng) (g : rng_st r),
    never_panics r ->
    no_panic (call (try_keygen_with_rng (param_set s) r) g) /\
    (forall skb, nlen skb = sk_size s -> no_panic (result (sk_try_from_bytes (param_set s) skb))) /\
    (forall pkb, nlen pkb = pk_size s -> no_panic (result (pk_try_from_bytes (param_set s) pkb))) /\
    (forall pk, pk_typed s pk -> no_panic (result (pk_into_bytes (param_set s) pk))) /\
    forall sk, sk_typed s sk ->
      no_panic (result (sk_into_bytes (param_set s) sk)) /\
      forall m ctx ph hedged,
        no_panic (call (try_sign_with_rng (param_set s) r sk m ctx hedged) g) /\
        no_panic (call (try_hash_sign_with_rng (param_set s) r sk m ctx (ph_arg ph) hedged) g) /\
        no_panic (call (raw_sign (param_set s) r sk m hedged) g).
Proof. exact prop_keygen_sign_import_never_panic. Qed.
Print Assumptions keygen_sign_import_never_panic.

Example keygen_sign_import_never_panic_applies :
  never_panics counter /\ never_panics broken /\ never_panics flaky /\
  sk_typed SHA2_128f (tsk SHA2_128f).
Proof.
  split; [exact counter_safe|]. split; [intros g k g' q E; discriminate|].
  split; [intros g k g' q E; cbn in E; destruct (g =? 1); discriminate|]. apply toy_sk_typed.
Qed.

(** C21. Contexts longer than 255 bytes are refused, shorter ones never are. Signing (pure or pre-hash)
    with a context of more than 255 bytes returns the context error without consulting the random
    generator, verification with such a context returns false, and no context of at most 255 bytes
    causes an error. *)
Theorem context_length_rule :
  forall (T : Target) (P : Prims) (s : set_name) (r : Rng) (g : rng_st r) (sk : SlhPrivateKey)
         (pk : SlhPublicKey) (m ctx sig : bytes) (ph : prehash) (hedged : bool),
    sk_typed s sk ->
    let sign := try_sign_with_rng (param_set s) r sk m ctx hedged in
    let hash_sign := try_hash_sign_with_rng (param_set s) r sk m ctx (ph_arg ph) hedged in
    let too_long := "ctx must be less than 256 bytes"%string in
    (255 < nlen ctx ->
       call sign g = Err too_long /\ gen_after sign g = g /\ draws (trace_of sign g) = [] /\
       call hash_sign g = Err too_long /\ gen_after hash_sign g = g /\ draws (trace_of hash_sign g) = [] /\
       result (verify (param_set s) pk m sig ctx) = Val false /\
       result (hash_verify (param_set s) pk m sig ctx (ph_arg ph)) = Val false) /\
    (nlen ctx <= 255 -> call sign g <> Err too_long /\ call hash_sign g <> Err too_long).
Proof. exact prop_context_length_rule. Qed.
Print Assumptions context_length_rule.

Example context_length_rule_applies :
  sk_typed SHAKE_128s (tsk SHAKE_128s) /\ 255 < nlen long_ctx /\ nlen toy_ctx <= 255 /\
  call (try_sign_with_rng (T := debug64) (P := toy_prims) (param_set SHAKE_128s) counter (tsk SHAKE_128s)
          toy_m long_ctx true) 0 = Err "ctx must be less than 256 bytes"%string.
Proof.
  split; [apply toy_sk_typed|]. split; [exact long_ctx_gt|]. split; [exact toy_ctx_le|].
  apply (context_length_rule debug64 toy_prims SHAKE_128s counter 0 (tsk SHAKE_128s) (tpk SHAKE_128s)
           toy_m long_ctx toy_m PH_SHA256 true (toy_sk_typed toy_prims _)). exact long_ctx_gt.
Qed.

(** C38. Signing fails only for a long context or a failing generator. The only error results of the
    signing functions are the context-length error and the generator error; the internal error paths
    are unreachable. *)
Theorem signing_errors_exhaustive :
  forall (T : Target) (P : Prims) (s : set_name) (r : Rng) (g : rng_st r) (sk : SlhPrivateKey)
         (m ctx : bytes) (ph : prehash) (hedged : bool) (e : string),
    sk_typed s sk ->
    (call (try_sign_with_rng (param_set s) r sk m ctx hedged) g = Err e ->
       255 < nlen ctx /\ e = "ctx must be less than 256 bytes"%string \/
       nlen ctx <= 255 /\ hedged = true /\ refuses r g (seed_bytes s) /\ e = "Alg17: rng failed"%string) /\
    (call (try_hash_sign_with_rng (param_set s) r sk m ctx (ph_arg ph) hedged) g = Err e ->
       255 < nlen ctx /\ e = "ctx must be less than 256 bytes"%string \/
       nlen ctx <= 255 /\ hedged = true /\ refuses r g (seed_bytes s) /\ e = "Alg17: rng failed"%string) /\
    (call (raw_sign (param_set s) r sk m hedged) g = Err e ->
       hedged = true /\ refuses r g (seed_bytes s) /\ e = "Alg17: rng failed"%string).
Proof. exact prop_signing_errors_exhaustive. Qed.
Print Assumptions signing_errors_exhaustive.

Example signing_errors_exhaustive_applies :
  sk_typed SHAKE_128s (tsk SHAKE_128s) /\
  call (try_sign_with_rng (T := debug64) (P := toy_prims) (param_set SHAKE_128s) counter (tsk SHAKE_128s)
          toy_m long_ctx true) 0 = Err "ctx must be less than 256 bytes"%string /\
  refuses broken tt (seed_bytes SHAKE_128s).
Proof.
  split; [apply toy_sk_typed|].
  split; [|apply broken_refuses].
  unfold call. rewrite (try_sign_long _ _ _ _ _ _ _ long_ctx_gt). reflexivity.
Qed.

(** C39. Outputs always have the documented sizes. Every signature has exactly SIG_LEN bytes, every
    exported public key PK_LEN and every exported private key SK_LEN = 2*PK_LEN bytes, with no
    padding left unwritten by serialization. *)
Theorem output_sizes :
  forall (T : Target) (P : Prims) (s : set_name),
    (forall pk, pk_typed s pk ->
       exists bs, result (pk_into_bytes (param_set s) pk) = Val bs /\ nlen bs = pk_size s) /\
    (forall sk, sk_typed s sk ->
       (exists bs, result (sk_into_bytes (param_set s) sk) = Val bs /\ nlen bs = sk_size s) /\
       forall (r : Rng) (g : rng_st r) m ctx ph hedged sig,
         call (try_sign_with_rng (param_set s) r sk m ctx hedged) g = Val sig \/
         call (try_hash_sign_with_rng (param_set s) r sk m ctx (ph_arg ph) hedged) g = Val sig \/
         call (raw_sign (param_set s) r sk m hedged) g = Val sig ->
         nlen sig = sig_size s) /\
    (forall (r : Rng) (g : rng_st r) pk sk,
       call (try_keygen_with_rng (param_set s) r) g = Val (pk, sk) -> pk_typed s pk /\ sk_typed s sk).
Proof. exact prop_output_sizes. Qed.
Print Assumptions output_sizes.

Example output_sizes_applies :
  pk_typed SHA2_128s (tpk SHA2_128s) /\
  sk_typed SHA2_128s (tsk SHA2_128s) /\
  exists sig, call (try_sign_with_rng (T := debug64) (P := toy_prims) (param_set SHA2_128s) counter
                (tsk SHA2_128s) toy_m toy_ctx true) 5 = Val sig /\ nlen sig = 7856.
Proof.
  split; [apply toy_pk_typed|]. split; [apply toy_sk_typed|].
  destruct (toy_signs debug64 toy_prims SHA2_128s) as [sig E]. exists sig. split; [exact E|].
  refine (proj2 (proj1 (proj2 (output_sizes debug64 toy_prims SHA2_128s)) _ (toy_sk_typed toy_prims _)) counter 5 toy_m toy_ctx
            PH_SHA256 true sig _). left. exact E.
Qed.
