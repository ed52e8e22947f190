(** What control flow and memory addresses reveal. *)
From Coq Require Import String.
From Verif Require Import Spec.Fips205 Spec.Fips205Hash.
From Verif Require Import Model.Api Spec.Vocab Spec.VocabLeak Spec.VocabForge Spec.VocabPublic Proof.TopLeak Proof.Toy Proof.ToyLeak Proof.ToyPublic.
Import ListNotations.
Open Scope list_scope.
Open Scope N_scope.

(** C30. Key generation leaks nothing about the seeds through control flow or memory addresses. The
    sequence of branches taken, loop counts, array indices and hash invocations (with their
    addresses and input lengths) of key generation is the same for all seeds of a parameter set, and
    does not depend on any output of a hash function.
    The two calls may even use different hash functions: no output of a hash function reaches a
    branch or an address. *)
Theorem keygen_leaks_nothing :
  forall (T : Target) (P1 P2 : Prims) (s : set_name),
    (forall (r1 r2 : Rng) (g1 : rng_st r1) (g2 : rng_st r2) key1 key2,
       call (try_keygen_with_rng (P := P1) (param_set s) r1) g1 = Val key1 ->
       call (try_keygen_with_rng (P := P2) (param_set s) r2) g2 = Val key2 ->
       leakage (trace_of (try_keygen_with_rng (P := P1) (param_set s) r1) g1) =
       leakage (trace_of (try_keygen_with_rng (P := P2) (param_set s) r2) g2)) /\
    (forall a1 b1 c1 a2 b2 c2 : bytes,
       Forall (fun x => nlen x = seed_bytes s) [a1; b1; c1; a2; b2; c2] ->
       leakage (trace (keygen_with_seeds (P := P1) (param_set s) a1 b1 c1)) =
       leakage (trace (keygen_with_seeds (P := P2) (param_set s) a2 b2 c2))).
Proof. exact prop_keygen_leaks_nothing. Qed.
Print Assumptions keygen_leaks_nothing.

(** two generator states that give keys with different secret seeds, also with different hash functions *)
Example keygen_leaks_nothing_applies :
  call (try_keygen_with_rng (T := debug64) (P := half_prims (n2b 1)) (param_set SHAKE_128s) counter) 3
    = Val (fst (half_key (n2b 1) 3), snd (half_key (n2b 1) 3)) /\
  call (try_keygen_with_rng (T := debug64) (P := half_prims (n2b 2)) (param_set SHAKE_128s) counter) 4
    = Val (fst (half_key (n2b 2) 4), snd (half_key (n2b 2) 4)) /\
  sk_seed (snd (half_key (n2b 1) 3)) <> sk_seed (snd (half_key (n2b 2) 4)) /\
  call (try_keygen_with_rng (T := debug64) (P := toy_prims) (param_set SHA2_128f) counter) 0
    = Val (fst (key_at SHA2_128f 0), snd (key_at SHA2_128f 0)) /\
  call (try_keygen_with_rng (T := debug64) (P := toy_prims) (param_set SHA2_128f) counter) 10
    = Val (fst (key_at SHA2_128f 10), snd (key_at SHA2_128f 10)) /\
  sk_seed (snd (key_at SHA2_128f 0)) <> sk_seed (snd (key_at SHA2_128f 10)) /\
  Forall (fun x => nlen x = seed_bytes SHA2_128f)
    [nrepeat (n2b 0) 16; nrepeat (n2b 1) 16; nrepeat (n2b 2) 16; nrepeat (n2b 9) 16; nrepeat (n2b 8) 16; nrepeat (n2b 7) 16].
Proof.
  split; [apply half_keygen|]. split; [apply half_keygen|]. split; [exact half_seeds_differ|].
  split; [apply key_at_gen|]. split; [apply key_at_gen|].
  split; [rewrite !key_at_seed; intros E; apply (f_equal (fun l => hd (n2b 0) l)) in E; discriminate|].
  repeat constructor.
Qed.

(** C31. Signing leaks only public information through control flow or memory addresses. The branches,
    loop counts, array indices and hash invocations (addresses and lengths) of a successful signing
    run are a function of public data: the parameter set, the lengths of message and context, the
    hedged flag, and the values any verifier recomputes from public key, message and signature (the
    message digest and the value signed in each layer). Two runs that agree on these leak the same,
    whatever their keys, messages, randomness and hash functions; in particular two runs with the
    same public key, message and signature.
    What the observer sees is a function of the lengths, the hedged flag and the values every
    verifier recomputes. *)
Theorem signing_leakage_is_public :
  forall (T : Target) (P1 P2 : Prims) (s : set_name) (sk1 sk2 : SlhPrivateKey) (r1 r2 : Rng)
         (g1 : rng_st r1) (g2 : rng_st r2) (hedged : bool) (sig1 sig2 : bytes),
    sk_typed s sk1 -> sk_typed s sk2 ->
    (forall m1 m2 ctx1 ctx2, nlen m1 = nlen m2 -> nlen ctx1 = nlen ctx2 ->
       call (try_sign_with_rng (P := P1) (param_set s) r1 sk1 m1 ctx1 hedged) g1 = Val sig1 ->
       call (try_sign_with_rng (P := P2) (param_set s) r2 sk2 m2 ctx2 hedged) g2 = Val sig2 ->
       public_view (P := P1) s (get_public_key sk1) (Fips205.pure_M' m1 ctx1) sig1 =
       public_view (P := P2) s (get_public_key sk2) (Fips205.pure_M' m2 ctx2) sig2 ->
       leakage (trace_of (try_sign_with_rng (P := P1) (param_set s) r1 sk1 m1 ctx1 hedged) g1) =
       leakage (trace_of (try_sign_with_rng (P := P2) (param_set s) r2 sk2 m2 ctx2 hedged) g2)) /\
    (forall m1 m2 ctx1 ctx2 ph, nlen m1 = nlen m2 -> nlen ctx1 = nlen ctx2 ->
       call (try_hash_sign_with_rng (P := P1) (param_set s) r1 sk1 m1 ctx1 (ph_arg ph) hedged) g1 = Val sig1 ->
       call (try_hash_sign_with_rng (P := P2) (param_set s) r2 sk2 m2 ctx2 (ph_arg ph) hedged) g2 = Val sig2 ->
       public_view (P := P1) s (get_public_key sk1)
         (Fips205.hash_M' (fst (PH_fn (PR := P1) ph m1)) (snd (PH_fn (PR := P1) ph m1)) ctx1) sig1 =
       public_view (P := P2) s (get_public_key sk2)
         (Fips205.hash_M' (fst (PH_fn (PR := P2) ph m2)) (snd (PH_fn (PR := P2) ph m2)) ctx2) sig2 ->
       leakage (trace_of (try_hash_sign_with_rng (P := P1) (param_set s) r1 sk1 m1 ctx1 (ph_arg ph) hedged) g1) =
       leakage (trace_of (try_hash_sign_with_rng (P := P2) (param_set s) r2 sk2 m2 ctx2 (ph_arg ph) hedged) g2)) /\
    (forall m1 m2, nlen m1 = nlen m2 ->
       call (raw_sign (P := P1) (param_set s) r1 sk1 m1 hedged) g1 = Val sig1 ->
       call (raw_sign (P := P2) (param_set s) r2 sk2 m2 hedged) g2 = Val sig2 ->
       public_view (P := P1) s (get_public_key sk1) m1 sig1 =
       public_view (P := P2) s (get_public_key sk2) m2 sig2 ->
       leakage (trace_of (raw_sign (P := P1) (param_set s) r1 sk1 m1 hedged) g1) =
       leakage (trace_of (raw_sign (P := P2) (param_set s) r2 sk2 m2 hedged) g2)).
Proof. exact prop_signing_leakage_is_public. Qed.
Print Assumptions signing_leakage_is_public.

(** different hash functions, different seeds, different messages, different signatures, and still the
    verifiers recompute the same values *)
Example signing_leakage_is_public_applies :
  sk_typed SHAKE_128s (snd (half_key (n2b 1) 3)) /\ sk_typed SHAKE_128s (snd (half_key (n2b 2) 4)) /\
  sk_seed (snd (half_key (n2b 1) 3)) <> sk_seed (snd (half_key (n2b 2) 4)) /\
  shake256 (Prims := half_prims (n2b 1)) (nrepeat (n2b 0) 64) 16 <> shake256 (Prims := half_prims (n2b 2)) (nrepeat (n2b 0) 64) 16 /\
  half_m1 <> half_m2 /\ nlen half_m1 = nlen half_m2 /\
  exists sig1 sig2,
    call (try_sign_with_rng (T := debug64) (P := half_prims (n2b 1)) (param_set SHAKE_128s) counter (snd (half_key (n2b 1) 3)) half_m1 toy_ctx true) 5 = Val sig1 /\
    call (try_sign_with_rng (T := debug64) (P := half_prims (n2b 2)) (param_set SHAKE_128s) counter (snd (half_key (n2b 2) 4)) half_m2 toy_ctx true) 8 = Val sig2 /\
    block SHAKE_128s sig1 0 <> block SHAKE_128s sig2 0 /\
    public_view (P := half_prims (n2b 1)) SHAKE_128s (get_public_key (snd (half_key (n2b 1) 3))) (Fips205.pure_M' half_m1 toy_ctx) sig1 =
    public_view (P := half_prims (n2b 2)) SHAKE_128s (get_public_key (snd (half_key (n2b 2) 4))) (Fips205.pure_M' half_m2 toy_ctx) sig2.
Proof.
  split; [apply half_typed|]. split; [apply half_typed|]. split; [exact half_seeds_differ|].
  split; [exact half_prims_differ|]. split; [discriminate|]. split; [reflexivity|]. exact (half_views debug64).
Qed.

(** C31. Signing leaks only public information through control flow or memory addresses. The branches,
    loop counts, array indices and hash invocations (addresses and lengths) of a successful signing
    run are a function of public data: the parameter set, the lengths of message and context, the
    hedged flag, and the values any verifier recomputes from public key, message and signature (the
    message digest and the value signed in each layer). Two runs that agree on these leak the same,
    whatever their keys, messages, randomness and hash functions; in particular two runs with the
    same public key, message and signature.
    The signature and the public key determine everything the observer sees. *)
Theorem signing_leaks_only_public :
  forall (T : Target) (P : Prims) (s : set_name) (sk1 sk2 : SlhPrivateKey) (r1 r2 : Rng)
         (g1 : rng_st r1) (g2 : rng_st r2) (hedged : bool) (sig : bytes),
    sk_typed s sk1 -> sk_typed s sk2 -> get_public_key sk1 = get_public_key sk2 ->
    (forall m ctx,
       call (try_sign_with_rng (param_set s) r1 sk1 m ctx hedged) g1 = Val sig ->
       call (try_sign_with_rng (param_set s) r2 sk2 m ctx hedged) g2 = Val sig ->
       leakage (trace_of (try_sign_with_rng (param_set s) r1 sk1 m ctx hedged) g1) =
       leakage (trace_of (try_sign_with_rng (param_set s) r2 sk2 m ctx hedged) g2)) /\
    (forall m ctx ph,
       call (try_hash_sign_with_rng (param_set s) r1 sk1 m ctx ph hedged) g1 = Val sig ->
       call (try_hash_sign_with_rng (param_set s) r2 sk2 m ctx ph hedged) g2 = Val sig ->
       leakage (trace_of (try_hash_sign_with_rng (param_set s) r1 sk1 m ctx ph hedged) g1) =
       leakage (trace_of (try_hash_sign_with_rng (param_set s) r2 sk2 m ctx ph hedged) g2)) /\
    (forall m,
       call (raw_sign (param_set s) r1 sk1 m hedged) g1 = Val sig ->
       call (raw_sign (param_set s) r2 sk2 m hedged) g2 = Val sig ->
       leakage (trace_of (raw_sign (param_set s) r1 sk1 m hedged) g1) =
       leakage (trace_of (raw_sign (param_set s) r2 sk2 m hedged) g2)).
Proof. exact prop_signing_leaks_only_public. Qed.
Print Assumptions signing_leaks_only_public.

(** two private keys with different SK.prf, the same public key and the same signature *)
Example signing_leaks_only_public_applies :
  exists sig,
    sk_typed SHAKE_128s (tsk SHAKE_128s) /\ sk_typed SHAKE_128s sk_other /\
    sk_prf sk_other <> sk_prf (tsk SHAKE_128s) /\ get_public_key sk_other = get_public_key (tsk SHAKE_128s) /\
    call (try_sign_with_rng (T := debug64) (P := toy_prims) (param_set SHAKE_128s) counter (tsk SHAKE_128s) toy_m toy_ctx true) 5 = Val sig /\
    call (try_sign_with_rng (T := debug64) (P := toy_prims) (param_set SHAKE_128s) counter sk_other toy_m toy_ctx true) 5 = Val sig.
Proof.
  destruct (sk_other_signs debug64 toy_m toy_ctx toy_ctx_le) as (sig & S1 & S2). exists sig.
  split; [apply toy_sk_typed|]. split; [exact sk_other_typed|]. split; [exact sk_other_differs|].
  split; [exact sk_other_pk|]. split; [exact S1|exact S2].
Qed.

(** C51. Importing a private key leaks exactly whether it is valid and where its root is wrong; exporting
    leaks nothing. Two private-key encodings of the right length that are both accepted take the
    same branches, array indices, slices and hash invocations (addresses and lengths), and so do two
    that are rejected because the stored root first differs from the right one at the same byte (an
    observer of the comparison sees where it stops); two imports whose roots go wrong at different
    bytes never do, so an observer learns that position and nothing else. Exports of any two private
    keys always take the same branches, indices and slices. The two imports may use different hash
    functions. *)
Theorem import_export_leak_only_validity :
  forall (T : Target) (P1 P2 : Prims) (s : set_name),
    (forall bs1 bs2, nlen bs1 = sk_size s -> nlen bs2 = sk_size s ->
       (** both accepted, *)
       (ok (result (sk_try_from_bytes (P := P1) (param_set s) bs1)) <> None /\
        ok (result (sk_try_from_bytes (P := P2) (param_set s) bs2)) <> None) \/
       (** or the stored root differs from the right one at the same position *)
       agreeing_root_bytes (P := P1) s bs1 = agreeing_root_bytes (P := P2) s bs2 <->
       leakage (trace (sk_try_from_bytes (P := P1) (param_set s) bs1)) =
       leakage (trace (sk_try_from_bytes (P := P2) (param_set s) bs2))) /\
    (forall sk1 sk2, sk_typed s sk1 -> sk_typed s sk2 ->
       leakage (trace (sk_into_bytes (param_set s) sk1)) =
       leakage (trace (sk_into_bytes (param_set s) sk2))).
Proof. exact prop_import_export_leak_only_validity. Qed.
Print Assumptions import_export_leak_only_validity.

(** two encodings that are both accepted and hold different secret seeds *)
Example import_export_leak_only_validity_applies :
  exists bs1 bs2 sk1 sk2, nlen bs1 = sk_size SHA2_128f /\ nlen bs2 = sk_size SHA2_128f /\
    result (sk_try_from_bytes (T := debug64) (P := toy_prims) (param_set SHA2_128f) bs1) = Val sk1 /\
    result (sk_try_from_bytes (T := debug64) (P := toy_prims) (param_set SHA2_128f) bs2) = Val sk2 /\
    sk_seed sk1 <> sk_seed sk2 /\ sk_typed SHA2_128f sk1 /\ sk_typed SHA2_128f sk2.
Proof.
  destruct (key_at_import debug64 SHA2_128f 0) as (b1 & L1 & I1). destruct (key_at_import debug64 SHA2_128f 10) as (b2 & L2 & I2).
  exists b1, b2, (snd (key_at SHA2_128f 0)), (snd (key_at SHA2_128f 10)).
  split; [exact L1|]. split; [exact L2|]. split; [exact I1|]. split; [exact I2|].
  split; [rewrite !key_at_seed; intros E; apply (f_equal (fun l => hd (n2b 0) l)) in E; discriminate|].
  split; apply key_at_typed.
Qed.
