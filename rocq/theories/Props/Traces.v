(** Addresses, indices, one-time keys and the number of hash calls, for every request. *)
From Coq Require Import String.
From Verif Require Import Spec.Fips205 Spec.Fips205Hash.
From Verif Require Import Model.Api Spec.Vocab Proof.TopTrace Proof.TopPath Proof.TopCorrect Proof.Toy Proof.ToyTrace.
Import ListNotations.
Open Scope list_scope.
Open Scope N_scope.

(** C32. The signer never reuses a hash address for two different inputs. Across key generation and any
    number of signatures of any messages under one key pair, any two invocations of the
    address-taking hash functions (PRF, F, H, T) that use the same address are invocations of the
    same function on the same input. *)
Theorem no_address_reuse :
  forall (T : Target) (P : Prims) (s : set_name) (sk : SlhPrivateKey) (t1 t2 : list event),
    owner_run s sk t1 -> owner_run s sk t2 ->
    forall (k1 k2 : hkind) (seed1 seed2 : bytes) (a : Adrs) (in1 in2 : list bytes),
      In (EHash k1 seed1 a in1) t1 -> In (EHash k2 seed2 a in2) t2 ->
      k1 = k2 /\ seed1 = seed2 /\ in1 = in2.
Proof. exact prop_no_address_reuse. Qed.
Print Assumptions no_address_reuse.

(** key generation and a signature of the same key, querying a common address *)
Example no_address_reuse_applies :
  exists t1 t2 k q a i, owner_run (T := debug64) (P := toy_prims) SHA2_128s (tsk SHA2_128s) t1 /\
    owner_run (T := debug64) (P := toy_prims) SHA2_128s (tsk SHA2_128s) t2 /\
    In (EHash k q a i) t1 /\ In (EHash k q a i) t2.
Proof.
  destruct (toy_shared_address debug64 toy_prims SHA2_128s) as (sig & k & q & a & i & _ & I1 & I2).
  do 2 eexists. exists k, q, a, i. split; [|split; [|split; [exact I1|exact I2]]].
  - apply (owner_keygen (T := debug64) (P := toy_prims) SHA2_128s counter 0 (tpk SHA2_128s)).
    rewrite (toy_keygen debug64 toy_prims SHA2_128s). apply f_equal, surjective_pairing.
  - apply owner_sign. apply toy_sk_typed.
Qed.

(** C33. Compressed addresses stay unambiguous. The 22-byte address encoding used with SHA-2
    distinguishes any two addresses that key generation, signing or verification can use, exactly as
    the 32-byte encoding does. *)
Theorem compressed_addresses_unambiguous :
  forall (T : Target) (P : Prims) (s1 s2 : set_name) (t1 t2 : list event) (k1 k2 : hkind)
         (seed1 seed2 : bytes) (a1 a2 : Adrs) (in1 in2 : list bytes),
    any_run s1 t1 -> In (EHash k1 seed1 a1 in1) t1 ->
    any_run s2 t2 -> In (EHash k2 seed2 a2 in2) t2 ->
    (exists c1 c2, result (to_22_bytes a1) = Val c1 /\ result (to_22_bytes a2) = Val c2 /\
       nlen c1 = 22 /\ nlen c2 = 22 /\ (c1 = c2 -> a1 = a2)) /\
    (exists c1 c2, result (to_32_bytes a1) = Val c1 /\ result (to_32_bytes a2) = Val c2 /\
       nlen c1 = 32 /\ nlen c2 = 32 /\ (c1 = c2 -> a1 = a2)).
Proof. exact prop_compressed_addresses_unambiguous. Qed.
Print Assumptions compressed_addresses_unambiguous.

Example compressed_addresses_unambiguous_applies :
  exists t1 t2 k q a i, any_run (T := debug64) (P := toy_prims) SHA2_256f t1 /\
    any_run (T := debug64) (P := toy_prims) SHA2_256f t2 /\ In (EHash k q a i) t1 /\ In (EHash k q a i) t2.
Proof.
  destruct (toy_shared_address debug64 toy_prims SHA2_256f) as (sig & k & q & a & i & _ & I1 & I2).
  do 2 eexists. exists k, q, a, i. split; [|split; [|split; [exact I1|exact I2]]].
  - apply any_keygen.
  - apply any_sign. apply toy_sk_typed.
Qed.

(** C37. Tree and leaf indices come from the right digest bits and are in range. For every message
    digest, the hypertree leaf used by signing and verification is below 2^h' and the tree index
    below 2^(h-h'), computed as FIPS 205 prescribes (including the set with a full 64-bit tree
    index), and no in-range index causes the internal conversion errors or a false rejection.
    Indices stay in range because the tree index is reduced modulo 2^(h-h') and the leaf index
    modulo 2^h'; that no in-range index makes signing or verification fail is part of C04 and C05. *)
Theorem indices_from_digest :
  forall (T : Target) (P : Prims) (s : set_name) (pk : SlhPublicKey) (M' sig : bytes) (t : list event),
    let tb := table2 s in
    let digest := H_msg (fips_hash s) (block s sig 0) (pk_seed pk) (pk_root pk) M' in
    let '(md, idx_tree, idx_leaf) := Fips205.split_digest (fips_params s) digest in
    idx_tree < 2 ^ (t_h tb - t_h' tb) /\ idx_leaf < 2 ^ t_h' tb /\
    (completed_run s pk M' sig t ->
     forall k seed a inp, In (EHash k seed a inp) t ->
       seed = pk_seed pk /\ a_layer a < t_d tb /\ a_tree a = path_tree s idx_tree (a_layer a) /\ a_type a <= 6 /\
       (a_type a = 0 \/ a_type a = 1 \/ a_type a = 5 -> a_word1 a < 2 ^ t_h' tb) /\
       (a_type a = 3 \/ a_type a = 4 \/ a_type a = 6 -> a_layer a = 0 /\ a_word1 a = idx_leaf)) /\
    (verifying_run s pk M' sig t ->
     (forall k seed a inp, In (EHash k seed a inp) t ->
        (a_type a = 0 \/ a_type a = 1 -> a_word1 a = path_leaf s idx_tree idx_leaf (a_layer a)) /\
        (a_type a = 2 -> 1 <= a_word2 a <= t_h' tb /\
           a_word3 a = path_leaf s idx_tree idx_leaf (a_layer a) / 2 ^ a_word2 a) /\
        (a_type a = 3 -> a_word2 a <= t_a tb /\ exists i, i < t_k tb /\
           a_word3 a = (i * 2 ^ t_a tb + nth (N.to_nat i) (Fips205.base_2b md (t_a tb) (t_k tb)) 0) / 2 ^ a_word2 a) /\
        a_type a <= 4) /\
     (forall j, j < t_d tb -> exists a inp, In (EHash KTl (pk_seed pk) a inp) t /\
        a_type a = 1 /\ a_layer a = j /\ a_tree a = path_tree s idx_tree j /\
        a_word1 a = path_leaf s idx_tree idx_leaf j)).
Proof. exact prop_indices_from_digest. Qed.
Print Assumptions indices_from_digest.

Example indices_from_digest_applies :
  exists t sig t', verifying_run (T := debug64) (P := toy_prims) SHA2_256f (tpk SHA2_256f) toy_m (toy_sig SHA2_256f) t /\
    completed_run (T := debug64) (P := toy_prims) SHA2_256f (get_public_key (tsk SHA2_256f))
      (Fips205.pure_M' toy_m toy_ctx) sig t'.
Proof.
  destruct (toy_signs debug64 toy_prims SHA2_256f) as [sig V]. eexists. exists sig. eexists. split.
  - apply verify_raw; [apply toy_pk_typed|apply toy_sig_len].
  - apply (run_sign (T := debug64) (P := toy_prims) SHA2_256f counter 5 _ toy_m toy_ctx true sig (toy_sk_typed toy_prims _) V).
Qed.

(** C47. One-time keys are used once. In all signatures one private key ever issues, whatever the
    messages, two signatures that pass through the same one-time key (same layer, same tree, same
    leaf) carry identical bytes for that layer: a WOTS+ key never signs two different values. *)
Theorem one_time_keys_sign_one_value :
  forall (T : Target) (P : Prims) (s : set_name) (sk : SlhPrivateKey) (M1 M2 sig1 sig2 : bytes)
         (tr1 tr2 : list event),
    signing_run s sk M1 sig1 tr1 -> signing_run s sk M2 sig2 tr2 ->
    let digest M' sig := H_msg (fips_hash s) (block s sig 0) (sk_pk_seed sk) (sk_pk_root sk) M' in
    let '(md1, it1, il1) := Fips205.split_digest (fips_params s) (digest M1 sig1) in
    let '(md2, it2, il2) := Fips205.split_digest (fips_params s) (digest M2 sig2) in
    forall j, j < t_d (table2 s) ->
      path_tree s it1 j = path_tree s it2 j -> path_leaf s it1 il1 j = path_leaf s it2 il2 j ->
      layer_bytes s sig1 j = layer_bytes s sig2 j.
Proof. exact prop_one_time_keys_sign_one_value. Qed.
Print Assumptions one_time_keys_sign_one_value.

(** two different messages whose digests meet in every one-time key: with hash functions that ignore
    their input *)
Definition flat_prims : Prims.
Proof.
  refine {| sha256 := fun _ => nrepeat (n2b 9) 32; sha512 := fun _ => nrepeat (n2b 9) 64;
            shake128 := fun _ k => nrepeat (n2b 9) k; shake256 := fun _ k => nrepeat (n2b 9) k |};
    intros; apply nlen_nrepeat.
Defined.
Example one_time_keys_sign_one_value_applies :
  exists sk sig1 sig2 t1 t2,
    signing_run (T := debug64) (P := flat_prims) SHAKE_128s sk [n2b 1] sig1 t1 /\
    signing_run (T := debug64) (P := flat_prims) SHAKE_128s sk [n2b 2] sig2 t2 /\
    let digest M' sig := H_msg (fips_hash (PR := flat_prims) SHAKE_128s) (block SHAKE_128s sig 0) (sk_pk_seed sk) (sk_pk_root sk) M' in
    digest [n2b 1] sig1 = digest [n2b 2] sig2.
Proof.
  exists (snd (toy_key (P := flat_prims) SHAKE_128s)).
  pose proof (prop_raw_signatures_verify debug64 flat_prims SHAKE_128s _ _ (toy_key_pair _ flat_prims _) broken tt) as K.
  destruct (proj2 (K [n2b 1] false)) as [sig1 E1]; [discriminate|].
  destruct (proj2 (K [n2b 2] false)) as [sig2 E2]; [discriminate|].
  exists sig1, sig2. do 2 eexists. split; [|split].
  - apply (sign_raw (T := debug64) (P := flat_prims) SHAKE_128s broken tt _ _ false sig1 (toy_sk_typed flat_prims _) E1).
  - apply (sign_raw (T := debug64) (P := flat_prims) SHAKE_128s broken tt _ _ false sig2 (toy_sk_typed flat_prims _) E2).
  - reflexivity.
Qed.

(** C41. Verification work is bounded. Verification performs at most k(a+1) + 2 + d(15*len + h' + 1)
    keyed-hash invocations whatever the input, so no hostile signature makes it run longer.
    The bound counts the message hash, and F, H and T calls; it holds for any public key value, and
    trivially for a context that is refused. *)
Theorem verification_work_bounded :
  forall (T : Target) (P : Prims) (s : set_name) (pk : SlhPublicKey) (m sig ctx : bytes) (ph : Ph),
    nlen sig = sig_size s ->
    let t := table2 s in
    let bound := t_k t * (t_a t + 1) + 2 + t_d t * (15 * (2 * t_n t + 3) + t_h' t + 1) in
    hash_count (trace (verify (param_set s) pk m sig ctx)) <= bound /\
    hash_count (trace (hash_verify (param_set s) pk m sig ctx ph)) <= bound /\
    hash_count (trace (raw_verify (param_set s) pk m sig)) <= bound.
Proof. exact prop_verification_work_bounded. Qed.
Print Assumptions verification_work_bounded.

Example verification_work_bounded_applies :
  nlen (toy_sig SHA2_128s) = sig_size SHA2_128s /\
  (let t := table2 SHA2_128s in
   t_k t * (t_a t + 1) + 2 + t_d t * (15 * (2 * t_n t + 3) + t_h' t + 1) = 3929).
Proof. split; [apply toy_sig_len|reflexivity]. Qed.

(** C50. Key generation and signing work is bounded. Key generation and private-key import perform
    exactly 2^h'(16*len+2)-1 keyed-hash invocations whatever the seeds, and no signature takes more
    than 2 + k*3*2^a + k(a+1)+1 + d((2^h'-1)(16*len+2) + 31*len + h'+1) of them. *)
Theorem keygen_and_signing_work :
  forall (T : Target) (P : Prims) (s : set_name),
    let t := table2 s in
    let len := 2 * t_n t + 3 in
    let root := 2 ^ t_h' t * (16 * len + 2) - 1 in
    (forall r g pk sk, call (try_keygen_with_rng (param_set s) r) g = Val (pk, sk) ->
       hash_count (trace_of (try_keygen_with_rng (param_set s) r) g) = root) /\
    (forall bs, nlen bs = sk_size s -> hash_count (trace (sk_try_from_bytes (param_set s) bs)) = root) /\
    (forall sk M' sig tr, signing_run s sk M' sig tr ->
       hash_count tr <= 2 + t_k t * (3 * 2 ^ t_a t) + (t_k t * (t_a t + 1) + 1) +
         t_d t * ((2 ^ t_h' t - 1) * (16 * len + 2) + 16 * len + (15 * len + t_h' t + 1))).
Proof. exact prop_keygen_and_signing_work. Qed.
Print Assumptions keygen_and_signing_work.

Example keygen_and_signing_work_applies :
  exists sig t, call (try_keygen_with_rng (T := debug64) (P := toy_prims) (param_set SHA2_192s) counter) 0 = Val (tpk SHA2_192s, tsk SHA2_192s) /\
    signing_run (T := debug64) (P := toy_prims) SHA2_192s (tsk SHA2_192s) (Fips205.pure_M' toy_m toy_ctx) sig t /\
    2 ^ t_h' (table2 SHA2_192s) * (16 * (2 * t_n (table2 SHA2_192s) + 3) + 2) - 1 = 418815.
Proof.
  destruct (toy_signs debug64 toy_prims SHA2_192s) as [sig V]. exists sig. eexists.
  split; [rewrite (toy_keygen debug64 toy_prims SHA2_192s); apply f_equal, surjective_pairing|]. split; [|reflexivity].
  apply (sign_pure (T := debug64) (P := toy_prims) SHA2_192s counter 5 _ toy_m toy_ctx true sig (toy_sk_typed toy_prims _) V).
Qed.
