(** What is handed to the message hash. *)
From Coq Require Import String.
From Verif Require Import Spec.Fips205 Spec.Fips205Hash.
From Verif Require Import Model.Api Spec.Vocab Proof.TopFraming Proof.Toy.
Import ListNotations.
Open Scope list_scope.
Open Scope N_scope.

(** C22. Message framing is injective for pure signatures. Two pure-mode requests hand the same byte
    string to the message hash only if both their contexts and their messages are equal. *)
Theorem pure_framing_injective :
  forall (T : Target) (P : Prims) (s1 s2 : set_name) (m1 ctx1 m2 ctx2 : bytes) (t1 t2 : list event)
         (R1 S1 Q1 R2 S2 Q2 M' : bytes),
    pure_run s1 m1 ctx1 t1 -> pure_run s2 m2 ctx2 t2 ->
    In (R1, S1, Q1, M') (hmsg_calls t1) -> In (R2, S2, Q2, M') (hmsg_calls t2) ->
    ctx1 = ctx2 /\ m1 = m2.
Proof. exact prop_pure_framing_injective. Qed.
Print Assumptions pure_framing_injective.

(** signing runs with a message-hash call exist *)
Example pure_framing_injective_applies :
  exists t R S Q, pure_run (T := debug64) (P := toy_prims) SHA2_128s toy_m toy_ctx t /\
    In (R, S, Q, Fips205.pure_M' toy_m toy_ctx) (hmsg_calls t).
Proof.
  do 4 eexists. split; [apply (pure_verify_run (T := debug64) (P := toy_prims) SHA2_128s toy_m toy_ctx
    (tpk SHA2_128s) _ (toy_sig_len _))|].
  rewrite (proj1 (completed_hmsg _ _ _ _ _ (run_verify (T := debug64) (P := toy_prims) SHA2_128s
    (tpk SHA2_128s) toy_m _ toy_ctx (toy_pk_typed toy_prims _) (toy_sig_len _) toy_ctx_le))).
  left. reflexivity.
Qed.

(** C23. Pure and pre-hash modes never share a framed message. No pure-mode request and pre-hash request
    (any contexts, messages and pre-hash function) hand the same byte string to the message hash, so
    a signature made in one mode is never about the same framed message as one made in the other. *)
Theorem pure_and_prehash_framing_disjoint :
  forall (T : Target) (P : Prims) (s1 s2 : set_name) (m1 ctx1 m2 ctx2 : bytes) (ph2 : prehash)
         (t1 t2 : list event) (R1 S1 Q1 R2 S2 Q2 M1 M2 : bytes),
    pure_run s1 m1 ctx1 t1 -> hash_run s2 m2 ctx2 ph2 t2 ->
    In (R1, S1, Q1, M1) (hmsg_calls t1) -> In (R2, S2, Q2, M2) (hmsg_calls t2) ->
    M1 <> M2.
Proof. exact prop_pure_and_prehash_framing_disjoint. Qed.
Print Assumptions pure_and_prehash_framing_disjoint.

Example pure_and_prehash_framing_disjoint_applies :
  exists t R S Q, hash_run (T := debug64) (P := toy_prims) SHA2_128s toy_m toy_ctx PH_SHA256 t /\
    In (R, S, Q, Fips205.hash_M' (fst (PH_fn (PR := toy_prims) PH_SHA256 toy_m)) (snd (PH_fn (PR := toy_prims) PH_SHA256 toy_m)) toy_ctx) (hmsg_calls t).
Proof.
  do 4 eexists. split; [apply (hash_verify_run (T := debug64) (P := toy_prims) SHA2_128s toy_m toy_ctx PH_SHA256
    (tpk SHA2_128s) _ (toy_sig_len _))|].
  rewrite (proj1 (completed_hmsg _ _ _ _ _ (run_hash_verify (T := debug64) (P := toy_prims) SHA2_128s
    (tpk SHA2_128s) toy_m _ toy_ctx PH_SHA256 (toy_pk_typed toy_prims _) (toy_sig_len _) toy_ctx_le))).
  left. reflexivity.
Qed.

(** C24. Message framing is injective for pre-hash signatures. Two pre-hash requests hand the same byte
    string to the message hash only if their contexts, their pre-hash functions and the pre-hash
    digests of their messages are equal. *)
Theorem prehash_framing_injective :
  forall (T : Target) (P : Prims) (s1 s2 : set_name) (m1 ctx1 m2 ctx2 : bytes) (ph1 ph2 : prehash)
         (t1 t2 : list event) (R1 S1 Q1 R2 S2 Q2 M' : bytes),
    hash_run s1 m1 ctx1 ph1 t1 -> hash_run s2 m2 ctx2 ph2 t2 ->
    In (R1, S1, Q1, M') (hmsg_calls t1) -> In (R2, S2, Q2, M') (hmsg_calls t2) ->
    ctx1 = ctx2 /\ ph1 = ph2 /\ snd (PH_fn ph1 m1) = snd (PH_fn ph2 m2).
Proof. exact prop_prehash_framing_injective. Qed.
Print Assumptions prehash_framing_injective.

Example prehash_framing_injective_applies :
  exists t R S Q, hash_run (T := debug64) (P := toy_prims) SHAKE_256s toy_m toy_ctx PH_SHAKE256 t /\
    In (R, S, Q, Fips205.hash_M' (fst (PH_fn (PR := toy_prims) PH_SHAKE256 toy_m)) (snd (PH_fn (PR := toy_prims) PH_SHAKE256 toy_m)) toy_ctx) (hmsg_calls t).
Proof.
  do 4 eexists. split; [apply (hash_verify_run (T := debug64) (P := toy_prims) SHAKE_256s toy_m toy_ctx PH_SHAKE256
    (tpk SHAKE_256s) _ (toy_sig_len _))|].
  rewrite (proj1 (completed_hmsg _ _ _ _ _ (run_hash_verify (T := debug64) (P := toy_prims) SHAKE_256s
    (tpk SHAKE_256s) toy_m _ toy_ctx PH_SHAKE256 (toy_pk_typed toy_prims _) (toy_sig_len _) toy_ctx_le))).
  left. reflexivity.
Qed.

(** C46. Signatures bind to the public key through the message hash. The message digest used by signing
    and by verification is computed over the randomizer, both halves of the public key and the whole
    framed message; two runs hand the same string to that hash only if randomizer, public key and
    framed message all agree. *)
Theorem digest_binds_key_and_message :
  forall (T : Target) (P : Prims) (s : set_name) (pk : SlhPublicKey) (M' sig : bytes) (t : list event),
    completed_run s pk M' sig t ->
    let R := sub_bytes sig 0 (seed_bytes s) in
    hmsg_calls t = [(R, pk_seed pk, pk_root pk, M')] /\
    forall (pk2 : SlhPublicKey) (M2 sig2 : bytes) (t2 : list event),
      completed_run s pk2 M2 sig2 t2 ->
      let R2 := sub_bytes sig2 0 (seed_bytes s) in
      R ++ pk_seed pk ++ pk_root pk ++ M' = R2 ++ pk_seed pk2 ++ pk_root pk2 ++ M2 ->
      R = R2 /\ pk = pk2 /\ M' = M2.
Proof. exact prop_digest_binds_key_and_message. Qed.
Print Assumptions digest_binds_key_and_message.

Example digest_binds_key_and_message_applies :
  exists sig t, completed_run (T := debug64) (P := toy_prims) SHA2_128s (get_public_key (tsk SHA2_128s))
    (Fips205.pure_M' toy_m toy_ctx) sig t.
Proof.
  destruct (toy_signs debug64 toy_prims SHA2_128s) as [sig V]. exists sig. eexists.
  apply (run_sign (T := debug64) (P := toy_prims) SHA2_128s counter 5 _ toy_m toy_ctx true sig (toy_sk_typed toy_prims _) V).
Qed.

(** C40. External interfaces are the raw interface on framed messages. try_sign on (ctx, m) returns the
    same signature as the raw interface on the bytes 0||len(ctx)||ctx||m with the same randomness,
    and the pre-hash interface the same as raw on 1||len(ctx)||ctx||OID||digest; likewise for
    verification. *)
Theorem external_is_raw_on_framed_message :
  forall (T : Target) (P : Prims) (s : set_name) (r : Rng) (g : rng_st r) (sk : SlhPrivateKey)
         (pk : SlhPublicKey) (m ctx sig : bytes) (ph : prehash) (hedged : bool),
    sk_typed s sk -> nlen ctx <= 255 -> nlen sig = sig_size s ->
    let pure := [n2b 0; n2b (nlen ctx)] ++ ctx ++ m in
    let '(OID, digest) := PH_fn ph m in
    let pre := [n2b 1; n2b (nlen ctx)] ++ ctx ++ OID ++ digest in
    let f1 := try_sign_with_rng (param_set s) r sk m ctx hedged in
    let f1' := raw_sign (param_set s) r sk pure hedged in
    let f2 := try_hash_sign_with_rng (param_set s) r sk m ctx (ph_arg ph) hedged in
    let f2' := raw_sign (param_set s) r sk pre hedged in
    (call f1 g = call f1' g /\ gen_after f1 g = gen_after f1' g) /\
    (call f2 g = call f2' g /\ gen_after f2 g = gen_after f2' g) /\
    result (verify (param_set s) pk m sig ctx) = result (raw_verify (param_set s) pk pure sig) /\
    result (hash_verify (param_set s) pk m sig ctx (ph_arg ph)) = result (raw_verify (param_set s) pk pre sig).
Proof. exact prop_external_is_raw_on_framed_message. Qed.
Print Assumptions external_is_raw_on_framed_message.

Example external_is_raw_on_framed_message_applies :
  sk_typed SHA2_192f (tsk SHA2_192f) /\ nlen toy_ctx <= 255 /\
  nlen (toy_sig SHA2_192f) = sig_size SHA2_192f.
Proof. split; [apply toy_sk_typed|]. split; [exact toy_ctx_le|apply toy_sig_len]. Qed.
