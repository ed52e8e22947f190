(** What a signature is about. *)
From Coq Require Import String.
From Verif Require Import Spec.Fips205 Spec.Fips205Hash.
From Verif Require Import Model.Api Spec.Vocab Spec.VocabForge Spec.VocabPublic Spec.VocabBind Proof.TopKeySub Proof.TopPair Proof.Toy Proof.ToyForge.
Import ListNotations.
Open Scope list_scope.
Open Scope N_scope.

(** C83. A pre-hash signature is about the digest only. If two messages have the same digest under the
    chosen pre-hash function, then signing them in pre-hash mode is the same run (same outcome, same
    requests to the generator, same hash calls), and verifying any bytes for them gives the same
    answer by the same steps, for every parameter set, key and context. So a pre-hash signature is
    worth no more than the collision resistance of the pre-hash function, which the caller chooses
    freely: SHA-256 with a category 5 parameter set is not refused. *)
Theorem prehash_signs_digest_only :
  forall (T : Target) (P : Prims) (s : set_name) (r : Rng) (g : rng_st r) (sk : SlhPrivateKey) (pk : SlhPublicKey)
         (m1 m2 ctx sig : bytes) (ph : prehash) (hedged : bool),
    snd (PH_fn ph m1) = snd (PH_fn ph m2) ->
    let sign m := try_hash_sign_with_rng (param_set s) r sk m ctx (ph_arg ph) hedged in
    let check m := hash_verify (param_set s) pk m sig ctx (ph_arg ph) in
    (** the same signature, the same requests to the generator, the same steps *)
    call (sign m1) g = call (sign m2) g /\ gen_after (sign m1) g = gen_after (sign m2) g /\
    trace_of (sign m1) g = trace_of (sign m2) g /\
    (** the same answer, the same steps *)
    result (check m1) = result (check m2) /\ trace (check m1) = trace (check m2).
Proof. exact prop_prehash_signs_digest_only. Qed.
Print Assumptions prehash_signs_digest_only.

(** hash functions with collisions: different messages with the same digest *)
Example prehash_signs_digest_only_applies :
  forall ph, toy_m <> [] /\ snd (PH_fn (PR := weak_prims) ph toy_m) = snd (PH_fn (PR := weak_prims) ph []).
Proof. intros ph. split; [discriminate|]. destruct ph; reflexivity. Qed.

(** C84. Signature, public seed and selection determine the key. Verification accepts exactly when the
    root in the public key is the one value computed from the public seed, the signature and the
    selection (the FORS digest, tree index and leaf index taken from the message hash). The message
    and the root enter only through that selection. So if one signature is accepted under two public
    keys with the same public seed, for any two messages whose hashes select the same leaf of every
    FORS tree, the two keys are equal. *)
Theorem signature_determines_root :
  forall (T : Target) (P : Prims) (s : set_name),
    (** public seed, signature and selection determine the only root that is accepted *)
    (exists root_of : bytes -> bytes -> bytes * N * N -> bytes,
       forall pk M sig, nlen sig = sig_size s ->
         (result (raw_verify (param_set s) pk M sig) = Val true <->
          pk_root pk = root_of (pk_seed pk) sig (sig_digest s pk M sig))) /\
    (** so one signature cannot serve two keys with one public seed when the two message digests select
        the same leaf of every FORS tree *)
    (forall pk1 pk2 sig M1 M2 t1 t2,
       accepting_run s pk1 M1 sig t1 -> accepting_run s pk2 M2 sig t2 ->
       pk_seed pk1 = pk_seed pk2 ->
       (forall i, i < t_k (table2 s) -> fors_leaf s pk1 M1 sig i = fors_leaf s pk2 M2 sig i) ->
       pk1 = pk2).
Proof. exact prop_signature_determines_root. Qed.
Print Assumptions signature_determines_root.

(** one signature, two messages, the same selection *)
Example signature_determines_root_applies :
  exists pk sig M1 M2 t1 t2, M1 <> M2 /\
    accepting_run (T := debug64) (P := weak_prims) SHA2_128f pk M1 sig t1 /\
    accepting_run (T := debug64) (P := weak_prims) SHA2_128f pk M2 sig t2 /\
    (forall i, fors_leaf (P := weak_prims) SHA2_128f pk M1 sig i = fors_leaf (P := weak_prims) SHA2_128f pk M2 sig i).
Proof.
  assert (L1 : nlen (nrepeat (n2b 1) 17088) = sig_size SHA2_128f) by (rewrite nlen_nrepeat; reflexivity).
  exists (fst (toy_key (P := weak_prims) SHA2_128f)), (nrepeat (n2b 1) 17088), [n2b 1], [n2b 2].
  eexists _, _. split; [discriminate|]. split; [|split; [|reflexivity]]; (apply accepts_raw; [exact L1|apply weak_accepts; exact L1]).
Qed.
