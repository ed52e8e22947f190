(** What an accepted signature implies. *)
From Coq Require Import String.
From Verif Require Import Spec.Fips205 Spec.Fips205Hash.
From Verif Require Import Model.Api Spec.Vocab Spec.VocabForge Proof.TopCorrect Proof.TopForge Proof.TopUnforge Proof.Toy Proof.ToyForge.
Import ListNotations.
Open Scope list_scope.
Open Scope N_scope.

(** C35. An accepted signature is the genuine one or breaks a hash function. If any verification function
    accepts a signature under the public key of a key pair, take the owner's signature of the same
    (framed) message with the same randomizer: it exists, verifies, and equals every signature the
    library issues for that message with that randomizer. Then the accepted signature is that
    signature bit for bit, or the verifier's and the owner's hash invocations contain a second
    preimage (same function, seed and address, different inputs of the same lengths, same value), or
    some block of the accepted signature lies one or more steps earlier on the same WOTS+ hash chain
    than the owner's block, at the position where the verifier started. *)
Theorem forgery_extraction :
  forall (T : Target) (P : Prims) (s : set_name) (pk : SlhPublicKey) (sk : SlhPrivateKey),
    key_pair s pk sk ->
    forall (M' sig : bytes) (t : list event), accepting_run s pk M' sig t ->
    let R := block s sig 0 in
    let signing := sign_with_randomizer s R M' sk in
    let owner := trace (keygen_with_seeds (param_set s) (sk_seed sk) (sk_prf sk) (sk_pk_seed sk)) ++ trace signing in
    exists sg gen,
      (** [gen] is the owner's signature of M' with the same randomizer *)
      result signing = Val sg /\ result (serialize (param_set s) sg) = Val gen /\
      block s gen 0 = R /\ result (raw_verify (param_set s) pk M' gen) = Val true /\
      (forall issued t', signing_run s sk M' issued t' -> block s issued 0 = R -> issued = gen) /\
      (sig = gen \/ second_preimage s t owner \/ earlier_chain_value s pk t M' sig gen).
Proof. exact prop_forgery_extraction. Qed.
Print Assumptions forgery_extraction.

(** with hash functions that ignore their input, two different signatures with the same randomizer are
    both accepted, so the last two cases do occur; with others, an honest signature is accepted *)
Example forgery_extraction_applies :
  (exists m sig1 sig2 t1 t2, sig1 <> sig2 /\ block SHA2_128f sig1 0 = block SHA2_128f sig2 0 /\
    key_pair (T := debug64) (P := weak_prims) SHA2_128f
      (fst (toy_key (P := weak_prims) SHA2_128f)) (snd (toy_key (P := weak_prims) SHA2_128f)) /\
    accepting_run (T := debug64) (P := weak_prims) SHA2_128f (fst (toy_key (P := weak_prims) SHA2_128f)) m sig1 t1 /\
    accepting_run (T := debug64) (P := weak_prims) SHA2_128f (fst (toy_key (P := weak_prims) SHA2_128f)) m sig2 t2) /\
  (exists m sig t,
    key_pair (T := debug64) (P := toy_prims) SHA2_128s (tpk SHA2_128s) (tsk SHA2_128s) /\
    accepting_run (T := debug64) (P := toy_prims) SHA2_128s (tpk SHA2_128s) m sig t).
Proof.
  split.
  - assert (L1 : nlen (nrepeat (n2b 1) 16 ++ [n2b 1] ++ nrepeat (n2b 0) 17071) = sig_size SHA2_128f)
      by (rewrite !nlen_app, !nlen_nrepeat; reflexivity).
    assert (L2 : nlen (nrepeat (n2b 1) 16 ++ [n2b 2] ++ nrepeat (n2b 0) 17071) = sig_size SHA2_128f)
      by (rewrite !nlen_app, !nlen_nrepeat; reflexivity).
    exists [], (nrepeat (n2b 1) 16 ++ [n2b 1] ++ nrepeat (n2b 0) 17071), (nrepeat (n2b 1) 16 ++ [n2b 2] ++ nrepeat (n2b 0) 17071).
    eexists _, _.
    split; [|split; [|split; [apply (toy_key_pair debug64 weak_prims)|split]]].
    + intros E. apply app_inv_head in E. apply (f_equal (fun l => hd (n2b 0) l)) in E.
      discriminate.
    + unfold block. rewrite !sub_bytes_app_l by (rewrite nlen_nrepeat; reflexivity). reflexivity.
    + apply accepts_raw; [exact L1|]. apply weak_accepts. exact L1.
    + apply accepts_raw; [exact L2|]. apply weak_accepts. exact L2.
  - destruct (toy_signs debug64 toy_prims SHA2_128s) as [sig V].
    pose proof (toy_key_pair debug64 toy_prims SHA2_128s) as K.
    destruct (proj1 (prop_pure_signatures_verify debug64 toy_prims SHA2_128s _ _ K counter 5 toy_m toy_ctx true toy_ctx_le) sig V) as [L A].
    eexists _, sig, _. split; [exact K|]. apply (accepts_pure (T := debug64) (P := toy_prims) SHA2_128s _ toy_m sig toy_ctx L A).
Qed.

(** C55. A forgery breaks a hash function. Let the owner of a key have issued any list of signatures, in
    any mode. If any verification function accepts a (framed message, signature) pair under the
    public key, then the pair was issued, or the verifier's and owner's hash invocations contain a
    second preimage, or a signature block lies strictly earlier on a WOTS+ hash chain than the
    single value that issued signatures show for that chain, or the signature contains a FORS secret
    value that no issued signature reveals, or its message digest - for a pair of randomizer and
    message the owner never used - selects only FORS leaves that digests of issued signatures select
    in the same trees.
    These are the cases of the security proof of SPHINCS+: second preimage resistance, one-wayness
    of the chains, unpredictability of the secret values and target-subset resilience of the message
    hash. *)
Theorem unforgeability_reduction :
  forall (T : Target) (P : Prims) (s : set_name) (pk : SlhPublicKey) (sk : SlhPrivateKey) (hist : list (bytes * bytes)),
    key_pair s pk sk -> issued_by s sk hist ->
    let k := t_k (table2 s) in
    (** an issued signature reveals the secrets of the leaves its digest selects *)
    (forall M' sig i, In (M', sig) hist -> i < k ->
       block s sig (fors_block s i) = fors_secret s sk (fors_leaf s pk M' sig i)) /\
    (forall (M' sig : bytes) (t : list event), accepting_run s pk M' sig t ->
     let owner := trace (keygen_with_seeds (param_set s) (sk_seed sk) (sk_prf sk) (sk_pk_seed sk)) ++
                  trace (sign_with_randomizer s (block s sig 0) M' sk) in
       (** it was issued, *)
       In (M', sig) hist \/
       (** or it exhibits a second preimage, *)
       second_preimage s t owner \/
       (** or a value that lies earlier on a hash chain than the one value issued signatures show, *)
       (exists l i b c w, l < t_d (table2 s) /\ i < 2 * seed_bytes s + 3 /\ 1 <= c /\ b + c <= 15 /\
          let (tr, kp) := sig_position s pk M' sig l in
          let v := block s sig (chain_block s l i) in
          In (EHash KF (pk_seed pk) (set_hash_address (chain_address l tr kp i) b) [v]) t /\
          result (chain (HASHERS (param_set s)) v b c (pk_seed pk) (chain_address l tr kp i)) = Val w /\
          forall M2 sig2, In (M2, sig2) hist -> sig_position s pk M2 sig2 l = (tr, kp) ->
            block s sig2 (chain_block s l i) = w) \/
       (** or a secret value that no issued signature reveals, *)
       (exists i, i < k /\
          block s sig (fors_block s i) = fors_secret s sk (fors_leaf s pk M' sig i) /\
          forall M2 sig2 i2, In (M2, sig2) hist -> i2 < k ->
            fors_leaf s pk M2 sig2 i2 <> fors_leaf s pk M' sig i) \/
       (** or its digest, of a new pair of randomizer and message, selects only leaves that digests of
           issued signatures select *)
       ((forall M2 sig2, In (M2, sig2) hist -> (M2, block s sig2 0) <> (M', block s sig 0)) /\
        forall i, i < k -> exists M2 sig2, In (M2, sig2) hist /\
          fors_leaf s pk M2 sig2 i = fors_leaf s pk M' sig i)).
Proof. exact prop_unforgeability_reduction. Qed.
Print Assumptions unforgeability_reduction.

(** a history with one issued signature, accepted; and, with hash functions that ignore their input, an
    accepted signature that was never issued *)
Example unforgeability_reduction_applies :
  (exists m sig t,
    key_pair (T := debug64) (P := toy_prims) SHA2_128s (tpk SHA2_128s) (tsk SHA2_128s) /\
    issued_by (T := debug64) (P := toy_prims) SHA2_128s (tsk SHA2_128s) [(m, sig)] /\
    accepting_run (T := debug64) (P := toy_prims) SHA2_128s (tpk SHA2_128s) m sig t) /\
  (exists m sig t,
    key_pair (T := debug64) (P := weak_prims) SHA2_128f
      (fst (toy_key (P := weak_prims) SHA2_128f)) (snd (toy_key (P := weak_prims) SHA2_128f)) /\
    issued_by (T := debug64) (P := weak_prims) SHA2_128f (snd (toy_key (P := weak_prims) SHA2_128f)) [] /\
    accepting_run (T := debug64) (P := weak_prims) SHA2_128f (fst (toy_key (P := weak_prims) SHA2_128f)) m sig t).
Proof.
  split.
  - destruct (toy_signs debug64 toy_prims SHA2_128s) as [sig V].
    pose proof (toy_key_pair debug64 toy_prims SHA2_128s) as K.
    destruct (proj1 (prop_pure_signatures_verify debug64 toy_prims SHA2_128s _ _ K counter 5 toy_m toy_ctx true toy_ctx_le) sig V) as [L A].
    eexists _, sig, _. split; [exact K|]. split.
    + constructor; [|constructor]. eexists. eapply sign_pure; [apply toy_sk_typed|exact V].
    + apply (accepts_pure (T := debug64) (P := toy_prims) SHA2_128s _ toy_m sig toy_ctx L A).
  - assert (L1 : nlen (nrepeat (n2b 1) 17088) = sig_size SHA2_128f) by (rewrite nlen_nrepeat; reflexivity).
    exists [], (nrepeat (n2b 1) 17088). eexists.
    split; [apply (toy_key_pair debug64 weak_prims)|]. split; [constructor|].
    apply accepts_raw; [exact L1|]. apply weak_accepts. exact L1.
Qed.
