(** The limit of 2^64 signatures per key. *)
From Coq Require Import String.
From Verif Require Import Spec.Fips205 Spec.Fips205Hash.
From Verif Require Import Model.Api Spec.Vocab Spec.VocabForge Spec.VocabSel Spec.VocabLimit Proof.TopCorrect Proof.TopLimit Proof.Toy Proof.ToyForge.
Import ListNotations.
Open Scope list_scope.
Open Scope N_scope.

(** C80. A key can sign 2^64 messages. For every parameter set and every number q up to 2^64 there is one
    set of sequences of q digests followed by another digest, the same for all keys, hash functions
    and messages, that contains at most a fraction 2^-b of all such sequences, with b = 133 (128s),
    128 (128f), 193 (192s), 194 (192f), 255 (256s and 256f). Whenever q signatures were issued with
    a key and verification accepts a signature, then it was issued, or it exhibits a second preimage
    of a hash function, or a chain value or a secret value that no issued signature reveals (as in
    C55), or its pair of message and randomizer is new and the digests of the issued signatures
    followed by its digest lie in that set. So if digests are random, reuse of few-time keys within
    2^64 signatures costs no more than the stated security level. *)
Theorem two_to_the_64_signatures :
  forall (s : set_name) (q : N), q <= 2 ^ 64 ->
    let tb := table2 s in
    (** a set of pairs of q digests and another one, which depends on nothing else *)
    exists danger : list (list bytes * bytes),
      NoDup danger /\
      (forall ds d, In (ds, d) danger -> nlen ds = q /\ Forall (fun x => nlen x = t_m tb) ds /\ nlen d = t_m tb) /\
      (** a fraction of at most 2^-bits of all such pairs *)
      nlen danger * 2 ^ few_time_bits s <= 2 ^ (8 * t_m tb * (q + 1)) /\
      forall (T : Target) (P : Prims) (pk : SlhPublicKey) (sk : SlhPrivateKey) (hist : list (bytes * bytes)),
        key_pair s pk sk -> issued_by s sk hist -> nlen hist = q ->
      forall (M' sig : bytes) (t : list event), accepting_run s pk M' sig t ->
       let owner := trace (keygen_with_seeds (param_set s) (sk_seed sk) (sk_prf sk) (sk_pk_seed sk)) ++
                    trace (sign_with_randomizer s (block s sig 0) M' sk) in
         (** an accepted signature was issued, *)
         In (M', sig) hist \/
         (** or it exhibits a second preimage, *)
         second_preimage s t owner \/
         (** or a value that lies earlier on a hash chain than the one value issued signatures show, *)
         (exists l i b c w, l < t_d tb /\ i < 2 * seed_bytes s + 3 /\ 1 <= c /\ b + c <= 15 /\
            let (tr, kp) := sig_position s pk M' sig l in
            let v := block s sig (chain_block s l i) in
            In (EHash KF (pk_seed pk) (set_hash_address (chain_address l tr kp i) b) [v]) t /\
            result (chain (HASHERS (param_set s)) v b c (pk_seed pk) (chain_address l tr kp i)) = Val w /\
            forall M2 sig2, In (M2, sig2) hist -> sig_position s pk M2 sig2 l = (tr, kp) ->
              block s sig2 (chain_block s l i) = w) \/
         (** or a secret value that no issued signature reveals, *)
         (exists i, i < t_k tb /\
            block s sig (fors_block s i) = fors_secret s sk (fors_leaf s pk M' sig i) /\
            forall M2 sig2 i2, In (M2, sig2) hist -> i2 < t_k tb ->
              fors_leaf s pk M2 sig2 i2 <> fors_leaf s pk M' sig i) \/
         (** or a pair of randomizer and message not signed before, and its digest together with those of the
             issued signatures is in the set *)
         ((forall M2 sig2, In (M2, sig2) hist -> (M2, block s sig2 0) <> (M', block s sig 0)) /\
          In (map (fun '(M2, sig2) => msg_digest s pk M2 sig2) hist, msg_digest s pk M' sig) danger).
Proof. exact prop_two_to_the_64_signatures. Qed.
Print Assumptions two_to_the_64_signatures.

(** a generated key, two signatures issued under it, and an accepted signature; 2 is at most 2^64 *)
Example two_to_the_64_signatures_applies :
  exists m sig t,
    key_pair (T := debug64) (P := toy_prims) SHAKE_256f (tpk SHAKE_256f) (tsk SHAKE_256f) /\
    issued_by (T := debug64) (P := toy_prims) SHAKE_256f (tsk SHAKE_256f) [(m, sig); (m, sig)] /\
    nlen [(m, sig); (m, sig)] <= 2 ^ 64 /\
    accepting_run (T := debug64) (P := toy_prims) SHAKE_256f (tpk SHAKE_256f) m sig t.
Proof.
  destruct (toy_signs debug64 toy_prims SHAKE_256f) as [sig V].
  pose proof (toy_key_pair debug64 toy_prims SHAKE_256f) as K.
  destruct (proj1 (prop_pure_signatures_verify debug64 toy_prims SHAKE_256f _ _ K counter 5 toy_m toy_ctx true toy_ctx_le) sig V) as [L A].
  eexists _, sig, _. split; [exact K|]. split; [|split].
  - assert (I : exists t, signing_run (T := debug64) (P := toy_prims) SHAKE_256f (tsk SHAKE_256f) (Fips205.pure_M' toy_m toy_ctx) sig t)
      by (eexists; eapply sign_pure; [apply toy_sk_typed|exact V]).
    constructor; [exact I|]. constructor; [exact I|constructor].
  - discriminate.
  - apply (accepts_pure (T := debug64) (P := toy_prims) SHAKE_256f _ toy_m sig toy_ctx L A).
Qed.
