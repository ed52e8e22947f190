(** Which few-time keys and leaves the message digests select. *)
From Coq Require Import String.
From Verif Require Import Spec.Fips205 Spec.Fips205Hash.
From Verif Require Import Model.Api Spec.Vocab Spec.VocabForge Spec.VocabSel Proof.TopCorrect Proof.TopSelect Proof.Toy Proof.ToyForge.
Import ListNotations.
Open Scope list_scope.
Open Scope N_scope.

(** C63. Message digests select keys and leaves uniformly. The message digest alone decides which
    few-time key (tree and key pair) signs and which leaf of each of its k FORS trees is opened;
    signing publishes exactly the secret values of those leaves and verification recomputes exactly
    those leaves. The choice is unbiased: every possible choice of a key and of one leaf per tree is
    selected by the same number of digests, namely 2^(8m - k*a - h) of the 2^(8m). *)
Theorem digest_selects_uniformly :
  forall s : set_name, let t := table2 s in
  exists select : bytes -> N * N * list N,
    (forall (T : Target) (P : Prims) pk M' sig tr, verifying_run s pk M' sig tr ->
       nlen (msg_digest s pk M' sig) = t_m t /\ opened tr = leaves s (select (msg_digest s pk M' sig))) /\
    (forall (T : Target) (P : Prims) sk M' sig tr, signing_run s sk M' sig tr ->
       nlen (msg_digest s (get_public_key sk) M' sig) = t_m t /\
       published s sig = map (fors_secret s sk) (leaves s (select (msg_digest s (get_public_key sk) M' sig)))) /\
    (forall d, nlen d = t_m t -> in_range s (select d)) /\
    (forall c, in_range s c -> exists ds, NoDup ds /\ nlen ds = 2 ^ (8 * t_m t - t_k t * t_a t - t_h t) /\
       forall d, In d ds <-> nlen d = t_m t /\ select d = c).
Proof. exact prop_digest_selects_uniformly. Qed.
Print Assumptions digest_selects_uniformly.

(** a verification, a signing run, and a selection: the last leaf of every tree of the last key *)
Example digest_selects_uniformly_applies :
  exists t sig t', verifying_run (T := debug64) (P := toy_prims) SHA2_256f (tpk SHA2_256f) toy_m (toy_sig SHA2_256f) t /\
    signing_run (T := debug64) (P := toy_prims) SHA2_256f (tsk SHA2_256f) (Fips205.pure_M' toy_m toy_ctx) sig t' /\
    in_range SHA2_256f (2 ^ 64 - 1, 15, nrepeat 511 35).
Proof.
  destruct (toy_signs debug64 toy_prims SHA2_256f) as [sig V]. eexists. exists sig. eexists. split; [|split].
  - apply verify_raw; [apply toy_pk_typed|apply toy_sig_len].
  - apply (sign_pure (T := debug64) (P := toy_prims) SHA2_256f counter 5 _ toy_m toy_ctx true sig (toy_sk_typed toy_prims _) V).
  - split; [reflexivity|]. split; [reflexivity|]. split; [reflexivity|]. repeat constructor.
Qed.

(** C64. A forgery needs a digest that the signing history endangers. After any history of signatures
    issued with a key there is a set of digests, fixed by the history alone, such that every
    signature that verification accepts was issued, or exhibits a second preimage of a hash
    function, or shows a chain value or a secret value that no issued signature reveals (as in C55),
    or signs a new pair of message and randomizer whose digest lies in the set. The set has at most
    2^(8m - k*a - h) times the sum over the issued signatures of (number of uses of the same
    few-time key)^(k-1) elements; in particular, if no few-time key was used more than g times in q
    signatures, it is at most a fraction q * g^(k-1) / 2^(k*a + h) of all digests. *)
Theorem forgery_needs_endangered_digest :
  forall (T : Target) (P : Prims) (s : set_name) (pk : SlhPublicKey) (sk : SlhPrivateKey) (hist : list (bytes * bytes)),
    key_pair s pk sk -> issued_by s sk hist ->
    let tb := table2 s in
    (** a set of digests fixed by the history, and its size *)
    exists danger : list bytes,
      NoDup danger /\
      nlen danger <= 2 ^ (8 * t_m tb - t_k tb * t_a tb - t_h tb) * reuse s pk hist /\
      (forall g, (forall M' sig, In (M', sig) hist -> times_used s pk hist (fors_key s pk M' sig) <= g) ->
         nlen danger * 2 ^ (t_k tb * t_a tb + t_h tb) <= 2 ^ (8 * t_m tb) * (nlen hist * g ^ (t_k tb - 1))) /\
      (forall (M' sig : bytes) (t : list event), accepting_run s pk M' sig t ->
       let owner := trace (keygen_with_seeds (param_set s) (sk_seed sk) (sk_prf sk) (sk_pk_seed sk)) ++
                    trace (sign_with_randomizer s (block s sig 0) M' sk) in
         (** an accepted signature was issued, *)
         In (M', sig) hist \/
         (** or it exhibits a second preimage, *)
         second_preimage s t owner \/
         (** or a value that lies earlier on a hash chain than the one value issued signatures show, *)
         (exists l i b c w, l < t_d tb /\ i < 2 * seed_bytes s + 3 /\ 1 <= c /\ b + c <= 15 /\
            let (tr, kp) := sig_position s pk M' sig l in
            let v := block s sig (chain_block s l i) in
            In (EHash KF (pk_seed pk) (set_hash_address (chain_address l tr kp i) b) [v]) t /\
            result (chain (HASHERS (param_set s)) v b c (pk_seed pk) (chain_address l tr kp i)) = Val w /\
            forall M2 sig2, In (M2, sig2) hist -> sig_position s pk M2 sig2 l = (tr, kp) ->
              block s sig2 (chain_block s l i) = w) \/
         (** or a secret value that no issued signature reveals, *)
         (exists i, i < t_k tb /\
            block s sig (fors_block s i) = fors_secret s sk (fors_leaf s pk M' sig i) /\
            forall M2 sig2 i2, In (M2, sig2) hist -> i2 < t_k tb ->
              fors_leaf s pk M2 sig2 i2 <> fors_leaf s pk M' sig i) \/
         (** or a pair of randomizer and message not signed before, whose digest is in the set *)
         ((forall M2 sig2, In (M2, sig2) hist -> (M2, block s sig2 0) <> (M', block s sig 0)) /\
          In (msg_digest s pk M' sig) danger)).
Proof. exact prop_forgery_needs_endangered_digest. Qed.
Print Assumptions forgery_needs_endangered_digest.

(** a generated key, a signature issued under it and an accepted signature *)
Example forgery_needs_endangered_digest_applies :
  exists m sig t,
    key_pair (T := debug64) (P := toy_prims) SHA2_128s (tpk SHA2_128s) (tsk SHA2_128s) /\
    issued_by (T := debug64) (P := toy_prims) SHA2_128s (tsk SHA2_128s) [(m, sig)] /\
    accepting_run (T := debug64) (P := toy_prims) SHA2_128s (tpk SHA2_128s) m sig t.
Proof.
  destruct (toy_signs debug64 toy_prims SHA2_128s) as [sig V].
  pose proof (toy_key_pair debug64 toy_prims SHA2_128s) as K.
  destruct (proj1 (prop_pure_signatures_verify debug64 toy_prims SHA2_128s _ _ K counter 5 toy_m toy_ctx true toy_ctx_le) sig V) as [L A].
  eexists _, sig, _. split; [exact K|]. split.
  - constructor; [|constructor]. eexists. eapply sign_pure; [apply toy_sk_typed|exact V].
  - apply (accepts_pure (T := debug64) (P := toy_prims) SHA2_128s _ toy_m sig toy_ctx L A).
Qed.

(** The set of endangered digests of C64 by itself, for any public key and any list of messages and
    signatures. *)
Theorem few_time_reuse_bound :
  forall (T : Target) (P : Prims) (s : set_name) (pk : SlhPublicKey) (hist : list (bytes * bytes)),
    let t := table2 s in
    exists danger : list bytes,
      NoDup danger /\
      nlen danger <= 2 ^ (8 * t_m t - t_k t * t_a t - t_h t) * reuse s pk hist /\
      (forall gamma, (forall M' sig, In (M', sig) hist -> times_used s pk hist (fors_key s pk M' sig) <= gamma) ->
         nlen danger * 2 ^ (t_k t * t_a t + t_h t) <= 2 ^ (8 * t_m t) * (nlen hist * gamma ^ (t_k t - 1))) /\
      (forall M' sig,
         (forall i, i < t_k t -> exists M2 sig2, In (M2, sig2) hist /\ fors_leaf s pk M2 sig2 i = fors_leaf s pk M' sig i) ->
         In (msg_digest s pk M' sig) danger).
Proof. exact prop_few_time_reuse_bound. Qed.
Print Assumptions few_time_reuse_bound.

(** with hash functions that ignore their input, two messages select the same leaves: after one is signed,
    the other's digest is endangered *)
Example few_time_reuse_bound_applies :
  exists pk M1 M2 sig1 sig2, M1 <> M2 /\
    (forall M' sig, In (M', sig) [(M1, sig1)] ->
       times_used (P := weak_prims) SHAKE_128s pk [(M1, sig1)] (fors_key (P := weak_prims) SHAKE_128s pk M' sig) <= 1) /\
    forall i, i < t_k (table2 SHAKE_128s) -> exists M' sig, In (M', sig) [(M1, sig1)] /\
      fors_leaf (P := weak_prims) SHAKE_128s pk M' sig i = fors_leaf (P := weak_prims) SHAKE_128s pk M2 sig2 i.
Proof.
  exists (tpk SHAKE_128s), [n2b 1], [n2b 2], [n2b 3], [n2b 4]. split; [discriminate|]. split.
  - intros M' sig _. unfold times_used. cbn [filter]. destruct (fors_key _ _ _ _) as [a b]. destruct (_ && _); discriminate.
  - intros i _. exists [n2b 1], [n2b 3]. split; [left; reflexivity|]. unfold fors_leaf, sig_digest.
    change (Fips205.H_msg (fips_hash (PR := weak_prims) SHAKE_128s) ?a ?b ?c ?d) with (nrepeat (n2b 7) 30). reflexivity.
Qed.
