(** Calls by several threads. *)
From Coq Require Import String Permutation.
From Verif Require Import Spec.Fips205 Spec.Fips205Hash.
From Verif Require Import Model.Api Spec.Vocab Spec.VocabConc Proof.TopConc Proof.Toy.
Import ListNotations.
Open Scope list_scope.
Open Scope N_scope.

(** C59. Concurrent calls with a shared key and generator behave like sequential ones. When several
    threads call the library at once, sharing keys and the system's generator, then whatever the
    interleaving of their generator requests: every signature returned is the FIPS 205 signature for
    the randomness that very call received, and verifies; every key pair generated is the FIPS 205
    key pair for the three seeds that call received; every verification decides as FIPS 205 and
    requests nothing. If no call generates keys they are linearizable: there is an order of the
    calls, respecting real time, such that executing them one after the other yields the same
    results and the same generator state. Key generation makes three requests, and two key
    generations can interleave so that no order of them explains the results. *)
Theorem concurrent_calls_are_fips :
  forall (T : Target) (P : Prims) (s : set_name) (r : Rng) (g0 : rng_st r) (calls : list tcall)
         (log : list happening) (g : rng_st r) (outs : list (outcome tout)),
    concurrent s r g0 calls log g outs ->
    forall i c o, nth_error calls i = Some c -> nth_error outs i = Some o ->
    match c with
    | TKeygen =>
        forall pk sk, o = Val (OKeys pk sk) ->
          key_pair s pk sk /\
          exists SKseed SKprf PKseed, answers i log = [Val SKseed; Val SKprf; Val PKseed] /\
            exported s (Val (pk, sk)) =
              Some (Fips205.slh_keygen_internal (fips_params s) (fips_hash s) SKseed SKprf PKseed)
    | TSign sk m ctx hedged =>
        forall pk SK, key_pair s pk sk -> result (sk_into_bytes (param_set s) sk) = Val SK ->
          sig_of o = Fips205.slh_sign (fips_params s) (fips_hash s) m ctx SK (randomness (answers i log)) /\
          forall sig, o = Val (OSig sig) ->
            result (verify (param_set s) pk m sig ctx) = Val true /\
            length (answers i log) = if hedged then 1%nat else 0%nat
    | THashSign sk m ctx ph hedged =>
        forall pk SK, key_pair s pk sk -> result (sk_into_bytes (param_set s) sk) = Val SK ->
          sig_of o = Fips205.hash_slh_sign (fips_params s) (fips_hash s) m ctx (PH_fn ph) SK (randomness (answers i log)) /\
          forall sig, o = Val (OSig sig) ->
            result (hash_verify (param_set s) pk m sig ctx (ph_arg ph)) = Val true /\
            length (answers i log) = if hedged then 1%nat else 0%nat
    | TRawSign sk m hedged =>
        forall pk SK, key_pair s pk sk -> result (sk_into_bytes (param_set s) sk) = Val SK ->
          sig_of o = match randomness (answers i log) with
                     | Some None => None
                     | Some (Some b) => Some (Fips205.slh_sign_internal (fips_params s) (fips_hash s) m SK (Some b))
                     | None => Some (Fips205.slh_sign_internal (fips_params s) (fips_hash s) m SK None)
                     end /\
          forall sig, o = Val (OSig sig) ->
            result (raw_verify (param_set s) pk m sig) = Val true /\
            length (answers i log) = if hedged then 1%nat else 0%nat
    | TVerify pk m sig ctx =>
        forall PK, pk_typed s pk -> result (pk_into_bytes (param_set s) pk) = Val PK -> nlen sig = sig_size s ->
          o = Val (OVerdict (Fips205.slh_verify (fips_params s) (fips_hash s) m sig ctx PK)) /\ answers i log = []
    | THashVerify pk m sig ctx ph =>
        forall PK, pk_typed s pk -> result (pk_into_bytes (param_set s) pk) = Val PK -> nlen sig = sig_size s ->
          o = Val (OVerdict (Fips205.hash_slh_verify (fips_params s) (fips_hash s) m sig ctx (PH_fn ph) PK)) /\
          answers i log = []
    | TRawVerify pk m sig =>
        forall PK, pk_typed s pk -> result (pk_into_bytes (param_set s) pk) = Val PK -> nlen sig = sig_size s ->
          o = Val (OVerdict (Fips205.slh_verify_internal (fips_params s) (fips_hash s) m sig PK)) /\
          answers i log = []
    end.
Proof. exact prop_concurrent_calls_are_fips. Qed.
Print Assumptions concurrent_calls_are_fips.

(* two threads share a key and the generator; the one that begins first is served last *)
Definition two_threads_log : list happening :=
  [Begin 0; Begin 1; Ask 1 16 (Val (nrepeat (n2b 0) 16)); Ask 0 16 (Val (nrepeat (n2b 1) 16)); End_ 0; End_ 1].
Definition two_threads_calls : list tcall :=
  [TSign (tsk SHA2_128f) toy_m toy_ctx true; TSign (tsk SHA2_128f) [] toy_ctx true].
Lemma two_threads :
  exists sig0 sig1,
    concurrent (T := debug64) (P := toy_prims) SHA2_128f counter 0 two_threads_calls two_threads_log 2
      [Val (OSig sig0); Val (OSig sig1)].
Proof.
  pose proof (toy_sk_typed toy_prims SHA2_128f) as W.
  destruct (completes_hedged (T := debug64) (P := toy_prims) SHA2_128f _ toy_m toy_ctx 0 two_threads_log (nrepeat (n2b 1) 16) W toy_ctx_le
              (nlen_nrepeat _ _) eq_refl) as [sig0 C0].
  destruct (completes_hedged (T := debug64) (P := toy_prims) SHA2_128f _ [] toy_ctx 1 two_threads_log (nrepeat (n2b 0) 16) W toy_ctx_le
              (nlen_nrepeat _ _) eq_refl) as [sig1 C1].
  exists sig0, sig1. split; [|split; [|split]].
  - repeat constructor. apply (served_ask counter _ _ _ _ (0 + 1)); [apply counter_gives|].
    apply (served_ask counter _ _ _ _ (0 + 1 + 1)); [apply counter_gives|]. repeat constructor.
  - intros e I. unfold two_threads_log in I. cbn [In] in I. cbn [length two_threads_calls].
    repeat (destruct I as [<-|I]; [cbn [thread]; lia|]). destruct I.
  - reflexivity.
  - intros [|[|i]] c o E1 E2; cbn [nth_error two_threads_calls] in E1, E2.
    + assert (Ec : TSign (tsk SHA2_128f) toy_m toy_ctx true = c) by (apply (f_equal (fun x => match x with Some y => y | None => c end)) in E1; exact E1).
      assert (Eo : Val (OSig sig0) = o) by (apply (f_equal (fun x => match x with Some y => y | None => o end)) in E2; exact E2).
      rewrite <- Ec, <- Eo. exists [(16, Val (nrepeat (n2b 1) 16))]. exact C0.
    + assert (Ec : TSign (tsk SHA2_128f) [] toy_ctx true = c) by (apply (f_equal (fun x => match x with Some y => y | None => c end)) in E1; exact E1).
      assert (Eo : Val (OSig sig1) = o) by (apply (f_equal (fun x => match x with Some y => y | None => o end)) in E2; exact E2).
      rewrite <- Ec, <- Eo. exists [(16, Val (nrepeat (n2b 0) 16))]. exact C1.
    + destruct i; discriminate E1.
Qed.

Example concurrent_calls_are_fips_applies :
  exists sig1 SK,
    result (sk_into_bytes (T := debug64) (param_set SHA2_128f) (tsk SHA2_128f)) = Val SK /\
    Some sig1 = Fips205.slh_sign (fips_params SHA2_128f) (fips_hash (PR := toy_prims) SHA2_128f) [] toy_ctx SK
                  (Some (Some (nrepeat (n2b 0) 16))) /\
    result (verify (T := debug64) (P := toy_prims) (param_set SHA2_128f) (tpk SHA2_128f) [] sig1 toy_ctx) = Val true.
Proof.
  destruct two_threads as [sig0 [sig1 C]].
  destruct (proj1 (proj1 (proj2 (TopSafety.prop_output_sizes debug64 toy_prims SHA2_128f)) _ (toy_sk_typed toy_prims SHA2_128f)))
    as [SK [E _]].
  destruct (concurrent_calls_are_fips debug64 toy_prims SHA2_128f counter 0 _ _ _ _ C 1%nat _ _ eq_refl eq_refl
              _ SK (toy_key_pair debug64 toy_prims SHA2_128f) E) as [F V].
  exists sig1, SK. split; [exact E|]. split; [exact F|]. exact (proj1 (V sig1 eq_refl)).
Qed.

(** C59. Concurrent calls with a shared key and generator behave like sequential ones. When several
    threads call the library at once, sharing keys and the system's generator, then whatever the
    interleaving of their generator requests: every signature returned is the FIPS 205 signature for
    the randomness that very call received, and verifies; every key pair generated is the FIPS 205
    key pair for the three seeds that call received; every verification decides as FIPS 205 and
    requests nothing. If no call generates keys they are linearizable: there is an order of the
    calls, respecting real time, such that executing them one after the other yields the same
    results and the same generator state. Key generation makes three requests, and two key
    generations can interleave so that no order of them explains the results. *)
Theorem concurrent_signing_is_linearizable :
  forall (T : Target) (P : Prims) (s : set_name) (r : Rng) (g0 : rng_st r) (calls : list tcall)
         (log : list happening) (g : rng_st r) (outs : list (outcome tout)) (d : tcall * outcome tout),
    concurrent s r g0 calls log g outs ->
    (forall c, In c calls -> c <> TKeygen) ->
    exists order : list nat,
      Permutation order (seq 0 (length calls)) /\
      sequential s r g0 (map (fun i => (nth i calls (fst d), nth i outs (snd d))) order) g /\
      (forall i j, precedes log (End_ i) (Begin j) -> precedes order i j).
Proof. exact prop_concurrent_signing_is_linearizable. Qed.
Print Assumptions concurrent_signing_is_linearizable.

(* in that execution the effective order is: thread 1, then thread 0 *)
Example concurrent_signing_is_linearizable_applies :
  exists outs order,
    concurrent (T := debug64) (P := toy_prims) SHA2_128f counter 0 two_threads_calls two_threads_log 2 outs /\
    (forall c, In c two_threads_calls -> c <> TKeygen) /\ Permutation order [0; 1]%nat.
Proof.
  destruct two_threads as [sig0 [sig1 C]].
  assert (NK : forall c, In c two_threads_calls -> c <> TKeygen)
    by (intros c [<-|[<-|[]]]; discriminate).
  destruct (concurrent_signing_is_linearizable debug64 toy_prims SHA2_128f counter 0 _ _ _ _ (TKeygen, Panic PIndex) C NK)
    as [order [Pm _]].
  exists [Val (OSig sig0); Val (OSig sig1)], order. split; [exact C|]. split; [exact NK|exact Pm].
Qed.

(** C59. Concurrent calls with a shared key and generator behave like sequential ones. When several
    threads call the library at once, sharing keys and the system's generator, then whatever the
    interleaving of their generator requests: every signature returned is the FIPS 205 signature for
    the randomness that very call received, and verifies; every key pair generated is the FIPS 205
    key pair for the three seeds that call received; every verification decides as FIPS 205 and
    requests nothing. If no call generates keys they are linearizable: there is an order of the
    calls, respecting real time, such that executing them one after the other yields the same
    results and the same generator state. Key generation makes three requests, and two key
    generations can interleave so that no order of them explains the results.
    The last part: why key generation is left out of the claim about an order. *)
Theorem concurrent_keygen_is_not_linearizable :
  forall (T : Target) (P : Prims) (s : set_name) (d : tcall * outcome tout),
    exists (r : Rng) (g0 : rng_st r) (log : list happening) (g : rng_st r) (outs : list (outcome tout)),
      concurrent s r g0 [TKeygen; TKeygen] log g outs /\
      forall order g', Permutation order [0; 1]%nat ->
        ~ sequential s r g0 (map (fun i => (nth i [TKeygen; TKeygen] (fst d), nth i outs (snd d))) order) g'.
Proof. exact prop_concurrent_keygen_is_not_linearizable. Qed.
Print Assumptions concurrent_keygen_is_not_linearizable.

(* the parameter set and the hash functions of the other examples; in both orders the first call would get the first two answers *)
Example concurrent_keygen_is_not_linearizable_applies :
  exists (r : Rng) (g0 : rng_st r) log g pk0 sk0 pk1 sk1,
    concurrent (T := debug64) (P := toy_prims) SHA2_128f r g0 [TKeygen; TKeygen] log g [Val (OKeys pk0 sk0); Val (OKeys pk1 sk1)] /\
    sk_seed sk0 = nrepeat (n2b 0) 16 /\ sk_prf sk0 = nrepeat (n2b 2) 16 /\
    sk_seed sk1 = nrepeat (n2b 1) 16 /\ sk_prf sk1 = nrepeat (n2b 3) 16.
Proof. exact (crossed_keygen debug64 toy_prims SHA2_128f). Qed.
