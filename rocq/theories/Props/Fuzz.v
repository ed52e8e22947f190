(** The fuzz targets. *)
From Verif Require Import Spec.Fips205 Spec.Fips205Hash.
From Verif Require Import Model.Api Model.Fuzz Spec.Vocab Proof.TopFuzz Proof.Toy.
Import ListNotations.
Open Scope list_scope.
Open Scope N_scope.

(** C58. No input makes the fuzz targets crash. Whatever input the fuzzer supplies, both fuzz targets
    return normally as long as the system's generator does not itself panic; the verification
    verdicts fuzz_verify discards for untampered signatures are always accepting; and the
    tampered-message check is reached exactly when the input has 255 bytes or more (shorter inputs
    leave the message empty). *)
Theorem fuzz_targets_never_crash :
  forall (T : Target) (P : Prims) (os : Rng) (g : rng_st os),
    never_panics os ->
    (forall message context hedged use_hash hash_function,
       exists v, call (fuzz_sign os message context hedged use_hash hash_function) g = Val v) /\
    (forall data,
       exists v, call (fuzz_verify os data) g = Val v /\
         (forall v1 v2 v3 v4, v = Some (v1, v2, v3, v4) ->
            v1 <> Some false /\ v2 <> Some false /\ v3 <> Some false /\ (nlen data < 255 -> v4 = None)) /\
         ((forall g' k, exists b g'', gives os g' k b g'') -> 32 <= nlen data ->
            exists v4, v = Some (Some true, Some true, Some true, v4) /\ (v4 = None <-> nlen data < 255))).
Proof. exact prop_fuzz_targets_never_crash. Qed.
Print Assumptions fuzz_targets_never_crash.

(* an input of 300 bytes: the tampered-message check is reached *)
Example fuzz_targets_never_crash_applies :
  never_panics counter /\ (forall g k, exists b g', gives counter g k b g') /\
  exists v, call (fuzz_verify (T := debug64) (P := toy_prims) counter (nrepeat Coq.Init.Byte.x07 300)) 0 =
            Val (Some (Some true, Some true, Some true, Some v)).
Proof.
  assert (G : forall g k, exists b g', gives counter g k b g')
    by (intros g k; do 2 eexists; apply counter_gives).
  split; [exact counter_safe|]. split; [exact G|].
  assert (L : nlen (nrepeat Coq.Init.Byte.x07 300) = 300) by apply nlen_nrepeat.
  destruct (proj2 (fuzz_targets_never_crash debug64 toy_prims counter 0 counter_safe)
              (nrepeat Coq.Init.Byte.x07 300)) as [v [E [_ K]]].
  destruct (K G) as [v4 [-> V]]; [rewrite L; lia|]. destruct v4 as [v|].
  - exists v. exact E.
  - exfalso. destruct V as [V _]. specialize (V eq_refl). rewrite L in V. lia.
Qed.
