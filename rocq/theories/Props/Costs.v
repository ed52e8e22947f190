(** Exact costs. *)
From Coq Require Import String.
From Verif Require Import Spec.Fips205 Spec.Fips205Hash.
From Verif Require Import Model.Api Spec.Vocab Spec.VocabForge Spec.VocabPublic Spec.VocabWork Proof.TopTrace Proof.TopWork Proof.Toy.
Import ListNotations.
Open Scope list_scope.
Open Scope N_scope.

(** C70. The cost of signing and verifying is known exactly. The number of keyed hash computations of a
    verification is a function of values anyone recomputes from public key, message and signature:
    the digest, k FORS paths, and in every layer one path and the steps that the base-16 digits of
    the value signed there leave up to 15. The number of a successful signing is exact too, and
    apart from a constant of the parameter set it is the digit sum of the single value signed in the
    top layer: it depends on message, context, key and randomness through nothing else, and two
    signatures of one set differ by at most 15 computations per chain of one one-time key. *)
Theorem exact_costs :
  forall (T : Target) (P : Prims) (s : set_name),
    (** verification *)
    (forall pk m sig ctx, nlen sig = sig_size s -> nlen ctx <= 255 ->
       hash_count (trace (verify (param_set s) pk m sig ctx)) = verification_cost s pk (Fips205.pure_M' m ctx) sig) /\
    (forall pk m sig ctx ph, nlen sig = sig_size s -> nlen ctx <= 255 ->
       hash_count (trace (hash_verify (param_set s) pk m sig ctx (ph_arg ph))) =
       verification_cost s pk (Fips205.hash_M' (fst (PH_fn ph m)) (snd (PH_fn ph m)) ctx) sig) /\
    (forall pk m sig, nlen sig = sig_size s ->
       hash_count (trace (raw_verify (param_set s) pk m sig)) = verification_cost s pk m sig) /\
    (** signing *)
    (forall sk M' sig tr, signing_run s sk M' sig tr ->
       hash_count tr = signing_cost s (get_public_key sk) M' sig) /\
    (** it depends on the message, the key and the randomness only through the value signed in the top layer *)
    (forall sk M' sig tr, signing_run s sk M' sig tr ->
       let top := signed_value s (get_public_key sk) M' sig (N.to_nat (t_d (table2 s)) - 1) in
       hash_count tr = signing_cost_base s + steps_signing s top /\ steps_signing s top <= 15 * chains s).
Proof. exact prop_exact_costs. Qed.
Print Assumptions exact_costs.

Example exact_costs_applies :
  nlen (toy_sig SHA2_192s) = sig_size SHA2_192s /\ nlen toy_ctx <= 255 /\
  exists sig t, signing_run (T := debug64) (P := toy_prims) SHA2_192s (tsk SHA2_192s) (Fips205.pure_M' toy_m toy_ctx) sig t /\
    hash_count t = signing_cost_base SHA2_192s +
      steps_signing SHA2_192s (signed_value (P := toy_prims) SHA2_192s (tpk SHA2_192s) (Fips205.pure_M' toy_m toy_ctx) sig 6) /\
    signing_cost_base SHA2_192s = 3766500 /\ 15 * chains SHA2_192s = 765.
Proof.
  split; [apply toy_sig_len|]. split; [apply toy_ctx_le|].
  destruct (toy_signs debug64 toy_prims SHA2_192s) as [sig V]. exists sig. eexists.
  assert (R := sign_pure (T := debug64) (P := toy_prims) SHA2_192s counter 5 _ toy_m toy_ctx true sig (toy_sk_typed toy_prims _) V).
  split; [exact R|].
  destruct (exact_costs debug64 toy_prims SHA2_192s) as (_ & _ & _ & _ & K). destruct (K _ _ _ _ R) as [K1 _].
  split; [exact K1|]. split; reflexivity.
Qed.
