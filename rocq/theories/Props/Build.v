(** The build configuration does not matter. *)
From Coq Require Import String.
From Verif Require Import Spec.Fips205 Spec.Fips205Hash.
From Verif Require Import Model.Api Spec.Vocab Proof.TopBuild Proof.Toy Proof.ToyKeys.
Import ListNotations.
Open Scope list_scope.
Open Scope N_scope.

(** C49. Results do not depend on the build. Key generation, signing and verification return the same
    values (and errors) on every build: with or without overflow checks, with or without debug
    assertions, for any pointer width of at least 16 bits, and for any size of the stack that holds
    14 nested activations of the tree functions. *)
Theorem results_do_not_depend_on_build :
  forall (T1 T2 : Target) (P : Prims) (s : set_name) (r : Rng) (g : rng_st r) (sk : SlhPrivateKey)
         (pk : SlhPublicKey) (m ctx sig skb : bytes) (ph : prehash) (hedged : bool),
    sk_typed s sk -> pk_typed s pk -> nlen sig = sig_size s -> nlen skb = sk_size s ->
    let p := param_set s in
    let same {A} (f1 f2 : RM r A) := call f1 g = call f2 g /\ gen_after f1 g = gen_after f2 g in
    let eq {A} (f1 f2 : M A) := result f1 = result f2 in
    same (try_keygen_with_rng (T := T1) p r) (try_keygen_with_rng (T := T2) p r) /\
    same (try_sign_with_rng (T := T1) p r sk m ctx hedged) (try_sign_with_rng (T := T2) p r sk m ctx hedged) /\
    same (try_hash_sign_with_rng (T := T1) p r sk m ctx (ph_arg ph) hedged)
         (try_hash_sign_with_rng (T := T2) p r sk m ctx (ph_arg ph) hedged) /\
    same (raw_sign (T := T1) p r sk m hedged) (raw_sign (T := T2) p r sk m hedged) /\
    eq (verify (T := T1) p pk m sig ctx) (verify (T := T2) p pk m sig ctx) /\
    eq (hash_verify (T := T1) p pk m sig ctx (ph_arg ph)) (hash_verify (T := T2) p pk m sig ctx (ph_arg ph)) /\
    eq (raw_verify (T := T1) p pk m sig) (raw_verify (T := T2) p pk m sig) /\
    eq (sk_try_from_bytes (T := T1) p skb) (sk_try_from_bytes (T := T2) p skb) /\
    eq (sk_into_bytes (T := T1) p sk) (sk_into_bytes (T := T2) p sk).
Proof. exact prop_results_do_not_depend_on_build. Qed.
Print Assumptions results_do_not_depend_on_build.

(** two different builds, and arguments of the required shapes *)
Example results_do_not_depend_on_build_applies :
  debug64 <> release16 /\ sk_typed SHA2_128f (tsk SHA2_128f) /\ pk_typed SHA2_128f (tpk SHA2_128f) /\
  nlen (toy_sig SHA2_128f) = sig_size SHA2_128f /\
  exists skb sk, nlen skb = sk_size SHA2_128f /\
    result (sk_try_from_bytes (T := debug64) (P := toy_prims) (param_set SHA2_128f) skb) = Val sk.
Proof.
  split; [intros E; apply (f_equal (@overflow_checks)) in E; discriminate|].
  split; [apply toy_sk_typed|]. split; [apply toy_pk_typed|]. split; [apply toy_sig_len|].
  exact (proj1 (toy_import debug64 toy_prims SHA2_128f)).
Qed.
