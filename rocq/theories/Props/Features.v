(** Conditional compilation. *)
From Verif Require Import Bytes Spec.Fips205Hash Model.Features Spec.VocabFeat Proof.TopFeat.
Open Scope N_scope.

(** C57. Every selection of cargo features is consistent. For every subset of the crate's features the
    code that is compiled only uses names that are compiled; exactly the selected parameter-set
    modules are offered; the functions that use the system's generator are offered exactly when
    default-rng is selected; and no internal function is left unused (which the crate denies) unless
    no parameter set at all is selected. *)
Theorem features_consistent :
  forall F : features,
    names_resolve F /\
    (forall s, cfg (set_module s) F = true <-> F (set_feature s) = true) /\
    (forall s, cfg (module_try_keygen s) F = true <-> F (set_feature s) = true /\ F default_rng = true) /\
    (cfg trait_try_sign F = true <-> F default_rng = true) /\
    (cfg trait_try_hash_sign F = true <-> F default_rng = true) /\
    (no_dead_code F <-> exists s, F (set_feature s) = true).
Proof. exact prop_features_consistent. Qed.
Print Assumptions features_consistent.

Example features_consistent_applies :
  let only_shake_192s : features := fun f => match f with set_feature SHAKE_192s => true | _ => false end in
  no_dead_code only_shake_192s /\ cfg (set_module SHAKE_192s) only_shake_192s = true /\
  cfg mod_shake only_shake_192s = true /\ cfg to_22_bytes_fn only_shake_192s = false /\
  ~ no_dead_code (fun _ => false).
Proof.
  cbv zeta. split; [apply features_consistent; exists SHAKE_192s; reflexivity|].
  split; [reflexivity|]. split; [reflexivity|]. split; [reflexivity|].
  intros D. apply features_consistent in D. destruct D as [s E]. discriminate E.
Qed.
