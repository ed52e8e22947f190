(** Conditional compilation. *)
From Verif Require Import Bytes Spec.Fips205Hash Model.Features Spec.VocabFeat.

Ltac any F := unfold cfg, cfg_any in *; cbn [existsb] in *; rewrite ?Bool.orb_true_iff, ?Bool.andb_true_iff in *; tauto.

Lemma prop_features_consistent :
  forall F : features,
    names_resolve F /\
    (forall s, cfg (set_module s) F = true <-> F (set_feature s) = true) /\
    (forall s, cfg (module_try_keygen s) F = true <-> F (set_feature s) = true /\ F default_rng = true) /\
    (cfg trait_try_sign F = true <-> F default_rng = true) /\
    (cfg trait_try_hash_sign F = true <-> F default_rng = true) /\
    (no_dead_code F <-> exists s, F (set_feature s) = true).
Proof.
  intros F.
  assert (R : names_resolve F).
  { intros i j E I.
    destruct i as [s|s| | | | | | | | | | | | | | | | | | | | | | | | | | | | | | | | | | | | |];
      try destruct s; cbn [refs hash_module In] in I;
      repeat (destruct I as [<-|I]); try contradiction; any F. }
  split; [exact R|].
  split; [intros s; reflexivity|]. split; [intros s; cbn; apply Bool.andb_true_iff|].
  split; [reflexivity|]. split; [reflexivity|].
  split.
  - (* no parameter set: hash_message is dead *)
    intros D.
    destruct (existsb (fun s => F (set_feature s))
                [SHA2_128s; SHAKE_128s; SHA2_128f; SHAKE_128f; SHA2_192s; SHAKE_192s; SHA2_192f; SHAKE_192f;
                 SHA2_256s; SHAKE_256s; SHA2_256f; SHAKE_256f]) eqn:E.
    + apply existsb_exists in E. destruct E as [s [_ E]]. exists s. exact E.
    + exfalso.
      assert (Z : forall s, F (set_feature s) = false).
      { cbn [existsb] in E. rewrite !Bool.orb_false_iff in E. intros s. destruct s; tauto. }
      assert (NL : forall i, live F i -> i = traits \/ i = trait_try_keygen \/ i = trait_try_sign \/
                             i = trait_try_hash_sign \/ i = use_OsRng \/ i = rand_core_OsRng).
      { intros i L. induction L as [i Pu C|i j L IH I C].
        - destruct i; try discriminate; try tauto.
          + cbn in C. rewrite Z in C. discriminate.
          + cbn in C. rewrite Z in C. discriminate.
        - destruct IH as [-> | [-> | [-> | [-> | [-> | ->]]]]]; cbn [refs In] in I; intuition (subst; tauto). }
      specialize (NL hash_message_fn (D hash_message_fn eq_refl)).
      intuition discriminate.
  - intros [s E] i C.
    assert (L0 : live F (set_module s)) by (apply live_public; [reflexivity|exact E]).
    assert (U : forall i j, live F i -> In j (refs i) -> live F j).
    { intros i0 j L I. apply (live_used F i0 j L I). apply (R i0 j); [|exact I].
      destruct L; assumption. }
    assert (slh_ : forall j, In j (refs (set_module s)) -> live F j) by (intros j; apply (U _ j L0)).
    assert (hm : live F hash_message_fn) by (apply slh_; cbn; tauto).
    assert (kr : live F slh_keygen_with_rng_fn) by (apply slh_; cbn; tauto).
    assert (ki : live F slh_keygen_internal_fn) by (apply slh_; cbn; tauto).
    assert (sr : live F slh_sign_with_rng_fn) by (apply slh_; cbn; tauto).
    assert (si : live F slh_sign_internal_fn) by (apply slh_; cbn; tauto).
    assert (vr : live F slh_verify_fn) by (apply slh_; cbn; tauto).
    assert (vi : live F slh_verify_internal_fn) by (apply slh_; cbn; tauto).
    assert (se : live F serialize_fn) by (apply slh_; cbn; tauto).
    assert (de : live F deserialize_fn) by (apply slh_; cbn; tauto).
    assert (ad : live F adrs_setters) by (apply (U _ _ ki); cbn; tauto).
    assert (xn : live F xmss_node_fn) by (apply (U _ _ ki); cbn; tauto).
    assert (ti : live F to_int_fn) by (apply (U _ _ si); cbn; tauto).
    assert (fs : live F fors_sign_fn) by (apply (U _ _ si); cbn; tauto).
    assert (fp : live F fors_pk_from_sig_fn) by (apply (U _ _ si); cbn; tauto).
    assert (hs : live F ht_sign_fn) by (apply (U _ _ si); cbn; tauto).
    assert (hv : live F ht_verify_fn) by (apply (U _ _ vi); cbn; tauto).
    assert (fk : live F fors_sk_gen_fn) by (apply (U _ _ fs); cbn; tauto).
    assert (fn : live F fors_node_fn) by (apply (U _ _ fs); cbn; tauto).
    assert (b2 : live F base_2b_fn) by (apply (U _ _ fs); cbn; tauto).
    assert (xs : live F xmss_sign_fn) by (apply (U _ _ hs); cbn; tauto).
    assert (xp : live F xmss_pk_from_sig_fn) by (apply (U _ _ hs); cbn; tauto).
    assert (wk : live F wots_pkgen_fn) by (apply (U _ _ xn); cbn; tauto).
    assert (ws : live F wots_sign_fn) by (apply (U _ _ xs); cbn; tauto).
    assert (wp : live F wots_pk_from_sig_fn) by (apply (U _ _ xp); cbn; tauto).
    assert (ch : live F chain_fn) by (apply (U _ _ wk); cbn; tauto).
    assert (tb : live F to_byte_fn) by (apply (U _ _ ws); cbn; tauto).
    (* the module of hash functions of a selected set, and what it uses *)
    assert (hmod : forall s', F (set_feature s') = true -> live F (hash_module s')).
    { intros s' E'. apply (U (set_module s')); [apply live_public; [reflexivity|exact E']|]. cbn. tauto. }
    assert (pick : forall fs, cfg_any fs F = true -> exists s', In s' fs /\ F (set_feature s') = true).
    { intros l K. apply existsb_exists in K. exact K. }
    destruct i; try assumption; try (apply live_public; [reflexivity|exact C]).
    + (* use_OsRng *) apply (U trait_try_sign); [apply live_public; [reflexivity|exact C]|cbn; tauto].
    + destruct (pick _ C) as [s' [I E']]. specialize (hmod s' E'). cbn [In] in I.
      repeat (destruct I as [<-|I]; [exact hmod|]). contradiction.
    + destruct (pick _ C) as [s' [I E']]. specialize (hmod s' E'). cbn [In] in I.
      repeat (destruct I as [<-|I]; [exact hmod|]). contradiction.
    + destruct (pick _ C) as [s' [I E']]. specialize (hmod s' E'). cbn [In] in I.
      repeat (destruct I as [<-|I]; [exact hmod|]). contradiction.
    + destruct (pick _ C) as [s' [I E']]. specialize (hmod s' E'). apply (U (hash_module s') _ hmod).
      cbn [In] in I. repeat (destruct I as [<-|I]; [cbn; tauto|]). contradiction.
    + destruct (pick _ C) as [s' [I E']]. specialize (hmod s' E'). apply (U (hash_module s') _ hmod).
      cbn [In] in I. repeat (destruct I as [<-|I]; [cbn; tauto|]). contradiction.
Qed.
