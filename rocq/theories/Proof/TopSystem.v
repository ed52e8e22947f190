(** The functions that take no generator and use the one of the operating system. *)
From Coq Require Import String.
From Verif Require Import Spec.Fips205 Spec.Fips205Hash.
From Verif Require Import Model.Api Spec.Vocab Proof.Summary Proof.TopCorrect Proof.TopFips Proof.TopRandom Proof.TopSafety Proof.TopSer.
Import ListNotations.
Open Scope list_scope.
Open Scope N_scope.

Lemma prop_system_generator_functions :
  forall (T : Target) (P : Prims) (s : set_name) (os : Rng) (g : rng_st os),
    let n := seed_bytes s in
    let drawn (hedged : bool) (ctx : bytes) := (hedged && (nlen ctx <=? 255))%bool in
    (** key generation *)
    (let '(g1, SKseed) := try_fill os g n in
     let '(g2, SKprf) := try_fill os g1 n in
     let '(g3, PKseed) := try_fill os g2 n in
     exported s (call (try_keygen (param_set s) os) g) =
     Fips205.slh_keygen (fips_params s) (fips_hash s) (ok SKseed) (ok SKprf) (ok PKseed)) /\
    (** signing *)
    (forall sk SK m ctx hedged, sk_typed s sk -> result (sk_into_bytes (param_set s) sk) = Val SK ->
       let sign := try_sign (param_set s) os sk m ctx hedged in
       ok (call sign g) = Fips205.slh_sign (fips_params s) (fips_hash s) m ctx SK (addrnd s os g hedged) /\
       draws (trace_of sign g) = (if drawn hedged ctx then [n] else []) /\
       gen_after sign g = (if drawn hedged ctx then fst (try_fill os g n) else g)) /\
    (forall sk SK m ctx ph hedged, sk_typed s sk -> result (sk_into_bytes (param_set s) sk) = Val SK ->
       let sign := try_hash_sign (param_set s) os sk m ctx (ph_arg ph) hedged in
       ok (call sign g) = Fips205.hash_slh_sign (fips_params s) (fips_hash s) m ctx (PH_fn ph) SK (addrnd s os g hedged) /\
       draws (trace_of sign g) = (if drawn hedged ctx then [n] else []) /\
       gen_after sign g = (if drawn hedged ctx then fst (try_fill os g n) else g)) /\
    (** a generated key pair works *)
    (forall pk sk, call (try_keygen (param_set s) os) g = Val (pk, sk) ->
       forall g' m ctx ph hedged sig,
         (call (try_sign (param_set s) os sk m ctx hedged) g' = Val sig ->
          result (verify (param_set s) pk m sig ctx) = Val true) /\
         (call (try_hash_sign (param_set s) os sk m ctx (ph_arg ph) hedged) g' = Val sig ->
          result (hash_verify (param_set s) pk m sig ctx (ph_arg ph)) = Val true)) /\
    (** nothing panics unless the generator does *)
    (never_panics os ->
       no_panic (call (try_keygen (param_set s) os) g) /\
       forall sk m ctx ph hedged, sk_typed s sk ->
         no_panic (call (try_sign (param_set s) os sk m ctx hedged) g) /\
         no_panic (call (try_hash_sign (param_set s) os sk m ctx (ph_arg ph) hedged) g)).
Proof.
  intros T P s os g n drawn. unfold try_keygen, try_sign, try_hash_sign.
  split; [exact (prop_keygen_is_fips T P s os g)|].
  assert (D : forall sk SK m ctx ph hedged, sk_typed s sk -> result (sk_into_bytes (param_set s) sk) = Val SK ->
    (draws (trace_of (try_sign_with_rng (param_set s) os sk m ctx hedged) g) = (if drawn hedged ctx then [n] else []) /\
     gen_after (try_sign_with_rng (param_set s) os sk m ctx hedged) g = (if drawn hedged ctx then fst (try_fill os g n) else g)) /\
    (draws (trace_of (try_hash_sign_with_rng (param_set s) os sk m ctx (ph_arg ph) hedged) g) = (if drawn hedged ctx then [n] else []) /\
     gen_after (try_hash_sign_with_rng (param_set s) os sk m ctx (ph_arg ph) hedged) g = (if drawn hedged ctx then fst (try_fill os g n) else g))).
  { intros sk SK m ctx ph hedged TS E. unfold drawn. destruct (nlen ctx <=? 255) eqn:L.
    - apply N.leb_le in L. destruct hedged; cbn [andb].
      + pose proof (prop_hedged_signing_draws_once T P s os g sk SK m ctx ph TS E L) as K. cbv zeta in K.
        destruct (PH_fn ph m) as [OID d].
        pose proof (K _ _ (or_introl (conj eq_refl eq_refl))) as K1.
        pose proof (K _ _ (or_intror (or_introl (conj eq_refl eq_refl)))) as K2.
        split; [split; [apply K1|apply K1]|split; [apply K2|apply K2]].
      + destruct (prop_deterministic_signing_ignores_rng T P s sk m ctx ph TS L) as (sig & hsig & rsig & K).
        specialize (K os g). cbv zeta in K. destruct K as ((_ & A1 & A2) & (_ & B1 & B2) & _). auto.
    - apply N.leb_gt in L. rewrite andb_false_r.
      destruct (prop_context_length_rule T P s os g sk (get_public_key sk) m ctx [] ph hedged TS) as [K _].
      destruct (K L) as (_ & A1 & A2 & _ & B1 & B2 & _). auto. }
  split; [|split; [|split]].
  - intros sk SK m ctx hedged TS E. split; [exact (prop_sign_is_fips T P s os g sk SK m ctx hedged TS E)|].
    exact (proj1 (D sk SK m ctx PH_SHA256 hedged TS E)).
  - intros sk SK m ctx ph hedged TS E. split; [exact (prop_hash_sign_is_fips T P s os g sk SK m ctx ph hedged TS E)|].
    exact (proj2 (D sk SK m ctx ph hedged TS E)).
  - intros pk sk KG g' m ctx ph hedged sig. pose proof (kp_generated s os g pk sk KG) as KP.
    assert (TS : sk_typed s sk) by (apply wf_typed_sk; apply (key_pair_facts s pk sk KP)).
    assert (L : forall (f : RM os bytes), (255 < nlen ctx -> exists e, call f g' = Err e) -> call f g' = Val sig -> nlen ctx <= 255).
    { intros f F V. destruct (N.le_gt_cases (nlen ctx) 255) as [L|L]; [exact L|]. destruct (F L) as [e X]. rewrite X in V. discriminate V. }
    destruct (prop_context_length_rule T P s os g' sk pk m ctx sig ph hedged TS) as [K _].
    split; intros V.
    + assert (Lc : nlen ctx <= 255) by (refine (L _ _ V); intros X; eexists; apply (K X)).
      apply (proj1 (prop_pure_signatures_verify T P s pk sk KP os g' m ctx hedged Lc) sig V).
    + assert (Lc : nlen ctx <= 255) by (refine (L _ _ V); intros X; eexists; apply (K X)).
      apply (proj1 (prop_prehash_signatures_verify T P s pk sk KP os g' m ctx ph hedged Lc) sig V).
  - intros NP. destruct (prop_keygen_sign_import_never_panic T P s os g NP) as (A & _ & _ & _ & B).
    split; [exact A|]. intros sk m ctx ph hedged TS. destruct (B sk TS) as [_ C].
    destruct (C m ctx ph hedged) as (C1 & C2 & _). split; assumption.
Qed.
