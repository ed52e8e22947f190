(** C25-C28: use of the random generator. *)
From Coq Require Import String.
From Verif Require Import Spec.Fips205 Spec.Fips205Hash.
From Verif Require Import Model.Api Proof.Facts Proof.HashP Proof.Fun Proof.SlhP Proof.SerP Proof.ApiP
  Proof.SpecFun Spec.Vocab Proof.Summary Proof.TopCorrect Proof.TopSafety Proof.TopFips Proof.CallsP.
Import ListNotations.
Open Scope list_scope.
Open Scope N_scope.

Lemma sign_desc_det {T : Target} {P : Prims} p r g sk mp x :
  sign_desc p r g sk mp false x ->
  fst x = g /\ draws (trace (snd x)) = [] /\ result (snd x) = Val (sign_bytes p sk (sk_pk_seed sk) (concat mp)).
Proof.
  intros D. pose proof (sign_desc_draws _ _ _ _ _ _ _ D) as Dr. destruct D as [F [V _]].
  cbn [draw snd fst] in *. auto.
Qed.

Lemma prop_deterministic_signing_ignores_rng :
  forall (T : Target) (P : Prims) (s : set_name) (sk : SlhPrivateKey) (m ctx : bytes) (ph : prehash),
    sk_typed s sk -> nlen ctx <= 255 ->
    exists sig hsig rsig, forall (r : Rng) (g : rng_st r),
      let f1 := try_sign_with_rng (param_set s) r sk m ctx false in
      let f2 := try_hash_sign_with_rng (param_set s) r sk m ctx (ph_arg ph) false in
      let f3 := raw_sign (param_set s) r sk m false in
      (call f1 g = Val sig /\ gen_after f1 g = g /\ draws (trace_of f1 g) = []) /\
      (call f2 g = Val hsig /\ gen_after f2 g = g /\ draws (trace_of f2 g) = []) /\
      (call f3 g = Val rsig /\ gen_after f3 g = g /\ draws (trace_of f3 g) = []).
Proof.
  intros T P s sk m ctx ph W Hc. pose proof (param_PF s) as HP. apply typed_sk in W.
  eexists. eexists. eexists. intros r g. cbv zeta. unfold call, gen_after, trace_of.
  destruct (sign_desc_det _ _ _ _ _ _ (try_sign_desc _ HP g sk m ctx false W Hc)) as [A1 [A2 A3]].
  destruct (sign_desc_det _ _ _ _ _ _ (try_hash_sign_desc _ HP g sk m ctx (ph_arg ph) false W Hc)) as [B1 [B2 B3]].
  destruct (sign_desc_det _ _ _ _ _ _ (raw_sign_desc _ HP g sk m false W)) as [C1 [C2 C3]].
  split; [|split]; split; eauto.
Qed.

Lemma sign_desc_hedged {T : Target} {P : Prims} s r g sk SK mp x :
  sk_typed s sk -> result (sk_into_bytes (param_set s) sk) = Val SK ->
  sign_desc (param_set s) r g sk mp true x ->
  draws (trace (snd x)) = [seed_bytes s] /\
  fst x = fst (try_fill r g (seed_bytes s)) /\
  (forall g' b, gives r g (seed_bytes s) b g' ->
     result (snd x) = Val (Fips205.slh_sign_internal (fips_params s) (fips_hash s) (concat mp) SK (Some b))) /\
  (refuses r g (seed_bytes s) -> result (snd x) = Err "Alg17: rng failed"%string).
Proof.
  intros W E D. pose proof (sign_desc_draws _ _ _ _ _ _ _ D) as Dr. destruct D as [F [V _]].
  rewrite param_n in Dr. cbn [draw snd fst] in F, V. rewrite param_n in F, V.
  split; [exact Dr|]. split; [exact F|]. split.
  - intros g' b G. unfold gives in G. rewrite G in V. cbn [snd] in V. rewrite V.
    rewrite (fips_sign_eq _ sk) by assumption. reflexivity.
  - intros [g' [e G]]. rewrite G in V. exact V.
Qed.

Lemma prop_hedged_signing_draws_once :
  forall (T : Target) (P : Prims) (s : set_name) (r : Rng) (g : rng_st r) (sk : SlhPrivateKey)
         (SK m ctx : bytes) (ph : prehash),
    sk_typed s sk -> result (sk_into_bytes (param_set s) sk) = Val SK -> nlen ctx <= 255 ->
    let fips M b := Fips205.slh_sign_internal (fips_params s) (fips_hash s) M SK (Some b) in
    let '(OID, digest) := PH_fn ph m in
    forall (f : RM r bytes) (M' : bytes),
      f = try_sign_with_rng (param_set s) r sk m ctx true /\ M' = Fips205.pure_M' m ctx \/
      f = try_hash_sign_with_rng (param_set s) r sk m ctx (ph_arg ph) true /\
        M' = Fips205.hash_M' OID digest ctx \/
      f = raw_sign (param_set s) r sk m true /\ M' = m ->
      draws (trace_of f g) = [seed_bytes s] /\
      gen_after f g = fst (try_fill r g (seed_bytes s)) /\
      (forall g' b, gives r g (seed_bytes s) b g' -> call f g = Val (fips M' b)) /\
      (refuses r g (seed_bytes s) -> call f g = Err "Alg17: rng failed"%string).
Proof.
  intros T P s r g sk SK m ctx ph W E Hc fips.
  pose proof (hash_pieces_M' m ctx ph) as HM. destruct (PH_fn ph m) as [OID digest]. cbn [fst snd] in HM.
  intros f M' K. pose proof (param_PF s) as HP. pose proof (typed_sk _ _ W) as W'.
  unfold call, gen_after, trace_of. subst fips. cbv beta.
  destruct K as [[-> ->]|[[-> ->]|[-> ->]]].
  - rewrite <- pure_pieces_M'. apply (sign_desc_hedged s r g sk SK); [exact W|exact E|]. apply try_sign_desc; assumption.
  - rewrite <- HM. apply (sign_desc_hedged s r g sk SK); [exact W|exact E|]. apply try_hash_sign_desc; assumption.
  - pose proof (sign_desc_hedged s r g sk SK [m] _ W E (raw_sign_desc _ HP g sk m true W')) as K.
    rewrite concat1 in K. exact K.
Qed.

Lemma prop_keygen_draws :
  forall (T : Target) (P : Prims) (s : set_name) (r : Rng) (g : rng_st r),
    let n := seed_bytes s in
    let f := try_keygen_with_rng (param_set s) r in
    (refuses r g n ->
       call f g = Err "Alg17: rng failed1"%string /\ draws (trace_of f g) = [n] /\
       gen_after f g = fst (try_fill r g n)) /\
    (forall a g1, gives r g n a g1 -> refuses r g1 n ->
       call f g = Err "Alg17: rng failed2"%string /\ draws (trace_of f g) = [n; n] /\
       gen_after f g = fst (try_fill r g1 n)) /\
    (forall a b g1 g2, gives r g n a g1 -> gives r g1 n b g2 -> refuses r g2 n ->
       call f g = Err "Alg17: rng failed3"%string /\ draws (trace_of f g) = [n; n; n] /\
       gen_after f g = fst (try_fill r g2 n)) /\
    (forall a b c g1 g2 g3, gives r g n a g1 -> gives r g1 n b g2 -> gives r g2 n c g3 ->
       exists pk sk, call f g = Val (pk, sk) /\ draws (trace_of f g) = [n; n; n] /\ gen_after f g = g3 /\
         exported s (Val (pk, sk)) =
           Some (Fips205.slh_keygen_internal (fips_params s) (fips_hash s) a b c)).
Proof.
  intros T P s r g n f. subst n. rewrite <- param_n.
  pose proof (keygen_is _ (param_PF s) g) as D. unfold keygen_desc in D. cbv zeta in D.
  unfold call, gen_after, trace_of. subst f. unfold gives, refuses.
  split; [|split; [|split]].
  - intros [g' [e E]]. rewrite E in D |- *. cbn [fst snd] in D |- *. destruct D as [A [B C]].
    rewrite <- draws_calls, C. auto.
  - intros a g1 E1 [g' [e E]]. rewrite E1 in D. cbn [fst snd] in D. rewrite E in D |- *.
    cbn [fst snd] in D |- *. destruct D as [A [B C]]. rewrite <- draws_calls, C. auto.
  - intros a b g1 g2 E1 E2 [g' [e E]]. rewrite E1 in D. cbn [fst snd] in D. rewrite E2 in D.
    cbn [fst snd] in D. rewrite E in D |- *. cbn [fst snd] in D |- *. destruct D as [A [B C]].
    rewrite <- draws_calls, C. auto.
  - intros a b c g1 g2 g3 E1 E2 E3. rewrite E1 in D. cbn [fst snd] in D. rewrite E2 in D.
    cbn [fst snd] in D. rewrite E3 in D. cbn [fst snd] in D. destruct D as [A [B C]].
    destruct (key_of (param_set s) a b c) as [pk sk] eqn:K.
    exists pk, sk. split; [exact B|]. split; [|split; [exact A|]].
    + rewrite <- draws_calls, C. cbn [draws flat_map app].
      rewrite (draws_allH _ (allH_prootC _ _ _ _) : flat_map _ (prootC _ _ _ _) = []). reflexivity.
    + rewrite <- K. apply exported_key; eapply try_fill_len; eassumption.
Qed.

Lemma prop_keygen_with_seeds :
  forall (T : Target) (P : Prims) (s : set_name) (a b c : bytes),
    (nlen a = seed_bytes s -> nlen b = seed_bytes s -> nlen c = seed_bytes s ->
       exists pk sk, result (keygen_with_seeds (param_set s) a b c) = Val (pk, sk) /\
         exported s (Val (pk, sk)) = Some (Fips205.slh_keygen_internal (fips_params s) (fips_hash s) a b c) /\
         forall (r : Rng) (g g1 g2 g3 : rng_st r),
           gives r g (seed_bytes s) a g1 -> gives r g1 (seed_bytes s) b g2 -> gives r g2 (seed_bytes s) c g3 ->
           call (try_keygen_with_rng (param_set s) r) g = Val (pk, sk)) /\
    (~ (nlen a = seed_bytes s /\ nlen b = seed_bytes s /\ nlen c = seed_bytes s) ->
       exists q, result (keygen_with_seeds (param_set s) a b c) = Panic q).
Proof.
  intros T P s a b c. pose proof (param_PF s) as HP. rewrite <- param_n. split.
  - intros Ha Hb Hc. destruct (runs_keygen_with_seeds _ HP a b c Ha Hb Hc) as [V _].
    pose proof (exported_key s a b c Ha Hb Hc) as X.
    destruct (key_of (param_set s) a b c) as [pk sk] eqn:K. exists pk, sk.
    split; [exact V|]. split; [exact X|]. intros r g g1 g2 g3 E1 E2 E3.
    destruct (rruns_keygen _ HP _ _ _ _ _ _ _ E1 E2 E3) as [_ [V' _]]. unfold call. rewrite V', K. reflexivity.
  - apply panics_keygen_with_seeds.
Qed.
