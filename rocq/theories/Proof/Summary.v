(** One complete description per API function: outcome, generator state and calls. *)
From Coq Require Import String.
From Verif Require Import Spec.Fips205 Spec.Fips205Hash.
From Verif Require Import Model.Api Proof.Facts Proof.HashP Proof.Fun Proof.SlhP Proof.SerP Proof.ApiP
  Proof.SpecFun Spec.Vocab.
Import ListNotations.
Open Scope list_scope.
Open Scope N_scope.

Lemma param_valid s : valid (param_set s).
Proof. destruct s; unfold valid, all_params; cbn [In param_set]; tauto. Qed.
Definition param_PF s : PF (param_set s) := valid_PF _ (param_valid s).

Lemma param_fips s : fips_of (param_set s) = fips_params s.
Proof. destruct s; reflexivity. Qed.
Lemma param_hf {P : Prims} s : hf_of (param_set s) = fips_hash s.
Proof. destruct s; reflexivity. Qed.
Lemma param_n s : cN (param_set s) = seed_bytes s.
Proof. destruct s; reflexivity. Qed.
Lemma param_pk s : cPK_LEN (param_set s) = pk_size s.
Proof. destruct s; reflexivity. Qed.
Lemma param_sk s : cSK_LEN (param_set s) = sk_size s.
Proof. destruct s; reflexivity. Qed.
Lemma param_sig s : cSIG_LEN (param_set s) = sig_size s.
Proof. destruct s; reflexivity. Qed.
Lemma typed_sk s sk : sk_typed s sk -> wf_sk (param_set s) sk.
Proof. unfold sk_typed, wf_sk. rewrite param_n. auto. Qed.
Lemma typed_pk s pk : pk_typed s pk -> wf_pk (param_set s) pk.
Proof. unfold pk_typed, wf_pk. rewrite param_n. auto. Qed.
Lemma wf_typed_sk s sk : wf_sk (param_set s) sk -> sk_typed s sk.
Proof. unfold sk_typed, wf_sk. rewrite param_n. auto. Qed.
Lemma wf_typed_pk s pk : wf_pk (param_set s) pk -> pk_typed s pk.
Proof. unfold pk_typed, wf_pk. rewrite param_n. auto. Qed.

(** the randomness a signature uses *)
Definition draw (p : Params) (r : Rng) (g : rng_st r) (hedged : bool) (dflt : bytes)
  : rng_st r * outcome bytes :=
  if hedged then try_fill r g (cN p) else (g, Val dflt).

Definition rng_err : string := "Alg17: rng failed".
Definition ctx_err : string := "ctx must be less than 256 bytes".

(** what a signing function that hashes the pieces [mp] does *)
Definition sign_desc {T : Target} {P : Prims} (p : Params) (r : Rng) (g : rng_st r) (sk : SlhPrivateKey)
    (mp : list bytes) (hedged : bool) (x : rng_st r * M bytes) : Prop :=
  let d := draw p r g hedged (sk_pk_seed sk) in
  fst x = fst d /\
  result (snd x) =
    match snd d with
    | Val b => Val (sign_bytes p sk b (concat mp))
    | Err _ => Err rng_err
    | Panic q => Panic q
    end /\
  calls (trace (snd x)) =
    (if hedged then [ERng (cN p)] else []) ++
    match snd d with Val b => sign_calls p (hf_of p) sk b mp | _ => [] end.

Section S.
Context {T : Target} {P : Prims} (p : Params) (HP : PF p) {r : Rng}.

Lemma sign_desc_intro g sk mp hedged (f : RM r bytes) :
  (hedged = false -> rruns f g g (sign_bytes p sk (sk_pk_seed sk) (concat mp))
                       (sign_calls p (hf_of p) sk (sk_pk_seed sk) mp)) ->
  (hedged = true -> forall g' b, try_fill r g (cN p) = (g', Val b) ->
     rruns f g g' (sign_bytes p sk b (concat mp)) (ERng (cN p) :: sign_calls p (hf_of p) sk b mp)) ->
  (hedged = true -> forall g' e, try_fill r g (cN p) = (g', Err e) ->
     rerrs f g g' rng_err [ERng (cN p)]) ->
  (hedged = true -> forall g' q, try_fill r g (cN p) = (g', Panic q) ->
     rpanics f g g' q [ERng (cN p)]) ->
  sign_desc p r g sk mp hedged (f g).
Proof.
  intros H0 H1 H2 H3. unfold sign_desc, draw. destruct hedged; cbv zeta.
  - destruct (try_fill r g (cN p)) as [g' [b|e|q]] eqn:E; cbn [fst snd].
    + destruct (H1 eq_refl _ _ eq_refl) as [A [B C]]. auto.
    + destruct (H2 eq_refl _ _ eq_refl) as [A [B C]]. auto.
    + destruct (H3 eq_refl _ _ eq_refl) as [A [B C]]. auto.
  - destruct (H0 eq_refl) as [A [B C]]. cbn [fst snd]. auto.
Qed.

Lemma try_sign_desc g sk m ctx hedged :
  wf_sk p sk -> nlen ctx <= 255 ->
  sign_desc p r g sk (pure_pieces m ctx) hedged (try_sign_with_rng p r sk m ctx hedged g).
Proof.
  intros W Hc. apply (sign_desc_intro g sk _ hedged (try_sign_with_rng p r sk m ctx hedged));
    intros ->; intros.
  - apply (rruns_try_sign_det p HP); assumption.
  - apply (rruns_try_sign_hedged p HP); assumption.
  - eapply (rerrs_try_sign_hedged p); eassumption.
  - eapply (rpanics_try_sign_hedged p); eassumption.
Qed.

Lemma try_hash_sign_desc g sk m ctx ph hedged :
  wf_sk p sk -> nlen ctx <= 255 ->
  sign_desc p r g sk (hash_pieces m ctx ph) hedged (try_hash_sign_with_rng p r sk m ctx ph hedged g).
Proof.
  intros W Hc. apply (sign_desc_intro g sk _ hedged (try_hash_sign_with_rng p r sk m ctx ph hedged));
    intros ->; intros.
  - apply (rruns_try_hash_sign_det p HP); assumption.
  - apply (rruns_try_hash_sign_hedged p HP); assumption.
  - eapply (rerrs_try_hash_sign_hedged p); eassumption.
  - eapply (rpanics_try_hash_sign_hedged p); eassumption.
Qed.

Lemma raw_sign_desc g sk m hedged :
  wf_sk p sk -> sign_desc p r g sk [m] hedged (raw_sign p r sk m hedged g).
Proof.
  intros W. apply (sign_desc_intro g sk _ hedged (raw_sign p r sk m hedged));
    intros ->; intros; try rewrite concat1.
  - apply (rruns_raw_sign_det p HP); assumption.
  - apply (rruns_raw_sign_hedged p HP); assumption.
  - eapply (rerrs_raw_sign_hedged p); eassumption.
  - eapply (rpanics_raw_sign_hedged p); eassumption.
Qed.

(** key generation *)
Definition keygen_desc (g : rng_st r) (x : rng_st r * M (SlhPublicKey * SlhPrivateKey)) : Prop :=
  let d1 := try_fill r g (cN p) in
  let d2 := try_fill r (fst d1) (cN p) in
  let d3 := try_fill r (fst d2) (cN p) in
  match snd d1 with
  | Err _ => fst x = fst d1 /\ result (snd x) = Err "Alg17: rng failed1"%string /\
             calls (trace (snd x)) = [ERng (cN p)]
  | Panic q => fst x = fst d1 /\ result (snd x) = Panic q /\ calls (trace (snd x)) = [ERng (cN p)]
  | Val a =>
    match snd d2 with
    | Err _ => fst x = fst d2 /\ result (snd x) = Err "Alg17: rng failed2"%string /\
               calls (trace (snd x)) = [ERng (cN p); ERng (cN p)]
    | Panic q => fst x = fst d2 /\ result (snd x) = Panic q /\
                 calls (trace (snd x)) = [ERng (cN p); ERng (cN p)]
    | Val b =>
      match snd d3 with
      | Err _ => fst x = fst d3 /\ result (snd x) = Err "Alg17: rng failed3"%string /\
                 calls (trace (snd x)) = [ERng (cN p); ERng (cN p); ERng (cN p)]
      | Panic q => fst x = fst d3 /\ result (snd x) = Panic q /\
                   calls (trace (snd x)) = [ERng (cN p); ERng (cN p); ERng (cN p)]
      | Val c => fst x = fst d3 /\ result (snd x) = Val (key_of p a b c) /\
                 calls (trace (snd x)) =
                   ERng (cN p) :: ERng (cN p) :: ERng (cN p) :: prootC p (hf_of p) c a
      end
    end
  end.

Lemma keygen_is g : keygen_desc g (try_keygen_with_rng p r g).
Proof.
  unfold keygen_desc. cbv zeta.
  destruct (try_fill r g (cN p)) as [g1 [a|e|q]] eqn:E1; cbn [fst snd].
  - destruct (try_fill r g1 (cN p)) as [g2 [b|e|q]] eqn:E2; cbn [fst snd].
    + destruct (try_fill r g2 (cN p)) as [g3 [c|e|q]] eqn:E3; cbn [fst snd].
      * destruct (rruns_keygen p HP _ _ _ _ _ _ _ E1 E2 E3) as [A [B C]]. auto.
      * destruct (rerrs_keygen3 p _ _ _ _ _ _ _ E1 E2 E3) as [A [B C]]. auto.
      * destruct (rpanics_keygen3 p _ _ _ _ _ _ _ E1 E2 E3) as [A [B C]]. auto.
    + destruct (rerrs_keygen2 p _ _ _ _ _ E1 E2) as [A [B C]]. auto.
    + destruct (rpanics_keygen2 p _ _ _ _ _ E1 E2) as [A [B C]]. auto.
  - destruct (rerrs_keygen1 p _ _ _ E1) as [A [B C]]. auto.
  - destruct (rpanics_keygen1 p _ _ _ E1) as [A [B C]]. auto.
Qed.

Lemma keygen_inv g pk sk :
  call (try_keygen_with_rng p r) g = Val (pk, sk) ->
  exists a b c, nlen a = cN p /\ nlen b = cN p /\ nlen c = cN p /\ (pk, sk) = key_of p a b c.
Proof.
  unfold call. intros E. pose proof (keygen_is g) as D. unfold keygen_desc in D. cbv zeta in D.
  destruct (try_fill r g (cN p)) as [g1 [a|e|q]] eqn:E1; cbn [fst snd] in D;
    [|destruct D as [_ [D _]]; congruence..].
  destruct (try_fill r g1 (cN p)) as [g2 [b|e|q]] eqn:E2; cbn [fst snd] in D;
    [|destruct D as [_ [D _]]; congruence..].
  destruct (try_fill r g2 (cN p)) as [g3 [c|e|q]] eqn:E3; cbn [fst snd] in D;
    [|destruct D as [_ [D _]]; congruence..].
  exists a, b, c.
  repeat split; [eapply try_fill_len; eassumption..|]. destruct D as [_ [D _]]. congruence.
Qed.

End S.
