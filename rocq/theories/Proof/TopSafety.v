(** C04, C05, C21, C38, C39: no panics, which errors, output sizes. *)
From Coq Require Import String.
From Verif Require Import Spec.Fips205 Spec.Fips205Hash.
From Verif Require Import Model.Api Proof.Facts Proof.HashP Proof.Fun Proof.SlhP Proof.SerP Proof.ApiP
  Proof.SpecFun Spec.Vocab Proof.Summary Proof.TopCorrect.
Import ListNotations.
Open Scope list_scope.
Open Scope N_scope.

Lemma prop_verify_never_panics :
  forall (T : Target) (P : Prims) (s : set_name) (pkb m sig ctx : bytes) (ph : prehash),
    nlen pkb = pk_size s -> nlen sig = sig_size s ->
    exists pk,
      result (pk_try_from_bytes (param_set s) pkb) = Val pk /\
      (exists b, result (verify (param_set s) pk m sig ctx) = Val b) /\
      (exists b, result (hash_verify (param_set s) pk m sig ctx (ph_arg ph)) = Val b) /\
      (exists b, result (raw_verify (param_set s) pk m sig) = Val b).
Proof.
  intros T P s pkb m sig ctx ph Hp Hs. pose proof (param_PF s) as HP.
  rewrite <- param_pk in Hp. rewrite <- param_sig in Hs.
  destruct (runs_pk_try_from_bytes _ HP pkb Hp) as [V _]. rewrite V. eexists. split; [reflexivity|].
  split; [|split].
  - destruct (N.le_gt_cases (nlen ctx) 255) as [Hc|Hc].
    + eexists. exact (proj1 (runs_verify _ HP _ m sig ctx Hc Hs)).
    + eexists. exact (proj1 (runs_verify_long _ _ m sig ctx Hc)).
  - destruct (N.le_gt_cases (nlen ctx) 255) as [Hc|Hc].
    + eexists. exact (proj1 (runs_hash_verify _ HP _ m sig ctx (ph_arg ph) Hc Hs)).
    + eexists. exact (proj1 (runs_hash_verify_long _ _ m sig ctx (ph_arg ph) Hc)).
  - eexists. exact (proj1 (runs_raw_verify _ HP _ m sig Hs)).
Qed.

Lemma draw_no_panic p r g hedged d : never_panics r -> no_panic (snd (draw p r g hedged d)).
Proof.
  intros Hn q. unfold draw. destruct hedged; [|discriminate].
  destruct (try_fill r g (cN p)) as [g' o] eqn:E. cbn [snd]. intros ->. exact (Hn _ _ _ _ E).
Qed.

Lemma sign_desc_no_panic {T : Target} {P : Prims} p r g sk mp hedged x :
  never_panics r -> sign_desc p r g sk mp hedged x -> no_panic (result (snd x)).
Proof.
  intros Hn [_ [V _]] q. rewrite V.
  pose proof (draw_no_panic p r g hedged (sk_pk_seed sk) Hn) as D.
  destruct (snd (draw p r g hedged (sk_pk_seed sk))) as [b|e|q']; [discriminate..|].
  exfalso. exact (D q' eq_refl).
Qed.

Lemma try_sign_long {T : Target} {P : Prims} p r g sk m ctx hedged :
  255 < nlen ctx ->
  try_sign_with_rng p r sk m ctx hedged g = (g, ([EBranch true], Err ctx_err)).
Proof.
  intros Hc. unfold try_sign_with_rng. rewrite (ctx_long _ Hc). reflexivity.
Qed.
Lemma try_hash_sign_long {T : Target} {P : Prims} p r g sk m ctx ph hedged :
  255 < nlen ctx ->
  try_hash_sign_with_rng p r sk m ctx ph hedged g = (g, ([EBranch true], Err ctx_err)).
Proof.
  intros Hc. unfold try_hash_sign_with_rng. rewrite (ctx_long _ Hc). reflexivity.
Qed.

Lemma keygen_no_panic {T : Target} {P : Prims} p (HP : PF p) r g :
  never_panics r -> no_panic (call (try_keygen_with_rng p r) g).
Proof.
  intros Hn q. unfold call. pose proof (keygen_is p HP g) as D. unfold keygen_desc in D. cbv zeta in D.
  destruct (try_fill r g (cN p)) as [g1 [a|e|q1]] eqn:E1; cbn [fst snd] in D;
    [|destruct D as [_ [D _]]; congruence|exfalso; exact (Hn _ _ _ _ E1)].
  destruct (try_fill r g1 (cN p)) as [g2 [b|e|q1]] eqn:E2; cbn [fst snd] in D;
    [|destruct D as [_ [D _]]; congruence|exfalso; exact (Hn _ _ _ _ E2)].
  destruct (try_fill r g2 (cN p)) as [g3 [c|e|q1]] eqn:E3; cbn [fst snd] in D;
    [destruct D as [_ [D _]]; congruence|destruct D as [_ [D _]]; congruence|exfalso; exact (Hn _ _ _ _ E3)].
Qed.

Lemma import_total {T : Target} {P : Prims} p (HP : PF p) bs :
  nlen bs = cSK_LEN p ->
  result (sk_try_from_bytes p bs) = Val (sk_of_bytes p bs) /\ consistent p (sk_of_bytes p bs) \/
  result (sk_try_from_bytes p bs) = Err "Corrupted key"%string /\ ~ consistent p (sk_of_bytes p bs).
Proof.
  intros Hb.
  destruct (bytes_eqb (sk_pk_root (sk_of_bytes p bs))
     (proot p (hf_of p) (sk_pk_seed (sk_of_bytes p bs)) (sk_seed (sk_of_bytes p bs)))) eqn:C.
  - apply bytes_eqb_eq in C. left. split; [|exact C].
    apply (runs_sk_try_from_bytes p HP bs Hb C).
  - assert (NC : ~ consistent p (sk_of_bytes p bs)).
    { intros K. unfold consistent in K. rewrite <- K, bytes_eqb_refl in C. discriminate. }
    right. split; [|exact NC]. apply (errs_sk_try_from_bytes p HP bs Hb NC).
Qed.

Lemma prop_keygen_sign_import_never_panic :
  forall (T : Target) (P : Prims) (s : set_name) (r : Rng) (g : rng_st r),
    never_panics r ->
    no_panic (call (try_keygen_with_rng (param_set s) r) g) /\
    (forall skb, nlen skb = sk_size s -> no_panic (result (sk_try_from_bytes (param_set s) skb))) /\
    (forall pkb, nlen pkb = pk_size s -> no_panic (result (pk_try_from_bytes (param_set s) pkb))) /\
    (forall pk, pk_typed s pk -> no_panic (result (pk_into_bytes (param_set s) pk))) /\
    forall sk, sk_typed s sk ->
      no_panic (result (sk_into_bytes (param_set s) sk)) /\
      forall m ctx ph hedged,
        no_panic (call (try_sign_with_rng (param_set s) r sk m ctx hedged) g) /\
        no_panic (call (try_hash_sign_with_rng (param_set s) r sk m ctx (ph_arg ph) hedged) g) /\
        no_panic (call (raw_sign (param_set s) r sk m hedged) g).
Proof.
  intros T P s r g Hn. pose proof (param_PF s) as HP.
  split; [apply keygen_no_panic; assumption|].
  split.
  { intros skb Hb q. rewrite <- param_sk in Hb.
    destruct (import_total _ HP _ Hb) as [[-> _]|[-> _]]; discriminate. }
  split.
  { intros pkb Hb q. rewrite <- param_pk in Hb.
    rewrite (proj1 (runs_pk_try_from_bytes _ HP _ Hb)). discriminate. }
  split.
  { intros pk Wp q. apply typed_pk in Wp. rewrite (proj1 (runs_pk_into_bytes _ HP _ Wp)). discriminate. }
  intros sk W. apply typed_sk in W. split.
  { intros q. rewrite (proj1 (runs_sk_into_bytes _ HP _ W)). discriminate. }
  intros m ctx ph hedged. split; [|split].
  - destruct (N.le_gt_cases (nlen ctx) 255) as [Hc|Hc].
    + eapply sign_desc_no_panic; [exact Hn|]. apply try_sign_desc; assumption.
    + intros q. unfold call. rewrite (try_sign_long _ _ _ _ _ _ _ Hc). discriminate.
  - destruct (N.le_gt_cases (nlen ctx) 255) as [Hc|Hc].
    + eapply sign_desc_no_panic; [exact Hn|]. apply try_hash_sign_desc; assumption.
    + intros q. unfold call. rewrite (try_hash_sign_long _ _ _ _ _ _ _ _ Hc). discriminate.
  - eapply sign_desc_no_panic; [exact Hn|]. apply raw_sign_desc; assumption.
Qed.

Lemma sign_desc_not_ctx {T : Target} {P : Prims} p r g sk mp hedged x e :
  sign_desc p r g sk mp hedged x -> result (snd x) = Err e ->
  e = rng_err /\ hedged = true /\ refuses r g (cN p).
Proof.
  intros [_ [V _]] E. rewrite V in E. unfold draw in E. destruct hedged.
  - destruct (try_fill r g (cN p)) as [g' [b|e'|q]] eqn:F; cbn [snd] in E; [discriminate| |discriminate].
    split; [congruence|]. split; [reflexivity|]. exists g', e'. exact F.
  - discriminate.
Qed.

Lemma prop_context_length_rule :
  forall (T : Target) (P : Prims) (s : set_name) (r : Rng) (g : rng_st r) (sk : SlhPrivateKey)
         (pk : SlhPublicKey) (m ctx sig : bytes) (ph : prehash) (hedged : bool),
    sk_typed s sk ->
    let sign := try_sign_with_rng (param_set s) r sk m ctx hedged in
    let hash_sign := try_hash_sign_with_rng (param_set s) r sk m ctx (ph_arg ph) hedged in
    let too_long := "ctx must be less than 256 bytes"%string in
    (255 < nlen ctx ->
       call sign g = Err too_long /\ gen_after sign g = g /\ draws (trace_of sign g) = [] /\
       call hash_sign g = Err too_long /\ gen_after hash_sign g = g /\ draws (trace_of hash_sign g) = [] /\
       result (verify (param_set s) pk m sig ctx) = Val false /\
       result (hash_verify (param_set s) pk m sig ctx (ph_arg ph)) = Val false) /\
    (nlen ctx <= 255 -> call sign g <> Err too_long /\ call hash_sign g <> Err too_long).
Proof.
  intros T P s r g sk pk m ctx sig ph hedged W sign hash_sign too_long.
  pose proof (param_PF s) as HP. apply typed_sk in W. split.
  - intros Hc. subst sign hash_sign. unfold call, gen_after, trace_of.
    rewrite (try_sign_long _ _ _ _ _ _ _ Hc), (try_hash_sign_long _ _ _ _ _ _ _ _ Hc).
    rewrite (proj1 (runs_verify_long _ pk m sig ctx Hc)).
    rewrite (proj1 (runs_hash_verify_long _ pk m sig ctx (ph_arg ph) Hc)).
    repeat split.
  - intros Hc. split; intros E.
    + destruct (sign_desc_not_ctx _ _ _ _ _ _ _ _ (try_sign_desc _ HP g sk m ctx hedged W Hc) E) as [K _].
      discriminate K.
    + destruct (sign_desc_not_ctx _ _ _ _ _ _ _ _ (try_hash_sign_desc _ HP g sk m ctx (ph_arg ph) hedged W Hc) E) as [K _].
      discriminate K.
Qed.

Lemma prop_signing_errors_exhaustive :
  forall (T : Target) (P : Prims) (s : set_name) (r : Rng) (g : rng_st r) (sk : SlhPrivateKey)
         (m ctx : bytes) (ph : prehash) (hedged : bool) (e : string),
    sk_typed s sk ->
    (call (try_sign_with_rng (param_set s) r sk m ctx hedged) g = Err e ->
       255 < nlen ctx /\ e = "ctx must be less than 256 bytes"%string \/
       nlen ctx <= 255 /\ hedged = true /\ refuses r g (seed_bytes s) /\ e = "Alg17: rng failed"%string) /\
    (call (try_hash_sign_with_rng (param_set s) r sk m ctx (ph_arg ph) hedged) g = Err e ->
       255 < nlen ctx /\ e = "ctx must be less than 256 bytes"%string \/
       nlen ctx <= 255 /\ hedged = true /\ refuses r g (seed_bytes s) /\ e = "Alg17: rng failed"%string) /\
    (call (raw_sign (param_set s) r sk m hedged) g = Err e ->
       hedged = true /\ refuses r g (seed_bytes s) /\ e = "Alg17: rng failed"%string).
Proof.
  intros T P s r g sk m ctx ph hedged e W.
  pose proof (param_PF s) as HP. apply typed_sk in W. rewrite <- param_n.
  split; [|split]; intros E.
  - destruct (N.le_gt_cases (nlen ctx) 255) as [Hc|Hc].
    + right. destruct (sign_desc_not_ctx _ _ _ _ _ _ _ _ (try_sign_desc _ HP g sk m ctx hedged W Hc) E)
        as [K1 [K2 K3]]. auto.
    + left. unfold call in E. rewrite (try_sign_long _ _ _ _ _ _ _ Hc) in E.
      split; [exact Hc|]. injection E as <-. reflexivity.
  - destruct (N.le_gt_cases (nlen ctx) 255) as [Hc|Hc].
    + right. destruct (sign_desc_not_ctx _ _ _ _ _ _ _ _ (try_hash_sign_desc _ HP g sk m ctx (ph_arg ph) hedged W Hc) E)
        as [K1 [K2 K3]]. auto.
    + left. unfold call in E. rewrite (try_hash_sign_long _ _ _ _ _ _ _ _ Hc) in E.
      split; [exact Hc|]. injection E as <-. reflexivity.
  - destruct (sign_desc_not_ctx _ _ _ _ _ _ _ _ (raw_sign_desc _ HP g sk m hedged W) E) as [K1 [K2 K3]]. auto.
Qed.

Lemma prop_output_sizes :
  forall (T : Target) (P : Prims) (s : set_name),
    (forall pk, pk_typed s pk ->
       exists bs, result (pk_into_bytes (param_set s) pk) = Val bs /\ nlen bs = pk_size s) /\
    (forall sk, sk_typed s sk ->
       (exists bs, result (sk_into_bytes (param_set s) sk) = Val bs /\ nlen bs = sk_size s) /\
       forall (r : Rng) (g : rng_st r) m ctx ph hedged sig,
         call (try_sign_with_rng (param_set s) r sk m ctx hedged) g = Val sig \/
         call (try_hash_sign_with_rng (param_set s) r sk m ctx (ph_arg ph) hedged) g = Val sig \/
         call (raw_sign (param_set s) r sk m hedged) g = Val sig ->
         nlen sig = sig_size s) /\
    (forall (r : Rng) (g : rng_st r) pk sk,
       call (try_keygen_with_rng (param_set s) r) g = Val (pk, sk) -> pk_typed s pk /\ sk_typed s sk).
Proof.
  intros T P s. pose proof (param_PF s) as HP.
  split; [|split].
  - intros pk W. apply typed_pk in W. exists (pk_bytes pk).
    split; [apply (runs_pk_into_bytes _ HP _ W)|]. rewrite <- param_pk. apply nlen_pk_bytes; assumption.
  - intros sk W. apply typed_sk in W. split.
    + exists (sk_bytes sk). split; [apply (runs_sk_into_bytes _ HP _ W)|].
      rewrite <- param_sk. apply nlen_sk_bytes; assumption.
    + intros r g m ctx ph hedged sig E. rewrite <- param_sig.
      assert (K : exists b M, sig = sign_bytes (param_set s) sk b M).
      { destruct E as [E|[E|E]].
        - destruct (N.le_gt_cases (nlen ctx) 255) as [Hc|Hc].
          + destruct (sign_desc_sig _ _ _ _ _ _ _ _ (try_sign_desc _ HP g sk m ctx hedged W Hc) E). eauto.
          + unfold call in E. rewrite (try_sign_long _ _ _ _ _ _ _ Hc) in E. discriminate.
        - destruct (N.le_gt_cases (nlen ctx) 255) as [Hc|Hc].
          + destruct (sign_desc_sig _ _ _ _ _ _ _ _ (try_hash_sign_desc _ HP g sk m ctx (ph_arg ph) hedged W Hc) E). eauto.
          + unfold call in E. rewrite (try_hash_sign_long _ _ _ _ _ _ _ _ Hc) in E. discriminate.
        - destruct (sign_desc_sig _ _ _ _ _ _ _ _ (raw_sign_desc _ HP g sk m hedged W) E). eauto. }
      destruct K as [b [M ->]]. apply nlen_sign_bytes. exact HP.
  - intros r g pk sk E. destruct (keygen_inv _ HP _ _ _ E) as [a [b [c [Ha [Hb [Hc K]]]]]].
    destruct (wf_key_of _ HP a b c Ha Hb Hc) as [W1 W2]. rewrite <- K in W1, W2. cbn [fst snd] in W1, W2.
    split; [apply wf_typed_pk|apply wf_typed_sk]; assumption.
Qed.
