(** C01-C03, C18: signatures verify. *)
From Coq Require Import String.
From Verif Require Import Spec.Fips205 Spec.Fips205Hash.
From Verif Require Import Model.Api Proof.Facts Proof.HashP Proof.Fun Proof.SlhP Proof.SerP Proof.ApiP
  Proof.SpecFun Spec.Vocab Proof.Summary.
Import ListNotations.
Open Scope list_scope.
Open Scope N_scope.

Lemma seeds_inv {T : Target} {P : Prims} p (HP : PF p) a b c pk sk :
  result (keygen_with_seeds p a b c) = Val (pk, sk) ->
  nlen a = cN p /\ nlen b = cN p /\ nlen c = cN p /\ (pk, sk) = key_of p a b c.
Proof.
  intros E.
  destruct (N.eq_dec (nlen a) (cN p)) as [Ha|Ha]; [destruct (N.eq_dec (nlen b) (cN p)) as [Hb|Hb];
    [destruct (N.eq_dec (nlen c) (cN p)) as [Hc|Hc]|]|].
  - destruct (runs_keygen_with_seeds p HP a b c Ha Hb Hc) as [V _]. repeat split; congruence.
  - destruct (panics_keygen_with_seeds p a b c) as [q Q]; [tauto|congruence].
  - destruct (panics_keygen_with_seeds p a b c) as [q Q]; [tauto|congruence].
  - destruct (panics_keygen_with_seeds p a b c) as [q Q]; [tauto|congruence].
Qed.

Lemma import_inv {T : Target} {P : Prims} p (HP : PF p) bs sk :
  nlen bs = cSK_LEN p -> result (sk_try_from_bytes p bs) = Val sk ->
  sk = sk_of_bytes p bs /\ consistent p sk.
Proof.
  intros Hb E.
  destruct (bytes_eqb (sk_pk_root (sk_of_bytes p bs))
     (proot p (hf_of p) (sk_pk_seed (sk_of_bytes p bs)) (sk_seed (sk_of_bytes p bs)))) eqn:C.
  - apply bytes_eqb_eq in C.
    destruct (runs_sk_try_from_bytes p HP bs Hb C) as [V _]. rewrite V in E. injection E as <-.
    split; [reflexivity|exact C].
  - assert (NC : ~ consistent p (sk_of_bytes p bs)).
    { intros K. unfold consistent in K. rewrite <- K, bytes_eqb_refl in C. discriminate. }
    destruct (errs_sk_try_from_bytes p HP bs Hb NC) as [V _]. congruence.
Qed.

Lemma pk_bytes_of_bytes {P : Prims} p (HP : PF p) pk :
  wf_pk p pk ->
  mkPk (sub_bytes (pk_bytes pk) 0 (cN p)) (sub_bytes (pk_bytes pk) (cN p) (2 * cN p)) = pk.
Proof.
  intros [H1 H2]. destruct pk as [a b]. cbn [pk_seed pk_root pk_bytes] in *.
  f_equal; unfold pk_bytes; cbn [pk_seed pk_root].
  - rewrite sub_bytes_app_l by lia. rewrite <- H1. apply sub_bytes_all.
  - rewrite sub_bytes_app_r by lia. rewrite H1, N.sub_diag.
    replace (2 * cN p - cN p) with (nlen b) by lia. apply sub_bytes_all.
Qed.

Lemma nlen_pk_bytes p pk : PF p -> wf_pk p pk -> nlen (pk_bytes pk) = cPK_LEN p.
Proof. intros HP [H1 H2]. unfold pk_bytes. rewrite nlen_app, (pf_pk p HP). lia. Qed.

Lemma key_pair_facts {T : Target} {P : Prims} s pk sk :
  key_pair s pk sk ->
  wf_sk (param_set s) sk /\ consistent (param_set s) sk /\ pk = get_public_key sk.
Proof.
  pose proof (param_PF s) as HP. intros K.
  induction K as [r g pk sk E|a b c pk sk E|bs sk Hb E|pk sk bs pk' K IH E1 E2|pk sk bs sk' K IH E1 E2].
  - destruct (keygen_inv _ HP _ _ _ E) as [a [b [c [Ha [Hb [Hc K]]]]]].
    destruct (wf_key_of _ HP a b c Ha Hb Hc) as [_ W].
    unfold key_of in *. cbn [snd] in W. injection K as -> ->. split; [exact W|]. split; reflexivity.
  - destruct (seeds_inv _ HP _ _ _ _ _ E) as [Ha [Hb [Hc K]]].
    destruct (wf_key_of _ HP a b c Ha Hb Hc) as [_ W].
    unfold key_of in *. cbn [snd] in W. injection K as -> ->. split; [exact W|]. split; reflexivity.
  - rewrite <- param_sk in Hb. destruct (import_inv _ HP _ _ Hb E) as [-> C].
    split; [apply wf_sk_of_bytes; assumption|]. split; [exact C|reflexivity].
  - destruct IH as [W [C ->]]. split; [exact W|]. split; [exact C|].
    assert (Wp : wf_pk (param_set s) (get_public_key sk)) by (destruct W as [_ [_ W]]; exact W).
    destruct (runs_pk_into_bytes _ HP _ Wp) as [V _]. rewrite V in E1. injection E1 as <-.
    destruct (runs_pk_try_from_bytes _ HP _ (nlen_pk_bytes _ _ HP Wp)) as [V2 _].
    rewrite V2 in E2. injection E2 as <-. apply pk_bytes_of_bytes; assumption.
  - destruct IH as [W [C ->]].
    destruct (runs_sk_into_bytes _ HP _ W) as [V _]. rewrite V in E1. injection E1 as <-.
    pose proof (nlen_sk_bytes _ HP _ W) as Hl.
    destruct (import_inv _ HP _ _ Hl E2) as [-> C2].
    rewrite sk_of_bytes_bytes by exact W. split; [exact W|]. split; [exact C|reflexivity].
Qed.

(** whatever a signing function that hashes [mp] returns is a signature of [concat mp] *)
Lemma sign_desc_sig {T : Target} {P : Prims} p r g sk mp hedged x sig :
  sign_desc p r g sk mp hedged x -> result (snd x) = Val sig ->
  exists b, sig = sign_bytes p sk b (concat mp).
Proof.
  intros [_ [V _]] E. rewrite V in E.
  destruct (snd (draw p r g hedged (sk_pk_seed sk))) as [b|e|q]; [|discriminate..].
  exists b. congruence.
Qed.

Lemma sign_desc_ok {T : Target} {P : Prims} p r g sk mp hedged x :
  sign_desc p r g sk mp hedged x ->
  (hedged = true -> exists b g', gives r g (cN p) b g') -> exists sig, result (snd x) = Val sig.
Proof.
  intros [_ [V _]] Hg. rewrite V. unfold draw. destruct hedged.
  - destruct (Hg eq_refl) as [b [g' ->]]. cbn [snd]. eauto.
  - cbn [snd]. eauto.
Qed.

Lemma prop_pure_signatures_verify :
  forall (T : Target) (P : Prims) (s : set_name) (pk : SlhPublicKey) (sk : SlhPrivateKey),
    key_pair s pk sk ->
    forall (r : Rng) (g : rng_st r) (m ctx : bytes) (hedged : bool),
      nlen ctx <= 255 ->
      (forall sig, call (try_sign_with_rng (param_set s) r sk m ctx hedged) g = Val sig ->
                   nlen sig = sig_size s /\ result (verify (param_set s) pk m sig ctx) = Val true) /\
      ((hedged = true -> exists b g', gives r g (seed_bytes s) b g') ->
       exists sig, call (try_sign_with_rng (param_set s) r sk m ctx hedged) g = Val sig).
Proof.
  intros T P s pk sk K r g m ctx hedged Hc.
  pose proof (param_PF s) as HP. destruct (key_pair_facts _ _ _ K) as [W [C ->]].
  pose proof (try_sign_desc _ HP g sk m ctx hedged W Hc) as D. split.
  - intros sig E. destruct (sign_desc_sig _ _ _ _ _ _ _ _ D E) as [b ->].
    assert (L : nlen (sign_bytes (param_set s) sk b (concat (pure_pieces m ctx))) = cSIG_LEN (param_set s))
      by (apply nlen_sign_bytes; exact HP).
    split; [rewrite <- param_sig; exact L|].
    destruct (runs_verify _ HP (get_public_key sk) m _ ctx Hc L) as [V _]. rewrite V.
    rewrite verify_honest by assumption. reflexivity.
  - rewrite <- param_n. apply (sign_desc_ok _ _ _ _ _ _ _ D).
Qed.

Lemma prop_prehash_signatures_verify :
  forall (T : Target) (P : Prims) (s : set_name) (pk : SlhPublicKey) (sk : SlhPrivateKey),
    key_pair s pk sk ->
    forall (r : Rng) (g : rng_st r) (m ctx : bytes) (ph : prehash) (hedged : bool),
      nlen ctx <= 255 ->
      (forall sig, call (try_hash_sign_with_rng (param_set s) r sk m ctx (ph_arg ph) hedged) g = Val sig ->
                   nlen sig = sig_size s /\
                   result (hash_verify (param_set s) pk m sig ctx (ph_arg ph)) = Val true) /\
      ((hedged = true -> exists b g', gives r g (seed_bytes s) b g') ->
       exists sig, call (try_hash_sign_with_rng (param_set s) r sk m ctx (ph_arg ph) hedged) g = Val sig).
Proof.
  intros T P s pk sk K r g m ctx ph hedged Hc.
  pose proof (param_PF s) as HP. destruct (key_pair_facts _ _ _ K) as [W [C ->]].
  pose proof (try_hash_sign_desc _ HP g sk m ctx (ph_arg ph) hedged W Hc) as D. split.
  - intros sig E. destruct (sign_desc_sig _ _ _ _ _ _ _ _ D E) as [b ->].
    assert (L : nlen (sign_bytes (param_set s) sk b (concat (hash_pieces m ctx (ph_arg ph)))) = cSIG_LEN (param_set s))
      by (apply nlen_sign_bytes; exact HP).
    split; [rewrite <- param_sig; exact L|].
    destruct (runs_hash_verify _ HP (get_public_key sk) m _ ctx (ph_arg ph) Hc L) as [V _]. rewrite V.
    rewrite verify_honest by assumption. reflexivity.
  - rewrite <- param_n. apply (sign_desc_ok _ _ _ _ _ _ _ D).
Qed.

Lemma prop_raw_signatures_verify :
  forall (T : Target) (P : Prims) (s : set_name) (pk : SlhPublicKey) (sk : SlhPrivateKey),
    key_pair s pk sk ->
    forall (r : Rng) (g : rng_st r) (m : bytes) (hedged : bool),
      (forall sig, call (raw_sign (param_set s) r sk m hedged) g = Val sig ->
                   nlen sig = sig_size s /\ result (raw_verify (param_set s) pk m sig) = Val true) /\
      ((hedged = true -> exists b g', gives r g (seed_bytes s) b g') ->
       exists sig, call (raw_sign (param_set s) r sk m hedged) g = Val sig).
Proof.
  intros T P s pk sk K r g m hedged.
  pose proof (param_PF s) as HP. destruct (key_pair_facts _ _ _ K) as [W [C ->]].
  pose proof (raw_sign_desc _ HP g sk m hedged W) as D. split.
  - intros sig E. destruct (sign_desc_sig _ _ _ _ _ _ _ _ D E) as [b ->].
    rewrite concat1.
    assert (L : nlen (sign_bytes (param_set s) sk b m) = cSIG_LEN (param_set s))
      by (apply nlen_sign_bytes; exact HP).
    split; [rewrite <- param_sig; exact L|].
    destruct (runs_raw_verify _ HP (get_public_key sk) m _ L) as [V _]. rewrite V.
    rewrite verify_honest by assumption. reflexivity.
  - rewrite <- param_n. apply (sign_desc_ok _ _ _ _ _ _ _ D).
Qed.

Lemma prop_imported_keys_usable :
  forall (T : Target) (P : Prims) (s : set_name) (bs : bytes) (sk : SlhPrivateKey),
    nlen bs = sk_size s -> result (sk_try_from_bytes (param_set s) bs) = Val sk ->
    forall (r : Rng) (g : rng_st r) (m ctx : bytes) (ph : prehash) (hedged : bool),
      nlen ctx <= 255 -> (hedged = true -> exists b g', gives r g (seed_bytes s) b g') ->
      (exists sig, call (try_sign_with_rng (param_set s) r sk m ctx hedged) g = Val sig /\
                   result (verify (param_set s) (get_public_key sk) m sig ctx) = Val true) /\
      (exists sig, call (try_hash_sign_with_rng (param_set s) r sk m ctx (ph_arg ph) hedged) g = Val sig /\
                   result (hash_verify (param_set s) (get_public_key sk) m sig ctx (ph_arg ph)) = Val true).
Proof.
  intros T P s bs sk Hb E r g m ctx ph hedged Hc Hg.
  pose proof (kp_imported s bs sk Hb E) as K. split.
  - destruct (prop_pure_signatures_verify _ _ _ _ _ K r g m ctx hedged Hc) as [V X].
    destruct (X Hg) as [sig S]. exists sig. split; [exact S|]. apply (V sig S).
  - destruct (prop_prehash_signatures_verify _ _ _ _ _ K r g m ctx ph hedged Hc) as [V X].
    destruct (X Hg) as [sig S]. exists sig. split; [exact S|]. apply (V sig S).
Qed.
