(** C15-C19, C48: key encodings. *)
From Coq Require Import String.
From Verif Require Import Spec.Fips205 Spec.Fips205Hash.
From Verif Require Import Model.Api Proof.Facts Proof.HashP Proof.Fun Proof.SlhP Proof.SerP Proof.ApiP
  Proof.SpecFun Spec.Vocab Proof.Summary Proof.TopCorrect Proof.TopSafety Proof.TopFips.
Import ListNotations.
Open Scope list_scope.
Open Scope N_scope.

Lemma prop_public_key_round_trip :
  forall (T : Target) (P : Prims) (s : set_name),
    (forall bs, nlen bs = pk_size s ->
       exists pk, result (pk_try_from_bytes (param_set s) bs) = Val pk /\ pk_typed s pk /\
                  result (pk_into_bytes (param_set s) pk) = Val bs) /\
    (forall pk, pk_typed s pk ->
       exists bs, result (pk_into_bytes (param_set s) pk) = Val bs /\ nlen bs = pk_size s /\
                  result (pk_try_from_bytes (param_set s) bs) = Val pk).
Proof.
  intros T P s. pose proof (param_PF s) as HP. split.
  - intros bs Hb. rewrite <- param_pk in Hb.
    destruct (runs_pk_try_from_bytes _ HP bs Hb) as [V _]. rewrite V. eexists. split; [reflexivity|].
    rewrite (pf_pk _ HP) in Hb.
    assert (W : wf_pk (param_set s) (mkPk (sub_bytes bs 0 (cN (param_set s)))
                  (sub_bytes bs (cN (param_set s)) (2 * cN (param_set s))))).
    { split; cbn [pk_seed pk_root]; rewrite nlen_sub_bytes; lia. }
    split; [apply wf_typed_pk; exact W|].
    rewrite (proj1 (runs_pk_into_bytes _ HP _ W)). unfold pk_bytes. cbn [pk_seed pk_root].
    rewrite sub_bytes_split by lia. rewrite <- Hb. rewrite sub_bytes_all. reflexivity.
  - intros pk W. apply typed_pk in W. exists (pk_bytes pk).
    split; [apply (runs_pk_into_bytes _ HP _ W)|].
    split; [rewrite <- param_pk; apply nlen_pk_bytes; assumption|].
    rewrite (proj1 (runs_pk_try_from_bytes _ HP _ (nlen_pk_bytes _ _ HP W))).
    rewrite pk_bytes_of_bytes by assumption. reflexivity.
Qed.

Lemma prop_private_key_round_trip :
  forall (T : Target) (P : Prims) (s : set_name),
    (forall pk sk, key_pair s pk sk ->
       exists bs, result (sk_into_bytes (param_set s) sk) = Val bs /\ nlen bs = sk_size s /\
                  result (sk_try_from_bytes (param_set s) bs) = Val sk) /\
    (forall bs sk, nlen bs = sk_size s -> result (sk_try_from_bytes (param_set s) bs) = Val sk ->
       result (sk_into_bytes (param_set s) sk) = Val bs).
Proof.
  intros T P s. pose proof (param_PF s) as HP. split.
  - intros pk sk K. destruct (key_pair_facts _ _ _ K) as [W [C _]]. exists (sk_bytes sk).
    split; [apply (runs_sk_into_bytes _ HP _ W)|].
    pose proof (nlen_sk_bytes _ HP _ W) as L.
    split; [rewrite <- param_sk; exact L|].
    assert (E : sk_of_bytes (param_set s) (sk_bytes sk) = sk) by (apply sk_of_bytes_bytes; exact W).
    rewrite <- E in C. rewrite (proj1 (runs_sk_try_from_bytes _ HP _ L C)), E. reflexivity.
  - intros bs sk L E. rewrite <- param_sk in L. destruct (import_inv _ HP _ _ L E) as [-> _].
    pose proof (wf_sk_of_bytes _ HP bs L) as W.
    rewrite (proj1 (runs_sk_into_bytes _ HP _ W)), (sk_bytes_of_bytes _ HP) by exact L. reflexivity.
Qed.

(** the four quarters of a private-key string *)
Definition quarter (s : set_name) (bs : bytes) (i : N) : bytes :=
  sub_bytes bs (i * seed_bytes s) ((i + 1) * seed_bytes s).

Lemma quarters s bs :
  sk_of_bytes (param_set s) bs = mkSk (quarter s bs 0) (quarter s bs 1) (quarter s bs 2) (quarter s bs 3).
Proof.
  unfold sk_of_bytes, quarter. rewrite param_n.
  replace (0 * seed_bytes s) with 0 by lia. replace ((0 + 1) * seed_bytes s) with (seed_bytes s) by lia.
  replace (1 * seed_bytes s) with (seed_bytes s) by lia. replace ((1 + 1) * seed_bytes s) with (2 * seed_bytes s) by lia.
  replace ((2 + 1) * seed_bytes s) with (3 * seed_bytes s) by lia.
  replace ((3 + 1) * seed_bytes s) with (4 * seed_bytes s) by lia. reflexivity.
Qed.

(** FIPS 205 key generation on the first three quarters gives back the string *)
Definition fips_consistent {P : Prims} (s : set_name) (bs : bytes) : Prop :=
  fst (Fips205.slh_keygen_internal (fips_params s) (fips_hash s)
         (quarter s bs 0) (quarter s bs 1) (quarter s bs 2)) = bs.

Lemma consistent_fips {T : Target} {P : Prims} s bs :
  nlen bs = cSK_LEN (param_set s) ->
  (consistent (param_set s) (sk_of_bytes (param_set s) bs) <-> fips_consistent s bs).
Proof.
  intros L. unfold fips_consistent. rewrite fips_keygen_eq. cbn [fst].
  pose proof (sk_bytes_of_bytes _ (param_PF s) bs L) as E. rewrite quarters in E |- *.
  unfold consistent, sk_bytes, key_of in *. cbn [snd sk_seed sk_prf sk_pk_seed sk_pk_root] in *.
  set (X := proot _ _ _ _). split.
  - intros C. rewrite <- C. exact E.
  - intros C. rewrite <- E in C at 4.
    apply app_inv_head in C. apply app_inv_head in C. apply app_inv_head in C. symmetry. exact C.
Qed.

Lemma prop_import_accepts_exactly_consistent_keys :
  forall (T : Target) (P : Prims) (s : set_name) (bs : bytes),
    nlen bs = sk_size s ->
    let n := seed_bytes s in
    let SKseed := sub_bytes bs 0 n in
    let SKprf := sub_bytes bs n (2 * n) in
    let PKseed := sub_bytes bs (2 * n) (3 * n) in
    let PKroot := sub_bytes bs (3 * n) (4 * n) in
    let '(_, PK) := Fips205.slh_keygen_internal (fips_params s) (fips_hash s) SKseed SKprf PKseed in
    (PK = PKseed ++ PKroot ->
       result (sk_try_from_bytes (param_set s) bs) = Val (mkSk SKseed SKprf PKseed PKroot)) /\
    (PK <> PKseed ++ PKroot ->
       result (sk_try_from_bytes (param_set s) bs) = Err "Corrupted key"%string).
Proof.
  intros T P s bs L. cbv zeta. rewrite fips_keygen_eq. cbn [fst].
  rewrite <- param_sk in L. rewrite <- param_n.
  set (SKseed := sub_bytes bs 0 _). set (SKprf := sub_bytes bs _ (2 * _)).
  set (PKseed := sub_bytes bs (2 * _) _). set (PKroot := sub_bytes bs (3 * _) _).
  assert (Esk : sk_of_bytes (param_set s) bs = mkSk SKseed SKprf PKseed PKroot) by reflexivity.
  unfold pk_bytes, key_of. cbn [fst pk_seed pk_root].
  destruct (import_total _ (param_PF s) bs L) as [[V C]|[V C]]; rewrite Esk in *;
    unfold consistent in C; cbn [sk_pk_root sk_pk_seed sk_seed] in C.
  - split; [intros _; exact V|]. intros K. exfalso. apply K. rewrite <- C. reflexivity.
  - split; [|intros _; exact V]. intros K. apply app_inv_head in K. exfalso. apply C. symmetry. exact K.
Qed.

Lemma prop_get_public_key_matches :
  forall (T : Target) (P : Prims) (s : set_name),
    (forall pk sk, key_pair s pk sk -> get_public_key sk = pk) /\
    (forall bs sk, nlen bs = sk_size s -> result (sk_try_from_bytes (param_set s) bs) = Val sk ->
       result (pk_into_bytes (param_set s) (get_public_key sk)) =
       Val (sub_bytes bs (pk_size s) (2 * pk_size s))).
Proof.
  intros T P s. pose proof (param_PF s) as HP. split.
  - intros pk sk K. destruct (key_pair_facts _ _ _ K) as [_ [_ ->]]. reflexivity.
  - intros bs sk L E. rewrite <- param_sk in L. destruct (import_inv _ HP _ _ L E) as [-> _].
    pose proof (wf_sk_of_bytes _ HP bs L) as W.
    assert (Wp : wf_pk (param_set s) (get_public_key (sk_of_bytes (param_set s) bs)))
      by (destruct W as [_ [_ W]]; exact W).
    rewrite (proj1 (runs_pk_into_bytes _ HP _ Wp)). f_equal.
    rewrite <- param_pk, (pf_pk _ HP). unfold pk_bytes, get_public_key, sk_of_bytes.
    cbn [pk_seed pk_root sk_pk_seed sk_pk_root].
    unfold cSK_LEN in L. rewrite (pf_pk _ HP) in L.
    rewrite sub_bytes_split by lia. f_equal. lia.
Qed.

Lemma prop_import_ignores_sk_prf :
  forall (T : Target) (P : Prims) (s : set_name) (pre prf1 prf2 post : bytes),
    nlen pre = seed_bytes s -> nlen prf1 = seed_bytes s -> nlen prf2 = seed_bytes s ->
    nlen post = 2 * seed_bytes s ->
    forall sk1, result (sk_try_from_bytes (param_set s) (pre ++ prf1 ++ post)) = Val sk1 ->
    exists sk2, result (sk_try_from_bytes (param_set s) (pre ++ prf2 ++ post)) = Val sk2 /\
      get_public_key sk2 = get_public_key sk1 /\
      forall (r : Rng) (g : rng_st r) m ctx hedged sig,
        call (try_sign_with_rng (param_set s) r sk2 m ctx hedged) g = Val sig ->
        result (verify (param_set s) (get_public_key sk1) m sig ctx) = Val true.
Proof.
  intros T P s pre f1 f2 post L1 L2 L3 L4 sk1 E1. pose proof (param_PF s) as HP.
  rewrite <- param_n in *.
  assert (LL : forall f, nlen f = cN (param_set s) -> nlen (pre ++ f ++ post) = cSK_LEN (param_set s)).
  { intros f Lf. rewrite !nlen_app. unfold cSK_LEN. rewrite (pf_pk _ HP). lia. }
  assert (EE : forall f, nlen f = cN (param_set s) ->
     sk_of_bytes (param_set s) (pre ++ f ++ post) =
     mkSk pre f (sub_bytes post 0 (cN (param_set s))) (sub_bytes post (cN (param_set s)) (2 * cN (param_set s)))).
  { intros f Lf. unfold sk_of_bytes. f_equal.
    - rewrite sub_bytes_app_l by lia. rewrite <- L1. apply sub_bytes_all.
    - rewrite sub_bytes_app_r by lia. rewrite L1, N.sub_diag.
      replace (2 * cN (param_set s) - cN (param_set s)) with (cN (param_set s)) by lia.
      rewrite sub_bytes_app_l by lia. rewrite <- Lf. apply sub_bytes_all.
    - rewrite !sub_bytes_app_r by lia. f_equal; lia.
    - rewrite !sub_bytes_app_r by lia. f_equal; lia. }
  destruct (import_inv _ HP _ _ (LL f1 L2) E1) as [-> C1].
  assert (C2 : consistent (param_set s) (sk_of_bytes (param_set s) (pre ++ f2 ++ post))).
  { rewrite EE in C1 |- * by assumption. exact C1. }
  pose proof (proj1 (runs_sk_try_from_bytes _ HP _ (LL f2 L3) C2)) as E2.
  exists (sk_of_bytes (param_set s) (pre ++ f2 ++ post)). split; [exact E2|].
  assert (G : get_public_key (sk_of_bytes (param_set s) (pre ++ f2 ++ post)) =
              get_public_key (sk_of_bytes (param_set s) (pre ++ f1 ++ post)))
    by (rewrite !EE by assumption; reflexivity).
  split; [exact G|]. intros r g m ctx hedged sig S. rewrite <- G.
  assert (K : key_pair s (get_public_key (sk_of_bytes (param_set s) (pre ++ f2 ++ post)))
                         (sk_of_bytes (param_set s) (pre ++ f2 ++ post))).
  { apply (kp_imported s (pre ++ f2 ++ post)); [rewrite <- param_sk; apply LL; exact L3|exact E2]. }
  destruct (N.le_gt_cases (nlen ctx) 255) as [Hc|Hc].
  - apply (prop_pure_signatures_verify _ _ _ _ _ K r g m ctx hedged Hc). exact S.
  - unfold call in S. rewrite (try_sign_long _ _ _ _ _ _ _ Hc) in S. discriminate.
Qed.
