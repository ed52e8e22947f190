(** Key encodings. *)
From Coq Require Import String.
From Verif Require Import Spec.Fips205 Spec.Fips205Hash.
From Verif Require Import Model.Api Spec.Vocab Proof.TopKeys Proof.Toy Proof.ToyKeys.
Import ListNotations.
Open Scope list_scope.
Open Scope N_scope.

(** C15. Public keys survive serialization in both directions. Importing the exported bytes of a public
    key gives the same key, and exporting an imported byte string gives back the same bytes; import
    of a public key never fails. *)
Theorem public_key_round_trip :
  forall (T : Target) (P : Prims) (s : set_name),
    (forall bs, nlen bs = pk_size s ->
       exists pk, result (pk_try_from_bytes (param_set s) bs) = Val pk /\ pk_typed s pk /\
                  result (pk_into_bytes (param_set s) pk) = Val bs) /\
    (forall pk, pk_typed s pk ->
       exists bs, result (pk_into_bytes (param_set s) pk) = Val bs /\ nlen bs = pk_size s /\
                  result (pk_try_from_bytes (param_set s) bs) = Val pk).
Proof. exact prop_public_key_round_trip. Qed.
Print Assumptions public_key_round_trip.

Example public_key_round_trip_applies :
  nlen (toy_pkb SHA2_128s) = pk_size SHA2_128s /\ pk_typed SHA2_128s (tpk SHA2_128s).
Proof. split; [apply toy_pkb_len|apply toy_pk_typed]. Qed.

(** C16. Private keys survive serialization in both directions. Exporting and re-importing a generated
    private key succeeds and gives the same key; if importing a byte string succeeds then exporting
    it gives the same bytes. *)
Theorem private_key_round_trip :
  forall (T : Target) (P : Prims) (s : set_name),
    (forall pk sk, key_pair s pk sk ->
       exists bs, result (sk_into_bytes (param_set s) sk) = Val bs /\ nlen bs = sk_size s /\
                  result (sk_try_from_bytes (param_set s) bs) = Val sk) /\
    (forall bs sk, nlen bs = sk_size s -> result (sk_try_from_bytes (param_set s) bs) = Val sk ->
       result (sk_into_bytes (param_set s) sk) = Val bs).
Proof. exact prop_private_key_round_trip. Qed.
Print Assumptions private_key_round_trip.

Example private_key_round_trip_applies :
  exists bs, nlen bs = sk_size SHAKE_192s /\
    result (sk_try_from_bytes (T := debug64) (P := toy_prims) (param_set SHAKE_192s) bs) = Val (tsk SHAKE_192s).
Proof.
  destruct (proj1 (private_key_round_trip debug64 toy_prims SHAKE_192s) _ _ (toy_key_pair _ toy_prims _))
    as [bs [_ [L E]]]. exists bs. split; [exact L|exact E].
Qed.

(** C17. Private-key import accepts exactly the consistent keys. Importing a private-key byte string
    succeeds if and only if its last quarter equals the root FIPS 205 key generation computes from
    its first (SK.seed) and third (PK.seed) quarters; otherwise it returns the error "Corrupted
    key". *)
Theorem import_accepts_exactly_consistent_keys :
  forall (T : Target) (P : Prims) (s : set_name) (bs : bytes),
    nlen bs = sk_size s ->
    let n := seed_bytes s in
    let SKseed := sub_bytes bs 0 n in
    let SKprf := sub_bytes bs n (2 * n) in
    let PKseed := sub_bytes bs (2 * n) (3 * n) in
    let PKroot := sub_bytes bs (3 * n) (4 * n) in
    let '(_, PK) := Fips205.slh_keygen_internal (fips_params s) (fips_hash s) SKseed SKprf PKseed in
    (PK = PKseed ++ PKroot ->
       result (sk_try_from_bytes (param_set s) bs) = Val (mkSk SKseed SKprf PKseed PKroot)) /\
    (PK <> PKseed ++ PKroot ->
       result (sk_try_from_bytes (param_set s) bs) = Err "Corrupted key"%string).
Proof. exact prop_import_accepts_exactly_consistent_keys. Qed.
Print Assumptions import_accepts_exactly_consistent_keys.

(** accepted and rejected strings both exist *)
Example import_accepts_exactly_consistent_keys_applies :
  (exists bs sk, nlen bs = sk_size SHA2_128s /\
     result (sk_try_from_bytes (T := debug64) (P := toy_prims) (param_set SHA2_128s) bs) = Val sk) /\
  (exists bs, nlen bs = sk_size SHA2_128s /\
     result (sk_try_from_bytes (T := debug64) (P := toy_prims) (param_set SHA2_128s) bs) = Err "Corrupted key"%string).
Proof. exact (toy_import debug64 toy_prims SHA2_128s). Qed.

(** C19. get_public_key returns the matching public key. For a generated pair (pk, sk),
    sk.get_public_key() equals pk; for an imported private key its exported bytes are the second
    half of the private-key bytes. *)
Theorem get_public_key_matches :
  forall (T : Target) (P : Prims) (s : set_name),
    (forall pk sk, key_pair s pk sk -> get_public_key sk = pk) /\
    (forall bs sk, nlen bs = sk_size s -> result (sk_try_from_bytes (param_set s) bs) = Val sk ->
       result (pk_into_bytes (param_set s) (get_public_key sk)) =
       Val (sub_bytes bs (pk_size s) (2 * pk_size s))).
Proof. exact prop_get_public_key_matches. Qed.
Print Assumptions get_public_key_matches.

Example get_public_key_matches_applies :
  get_public_key (tsk SHA2_128s) = tpk SHA2_128s.
Proof. apply (get_public_key_matches debug64 toy_prims SHA2_128s). apply toy_key_pair. Qed.

(** C48. Private-key import does not protect SK.prf. Whether a private-key byte string is accepted does
    not depend on its second quarter: any change confined to SK.prf is accepted (a documented limit
    of the validation), and every signature from such a key still verifies. *)
Theorem import_ignores_sk_prf :
  forall (T : Target) (P : Prims) (s : set_name) (pre prf1 prf2 post : bytes),
    nlen pre = seed_bytes s -> nlen prf1 = seed_bytes s -> nlen prf2 = seed_bytes s ->
    nlen post = 2 * seed_bytes s ->
    forall sk1, result (sk_try_from_bytes (param_set s) (pre ++ prf1 ++ post)) = Val sk1 ->
    exists sk2, result (sk_try_from_bytes (param_set s) (pre ++ prf2 ++ post)) = Val sk2 /\
      get_public_key sk2 = get_public_key sk1 /\
      forall (r : Rng) (g : rng_st r) m ctx hedged sig,
        call (try_sign_with_rng (param_set s) r sk2 m ctx hedged) g = Val sig ->
        result (verify (param_set s) (get_public_key sk1) m sig ctx) = Val true.
Proof. exact prop_import_ignores_sk_prf. Qed.
Print Assumptions import_ignores_sk_prf.

Example import_ignores_sk_prf_applies :
  exists pre prf1 prf2 post sk1, prf1 <> prf2 /\
    nlen pre = seed_bytes SHA2_128s /\ nlen prf1 = seed_bytes SHA2_128s /\ nlen prf2 = seed_bytes SHA2_128s /\
    nlen post = 2 * seed_bytes SHA2_128s /\
    result (sk_try_from_bytes (T := debug64) (P := toy_prims) (param_set SHA2_128s) (pre ++ prf1 ++ post)) = Val sk1.
Proof. exact (toy_prf_import debug64 toy_prims SHA2_128s). Qed.
