(** Conformance to FIPS 205. *)
From Coq Require Import String.
From Verif Require Import Spec.Fips205 Spec.Fips205Hash.
From Verif Require Import Model.Api Spec.Vocab Proof.TopCorrect Proof.TopFips Proof.TopSafety Proof.Toy.
Import ListNotations.
Open Scope list_scope.
Open Scope N_scope.

(** C06. Key generation computes the FIPS 205 key pair. The key pair returned for seeds (SK.seed, SK.prf,
    PK.seed) is exactly the one Algorithm 18/21 of FIPS 205 defines: the private key is
    SK.seed||SK.prf||PK.seed||PK.root and the public key PK.seed||PK.root, with PK.root the root of
    the top-layer XMSS tree. *)
Theorem keygen_is_fips :
  forall (T : Target) (P : Prims) (s : set_name) (r : Rng) (g : rng_st r),
    let '(g1, SKseed) := try_fill r g (seed_bytes s) in
    let '(g2, SKprf) := try_fill r g1 (seed_bytes s) in
    let '(g3, PKseed) := try_fill r g2 (seed_bytes s) in
    exported s (call (try_keygen_with_rng (param_set s) r) g) =
    Fips205.slh_keygen (fips_params s) (fips_hash s) (ok SKseed) (ok SKprf) (ok PKseed).
Proof. exact prop_keygen_is_fips. Qed.
Print Assumptions keygen_is_fips.

(** both the success and the failure branch occur *)
Example keygen_is_fips_applies :
  (exists SK PK, exported (T := debug64) SHA2_128s
     (call (try_keygen_with_rng (T := debug64) (P := toy_prims) (param_set SHA2_128s) counter) 0) = Some (SK, PK)) /\
  exported (T := debug64) SHA2_128s
    (call (try_keygen_with_rng (T := debug64) (P := toy_prims) (param_set SHA2_128s) flaky) 0) = None.
Proof.
  split.
  - pose proof (keygen_is_fips debug64 toy_prims SHA2_128s counter 0) as K.
    cbn [try_fill counter ok] in K. rewrite K. unfold Fips205.slh_keygen.
    destruct (Fips205.slh_keygen_internal _ _ _ _ _) as [SK PK]. exists SK, PK. reflexivity.
  - pose proof (keygen_is_fips debug64 toy_prims SHA2_128s flaky 0) as K.
    cbn [try_fill flaky ok] in K. exact K.
Qed.

(** C07. Pure signing computes the FIPS 205 signature, byte for byte. For every private key, message,
    context of at most 255 bytes and additional randomness, the bytes returned by try_sign_with_rng
    are exactly those of FIPS 205 Algorithm 22 (slh_sign), with opt_rand = PK.seed in deterministic
    mode. *)
Theorem sign_is_fips :
  forall (T : Target) (P : Prims) (s : set_name) (r : Rng) (g : rng_st r) (sk : SlhPrivateKey)
         (SK m ctx : bytes) (hedged : bool),
    sk_typed s sk -> result (sk_into_bytes (param_set s) sk) = Val SK ->
    ok (call (try_sign_with_rng (param_set s) r sk m ctx hedged) g) =
    Fips205.slh_sign (fips_params s) (fips_hash s) m ctx SK (addrnd s r g hedged).
Proof. exact prop_sign_is_fips. Qed.
Print Assumptions sign_is_fips.

Example sign_is_fips_applies :
  exists SK, sk_typed SHA2_128s (tsk SHA2_128s) /\
    result (sk_into_bytes (T := debug64) (param_set SHA2_128s) (tsk SHA2_128s)) = Val SK /\
    exists sig, Fips205.slh_sign (fips_params SHA2_128s) (fips_hash (PR := toy_prims) SHA2_128s) toy_m toy_ctx SK
                  (addrnd SHA2_128s counter 5 true) = Some sig.
Proof.
  destruct (prop_output_sizes debug64 toy_prims SHA2_128s) as [_ [K _]].
  destruct (K _ (toy_sk_typed toy_prims _)) as [[bs [E _]] _].
  exists bs. split; [apply toy_sk_typed|]. split; [exact E|].
  rewrite <- (sign_is_fips debug64 toy_prims SHA2_128s counter 5 _ bs toy_m toy_ctx true (toy_sk_typed toy_prims _) E).
  destruct (toy_signs debug64 toy_prims SHA2_128s) as [sig V]. exists sig. rewrite V. reflexivity.
Qed.

(** C08. Pre-hash signing computes the FIPS 205 signature, byte for byte. For every private key, message,
    context of at most 255 bytes, pre-hash function and additional randomness, the bytes returned by
    try_hash_sign_with_rng are exactly those of FIPS 205 Algorithm 23 (hash_slh_sign), including the
    OID and digest length of each pre-hash function. *)
Theorem hash_sign_is_fips :
  forall (T : Target) (P : Prims) (s : set_name) (r : Rng) (g : rng_st r) (sk : SlhPrivateKey)
         (SK m ctx : bytes) (ph : prehash) (hedged : bool),
    sk_typed s sk -> result (sk_into_bytes (param_set s) sk) = Val SK ->
    ok (call (try_hash_sign_with_rng (param_set s) r sk m ctx (ph_arg ph) hedged) g) =
    Fips205.hash_slh_sign (fips_params s) (fips_hash s) m ctx (PH_fn ph) SK (addrnd s r g hedged).
Proof. exact prop_hash_sign_is_fips. Qed.
Print Assumptions hash_sign_is_fips.

Example hash_sign_is_fips_applies :
  exists SK, sk_typed SHAKE_256f (tsk SHAKE_256f) /\
    result (sk_into_bytes (T := debug64) (param_set SHAKE_256f) (tsk SHAKE_256f)) = Val SK.
Proof.
  destruct (prop_output_sizes debug64 toy_prims SHAKE_256f) as [_ [K _]].
  destruct (K _ (toy_sk_typed toy_prims _)) as [[bs [E _]] _].
  exists bs. split; [apply toy_sk_typed|]. exact E.
Qed.

(** C07, internal interface: the raw signing entry point is slh_sign_internal. *)
Theorem raw_sign_is_fips :
  forall (T : Target) (P : Prims) (s : set_name) (r : Rng) (g : rng_st r) (sk : SlhPrivateKey)
         (SK m : bytes) (hedged : bool),
    sk_typed s sk -> result (sk_into_bytes (param_set s) sk) = Val SK ->
    ok (call (raw_sign (param_set s) r sk m hedged) g) =
    match addrnd s r g hedged with
    | Some None => None
    | Some (Some b) => Some (Fips205.slh_sign_internal (fips_params s) (fips_hash s) m SK (Some b))
    | None => Some (Fips205.slh_sign_internal (fips_params s) (fips_hash s) m SK None)
    end.
Proof. exact prop_raw_sign_is_fips. Qed.
Print Assumptions raw_sign_is_fips.

Example raw_sign_is_fips_applies :
  exists SK, sk_typed SHA2_192s (tsk SHA2_192s) /\
    result (sk_into_bytes (T := debug64) (param_set SHA2_192s) (tsk SHA2_192s)) = Val SK.
Proof.
  destruct (prop_output_sizes debug64 toy_prims SHA2_192s) as [_ [K _]].
  destruct (K _ (toy_sk_typed toy_prims _)) as [[bs [E _]] _].
  exists bs. split; [apply toy_sk_typed|]. exact E.
Qed.

(** C09. Pure verification decides exactly as FIPS 205. verify(m, sig, ctx) returns exactly the boolean
    FIPS 205 Algorithm 24 (slh_verify) returns, for every public key, message, signature string of
    the fixed size and context of any length. *)
Theorem verify_is_fips :
  forall (T : Target) (P : Prims) (s : set_name) (pk : SlhPublicKey) (PK m sig ctx : bytes),
    pk_typed s pk -> result (pk_into_bytes (param_set s) pk) = Val PK -> nlen sig = sig_size s ->
    result (verify (param_set s) pk m sig ctx) =
    Val (Fips205.slh_verify (fips_params s) (fips_hash s) m sig ctx PK).
Proof. exact prop_verify_is_fips. Qed.
Print Assumptions verify_is_fips.

Example verify_is_fips_applies :
  exists PK, pk_typed SHA2_128s (tpk SHA2_128s) /\
    result (pk_into_bytes (param_set SHA2_128s) (tpk SHA2_128s)) = Val PK /\
    exists sig, nlen sig = sig_size SHA2_128s /\
      Fips205.slh_verify (fips_params SHA2_128s) (fips_hash (PR := toy_prims) SHA2_128s) toy_m sig toy_ctx PK = true.
Proof.
  destruct (prop_output_sizes debug64 toy_prims SHA2_128s) as [K _].
  destruct (K _ (toy_pk_typed toy_prims _)) as [PK [E _]]. exists PK. split; [apply toy_pk_typed|]. split; [exact E|].
  destruct (toy_signs debug64 toy_prims SHA2_128s) as [sig V].
  destruct (proj1 (prop_pure_signatures_verify debug64 toy_prims SHA2_128s _ _ (toy_key_pair _ toy_prims _) counter 5 toy_m
                     toy_ctx true toy_ctx_le) sig V) as [L B].
  exists sig. split; [exact L|].
  rewrite (verify_is_fips debug64 toy_prims SHA2_128s _ PK toy_m sig toy_ctx (toy_pk_typed toy_prims _) E L) in B.
  injection B as B. exact B.
Qed.

(** C10. Pre-hash verification decides exactly as FIPS 205. hash_verify(m, sig, ctx, ph) returns exactly
    the boolean FIPS 205 Algorithm 25 (hash_slh_verify) returns. *)
Theorem hash_verify_is_fips :
  forall (T : Target) (P : Prims) (s : set_name) (pk : SlhPublicKey) (PK m sig ctx : bytes) (ph : prehash),
    pk_typed s pk -> result (pk_into_bytes (param_set s) pk) = Val PK -> nlen sig = sig_size s ->
    result (hash_verify (param_set s) pk m sig ctx (ph_arg ph)) =
    Val (Fips205.hash_slh_verify (fips_params s) (fips_hash s) m sig ctx (PH_fn ph) PK).
Proof. exact prop_hash_verify_is_fips. Qed.
Print Assumptions hash_verify_is_fips.

Example hash_verify_is_fips_applies :
  exists PK, pk_typed SHAKE_128f (tpk SHAKE_128f) /\
    result (pk_into_bytes (param_set SHAKE_128f) (tpk SHAKE_128f)) = Val PK /\
    nlen (toy_sig SHAKE_128f) = sig_size SHAKE_128f.
Proof.
  destruct (prop_output_sizes debug64 toy_prims SHAKE_128f) as [K _].
  destruct (K _ (toy_pk_typed toy_prims _)) as [PK [E _]]. exists PK. split; [apply toy_pk_typed|]. split; [exact E|].
  apply toy_sig_len.
Qed.

(** C09, internal interface: the raw verification entry point is slh_verify_internal. *)
Theorem raw_verify_is_fips :
  forall (T : Target) (P : Prims) (s : set_name) (pk : SlhPublicKey) (PK m sig : bytes),
    pk_typed s pk -> result (pk_into_bytes (param_set s) pk) = Val PK -> nlen sig = sig_size s ->
    result (raw_verify (param_set s) pk m sig) =
    Val (Fips205.slh_verify_internal (fips_params s) (fips_hash s) m sig PK).
Proof. exact prop_raw_verify_is_fips. Qed.
Print Assumptions raw_verify_is_fips.

Example raw_verify_is_fips_applies :
  exists PK, pk_typed SHA2_256f (tpk SHA2_256f) /\
    result (pk_into_bytes (param_set SHA2_256f) (tpk SHA2_256f)) = Val PK /\
    nlen (toy_sig SHA2_256f) = sig_size SHA2_256f.
Proof.
  destruct (prop_output_sizes debug64 toy_prims SHA2_256f) as [K _].
  destruct (K _ (toy_pk_typed toy_prims _)) as [PK [E _]]. exists PK. split; [apply toy_pk_typed|]. split; [exact E|].
  apply toy_sig_len.
Qed.

(** C11. SHAKE hash instantiation matches FIPS 205 section 11.1. In the six SHAKE parameter sets, every
    keyed hash the scheme uses (message hash, PRFs, F, H, T) is SHAKE256 over the exact
    concatenation FIPS 205 section 11.1 prescribes, whatever way the message is split into pieces. *)
Theorem shake_hash_functions :
  forall (T : Target) (P : Prims) (s : set_name) (R PKseed PKroot SKseed SKprf opt_rand M1 M2 : bytes)
         (a : Adrs) (Ms : list bytes),
    section_of s = Sec_11_1 -> adrs_typed a ->
    let hs := HASHERS (param_set s) in
    let n := t_n (table2 s) in
    let ADRS := adrs_bytes a in
    (nlen Ms <= 5 ->
       result (h_msg hs R PKseed PKroot Ms) =
         Val (shake256 (R ++ PKseed ++ PKroot ++ concat Ms) (t_m (table2 s)))) /\
    (nlen SKprf <= 64 -> nlen Ms <= 5 ->
       result (prf_msg hs SKprf opt_rand Ms) = Val (shake256 (SKprf ++ opt_rand ++ concat Ms) n)) /\
    result (prf hs PKseed SKseed a) = Val (shake256 (PKseed ++ ADRS ++ SKseed) n) /\
    result (f hs PKseed a M1) = Val (shake256 (PKseed ++ ADRS ++ M1) n) /\
    result (h hs PKseed a M1 M2) = Val (shake256 (PKseed ++ ADRS ++ M1 ++ M2) n) /\
    result (t_l hs PKseed a Ms) = Val (shake256 (PKseed ++ ADRS ++ concat Ms) n) /\
    result (t_len hs PKseed a Ms) = Val (shake256 (PKseed ++ ADRS ++ concat Ms) n).
Proof. exact prop_shake_hash_functions. Qed.
Print Assumptions shake_hash_functions.

Definition toy_adrs : Adrs :=
  let w i := [n2b i; n2b (i + 1); n2b (i + 2); n2b (i + 3)] in
  mkAdrs (w 0) (w 4) (w 8) (w 12) (w 16) (w 20) (w 24) (w 28).
Example shake_hash_functions_applies :
  section_of SHAKE_192f = Sec_11_1 /\ adrs_typed toy_adrs /\
  result (f (HASHERS (T := debug64) (P := toy_prims) (param_set SHAKE_192f)) toy_m toy_adrs toy_ctx) =
    Val (nrepeat (checksum (toy_m ++ adrs_bytes toy_adrs ++ toy_ctx)) 24).
Proof.
  assert (W : adrs_typed toy_adrs) by (repeat split).
  split; [reflexivity|]. split; [exact W|].
  apply (shake_hash_functions debug64 toy_prims SHAKE_192f [] toy_m [] [] [] [] toy_ctx [] toy_adrs [] eq_refl W).
Qed.

(** C12. SHA-2 category-1 hash instantiation matches FIPS 205 section 11.2.1. In the SHA2-128 parameter
    sets, H_msg is MGF1-SHA-256 and PRF_msg is HMAC-SHA-256 as defined in RFC 8017/RFC 2104, and
    PRF, F, H, T are truncated SHA-256 over PK.seed, zero padding to 64 bytes, the 22-byte
    compressed address and the data. *)
Theorem sha2_cat1_hash_functions :
  forall (T : Target) (P : Prims) (s : set_name) (R PKseed PKroot SKseed SKprf opt_rand M1 M2 : bytes)
         (a : Adrs) (Ms : list bytes),
    section_of s = Sec_11_2_1 -> adrs_typed a ->
    let hs := HASHERS (param_set s) in
    let n := t_n (table2 s) in
    let pad := nrepeat x00 (64 - n) in
    let A := ADRSc (adrs_bytes a) in
    (nlen Ms <= 5 ->
       result (h_msg hs R PKseed PKroot Ms) =
         Val (MGF1 sha256 32 (R ++ PKseed ++ sha256 (R ++ PKseed ++ PKroot ++ concat Ms)) (t_m (table2 s)))) /\
    (nlen SKprf <= 64 -> nlen Ms <= 5 ->
       result (prf_msg hs SKprf opt_rand Ms) = Val (Trunc n (HMAC sha256 64 SKprf (opt_rand ++ concat Ms)))) /\
    result (prf hs PKseed SKseed a) = Val (Trunc n (sha256 (PKseed ++ pad ++ A ++ SKseed))) /\
    result (f hs PKseed a M1) = Val (Trunc n (sha256 (PKseed ++ pad ++ A ++ M1))) /\
    result (h hs PKseed a M1 M2) = Val (Trunc n (sha256 (PKseed ++ pad ++ A ++ M1 ++ M2))) /\
    result (t_l hs PKseed a Ms) = Val (Trunc n (sha256 (PKseed ++ pad ++ A ++ concat Ms))) /\
    result (t_len hs PKseed a Ms) = Val (Trunc n (sha256 (PKseed ++ pad ++ A ++ concat Ms))).
Proof. exact prop_sha2_cat1_hash_functions. Qed.
Print Assumptions sha2_cat1_hash_functions.

Example sha2_cat1_hash_functions_applies :
  section_of SHA2_128f = Sec_11_2_1 /\ adrs_typed toy_adrs /\ nlen (nrepeat x00 16) <= 64 /\ nlen [toy_m; toy_ctx] <= 5.
Proof. repeat split; discriminate. Qed.

(** C13. SHA-2 category-3/5 hash instantiation matches FIPS 205 section 11.2.2. In the SHA2-192 and
    SHA2-256 parameter sets, H_msg is MGF1-SHA-512, PRF_msg is HMAC-SHA-512, PRF and F are truncated
    SHA-256 padded to 64 bytes, and H and T are truncated SHA-512 padded to 128 bytes, over the
    compressed address. *)
Theorem sha2_cat35_hash_functions :
  forall (T : Target) (P : Prims) (s : set_name) (R PKseed PKroot SKseed SKprf opt_rand M1 M2 : bytes)
         (a : Adrs) (Ms : list bytes),
    section_of s = Sec_11_2_2 -> adrs_typed a ->
    let hs := HASHERS (param_set s) in
    let n := t_n (table2 s) in
    let pad64 := nrepeat x00 (64 - n) in
    let pad128 := nrepeat x00 (128 - n) in
    let A := ADRSc (adrs_bytes a) in
    (nlen Ms <= 5 ->
       result (h_msg hs R PKseed PKroot Ms) =
         Val (MGF1 sha512 64 (R ++ PKseed ++ sha512 (R ++ PKseed ++ PKroot ++ concat Ms)) (t_m (table2 s)))) /\
    (nlen SKprf <= 64 -> nlen Ms <= 5 ->
       result (prf_msg hs SKprf opt_rand Ms) = Val (Trunc n (HMAC sha512 128 SKprf (opt_rand ++ concat Ms)))) /\
    result (prf hs PKseed SKseed a) = Val (Trunc n (sha256 (PKseed ++ pad64 ++ A ++ SKseed))) /\
    result (f hs PKseed a M1) = Val (Trunc n (sha256 (PKseed ++ pad64 ++ A ++ M1))) /\
    result (h hs PKseed a M1 M2) = Val (Trunc n (sha512 (PKseed ++ pad128 ++ A ++ M1 ++ M2))) /\
    result (t_l hs PKseed a Ms) = Val (Trunc n (sha512 (PKseed ++ pad128 ++ A ++ concat Ms))) /\
    result (t_len hs PKseed a Ms) = Val (Trunc n (sha512 (PKseed ++ pad128 ++ A ++ concat Ms))).
Proof. exact prop_sha2_cat35_hash_functions. Qed.
Print Assumptions sha2_cat35_hash_functions.

Example sha2_cat35_hash_functions_applies :
  section_of SHA2_256f = Sec_11_2_2 /\ adrs_typed toy_adrs /\ nlen (nrepeat x00 32) <= 64 /\ nlen [toy_m; toy_ctx] <= 5.
Proof. repeat split; discriminate. Qed.

(** C14. Parameter constants are those of FIPS 205 table 2. For each parameter set, the exported sizes
    (seed, public key, private key, signature) and all internal constants agree with FIPS 205 Table
    2 and with the formulas tying them: sig = (1 + k(1+a) + h + d*len)*n, len from Algorithm 1,
    digest length m, h = d*h'. *)
Theorem parameters_are_table2 :
  forall s : set_name,
    let p := param_set s in
    let t := table2 s in
    cN p = t_n t /\ cH p = t_h t /\ cD p = t_d t /\ cHP p = t_h' t /\ cA p = t_a t /\ cK p = t_k t /\
    LGW = t_lgw t /\ cM p = t_m t /\ cPK_LEN p = t_pk_bytes t /\ cSIG_LEN p = t_sig_bytes t /\
    cSK_LEN p = 4 * t_n t /\ cPK_LEN p = 2 * t_n t /\
    W = 2 ^ t_lgw t /\ t_h t = t_d t * t_h' t /\
    cLEN p = len_ (fips_params s) /\ LEN2 = Fips205.gen_len2 (t_n t) (t_lgw t) /\
    cSIG_LEN p = (1 + t_k t * (1 + t_a t) + t_h t + t_d t * cLEN p) * t_n t /\
    cM p = ceil_div (t_h t - t_h' t) 8 + ceil_div (t_h' t) 8 + ceil_div (t_k t * t_a t) 8.
Proof. exact prop_parameters_are_table2. Qed.
Print Assumptions parameters_are_table2.

Example parameters_are_table2_applies : cSIG_LEN (param_set SHA2_128f) = 17088 /\ cM (param_set SHA2_256f) = 49.
Proof. split; reflexivity. Qed.
