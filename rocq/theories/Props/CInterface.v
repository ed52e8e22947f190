(** The C interface (ffi/src/lib.rs). *)
From Coq Require Import String.
From Verif Require Import Spec.Fips205 Spec.Fips205Hash.
From Verif Require Import Model.Api Spec.Vocab Model.Ffi Spec.VocabFfi Proof.TopFfi Proof.TopKeys Proof.Toy Proof.ToyKeys.
Import ListNotations.
Open Scope list_scope.
Open Scope N_scope.

(** C42. C interface: key generation contract. The C key-generation function returns 1 and writes nothing
    if either output pointer is null, 4 and writes nothing if the system generator fails, and
    otherwise 0 with a matching key pair written to both outputs. *)
Theorem ffi_keygen_contract :
  forall (T : Target) (P : Prims) (os : Rng) (g : rng_st os) (pub priv : option bytes),
    let r := snd (ffi_keygen os g pub priv) in
    (pub = None \/ priv = None ->
       r = FReturn 1 (pub, priv) /\ fst (ffi_keygen os g pub priv) = g) /\
    (pub <> None -> priv <> None ->
       (refuses os g 16 \/
        (exists a g1, gives os g 16 a g1 /\ refuses os g1 16) \/
        (exists a b g1 g2, gives os g 16 a g1 /\ gives os g1 16 b g2 /\ refuses os g2 16) ->
        r = FReturn 4 (pub, priv)) /\
       (forall a b c g1 g2 g3, gives os g 16 a g1 -> gives os g1 16 b g2 -> gives os g2 16 c g3 ->
        exists pk sk pkb skb,
          r = FReturn 0 (Some pkb, Some skb) /\
          fst (ffi_keygen os g pub priv) = g3 /\
          Fips205.slh_keygen_internal (fips_params SHA2_128f) (fips_hash SHA2_128f) a b c = (skb, pkb) /\
          key_pair SHA2_128f pk sk /\
          result (pk_into_bytes (param_set SHA2_128f) pk) = Val pkb /\ nlen pkb = pk_size SHA2_128f /\
          result (sk_into_bytes (param_set SHA2_128f) sk) = Val skb /\ nlen skb = sk_size SHA2_128f)) /\
    (never_panics os -> exists code outs, r = FReturn code outs).
Proof. exact prop_ffi_keygen_contract. Qed.
Print Assumptions ffi_keygen_contract.

Example ffi_keygen_contract_applies :
  exists pkb skb,
    snd (ffi_keygen (T := debug64) (P := toy_prims) counter 0 (Some []) (Some []))
      = FReturn SLH_DSA_OK (Some pkb, Some skb) /\
    nlen pkb = 32 /\ nlen skb = 64 /\
    snd (ffi_keygen (T := debug64) (P := toy_prims) broken tt (Some []) (Some []))
      = FReturn SLH_DSA_KEYGEN_ERROR (Some [], Some []).
Proof.
  destruct (ffi_keygen_contract debug64 toy_prims counter 0 (Some []) (Some [])) as [_ [K _]].
  destruct (K ltac:(discriminate) ltac:(discriminate)) as [_ G].
  destruct (G _ _ _ _ _ _ (counter_gives 0 16) (counter_gives 1 16) (counter_gives 2 16))
    as (pk & sk & pkb & skb & E & Eg & _ & _ & _ & L1 & _ & L2).
  exists pkb, skb. split; [exact E|].
  split; [exact L1|]. split; [exact L2|].
  destruct (ffi_keygen_contract debug64 toy_prims broken tt (Some []) (Some [])) as [_ [K' _]].
  apply K'; [discriminate|discriminate|]. left. apply broken_refuses.
Qed.

(** C43. C interface: sign and verify contract. With valid buffers, the C sign function returns 0 and
    writes a signature which the C verify function accepts (returns 0) for the same message and
    matching public key; it returns 1 for null pointers, 3 for an inconsistent private key, 5 if the
    generator fails, leaving the output untouched; C verify returns 0 exactly when the pure
    verification with empty context accepts, else 6. *)
Theorem ffi_sign_contract :
  forall (T : Target) (P : Prims) (os : Rng) (g : rng_st os) (len : Z) (sk out : option bytes),
    (forall buf, buf = None \/ sk = None \/ out = None ->
       ffi_sign os g buf len sk out = (g, FReturn 1 out)) /\
    (forall buf m skb, c_message buf len m -> sk = Some skb -> nlen skb = sk_size SHA2_128f -> out <> None ->
       let SKseed := sub_bytes skb 0 16 in
       let SKprf := sub_bytes skb 16 32 in
       let PKseed := sub_bytes skb 32 48 in
       let PKroot := sub_bytes skb 48 64 in
       let '(_, PK) := Fips205.slh_keygen_internal (fips_params SHA2_128f) (fips_hash SHA2_128f) SKseed SKprf PKseed in
       (PK <> PKseed ++ PKroot ->
          ffi_sign os g (Some buf) len sk out = (g, FReturn 3 out)) /\
       (PK = PKseed ++ PKroot -> refuses os g 16 ->
          snd (ffi_sign os g (Some buf) len sk out) = FReturn 5 out) /\
       (PK = PKseed ++ PKroot -> forall b g', gives os g 16 b g' ->
          exists sig,
            ffi_sign os g (Some buf) len sk out = (g', FReturn 0 (Some sig)) /\
            nlen sig = sig_size SHA2_128f /\
            Some sig = Fips205.slh_sign (fips_params SHA2_128f) (fips_hash SHA2_128f) m [] skb (Some (Some b)) /\
            ffi_verify (Some buf) len (Some PK) (Some sig) = FReturn 0 tt)).
Proof. exact prop_ffi_sign_contract. Qed.
Print Assumptions ffi_sign_contract.

Example ffi_sign_contract_applies :
  c_message (T := debug64) toy_m 2 toy_m /\
  exists skb, nlen skb = sk_size SHA2_128f /\
    snd (Fips205.slh_keygen_internal (fips_params SHA2_128f) (fips_hash (PR := toy_prims) SHA2_128f)
           (sub_bytes skb 0 16) (sub_bytes skb 16 32) (sub_bytes skb 32 48))
    = sub_bytes skb 32 48 ++ sub_bytes skb 48 64.
Proof.
  split; [split; [discriminate|]; split; [reflexivity|]; split; [discriminate|reflexivity]|].
  destruct (proj1 (toy_import debug64 toy_prims SHA2_128f)) as (bs & sk & L & E). exists bs. split; [exact L|].
  pose proof (prop_import_accepts_exactly_consistent_keys debug64 toy_prims SHA2_128f bs L) as K. cbv zeta in K.
  change (seed_bytes SHA2_128f) with 16 in K. change (2 * 16) with 32 in K. change (3 * 16) with 48 in K.
  change (4 * 16) with 64 in K.
  destruct (Fips205.slh_keygen_internal _ _ _ _ _) as [SK0 PK]. cbn [snd]. destruct K as [_ K].
  destruct (list_eq_dec Byte.byte_eq_dec PK (sub_bytes bs 32 48 ++ sub_bytes bs 48 64)) as [Y|Y]; [exact Y|].
  rewrite (K Y) in E. discriminate.
Qed.

(** C43, second half. The C verify function returns 0 exactly when FIPS 205 verification with the
    empty context accepts, 6 otherwise, and 1 when a struct pointer is null. *)
Theorem ffi_verify_contract :
  forall (T : Target) (P : Prims) (len : Z) (pk sig : option bytes),
    (forall buf, pk = None \/ sig = None ->
       ffi_verify buf len pk sig = FReturn 1 tt) /\
    (forall buf m pkb sigb, c_message buf len m ->
       pk = Some pkb -> nlen pkb = pk_size SHA2_128f -> sig = Some sigb -> nlen sigb = sig_size SHA2_128f ->
       ffi_verify (Some buf) len pk sig =
         FReturn (if Fips205.slh_verify (fips_params SHA2_128f) (fips_hash SHA2_128f) m sigb [] pkb
                  then 0 else 6) tt).
Proof. exact prop_ffi_verify_contract. Qed.
Print Assumptions ffi_verify_contract.

Example ffi_verify_contract_applies :
  c_message (T := debug64) toy_m 1 [n2b 104] /\ nlen (toy_pkb SHA2_128f) = pk_size SHA2_128f /\
  nlen (toy_sig SHA2_128f) = sig_size SHA2_128f.
Proof.
  split; [split; [discriminate|]; split; [reflexivity|]; split; [discriminate|reflexivity]|].
  split; [apply toy_pkb_len|apply toy_sig_len].
Qed.

(** C44. C interface: null message pointers are reported, not dereferenced. Both the C sign and the C
    verify function return the null-pointer error when the message pointer is null.
    The half of this claim that holds: sign reports a null message pointer. The other half is false
    of the code, see the next theorem. *)
Theorem ffi_null_message_sign_partial :
  forall (T : Target) (P : Prims) (os : Rng) (g : rng_st os) (len : Z) (sk out : option bytes),
    ffi_sign os g None len sk out = (g, FReturn 1 out).
Proof. exact prop_ffi_null_message_sign_partial. Qed.
Print Assumptions ffi_null_message_sign_partial.

Example ffi_null_message_sign_partial_applies :
  snd (ffi_sign (T := debug64) (P := toy_prims) counter 0 None 3 (Some toy_m) (Some toy_m))
    = FReturn SLH_DSA_NULL_PTR_ERROR (Some toy_m).
Proof. reflexivity. Qed.

(** C44 is false of the C verify function: with a null message pointer it does not return the
    null-pointer error but passes the pointer to from_raw_parts, which is undefined behaviour
    whatever the length. *)
Theorem ffi_null_message_verify_refuted :
  exists (len : Z) (pk sig : bytes), nlen pk = pk_size SHA2_128f /\ nlen sig = sig_size SHA2_128f /\
    (forall (T : Target) (P : Prims),
       ffi_verify None len (Some pk) (Some sig) <> FReturn 1 tt) /\
    (forall (T : Target) (P : Prims), ffi_verify None len (Some pk) (Some sig) = FUB).
Proof. exact prop_ffi_null_message_verify_refuted. Qed.
Print Assumptions ffi_null_message_verify_refuted.

(** the same call with a valid pointer is defined *)
Example ffi_null_message_verify_contrast :
  exists code, ffi_verify (T := debug64) (P := toy_prims) (Some toy_m) 0 (Some (toy_pkb SHA2_128f)) (Some (toy_sig SHA2_128f))
    = FReturn code tt.
Proof.
  eexists. apply (proj2 (ffi_verify_contract debug64 toy_prims 0 _ _) toy_m [] (toy_pkb SHA2_128f) (toy_sig SHA2_128f));
    [|reflexivity|apply toy_pkb_len|reflexivity|apply toy_sig_len].
  split; [discriminate|]. split; [reflexivity|]. split; [discriminate|reflexivity].
Qed.

(** A negative message length ends the process in both C functions (unwrap of a failed conversion);
    recorded as a finding, no claim asserts it. *)
Theorem ffi_negative_length_aborts :
  forall (T : Target) (P : Prims) (os : Rng) (g : rng_st os) (len : Z) (buf key sig : bytes),
    (len < 0)%Z ->
    snd (ffi_sign os g (Some buf) len (Some key) (Some sig)) = FAbort /\
    ffi_verify (Some buf) len (Some key) (Some sig) = FAbort.
Proof. exact prop_ffi_negative_length_aborts. Qed.
Print Assumptions ffi_negative_length_aborts.

Example ffi_negative_length_aborts_applies :
  ffi_verify (T := debug64) (P := toy_prims) (Some toy_m) (-1) (Some (toy_pkb SHA2_128f)) (Some (toy_sig SHA2_128f)) = FAbort.
Proof. apply (ffi_negative_length_aborts debug64 toy_prims counter 0). reflexivity. Qed.
