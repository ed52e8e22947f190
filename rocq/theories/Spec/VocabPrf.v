(** FIPS 205 run by someone who does not know the secret seeds but may ask for values of the
    pseudorandom functions. *)
From Verif Require Spec.Fips205.
From Verif Require Import Machine Model.Api Spec.Fips205Hash Spec.Vocab.
Import ListNotations.
Open Scope list_scope.
Open Scope N_scope.

(** the hash functions of a parameter set, except that PRF and PRF_msg ignore the secret they are given
    and return what the oracles answer for the address, and for opt_rand and the message *)
Definition ask {P : Prims} (s : set_name) (prf : bytes -> bytes) (prf_msg : bytes -> bytes -> bytes) : Fips205.HashFns :=
  Fips205.mkHashFns (fun _ opt_rand M => prf_msg opt_rand M) (Fips205.H_msg (fips_hash s)) (fun _ _ ADRS => prf ADRS)
    (Fips205.T_l (fips_hash s)) (Fips205.H (fips_hash s)) (Fips205.F (fips_hash s)).

(** the answers that a private key determines *)
Definition prf_of {P : Prims} (s : set_name) (sk : SlhPrivateKey) (ADRS : bytes) : bytes :=
  Fips205.PRF (fips_hash s) (sk_pk_seed sk) (sk_seed sk) ADRS.
Definition prf_msg_of {P : Prims} (s : set_name) (sk : SlhPrivateKey) (opt_rand M : bytes) : bytes :=
  Fips205.PRF_msg (fips_hash s) (sk_prf sk) opt_rand M.

(** a private key with zeros in place of both secrets, 4n bytes *)
Definition blank (s : set_name) : bytes := Fips205.toByte 0 (seed_bytes s).
Definition without_secrets (s : set_name) (sk : SlhPrivateKey) : bytes :=
  blank s ++ blank s ++ sk_pk_seed sk ++ sk_pk_root sk.

(** addresses of type WOTS_PRF or FORS_PRF (FIPS 205, section 4.2: bytes 16-19 hold the type) *)
Definition prf_address (ADRS : bytes) : Prop :=
  nlen ADRS = 32 /\
  (sub_bytes ADRS 16 20 = Fips205.toByte Fips205.WOTS_PRF 4 \/ sub_bytes ADRS 16 20 = Fips205.toByte Fips205.FORS_PRF 4).
