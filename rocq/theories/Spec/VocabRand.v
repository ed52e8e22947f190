(** Words used in the statement about the effect of the random generator on keys and signatures. *)
From Verif Require Spec.Fips205.
From Verif Require Import Machine Model.Api Spec.Fips205Hash Spec.Vocab.
Import ListNotations.
Open Scope list_scope.
Open Scope N_scope.

(** the string that randomizes a signature: what the generator answers, or the public seed in deterministic mode *)
Definition random_string (s : set_name) (sk : SlhPrivateKey) (r : Rng) (g : rng_st r) (hedged : bool) (x : bytes) : Prop :=
  if hedged then exists g', gives r g (seed_bytes s) x g' else x = sk_pk_seed sk.

(** sig is a signature of the framed message M' under sk, issued with random string x by some generator *)
Inductive issued_with {T : Target} {P : Prims} (s : set_name) (sk : SlhPrivateKey) : bytes -> bytes -> bytes -> Prop :=
| issued_pure r g m ctx hedged x sig :
    call (try_sign_with_rng (param_set s) r sk m ctx hedged) g = Val sig -> random_string s sk r g hedged x ->
    issued_with s sk (Fips205.pure_M' m ctx) x sig
| issued_hash r g m ctx ph hedged x sig :
    call (try_hash_sign_with_rng (param_set s) r sk m ctx (ph_arg ph) hedged) g = Val sig ->
    random_string s sk r g hedged x ->
    issued_with s sk (Fips205.hash_M' (fst (PH_fn ph m)) (snd (PH_fn ph m)) ctx) x sig
| issued_raw r g m hedged x sig :
    call (raw_sign (param_set s) r sk m hedged) g = Val sig -> random_string s sk r g hedged x ->
    issued_with s sk m x sig.

(** the keyed function that FIPS 205 section 11 calls PRF_msg: SHAKE256 of the key and the text, or HMAC *)
Definition keyed_digest {P : Prims} (s : set_name) (key text : bytes) : bytes :=
  match section_of s with
  | Sec_11_1 => shake256 (key ++ text) (seed_bytes s)
  | Sec_11_2_1 => firstn (N.to_nat (seed_bytes s)) (HMAC sha256 64 key text)
  | Sec_11_2_2 => firstn (N.to_nat (seed_bytes s)) (HMAC sha512 128 key text)
  end.

(** the generator answers three requests of n bytes with a, b and c *)
Definition drawn (s : set_name) (r : Rng) (g : rng_st r) (a b c : bytes) : Prop :=
  exists g1 g2 g3, gives r g (seed_bytes s) a g1 /\ gives r g1 (seed_bytes s) b g2 /\ gives r g2 (seed_bytes s) c g3.
