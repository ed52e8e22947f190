(** The strings that reach SHA-256, SHA-512 and SHAKE256 (FIPS 205, section 11): words used in the
    statement about collisions of those functions. *)
From Verif Require Spec.Fips205.
From Verif Require Import Machine Model.Api Spec.Fips205Hash Spec.Vocab.
Import ListNotations.
Open Scope list_scope.
Open Scope N_scope.

Inductive primitive := Use_SHA256 | Use_SHA512 | Use_SHAKE256.

(** the function behind PRF, F, H, T_k and T_len of a parameter set *)
Definition primitive_of (s : set_name) (kind : hkind) : primitive :=
  match section_of s with
  | Sec_11_1 => Use_SHAKE256
  | Sec_11_2_1 => Use_SHA256
  | Sec_11_2_2 => match kind with KF | KPRF => Use_SHA256 | _ => Use_SHA512 end
  end.

(** its first n bytes of output *)
Definition short_digest {P : Prims} (s : set_name) (kind : hkind) (x : bytes) : bytes :=
  match primitive_of s kind with
  | Use_SHA256 => firstn (N.to_nat (seed_bytes s)) (sha256 x)
  | Use_SHA512 => firstn (N.to_nat (seed_bytes s)) (sha512 x)
  | Use_SHAKE256 => shake256 x (seed_bytes s)
  end.

(** what it is applied to: the public seed, for SHA-2 filled up with zeros to one block, the address, for
    SHA-2 compressed, and the message *)
Definition hashed_string (s : set_name) (kind : hkind) (seed : bytes) (a : Adrs) (input : list bytes) : bytes :=
  match primitive_of s kind with
  | Use_SHA256 => seed ++ nrepeat x00 (64 - seed_bytes s) ++ ADRSc (adrs_bytes a) ++ concat input
  | Use_SHA512 => seed ++ nrepeat x00 (128 - seed_bytes s) ++ ADRSc (adrs_bytes a) ++ concat input
  | Use_SHAKE256 => seed ++ adrs_bytes a ++ concat input
  end.

(** two different strings of the same length, with the same beginning (the public seed, for SHA-2 the whole
    first block), one hashed in each run by the same function, with the same first n bytes of output *)
Definition standard_collision {P : Prims} (s : set_name) (seed : bytes) (run1 run2 : list event) : Prop :=
  exists kind a1 a2 input1 input2,
    In (EHash kind seed a1 input1) run1 /\ In (EHash kind seed a2 input2) run2 /\
    let x1 := hashed_string s kind seed a1 input1 in
    let x2 := hashed_string s kind seed a2 input2 in
    x1 <> x2 /\ nlen x1 = nlen x2 /\ short_digest s kind x1 = short_digest s kind x2.
