(** The limit of 2^64 signatures per key. *)
From Coq Require Import NArith.
From Verif Require Import Spec.Fips205Hash.
Open Scope N_scope.

(** what is left of the security of the few-time keys after 2^64 signatures, in bits; FIPS 205 aims at 128,
    192 and 256 (section 10, categories 1, 3 and 5) *)
Definition few_time_bits (s : set_name) : N :=
  match s with
  | SHA2_128s | SHAKE_128s => 133
  | SHA2_128f | SHAKE_128f => 128
  | SHA2_192s | SHAKE_192s => 193
  | SHA2_192f | SHAKE_192f => 194
  | SHA2_256s | SHAKE_256s => 255
  | SHA2_256f | SHAKE_256f => 255
  end.
