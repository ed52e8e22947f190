(** Collisions of the standard hash functions. *)
From Coq Require Import String.
From Verif Require Import Spec.Fips205 Spec.Fips205Hash.
From Verif Require Import Model.Api Spec.Vocab Spec.VocabForge Spec.VocabBind Spec.VocabPrim Proof.TopPrim Proof.ToyForge Proof.ToyPrim Proof.Toy.
Import ListNotations.
Open Scope list_scope.
Open Scope N_scope.

(** C67. What breaks in a forgery is SHA-2 or SHAKE itself. The value of each tree and chain hash
    function the library uses is the first n bytes of SHA-256, SHA-512 or SHAKE256 of one string:
    the public seed (for SHA-2 filled up to one block), the address and the message. Hence every
    second preimage and every collision that C35, C55, C61, C62 and C64 speak of gives two different
    strings of the same length and with the same beginning, one hashed in each of the two runs, on
    which the same standard function agrees in its first n bytes. *)
Theorem collisions_are_standard :
  forall (T : Target) (P : Prims) (s : set_name) (run1 run2 : list event),
    (** every value of the hash functions is the beginning of a SHA-2 or SHAKE value of that string, *)
    (forall kind seed a input v, adrs_typed a -> hash_value s kind seed a input v ->
       v = short_digest s kind (hashed_string s kind seed a input)) /\
    (** so second preimages and collisions found in runs are collisions of SHA-2 or SHAKE *)
    (second_preimage s run1 run2 -> exists seed, standard_collision s seed run1 run2) /\
    (forall seed, collision s seed run1 run2 -> standard_collision s seed run1 run2).
Proof. exact prop_collisions_are_standard. Qed.
Print Assumptions collisions_are_standard.

(** with hash functions that ignore their input, two verification runs of different signatures; they contain a
    second preimage, which is also a collision *)
Example collisions_are_standard_applies :
  second_preimage (T := debug64) (P := weak_prims) SHA2_128f (odd_run 1) (odd_run 2) /\
  (exists seed, collision (T := debug64) (P := weak_prims) SHA2_128f seed (odd_run 1) (odd_run 2)) /\
  exists kind seed a input v, adrs_typed a /\ hash_value (T := debug64) (P := weak_prims) SHA2_128f kind seed a input v.
Proof.
  pose proof odd_second_preimage as S. split; [exact S|].
  destruct S as (k & seed & a & i1 & i2 & v & W & I1 & I2 & Ne & Lm & V1 & V2). split.
  - exists seed, k, a, a, i1, i2, v. split; [exact W|]. split; [exact W|]. split; [exact I1|]. split; [exact I2|].
    split; [exact Lm|]. split; [right; exact Ne|]. split; [exact V1|exact V2].
  - exists k, seed, a, i1, v. split; [exact W|exact V1].
Qed.
