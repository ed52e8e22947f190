(** Collisions between runs under two parameter sets and two public seeds: words used in the statement about
    what the root in a private key commits to. *)
From Verif Require Import Machine Model.Api Spec.Fips205Hash Spec.Vocab Spec.VocabPrim.
Import ListNotations.
Open Scope list_scope.
Open Scope N_scope.

(** the two sets use the same functions: same hash family, same n (they differ at most in "s" and "f") *)
Definition same_functions (s1 s2 : set_name) : Prop :=
  section_of s1 = section_of s2 /\ seed_bytes s1 = seed_bytes s2.

(** two different strings of the same length, one hashed in each run by the same one of SHA-256, SHA-512 and
    SHAKE256, with the same first n bytes of output *)
Definition string_collision {P : Prims} (s1 s2 : set_name) (run1 run2 : list event) : Prop :=
  exists kind seed1 seed2 a1 a2 input1 input2,
    In (EHash kind seed1 a1 input1) run1 /\ In (EHash kind seed2 a2 input2) run2 /\
    let x1 := hashed_string s1 kind seed1 a1 input1 in
    let x2 := hashed_string s2 kind seed2 a2 input2 in
    x1 <> x2 /\ nlen x1 = nlen x2 /\ primitive_of s1 kind = primitive_of s2 kind /\
    short_digest s1 kind x1 = short_digest s2 kind x2.
