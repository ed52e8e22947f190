(** What it takes to make one signature valid for two messages: words used in the statement about
    signatures and the messages they are bound to. *)
From Verif Require Import Machine Model.Api Spec.Fips205Hash Spec.Vocab Spec.VocabForge.
Import ListNotations.
Open Scope list_scope.
Open Scope N_scope.

(** a collision: one hash function under one public seed is given, in the two traces, inputs of the same
    shape that differ in the address bytes that reach the hash function (both in the compressed form of
    the SHA2 sets and in the full form of the SHAKE sets) or in the message bytes, and returns the same
    value *)
Definition collision {T : Target} {P : Prims} (s : set_name) (seed : bytes) (run1 run2 : list event) : Prop :=
  exists kind a1 a2 input1 input2 v,
    adrs_typed a1 /\ adrs_typed a2 /\
    In (EHash kind seed a1 input1) run1 /\ In (EHash kind seed a2 input2) run2 /\
    map nlen input1 = map nlen input2 /\
    ((result (to_22_bytes a1) <> result (to_22_bytes a2) /\ result (to_32_bytes a1) <> result (to_32_bytes a2)) \/
     input1 <> input2) /\
    hash_value s kind seed a1 input1 v /\ hash_value s kind seed a2 input2 v.
