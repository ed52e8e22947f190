(** The depth of the recursion. *)
From Coq Require Import String.
From Verif Require Import Spec.Fips205 Spec.Fips205Hash.
From Verif Require Import Model.Api Spec.Vocab Proof.TopNest Proof.Toy.
Import ListNotations.
Open Scope list_scope.
Open Scope N_scope.

(** C85. The recursion is shallow. The only recursive computations are those of tree nodes, during key
    generation, key import and signing. A stack that holds 14 activations of them at a time is
    enough: on every such build no call overflows it, for any key, message, context and generator. A
    node of height z takes exactly z + 1 activations at a time, in hypertrees of height at most 9
    and in FORS trees of which nodes of height at most 13 are computed. *)
Theorem recursion_is_shallow :
  forall (P : Prims) (s : set_name),
    let t := table2 s in
    let p := param_set s in
    (** a stack that holds 14 activations is enough for every call *)
    (forall (T : Target) (r : Rng) (g : rng_st r), never_panics r ->
       no_panic (call (try_keygen_with_rng p r) g) /\
       (forall skb, nlen skb = sk_size s -> no_panic (result (sk_try_from_bytes p skb))) /\
       (forall sk m ctx ph hedged, sk_typed s sk ->
          no_panic (call (try_sign_with_rng p r sk m ctx hedged) g) /\
          no_panic (call (try_hash_sign_with_rng p r sk m ctx (ph_arg ph) hedged) g) /\
          no_panic (call (raw_sign p r sk m hedged) g))) /\
    (** the node of height z of a tree takes z + 1 activations at a time, not more and not fewer *)
    (forall (T : Target) skseed pkseed a i z held, z <= t_h' t -> (i + 1) * 2 ^ z <= 2 ^ t_h' t ->
       let node := xmss_node_fuel p (HASHERS p) in
       (z + 1 <= N.of_nat held -> node held skseed i z pkseed a = xmss_node p (HASHERS p) skseed i z pkseed a) /\
       (N.of_nat held < z + 1 -> result (node held skseed i z pkseed a) = Panic PFuel)) /\
    (forall (T : Target) skseed pkseed a i z held, z < t_a t -> (i + 1) * 2 ^ z <= t_k t * 2 ^ t_a t ->
       let node := fors_node_fuel (HASHERS p) in
       (z + 1 <= N.of_nat held -> node held skseed i z pkseed a = fors_node (HASHERS p) skseed i z pkseed a) /\
       (N.of_nat held < z + 1 -> result (node held skseed i z pkseed a) = Panic PFuel)) /\
    (** and the trees are low *)
    t_h' t + 1 <= 10 /\ t_a t <= 14.
Proof. exact prop_recursion_is_shallow. Qed.
Print Assumptions recursion_is_shallow.

(** a build whose stack holds just 14 activations, and a node of a FORS tree that needs all of them *)
Example recursion_is_shallow_applies :
  @nesting_limit release16 = 14%nat /\ never_panics counter /\
  13 < t_a (table2 SHA2_256s) /\ (43 + 1) * 2 ^ 13 <= t_k (table2 SHA2_256s) * 2 ^ t_a (table2 SHA2_256s) /\
  result (fors_node_fuel (T := release16) (HASHERS (T := release16) (P := toy_prims) (param_set SHA2_256s)) 13 [] 43 13 [] adrs_default)
    = Panic PFuel.
Proof.
  split; [reflexivity|]. split; [exact counter_safe|]. split; [reflexivity|]. split; [discriminate|].
  destruct (recursion_is_shallow toy_prims SHA2_256s) as (_ & _ & K & _).
  apply (K release16 [] [] adrs_default 43 13 13%nat); [reflexivity|discriminate|reflexivity].
Qed.
