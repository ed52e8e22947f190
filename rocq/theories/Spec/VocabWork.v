(** Exact numbers of hash computations: words used in the statements about the cost of signing and verifying. *)
From Verif Require Spec.Fips205.
From Verif Require Import Machine Model.Api Spec.Fips205Hash Spec.Vocab Spec.VocabForge Spec.VocabPublic.
Import ListNotations.
Open Scope list_scope.
Open Scope N_scope.

Definition total (l : list N) : N := fold_right N.add 0 l.

(** number of hash chains of a one-time key *)
Definition chains (s : set_name) : N := 2 * t_n (table2 s) + 3.

(** steps along the chains from the secret values to the values that sign v: the base-16 digits of v and of its
    checksum (Algorithm 7, lines 1-7) added up; verifying makes the remaining steps up to 15 *)
Definition steps_signing (s : set_name) (v : bytes) : N := total (Fips205.wots_digits (fips_params s) v).
Definition steps_verifying (s : set_name) (v : bytes) : N :=
  total (map (fun d => 15 - d) (Fips205.wots_digits (fips_params s) v)).

(** cost of verification: the digest, k FORS leaves with their paths and the FORS public key, and in every layer the
    chains, their compression and the path *)
Definition verification_cost {P : Prims} (s : set_name) (pk : SlhPublicKey) (M' sig : bytes) : N :=
  let t := table2 s in
  1 + (t_k t * (t_a t + 1) + 1) +
  total (map (fun j => steps_verifying s (signed_value s pk M' sig j) + 1 + t_h' t) (seq 0 (N.to_nat (t_d t)))).

(** cost of computing n nodes' worth of tree: all leaves and inner nodes of the subtrees beside a path of height z,
    for leaves that cost c *)
Definition siblings_cost (z c : N) : N := (2 ^ z - 1) * (c + 1) - z.

(** cost of signing: randomizer and digest; k FORS secret values with the subtrees beside their paths; the FORS public
    key; in every layer the subtrees beside the path, the chains' secret values and the steps along the chains, and in
    every layer but the top one also the root, recomputed from the signature *)
Definition signing_cost {P : Prims} (s : set_name) (pk : SlhPublicKey) (M' sig : bytes) : N :=
  let t := table2 s in
  let leaf := 16 * chains s + 1 in
  let v j := signed_value s pk M' sig j in
  2 + t_k t * (1 + siblings_cost (t_a t) 2) + (t_k t * (t_a t + 1) + 1) +
  total (map (fun j => siblings_cost (t_h' t) leaf + chains s + steps_signing s (v j)) (seq 0 (N.to_nat (t_d t)))) +
  total (map (fun j => steps_verifying s (v j) + 1 + t_h' t) (seq 0 (N.to_nat (t_d t) - 1))).

(** the part of it that does not depend on the message, the key or the randomness *)
Definition signing_cost_base (s : set_name) : N :=
  let t := table2 s in
  let leaf := 16 * chains s + 1 in
  2 + t_k t * (1 + siblings_cost (t_a t) 2) + (t_k t * (t_a t + 1) + 1) +
  t_d t * (siblings_cost (t_h' t) leaf + chains s) + (t_d t - 1) * (15 * chains s + 1 + t_h' t).
