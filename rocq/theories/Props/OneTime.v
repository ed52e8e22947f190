(** One-time signatures. *)
From Coq Require Import String.
From Verif Require Import Spec.Fips205 Spec.Fips205Hash.
From Verif Require Import Model.Api Spec.Vocab Proof.TopTrace Proof.TopWots Proof.Toy.
Import ListNotations.
Open Scope list_scope.
Open Scope N_scope.

(** C34. One-time signature checksums prevent digit domination. For any two different n-byte values
    signed by a WOTS+ key, the base-16 digit strings (with checksum) the signer walks are
    incomparable: each has at least one digit strictly smaller than the other's, so one signature
    never yields another by only advancing chains. *)
Theorem checksum_incomparable :
  forall (T : Target) (P : Prims) (s : set_name) (l t kp : N) (skseed pkseed m1 m2 : bytes),
    l < 2 ^ 32 -> t < 2 ^ 64 -> kp < 2 ^ 32 ->
    nlen m1 = seed_bytes s -> nlen m2 = seed_bytes s -> m1 <> m2 ->
    let p := param_set s in
    let A := set_key_pair_address
               (set_type_and_clear (set_tree_address (set_layer_address adrs_default l) t) WOTS_HASH) kp in
    let steps (tr : list event) (i : N) :=
      nlen (filter (fun e => match e with EHash KF _ a _ => a_word2 a =? i | _ => false end) tr) in
    let walked m i := steps (trace (wots_sign p (HASHERS p) m skseed pkseed A)) i in
    let remaining sig m i := steps (trace (wots_pk_from_sig p (HASHERS p) sig m pkseed A)) i in
    let chains := 2 * seed_bytes s + 3 in
    (exists sig1, result (wots_sign p (HASHERS p) m1 skseed pkseed A) = Val sig1 /\ nlen sig1 = chains) /\
    (forall i, i < chains -> walked m1 i <= 15) /\
    (exists i, i < chains /\ walked m1 i < walked m2 i) /\
    (exists j, j < chains /\ walked m2 j < walked m1 j) /\
    (forall sig i, nlen sig = chains -> i < chains -> walked m1 i + remaining sig m1 i = 15).
Proof. exact prop_checksum_incomparable. Qed.
Print Assumptions checksum_incomparable.

(** two 16-byte values that differ in one bit *)
Example checksum_incomparable_applies :
  3 < 2 ^ 32 /\ 5 < 2 ^ 64 /\ 7 < 2 ^ 32 /\
  nlen (nrepeat (n2b 0) 15 ++ [n2b 0]) = seed_bytes SHA2_128f /\ nlen (nrepeat (n2b 0) 15 ++ [n2b 1]) = seed_bytes SHA2_128f /\
  nrepeat (n2b 0) 15 ++ [n2b 0] <> nrepeat (n2b 0) 15 ++ [n2b 1].
Proof. repeat (split; [reflexivity|]). intros E. apply app_inv_head in E. discriminate. Qed.
