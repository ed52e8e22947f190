(** What anyone who holds a public key, a message and a signature recomputes while verifying
    (FIPS 205, Algorithms 20 and 13): the message digest, and for every layer of the hypertree the value
    that the one-time key of that layer has signed. *)
From Verif Require Spec.Fips205.
From Verif Require Import Machine Model.Api Spec.Fips205Hash Spec.Vocab Spec.VocabForge.
Import ListNotations.
Open Scope list_scope.
Open Scope N_scope.

(** the FORS public key recovered from the signature (Algorithm 20, lines 6-14) *)
Definition recovered_fors_key {P : Prims} (s : set_name) (pk : SlhPublicKey) (M' sig : bytes) : bytes :=
  let '(md, idx_tree, idx_leaf) := sig_digest s pk M' sig in
  let ADRS := Fips205.setTreeAddress (Fips205.toByte 0 32) idx_tree in
  let ADRS := Fips205.setTypeAndClear ADRS Fips205.FORS_TREE in
  let ADRS := Fips205.setKeyPairAddress ADRS idx_leaf in
  let t := table2 s in
  Fips205.fors_pkFromSig (fips_params s) (fips_hash s) (sub_bytes sig (t_n t) ((1 + t_k t * (1 + t_a t)) * t_n t))
    md (pk_seed pk) ADRS.

(** the value signed in layer j: the FORS public key in layer 0, above that the root recovered from
    the layer below (Algorithm 13) *)
Fixpoint signed_value {P : Prims} (s : set_name) (pk : SlhPublicKey) (M' sig : bytes) (j : nat) : bytes :=
  match j with
  | O => recovered_fors_key s pk M' sig
  | S i =>
      let (tree, leaf) := sig_position s pk M' sig (N.of_nat i) in
      let ADRS := Fips205.setLayerAddress (Fips205.toByte 0 32) (N.of_nat i) in
      let ADRS := Fips205.setTreeAddress ADRS tree in
      Fips205.xmss_pkFromSig (fips_params s) (fips_hash s) leaf (layer_bytes s sig (N.of_nat i))
        (signed_value s pk M' sig i) (pk_seed pk) ADRS
  end.

(** the number of bytes before the first difference of two byte strings *)
Fixpoint agreeing (a b : bytes) : N :=
  match a, b with
  | x :: a', y :: b' => if byte_eqb x y then 1 + agreeing a' b' else 0
  | _, _ => 0
  end.
(** how many bytes at the start of the root in a private-key encoding are those of the root FIPS 205
    computes for the seeds in it *)
Definition agreeing_root_bytes {P : Prims} (s : set_name) (bs : bytes) : N :=
  let n := seed_bytes s in
  let '(_, PK) := Fips205.slh_keygen_internal (fips_params s) (fips_hash s)
                    (sub_bytes bs 0 n) (sub_bytes bs n (2 * n)) (sub_bytes bs (2 * n) (3 * n)) in
  agreeing (sub_bytes PK n (2 * n)) (sub_bytes bs (3 * n) (4 * n)).

Definition public_view {P : Prims} (s : set_name) (pk : SlhPublicKey) (M' sig : bytes) : bytes * list bytes :=
  (Fips205.H_msg (fips_hash s) (block s sig 0) (pk_seed pk) (pk_root pk) M',
   map (signed_value s pk M' sig) (seq 0 (N.to_nat (t_d (table2 s))))).
