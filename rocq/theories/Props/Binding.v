(** What two acceptances of one signature imply. *)
From Coq Require Import String.
From Verif Require Import Spec.Fips205 Spec.Fips205Hash.
From Verif Require Import Model.Api Spec.Vocab Spec.VocabForge Spec.VocabPublic Spec.VocabBind Proof.TopBind Proof.TopPair Proof.Toy Proof.ToyForge.
Import ListNotations.
Open Scope list_scope.
Open Scope N_scope.

(** C61. A signature is bound to one message, also under a public key its owner chose. If one signature
    is accepted under one public key - any public key, made in any way - for two framed messages,
    then the two message digests select the same hypertree leaf and the same leaf of every FORS
    tree, or the two verification runs contain a collision of one of the tree or chain hash
    functions (same function and seed, inputs of the same shape that differ in address bytes or
    message bytes, same value), or a block of the signature returns to its own value after one or
    more steps along its hash chain. So a signer cannot later claim to have signed another message
    without one of these. *)
Theorem signature_binds_message :
  forall (T : Target) (P : Prims) (s : set_name) (pk : SlhPublicKey) (sig M1 M2 : bytes) (t1 t2 : list event),
    accepting_run s pk M1 sig t1 -> accepting_run s pk M2 sig t2 ->
    (** the digests of the two messages select the same key and the same leaf of every FORS tree, *)
    (forall i, i < t_k (table2 s) -> fors_leaf s pk M1 sig i = fors_leaf s pk M2 sig i) \/
    (** or the two verifications contain a collision, *)
    collision s (pk_seed pk) t1 t2 \/
    (** or a block of the signature comes back after one or more steps along its own hash chain *)
    earlier_chain_value s pk t1 M1 sig sig.
Proof. exact prop_signature_binds_message. Qed.
Print Assumptions signature_binds_message.

(** with hash functions that ignore their input, one signature is accepted for two different messages *)
Example signature_binds_message_applies :
  exists pk sig M1 M2 t1 t2, M1 <> M2 /\
    accepting_run (T := debug64) (P := weak_prims) SHA2_128f pk M1 sig t1 /\
    accepting_run (T := debug64) (P := weak_prims) SHA2_128f pk M2 sig t2.
Proof.
  assert (L1 : nlen (nrepeat (n2b 1) 17088) = sig_size SHA2_128f) by (rewrite nlen_nrepeat; reflexivity).
  exists (fst (toy_key (P := weak_prims) SHA2_128f)), (nrepeat (n2b 1) 17088), [n2b 1], [n2b 2].
  eexists _, _. split; [discriminate|]. split; (apply accepts_raw; [exact L1|apply weak_accepts; exact L1]).
Qed.

(** C62. Accepted signatures cannot be altered, and one-time keys vouch for one value. Take any public
    key, made in any way, and two signatures accepted under it. If they are for the same framed
    message and have the same randomizer, they are equal byte for byte; if their paths use the same
    one-time key in some layer, then in that layer and all layers above they consist of the same
    bytes and sign the same values - unless the two verification runs contain a second preimage
    (same function, seed and address, different inputs of the same lengths, same value), or a block
    of the first signature lies one or more steps before the block of the second on the same hash
    chain. So nobody, not even the key's owner, can change an accepted signature beyond its
    randomizer without one of these. *)
Theorem accepted_signatures_agree :
  forall (T : Target) (P : Prims) (s : set_name) (pk : SlhPublicKey) (M1 M2 sig1 sig2 : bytes) (t1 t2 : list event),
    accepting_run s pk M1 sig1 t1 -> accepting_run s pk M2 sig2 t2 ->
    (** one-time keys: if both signatures use the same one-time key in layer l, then from there on they
        are the same and sign the same values, or a hash function is broken *)
    (forall l, l < t_d (table2 s) -> sig_position s pk M1 sig1 l = sig_position s pk M2 sig2 l ->
       (forall j, l <= j < t_d (table2 s) ->
          layer_bytes s sig1 j = layer_bytes s sig2 j /\
          signed_value s pk M1 sig1 (N.to_nat j) = signed_value s pk M2 sig2 (N.to_nat j)) \/
       second_preimage s t1 t2 \/ earlier_chain_value s pk t1 M1 sig1 sig2) /\
    (** two signatures of one message with the same randomizer are equal, or a hash function is broken *)
    (M1 = M2 -> block s sig1 0 = block s sig2 0 ->
       sig1 = sig2 \/ second_preimage s t1 t2 \/ earlier_chain_value s pk t1 M1 sig1 sig2).
Proof. exact prop_accepted_signatures_agree. Qed.
Print Assumptions accepted_signatures_agree.

(** with hash functions that ignore their input, two different signatures of one message with the same
    randomizer, hence with the same path, are accepted *)
Example accepted_signatures_agree_applies :
  exists pk M sig1 sig2 t1 t2, sig1 <> sig2 /\ block SHA2_128f sig1 0 = block SHA2_128f sig2 0 /\
    accepting_run (T := debug64) (P := weak_prims) SHA2_128f pk M sig1 t1 /\
    accepting_run (T := debug64) (P := weak_prims) SHA2_128f pk M sig2 t2 /\
    forall l, sig_position (P := weak_prims) SHA2_128f pk M sig1 l = sig_position (P := weak_prims) SHA2_128f pk M sig2 l.
Proof.
  assert (L1 : nlen (nrepeat (n2b 1) 16 ++ [n2b 1] ++ nrepeat (n2b 0) 17071) = sig_size SHA2_128f)
    by (rewrite !nlen_app, !nlen_nrepeat; reflexivity).
  assert (L2 : nlen (nrepeat (n2b 1) 16 ++ [n2b 2] ++ nrepeat (n2b 0) 17071) = sig_size SHA2_128f)
    by (rewrite !nlen_app, !nlen_nrepeat; reflexivity).
  assert (B : block SHA2_128f (nrepeat (n2b 1) 16 ++ [n2b 1] ++ nrepeat (n2b 0) 17071) 0
              = block SHA2_128f (nrepeat (n2b 1) 16 ++ [n2b 2] ++ nrepeat (n2b 0) 17071) 0)
    by (unfold block; rewrite !sub_bytes_app_l by (rewrite nlen_nrepeat; reflexivity); reflexivity).
  exists (fst (toy_key (P := weak_prims) SHA2_128f)), [n2b 9].
  exists (nrepeat (n2b 1) 16 ++ [n2b 1] ++ nrepeat (n2b 0) 17071), (nrepeat (n2b 1) 16 ++ [n2b 2] ++ nrepeat (n2b 0) 17071).
  eexists _, _. split; [|split; [exact B|split; [|split]]].
  - intros E. apply app_inv_head in E. apply (f_equal (fun l => hd (n2b 0) l)) in E. discriminate.
  - apply accepts_raw; [exact L1|]. apply weak_accepts. exact L1.
  - apply accepts_raw; [exact L2|]. apply weak_accepts. exact L2.
  - intros l. unfold sig_position, sig_digest. rewrite B. reflexivity.
Qed.
