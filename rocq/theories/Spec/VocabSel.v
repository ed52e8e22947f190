(** Which leaves of which few-time (FORS) keys a message digest selects. *)
From Verif Require Spec.Fips205.
From Verif Require Import Machine Model.Api Spec.Fips205Hash Spec.Vocab Spec.VocabForge.
Import ListNotations.
Open Scope list_scope.
Open Scope N_scope.

(** the digest of M' with the randomizer of sig (FIPS 205, Algorithms 19 and 20) *)
Definition msg_digest {P : Prims} (s : set_name) (pk : SlhPublicKey) (M' sig : bytes) : bytes :=
  Fips205.H_msg (fips_hash s) (block s sig 0) (pk_seed pk) (pk_root pk) M'.

(** a selection: tree, key pair in that tree, and one leaf of each of the k trees of that key pair's FORS key *)
Definition in_range (s : set_name) (c : N * N * list N) : Prop :=
  let '(tree, kp, js) := c in
  let t := table2 s in
  tree < 2 ^ (t_h t - t_h' t) /\ kp < 2 ^ t_h' t /\ nlen js = t_k t /\ Forall (fun j => j < 2 ^ t_a t) js.

(** its leaves: tree, key pair, number of the leaf among the k * 2^a leaves of the FORS key *)
Definition leaves (s : set_name) (c : N * N * list N) : list (N * N * N) :=
  let '(tree, kp, js) := c in
  map (fun i => (tree, kp, i * 2 ^ t_a (table2 s) + nth (N.to_nat i) js 0)) (nrange (t_k (table2 s))).

(** the FORS leaves a run computes from the secret values in the signature: calls of F for addresses of
    type FORS_TREE (3) and height 0 *)
Definition opened (t : list event) : list (N * N * N) :=
  flat_map (fun e => match e with
                     | EHash KF _ a _ =>
                         if (a_type a =? 3) && (a_word2 a =? 0) then [(a_tree a, a_word1 a, a_word3 a)] else []
                     | _ => []
                     end) t.

(** the secret values a signature publishes, in order *)
Definition published (s : set_name) (sig : bytes) : list bytes :=
  map (fun i => block s sig (fors_block s i)) (nrange (t_k (table2 s))).

(** the few-time key (tree and key pair) that signs M' *)
Definition fors_key {P : Prims} (s : set_name) (pk : SlhPublicKey) (M' sig : bytes) : N * N :=
  let '(_, idx_tree, idx_leaf) := sig_digest s pk M' sig in (idx_tree, idx_leaf).

(** how many of the signatures in hist use the few-time key x *)
Definition times_used {P : Prims} (s : set_name) (pk : SlhPublicKey) (hist : list (bytes * bytes)) (x : N * N) : N :=
  nlen (filter (fun '(M', sig) => let (tree, kp) := fors_key s pk M' sig in (tree =? fst x) && (kp =? snd x)) hist).

(** the sum, over the signatures in hist, of (number of uses of the same few-time key)^(k-1) *)
Definition reuse {P : Prims} (s : set_name) (pk : SlhPublicKey) (hist : list (bytes * bytes)) : N :=
  fold_right N.add 0
    (map (fun '(M', sig) => times_used s pk hist (fors_key s pk M' sig) ^ (t_k (table2 s) - 1)) hist).
