(** What it takes to produce a signature without the private key: words used in the statement about
    accepted signatures. *)
From Verif Require Spec.Fips205.
From Verif Require Import Machine Model.Api Spec.Fips205Hash Spec.Vocab.
Import ListNotations.
Open Scope list_scope.
Open Scope N_scope.

(** verification requests that answered true: public key, framed message M', signature, trace *)
Inductive accepting_run {T : Target} {P : Prims} (s : set_name)
  : SlhPublicKey -> bytes -> bytes -> list event -> Prop :=
| accepts_pure pk m sig ctx :
    nlen sig = sig_size s -> result (verify (param_set s) pk m sig ctx) = Val true ->
    accepting_run s pk (Fips205.pure_M' m ctx) sig (trace (verify (param_set s) pk m sig ctx))
| accepts_hash pk m sig ctx ph :
    nlen sig = sig_size s -> result (hash_verify (param_set s) pk m sig ctx (ph_arg ph)) = Val true ->
    accepting_run s pk (Fips205.hash_M' (fst (PH_fn ph m)) (snd (PH_fn ph m)) ctx) sig
      (trace (hash_verify (param_set s) pk m sig ctx (ph_arg ph)))
| accepts_raw pk m sig :
    nlen sig = sig_size s -> result (raw_verify (param_set s) pk m sig) = Val true ->
    accepting_run s pk m sig (trace (raw_verify (param_set s) pk m sig)).

(** the crate's signing procedure (slh.rs:139-230) with the randomizer R given instead of computed *)
Definition fixed_randomizer (R : bytes) (hs : Hashers) : Hashers :=
  mkHashers (h_msg hs) (prf hs) (fun _ _ _ => ret R) (f hs) (h hs) (t_l hs) (t_len hs).
Definition sign_with_randomizer {T : Target} {P : Prims} (s : set_name) (R M' : bytes) (sk : SlhPrivateKey)
  : M SlhDsaSig :=
  slh_sign_internal (param_set s) (fixed_randomizer R (HASHERS (param_set s))) [M'] sk [].

(** the value the crate's hash function of a kind computes for public seed, address and input *)
Inductive hash_value {T : Target} {P : Prims} (s : set_name)
  : hkind -> bytes -> Adrs -> list bytes -> bytes -> Prop :=
| value_F seed a x v : result (f (HASHERS (param_set s)) seed a x) = Val v -> hash_value s KF seed a [x] v
| value_H seed a x y v :
    result (h (HASHERS (param_set s)) seed a x y) = Val v -> hash_value s KH seed a [x; y] v
| value_Tl seed a l v : result (t_l (HASHERS (param_set s)) seed a l) = Val v -> hash_value s KTl seed a l v
| value_Tlen seed a l v : result (t_len (HASHERS (param_set s)) seed a l) = Val v -> hash_value s KTlen seed a l v.

(** a second preimage: one hash function, seed and address, with an input in the first trace and a
    different input of the same shape in the second, and the same value *)
Definition second_preimage {T : Target} {P : Prims} (s : set_name) (forger owner : list event) : Prop :=
  exists kind seed a input1 input2 v,
    adrs_typed a /\ In (EHash kind seed a input1) forger /\ In (EHash kind seed a input2) owner /\
    input1 <> input2 /\ map nlen input1 = map nlen input2 /\
    hash_value s kind seed a input1 v /\ hash_value s kind seed a input2 v.

(** address of hash chain i of the one-time key kp of tree t in layer l (FIPS 205, section 5) *)
Definition chain_address (l t kp i : N) : Adrs :=
  set_chain_address
    (set_key_pair_address
       (set_type_and_clear (set_tree_address (set_layer_address adrs_default l) t) WOTS_HASH) kp) i.

(** number, in blocks of n bytes, of the block of the signature that belongs to chain i in layer l *)
Definition chain_block (s : set_name) (l i : N) : N :=
  let t := table2 s in
  1 + t_k t * (1 + t_a t) + l * (2 * t_n t + 3 + t_h' t) + i.

(** message digest, tree index and leaf index of a signature of M' (FIPS 205, Algorithms 19 and 20) *)
Definition sig_digest {P : Prims} (s : set_name) (pk : SlhPublicKey) (M' sig : bytes) : bytes * N * N :=
  Fips205.split_digest (fips_params s)
    (Fips205.H_msg (fips_hash s) (block s sig 0) (pk_seed pk) (pk_root pk) M').

(** the tree and the one-time key that a signature of M' uses in layer l *)
Definition sig_position {P : Prims} (s : set_name) (pk : SlhPublicKey) (M' sig : bytes) (l : N) : N * N :=
  let '(_, idx_tree, idx_leaf) := sig_digest s pk M' sig in
  (path_tree s idx_tree l, path_leaf s idx_tree idx_leaf l).

(** an earlier chain value: some chain block of [sig] lies c >= 1 hash steps before the corresponding
    block of [gen] on the same hash chain, that of the one-time key on the path of (M', sig); the
    verifier started that chain at position b *)
Definition earlier_chain_value {T : Target} {P : Prims} (s : set_name) (pk : SlhPublicKey)
  (forger : list event) (M' sig gen : bytes) : Prop :=
  exists l i b c,
    l < t_d (table2 s) /\ i < 2 * seed_bytes s + 3 /\ 1 <= c /\ b + c <= 15 /\
    let (t, kp) := sig_position s pk M' sig l in
    let v := block s sig (chain_block s l i) in
    In (EHash KF (pk_seed pk) (set_hash_address (chain_address l t kp i) b) [v]) forger /\
    result (chain (HASHERS (param_set s)) v b c (pk_seed pk) (chain_address l t kp i))
      = Val (block s gen (chain_block s l i)).

(** the leaf of the FORS key that a signature of M' opens in its i-th tree: tree, key pair, leaf number *)
Definition fors_leaf {P : Prims} (s : set_name) (pk : SlhPublicKey) (M' sig : bytes) (i : N) : N * N * N :=
  let '(md, idx_tree, idx_leaf) := sig_digest s pk M' sig in
  (idx_tree, idx_leaf, i * 2 ^ t_a (table2 s) + nth (N.to_nat i) (Fips205.base_2b md (t_a (table2 s)) (t_k (table2 s))) 0).

(** the secret value FIPS 205 assigns to a leaf *)
Definition fors_secret {P : Prims} (s : set_name) (sk : SlhPrivateKey) (leaf : N * N * N) : bytes :=
  let '(idx_tree, idx_leaf, idx) := leaf in
  let ADRS := Fips205.setTreeAddress (Fips205.toByte 0 32) idx_tree in
  let ADRS := Fips205.setTypeAndClear ADRS Fips205.FORS_TREE in
  let ADRS := Fips205.setKeyPairAddress ADRS idx_leaf in
  Fips205.fors_skGen (fips_hash s) (sk_seed sk) (sk_pk_seed sk) ADRS idx.

(** number, in blocks of n bytes, of the block of the signature that holds the i-th FORS secret *)
Definition fors_block (s : set_name) (i : N) : N := 1 + i * (1 + t_a (table2 s)).

(** messages M' with the signatures the owner of sk has issued for them, in pure, pre-hash or raw mode *)
Definition issued_by {T : Target} {P : Prims} (s : set_name) (sk : SlhPrivateKey) (hist : list (bytes * bytes)) : Prop :=
  Forall (fun '(M', sig) => exists t, signing_run s sk M' sig t) hist.
