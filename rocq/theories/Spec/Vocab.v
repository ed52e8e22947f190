(** Words used in the statements of the property theorems, and nothing else. *)
From Coq Require Import String.
From Verif Require Spec.Fips205.
From Verif Require Import Machine Model.Api Spec.Fips205Hash.
Import ListNotations.
Open Scope list_scope.
Open Scope N_scope.

(** the crate module that implements each FIPS 205 parameter set (lib.rs:449-1026) *)
Definition param_set (s : set_name) : Params :=
  match s with
  | SHA2_128s => slh_dsa_sha2_128s | SHAKE_128s => slh_dsa_shake_128s
  | SHA2_128f => slh_dsa_sha2_128f | SHAKE_128f => slh_dsa_shake_128f
  | SHA2_192s => slh_dsa_sha2_192s | SHAKE_192s => slh_dsa_shake_192s
  | SHA2_192f => slh_dsa_sha2_192f | SHAKE_192f => slh_dsa_shake_192f
  | SHA2_256s => slh_dsa_sha2_256s | SHAKE_256s => slh_dsa_shake_256s
  | SHA2_256f => slh_dsa_sha2_256f | SHAKE_256f => slh_dsa_shake_256f
  end.

(** the [Ph] value a caller passes for each FIPS 205 pre-hash function (types.rs) *)
Definition ph_arg (ph : prehash) : Ph :=
  match ph with
  | PH_SHA256 => PhSHA256 | PH_SHA512 => PhSHA512
  | PH_SHAKE128 => PhSHAKE128 | PH_SHAKE256 => PhSHAKE256
  end.

(** sizes in bytes, from Table 2 *)
Definition seed_bytes (s : set_name) : N := t_n (table2 s).
Definition pk_size (s : set_name) : N := t_pk_bytes (table2 s).
Definition sk_size (s : set_name) : N := 2 * t_pk_bytes (table2 s).
Definition sig_size (s : set_name) : N := t_sig_bytes (table2 s).

(** values of the Rust types PublicKey and PrivateKey: their array fields have n bytes *)
Definition pk_typed (s : set_name) (pk : SlhPublicKey) : Prop :=
  nlen (pk_seed pk) = seed_bytes s /\ nlen (pk_root pk) = seed_bytes s.
Definition sk_typed (s : set_name) (sk : SlhPrivateKey) : Prop :=
  nlen (sk_seed sk) = seed_bytes s /\ nlen (sk_prf sk) = seed_bytes s /\
  nlen (sk_pk_seed sk) = seed_bytes s /\ nlen (sk_pk_root sk) = seed_bytes s.

(** a call of an API function that uses generator r in state g: its outcome, the generator
    state it leaves, and everything an observer sees *)
Definition call {r : Rng} {A} (f : RM r A) (g : rng_st r) : outcome A := result (snd (f g)).
Definition gen_after {r : Rng} {A} (f : RM r A) (g : rng_st r) : rng_st r := fst (f g).
Definition trace_of {r : Rng} {A} (f : RM r A) (g : rng_st r) : list event := trace (snd (f g)).

(** the generator in state g answers a request of k bytes with b, going to state g' *)
Definition gives (r : Rng) (g : rng_st r) (k : N) (b : bytes) (g' : rng_st r) : Prop :=
  try_fill r g k = (g', Val b).
(** the generator in state g reports failure for a request of k bytes *)
Definition refuses (r : Rng) (g : rng_st r) (k : N) : Prop :=
  exists g' e, try_fill r g k = (g', Err e).
(** the generator itself never panics *)
Definition never_panics (r : Rng) : Prop :=
  forall g k g' q, try_fill r g k <> (g', Panic q).

Definition no_panic {A} (o : outcome A) : Prop := forall q, o <> Panic q.

(** success value, if any *)
Definition ok {A} (o : outcome A) : option A := match o with Val a => Some a | _ => None end.

(** the [addrnd] argument FIPS 205 would receive: absent in deterministic mode, otherwise what the
    generator answers to one request of n bytes (None when it fails) *)
Definition addrnd (s : set_name) (r : Rng) (g : rng_st r) (hedged : bool) : option (option bytes) :=
  if hedged then Some (ok (snd (try_fill r g (seed_bytes s)))) else None.

(** sizes of the requests made to the generator, in order *)
Definition draws (t : list event) : list N :=
  flat_map (fun e => match e with ERng k => [k] | _ => [] end) t.

(** invocations of the message hash H_msg: R, PK.seed, PK.root, message *)
Definition hmsg_calls (t : list event) : list (bytes * bytes * bytes * bytes) :=
  flat_map (fun e => match e with EHmsg r s q m => [(r, s, q, concat m)] | _ => [] end) t.

(** number of keyed-hash invocations *)
Definition hash_count (t : list event) : N :=
  nlen (filter (fun e => match e with EHash _ _ _ _ | EHmsg _ _ _ _ | EPrfMsg _ _ _ => true | _ => false end) t).

(** the bytes FIPS 205 calls (SK, PK), as the crate exports them *)
Definition exported {T : Target} (s : set_name) (o : outcome (SlhPublicKey * SlhPrivateKey)) : option (bytes * bytes) :=
  match o with
  | Val (pk, sk) =>
      match result (sk_into_bytes (param_set s) sk), result (pk_into_bytes (param_set s) pk) with
      | Val SK, Val PK => Some (SK, PK)
      | _, _ => None
      end
  | _ => None
  end.

(** the ways a program can come to hold a matching key pair *)
Inductive key_pair {T : Target} {P : Prims} (s : set_name) : SlhPublicKey -> SlhPrivateKey -> Prop :=
| kp_generated r g pk sk :
    call (try_keygen_with_rng (param_set s) r) g = Val (pk, sk) -> key_pair s pk sk
| kp_seeded a b c pk sk :
    result (keygen_with_seeds (param_set s) a b c) = Val (pk, sk) -> key_pair s pk sk
| kp_imported bs sk :
    nlen bs = sk_size s ->
    result (sk_try_from_bytes (param_set s) bs) = Val sk -> key_pair s (get_public_key sk) sk
| kp_pk_reimported pk sk bs pk' :
    key_pair s pk sk ->
    result (pk_into_bytes (param_set s) pk) = Val bs ->
    result (pk_try_from_bytes (param_set s) bs) = Val pk' -> key_pair s pk' sk
| kp_sk_reimported pk sk bs sk' :
    key_pair s pk sk ->
    result (sk_into_bytes (param_set s) sk) = Val bs ->
    result (sk_try_from_bytes (param_set s) bs) = Val sk' -> key_pair s pk sk'.

(** an address value of the Rust type Adrs (eight 4-byte words), and its 32-byte string *)
Definition adrs_typed (a : Adrs) : Prop :=
  nlen (f0 a) = 4 /\ nlen (f1 a) = 4 /\ nlen (f2 a) = 4 /\ nlen (f3 a) = 4 /\
  nlen (f4 a) = 4 /\ nlen (f5 a) = 4 /\ nlen (f6 a) = 4 /\ nlen (f7 a) = 4.
Definition adrs_bytes (a : Adrs) : bytes :=
  f0 a ++ f1 a ++ f2 a ++ f3 a ++ f4 a ++ f5 a ++ f6 a ++ f7 a.

(** a structured signature of the Rust type SlhDsaSig: the array lengths *)
Definition blocks (s : set_name) (count : N) (l : list bytes) : Prop :=
  nlen l = count /\ Forall (fun x => nlen x = seed_bytes s) l.
Definition sig_typed (s : set_name) (sg : SlhDsaSig) : Prop :=
  let t := table2 s in
  nlen (randomness sg) = t_n t /\
  blocks s (t_k t) (private_key_value (fors_sig sg)) /\
  nlen (fors_auth (fors_sig sg)) = t_k t /\ Forall (blocks s (t_a t)) (fors_auth (fors_sig sg)) /\
  nlen (ht_sig sg) = t_d t /\
  Forall (fun x => blocks s (2 * t_n t + 3) (sig_wots x) /\ blocks s (t_h' t) (xmss_auth x)) (ht_sig sg).

(** block number j of n bytes *)
Definition block (s : set_name) (bs : bytes) (j : N) : bytes :=
  sub_bytes bs (j * seed_bytes s) ((j + 1) * seed_bytes s).

(** traces of pure-mode requests (signing or verification, successful or not) about (m, ctx) *)
Inductive pure_run {T : Target} {P : Prims} (s : set_name) (m ctx : bytes) : list event -> Prop :=
| pure_sign_run r g sk hedged :
    sk_typed s sk -> pure_run s m ctx (trace_of (try_sign_with_rng (param_set s) r sk m ctx hedged) g)
| pure_verify_run pk sig :
    nlen sig = sig_size s -> pure_run s m ctx (trace (verify (param_set s) pk m sig ctx)).

(** traces of pre-hash requests about (m, ctx, ph) *)
Inductive hash_run {T : Target} {P : Prims} (s : set_name) (m ctx : bytes) (ph : prehash) : list event -> Prop :=
| hash_sign_run r g sk hedged :
    sk_typed s sk ->
    hash_run s m ctx ph (trace_of (try_hash_sign_with_rng (param_set s) r sk m ctx (ph_arg ph) hedged) g)
| hash_verify_run pk sig :
    nlen sig = sig_size s -> hash_run s m ctx ph (trace (hash_verify (param_set s) pk m sig ctx (ph_arg ph))).

(** traces of completed requests: public key, framed message M' of FIPS 205, signature *)
Inductive completed_run {T : Target} {P : Prims} (s : set_name)
  : SlhPublicKey -> bytes -> bytes -> list event -> Prop :=
| run_sign r g sk m ctx hedged sig :
    sk_typed s sk -> call (try_sign_with_rng (param_set s) r sk m ctx hedged) g = Val sig ->
    completed_run s (get_public_key sk) (Fips205.pure_M' m ctx) sig
      (trace_of (try_sign_with_rng (param_set s) r sk m ctx hedged) g)
| run_hash_sign r g sk m ctx ph hedged sig :
    sk_typed s sk -> call (try_hash_sign_with_rng (param_set s) r sk m ctx (ph_arg ph) hedged) g = Val sig ->
    completed_run s (get_public_key sk)
      (Fips205.hash_M' (fst (PH_fn ph m)) (snd (PH_fn ph m)) ctx) sig
      (trace_of (try_hash_sign_with_rng (param_set s) r sk m ctx (ph_arg ph) hedged) g)
| run_raw_sign r g sk m hedged sig :
    sk_typed s sk -> call (raw_sign (param_set s) r sk m hedged) g = Val sig ->
    completed_run s (get_public_key sk) m sig (trace_of (raw_sign (param_set s) r sk m hedged) g)
| run_verify pk m sig ctx :
    pk_typed s pk -> nlen sig = sig_size s -> nlen ctx <= 255 ->
    completed_run s pk (Fips205.pure_M' m ctx) sig (trace (verify (param_set s) pk m sig ctx))
| run_hash_verify pk m sig ctx ph :
    pk_typed s pk -> nlen sig = sig_size s -> nlen ctx <= 255 ->
    completed_run s pk (Fips205.hash_M' (fst (PH_fn ph m)) (snd (PH_fn ph m)) ctx) sig
      (trace (hash_verify (param_set s) pk m sig ctx (ph_arg ph)))
| run_raw_verify pk m sig :
    pk_typed s pk -> nlen sig = sig_size s ->
    completed_run s pk m sig (trace (raw_verify (param_set s) pk m sig)).

(** successful signing requests: private key, framed message M', signature, trace *)
Inductive signing_run {T : Target} {P : Prims} (s : set_name)
  : SlhPrivateKey -> bytes -> bytes -> list event -> Prop :=
| sign_pure r g sk m ctx hedged sig :
    sk_typed s sk -> call (try_sign_with_rng (param_set s) r sk m ctx hedged) g = Val sig ->
    signing_run s sk (Fips205.pure_M' m ctx) sig (trace_of (try_sign_with_rng (param_set s) r sk m ctx hedged) g)
| sign_hash r g sk m ctx ph hedged sig :
    sk_typed s sk -> call (try_hash_sign_with_rng (param_set s) r sk m ctx (ph_arg ph) hedged) g = Val sig ->
    signing_run s sk (Fips205.hash_M' (fst (PH_fn ph m)) (snd (PH_fn ph m)) ctx) sig
      (trace_of (try_hash_sign_with_rng (param_set s) r sk m ctx (ph_arg ph) hedged) g)
| sign_raw r g sk m hedged sig :
    sk_typed s sk -> call (raw_sign (param_set s) r sk m hedged) g = Val sig ->
    signing_run s sk m sig (trace_of (raw_sign (param_set s) r sk m hedged) g).

(** verification requests with an acceptable context: public key, M', signature, trace *)
Inductive verifying_run {T : Target} {P : Prims} (s : set_name)
  : SlhPublicKey -> bytes -> bytes -> list event -> Prop :=
| verify_pure pk m sig ctx :
    pk_typed s pk -> nlen sig = sig_size s -> nlen ctx <= 255 ->
    verifying_run s pk (Fips205.pure_M' m ctx) sig (trace (verify (param_set s) pk m sig ctx))
| verify_hash pk m sig ctx ph :
    pk_typed s pk -> nlen sig = sig_size s -> nlen ctx <= 255 ->
    verifying_run s pk (Fips205.hash_M' (fst (PH_fn ph m)) (snd (PH_fn ph m)) ctx) sig
      (trace (hash_verify (param_set s) pk m sig ctx (ph_arg ph)))
| verify_raw pk m sig :
    pk_typed s pk -> nlen sig = sig_size s ->
    verifying_run s pk m sig (trace (raw_verify (param_set s) pk m sig)).

(** everything the holder of a private key does with it: its generation or import, and every attempt
    to sign, successful or not *)
Inductive owner_run {T : Target} {P : Prims} (s : set_name) : SlhPrivateKey -> list event -> Prop :=
| owner_keygen r g pk sk :
    call (try_keygen_with_rng (param_set s) r) g = Val (pk, sk) ->
    owner_run s sk (trace_of (try_keygen_with_rng (param_set s) r) g)
| owner_seeds a b c pk sk :
    result (keygen_with_seeds (param_set s) a b c) = Val (pk, sk) ->
    owner_run s sk (trace (keygen_with_seeds (param_set s) a b c))
| owner_import bs sk :
    nlen bs = sk_size s -> result (sk_try_from_bytes (param_set s) bs) = Val sk ->
    owner_run s sk (trace (sk_try_from_bytes (param_set s) bs))
| owner_sign r g sk m ctx hedged :
    sk_typed s sk -> owner_run s sk (trace_of (try_sign_with_rng (param_set s) r sk m ctx hedged) g)
| owner_hash_sign r g sk m ctx ph hedged :
    sk_typed s sk -> owner_run s sk (trace_of (try_hash_sign_with_rng (param_set s) r sk m ctx ph hedged) g)
| owner_raw_sign r g sk m hedged :
    sk_typed s sk -> owner_run s sk (trace_of (raw_sign (param_set s) r sk m hedged) g).

(** traces of all requests a program can make, successful or not *)
Inductive any_run {T : Target} {P : Prims} (s : set_name) : list event -> Prop :=
| any_keygen r g : any_run s (trace_of (try_keygen_with_rng (param_set s) r) g)
| any_seeds a b c : any_run s (trace (keygen_with_seeds (param_set s) a b c))
| any_import bs : nlen bs = sk_size s -> any_run s (trace (sk_try_from_bytes (param_set s) bs))
| any_sign r g sk m ctx hedged :
    sk_typed s sk -> any_run s (trace_of (try_sign_with_rng (param_set s) r sk m ctx hedged) g)
| any_hash_sign r g sk m ctx ph hedged :
    sk_typed s sk -> any_run s (trace_of (try_hash_sign_with_rng (param_set s) r sk m ctx ph hedged) g)
| any_raw_sign r g sk m hedged :
    sk_typed s sk -> any_run s (trace_of (raw_sign (param_set s) r sk m hedged) g)
| any_verify pk m sig ctx :
    nlen sig = sig_size s -> any_run s (trace (verify (param_set s) pk m sig ctx))
| any_hash_verify pk m sig ctx ph :
    nlen sig = sig_size s -> any_run s (trace (hash_verify (param_set s) pk m sig ctx ph))
| any_raw_verify pk m sig :
    nlen sig = sig_size s -> any_run s (trace (raw_verify (param_set s) pk m sig)).

(** the fields of an address (FIPS 205 Figure 2): layer, tree, type and the three last words *)
Definition a_layer (a : Adrs) : N := of_be (f0 a).
Definition a_tree (a : Adrs) : N := of_be (f1 a ++ f2 a ++ f3 a).
Definition a_type (a : Adrs) : N := of_be (f4 a).
Definition a_word1 (a : Adrs) : N := of_be (f5 a).
Definition a_word2 (a : Adrs) : N := of_be (f6 a).
Definition a_word3 (a : Adrs) : N := of_be (f7 a).

(** the XMSS tree and leaf at layer j on the path that starts at tree idx_tree, leaf idx_leaf *)
Definition path_tree (s : set_name) (idx_tree j : N) : N := idx_tree / 2 ^ (t_h' (table2 s) * j).
Definition path_leaf (s : set_name) (idx_tree idx_leaf j : N) : N :=
  if j =? 0 then idx_leaf else path_tree s idx_tree (j - 1) mod 2 ^ t_h' (table2 s).

(** the part of a signature that belongs to layer j of the hypertree *)
Definition layer_bytes (s : set_name) (sig : bytes) (j : N) : bytes :=
  let t := table2 s in
  let start := 1 + t_k t * (1 + t_a t) in
  let each := 2 * t_n t + 3 + t_h' t in
  sub_bytes sig ((start + j * each) * t_n t) ((start + (j + 1) * each) * t_n t).
