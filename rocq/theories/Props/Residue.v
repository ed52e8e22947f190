(** Copies of the seeds that key generation and import leave in memory. *)
From Coq Require Import String.
From Verif Require Import Spec.Fips205 Spec.Fips205Hash.
From Verif Require Import Model.Api Spec.Vocab Model.Residue Model.Ffi Spec.VocabFfi Spec.VocabThreads Proof.ToyThreads Proof.TopFfi Proof.TopC Spec.VocabMem Spec.VocabResidue Proof.TopResidue Proof.TopResidueC Proof.TopZero Proof.TopKeys Proof.TopRandom Proof.TopSafety Proof.Toy Proof.ToyKeys.
Import ListNotations.
Open Scope list_scope.
Open Scope N_scope.

(** C91. Key generation and import leave no copy of the secret seeds behind. Once a generated or imported
    private key has been dropped, once an import has been refused, and once a key generation has
    failed, no copy of its two secret seeds that the library made is left in memory. (False of the
    code. The seeds are passed by value to the function that computes the root, in arrays that are
    never erased, and the key it builds is moved out; so after a refused import, after a dropped
    imported key and after a dropped generated key both seeds are still in memory; a key generation
    that fails at a later request leaves the seeds drawn before. What holds: the copies are confined
    to those arrays and to the places keys were moved from; every place where a key was dropped is
    zero and no other byte has changed.)
    C91 is false of the code. After a random key generation whose key was dropped, after a refused
    import and after an accepted import whose key was dropped, both secret seeds are found in
    memory, wherever the places are: the seeds are passed by value in arrays that nothing erases,
    and a key that is moved leaves its old bytes. *)
Theorem seeds_left_behind_refuted :
  forall (T : Target) (P : Prims) (s : set_name) (lay : SkLayout) (lo : GenPlaces) (im : ImportPlaces) (pl : Places) (mem : memory),
    (** random key generation, and the key dropped *)
    (forall r g pk sk, keygen_places s lay lo pl -> call (try_keygen_with_rng (param_set s) r) g = Val (pk, sk) ->
       let made := keygen_memory (param_set s) lay lo pl r g mem in
       let after := drop_PrivateKey (param_set s) lay (pl_out pl) made in
       stored lay (pl_out pl) sk made /\
       found after (lo_seed lo) (sk_seed sk) /\ found after (lo_prf lo) (sk_prf sk) /\
       found after (pl_seed pl) (sk_seed sk) /\ found after (pl_prf pl) (sk_prf sk) /\
       stored lay (pl_built pl) sk after) /\
    (** a refused import *)
    (forall bs e, import_places s lay im pl -> nlen bs = sk_size s -> result (sk_try_from_bytes (param_set s) bs) = Err e ->
       let after := import_memory (param_set s) lay im pl bs mem in
       found after (pl_seed pl) (sub_bytes bs 0 (seed_bytes s)) /\
       found after (pl_prf pl) (sub_bytes bs (seed_bytes s) (2 * seed_bytes s))) /\
    (** an accepted import, and the key dropped *)
    (forall bs sk, import_places s lay im pl -> nlen bs = sk_size s -> result (sk_try_from_bytes (param_set s) bs) = Val sk ->
       let made := import_memory (param_set s) lay im pl bs mem in
       let after := drop_PrivateKey (param_set s) lay (pl_out pl) made in
       stored lay (pl_out pl) sk made /\
       found after (pl_seed pl) (sk_seed sk) /\ found after (pl_prf pl) (sk_prf sk) /\
       stored lay (im_sk im) sk after /\ stored lay (pl_built pl) sk after).
Proof. exact prop_seeds_left_behind_refuted. Qed.
Print Assumptions seeds_left_behind_refuted.

(** places for SHA2_128s, a generator that works, an accepted and a refused import *)
Example seeds_left_behind_refuted_applies :
  keygen_places SHA2_128s residue_layout residue_locals residue_places /\
  import_places SHA2_128s residue_layout residue_import residue_places /\
  (exists pk sk, call (try_keygen_with_rng (T := debug64) (P := toy_prims) (param_set SHA2_128s) counter) 0 = Val (pk, sk)) /\
  (exists bs sk, nlen bs = sk_size SHA2_128s /\ result (sk_try_from_bytes (T := debug64) (P := toy_prims) (param_set SHA2_128s) bs) = Val sk) /\
  (exists bs e, nlen bs = sk_size SHA2_128s /\ result (sk_try_from_bytes (T := debug64) (P := toy_prims) (param_set SHA2_128s) bs) = Err e).
Proof.
  split; [exact (proj1 residue_toy)|]. split; [exact (proj1 (proj2 residue_toy))|].
  destruct (toy_import debug64 toy_prims SHA2_128s) as [A [bs [L E]]].
  split; [|split; [exact A|exists bs; eexists; split; [exact L|exact E]]].
  destruct (prop_keygen_draws debug64 toy_prims SHA2_128s counter 0) as (_ & _ & _ & K).
  destruct (K _ _ _ _ _ _ (counter_gives 0 _) (counter_gives _ _) (counter_gives _ _)) as (pk & sk & E1 & _).
  exists pk, sk. exact E1.
Qed.

(** C91, also false of a key generation that fails: when the generator refuses the second or the
    third request, the call reports an error and gives no key, and what the generator gave before,
    the secret seeds, is found in the local arrays. *)
Theorem failed_keygen_leaves_seeds_refuted :
  forall (T : Target) (P : Prims) (s : set_name) (lay : SkLayout) (lo : GenPlaces) (pl : Places) (r : Rng) (g g1 : rng_st r)
         (a : bytes) (mem : memory),
    keygen_places s lay lo pl -> gives r g (seed_bytes s) a g1 ->
    let after := keygen_memory (param_set s) lay lo pl r g mem in
    (refuses r g1 (seed_bytes s) ->
       (exists e, call (try_keygen_with_rng (param_set s) r) g = Err e) /\ found after (lo_seed lo) a) /\
    (forall b g2, gives r g1 (seed_bytes s) b g2 -> refuses r g2 (seed_bytes s) ->
       (exists e, call (try_keygen_with_rng (param_set s) r) g = Err e) /\ found after (lo_seed lo) a /\ found after (lo_prf lo) b).
Proof. exact prop_failed_keygen_leaves_seeds_refuted. Qed.
Print Assumptions failed_keygen_leaves_seeds_refuted.

(** a generator that refuses the second request, and one that refuses the third *)
Example failed_keygen_leaves_seeds_refuted_applies :
  keygen_places SHA2_128s residue_layout residue_locals residue_places /\
  gives replay [part 20; (16, Err ""%string)] (seed_bytes SHA2_128s) (nrepeat (n2b 20) 16) [(16, Err ""%string)] /\
  refuses replay [(16, Err ""%string)] (seed_bytes SHA2_128s) /\
  gives replay [part 20; part 21; (16, Err ""%string)] (seed_bytes SHA2_128s) (nrepeat (n2b 20) 16) [part 21; (16, Err ""%string)] /\
  gives replay [part 21; (16, Err ""%string)] (seed_bytes SHA2_128s) (nrepeat (n2b 21) 16) [(16, Err ""%string)].
Proof.
  split; [exact (proj1 residue_toy)|]. split; [exact (replay_gives 20 _)|].
  split; [exists [], ""%string; reflexivity|]. split; [exact (replay_gives 20 _)|exact (replay_gives 21 _)].
Qed.

(** C91, the part that holds: the copies are in the places named and nowhere else. Outside the
    arrays, the value built inside the call and, after an accepted import, the value it was moved
    from, every byte of a key is zero once the key is dropped or the import refused, and every other
    byte is what it was before the call. Missing: those places (seeds_left_behind_refuted). *)
Theorem seeds_left_only_in_call_partial :
  forall (T : Target) (P : Prims) (s : set_name) (lay : SkLayout) (lo : GenPlaces) (im : ImportPlaces) (pl : Places) (mem : memory),
    (** random key generation *)
    (forall r g, keygen_places s lay lo pl ->
       let made := keygen_memory (param_set s) lay lo pl r g mem in
       let after := drop_PrivateKey (param_set s) lay (pl_out pl) made in
       forall x, ~ in_locals s lo x ->
         (forall pk sk, call (try_keygen_with_rng (param_set s) r) g = Val (pk, sk) -> ~ in_call s lay pl x ->
            (in_private_key s lay (pl_out pl) x -> after x = x00) /\
            (~ in_private_key s lay (pl_out pl) x -> made x = mem x /\ after x = mem x)) /\
         ((forall k, call (try_keygen_with_rng (param_set s) r) g <> Val k) -> made x = mem x)) /\
    (** a refused import *)
    (forall bs e, import_places s lay im pl -> nlen bs = sk_size s -> result (sk_try_from_bytes (param_set s) bs) = Err e ->
       let after := import_memory (param_set s) lay im pl bs mem in
       forall x, ~ in_call s lay pl x ->
         (in_private_key s lay (im_sk im) x \/ in_private_key s lay (im_test im) x -> after x = x00) /\
         (~ in_private_key s lay (im_sk im) x -> ~ in_private_key s lay (im_test im) x -> after x = mem x)) /\
    (** an accepted import, and the key dropped *)
    (forall bs sk, import_places s lay im pl -> nlen bs = sk_size s -> result (sk_try_from_bytes (param_set s) bs) = Val sk ->
       let after := drop_PrivateKey (param_set s) lay (pl_out pl) (import_memory (param_set s) lay im pl bs mem) in
       forall x, ~ in_call s lay pl x -> ~ in_private_key s lay (im_sk im) x ->
         (in_private_key s lay (im_test im) x \/ in_private_key s lay (pl_out pl) x -> after x = x00) /\
         (~ in_private_key s lay (im_test im) x -> ~ in_private_key s lay (pl_out pl) x -> after x = mem x)).
Proof. exact prop_seeds_left_only_in_call_partial. Qed.
Print Assumptions seeds_left_only_in_call_partial.

(** the same calls; a byte of the returned key, one of the dropped test key, and one outside everything *)
Example seeds_left_only_in_call_partial_applies :
  keygen_places SHA2_128s residue_layout residue_locals residue_places /\
  import_places SHA2_128s residue_layout residue_import residue_places /\
  (~ in_locals SHA2_128s residue_locals 1510 /\ ~ in_call SHA2_128s residue_layout residue_places 1510 /\
   in_private_key SHA2_128s residue_layout (pl_out residue_places) 1510) /\
  (~ in_call SHA2_128s residue_layout residue_places 1220 /\ ~ in_private_key SHA2_128s residue_layout (im_sk residue_import) 1220 /\
   in_private_key SHA2_128s residue_layout (im_test residue_import) 1220) /\
  (~ in_locals SHA2_128s residue_locals 7 /\ ~ in_call SHA2_128s residue_layout residue_places 7 /\
   ~ in_private_key SHA2_128s residue_layout (im_sk residue_import) 7 /\
   ~ in_private_key SHA2_128s residue_layout (im_test residue_import) 7 /\
   ~ in_private_key SHA2_128s residue_layout (pl_out residue_places) 7) /\
  (forall k, call (try_keygen_with_rng (T := debug64) (P := toy_prims) (param_set SHA2_128s) broken) tt <> Val k).
Proof.
  split; [exact (proj1 residue_toy)|]. split; [exact (proj1 (proj2 residue_toy))|]. unfold in_locals, in_call.
  split; [far|]. split; [far|]. split; [far|]. intros k.
  pose proof (proj1 (proj1 (prop_keygen_draws debug64 toy_prims SHA2_128s broken tt) (broken_refuses _ _))) as K.
  rewrite K. discriminate.
Qed.

(** C92. Exporting a private key leaves no copy beside the returned bytes. into_bytes consumes a private
    key; afterwards the returned array is the only copy of it in memory. (False of the code: the key
    is moved into the call, so the place where the caller had it keeps every byte and can no longer
    be erased through the API, and the local array the encoding is built in stays too. What holds:
    the caller gets the encoding, the value inside the call is erased, and no other byte of memory
    changes.)
    C92 is false of the code: after the export the whole key is found where the caller had it, and
    its bytes in the local array. *)
Theorem exported_keys_left_behind_refuted :
  forall (T : Target) (s : set_name) (lay : SkLayout) (ex : ExportPlaces) (a : N) (sk : SlhPrivateKey) (SK : bytes) (mem : memory),
    export_places s lay ex a -> sk_typed s sk -> stored lay a sk mem ->
    result (sk_into_bytes (param_set s) sk) = Val SK ->
    let after := export_memory (param_set s) lay ex a mem in
    stored lay a sk after /\ found after (ex_bytes ex) SK.
Proof. exact prop_exported_keys_left_behind_refuted. Qed.
Print Assumptions exported_keys_left_behind_refuted.

(** a key of SHA2_128s at address 1500 *)
Example exported_keys_left_behind_refuted_applies :
  export_places SHA2_128s residue_layout residue_export 1500 /\ sk_typed SHA2_128s (tsk SHA2_128s) /\
  stored residue_layout 1500 (tsk SHA2_128s) (place_sk residue_layout 1500 (tsk SHA2_128s) (fun _ => n2b 7)) /\
  exists SK, result (sk_into_bytes (T := debug64) (param_set SHA2_128s) (tsk SHA2_128s)) = Val SK.
Proof.
  pose proof (proj2 (proj2 residue_toy)) as R. split; [exact R|]. split; [apply toy_sk_typed|].
  split; [apply (place_sk_stored SHA2_128s); [apply toy_sk_typed|exact (proj1 R)]|].
  destruct (proj1 (prop_private_key_round_trip debug64 toy_prims SHA2_128s) _ _ (toy_key_pair debug64 toy_prims SHA2_128s)) as [SK [E _]].
  exists SK. exact E.
Qed.

(** C92, the part that holds: the caller gets the encoding; the value inside the call is zero
    afterwards; nothing is written outside it, the local array and the result. Missing: the local
    array and the place the caller had the key (exported_keys_left_behind_refuted). *)
Theorem exported_keys_erased_partial :
  forall (T : Target) (s : set_name) (lay : SkLayout) (ex : ExportPlaces) (a : N) (sk : SlhPrivateKey) (SK : bytes) (mem : memory),
    export_places s lay ex a -> sk_typed s sk -> stored lay a sk mem ->
    result (sk_into_bytes (param_set s) sk) = Val SK ->
    let after := export_memory (param_set s) lay ex a mem in
    found after (ex_out ex) SK /\
    forall x, ~ within (ex_bytes ex) (sk_size s) x -> ~ within (ex_out ex) (sk_size s) x ->
      (in_private_key s lay (ex_self ex) x -> after x = x00) /\
      (~ in_private_key s lay (ex_self ex) x -> after x = mem x).
Proof. exact prop_exported_keys_erased_partial. Qed.
Print Assumptions exported_keys_erased_partial.

(** the same key; a byte of the value inside the call, and one elsewhere *)
Example exported_keys_erased_partial_applies :
  export_places SHA2_128s residue_layout residue_export 1500 /\ sk_typed SHA2_128s (tsk SHA2_128s) /\
  stored residue_layout 1500 (tsk SHA2_128s) (place_sk residue_layout 1500 (tsk SHA2_128s) (fun _ => n2b 7)) /\
  (exists SK, result (sk_into_bytes (T := debug64) (param_set SHA2_128s) (tsk SHA2_128s)) = Val SK) /\
  (~ within (ex_bytes residue_export) (sk_size SHA2_128s) 1620 /\ ~ within (ex_out residue_export) (sk_size SHA2_128s) 1620 /\
   in_private_key SHA2_128s residue_layout (ex_self residue_export) 1620) /\
  (~ within (ex_bytes residue_export) (sk_size SHA2_128s) 7 /\ ~ within (ex_out residue_export) (sk_size SHA2_128s) 7 /\
   ~ in_private_key SHA2_128s residue_layout (ex_self residue_export) 7).
Proof.
  destruct exported_keys_left_behind_refuted_applies as (A & B & C & D).
  split; [exact A|]. split; [exact B|]. split; [exact C|]. split; [exact D|]. split; far.
Qed.

(** C93. C interface: wiping the received private key removes it from memory. A C program that calls the
    key-generation function and later overwrites the private-key struct it received with zeros has
    removed the private key from its memory. (False of the code: the call leaves the whole encoding
    in the local array of into_bytes and each secret seed in two arrays of key generation, none of
    which the program can reach. What holds: the struct received the key and is zero after the wipe,
    the value inside the export is erased, and outside the local variables of the calls no byte has
    changed.)
    C93 is false of the code: after the C program has wiped the struct it was given, the whole key
    is found in the local array of into_bytes and each seed in two other places. *)
Theorem c_keygen_copies_refuted :
  forall (T : Target) (P : Prims) (lay : SkLayout) (lo : GenPlaces) (pl : Places) (ex : ExportPlaces) (os : Rng) (g g' : rng_st os)
         (po pr pb sb : bytes) (mem : memory),
    c_keygen_places SHA2_128f lay lo pl ex ->
    ffi_keygen os g (Some po) (Some pr) = (g', FReturn SLH_DSA_OK (Some pb, Some sb)) ->
    let after := wiped SHA2_128f (ex_out ex) (ffi_keygen_memory (param_set SHA2_128f) lay lo pl ex os g mem) in
    found after (lo_seed lo) (sub_bytes sb 0 16) /\ found after (lo_prf lo) (sub_bytes sb 16 32) /\
    found after (pl_seed pl) (sub_bytes sb 0 16) /\ found after (pl_prf pl) (sub_bytes sb 16 32) /\
    found after (ex_bytes ex) sb.
Proof. exact prop_c_keygen_copies_refuted. Qed.
Print Assumptions c_keygen_copies_refuted.

(** places for SHA2_128f and a generator that works *)
Example c_keygen_copies_refuted_applies :
  c_keygen_places SHA2_128f residue_layout residue_locals residue_places residue_export /\
  exists g' pb sb, ffi_keygen (T := debug64) (P := toy_prims) counter 0 (Some []) (Some []) =
                   (g', FReturn SLH_DSA_OK (Some pb, Some sb)).
Proof.
  split; [exact residue_toy_c|].
  destruct (prop_ffi_keygen_contract debug64 toy_prims counter 0 (Some []) (Some [])) as [_ [K _]].
  destruct (K ltac:(discriminate) ltac:(discriminate)) as [_ G].
  destruct (G _ _ _ _ _ _ (counter_gives 0 16) (counter_gives 1 16) (counter_gives 2 16)) as (pk & sk & pkb & skb & E & Eg & _).
  eexists _, pkb, skb. etransitivity; [apply surjective_pairing|]. exact (f_equal2 pair eq_refl E).
Qed.

(** C93, the part that holds: the struct receives the key; after the wipe it is zero, and so is the
    value inside into_bytes; nothing else is written but the local variables of the calls. Missing:
    those variables (c_keygen_copies_refuted). *)
Theorem c_keygen_writes_partial :
  forall (T : Target) (P : Prims) (lay : SkLayout) (lo : GenPlaces) (pl : Places) (ex : ExportPlaces) (os : Rng) (g g' : rng_st os)
         (po pr pb sb : bytes) (mem : memory),
    c_keygen_places SHA2_128f lay lo pl ex ->
    ffi_keygen os g (Some po) (Some pr) = (g', FReturn SLH_DSA_OK (Some pb, Some sb)) ->
    let made := ffi_keygen_memory (param_set SHA2_128f) lay lo pl ex os g mem in
    let after := wiped SHA2_128f (ex_out ex) made in
    found made (ex_out ex) sb /\
    (forall x, within (ex_out ex) (sk_size SHA2_128f) x \/ in_private_key SHA2_128f lay (ex_self ex) x -> after x = x00) /\
    (forall x, ~ in_locals SHA2_128f lo x -> ~ in_call SHA2_128f lay pl x -> ~ in_private_key SHA2_128f lay (pl_out pl) x ->
       ~ within (ex_bytes ex) (sk_size SHA2_128f) x -> ~ within (ex_out ex) (sk_size SHA2_128f) x ->
       ~ in_private_key SHA2_128f lay (ex_self ex) x -> after x = mem x).
Proof. exact prop_c_keygen_writes_partial. Qed.
Print Assumptions c_keygen_writes_partial.

(** the same call; a byte of the struct, one of the value inside the call, and one elsewhere *)
Example c_keygen_writes_partial_applies :
  c_keygen_places SHA2_128f residue_layout residue_locals residue_places residue_export /\
  (exists g' pb sb, ffi_keygen (T := debug64) (P := toy_prims) counter 0 (Some []) (Some []) =
                    (g', FReturn SLH_DSA_OK (Some pb, Some sb))) /\
  within (ex_out residue_export) (sk_size SHA2_128f) 1820 /\
  in_private_key SHA2_128f residue_layout (ex_self residue_export) 1620 /\
  (~ in_locals SHA2_128f residue_locals 7 /\ ~ in_call SHA2_128f residue_layout residue_places 7 /\
   ~ in_private_key SHA2_128f residue_layout (pl_out residue_places) 7 /\
   ~ within (ex_bytes residue_export) (sk_size SHA2_128f) 7 /\ ~ within (ex_out residue_export) (sk_size SHA2_128f) 7 /\
   ~ in_private_key SHA2_128f residue_layout (ex_self residue_export) 7).
Proof.
  destruct c_keygen_copies_refuted_applies as (A & B). split; [exact A|]. split; [exact B|].
  unfold in_locals, in_call. split; [far|]. split; [far|]. far.
Qed.

(** C94. C interface: signing makes no lasting copy of the private key. A C program that signs with the C
    sign function and later overwrites its private-key struct with zeros has removed the private key
    from its memory. (False of the code: every call with valid pointers, whatever it returns, leaves
    both secret seeds in arrays of the key generation that the import runs, and unless the key was
    refused the whole key stays in two places it was moved from. What holds: the struct is only
    read, the output struct receives the signature or is left alone, the local key values that go
    out of scope are erased, and no other byte changes.)
    C94 is false of the code: after any C sign call that got as far as reading the key, whatever it
    returned, and after the program has wiped its struct, both seeds are found in the arrays of key
    generation, which the import runs; unless the key was refused, the whole key is found in two
    places it was moved from. *)
Theorem c_sign_copies_refuted :
  forall (T : Target) (P : Prims) (lay : SkLayout) (im : ImportPlaces) (pl : Places) (key_at sig_at : N) (os : Rng) (g g' : rng_st os)
         (buf : bytes) (len : Z) (m skb o : bytes) (code : N) (out : option bytes) (mem : memory),
    c_sign_places SHA2_128f lay im pl key_at sig_at -> c_message buf len m -> nlen skb = sk_size SHA2_128f -> found mem key_at skb ->
    ffi_sign os g (Some buf) len (Some skb) (Some o) = (g', FReturn code out) ->
    let after := wiped SHA2_128f key_at (ffi_sign_memory (param_set SHA2_128f) lay im pl key_at sig_at os g buf len mem) in
    found after (pl_seed pl) (sub_bytes skb 0 16) /\ found after (pl_prf pl) (sub_bytes skb 16 32) /\
    (code <> 3 -> exists sk, result (sk_try_from_bytes (param_set SHA2_128f) skb) = Val sk /\
       stored lay (im_sk im) sk after /\ stored lay (pl_built pl) sk after).
Proof. exact prop_c_sign_copies_refuted. Qed.
Print Assumptions c_sign_copies_refuted.

(** places, a key in memory that is accepted, with a call that signs; and one that is refused *)
Example c_sign_copies_refuted_applies :
  c_sign_places SHA2_128f residue_layout residue_import residue_places 1600 2000 /\
  c_message (T := debug64) toy_m 2 toy_m /\
  (exists skb g' sig, nlen skb = sk_size SHA2_128f /\ found (write_bytes 1600 skb (fun _ => n2b 7)) 1600 skb /\
     ffi_sign (T := debug64) (P := toy_prims) counter 0 (Some toy_m) 2 (Some skb) (Some []) = (g', FReturn 0 (Some sig))) /\
  (exists skb g', nlen skb = sk_size SHA2_128f /\ found (write_bytes 1600 skb (fun _ => n2b 7)) 1600 skb /\
     ffi_sign (T := debug64) (P := toy_prims) counter 0 (Some toy_m) 2 (Some skb) (Some []) = (g', FReturn 3 (Some []))).
Proof.
  split; [exact residue_toy_sign|].
  assert (C : c_message (T := debug64) toy_m 2 toy_m) by (split; [discriminate|]; split; [reflexivity|]; split; [discriminate|reflexivity]).
  split; [exact C|]. destruct (toy_import debug64 toy_prims SHA2_128f) as [(bs & sk & L & E) (bs' & L' & E')]. split.
  - exists bs. pose proof (prop_import_accepts_exactly_consistent_keys debug64 toy_prims SHA2_128f bs L) as K. cbv zeta in K.
    change (seed_bytes SHA2_128f) with 16 in K. change (2 * 16) with 32 in K. change (3 * 16) with 48 in K.
    change (4 * 16) with 64 in K.
    pose proof (proj2 (prop_ffi_sign_contract debug64 toy_prims counter 0 2 (Some bs) (Some [])) toy_m toy_m bs C eq_refl L ltac:(discriminate)) as S.
    cbv zeta in S. destruct (Fips205.slh_keygen_internal _ _ _ _ _) as [SK0 PK]. destruct K as [_ K]. destruct S as (_ & _ & S).
    destruct (list_eq_dec Byte.byte_eq_dec PK (sub_bytes bs 32 48 ++ sub_bytes bs 48 64)) as [Y|Y];
      [|rewrite (K Y) in E; discriminate].
    destruct (S Y _ _ (counter_gives 0 16)) as (sig & R & _). eexists _, sig. split; [exact L|].
    split; [intros i Hi; apply write_bytes_in; exact Hi|exact R].
  - exists bs'.
    destruct (sign_returns (T := debug64) (P := toy_prims) counter 0 toy_m 2 toy_m bs' [] counter_safe C L') as (g' & code & out & R).
    assert (F : found (write_bytes 1600 bs' (fun _ => n2b 7)) 1600 bs') by (intros i Hi; apply write_bytes_in; exact Hi).
    destruct (sign_memory_cases residue_layout residue_import residue_places 1600 2000 counter 0 toy_m 2 toy_m bs' [] g' code out _ C L' F R)
      as [(-> & -> & _)|(_ & sk' & I & _)]; [|rewrite I in E'; discriminate].
    exists g'. split; [exact L'|]. split; [exact F|exact R].
Qed.

(** C94, the part that holds: the struct of the key is only read; signature_out receives the
    signature, or is left alone when the call fails; the local key, or the refused key, and the test
    key of the import are zero afterwards, and nothing else is written but the variables inside the
    import. Missing: those variables (c_sign_copies_refuted). *)
Theorem c_sign_writes_partial :
  forall (T : Target) (P : Prims) (lay : SkLayout) (im : ImportPlaces) (pl : Places) (key_at sig_at : N) (os : Rng) (g g' : rng_st os)
         (buf : bytes) (len : Z) (m skb o : bytes) (code : N) (out : option bytes) (mem : memory),
    c_sign_places SHA2_128f lay im pl key_at sig_at -> c_message buf len m -> nlen skb = sk_size SHA2_128f -> found mem key_at skb ->
    ffi_sign os g (Some buf) len (Some skb) (Some o) = (g', FReturn code out) ->
    let made := ffi_sign_memory (param_set SHA2_128f) lay im pl key_at sig_at os g buf len mem in
    let after := wiped SHA2_128f key_at made in
    (code = 0 -> exists sig, out = Some sig /\ found after sig_at sig) /\
    (code <> 0 -> out = Some o /\ forall x, within sig_at (sig_size SHA2_128f) x -> after x = mem x) /\
    found made key_at skb /\
    (forall x, within key_at (sk_size SHA2_128f) x \/ in_private_key SHA2_128f lay (im_test im) x \/
       (code = 3 /\ in_private_key SHA2_128f lay (im_sk im) x) \/ (code <> 3 /\ in_private_key SHA2_128f lay (pl_out pl) x) -> after x = x00) /\
    (forall x, ~ within key_at (sk_size SHA2_128f) x -> ~ within sig_at (sig_size SHA2_128f) x -> ~ in_call SHA2_128f lay pl x ->
       ~ in_private_key SHA2_128f lay (im_sk im) x -> ~ in_private_key SHA2_128f lay (im_test im) x -> ~ in_private_key SHA2_128f lay (pl_out pl) x ->
       after x = mem x).
Proof. exact prop_c_sign_writes_partial. Qed.
Print Assumptions c_sign_writes_partial.

(** the same calls; a byte of the local key, one of the test key and one elsewhere *)
Example c_sign_writes_partial_applies :
  c_sign_places SHA2_128f residue_layout residue_import residue_places 1600 2000 /\
  c_message (T := debug64) toy_m 2 toy_m /\
  (exists skb g' sig, nlen skb = sk_size SHA2_128f /\ found (write_bytes 1600 skb (fun _ => n2b 7)) 1600 skb /\
     ffi_sign (T := debug64) (P := toy_prims) counter 0 (Some toy_m) 2 (Some skb) (Some []) = (g', FReturn 0 (Some sig))) /\
  (exists skb g', nlen skb = sk_size SHA2_128f /\ found (write_bytes 1600 skb (fun _ => n2b 7)) 1600 skb /\
     ffi_sign (T := debug64) (P := toy_prims) counter 0 (Some toy_m) 2 (Some skb) (Some []) = (g', FReturn 3 (Some []))) /\
  in_private_key SHA2_128f residue_layout (pl_out residue_places) 1510 /\
  in_private_key SHA2_128f residue_layout (im_test residue_import) 1220 /\
  (~ within 1600 (sk_size SHA2_128f) 7 /\ ~ within 2000 17088 7 /\ ~ in_call SHA2_128f residue_layout residue_places 7 /\
   ~ in_private_key SHA2_128f residue_layout (im_sk residue_import) 7 /\
   ~ in_private_key SHA2_128f residue_layout (im_test residue_import) 7 /\
   ~ in_private_key SHA2_128f residue_layout (pl_out residue_places) 7).
Proof.
  destruct c_sign_copies_refuted_applies as (A & B & C & D). split; [exact A|]. split; [exact B|]. split; [exact C|]. split; [exact D|].
  unfold in_call. split; [far|]. split; [far|]. far.
Qed.
