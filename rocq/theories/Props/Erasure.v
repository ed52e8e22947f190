(** Erasure of keys. *)
From Coq Require Import String.
From Verif Require Import Spec.Fips205 Spec.Fips205Hash.
From Verif Require Import Model.Api Spec.Vocab Model.Zeroize Spec.VocabMem Proof.TopZero Proof.TopRandom Proof.Toy.
Import ListNotations.
Open Scope list_scope.
Open Scope N_scope.

(** C45. Secret key material is erased on drop. When a private key value is dropped, every byte of its
    four fields is overwritten with zero and no other memory is touched; after an explicit zeroize()
    the value exports as all-zero bytes whatever the key was. The same holds for public keys on
    drop.
    The memory model issues the stores the derives ask for; that the compiler keeps them is outside
    the model. *)
Theorem private_key_erased_on_drop :
  forall (s : set_name) (lay : SkLayout) (a : N) (mem : memory),
    (forall x, in_private_key s lay a x -> drop_PrivateKey (param_set s) lay a mem x = x00) /\
    (forall x, ~ in_private_key s lay a x -> drop_PrivateKey (param_set s) lay a mem x = mem x).
Proof. exact prop_private_key_erased_on_drop. Qed.
Print Assumptions private_key_erased_on_drop.

(** 64 consecutive bytes, none of them zero before the drop *)
Example private_key_erased_on_drop_applies :
  let lay := mkSkLayout 0 16 32 48 in
  let mem : memory := fun _ => n2b 7 in
  in_private_key SHA2_128s lay 100 131 /\ mem 131 <> x00 /\
  drop_PrivateKey (param_set SHA2_128s) lay 100 mem 131 = x00 /\
  drop_PrivateKey (param_set SHA2_128s) lay 100 mem 164 = n2b 7.
Proof.
  cbv zeta. assert (W : in_private_key SHA2_128s (mkSkLayout 0 16 32 48) 100 131).
  { right. left. split; [discriminate|reflexivity]. }
  destruct (private_key_erased_on_drop SHA2_128s (mkSkLayout 0 16 32 48) 100 (fun _ => n2b 7)) as [Z F].
  split; [exact W|]. split; [discriminate|]. split; [exact (Z _ W)|]. apply F.
  intros [[_ X]|[[_ X]|[[_ X]|[_ X]]]]; discriminate X.
Qed.

(** C45, for public keys. *)
Theorem public_key_erased_on_drop :
  forall (s : set_name) (lay : PkLayout) (a : N) (mem : memory),
    (forall x, in_public_key s lay a x -> drop_PublicKey (param_set s) lay a mem x = x00) /\
    (forall x, ~ in_public_key s lay a x -> drop_PublicKey (param_set s) lay a mem x = mem x).
Proof. exact prop_public_key_erased_on_drop. Qed.
Print Assumptions public_key_erased_on_drop.

Example public_key_erased_on_drop_applies :
  let lay := mkPkLayout 16 0 in
  let mem : memory := fun _ => n2b 7 in
  in_public_key SHA2_128s lay 100 131 /\ mem 131 <> x00 /\
  drop_PublicKey (param_set SHA2_128s) lay 100 mem 131 = x00 /\
  drop_PublicKey (param_set SHA2_128s) lay 100 mem 132 = n2b 7.
Proof.
  cbv zeta. assert (W : in_public_key SHA2_128s (mkPkLayout 16 0) 100 131).
  { left. split; [discriminate|reflexivity]. }
  destruct (public_key_erased_on_drop SHA2_128s (mkPkLayout 16 0) 100 (fun _ => n2b 7)) as [Z F].
  split; [exact W|]. split; [discriminate|]. split; [exact (Z _ W)|]. apply F.
  intros [[_ X]|[_ X]]; discriminate X.
Qed.

(** C45, for an explicit zeroize(): any two keys become the same value, of the same size, which
    exports as zeros, and this value is what the memory holds. *)
Theorem zeroized_key_is_blank :
  forall (T : Target) (s : set_name) (sk sk2 : SlhPrivateKey), sk_typed s sk -> sk_typed s sk2 ->
    zeroize_sk sk = zeroize_sk sk2 /\ sk_typed s (zeroize_sk sk) /\
    result (sk_into_bytes (param_set s) (zeroize_sk sk)) = Val (nrepeat x00 (sk_size s)) /\
    (forall lay a mem, stored lay a sk mem ->
       stored lay a (zeroize_sk sk) (zeroize_PrivateKey (param_set s) lay a mem)).
Proof. exact prop_zeroized_key_is_blank. Qed.
Print Assumptions zeroized_key_is_blank.

Example zeroized_key_is_blank_applies :
  sk_typed SHA2_128s (tsk SHA2_128s) /\ sk_prf (tsk SHA2_128s) <> sk_prf (zeroize_sk (tsk SHA2_128s)) /\
  result (sk_into_bytes (T := debug64) (param_set SHA2_128s) (zeroize_sk (tsk SHA2_128s))) = Val (nrepeat x00 64).
Proof.
  pose proof (toy_sk_typed toy_prims SHA2_128s) as K. split; [exact K|]. split.
  - intros E. apply (f_equal (fun l => nth 0 l x00)) in E. lazy in E. discriminate E.
  - apply (zeroized_key_is_blank debug64 SHA2_128s _ _ K K).
Qed.

(** C45, for an explicit zeroize() of a public key. *)
Theorem zeroized_public_key_is_blank :
  forall (s : set_name) (pk pk2 : SlhPublicKey), pk_typed s pk -> pk_typed s pk2 ->
    zeroize_pk pk = zeroize_pk pk2 /\ pk_typed s (zeroize_pk pk) /\
    result (pk_into_bytes (param_set s) (zeroize_pk pk)) = Val (nrepeat x00 (pk_size s)) /\
    (forall lay a mem, stored_public lay a pk mem ->
       stored_public lay a (zeroize_pk pk) (zeroize_PublicKey (param_set s) lay a mem)).
Proof. exact prop_zeroized_public_key_is_blank. Qed.
Print Assumptions zeroized_public_key_is_blank.

Example zeroized_public_key_is_blank_applies :
  let pk := mkPk (nrepeat (n2b 1) 16) (nrepeat (n2b 2) 16) in
  pk_typed SHA2_128s pk /\ pk_root pk <> pk_root (zeroize_pk pk) /\
  result (pk_into_bytes (param_set SHA2_128s) (zeroize_pk pk)) = Val (nrepeat x00 32).
Proof.
  cbv zeta. assert (K : pk_typed SHA2_128s (mkPk (nrepeat (n2b 1) 16) (nrepeat (n2b 2) 16))) by (split; reflexivity).
  split; [exact K|]. split.
  - intros E. apply (f_equal (fun l => nth 0 l x00)) in E. lazy in E. discriminate E.
  - apply (zeroized_public_key_is_blank SHA2_128s _ _ K K).
Qed.

(** C52. Seeded key generation leaves no copy of the secret seeds. After key generation from
    caller-supplied seeds has returned and the private key has been dropped, the library's own
    copies of SK.seed and SK.prf have been overwritten.
    The claim is false of the code: traits.rs builds an internal generator (DummyRng) that holds the
    three seeds and is not erased when it is dropped, so, wherever it is placed outside the key,
    both secret seeds are still found in memory after the key itself has been erased. *)
Theorem seed_copies_survive_refuted :
  forall (T : Target) (P : Prims) (s : set_name) (skseed skprf pkseed : bytes) pk sk (lay : SkLayout) (d a : N) (mem : memory),
    nlen skseed = seed_bytes s -> nlen skprf = seed_bytes s -> nlen pkseed = seed_bytes s ->
    result (keygen_with_seeds (param_set s) skseed skprf pkseed) = Val (pk, sk) ->
    (forall x, within d (3 * seed_bytes s) x -> ~ in_private_key s lay a x) ->
    let before := keygen_with_seeds_memory (param_set s) lay d a skseed skprf pkseed sk mem in
    let after := drop_PrivateKey (param_set s) lay a before in
    (disjoint_fields s lay -> stored lay a sk before) /\
    (forall x, in_private_key s lay a x -> after x = x00) /\
    found after d (sk_seed sk) /\ found after (d + seed_bytes s) (sk_prf sk).
Proof. exact prop_seed_copies_survive_refuted. Qed.
Print Assumptions seed_copies_survive_refuted.

Example seed_copies_survive_refuted_applies :
  exists sd pk sk, nlen sd = seed_bytes SHA2_128s /\
    result (keygen_with_seeds (T := debug64) (P := toy_prims) (param_set SHA2_128s) sd sd sd) = Val (pk, sk) /\
    (forall x, within 500 (3 * seed_bytes SHA2_128s) x -> ~ in_private_key SHA2_128s (mkSkLayout 0 16 32 48) 100 x) /\
    disjoint_fields SHA2_128s (mkSkLayout 0 16 32 48).
Proof.
  exists (nrepeat (n2b 9) 16).
  destruct (proj1 (prop_keygen_with_seeds debug64 toy_prims SHA2_128s (nrepeat (n2b 9) 16) (nrepeat (n2b 9) 16) (nrepeat (n2b 9) 16))
    (nlen_nrepeat _ _) (nlen_nrepeat _ _) (nlen_nrepeat _ _)) as [pk [sk [E _]]].
  exists pk, sk. split; [apply nlen_nrepeat|]. split; [exact E|].
  unfold within, in_private_key, within, disjoint_fields, apart.
  change (seed_bytes SHA2_128s) with 16. cbn [at_sk_seed at_sk_prf at_pk_seed at_pk_root].
  split; [intros x [L _]; lia|lia].
Qed.

(** C52, the part that holds: outside the storage of the internal generator nothing is left of the
    seeds. Every byte of the key is zero, and every other byte is what it was before the call.
    Missing: the generator itself (seed_copies_survive_refuted). *)
Theorem seed_copies_only_in_generator_partial :
  forall (T : Target) (P : Prims) (s : set_name) (skseed skprf pkseed : bytes) pk sk (lay : SkLayout) (d a : N) (mem : memory),
    nlen skseed = seed_bytes s -> nlen skprf = seed_bytes s -> nlen pkseed = seed_bytes s ->
    result (keygen_with_seeds (param_set s) skseed skprf pkseed) = Val (pk, sk) ->
    let after := drop_PrivateKey (param_set s) lay a (keygen_with_seeds_memory (param_set s) lay d a skseed skprf pkseed sk mem) in
    forall x, ~ within d (3 * seed_bytes s) x ->
      (in_private_key s lay a x -> after x = x00) /\ (~ in_private_key s lay a x -> after x = mem x).
Proof. exact prop_seed_copies_only_in_generator_partial. Qed.
Print Assumptions seed_copies_only_in_generator_partial.

Example seed_copies_only_in_generator_partial_applies :
  exists sd pk sk, nlen sd = seed_bytes SHA2_128s /\
    result (keygen_with_seeds (T := debug64) (P := toy_prims) (param_set SHA2_128s) sd sd sd) = Val (pk, sk) /\
    ~ within 500 (3 * seed_bytes SHA2_128s) 120 /\ in_private_key SHA2_128s (mkSkLayout 0 16 32 48) 100 120.
Proof.
  exists (nrepeat (n2b 9) 16).
  destruct (proj1 (prop_keygen_with_seeds debug64 toy_prims SHA2_128s (nrepeat (n2b 9) 16) (nrepeat (n2b 9) 16) (nrepeat (n2b 9) 16))
    (nlen_nrepeat _ _) (nlen_nrepeat _ _) (nlen_nrepeat _ _)) as [pk [sk [E _]]].
  exists pk, sk. split; [apply nlen_nrepeat|]. split; [exact E|].
  unfold in_private_key, within. change (seed_bytes SHA2_128s) with 16. cbn [at_sk_seed at_sk_prf at_pk_seed at_pk_root]. lia.
Qed.
