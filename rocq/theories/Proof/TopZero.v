(** Erasure of keys. *)
From Verif Require Import Spec.Fips205 Spec.Fips205Hash.
From Verif Require Import Model.Zeroize Spec.Vocab Spec.VocabMem Proof.Honest Proof.ApiP Proof.Summary Proof.TopCorrect.
Import ListNotations.
Open Scope N_scope.

Lemma zeroize_elems_spec len : forall a mem x,
  zeroize_elems len a mem x = if (a <=? x) && (x <? a + N.of_nat len) then x00 else mem x.
Proof.
  induction len as [|k IH]; intros a mem x; cbn [zeroize_elems].
  - destruct (a <=? x) eqn:E; cbn [andb]; [|reflexivity].
    destruct (x <? a + N.of_nat 0) eqn:F; [lia|reflexivity].
  - rewrite IH. unfold zeroize_u8, store.
    destruct (x =? a) eqn:E, (a + 1 <=? x) eqn:E1, (x <? a + 1 + N.of_nat k) eqn:E2, (a <=? x) eqn:E3, (x <? a + N.of_nat (S k)) eqn:E4;
      cbn [andb]; try reflexivity; exfalso; lia.
Qed.

Lemma zeroize_array_in n a mem x : within a n x -> zeroize_array n a mem x = x00.
Proof.
  unfold within, zeroize_array. intros L. rewrite zeroize_elems_spec.
  destruct (a <=? x) eqn:E, (x <? a + N.of_nat (N.to_nat n)) eqn:F; cbn [andb]; try reflexivity; lia.
Qed.
Lemma zeroize_array_out n a mem x : ~ within a n x -> zeroize_array n a mem x = mem x.
Proof.
  unfold within, zeroize_array. intros L. rewrite zeroize_elems_spec.
  destruct (a <=? x) eqn:E, (x <? a + N.of_nat (N.to_nat n)) eqn:F; cbn [andb]; try reflexivity; lia.
Qed.
Lemma zeroize_array_keeps n a mem x : mem x = x00 -> zeroize_array n a mem x = x00.
Proof.
  unfold zeroize_array. intros L. rewrite zeroize_elems_spec.
  destruct ((a <=? x) && (x <? a + N.of_nat (N.to_nat n))); [reflexivity|exact L].
Qed.

Lemma zeroize_private s lay a mem :
  (forall x, in_private_key s lay a x -> zeroize_SlhPrivateKey (param_set s) lay a mem x = x00) /\
  (forall x, ~ in_private_key s lay a x -> zeroize_SlhPrivateKey (param_set s) lay a mem x = mem x).
Proof.
  unfold in_private_key, zeroize_SlhPrivateKey. cbv zeta. rewrite param_n. split; intros x W.
  - destruct W as [W|[W|[W|W]]];
      repeat first [apply zeroize_array_in; exact W | apply zeroize_array_keeps].
  - rewrite !zeroize_array_out; tauto.
Qed.

Lemma prop_private_key_erased_on_drop :
  forall (s : set_name) (lay : SkLayout) (a : N) (mem : memory),
    (forall x, in_private_key s lay a x -> drop_PrivateKey (param_set s) lay a mem x = x00) /\
    (forall x, ~ in_private_key s lay a x -> drop_PrivateKey (param_set s) lay a mem x = mem x).
Proof. intros s lay a mem. apply zeroize_private. Qed.

Lemma zeroize_public s lay a mem :
  (forall x, in_public_key s lay a x -> zeroize_SlhPublicKey (param_set s) lay a mem x = x00) /\
  (forall x, ~ in_public_key s lay a x -> zeroize_SlhPublicKey (param_set s) lay a mem x = mem x).
Proof.
  unfold in_public_key, zeroize_SlhPublicKey. cbv zeta. rewrite param_n. split; intros x W.
  - destruct W as [W|W];
      repeat first [apply zeroize_array_in; exact W | apply zeroize_array_keeps].
  - rewrite !zeroize_array_out; tauto.
Qed.

Lemma prop_public_key_erased_on_drop :
  forall (s : set_name) (lay : PkLayout) (a : N) (mem : memory),
    (forall x, in_public_key s lay a x -> drop_PublicKey (param_set s) lay a mem x = x00) /\
    (forall x, ~ in_public_key s lay a x -> drop_PublicKey (param_set s) lay a mem x = mem x).
Proof. intros s lay a mem. apply zeroize_public. Qed.

Lemma nlen_zeroed l : nlen (zeroed l) = nlen l.
Proof. unfold zeroed, nlen. rewrite map_length. reflexivity. Qed.
Lemma zeroed_nrepeat l : zeroed l = nrepeat x00 (nlen l).
Proof.
  unfold zeroed, nrepeat, nlen. rewrite Nnat.Nat2N.id.
  induction l as [|x l IH]; [reflexivity|]. cbn [map length repeat]. rewrite IH. reflexivity.
Qed.
Lemma nth_zeroed i l : nth i (zeroed l) x00 = x00.
Proof. unfold zeroed. revert i. induction l as [|x l IH]; intros [|i]; cbn [map nth]; auto. Qed.

Lemma nrepeat_app {A} (x : A) a b : nrepeat x a ++ nrepeat x b = nrepeat x (a + b).
Proof. unfold nrepeat. rewrite N2Nat.inj_add, repeat_app. reflexivity. Qed.

Lemma prop_zeroized_key_is_blank :
  forall (T : Target) (s : set_name) (sk sk2 : SlhPrivateKey), sk_typed s sk -> sk_typed s sk2 ->
    zeroize_sk sk = zeroize_sk sk2 /\ sk_typed s (zeroize_sk sk) /\
    result (sk_into_bytes (param_set s) (zeroize_sk sk)) = Val (nrepeat x00 (sk_size s)) /\
    (forall lay a mem, stored lay a sk mem ->
       stored lay a (zeroize_sk sk) (zeroize_PrivateKey (param_set s) lay a mem)).
Proof.
  intros T s sk sk2 K K2.
  assert (TZ : sk_typed s (zeroize_sk sk)).
  { unfold sk_typed, zeroize_sk in *. cbn [sk_seed sk_prf sk_pk_seed sk_pk_root]. rewrite !nlen_zeroed. exact K. }
  split.
  { unfold zeroize_sk. rewrite !zeroed_nrepeat. destruct K as (E1 & E2 & E3 & E4), K2 as (F1 & F2 & F3 & F4).
    rewrite E1, E2, E3, E4, F1, F2, F3, F4. reflexivity. }
  split; [exact TZ|]. split.
  { rewrite (proj1 (runs_sk_into_bytes _ (param_PF s) _ (typed_sk s _ TZ))).
    unfold sk_bytes, zeroize_sk. cbn [sk_seed sk_prf sk_pk_seed sk_pk_root].
    rewrite !zeroed_nrepeat. destruct K as (E1 & E2 & E3 & E4). rewrite E1, E2, E3, E4, !nrepeat_app.
    do 2 apply f_equal. destruct s; reflexivity. }
  intros lay a mem (S1 & S2 & S3 & S4).
  destruct (zeroize_private s lay a mem) as [Z _].
  unfold stored, found, zeroize_sk. cbn [sk_seed sk_prf sk_pk_seed sk_pk_root].
  destruct K as (E1 & E2 & E3 & E4).
  refine (conj _ (conj _ (conj _ _))); intros i L; rewrite nlen_zeroed in L; rewrite nth_zeroed;
    (apply Z; unfold in_private_key, within; lia).
Qed.

Lemma prop_zeroized_public_key_is_blank :
  forall (s : set_name) (pk pk2 : SlhPublicKey), pk_typed s pk -> pk_typed s pk2 ->
    zeroize_pk pk = zeroize_pk pk2 /\ pk_typed s (zeroize_pk pk) /\
    result (pk_into_bytes (param_set s) (zeroize_pk pk)) = Val (nrepeat x00 (pk_size s)) /\
    (forall lay a mem, stored_public lay a pk mem ->
       stored_public lay a (zeroize_pk pk) (zeroize_PublicKey (param_set s) lay a mem)).
Proof.
  intros s pk pk2 K K2.
  assert (TZ : pk_typed s (zeroize_pk pk)).
  { unfold pk_typed, zeroize_pk in *. cbn [pk_seed pk_root]. rewrite !nlen_zeroed. exact K. }
  split.
  { unfold zeroize_pk. rewrite !zeroed_nrepeat. destruct K as (E1 & E2), K2 as (F1 & F2).
    rewrite E1, E2, F1, F2. reflexivity. }
  split; [exact TZ|]. split.
  { rewrite (proj1 (runs_pk_into_bytes _ (param_PF s) _ (typed_pk s _ TZ))).
    unfold pk_bytes, zeroize_pk. cbn [pk_seed pk_root].
    rewrite !zeroed_nrepeat. destruct K as (E1 & E2). rewrite E1, E2, !nrepeat_app.
    do 2 apply f_equal. destruct s; reflexivity. }
  intros lay a mem (S1 & S2).
  destruct (zeroize_public s lay a mem) as [Z _].
  unfold stored_public, found, zeroize_pk. cbn [pk_seed pk_root].
  destruct K as (E1 & E2).
  refine (conj _ _); intros i L; rewrite nlen_zeroed in L; rewrite nth_zeroed;
    (apply Z; unfold in_public_key, within; lia).
Qed.

Lemma write_bytes_in a l mem i : i < nlen l -> write_bytes a l mem (a + i) = nth (N.to_nat i) l x00.
Proof.
  intros L. unfold write_bytes. destruct (a <=? a + i) eqn:E, (a + i <? a + nlen l) eqn:F; cbn [andb]; try lia.
  replace (a + i - a) with i by lia. reflexivity.
Qed.
Lemma write_bytes_out a l mem x : ~ within a (nlen l) x -> write_bytes a l mem x = mem x.
Proof.
  unfold within, write_bytes. intros L. destruct (a <=? x) eqn:E, (x <? a + nlen l) eqn:F; cbn [andb]; try reflexivity; lia.
Qed.

Lemma place_sk_out s lay a sk mem x : sk_typed s sk -> ~ in_private_key s lay a x ->
  place_sk lay a sk mem x = mem x.
Proof.
  intros (E1 & E2 & E3 & E4) W. unfold place_sk, in_private_key in *. cbv zeta.
  rewrite !write_bytes_out; rewrite ?E1, ?E2, ?E3, ?E4; tauto.
Qed.

Lemma place_sk_stored s lay a sk mem : sk_typed s sk -> disjoint_fields s lay -> stored lay a sk (place_sk lay a sk mem).
Proof.
  intros (E1 & E2 & E3 & E4) (D1 & D2 & D3 & D4 & D5 & D6). unfold apart in *.
  unfold stored, found, place_sk. cbv zeta. rewrite E1, E2, E3, E4.
  refine (conj _ (conj _ (conj _ _))); intros i L;
    repeat first [apply write_bytes_in; rewrite ?E1, ?E2, ?E3, ?E4; exact L
                 |rewrite write_bytes_out by (unfold within; rewrite ?E1, ?E2, ?E3, ?E4; lia)].
Qed.

Lemma prop_seed_copies_survive_refuted :
  forall (T : Target) (P : Prims) (s : set_name) (skseed skprf pkseed : bytes) pk sk (lay : SkLayout) (d a : N) (mem : memory),
    nlen skseed = seed_bytes s -> nlen skprf = seed_bytes s -> nlen pkseed = seed_bytes s ->
    result (keygen_with_seeds (param_set s) skseed skprf pkseed) = Val (pk, sk) ->
    (forall x, within d (3 * seed_bytes s) x -> ~ in_private_key s lay a x) ->
    let before := keygen_with_seeds_memory (param_set s) lay d a skseed skprf pkseed sk mem in
    let after := drop_PrivateKey (param_set s) lay a before in
    (disjoint_fields s lay -> stored lay a sk before) /\
    (forall x, in_private_key s lay a x -> after x = x00) /\
    found after d (sk_seed sk) /\ found after (d + seed_bytes s) (sk_prf sk).
Proof.
  intros T P s x1 x2 x3 pk sk lay d a mem L1 L2 L3 K D.
  assert (TS : sk_typed s sk) by (apply wf_typed_sk; apply (key_pair_facts s pk sk); eapply kp_seeded; exact K).
  assert (E : sk_seed sk = x1 /\ sk_prf sk = x2).
  { pose proof (param_PF s) as HP. rewrite <- param_n in L1, L2, L3.
    destruct (runs_keygen_with_seeds _ HP x1 x2 x3 L1 L2 L3) as [V _].
    rewrite V in K. injection K as _ <-. split; reflexivity. }
  destruct E as [-> ->].
  destruct (prop_private_key_erased_on_drop s lay a (keygen_with_seeds_memory (param_set s) lay d a x1 x2 x3 sk mem)) as [Z F].
  cbv zeta. split; [exact (place_sk_stored s lay a sk _ TS)|]. split; [exact Z|].
  assert (Q : forall x, within d (3 * seed_bytes s) x ->
    drop_PrivateKey (param_set s) lay a (keygen_with_seeds_memory (param_set s) lay d a x1 x2 x3 sk mem) x
    = make_DummyRng (param_set s) d x1 x2 x3 mem x).
  { intros x W. rewrite (F x (D x W)). unfold keygen_with_seeds_memory, drop_DummyRng.
    apply (place_sk_out s); [exact TS|exact (D x W)]. }
  unfold found. rewrite L1, L2.
  split; intros i Hi; (rewrite Q by (unfold within; lia)); unfold make_DummyRng; cbv zeta; rewrite param_n.
  - rewrite write_bytes_out by (unfold within; lia). rewrite write_bytes_out by (unfold within; lia).
    apply write_bytes_in. lia.
  - rewrite write_bytes_out by (unfold within; lia). apply write_bytes_in. lia.
Qed.

Lemma prop_seed_copies_only_in_generator_partial :
  forall (T : Target) (P : Prims) (s : set_name) (skseed skprf pkseed : bytes) pk sk (lay : SkLayout) (d a : N) (mem : memory),
    nlen skseed = seed_bytes s -> nlen skprf = seed_bytes s -> nlen pkseed = seed_bytes s ->
    result (keygen_with_seeds (param_set s) skseed skprf pkseed) = Val (pk, sk) ->
    let after := drop_PrivateKey (param_set s) lay a (keygen_with_seeds_memory (param_set s) lay d a skseed skprf pkseed sk mem) in
    forall x, ~ within d (3 * seed_bytes s) x ->
      (in_private_key s lay a x -> after x = x00) /\ (~ in_private_key s lay a x -> after x = mem x).
Proof.
  intros T P s x1 x2 x3 pk sk lay d a mem L1 L2 L3 K after x D.
  assert (TS : sk_typed s sk) by (apply wf_typed_sk; apply (key_pair_facts s pk sk); eapply kp_seeded; exact K).
  destruct (prop_private_key_erased_on_drop s lay a (keygen_with_seeds_memory (param_set s) lay d a x1 x2 x3 sk mem)) as [Z F].
  split; [exact (Z x)|]. intros O. unfold after. rewrite (F x O). unfold keygen_with_seeds_memory, drop_DummyRng.
  rewrite (place_sk_out s) by assumption. unfold make_DummyRng. cbv zeta. rewrite param_n. unfold within in D.
  rewrite !write_bytes_out by (unfold within; rewrite ?L1, ?L2, ?L3; lia). reflexivity.
Qed.
