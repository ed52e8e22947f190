(** Copies of the seeds that key generation and import leave in memory. *)
From Verif Require Import Spec.Fips205 Spec.Fips205Hash.
From Verif Require Import Model.Residue Model.Ffi Spec.Vocab Spec.VocabMem Spec.VocabResidue Proof.Honest Proof.SlhP Proof.ApiP Proof.HashP Proof.Summary Proof.TopCorrect Proof.TopSafety Proof.TopZero Proof.TopOwn Proof.TopInter.
Import ListNotations.
Open Scope N_scope.

Lemma all_apart_cons A l : all_apart (A :: l) -> Forall (fun B : N -> Prop => forall x, A x -> ~ B x) l /\ all_apart l.
Proof. intros H. inversion H as [|? ? F R]. split; assumption. Qed.

(** from all_apart [...] the pairs *)
Ltac pairs_of F := repeat (let H := fresh "AP" in apply Forall_cons_iff in F; destruct F as [H F]).
Ltac open_apart H :=
  repeat (let F := fresh "F" in apply all_apart_cons in H; destruct H as [F H]; pairs_of F; clear F); clear H.
(** an address of one region is not in another *)
Ltac sep := first [assumption | let V := fresh in intro V;
  match goal with
  | K : forall x, ?A x -> ~ ?B x, V : ?B ?y, W : ?A ?y |- _ => exact (K y W V)
  | K : forall x, ?A x -> ~ ?B x, V : ?A ?y, W : ?B ?y |- _ => exact (K y V W)
  end].

Lemma keygen_internal_memory_eq s lay pl dest sk mem : sk_typed s sk -> disjoint_fields s lay ->
  keygen_internal_memory (param_set s) lay pl dest sk mem =
  place_sk lay dest sk (place_sk lay (pl_built pl) sk
    (write_bytes (pl_pkseed pl) (sk_pk_seed sk) (write_bytes (pl_prf pl) (sk_prf sk) (write_bytes (pl_seed pl) (sk_seed sk) mem)))).
Proof.
  intros TS D. unfold keygen_internal_memory, move_PrivateKey. cbv zeta.
  rewrite (load_stored s lay (pl_built pl) sk); [reflexivity|exact TS|].
  apply (place_sk_stored s); assumption.
Qed.

Lemma keygen_internal_val {T : Target} {P : Prims} s a b c :
  result (slh_keygen_internal (param_set s) (HASHERS (param_set s)) a b c) =
  Val (snd (key_of (param_set s) a b c), fst (key_of (param_set s) a b c)).
Proof.
  apply (runs_slh_keygen_internal _ (param_PF s) _ _ (HASHERS_spec _ (param_PF s))).
Qed.

Section Res.
Context {T : Target} {P : Prims} (s : set_name) (lay : SkLayout).

Lemma drop_out a mem x : ~ in_private_key s lay a x -> drop_SlhPrivateKey (param_set s) lay a mem x = mem x.
Proof. apply zeroize_private. Qed.
Lemma drop_in a mem x : in_private_key s lay a x -> drop_SlhPrivateKey (param_set s) lay a mem x = x00.
Proof. apply zeroize_private. Qed.
Lemma write_out a l mem x : nlen l = seed_bytes s -> ~ within a (seed_bytes s) x -> write_bytes a l mem x = mem x.
Proof. intros <-. apply write_bytes_out. Qed.

Lemma write_found a l (mem mem' : memory) : nlen l = seed_bytes s ->
  (forall x, within a (seed_bytes s) x -> mem' x = write_bytes a l mem x) -> found mem' a l.
Proof. intros L K i Hi. rewrite K by (unfold within; lia). apply write_bytes_in. exact Hi. Qed.
Lemma place_found a sk mem mem' : sk_typed s sk -> disjoint_fields s lay ->
  (forall x, in_private_key s lay a x -> mem' x = place_sk lay a sk mem x) -> stored lay a sk mem'.
Proof. intros TS D K. apply (stored_same s lay a sk _ _ TS K). apply (place_sk_stored s); assumption. Qed.

(** strip the stores that do not reach x *)
Ltac peel := repeat first
  [ rewrite drop_out by sep
  | rewrite (place_sk_out s) by first [assumption | sep]
  | rewrite write_out by first [assumption | sep] ].

Lemma key_of_typed a b c : nlen a = seed_bytes s -> nlen b = seed_bytes s -> nlen c = seed_bytes s ->
  sk_typed s (snd (key_of (param_set s) a b c)).
Proof. rewrite <- param_n. intros A B C. apply wf_typed_sk. apply (wf_key_of _ (param_PF s) a b c A B C). Qed.

(** the memory of a key generation that succeeds *)
Lemma keygen_memory_eq lo pl r g pk sk mem : disjoint_fields s lay ->
  call (try_keygen_with_rng (param_set s) r) g = Val (pk, sk) ->
  sk_typed s sk /\ keygen_memory (param_set s) lay lo pl r g mem =
  place_sk lay (pl_out pl) sk (place_sk lay (pl_built pl) sk
    (write_bytes (pl_pkseed pl) (sk_pk_seed sk) (write_bytes (pl_prf pl) (sk_prf sk) (write_bytes (pl_seed pl) (sk_seed sk)
    (write_bytes (lo_pkseed lo) (sk_pk_seed sk) (write_bytes (lo_prf lo) (sk_prf sk) (write_bytes (lo_seed lo) (sk_seed sk) mem))))))).
Proof.
  intros HD E. pose proof (keygen_is _ (param_PF s) g) as D. unfold keygen_desc in D. unfold call in E. cbv zeta in D.
  unfold keygen_memory.
  destruct (try_fill r g (cN (param_set s))) as [g1 [a|e|q]] eqn:E1; cbn [fst snd] in D;
    [|destruct D as [_ [D _]]; rewrite D in E; discriminate E..].
  destruct (try_fill r g1 (cN (param_set s))) as [g2 [b|e|q]] eqn:E2; cbn [fst snd] in D;
    [|destruct D as [_ [D _]]; rewrite D in E; discriminate E..].
  destruct (try_fill r g2 (cN (param_set s))) as [g3 [c|e|q]] eqn:E3; cbn [fst snd] in D;
    [|destruct D as [_ [D _]]; rewrite D in E; discriminate E..].
  destruct D as [_ [D _]]. rewrite D in E. clear D. apply val_inv in E. apply (f_equal snd) in E. cbn [snd] in E.
  apply try_fill_len in E1, E2, E3. rewrite param_n in E1, E2, E3.
  pose proof (key_of_typed a b c E1 E2 E3) as TS. rewrite keygen_internal_val.
  cbv zeta. rewrite (keygen_internal_memory_eq s lay pl _ _ _ TS HD).
  rewrite E. split; [exact TS|reflexivity].
Qed.

Lemma import_memory_eq im pl bs mem : nlen bs = sk_size s -> disjoint_fields s lay ->
  (forall x, in_private_key s lay (im_sk im) x -> ~ in_call s lay pl x /\ ~ in_private_key s lay (im_test im) x) ->
  exists sk test blank, sk = sk_of_bytes (param_set s) bs /\ sk_typed s sk /\ sk_typed s test /\ sk_typed s blank /\
    test = snd (key_of (param_set s) (sk_seed sk) (sk_prf sk) (sk_pk_seed sk)) /\
    let m := place_sk lay (im_test im) test (place_sk lay (pl_built pl) test
      (write_bytes (pl_pkseed pl) (sk_pk_seed sk) (write_bytes (pl_prf pl) (sk_prf sk) (write_bytes (pl_seed pl) (sk_seed sk)
        (place_sk lay (im_sk im) sk (place_sk lay (im_sk im) blank mem)))))) in
    import_memory (param_set s) lay im pl bs mem =
    match result (sk_try_from_bytes (param_set s) bs) with
    | Val _ => drop_SlhPrivateKey (param_set s) lay (im_test im) (place_sk lay (pl_out pl) sk m)
    | _ => drop_SlhPrivateKey (param_set s) lay (im_sk im) (drop_SlhPrivateKey (param_set s) lay (im_test im) m)
    end.
Proof.
  intros L HD AP.
  assert (TS : sk_typed s (sk_of_bytes (param_set s) bs)).
  { apply wf_typed_sk. apply (wf_sk_of_bytes _ (param_PF s)). rewrite param_sk. exact L. }
  set (sk := sk_of_bytes (param_set s) bs) in *.
  pose proof TS as (L1 & L2 & L3 & L4).
  pose proof (key_of_typed _ _ _ L1 L2 L3) as TT.
  set (blank := mkSk (nrepeat x00 (cN (param_set s))) (nrepeat x00 (cN (param_set s))) (nrepeat x00 (cN (param_set s))) (nrepeat x00 (cN (param_set s)))).
  assert (TB : sk_typed s blank).
  { unfold sk_typed, blank. cbn [sk_seed sk_prf sk_pk_seed sk_pk_root]. rewrite nlen_nrepeat, param_n. auto. }
  exists sk, (snd (key_of (param_set s) (sk_seed sk) (sk_prf sk) (sk_pk_seed sk))), blank.
  split; [reflexivity|]. split; [exact TS|]. split; [exact TT|]. split; [exact TB|].
  split; [reflexivity|]. cbv zeta. unfold import_memory. cbv zeta.
  change (mkSk (sub_bytes bs 0 (cN (param_set s))) (sub_bytes bs (cN (param_set s)) (2 * cN (param_set s)))
           (sub_bytes bs (2 * cN (param_set s)) (3 * cN (param_set s))) (sub_bytes bs (3 * cN (param_set s)) (4 * cN (param_set s)))) with sk.
  fold blank. rewrite keygen_internal_val.
  rewrite (keygen_internal_memory_eq s lay pl _ _ _ TT HD).
  set (test := snd (key_of (param_set s) (sk_seed sk) (sk_prf sk) (sk_pk_seed sk))) in *.
  change (sk_seed test) with (sk_seed sk). change (sk_prf test) with (sk_prf sk). change (sk_pk_seed test) with (sk_pk_seed sk).
  unfold move_PrivateKey. rewrite (load_stored s lay (im_sk im) sk); [reflexivity|exact TS|].
  eapply (place_found (im_sk im) sk); [exact TS|exact HD|].
  intros x W. destruct (AP x W) as [NC NT]. unfold in_call in NC.
  assert (~ within (pl_seed pl) (seed_bytes s) x) by tauto. assert (~ within (pl_prf pl) (seed_bytes s) x) by tauto.
  assert (~ within (pl_pkseed pl) (seed_bytes s) x) by tauto. assert (~ in_private_key s lay (pl_built pl) x) by tauto.
  peel. reflexivity.
Qed.
End Res.

Ltac peel s := repeat first
  [ rewrite (drop_out s) by sep
  | rewrite (place_sk_out s) by first [assumption | sep]
  | rewrite (write_out s) by first [assumption | sep] ].

Lemma prop_seeds_left_behind_refuted :
  forall (T : Target) (P : Prims) (s : set_name) (lay : SkLayout) (lo : GenPlaces) (im : ImportPlaces) (pl : Places) (mem : memory),
    (** random key generation, and the key dropped *)
    (forall r g pk sk, keygen_places s lay lo pl -> call (try_keygen_with_rng (param_set s) r) g = Val (pk, sk) ->
       let made := keygen_memory (param_set s) lay lo pl r g mem in
       let after := drop_PrivateKey (param_set s) lay (pl_out pl) made in
       stored lay (pl_out pl) sk made /\
       found after (lo_seed lo) (sk_seed sk) /\ found after (lo_prf lo) (sk_prf sk) /\
       found after (pl_seed pl) (sk_seed sk) /\ found after (pl_prf pl) (sk_prf sk) /\
       stored lay (pl_built pl) sk after) /\
    (** a refused import *)
    (forall bs e, import_places s lay im pl -> nlen bs = sk_size s -> result (sk_try_from_bytes (param_set s) bs) = Err e ->
       let after := import_memory (param_set s) lay im pl bs mem in
       found after (pl_seed pl) (sub_bytes bs 0 (seed_bytes s)) /\
       found after (pl_prf pl) (sub_bytes bs (seed_bytes s) (2 * seed_bytes s))) /\
    (** an accepted import, and the key dropped *)
    (forall bs sk, import_places s lay im pl -> nlen bs = sk_size s -> result (sk_try_from_bytes (param_set s) bs) = Val sk ->
       let made := import_memory (param_set s) lay im pl bs mem in
       let after := drop_PrivateKey (param_set s) lay (pl_out pl) made in
       stored lay (pl_out pl) sk made /\
       found after (pl_seed pl) (sk_seed sk) /\ found after (pl_prf pl) (sk_prf sk) /\
       stored lay (im_sk im) sk after /\ stored lay (pl_built pl) sk after).
Proof.
  intros T P s lay lo im pl mem. split; [|split].
  - intros r g pk sk [HD AP] E made after. subst after. unfold made.
    destruct (keygen_memory_eq s lay lo pl r g pk sk mem HD E) as [TS ->].
    pose proof TS as (L1 & L2 & L3 & L4). cbn [app call_regions] in AP. unfold call_regions in AP. cbn [app] in AP. open_apart AP.
    unfold drop_PrivateKey. split; [apply (place_sk_stored s); assumption|].
    refine (conj _ (conj _ (conj _ (conj _ _))));
      first [eapply (write_found s); [assumption|] | eapply (place_found s); [assumption..|]];
      intros x W; peel s; reflexivity.
  - intros bs e [HD AP] L E. cbv zeta. unfold call_regions in AP. cbn [app] in AP. open_apart AP.
    destruct (import_memory_eq s lay im pl bs mem L HD) as (sk & test & blank & K & TS & TT & TB & _ & M).
    { intros x W. unfold in_call. split; [|sep]. intros [V|[V|[V|V]]]; revert V; sep. }
    cbv zeta in M. rewrite M, E. clear M. pose proof TS as (L1 & L2 & L3 & L4).
    replace (sub_bytes bs 0 (seed_bytes s)) with (sk_seed sk) by (rewrite K, <- param_n; reflexivity).
    replace (sub_bytes bs (seed_bytes s) (2 * seed_bytes s)) with (sk_prf sk) by (rewrite K, <- param_n; reflexivity).
    split; (eapply (write_found s); [assumption|]; intros x W; peel s; reflexivity).
  - intros bs sk [HD AP] L E. cbv zeta. unfold call_regions in AP. cbn [app] in AP. open_apart AP.
    destruct (import_memory_eq s lay im pl bs mem L HD) as (sk' & test & blank & K & TS & TT & TB & TE & M).
    { intros x W. unfold in_call. split; [|sep]. intros [V|[V|[V|V]]]; revert V; sep. }
    cbv zeta in M. rewrite M, E. clear M. pose proof TS as (L1 & L2 & L3 & L4).
    assert (Q : sk = sk' /\ test = sk).
    { rewrite <- param_sk in L. destruct (import_inv _ (param_PF s) bs sk L E) as [-> C]. split; [symmetry; exact K|].
      rewrite TE, <- K. unfold consistent in C. unfold key_of. cbn [snd]. rewrite K. rewrite <- C.
      destruct (sk_of_bytes (param_set s) bs); reflexivity. }
    destruct Q as [-> Q]. clear TE. subst test. unfold drop_PrivateKey. split.
    + eapply (place_found s); [assumption..|]. intros x W. peel s. reflexivity.
    + refine (conj _ (conj _ (conj _ _)));
      first [eapply (write_found s); [assumption|] | eapply (place_found s); [assumption..|]];
      intros x W; peel s; reflexivity.
Qed.

Lemma prop_seeds_left_only_in_call_partial :
  forall (T : Target) (P : Prims) (s : set_name) (lay : SkLayout) (lo : GenPlaces) (im : ImportPlaces) (pl : Places) (mem : memory),
    (** random key generation *)
    (forall r g, keygen_places s lay lo pl ->
       let made := keygen_memory (param_set s) lay lo pl r g mem in
       let after := drop_PrivateKey (param_set s) lay (pl_out pl) made in
       forall x, ~ in_locals s lo x ->
         (forall pk sk, call (try_keygen_with_rng (param_set s) r) g = Val (pk, sk) -> ~ in_call s lay pl x ->
            (in_private_key s lay (pl_out pl) x -> after x = x00) /\
            (~ in_private_key s lay (pl_out pl) x -> made x = mem x /\ after x = mem x)) /\
         ((forall k, call (try_keygen_with_rng (param_set s) r) g <> Val k) -> made x = mem x)) /\
    (** a refused import *)
    (forall bs e, import_places s lay im pl -> nlen bs = sk_size s -> result (sk_try_from_bytes (param_set s) bs) = Err e ->
       let after := import_memory (param_set s) lay im pl bs mem in
       forall x, ~ in_call s lay pl x ->
         (in_private_key s lay (im_sk im) x \/ in_private_key s lay (im_test im) x -> after x = x00) /\
         (~ in_private_key s lay (im_sk im) x -> ~ in_private_key s lay (im_test im) x -> after x = mem x)) /\
    (** an accepted import, and the key dropped *)
    (forall bs sk, import_places s lay im pl -> nlen bs = sk_size s -> result (sk_try_from_bytes (param_set s) bs) = Val sk ->
       let after := drop_PrivateKey (param_set s) lay (pl_out pl) (import_memory (param_set s) lay im pl bs mem) in
       forall x, ~ in_call s lay pl x -> ~ in_private_key s lay (im_sk im) x ->
         (in_private_key s lay (im_test im) x \/ in_private_key s lay (pl_out pl) x -> after x = x00) /\
         (~ in_private_key s lay (im_test im) x -> ~ in_private_key s lay (pl_out pl) x -> after x = mem x)).
Proof.
  intros T P s lay lo im pl mem. split; [|split].
  - intros r g [HD AP] made after x NL. unfold in_locals in NL.
    assert (~ within (lo_seed lo) (seed_bytes s) x) by tauto. assert (~ within (lo_prf lo) (seed_bytes s) x) by tauto.
    assert (~ within (lo_pkseed lo) (seed_bytes s) x) by tauto. split.
    + intros pk sk E NC. subst after. unfold made. unfold in_call in NC.
      destruct (keygen_memory_eq s lay lo pl r g pk sk mem HD E) as [TS ->]. pose proof TS as (L1 & L2 & L3 & L4).
      assert (~ within (pl_seed pl) (seed_bytes s) x) by tauto. assert (~ within (pl_prf pl) (seed_bytes s) x) by tauto.
      assert (~ within (pl_pkseed pl) (seed_bytes s) x) by tauto. assert (~ in_private_key s lay (pl_built pl) x) by tauto.
      split; [apply (drop_in s)|]. intros W. unfold drop_PrivateKey. split; peel s; reflexivity.
    + intros NV. subst after. unfold made. unfold call in NV.
      pose proof (keygen_is _ (param_PF s) g) as D. unfold keygen_desc in D. cbv zeta in D.
      unfold keygen_memory.
      destruct (try_fill r g (cN (param_set s))) as [g1 [a|e|q]] eqn:E1; cbn [fst snd] in D; [|reflexivity..].
      apply try_fill_len in E1. rewrite param_n in E1.
      destruct (try_fill r g1 (cN (param_set s))) as [g2 [b|e|q]] eqn:E2; cbn [fst snd] in D; [|cbv zeta; peel s; reflexivity..].
      apply try_fill_len in E2. rewrite param_n in E2.
      destruct (try_fill r g2 (cN (param_set s))) as [g3 [c|e|q]] eqn:E3; cbn [fst snd] in D; [|cbv zeta; peel s; reflexivity..].
      exfalso. exact (NV _ (proj1 (proj2 D))).
  - intros bs e [HD AP] L E. cbv zeta. intros x NC. unfold in_call in NC.
    unfold call_regions in AP. cbn [app] in AP. open_apart AP.
    destruct (import_memory_eq s lay im pl bs mem L HD) as (sk & test & blank & K & TS & TT & TB & _ & M).
    { intros y W. unfold in_call. split; [|sep]. intros [V|[V|[V|V]]]; revert V; sep. }
    cbv zeta in M. rewrite M, E. clear M. pose proof TS as (L1 & L2 & L3 & L4).
    assert (~ within (pl_seed pl) (seed_bytes s) x) by tauto. assert (~ within (pl_prf pl) (seed_bytes s) x) by tauto.
    assert (~ within (pl_pkseed pl) (seed_bytes s) x) by tauto. assert (~ in_private_key s lay (pl_built pl) x) by tauto.
    split.
    + intros [W|W]; [apply (drop_in s); exact W|]. peel s. apply (drop_in s); exact W.
    + intros W1 W2. peel s. reflexivity.
  - intros bs sk [HD AP] L E. cbv zeta. intros x NC NS. unfold in_call in NC.
    unfold call_regions in AP. cbn [app] in AP. open_apart AP.
    destruct (import_memory_eq s lay im pl bs mem L HD) as (sk' & test & blank & K & TS & TT & TB & _ & M).
    { intros y W. unfold in_call. split; [|sep]. intros [V|[V|[V|V]]]; revert V; sep. }
    cbv zeta in M. rewrite M, E. clear M. pose proof TS as (L1 & L2 & L3 & L4). unfold drop_PrivateKey.
    assert (~ within (pl_seed pl) (seed_bytes s) x) by tauto. assert (~ within (pl_prf pl) (seed_bytes s) x) by tauto.
    assert (~ within (pl_pkseed pl) (seed_bytes s) x) by tauto. assert (~ in_private_key s lay (pl_built pl) x) by tauto.
    split.
    + intros [W|W]; [|apply (drop_in s); exact W]. peel s. apply (drop_in s); exact W.
    + intros W1 W2. peel s. reflexivity.
Qed.

Lemma export_memory_eq {T : Target} s lay ex a sk SK mem : disjoint_fields s lay -> sk_typed s sk -> stored lay a sk mem ->
  result (sk_into_bytes (param_set s) sk) = Val SK ->
  nlen SK = sk_size s /\
  export_memory (param_set s) lay ex a mem =
  drop_SlhPrivateKey (param_set s) lay (ex_self ex)
    (write_bytes (ex_out ex) SK (write_bytes (ex_bytes ex) SK (place_sk lay (ex_self ex) sk mem))).
Proof.
  intros HD TS St E. split.
  - rewrite (proj1 (runs_sk_into_bytes _ (param_PF s) _ (typed_sk s _ TS))) in E. apply val_inv in E. rewrite E.
    rewrite <- param_sk. apply (nlen_sk_bytes _ (param_PF s)). exact (typed_sk s _ TS).
  - unfold export_memory, move_PrivateKey. rewrite (load_stored s lay a sk mem TS St).
    rewrite (load_stored s lay (ex_self ex) sk _ TS) by (apply (place_sk_stored s); assumption).
    rewrite E. reflexivity.
Qed.

Lemma prop_exported_keys_left_behind_refuted :
  forall (T : Target) (s : set_name) (lay : SkLayout) (ex : ExportPlaces) (a : N) (sk : SlhPrivateKey) (SK : bytes) (mem : memory),
    export_places s lay ex a -> sk_typed s sk -> stored lay a sk mem ->
    result (sk_into_bytes (param_set s) sk) = Val SK ->
    let after := export_memory (param_set s) lay ex a mem in
    stored lay a sk after /\ found after (ex_bytes ex) SK.
Proof.
  intros T s lay ex a sk SK mem [HD AP] TS St E. cbv zeta. open_apart AP.
  destruct (export_memory_eq s lay ex a sk SK mem HD TS St E) as [L ->]. split.
  - apply (stored_same s lay a sk mem); [exact TS| |exact St]. intros x W.
    rewrite (drop_out s) by sep. rewrite !write_bytes_out by (rewrite L; sep). rewrite (place_sk_out s) by first [assumption|sep].
    reflexivity.
  - intros i Hi. assert (W : within (ex_bytes ex) (sk_size s) (ex_bytes ex + i)) by (unfold within; lia).
    rewrite (drop_out s) by sep. rewrite write_bytes_out by (rewrite L; sep). apply write_bytes_in. exact Hi.
Qed.

Lemma prop_exported_keys_erased_partial :
  forall (T : Target) (s : set_name) (lay : SkLayout) (ex : ExportPlaces) (a : N) (sk : SlhPrivateKey) (SK : bytes) (mem : memory),
    export_places s lay ex a -> sk_typed s sk -> stored lay a sk mem ->
    result (sk_into_bytes (param_set s) sk) = Val SK ->
    let after := export_memory (param_set s) lay ex a mem in
    found after (ex_out ex) SK /\
    forall x, ~ within (ex_bytes ex) (sk_size s) x -> ~ within (ex_out ex) (sk_size s) x ->
      (in_private_key s lay (ex_self ex) x -> after x = x00) /\
      (~ in_private_key s lay (ex_self ex) x -> after x = mem x).
Proof.
  intros T s lay ex a sk SK mem [HD AP] TS St E. cbv zeta. open_apart AP.
  destruct (export_memory_eq s lay ex a sk SK mem HD TS St E) as [L ->]. split.
  - intros i Hi. assert (W : within (ex_out ex) (sk_size s) (ex_out ex + i)) by (unfold within; lia).
    rewrite (drop_out s) by sep. apply write_bytes_in. exact Hi.
  - intros x W1 W2. split; [apply (drop_in s)|]. intros W3.
    rewrite (drop_out s) by sep. rewrite !write_bytes_out by (rewrite L; assumption). apply (place_sk_out s); assumption.
Qed.

Lemma ffi_keygen_inv {T : Target} {P : Prims} (os : Rng) g g' po pr pb sb :
  ffi_keygen os g (Some po) (Some pr) = (g', FReturn SLH_DSA_OK (Some pb, Some sb)) ->
  exists pk sk, call (try_keygen_with_rng (param_set SHA2_128f) os) g = Val (pk, sk) /\
    result (sk_into_bytes (param_set SHA2_128f) sk) = Val sb.
Proof.
  unfold ffi_keygen, try_keygen, call. change slh_dsa_sha2_128f with (param_set SHA2_128f).
  destruct (try_keygen_with_rng (param_set SHA2_128f) os g) as [g1 m]. cbn [snd].
  destruct (result m) as [[pk sk]|e|q].
  - destruct (result (pk_into_bytes (param_set SHA2_128f) pk)) as [x|e|q]; [|intros E; apply pair_equal_spec in E; destruct E as [_ E]; discriminate E..].
    destruct (result (sk_into_bytes (param_set SHA2_128f) sk)) as [y|e|q] eqn:Y; [|intros E; apply pair_equal_spec in E; destruct E as [_ E]; discriminate E..].
    intros E. apply pair_equal_spec in E. destruct E as [_ E]. exists pk, sk. split; [reflexivity|].
    injection E as _ <-. exact Y.
  - intros E. apply pair_equal_spec in E. destruct E as [_ E]. discriminate E.
  - intros E. apply pair_equal_spec in E. destruct E as [_ E]. discriminate E.
Qed.

Lemma wiped_out s a mem x : ~ within a (sk_size s) x -> wiped s a mem x = mem x.
Proof. intros W. apply write_bytes_out. rewrite nlen_nrepeat. exact W. Qed.
Lemma wiped_in s a mem x : within a (sk_size s) x -> wiped s a mem x = x00.
Proof.
  intros [L1 L2]. replace x with (a + (x - a)) by lia. unfold wiped. rewrite write_bytes_in; [apply nth_repeat|].
  rewrite nlen_nrepeat. lia.
Qed.

Lemma ffi_keygen_memory_eq {T : Target} {P : Prims} lay lo pl ex (os : Rng) g mem pk sk SK :
  let s := SHA2_128f in
  c_keygen_places s lay lo pl ex -> call (try_keygen_with_rng (param_set s) os) g = Val (pk, sk) ->
  result (sk_into_bytes (param_set s) sk) = Val SK ->
  sk_typed s sk /\ nlen SK = sk_size s /\
  ffi_keygen_memory (param_set s) lay lo pl ex os g mem =
  drop_SlhPrivateKey (param_set s) lay (ex_self ex) (write_bytes (ex_out ex) SK (write_bytes (ex_bytes ex) SK (place_sk lay (ex_self ex) sk
    (place_sk lay (pl_out pl) sk (place_sk lay (pl_built pl) sk
      (write_bytes (pl_pkseed pl) (sk_pk_seed sk) (write_bytes (pl_prf pl) (sk_prf sk) (write_bytes (pl_seed pl) (sk_seed sk)
      (write_bytes (lo_pkseed lo) (sk_pk_seed sk) (write_bytes (lo_prf lo) (sk_prf sk) (write_bytes (lo_seed lo) (sk_seed sk) mem))))))))))).
Proof.
  intros s [HD _] E X. destruct (keygen_memory_eq s lay lo pl os g pk sk mem HD E) as [TS M].
  assert (St : stored lay (pl_out pl) sk (keygen_memory (param_set s) lay lo pl os g mem)).
  { rewrite M. apply (place_sk_stored s); assumption. }
  destruct (export_memory_eq s lay ex (pl_out pl) sk SK _ HD TS St X) as [L X'].
  split; [exact TS|]. split; [exact L|].
  unfold ffi_keygen_memory, try_keygen. unfold call in E. rewrite E. rewrite X', M. reflexivity.
Qed.

Lemma exported_seeds {T : Target} sk sb : sk_typed SHA2_128f sk -> result (sk_into_bytes (param_set SHA2_128f) sk) = Val sb ->
  sub_bytes sb 0 16 = sk_seed sk /\ sub_bytes sb 16 32 = sk_prf sk.
Proof.
  intros TS X. pose proof (typed_sk SHA2_128f _ TS) as WT.
  rewrite (proj1 (runs_sk_into_bytes _ (param_PF SHA2_128f) _ WT)) in X. apply val_inv in X. subst sb.
  pose proof (sk_of_bytes_bytes _ sk WT) as S.
  pose proof (f_equal sk_seed S) as S1. pose proof (f_equal sk_prf S) as S2. unfold sk_of_bytes in S1, S2.
  cbn [sk_seed sk_prf] in S1, S2. rewrite param_n in S1, S2. split; [exact S1|exact S2].
Qed.

Lemma prop_c_keygen_copies_refuted :
  forall (T : Target) (P : Prims) (lay : SkLayout) (lo : GenPlaces) (pl : Places) (ex : ExportPlaces) (os : Rng) (g g' : rng_st os)
         (po pr pb sb : bytes) (mem : memory),
    c_keygen_places SHA2_128f lay lo pl ex ->
    ffi_keygen os g (Some po) (Some pr) = (g', FReturn SLH_DSA_OK (Some pb, Some sb)) ->
    let after := wiped SHA2_128f (ex_out ex) (ffi_keygen_memory (param_set SHA2_128f) lay lo pl ex os g mem) in
    found after (lo_seed lo) (sub_bytes sb 0 16) /\ found after (lo_prf lo) (sub_bytes sb 16 32) /\
    found after (pl_seed pl) (sub_bytes sb 0 16) /\ found after (pl_prf pl) (sub_bytes sb 16 32) /\
    found after (ex_bytes ex) sb.
Proof.
  intros T P lay lo pl ex os g g' po pr pb sb mem HP E. cbv zeta.
  destruct (ffi_keygen_inv os g g' po pr pb sb E) as (pk & sk & K & X). clear E.
  destruct (ffi_keygen_memory_eq lay lo pl ex os g mem pk sk sb HP K X) as (TS & L & ->). destruct HP as [HD AP].
  unfold call_regions in AP. cbn [app] in AP. open_apart AP. pose proof TS as (L1 & L2 & L3 & L4).
  assert (Q : sub_bytes sb 0 16 = sk_seed sk /\ sub_bytes sb 16 32 = sk_prf sk).
  { exact (exported_seeds sk sb TS X). }
  destruct Q as [-> ->].
  refine (conj _ (conj _ (conj _ (conj _ _)))).
  1-4: eapply (write_found SHA2_128f); [assumption|]; intros x W; rewrite wiped_out by sep; rewrite (drop_out SHA2_128f) by sep;
       do 2 (rewrite write_bytes_out by (rewrite L; sep)); peel SHA2_128f; reflexivity.
  intros i Hi. assert (W : within (ex_bytes ex) (sk_size SHA2_128f) (ex_bytes ex + i)) by (unfold within; lia).
  rewrite wiped_out by sep. rewrite (drop_out SHA2_128f) by sep. rewrite write_bytes_out by (rewrite L; sep).
  apply write_bytes_in. exact Hi.
Qed.

Lemma prop_c_keygen_writes_partial :
  forall (T : Target) (P : Prims) (lay : SkLayout) (lo : GenPlaces) (pl : Places) (ex : ExportPlaces) (os : Rng) (g g' : rng_st os)
         (po pr pb sb : bytes) (mem : memory),
    c_keygen_places SHA2_128f lay lo pl ex ->
    ffi_keygen os g (Some po) (Some pr) = (g', FReturn SLH_DSA_OK (Some pb, Some sb)) ->
    let made := ffi_keygen_memory (param_set SHA2_128f) lay lo pl ex os g mem in
    let after := wiped SHA2_128f (ex_out ex) made in
    found made (ex_out ex) sb /\
    (forall x, within (ex_out ex) (sk_size SHA2_128f) x \/ in_private_key SHA2_128f lay (ex_self ex) x -> after x = x00) /\
    (forall x, ~ in_locals SHA2_128f lo x -> ~ in_call SHA2_128f lay pl x -> ~ in_private_key SHA2_128f lay (pl_out pl) x ->
       ~ within (ex_bytes ex) (sk_size SHA2_128f) x -> ~ within (ex_out ex) (sk_size SHA2_128f) x ->
       ~ in_private_key SHA2_128f lay (ex_self ex) x -> after x = mem x).
Proof.
  intros T P lay lo pl ex os g g' po pr pb sb mem HP E. cbv zeta.
  destruct (ffi_keygen_inv os g g' po pr pb sb E) as (pk & sk & K & X). clear E.
  destruct (ffi_keygen_memory_eq lay lo pl ex os g mem pk sk sb HP K X) as (TS & L & ->). destruct HP as [HD AP].
  unfold call_regions in AP. cbn [app] in AP. open_apart AP. pose proof TS as (L1 & L2 & L3 & L4).
  refine (conj _ (conj _ _)).
  - intros i Hi. assert (W : within (ex_out ex) (sk_size SHA2_128f) (ex_out ex + i)) by (unfold within; lia).
    rewrite (drop_out SHA2_128f) by sep. apply write_bytes_in. exact Hi.
  - intros x [W|W]; [apply wiped_in; exact W|]. rewrite wiped_out by sep. apply (drop_in SHA2_128f). exact W.
  - intros x N1 N2 N3 N4 N5 N6. unfold in_locals in N1. unfold in_call in N2.
    assert (~ within (lo_seed lo) (seed_bytes SHA2_128f) x) by tauto. assert (~ within (lo_prf lo) (seed_bytes SHA2_128f) x) by tauto.
    assert (~ within (lo_pkseed lo) (seed_bytes SHA2_128f) x) by tauto.
    assert (~ within (pl_seed pl) (seed_bytes SHA2_128f) x) by tauto. assert (~ within (pl_prf pl) (seed_bytes SHA2_128f) x) by tauto.
    assert (~ within (pl_pkseed pl) (seed_bytes SHA2_128f) x) by tauto. assert (~ in_private_key SHA2_128f lay (pl_built pl) x) by tauto.
    rewrite wiped_out by sep. rewrite (drop_out SHA2_128f) by sep. do 2 (rewrite write_bytes_out by (rewrite L; sep)).
    peel SHA2_128f. reflexivity.
Qed.

(** places that meet the hypotheses *)
Definition residue_export : ExportPlaces := mkExportPlaces 1600 1700 1800.
Definition residue_layout : SkLayout := mkSkLayout 0 16 32 48.
Definition residue_locals : GenPlaces := mkGenPlaces 1000 1016 1032.
Definition residue_import : ImportPlaces := mkImportPlaces 1100 1200.
Definition residue_places : Places := mkPlaces 1300 1316 1332 1400 1500.
Ltac far := unfold in_private_key, within; change (seed_bytes SHA2_128s) with 16; change (sk_size SHA2_128s) with 64;
  change (seed_bytes SHA2_128f) with 16; change (sk_size SHA2_128f) with 64;
  cbn [at_sk_seed at_sk_prf at_pk_seed at_pk_root pl_seed pl_prf pl_pkseed pl_built pl_out lo_seed lo_prf lo_pkseed im_sk im_test
       ex_self ex_bytes ex_out residue_layout residue_locals residue_import residue_places residue_export]; lia.
Lemma residue_toy :
  keygen_places SHA2_128s residue_layout residue_locals residue_places /\
  import_places SHA2_128s residue_layout residue_import residue_places /\
  export_places SHA2_128s residue_layout residue_export 1500.
Proof.
  assert (D : disjoint_fields SHA2_128s residue_layout).
  { unfold disjoint_fields, apart. change (seed_bytes SHA2_128s) with 16.
    cbn [at_sk_seed at_sk_prf at_pk_seed at_pk_root residue_layout]. lia. }
  split; [|split]; (split; [exact D|]); unfold all_apart, call_regions; cbn [app];
    repeat (constructor; [repeat (constructor; [intros x; far|]); constructor|]); constructor.
Qed.
Lemma residue_toy_c : c_keygen_places SHA2_128f residue_layout residue_locals residue_places residue_export.
Proof.
  split.
  { unfold disjoint_fields, apart. change (seed_bytes SHA2_128f) with 16.
    cbn [at_sk_seed at_sk_prf at_pk_seed at_pk_root residue_layout]. lia. }
  unfold all_apart, call_regions. cbn [app].
  repeat (constructor; [repeat (constructor; [intros x; far|]); constructor|]). constructor.
Qed.
