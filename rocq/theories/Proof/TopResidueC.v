(** Copies of the private key that the C sign function leaves in memory. *)
From Verif Require Import Spec.Fips205 Spec.Fips205Hash.
From Verif Require Import Model.Residue Model.Ffi Spec.Vocab Spec.VocabMem Spec.VocabFfi Spec.VocabResidue Proof.Honest Proof.SlhP Proof.ApiP Proof.HashP Proof.Summary Proof.TopCorrect Proof.TopSafety Proof.TopZero Proof.TopOwn Proof.TopInter Proof.TopFfi Proof.TopC Proof.TopResidue.
Import ListNotations.
Open Scope N_scope.

Lemma found_same (mem mem' : memory) a l : (forall x, within a (nlen l) x -> mem' x = mem x) -> found mem a l -> found mem' a l.
Proof. intros K F i Hi. rewrite K by (unfold within; lia). apply F. exact Hi. Qed.

(** dropping a key changes a byte the same way whatever the rest of the memory is *)
Lemma drop_congr s lay a mem mem' x : mem x = mem' x ->
  drop_SlhPrivateKey (param_set s) lay a mem x = drop_SlhPrivateKey (param_set s) lay a mem' x.
Proof.
  intros E. destruct (in_dec lay s a x) as [W|W].
  - rewrite !(drop_in s) by exact W. reflexivity.
  - rewrite !(drop_out s) by exact W. exact E.
Qed.

Section S.
Context {T : Target} {P : Prims}.
Notation s := SHA2_128f.

(** what the call does to the memory, by outcome *)
Lemma sign_memory_cases lay im pl key_at sig_at (os : Rng) g buf len m skb o g' code out mem :
  c_message buf len m -> nlen skb = sk_size s -> found mem key_at skb ->
  ffi_sign os g (Some buf) len (Some skb) (Some o) = (g', FReturn code out) ->
  let made := ffi_sign_memory (param_set s) lay im pl key_at sig_at os g buf len mem in
  let i := import_memory (param_set s) lay im pl skb mem in
  (code = 3 /\ out = Some o /\ (exists e, result (sk_try_from_bytes (param_set s) skb) = Err e) /\ made = i) \/
  (code <> 3 /\ exists sk, result (sk_try_from_bytes (param_set s) skb) = Val sk /\
     ((code = 5 /\ out = Some o /\ made = drop_PrivateKey (param_set s) lay (pl_out pl) i) \/
      (code = 0 /\ exists sig, out = Some sig /\ nlen sig = sig_size s /\
         made = drop_PrivateKey (param_set s) lay (pl_out pl) (write_bytes sig_at sig i)))).
Proof.
  intros C L F E. cbv zeta. pose proof (sign_cases os g buf len m skb o g' code out C L E) as Cs.
  unfold ffi_sign_memory. rewrite (designated _ _ _ C). cbv zeta.
  rewrite param_sk, (read_found _ _ _ _ L F).
  unfold ffi_sign in E. rewrite (designated _ _ _ C) in E. change slh_dsa_sha2_128f with (param_set s) in E.
  destruct (result (sk_try_from_bytes (param_set s) skb)) as [sk|e|q] eqn:I.
  - right. destruct (try_sign (param_set s) os sk m [] true g) as [g1 r]. cbn [snd].
    apply pair_equal_spec in E. destruct E as [_ E].
    destruct (result r) as [sig|e|q] eqn:R.
    + apply ret_inv in E. destruct E as [Ec Eo]. destruct Cs as [[Cs _]|[_ [sig' [S1 [S2 _]]]]].
      * exfalso. rewrite Ec in Cs. destruct Cs as [Q|[Q|[]]]; discriminate Q.
      * split; [rewrite Ec; discriminate|]. exists sk. split; [reflexivity|]. right. split; [exact Ec|].
        exists sig. split; [exact Eo|]. rewrite Eo in S1. assert (Q : sig = sig') by congruence. rewrite Q. split; [exact S2|reflexivity].
    + apply ret_inv in E. destruct E as [Ec Eo]. split; [rewrite Ec; discriminate|]. exists sk. split; [reflexivity|].
      left. split; [exact Ec|]. split; [exact Eo|reflexivity].
    + discriminate E.
  - left. apply pair_equal_spec in E. destruct E as [_ E]. apply ret_inv in E. destruct E as [Ec Eo].
    split; [exact Ec|]. split; [exact Eo|]. split; [exists e; reflexivity|reflexivity].
  - apply pair_equal_spec in E. destruct E as [_ E]. discriminate E.
Qed.
End S.

Lemma prop_c_sign_copies_refuted :
  forall (T : Target) (P : Prims) (lay : SkLayout) (im : ImportPlaces) (pl : Places) (key_at sig_at : N) (os : Rng) (g g' : rng_st os)
         (buf : bytes) (len : Z) (m skb o : bytes) (code : N) (out : option bytes) (mem : memory),
    c_sign_places SHA2_128f lay im pl key_at sig_at -> c_message buf len m -> nlen skb = sk_size SHA2_128f -> found mem key_at skb ->
    ffi_sign os g (Some buf) len (Some skb) (Some o) = (g', FReturn code out) ->
    let after := wiped SHA2_128f key_at (ffi_sign_memory (param_set SHA2_128f) lay im pl key_at sig_at os g buf len mem) in
    found after (pl_seed pl) (sub_bytes skb 0 16) /\ found after (pl_prf pl) (sub_bytes skb 16 32) /\
    (code <> 3 -> exists sk, result (sk_try_from_bytes (param_set SHA2_128f) skb) = Val sk /\
       stored lay (im_sk im) sk after /\ stored lay (pl_built pl) sk after).
Proof.
  intros T P lay im pl key_at sig_at os g g' buf len m skb o code out mem [HD AP] C L F E. cbv zeta.
  assert (IP : import_places SHA2_128f lay im pl).
  { split; [exact HD|]. cbn [app] in AP. apply all_apart_cons in AP. apply proj2 in AP. apply all_apart_cons in AP. exact (proj2 AP). }
  destruct (prop_seeds_left_behind_refuted T P SHA2_128f lay (mkGenPlaces 0 0 0) im pl mem) as (_ & R1 & R2).
  assert (L64 : nlen skb = 64) by exact L.
  assert (L1 : nlen (sub_bytes skb 0 16) = 16) by (rewrite nlen_sub_bytes; lia).
  assert (L2 : nlen (sub_bytes skb 16 32) = 16) by (rewrite nlen_sub_bytes; lia).
  unfold call_regions in AP. cbn [app] in AP. open_apart AP.
  destruct (sign_memory_cases lay im pl key_at sig_at os g buf len m skb o g' code out mem C L F E)
    as [(Ec & _ & [e I] & ->)|(Nc & sk & I & D)].
  - destruct (R1 skb e IP L I) as [F1 F2]. change (seed_bytes SHA2_128f) with 16 in F1, F2. change (2 * 16) with 32 in F2.
    refine (conj _ (conj _ _)).
    + eapply found_same; [|exact F1]. rewrite L1. intros x W. apply wiped_out. sep.
    + eapply found_same; [|exact F2]. rewrite L2. intros x W. apply wiped_out. sep.
    + intros N. exfalso. exact (N Ec).
  - destruct (R2 skb sk IP L I) as (_ & F1 & F2 & F3 & F4). cbv zeta in F1, F2, F3, F4.
    assert (Q : sub_bytes skb 0 16 = sk_seed sk /\ sub_bytes skb 16 32 = sk_prf sk /\ sk_typed SHA2_128f sk).
    { rewrite <- param_sk in L. destruct (import_inv _ (param_PF SHA2_128f) skb sk L I) as [-> _].
      split; [reflexivity|]. split; [reflexivity|]. apply wf_typed_sk. apply (wf_sk_of_bytes _ (param_PF SHA2_128f)). exact L. }
    destruct Q as (Q1 & Q2 & TS). rewrite Q1, Q2 in *.
    set (i := import_memory (param_set SHA2_128f) lay im pl skb mem) in *.
    assert (K : forall x, ~ within key_at (sk_size SHA2_128f) x -> ~ within sig_at (sig_size SHA2_128f) x ->
      wiped SHA2_128f key_at (ffi_sign_memory (param_set SHA2_128f) lay im pl key_at sig_at os g buf len mem) x =
      drop_PrivateKey (param_set SHA2_128f) lay (pl_out pl) i x).
    { intros x N1 N2. rewrite wiped_out by exact N1. destruct D as [(_ & _ & ->)|(_ & sig & _ & Ls & ->)]; [reflexivity|].
      unfold drop_PrivateKey. apply drop_congr. rewrite write_bytes_out by (rewrite Ls; exact N2). reflexivity. }
    refine (conj _ (conj _ _)).
    + eapply found_same; [|exact F1]. rewrite L1. intros x W. apply K; sep.
    + eapply found_same; [|exact F2]. rewrite L2. intros x W. apply K; sep.
    + intros _. exists sk. split; [exact I|]. split.
      * apply (stored_same SHA2_128f lay (im_sk im) sk _ _ TS (fun x W => K x ltac:(sep) ltac:(sep)) F3).
      * apply (stored_same SHA2_128f lay (pl_built pl) sk _ _ TS (fun x W => K x ltac:(sep) ltac:(sep)) F4).
Qed.

Lemma prop_c_sign_writes_partial :
  forall (T : Target) (P : Prims) (lay : SkLayout) (im : ImportPlaces) (pl : Places) (key_at sig_at : N) (os : Rng) (g g' : rng_st os)
         (buf : bytes) (len : Z) (m skb o : bytes) (code : N) (out : option bytes) (mem : memory),
    c_sign_places SHA2_128f lay im pl key_at sig_at -> c_message buf len m -> nlen skb = sk_size SHA2_128f -> found mem key_at skb ->
    ffi_sign os g (Some buf) len (Some skb) (Some o) = (g', FReturn code out) ->
    let made := ffi_sign_memory (param_set SHA2_128f) lay im pl key_at sig_at os g buf len mem in
    let after := wiped SHA2_128f key_at made in
    (code = 0 -> exists sig, out = Some sig /\ found after sig_at sig) /\
    (code <> 0 -> out = Some o /\ forall x, within sig_at (sig_size SHA2_128f) x -> after x = mem x) /\
    found made key_at skb /\
    (forall x, within key_at (sk_size SHA2_128f) x \/ in_private_key SHA2_128f lay (im_test im) x \/
       (code = 3 /\ in_private_key SHA2_128f lay (im_sk im) x) \/ (code <> 3 /\ in_private_key SHA2_128f lay (pl_out pl) x) -> after x = x00) /\
    (forall x, ~ within key_at (sk_size SHA2_128f) x -> ~ within sig_at (sig_size SHA2_128f) x -> ~ in_call SHA2_128f lay pl x ->
       ~ in_private_key SHA2_128f lay (im_sk im) x -> ~ in_private_key SHA2_128f lay (im_test im) x -> ~ in_private_key SHA2_128f lay (pl_out pl) x ->
       after x = mem x).
Proof.
  intros T P lay im pl key_at sig_at os g g' buf len m skb o code out mem [HD AP] C L F E. cbv zeta.
  assert (IP : import_places SHA2_128f lay im pl).
  { split; [exact HD|]. cbn [app] in AP. apply all_apart_cons in AP. apply proj2 in AP. apply all_apart_cons in AP. exact (proj2 AP). }
  destruct (prop_seeds_left_only_in_call_partial T P SHA2_128f lay (mkGenPlaces 0 0 0) im pl mem) as (_ & R1 & R2).
  unfold call_regions in AP. cbn [app] in AP. open_apart AP.
  assert (NC : forall x, within key_at (sk_size SHA2_128f) x \/ within sig_at (sig_size SHA2_128f) x \/ in_private_key SHA2_128f lay (im_sk im) x \/
    in_private_key SHA2_128f lay (im_test im) x \/ in_private_key SHA2_128f lay (pl_out pl) x -> ~ in_call SHA2_128f lay pl x).
  { intros x W. unfold in_call. intros [V|[V|[V|V]]]; destruct W as [W|[W|[W|[W|W]]]]; revert V; sep. }
  destruct (sign_memory_cases lay im pl key_at sig_at os g buf len m skb o g' code out mem C L F E)
    as [(Ec & Eo & [e I] & ->)|(Nc & sk & I & D)].
  - pose proof (R1 skb e IP L I) as R. cbv zeta in R. set (i := import_memory (param_set SHA2_128f) lay im pl skb mem) in *.
    refine (conj _ (conj _ (conj _ (conj _ _)))).
    + intros Z. rewrite Z in Ec. discriminate Ec.
    + intros _. split; [exact Eo|]. intros x W. rewrite wiped_out by sep. apply R; [apply NC; tauto|sep|sep].
    + eapply found_same; [|exact F]. rewrite L. intros x W. apply R; [apply NC; tauto|sep|sep].
    + intros x [W|[W|[[_ W]|[N _]]]]; [apply wiped_in; exact W| | |exfalso; exact (N Ec)];
        rewrite wiped_out by sep; (apply R; [apply NC; tauto|tauto]).
    + intros x N1 N2 N3 N4 N5 N6. rewrite wiped_out by sep. apply R; assumption.
  - pose proof (R2 skb sk IP L I) as R. cbv zeta in R. set (i := import_memory (param_set SHA2_128f) lay im pl skb mem) in *.
    set (made := ffi_sign_memory (param_set SHA2_128f) lay im pl key_at sig_at os g buf len mem) in *.
    assert (K : forall x, ~ within sig_at (sig_size SHA2_128f) x -> made x = drop_PrivateKey (param_set SHA2_128f) lay (pl_out pl) i x).
    { intros x N2. destruct D as [(_ & _ & ->)|(_ & sig & _ & Ls & ->)]; [reflexivity|].
      unfold drop_PrivateKey. apply drop_congr. rewrite write_bytes_out by (rewrite Ls; exact N2). reflexivity. }
    refine (conj _ (conj _ (conj _ (conj _ _)))).
    + intros Z. destruct D as [(Ec & _)|(_ & sig & Eo & Ls & M)]; [rewrite Z in Ec; discriminate Ec|].
      exists sig. split; [exact Eo|]. intros j Hj.
      assert (W : within sig_at (sig_size SHA2_128f) (sig_at + j)) by (rewrite <- Ls; unfold within; lia).
      rewrite wiped_out by sep. rewrite M. unfold drop_PrivateKey. rewrite (drop_out SHA2_128f) by sep. apply write_bytes_in. exact Hj.
    + intros Z. destruct D as [(_ & Eo & M)|(Ec & _)]; [|exfalso; exact (Z Ec)].
      split; [exact Eo|]. intros x W. rewrite wiped_out by sep. rewrite M. apply R; [apply NC; tauto|sep..].
    + eapply found_same; [|exact F]. rewrite L. intros x W. rewrite K by sep. apply R; [apply NC; tauto|sep..].
    + intros x [W|[W|[[Z _]|[_ W]]]]; [apply wiped_in; exact W| |exfalso; exact (Nc Z)|];
        rewrite wiped_out by sep; rewrite K by sep; (apply R; [apply NC; tauto|sep|tauto]).
    + intros x N1 N2 N3 N4 N5 N6. rewrite wiped_out by sep. rewrite K by exact N2. apply R; assumption.
Qed.

(** places that meet the hypotheses *)
Lemma residue_toy_sign : c_sign_places SHA2_128f residue_layout residue_import residue_places 1600 2000.
Proof.
  split.
  { unfold disjoint_fields, apart. change (seed_bytes SHA2_128f) with 16.
    cbn [at_sk_seed at_sk_prf at_pk_seed at_pk_root residue_layout]. lia. }
  unfold all_apart, call_regions. cbn [app]. change (sig_size SHA2_128f) with 17088.
  repeat (constructor; [repeat (constructor; [intros x; far|]); constructor|]). constructor.
Qed.

Lemma prop_failed_keygen_leaves_seeds_refuted :
  forall (T : Target) (P : Prims) (s : set_name) (lay : SkLayout) (lo : GenPlaces) (pl : Places) (r : Rng) (g g1 : rng_st r)
         (a : bytes) (mem : memory),
    keygen_places s lay lo pl -> gives r g (seed_bytes s) a g1 ->
    let after := keygen_memory (param_set s) lay lo pl r g mem in
    (refuses r g1 (seed_bytes s) ->
       (exists e, call (try_keygen_with_rng (param_set s) r) g = Err e) /\ found after (lo_seed lo) a) /\
    (forall b g2, gives r g1 (seed_bytes s) b g2 -> refuses r g2 (seed_bytes s) ->
       (exists e, call (try_keygen_with_rng (param_set s) r) g = Err e) /\ found after (lo_seed lo) a /\ found after (lo_prf lo) b).
Proof.
  intros T P s lay lo pl r g g1 a mem [HD AP] E1. cbv zeta.
  unfold call_regions in AP. cbn [app] in AP. open_apart AP.
  pose proof (keygen_is _ (param_PF s) g) as D. unfold keygen_desc in D. cbv zeta in D.
  unfold call, keygen_memory, gives, refuses in *. rewrite <- (param_n s) in E1 |- *.
  rewrite E1 in D |- *. cbn [fst snd] in D. pose proof (try_fill_len _ _ _ _ _ E1) as L1. rewrite param_n in L1. split.
  - intros (g2 & e & E2). rewrite E2 in D |- *. cbn [fst snd] in D. split; [eexists; exact (proj1 (proj2 D))|].
    intros i Hi. apply write_bytes_in. exact Hi.
  - intros b g2 E2 (g3 & e & E3). rewrite E2 in D |- *. cbn [fst snd] in D. rewrite E3 in D |- *. cbn [fst snd] in D.
    pose proof (try_fill_len _ _ _ _ _ E2) as L2. rewrite param_n in L2.
    split; [eexists; exact (proj1 (proj2 D))|]. split.
    + eapply (write_found s); [exact L1|]. intros x W. apply (write_out s); [exact L2|sep].
    + intros i Hi. apply write_bytes_in. exact Hi.
Qed.
