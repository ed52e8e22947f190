(** C83, C84: what a pre-hash signature and what a signature alone determine. *)
From Verif Require Import Spec.Fips205 Spec.Fips205Hash.
From Verif Require Import Model.Api Proof.Facts Proof.HashP Proof.Fun Proof.WotsP Proof.SlhP Proof.SerP Proof.ApiP
  Proof.SpecFun Proof.SpecP Proof.HelpersP Spec.Vocab Proof.Summary Proof.CallsP Proof.TopCorrect Proof.TopSer Proof.Honest Proof.PosP Proof.TopTrace Proof.TopFraming
  Proof.TopFips Proof.TopPath Proof.TopWots Proof.Forge Spec.VocabForge Proof.TopForge Proof.Bind Spec.VocabBind Proof.TopBind.
Import ListNotations.
Open Scope list_scope.
Open Scope N_scope.

Lemma same_digest_hash_message {T : Target} {P : Prims} ph m1 m2 : snd (PH_fn ph m1) = snd (PH_fn ph m2) ->
  hash_message m1 (ph_arg ph) (nrepeat x00 64) = hash_message m2 (ph_arg ph) (nrepeat x00 64).
Proof.
  destruct ph; cbn [PH_fn snd ph_arg]; intros E; unfold hash_message, hasher_update, hasher_new; cbn [app]; cbv zeta;
  rewrite ?nlen_nrepeat, E; reflexivity.
Qed.

Lemma prop_prehash_signs_digest_only :
  forall (T : Target) (P : Prims) (s : set_name) (r : Rng) (g : rng_st r) (sk : SlhPrivateKey) (pk : SlhPublicKey)
         (m1 m2 ctx sig : bytes) (ph : prehash) (hedged : bool),
    snd (PH_fn ph m1) = snd (PH_fn ph m2) ->
    let sign m := try_hash_sign_with_rng (param_set s) r sk m ctx (ph_arg ph) hedged in
    let check m := hash_verify (param_set s) pk m sig ctx (ph_arg ph) in
    (** the same signature, the same requests to the generator, the same steps *)
    call (sign m1) g = call (sign m2) g /\ gen_after (sign m1) g = gen_after (sign m2) g /\
    trace_of (sign m1) g = trace_of (sign m2) g /\
    (** the same answer, the same steps *)
    result (check m1) = result (check m2) /\ trace (check m1) = trace (check m2).
Proof.
  intros T P s r g sk pk m1 m2 ctx sig ph hedged E sign check.
  assert (ES : sign m1 = sign m2).
  { unfold sign, try_hash_sign_with_rng. rewrite (same_digest_hash_message ph m1 m2 E). reflexivity. }
  assert (EC : check m1 = check m2).
  { unfold check, hash_verify. rewrite (same_digest_hash_message ph m1 m2 E). reflexivity. }
  rewrite ES, EC. repeat split.
Qed.

Section Rebuild.
Context {T : Target} {P : Prims} (s : set_name).
Notation p := (param_set s).
Notation hf := (hf_of (param_set s)).

(** the root a signature leads to, from the public seed and the selection *)
Definition rebuild (seed sig : bytes) (sel : bytes * N * N) : bytes :=
  let '(md, it, il) := sel in
  let sg := dec_sig p sig in
  hval p hf seed it il (fun j => nth j (ht_sig sg) (mkXmssSig [] [])) (fpk p hf seed it il (fors_sig sg) md) (N.to_nat (cD p)).

Lemma vroot_rebuild pk M sig : vroot p hf (pk_seed pk) (verify_digest hf pk (dec_sig p sig) M) (dec_sig p sig)
  = rebuild (pk_seed pk) sig (sig_digest s pk M sig).
Proof. rewrite adigest_eq. rewrite (vdigest_eq s pk). reflexivity. Qed.

Lemma accept_rebuild pk M sig :
  verify_val p hf pk (dec_sig p sig) M = true <-> pk_root pk = rebuild (pk_seed pk) sig (sig_digest s pk M sig).
Proof.
  unfold verify_val. rewrite vroot_rebuild. set (X := rebuild _ _ _). clearbody X.
  rewrite bytes_eqb_eq. split; intros E; symmetry; exact E.
Qed.

Lemma fpk_leaves seed it il fs md1 md2 : (forall i, i < cK p -> fidx p md1 i = fidx p md2 i) ->
  fpk p hf seed it il fs md1 = fpk p hf seed it il fs md2.
Proof.
  intros E. unfold fpk, froots. f_equal. apply map_ext_in. intros i Hi. apply In_nrange in Hi. rewrite (E i Hi). reflexivity.
Qed.
End Rebuild.

Lemma prop_signature_determines_root :
  forall (T : Target) (P : Prims) (s : set_name),
    (** public seed, signature and selection determine the only root that is accepted *)
    (exists root_of : bytes -> bytes -> bytes * N * N -> bytes,
       forall pk M sig, nlen sig = sig_size s ->
         (result (raw_verify (param_set s) pk M sig) = Val true <->
          pk_root pk = root_of (pk_seed pk) sig (sig_digest s pk M sig))) /\
    (** so one signature cannot serve two keys with one public seed when the two message digests select
        the same leaf of every FORS tree *)
    (forall pk1 pk2 sig M1 M2 t1 t2,
       accepting_run s pk1 M1 sig t1 -> accepting_run s pk2 M2 sig t2 ->
       pk_seed pk1 = pk_seed pk2 ->
       (forall i, i < t_k (table2 s) -> fors_leaf s pk1 M1 sig i = fors_leaf s pk2 M2 sig i) ->
       pk1 = pk2).
Proof.
  intros T P s. pose proof (param_PF s) as HP. split.
  - exists (rebuild s). intros pk M sig L. rewrite <- param_sig in L.
    rewrite <- (accept_rebuild s pk M sig).
    rewrite (proj1 (runs_raw_verify _ HP pk M sig L)).
    set (b := verify_val _ _ _ _ _). clearbody b. split; [intros E; injection E; exact (fun z => z)|intros E; rewrite E; reflexivity].
  - intros pk1 pk2 sig M1 M2 t1 t2 A1 A2 Es Ef.
    destruct (accepting_shape _ _ _ _ _ A1) as [L [V1 _]]. destruct (accepting_shape _ _ _ _ _ A2) as [_ [V2 _]].
    apply accept_rebuild in V1. apply accept_rebuild in V2. rewrite adigest_eq in V1, V2.
    assert (Ef' : forall i, i < cK (param_set s) -> 
       (dg_tree (param_set s) (adg s pk1 M1 sig), dg_leaf (param_set s) (adg s pk1 M1 sig), fidx (param_set s) (dg_md (param_set s) (adg s pk1 M1 sig)) i) =
       (dg_tree (param_set s) (adg s pk2 M2 sig), dg_leaf (param_set s) (adg s pk2 M2 sig), fidx (param_set s) (dg_md (param_set s) (adg s pk2 M2 sig)) i)).
    { intros i Hi. rewrite <- !aleaf_eq by exact Hi. apply Ef. rewrite <- param_k. exact Hi. }
    clear Ef A1 A2. set (d1 := adg s pk1 M1 sig) in *. set (d2 := adg s pk2 M2 sig) in *. clearbody d1 d2.
    assert (R : pk_root pk1 = pk_root pk2).
    { rewrite V1, V2, Es. unfold rebuild.
      assert (K0 : 0 < cK (param_set s)) by (rewrite param_k; destruct s; reflexivity).
      pose proof (Ef' 0 K0) as E0. apply pair_equal_spec in E0. destruct E0 as [E0 _]. apply pair_equal_spec in E0. destruct E0 as [Et El].
      rewrite Et, El. f_equal. apply fpk_leaves. intros i Hi. specialize (Ef' i Hi). apply pair_equal_spec in Ef'. exact (proj2 Ef'). }
    destruct pk1 as [a1 b1], pk2 as [a2 b2]. cbn in Es, R. rewrite Es, R. reflexivity.
Qed.
