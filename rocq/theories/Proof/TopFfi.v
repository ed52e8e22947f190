(** The C interface: C42, C43, C44. *)
From Coq Require Import String.
From Verif Require Import Spec.Fips205 Spec.Fips205Hash.
From Verif Require Import Model.Api Model.Ffi Proof.Facts Proof.ApiP Spec.Vocab Spec.VocabFfi Proof.Summary
  Proof.TopCorrect Proof.TopSafety Proof.TopFips Proof.TopKeys Proof.TopRandom.
Import ListNotations.
Open Scope list_scope.
Open Scope N_scope.

Lemma named_ffi_keygen_contract :
  forall (T : Target) (P : Prims) (os : Rng) (g : rng_st os) (pub priv : option bytes),
    let r := snd (ffi_keygen os g pub priv) in
    (pub = None \/ priv = None ->
       r = FReturn SLH_DSA_NULL_PTR_ERROR (pub, priv) /\ fst (ffi_keygen os g pub priv) = g) /\
    (pub <> None -> priv <> None ->
       (refuses os g 16 \/
        (exists a g1, gives os g 16 a g1 /\ refuses os g1 16) \/
        (exists a b g1 g2, gives os g 16 a g1 /\ gives os g1 16 b g2 /\ refuses os g2 16) ->
        r = FReturn SLH_DSA_KEYGEN_ERROR (pub, priv)) /\
       (forall a b c g1 g2 g3, gives os g 16 a g1 -> gives os g1 16 b g2 -> gives os g2 16 c g3 ->
        exists pk sk pkb skb,
          r = FReturn SLH_DSA_OK (Some pkb, Some skb) /\
          fst (ffi_keygen os g pub priv) = g3 /\
          Fips205.slh_keygen_internal (fips_params SHA2_128f) (fips_hash SHA2_128f) a b c = (skb, pkb) /\
          key_pair SHA2_128f pk sk /\
          result (pk_into_bytes (param_set SHA2_128f) pk) = Val pkb /\ nlen pkb = pk_size SHA2_128f /\
          result (sk_into_bytes (param_set SHA2_128f) sk) = Val skb /\ nlen skb = sk_size SHA2_128f)) /\
    (never_panics os -> exists code outs, r = FReturn code outs).
Proof.
  intros T P os g pub priv r. subst r.
  pose proof (prop_keygen_draws T P SHA2_128f os g) as D. cbv zeta in D.
  change (seed_bytes SHA2_128f) with 16 in D. destruct D as [D1 [D2 [D3 D4]]].
  assert (KG : try_keygen slh_dsa_sha2_128f os g = (gen_after (try_keygen_with_rng (param_set SHA2_128f) os) g,
             snd (try_keygen_with_rng (param_set SHA2_128f) os g))).
  { unfold gen_after. apply surjective_pairing. }
  split; [|split].
  - intros [->| ->]; [split; reflexivity|]. destruct pub; split; reflexivity.
  - intros N1 N2. destruct pub as [pb|]; [|contradiction]. destruct priv as [qb|]; [|contradiction].
    unfold ffi_keygen. rewrite KG. split.
    + intros C. unfold call in *.
      assert (E : exists e, result (snd (try_keygen_with_rng (param_set SHA2_128f) os g)) = Err e).
      { destruct C as [C|[(a & g1 & C1 & C2)|(a & b & g1 & g2 & C1 & C2 & C3)]]; eexists.
        - apply (D1 C). - apply (D2 _ _ C1 C2). - apply (D3 _ _ _ _ C1 C2 C3). }
      destruct E as [e ->]. reflexivity.
    + intros a b c g1 g2 g3 C1 C2 C3. destruct (D4 _ _ _ _ _ _ C1 C2 C3) as (pk & sk & E & _ & G & X).
      assert (K : key_pair SHA2_128f pk sk) by (eapply kp_generated; exact E).
      destruct (prop_output_sizes T P SHA2_128f) as [Z1 [Z2 Z3]]. destruct (Z3 _ _ _ _ E) as [W1 W2].
      destruct (Z1 _ W1) as [pkb [E1 L1]]. destruct (proj1 (Z2 _ W2)) as [skb [E2 L2]].
      exists pk, sk, pkb, skb. unfold call in E. rewrite E.
      unfold exported in X. rewrite E1, E2 in X.
      assert (E1' : result (pk_into_bytes slh_dsa_sha2_128f pk) = Val pkb) by exact E1.
      assert (E2' : result (sk_into_bytes slh_dsa_sha2_128f sk) = Val skb) by exact E2.
      cbn [snd fst]. rewrite E1', E2'. split; [reflexivity|]. split; [exact G|].
      split; [symmetry; exact (f_equal (fun o => match o with Some v => v | None => (skb, pkb) end) X)|].
      split; [exact K|]. split; [exact E1|]. split; [exact L1|]. split; [exact E2|exact L2].
  - intros Np. destruct pub as [pb|]; [|do 2 eexists; reflexivity].
    destruct priv as [qb|]; [|do 2 eexists; reflexivity].
    unfold ffi_keygen. rewrite KG. cbn [snd].
    destruct (prop_keygen_sign_import_never_panic T P SHA2_128f os g Np) as [N1 _]. unfold call in N1.
    destruct (result (snd (try_keygen_with_rng (param_set SHA2_128f) os g))) as [[pk sk]|e|q] eqn:E.
    + destruct (prop_output_sizes T P SHA2_128f) as [Z1 [Z2 Z3]]. destruct (Z3 _ _ _ _ E) as [W1 W2].
      destruct (Z1 _ W1) as [pkb [E1 L1]]. destruct (proj1 (Z2 _ W2)) as [skb [E2 L2]].
      assert (E1' : result (pk_into_bytes slh_dsa_sha2_128f pk) = Val pkb) by exact E1.
      assert (E2' : result (sk_into_bytes slh_dsa_sha2_128f sk) = Val skb) by exact E2.
      rewrite E1', E2'. do 2 eexists. reflexivity.
    + do 2 eexists. reflexivity.
    + exfalso. exact (N1 q eq_refl).
Qed.
Lemma prop_ffi_keygen_contract :
  forall (T : Target) (P : Prims) (os : Rng) (g : rng_st os) (pub priv : option bytes),
    let r := snd (ffi_keygen os g pub priv) in
    (pub = None \/ priv = None ->
       r = FReturn 1 (pub, priv) /\ fst (ffi_keygen os g pub priv) = g) /\
    (pub <> None -> priv <> None ->
       (refuses os g 16 \/
        (exists a g1, gives os g 16 a g1 /\ refuses os g1 16) \/
        (exists a b g1 g2, gives os g 16 a g1 /\ gives os g1 16 b g2 /\ refuses os g2 16) ->
        r = FReturn 4 (pub, priv)) /\
       (forall a b c g1 g2 g3, gives os g 16 a g1 -> gives os g1 16 b g2 -> gives os g2 16 c g3 ->
        exists pk sk pkb skb,
          r = FReturn 0 (Some pkb, Some skb) /\
          fst (ffi_keygen os g pub priv) = g3 /\
          Fips205.slh_keygen_internal (fips_params SHA2_128f) (fips_hash SHA2_128f) a b c = (skb, pkb) /\
          key_pair SHA2_128f pk sk /\
          result (pk_into_bytes (param_set SHA2_128f) pk) = Val pkb /\ nlen pkb = pk_size SHA2_128f /\
          result (sk_into_bytes (param_set SHA2_128f) sk) = Val skb /\ nlen skb = sk_size SHA2_128f)) /\
    (never_panics os -> exists code outs, r = FReturn code outs).
Proof. exact named_ffi_keygen_contract. Qed.

Lemma designated {T : Target} buf len m : c_message buf len m -> from_raw_parts (Some buf) len = RSlice m.
Proof.
  intros (C1 & -> & C2 & C3). unfold from_raw_parts.
  replace ((len <? 0)%Z) with false by (symmetry; apply Z.ltb_ge; exact C1).
  replace ((Z.of_N (2 ^ usize_bits) <=? len)%Z) with false
    by (symmetry; apply Z.leb_gt; set (X := 2 ^ usize_bits) in *; clearbody X; lia).
  cbn [orb]. replace (Z.to_N len <=? nlen buf) with true by (symmetry; apply N.leb_le; exact C2). reflexivity.
Qed.

Lemma named_ffi_verify_contract :
  forall (T : Target) (P : Prims) (len : Z) (pk sig : option bytes),
    (forall buf, pk = None \/ sig = None ->
       ffi_verify buf len pk sig = FReturn SLH_DSA_NULL_PTR_ERROR tt) /\
    (forall buf m pkb sigb, c_message buf len m ->
       pk = Some pkb -> nlen pkb = pk_size SHA2_128f -> sig = Some sigb -> nlen sigb = sig_size SHA2_128f ->
       ffi_verify (Some buf) len pk sig =
         FReturn (if Fips205.slh_verify (fips_params SHA2_128f) (fips_hash SHA2_128f) m sigb [] pkb
                  then SLH_DSA_OK else SLH_DSA_VERIFY_ERROR) tt).
Proof.
  intros T P len pk sig. split.
  - intros buf [->| ->]; [reflexivity|]. destruct pk; reflexivity.
  - intros buf m pkb sigb C -> L1 -> L2. unfold ffi_verify. rewrite (designated _ _ _ C).
    destruct (proj1 (prop_public_key_round_trip T P SHA2_128f) _ L1) as [k [E1 [W E2]]].
    replace (result (pk_try_from_bytes slh_dsa_sha2_128f pkb)) with (Val k) by (symmetry; exact E1).
    pose proof (prop_verify_is_fips T P SHA2_128f k pkb m sigb [] W E2 L2) as V.
    replace (result (verify slh_dsa_sha2_128f k m sigb [])) with
      (Val (Fips205.slh_verify (fips_params SHA2_128f) (fips_hash SHA2_128f) m sigb [] pkb)) by (symmetry; exact V).
    destruct (Fips205.slh_verify _ _ _ _ _ _); reflexivity.
Qed.
Lemma prop_ffi_verify_contract :
  forall (T : Target) (P : Prims) (len : Z) (pk sig : option bytes),
    (forall buf, pk = None \/ sig = None ->
       ffi_verify buf len pk sig = FReturn 1 tt) /\
    (forall buf m pkb sigb, c_message buf len m ->
       pk = Some pkb -> nlen pkb = pk_size SHA2_128f -> sig = Some sigb -> nlen sigb = sig_size SHA2_128f ->
       ffi_verify (Some buf) len pk sig =
         FReturn (if Fips205.slh_verify (fips_params SHA2_128f) (fips_hash SHA2_128f) m sigb [] pkb
                  then 0 else 6) tt).
Proof. exact named_ffi_verify_contract. Qed.

Lemma named_ffi_sign_contract :
  forall (T : Target) (P : Prims) (os : Rng) (g : rng_st os) (len : Z) (sk out : option bytes),
    (forall buf, buf = None \/ sk = None \/ out = None ->
       ffi_sign os g buf len sk out = (g, FReturn SLH_DSA_NULL_PTR_ERROR out)) /\
    (forall buf m skb, c_message buf len m -> sk = Some skb -> nlen skb = sk_size SHA2_128f -> out <> None ->
       let SKseed := sub_bytes skb 0 16 in
       let SKprf := sub_bytes skb 16 32 in
       let PKseed := sub_bytes skb 32 48 in
       let PKroot := sub_bytes skb 48 64 in
       let '(_, PK) := Fips205.slh_keygen_internal (fips_params SHA2_128f) (fips_hash SHA2_128f) SKseed SKprf PKseed in
       (PK <> PKseed ++ PKroot ->
          ffi_sign os g (Some buf) len sk out = (g, FReturn SLH_DSA_DESERIALIZATION_ERROR out)) /\
       (PK = PKseed ++ PKroot -> refuses os g 16 ->
          snd (ffi_sign os g (Some buf) len sk out) = FReturn SLH_DSA_SIGN_ERROR out) /\
       (PK = PKseed ++ PKroot -> forall b g', gives os g 16 b g' ->
          exists sig,
            ffi_sign os g (Some buf) len sk out = (g', FReturn SLH_DSA_OK (Some sig)) /\
            nlen sig = sig_size SHA2_128f /\
            Some sig = Fips205.slh_sign (fips_params SHA2_128f) (fips_hash SHA2_128f) m [] skb (Some (Some b)) /\
            ffi_verify (Some buf) len (Some PK) (Some sig) = FReturn SLH_DSA_OK tt)).
Proof.
  intros T P os g len sk out. split.
  - intros buf C. unfold ffi_sign. destruct sk as [skb|]; [|reflexivity]. destruct out as [o|]; [|reflexivity].
    destruct C as [->|[C|C]]; [reflexivity|discriminate..].
  - intros buf m skb C -> L No. destruct out as [o|]; [|contradiction]. clear No. cbv zeta.
    pose proof (prop_import_accepts_exactly_consistent_keys T P SHA2_128f skb L) as I. cbv zeta in I.
    change (seed_bytes SHA2_128f) with 16 in I. change (2 * 16) with 32 in I. change (3 * 16) with 48 in I.
    change (4 * 16) with 64 in I.
    destruct (Fips205.slh_keygen_internal (fips_params SHA2_128f) (fips_hash SHA2_128f) (sub_bytes skb 0 16)
                (sub_bytes skb 16 32) (sub_bytes skb 32 48)) as [SK0 PK] eqn:K.
    destruct I as [I1 I2]. unfold ffi_sign. rewrite (designated _ _ _ C).
    set (k := mkSk (sub_bytes skb 0 16) (sub_bytes skb 16 32) (sub_bytes skb 32 48) (sub_bytes skb 48 64)) in *.
    split; [|split].
    + intros N. replace (result (sk_try_from_bytes slh_dsa_sha2_128f skb)) with (@Err SlhPrivateKey "Corrupted key"%string)
        by (symmetry; exact (I2 N)). reflexivity.
    + intros E R. specialize (I1 E).
      replace (result (sk_try_from_bytes slh_dsa_sha2_128f skb)) with (Val k) by (symmetry; exact I1).
      assert (W : sk_typed SHA2_128f k).
      { apply wf_typed_sk. apply (key_pair_facts SHA2_128f _ _ (kp_imported _ _ _ L I1)). }
      pose proof (proj2 (prop_private_key_round_trip T P SHA2_128f) _ _ L I1) as Ex.
      pose proof (prop_hedged_signing_draws_once T P SHA2_128f os g k skb m [] PH_SHA256 W Ex ltac:(discriminate)) as D.
      cbv zeta in D. destruct (PH_fn PH_SHA256 m) as [oid dg].
      destruct (D _ _ (or_introl (conj eq_refl eq_refl))) as [_ [_ [_ D4]]]. specialize (D4 R).
      unfold call in D4. unfold try_sign.
      destruct (try_sign_with_rng slh_dsa_sha2_128f os k m [] true g) as [g1 r] eqn:S.
      change (param_set SHA2_128f) with slh_dsa_sha2_128f in D4. rewrite S in D4. cbn [snd] in *. rewrite D4. reflexivity.
    + intros E b g' G. specialize (I1 E).
      replace (result (sk_try_from_bytes slh_dsa_sha2_128f skb)) with (Val k) by (symmetry; exact I1).
      pose proof (kp_imported _ _ _ L I1) as KP.
      assert (W : sk_typed SHA2_128f k).
      { apply wf_typed_sk. apply (key_pair_facts SHA2_128f _ _ KP). }
      pose proof (proj2 (prop_private_key_round_trip T P SHA2_128f) _ _ L I1) as Ex.
      pose proof (prop_hedged_signing_draws_once T P SHA2_128f os g k skb m [] PH_SHA256 W Ex ltac:(discriminate)) as D.
      cbv zeta in D. destruct (PH_fn PH_SHA256 m) as [oid dg].
      destruct (D _ _ (or_introl (conj eq_refl eq_refl))) as [_ [D2 [D3 _]]]. specialize (D3 _ _ G).
      unfold gives in G. change (seed_bytes SHA2_128f) with 16 in D2. rewrite G in D2. cbn [fst] in D2.
      destruct (prop_pure_signatures_verify T P SHA2_128f _ _ KP os g m [] true ltac:(discriminate)) as [V _].
      destruct (V _ D3) as [Ls Vs].
      pose proof (prop_sign_is_fips T P SHA2_128f os g k skb m [] true W Ex) as F. rewrite D3 in F. cbn [ok] in F.
      unfold addrnd in F. change (seed_bytes SHA2_128f) with 16 in F. rewrite G in F. cbn [snd ok] in F.
      eexists. split; [|split; [exact Ls|split; [exact F|]]].
      * unfold try_sign. unfold call, gen_after in *. change (param_set SHA2_128f) with slh_dsa_sha2_128f in *.
        destruct (try_sign_with_rng slh_dsa_sha2_128f os k m [] true g) as [g1 r] eqn:S. cbn [snd fst] in *.
        rewrite D3, D2. reflexivity.
      * destruct (prop_public_key_round_trip T P SHA2_128f) as [_ RT].
        assert (Wp : pk_typed SHA2_128f (get_public_key k)).
        { apply wf_typed_pk. destruct (key_pair_facts SHA2_128f _ _ KP) as [[_ [_ W3]] _]. exact W3. }
        destruct (RT _ Wp) as [pkb [E1 [L1 _]]].
        pose proof (proj2 (prop_get_public_key_matches T P SHA2_128f) _ _ L I1) as E3. rewrite E1 in E3.
        assert (EP : PK = pkb).
        { rewrite E. assert (X : pkb = sub_bytes skb (pk_size SHA2_128f) (2 * pk_size SHA2_128f)) by congruence.
          rewrite X. change (pk_size SHA2_128f) with 32. change (2 * 32) with 64.
          change (sk_size SHA2_128f) with 64 in L.
          rewrite sub_bytes_split by lia. reflexivity. }
        rewrite EP, (proj2 (named_ffi_verify_contract T P len (Some pkb) _) buf m pkb _ C eq_refl L1 eq_refl Ls).
        rewrite (prop_verify_is_fips T P SHA2_128f _ pkb m _ [] Wp E1 Ls) in Vs.
        assert (Q : forall x : bool, Val x = Val true -> x = true) by congruence. rewrite (Q _ Vs). reflexivity.
Qed.
Lemma prop_ffi_sign_contract :
  forall (T : Target) (P : Prims) (os : Rng) (g : rng_st os) (len : Z) (sk out : option bytes),
    (forall buf, buf = None \/ sk = None \/ out = None ->
       ffi_sign os g buf len sk out = (g, FReturn 1 out)) /\
    (forall buf m skb, c_message buf len m -> sk = Some skb -> nlen skb = sk_size SHA2_128f -> out <> None ->
       let SKseed := sub_bytes skb 0 16 in
       let SKprf := sub_bytes skb 16 32 in
       let PKseed := sub_bytes skb 32 48 in
       let PKroot := sub_bytes skb 48 64 in
       let '(_, PK) := Fips205.slh_keygen_internal (fips_params SHA2_128f) (fips_hash SHA2_128f) SKseed SKprf PKseed in
       (PK <> PKseed ++ PKroot ->
          ffi_sign os g (Some buf) len sk out = (g, FReturn 3 out)) /\
       (PK = PKseed ++ PKroot -> refuses os g 16 ->
          snd (ffi_sign os g (Some buf) len sk out) = FReturn 5 out) /\
       (PK = PKseed ++ PKroot -> forall b g', gives os g 16 b g' ->
          exists sig,
            ffi_sign os g (Some buf) len sk out = (g', FReturn 0 (Some sig)) /\
            nlen sig = sig_size SHA2_128f /\
            Some sig = Fips205.slh_sign (fips_params SHA2_128f) (fips_hash SHA2_128f) m [] skb (Some (Some b)) /\
            ffi_verify (Some buf) len (Some PK) (Some sig) = FReturn 0 tt)).
Proof. exact named_ffi_sign_contract. Qed.

(** *** C44: sign reports a null message pointer, verify does not *)
Lemma named_ffi_null_message_sign_partial :
  forall (T : Target) (P : Prims) (os : Rng) (g : rng_st os) (len : Z) (sk out : option bytes),
    ffi_sign os g None len sk out = (g, FReturn SLH_DSA_NULL_PTR_ERROR out).
Proof. intros T P os g len [skb|] [o|]; reflexivity. Qed.
Lemma prop_ffi_null_message_sign_partial :
  forall (T : Target) (P : Prims) (os : Rng) (g : rng_st os) (len : Z) (sk out : option bytes),
    ffi_sign os g None len sk out = (g, FReturn 1 out).
Proof. exact named_ffi_null_message_sign_partial. Qed.

Lemma named_ffi_null_message_verify_refuted :
  exists (len : Z) (pk sig : bytes), nlen pk = pk_size SHA2_128f /\ nlen sig = sig_size SHA2_128f /\
    (forall (T : Target) (P : Prims),
       ffi_verify None len (Some pk) (Some sig) <> FReturn SLH_DSA_NULL_PTR_ERROR tt) /\
    (forall (T : Target) (P : Prims), ffi_verify None len (Some pk) (Some sig) = FUB).
Proof.
  exists 0%Z, (nrepeat (n2b 0) (pk_size SHA2_128f)), (nrepeat (n2b 0) (sig_size SHA2_128f)).
  split; [apply nlen_nrepeat|]. split; [apply nlen_nrepeat|].
  assert (U : forall (T : Target) (P : Prims),
    ffi_verify None 0%Z (Some (nrepeat (n2b 0) (pk_size SHA2_128f))) (Some (nrepeat (n2b 0) (sig_size SHA2_128f))) = FUB).
  { intros T P. unfold ffi_verify, from_raw_parts.
    replace ((0 <? 0)%Z) with false by reflexivity.
    replace ((Z.of_N (2 ^ usize_bits) <=? 0)%Z) with false; [reflexivity|].
    symmetry. apply Z.leb_gt. pose proof (pow2_nz usize_bits). set (X := 2 ^ usize_bits) in *. clearbody X. lia. }
  split; [|exact U]. intros T P. rewrite U. discriminate.
Qed.
Lemma prop_ffi_null_message_verify_refuted :
  exists (len : Z) (pk sig : bytes), nlen pk = pk_size SHA2_128f /\ nlen sig = sig_size SHA2_128f /\
    (forall (T : Target) (P : Prims),
       ffi_verify None len (Some pk) (Some sig) <> FReturn 1 tt) /\
    (forall (T : Target) (P : Prims), ffi_verify None len (Some pk) (Some sig) = FUB).
Proof. exact named_ffi_null_message_verify_refuted. Qed.

(** a negative length ends the process in both functions *)
Lemma prop_ffi_negative_length_aborts :
  forall (T : Target) (P : Prims) (os : Rng) (g : rng_st os) (len : Z) (buf key sig : bytes),
    (len < 0)%Z ->
    snd (ffi_sign os g (Some buf) len (Some key) (Some sig)) = FAbort /\
    ffi_verify (Some buf) len (Some key) (Some sig) = FAbort.
Proof.
  intros T P os g len buf key sig C.
  assert (R : from_raw_parts (Some buf) len = RAbort).
  { unfold from_raw_parts. replace ((len <? 0)%Z) with true by (symmetry; apply Z.ltb_lt; exact C). reflexivity. }
  unfold ffi_sign, ffi_verify. rewrite R. split; reflexivity.
Qed.
