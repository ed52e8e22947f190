(** C66: the timing harness. *)
From Verif Require Import Spec.Fips205 Spec.Fips205Hash.
From Verif Require Import Model.Api Model.Dudect Proof.Facts Proof.HelpersP Proof.SpecP Proof.HashP Proof.Fun Proof.WotsP
  Proof.SlhP Proof.SerP Proof.ApiP
  Proof.SpecFun Spec.Vocab Proof.Summary Proof.CallsP Proof.TopCorrect Proof.TopSer Proof.TopTrace Proof.TopFraming
  Proof.TopFips Proof.TopPath Spec.VocabForge Proof.TopForge Proof.TopUnforge Proof.ToyTrace
  Spec.VocabLeak Spec.VocabPublic Proof.TopLeak.
Import ListNotations.
Open Scope list_scope.
Open Scope N_scope.

(** a signing run computes a secret value of the few-time key *)
Lemma signing_fors_call {T : Target} {P : Prims} s sk M sig t :
  signing_run s sk M sig t -> exists k q a inp, In (EHash k q a inp) t /\ a_type a = 6.
Proof.
  intros R. destruct (signing_shape _ _ _ _ _ R) as (r & g & mp & hedged & b & Em & Es & W & Cl & _).
  set (dg := sign_digest (hf_of (param_set s)) sk b (concat mp)).
  exists KPRF, (sk_pk_seed sk),
    (adr 0 (dg_tree (param_set s) dg) 6 (dg_leaf (param_set s) dg) 0 (fidx (param_set s) (dg_md (param_set s) dg) 0)),
    [sk_seed sk].
  split; [|unfold a_type, adr; cbn [f4]; reflexivity].
  apply In_calls_inv. rewrite Cl. apply in_or_app. right. unfold sign_calls. cbv zeta. fold dg.
  right. right. unfold sig_tailC. apply in_or_app. left. unfold fsigC. apply in_flat_map.
  exists 0. split; [|left; reflexivity].
  apply In_nrange. destruct s; vm_compute; reflexivity.
Qed.

(** the leakage of a signing run determines which tree and which leaf were used *)
Lemma leakage_position {T : Target} {P1 P2 : Prims} s sk1 sk2 M1 M2 sig1 sig2 t1 t2 :
  signing_run (P := P1) s sk1 M1 sig1 t1 -> signing_run (P := P2) s sk2 M2 sig2 t2 ->
  leakage t1 = leakage t2 ->
  sig_position (P := P1) s (get_public_key sk1) M1 sig1 0 =
  sig_position (P := P2) s (get_public_key sk2) M2 sig2 0.
Proof.
  intros R1 R2 E.
  assert (C1 : completed_run (P := P1) s (get_public_key sk1) M1 sig1 t1) by (destruct R1; constructor; assumption).
  assert (C2 : completed_run (P := P2) s (get_public_key sk2) M2 sig2 t2) by (destruct R2; constructor; assumption).
  pose proof (prop_indices_from_digest T P1 s (get_public_key sk1) M1 sig1 t1) as D1.
  pose proof (prop_indices_from_digest T P2 s (get_public_key sk2) M2 sig2 t2) as D2. cbv zeta in D1, D2.
  unfold sig_position, sig_digest.
  destruct (Fips205.split_digest (fips_params s) (H_msg (fips_hash (PR := P1) s) (block s sig1 0)
             (pk_seed (get_public_key sk1)) (pk_root (get_public_key sk1)) M1)) as [[md1 tr1] lf1].
  destruct (Fips205.split_digest (fips_params s) (H_msg (fips_hash (PR := P2) s) (block s sig2 0)
             (pk_seed (get_public_key sk2)) (pk_root (get_public_key sk2)) M2)) as [[md2 tr2] lf2].
  destruct D1 as [_ [_ [D1 _]]]. specialize (D1 C1). destruct D2 as [_ [_ [D2 _]]]. specialize (D2 C2).
  destruct (signing_fors_call (P := P1) _ _ _ _ _ R1) as (k & q & a & inp & I & Ty).
  destruct (D1 _ _ _ _ I) as (_ & _ & A1 & _ & _ & A2).
  apply (in_map observe) in I. change (map observe t1) with (leakage t1) in I. rewrite E in I.
  unfold leakage in I. apply in_map_iff in I. destruct I as [e [Oe Ie]].
  destruct e as [k' q' a' inp'| | | | | | | ]; cbn [observe] in Oe; try discriminate Oe.
  assert (a' = a) by congruence. subst a'.
  destruct (D2 _ _ _ _ Ie) as (_ & _ & B1 & _ & _ & B2).
  destruct A2 as [L A2]; [tauto|]. destruct B2 as [_ B2]; [tauto|]. rewrite L in A1, B1.
  unfold path_leaf. change (0 =? 0) with true. cbv iota. rewrite <- A1, <- B1, <- A2, <- B2. reflexivity.
Qed.

Section Harness.
Context {T : Target} {P : Prims}.
Notation p := (param_set SHA2_128s).

Lemma test_gives z : nlen z = 16 -> gives (TestRng z) tt 16 z tt.
Proof. intros L. unfold gives. cbn [TestRng try_fill]. unfold test_fill. rewrite L. reflexivity. Qed.

Lemma dudect_keygen z : nlen z = 16 ->
  try_keygen_with_rng p (TestRng z) tt =
    (tt, (trace_of (try_keygen_with_rng p (TestRng z)) tt, Val (key_of p z z z))).
Proof.
  intros L. pose proof (keygen_is _ (param_PF SHA2_128s) (r := TestRng z) tt) as D. unfold keygen_desc in D.
  cbv zeta in D. change (cN p) with 16 in D.
  pose proof (test_gives z L) as G. unfold gives in G. rewrite !G in D. cbn [fst snd] in D. rewrite !G in D.
  cbn [fst snd] in D. rewrite !G in D. cbn [fst snd] in D. destruct D as [_ [B _]].
  unfold trace_of. destruct (try_keygen_with_rng p (TestRng z) tt) as [[] [t o]].
  cbn [snd] in *. unfold result, trace in *. cbn [fst snd] in *. rewrite B. reflexivity.
Qed.

Lemma dudect_sign z sk : nlen z = 16 -> wf_sk p sk ->
  let f := try_sign_with_rng p (TestRng z) sk dudect_message [x00] true in
  f tt = (tt, (trace_of f tt, Val (sign_bytes p sk z (Fips205.pure_M' dudect_message [x00])))).
Proof.
  intros L W f. subst f.
  pose proof (try_sign_desc _ (param_PF SHA2_128s) (r := TestRng z) tt sk dudect_message [x00] true W) as D.
  destruct D as [_ [V _]]; [vm_compute; discriminate|].
  pose proof (test_gives z L) as G. unfold gives in G. cbn [draw] in V. change (cN p) with 16 in V.
  rewrite G in V. cbn [snd] in V. rewrite pure_pieces_M' in V.
  unfold trace_of. destruct (try_sign_with_rng p (TestRng z) sk dudect_message [x00] true tt) as [[] [t o]].
  cbn [snd] in *. unfold result, trace in *. cbn [fst snd] in *. rewrite V. reflexivity.
Qed.

Lemma dudect_round_eq z : nlen z = 16 ->
  let pk := fst (key_of p z z z) in
  let sk := snd (key_of p z z z) in
  dudect_round z tt =
    (tt, (trace_of (try_keygen_with_rng p (TestRng z)) tt ++
          trace_of (try_sign_with_rng p (TestRng z) sk dudect_message [x00] true) tt,
          Val (pk, sk, Some (sign_bytes p sk z (Fips205.pure_M' dudect_message [x00]))))).
Proof.
  intros L pk sk. unfold dudect_round. change slh_dsa_sha2_128s with p.
  rewrite dudect_keygen by exact L. unfold rbind, rlift, expect.
  change (snd (key_of p z z z)) with sk. change (fst (key_of p z z z)) with pk.
  assert (W : wf_sk p sk) by (apply (wf_key_of _ (param_PF SHA2_128s)); exact L).
  pose proof (dudect_sign z sk L W) as E. cbv zeta in E. rewrite E. reflexivity.
Qed.

Lemma dudect_closure_eq z : nlen z = 16 ->
  let pk := fst (key_of p z z z) in
  let sk := snd (key_of p z z z) in
  let sig := sign_bytes p sk z (Fips205.pure_M' dudect_message [x00]) in
  let round := trace_of (try_keygen_with_rng p (TestRng z)) tt ++
               trace_of (try_sign_with_rng p (TestRng z) sk dudect_message [x00] true) tt in
  dudect_closure z = (round ++ round, Val [(pk, sk, Some sig); (pk, sk, Some sig)]).
Proof.
  intros L pk sk sig round. unfold dudect_closure, rbind.
  pose proof (dudect_round_eq z L) as E. cbv zeta in E. fold pk sk round in E. fold sig in E.
  rewrite !E. cbn [rlift ret snd]. unfold rlift, ret. rewrite app_nil_r. reflexivity.
Qed.

End Harness.

Lemma named_dudect_harness :
  forall (T : Target) (P : Prims),
    (forall z, nlen z = 16 ->
       let KG := try_keygen_with_rng (param_set SHA2_128s) (TestRng z) in
       exists pk sk sig,
         let SG := try_sign_with_rng (param_set SHA2_128s) (TestRng z) sk dudect_message [x00] true in
         let round := trace_of KG tt ++ trace_of SG tt in
         call KG tt = Val (pk, sk) /\ call SG tt = Val sig /\
         sk_seed sk = z /\ sk_prf sk = z /\ sk_pk_seed sk = z /\
         result (verify (param_set SHA2_128s) pk dudect_message sig [x00]) = Val true /\
         dudect_closure z = (round ++ round, Val [(pk, sk, Some sig); (pk, sk, Some sig)])) /\
    (forall n, exists ts, keygen_and_sign n = Val ts /\ nlen ts = n /\
       forall i, i < n ->
         nth_error ts (N.to_nat i) =
           Some (N.even i, trace (dudect_closure (if N.even i then z_left else z_right)))).
Proof.
  intros T P. split.
  - intros z L KG. set (K := key_of (param_set SHA2_128s) z z z). exists (fst K), (snd K).
    exists (sign_bytes (param_set SHA2_128s) (snd K) z (Fips205.pure_M' dudect_message [x00])). intros SG round.
    pose proof (dudect_keygen z L) as E1.
    assert (V1 : call KG tt = Val (fst K, snd K)).
    { unfold call, KG. rewrite E1. cbn [snd result]. unfold K. rewrite <- surjective_pairing. reflexivity. }
    assert (W : wf_sk (param_set SHA2_128s) (snd K)) by (apply (wf_key_of _ (param_PF SHA2_128s)); exact L).
    pose proof (dudect_sign z (snd K) L W) as E2. cbv zeta in E2. fold SG in E2.
    assert (V2 : call SG tt = Val (sign_bytes (param_set SHA2_128s) (snd K) z (Fips205.pure_M' dudect_message [x00]))).
    { unfold call. rewrite E2. reflexivity. }
    split; [exact V1|]. split; [exact V2|]. do 3 (split; [reflexivity|]). split.
    + apply (prop_pure_signatures_verify T P SHA2_128s (fst K) (snd K) (kp_generated _ _ _ _ _ V1)
               (TestRng z) tt dudect_message [x00] true); [vm_compute; discriminate|exact V2].
    + apply (dudect_closure_eq z L).
  - intros n. set (zi := fun i => if N.even i then z_left else z_right).
    exists (map (fun i => (N.even i, trace (dudect_closure (zi i)))) (nrange n)).
    split; [|split].
    + unfold keygen_and_sign, dudect_inputs. induction (nrange n) as [|i l IH]; [reflexivity|].
      cbn [map].
      assert (Hz : (if N.even i then (true, z_left) else (false, z_right)) = (N.even i, zi i))
        by (unfold zi; destruct (N.even i); reflexivity).
      rewrite Hz. cbn [dudect_measure].
      assert (L : nlen (zi i) = 16) by (unfold zi; destruct (N.even i); vm_compute; reflexivity).
      pose proof (dudect_closure_eq (zi i) L) as E. cbv zeta in E. rewrite E. rewrite IH. reflexivity.
    + rewrite nlen_map. apply nlen_nrange.
    + intros i Hi. rewrite nth_error_map. unfold nrange. rewrite nth_error_nseq by lia.
      cbn [option_map]. rewrite N.add_0_l, N2Nat.id. reflexivity.
Qed.

(** hash functions that repeat the first byte of their input *)
Definition head_prims : Prims.
Proof.
  refine {| sha256 := fun x => nrepeat (hd x00 x) 32; sha512 := fun x => nrepeat (hd x00 x) 64;
            shake128 := fun x k => nrepeat (hd x00 x) k; shake256 := fun x k => nrepeat (hd x00 x) k |};
    intros; apply nlen_nrepeat.
Defined.

Lemma app_half {A} (x y z : list A) : x ++ z ++ x = y ++ z ++ y -> x = y.
Proof.
  intros E. assert (L : length x = length y).
  { apply (f_equal (@length A)) in E. rewrite !app_length in E. lia. }
  revert y E L. clear. intros y E L. revert E. generalize (z ++ x), (z ++ y).
  revert y L. induction x as [|a x IH]; intros [|b y] L u v E; cbn in *; try discriminate; [reflexivity|].
  injection E as -> E. f_equal. apply (IH y (f_equal pred L) u v E).
Qed.

Lemma prop_dudect_classes :
  forall (T : Target),
    (forall (P : Prims) (pk1 pk2 : SlhPublicKey) (sk1 sk2 : SlhPrivateKey) (sig1 sig2 : bytes) more1 more2,
       let M' := Fips205.pure_M' dudect_message [x00] in
       result (dudect_closure z_left) = Val ((pk1, sk1, Some sig1) :: more1) ->
       result (dudect_closure z_right) = Val ((pk2, sk2, Some sig2) :: more2) ->
       (public_view SHA2_128s pk1 M' sig1 = public_view SHA2_128s pk2 M' sig2 ->
        leakage (trace (dudect_closure z_left)) = leakage (trace (dudect_closure z_right))) /\
       (leakage (trace (dudect_closure z_left)) = leakage (trace (dudect_closure z_right)) ->
        sig_position SHA2_128s pk1 M' sig1 0 = sig_position SHA2_128s pk2 M' sig2 0)) /\
    (exists P : Prims,
       leakage (trace (dudect_closure (P := P) z_left)) <> leakage (trace (dudect_closure (P := P) z_right))).
Proof.
  intros T.
  assert (HA : forall (P : Prims) (pk1 pk2 : SlhPublicKey) (sk1 sk2 : SlhPrivateKey) (sig1 sig2 : bytes) more1 more2,
       let M' := Fips205.pure_M' dudect_message [x00] in
       result (dudect_closure z_left) = Val ((pk1, sk1, Some sig1) :: more1) ->
       result (dudect_closure z_right) = Val ((pk2, sk2, Some sig2) :: more2) ->
       (public_view SHA2_128s pk1 M' sig1 = public_view SHA2_128s pk2 M' sig2 ->
        leakage (trace (dudect_closure z_left)) = leakage (trace (dudect_closure z_right))) /\
       (leakage (trace (dudect_closure z_left)) = leakage (trace (dudect_closure z_right)) ->
        sig_position SHA2_128s pk1 M' sig1 0 = sig_position SHA2_128s pk2 M' sig2 0)).
  { intros P pk1 pk2 sk1 sk2 sig1 sig2 more1 more2 M' E1 E2.
    assert (L1 : nlen z_left = 16) by reflexivity. assert (L2 : nlen z_right = 16) by reflexivity.
    generalize dependent z_left. intros z1. generalize dependent z_right. intros z2 E2 L2 E1 L1.
    destruct (proj1 (named_dudect_harness T P) z1 L1) as (pk1' & sk1' & sig1' & K1 & S1 & _ & _ & _ & _ & X1).
    destruct (proj1 (named_dudect_harness T P) z2 L2) as (pk2' & sk2' & sig2' & K2 & S2 & _ & _ & _ & _ & X2).
    cbv zeta in *. rewrite X1 in E1 |- *. rewrite X2 in E2 |- *. unfold result in E1, E2. cbn [snd] in E1, E2.
    assert (A : pk1' = pk1 /\ sk1' = sk1 /\ sig1' = sig1) by (clear - E1; generalize dependent sig1'; intros; split_and; congruence).
    assert (B : pk2' = pk2 /\ sk2' = sk2 /\ sig2' = sig2) by (clear - E2; generalize dependent sig2'; intros; split_and; congruence).
    destruct A as (-> & -> & ->). destruct B as (-> & -> & ->). clear E1 E2 X1 X2.
    destruct (key_pair_facts _ _ _ (kp_generated SHA2_128s _ _ _ _ K1)) as [W1 [_ G1]].
    destruct (key_pair_facts _ _ _ (kp_generated SHA2_128s _ _ _ _ K2)) as [W2 [_ G2]].
    apply wf_typed_sk in W1. apply wf_typed_sk in W2. subst pk1 pk2.
    pose proof (proj1 (prop_keygen_leaks_nothing T P P SHA2_128s) _ _ _ _ _ _ K1 K2) as EK.
    pose proof (proj1 (prop_signing_leakage_is_public T P P SHA2_128s sk1 sk2 (TestRng z1) (TestRng z2) tt tt true sig1 sig2 W1 W2)
                  dudect_message dudect_message [x00] [x00] eq_refl eq_refl S1 S2) as ES.
    unfold trace. cbn [fst]. unfold leakage in *. rewrite !map_app. split.
    - intros V. rewrite (ES V), EK. reflexivity.
    - intros E. rewrite EK in E. rewrite <- !app_assoc in E. apply app_inv_head in E. apply app_half in E.
      apply (leakage_position (P1 := P) (P2 := P) SHA2_128s sk1 sk2 _ _ sig1 sig2 _ _
               (sign_pure SHA2_128s _ _ _ _ _ _ _ W1 S1) (sign_pure SHA2_128s _ _ _ _ _ _ _ W2 S2) E). }
  split; [exact HA|]. exists head_prims. intros E.
  pose proof (dudect_closure_eq (P := head_prims) z_left eq_refl) as X1.
  pose proof (dudect_closure_eq (P := head_prims) z_right eq_refl) as X2. cbv zeta in X1, X2.
  pose proof (HA head_prims _ _ _ _ _ _ _ _ (f_equal result X1) (f_equal result X2)) as [_ Y].
  specialize (Y E). clear E X1 X2 HA.
  assert (D : forall z, nlen z = 16 ->
    let K := key_of (P := head_prims) (param_set SHA2_128s) z z z in
    let M' := Fips205.pure_M' dudect_message [x00] in
    let sig := sign_bytes (P := head_prims) (param_set SHA2_128s) (snd K) z M' in
    block SHA2_128s sig 0 = PRF_msg (fips_hash (PR := head_prims) SHA2_128s) z z M').
  { intros z L K M' sig. unfold sig, sign_bytes.
    rewrite block_enc; [|apply (wf_n_sign_val _ (param_PF SHA2_128s))|vm_compute; reflexivity].
    rewrite <- param_hf. reflexivity. }
  unfold sig_position, sig_digest in Y.
  pose proof (D z_left eq_refl) as D1. pose proof (D z_right eq_refl) as D2. cbv zeta in D1, D2.
  rewrite D1, D2 in Y. clear D D1 D2.
  unfold key_of in Y. cbn [fst snd pk_seed pk_root] in Y.
  revert Y. generalize (Fips205.pure_M' dudect_message [x00]). intros M'.
  match goal with |- context [proot ?a ?b ?c ?d] => generalize (proot a b c d) end. intros r1.
  match goal with |- context [proot ?a ?b ?c ?d] => generalize (proot a b c d) end. intros r2.
  vm_compute. discriminate.
Qed.

Lemma prop_dudect_harness :
  forall (T : Target) (P : Prims),
    (forall z, nlen z = 16 ->
       let KG := try_keygen_with_rng (param_set SHA2_128s) (TestRng z) in
       exists pk sk sig,
         let SG := try_sign_with_rng (param_set SHA2_128s) (TestRng z) sk dudect_message [x00] true in
         let round := trace_of KG tt ++ trace_of SG tt in
         call KG tt = Val (pk, sk) /\ call SG tt = Val sig /\
         sk_seed sk = z /\ sk_prf sk = z /\ sk_pk_seed sk = z /\
         result (verify (param_set SHA2_128s) pk dudect_message sig [x00]) = Val true /\
         dudect_closure z = (round ++ round, Val [(pk, sk, Some sig); (pk, sk, Some sig)])) /\
    (forall n, exists ts, keygen_and_sign n = Val ts /\ nlen ts = n /\
       forall i, i < n ->
         nth_error ts (N.to_nat i) =
           Some (N.even i, trace (dudect_closure (if N.even i then z_left else z_right)))) /\
    map b2n dudect_message = [0; 1; 2; 3; 4; 5; 6; 7] /\
    z_left = repeat Coq.Init.Byte.xaa 16 /\ z_right = repeat Coq.Init.Byte.x55 16.
Proof.
  intros T P. destruct (named_dudect_harness T P) as [A B]. split; [exact A|]. split; [exact B|].
  split; [reflexivity|]. split; reflexivity.
Qed.
