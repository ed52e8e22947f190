(** What the timing harness measures. *)
From Coq Require Import String.
From Verif Require Import Spec.Fips205 Spec.Fips205Hash.
From Verif Require Import Model.Api Spec.Vocab Spec.VocabLeak Spec.VocabForge Spec.VocabPublic Model.Dudect Proof.TopCorrect Proof.TopDudect Proof.ToyForge Proof.ToyDudect Proof.Toy.
Import ListNotations.
Open Scope list_scope.
Open Scope N_scope.

(** C66. What the timing harness measures. The timing harness never stops early: for any number of
    measurements it reports one per iteration, alternately of class left and right, and each
    measures two identical rounds of key generation and hedged signing (of the eight bytes 0 to 7
    with a single zero byte as context), all of which succeed and yield a signature that verifies.
    The key it exercises always has the same 16 bytes as secret seed, signing seed and public seed:
    all 0xAA on the left, all 0x55 on the right. The two classes leak the same through control flow
    and memory addresses (branches, loops, indices, hash addresses) if the values any verifier
    recomputes from the two signatures agree; conversely equal leakage forces both signatures to use
    the same hypertree leaf, and for some hash functions the leakage does differ. So a timing
    difference reported by the harness does not by itself show that a secret leaks: its classes also
    differ in public values. *)
Theorem dudect_harness :
  forall (T : Target) (P : Prims),
    (forall z, nlen z = 16 ->
       let KG := try_keygen_with_rng (param_set SHA2_128s) (TestRng z) in
       exists pk sk sig,
         let SG := try_sign_with_rng (param_set SHA2_128s) (TestRng z) sk dudect_message [x00] true in
         let round := trace_of KG tt ++ trace_of SG tt in
         call KG tt = Val (pk, sk) /\ call SG tt = Val sig /\
         sk_seed sk = z /\ sk_prf sk = z /\ sk_pk_seed sk = z /\
         result (verify (param_set SHA2_128s) pk dudect_message sig [x00]) = Val true /\
         dudect_closure z = (round ++ round, Val [(pk, sk, Some sig); (pk, sk, Some sig)])) /\
    (forall n, exists ts, keygen_and_sign n = Val ts /\ nlen ts = n /\
       forall i, i < n ->
         nth_error ts (N.to_nat i) =
           Some (N.even i, trace (dudect_closure (if N.even i then z_left else z_right)))) /\
    map b2n dudect_message = [0; 1; 2; 3; 4; 5; 6; 7] /\
    z_left = repeat Coq.Init.Byte.xaa 16 /\ z_right = repeat Coq.Init.Byte.x55 16.
Proof. exact prop_dudect_harness. Qed.
Print Assumptions dudect_harness.

(** the value of the left class, and three measurements *)
Example dudect_harness_applies :
  nlen z_left = 16 /\ z_left <> z_right /\
  exists ts t1 t2 t3, keygen_and_sign (T := debug64) (P := toy_prims) 3 = Val ts /\
    ts = [(true, t1); (false, t2); (true, t3)] /\ t1 = t3.
Proof.
  split; [reflexivity|]. split; [discriminate|].
  destruct (proj1 (proj2 (dudect_harness debug64 toy_prims)) 3) as (ts & E & L & K). exists ts.
  pose proof (K 0 eq_refl) as K0. pose proof (K 1 eq_refl) as K1. pose proof (K 2 eq_refl) as K2.
  change (N.to_nat 0) with 0%nat in K0. change (N.to_nat 1) with 1%nat in K1. change (N.to_nat 2) with 2%nat in K2.
  change (N.even 0) with true in K0. change (N.even 1) with false in K1. change (N.even 2) with true in K2.
  clear K. set (R := keygen_and_sign 3) in E |- *. clearbody R. set (a := trace _) in K0, K2. set (b := trace _) in K1. clearbody a b.
  destruct ts as [|x [|y [|z [|w ts]]]]; try (clear E; discriminate).
  2: { rewrite !nlen_cons in L. lia. }
  cbn [nth_error] in K0, K1, K2. injection K0 as ->. injection K1 as ->. injection K2 as ->.
  exists a, b, a. split; [exact E|]. split; reflexivity.
Qed.

(** C66. What the timing harness measures. The timing harness never stops early: for any number of
    measurements it reports one per iteration, alternately of class left and right, and each
    measures two identical rounds of key generation and hedged signing (of the eight bytes 0 to 7
    with a single zero byte as context), all of which succeed and yield a signature that verifies.
    The key it exercises always has the same 16 bytes as secret seed, signing seed and public seed:
    all 0xAA on the left, all 0x55 on the right. The two classes leak the same through control flow
    and memory addresses (branches, loops, indices, hash addresses) if the values any verifier
    recomputes from the two signatures agree; conversely equal leakage forces both signatures to use
    the same hypertree leaf, and for some hash functions the leakage does differ. So a timing
    difference reported by the harness does not by itself show that a secret leaks: its classes also
    differ in public values. *)
Theorem dudect_classes :
  forall (T : Target),
    (forall (P : Prims) (pk1 pk2 : SlhPublicKey) (sk1 sk2 : SlhPrivateKey) (sig1 sig2 : bytes) more1 more2,
       let M' := Fips205.pure_M' dudect_message [x00] in
       result (dudect_closure z_left) = Val ((pk1, sk1, Some sig1) :: more1) ->
       result (dudect_closure z_right) = Val ((pk2, sk2, Some sig2) :: more2) ->
       (public_view SHA2_128s pk1 M' sig1 = public_view SHA2_128s pk2 M' sig2 ->
        leakage (trace (dudect_closure z_left)) = leakage (trace (dudect_closure z_right))) /\
       (leakage (trace (dudect_closure z_left)) = leakage (trace (dudect_closure z_right)) ->
        sig_position SHA2_128s pk1 M' sig1 0 = sig_position SHA2_128s pk2 M' sig2 0)) /\
    (exists P : Prims,
       leakage (trace (dudect_closure (P := P) z_left)) <> leakage (trace (dudect_closure (P := P) z_right))).
Proof. exact prop_dudect_classes. Qed.
Print Assumptions dudect_classes.

(** both closures complete; with hash functions that ignore their input the public values agree *)
Example dudect_classes_applies :
  exists pk1 pk2 sk1 sk2 sig1 sig2 more1 more2,
    let M' := Fips205.pure_M' dudect_message [x00] in
    result (dudect_closure (T := debug64) (P := weak_prims) z_left) = Val ((pk1, sk1, Some sig1) :: more1) /\
    result (dudect_closure (T := debug64) (P := weak_prims) z_right) = Val ((pk2, sk2, Some sig2) :: more2) /\
    public_view (P := weak_prims) SHA2_128s pk1 M' sig1 = public_view (P := weak_prims) SHA2_128s pk2 M' sig2.
Proof.
  destruct (proj1 (dudect_harness debug64 weak_prims) z_left eq_refl) as (pk1 & sk1 & sig1 & _ & _ & _ & _ & _ & _ & X1).
  destruct (proj1 (dudect_harness debug64 weak_prims) z_right eq_refl) as (pk2 & sk2 & sig2 & _ & _ & _ & _ & _ & _ & X2).
  exists pk1, pk2, sk1, sk2, sig1, sig2. eexists. eexists. cbv zeta.
  split; [exact (f_equal result X1)|]. split; [exact (f_equal result X2)|]. apply weak_public_view.
Qed.
