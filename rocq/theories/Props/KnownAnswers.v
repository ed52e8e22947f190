(** The known-answer tests of the crate. *)
From Coq Require Import String.
From Verif Require Import Spec.Fips205 Spec.Fips205Hash.
From Verif Require Import Model.Api Spec.Vocab Model.Kat Spec.VocabKat Proof.TopKat Proof.Toy.
Import ListNotations.
Open Scope list_scope.
Open Scope N_scope.

(** C76. The known-answer tests decide as the standard does. The tests that run the NIST vector files
    pass exactly if the file is labelled for SLH-DSA of FIPS 205 and the kind of test, and every
    case in a group named after one of the twelve parameter sets is right. A key-generation case is
    right if its seeds have n bytes and the keys are those of Algorithm 18. A signing case is right
    if the private key is one of Algorithm 18 and the signature is that of Algorithm 19 for the
    given n bytes of randomness, or for none in a deterministic group. A verification case is right
    if its verdict is that of Algorithm 20, where a public key of a wrong size counts as a refusal.
    Groups with any other name are skipped, right or wrong, and a missing file fails the test. A
    test with built-in vectors passes exactly if its seeds and randomness have n bytes and the
    recorded signature is that of Algorithm 19 for the key of Algorithm 18. *)
Theorem acvp_tests_decide :
  forall (T : Target) (P : Prims),
    (forall f : kat_file keygen_test, case_count f < 2 ^ 32 ->
       (result (run_keygen_tests (Some f)) = Val tt <-> labelled "keyGen" f /\ all_cases f keygen_answer)) /\
    (forall f : kat_file sign_test, case_count f < 2 ^ 32 ->
       (result (run_signing_tests (Some f)) = Val tt <-> labelled "sigGen" f /\ all_cases f sign_answer)) /\
    (forall f : kat_file verify_test, case_count f < 2 ^ 32 ->
       (result (run_verification_tests (Some f)) = Val tt <-> labelled "sigVer" f /\ all_cases f verify_answer)) /\
    (result (run_keygen_tests None) = Panic PUnwrap /\ result (run_signing_tests None) = Panic PUnwrap /\
     result (run_verification_tests None) = Panic PUnwrap).
Proof. exact prop_acvp_tests_decide. Qed.
Print Assumptions acvp_tests_decide.

(** a file with one case, for any name of a set; the recorded keys are SK and PK *)
Definition one_case (name : string) (SK PK : bytes) : kat_file keygen_test :=
  mkFile "SLH-DSA" "keyGen" "FIPS205" [mkGroup name false [mkKeygenTest (nrepeat x00 16) (nrepeat x00 16) (nrepeat x00 16) SK PK]].
(** with the keys of the standard the test passes, with an empty public key it fails; a misspelt set name
    makes the same wrong answer pass *)
Example acvp_tests_decide_applies :
  (exists SK PK, result (run_keygen_tests (T := debug64) (P := toy_prims) (Some (one_case "SLH-DSA-SHAKE-128f" SK PK))) = Val tt /\
     PK <> []) /\
  result (run_keygen_tests (T := debug64) (P := toy_prims) (Some (one_case "SLH-DSA-SHAKE-128f" [] []))) <> Val tt /\
  result (run_keygen_tests (T := debug64) (P := toy_prims) (Some (one_case "SLH-DSA-SHAKE-128F" [] []))) = Val tt.
Proof.
  destruct (acvp_tests_decide debug64 toy_prims) as [D _].
  assert (C : forall name SK PK, case_count (one_case name SK PK) < 2 ^ 32) by reflexivity.
  assert (Lb : forall name SK PK, labelled "keyGen" (one_case name SK PK)) by (repeat split; reflexivity).
  pose proof (standard_pk_nonempty debug64 toy_prims SHAKE_128f (nrepeat x00 16) (nrepeat x00 16) (nrepeat x00 16) eq_refl) as NE.
  destruct (Fips205.slh_keygen_internal (fips_params SHAKE_128f) (fips_hash (PR := toy_prims) SHAKE_128f)
              (nrepeat x00 16) (nrepeat x00 16) (nrepeat x00 16)) as [SK PK] eqn:E. cbn [snd] in NE.
  split; [|split].
  - exists SK, PK. split; [|exact NE]. apply (D _ (C _ _ _)). split; [apply Lb|].
    intros g s t [<-|[]] En [<-|[]]. assert (s = SHAKE_128f) as -> by (destruct s; discriminate || reflexivity).
    split; [reflexivity|]. split; [reflexivity|]. split; [reflexivity|exact E].
  - intros K. apply (D _ (C _ _ _)) in K. destruct K as [_ K].
    destruct (K _ SHAKE_128f _ (or_introl eq_refl) eq_refl (or_introl eq_refl)) as (_ & _ & _ & X).
    cbn [kt_sk_seed kt_sk_prf kt_pk_seed kt_sk kt_pk] in X. rewrite E in X. injection X as _ X. exact (NE X).
  - apply (D _ (C _ _ _)). split; [apply Lb|]. intros g s t [<-|[]] En _. destruct s; discriminate.
Qed.

(**  *)
Theorem vector_tests_decide :
  forall (T : Target) (P : Prims) (s : set_name) (m sk_seed sk_prf pk_seed opt_rand sig : bytes),
    let n := seed_bytes s in
    result (vector_test (param_set s) m sk_seed sk_prf pk_seed opt_rand sig) = Val tt <->
    nlen sk_seed = n /\ nlen sk_prf = n /\ nlen pk_seed = n /\ nlen opt_rand = n /\
    let (SK, PK) := Fips205.slh_keygen_internal (fips_params s) (fips_hash s) sk_seed sk_prf pk_seed in
    Fips205.slh_sign_internal (fips_params s) (fips_hash s) m SK (Some opt_rand) = sig.
Proof. exact prop_vector_tests_decide. Qed.
Print Assumptions vector_tests_decide.

(** with the signature of the standard the test passes *)
Example vector_tests_decide_applies :
  exists sig, result (vector_test (T := debug64) (P := toy_prims) (param_set SHA2_192s) toy_m (nrepeat x00 24) (nrepeat x00 24)
                        (nrepeat x00 24) (nrepeat x00 24) sig) = Val tt.
Proof.
  pose proof (fun sig => vector_tests_decide debug64 toy_prims SHA2_192s toy_m (nrepeat x00 24) (nrepeat x00 24)
                           (nrepeat x00 24) (nrepeat x00 24) sig) as D. cbv zeta in D.
  destruct (Fips205.slh_keygen_internal _ _ _ _ _) as [SK PK].
  eexists. apply D. do 4 (split; [reflexivity|]). reflexivity.
Qed.
