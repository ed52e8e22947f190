(** Model of the known-answer tests of the crate: tests/nist_acvp_vectors/mod.rs (run by
    tests/integration.rs) and tests/py_vectors.rs. Reading a file, parsing JSON and decoding hexadecimal are
    not modelled: a test gets what they yield, and a file that cannot be decoded makes it panic. What the
    tests print is left out. *)
From Coq Require Import String.
From Verif Require Export Model.Api Model.Examples.
Import ListNotations.
Open Scope list_scope.
Open Scope N_scope.

(** tests/nist_acvp_vectors/mod.rs:27-56, tests/py_vectors.rs:6-37 [TestRng]: the strings pushed, the last
    one first *)
Definition vec_fill (st : list bytes) (len : N) : list bytes * outcome bytes :=
  match st with
  | [] => ([], Panic PUnwrap)
  | x :: st => if nlen x =? len then (st, Val x) else (st, Panic PCopyLen)
  end.

Lemma vec_fill_len st len st' b : vec_fill st len = (st', Val b) -> nlen b = len.
Proof.
  unfold vec_fill. destruct st as [|x st]; [discriminate|].
  destruct (nlen x =? len) eqn:E; [|discriminate]. apply N.eqb_eq in E. congruence.
Qed.

(** tests/nist_acvp_vectors/mod.rs:27-56, tests/py_vectors.rs:6-37 [TestRng] as a generator *)
Definition VecRng : Rng := mkRng (list bytes) vec_fill vec_fill_len.

(** tests/nist_acvp_vectors/mod.rs:60-72 [KeyGenTest], 173-183 [SignTest], 294-304 [VerifyTest]; the case
    number and the reason are only printed *)
Record keygen_test := mkKeygenTest {
  kt_sk_seed : bytes; kt_sk_prf : bytes; kt_pk_seed : bytes; kt_sk : bytes; kt_pk : bytes }.
(** tests/nist_acvp_vectors/mod.rs:173-183 [SignTest] *)
Record sign_test := mkSignTest {
  st_sk : bytes; st_randomness : bytes; st_message : bytes; st_signature : bytes }.
(** tests/nist_acvp_vectors/mod.rs:294-304 [VerifyTest] *)
Record verify_test := mkVerifyTest {
  vt_passed : bool; vt_pk : bytes; vt_message : bytes; vt_signature : bytes }.

(** the members of a vector file that the tests read (tests/nist_acvp_vectors/mod.rs:109-114, 229-235,
    354-359); "deterministic" is read by the signing test only *)
Record kat_group (A : Type) := mkGroup { kg_set : string; kg_deterministic : bool; kg_tests : list A }.
(** tests/nist_acvp_vectors/mod.rs:103-114, 224-235, 349-359 *)
Record kat_file (A : Type) := mkFile {
  kf_algorithm : string; kf_mode : string; kf_revision : string; kf_groups : list (kat_group A) }.
Arguments mkGroup {A}. Arguments kg_set {A}. Arguments kg_deterministic {A}. Arguments kg_tests {A}.
Arguments mkFile {A}. Arguments kf_algorithm {A}. Arguments kf_mode {A}. Arguments kf_revision {A}.
Arguments kf_groups {A}.

(** the match on the parameter set, tests/nist_acvp_vectors/mod.rs:114-166, 236-287, 360-411 *)
Definition kat_params (name : string) : option Params :=
  if String.eqb name "SLH-DSA-SHA2-128s" then Some slh_dsa_sha2_128s
  else if String.eqb name "SLH-DSA-SHAKE-128s" then Some slh_dsa_shake_128s
  else if String.eqb name "SLH-DSA-SHA2-128f" then Some slh_dsa_sha2_128f
  else if String.eqb name "SLH-DSA-SHAKE-128f" then Some slh_dsa_shake_128f
  else if String.eqb name "SLH-DSA-SHA2-192s" then Some slh_dsa_sha2_192s
  else if String.eqb name "SLH-DSA-SHAKE-192s" then Some slh_dsa_shake_192s
  else if String.eqb name "SLH-DSA-SHA2-192f" then Some slh_dsa_sha2_192f
  else if String.eqb name "SLH-DSA-SHAKE-192f" then Some slh_dsa_shake_192f
  else if String.eqb name "SLH-DSA-SHA2-256s" then Some slh_dsa_sha2_256s
  else if String.eqb name "SLH-DSA-SHAKE-256s" then Some slh_dsa_shake_256s
  else if String.eqb name "SLH-DSA-SHA2-256f" then Some slh_dsa_sha2_256f
  else if String.eqb name "SLH-DSA-SHAKE-256f" then Some slh_dsa_shake_256f
  else None.

Section Kat.
Context {T : Target} {P : Prims}.

(** [fail_count += 1] (tests/nist_acvp_vectors/mod.rs:96, 216, 341); an i32, written here as its 32 bits *)
Definition count_failure (c : N) : M N :=
  if c =? 2 ^ 31 - 1 then (if overflow_checks then panic PAdd else ret (2 ^ 31))
  else ret ((c + 1) mod 2 ^ 32).

(** the loops over the cases of a group (tests/nist_acvp_vectors/mod.rs:76, 187, 308) *)
Fixpoint kat_cases {A} (passes : A -> M bool) (l : list A) (c : N) : M N :=
  match l with
  | [] => ret c
  | t :: l =>
      b <- passes t ;;
      c <- (if b then ret c else count_failure c) ;;
      kat_cases passes l c
  end.

(** the loops over the groups (tests/nist_acvp_vectors/mod.rs:112-167, 232-288, 357-412); a group of an
    unknown set is reported and skipped *)
Fixpoint kat_groups {A} (passes : Params -> bool -> A -> M bool) (l : list (kat_group A)) (c : N) : M N :=
  match l with
  | [] => ret c
  | g :: l =>
      c <- match kat_params (kg_set g) with
           | Some p => kat_cases (passes p (kg_deterministic g)) (kg_tests g) c
           | None => ret c
           end ;;
      kat_groups passes l c
  end.

(** the frame the three tests have in common (tests/nist_acvp_vectors/mod.rs:104-112 and 168, 225-232 and
    289, 350-357 and 413); None is a file that cannot be opened or parsed *)
Definition run_kat {A} (mode : string) (passes : Params -> bool -> A -> M bool) (file : option (kat_file A)) : M unit :=
  match file with
  | None => panic PUnwrap
  | Some f =>
      assert_ (String.eqb (kf_algorithm f) "SLH-DSA") ;;;
      assert_ (String.eqb (kf_mode f) mode) ;;;
      assert_ (String.eqb (kf_revision f) "FIPS205") ;;;
      c <- kat_groups passes (kf_groups f) 0 ;;
      assert_ (c =? 0)
  end.

(** tests/nist_acvp_vectors/mod.rs:80-97, one case of [test_keygen!] *)
Definition keygen_case (p : Params) (_ : bool) (t : keygen_test) : M bool :=
  let rnd := [kt_sk_seed t; kt_sk_prf t; kt_pk_seed t] in
  '(pk, sk) <- expect (snd (try_keygen_with_rng p VecRng rnd)) ;;
  pkb <- pk_into_bytes p pk ;;
  let pk_match := bytes_eqb pkb (kt_pk t) in
  skb <- sk_into_bytes p sk ;;
  let sk_match := bytes_eqb skb (kt_sk t) in
  branch (pk_match && sk_match).

(** slice.try_into().expect(..) to a reference to an array of [len] bytes
    (tests/nist_acvp_vectors/mod.rs:193, 319, 326) *)
Definition into_array (len : N) (bs : bytes) : M bytes := if nlen bs =? len then ret bs else panic PUnwrap.

(** tests/nist_acvp_vectors/mod.rs:191-217, one case of [test_sign!] *)
Definition sign_case (p : Params) (deterministic : bool) (t : sign_test) : M bool :=
  skb <- into_array (cSK_LEN p) (st_sk t) ;;
  sk <- expect (sk_try_from_bytes p skb) ;;
  sig_exp <- (if deterministic
              then expect (snd (raw_sign p VecRng sk (st_message t) false []))
              else expect (snd (raw_sign p VecRng sk (st_message t) true [st_randomness t]))) ;;
  branch (bytes_eqb sig_exp (st_signature t)).

(** panic::catch_unwind and the match on its result (tests/nist_acvp_vectors/mod.rs:316, 332-336) *)
Definition catch_unwind (m : M bool) : M bool :=
  let (t, o) := m in (t, match o with Val b => Val b | _ => Val false end).

(** tests/nist_acvp_vectors/mod.rs:316-342, one case of [test_verify!] *)
Definition verify_case (p : Params) (_ : bool) (t : verify_test) : M bool :=
  is_valid <- catch_unwind (
    pkb <- into_array (cPK_LEN p) (vt_pk t) ;;
    pk <- expect (pk_try_from_bytes p pkb) ;;
    sigb <- into_array (cSIG_LEN p) (vt_signature t) ;;
    expect (raw_verify p pk (vt_message t) sigb)) ;;
  branch (Bool.eqb is_valid (vt_passed t)).

(** tests/nist_acvp_vectors/mod.rs:103-169 [run_keygen_tests], 224-290 [run_signing_tests], 349-414
    [run_verification_tests] *)
Definition run_keygen_tests := run_kat "keyGen" keygen_case.
(** tests/nist_acvp_vectors/mod.rs:224-290 *)
Definition run_signing_tests := run_kat "sigGen" sign_case.
(** tests/nist_acvp_vectors/mod.rs:349-414 *)
Definition run_verification_tests := run_kat "sigVer" verify_case.

(** tests/py_vectors.rs:41-326, the twelve tests, which differ in the parameter set and the constants;
    lines 45-62 for the first. [assert_eq!] on the lengths is line 58. *)
Definition vector_test (p : Params) (m sk_seed sk_prf pk_seed opt_rand sig_exp : bytes) : M unit :=
  snd ((kp <-- unwrap (try_keygen_with_rng p VecRng) ;;
        let (pk, sk) := kp in
        sig_act <-- unwrap (raw_sign p VecRng sk m true) ;;
        _ <-- rlift (assert_ (nlen sig_act =? nlen sig_exp)) ;;
        _ <-- rlift (assert_ (bytes_eqb sig_act sig_exp)) ;;
        result <-- unwrap (rlift (raw_verify p pk m sig_act)) ;;
        rlift (assert_ result)) ([sk_seed; sk_prf; pk_seed; opt_rand] : rng_st VecRng)).
End Kat.
