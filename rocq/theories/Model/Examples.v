(** Model of the example programs shipped with the crate: the example in README.md (which is also the
    crate documentation, src/lib.rs:14), the C program ffi/tests/baseline.c, the command line test at the
    end of ffi/fips205.py, the unit test of src/lib.rs and the ignored test of tests/messages.rs. *)
From Coq Require Import String.
From Coq.Strings Require Byte.
From Verif Require Export Model.Api Model.FfiMem Model.PyObj.
Import ListNotations.
Open Scope list_scope.
Open Scope N_scope.

(** the byte string literals b"context" (README.md:40, 52) and b"some other context" (src/lib.rs:412, 420) *)
Definition lit_context : bytes := list_byte_of_string "context"%string.
(** src/lib.rs:412, 420 *)
Definition lit_other : bytes := list_byte_of_string "some other context"%string.

(** assert!(b) (README.md:53, src/lib.rs:405-421, tests/messages.rs:13) *)
Definition assert_ (b : bool) : M unit := c <- branch b ;; if c then ret tt else panic PAssert.

(** Result::unwrap (src/lib.rs:397-417, tests/messages.rs:11-12) *)
Definition unwrap {r : Rng} {A} (f : RM r A) : RM r A := fun g => let (g', m) := f g in (g', expect m).

Section Rust.
Context {T : Target} {P : Prims} (p : Params).

(** README.md:32 *)
Definition readme_msg : bytes := map n2b [0; 1; 2; 3; 4; 5; 6; 7].

(** README.md:26-55, for any of the parameter sets (README.md:26); [?] returns the error *)
Definition readme_example (os : Rng) : RM os unit :=
  kp <-- try_keygen p os ;;
  let (pk1, sk) := kp in
  sig_bytes <-- try_sign p os sk readme_msg lit_context true ;;
  pk_send <-- rlift (pk_into_bytes p pk1) ;;
  let '(pk_recv, msg_recv, sig_recv) := (pk_send, readme_msg, sig_bytes) in
  pk2 <-- rlift (pk_try_from_bytes p pk_recv) ;;
  v <-- rlift (verify p pk2 msg_recv sig_recv lit_context) ;;
  rlift (assert_ v).

(** src/lib.rs:395 *)
Definition test_message : bytes := map n2b [0; 1; 2; 3].

(** the loop body of src/lib.rs:414-422 *)
Definition round_trip_ph (rng : Rng) (pk2 : SlhPublicKey) (sk2 : SlhPrivateKey) (ph : Ph) : RM rng unit :=
  sig <-- unwrap (try_hash_sign_with_rng p rng sk2 test_message lit_context ph true) ;;
  result <-- rlift (hash_verify p pk2 test_message sig lit_context ph) ;;
  _ <-- rlift (assert_ result) ;;
  result <-- rlift (hash_verify p pk2 test_message sig lit_other ph) ;;
  rlift (assert_ (negb result)).

(** the loop of src/lib.rs:414-422 *)
Fixpoint round_trip_loop (rng : Rng) (pk2 : SlhPublicKey) (sk2 : SlhPrivateKey) (phs : list Ph) : RM rng unit :=
  match phs with
  | [] => rlift (ret tt)
  | ph :: phs => _ <-- round_trip_ph rng pk2 sk2 ph ;; round_trip_loop rng pk2 sk2 phs
  end.

(** src/lib.rs:394-423 [simple_round_trips]; ChaCha8Rng with seed 123 is any generator [rng] in any state *)
Definition simple_round_trips (rng : Rng) : RM rng unit :=
  kp <-- unwrap (try_keygen_with_rng p rng) ;;
  let (pk1, sk1) := kp in
  pk1_bytes <-- rlift (pk_into_bytes p pk1) ;;
  sk1_bytes <-- rlift (sk_into_bytes p sk1) ;;
  pk2 <-- unwrap (rlift (pk_try_from_bytes p pk1_bytes)) ;;
  sk2 <-- unwrap (rlift (sk_try_from_bytes p sk1_bytes)) ;;
  sig <-- unwrap (try_sign_with_rng p rng sk2 test_message lit_context true) ;;
  result <-- rlift (verify p pk2 test_message sig lit_context) ;;
  _ <-- rlift (assert_ result) ;;
  kp <-- rlift (keygen_with_seeds p (nrepeat (n2b 0) (cN p)) (nrepeat (n2b 1) (cN p)) (nrepeat (n2b 2) (cN p))) ;;
  let (pk3, sk3) := kp in
  sig <-- unwrap (try_sign_with_rng p rng sk3 test_message lit_context true) ;;
  result <-- rlift (verify p pk3 test_message sig lit_context) ;;
  _ <-- rlift (assert_ result) ;;
  result <-- rlift (verify p pk2 test_message sig lit_other) ;;
  _ <-- rlift (assert_ (negb result)) ;;
  round_trip_loop rng pk2 sk2 [PhSHA256; PhSHA512; PhSHAKE128; PhSHAKE256].
End Rust.

Section Foreign.
Context {T : Target} {P : Prims} {W : Wide}.

(** tests/messages.rs:7-13 [test_browser_message], up to the comparison with recorded values *)
Definition browser_message (rng : Rng) : RM rng unit :=
  kp <-- unwrap (try_keygen_with_rng slh_dsa_sha2_128f rng) ;;
  let (pk, sk) := kp in
  let msg := list_byte_of_string "asdf"%string in
  sig <-- unwrap (try_sign_with_rng slh_dsa_sha2_128f rng sk msg [] true) ;;
  v <-- rlift (verify slh_dsa_sha2_128f pk msg sig lit_context) ;;
  rlift (assert_ v).

(** SLH_DSA_NULL_PTR_ERROR and SLH_DSA_VERIFY_ERROR as ffi/fips205.h:9, 14 defines them for C programs *)
Definition HEADER_NULL_PTR_ERROR : N := 1.
(** ffi/fips205.h:14 *)
Definition HEADER_VERIFY_ERROR : N := 6.

(** [if (!ok(call)) return 1;] (ffi/tests/baseline.c:12-40) *)
Definition check {os : Rng} (op : rng_st os -> cmem -> rng_st os * ffi_result cmem) (ok : N -> bool)
    (k : rng_st os -> cmem -> rng_st os * ffi_result cmem) (g : rng_st os) (M : cmem)
  : rng_st os * ffi_result cmem :=
  match op g M with
  | (g, FReturn code M) => if ok code then k g M else (g, FReturn 1 M)
  | (g, FAbort) => (g, FAbort)
  | (g, FUB) => (g, FUB)
  end.

(** ffi/tests/baseline.c:5-41, compiled as ffi/tests/Makefile:14 does, that is with SLHDSA_keygen for
    slh_dsa_sha2_128f_keygen and so on. The four local variables (lines 6-9) are at the given addresses;
    the messages to stderr are left out. The result is the exit code. *)
Definition baseline_main (os : Rng) (public private sig message : N)
  : rng_st os -> cmem -> rng_st os * ffi_result cmem :=
  let call op g M := c_step os g M op in
  let len := 3%Z in
  let init M := store M message (map n2b [0; 17; 34]) in
  let body :=
    check (call (CKeygen public private)) (N.eqb 0) (
    check (call (CSign message len private sig)) (N.eqb 0) (
    check (call (CVerify message len public sig)) (N.eqb 0) (
    check (call (CStore message (n2b 99))) (fun _ => true) (
    check (call (CVerify message len public sig)) (N.eqb HEADER_VERIFY_ERROR) (
    check (call (CKeygen public 0)) (N.eqb HEADER_NULL_PTR_ERROR) (
    check (call (CKeygen 0 private)) (N.eqb HEADER_NULL_PTR_ERROR) (
    check (call (CSign 0 len private sig)) (N.eqb HEADER_NULL_PTR_ERROR) (
    check (call (CSign message len 0 sig)) (N.eqb HEADER_NULL_PTR_ERROR) (
    check (call (CSign message len private 0)) (N.eqb HEADER_NULL_PTR_ERROR) (
    fun g M => (g, FReturn 0 M))))))))))) in
  fun g M => body g (init M).

(** the value of an expression of a Python program (ffi/fips205.py:181-186), or how the program ended *)
Definition py_then {os : Rng} {A} (st : rng_st os * heap * py_result py_ret)
    (k : rng_st os -> heap -> py_ret -> py_result A) : py_result A :=
  match st with
  | (g, H, PyReturn v) => k g H v
  | (_, _, PyRaise) => PyRaise
  | (_, _, PyAbort) => PyAbort
  | (_, _, PyUB) => PyUB
  end.

(** str(True), str(False) (ffi/fips205.py:186) *)
Definition py_str_bool (b : bool) : string := if b then "True"%string else "False"%string.
(** the separator of the f-string (ffi/fips205.py:186) *)
Definition newline : string := String (Ascii.ascii_of_N 10) EmptyString.

(** ffi/fips205.py:181-186; the result is the text print() receives. str() of a key is its repr(). *)
Definition py_main (os : Rng) (g : rng_st os) (H : heap) : py_result string :=
  py_then (py_step os g H PKeygen) (fun g H v =>
  match v with
  | RPair ppk ssk =>
      py_then (py_step os g H (PNew (map n2b [1; 2; 3]))) (fun g H v =>
      match v with
      | RValue m =>
          py_then (py_step os g H (PSign ssk m)) (fun g H v =>
          match v with
          | RValue sig =>
              py_then (py_step os g H (PNew (map n2b [1; 2; 3]))) (fun g H v =>
              match v with
              | RValue m' =>
                  py_then (py_step os g H (PVerify ppk m' sig)) (fun g H v =>
                  match v with
                  | RBool res =>
                      py_then (py_step os g H (PRepr ppk)) (fun g H v =>
                      match v with
                      | RText tp =>
                          py_then (py_step os g H (PRepr ssk)) (fun g H v =>
                          match v with
                          | RText ts => PyReturn (py_str_bool res ++ newline ++ tp ++ newline ++ ts)%string
                          | _ => PyRaise
                          end)
                      | _ => PyRaise
                      end)
                  | _ => PyRaise
                  end)
              | _ => PyRaise
              end)
          | _ => PyRaise
          end)
      | _ => PyRaise
      end)
  | _ => PyRaise
  end).
End Foreign.
