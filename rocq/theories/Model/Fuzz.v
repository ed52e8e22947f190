(** Model of the fuzz targets, fuzz/fuzz_targets/fuzz_sign.rs and fuzz_verify.rs. The operating system's
    generator is the argument [os]; libFuzzer is whoever chooses the input. Values the targets throw
    away with [let _ =] are returned, so that one can talk about them. *)
From Verif Require Export Model.Api.
Import ListNotations.
Open Scope list_scope.
Open Scope N_scope.

Section Fuzz.
Context {T : Target} {P : Prims} (os : Rng).
Notation p := slh_dsa_sha2_128f.

(** [if let Ok(x) = f { .. }] and [let _ = f;] for f of type Result (fuzz/fuzz_targets/fuzz_sign.rs:20-51, fuzz/fuzz_targets/fuzz_verify.rs:21-56) *)
Definition attempt {A} (f : RM os A) : RM os (option A) :=
  fun g =>
    let '(g', (t, o)) := f g in
    (g', (t, match o with Val a => Val (Some a) | Err _ => Val None | Panic q => Panic q end)).

(** fuzz/fuzz_targets/fuzz_sign.rs:24-28, fuzz/fuzz_targets/fuzz_verify.rs:15-19 *)
Definition pick_ph (b : byte) : Ph :=
  match b2n b mod 3 with 0 => PhSHA256 | 1 => PhSHA512 | _ => PhSHAKE256 end.

(** fuzz/fuzz_targets/fuzz_sign.rs:20-51; the results are the pure signature, the pre-hash signature and the public key *)
Definition fuzz_sign (message context : bytes) (hedged use_hash : bool) (hash_function : byte)
  : RM os (option (option bytes * option bytes * SlhPublicKey)) :=
  kp <-- attempt (try_keygen p os) ;;
  match kp with
  | None => rlift (ret None)
  | Some (_, sk) =>
      let ph := pick_ph hash_function in
      ctx <-- rlift (slice context 0 (nlen context mod 255)) ;;
      sig <-- attempt (try_sign_with_rng p os sk message ctx hedged) ;;
      u <-- rlift (branch use_hash) ;;
      hsig <-- (if u
                then ctx <-- rlift (slice context 0 (nlen context mod 255)) ;;
                     attempt (try_hash_sign_with_rng p os sk message ctx ph hedged)
                else rlift (ret None)) ;;
      rlift (ret (Some (sig, hsig, get_public_key sk)))
  end.

(** fuzz/fuzz_targets/fuzz_verify.rs:10-56; the results are the verdicts of tests 1 to 4, when they were reached *)
Definition fuzz_verify (data : bytes)
  : RM os (option (option bool * option bool * option bool * option bool)) :=
  c <-- rlift (branch (nlen data <? 32)) ;;
  if c then rlift (ret None)
  else
    d0 <-- rlift (index data 0) ;;
    let ph := pick_ph d0 in
    kp <-- attempt (try_keygen p os) ;;
    match kp with
    | None => rlift (ret None)
    | Some (pk, sk) =>
        let split_point := nlen data mod 255 in
        message <-- rlift (slice data split_point (nlen data)) ;;
        context <-- rlift (slice data 0 split_point) ;;
        (* test 1 *)
        s1 <-- attempt (try_sign p os sk message context true) ;;
        v1 <-- match s1 with
               | Some sig => v <-- rlift (verify p pk message sig context) ;; rlift (ret (Some v))
               | None => rlift (ret None)
               end ;;
        (* test 2 *)
        s2 <-- attempt (try_hash_sign p os sk message context ph true) ;;
        v2 <-- match s2 with
               | Some sig => v <-- rlift (hash_verify p pk message sig context ph) ;; rlift (ret (Some v))
               | None => rlift (ret None)
               end ;;
        (* test 3 *)
        pkb <-- rlift (pk_into_bytes p pk) ;;
        pk' <-- attempt (rlift (pk_try_from_bytes p pkb)) ;;
        v3 <-- match pk' with
               | None => rlift (ret None)
               | Some maybe_pk =>
                   s3 <-- attempt (try_sign p os sk message context true) ;;
                   match s3 with
                   | Some sig => v <-- rlift (verify p maybe_pk message sig context) ;; rlift (ret (Some v))
                   | None => rlift (ret None)
                   end
               end ;;
        (* test 4 *)
        s4 <-- attempt (try_sign p os sk message context true) ;;
        v4 <-- match s4 with
               | None => rlift (ret None)
               | Some sig =>
                   e <-- rlift (branch (negb (nlen message =? 0))) ;;
                   if e
                   then b <-- rlift (index message 0) ;;
                        modified <-- rlift (upd message 0 (byte_xor b Coq.Init.Byte.x01)) ;;
                        v <-- rlift (verify p pk modified sig context) ;; rlift (ret (Some v))
                   else rlift (ret None)
               end ;;
        rlift (ret (Some (v1, v2, v3, v4)))
    end.
End Fuzz.
