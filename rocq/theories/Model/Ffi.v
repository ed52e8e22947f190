(** Model of ffi/src/lib.rs, the C interface (parameter set SHA2-128f only).
    A pointer argument of type Option<&mut struct> is [option bytes]: [None] is a null pointer,
    [Some b] the current contents of the struct. [*const u8] is [option bytes]: [Some b] points
    to a readable buffer with contents [b]. c_int is an integer of type [Z]. A Rust panic inside an
    extern "C" function ends the process ([FAbort]); from_raw_parts on a null pointer or beyond the
    buffer is undefined behaviour ([FUB]). *)
From Verif Require Export Machine Model.Api.

(** ffi/src/lib.rs:7-13 *)
Definition SLH_DSA_OK : N := 0.
(** ffi/src/lib.rs:8 *)
Definition SLH_DSA_NULL_PTR_ERROR : N := 1.
(** ffi/src/lib.rs:9 *)
Definition SLH_DSA_SERIALIZATION_ERROR : N := 2.
(** ffi/src/lib.rs:10 *)
Definition SLH_DSA_DESERIALIZATION_ERROR : N := 3.
(** ffi/src/lib.rs:11 *)
Definition SLH_DSA_KEYGEN_ERROR : N := 4.
(** ffi/src/lib.rs:12 *)
Definition SLH_DSA_SIGN_ERROR : N := 5.
(** ffi/src/lib.rs:13 *)
Definition SLH_DSA_VERIFY_ERROR : N := 6.

(** return code and the contents of the output structs afterwards (ffi/src/lib.rs:40-108) *)
Inductive ffi_result (O : Type) :=
| FReturn (code : N) (outs : O)
| FAbort
| FUB.
Arguments FReturn {O} code outs.
Arguments FAbort {O}.
Arguments FUB {O}.

Section Ffi.
Context {T : Target} {P : Prims}.
Let p := slh_dsa_sha2_128f.

(** ffi/src/lib.rs:40-56; outs = (public_out, private_out) *)
Definition ffi_keygen (os : Rng) (s : rng_st os) (public_out private_out : option bytes)
  : rng_st os * ffi_result (option bytes * option bytes) :=
  match public_out, private_out with
  | Some _, Some _ =>
      let (s', m) := try_keygen p os s in
      (s', match result m with
           | Val (pk, sk) =>
               match result (pk_into_bytes p pk), result (sk_into_bytes p sk) with
               | Val pb, Val sb => FReturn SLH_DSA_OK (Some pb, Some sb)
               | _, _ => FAbort
               end
           | Err _ => FReturn SLH_DSA_KEYGEN_ERROR (public_out, private_out)
           | Panic _ => FAbort
           end)
  | _, _ => (s, FReturn SLH_DSA_NULL_PTR_ERROR (public_out, private_out))
  end.

(** unsafe { from_raw_parts(message_buf, message_len.try_into().unwrap()) }
    (ffi/src/lib.rs:73-74, 95-96) *)
Inductive raw_slice := RSlice (m : bytes) | RAbort | RUB.
(** ffi/src/lib.rs:73-74, 95-96 *)
Definition from_raw_parts (message_buf : option bytes) (message_len : Z) : raw_slice :=
  if (message_len <? 0)%Z || (Z.of_N (2 ^ usize_bits) <=? message_len)%Z then RAbort
  else match message_buf with
       | None => RUB
       | Some b => if (Z.to_N message_len <=? nlen b) then RSlice (sub_bytes b 0 (Z.to_N message_len))
                   else RUB
       end.

(** ffi/src/lib.rs:60-84; out = signature_out *)
Definition ffi_sign (os : Rng) (s : rng_st os) (message_buf : option bytes) (message_len : Z)
    (private_key signature_out : option bytes) : rng_st os * ffi_result (option bytes) :=
  match private_key, signature_out with
  | Some skb, Some _ =>
      match message_buf with
      | None => (s, FReturn SLH_DSA_NULL_PTR_ERROR signature_out)
      | Some _ =>
          match from_raw_parts message_buf message_len with
          | RAbort => (s, FAbort)
          | RUB => (s, FUB)
          | RSlice m =>
              match result (sk_try_from_bytes p skb) with
              | Err _ => (s, FReturn SLH_DSA_DESERIALIZATION_ERROR signature_out)
              | Panic _ => (s, FAbort)
              | Val sk =>
                  let (s', r) := try_sign p os sk m [] true s in
                  (s', match result r with
                       | Val sig => FReturn SLH_DSA_OK (Some sig)
                       | Err _ => FReturn SLH_DSA_SIGN_ERROR signature_out
                       | Panic _ => FAbort
                       end)
              end
          end
      end
  | _, _ => (s, FReturn SLH_DSA_NULL_PTR_ERROR signature_out)
  end.

(** ffi/src/lib.rs:87-108; no outputs *)
Definition ffi_verify (message_buf : option bytes) (message_len : Z)
    (public_key signature : option bytes) : ffi_result unit :=
  match public_key, signature with
  | Some pkb, Some sg =>
      match from_raw_parts message_buf message_len with
      | RAbort => FAbort
      | RUB => FUB
      | RSlice m =>
          match result (pk_try_from_bytes p pkb) with
          | Err _ => FReturn SLH_DSA_DESERIALIZATION_ERROR tt
          | Panic _ => FAbort
          | Val pk =>
              match result (verify p pk m sg []) with
              | Val true => FReturn SLH_DSA_OK tt
              | Val false => FReturn SLH_DSA_VERIFY_ERROR tt
              | _ => FAbort
              end
          end
      end
  | _, _ => FReturn SLH_DSA_NULL_PTR_ERROR tt
  end.

End Ffi.
