(** The events (branches, loops, indices, slices, hash calls, generator requests) of the library code that a
    call of the C interface executes; Model.Ffi and Model.FfiMem give its results. The C interface adds
    only null tests, copies of fixed length and the message slice, which depend on the arguments of the
    call alone and are left out. *)
From Verif Require Export Model.FfiMem.
Import ListNotations.
Open Scope list_scope.
Open Scope N_scope.

Section FfiTrace.
Context {T : Target} {P : Prims}.
Let p := slh_dsa_sha2_128f.

(** ffi/src/lib.rs:40-56 *)
Definition ffi_keygen_events (os : Rng) (s : rng_st os) (public_out private_out : option bytes) : list event :=
  match public_out, private_out with
  | Some _, Some _ =>
      let m := snd (try_keygen p os s) in
      trace m ++ match result m with
                 | Val (pk, sk) => trace (pk_into_bytes p pk) ++ trace (sk_into_bytes p sk)
                 | _ => []
                 end
  | _, _ => []
  end.

(** ffi/src/lib.rs:60-84 *)
Definition ffi_sign_events (os : Rng) (s : rng_st os) (message_buf : option bytes) (message_len : Z)
    (private_key signature_out : option bytes) : list event :=
  match private_key, signature_out, message_buf with
  | Some skb, Some _, Some _ =>
      match from_raw_parts message_buf message_len with
      | RSlice m =>
          let i := sk_try_from_bytes p skb in
          trace i ++ match result i with
                     | Val sk => trace (snd (try_sign p os sk m [] true s))
                     | _ => []
                     end
      | _ => []
      end
  | _, _, _ => []
  end.

(** ffi/src/lib.rs:87-108 *)
Definition ffi_verify_events (message_buf : option bytes) (message_len : Z)
    (public_key signature : option bytes) : list event :=
  match public_key, signature with
  | Some pkb, Some sg =>
      match from_raw_parts message_buf message_len with
      | RSlice m =>
          let i := pk_try_from_bytes p pkb in
          trace i ++ match result i with Val pk => trace (verify p pk m sg []) | _ => [] end
      | _ => []
      end
  | _, _ => []
  end.

(** ffi/src/lib.rs:40-108 *)
Definition c_events (os : Rng) (g : rng_st os) (M : cmem) (op : c_op) : list event :=
  match op with
  | CStore _ _ => []
  | CKeygen pub priv => ffi_keygen_events os g (deref M pub C_PK_LEN) (deref M priv C_SK_LEN)
  | CSign buf len sk out => ffi_sign_events os g (buffer M buf) len (deref M sk C_SK_LEN) (deref M out C_SIG_LEN)
  | CVerify buf len pk sig => ffi_verify_events (buffer M buf) len (deref M pk C_PK_LEN) (deref M sig C_SIG_LEN)
  end.

End FfiTrace.
