(** Model of ffi/src/lib.rs and ffi/fips205.h at the level of memory addresses. The functions of
    Model.Ffi receive and return the contents of structs; here the same functions receive the addresses a
    C program passes and act on its memory. *)
From Verif Require Export Model.Ffi.
Open Scope N_scope.

(** The memory of the C program: the addresses 1, ..., mem_top - 1 are allocated. Simplification: one
    contiguous readable and writable block; the structs are arrays of uint8_t (ffi/fips205.h:16-26), so
    there is no alignment to respect. *)
Record cmem := { mem_top : N; mem_at : N -> byte }.

(** the n bytes from address a on (the struct contents of ffi/src/lib.rs:23-36) *)
Definition load (M : cmem) (a n : N) : bytes :=
  map (fun i => mem_at M (a + N.of_nat i)) (seq 0 (N.to_nat n)).

(** the memory after bs is copied to address a (the assignments of ffi/src/lib.rs:53-54, 82) *)
Definition store (M : cmem) (a : N) (bs : bytes) : cmem :=
  {| mem_top := mem_top M;
     mem_at := fun x => if (a <=? x) && (x <? a + nlen bs) then nth (N.to_nat (x - a)) bs Byte.x00 else mem_at M x |}.

(** sizes of the structs, ffi/src/lib.rs:23-36 and ffi/fips205.h:16-26 *)
Definition C_PK_LEN : N := 32.
(** ffi/src/lib.rs:23-26, ffi/fips205.h:20-22 *)
Definition C_SK_LEN : N := 64.
(** ffi/src/lib.rs:33-36, ffi/fips205.h:24-26 *)
Definition C_SIG_LEN : N := 17088.

(** An argument of type Option<&mut struct> (ffi/src/lib.rs:41-42, 62-63, 89-90) is a null pointer or must
    point to a whole struct. *)
Definition ref_ok (M : cmem) (a n : N) : bool := (a =? 0) || (a + n <=? mem_top M).

(** The reference arguments of ffi/src/lib.rs:40-43, 60-64, 87-91. Two references,
    one of them &mut, must not designate a common byte (Rust reference, "Behavior
    considered undefined": pointer aliasing rules). *)
Definition overlap (a n b m : N) : bool :=
  negb (a =? 0) && negb (b =? 0) && (0 <? n) && (0 <? m) && (a <? b + m) && (b <? a + n).

(** the struct at a, if the pointer is not null (Option<&mut _>, ffi/src/lib.rs:41-42, 62-63, 89-90) *)
Definition deref (M : cmem) (a n : N) : option bytes := if a =? 0 then None else Some (load M a n).

(** the buffer a const uint8_t* points to (ffi/src/lib.rs:61, 88): everything up to the end of the block *)
Definition buffer (M : cmem) (a : N) : option bytes :=
  if a =? 0 then None else Some (load M a (mem_top M - a)).

(** assignment to the struct at a (ffi/src/lib.rs:53-54, 82) *)
Definition assign (M : cmem) (a : N) (v : option bytes) : cmem :=
  match v with Some bs => store M a bs | None => M end.

Section FfiMem.
Context {T : Target} {P : Prims}.

(** ffi/src/lib.rs:40-56 *)
Definition c_keygen (os : Rng) (g : rng_st os) (M : cmem) (public_out private_out : N)
  : rng_st os * ffi_result cmem :=
  if ref_ok M public_out C_PK_LEN && ref_ok M private_out C_SK_LEN &&
     negb (overlap public_out C_PK_LEN private_out C_SK_LEN)
  then let (g', r) := ffi_keygen os g (deref M public_out C_PK_LEN) (deref M private_out C_SK_LEN) in
       (g', match r with
            | FReturn code (pb, sb) => FReturn code (assign (assign M public_out pb) private_out sb)
            | FAbort => FAbort
            | FUB => FUB
            end)
  else (g, FUB).

(** the message slice (ffi/src/lib.rs:73-74, 95-96) next to the &mut structs at a and b *)
Definition slice_aliases (buf : N) (len : Z) (a n b m : N) : bool :=
  negb (a =? 0) && negb (b =? 0) &&
  (overlap buf (Z.to_N len) a n || overlap buf (Z.to_N len) b m).

(** ffi/src/lib.rs:60-84 *)
Definition c_sign (os : Rng) (g : rng_st os) (M : cmem) (message_buf : N) (message_len : Z)
    (private_key signature_out : N) : rng_st os * ffi_result cmem :=
  if ref_ok M private_key C_SK_LEN && ref_ok M signature_out C_SIG_LEN &&
     negb (overlap private_key C_SK_LEN signature_out C_SIG_LEN) &&
     negb (slice_aliases message_buf message_len private_key C_SK_LEN signature_out C_SIG_LEN)
  then let (g', r) := ffi_sign os g (buffer M message_buf) message_len
                        (deref M private_key C_SK_LEN) (deref M signature_out C_SIG_LEN) in
       (g', match r with
            | FReturn code out => FReturn code (assign M signature_out out)
            | FAbort => FAbort
            | FUB => FUB
            end)
  else (g, FUB).

(** ffi/src/lib.rs:87-108. The header declares both structs const (ffi/fips205.h:41-44); the Rust
    function takes them by &mut but writes neither. *)
Definition c_verify (M : cmem) (message_buf : N) (message_len : Z) (public_key signature : N)
  : ffi_result cmem :=
  if ref_ok M public_key C_PK_LEN && ref_ok M signature C_SIG_LEN &&
     negb (overlap public_key C_PK_LEN signature C_SIG_LEN) &&
     negb (slice_aliases message_buf message_len public_key C_PK_LEN signature C_SIG_LEN)
  then match ffi_verify (buffer M message_buf) message_len
               (deref M public_key C_PK_LEN) (deref M signature C_SIG_LEN) with
       | FReturn code _ => FReturn code M
       | FAbort => FAbort
       | FUB => FUB
       end
  else FUB.

(** One operation of a C program: its own byte store, or a call of the library (ffi/fips205.h:33-44). *)
Inductive c_op :=
| CStore (a : N) (b : byte)
| CKeygen (public_out private_out : N)
| CSign (message_buf : N) (message_len : Z) (private_key signature_out : N)
| CVerify (message_buf : N) (message_len : Z) (public_key signature : N).

(** its effect (ffi/src/lib.rs:40-108) *)
Definition c_step (os : Rng) (g : rng_st os) (M : cmem) (op : c_op) : rng_st os * ffi_result cmem :=
  match op with
  | CStore a b => (g, FReturn 0 (store M a [b]))
  | CKeygen pub priv => c_keygen os g M pub priv
  | CSign buf len sk out => c_sign os g M buf len sk out
  | CVerify buf len pk sig => (g, c_verify M buf len pk sig)
  end.

End FfiMem.
