(** Model of the erasure behaviour: the Zeroize and ZeroizeOnDrop derives of src/types.rs and
    src/lib.rs, over a byte-addressed memory.
    Simplifications: a value of a type occupies its fields' bytes at fixed offsets from its base
    address (Rust leaves the offsets open, so they are parameters); a store is never elided or
    delayed (the zeroize crate uses volatile writes and a fence to this end, which is outside the
    model); registers and spills are not memory. *)
From Verif Require Export Model.Api.
Import ListNotations.
Open Scope N_scope.

(** bytes of the process's memory, in which the values of src/types.rs:34-48 and src/lib.rs:89-95 live *)
Definition memory := N -> byte.

(** a store of one byte, as in the derives of src/types.rs:34, 42 *)
Definition store (a : N) (b : byte) (mem : memory) : memory :=
  fun x => if x =? a then b else mem x.

(** a Rust copy or move of the bytes l to address a (src/traits.rs:150, src/lib.rs:198-203) *)
Definition write_bytes (a : N) (l : bytes) (mem : memory) : memory :=
  fun x => if (a <=? x) && (x <? a + nlen l) then nth (N.to_nat (x - a)) l x00 else mem x.

(** zeroize: [impl Zeroize for u8], one volatile write of 0 (crate zeroize, used by src/types.rs:34, 42) *)
Definition zeroize_u8 (a : N) (mem : memory) : memory := store a x00 mem.

(** crate zeroize, used by src/types.rs:34, 42: [impl Zeroize for [Z; N]], iter_mut().zeroize(): element by element, first to last *)
Fixpoint zeroize_elems (len : nat) (a : N) (mem : memory) : memory :=
  match len with
  | O => mem
  | S k => zeroize_elems k (a + 1) (zeroize_u8 a mem)
  end.
(** the array fields [u8; N] of src/types.rs:34-48 *)
Definition zeroize_array (n a : N) (mem : memory) : memory := zeroize_elems (N.to_nat n) a mem.

(** where the compiler puts the fields of src/types.rs:43-48 [SlhPrivateKey] and src/types.rs:35-38
    [SlhPublicKey], relative to the address of the value *)
Record SkLayout := mkSkLayout { at_sk_seed : N; at_sk_prf : N; at_pk_seed : N; at_pk_root : N }.
(** src/types.rs:35-38 *)
Record PkLayout := mkPkLayout { pk_at_seed : N; pk_at_root : N }.

Section derives.
Context (p : Params).
Notation n := (cN p).

(** src/types.rs:42 [derive(Zeroize)] on SlhPrivateKey: the fields in declaration order *)
Definition zeroize_SlhPrivateKey (lay : SkLayout) (a : N) (mem : memory) : memory :=
  let mem := zeroize_array n (a + at_sk_seed lay) mem in
  let mem := zeroize_array n (a + at_sk_prf lay) mem in
  let mem := zeroize_array n (a + at_pk_seed lay) mem in
  zeroize_array n (a + at_pk_root lay) mem.

(** src/types.rs:34 [derive(Zeroize)] on SlhPublicKey *)
Definition zeroize_SlhPublicKey (lay : PkLayout) (a : N) (mem : memory) : memory :=
  let mem := zeroize_array n (a + pk_at_seed lay) mem in
  zeroize_array n (a + pk_at_root lay) mem.

(** src/types.rs:42, 34 [derive(ZeroizeOnDrop)]: Drop::drop erases every field; arrays of u8 have no
    drop glue of their own *)
Definition drop_SlhPrivateKey := zeroize_SlhPrivateKey.
(** src/types.rs:34 *)
Definition drop_SlhPublicKey := zeroize_SlhPublicKey.

(** src/lib.rs:89-90, 94-95 [derive(Zeroize, ZeroizeOnDrop)] on the newtypes PrivateKey, PublicKey:
    zeroize forwards to field 0; on drop field 0 (itself ZeroizeOnDrop) is dropped *)
Definition zeroize_PrivateKey := zeroize_SlhPrivateKey.
(** src/lib.rs:94-95 *)
Definition zeroize_PublicKey := zeroize_SlhPublicKey.
(** src/lib.rs:89-90 *)
Definition drop_PrivateKey (lay : SkLayout) (a : N) (mem : memory) : memory := drop_SlhPrivateKey lay a mem.
(** src/lib.rs:94-95 *)
Definition drop_PublicKey (lay : PkLayout) (a : N) (mem : memory) : memory := drop_SlhPublicKey lay a mem.

(** the same derives (src/types.rs:34, 42) seen by safe code, which reads the fields of the erased value *)
Definition zeroed (l : bytes) : bytes := map (fun _ => x00) l.
(** src/types.rs:42, src/lib.rs:89 *)
Definition zeroize_sk (sk : SlhPrivateKey) : SlhPrivateKey :=
  mkSk (zeroed (sk_seed sk)) (zeroed (sk_prf sk)) (zeroed (sk_pk_seed sk)) (zeroed (sk_pk_root sk)).
(** src/types.rs:34, src/lib.rs:94 *)
Definition zeroize_pk (pk : SlhPublicKey) : SlhPublicKey :=
  mkPk (zeroed (pk_seed pk)) (zeroed (pk_root pk)).

(** src/traits.rs:150, 155 [DummyRng] holds copies of the three seeds and derives nothing: building it
    at address d copies them there, dropping it stores nothing *)
Definition make_DummyRng (d : N) (skseed skprf pkseed : bytes) (mem : memory) : memory :=
  let mem := write_bytes d skseed mem in
  let mem := write_bytes (d + n) skprf mem in
  write_bytes (d + 2 * n) pkseed mem.
(** src/traits.rs:155: no Drop, no ZeroizeOnDrop *)
Definition drop_DummyRng (d : N) (mem : memory) : memory := mem.

(** a private key value is placed at address a (the result of src/lib.rs:198-203 or 369-383) *)
Definition place_sk (lay : SkLayout) (a : N) (sk : SlhPrivateKey) (mem : memory) : memory :=
  let mem := write_bytes (a + at_sk_seed lay) (sk_seed sk) mem in
  let mem := write_bytes (a + at_sk_prf lay) (sk_prf sk) mem in
  let mem := write_bytes (a + at_pk_seed lay) (sk_pk_seed sk) mem in
  write_bytes (a + at_pk_root lay) (sk_pk_root sk) mem.

(** src/traits.rs:147-151 [keygen_with_seeds], the stores that involve the DummyRng (at d) and the
    returned private key (at a); the rest of the computation writes elsewhere and is left out *)
Definition keygen_with_seeds_memory (lay : SkLayout) (d a : N) (skseed skprf pkseed : bytes)
  (sk : SlhPrivateKey) (mem : memory) : memory :=
  drop_DummyRng d (place_sk lay a sk (make_DummyRng d skseed skprf pkseed mem)).
End derives.
