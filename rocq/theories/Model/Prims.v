(** The hash primitives of the external crates sha2 and sha3 (Cargo.toml dependencies). They are
    not modelled: any functions with the right output lengths. A streaming hasher
    ([new]/[default], [update], [finalize]) is modelled by the string absorbed so far, which is
    the contract of those crates. *)
From Verif Require Export Bytes.

(** the functions called from src/hashers.rs:32-37, 105-109, 216-228, 322-375 *)
Class Prims := {
  sha256 : bytes -> bytes;
  sha512 : bytes -> bytes;
  shake128 : bytes -> N -> bytes;     (* output length in bytes *)
  shake256 : bytes -> N -> bytes;
  sha256_len : forall x, nlen (sha256 x) = 32;
  sha512_len : forall x, nlen (sha512 x) = 64;
  shake128_len : forall x k, nlen (shake128 x k) = k;
  shake256_len : forall x k, nlen (shake256 x k) = k }.

(** Sha256::new(), Sha512::new(), Shake128::default(), Shake256::default() (src/hashers.rs:33, 106, 217, 225, 355) *)
Definition hasher_new : bytes := [].
(** hasher.update(item) (src/hashers.rs:34, 107, 218, 226) *)
Definition hasher_update (h item : bytes) : bytes := h ++ item.
