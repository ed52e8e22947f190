(** The primitives the crate is meant to be linked with: SHA-2 of FIPS 180-4 and SHAKE of FIPS 202. *)
From Verif Require Import Bytes Model.Prims.
From Verif Require Spec.Sha2 Spec.Sha3.

Definition standard_prims : Prims := {|
  sha256 := Sha2.SHA256;
  sha512 := Sha2.SHA512;
  shake128 := Sha3.SHAKE128;
  shake256 := Sha3.SHAKE256;
  sha256_len := Sha2.sha2_hash_len Sha2.sha256_params;
  sha512_len := Sha2.sha2_hash_len Sha2.sha512_params;
  shake128_len M d := Sha3.sponge_len 168 M d ltac:(lia);
  shake256_len M d := Sha3.sponge_len 136 M d ltac:(lia) |}.

(** the published test vectors for the string "abc" *)
Definition abc : bytes := [Coq.Init.Byte.x61; Coq.Init.Byte.x62; Coq.Init.Byte.x63].

Example sha256_abc : of_be (sha256 (Prims := standard_prims) abc) =
  0xba7816bf8f01cfea414140de5dae2223b00361a396177a9cb410ff61f20015ad.
Proof. vm_compute. reflexivity. Qed.

Example sha512_abc : of_be (sha512 (Prims := standard_prims) abc) =
  0xddaf35a193617abacc417349ae20413112e6fa4e89a97ea20a9eeee64b55d39a2192992a274fc1a836ba3c23a3feebbd454d4423643ce80e2a9ac94fa54ca49f.
Proof. vm_compute. reflexivity. Qed.

Example shake128_abc : of_be (shake128 (Prims := standard_prims) abc 32) =
  0x5881092dd818bf5cf8a3ddb793fbcba74097d5c526a6d35f97b83351940f2cc8.
Proof. vm_compute. reflexivity. Qed.

Example shake256_abc : of_be (shake256 (Prims := standard_prims) abc 32) =
  0x483366601360a8771c6863080cc4114d8db44530f8f1e1ee4f94ea37e78b5739.
Proof. vm_compute. reflexivity. Qed.
