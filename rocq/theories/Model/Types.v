(** Model of src/types.rs: the data types of the scheme.
    Simplification: single-field structs (WotsSig, WotsPk, ForsPk, Auth, HtSig) are identified
    with their field; array types [[u8; N]; L] become lists whose lengths are stated in
    theorems. The Zeroize derives are modelled separately in Model/Zeroize.v. *)
From Verif Require Export Bytes.

(** src/types.rs:5-14 [enum Ph] *)
Inductive Ph := PhSHA256 | PhSHA512 | PhSHAKE128 | PhSHAKE256.

(** src/types.rs:114-132 [struct Adrs]: eight 4-byte fields *)
Record Adrs := mkAdrs {
  f0 : bytes; f1 : bytes; f2 : bytes; f3 : bytes;
  f4 : bytes; f5 : bytes; f6 : bytes; f7 : bytes }.

(** src/types.rs:34-38 [struct SlhPublicKey] *)
Record SlhPublicKey := mkPk { pk_seed : bytes; pk_root : bytes }.

(** src/types.rs:42-48 [struct SlhPrivateKey] (its pk_seed, pk_root fields carry the prefix sk_) *)
Record SlhPrivateKey := mkSk {
  sk_seed : bytes; sk_prf : bytes; sk_pk_seed : bytes; sk_pk_root : bytes }.

(** src/types.rs:52-56 [struct ForsSig], src/types.rs:65-68 [struct Auth] *)
Record ForsSig := mkForsSig { private_key_value : list bytes; fors_auth : list (list bytes) }.

(** src/types.rs:90-94 [struct XmssSig], src/types.rs:79-82 [struct WotsSig] *)
Record XmssSig := mkXmssSig { sig_wots : list bytes; xmss_auth : list bytes }.

(** src/types.rs:18-30 [struct SlhDsaSig], src/types.rs:72-75 [struct HtSig] *)
Record SlhDsaSig := mkSlhDsaSig {
  randomness : bytes; fors_sig : ForsSig; ht_sig : list XmssSig }.

(** src/types.rs:104-110, address types *)
Definition WOTS_HASH : N := 0.
(** src/types.rs:105 *)
Definition WOTS_PK : N := 1.
(** src/types.rs:106 *)
Definition TREE : N := 2.
(** src/types.rs:107 *)
Definition FORS_TREE : N := 3.
(** src/types.rs:108 *)
Definition FORS_ROOTS : N := 4.
(** src/types.rs:109 *)
Definition WOTS_PRF : N := 5.
(** src/types.rs:110 *)
Definition FORS_PRF : N := 6.
