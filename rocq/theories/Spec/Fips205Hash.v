(** FIPS 205 section 11: the hash functions of the parameter sets, Table 2, and the pre-hash
    functions of Algorithm 23. The primitives SHA-256, SHA-512, SHAKE128 and SHAKE256 are the
    arbitrary functions of [Prims]. *)
From Verif Require Import Bytes Model.Prims Spec.Fips205.

(** Trunc_l(x): the leftmost l bytes *)
Definition Trunc (l : N) (x : bytes) : bytes := firstn (N.to_nat l) x.

(** MGF1 (RFC 8017, B.2.1) with hash [Hash] of [hLen] bytes *)
Definition MGF1 (Hash : bytes -> bytes) (hLen : N) (mgfSeed : bytes) (maskLen : N) : bytes :=
  let T := for_ 0 (ceil_div maskLen hLen) (fun counter T => T ++ Hash (mgfSeed ++ toByte counter 4)) [] in
  firstn (N.to_nat maskLen) T.

(** HMAC (RFC 2104 / FIPS 198-1) with hash [Hash] of block size [B] *)
Definition xor_with (c : byte) (l : bytes) : bytes := map (fun b => byte_xor b c) l.
Definition HMAC (Hash : bytes -> bytes) (B : N) (K text : bytes) : bytes :=
  let K := if B <? nlen K then Hash K else K in
  let K0 := K ++ nrepeat x00 (B - nlen K) in
  Hash (xor_with Coq.Init.Byte.x5c K0 ++ Hash (xor_with Coq.Init.Byte.x36 K0 ++ text)).

(** the compressed address ADRSc of section 11.2 *)
Definition ADRSc (ADRS : bytes) : bytes :=
  sub_bytes ADRS 3 4 ++ sub_bytes ADRS 8 16 ++ sub_bytes ADRS 19 20 ++ sub_bytes ADRS 20 32.

Section Hash.
Context {PR : Prims} (P : FipsParams).
Let n := n_ P.
Let m := m_ P.

(** 11.1 *)
Definition shake_fns : HashFns := {|
  H_msg R PKseed PKroot M := shake256 (R ++ PKseed ++ PKroot ++ M) m;
  PRF PKseed SKseed ADRS := shake256 (PKseed ++ ADRS ++ SKseed) n;
  PRF_msg SKprf opt_rand M := shake256 (SKprf ++ opt_rand ++ M) n;
  F PKseed ADRS M1 := shake256 (PKseed ++ ADRS ++ M1) n;
  H PKseed ADRS M2 := shake256 (PKseed ++ ADRS ++ M2) n;
  T_l PKseed ADRS Ml := shake256 (PKseed ++ ADRS ++ Ml) n |}.

(** 11.2.1, security category 1 *)
Definition sha2_cat1_fns : HashFns := {|
  H_msg R PKseed PKroot M := MGF1 sha256 32 (R ++ PKseed ++ sha256 (R ++ PKseed ++ PKroot ++ M)) m;
  PRF PKseed SKseed ADRS := Trunc n (sha256 (PKseed ++ toByte 0 (64 - n) ++ ADRSc ADRS ++ SKseed));
  PRF_msg SKprf opt_rand M := Trunc n (HMAC sha256 64 SKprf (opt_rand ++ M));
  F PKseed ADRS M1 := Trunc n (sha256 (PKseed ++ toByte 0 (64 - n) ++ ADRSc ADRS ++ M1));
  H PKseed ADRS M2 := Trunc n (sha256 (PKseed ++ toByte 0 (64 - n) ++ ADRSc ADRS ++ M2));
  T_l PKseed ADRS Ml := Trunc n (sha256 (PKseed ++ toByte 0 (64 - n) ++ ADRSc ADRS ++ Ml)) |}.

(** 11.2.2, security categories 3 and 5 *)
Definition sha2_cat35_fns : HashFns := {|
  H_msg R PKseed PKroot M := MGF1 sha512 64 (R ++ PKseed ++ sha512 (R ++ PKseed ++ PKroot ++ M)) m;
  PRF PKseed SKseed ADRS := Trunc n (sha256 (PKseed ++ toByte 0 (64 - n) ++ ADRSc ADRS ++ SKseed));
  PRF_msg SKprf opt_rand M := Trunc n (HMAC sha512 128 SKprf (opt_rand ++ M));
  F PKseed ADRS M1 := Trunc n (sha256 (PKseed ++ toByte 0 (64 - n) ++ ADRSc ADRS ++ M1));
  H PKseed ADRS M2 := Trunc n (sha512 (PKseed ++ toByte 0 (128 - n) ++ ADRSc ADRS ++ M2));
  T_l PKseed ADRS Ml := Trunc n (sha512 (PKseed ++ toByte 0 (128 - n) ++ ADRSc ADRS ++ Ml)) |}.

End Hash.

(** Table 2: name, parameters, section of the hash functions, public-key and signature bytes *)
Inductive hash_section := Sec_11_1 | Sec_11_2_1 | Sec_11_2_2.
Inductive set_name :=
| SHA2_128s | SHAKE_128s | SHA2_128f | SHAKE_128f
| SHA2_192s | SHAKE_192s | SHA2_192f | SHAKE_192f
| SHA2_256s | SHAKE_256s | SHA2_256f | SHAKE_256f.

Record table2_row := row {
  t_n : N; t_h : N; t_d : N; t_h' : N; t_a : N; t_k : N; t_lgw : N; t_m : N;
  t_category : N; t_pk_bytes : N; t_sig_bytes : N }.

Definition table2 (s : set_name) : table2_row :=
  match s with
  | SHA2_128s | SHAKE_128s => row 16 63 7 9 12 14 4 30 1 32 7856
  | SHA2_128f | SHAKE_128f => row 16 66 22 3 6 33 4 34 1 32 17088
  | SHA2_192s | SHAKE_192s => row 24 63 7 9 14 17 4 39 3 48 16224
  | SHA2_192f | SHAKE_192f => row 24 66 22 3 8 33 4 42 3 48 35664
  | SHA2_256s | SHAKE_256s => row 32 64 8 8 14 22 4 47 5 64 29792
  | SHA2_256f | SHAKE_256f => row 32 68 17 4 9 35 4 49 5 64 49856
  end.

(** SHAKE sets use 11.1; SHA2 sets use 11.2.1 in category 1, else 11.2.2 *)
Definition section_of (s : set_name) : hash_section :=
  match s with
  | SHAKE_128s | SHAKE_128f | SHAKE_192s | SHAKE_192f | SHAKE_256s | SHAKE_256f => Sec_11_1
  | SHA2_128s | SHA2_128f => Sec_11_2_1
  | _ => Sec_11_2_2
  end.

Definition fips_params (s : set_name) : FipsParams :=
  let r := table2 s in
  mkFipsParams (t_n r) (t_h r) (t_d r) (t_h' r) (t_a r) (t_k r) (t_lgw r) (t_m r).

Definition fips_hash {PR : Prims} (s : set_name) : HashFns :=
  match section_of s with
  | Sec_11_1 => shake_fns (fips_params s)
  | Sec_11_2_1 => sha2_cat1_fns (fips_params s)
  | Sec_11_2_2 => sha2_cat35_fns (fips_params s)
  end.

(** Algorithm 23 lines 8-18: OID and digest per pre-hash function *)
Inductive prehash := PH_SHA256 | PH_SHA512 | PH_SHAKE128 | PH_SHAKE256.
Definition PH_fn {PR : Prims} (ph : prehash) (M : bytes) : bytes * bytes :=
  match ph with
  | PH_SHA256 => (toByte 0x0609608648016503040201 11, sha256 M)
  | PH_SHA512 => (toByte 0x0609608648016503040203 11, sha512 M)
  | PH_SHAKE128 => (toByte 0x060960864801650304020B 11, shake128 M 32)
  | PH_SHAKE256 => (toByte 0x060960864801650304020C 11, shake256 M 64)
  end.
