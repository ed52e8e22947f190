(** Model of src/hashers.rs. *)
From Verif Require Export Machine Model.Params Model.Prims Model.Helpers.

(** src/hashers.rs:7-15 [struct Hashers]: function pointers *)
Record Hashers := mkHashers {
  h_msg : bytes -> bytes -> bytes -> list bytes -> M bytes;
  prf : bytes -> bytes -> Adrs -> M bytes;
  prf_msg : bytes -> bytes -> list bytes -> M bytes;
  f : bytes -> Adrs -> bytes -> M bytes;
  h : bytes -> Adrs -> bytes -> bytes -> M bytes;
  t_l : bytes -> Adrs -> list bytes -> M bytes;
  t_len : bytes -> Adrs -> list bytes -> M bytes }.

Section Hashers.
Context {T : Target} {P : Prims}.

(** input.iter().for_each(|item| hasher.update(item)) (src/hashers.rs:34, 107, 218, 226) *)
Definition absorb_all (hs : bytes) (input : list bytes) : M bytes :=
  for_list input (fun item hs => ret (hasher_update hs item)) hs.

(** the message-piece arrays, e.g. src/hashers.rs:44-45:
    [let mut inp = [.., &[], &[], &[], &[], &[]]; inp[k..k + m.len()].copy_from_slice(m);] *)
Definition with_pieces (first : list bytes) (m : list bytes) : M (list bytes) :=
  let inp := first ++ [[]; []; []; []; []] in
  e <- add Usize (nlen first) (nlen m) ;;
  copy_into inp (nlen first) e m.

(** *** mod shake (src/hashers.rs:26-95) *)

(** src/hashers.rs:32-37 [shake256], with out.len() as argument *)
Definition shake_shake256 (input : list bytes) (out_len : N) : M bytes :=
  hs <- absorb_all hasher_new input ;;
  ret (shake256 hs out_len).

(** src/hashers.rs:40-48 *)
Definition shake_h_msg (cm : N) (r pkseed pkroot : bytes) (m : list bytes) : M bytes :=
  inp <- with_pieces [r; pkseed; pkroot] m ;;
  shake_shake256 inp cm.

(** src/hashers.rs:52-56 *)
Definition shake_prf (n : N) (pkseed skseed : bytes) (a : Adrs) : M bytes :=
  a32 <- to_32_bytes a ;;
  shake_shake256 [pkseed; a32; skseed] n.

(** src/hashers.rs:59-65 *)
Definition shake_prf_msg (n : N) (skprf opt_rand : bytes) (m : list bytes) : M bytes :=
  inp <- with_pieces [skprf; opt_rand] m ;;
  shake_shake256 inp n.

(** src/hashers.rs:68-72 *)
Definition shake_f (n : N) (pkseed : bytes) (a : Adrs) (m1 : bytes) : M bytes :=
  a32 <- to_32_bytes a ;;
  shake_shake256 [pkseed; a32; m1] n.

(** src/hashers.rs:75-79 *)
Definition shake_h (n : N) (pkseed : bytes) (a : Adrs) (m1 m2 : bytes) : M bytes :=
  a32 <- to_32_bytes a ;;
  shake_shake256 [pkseed; a32; m1; m2] n.

(** src/hashers.rs:83-94 *)
Definition shake_t_l (n : N) (pkseed : bytes) (a : Adrs) (ml : list bytes) : M bytes :=
  a32 <- to_32_bytes a ;;
  let hs := hasher_update (hasher_update hasher_new pkseed) a32 in
  hs <- absorb_all hs ml ;;
  ret (shake256 hs n).

(** *** shared by mod sha2_cat_1 and mod sha2_cat_3_5 *)

(** src/hashers.rs:105-110 and 216-221 [sha2_256]: [out.copy_from_slice(&result[0..out.len()])] *)
Definition sha2_256 (input : list bytes) (out_len : N) : M bytes :=
  hs <- absorb_all hasher_new input ;;
  slice (sha256 hs) 0 out_len.

(** src/hashers.rs:224-229 [sha2_512] *)
Definition sha2_512 (input : list bytes) (out_len : N) : M bytes :=
  hs <- absorb_all hasher_new input ;;
  slice (sha512 hs) 0 out_len.

(** src/hashers.rs:113-132 (block 32, SHA-256) and 232-251 (block 64, SHA-512): the two functions
    differ only in the block length [bl] and the hash [hash]. Fuel M + 1 for the while loop. *)
Definition sha2_h_msg (bl : N) (hash : list bytes -> N -> M bytes)
    (cm : N) (r pkseed pkroot : bytes) (m : list bytes) : M bytes :=
  inp <- with_pieces [r; pkseed; pkroot] m ;;
  digest1 <- hash inp bl ;;
  let result := nrepeat x00 cm in
  '(result, _, _) <- while (S (N.to_nat cm))
    (fun '(result, start, counter) => start <? cm)
    (fun '(result, start, counter) =>
       tmp <- hash [r; pkseed; digest1; be_bytes 4 counter] bl ;;
       left <- sub Usize cm start ;;
       let len := N.min left bl in
       e <- add Usize start len ;;
       src <- slice tmp 0 len ;;
       result <- copy_into result start e src ;;
       start <- add Usize start bl ;;
       counter <- add U32 counter 1 ;;
       ret (result, start, counter))
    (result, 0, 0) ;;
  ret result.

(** p ^= k for the first key.len() bytes of padding (src/hashers.rs:146-148, 265-267) *)
Fixpoint zip_xor (padding key : bytes) : bytes :=
  match padding, key with
  | p :: ps, k :: ks => byte_xor p k :: zip_xor ps ks
  | _, _ => padding
  end.

(** src/hashers.rs:144-160 [hmac_sha_256] (block 64) and 263-279 [hmac_sha_512] (block 128): the two
    functions differ only in block length and hash. The zip loop runs min(block, key.len()) times. *)
Definition hmac (block : N) (hash : bytes -> bytes) (key a0 : bytes) (m : list bytes) : M bytes :=
  let padding := nrepeat Coq.Init.Byte.x36 block in
  tick (ELoop 0 (N.min (nlen padding) (nlen key))) ;;;
  let padding := zip_xor padding key in
  let inner := hasher_update hasher_new padding in
  let inner := hasher_update inner a0 in
  inner <- absorb_all inner m ;;
  '(padding, _) <- map_mut padding (fun p (s : unit) => ret (byte_xor p Coq.Init.Byte.x6a, s)) tt ;;
  let outer := hasher_update hasher_new padding in
  let outer := hasher_update outer (hash inner) in
  ret (hash outer).

(** *** mod sha2_cat_1 (src/hashers.rs:99-201) *)

(** src/hashers.rs:113-132 *)
Definition cat1_h_msg := sha2_h_msg 32 sha2_256.

(** src/hashers.rs:136-141 *)
Definition cat1_prf (n : N) (pkseed skseed : bytes) (a : Adrs) : M bytes :=
  let zeros := nrepeat x00 48 in
  zl <- sub Usize 64 n ;;
  z <- slice zeros 0 zl ;;
  a22 <- to_22_bytes a ;;
  sha2_256 [pkseed; z; a22; skseed] n.

(** src/hashers.rs:163-168 *)
Definition cat1_prf_msg (n : N) (skprf opt_rand : bytes) (m : list bytes) : M bytes :=
  full <- hmac 64 sha256 skprf opt_rand m ;;
  d <- slice full 0 n ;;
  copy_from_slice (nrepeat x00 n) d.

(** src/hashers.rs:171-176 *)
Definition cat1_f (n : N) (pkseed : bytes) (a : Adrs) (m1 : bytes) : M bytes :=
  let zeros := nrepeat x00 48 in
  zl <- sub Usize 64 n ;;
  z <- slice zeros 0 zl ;;
  a22 <- to_22_bytes a ;;
  sha2_256 [pkseed; z; a22; m1] n.

(** src/hashers.rs:179-184 *)
Definition cat1_h (n : N) (pkseed : bytes) (a : Adrs) (m1 m2 : bytes) : M bytes :=
  let zeros := nrepeat x00 48 in
  zl <- sub Usize 64 n ;;
  z <- slice zeros 0 zl ;;
  a22 <- to_22_bytes a ;;
  sha2_256 [pkseed; z; a22; m1; m2] n.

(** src/hashers.rs:187-200 *)
Definition cat1_t_l (n : N) (pkseed : bytes) (a : Adrs) (ml : list bytes) : M bytes :=
  let zeros := nrepeat x00 48 in
  let hs := hasher_update hasher_new pkseed in
  zl <- sub Usize 64 n ;;
  z <- slice zeros 0 zl ;;
  let hs := hasher_update hs z in
  a22 <- to_22_bytes a ;;
  let hs := hasher_update hs a22 in
  hs <- absorb_all hs ml ;;
  d <- slice (sha256 hs) 0 n ;;
  copy_from_slice (nrepeat x00 n) d.

(** *** mod sha2_cat_3_5 (src/hashers.rs:210-320) *)

(** src/hashers.rs:232-251 *)
Definition cat35_h_msg := sha2_h_msg 64 sha2_512.

(** src/hashers.rs:255-260 *)
Definition cat35_prf (n : N) (pkseed skseed : bytes) (a : Adrs) : M bytes :=
  let zeros := nrepeat x00 40 in
  zl <- sub Usize 64 n ;;
  z <- slice zeros 0 zl ;;
  a22 <- to_22_bytes a ;;
  sha2_256 [pkseed; z; a22; skseed] n.

(** src/hashers.rs:282-287 *)
Definition cat35_prf_msg (n : N) (skprf opt_rand : bytes) (m : list bytes) : M bytes :=
  full <- hmac 128 sha512 skprf opt_rand m ;;
  d <- slice full 0 n ;;
  copy_from_slice (nrepeat x00 n) d.

(** src/hashers.rs:290-295 *)
Definition cat35_f (n : N) (pkseed : bytes) (a : Adrs) (m1 : bytes) : M bytes :=
  let zeros := nrepeat x00 40 in
  zl <- sub Usize 64 n ;;
  z <- slice zeros 0 zl ;;
  a22 <- to_22_bytes a ;;
  sha2_256 [pkseed; z; a22; m1] n.

(** src/hashers.rs:298-303 *)
Definition cat35_h (n : N) (pkseed : bytes) (a : Adrs) (m1 m2 : bytes) : M bytes :=
  let zeros := nrepeat x00 104 in
  zl <- sub Usize 128 n ;;
  z <- slice zeros 0 zl ;;
  a22 <- to_22_bytes a ;;
  sha2_512 [pkseed; z; a22; m1; m2] n.

(** src/hashers.rs:306-319 *)
Definition cat35_t_l (n : N) (pkseed : bytes) (a : Adrs) (ml : list bytes) : M bytes :=
  let zeros := nrepeat x00 104 in
  let hs := hasher_update hasher_new pkseed in
  zl <- sub Usize 128 n ;;
  z <- slice zeros 0 zl ;;
  let hs := hasher_update hs z in
  a22 <- to_22_bytes a ;;
  let hs := hasher_update hs a22 in
  hs <- absorb_all hs ml ;;
  d <- slice (sha512 hs) 0 n ;;
  copy_from_slice (nrepeat x00 n) d.

(** *** static HASHERS of each parameter module (src/lib.rs:472-473 etc.): t_len is t_l instantiated
    at K instead of LEN. *)
Definition HASHERS (p : Params) : Hashers :=
  let n := cN p in
  match cfam p with
  | Shake => mkHashers (shake_h_msg (cM p)) (shake_prf n) (shake_prf_msg n)
                       (shake_f n) (shake_h n) (shake_t_l n) (shake_t_l n)
  | Sha2Cat1 => mkHashers (cat1_h_msg (cM p)) (cat1_prf n) (cat1_prf_msg n)
                          (cat1_f n) (cat1_h n) (cat1_t_l n) (cat1_t_l n)
  | Sha2Cat35 => mkHashers (cat35_h_msg (cM p)) (cat35_prf n) (cat35_prf_msg n)
                           (cat35_f n) (cat35_h n) (cat35_t_l n) (cat35_t_l n)
  end.

(** *** hash_message (src/hashers.rs:322-375): the OID, the buffer phm and the digest length. The XOF
    read at 358 fills exactly 32 bytes, the one at 370 exactly 64. *)
Definition oid_of_last (b : byte) : bytes :=
  [Coq.Init.Byte.x06; Coq.Init.Byte.x09; Coq.Init.Byte.x60; Coq.Init.Byte.x86; Coq.Init.Byte.x48;
   Coq.Init.Byte.x01; Coq.Init.Byte.x65; Coq.Init.Byte.x03; Coq.Init.Byte.x04; Coq.Init.Byte.x02; b].

(** src/hashers.rs:322-375 [hash_message] *)
Definition hash_message (message : bytes) (ph : Ph) (phm : bytes) : M (bytes * bytes * N) :=
  let hs := hasher_update hasher_new message in
  match ph with
  | PhSHA256 =>
      phm <- copy_into phm 0 32 (sha256 hs) ;;
      ret (oid_of_last Coq.Init.Byte.x01, phm, 32)
  | PhSHA512 =>
      phm <- copy_from_slice phm (sha512 hs) ;;
      ret (oid_of_last Coq.Init.Byte.x03, phm, 64)
  | PhSHAKE128 =>
      phm <- copy_into phm 0 32 (shake128 hs 32) ;;
      ret (oid_of_last Coq.Init.Byte.x0b, phm, 32)
  | PhSHAKE256 =>
      phm <- copy_from_slice phm (shake256 hs (nlen phm)) ;;
      ret (oid_of_last Coq.Init.Byte.x0c, phm, 64)
  end.

End Hashers.
