(** Model of src/wots.rs. Calls through the [Hashers] function pointers record an [EHash] event. *)
From Verif Require Export Machine Model.Params Model.Helpers Model.Hashers.

(** (hashers.f)(pk_seed, adrs, m1) and the other function-pointer calls (src/hashers.rs:7-16 Hashers;
    src/wots.rs:36, 78, 99, 162, 247, src/xmss.rs:62, 180, 190, src/fors.rs:28, 67, 86, 203, 222, 232, 259,
    src/slh.rs:160, 178, 309) *)
Definition call_f (hs : Hashers) (pkseed : bytes) (a : Adrs) (x : bytes) : M bytes :=
  tick (EHash KF pkseed a [x]) ;;; f hs pkseed a x.
(** src/fors.rs:86, 222, 232, src/xmss.rs:62, 180, 190 *)
Definition call_h (hs : Hashers) (pkseed : bytes) (a : Adrs) (x y : bytes) : M bytes :=
  tick (EHash KH pkseed a [x; y]) ;;; h hs pkseed a x y.
(** src/wots.rs:99, 247 *)
Definition call_t_l (hs : Hashers) (pkseed : bytes) (a : Adrs) (ml : list bytes) : M bytes :=
  tick (EHash KTl pkseed a ml) ;;; t_l hs pkseed a ml.
(** src/fors.rs:259 *)
Definition call_t_len (hs : Hashers) (pkseed : bytes) (a : Adrs) (ml : list bytes) : M bytes :=
  tick (EHash KTlen pkseed a ml) ;;; t_len hs pkseed a ml.
(** src/fors.rs:28, src/wots.rs:78, 162 *)
Definition call_prf (hs : Hashers) (pkseed skseed : bytes) (a : Adrs) : M bytes :=
  tick (EHash KPRF pkseed a [skseed]) ;;; prf hs pkseed skseed a.
(** src/slh.rs:178, 309 *)
Definition call_h_msg (hs : Hashers) (r pkseed pkroot : bytes) (m : list bytes) : M bytes :=
  tick (EHmsg r pkseed pkroot m) ;;; h_msg hs r pkseed pkroot m.
(** src/slh.rs:160 *)
Definition call_prf_msg (hs : Hashers) (skprf opt_rand : bytes) (m : list bytes) : M bytes :=
  tick (EPrfMsg skprf opt_rand m) ;;; prf_msg hs skprf opt_rand m.

Section Wots.
Context {T : Target} (p : Params) (hs : Hashers).
Let n := cN p.

(** src/wots.rs:16-43 [chain] *)
Definition chain (cap_x : bytes) (i s : N) (pkseed : bytes) (adrs : Adrs) : M bytes :=
  debug_assert (e <- add U32 i s ;; ret (e <? max_of U32)) ;;;
  e <- add U32 i s ;;
  '(tmp, _) <- for_range i e
    (fun j '(tmp, adrs) =>
       let adrs := set_hash_address adrs j in
       tmp <- call_f hs pkseed adrs tmp ;;
       ret (tmp, adrs))
    (cap_x, adrs) ;;
  ret tmp.

(** src/wots.rs:55-103 [wots_pkgen] *)
Definition wots_pkgen (skseed pkseed : bytes) (adrs : Adrs) : M bytes :=
  len32 <- try_u32_unwrap (cLEN p) ;;
  let tmp := nrepeat (nrepeat x00 n) (cLEN p) in
  let sk_adrs := set_type_and_clear adrs WOTS_PRF in
  let sk_adrs := set_key_pair_address sk_adrs (get_key_pair_address adrs) in
  '(tmp, adrs, _) <- for_range 0 len32
    (fun i '(tmp, adrs, sk_adrs) =>
       let sk_adrs := set_chain_address sk_adrs i in
       sk <- call_prf hs pkseed skseed sk_adrs ;;
       let adrs := set_chain_address adrs i in
       w1 <- sub U32 W 1 ;;
       v <- chain sk 0 w1 pkseed adrs ;;
       tmp <- upd tmp (cast Usize i) v ;;
       ret (tmp, adrs, sk_adrs))
    (tmp, adrs, sk_adrs) ;;
  let wotspk_adrs := set_type_and_clear adrs WOTS_PK in
  let wotspk_adrs := set_key_pair_address wotspk_adrs (get_key_pair_address adrs) in
  call_t_l hs pkseed wotspk_adrs tmp.

(** src/wots.rs:115 and 119-144, the first part of [wots_sign]: the base-w digits of the message and
    of its checksum *)
Definition wots_sign_digits (m : bytes) : M (list N) :=
  n32 <- try_u32_unwrap n ;;
  let msg := nrepeat 0 (cLEN p) in
  n2 <- mul Usize 2 n ;;
  n232 <- mul U32 2 n32 ;;
  lo <- slice msg 0 n2 ;;
  lo <- base_2b m LGW n232 lo ;;
  let msg := splice msg 0 lo in
  csum <- for_list (firstn (N.to_nat n2) msg)
    (fun item csum =>
       w1 <- sub U32 W 1 ;;
       x <- sub U32 w1 item ;;
       add U32 csum x)
    0 ;;
  l <- mul U32 LEN2 LGW ;;
  sh <- sub U32 8 (N.land l 7) ;;
  csum <- shl U32 csum (N.land sh 7) ;;
  l7 <- add U32 l 7 ;;
  lb <- div l7 8 ;;
  cb <- to_byte csum lb ;;
  hi <- slice msg n2 (nlen msg) ;;
  hi <- base_2b cb LGW LEN2 hi ;;
  ret (splice msg n2 hi).

(** src/wots.rs:112-175 [wots_sign] *)
Definition wots_sign (m skseed pkseed : bytes) (adrs : Adrs) : M (list bytes) :=
  let sig := nrepeat (nrepeat x00 n) (cLEN p) in
  msg <- wots_sign_digits m ;;
  let sk_adrs := set_type_and_clear adrs WOTS_PRF in
  let sk_adrs := set_key_pair_address sk_adrs (get_key_pair_address adrs) in
  (* 156: for (item, i) in msg.iter().zip(0u32..) *)
  '(sig, _, _) <- for_range 0 (nlen msg)
    (fun i '(sig, adrs, sk_adrs) =>
       item <- index msg i ;;
       let sk_adrs := set_chain_address sk_adrs i in
       sk <- call_prf hs pkseed skseed sk_adrs ;;
       let adrs := set_chain_address adrs i in
       v <- chain sk 0 item pkseed adrs ;;
       sig <- upd sig (cast Usize i) v ;;
       ret (sig, adrs, sk_adrs))
    (sig, adrs, sk_adrs) ;;
  ret sig.

(** src/wots.rs:186 and 190-215, the first part of [wots_pk_from_sig] *)
Definition wots_pk_digits (m : bytes) : M (list N) :=
  n32 <- try_u32_unwrap n ;;
  let msg := nrepeat 0 (cLEN p) in
  n2 <- mul Usize 2 n ;;
  n232 <- mul U32 2 n32 ;;
  lo <- slice msg 0 n2 ;;
  lo <- base_2b m LGW n232 lo ;;
  let msg := splice msg 0 lo in
  csum <- for_list (firstn (N.to_nat n2) msg)
    (fun item csum =>
       w1 <- sub U32 W 1 ;;
       x <- sub U32 w1 item ;;
       add U32 csum x)
    0 ;;
  l <- mul U32 LEN2 LGW ;;
  sh <- sub U32 8 (N.land l 7) ;;
  csum <- shl U32 csum (N.land sh 7) ;;
  l7 <- add U32 l 7 ;;
  lb <- div l7 8 ;;
  cb <- to_byte csum lb ;;
  hi <- slice msg n2 (nlen msg) ;;
  hi <- base_2b cb LGW LEN2 hi ;;
  ret (splice msg n2 hi).

(** src/wots.rs:183-251 [wots_pk_from_sig] *)
Definition wots_pk_from_sig (sig : list bytes) (m pkseed : bytes) (adrs : Adrs) : M bytes :=
  let tmp := nrepeat (nrepeat x00 n) (cLEN p) in
  msg <- wots_pk_digits m ;;
  '(tmp, adrs) <- for_range 0 (cLEN p)
    (fun i '(tmp, adrs) =>
       let adrs := set_chain_address adrs (cast U32 i) in
       s <- index sig i ;;
       mi <- index msg i ;;
       w1 <- sub U32 W 1 ;;
       st <- sub U32 w1 mi ;;
       v <- chain s mi st pkseed adrs ;;
       tmp <- upd tmp i v ;;
       ret (tmp, adrs))
    (tmp, adrs) ;;
  let wotspk_adrs := set_type_and_clear adrs WOTS_PK in
  let wotspk_adrs := set_key_pair_address wotspk_adrs (get_key_pair_address adrs) in
  call_t_l hs pkseed wotspk_adrs tmp.

End Wots.
