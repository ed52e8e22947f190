(** Model of src/helpers.rs. *)
From Verif Require Export Machine Model.Params.

Section Helpers.
Context {T : Target}.

(** src/helpers.rs:9-27 [to_int] *)
Definition to_int (x : bytes) (n : N) : M N :=
  debug_assert (ret (nlen x =? cast Usize n)) ;;;
  debug_assert (ret (n <=? 8)) ;;;
  for_list (firstn (N.to_nat (cast Usize n)) x)
    (fun item total =>
       s <- shl U64 total 8 ;;
       add U64 s (b2n item))
    0.

(** src/helpers.rs:35-57 [to_byte]; the array size ((LEN2*LGW+7)/8) is a constant expression *)
Definition to_byte (x n : N) : M bytes :=
  let s := nrepeat x00 ((LEN2 * LGW + 7) / 8) in
  debug_assert (ret (n =? (LEN2 * LGW + 7) / 8)) ;;;
  debug_assert (ret (n =? 2)) ;;;
  '(s, _) <- for_range 0 n
    (fun i '(s, total) =>
       n1 <- sub U32 n 1 ;;
       ix <- sub U32 n1 i ;;
       s <- upd s (cast Usize ix) (n2b total) ;;   (* total.to_le_bytes()[0] *)
       total <- shr U32 total 8 ;;
       ret (s, total))
    (s, x) ;;
  ret s.

(** src/helpers.rs:65-107 [base_2b]; [baseb] is the mutable output slice, returned. The inner while
    loop (83-95) runs at most b times, its fuel. *)
Definition base_2b (x : bytes) (b out_len : N) (baseb : list N) : M (list N) :=
  debug_assert (m <- mul U32 out_len b ;; m7 <- add U32 m 7 ;; q <- div m7 8 ;;
                ret (cast Usize q <=? nlen x)) ;;;
  debug_assert (ret (b <? 16)) ;;;
  debug_assert (ret (cast Usize out_len =? nlen baseb)) ;;;
  '(baseb, _) <- map_mut baseb
    (fun _ '(inn, bits, total) =>
       '(inn, bits, total) <- while (S (N.to_nat b))
         (fun '(inn, bits, total) => bits <? b)
         (fun '(inn, bits, total) =>
            t8 <- shl U32 total 8 ;;
            xi <- index x inn ;;
            total <- add U32 t8 (b2n xi) ;;
            inn <- add Usize inn 1 ;;
            bits <- add U32 bits 8 ;;
            ret (inn, bits, total))
         (inn, bits, total) ;;
       bits <- sub U32 bits b ;;
       v <- shr U32 total bits ;;
       sh <- sub U32 32 b ;;
       mask <- shr U32 (max_of U32) sh ;;
       ret (N.land v mask, (inn, bits, total)))
    (0, 0, 0) ;;
  ret baseb.

(** *** Adrs (src/helpers.rs:199-268). The setters only assign fields and cannot panic. *)

(** src/types.rs:114 [derive(Default)] *)
Definition adrs_default : Adrs :=
  let z := nrepeat x00 4 in mkAdrs z z z z z z z z.

(** src/helpers.rs:200 *)
Definition set_layer_address (s : Adrs) (la : N) : Adrs :=
  mkAdrs (be_bytes 4 la) (f1 s) (f2 s) (f3 s) (f4 s) (f5 s) (f6 s) (f7 s).
(** src/helpers.rs:202 *)
Definition get_key_pair_address (s : Adrs) : N := of_be (f5 s).
(** src/helpers.rs:204 *)
Definition set_key_pair_address (s : Adrs) (kp : N) : Adrs :=
  mkAdrs (f0 s) (f1 s) (f2 s) (f3 s) (f4 s) (be_bytes 4 kp) (f6 s) (f7 s).
(** src/helpers.rs:206 *)
Definition set_chain_address (s : Adrs) (i : N) : Adrs :=
  mkAdrs (f0 s) (f1 s) (f2 s) (f3 s) (f4 s) (f5 s) (be_bytes 4 i) (f7 s).
(** src/helpers.rs:208-213 *)
Definition set_type_and_clear (s : Adrs) (t : N) : Adrs :=
  mkAdrs (f0 s) (f1 s) (f2 s) (f3 s) (be_bytes 4 t) (be_bytes 4 0) (be_bytes 4 0) (be_bytes 4 0).
(** src/helpers.rs:215-219; the slices ..4 and 4.. of an 8-byte array cannot fail *)
Definition set_tree_address (s : Adrs) (t : N) : Adrs :=
  let bs := be_bytes 8 t in
  mkAdrs (f0 s) (f1 s) (sub_bytes bs 0 4) (sub_bytes bs 4 8) (f4 s) (f5 s) (f6 s) (f7 s).
(** src/helpers.rs:221 *)
Definition set_hash_address (s : Adrs) (addr : N) : Adrs :=
  mkAdrs (f0 s) (f1 s) (f2 s) (f3 s) (f4 s) (f5 s) (f6 s) (be_bytes 4 addr).
(** src/helpers.rs:223 *)
Definition set_tree_height (s : Adrs) (z : N) : Adrs :=
  mkAdrs (f0 s) (f1 s) (f2 s) (f3 s) (f4 s) (f5 s) (be_bytes 4 z) (f7 s).
(** src/helpers.rs:225 *)
Definition get_tree_index (s : Adrs) : N := of_be (f7 s).
(** src/helpers.rs:227 *)
Definition set_tree_index (s : Adrs) (i : N) : Adrs :=
  mkAdrs (f0 s) (f1 s) (f2 s) (f3 s) (f4 s) (f5 s) (f6 s) (be_bytes 4 i).

(** src/helpers.rs:237-247 [to_32_bytes] *)
Definition to_32_bytes (s : Adrs) : M bytes :=
  let r := nrepeat x00 32 in
  '(r, _) <- for_list [f0 s; f1 s; f2 s; f3 s; f4 s; f5 s; f6 s; f7 s]
    (fun sl '(r, start) =>
       e <- add Usize start 4 ;;
       r <- copy_into r start e sl ;;
       start <- add Usize start 4 ;;
       ret (r, start))
    (r, 0) ;;
  ret r.

(** src/helpers.rs:257-267 [to_22_bytes] *)
Definition to_22_bytes (s : Adrs) : M bytes :=
  let r := nrepeat x00 22 in
  b0 <- index (f0 s) 3 ;;
  r <- upd r 0 b0 ;;
  r <- copy_into r 1 5 (f2 s) ;;
  r <- copy_into r 5 9 (f3 s) ;;
  b9 <- index (f4 s) 3 ;;
  r <- upd r 9 b9 ;;
  r <- copy_into r 10 14 (f5 s) ;;
  r <- copy_into r 14 18 (f6 s) ;;
  r <- copy_into r 18 22 (f7 s) ;;
  ret r.

(** *** Signature encoding (src/helpers.rs:110-196) *)
Section Sig.
Context (p : Params).
Let n := cN p.

(** the expected length, evaluated in the debug assertions at src/helpers.rs:121-126 and 153-158:
    N + N*K + K*A*N + D*(HP*N + LEN*N) in usize arithmetic *)
Definition expected_sig_len : M N :=
  nk <- mul Usize n (cK p) ;;
  s1 <- add Usize n nk ;;
  ka <- mul Usize (cK p) (cA p) ;;
  kan <- mul Usize ka n ;;
  s2 <- add Usize s1 kan ;;
  hpn <- mul Usize (cHP p) n ;;
  ln <- mul Usize (cLEN p) n ;;
  x <- add Usize hpn ln ;;
  dx <- mul Usize (cD p) x ;;
  add Usize s2 dx.

(** the pattern [out[start..(start + N)].copy_from_slice(&src); start += N] of
    src/helpers.rs:130-131, 133-134, 139-141, 144-145 *)
Definition put (st : bytes * N) (src : bytes) : M (bytes * N) :=
  let (out, start) := st in
  e <- add Usize start n ;;
  out <- copy_into out start e src ;;
  start <- add Usize start n ;;
  ret (out, start).

(** src/helpers.rs:119-150 [serialize] *)
Definition serialize (sg : SlhDsaSig) : M bytes :=
  let out := nrepeat x00 (cSIG_LEN p) in
  debug_assert (e <- expected_sig_len ;; ret (nlen out =? e)) ;;;
  out <- copy_into out 0 n (randomness sg) ;;
  st <- for_range 0 (cK p)
    (fun k st =>
       v <- index (private_key_value (fors_sig sg)) k ;;
       st <- put st v ;;
       for_range 0 (cA p)
         (fun a st =>
            tr <- index (fors_auth (fors_sig sg)) k ;;
            v <- index tr a ;;
            put st v) st)
    (out, n) ;;
  st <- for_range 0 (cD p)
    (fun d st =>
       st <- for_range 0 (cLEN p)
         (fun len st =>
            xs <- index (ht_sig sg) d ;;
            v <- index (sig_wots xs) len ;;
            put st v) st ;;
       for_range 0 (cHP p)
         (fun hp st =>
            xs <- index (ht_sig sg) d ;;
            v <- index (xmss_auth xs) hp ;;
            put st v) st)
    st ;;
  let (out, start) := st in
  debug_assert (ret (start =? nlen out)) ;;;
  ret out.

(** the pattern [dst[i].copy_from_slice(&bytes[start..(start + N)]); start += N] of
    src/helpers.rs:175-176, 178-179, 184-186, 189-190; returns the new dst and start *)
Definition get (bs : bytes) (start : N) (dst : list bytes) (i : N) : M (list bytes * N) :=
  e <- add Usize start n ;;
  src <- slice bs start e ;;
  old <- index dst i ;;
  v <- copy_from_slice old src ;;
  dst <- upd dst i v ;;
  start <- add Usize start n ;;
  ret (dst, start).

(** src/helpers.rs:159-171: the all-zero signature *)
Definition zero_fors_sig : ForsSig :=
  mkForsSig (nrepeat (nrepeat x00 n) (cK p)) (nrepeat (nrepeat (nrepeat x00 n) (cA p)) (cK p)).
(** src/helpers.rs:166-169 *)
Definition zero_xmss_sig : XmssSig :=
  mkXmssSig (nrepeat (nrepeat x00 n) (cLEN p)) (nrepeat (nrepeat x00 n) (cHP p)).
(** src/helpers.rs:165-170 *)
Definition zero_ht_sig : list XmssSig := nrepeat zero_xmss_sig (cD p).

(** src/helpers.rs:152-195 [deserialize] *)
Definition deserialize (bs : bytes) : M SlhDsaSig :=
  debug_assert (e <- expected_sig_len ;; ret (nlen bs =? e)) ;;;
  r0 <- slice bs 0 n ;;
  r <- copy_from_slice (nrepeat x00 n) r0 ;;
  '(fs, start) <- for_range 0 (cK p)
    (fun k '(fs, start) =>
       '(pkv, start) <- get bs start (private_key_value fs) k ;;
       let fs := mkForsSig pkv (fors_auth fs) in
       for_range 0 (cA p)
         (fun a '(fs, start) =>
            tr <- index (fors_auth fs) k ;;
            '(tr, start) <- get bs start tr a ;;
            au <- upd (fors_auth fs) k tr ;;
            ret (mkForsSig (private_key_value fs) au, start))
         (fs, start))
    (zero_fors_sig, n) ;;
  '(ht, start) <- for_range 0 (cD p)
    (fun d '(ht, start) =>
       '(ht, start) <- for_range 0 (cLEN p)
         (fun len '(ht, start) =>
            xs <- index ht d ;;
            '(w, start) <- get bs start (sig_wots xs) len ;;
            ht <- upd ht d (mkXmssSig w (xmss_auth xs)) ;;
            ret (ht, start))
         (ht, start) ;;
       for_range 0 (cHP p)
         (fun hp '(ht, start) =>
            xs <- index ht d ;;
            '(au, start) <- get bs start (xmss_auth xs) hp ;;
            ht <- upd ht d (mkXmssSig (sig_wots xs) au) ;;
            ret (ht, start))
         (ht, start))
    (zero_ht_sig, start) ;;
  debug_assert (ret (start =? nlen bs)) ;;;
  ret (mkSlhDsaSig r fs ht).

End Sig.
End Helpers.
