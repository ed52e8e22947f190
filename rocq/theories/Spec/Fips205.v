(** FIPS 205 (August 2024), Algorithms 1-25, transcribed from the standard. Nothing here refers to
    the Rust code or to its model. Byte strings are lists of bytes, integers are unbounded,
    X[i:j] is [sub_bytes X i j]. Loops are [for_]; an array filled by a loop is the list of its
    entries in order. A function that changes its ADRS argument changes its own copy. *)
From Verif Require Import Bytes.

(** for i from lo to hi - 1 do s <- body i s *)
Definition for_ {S : Type} (lo hi : N) (body : N -> S -> S) (s : S) : S :=
  fold_left (fun s i => body i s) (nseq lo (N.to_nat (hi - lo))) s.

Definition ceil_div (x y : N) : N := (x + y - 1) / y.

(** *** Algorithm 1, gen_len2(n, lg_w). The while loop ends after at most max_checksum rounds,
    as the capacity at least doubles in each. *)
Definition gen_len2 (n lg_w : N) : N :=
  let w := 2 ^ lg_w in
  let len1 := (8 * n + lg_w - 1) / lg_w in
  let max_checksum := len1 * (w - 1) in
  fst (for_ 0 max_checksum
         (fun _ '(len2, capacity) =>
            if capacity <=? max_checksum then (len2 + 1, capacity * w) else (len2, capacity))
         (1, w)).

(** *** Section 4.4: Algorithms 2, 3, 4 *)

Definition toInt (X : bytes) (n : N) : N :=
  for_ 0 n (fun i total => 256 * total + b2n (nth (N.to_nat i) X x00)) 0.

Definition toByte (x n : N) : bytes :=
  fst (for_ 0 n (fun _ '(str, total) => (n2b (total mod 256) :: str, total / 256)) ([], x)).

(** the while loop "while bits < b" runs ceil((b - bits) / 8) times *)
Definition base_2b (X : bytes) (b out_len : N) : list N :=
  let '(baseb, _, _, _) :=
    for_ 0 out_len
      (fun _ '(baseb, inn, bits, total) =>
         let '(inn, bits, total) :=
           N.iter (ceil_div (b - bits) 8)
             (fun '(inn, bits, total) =>
                (inn + 1, bits + 8, total * 256 + b2n (nth (N.to_nat inn) X x00)))
             (inn, bits, total) in
         let bits := bits - b in
         (baseb ++ [(total / 2 ^ bits) mod 2 ^ b], inn, bits, total))
      ([], 0, 0, 0) in
  baseb.

(** *** Section 4.2, 4.3: addresses, 32 bytes, Table 1 *)
Definition WOTS_HASH : N := 0.
Definition WOTS_PK : N := 1.
Definition TREE : N := 2.
Definition FORS_TREE : N := 3.
Definition FORS_ROOTS : N := 4.
Definition WOTS_PRF : N := 5.
Definition FORS_PRF : N := 6.

Definition setLayerAddress (ADRS : bytes) (l : N) := toByte l 4 ++ sub_bytes ADRS 4 32.
Definition setTreeAddress (ADRS : bytes) (t : N) :=
  sub_bytes ADRS 0 4 ++ toByte t 12 ++ sub_bytes ADRS 16 32.
Definition setTypeAndClear (ADRS : bytes) (Y : N) :=
  sub_bytes ADRS 0 16 ++ toByte Y 4 ++ toByte 0 12.
Definition setKeyPairAddress (ADRS : bytes) (i : N) :=
  sub_bytes ADRS 0 20 ++ toByte i 4 ++ sub_bytes ADRS 24 32.
Definition setChainAddress (ADRS : bytes) (i : N) :=
  sub_bytes ADRS 0 24 ++ toByte i 4 ++ sub_bytes ADRS 28 32.
Definition setTreeHeight (ADRS : bytes) (i : N) :=
  sub_bytes ADRS 0 24 ++ toByte i 4 ++ sub_bytes ADRS 28 32.
Definition setHashAddress (ADRS : bytes) (i : N) := sub_bytes ADRS 0 28 ++ toByte i 4.
Definition setTreeIndex (ADRS : bytes) (i : N) := sub_bytes ADRS 0 28 ++ toByte i 4.
Definition getKeyPairAddress (ADRS : bytes) : N := toInt (sub_bytes ADRS 20 24) 4.
Definition getTreeIndex (ADRS : bytes) : N := toInt (sub_bytes ADRS 28 32) 4.

(** *** Section 4.1: the hash functions, a parameter of the algorithms *)
Record HashFns := mkHashFns {
  PRF_msg : bytes -> bytes -> bytes -> bytes;           (* SK.prf, opt_rand, M *)
  H_msg : bytes -> bytes -> bytes -> bytes -> bytes;    (* R, PK.seed, PK.root, M *)
  PRF : bytes -> bytes -> bytes -> bytes;               (* PK.seed, SK.seed, ADRS *)
  T_l : bytes -> bytes -> bytes -> bytes;               (* PK.seed, ADRS, M_l *)
  H : bytes -> bytes -> bytes -> bytes;                 (* PK.seed, ADRS, M_2 *)
  F : bytes -> bytes -> bytes -> bytes }.               (* PK.seed, ADRS, M_1 *)

Record FipsParams := mkFipsParams {
  n_ : N; h_ : N; d_ : N; h'_ : N; a_ : N; k_ : N; lg_w_ : N; m_ : N }.

Section Algorithms.
Context (P : FipsParams) (HF : HashFns).
Let n := n_ P.
Let h := h_ P.
Let d := d_ P.
Let h' := h'_ P.
Let a := a_ P.
Let k := k_ P.
Let lg_w := lg_w_ P.

(** equations 5.1 - 5.4 *)
Definition w_ : N := 2 ^ lg_w.
Definition len1_ : N := ceil_div (8 * n) lg_w.
Definition len2_ : N := N.log2 (len1_ * (w_ - 1)) / lg_w + 1.
Definition len_ : N := len1_ + len2_.
Let w := w_.
Let len1 := len1_.
Let len2 := len2_.
Let len := len_.

(** *** Section 5: WOTS+ *)

(** Algorithm 5 *)
Definition chain (X : bytes) (i s : N) (PKseed ADRS : bytes) : bytes :=
  fst (for_ i (i + s)
         (fun j '(tmp, ADRS) =>
            let ADRS := setHashAddress ADRS j in
            (F HF PKseed ADRS tmp, ADRS))
         (X, ADRS)).

(** Algorithm 6 *)
Definition wots_pkGen (SKseed PKseed ADRS : bytes) : bytes :=
  let skADRS := ADRS in
  let skADRS := setTypeAndClear skADRS WOTS_PRF in
  let skADRS := setKeyPairAddress skADRS (getKeyPairAddress ADRS) in
  let '(tmp, ADRS, _) :=
    for_ 0 len
      (fun i '(tmp, ADRS, skADRS) =>
         let skADRS := setChainAddress skADRS i in
         let sk := PRF HF PKseed SKseed skADRS in
         let ADRS := setChainAddress ADRS i in
         (tmp ++ [chain sk 0 (w - 1) PKseed ADRS], ADRS, skADRS))
      ([], ADRS, skADRS) in
  let wotspkADRS := ADRS in
  let wotspkADRS := setTypeAndClear wotspkADRS WOTS_PK in
  let wotspkADRS := setKeyPairAddress wotspkADRS (getKeyPairAddress ADRS) in
  T_l HF PKseed wotspkADRS (concat tmp).

(** Algorithm 7 lines 1-7, the same lines as in Algorithm 8 *)
Definition wots_digits (M : bytes) : list N :=
  let msg := base_2b M lg_w len1 in
  let csum := for_ 0 len1 (fun i csum => csum + w - 1 - nth (N.to_nat i) msg 0) 0 in
  let csum := csum * 2 ^ ((8 - ((len2 * lg_w) mod 8)) mod 8) in
  msg ++ base_2b (toByte csum (ceil_div (len2 * lg_w) 8)) lg_w len2.

(** Algorithm 7; the signature is the array of its n-byte strings *)
Definition wots_sign (M SKseed PKseed ADRS : bytes) : list bytes :=
  let msg := wots_digits M in
  let skADRS := ADRS in
  let skADRS := setTypeAndClear skADRS WOTS_PRF in
  let skADRS := setKeyPairAddress skADRS (getKeyPairAddress ADRS) in
  let '(sig, _, _) :=
    for_ 0 len
      (fun i '(sig, ADRS, skADRS) =>
         let skADRS := setChainAddress skADRS i in
         let sk := PRF HF PKseed SKseed skADRS in
         let ADRS := setChainAddress ADRS i in
         (sig ++ [chain sk 0 (nth (N.to_nat i) msg 0) PKseed ADRS], ADRS, skADRS))
      ([], ADRS, skADRS) in
  sig.

(** Algorithm 8 *)
Definition wots_pkFromSig (sig : bytes) (M PKseed ADRS : bytes) : bytes :=
  let msg := wots_digits M in
  let '(tmp, ADRS) :=
    for_ 0 len
      (fun i '(tmp, ADRS) =>
         let ADRS := setChainAddress ADRS i in
         let mi := nth (N.to_nat i) msg 0 in
         (tmp ++ [chain (sub_bytes sig (i * n) ((i + 1) * n)) mi (w - 1 - mi) PKseed ADRS], ADRS))
      ([], ADRS) in
  let wotspkADRS := ADRS in
  let wotspkADRS := setTypeAndClear wotspkADRS WOTS_PK in
  let wotspkADRS := setKeyPairAddress wotspkADRS (getKeyPairAddress ADRS) in
  T_l HF PKseed wotspkADRS (concat tmp).

(** *** Section 6: XMSS *)

(** Algorithm 9; recursion on the height z *)
Fixpoint xmss_node (SKseed : bytes) (i : N) (z : nat) (PKseed ADRS : bytes) : bytes :=
  match z with
  | O =>
      let ADRS := setTypeAndClear ADRS WOTS_HASH in
      let ADRS := setKeyPairAddress ADRS i in
      wots_pkGen SKseed PKseed ADRS
  | S z1 =>
      let lnode := xmss_node SKseed (2 * i) z1 PKseed ADRS in
      let rnode := xmss_node SKseed (2 * i + 1) z1 PKseed ADRS in
      let ADRS := setTypeAndClear ADRS TREE in
      let ADRS := setTreeHeight ADRS (N.of_nat z) in
      let ADRS := setTreeIndex ADRS i in
      H HF PKseed ADRS (lnode ++ rnode)
  end.

(** Algorithm 10; SIG_XMSS as a byte string *)
Definition xmss_sign (M SKseed : bytes) (idx : N) (PKseed ADRS : bytes) : bytes :=
  let AUTH :=
    for_ 0 h'
      (fun j AUTH =>
         let kk := N.lxor (idx / 2 ^ j) 1 in
         AUTH ++ [xmss_node SKseed kk (N.to_nat j) PKseed ADRS])
      [] in
  let ADRS := setTypeAndClear ADRS WOTS_HASH in
  let ADRS := setKeyPairAddress ADRS idx in
  let sig := wots_sign M SKseed PKseed ADRS in
  concat sig ++ concat AUTH.

(** Algorithm 11 *)
Definition xmss_pkFromSig (idx : N) (SIG_XMSS M PKseed ADRS : bytes) : bytes :=
  let ADRS := setTypeAndClear ADRS WOTS_HASH in
  let ADRS := setKeyPairAddress ADRS idx in
  let sig := sub_bytes SIG_XMSS 0 (len * n) in                       (* getWOTSSig *)
  let AUTH := sub_bytes SIG_XMSS (len * n) ((len + h') * n) in       (* getXMSSAUTH *)
  let node := wots_pkFromSig sig M PKseed ADRS in
  let ADRS := setTypeAndClear ADRS TREE in
  let ADRS := setTreeIndex ADRS idx in
  fst (for_ 0 h'
         (fun kk '(node, ADRS) =>
            let ADRS := setTreeHeight ADRS (kk + 1) in
            let AUTHk := sub_bytes AUTH (kk * n) ((kk + 1) * n) in
            if N.even (idx / 2 ^ kk) then
              let ADRS := setTreeIndex ADRS (getTreeIndex ADRS / 2) in
              (H HF PKseed ADRS (node ++ AUTHk), ADRS)
            else
              let ADRS := setTreeIndex ADRS ((getTreeIndex ADRS - 1) / 2) in
              (H HF PKseed ADRS (AUTHk ++ node), ADRS))
         (node, ADRS)).

(** *** Section 7: hypertree *)

(** Algorithm 12 *)
Definition ht_sign (M SKseed PKseed : bytes) (idx_tree idx_leaf : N) : bytes :=
  let ADRS := toByte 0 32 in
  let ADRS := setTreeAddress ADRS idx_tree in
  let SIG_tmp := xmss_sign M SKseed idx_leaf PKseed ADRS in
  let SIG_HT := SIG_tmp in
  let root := xmss_pkFromSig idx_leaf SIG_tmp M PKseed ADRS in
  let '(SIG_HT, _, _, _) :=
    for_ 1 d
      (fun j '(SIG_HT, root, ADRS, idx_tree) =>
         let idx_leaf := idx_tree mod 2 ^ h' in
         let idx_tree := idx_tree / 2 ^ h' in
         let ADRS := setLayerAddress ADRS j in
         let ADRS := setTreeAddress ADRS idx_tree in
         let SIG_tmp := xmss_sign root SKseed idx_leaf PKseed ADRS in
         let SIG_HT := SIG_HT ++ SIG_tmp in
         let root := if j <? d - 1
                     then xmss_pkFromSig idx_leaf SIG_tmp root PKseed ADRS else root in
         (SIG_HT, root, ADRS, idx_tree))
      (SIG_HT, root, ADRS, idx_tree) in
  SIG_HT.

(** getXMSSSignature(j) = SIG_HT[j*(h'+len)*n : (j+1)*(h'+len)*n] *)
Definition getXMSSSignature (SIG_HT : bytes) (j : N) : bytes :=
  sub_bytes SIG_HT (j * ((h' + len) * n)) ((j + 1) * ((h' + len) * n)).

(** Algorithm 13 *)
Definition ht_verify (M SIG_HT PKseed : bytes) (idx_tree idx_leaf : N) (PKroot : bytes) : bool :=
  let ADRS := toByte 0 32 in
  let ADRS := setTreeAddress ADRS idx_tree in
  let SIG_tmp := getXMSSSignature SIG_HT 0 in
  let node := xmss_pkFromSig idx_leaf SIG_tmp M PKseed ADRS in
  let '(node, _, _) :=
    for_ 1 d
      (fun j '(node, ADRS, idx_tree) =>
         let idx_leaf := idx_tree mod 2 ^ h' in
         let idx_tree := idx_tree / 2 ^ h' in
         let ADRS := setLayerAddress ADRS j in
         let ADRS := setTreeAddress ADRS idx_tree in
         let SIG_tmp := getXMSSSignature SIG_HT j in
         (xmss_pkFromSig idx_leaf SIG_tmp node PKseed ADRS, ADRS, idx_tree))
      (node, ADRS, idx_tree) in
  bytes_eqb node PKroot.

(** *** Section 8: FORS *)

(** Algorithm 14 *)
Definition fors_skGen (SKseed PKseed ADRS : bytes) (idx : N) : bytes :=
  let skADRS := ADRS in
  let skADRS := setTypeAndClear skADRS FORS_PRF in
  let skADRS := setKeyPairAddress skADRS (getKeyPairAddress ADRS) in
  let skADRS := setTreeIndex skADRS idx in
  PRF HF PKseed SKseed skADRS.

(** Algorithm 15; recursion on the height z *)
Fixpoint fors_node (SKseed : bytes) (i : N) (z : nat) (PKseed ADRS : bytes) : bytes :=
  match z with
  | O =>
      let sk := fors_skGen SKseed PKseed ADRS i in
      let ADRS := setTreeHeight ADRS 0 in
      let ADRS := setTreeIndex ADRS i in
      F HF PKseed ADRS sk
  | S z1 =>
      let lnode := fors_node SKseed (2 * i) z1 PKseed ADRS in
      let rnode := fors_node SKseed (2 * i + 1) z1 PKseed ADRS in
      let ADRS := setTreeHeight ADRS (N.of_nat z) in
      let ADRS := setTreeIndex ADRS i in
      H HF PKseed ADRS (lnode ++ rnode)
  end.

(** Algorithm 16; SIG_FORS as a byte string *)
Definition fors_sign (md SKseed PKseed ADRS : bytes) : bytes :=
  let indices := base_2b md a k in
  for_ 0 k
    (fun i SIG_FORS =>
       let ind := nth (N.to_nat i) indices 0 in
       let SIG_FORS := SIG_FORS ++ fors_skGen SKseed PKseed ADRS (i * 2 ^ a + ind) in
       let AUTH :=
         for_ 0 a
           (fun j AUTH =>
              let s := N.lxor (ind / 2 ^ j) 1 in
              AUTH ++ [fors_node SKseed (i * 2 ^ (a - j) + s) (N.to_nat j) PKseed ADRS])
           [] in
       SIG_FORS ++ concat AUTH)
    [].

(** Algorithm 17 *)
Definition fors_pkFromSig (SIG_FORS md PKseed ADRS : bytes) : bytes :=
  let indices := base_2b md a k in
  let '(root, ADRS) :=
    for_ 0 k
      (fun i '(root, ADRS) =>
         let ind := nth (N.to_nat i) indices 0 in
         let sk := sub_bytes SIG_FORS (i * (a + 1) * n) ((i * (a + 1) + 1) * n) in
         let ADRS := setTreeHeight ADRS 0 in
         let ADRS := setTreeIndex ADRS (i * 2 ^ a + ind) in
         let node := F HF PKseed ADRS sk in
         let auth := sub_bytes SIG_FORS ((i * (a + 1) + 1) * n) ((i + 1) * (a + 1) * n) in
         let '(node, ADRS) :=
           for_ 0 a
             (fun j '(node, ADRS) =>
                let ADRS := setTreeHeight ADRS (j + 1) in
                let authj := sub_bytes auth (j * n) ((j + 1) * n) in
                if N.even (ind / 2 ^ j) then
                  let ADRS := setTreeIndex ADRS (getTreeIndex ADRS / 2) in
                  (H HF PKseed ADRS (node ++ authj), ADRS)
                else
                  let ADRS := setTreeIndex ADRS ((getTreeIndex ADRS - 1) / 2) in
                  (H HF PKseed ADRS (authj ++ node), ADRS))
             (node, ADRS) in
         (root ++ [node], ADRS))
      ([], ADRS) in
  let forspkADRS := ADRS in
  let forspkADRS := setTypeAndClear forspkADRS FORS_ROOTS in
  let forspkADRS := setKeyPairAddress forspkADRS (getKeyPairAddress ADRS) in
  T_l HF PKseed forspkADRS (concat root).

(** *** Section 9: internal functions. Keys are byte strings:
    SK = SK.seed || SK.prf || PK.seed || PK.root (4n bytes), PK = PK.seed || PK.root (2n bytes). *)
Definition SK_seed (SK : bytes) := sub_bytes SK 0 n.
Definition SK_prf (SK : bytes) := sub_bytes SK n (2 * n).
Definition SK_PKseed (SK : bytes) := sub_bytes SK (2 * n) (3 * n).
Definition SK_PKroot (SK : bytes) := sub_bytes SK (3 * n) (4 * n).
Definition PK_seed (PK : bytes) := sub_bytes PK 0 n.
Definition PK_root (PK : bytes) := sub_bytes PK n (2 * n).

(** Algorithm 18: returns (SK, PK) *)
Definition slh_keygen_internal (SKseed SKprf PKseed : bytes) : bytes * bytes :=
  let ADRS := toByte 0 32 in
  let ADRS := setLayerAddress ADRS (d - 1) in
  let PKroot := xmss_node SKseed 0 (N.to_nat h') PKseed ADRS in
  (SKseed ++ SKprf ++ PKseed ++ PKroot, PKseed ++ PKroot).

(** Algorithm 19 lines 6-10, the same as Algorithm 20 lines 9-13: md, idx_tree, idx_leaf *)
Definition split_digest (digest : bytes) : bytes * N * N :=
  let c1 := ceil_div (k * a) 8 in
  let c2 := ceil_div (h - h / d) 8 in
  let c3 := ceil_div h (8 * d) in
  let md := sub_bytes digest 0 c1 in
  let tmp_idx_tree := sub_bytes digest c1 (c1 + c2) in
  let tmp_idx_leaf := sub_bytes digest (c1 + c2) (c1 + c2 + c3) in
  let idx_tree := toInt tmp_idx_tree c2 mod 2 ^ (h - h / d) in
  let idx_leaf := toInt tmp_idx_leaf c3 mod 2 ^ (h / d) in
  (md, idx_tree, idx_leaf).

(** Algorithm 19; addrnd = None is the deterministic variant *)
Definition slh_sign_internal (M SK : bytes) (addrnd : option bytes) : bytes :=
  let ADRS := toByte 0 32 in
  let opt_rand := match addrnd with Some r => r | None => SK_PKseed SK end in
  let R := PRF_msg HF (SK_prf SK) opt_rand M in
  let SIG := R in
  let digest := H_msg HF R (SK_PKseed SK) (SK_PKroot SK) M in
  let '(md, idx_tree, idx_leaf) := split_digest digest in
  let ADRS := setTreeAddress ADRS idx_tree in
  let ADRS := setTypeAndClear ADRS FORS_TREE in
  let ADRS := setKeyPairAddress ADRS idx_leaf in
  let SIG_FORS := fors_sign md (SK_seed SK) (SK_PKseed SK) ADRS in
  let SIG := SIG ++ SIG_FORS in
  let PK_FORS := fors_pkFromSig SIG_FORS md (SK_PKseed SK) ADRS in
  let SIG_HT := ht_sign PK_FORS (SK_seed SK) (SK_PKseed SK) idx_tree idx_leaf in
  SIG ++ SIG_HT.

(** Algorithm 20 *)
Definition slh_verify_internal (M SIG PK : bytes) : bool :=
  if negb (nlen SIG =? (1 + k * (1 + a) + h + d * len) * n) then false
  else
    let ADRS := toByte 0 32 in
    let R := sub_bytes SIG 0 n in
    let SIG_FORS := sub_bytes SIG n ((1 + k * (1 + a)) * n) in
    let SIG_HT := sub_bytes SIG ((1 + k * (1 + a)) * n) ((1 + k * (1 + a) + h + d * len) * n) in
    let digest := H_msg HF R (PK_seed PK) (PK_root PK) M in
    let '(md, idx_tree, idx_leaf) := split_digest digest in
    let ADRS := setTreeAddress ADRS idx_tree in
    let ADRS := setTypeAndClear ADRS FORS_TREE in
    let ADRS := setKeyPairAddress ADRS idx_leaf in
    let PK_FORS := fors_pkFromSig SIG_FORS md (PK_seed PK) ADRS in
    ht_verify PK_FORS SIG_HT (PK_seed PK) idx_tree idx_leaf (PK_root PK).

(** *** Section 10: external functions. Randomness is an argument; None is a failed generator
    (the standard's NULL), and the result None is the error indication. *)

(** Algorithm 21 *)
Definition slh_keygen (SKseed SKprf PKseed : option bytes) : option (bytes * bytes) :=
  match SKseed, SKprf, PKseed with
  | Some s, Some f, Some q => Some (slh_keygen_internal s f q)
  | _, _, _ => None
  end.

(** M' of Algorithms 22 and 24 *)
Definition pure_M' (M ctx : bytes) : bytes := toByte 0 1 ++ toByte (nlen ctx) 1 ++ ctx ++ M.

(** Algorithm 22. [addrnd]: None = deterministic variant, Some None = generator failed *)
Definition slh_sign (M ctx SK : bytes) (addrnd : option (option bytes)) : option bytes :=
  if 255 <? nlen ctx then None
  else match addrnd with
       | Some None => None
       | Some (Some r) => Some (slh_sign_internal (pure_M' M ctx) SK (Some r))
       | None => Some (slh_sign_internal (pure_M' M ctx) SK None)
       end.

(** Algorithm 24 *)
Definition slh_verify (M SIG ctx PK : bytes) : bool :=
  if 255 <? nlen ctx then false else slh_verify_internal (pure_M' M ctx) SIG PK.

(** M' of Algorithms 23 and 25, given the OID and the digest of the message *)
Definition hash_M' (OID PH_M ctx : bytes) : bytes :=
  toByte 1 1 ++ toByte (nlen ctx) 1 ++ ctx ++ OID ++ PH_M.

(** Algorithms 23 and 25, given the OID and digest [PH M] = (OID, PH_M) *)
Definition hash_slh_sign (M ctx : bytes) (PH : bytes -> bytes * bytes) (SK : bytes)
    (addrnd : option (option bytes)) : option bytes :=
  if 255 <? nlen ctx then None
  else
    let (OID, PH_M) := PH M in
    match addrnd with
    | Some None => None
    | Some (Some r) => Some (slh_sign_internal (hash_M' OID PH_M ctx) SK (Some r))
    | None => Some (slh_sign_internal (hash_M' OID PH_M ctx) SK None)
    end.

Definition hash_slh_verify (M SIG ctx : bytes) (PH : bytes -> bytes * bytes) (PK : bytes) : bool :=
  if 255 <? nlen ctx then false
  else
    let (OID, PH_M) := PH M in
    slh_verify_internal (hash_M' OID PH_M ctx) SIG PK.

End Algorithms.
