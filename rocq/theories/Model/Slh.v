(** Model of src/slh.rs. *)
From Coq Require Import String.
From Verif Require Export Machine Model.Fors Model.Hypertree.
Import ListNotations.
Open Scope list_scope.
Open Scope N_scope.

(** ** The random generator
    An arbitrary [rand_core::CryptoRngCore]: a state machine whose [try_fill_bytes] fills the
    given buffer, fails, or panics (src/slh.rs:28, 32, 36, 117; src/lib.rs:262). On success the buffer keeps its length, as a Rust slice must. *)
Record Rng := mkRng {
  rng_st : Type;
  try_fill : rng_st -> N -> rng_st * outcome bytes;
  try_fill_len : forall s n s' b, try_fill s n = (s', Val b) -> nlen b = n }.

(** computations that hold a [&mut impl CryptoRngCore] (src/slh.rs:14-42, 90-128; src/lib.rs:186-274) *)
Definition RM (r : Rng) (A : Type) : Type := rng_st r -> rng_st r * M A.
(** a step that leaves the generator alone (src/slh.rs:41, 127) *)
Definition rlift {r A} (m : M A) : RM r A := fun s => (s, m).
(** one step after the other; ? returns an error at once (src/slh.rs:28, 32, 36, 117) *)
Definition rbind {r A B} (m : RM r A) (k : A -> RM r B) : RM r B :=
  fun s =>
    match m s with
    | (s', (t, Val a)) => let '(s'', (t', o)) := k a s' in (s'', (t ++ t', o))
    | (s', (t, Err e)) => (s', (t, Err e))
    | (s', (t, Panic q)) => (s', (t, Panic q))
    end.
Notation "x <-- m ;; k" := (rbind m (fun x => k))
  (at level 100, m at next level, right associativity) : m_scope.

(** rng.try_fill_bytes(&mut buf).map_err(|_| msg)? with buf of n bytes (src/slh.rs:28, 32, 36, 117; src/lib.rs:262) *)
Definition fill_or {r : Rng} (n : N) (msg : string) : RM r bytes :=
  fun s =>
    let (s', o) := try_fill r s n in
    (s', ([ERng n], match o with Val b => Val b | Err _ => Err msg | Panic q => Panic q end)).

Section Slh.
Context {T : Target} (p : Params) (hs : Hashers).
Let n := cN p.

(** src/slh.rs:51-78 [slh_keygen_internal] *)
Definition slh_keygen_internal (skseed skprf pkseed : bytes) : M (SlhPrivateKey * SlhPublicKey) :=
  d32 <- try_u32_unwrap (cD p) ;;
  hp32 <- try_u32_unwrap (cHP p) ;;
  let adrs := adrs_default in
  d1 <- sub U32 d32 1 ;;
  let adrs := set_layer_address adrs d1 in
  root <- xmss_node p hs skseed 0 hp32 pkseed adrs ;;
  ret (mkSk skseed skprf pkseed root, mkPk pkseed root).

(** src/slh.rs:14-42 [slh_keygen_with_rng] *)
Definition slh_keygen_with_rng (r : Rng) : RM r (SlhPrivateKey * SlhPublicKey) :=
  skseed <-- fill_or n "Alg17: rng failed1"%string ;;
  skprf <-- fill_or n "Alg17: rng failed2"%string ;;
  pkseed <-- fill_or n "Alg17: rng failed3"%string ;;
  rlift (slh_keygen_internal skseed skprf pkseed).

(** src/slh.rs:180-198, part of [slh_sign_internal]:
    md, idx_tree and idx_leaf (as u64) from the digest. *)
Definition sign_digest_split (d32 h32 : N) (digest : bytes) : M (bytes * N * N) :=
  ka <- mul Usize (cK p) (cA p) ;;
  ka7 <- add Usize ka 7 ;;
  index1 <- div ka7 8 ;;
  md <- slice digest 0 index1 ;;
  hd <- div (cH p) (cD p) ;;
  hh <- sub Usize (cH p) hd ;;
  hh7 <- add Usize hh 7 ;;
  q <- div hh7 8 ;;
  index2 <- add Usize index1 q ;;
  tmp_idx_tree <- slice digest index1 index2 ;;
  d8 <- mul Usize 8 (cD p) ;;
  hd8 <- add Usize (cH p) d8 ;;
  hd81 <- sub Usize hd8 1 ;;
  d8' <- mul Usize 8 (cD p) ;;
  q2 <- div hd81 d8' ;;
  index3 <- add Usize index2 q2 ;;
  tmp_idx_leaf <- slice digest index2 index3 ;;
  (* 193-194 *)
  e <- div h32 d32 ;;
  e <- sub U32 h32 e ;;
  e7 <- add U32 e 7 ;;
  e8 <- div e7 8 ;;
  t <- to_int tmp_idx_tree e8 ;;
  e' <- div h32 d32 ;;
  e' <- sub U32 h32 e' ;;
  sh <- sub U32 64 e' ;;
  mask <- shr U64 (max_of U64) sh ;;
  let idx_tree := N.land t mask in
  (* 197-198 *)
  g <- mul U32 8 d32 ;;
  g <- add U32 h32 g ;;
  g <- sub U32 g 1 ;;
  g' <- mul U32 8 d32 ;;
  gl <- div g g' ;;
  l <- to_int tmp_idx_leaf gl ;;
  e'' <- div h32 d32 ;;
  sh' <- sub U32 64 e'' ;;
  mask' <- shr U64 (max_of U64) sh' ;;
  let idx_leaf := N.land l mask' in
  ret (md, idx_tree, idx_leaf).

(** src/slh.rs:139-230 [slh_sign_internal] *)
Definition slh_sign_internal (m : list bytes) (sk : SlhPrivateKey) (opt_rand : bytes)
  : M SlhDsaSig :=
  d32 <- try_u32_unwrap (cD p) ;;
  h32 <- try_u32_unwrap (cH p) ;;
  let adrs := adrs_default in
  r <- call_prf_msg hs (sk_prf sk) opt_rand m ;;
  digest <- call_h_msg hs r (sk_pk_seed sk) (sk_pk_root sk) m ;;
  '(md, idx_tree, idx_leaf) <- sign_digest_split d32 h32 digest ;;
  let adrs := set_tree_address adrs idx_tree in
  let adrs := set_type_and_clear adrs FORS_TREE in
  let adrs := set_key_pair_address adrs (cast U32 idx_leaf) in
  sig_fors <- fors_sign p hs md (sk_seed sk) adrs (sk_pk_seed sk) ;;
  pk_fors <- fors_pk_from_sig p hs sig_fors md (sk_pk_seed sk) adrs ;;
  sig_ht <- ht_sign p hs pk_fors (sk_seed sk) (sk_pk_seed sk) idx_tree (cast U32 idx_leaf) ;;
  ret (mkSlhDsaSig r sig_fors sig_ht).

(** src/slh.rs:90-128 [slh_sign_with_rng] *)
Definition slh_sign_with_rng (r : Rng) (mp : list bytes) (sk : SlhPrivateKey) (hedged : bool)
  : RM r SlhDsaSig :=
  let opt_rand := sk_pk_seed sk in
  c <-- rlift (branch hedged) ;;
  opt_rand <-- (if c then fill_or (nlen opt_rand) "Alg17: rng failed"%string
                else rlift (ret opt_rand)) ;;
  rlift (slh_sign_internal mp sk opt_rand).

(** src/slh.rs:311-329, the same statements as 180-198 *)
Definition verify_digest_split (d32 h32 : N) (digest : bytes) : M (bytes * N * N) :=
  ka <- mul Usize (cK p) (cA p) ;;
  ka7 <- add Usize ka 7 ;;
  index1 <- div ka7 8 ;;
  md <- slice digest 0 index1 ;;
  hd <- div (cH p) (cD p) ;;
  hh <- sub Usize (cH p) hd ;;
  hh7 <- add Usize hh 7 ;;
  q <- div hh7 8 ;;
  index2 <- add Usize index1 q ;;
  tmp_idx_tree <- slice digest index1 index2 ;;
  d8 <- mul Usize 8 (cD p) ;;
  hd8 <- add Usize (cH p) d8 ;;
  hd81 <- sub Usize hd8 1 ;;
  d8' <- mul Usize 8 (cD p) ;;
  q2 <- div hd81 d8' ;;
  index3 <- add Usize index2 q2 ;;
  tmp_idx_leaf <- slice digest index2 index3 ;;
  (* 324-325 *)
  e <- div h32 d32 ;;
  e <- sub U32 h32 e ;;
  e7 <- add U32 e 7 ;;
  e8 <- div e7 8 ;;
  t <- to_int tmp_idx_tree e8 ;;
  e' <- div h32 d32 ;;
  e' <- sub U32 h32 e' ;;
  sh <- sub U32 64 e' ;;
  mask <- shr U64 (max_of U64) sh ;;
  let idx_tree := N.land t mask in
  (* 328-329 *)
  g <- mul U32 8 d32 ;;
  g <- add U32 h32 g ;;
  g <- sub U32 g 1 ;;
  g' <- mul U32 8 d32 ;;
  gl <- div g g' ;;
  l <- to_int tmp_idx_leaf gl ;;
  e'' <- div h32 d32 ;;
  sh' <- sub U32 64 e'' ;;
  mask' <- shr U64 (max_of U64) sh' ;;
  let idx_leaf := N.land l mask' in
  ret (md, idx_tree, idx_leaf).

(** src/slh.rs:276-355 [slh_verify_internal] *)
Definition slh_verify_internal (m : list bytes) (sig : SlhDsaSig) (pk : SlhPublicKey) : M bool :=
  d32 <- try_u32_unwrap (cD p) ;;
  h32 <- try_u32_unwrap (cH p) ;;
  let adrs := adrs_default in
  let r := randomness sig in
  let sig_fors := fors_sig sig in
  let sig_ht := ht_sig sig in
  digest <- call_h_msg hs r (pk_seed pk) (pk_root pk) m ;;
  '(md, idx_tree, idx_leaf) <- verify_digest_split d32 h32 digest ;;
  let adrs := set_tree_address adrs idx_tree in
  let adrs := set_type_and_clear adrs FORS_TREE in
  c <- branch (idx_leaf <? 2 ^ 32) ;;
  if c then
    let adrs := set_key_pair_address adrs idx_leaf in
    pk_fors <- fors_pk_from_sig p hs sig_fors md (pk_seed pk) adrs ;;
    ht_verify p hs pk_fors sig_ht (pk_seed pk) idx_tree idx_leaf (pk_root pk)
  else ret false.

(** src/slh.rs:241-267 [slh_verify] *)
Definition slh_verify (mp : list bytes) (sig : SlhDsaSig) (pk : SlhPublicKey) : M bool :=
  slh_verify_internal mp sig pk.

End Slh.
