(** Model of the [functionality!] macro (src/lib.rs:76-426) and of src/traits.rs, for a parameter
    set [p]. The newtypes PublicKey, PrivateKey and KG are identified with their contents. *)
From Coq Require Import String.
From Verif Require Export Machine Model.Slh.
Import ListNotations.
Open Scope list_scope.
Open Scope N_scope.

Section Api.
Context {T : Target} {P : Prims} (p : Params).
Let hs := HASHERS p.
Let n := cN p.

(** src/lib.rs:198-203 (KeyGen for KG), called by src/lib.rs:186-190 [try_keygen_with_rng] *)
Definition try_keygen_with_rng (r : Rng) : RM r (SlhPublicKey * SlhPrivateKey) :=
  res <-- slh_keygen_with_rng p hs r ;;
  let (sk, pk) := res in rlift (ret (pk, sk)).

(** src/lib.rs:144 and src/traits.rs:57-59 [try_keygen]; the OS generator OsRng is the argument [os] *)
Definition try_keygen (os : Rng) := try_keygen_with_rng os.

(** src/traits.rs:155-169 [DummyRng]: state (data, i) *)
Definition dummy_fill (st : list bytes * N) (len : N) : (list bytes * N) * outcome bytes :=
  let (data, i) := st in
  match nth_error data (N.to_nat i) with
  | None => (st, Panic PIndex)
  | Some d => if nlen d =? len then ((data, i + 1), Val d) else (st, Panic PCopyLen)
  end.

Lemma dummy_fill_len s len s' b : dummy_fill s len = (s', Val b) -> nlen b = len.
Proof.
  destruct s as [data i]. cbn. destruct (nth_error data (N.to_nat i)) as [d|]; [|discriminate].
  destruct (nlen d =? len) eqn:E; [|discriminate]. intros H. inversion H; subst.
  apply N.eqb_eq. exact E.
Qed.

(** src/traits.rs:155-169 [DummyRng] as a generator *)
Definition DummyRng : Rng := mkRng _ dummy_fill dummy_fill_len.

(** Result::expect (src/traits.rs:150) *)
Definition expect {A} (m : M A) : M A :=
  match m with (t, Err _) => (t, Panic PUnwrap) | _ => m end.

(** src/traits.rs:147-151 [keygen_with_seeds]; the seeds have the caller's length *)
Definition keygen_with_seeds (skseed skprf pkseed : bytes) : M (SlhPublicKey * SlhPrivateKey) :=
  expect (snd (try_keygen_with_rng DummyRng ([skseed; skprf; pkseed], 0))).

(** ctx.len().to_le_bytes()[0] (src/lib.rs:218, 237, 286, 305) *)
Definition ctx_len_byte (ctx : bytes) : bytes := [n2b (nlen ctx)].

(** sig.map(|s| s.serialize()) (src/lib.rs:222, 245, 272) *)
Definition map_serialize {r : Rng} (m : RM r SlhDsaSig) : RM r bytes :=
  sg <-- m ;; rlift (serialize p sg).

(** src/lib.rs:212-223 [try_sign_with_rng] *)
Definition try_sign_with_rng (r : Rng) (sk : SlhPrivateKey) (m ctx : bytes) (hedged : bool)
  : RM r bytes :=
  c <-- rlift (branch (255 <? nlen ctx)) ;;
  if c then rlift (err "ctx must be less than 256 bytes"%string)
  else
    let mp := [[x00]; ctx_len_byte ctx; ctx; m] in
    map_serialize (slh_sign_with_rng p hs r mp sk hedged).

(** src/lib.rs:226-246 [try_hash_sign_with_rng] *)
Definition try_hash_sign_with_rng (r : Rng) (sk : SlhPrivateKey) (m ctx : bytes) (ph : Ph)
    (hedged : bool) : RM r bytes :=
  c <-- rlift (branch (255 <? nlen ctx)) ;;
  if c then rlift (err "ctx must be less than 256 bytes"%string)
  else
    let phm := nrepeat x00 64 in
    res <-- rlift (hash_message m ph phm) ;;
    let '(oid, phm, phm_len) := res in
    d <-- rlift (slice phm 0 phm_len) ;;
    let mp := [[Coq.Init.Byte.x01]; ctx_len_byte ctx; ctx; oid; d] in
    map_serialize (slh_sign_with_rng p hs r mp sk hedged).

(** src/traits.rs:221-225 [try_sign] and 269-273 [try_hash_sign], with OsRng as [os] *)
Definition try_sign (os : Rng) := try_sign_with_rng os.
(** src/traits.rs:269-273 [try_hash_sign] *)
Definition try_hash_sign (os : Rng) := try_hash_sign_with_rng os.

(** src/lib.rs:249-251 [get_public_key] *)
Definition get_public_key (sk : SlhPrivateKey) : SlhPublicKey := mkPk (sk_pk_seed sk) (sk_pk_root sk).

(** src/lib.rs:254-273 [_test_only_raw_sign] *)
Definition raw_sign (r : Rng) (sk : SlhPrivateKey) (m : bytes) (hedged : bool) : RM r bytes :=
  let opt_rand := sk_pk_seed sk in
  c <-- rlift (branch hedged) ;;
  opt_rand <-- (if c then fill_or (nlen opt_rand) "Alg17: rng failed"%string
                else rlift (ret opt_rand)) ;;
  map_serialize (rlift (slh_sign_internal p hs [m] sk opt_rand)).

(** src/lib.rs:281-291 [verify] *)
Definition verify (pk : SlhPublicKey) (m sig_bytes ctx : bytes) : M bool :=
  c <- branch (255 <? nlen ctx) ;;
  if c then ret false
  else
    sig <- deserialize p sig_bytes ;;
    let mp := [[x00]; ctx_len_byte ctx; ctx; m] in
    slh_verify p hs mp sig pk.

(** src/lib.rs:294-314 [hash_verify] *)
Definition hash_verify (pk : SlhPublicKey) (m sig_bytes ctx : bytes) (ph : Ph) : M bool :=
  c <- branch (255 <? nlen ctx) ;;
  if c then ret false
  else
    sig <- deserialize p sig_bytes ;;
    let phm := nrepeat x00 64 in
    '(oid, phm, phm_len) <- hash_message m ph phm ;;
    d <- slice phm 0 phm_len ;;
    let mp := [[Coq.Init.Byte.x01]; ctx_len_byte ctx; ctx; oid; d] in
    slh_verify p hs mp sig pk.

(** src/lib.rs:317-328 [_test_only_raw_verify] *)
Definition raw_verify (pk : SlhPublicKey) (m sig_bytes : bytes) : M bool :=
  sig <- deserialize p sig_bytes ;;
  slh_verify_internal p hs [m] sig pk.

(** src/lib.rs:338-343 [PublicKey::into_bytes] *)
Definition pk_into_bytes (pk : SlhPublicKey) : M bytes :=
  let out := nrepeat x00 (cPK_LEN p) in
  q <- div (cPK_LEN p) 2 ;;
  out <- copy_into out 0 q (pk_seed pk) ;;
  q <- div (cPK_LEN p) 2 ;;
  copy_into out q (nlen out) (pk_root pk).

(** src/lib.rs:346-351 [PublicKey::try_from_bytes] *)
Definition pk_try_from_bytes (bs : bytes) : M SlhPublicKey :=
  q <- div (cPK_LEN p) 2 ;;
  a <- slice bs 0 q ;;
  a <- copy_from_slice (nrepeat x00 n) a ;;
  q <- div (cPK_LEN p) 2 ;;
  b <- slice bs q (nlen bs) ;;
  b <- copy_from_slice (nrepeat x00 n) b ;;
  ret (mkPk a b).

(** src/lib.rs:359-366 [PrivateKey::into_bytes] *)
Definition sk_into_bytes (sk : SlhPrivateKey) : M bytes :=
  let out := nrepeat x00 (cSK_LEN p) in
  q1 <- div (cSK_LEN p) 4 ;;
  q2 <- div (cSK_LEN p) 2 ;;
  t <- mul Usize 3 (cSK_LEN p) ;;
  q3 <- div t 4 ;;
  out <- copy_into out 0 q1 (sk_seed sk) ;;
  out <- copy_into out q1 q2 (sk_prf sk) ;;
  out <- copy_into out q2 q3 (sk_pk_seed sk) ;;
  copy_into out q3 (nlen out) (sk_pk_root sk).

(** src/lib.rs:369-383 [PrivateKey::try_from_bytes] *)
Definition sk_try_from_bytes (bs : bytes) : M SlhPrivateKey :=
  q1 <- div (cSK_LEN p) 4 ;;
  q2 <- div (cSK_LEN p) 2 ;;
  t <- mul Usize 3 (cSK_LEN p) ;;
  q3 <- div t 4 ;;
  a <- slice bs 0 q1 ;;
  a <- copy_from_slice (nrepeat x00 n) a ;;
  b <- slice bs q1 q2 ;;
  b <- copy_from_slice (nrepeat x00 n) b ;;
  c <- slice bs q2 q3 ;;
  c <- copy_from_slice (nrepeat x00 n) c ;;
  d <- slice bs q3 (nlen bs) ;;
  d <- copy_from_slice (nrepeat x00 n) d ;;
  '(sk_test, _) <- slh_keygen_internal p hs a b c ;;
  same <- same_bytes (sk_pk_root sk_test) d ;;
  bad <- branch (negb same) ;;
  if bad then err "Corrupted key"%string
  else ret (mkSk a b c d).

End Api.
