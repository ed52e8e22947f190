(** FIPS 180-4: SHA-256 and SHA-512 on byte strings, transcribed from the standard. The crate
    takes these functions from the external crate sha2; the theorems hold for arbitrary functions
    in their place ([Model.Prims]) and so for these. *)
From Verif Require Import Bytes.

(** the parameters in which the two functions differ: word size in bits, block and length-field
    size in bytes, shift amounts (section 4.1), constants (4.2), initial value (5.3) *)
Record sha2_params := {
  w : N; block : N; len_field : nat;
  S0 : N * N * N; S1 : N * N * N;          (* Sigma_0, Sigma_1: three rotations *)
  s0 : N * N * N; s1 : N * N * N;          (* sigma_0, sigma_1: two rotations and a shift *)
  K : list N; IV : list N }.

Section Sha2.
Context (P : sha2_params).

(** section 2.2.2 and 3.2: operations on w-bit words *)
Definition word_add (x y : N) : N := (x + y) mod 2 ^ w P.
Definition SHR (n x : N) : N := N.shiftr x n.
Definition ROTR (n x : N) : N := N.lor (N.shiftr x n) (N.shiftl x (w P - n) mod 2 ^ w P).
Definition word_not (x : N) : N := N.lxor x (2 ^ w P - 1).

(** section 4.1 *)
Definition Ch (x y z : N) : N := N.lxor (N.land x y) (N.land (word_not x) z).
Definition Maj (x y z : N) : N := N.lxor (N.lxor (N.land x y) (N.land x z)) (N.land y z).
Definition Sigma (c : N * N * N) (x : N) : N :=
  let '(a, b, c) := c in N.lxor (N.lxor (ROTR a x) (ROTR b x)) (ROTR c x).
Definition sigma (c : N * N * N) (x : N) : N :=
  let '(a, b, c) := c in N.lxor (N.lxor (ROTR a x) (ROTR b x)) (SHR c x).

(** section 5.1: the bit 1, zero bits, and the length of the message in bits *)
Definition pad (M : bytes) : bytes :=
  let lf := N.of_nat (len_field P) in
  let r := (nlen M + 1 + lf) mod block P in
  M ++ [Coq.Init.Byte.x80] ++ nrepeat x00 ((block P - r) mod block P) ++ be_bytes (len_field P) (8 * nlen M).

(** section 5.2: the i-th group of k bytes *)
Fixpoint groups (k : nat) (count : nat) (l : bytes) : list bytes :=
  match count with
  | O => []
  | S c => firstn k l :: groups k c (skipn k l)
  end.

(** step 1 of section 6.2.2 / 6.4.2: the message schedule, most recent word first *)
Definition schedule_step (W : list N) : list N :=
  word_add (word_add (sigma (s1 P) (nth 1 W 0)) (nth 6 W 0))
           (word_add (sigma (s0 P) (nth 14 W 0)) (nth 15 W 0)) :: W.
Definition schedule (B : bytes) : list N :=
  let W16 := rev (map of_be (groups (N.to_nat (w P / 8)) 16 B)) in
  rev (Nat.iter (length (K P) - 16) schedule_step W16).

(** the eight working variables *)
Definition vars : Type := N * N * N * N * N * N * N * N.

(** step 3 *)
Definition round (v : vars) (kw : N * N) : vars :=
  let '(a, b, c, d, e, f, g, h) := v in
  let T1 := word_add (word_add (word_add h (Sigma (S1 P) e)) (word_add (Ch e f g) (fst kw))) (snd kw) in
  let T2 := word_add (Sigma (S0 P) a) (Maj a b c) in
  (word_add T1 T2, a, b, c, word_add d T1, e, f, g).

(** steps 1 to 4 *)
Definition compress (v : vars) (B : bytes) : vars :=
  let '(a, b, c, d, e, f, g, h) := fold_left round (combine (K P) (schedule B)) v in
  let '(a0, b0, c0, d0, e0, f0, g0, h0) := v in
  (word_add a a0, word_add b b0, word_add c c0, word_add d d0,
   word_add e e0, word_add f f0, word_add g g0, word_add h h0).

Definition initial : vars :=
  let x := fun i => nth i (IV P) 0 in (x 0%nat, x 1%nat, x 2%nat, x 3%nat, x 4%nat, x 5%nat, x 6%nat, x 7%nat).

Definition sha2_hash (M : bytes) : bytes :=
  let p := pad M in
  let B := N.to_nat (block P) in
  let '(a, b, c, d, e, f, g, h) := fold_left compress (groups B (N.to_nat (nlen p / block P)) p) initial in
  let wb := N.to_nat (w P / 8) in
  be_bytes wb a ++ be_bytes wb b ++ be_bytes wb c ++ be_bytes wb d ++
  be_bytes wb e ++ be_bytes wb f ++ be_bytes wb g ++ be_bytes wb h.

Lemma sha2_hash_len (M : bytes) : nlen (sha2_hash M) = 8 * (w P / 8).
Proof.
  unfold sha2_hash. cbv zeta.
  destruct (fold_left _ _ _) as [[[[[[[a b] c] d] e] f] g] h].
  rewrite !nlen_app. unfold nlen. rewrite !length_be_bytes. lia.
Qed.

End Sha2.

(** sections 4.1.2, 4.2.2, 5.3.3 *)
Definition sha256_params : sha2_params := {|
  w := 32; block := 64; len_field := 8;
  S0 := (2, 13, 22); S1 := (6, 11, 25); s0 := (7, 18, 3); s1 := (17, 19, 10);
  K := [
   0x428a2f98; 0x71374491; 0xb5c0fbcf; 0xe9b5dba5; 0x3956c25b; 0x59f111f1; 0x923f82a4; 0xab1c5ed5;
   0xd807aa98; 0x12835b01; 0x243185be; 0x550c7dc3; 0x72be5d74; 0x80deb1fe; 0x9bdc06a7; 0xc19bf174;
   0xe49b69c1; 0xefbe4786; 0x0fc19dc6; 0x240ca1cc; 0x2de92c6f; 0x4a7484aa; 0x5cb0a9dc; 0x76f988da;
   0x983e5152; 0xa831c66d; 0xb00327c8; 0xbf597fc7; 0xc6e00bf3; 0xd5a79147; 0x06ca6351; 0x14292967;
   0x27b70a85; 0x2e1b2138; 0x4d2c6dfc; 0x53380d13; 0x650a7354; 0x766a0abb; 0x81c2c92e; 0x92722c85;
   0xa2bfe8a1; 0xa81a664b; 0xc24b8b70; 0xc76c51a3; 0xd192e819; 0xd6990624; 0xf40e3585; 0x106aa070;
   0x19a4c116; 0x1e376c08; 0x2748774c; 0x34b0bcb5; 0x391c0cb3; 0x4ed8aa4a; 0x5b9cca4f; 0x682e6ff3;
   0x748f82ee; 0x78a5636f; 0x84c87814; 0x8cc70208; 0x90befffa; 0xa4506ceb; 0xbef9a3f7; 0xc67178f2];
  IV := [
   0x6a09e667; 0xbb67ae85; 0x3c6ef372; 0xa54ff53a; 0x510e527f; 0x9b05688c; 0x1f83d9ab; 0x5be0cd19] |}.

(** sections 4.1.3, 4.2.3, 5.3.5 *)
Definition sha512_params : sha2_params := {|
  w := 64; block := 128; len_field := 16;
  S0 := (28, 34, 39); S1 := (14, 18, 41); s0 := (1, 8, 7); s1 := (19, 61, 6);
  K := [
   0x428a2f98d728ae22; 0x7137449123ef65cd; 0xb5c0fbcfec4d3b2f; 0xe9b5dba58189dbbc;
   0x3956c25bf348b538; 0x59f111f1b605d019; 0x923f82a4af194f9b; 0xab1c5ed5da6d8118;
   0xd807aa98a3030242; 0x12835b0145706fbe; 0x243185be4ee4b28c; 0x550c7dc3d5ffb4e2;
   0x72be5d74f27b896f; 0x80deb1fe3b1696b1; 0x9bdc06a725c71235; 0xc19bf174cf692694;
   0xe49b69c19ef14ad2; 0xefbe4786384f25e3; 0x0fc19dc68b8cd5b5; 0x240ca1cc77ac9c65;
   0x2de92c6f592b0275; 0x4a7484aa6ea6e483; 0x5cb0a9dcbd41fbd4; 0x76f988da831153b5;
   0x983e5152ee66dfab; 0xa831c66d2db43210; 0xb00327c898fb213f; 0xbf597fc7beef0ee4;
   0xc6e00bf33da88fc2; 0xd5a79147930aa725; 0x06ca6351e003826f; 0x142929670a0e6e70;
   0x27b70a8546d22ffc; 0x2e1b21385c26c926; 0x4d2c6dfc5ac42aed; 0x53380d139d95b3df;
   0x650a73548baf63de; 0x766a0abb3c77b2a8; 0x81c2c92e47edaee6; 0x92722c851482353b;
   0xa2bfe8a14cf10364; 0xa81a664bbc423001; 0xc24b8b70d0f89791; 0xc76c51a30654be30;
   0xd192e819d6ef5218; 0xd69906245565a910; 0xf40e35855771202a; 0x106aa07032bbd1b8;
   0x19a4c116b8d2d0c8; 0x1e376c085141ab53; 0x2748774cdf8eeb99; 0x34b0bcb5e19b48a8;
   0x391c0cb3c5c95a63; 0x4ed8aa4ae3418acb; 0x5b9cca4f7763e373; 0x682e6ff3d6b2b8a3;
   0x748f82ee5defb2fc; 0x78a5636f43172f60; 0x84c87814a1f0ab72; 0x8cc702081a6439ec;
   0x90befffa23631e28; 0xa4506cebde82bde9; 0xbef9a3f7b2c67915; 0xc67178f2e372532b;
   0xca273eceea26619c; 0xd186b8c721c0c207; 0xeada7dd6cde0eb1e; 0xf57d4f7fee6ed178;
   0x06f067aa72176fba; 0x0a637dc5a2c898a6; 0x113f9804bef90dae; 0x1b710b35131c471b;
   0x28db77f523047d84; 0x32caab7b40c72493; 0x3c9ebe0a15c9bebc; 0x431d67c49c100d4c;
   0x4cc5d4becb3e42b6; 0x597f299cfc657e2a; 0x5fcb6fab3ad6faec; 0x6c44198c4a475817];
  IV := [
   0x6a09e667f3bcc908; 0xbb67ae8584caa73b; 0x3c6ef372fe94f82b; 0xa54ff53a5f1d36f1;
   0x510e527fade682d1; 0x9b05688c2b3e6c1f; 0x1f83d9abfb41bd6b; 0x5be0cd19137e2179] |}.

Definition SHA256 (M : bytes) : bytes := sha2_hash sha256_params M.
Definition SHA512 (M : bytes) : bytes := sha2_hash sha512_params M.
