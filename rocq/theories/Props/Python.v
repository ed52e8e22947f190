(** The Python wrapper (ffi/fips205.py). *)
From Coq Require Import String.
From Verif Require Import Spec.Fips205 Spec.Fips205Hash.
From Verif Require Import Model.Api Spec.Vocab Model.Py Spec.VocabForge Spec.VocabPublic Spec.VocabBind Proof.TopPy Proof.TopPyExact Proof.TopRandom Proof.TopFips Proof.TopKeys Proof.Toy Proof.ToyForge Proof.ToyPyExact Proof.ToyKeys.
Import ListNotations.
Open Scope list_scope.
Open Scope N_scope.

(** C53. Python wrapper: keys, sign and verify contract. For messages shorter than 2^31 bytes the Python
    classes do exactly what FIPS 205 says for SLH-DSA-SHA2-128f with the empty context: keygen
    returns the FIPS 205 key pair or raises when the system generator fails; sign raises for an
    inconsistent key or a failing generator and otherwise returns a hedged FIPS 205 signature that
    verify accepts; verify raises only for a signature of the wrong length and otherwise returns the
    FIPS 205 verdict. No call ends the process.
    Key generation. *)
Theorem python_keygen :
  forall (T : Target) (P : Prims) (os : Rng) (g : rng_st os),
    (refuses os g 16 \/
     (exists a g1, gives os g 16 a g1 /\ refuses os g1 16) \/
     (exists a b g1 g2, gives os g 16 a g1 /\ gives os g1 16 b g2 /\ refuses os g2 16) ->
     snd (py_keygen os g) = PyRaise) /\
    (forall a b c g1 g2 g3, gives os g 16 a g1 -> gives os g1 16 b g2 -> gives os g2 16 c g3 ->
       exists pkb skb, py_keygen os g = (g3, PyReturn (pkb, skb)) /\
         Fips205.slh_keygen_internal (fips_params SHA2_128f) (fips_hash SHA2_128f) a b c = (skb, pkb) /\
         PyPublicKey pkb = PyReturn pkb /\ PyPrivateKey skb = PyReturn skb) /\
    (never_panics os -> (exists keys, snd (py_keygen os g) = PyReturn keys) \/ snd (py_keygen os g) = PyRaise).
Proof. exact prop_python_keygen. Qed.
Print Assumptions python_keygen.

Example python_keygen_applies :
  refuses broken tt 16 /\
  exists a b c g1 g2 g3, gives counter 5 16 a g1 /\ gives counter g1 16 b g2 /\ gives counter g2 16 c g3.
Proof. split; [repeat eexists|]. do 6 eexists. split; [reflexivity|]. split; reflexivity. Qed.

(** C53. Signing and verification. *)
Theorem python_sign_verify :
  forall (T : Target) (P : Prims) (os : Rng) (g : rng_st os) (m : bytes),
    nlen m < 2 ^ 31 -> nlen m < 2 ^ usize_bits ->
    (forall key sig, PyPublicKey key = PyReturn key ->
       py_verify key m sig =
         if nlen sig =? sig_size SHA2_128f
         then PyReturn (Fips205.slh_verify (fips_params SHA2_128f) (fips_hash SHA2_128f) m sig [] key)
         else PyRaise) /\
    (forall key, PyPrivateKey key = PyReturn key ->
       let '(_, PK) := Fips205.slh_keygen_internal (fips_params SHA2_128f) (fips_hash SHA2_128f)
                         (sub_bytes key 0 16) (sub_bytes key 16 32) (sub_bytes key 32 48) in
       (PK <> sub_bytes key 32 48 ++ sub_bytes key 48 64 -> py_sign os g key m = (g, PyRaise)) /\
       (PK = sub_bytes key 32 48 ++ sub_bytes key 48 64 -> refuses os g 16 -> snd (py_sign os g key m) = PyRaise) /\
       (PK = sub_bytes key 32 48 ++ sub_bytes key 48 64 -> forall b g', gives os g 16 b g' ->
          exists sig, py_sign os g key m = (g', PyReturn sig) /\
            Some sig = Fips205.slh_sign (fips_params SHA2_128f) (fips_hash SHA2_128f) m [] key (Some (Some b)) /\
            py_verify PK m sig = PyReturn true)).
Proof. exact prop_python_sign_verify. Qed.
Print Assumptions python_sign_verify.

Example python_sign_verify_applies :
  nlen toy_m < 2 ^ 31 /\ nlen toy_m < 2 ^ (@usize_bits debug64) /\
  exists SK PK sig g', PyPrivateKey SK = PyReturn SK /\ PK = sub_bytes SK 32 48 ++ sub_bytes SK 48 64 /\
    py_sign (T := debug64) (P := toy_prims) counter 5 SK toy_m = (g', PyReturn sig) /\
    py_verify (T := debug64) (P := toy_prims) PK toy_m sig = PyReturn true.
Proof.
  split; [reflexivity|]. split; [reflexivity|].
  destruct (proj1 (toy_import debug64 toy_prims SHA2_128f)) as (bs & sk & L & E). exists bs.
  assert (KB : PyPrivateKey bs = PyReturn bs) by (unfold PyPrivateKey; rewrite L; reflexivity).
  pose proof (prop_import_accepts_exactly_consistent_keys debug64 toy_prims SHA2_128f bs L) as K. cbv zeta in K.
  change (seed_bytes SHA2_128f) with 16 in K. change (2 * 16) with 32 in K. change (3 * 16) with 48 in K.
  change (4 * 16) with 64 in K.
  pose proof (proj2 (python_sign_verify debug64 toy_prims counter 5 toy_m eq_refl eq_refl) bs KB) as S.
  destruct (Fips205.slh_keygen_internal _ _ _ _ _) as [SK0 PK]. destruct K as [_ K]. destruct S as [_ [_ S]].
  destruct (list_eq_dec Byte.byte_eq_dec PK (sub_bytes bs 32 48 ++ sub_bytes bs 48 64)) as [Y|Y].
  - destruct (S Y _ _ eq_refl) as [sig [S1 [_ S2]]]. exists PK, sig. eexists.
    split; [exact KB|]. split; [exact Y|]. split; [exact S1|exact S2].
  - rewrite (K Y) in E. discriminate.
Qed.

(** C54. Python wrapper: a signature covers the whole message. A signature made or accepted by the Python
    classes for a message is not accepted for a longer message of which it is a prefix, whatever the
    length.
    The claim is false of the code: the length is passed as a C int, which keeps only its low 32
    bits, so a message and its extension by any multiple of 4 GiB are signed and verified alike. *)
Theorem python_signature_covers_message_refuted :
  forall (T : Target) (P : Prims) (m x : bytes) (k : N),
    nlen m < 2 ^ 31 -> nlen x = k * 2 ^ 32 ->
    (forall key sig, py_verify key (m ++ x) sig = py_verify key m sig) /\
    (forall os g key, py_sign os g key (m ++ x) = py_sign os g key m).
Proof. exact prop_python_signature_covers_message_refuted. Qed.
Print Assumptions python_signature_covers_message_refuted.

Example python_signature_covers_message_refuted_applies :
  exists x, nlen toy_m < 2 ^ 31 /\ nlen x = 1 * 2 ^ 32 /\ toy_m ++ x <> toy_m.
Proof.
  exists (nrepeat x00 (1 * 2 ^ 32)). split; [reflexivity|].
  assert (L : nlen (nrepeat x00 (1 * 2 ^ 32)) = 1 * 2 ^ 32) by apply nlen_nrepeat.
  split; [exact L|]. intros E. apply (f_equal nlen) in E. rewrite nlen_app, L in E.
  change (1 * 2 ^ 32) with 4294967296 in E. lia.
Qed.

(** Beside C53 and C54: a message whose length leaves 2 GiB or more after removing multiples of 4
    GiB ends the process. Together with python_sign_verify and
    python_signature_covers_message_refuted this covers messages of every length. *)
Theorem python_huge_message_aborts :
  forall (T : Target) (P : Prims) (m : bytes), 2 ^ 31 <= nlen m mod 2 ^ 32 ->
    (forall key sig, nlen sig = sig_size SHA2_128f -> py_verify key m sig = PyAbort) /\
    (forall os g key, snd (py_sign os g key m) = PyAbort).
Proof. exact prop_python_huge_message_aborts. Qed.
Print Assumptions python_huge_message_aborts.

Example python_huge_message_aborts_applies : exists m1 m2 : bytes,
  nlen m1 = 2 ^ 31 /\ 2 ^ 31 <= nlen m1 mod 2 ^ 32 /\ nlen m2 = 2 ^ 33 + 2 ^ 31 + 5 /\ 2 ^ 31 <= nlen m2 mod 2 ^ 32.
Proof.
  exists (nrepeat x00 (2 ^ 31)), (nrepeat x00 (2 ^ 33 + 2 ^ 31 + 5)). rewrite !nlen_nrepeat.
  split; [reflexivity|]. split; [discriminate|]. split; [reflexivity|discriminate].
Qed.

(** C54, the part that holds: a signature covers the first L bytes of a message, where L is its
    length modulo 4 GiB. Two messages that differ in these bytes (any two of less than 4 GiB that
    differ) are never both accepted with one signature, unless their digests select the same leaf of
    every FORS tree of the same key, or the two verifications contain a collision, or a block of the
    signature returns to its own value along its hash chain (C61). Missing: the bytes after these,
    for which it is false. *)
Theorem python_signature_covers_message_partial :
  forall (T : Target) (P : Prims) (key m1 m2 sig : bytes),
    nlen m1 < 2 ^ usize_bits -> nlen m2 < 2 ^ usize_bits ->
    PyPublicKey key = PyReturn key ->
    py_verify key m1 sig = PyReturn true -> py_verify key m2 sig = PyReturn true ->
    let pk := mkPk (sub_bytes key 0 16) (sub_bytes key 16 32) in
    (** what the signature covers of a message: all of it if it has less than 4 GiB *)
    let M1 := x00 :: x00 :: sub_bytes m1 0 (nlen m1 mod 2 ^ 32) in
    let M2 := x00 :: x00 :: sub_bytes m2 0 (nlen m2 mod 2 ^ 32) in
    exists t1 t2, accepting_run SHA2_128f pk M1 sig t1 /\ accepting_run SHA2_128f pk M2 sig t2 /\
      ((forall i, i < t_k (table2 SHA2_128f) -> fors_leaf SHA2_128f pk M1 sig i = fors_leaf SHA2_128f pk M2 sig i) \/
       collision SHA2_128f (pk_seed pk) t1 t2 \/
       earlier_chain_value SHA2_128f pk t1 M1 sig sig).
Proof. exact prop_python_signature_covers_message_partial. Qed.
Print Assumptions python_signature_covers_message_partial.

(** with hash functions that ignore their input, one signature is accepted for a message and its extension *)
Example python_signature_covers_message_partial_applies :
  exists key sig m x, PyPublicKey key = PyReturn key /\ nlen m < 2 ^ 31 /\ nlen (m ++ x) < 2 ^ 31 /\ x <> [] /\
    py_verify (T := debug64) (P := weak_prims) key m sig = PyReturn true /\
    py_verify (T := debug64) (P := weak_prims) key (m ++ x) sig = PyReturn true.
Proof.
  assert (L : nlen (nrepeat (n2b 1) 17088) = sig_size SHA2_128f) by (rewrite nlen_nrepeat; reflexivity).
  destruct (weak_python [n2b 1] _ eq_refl L) as [K E1]. destruct (weak_python ([n2b 1] ++ [n2b 2]) _ eq_refl L) as [_ E2].
  eexists _, _, [n2b 1], [n2b 2]. split; [exact K|]. split; [reflexivity|]. split; [reflexivity|]. split; [discriminate|].
  split; [exact E1|exact E2].
Qed.
