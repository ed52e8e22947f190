(** The Python wrapper. *)
From Verif Require Import Spec.Fips205 Spec.Fips205Hash.
From Verif Require Import Model.Py Spec.Vocab Spec.VocabFfi Proof.TopFfi.
Import ListNotations.
Open Scope N_scope.

Lemma ctypes_small n : n < 2 ^ 31 -> ctypes_int n = Z.of_N n.
Proof.
  intros L. unfold ctypes_int. cbv zeta. rewrite N.mod_small by (change (2 ^ 32) with 4294967296; change (2 ^ 31) with 2147483648 in L; lia).
  destruct (n <? 2 ^ 31) eqn:E; [reflexivity|]. apply N.ltb_ge in E. lia.
Qed.

Lemma whole_message {T : Target} m : nlen m < 2 ^ 31 -> nlen m < 2 ^ usize_bits -> c_message m (ctypes_int (nlen m)) m.
Proof.
  intros L U. rewrite (ctypes_small _ L). unfold c_message. rewrite N2Z.id.
  split; [lia|]. split; [symmetry; apply sub_bytes_all|]. split; [lia|exact U].
Qed.

Lemma python_keygen_cases :
  forall (T : Target) (P : Prims) (os : Rng) (g : rng_st os),
    (refuses os g 16 \/
     (exists a g1, gives os g 16 a g1 /\ refuses os g1 16) \/
     (exists a b g1 g2, gives os g 16 a g1 /\ gives os g1 16 b g2 /\ refuses os g2 16) ->
     snd (py_keygen os g) = PyRaise) /\
    (forall a b c g1 g2 g3, gives os g 16 a g1 -> gives os g1 16 b g2 -> gives os g2 16 c g3 ->
       exists pkb skb, py_keygen os g = (g3, PyReturn (pkb, skb)) /\
         Fips205.slh_keygen_internal (fips_params SHA2_128f) (fips_hash SHA2_128f) a b c = (skb, pkb) /\
         PyPublicKey pkb = PyReturn pkb /\ PyPrivateKey skb = PyReturn skb).
Proof.
  intros T P os g.
  pose proof (named_ffi_keygen_contract T P os g (Some (nrepeat x00 PY_PK_LEN)) (Some (nrepeat x00 PY_SK_LEN))) as C.
  cbv zeta in C. destruct C as [_ [C _]]. destruct (C ltac:(discriminate) ltac:(discriminate)) as [C1 C2]. clear C.
  unfold py_keygen. cbv zeta.
  destruct (ffi_keygen os g (Some (nrepeat x00 PY_PK_LEN)) (Some (nrepeat x00 PY_SK_LEN))) as [g' r] eqn:K.
  cbn [snd fst] in C1, C2. split.
  - intros R. rewrite (C1 R). reflexivity.
  - intros a b c g1 g2 g3 E1 E2 E3.
    destruct (C2 a b c g1 g2 g3 E1 E2 E3) as (pk & sk & pkb & skb & -> & -> & F & _ & _ & L1 & _ & L2).
    exists pkb, skb.
    assert (Q1 : PyPublicKey pkb = PyReturn pkb) by (unfold PyPublicKey; rewrite L1; reflexivity).
    assert (Q2 : PyPrivateKey skb = PyReturn skb) by (unfold PyPrivateKey; rewrite L2; reflexivity).
    change (negb (SLH_DSA_OK =? ERR_OK)) with false. cbv iota. rewrite Q1, Q2.
    refine (conj eq_refl (conj F (conj _ _))); reflexivity.
Qed.

Lemma prop_python_keygen :
  forall (T : Target) (P : Prims) (os : Rng) (g : rng_st os),
    (refuses os g 16 \/
     (exists a g1, gives os g 16 a g1 /\ refuses os g1 16) \/
     (exists a b g1 g2, gives os g 16 a g1 /\ gives os g1 16 b g2 /\ refuses os g2 16) ->
     snd (py_keygen os g) = PyRaise) /\
    (forall a b c g1 g2 g3, gives os g 16 a g1 -> gives os g1 16 b g2 -> gives os g2 16 c g3 ->
       exists pkb skb, py_keygen os g = (g3, PyReturn (pkb, skb)) /\
         Fips205.slh_keygen_internal (fips_params SHA2_128f) (fips_hash SHA2_128f) a b c = (skb, pkb) /\
         PyPublicKey pkb = PyReturn pkb /\ PyPrivateKey skb = PyReturn skb) /\
    (never_panics os -> (exists keys, snd (py_keygen os g) = PyReturn keys) \/ snd (py_keygen os g) = PyRaise).
Proof.
  intros T P os g. destruct (python_keygen_cases T P os g) as [A B]. split; [exact A|]. split; [exact B|]. intros NP.
  destruct (try_fill os g 16) as [g1 [a|e|q]] eqn:E1; [|right; apply A; left; do 2 eexists; exact E1|exfalso; exact (NP _ _ _ _ E1)].
  destruct (try_fill os g1 16) as [g2 [b|e|q]] eqn:E2;
    [|right; apply A; right; left; do 2 eexists; split; [exact E1|do 2 eexists; exact E2]|exfalso; exact (NP _ _ _ _ E2)].
  destruct (try_fill os g2 16) as [g3 [c|e|q]] eqn:E3;
    [|right; apply A; right; right; do 4 eexists; split; [exact E1|split; [exact E2|do 2 eexists; exact E3]]|exfalso; exact (NP _ _ _ _ E3)].
  left. destruct (B _ _ _ _ _ _ E1 E2 E3) as (pk & sk & E & _). rewrite E. exists (pk, sk). reflexivity.
Qed.

Lemma prop_python_sign_verify :
  forall (T : Target) (P : Prims) (os : Rng) (g : rng_st os) (m : bytes),
    nlen m < 2 ^ 31 -> nlen m < 2 ^ usize_bits ->
    (forall key sig, PyPublicKey key = PyReturn key ->
       py_verify key m sig =
         if nlen sig =? sig_size SHA2_128f
         then PyReturn (Fips205.slh_verify (fips_params SHA2_128f) (fips_hash SHA2_128f) m sig [] key)
         else PyRaise) /\
    (forall key, PyPrivateKey key = PyReturn key ->
       let '(_, PK) := Fips205.slh_keygen_internal (fips_params SHA2_128f) (fips_hash SHA2_128f)
                         (sub_bytes key 0 16) (sub_bytes key 16 32) (sub_bytes key 32 48) in
       (PK <> sub_bytes key 32 48 ++ sub_bytes key 48 64 -> py_sign os g key m = (g, PyRaise)) /\
       (PK = sub_bytes key 32 48 ++ sub_bytes key 48 64 -> refuses os g 16 -> snd (py_sign os g key m) = PyRaise) /\
       (PK = sub_bytes key 32 48 ++ sub_bytes key 48 64 -> forall b g', gives os g 16 b g' ->
          exists sig, py_sign os g key m = (g', PyReturn sig) /\
            Some sig = Fips205.slh_sign (fips_params SHA2_128f) (fips_hash SHA2_128f) m [] key (Some (Some b)) /\
            py_verify PK m sig = PyReturn true)).
Proof.
  intros T P os g m L U. pose proof (whole_message m L U) as C.
  split.
  - intros key sig K. unfold PyPublicKey in K. destruct (nlen key =? PY_PK_LEN) eqn:LK; [|discriminate]. apply N.eqb_eq in LK.
    unfold py_verify. change (sig_size SHA2_128f) with PY_SIG_LEN.
    destruct (nlen sig =? PY_SIG_LEN) eqn:LS; cbn [negb]; [|reflexivity]. apply N.eqb_eq in LS.
    rewrite (proj2 (named_ffi_verify_contract T P _ _ _) m m key sig C eq_refl LK eq_refl LS).
    destruct (Fips205.slh_verify _ _ _ _ _ _); reflexivity.
  - intros key K. unfold PyPrivateKey in K. destruct (nlen key =? PY_SK_LEN) eqn:LK; [|discriminate]. apply N.eqb_eq in LK.
    assert (No : Some (nrepeat x00 PY_SIG_LEN) <> None) by discriminate.
    pose proof (proj2 (named_ffi_sign_contract T P os g _ _ _) m m key C eq_refl LK No) as S. cbv zeta in S.
    destruct (Fips205.slh_keygen_internal (fips_params SHA2_128f) (fips_hash SHA2_128f)
                (sub_bytes key 0 16) (sub_bytes key 16 32) (sub_bytes key 32 48)) as [SK0 PK].
    destruct S as [S1 [S2 S3]]. unfold py_sign. cbv zeta. split; [|split].
    + intros E. rewrite (S1 E). reflexivity.
    + intros E R. specialize (S2 E R).
      destruct (ffi_sign os g (Some m) (ctypes_int (nlen m)) (Some key) (Some (nrepeat x00 PY_SIG_LEN))) as [g' r].
      cbn [snd] in S2. rewrite S2. reflexivity.
    + intros E b g' G. destruct (S3 E b g' G) as [sig [-> [Ls [F V]]]]. exists sig.
      split; [reflexivity|]. split; [exact F|]. unfold py_verify. change PY_SIG_LEN with (sig_size SHA2_128f).
      rewrite Ls, N.eqb_refl. cbn [negb]. rewrite V. reflexivity.
Qed.

Lemma ctypes_wraps n k : ctypes_int (n + k * 2 ^ 32) = ctypes_int n.
Proof. unfold ctypes_int. cbv zeta. rewrite N.mod_add by discriminate. reflexivity. Qed.

Lemma from_raw_parts_prefix {T : Target} m x : nlen m < 2 ^ 31 ->
  from_raw_parts (Some (m ++ x)) (Z.of_N (nlen m)) = from_raw_parts (Some m) (Z.of_N (nlen m)).
Proof.
  intros L. unfold from_raw_parts.
  destruct ((Z.of_N (nlen m) <? 0)%Z || (Z.of_N (2 ^ usize_bits) <=? Z.of_N (nlen m))%Z); [reflexivity|].
  rewrite N2Z.id, nlen_app.
  replace (nlen m <=? nlen m + nlen x) with true by (symmetry; apply N.leb_le; lia).
  rewrite N.leb_refl. rewrite sub_bytes_app_l by lia. reflexivity.
Qed.

Lemma prop_python_signature_covers_message_refuted :
  forall (T : Target) (P : Prims) (m x : bytes) (k : N),
    nlen m < 2 ^ 31 -> nlen x = k * 2 ^ 32 ->
    (forall key sig, py_verify key (m ++ x) sig = py_verify key m sig) /\
    (forall os g key, py_sign os g key (m ++ x) = py_sign os g key m).
Proof.
  intros T P m x k L X.
  assert (C : ctypes_int (nlen (m ++ x)) = Z.of_N (nlen m)) by (rewrite nlen_app, X, ctypes_wraps; apply ctypes_small; exact L).
  assert (C0 : ctypes_int (nlen m) = Z.of_N (nlen m)) by (apply ctypes_small; exact L).
  pose proof (from_raw_parts_prefix m x L) as F.
  split.
  - intros key sig. unfold py_verify, ffi_verify. rewrite C, C0, F. reflexivity.
  - intros os g key. unfold py_sign, ffi_sign. rewrite C, C0, F. reflexivity.
Qed.

Lemma prop_python_huge_message_aborts :
  forall (T : Target) (P : Prims) (m : bytes), 2 ^ 31 <= nlen m mod 2 ^ 32 ->
    (forall key sig, nlen sig = sig_size SHA2_128f -> py_verify key m sig = PyAbort) /\
    (forall os g key, snd (py_sign os g key m) = PyAbort).
Proof.
  intros T P m L1. pose proof (N.mod_lt (nlen m) (2 ^ 32) ltac:(discriminate)) as L2.
  assert (C : (ctypes_int (nlen m) < 0)%Z).
  { unfold ctypes_int. cbv zeta. set (l := nlen m mod 2 ^ 32) in *. clearbody l.
    destruct (l <? 2 ^ 31) eqn:E; [apply N.ltb_lt in E; lia|]. change (2 ^ 32) with 4294967296 in *. lia. }
  split.
  - intros key sig Ls. unfold py_verify. change PY_SIG_LEN with (sig_size SHA2_128f). rewrite Ls, N.eqb_refl. cbn [negb].
    destruct (prop_ffi_negative_length_aborts T P DummyRng ([], 0) _ m key sig C) as [_ ->]. reflexivity.
  - intros os g key. unfold py_sign. cbv zeta.
    destruct (prop_ffi_negative_length_aborts T P os g _ m key (nrepeat x00 PY_SIG_LEN) C) as [E _].
    destruct (ffi_sign os g (Some m) (ctypes_int (nlen m)) (Some key) (Some (nrepeat x00 PY_SIG_LEN))) as [g' r].
    cbn [snd] in *. rewrite E. reflexivity.
Qed.
