(** Python: exactly which calls are undefined, and what one signature for two messages implies. *)
From Coq Require Import String.
From Verif Require Import Spec.Fips205 Spec.Fips205Hash.
From Verif Require Import Model.Py Model.PyObj Spec.Vocab Spec.VocabFfi Spec.VocabPy Spec.VocabForge Spec.VocabPublic Spec.VocabBind Proof.Summary Proof.ApiP Proof.TopFips Proof.TopFfi Proof.TopC Proof.TopCUB Proof.TopPy Proof.TopPyObj Proof.TopBind Proof.TopPair.
Import ListNotations.
Open Scope list_scope.
Open Scope N_scope.

Section Exact.
Context {T : Target} {P : Prims} {W : Wide}.

Lemma ctypes_no_ub (m : bytes) : from_raw_parts (Some m) (ctypes_int (nlen m)) <> RUB.
Proof.
  unfold from_raw_parts. destruct ((ctypes_int (nlen m) <? 0)%Z || _) eqn:E; [discriminate|].
  apply orb_false_iff in E. destruct E as [E _]. apply Z.ltb_ge in E.
  assert (L : Z.to_N (ctypes_int (nlen m)) <= nlen m).
  { unfold ctypes_int in *. cbv zeta in *. set (X := 2 ^ 32) in *. assert (X <> 0) by discriminate.
    pose proof (N.mod_le (nlen m) X ltac:(assumption)) as L1. pose proof (N.mod_lt (nlen m) X ltac:(assumption)) as L2.
    clearbody X. destruct (nlen m mod X <? 2 ^ 31); lia. }
  rewrite (proj2 (N.leb_le _ _) L). discriminate.
Qed.

Lemma positive_length n : 0 < n < 2 ^ 31 -> (0 <? ctypes_int n)%Z = true.
Proof. intros L. rewrite ctypes_small by apply L. apply Z.ltb_lt. lia. Qed.

Lemma struct_none H d n : py_len H d = Some n -> (struct_arg H d n = None <-> ~ ((exists k, d = VBytes k) \/ exists s w, d = VStr s /\ wide s = Some w)).
Proof.
  destruct d as [i|s|l c]; cbn [py_len struct_arg]; intros E.
  - destruct (content H i) as [b|]; [|discriminate]. cbn [option_map]. split; [discriminate|].
    intros Q. exfalso. apply Q. left. eauto.
  - destruct (wide s) as [b|] eqn:Wb; cbn [option_map]; split; try discriminate.
    + intros Q. exfalso. apply Q. right. eauto.
    + intros _ [[k Q]|(s' & w & Q & Q')]; [discriminate Q|]. assert (s = s') by congruence. congruence.
    + reflexivity.
  - split; [|reflexivity]. intros _ [[k Q]|(s' & w & Q & Q')]; discriminate.
Qed.

Lemma same_iff d i n : 0 < n < 2 ^ 31 -> same_object d i (ctypes_int n) = true <-> d = VBytes i.
Proof.
  intros L. destruct d as [k|s|l c]; cbn [same_object]; [|split; discriminate..].
  rewrite (positive_length n L), andb_true_r, N.eqb_eq. split; congruence.
Qed.

Lemma own_length H d i m n : py_len H d = Some n -> d = VBytes i -> content H i = Some m -> nlen m = n.
Proof. intros E -> C. cbn [py_len] in E. rewrite C in E. cbn [option_map] in E. congruence. Qed.

Lemma sign_object_ub os g H d m : py_len H d = Some 64 ->
  snd (py_obj_sign os g H (PrivObj d) m) = PyUB <-> exists i, i < nlen H /\ m = VBytes i /\ d = VBytes i.
Proof.
  intros E. destruct m as [i|s|l c]; cbn [py_obj_sign].
  2, 3: split; [intros Q; discriminate Q|intros (i & _ & Q & _); discriminate Q].
  destruct (content H i) as [m|] eqn:Em.
  2: { split; [intros Q; discriminate Q|]. intros (k & L & Q & _). assert (k = i) by congruence. subst k.
       destruct (content_some _ _ L) as [b Q2]. congruence. }
  cbn [alloc]. change PY_SK_LEN with 64.
  pose proof (py_len_old H [nrepeat x00 PY_SIG_LEN] d 64 E) as E2.
  set (H2 := H ++ [nrepeat x00 PY_SIG_LEN]) in *.
  destruct (struct_of _ _ _ E2) as [Z|(key & Z & Lk)]; rewrite Z.
  { split; [intros Q; discriminate Q|]. intros (k & L & Q & Qd). exfalso. apply (struct_none _ _ _ E2) in Z. apply Z. left. eauto. }
  destruct (same_object d i (ctypes_int (nlen m))) eqn:S.
  - split; [|reflexivity]. intros _. exists i. split; [exact (content_bound _ _ _ Em)|]. split; [reflexivity|].
    destruct d as [k|s|l c]; cbn [same_object] in S; try discriminate S. apply andb_true_iff in S. destruct S as [S _].
    apply N.eqb_eq in S. congruence.
  - pose proof (content_last H (nrepeat x00 PY_SIG_LEN)) as C0. fold H2 in C0. rewrite C0.
    pose proof (proj1 (sign_ub os g m (ctypes_int (nlen m)) key (nrepeat x00 PY_SIG_LEN))) as U.
    destruct (ffi_sign os g (Some m) (ctypes_int (nlen m)) (Some key) (Some (nrepeat x00 PY_SIG_LEN))) as [g' r].
    cbn [snd] in U. split.
    + intros Q. exfalso. destruct r as [ret out| |]; cbn [snd] in Q; try discriminate Q.
      * destruct (negb (ret =? ERR_OK)); discriminate Q.
      * exact (ctypes_no_ub m (U eq_refl)).
    + intros (k & L & Q & Qd). exfalso. assert (k = i) by congruence. subst k.
      pose proof (own_length _ _ _ _ _ E Qd Em) as Lm.
      rewrite (proj2 (same_iff d i (nlen m) ltac:(rewrite Lm; split; reflexivity)) Qd) in S. discriminate S.
Qed.

Lemma verify_object_ub H d m sg : py_len H d = Some 32 ->
  py_obj_verify H (PubObj d) m sg = PyUB <->
  exists i j sig, m = VBytes i /\ i < nlen H /\ sg = VBytes j /\ content H j = Some sig /\ nlen sig = 17088 /\
    (d = VBytes i \/ (i = j /\ ((exists k, d = VBytes k) \/ exists s w, d = VStr s /\ wide s = Some w))).
Proof.
  intros E. destruct m as [i|s|l c]; cbn [py_obj_verify].
  2, 3: split; [intros Q; discriminate Q|intros (i & j & sig & Q & _); discriminate Q].
  destruct sg as [j|s|l c]; cbn [py_obj_verify].
  2, 3: split; [intros Q; discriminate Q|intros (i' & j & sig & _ & _ & Q & _); discriminate Q].
  destruct (content H i) as [m|] eqn:Em.
  2: { split; [intros Q; discriminate Q|]. intros (k & ? & ? & Q & L & _). assert (k = i) by congruence. subst k.
       destruct (content_some _ _ L) as [b Q2]. congruence. }
  destruct (content H j) as [sg|] eqn:Es.
  2: { split; [intros Q; discriminate Q|]. intros (k & k' & sig & _ & _ & Q & C & _). assert (k' = j) by congruence. subst k'. congruence. }
  change PY_SIG_LEN with 17088. change PY_PK_LEN with 32.
  destruct (N.eqb_spec (nlen sg) 17088) as [Ls|Ls]; cbn [negb].
  2: { split; [intros Q; discriminate Q|]. intros (k & k' & sig & _ & _ & Q & C & L & _). exfalso. apply Ls.
       assert (k' = j) by congruence. subst k'. congruence. }
  destruct (struct_of _ _ _ E) as [Z|(key & Z & Lk)]; rewrite Z.
  { split; [intros Q; discriminate Q|]. intros (k & k' & sig & Q & _ & Qj & _ & _ & D). exfalso.
    apply (struct_none _ _ _ E) in Z. apply Z. destruct D as [D|[_ D]]; [left; eauto|exact D]. }
  assert (Pass : (exists k, d = VBytes k) \/ exists s w, d = VStr s /\ wide s = Some w).
  { destruct d as [k|s|l c]; [left; eauto|right|cbn [struct_arg] in Z; discriminate Z].
    cbn [struct_arg] in Z. destruct (wide s) as [w|] eqn:Ww; [|discriminate Z]. eauto. }
  destruct (same_object d i (ctypes_int (nlen m)) || same_object (VBytes j) i (ctypes_int (nlen m))) eqn:S.
  - split; [|reflexivity]. intros _. exists i, j, sg. split; [reflexivity|]. split; [exact (content_bound _ _ _ Em)|].
    split; [reflexivity|]. split; [exact Es|]. split; [exact Ls|].
    apply orb_true_iff in S. destruct S as [S|S].
    + left. destruct d as [k|s|l c]; cbn [same_object] in S; try discriminate S. apply andb_true_iff in S. destruct S as [S _].
      apply N.eqb_eq in S. congruence.
    + right. cbn [same_object] in S. apply andb_true_iff in S. destruct S as [S _]. apply N.eqb_eq in S. split; [congruence|exact Pass].
  - pose proof (proj1 (verify_ub (Some m) (ctypes_int (nlen m)) key sg)) as U.
    destruct (ffi_verify (Some m) (ctypes_int (nlen m)) (Some key) (Some sg)) as [ret out| |].
    + split; [destruct (negb (ret =? ERR_OK) && negb (ret =? ERR_VERIFY_ERROR)); intros Q; discriminate Q|].
      intros (k & k' & sig & Q & _ & Qj & _ & _ & D). exfalso. assert (k = i) by congruence. assert (k' = j) by congruence. subst k k'.
      apply orb_false_iff in S. destruct S as [S1 S2]. destruct D as [D|[D _]].
      * pose proof (own_length _ _ _ _ _ E D Em) as Lm.
        rewrite (proj2 (same_iff d i (nlen m) ltac:(rewrite Lm; split; reflexivity)) D) in S1. discriminate S1.
      * subst j. assert (m = sg) by congruence. subst sg.
        rewrite (proj2 (same_iff (VBytes i) i (nlen m) ltac:(rewrite Ls; split; reflexivity)) eq_refl) in S2. discriminate S2.
    + split; [intros Q; discriminate Q|].
      intros (k & k' & sig & Q & _ & Qj & _ & _ & D). exfalso. assert (k = i) by congruence. assert (k' = j) by congruence. subst k k'.
      apply orb_false_iff in S. destruct S as [S1 S2]. destruct D as [D|[D _]].
      * pose proof (own_length _ _ _ _ _ E D Em) as Lm.
        rewrite (proj2 (same_iff d i (nlen m) ltac:(rewrite Lm; split; reflexivity)) D) in S1. discriminate S1.
      * subst j. assert (m = sg) by congruence. subst sg.
        rewrite (proj2 (same_iff (VBytes i) i (nlen m) ltac:(rewrite Ls; split; reflexivity)) eq_refl) in S2. discriminate S2.
    + exfalso. exact (ctypes_no_ub m (U eq_refl)).
Qed.
End Exact.

Lemma prop_python_calls_defined_partial :
  forall (T : Target) (P : Prims) (W : Wide) (os : Rng) (g : rng_st os) (H : heap),
    (forall op, match op with PSign _ _ | PVerify _ _ _ => False | _ => True end -> snd (py_step os g H op) <> PyUB) /\
    (forall d m, py_len H d = Some 64 ->
       snd (py_step os g H (PSign (PrivObj d) m)) = PyUB <-> exists i, i < nlen H /\ m = VBytes i /\ d = VBytes i) /\
    (forall d m sg, py_len H d = Some 32 ->
       snd (py_step os g H (PVerify (PubObj d) m sg)) = PyUB <->
       exists i j sig, m = VBytes i /\ i < nlen H /\ sg = VBytes j /\ content H j = Some sig /\ nlen sig = 17088 /\
         (d = VBytes i \/ (i = j /\ ((exists k, d = VBytes k) \/ exists s w, d = VStr s /\ wide s = Some w)))).
Proof.
  intros T P W os g H. split; [|split].
  - intros op. destruct op as [bs|d|d|k|k| |k m|k m sg]; cbn [py_step]; intros A; try contradiction.
    + discriminate.
    + cbn [snd]. unfold py_public. destruct (py_len H d) as [l|]; [destruct (l =? PY_PK_LEN)|]; discriminate.
    + cbn [snd]. unfold py_private. destruct (py_len H d) as [l|]; [destruct (l =? PY_SK_LEN)|]; discriminate.
    + unfold py_bytes. destruct k as [[i|s|l [b|]]|[i|s|l [b|]]]; discriminate.
    + cbn [snd]. unfold py_repr. destruct k as [[i|s|l b]|[i|s|l b]]; try discriminate; destruct (content H i); discriminate.
    + unfold py_obj_keygen. cbn [alloc].
      rewrite (content_last (H ++ [nrepeat x00 PY_PK_LEN]) (nrepeat x00 PY_SK_LEN)),
        (content_old _ [nrepeat x00 PY_SK_LEN] _ _ (content_last H (nrepeat x00 PY_PK_LEN))).
      pose proof (keygen_no_ub os g (Some (nrepeat x00 PY_PK_LEN)) (Some (nrepeat x00 PY_SK_LEN))) as U.
      destruct (ffi_keygen os g (Some (nrepeat x00 PY_PK_LEN)) (Some (nrepeat x00 PY_SK_LEN))) as [g' r].
      destruct r as [ret [po so]| |]; [|discriminate|intros _; exact (U eq_refl)]. cbn [snd].
      destruct (negb (ret =? ERR_OK)); [discriminate|].
      destruct (py_public _ _) as [[| | | |]| | |]; try discriminate;
        destruct (py_private _ _) as [[| | | |]| | |]; discriminate.
  - intros d m E. exact (sign_object_ub os g H d m E).
  - intros d m sg E. cbn [py_step snd]. exact (verify_object_ub H d m sg E).
Qed.

Lemma whole_slice {T : Target} (m : bytes) : nlen m < 2 ^ 31 -> nlen m < 2 ^ usize_bits ->
  from_raw_parts (Some m) (ctypes_int (nlen m)) = RSlice m.
Proof.
  intros L U. rewrite (ctypes_small _ L). unfold from_raw_parts. set (X := 2 ^ usize_bits) in *. clearbody X.
  rewrite (proj2 (Z.ltb_ge _ _)), (proj2 (Z.leb_gt _ _)) by lia. cbn [orb].
  rewrite N2Z.id, N.leb_refl, sub_bytes_all. reflexivity.
Qed.

Lemma python_accepts {T : Target} {P : Prims} key m sig :
  nlen m < 2 ^ 31 -> nlen m < 2 ^ usize_bits -> PyPublicKey key = PyReturn key -> py_verify key m sig = PyReturn true ->
  let pk := mkPk (sub_bytes key 0 16) (sub_bytes key 16 32) in
  accepting_run SHA2_128f pk (x00 :: x00 :: m) sig (trace (verify (param_set SHA2_128f) pk m sig [])).
Proof.
  intros L U K E. cbv zeta. unfold PyPublicKey in K. destruct (nlen key =? PY_PK_LEN) eqn:LK; [|discriminate]. apply N.eqb_eq in LK.
  unfold py_verify in E. destruct (N.eqb_spec (nlen sig) PY_SIG_LEN) as [LS|LS]; cbn [negb] in E; [|discriminate E].
  unfold ffi_verify in E. rewrite (whole_slice m L U) in E.
  destruct (runs_pk_try_from_bytes (param_set SHA2_128f) (param_PF SHA2_128f) key LK) as [V _].
  change (param_set SHA2_128f) with slh_dsa_sha2_128f in *. change (cN slh_dsa_sha2_128f) with 16 in V. change (2 * 16) with 32 in V.
  rewrite V in E. set (pk := mkPk _ _) in *. clearbody pk.
  refine (accepts_pure SHA2_128f pk m sig [] LS _). change (param_set SHA2_128f) with slh_dsa_sha2_128f.
  destruct (result (verify slh_dsa_sha2_128f pk m sig [])) as [[|]|e|q]; [reflexivity|exfalso..].
  - discriminate E.
  - discriminate E.
  - discriminate E.
Qed.

(** an accepted message: what is verified is its first [length mod 2^32] bytes, fewer than 2^31 *)
Lemma python_covered {T : Target} {P : Prims} key m sig : py_verify key m sig = PyReturn true ->
  let t := sub_bytes m 0 (nlen m mod 2 ^ 32) in
  nlen t < 2 ^ 31 /\ nlen t <= nlen m /\ py_verify key t sig = PyReturn true.
Proof.
  intros E. cbv zeta. pose proof (N.mod_le (nlen m) (2 ^ 32) ltac:(discriminate)) as Le.
  pose proof (nlen_sub_bytes m 0 (nlen m mod 2 ^ 32) ltac:(lia) Le) as L. rewrite N.sub_0_r in L. rewrite L.
  destruct (N.lt_ge_cases (nlen m mod 2 ^ 32) (2 ^ 31)) as [S|S].
  - split; [exact S|]. split; [exact Le|]. rewrite <- E. symmetry.
    pose proof (sub_bytes_split m 0 (nlen m mod 2 ^ 32) (nlen m) ltac:(lia) Le) as D. rewrite sub_bytes_all in D.
    rewrite <- D at 1. apply (prop_python_signature_covers_message_refuted T P _ _ (nlen m / 2 ^ 32)).
    + rewrite L. exact S.
    + rewrite nlen_sub_bytes by lia. pose proof (N.div_mod (nlen m) (2 ^ 32) ltac:(discriminate)). lia.
  - exfalso. unfold py_verify in E. destruct (negb (nlen sig =? PY_SIG_LEN)) eqn:Q; [discriminate E|].
    apply negb_false_iff, N.eqb_eq in Q. change PY_SIG_LEN with (sig_size SHA2_128f) in Q.
    pose proof (proj1 (prop_python_huge_message_aborts T P m S) key sig Q) as X.
    unfold py_verify in X. change PY_SIG_LEN with (sig_size SHA2_128f) in X, E. rewrite Q, N.eqb_refl in X. cbn [negb] in X.
    rewrite E in X. discriminate X.
Qed.

Lemma prop_python_signature_covers_message_partial :
  forall (T : Target) (P : Prims) (key m1 m2 sig : bytes),
    nlen m1 < 2 ^ usize_bits -> nlen m2 < 2 ^ usize_bits ->
    PyPublicKey key = PyReturn key ->
    py_verify key m1 sig = PyReturn true -> py_verify key m2 sig = PyReturn true ->
    let pk := mkPk (sub_bytes key 0 16) (sub_bytes key 16 32) in
    (** what the signature covers of a message: all of it if it has less than 4 GiB *)
    let M1 := x00 :: x00 :: sub_bytes m1 0 (nlen m1 mod 2 ^ 32) in
    let M2 := x00 :: x00 :: sub_bytes m2 0 (nlen m2 mod 2 ^ 32) in
    exists t1 t2, accepting_run SHA2_128f pk M1 sig t1 /\ accepting_run SHA2_128f pk M2 sig t2 /\
      ((forall i, i < t_k (table2 SHA2_128f) -> fors_leaf SHA2_128f pk M1 sig i = fors_leaf SHA2_128f pk M2 sig i) \/
       collision SHA2_128f (pk_seed pk) t1 t2 \/
       earlier_chain_value SHA2_128f pk t1 M1 sig sig).
Proof.
  intros T P key m1 m2 sig U1 U2 K E1 E2. cbv zeta.
  destruct (python_covered key m1 sig E1) as (L1 & V1 & F1). destruct (python_covered key m2 sig E2) as (L2 & V2 & F2).
  pose proof (python_accepts key _ sig L1 (N.le_lt_trans _ _ _ V1 U1) K F1) as A1.
  pose proof (python_accepts key _ sig L2 (N.le_lt_trans _ _ _ V2 U2) K F2) as A2.
  cbv zeta in A1, A2. eexists _, _. split; [exact A1|]. split; [exact A2|].
  exact (prop_signature_binds_message T P SHA2_128f _ sig _ _ _ _ A1 A2).
Qed.
