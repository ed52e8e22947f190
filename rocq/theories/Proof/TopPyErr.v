(** The exceptions of the Python wrapper. *)
From Coq Require Import String.
From Verif Require Import Spec.Fips205 Spec.Fips205Hash.
From Verif Require Import Model.Py Model.PyObj Model.PyErr Spec.Vocab Spec.VocabFfi Spec.VocabPy Proof.Summary Proof.TopFips Proof.TopFfi Proof.TopC Proof.TopPy Proof.TopPyObj Proof.ApiP Proof.Facts.
Import ListNotations.
Open Scope list_scope.
Open Scope N_scope.

Section Err.
Context {T : Target} {P : Prims} {W : Wide}.

Lemma keygen_codes os g pub priv code outs : snd (ffi_keygen os g (Some pub) (Some priv)) = FReturn code outs ->
  (code = 4 /\ outs = (Some pub, Some priv)) \/
  (code = 0 /\ exists skb, nlen skb = 64 /\ outs = (Some (sub_bytes skb 32 64), Some skb)).
Proof.
  intros E. destruct (ffi_keygen os g (Some pub) (Some priv)) as [g' r] eqn:K. cbn [snd] in E. subst r.
  destruct (keygen_cases os g _ _ g' code outs K) as [[I Eo]|(-> & _ & _ & skb & L & _ & Eo)].
  - left. split; [|exact Eo]. destruct I as [<-|[<-|[]]]; [exfalso|reflexivity].
    unfold ffi_keygen in K. destruct (try_keygen slh_dsa_sha2_128f os g) as [g1 m].
    apply pair_equal_spec in K. destruct K as [_ K].
    destruct (result m) as [[pk sk]|e|q]; [|discriminate K..].
    destruct (result (pk_into_bytes slh_dsa_sha2_128f pk)); [|discriminate K..].
    destruct (result (sk_into_bytes slh_dsa_sha2_128f sk)); discriminate K.
  - right. split; [reflexivity|]. exists skb. split; [exact L|exact Eo].
Qed.

Lemma sign_codes os g m len key out code o : snd (ffi_sign os g (Some m) len (Some key) (Some out)) = FReturn code o ->
  In code [0; 3; 5].
Proof.
  unfold ffi_sign. destruct (from_raw_parts (Some m) len) as [t| |]; [|discriminate..].
  destruct (result (sk_try_from_bytes slh_dsa_sha2_128f key)) as [sk|e|q]; [| |discriminate].
  - destruct (try_sign slh_dsa_sha2_128f os sk t [] true g) as [g1 r]. cbn [snd].
    destruct (result r) as [v|e|q]; [| |discriminate]; intros E; apply ret_inv in E; destruct E as [-> _]; cbn [In]; auto.
  - cbn [snd]. intros E. apply ret_inv in E. destruct E as [-> _]. cbn [In]. auto.
Qed.

Lemma verify_codes m len key sig code o : nlen key = 32 -> ffi_verify (Some m) len (Some key) (Some sig) = FReturn code o ->
  code = 0 \/ code = 6.
Proof.
  intros L. unfold ffi_verify. destruct (from_raw_parts (Some m) len) as [t| |]; [|discriminate..].
  destruct (runs_pk_try_from_bytes (param_set SHA2_128f) (param_PF SHA2_128f) key L) as [V _].
  change (param_set SHA2_128f) with slh_dsa_sha2_128f in *. rewrite V. set (pk := mkPk _ _). clearbody pk.
  destruct (result (verify slh_dsa_sha2_128f pk t sig [])) as [[|]|e|q]; [| |discriminate..];
    intros E; apply ret_inv in E; destruct E as [-> _]; auto.
Qed.

Lemma struct_len H d n key : struct_arg H d n = Some (Some key) -> nlen key = n.
Proof.
  assert (Wh : forall b : bytes, (if n <=? nlen b then Some (sub_bytes b 0 n) else None) = Some key -> nlen key = n).
  { intros b. destruct (N.leb_spec n (nlen b)) as [Le|_]; [|discriminate]. intros E. apply some_inj in E. subst key.
    rewrite nlen_sub_bytes; lia. }
  destruct d as [i|s|l c]; cbn [struct_arg]; [| |discriminate].
  - destruct (content H i) as [b|]; [|discriminate]. cbn [option_map]. intros E. apply some_inj in E. exact (Wh b E).
  - destruct (wide s) as [b|]; [|discriminate]. cbn [option_map]. intros E. apply some_inj in E. exact (Wh b E).
Qed.

Lemma text_keygen : returned "keygen" 4 = "slh_dsa_sha2_128f_keygen() returned 4"%string.
Proof. reflexivity. Qed.
Lemma text_sign3 : returned "sign" 3 = "slh_dsa_sha2_128f_sign() returned 3"%string.
Proof. reflexivity. Qed.
Lemma text_sign5 : returned "sign" 5 = "slh_dsa_sha2_128f_sign() returned 5"%string.
Proof. reflexivity. Qed.

(** key generation either reports 4 or raises nothing, and the step agrees *)
Lemma keygen_exc os g H :
  (exc_keygen os g H = Some (OwnText "slh_dsa_sha2_128f_keygen() returned 4") /\ snd (py_obj_keygen os g H) = PyRaise /\
   exists outs, snd (ffi_keygen os g (Some (nrepeat x00 PY_PK_LEN)) (Some (nrepeat x00 PY_SK_LEN))) = FReturn 4 outs) \/
  (exc_keygen os g H = None /\ snd (py_obj_keygen os g H) <> PyRaise /\
   forall outs, snd (ffi_keygen os g (Some (nrepeat x00 PY_PK_LEN)) (Some (nrepeat x00 PY_SK_LEN))) <> FReturn 4 outs).
Proof.
  unfold exc_keygen, py_obj_keygen, alloc. cbv zeta.
  set (H1 := H ++ [nrepeat x00 PY_PK_LEN]). set (H2 := H1 ++ [nrepeat x00 PY_SK_LEN]).
  assert (C1 : content H2 (nlen H) = Some (nrepeat x00 PY_PK_LEN)) by (apply content_old, content_last).
  assert (C2 : content H2 (nlen H1) = Some (nrepeat x00 PY_SK_LEN)) by apply content_last.
  rewrite C1, C2.
  destruct (ffi_keygen os g (Some (nrepeat x00 PY_PK_LEN)) (Some (nrepeat x00 PY_SK_LEN))) as [g1 r] eqn:K. cbn [snd].
  destruct r as [code [po so]| |].
  2,3: right; split; [reflexivity|]; split; [discriminate|discriminate].
  pose proof (keygen_codes os g (nrepeat x00 PY_PK_LEN) (nrepeat x00 PY_SK_LEN) code (po, so)) as D. rewrite K in D.
  destruct (D eq_refl) as [[-> _]|(-> & skb & L & Eo)].
  - left. change (negb (4 =? ERR_OK)) with true. cbv iota. rewrite text_keygen.
    split; [reflexivity|]. split; [reflexivity|]. eexists. reflexivity.
  - right. change (negb (0 =? ERR_OK)) with false. cbv iota. apply pair_equal_spec in Eo. destruct Eo as [-> ->].
    unfold H2, H1. rewrite write_pair. set (X := H ++ [sub_bytes skb 32 64; skb]).
    assert (D1 : content X (nlen H) = Some (sub_bytes skb 32 64)).
    { unfold X. change [sub_bytes skb 32 64; skb] with ([sub_bytes skb 32 64] ++ [skb]). rewrite app_assoc. apply content_old, content_last. }
    assert (D2 : content X (nlen (H ++ [nrepeat x00 PY_PK_LEN])) = Some skb).
    { unfold X. change [sub_bytes skb 32 64; skb] with ([sub_bytes skb 32 64] ++ [skb]).
      rewrite app_assoc, nlen_snoc, <- (nlen_snoc H (sub_bytes skb 32 64)). apply content_last. }
    assert (L1 : nlen (sub_bytes skb 32 64) = 32) by (rewrite nlen_sub_bytes; lia).
    unfold exc_public, exc_private, py_public, py_private. cbn [py_len]. rewrite D1, D2. cbn [option_map]. rewrite L, L1.
    change (32 =? PY_PK_LEN) with true. change (64 =? PY_SK_LEN) with true. cbv iota.
    split; [reflexivity|]. split; [discriminate|]. intros outs Q. apply ret_inv in Q. destruct Q as [Q _]. discriminate Q.
Qed.

Lemma raises_iff os g H op : snd (py_step os g H op) = PyRaise <-> exists e, py_exception os g H op = Some e.
Proof.
  assert (Yes : forall e : py_exc, @PyRaise py_ret = PyRaise <-> exists e', Some e = Some e') by (intros e; split; [exists e|]; reflexivity).
  assert (No : forall r : py_result py_ret, r <> PyRaise -> r = PyRaise <-> exists e : py_exc, None = Some e).
  { intros r D. split; [intros Q; contradiction|]. intros [e Q]. discriminate Q. }
  destruct op; cbn [py_step py_exception].
  - apply No. discriminate.
  - cbn [snd]. unfold py_public, exc_public. destruct (py_len H data) as [l|]; [|apply Yes].
    destruct (l =? PY_PK_LEN); [apply No; discriminate|apply Yes].
  - cbn [snd]. unfold py_private, exc_private. destruct (py_len H data) as [l|]; [|apply Yes].
    destruct (l =? PY_SK_LEN); [apply No; discriminate|apply Yes].
  - unfold py_bytes, exc_bytes. destruct k as [[i|s|l [c|]]|[i|s|l [c|]]]; cbn [alloc snd]; first [apply Yes | apply No; discriminate].
  - cbn [snd]. unfold py_repr, exc_repr. cbv zeta.
    destruct k as [[i|s|l c]|[i|s|l c]]; try apply Yes; (destruct (content H i); [apply No; discriminate|apply Yes]).
  - destruct (keygen_exc os g H) as [(-> & -> & _)|(-> & D & _)]; [apply Yes|apply No; exact D].
  - unfold py_obj_sign, exc_sign. destruct k as [d|d]; [apply Yes|]. destruct message as [i|s|l c]; [|apply Yes..].
    destruct (content H i) as [m|]; [|apply Yes]. unfold alloc. cbv zeta.
    destruct (struct_arg _ d PY_SK_LEN) as [[key|]|]; [|apply No; discriminate|apply Yes].
    destruct (same_object d i _); [apply No; discriminate|].
    destruct (ffi_sign os g _ _ _ _) as [g1 [code out| |]]; cbn [snd]; [|apply No; discriminate..].
    destruct (negb (code =? ERR_OK)); [apply Yes|apply No; discriminate].
  - cbn [snd]. unfold py_obj_verify, exc_verify. destruct k as [d|d]; [|apply Yes]. destruct message as [i|s|l c]; [|apply Yes..].
    destruct signature as [j|s|l c]; [|apply Yes..].
    destruct (content H i) as [m|]; [|apply Yes]. destruct (content H j) as [sg|]; [|apply Yes].
    destruct (negb (nlen sg =? PY_SIG_LEN)); [apply Yes|].
    destruct (struct_arg H d PY_PK_LEN) as [[key|]|]; [|apply No; discriminate|apply Yes].
    destruct (same_object d i _ || _); [apply No; discriminate|].
    destruct (ffi_verify _ _ _ _) as [code out| |]; [|apply No; discriminate..].
    destruct (negb (code =? ERR_OK) && negb (code =? ERR_VERIFY_ERROR)); [apply Yes|apply No; discriminate].
Qed.

Lemma own_text (e : option py_exc) t u : e = Some (OwnText u) -> e = Some (OwnText t) -> u = t.
Proof. intros -> Q. apply some_inj in Q. injection Q. exact (fun x => x). Qed.

(** all texts *)
Lemma all_texts os g H op text : py_exception os g H op = Some (OwnText text) ->
  In text ["Inconsistent public key source/length"; "Inconsistent private key source/length";
           "Signature and message must be bytes"; "Inconsistent signature source/length"; "Message must be bytes";
           "slh_dsa_sha2_128f_keygen() returned 4"; "slh_dsa_sha2_128f_sign() returned 3"; "slh_dsa_sha2_128f_sign() returned 5"]%string.
Proof.
  destruct op; cbn [py_exception]; intros E.
  - discriminate E.
  - unfold exc_public in E. destruct (py_len H data) as [l|]; [|discriminate E]. destruct (l =? PY_PK_LEN); [discriminate E|].
    apply own_text with (1 := eq_refl) in E. rewrite <- E. cbn [In]. auto.
  - unfold exc_private in E. destruct (py_len H data) as [l|]; [|discriminate E]. destruct (l =? PY_SK_LEN); [discriminate E|].
    apply own_text with (1 := eq_refl) in E. rewrite <- E. cbn [In]. auto.
  - unfold exc_bytes in E. destruct k as [[i|s|l [c|]]|[i|s|l [c|]]]; discriminate E.
  - unfold exc_repr in E. destruct k as [[i|s|l c]|[i|s|l c]]; try discriminate E; destruct (content H i); discriminate E.
  - destruct (keygen_exc os g H) as [(Q & _)|(Q & _)]; rewrite Q in E; [|discriminate E].
    apply own_text with (1 := eq_refl) in E. rewrite <- E. cbn [In]. auto 9.
  - unfold exc_sign in E. destruct k as [d|d]; [discriminate E|].
    destruct message as [i|s|l c]; [|apply own_text with (1 := eq_refl) in E; rewrite <- E; cbn [In]; auto 9..].
    destruct (content H i) as [m|]; [|discriminate E]. unfold alloc in E. cbv zeta in E.
    destruct (struct_arg _ d PY_SK_LEN) as [[key|]|]; [|discriminate E..].
    destruct (same_object d i _); [discriminate E|]. rewrite content_last in E.
    destruct (snd (ffi_sign os g _ _ _ _)) as [code out| |] eqn:K; [|discriminate E..].
    destruct (sign_codes _ _ _ _ _ _ _ _ K) as [<-|[<-|[<-|[]]]].
    + discriminate E.
    + change (negb (3 =? ERR_OK)) with true in E. cbv iota in E. rewrite text_sign3 in E.
      apply own_text with (1 := eq_refl) in E. rewrite <- E. cbn [In]. auto 9.
    + change (negb (5 =? ERR_OK)) with true in E. cbv iota in E. rewrite text_sign5 in E.
      apply own_text with (1 := eq_refl) in E. rewrite <- E. cbn [In]. auto 9.
  - unfold exc_verify in E. destruct k as [d|d]; [|discriminate E].
    destruct message as [i|s|l c]; [|apply own_text with (1 := eq_refl) in E; rewrite <- E; cbn [In]; auto 9..].
    destruct signature as [j|s|l c]; [|apply own_text with (1 := eq_refl) in E; rewrite <- E; cbn [In]; auto 9..].
    destruct (content H i) as [m|]; [|discriminate E]. destruct (content H j) as [sg|]; [|discriminate E].
    destruct (negb (nlen sg =? PY_SIG_LEN)); [apply own_text with (1 := eq_refl) in E; rewrite <- E; cbn [In]; auto 9|].
    destruct (struct_arg H d PY_PK_LEN) as [[key|]|] eqn:S; [|discriminate E..].
    destruct (same_object d i _ || _); [discriminate E|].
    destruct (ffi_verify _ _ _ _) as [code out| |] eqn:K; [|discriminate E..].
    destruct (verify_codes _ _ _ _ _ _ (struct_len _ _ _ _ S) K) as [-> | ->]; discriminate E.
Qed.

Lemma keygen_4 os g pub priv outs : snd (ffi_keygen os g (Some pub) (Some priv)) = FReturn 4 outs ->
  refuses os g 16 \/
  (exists a g1, gives os g 16 a g1 /\ refuses os g1 16) \/
  (exists a b g1 g2, gives os g 16 a g1 /\ gives os g1 16 b g2 /\ refuses os g2 16).
Proof.
  intros E.
  destruct (try_fill os g 16) as [g1 [a|e|q]] eqn:E1; [ |left; do 2 eexists; exact E1| ].
  2: { exfalso. revert E. unfold ffi_keygen, try_keygen, try_keygen_with_rng, slh_keygen_with_rng, rbind, fill_or.
       change (cN slh_dsa_sha2_128f) with 16. rewrite E1. discriminate. }
  destruct (try_fill os g1 16) as [g2 [b|e|q]] eqn:E2; [|right; left; do 2 eexists; split; [exact E1|do 2 eexists; exact E2]|].
  2: { exfalso. revert E. unfold ffi_keygen, try_keygen, try_keygen_with_rng, slh_keygen_with_rng, rbind, fill_or.
       change (cN slh_dsa_sha2_128f) with 16. rewrite E1, E2. discriminate. }
  destruct (try_fill os g2 16) as [g3 [c|e|q]] eqn:E3;
    [|right; right; do 4 eexists; split; [exact E1|split; [exact E2|do 2 eexists; exact E3]]|].
  2: { exfalso. revert E. unfold ffi_keygen, try_keygen, try_keygen_with_rng, slh_keygen_with_rng, rbind, fill_or.
       change (cN slh_dsa_sha2_128f) with 16. rewrite E1, E2, E3. discriminate. }
  exfalso.
  pose proof (named_ffi_keygen_contract T P os g (Some pub) (Some priv)) as C. cbv zeta in C. destruct C as [_ [C _]].
  destruct (C ltac:(discriminate) ltac:(discriminate)) as [_ C3].
  destruct (C3 a b c g1 g2 g3 E1 E2 E3) as (pk & sk & pkb & skb & R & _).
  set (X := snd _) in *. clearbody X. rewrite E in R. apply ret_inv in R. destruct R as [R _]. discriminate R.
Qed.
End Err.

Lemma prop_python_exceptions :
  forall (T : Target) (P : Prims) (W : Wide) (os : Rng) (g : rng_st os) (H : heap),
    let ps := fips_params SHA2_128f in
    let hs := fips_hash SHA2_128f in
    let raises op text := py_exception os g H op = Some (OwnText text) in
    (** a call raises exactly when there is an exception *)
    (forall op, snd (py_step os g H op) = PyRaise <-> exists e, py_exception os g H op = Some e) /\
    (** arguments of the wrong kind or length *)
    (forall v l, py_len H v = Some l ->
       (l <> 32 -> raises (PPublic v) "Inconsistent public key source/length"%string) /\
       (l <> 64 -> raises (PPrivate v) "Inconsistent private key source/length"%string)) /\
    (forall d m, (forall i, m <> VBytes i) -> raises (PSign (PrivObj d) m) "Message must be bytes"%string) /\
    (forall d m sg, (forall i, m <> VBytes i) \/ (forall j, sg <> VBytes j) ->
       raises (PVerify (PubObj d) m sg) "Signature and message must be bytes"%string) /\
    (forall d i j m sig, content H i = Some m -> content H j = Some sig -> nlen sig <> 17088 ->
       raises (PVerify (PubObj d) (VBytes i) (VBytes j)) "Inconsistent signature source/length"%string) /\
    (** key generation: one of the three draws was refused, and nothing else *)
    (raises PKeygen "slh_dsa_sha2_128f_keygen() returned 4"%string <->
       refuses os g 16 \/
       (exists a g1, gives os g 16 a g1 /\ refuses os g1 16) \/
       (exists a b g1 g2, gives os g 16 a g1 /\ gives os g1 16 b g2 /\ refuses os g2 16)) /\
    (forall e, py_exception os g H PKeygen = Some e -> raises PKeygen "slh_dsa_sha2_128f_keygen() returned 4"%string) /\
    (** signing: 3 for a private key that is not consistent, 5 for a refused draw, otherwise nothing *)
    (forall i m k SK, content H i = Some m -> nlen m < 2 ^ 31 -> nlen m < 2 ^ usize_bits ->
       content H k = Some SK -> nlen SK = 64 -> k <> i ->
       let sign := PSign (PrivObj (VBytes k)) (VBytes i) in
       let '(_, PK) := Fips205.slh_keygen_internal ps hs (sub_bytes SK 0 16) (sub_bytes SK 16 32) (sub_bytes SK 32 48) in
       (PK <> sub_bytes SK 32 64 -> raises sign "slh_dsa_sha2_128f_sign() returned 3"%string) /\
       (PK = sub_bytes SK 32 64 -> refuses os g 16 -> raises sign "slh_dsa_sha2_128f_sign() returned 5"%string) /\
       (PK = sub_bytes SK 32 64 -> forall b g', gives os g 16 b g' -> py_exception os g H sign = None)) /\
    (** verifying with a key and a signature of the right lengths: nothing *)
    (forall i m k PK j sig, content H i = Some m -> content H k = Some PK -> nlen PK = 32 ->
       content H j = Some sig -> nlen sig = 17088 ->
       py_exception os g H (PVerify (PubObj (VBytes k)) (VBytes i) (VBytes j)) = None) /\
    (** no other texts *)
    (forall op text, raises op text ->
       In text ["Inconsistent public key source/length"; "Inconsistent private key source/length";
                "Signature and message must be bytes"; "Inconsistent signature source/length"; "Message must be bytes";
                "slh_dsa_sha2_128f_keygen() returned 4"; "slh_dsa_sha2_128f_sign() returned 3"; "slh_dsa_sha2_128f_sign() returned 5"]%string).
Proof.
  intros T P W os g H ps hs raises.
  refine (conj (raises_iff os g H) (conj _ (conj _ (conj _ (conj _ (conj _ (conj _ (conj _ (conj _ _))))))))).
  - intros v l E. unfold raises. cbn [py_exception]. unfold exc_public, exc_private. rewrite E.
    split; intros D; apply N.eqb_neq in D; [change PY_PK_LEN with 32|change PY_SK_LEN with 64]; rewrite D; reflexivity.
  - intros d m D. unfold raises. cbn [py_exception exc_sign].
    destruct m as [i|s|l c]; [exfalso; exact (D i eq_refl)|reflexivity..].
  - intros d m sg D. unfold raises. cbn [py_exception exc_verify].
    destruct m as [i|s|l c]; [|reflexivity..]. destruct sg as [j|s|l c]; [|reflexivity..].
    exfalso. destruct D as [D|D]; [exact (D i eq_refl)|exact (D j eq_refl)].
  - intros d i j m sig Ei Ej D. unfold raises. cbn [py_exception exc_verify]. rewrite Ei, Ej.
    apply N.eqb_neq in D. change PY_SIG_LEN with 17088. rewrite D. reflexivity.
  - unfold raises. cbn [py_exception]. split.
    + intros E. destruct (keygen_exc os g H) as [(_ & _ & outs & Q)|(Q & _)]; [exact (keygen_4 _ _ _ _ _ Q)|].
      rewrite Q in E. discriminate E.
    + intros R. destruct (keygen_exc os g H) as [(Q & _)|(_ & _ & N)]; [exact Q|exfalso].
      pose proof (named_ffi_keygen_contract T P os g (Some (nrepeat x00 PY_PK_LEN)) (Some (nrepeat x00 PY_SK_LEN))) as C.
      cbv zeta in C. destruct C as [_ [C _]]. destruct (C ltac:(discriminate) ltac:(discriminate)) as [C1 _].
      exact (N _ (C1 R)).
  - unfold raises. cbn [py_exception]. intros e E. destruct (keygen_exc os g H) as [(Q & _)|(Q & _)]; [exact Q|].
    rewrite Q in E. discriminate E.
  - intros i m k SK Ei L U Ek Lk D sign.
    pose proof (whole_message m L U) as C.
    assert (Ap : sub_bytes SK 32 48 ++ sub_bytes SK 48 64 = sub_bytes SK 32 64) by (apply sub_bytes_split; lia).
    assert (No : Some (nrepeat x00 PY_SIG_LEN) <> None) by discriminate.
    pose proof (proj2 (named_ffi_sign_contract T P os g (ctypes_int (nlen m)) (Some SK) (Some (nrepeat x00 PY_SIG_LEN)))
                  m m SK C eq_refl Lk No) as S. cbv zeta in S. fold ps hs in S. rewrite Ap in S.
    assert (E : py_exception os g H sign =
                match snd (ffi_sign os g (Some m) (ctypes_int (nlen m)) (Some SK) (Some (nrepeat x00 PY_SIG_LEN))) with
                | FReturn ret _ => if negb (ret =? ERR_OK) then Some (OwnText (returned "sign" ret)) else None
                | _ => None
                end).
    { unfold sign. cbn [py_exception exc_sign]. rewrite Ei. unfold alloc. cbv zeta. rewrite content_last.
      change PY_SK_LEN with 64. rewrite (struct_bytes (H ++ [nrepeat x00 PY_SIG_LEN]) k SK 64 (content_old _ _ _ _ Ek) Lk).
      rewrite (apart_objects (VBytes k) i m) by (intros Q; apply D; congruence). reflexivity. }
    clearbody sign. unfold raises. rewrite E. clear E.
    destruct (Fips205.slh_keygen_internal ps hs _ _ _) as [SK0 PK]. destruct S as [S1 [S2 S3]]. split; [|split].
    + intros Q. rewrite (S1 Q). cbn [snd]. change (negb (SLH_DSA_DESERIALIZATION_ERROR =? ERR_OK)) with true. cbv iota.
      rewrite <- text_sign3. reflexivity.
    + intros Q R. rewrite (S2 Q R). change (negb (SLH_DSA_SIGN_ERROR =? ERR_OK)) with true. cbv iota.
      rewrite <- text_sign5. reflexivity.
    + intros Q b g' G. destruct (S3 Q b g' G) as [sig [-> _]]. reflexivity.
  - intros i m k PK j sig Ei Ek Lk Ej Ls. cbn [py_exception exc_verify]. rewrite Ei, Ej, Ls.
    change (negb (17088 =? PY_SIG_LEN)) with false. cbv iota. change PY_PK_LEN with 32.
    rewrite (struct_bytes H k PK 32 Ek Lk). destruct (same_object _ i _ || _); [reflexivity|].
    destruct (ffi_verify _ _ _ _) as [code out| |] eqn:K; [|reflexivity..].
    destruct (verify_codes _ _ _ _ _ _ Lk K) as [-> | ->]; reflexivity.
  - exact (all_texts os g H).
Qed.

Lemma prop_python_texts_hide_key_partial :
  forall (T : Target) (P : Prims) (W : Wide) (os : Rng) (g : rng_st os) (H : heap) (op : py_op) (text : string),
    py_exception os g H op = Some (OwnText text) \/ snd (py_step os g H op) = PyReturn (RText text) ->
    (exists d, op = PRepr (PrivObj d)) \/
    (exists i PK, op = PRepr (PubObj (VBytes i)) /\ content H i = Some PK /\
       text = ("<slh_dsa_sha2_128f public key: " ++ hex PK ++ ">")%string) \/
    In text ["Inconsistent public key source/length"; "Inconsistent private key source/length";
             "Signature and message must be bytes"; "Inconsistent signature source/length"; "Message must be bytes";
             "slh_dsa_sha2_128f_keygen() returned 4"; "slh_dsa_sha2_128f_sign() returned 3"; "slh_dsa_sha2_128f_sign() returned 5"]%string.
Proof.
  intros T P W os g H op text [E|E]; [right; right; exact (all_texts os g H op text E)|].
  destruct op; cbn [py_step] in E.
  - discriminate E.
  - exfalso. cbn [snd] in E. unfold py_public in E. destruct (py_len H data) as [l|]; [|discriminate E]. destruct (l =? PY_PK_LEN); discriminate E.
  - exfalso. cbn [snd] in E. unfold py_private in E. destruct (py_len H data) as [l|]; [|discriminate E]. destruct (l =? PY_SK_LEN); discriminate E.
  - exfalso. unfold py_bytes in E. destruct k as [[i|s|l [c|]]|[i|s|l [c|]]]; discriminate E.
  - destruct k as [d|d]; [|left; exists d; reflexivity]. right. left. cbn [snd] in E. unfold py_repr in E. cbv zeta in E.
    destruct d as [i|s|l c]; [|discriminate E..]. destruct (content H i) as [PK|] eqn:C; [|discriminate E].
    exists i, PK. split; [reflexivity|]. split; [exact C|]. injection E. intros <-. reflexivity.
  - exfalso. unfold py_obj_keygen, alloc in E. cbv zeta in E.
    destruct (ffi_keygen os g _ _) as [g1 [code [po so]| |]]; [|discriminate E..]. cbn [snd] in E.
    destruct (negb (code =? ERR_OK)); [discriminate E|].
    destruct (py_public _ _) as [[v|k1|p s|b|s]| | |]; try discriminate E.
    destruct (py_private _ _) as [[v|k2|p s|b|s]| | |]; discriminate E.
  - exfalso. unfold py_obj_sign in E. destruct k as [d|d]; [discriminate E|]. destruct message as [i|s|l c]; [|discriminate E..].
    destruct (content H i) as [m|]; [|discriminate E]. unfold alloc in E. cbv zeta in E.
    destruct (struct_arg _ d PY_SK_LEN) as [[key|]|]; [|discriminate E..].
    destruct (same_object d i _); [discriminate E|].
    destruct (ffi_sign os g _ _ _ _) as [g1 [code out| |]]; [|discriminate E..]. cbn [snd] in E.
    destruct (negb (code =? ERR_OK)); discriminate E.
  - exfalso. cbn [snd] in E. unfold py_obj_verify in E. destruct k as [d|d]; [|discriminate E]. destruct message as [i|s|l c]; [|discriminate E..].
    destruct signature as [j|s|l c]; [|discriminate E..].
    destruct (content H i) as [m|]; [|discriminate E]. destruct (content H j) as [sg|]; [|discriminate E].
    destruct (negb (nlen sg =? PY_SIG_LEN)); [discriminate E|].
    destruct (struct_arg H d PY_PK_LEN) as [[key|]|]; [|discriminate E..].
    destruct (same_object d i _ || _); [discriminate E|].
    destruct (ffi_verify _ _ _ _) as [code out| |]; [|discriminate E..].
    destruct (negb (code =? ERR_OK) && negb (code =? ERR_VERIFY_ERROR)); discriminate E.
Qed.
