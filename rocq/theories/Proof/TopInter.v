(** C86: the Rust, C and Python interfaces agree. *)
From Coq Require Import String.
From Verif Require Import Spec.Fips205 Spec.Fips205Hash.
From Verif Require Import Model.Api Model.Ffi Model.Py Proof.Facts Proof.ApiP Spec.Vocab Spec.VocabFfi Proof.Summary
  Proof.TopCorrect Proof.TopSafety Proof.TopFips Proof.TopKeys Proof.TopRandom Proof.TopFfi Proof.TopPy Proof.TopBuild.
Import ListNotations.
Open Scope list_scope.
Open Scope N_scope.

Lemma val_inv {A} (x y : A) : Val x = Val y -> y = x.
Proof. intros E. injection E as ->. reflexivity. Qed.

(** the C interface of one build against the Rust interface of another *)
Lemma c_keygen_agrees (TR TC : Target) (P : Prims) (os : Rng) (g : rng_st os) pub priv :
  let p := param_set SHA2_128f in
  let key := try_keygen_with_rng (T := TR) p os in
  let c := ffi_keygen (T := TC) os g (Some pub) (Some priv) in
  fst c = gen_after key g /\
  match call key g with
  | Val (pk, sk) => exists pkb skb,
      result (pk_into_bytes p pk) = Val pkb /\ result (sk_into_bytes (T := TR) p sk) = Val skb /\
      nlen pkb = pk_size SHA2_128f /\ nlen skb = sk_size SHA2_128f /\
      snd c = FReturn 0 (Some pkb, Some skb)
  | Err _ => snd c = FReturn 4 (Some pub, Some priv)
  | Panic _ => snd c = FAbort
  end.
Proof.
  intros p key c. destruct (keygen_build TR TC P SHA2_128f os g) as [B1 B2].
  fold p in B1, B2. fold key in B1, B2.
  assert (E : c = (let (s', m) := try_keygen_with_rng (T := TC) p os g in
      (s', match result m with
           | Val (pk, sk) =>
               match result (pk_into_bytes p pk), result (sk_into_bytes (T := TC) p sk) with
               | Val pb, Val sb => FReturn 0 (Some pb, Some sb)
               | _, _ => FAbort
               end
           | Err _ => FReturn 4 (Some pub, Some priv)
           | Panic _ => FAbort
           end))) by reflexivity.
  rewrite E. clear E c. rewrite B1, B2.
  assert (W : forall pk sk, call (try_keygen_with_rng (T := TC) p os) g = Val (pk, sk) ->
            pk_typed SHA2_128f pk /\ sk_typed SHA2_128f sk)
    by (intros pk sk; apply (proj2 (proj2 (@prop_output_sizes TC P SHA2_128f)))).
  unfold call, gen_after in *.
  destruct (try_keygen_with_rng (T := TC) p os g) as [g' mm]. cbn [fst snd] in *. split; [reflexivity|].
  destruct (result mm) as [[pk sk]|e|q]; [|reflexivity..].
  destruct (W _ _ eq_refl) as [Wp Ws].
  destruct (proj1 (@prop_output_sizes TC P SHA2_128f) pk Wp) as [pkb [Ep Lp]].
  destruct (proj1 (proj1 (proj2 (@prop_output_sizes TC P SHA2_128f)) sk Ws)) as [skb [Es Ls]].
  exists pkb, skb. fold p in Ep, Es. rewrite Ep, Es.
  split; [reflexivity|]. split; [|split; [exact Lp|split; [exact Ls|reflexivity]]].
  rewrite <- Es. pose proof (typed_sk _ _ Ws) as W'.
  exact (eq_trans (proj1 (@runs_sk_into_bytes TR _ (param_PF SHA2_128f) _ W'))
          (eq_sym (proj1 (@runs_sk_into_bytes TC _ (param_PF SHA2_128f) _ W')))).
Qed.

Lemma c_sign_agrees (TR TC : Target) (P : Prims) (os : Rng) (g : rng_st os) m buf len skb out :
  c_message (T := TC) buf len m -> nlen skb = sk_size SHA2_128f ->
  let p := param_set SHA2_128f in
  let c := ffi_sign (T := TC) os g (Some buf) len (Some skb) (Some out) in
  match result (sk_try_from_bytes (T := TR) p skb) with
  | Val sk =>
      let sign := try_sign_with_rng (T := TR) p os sk m [] true in
      fst c = gen_after sign g /\
      match call sign g with
      | Val sig => snd c = FReturn 0 (Some sig)
      | Err _ => snd c = FReturn 5 (Some out)
      | Panic _ => snd c = FAbort
      end
  | Err _ => c = (g, FReturn 3 (Some out))
  | Panic _ => False
  end.
Proof.
  intros C L p c.
  assert (E : c = match result (sk_try_from_bytes (T := TC) p skb) with
              | Err _ => (g, FReturn 3 (Some out))
              | Panic _ => (g, FAbort)
              | Val sk =>
                  let (s', r) := try_sign_with_rng (T := TC) p os sk m [] true g in
                  (s', match result r with
                       | Val sig => FReturn 0 (Some sig)
                       | Err _ => FReturn 5 (Some out)
                       | Panic _ => FAbort
                       end)
              end).
  { unfold c, ffi_sign. rewrite (designated _ _ _ C). reflexivity. }
  rewrite E. clear E c. rewrite <- param_sk in L.
  assert (I : result (sk_try_from_bytes (T := TC) p skb) = result (sk_try_from_bytes (T := TR) p skb)).
  { destruct (@import_total TC P _ (param_PF SHA2_128f) skb L) as [[V1 C1]|[V1 C1]];
    destruct (@import_total TR P _ (param_PF SHA2_128f) skb L) as [[V2 C2]|[V2 C2]]; fold p in V1, V2; rewrite V1, V2;
      first [reflexivity | exfalso; tauto]. }
  rewrite I.
  destruct (@import_total TR P _ (param_PF SHA2_128f) skb L) as [[V C']|[V C']]; fold p in V; rewrite V; [|reflexivity].
  pose proof (wf_sk_of_bytes _ (param_PF SHA2_128f) skb L) as W. fold p in W.
  set (sk := sk_of_bytes p skb) in *. cbv zeta.
  assert (H0 : nlen (@nil byte) <= 255) by (unfold nlen; cbn [length]; lia).
  destruct (sign_desc_build TR TC P p os g sk _ true _ _
              (@try_sign_desc TR P _ (param_PF SHA2_128f) os g sk m [] true W H0)
              (@try_sign_desc TC P _ (param_PF SHA2_128f) os g sk m [] true W H0)) as [B1 B2].
  fold p in B1, B2. unfold call, gen_after. rewrite B1, B2.
  destruct (try_sign_with_rng (T := TC) p os sk m [] true g) as [g' r]. cbn [fst snd].
  split; [reflexivity|]. destruct (result r); reflexivity.
Qed.

Lemma c_verify_agrees (TR TC : Target) (P : Prims) m buf len pkb sig :
  c_message (T := TC) buf len m -> nlen pkb = pk_size SHA2_128f -> nlen sig = sig_size SHA2_128f ->
  let p := param_set SHA2_128f in
  exists pk, result (pk_try_from_bytes p pkb) = Val pk /\
  let verdict := Fips205.slh_verify (fips_params SHA2_128f) (fips_hash SHA2_128f) m sig [] pkb in
    result (verify (T := TR) p pk m sig []) = Val verdict /\
    ffi_verify (T := TC) (Some buf) len (Some pkb) (Some sig) = FReturn (if verdict then 0 else 6) tt.
Proof.
  intros C Lp Ls p.
  destruct (proj1 (prop_public_key_round_trip TR P SHA2_128f) _ Lp) as [k [E1 [W E2]]].
  exists k. split; [exact E1|]. cbv zeta. split; [exact (prop_verify_is_fips TR P SHA2_128f k pkb m sig [] W E2 Ls)|].
  exact (proj2 (prop_ffi_verify_contract TC P _ _ _) buf m pkb sig C eq_refl Lp eq_refl Ls).
Qed.

Lemma prop_interfaces_agree :
  forall (TR TC TP : Target) (P : Prims) (os : Rng) (g : rng_st os),
    let p := param_set SHA2_128f in
    (** one key pair *)
    (forall pub priv,
       let key := try_keygen_with_rng (T := TR) p os in
       let c := ffi_keygen (T := TC) os g (Some pub) (Some priv) in
       let py := py_keygen (T := TP) os g in
       fst c = gen_after key g /\ fst py = gen_after key g /\
       match call key g with
       | Val (pk, sk) => exists pkb skb,
           result (pk_into_bytes p pk) = Val pkb /\ result (sk_into_bytes (T := TR) p sk) = Val skb /\
           snd c = FReturn 0 (Some pkb, Some skb) /\ snd py = PyReturn (pkb, skb)
       | Err _ => snd c = FReturn 4 (Some pub, Some priv) /\ snd py = PyRaise
       | Panic _ => snd c = FAbort /\ snd py = PyAbort
       end) /\
    forall m buf len, c_message (T := TC) buf len m -> nlen m < 2 ^ 31 -> nlen m < 2 ^ @usize_bits TP ->
    (** one signature *)
    (forall skb out, nlen skb = sk_size SHA2_128f ->
       let c := ffi_sign (T := TC) os g (Some buf) len (Some skb) (Some out) in
       let py := py_sign (T := TP) os g skb m in
       match result (sk_try_from_bytes (T := TR) p skb) with
       | Val sk =>
           let sign := try_sign_with_rng (T := TR) p os sk m [] true in
           fst c = gen_after sign g /\ fst py = gen_after sign g /\
           match call sign g with
           | Val sig => snd c = FReturn 0 (Some sig) /\ snd py = PyReturn sig
           | Err _ => snd c = FReturn 5 (Some out) /\ snd py = PyRaise
           | Panic _ => snd c = FAbort /\ snd py = PyAbort
           end
       | Err _ => c = (g, FReturn 3 (Some out)) /\ py = (g, PyRaise)
       | Panic _ => False
       end) /\
    (** one verdict *)
    (forall pkb sig, nlen pkb = pk_size SHA2_128f -> nlen sig = sig_size SHA2_128f ->
       exists pk verdict,
         result (pk_try_from_bytes p pkb) = Val pk /\
         result (verify (T := TR) p pk m sig []) = Val verdict /\
         ffi_verify (T := TC) (Some buf) len (Some pkb) (Some sig) = FReturn (if verdict then 0 else 6) tt /\
         py_verify (T := TP) pkb m sig = PyReturn verdict).
Proof.
  intros TR TC TP P os g p. split.
  - intros pub priv key c py.
    destruct (c_keygen_agrees TR TC P os g pub priv) as [A1 A2].
    destruct (c_keygen_agrees TR TP P os g (nrepeat x00 PY_PK_LEN) (nrepeat x00 PY_SK_LEN)) as [B1 B2].
    fold p in A1, A2, B1, B2. fold key in A1, A2, B1, B2. fold c in A1, A2.
    unfold py, py_keygen. cbv zeta.
    destruct (ffi_keygen (T := TP) os g (Some (nrepeat x00 PY_PK_LEN)) (Some (nrepeat x00 PY_SK_LEN))) as [g' r].
    cbn [fst snd] in B1, B2 |- *. split; [exact A1|]. split; [exact B1|].
    destruct (call key g) as [[pk sk]|e|q].
    + destruct A2 as (pkb & skb & Ep & Es & Lp & Ls & A2). destruct B2 as (pkb' & skb' & Ep' & Es' & _ & _ & B2).
      rewrite Ep in Ep'. apply val_inv in Ep'. rewrite Es in Es'. apply val_inv in Es'. subst pkb' skb'.
      exists pkb, skb. split; [exact Ep|]. split; [exact Es|]. split; [exact A2|].
      rewrite B2. change (negb (0 =? ERR_OK)) with false. cbv iota.
      unfold PyPublicKey, PyPrivateKey. rewrite Lp, Ls. reflexivity.
    + split; [exact A2|]. rewrite B2. reflexivity.
    + split; [exact A2|]. rewrite B2. reflexivity.
  - intros m buf len C L31 Lu. pose proof (whole_message (T := TP) m L31 Lu) as CP. split.
    + intros skb out Lk c py.
      pose proof (c_sign_agrees TR TC P os g m buf len skb out C Lk) as A.
      pose proof (c_sign_agrees TR TP P os g m m _ skb (nrepeat x00 PY_SIG_LEN) CP Lk) as B.
      cbv zeta in A, B. fold p in A, B. fold c in A. unfold py, py_sign. cbv zeta.
      destruct (ffi_sign (T := TP) os g (Some m) (ctypes_int (nlen m)) (Some skb) (Some (nrepeat x00 PY_SIG_LEN))) as [g' r].
      destruct (result (sk_try_from_bytes (T := TR) p skb)) as [sk|e|q]; cbn [fst snd] in B |- *.
      * destruct A as [A1 A2]. destruct B as [B1 B2]. split; [exact A1|]. split; [exact B1|].
        destruct (call (try_sign_with_rng (T := TR) p os sk m [] true) g) as [sig|e|q];
          (split; [exact A2|]); rewrite B2; reflexivity.
      * split; [exact A|]. apply pair_equal_spec in B. destruct B as [-> ->]. reflexivity.
      * exact A.
    + intros pkb sig Lp Ls.
      destruct (c_verify_agrees TR TC P m buf len pkb sig C Lp Ls) as (k & E & V & F).
      destruct (c_verify_agrees TR TP P m m _ pkb sig CP Lp Ls) as (k' & _ & _ & F').
      fold p in E, V. exists k. eexists. split; [exact E|]. split; [exact V|]. split; [exact F|].
      unfold py_verify. change PY_SIG_LEN with (sig_size SHA2_128f). rewrite Ls, N.eqb_refl. cbn [negb]. rewrite F'.
      destruct (Fips205.slh_verify _ _ _ _ _ _); reflexivity.
Qed.
