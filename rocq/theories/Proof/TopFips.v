(** C06-C14, C20, C36, C40: the crate computes what FIPS 205 defines. *)
From Coq Require Import String.
From Verif Require Import Spec.Fips205 Spec.Fips205Hash.
From Verif Require Import Model.Api Proof.Facts Proof.HelpersP Proof.SpecP Proof.HashP Proof.Fun Proof.HtP
  Proof.SlhP Proof.SerP Proof.ApiP Proof.SpecFun Spec.Vocab Proof.Summary Proof.TopCorrect Proof.TopSafety.
Import ListNotations.
Open Scope list_scope.
Open Scope N_scope.

Definition HLs {P : Prims} s : HLen (cN (param_set s)) (cM (param_set s)) (hf_of (param_set s)) :=
  HASHERS_len (param_set s) (param_PF s).

Lemma fips_keygen_eq {T : Target} {P : Prims} s a b c :
  Fips205.slh_keygen_internal (fips_params s) (fips_hash s) a b c =
  (sk_bytes (snd (key_of (param_set s) a b c)), pk_bytes (fst (key_of (param_set s) a b c))).
Proof.
  rewrite <- param_fips, <- param_hf, (keygen_eq _ (param_PF s)). reflexivity.
Qed.

Lemma exported_key {T : Target} {P : Prims} s a b c :
  nlen a = cN (param_set s) -> nlen b = cN (param_set s) -> nlen c = cN (param_set s) ->
  exported s (Val (key_of (param_set s) a b c)) =
  Some (Fips205.slh_keygen_internal (fips_params s) (fips_hash s) a b c).
Proof.
  intros Ha Hb Hc. destruct (wf_key_of _ (param_PF s) a b c Ha Hb Hc) as [W1 W2].
  rewrite fips_keygen_eq. unfold exported. destruct (key_of (param_set s) a b c) as [pk sk].
  cbn [fst snd] in *.
  rewrite (proj1 (runs_sk_into_bytes _ (param_PF s) _ W2)).
  rewrite (proj1 (runs_pk_into_bytes _ (param_PF s) _ W1)). reflexivity.
Qed.

Lemma prop_keygen_is_fips :
  forall (T : Target) (P : Prims) (s : set_name) (r : Rng) (g : rng_st r),
    let '(g1, SKseed) := try_fill r g (seed_bytes s) in
    let '(g2, SKprf) := try_fill r g1 (seed_bytes s) in
    let '(g3, PKseed) := try_fill r g2 (seed_bytes s) in
    exported s (call (try_keygen_with_rng (param_set s) r) g) =
    Fips205.slh_keygen (fips_params s) (fips_hash s) (ok SKseed) (ok SKprf) (ok PKseed).
Proof.
  intros T P s r g. rewrite <- param_n.
  pose proof (keygen_is _ (param_PF s) g) as D. unfold keygen_desc in D. cbv zeta in D.
  fold (call (try_keygen_with_rng (param_set s) r) g) in D.
  destruct (try_fill r g (cN (param_set s))) as [g1 [a|e|q]] eqn:E1; cbn [fst snd] in D.
  2,3: destruct D as [_ [-> _]];
       destruct (try_fill r g1 (cN (param_set s))) as [g2 o2];
       destruct (try_fill r g2 (cN (param_set s))) as [g3 o3]; reflexivity.
  destruct (try_fill r g1 (cN (param_set s))) as [g2 [b|e|q]] eqn:E2; cbn [fst snd] in D.
  2,3: destruct D as [_ [-> _]];
       destruct (try_fill r g2 (cN (param_set s))) as [g3 o3]; reflexivity.
  destruct (try_fill r g2 (cN (param_set s))) as [g3 [c|e|q]] eqn:E3; cbn [fst snd] in D;
    destruct D as [_ [-> _]]; [|reflexivity..].
  rewrite exported_key by (eapply try_fill_len; eassumption). reflexivity.
Qed.

Lemma sk_bytes_of {T : Target} {P : Prims} s sk SK :
  sk_typed s sk -> result (sk_into_bytes (param_set s) sk) = Val SK ->
  SK = sk_bytes sk /\ nlen SK = cSK_LEN (param_set s) /\ sk_of_bytes (param_set s) SK = sk.
Proof.
  intros W E. apply typed_sk in W.
  rewrite (proj1 (runs_sk_into_bytes _ (param_PF s) _ W)) in E. injection E as <-.
  split; [reflexivity|]. split; [apply nlen_sk_bytes; [apply param_PF|assumption]|].
  apply sk_of_bytes_bytes. exact W.
Qed.

Lemma fips_sign_eq {T : Target} {P : Prims} s sk SK M addrnd :
  sk_typed s sk -> result (sk_into_bytes (param_set s) sk) = Val SK ->
  Fips205.slh_sign_internal (fips_params s) (fips_hash s) M SK addrnd =
  sign_bytes (param_set s) sk (match addrnd with Some b => b | None => sk_pk_seed sk end) M.
Proof.
  intros W E. destruct (sk_bytes_of _ _ _ W E) as [_ [L Esk]].
  rewrite <- param_fips, <- param_hf, (sign_eq _ (param_PF s) _ (HLs s)) by exact L.
  rewrite Esk. reflexivity.
Qed.

(** FIPS 205 outcome of a signing call described by [sign_desc] *)
Lemma sign_desc_fips {T : Target} {P : Prims} s r g sk SK mp hedged x :
  sk_typed s sk -> result (sk_into_bytes (param_set s) sk) = Val SK ->
  sign_desc (param_set s) r g sk mp hedged x ->
  ok (result (snd x)) =
  match addrnd s r g hedged with
  | Some None => None
  | Some (Some b) => Some (Fips205.slh_sign_internal (fips_params s) (fips_hash s) (concat mp) SK (Some b))
  | None => Some (Fips205.slh_sign_internal (fips_params s) (fips_hash s) (concat mp) SK None)
  end.
Proof.
  intros W E [_ [V _]]. rewrite V. unfold draw, addrnd. rewrite param_n.
  destruct hedged.
  - destruct (snd (try_fill r g (seed_bytes s))) as [b|e|q]; cbn [ok]; [|reflexivity..].
    rewrite (fips_sign_eq _ sk) by assumption. reflexivity.
  - cbn [snd ok]. rewrite (fips_sign_eq _ sk) by assumption. reflexivity.
Qed.

Lemma toByte1 x : toByte x 1 = [n2b x].
Proof. rewrite toByte_be. reflexivity. Qed.

Lemma pure_pieces_M' m ctx : concat (pure_pieces m ctx) = Fips205.pure_M' m ctx.
Proof.
  unfold pure_pieces, Fips205.pure_M', ctx_len_byte. rewrite !toByte1. cbn [concat].
  rewrite app_nil_r. reflexivity.
Qed.

Lemma oid_eq {P : Prims} m ph : oid_of (ph_arg ph) = fst (PH_fn ph m).
Proof. destruct ph; cbn [ph_arg PH_fn fst]; rewrite toByte_be; vm_compute; reflexivity. Qed.
Lemma digest_eq {P : Prims} m ph : ph_digest (ph_arg ph) m = snd (PH_fn ph m).
Proof. destruct ph; reflexivity. Qed.

Lemma hash_pieces_M' {P : Prims} m ctx ph :
  concat (hash_pieces m ctx (ph_arg ph)) =
  Fips205.hash_M' (fst (PH_fn ph m)) (snd (PH_fn ph m)) ctx.
Proof.
  unfold hash_pieces, Fips205.hash_M', ctx_len_byte. rewrite !toByte1. cbn [concat].
  rewrite app_nil_r, (oid_eq m), digest_eq. reflexivity.
Qed.

Lemma prop_sign_is_fips :
  forall (T : Target) (P : Prims) (s : set_name) (r : Rng) (g : rng_st r) (sk : SlhPrivateKey)
         (SK m ctx : bytes) (hedged : bool),
    sk_typed s sk -> result (sk_into_bytes (param_set s) sk) = Val SK ->
    ok (call (try_sign_with_rng (param_set s) r sk m ctx hedged) g) =
    Fips205.slh_sign (fips_params s) (fips_hash s) m ctx SK (addrnd s r g hedged).
Proof.
  intros T P s r g sk SK m ctx hedged W E. unfold Fips205.slh_sign.
  destruct (255 <? nlen ctx) eqn:C.
  - apply N.ltb_lt in C. unfold call. rewrite (try_sign_long _ _ _ _ _ _ _ C). reflexivity.
  - apply N.ltb_ge in C.
    pose proof (try_sign_desc _ (param_PF s) g sk m ctx hedged (typed_sk _ _ W) C) as D.
    unfold call. rewrite (sign_desc_fips _ _ _ _ SK _ _ _ W E D). rewrite pure_pieces_M'. reflexivity.
Qed.

Lemma prop_hash_sign_is_fips :
  forall (T : Target) (P : Prims) (s : set_name) (r : Rng) (g : rng_st r) (sk : SlhPrivateKey)
         (SK m ctx : bytes) (ph : prehash) (hedged : bool),
    sk_typed s sk -> result (sk_into_bytes (param_set s) sk) = Val SK ->
    ok (call (try_hash_sign_with_rng (param_set s) r sk m ctx (ph_arg ph) hedged) g) =
    Fips205.hash_slh_sign (fips_params s) (fips_hash s) m ctx (PH_fn ph) SK (addrnd s r g hedged).
Proof.
  intros T P s r g sk SK m ctx ph hedged W E. unfold Fips205.hash_slh_sign.
  destruct (255 <? nlen ctx) eqn:C.
  - apply N.ltb_lt in C. unfold call. rewrite (try_hash_sign_long _ _ _ _ _ _ _ _ C). reflexivity.
  - apply N.ltb_ge in C.
    pose proof (try_hash_sign_desc _ (param_PF s) g sk m ctx (ph_arg ph) hedged (typed_sk _ _ W) C) as D.
    unfold call. rewrite (sign_desc_fips _ _ _ _ SK _ _ _ W E D). rewrite hash_pieces_M'.
    destruct (PH_fn ph m) as [o d]. reflexivity.
Qed.

Lemma prop_raw_sign_is_fips :
  forall (T : Target) (P : Prims) (s : set_name) (r : Rng) (g : rng_st r) (sk : SlhPrivateKey)
         (SK m : bytes) (hedged : bool),
    sk_typed s sk -> result (sk_into_bytes (param_set s) sk) = Val SK ->
    ok (call (raw_sign (param_set s) r sk m hedged) g) =
    match addrnd s r g hedged with
    | Some None => None
    | Some (Some b) => Some (Fips205.slh_sign_internal (fips_params s) (fips_hash s) m SK (Some b))
    | None => Some (Fips205.slh_sign_internal (fips_params s) (fips_hash s) m SK None)
    end.
Proof.
  intros T P s r g sk SK m hedged W E.
  pose proof (raw_sign_desc _ (param_PF s) g sk m hedged (typed_sk _ _ W)) as D.
  unfold call. rewrite (sign_desc_fips _ _ _ _ SK _ _ _ W E D). rewrite concat1. reflexivity.
Qed.

Lemma pk_bytes_of {T : Target} {P : Prims} s pk PK :
  pk_typed s pk -> result (pk_into_bytes (param_set s) pk) = Val PK -> pk_of_bytes (param_set s) PK = pk.
Proof.
  intros W E. apply typed_pk in W.
  rewrite (proj1 (runs_pk_into_bytes _ (param_PF s) _ W)) in E. injection E as <-.
  apply pk_bytes_of_bytes; [apply param_PF|exact W].
Qed.

Lemma fips_verify_eq {T : Target} {P : Prims} s pk PK M sig :
  pk_typed s pk -> result (pk_into_bytes (param_set s) pk) = Val PK -> nlen sig = cSIG_LEN (param_set s) ->
  Fips205.slh_verify_internal (fips_params s) (fips_hash s) M sig PK =
  verify_val (param_set s) (hf_of (param_set s)) pk (dec_sig (param_set s) sig) M.
Proof.
  intros W E L. rewrite <- param_fips, <- param_hf, (verify_eq _ (param_PF s) _ (HLs s)) by exact L.
  rewrite (pk_bytes_of _ pk) by assumption. reflexivity.
Qed.

Lemma prop_verify_is_fips :
  forall (T : Target) (P : Prims) (s : set_name) (pk : SlhPublicKey) (PK m sig ctx : bytes),
    pk_typed s pk -> result (pk_into_bytes (param_set s) pk) = Val PK -> nlen sig = sig_size s ->
    result (verify (param_set s) pk m sig ctx) =
    Val (Fips205.slh_verify (fips_params s) (fips_hash s) m sig ctx PK).
Proof.
  intros T P s pk PK m sig ctx W E L. rewrite <- param_sig in L. unfold Fips205.slh_verify.
  destruct (255 <? nlen ctx) eqn:C.
  - apply N.ltb_lt in C. apply (runs_verify_long _ pk m sig ctx C).
  - apply N.ltb_ge in C. rewrite (proj1 (runs_verify _ (param_PF s) pk m sig ctx C L)).
    rewrite (fips_verify_eq _ pk) by assumption. rewrite pure_pieces_M'. reflexivity.
Qed.

Lemma prop_hash_verify_is_fips :
  forall (T : Target) (P : Prims) (s : set_name) (pk : SlhPublicKey) (PK m sig ctx : bytes) (ph : prehash),
    pk_typed s pk -> result (pk_into_bytes (param_set s) pk) = Val PK -> nlen sig = sig_size s ->
    result (hash_verify (param_set s) pk m sig ctx (ph_arg ph)) =
    Val (Fips205.hash_slh_verify (fips_params s) (fips_hash s) m sig ctx (PH_fn ph) PK).
Proof.
  intros T P s pk PK m sig ctx ph W E L. rewrite <- param_sig in L. unfold Fips205.hash_slh_verify.
  destruct (255 <? nlen ctx) eqn:C.
  - apply N.ltb_lt in C. apply (runs_hash_verify_long _ pk m sig ctx (ph_arg ph) C).
  - apply N.ltb_ge in C. rewrite (proj1 (runs_hash_verify _ (param_PF s) pk m sig ctx (ph_arg ph) C L)).
    rewrite hash_pieces_M'. destruct (PH_fn ph m) as [o d] eqn:Eph. cbn [fst snd].
    rewrite (fips_verify_eq _ pk) by assumption. reflexivity.
Qed.

Lemma prop_raw_verify_is_fips :
  forall (T : Target) (P : Prims) (s : set_name) (pk : SlhPublicKey) (PK m sig : bytes),
    pk_typed s pk -> result (pk_into_bytes (param_set s) pk) = Val PK -> nlen sig = sig_size s ->
    result (raw_verify (param_set s) pk m sig) =
    Val (Fips205.slh_verify_internal (fips_params s) (fips_hash s) m sig PK).
Proof.
  intros T P s pk PK m sig W E L. rewrite <- param_sig in L.
  rewrite (proj1 (runs_raw_verify _ (param_PF s) pk m sig L)).
  rewrite (fips_verify_eq _ pk) by assumption. reflexivity.
Qed.

(** hash functions *)
Lemma typed_adrs a : adrs_typed a -> wf_adrs a.
Proof. exact (fun H => H). Qed.

Lemma hs_of {T : Target} {P : Prims} s : HSpec (HASHERS (param_set s)) (fips_hash s).
Proof. rewrite <- param_hf. apply HASHERS_spec, param_PF. Qed.

Lemma prop_shake_hash_functions :
  forall (T : Target) (P : Prims) (s : set_name) (R PKseed PKroot SKseed SKprf opt_rand M1 M2 : bytes)
         (a : Adrs) (Ms : list bytes),
    section_of s = Sec_11_1 -> adrs_typed a ->
    let hs := HASHERS (param_set s) in
    let n := t_n (table2 s) in
    let ADRS := adrs_bytes a in
    (nlen Ms <= 5 ->
       result (h_msg hs R PKseed PKroot Ms) =
         Val (shake256 (R ++ PKseed ++ PKroot ++ concat Ms) (t_m (table2 s)))) /\
    (nlen SKprf <= 64 -> nlen Ms <= 5 ->
       result (prf_msg hs SKprf opt_rand Ms) = Val (shake256 (SKprf ++ opt_rand ++ concat Ms) n)) /\
    result (prf hs PKseed SKseed a) = Val (shake256 (PKseed ++ ADRS ++ SKseed) n) /\
    result (f hs PKseed a M1) = Val (shake256 (PKseed ++ ADRS ++ M1) n) /\
    result (h hs PKseed a M1 M2) = Val (shake256 (PKseed ++ ADRS ++ M1 ++ M2) n) /\
    result (t_l hs PKseed a Ms) = Val (shake256 (PKseed ++ ADRS ++ concat Ms) n) /\
    result (t_len hs PKseed a Ms) = Val (shake256 (PKseed ++ ADRS ++ concat Ms) n).
Proof.
  intros T P s R PKseed PKroot SKseed SKprf opt_rand M1 M2 a Ms Hs Ha. cbv zeta.
  pose proof (hs_of s) as HS. unfold fips_hash in HS. rewrite Hs in HS.
  pose proof (typed_adrs _ Ha) as Wa.
  split; [intros Hm; apply (hs_hmsg _ _ HS _ _ _ _ Hm)|].
  split; [intros Hk Hm; apply (hs_prfm _ _ HS _ _ _ Hk Hm)|].
  split; [apply (hs_prf _ _ HS _ _ _ Wa)|].
  split; [apply (hs_f _ _ HS _ _ _ Wa)|].
  split; [apply (hs_h _ _ HS _ _ _ _ Wa)|].
  split; [apply (hs_tl _ _ HS _ _ _ Wa)|apply (hs_tlen _ _ HS _ _ _ Wa)].
Qed.

Lemma prop_sha2_cat1_hash_functions :
  forall (T : Target) (P : Prims) (s : set_name) (R PKseed PKroot SKseed SKprf opt_rand M1 M2 : bytes)
         (a : Adrs) (Ms : list bytes),
    section_of s = Sec_11_2_1 -> adrs_typed a ->
    let hs := HASHERS (param_set s) in
    let n := t_n (table2 s) in
    let pad := nrepeat x00 (64 - n) in
    let A := ADRSc (adrs_bytes a) in
    (nlen Ms <= 5 ->
       result (h_msg hs R PKseed PKroot Ms) =
         Val (MGF1 sha256 32 (R ++ PKseed ++ sha256 (R ++ PKseed ++ PKroot ++ concat Ms)) (t_m (table2 s)))) /\
    (nlen SKprf <= 64 -> nlen Ms <= 5 ->
       result (prf_msg hs SKprf opt_rand Ms) = Val (Trunc n (HMAC sha256 64 SKprf (opt_rand ++ concat Ms)))) /\
    result (prf hs PKseed SKseed a) = Val (Trunc n (sha256 (PKseed ++ pad ++ A ++ SKseed))) /\
    result (f hs PKseed a M1) = Val (Trunc n (sha256 (PKseed ++ pad ++ A ++ M1))) /\
    result (h hs PKseed a M1 M2) = Val (Trunc n (sha256 (PKseed ++ pad ++ A ++ M1 ++ M2))) /\
    result (t_l hs PKseed a Ms) = Val (Trunc n (sha256 (PKseed ++ pad ++ A ++ concat Ms))) /\
    result (t_len hs PKseed a Ms) = Val (Trunc n (sha256 (PKseed ++ pad ++ A ++ concat Ms))).
Proof.
  intros T P s R PKseed PKroot SKseed SKprf opt_rand M1 M2 a Ms Hs Ha. cbv zeta.
  pose proof (hs_of s) as HS. unfold fips_hash in HS. rewrite Hs in HS.
  assert (Z : nrepeat x00 (64 - t_n (table2 s)) = toByte 0 (64 - n_ (fips_params s))).
  { destruct s; vm_compute; reflexivity. }
  rewrite Z. pose proof (typed_adrs _ Ha) as Wa.
  split; [intros Hm; apply (hs_hmsg _ _ HS _ _ _ _ Hm)|].
  split; [intros Hk Hm; apply (hs_prfm _ _ HS _ _ _ Hk Hm)|].
  split; [apply (hs_prf _ _ HS _ _ _ Wa)|].
  split; [apply (hs_f _ _ HS _ _ _ Wa)|].
  split; [apply (hs_h _ _ HS _ _ _ _ Wa)|].
  split; [apply (hs_tl _ _ HS _ _ _ Wa)|apply (hs_tlen _ _ HS _ _ _ Wa)].
Qed.

Lemma prop_sha2_cat35_hash_functions :
  forall (T : Target) (P : Prims) (s : set_name) (R PKseed PKroot SKseed SKprf opt_rand M1 M2 : bytes)
         (a : Adrs) (Ms : list bytes),
    section_of s = Sec_11_2_2 -> adrs_typed a ->
    let hs := HASHERS (param_set s) in
    let n := t_n (table2 s) in
    let pad64 := nrepeat x00 (64 - n) in
    let pad128 := nrepeat x00 (128 - n) in
    let A := ADRSc (adrs_bytes a) in
    (nlen Ms <= 5 ->
       result (h_msg hs R PKseed PKroot Ms) =
         Val (MGF1 sha512 64 (R ++ PKseed ++ sha512 (R ++ PKseed ++ PKroot ++ concat Ms)) (t_m (table2 s)))) /\
    (nlen SKprf <= 64 -> nlen Ms <= 5 ->
       result (prf_msg hs SKprf opt_rand Ms) = Val (Trunc n (HMAC sha512 128 SKprf (opt_rand ++ concat Ms)))) /\
    result (prf hs PKseed SKseed a) = Val (Trunc n (sha256 (PKseed ++ pad64 ++ A ++ SKseed))) /\
    result (f hs PKseed a M1) = Val (Trunc n (sha256 (PKseed ++ pad64 ++ A ++ M1))) /\
    result (h hs PKseed a M1 M2) = Val (Trunc n (sha512 (PKseed ++ pad128 ++ A ++ M1 ++ M2))) /\
    result (t_l hs PKseed a Ms) = Val (Trunc n (sha512 (PKseed ++ pad128 ++ A ++ concat Ms))) /\
    result (t_len hs PKseed a Ms) = Val (Trunc n (sha512 (PKseed ++ pad128 ++ A ++ concat Ms))).
Proof.
  intros T P s R PKseed PKroot SKseed SKprf opt_rand M1 M2 a Ms Hs Ha. cbv zeta.
  pose proof (hs_of s) as HS. unfold fips_hash in HS. rewrite Hs in HS.
  assert (Z : nrepeat x00 (64 - t_n (table2 s)) = toByte 0 (64 - n_ (fips_params s))).
  { destruct s; vm_compute; reflexivity. }
  assert (Z2 : nrepeat x00 (128 - t_n (table2 s)) = toByte 0 (128 - n_ (fips_params s))).
  { destruct s; vm_compute; reflexivity. }
  rewrite Z, Z2. pose proof (typed_adrs _ Ha) as Wa.
  split; [intros Hm; apply (hs_hmsg _ _ HS _ _ _ _ Hm)|].
  split; [intros Hk Hm; apply (hs_prfm _ _ HS _ _ _ Hk Hm)|].
  split; [apply (hs_prf _ _ HS _ _ _ Wa)|].
  split; [apply (hs_f _ _ HS _ _ _ Wa)|].
  split; [apply (hs_h _ _ HS _ _ _ _ Wa)|].
  split; [apply (hs_tl _ _ HS _ _ _ Wa)|apply (hs_tlen _ _ HS _ _ _ Wa)].
Qed.

Lemma prop_parameters_are_table2 :
  forall s : set_name,
    let p := param_set s in
    let t := table2 s in
    cN p = t_n t /\ cH p = t_h t /\ cD p = t_d t /\ cHP p = t_h' t /\ cA p = t_a t /\ cK p = t_k t /\
    LGW = t_lgw t /\ cM p = t_m t /\ cPK_LEN p = t_pk_bytes t /\ cSIG_LEN p = t_sig_bytes t /\
    cSK_LEN p = 4 * t_n t /\ cPK_LEN p = 2 * t_n t /\
    W = 2 ^ t_lgw t /\ t_h t = t_d t * t_h' t /\
    cLEN p = len_ (fips_params s) /\ LEN2 = Fips205.gen_len2 (t_n t) (t_lgw t) /\
    cSIG_LEN p = (1 + t_k t * (1 + t_a t) + t_h t + t_d t * cLEN p) * t_n t /\
    cM p = ceil_div (t_h t - t_h' t) 8 + ceil_div (t_h' t) 8 + ceil_div (t_k t * t_a t) 8.
Proof. intros s. destruct s; vm_compute; repeat split. Qed.
