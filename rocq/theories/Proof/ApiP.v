(** The public API (src/lib.rs, src/traits.rs) computes the functions of Proof/Fun.v. *)
From Coq Require Import String.
From Verif Require Export Proof.SerP Proof.Honest Proof.HashP Model.Api.
From Verif Require Import Spec.Fips205.
From Verif Require Import Model.Types Model.Wots Model.Xmss Model.Hypertree Model.Fors Model.Slh Model.Api.
Import ListNotations.
Open Scope list_scope.
Open Scope N_scope.

(** *** running a computation that holds a generator *)
Definition rruns {r A} (m : RM r A) (s s' : rng_st r) (a : A) (L : list event) : Prop :=
  fst (m s) = s' /\ runs (snd (m s)) a L.
Definition rerrs {r A} (m : RM r A) (s s' : rng_st r) (e : string) (L : list event) : Prop :=
  fst (m s) = s' /\ result (snd (m s)) = Err e /\ calls (trace (snd (m s))) = L.
Definition rpanics {r A} (m : RM r A) (s s' : rng_st r) (q : panic_reason) (L : list event) : Prop :=
  fst (m s) = s' /\ result (snd (m s)) = Panic q /\ calls (trace (snd (m s))) = L.

Section R.
Context {r : Rng}.

Lemma rruns_bind {A B} (m : RM r A) (k : A -> RM r B) s s1 s2 a b L1 L2 :
  rruns m s s1 a L1 -> rruns (k a) s1 s2 b L2 -> rruns (rbind m k) s s2 b (L1 ++ L2).
Proof.
  intros [E1 [V1 C1]] [E2 [V2 C2]]. unfold rruns, rbind, runs, result, trace in *.
  destruct (m s) as [s' [t o]]. cbn in *. subst s' o.
  destruct (k a s1) as [s'' [t' o']]. cbn in *. subst.
  split; [reflexivity|]. split; [reflexivity|]. apply calls_app.
Qed.

Lemma rruns_bind0 {A B} (m : RM r A) (k : A -> RM r B) s s2 a b L2 :
  rruns m s s a [] -> rruns (k a) s s2 b L2 -> rruns (rbind m k) s s2 b L2.
Proof. intros H1 H2. apply (rruns_bind m k s s s2 a b [] L2 H1 H2). Qed.

Lemma rerrs_bind {A B} (m : RM r A) (k : A -> RM r B) s s1 s2 a e L1 L2 :
  rruns m s s1 a L1 -> rerrs (k a) s1 s2 e L2 -> rerrs (rbind m k) s s2 e (L1 ++ L2).
Proof.
  intros [E1 [V1 C1]] [E2 [V2 C2]]. unfold rerrs, rbind, runs, result, trace in *.
  destruct (m s) as [s' [t o]]. cbn in *. subst s' o.
  destruct (k a s1) as [s'' [t' o']]. cbn in *. subst.
  split; [reflexivity|]. split; [reflexivity|]. apply calls_app.
Qed.

Lemma rerrs_bind_l {A B} (m : RM r A) (k : A -> RM r B) s s1 e L1 :
  rerrs m s s1 e L1 -> rerrs (rbind m k) s s1 e L1.
Proof.
  intros [E1 [V1 C1]]. unfold rerrs, rbind, result, trace in *.
  destruct (m s) as [s' [t o]]. cbn in *. subst s' o. cbn. auto.
Qed.

Lemma rpanics_bind {A B} (m : RM r A) (k : A -> RM r B) s s1 s2 a q L1 L2 :
  rruns m s s1 a L1 -> rpanics (k a) s1 s2 q L2 -> rpanics (rbind m k) s s2 q (L1 ++ L2).
Proof.
  intros [E1 [V1 C1]] [E2 [V2 C2]]. unfold rpanics, rbind, runs, result, trace in *.
  destruct (m s) as [s' [t o]]. cbn in *. subst s' o.
  destruct (k a s1) as [s'' [t' o']]. cbn in *. subst.
  split; [reflexivity|]. split; [reflexivity|]. apply calls_app.
Qed.

Lemma rpanics_bind_l {A B} (m : RM r A) (k : A -> RM r B) s s1 q L1 :
  rpanics m s s1 q L1 -> rpanics (rbind m k) s s1 q L1.
Proof.
  intros [E1 [V1 C1]]. unfold rpanics, rbind, result, trace in *.
  destruct (m s) as [s' [t o]]. cbn in *. subst s' o. cbn. auto.
Qed.

Lemma rerrs_bind0 {A B} (m : RM r A) (k : A -> RM r B) s s2 a b L2 :
  rruns m s s a [] -> rerrs (k a) s s2 b L2 -> rerrs (rbind m k) s s2 b L2.
Proof. intros H1 H2. apply (rerrs_bind m k s s s2 a b [] L2 H1 H2). Qed.
Lemma rpanics_bind0 {A B} (m : RM r A) (k : A -> RM r B) s s2 a b L2 :
  rruns m s s a [] -> rpanics (k a) s s2 b L2 -> rpanics (rbind m k) s s2 b L2.
Proof. intros H1 H2. apply (rpanics_bind m k s s s2 a b [] L2 H1 H2). Qed.

Lemma rruns_lift {A} (m : M A) (s : rng_st r) a L : runs m a L -> rruns (rlift m) s s a L.
Proof. intros H. split; [reflexivity|exact H]. Qed.

Lemma rruns_fill n msg (s s' : rng_st r) b : try_fill r s n = (s', Val b) -> rruns (fill_or n msg) s s' b [ERng n].
Proof. intros E. unfold rruns, fill_or. rewrite E. cbn. repeat split. Qed.
Lemma rerrs_fill n msg (s s' : rng_st r) e : try_fill r s n = (s', Err e) -> rerrs (fill_or n msg) s s' msg [ERng n].
Proof. intros E. unfold rerrs, fill_or. rewrite E. cbn. repeat split. Qed.
Lemma rpanics_fill n msg (s s' : rng_st r) q : try_fill r s n = (s', Panic q) -> rpanics (fill_or n msg) s s' q [ERng n].
Proof. intros E. unfold rpanics, fill_or. rewrite E. cbn. repeat split. Qed.

Lemma rruns_branch {A} b (k : bool -> RM r A) s s' a L :
  rruns (k b) s s' a L -> rruns (rbind (rlift (branch b)) k) s s' a L.
Proof. intros H. eapply rruns_bind0; [apply rruns_lift, runs_branch|exact H]. Qed.
Lemma rerrs_branch {A} b (k : bool -> RM r A) s s' e L :
  rerrs (k b) s s' e L -> rerrs (rbind (rlift (branch b)) k) s s' e L.
Proof. intros H. apply (rerrs_bind _ _ s s s' b e [] L); [apply rruns_lift, runs_branch|exact H]. Qed.
Lemma rpanics_branch {A} b (k : bool -> RM r A) s s' q L :
  rpanics (k b) s s' q L -> rpanics (rbind (rlift (branch b)) k) s s' q L.
Proof. intros H. apply (rpanics_bind _ _ s s s' b q [] L); [apply rruns_lift, runs_branch|exact H]. Qed.

End R.

(** *** shapes of keys *)
Definition wf_sk (p : Params) (sk : SlhPrivateKey) : Prop :=
  nlen (sk_seed sk) = cN p /\ nlen (sk_prf sk) = cN p /\
  nlen (sk_pk_seed sk) = cN p /\ nlen (sk_pk_root sk) = cN p.
Definition wf_pk (p : Params) (pk : SlhPublicKey) : Prop :=
  nlen (pk_seed pk) = cN p /\ nlen (pk_root pk) = cN p.

Section ApiP.
Context {T : Target} {P : Prims} (p : Params) (HP : PF p).
Let hf := hf_of p.
Let hs := HASHERS p.
Let HS : HSpec hs hf := HASHERS_spec p HP.
Let HL : HLen (cN p) (cM p) hf := HASHERS_len p HP.

(** *** sizes *)
Lemma nlen_mnode (leaf : N -> bytes) nd k0 z : forall i,
  (forall i, nlen (leaf i) = k0) -> (forall z i x y, nlen (nd z i x y) = k0) ->
  nlen (mnode leaf nd z i) = k0.
Proof. destruct z as [|z]; intros i Hl Hn; cbn [mnode]; [apply Hl|apply Hn]. Qed.

Lemma nlen_chainF ps A : forall c s x, nlen x = cN p -> nlen (chainF hf ps A s c x) = cN p.
Proof.
  induction c as [|c IH]; intros s x Hx; cbn [chainF]; [exact Hx|]. apply IH, (len_F _ _ _ HL).
Qed.

Lemma nlen_wval ps ss l t kp i s : nlen (wval hf ps ss l t kp i s) = cN p.
Proof. apply nlen_chainF, (len_PRF _ _ _ HL). Qed.

Lemma nlen_xnode ps ss l t z i : nlen (xnode p hf ps ss l t z i) = cN p.
Proof. apply nlen_mnode; intros; [apply (len_T _ _ _ HL)|apply (len_H _ _ _ HL)]. Qed.

Lemma nlen_fnode ps ss t kp z i : nlen (fnode hf ps ss t kp z i) = cN p.
Proof. apply nlen_mnode; intros; [apply (len_F _ _ _ HL)|apply (len_H _ _ _ HL)]. Qed.

Lemma nlen_proot ps ss : nlen (proot p hf ps ss) = cN p.
Proof. apply nlen_xnode. Qed.

Lemma wf_n_sign_val sk o M : wf_sig_n p (sign_val p hf sk o M).
Proof.
  split; [apply wf_sign_val|]. split; [apply (len_PRFm _ _ _ HL)|].
  unfold sign_val. cbn [fors_sig ht_sig private_key_value fors_auth sig_fors_of fsig].
  split; [|split].
  - unfold nb. rewrite Forall_map, Forall_forall. intros i _. apply (len_PRF _ _ _ HL).
  - rewrite Forall_map, Forall_forall. intros i _. unfold nb, fauth.
    rewrite Forall_map, Forall_forall. intros k _. apply nlen_fnode.
  - unfold sig_ht_of, hsig. rewrite Forall_map, Forall_forall. intros j _.
    unfold hsig_at, xsig. cbn [sig_wots xmss_auth]. unfold nb, wsig, xauth. split.
    + rewrite Forall_map, Forall_forall. intros i _. apply nlen_wval.
    + rewrite Forall_map, Forall_forall. intros k _. apply nlen_xnode.
Qed.

(** signature bytes for key sk, randomness o and message M *)
Definition sign_bytes (sk : SlhPrivateKey) (o M : bytes) : bytes := enc_sig p (sign_val p hf sk o M).

Lemma nlen_sign_bytes sk o M : nlen (sign_bytes sk o M) = cSIG_LEN p.
Proof. apply nlen_enc_sig; [exact HP|]. apply wf_n_sign_val. Qed.

Lemma runs_sign_core m sk o :
  wf_sk p sk -> nlen m <= 5 ->
  runs (bind (slh_sign_internal p hs m sk o) (serialize p)) (sign_bytes sk o (concat m))
       (sign_calls p hf sk o m).
Proof.
  intros [_ [Hf _]] Hm. eapply runs_bind_r.
  - apply (runs_slh_sign_internal p HP hs hf HS HL); assumption.
  - apply runs_serialize; [exact HP|]. apply wf_n_sign_val.
Qed.

Lemma rruns_map_serialize {r : Rng} (m : RM r SlhDsaSig) s s' sk o M L :
  rruns m s s' (sign_val p hf sk o M) L -> rruns (map_serialize p m) s s' (sign_bytes sk o M) L.
Proof.
  intros H. unfold map_serialize. replace L with (L ++ []) by apply app_nil_r.
  eapply rruns_bind; [exact H|]. apply rruns_lift.
  apply runs_serialize; [exact HP|]. apply wf_n_sign_val.
Qed.

Lemma rruns_sign_det {r : Rng} m sk s :
  wf_sk p sk -> nlen m <= 5 ->
  rruns (slh_sign_with_rng p hs r m sk false) s s (sign_val p hf sk (sk_pk_seed sk) (concat m))
        (sign_calls p hf sk (sk_pk_seed sk) m).
Proof.
  intros [_ [Hf _]] Hm. unfold slh_sign_with_rng. cbv zeta. apply rruns_branch. cbv iota.
  eapply rruns_bind0; [apply rruns_lift, runs_ret|]. apply rruns_lift.
  apply (runs_slh_sign_internal p HP hs hf HS HL); assumption.
Qed.

Lemma rruns_sign_hedged {r : Rng} m sk s s' b :
  wf_sk p sk -> nlen m <= 5 -> try_fill r s (cN p) = (s', Val b) ->
  rruns (slh_sign_with_rng p hs r m sk true) s s' (sign_val p hf sk b (concat m))
        (ERng (cN p) :: sign_calls p hf sk b m).
Proof.
  intros [_ [Hf [Hs _]]] Hm E. unfold slh_sign_with_rng. cbv zeta. apply rruns_branch. cbv iota.
  rewrite Hs. change (ERng (cN p) :: ?Z) with ([ERng (cN p)] ++ Z).
  eapply rruns_bind; [apply rruns_fill; exact E|]. apply rruns_lift.
  apply (runs_slh_sign_internal p HP hs hf HS HL); assumption.
Qed.

Lemma rerrs_sign_hedged {r : Rng} m sk s s' e :
  wf_sk p sk -> try_fill r s (cN p) = (s', Err e) ->
  rerrs (slh_sign_with_rng p hs r m sk true) s s' "Alg17: rng failed" [ERng (cN p)].
Proof.
  intros [_ [Hf [Hs _]]] E. unfold slh_sign_with_rng. cbv zeta. apply rerrs_branch. cbv iota.
  rewrite Hs. apply rerrs_bind_l. eapply rerrs_fill. exact E.
Qed.

Lemma rpanics_sign_hedged {r : Rng} m sk s s' q :
  wf_sk p sk -> try_fill r s (cN p) = (s', Panic q) ->
  rpanics (slh_sign_with_rng p hs r m sk true) s s' q [ERng (cN p)].
Proof.
  intros [_ [Hf [Hs _]]] E. unfold slh_sign_with_rng. cbv zeta. apply rpanics_branch. cbv iota.
  rewrite Hs. apply rpanics_bind_l. eapply rpanics_fill. exact E.
Qed.

(** *** message framing *)
Definition pure_pieces (m ctx : bytes) : list bytes := [[x00]; ctx_len_byte ctx; ctx; m].
Definition oid_of (ph : Ph) : bytes :=
  match ph with
  | PhSHA256 => oid_of_last Coq.Init.Byte.x01
  | PhSHA512 => oid_of_last Coq.Init.Byte.x03
  | PhSHAKE128 => oid_of_last Coq.Init.Byte.x0b
  | PhSHAKE256 => oid_of_last Coq.Init.Byte.x0c
  end.
Definition ph_digest (ph : Ph) (m : bytes) : bytes :=
  match ph with
  | PhSHA256 => sha256 m | PhSHA512 => sha512 m
  | PhSHAKE128 => shake128 m 32 | PhSHAKE256 => shake256 m 64
  end.
Definition ph_buf (ph : Ph) (m : bytes) : bytes :=
  match ph with
  | PhSHA256 | PhSHAKE128 => ph_digest ph m ++ nrepeat x00 32
  | _ => ph_digest ph m
  end.
Definition ph_len (ph : Ph) : N := match ph with PhSHA256 | PhSHAKE128 => 32 | _ => 64 end.
Definition hash_pieces (m ctx : bytes) (ph : Ph) : list bytes :=
  [[Coq.Init.Byte.x01]; ctx_len_byte ctx; ctx; oid_of ph; ph_digest ph m].

Lemma ph_digest_len ph m : nlen (ph_digest ph m) = ph_len ph.
Proof.
  destruct ph; cbn; [apply sha256_len|apply sha512_len|apply shake128_len|apply shake256_len].
Qed.

Lemma splice_buf (d : bytes) : nlen d = 32 -> splice (nrepeat x00 64) 0 d = d ++ nrepeat x00 32.
Proof.
  intros Hd. change (splice ([] ++ nrepeat x00 64) (nlen (@nil byte)) d = d ++ nrepeat x00 32).
  rewrite (splice_next p) by lia. rewrite Hd. reflexivity.
Qed.

Lemma runs_hash_message m ph :
  runs (hash_message m ph (nrepeat x00 64)) (oid_of ph, ph_buf ph m, ph_len ph) [].
Proof.
  unfold hash_message, hasher_update, hasher_new. cbn [app]. cbv zeta.
  destruct ph; (eapply runs_bind0; [|apply runs_ret_eq; reflexivity]);
    cbn [ph_buf ph_digest].
  - eapply runs_eq; [apply runs_copy_into; rewrite ?nlen_nrepeat, ?sha256_len; lia| |reflexivity].
    apply splice_buf, sha256_len.
  - apply runs_copy. rewrite nlen_nrepeat, sha512_len. reflexivity.
  - eapply runs_eq; [apply runs_copy_into; rewrite ?nlen_nrepeat, ?shake128_len; lia| |reflexivity].
    apply splice_buf, shake128_len.
  - rewrite nlen_nrepeat. apply runs_copy. rewrite nlen_nrepeat, shake256_len. reflexivity.
Qed.

Lemma runs_ph_slice m ph : runs (slice (ph_buf ph m) 0 (ph_len ph)) (ph_digest ph m) [].
Proof.
  pose proof (ph_digest_len ph m) as L.
  eapply runs_eq; [apply runs_slice; [lia|]| |reflexivity].
  - destruct ph; cbn [ph_buf]; rewrite ?nlen_app, L; lia.
  - rewrite <- L. destruct ph; cbn [ph_buf]; rewrite ?sub_bytes_all, ?sub_bytes_prefix; reflexivity.
Qed.

(** *** signing *)
Lemma ctx_ok (ctx : bytes) : nlen ctx <= 255 -> (255 <? nlen ctx) = false.
Proof. intros H. apply N.ltb_ge. exact H. Qed.
Lemma ctx_long (ctx : bytes) : 255 < nlen ctx -> (255 <? nlen ctx) = true.
Proof. intros H. apply N.ltb_lt. exact H. Qed.

Section Sign.
Context {r : Rng}.

Lemma rruns_try_sign_det sk m ctx s :
  wf_sk p sk -> nlen ctx <= 255 ->
  rruns (try_sign_with_rng p r sk m ctx false) s s
    (sign_bytes sk (sk_pk_seed sk) (concat (pure_pieces m ctx)))
    (sign_calls p hf sk (sk_pk_seed sk) (pure_pieces m ctx)).
Proof.
  intros W Hc. unfold try_sign_with_rng. apply rruns_branch. rewrite (ctx_ok _ Hc). cbv iota zeta.
  apply rruns_map_serialize. apply rruns_sign_det; [exact W|discriminate].
Qed.

Lemma rruns_try_sign_hedged sk m ctx s s' b :
  wf_sk p sk -> nlen ctx <= 255 -> try_fill r s (cN p) = (s', Val b) ->
  rruns (try_sign_with_rng p r sk m ctx true) s s'
    (sign_bytes sk b (concat (pure_pieces m ctx)))
    (ERng (cN p) :: sign_calls p hf sk b (pure_pieces m ctx)).
Proof.
  intros W Hc E. unfold try_sign_with_rng. apply rruns_branch. rewrite (ctx_ok _ Hc). cbv iota zeta.
  apply rruns_map_serialize. apply rruns_sign_hedged; [exact W|discriminate|exact E].
Qed.

Lemma rerrs_try_sign_hedged sk m ctx s s' e :
  wf_sk p sk -> nlen ctx <= 255 -> try_fill r s (cN p) = (s', Err e) ->
  rerrs (try_sign_with_rng p r sk m ctx true) s s' "Alg17: rng failed" [ERng (cN p)].
Proof.
  intros W Hc E. unfold try_sign_with_rng. apply rerrs_branch. rewrite (ctx_ok _ Hc). cbv iota zeta.
  apply rerrs_bind_l. eapply rerrs_sign_hedged; [exact W|exact E].
Qed.

Lemma rpanics_try_sign_hedged sk m ctx s s' q :
  wf_sk p sk -> nlen ctx <= 255 -> try_fill r s (cN p) = (s', Panic q) ->
  rpanics (try_sign_with_rng p r sk m ctx true) s s' q [ERng (cN p)].
Proof.
  intros W Hc E. unfold try_sign_with_rng. apply rpanics_branch. rewrite (ctx_ok _ Hc). cbv iota zeta.
  apply rpanics_bind_l. eapply rpanics_sign_hedged; [exact W|exact E].
Qed.

Lemma rerrs_try_sign_ctx sk m ctx hedged s :
  255 < nlen ctx ->
  rerrs (try_sign_with_rng p r sk m ctx hedged) s s "ctx must be less than 256 bytes" [].
Proof.
  intros Hc. unfold try_sign_with_rng. apply rerrs_branch. rewrite (ctx_long _ Hc). cbv iota.
  repeat split.
Qed.

Lemma rruns_try_hash_sign_det sk m ctx ph s :
  wf_sk p sk -> nlen ctx <= 255 ->
  rruns (try_hash_sign_with_rng p r sk m ctx ph false) s s
    (sign_bytes sk (sk_pk_seed sk) (concat (hash_pieces m ctx ph)))
    (sign_calls p hf sk (sk_pk_seed sk) (hash_pieces m ctx ph)).
Proof.
  intros W Hc. unfold try_hash_sign_with_rng. apply rruns_branch. rewrite (ctx_ok _ Hc). cbv iota zeta.
  eapply rruns_bind0; [apply rruns_lift, runs_hash_message|]. cbv beta iota.
  eapply rruns_bind0; [apply rruns_lift, runs_ph_slice|].
  apply rruns_map_serialize. apply rruns_sign_det; [exact W|discriminate].
Qed.

Lemma rruns_try_hash_sign_hedged sk m ctx ph s s' b :
  wf_sk p sk -> nlen ctx <= 255 -> try_fill r s (cN p) = (s', Val b) ->
  rruns (try_hash_sign_with_rng p r sk m ctx ph true) s s'
    (sign_bytes sk b (concat (hash_pieces m ctx ph)))
    (ERng (cN p) :: sign_calls p hf sk b (hash_pieces m ctx ph)).
Proof.
  intros W Hc E. unfold try_hash_sign_with_rng. apply rruns_branch. rewrite (ctx_ok _ Hc). cbv iota zeta.
  eapply rruns_bind0; [apply rruns_lift, runs_hash_message|]. cbv beta iota.
  eapply rruns_bind0; [apply rruns_lift, runs_ph_slice|].
  apply rruns_map_serialize. apply rruns_sign_hedged; [exact W|discriminate|exact E].
Qed.

Lemma rerrs_try_hash_sign_hedged sk m ctx ph s s' e :
  wf_sk p sk -> nlen ctx <= 255 -> try_fill r s (cN p) = (s', Err e) ->
  rerrs (try_hash_sign_with_rng p r sk m ctx ph true) s s' "Alg17: rng failed" [ERng (cN p)].
Proof.
  intros W Hc E. unfold try_hash_sign_with_rng. apply rerrs_branch. rewrite (ctx_ok _ Hc). cbv iota zeta.
  eapply rerrs_bind0; [apply rruns_lift, runs_hash_message|]. cbv beta iota.
  eapply rerrs_bind0; [apply rruns_lift, runs_ph_slice|].
  apply rerrs_bind_l. eapply rerrs_sign_hedged; [exact W|exact E].
Qed.

Lemma rpanics_try_hash_sign_hedged sk m ctx ph s s' q :
  wf_sk p sk -> nlen ctx <= 255 -> try_fill r s (cN p) = (s', Panic q) ->
  rpanics (try_hash_sign_with_rng p r sk m ctx ph true) s s' q [ERng (cN p)].
Proof.
  intros W Hc E. unfold try_hash_sign_with_rng. apply rpanics_branch. rewrite (ctx_ok _ Hc). cbv iota zeta.
  eapply rpanics_bind0; [apply rruns_lift, runs_hash_message|]. cbv beta iota.
  eapply rpanics_bind0; [apply rruns_lift, runs_ph_slice|].
  apply rpanics_bind_l. eapply rpanics_sign_hedged; [exact W|exact E].
Qed.

Lemma rerrs_try_hash_sign_ctx sk m ctx ph hedged s :
  255 < nlen ctx ->
  rerrs (try_hash_sign_with_rng p r sk m ctx ph hedged) s s "ctx must be less than 256 bytes" [].
Proof.
  intros Hc. unfold try_hash_sign_with_rng. apply rerrs_branch. rewrite (ctx_long _ Hc). cbv iota.
  repeat split.
Qed.

Lemma concat1 (m : bytes) : concat [m] = m.
Proof. cbn. apply app_nil_r. Qed.

Lemma rruns_raw_sign_det sk m s :
  wf_sk p sk ->
  rruns (raw_sign p r sk m false) s s (sign_bytes sk (sk_pk_seed sk) m)
    (sign_calls p hf sk (sk_pk_seed sk) [m]).
Proof.
  intros W. unfold raw_sign. cbv zeta. apply rruns_branch. cbv iota.
  eapply rruns_bind0; [apply rruns_lift, runs_ret|].
  rewrite <- (concat1 m) at 2. apply rruns_map_serialize, rruns_lift.
  apply (runs_slh_sign_internal p HP hs hf HS HL); [apply W|discriminate].
Qed.

Lemma rruns_raw_sign_hedged sk m s s' b :
  wf_sk p sk -> try_fill r s (cN p) = (s', Val b) ->
  rruns (raw_sign p r sk m true) s s' (sign_bytes sk b m)
    (ERng (cN p) :: sign_calls p hf sk b [m]).
Proof.
  intros W E. unfold raw_sign. cbv zeta. apply rruns_branch. cbv iota.
  destruct W as [W1 [W2 [W3 W4]]].
  rewrite W3. change (ERng (cN p) :: ?Z) with ([ERng (cN p)] ++ Z).
  eapply rruns_bind; [apply rruns_fill; exact E|].
  rewrite <- (concat1 m) at 2. apply rruns_map_serialize, rruns_lift.
  apply (runs_slh_sign_internal p HP hs hf HS HL); [exact W2|discriminate].
Qed.

Lemma rerrs_raw_sign_hedged sk m s s' e :
  wf_sk p sk -> try_fill r s (cN p) = (s', Err e) ->
  rerrs (raw_sign p r sk m true) s s' "Alg17: rng failed" [ERng (cN p)].
Proof.
  intros [_ [Hf [Hs _]]] E. unfold raw_sign. cbv zeta. apply rerrs_branch. cbv iota.
  rewrite Hs. apply rerrs_bind_l. eapply rerrs_fill. exact E.
Qed.

Lemma rpanics_raw_sign_hedged sk m s s' q :
  wf_sk p sk -> try_fill r s (cN p) = (s', Panic q) ->
  rpanics (raw_sign p r sk m true) s s' q [ERng (cN p)].
Proof.
  intros [_ [Hf [Hs _]]] E. unfold raw_sign. cbv zeta. apply rpanics_branch. cbv iota.
  rewrite Hs. apply rpanics_bind_l. eapply rpanics_fill. exact E.
Qed.

End Sign.

(** *** key generation *)
Definition key_of (s f ps : bytes) : SlhPublicKey * SlhPrivateKey :=
  (mkPk ps (proot p hf ps s), mkSk s f ps (proot p hf ps s)).

Lemma wf_key_of s f ps :
  nlen s = cN p -> nlen f = cN p -> nlen ps = cN p ->
  wf_pk p (fst (key_of s f ps)) /\ wf_sk p (snd (key_of s f ps)).
Proof.
  intros H1 H2 H3. pose proof (nlen_proot ps s) as H4. split; repeat split; cbn; assumption.
Qed.

Lemma rruns_keygen {r : Rng} s s1 s2 s3 a b c :
  try_fill r s (cN p) = (s1, Val a) -> try_fill r s1 (cN p) = (s2, Val b) ->
  try_fill r s2 (cN p) = (s3, Val c) ->
  rruns (try_keygen_with_rng p r) s s3 (key_of a b c)
    (ERng (cN p) :: ERng (cN p) :: ERng (cN p) :: prootC p hf c a).
Proof.
  intros E1 E2 E3. unfold try_keygen_with_rng, slh_keygen_with_rng.
  replace (ERng (cN p) :: ERng (cN p) :: ERng (cN p) :: prootC p hf c a)
    with (([ERng (cN p)] ++ [ERng (cN p)] ++ [ERng (cN p)] ++ prootC p hf c a) ++ [])
    by (rewrite app_nil_r; reflexivity).
  eapply rruns_bind.
  - eapply rruns_bind; [apply rruns_fill; exact E1|].
    eapply rruns_bind; [apply rruns_fill; exact E2|].
    eapply rruns_bind; [apply rruns_fill; exact E3|].
    apply rruns_lift. apply (runs_slh_keygen_internal p HP hs hf HS).
  - apply rruns_lift, runs_ret.
Qed.

Lemma rerrs_keygen1 {r : Rng} s s1 e :
  try_fill r s (cN p) = (s1, Err e) ->
  rerrs (try_keygen_with_rng p r) s s1 "Alg17: rng failed1" [ERng (cN p)].
Proof.
  intros E1. unfold try_keygen_with_rng, slh_keygen_with_rng. apply rerrs_bind_l.
  apply rerrs_bind_l. eapply rerrs_fill. exact E1.
Qed.

Lemma rerrs_keygen2 {r : Rng} s s1 s2 a e :
  try_fill r s (cN p) = (s1, Val a) -> try_fill r s1 (cN p) = (s2, Err e) ->
  rerrs (try_keygen_with_rng p r) s s2 "Alg17: rng failed2" [ERng (cN p); ERng (cN p)].
Proof.
  intros E1 E2. unfold try_keygen_with_rng, slh_keygen_with_rng. apply rerrs_bind_l.
  change [ERng (cN p); ERng (cN p)] with ([ERng (cN p)] ++ [ERng (cN p)]).
  eapply rerrs_bind; [apply rruns_fill; exact E1|].
  apply rerrs_bind_l. eapply rerrs_fill. exact E2.
Qed.

Lemma rerrs_keygen3 {r : Rng} s s1 s2 s3 a b e :
  try_fill r s (cN p) = (s1, Val a) -> try_fill r s1 (cN p) = (s2, Val b) ->
  try_fill r s2 (cN p) = (s3, Err e) ->
  rerrs (try_keygen_with_rng p r) s s3 "Alg17: rng failed3" [ERng (cN p); ERng (cN p); ERng (cN p)].
Proof.
  intros E1 E2 E3. unfold try_keygen_with_rng, slh_keygen_with_rng. apply rerrs_bind_l.
  change [ERng (cN p); ERng (cN p); ERng (cN p)]
    with ([ERng (cN p)] ++ [ERng (cN p)] ++ [ERng (cN p)]).
  eapply rerrs_bind; [apply rruns_fill; exact E1|].
  eapply rerrs_bind; [apply rruns_fill; exact E2|].
  apply rerrs_bind_l. eapply rerrs_fill. exact E3.
Qed.

Lemma rpanics_keygen1 {r : Rng} s s1 e :
  try_fill r s (cN p) = (s1, Panic e) ->
  rpanics (try_keygen_with_rng p r) s s1 e [ERng (cN p)].
Proof.
  intros E1. unfold try_keygen_with_rng, slh_keygen_with_rng. apply rpanics_bind_l.
  apply rpanics_bind_l. eapply rpanics_fill. exact E1.
Qed.

Lemma rpanics_keygen2 {r : Rng} s s1 s2 a e :
  try_fill r s (cN p) = (s1, Val a) -> try_fill r s1 (cN p) = (s2, Panic e) ->
  rpanics (try_keygen_with_rng p r) s s2 e [ERng (cN p); ERng (cN p)].
Proof.
  intros E1 E2. unfold try_keygen_with_rng, slh_keygen_with_rng. apply rpanics_bind_l.
  change [ERng (cN p); ERng (cN p)] with ([ERng (cN p)] ++ [ERng (cN p)]).
  eapply rpanics_bind; [apply rruns_fill; exact E1|].
  apply rpanics_bind_l. eapply rpanics_fill. exact E2.
Qed.

Lemma rpanics_keygen3 {r : Rng} s s1 s2 s3 a b e :
  try_fill r s (cN p) = (s1, Val a) -> try_fill r s1 (cN p) = (s2, Val b) ->
  try_fill r s2 (cN p) = (s3, Panic e) ->
  rpanics (try_keygen_with_rng p r) s s3 e [ERng (cN p); ERng (cN p); ERng (cN p)].
Proof.
  intros E1 E2 E3. unfold try_keygen_with_rng, slh_keygen_with_rng. apply rpanics_bind_l.
  change [ERng (cN p); ERng (cN p); ERng (cN p)]
    with ([ERng (cN p)] ++ [ERng (cN p)] ++ [ERng (cN p)]).
  eapply rpanics_bind; [apply rruns_fill; exact E1|].
  eapply rpanics_bind; [apply rruns_fill; exact E2|].
  apply rpanics_bind_l. eapply rpanics_fill. exact E3.
Qed.

(** *** verification *)
Lemma runs_verify pk m sig ctx :
  nlen ctx <= 255 -> nlen sig = cSIG_LEN p ->
  runs (verify p pk m sig ctx)
       (verify_val p hf pk (dec_sig p sig) (concat (pure_pieces m ctx)))
       (verify_calls p hf pk (dec_sig p sig) (pure_pieces m ctx)).
Proof.
  intros Hc Hs. unfold verify. apply runs_branch_bind. rewrite (ctx_ok _ Hc). cbv iota.
  eapply runs_bind0; [apply runs_deserialize; assumption|]. cbv zeta. unfold slh_verify.
  apply (runs_slh_verify_internal p HP hs hf HS HL); [discriminate|].
  apply (wf_dec_sig p HP). exact Hs.
Qed.

Lemma runs_verify_long pk m sig ctx : 255 < nlen ctx -> runs (verify p pk m sig ctx) false [].
Proof.
  intros Hc. unfold verify. apply runs_branch_bind. rewrite (ctx_long _ Hc). apply runs_ret.
Qed.

Lemma runs_hash_verify pk m sig ctx ph :
  nlen ctx <= 255 -> nlen sig = cSIG_LEN p ->
  runs (hash_verify p pk m sig ctx ph)
       (verify_val p hf pk (dec_sig p sig) (concat (hash_pieces m ctx ph)))
       (verify_calls p hf pk (dec_sig p sig) (hash_pieces m ctx ph)).
Proof.
  intros Hc Hs. unfold hash_verify. apply runs_branch_bind. rewrite (ctx_ok _ Hc). cbv iota.
  eapply runs_bind0; [apply runs_deserialize; assumption|]. cbv zeta.
  eapply runs_bind0; [apply runs_hash_message|]. cbv beta iota.
  eapply runs_bind0; [apply runs_ph_slice|]. unfold slh_verify.
  apply (runs_slh_verify_internal p HP hs hf HS HL); [discriminate|].
  apply (wf_dec_sig p HP). exact Hs.
Qed.

Lemma runs_hash_verify_long pk m sig ctx ph :
  255 < nlen ctx -> runs (hash_verify p pk m sig ctx ph) false [].
Proof.
  intros Hc. unfold hash_verify. apply runs_branch_bind. rewrite (ctx_long _ Hc). apply runs_ret.
Qed.

Lemma runs_raw_verify pk m sig :
  nlen sig = cSIG_LEN p ->
  runs (raw_verify p pk m sig) (verify_val p hf pk (dec_sig p sig) m)
       (verify_calls p hf pk (dec_sig p sig) [m]).
Proof.
  intros Hs. unfold raw_verify.
  eapply runs_bind0; [apply runs_deserialize; assumption|].
  rewrite <- (concat1 m) at 2.
  apply (runs_slh_verify_internal p HP hs hf HS HL); [discriminate|].
  apply (wf_dec_sig p HP). exact Hs.
Qed.

(** a signature of a consistent key verifies *)
Definition consistent (sk : SlhPrivateKey) : Prop :=
  sk_pk_root sk = proot p hf (sk_pk_seed sk) (sk_seed sk).

Lemma verify_honest sk o M :
  consistent sk ->
  verify_val p hf (get_public_key sk) (dec_sig p (sign_bytes sk o M)) M = true.
Proof.
  intros C. unfold sign_bytes. rewrite dec_enc by (exact HP || apply wf_n_sign_val).
  unfold verify_val. apply bytes_eqb_eq. cbn [get_public_key pk_seed pk_root].
  change (verify_digest hf (mkPk (sk_pk_seed sk) (sk_pk_root sk)) (sign_val p hf sk o M) M)
    with (sign_digest hf sk o M).
  unfold sign_val. cbv zeta. rewrite vroot_honest by exact HP. symmetry. exact C.
Qed.

(** *** key encodings *)
Definition pk_bytes (pk : SlhPublicKey) : bytes := pk_seed pk ++ pk_root pk.
Definition sk_bytes (sk : SlhPrivateKey) : bytes :=
  sk_seed sk ++ sk_prf sk ++ sk_pk_seed sk ++ sk_pk_root sk.

Lemma splice_at (a z s : bytes) k :
  nlen s <= k -> z = a ++ nrepeat x00 k ->
  splice z (nlen a) s = (a ++ s) ++ nrepeat x00 (k - nlen s).
Proof. intros H ->. apply (splice_next p). exact H. Qed.

Lemma runs_pk_into_bytes pk : wf_pk p pk -> runs (pk_into_bytes p pk) (pk_bytes pk) [].
Proof.
  intros [W1 W2]. pose proof (PF_n_range p HP) as Hn. unfold pk_into_bytes. cbv zeta.
  rewrite (pf_pk p HP). rewrite !div_ok by lia. rewrite bind_ret_l.
  replace (2 * cN p / 2) with (cN p) by lia.
  eapply runs_bind0.
  { eapply runs_eq; [apply runs_copy_into; rewrite ?nlen_nrepeat; lia| |reflexivity].
    change 0 with (nlen (@nil byte)) at 1.
    rewrite (splice_at [] _ _ (2 * cN p)); [reflexivity|lia|reflexivity]. }
  rewrite bind_ret_l. cbn [app].
  set (z := pk_seed pk ++ nrepeat x00 (2 * cN p - nlen (pk_seed pk))).
  assert (Lz : nlen z = 2 * cN p) by (unfold z; rewrite nlen_app, nlen_nrepeat; lia).
  eapply runs_eq; [apply runs_copy_into; rewrite ?Lz; lia| |reflexivity].
  replace (cN p) with (nlen (pk_seed pk)).
  rewrite (splice_at (pk_seed pk) z (pk_root pk) (2 * cN p - nlen (pk_seed pk))); [|lia|reflexivity].
  replace (2 * cN p - nlen (pk_seed pk) - nlen (pk_root pk)) with 0 by lia.
  change (nrepeat x00 0) with (@nil byte). apply app_nil_r.
Qed.

Lemma runs_pk_try_from_bytes bs :
  nlen bs = cPK_LEN p ->
  runs (pk_try_from_bytes p bs) (mkPk (sub_bytes bs 0 (cN p)) (sub_bytes bs (cN p) (2 * cN p))) [].
Proof.
  intros Hb. pose proof (PF_n_range p HP) as Hn. rewrite (pf_pk p HP) in Hb.
  unfold pk_try_from_bytes. rewrite (pf_pk p HP). rewrite !div_ok by lia. rewrite bind_ret_l.
  replace (2 * cN p / 2) with (cN p) by lia.
  eapply runs_bind0; [apply runs_slice; lia|].
  eapply runs_bind0; [apply runs_copy; rewrite nlen_nrepeat, nlen_sub_bytes; lia|].
  rewrite bind_ret_l. eapply runs_bind0; [apply runs_slice; lia|].
  eapply runs_bind0; [apply runs_copy; rewrite nlen_nrepeat, nlen_sub_bytes; lia|].
  rewrite Hb. apply runs_ret.
Qed.

Lemma runs_sk_into_bytes sk : wf_sk p sk -> runs (sk_into_bytes p sk) (sk_bytes sk) [].
Proof.
  intros [W1 [W2 [W3 W4]]]. pose proof (PF_n_range p HP) as Hn.
  unfold sk_into_bytes, cSK_LEN. rewrite (pf_pk p HP). cbv zeta.
  rewrite !div_ok by lia. rewrite !bind_ret_l. rewrite mul_us by lia. rewrite bind_ret_l.
  rewrite div_ok by lia. rewrite bind_ret_l.
  replace (2 * cN p * 2 / 4) with (cN p) by lia.
  replace (2 * cN p * 2 / 2) with (2 * cN p) by lia.
  replace (3 * (2 * cN p * 2) / 4) with (3 * cN p) by lia.
  assert (ST : forall a z s q, nlen a = q * cN p -> nlen s = cN p -> q < 4 ->
            z = a ++ nrepeat x00 ((4 - q) * cN p) ->
            splice z (q * cN p) s = (a ++ s) ++ nrepeat x00 ((4 - (q + 1)) * cN p)).
  { intros a z s q Ha Hs Hq Hz. rewrite <- Ha. rewrite (splice_at a z s ((4 - q) * cN p)); [|nia|exact Hz].
    do 2 f_equal. nia. }
  assert (LZ : forall a q, nlen a = q * cN p -> q <= 4 ->
            nlen (a ++ nrepeat x00 ((4 - q) * cN p)) = 4 * cN p).
  { intros a q Ha Hq. rewrite nlen_app, nlen_nrepeat. nia. }
  eapply runs_bind0.
  { eapply runs_eq; [apply runs_copy_into; rewrite ?nlen_nrepeat; lia| |reflexivity].
    change 0 with (0 * cN p) at 1.
    apply (ST [] _ (sk_seed sk) 0); [reflexivity|exact W1|lia|].
    replace ((4 - 0) * cN p) with (2 * cN p * 2) by lia. reflexivity. }
  cbn [app].
  eapply runs_bind0.
  { eapply runs_eq; [apply runs_copy_into; rewrite ?(LZ _ 1); lia| |reflexivity].
    rewrite <- (N.mul_1_l (cN p)) at 2.
    apply (ST (sk_seed sk) _ (sk_prf sk) 1); [lia|exact W2|lia|reflexivity]. }
  eapply runs_bind0.
  { eapply runs_eq; [apply runs_copy_into; rewrite ?(LZ _ 2); rewrite ?nlen_app; lia| |reflexivity].
    apply (ST (sk_seed sk ++ sk_prf sk) _ (sk_pk_seed sk) 2); [rewrite nlen_app; lia|exact W3|lia|reflexivity]. }
  eapply runs_eq; [apply runs_copy_into; rewrite ?(LZ _ 3); rewrite ?nlen_app; lia| |reflexivity].
  rewrite (ST ((sk_seed sk ++ sk_prf sk) ++ sk_pk_seed sk) _ (sk_pk_root sk) 3);
    [|rewrite !nlen_app; lia|exact W4|lia|reflexivity].
  replace ((4 - (3 + 1)) * cN p) with 0 by lia. change (nrepeat x00 0) with (@nil byte).
  rewrite app_nil_r. unfold sk_bytes. rewrite <- !app_assoc. reflexivity.
Qed.

(** the key held in a private-key string *)
Definition sk_of_bytes (bs : bytes) : SlhPrivateKey :=
  let n := cN p in
  mkSk (sub_bytes bs 0 n) (sub_bytes bs n (2 * n)) (sub_bytes bs (2 * n) (3 * n))
       (sub_bytes bs (3 * n) (4 * n)).

Lemma wf_sk_of_bytes bs : nlen bs = cSK_LEN p -> wf_sk p (sk_of_bytes bs).
Proof.
  unfold cSK_LEN. rewrite (pf_pk p HP). intros Hb.
  repeat split; cbn; rewrite nlen_sub_bytes; lia.
Qed.

Lemma sk_bytes_of_bytes bs : nlen bs = cSK_LEN p -> sk_bytes (sk_of_bytes bs) = bs.
Proof.
  unfold cSK_LEN. rewrite (pf_pk p HP). intros Hb. unfold sk_bytes, sk_of_bytes.
  cbn [sk_seed sk_prf sk_pk_seed sk_pk_root].
  rewrite (sub_bytes_split bs (2 * cN p)) by lia. rewrite sub_bytes_split by lia.
  rewrite sub_bytes_split by lia. replace (4 * cN p) with (nlen bs) by lia. apply sub_bytes_all.
Qed.

Lemma sk_of_bytes_bytes sk : wf_sk p sk -> sk_of_bytes (sk_bytes sk) = sk.
Proof.
  intros [W1 [W2 [W3 W4]]]. destruct sk as [a b c d]. cbn in *. unfold sk_of_bytes, sk_bytes. cbn.
  f_equal.
  - rewrite <- W1. apply sub_bytes_prefix.
  - rewrite sub_bytes_app_r by lia. rewrite W1.
    replace (cN p - cN p) with 0 by lia. replace (2 * cN p - cN p) with (nlen b) by lia.
    apply sub_bytes_prefix.
  - rewrite sub_bytes_app_r by lia. rewrite sub_bytes_app_r by lia. rewrite W1, W2.
    replace (2 * cN p - cN p - cN p) with 0 by lia.
    replace (3 * cN p - cN p - cN p) with (nlen c) by lia. apply sub_bytes_prefix.
  - rewrite sub_bytes_app_r by lia. rewrite sub_bytes_app_r by lia. rewrite sub_bytes_app_r by lia.
    rewrite W1, W2, W3. replace (3 * cN p - cN p - cN p - cN p) with 0 by lia.
    replace (4 * cN p - cN p - cN p - cN p) with (nlen d) by lia. apply sub_bytes_all.
Qed.

Lemma nlen_sk_bytes sk : wf_sk p sk -> nlen (sk_bytes sk) = cSK_LEN p.
Proof.
  intros [W1 [W2 [W3 W4]]]. unfold sk_bytes, cSK_LEN. rewrite !nlen_app, (pf_pk p HP). lia.
Qed.

(** import, up to the final test *)
Definition errs {A} (m : M A) (e : string) (L : list event) : Prop :=
  result m = Err e /\ calls (trace m) = L.

Lemma errs_bind {A B} (m : M A) (k : A -> M B) a e L1 L2 :
  runs m a L1 -> errs (k a) e L2 -> errs (bind m k) e (L1 ++ L2).
Proof.
  intros [Ha La] [Hb Lb]. split.
  - rewrite result_bind, Ha. exact Hb.
  - rewrite (trace_bind _ _ a Ha), calls_app, La, Lb. reflexivity.
Qed.
Lemma errs_bind0 {A B} (m : M A) (k : A -> M B) a e L2 :
  runs m a [] -> errs (k a) e L2 -> errs (bind m k) e L2.
Proof. intros H1 H2. apply (errs_bind m k a e [] L2 H1 H2). Qed.

Lemma runs_sk_try_from_bytes bs :
  nlen bs = cSK_LEN p -> consistent (sk_of_bytes bs) ->
  runs (sk_try_from_bytes p bs) (sk_of_bytes bs)
       (prootC p hf (sk_pk_seed (sk_of_bytes bs)) (sk_seed (sk_of_bytes bs))).
Proof.
  intros Hb C. pose proof (PF_n_range p HP) as Hn. unfold cSK_LEN in Hb. rewrite (pf_pk p HP) in Hb.
  unfold sk_try_from_bytes, cSK_LEN. rewrite (pf_pk p HP).
  rewrite !div_ok by lia. rewrite !bind_ret_l. rewrite mul_us by lia. rewrite bind_ret_l.
  rewrite div_ok by lia. rewrite bind_ret_l.
  replace (2 * cN p * 2 / 4) with (cN p) by lia.
  replace (2 * cN p * 2 / 2) with (2 * cN p) by lia.
  replace (3 * (2 * cN p * 2) / 4) with (3 * cN p) by lia.
  do 4 (eapply runs_bind0; [apply runs_slice; lia|];
        eapply runs_bind0; [apply runs_copy; rewrite nlen_nrepeat, nlen_sub_bytes; lia|]).
  replace (nlen bs) with (4 * cN p) by lia.
  eapply runs_bind_r; [apply (runs_slh_keygen_internal p HP hs hf HS)|]. cbv beta iota.
  eapply runs_bind0; [apply runs_same_bytes|]. apply runs_branch_bind. cbn [sk_pk_root].
  unfold consistent in C. rewrite <- C. cbn [sk_of_bytes sk_pk_root].
  rewrite bytes_eqb_refl. cbn [negb].
  apply runs_ret.
Qed.

Lemma errs_sk_try_from_bytes bs :
  nlen bs = cSK_LEN p -> ~ consistent (sk_of_bytes bs) ->
  errs (sk_try_from_bytes p bs) "Corrupted key"
       (prootC p hf (sk_pk_seed (sk_of_bytes bs)) (sk_seed (sk_of_bytes bs))).
Proof.
  intros Hb C. pose proof (PF_n_range p HP) as Hn. unfold cSK_LEN in Hb. rewrite (pf_pk p HP) in Hb.
  unfold sk_try_from_bytes, cSK_LEN. rewrite (pf_pk p HP).
  rewrite !div_ok by lia. rewrite !bind_ret_l. rewrite mul_us by lia. rewrite bind_ret_l.
  rewrite div_ok by lia. rewrite bind_ret_l.
  replace (2 * cN p * 2 / 4) with (cN p) by lia.
  replace (2 * cN p * 2 / 2) with (2 * cN p) by lia.
  replace (3 * (2 * cN p * 2) / 4) with (3 * cN p) by lia.
  do 4 (eapply errs_bind0; [apply runs_slice; lia|];
        eapply errs_bind0; [apply runs_copy; rewrite nlen_nrepeat, nlen_sub_bytes; lia|]).
  replace (nlen bs) with (4 * cN p) by lia.
  rewrite <- (app_nil_r (prootC _ _ _ _)).
  eapply errs_bind; [apply (runs_slh_keygen_internal p HP hs hf HS)|]. cbv beta iota.
  eapply errs_bind0; [apply runs_same_bytes|]. eapply errs_bind0; [apply runs_branch|]. cbn [sk_pk_root].
  assert (E : bytes_eqb (proot p hf (sub_bytes bs (2 * cN p) (3 * cN p)) (sub_bytes bs 0 (cN p)))
                        (sub_bytes bs (3 * cN p) (4 * cN p)) = false).
  { apply bytes_eqb_neq. intros E. apply C. unfold consistent, sk_of_bytes. cbn. symmetry. exact E. }
  cbn [sk_of_bytes sk_pk_seed sk_seed]. rewrite E. cbn [negb]. split; reflexivity.
Qed.

(** the DummyRng of keygen_with_seeds *)
Lemma dummy_fill_ok data i d len :
  nth_error data (N.to_nat i) = Some d -> nlen d = len ->
  try_fill DummyRng (data, i) len = ((data, i + 1), Val d).
Proof. intros E L. cbn [DummyRng try_fill]. unfold dummy_fill. rewrite E, L, N.eqb_refl. reflexivity. Qed.
Lemma dummy_fill_bad data i d len :
  nth_error data (N.to_nat i) = Some d -> nlen d <> len ->
  try_fill DummyRng (data, i) len = ((data, i), Panic PCopyLen).
Proof.
  intros E L. cbn [DummyRng try_fill]. unfold dummy_fill. rewrite E.
  apply N.eqb_neq in L. rewrite L. reflexivity.
Qed.

Lemma runs_keygen_with_seeds a b c :
  nlen a = cN p -> nlen b = cN p -> nlen c = cN p ->
  runs (keygen_with_seeds p a b c) (key_of a b c)
    (ERng (cN p) :: ERng (cN p) :: ERng (cN p) :: prootC p hf c a).
Proof.
  intros Ha Hb Hc.
  destruct (@rruns_keygen DummyRng _ _ _ _ a b c
              (dummy_fill_ok [a; b; c] 0 a (cN p) eq_refl Ha)
              (dummy_fill_ok [a; b; c] 1 b (cN p) eq_refl Hb)
              (dummy_fill_ok [a; b; c] 2 c (cN p) eq_refl Hc)) as [_ [V C]].
  unfold keygen_with_seeds, expect, runs, result, trace in *.
  destruct (snd (try_keygen_with_rng p DummyRng ([a; b; c], 0))) as [t o].
  cbn [fst snd] in *. subst o. auto.
Qed.

Lemma panics_keygen_with_seeds a b c :
  ~ (nlen a = cN p /\ nlen b = cN p /\ nlen c = cN p) ->
  exists q, result (keygen_with_seeds p a b c) = Panic q.
Proof.
  intros NE.
  assert (K : forall s' q L, rpanics (try_keygen_with_rng p DummyRng) ([a; b; c], 0) s' q L ->
              exists q, result (keygen_with_seeds p a b c) = Panic q).
  { intros s' q L [_ [V _]]. exists q. unfold keygen_with_seeds, expect, result in *.
    destruct (snd (try_keygen_with_rng p DummyRng ([a; b; c], 0))) as [t o].
    cbn [fst snd] in *. subst o. reflexivity. }
  destruct (N.eq_dec (nlen a) (cN p)) as [Ha|Ha].
  2:{ eapply K. eapply (@rpanics_keygen1 DummyRng). apply (dummy_fill_bad _ _ a); [reflexivity|exact Ha]. }
  pose proof (dummy_fill_ok [a; b; c] 0 a (cN p) eq_refl Ha) as F1.
  destruct (N.eq_dec (nlen b) (cN p)) as [Hb|Hb].
  2:{ eapply K. eapply (@rpanics_keygen2 DummyRng); [exact F1|].
      apply (dummy_fill_bad _ _ b); [reflexivity|exact Hb]. }
  pose proof (dummy_fill_ok [a; b; c] 1 b (cN p) eq_refl Hb) as F2.
  destruct (N.eq_dec (nlen c) (cN p)) as [Hc|Hc]; [tauto|].
  eapply K. eapply (@rpanics_keygen3 DummyRng); [exact F1|exact F2|].
  apply (dummy_fill_bad _ _ c); [reflexivity|exact Hc].
Qed.

End ApiP.
