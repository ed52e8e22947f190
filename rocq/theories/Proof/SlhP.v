(** src/slh.rs: key generation, signing and verification compute the functions of Proof/Fun.v. *)
From Verif Require Export Proof.HtP Proof.ForsP Model.Slh.
From Verif Require Import Spec.Fips205.
From Verif Require Import Model.Types Model.Wots Model.Xmss Model.Hypertree Model.Fors Model.Slh.

(** shape of a signature value *)
Definition wf_sig (p : Params) (sg : SlhDsaSig) : Prop :=
  nlen (private_key_value (fors_sig sg)) = cK p /\
  nlen (fors_auth (fors_sig sg)) = cK p /\
  Forall (fun r => nlen r = cA p) (fors_auth (fors_sig sg)) /\
  nlen (ht_sig sg) = cD p /\ Forall (wf_xmss p) (ht_sig sg).

Section SlhP.
Context {T : Target} (p : Params) (HP : PF p) (hs : Hashers) (hf : HashFns)
        (HS : HSpec hs hf) (HL : HLen (cN p) (cM p) hf).

Lemma mask64 x b : b <= 64 -> N.land x (18446744073709551615 / 2 ^ (64 - b)) = x mod 2 ^ b.
Proof.
  intros Hb. change 18446744073709551615 with (2 ^ 64 - 1). rewrite max_shr by exact Hb.
  apply land_ones_mod.
Qed.

Lemma runs_sign_digest_split digest :
  nlen digest = cM p ->
  runs (sign_digest_split p (cD p) (cH p) digest)
       (dg_md p digest, dg_tree p digest, dg_leaf p digest) [].
Proof.
  intros Hm. pose proof (pf_k p HP) as Hk. pose proof (pf_a p HP) as Ha.
  assert (Hka : cK p * cA p <= 35 * 14) by (apply N.mul_le_mono; lia).
  pose proof (pf_d p HP) as Hd. pose proof (pf_hp p HP) as Hhp.
  pose proof (pf_h p HP) as Hh. pose proof (pf_tree p HP) as Ht. pose proof (pf_m p HP) as Hmm.
  pose proof (pf_m_lt p HP) as Hml.
  assert (Hh2 : cH p <= 22 * 9) by (rewrite Hh; apply N.mul_le_mono; lia).
  assert (Hh3 : 1 * cHP p <= cH p) by (rewrite Hh; apply N.mul_le_mono; lia).
  pose proof (PF_hd8 p HP) as E8.
  assert (Hsum : dg1 p + dg2 p + dg3 p = cM p) by (unfold dg1, dg2, dg3; lia).
  assert (H2le : dg2 p <= 8) by (unfold dg2; lia).
  assert (H3le : dg3 p <= 8) by (unfold dg3; lia).
  clear Hmm.
  unfold sign_digest_split.
  rewrite mul_us by lia. rewrite bind_ret_l. rewrite add_us by lia. rewrite bind_ret_l.
  rewrite div_ok by lia. rewrite bind_ret_l. fold (dg1 p).
  eapply runs_bind0; [apply runs_slice; [lia|lia]|].
  rewrite !(div_ok (cH p) (cD p)) by lia. rewrite bind_ret_l. rewrite !(PF_hd p HP).
  rewrite !(sub_ok Usize (cH p)) by lia. rewrite bind_ret_l.
  rewrite (add_us (cH p - cHP p)) by lia. rewrite bind_ret_l.
  rewrite div_ok by lia. rewrite bind_ret_l. fold (dg2 p).
  rewrite add_us by lia. rewrite bind_ret_l.
  eapply runs_bind0; [apply runs_slice; lia|].
  rewrite !(mul_us 8) by lia. rewrite bind_ret_l.
  rewrite add_us by lia. rewrite bind_ret_l. rewrite (sub_ok Usize) by lia. rewrite !bind_ret_l.
  rewrite div_ok by lia. rewrite bind_ret_l. rewrite E8. fold (dg3 p).
  rewrite add_us by lia. rewrite bind_ret_l.
  eapply runs_bind0; [apply runs_slice; lia|].
  rewrite bind_ret_l.
  rewrite !(sub_ok U32 (cH p)) by lia. rewrite bind_ret_l.
  rewrite add_u32 by lia. rewrite bind_ret_l. rewrite div_ok by lia. rewrite bind_ret_l. fold (dg2 p).
  eapply runs_bind0.
  { apply runs_to_int; [rewrite nlen_sub_bytes by lia; lia|exact H2le]. }
  rewrite bind_ret_l. rewrite (sub_ok U32 (cH p)) by lia. rewrite bind_ret_l. rewrite (sub_ok U32 64) by lia. rewrite bind_ret_l.
  rewrite max_u64. rewrite shr_u64 by lia. rewrite bind_ret_l.
  rewrite mask64 by lia.
  rewrite !mul_u32 by lia. rewrite bind_ret_l. rewrite add_u32 by lia. rewrite bind_ret_l.
  rewrite sub_ok by lia. rewrite !bind_ret_l. rewrite div_ok by lia. rewrite bind_ret_l.
  rewrite E8. fold (dg3 p).
  eapply runs_bind0.
  { apply runs_to_int; [rewrite nlen_sub_bytes by lia; lia|exact H3le]. }
  rewrite !bind_ret_l. rewrite sub_ok by lia. rewrite bind_ret_l.
  rewrite shr_u64 by lia. rewrite bind_ret_l.
  rewrite mask64 by lia.
  apply runs_ret.
Qed.

Lemma runs_verify_digest_split digest :
  nlen digest = cM p ->
  runs (verify_digest_split p (cD p) (cH p) digest)
       (dg_md p digest, dg_tree p digest, dg_leaf p digest) [].
Proof. exact (runs_sign_digest_split digest). Qed.

Lemma dg_tree_lt digest : dg_tree p digest < 18446744073709551616.
Proof.
  unfold dg_tree. pose proof (pf_tree p HP).
  eapply N.lt_le_trans; [apply N.mod_lt, pow2_nz|].
  change 18446744073709551616 with (2 ^ 64). apply N.pow_le_mono_r; [discriminate|exact H].
Qed.

Lemma dg_leaf_lt digest : dg_leaf p digest < 2 ^ cHP p.
Proof. apply N.mod_lt, pow2_nz. Qed.

Lemma dg_leaf_u32 digest : dg_leaf p digest < 512.
Proof.
  pose proof (dg_leaf_lt digest). pose proof (pf_hp p HP). pose proof (pow2_le9 (cHP p) ltac:(lia)). lia.
Qed.

Lemma dg_md_len digest : nlen digest = cM p -> (cK p * cA p + 7) / 8 = nlen (dg_md p digest).
Proof.
  intros Hm. unfold dg_md. rewrite nlen_sub_bytes; [unfold dg1; lia|lia|].
  rewrite Hm, (pf_m p HP). unfold dg1. lia.
Qed.

Lemma adrs_default_adr : adrs_default = adr 0 0 0 0 0 0.
Proof. reflexivity. Qed.

Lemma runs_slh_keygen_internal s f ps :
  runs (slh_keygen_internal p hs s f ps)
       (mkSk s f ps (proot p hf ps s), mkPk ps (proot p hf ps s)) (prootC p hf ps s).
Proof.
  pose proof (pf_d p HP) as Hd. pose proof (pf_hp p HP) as Hhp.
  pose proof (pow2_le9 (cHP p) ltac:(lia)) as Hp.
  unfold slh_keygen_internal. rewrite try_u32 by lia. rewrite bind_ret_l.
  rewrite try_u32 by lia. rewrite bind_ret_l. cbv zeta.
  rewrite sub_ok by lia. rewrite bind_ret_l. rewrite adrs_default_adr. adrs_norm.
  eapply runs_bind_r.
  - apply (runs_xmss_node p HP hs hf HS); lia.
  - apply runs_ret.
Qed.

Lemma nlen_fpk ps t kp fs md : nlen (fpk p hf ps t kp fs md) = cN p.
Proof. apply (len_T _ _ _ HL). Qed.

Lemma wf_hsig ps ss t0 l0 m : Forall (wf_xmss p) (hsig p hf ps ss t0 l0 m).
Proof.
  unfold hsig. rewrite Forall_map, Forall_forall. intros j _.
  split; [apply nlen_wsig|apply nlen_xauth].
Qed.

Lemma nlen_hsig ps ss t0 l0 m : nlen (hsig p hf ps ss t0 l0 m) = cD p.
Proof. unfold hsig. rewrite nlen_map. unfold nlen. rewrite seq_length. lia. Qed.

Lemma wf_fsig ps ss t kp md :
  let fs := fsig p hf ps ss t kp md in
  nlen (private_key_value fs) = cK p /\ nlen (fors_auth fs) = cK p /\
  Forall (fun r => nlen r = cA p) (fors_auth fs).
Proof.
  cbn. rewrite !nlen_map, !nlen_nrange. split; [reflexivity|]. split; [reflexivity|].
  rewrite Forall_map, Forall_forall. intros i _. unfold fauth. rewrite nlen_map. apply nlen_nrange.
Qed.

(** the signature for message M (the concatenation of the pieces) *)
Definition sign_R (sk : SlhPrivateKey) (opt_rand M : bytes) : bytes := PRF_msg hf (sk_prf sk) opt_rand M.
Definition sign_digest (sk : SlhPrivateKey) (opt_rand M : bytes) : bytes :=
  H_msg hf (sign_R sk opt_rand M) (sk_pk_seed sk) (sk_pk_root sk) M.
Definition sign_val (sk : SlhPrivateKey) (opt_rand M : bytes) : SlhDsaSig :=
  let dg := sign_digest sk opt_rand M in
  mkSlhDsaSig (sign_R sk opt_rand M)
    (sig_fors_of p hf (sk_pk_seed sk) (sk_seed sk) dg)
    (sig_ht_of p hf (sk_pk_seed sk) (sk_seed sk) dg).
Definition sign_calls (sk : SlhPrivateKey) (opt_rand : bytes) (m : list bytes) : list event :=
  let M := concat m in
  EPrfMsg (sk_prf sk) opt_rand m ::
  EHmsg (sign_R sk opt_rand M) (sk_pk_seed sk) (sk_pk_root sk) m ::
  sig_tailC p hf (sk_pk_seed sk) (sk_seed sk) (sign_digest sk opt_rand M).

Lemma wf_sign_val sk o M : wf_sig p (sign_val sk o M).
Proof.
  destruct (wf_fsig (sk_pk_seed sk) (sk_seed sk) (dg_tree p (sign_digest sk o M))
              (dg_leaf p (sign_digest sk o M)) (dg_md p (sign_digest sk o M))) as [W1 [W2 W3]].
  repeat split; try assumption; [apply nlen_hsig|apply wf_hsig].
Qed.

Lemma runs_slh_sign_internal m sk o :
  nlen (sk_prf sk) = cN p -> nlen m <= 5 ->
  runs (slh_sign_internal p hs m sk o) (sign_val sk o (concat m)) (sign_calls sk o m).
Proof.
  intros Hprf Hm. pose proof (pf_d p HP) as Hd. pose proof (pf_hp p HP) as Hhp.
  pose proof (PF_n_range p HP) as Hn.
  assert (Hh : cH p <= 198) by (rewrite (pf_h p HP); nia).
  unfold slh_sign_internal. rewrite try_u32 by lia. rewrite bind_ret_l.
  rewrite try_u32 by lia. rewrite bind_ret_l. cbv zeta.
  unfold sign_calls. set (dg := sign_digest sk o (concat m)).
  change (EPrfMsg ?x ?y ?z :: ?Z) with ([EPrfMsg x y z] ++ Z).
  eapply runs_bind; [apply (runs_call_prf_msg hs hf HS); lia|].
  change (EHmsg ?x ?y ?z ?u :: ?Z) with ([EHmsg x y z u] ++ Z).
  eapply runs_bind; [apply (runs_call_h_msg hs hf HS); lia|].
  fold (sign_R sk o (concat m)). fold (sign_digest sk o (concat m)). fold dg.
  assert (Hdg : nlen dg = cM p) by apply (len_Hmsg _ _ _ HL).
  pose proof (dg_tree_lt dg) as Hdt. pose proof (dg_leaf_lt dg) as Hdl.
  pose proof (dg_leaf_u32 dg) as Hdl2.
  eapply runs_bind0; [apply runs_sign_digest_split; exact Hdg|]. cbv beta iota zeta.
  rewrite cast_u32 by lia. rewrite adrs_default_adr. unfold FORS_TREE. adrs_norm.
  unfold sig_tailC.
  eapply runs_bind.
  { apply (runs_fors_sign p HP hs hf HS); [lia|apply dg_md_len; exact Hdg]. }
  destruct (wf_fsig (sk_pk_seed sk) (sk_seed sk) (dg_tree p dg) (dg_leaf p dg) (dg_md p dg)) as [W1 [W2 W3]].
  eapply runs_bind.
  { apply (runs_fors_pk_from_sig p HP hs hf HS); [lia|apply dg_md_len; exact Hdg| | |]; assumption. }
  eapply runs_bind_r.
  { apply (runs_ht_sign p HP hs hf HS HL); [apply nlen_fpk|exact Hdt|exact Hdl]. }
  apply runs_ret.
Qed.

Definition verify_digest (pk : SlhPublicKey) (sg : SlhDsaSig) (M : bytes) : bytes :=
  H_msg hf (randomness sg) (pk_seed pk) (pk_root pk) M.
Definition verify_val (pk : SlhPublicKey) (sg : SlhDsaSig) (M : bytes) : bool :=
  bytes_eqb (vroot p hf (pk_seed pk) (verify_digest pk sg M) sg) (pk_root pk).
Definition verify_calls (pk : SlhPublicKey) (sg : SlhDsaSig) (m : list bytes) : list event :=
  EHmsg (randomness sg) (pk_seed pk) (pk_root pk) m ::
  vrootC p hf (pk_seed pk) (verify_digest pk sg (concat m)) sg.

Lemma runs_slh_verify_internal m sg pk :
  nlen m <= 5 -> wf_sig p sg ->
  runs (slh_verify_internal p hs m sg pk) (verify_val pk sg (concat m)) (verify_calls pk sg m).
Proof.
  intros Hm [W1 [W2 [W3 [W4 W5]]]]. pose proof (pf_d p HP) as Hd. pose proof (pf_hp p HP) as Hhp.
  assert (Hh : cH p <= 198) by (rewrite (pf_h p HP); nia).
  unfold slh_verify_internal. rewrite try_u32 by lia. rewrite bind_ret_l.
  rewrite try_u32 by lia. rewrite bind_ret_l. cbv zeta.
  unfold verify_calls. set (dg := verify_digest pk sg (concat m)).
  change (EHmsg ?x ?y ?z ?u :: ?Z) with ([EHmsg x y z u] ++ Z).
  eapply runs_bind; [apply (runs_call_h_msg hs hf HS); lia|].
  fold (verify_digest pk sg (concat m)). fold dg.
  assert (Hdg : nlen dg = cM p) by apply (len_Hmsg _ _ _ HL).
  pose proof (dg_tree_lt dg) as Hdt. pose proof (dg_leaf_lt dg) as Hdl.
  pose proof (dg_leaf_u32 dg) as Hdl2.
  eapply runs_bind0; [apply runs_verify_digest_split; exact Hdg|]. cbv beta iota zeta.
  apply runs_branch_bind.
  replace (dg_leaf p dg <? 2 ^ 32) with true
    by (symmetry; apply N.ltb_lt; change (2 ^ 32) with 4294967296; lia).
  rewrite adrs_default_adr. unfold FORS_TREE. adrs_norm.
  unfold vrootC. eapply runs_bind.
  { apply (runs_fors_pk_from_sig p HP hs hf HS); [lia|apply dg_md_len; exact Hdg| | |]; assumption. }
  apply (runs_ht_verify p HP hs hf HS HL); [apply nlen_fpk|exact Hdt|exact Hdl|exact W4|exact W5].
Qed.

End SlhP.
