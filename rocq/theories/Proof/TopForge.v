(** C35: an accepted signature is the owner's, or exhibits a second preimage or an earlier chain value. *)
From Verif Require Import Spec.Fips205 Spec.Fips205Hash.
From Verif Require Import Model.Api Proof.Facts Proof.HashP Proof.Fun Proof.WotsP Proof.SlhP Proof.SerP Proof.ApiP
  Proof.SpecFun Spec.Vocab Proof.Summary Proof.CallsP Proof.TopCorrect Proof.TopSer Proof.Honest Proof.PosP Proof.TopTrace Proof.TopFraming
  Proof.TopFips Proof.TopPath Proof.TopWots Proof.Forge Spec.VocabForge.
Import ListNotations.
Open Scope list_scope.
Open Scope N_scope.

Section Fixed.
Context (p : Params) (hf : HashFns) (R : bytes).
Definition fixed_fns : HashFns :=
  mkHashFns (fun _ _ _ => R) (H_msg hf) (PRF hf) (T_l hf) (H hf) (F hf).

Lemma fixed_tail ps ss dg : sig_tailC p fixed_fns ps ss dg = sig_tailC p hf ps ss dg.
Proof. reflexivity. Qed.
Lemma fixed_sign sk M :
  sign_val p fixed_fns sk [] M
  = let dg := H_msg hf R (sk_pk_seed sk) (sk_pk_root sk) M in
    mkSlhDsaSig R (sig_fors_of p hf (sk_pk_seed sk) (sk_seed sk) dg) (sig_ht_of p hf (sk_pk_seed sk) (sk_seed sk) dg).
Proof. reflexivity. Qed.

Lemma fixed_spec hs : HSpec hs hf -> HSpec (fixed_randomizer R hs) fixed_fns.
Proof.
  intros [A B C D E F1 G]. split; cbn; try assumption. intros k o m _ _. apply runs_ret.
Qed.
Lemma fixed_len n m : nlen R = n -> HLen n m hf -> HLen n m fixed_fns.
Proof. intros L [A B C D E G]. split; cbn; try assumption. intros. exact L. Qed.
End Fixed.

Section Shape.
Context (p : Params) (hf : HashFns) (HL : HLen (cN p) (cM p) hf).
Lemma wf_n_of ps ss dg R : nlen R = cN p ->
  wf_sig_n p (mkSlhDsaSig R (sig_fors_of p hf ps ss dg) (sig_ht_of p hf ps ss dg)).
Proof.
  intros LR. split.
  { destruct (wf_fsig p hf ps ss (dg_tree p dg) (dg_leaf p dg) (dg_md p dg)) as [W1 [W2 W3]].
    repeat split; try assumption; [apply nlen_hsig|apply wf_hsig]. }
  split; [exact LR|].
  cbn [fors_sig ht_sig private_key_value fors_auth sig_fors_of fsig].
  split; [|split].
  - unfold nb. rewrite Forall_map, Forall_forall. intros i _. apply (len_PRF _ _ _ HL).
  - rewrite Forall_map, Forall_forall. intros i _. unfold nb, fauth.
    rewrite Forall_map, Forall_forall. intros k _. unfold sibling.
    destruct (N.to_nat k); cbn [mnode]; [apply (len_F _ _ _ HL)|apply (len_H _ _ _ HL)].
  - unfold sig_ht_of, hsig. rewrite Forall_map, Forall_forall. intros j _.
    unfold hsig_at, xsig. cbn [sig_wots xmss_auth]. unfold nb, wsig, xauth. split.
    + rewrite Forall_map, Forall_forall. intros i _. apply (nlen_wval_n p hf HL).
    + rewrite Forall_map, Forall_forall. intros k _. unfold sibling.
      destruct (N.to_nat k); cbn [mnode]; [apply (len_T _ _ _ HL)|apply (len_H _ _ _ HL)].
Qed.
End Shape.

Lemma block_enc s sg j : wf_sig_n (param_set s) sg -> j < nblocks (param_set s) ->
  block s (enc_sig (param_set s) sg) j = sigB (param_set s) sg j.
Proof.
  intros W Hj. pose proof (param_PF s) as HP. unfold block. rewrite <- param_n.
  unfold enc_sig. apply (blk_concat (sigB (param_set s) sg) (cN (param_set s)) (nblocks (param_set s)) j); [|exact Hj].
  apply nlen_sigB. exact W.
Qed.

Lemma accepting_shape {T : Target} {P : Prims} s pk M sig t :
  accepting_run s pk M sig t ->
  nlen sig = cSIG_LEN (param_set s) /\
  verify_val (param_set s) (hf_of (param_set s)) pk (dec_sig (param_set s) sig) M = true /\
  exists mp, concat mp = M /\
    calls t = verify_calls (param_set s) (hf_of (param_set s)) pk (dec_sig (param_set s) sig) mp.
Proof.
  intros C. pose proof (param_PF s) as HP.
  destruct C as [pk m sig ctx L E|pk m sig ctx ph L E|pk m sig L E]; rewrite <- param_sig in L; (split; [exact L|]).
  - destruct (N.le_gt_cases (nlen ctx) 255) as [Hc|Hc].
    + destruct (runs_verify _ HP pk m sig ctx Hc L) as [V C]. rewrite V in E. rewrite <- pure_pieces_M'.
      split; [congruence|]. exists (pure_pieces m ctx). split; [reflexivity|exact C].
    + destruct (runs_verify_long (param_set s) pk m sig ctx Hc) as [V _]. rewrite V in E. discriminate.
  - destruct (N.le_gt_cases (nlen ctx) 255) as [Hc|Hc].
    + destruct (runs_hash_verify _ HP pk m sig ctx (ph_arg ph) Hc L) as [V C]. rewrite V in E. rewrite <- hash_pieces_M'.
      split; [congruence|]. exists (hash_pieces m ctx (ph_arg ph)). split; [reflexivity|exact C].
    + destruct (runs_hash_verify_long (param_set s) pk m sig ctx (ph_arg ph) Hc) as [V _]. rewrite V in E. discriminate.
  - destruct (runs_raw_verify _ HP pk m sig L) as [V C]. rewrite V in E.
    split; [congruence|]. exists [m]. split; [apply concat1|exact C].
Qed.

Lemma fval_hash_value {T : Target} {P : Prims} s ps k a i v : wf_adrs a ->
  fval (hf_of (param_set s)) ps k a i v -> hash_value s k ps a i v.
Proof.
  intros Wa D. destruct (HASHERS_spec _ (param_PF s)) as [A B C E _ _ _].
  destruct D; constructor; [apply A|apply B|apply C|apply E]; exact Wa.
Qed.

Lemma prop_forgery_extraction :
  forall (T : Target) (P : Prims) (s : set_name) (pk : SlhPublicKey) (sk : SlhPrivateKey),
    key_pair s pk sk ->
    forall (M' sig : bytes) (t : list event), accepting_run s pk M' sig t ->
    let R := block s sig 0 in
    let signing := sign_with_randomizer s R M' sk in
    let owner := trace (keygen_with_seeds (param_set s) (sk_seed sk) (sk_prf sk) (sk_pk_seed sk)) ++ trace signing in
    exists sg gen,
      (** [gen] is the owner's signature of M' with the same randomizer *)
      result signing = Val sg /\ result (serialize (param_set s) sg) = Val gen /\
      block s gen 0 = R /\ result (raw_verify (param_set s) pk M' gen) = Val true /\
      (forall issued t', signing_run s sk M' issued t' -> block s issued 0 = R -> issued = gen) /\
      (sig = gen \/ second_preimage s t owner \/ earlier_chain_value s pk t M' sig gen).
Proof.
  intros T P s pk sk K M' sig t A R signing owner.
  pose proof (param_PF s) as HP. destruct (key_pair_facts _ _ _ K) as [W [Cs ->]].
  destruct W as [W1 [W2 [W3 W4]]].
  set (p := param_set s) in *. set (hf := hf_of p).
  pose proof (HASHERS_spec p HP) as HS. fold hf in HS. pose proof (HASHERS_len p HP) as HL. fold hf in HL.
  destruct (accepting_shape _ _ _ _ _ A) as [Ls [Va [mp [Emp Ct]]]]. fold p in Ls, Va, Ct. fold hf in Va, Ct.
  assert (Ln : nblocks p * cN p = nlen sig) by (rewrite Ls; symmetry; apply sig_len_blocks; exact HP).
  assert (LR : nlen R = cN p).
  { unfold R, block. rewrite <- param_n. fold p. apply (nlen_blk (cN p) sig 0 (nblocks p)); [lia|].
    unfold nblocks, ho. lia. }
  assert (ER : randomness (dec_sig p sig) = R).
  { unfold R, block. rewrite <- param_n. reflexivity. }
  pose proof (wf_dec_sig p HP sig Ls) as Wd.
  set (dg := H_msg hf R (sk_pk_seed sk) (sk_pk_root sk) M').
  assert (Ldg : nlen dg = cM p) by apply (len_Hmsg _ _ _ HL).
  (* the owner's signature *)
  set (sg := mkSlhDsaSig R (sig_fors_of p hf (sk_pk_seed sk) (sk_seed sk) dg)
                           (sig_ht_of p hf (sk_pk_seed sk) (sk_seed sk) dg)).
  assert (Wsg : wf_sig_n p sg) by (apply (wf_n_of p hf HL); exact LR).
  destruct (runs_slh_sign_internal p HP _ _ (fixed_spec hf R _ HS) (fixed_len hf R _ _ LR HL) [M'] sk []
              W2 ltac:(discriminate)) as [Sr Sc].
  rewrite concat1, fixed_sign in Sr. cbv zeta in Sr. fold dg in Sr. fold sg in Sr.
  unfold sign_calls in Sc. cbv zeta in Sc. rewrite concat1, fixed_tail in Sc.
  change (sign_digest (fixed_fns hf R) sk [] M') with dg in Sc.
  change (slh_sign_internal p (fixed_randomizer R (HASHERS p)) [M'] sk []) with signing in Sr, Sc.
  destruct (runs_serialize p HP sg Wsg) as [Er _].
  assert (Lg : nlen (enc_sig p sg) = cSIG_LEN p) by (apply nlen_enc_sig; assumption).
  assert (B0 : block s (enc_sig p sg) 0 = R).
  { unfold p in *. rewrite block_enc; [reflexivity|exact Wsg|]. unfold nblocks, ho. lia. }
  exists sg, (enc_sig p sg). split; [exact Sr|]. split; [exact Er|]. split; [exact B0|]. split; [|split].
  - destruct (runs_raw_verify p HP (get_public_key sk) M' (enc_sig p sg) Lg) as [V _]. etransitivity; [exact V|].
    apply f_equal. rewrite dec_enc by assumption. fold hf. unfold verify_val. apply bytes_eqb_eq.
    change (verify_digest hf (get_public_key sk) sg M') with dg.
    etransitivity; [exact (vroot_honest p HP hf (sk_pk_seed sk) (sk_seed sk) R dg)|symmetry; exact Cs].
  - intros issued t' Sg Bi. destruct (signing_shape _ _ _ _ _ Sg) as [r [g [mq [hd [b [Em [-> _]]]]]]].
    fold p. unfold sign_bytes. fold hf. pose proof (wf_n_sign_val p HP sk b M') as Wi. fold hf in Wi.
    assert (Ri : sign_R hf sk b M' = R).
    { rewrite <- Bi. unfold sign_bytes. unfold p in *. rewrite block_enc; [reflexivity|exact Wi|].
      unfold nblocks, ho. lia. }
    apply f_equal. unfold sign_val, sign_digest. rewrite Ri. reflexivity.
  - unfold verify_val in Va. apply bytes_eqb_eq in Va.
    assert (Ed : verify_digest hf (get_public_key sk) (dec_sig p sig) M' = dg).
    { unfold verify_digest. rewrite ER. reflexivity. }
    rewrite Ed in Va. cbn [get_public_key pk_seed pk_root] in Va. rewrite Cs in Va. fold hf in Va.
    destruct (runs_keygen_with_seeds p HP (sk_seed sk) (sk_prf sk) (sk_pk_seed sk) W1 W2 W3) as [_ Ck].
    fold hf in Ck.
    destruct (vroot_back p HP hf HL (sk_pk_seed sk) (sk_seed sk) (fun e => In e t) (fun e => In e owner) dg
                (dec_sig p sig) Ldg Wd) as [[Ef Eh]|[C|C]].
    + rewrite Forall_forall. intros e He. apply (filter_In is_call). unfold calls in Ct. rewrite Ct.
      unfold verify_calls. right. rewrite Emp, Ed. exact He.
    + rewrite Forall_forall. intros e He. unfold owner. apply in_or_app. left. apply (filter_In is_call).
      unfold calls in Ck. rewrite Ck. do 3 right. exact He.
    + rewrite Forall_forall. intros e He. unfold owner. apply in_or_app. right. apply (filter_In is_call).
      unfold calls in Sc. rewrite Sc. do 2 right. exact He.
    + exact Va.
    + left. rewrite <- (enc_dec p HP sig Ls). apply f_equal. unfold sg. rewrite <- Ef, <- Eh, <- ER.
      destruct (dec_sig p sig) as [x y z]. reflexivity.
    + right. left. destruct C as [k [a [i1 [i2 [v [Wa [I1 [I2 [Ne [Lm [F1 F2]]]]]]]]]]].
      exists k, (sk_pk_seed sk), a, i1, i2, v. split; [exact Wa|]. repeat (split; [assumption|]).
      split; apply fval_hash_value; assumption.
    + right. right. destruct C as [j [i [Hj [Hi [Lt [Le [In1 Ev]]]]]]].
      set (l := N.of_nat j) in *.
      assert (Hl : l < cD p) by (unfold l; lia).
      assert (Ej : N.to_nat l = j) by (unfold l; lia).
      set (b := wdig p _ i) in Lt, In1, Ev. set (e := wdig p _ i) in Lt, Le.
      set (tr := tree_at p (dg_tree p dg) j) in *. set (kp := leaf_at p (dg_tree p dg) (dg_leaf p dg) j) in *.
      assert (Hblk : ho p + l * hb p + i < nblocks p) by (apply ht_block_lt; [exact Hl|unfold hb; lia]).
      assert (EB : chain_block s l i = ho p + l * hb p + i).
      { unfold chain_block, ho, hb, fb, cLEN. unfold p. destruct s; reflexivity. }
      assert (E1 : nth (N.to_nat i) (sig_wots (nth j (ht_sig (dec_sig p sig)) (mkXmssSig [] []))) []
                   = block s sig (chain_block s l i)).
      { rewrite EB. unfold dec_sig. cbn [ht_sig]. rewrite <- Ej. rewrite nth_map_nrange by exact Hl.
        cbn [sig_wots]. rewrite nth_map_nrange by exact Hi. unfold block. rewrite <- param_n. reflexivity. }
      assert (E2 : block s (enc_sig p sg) (chain_block s l i) = wval hf (sk_pk_seed sk) (sk_seed sk) l tr kp i e).
      { rewrite EB. etransitivity; [exact (block_enc s sg _ Wsg Hblk)|]. change (param_set s) with p.
        rewrite sigB_wots by assumption. unfold sg. cbn [ht_sig]. rewrite Ej. unfold sig_ht_of.
        rewrite nth_hsig by lia. unfold hsig_at, xsig. cbn [sig_wots]. unfold wsig.
        rewrite nth_map_nrange by exact Hi. reflexivity. }
      rewrite E1 in In1, Ev.
      exists l, i, b, (e - b).
      split; [unfold p in Hl; destruct s; exact Hl|].
      split; [rewrite <- param_n; exact Hi|]. split; [lia|]. split; [lia|].
      assert (EP : sig_position s (get_public_key sk) M' sig l = (tr, kp)).
      { unfold sig_position, sig_digest. cbn [get_public_key pk_seed pk_root]. rewrite <- param_hf, <- param_fips.
        fold hf. fold R. fold dg. rewrite (split_digest_eq p HP) by exact Ldg. unfold tr, kp. rewrite <- Ej.
        f_equal; [apply path_tree_at|apply path_leaf_at]. }
      rewrite EP. cbv zeta. cbn [get_public_key pk_seed].
      assert (EA : chain_address l tr kp i = adr l tr 0 kp i 0).
      { unfold chain_address. rewrite adr_default, adr_layer, adr_tree, adr_type, adr_kp, adr_chain. reflexivity. }
      rewrite EA. split; [rewrite adr_hash; exact In1|].
      destruct (runs_chain (HASHERS p) hf HS (sk_pk_seed sk) (block s sig (chain_block s l i)) b (e - b) l tr kp i 0
                  ltac:(lia)) as [Rc _].
      etransitivity; [exact Rc|]. apply f_equal. rewrite E2, Ev, (wval_add p). f_equal. lia.
Qed.
