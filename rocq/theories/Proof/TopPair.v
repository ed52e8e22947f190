(** C62: accepted signatures whose paths meet agree from there on; accepted signatures cannot be altered. *)
From Verif Require Import Spec.Fips205 Spec.Fips205Hash.
From Verif Require Import Model.Api Proof.Facts Proof.HelpersP Proof.SpecP Proof.HashP Proof.Fun Proof.WotsP Proof.SlhP Proof.SerP Proof.ApiP
  Proof.SpecFun Spec.Vocab Proof.Summary Proof.CallsP Proof.TopCorrect Proof.TopSer Proof.Honest Proof.PosP Proof.TopTrace Proof.TopFraming
  Proof.TopFips Proof.TopPath Proof.TopWots Proof.Forge Spec.VocabForge Spec.VocabPublic Proof.TopForge Proof.Bind Proof.Pair Proof.TopBind Proof.TopLeak.
Import ListNotations.
Open Scope list_scope.
Open Scope N_scope.

Section Signed.
Context {P : Prims} (s : set_name) (pk : SlhPublicKey).
Notation p := (param_set s).
Notation hf := (hf_of (param_set s)).

Definition hsigs (sig : bytes) (j : nat) : XmssSig := nth j (ht_sig (dec_sig p sig)) (mkXmssSig [] []).
Definition afpk (M sig : bytes) : bytes :=
  fpk p hf (pk_seed pk) (dg_tree p (adg s pk M sig)) (dg_leaf p (adg s pk M sig)) (fors_sig (dec_sig p sig)) (dg_md p (adg s pk M sig)).
Definition ahval (M sig : bytes) (j : nat) : bytes :=
  hval p hf (pk_seed pk) (dg_tree p (adg s pk M sig)) (dg_leaf p (adg s pk M sig)) (hsigs sig) (afpk M sig) j.

(** the values a verifier recomputes, for any public key and any byte string of the right length *)
Lemma signed_hval M sig : nlen sig = cSIG_LEN p -> forall j, (j <= N.to_nat (cD p))%nat ->
  signed_value s pk M sig j = ahval M sig j.
Proof.
  intros Ls. pose proof (param_PF s) as HP. pose proof (HASHERS_len p HP) as HL.
  pose proof (wf_dec_sig p HP sig Ls) as W.
  pose proof (adigest_eq s pk M sig) as SD. pose proof (adg_len s pk M sig) as Hdg.
  unfold ahval, afpk. set (dg := adg s pk M sig) in *.
  pose proof (dg_tree_lt p HP dg) as Ht. pose proof (dg_leaf_lt p dg) as Hlf.
  pose proof (dg_leaf_u32 p HP dg) as Hl. pose proof (md_bits p HP dg Hdg) as Hmd.
  induction j as [|j IH]; intros Hj; cbn [signed_value hval].
  - unfold recovered_fors_key. rewrite SD. cbv zeta.
    rewrite zero_fl, setTree_fl, setType_fl, setKP_fl. change Fips205.FORS_TREE with 3.
    rewrite <- param_fips, <- param_hf.
    replace (t_n (table2 s)) with (cN p) by (first [apply param_n|symmetry; apply param_n]).
    replace (t_k (table2 s)) with (cK p) by (first [apply param_k|symmetry; apply param_k]). replace (t_a (table2 s)) with (cA p) by (first [apply param_a|symmetry; apply param_a]).
    apply fors_pkFromSig_eq; [exact HP|exact Ht|lia|exact Hmd|]. exact (fsig_is_dec p sig).
  - unfold sig_position. rewrite SD. rewrite path_tree_at, path_leaf_at.
    rewrite Nnat.Nat2N.id. rewrite zero_fl, setLayer_fl, setTree_fl. rewrite IH by lia.
    rewrite <- param_fips, <- param_hf.
    pose proof (tree_at_le p (dg_tree p dg) j) as Hle.
    apply xmss_pkFromSig_eq; [exact HP|lia|apply leaf_at_lt; exact Hlf| |].
    + apply (nlen_hval p hf HL). apply (len_T _ _ _ HL).
    + pose proof (layer_sig_is s (dec_sig p sig) (N.of_nat j) W ltac:(lia)) as X. rewrite Nnat.Nat2N.id in X.
      rewrite (enc_dec p HP sig Ls) in X. exact X.
Qed.
End Signed.

Lemma clash_second {T : Target} {P : Prims} s ps t1 t2 :
  clash (hf_of (param_set s)) ps (fun e => In e t1) (fun e => In e t2) -> second_preimage s t1 t2.
Proof.
  intros (k & a & i1 & i2 & v & Wa & I1 & I2 & Ne & Lm & F1 & F2).
  exists k, ps, a, i1, i2, v. split; [exact Wa|]. repeat (split; [assumption|]). split; apply fval_hash_value; assumption.
Qed.

Section Two.
Context {T : Target} {P : Prims} (s : set_name) (pk : SlhPublicKey) (M1 M2 sig1 sig2 : bytes) (t1 t2 : list event).
Context (A1 : accepting_run s pk M1 sig1 t1) (A2 : accepting_run s pk M2 sig2 t2).
Notation p := (param_set s).
Notation hf := (hf_of (param_set s)).
Notation dg1 := (adg s pk M1 sig1).
Notation dg2 := (adg s pk M2 sig2).

Lemma acc_shape M sig t (A : accepting_run s pk M sig t) :
  nlen sig = cSIG_LEN p /\
  ahval s pk M sig (N.to_nat (cD p)) = pk_root pk /\
  Forall (fun e => In e t) (vrootC p hf (pk_seed pk) (adg s pk M sig) (dec_sig p sig)).
Proof.
  destruct (accepting_shape _ _ _ _ _ A) as [Ls [Va [mp [Emp Ct]]]]. split; [exact Ls|].
  unfold verify_val in Va. apply bytes_eqb_eq in Va. rewrite vdigest_eq in Va. split; [exact Va|].
  rewrite Forall_forall. intros e He. apply (filter_In is_call). unfold calls in Ct. rewrite Ct.
  unfold verify_calls. right. rewrite Emp, vdigest_eq. exact He.
Qed.

Lemma shaped_dec sig j : nlen sig = cSIG_LEN p -> (j < N.to_nat (cD p))%nat -> shaped p (hsigs s sig j).
Proof.
  intros Ls Hj. destruct (wf_dec_sig p (param_PF s) sig Ls) as [[W1 [W2 [W3 [W4 W5]]]] [R [P1 [P2 P3]]]].
  assert (Hjn : N.of_nat j < nlen (ht_sig (dec_sig p sig))) by (rewrite W4; lia).
  pose proof (Forall_nth_N p _ _ _ (mkXmssSig [] []) W5 Hjn) as [X1 X2].
  pose proof (Forall_nth_N p _ _ _ (mkXmssSig [] []) P3 Hjn) as [X3 X4].
  rewrite Nnat.Nat2N.id in X1, X2, X3, X4. repeat split; assumption.
Qed.

Lemma step_earlier i : (i < N.to_nat (cD p))%nat ->
  step_at p hf (pk_seed pk) (fun e => In e t1) (N.of_nat i) (tree_at p (dg_tree p dg1) i)
    (leaf_at p (dg_tree p dg1) (dg_leaf p dg1) i) (sig_wots (hsigs s sig1 i)) (sig_wots (hsigs s sig2 i))
    (ahval s pk M1 sig1 i) ->
  earlier_chain_value s pk t1 M1 sig1 sig2.
Proof.
  intros Hj [k [c [Hi [Hc [Le [In1 Ev]]]]]]. pose proof (HASHERS_spec p (param_PF s)) as HS.
  set (l := N.of_nat i) in *. rename i into j. rename k into i.
  assert (Hl : l < cD p) by (unfold l; lia).
  assert (Ej : N.to_nat l = j) by (unfold l; lia).
  set (b := wdig p _ i) in Le, In1, Ev.
  set (tr := tree_at p (dg_tree p dg1) j) in *. set (kp := leaf_at p (dg_tree p dg1) (dg_leaf p dg1) j) in *.
  assert (EB : chain_block s l i = ho p + l * hb p + i).
  { unfold chain_block, ho, hb, fb, cLEN. destruct s; reflexivity. }
  assert (E1 : forall sig, nth (N.to_nat i) (sig_wots (hsigs s sig j)) [] = block s sig (chain_block s l i)).
  { intros sig. rewrite EB. unfold hsigs, dec_sig. cbn [ht_sig]. rewrite <- Ej. rewrite nth_map_nrange by exact Hl.
    cbn [sig_wots]. rewrite nth_map_nrange by exact Hi. unfold block. rewrite <- param_n. reflexivity. }
  rewrite !E1 in Ev. rewrite E1 in In1.
  exists l, i, b, c.
  split; [destruct s; exact Hl|].
  split; [rewrite <- param_n; exact Hi|]. split; [exact Hc|]. split; [exact Le|].
  assert (EP : sig_position s pk M1 sig1 l = (tr, kp)).
  { unfold sig_position. rewrite adigest_eq. unfold tr, kp. rewrite <- Ej.
    f_equal; [apply path_tree_at|apply path_leaf_at]. }
  rewrite EP. cbv zeta.
  assert (EA : chain_address l tr kp i = adr l tr 0 kp i 0).
  { unfold chain_address. rewrite adr_default, adr_layer, adr_tree, adr_type, adr_kp, adr_chain. reflexivity. }
  rewrite EA. split; [rewrite adr_hash; exact In1|].
  destruct (runs_chain (HASHERS p) hf HS (pk_seed pk) (block s sig1 (chain_block s l i)) b c l tr kp i 0
              ltac:(lia)) as [Rc _].
  etransitivity; [exact Rc|]. apply f_equal. exact Ev.
Qed.

Lemma meet lo : (lo < N.to_nat (cD p))%nat ->
  sig_position s pk M1 sig1 (N.of_nat lo) = sig_position s pk M2 sig2 (N.of_nat lo) ->
  (forall i, (lo <= i <= N.to_nat (cD p))%nat -> ahval s pk M1 sig1 i = ahval s pk M2 sig2 i /\
     ((i < N.to_nat (cD p))%nat -> hsigs s sig1 i = hsigs s sig2 i)) \/
  second_preimage s t1 t2 \/ earlier_chain_value s pk t1 M1 sig1 sig2.
Proof.
  intros Hlo Ep. pose proof (param_PF s) as HP. pose proof (HASHERS_len p HP) as HL.
  destruct (acc_shape _ _ _ A1) as [Ls1 [V1 F1]]. destruct (acc_shape _ _ _ A2) as [Ls2 [V2 F2]].
  unfold sig_position in Ep. rewrite !adigest_eq in Ep. rewrite !path_tree_at, !path_leaf_at, Nnat.Nat2N.id in Ep.
  apply (f_equal fst) in Ep as Et. apply (f_equal snd) in Ep as El. cbn [fst snd] in Et, El. clear Ep.
  unfold vrootC in F1, F2. apply Forall_app in F1. destruct F1 as [_ F1]. apply Forall_app in F2. destruct F2 as [_ F2].
  assert (Up : forall j, (lo <= j)%nat -> tree_at p (dg_tree p dg1) j = tree_at p (dg_tree p dg2) j /\
             leaf_at p (dg_tree p dg1) (dg_leaf p dg1) j = leaf_at p (dg_tree p dg2) (dg_leaf p dg2) j).
  { induction j as [|j IH]; intros Hj.
    - assert (Z : lo = 0%nat) by (clear - Hj; lia). rewrite <- Z. split; assumption.
    - destruct (Nat.eq_dec lo (S j)) as [Ej|Nj]; [rewrite <- Ej; split; assumption|].
      destruct (IH ltac:(lia)) as [I1 _]. rewrite <- !tree_at_S. cbn [leaf_at]. rewrite I1. split; reflexivity. }
  destruct (hval_pair p HP hf HL (pk_seed pk) (fun e => In e t1) (fun e => In e t2) (dg_tree p dg1) (dg_leaf p dg1)
              (dg_tree p dg2) (dg_leaf p dg2) (hsigs s sig1) (hsigs s sig2) (afpk s pk M1 sig1) (afpk s pk M2 sig2) lo)
    with (j := N.to_nat (cD p)) as [A|[C|[i [Hi C]]]].
  - apply (len_T _ _ _ HL).
  - apply (len_T _ _ _ HL).
  - intros j Hj. destruct (Up j ltac:(lia)) as [U1 U2].
    assert (Hj2 : (j < N.to_nat (cD (param_set s)))%nat) by apply Hj.
    refine (conj (shaped_dec sig1 j Ls1 Hj2) (conj (shaped_dec sig2 j Ls2 Hj2) (conj U1 (conj U2 (conj _ _))))).
    + rewrite Forall_forall in F1 |- *. intros e He. apply F1, in_flat_map. exists j. split; [apply in_seq; lia|exact He].
    + rewrite Forall_forall in F2 |- *. intros e He. apply F2, in_flat_map. exists j. split; [apply in_seq; lia|exact He].
  - lia.
  - etransitivity; [exact V1|symmetry; exact V2].
  - left. exact A.
  - right. left. apply (clash_second s (pk_seed pk)). exact C.
  - right. right. apply (step_earlier i); [lia|exact C].
Qed.
End Two.

Lemma prop_accepted_signatures_agree :
  forall (T : Target) (P : Prims) (s : set_name) (pk : SlhPublicKey) (M1 M2 sig1 sig2 : bytes) (t1 t2 : list event),
    accepting_run s pk M1 sig1 t1 -> accepting_run s pk M2 sig2 t2 ->
    (** one-time keys: if both signatures use the same one-time key in layer l, then from there on they
        are the same and sign the same values, or a hash function is broken *)
    (forall l, l < t_d (table2 s) -> sig_position s pk M1 sig1 l = sig_position s pk M2 sig2 l ->
       (forall j, l <= j < t_d (table2 s) ->
          layer_bytes s sig1 j = layer_bytes s sig2 j /\
          signed_value s pk M1 sig1 (N.to_nat j) = signed_value s pk M2 sig2 (N.to_nat j)) \/
       second_preimage s t1 t2 \/ earlier_chain_value s pk t1 M1 sig1 sig2) /\
    (** two signatures of one message with the same randomizer are equal, or a hash function is broken *)
    (M1 = M2 -> block s sig1 0 = block s sig2 0 ->
       sig1 = sig2 \/ second_preimage s t1 t2 \/ earlier_chain_value s pk t1 M1 sig1 sig2).
Proof.
  intros T P s pk M1 M2 sig1 sig2 t1 t2 A1 A2. pose proof (param_PF s) as HP.
  pose proof (HASHERS_len (param_set s) HP) as HL.
  destruct (acc_shape _ _ _ _ _ A1) as [Ls1 [_ F1]]. destruct (acc_shape _ _ _ _ _ A2) as [Ls2 [_ F2]].
  pose proof (wf_dec_sig _ HP sig1 Ls1) as W1. pose proof (wf_dec_sig _ HP sig2 Ls2) as W2.
  split.
  - intros l Hl Ep. rewrite <- param_d in *.
    destruct (meet s pk M1 M2 sig1 sig2 t1 t2 A1 A2 (N.to_nat l)) as [A|R]; [lia|rewrite Nnat.N2Nat.id; exact Ep| |right; exact R].
    left. intros j Hj. destruct (A (N.to_nat j) ltac:(lia)) as [E1 E2]. specialize (E2 ltac:(lia)). split.
    + rewrite <- (enc_dec _ HP sig1 Ls1), <- (enc_dec _ HP sig2 Ls2). apply layer_of_enc; [assumption..|lia|exact E2].
    + rewrite (signed_hval s pk M1 sig1 Ls1), (signed_hval s pk M2 sig2 Ls2) by lia. exact E1.
  - intros <- ER.
    assert (Ed : adg s pk M1 sig1 = adg s pk M1 sig2) by (unfold adg; rewrite ER; reflexivity).
    assert (HD : (0 < N.to_nat (cD (param_set s)))%nat) by (pose proof (pf_d _ HP); lia).
    destruct (meet s pk M1 M1 sig1 sig2 t1 t2 A1 A2 0) as [A|R]; [exact HD| | |right; exact R].
    { unfold sig_position. rewrite !adigest_eq, Ed. reflexivity. }
    destruct (A 0%nat ltac:(lia)) as [E0 _]. unfold ahval in E0. cbn [hval] in E0. unfold afpk in E0. rewrite <- Ed in E0.
    unfold vrootC in F1, F2. rewrite <- Ed in F2. apply Forall_app in F1. destruct F1 as [F1 _]. apply Forall_app in F2. destruct F2 as [F2 _].
    destruct W1 as [[W11 [W12 [W13 [W14 W15]]]] [R1 [P11 [P12 P13]]]].
    destruct W2 as [[W21 [W22 [W23 [W24 W25]]]] [R2 [P21 [P22 P23]]]].
    destruct (fpk_pair (param_set s) (hf_of (param_set s)) HL (pk_seed pk) (fun e => In e t1) (fun e => In e t2)
                (dg_tree (param_set s) (adg s pk M1 sig1)) (dg_leaf (param_set s) (adg s pk M1 sig1))
                (fors_sig (dec_sig (param_set s) sig1)) (fors_sig (dec_sig (param_set s) sig2))
                (dg_md (param_set s) (adg s pk M1 sig1))) as [Ef|C];
      [repeat split; assumption|repeat split; assumption|exact F1|exact F2|exact E0| |right; left; apply (clash_second s (pk_seed pk)); exact C].
    left. rewrite <- (enc_dec _ HP sig1 Ls1), <- (enc_dec _ HP sig2 Ls2). apply f_equal.
    assert (Er : randomness (dec_sig (param_set s) sig1) = randomness (dec_sig (param_set s) sig2)).
    { unfold block in ER. rewrite <- param_n in ER. exact ER. }
    assert (Eh : ht_sig (dec_sig (param_set s) sig1) = ht_sig (dec_sig (param_set s) sig2)).
    { apply (nth_ext _ _ (mkXmssSig [] []) (mkXmssSig [] [])).
      - unfold nlen in W14, W24. apply Nnat.Nat2N.inj. rewrite W14, W24. reflexivity.
      - intros i Hi. apply (A i); unfold nlen in W14; lia. }
    destruct (dec_sig (param_set s) sig1) as [r1 f1 h1], (dec_sig (param_set s) sig2) as [r2 f2 h2].
    cbn [randomness fors_sig ht_sig] in *. subst. reflexivity.
Qed.
