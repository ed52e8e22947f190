(** Leakage of signing: two runs, possibly with different hash functions, keys, messages of the same
    length and randomness, in which the message digests and the values signed by the hypertree layers agree. *)
From Coq Require Import String.
From Verif Require Import Spec.Fips205 Spec.Fips205Hash.
From Verif Require Import Model.Api Proof.Runs Proof.HelpersP Proof.Facts Proof.HashP Proof.Fun Proof.WotsP Proof.XmssP Proof.HtP
  Proof.SlhP Proof.SerP Proof.ApiP Spec.Vocab Proof.Summary Proof.TopSer Spec.VocabLeak Proof.Low Proof.LowHash Proof.LowTree.
Import ListNotations.
Open Scope list_scope.
Open Scope N_scope.

Lemma low_upd_rx (l1 l2 : list XmssSig) i v1 v2 : Forall2 RX l1 l2 -> RX v1 v2 ->
  low (Forall2 RX) (upd l1 i v1) (upd l2 i v2).
Proof.
  intros F Ev. assert (E3 : nlen l1 = nlen l2) by (clear - F; induction F; [reflexivity|rewrite !nlen_cons; congruence]).
  unfold upd. apply low_tick; [cbn; rewrite E3; reflexivity|]. rewrite E3.
  destruct (i <? nlen l2); [|apply low_panic]. apply low_ret. unfold upd_list.
  generalize (N.to_nat i) as k. clear - F Ev. induction F as [|x y l1 l2 Hxy F IH]; intros [|k].
  - constructor; [exact Ev|constructor].
  - constructor; [exact Ev|constructor].
  - constructor; [exact Ev|exact F].
  - cbn [firstn skipn app]. constructor; [exact Hxy|apply IH].
Qed.

Section LowSign.
Context {T : Target} {P1 P2 : Prims} (p : Params) (HP : PF p).
Let hf1 := hf_of (PR := P1) p.
Let hf2 := hf_of (PR := P2) p.
Let hs1 := HASHERS (P := P1) p.
Let hs2 := HASHERS (P := P2) p.
Let HS1 : HSpec hs1 hf1 := HASHERS_spec p HP.
Let HS2 : HSpec hs2 hf2 := HASHERS_spec p HP.
Let HL1 : HLen (cN p) (cM p) hf1 := HASHERS_len p HP.
Let HL2 : HLen (cN p) (cM p) hf2 := HASHERS_len p HP.
Let HW : HLow hs1 hs2 := HASHERS_low p.

Section Ht.
Context (ps1 ps2 ss1 ss2 m : bytes) (t0 l0 : N).
Hypothesis Es : nlen ss1 = nlen ss2.
Hypothesis Ep : nlen ps1 = nlen ps2.
Hypothesis Hm : nlen m = cN p.
Hypothesis Ht : t0 < 18446744073709551616.
Hypothesis Hl : l0 < 2 ^ cHP p.
Hypothesis EQ : forall j, (j < N.to_nat (cD p))%nat -> hmsg p hf1 ps1 ss1 t0 l0 m j = hmsg p hf2 ps2 ss2 t0 l0 m j.

Definition RH (j : N) (u v : list XmssSig * bytes * Adrs * N) : Prop :=
  let '(s1, r1, a1, i1) := u in
  let '(s2, r2, a2, i2) := v in
  Forall2 RX s1 s2 /\ r1 = hmsg p hf1 ps1 ss1 t0 l0 m (N.to_nat (N.min j (cD p - 1))) /\
  (1 < cD p -> r2 = r1) /\
  a1 = adr (j - 1) (tree_at p t0 (N.to_nat (j - 1))) 0 0 0 0 /\ a2 = a1 /\
  i1 = tree_at p t0 (N.to_nat (j - 1)) /\ i2 = i1.

Lemma low_xsig l t idx x : idx < 2 ^ cHP p -> nlen x = cN p ->
  low (fun u v => (u = xsig p hf1 ps1 ss1 l t idx x /\ v = xsig p hf2 ps2 ss2 l t idx x) /\ RX u v)
    (xmss_sign p hs1 x ss1 idx ps1 (adr l t 0 0 0 0)) (xmss_sign p hs2 x ss2 idx ps2 (adr l t 0 0 0 0)).
Proof.
  intros Hi Hx. pose proof (low_xmss_sign p hs1 hs2 HW x ss1 ss2 idx ps1 ps2 (adr l t 0 0 0 0) Es Ep) as L.
  apply low_and; [|exact L]. eapply low_runs; [exact L| |].
  - apply (runs_xmss_sign p HP hs1 hf1 HS1); assumption.
  - apply (runs_xmss_sign p HP hs2 hf2 HS2); assumption.
Qed.

Lemma low_xpk l t idx x : idx < 2 ^ cHP p -> nlen x = cN p ->
  RX (xsig p hf1 ps1 ss1 l t idx x) (xsig p hf2 ps2 ss2 l t idx x) ->
  low (fun u v => u = xpk p hf1 ps1 l t idx (xsig p hf1 ps1 ss1 l t idx x) x /\
                  v = xpk p hf2 ps2 l t idx (xsig p hf2 ps2 ss2 l t idx x) x)
    (xmss_pk_from_sig p hs1 idx (xsig p hf1 ps1 ss1 l t idx x) x ps1 (adr l t 0 0 0 0))
    (xmss_pk_from_sig p hs2 idx (xsig p hf2 ps2 ss2 l t idx x) x ps2 (adr l t 0 0 0 0)).
Proof.
  intros Hi Hx Ex. eapply low_runs; [apply (low_xmss_pk_from_sig p hs1 hs2 HW); [exact Ex|exact Ep]| |].
  - apply (runs_xmss_pk_from_sig p HP hs1 hf1 HS1); [exact Hi|exact Hx|apply nlen_wsig|apply nlen_xauth].
  - apply (runs_xmss_pk_from_sig p HP hs2 hf2 HS2); [exact Hi|exact Hx|apply nlen_wsig|apply nlen_xauth].
Qed.

Lemma low_ht_sign : low (Forall2 RX) (ht_sign p hs1 m ss1 ps1 t0 l0) (ht_sign p hs2 m ss2 ps2 t0 l0).
Proof.
  pose proof (pf_d p HP) as Hd. pose proof (pf_hp p HP) as Hhp.
  pose proof (pow2_le9 (cHP p) ltac:(lia)) as H512.
  unfold ht_sign. rewrite !try_u32 by lia. rewrite !bind_ret_l. cbv zeta. adrs_norm.
  eapply low_bind; [apply low_xsig; assumption|]. intros x y [[-> ->] Ex].
  eapply low_bind; [apply low_upd_rx; [|exact Ex]|].
  { unfold zero_ht_sig. set (z := zero_xmss_sig p). generalize (cD p) as k. intros k. unfold nrepeat.
    induction (N.to_nat k) as [|k' IH]; cbn [repeat]; constructor; [split; reflexivity|exact IH]. }
  intros st1 st2 Est.
  eapply low_bind; [apply low_xpk; [exact Hl|exact Hm|exact Ex]|].
  intros x y [-> ->].
  apply (low_bind (RH (cD p))).
  2:{ intros [[[? ?] ?] ?] [[[? ?] ?] ?] (A & _). apply low_ret. exact A. }
  apply (low_for_range_i RH); [lia| |].
  - intros j [[[s1 r1] a1] i1] [[[s2 r2] a2] i2] Hj (Q1 & Q2 & Q3 & -> & -> & -> & ->).
    rewrite Q3 by lia. clear Q3.
    destruct (N.to_nat j) as [|j'] eqn:Ej; [lia|].
    assert (Ejn : j = N.of_nat (S j')) by lia.
    replace (N.to_nat (j - 1)) with j' by lia.
    rewrite !shl_u64 by lia. rewrite !bind_ret_l. rewrite !N.mul_1_l.
    rewrite !sub_ok by (rewrite N.mod_small by lia; pose proof (pow2_nz (cHP p)); lia).
    rewrite !bind_ret_l.
    pose proof (tree_at_le p t0 j') as Hle.
    rewrite !(hp_mask p HP) by lia.
    pose proof (N.mod_lt (tree_at p t0 j') (2 ^ cHP p) (pow2_nz _)) as Hml.
    apply low_branch.
    replace (tree_at p t0 j' mod 2 ^ cHP p <? 2 ^ 32) with true
      by (symmetry; apply N.ltb_lt; change (2 ^ 32) with 4294967296; lia).
    rewrite !bind_ret_l.
    rewrite !shr_u64 by lia. rewrite !bind_ret_l. rewrite !tree_at_S. adrs_norm.
    rewrite N.min_l in Q2 by lia. rewrite Ej in Q2.
    assert (Hr : nlen r1 = cN p) by (rewrite Q2; apply nlen_hmsg; assumption).
    eapply low_bind; [apply low_xsig; [exact Hml|exact Hr]|]. intros x y [[-> ->] Ex'].
    eapply low_bind; [apply low_upd_rx; [exact Q1|exact Ex']|]. intros u1 u2 Eu.
    rewrite !sub_ok by lia. rewrite !bind_ret_l. apply low_branch.
    destruct (N.ltb_spec j (cD p - 1)) as [C|C].
    + pose proof (EQ (S (S j')) ltac:(lia)) as E2. pose proof (EQ (S j') ltac:(lia)) as E1.
      eapply low_bind; [apply low_xpk; [exact Hml|exact Hr|exact Ex']|].
      intros x y [-> ->]. apply low_ret. unfold RH. rewrite N.min_l by lia. replace (j + 1 - 1) with j by lia. rewrite Ej.
      replace (N.to_nat (j + 1)) with (S (S j')) by lia.
      change (hmsg p hf1 ps1 ss1 t0 l0 m (S (S j'))) with
          (let x := hmsg p hf1 ps1 ss1 t0 l0 m (S j') in
            xpk p hf1 ps1 (N.of_nat (S j')) (tree_at p t0 (S j')) (leaf_at p t0 l0 (S j'))
                (xsig p hf1 ps1 ss1 (N.of_nat (S j')) (tree_at p t0 (S j')) (leaf_at p t0 l0 (S j')) x) x) in E2 |- *.
      change (hmsg p hf2 ps2 ss2 t0 l0 m (S (S j'))) with
          (let x := hmsg p hf2 ps2 ss2 t0 l0 m (S j') in
            xpk p hf2 ps2 (N.of_nat (S j')) (tree_at p t0 (S j')) (leaf_at p t0 l0 (S j'))
                (xsig p hf2 ps2 ss2 (N.of_nat (S j')) (tree_at p t0 (S j')) (leaf_at p t0 l0 (S j')) x) x) in E2.
      cbv zeta in E2 |- *. rewrite <- E1, <- Q2, <- Ejn in E2. rewrite <- Q2, <- Ejn.
      split; [exact Eu|]. split; [reflexivity|]. split; [intros _; symmetry; exact E2|].
      repeat (split; [reflexivity|]). reflexivity.
    + rewrite !bind_ret_l. apply low_ret. unfold RH. rewrite N.min_r by lia. replace (j + 1 - 1) with j by lia. rewrite Ej.
      replace (N.to_nat (cD p - 1)) with (S j') by lia. split; [exact Eu|]. split; [exact Q2|].
      repeat (split; [reflexivity|]). reflexivity.
  - unfold RH. split; [exact Est|]. rewrite N.min_l by lia.
    change (N.to_nat (1 - 1)) with O. rewrite tree_at_0. change (N.to_nat 1) with 1%nat. cbn [hmsg leaf_at]. rewrite tree_at_0.
    split; [reflexivity|]. split.
    { intros C. pose proof (EQ 1%nat ltac:(lia)) as E1. cbn [hmsg leaf_at] in E1. rewrite tree_at_0 in E1. symmetry. exact E1. }
    repeat split.
Qed.
End Ht.

(** the value signed by layer j, as computed by the signer *)
Definition layer_value (hf : HashFns) (sk : SlhPrivateKey) (dg : bytes) (j : nat) : bytes :=
  hmsg p hf (sk_pk_seed sk) (sk_seed sk) (dg_tree p dg) (dg_leaf p dg)
    (fpk_honest p hf (sk_pk_seed sk) (sk_seed sk) dg) j.

Lemma low_sign_internal mp1 mp2 sk1 sk2 o1 o2 :
  wf_sk p sk1 -> wf_sk p sk2 -> nlen o1 = nlen o2 -> nlen mp1 <= 5 -> lens mp1 = lens mp2 ->
  sign_digest hf1 sk1 o1 (concat mp1) = sign_digest hf2 sk2 o2 (concat mp2) ->
  (forall j, (j < N.to_nat (cD p))%nat ->
     layer_value hf1 sk1 (sign_digest hf1 sk1 o1 (concat mp1)) j =
     layer_value hf2 sk2 (sign_digest hf2 sk2 o2 (concat mp2)) j) ->
  low (fun u v => (u = sign_val p hf1 sk1 o1 (concat mp1) /\ v = sign_val p hf2 sk2 o2 (concat mp2)) /\ RS u v)
    (slh_sign_internal p hs1 mp1 sk1 o1) (slh_sign_internal p hs2 mp2 sk2 o2).
Proof.
  intros W1 W2 Eo Hmp El ED EQ. pose proof (lens_nlen _ _ El) as Emp.
  assert (B : low RS (slh_sign_internal p hs1 mp1 sk1 o1) (slh_sign_internal p hs2 mp2 sk2 o2)).
  { destruct W1 as (Wa1 & Wb1 & Wc1 & Wd1), W2 as (Wa2 & Wb2 & Wc2 & Wd2).
    pose proof (pf_d p HP) as Hd. pose proof (pf_hp p HP) as Hhp. pose proof (PF_n_range p HP) as Hn.
    assert (Hh : cH p <= 198) by (rewrite (pf_h p HP); nia).
    unfold slh_sign_internal. rewrite !try_u32 by lia. rewrite !bind_ret_l. cbv zeta.
    rewrite <- ED in EQ.
    set (dg := sign_digest hf1 sk1 o1 (concat mp1)) in *.
    assert (Hdg : nlen dg = cM p) by apply (len_Hmsg _ _ _ HL1).
    assert (E1 : nlen (sk_prf sk1) = nlen (sk_prf sk2)) by congruence.
    assert (E2 : nlen (sk_pk_seed sk1) = nlen (sk_pk_seed sk2)) by congruence.
    assert (E3 : nlen (sk_pk_root sk1) = nlen (sk_pk_root sk2)) by congruence.
    assert (E4 : nlen (sk_seed sk1) = nlen (sk_seed sk2)) by congruence.
    apply (low_bind (fun x y => (x = sign_R hf1 sk1 o1 (concat mp1) /\ y = sign_R hf2 sk2 o2 (concat mp2)) /\ nlen x = nlen y)).
    { apply low_and; [eapply low_runs|]; [apply (low_prf_msg _ _ HW); assumption| | |apply (low_prf_msg _ _ HW); assumption].
      - apply (runs_call_prf_msg hs1 hf1 HS1); lia.
      - apply (runs_call_prf_msg hs2 hf2 HS2); lia. }
    intros x y [[-> ->] ER].
    apply (low_bind (fun x y => x = dg /\ y = dg)).
    { eapply low_runs; [apply (low_h_msg _ _ HW); assumption| |].
      - apply (runs_call_h_msg hs1 hf1 HS1); lia.
      - rewrite ED. apply (runs_call_h_msg hs2 hf2 HS2); lia. }
    intros x y [-> ->].
    pose proof (dg_tree_lt p HP dg) as Hdt. pose proof (dg_leaf_lt p dg) as Hdl.
    pose proof (dg_leaf_u32 p HP dg) as Hdl2.
    assert (VD := proj1 (runs_sign_digest_split p HP dg Hdg)).
    eapply low_bind; [eapply low_runs; [apply low_refl|exact VD|exact VD]|].
    intros x y [-> ->]. cbv beta iota zeta.
    rewrite !cast_u32 by lia. rewrite !adrs_default_adr. unfold FORS_TREE. adrs_norm.
    pose proof (low_fors_sign p hs1 hs2 HW (dg_md p dg) (sk_seed sk1) (sk_seed sk2) (sk_pk_seed sk1) (sk_pk_seed sk2)
                  (adr 0 (dg_tree p dg) 3 (dg_leaf p dg) 0 0) E4 E2) as LF.
    apply (low_bind (fun x y => (x = sig_fors_of p hf1 (sk_pk_seed sk1) (sk_seed sk1) dg /\
                                 y = sig_fors_of p hf2 (sk_pk_seed sk2) (sk_seed sk2) dg) /\ RF x y)).
    { apply low_and; [|exact LF]. eapply low_runs; [exact LF| |].
      - apply (runs_fors_sign p HP hs1 hf1 HS1); [lia|apply dg_md_len; assumption].
      - apply (runs_fors_sign p HP hs2 hf2 HS2); [lia|apply dg_md_len; assumption]. }
    intros x y [[-> ->] EF].
    apply (low_bind (fun x y => x = fpk_honest p hf1 (sk_pk_seed sk1) (sk_seed sk1) dg /\
                                y = fpk_honest p hf2 (sk_pk_seed sk2) (sk_seed sk2) dg)).
    { eapply low_runs; [apply (low_fors_pk_from_sig p hs1 hs2 HW); assumption| |].
      - destruct (wf_fsig p hf1 (sk_pk_seed sk1) (sk_seed sk1) (dg_tree p dg) (dg_leaf p dg) (dg_md p dg)) as [X1 [X2 X3]].
        apply (runs_fors_pk_from_sig p HP hs1 hf1 HS1); [lia|apply dg_md_len; assumption| | |]; assumption.
      - destruct (wf_fsig p hf2 (sk_pk_seed sk2) (sk_seed sk2) (dg_tree p dg) (dg_leaf p dg) (dg_md p dg)) as [X1 [X2 X3]].
        apply (runs_fors_pk_from_sig p HP hs2 hf2 HS2); [lia|apply dg_md_len; assumption| | |]; assumption. }
    intros x y [-> ->].
    assert (E0 : fpk_honest p hf2 (sk_pk_seed sk2) (sk_seed sk2) dg = fpk_honest p hf1 (sk_pk_seed sk1) (sk_seed sk1) dg).
    { symmetry. exact (EQ O ltac:(lia)). }
    unfold layer_value in EQ. rewrite E0 in EQ |- *.
    eapply low_bind.
    { apply low_ht_sign; [exact E4|exact E2|apply nlen_fpk; assumption|exact Hdt|exact Hdl|exact EQ]. }
    intros x y EH. apply low_ret. split; [exact ER|]. split; [exact EF|exact EH]. }
  apply low_and; [|exact B]. eapply low_runs; [exact B| |].
  - apply (runs_slh_sign_internal p HP hs1 hf1 HS1 HL1); [apply W1|exact Hmp].
  - apply (runs_slh_sign_internal p HP hs2 hf2 HS2 HL2); [apply W2|rewrite <- Emp; exact Hmp].
Qed.
End LowSign.

(** equal signatures of the same message under the same public key agree on all of that *)
Section Same.
Context {P : Prims} (p : Params) (HP : PF p).
Let hf := hf_of p.

Lemma serialize_inj sk1 sk2 o1 o2 M :
  sign_bytes p sk1 o1 M = sign_bytes p sk2 o2 M -> sign_val p hf sk1 o1 M = sign_val p hf sk2 o2 M.
Proof.
  intros E. apply (enc_sig_inj p); [apply wf_n_sign_val; exact HP|apply wf_n_sign_val; exact HP|exact E].
Qed.

End Same.
