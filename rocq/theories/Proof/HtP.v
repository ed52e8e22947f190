(** src/hypertree.rs computes the hypertree functions of Proof/Fun.v. *)
From Verif Require Export Proof.XmssP Model.Hypertree.
From Verif Require Import Spec.Fips205.
From Verif Require Import Model.Types Model.Wots Model.Xmss Model.Hypertree.

Lemma nlen_climb nd auth idx k0 : forall cnt k x,
  (forall z i x y, nlen (nd z i x y) = k0) -> nlen x = k0 ->
  nlen (climb nd auth idx cnt k x) = k0.
Proof.
  induction cnt as [|cnt IH]; intros k x Hnd Hx; cbn [climb]; [exact Hx|].
  apply IH; [exact Hnd|]. unfold up. destruct (N.even _); apply Hnd.
Qed.

Lemma nseq_map_seq lo k : nseq lo k = map (fun i => lo + N.of_nat i) (seq 0 k).
Proof.
  revert lo; induction k as [|k IH]; intros lo; cbn [nseq seq map]; [reflexivity|].
  f_equal; [lia|]. rewrite IH, <- seq_shift, map_map. apply map_ext. intros i. lia.
Qed.

Lemma nrange_seq k : nrange k = map N.of_nat (seq 0 (N.to_nat k)).
Proof. unfold nrange. rewrite nseq_map_seq. apply map_ext. intros i. lia. Qed.

Lemma map_nrange_nat {A} (g : nat -> A) k :
  map (fun i => g (N.to_nat i)) (nrange k) = map g (seq 0 (N.to_nat k)).
Proof. rewrite nrange_seq, map_map. apply map_ext. intros i. f_equal. lia. Qed.

Lemma flat_map_map {A B C} (g : A -> B) (h : B -> list C) l :
  flat_map h (map g l) = flat_map (fun x => h (g x)) l.
Proof. induction l as [|x l IH]; [reflexivity|]. cbn. rewrite IH. reflexivity. Qed.

Lemma flat_map_nrange_nat {A} (g : nat -> list A) k :
  flat_map (fun i => g (N.to_nat i)) (nrange k) = flat_map g (seq 0 (N.to_nat k)).
Proof.
  rewrite nrange_seq, flat_map_map. apply flat_map_ext. intros i. f_equal. lia.
Qed.

Lemma flatL_from1 {lf} k : 1 <= k ->
  lf 0 ++ flatL lf 1 k = flat_map lf (nrange k).
Proof.
  intros Hk. unfold flatL, nrange.
  replace (N.to_nat k) with (S (N.to_nat (k - 1))) by lia. reflexivity.
Qed.

(** the loops below carry idx_tree; its value at layer j *)
Section Coord.
Context (p : Params).

Lemma tree_at_0 t0 : tree_at p t0 0 = t0.
Proof. unfold tree_at. rewrite N.mul_0_r, N.pow_0_r, N.div_1_r. reflexivity. Qed.

Lemma tree_at_S t0 j : tree_at p t0 j / 2 ^ cHP p = tree_at p t0 (S j).
Proof.
  unfold tree_at. rewrite N.div_div by apply pow2_nz. rewrite <- N.pow_add_r. do 2 f_equal. lia.
Qed.

Lemma tree_at_le t0 j : tree_at p t0 j <= t0.
Proof. apply div_pow_le. Qed.

Lemma leaf_at_lt t0 l0 j : l0 < 2 ^ cHP p -> leaf_at p t0 l0 j < 2 ^ cHP p.
Proof. intros H. destruct j as [|j]; cbn [leaf_at]; [exact H|]. apply N.mod_lt, pow2_nz. Qed.

End Coord.

Section HtP.
Context {T : Target} (p : Params) (HP : PF p) (hs : Hashers) (hf : HashFns) (HS : HSpec hs hf).
Context (HL : HLen (cN p) (cM p) hf).
Context (ps ss : bytes).

Lemma nlen_wpk l t kp sig m : nlen (wpk p hf ps l t kp sig m) = cN p.
Proof. apply (len_T _ _ _ HL). Qed.

Lemma nlen_xpk l t idx sg m : nlen (xpk p hf ps l t idx sg m) = cN p.
Proof. apply nlen_climb; [intros; apply (len_H _ _ _ HL)|apply nlen_wpk]. Qed.

Lemma nlen_wsig l t kp m : nlen (wsig p hf ps ss l t kp m) = cLEN p.
Proof. unfold wsig. rewrite nlen_map. apply nlen_nrange. Qed.

Lemma nlen_xauth l t idx : nlen (xauth p hf ps ss l t idx) = cHP p.
Proof. unfold xauth. rewrite nlen_map. apply nlen_nrange. Qed.

Lemma nlen_hmsg t0 l0 m j : nlen m = cN p -> nlen (hmsg p hf ps ss t0 l0 m j) = cN p.
Proof. intros Hm. destruct j as [|j]; cbn [hmsg]; [exact Hm|]. apply nlen_xpk. Qed.

Lemma nlen_hval t0 l0 sigs m j : nlen m = cN p -> nlen (hval p hf ps t0 l0 sigs m j) = cN p.
Proof. intros Hm. destruct j as [|j]; cbn [hval]; [exact Hm|]. apply nlen_xpk. Qed.

Lemma hp_mask it : (it < 2 ^ 64)%N ->
  N.land it (2 ^ cHP p mod 18446744073709551616 - 1) = it mod 2 ^ cHP p.
Proof.
  intros _. pose proof (pf_hp p HP). pose proof (pow2_le9 (cHP p) ltac:(lia)).
  rewrite (N.mod_small (2 ^ cHP p)) by lia. apply land_ones_mod.
Qed.

Lemma runs_ht_sign m t0 l0 :
  nlen m = cN p -> t0 < 18446744073709551616 -> l0 < 2 ^ cHP p ->
  runs (ht_sign p hs m ss ps t0 l0) (hsig p hf ps ss t0 l0 m) (hsigC p hf ps ss t0 l0 m).
Proof.
  intros Hm Ht Hl. pose proof (pf_d p HP) as Hd. pose proof (pf_hp p HP) as Hhp.
  pose proof (pow2_le9 (cHP p) ltac:(lia)) as H512.
  unfold ht_sign. rewrite try_u32 by lia. rewrite bind_ret_l.
  rewrite try_u32 by lia. rewrite bind_ret_l. cbv zeta. adrs_norm.
  set (SG := fun i : N => hsig_at p hf ps ss t0 l0 m (N.to_nat i)).
  set (LY := fun i : N => hlayerC p hf ps ss t0 l0 m (N.to_nat i)).
  assert (EC : hsigC p hf ps ss t0 l0 m = LY 0 ++ flatL LY 1 (cD p)).
  { rewrite flatL_from1 by lia. unfold LY, hsigC. rewrite flat_map_nrange_nat. reflexivity. }
  rewrite EC.
  assert (E0 : LY 0 = hsigC_at p hf ps ss t0 l0 m 0 ++ hrootC_at p hf ps ss t0 l0 m 0).
  { unfold LY, hlayerC. change (N.to_nat 0) with O.
    replace (1 <? N.to_nat (cD p))%nat with true; [reflexivity|].
    symmetry. apply Nat.ltb_lt. lia. }
  rewrite E0, <- app_assoc.
  eapply runs_bind.
  { unfold hsigC_at. rewrite tree_at_0. apply runs_xmss_sign; [exact HP|exact HS|exact Hl|exact Hm]. }
  eapply runs_bind0.
  { change (zero_ht_sig p) with (filled SG (zero_ht_sig p) 0).
    apply (runs_upd_filled SG (zero_ht_sig p) 0).
    - unfold zero_ht_sig. rewrite nlen_nrepeat. lia.
    - unfold SG, hsig_at. change (N.to_nat 0) with O. rewrite tree_at_0. reflexivity. }
  eapply runs_bind.
  { unfold hrootC_at, hsig_at. rewrite tree_at_0.
    apply runs_xmss_pk_from_sig; [exact HP|exact HS|exact Hl|exact Hm|apply nlen_wsig|apply nlen_xauth]. }
  eapply runs_bind_r.
  - apply (runs_for_range' _
      (fun j => (filled SG (zero_ht_sig p) j,
                 hmsg p hf ps ss t0 l0 m (N.to_nat (N.min j (cD p - 1))),
                 adr (j - 1) (tree_at p t0 (N.to_nat (j - 1))) 0 0 0 0,
                 tree_at p t0 (N.to_nat (j - 1))))
      LY); [lia| |reflexivity|reflexivity|].
    + change (N.to_nat (1 - 1)) with O. rewrite tree_at_0. rewrite N.min_l by lia.
      change (N.to_nat 1) with 1%nat. cbn [hmsg leaf_at]. rewrite tree_at_0. reflexivity.
    + intros j Hj. cbv beta iota zeta.
      destruct (N.to_nat j) as [|j'] eqn:Ej; [lia|].
      assert (Ejn : j = N.of_nat (S j')) by lia.
      replace (N.to_nat (j - 1)) with j' by lia.
      rewrite shl_u64 by lia. rewrite bind_ret_l. rewrite N.mul_1_l.
      rewrite sub_ok by (rewrite N.mod_small by lia; pose proof (pow2_nz (cHP p)); lia).
      rewrite bind_ret_l.
      pose proof (tree_at_le p t0 j') as Hle.
      rewrite hp_mask by lia.
      pose proof (N.mod_lt (tree_at p t0 j') (2 ^ cHP p) (pow2_nz _)) as Hml.
      apply runs_branch_bind.
      replace (tree_at p t0 j' mod 2 ^ cHP p <? 2 ^ 32) with true
        by (symmetry; apply N.ltb_lt; change (2 ^ 32) with 4294967296; lia).
      rewrite bind_ret_l.
      rewrite shr_u64 by lia. rewrite bind_ret_l. rewrite tree_at_S. adrs_norm.
      rewrite N.min_l by lia. rewrite Ej.
      assert (Hh : nlen (hmsg p hf ps ss t0 l0 m (S j')) = cN p) by (apply nlen_hmsg; exact Hm).
      assert (EL : LY j = hsigC_at p hf ps ss t0 l0 m (S j') ++
                 (if j <? cD p - 1 then hrootC_at p hf ps ss t0 l0 m (S j') else [])).
      { unfold LY, hlayerC. rewrite Ej. f_equal.
        replace (S (S j') <? N.to_nat (cD p))%nat with (j <? cD p - 1); [reflexivity|].
        destruct (N.ltb_spec j (cD p - 1)) as [C|C]; symmetry;
          [apply Nat.ltb_lt|apply Nat.ltb_ge]; lia. }
      rewrite EL.
      eapply runs_bind.
      { unfold hsigC_at. rewrite Ejn. cbn [leaf_at].
        apply runs_xmss_sign; [exact HP|exact HS|exact Hml|exact Hh]. }
      rewrite cast_us by lia.
      eapply runs_bind0.
      { apply (runs_upd_filled SG (zero_ht_sig p) j).
        - unfold zero_ht_sig. rewrite nlen_nrepeat. lia.
        - unfold SG, hsig_at. rewrite Ej. reflexivity. }
      rewrite sub_ok by lia. rewrite bind_ret_l.
      apply runs_branch_bind.
      eapply (runs_bind_r _ _ (hmsg p hf ps ss t0 l0 m (N.to_nat (N.min (j + 1) (cD p - 1))))).
      { destruct (N.ltb_spec j (cD p - 1)) as [C|C].
        - rewrite N.min_l by lia. replace (N.to_nat (j + 1)) with (S (S j')) by lia.
          cbn [hmsg]. unfold hrootC_at, hsig_at. rewrite Ejn. cbn [leaf_at hmsg].
          apply runs_xmss_pk_from_sig; [exact HP|exact HS|exact Hml|exact Hh|apply nlen_wsig|apply nlen_xauth].
        - rewrite N.min_r by lia. replace (N.to_nat (cD p - 1)) with (S j') by lia. apply runs_ret. }
      apply runs_ret_eq.
      replace (N.to_nat (j + 1 - 1)) with (S j') by lia.
      replace (j + 1 - 1) with j by lia. reflexivity.
  - cbv beta iota. apply runs_ret_eq.
    rewrite filled_all by (unfold zero_ht_sig; rewrite nlen_nrepeat; reflexivity).
    unfold SG, hsig. apply map_nrange_nat.
Qed.

Definition wf_xmss (sg : XmssSig) : Prop :=
  nlen (sig_wots sg) = cLEN p /\ nlen (xmss_auth sg) = cHP p.

Lemma runs_ht_verify m sigs t0 l0 root :
  nlen m = cN p -> t0 < 18446744073709551616 -> l0 < 2 ^ cHP p ->
  nlen sigs = cD p -> Forall wf_xmss sigs ->
  let sf := fun j => nth j sigs (mkXmssSig [] []) in
  runs (ht_verify p hs m sigs ps t0 l0 root)
       (bytes_eqb (hval p hf ps t0 l0 sf m (N.to_nat (cD p))) root)
       (flat_map (hvalC p hf ps t0 l0 sf m) (seq 0 (N.to_nat (cD p)))).
Proof.
  intros Hm Ht Hl Hsn Hwf sf. pose proof (pf_d p HP) as Hd. pose proof (pf_hp p HP) as Hhp.
  pose proof (pow2_le9 (cHP p) ltac:(lia)) as H512.
  unfold ht_verify. rewrite try_u32 by lia. rewrite bind_ret_l.
  rewrite try_u32 by lia. rewrite bind_ret_l. cbv zeta. adrs_norm.
  set (LY := fun i : N => hvalC p hf ps t0 l0 sf m (N.to_nat i)).
  assert (W : forall j, (j < N.to_nat (cD p))%nat -> wf_xmss (sf j)).
  { intros j Hj. unfold sf. rewrite Forall_forall in Hwf. apply Hwf, nth_In.
    unfold nlen in Hsn. lia. }
  replace (flat_map _ _) with (LY 0 ++ flatL LY 1 (cD p))
    by (rewrite flatL_from1 by lia; unfold LY; apply flat_map_nrange_nat).
  eapply runs_bind0; [apply (runs_index _ _ (mkXmssSig [] [])); lia|].
  fold (sf (N.to_nat 0)).
  eapply runs_bind.
  { unfold LY, hvalC. change (N.to_nat 0) with O. rewrite tree_at_0. cbn [hval leaf_at].
    apply runs_xmss_pk_from_sig; [exact HP|exact HS|exact Hl|exact Hm|apply W; lia|apply W; lia]. }
  eapply runs_bind_r.
  - apply (runs_for_range_ret' _
      (fun j => (hval p hf ps t0 l0 sf m (N.to_nat j),
                 adr (j - 1) (tree_at p t0 (N.to_nat (j - 1))) 0 0 0 0,
                 tree_at p t0 (N.to_nat (j - 1))))
      LY); [lia| |reflexivity|reflexivity|].
    + change (N.to_nat (1 - 1)) with O. rewrite tree_at_0.
      change (N.to_nat 1) with 1%nat. cbn [hval leaf_at]. rewrite tree_at_0. reflexivity.
    + intros j Hj. cbv beta iota zeta.
      destruct (N.to_nat j) as [|j'] eqn:Ej; [lia|].
      assert (Ejn : j = N.of_nat (S j')) by lia.
      replace (N.to_nat (j - 1)) with j' by lia.
      rewrite shl_u64 by lia. rewrite bind_ret_l. rewrite N.mul_1_l.
      rewrite sub_ok by (rewrite N.mod_small by lia; pose proof (pow2_nz (cHP p)); lia).
      rewrite bind_ret_l.
      pose proof (tree_at_le p t0 j') as Hle.
      rewrite hp_mask by lia.
      pose proof (N.mod_lt (tree_at p t0 j') (2 ^ cHP p) (pow2_nz _)) as Hml.
      apply runs_branch_bind.
      replace (tree_at p t0 j' mod 2 ^ cHP p <? 2 ^ 32) with true
        by (symmetry; apply N.ltb_lt; change (2 ^ 32) with 4294967296; lia).
      rewrite shr_u64 by lia. rewrite bind_ret_l. rewrite tree_at_S. adrs_norm.
      rewrite cast_us by lia.
      eapply runs_bind0; [apply (runs_index _ _ (mkXmssSig [] [])); lia|].
      fold (sf (N.to_nat j)). rewrite Ej.
      assert (Hh : nlen (hval p hf ps t0 l0 sf m (S j')) = cN p) by (apply nlen_hval; exact Hm).
      eapply runs_bind_r.
      { unfold LY, hvalC. rewrite Ej, Ejn. cbn [leaf_at].
        apply runs_xmss_pk_from_sig; [exact HP|exact HS|exact Hml|exact Hh|apply W; lia|apply W; lia]. }
      apply runs_ret_eq.
      replace (N.to_nat (j + 1 - 1)) with (S j') by lia.
      replace (j + 1 - 1) with j by lia.
      replace (N.to_nat (j + 1)) with (S (S j')) by lia. cbn [hval leaf_at]. rewrite Ejn. reflexivity.
  - cbv beta iota. apply runs_same_bytes.
Qed.

End HtP.
