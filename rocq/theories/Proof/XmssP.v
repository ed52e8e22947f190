(** src/xmss.rs computes the XMSS functions of Proof/Fun.v. *)
From Verif Require Export Proof.WotsP Model.Xmss.
From Verif Require Import Spec.Fips205.
From Verif Require Import Model.Types Model.Wots Model.Xmss.

(** *** arithmetic of paths *)
Lemma land1_even s : (N.land s 1 =? 0) = N.even s.
Proof. destruct s as [|[s|s|]]; reflexivity. Qed.

Lemma lxor1_even x : N.even x = true -> N.lxor x 1 = x + 1.
Proof.
  destruct x as [|[x|x|]]; cbn; try discriminate; reflexivity.
Qed.

Lemma lxor1_odd x : N.even x = false -> N.lxor x 1 = x - 1.
Proof.
  destruct x as [|[x|x|]]; cbn; try discriminate; reflexivity.
Qed.

Lemma lxor1_le x : N.lxor x 1 <= x + 1.
Proof.
  destruct (N.even x) eqn:E; [rewrite lxor1_even by exact E|rewrite lxor1_odd by exact E]; lia.
Qed.

Lemma even_half x : N.even x = true -> x = 2 * (x / 2).
Proof.
  intros H. apply N.even_spec in H. destruct H as [y ->]. lia.
Qed.

Lemma odd_half x : N.even x = false -> x = 2 * (x / 2) + 1.
Proof.
  intros H. assert (O : N.odd x = true) by (rewrite <- N.negb_even, H; reflexivity).
  apply N.odd_spec in O. destruct O as [y ->]. lia.
Qed.

Lemma odd_ge1 x : N.even x = false -> 1 <= x.
Proof. intros H. apply odd_half in H. lia. Qed.

Lemma div_pow_S x k : x / 2 ^ k / 2 = x / 2 ^ (k + 1).
Proof.
  rewrite N.div_div by (try apply pow2_nz; discriminate). f_equal.
  rewrite N.add_1_r, N.pow_succ_r', N.mul_comm. reflexivity.
Qed.

Lemma odd_pred_half x : N.even x = false -> (x - 1) / 2 = x / 2.
Proof. intros H. apply odd_half in H. lia. Qed.

Lemma div_pow_le x k : x / 2 ^ k <= x.
Proof. apply N.div_le_upper_bound; [apply pow2_nz|]. pose proof (pow2_nz k). nia. Qed.

Lemma pow2_le9 j : j <= 9 -> 2 ^ j <= 512.
Proof. intros H. change 512 with (2 ^ 9). apply N.pow_le_mono_r; [discriminate|exact H]. Qed.

Lemma pow2_le14 j : j <= 14 -> 2 ^ j <= 16384.
Proof. intros H. change 16384 with (2 ^ 14). apply N.pow_le_mono_r; [discriminate|exact H]. Qed.

Section XmssP.
Context {T : Target} (p : Params) (HP : PF p) (hs : Hashers) (hf : HashFns) (HS : HSpec hs hf).
Context (ps ss : bytes).

Lemma runs_xmss_node_fuel z : forall fuel i l t ty a b c,
  (z < fuel)%nat -> (i + 1) * 2 ^ N.of_nat z <= 65536 ->
  runs (xmss_node_fuel p hs fuel ss i (N.of_nat z) ps (adr l t ty a b c))
       (xnode p hf ps ss l t z i) (xnodeC p hf ps ss l t z i).
Proof.
  induction z as [|z IH]; intros fuel i l t ty a b c Hf Hi; (destruct fuel as [|fuel]; [inversion Hf|]).
  - cbn [xmss_node_fuel]. apply runs_branch_bind. change (N.of_nat 0 =? 0) with true. cbv iota zeta.
    unfold WOTS_HASH. adrs_norm. rewrite N.pow_0_r in Hi.
    apply runs_wots_pkgen; [exact HP|exact HS|lia].
  - rewrite Nnat.Nat2N.inj_succ, N.pow_succ_r' in Hi.
    assert (P2 : 1 <= 2 ^ N.of_nat z) by (pose proof (pow2_nz (N.of_nat z)); lia).
    change (xmss_node_fuel p hs (S fuel)) with
      (fun skseed i z0 pkseed adrs =>
         c0 <- branch (z0 =? 0) ;;
         if c0 then
           let adrs := set_type_and_clear adrs WOTS_HASH in
           let adrs := set_key_pair_address adrs i in
           wots_pkgen p hs skseed pkseed adrs
         else
           i2 <- mul U32 2 i ;;
           z1 <- sub U32 z0 1 ;;
           lnode <- xmss_node_fuel p hs fuel skseed i2 z1 pkseed adrs ;;
           i2' <- mul U32 2 i ;;
           i21 <- add U32 i2' 1 ;;
           z1' <- sub U32 z0 1 ;;
           rnode <- xmss_node_fuel p hs fuel skseed i21 z1' pkseed adrs ;;
           let adrs := set_type_and_clear adrs TREE in
           let adrs := set_tree_height adrs z0 in
           let adrs := set_tree_index adrs i in
           call_h hs pkseed adrs lnode rnode).
    cbv beta. apply runs_branch_bind.
    replace (N.of_nat (S z) =? 0) with false by (symmetry; apply N.eqb_neq; lia). cbv iota zeta.
    rewrite mul_u32 by nia. rewrite bind_ret_l.
    rewrite sub_ok by lia. rewrite bind_ret_l.
    replace (N.of_nat (S z) - 1) with (N.of_nat z) by lia.
    unfold xnode, xnodeC. cbn [mnode mnodeC].
    eapply runs_bind; [apply IH; [apply le_S_n; exact Hf|nia]|].
    rewrite bind_ret_l.
    rewrite add_u32 by nia. rewrite bind_ret_l. rewrite bind_ret_l.
    eapply runs_bind; [apply IH; [apply le_S_n; exact Hf|nia]|].
    unfold TREE. adrs_norm. apply (runs_call_h hs hf HS). apply wf_adr.
Qed.

Lemma runs_xmss_node z i l t ty a b c :
  z <= 9 -> (i + 1) * 2 ^ z <= 65536 ->
  runs (xmss_node p hs ss i z ps (adr l t ty a b c))
       (xnode p hf ps ss l t (N.to_nat z) i) (xnodeC p hf ps ss l t (N.to_nat z) i).
Proof.
  intros Hz Hi. unfold xmss_node. rewrite <- (Nnat.N2Nat.id z) at 1.
  apply runs_xmss_node_fuel; [pose proof nesting_limit_min; lia|]. rewrite Nnat.N2Nat.id. exact Hi.
Qed.

Lemma runs_xmss_sign m idx l t :
  idx < 2 ^ cHP p -> nlen m = cN p ->
  runs (xmss_sign p hs m ss idx ps (adr l t 0 0 0 0)) (xsig p hf ps ss l t idx m)
       (xsigC p hf ps ss l t idx m).
Proof.
  intros Hidx Hm. pose proof (pf_hp p HP) as Hhp.
  assert (H512 : idx < 512).
  { eapply N.lt_le_trans; [exact Hidx|]. apply pow2_le9. lia. }
  unfold xmss_sign. rewrite try_u32 by lia. rewrite bind_ret_l. cbv zeta.
  unfold xsigC. eapply runs_bind.
  - apply (runs_for_range' _
      (fun j => filled (sibling (wleaf p hf ps ss l t) (xnd hf ps l t) idx)
                  (nrepeat (nrepeat x00 (cN p)) (cHP p)) j)
      (fun j => siblingC (wleaf p hf ps ss l t) (xnd hf ps l t) (wleafC p hf ps ss l t) (xndC ps l t) idx j));
      [lia|reflexivity|reflexivity|apply eq_sym, nrange_flatL|].
    intros j Hj. rewrite shr_u32 by lia. rewrite bind_ret_l. cbv zeta.
    eapply runs_bind_r.
    + apply runs_xmss_node; [lia|].
      pose proof (lxor1_le (idx / 2 ^ j)). pose proof (div_pow_le idx j).
      pose proof (pow2_le9 j ltac:(lia)).
      assert (N.lxor (idx / 2 ^ j) 1 + 1 <= 514) by lia. 
      assert (idx / 2 ^ j * 2 ^ j <= idx) by (rewrite N.mul_comm; apply N.mul_div_le, pow2_nz).
      nia.
    + rewrite cast_us by lia.
      apply runs_upd_filled; [rewrite nlen_nrepeat; lia|reflexivity].
  - rewrite filled_all by (rewrite nlen_nrepeat; reflexivity).
    unfold WOTS_HASH. adrs_norm.
    eapply runs_bind_r; [apply runs_wots_sign; [exact HP|exact HS|lia|exact Hm]|].
    apply runs_ret.
Qed.

Lemma runs_xmss_pk_from_sig idx sg m l t ty a b c :
  idx < 2 ^ cHP p -> nlen m = cN p -> nlen (sig_wots sg) = cLEN p -> nlen (xmss_auth sg) = cHP p ->
  runs (xmss_pk_from_sig p hs idx sg m ps (adr l t ty a b c)) (xpk p hf ps l t idx sg m)
       (xpkC p hf ps l t idx sg m).
Proof.
  intros Hidx Hm Hsig Hauth. pose proof (pf_hp p HP) as Hhp.
  assert (H512 : idx < 512).
  { eapply N.lt_le_trans; [exact Hidx|]. apply pow2_le9. lia. }
  unfold xmss_pk_from_sig. rewrite try_u32 by lia. rewrite bind_ret_l. cbv zeta.
  unfold WOTS_HASH, TREE. adrs_norm.
  unfold xpkC, xpk. eapply runs_bind.
  { apply runs_wots_pk_from_sig; [exact HP|exact HS|lia|exact Hm|exact Hsig]. }
  set (x0 := wpk p hf ps l t idx (sig_wots sg) m). clearbody x0.
  unfold for_range. rewrite bind_assoc. apply runs_tick_quiet; [reflexivity|].
  rewrite N.sub_0_r.
  match goal with |- runs (bind (for_n _ _ ?B _) _) _ _ =>
    assert (L : forall cnt k x b, k + N.of_nat cnt <= cHP p -> exists b',
      runs (for_n cnt k B (x, adr l t 2 0 b (idx / 2 ^ k)))
           (climb (xnd hf ps l t) (fun k => nth (N.to_nat k) (xmss_auth sg) []) idx cnt k x, b')
           (climbC (xnd hf ps l t) (xndC ps l t) (fun k => nth (N.to_nat k) (xmss_auth sg) []) idx cnt k x)) end.
  { intros cnt. induction cnt as [|cnt IH]; intros k x b0 Hk; cbn [for_n climb climbC].
    - eexists. apply runs_ret.
    - set (ak := nth (N.to_nat k) (xmss_auth sg) []).
      destruct (IH (k + 1) (up (xnd hf ps l t) idx k x ak) (k + 1) ltac:(lia)) as [b' Hb'].
      exists b'.
      change (up (xndC ps l t) idx k x ak :: ?Z) with ([up (xndC ps l t) idx k x ak] ++ Z).
      eapply runs_bind; [|exact Hb'].
      rewrite add_u32 by lia. rewrite bind_ret_l. cbv zeta. adrs_norm.
      rewrite shr_u32 by lia. rewrite bind_ret_l.
      apply runs_branch_bind. rewrite land1_even.
      pose proof (div_pow_le idx k).
      unfold up. destruct (N.even (idx / 2 ^ k)) eqn:Ev.
      + rewrite adr_get_index by lia. rewrite div_ok by lia. rewrite bind_ret_l. adrs_norm.
        rewrite div_pow_S. rewrite cast_us by lia.
        eapply runs_bind0; [apply (runs_index _ _ []); lia|]. fold ak.
        eapply runs_bind_r; [apply (runs_call_h hs hf HS); apply wf_adr|]. apply runs_ret.
      + pose proof (odd_ge1 _ Ev) as Hge.
        rewrite adr_get_index by lia. rewrite sub_ok by exact Hge. rewrite bind_ret_l.
        rewrite div_ok by lia. rewrite bind_ret_l. adrs_norm.
        rewrite odd_pred_half by exact Ev.
        rewrite div_pow_S. rewrite cast_us by lia.
        eapply runs_bind0; [apply (runs_index _ _ []); lia|]. fold ak.
        eapply runs_bind_r; [apply (runs_call_h hs hf HS); apply wf_adr|]. apply runs_ret. }
  destruct (L (N.to_nat (cHP p)) 0 x0 0 ltac:(lia)) as [b' Hb'].
  rewrite N.pow_0_r, N.div_1_r in Hb'.
  eapply runs_bind_r; [exact Hb'|]. apply runs_ret.
Qed.

End XmssP.
