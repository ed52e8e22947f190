(** src/fors.rs computes the FORS functions of Proof/Fun.v. *)
From Verif Require Export Proof.XmssP Model.Fors.
From Verif Require Import Spec.Fips205.
From Verif Require Import Model.Types Model.Wots Model.Fors.

(** *** repeated updates *)
Lemma length_upd_list {A} (l : list A) i v : i < nlen l -> length (upd_list l i v) = length l.
Proof.
  intros H. unfold upd_list, nlen in *. rewrite app_length. cbn [length].
  rewrite firstn_length, skipn_length. lia.
Qed.

Lemma nlen_upd_list {A} (l : list A) i v : i < nlen l -> nlen (upd_list l i v) = nlen l.
Proof. intros H. unfold nlen. rewrite length_upd_list by exact H. reflexivity. Qed.

Lemma nth_upd_same {A} (l : list A) i v d : i < nlen l -> nth (N.to_nat i) (upd_list l i v) d = v.
Proof.
  intros H. unfold upd_list, nlen in *.
  rewrite app_nth2; rewrite firstn_length; [|lia].
  replace (N.to_nat i - Nat.min (N.to_nat i) (length l))%nat with O by lia. reflexivity.
Qed.

Lemma upd_list_twice {A} (l : list A) i v w :
  i < nlen l -> upd_list (upd_list l i v) i w = upd_list l i w.
Proof.
  intros H. unfold upd_list, nlen in *.
  assert (L : length (firstn (N.to_nat i) l) = N.to_nat i) by (rewrite firstn_length; lia).
  f_equal.
  - rewrite firstn_app, L, Nat.sub_diag, firstn_O, app_nil_r.
    rewrite firstn_firstn. f_equal. lia.
  - f_equal. rewrite skipn_app, L.
    rewrite skipn_all2 by lia. cbn [app].
    replace (N.to_nat i + 1 - N.to_nat i)%nat with 1%nat by lia. reflexivity.
Qed.

Lemma upd_list_id {A} (l : list A) i d :
  i < nlen l -> upd_list l i (nth (N.to_nat i) l d) = l.
Proof.
  intros H. unfold upd_list, nlen in *.
  rewrite <- (firstn_skipn (N.to_nat i) l) at 4. f_equal.
  assert (E : skipn (N.to_nat i) l <> []).
  { intros C. apply (f_equal (@length A)) in C. rewrite skipn_length in C. cbn in C. lia. }
  replace (N.to_nat i + 1)%nat with (1 + N.to_nat i)%nat by lia.
  rewrite <- skipn_skipn.
  rewrite <- (firstn_skipn (N.to_nat i) l) at 1.
  rewrite app_nth2; rewrite firstn_length; [|lia].
  replace (N.to_nat i - Nat.min (N.to_nat i) (length l))%nat with O by lia.
  destruct (skipn (N.to_nat i) l) as [|x r]; [congruence|]. reflexivity.
Qed.

Lemma nth_nrepeat {A} (x : A) k i d : i < k -> nth (N.to_nat i) (nrepeat x k) d = x.
Proof.
  intros H. unfold nrepeat. apply nth_error_nth.
  apply nth_error_repeat. lia.
Qed.

(** *** global leaf indices *)
Lemma gidx_div i a ix j :
  j <= a -> (i * 2 ^ a + ix) / 2 ^ j = i * 2 ^ (a - j) + ix / 2 ^ j.
Proof.
  intros Hj. replace (2 ^ a) with (2 ^ (a - j) * 2 ^ j)
    by (rewrite <- N.pow_add_r; f_equal; lia).
  rewrite N.mul_assoc, N.add_comm, N.div_add by apply pow2_nz. apply N.add_comm.
Qed.

Lemma even_add_mul2 y x : N.even (2 * y + x) = N.even x.
Proof. rewrite N.even_add, N.even_mul. cbn. destruct (N.even x); reflexivity. Qed.

Lemma gidx_even i a ix j :
  j < a -> N.even ((i * 2 ^ a + ix) / 2 ^ j) = N.even (ix / 2 ^ j).
Proof.
  intros Hj. rewrite gidx_div by lia.
  replace (2 ^ (a - j)) with (2 * 2 ^ (a - j - 1))
    by (rewrite <- N.pow_succ_r'; f_equal; lia).
  replace (i * (2 * 2 ^ (a - j - 1))) with (2 * (i * 2 ^ (a - j - 1))) by lia.
  apply even_add_mul2.
Qed.

Lemma gidx_xor i a ix j :
  j < a -> N.lxor ((i * 2 ^ a + ix) / 2 ^ j) 1 = i * 2 ^ (a - j) + N.lxor (ix / 2 ^ j) 1.
Proof.
  intros Hj. pose proof (gidx_even i a ix j Hj) as E.
  destruct (N.even (ix / 2 ^ j)) eqn:Ev.
  - rewrite (lxor1_even _ E), (lxor1_even _ Ev), gidx_div by lia. lia.
  - rewrite (lxor1_odd _ E), (lxor1_odd _ Ev), gidx_div by lia.
    pose proof (odd_ge1 _ Ev). lia.
Qed.

Section ForsP.
Context {T : Target} (p : Params) (HP : PF p) (hs : Hashers) (hf : HashFns) (HS : HSpec hs hf).
Context (ps ss : bytes).

Lemma runs_fors_sk_gen t kp z i g :
  kp < 4294967296 ->
  runs (fors_sk_gen hs ss ps (adr 0 t 3 kp z i) g) (fsk hf ps ss t kp g) [fskC ps ss t kp g].
Proof.
  intros Hkp. unfold fors_sk_gen. cbv zeta. rewrite adr_get_kp by exact Hkp.
  unfold FORS_PRF. adrs_norm. apply (runs_call_prf hs hf HS). apply wf_adr.
Qed.

Lemma runs_fors_node_fuel z : forall fuel t kp i,
  (z < fuel)%nat -> kp < 4294967296 -> (i + 1) * 2 ^ N.of_nat z <= 2147483648 ->
  runs (fors_node_fuel hs fuel ss i (N.of_nat z) ps (adr 0 t 3 kp 0 0))
       (fnode hf ps ss t kp z i) (fnodeC hf ps ss t kp z i).
Proof.
  induction z as [|z IH]; intros fuel t kp i Hf Hkp Hi; (destruct fuel as [|fuel]; [inversion Hf|]).
  - cbn [fors_node_fuel]. apply runs_branch_bind. change (N.of_nat 0 =? 0) with true. cbv iota zeta.
    unfold fnode, fnodeC. cbn [mnode mnodeC]. unfold fleafC.
    change [fskC ps ss t kp i; ?E] with ([fskC ps ss t kp i] ++ [E]).
    eapply runs_bind; [apply runs_fors_sk_gen; exact Hkp|].
    adrs_norm. apply (runs_call_f hs hf HS). apply wf_adr.
  - rewrite Nnat.Nat2N.inj_succ, N.pow_succ_r' in Hi.
    assert (P2 : 1 <= 2 ^ N.of_nat z) by (pose proof (pow2_nz (N.of_nat z)); lia).
    change (fors_node_fuel hs (S fuel)) with
      (fun skseed i z0 pkseed adrs =>
         c0 <- branch (z0 =? 0) ;;
         if c0 then
           sk <- fors_sk_gen hs skseed pkseed adrs i ;;
           let adrs := set_tree_height adrs 0 in
           let adrs := set_tree_index adrs i in
           call_f hs pkseed adrs sk
         else
           i2 <- mul U32 2 i ;;
           z1 <- sub U32 z0 1 ;;
           lnode <- fors_node_fuel hs fuel skseed i2 z1 pkseed adrs ;;
           i2' <- mul U32 2 i ;;
           i21 <- add U32 i2' 1 ;;
           z1' <- sub U32 z0 1 ;;
           rnode <- fors_node_fuel hs fuel skseed i21 z1' pkseed adrs ;;
           let adrs := set_tree_height adrs z0 in
           let adrs := set_tree_index adrs i in
           call_h hs pkseed adrs lnode rnode).
    cbv beta. apply runs_branch_bind.
    replace (N.of_nat (S z) =? 0) with false by (symmetry; apply N.eqb_neq; lia). cbv iota zeta.
    rewrite mul_u32 by nia. rewrite bind_ret_l.
    rewrite sub_ok by lia. rewrite bind_ret_l.
    replace (N.of_nat (S z) - 1) with (N.of_nat z) by lia.
    unfold fnode, fnodeC. cbn [mnode mnodeC].
    eapply runs_bind; [apply IH; [apply le_S_n; exact Hf|exact Hkp|nia]|].
    rewrite bind_ret_l.
    rewrite add_u32 by nia. rewrite bind_ret_l. rewrite bind_ret_l.
    eapply runs_bind; [apply IH; [apply le_S_n; exact Hf|exact Hkp|nia]|].
    adrs_norm. apply (runs_call_h hs hf HS). apply wf_adr.
Qed.

Lemma runs_fors_node z t kp i :
  z <= 13 -> kp < 4294967296 -> (i + 1) * 2 ^ z <= 2147483648 ->
  runs (fors_node hs ss i z ps (adr 0 t 3 kp 0 0))
       (fnode hf ps ss t kp (N.to_nat z) i) (fnodeC hf ps ss t kp (N.to_nat z) i).
Proof.
  intros Hz Hkp Hi. unfold fors_node. rewrite <- (Nnat.N2Nat.id z) at 1.
  apply runs_fors_node_fuel; [pose proof nesting_limit_min; lia|exact Hkp|]. rewrite Nnat.N2Nat.id. exact Hi.
Qed.

(** bounds on FORS indices *)
Lemma fors_bounds i : i < cK p ->
  2 ^ cA p <= 16384 /\ i * 2 ^ cA p <= 573440 /\ i < 35.
Proof.
  intros Hi. pose proof (pf_k p HP). pose proof (pf_a p HP).
  pose proof (pow2_le14 (cA p) ltac:(lia)). nia.
Qed.

Lemma shl_small i s : i * 2 ^ s < 4294967296 -> s < 32 -> shl U32 i s = ret (i * 2 ^ s).
Proof. intros H1 H2. rewrite shl_u32 by exact H2. rewrite N.mod_small by exact H1. reflexivity. Qed.

Lemma pow_le_a j : j <= cA p -> 2 ^ j <= 2 ^ cA p.
Proof. intros H. apply N.pow_le_mono_r; [discriminate|exact H]. Qed.

Lemma runs_fors_sign md t kp :
  kp < 4294967296 -> (cK p * cA p + 7) / 8 = nlen md ->
  runs (fors_sign p hs md ss (adr 0 t 3 kp 0 0) ps) (fsig p hf ps ss t kp md)
       (fsigC p hf ps ss t kp md).
Proof.
  intros Hkp Hmd. pose proof (pf_k p HP) as Hk. pose proof (pf_a p HP) as Ha.
  assert (Hka : cK p * cA p <= 8 * nlen md) by lia.
  assert (Hmd2 : nlen md < 65535) by nia.
  unfold fors_sign. rewrite try_u32 by lia. rewrite bind_ret_l.
  rewrite try_u32 by lia. rewrite bind_ret_l. cbv zeta.
  eapply runs_bind0.
  { apply runs_base_2b; [lia|apply nlen_nrepeat|exact Hka|lia|exact Hmd2]. }
  set (row0 := nrepeat (nrepeat x00 (cN p)) (cA p)).
  set (PKV := fun i => fsk hf ps ss t kp (fidx p md i)).
  set (AU := fun i => fauth p hf ps ss t kp (fidx p md i)).
  set (pk0 := nrepeat (nrepeat x00 (cN p)) (cK p)).
  set (au0 := nrepeat row0 (cK p)).
  assert (Lpk : nlen pk0 = cK p) by apply nlen_nrepeat.
  assert (Lau : nlen au0 = cK p) by apply nlen_nrepeat.
  assert (Lrow : nlen row0 = cA p) by apply nlen_nrepeat.
  apply (runs_for_range' _
    (fun i => mkForsSig (filled PKV pk0 i) (filled AU au0 i))
    (fun i => fskC ps ss t kp (fidx p md i) ::
              flat_map (siblingC (fleaf hf ps ss t kp) (fnd hf ps t kp) (fleafC hf ps ss t kp)
                          (fndC ps t kp) (fidx p md i)) (nrange (cA p))));
    [lia|reflexivity| |apply eq_sym, nrange_flatL|].
  { rewrite !filled_all by (symmetry; assumption). reflexivity. }
  intros i Hi. destruct (fors_bounds i ltac:(lia)) as [B1 [B2 B3]].
  cbv beta. cbn [private_key_value fors_auth].
  rewrite shl_small by lia. rewrite bind_ret_l. rewrite cast_us by lia.
  assert (IX : runs (index (digits md (cA p) (cK p)) i) (digit md (cA p) i) []).
  { eapply runs_eq; [apply (runs_index _ _ 0); rewrite nlen_digits; lia| |reflexivity].
    apply nth_digits. lia. }
  eapply runs_bind0; [exact IX|].
  pose proof (digit_lt md (cA p) i) as Hdg.
  rewrite add_u32 by lia. rewrite bind_ret_l.
  fold (fidx p md i).
  change (fskC ps ss t kp (fidx p md i) :: ?Z) with ([fskC ps ss t kp (fidx p md i)] ++ Z).
  eapply runs_bind; [apply runs_fors_sk_gen; exact Hkp|].
  eapply runs_bind0; [apply (runs_upd_filled PKV); [lia|reflexivity]|].
  set (X := filled AU au0 i).
  assert (LX : nlen X = cK p) by (unfold X; rewrite nlen_filled; lia).
  set (SB := sibling (fleaf hf ps ss t kp) (fnd hf ps t kp) (fidx p md i)).
  apply (runs_for_range' _
    (fun j => mkForsSig (filled PKV pk0 (i + 1)) (upd_list X i (filled SB row0 j)))
    (siblingC (fleaf hf ps ss t kp) (fnd hf ps t kp) (fleafC hf ps ss t kp) (fndC ps t kp) (fidx p md i)));
    [lia| | |apply eq_sym, nrange_flatL|].
  - f_equal. rewrite filled_0. symmetry.
    replace row0 with (nth (N.to_nat i) X []); [apply upd_list_id; lia|].
    unfold X. rewrite filled_get by lia. unfold au0. apply nth_nrepeat. lia.
  - f_equal. symmetry. rewrite filled_all by (symmetry; exact Lrow).
    unfold X. apply filled_upd; [lia|reflexivity].
  - intros j Hj. cbv beta. cbn [private_key_value fors_auth].
    eapply runs_bind0; [exact IX|].
    rewrite shr_u32 by lia. rewrite bind_ret_l.
    rewrite sub_ok by lia. rewrite bind_ret_l.
    pose proof (pow_le_a (cA p - j) ltac:(lia)) as B4.
    pose proof (pow_le_a j ltac:(lia)) as B5.
    rewrite shl_small by nia. rewrite bind_ret_l.
    pose proof (lxor1_le (digit md (cA p) i / 2 ^ j)) as B6.
    pose proof (div_pow_le (digit md (cA p) i) j) as B7.
    assert (B8 : i * 2 ^ (cA p - j) <= 573440) by nia.
    rewrite add_u32 by lia. rewrite bind_ret_l.
    rewrite <- gidx_xor by lia. fold (fidx p md i).
    eapply runs_bind_r.
    { apply runs_fors_node; [lia|exact Hkp|].
      pose proof (lxor1_le (fidx p md i / 2 ^ j)) as B9.
      assert (B10 : fidx p md i / 2 ^ j * 2 ^ j <= fidx p md i)
        by (rewrite N.mul_comm; apply N.mul_div_le, pow2_nz).
      unfold fidx in *. nia. }
    rewrite cast_us by lia. 
    eapply runs_bind0.
    { eapply runs_eq; [apply (runs_index _ _ []); rewrite nlen_upd_list; lia| |reflexivity].
      apply nth_upd_same. lia. }
    eapply runs_bind0; [apply (runs_upd_filled SB); [lia|reflexivity]|].
    eapply runs_bind0.
    { eapply runs_eq; [apply runs_upd; rewrite nlen_upd_list; lia| |reflexivity].
      apply upd_list_twice. lia. }
    apply runs_ret.
Qed.

Lemma runs_fors_pk_from_sig fs md t kp :
  kp < 4294967296 -> (cK p * cA p + 7) / 8 = nlen md ->
  nlen (private_key_value fs) = cK p -> nlen (fors_auth fs) = cK p ->
  Forall (fun r => nlen r = cA p) (fors_auth fs) ->
  runs (fors_pk_from_sig p hs fs md ps (adr 0 t 3 kp 0 0)) (fpk p hf ps t kp fs md)
       (fpkC p hf ps t kp fs md).
Proof.
  intros Hkp Hmd Hpk Hau Hrow. pose proof (pf_k p HP) as Hk. pose proof (pf_a p HP) as Ha.
  assert (Hka : cK p * cA p <= 8 * nlen md) by lia.
  assert (Hmd2 : nlen md < 65535) by nia.
  unfold fors_pk_from_sig. rewrite try_u32 by lia. rewrite bind_ret_l.
  rewrite try_u32 by lia. rewrite bind_ret_l. cbv zeta.
  eapply runs_bind0.
  { apply runs_base_2b; [lia|apply nlen_nrepeat|exact Hka|lia|exact Hmd2]. }
  set (AT := fun i => nth (N.to_nat i) (fors_auth fs) []).
  set (SK := fun i => nth (N.to_nat i) (private_key_value fs) []).
  unfold fpkC. eapply runs_bind.
  - apply (runs_for_range' _
      (fun i => (filled (fun i => froot p hf ps t kp (fidx p md i) (SK i) (AT i))
                   (nrepeat (nrepeat x00 (cN p)) (cK p)) i,
                 if i =? 0 then adr 0 t 3 kp 0 0 else adr 0 t 3 kp (cA p) (i - 1)))
      (fun i => frootC p hf ps t kp (fidx p md i) (SK i) (AT i)));
      [lia|reflexivity| |apply eq_sym, nrange_flatL|].
    { reflexivity. }
    intros i Hi. destruct (fors_bounds i ltac:(lia)) as [B1 [B2 B3]].
    cbv beta iota zeta.
    set (A0 := if i =? 0 then adr 0 t 3 kp 0 0 else adr 0 t 3 kp (cA p) (i - 1)).
    assert (EA : exists b c, A0 = adr 0 t 3 kp b c).
    { unfold A0. destruct (i =? 0); eauto. }
    destruct EA as [b [c ->]].
    rewrite cast_us by lia.
    eapply runs_bind0; [apply (runs_index _ _ []); lia|]. fold (SK i).
    rewrite shl_small by lia. rewrite bind_ret_l.
    assert (IX : runs (index (digits md (cA p) (cK p)) i) (digit md (cA p) i) []).
    { eapply runs_eq; [apply (runs_index _ _ 0); rewrite nlen_digits; lia| |reflexivity].
      apply nth_digits. lia. }
    eapply runs_bind0; [exact IX|].
    pose proof (digit_lt md (cA p) i) as Hdg.
    rewrite add_u32 by lia. rewrite bind_ret_l.
    fold (fidx p md i). adrs_norm.
    unfold frootC.
    change (flvC ps t kp ?g ?s :: ?Z) with ([flvC ps t kp g s] ++ Z).
    eapply runs_bind; [apply (runs_call_f hs hf HS); apply wf_adr|].
    eapply runs_bind0; [apply (runs_index _ _ []); lia|]. fold (AT i).
    assert (LAT : nlen (AT i) = cA p).
    { rewrite Forall_forall in Hrow. apply Hrow. unfold AT. apply nth_In. unfold nlen in Hau. lia. }
    set (g := fidx p md i) in *.
    assert (Hg : g < 2147483648) by (unfold g, fidx; lia).
    change (F hf ps (flat (adr 0 t 3 kp 0 g)) (SK i)) with (flv hf ps t kp g (SK i)).
    assert (CL : runs (for_range 0 (cA p)
         (fun j '(node_0, adrs) =>
            j1 <- add U32 j 1 ;;
            let adrs := set_tree_height adrs j1 in
            ix <- index (digits md (cA p) (cK p)) i ;;
            s <- shr U32 ix j ;;
            c <- branch (N.land s 1 =? 0) ;;
            if c then
              tmp <- div (get_tree_index adrs) 2 ;;
              let adrs := set_tree_index adrs tmp in
              a <- index (AT i) (cast Usize j) ;;
              node_1 <- call_h hs ps adrs node_0 a ;;
              ret (node_1, adrs)
            else
              t1 <- sub U32 (get_tree_index adrs) 1 ;;
              tmp <- div t1 2 ;;
              let adrs := set_tree_index adrs tmp in
              a <- index (AT i) (cast Usize j) ;;
              node_1 <- call_h hs ps adrs a node_0 ;;
              ret (node_1, adrs)) (flv hf ps t kp g (SK i), adr 0 t 3 kp 0 g))
      (froot p hf ps t kp g (SK i) (AT i), adr 0 t 3 kp (cA p) i)
      (climbC (fnd hf ps t kp) (fndC ps t kp) (fun k => nth (N.to_nat k) (AT i) []) g (N.to_nat (cA p)) 0
              (flv hf ps t kp g (SK i)))).
    { unfold for_range. apply runs_tick_quiet; [reflexivity|]. rewrite N.sub_0_r.
      unfold froot.
      set (x0 := flv hf ps t kp g (SK i)). clearbody x0.
      match goal with |- runs (for_n _ _ ?B _) _ _ =>
        assert (L : forall cnt k x, k + N.of_nat cnt <= cA p ->
          runs (for_n cnt k B (x, adr 0 t 3 kp k (g / 2 ^ k)))
               (climb (fnd hf ps t kp) (fun k => nth (N.to_nat k) (AT i) []) g cnt k x,
                adr 0 t 3 kp (k + N.of_nat cnt) (g / 2 ^ (k + N.of_nat cnt)))
               (climbC (fnd hf ps t kp) (fndC ps t kp) (fun k => nth (N.to_nat k) (AT i) []) g cnt k x)) end.
      { intros cnt. induction cnt as [|cnt IH]; intros k x Hk1; cbn [for_n climb climbC].
        - rewrite N.add_0_r. apply runs_ret.
        - set (ak := nth (N.to_nat k) (AT i) []).
          specialize (IH (k + 1) (up (fnd hf ps t kp) g k x ak) ltac:(lia)).
          replace (k + 1 + N.of_nat cnt) with (k + N.of_nat (S cnt)) in IH by lia.
          change (up (fndC ps t kp) g k x ak :: ?Z) with ([up (fndC ps t kp) g k x ak] ++ Z).
          eapply runs_bind; [|exact IH].
          rewrite add_u32 by lia. rewrite bind_ret_l. cbv zeta. adrs_norm.
          eapply runs_bind0; [exact IX|].
          rewrite shr_u32 by lia. rewrite bind_ret_l.
          apply runs_branch_bind. rewrite land1_even.
          rewrite <- (gidx_even i (cA p)) by lia. fold (fidx p md i). fold g.
          pose proof (div_pow_le g k).
          unfold up. destruct (N.even (g / 2 ^ k)) eqn:Ev.
          + rewrite adr_get_index by lia. rewrite div_ok by lia. rewrite bind_ret_l. adrs_norm.
            rewrite div_pow_S. rewrite cast_us by lia.
            eapply runs_bind0; [apply (runs_index _ _ []); lia|]. fold ak.
            eapply runs_bind_r; [apply (runs_call_h hs hf HS); apply wf_adr|]. apply runs_ret.
          + pose proof (odd_ge1 _ Ev) as Hge.
            rewrite adr_get_index by lia. rewrite sub_ok by exact Hge. rewrite bind_ret_l.
            rewrite div_ok by lia. rewrite bind_ret_l. adrs_norm.
            rewrite odd_pred_half by exact Ev.
            rewrite div_pow_S. rewrite cast_us by lia.
            eapply runs_bind0; [apply (runs_index _ _ []); lia|]. fold ak.
            eapply runs_bind_r; [apply (runs_call_h hs hf HS); apply wf_adr|]. apply runs_ret. }
      specialize (L (N.to_nat (cA p)) 0 x0 ltac:(lia)).
      rewrite N.pow_0_r, N.div_1_r, N.add_0_l, Nnat.N2Nat.id in L.
      replace (g / 2 ^ cA p) with i in L; [exact L|].
      unfold g, fidx. rewrite gidx_div by lia. rewrite N.sub_diag, N.pow_0_r, N.mul_1_r.
      rewrite N.div_small by exact Hdg. lia. }
    eapply runs_bind_r; [exact CL|].
    cbv beta iota.
    eapply runs_bind0; [apply runs_upd_filled; [rewrite nlen_nrepeat; lia|reflexivity]|].
    apply runs_ret_eq. f_equal.
    replace (i + 1 =? 0) with false by (symmetry; apply N.eqb_neq; lia).
    replace (i + 1 - 1) with i by lia. reflexivity.
  - cbv beta iota.
    replace (cK p =? 0) with false by (symmetry; apply N.eqb_neq; lia).
    rewrite adr_get_kp by exact Hkp. unfold FORS_ROOTS. adrs_norm.
    rewrite filled_all by (rewrite nlen_nrepeat; reflexivity).
    apply (runs_call_t_len hs hf HS). apply wf_adr.
Qed.

End ForsP.
