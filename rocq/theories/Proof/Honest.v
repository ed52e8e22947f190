(** Honest signatures verify: recomputation from an honest signature gives the public root. *)
From Verif Require Export Proof.SlhP.
From Verif Require Import Spec.Fips205.
From Verif Require Import Model.Types Model.Wots Model.Xmss Model.Hypertree Model.Fors Model.Slh.

Section Tree.
Context (leaf : N -> bytes) (nd : N -> N -> bytes -> bytes -> bytes).

Lemma up_node idx k :
  up nd idx k (mnode leaf nd (N.to_nat k) (idx / 2 ^ k)) (sibling leaf nd idx k)
  = mnode leaf nd (N.to_nat (k + 1)) (idx / 2 ^ (k + 1)).
Proof.
  unfold up, sibling. rewrite <- div_pow_S. set (i := idx / 2 ^ k).
  replace (N.to_nat (k + 1)) with (S (N.to_nat k)) by lia. cbn [mnode].
  replace (N.of_nat (S (N.to_nat k))) with (k + 1) by lia.
  destruct (N.even i) eqn:E.
  - rewrite (lxor1_even _ E). rewrite <- (even_half _ E). reflexivity.
  - rewrite (lxor1_odd _ E). pose proof (odd_half _ E) as O. rewrite <- O.
    replace (i - 1) with (2 * (i / 2)) by lia. reflexivity.
Qed.

Lemma climb_node idx auth : forall cnt k,
  (forall j, k <= j < k + N.of_nat cnt -> auth j = sibling leaf nd idx j) ->
  climb nd auth idx cnt k (mnode leaf nd (N.to_nat k) (idx / 2 ^ k))
  = mnode leaf nd (N.to_nat (k + N.of_nat cnt)) (idx / 2 ^ (k + N.of_nat cnt)).
Proof.
  induction cnt as [|cnt IH]; intros k Ha; cbn [climb].
  - rewrite N.add_0_r. reflexivity.
  - rewrite (Ha k) by lia. rewrite up_node. rewrite IH by (intros j Hj; apply Ha; lia).
    replace (k + 1 + N.of_nat cnt) with (k + N.of_nat (S cnt)) by lia. reflexivity.
Qed.

End Tree.

Lemma chainF_add hf ps A : forall c1 c2 s x,
  chainF hf ps A (s + N.of_nat c1) c2 (chainF hf ps A s c1 x) = chainF hf ps A s (c1 + c2) x.
Proof.
  induction c1 as [|c1 IH]; intros c2 s x; cbn [chainF Nat.add].
  - rewrite N.add_0_r. reflexivity.
  - rewrite <- IH. f_equal. lia.
Qed.

Section Honest.
Context (p : Params) (HP : PF p) (hf : HashFns).
Context (ps ss : bytes).

Lemma wpk_honest l t kp m :
  wpk p hf ps l t kp (wsig p hf ps ss l t kp m) m = wleaf p hf ps ss l t kp.
Proof.
  unfold wpk, wleaf. f_equal. unfold wtips, wends. apply map_ext_in. intros i Hi.
  apply In_nrange in Hi. unfold wsig. rewrite nth_map_nrange by exact Hi.
  unfold wval. pose proof (wdig_lt p m i) as Hd.
  pose proof (chainF_add hf ps (wA l t kp i) (N.to_nat (wdig p m i)) (N.to_nat (15 - wdig p m i)) 0
                (wsk hf ps ss l t kp i)) as E.
  rewrite N.add_0_l, Nnat.N2Nat.id in E. rewrite E. f_equal. lia.
Qed.

Lemma xpk_honest l t idx m :
  xpk p hf ps l t idx (xsig p hf ps ss l t idx m) m
  = xnode p hf ps ss l t (N.to_nat (cHP p)) (idx / 2 ^ cHP p).
Proof.
  unfold xpk, xsig. cbn [sig_wots xmss_auth]. rewrite wpk_honest. unfold xnode.
  pose proof (climb_node (wleaf p hf ps ss l t) (xnd hf ps l t) idx
                (fun k => nth (N.to_nat k) (xauth p hf ps ss l t idx) []) (N.to_nat (cHP p)) 0) as E.
  rewrite N.pow_0_r, N.div_1_r, N.add_0_l, Nnat.N2Nat.id in E. change (N.to_nat 0) with O in E.
  cbn [mnode] in E. rewrite E; [reflexivity|].
  intros j Hj. unfold xauth. apply nth_map_nrange. lia.
Qed.

Lemma xpk_honest_root l t idx m : idx < 2 ^ cHP p ->
  xpk p hf ps l t idx (xsig p hf ps ss l t idx m) m = xnode p hf ps ss l t (N.to_nat (cHP p)) 0.
Proof. intros H. rewrite xpk_honest, N.div_small by exact H. reflexivity. Qed.

Lemma hmsg_S t0 l0 m j : l0 < 2 ^ cHP p ->
  hmsg p hf ps ss t0 l0 m (S j)
  = xnode p hf ps ss (N.of_nat j) (tree_at p t0 j) (N.to_nat (cHP p)) 0.
Proof. intros Hl. cbn [hmsg]. apply xpk_honest_root. apply leaf_at_lt. exact Hl. Qed.

Lemma hval_hmsg t0 l0 m sigs : forall j,
  (forall i, (i < j)%nat -> sigs i = hsig_at p hf ps ss t0 l0 m i) ->
  hval p hf ps t0 l0 sigs m j = hmsg p hf ps ss t0 l0 m j.
Proof.
  induction j as [|j IH]; intros Hs; cbn [hval hmsg]; [reflexivity|].
  rewrite IH by (intros i Hi; apply Hs; lia). rewrite Hs by lia. reflexivity.
Qed.

Lemma nth_hsig t0 l0 m j : (j < N.to_nat (cD p))%nat ->
  nth j (hsig p hf ps ss t0 l0 m) (mkXmssSig [] []) = hsig_at p hf ps ss t0 l0 m j.
Proof.
  intros Hj. unfold hsig.
  rewrite (nth_indep _ _ (hsig_at p hf ps ss t0 l0 m O)) by (rewrite map_length, seq_length; exact Hj).
  rewrite map_nth, seq_nth by exact Hj. reflexivity.
Qed.

(** the topmost tree is tree 0 *)
Lemma tree_at_top t0 : t0 < 2 ^ (cH p - cHP p) -> tree_at p t0 (N.to_nat (cD p) - 1) = 0.
Proof.
  intros Ht. unfold tree_at. apply N.div_small. eapply N.lt_le_trans; [exact Ht|].
  apply N.pow_le_mono_r; [discriminate|]. rewrite (pf_h p HP). pose proof (pf_d p HP).
  replace (N.of_nat (N.to_nat (cD p) - 1)) with (cD p - 1) by lia. nia.
Qed.

Lemma hval_honest t0 l0 m :
  t0 < 2 ^ (cH p - cHP p) -> l0 < 2 ^ cHP p ->
  hval p hf ps t0 l0 (fun j => nth j (hsig p hf ps ss t0 l0 m) (mkXmssSig [] [])) m (N.to_nat (cD p))
  = proot p hf ps ss.
Proof.
  intros Ht Hl. rewrite hval_hmsg by (intros i Hi; apply nth_hsig; exact Hi).
  pose proof (pf_d p HP). replace (N.to_nat (cD p)) with (S (N.to_nat (cD p) - 1)) by lia.
  rewrite hmsg_S by exact Hl. rewrite tree_at_top by exact Ht. unfold proot.
  f_equal. lia.
Qed.

Lemma vroot_honest R dg :
  vroot p hf ps dg (mkSlhDsaSig R (sig_fors_of p hf ps ss dg) (sig_ht_of p hf ps ss dg))
  = proot p hf ps ss.
Proof.
  unfold vroot. cbn [fors_sig ht_sig].
  change (fpk p hf ps (dg_tree p dg) (dg_leaf p dg) (sig_fors_of p hf ps ss dg) (dg_md p dg))
    with (fpk_honest p hf ps ss dg).
  apply hval_honest; apply N.mod_lt, pow2_nz.
Qed.

(** the FORS key recomputed from an honest FORS signature is the compression of the honest roots *)
Lemma froot_honest t kp g :
  froot p hf ps t kp g (fsk hf ps ss t kp g) (fauth p hf ps ss t kp g)
  = fnode hf ps ss t kp (N.to_nat (cA p)) (g / 2 ^ cA p).
Proof.
  unfold froot, fnode.
  pose proof (climb_node (fleaf hf ps ss t kp) (fnd hf ps t kp) g
                (fun k => nth (N.to_nat k) (fauth p hf ps ss t kp g) []) (N.to_nat (cA p)) 0) as E.
  rewrite N.pow_0_r, N.div_1_r, N.add_0_l, Nnat.N2Nat.id in E. change (N.to_nat 0) with O in E.
  cbn [mnode] in E. change (flv hf ps t kp g (fsk hf ps ss t kp g)) with (fleaf hf ps ss t kp g).
  rewrite E; [reflexivity|].
  intros j Hj. unfold fauth. apply nth_map_nrange. lia.
Qed.

Lemma froots_honest t kp md :
  froots p hf ps t kp (fsig p hf ps ss t kp md) md
  = map (fun i => fnode hf ps ss t kp (N.to_nat (cA p)) i) (nrange (cK p)).
Proof.
  unfold froots. apply map_ext_in. intros i Hi. apply In_nrange in Hi.
  unfold fsig. cbn [private_key_value fors_auth]. rewrite !nth_map_nrange by exact Hi.
  rewrite froot_honest. f_equal. unfold fidx.
  rewrite N.add_comm, N.div_add by apply pow2_nz.
  rewrite N.div_small by (apply digit_lt). reflexivity.
Qed.

End Honest.
