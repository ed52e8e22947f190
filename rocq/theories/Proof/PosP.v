(** Which hash calls occur in the call lists: addresses used on the verification path, addresses used
    by the owner of a key, and the inputs the owner hashes under each address. *)
From Verif Require Import Spec.Fips205.
From Verif Require Import Model.Api Proof.Facts Proof.Fun Proof.WotsP Proof.XmssP Proof.HtP Proof.ForsP Proof.SlhP
  Proof.Honest.
Import ListNotations.
Open Scope list_scope.
Open Scope N_scope.

Lemma Forall_flat_map_iff {A B} (Q : B -> Prop) (f : A -> list B) l :
  (forall x, In x l -> Forall Q (f x)) -> Forall Q (flat_map f l).
Proof.
  intros Hf. induction l as [|x l IH]; cbn [flat_map]; [constructor|]. apply Forall_app.
  split; [apply Hf; left; reflexivity|]. apply IH. intros y Hy. apply Hf. right. exact Hy.
Qed.

Section Walk.
Context (Q : event -> Prop).

Lemma Forall_chainC hf ps A : forall c s x,
  (forall j, (j < c)%nat -> Q (EHash KF ps (A (s + N.of_nat j)) [chainF hf ps A s j x])) ->
  Forall Q (chainC hf ps A s c x).
Proof.
  induction c as [|c IH]; intros s x Hj; cbn [chainC]; [constructor|]. constructor.
  - specialize (Hj O ltac:(lia)). cbn [chainF] in Hj. rewrite N.add_0_r in Hj. exact Hj.
  - apply IH. intros j Hc. specialize (Hj (S j) ltac:(lia)). cbn [chainF] in Hj.
    replace (s + 1 + N.of_nat j) with (s + N.of_nat (S j)) by lia. exact Hj.
Qed.

Context (leaf : N -> bytes) (nd : N -> N -> bytes -> bytes -> bytes).
Context (leafC : N -> list event) (ndC : N -> N -> bytes -> bytes -> event).

Lemma Forall_mnodeC : forall z i,
  (forall i', i' / 2 ^ N.of_nat z = i -> Forall Q (leafC i')) ->
  (forall z' i', (z' < z)%nat -> i' / 2 ^ (N.of_nat z - N.of_nat (S z')) = i ->
     Q (ndC (N.of_nat (S z')) i' (mnode leaf nd z' (2 * i')) (mnode leaf nd z' (2 * i' + 1)))) ->
  Forall Q (mnodeC leaf nd leafC ndC z i).
Proof.
  induction z as [|z IH]; intros i Hl Hn; cbn [mnodeC].
  - apply Hl. cbn. apply N.div_1_r.
  - assert (D : forall x e, x / 2 ^ e = 2 * i \/ x / 2 ^ e = 2 * i + 1 -> x / 2 ^ (e + 1) = i).
    { intros x e E. rewrite N.pow_add_r, <- N.div_div by (try apply pow2_nz; discriminate).
      change (2 ^ 1) with 2. destruct E as [->| ->]; lia. }
    assert (S2 : forall i2, i2 = 2 * i \/ i2 = 2 * i + 1 -> Forall Q (mnodeC leaf nd leafC ndC z i2)).
    { intros i2 E2. apply IH.
      - intros i' E. apply Hl. replace (N.of_nat (S z)) with (N.of_nat z + 1) by lia. apply D.
        rewrite E. exact E2.
      - intros z' i' Hz E. apply Hn; [lia|].
        replace (N.of_nat (S z) - N.of_nat (S z')) with (N.of_nat z - N.of_nat (S z') + 1) by lia.
        apply D. rewrite E. exact E2. }
    apply Forall_app. split; [apply S2; left; reflexivity|].
    apply Forall_app. split; [apply S2; right; reflexivity|]. constructor; [|constructor].
    apply Hn; [lia|]. rewrite N.sub_diag. apply N.div_1_r.
Qed.

End Walk.

Lemma Forall_climbC (Q : event -> Prop) (nd : N -> N -> bytes -> bytes -> bytes)
  (ndC : N -> N -> bytes -> bytes -> event) auth idx : forall cnt k x,
  (forall j, (j < cnt)%nat ->
     Q (up ndC idx (k + N.of_nat j) (climb nd auth idx j k x) (auth (k + N.of_nat j)))) ->
  Forall Q (climbC nd ndC auth idx cnt k x).
Proof.
  induction cnt as [|c IH]; intros k x Hj; cbn [climbC]; [constructor|]. constructor.
  - specialize (Hj O ltac:(lia)). cbn [climb] in Hj. rewrite !N.add_0_r in Hj. exact Hj.
  - apply IH. intros j Hc. specialize (Hj (S j) ltac:(lia)). cbn [climb] in Hj.
    replace (k + 1 + N.of_nat j) with (k + N.of_nat (S j)) by lia. exact Hj.
Qed.

(** *** the path of verification *)
Section Path.
Context (p : Params) (HP : PF p) (hf : HashFns) (ps : bytes) (t0 l0 : N) (md : bytes).

(** an address on the path given by tree index t0, leaf l0 and FORS message md *)
Definition path_adr (a : Adrs) : Prop :=
  exists l ty b c d,
    a = adr l (tree_at p t0 (N.to_nat l)) ty b c d /\ l < cD p /\
    (ty = 0 /\ b = leaf_at p t0 l0 (N.to_nat l) /\ c < cLEN p /\ d < 15 \/
     ty = 1 /\ b = leaf_at p t0 l0 (N.to_nat l) /\ c = 0 /\ d = 0 \/
     ty = 2 /\ b = 0 /\ 1 <= c <= cHP p /\ d = leaf_at p t0 l0 (N.to_nat l) / 2 ^ c \/
     ty = 3 /\ l = 0 /\ b = l0 /\ c <= cA p /\ (exists i, i < cK p /\ d = fidx p md i / 2 ^ c) \/
     ty = 4 /\ l = 0 /\ b = l0 /\ c = 0 /\ d = 0).
Definition on_path (e : event) : Prop := exists k a inp, e = EHash k ps a inp /\ path_adr a.

Lemma path_wpkC l sig m : l < cD p ->
  Forall on_path (wpkC p hf ps l (tree_at p t0 (N.to_nat l)) (leaf_at p t0 l0 (N.to_nat l)) sig m).
Proof.
  intros Hl. apply Forall_app. split.
  - apply Forall_flat_map_iff. intros i Hi. apply In_nrange in Hi. apply Forall_chainC. intros j Hj.
    eexists _, _, _. split; [reflexivity|]. unfold wA. do 5 eexists. split; [reflexivity|].
    split; [exact Hl|]. left. pose proof (wdig_lt p m i). repeat split; lia.
  - constructor; [|constructor]. eexists _, _, _. split; [reflexivity|].
    do 5 eexists. split; [reflexivity|]. split; [exact Hl|]. right. left. repeat split.
Qed.

Lemma path_xpkC l sg m : l < cD p ->
  Forall on_path (xpkC p hf ps l (tree_at p t0 (N.to_nat l)) (leaf_at p t0 l0 (N.to_nat l)) sg m).
Proof.
  intros Hl. apply Forall_app. split; [apply path_wpkC; exact Hl|].
  apply Forall_climbC. intros j Hj. unfold up.
  assert (K : forall x y, on_path (xndC ps l (tree_at p t0 (N.to_nat l)) (0 + N.of_nat j + 1)
                (leaf_at p t0 l0 (N.to_nat l) / 2 ^ (0 + N.of_nat j + 1)) x y)).
  { intros x y. eexists _, _, _. split; [reflexivity|]. do 5 eexists. split; [reflexivity|].
    split; [exact Hl|]. right. right. left. repeat split; lia. }
  destruct (N.even _); apply K.
Qed.

Lemma path_fpkC fs : Forall on_path (fpkC p hf ps t0 l0 fs md).
Proof.
  assert (Hd : 0 < cD p) by (pose proof (pf_d p HP); lia).
  assert (Et : t0 = tree_at p t0 (N.to_nat 0)).
  { unfold tree_at. cbn. rewrite N.mul_0_r. symmetry. apply N.div_1_r. }
  apply Forall_app. split.
  - apply Forall_flat_map_iff. intros i Hi. apply In_nrange in Hi. constructor.
    + eexists _, _, _. split; [reflexivity|]. unfold fA. exists 0, 3, l0, 0, (fidx p md i).
      split; [rewrite Et at 1; reflexivity|]. split; [exact Hd|]. do 3 right. left.
      repeat split; [lia|]. exists i. split; [exact Hi|]. symmetry. apply N.div_1_r.
    + apply Forall_climbC. intros j Hj. unfold up.
      assert (K : forall x y, on_path (fndC ps t0 l0 (0 + N.of_nat j + 1)
                                         (fidx p md i / 2 ^ (0 + N.of_nat j + 1)) x y)).
      { intros x y. eexists _, _, _. split; [reflexivity|]. unfold fA.
        exists 0, 3, l0, (0 + N.of_nat j + 1), (fidx p md i / 2 ^ (0 + N.of_nat j + 1)).
        split; [rewrite Et at 1; reflexivity|]. split; [exact Hd|]. do 3 right. left.
        repeat split; [lia|]. exists i. split; [exact Hi|reflexivity]. }
      destruct (N.even _); apply K.
  - constructor; [|constructor]. eexists _, _, _. split; [reflexivity|].
    exists 0, 4, l0, 0, 0. split; [rewrite Et at 1; reflexivity|]. split; [exact Hd|].
    do 4 right. repeat split.
Qed.
End Path.

Lemma path_vrootC p (HP : PF p) hf ps dg sg :
  Forall (on_path p ps (dg_tree p dg) (dg_leaf p dg) (dg_md p dg)) (vrootC p hf ps dg sg).
Proof.
  apply Forall_app. split; [apply path_fpkC; exact HP|].
  apply Forall_flat_map_iff. intros j Hj. apply in_seq in Hj. unfold hvalC.
  pose proof (path_xpkC p hf ps (dg_tree p dg) (dg_leaf p dg) (dg_md p dg) (N.of_nat j)) as K.
  rewrite Nnat.Nat2N.id in K. apply K. lia.
Qed.

(** *** arithmetic *)
Lemma div_pow_le x c : x / 2 ^ c <= x.
Proof.
  apply N.div_le_upper_bound; [apply pow2_nz|]. rewrite <- (N.mul_1_l x) at 1.
  apply N.mul_le_mono_r. pose proof (pow2_nz c). lia.
Qed.

Lemma div_lt_pow x e i m : x / 2 ^ e = i -> i < 2 ^ m -> x < 2 ^ (m + e).
Proof.
  intros E Hi. subst i. pose proof (N.div_mod x (2 ^ e) (pow2_nz e)).
  pose proof (N.mod_lt x (2 ^ e) (pow2_nz e)). rewrite N.pow_add_r. nia.
Qed.

Lemma lxor1_lt x m : x < 2 ^ m -> 1 <= m -> N.lxor x 1 < 2 ^ m.
Proof.
  intros Hx Hm. destruct (N.eq_dec (N.lxor x 1) 0) as [->|K]; [pose proof (pow2_nz m); lia|].
  apply N.log2_lt_pow2; [lia|]. eapply N.le_lt_trans; [apply N.log2_lxor|].
  apply N.max_lub_lt; [|cbn; lia].
  destruct (N.eq_dec x 0) as [->|Nx]; [cbn; lia|]. apply N.log2_lt_pow2; [lia|exact Hx].
Qed.

Lemma div_pow_lt x k m : x < 2 ^ m -> k <= m -> x / 2 ^ k < 2 ^ (m - k).
Proof.
  intros Hx Hk. apply N.div_lt_upper_bound; [apply pow2_nz|]. rewrite <- N.pow_add_r.
  replace (k + (m - k)) with m by lia. exact Hx.
Qed.

Lemma fidx_lt p md i : i < cK p -> fidx p md i < cK p * 2 ^ cA p.
Proof.
  intros Hi. unfold fidx. pose proof (N.mod_lt (of_be md / 2 ^ (8 * nlen md - (i + 1) * cA p)) (2 ^ cA p) (pow2_nz _)) as K.
  unfold digit. nia.
Qed.

Lemma sibling_bound p x k : x < cK p * 2 ^ cA p -> k < cA p ->
  N.lxor (x / 2 ^ k) 1 < cK p * 2 ^ (cA p - k).
Proof.
  intros Hx Hk.
  assert (E : cK p * 2 ^ (cA p - k) = 2 * (cK p * 2 ^ (cA p - k - 1))).
  { replace (cA p - k) with ((cA p - k - 1) + 1) at 1 by lia. rewrite N.pow_add_r. change (2 ^ 1) with 2. lia. }
  assert (Hy : x / 2 ^ k < cK p * 2 ^ (cA p - k)).
  { apply N.div_lt_upper_bound; [apply pow2_nz|].
    replace (2 ^ k * (cK p * 2 ^ (cA p - k))) with (cK p * (2 ^ (cA p - k) * 2 ^ k)) by lia.
    rewrite <- N.pow_add_r. replace (cA p - k + k) with (cA p) by lia. exact Hx. }
  rewrite E in *. set (y := x / 2 ^ k) in *. set (B := cK p * 2 ^ (cA p - k - 1)) in *.
  assert (L : N.lxor y 1 / 2 = y / 2).
  { change 2 with (2 ^ 1). rewrite <- !N.shiftr_div_pow2, N.shiftr_lxor. change (N.shiftr 1 1) with 0.
    apply N.lxor_0_r. }
  pose proof (N.div_mod (N.lxor y 1) 2 ltac:(lia)). pose proof (N.mod_lt (N.lxor y 1) 2 ltac:(lia)).
  assert (y / 2 < B) by (apply N.div_lt_upper_bound; lia). lia.
Qed.

Lemma climb_is_node leaf nd auth idx j :
  (forall i, i < N.of_nat j -> auth i = sibling leaf nd idx i) ->
  climb nd auth idx j 0 (leaf idx) = mnode leaf nd j (idx / 2 ^ N.of_nat j).
Proof.
  intros Ha. pose proof (climb_node leaf nd idx auth j 0) as K. cbn [N.to_nat Pos.to_nat mnode] in K.
  rewrite N.add_0_l, Nnat.Nat2N.id in K. change (2 ^ 0) with 1 in K. rewrite N.div_1_r in K.
  apply K. intros i Hi. apply Ha. lia.
Qed.

Lemma up_ndC leaf nd (ndC : N -> N -> bytes -> bytes -> event) idx k :
  up ndC idx k (mnode leaf nd (N.to_nat k) (idx / 2 ^ k)) (sibling leaf nd idx k)
  = let i := idx / 2 ^ (k + 1) in
    ndC (k + 1) i (mnode leaf nd (N.to_nat k) (2 * i)) (mnode leaf nd (N.to_nat k) (2 * i + 1)).
Proof.
  cbv zeta. unfold up, sibling. rewrite <- div_pow_S. set (i := idx / 2 ^ k).
  pose proof (N.div_mod i 2 ltac:(lia)) as D. rewrite <- N.bit0_mod, N.bit0_odd in D.
  destruct (N.even i) eqn:E; rewrite <- N.negb_even, E in D; cbn [negb N.b2n] in D.
  - replace (N.lxor i 1) with (i + 1).
    + rewrite N.add_0_r in D. rewrite <- D. reflexivity.
    + symmetry. rewrite N.add_nocarry_lxor; [reflexivity|].
      apply N.bits_inj. intros q. rewrite N.land_spec, N.bits_0.
      destruct (N.eq_dec q 0) as [->|Nq]; [rewrite N.bit0_odd, <- N.negb_even, E; reflexivity|].
      rewrite (N.bits_above_log2 1 q) by (cbn; lia). apply andb_false_r.
  - replace (N.lxor i 1) with (2 * (i / 2)); [rewrite <- D; reflexivity|].
    assert (X : 2 * (i / 2) + 1 = N.lxor (2 * (i / 2)) 1).
    { rewrite N.add_nocarry_lxor; [reflexivity|]. apply N.bits_inj. intros q.
      rewrite N.land_spec, N.bits_0.
      destruct (N.eq_dec q 0) as [->|Nq]; [rewrite N.testbit_even_0; reflexivity|].
      rewrite (N.bits_above_log2 1 q) by (cbn; lia). apply andb_false_r. }
    rewrite D at 2. rewrite X, N.lxor_assoc, N.lxor_nilpotent, N.lxor_0_r. reflexivity.
Qed.

(** *** the owner's calls *)
Section Own.
Context (p : Params) (HP : PF p) (hf : HashFns) (ps ss : bytes).
(** the one-time trees (layer, tree) and few-time keys (tree, key pair) considered *)
Context (okx okf : N -> N -> Prop).

(** what the owner of (ss, ps) hashes under each address *)
Inductive owned : event -> Prop :=
| own_prf l t kp i : okx l t -> kp < 2 ^ cHP p -> i < cLEN p -> owned (wskC ps ss l t kp i)
| own_chain l t kp i j : okx l t -> kp < 2 ^ cHP p -> i < cLEN p -> j < 15 ->
    owned (EHash KF ps (adr l t 0 kp i j) [wval hf ps ss l t kp i j])
| own_wpk l t kp : okx l t -> kp < 2 ^ cHP p -> owned (wcompC ps l t kp (wends p hf ps ss l t kp))
| own_node l t z i : okx l t -> (z < N.to_nat (cHP p))%nat -> i < 2 ^ (cHP p - 1) ->
    owned (xndC ps l t (N.of_nat (S z)) i (xnode p hf ps ss l t z (2 * i)) (xnode p hf ps ss l t z (2 * i + 1)))
| own_fprf t kp g : okf t kp -> g < cK p * 2 ^ cA p -> owned (fskC ps ss t kp g)
| own_fleaf t kp g : okf t kp -> g < cK p * 2 ^ cA p -> owned (flvC ps t kp g (fsk hf ps ss t kp g))
| own_fnode t kp z i : okf t kp -> (z < N.to_nat (cA p))%nat -> i < cK p * 2 ^ cA p ->
    owned (fndC ps t kp (N.of_nat (S z)) i (fnode hf ps ss t kp z (2 * i)) (fnode hf ps ss t kp z (2 * i + 1)))
| own_froots t kp : okf t kp ->
    owned (fcompC ps t kp (map (fun i => fnode hf ps ss t kp (N.to_nat (cA p)) i) (nrange (cK p)))).

Lemma owned_wvalC l t kp i s : okx l t -> kp < 2 ^ cHP p -> i < cLEN p -> s <= 15 ->
  Forall owned (wvalC hf ps ss l t kp i s).
Proof.
  intros Hl Hk Hi Hs. constructor; [apply own_prf; assumption|].
  apply Forall_chainC. intros j Hj. rewrite N.add_0_l.
  replace (chainF hf ps (wA l t kp i) 0 j (wsk hf ps ss l t kp i)) with (wval hf ps ss l t kp i (N.of_nat j))
    by (unfold wval; rewrite Nnat.Nat2N.id; reflexivity).
  apply own_chain; try assumption; lia.
Qed.

Lemma owned_wleafC l t kp : okx l t -> kp < 2 ^ cHP p -> Forall owned (wleafC p hf ps ss l t kp).
Proof.
  intros Hl Hk. apply Forall_app. split.
  - apply Forall_flat_map_iff. intros i Hi. apply In_nrange in Hi. apply owned_wvalC; try assumption; lia.
  - constructor; [|constructor]. apply own_wpk; assumption.
Qed.

Lemma owned_xnodeC l t z i :
  okx l t -> (z <= N.to_nat (cHP p))%nat -> i < 2 ^ (cHP p - N.of_nat z) ->
  Forall owned (xnodeC p hf ps ss l t z i).
Proof.
  intros Hl Hz Hi. apply Forall_mnodeC.
  - intros i' E. apply owned_wleafC; [exact Hl|].
    replace (cHP p) with (cHP p - N.of_nat z + N.of_nat z) by lia. eapply div_lt_pow; eassumption.
  - intros z' i' Hz' E. apply own_node; [exact Hl|lia|].
    eapply N.lt_le_trans; [eapply div_lt_pow; eassumption|]. apply N.pow_le_mono_r; [discriminate|]. lia.
Qed.

Lemma owned_wsigC l t kp m : okx l t -> kp < 2 ^ cHP p -> Forall owned (wsigC p hf ps ss l t kp m).
Proof.
  intros Hl Hk. apply Forall_flat_map_iff. intros i Hi. apply In_nrange in Hi.
  pose proof (wdig_lt p m i). apply owned_wvalC; try assumption; lia.
Qed.

Lemma owned_xsigC l t idx m : okx l t -> idx < 2 ^ cHP p -> Forall owned (xsigC p hf ps ss l t idx m).
Proof.
  intros Hl Hx. apply Forall_app. split; [|apply owned_wsigC; assumption].
  apply Forall_flat_map_iff. intros k Hk. apply In_nrange in Hk. unfold siblingC.
  apply owned_xnodeC; [exact Hl|lia|]. rewrite Nnat.N2Nat.id. apply lxor1_lt; [|lia].
  apply div_pow_lt; [exact Hx|lia].
Qed.

Lemma owned_xpkC l t idx m : okx l t -> idx < 2 ^ cHP p ->
  Forall owned (xpkC p hf ps l t idx (xsig p hf ps ss l t idx m) m).
Proof.
  intros Hl Hx. apply Forall_app. cbn [xsig sig_wots xmss_auth]. split.
  - apply Forall_app. split.
    + apply Forall_flat_map_iff. intros i Hi. apply In_nrange in Hi. pose proof (wdig_lt p m i) as Hd.
      unfold wsig. rewrite nth_map_nrange by exact Hi. apply Forall_chainC. intros j Hj.
      replace (chainF hf ps (wA l t idx i) (wdig p m i) j (wval hf ps ss l t idx i (wdig p m i)))
        with (wval hf ps ss l t idx i (wdig p m i + N.of_nat j)).
      * apply own_chain; try assumption; lia.
      * unfold wval. pose proof (chainF_add hf ps (wA l t idx i) (N.to_nat (wdig p m i)) j 0
                                   (wsk hf ps ss l t idx i)) as K.
        rewrite N.add_0_l, Nnat.N2Nat.id in K. rewrite K. f_equal. lia.
    + constructor; [|constructor].
      replace (wtips p hf ps l t idx (wsig p hf ps ss l t idx m) m) with (wends p hf ps ss l t idx).
      * apply own_wpk; assumption.
      * unfold wends, wtips. apply map_ext_in. intros i Hi. apply In_nrange in Hi.
        unfold wsig. rewrite nth_map_nrange by exact Hi. unfold wval. pose proof (wdig_lt p m i) as Hd.
        pose proof (chainF_add hf ps (wA l t idx i) (N.to_nat (wdig p m i)) (N.to_nat (15 - wdig p m i)) 0
                      (wsk hf ps ss l t idx i)) as K.
        rewrite N.add_0_l, Nnat.N2Nat.id in K. rewrite K. f_equal. lia.
  - rewrite wpk_honest. apply Forall_climbC. intros j Hj.
    assert (A : forall k, k < cHP p ->
              nth (N.to_nat k) (xauth p hf ps ss l t idx) [] = sibling (wleaf p hf ps ss l t) (xnd hf ps l t) idx k)
      by (intros k Hk; unfold xauth; apply nth_map_nrange; exact Hk).
    rewrite climb_is_node by (intros i Hi; apply A; lia).
    cbv beta. rewrite N.add_0_l. rewrite (A (N.of_nat j)) by lia.
    pose proof (up_ndC (wleaf p hf ps ss l t) (xnd hf ps l t) (xndC ps l t) idx (N.of_nat j)) as K.
    rewrite Nnat.Nat2N.id in K. rewrite K. cbv zeta.
    replace (N.of_nat j + 1) with (N.of_nat (S j)) by lia.
    apply own_node; [exact Hl|lia|].
    eapply N.lt_le_trans; [apply div_pow_lt; [exact Hx|lia]|]. apply N.pow_le_mono_r; [discriminate|lia].
Qed.

Lemma owned_hsigC t0 l0 m : l0 < 2 ^ cHP p ->
  (forall j, (j < N.to_nat (cD p))%nat -> okx (N.of_nat j) (tree_at p t0 j)) -> Forall owned (hsigC p hf ps ss t0 l0 m).
Proof.
  intros Hl0 Hok. apply Forall_flat_map_iff. intros j Hj. apply in_seq in Hj.
  specialize (Hok j ltac:(lia)).
  pose proof (leaf_at_lt p t0 l0 j Hl0) as Hlf.
  apply Forall_app. split; [apply owned_xsigC; [exact Hok|exact Hlf]|].
  destruct (_ <? _)%nat; [|constructor]. apply owned_xpkC; [exact Hok|exact Hlf].
Qed.

Lemma owned_fnodeC t kp z i :
  okf t kp -> (z <= N.to_nat (cA p))%nat -> i < cK p * 2 ^ (cA p - N.of_nat z) ->
  Forall owned (fnodeC hf ps ss t kp z i).
Proof.
  intros Hk Hz Hi.
  assert (G : forall x e, e <= N.of_nat z -> x / 2 ^ e = i -> x < cK p * 2 ^ cA p).
  { intros x e He E. subst i. pose proof (N.div_mod x (2 ^ e) (pow2_nz e)) as D.
    pose proof (N.mod_lt x (2 ^ e) (pow2_nz e)) as M.
    assert (X : x < cK p * 2 ^ (cA p - N.of_nat z) * 2 ^ e) by nia.
    eapply N.lt_le_trans; [exact X|]. rewrite <- N.mul_assoc, <- N.pow_add_r.
    apply N.mul_le_mono_l, N.pow_le_mono_r; [discriminate|]. lia. }
  apply Forall_mnodeC.
  - intros i' E. apply G in E; [|lia]. constructor; [apply own_fprf; assumption|].
    constructor; [apply own_fleaf; assumption|constructor].
  - intros z' i' Hz' E. apply G in E; [|lia]. apply own_fnode; [exact Hk|lia|exact E].
Qed.

Lemma owned_fsigC t kp md : okf t kp -> Forall owned (fsigC p hf ps ss t kp md).
Proof.
  intros Hk. apply Forall_flat_map_iff. intros i Hi. apply In_nrange in Hi.
  pose proof (fidx_lt p md i Hi) as Hf. constructor; [apply own_fprf; assumption|].
  apply Forall_flat_map_iff. intros k Hkk. apply In_nrange in Hkk. unfold siblingC.
  apply owned_fnodeC; [exact Hk|lia|]. rewrite Nnat.N2Nat.id. apply sibling_bound; assumption.
Qed.

Lemma owned_fpkC t kp md : okf t kp ->
  Forall owned (fpkC p hf ps t kp (fsig p hf ps ss t kp md) md).
Proof.
  intros Hk. apply Forall_app. split.
  - apply Forall_flat_map_iff. intros i Hi. apply In_nrange in Hi. pose proof (fidx_lt p md i Hi) as Hf.
    unfold fsig. cbn [private_key_value fors_auth]. rewrite !nth_map_nrange by exact Hi.
    constructor; [apply own_fleaf; assumption|].
    apply Forall_climbC. intros j Hj.
    assert (A : forall k, k < cA p ->
              nth (N.to_nat k) (fauth p hf ps ss t kp (fidx p md i)) []
              = sibling (fleaf hf ps ss t kp) (fnd hf ps t kp) (fidx p md i) k)
      by (intros k Hkk; unfold fauth; apply nth_map_nrange; exact Hkk).
    change (flv hf ps t kp (fidx p md i) (fsk hf ps ss t kp (fidx p md i)))
      with (fleaf hf ps ss t kp (fidx p md i)).
    rewrite climb_is_node by (intros q Hq; apply A; lia).
    cbv beta. rewrite N.add_0_l. rewrite (A (N.of_nat j)) by lia.
    pose proof (up_ndC (fleaf hf ps ss t kp) (fnd hf ps t kp) (fndC ps t kp) (fidx p md i) (N.of_nat j)) as K.
    rewrite Nnat.Nat2N.id in K. rewrite K. cbv zeta.
    replace (N.of_nat j + 1) with (N.of_nat (S j)) by lia.
    apply own_fnode; [exact Hk|lia|].
    eapply N.le_lt_trans; [|exact Hf]. apply N.div_le_upper_bound; [apply pow2_nz|].
    pose proof (pow2_nz (N.of_nat (S j))). nia.
  - constructor; [|constructor]. rewrite froots_honest. apply own_froots. exact Hk.
Qed.

Lemma owned_sig_tailC dg :
  okf (dg_tree p dg) (dg_leaf p dg) ->
  (forall j, (j < N.to_nat (cD p))%nat -> okx (N.of_nat j) (tree_at p (dg_tree p dg) j)) ->
  Forall owned (sig_tailC p hf ps ss dg).
Proof.
  intros Hf Hx. pose proof (dg_leaf_lt p dg) as Hl.
  apply Forall_app. split; [apply owned_fsigC; exact Hf|].
  apply Forall_app. split; [apply owned_fpkC; exact Hf|apply owned_hsigC; assumption].
Qed.

Lemma owned_prootC : okx (cD p - 1) 0 -> Forall owned (prootC p hf ps ss).
Proof.
  intros Hx. apply owned_xnodeC; [exact Hx|lia|]. rewrite Nnat.N2Nat.id, N.sub_diag. reflexivity.
Qed.
End Own.
