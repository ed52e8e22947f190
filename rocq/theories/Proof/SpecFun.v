(** The algorithms of FIPS 205 (Spec/Fips205.v) compute the closed forms of Proof/Fun.v. *)
From Verif Require Import Proof.SpecP Proof.ApiP.
From Verif Require Import Model.Types.
From Verif Require Import Spec.Fips205.

(** 32-byte addresses *)
Definition fl (l t ty a b c : N) : bytes :=
  be_bytes 4 l ++ be_bytes 12 t ++ be_bytes 4 ty ++ be_bytes 4 a ++ be_bytes 4 b ++ be_bytes 4 c.

Lemma be12 t : t < 18446744073709551616 ->
  be_bytes 12 t = nrepeat x00 4 ++ sub_bytes (be_bytes 8 t) 0 4 ++ sub_bytes (be_bytes 8 t) 4 8.
Proof.
  intros Ht. apply of_be_inj; [reflexivity|].
  rewrite of_be_be_bytes.
  replace (sub_bytes (be_bytes 8 t) 0 4 ++ sub_bytes (be_bytes 8 t) 4 8) with (be_bytes 8 t).
  - unfold nrepeat. rewrite of_be_repeat_zero, of_be_be_bytes.
    change (256 ^ N.of_nat 12) with (256 ^ 12). change (256 ^ N.of_nat 8) with (256 ^ 8).
    rewrite !N.mod_small; [reflexivity| |]; (eapply N.lt_le_trans; [exact Ht|]); vm_compute; discriminate.
  - rewrite sub_bytes_split by discriminate. reflexivity.
Qed.

Lemma flat_adr l t ty a b c : t < 18446744073709551616 -> flat (adr l t ty a b c) = fl l t ty a b c.
Proof. intros Ht. unfold fl. rewrite be12 by exact Ht. reflexivity. Qed.

Lemma toByte4 x : toByte x 4 = be_bytes 4 x. Proof. apply toByte_be. Qed.
Lemma toByte12 x : toByte x 12 = be_bytes 12 x. Proof. apply toByte_be. Qed.

Lemma setLayer_fl l t ty a b c x : setLayerAddress (fl l t ty a b c) x = fl x t ty a b c.
Proof. unfold setLayerAddress. rewrite toByte4. reflexivity. Qed.
Lemma setTree_fl l t ty a b c x : setTreeAddress (fl l t ty a b c) x = fl l x ty a b c.
Proof. unfold setTreeAddress. rewrite toByte12. reflexivity. Qed.
Lemma setType_fl l t ty a b c x : setTypeAndClear (fl l t ty a b c) x = fl l t x 0 0 0.
Proof. unfold setTypeAndClear. rewrite toByte4. reflexivity. Qed.
Lemma setKP_fl l t ty a b c x : setKeyPairAddress (fl l t ty a b c) x = fl l t ty x b c.
Proof. unfold setKeyPairAddress. rewrite toByte4. reflexivity. Qed.
Lemma setChain_fl l t ty a b c x : setChainAddress (fl l t ty a b c) x = fl l t ty a x c.
Proof. unfold setChainAddress. rewrite toByte4. reflexivity. Qed.
Lemma setHeight_fl l t ty a b c x : setTreeHeight (fl l t ty a b c) x = fl l t ty a x c.
Proof. unfold setTreeHeight. rewrite toByte4. reflexivity. Qed.
Lemma setHash_fl l t ty a b c x : setHashAddress (fl l t ty a b c) x = fl l t ty a b x.
Proof. unfold setHashAddress. rewrite toByte4. reflexivity. Qed.
Lemma setIndex_fl l t ty a b c x : setTreeIndex (fl l t ty a b c) x = fl l t ty a b x.
Proof. unfold setTreeIndex. rewrite toByte4. reflexivity. Qed.
Lemma getKP_fl l t ty a b c : a < 4294967296 -> getKeyPairAddress (fl l t ty a b c) = a.
Proof.
  intros Ha. unfold getKeyPairAddress.
  change (sub_bytes (fl l t ty a b c) 20 24) with (be_bytes 4 a).
  rewrite toInt_of_be by reflexivity. rewrite of_be_be_bytes. apply N.mod_small. exact Ha.
Qed.
Lemma getIndex_fl l t ty a b c : c < 4294967296 -> getTreeIndex (fl l t ty a b c) = c.
Proof.
  intros Ha. unfold getTreeIndex.
  change (sub_bytes (fl l t ty a b c) 28 32) with (be_bytes 4 c).
  rewrite toInt_of_be by reflexivity. rewrite of_be_be_bytes. apply N.mod_small. exact Ha.
Qed.
Lemma zero_fl : toByte 0 32 = fl 0 0 0 0 0 0. Proof. reflexivity. Qed.

(** sub-strings of sub-strings *)
Lemma sub_sub {A} (l : list A) lo hi a b :
  lo + b <= hi -> sub_bytes (sub_bytes l lo hi) a b = sub_bytes l (lo + a) (lo + b).
Proof.
  intros Hb. unfold sub_bytes. rewrite skipn_firstn_comm, firstn_firstn, skipn_skipn.
  f_equal; [lia|]. f_equal. lia.
Qed.

Section SF.
Context {T : Target} (p : Params) (HP : PF p) (hf : HashFns) (HL : HLen (cN p) (cM p) hf).
Let FP := fips_of p.
Let n := cN p.

Lemma len1_eq : len1_ FP = 2 * n.
Proof. unfold len1_, ceil_div, FP, fips_of. cbn [n_ lg_w_]. fold n. lia. Qed.
Lemma len2_eq : len2_ FP = 3.
Proof.
  unfold len2_. rewrite len1_eq. unfold w_, FP, fips_of, n. cbn [lg_w_].
  destruct (pf_n p HP) as [E|[E|E]]; rewrite E; reflexivity.
Qed.
Lemma len_eq : len_ FP = cLEN p.
Proof. unfold len_. rewrite len1_eq, len2_eq. unfold cLEN, n. lia. Qed.
Lemma w_eq : w_ FP = 16. Proof. reflexivity. Qed.

Lemma wots_digits_eq M : nlen M = n -> wots_digits FP M = wdigits p M.
Proof.
  intros HM. unfold wots_digits. rewrite len1_eq, len2_eq, w_eq.
  unfold FP, fips_of. cbn [lg_w_]. cbv zeta.
  rewrite (base_2b_digits M) by lia.
  replace (for_ 0 (2 * n) (fun i c => c + 16 - 1 - nth (N.to_nat i) (digits M 4 (2 * n)) 0) 0)
    with (csum p M).
  2:{ symmetry. unfold csum. fold n.
      apply (for_st' _ (fun i => fold_left (fun c d => c + (15 - d)) (map (digit M 4) (nrange i)) 0));
        [lia|reflexivity|reflexivity|].
      intros i Hi. rewrite nrange_snoc, map_app, fold_left_app. cbn [map fold_left].
      unfold digits. rewrite nth_map_nrange by lia.
      assert (D : digit M 4 i < 16) by (apply N.mod_lt; discriminate). lia. }
  change (2 ^ ((8 - (3 * 4) mod 8) mod 8)) with 16.
  change (ceil_div (3 * 4) 8) with 2. rewrite toByte_be. change (N.to_nat 2) with 2%nat.
  rewrite base_2b_digits; [reflexivity|lia|]. unfold nlen. rewrite length_be_bytes. discriminate.
Qed.

Context (ps : bytes).

Lemma chain_fun l t kp i : t < 18446744073709551616 -> forall s j X hh,
  chain hf X j (N.of_nat s) ps (fl l t 0 kp i hh) = chainF hf ps (wA l t kp i) j s X.
Proof.
  intros Ht s. unfold chain, for_. 
  assert (G : forall k j X hh, fst (fold_left (fun (s : bytes * bytes) j => let '(tmp, ADRS) := s in
              let ADRS0 := setHashAddress ADRS j in (F hf ps ADRS0 tmp, ADRS0))
              (nseq j k) (X, fl l t 0 kp i hh)) = chainF hf ps (wA l t kp i) j k X).
  { induction k as [|k IH]; intros j X hh; cbn [nseq fold_left chainF]; [reflexivity|].
    rewrite setHash_fl, IH. unfold wA. rewrite flat_adr by exact Ht. reflexivity. }
  intros j X hh. replace (N.to_nat (j + N.of_nat s - j)) with s by lia. apply G.
Qed.

Lemma chain_fun' l t kp i s j X hh : t < 18446744073709551616 ->
  chain hf X j s ps (fl l t 0 kp i hh) = chainF hf ps (wA l t kp i) j (N.to_nat s) X.
Proof. intros Ht. rewrite <- (chain_fun l t kp i Ht _ _ _ hh). f_equal. lia. Qed.

Section Secret.
Context (ss : bytes).

Lemma wots_pkGen_eq l t kp : t < 18446744073709551616 -> kp < 4294967296 ->
  wots_pkGen FP hf ss ps (fl l t 0 kp 0 0) = wleaf p hf ps ss l t kp.
Proof.
  intros Ht Hk. unfold wots_pkGen. rewrite setType_fl, setKP_fl, getKP_fl by exact Hk.
  rewrite len_eq, w_eq. cbv zeta. change (16 - 1) with 15.
  rewrite (for_st' _ (fun i => (map (fun i => wval hf ps ss l t kp i 15) (nrange i),
                                fl l t 0 kp (i - 1) 0, fl l t WOTS_PRF kp (i - 1) 0))
             0 (cLEN p) _ (wends p hf ps ss l t kp, fl l t 0 kp (cLEN p - 1) 0,
                           fl l t WOTS_PRF kp (cLEN p - 1) 0));
    [|lia|reflexivity|reflexivity|].
  - rewrite setType_fl, setKP_fl, getKP_fl by exact Hk.
    unfold wleaf, wcomp. rewrite flat_adr by exact Ht. reflexivity.
  - intros i _. rewrite !setChain_fl. rewrite nrange_snoc, map_app. cbn [map].
    replace (i + 1 - 1) with i by lia. rewrite chain_fun' by exact Ht.
    unfold wval, wsk. rewrite flat_adr by exact Ht. reflexivity.
Qed.

Lemma wots_sign_eq l t kp M : t < 18446744073709551616 -> kp < 4294967296 -> nlen M = n ->
  wots_sign FP hf M ss ps (fl l t 0 kp 0 0) = wsig p hf ps ss l t kp M.
Proof.
  intros Ht Hk HM. unfold wots_sign. rewrite setType_fl, setKP_fl, getKP_fl by exact Hk.
  rewrite len_eq, wots_digits_eq by exact HM. cbv zeta.
  rewrite (for_st' _ (fun i => (map (fun i => wval hf ps ss l t kp i (wdig p M i)) (nrange i),
                                fl l t 0 kp (i - 1) 0, fl l t WOTS_PRF kp (i - 1) 0))
             0 (cLEN p) _ (wsig p hf ps ss l t kp M, fl l t 0 kp (cLEN p - 1) 0,
                           fl l t WOTS_PRF kp (cLEN p - 1) 0));
    [reflexivity|lia|reflexivity|reflexivity|].
  intros i _. rewrite !setChain_fl. rewrite nrange_snoc, map_app. cbn [map].
  replace (i + 1 - 1) with i by lia. rewrite chain_fun' by exact Ht.
  unfold wval, wsk. rewrite flat_adr by exact Ht. reflexivity.
Qed.
End Secret.

Lemma wots_pkFromSig_eq l t kp sig ws M : t < 18446744073709551616 -> kp < 4294967296 -> nlen M = n ->
  (forall i, i < cLEN p -> blk n sig i = nth (N.to_nat i) ws []) ->
  wots_pkFromSig FP hf sig M ps (fl l t 0 kp 0 0) = wpk p hf ps l t kp ws M.
Proof.
  intros Ht Hk HM HB. unfold wots_pkFromSig. 
  rewrite len_eq, w_eq, wots_digits_eq by exact HM. cbv zeta. change (16 - 1) with 15.
  rewrite (for_st' _ (fun i => (map (fun i => chainF hf ps (wA l t kp i) (wdig p M i)
                       (N.to_nat (15 - wdig p M i)) (nth (N.to_nat i) ws [])) (nrange i),
                                fl l t 0 kp (i - 1) 0))
             0 (cLEN p) _ (wtips p hf ps l t kp ws M, fl l t 0 kp (cLEN p - 1) 0));
    [|lia|reflexivity|reflexivity|].
  - rewrite setType_fl, setKP_fl, getKP_fl by exact Hk.
    unfold wpk, wcomp. rewrite flat_adr by exact Ht. reflexivity.
  - intros i Hi. rewrite !setChain_fl. rewrite nrange_snoc, map_app. cbn [map].
    replace (i + 1 - 1) with i by lia. rewrite chain_fun' by exact Ht.
    change (sub_bytes sig (i * n_ FP) ((i + 1) * n_ FP)) with (blk n sig i).
    rewrite HB by lia. reflexivity.
Qed.

(** *** XMSS *)
Lemma xmss_node_eq ss l t ty a b c : t < 18446744073709551616 -> forall z i,
  (i + 1) * 2 ^ N.of_nat z <= 4294967296 ->
  Fips205.xmss_node FP hf ss i z ps (fl l t ty a b c) = xnode p hf ps ss l t z i.
Proof.
  intros Ht. induction z as [|z IH]; intros i Hi; cbn [Fips205.xmss_node]; unfold xnode; cbn [mnode].
  - rewrite setType_fl, setKP_fl. cbn in Hi. apply wots_pkGen_eq; [exact Ht|lia].
  - rewrite Nnat.Nat2N.inj_succ, N.pow_succ_r' in Hi.
    rewrite setType_fl, setHeight_fl, setIndex_fl. rewrite !IH by nia.
    unfold xnd. rewrite flat_adr by exact Ht. reflexivity.
Qed.

Lemma path_bound idx j h : idx < 2 ^ h -> j < h -> (N.lxor (idx / 2 ^ j) 1 + 1) * 2 ^ j <= 2 ^ h.
Proof.
  intros Hi Hj. set (x := idx / 2 ^ j).
  assert (Hx : x < 2 ^ (h - j)).
  { apply N.div_lt_upper_bound; [apply pow2_nz|]. rewrite <- N.pow_add_r.
    replace (j + (h - j)) with h by lia. exact Hi. }
  assert (Ex : exists q, 2 ^ (h - j) = 2 * q).
  { exists (2 ^ (h - j - 1)). rewrite <- N.pow_succ_r'. f_equal. lia. }
  destruct Ex as [q Eq].
  assert (L : N.lxor x 1 + 1 <= 2 ^ (h - j)).
  { destruct (N.even x) eqn:E.
    - rewrite lxor1_even by exact E. apply even_half in E. lia.
    - rewrite lxor1_odd by exact E. lia. }
  replace (2 ^ h) with (2 ^ (h - j) * 2 ^ j) by (rewrite <- N.pow_add_r; f_equal; lia).
  apply N.mul_le_mono_r. exact L.
Qed.

Definition xsig_bytes (sg : XmssSig) : bytes := concat (sig_wots sg) ++ concat (xmss_auth sg).

Lemma xmss_sign_eq ss l t M idx ty a b c :
  t < 18446744073709551616 -> idx < 2 ^ cHP p -> nlen M = n ->
  Fips205.xmss_sign FP hf M ss idx ps (fl l t ty a b c) = xsig_bytes (xsig p hf ps ss l t idx M).
Proof.
  intros Ht Hi HM. unfold Fips205.xmss_sign. pose proof (pf_hp p HP) as Hhp.
  pose proof (pow2_le9 (cHP p) ltac:(lia)) as H9.
  cbv zeta. rewrite (for_append (fun j => Fips205.xmss_node FP hf ss (N.lxor (idx / 2 ^ j) 1)
                       (N.to_nat j) ps (fl l t ty a b c))).
  rewrite setType_fl, setKP_fl. rewrite wots_sign_eq by (try assumption; lia).
  unfold xsig_bytes, xsig. cbn [sig_wots xmss_auth]. do 2 f_equal.
  apply map_nrange_ext. intros j Hj. apply xmss_node_eq; [exact Ht|].
  rewrite Nnat.N2Nat.id. pose proof (path_bound idx j (cHP p) Hi Hj). lia.
Qed.

Lemma even_shift x k : N.even (x / 2 ^ k) = false -> (x / 2 ^ k - 1) / 2 = x / 2 ^ (k + 1).
Proof. intros E. rewrite odd_pred_half by exact E. apply div_pow_S. Qed.

(** the loop shared by Algorithms 11 and 17 *)
Lemma climb_loop (g : N -> N -> bytes -> bytes -> bytes) (l t ty kp : N) (idx cnt : N) (AUTH : bytes)
    (auth : list bytes) (par : N -> bool) (x : bytes) (b0 : N) :
  t < 18446744073709551616 -> idx < 4294967296 ->
  (forall k, k < cnt -> par k = N.even (idx / 2 ^ k)) ->
  (forall k, k < cnt -> sub_bytes AUTH (k * n) ((k + 1) * n) = nth (N.to_nat k) auth []) ->
  (forall z i x y, g z i x y = H hf ps (flat (adr l t ty kp z i)) (x ++ y)) ->
  for_ 0 cnt
    (fun kk '(node, ADRS) =>
       let ADRS := setTreeHeight ADRS (kk + 1) in
       let AUTHk := sub_bytes AUTH (kk * n) ((kk + 1) * n) in
       if par kk then
         let ADRS := setTreeIndex ADRS (getTreeIndex ADRS / 2) in
         (H hf ps ADRS (node ++ AUTHk), ADRS)
       else
         let ADRS := setTreeIndex ADRS ((getTreeIndex ADRS - 1) / 2) in
         (H hf ps ADRS (AUTHk ++ node), ADRS))
    (x, fl l t ty kp b0 idx)
  = (climb g (fun k => nth (N.to_nat k) auth []) idx (N.to_nat cnt) 0 x,
     fl l t ty kp (if cnt =? 0 then b0 else cnt) (idx / 2 ^ cnt)).
Proof.
  intros Ht Hidx Hpar HA Hg.
  apply (for_st' _ (fun k => (climb g (fun k => nth (N.to_nat k) auth []) idx (N.to_nat k) 0 x,
                              fl l t ty kp (if k =? 0 then b0 else k) (idx / 2 ^ k)))).
  - lia.
  - cbn [N.to_nat climb N.eqb]. rewrite N.pow_0_r, N.div_1_r. reflexivity.
  - reflexivity.
  - intros k Hk. pose proof (div_pow_le idx k) as Hle.
    cbv beta iota zeta. rewrite setHeight_fl, getIndex_fl by lia. rewrite HA by lia. rewrite Hpar by lia.
    assert (CS : forall c k0 y, climb g (fun k => nth (N.to_nat k) auth []) idx (S c) k0 y
             = up g idx (k0 + N.of_nat c) (climb g (fun k => nth (N.to_nat k) auth []) idx c k0 y)
                    (nth (N.to_nat (k0 + N.of_nat c)) auth [])).
    { induction c as [|c IH]; intros k0 y.
      - cbn [climb N.of_nat]. rewrite N.add_0_r. reflexivity.
      - change (climb g (fun k => nth (N.to_nat k) auth []) idx (S (S c)) k0 y)
          with (climb g (fun k => nth (N.to_nat k) auth []) idx (S c) (k0 + 1) (up g idx k0 y (nth (N.to_nat k0) auth []))).
        rewrite IH. cbn [climb]. replace (k0 + 1 + N.of_nat c) with (k0 + N.of_nat (S c)) by lia. reflexivity. }
    replace (N.to_nat (k + 1)) with (S (N.to_nat k)) by lia. rewrite CS.
    rewrite N.add_0_l, Nnat.N2Nat.id. unfold up.
    replace (k + 1 =? 0) with false by (symmetry; apply N.eqb_neq; lia).
    destruct (N.even (idx / 2 ^ k)) eqn:E.
    + rewrite setIndex_fl. rewrite div_pow_S. rewrite Hg, flat_adr by exact Ht. reflexivity.
    + rewrite setIndex_fl. rewrite even_shift by exact E. rewrite Hg, flat_adr by exact Ht. reflexivity.
Qed.

(** SIG_XMSS holds the blocks of sg *)
Definition xsig_is (SIG : bytes) (sg : XmssSig) : Prop :=
  (forall i, i < cLEN p -> blk n SIG i = nth (N.to_nat i) (sig_wots sg) []) /\
  (forall i, i < cHP p -> blk n SIG (cLEN p + i) = nth (N.to_nat i) (xmss_auth sg) []).

Lemma xmss_pkFromSig_eq l t idx SIG sg M ty a b c :
  t < 18446744073709551616 -> idx < 2 ^ cHP p -> nlen M = n -> xsig_is SIG sg ->
  xmss_pkFromSig FP hf idx SIG M ps (fl l t ty a b c) = xpk p hf ps l t idx sg M.
Proof.
  intros Ht Hi HM [X1 X2]. unfold xmss_pkFromSig. pose proof (pf_hp p HP) as Hhp.
  pose proof (pow2_le9 (cHP p) ltac:(lia)) as H9.
  rewrite len_eq. change (n_ FP) with n. change (h'_ FP) with (cHP p). cbv zeta.
  rewrite setType_fl, setKP_fl, setType_fl, setIndex_fl.
  rewrite (wots_pkFromSig_eq l t idx _ (sig_wots sg)); [|exact Ht|lia|exact HM|].
  2:{ intros i Hl. unfold blk. rewrite sub_sub; [exact (X1 i Hl)|]. rewrite N.add_0_l.
      apply N.mul_le_mono_r. lia. }
  rewrite (climb_loop (xnd hf ps l t) l t TREE 0 idx (cHP p) _ (xmss_auth sg) (fun k => N.even (idx / 2 ^ k)));
    [reflexivity|exact Ht|lia|reflexivity| |reflexivity].
  intros k Hk. rewrite sub_sub by nia. rewrite <- X2 by exact Hk. unfold blk.
  f_equal; lia.
Qed.

(** *** hypertree *)
Lemma concat_nth (l : list bytes) k :
  nlen l = k -> concat l = concat (map (fun i => nth (N.to_nat i) l []) (nrange k)).
Proof. intros E. rewrite (map_nth_nrange p l []) by exact E. reflexivity. Qed.

Lemma xsig_is_bytes sg :
  nlen (sig_wots sg) = cLEN p -> nlen (xmss_auth sg) = cHP p ->
  nb p (sig_wots sg) -> nb p (xmss_auth sg) -> xsig_is (xsig_bytes sg) sg.
Proof.
  intros L1 L2 N1 N2.
  set (B := fun i => if i <? cLEN p then nth (N.to_nat i) (sig_wots sg) []
                     else nth (N.to_nat (i - cLEN p)) (xmss_auth sg) []).
  assert (E : xsig_bytes sg = concat (map B (nrange (cLEN p + cHP p)))).
  { unfold xsig_bytes. rewrite concat_map_split.
    rewrite (concat_nth _ _ L1), (concat_nth _ _ L2). f_equal; f_equal; apply map_nrange_ext.
    - intros i Hi. unfold B. apply N.ltb_lt in Hi. rewrite Hi. reflexivity.
    - intros i Hi. unfold B. replace (cLEN p + i <? cLEN p) with false by (symmetry; apply N.ltb_ge; lia).
      do 2 f_equal. lia. }
  assert (HB : forall i, i < cLEN p + cHP p -> nlen (B i) = n).
  { intros i Hi. unfold B. destruct (N.ltb_spec i (cLEN p)) as [Hl|Hl]; apply (nb_nth p); try assumption; lia. }
  rewrite E. split; intros i Hi; rewrite (blk_concat B n _ _ HB) by lia; unfold B.
  - apply N.ltb_lt in Hi. rewrite Hi. reflexivity.
  - replace (cLEN p + i <? cLEN p) with false by (symmetry; apply N.ltb_ge; lia). do 2 f_equal. lia.
Qed.

Lemma nb_wsig ss l t kp m : nb p (wsig p hf ps ss l t kp m).
Proof.
  unfold nb, wsig. rewrite Forall_map, Forall_forall. intros i _.
  unfold wval. assert (G : forall c s x, nlen x = cN p -> nlen (chainF hf ps (wA l t kp i) s c x) = cN p).
  { induction c as [|c IH]; intros s x Hx; cbn [chainF]; [exact Hx|]. apply IH, (len_F _ _ _ HL). }
  apply G, (len_PRF _ _ _ HL).
Qed.

Lemma nb_xauth ss l t idx : nb p (xauth p hf ps ss l t idx).
Proof.
  unfold nb, xauth. rewrite Forall_map, Forall_forall. intros i _. unfold sibling.
  destruct (N.to_nat i); cbn [mnode]; [apply (len_T _ _ _ HL)|apply (len_H _ _ _ HL)].
Qed.

Lemma xsig_is_xsig ss l t idx m :
  xsig_is (xsig_bytes (xsig p hf ps ss l t idx m)) (xsig p hf ps ss l t idx m).
Proof.
  apply xsig_is_bytes; cbn [xsig sig_wots xmss_auth].
  - apply nlen_wsig.
  - apply nlen_xauth.
  - apply nb_wsig.
  - apply nb_xauth.
Qed.

Definition ht_bytes (ht : list XmssSig) : bytes := concat (map xsig_bytes ht).

Lemma nlen_xpk' l t idx sg m : nlen (xpk p hf ps l t idx sg m) = n.
Proof. apply (nlen_xpk p hf HL). Qed.

Lemma ht_sign_eq ss M t0 l0 :
  t0 < 18446744073709551616 -> l0 < 2 ^ cHP p -> nlen M = n ->
  Fips205.ht_sign FP hf M ss ps t0 l0 = ht_bytes (hsig p hf ps ss t0 l0 M).
Proof.
  intros Ht Hl HM. pose proof (pf_d p HP) as Hd. unfold Fips205.ht_sign.
  change (d_ FP) with (cD p). change (h'_ FP) with (cHP p). cbv zeta.
  rewrite zero_fl, setTree_fl. rewrite xmss_sign_eq by assumption.
  rewrite (xmss_pkFromSig_eq 0 t0 l0 _ (xsig p hf ps ss 0 t0 l0 M)); [|assumption..|apply xsig_is_xsig].
  assert (HH : forall j, nlen (hmsg p hf ps ss t0 l0 M j) = n) by (intros j; apply (nlen_hmsg p hf HL); exact HM).
  rewrite (for_st' _ (fun j =>
     (ht_bytes (map (hsig_at p hf ps ss t0 l0 M) (seq 0 (N.to_nat j))),
      hmsg p hf ps ss t0 l0 M (N.to_nat (N.min j (cD p - 1))),
      fl (j - 1) (tree_at p t0 (N.to_nat (j - 1))) 0 0 0 0,
      tree_at p t0 (N.to_nat (j - 1))))
     1 (cD p) _
     (ht_bytes (hsig p hf ps ss t0 l0 M),
      hmsg p hf ps ss t0 l0 M (N.to_nat (cD p - 1)),
      fl (cD p - 1) (tree_at p t0 (N.to_nat (cD p - 1))) 0 0 0 0,
      tree_at p t0 (N.to_nat (cD p - 1)))); [reflexivity|lia| | |].
  - replace (N.min 1 (cD p - 1)) with 1 by lia. change (1 - 1) with 0. change (N.to_nat 1) with 1%nat.
    change (N.to_nat 0) with O. rewrite tree_at_0. cbn [seq map]. unfold ht_bytes. cbn [map concat].
    rewrite app_nil_r. unfold hsig_at. cbn [hmsg leaf_at N.of_nat]. rewrite tree_at_0. reflexivity.
  - replace (N.min (cD p) (cD p - 1)) with (cD p - 1) by lia. reflexivity.
  - intros j Hj. cbv beta iota zeta. rewrite setLayer_fl, setTree_fl. rewrite tree_at_S.
    replace (S (N.to_nat (j - 1))) with (N.to_nat j) by lia.
    replace (N.min j (cD p - 1)) with j by lia.
    assert (EL : tree_at p t0 (N.to_nat (j - 1)) mod 2 ^ cHP p = leaf_at p t0 l0 (N.to_nat j)).
    { replace (N.to_nat j) with (S (N.to_nat (j - 1))) by lia. reflexivity. }
    rewrite EL. pose proof (tree_at_le p t0 (N.to_nat j)) as Hle.
    pose proof (leaf_at_lt p t0 l0 (N.to_nat j) Hl) as Hlf.
    rewrite xmss_sign_eq by (try assumption; try apply HH; lia).
    rewrite (xmss_pkFromSig_eq j _ _ _
      (xsig p hf ps ss j (tree_at p t0 (N.to_nat j)) (leaf_at p t0 l0 (N.to_nat j))
            (hmsg p hf ps ss t0 l0 M (N.to_nat j))));
      [|lia|assumption|apply HH|apply xsig_is_xsig].
    replace (j + 1 - 1) with j by lia.
    replace (N.to_nat (j + 1)) with (S (N.to_nat j)) by lia.
    rewrite seq_S, map_app. unfold ht_bytes. rewrite map_app, concat_app. cbn [map concat Nat.add].
    rewrite app_nil_r. unfold hsig_at at 3. rewrite Nnat.N2Nat.id.
    f_equal. f_equal. f_equal.
    destruct (N.ltb_spec j (cD p - 1)) as [Hlt|Hge].
    + replace (N.min (j + 1) (cD p - 1)) with (j + 1) by lia.
      replace (N.to_nat (j + 1)) with (S (N.to_nat j)) by lia. cbn [hmsg].
      rewrite Nnat.N2Nat.id. reflexivity.
    + replace (N.min (j + 1) (cD p - 1)) with j by lia. reflexivity.
Qed.

Lemma ht_verify_eq M SIG_HT sigs t0 l0 root :
  t0 < 18446744073709551616 -> l0 < 2 ^ cHP p -> nlen M = n ->
  (forall j, j < cD p -> xsig_is (getXMSSSignature FP SIG_HT j) (sigs (N.to_nat j))) ->
  Fips205.ht_verify FP hf M SIG_HT ps t0 l0 root
  = bytes_eqb (hval p hf ps t0 l0 sigs M (N.to_nat (cD p))) root.
Proof.
  intros Ht Hl HM HX. pose proof (pf_d p HP) as Hd. unfold Fips205.ht_verify.
  change (d_ FP) with (cD p). change (h'_ FP) with (cHP p). cbv zeta.
  rewrite zero_fl, setTree_fl.
  rewrite (xmss_pkFromSig_eq 0 t0 l0 _ (sigs O)); [|assumption..|apply (HX 0); lia].
  assert (HH : forall j, nlen (hval p hf ps t0 l0 sigs M j) = n) by (intros j; apply (nlen_hval p hf HL); exact HM).
  rewrite (for_st' _ (fun j =>
     (hval p hf ps t0 l0 sigs M (N.to_nat j),
      fl (j - 1) (tree_at p t0 (N.to_nat (j - 1))) 0 0 0 0,
      tree_at p t0 (N.to_nat (j - 1))))
     1 (cD p) _
     (hval p hf ps t0 l0 sigs M (N.to_nat (cD p)),
      fl (cD p - 1) (tree_at p t0 (N.to_nat (cD p - 1))) 0 0 0 0,
      tree_at p t0 (N.to_nat (cD p - 1)))); [reflexivity|lia| |reflexivity|].
  - change (1 - 1) with 0. change (N.to_nat 1) with 1%nat. change (N.to_nat 0) with O.
    rewrite tree_at_0. cbn [hval leaf_at N.of_nat]. rewrite tree_at_0. reflexivity.
  - intros j Hj. cbv beta iota zeta. rewrite setLayer_fl, setTree_fl. rewrite tree_at_S.
    replace (S (N.to_nat (j - 1))) with (N.to_nat j) by lia.
    assert (EL : tree_at p t0 (N.to_nat (j - 1)) mod 2 ^ cHP p = leaf_at p t0 l0 (N.to_nat j)).
    { replace (N.to_nat j) with (S (N.to_nat (j - 1))) by lia. reflexivity. }
    rewrite EL. pose proof (tree_at_le p t0 (N.to_nat j)) as Hle.
    pose proof (leaf_at_lt p t0 l0 (N.to_nat j) Hl) as Hlf.
    rewrite (xmss_pkFromSig_eq j _ _ _ (sigs (N.to_nat j)));
      [|lia|assumption|apply HH|apply HX; lia].
    replace (j + 1 - 1) with j by lia.
    replace (N.to_nat (j + 1)) with (S (N.to_nat j)) by lia. cbn [hval].
    rewrite Nnat.N2Nat.id. reflexivity.
Qed.

(** *** FORS *)
Lemma fors_skGen_eq ss t kp b c idx :
  t < 18446744073709551616 -> kp < 4294967296 ->
  fors_skGen hf ss ps (fl 0 t 3 kp b c) idx = fsk hf ps ss t kp idx.
Proof.
  intros Ht Hk. unfold fors_skGen. cbv zeta. rewrite setType_fl, getKP_fl, setKP_fl, setIndex_fl by exact Hk.
  unfold fsk. rewrite flat_adr by exact Ht. reflexivity.
Qed.

Lemma fors_node_eq ss t kp : t < 18446744073709551616 -> kp < 4294967296 -> forall z i b c,
  Fips205.fors_node hf ss i z ps (fl 0 t 3 kp b c) = fnode hf ps ss t kp z i.
Proof.
  intros Ht Hk. induction z as [|z IH]; intros i b c; cbn [Fips205.fors_node]; unfold fnode; cbn [mnode].
  - rewrite fors_skGen_eq, setHeight_fl, setIndex_fl by assumption.
    unfold fleaf, flv, fA. rewrite flat_adr by exact Ht. reflexivity.
  - rewrite !IH, setHeight_fl, setIndex_fl. unfold fnd, fA. rewrite flat_adr by exact Ht. reflexivity.
Qed.

Definition fors_bytes (fs : ForsSig) : bytes :=
  concat (map (fun i => nth (N.to_nat i) (private_key_value fs) []
                        ++ concat (nth (N.to_nat i) (fors_auth fs) [])) (nrange (cK p))).

Lemma fors_sign_eq ss md t kp :
  t < 18446744073709551616 -> kp < 4294967296 -> cK p * cA p <= 8 * nlen md ->
  Fips205.fors_sign FP hf md ss ps (fl 0 t 3 kp 0 0) = fors_bytes (fsig p hf ps ss t kp md).
Proof.
  intros Ht Hk Hmd. pose proof (pf_a p HP) as Ha. unfold Fips205.fors_sign.
  change (a_ FP) with (cA p). change (k_ FP) with (cK p). cbv zeta.
  rewrite base_2b_digits by lia.
  apply (for_st' _ (fun i => concat (map (fun i => fsk hf ps ss t kp (fidx p md i)
                        ++ concat (fauth p hf ps ss t kp (fidx p md i))) (nrange i)))).
  - lia.
  - reflexivity.
  - unfold fors_bytes. f_equal. apply map_nrange_ext. intros i Hi. cbn [fsig private_key_value fors_auth].
    rewrite !nth_map_nrange by exact Hi. reflexivity.
  - intros i Hi. unfold digits. rewrite nth_map_nrange by lia.
    rewrite fors_skGen_eq by assumption.
    rewrite (for_append (fun j => Fips205.fors_node hf ss
        (i * 2 ^ (cA p - j) + N.lxor (digit md (cA p) i / 2 ^ j) 1) (N.to_nat j) ps (fl 0 t 3 kp 0 0))).
    rewrite nrange_snoc, map_app, concat_app. cbn [map concat]. rewrite app_nil_r, <- app_assoc.
    do 4 f_equal. apply map_nrange_ext. intros j Hj. rewrite fors_node_eq by assumption.
    unfold sibling, fnode. f_equal. unfold fidx. rewrite gidx_xor; [reflexivity|lia].
Qed.

Definition fsig_is (SIG : bytes) (fs : ForsSig) : Prop :=
  (forall i, i < cK p -> blk n SIG (i * (cA p + 1)) = nth (N.to_nat i) (private_key_value fs) []) /\
  (forall i j, i < cK p -> j < cA p ->
     blk n SIG (i * (cA p + 1) + 1 + j) = nth (N.to_nat j) (nth (N.to_nat i) (fors_auth fs) []) []).

Lemma fors_pkFromSig_eq SIG fs md t kp :
  t < 18446744073709551616 -> kp < 4294967296 -> cK p * cA p <= 8 * nlen md -> fsig_is SIG fs ->
  fors_pkFromSig FP hf SIG md ps (fl 0 t 3 kp 0 0) = fpk p hf ps t kp fs md.
Proof.
  intros Ht Hk Hmd [X1 X2]. pose proof (pf_a p HP) as Ha. pose proof (pf_k p HP) as HK.
  unfold fors_pkFromSig.
  change (a_ FP) with (cA p). change (k_ FP) with (cK p). change (n_ FP) with n. cbv zeta.
  rewrite base_2b_digits by lia.
  assert (D : forall i, digit md (cA p) i < 2 ^ cA p) by (intros; apply N.mod_lt, pow2_nz).
  pose proof (pow2_le14 (cA p) ltac:(lia)) as H14.
  rewrite (for_st' _ (fun i =>
      (map (fun i => froot p hf ps t kp (fidx p md i) (nth (N.to_nat i) (private_key_value fs) [])
                           (nth (N.to_nat i) (fors_auth fs) [])) (nrange i),
       fl 0 t 3 kp (if i =? 0 then 0 else cA p) (if i =? 0 then 0 else fidx p md (i - 1) / 2 ^ cA p)))
      0 (cK p) _
      (froots p hf ps t kp fs md, fl 0 t 3 kp (cA p) (fidx p md (cK p - 1) / 2 ^ cA p)));
    [|lia|reflexivity| |].
  - rewrite setType_fl, setKP_fl, getKP_fl by exact Hk. unfold fpk, fcomp.
    rewrite flat_adr by exact Ht. reflexivity.
  - replace (cK p =? 0) with false by (symmetry; apply N.eqb_neq; lia). reflexivity.
  - intros i Hi. unfold digits. rewrite nth_map_nrange by lia. cbv beta iota zeta.
    rewrite setHeight_fl, setIndex_fl. fold (fidx p md i).
    assert (Hf : fidx p md i < 4294967296).
    { unfold fidx. specialize (D i).
      assert (i * 2 ^ cA p <= 35 * 16384) by (apply N.mul_le_mono; lia). lia. }
    rewrite (climb_loop (fnd hf ps t kp) 0 t 3 kp (fidx p md i) (cA p) _ (nth (N.to_nat i) (fors_auth fs) [])
               (fun k => N.even (digit md (cA p) i / 2 ^ k)));
      [|exact Ht|exact Hf| | |reflexivity].
    + replace (i + 1 =? 0) with false by (symmetry; apply N.eqb_neq; lia).
      replace (cA p =? 0) with false by (symmetry; apply N.eqb_neq; lia).
      replace (i + 1 - 1) with i by lia. rewrite nrange_snoc, map_app. cbn [map].
      unfold froot, flv, fA. rewrite flat_adr by exact Ht.
      specialize (X1 i ltac:(lia)). unfold blk in X1. rewrite X1. reflexivity.
    + intros k Hk'. unfold fidx. rewrite gidx_even; [reflexivity|lia].
    + intros k Hk'. rewrite sub_sub by nia. rewrite <- X2 by lia. unfold blk. f_equal; lia.
Qed.

(** *** whole signatures *)
Lemma enc_sig_parts sg :
  wf_sig p sg ->
  enc_sig p sg = randomness sg ++ fors_bytes (fors_sig sg) ++ ht_bytes (ht_sig sg).
Proof.
  intros [W1 [W2 [W3 [W4 W5]]]]. unfold enc_sig, nblocks, ho.
  rewrite concat_map_split, concat_map_split, <- app_assoc. f_equal; [|f_equal].
  - change (nrange 1) with [0]. cbn [map concat]. apply app_nil_r.
  - rewrite concat_map_nest. unfold fors_bytes. f_equal. apply map_nrange_ext. intros i Hi.
    change (nrange (fb p)) with (nrange (1 + cA p)). rewrite concat_map_split. f_equal.
    + change (nrange 1) with [0]. cbn [map concat]. rewrite app_nil_r.
      rewrite N.add_0_r. apply (sigB_pkv p). exact Hi.
    + rewrite (concat_nth (nth (N.to_nat i) (fors_auth (fors_sig sg)) []) (cA p)).
      2:{ apply (Forall_nth_N p (fun r => nlen r = cA p)); [exact W3|lia]. }
      f_equal. apply map_nrange_ext. intros j Hj.
      rewrite <- (sigB_auth p) by assumption. f_equal. lia.
  - change (1 + cK p * fb p) with (ho p). rewrite concat_map_nest. unfold ht_bytes.
    rewrite <- (map_nth_nrange p (ht_sig sg) (mkXmssSig [] []) (cD p) W4) at 1.
    rewrite map_map. f_equal. apply map_nrange_ext. intros d Hd.
    destruct (Forall_nth_N p _ _ d (mkXmssSig [] []) W5 ltac:(lia)) as [Y1 Y2].
    change (nrange (hb p)) with (nrange (cLEN p + cHP p)). rewrite concat_map_split. unfold xsig_bytes.
    rewrite (concat_nth _ _ Y1), (concat_nth _ _ Y2). f_equal; f_equal; apply map_nrange_ext; intros l Hl.
    + rewrite <- (sigB_wots p) by assumption. f_equal. lia.
    + rewrite <- (sigB_xauth p) by assumption. f_equal. lia.
Qed.

Lemma split_digest_eq dg : nlen dg = cM p ->
  split_digest FP dg = (dg_md p dg, dg_tree p dg, dg_leaf p dg).
Proof.
  intros Hdg. unfold split_digest.
  change (k_ FP) with (cK p). change (a_ FP) with (cA p). change (h_ FP) with (cH p).
  change (d_ FP) with (cD p). unfold ceil_div. rewrite (PF_hd p HP), (PF_hd8 p HP).
  replace (cK p * cA p + 8 - 1) with (cK p * cA p + 7) by lia.
  replace (cH p - cHP p + 8 - 1) with (cH p - cHP p + 7) by lia.
  change ((cK p * cA p + 7) / 8) with (dg1 p). change ((cH p - cHP p + 7) / 8) with (dg2 p).
  change ((cHP p + 7) / 8) with (dg3 p). cbv zeta.
  assert (S : cM p = dg1 p + dg2 p + dg3 p) by apply (pf_m p HP).
  rewrite !toInt_of_be by (rewrite nlen_sub_bytes; lia). reflexivity.
Qed.

Lemma md_bits dg : nlen dg = cM p -> cK p * cA p <= 8 * nlen (dg_md p dg).
Proof. intros E. rewrite <- (dg_md_len p HP _ E). lia. Qed.

End SF.

(** the FORS blocks inside a whole signature *)
Section SigBlocks.
Context (p : Params) (HP : PF p).
Let n := cN p.

Lemma blk_sub bs lo hi j :
  lo + (j + 1) <= hi -> blk n (sub_bytes bs (lo * n) (hi * n)) j = blk n bs (lo + j).
Proof. intros L. unfold blk. rewrite sub_sub by nia. f_equal; lia. Qed.

Lemma fsig_is_dec bs :
  fsig_is p (sub_bytes bs n ((1 + cK p * (1 + cA p)) * n)) (fors_sig (dec_sig p bs)).
Proof.
  replace (sub_bytes bs n) with (sub_bytes bs (1 * n)) by (f_equal; lia).
  split; [intros i Hi|intros i j Hi Hj]; cbn [dec_sig fors_sig private_key_value fors_auth].
  - change (cN p) with n. rewrite blk_sub by nia. rewrite nth_map_nrange by exact Hi.
    f_equal. unfold fb. lia.
  - change (cN p) with n. rewrite blk_sub by nia. rewrite nth_map_nrange by exact Hi.
    rewrite nth_map_nrange by exact Hj. f_equal. unfold fb. lia.
Qed.

Lemma xsig_is_dec bs j :
  j < cD p -> cH p = cD p * cHP p ->
  xsig_is p (getXMSSSignature (fips_of p)
     (sub_bytes bs ((1 + cK p * (1 + cA p)) * n) ((1 + cK p * (1 + cA p) + cH p + cD p * cLEN p) * n)) j)
    (nth (N.to_nat j) (ht_sig (dec_sig p bs)) (mkXmssSig [] [])).
Proof.
  intros Hj Hh. unfold getXMSSSignature. rewrite (len_eq p HP).
  change (n_ (fips_of p)) with n. change (h'_ (fips_of p)) with (cHP p).
  rewrite sub_sub by (rewrite Hh; nia).
  replace ((1 + cK p * (1 + cA p)) * n + j * ((cHP p + cLEN p) * n)) with ((ho p + j * hb p) * n)
    by (unfold ho, hb, fb; lia).
  replace ((1 + cK p * (1 + cA p)) * n + (j + 1) * ((cHP p + cLEN p) * n)) with ((ho p + (j + 1) * hb p) * n)
    by (unfold ho, hb, fb; lia).
  split; intros i Hi; change (cN p) with n; rewrite blk_sub by (unfold hb; lia);
    cbn [dec_sig ht_sig]; rewrite nth_map_nrange by exact Hj; cbn [sig_wots xmss_auth];
    rewrite nth_map_nrange by exact Hi; [reflexivity|]. f_equal. lia.
Qed.
End SigBlocks.

Section SigBlocks2.
Context (p : Params) (HP : PF p).
Let n := cN p.
Lemma nlen_fors_bytes fs :
  nlen (private_key_value fs) = cK p -> nlen (fors_auth fs) = cK p ->
  Forall (fun r => nlen r = cA p) (fors_auth fs) ->
  nb p (private_key_value fs) -> Forall (nb p) (fors_auth fs) ->
  nlen (fors_bytes p fs) = cK p * ((1 + cA p) * n).
Proof.
  intros W1 W2 W3 N1 N2. unfold fors_bytes. apply nlen_concat_blocks. intros i Hi.
  rewrite nlen_app. rewrite (nb_nth p) by (try assumption; lia).
  assert (L : nlen (nth (N.to_nat i) (fors_auth fs) []) = cA p)
    by (apply (Forall_nth_N p (fun r => nlen r = cA p)); [exact W3|lia]).
  assert (NB : nb p (nth (N.to_nat i) (fors_auth fs) []))
    by (apply (Forall_nth_N p (nb p)); [exact N2|lia]).
  rewrite (concat_nth p _ _ L). rewrite (nlen_concat_blocks _ n).
  - fold n. lia.
  - intros j Hj. apply (nb_nth p); [exact NB|lia].
Qed.

Lemma fsig_is_bytes sg : wf_sig_n p sg -> fsig_is p (fors_bytes p (fors_sig sg)) (fors_sig sg).
Proof.
  intros W. pose proof (fsig_is_dec p (enc_sig p sg)) as D.
  rewrite (dec_enc p sg W) in D.
  destruct W as [[W1 [W2 [W3 W4]]] [R [N1 [N2 N3]]]].
  rewrite (enc_sig_parts p) in D by (repeat split; tauto).
  replace (sub_bytes (randomness sg ++ fors_bytes p (fors_sig sg) ++ ht_bytes (ht_sig sg)) (cN p)
             ((1 + cK p * (1 + cA p)) * cN p)) with (fors_bytes p (fors_sig sg)) in D; [exact D|].
  rewrite sub_bytes_app_r by (rewrite R; lia). rewrite R.
  replace (cN p - cN p) with 0 by lia.
  replace ((1 + cK p * (1 + cA p)) * cN p - cN p) with (nlen (fors_bytes p (fors_sig sg))).
  - symmetry. apply sub_bytes_prefix.
  - rewrite nlen_fors_bytes by assumption. fold n. nia.
Qed.
End SigBlocks2.

Section Top.
Context {T : Target} (p : Params) (HP : PF p) (hf : HashFns) (HL : HLen (cN p) (cM p) hf).
Let FP := fips_of p.

Lemma keygen_eq s f ps :
  Fips205.slh_keygen_internal FP hf s f ps
  = (s ++ f ++ ps ++ proot p hf ps s, ps ++ proot p hf ps s).
Proof.
  unfold Fips205.slh_keygen_internal. change (d_ FP) with (cD p). change (h'_ FP) with (cHP p).
  pose proof (pf_hp p HP) as Hhp. pose proof (pow2_le9 (cHP p) ltac:(lia)) as H9.
  cbv zeta. rewrite zero_fl, setLayer_fl. rewrite (xmss_node_eq p HP); [reflexivity|reflexivity|].
  rewrite Nnat.N2Nat.id. lia.
Qed.

Lemma wf_n_sign_val' sk o M : wf_sig_n p (sign_val p hf sk o M).
Proof.
  split; [apply wf_sign_val|]. split; [apply (len_PRFm _ _ _ HL)|].
  unfold sign_val. cbn [fors_sig ht_sig private_key_value fors_auth sig_fors_of fsig].
  split; [|split].
  - unfold nb. rewrite Forall_map, Forall_forall. intros i _. apply (len_PRF _ _ _ HL).
  - rewrite Forall_map, Forall_forall. intros i _. unfold nb, fauth.
    rewrite Forall_map, Forall_forall. intros k _. unfold sibling.
    destruct (N.to_nat k); cbn [mnode]; [apply (len_F _ _ _ HL)|apply (len_H _ _ _ HL)].
  - unfold sig_ht_of, hsig. rewrite Forall_map, Forall_forall. intros j _.
    unfold hsig_at, xsig. cbn [sig_wots xmss_auth].
    split; [apply (nb_wsig p hf HL)|apply (nb_xauth p hf HL)].
Qed.

Lemma sign_eq M SK addrnd :
  nlen SK = cSK_LEN p ->
  let o := match addrnd with Some r => r | None => sk_pk_seed (sk_of_bytes p SK) end in
  Fips205.slh_sign_internal FP hf M SK addrnd = enc_sig p (sign_val p hf (sk_of_bytes p SK) o M).
Proof.
  intros HSK. cbv zeta. set (sk := sk_of_bytes p SK).
  set (o := match addrnd with Some r => r | None => sk_pk_seed sk end).
  unfold Fips205.slh_sign_internal.
  change (SK_PKseed FP SK) with (sk_pk_seed sk). change (SK_PKroot FP SK) with (sk_pk_root sk).
  change (SK_prf FP SK) with (sk_prf sk). change (SK_seed FP SK) with (sk_seed sk).
  change (match addrnd with Some r => r | None => sk_pk_seed sk end) with o. cbv zeta.
  change (PRF_msg hf (sk_prf sk) o M) with (sign_R hf sk o M).
  change (H_msg hf (sign_R hf sk o M) (sk_pk_seed sk) (sk_pk_root sk) M) with (sign_digest hf sk o M).
  set (dg := sign_digest hf sk o M).
  assert (Hdg : nlen dg = cM p) by apply (len_Hmsg _ _ _ HL).
  rewrite (split_digest_eq p HP) by exact Hdg.
  rewrite zero_fl, setTree_fl, setType_fl, setKP_fl.
  pose proof (dg_tree_lt p HP dg) as Ht. pose proof (dg_leaf_lt p dg) as Hlf.
  pose proof (dg_leaf_u32 p HP dg) as Hl. pose proof (md_bits p HP dg Hdg) as Hmd.
  change FORS_TREE with 3.
  rewrite (fors_sign_eq p HP) by (try assumption; lia).
  rewrite (fors_pkFromSig_eq p HP _ _ _ (fsig p hf (sk_pk_seed sk) (sk_seed sk) (dg_tree p dg) (dg_leaf p dg) (dg_md p dg)))
    by (try assumption; try lia; exact (fsig_is_bytes p _ (wf_n_sign_val' sk o M))).
  rewrite (ht_sign_eq p HP _ HL) by (try assumption; apply nlen_fpk; assumption).
  rewrite (enc_sig_parts p) by apply wf_sign_val. rewrite <- app_assoc. reflexivity.
Qed.

(** the public key held in a public-key string *)
Definition pk_of_bytes (bs : bytes) : SlhPublicKey :=
  mkPk (sub_bytes bs 0 (cN p)) (sub_bytes bs (cN p) (2 * cN p)).

Lemma spec_sig_len : (1 + k_ FP * (1 + a_ FP) + h_ FP + d_ FP * len_ FP) * n_ FP = cSIG_LEN p.
Proof. rewrite (pf_sig p HP). unfold FP. rewrite (len_eq p HP). reflexivity. Qed.

Lemma verify_eq M SIG PK :
  nlen SIG = cSIG_LEN p ->
  Fips205.slh_verify_internal FP hf M SIG PK = verify_val p hf (pk_of_bytes PK) (dec_sig p SIG) M.
Proof.
  intros HSIG. unfold Fips205.slh_verify_internal.
  rewrite spec_sig_len, HSIG, N.eqb_refl. cbn [negb].
  rewrite (pf_sig p HP). unfold FP.
  change (n_ (fips_of p)) with (cN p). change (k_ (fips_of p)) with (cK p). change (a_ (fips_of p)) with (cA p).
  change (h_ (fips_of p)) with (cH p). change (d_ (fips_of p)) with (cD p). cbv zeta.
  set (pk := pk_of_bytes PK). set (sg := dec_sig p SIG).
  change (PK_seed (fips_of p) PK) with (pk_seed pk). change (PK_root (fips_of p) PK) with (pk_root pk).
  replace (sub_bytes SIG 0 (cN p)) with (randomness sg)
    by (unfold sg; cbn [dec_sig randomness]; unfold blk; f_equal; lia).
  change (H_msg hf (randomness sg) (pk_seed pk) (pk_root pk) M) with (verify_digest hf pk sg M).
  unfold verify_val, vroot. set (dg := verify_digest hf pk sg M).
  assert (Hdg : nlen dg = cM p) by apply (len_Hmsg _ _ _ HL).
  rewrite (split_digest_eq p HP) by exact Hdg.
  rewrite zero_fl, setTree_fl, setType_fl, setKP_fl.
  pose proof (dg_tree_lt p HP dg) as Ht. pose proof (dg_leaf_lt p dg) as Hlf.
  pose proof (dg_leaf_u32 p HP dg) as Hl. pose proof (md_bits p HP dg Hdg) as Hmd.
  change FORS_TREE with 3.
  rewrite (fors_pkFromSig_eq p HP _ _ _ (fors_sig sg)) by (try assumption; try lia; apply fsig_is_dec).
  rewrite (ht_verify_eq p HP _ HL _ _ _ (fun j => nth j (ht_sig sg) (mkXmssSig [] [])));
    [reflexivity|assumption|assumption|apply nlen_fpk; assumption|].
  intros j Hj. apply xsig_is_dec; [exact HP|exact Hj|apply (pf_h p HP)].
Qed.

Lemma verify_bad_len M SIG PK :
  nlen SIG <> cSIG_LEN p -> Fips205.slh_verify_internal FP hf M SIG PK = false.
Proof.
  intros HSIG. unfold Fips205.slh_verify_internal. rewrite spec_sig_len.
  apply N.eqb_neq in HSIG. rewrite HSIG. reflexivity.
Qed.

End Top.
