(** Signature encoding (helpers.rs:110-196): [serialize] and [deserialize] are inverse
    bijections between well-formed signatures and strings of SIG_LEN bytes. *)
From Verif Require Export Proof.SlhP.

(** *** blocks of n bytes *)
Definition blk (n : N) (bs : bytes) (j : N) : bytes := sub_bytes bs (j * n) ((j + 1) * n).

Lemma nlen_blk n bs j k : nlen bs = k * n -> j < k -> nlen (blk n bs j) = n.
Proof. intros H Hj. unfold blk. rewrite nlen_sub_bytes; nia. Qed.

Lemma concat_blk n bs k : nlen bs = k * n -> concat (map (blk n bs) (nrange k)) = bs.
Proof.
  intros H.
  assert (E : forall j, j <= k -> concat (map (blk n bs) (nrange j)) = sub_bytes bs 0 (j * n)).
  { intros j. induction j as [|j IH] using N.peano_ind; intros Hj; [reflexivity|].
    rewrite <- N.add_1_r in *. rewrite nrange_snoc, map_app, concat_app, IH by lia. cbn [map concat].
    rewrite app_nil_r. unfold blk. apply sub_bytes_split; nia. }
  rewrite E by lia. rewrite <- H. apply sub_bytes_all.
Qed.

Lemma nlen_concat_blocks (B : N -> bytes) n k :
  (forall j, j < k -> nlen (B j) = n) -> nlen (concat (map B (nrange k))) = k * n.
Proof.
  induction k as [|k IH] using N.peano_ind; intros HB; [reflexivity|].
  rewrite <- N.add_1_r in *. rewrite nrange_snoc, map_app, concat_app, nlen_app. cbn [map concat].
  rewrite app_nil_r, IH, HB; [lia|lia|]. intros j Hj. apply HB. lia.
Qed.

Lemma nrange_split a b : nrange (a + b) = nrange a ++ map (fun i => a + i) (nrange b).
Proof.
  unfold nrange. replace (N.to_nat (a + b)) with (N.to_nat a + N.to_nat b)%nat by lia.
  rewrite nseq_app. f_equal. rewrite N.add_0_l, Nnat.N2Nat.id.
  assert (G : forall k lo, nseq (a + lo) k = map (fun i => a + i) (nseq lo k)).
  { induction k as [|k IH]; intros lo; cbn; [reflexivity|]. f_equal.
    rewrite <- IH. f_equal. lia. }
  rewrite <- G, N.add_0_r. reflexivity.
Qed.

Lemma concat_map_split (B : N -> bytes) a b :
  concat (map B (nrange (a + b)))
  = concat (map B (nrange a)) ++ concat (map (fun i => B (a + i)) (nrange b)).
Proof. rewrite nrange_split, map_app, concat_app, map_map. reflexivity. Qed.

Lemma concat_map_nest (B : N -> bytes) k m :
  concat (map B (nrange (k * m)))
  = concat (map (fun q => concat (map (fun r => B (q * m + r)) (nrange m))) (nrange k)).
Proof.
  induction k as [|k IH] using N.peano_ind; [reflexivity|].
  rewrite <- N.add_1_r, N.mul_add_distr_r, N.mul_1_l, concat_map_split, IH.
  rewrite nrange_snoc, map_app, concat_app. cbn [map concat]. rewrite app_nil_r. reflexivity.
Qed.

Lemma blk_concat (B : N -> bytes) n k j :
  (forall i, i < k -> nlen (B i) = n) -> j < k -> blk n (concat (map B (nrange k))) j = B j.
Proof.
  intros HB Hj.
  assert (L1 : nlen (concat (map B (nrange j))) = j * n) by (apply nlen_concat_blocks; intros; apply HB; lia).
  assert (L2 : nlen (B (j + 0)) = n) by (apply HB; lia).
  replace k with (j + (1 + (k - j - 1))) by lia.
  rewrite !concat_map_split. cbn [nrange nseq map concat]. change (nrange 1) with [0].
  cbn [map concat]. rewrite app_nil_r.
  unfold blk. rewrite sub_bytes_app_r by lia. rewrite L1.
  replace (j * n - j * n) with 0 by lia.
  replace ((j + 1) * n - j * n) with n by lia.
  rewrite <- L2 at 1. rewrite sub_bytes_prefix. f_equal. lia.
Qed.

Section SerP.
Context {T : Target} (p : Params) (HP : PF p).
Let n := cN p.
(** offsets, in blocks *)
Definition fb : N := 1 + cA p.
Definition ho : N := 1 + cK p * fb.
Definition hb : N := cLEN p + cHP p.
Definition nblocks : N := ho + cD p * hb.

(** block j of the encoding of a signature *)
Definition sigB (sg : SlhDsaSig) (j : N) : bytes :=
  if j =? 0 then randomness sg
  else if j <? ho then
    let q := (j - 1) / fb in
    let r := (j - 1) mod fb in
    if r =? 0 then nth (N.to_nat q) (private_key_value (fors_sig sg)) []
    else nth (N.to_nat (r - 1)) (nth (N.to_nat q) (fors_auth (fors_sig sg)) []) []
  else
    let q := (j - ho) / hb in
    let r := (j - ho) mod hb in
    let xs := nth (N.to_nat q) (ht_sig sg) (mkXmssSig [] []) in
    if r <? cLEN p then nth (N.to_nat r) (sig_wots xs) []
    else nth (N.to_nat (r - cLEN p)) (xmss_auth xs) [].

Definition enc_sig (sg : SlhDsaSig) : bytes := concat (map (sigB sg) (nrange nblocks)).

(** shape with block sizes *)
Definition nb (l : list bytes) : Prop := Forall (fun x => nlen x = n) l.
Definition wf_sig_n (sg : SlhDsaSig) : Prop :=
  wf_sig p sg /\ nlen (randomness sg) = n /\ nb (private_key_value (fors_sig sg)) /\
  Forall nb (fors_auth (fors_sig sg)) /\
  Forall (fun xs => nb (sig_wots xs) /\ nb (xmss_auth xs)) (ht_sig sg).

(** the signature a string decodes to *)
Definition dec_sig (bs : bytes) : SlhDsaSig :=
  mkSlhDsaSig (blk n bs 0)
    (mkForsSig (map (fun k => blk n bs (1 + k * fb)) (nrange (cK p)))
               (map (fun k => map (fun a => blk n bs (1 + k * fb + 1 + a)) (nrange (cA p)))
                    (nrange (cK p))))
    (map (fun d => mkXmssSig (map (fun l => blk n bs (ho + d * hb + l)) (nrange (cLEN p)))
                             (map (fun l => blk n bs (ho + d * hb + cLEN p + l)) (nrange (cHP p))))
         (nrange (cD p))).

Lemma sig_len_blocks : cSIG_LEN p = nblocks * n.
Proof.
  rewrite (pf_sig p HP). unfold n, nblocks, ho, hb, fb. rewrite (pf_h p HP). f_equal. lia.
Qed.

Lemma blocks_lt j : j <= nblocks -> j * n < 65536.
Proof.
  intros Hj. pose proof (pf_sig_lt p HP) as HL. rewrite sig_len_blocks in HL.
  eapply N.le_lt_trans; [apply N.mul_le_mono_r; exact Hj|exact HL].
Qed.

Lemma fb_pos : fb <> 0. Proof. unfold fb. lia. Qed.
Lemma hb_pos : hb <> 0. Proof. unfold hb, cLEN. lia. Qed.

Lemma fors_block_lt k r : k < cK p -> r < fb -> 1 + k * fb + r < ho.
Proof. intros. unfold ho. nia. Qed.
Lemma ht_block_lt d r : d < cD p -> r < hb -> ho + d * hb + r < nblocks.
Proof. intros. unfold nblocks. nia. Qed.

Lemma sigB_pkv sg k : k < cK p ->
  sigB sg (1 + k * fb) = nth (N.to_nat k) (private_key_value (fors_sig sg)) [].
Proof.
  intros Hk. pose proof (fors_block_lt k 0 Hk ltac:(unfold fb; lia)) as L. unfold sigB.
  replace (1 + k * fb =? 0) with false by (symmetry; apply N.eqb_neq; lia).
  replace (1 + k * fb <? ho) with true by (symmetry; apply N.ltb_lt; lia).
  replace (1 + k * fb - 1) with (0 + k * fb) by lia. cbv zeta.
  rewrite N.div_add, N.mod_add by apply fb_pos.
  rewrite N.mod_0_l, N.div_0_l by apply fb_pos. cbn [N.eqb N.add]. reflexivity.
Qed.

Lemma sigB_auth sg k a : k < cK p -> a < cA p ->
  sigB sg (1 + k * fb + 1 + a) = nth (N.to_nat a) (nth (N.to_nat k) (fors_auth (fors_sig sg)) []) [].
Proof.
  intros Hk Ha. pose proof (fors_block_lt k (1 + a) Hk ltac:(unfold fb; lia)) as L. unfold sigB.
  replace (1 + k * fb + 1 + a =? 0) with false by (symmetry; apply N.eqb_neq; lia).
  replace (1 + k * fb + 1 + a <? ho) with true by (symmetry; apply N.ltb_lt; lia).
  replace (1 + k * fb + 1 + a - 1) with (1 + a + k * fb) by lia. cbv zeta.
  rewrite N.div_add, N.mod_add by apply fb_pos.
  rewrite N.mod_small, N.div_small by (unfold fb; lia).
  replace (1 + a =? 0) with false by (symmetry; apply N.eqb_neq; lia).
  replace (1 + a - 1) with a by lia. rewrite N.add_0_l. reflexivity.
Qed.

Lemma sigB_ht sg d r : d < cD p -> r < hb ->
  sigB sg (ho + d * hb + r)
  = let xs := nth (N.to_nat d) (ht_sig sg) (mkXmssSig [] []) in
    if r <? cLEN p then nth (N.to_nat r) (sig_wots xs) []
    else nth (N.to_nat (r - cLEN p)) (xmss_auth xs) [].
Proof.
  intros Hd Hr. unfold sigB.
  replace (ho + d * hb + r =? 0) with false by (symmetry; apply N.eqb_neq; unfold ho; lia).
  replace (ho + d * hb + r <? ho) with false by (symmetry; apply N.ltb_ge; lia).
  replace (ho + d * hb + r - ho) with (r + d * hb) by lia. cbv zeta.
  rewrite N.div_add, N.mod_add by apply hb_pos.
  rewrite N.mod_small, N.div_small by exact Hr. rewrite N.add_0_l. reflexivity.
Qed.

Lemma sigB_wots sg d l : d < cD p -> l < cLEN p ->
  sigB sg (ho + d * hb + l)
  = nth (N.to_nat l) (sig_wots (nth (N.to_nat d) (ht_sig sg) (mkXmssSig [] []))) [].
Proof.
  intros Hd Hl. rewrite sigB_ht by (unfold hb; lia). cbv zeta.
  replace (l <? cLEN p) with true by (symmetry; apply N.ltb_lt; lia). reflexivity.
Qed.

Lemma sigB_xauth sg d l : d < cD p -> l < cHP p ->
  sigB sg (ho + d * hb + cLEN p + l)
  = nth (N.to_nat l) (xmss_auth (nth (N.to_nat d) (ht_sig sg) (mkXmssSig [] []))) [].
Proof.
  intros Hd Hl. rewrite <- N.add_assoc. rewrite sigB_ht by (unfold hb; lia). cbv zeta.
  replace (cLEN p + l <? cLEN p) with false by (symmetry; apply N.ltb_ge; lia).
  f_equal. lia.
Qed.

(** a case split of block numbers *)
Lemma block_cases (Q : N -> Prop) :
  Q 0 -> (forall k, k < cK p -> Q (1 + k * fb)) ->
  (forall k a, k < cK p -> a < cA p -> Q (1 + k * fb + 1 + a)) ->
  (forall d l, d < cD p -> l < cLEN p -> Q (ho + d * hb + l)) ->
  (forall d l, d < cD p -> l < cHP p -> Q (ho + d * hb + cLEN p + l)) ->
  forall j, j < nblocks -> Q j.
Proof.
  intros Q0 Q1 Q2 Q3 Q4 j Hj.
  destruct (N.eq_dec j 0) as [->|Hnz]; [exact Q0|].
  destruct (N.ltb_spec j ho) as [Hf|Hf].
  - pose proof (N.div_mod (j - 1) fb fb_pos) as E. pose proof (N.mod_lt (j - 1) fb fb_pos) as R.
    set (q := (j - 1) / fb) in *. set (r := (j - 1) mod fb) in *.
    assert (Hq : q < cK p).
    { apply N.div_lt_upper_bound; [apply fb_pos|]. unfold ho in Hf. rewrite N.mul_comm. lia. }
    destruct (N.eq_dec r 0) as [Hr|Hr].
    + replace j with (1 + q * fb) by lia. apply Q1. exact Hq.
    + replace j with (1 + q * fb + 1 + (r - 1)) by lia. apply Q2; [exact Hq|unfold fb in R; lia].
  - pose proof (N.div_mod (j - ho) hb hb_pos) as E. pose proof (N.mod_lt (j - ho) hb hb_pos) as R.
    set (q := (j - ho) / hb) in *. set (r := (j - ho) mod hb) in *.
    assert (Hq : q < cD p).
    { apply N.div_lt_upper_bound; [apply hb_pos|]. unfold nblocks in Hj. rewrite N.mul_comm. lia. }
    destruct (N.ltb_spec r (cLEN p)) as [Hr|Hr].
    + replace j with (ho + q * hb + r) by lia. apply Q3; assumption.
    + replace j with (ho + q * hb + cLEN p + (r - cLEN p)) by lia.
      apply Q4; [exact Hq|unfold hb in R; lia].
Qed.

Lemma nb_nth l i : nb l -> i < nlen l -> nlen (nth (N.to_nat i) l []) = n.
Proof.
  intros H Hi. unfold nb in H. rewrite Forall_forall in H. apply H, nth_In. unfold nlen in Hi. lia.
Qed.

Lemma Forall_nth_N {A} (Q : A -> Prop) l i d : Forall Q l -> i < nlen l -> Q (nth (N.to_nat i) l d).
Proof. intros H Hi. rewrite Forall_forall in H. apply H, nth_In. unfold nlen in Hi. lia. Qed.

Lemma nlen_sigB sg : wf_sig_n sg -> forall j, j < nblocks -> nlen (sigB sg j) = n.
Proof.
  intros [[W1 [W2 [W3 [W4 W5]]]] [R [P1 [P2 P3]]]].
  apply block_cases.
  - exact R.
  - intros k Hk. rewrite sigB_pkv by exact Hk. apply nb_nth; [exact P1|lia].
  - intros k a Hk Ha. rewrite sigB_auth by assumption.
    apply nb_nth; [apply (Forall_nth_N nb); [exact P2|lia]|].
    rewrite (Forall_nth_N (fun r => nlen r = cA p)); [exact Ha|exact W3|lia].
  - intros d l Hd Hl. rewrite sigB_wots by assumption.
    destruct (Forall_nth_N _ _ d (mkXmssSig [] []) P3 ltac:(lia)) as [X1 X2].
    destruct (Forall_nth_N _ _ d (mkXmssSig [] []) W5 ltac:(lia)) as [Y1 Y2].
    apply nb_nth; [exact X1|lia].
  - intros d l Hd Hl. rewrite sigB_xauth by assumption.
    destruct (Forall_nth_N _ _ d (mkXmssSig [] []) P3 ltac:(lia)) as [X1 X2].
    destruct (Forall_nth_N _ _ d (mkXmssSig [] []) W5 ltac:(lia)) as [Y1 Y2].
    apply nb_nth; [exact X2|lia].
Qed.

Lemma nlen_enc_sig sg : wf_sig_n sg -> nlen (enc_sig sg) = cSIG_LEN p.
Proof.
  intros W. unfold enc_sig. rewrite (nlen_concat_blocks _ n) by (apply nlen_sigB; exact W).
  rewrite sig_len_blocks. reflexivity.
Qed.

(** *** the two are inverse *)
Lemma map_nth_nrange {A} (l : list A) d k :
  nlen l = k -> map (fun i => nth (N.to_nat i) l d) (nrange k) = l.
Proof.
  intros <-. apply (nth_ext _ _ d d).
  - rewrite map_length. unfold nrange, nlen. rewrite length_nseq. lia.
  - intros i Hi. rewrite map_length in Hi. unfold nrange in Hi. rewrite length_nseq in Hi.
    rewrite <- (Nnat.Nat2N.id i). rewrite nth_map_nrange by lia. reflexivity.
Qed.

Lemma map_nrange_ext {A} (f g : N -> A) k :
  (forall i, i < k -> f i = g i) -> map f (nrange k) = map g (nrange k).
Proof. intros H. apply map_ext_in. intros i Hi. apply H, In_nrange, Hi. Qed.

Lemma dec_enc sg : wf_sig_n sg -> dec_sig (enc_sig sg) = sg.
Proof.
  intros W. pose proof (nlen_sigB sg W) as HB.
  destruct W as [[W1 [W2 [W3 [W4 W5]]]] _].
  assert (E : forall j, j < nblocks -> blk n (enc_sig sg) j = sigB sg j).
  { intros j Hj. apply (blk_concat _ n); assumption. }
  destruct sg as [R [pkv au] ht]. cbn [randomness fors_sig ht_sig private_key_value fors_auth] in *.
  unfold dec_sig. f_equal; [|f_equal|].
  - rewrite E; [reflexivity|]. unfold nblocks, ho. lia.
  - etransitivity; [|apply (map_nth_nrange pkv [] (cK p) W1)]. apply map_nrange_ext. intros k Hk.
    pose proof (fors_block_lt k 0 Hk ltac:(unfold fb; lia)).
    rewrite E by (unfold nblocks; lia). rewrite sigB_pkv by exact Hk. reflexivity.
  - etransitivity; [|apply (map_nth_nrange au [] (cK p) W2)]. apply map_nrange_ext. intros k Hk.
    etransitivity; [|apply (map_nth_nrange (nth (N.to_nat k) au []) [] (cA p));
      apply (Forall_nth_N (fun r => nlen r = cA p)); [exact W3|lia]].
    apply map_nrange_ext. intros a Ha.
    pose proof (fors_block_lt k (1 + a) Hk ltac:(unfold fb; lia)).
    rewrite E by (unfold nblocks; lia). rewrite sigB_auth by assumption. reflexivity.
  - etransitivity; [|apply (map_nth_nrange ht (mkXmssSig [] []) (cD p) W4)]. apply map_nrange_ext. intros d Hd.
    destruct (Forall_nth_N _ _ d (mkXmssSig [] []) W5 ltac:(lia)) as [Y1 Y2].
    set (xs := nth (N.to_nat d) ht (mkXmssSig [] [])) in *.
    replace xs with (mkXmssSig (sig_wots xs) (xmss_auth xs)) by (destruct xs; reflexivity).
    f_equal.
    + etransitivity; [|apply (map_nth_nrange (sig_wots xs) [] (cLEN p) Y1)]. apply map_nrange_ext. intros l Hl.
      pose proof (ht_block_lt d l Hd ltac:(unfold hb; lia)).
      rewrite E by lia. rewrite sigB_wots by assumption. reflexivity.
    + etransitivity; [|apply (map_nth_nrange (xmss_auth xs) [] (cHP p) Y2)]. apply map_nrange_ext. intros l Hl.
      pose proof (ht_block_lt d (cLEN p + l) Hd ltac:(unfold hb; lia)).
      rewrite E by lia. rewrite sigB_xauth by assumption. reflexivity.
Qed.

Lemma sigB_dec bs : nlen bs = cSIG_LEN p ->
  forall j, j < nblocks -> sigB (dec_sig bs) j = blk n bs j.
Proof.
  intros Hbs. apply block_cases.
  - reflexivity.
  - intros k Hk. rewrite sigB_pkv by exact Hk. cbn. rewrite nth_map_nrange by exact Hk. reflexivity.
  - intros k a Hk Ha. rewrite sigB_auth by assumption. cbn.
    rewrite nth_map_nrange by exact Hk. rewrite nth_map_nrange by exact Ha. reflexivity.
  - intros d l Hd Hl. rewrite sigB_wots by assumption. cbn.
    rewrite nth_map_nrange by exact Hd. cbn. rewrite nth_map_nrange by exact Hl. reflexivity.
  - intros d l Hd Hl. rewrite sigB_xauth by assumption. cbn.
    rewrite nth_map_nrange by exact Hd. cbn. rewrite nth_map_nrange by exact Hl. reflexivity.
Qed.

Lemma enc_dec bs : nlen bs = cSIG_LEN p -> enc_sig (dec_sig bs) = bs.
Proof.
  intros Hbs. unfold enc_sig. rewrite (map_nrange_ext _ (blk n bs)) by (apply sigB_dec; exact Hbs).
  apply concat_blk. rewrite Hbs. apply sig_len_blocks.
Qed.

Lemma wf_dec_sig bs : nlen bs = cSIG_LEN p -> wf_sig_n (dec_sig bs).
Proof.
  intros Hbs. rewrite sig_len_blocks in Hbs.
  assert (B : forall j, j < nblocks -> nlen (blk n bs j) = n) by (intros; eapply nlen_blk; eassumption).
  assert (NB : forall f k, (forall i, i < k -> f i < nblocks) ->
             nb (map (fun i => blk n bs (f i)) (nrange k))).
  { intros f k Hf. unfold nb. rewrite Forall_map, Forall_forall. intros i Hi.
    apply B, Hf, In_nrange, Hi. }
  split; [|split; [|split; [|split]]].
  - cbn. unfold wf_sig, dec_sig. cbn. rewrite !nlen_map, !nlen_nrange.
    repeat split; try reflexivity.
    + rewrite Forall_map, Forall_forall. intros k _. rewrite nlen_map. apply nlen_nrange.
    + rewrite Forall_map, Forall_forall. intros k _. unfold wf_xmss. cbn.
      rewrite !nlen_map, !nlen_nrange. split; reflexivity.
  - apply B. unfold nblocks, ho. lia.
  - apply (NB (fun k => 1 + k * fb)). intros k Hk.
    pose proof (fors_block_lt k 0 Hk ltac:(unfold fb; lia)). unfold nblocks. lia.
  - cbn. rewrite Forall_map, Forall_forall. intros k Hk. apply In_nrange in Hk.
    apply (NB (fun a => 1 + k * fb + 1 + a)). intros a Ha.
    pose proof (fors_block_lt k (1 + a) Hk ltac:(unfold fb; lia)). unfold nblocks. lia.
  - cbn. rewrite Forall_map, Forall_forall. intros d Hd. apply In_nrange in Hd. cbn. split.
    + apply (NB (fun l => ho + d * hb + l)). intros l Hl. apply ht_block_lt; [exact Hd|unfold hb; lia].
    + apply (NB (fun l => ho + d * hb + cLEN p + l)). intros l Hl.
      rewrite <- N.add_assoc. apply ht_block_lt; [exact Hd|unfold hb; lia].
Qed.

Lemma enc_sig_inj a b : wf_sig_n a -> wf_sig_n b -> enc_sig a = enc_sig b -> a = b.
Proof. intros Wa Wb E. rewrite <- (dec_enc a Wa), <- (dec_enc b Wb), E. reflexivity. Qed.

(** *** the code computes them *)
Lemma runs_expected_sig_len : runs (expected_sig_len p) (cSIG_LEN p) [].
Proof.
  pose proof (PF_n_range p HP) as Hn. pose proof (pf_k p HP) as Hk. pose proof (pf_a p HP) as Ha.
  pose proof (pf_d p HP) as Hd. pose proof (pf_hp p HP) as Hhp. pose proof (PF_len p HP) as Hlen.
  pose proof (pf_sig p HP) as HS. pose proof (pf_sig_lt p HP) as HSlt. rewrite (pf_h p HP) in HS.
  assert (B1 : cN p * cK p <= 32 * 35) by (apply N.mul_le_mono; lia).
  assert (B2 : cK p * cA p <= 35 * 14) by (apply N.mul_le_mono; lia).
  assert (B3 : cK p * cA p * cN p <= 490 * 32) by (apply N.mul_le_mono; lia).
  assert (B4 : cHP p * cN p <= 9 * 32) by (apply N.mul_le_mono; lia).
  assert (B5 : cLEN p * cN p <= 67 * 32) by (apply N.mul_le_mono; lia).
  assert (B6 : cN p + cN p * cK p + cK p * cA p * cN p + cD p * (cHP p * cN p + cLEN p * cN p)
               = cSIG_LEN p) by (rewrite HS; lia).
  unfold expected_sig_len.
  rewrite mul_us by lia. rewrite bind_ret_l. rewrite add_us by lia. rewrite bind_ret_l.
  rewrite mul_us by lia. rewrite bind_ret_l. rewrite mul_us by lia. rewrite bind_ret_l.
  rewrite add_us by lia. rewrite bind_ret_l.
  rewrite mul_us by lia. rewrite bind_ret_l. rewrite mul_us by lia. rewrite bind_ret_l.
  rewrite add_us by lia. rewrite bind_ret_l. rewrite mul_us by lia. rewrite bind_ret_l.
  rewrite add_us by lia. apply runs_ret_eq. exact B6.
Qed.

(** the output buffer after j blocks *)
Definition sst (B : N -> bytes) (j : N) : bytes * N :=
  (concat (map B (nrange j)) ++ nrepeat x00 (cSIG_LEN p - j * n), j * n).

Lemma splice_next (a s : bytes) k :
  nlen s <= k -> splice (a ++ nrepeat x00 k) (nlen a) s = (a ++ s) ++ nrepeat x00 (k - nlen s).
Proof.
  intros Hk. unfold splice, nlen, nrepeat in *. rewrite Nnat.Nat2N.id.
  rewrite firstn_len_app by reflexivity. rewrite <- app_assoc. do 2 f_equal.
  rewrite skipn_len_app, skipn_repeat. f_equal. lia.
Qed.

Lemma sst_len B j : (forall i, i < nblocks -> nlen (B i) = n) -> j <= nblocks ->
  nlen (fst (sst B j)) = cSIG_LEN p.
Proof.
  intros HB Hj. cbn. rewrite nlen_app, nlen_nrepeat.
  rewrite (nlen_concat_blocks _ n) by (intros; apply HB; lia).
  rewrite sig_len_blocks. nia.
Qed.

Lemma sst_copy B j v :
  (forall i, i < nblocks -> nlen (B i) = n) -> j < nblocks -> v = B j ->
  splice (fst (sst B j)) (j * n) v = fst (sst B (j + 1)).
Proof.
  intros HB Hj ->. cbn [fst sst].
  assert (LJ : nlen (concat (map B (nrange j))) = j * n)
    by (apply nlen_concat_blocks; intros; apply HB; lia).
  rewrite <- LJ at 2. rewrite splice_next.
  - rewrite nrange_snoc, map_app, concat_app. cbn [map concat]. rewrite app_nil_r. f_equal.
    f_equal. rewrite (HB j Hj). lia.
  - rewrite (HB j Hj), sig_len_blocks. nia.
Qed.

Lemma runs_put B j v :
  (forall i, i < nblocks -> nlen (B i) = n) -> j < nblocks -> v = B j ->
  runs (put p (sst B j) v) (sst B (j + 1)) [].
Proof.
  intros HB Hj Hv. pose proof (sst_len B j HB ltac:(lia)) as L.
  unfold put. change (sst B j) with (fst (sst B j), j * n). cbv beta iota.
  pose proof (blocks_lt (j + 1) ltac:(lia)) as Hlt. fold n.
  rewrite !add_us by lia. rewrite bind_ret_l.
  eapply runs_bind0.
  - apply runs_copy_into; [lia| |subst v; rewrite HB by exact Hj; lia].
    rewrite L, sig_len_blocks. nia.
  - rewrite (sst_copy B j v HB Hj Hv). rewrite bind_ret_l. apply runs_ret_eq.
    unfold sst. cbn [fst]. f_equal. lia.
Qed.

Lemma runs_serialize sg : wf_sig_n sg -> runs (serialize p sg) (enc_sig sg) [].
Proof.
  intros W. pose proof (nlen_sigB sg W) as HB.
  destruct W as [[W1 [W2 [W3 [W4 W5]]]] [R [P1 [P2 P3]]]].
  assert (HNB : 1 <= nblocks) by (unfold nblocks, ho; lia).
  pose proof (blocks_lt nblocks ltac:(lia)) as Hlt. rewrite <- sig_len_blocks in Hlt.
  unfold serialize. cbv zeta.
  apply runs_debug_assert_bind.
  { eapply runs_bind0; [apply runs_expected_sig_len|]. apply runs_ret_eq.
    rewrite nlen_nrepeat. apply N.eqb_refl. }
  eapply runs_bind0.
  { apply runs_copy_into; [lia|rewrite nlen_nrepeat, sig_len_blocks; fold n; nia|fold n; lia]. }
  replace (splice (nrepeat x00 (cSIG_LEN p)) 0 (randomness sg), cN p) with (sst (sigB sg) 1).
  2:{ pose proof (sst_copy (sigB sg) 0 (randomness sg) HB ltac:(lia) eq_refl) as E.
      cbn [sst fst nrange nseq map concat app] in E. rewrite N.mul_0_l, N.sub_0_r in E.
      change (nrange 0) with (@nil N) in E. cbn [map concat app] in E. rewrite E.
      unfold sst. cbn [fst]. fold n. rewrite N.add_0_l, N.mul_1_l. reflexivity. }
  eapply runs_bind0.
  { apply (runs_for_range' _ (fun k => sst (sigB sg) (1 + k * fb)) (fun _ => []));
      [lia|reflexivity|reflexivity|rewrite flatL_nil; reflexivity|].
    intros k Hk. pose proof (fors_block_lt k 0 ltac:(lia) ltac:(unfold fb; lia)) as Lk.
    eapply runs_bind0; [apply (runs_index _ _ []); lia|].
    eapply runs_bind0.
    { apply runs_put; [exact HB|unfold nblocks; lia|]. rewrite sigB_pkv by lia. reflexivity. }
    apply (runs_for_range' _ (fun a => sst (sigB sg) (1 + k * fb + 1 + a)) (fun _ => []));
      [lia| | |rewrite flatL_nil; reflexivity|].
    - f_equal. lia.
    - f_equal. unfold fb. lia.
    - intros a Ha. pose proof (fors_block_lt k (1 + a) ltac:(lia) ltac:(unfold fb; lia)) as La.
      eapply runs_bind0; [apply (runs_index _ _ []); lia|].
      eapply runs_bind0.
      { apply (runs_index _ _ []).
        rewrite (Forall_nth_N (fun r => nlen r = cA p)); [lia|exact W3|lia]. }
      replace (1 + k * fb + 1 + (a + 1)) with (1 + k * fb + 1 + a + 1) by lia.
      apply runs_put; [exact HB|unfold nblocks; lia|]. rewrite sigB_auth by lia. reflexivity. }
  fold ho.
  eapply runs_bind0.
  { apply (runs_for_range' _ (fun d => sst (sigB sg) (ho + d * hb)) (fun _ => []));
      [lia|f_equal; lia|reflexivity|rewrite flatL_nil; reflexivity|].
    intros d Hd.
    destruct (Forall_nth_N _ _ d (mkXmssSig [] []) W5 ltac:(lia)) as [Y1 Y2].
    eapply runs_bind0.
    { apply (runs_for_range' _ (fun l => sst (sigB sg) (ho + d * hb + l)) (fun _ => []));
        [lia|f_equal; lia|reflexivity|rewrite flatL_nil; reflexivity|].
      intros l Hl. pose proof (ht_block_lt d l ltac:(lia) ltac:(unfold hb; lia)) as Ll.
      eapply runs_bind0; [apply (runs_index _ _ (mkXmssSig [] [])); lia|].
      eapply runs_bind0; [apply (runs_index _ _ []); lia|].
      replace (ho + d * hb + (l + 1)) with (ho + d * hb + l + 1) by lia.
      apply runs_put; [exact HB|lia|]. rewrite sigB_wots by lia. reflexivity. }
    apply (runs_for_range' _ (fun l => sst (sigB sg) (ho + d * hb + cLEN p + l)) (fun _ => []));
      [lia|f_equal; lia|f_equal; unfold hb; lia|rewrite flatL_nil; reflexivity|].
    intros l Hl. pose proof (ht_block_lt d (cLEN p + l) ltac:(lia) ltac:(unfold hb; lia)) as Ll.
    eapply runs_bind0; [apply (runs_index _ _ (mkXmssSig [] [])); lia|].
    eapply runs_bind0; [apply (runs_index _ _ []); lia|].
    replace (ho + d * hb + cLEN p + (l + 1)) with (ho + d * hb + cLEN p + l + 1) by lia.
    apply runs_put; [exact HB|lia|]. rewrite sigB_xauth by lia. reflexivity. }
  fold nblocks.
  pose proof (sst_len (sigB sg) nblocks HB ltac:(lia)) as L.
  change (sst (sigB sg) nblocks) with (fst (sst (sigB sg) nblocks), nblocks * n). cbv beta iota.
  apply runs_debug_assert_bind.
  { apply runs_ret_eq. apply N.eqb_eq. rewrite L. symmetry. apply sig_len_blocks. }
  apply runs_ret_eq. cbn [fst sst]. rewrite sig_len_blocks, N.sub_diag.
  change (nrepeat x00 0) with (@nil byte). rewrite app_nil_r. reflexivity.
Qed.

(** reading block b into element i *)
Lemma runs_get bs V init i b :
  nlen bs = cSIG_LEN p -> b < nblocks -> i < nlen init -> nb init -> V i = blk n bs b ->
  runs (get p bs (b * n) (filled V init i) i) (filled V init (i + 1), (b + 1) * n) [].
Proof.
  intros Hbs Hb Hi Hin HV. unfold get. fold n.
  pose proof (blocks_lt (b + 1) ltac:(lia)) as Hlt.
  rewrite !add_us by lia. rewrite bind_ret_l.
  replace (b * n + n) with ((b + 1) * n) by lia.
  eapply runs_bind0.
  { apply runs_slice; [lia|]. rewrite Hbs, sig_len_blocks. apply N.mul_le_mono_r. lia. }
  fold (blk n bs b).
  eapply runs_bind0; [apply (runs_index _ _ []); rewrite nlen_filled; lia|].
  rewrite filled_get by lia.
  eapply runs_bind0.
  { apply runs_copy. rewrite (nb_nth init i Hin Hi). symmetry.
    eapply nlen_blk; [rewrite Hbs; apply sig_len_blocks|exact Hb]. }
  eapply runs_bind0; [apply (runs_upd_filled V); [exact Hi|symmetry; exact HV]|].
  rewrite bind_ret_l. apply runs_ret.
Qed.

Lemma nb_zero k : nb (nrepeat (nrepeat x00 n) k).
Proof.
  unfold nb. rewrite Forall_forall. intros x Hx. apply repeat_spec in Hx. subst x. apply nlen_nrepeat.
Qed.

Lemma runs_deserialize bs : nlen bs = cSIG_LEN p -> runs (deserialize p bs) (dec_sig bs) [].
Proof.
  intros Hbs.
  assert (HNB : 1 <= nblocks) by (unfold nblocks, ho; lia).
  unfold deserialize.
  apply runs_debug_assert_bind.
  { eapply runs_bind0; [apply runs_expected_sig_len|]. apply runs_ret_eq. apply N.eqb_eq. exact Hbs. }
  eapply runs_bind0.
  { apply runs_slice; [lia|]. rewrite Hbs, sig_len_blocks. fold n. nia. }
  eapply runs_bind0.
  { apply runs_copy. rewrite nlen_nrepeat, nlen_sub_bytes; [lia|lia|].
    rewrite Hbs, sig_len_blocks. fold n. nia. }
  set (row0 := nrepeat (nrepeat x00 n) (cA p)).
  set (pk0 := nrepeat (nrepeat x00 n) (cK p)).
  set (au0 := nrepeat row0 (cK p)).
  set (PKV := fun k => blk n bs (1 + k * fb)).
  set (AUR := fun k a => blk n bs (1 + k * fb + 1 + a)).
  set (AU := fun k => map (AUR k) (nrange (cA p))).
  assert (Lpk : nlen pk0 = cK p) by apply nlen_nrepeat.
  assert (Lau : nlen au0 = cK p) by apply nlen_nrepeat.
  assert (Lrow : nlen row0 = cA p) by apply nlen_nrepeat.
  eapply runs_bind0.
  { apply (runs_for_range' _
      (fun k => (mkForsSig (filled PKV pk0 k) (filled AU au0 k), (1 + k * fb) * n)) (fun _ => []));
      [lia| |reflexivity|rewrite flatL_nil; reflexivity|].
    { unfold zero_fors_sig. fold n. fold row0. fold pk0. fold au0. rewrite !filled_0. f_equal. lia. }
    intros k Hk. pose proof (fors_block_lt k 0 ltac:(lia) ltac:(unfold fb; lia)) as Lk.
    cbv beta iota. cbn [private_key_value fors_auth].
    eapply runs_bind0.
    { apply runs_get; [exact Hbs|unfold nblocks; lia|lia|apply nb_zero|reflexivity]. }
    cbv beta iota zeta.
    set (X := filled AU au0 k).
    assert (LX : nlen X = cK p) by (unfold X; rewrite nlen_filled; lia).
    apply (runs_for_range' _
      (fun a => (mkForsSig (filled PKV pk0 (k + 1)) (upd_list X k (filled (AUR k) row0 a)),
                 (1 + k * fb + 1 + a) * n)) (fun _ => []));
      [lia| | |rewrite flatL_nil; reflexivity|].
    - f_equal; [|f_equal; lia]. f_equal. rewrite filled_0. symmetry.
      replace row0 with (nth (N.to_nat k) X []); [apply upd_list_id; lia|].
      unfold X. rewrite filled_get by lia. unfold au0. apply nth_nrepeat. lia.
    - f_equal; [|f_equal; unfold fb; lia]. f_equal. symmetry.
      rewrite (filled_all (AUR k)) by (symmetry; exact Lrow). fold (AU k).
      unfold X. apply filled_upd; [lia|reflexivity].
    - intros a Ha. cbv beta iota. cbn [private_key_value fors_auth].
      pose proof (fors_block_lt k (1 + a) ltac:(lia) ltac:(unfold fb; lia)) as La.
      eapply runs_bind0.
      { eapply runs_eq; [apply (runs_index _ _ []); rewrite nlen_upd_list; lia| |reflexivity].
        apply nth_upd_same. lia. }
      eapply runs_bind0.
      { apply runs_get; [exact Hbs|unfold nblocks; lia|lia|apply nb_zero|reflexivity]. }
      cbv beta iota.
      eapply runs_bind0.
      { eapply runs_eq; [apply runs_upd; rewrite nlen_upd_list; lia| |reflexivity].
        apply upd_list_twice. lia. }
      apply runs_ret_eq. f_equal. f_equal. lia. }
  cbv beta iota. fold ho.
  rewrite (filled_all PKV) by (symmetry; exact Lpk). rewrite (filled_all AU) by (symmetry; exact Lau).
  set (w0 := nrepeat (nrepeat x00 n) (cLEN p)).
  set (a0 := nrepeat (nrepeat x00 n) (cHP p)).
  assert (Lw : nlen w0 = cLEN p) by apply nlen_nrepeat.
  assert (La0 : nlen a0 = cHP p) by apply nlen_nrepeat.
  set (z0 := nrepeat (mkXmssSig w0 a0) (cD p)).
  assert (Lz : nlen z0 = cD p) by apply nlen_nrepeat.
  set (WV := fun d l => blk n bs (ho + d * hb + l)).
  set (AV := fun d l => blk n bs (ho + d * hb + cLEN p + l)).
  set (XV := fun d => mkXmssSig (map (WV d) (nrange (cLEN p))) (map (AV d) (nrange (cHP p)))).
  eapply runs_bind0.
  { apply (runs_for_range' _ (fun d => (filled XV z0 d, (ho + d * hb) * n)) (fun _ => []));
      [lia| |reflexivity|rewrite flatL_nil; reflexivity|].
    { rewrite filled_0. f_equal. lia. }
    intros d Hd. cbv beta iota.
    set (X := filled XV z0 d).
    assert (LX : nlen X = cD p) by (unfold X; rewrite nlen_filled; lia).
    assert (NX : nth (N.to_nat d) X (mkXmssSig [] []) = mkXmssSig w0 a0).
    { unfold X. rewrite filled_get by lia. unfold z0. apply nth_nrepeat. lia. }
    eapply runs_bind0.
    { apply (runs_for_range' _
        (fun l => (upd_list X d (mkXmssSig (filled (WV d) w0 l) a0), (ho + d * hb + l) * n))
        (fun _ => [])); [lia| |reflexivity|rewrite flatL_nil; reflexivity|].
      { f_equal; [|f_equal; lia]. rewrite filled_0, <- NX. symmetry. apply upd_list_id. lia. }
      intros l Hl. cbv beta iota.
      pose proof (ht_block_lt d l ltac:(lia) ltac:(unfold hb; lia)) as Ll.
      eapply runs_bind0.
      { eapply runs_eq; [apply (runs_index _ _ (mkXmssSig [] [])); rewrite nlen_upd_list; lia| |reflexivity].
        apply nth_upd_same. lia. }
      cbn [sig_wots xmss_auth].
      eapply runs_bind0.
      { apply runs_get; [exact Hbs|lia|lia|apply nb_zero|reflexivity]. }
      cbv beta iota.
      eapply runs_bind0.
      { eapply runs_eq; [apply runs_upd; rewrite nlen_upd_list; lia| |reflexivity].
        apply upd_list_twice. lia. }
      apply runs_ret_eq. f_equal. f_equal. lia. }
    cbv beta iota. rewrite (filled_all (WV d)) by (symmetry; exact Lw).
    set (wv := map (WV d) (nrange (cLEN p))).
    apply (runs_for_range' _
        (fun l => (upd_list X d (mkXmssSig wv (filled (AV d) a0 l)), (ho + d * hb + cLEN p + l) * n))
        (fun _ => [])); [lia| | |rewrite flatL_nil; reflexivity|].
    - rewrite filled_0. f_equal. f_equal. lia.
    - f_equal; [|f_equal; unfold hb; lia]. rewrite (filled_all (AV d)) by (symmetry; exact La0). symmetry.
      unfold X. apply filled_upd; [lia|reflexivity].
    - intros l Hl. cbv beta iota.
      pose proof (ht_block_lt d (cLEN p + l) ltac:(lia) ltac:(unfold hb; lia)) as Ll.
      eapply runs_bind0.
      { eapply runs_eq; [apply (runs_index _ _ (mkXmssSig [] [])); rewrite nlen_upd_list; lia| |reflexivity].
        apply nth_upd_same. lia. }
      cbn [sig_wots xmss_auth].
      eapply runs_bind0.
      { apply runs_get; [exact Hbs|lia|lia|apply nb_zero|reflexivity]. }
      cbv beta iota.
      eapply runs_bind0.
      { eapply runs_eq; [apply runs_upd; rewrite nlen_upd_list; lia| |reflexivity].
        apply upd_list_twice. lia. }
      apply runs_ret_eq. f_equal. f_equal. lia. }
  cbv beta iota. fold nblocks.
  apply runs_debug_assert_bind.
  { apply runs_ret_eq. apply N.eqb_eq. rewrite Hbs. symmetry. apply sig_len_blocks. }
  apply runs_ret_eq. unfold dec_sig. f_equal.
  - unfold blk. f_equal. lia.
  - rewrite filled_all by (symmetry; exact Lz). reflexivity.
Qed.

End SerP.
