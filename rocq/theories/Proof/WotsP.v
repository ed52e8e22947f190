(** src/wots.rs computes the WOTS+ functions of Proof/Fun.v. *)
From Verif Require Export Proof.HashP Proof.Fun Proof.Facts Model.Wots.
From Verif Require Import Spec.Fips205.
From Verif Require Import Model.Types Model.Wots.

(** *** numeric addresses *)
Lemma sub4_len (b : bytes) lo : nlen b = 8 -> lo + 4 <= 8 -> nlen (sub_bytes b lo (lo + 4)) = 4.
Proof. intros H1 H2. rewrite nlen_sub_bytes; lia. Qed.

Lemma nlen_be k x : nlen (be_bytes k x) = N.of_nat k.
Proof. unfold nlen. rewrite length_be_bytes. reflexivity. Qed.

Lemma wf_adr l t ty a b c : wf_adrs (adr l t ty a b c).
Proof.
  unfold wf_adrs, adr. cbn [f0 f1 f2 f3 f4 f5 f6 f7]. rewrite !nlen_be, nlen_nrepeat.
  rewrite (sub4_len _ 0), (sub4_len _ 4) by (rewrite ?nlen_be; lia).
  repeat split.
Qed.

Lemma adr_default : adrs_default = adr 0 0 0 0 0 0.
Proof. vm_compute. reflexivity. Qed.
Lemma adr_layer l t ty a b c x : set_layer_address (adr l t ty a b c) x = adr x t ty a b c.
Proof. reflexivity. Qed.
Lemma adr_tree l t ty a b c x : set_tree_address (adr l t ty a b c) x = adr l x ty a b c.
Proof. reflexivity. Qed.
Lemma adr_type l t ty a b c x : set_type_and_clear (adr l t ty a b c) x = adr l t x 0 0 0.
Proof. reflexivity. Qed.
Lemma adr_kp l t ty a b c x : set_key_pair_address (adr l t ty a b c) x = adr l t ty x b c.
Proof. reflexivity. Qed.
Lemma adr_chain l t ty a b c x : set_chain_address (adr l t ty a b c) x = adr l t ty a x c.
Proof. reflexivity. Qed.
Lemma adr_hash l t ty a b c x : set_hash_address (adr l t ty a b c) x = adr l t ty a b x.
Proof. reflexivity. Qed.
Lemma adr_height l t ty a b c x : set_tree_height (adr l t ty a b c) x = adr l t ty a x c.
Proof. reflexivity. Qed.
Lemma adr_index l t ty a b c x : set_tree_index (adr l t ty a b c) x = adr l t ty a b x.
Proof. reflexivity. Qed.
Lemma adr_get_kp l t ty a b c : a < 4294967296 -> get_key_pair_address (adr l t ty a b c) = a.
Proof.
  intros H. unfold get_key_pair_address, adr. cbn [f5]. rewrite of_be_be_bytes.
  apply N.mod_small. exact H.
Qed.
Lemma adr_get_index l t ty a b c : c < 4294967296 -> get_tree_index (adr l t ty a b c) = c.
Proof.
  intros H. unfold get_tree_index, adr. cbn [f7]. rewrite of_be_be_bytes.
  apply N.mod_small. exact H.
Qed.

Ltac adrs_norm :=
  rewrite ?adr_default, ?adr_layer, ?adr_tree, ?adr_type, ?adr_kp, ?adr_chain, ?adr_hash,
          ?adr_height, ?adr_index.

Lemma nrange_flatL {lf} k : flatL lf 0 k = flat_map lf (nrange k).
Proof. unfold flatL, nrange. rewrite N.sub_0_r. reflexivity. Qed.

Lemma flat_map_ext_in {A B} (g h : A -> list B) l :
  (forall x, In x l -> g x = h x) -> flat_map g l = flat_map h l.
Proof.
  induction l as [|x l IH]; intros E; [reflexivity|]. cbn [flat_map].
  rewrite (E x (or_introl eq_refl)), IH; [reflexivity|]. intros y Hy. apply E. right; exact Hy.
Qed.

(** *** calls through the table of hash functions *)
Section Calls.
Context {T : Target} (hs : Hashers) (hf : HashFns) (HS : HSpec hs hf).

Lemma runs_call_f ps a x : wf_adrs a ->
  runs (call_f hs ps a x) (F hf ps (flat a) x) [EHash KF ps a [x]].
Proof. intros Ha. apply runs_tick_call; [reflexivity|]. apply (hs_f _ _ HS). exact Ha. Qed.
Lemma runs_call_h ps a x y : wf_adrs a ->
  runs (call_h hs ps a x y) (H hf ps (flat a) (x ++ y)) [EHash KH ps a [x; y]].
Proof. intros Ha. apply runs_tick_call; [reflexivity|]. apply (hs_h _ _ HS). exact Ha. Qed.
Lemma runs_call_t_l ps a l : wf_adrs a ->
  runs (call_t_l hs ps a l) (T_l hf ps (flat a) (concat l)) [EHash KTl ps a l].
Proof. intros Ha. apply runs_tick_call; [reflexivity|]. apply (hs_tl _ _ HS). exact Ha. Qed.
Lemma runs_call_t_len ps a l : wf_adrs a ->
  runs (call_t_len hs ps a l) (T_l hf ps (flat a) (concat l)) [EHash KTlen ps a l].
Proof. intros Ha. apply runs_tick_call; [reflexivity|]. apply (hs_tlen _ _ HS). exact Ha. Qed.
Lemma runs_call_prf ps ss a : wf_adrs a ->
  runs (call_prf hs ps ss a) (PRF hf ps ss (flat a)) [EHash KPRF ps a [ss]].
Proof. intros Ha. apply runs_tick_call; [reflexivity|]. apply (hs_prf _ _ HS). exact Ha. Qed.
Lemma runs_call_h_msg r s t m : nlen m <= 5 ->
  runs (call_h_msg hs r s t m) (H_msg hf r s t (concat m)) [EHmsg r s t m].
Proof. intros Hm. apply runs_tick_call; [reflexivity|]. apply (hs_hmsg _ _ HS). exact Hm. Qed.
Lemma runs_call_prf_msg k o m : nlen k <= 64 -> nlen m <= 5 ->
  runs (call_prf_msg hs k o m) (PRF_msg hf k o (concat m)) [EPrfMsg k o m].
Proof.
  intros Hk Hm. apply runs_tick_call; [reflexivity|]. apply (hs_prfm _ _ HS); assumption.
Qed.
End Calls.

(** *** digits *)
Lemma csum_le_aux l : Forall (fun d => d < 16) l -> forall c,
  fold_left (fun c d => c + (15 - d)) l c <= c + 15 * nlen l.
Proof.
  induction 1 as [|d l Hd Hl IH]; intros c; cbn [fold_left].
  - change (nlen (@nil N)) with 0. lia.
  - specialize (IH (c + (15 - d))). rewrite nlen_cons. lia.
Qed.

Lemma digits_lt x b c : Forall (fun d => d < 2 ^ b) (digits x b c).
Proof.
  unfold digits. apply Forall_forall. intros d Hd. apply in_map_iff in Hd.
  destruct Hd as [i [<- _]]. apply digit_lt.
Qed.

Lemma nth_lt (P : N -> Prop) l i : Forall P l -> P 0 -> P (nth i l 0).
Proof.
  intros HF H0. revert i; induction HF as [|x l Hx Hl IH]; intros [|i]; cbn; auto.
Qed.

Section WotsP.
Context {T : Target} (p : Params) (HP : PF p) (hs : Hashers) (hf : HashFns) (HS : HSpec hs hf).
Context (ps ss : bytes).

Lemma csum_le m : csum p m <= 30 * cN p.
Proof.
  unfold csum. pose proof (csum_le_aux (digits m 4 (2 * cN p)) (digits_lt m 4 _) 0) as E.
  rewrite nlen_digits in E. lia.
Qed.

Lemma nlen_wdigits m : nlen (wdigits p m) = cLEN p.
Proof. unfold wdigits. rewrite nlen_app, !nlen_digits. unfold cLEN. reflexivity. Qed.

Lemma wdig_lt m i : wdig p m i < 16.
Proof.
  unfold wdig. apply (nth_lt (fun d => d < 16)); [|reflexivity].
  unfold wdigits. apply Forall_app. split; apply (digits_lt _ 4).
Qed.

Lemma splice_prefix {A} (l s : list A) :
  (length s <= length l)%nat -> splice l 0 s = s ++ skipn (length s) l.
Proof. intros H. unfold splice. reflexivity. Qed.

Lemma runs_csum l c :
  Forall (fun d => d < 16) l -> c + 15 * nlen l < 4294967296 ->
  runs (for_list l (fun item csum =>
          w1 <- sub U32 W 1 ;; x <- sub U32 w1 item ;; add U32 csum x) c)
       (fold_left (fun c d => c + (15 - d)) l c) [].
Proof.
  intros Hl Hc. unfold for_list. apply runs_tick_quiet; [reflexivity|]. revert c Hc.
  induction Hl as [|d l Hd Hl IH]; intros c Hc; cbn [for_list_body fold_left].
  - apply runs_ret.
  - rewrite nlen_cons in Hc.
    eapply runs_bind0; [|apply IH; lia].
    rewrite sub_ok by (unfold W; lia). rewrite bind_ret_l.
    rewrite sub_ok by (unfold W; lia). rewrite bind_ret_l.
    change (W - 1) with 15. rewrite add_u32 by lia. apply runs_ret.
Qed.

Lemma runs_wots_digits m : nlen m = cN p -> runs (wots_sign_digits p m) (wdigits p m) [].
Proof.
  intros Hm. pose proof (PF_n_range p HP) as Hn.
  unfold wots_sign_digits. rewrite try_u32 by lia. rewrite bind_ret_l. cbv zeta.
  rewrite mul_us by lia. rewrite bind_ret_l. rewrite mul_u32 by lia. rewrite bind_ret_l.
  assert (HL : nlen (nrepeat 0 (cLEN p)) = cLEN p) by apply nlen_nrepeat.
  eapply runs_bind0. { apply runs_slice; [lia|]. rewrite HL. unfold cLEN. lia. }
  eapply runs_bind0.
  { apply runs_base_2b; unfold LGW; [lia| |lia|lia|lia].
    rewrite nlen_sub_bytes; [lia|lia|]. rewrite HL. unfold cLEN. lia. }
  change LGW with 4.
  set (lo := digits m 4 (2 * cN p)).
  assert (Llo : nlen lo = 2 * cN p) by apply nlen_digits.
  set (msg := splice (nrepeat 0 (cLEN p)) 0 lo).
  assert (Emsg : msg = lo ++ repeat 0 3).
  { unfold msg. rewrite splice_prefix.
    - f_equal. unfold nrepeat. rewrite skipn_repeat. f_equal.
      unfold nlen in Llo. unfold cLEN. lia.
    - unfold nrepeat. rewrite repeat_length. unfold nlen in Llo. unfold cLEN. lia. }
  assert (Lmsg : nlen msg = cLEN p).
  { rewrite Emsg, nlen_app, Llo. unfold nlen. rewrite repeat_length. unfold cLEN. lia. }
  replace (firstn (N.to_nat (2 * cN p)) msg) with lo.
  2:{ rewrite Emsg. symmetry. apply firstn_len_app. unfold nlen in Llo. lia. }
  eapply runs_bind0.
  { apply runs_csum; [apply (digits_lt m 4)|]. rewrite Llo. lia. }
  fold (csum p m). pose proof (csum_le m) as Hc.
  rewrite mul_u32 by (unfold LEN2; lia). rewrite bind_ret_l. change (LEN2 * 4) with 12.
  change (N.land 12 7) with 4.
  rewrite sub_ok by lia. rewrite bind_ret_l. change (N.land (8 - 4) 7) with 4.
  rewrite shl_u32 by lia. rewrite bind_ret_l. change (2 ^ 4) with 16.
  rewrite (N.mod_small (csum p m * 16)) by lia.
  rewrite add_u32 by lia. rewrite bind_ret_l.
  rewrite div_ok by lia. rewrite bind_ret_l. change ((12 + 7) / 8) with 2.
  eapply runs_bind0. { apply runs_to_byte. lia. }
  eapply runs_bind0. { apply runs_slice; [|lia]. rewrite Lmsg. unfold cLEN. lia. }
  eapply runs_bind0.
  { apply runs_base_2b; [unfold LGW; lia| |rewrite nlen_be; unfold LEN2, LGW; lia|unfold LEN2; lia
                        |rewrite nlen_be; lia].
    rewrite nlen_sub_bytes by (rewrite Lmsg; unfold cLEN; lia). rewrite Lmsg. unfold cLEN, LEN2. lia. }
  apply runs_ret_eq. unfold wdigits. fold lo.
  unfold splice. rewrite Emsg. rewrite firstn_len_app by (unfold nlen in Llo; lia). f_equal.
  rewrite skipn_all2; [apply app_nil_r|].
  rewrite app_length, repeat_length.
  pose proof (nlen_digits (be_bytes 2 (csum p m * 16)) 4 3) as D. unfold nlen in D, Llo.
  change LGW with 4. change LEN2 with 3. lia.
Qed.

Lemma runs_wots_pk_digits m : nlen m = cN p -> runs (wots_pk_digits p m) (wdigits p m) [].
Proof. exact (runs_wots_digits m). Qed.

(** *** chains *)
Lemma runs_chain x i s l t kp ci c :
  i + s <= 15 ->
  runs (chain hs x i s ps (adr l t 0 kp ci c))
       (chainF hf ps (wA l t kp ci) i (N.to_nat s) x)
       (chainC hf ps (wA l t kp ci) i (N.to_nat s) x).
Proof.
  intros Hs. unfold chain.
  apply runs_debug_assert_bind.
  { rewrite add_u32 by lia. rewrite bind_ret_l. apply runs_ret_eq. apply N.ltb_lt.
    rewrite max_u32. lia. }
  rewrite add_u32 by lia. rewrite bind_ret_l.
  unfold for_range. rewrite bind_assoc. apply runs_tick_quiet; [reflexivity|].
  replace (i + s - i) with s by lia. clear Hs.
  set (cnt := N.to_nat s). clearbody cnt. clear s.
  match goal with |- runs (bind (for_n _ _ ?B _) _) _ _ =>
    assert (L : forall cnt i x c, exists c',
      runs (for_n cnt i B (x, adr l t 0 kp ci c))
           (chainF hf ps (wA l t kp ci) i cnt x, adr l t 0 kp ci c')
           (chainC hf ps (wA l t kp ci) i cnt x)) end.
  { clear - HS. intros cnt. induction cnt as [|cnt IH]; intros i x c; cbn [for_n chainF chainC].
    - exists c. apply runs_ret.
    - cbv zeta. adrs_norm.
      destruct (IH (i + 1) (F hf ps (flat (adr l t 0 kp ci i)) x) i) as [c' Hc'].
      exists c'.
      change (EHash KF ps (wA l t kp ci i) [x] :: ?Z) with ([EHash KF ps (wA l t kp ci i) [x]] ++ Z).
      eapply runs_bind; [|exact Hc'].
      eapply runs_bind_r; [apply (runs_call_f hs hf HS); apply wf_adr|]. apply runs_ret. }
  destruct (L cnt i x c) as [c' Hc'].
  eapply runs_bind_r; [exact Hc'|]. apply runs_ret.
Qed.

Lemma pred_S i : N.pred (i + 1) = i.
Proof. lia. Qed.

(** *** wots_pkgen *)
Lemma runs_wots_pkgen l t kp :
  kp < 4294967296 ->
  runs (wots_pkgen p hs ss ps (adr l t 0 kp 0 0)) (wleaf p hf ps ss l t kp) (wleafC p hf ps ss l t kp).
Proof.
  intros Hkp. pose proof (PF_len p HP) as Hlen.
  unfold wots_pkgen. rewrite try_u32 by lia. rewrite bind_ret_l. cbv zeta.
  unfold WOTS_PRF, WOTS_PK.
  rewrite adr_get_kp by exact Hkp. adrs_norm.
  unfold wleafC. eapply runs_bind.
  - apply (runs_for_range' _
      (fun i => (filled (fun i => wval hf ps ss l t kp i 15) (nrepeat (nrepeat x00 (cN p)) (cLEN p)) i,
                 adr l t 0 kp (N.pred i) 0, adr l t 5 kp (N.pred i) 0))
      (fun i => wvalC hf ps ss l t kp i 15)); [lia|reflexivity|reflexivity|apply eq_sym, nrange_flatL|].
    intros i Hi. cbv beta iota zeta. adrs_norm. rewrite pred_S.
    unfold wvalC.
    change (wskC ps ss l t kp i :: ?Z) with ([wskC ps ss l t kp i] ++ Z).
    eapply runs_bind; [apply (runs_call_prf hs hf HS); apply wf_adr|].
    change (sub U32 W 1) with (ret (A := N) 15). rewrite bind_ret_l.
    eapply runs_bind_r; [apply runs_chain; lia|].
    rewrite cast_us by lia.
    eapply runs_bind0; [apply runs_upd_filled; [rewrite nlen_nrepeat; lia|reflexivity]|].
    apply runs_ret.
  - cbv beta iota. rewrite adr_get_kp by exact Hkp. adrs_norm.
    rewrite filled_all by (rewrite nlen_nrepeat; reflexivity).
    apply (runs_call_t_l hs hf HS). apply wf_adr.
Qed.

(** *** wots_sign *)
Lemma runs_wots_sign m l t kp :
  kp < 4294967296 -> nlen m = cN p ->
  runs (wots_sign p hs m ss ps (adr l t 0 kp 0 0)) (wsig p hf ps ss l t kp m) (wsigC p hf ps ss l t kp m).
Proof.
  intros Hkp Hm. pose proof (PF_len p HP) as Hlen.
  unfold wots_sign. cbv zeta.
  eapply runs_bind0; [apply runs_wots_digits; exact Hm|].
  rewrite nlen_wdigits. unfold WOTS_PRF. rewrite adr_get_kp by exact Hkp. adrs_norm.
  eapply runs_bind_r.
  - apply (runs_for_range' _
      (fun i => (filled (fun i => wval hf ps ss l t kp i (wdig p m i))
                   (nrepeat (nrepeat x00 (cN p)) (cLEN p)) i,
                 adr l t 0 kp (N.pred i) 0, adr l t 5 kp (N.pred i) 0))
      (fun i => wvalC hf ps ss l t kp i (wdig p m i)));
      [lia|reflexivity|reflexivity|apply eq_sym, nrange_flatL|].
    intros i Hi. cbv beta iota zeta.
    eapply runs_bind0; [apply (runs_index _ _ 0); rewrite nlen_wdigits; lia|].
    fold (wdig p m i). adrs_norm. rewrite pred_S.
    unfold wvalC.
    change (wskC ps ss l t kp i :: ?Z) with ([wskC ps ss l t kp i] ++ Z).
    eapply runs_bind; [apply (runs_call_prf hs hf HS); apply wf_adr|].
    pose proof (wdig_lt m i) as Hd.
    eapply runs_bind_r; [apply runs_chain; lia|].
    rewrite cast_us by lia.
    eapply runs_bind0; [apply runs_upd_filled; [rewrite nlen_nrepeat; lia|reflexivity]|].
    apply runs_ret.
  - cbv beta iota. rewrite filled_all by (rewrite nlen_nrepeat; reflexivity). apply runs_ret.
Qed.

(** *** wots_pk_from_sig *)
Lemma runs_wots_pk_from_sig sig m l t kp :
  kp < 4294967296 -> nlen m = cN p -> nlen sig = cLEN p ->
  runs (wots_pk_from_sig p hs sig m ps (adr l t 0 kp 0 0)) (wpk p hf ps l t kp sig m)
       (wpkC p hf ps l t kp sig m).
Proof.
  intros Hkp Hm Hsig. pose proof (PF_len p HP) as Hlen.
  unfold wots_pk_from_sig. cbv zeta.
  eapply runs_bind0; [apply runs_wots_pk_digits; exact Hm|].
  unfold wpkC. eapply runs_bind.
  - apply (runs_for_range' _
      (fun i => (filled (fun i => chainF hf ps (wA l t kp i) (wdig p m i)
                            (N.to_nat (15 - wdig p m i)) (nth (N.to_nat i) sig []))
                   (nrepeat (nrepeat x00 (cN p)) (cLEN p)) i,
                 adr l t 0 kp (N.pred i) 0))
      (fun i => chainC hf ps (wA l t kp i) (wdig p m i)
                            (N.to_nat (15 - wdig p m i)) (nth (N.to_nat i) sig [])));
      [lia|reflexivity|reflexivity|apply eq_sym, nrange_flatL|].
    intros i Hi. cbv beta iota zeta.
    rewrite cast_u32 by lia. adrs_norm. rewrite pred_S.
    eapply runs_bind0; [apply (runs_index _ _ []); lia|].
    eapply runs_bind0; [apply (runs_index _ _ 0); rewrite nlen_wdigits; lia|].
    fold (wdig p m i).
    change (sub U32 W 1) with (ret (A := N) 15). rewrite bind_ret_l.
    pose proof (wdig_lt m i) as Hd.
    rewrite sub_ok by lia. rewrite bind_ret_l.
    eapply runs_bind_r; [apply runs_chain; lia|].
    eapply runs_bind0; [apply runs_upd_filled; [rewrite nlen_nrepeat; lia|reflexivity]|].
    apply runs_ret.
  - cbv beta iota. unfold WOTS_PK. rewrite adr_get_kp by exact Hkp. adrs_norm.
    rewrite filled_all by (rewrite nlen_nrepeat; reflexivity).
    apply (runs_call_t_l hs hf HS). apply wf_adr.
Qed.

End WotsP.
