(** src/hashers.rs computes the functions of FIPS 205 section 11. *)
From Verif Require Export Proof.HelpersP Proof.Facts Model.Hashers.
From Verif Require Import Proof.SpecP.
From Verif Require Import Spec.Fips205 Spec.Fips205Hash.

(** the FIPS parameters of a model parameter record (lg_w = 4 is the constant LGW) *)
Definition fips_of (p : Params) : FipsParams :=
  mkFipsParams (cN p) (cH p) (cD p) (cHP p) (cA p) (cK p) 4 (cM p).

Definition hf_of {PR : Prims} (p : Params) : HashFns :=
  match cfam p with
  | Shake => shake_fns (fips_of p)
  | Sha2Cat1 => sha2_cat1_fns (fips_of p)
  | Sha2Cat35 => sha2_cat35_fns (fips_of p)
  end.

(** output lengths *)
Record HLen (n m : N) (hf : HashFns) : Prop := {
  len_F : forall pk a x, nlen (F hf pk a x) = n;
  len_H : forall pk a x, nlen (H hf pk a x) = n;
  len_T : forall pk a x, nlen (T_l hf pk a x) = n;
  len_PRF : forall pk s a, nlen (PRF hf pk s a) = n;
  len_PRFm : forall k o x, nlen (PRF_msg hf k o x) = n;
  len_Hmsg : forall r s t x, nlen (H_msg hf r s t x) = m }.

(** what the rest of the proofs use of a [Hashers] table *)
Record HSpec (hs : Hashers) (hf : HashFns) : Prop := {
  hs_f : forall pk a x, wf_adrs a -> runs (f hs pk a x) (F hf pk (flat a) x) [];
  hs_h : forall pk a x y, wf_adrs a -> runs (h hs pk a x y) (H hf pk (flat a) (x ++ y)) [];
  hs_tl : forall pk a l, wf_adrs a -> runs (t_l hs pk a l) (T_l hf pk (flat a) (concat l)) [];
  hs_tlen : forall pk a l, wf_adrs a -> runs (t_len hs pk a l) (T_l hf pk (flat a) (concat l)) [];
  hs_prf : forall pk s a, wf_adrs a -> runs (prf hs pk s a) (PRF hf pk s (flat a)) [];
  hs_prfm : forall k o m, nlen k <= 64 -> nlen m <= 5 ->
    runs (prf_msg hs k o m) (PRF_msg hf k o (concat m)) [];
  hs_hmsg : forall r s t m, nlen m <= 5 ->
    runs (h_msg hs r s t m) (H_msg hf r s t (concat m)) [] }.

Lemma sub_bytes_0 {A} (l : list A) k : sub_bytes l 0 k = firstn (N.to_nat k) l.
Proof. unfold sub_bytes. rewrite N.sub_0_r. reflexivity. Qed.

Lemma nlen_firstn {A} (l : list A) k : k <= nlen l -> nlen (firstn (N.to_nat k) l) = k.
Proof. unfold nlen. intros H. rewrite firstn_length. lia. Qed.

Lemma runs_absorb_all hs0 l : runs (absorb_all hs0 l) (hs0 ++ concat l) [].
Proof.
  unfold absorb_all. eapply runs_eq; [apply (runs_for_list _ _ hasher_update)| |reflexivity].
  - intros x s _. apply runs_ret.
  - revert hs0; induction l as [|x l IH]; intros hs0; cbn [fold_left concat].
    + rewrite app_nil_r. reflexivity.
    + rewrite IH. unfold hasher_update. rewrite app_assoc. reflexivity.
Qed.

Lemma skipn_repeat {A} (x : A) a b : skipn a (repeat x b) = repeat x (b - a).
Proof.
  revert b; induction a as [|a IH]; intros [|b]; cbn [skipn repeat Nat.sub]; try reflexivity. apply IH.
Qed.

Lemma firstn_repeat {A} (x : A) a b : (a <= b)%nat -> firstn a (repeat x b) = repeat x a.
Proof.
  revert b; induction a as [|a IH]; intros [|b] H; cbn [firstn repeat]; try reflexivity; [lia|].
  f_equal. apply IH. lia.
Qed.

Lemma concat_repeat_nil {A} k : concat (repeat (@nil A) k) = [].
Proof. induction k as [|k IH]; [reflexivity|exact IH]. Qed.

Section HashP.
Context {T : Target} {PR : Prims}.

Lemma runs_with_pieces first m :
  nlen first <= 3 -> nlen m <= 5 ->
  exists rest, runs (with_pieces first m) (first ++ m ++ rest) [] /\ concat rest = [].
Proof.
  intros H1 H2. unfold with_pieces. rewrite add_us by lia. rewrite bind_ret_l.
  exists (skipn (length m) [[]; []; []; []; []]). split.
  - eapply runs_eq; [apply runs_copy_into; rewrite ?nlen_app|..].
    + lia.
    + change (nlen (A:=bytes) [[]; []; []; []; []]) with 5. lia.
    + lia.
    + unfold splice. unfold nlen. rewrite !Nnat.Nat2N.id.
      rewrite firstn_app, firstn_all, Nat.sub_diag, firstn_O, app_nil_r.
      rewrite skipn_app. rewrite (skipn_all2 first) by lia. cbn [app].
      replace (length first + length m - length first)%nat with (length m) by lia. reflexivity.
    + reflexivity.
  - change [[]; []; []; []; []] with (repeat (@nil byte) 5).
    rewrite skipn_repeat. apply concat_repeat_nil.
Qed.

(** *** shake *)
Lemma runs_shake256 l k : runs (shake_shake256 l k) (shake256 (concat l) k) [].
Proof.
  unfold shake_shake256. eapply runs_bind0; [apply runs_absorb_all|]. apply runs_ret.
Qed.

Lemma concat3 {A} (a b c : list A) : concat [a; b; c] = a ++ b ++ c.
Proof. cbn. rewrite app_nil_r. reflexivity. Qed.

Lemma shake_HSpec p : cfam p = Shake -> HSpec (HASHERS p) (hf_of p).
Proof.
  intros E. unfold HASHERS, hf_of. rewrite E.
  constructor; cbn [f h t_l t_len prf prf_msg h_msg F H T_l PRF PRF_msg H_msg shake_fns fips_of
                    n_ m_]; intros.
  - unfold shake_f. eapply runs_bind0; [apply runs_to_32_bytes; assumption|].
    eapply runs_eq; [apply runs_shake256| |reflexivity]. rewrite concat3. reflexivity.
  - unfold shake_h. eapply runs_bind0; [apply runs_to_32_bytes; assumption|].
    eapply runs_eq; [apply runs_shake256| |reflexivity]. cbn. rewrite app_nil_r. reflexivity.
  - unfold shake_t_l. eapply runs_bind0; [apply runs_to_32_bytes; assumption|].
    eapply runs_bind0; [apply runs_absorb_all|]. unfold hasher_update, hasher_new.
    cbn [app]. rewrite <- app_assoc. apply runs_ret.
  - unfold shake_t_l. eapply runs_bind0; [apply runs_to_32_bytes; assumption|].
    eapply runs_bind0; [apply runs_absorb_all|]. unfold hasher_update, hasher_new.
    cbn [app]. rewrite <- app_assoc. apply runs_ret.
  - unfold shake_prf. eapply runs_bind0; [apply runs_to_32_bytes; assumption|].
    eapply runs_eq; [apply runs_shake256| |reflexivity]. rewrite concat3. reflexivity.
  - unfold shake_prf_msg.
    destruct (runs_with_pieces [k; o] m) as [rest [Hr Hc]]; [vm_compute; discriminate|assumption|].
    eapply runs_bind0; [exact Hr|].
    eapply runs_eq; [apply runs_shake256| |reflexivity].
    cbn [app concat]. rewrite concat_app, Hc, app_nil_r. reflexivity.
  - unfold shake_h_msg.
    destruct (runs_with_pieces [r; s; t] m) as [rest [Hr Hc]]; [vm_compute; discriminate|assumption|].
    eapply runs_bind0; [exact Hr|].
    eapply runs_eq; [apply runs_shake256| |reflexivity].
    cbn [app concat]. rewrite concat_app, Hc, app_nil_r. reflexivity.
Qed.

Lemma shake_HLen p : HLen (cN p) (cM p) (shake_fns (fips_of p)).
Proof. constructor; intros; apply shake256_len. Qed.

(** *** SHA2 *)
Lemma runs_sha2_256 l k : k <= 32 -> runs (sha2_256 l k) (Trunc k (sha256 (concat l))) [].
Proof.
  intros Hk. unfold sha2_256. eapply runs_bind0; [apply runs_absorb_all|].
  unfold hasher_new; cbn [app]. unfold Trunc. rewrite <- sub_bytes_0.
  apply runs_slice; [lia|rewrite sha256_len; exact Hk].
Qed.

Lemma runs_sha2_512 l k : k <= 64 -> runs (sha2_512 l k) (Trunc k (sha512 (concat l))) [].
Proof.
  intros Hk. unfold sha2_512. eapply runs_bind0; [apply runs_absorb_all|].
  unfold hasher_new; cbn [app]. unfold Trunc. rewrite <- sub_bytes_0.
  apply runs_slice; [lia|rewrite sha512_len; exact Hk].
Qed.

Lemma Trunc_all k l : nlen l = k -> Trunc k l = l.
Proof. intros E. unfold Trunc. apply firstn_all2. unfold nlen in E. lia. Qed.

Lemma be_bytes_0 k : be_bytes k 0 = repeat x00 k.
Proof.
  induction k as [|k IH]; [reflexivity|]. cbn [be_bytes].
  change (0 / 256) with 0. rewrite IH. change (n2b 0) with x00.
  cbn [repeat]. rewrite <- repeat_cons. reflexivity.
Qed.

Lemma zeros_slice a b : b <= a ->
  runs (slice (nrepeat x00 a) 0 b) (toByte 0 b) [].
Proof.
  intros Hb. eapply runs_eq; [apply runs_slice; [lia|rewrite nlen_nrepeat; exact Hb]| |reflexivity].
  rewrite sub_bytes_0, toByte_be, be_bytes_0. unfold nrepeat.
  replace (N.to_nat a) with (N.to_nat b + (N.to_nat a - N.to_nat b))%nat by lia.
  rewrite repeat_app, firstn_app, repeat_length, Nat.sub_diag, firstn_O, app_nil_r.
  apply firstn_all2. rewrite repeat_length. lia.
Qed.

Lemma ADRSc_flat a : wf_adrs a -> ADRSc (flat a) = flat22 a.
Proof. intros Hw. open_adrs a Hw. reflexivity. Qed.

Lemma nlen_Trunc k l : k <= nlen l -> nlen (Trunc k l) = k.
Proof. apply nlen_firstn. Qed.

(** HMAC *)
Lemma xor_36 b : byte_xor Coq.Init.Byte.x36 b = byte_xor b Coq.Init.Byte.x36.
Proof. destruct b; reflexivity. Qed.
Lemma xor_36_0 : byte_xor x00 Coq.Init.Byte.x36 = Coq.Init.Byte.x36.
Proof. reflexivity. Qed.
Lemma xor_36_6a b :
  byte_xor (byte_xor b Coq.Init.Byte.x36) Coq.Init.Byte.x6a = byte_xor b Coq.Init.Byte.x5c.
Proof. destruct b; reflexivity. Qed.

Lemma zip_xor_pad k key : (length key <= k)%nat ->
  zip_xor (repeat Coq.Init.Byte.x36 k) key
  = xor_with Coq.Init.Byte.x36 (key ++ repeat x00 (k - length key)).
Proof.
  unfold xor_with. revert key; induction k as [|k IH]; intros [|c key] Hl; cbn [length] in Hl; try lia.
  - reflexivity.
  - cbn [repeat zip_xor app length]. rewrite Nat.sub_0_r. cbn [repeat map]. rewrite xor_36_0.
    f_equal. clear. induction k as [|k IH]; [reflexivity|]. cbn [repeat map]. rewrite xor_36_0.
    f_equal. exact IH.
  - cbn [repeat zip_xor app length map]. rewrite xor_36. f_equal.
    replace (S k - S (length key))%nat with (k - length key)%nat by lia. apply IH. lia.
Qed.

Lemma runs_hmac block hash key a0 m :
  nlen key <= block ->
  runs (hmac block hash key a0 m) (HMAC hash block key (a0 ++ concat m)) [].
Proof.
  intros Hk. unfold hmac. apply runs_tick_quiet; [reflexivity|].
  eapply runs_bind0; [apply runs_absorb_all|].
  assert (Z : zip_xor (nrepeat Coq.Init.Byte.x36 block) key
              = xor_with Coq.Init.Byte.x36 (key ++ nrepeat x00 (block - nlen key))).
  { unfold nrepeat. rewrite zip_xor_pad by (unfold nlen in Hk; lia). do 3 f_equal.
    unfold nlen. lia. }
  eapply runs_bind0.
  { apply (runs_map_mut _ _ (fun _ => tt) (fun _ p => byte_xor p Coq.Init.Byte.x6a));
      [reflexivity|reflexivity|]. intros i x _. apply runs_ret. }
  cbv beta iota. apply runs_ret_eq. rewrite mapi_map.
  unfold HMAC. apply N.ltb_ge in Hk. rewrite Hk.
  unfold hasher_update, hasher_new. cbn [app]. rewrite Z, <- app_assoc.
  f_equal. f_equal. unfold xor_with. rewrite map_map. apply map_ext. apply xor_36_6a.
Qed.

(** MGF1 *)
Lemma firstn_len_app {A} k (a b : list A) : k = length a -> firstn k (a ++ b) = a.
Proof. intros ->. rewrite firstn_app, firstn_all, Nat.sub_diag, firstn_O. apply app_nil_r. Qed.

Lemma skipn_len_app {A} k (a b : list A) : skipn (length a + k) (a ++ b) = skipn k b.
Proof.
  rewrite skipn_app. rewrite skipn_all2 by lia. cbn [app]. f_equal. lia.
Qed.

Lemma runs_sha2_h_msg bl (hash : bytes -> bytes) hl cm r s t m :
  (bl = 32 \/ bl = 64) -> 1 <= cm <= 64 ->
  (forall x, nlen (hash x) = bl) ->
  (forall l k, k <= bl -> runs (hl l k) (Trunc k (hash (concat l))) []) ->
  nlen m <= 5 ->
  runs (sha2_h_msg bl hl cm r s t m)
       (MGF1 hash bl (r ++ s ++ hash (r ++ s ++ t ++ concat m)) cm) [].
Proof.
  intros Hbl Hcm Hlen Hh Hm. unfold sha2_h_msg.
  destruct (runs_with_pieces [r; s; t] m) as [rest [Hr Hc]]; [vm_compute; discriminate|exact Hm|].
  eapply runs_bind0; [exact Hr|].
  eapply runs_bind0; [apply Hh; lia|].
  rewrite Trunc_all by apply Hlen.
  replace (concat ([r; s; t] ++ m ++ rest)) with (r ++ s ++ t ++ concat m)
    by (cbn [app concat]; rewrite concat_app, Hc, app_nil_r; reflexivity).
  set (dg := hash (r ++ s ++ t ++ concat m)).
  set (blk := fun c => hash ((r ++ s ++ dg) ++ toByte c 4)).
  set (TT := fun j => concat (map blk (nrange j))).
  assert (LT : forall j, nlen (TT j) = j * bl).
  { intros j. induction j as [|j IH] using N.peano_ind; [reflexivity|].
    rewrite <- N.add_1_r. unfold TT in *. rewrite nrange_snoc, map_app, concat_app, nlen_app.
    cbn [map concat]. rewrite app_nil_r. unfold blk at 2. rewrite Hlen, IH. lia. }
  assert (TS : forall j, TT (j + 1) = TT j ++ blk j).
  { intros j. unfold TT. rewrite nrange_snoc, map_app, concat_app. cbn [map concat].
    rewrite app_nil_r. reflexivity. }
  set (st := fun j => (firstn (N.to_nat cm) (TT j ++ nrepeat x00 cm), j * bl, j)).
  set (kk := ceil_div cm bl).
  assert (K1 : cm <= kk * bl < cm + bl).
  { unfold kk, ceil_div. destruct Hbl as [->| ->]; lia. }
  eapply runs_bind0.
  - replace (nrepeat x00 cm, 0, 0) with (st 0).
    2:{ unfold st. cbn [TT nrange]. change (TT 0) with (@nil byte). cbn [app].
        rewrite firstn_all2; [reflexivity|]. unfold nrepeat. rewrite repeat_length. lia. }
    apply (runs_while _ _ _ st kk 0).
    + nia.
    + intros j Hj. unfold st at 1 2. split. { apply N.ltb_lt. nia. }
      eapply runs_bind0; [apply Hh; lia|].
      rewrite Trunc_all by apply Hlen.
      assert (Hjb : j * bl < cm) by nia.
      rewrite sub_ok by lia. rewrite bind_ret_l.
      rewrite add_us by lia. rewrite bind_ret_l.
      assert (Eb : hash (concat [r; s; dg; be_bytes 4 j]) = blk j).
      { unfold blk. f_equal. rewrite toByte_be. cbn [concat]. rewrite app_nil_r.
        rewrite <- !app_assoc. reflexivity. }
      rewrite Eb.
      assert (Lb : nlen (blk j) = bl) by apply Hlen.
      eapply runs_bind0; [apply runs_slice; [lia|rewrite Lb; lia]|].
      assert (ER : firstn (N.to_nat cm) (TT j ++ nrepeat x00 cm)
                   = TT j ++ repeat x00 (N.to_nat (cm - j * bl))).
      { rewrite firstn_app. rewrite firstn_all2 by (specialize (LT j); unfold nlen in LT; lia).
        f_equal. unfold nrepeat.
        replace (N.to_nat cm - length (TT j))%nat with (N.to_nat (cm - j * bl))
          by (specialize (LT j); unfold nlen in LT; lia).
        replace (N.to_nat cm) with (N.to_nat (cm - j * bl) + N.to_nat (j * bl))%nat by lia.
        rewrite repeat_app. apply firstn_len_app. rewrite repeat_length. reflexivity. }
      rewrite ER.
      eapply runs_bind0.
      { apply runs_copy_into.
        - lia.
        - rewrite nlen_app, LT. unfold nlen. rewrite repeat_length. lia.
        - rewrite nlen_sub_bytes by (rewrite ?Lb; lia). lia. }
      rewrite add_us by nia. rewrite bind_ret_l.
      rewrite add_u32 by nia. rewrite bind_ret_l.
      apply runs_ret_eq. unfold st. rewrite TS.
      replace ((j + 1) * bl) with (j * bl + bl) by lia. f_equal. f_equal.
      (* the spliced buffer *)
      unfold splice.
      assert (LTj : N.to_nat (j * bl) = length (TT j)) by (specialize (LT j); unfold nlen in LT; lia).
      rewrite firstn_len_app by exact LTj.
      rewrite LTj at 1. rewrite skipn_len_app, skipn_repeat, sub_bytes_0.
      rewrite <- app_assoc. rewrite firstn_app.
      rewrite (firstn_all2 (TT j)) by lia. f_equal.
      replace (N.to_nat cm - length (TT j))%nat with (N.to_nat (cm - j * bl)) by lia.
      destruct (N.le_ge_cases bl (cm - j * bl)) as [C|C].
      * rewrite N.min_r by exact C.
        rewrite (firstn_all2 (blk j)) by (unfold nlen in Lb; lia).
        rewrite firstn_app. rewrite (firstn_all2 (blk j)) by (unfold nlen in Lb; lia). f_equal.
        unfold nrepeat. rewrite firstn_repeat by lia. reflexivity.
      * rewrite N.min_l by exact C.
        rewrite firstn_length. unfold nlen in Lb.
        replace (N.to_nat (cm - j * bl) - Nat.min (N.to_nat (cm - j * bl)) (length (blk j)))%nat
          with O by lia.
        cbn [repeat]. rewrite app_nil_r.
        rewrite firstn_app.
        replace (N.to_nat (cm - j * bl) - length (blk j))%nat with O by lia.
        rewrite firstn_O, app_nil_r. reflexivity.
    + unfold st. apply N.ltb_ge. nia.
  - unfold st at 1. cbv beta iota. apply runs_ret_eq. rewrite N.add_0_l.
    unfold MGF1. fold kk.
    rewrite (for_st' _ TT 0 kk [] (TT kk)); [|lia|reflexivity|reflexivity|].
    + rewrite firstn_app.
      replace (N.to_nat cm - length (TT kk))%nat with O by (specialize (LT kk); unfold nlen in LT; nia).
      rewrite firstn_O, app_nil_r. reflexivity.
    + intros i _. rewrite TS. reflexivity.
Qed.

Lemma nlen_MGF1 bl hash sd cm :
  (bl = 32 \/ bl = 64) -> (forall x, nlen (hash x) = bl) -> nlen (MGF1 hash bl sd cm) = cm.
Proof.
  intros Hbl Hlen. unfold MGF1. apply nlen_firstn.
  set (TT := fun j => concat (map (fun c => hash (sd ++ toByte c 4)) (nrange j))).
  assert (LT : forall j, nlen (TT j) = j * bl).
  { intros j. induction j as [|j IH] using N.peano_ind; [reflexivity|].
    rewrite <- N.add_1_r. unfold TT in *. rewrite nrange_snoc, map_app, concat_app, nlen_app.
    cbn [map concat]. rewrite app_nil_r. rewrite Hlen, IH. lia. }
  rewrite (for_st' _ TT 0 (ceil_div cm bl) [] (TT (ceil_div cm bl))); [|lia|reflexivity|reflexivity|].
  - rewrite LT. unfold ceil_div. destruct Hbl as [->| ->]; lia.
  - intros i _. unfold TT. rewrite nrange_snoc, map_app, concat_app. cbn [map concat].
    rewrite app_nil_r. reflexivity.
Qed.

Lemma cat1_HSpec p : PF p -> cfam p = Sha2Cat1 -> HSpec (HASHERS p) (hf_of p).
Proof.
  intros HP E. pose proof (pf_cat1 p HP E) as En. pose proof (pf_m p HP) as Em.
  pose proof (pf_m_lt p HP) as Hmlt. pose proof (pf_hp p HP) as Hhp.
  assert (Hm1 : 1 <= cM p).
  { rewrite Em. assert (1 <= (cHP p + 7) / 8) by lia. lia. }
  unfold HASHERS, hf_of. rewrite E.
  constructor; cbn [f h t_l t_len prf prf_msg h_msg F H T_l PRF PRF_msg H_msg sha2_cat1_fns fips_of
                    n_ m_]; intros.
  - unfold cat1_f. rewrite sub_ok by lia. rewrite bind_ret_l.
    eapply runs_bind0; [apply zeros_slice; lia|].
    eapply runs_bind0; [apply runs_to_22_bytes; assumption|].
    eapply runs_eq; [apply runs_sha2_256; lia| |reflexivity].
    rewrite ADRSc_flat by assumption. cbn. rewrite app_nil_r. reflexivity.
  - unfold cat1_h. rewrite sub_ok by lia. rewrite bind_ret_l.
    eapply runs_bind0; [apply zeros_slice; lia|].
    eapply runs_bind0; [apply runs_to_22_bytes; assumption|].
    eapply runs_eq; [apply runs_sha2_256; lia| |reflexivity].
    rewrite ADRSc_flat by assumption. cbn. rewrite app_nil_r. reflexivity.
  - unfold cat1_t_l. rewrite sub_ok by lia. rewrite bind_ret_l.
    eapply runs_bind0; [apply zeros_slice; lia|].
    eapply runs_bind0; [apply runs_to_22_bytes; assumption|].
    eapply runs_bind0; [apply runs_absorb_all|].
    eapply runs_bind0; [apply runs_slice; [lia|rewrite sha256_len; lia]|].
    eapply runs_eq; [apply runs_copy; rewrite nlen_nrepeat, nlen_sub_bytes; rewrite ?sha256_len; lia
                    | |reflexivity].
    rewrite ADRSc_flat by assumption. rewrite sub_bytes_0. unfold Trunc, hasher_update, hasher_new.
    cbn [app]. rewrite <- !app_assoc. reflexivity.
  - unfold cat1_t_l. rewrite sub_ok by lia. rewrite bind_ret_l.
    eapply runs_bind0; [apply zeros_slice; lia|].
    eapply runs_bind0; [apply runs_to_22_bytes; assumption|].
    eapply runs_bind0; [apply runs_absorb_all|].
    eapply runs_bind0; [apply runs_slice; [lia|rewrite sha256_len; lia]|].
    eapply runs_eq; [apply runs_copy; rewrite nlen_nrepeat, nlen_sub_bytes; rewrite ?sha256_len; lia
                    | |reflexivity].
    rewrite ADRSc_flat by assumption. rewrite sub_bytes_0. unfold Trunc, hasher_update, hasher_new.
    cbn [app]. rewrite <- !app_assoc. reflexivity.
  - unfold cat1_prf. rewrite sub_ok by lia. rewrite bind_ret_l.
    eapply runs_bind0; [apply zeros_slice; lia|].
    eapply runs_bind0; [apply runs_to_22_bytes; assumption|].
    eapply runs_eq; [apply runs_sha2_256; lia| |reflexivity].
    rewrite ADRSc_flat by assumption. cbn. rewrite app_nil_r. reflexivity.
  - unfold cat1_prf_msg.
    eapply runs_bind0; [apply runs_hmac; lia|].
    eapply runs_bind0; [apply runs_slice; [lia|unfold HMAC; rewrite sha256_len; lia]|].
    eapply runs_eq; [apply runs_copy; rewrite nlen_nrepeat, nlen_sub_bytes; unfold HMAC; rewrite ?sha256_len; lia
                    | |reflexivity].
    rewrite sub_bytes_0. reflexivity.
  - unfold cat1_h_msg. apply runs_sha2_h_msg; [auto|lia|apply sha256_len|apply runs_sha2_256|assumption].
Qed.

Lemma cat1_HLen p : PF p -> cfam p = Sha2Cat1 -> HLen (cN p) (cM p) (sha2_cat1_fns (fips_of p)).
Proof.
  intros HP E. pose proof (pf_cat1 p HP E) as En.
  constructor; intros; cbn [F H T_l PRF PRF_msg H_msg sha2_cat1_fns fips_of n_ m_];
    try (apply nlen_Trunc; unfold HMAC; rewrite sha256_len; lia).
  apply nlen_MGF1; [auto|apply sha256_len].
Qed.

Lemma cat35_HSpec p : PF p -> cfam p = Sha2Cat35 -> HSpec (HASHERS p) (hf_of p).
Proof.
  intros HP E. pose proof (pf_cat35 p HP E) as En. pose proof (pf_m p HP) as Em.
  pose proof (pf_m_lt p HP) as Hmlt. pose proof (pf_hp p HP) as Hhp.
  assert (Hm1 : 1 <= cM p).
  { rewrite Em. assert (1 <= (cHP p + 7) / 8) by lia. lia. }
  unfold HASHERS, hf_of. rewrite E.
  constructor; cbn [f h t_l t_len prf prf_msg h_msg F H T_l PRF PRF_msg H_msg sha2_cat35_fns fips_of
                    n_ m_]; intros.
  - unfold cat35_f. rewrite sub_ok by lia. rewrite bind_ret_l.
    eapply runs_bind0; [apply zeros_slice; lia|].
    eapply runs_bind0; [apply runs_to_22_bytes; assumption|].
    eapply runs_eq; [apply runs_sha2_256; lia| |reflexivity].
    rewrite ADRSc_flat by assumption. cbn. rewrite app_nil_r. reflexivity.
  - unfold cat35_h. rewrite sub_ok by lia. rewrite bind_ret_l.
    eapply runs_bind0; [apply zeros_slice; lia|].
    eapply runs_bind0; [apply runs_to_22_bytes; assumption|].
    eapply runs_eq; [apply runs_sha2_512; lia| |reflexivity].
    rewrite ADRSc_flat by assumption. cbn. rewrite app_nil_r. reflexivity.
  - unfold cat35_t_l. rewrite sub_ok by lia. rewrite bind_ret_l.
    eapply runs_bind0; [apply zeros_slice; lia|].
    eapply runs_bind0; [apply runs_to_22_bytes; assumption|].
    eapply runs_bind0; [apply runs_absorb_all|].
    eapply runs_bind0; [apply runs_slice; [lia|rewrite sha512_len; lia]|].
    eapply runs_eq; [apply runs_copy; rewrite nlen_nrepeat, nlen_sub_bytes; rewrite ?sha512_len; lia
                    | |reflexivity].
    rewrite ADRSc_flat by assumption. rewrite sub_bytes_0. unfold Trunc, hasher_update, hasher_new.
    cbn [app]. rewrite <- !app_assoc. reflexivity.
  - unfold cat35_t_l. rewrite sub_ok by lia. rewrite bind_ret_l.
    eapply runs_bind0; [apply zeros_slice; lia|].
    eapply runs_bind0; [apply runs_to_22_bytes; assumption|].
    eapply runs_bind0; [apply runs_absorb_all|].
    eapply runs_bind0; [apply runs_slice; [lia|rewrite sha512_len; lia]|].
    eapply runs_eq; [apply runs_copy; rewrite nlen_nrepeat, nlen_sub_bytes; rewrite ?sha512_len; lia
                    | |reflexivity].
    rewrite ADRSc_flat by assumption. rewrite sub_bytes_0. unfold Trunc, hasher_update, hasher_new.
    cbn [app]. rewrite <- !app_assoc. reflexivity.
  - unfold cat35_prf. rewrite sub_ok by lia. rewrite bind_ret_l.
    eapply runs_bind0; [apply zeros_slice; lia|].
    eapply runs_bind0; [apply runs_to_22_bytes; assumption|].
    eapply runs_eq; [apply runs_sha2_256; lia| |reflexivity].
    rewrite ADRSc_flat by assumption. cbn. rewrite app_nil_r. reflexivity.
  - unfold cat35_prf_msg.
    eapply runs_bind0; [apply runs_hmac; lia|].
    eapply runs_bind0; [apply runs_slice; [lia|unfold HMAC; rewrite sha512_len; lia]|].
    eapply runs_eq; [apply runs_copy; rewrite nlen_nrepeat, nlen_sub_bytes; unfold HMAC; rewrite ?sha512_len; lia
                    | |reflexivity].
    rewrite sub_bytes_0. reflexivity.
  - unfold cat35_h_msg. apply runs_sha2_h_msg; [auto|lia|apply sha512_len|apply runs_sha2_512|assumption].
Qed.

Lemma cat35_HLen p : PF p -> cfam p = Sha2Cat35 -> HLen (cN p) (cM p) (sha2_cat35_fns (fips_of p)).
Proof.
  intros HP E. pose proof (pf_cat35 p HP E) as En.
  constructor; intros; cbn [F H T_l PRF PRF_msg H_msg sha2_cat35_fns fips_of n_ m_];
    try (apply nlen_Trunc; unfold HMAC; rewrite ?sha256_len, ?sha512_len; lia).
  apply nlen_MGF1; [auto|apply sha512_len].
Qed.

Theorem HASHERS_spec p : PF p -> HSpec (HASHERS p) (hf_of p).
Proof.
  intros HP. destruct (cfam p) eqn:E.
  - apply shake_HSpec; assumption.
  - apply cat1_HSpec; assumption.
  - apply cat35_HSpec; assumption.
Qed.

Theorem HASHERS_len p : PF p -> HLen (cN p) (cM p) (hf_of p).
Proof.
  intros HP. unfold hf_of. destruct (cfam p) eqn:E.
  - apply shake_HLen; assumption.
  - apply cat1_HLen; assumption.
  - apply cat35_HLen; assumption.
Qed.

End HashP.
