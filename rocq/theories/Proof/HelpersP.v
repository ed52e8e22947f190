(** Functional meaning of src/helpers.rs. *)
From Verif Require Export Proof.Runs Proof.Facts Model.Helpers.

Lemma firstn_S_nth {A} (l : list A) i x :
  nth_error l i = Some x -> firstn (S i) l = firstn i l ++ [x].
Proof.
  revert i; induction l as [|y l IH]; intros [|i] H; cbn in H; try discriminate.
  - inversion H; subst. reflexivity.
  - cbn [firstn app]. f_equal. apply IH. exact H.
Qed.

Lemma nth_error_lt {A} (l : list A) i x : nth_error l i = Some x -> (i < length l)%nat.
Proof. intros H. apply nth_error_Some. congruence. Qed.

Section HelpersP.
Context {T : Target}.

(** *** to_int *)
Lemma runs_to_int x n : nlen x = n -> n <= 8 -> runs (to_int x n) (of_be x) [].
Proof.
  intros Hx Hn. unfold to_int. rewrite (cast_us n) by lia.
  apply runs_debug_assert_bind. { apply runs_ret_eq. apply N.eqb_eq. exact Hx. }
  apply runs_debug_assert_bind. { apply runs_ret_eq. apply N.leb_le. exact Hn. }
  rewrite firstn_all2 by (unfold nlen in Hx; lia).
  apply (runs_for_list_pos _ _ (fun i => of_be (firstn (N.to_nat i) x))); [reflexivity| |].
  - rewrite firstn_all2 by (unfold nlen; lia). reflexivity.
  - intros i b Hb. pose proof (nth_error_lt _ _ _ Hb) as Hi.
    assert (Hlt : of_be (firstn (N.to_nat i) x) < 256 ^ 7).
    { eapply N.lt_le_trans; [apply of_be_lt|]. apply N.pow_le_mono_r; [lia|].
      unfold nlen in *. rewrite firstn_length. lia. }
    assert (E : (256 ^ 7 : N) = 72057594037927936) by reflexivity. rewrite E in Hlt.
    rewrite shl_u64 by lia. rewrite bind_ret_l.
    change (2 ^ 8) with 256. rewrite N.mod_small by lia.
    pose proof (b2n_lt b). rewrite add_u64 by lia.
    apply runs_ret_eq.
    replace (N.to_nat (i + 1)) with (S (N.to_nat i)) by lia.
    rewrite (firstn_S_nth _ _ _ Hb), of_be_snoc. reflexivity.
Qed.

(** *** to_byte *)
Lemma runs_to_byte x : x < 4294967296 -> runs (to_byte x 2) (be_bytes 2 x) [].
Proof.
  intros Hx. unfold to_byte.
  apply runs_debug_assert_bind. { apply runs_ret. }
  apply runs_debug_assert_bind. { apply runs_ret. }
  eapply runs_bind0.
  - unfold for_range. apply runs_tick_quiet; [reflexivity|].
    change (N.to_nat (2 - 0)) with 2%nat. cbn [for_n].
    repeat first [rewrite sub_ok by lia | rewrite bind_ret_l].
    change (nrepeat x00 ((LEN2 * LGW + 7) / 8)) with [x00; x00].
    rewrite cast_us by lia.
    eapply runs_bind0.
    { eapply runs_bind0; [apply runs_upd; reflexivity|].
      rewrite shr_u32 by lia. rewrite bind_ret_l. apply runs_ret. }
    cbv beta iota.
    eapply runs_bind0.
    { repeat first [rewrite sub_ok by lia | rewrite bind_ret_l].
      change (2 - 1 - (0 + 1)) with 0. rewrite cast_us by lia.
      eapply runs_bind0; [apply runs_upd; reflexivity|].
      rewrite shr_u32 by lia. rewrite bind_ret_l. apply runs_ret. }
    apply runs_ret.
  - cbv beta iota. apply runs_ret_eq. reflexivity.
Qed.

(** *** base_2b: digit i is bits [i*b, (i+1)*b) of x read as a big-endian bit string *)
Definition digit (x : bytes) (b i : N) : N := of_be x / 2 ^ (8 * nlen x - (i + 1) * b) mod 2 ^ b.
Definition digits (x : bytes) (b cnt : N) : list N := map (digit x b) (nrange cnt).

Lemma of_be_firstn x j :
  (j <= length x)%nat -> of_be (firstn j x) = of_be x / 2 ^ (8 * (nlen x - N.of_nat j)).
Proof.
  intros H. rewrite <- (firstn_skipn j x) at 2. rewrite of_be_app.
  replace (2 ^ (8 * (nlen x - N.of_nat j))) with (256 ^ nlen (skipn j x)).
  2:{ replace 256 with (2 ^ 8) by reflexivity. rewrite <- N.pow_mul_r. f_equal. f_equal.
      unfold nlen. rewrite skipn_length. lia. }
  pose proof (of_be_lt (skipn j x)).
  apply (N.div_unique _ _ _ (of_be (skipn j x))); lia.
Qed.

Lemma pow2_nz k : 2 ^ k <> 0.
Proof. apply N.pow_nonzero. discriminate. Qed.

Lemma mod_div_mod t s b w : s + b <= w -> t mod 2 ^ w / 2 ^ s mod 2 ^ b = t / 2 ^ s mod 2 ^ b.
Proof.
  intros H.
  apply N.bits_inj. intros i.
  destruct (N.lt_ge_cases i b) as [Hi|Hi].
  - rewrite !N.mod_pow2_bits_low, !N.div_pow2_bits by lia. apply N.mod_pow2_bits_low. lia.
  - rewrite !N.mod_pow2_bits_high by lia. reflexivity.
Qed.

(** (i*b + 7) / 8: the number of bytes read before output i *)
Definition nread (b i : N) : N := (i * b + 7) / 8.

Lemma cast_usz a : a < 2 ^ usize_bits -> cast Usize a = a.
Proof. intros Ha. unfold cast. apply N.mod_small. exact Ha. Qed.
Lemma add_usz a b : a + b < 2 ^ usize_bits -> add Usize a b = ret (a + b).
Proof. exact (add_ok Usize a b). Qed.

Lemma runs_base_2b_gen x b cnt base :
  1 <= b <= 15 -> nlen base = cnt -> cnt * b <= 8 * nlen x -> cnt * b + 7 < 4294967296 ->
  cnt < 2 ^ usize_bits -> nlen x < 2 ^ usize_bits ->
  runs (base_2b x b cnt base) (digits x b cnt) [].
Proof.
  intros Hb Hbase Hx Hcnt Hbl Hlen. unfold base_2b. set (U := 2 ^ usize_bits) in *.
  apply runs_debug_assert_bind.
  { rewrite mul_u32 by lia. rewrite bind_ret_l. rewrite add_u32 by lia. rewrite bind_ret_l.
    rewrite div_ok by lia. rewrite bind_ret_l.
    assert (Hq : (cnt * b + 7) / 8 <= nlen x)
      by (apply N.lt_succ_r; apply N.div_lt_upper_bound; lia).
    rewrite cast_usz by (fold U; lia).
    apply runs_ret_eq. apply N.leb_le. exact Hq. }
  apply runs_debug_assert_bind. { apply runs_ret_eq. apply N.ltb_lt. lia. }
  apply runs_debug_assert_bind.
  { apply runs_ret_eq. rewrite cast_usz by exact Hbl. apply N.eqb_eq. congruence. }
  eapply runs_bind0.
  - apply (runs_map_mut _ _
      (fun i => (nread b i, 8 * nread b i - i * b,
                 of_be (firstn (N.to_nat (nread b i)) x) mod 4294967296))
      (fun i _ => digit x b i)); [reflexivity|reflexivity|].
    intros i y Hy. pose proof (nth_error_lt _ _ _ Hy) as Hi.
    assert (Hi' : i < cnt) by (unfold nlen in Hbase; lia). clear Hi Hy.
    set (r0 := nread b i). set (r1 := nread b (i + 1)).
    assert (R0 : i * b <= 8 * r0 < i * b + 8).
    { unfold r0, nread. pose proof (N.div_mod (i * b + 7) 8 ltac:(lia)).
      pose proof (N.mod_lt (i * b + 7) 8 ltac:(lia)). lia. }
    assert (R1 : (i + 1) * b <= 8 * r1 < (i + 1) * b + 8).
    { unfold r1, nread. pose proof (N.div_mod ((i + 1) * b + 7) 8 ltac:(lia)).
      pose proof (N.mod_lt ((i + 1) * b + 7) 8 ltac:(lia)). lia. }
    assert (Hle : (i + 1) * b <= 8 * nlen x) by nia.
    assert (Hr1 : r1 <= nlen x) by lia.
    assert (Hr01 : r0 <= r1) by nia.
    clearbody r0 r1.
    eapply runs_bind0.
    + set (st := fun j => (r0 + j, 8 * (r0 + j) - i * b,
                    of_be (firstn (N.to_nat (r0 + j)) x) mod 4294967296)).
      replace (r0, 8 * r0 - i * b, of_be (firstn (N.to_nat r0) x) mod 4294967296) with (st 0)
        by (unfold st; rewrite N.add_0_r; reflexivity).
      apply (runs_while _ _ _ st (r1 - r0) 0).
      * nia.
      * intros j Hj. unfold st. split. { apply N.ltb_lt. nia. }
        rewrite shl_u32 by lia. rewrite bind_ret_l. change (2 ^ 8) with 256.
        assert (Hjx : r0 + j < nlen x) by lia.
        eapply runs_bind0; [apply (runs_index _ _ x00); exact Hjx|].
        set (bt := nth (N.to_nat (r0 + j)) x x00).
        assert (Ebt : nth_error x (N.to_nat (r0 + j)) = Some bt).
        { apply nth_error_nth'. unfold nlen in Hjx. lia. }
        pose proof (b2n_lt bt) as Hbt.
        set (t := of_be (firstn (N.to_nat (r0 + j)) x)).
        assert (Eq : of_be (firstn (N.to_nat (r0 + (j + 1))) x) = t * 256 + b2n bt).
        { replace (N.to_nat (r0 + (j + 1))) with (S (N.to_nat (r0 + j))) by lia.
          rewrite (firstn_S_nth _ _ _ Ebt), of_be_snoc. reflexivity. }
        clearbody t bt.
        assert (Em : (t mod 4294967296 * 256) mod 4294967296 + b2n bt
                     = (t * 256 + b2n bt) mod 4294967296) by lia.
        rewrite add_u32 by lia. rewrite bind_ret_l.
        rewrite add_usz by (fold U; lia). rewrite bind_ret_l.
        rewrite add_u32 by nia. rewrite bind_ret_l.
        apply runs_ret_eq. rewrite Eq, Em.
        replace (r0 + (j + 1)) with (r0 + j + 1) by lia.
        replace (8 * (r0 + j) - i * b + 8) with (8 * (r0 + j + 1) - i * b) by lia. reflexivity.
      * unfold st. apply N.ltb_ge. nia.
    + cbv beta iota. replace (r0 + (0 + (r1 - r0))) with r1 by lia.
      rewrite sub_ok by nia. rewrite bind_ret_l.
      replace (8 * r1 - i * b - b) with (8 * r1 - (i + 1) * b) by lia.
      rewrite shr_u32 by nia. rewrite bind_ret_l.
      rewrite sub_ok by lia. rewrite bind_ret_l.
      rewrite shr_u32 by lia. rewrite bind_ret_l.
      rewrite max_u32. change 4294967295 with (2 ^ 32 - 1). rewrite max_shr by lia.
      rewrite land_ones_mod.
      apply runs_ret_eq. f_equal. unfold digit.
      change 4294967296 with (2 ^ 32). rewrite mod_div_mod by nia.
      rewrite of_be_firstn by (unfold nlen in Hr1; lia).
      rewrite N.div_div by apply pow2_nz. rewrite <- N.pow_add_r.
      f_equal. f_equal. f_equal. rewrite Nnat.N2Nat.id. nia.
  - cbv beta iota. apply runs_ret_eq. rewrite mapi_const. unfold digits, nrange.
    f_equal. f_equal. unfold nlen in Hbase. lia.
Qed.

Lemma runs_base_2b x b cnt base :
  1 <= b <= 14 -> nlen base = cnt -> cnt * b <= 8 * nlen x -> cnt < 65536 -> nlen x < 65535 ->
  runs (base_2b x b cnt base) (digits x b cnt) [].
Proof.
  intros Hb Hbase Hx Hcnt Hlen. assert (HU : 65536 <= 2 ^ usize_bits) by exact usize_lo.
  assert (cnt * b <= 65536 * 14) by (apply N.mul_le_mono; lia).
  apply runs_base_2b_gen; (exact Hbase || lia).
Qed.

Lemma digit_lt x b i : digit x b i < 2 ^ b.
Proof. apply N.mod_lt. apply pow2_nz. Qed.

Lemma nlen_digits x b c : nlen (digits x b c) = c.
Proof. unfold digits. rewrite nlen_map. apply nlen_nrange. Qed.

Lemma nth_digits x b c i : i < c -> nth (N.to_nat i) (digits x b c) 0 = digit x b i.
Proof. apply nth_map_nrange. Qed.

(** *** addresses *)
Definition wf_adrs (a : Adrs) : Prop :=
  nlen (f0 a) = 4 /\ nlen (f1 a) = 4 /\ nlen (f2 a) = 4 /\ nlen (f3 a) = 4 /\
  nlen (f4 a) = 4 /\ nlen (f5 a) = 4 /\ nlen (f6 a) = 4 /\ nlen (f7 a) = 4.

Definition flat (a : Adrs) : bytes :=
  f0 a ++ f1 a ++ f2 a ++ f3 a ++ f4 a ++ f5 a ++ f6 a ++ f7 a.

Definition flat22 (a : Adrs) : bytes :=
  skipn 3 (f0 a) ++ f2 a ++ f3 a ++ skipn 3 (f4 a) ++ f5 a ++ f6 a ++ f7 a.

Lemma len4 (l : bytes) : nlen l = 4 -> exists a b c d, l = [a; b; c; d].
Proof.
  unfold nlen. intros H.
  destruct l as [|a [|b [|c [|d [|e l]]]]]; cbn in H; try lia. exists a, b, c, d. reflexivity.
Qed.

End HelpersP.

Ltac open_adrs a H :=
  let x0 := fresh "x" in let x1 := fresh "x" in let x2 := fresh "x" in let x3 := fresh "x" in
  let x4 := fresh "x" in let x5 := fresh "x" in let x6 := fresh "x" in let x7 := fresh "x" in
  destruct a as [x0 x1 x2 x3 x4 x5 x6 x7]; unfold wf_adrs in H;
  cbn [f0 f1 f2 f3 f4 f5 f6 f7] in H;
  let H0 := fresh in let H1 := fresh in let H2 := fresh in let H3 := fresh in
  let H4 := fresh in let H5 := fresh in let H6 := fresh in let H7 := fresh in
  destruct H as [H0 [H1 [H2 [H3 [H4 [H5 [H6 H7]]]]]]];
  apply len4 in H0; apply len4 in H1; apply len4 in H2; apply len4 in H3;
  apply len4 in H4; apply len4 in H5; apply len4 in H6; apply len4 in H7;
  destruct H0 as [? [? [? [? ->]]]]; destruct H1 as [? [? [? [? ->]]]];
  destruct H2 as [? [? [? [? ->]]]]; destruct H3 as [? [? [? [? ->]]]];
  destruct H4 as [? [? [? [? ->]]]]; destruct H5 as [? [? [? [? ->]]]];
  destruct H6 as [? [? [? [? ->]]]]; destruct H7 as [? [? [? [? ->]]]].

Section HelpersP2.
Context {T : Target}.

Lemma runs_to_32_bytes a : wf_adrs a -> runs (to_32_bytes a) (flat a) [].
Proof.
  intros H. open_adrs a H. unfold to_32_bytes. cbn [f0 f1 f2 f3 f4 f5 f6 f7].
  change (nrepeat x00 32) with (repeat x00 32). cbn [repeat].
  unfold for_list. rewrite bind_assoc. apply runs_tick_quiet; [reflexivity|].
  cbn [for_list_body].
  do 8 (rewrite bind_assoc; eapply runs_bind0;
    [rewrite !add_us by lia; rewrite bind_ret_l;
     eapply runs_bind0; [apply runs_copy_into; vm_compute; [discriminate|discriminate|reflexivity]|];
     rewrite bind_ret_l; apply runs_ret|]; cbv beta iota).
  rewrite bind_ret_l. apply runs_ret_eq. reflexivity.
Qed.

Lemma runs_to_22_bytes a : wf_adrs a -> runs (to_22_bytes a) (flat22 a) [].
Proof.
  intros H. open_adrs a H. unfold to_22_bytes. cbn [f0 f1 f2 f3 f4 f5 f6 f7].
  change (nrepeat x00 22) with (repeat x00 22). cbn [repeat].
  eapply runs_bind0; [apply runs_index_eq; reflexivity|].
  eapply runs_bind0; [apply runs_upd; reflexivity|].
  eapply runs_bind0; [apply runs_copy_into; vm_compute; [discriminate|discriminate|reflexivity]|].
  eapply runs_bind0; [apply runs_copy_into; vm_compute; [discriminate|discriminate|reflexivity]|].
  eapply runs_bind0; [apply runs_index_eq; reflexivity|].
  eapply runs_bind0; [apply runs_upd; reflexivity|].
  eapply runs_bind0; [apply runs_copy_into; vm_compute; [discriminate|discriminate|reflexivity]|].
  eapply runs_bind0; [apply runs_copy_into; vm_compute; [discriminate|discriminate|reflexivity]|].
  eapply runs_bind0; [apply runs_copy_into; vm_compute; [discriminate|discriminate|reflexivity]|].
  apply runs_ret_eq. reflexivity.
Qed.

End HelpersP2.
