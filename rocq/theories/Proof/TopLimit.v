(** C80: after up to 2^64 signatures with random digests. *)
From Verif Require Import Spec.Fips205 Spec.Fips205Hash.
From Verif Require Import Model.Api Proof.Facts Proof.HelpersP Proof.SpecP Proof.HashP Proof.Fun Proof.WotsP Proof.SlhP Proof.SerP Proof.ApiP
  Proof.SpecFun Spec.Vocab Proof.Summary Proof.CallsP Proof.TopCorrect Proof.TopSer Proof.Honest Proof.PosP Proof.TopTrace Proof.TopFraming
  Proof.TopFips Proof.TopPath Proof.TopWots Proof.Forge Spec.VocabForge Proof.TopForge Proof.TopUnforge Spec.VocabSel Proof.Select Proof.TopSelect
  Spec.VocabLimit Proof.Moment.
Import ListNotations.
Open Scope list_scope.
Open Scope N_scope.

Lemma nlen_filter_le {A} (f : A -> bool) l : nlen (filter f l) <= nlen l.
Proof. induction l as [|x l IH]; [apply N.le_refl|]. cbn [filter]. destruct (f x); rewrite !nlen_cons; lia. Qed.
Lemma nlen_nodup_le {A} (dec : forall x y : A, {x = y} + {x <> y}) l : nlen (nodup dec l) <= nlen l.
Proof.
  unfold nlen. assert (G : (length (nodup dec l) <= length l)%nat); [|lia].
  apply NoDup_incl_length; [apply NoDup_nodup|]. intros x. apply nodup_In.
Qed.
Lemma nlen_incl {A} (l r : list A) : NoDup l -> incl l r -> nlen l <= nlen r.
Proof. intros Hn Hi. pose proof (NoDup_incl_length Hn Hi). unfold nlen. lia. Qed.

Lemma lnr k : length (nrange k) = N.to_nat k.
Proof. unfold nrange. apply length_nseq. Qed.

Section Limit.
Context (s : set_name).
Notation p := (param_set s).
Let HP : PF p := param_PF s.
Notation D := (8 * cM p).

Lemma hp_le : cHP p <= cH p.
Proof. rewrite (pf_h _ HP). pose proof (pf_d _ HP). nia. Qed.

(** all digests *)
Definition all_digests : list bytes := map (be_bytes (N.to_nat (cM p))) (nrange (2 ^ D)).

Lemma all_digests_len : nlen all_digests = 2 ^ D.
Proof. unfold all_digests. rewrite nlen_map. apply nlen_nrange. Qed.
Lemma In_all d : In d all_digests <-> nlen d = cM p.
Proof.
  unfold all_digests. rewrite in_map_iff. split.
  - intros (x & <- & _). unfold nlen. rewrite length_be_bytes. lia.
  - intros L. exists (of_be d). split.
    + rewrite <- L. unfold nlen. rewrite Nat2N.id. apply be_bytes_of_be.
    + apply In_nrange. pose proof (of_be_lt d) as B. rewrite <- L, <- pow256. unfold nlen. rewrite Nat2N.id. exact B.
Qed.
Lemma NoDup_all : NoDup all_digests.
Proof.
  apply NoDup_map_in; [|apply NoDup_nrange]. intros x y Ix Iy E. apply In_nrange in Ix, Iy.
  apply (f_equal of_be) in E. rewrite !of_put in E by assumption. exact E.
Qed.

Definition on (d : bytes) (x : N * N) : bool := if nn_dec (fst (choose s d)) x then true else false.
Lemma on_iff d x : on d x = true <-> fst (choose s d) = x.
Proof. unfold on. destruct (nn_dec _ _); split; intros; congruence. Qed.

(** the digests that select a given few-time key *)
Lemma choose_ok d : nlen d = cM p -> sel_ok (cK p) (cA p) (cH p - cHP p) (cHP p) (choose s d).
Proof. intros L. apply sel_ok_sel; auto using B1, B2, B3. rewrite L. apply m_eq. Qed.

Lemma occ_all x : occ on x all_digests <= 2 ^ (D - cH p).
Proof.
  pose proof hp_le as Hh. pose proof (B1 s) as b1. pose proof (B2 s) as b2. pose proof (B3 s) as b3. pose proof (m_eq s) as Hm.
  unfold occ.
  set (js := prods (map (fun _ => nrange (2 ^ cA p)) (nrange (cK p)))).
  set (R := flat_map (fun j => pre (cK p) (cA p) (cH p - cHP p) (cHP p) (dg1 p) (dg2 p) (dg3 p) (x, j)) js).
  apply N.le_trans with (nlen R).
  - apply nlen_incl; [apply NoDup_filter, NoDup_all|]. intros d I. apply filter_In in I. destruct I as [I E].
    apply In_all in I. apply on_iff in E. pose proof (choose_ok d I) as Ok.
    unfold R. apply in_flat_map. exists (snd (choose s d)). rewrite <- E, <- surjective_pairing. split.
    + destruct (choose s d) as [[tr kp] v]. destruct Ok as (_ & _ & L & F). cbn [snd].
      apply (In_prods (cK p) (cA p) (cH p - cHP p) (cHP p) (dg1 p) (dg2 p) (dg3 p) b1 b2 b3) with (d := 0); [rewrite map_length, lnr; unfold nlen in L; lia|].
      rewrite map_length, lnr. intros i Hi.
      rewrite nth_indep with (d' := nrange (2 ^ cA p)) by (rewrite map_length, lnr; exact Hi).
      rewrite (map_nth (fun _ : N => nrange (2 ^ cA p)) _ 0). apply In_nrange.
      rewrite Forall_forall in F. apply F. apply nth_In. unfold nlen in L. lia.
    + apply In_pre; try assumption. split; [rewrite I; exact Hm|reflexivity].
  - unfold R. rewrite (nlen_flat_const (cK p) (cA p) (cH p - cHP p) (cHP p) (dg1 p) (dg2 p) (dg3 p) b1 b2 b3 _ (2 ^ (8 * (dg1 p + dg2 p + dg3 p) - cK p * cA p - (cH p - cHP p + cHP p))))
      by (intros y _; apply nlen_pre; assumption).
    unfold js. rewrite (nlen_prods (cK p) (cA p) (cH p - cHP p) (cHP p) (dg1 p) (dg2 p) (dg3 p) b1 b2 b3 _ (2 ^ cA p)) by (intros l I; apply in_map_iff in I; destruct I as (? & <- & _); apply nlen_nrange).
    rewrite nlen_map, nlen_nrange, <- N.pow_mul_r, <- N.pow_add_r. apply N.pow_le_mono_r; [discriminate|].
    rewrite Hm. lia.
Qed.

(** the few-time keys *)
Definition all_keys : list (N * N) := list_prod (nrange (2 ^ (cH p - cHP p))) (nrange (2 ^ cHP p)).
Lemma all_keys_len : nlen all_keys = 2 ^ cH p.
Proof.
  unfold all_keys, nlen. rewrite prod_length, Nat2N.inj_mul.
  change (N.of_nat (length ?l)) with (nlen l). rewrite !nlen_nrange, <- N.pow_add_r. f_equal. pose proof hp_le. lia.
Qed.
Lemma NoDup_keys : NoDup all_keys.
Proof. apply NoDup_prod; apply NoDup_nrange. Qed.
Lemma key_in d : nlen d = cM p -> In (fst (choose s d)) all_keys.
Proof.
  intros L. pose proof (choose_ok d L) as Ok. destruct (choose s d) as [[tr kp] js]. destruct Ok as (A & B & _). cbn [fst].
  apply in_prod_iff. rewrite !In_nrange. split; assumption.
Qed.

Lemma weight_eq ds : Forall (fun d => In d all_digests) ds ->
  weight (cK p) (map (choose s) ds) = sum (fun x => occ on x ds ^ cK p) all_keys.
Proof.
  intros F. unfold weight.
  assert (Sm : forall x, nlen (same (map (choose s) ds) x) = occ on x ds).
  { intros x. unfold same, occ. clear F. induction ds as [|d ds IH]; [reflexivity|]. cbn [map filter]. unfold on at 1.
    destruct (nn_dec _ _); rewrite ?nlen_cons, IH; reflexivity. }
  rewrite map_map. change (fold_right N.add 0 (map ?f ds)) with (sum f ds).
  rewrite (sum_ext _ (fun d => (fun x => occ on x ds ^ (cK p - 1)) (fst (choose s d)))) by (intros d _; rewrite Sm; reflexivity).
  rewrite (sum_by_value on all_keys (fun x => occ on x ds ^ (cK p - 1)) (fun d => fst (choose s d)) NoDup_keys on_iff).
  2:{ intros d I. apply key_in. rewrite Forall_forall in F. apply In_all, F, I. }
  apply sum_ext. intros x _. pose proof (pf_k _ HP) as Hk.
  replace (cK p) with (N.succ (cK p - 1)) at 2 by lia. rewrite N.pow_succ_r'. reflexivity.
Qed.

Definition danger_of (ds : list bytes) : list bytes :=
  cover (cK p) (cA p) (cH p - cHP p) (cHP p) (dg1 p) (dg2 p) (dg3 p) (map (choose s) ds).

(** all pairs of a history of q digests and a digest it endangers *)
Definition endangered (q : nat) : list (list bytes * bytes) :=
  flat_map (fun ds => map (pair ds) (danger_of ds)) (tuples all_digests q).

Definition total (k h : N) : N :=
  dot (fun j => 2 ^ (64 * N.of_nat j + h * (k - N.of_nat j))) 0 (row (N.to_nat k)).

Lemma endangered_le q : N.of_nat q <= 2 ^ 64 ->
  nlen (endangered q) * 2 ^ (cK p * cA p + cH p * cK p) <= 2 ^ (D * (N.of_nat q + 1)) * total (cK p) (cH p).
Proof.
  intros Hq. pose proof hp_le as Hh. pose proof (B1 s) as b1. pose proof (B2 s) as b2. pose proof (B3 s) as b3. pose proof (m_eq s) as Hm.
  assert (HD : cK p * cA p + cH p <= D) by lia.
  set (X := 2 ^ (D - cK p * cA p - cH p)).
  assert (E : nlen (endangered q) =
              X * sum (fun x => sum (fun ds => occ on x ds ^ cK p) (tuples all_digests q)) all_keys).
  { unfold endangered. rewrite nlen_flat_sum, sum_swap, <- sum_scale. apply sum_ext. intros ds I.
    rewrite nlen_map. unfold danger_of. rewrite nlen_cover by assumption.
    rewrite weight_eq by (apply (proj2 (tuples_In _ on _ _ I))). f_equal. unfold X. f_equal. lia. }
  rewrite E.
  assert (PS : sum (fun x => sum (fun ds => occ on x ds ^ cK p) (tuples all_digests q)) all_keys * 2 ^ (D * cK p) <=
               2 ^ cH p * (total (cK p) (cH p) * 2 ^ (D * cK p - cH p * cK p) * 2 ^ (D * N.of_nat q))).
  { rewrite N.mul_comm, <- sum_scale, <- all_keys_len, <- sum_const. apply sum_le. intros x _.
    pose proof (power_sum all_digests on x (N.to_nat (cK p)) q _ _ (occ_all x) Hq) as B.
    rewrite all_digests_len in B. rewrite !N2Nat.id in B. rewrite <- !N.pow_mul_r in B. rewrite N.mul_comm.
    apply N.le_trans with (1 := B). apply N.mul_le_mono_r. rewrite (N.mul_comm (total _ _)). unfold total. rewrite dot_scale.
    apply dot_le. rewrite length_row. intros j [_ Hj]. rewrite <- !N.pow_mul_r, <- !N.pow_add_r.
    apply N.pow_le_mono_r; [discriminate|].
    rewrite Nat2N.inj_sub, N2Nat.id. set (J := N.of_nat j) in *. assert (HJ : J <= cK p) by lia.
    set (K := cK p) in *. set (Hh' := cH p) in *. set (DD := D) in *. assert (Hx : Hh' <= DD) by lia.
    clearbody J K Hh' DD. rewrite N.mul_sub_distr_r, !N.mul_sub_distr_l.
    assert (Hh' * K <= DD * K) by (apply N.mul_le_mono_r; exact Hx).
    assert (Hh' * J <= DD * J) by (apply N.mul_le_mono_r; exact Hx).
    assert (DD * J <= DD * K) by (apply N.mul_le_mono_l; exact HJ).
    assert (Hh' * J <= Hh' * K) by (apply N.mul_le_mono_l; exact HJ). lia. }
  set (S := sum _ _) in *. clearbody S. set (W := total _ _) in *. clearbody W.
  assert (HK : cH p * cK p <= D * cK p) by (apply N.mul_le_mono_r; lia).
  apply (N.mul_le_mono_pos_r _ _ (2 ^ (D * cK p - cH p * cK p))); [apply N.neq_0_lt_0, pow_nz|].
  transitivity (X * 2 ^ (cK p * cA p) * (S * 2 ^ (D * cK p))).
  - apply N.eq_le_incl. replace (D * cK p) with ((D * cK p - cH p * cK p) + cH p * cK p) at 2 by lia.
    rewrite !N.pow_add_r. set (Y1 := 2 ^ (D * cK p - cH p * cK p)). set (Y2 := 2 ^ (cH p * cK p)). set (Y3 := 2 ^ (cK p * cA p)).
    clearbody X Y1 Y2 Y3. lia.
  - apply N.le_trans with (X * 2 ^ (cK p * cA p) * (2 ^ cH p * (W * 2 ^ (D * cK p - cH p * cK p) * 2 ^ (D * N.of_nat q)))).
    { apply N.mul_le_mono_l. exact PS. }
    apply N.eq_le_incl. unfold X. rewrite N.mul_add_distr_l, N.mul_1_r, N.pow_add_r.
    replace (2 ^ D) with (2 ^ (D - cK p * cA p - cH p) * 2 ^ (cK p * cA p) * 2 ^ cH p)
      by (rewrite <- !N.pow_add_r; f_equal; lia).
    set (Y1 := 2 ^ (D * cK p - cH p * cK p)). set (Y2 := 2 ^ (D - cK p * cA p - cH p)). set (Y3 := 2 ^ (cK p * cA p)).
    set (Y4 := 2 ^ cH p). set (Y5 := 2 ^ (D * N.of_nat q)). clearbody Y1 Y2 Y3 Y4 Y5. lia.
Qed.

(** the figures *)
Fixpoint dot_flip (f : nat -> N) (j : nat) (r : list N) : N :=
  match r with [] => 0 | c :: r => f j * c + dot_flip f (S j) r end.
Lemma dot_flip_eq f r : forall j, dot f j r = dot_flip f j r.
Proof. induction r as [|c r IH]; intros j; cbn [dot dot_flip]; [reflexivity|]. rewrite IH, N.mul_comm. reflexivity. Qed.

Definition fits (k h a b : N) : bool :=
  2 ^ b * dot_flip (fun j => 2 ^ (64 * N.of_nat j + h * (k - N.of_nat j))) 0 (row (N.to_nat k)) <=? 2 ^ (k * a + h * k).
Lemma fits_128s : fits 14 63 12 133 = true. Proof. vm_compute. reflexivity. Qed.
Lemma fits_128f : fits 33 66 6 128 = true. Proof. vm_compute. reflexivity. Qed.
Lemma fits_192s : fits 17 63 14 193 = true. Proof. vm_compute. reflexivity. Qed.
Lemma fits_192f : fits 33 66 8 194 = true. Proof. vm_compute. reflexivity. Qed.
Lemma fits_256s : fits 22 64 14 255 = true. Proof. vm_compute. reflexivity. Qed.
Lemma fits_256f : fits 35 68 9 255 = true. Proof. vm_compute. reflexivity. Qed.

Lemma total_le : total (cK p) (cH p) * 2 ^ few_time_bits s <= 2 ^ (cK p * cA p + cH p * cK p).
Proof.
  assert (F : fits (cK p) (cH p) (cA p) (few_time_bits s) = true).
  { destruct s;
      [exact fits_128s|exact fits_128s|exact fits_128f|exact fits_128f|exact fits_192s|exact fits_192s|
       exact fits_192f|exact fits_192f|exact fits_256s|exact fits_256s|exact fits_256f|exact fits_256f]. }
  unfold fits in F. rewrite <- dot_flip_eq in F. apply N.leb_le in F. unfold total. rewrite N.mul_comm. exact F.
Qed.

Lemma endangered_bits q : N.of_nat q <= 2 ^ 64 ->
  nlen (endangered q) * 2 ^ few_time_bits s <= 2 ^ (D * (N.of_nat q + 1)).
Proof.
  intros Hq. pose proof (endangered_le q Hq) as A. pose proof total_le as B.
  set (E := nlen _) in *. set (W := total _ _) in *. set (F := 2 ^ few_time_bits s) in *.
  pose proof (pow_nz (cK p * cA p + cH p * cK p)) as Z. set (Y := 2 ^ (cK p * cA p + cH p * cK p)) in *.
  set (V := 2 ^ (D * (N.of_nat q + 1))) in *. clearbody E W F Y V.
  apply (N.mul_le_mono_pos_r _ _ Y); [lia|].
  transitivity (E * Y * F); [lia|]. transitivity (V * W * F); [apply N.mul_le_mono_r; exact A|].
  rewrite <- N.mul_assoc. apply N.mul_le_mono_l. exact B.
Qed.
End Limit.

Definition lb_dec : forall x y : list bytes * bytes, {x = y} + {x <> y}.
Proof. intros [a b] [c d]. destruct (list_eq_dec bytes_dec a c), (bytes_dec b d); (left; congruence) || (right; congruence). Defined.

Lemma prop_two_to_the_64_signatures :
  forall (s : set_name) (q : N), q <= 2 ^ 64 ->
    let tb := table2 s in
    (** a set of pairs of q digests and another one, which depends on nothing else *)
    exists danger : list (list bytes * bytes),
      NoDup danger /\
      (forall ds d, In (ds, d) danger -> nlen ds = q /\ Forall (fun x => nlen x = t_m tb) ds /\ nlen d = t_m tb) /\
      (** a fraction of at most 2^-bits of all such pairs *)
      nlen danger * 2 ^ few_time_bits s <= 2 ^ (8 * t_m tb * (q + 1)) /\
      forall (T : Target) (P : Prims) (pk : SlhPublicKey) (sk : SlhPrivateKey) (hist : list (bytes * bytes)),
        key_pair s pk sk -> issued_by s sk hist -> nlen hist = q ->
      forall (M' sig : bytes) (t : list event), accepting_run s pk M' sig t ->
       let owner := trace (keygen_with_seeds (param_set s) (sk_seed sk) (sk_prf sk) (sk_pk_seed sk)) ++
                    trace (sign_with_randomizer s (block s sig 0) M' sk) in
         (** an accepted signature was issued, *)
         In (M', sig) hist \/
         (** or it exhibits a second preimage, *)
         second_preimage s t owner \/
         (** or a value that lies earlier on a hash chain than the one value issued signatures show, *)
         (exists l i b c w, l < t_d tb /\ i < 2 * seed_bytes s + 3 /\ 1 <= c /\ b + c <= 15 /\
            let (tr, kp) := sig_position s pk M' sig l in
            let v := block s sig (chain_block s l i) in
            In (EHash KF (pk_seed pk) (set_hash_address (chain_address l tr kp i) b) [v]) t /\
            result (chain (HASHERS (param_set s)) v b c (pk_seed pk) (chain_address l tr kp i)) = Val w /\
            forall M2 sig2, In (M2, sig2) hist -> sig_position s pk M2 sig2 l = (tr, kp) ->
              block s sig2 (chain_block s l i) = w) \/
         (** or a secret value that no issued signature reveals, *)
         (exists i, i < t_k tb /\
            block s sig (fors_block s i) = fors_secret s sk (fors_leaf s pk M' sig i) /\
            forall M2 sig2 i2, In (M2, sig2) hist -> i2 < t_k tb ->
              fors_leaf s pk M2 sig2 i2 <> fors_leaf s pk M' sig i) \/
         (** or a pair of randomizer and message not signed before, and its digest together with those of the
             issued signatures is in the set *)
         ((forall M2 sig2, In (M2, sig2) hist -> (M2, block s sig2 0) <> (M', block s sig 0)) /\
          In (map (fun '(M2, sig2) => msg_digest s pk M2 sig2) hist, msg_digest s pk M' sig) danger).
Proof.
  intros s q Hq tb0. destruct (tb s) as (Ek & Ea & Eh & Ehp & Em). unfold tb0. rewrite Em.
  pose proof (param_PF s) as HP. pose proof (B1 s) as b1. pose proof (B2 s) as b2. pose proof (B3 s) as b3. pose proof (m_eq s) as Hm.
  set (good := fun x : list bytes * bytes => nlen (snd x) =? cM (param_set s)).
  exists (filter good (nodup lb_dec (endangered s (N.to_nat q)))).
  split; [apply NoDup_filter, NoDup_nodup|]. split; [|split].
  - intros ds d I. apply filter_In in I. destruct I as [I G]. unfold good in G. cbn [snd] in G. apply N.eqb_eq in G.
    apply nodup_In in I. unfold endangered in I. apply in_flat_map in I. destruct I as (ds' & I1 & I2).
    apply in_map_iff in I2. destruct I2 as (d' & E & _). apply (f_equal fst) in E. cbn [fst] in E. subst ds'.
    destruct (tuples_In _ (on s) _ _ I1) as [L F]. split; [unfold nlen; lia|]. split; [|exact G].
    apply Forall_forall. intros x Ix. rewrite Forall_forall in F. apply In_all, F, Ix.
  - apply N.le_trans with (nlen (endangered s (N.to_nat q)) * 2 ^ few_time_bits s).
    + apply N.mul_le_mono_r. eapply N.le_trans; [apply nlen_filter_le|apply nlen_nodup_le].
    + pose proof (endangered_bits s (N.to_nat q)) as B. rewrite N2Nat.id in B. exact (B Hq).
  - intros T P pk sk hist K I Lh M' sig t A. cbv zeta.
    destruct (prop_unforgeability_reduction T P s pk sk hist K I) as [_ G].
    specialize (G M' sig t A). cbv zeta in G. destruct G as [G|[G|[G|[G|[G1 G2]]]]]; auto.
    do 4 right. split; [exact G1|].
    apply filter_In. split; [|unfold good; cbn [snd]; apply N.eqb_eq, msg_digest_len].
    apply nodup_In. unfold endangered. apply in_flat_map. eexists. split; [|apply in_map].
    + replace (N.to_nat q) with (length (map (fun '(M2, sig2) => msg_digest s pk M2 sig2) hist))
        by (rewrite map_length; unfold nlen in Lh; lia).
      apply In_tuples. apply Forall_forall. intros x Ix. apply in_map_iff in Ix. destruct Ix as ([M2 sig2] & <- & _).
      apply In_all, msg_digest_len.
    + assert (SD : forall M' sig, sig_digest s pk M' sig =
                 (dg_md (param_set s) (msg_digest s pk M' sig), dg_tree (param_set s) (msg_digest s pk M' sig), dg_leaf (param_set s) (msg_digest s pk M' sig))).
      { intros M0 sig0. unfold sig_digest. rewrite <- param_fips. apply (split_digest_eq _ HP). apply msg_digest_len. }
      assert (FL : forall M' sig i, i < cK (param_set s) -> fors_leaf s pk M' sig i =
                 (fst (choose s (msg_digest s pk M' sig)), i * 2 ^ cA (param_set s) + nth (N.to_nat i) (snd (choose s (msg_digest s pk M' sig))) 0)).
      { intros M0 sig0 i Hi. unfold fors_leaf. rewrite SD, (choose_eq s _ (msg_digest_len s pk M0 sig0)). cbn [fst snd].
        rewrite Ea, Ek. pose proof (md_bits (param_set s) HP _ (msg_digest_len s pk M0 sig0)) as B. pose proof (pf_a _ HP).
        rewrite base_2b_digits by lia. reflexivity. }
      unfold danger_of. apply In_cover; try assumption.
      * pose proof (pf_k _ HP). lia.
      * rewrite msg_digest_len. exact Hm.
      * intros i Hi. rewrite Ek in G2. destruct (G2 i Hi) as (M2 & sig2 & I2 & E). rewrite !FL in E by exact Hi.
        exists (choose s (msg_digest s pk M2 sig2)). split; [|split].
        -- rewrite map_map. apply in_map_iff. exists (M2, sig2). split; [reflexivity|exact I2].
        -- apply (f_equal fst) in E. exact E.
        -- apply (f_equal snd) in E. cbn [snd] in E. apply N.add_cancel_l in E. exact E.
Qed.
