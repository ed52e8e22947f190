(** The path a signature takes through the hypertree, and the number of hash calls: C37, C41, C47, C50. *)
From Coq Require Import String.
From Verif Require Import Spec.Fips205 Spec.Fips205Hash.
From Verif Require Import Model.Api Proof.Facts Proof.HashP Proof.Fun Proof.SlhP Proof.SerP Proof.ApiP
  Proof.SpecP Proof.SpecFun Spec.Vocab Proof.Summary Proof.CallsP Proof.TopFraming Proof.TopSer Proof.Honest Proof.PosP Proof.TopTrace.
Import ListNotations.
Open Scope list_scope.
Open Scope N_scope.

Lemma sig_R {P : Prims} s sig : nlen sig = cSIG_LEN (param_set s) ->
  randomness (dec_sig (param_set s) sig) = block s sig 0.
Proof. intros _. unfold dec_sig. cbn [randomness]. unfold blk, block. rewrite param_n. reflexivity. Qed.

Lemma path_tree_at s it l : path_tree s it l = tree_at (param_set s) it (N.to_nat l).
Proof. unfold path_tree, tree_at. rewrite Nnat.N2Nat.id, param_hp. reflexivity. Qed.
Lemma path_leaf_at s it il l : path_leaf s it il l = leaf_at (param_set s) it il (N.to_nat l).
Proof.
  unfold path_leaf. destruct (N.eqb_spec l 0) as [->|Nz]; [reflexivity|].
  replace (N.to_nat l) with (S (N.to_nat (l - 1))) by lia. cbn [leaf_at]. rewrite path_tree_at, param_hp. reflexivity.
Qed.

Section Path.
Context {T : Target} {P : Prims}.

Definition okx1 (p : Params) (it : N) (l t : N) : Prop := l < cD p /\ t = tree_at p it (N.to_nat l).
Definition okf1 (it il : N) (t kp : N) : Prop := t = it /\ kp = il.

Lemma tail_owned1 p hf ps ss dg :
  Forall (owned p hf ps ss (okx1 p (dg_tree p dg)) (okf1 (dg_tree p dg) (dg_leaf p dg))) (sig_tailC p hf ps ss dg).
Proof.
  apply owned_sig_tailC; [split; reflexivity|]. intros j Hj. split; [lia|]. rewrite Nnat.Nat2N.id. reflexivity.
Qed.

Lemma tree_at_small p (HP : PF p) dg l : tree_at p (dg_tree p dg) l < 18446744073709551616.
Proof.
  unfold tree_at. eapply N.le_lt_trans; [apply div_pow_le|]. apply dg_tree_lt. exact HP.
Qed.

Lemma tree_at_0 p it : tree_at p it (N.to_nat 0) = it.
Proof. unfold tree_at. cbn [N.to_nat N.of_nat]. rewrite N.mul_0_r. apply N.div_1_r. Qed.

(** fields of the addresses used by a signer *)
Lemma owned_fields p (HP : PF p) hf ps ss dg k q a i :
  owned p hf ps ss (okx1 p (dg_tree p dg)) (okf1 (dg_tree p dg) (dg_leaf p dg)) (EHash k q a i) ->
  q = ps /\ a_layer a < cD p /\ a_tree a = tree_at p (dg_tree p dg) (N.to_nat (a_layer a)) /\
  (a_type a <= 6) /\
  (a_type a = 0 \/ a_type a = 1 \/ a_type a = 5 -> a_word1 a < 2 ^ cHP p) /\
  (a_type a = 3 \/ a_type a = 4 \/ a_type a = 6 -> a_layer a = 0 /\ a_word1 a = dg_leaf p dg).
Proof.
  intros O. pose proof (bounds p HP) as (B1 & B2 & B3 & B4 & B5 & B6 & B7 & B8).
  pose proof (dg_leaf_lt p dg) as Hl. pose proof (dg_tree_lt p HP dg) as Ht.
  assert (Hd : 0 < cD p) by (pose proof (pf_d p HP); lia).
  remember (EHash k q a i) as e eqn:E.
  destruct O; unfold wskC, wcompC, xndC, fskC, flvC, fndC, fcompC, fA in E; injection E as <- <- <- <-.
  all: repeat match goal with K : okx1 _ _ _ _ |- _ => destruct K as [? ->] | K : okf1 _ _ _ _ |- _ => destruct K as [-> ->] end.
  all: try pose proof (tree_at_small p HP dg (N.to_nat l)).
  all: match goal with |- context [adr ?l ?t ?ty ?b ?c ?d] =>
         destruct (adr_fields l t ty b c d) as (-> & -> & -> & -> & _ & _);
         [unfold small; abstract_pows; split_and; lia|] end.
  all: rewrite ?tree_at_0; repeat (split; [first [reflexivity|assumption|discriminate]|]).
  all: split; intros K; try (destruct K as [K|[K|K]]; discriminate); try assumption; try (split; reflexivity).
Qed.

End Path.

Lemma path_fields p (HP : PF p) dg a :
  path_adr p (dg_tree p dg) (dg_leaf p dg) (dg_md p dg) a ->
  let leaf := leaf_at p (dg_tree p dg) (dg_leaf p dg) (N.to_nat (a_layer a)) in
  a_layer a < cD p /\ a_tree a = tree_at p (dg_tree p dg) (N.to_nat (a_layer a)) /\
  (a_type a = 0 /\ a_word1 a = leaf /\ a_word2 a < cLEN p /\ a_word3 a < 15 \/
   a_type a = 1 /\ a_word1 a = leaf /\ a_word2 a = 0 /\ a_word3 a = 0 \/
   a_type a = 2 /\ a_word1 a = 0 /\ 1 <= a_word2 a <= cHP p /\ a_word3 a = leaf / 2 ^ a_word2 a \/
   a_type a = 3 /\ a_layer a = 0 /\ a_word1 a = dg_leaf p dg /\ a_word2 a <= cA p /\
     (exists i, i < cK p /\ a_word3 a = fidx p (dg_md p dg) i / 2 ^ a_word2 a) \/
   a_type a = 4 /\ a_layer a = 0 /\ a_word1 a = dg_leaf p dg /\ a_word2 a = 0 /\ a_word3 a = 0).
Proof.
  intros PA. cbv zeta. pose proof (dg_leaf_lt p dg) as Hl. pose proof (dg_tree_lt p HP dg) as Ht.
  destruct (path_small p HP _ _ _ _ Ht Hl PA) as (l1 & t1 & y1 & b1 & c1 & d1 & E1 & S1).
  destruct PA as (l & ty & b & c & d & E & Hld & K).
  assert (Sm : small l (tree_at p (dg_tree p dg) (N.to_nat l)) ty b c d).
  { pose proof (bounds p HP) as (B1 & B2 & B3 & B4 & B5 & B6 & B7 & B8).
    pose proof (tree_at_small p HP dg (N.to_nat l)) as X.
    pose proof (leaf_at_lt p (dg_tree p dg) (dg_leaf p dg) (N.to_nat l) Hl) as Y.
    pose proof div_pow_le as D.
    unfold small.
    destruct K as [(-> & -> & Hc & Hd)|[(-> & -> & -> & ->)|[(-> & -> & Hc & ->)|[(-> & -> & -> & Hc & i & Hi & ->)|(-> & -> & -> & -> & ->)]]]].
    3: pose proof (D (leaf_at p (dg_tree p dg) (dg_leaf p dg) (N.to_nat l)) c).
    4: pose proof (D (fidx p (dg_md p dg) i) c); pose proof (fidx_lt p (dg_md p dg) i Hi).
    all: abstract_pows; split_and; lia. }
  destruct (adr_fields _ _ _ _ _ _ Sm) as (F1 & F2 & F3 & F4 & F5 & F6). rewrite <- E in *.
  rewrite F1, F2, F3, F4, F5, F6. split; [exact Hld|]. split; [reflexivity|]. exact K.
Qed.

(** *** C37 *)
Lemma prop_indices_from_digest :
  forall (T : Target) (P : Prims) (s : set_name) (pk : SlhPublicKey) (M' sig : bytes) (t : list event),
    let tb := table2 s in
    let digest := H_msg (fips_hash s) (block s sig 0) (pk_seed pk) (pk_root pk) M' in
    let '(md, idx_tree, idx_leaf) := Fips205.split_digest (fips_params s) digest in
    idx_tree < 2 ^ (t_h tb - t_h' tb) /\ idx_leaf < 2 ^ t_h' tb /\
    (completed_run s pk M' sig t ->
     forall k seed a inp, In (EHash k seed a inp) t ->
       seed = pk_seed pk /\ a_layer a < t_d tb /\ a_tree a = path_tree s idx_tree (a_layer a) /\ a_type a <= 6 /\
       (a_type a = 0 \/ a_type a = 1 \/ a_type a = 5 -> a_word1 a < 2 ^ t_h' tb) /\
       (a_type a = 3 \/ a_type a = 4 \/ a_type a = 6 -> a_layer a = 0 /\ a_word1 a = idx_leaf)) /\
    (verifying_run s pk M' sig t ->
     (forall k seed a inp, In (EHash k seed a inp) t ->
        (a_type a = 0 \/ a_type a = 1 -> a_word1 a = path_leaf s idx_tree idx_leaf (a_layer a)) /\
        (a_type a = 2 -> 1 <= a_word2 a <= t_h' tb /\
           a_word3 a = path_leaf s idx_tree idx_leaf (a_layer a) / 2 ^ a_word2 a) /\
        (a_type a = 3 -> a_word2 a <= t_a tb /\ exists i, i < t_k tb /\
           a_word3 a = (i * 2 ^ t_a tb + nth (N.to_nat i) (Fips205.base_2b md (t_a tb) (t_k tb)) 0) / 2 ^ a_word2 a) /\
        a_type a <= 4) /\
     (forall j, j < t_d tb -> exists a inp, In (EHash KTl (pk_seed pk) a inp) t /\
        a_type a = 1 /\ a_layer a = j /\ a_tree a = path_tree s idx_tree j /\
        a_word1 a = path_leaf s idx_tree idx_leaf j)).
Proof.
  intros T P s pk M' sig t tb digest. pose proof (param_PF s) as HP.
  assert (Ldg : nlen digest = cM (param_set s)).
  { subst digest. rewrite <- param_hf. apply (len_Hmsg _ _ _ (HASHERS_len _ HP)). }
  assert (Hmd : Fips205.base_2b (dg_md (param_set s) digest) (t_a tb) (t_k tb)
                = digits (dg_md (param_set s) digest) (t_a tb) (t_k tb)).
  { subst tb. rewrite <- param_a, <- param_k. pose proof (dg_md_len _ HP _ Ldg).
    pose proof (pf_a _ HP). pose proof (pf_k _ HP). apply base_2b_digits; [lia|].
    assert (cK (param_set s) * cA (param_set s) <= 8 * nlen (dg_md (param_set s) digest)) by lia. lia. }
  rewrite <- param_fips, (split_digest_eq _ HP) by exact Ldg.
  set (p := param_set s) in *.
  assert (E1 : t_h tb = cH p) by (symmetry; apply param_h).
  assert (E2 : t_h' tb = cHP p) by (symmetry; apply param_hp).
  assert (E3 : t_d tb = cD p) by (symmetry; apply param_d).
  assert (E4 : t_a tb = cA p) by (symmetry; apply param_a).
  assert (E5 : t_k tb = cK p) by (symmetry; apply param_k).
  rewrite E1, E2, E3, E4, E5 in *.
  split; [apply N.mod_lt, pow2_nz|]. split; [apply dg_leaf_lt|].
  assert (VS : verifying_run s pk M' sig t ->
     exists R mp, calls t = EHmsg R (pk_seed pk) (pk_root pk) mp ::
       vrootC p (hf_of p) (pk_seed pk) digest (dec_sig p sig)).
  { intros V. destruct (verifying_shape _ _ _ _ _ V) as [mp [E [W [L C]]]].
    assert (Ed : verify_digest (hf_of p) pk (dec_sig p sig) (concat mp) = digest).
    { unfold verify_digest. rewrite E. subst digest. rewrite <- param_hf. f_equal. apply sig_R. exact L. }
    eexists _, _. rewrite C. unfold verify_calls. cbv zeta. fold p. rewrite Ed. reflexivity. }
  assert (VP : verifying_run s pk M' sig t -> forall k q a i, In (EHash k q a i) t ->
     q = pk_seed pk /\ path_adr p (dg_tree p digest) (dg_leaf p digest) (dg_md p digest) a).
  { intros V k q a i I. apply In_calls in I. destruct (VS V) as [R [mp EV]]. rewrite EV in I. destruct I as [I|I]; [discriminate|].
    apply (proj1 (Forall_forall _ _) (path_vrootC _ HP _ _ _ _)) in I.
    destruct I as (k' & a' & i' & E & K). injection E as _ -> <- _. split; [reflexivity|exact K]. }
  split.
  - intros C k q a i I. rewrite path_tree_at. fold p.
    destruct (completed_split _ _ _ _ _ C) as [[sk [Sg ->]]|V].
    + destruct (signing_shape _ _ _ _ _ Sg) as (r & g & mp & hedged & b & Em & Es & W & Cl & _).
      apply In_calls in I. rewrite Cl in I. apply in_app_or in I.
      destruct I as [I|I]; [destruct hedged; [destruct I as [I|[]]; discriminate|destruct I]|].
      unfold sign_calls in I. cbv zeta in I. destruct I as [I|[I|I]]; [discriminate..|].
      rewrite Em in I.
      assert (Ed : sign_digest (hf_of (param_set s)) sk b M' = digest).
      { subst digest. unfold sign_digest. cbn [get_public_key pk_seed pk_root].
        rewrite <- param_hf. f_equal. rewrite Es. unfold block. rewrite <- param_n.
        replace (0 * cN (param_set s)) with 0 by lia. replace ((0 + 1) * cN (param_set s)) with (cN (param_set s)) by lia.
        symmetry. apply sig_prefix. exact HP. }
      rewrite Ed in I. apply (proj1 (Forall_forall _ _) (tail_owned1 _ _ _ _ _)) in I.
      apply (owned_fields _ HP) in I. exact I.
    + destruct (VP V _ _ _ _ I) as [-> K]. split; [reflexivity|].
      pose proof (path_fields p HP digest a K) as (F1 & F2 & F3). split; [exact F1|]. split; [exact F2|].
      pose proof (leaf_at_lt p (dg_tree p digest) (dg_leaf p digest) (N.to_nat (a_layer a)) (dg_leaf_lt p digest)) as Y.
      destruct F3 as [(-> & -> & _)|[(-> & -> & _)|[(-> & -> & _)|[(-> & Z1 & Z2 & _)|(-> & Z1 & Z2 & _)]]]].
      all: split; [discriminate|]; split; intros X;
        try (destruct X as [X|[X|X]]; discriminate); try assumption; try (split; assumption).
  - intros V. split.
    + intros k q a i I. destruct (VP V _ _ _ _ I) as [_ K]. rewrite path_leaf_at. fold p.
      pose proof (path_fields p HP digest a K) as (F1 & F2 & F3).
      destruct F3 as [(-> & Z & _)|[(-> & Z & _)|[(-> & _ & Z)|[(-> & _ & _ & Z1 & j & Z2 & Z3)|(-> & _)]]]].
      all: split; [intros X; try (destruct X; discriminate); try assumption|].
      all: split; [intros X; try discriminate X; try assumption|].
      all: split; [intros X; try discriminate X|discriminate].
      split; [exact Z1|]. exists j. split; [exact Z2|]. rewrite Z3. unfold fidx. f_equal. f_equal.
      rewrite Hmd. unfold digits. rewrite nth_map_nrange by exact Z2. reflexivity.
    + intros j Hj. rewrite path_tree_at, path_leaf_at. fold p.
      set (l := N.to_nat j).
      exists (adr j (tree_at p (dg_tree p digest) l) 1 (leaf_at p (dg_tree p digest) (dg_leaf p digest) l) 0 0).
      assert (I : exists inp, In (EHash KTl (pk_seed pk)
                 (adr j (tree_at p (dg_tree p digest) l) 1 (leaf_at p (dg_tree p digest) (dg_leaf p digest) l) 0 0) inp)
                 (vrootC p (hf_of p) (pk_seed pk) digest (dec_sig p sig))).
      { eexists. unfold vrootC. apply in_or_app. right. apply in_flat_map. exists l.
        split; [apply in_seq; lia|]. unfold hvalC, xpkC, wpkC, wcompC. apply in_or_app. left. apply in_or_app. right.
        left. subst l. rewrite Nnat.N2Nat.id. reflexivity. }
      destruct I as [inp I]. exists inp. split.
      * assert (I' : In (EHash KTl (pk_seed pk)
                 (adr j (tree_at p (dg_tree p digest) l) 1 (leaf_at p (dg_tree p digest) (dg_leaf p digest) l) 0 0) inp)
                 (calls t)) by (destruct (VS V) as [R [mp EV]]; rewrite EV; right; exact I).
        apply filter_In in I'. apply I'.
      * destruct (adr_fields j (tree_at p (dg_tree p digest) l) 1 (leaf_at p (dg_tree p digest) (dg_leaf p digest) l) 0 0)
          as (A1 & A2 & A3 & A4 & _ & _).
        { pose proof (bounds p HP) as (B1 & B2 & _). pose proof (tree_at_small p HP digest l).
          pose proof (leaf_at_lt p (dg_tree p digest) (dg_leaf p digest) l (dg_leaf_lt p digest)).
          unfold small. abstract_pows. split_and; lia. }
        rewrite A1, A2, A3, A4. repeat split; reflexivity.
Qed.

(** *** C41, C50: how many hash calls *)
Section Count.
Context (p : Params) (hf : HashFns) (ps ss : bytes).

Lemma len_chainC A : forall c s x, nlen (chainC hf ps A s c x) = N.of_nat c.
Proof. induction c as [|c IH]; intros s x; cbn [chainC]; [reflexivity|]. rewrite nlen_cons, IH. lia. Qed.

Lemma len_climbC nd ndC auth idx : forall cnt k x, nlen (climbC nd ndC auth idx cnt k x) = N.of_nat cnt.
Proof. induction cnt as [|c IH]; intros k x; cbn [climbC]; [reflexivity|]. rewrite nlen_cons, IH. lia. Qed.

Lemma len_flat_map_le {A B} (f : A -> list B) b l :
  (forall x, In x l -> nlen (f x) <= b) -> nlen (flat_map f l) <= nlen l * b.
Proof.
  intros Hf. induction l as [|x l IH]; cbn [flat_map]; [apply N.le_0_l|]. rewrite nlen_app, nlen_cons.
  specialize (Hf x (or_introl eq_refl)) as Hx.
  assert (nlen (flat_map f l) <= nlen l * b) by (apply IH; intros y Hy; apply Hf; right; exact Hy).
  rewrite N.mul_add_distr_r. lia.
Qed.
Lemma len_flat_map_eq {A B} (f : A -> list B) b l :
  (forall x, In x l -> nlen (f x) = b) -> nlen (flat_map f l) = nlen l * b.
Proof.
  intros Hf. induction l as [|x l IH]; cbn [flat_map]; [reflexivity|]. rewrite nlen_app, nlen_cons.
  rewrite (Hf x (or_introl eq_refl)). rewrite IH by (intros y Hy; apply Hf; right; exact Hy).
  rewrite N.mul_add_distr_r. lia.
Qed.

Lemma len_wpkC l t kp sig m : nlen (wpkC p hf ps l t kp sig m) <= 15 * cLEN p + 1.
Proof.
  unfold wpkC. rewrite nlen_app. change (nlen [_]) with 1.
  assert (K : nlen (flat_map (fun i => chainC hf ps (wA l t kp i) (wdig p m i) (N.to_nat (15 - wdig p m i))
     (nth (N.to_nat i) sig [])) (nrange (cLEN p))) <= nlen (nrange (cLEN p)) * 15).
  { apply len_flat_map_le. intros i _. rewrite len_chainC. lia. }
  rewrite nlen_nrange in K. lia.
Qed.
Lemma len_xpkC l t idx sg m : nlen (xpkC p hf ps l t idx sg m) <= 15 * cLEN p + cHP p + 1.
Proof. unfold xpkC. rewrite nlen_app, len_climbC. pose proof (len_wpkC l t idx (sig_wots sg) m). lia. Qed.
Lemma len_fpkC t kp fs md : nlen (fpkC p hf ps t kp fs md) = cK p * (cA p + 1) + 1.
Proof.
  unfold fpkC. rewrite nlen_app. change (nlen [_]) with 1.
  rewrite (len_flat_map_eq _ (cA p + 1)).
  - rewrite nlen_nrange. reflexivity.
  - intros i _. unfold frootC. rewrite nlen_cons, len_climbC. lia.
Qed.
Lemma len_vrootC dg sg :
  nlen (vrootC p hf ps dg sg) <= cK p * (cA p + 1) + 1 + cD p * (15 * cLEN p + cHP p + 1).
Proof.
  unfold vrootC. rewrite nlen_app, len_fpkC.
  match goal with |- context [nlen (flat_map ?f ?l)] =>
    assert (K : nlen (flat_map f l) <= nlen l * (15 * cLEN p + cHP p + 1))
      by (apply len_flat_map_le; intros j _; apply len_xpkC) end.
  unfold nlen at 2 in K. rewrite seq_length, Nnat.N2Nat.id in K. lia.
Qed.

Lemma len_mnodeC leaf nd leafC ndC b : (forall i, nlen (leafC i) = b) ->
  forall z i, nlen (mnodeC leaf nd leafC ndC z i) = 2 ^ N.of_nat z * (b + 1) - 1.
Proof.
  intros Hl. induction z as [|z IH]; intros i; cbn [mnodeC].
  - rewrite Hl. change (2 ^ N.of_nat 0) with 1. lia.
  - rewrite !nlen_app, !IH. change (nlen [_]) with 1.
    replace (N.of_nat (S z)) with (N.succ (N.of_nat z)) by lia. rewrite N.pow_succ_r'.
    pose proof (pow2_nz (N.of_nat z)). assert (1 * 1 <= 2 ^ N.of_nat z * (b + 1)) by (apply N.mul_le_mono; lia).
    rewrite <- N.mul_assoc. set (X := 2 ^ N.of_nat z * (b + 1)) in *. clearbody X. lia.
Qed.
Lemma len_wleafC l t kp : nlen (wleafC p hf ps ss l t kp) = 16 * cLEN p + 1.
Proof.
  unfold wleafC. rewrite nlen_app. change (nlen [_]) with 1. rewrite (len_flat_map_eq _ 16).
  - rewrite nlen_nrange. lia.
  - intros i _. unfold wvalC. rewrite nlen_cons, len_chainC. reflexivity.
Qed.
Lemma len_prootC : nlen (prootC p hf ps ss) = 2 ^ cHP p * (16 * cLEN p + 2) - 1.
Proof.
  unfold prootC, xnodeC. rewrite (len_mnodeC _ _ _ _ (16 * cLEN p + 1)) by (intros; apply len_wleafC).
  rewrite Nnat.N2Nat.id. f_equal. f_equal. lia.
Qed.

(** work of one signature *)
Lemma sum_siblings leaf nd leafC ndC b idx : (forall i, nlen (leafC i) = b) ->
  forall cnt, nlen (flat_map (siblingC leaf nd leafC ndC idx) (nrange cnt)) = (2 ^ cnt - 1) * (b + 1) - cnt.
Proof.
  intros Hl. induction cnt as [|cnt IH] using N.peano_ind.
  - reflexivity.
  - rewrite <- N.add_1_r, nrange_snoc, flat_map_app, nlen_app, IH. cbn [flat_map]. rewrite app_nil_r.
    unfold siblingC. rewrite (len_mnodeC _ _ _ _ b Hl), Nnat.N2Nat.id, N.pow_add_r. change (2 ^ 1) with 2.
    pose proof (pow2_nz cnt) as Z.
    assert (Q : cnt + 1 <= 2 ^ cnt).
    { clear. induction cnt as [|c IH] using N.peano_ind; [discriminate|]. rewrite N.pow_succ_r'. lia. }
    assert (Y : (2 ^ cnt - 1) * 1 <= (2 ^ cnt - 1) * (b + 1)) by (apply N.mul_le_mono_l; lia).
    replace (2 ^ cnt * 2 - 1) with ((2 ^ cnt - 1) + 2 ^ cnt) by lia. rewrite N.mul_add_distr_r.
    assert (Y2 : 2 ^ cnt * 1 <= 2 ^ cnt * (b + 1)) by (apply N.mul_le_mono_l; lia).
    set (U := (2 ^ cnt - 1) * (b + 1)) in *. set (V := 2 ^ cnt * (b + 1)) in *. clearbody U V. lia.
Qed.
Lemma len_xsigC l t idx m :
  nlen (xsigC p hf ps ss l t idx m) <= (2 ^ cHP p - 1) * (16 * cLEN p + 2) + 16 * cLEN p.
Proof.
  unfold xsigC. rewrite nlen_app.
  rewrite (sum_siblings _ _ _ _ (16 * cLEN p + 1)) by (intros; apply len_wleafC).
  assert (K : nlen (wsigC p hf ps ss l t idx m) <= nlen (nrange (cLEN p)) * 16).
  { apply len_flat_map_le. intros i _. unfold wvalC. rewrite nlen_cons, len_chainC.
    pose proof (wdig_lt p m i). lia. }
  rewrite nlen_nrange in K. replace (16 * cLEN p + 1 + 1) with (16 * cLEN p + 2) by lia.
  set (U := (2 ^ cHP p - 1) * (16 * cLEN p + 2)). clearbody U. lia.
Qed.
Lemma len_fsigC t kp md : nlen (fsigC p hf ps ss t kp md) <= cK p * (3 * 2 ^ cA p).
Proof.
  unfold fsigC.
  match goal with |- context [nlen (flat_map ?f ?l)] =>
    assert (K : nlen (flat_map f l) <= nlen l * (3 * 2 ^ cA p)) end.
  { apply len_flat_map_le. intros i _. rewrite nlen_cons.
    rewrite (sum_siblings _ _ _ _ 2) by reflexivity. pose proof (pow2_nz (cA p)).
    set (U := 2 ^ cA p) in *. clearbody U. lia. }
  rewrite nlen_nrange in K. exact K.
Qed.
Lemma len_sig_tailC dg :
  nlen (sig_tailC p hf ps ss dg) <=
  cK p * (3 * 2 ^ cA p) + (cK p * (cA p + 1) + 1) +
  cD p * ((2 ^ cHP p - 1) * (16 * cLEN p + 2) + 16 * cLEN p + (15 * cLEN p + cHP p + 1)).
Proof.
  unfold sig_tailC. rewrite !nlen_app, len_fpkC.
  pose proof (len_fsigC (dg_tree p dg) (dg_leaf p dg) (dg_md p dg)) as K1.
  unfold hsigC.
  match goal with |- context [nlen (flat_map ?f ?l)] =>
    assert (K : nlen (flat_map f l) <= nlen l *
      ((2 ^ cHP p - 1) * (16 * cLEN p + 2) + 16 * cLEN p + (15 * cLEN p + cHP p + 1))) end.
  { apply len_flat_map_le. intros j _. unfold hlayerC. rewrite nlen_app.
    apply N.add_le_mono; [apply len_xsigC|]. destruct (_ <? _)%nat; [apply len_xpkC|]. apply N.le_0_l. }
  unfold nlen at 2 in K. rewrite seq_length, Nnat.N2Nat.id in K. lia.
Qed.
End Count.

Lemma hash_count_calls t : hash_count (calls t) = hash_count t.
Proof.
  unfold hash_count. f_equal. induction t as [|e t IH]; [reflexivity|]. unfold calls. cbn [filter]. fold (calls t).
  destruct e; cbn [is_call filter]; rewrite ?IH; reflexivity.
Qed.
Lemma hash_count_app a b : hash_count (a ++ b) = hash_count a + hash_count b.
Proof. unfold hash_count. rewrite filter_app. apply nlen_app. Qed.
Lemma hash_count_allH L : allH L -> hash_count L = nlen L.
Proof.
  unfold hash_count. induction 1 as [|e L He _ IH]; [reflexivity|].
  destruct e; try discriminate He. cbn [filter]. rewrite !nlen_cons, IH. reflexivity.
Qed.

Lemma prop_verification_work_bounded :
  forall (T : Target) (P : Prims) (s : set_name) (pk : SlhPublicKey) (m sig ctx : bytes) (ph : Ph),
    nlen sig = sig_size s ->
    let t := table2 s in
    let bound := t_k t * (t_a t + 1) + 2 + t_d t * (15 * (2 * t_n t + 3) + t_h' t + 1) in
    hash_count (trace (verify (param_set s) pk m sig ctx)) <= bound /\
    hash_count (trace (hash_verify (param_set s) pk m sig ctx ph)) <= bound /\
    hash_count (trace (raw_verify (param_set s) pk m sig)) <= bound.
Proof.
  intros T P s pk m sig ctx ph L. cbv zeta. pose proof (param_PF s) as HP. rewrite <- param_sig in L.
  rewrite <- param_k, <- param_a, <- param_d, <- param_hp, <- param_len.
  assert (V : forall mp, hash_count (verify_calls (param_set s) (hf_of (param_set s)) pk (dec_sig (param_set s) sig) mp)
            <= cK (param_set s) * (cA (param_set s) + 1) + 2 +
               cD (param_set s) * (15 * cLEN (param_set s) + cHP (param_set s) + 1)).
  { intros mp. unfold verify_calls. cbv zeta. change (EHmsg ?a ?b ?c ?d :: ?Z) with ([EHmsg a b c d] ++ Z).
    rewrite hash_count_app. change (hash_count [_]) with 1. rewrite hash_count_allH by apply allH_vrootC.
    match goal with |- 1 + nlen (vrootC ?p ?h ?q ?d ?s) <= _ => pose proof (len_vrootC p h q d s) as K end.
    lia. }
  split; [|split]; rewrite <- hash_count_calls.
  - destruct (N.le_gt_cases (nlen ctx) 255) as [Hc|Hc].
    + rewrite (proj2 (runs_verify _ HP pk m sig ctx Hc L)). apply V.
    + rewrite (proj2 (runs_verify_long _ pk m sig ctx Hc)). apply N.le_0_l.
  - destruct (N.le_gt_cases (nlen ctx) 255) as [Hc|Hc].
    + rewrite (proj2 (runs_hash_verify _ HP pk m sig ctx ph Hc L)). apply V.
    + rewrite (proj2 (runs_hash_verify_long _ pk m sig ctx ph Hc)). apply N.le_0_l.
  - rewrite (proj2 (runs_raw_verify _ HP pk m sig L)). apply V.
Qed.

(** *** C50 *)
Lemma prop_keygen_and_signing_work :
  forall (T : Target) (P : Prims) (s : set_name),
    let t := table2 s in
    let len := 2 * t_n t + 3 in
    let root := 2 ^ t_h' t * (16 * len + 2) - 1 in
    (forall r g pk sk, call (try_keygen_with_rng (param_set s) r) g = Val (pk, sk) ->
       hash_count (trace_of (try_keygen_with_rng (param_set s) r) g) = root) /\
    (forall bs, nlen bs = sk_size s -> hash_count (trace (sk_try_from_bytes (param_set s) bs)) = root) /\
    (forall sk M' sig tr, signing_run s sk M' sig tr ->
       hash_count tr <= 2 + t_k t * (3 * 2 ^ t_a t) + (t_k t * (t_a t + 1) + 1) +
         t_d t * ((2 ^ t_h' t - 1) * (16 * len + 2) + 16 * len + (15 * len + t_h' t + 1))).
Proof.
  intros T P s. cbv zeta. pose proof (param_PF s) as HP.
  rewrite <- param_k, <- param_a, <- param_d, <- param_hp, <- param_len.
  split; [|split].
  - intros r g pk sk E. unfold trace_of, call in *. rewrite <- hash_count_calls.
    pose proof (keygen_is _ HP (r := r) g) as D. unfold keygen_desc in D. cbv zeta in D.
    destruct (try_fill r g (cN (param_set s))) as [g1 [x|e|z]] eqn:E1; cbn [fst snd] in D.
    2,3: destruct D as [_ [D _]]; congruence.
    destruct (try_fill r g1 (cN (param_set s))) as [g2 [y|e|z]] eqn:E2; cbn [fst snd] in D.
    2,3: destruct D as [_ [D _]]; congruence.
    destruct (try_fill r g2 (cN (param_set s))) as [g3 [w|e|z]] eqn:E3; cbn [fst snd] in D.
    2,3: destruct D as [_ [D _]]; congruence.
    destruct D as [_ [_ D]]. rewrite D.
    change (?a :: ?b :: ?c :: ?Z) with ([a; b; c] ++ Z). rewrite hash_count_app.
    rewrite (hash_count_allH (prootC _ _ _ _)) by apply allH_prootC. rewrite len_prootC. reflexivity.
  - intros bs L. rewrite <- param_sk in L. rewrite <- hash_count_calls.
    destruct (list_eq_dec Byte.byte_eq_dec (sk_pk_root (sk_of_bytes (param_set s) bs))
             (proot (param_set s) (hf_of (param_set s)) (sk_pk_seed (sk_of_bytes (param_set s) bs)) (sk_seed (sk_of_bytes (param_set s) bs)))) as [C|C].
    + rewrite (proj2 (runs_sk_try_from_bytes _ HP bs L C)).
      rewrite hash_count_allH by apply allH_prootC. apply len_prootC.
    + rewrite (proj2 (errs_sk_try_from_bytes _ HP bs L C)).
      rewrite hash_count_allH by apply allH_prootC. apply len_prootC.
  - intros sk M' sig tr R. destruct (signing_shape _ _ _ _ _ R) as (r & g & mp & hedged & b & Em & Es & W & Cl & _).
    rewrite <- hash_count_calls, Cl, hash_count_app.
    replace (hash_count (if hedged then [ERng (cN (param_set s))] else [])) with 0 by (destruct hedged; reflexivity).
    unfold sign_calls. cbv zeta. change (?a :: ?b :: ?Z) with ([a; b] ++ Z). rewrite hash_count_app.
    rewrite (hash_count_allH (sig_tailC _ _ _ _ _)) by apply allH_sig_tailC. change (hash_count [_; _]) with 2.
    match goal with |- 0 + (2 + nlen (sig_tailC ?p ?h ?q ?u ?d)) <= _ => pose proof (len_sig_tailC p h q u d) as K;
      set (X := nlen (sig_tailC p h q u d)) in *; clearbody X end.
    rewrite N.add_0_l, <- !N.add_assoc. rewrite <- !N.add_assoc in K. apply N.add_le_mono_l. exact K.
Qed.

(** *** C47 *)
Lemma hsig_layer p (HP : PF p) hf ps ss dg1 dg2 j :
  (j < N.to_nat (cD p))%nat ->
  tree_at p (dg_tree p dg1) j = tree_at p (dg_tree p dg2) j ->
  leaf_at p (dg_tree p dg1) (dg_leaf p dg1) j = leaf_at p (dg_tree p dg2) (dg_leaf p dg2) j ->
  nth j (sig_ht_of p hf ps ss dg1) (mkXmssSig [] []) = nth j (sig_ht_of p hf ps ss dg2) (mkXmssSig [] []).
Proof.
  intros Hj Et El. unfold sig_ht_of. rewrite !nth_hsig by exact Hj. unfold hsig_at. rewrite Et, El. f_equal.
  destruct j as [|j].
  - cbn [hmsg]. unfold fpk_honest, fpk. rewrite !froots_honest. cbn [leaf_at] in El.
    unfold tree_at in Et. cbn [N.of_nat] in Et. rewrite N.mul_0_r in Et. change (2 ^ 0) with 1 in Et.
    rewrite !N.div_1_r in Et. rewrite Et, El. reflexivity.
  - rewrite !hmsg_S by apply dg_leaf_lt. f_equal.
    cbn [leaf_at] in El.
    assert (Q : forall t, tree_at p t (S j) = tree_at p t j / 2 ^ cHP p).
    { intros t. unfold tree_at. rewrite N.div_div by apply pow2_nz. rewrite <- N.pow_add_r. do 2 f_equal. lia. }
    rewrite !Q in Et.
    rewrite (N.div_mod (tree_at p (dg_tree p dg1) j) (2 ^ cHP p) (pow2_nz _)).
    rewrite (N.div_mod (tree_at p (dg_tree p dg2) j) (2 ^ cHP p) (pow2_nz _)). rewrite Et, El. reflexivity.
Qed.

Lemma sub_concat (B : N -> bytes) n k a b :
  (forall i, i < k -> nlen (B i) = n) -> a + b <= k ->
  sub_bytes (concat (map B (nrange k))) (a * n) ((a + b) * n) = concat (map (fun i => B (a + i)) (nrange b)).
Proof.
  intros HB Hk. replace k with (a + (b + (k - a - b))) by lia. rewrite !concat_map_split.
  assert (L1 : nlen (concat (map B (nrange a))) = a * n) by (apply nlen_concat_blocks; intros; apply HB; lia).
  assert (L2 : nlen (concat (map (fun i => B (a + i)) (nrange b))) = b * n)
    by (apply nlen_concat_blocks; intros; apply HB; lia).
  rewrite sub_bytes_app_r by lia. rewrite L1.
  replace (a * n - a * n) with 0 by lia. replace ((a + b) * n - a * n) with (b * n) by lia.
  rewrite <- L2. apply sub_bytes_prefix.
Qed.

Lemma layer_of_enc s sg1 sg2 j : wf_sig_n (param_set s) sg1 -> wf_sig_n (param_set s) sg2 -> j < cD (param_set s) ->
  nth (N.to_nat j) (ht_sig sg1) (mkXmssSig [] []) = nth (N.to_nat j) (ht_sig sg2) (mkXmssSig [] []) ->
  layer_bytes s (enc_sig (param_set s) sg1) j = layer_bytes s (enc_sig (param_set s) sg2) j.
Proof.
  intros W1 W2 Hj E. unfold layer_bytes. cbv zeta.
  rewrite <- param_k, <- param_a, <- param_hp, <- param_len.
  change (t_n (table2 s)) with (seed_bytes s). rewrite <- param_n. set (p := param_set s) in *.
  fold (fb p). change (1 + cK p * fb p) with (ho p). fold (hb p).
  replace (ho p + (j + 1) * hb p) with (ho p + j * hb p + hb p) by lia.
  assert (B : ho p + j * hb p + hb p <= nblocks p).
  { unfold nblocks. assert ((j + 1) * hb p <= cD p * hb p) by (apply N.mul_le_mono_r; lia). lia. }
  unfold enc_sig. rewrite !sub_concat by (exact B || (intros; apply (nlen_sigB p); assumption)).
  f_equal. apply map_nrange_ext. intros i Hi. rewrite !sigB_ht by assumption. rewrite E. reflexivity.
Qed.

Lemma prop_one_time_keys_sign_one_value :
  forall (T : Target) (P : Prims) (s : set_name) (sk : SlhPrivateKey) (M1 M2 sig1 sig2 : bytes)
         (tr1 tr2 : list event),
    signing_run s sk M1 sig1 tr1 -> signing_run s sk M2 sig2 tr2 ->
    let digest M' sig := H_msg (fips_hash s) (block s sig 0) (sk_pk_seed sk) (sk_pk_root sk) M' in
    let '(md1, it1, il1) := Fips205.split_digest (fips_params s) (digest M1 sig1) in
    let '(md2, it2, il2) := Fips205.split_digest (fips_params s) (digest M2 sig2) in
    forall j, j < t_d (table2 s) ->
      path_tree s it1 j = path_tree s it2 j -> path_leaf s it1 il1 j = path_leaf s it2 il2 j ->
      layer_bytes s sig1 j = layer_bytes s sig2 j.
Proof.
  intros T P s sk M1 M2 sig1 sig2 tr1 tr2 S1 S2 digest. pose proof (param_PF s) as HP.
  assert (Q : forall M' sig tr, signing_run s sk M' sig tr ->
    exists sg, sig = enc_sig (param_set s) sg /\ wf_sig_n (param_set s) sg /\
      nlen (digest M' sig) = cM (param_set s) /\
      ht_sig sg = sig_ht_of (param_set s) (hf_of (param_set s)) (sk_pk_seed sk) (sk_seed sk) (digest M' sig)).
  { intros M' sig tr R. destruct (signing_shape _ _ _ _ _ R) as (r & g & mp & hedged & b & Em & Es & W & Cl & _).
    exists (sign_val (param_set s) (hf_of (param_set s)) sk b M'). split; [exact Es|].
    split; [apply wf_n_sign_val; exact HP|].
    assert (Ed : digest M' sig = sign_digest (hf_of (param_set s)) sk b M').
    { subst digest. unfold sign_digest. cbn [get_public_key pk_seed pk_root]. rewrite <- param_hf. f_equal.
      rewrite Es. unfold block. rewrite <- param_n.
      replace (0 * cN (param_set s)) with 0 by lia. replace ((0 + 1) * cN (param_set s)) with (cN (param_set s)) by lia.
      apply sig_prefix. exact HP. }
    split. { subst digest. cbv beta. rewrite <- param_hf. apply (len_Hmsg _ _ _ (HASHERS_len _ HP)). }
    rewrite Ed. reflexivity. }
  destruct (Q _ _ _ S1) as (sg1 & E1 & W1 & L1 & H1). destruct (Q _ _ _ S2) as (sg2 & E2 & W2 & L2 & H2).
  rewrite <- param_fips, !(split_digest_eq _ HP) by assumption.
  intros j Hj Et El. rewrite E1, E2. rewrite <- param_d in Hj. apply layer_of_enc; try assumption.
  rewrite !path_tree_at in Et. rewrite !path_leaf_at in El. rewrite H1, H2.
  apply hsig_layer; [exact HP|lia|exact Et|exact El].
Qed.
