(** Two accepting verifications of one signature, compared from the root downwards. *)
From Verif Require Import Spec.Fips205.
From Verif Require Import Model.Api Proof.Facts Proof.Fun Proof.WotsP Proof.XmssP Proof.HtP Proof.ForsP Proof.SlhP
  Proof.SerP Proof.Honest Proof.PosP Proof.TopTrace Proof.TopWots Proof.Forge.
Import ListNotations.
Open Scope list_scope.
Open Scope N_scope.

Section Bind.
Context (hf : HashFns) (ps : bytes) (V1 V2 : event -> Prop).

(** one function, two different pairs of address and input of the same shape, the same value *)
Definition coll : Prop :=
  exists k a1 a2 i1 i2 v, wf_adrs a1 /\ wf_adrs a2 /\ V1 (EHash k ps a1 i1) /\ V2 (EHash k ps a2 i2) /\
    (a1 <> a2 \/ i1 <> i2) /\ map nlen i1 = map nlen i2 /\ fval hf ps k a1 i1 v /\ fval hf ps k a2 i2 v.

Lemma clash_coll : clash hf ps V1 V2 -> coll.
Proof.
  intros (k & a & i1 & i2 & v & Wa & I1 & I2 & Ne & Lm & F1 & F2).
  exists k, a, a, i1, i2, v. refine (conj Wa (conj Wa (conj I1 (conj I2 (conj (or_intror Ne) (conj Lm (conj F1 F2))))))).
Qed.

Lemma far a1 a2 k i1 i2 v1 v2 : wf_adrs a1 -> wf_adrs a2 -> V1 (EHash k ps a1 i1) -> V2 (EHash k ps a2 i2) ->
  a1 <> a2 -> map nlen i1 = map nlen i2 -> fval hf ps k a1 i1 v1 -> fval hf ps k a2 i2 v2 -> v1 = v2 -> coll.
Proof.
  intros W1 W2 I1 I2 Ne Lm F1 F2 E. subst v2. exists k, a1, a2, i1, i2, v1.
  refine (conj W1 (conj W2 (conj I1 (conj I2 (conj (or_introl Ne) (conj Lm (conj F1 F2))))))).
Qed.

Context (n : N) (LF : forall x a m, nlen (F hf x a m) = n) (LH : forall x a m, nlen (H hf x a m) = n).

(** *** authentication paths: the same path values, two positions *)
Section Climb.
Context (B : N -> N -> Adrs) (WB : forall z i, wf_adrs (B z i)).
Context (BI : forall z i j, i < 4294967296 -> j < 4294967296 -> i <> j -> B z i <> B z j).
Let nd z i x y := H hf ps (flat (B z i)) (x ++ y).
Let ndC z i x y := EHash KH ps (B z i) [x; y].

Lemma up_val idx k x y : fval hf ps KH (B (k + 1) (idx / 2 ^ (k + 1)))
    (if N.even (idx / 2 ^ k) then [x; y] else [y; x]) (up nd idx k x y).
Proof. unfold up, nd. destruct (N.even _); constructor. Qed.
Lemma up_event idx k x y :
  up ndC idx k x y = EHash KH ps (B (k + 1) (idx / 2 ^ (k + 1))) (if N.even (idx / 2 ^ k) then [x; y] else [y; x]).
Proof. unfold up, ndC. destruct (N.even _); reflexivity. Qed.

Lemma climb_two auth idx1 idx2 : idx1 < 4294967296 -> idx2 < 4294967296 ->
  forall cnt k x1 x2,
  nlen x1 = n -> nlen x2 = n -> (forall j, k <= j < k + N.of_nat cnt -> nlen (auth j) = n) ->
  Forall V1 (climbC nd ndC auth idx1 cnt k x1) -> Forall V2 (climbC nd ndC auth idx2 cnt k x2) ->
  climb nd auth idx1 cnt k x1 = climb nd auth idx2 cnt k x2 -> x1 = x2 \/ coll.
Proof.
  clear LF. intros B1 B2. induction cnt as [|cnt IH]; intros k x1 x2 L1 L2 La H1 H2 E; cbn [climb climbC] in E, H1, H2.
  - left. exact E.
  - apply Forall_cons_iff in H1. destruct H1 as [V0 Vt]. apply Forall_cons_iff in H2. destruct H2 as [U0 Ut].
    assert (Lup : forall idx x, nlen (up nd idx k x (auth k)) = n)
      by (intros idx x; unfold up; destruct (N.even _); apply LH).
    destruct (IH (k + 1) (up nd idx1 k x1 (auth k)) (up nd idx2 k x2 (auth k))) as [Eu|C]; try assumption;
      [apply Lup|apply Lup|intros j Hj; apply La; lia| |right; exact C].
    specialize (La k ltac:(lia)). rewrite up_event in V0, U0.
    assert (Q1 : idx1 / 2 ^ (k + 1) < 4294967296) by (eapply N.le_lt_trans; [apply div_pow_le|exact B1]).
    assert (Q2 : idx2 / 2 ^ (k + 1) < 4294967296) by (eapply N.le_lt_trans; [apply div_pow_le|exact B2]).
    pose proof (up_val idx1 k x1 (auth k)) as F1. pose proof (up_val idx2 k x2 (auth k)) as F2.
    set (q1 := idx1 / 2 ^ (k + 1)) in *. set (q2 := idx2 / 2 ^ (k + 1)) in *.
    set (i1 := if N.even (idx1 / 2 ^ k) then [x1; auth k] else [auth k; x1]) in *.
    set (i2 := if N.even (idx2 / 2 ^ k) then [x2; auth k] else [auth k; x2]) in *.
    assert (Lm : map nlen i1 = map nlen i2).
    { unfold i1, i2. destruct (N.even (idx1 / 2 ^ k)), (N.even (idx2 / 2 ^ k)); cbn [map]; rewrite L1, L2, La; reflexivity. }
    destruct (N.eq_dec q1 q2) as [Eq|Nq].
    + destruct (blocks_dec i1 i2) as [Ei|Ni].
      * left. unfold i1, i2 in Ei. clear - Ei.
        destruct (N.even (idx1 / 2 ^ k)), (N.even (idx2 / 2 ^ k)).
        -- exact (f_equal (hd []) Ei).
        -- transitivity (auth k); [exact (f_equal (hd []) Ei)|exact (f_equal (fun l => hd [] (tl l)) Ei)].
        -- transitivity (auth k); [exact (f_equal (fun l => hd [] (tl l)) Ei)|exact (f_equal (hd []) Ei)].
        -- exact (f_equal (fun l => hd [] (tl l)) Ei).
      * right. rewrite Eu, Eq in F1. rewrite Eq in V0.
        exists KH, (B (k + 1) q2), (B (k + 1) q2), i1, i2, (up nd idx2 k x2 (auth k)).
        refine (conj (WB _ _) (conj (WB _ _) (conj V0 (conj U0 (conj (or_intror Ni) (conj Lm (conj F1 F2))))))).
    + right. apply (far (B (k + 1) q1) (B (k + 1) q2) KH i1 i2 _ _ (WB _ _) (WB _ _) V0 U0 (BI _ _ _ Q1 Q2 Nq) Lm F1 F2 Eu).
Qed.
End Climb.
End Bind.

Lemma Forall_chainC_tail (V : event -> Prop) hf ps A : forall c1 c2 s x,
  Forall V (chainC hf ps A s (c1 + c2) x) ->
  Forall V (chainC hf ps A (s + N.of_nat c1) c2 (chainF hf ps A s c1 x)).
Proof.
  induction c1 as [|c1 IH]; intros c2 s x Hv; cbn [chainF Nat.add chainC] in *.
  - rewrite N.add_0_r. exact Hv.
  - apply Forall_cons_iff in Hv. destruct Hv as [_ Hv]. specialize (IH _ _ _ Hv).
    replace (s + N.of_nat (S c1)) with (s + 1 + N.of_nat c1) by lia. exact IH.
Qed.

Section Two.
Context (p : Params) (HP : PF p) (hf : HashFns) (HL : HLen (cN p) (cM p) hf).
Context (ps : bytes) (V1 V2 : event -> Prop).
Let n := cN p.
Notation coll := (coll hf ps V1 V2).

Lemma adr_word3 l t ty a b c c' : l < 256 -> t < 18446744073709551616 -> ty < 256 -> a < 4294967296 -> b < 4294967296 ->
  c < 4294967296 -> c' < 4294967296 -> c <> c' -> adr l t ty a b c <> adr l t ty a b c'.
Proof.
  intros H1 H2 H3 H4 H5 H6 H7 Ne E. apply Ne.
  destruct (adr_inj l t ty a b c l t ty a b c') as (_ & _ & _ & _ & _ & K); [repeat split; assumption..|exact E|exact K].
Qed.
Lemma adr_word1 l t ty a a' b c : l < 256 -> t < 18446744073709551616 -> ty < 256 -> a < 4294967296 -> a' < 4294967296 ->
  b < 4294967296 -> c < 4294967296 -> a <> a' -> adr l t ty a b c <> adr l t ty a' b c.
Proof.
  intros H1 H2 H3 H4 H5 H6 H7 Ne E. apply Ne.
  destruct (adr_inj l t ty a b c l t ty a' b c) as (_ & _ & _ & K & _); [repeat split; assumption..|exact E|exact K].
Qed.

(** a chain value that is its own image after c >= 1 steps, at a position where the first verifier started *)
Definition cycle_at (l t kp : N) (sig : list bytes) (m : bytes) : Prop :=
  exists i c, i < cLEN p /\ 1 <= c /\ wdig p m i + c <= 15 /\
    V1 (EHash KF ps (wA l t kp i (wdig p m i)) [nth (N.to_nat i) sig []]) /\
    chainF hf ps (wA l t kp i) (wdig p m i) (N.to_nat c) (nth (N.to_nat i) sig []) = nth (N.to_nat i) sig [].

Lemma wpk_two l t kp1 kp2 sig m1 m2 :
  l < 256 -> t < 18446744073709551616 -> kp1 < 4294967296 -> kp2 < 4294967296 ->
  nlen sig = cLEN p -> nb p sig -> nlen m1 = n -> nlen m2 = n ->
  Forall V1 (wpkC p hf ps l t kp1 sig m1) -> Forall V2 (wpkC p hf ps l t kp2 sig m2) ->
  wpk p hf ps l t kp1 sig m1 = wpk p hf ps l t kp2 sig m2 ->
  (kp1 = kp2 /\ m1 = m2) \/ coll \/ (kp1 = kp2 /\ cycle_at l t kp1 sig m1).
Proof.
  intros Bl Bt B1 B2 Ls Hb Lm1 Lm2 H1 H2 E. unfold wpkC in H1, H2.
  apply Forall_app in H1. destruct H1 as [H1 H1']. apply Forall_app in H2. destruct H2 as [H2 H2'].
  apply Forall_cons_iff in H1'. destruct H1' as [H1' _]. apply Forall_cons_iff in H2'. destruct H2' as [H2' _].
  assert (Lt : map nlen (wtips p hf ps l t kp1 sig m1) = map nlen (wtips p hf ps l t kp2 sig m2)).
  { unfold wtips. rewrite !map_map. apply map_ext_in. intros i Hi. apply In_nrange in Hi.
    rewrite !(nlen_chain_n p hf HL) by (apply nb_nth; [exact Hb|rewrite Ls; exact Hi]). reflexivity. }
  destruct (N.eq_dec kp1 kp2) as [Ek|Nk].
  2: { right. left.
       apply (far hf ps V1 V2 (adr l t 1 kp1 0 0) (adr l t 1 kp2 0 0) KTl (wtips p hf ps l t kp1 sig m1)
                (wtips p hf ps l t kp2 sig m2) (wpk p hf ps l t kp1 sig m1) (wpk p hf ps l t kp2 sig m2)
                (wf_adr _ _ _ _ _ _) (wf_adr _ _ _ _ _ _) H1' H2'); [apply adr_word1; (assumption || lia)|exact Lt| | |exact E];
       constructor. }
  subst kp2. rename kp1 into kp.
  destruct (step_Tl hf ps V1 V2 (adr l t 1 kp 0 0) (wtips p hf ps l t kp sig m1) (wtips p hf ps l t kp sig m2)
              (wf_adr _ _ _ _ _ _) Lt H1' H2' E) as [Et|C]; [|right; left; apply clash_coll; exact C].
  destruct (bytes_dec m1 m2) as [Em|Nm]; [left; split; [reflexivity|exact Em]|].
  destruct (incomparable p HP m1 m2 Lm1 Lm2 Nm) as [i [Hi Lt2]].
  pose proof (wdig_lt p m2 i) as Hd2.
  set (b1 := wdig p m1 i) in *. set (b2 := wdig p m2 i) in *. set (v := nth (N.to_nat i) sig []).
  assert (Lv : nlen v = n) by (apply nb_nth; [exact Hb|rewrite Ls; exact Hi]).
  assert (G1 : Forall V1 (chainC hf ps (wA l t kp i) b1 (N.to_nat (15 - b1)) v)).
  { rewrite Forall_forall in H1 |- *. intros e He. apply H1, in_flat_map. exists i.
    split; [apply In_nrange; exact Hi|exact He]. }
  assert (G2 : Forall V2 (chainC hf ps (wA l t kp i) b2 (N.to_nat (15 - b2)) v)).
  { rewrite Forall_forall in H2 |- *. intros e He. apply H2, in_flat_map. exists i.
    split; [apply In_nrange; exact Hi|exact He]. }
  assert (Ev : chainF hf ps (wA l t kp i) b1 (N.to_nat (15 - b1)) v = chainF hf ps (wA l t kp i) b2 (N.to_nat (15 - b2)) v).
  { pose proof (f_equal (fun q => nth (N.to_nat i) q []) Et) as En. cbv beta in En.
    unfold wtips in En. rewrite !nth_map_nrange in En by exact Hi. exact En. }
  assert (First : V1 (EHash KF ps (wA l t kp i b1) [v])).
  { rewrite Forall_forall in G1. apply G1.
    pose proof (In_chainC hf ps (wA l t kp i) (N.to_nat (15 - b1)) b1 v 0 ltac:(lia)) as K.
    rewrite N.add_0_r in K. exact K. }
  replace (N.to_nat (15 - b1)) with (N.to_nat (b2 - b1) + N.to_nat (15 - b2))%nat in G1, Ev by lia.
  apply Forall_chainC_tail in G1. rewrite <- chainF_add in Ev.
  replace (b1 + N.of_nat (N.to_nat (b2 - b1))) with b2 in G1, Ev by lia.
  destruct (chain_back hf ps V1 V2 n (len_F _ _ _ HL) (wA l t kp i) (N.to_nat (15 - b2)) b2
              (chainF hf ps (wA l t kp i) b1 (N.to_nat (b2 - b1)) v) v) as [K|C].
  - intros j. apply wf_adr.
  - apply (nlen_chain_n p hf HL). exact Lv.
  - exact Lv.
  - exact G1.
  - intros j Hj. rewrite Forall_forall in G2. apply G2. apply In_chainC. exact Hj.
  - exact Ev.
  - right. right. split; [reflexivity|]. exists i, (b2 - b1).
    refine (conj Hi (conj _ (conj _ (conj First K)))); fold b1; lia.
  - right. left. apply clash_coll. exact C.
Qed.

Lemma xpk_two l t idx1 idx2 sg m1 m2 :
  l < 256 -> t < 18446744073709551616 -> idx1 < 4294967296 -> idx2 < 4294967296 ->
  shaped p sg -> nlen m1 = n -> nlen m2 = n ->
  Forall V1 (xpkC p hf ps l t idx1 sg m1) -> Forall V2 (xpkC p hf ps l t idx2 sg m2) ->
  xpk p hf ps l t idx1 sg m1 = xpk p hf ps l t idx2 sg m2 ->
  (idx1 = idx2 /\ m1 = m2) \/ coll \/ (idx1 = idx2 /\ cycle_at l t idx1 (sig_wots sg) m1).
Proof.
  intros Bl Bt B1 B2 [S1 [S2 [S3 S4]]] Lm1 Lm2 H1 H2 E. unfold xpkC in H1, H2.
  apply Forall_app in H1. destruct H1 as [H1 H1']. apply Forall_app in H2. destruct H2 as [H2 H2'].
  destruct (climb_two hf ps V1 V2 n (len_H _ _ _ HL) (fun z i => adr l t 2 0 z i) (fun z i => wf_adr _ _ _ _ _ _)) with
    (auth := fun k => nth (N.to_nat k) (xmss_auth sg) []) (idx1 := idx1) (idx2 := idx2) (cnt := N.to_nat (cHP p)) (k := 0)
    (x1 := wpk p hf ps l t idx1 (sig_wots sg) m1) (x2 := wpk p hf ps l t idx2 (sig_wots sg) m2) as [Ex|C].
  all: try assumption.
  - intros z i j Bi Bj Ne. 
    destruct (N.lt_ge_cases z 4294967296) as [Bz|Bz]; [apply adr_word3; (assumption || lia)|].
    intros Ea. apply Ne. apply (f_equal (fun a => of_be (f7 a))) in Ea. cbn [adr f7] in Ea.
    rewrite !of_be4 in Ea by assumption. exact Ea.
  - apply (len_T _ _ _ HL).
  - apply (len_T _ _ _ HL).
  - intros j Hj. apply nb_nth; [exact S4|]. rewrite S3. lia.
  - destruct (wpk_two l t idx1 idx2 (sig_wots sg) m1 m2 Bl Bt B1 B2 S1 S2 Lm1 Lm2 H1 H2 Ex) as [K|[C|C]];
      [left; exact K|right; left; exact C|right; right; exact C].
  - right. left. exact C.
Qed.

(** *** the hypertree *)
Definition cycle_in (t0 l0 : N) (sigs : nat -> XmssSig) (m : bytes) : Prop :=
  exists j, (j < N.to_nat (cD p))%nat /\
    cycle_at (N.of_nat j) (tree_at p t0 j) (leaf_at p t0 l0 j) (sig_wots (sigs j)) (hval p hf ps t0 l0 sigs m j).

Lemma hval_two t1 l1 t2 l2 sigs m1 m2 :
  t1 < 18446744073709551616 -> t2 < 18446744073709551616 ->
  l1 < 2 ^ cHP p -> l2 < 2 ^ cHP p -> nlen m1 = n -> nlen m2 = n ->
  (forall j, (j < N.to_nat (cD p))%nat -> shaped p (sigs j) /\
     Forall V1 (hvalC p hf ps t1 l1 sigs m1 j) /\ Forall V2 (hvalC p hf ps t2 l2 sigs m2 j)) ->
  forall j, (j < N.to_nat (cD p))%nat -> tree_at p t1 j = tree_at p t2 j ->
    hval p hf ps t1 l1 sigs m1 (S j) = hval p hf ps t2 l2 sigs m2 (S j) ->
    (t1 = t2 /\ l1 = l2 /\ m1 = m2) \/ coll \/ cycle_in t1 l1 sigs m1.
Proof.
  intros Bt1 Bt2 Hl1 Hl2 Lm1 Lm2 Hyp. induction j as [|j IH]; intros Hj Et E.
  - destruct (Hyp 0%nat Hj) as [Sj [Vj Uj]]. cbn [hval] in E. unfold hvalC in Vj, Uj.
    rewrite !(tree_at_0 p) in *. cbn [leaf_at hval] in *. subst t2.
    assert (P32 : 2 ^ cHP p <= 512) by (pose proof (pf_hp p HP); apply pow2_le9; lia).
    destruct (xpk_two (N.of_nat 0) t1 l1 l2 (sigs 0%nat) m1 m2) as [[K1 K2]|[C|[K C]]]; try assumption; try lia.
    + left. split; [reflexivity|]. split; assumption.
    + right. left. exact C.
    + right. right. exists 0%nat. split; [exact Hj|]. rewrite (tree_at_0 p). cbn [leaf_at hval]. exact C.
  - destruct (Hyp (S j) Hj) as [Sj [Vj Uj]]. unfold hvalC in Vj, Uj.
    assert (P32 : 2 ^ cHP p <= 512) by (pose proof (pf_hp p HP); apply pow2_le9; lia).
    pose proof (leaf_at_lt p t1 l1 (S j) Hl1) as F1. pose proof (leaf_at_lt p t2 l2 (S j) Hl2) as F2.
    pose proof (pf_d p HP) as HD.
    assert (Bt : tree_at p t1 (S j) < 18446744073709551616) by (pose proof (tree_at_le p t1 (S j)); lia).
    change (hval p hf ps t1 l1 sigs m1 (S (S j))) with
      (xpk p hf ps (N.of_nat (S j)) (tree_at p t1 (S j)) (leaf_at p t1 l1 (S j)) (sigs (S j)) (hval p hf ps t1 l1 sigs m1 (S j))) in E.
    change (hval p hf ps t2 l2 sigs m2 (S (S j))) with
      (xpk p hf ps (N.of_nat (S j)) (tree_at p t2 (S j)) (leaf_at p t2 l2 (S j)) (sigs (S j)) (hval p hf ps t2 l2 sigs m2 (S j))) in E.
    rewrite <- Et in E, Uj.
    destruct (xpk_two (N.of_nat (S j)) (tree_at p t1 (S j)) (leaf_at p t1 l1 (S j)) (leaf_at p t2 l2 (S j)) (sigs (S j))
                (hval p hf ps t1 l1 sigs m1 (S j)) (hval p hf ps t2 l2 sigs m2 (S j))) as [[K1 K2]|[C|[K C]]];
      try assumption; try lia; try (apply (nlen_hval p hf HL); assumption).
    + apply IH; [lia| |exact K2]. cbn [leaf_at] in K1. rewrite <- !tree_at_S in Et.
      rewrite (N.div_mod (tree_at p t1 j) (2 ^ cHP p)) by apply pow2_nz.
      rewrite (N.div_mod (tree_at p t2 j) (2 ^ cHP p)) by apply pow2_nz. rewrite Et, K1. reflexivity.
    + right. left. exact C.
    + right. right. exists (S j). split; [exact Hj|exact C].
Qed.

(** *** FORS *)
Lemma fpk_two t kp fs md1 md2 :
  t < 18446744073709551616 -> kp < 4294967296 -> shapedF p fs ->
  Forall V1 (fpkC p hf ps t kp fs md1) -> Forall V2 (fpkC p hf ps t kp fs md2) ->
  fpk p hf ps t kp fs md1 = fpk p hf ps t kp fs md2 ->
  (forall i, i < cK p -> fidx p md1 i = fidx p md2 i) \/ coll.
Proof.
  intros Bt Bk [S1 [S2 [S3 [S4 S5]]]] H1 H2 E. unfold fpkC in H1, H2.
  apply Forall_app in H1. destruct H1 as [H1 H1']. apply Forall_app in H2. destruct H2 as [H2 H2'].
  apply Forall_cons_iff in H1'. destruct H1' as [H1' _]. apply Forall_cons_iff in H2'. destruct H2' as [H2' _].
  rewrite Forall_forall in H1, H2.
  assert (Bf : forall md i, i < cK p -> fidx p md i < 4294967296).
  { intros md i Hi. unfold fidx. pose proof (pf_a p HP) as PA. pose proof (pf_k p HP) as PK.
    pose proof (digit_lt md (cA p) i) as Hd.
    assert (2 ^ cA p <= 2 ^ 14) by (apply N.pow_le_mono_r; [discriminate|lia]).
    change (2 ^ 14) with 16384 in *. set (X := 2 ^ cA p) in *. clearbody X. nia. }
  destruct (step_Tlen hf ps V1 V2 (adr 0 t 4 kp 0 0) (froots p hf ps t kp fs md1) (froots p hf ps t kp fs md2)
              (wf_adr _ _ _ _ _ _)) as [Et|C]; [|exact H1'|exact H2'|exact E| |right; apply clash_coll; exact C].
  { unfold froots. rewrite !map_map. apply map_ext_in. intros i Hi.
    transitivity n; [|symmetry];
      (apply nlen_climb; [intros; apply (len_H _ _ _ HL)|apply (len_F _ _ _ HL)]). }
  assert (Lr : forall i, i < cK p -> nlen (nth (N.to_nat i) (fors_auth fs) []) = cA p)
    by (intros i Hi; apply (Forall_nth_N p (fun r => nlen r = cA p)); [exact S4|lia]).
  apply all_or. intros i Hi.
  pose proof (f_equal (fun q => nth (N.to_nat i) q []) Et) as En. cbv beta in En.
  unfold froots in En. rewrite !nth_map_nrange in En by exact Hi.
  set (sk := nth (N.to_nat i) (private_key_value fs) []) in *. set (au := nth (N.to_nat i) (fors_auth fs) []) in *.
  pose proof (Bf md1 i Hi) as B1. pose proof (Bf md2 i Hi) as B2.
  assert (G1 : Forall V1 (frootC p hf ps t kp (fidx p md1 i) sk au)).
  { rewrite Forall_forall. intros e He. apply H1, in_flat_map. exists i. split; [apply In_nrange; exact Hi|exact He]. }
  assert (G2 : Forall V2 (frootC p hf ps t kp (fidx p md2 i) sk au)).
  { rewrite Forall_forall. intros e He. apply H2, in_flat_map. exists i. split; [apply In_nrange; exact Hi|exact He]. }
  set (g1 := fidx p md1 i) in *. set (g2 := fidx p md2 i) in *. clearbody g1 g2.
  unfold frootC in G1, G2. apply Forall_cons_iff in G1. destruct G1 as [L1 C1].
  apply Forall_cons_iff in G2. destruct G2 as [L2 C2].
  destruct (climb_two hf ps V1 V2 n (len_H _ _ _ HL) (fA t kp) (fun z i => wf_adr _ _ _ _ _ _)) with
    (auth := fun k => nth (N.to_nat k) au []) (idx1 := g1) (idx2 := g2) (cnt := N.to_nat (cA p)) (k := 0)
    (x1 := flv hf ps t kp g1 sk) (x2 := flv hf ps t kp g2 sk) as [Ex|C].
  all: try assumption.
  - intros z x y Bi Bj Ne. unfold fA.
    intros Ea. apply Ne. apply (f_equal (fun a => of_be (f7 a))) in Ea. cbn [adr f7] in Ea.
    rewrite !of_be4 in Ea by assumption. exact Ea.
  - apply (len_F _ _ _ HL).
  - apply (len_F _ _ _ HL).
  - intros j Hj. apply nb_nth; [|unfold au; rewrite Lr by exact Hi; lia].
    apply (Forall_nth_N p (nb p)); [exact S5|lia].
  - destruct (N.eq_dec g1 g2) as [Eg|Ng]; [left; exact Eg|right].
    apply (far hf ps V1 V2 (fA t kp 0 g1) (fA t kp 0 g2) KF [sk] [sk] (flv hf ps t kp g1 sk) (flv hf ps t kp g2 sk)
             (wf_adr _ _ _ _ _ _) (wf_adr _ _ _ _ _ _) L1 L2); [|reflexivity| | |exact Ex]; try constructor.
    unfold fA. apply adr_word3; (assumption || lia).
  - right. exact C.
Qed.

(** *** the whole signature *)
Lemma vroot_two dg1 dg2 sg :
  wf_sig_n p sg -> Forall V1 (vrootC p hf ps dg1 sg) -> Forall V2 (vrootC p hf ps dg2 sg) ->
  vroot p hf ps dg1 sg = vroot p hf ps dg2 sg ->
  (dg_tree p dg1 = dg_tree p dg2 /\ dg_leaf p dg1 = dg_leaf p dg2 /\
   forall i, i < cK p -> fidx p (dg_md p dg1) i = fidx p (dg_md p dg2) i) \/
  coll \/
  cycle_in (dg_tree p dg1) (dg_leaf p dg1) (fun j => nth j (ht_sig sg) (mkXmssSig [] []))
    (fpk p hf ps (dg_tree p dg1) (dg_leaf p dg1) (fors_sig sg) (dg_md p dg1)).
Proof.
  intros [[W1 [W2 [W3 [W4 W5]]]] [R [P1 [P2 P3]]]] H1 H2 E.
  unfold vrootC in H1, H2. apply Forall_app in H1. destruct H1 as [H1 H1'].
  apply Forall_app in H2. destruct H2 as [H2 H2'].
  assert (Hd : forall dg, dg_tree p dg < 2 ^ (cH p - cHP p)) by (intros dg; apply N.mod_lt, pow2_nz).
  pose proof (pf_d p HP) as HD. unfold vroot in E.
  set (sigs := fun j => nth j (ht_sig sg) (mkXmssSig [] [])) in *.
  set (m1 := fpk p hf ps (dg_tree p dg1) (dg_leaf p dg1) (fors_sig sg) (dg_md p dg1)) in *.
  set (m2 := fpk p hf ps (dg_tree p dg2) (dg_leaf p dg2) (fors_sig sg) (dg_md p dg2)) in *.
  replace (N.to_nat (cD p)) with (S (N.to_nat (cD p) - 1)) in E by lia.
  destruct (hval_two (dg_tree p dg1) (dg_leaf p dg1) (dg_tree p dg2) (dg_leaf p dg2) sigs m1 m2) with (j := (N.to_nat (cD p) - 1)%nat)
    as [(Et & El & Em)|[C|C]].
  - apply (dg_tree_lt p HP).
  - apply (dg_tree_lt p HP).
  - apply dg_leaf_lt.
  - apply dg_leaf_lt.
  - apply (len_T _ _ _ HL).
  - apply (len_T _ _ _ HL).
  - intros j Hj. split; [|split].
    + assert (Hjn : N.of_nat j < nlen (ht_sig sg)) by (rewrite W4; lia).
      pose proof (Forall_nth_N p _ _ _ (mkXmssSig [] []) W5 Hjn) as [X1 X2].
      pose proof (Forall_nth_N p _ _ _ (mkXmssSig [] []) P3 Hjn) as [X3 X4].
      rewrite Nnat.Nat2N.id in X1, X2, X3, X4. repeat split; assumption.
    + rewrite Forall_forall in H1' |- *. intros e He. apply H1', in_flat_map. exists j.
      split; [apply in_seq; lia|exact He].
    + rewrite Forall_forall in H2' |- *. intros e He. apply H2', in_flat_map. exists j.
      split; [apply in_seq; lia|exact He].
  - lia.
  - rewrite !(tree_at_top p HP) by apply Hd. reflexivity.
  - exact E.
  - assert (Em' : fpk p hf ps (dg_tree p dg1) (dg_leaf p dg1) (fors_sig sg) (dg_md p dg1)
                  = fpk p hf ps (dg_tree p dg1) (dg_leaf p dg1) (fors_sig sg) (dg_md p dg2)).
    { etransitivity; [exact Em|]. unfold m2. rewrite <- Et, <- El. reflexivity. }
    rewrite <- Et, <- El in H2.
    destruct (fpk_two (dg_tree p dg1) (dg_leaf p dg1) (fors_sig sg) (dg_md p dg1) (dg_md p dg2)) as [K|C].
    + apply (dg_tree_lt p HP).
    + pose proof (dg_leaf_u32 p HP dg1). lia.
    + repeat split; assumption.
    + exact H1.
    + exact H2.
    + exact Em'.
    + left. split; [exact Et|]. split; [exact El|exact K].
    + right. left. exact C.
  - right. left. exact C.
  - right. right. exact C.
Qed.

End Two.
