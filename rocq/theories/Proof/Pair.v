(** Two accepted signatures whose paths through the hypertree meet, compared from the root downwards. *)
From Verif Require Import Spec.Fips205.
From Verif Require Import Model.Api Proof.Facts Proof.Fun Proof.WotsP Proof.XmssP Proof.HtP Proof.ForsP Proof.SlhP
  Proof.SerP Proof.Honest Proof.PosP Proof.TopTrace Proof.TopWots Proof.Forge Proof.Bind.
Import ListNotations.
Open Scope list_scope.
Open Scope N_scope.

Section Climb.
Context (hf : HashFns) (ps : bytes) (V1 V2 : event -> Prop).
Context (n : N) (LH : forall x a m, nlen (H hf x a m) = n).
Context (B : N -> N -> Adrs) (WB : forall z i, wf_adrs (B z i)).
Let nd z i x y := H hf ps (flat (B z i)) (x ++ y).
Let ndC z i x y := EHash KH ps (B z i) [x; y].

Lemma climb_pair auth1 auth2 idx : forall cnt k x1 x2,
  nlen x1 = n -> nlen x2 = n ->
  (forall j, k <= j < k + N.of_nat cnt -> nlen (auth1 j) = n /\ nlen (auth2 j) = n) ->
  Forall V1 (climbC nd ndC auth1 idx cnt k x1) -> Forall V2 (climbC nd ndC auth2 idx cnt k x2) ->
  climb nd auth1 idx cnt k x1 = climb nd auth2 idx cnt k x2 ->
  (x1 = x2 /\ forall j, k <= j < k + N.of_nat cnt -> auth1 j = auth2 j) \/ clash hf ps V1 V2.
Proof.
  induction cnt as [|cnt IH]; intros k x1 x2 L1 L2 La H1 H2 E; cbn [climb climbC] in E, H1, H2.
  - left. split; [exact E|]. intros j Hj. lia.
  - apply Forall_cons_iff in H1. destruct H1 as [V0 Vt]. apply Forall_cons_iff in H2. destruct H2 as [U0 Ut].
    assert (Lup : forall x y, nlen (up nd idx k x y) = n)
      by (intros x y; unfold up; destruct (N.even _); apply LH).
    destruct (IH (k + 1) (up nd idx k x1 (auth1 k)) (up nd idx k x2 (auth2 k))) as [[Eu Ea]|C]; try assumption;
      [apply Lup|apply Lup|intros j Hj; apply La; lia| |right; exact C].
    destruct (La k ltac:(lia)) as [A1 A2].
    assert (K : (x1 = x2 /\ auth1 k = auth2 k) \/ clash hf ps V1 V2).
    { unfold up in Eu, V0, U0. destruct (N.even (idx / 2 ^ k)).
      - apply (step_H hf ps V1 V2 (B (k + 1) (idx / 2 ^ (k + 1)))); try assumption; try congruence. apply WB.
      - destruct (step_H hf ps V1 V2 (B (k + 1) (idx / 2 ^ (k + 1))) (auth1 k) x1 (auth2 k) x2) as [[Q1 Q2]|C];
          try assumption; try congruence; [apply WB|left; split; assumption|right; exact C]. }
    destruct K as [[Ex Ek]|C]; [left|right; exact C]. split; [exact Ex|]. intros j Hj.
    destruct (N.eq_dec j k) as [->|Nj]; [exact Ek|]. apply Ea. lia.
Qed.
End Climb.

Section Pair.
Context (p : Params) (HP : PF p) (hf : HashFns) (HL : HLen (cN p) (cM p) hf).
Context (ps : bytes) (V1 V2 : event -> Prop).
Let n := cN p.
Notation clash := (clash hf ps V1 V2).

(** the first signature shows a chain value that lies c >= 1 steps before that of the second, at the
    position where the first verifier started *)
Definition step_at (l t kp : N) (sig1 sig2 : list bytes) (m : bytes) : Prop :=
  exists i c, i < cLEN p /\ 1 <= c /\ wdig p m i + c <= 15 /\
    V1 (EHash KF ps (wA l t kp i (wdig p m i)) [nth (N.to_nat i) sig1 []]) /\
    chainF hf ps (wA l t kp i) (wdig p m i) (N.to_nat c) (nth (N.to_nat i) sig1 []) = nth (N.to_nat i) sig2 [].

Lemma wpk_pair l t kp sig1 sig2 m1 m2 :
  nlen sig1 = cLEN p -> nb p sig1 -> nlen sig2 = cLEN p -> nb p sig2 -> nlen m1 = n -> nlen m2 = n ->
  Forall V1 (wpkC p hf ps l t kp sig1 m1) -> Forall V2 (wpkC p hf ps l t kp sig2 m2) ->
  wpk p hf ps l t kp sig1 m1 = wpk p hf ps l t kp sig2 m2 ->
  (m1 = m2 /\ sig1 = sig2) \/ clash \/ step_at l t kp sig1 sig2 m1.
Proof.
  intros Ls1 Hb1 Ls2 Hb2 Lm1 Lm2 H1 H2 E. unfold wpkC in H1, H2.
  apply Forall_app in H1. destruct H1 as [H1 H1']. apply Forall_app in H2. destruct H2 as [H2 H2'].
  apply Forall_cons_iff in H1'. destruct H1' as [H1' _]. apply Forall_cons_iff in H2'. destruct H2' as [H2' _].
  assert (Lv1 : forall i, i < cLEN p -> nlen (nth (N.to_nat i) sig1 []) = n)
    by (intros i Hi; apply nb_nth; [exact Hb1|rewrite Ls1; exact Hi]).
  assert (Lv2 : forall i, i < cLEN p -> nlen (nth (N.to_nat i) sig2 []) = n)
    by (intros i Hi; apply nb_nth; [exact Hb2|rewrite Ls2; exact Hi]).
  destruct (step_Tl hf ps V1 V2 (adr l t 1 kp 0 0) (wtips p hf ps l t kp sig1 m1) (wtips p hf ps l t kp sig2 m2)
              (wf_adr _ _ _ _ _ _)) as [Et|C]; [|exact H1'|exact H2'|exact E| |right; left; exact C].
  { unfold wtips. rewrite !map_map. apply map_ext_in. intros i Hi. apply In_nrange in Hi.
    rewrite !(nlen_chain_n p hf HL) by (apply Lv1 || apply Lv2; exact Hi). reflexivity. }
  assert (G1 : forall i, i < cLEN p ->
    Forall V1 (chainC hf ps (wA l t kp i) (wdig p m1 i) (N.to_nat (15 - wdig p m1 i)) (nth (N.to_nat i) sig1 []))).
  { intros i Hi. rewrite Forall_forall in H1 |- *. intros e He. apply H1, in_flat_map. exists i.
    split; [apply In_nrange; exact Hi|exact He]. }
  assert (G2 : forall i, i < cLEN p ->
    Forall V2 (chainC hf ps (wA l t kp i) (wdig p m2 i) (N.to_nat (15 - wdig p m2 i)) (nth (N.to_nat i) sig2 []))).
  { intros i Hi. rewrite Forall_forall in H2 |- *. intros e He. apply H2, in_flat_map. exists i.
    split; [apply In_nrange; exact Hi|exact He]. }
  assert (Ev : forall i, i < cLEN p ->
    chainF hf ps (wA l t kp i) (wdig p m1 i) (N.to_nat (15 - wdig p m1 i)) (nth (N.to_nat i) sig1 [])
    = chainF hf ps (wA l t kp i) (wdig p m2 i) (N.to_nat (15 - wdig p m2 i)) (nth (N.to_nat i) sig2 [])).
  { intros i Hi. pose proof (f_equal (fun q => nth (N.to_nat i) q []) Et) as En. cbv beta in En.
    unfold wtips in En. rewrite !nth_map_nrange in En by exact Hi. exact En. }
  destruct (bytes_dec m1 m2) as [Em|Nm].
  - subst m2.
    destruct (all_or (fun i => nth (N.to_nat i) sig1 [] = nth (N.to_nat i) sig2 []) clash (cLEN p)) as [All|C].
    + intros i Hi. specialize (G1 i Hi). specialize (G2 i Hi). specialize (Ev i Hi).
      refine (chain_back hf ps V1 V2 n (len_F _ _ _ HL) (wA l t kp i) _ _ _ _ (fun j => wf_adr _ _ _ _ _ _)
                (Lv1 i Hi) (Lv2 i Hi) G1 _ Ev).
      intros j Hj. rewrite Forall_forall in G2. apply G2. apply In_chainC. exact Hj.
    + left. split; [reflexivity|]. etransitivity; [exact (list_ext sig1 [] (cLEN p) _ Ls1 All)|]. apply list_eta. exact Ls2.
    + right. left. exact C.
  - right. destruct (incomparable p HP m1 m2 Lm1 Lm2 Nm) as [i [Hi Lt2]].
    pose proof (wdig_lt p m2 i) as Hd2. specialize (G1 i Hi). specialize (G2 i Hi). specialize (Ev i Hi).
    set (b1 := wdig p m1 i) in *. set (b2 := wdig p m2 i) in *. set (v1 := nth (N.to_nat i) sig1 []) in *. set (v2 := nth (N.to_nat i) sig2 []) in *.
    assert (First : V1 (EHash KF ps (wA l t kp i b1) [v1])).
    { rewrite Forall_forall in G1. apply G1.
      pose proof (In_chainC hf ps (wA l t kp i) (N.to_nat (15 - b1)) b1 v1 0 ltac:(lia)) as K.
      rewrite N.add_0_r in K. exact K. }
    replace (N.to_nat (15 - b1)) with (N.to_nat (b2 - b1) + N.to_nat (15 - b2))%nat in G1, Ev by lia.
    apply Forall_chainC_tail in G1. rewrite <- chainF_add in Ev.
    replace (b1 + N.of_nat (N.to_nat (b2 - b1))) with b2 in G1, Ev by lia.
    destruct (chain_back hf ps V1 V2 n (len_F _ _ _ HL) (wA l t kp i) (N.to_nat (15 - b2)) b2
                (chainF hf ps (wA l t kp i) b1 (N.to_nat (b2 - b1)) v1) v2) as [K|C].
    + intros j. apply wf_adr.
    + apply (nlen_chain_n p hf HL). apply (Lv1 i Hi).
    + apply (Lv2 i Hi).
    + exact G1.
    + intros j Hj. rewrite Forall_forall in G2. apply G2. apply In_chainC. exact Hj.
    + exact Ev.
    + right. exists i, (b2 - b1). refine (conj Hi (conj _ (conj _ (conj First K)))); fold b1; lia.
    + left. exact C.
Qed.

Lemma xpk_pair l t idx sg1 sg2 m1 m2 :
  shaped p sg1 -> shaped p sg2 -> nlen m1 = n -> nlen m2 = n ->
  Forall V1 (xpkC p hf ps l t idx sg1 m1) -> Forall V2 (xpkC p hf ps l t idx sg2 m2) ->
  xpk p hf ps l t idx sg1 m1 = xpk p hf ps l t idx sg2 m2 ->
  (m1 = m2 /\ sg1 = sg2) \/ clash \/ step_at l t idx (sig_wots sg1) (sig_wots sg2) m1.
Proof.
  intros [S1 [S2 [S3 S4]]] [R1 [R2 [R3 R4]]] Lm1 Lm2 H1 H2 E. unfold xpkC in H1, H2.
  apply Forall_app in H1. destruct H1 as [H1 H1']. apply Forall_app in H2. destruct H2 as [H2 H2'].
  destruct (climb_pair hf ps V1 V2 n (len_H _ _ _ HL) (fun z i => adr l t 2 0 z i) (fun z i => wf_adr _ _ _ _ _ _)
    (fun k => nth (N.to_nat k) (xmss_auth sg1) []) (fun k => nth (N.to_nat k) (xmss_auth sg2) []) idx (N.to_nat (cHP p)) 0
    (wpk p hf ps l t idx (sig_wots sg1) m1) (wpk p hf ps l t idx (sig_wots sg2) m2)) as [[Ex Ea]|C].
  - apply (len_T _ _ _ HL).
  - apply (len_T _ _ _ HL).
  - intros j Hj. split; apply nb_nth; [exact S4|rewrite S3; lia|exact R4|rewrite R3; lia].
  - exact H1'.
  - exact H2'.
  - exact E.
  - destruct (wpk_pair l t idx (sig_wots sg1) (sig_wots sg2) m1 m2) as [[Em Es]|C]; try assumption; [|right; exact C].
    left. split; [exact Em|]. destruct sg1 as [w1 a1], sg2 as [w2 a2]. cbn [sig_wots xmss_auth] in *. subst w2.
    apply f_equal. etransitivity; [refine (list_ext a1 [] (cHP p) _ S3 _)|apply (list_eta a2 [] (cHP p)); exact R3].
    intros i Hi. apply Ea. lia.
  - right. left. exact C.
Qed.

(** *** the hypertree from layer [lo] upwards *)
Lemma hval_pair t1 l1 t2 l2 sigs1 sigs2 m1 m2 lo :
  nlen m1 = n -> nlen m2 = n ->
  (forall j, (lo <= j < N.to_nat (cD p))%nat -> shaped p (sigs1 j) /\ shaped p (sigs2 j) /\
     tree_at p t1 j = tree_at p t2 j /\ leaf_at p t1 l1 j = leaf_at p t2 l2 j /\
     Forall V1 (hvalC p hf ps t1 l1 sigs1 m1 j) /\ Forall V2 (hvalC p hf ps t2 l2 sigs2 m2 j)) ->
  forall j, (lo <= j <= N.to_nat (cD p))%nat ->
    hval p hf ps t1 l1 sigs1 m1 j = hval p hf ps t2 l2 sigs2 m2 j ->
    (forall i, (lo <= i <= j)%nat -> hval p hf ps t1 l1 sigs1 m1 i = hval p hf ps t2 l2 sigs2 m2 i /\
                                     ((i < j)%nat -> sigs1 i = sigs2 i)) \/
    clash \/
    (exists i, (lo <= i < N.to_nat (cD p))%nat /\
       step_at (N.of_nat i) (tree_at p t1 i) (leaf_at p t1 l1 i) (sig_wots (sigs1 i)) (sig_wots (sigs2 i))
         (hval p hf ps t1 l1 sigs1 m1 i)).
Proof.
  intros Lm1 Lm2 Hyp. induction j as [|j IH]; intros Hj E.
  - left. intros i Hi. replace i with 0%nat by lia. split; [exact E|]. intros K. lia.
  - destruct (Nat.eq_dec lo (S j)) as [El|Nl].
    { left. intros i Hi. replace i with (S j) by lia. split; [exact E|]. intros K. lia. }
    destruct (Hyp j ltac:(lia)) as [Sj [Rj [Et [Ef [Vj Uj]]]]]. unfold hvalC in Vj, Uj.
    change (hval p hf ps t1 l1 sigs1 m1 (S j)) with
      (xpk p hf ps (N.of_nat j) (tree_at p t1 j) (leaf_at p t1 l1 j) (sigs1 j) (hval p hf ps t1 l1 sigs1 m1 j)) in E.
    change (hval p hf ps t2 l2 sigs2 m2 (S j)) with
      (xpk p hf ps (N.of_nat j) (tree_at p t2 j) (leaf_at p t2 l2 j) (sigs2 j) (hval p hf ps t2 l2 sigs2 m2 j)) in E.
    rewrite <- Et, <- Ef in E, Uj.
    destruct (xpk_pair (N.of_nat j) (tree_at p t1 j) (leaf_at p t1 l1 j) (sigs1 j) (sigs2 j)
                (hval p hf ps t1 l1 sigs1 m1 j) (hval p hf ps t2 l2 sigs2 m2 j)) as [[K1 K2]|[C|C]];
      try assumption; try (apply (nlen_hval p hf HL); assumption).
    + destruct (IH ltac:(lia) K1) as [A|R]; [left|right; exact R]. intros i Hi.
      destruct (Nat.eq_dec i (S j)) as [->|Ni].
      * split; [|lia]. cbn [hval]. rewrite <- Et, <- Ef. exact E.
      * destruct (A i ltac:(lia)) as [A1 A2]. split; [exact A1|]. intros _.
        destruct (Nat.eq_dec i j) as [->|Nj]; [exact K2|apply A2; lia].
    + right. left. exact C.
    + right. right. exists j. split; [lia|exact C].
Qed.

(** *** FORS *)
Lemma fpk_pair t kp fs1 fs2 md :
  shapedF p fs1 -> shapedF p fs2 ->
  Forall V1 (fpkC p hf ps t kp fs1 md) -> Forall V2 (fpkC p hf ps t kp fs2 md) ->
  fpk p hf ps t kp fs1 md = fpk p hf ps t kp fs2 md -> fs1 = fs2 \/ clash.
Proof.
  intros [S1 [S2 [S3 [S4 S5]]]] [R1 [R2 [R3 [R4 R5]]]] H1 H2 E. unfold fpkC in H1, H2.
  apply Forall_app in H1. destruct H1 as [H1 H1']. apply Forall_app in H2. destruct H2 as [H2 H2'].
  apply Forall_cons_iff in H1'. destruct H1' as [H1' _]. apply Forall_cons_iff in H2'. destruct H2' as [H2' _].
  rewrite Forall_forall in H1, H2.
  destruct (step_Tlen hf ps V1 V2 (adr 0 t 4 kp 0 0) (froots p hf ps t kp fs1 md) (froots p hf ps t kp fs2 md)
              (wf_adr _ _ _ _ _ _)) as [Et|C]; [|exact H1'|exact H2'|exact E| |right; exact C].
  { unfold froots. rewrite !map_map. apply map_ext_in. intros i Hi.
    transitivity n; [|symmetry];
      (apply nlen_climb; [intros; apply (len_H _ _ _ HL)|apply (len_F _ _ _ HL)]). }
  assert (Lr1 : forall i, i < cK p -> nlen (nth (N.to_nat i) (fors_auth fs1) []) = cA p)
    by (intros i Hi; apply (Forall_nth_N p (fun r => nlen r = cA p)); [exact S4|lia]).
  assert (Lr2 : forall i, i < cK p -> nlen (nth (N.to_nat i) (fors_auth fs2) []) = cA p)
    by (intros i Hi; apply (Forall_nth_N p (fun r => nlen r = cA p)); [exact R4|lia]).
  destruct (all_or (fun i => nth (N.to_nat i) (private_key_value fs1) [] = nth (N.to_nat i) (private_key_value fs2) [] /\
              nth (N.to_nat i) (fors_auth fs1) [] = nth (N.to_nat i) (fors_auth fs2) []) clash (cK p))
    as [All|K]; [| |right; exact K].
  { intros i Hi. set (g := fidx p md i).
    assert (G1 : Forall V1 (frootC p hf ps t kp g (nth (N.to_nat i) (private_key_value fs1) [])
                              (nth (N.to_nat i) (fors_auth fs1) []))).
    { rewrite Forall_forall. intros e He. apply H1, in_flat_map. exists i. split; [apply In_nrange; exact Hi|exact He]. }
    assert (G2 : Forall V2 (frootC p hf ps t kp g (nth (N.to_nat i) (private_key_value fs2) [])
                              (nth (N.to_nat i) (fors_auth fs2) []))).
    { rewrite Forall_forall. intros e He. apply H2, in_flat_map. exists i. split; [apply In_nrange; exact Hi|exact He]. }
    unfold frootC in G1, G2. apply Forall_cons_iff in G1. destruct G1 as [L1 C1].
    apply Forall_cons_iff in G2. destruct G2 as [L2 C2].
    pose proof (f_equal (fun q => nth (N.to_nat i) q []) Et) as En. cbv beta in En.
    unfold froots in En. rewrite !nth_map_nrange in En by exact Hi. unfold froot in En. fold g in En.
    destruct (climb_pair hf ps V1 V2 n (len_H _ _ _ HL) (fA t kp) (fun z i => wf_adr _ _ _ _ _ _)
                (fun k => nth (N.to_nat k) (nth (N.to_nat i) (fors_auth fs1) []) [])
                (fun k => nth (N.to_nat k) (nth (N.to_nat i) (fors_auth fs2) []) []) g (N.to_nat (cA p)) 0
                (flv hf ps t kp g (nth (N.to_nat i) (private_key_value fs1) []))
                (flv hf ps t kp g (nth (N.to_nat i) (private_key_value fs2) []))) as [[Ew Ea]|C].
    - apply (len_F _ _ _ HL).
    - apply (len_F _ _ _ HL).
    - intros j Hj. split.
      + apply nb_nth; [|rewrite Lr1 by exact Hi; lia]. apply (Forall_nth_N p (nb p)); [exact S5|lia].
      + apply nb_nth; [|rewrite Lr2 by exact Hi; lia]. apply (Forall_nth_N p (nb p)); [exact R5|lia].
    - exact C1.
    - exact C2.
    - exact En.
    - destruct (step_F hf ps V1 V2 (fA t kp 0 g) (nth (N.to_nat i) (private_key_value fs1) [])
                  (nth (N.to_nat i) (private_key_value fs2) [])) as [Es|C];
        [unfold fA; apply wf_adr| |exact L1|exact L2|exact Ew| |right; exact C].
      { transitivity n; [|symmetry]; apply nb_nth; assumption || lia. }
      left. split; [exact Es|].
      etransitivity; [refine (list_ext _ [] (cA p) _ (Lr1 i Hi) _)|apply (list_eta _ [] (cA p) (Lr2 i Hi))].
      intros k Hk. apply Ea. lia.
    - right. exact C. }
  left. destruct fs1 as [pv1 au1], fs2 as [pv2 au2]. cbn [private_key_value fors_auth] in *.
  f_equal.
  - etransitivity; [exact (list_ext pv1 [] (cK p) _ S1 (fun i Hi => proj1 (All i Hi)))|apply list_eta; exact R1].
  - etransitivity; [exact (list_ext au1 [] (cK p) _ S3 (fun i Hi => proj2 (All i Hi)))|apply list_eta; exact R3].
Qed.

End Pair.
