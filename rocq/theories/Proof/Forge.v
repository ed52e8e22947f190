(** What an accepted signature says about the hash functions: comparing the verifier's hash calls with
    the owner's, from the root downwards. *)
From Verif Require Import Spec.Fips205.
From Verif Require Import Model.Api Proof.Facts Proof.Fun Proof.WotsP Proof.XmssP Proof.HtP Proof.ForsP Proof.SlhP
  Proof.SerP Proof.Honest Proof.PosP Proof.TopWots.
Import ListNotations.
Open Scope list_scope.
Open Scope N_scope.

Lemma bytes_dec (x y : bytes) : {x = y} + {x <> y}.
Proof. apply list_eq_dec, Byte.byte_eq_dec. Qed.
Lemma blocks_dec (x y : list bytes) : {x = y} + {x <> y}.
Proof. apply list_eq_dec, bytes_dec. Qed.

Lemma list_eta {A} (l : list A) d k :
  nlen l = k -> map (fun i => nth (N.to_nat i) l d) (nrange k) = l.
Proof.
  intros <-. apply (nth_ext _ _ d d).
  - rewrite map_length. unfold nrange, nlen. rewrite length_nseq. lia.
  - intros i Hi. rewrite map_length in Hi. unfold nrange in Hi. rewrite length_nseq in Hi.
    rewrite <- (Nnat.Nat2N.id i). rewrite nth_map_nrange by lia. reflexivity.
Qed.

Lemma list_ext {A} (l : list A) d k g :
  nlen l = k -> (forall i, i < k -> nth (N.to_nat i) l d = g i) -> l = map g (nrange k).
Proof.
  intros L E. rewrite <- (list_eta l d k L). apply map_ext_in. intros i Hi. apply E, In_nrange, Hi.
Qed.

Lemma all_or (Q : N -> Prop) (C : Prop) k :
  (forall i, i < k -> Q i \/ C) -> (forall i, i < k -> Q i) \/ C.
Proof.
  induction k as [|k IH] using N.peano_ind; intros Hq; [left; intros i Hi; lia|].
  destruct IH as [A|c]; [intros i Hi; apply Hq; lia| |right; exact c].
  destruct (Hq k ltac:(lia)) as [q|c]; [|right; exact c]. left. intros i Hi.
  destruct (N.eq_dec i k) as [->|Ni]; [exact q|]. apply A. lia.
Qed.

Section Forge.
Context (hf : HashFns) (ps : bytes) (V O : event -> Prop).

Inductive fval : hkind -> Adrs -> list bytes -> bytes -> Prop :=
| fv_F a x : fval KF a [x] (F hf ps (flat a) x)
| fv_H a x y : fval KH a [x; y] (H hf ps (flat a) (x ++ y))
| fv_Tl a l : fval KTl a l (T_l hf ps (flat a) (concat l))
| fv_Tlen a l : fval KTlen a l (T_l hf ps (flat a) (concat l)).

(** one function, one address, two inputs of the same shape, the same value *)
Definition clash : Prop :=
  exists k a i1 i2 v, wf_adrs a /\ V (EHash k ps a i1) /\ O (EHash k ps a i2) /\ i1 <> i2 /\
    map nlen i1 = map nlen i2 /\ fval k a i1 v /\ fval k a i2 v.

Lemma step_F a x y : wf_adrs a -> nlen x = nlen y ->
  V (EHash KF ps a [x]) -> O (EHash KF ps a [y]) ->
  F hf ps (flat a) x = F hf ps (flat a) y -> x = y \/ clash.
Proof.
  intros Wa L Hv Ho E. destruct (bytes_dec x y) as [->|Ne]; [left; reflexivity|]. right.
  exists KF, a, [x], [y], (F hf ps (flat a) x). refine (conj Wa (conj Hv (conj Ho (conj _ (conj _ (conj _ _)))))).
  - intros K. apply Ne. exact (f_equal (hd []) K).
  - cbn [map]. rewrite L. reflexivity.
  - constructor.
  - rewrite E. constructor.
Qed.

Lemma step_H a x x' y y' : wf_adrs a -> nlen x = nlen y -> nlen x' = nlen y' ->
  V (EHash KH ps a [x; x']) -> O (EHash KH ps a [y; y']) ->
  H hf ps (flat a) (x ++ x') = H hf ps (flat a) (y ++ y') -> (x = y /\ x' = y') \/ clash.
Proof.
  intros Wa L L' Hv Ho E. destruct (blocks_dec [x; x'] [y; y']) as [K|Ne].
  - left. split; [exact (f_equal (hd []) K)|exact (f_equal (fun l => hd [] (tl l)) K)].
  - right. exists KH, a, [x; x'], [y; y'], (H hf ps (flat a) (x ++ x')). refine (conj Wa (conj Hv (conj Ho (conj Ne (conj _ (conj _ _)))))).
    + cbn [map]. rewrite L, L'. reflexivity.
    + constructor.
    + rewrite E. constructor.
Qed.

Lemma step_Tl a l l' : wf_adrs a -> map nlen l = map nlen l' ->
  V (EHash KTl ps a l) -> O (EHash KTl ps a l') ->
  T_l hf ps (flat a) (concat l) = T_l hf ps (flat a) (concat l') -> l = l' \/ clash.
Proof.
  intros Wa L Hv Ho E. destruct (blocks_dec l l') as [K|Ne]; [left; exact K|right].
  exists KTl, a, l, l', (T_l hf ps (flat a) (concat l)). refine (conj Wa (conj Hv (conj Ho (conj Ne (conj L (conj _ _)))))).
  - constructor.
  - rewrite E. constructor.
Qed.

Lemma step_Tlen a l l' : wf_adrs a -> map nlen l = map nlen l' ->
  V (EHash KTlen ps a l) -> O (EHash KTlen ps a l') ->
  T_l hf ps (flat a) (concat l) = T_l hf ps (flat a) (concat l') -> l = l' \/ clash.
Proof.
  intros Wa L Hv Ho E. destruct (blocks_dec l l') as [K|Ne]; [left; exact K|right].
  exists KTlen, a, l, l', (T_l hf ps (flat a) (concat l)). refine (conj Wa (conj Hv (conj Ho (conj Ne (conj L (conj _ _)))))).
  - constructor.
  - rewrite E. constructor.
Qed.

Context (n : N) (LF : forall x a m, nlen (F hf x a m) = n) (LH : forall x a m, nlen (H hf x a m) = n).

(** *** chains *)
Lemma chain_back A : forall c s x y,
  (forall j, wf_adrs (A j)) -> nlen x = n -> nlen y = n ->
  Forall V (chainC hf ps A s c x) ->
  (forall j, (j < c)%nat -> O (EHash KF ps (A (s + N.of_nat j)) [chainF hf ps A s j y])) ->
  chainF hf ps A s c x = chainF hf ps A s c y -> x = y \/ clash.
Proof.
  clear LH. induction c as [|c IH]; intros s x y WA Lx Ly Hv Ho E; cbn [chainF] in E; [left; exact E|].
  cbn [chainC] in Hv. apply Forall_cons_iff in Hv. destruct Hv as [V0 Vt].
  destruct (IH (s + 1) (F hf ps (flat (A s)) x) (F hf ps (flat (A s)) y)) as [K|K]; try assumption; try apply LF.
  - intros j Hj. specialize (Ho (S j) ltac:(lia)). cbn [chainF] in Ho.
    replace (s + 1 + N.of_nat j) with (s + N.of_nat (S j)) by lia. exact Ho.
  - specialize (Ho 0%nat ltac:(lia)). cbn [chainF] in Ho. rewrite N.add_0_r in Ho.
    apply (step_F (A s)); try assumption; [apply WA|congruence].
  - right. exact K.
Qed.

(** *** authentication paths *)
Section Climb.
Context (leaf : N -> bytes) (B : N -> N -> Adrs) (WB : forall z i, wf_adrs (B z i)).
Let nd z i x y := H hf ps (flat (B z i)) (x ++ y).
Let ndC z i x y := EHash KH ps (B z i) [x; y].
Context (Lleaf : forall i, nlen (leaf i) = n).

Lemma nlen_mnode_n z i : nlen (mnode leaf nd z i) = n.
Proof. destruct z; cbn [mnode]; [apply Lleaf|]. apply LH. Qed.

Lemma climb_back auth idx : forall cnt k x,
  nlen x = n -> (forall j, k <= j < k + N.of_nat cnt -> nlen (auth j) = n) ->
  Forall V (climbC nd ndC auth idx cnt k x) ->
  (forall j, k <= j < k + N.of_nat cnt ->
     O (let i := idx / 2 ^ (j + 1) in
        ndC (j + 1) i (mnode leaf nd (N.to_nat j) (2 * i)) (mnode leaf nd (N.to_nat j) (2 * i + 1)))) ->
  climb nd auth idx cnt k x
  = mnode leaf nd (N.to_nat (k + N.of_nat cnt)) (idx / 2 ^ (k + N.of_nat cnt)) ->
  (x = mnode leaf nd (N.to_nat k) (idx / 2 ^ k) /\
   (forall j, k <= j < k + N.of_nat cnt -> auth j = sibling leaf nd idx j)) \/ clash.
Proof.
  clear LF. induction cnt as [|cnt IH]; intros k x Lx La Hv Ho E; cbn [climb climbC] in E, Hv.
  - left. rewrite N.add_0_r in E. split; [exact E|]. intros j Hj. lia.
  - apply Forall_cons_iff in Hv. destruct Hv as [V0 Vt].
    replace (k + N.of_nat (S cnt)) with (k + 1 + N.of_nat cnt) in * by lia.
    assert (Lup : nlen (up nd idx k x (auth k)) = n)
      by (unfold up; destruct (N.even _); apply LH).
    destruct (IH (k + 1) (up nd idx k x (auth k))) as [[Ex Ea]|K]; try assumption;
      [intros j Hj; apply La; lia|intros j Hj; apply Ho; lia| |right; exact K].
    specialize (Ho k ltac:(lia)). specialize (La k ltac:(lia)).
    rewrite <- (up_ndC leaf nd ndC idx k) in Ho.
    rewrite <- (up_node leaf nd idx k) in Ex.
    assert (Ln : nlen (mnode leaf nd (N.to_nat k) (idx / 2 ^ k)) = n) by apply nlen_mnode_n.
    assert (Ls : nlen (sibling leaf nd idx k) = n) by apply nlen_mnode_n.
    assert (S2 : (x = mnode leaf nd (N.to_nat k) (idx / 2 ^ k) /\ auth k = sibling leaf nd idx k) \/ clash).
    { unfold up, nd, ndC in Ex, Ho, V0. destruct (N.even (idx / 2 ^ k)).
      - eapply step_H; try eassumption; [apply WB|congruence|congruence].
      - destruct (step_H (B (k + 1) (idx / 2 ^ (k + 1))) (auth k) x
                    (sibling leaf (fun z i x y => H hf ps (flat (B z i)) (x ++ y)) idx k)
                    (mnode leaf (fun z i x y => H hf ps (flat (B z i)) (x ++ y)) (N.to_nat k) (idx / 2 ^ k)))
          as [[K1 K2]|K]; try assumption; [apply WB|etransitivity; [exact La|symmetry; exact Ls]
                                          |etransitivity; [exact Lx|symmetry; exact Ln]| |right; exact K].
        left. split; assumption. }
    destruct S2 as [[K1 K2]|K]; [left|right; exact K]. split; [exact K1|].
    intros j Hj. destruct (N.eq_dec j k) as [->|Nj]; [exact K2|]. apply Ea. lia.
Qed.
End Climb.

End Forge.

(** *** membership in call lists *)
Lemma In_chainC hf ps A : forall c s x j, (j < c)%nat ->
  In (EHash KF ps (A (s + N.of_nat j)) [chainF hf ps A s j x]) (chainC hf ps A s c x).
Proof.
  induction c as [|c IH]; intros s x j Hj; [lia|]. cbn [chainC]. destruct j as [|j].
  - left. cbn [chainF]. rewrite N.add_0_r. reflexivity.
  - right. specialize (IH (s + 1) (F hf ps (flat (A s)) x) j ltac:(lia)). cbn [chainF].
    replace (s + N.of_nat (S j)) with (s + 1 + N.of_nat j) by lia. exact IH.
Qed.

Lemma In_climbC nd ndC auth idx : forall cnt k x j, (j < cnt)%nat ->
  In (up ndC idx (k + N.of_nat j) (climb nd auth idx j k x) (auth (k + N.of_nat j)))
     (climbC nd ndC auth idx cnt k x).
Proof.
  induction cnt as [|c IH]; intros k x j Hj; [lia|]. cbn [climbC]. destruct j as [|j].
  - left. cbn [climb]. rewrite N.add_0_r. reflexivity.
  - right. specialize (IH (k + 1) (up nd idx k x (auth k)) j ltac:(lia)). cbn [climb].
    replace (k + N.of_nat (S j)) with (k + 1 + N.of_nat j) by lia. exact IH.
Qed.

Section InTree.
Context (leaf : N -> bytes) (nd : N -> N -> bytes -> bytes -> bytes).
Context (leafC : N -> list event) (ndC : N -> N -> bytes -> bytes -> event).

Lemma In_mnodeC_leaf e : forall z i idx, idx / 2 ^ N.of_nat z = i -> In e (leafC idx) ->
  In e (mnodeC leaf nd leafC ndC z i).
Proof.
  induction z as [|z IH]; intros i idx E Hin; cbn [mnodeC].
  - change (2 ^ N.of_nat 0) with 1 in E. rewrite N.div_1_r in E. subst i. exact Hin.
  - replace (N.of_nat (S z)) with (N.of_nat z + 1) in E by lia. rewrite <- div_pow_S in E.
    destruct (N.even (idx / 2 ^ N.of_nat z)) eqn:Ev.
    + apply in_or_app. left. apply (IH _ idx); [|exact Hin]. rewrite <- E. apply even_half. exact Ev.
    + apply in_or_app. right. apply in_or_app. left. apply (IH _ idx); [|exact Hin]. rewrite <- E.
      apply odd_half. exact Ev.
Qed.

Lemma In_mnodeC_node : forall z i idx j, idx / 2 ^ N.of_nat z = i -> (j < z)%nat ->
  In (let q := idx / 2 ^ (N.of_nat j + 1) in
      ndC (N.of_nat j + 1) q (mnode leaf nd j (2 * q)) (mnode leaf nd j (2 * q + 1)))
     (mnodeC leaf nd leafC ndC z i).
Proof.
  induction z as [|z IH]; intros i idx j E Hj; cbn [mnodeC]; [lia|].
  replace (N.of_nat (S z)) with (N.of_nat z + 1) in * by lia.
  destruct (Nat.eq_dec j z) as [->|Nj].
  - apply in_or_app. right. apply in_or_app. right. left. cbv zeta. rewrite E. reflexivity.
  - rewrite <- div_pow_S in E. destruct (N.even (idx / 2 ^ N.of_nat z)) eqn:Ev.
    + apply in_or_app. left. apply IH; [|lia]. rewrite <- E. apply even_half. exact Ev.
    + apply in_or_app. right. apply in_or_app. left. apply IH; [|lia]. rewrite <- E.
      apply odd_half. exact Ev.
Qed.
End InTree.

Section Back.
Context (p : Params) (HP : PF p) (hf : HashFns) (HL : HLen (cN p) (cM p) hf).
Context (ps ss : bytes) (V O : event -> Prop).
Let n := cN p.
Notation clash := (clash hf ps V O).

Lemma nlen_chain_n A : forall c s x, nlen x = n -> nlen (chainF hf ps A s c x) = n.
Proof.
  induction c as [|c IH]; intros s x Hx; cbn [chainF]; [exact Hx|]. apply IH, (len_F _ _ _ HL).
Qed.
Lemma nlen_wval_n l t kp i s : nlen (wval hf ps ss l t kp i s) = n.
Proof. apply nlen_chain_n, (len_PRF _ _ _ HL). Qed.

Lemma wval_add l t kp i s c :
  chainF hf ps (wA l t kp i) s c (wval hf ps ss l t kp i s) = wval hf ps ss l t kp i (s + N.of_nat c).
Proof.
  unfold wval. pose proof (chainF_add hf ps (wA l t kp i) (N.to_nat s) c 0 (wsk hf ps ss l t kp i)) as E.
  rewrite N.add_0_l, Nnat.N2Nat.id in E. rewrite E. f_equal. lia.
Qed.

(** the owner's calls around leaf idx of tree (l, t) *)
Definition knows (l t idx : N) : Prop :=
  (forall i j, i < cLEN p -> j < 15 -> O (EHash KF ps (wA l t idx i j) [wval hf ps ss l t idx i j])) /\
  O (wcompC ps l t idx (wends p hf ps ss l t idx)) /\
  (forall k, k < cHP p -> O (let i := idx / 2 ^ (k + 1) in
     xndC ps l t (k + 1) i (xnode p hf ps ss l t (N.to_nat k) (2 * i)) (xnode p hf ps ss l t (N.to_nat k) (2 * i + 1)))).

Definition shaped (sg : XmssSig) : Prop :=
  nlen (sig_wots sg) = cLEN p /\ nb p (sig_wots sg) /\ nlen (xmss_auth sg) = cHP p /\ nb p (xmss_auth sg).

Lemma wpk_back l t idx sig m :
  nlen sig = cLEN p -> nb p sig -> Forall V (wpkC p hf ps l t idx sig m) -> knows l t idx ->
  wpk p hf ps l t idx sig m = wleaf p hf ps ss l t idx ->
  sig = wsig p hf ps ss l t idx m \/ clash.
Proof.
  intros Ls Hb Hv [K1 [K2 _]] E. unfold wpkC in Hv. apply Forall_app in Hv. destruct Hv as [Hv1 Hv2].
  rewrite Forall_forall in Hv1, Hv2. specialize (Hv2 _ (or_introl eq_refl)).
  destruct (step_Tl hf ps V O (adr l t 1 idx 0 0) (wtips p hf ps l t idx sig m) (wends p hf ps ss l t idx))
    as [Et|K]; [apply wf_adr| |exact Hv2|exact K2|exact E| |right; exact K].
  { unfold wtips, wends. rewrite !map_map. apply map_ext_in. intros i Hi. apply In_nrange in Hi.
    rewrite nlen_wval_n. apply nlen_chain_n. apply nb_nth; [exact Hb|]. rewrite Ls. exact Hi. }
  destruct (all_or (fun i => nth (N.to_nat i) sig [] = wval hf ps ss l t idx i (wdig p m i)) clash (cLEN p))
    as [All|K]; [| |right; exact K].
  { intros i Hi. pose proof (wdig_lt p m i) as Hd.
    apply (chain_back hf ps V O n (len_F _ _ _ HL) (wA l t idx i) (N.to_nat (15 - wdig p m i)) (wdig p m i)).
    - intros j. apply wf_adr.
    - apply nb_nth; [exact Hb|]. rewrite Ls. exact Hi.
    - apply nlen_wval_n.
    - rewrite Forall_forall. intros e He. apply Hv1. apply in_flat_map. exists i.
      split; [apply In_nrange; exact Hi|exact He].
    - intros j Hj. rewrite wval_add. apply K1; [exact Hi|lia].
    - rewrite wval_add. pose proof (f_equal (fun q => nth (N.to_nat i) q []) Et) as En. cbv beta in En.
      unfold wtips, wends in En. rewrite !nth_map_nrange in En by exact Hi. rewrite En. f_equal. lia. }
  left. apply (list_ext _ []); [exact Ls|exact All].
Qed.

Lemma xpk_back l t idx sg m :
  shaped sg -> Forall V (xpkC p hf ps l t idx sg m) -> knows l t idx ->
  xpk p hf ps l t idx sg m = xnode p hf ps ss l t (N.to_nat (cHP p)) (idx / 2 ^ cHP p) ->
  sg = xsig p hf ps ss l t idx m \/ clash.
Proof.
  intros [S1 [S2 [S3 S4]]] Hv K E. unfold xpkC in Hv. apply Forall_app in Hv. destruct Hv as [Hv1 Hv2].
  destruct (climb_back hf ps V O n (len_H _ _ _ HL) (wleaf p hf ps ss l t) (fun z i => adr l t 2 0 z i)
              (fun z i => wf_adr _ _ _ _ _ _) (fun i => len_T _ _ _ HL _ _ _)
              (fun k => nth (N.to_nat k) (xmss_auth sg) []) idx (N.to_nat (cHP p)) 0
              (wpk p hf ps l t idx (sig_wots sg) m)) as [[Ew Ea]|C].
  - apply (len_T _ _ _ HL).
  - intros j Hj. apply nb_nth; [exact S4|]. rewrite S3. lia.
  - exact Hv2.
  - intros j Hj. apply (proj2 (proj2 K)). lia.
  - rewrite N.add_0_l, Nnat.N2Nat.id. exact E.
  - change (N.to_nat 0) with 0%nat in Ew. cbn [mnode] in Ew. rewrite N.pow_0_r, N.div_1_r in Ew.
    destruct (wpk_back l t idx (sig_wots sg) m S1 S2 Hv1 K Ew) as [Es|C]; [left|right; exact C].
    destruct sg as [w au]. cbn [sig_wots xmss_auth] in *. unfold xsig. rewrite <- Es.
    apply (f_equal (mkXmssSig w)). apply (list_ext _ []); [exact S3|].
    intros i Hi. apply Ea. lia.
  - right. exact C.
Qed.

(** *** the hypertree *)
Definition chain_break (t0 l0 : N) (sigs : nat -> XmssSig) (m' m : bytes) : Prop :=
  exists j i, (j < N.to_nat (cD p))%nat /\ i < cLEN p /\
    let b := wdig p (hval p hf ps t0 l0 sigs m' j) i in
    let e := wdig p (hmsg p hf ps ss t0 l0 m j) i in
    b < e /\ e <= 15 /\
    V (EHash KF ps (wA (N.of_nat j) (tree_at p t0 j) (leaf_at p t0 l0 j) i b) [nth (N.to_nat i) (sig_wots (sigs j)) []]) /\
    nth (N.to_nat i) (sig_wots (sigs j)) [] = wval hf ps ss (N.of_nat j) (tree_at p t0 j) (leaf_at p t0 l0 j) i b.

Lemma hval_back t0 l0 sigs m' m :
  l0 < 2 ^ cHP p -> nlen m' = n -> nlen m = n ->
  (forall j, (j < N.to_nat (cD p))%nat -> shaped (sigs j) /\
     Forall V (hvalC p hf ps t0 l0 sigs m' j) /\
     knows (N.of_nat j) (tree_at p t0 j) (leaf_at p t0 l0 j)) ->
  forall j, (j <= N.to_nat (cD p))%nat ->
    hval p hf ps t0 l0 sigs m' j = hmsg p hf ps ss t0 l0 m j ->
    (m' = m /\ forall i, (i < j)%nat -> sigs i = hsig_at p hf ps ss t0 l0 m i) \/
    clash \/ chain_break t0 l0 sigs m' m.
Proof.
  intros Hl Lm' Lm Hyp. induction j as [|j IH]; intros Hj E.
  - left. split; [exact E|]. intros i Hi. lia.
  - destruct (Hyp j ltac:(lia)) as [Sj [Vj Kj]]. rewrite (hmsg_S p hf ps ss t0 l0 m j Hl) in E.
    cbn [hval] in E. pose proof (leaf_at_lt p t0 l0 j Hl) as Hlf.
    destruct (xpk_back _ _ _ _ _ Sj Vj Kj) as [Es|C]; [|  |right; left; exact C].
    { rewrite (N.div_small _ _ Hlf). exact E. }
    destruct (bytes_dec (hval p hf ps t0 l0 sigs m' j) (hmsg p hf ps ss t0 l0 m j)) as [Em|Ne].
    + destruct (IH ltac:(lia) Em) as [[E0 Ei]|R]; [left|right; exact R]. split; [exact E0|].
      intros i Hi. destruct (Nat.eq_dec i j) as [->|Ni]; [|apply Ei; lia].
      rewrite Es, Em. reflexivity.
    + right. right. destruct (incomparable p HP _ _ (nlen_hval p hf HL ps t0 l0 sigs m' j Lm')
                         (nlen_hmsg p hf HL ps ss t0 l0 m j Lm) Ne) as [i [Hi Lt]].
      exists j, i. split; [lia|]. split; [exact Hi|]. cbv zeta. split; [exact Lt|].
      pose proof (wdig_lt p (hmsg p hf ps ss t0 l0 m j) i) as Hd. split; [lia|].
      split.
      { rewrite Forall_forall in Vj. apply Vj. unfold hvalC, xpkC, wpkC. apply in_or_app. left.
        apply in_or_app. left. apply in_flat_map. exists i. split; [apply In_nrange; exact Hi|].
        pose proof (In_chainC hf ps (wA (N.of_nat j) (tree_at p t0 j) (leaf_at p t0 l0 j) i)
                      (N.to_nat (15 - wdig p (hval p hf ps t0 l0 sigs m' j) i))
                      (wdig p (hval p hf ps t0 l0 sigs m' j) i)
                      (nth (N.to_nat i) (sig_wots (sigs j)) []) 0 ltac:(lia)) as K.
        rewrite N.add_0_r in K. exact K. }
      rewrite Es. cbn [xsig sig_wots]. unfold wsig. rewrite nth_map_nrange by exact Hi. reflexivity.
Qed.

(** *** FORS *)
Definition knowsF (t kp : N) (md : bytes) : Prop :=
  (forall i, i < cK p ->
     O (flvC ps t kp (fidx p md i) (fsk hf ps ss t kp (fidx p md i))) /\
     (forall k, k < cA p -> O (let q := fidx p md i / 2 ^ (k + 1) in
        fndC ps t kp (k + 1) q (fnode hf ps ss t kp (N.to_nat k) (2 * q)) (fnode hf ps ss t kp (N.to_nat k) (2 * q + 1))))) /\
  O (fcompC ps t kp (map (fun i => fnode hf ps ss t kp (N.to_nat (cA p)) i) (nrange (cK p)))).

Definition shapedF (fs : ForsSig) : Prop :=
  nlen (private_key_value fs) = cK p /\ nb p (private_key_value fs) /\
  nlen (fors_auth fs) = cK p /\ Forall (fun r => nlen r = cA p) (fors_auth fs) /\ Forall (nb p) (fors_auth fs).

Lemma fpk_back t kp fs md :
  shapedF fs -> Forall V (fpkC p hf ps t kp fs md) -> knowsF t kp md ->
  fpk p hf ps t kp fs md = fpk p hf ps t kp (fsig p hf ps ss t kp md) md ->
  fs = fsig p hf ps ss t kp md \/ clash.
Proof.
  intros [S1 [S2 [S3 [S4 S5]]]] Hv [K1 K2] E. unfold fpkC in Hv. apply Forall_app in Hv. destruct Hv as [Hv1 Hv2].
  rewrite Forall_forall in Hv1, Hv2. specialize (Hv2 _ (or_introl eq_refl)).
  unfold fpk in E. rewrite froots_honest in E by assumption.
  destruct (step_Tlen hf ps V O (adr 0 t 4 kp 0 0) (froots p hf ps t kp fs md)
              (map (fun i => fnode hf ps ss t kp (N.to_nat (cA p)) i) (nrange (cK p))))
    as [Et|K]; [apply wf_adr| |exact Hv2|exact K2|exact E| |right; exact K].
  { unfold froots. rewrite !map_map. apply map_ext_in. intros i Hi.
    transitivity n; [|symmetry].
    - apply nlen_climb; [intros; apply (len_H _ _ _ HL)|apply (len_F _ _ _ HL)].
    - unfold fnode. destruct (N.to_nat (cA p)); cbn [mnode]; [apply (len_F _ _ _ HL)|apply (len_H _ _ _ HL)]. }
  assert (Lr : forall i, i < cK p -> nlen (nth (N.to_nat i) (fors_auth fs) []) = cA p)
    by (intros i Hi; apply (Forall_nth_N p (fun r => nlen r = cA p)); [exact S4|lia]).
  destruct (all_or (fun i => nth (N.to_nat i) (private_key_value fs) [] = fsk hf ps ss t kp (fidx p md i) /\
              nth (N.to_nat i) (fors_auth fs) [] = fauth p hf ps ss t kp (fidx p md i)) clash (cK p))
    as [All|K]; [| |right; exact K].
  { intros i Hi. destruct (K1 i Hi) as [Kl Kn]. set (g := fidx p md i) in *.
    assert (Hv3 : Forall V (frootC p hf ps t kp g (nth (N.to_nat i) (private_key_value fs) [])
                              (nth (N.to_nat i) (fors_auth fs) []))).
    { rewrite Forall_forall. intros e He. apply Hv1, in_flat_map. exists i.
      split; [apply In_nrange; exact Hi|exact He]. }
    unfold frootC in Hv3. apply Forall_cons_iff in Hv3. destruct Hv3 as [Vl Vc].
    destruct (climb_back hf ps V O n (len_H _ _ _ HL) (fleaf hf ps ss t kp) (fA t kp)
                (fun z i => wf_adr _ _ _ _ _ _) (fun i => len_F _ _ _ HL _ _ _)
                (fun k => nth (N.to_nat k) (nth (N.to_nat i) (fors_auth fs) []) []) g (N.to_nat (cA p)) 0
                (flv hf ps t kp g (nth (N.to_nat i) (private_key_value fs) []))) as [[Ew Ea]|C].
    - apply (len_F _ _ _ HL).
    - intros j Hj. apply nb_nth; [|rewrite Lr by exact Hi; lia].
      apply (Forall_nth_N p (nb p)); [exact S5|lia].
    - exact Vc.
    - intros j Hj. apply Kn. lia.
    - rewrite N.add_0_l, Nnat.N2Nat.id.
      pose proof (f_equal (fun q => nth (N.to_nat i) q []) Et) as En. cbv beta in En.
      unfold froots in En. rewrite !nth_map_nrange in En by exact Hi. unfold froot in En. fold g in En.
      etransitivity; [exact En|]. unfold fnode. f_equal. unfold g, fidx.
      rewrite N.add_comm, N.div_add by apply pow2_nz.
      rewrite N.div_small by (apply digit_lt). reflexivity.
    - change (N.to_nat 0) with 0%nat in Ew. cbn [mnode] in Ew. rewrite N.pow_0_r, N.div_1_r in Ew.
      unfold fleaf, flv in Ew.
      destruct (step_F hf ps V O (fA t kp 0 g) (nth (N.to_nat i) (private_key_value fs) [])
                  (fsk hf ps ss t kp g)) as [Es|C]; [unfold fA; apply wf_adr| |exact Vl|exact Kl|exact Ew| |right; exact C].
      { transitivity n; [apply nb_nth; [exact S2|lia]|symmetry; apply (len_PRF _ _ _ HL)]. }
      left. split; [exact Es|]. apply (list_ext _ []); [exact (Lr i Hi)|].
      intros k Hk. apply Ea. lia.
    - right. exact C. }
  left. destruct fs as [pv au]. cbn [private_key_value fors_auth] in *. unfold fsig.
  rewrite <- (list_ext pv [] (cK p) _ S1 (fun i Hi => proj1 (All i Hi))).
  rewrite <- (list_ext au [] (cK p) _ S3 (fun i Hi => proj2 (All i Hi))). reflexivity.
Qed.

(** *** what the owner computed *)
Lemma knows_signed l t idx m :
  Forall O (wsigC p hf ps ss l t idx m) ->
  Forall O (xpkC p hf ps l t idx (xsig p hf ps ss l t idx m) m) -> knows l t idx.
Proof.
  intros F1 F2. unfold xpkC in F2. apply Forall_app in F2. destruct F2 as [F2 F3].
  unfold wpkC in F2. apply Forall_app in F2. destruct F2 as [F2 F4].
  cbn [xsig sig_wots xmss_auth] in F2, F3, F4. rewrite wpk_honest in F3.
  rewrite Forall_forall in F1, F2, F3, F4. split; [|split].
  - intros i j Hi Hj. pose proof (wdig_lt p m i) as Hd. destruct (N.lt_ge_cases j (wdig p m i)) as [Hlt|Hge].
    + apply F1. apply in_flat_map. exists i. split; [apply In_nrange; exact Hi|]. unfold wvalC. right.
      pose proof (In_chainC hf ps (wA l t idx i) (N.to_nat (wdig p m i)) 0 (wsk hf ps ss l t idx i) (N.to_nat j)
                    ltac:(lia)) as K.
      rewrite N.add_0_l, Nnat.N2Nat.id in K. exact K.
    + apply F2. apply in_flat_map. exists i. split; [apply In_nrange; exact Hi|].
      unfold wsig. rewrite nth_map_nrange by exact Hi.
      pose proof (In_chainC hf ps (wA l t idx i) (N.to_nat (15 - wdig p m i)) (wdig p m i)
                    (wval hf ps ss l t idx i (wdig p m i)) (N.to_nat (j - wdig p m i)) ltac:(lia)) as K.
      rewrite wval_add, Nnat.N2Nat.id in K. replace (wdig p m i + (j - wdig p m i)) with j in K by lia. exact K.
  - specialize (F4 _ (or_introl eq_refl)).
    replace (wtips p hf ps l t idx (wsig p hf ps ss l t idx m) m) with (wends p hf ps ss l t idx) in F4; [exact F4|].
    unfold wends, wtips. apply map_ext_in. intros i Hi. apply In_nrange in Hi.
    unfold wsig. rewrite nth_map_nrange by exact Hi. rewrite wval_add. pose proof (wdig_lt p m i).
    f_equal. lia.
  - intros k Hk.
    pose proof (In_climbC (xnd hf ps l t) (xndC ps l t)
                  (fun k => nth (N.to_nat k) (xauth p hf ps ss l t idx) []) idx (N.to_nat (cHP p)) 0
                  (wleaf p hf ps ss l t idx) (N.to_nat k) ltac:(lia)) as K.
    apply F3 in K. rewrite N.add_0_l, Nnat.N2Nat.id in K.
    assert (A : forall k, k < cHP p ->
              nth (N.to_nat k) (xauth p hf ps ss l t idx) [] = sibling (wleaf p hf ps ss l t) (xnd hf ps l t) idx k)
      by (intros k0 Hk0; unfold xauth; apply nth_map_nrange; exact Hk0).
    rewrite climb_is_node in K by (intros i Hi; apply A; lia).
    rewrite (A k Hk), Nnat.N2Nat.id in K. rewrite up_ndC in K. exact K.
Qed.

Lemma knows_generated l t idx :
  idx < 2 ^ cHP p -> Forall O (xnodeC p hf ps ss l t (N.to_nat (cHP p)) 0) -> knows l t idx.
Proof.
  intros Hi F. rewrite Forall_forall in F.
  assert (E : idx / 2 ^ N.of_nat (N.to_nat (cHP p)) = 0) by (rewrite Nnat.N2Nat.id; apply N.div_small; exact Hi).
  assert (FL : forall e, In e (wleafC p hf ps ss l t idx) -> O e).
  { intros e He. apply F. unfold xnodeC. apply (In_mnodeC_leaf _ _ _ _ e _ _ idx E He). }
  split; [|split].
  - intros i j Hii Hj. apply FL. unfold wleafC. apply in_or_app. left. apply in_flat_map. exists i.
    split; [apply In_nrange; exact Hii|]. right.
    pose proof (In_chainC hf ps (wA l t idx i) (N.to_nat 15) 0 (wsk hf ps ss l t idx i) (N.to_nat j)
                    ltac:(lia)) as K.
    rewrite N.add_0_l, Nnat.N2Nat.id in K. exact K.
  - apply FL. unfold wleafC. apply in_or_app. right. left. reflexivity.
  - intros k Hk. apply F. unfold xnodeC.
    pose proof (In_mnodeC_node (wleaf p hf ps ss l t) (xnd hf ps l t) (wleafC p hf ps ss l t) (xndC ps l t)
                  (N.to_nat (cHP p)) 0 idx (N.to_nat k) E ltac:(lia)) as K.
    rewrite Nnat.N2Nat.id in K. exact K.
Qed.

Lemma knowsF_signed t kp md :
  Forall O (fpkC p hf ps t kp (fsig p hf ps ss t kp md) md) -> knowsF t kp md.
Proof.
  intros F. unfold fpkC in F. apply Forall_app in F. destruct F as [F1 F2].
  rewrite froots_honest in F2. rewrite Forall_forall in F1, F2. split.
  - intros i Hi. set (g := fidx p md i).
    assert (F3 : forall e, In e (frootC p hf ps t kp g (fsk hf ps ss t kp g) (fauth p hf ps ss t kp g)) -> O e).
    { intros e He. apply F1. apply in_flat_map. exists i. split; [apply In_nrange; exact Hi|].
      unfold fsig. cbn [private_key_value fors_auth]. rewrite !nth_map_nrange by exact Hi. exact He. }
    split; [apply F3; left; reflexivity|]. intros k Hk.
    pose proof (In_climbC (fnd hf ps t kp) (fndC ps t kp)
                  (fun k => nth (N.to_nat k) (fauth p hf ps ss t kp g) []) g (N.to_nat (cA p)) 0
                  (fleaf hf ps ss t kp g) (N.to_nat k) ltac:(lia)) as K.
    apply (in_cons (flvC ps t kp g (fsk hf ps ss t kp g))) in K.
    apply F3 in K. rewrite N.add_0_l, Nnat.N2Nat.id in K.
    assert (A : forall k, k < cA p ->
              nth (N.to_nat k) (fauth p hf ps ss t kp g) [] = sibling (fleaf hf ps ss t kp) (fnd hf ps t kp) g k)
      by (intros k0 Hk0; unfold fauth; apply nth_map_nrange; exact Hk0).
    rewrite climb_is_node in K by (intros i0 Hi0; apply A; lia).
    rewrite (A k Hk), Nnat.N2Nat.id in K. rewrite up_ndC in K. exact K.
  - apply F2. left. reflexivity.
Qed.

(** *** the whole signature *)
Theorem vroot_back dg sg :
  nlen dg = cM p -> wf_sig_n p sg ->
  Forall V (vrootC p hf ps dg sg) -> Forall O (prootC p hf ps ss) -> Forall O (sig_tailC p hf ps ss dg) ->
  vroot p hf ps dg sg = proot p hf ps ss ->
  (fors_sig sg = sig_fors_of p hf ps ss dg /\ ht_sig sg = sig_ht_of p hf ps ss dg) \/
  clash \/
  chain_break (dg_tree p dg) (dg_leaf p dg) (fun j => nth j (ht_sig sg) (mkXmssSig [] []))
    (fpk p hf ps (dg_tree p dg) (dg_leaf p dg) (fors_sig sg) (dg_md p dg)) (fpk_honest p hf ps ss dg).
Proof.
  intros Ld [[W1 [W2 [W3 [W4 W5]]]] [R [P1 [P2 P3]]]] Hv Hr Ht E.
  unfold vrootC in Hv. apply Forall_app in Hv. destruct Hv as [Hv1 Hv2].
  unfold sig_tailC in Ht. apply Forall_app in Ht. destruct Ht as [_ Ht]. apply Forall_app in Ht. destruct Ht as [Ht1 Ht2].
  assert (Hl : dg_leaf p dg < 2 ^ cHP p) by apply N.mod_lt, pow2_nz.
  assert (Hd : dg_tree p dg < 2 ^ (cH p - cHP p)) by apply N.mod_lt, pow2_nz.
  pose proof (pf_d p HP) as HD.
  set (t0 := dg_tree p dg) in *. set (l0 := dg_leaf p dg) in *. set (md := dg_md p dg) in *.
  set (sigs := fun j => nth j (ht_sig sg) (mkXmssSig [] [])) in *.
  set (m' := fpk p hf ps t0 l0 (fors_sig sg) md) in *.
  unfold vroot in E. fold t0 l0 md sigs in E. fold m' in E.
  assert (ED : N.to_nat (cD p) = S (N.to_nat (cD p) - 1)) by lia.
  destruct (hval_back t0 l0 sigs m' (fpk_honest p hf ps ss dg)) with (j := N.to_nat (cD p)) as [[Em Es]|C].
  - exact Hl.
  - apply (len_T _ _ _ HL).
  - apply (len_T _ _ _ HL).
  - intros j Hj. split; [|split].
    + assert (Hjn : N.of_nat j < nlen (ht_sig sg)) by (rewrite W4; lia).
      pose proof (Forall_nth_N p _ _ _ (mkXmssSig [] []) W5 Hjn) as [X1 X2].
      pose proof (Forall_nth_N p _ _ _ (mkXmssSig [] []) P3 Hjn) as [X3 X4].
      rewrite Nnat.Nat2N.id in X1, X2, X3, X4. repeat split; assumption.
    + rewrite Forall_forall in Hv2 |- *. intros e He. apply Hv2, in_flat_map. exists j.
      split; [apply in_seq; lia|exact He].
    + pose proof (leaf_at_lt p t0 l0 j Hl) as Hlf.
      destruct (Nat.eq_dec (S j) (N.to_nat (cD p))) as [Ej|Nj].
      * apply knows_generated; [exact Hlf|]. replace j with (N.to_nat (cD p) - 1)%nat by lia.
        rewrite (tree_at_top p HP t0 Hd). replace (N.of_nat (N.to_nat (cD p) - 1)) with (cD p - 1) by lia.
        exact Hr.
      * assert (Hin : Forall O (hlayerC p hf ps ss t0 l0 (fpk_honest p hf ps ss dg) j)).
        { rewrite Forall_forall in Ht2 |- *. intros e He. apply Ht2, in_flat_map. exists j.
          split; [apply in_seq; lia|exact He]. }
        unfold hlayerC in Hin. apply Forall_app in Hin. destruct Hin as [I1 I2].
        rewrite (proj2 (Nat.ltb_lt _ _)) in I2 by lia.
        unfold hsigC_at, xsigC in I1. apply Forall_app in I1. destruct I1 as [_ I1].
        exact (knows_signed _ _ _ _ I1 I2).
  - lia.
  - rewrite E, ED, (hmsg_S p hf ps ss t0 l0 _ _ Hl), (tree_at_top p HP t0 Hd).
    unfold proot. replace (N.of_nat (N.to_nat (cD p) - 1)) with (cD p - 1) by lia. reflexivity.
  - destruct (fpk_back t0 l0 (fors_sig sg) md) as [Ef|C].
    + repeat split; assumption.
    + exact Hv1.
    + apply knowsF_signed. exact Ht1.
    + exact Em.
    + left. split; [exact Ef|]. unfold sig_ht_of, hsig. apply (nth_ext _ _ (mkXmssSig [] []) (mkXmssSig [] [])).
      * rewrite map_length, seq_length. unfold nlen in W4. lia.
      * intros j Hj. fold t0 l0. unfold nlen in W4.
        pose proof (nth_hsig p hf ps ss t0 l0 (fpk_honest p hf ps ss dg) j ltac:(lia)) as K. unfold hsig in K.
        rewrite K. apply Es. lia.
    + right. left. exact C.
  - right. exact C.
Qed.

End Back.
