(** C69: the root in a private key commits to both seeds and to the parameter set. *)
From Verif Require Import Spec.Fips205 Spec.Fips205Hash.
From Verif Require Import Model.Api Proof.Facts Proof.HashP Proof.Fun Proof.WotsP Proof.XmssP Proof.SlhP Proof.SerP Proof.ApiP
  Proof.SpecFun Proof.SpecP Proof.HelpersP Proof.Honest Proof.PosP Spec.Vocab Proof.Summary Proof.TopCorrect Proof.TopKeys
  Proof.TopFraming Proof.TopTrace Proof.TopWots Proof.Forge Proof.Bind Proof.TopForge
  Spec.VocabForge Spec.VocabBind Spec.VocabPrim Spec.VocabCommit Proof.TopPrim.
Import ListNotations.
Open Scope list_scope.
Open Scope N_scope.

(** *** two trees with the same root, same public seed and same place *)
Section Trees.
Context (p : Params) (HP : PF p) (hf : HashFns) (HL : HLen (cN p) (cM p) hf).
Context (ps ss1 ss2 : bytes) (V1 V2 : event -> Prop).
Notation clash := (clash hf ps V1 V2).

Lemma leaf_commit l t kp :
  Forall V1 (wleafC p hf ps ss1 l t kp) -> Forall V2 (wleafC p hf ps ss2 l t kp) ->
  wleaf p hf ps ss1 l t kp = wleaf p hf ps ss2 l t kp ->
  (wsk hf ps ss1 l t kp 0 = wsk hf ps ss2 l t kp 0 /\ V1 (wskC ps ss1 l t kp 0) /\ V2 (wskC ps ss2 l t kp 0)) \/ clash.
Proof.
  intros H1 H2 E. unfold wleafC in H1, H2.
  apply Forall_app in H1. destruct H1 as [H1 H1']. apply Forall_app in H2. destruct H2 as [H2 H2'].
  apply Forall_cons_iff in H1'. destruct H1' as [H1' _]. apply Forall_cons_iff in H2'. destruct H2' as [H2' _].
  pose proof (PF_len p HP) as Hlen.
  assert (Z : 0 < cLEN p) by (pose proof (PF_n_range p HP); lia).
  destruct (step_Tl hf ps V1 V2 (adr l t 1 kp 0 0) (wends p hf ps ss1 l t kp) (wends p hf ps ss2 l t kp)
              (wf_adr _ _ _ _ _ _)) as [Et|C]; [|exact H1'|exact H2'|exact E| |right; exact C].
  { unfold wends. rewrite !map_map. apply map_ext. intros i. rewrite !(nlen_wval_n p hf HL). reflexivity. }
  assert (G1 : Forall V1 (wvalC hf ps ss1 l t kp 0 15)).
  { rewrite Forall_forall in H1 |- *. intros e He. apply H1, in_flat_map. exists 0. split; [apply In_nrange; exact Z|exact He]. }
  assert (G2 : Forall V2 (wvalC hf ps ss2 l t kp 0 15)).
  { rewrite Forall_forall in H2 |- *. intros e He. apply H2, in_flat_map. exists 0. split; [apply In_nrange; exact Z|exact He]. }
  assert (Ev : wval hf ps ss1 l t kp 0 15 = wval hf ps ss2 l t kp 0 15).
  { pose proof (f_equal (fun q => nth (N.to_nat 0) q []) Et) as En. cbv beta in En.
    unfold wends in En. rewrite !nth_map_nrange in En by exact Z. exact En. }
  unfold wvalC in G1, G2. apply Forall_cons_iff in G1. destruct G1 as [P1 G1].
  apply Forall_cons_iff in G2. destruct G2 as [P2 G2]. unfold wval in Ev.
  destruct (chain_back hf ps V1 V2 (cN p) (len_F _ _ _ HL) (wA l t kp 0) (N.to_nat 15) 0
              (wsk hf ps ss1 l t kp 0) (wsk hf ps ss2 l t kp 0)) as [K|C].
  - intros j. apply wf_adr.
  - apply (len_PRF _ _ _ HL).
  - apply (len_PRF _ _ _ HL).
  - exact G1.
  - intros j Hj. rewrite Forall_forall in G2. apply G2. apply In_chainC. exact Hj.
  - exact Ev.
  - left. split; [exact K|]. split; [exact P1|exact P2].
  - right. exact C.
Qed.

Lemma tree_commit l t : forall z,
  Forall V1 (xnodeC p hf ps ss1 l t z 0) -> Forall V2 (xnodeC p hf ps ss2 l t z 0) ->
  xnode p hf ps ss1 l t z 0 = xnode p hf ps ss2 l t z 0 ->
  (wsk hf ps ss1 l t 0 0 = wsk hf ps ss2 l t 0 0 /\ V1 (wskC ps ss1 l t 0 0) /\ V2 (wskC ps ss2 l t 0 0)) \/ clash.
Proof.
  induction z as [|z IH]; intros H1 H2 E; [apply leaf_commit; assumption|].
  unfold xnodeC in H1, H2. cbn [mnodeC] in H1, H2.
  apply Forall_app in H1. destruct H1 as [A1 H1]. apply Forall_app in H1. destruct H1 as [B1 C1].
  apply Forall_app in H2. destruct H2 as [A2 H2]. apply Forall_app in H2. destruct H2 as [B2 C2].
  apply Forall_cons_iff in C1. destruct C1 as [C1 _]. apply Forall_cons_iff in C2. destruct C2 as [C2 _].
  change (2 * 0) with 0 in *.
  unfold xnode in E. cbn [mnode] in E. change (2 * 0) with 0 in E. unfold xnd at 1 4 in E.
  destruct (step_H hf ps V1 V2 (adr l t 2 0 (N.of_nat (S z)) 0)
              (xnode p hf ps ss1 l t z 0) (xnode p hf ps ss1 l t z (0 + 1))
              (xnode p hf ps ss2 l t z 0) (xnode p hf ps ss2 l t z (0 + 1)) (wf_adr _ _ _ _ _ _)) as [[K _]|C].
  1,2: unfold xnode; rewrite !(nlen_mnode_n hf ps (cN p) (len_H _ _ _ HL) _ (fun z i => adr l t 2 0 z i))
         by (intros; apply (len_T _ _ _ HL)); reflexivity.
  - exact C1.
  - exact C2.
  - exact E.
  - apply IH; assumption.
  - right. exact C.
Qed.

End Trees.

(** *** strings *)
Lemma string_seed s kind seed1 seed2 a1 a2 i1 i2 : nlen seed1 = nlen seed2 ->
  hashed_string s kind seed1 a1 i1 = hashed_string s kind seed2 a2 i2 -> seed1 = seed2.
Proof.
  intros L E. unfold hashed_string in E. destruct (primitive_of s kind); apply app_inj_len in E; try exact L; apply E.
Qed.

Lemma string_len2 s kind seed1 seed2 a1 a2 i1 i2 : nlen seed1 = nlen seed2 -> adrs_typed a1 -> adrs_typed a2 ->
  map nlen i1 = map nlen i2 ->
  nlen (hashed_string s kind seed1 a1 i1) = nlen (hashed_string s kind seed2 a2 i2).
Proof.
  intros L W1 W2 Lm. rewrite (string_len s kind seed1 a1 a2 i1 i2 W1 W2 Lm).
  unfold hashed_string. destruct (primitive_of s kind); rewrite !nlen_app, L; reflexivity.
Qed.

Lemma functions_prim s1 s2 kind : same_functions s1 s2 -> primitive_of s1 kind = primitive_of s2 kind.
Proof. intros [E _]. unfold primitive_of. rewrite E. reflexivity. Qed.
Lemma functions_string s1 s2 kind seed a i : same_functions s1 s2 ->
  hashed_string s1 kind seed a i = hashed_string s2 kind seed a i.
Proof. intros S. unfold hashed_string. rewrite (functions_prim _ _ kind S), (proj2 S). reflexivity. Qed.
Lemma functions_digest {P : Prims} s1 s2 kind x : same_functions s1 s2 ->
  short_digest s1 kind x = short_digest s2 kind x.
Proof. intros S. unfold short_digest. rewrite (functions_prim _ _ kind S), (proj2 S). reflexivity. Qed.

Lemma prf_prim {P : Prims} s ps ss a :
  PRF (hf_of (param_set s)) ps ss (flat a) = short_digest s KPRF (hashed_string s KPRF ps a [ss]).
Proof.
  rewrite param_hf. unfold short_digest, hashed_string, primitive_of, fips_hash.
  change (adrs_bytes a) with (flat a). cbn [concat]. rewrite app_nil_r.
  destruct (section_of s); cbn [PRF shake_fns sha2_cat1_fns sha2_cat35_fns]; rewrite ?toByte_0; reflexivity.
Qed.

Lemma h_prim {P : Prims} s ps a x y :
  H (hf_of (param_set s)) ps (flat a) (x ++ y) = short_digest s KH (hashed_string s KH ps a [x; y]).
Proof.
  rewrite param_hf. unfold short_digest, hashed_string, primitive_of, fips_hash.
  change (adrs_bytes a) with (flat a). cbn [concat]. rewrite app_nil_r.
  destruct (section_of s); cbn [H shake_fns sha2_cat1_fns sha2_cat35_fns]; rewrite ?toByte_0; reflexivity.
Qed.

(** *** the runs of accepted imports *)
Lemma import_run {T : Target} {P : Prims} s bs sk :
  nlen bs = sk_size s -> result (sk_try_from_bytes (param_set s) bs) = Val sk ->
  let p := param_set s in
  wf_sk p (sk_of_bytes p bs) /\
  sk_pk_root (sk_of_bytes p bs) = proot p (hf_of p) (sk_pk_seed (sk_of_bytes p bs)) (sk_seed (sk_of_bytes p bs)) /\
  Forall (fun e => In e (trace (sk_try_from_bytes p bs)))
         (prootC p (hf_of p) (sk_pk_seed (sk_of_bytes p bs)) (sk_seed (sk_of_bytes p bs))).
Proof.
  intros L E p. subst p. rewrite <- param_sk in L. pose proof (param_PF s) as HP.
  destruct (import_inv _ HP _ _ L E) as [-> C]. split; [apply wf_sk_of_bytes; assumption|]. split; [exact C|].
  destruct (runs_sk_try_from_bytes _ HP _ L C) as [_ Cl]. rewrite Forall_forall. intros e He.
  apply (filter_In is_call). unfold calls in Cl. rewrite Cl. exact He.
Qed.

(** the last call of a tree computation *)
Lemma root_call p hf ps ss l t z i : (0 < z)%nat ->
  exists x y, xnode p hf ps ss l t z i = xnd hf ps l t (N.of_nat z) i x y /\
    In (xndC ps l t (N.of_nat z) i x y) (xnodeC p hf ps ss l t z i) /\
    (HLen (cN p) (cM p) hf -> nlen x = cN p /\ nlen y = cN p).
Proof.
  intros Hz. destruct z as [|z]; [lia|].
  exists (xnode p hf ps ss l t z (2 * i)), (xnode p hf ps ss l t z (2 * i + 1)). split; [reflexivity|]. split.
  - unfold xnodeC. cbn [mnodeC]. apply in_or_app. right. apply in_or_app. right. left. reflexivity.
  - intros HL. split; unfold xnode;
      apply (nlen_mnode_n hf ps (cN p) (len_H _ _ _ HL) _ (fun z i => adr l t 2 0 z i)); intros; apply (len_T _ _ _ HL).
Qed.

(** sets with the same functions and the same top layer are the same set *)
Lemma set_by_layers s1 s2 : same_functions s1 s2 -> cD (param_set s1) = cD (param_set s2) -> s1 = s2.
Proof. intros [A B] C. destruct s1, s2; try reflexivity; try discriminate A; try discriminate B; discriminate C. Qed.

Lemma prop_private_key_root_commits :
  forall (T : Target) (P : Prims) (s1 s2 : set_name) (bs1 bs2 : bytes) (sk1 sk2 : SlhPrivateKey),
    let import1 := sk_try_from_bytes (param_set s1) bs1 in
    let import2 := sk_try_from_bytes (param_set s2) bs2 in
    let n := seed_bytes s1 in
    same_functions s1 s2 ->
    nlen bs1 = sk_size s1 -> nlen bs2 = sk_size s2 ->
    result import1 = Val sk1 -> result import2 = Val sk2 ->
    (** the same seeds and the same set have only one root, *)
    (s1 = s2 -> sub_bytes bs1 0 n = sub_bytes bs2 0 n -> sub_bytes bs1 (2 * n) (3 * n) = sub_bytes bs2 (2 * n) (3 * n) ->
       sub_bytes bs1 (3 * n) (4 * n) = sub_bytes bs2 (3 * n) (4 * n)) /\
    (** and one root has only one set and one pair of seeds *)
    (sub_bytes bs1 (3 * n) (4 * n) = sub_bytes bs2 (3 * n) (4 * n) ->
       (s1 = s2 /\ sub_bytes bs1 0 n = sub_bytes bs2 0 n /\ sub_bytes bs1 (2 * n) (3 * n) = sub_bytes bs2 (2 * n) (3 * n)) \/
       string_collision s1 s2 (trace import1) (trace import2)).
Proof.
  intros T P s1 s2 bs1 bs2 sk1 sk2 import1 import2 n S L1 L2 E1 E2.
  destruct (import_run s1 bs1 sk1 L1 E1) as [W1 [R1 C1]]. destruct (import_run s2 bs2 sk2 L2 E2) as [W2 [R2 C2]].
  fold import1 in C1. fold import2 in C2.
  assert (N1 : cN (param_set s1) = n) by apply param_n.
  assert (N2 : cN (param_set s2) = n) by (rewrite param_n; symmetry; apply S).
  unfold wf_sk, wf_pk, get_public_key in W1, W2. unfold sk_of_bytes in *.
  cbn [sk_seed sk_prf sk_pk_seed sk_pk_root pk_seed pk_root] in *.
  rewrite N1 in *. rewrite N2 in *.
  destruct W1 as (LA1 & _ & LS1 & LR1). destruct W2 as (LA2 & _ & LS2 & LR2).
  set (ss1 := sub_bytes bs1 0 n) in *. set (ss2 := sub_bytes bs2 0 n) in *.
  set (ps1 := sub_bytes bs1 (2 * n) (3 * n)) in *. set (ps2 := sub_bytes bs2 (2 * n) (3 * n)) in *.
  set (rt1 := sub_bytes bs1 (3 * n) (4 * n)) in *. set (rt2 := sub_bytes bs2 (3 * n) (4 * n)) in *.
  clearbody ss1 ss2 ps1 ps2 rt1 rt2. set (run1 := trace import1) in *. set (run2 := trace import2) in *.
  clearbody run1 run2. clear E1 E2.
  split; [intros -> -> ->; congruence|]. intros Er.
  assert (Ev : proot (param_set s1) (hf_of (param_set s1)) ps1 ss1 = proot (param_set s2) (hf_of (param_set s2)) ps2 ss2)
    by congruence.
  clear R1 R2 Er.
  pose proof (HASHERS_len _ (param_PF s1)) as HL1. pose proof (HASHERS_len _ (param_PF s2)) as HL2.
  pose proof (bounds _ (param_PF s1)) as B1. pose proof (bounds _ (param_PF s2)) as B2.
  pose proof (pf_hp _ (param_PF s1)) as Hp1. pose proof (pf_hp _ (param_PF s2)) as Hp2.
  destruct (root_call (param_set s1) (hf_of (param_set s1)) ps1 ss1 (cD (param_set s1) - 1) 0 (N.to_nat (cHP (param_set s1))) 0
              ltac:(lia)) as (x1 & y1 & Q1 & J1 & Y1).
  destruct (root_call (param_set s2) (hf_of (param_set s2)) ps2 ss2 (cD (param_set s2) - 1) 0 (N.to_nat (cHP (param_set s2))) 0
              ltac:(lia)) as (x2 & y2 & Q2 & J2 & Y2).
  specialize (Y1 HL1). specialize (Y2 HL2). rewrite N1 in Y1. rewrite N2 in Y2.
  rewrite Nnat.N2Nat.id in Q1, J1, Q2, J2. set (z1 := cHP (param_set s1)) in *. set (z2 := cHP (param_set s2)) in *.
  assert (Sm1 : small (cD (param_set s1) - 1) 0 2 0 z1 0) by (unfold small; split_and; lia).
  assert (Sm2 : small (cD (param_set s2) - 1) 0 2 0 z2 0) by (unfold small; split_and; lia).
  assert (Top : hashed_string s1 KH ps1 (adr (cD (param_set s1) - 1) 0 2 0 z1 0) [x1; y1] <>
                hashed_string s1 KH ps2 (adr (cD (param_set s2) - 1) 0 2 0 z2 0) [x2; y2] ->
                string_collision s1 s2 run1 run2).
  { intros Ne. exists KH, ps1, ps2, (adr (cD (param_set s1) - 1) 0 2 0 z1 0), (adr (cD (param_set s2) - 1) 0 2 0 z2 0),
      [x1; y1], [x2; y2].
    rewrite Forall_forall in C1, C2. split; [apply C1; exact J1|]. split; [apply C2; exact J2|]. cbv zeta.
    rewrite <- (functions_string s1 s2) by exact S. split; [exact Ne|]. split; [|split].
    - apply string_len2; [congruence|apply wf_adr..|]. destruct Y1, Y2. cbn [map]. congruence.
    - apply functions_prim; exact S.
    - rewrite (functions_string s1 s2 KH ps2) by exact S. rewrite <- !h_prim.
      etransitivity; [symmetry; exact Q1|]. etransitivity; [exact Ev|]. exact Q2. }
  destruct (bytes_dec ps1 ps2) as [Ep|Np]; [destruct (N.eq_dec (cD (param_set s1)) (cD (param_set s2))) as [Ed|Nd]|].
  - pose proof (set_by_layers _ _ S Ed) as Es. subst s2 ps2.
    destruct (bytes_dec ss1 ss2) as [Ea|Na]; [left; split; [reflexivity|split; [exact Ea|reflexivity]]|]. right.
    destruct (tree_commit (param_set s1) (param_PF s1) _ HL1 ps1 ss1 ss2 (fun e => In e run1) (fun e => In e run2)
                _ _ _ C1 C2 Ev) as [[Ew [I1 I2]]|C].
    + exists KPRF, ps1, ps1, (adr (cD (param_set s1) - 1) 0 5 0 0 0), (adr (cD (param_set s1) - 1) 0 5 0 0 0), [ss1], [ss2].
      split; [exact I1|]. split; [exact I2|]. cbv zeta. split; [|split; [|split; [reflexivity|]]].
      * intros K. apply string_inj in K; [|apply wf_adr..|cbn [map]; congruence].
        destruct K as [_ K]. apply Na. exact (f_equal (hd []) K).
      * apply string_len; [apply wf_adr..|cbn [map]; congruence].
      * rewrite <- !prf_prim. exact Ew.
    + destruct C as (k & a & i1 & i2 & v & Wa & I1 & I2 & Ne & Lm & F1 & F2).
      exists k, ps1, ps1, a, a, i1, i2. split; [exact I1|]. split; [exact I2|]. cbv zeta.
      split; [|split; [|split; [reflexivity|]]].
      * intros K. apply string_inj in K; try assumption. apply Ne, K.
      * apply string_len; assumption.
      * rewrite <- (hash_value_prim _ _ _ _ _ _ Wa (fval_hash_value _ _ _ _ _ _ Wa F1)).
        apply (hash_value_prim _ _ _ _ _ _ Wa (fval_hash_value _ _ _ _ _ _ Wa F2)).
  - right. apply Top. intros K. pose proof (string_seed _ _ _ _ _ _ _ _ (eq_trans LS1 (eq_sym LS2)) K) as Kp. rewrite Kp in K.
    apply string_inj in K; [|apply wf_adr..|destruct Y1, Y2; cbn [map]; congruence]. destruct K as [K _]. apply Nd.
    assert (Ea : adr (cD (param_set s1) - 1) 0 2 0 z1 0 = adr (cD (param_set s2) - 1) 0 2 0 z2 0).
    { destruct K as [K|K].
      - rewrite !(proj1 (runs_to_22_bytes _ (wf_adr _ _ _ _ _ _))) in K. apply flat22_inj; [exact Sm1|exact Sm2|].
        apply (f_equal (fun o => match o with Val b => b | _ => [] end)) in K. exact K.
      - rewrite !(proj1 (runs_to_32_bytes _ (wf_adr _ _ _ _ _ _))) in K. apply flat_inj; [apply wf_adr..|].
        apply (f_equal (fun o => match o with Val b => b | _ => [] end)) in K. exact K. }
    destruct (adr_inj _ _ _ _ _ _ _ _ _ _ _ _ Sm1 Sm2 Ea) as (Kd & _).
    pose proof (pf_d _ (param_PF s1)). pose proof (pf_d _ (param_PF s2)). lia.
  - right. apply Top. intros K. apply Np. apply (string_seed _ _ _ _ _ _ _ _ (eq_trans LS1 (eq_sym LS2)) K).
Qed.
