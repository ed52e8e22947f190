(** C30, C31: leakage of key generation, key import and signing. *)
From Coq Require Import String.
From Verif Require Import Spec.Fips205 Spec.Fips205Hash.
From Verif Require Import Model.Api Proof.Runs Proof.HelpersP Proof.Facts Proof.HashP Proof.Fun Proof.SlhP Proof.SerP Proof.ApiP
  Proof.TopFips Proof.WotsP Proof.HtP Proof.Honest
  Proof.SpecFun Spec.Vocab Proof.Summary Proof.TopSafety Proof.TopSer Proof.TopTrace Proof.TopPath Spec.VocabLeak Spec.VocabForge Spec.VocabPublic Proof.Low Proof.LowHash Proof.LowTree Proof.LowSign.
Import ListNotations.
Open Scope list_scope.
Open Scope N_scope.

Lemma rlow_bind {r1 r2 : Rng} {A B} (R : A -> A -> Prop) (R' : B -> B -> Prop)
    (m1 : RM r1 A) (m2 : RM r2 A) k1 k2 g1 g2 :
  low R (snd (m1 g1)) (snd (m2 g2)) ->
  (forall a b, R a b -> low R' (snd (k1 a (fst (m1 g1)))) (snd (k2 b (fst (m2 g2))))) ->
  low R' (snd (rbind m1 k1 g1)) (snd (rbind m2 k2 g2)).
Proof.
  intros L K. unfold rbind. destruct (m1 g1) as [h1 x1], (m2 g2) as [h2 x2]. cbn [fst snd] in *.
  pose proof (low_bind R R' x1 x2 (fun a => snd (k1 a h1)) (fun b => snd (k2 b h2)) L K) as Q.
  unfold bind in Q. destruct x1 as [t1 [a|e|q]], x2 as [t2 [b|e'|q']]; try exact Q;
    try (destruct (k1 a h1) as [? [? ?]]); try (destruct (k2 b h2) as [? [? ?]]); exact Q.
Qed.

Lemma low_fill {r1 r2 : Rng} n msg (g1 : rng_st r1) (g2 : rng_st r2) h1 h2 b1 b2 :
  try_fill r1 g1 n = (h1, Val b1) -> try_fill r2 g2 n = (h2, Val b2) ->
  low (fun x y => x = b1 /\ y = b2) (snd (@fill_or r1 n msg g1)) (snd (@fill_or r2 n msg g2)).
Proof. intros E1 E2. unfold fill_or. rewrite E1, E2. split; [reflexivity|]. cbn. auto. Qed.

Lemma low_runs2 {A} (R : A -> A -> Prop) (m1 m2 : M A) a b t1 t2 :
  low R m1 m2 -> runs m1 a t1 -> runs m2 b t2 -> low (fun x y => x = a /\ y = b) m1 m2.
Proof. intros L R1 R2. eapply low_runs; [exact L|apply R1|apply R2]. Qed.

(** what a successful signing call computed *)
Lemma sign_desc_inv {T : Target} {P : Prims} (p : Params) (r : Rng) (g : rng_st r) sk mp hedged x sig :
  sign_desc p r g sk mp hedged x -> result (snd x) = Val sig ->
  exists o h, (if hedged then try_fill r g (cN p) = (h, Val o) else o = sk_pk_seed sk) /\
    sig = sign_bytes p sk o (concat mp).
Proof.
  intros [_ [V _]] E. unfold draw in V. destruct hedged.
  - destruct (try_fill r g (cN p)) as [h [b|e|q]]; cbn [snd] in V; [|congruence..].
    exists b, h. split; [reflexivity|congruence].
  - exists (sk_pk_seed sk), g. split; [reflexivity|]. cbn [snd] in V. congruence.
Qed.

(** the public view of an honest signature *)
Section View.
Context {P : Prims} (s : set_name).
Let p := param_set s.
Let HP : PF p := param_PF s.
Let hf := hf_of p.
Let HL : HLen (cN p) (cM p) hf := HASHERS_len p HP.

Lemma view_R sk o M : block s (sign_bytes p sk o M) 0 = sign_R hf sk o M.
Proof.
  pose proof (dec_enc p (sign_val p hf sk o M) (wf_n_sign_val p HP sk o M)) as D.
  apply (f_equal randomness) in D. cbn [dec_sig randomness sign_val] in D.
  unfold block. rewrite <- param_n. unfold blk in D. exact D.
Qed.

Lemma view_digest sk o M : let sig := sign_bytes p sk o M in
  Fips205.H_msg (fips_hash s) (block s sig 0) (sk_pk_seed sk) (sk_pk_root sk) M = sign_digest hf sk o M.
Proof.
  cbv zeta. rewrite <- param_hf. fold p hf.
  rewrite view_R. reflexivity.
Qed.

Lemma layer_sig_is sg j : wf_sig_n p sg -> j < cD p ->
  xsig_is p (layer_bytes s (enc_sig p sg) j) (nth (N.to_nat j) (ht_sig sg) (mkXmssSig [] [])).
Proof.
  intros W Hj. pose proof (pf_h p HP) as Hh.
  pose proof (xsig_is_dec p HP (enc_sig p sg) j Hj Hh) as X. rewrite (dec_enc p sg W) in X.
  unfold getXMSSSignature in X. rewrite (len_eq p HP) in X.
  change (n_ (fips_of p)) with (cN p) in X. change (h'_ (fips_of p)) with (cHP p) in X.
  rewrite sub_sub in X by (rewrite Hh; nia).
  unfold layer_bytes. cbv zeta.
  replace (t_n (table2 s)) with (cN p) by (first [apply param_n|symmetry; apply param_n]).
  replace (t_k (table2 s)) with (cK p) by (first [apply param_k|symmetry; apply param_k]). replace (t_a (table2 s)) with (cA p) by (first [apply param_a|symmetry; apply param_a]).
  replace (t_h' (table2 s)) with (cHP p) by (first [apply param_hp|symmetry; apply param_hp]).
  assert (HLn : cLEN p = 2 * cN p + 3) by reflexivity. rewrite HLn in X.
  match type of X with xsig_is _ (sub_bytes _ ?a ?b) _ => match goal with |- xsig_is _ (sub_bytes _ ?c ?d) _ =>
    replace c with a by lia; replace d with b by lia end end. exact X.
Qed.

Lemma view_signed sk o M : let sig := sign_bytes p sk o M in
  forall j, (j <= N.to_nat (cD p))%nat ->
  signed_value s (get_public_key sk) M sig j = layer_value p hf sk (sign_digest hf sk o M) j.
Proof.
  cbv zeta. set (sg := sign_val p hf sk o M). pose proof (wf_n_sign_val p HP sk o M) as W. fold hf in W. fold sg in W.
  set (dg := sign_digest hf sk o M).
  assert (Hdg : nlen dg = cM p) by apply (len_Hmsg _ _ _ HL).
  pose proof (dg_tree_lt p HP dg) as Ht. pose proof (dg_leaf_lt p dg) as Hlf.
  pose proof (dg_leaf_u32 p HP dg) as Hl. pose proof (md_bits p HP dg Hdg) as Hmd.
  assert (SD : sig_digest s (get_public_key sk) M (sign_bytes p sk o M) = (dg_md p dg, dg_tree p dg, dg_leaf p dg)).
  { unfold sig_digest. cbn [get_public_key pk_seed pk_root]. rewrite view_digest. rewrite <- param_fips.
    apply split_digest_eq; assumption. }
  assert (K : forall j, (j <= N.to_nat (cD p))%nat ->
    signed_value s (get_public_key sk) M (sign_bytes p sk o M) j =
    hval p hf (sk_pk_seed sk) (dg_tree p dg) (dg_leaf p dg) (fun j => nth j (ht_sig sg) (mkXmssSig [] []))
      (fpk_honest p hf (sk_pk_seed sk) (sk_seed sk) dg) j).
  { induction j as [|j IH]; intros Hj; cbn [signed_value hval].
    - unfold recovered_fors_key. rewrite SD. cbn [get_public_key pk_seed]. cbv zeta.
      rewrite zero_fl, setTree_fl, setType_fl, setKP_fl. change Fips205.FORS_TREE with 3.
      rewrite <- param_fips, <- param_hf.
      replace (t_n (table2 s)) with (cN p) by (first [apply param_n|symmetry; apply param_n]).
      replace (t_k (table2 s)) with (cK p) by (first [apply param_k|symmetry; apply param_k]). replace (t_a (table2 s)) with (cA p) by (first [apply param_a|symmetry; apply param_a]).
      fold p hf. unfold fpk_honest.
      apply fors_pkFromSig_eq; [exact HP|exact Ht|lia|exact Hmd|].
      pose proof (fsig_is_dec p (sign_bytes p sk o M)) as D. unfold sign_bytes in D. fold hf in D. fold sg in D. rewrite (dec_enc p sg W) in D. exact D.
    - unfold sig_position. rewrite SD. cbn [get_public_key pk_seed]. rewrite path_tree_at, path_leaf_at. fold p.
      rewrite Nnat.Nat2N.id. rewrite zero_fl, setLayer_fl, setTree_fl. rewrite IH by lia.
      rewrite <- param_fips, <- param_hf. fold p hf.
      pose proof (tree_at_le p (dg_tree p dg) j) as Hle.
      apply xmss_pkFromSig_eq; [exact HP|lia|apply leaf_at_lt; exact Hlf| |].
      + apply (nlen_hval p hf HL). apply nlen_fpk; assumption.
      + pose proof (layer_sig_is sg (N.of_nat j) W ltac:(lia)) as X. rewrite Nnat.Nat2N.id in X. exact X. }
  intros j Hj. rewrite (K j Hj). unfold layer_value. apply hval_hmsg. intros i Hi. apply nth_hsig. lia.
Qed.

Lemma public_view_sign sk o M :
  public_view s (get_public_key sk) M (sign_bytes p sk o M) =
  (sign_digest hf sk o M, map (layer_value p hf sk (sign_digest hf sk o M)) (seq 0 (N.to_nat (cD p)))).
Proof.
  unfold public_view. cbn [get_public_key pk_seed pk_root]. rewrite view_digest.
  apply f_equal. replace (t_d (table2 s)) with (cD p) by (first [apply param_d|symmetry; apply param_d]).
  apply map_ext_in. intros j Hj. apply in_seq in Hj. apply view_signed. lia.
Qed.
End View.

Lemma view_eq {P1 P2 : Prims} s sk1 sk2 o1 o2 M1 M2 :
  let p := param_set s in let hf1 := hf_of (PR := P1) p in let hf2 := hf_of (PR := P2) p in
  public_view (P := P1) s (get_public_key sk1) M1 (sign_bytes (P := P1) p sk1 o1 M1) =
  public_view (P := P2) s (get_public_key sk2) M2 (sign_bytes (P := P2) p sk2 o2 M2) ->
  sign_digest hf1 sk1 o1 M1 = sign_digest hf2 sk2 o2 M2 /\
  (forall j, (j < N.to_nat (cD p))%nat ->
     layer_value p hf1 sk1 (sign_digest hf1 sk1 o1 M1) j = layer_value p hf2 sk2 (sign_digest hf2 sk2 o2 M2) j).
Proof.
  cbv zeta. rewrite !public_view_sign. intros E. split; [exact (f_equal fst E)|]. intros j Hj.
  pose proof (f_equal (fun v => nth_error (snd v) j) E) as E'. cbv beta in E'. cbn [snd] in E'.
  rewrite !nth_error_map, (nth_error_nth' _ O) in E' by (rewrite seq_length; exact Hj).
  cbn [option_map] in E'. rewrite seq_nth in E' by exact Hj. cbn [Nat.add] in E'.
  exact (f_equal (fun o => match o with Some x => x | None => layer_value (param_set s) (hf_of (PR := P1) (param_set s)) sk1
           (sign_digest (hf_of (PR := P1) (param_set s)) sk1 o1 M1) j end) E').
Qed.

Section Leak.
Context {T : Target} {P1 P2 : Prims} (p : Params) (HP : PF p).
Let hf1 := hf_of (PR := P1) p.
Let hf2 := hf_of (PR := P2) p.
Let hs1 := HASHERS (P := P1) p.
Let hs2 := HASHERS (P := P2) p.

(** two signing runs that agree on the digest and on the values the layers sign *)
Definition agree (sk1 sk2 : SlhPrivateKey) (o1 o2 M1 M2 : bytes) : Prop :=
  sign_digest hf1 sk1 o1 M1 = sign_digest hf2 sk2 o2 M2 /\
  (forall j, (j < N.to_nat (cD p))%nat ->
     layer_value p hf1 sk1 (sign_digest hf1 sk1 o1 M1) j = layer_value p hf2 sk2 (sign_digest hf2 sk2 o2 M2) j).

Lemma low_sign_with_rng (r1 r2 : Rng) (g1 h1 : rng_st r1) (g2 h2 : rng_st r2) (mp1 mp2 : list bytes) (sk1 sk2 : SlhPrivateKey) (hedged : bool) (o1 o2 : bytes) :
  wf_sk p sk1 -> wf_sk p sk2 -> nlen mp1 <= 5 -> lens mp1 = lens mp2 ->
  (if hedged then try_fill r1 g1 (cN p) = (h1, Val o1) else o1 = sk_pk_seed sk1) ->
  (if hedged then try_fill r2 g2 (cN p) = (h2, Val o2) else o2 = sk_pk_seed sk2) ->
  agree sk1 sk2 o1 o2 (concat mp1) (concat mp2) ->
  low RS (snd (slh_sign_with_rng p hs1 r1 mp1 sk1 hedged g1)) (snd (slh_sign_with_rng p hs2 r2 mp2 sk2 hedged g2)).
Proof.
  intros W1 W2 Hmp El O1 O2 [EV1 EV2]. unfold slh_sign_with_rng. cbv zeta.
  assert (Lo : nlen o1 = cN p /\ nlen o2 = cN p).
  { destruct hedged.
    - split; [exact (try_fill_len _ _ _ _ _ O1)|exact (try_fill_len _ _ _ _ _ O2)].
    - subst. split; [apply W1|apply W2]. }
  apply (rlow_bind (fun x y => x = hedged /\ y = hedged)).
  { unfold rlift. cbn [snd]. eapply low_runs; [apply low_refl|reflexivity|reflexivity]. }
  intros x y [-> ->]. cbn [fst rlift].
  assert (Q1 : nlen (sk_pk_seed sk1) = cN p) by apply W1. assert (Q2 : nlen (sk_pk_seed sk2) = cN p) by apply W2.
  rewrite Q1, Q2.
  apply (rlow_bind (fun x y => x = o1 /\ y = o2)).
  { destruct hedged; [eapply low_fill; eassumption|]. subst. unfold rlift. cbn [snd]. apply low_ret. auto. }
  intros x y [-> ->]. unfold rlift. cbn [snd].
  eapply low_weaken; [apply low_sign_internal; try assumption; destruct Lo; congruence|].
  intros u v [_ K]. exact K.
Qed.

Lemma low_map_serialize (r1 r2 : Rng) (g1 : rng_st r1) (g2 : rng_st r2) (m1 : RM r1 SlhDsaSig) (m2 : RM r2 SlhDsaSig) :
  low RS (snd (m1 g1)) (snd (m2 g2)) -> low same_len (snd (map_serialize p m1 g1)) (snd (map_serialize p m2 g2)).
Proof.
  intros L. unfold map_serialize. eapply rlow_bind; [exact L|]. intros a b E. unfold rlift. cbn [snd].
  apply low_serialize. exact E.
Qed.

Lemma low_signing (r1 r2 : Rng) (g1 : rng_st r1) (g2 : rng_st r2) mp1 mp2 sk1 sk2 hedged sig1 sig2 x1 x2 :
  wf_sk p sk1 -> wf_sk p sk2 -> nlen mp1 <= 5 -> lens mp1 = lens mp2 ->
  sign_desc (P := P1) p r1 g1 sk1 mp1 hedged x1 -> sign_desc (P := P2) p r2 g2 sk2 mp2 hedged x2 ->
  result (snd x1) = Val sig1 -> result (snd x2) = Val sig2 ->
  (forall o1 o2, sig1 = sign_bytes (P := P1) p sk1 o1 (concat mp1) -> sig2 = sign_bytes (P := P2) p sk2 o2 (concat mp2) ->
     agree sk1 sk2 o1 o2 (concat mp1) (concat mp2)) ->
  low same_len (snd (map_serialize p (slh_sign_with_rng p hs1 r1 mp1 sk1 hedged) g1))
         (snd (map_serialize p (slh_sign_with_rng p hs2 r2 mp2 sk2 hedged) g2)).
Proof.
  intros W1 W2 Hmp El D1 D2 V1 V2 AG.
  destruct (sign_desc_inv _ _ _ _ _ _ _ _ D1 V1) as (o1 & h1 & O1 & S1).
  destruct (sign_desc_inv _ _ _ _ _ _ _ _ D2 V2) as (o2 & h2 & O2 & S2).
  apply low_map_serialize. eapply low_sign_with_rng; try eassumption. apply AG; assumption.
Qed.

Lemma low_keygen (r1 r2 : Rng) (g1 : rng_st r1) (g2 : rng_st r2) k1 k2 :
  call (try_keygen_with_rng (P := P1) p r1) g1 = Val k1 -> call (try_keygen_with_rng (P := P2) p r2) g2 = Val k2 ->
  low (fun _ _ => True) (snd (try_keygen_with_rng (P := P1) p r1 g1)) (snd (try_keygen_with_rng (P := P2) p r2 g2)).
Proof.
  intros V1 V2. unfold call in *.
  assert (I : forall (P : Prims) (r : Rng) (g : rng_st r) k, result (snd (try_keygen_with_rng p r g)) = Val k ->
    exists a b c h1 h2 h3, try_fill r g (cN p) = (h1, Val a) /\ try_fill r h1 (cN p) = (h2, Val b) /\
      try_fill r h2 (cN p) = (h3, Val c)).
  { clear V1 V2. intros P r g k V. pose proof (@keygen_is T P p HP r g) as D. unfold keygen_desc in D. cbv zeta in D.
    destruct (try_fill r g (cN p)) as [h1 [a|e|q]] eqn:E1; cbn [fst snd] in D; [|destruct D as [_ [D _]]; congruence..].
    destruct (try_fill r h1 (cN p)) as [h2 [b|e|q]] eqn:E2; cbn [fst snd] in D; [|destruct D as [_ [D _]]; congruence..].
    destruct (try_fill r h2 (cN p)) as [h3 [c|e|q]] eqn:E3; cbn [fst snd] in D; [|destruct D as [_ [D _]]; congruence..].
    exists a, b, c, h1, h2, h3. auto. }
  destruct (I _ _ _ _ V1) as (a1 & b1 & c1 & ga1 & gb1 & gc1 & A1 & B1 & C1).
  destruct (I _ _ _ _ V2) as (a2 & b2 & c2 & ga2 & gb2 & gc2 & A2 & B2 & C2). clear I V1 V2.
  assert (L : nlen a1 = nlen a2) by (rewrite (try_fill_len _ _ _ _ _ A1), (try_fill_len _ _ _ _ _ A2); reflexivity).
  assert (L' : nlen c1 = nlen c2) by (rewrite (try_fill_len _ _ _ _ _ C1), (try_fill_len _ _ _ _ _ C2); reflexivity).
  unfold try_keygen_with_rng, slh_keygen_with_rng.
  apply (rlow_bind RK).
  2:{ intros [sk1 pk1] [sk2 pk2] _. apply low_ret. exact I. }
  eapply rlow_bind; [eapply low_fill; eassumption|]. intros x y [-> ->].
  assert (F : forall (r : Rng) (g h : rng_st r) msg b, try_fill r g (cN p) = (h, Val b) -> fst (@fill_or r (cN p) msg g) = h)
    by (intros ? ? ? ? ? E; unfold fill_or; rewrite E; reflexivity).
  rewrite (F _ _ _ _ _ A1), (F _ _ _ _ _ A2).
  eapply rlow_bind; [eapply low_fill; eassumption|]. intros x y [-> ->].
  rewrite (F _ _ _ _ _ B1), (F _ _ _ _ _ B2).
  eapply rlow_bind; [eapply low_fill; eassumption|]. intros x y [-> ->].
  unfold rlift. cbn [snd]. apply low_keygen_internal; [apply HASHERS_low|exact L|exact L'].
Qed.

Lemma low_import bs1 bs2 : nlen bs1 = cSK_LEN p -> nlen bs2 = cSK_LEN p ->
  agreeing (proot p hf1 (sk_pk_seed (sk_of_bytes p bs1)) (sk_seed (sk_of_bytes p bs1))) (sk_pk_root (sk_of_bytes p bs1)) =
  agreeing (proot p hf2 (sk_pk_seed (sk_of_bytes p bs2)) (sk_seed (sk_of_bytes p bs2))) (sk_pk_root (sk_of_bytes p bs2)) ->
  low (fun _ _ => True) (sk_try_from_bytes (P := P1) p bs1) (sk_try_from_bytes (P := P2) p bs2).
Proof.
  intros L1 L2 C. pose proof (PF_n_range p HP) as Hn. unfold cSK_LEN in L1, L2. rewrite (pf_pk p HP) in L1, L2.
  unfold sk_try_from_bytes, cSK_LEN. rewrite (pf_pk p HP).
  rewrite !div_ok by lia. rewrite !bind_ret_l. rewrite !mul_us by lia. rewrite !bind_ret_l.
  rewrite !div_ok by lia. rewrite !bind_ret_l.
  replace (2 * cN p * 2 / 4) with (cN p) by lia.
  replace (2 * cN p * 2 / 2) with (2 * cN p) by lia.
  replace (3 * (2 * cN p * 2) / 4) with (3 * cN p) by lia.
  replace (nlen bs1) with (4 * cN p) by lia. replace (nlen bs2) with (4 * cN p) by lia.
  assert (SL : forall lo, lo + cN p <= 4 * cN p -> low (fun x y => x = sub_bytes bs1 lo (lo + cN p) /\ y = sub_bytes bs2 lo (lo + cN p))
     (slice bs1 lo (lo + cN p)) (slice bs2 lo (lo + cN p))).
  { intros lo Hlo. eapply low_runs2; [apply low_slice; lia| |]; apply runs_slice; lia. }
  assert (CP : forall a b : bytes, nlen a = cN p -> nlen b = cN p ->
     low (fun x y => x = a /\ y = b) (copy_from_slice (nrepeat x00 (cN p)) a) (copy_from_slice (nrepeat x00 (cN p)) b)).
  { intros a b Ha Hb. eapply low_runs2; [apply low_copy; [reflexivity|congruence]| |]; apply runs_copy; rewrite nlen_nrepeat; congruence. }
  assert (LN : forall (bs : bytes) lo, nlen bs = 2 * (2 * cN p) -> lo + cN p <= 4 * cN p -> nlen (sub_bytes bs lo (lo + cN p)) = cN p).
  { intros bs lo Lb Hlo. rewrite nlen_sub_bytes by lia. lia. }
  rewrite N.mul_comm in L1, L2.
  pose proof (SL 0 ltac:(lia)) as S0. pose proof (SL (cN p) ltac:(lia)) as S1. pose proof (SL (2 * cN p) ltac:(lia)) as S2.
  pose proof (SL (3 * cN p) ltac:(lia)) as S3.
  pose proof (fun bs E => LN bs 0 E ltac:(lia)) as N0. pose proof (fun bs E => LN bs (cN p) E ltac:(lia)) as N1.
  pose proof (fun bs E => LN bs (2 * cN p) E ltac:(lia)) as N2. pose proof (fun bs E => LN bs (3 * cN p) E ltac:(lia)) as N3.
  replace (0 + cN p) with (cN p) in * by lia. replace (cN p + cN p) with (2 * cN p) in * by lia.
  replace (2 * cN p + cN p) with (3 * cN p) in * by lia. replace (3 * cN p + cN p) with (4 * cN p) in * by lia.
  eapply low_bind; [exact S0|]. intros x y [-> ->]. eapply low_bind; [apply CP; apply N0; assumption|]. intros x y [-> ->].
  eapply low_bind; [exact S1|]. intros x y [-> ->]. eapply low_bind; [apply CP; apply N1; assumption|]. intros x y [-> ->].
  eapply low_bind; [exact S2|]. intros x y [-> ->]. eapply low_bind; [apply CP; apply N2; assumption|]. intros x y [-> ->].
  eapply low_bind; [exact S3|]. intros x y [-> ->]. eapply low_bind; [apply CP; apply N3; assumption|]. intros x y [-> ->].
  eapply low_bind.
  { eapply low_runs2.
    - apply low_keygen_internal; [apply HASHERS_low|rewrite !N0 by assumption; reflexivity|rewrite !N2 by assumption; reflexivity].
    - apply (runs_slh_keygen_internal p HP hs1 hf1 (HASHERS_spec p HP)).
    - apply (runs_slh_keygen_internal p HP hs2 hf2 (HASHERS_spec p HP)). }
  intros x y [-> ->]. cbv beta iota. cbn [sk_pk_root].
  unfold sk_of_bytes in C. cbn [sk_pk_root sk_seed sk_pk_seed] in C.
  eapply low_bind.
  { pose proof (nlen_proot (P := P1) p HP (sub_bytes bs1 (2 * cN p) (3 * cN p)) (sub_bytes bs1 0 (cN p))) as R1.
    pose proof (nlen_proot (P := P2) p HP (sub_bytes bs2 (2 * cN p) (3 * cN p)) (sub_bytes bs2 0 (cN p))) as R2.
    fold hf1 in R1. fold hf2 in R2.
    apply low_same_bytes;
      [exact (eq_trans (N3 bs1 L1) (eq_sym R1))|exact (eq_trans R2 (eq_sym R1))|exact (eq_trans (N3 bs2 L2) (eq_sym R1))|exact C]. }
  intros x y ->. apply low_branch. destruct (negb _); [apply low_err|apply low_ret; exact I].
Qed.

(** and the other way round: the observer tells the positions apart *)
Lemma import_apart bs1 bs2 : nlen bs1 = cSK_LEN p -> nlen bs2 = cSK_LEN p ->
  agreeing (proot p hf1 (sk_pk_seed (sk_of_bytes p bs1)) (sk_seed (sk_of_bytes p bs1))) (sk_pk_root (sk_of_bytes p bs1)) <>
  agreeing (proot p hf2 (sk_pk_seed (sk_of_bytes p bs2)) (sk_seed (sk_of_bytes p bs2))) (sk_pk_root (sk_of_bytes p bs2)) ->
  apart (sk_try_from_bytes (P := P1) p bs1) (sk_try_from_bytes (P := P2) p bs2).
Proof.
  intros L1 L2 C. pose proof (PF_n_range p HP) as Hn. unfold cSK_LEN in L1, L2. rewrite (pf_pk p HP) in L1, L2.
  unfold sk_try_from_bytes, cSK_LEN. rewrite (pf_pk p HP).
  rewrite !div_ok by lia. rewrite !bind_ret_l. rewrite !mul_us by lia. rewrite !bind_ret_l.
  rewrite !div_ok by lia. rewrite !bind_ret_l.
  replace (2 * cN p * 2 / 4) with (cN p) by lia.
  replace (2 * cN p * 2 / 2) with (2 * cN p) by lia.
  replace (3 * (2 * cN p * 2) / 4) with (3 * cN p) by lia.
  replace (nlen bs1) with (4 * cN p) by lia. replace (nlen bs2) with (4 * cN p) by lia.
  assert (SL : forall lo k1 k2, lo + cN p <= 4 * cN p ->
     apart (B := SlhPrivateKey) (k1 (sub_bytes bs1 lo (lo + cN p))) (k2 (sub_bytes bs2 lo (lo + cN p))) ->
     apart (bind (slice bs1 lo (lo + cN p)) k1) (bind (slice bs2 lo (lo + cN p)) k2)).
  { intros lo k1 k2 Hlo. eapply apart_bind; [apply low_slice; lia| |]; apply runs_slice; lia. }
  assert (CP : forall (a b : bytes) k1 k2, nlen a = cN p -> nlen b = cN p -> apart (B := SlhPrivateKey) (k1 a) (k2 b) ->
     apart (bind (copy_from_slice (nrepeat x00 (cN p)) a) k1) (bind (copy_from_slice (nrepeat x00 (cN p)) b) k2)).
  { intros a b k1 k2 Ha Hb. eapply apart_bind; [apply low_copy; [reflexivity|congruence]| |]; apply runs_copy; rewrite nlen_nrepeat; congruence. }
  assert (LN : forall (bs : bytes) lo, nlen bs = 2 * (2 * cN p) -> lo + cN p <= 4 * cN p -> nlen (sub_bytes bs lo (lo + cN p)) = cN p).
  { intros bs lo Lb Hlo. rewrite nlen_sub_bytes by lia. lia. }
  rewrite N.mul_comm in L1, L2.
  pose proof (fun k1 k2 => SL 0 k1 k2 ltac:(lia)) as S0. pose proof (fun k1 k2 => SL (cN p) k1 k2 ltac:(lia)) as S1. pose proof (fun k1 k2 => SL (2 * cN p) k1 k2 ltac:(lia)) as S2.
  pose proof (fun k1 k2 => SL (3 * cN p) k1 k2 ltac:(lia)) as S3.
  pose proof (fun bs E => LN bs 0 E ltac:(lia)) as N0. pose proof (fun bs E => LN bs (cN p) E ltac:(lia)) as N1.
  pose proof (fun bs E => LN bs (2 * cN p) E ltac:(lia)) as N2. pose proof (fun bs E => LN bs (3 * cN p) E ltac:(lia)) as N3.
  replace (0 + cN p) with (cN p) in * by lia. replace (cN p + cN p) with (2 * cN p) in * by lia.
  replace (2 * cN p + cN p) with (3 * cN p) in * by lia. replace (3 * cN p + cN p) with (4 * cN p) in * by lia.
  apply S0. apply CP; [apply N0; assumption..|].
  apply S1. apply CP; [apply N1; assumption..|].
  apply S2. apply CP; [apply N2; assumption..|].
  apply S3. apply CP; [apply N3; assumption..|].
  eapply apart_bind.
  { apply low_keygen_internal; [apply HASHERS_low|rewrite !N0 by assumption; reflexivity|rewrite !N2 by assumption; reflexivity]. }
  { apply (runs_slh_keygen_internal p HP hs1 hf1 (HASHERS_spec p HP)). }
  { apply (runs_slh_keygen_internal p HP hs2 hf2 (HASHERS_spec p HP)). }
  cbv beta iota. cbn [sk_pk_root].
  unfold sk_of_bytes in C. cbn [sk_pk_root sk_seed sk_pk_seed] in C.
  pose proof (nlen_proot (P := P1) p HP (sub_bytes bs1 (2 * cN p) (3 * cN p)) (sub_bytes bs1 0 (cN p))) as R1.
  pose proof (nlen_proot (P := P2) p HP (sub_bytes bs2 (2 * cN p) (3 * cN p)) (sub_bytes bs2 0 (cN p))) as R2.
  fold hf1 in R1. fold hf2 in R2.
  apply apart_same_bytes;
    [exact (eq_trans (N3 bs1 L1) (eq_sym R1))|exact (eq_trans R2 (eq_sym R1))|exact (eq_trans (N3 bs2 L2) (eq_sym R1))|exact C].
Qed.
End Leak.

Section Leak2.
Context {T : Target} {P1 P2 : Prims} (s : set_name).
Let p := param_set s.
Let HP : PF p := param_PF s.

Lemma low_raw_sign (r1 r2 : Rng) (g1 : rng_st r1) (g2 : rng_st r2) m1 m2 sk1 sk2 hedged sig1 sig2 :
  wf_sk p sk1 -> wf_sk p sk2 -> nlen m1 = nlen m2 ->
  call (raw_sign (P := P1) p r1 sk1 m1 hedged) g1 = Val sig1 ->
  call (raw_sign (P := P2) p r2 sk2 m2 hedged) g2 = Val sig2 ->
  public_view (P := P1) s (get_public_key sk1) m1 sig1 = public_view (P := P2) s (get_public_key sk2) m2 sig2 ->
  low same_len (snd (raw_sign (P := P1) p r1 sk1 m1 hedged g1)) (snd (raw_sign (P := P2) p r2 sk2 m2 hedged g2)).
Proof.
  intros W1 W2 Em V1 V2 EV. unfold call in *.
  destruct (sign_desc_inv _ _ _ _ _ _ _ _ (raw_sign_desc (P := P1) p HP g1 sk1 m1 hedged W1) V1) as (o1 & h1 & O1 & S1).
  destruct (sign_desc_inv _ _ _ _ _ _ _ _ (raw_sign_desc (P := P2) p HP g2 sk2 m2 hedged W2) V2) as (o2 & h2 & O2 & S2).
  clear V1 V2. subst sig1 sig2.
  assert (C : forall m : bytes, concat [m] = m) by (intros m; apply app_nil_r).
  assert (EV' : public_view (P := P1) s (get_public_key sk1) (concat [m1]) (sign_bytes (P := P1) p sk1 o1 (concat [m1])) =
    public_view (P := P2) s (get_public_key sk2) (concat [m2]) (sign_bytes (P := P2) p sk2 o2 (concat [m2])))
    by (rewrite !C in *; exact EV).
  clear EV. rename EV' into EV.
  apply view_eq in EV. destruct EV as [EV1 EV2].
  unfold raw_sign. cbv zeta.
  assert (Lo : nlen o1 = cN p /\ nlen o2 = cN p).
  { destruct hedged.
    - split; [exact (try_fill_len _ _ _ _ _ O1)|exact (try_fill_len _ _ _ _ _ O2)].
    - subst. split; [apply W1|apply W2]. }
  apply (rlow_bind (fun x y => x = hedged /\ y = hedged)).
  { unfold rlift. cbn [snd]. eapply low_runs; [apply low_refl|reflexivity|reflexivity]. }
  intros x y [-> ->]. cbn [fst rlift].
  assert (Q1 : nlen (sk_pk_seed sk1) = cN p) by apply W1. assert (Q2 : nlen (sk_pk_seed sk2) = cN p) by apply W2.
  rewrite Q1, Q2.
  apply (rlow_bind (fun x y => x = o1 /\ y = o2)).
  { destruct hedged; [eapply low_fill; eassumption|]. subst. unfold rlift. cbn [snd]. apply low_ret. auto. }
  intros x y [-> ->]. apply low_map_serialize. unfold rlift. cbn [snd].
  eapply low_weaken; [apply low_sign_internal; try eassumption; [destruct Lo; congruence|discriminate|]|].
  - unfold lens. cbn [map]. rewrite Em. reflexivity.
  - intros u v [_ K]. exact K.
Qed.

Lemma low_try_sign (r1 r2 : Rng) (g1 : rng_st r1) (g2 : rng_st r2) m1 m2 ctx1 ctx2 sk1 sk2 hedged sig1 sig2 :
  wf_sk p sk1 -> wf_sk p sk2 -> nlen m1 = nlen m2 -> nlen ctx1 = nlen ctx2 ->
  call (try_sign_with_rng (P := P1) p r1 sk1 m1 ctx1 hedged) g1 = Val sig1 ->
  call (try_sign_with_rng (P := P2) p r2 sk2 m2 ctx2 hedged) g2 = Val sig2 ->
  public_view (P := P1) s (get_public_key sk1) (Fips205.pure_M' m1 ctx1) sig1 =
  public_view (P := P2) s (get_public_key sk2) (Fips205.pure_M' m2 ctx2) sig2 ->
  low same_len (snd (try_sign_with_rng (P := P1) p r1 sk1 m1 ctx1 hedged g1))
    (snd (try_sign_with_rng (P := P2) p r2 sk2 m2 ctx2 hedged g2)).
Proof.
  intros W1 W2 Em Ec V1 V2 EV. unfold call in *.
  destruct (N.le_gt_cases (nlen ctx1) 255) as [Hc|Hc].
  2:{ destruct (rerrs_try_sign_ctx (P := P1) p sk1 m1 ctx1 hedged g1 Hc) as [_ [X _]]. congruence. }
  assert (Hc2 : nlen ctx2 <= 255) by (rewrite <- Ec; exact Hc).
  pose proof (try_sign_desc (P := P1) p HP g1 sk1 m1 ctx1 hedged W1 Hc) as D1.
  pose proof (try_sign_desc (P := P2) p HP g2 sk2 m2 ctx2 hedged W2 Hc2) as D2.
  assert (L : low same_len (snd (map_serialize p (slh_sign_with_rng p (HASHERS (P := P1) p) r1 (pure_pieces m1 ctx1) sk1 hedged) g1))
         (snd (map_serialize p (slh_sign_with_rng p (HASHERS (P := P2) p) r2 (pure_pieces m2 ctx2) sk2 hedged) g2))).
  { eapply low_signing; [exact HP|exact W1|exact W2|discriminate| |exact D1|exact D2|exact V1|exact V2|].
    - unfold lens, pure_pieces. cbn [map]. rewrite Em, Ec. reflexivity.
    - intros o1 o2 S1 S2. rewrite S1, S2 in EV. rewrite <- !pure_pieces_M' in EV. apply view_eq in EV. exact EV. }
  unfold try_sign_with_rng. rewrite <- Ec.
  apply (rlow_bind eq). { unfold rlift. cbn [snd]. apply low_refl. }
  intros a b <-. cbn [fst rlift]. destruct a; [unfold rlift; cbn [snd]; apply low_err|].
  unfold pure_pieces in L. exact L.
Qed.

Lemma low_hash_message m1 m2 ph buf :
  low (fun _ _ => True) (hash_message (P := P1) m1 ph buf) (hash_message (P := P2) m2 ph buf).
Proof.
  unfold hash_message. cbv zeta.
  destruct ph; (eapply low_bind; [first [apply low_copy_into|apply low_copy]; [reflexivity|];
     rewrite ?sha256_len, ?sha512_len, ?shake128_len, ?shake256_len; reflexivity|]; intros; apply low_ret; exact I).
Qed.

Lemma low_try_hash_sign (r1 r2 : Rng) (g1 : rng_st r1) (g2 : rng_st r2) m1 m2 ctx1 ctx2 ph sk1 sk2 hedged sig1 sig2 :
  wf_sk p sk1 -> wf_sk p sk2 -> nlen ctx1 = nlen ctx2 ->
  call (try_hash_sign_with_rng (P := P1) p r1 sk1 m1 ctx1 (ph_arg ph) hedged) g1 = Val sig1 ->
  call (try_hash_sign_with_rng (P := P2) p r2 sk2 m2 ctx2 (ph_arg ph) hedged) g2 = Val sig2 ->
  public_view (P := P1) s (get_public_key sk1) (Fips205.hash_M' (fst (PH_fn (PR := P1) ph m1)) (snd (PH_fn (PR := P1) ph m1)) ctx1) sig1 =
  public_view (P := P2) s (get_public_key sk2) (Fips205.hash_M' (fst (PH_fn (PR := P2) ph m2)) (snd (PH_fn (PR := P2) ph m2)) ctx2) sig2 ->
  low same_len (snd (try_hash_sign_with_rng (P := P1) p r1 sk1 m1 ctx1 (ph_arg ph) hedged g1))
     (snd (try_hash_sign_with_rng (P := P2) p r2 sk2 m2 ctx2 (ph_arg ph) hedged g2)).
Proof.
  intros W1 W2 Ec V1 V2 EV. unfold call in *.
  destruct (N.le_gt_cases (nlen ctx1) 255) as [Hc|Hc].
  2:{ destruct (rerrs_try_hash_sign_ctx (P := P1) p sk1 m1 ctx1 (ph_arg ph) hedged g1 Hc) as [_ [X _]]. congruence. }
  assert (Hc2 : nlen ctx2 <= 255) by (rewrite <- Ec; exact Hc).
  pose proof (try_hash_sign_desc (P := P1) p HP g1 sk1 m1 ctx1 (ph_arg ph) hedged W1 Hc) as D1.
  pose proof (try_hash_sign_desc (P := P2) p HP g2 sk2 m2 ctx2 (ph_arg ph) hedged W2 Hc2) as D2.
  assert (L : low same_len (snd (map_serialize p (slh_sign_with_rng p (HASHERS (P := P1) p) r1 (hash_pieces (P := P1) m1 ctx1 (ph_arg ph)) sk1 hedged) g1))
         (snd (map_serialize p (slh_sign_with_rng p (HASHERS (P := P2) p) r2 (hash_pieces (P := P2) m2 ctx2 (ph_arg ph)) sk2 hedged) g2))).
  { eapply low_signing; [exact HP|exact W1|exact W2|discriminate| |exact D1|exact D2|exact V1|exact V2|].
    - unfold lens, hash_pieces. cbn [map]. rewrite Ec, !ph_digest_len. reflexivity.
    - intros o1 o2 S1 S2. rewrite S1, S2 in EV. rewrite <- !hash_pieces_M' in EV. apply view_eq in EV. exact EV. }
  unfold try_hash_sign_with_rng. rewrite <- Ec.
  apply (rlow_bind eq). { unfold rlift. cbn [snd]. apply low_refl. }
  intros a b <-. cbn [fst rlift]. destruct a; [unfold rlift; cbn [snd]; apply low_err|]. cbv zeta.
  eapply rlow_bind. { unfold rlift. cbn [snd]. eapply low_runs2; [apply low_hash_message|apply (runs_hash_message p)..]. }
  intros a b [-> ->]. cbv beta iota. cbn [fst rlift].
  eapply rlow_bind.
  { unfold rlift. cbn [snd]. eapply low_runs2; [apply low_slice|apply runs_ph_slice..].
    destruct ph; cbn [ph_arg ph_buf]; rewrite ?nlen_app, !ph_digest_len; reflexivity. }
  intros a b [-> ->]. cbn [fst rlift].
  unfold hash_pieces in L. exact L.
Qed.

Lemma low_sk_into_bytes sk1 sk2 : wf_sk p sk1 -> wf_sk p sk2 ->
  low (fun _ _ => True) (sk_into_bytes p sk1) (sk_into_bytes p sk2).
Proof.
  intros (A1 & B1 & C1 & D1) (A2 & B2 & C2 & D2). unfold sk_into_bytes. cbv zeta.
  repeat (apply low_same; intros ?).
  eapply low_bind; [apply low_copy_into; [reflexivity|congruence]|]. intros x y E.
  eapply low_bind; [apply low_copy_into; [exact E|congruence]|]. intros x' y' E'.
  eapply low_bind; [apply low_copy_into; [exact E'|congruence]|]. intros x'' y'' E''. rewrite E''.
  eapply low_weaken; [apply low_copy_into; [exact E''|congruence]|]. auto.
Qed.
End Leak2.

(** *** C30 *)
Lemma prop_keygen_leaks_nothing :
  forall (T : Target) (P1 P2 : Prims) (s : set_name),
    (forall (r1 r2 : Rng) (g1 : rng_st r1) (g2 : rng_st r2) key1 key2,
       call (try_keygen_with_rng (P := P1) (param_set s) r1) g1 = Val key1 ->
       call (try_keygen_with_rng (P := P2) (param_set s) r2) g2 = Val key2 ->
       leakage (trace_of (try_keygen_with_rng (P := P1) (param_set s) r1) g1) =
       leakage (trace_of (try_keygen_with_rng (P := P2) (param_set s) r2) g2)) /\
    (forall a1 b1 c1 a2 b2 c2 : bytes,
       Forall (fun x => nlen x = seed_bytes s) [a1; b1; c1; a2; b2; c2] ->
       leakage (trace (keygen_with_seeds (P := P1) (param_set s) a1 b1 c1)) =
       leakage (trace (keygen_with_seeds (P := P2) (param_set s) a2 b2 c2))).
Proof.
  intros T P1 P2 s. assert (K : forall (r1 r2 : Rng) (g1 : rng_st r1) (g2 : rng_st r2) key1 key2,
       call (try_keygen_with_rng (P := P1) (param_set s) r1) g1 = Val key1 ->
       call (try_keygen_with_rng (P := P2) (param_set s) r2) g2 = Val key2 ->
       leakage (trace_of (try_keygen_with_rng (P := P1) (param_set s) r1) g1) =
       leakage (trace_of (try_keygen_with_rng (P := P2) (param_set s) r2) g2)).
  { intros r1 r2 g1 g2 k1 k2 V1 V2. exact (proj1 (low_keygen _ (param_PF s) _ _ _ _ _ _ V1 V2)). }
  split; [exact K|]. intros a1 b1 c1 a2 b2 c2 F. rewrite <- param_n in F.
  repeat match goal with F : Forall _ (_ :: _) |- _ => inversion_clear F as [|? ? ?L F']; rename F' into F end.
  assert (X : forall (P : Prims) a b c, nlen a = cN (param_set s) -> nlen b = cN (param_set s) -> nlen c = cN (param_set s) ->
    trace (keygen_with_seeds (param_set s) a b c) = trace_of (try_keygen_with_rng (param_set s) DummyRng) ([a; b; c], 0) /\
    exists k, call (try_keygen_with_rng (param_set s) DummyRng) ([a; b; c], 0) = Val k).
  { intros P a b c La Lb Lc. destruct (runs_keygen_with_seeds _ (param_PF s) a b c La Lb Lc) as [V _].
    unfold trace_of, call, keygen_with_seeds, expect, result, trace in *.
    destruct (snd (try_keygen_with_rng (param_set s) DummyRng ([a; b; c], 0))) as [t [k|e|q]]; cbn [fst snd] in *;
      [split; [reflexivity|]; exists k; reflexivity|discriminate..]. }
  destruct (X P1 a1 b1 c1) as [-> [k1 V1]]; [assumption..|]. destruct (X P2 a2 b2 c2) as [-> [k2 V2]]; [assumption..|].
  exact (K _ _ _ _ _ _ V1 V2).
Qed.

(** *** C31 *)
Lemma prop_signing_leakage_is_public :
  forall (T : Target) (P1 P2 : Prims) (s : set_name) (sk1 sk2 : SlhPrivateKey) (r1 r2 : Rng)
         (g1 : rng_st r1) (g2 : rng_st r2) (hedged : bool) (sig1 sig2 : bytes),
    sk_typed s sk1 -> sk_typed s sk2 ->
    (forall m1 m2 ctx1 ctx2, nlen m1 = nlen m2 -> nlen ctx1 = nlen ctx2 ->
       call (try_sign_with_rng (P := P1) (param_set s) r1 sk1 m1 ctx1 hedged) g1 = Val sig1 ->
       call (try_sign_with_rng (P := P2) (param_set s) r2 sk2 m2 ctx2 hedged) g2 = Val sig2 ->
       public_view (P := P1) s (get_public_key sk1) (Fips205.pure_M' m1 ctx1) sig1 =
       public_view (P := P2) s (get_public_key sk2) (Fips205.pure_M' m2 ctx2) sig2 ->
       leakage (trace_of (try_sign_with_rng (P := P1) (param_set s) r1 sk1 m1 ctx1 hedged) g1) =
       leakage (trace_of (try_sign_with_rng (P := P2) (param_set s) r2 sk2 m2 ctx2 hedged) g2)) /\
    (forall m1 m2 ctx1 ctx2 ph, nlen m1 = nlen m2 -> nlen ctx1 = nlen ctx2 ->
       call (try_hash_sign_with_rng (P := P1) (param_set s) r1 sk1 m1 ctx1 (ph_arg ph) hedged) g1 = Val sig1 ->
       call (try_hash_sign_with_rng (P := P2) (param_set s) r2 sk2 m2 ctx2 (ph_arg ph) hedged) g2 = Val sig2 ->
       public_view (P := P1) s (get_public_key sk1)
         (Fips205.hash_M' (fst (PH_fn (PR := P1) ph m1)) (snd (PH_fn (PR := P1) ph m1)) ctx1) sig1 =
       public_view (P := P2) s (get_public_key sk2)
         (Fips205.hash_M' (fst (PH_fn (PR := P2) ph m2)) (snd (PH_fn (PR := P2) ph m2)) ctx2) sig2 ->
       leakage (trace_of (try_hash_sign_with_rng (P := P1) (param_set s) r1 sk1 m1 ctx1 (ph_arg ph) hedged) g1) =
       leakage (trace_of (try_hash_sign_with_rng (P := P2) (param_set s) r2 sk2 m2 ctx2 (ph_arg ph) hedged) g2)) /\
    (forall m1 m2, nlen m1 = nlen m2 ->
       call (raw_sign (P := P1) (param_set s) r1 sk1 m1 hedged) g1 = Val sig1 ->
       call (raw_sign (P := P2) (param_set s) r2 sk2 m2 hedged) g2 = Val sig2 ->
       public_view (P := P1) s (get_public_key sk1) m1 sig1 =
       public_view (P := P2) s (get_public_key sk2) m2 sig2 ->
       leakage (trace_of (raw_sign (P := P1) (param_set s) r1 sk1 m1 hedged) g1) =
       leakage (trace_of (raw_sign (P := P2) (param_set s) r2 sk2 m2 hedged) g2)).
Proof.
  intros T P1 P2 s sk1 sk2 r1 r2 g1 g2 hedged sig1 sig2 W1 W2. apply typed_sk in W1. apply typed_sk in W2.
  split; [|split].
  - intros. eapply (low_try_sign s); eassumption.
  - intros. eapply (low_try_hash_sign s); eassumption.
  - intros. eapply (low_raw_sign s); eassumption.
Qed.

Lemma prop_signing_leaks_only_public :
  forall (T : Target) (P : Prims) (s : set_name) (sk1 sk2 : SlhPrivateKey) (r1 r2 : Rng)
         (g1 : rng_st r1) (g2 : rng_st r2) (hedged : bool) (sig : bytes),
    sk_typed s sk1 -> sk_typed s sk2 -> get_public_key sk1 = get_public_key sk2 ->
    (forall m ctx,
       call (try_sign_with_rng (param_set s) r1 sk1 m ctx hedged) g1 = Val sig ->
       call (try_sign_with_rng (param_set s) r2 sk2 m ctx hedged) g2 = Val sig ->
       leakage (trace_of (try_sign_with_rng (param_set s) r1 sk1 m ctx hedged) g1) =
       leakage (trace_of (try_sign_with_rng (param_set s) r2 sk2 m ctx hedged) g2)) /\
    (forall m ctx ph,
       call (try_hash_sign_with_rng (param_set s) r1 sk1 m ctx ph hedged) g1 = Val sig ->
       call (try_hash_sign_with_rng (param_set s) r2 sk2 m ctx ph hedged) g2 = Val sig ->
       leakage (trace_of (try_hash_sign_with_rng (param_set s) r1 sk1 m ctx ph hedged) g1) =
       leakage (trace_of (try_hash_sign_with_rng (param_set s) r2 sk2 m ctx ph hedged) g2)) /\
    (forall m,
       call (raw_sign (param_set s) r1 sk1 m hedged) g1 = Val sig ->
       call (raw_sign (param_set s) r2 sk2 m hedged) g2 = Val sig ->
       leakage (trace_of (raw_sign (param_set s) r1 sk1 m hedged) g1) =
       leakage (trace_of (raw_sign (param_set s) r2 sk2 m hedged) g2)).
Proof.
  intros T P s sk1 sk2 r1 r2 g1 g2 hedged sig W1 W2 EP.
  destruct (prop_signing_leakage_is_public T P P s sk1 sk2 r1 r2 g1 g2 hedged sig sig W1 W2) as (A & B & C).
  split; [|split].
  - intros m ctx V1 V2. apply A; [reflexivity|reflexivity|exact V1|exact V2|]. rewrite EP. reflexivity.
  - intros m ctx ph V1 V2. assert (K : exists q, ph = ph_arg q)
      by (destruct ph; [exists PH_SHA256|exists PH_SHA512|exists PH_SHAKE128|exists PH_SHAKE256]; reflexivity).
    destruct K as [q ->]. apply B; [reflexivity|reflexivity|exact V1|exact V2|]. rewrite EP. reflexivity.
  - intros m V1 V2. apply C; [reflexivity|exact V1|exact V2|]. rewrite EP. reflexivity.
Qed.

(** *** C51 *)
Lemma agreeing_root_eq {T : Target} {P : Prims} s bs : nlen bs = sk_size s ->
  agreeing_root_bytes s bs =
  agreeing (proot (param_set s) (hf_of (param_set s)) (sk_pk_seed (sk_of_bytes (param_set s) bs))
              (sk_seed (sk_of_bytes (param_set s) bs)))
    (sk_pk_root (sk_of_bytes (param_set s) bs)).
Proof.
  intros L. rewrite <- param_sk in L. pose proof (wf_sk_of_bytes _ (param_PF s) bs L) as (_ & _ & W & _).
  unfold agreeing_root_bytes. cbv zeta. rewrite fips_keygen_eq. rewrite <- param_n.
  set (b := sub_bytes bs (cN (param_set s)) (2 * cN (param_set s))). clearbody b.
  unfold sk_of_bytes in *. cbn [sk_pk_root sk_seed sk_pk_seed] in *.
  set (c := sub_bytes bs (2 * _) (3 * _)) in *. clearbody c.
  unfold pk_bytes, key_of. cbn [fst pk_seed pk_root].
  set (r := proot _ _ _ _).
  assert (Lr : nlen r = cN (param_set s)) by apply (nlen_proot _ (param_PF s)).
  clearbody r. apply f_equal2; [|reflexivity].
  rewrite sub_bytes_app_r by (rewrite W; lia). rewrite W.
  replace (cN (param_set s) - cN (param_set s)) with 0 by lia.
  replace (2 * cN (param_set s) - cN (param_set s)) with (nlen r) by lia. apply sub_bytes_all.
Qed.

Lemma prop_import_export_leak_only_validity :
  forall (T : Target) (P1 P2 : Prims) (s : set_name),
    (forall bs1 bs2, nlen bs1 = sk_size s -> nlen bs2 = sk_size s ->
       (** both accepted, *)
       (ok (result (sk_try_from_bytes (P := P1) (param_set s) bs1)) <> None /\
        ok (result (sk_try_from_bytes (P := P2) (param_set s) bs2)) <> None) \/
       (** or the stored root differs from the right one at the same position *)
       agreeing_root_bytes (P := P1) s bs1 = agreeing_root_bytes (P := P2) s bs2 <->
       leakage (trace (sk_try_from_bytes (P := P1) (param_set s) bs1)) =
       leakage (trace (sk_try_from_bytes (P := P2) (param_set s) bs2))) /\
    (forall sk1 sk2, sk_typed s sk1 -> sk_typed s sk2 ->
       leakage (trace (sk_into_bytes (param_set s) sk1)) =
       leakage (trace (sk_into_bytes (param_set s) sk2))).
Proof.
  intros T P1 P2 s. pose proof (param_PF s) as HP. split.
  - intros bs1 bs2 L1 L2. split.
    2:{ intros E. right. rewrite (agreeing_root_eq (P := P1) s _ L1), (agreeing_root_eq (P := P2) s _ L2).
        rewrite <- param_sk in L1, L2.
        match goal with |- ?a = ?b => destruct (N.eq_dec a b) as [Q|Q] end; [exact Q|].
        exfalso. exact (import_apart _ HP _ _ L1 L2 Q E). }
    intros E. rewrite (agreeing_root_eq (P := P1) s _ L1), (agreeing_root_eq (P := P2) s _ L2) in E.
    rewrite <- param_sk in L1, L2.
    refine (proj1 (low_import _ HP _ _ L1 L2 _)).
    destruct E as [[E1 E2]|E]; [|exact E].
    destruct (import_total (P := P1) _ HP _ L1) as [[V1 C1]|[V1 C1]]; [|rewrite V1 in E1; exfalso; apply E1; reflexivity].
    destruct (import_total (P := P2) _ HP _ L2) as [[V2 C2]|[V2 C2]]; [|rewrite V2 in E2; exfalso; apply E2; reflexivity].
    unfold consistent in C1, C2. rewrite <- C1, <- C2, !agreeing_refl. rewrite !(proj2 (proj2 (proj2 (wf_sk_of_bytes _ HP _ L1)))).
    symmetry. apply (wf_sk_of_bytes _ HP _ L2).
  - intros sk1 sk2 W1 W2. exact (proj1 (low_sk_into_bytes _ _ _ (typed_sk _ _ W1) (typed_sk _ _ W2))).
Qed.
