(** C65: the secret seeds reach the outputs only through PRF and PRF_msg. *)
From Verif Require Import Spec.Fips205 Spec.Fips205Hash.
From Verif Require Import Model.Api Proof.Facts Proof.HelpersP Proof.SpecP Proof.HashP Proof.Fun Proof.WotsP Proof.SlhP Proof.SerP Proof.ApiP
  Proof.SpecFun Spec.Vocab Proof.Summary Proof.CallsP Proof.TopCorrect Proof.TopSer Proof.Honest Proof.TopKeys
  Proof.TopFips Proof.TopSafety Proof.TopRandom Spec.VocabPrf.
Import ListNotations.
Open Scope list_scope.
Open Scope N_scope.

(** *** Addresses *)
Lemma sub_sub (l : bytes) k : 20 <= k -> sub_bytes (sub_bytes l 0 k) 16 20 = sub_bytes l 16 20.
Proof.
  intros K. unfold sub_bytes. rewrite N.sub_0_r. cbn [skipn N.to_nat]. rewrite skipn_firstn_comm, firstn_firstn.
  f_equal. lia.
Qed.

Lemma sub_app (x y : bytes) : 20 <= nlen x -> sub_bytes (x ++ y) 16 20 = sub_bytes x 16 20.
Proof.
  intros K. unfold sub_bytes, nlen in *. rewrite skipn_app.
  replace (N.to_nat 16 - length x)%nat with 0%nat by lia. cbn [skipn]. rewrite firstn_app.
  replace (_ - _)%nat with 0%nat by (rewrite skipn_length; lia). rewrite firstn_O, app_nil_r. reflexivity.
Qed.

Lemma nlen_toByte x k : nlen (toByte x k) = k.
Proof. rewrite toByte_be. unfold nlen. rewrite length_be_bytes. lia. Qed.

Ltac lens := repeat rewrite nlen_app; repeat (rewrite nlen_sub_bytes by lia); rewrite ?nlen_toByte; lia.

Lemma l32_layer A l : nlen A = 32 -> nlen (setLayerAddress A l) = 32. Proof. intros L. unfold setLayerAddress. lens. Qed.
Lemma l32_tree A l : nlen A = 32 -> nlen (setTreeAddress A l) = 32. Proof. intros L. unfold setTreeAddress. lens. Qed.
Lemma l32_type A l : nlen A = 32 -> nlen (setTypeAndClear A l) = 32. Proof. intros L. unfold setTypeAndClear. lens. Qed.
Lemma l32_kp A l : nlen A = 32 -> nlen (setKeyPairAddress A l) = 32. Proof. intros L. unfold setKeyPairAddress. lens. Qed.
Lemma l32_chain A l : nlen A = 32 -> nlen (setChainAddress A l) = 32. Proof. intros L. unfold setChainAddress. lens. Qed.
Lemma l32_index A l : nlen A = 32 -> nlen (setTreeIndex A l) = 32. Proof. intros L. unfold setTreeIndex. lens. Qed.

Lemma type_type A y : nlen A = 32 -> sub_bytes (setTypeAndClear A y) 16 20 = toByte y 4.
Proof.
  intros L. unfold setTypeAndClear. rewrite app_assoc. rewrite sub_app by lens.
  assert (L16 : nlen (sub_bytes A 0 16) = 16) by lens.
  rewrite sub_bytes_app_r, L16 by lia. change (16 - 16) with 0. change (20 - 16) with 4.
  pose proof (nlen_toByte y 4) as L4. rewrite <- L4 at 2. apply sub_bytes_all.
Qed.
Lemma type_kp A i : nlen A = 32 -> sub_bytes (setKeyPairAddress A i) 16 20 = sub_bytes A 16 20.
Proof. intros L. unfold setKeyPairAddress. rewrite sub_app by lens. apply sub_sub. lia. Qed.
Lemma type_chain A i : nlen A = 32 -> sub_bytes (setChainAddress A i) 16 20 = sub_bytes A 16 20.
Proof. intros L. unfold setChainAddress. rewrite sub_app by lens. apply sub_sub. lia. Qed.
Lemma type_index A i : nlen A = 32 -> sub_bytes (setTreeIndex A i) 16 20 = sub_bytes A 16 20.
Proof. intros L. unfold setTreeIndex. rewrite sub_app by lens. apply sub_sub. lia. Qed.

Lemma prf_chain A i : prf_address A -> prf_address (setChainAddress A i).
Proof. intros [L T]. split; [apply l32_chain; exact L|]. rewrite type_chain by exact L. exact T. Qed.
Lemma prf_wots A i : nlen A = 32 -> prf_address (setKeyPairAddress (setTypeAndClear A WOTS_PRF) i).
Proof.
  intros L. pose proof (l32_type A WOTS_PRF L) as L2. split; [apply l32_kp; exact L2|].
  left. rewrite type_kp by exact L2. apply type_type. exact L.
Qed.
Lemma prf_fors A i j : nlen A = 32 -> prf_address (setTreeIndex (setKeyPairAddress (setTypeAndClear A FORS_PRF) i) j).
Proof.
  intros L. pose proof (l32_type A FORS_PRF L) as L2. pose proof (l32_kp _ i L2) as L3. split; [apply l32_index; exact L3|].
  right. rewrite type_index by exact L3. rewrite type_kp by exact L2. apply type_type. exact L.
Qed.

(** *** Loops with equal bodies *)
Lemma for_same {S} (I : S -> Prop) (f g : N -> S -> S) lo hi s0 :
  I s0 -> (forall i st, I st -> f i st = g i st /\ I (g i st)) ->
  for_ lo hi f s0 = for_ lo hi g s0 /\ I (for_ lo hi g s0).
Proof.
  intros I0 K. unfold for_. generalize (nseq lo (N.to_nat (hi - lo))) as l. intros l. revert s0 I0.
  induction l as [|i l IH]; intros s0 I0; cbn [fold_left]; [split; [reflexivity|exact I0]|].
  destruct (K i s0 I0) as [-> I1]. apply IH. exact I1.
Qed.

Lemma for_ext {S} (f g : N -> S -> S) lo hi s0 :
  (forall i st, f i st = g i st) -> for_ lo hi f s0 = for_ lo hi g s0.
Proof. intros K. apply (for_same (fun _ => True)); [exact I|]. intros i st _. split; [apply K|exact I]. Qed.

Section Same.
Context (p : FipsParams) (H1 H2 : HashFns) (sk1 sk2 pks : bytes).
Hypothesis EF : F H1 = F H2.
Hypothesis EH : H H1 = H H2.
Hypothesis ET : T_l H1 = T_l H2.
Hypothesis EP : forall A, prf_address A -> PRF H1 pks sk1 A = PRF H2 pks sk2 A.

Lemma chain_same X i s A : Fips205.chain H1 X i s pks A = Fips205.chain H2 X i s pks A.
Proof. unfold Fips205.chain. rewrite EF. reflexivity. Qed.

Lemma pkgen_same A : nlen A = 32 -> Fips205.wots_pkGen p H1 sk1 pks A = Fips205.wots_pkGen p H2 sk2 pks A.
Proof.
  intros L. unfold Fips205.wots_pkGen. rewrite ET.
  match goal with |- context [for_ 0 ?n ?f ?s] => match goal with |- _ = ?R => match R with context [for_ 0 n ?g s] =>
    rewrite (proj1 (for_same (fun st => prf_address (snd st)) f g 0 n s (prf_wots _ _ L) ltac:(
      intros i [[tmp B] C] Q; cbn [snd] in Q |- *; pose proof (prf_chain C i Q) as Q2;
      split; [rewrite (EP _ Q2), chain_same; reflexivity|exact Q2]))) end end end.
  reflexivity.
Qed.

Lemma wsign_same M A : nlen A = 32 -> Fips205.wots_sign p H1 M sk1 pks A = Fips205.wots_sign p H2 M sk2 pks A.
Proof.
  intros L. unfold Fips205.wots_sign.
  match goal with |- context [for_ 0 ?n ?f ?s] => match goal with |- _ = ?R => match R with context [for_ 0 n ?g s] =>
    rewrite (proj1 (for_same (fun st => prf_address (snd st)) f g 0 n s (prf_wots _ _ L) ltac:(
      intros i [[tmp B] C] Q; cbn [snd] in Q |- *; pose proof (prf_chain C i Q) as Q2;
      split; [rewrite (EP _ Q2), chain_same; reflexivity|exact Q2]))) end end end.
  reflexivity.
Qed.

Lemma wfrom_same sg M A : Fips205.wots_pkFromSig p H1 sg M pks A = Fips205.wots_pkFromSig p H2 sg M pks A.
Proof.
  unfold Fips205.wots_pkFromSig. rewrite ET.
  match goal with |- context [for_ 0 ?n ?f ?s] => match goal with |- _ = ?R => match R with context [for_ 0 n ?g s] =>
    rewrite (for_ext f g 0 n s ltac:(intros i [tmp B]; rewrite chain_same; reflexivity)) end end end.
  reflexivity.
Qed.

Lemma node_same z : forall i A, nlen A = 32 -> Fips205.xmss_node p H1 sk1 i z pks A = Fips205.xmss_node p H2 sk2 i z pks A.
Proof.
  induction z as [|z IH]; intros i A L; cbn [Fips205.xmss_node].
  - apply pkgen_same. apply l32_kp, l32_type, L.
  - rewrite EH, !IH by exact L. reflexivity.
Qed.

Lemma xsign_same M i A : nlen A = 32 -> Fips205.xmss_sign p H1 M sk1 i pks A = Fips205.xmss_sign p H2 M sk2 i pks A.
Proof.
  intros L. unfold Fips205.xmss_sign. rewrite wsign_same by (apply l32_kp, l32_type, L). do 2 f_equal.
  apply for_ext. intros j st. rewrite node_same by exact L. reflexivity.
Qed.

Lemma xfrom_same i sg M A : Fips205.xmss_pkFromSig p H1 i sg M pks A = Fips205.xmss_pkFromSig p H2 i sg M pks A.
Proof. unfold Fips205.xmss_pkFromSig. rewrite wfrom_same, EH. reflexivity. Qed.

Lemma ht_same M t l : Fips205.ht_sign p H1 M sk1 pks t l = Fips205.ht_sign p H2 M sk2 pks t l.
Proof.
  unfold Fips205.ht_sign. assert (L : nlen (setTreeAddress (toByte 0 32) t) = 32) by apply l32_tree, nlen_toByte.
  rewrite xsign_same by exact L. rewrite xfrom_same.
  match goal with |- context [for_ 1 ?n ?f ?s] => match goal with |- _ = ?R => match R with context [for_ 1 n ?g s] =>
    rewrite (proj1 (for_same (fun st => nlen (snd (fst st)) = 32) f g 1 n s L ltac:(
      intros j [[[sg rt] B] u] Q; cbn [fst snd] in Q |- *;
      pose proof (l32_tree (setLayerAddress B j) (u / 2 ^ h'_ p) (l32_layer _ j Q)) as Q2;
      split; [rewrite xsign_same by exact Q2; rewrite xfrom_same; reflexivity|exact Q2]))) end end end.
  reflexivity.
Qed.

Lemma skgen_same A i : nlen A = 32 -> Fips205.fors_skGen H1 sk1 pks A i = Fips205.fors_skGen H2 sk2 pks A i.
Proof. intros L. unfold Fips205.fors_skGen. apply EP. apply prf_fors. exact L. Qed.

Lemma fnode_same z : forall i A, nlen A = 32 -> Fips205.fors_node H1 sk1 i z pks A = Fips205.fors_node H2 sk2 i z pks A.
Proof.
  induction z as [|z IH]; intros i A L; cbn [Fips205.fors_node].
  - rewrite EF, skgen_same by exact L. reflexivity.
  - rewrite EH, !IH by exact L. reflexivity.
Qed.

Lemma fsign_same md A : nlen A = 32 -> Fips205.fors_sign p H1 md sk1 pks A = Fips205.fors_sign p H2 md sk2 pks A.
Proof.
  intros L. unfold Fips205.fors_sign. apply for_ext. intros i st. rewrite skgen_same by exact L. do 2 f_equal.
  apply for_ext. intros j au. rewrite fnode_same by exact L. reflexivity.
Qed.

Lemma ffrom_same sg md A : Fips205.fors_pkFromSig p H1 sg md pks A = Fips205.fors_pkFromSig p H2 sg md pks A.
Proof. unfold Fips205.fors_pkFromSig. rewrite ET, EF, EH. reflexivity. Qed.
End Same.

Lemma sign_internal_same p H1 H2 M SK1 SK2 addrnd :
  F H1 = F H2 -> H H1 = H H2 -> T_l H1 = T_l H2 -> H_msg H1 = H_msg H2 ->
  SK_PKseed p SK1 = SK_PKseed p SK2 -> SK_PKroot p SK1 = SK_PKroot p SK2 ->
  (forall A, prf_address A -> PRF H1 (SK_PKseed p SK1) (SK_seed p SK1) A = PRF H2 (SK_PKseed p SK2) (SK_seed p SK2) A) ->
  (forall opt, PRF_msg H1 (SK_prf p SK1) opt M = PRF_msg H2 (SK_prf p SK2) opt M) ->
  Fips205.slh_sign_internal p H1 M SK1 addrnd = Fips205.slh_sign_internal p H2 M SK2 addrnd.
Proof.
  intros EF EH ET EM ES ER EP EPM. unfold Fips205.slh_sign_internal. rewrite EPM, EM, ER, ES. rewrite ES in EP.
  destruct (split_digest _ _) as [[md t] l].
  assert (L : nlen (setKeyPairAddress (setTypeAndClear (setTreeAddress (toByte 0 32) t) FORS_TREE) l) = 32)
    by (apply l32_kp, l32_type, l32_tree, nlen_toByte).
  rewrite (fsign_same p H1 H2 _ _ _ EF EH EP _ _ L).
  rewrite (ffrom_same p H1 H2 _ EF EH ET).
  rewrite (ht_same p H1 H2 _ _ _ EF EH ET EP). reflexivity.
Qed.

(** *** The code *)
Section Code.
Context {T : Target} {P : Prims} (s : set_name).
Notation p := (param_set s).
Let HP : PF p := param_PF s.

Lemma nlen_blank : nlen (blank s) = seed_bytes s.
Proof. apply nlen_toByte. Qed.

Lemma parts (a b c d : bytes) :
  let n := seed_bytes s in nlen a = n -> nlen b = n -> nlen c = n -> nlen d = n ->
  SK_seed (fips_params s) (a ++ b ++ c ++ d) = a /\ SK_prf (fips_params s) (a ++ b ++ c ++ d) = b /\
  SK_PKseed (fips_params s) (a ++ b ++ c ++ d) = c /\ SK_PKroot (fips_params s) (a ++ b ++ c ++ d) = d.
Proof.
  intros n La Lb Lc Ld. unfold SK_seed, SK_prf, SK_PKseed, SK_PKroot.
  assert (En : n_ (fips_params s) = n) by (destruct s; reflexivity). rewrite En. clearbody n.
  assert (Q : forall (x y : bytes) k, nlen x = n -> sub_bytes (x ++ y) ((k + 1) * n) ((k + 2) * n) = sub_bytes y (k * n) ((k + 1) * n)).
  { intros x y k L. rewrite sub_bytes_app_r by nia. rewrite L. f_equal; nia. }
  assert (Z : forall x y : bytes, nlen x = n -> sub_bytes (x ++ y) (0 * n) ((0 + 1) * n) = x).
  { intros x y L. change (0 * n) with 0. replace ((0 + 1) * n) with (nlen x) by lia. apply sub_bytes_prefix. }
  split; [|split; [|split]].
  - rewrite <- (Z a (b ++ c ++ d) La) at 2. f_equal; lia.
  - rewrite <- (Z b (c ++ d) Lb) at 2. rewrite <- (Q a _ 0 La). f_equal; lia.
  - rewrite <- (Z c d Lc) at 2. rewrite <- (Q b _ 0 Lb). change (0 + 1) with 1. rewrite <- (Q a _ 1 La). f_equal; lia.
  - rewrite <- (Z d [] Ld) at 2. rewrite app_nil_r. rewrite <- (Q c _ 0 Lc). change (0 + 1) with 1. rewrite <- (Q b _ 1 Lb).
    change (1 + 1) with 2. rewrite <- (Q a _ 2 La). f_equal; lia.
Qed.

Lemma internal_ask sk SK M addrnd :
  sk_typed s sk -> result (sk_into_bytes p sk) = Val SK ->
  Fips205.slh_sign_internal (fips_params s) (fips_hash s) M SK addrnd =
  Fips205.slh_sign_internal (fips_params s) (ask s (prf_of s sk) (prf_msg_of s sk)) M (without_secrets s sk) addrnd.
Proof.
  intros W E. destruct (sk_bytes_of _ _ _ W E) as [-> _].
  destruct (typed_sk _ _ W) as (W1 & W2 & W3 & W4). rewrite param_n in W1, W2, W3, W4.
  unfold sk_bytes, without_secrets.
  destruct (parts _ _ _ _ W1 W2 W3 W4) as (A1 & A2 & A3 & A4).
  destruct (parts _ _ _ _ nlen_blank nlen_blank W3 W4) as (B1 & B2 & B3 & B4).
  apply sign_internal_same; try reflexivity.
  - rewrite A3, B3. reflexivity.
  - rewrite A4, B4. reflexivity.
  - intros A _. rewrite A3, A1. reflexivity.
  - intros opt. rewrite A2. reflexivity.
Qed.
End Code.

Lemma ask_len {P : Prims} s o om :
  (forall A, nlen (o A) = seed_bytes s) -> (forall r M, nlen (om r M) = seed_bytes s) ->
  HLen (cN (param_set s)) (cM (param_set s)) (ask s o om).
Proof.
  intros L1 L2. pose proof (HLs s) as [HF HH HT _ _ HM]. rewrite <- param_n in L1, L2.
  rewrite param_hf in HF, HH, HT, HM.
  split; intros; cbn; auto.
Qed.

Lemma verify_val_ask {P : Prims} s o om pk sg M :
  verify_val (param_set s) (ask s o om) pk sg M = verify_val (param_set s) (fips_hash s) pk sg M.
Proof. reflexivity. Qed.

Lemma prop_secrets_only_through_prf :
  forall (T : Target) (P : Prims) (s : set_name),
    let keygen o om := Fips205.slh_keygen_internal (fips_params s) (ask s o om) (blank s) (blank s) in
    let sign o om := Fips205.slh_sign_internal (fips_params s) (ask s o om) in
    (** the public key and the signatures of the code are those computed from the answers *)
    (forall pk sk om, key_pair s pk sk -> snd (keygen (prf_of s sk) om (pk_seed pk)) = pk_seed pk ++ pk_root pk) /\
    (forall sk (r : Rng) (g : rng_st r) m ctx ph hedged, sk_typed s sk ->
       let HF := ask s (prf_of s sk) (prf_msg_of s sk) in
       ok (call (try_sign_with_rng (param_set s) r sk m ctx hedged) g) =
         Fips205.slh_sign (fips_params s) HF m ctx (without_secrets s sk) (addrnd s r g hedged) /\
       ok (call (try_hash_sign_with_rng (param_set s) r sk m ctx (ph_arg ph) hedged) g) =
         Fips205.hash_slh_sign (fips_params s) HF m ctx (PH_fn ph) (without_secrets s sk) (addrnd s r g hedged) /\
       ok (call (raw_sign (param_set s) r sk m hedged) g) =
         match addrnd s r g hedged with
         | Some None => None
         | Some (Some b) => Some (sign (prf_of s sk) (prf_msg_of s sk) m (without_secrets s sk) (Some b))
         | None => Some (sign (prf_of s sk) (prf_msg_of s sk) m (without_secrets s sk) None)
         end) /\
    (** only addresses of the PRF types are asked for *)
    (forall o1 o2 om, (forall ADRS, prf_address ADRS -> o1 ADRS = o2 ADRS) ->
       (forall PKseed, keygen o1 om PKseed = keygen o2 om PKseed) /\
       (forall M' SK rnd, sign o1 om M' SK rnd = sign o2 om M' SK rnd)) /\
    (** whatever the answers are, the code accepts the signatures computed from them *)
    (forall o om PKseed, (forall ADRS, nlen (o ADRS) = seed_bytes s) -> (forall r M', nlen (om r M') = seed_bytes s) ->
       nlen PKseed = seed_bytes s ->
       let (SK, PK) := keygen o om PKseed in
       exists pk, result (pk_try_from_bytes (param_set s) PK) = Val pk /\
         forall M' rnd, nlen (sign o om M' SK rnd) = sig_size s /\
           result (raw_verify (param_set s) pk M' (sign o om M' SK rnd)) = Val true).
Proof.
  intros T P s keygen sign. pose proof (param_PF s) as HP. split; [|split; [|split]].
  - intros pk sk om K. destruct (key_pair_facts _ _ _ K) as [W [C ->]]. cbn [get_public_key pk_seed pk_root].
    unfold keygen, Fips205.slh_keygen_internal. cbn [snd]. f_equal.
    unfold consistent in C. rewrite C. rewrite param_hf.
    pose proof (f_equal snd (keygen_eq _ HP (fips_hash s) (sk_seed sk) (sk_prf sk) (sk_pk_seed sk))) as E.
    unfold Fips205.slh_keygen_internal in E. cbn [snd] in E. apply app_inv_head in E. rewrite <- E. rewrite param_fips.
    apply node_same; try reflexivity. 
  - intros sk r g m ctx ph hedged W HF.
    destruct (proj1 (proj1 (proj2 (prop_output_sizes T P s)) sk W)) as [SK [E _]].
    rewrite (prop_sign_is_fips T P s r g sk SK m ctx hedged W E).
    rewrite (prop_hash_sign_is_fips T P s r g sk SK m ctx ph hedged W E).
    rewrite (prop_raw_sign_is_fips T P s r g sk SK m hedged W E).
    unfold Fips205.slh_sign, Fips205.hash_slh_sign, sign, HF. destruct (PH_fn ph m) as [oid d].
    rewrite !(internal_ask s sk SK _ _ W E).
    split; [|split]; (destruct (255 <? nlen ctx) || idtac); destruct (addrnd s r g hedged) as [[b|]|];
      rewrite ?(internal_ask s sk SK _ _ W E); reflexivity.
  - intros o1 o2 om E. split.
    + intros PKseed. unfold keygen, Fips205.slh_keygen_internal.
      rewrite (node_same (fips_params s) (ask s o1 om) (ask s o2 om) (blank s) (blank s) PKseed eq_refl eq_refl eq_refl E _ _ _ (l32_layer _ _ (nlen_toByte 0 32))).
      reflexivity.
    + intros M' SK rnd. unfold sign. apply sign_internal_same; try reflexivity. exact E.
  - intros o om c L1 L2 Lc. pose proof (ask_len s o om L1 L2) as HL. unfold keygen. rewrite <- param_fips, (keygen_eq _ HP).
    set (root := proot _ _ _ _).
    assert (Lr : nlen root = cN (param_set s)).
    { unfold root, proot, xnode. apply nlen_mnode; intros; [apply (len_T _ _ _ HL)|apply (len_H _ _ _ HL)]. }
    pose proof (nlen_blank s) as Lb. rewrite <- param_n in Lb, Lc.
    set (sk := mkSk (blank s) (blank s) c root).
    assert (W : wf_sk (param_set s) sk) by (repeat split; assumption).
    assert (LS : nlen (sk_bytes sk) = cSK_LEN (param_set s)) by (apply nlen_sk_bytes; assumption).
    exists (mkPk c root). split.
    + assert (Lp : nlen (c ++ root) = cPK_LEN (param_set s)) by (rewrite (pf_pk _ HP), nlen_app; lia).
      rewrite (proj1 (runs_pk_try_from_bytes _ HP _ Lp)). f_equal. f_equal.
      * rewrite <- Lc. apply sub_bytes_prefix.
      * rewrite sub_bytes_app_r by lia. rewrite Lc, N.sub_diag.
        replace (2 * cN (param_set s) - cN (param_set s)) with (nlen root) by lia. apply sub_bytes_all.
    + intros M' rnd. unfold sign. rewrite <- param_fips.
      change (blank s ++ blank s ++ c ++ root) with (sk_bytes sk).
      rewrite (sign_eq _ HP _ HL _ _ rnd LS). cbv zeta. rewrite (sk_of_bytes_bytes _ _ W).
      set (opt := match rnd with Some _ => _ | None => _ end).
      pose proof (wf_n_sign_val' _ _ HL sk opt M') as Wn.
      assert (Ls : nlen (enc_sig (param_set s) (sign_val (param_set s) (ask s o om) sk opt M')) = cSIG_LEN (param_set s))
        by (apply nlen_enc_sig; assumption).
      split; [rewrite <- param_sig; exact Ls|].
      rewrite (proj1 (runs_raw_verify _ HP (mkPk c root) M' _ Ls)). rewrite dec_enc by assumption.
      rewrite param_hf. rewrite <- (verify_val_ask s o om). f_equal.
      unfold verify_val. apply bytes_eqb_eq. cbn [pk_seed pk_root].
      change (verify_digest (ask s o om) (mkPk c root) (sign_val (param_set s) (ask s o om) sk opt M') M')
        with (sign_digest (ask s o om) sk opt M').
      unfold sign_val. cbv zeta. rewrite vroot_honest by exact HP. reflexivity.
Qed.
