(** Leakage of WOTS+, XMSS, FORS and key generation. *)
From Verif Require Import Machine Model.Api Spec.VocabLeak Proof.Runs Proof.HelpersP Proof.Low Proof.LowHash.

Section LowTree.
Context {T : Target} (p : Params) (hs1 hs2 : Hashers) (HL : HLow hs1 hs2).

Lemma low_chain x1 x2 i s ps1 ps2 a : nlen x1 = nlen x2 -> nlen ps1 = nlen ps2 ->
  low same_len (chain hs1 x1 i s ps1 a) (chain hs2 x2 i s ps2 a).
Proof.
  intros Ex Ep. unfold chain. apply low_same; intros _. apply low_same; intros e.
  apply (low_bind (fun u v => nlen (fst u) = nlen (fst v) /\ snd u = snd v)).
  - apply (low_for_range (fun u v => nlen (fst u) = nlen (fst v) /\ snd u = snd v)); [|split; [exact Ex|reflexivity]].
    intros j [t1 a1] [t2 a2] _ [E1 E2]. cbn [fst snd] in *. subst a2. cbv zeta.
    eapply low_bind; [apply (low_f _ _ HL); assumption|]. intros u v E. apply low_ret. split; [exact E|reflexivity].
  - intros [u1 a1] [u2 a2] [E _]. apply low_ret. exact E.
Qed.

Definition RW (u v : list bytes * Adrs * Adrs) : Prop :=
  lens (fst (fst u)) = lens (fst (fst v)) /\ snd (fst u) = snd (fst v) /\ snd u = snd v.

Lemma low_wots_pkgen ss1 ss2 ps1 ps2 a : nlen ss1 = nlen ss2 -> nlen ps1 = nlen ps2 ->
  low same_len (wots_pkgen p hs1 ss1 ps1 a) (wots_pkgen p hs2 ss2 ps2 a).
Proof.
  intros Es Ep. unfold wots_pkgen. apply low_same; intros l32. cbv zeta.
  apply (low_bind RW).
  - apply (low_for_range RW); [|split; [|split]; reflexivity].
    intros i [[t1 a1] b1] [[t2 a2] b2] _ (E1 & E2 & E3). cbn [fst snd] in E1, E2, E3. subst a2 b2. cbv zeta.
    eapply low_bind; [apply (low_prf _ _ HL); assumption|]. intros k1 k2 Ek. apply low_same; intros w.
    eapply low_bind; [apply low_chain; assumption|]. intros v1 v2 Ev.
    eapply low_bind; [apply low_upd; [exact E1|exact Ev]|]. intros u1 u2 Eu.
    apply low_ret. split; [exact Eu|split; reflexivity].
  - intros [[t1 a1] b1] [[t2 a2] b2] (E1 & E2 & E3). cbn [fst snd] in E1, E2, E3. subst a2 b2.
    apply (low_tl _ _ HL); assumption.
Qed.

Lemma low_wots_sign m ss1 ss2 ps1 ps2 a : nlen ss1 = nlen ss2 -> nlen ps1 = nlen ps2 ->
  low (fun u v => lens u = lens v) (wots_sign p hs1 m ss1 ps1 a) (wots_sign p hs2 m ss2 ps2 a).
Proof.
  intros Es Ep. unfold wots_sign. cbv zeta. apply low_same; intros msg.
  apply (low_bind RW).
  - apply (low_for_range RW); [|split; [|split]; reflexivity].
    intros i [[t1 a1] b1] [[t2 a2] b2] _ (E1 & E2 & E3). cbn [fst snd] in E1, E2, E3. subst a2 b2.
    apply low_same; intros item. cbv zeta.
    eapply low_bind; [apply (low_prf _ _ HL); assumption|]. intros k1 k2 Ek.
    eapply low_bind; [apply low_chain; assumption|]. intros v1 v2 Ev.
    eapply low_bind; [apply low_upd; [exact E1|exact Ev]|]. intros u1 u2 Eu.
    apply low_ret. split; [exact Eu|split; reflexivity].
  - intros [[t1 a1] b1] [[t2 a2] b2] (E1 & _ & _). apply low_ret. exact E1.
Qed.

Lemma low_xmss_node fuel : forall ss1 ss2 i z ps1 ps2 a, nlen ss1 = nlen ss2 -> nlen ps1 = nlen ps2 ->
  low same_len (xmss_node_fuel p hs1 fuel ss1 i z ps1 a) (xmss_node_fuel p hs2 fuel ss2 i z ps2 a).
Proof.
  induction fuel as [|fuel IH]; intros ss1 ss2 i z ps1 ps2 a Es Ep; cbn [xmss_node_fuel]; [apply low_panic|].
  apply low_branch. destruct (z =? 0).
  - cbv zeta. apply low_wots_pkgen; assumption.
  - apply low_same; intros i2. apply low_same; intros z1.
    eapply low_bind; [apply IH; assumption|]. intros l1 l2 El.
    apply low_same; intros i2'. apply low_same; intros i21. apply low_same; intros z1'.
    eapply low_bind; [apply IH; assumption|]. intros r1 r2 Er. cbv zeta.
    apply (low_h _ _ HL); assumption.
Qed.

Definition RX (u v : XmssSig) : Prop := lens (sig_wots u) = lens (sig_wots v) /\ lens (xmss_auth u) = lens (xmss_auth v).

Lemma low_xmss_sign m ss1 ss2 idx ps1 ps2 a : nlen ss1 = nlen ss2 -> nlen ps1 = nlen ps2 ->
  low RX (xmss_sign p hs1 m ss1 idx ps1 a) (xmss_sign p hs2 m ss2 idx ps2 a).
Proof.
  intros Es Ep. unfold xmss_sign. apply low_same; intros hp. cbv zeta.
  apply (low_bind (fun u v => lens u = lens v)).
  - apply low_for_range; [|reflexivity]. intros j u v _ E. apply low_same; intros s.
    eapply low_bind; [apply low_xmss_node; assumption|]. intros x y Exy. apply low_upd; assumption.
  - intros u v Eu. eapply low_bind; [apply low_wots_sign; assumption|]. intros x y Ex.
    apply low_ret. split; assumption.
Qed.

Lemma low_fors_sk_gen ss1 ss2 ps1 ps2 a idx : nlen ss1 = nlen ss2 -> nlen ps1 = nlen ps2 ->
  low same_len (fors_sk_gen hs1 ss1 ps1 a idx) (fors_sk_gen hs2 ss2 ps2 a idx).
Proof. intros Es Ep. unfold fors_sk_gen. cbv zeta. apply (low_prf _ _ HL); assumption. Qed.

Lemma low_fors_node fuel : forall ss1 ss2 i z ps1 ps2 a, nlen ss1 = nlen ss2 -> nlen ps1 = nlen ps2 ->
  low same_len (fors_node_fuel hs1 fuel ss1 i z ps1 a) (fors_node_fuel hs2 fuel ss2 i z ps2 a).
Proof.
  induction fuel as [|fuel IH]; intros ss1 ss2 i z ps1 ps2 a Es Ep; cbn [fors_node_fuel]; [apply low_panic|].
  apply low_branch. destruct (z =? 0).
  - eapply low_bind; [apply low_fors_sk_gen; assumption|]. intros x y E. cbv zeta. apply (low_f _ _ HL); assumption.
  - apply low_same; intros i2. apply low_same; intros z1.
    eapply low_bind; [apply IH; assumption|]. intros l1 l2 El.
    apply low_same; intros i2'. apply low_same; intros i21. apply low_same; intros z1'.
    eapply low_bind; [apply IH; assumption|]. intros r1 r2 Er. cbv zeta.
    apply (low_h _ _ HL); assumption.
Qed.

Definition RF (u v : ForsSig) : Prop :=
  lens (private_key_value u) = lens (private_key_value v) /\ map lens (fors_auth u) = map lens (fors_auth v).

Lemma low_index_ll (l1 l2 : list (list bytes)) i : map lens l1 = map lens l2 ->
  low (fun a b => lens a = lens b) (index l1 i) (index l2 i).
Proof.
  intros E. assert (E3 : nlen l1 = nlen l2) by (apply (f_equal (@nlen _)) in E; rewrite !nlen_map in E; exact E).
  unfold index. apply low_tick; [cbn; rewrite E3; reflexivity|].
  assert (K : option_map lens (nth_error l1 (N.to_nat i)) = option_map lens (nth_error l2 (N.to_nat i))).
  { rewrite <- !nth_error_map, E. reflexivity. }
  destruct (nth_error l1 _), (nth_error l2 _); cbn in K; try discriminate; [|apply low_panic].
  apply low_ret. congruence.
Qed.
Lemma low_upd_ll (l1 l2 : list (list bytes)) i v1 v2 : map lens l1 = map lens l2 -> lens v1 = lens v2 ->
  low (fun a b => map lens a = map lens b) (upd l1 i v1) (upd l2 i v2).
Proof.
  intros E1 E2. assert (E3 : nlen l1 = nlen l2) by (apply (f_equal (@nlen _)) in E1; rewrite !nlen_map in E1; exact E1).
  unfold upd. apply low_tick; [cbn; rewrite E3; reflexivity|].
  rewrite E3. destruct (i <? nlen l2); [|apply low_panic]. apply low_ret. unfold upd_list in *.
  rewrite !map_app. cbn [map]. rewrite <- !firstn_map, <- !skipn_map, E1, E2. reflexivity.
Qed.

Lemma low_fors_sign md ss1 ss2 ps1 ps2 a : nlen ss1 = nlen ss2 -> nlen ps1 = nlen ps2 ->
  low RF (fors_sign p hs1 md ss1 a ps1) (fors_sign p hs2 md ss2 a ps2).
Proof.
  intros Es Ep. unfold fors_sign. apply low_same; intros a32. apply low_same; intros k32. cbv zeta.
  apply low_same; intros ind. apply (low_for_range RF); [|split; reflexivity].
  intros i u v _ [E1 E2]. apply low_same; intros s. apply low_same; intros ix. apply low_same; intros g.
  eapply low_bind; [apply low_fors_sk_gen; assumption|]. intros k1 k2 Ek.
  eapply low_bind; [apply low_upd; [exact E1|exact Ek]|]. intros pk1 pk2 Epk.
  apply (low_for_range RF); [|split; [exact Epk|exact E2]].
  intros j u' v' _ [E1' E2']. apply low_same; intros ix'. apply low_same; intros sx. apply low_same; intros aj.
  apply low_same; intros si. apply low_same; intros g'.
  eapply low_bind; [apply low_fors_node; assumption|]. intros n1 n2 En.
  eapply low_bind; [apply low_index_ll; exact E2'|]. intros t1 t2 Et.
  eapply low_bind; [apply low_upd; [exact Et|exact En]|]. intros t1' t2' Et'.
  eapply low_bind; [apply low_upd_ll; [exact E2'|exact Et']|]. intros w1 w2 Ew.
  apply low_ret. split; [exact E1'|exact Ew].
Qed.

Definition RK (u v : SlhPrivateKey * SlhPublicKey) : Prop := nlen (sk_pk_root (fst u)) = nlen (sk_pk_root (fst v)).

Lemma low_keygen_internal a1 a2 b1 b2 c1 c2 : nlen a1 = nlen a2 -> nlen c1 = nlen c2 ->
  low RK (slh_keygen_internal p hs1 a1 b1 c1) (slh_keygen_internal p hs2 a2 b2 c2).
Proof.
  intros Ea Ec. unfold slh_keygen_internal. apply low_same; intros d32. apply low_same; intros hp. cbv zeta.
  apply low_same; intros d1. eapply low_bind; [apply low_xmss_node; assumption|]. intros r1 r2 Er.
  apply low_ret. exact Er.
Qed.
Lemma low_wots_pk_from_sig s1 s2 m ps1 ps2 a : lens s1 = lens s2 -> nlen ps1 = nlen ps2 ->
  low same_len (wots_pk_from_sig p hs1 s1 m ps1 a) (wots_pk_from_sig p hs2 s2 m ps2 a).
Proof.
  intros Es Ep. unfold wots_pk_from_sig. cbv zeta. apply low_same; intros msg.
  set (R := fun u v : list bytes * Adrs => lens (fst u) = lens (fst v) /\ snd u = snd v).
  apply (low_bind R).
  - apply (low_for_range R); [|split; reflexivity].
    intros i [t1 a1] [t2 a2] _ [E1 E2]. cbn [fst snd] in E1, E2. subst a2. cbv zeta.
    eapply low_bind; [apply low_index; exact Es|]. intros x1 x2 Ex.
    apply low_same; intros mi. apply low_same; intros w. apply low_same; intros st.
    eapply low_bind; [apply low_chain; assumption|]. intros v1 v2 Ev.
    eapply low_bind; [apply low_upd; [exact E1|exact Ev]|]. intros u1 u2 Eu.
    apply low_ret. split; [exact Eu|reflexivity].
  - intros [t1 a1] [t2 a2] [E1 E2]. cbn [fst snd] in E1, E2. subst a2. apply (low_tl _ _ HL); assumption.
Qed.

(** one step of the climb from a leaf to a root, in XMSS and FORS verification *)
Definition RN (u v : bytes * Adrs) : Prop := nlen (fst u) = nlen (fst v) /\ snd u = snd v.

Lemma low_xmss_pk_from_sig idx s1 s2 m ps1 ps2 a : RX s1 s2 -> nlen ps1 = nlen ps2 ->
  low same_len (xmss_pk_from_sig p hs1 idx s1 m ps1 a) (xmss_pk_from_sig p hs2 idx s2 m ps2 a).
Proof.
  intros [Ew Ea] Ep. unfold xmss_pk_from_sig. apply low_same; intros hp. cbv zeta.
  eapply low_bind; [apply low_wots_pk_from_sig; assumption|]. intros n1 n2 En.
  apply (low_bind RN).
  - apply (low_for_range RN); [|split; [exact En|reflexivity]].
    intros k [u1 a1] [u2 a2] _ [E1 E2]. cbn [fst snd] in E1, E2. subst a2. apply low_same; intros k1. cbv zeta.
    apply low_same; intros s. apply low_branch. destruct (_ =? 0).
    + apply low_same; intros t. eapply low_bind; [apply low_index; exact Ea|]. intros x y Ex.
      eapply low_bind; [apply (low_h _ _ HL); assumption|]. intros v1 v2 Ev. apply low_ret. split; [exact Ev|reflexivity].
    + apply low_same; intros t1. apply low_same; intros t. eapply low_bind; [apply low_index; exact Ea|]. intros x y Ex.
      eapply low_bind; [apply (low_h _ _ HL); assumption|]. intros v1 v2 Ev. apply low_ret. split; [exact Ev|reflexivity].
  - intros [u1 a1] [u2 a2] [E1 _]. apply low_ret. exact E1.
Qed.

Lemma low_fors_pk_from_sig s1 s2 md ps1 ps2 a : RF s1 s2 -> nlen ps1 = nlen ps2 ->
  low same_len (fors_pk_from_sig p hs1 s1 md ps1 a) (fors_pk_from_sig p hs2 s2 md ps2 a).
Proof.
  intros [Ek Ea] Ep. unfold fors_pk_from_sig. apply low_same; intros a32. apply low_same; intros k32. cbv zeta.
  apply low_same; intros ind.
  set (R := fun u v : list bytes * Adrs => lens (fst u) = lens (fst v) /\ snd u = snd v).
  apply (low_bind R).
  - apply (low_for_range R); [|split; reflexivity].
    intros i [t1 a1] [t2 a2] _ [E1 E2]. cbn [fst snd] in E1, E2. subst a2.
    eapply low_bind; [apply low_index; exact Ek|]. intros k1 k2 Ekk. cbv zeta.
    apply low_same; intros s. apply low_same; intros ix. apply low_same; intros g.
    eapply low_bind; [apply (low_f _ _ HL); assumption|]. intros n1 n2 En.
    eapply low_bind; [apply low_index_ll; exact Ea|]. intros au1 au2 Eau.
    apply (low_bind RN).
    + apply (low_for_range RN); [|split; [exact En|reflexivity]].
      intros j [u1 b1] [u2 b2] _ [F1 F2]. cbn [fst snd] in F1, F2. subst b2. apply low_same; intros j1. cbv zeta.
      apply low_same; intros ix'. apply low_same; intros s'. apply low_branch. destruct (_ =? 0).
      * apply low_same; intros t. eapply low_bind; [apply low_index; exact Eau|]. intros x y Ex.
        eapply low_bind; [apply (low_h _ _ HL); assumption|]. intros v1 v2 Ev. apply low_ret. split; [exact Ev|reflexivity].
      * apply low_same; intros t. apply low_same; intros t'. eapply low_bind; [apply low_index; exact Eau|]. intros x y Ex.
        eapply low_bind; [apply (low_h _ _ HL); assumption|]. intros v1 v2 Ev. apply low_ret. split; [exact Ev|reflexivity].
    + intros [u1 b1] [u2 b2] [F1 F2]. cbn [fst snd] in F1, F2. subst b2.
      eapply low_bind; [apply low_upd; [exact E1|exact F1]|]. intros w1 w2 Ew. apply low_ret. split; [exact Ew|reflexivity].
  - intros [t1 a1] [t2 a2] [E1 E2]. cbn [fst snd] in E1, E2. subst a2. apply (low_tlen _ _ HL); assumption.
Qed.

(** serialisation of the signature *)
Lemma low_put (u v : bytes * N) x y : nlen (fst u) = nlen (fst v) -> snd u = snd v -> nlen x = nlen y ->
  low (fun u v => nlen (fst u) = nlen (fst v) /\ snd u = snd v) (put p u x) (put p v y).
Proof.
  destruct u as [u i], v as [v j]. cbn [fst snd]. intros E1 <- Exy. unfold put. cbv zeta. apply low_same; intros e.
  eapply low_bind; [apply low_copy_into; [exact E1|exact Exy]|]. intros w1 w2 Ew. apply low_same; intros s.
  apply low_ret. split; [exact Ew|reflexivity].
Qed.

Lemma low_index_rx (l1 l2 : list XmssSig) i : Forall2 RX l1 l2 -> low RX (index l1 i) (index l2 i).
Proof.
  intros F. assert (E3 : nlen l1 = nlen l2) by (clear - F; induction F; [reflexivity|rewrite !nlen_cons; congruence]).
  unfold index. apply low_tick; [cbn; rewrite E3; reflexivity|].
  generalize (N.to_nat i) as k. clear - F. induction F as [|x y l1 l2 Hxy F IH]; intros [|k]; cbn [nth_error];
    [apply low_panic|apply low_panic|apply low_ret; exact Hxy|apply IH].
Qed.

Definition RS (u v : SlhDsaSig) : Prop :=
  nlen (randomness u) = nlen (randomness v) /\ RF (fors_sig u) (fors_sig v) /\ Forall2 RX (ht_sig u) (ht_sig v).

Lemma low_serialize s1 s2 : RS s1 s2 -> low same_len (serialize p s1) (serialize p s2).
Proof.
  intros (Er & [Ek Ea] & Eh). unfold serialize. cbv zeta. apply low_same; intros _.
  set (R := fun u v : bytes * N => nlen (fst u) = nlen (fst v) /\ snd u = snd v).
  eapply low_bind; [apply low_copy_into; [reflexivity|exact Er]|]. intros o1 o2 Eo.
  apply (low_bind R).
  { apply (low_for_range R); [|split; [exact Eo|reflexivity]]. intros k u v _ E.
    eapply low_bind; [apply low_index; exact Ek|]. intros x y Exy.
    apply (low_bind R); [apply low_put; [apply E|apply E|exact Exy]|]. intros u' v' E'.
    apply (low_for_range R); [|exact E']. intros a u'' v'' _ E''.
    eapply low_bind; [apply low_index_ll; exact Ea|]. intros t1 t2 Et.
    eapply low_bind; [apply low_index; exact Et|]. intros x' y' Exy'. apply low_put; [apply E''|apply E''|exact Exy']. }
  intros u v E. apply (low_bind R).
  { apply (low_for_range R); [|exact E]. clear u v E. intros d u v _ E. apply (low_bind R).
    - apply (low_for_range R); [|exact E]. clear u v E. intros l u v _ E.
      eapply low_bind; [apply low_index_rx; exact Eh|]. intros x1 x2 [X1 X2].
      eapply low_bind; [apply low_index; exact X1|]. intros x y Exy. apply low_put; [apply E|apply E|exact Exy].
    - clear u v E. intros u v E. apply (low_for_range R); [|exact E]. clear u v E. intros l u v _ E.
      eapply low_bind; [apply low_index_rx; exact Eh|]. intros x1 x2 [X1 X2].
      eapply low_bind; [apply low_index; exact X2|]. intros x y Exy. apply low_put; [apply E|apply E|exact Exy]. }
  clear u v E. intros [u i] [v j] [E1 E2]. cbn [fst snd] in E1, E2. subst j. rewrite E1. apply low_same; intros _.
  apply low_ret. exact E1.
Qed.
End LowTree.
