(** C79: the shape of every hash call, and no two different calls hash the same string. *)
From Verif Require Import Spec.Fips205 Spec.Fips205Hash.
From Verif Require Import Model.Api Proof.Facts Proof.HashP Proof.Fun Proof.WotsP Proof.XmssP Proof.HtP Proof.ForsP Proof.SlhP Proof.SerP Proof.ApiP
  Proof.SpecFun Proof.SpecP Proof.HelpersP Proof.Honest Proof.PosP Spec.Vocab Proof.Summary Proof.CallsP Proof.TopCorrect Proof.TopSafety
  Proof.TopKeys Proof.TopFraming Proof.TopTrace Proof.TopWots Proof.Forge Proof.TopForge
  Spec.VocabForge Spec.VocabBind Spec.VocabPrim Spec.VocabCall Proof.TopPrim Proof.TopCommit.
Import ListNotations.
Open Scope list_scope.
Open Scope N_scope.

Section Shape.
Context (p : Params) (HP : PF p) (hf : HashFns) (HL : HLen (cN p) (cM p) hf) (ps : bytes).

(** function and number of inputs for address type ty and height c *)
Definition slot (ty c : N) (k : hkind) (cnt : N) : Prop :=
  ty = 0 /\ k = KF /\ cnt = 1 \/
  ty = 1 /\ k = KTl /\ cnt = cLEN p \/
  ty = 2 /\ k = KH /\ cnt = 2 \/
  ty = 3 /\ c = 0 /\ k = KF /\ cnt = 1 \/
  ty = 3 /\ 0 < c /\ k = KH /\ cnt = 2 \/
  ty = 4 /\ k = KTlen /\ cnt = cK p \/
  ty = 5 /\ k = KPRF /\ cnt = 1 \/
  ty = 6 /\ k = KPRF /\ cnt = 1.
Definition shaped (e : event) : Prop :=
  exists k l t ty b c d inp, e = EHash k ps (adr l t ty b c d) inp /\ c < 4294967296 /\
    slot ty c k (nlen inp) /\ Forall (fun x => nlen x = cN p) inp.

Ltac slot_tac := unfold slot; repeat match goal with
  | |- _ /\ _ => split
  | |- ?x = ?x => reflexivity
  end.
Ltac give k l t ty b c d inp := exists k, l, t, ty, b, c, d, inp; split; [reflexivity|].

Lemma Forall1 (x : bytes) : nlen x = cN p -> Forall (fun y => nlen y = cN p) [x].
Proof. intros L. constructor; [exact L|constructor]. Qed.
Lemma Forall2 (x y : bytes) : nlen x = cN p -> nlen y = cN p -> Forall (fun y => nlen y = cN p) [x; y].
Proof. intros L M. constructor; [exact L|]. apply Forall1. exact M. Qed.

Lemma shaped_F l t kp i j x : i < 4294967296 -> nlen x = cN p -> shaped (EHash KF ps (wA l t kp i j) [x]).
Proof.
  intros Hi L. unfold wA. give KF l t 0 kp i j [x]. split; [exact Hi|]. split; [|apply Forall1; exact L].
  left. auto.
Qed.
Lemma shaped_wcomp l t kp tips : nlen tips = cLEN p -> Forall (fun x => nlen x = cN p) tips -> shaped (wcompC ps l t kp tips).
Proof.
  intros L F. unfold wcompC. give KTl l t 1 kp 0 0 tips. split; [reflexivity|]. split; [|exact F]. right. left. auto.
Qed.
Lemma shaped_xnd l t z i x y : z < 4294967296 -> nlen x = cN p -> nlen y = cN p -> shaped (xndC ps l t z i x y).
Proof.
  intros Hz Lx Ly. unfold xndC. give KH l t 2 0 z i [x; y]. split; [exact Hz|]. split; [|apply Forall2; assumption].
  do 2 right. left. auto.
Qed.
Lemma shaped_flv t kp i x : nlen x = cN p -> shaped (flvC ps t kp i x).
Proof.
  intros L. unfold flvC, fA. give KF 0 t 3 kp 0 i [x]. split; [reflexivity|]. split; [|apply Forall1; exact L].
  do 3 right. left. auto.
Qed.
Lemma shaped_fnd t kp z i x y : 0 < z < 4294967296 -> nlen x = cN p -> nlen y = cN p -> shaped (fndC ps t kp z i x y).
Proof.
  intros Hz Lx Ly. unfold fndC, fA. give KH 0 t 3 kp z i [x; y]. split; [lia|]. split; [|apply Forall2; assumption].
  do 4 right. left. repeat split; lia.
Qed.
Lemma shaped_fcomp t kp roots : nlen roots = cK p -> Forall (fun x => nlen x = cN p) roots -> shaped (fcompC ps t kp roots).
Proof.
  intros L F. unfold fcompC. give KTlen 0 t 4 kp 0 0 roots. split; [reflexivity|]. split; [|exact F].
  do 5 right. left. auto.
Qed.

Lemma nlen_map_nrange {X} (f : N -> X) k : nlen (map f (nrange k)) = k.
Proof. rewrite nrange_seq. unfold nlen. rewrite !map_length, seq_length. apply Nnat.N2Nat.id. Qed.

(** verification *)
Lemma shaped_wpkC l t kp sig m : nlen sig = cLEN p -> nb p sig -> Forall shaped (wpkC p hf ps l t kp sig m).
Proof.
  intros Ls Hb. pose proof (bounds p HP) as (B1 & B2 & B3 & B4 & B5 & B6 & B7 & B8). apply Forall_app. split.
  - apply Forall_flat_map_iff. intros i Hi. apply In_nrange in Hi. apply Forall_chainC. intros j Hj.
    apply shaped_F; [lia|]. apply (nlen_chain_n p hf HL). apply nb_nth; [exact Hb|]. lia.
  - constructor; [|constructor]. apply shaped_wcomp; [apply nlen_map_nrange|]. unfold wtips. rewrite Forall_map, Forall_forall.
    intros i Hi. apply In_nrange in Hi. apply (nlen_chain_n p hf HL). apply nb_nth; [exact Hb|]. lia.
Qed.

Lemma shaped_xpkC l t idx sg m : wf_xmss p sg -> nb p (sig_wots sg) -> nb p (xmss_auth sg) ->
  Forall shaped (xpkC p hf ps l t idx sg m).
Proof.
  intros [W1 W2] N1 N2. pose proof (bounds p HP) as (B1 & B2 & B3 & B4 & B5 & B6 & B7 & B8). apply Forall_app.
  split; [apply shaped_wpkC; assumption|]. apply Forall_climbC. intros j Hj. unfold up.
  assert (A : nlen (nth (N.to_nat (0 + N.of_nat j)) (xmss_auth sg) []) = cN p) by (apply nb_nth; [exact N2|lia]).
  assert (C : nlen (climb (xnd hf ps l t) (fun k => nth (N.to_nat k) (xmss_auth sg) []) idx j 0 (wpk p hf ps l t idx (sig_wots sg) m)) = cN p).
  { apply nlen_climb; [intros; apply (len_H _ _ _ HL)|]. apply (len_T _ _ _ HL). }
  destruct (N.even _); apply shaped_xnd; try assumption; lia.
Qed.

Lemma shaped_fpkC t kp fs md : nlen (private_key_value fs) = cK p -> nlen (fors_auth fs) = cK p ->
  Forall (fun r => nlen r = cA p) (fors_auth fs) -> nb p (private_key_value fs) -> Forall (nb p) (fors_auth fs) ->
  Forall shaped (fpkC p hf ps t kp fs md).
Proof.
  intros L1 L2 F2 N1 N2. pose proof (bounds p HP) as (B1 & B2 & B3 & B4 & B5 & B6 & B7 & B8). apply Forall_app. split.
  - apply Forall_flat_map_iff. intros i Hi. apply In_nrange in Hi. constructor.
    + apply shaped_flv. apply nb_nth; [exact N1|]. lia.
    + apply Forall_climbC. intros j Hj. unfold up.
      assert (Z : In (nth (N.to_nat i) (fors_auth fs) []) (fors_auth fs)) by (apply nth_In; unfold nlen in L2; lia).
      pose proof (proj1 (Forall_forall _ _) F2 _ Z) as La. cbv beta in La.
      pose proof (proj1 (Forall_forall _ _) N2 _ Z) as Na.
      assert (A : nlen (nth (N.to_nat (0 + N.of_nat j)) (nth (N.to_nat i) (fors_auth fs) []) []) = cN p)
        by (apply nb_nth; [exact Na|lia]).
      assert (C : forall x0, nlen (climb (fnd hf ps t kp) (fun k => nth (N.to_nat k) (nth (N.to_nat i) (fors_auth fs) []) []) (fidx p md i) j 0
          (flv hf ps t kp (fidx p md i) x0)) = cN p).
      { intros x0. apply nlen_climb; [intros; apply (len_H _ _ _ HL)|]. apply (len_F _ _ _ HL). }
      destruct (N.even _); apply shaped_fnd; try assumption; try apply C; lia.
  - constructor; [|constructor]. apply shaped_fcomp; [apply nlen_map_nrange|]. unfold froots. rewrite Forall_map, Forall_forall.
    intros i Hi. unfold froot. apply nlen_climb; [intros; apply (len_H _ _ _ HL)|apply (len_F _ _ _ HL)].
Qed.

Lemma shaped_vrootC dg sg : wf_sig_n p sg -> Forall shaped (vrootC p hf ps dg sg).
Proof.
  intros ((W1 & W2 & W3 & W4 & W5) & _ & N1 & N2 & N3). apply Forall_app. split; [apply shaped_fpkC; assumption|].
  apply Forall_flat_map_iff. intros j Hj. apply in_seq in Hj. unfold hvalC.
  assert (Z : In (nth j (ht_sig sg) (mkXmssSig [] [])) (ht_sig sg)) by (apply nth_In; unfold nlen in W4; lia).
  pose proof (proj1 (Forall_forall _ _) W5 _ Z) as X1. pose proof (proj1 (Forall_forall _ _) N3 _ Z) as [X2 X3].
  apply shaped_xpkC; assumption.
Qed.

(** the owner *)
Lemma owned_shaped ss e : nlen ss = cN p -> owned p hf ps ss (okx0 p) (okf0 p) e -> shaped e.
Proof.
  intros Ls O. pose proof (bounds p HP) as (B1 & B2 & B3 & B4 & B5 & B6 & B7 & B8).
  assert (X : forall l t z i, nlen (xnode p hf ps ss l t z i) = cN p).
  { intros l t z i. unfold xnode. apply (nlen_mnode_n hf ps (cN p) (len_H _ _ _ HL) _ (fun z i => adr l t 2 0 z i)).
    intros. apply (len_T _ _ _ HL). }
  assert (Y : forall t kp z i, nlen (fnode hf ps ss t kp z i) = cN p).
  { intros t kp z i. unfold fnode. apply (nlen_mnode_n hf ps (cN p) (len_H _ _ _ HL) _ (fun z i => fA t kp z i)).
    intros. apply (len_F _ _ _ HL). }
  destruct O as [l t kp i Hx Hk Hi|l t kp i j Hx Hk Hi Hj|l t kp Hx Hk|l t z i Hx Hz Hi|t kp g Hf Hg|t kp g Hf Hg|t kp z i Hf Hz Hi|t kp Hf].
  - unfold wskC. give KPRF l t 5 kp i 0 [ss]. split; [lia|]. split; [|apply Forall1; exact Ls]. do 6 right. left. auto.
  - apply (shaped_F l t kp i j); [lia|]. apply (nlen_wval_n p hf HL).
  - apply shaped_wcomp; [apply nlen_map_nrange|]. unfold wends. rewrite Forall_map, Forall_forall. intros i _. apply (nlen_wval_n p hf HL).
  - apply shaped_xnd; [lia|apply X|apply X].
  - unfold fskC. give KPRF 0 t 6 kp 0 g [ss]. split; [lia|]. split; [|apply Forall1; exact Ls]. do 7 right. auto.
  - apply shaped_flv. apply (len_PRF _ _ _ HL).
  - apply shaped_fnd; [lia|apply Y|apply Y].
  - apply shaped_fcomp; [apply nlen_map_nrange|]. rewrite Forall_map, Forall_forall. intros i _. apply Y.
Qed.
End Shape.

Lemma any_shaped {T : Target} {P : Prims} s t k q a i :
  any_run s t -> In (EHash k q a i) t -> shaped (param_set s) q (EHash k q a i).
Proof.
  intros C I. pose proof (param_PF s) as HP. pose proof (HASHERS_len _ HP) as HL.
  assert (QQ : forall ps, shaped (param_set s) ps (EHash k q a i) -> shaped (param_set s) q (EHash k q a i)).
  { intros ps (k' & l & t' & ty & b & c & d & inp & E & K). injection E as E1 E2 E3 E4. subst q.
    exists k', l, t', ty, b, c, d, inp. rewrite E1, E3, E4. split; [reflexivity|exact K]. }
  assert (OW : forall ps ss L, nlen ss = cN (param_set s) ->
     Forall (owned (param_set s) (hf_of (param_set s)) ps ss (okx0 (param_set s)) (okf0 (param_set s))) L ->
     In (EHash k q a i) L -> shaped (param_set s) q (EHash k q a i)).
  { intros ps ss L Ls F J. apply (proj1 (Forall_forall _ _) F) in J. apply (QQ ps).
    exact (owned_shaped _ HP _ HL ps ss _ Ls J). }
  assert (VR : forall pk sig mp, nlen sig = cSIG_LEN (param_set s) ->
     In (EHash k q a i) (verify_calls (param_set s) (hf_of (param_set s)) pk (dec_sig (param_set s) sig) mp) ->
     shaped (param_set s) q (EHash k q a i)).
  { intros pk sig mp L J. apply verify_tail in J. apply (QQ (pk_seed pk)).
    exact (proj1 (Forall_forall _ _) (shaped_vrootC _ HP _ HL _ _ _ (wf_dec_sig _ HP sig L)) _ J). }
  assert (SG : forall r g sk mp hedged x, sk_typed s sk -> sign_desc (param_set s) r g sk mp hedged x ->
     In (EHash k q a i) (trace (snd x)) -> shaped (param_set s) q (EHash k q a i)).
  { intros r g sk0 mp hedged x W D J. destruct (sign_desc_shape _ _ _ _ _ _ _ D _ _ _ _ J) as [b K].
    refine (OW _ _ _ _ (tail_owned _ HP _ _ _ _) K). rewrite param_n. apply W. }
  assert (KG : forall r g, In (EHash k q a i) (trace_of (try_keygen_with_rng (param_set s) r) g) ->
     shaped (param_set s) q (EHash k q a i)).
  { intros r g J. destruct (keygen_shape _ HP _ _ _ _ _ _ J) as [x [y [z [K V]]]].
    refine (OW _ _ _ _ (root_owned _ HP _ _ _) K).
    assert (KT : key_pair s (fst (key_of (param_set s) x y z)) (snd (key_of (param_set s) x y z))).
    { apply (kp_generated s r g). rewrite V. apply f_equal. apply surjective_pairing. }
    destruct (key_pair_facts _ _ _ KT) as [W _]. exact (proj1 W). }
  destruct C as [r g|x y z|bs L|r g sk m ctx hedged W|r g sk m ctx ph hedged W|r g sk m hedged W
                |pk m sig ctx L|pk m sig ctx ph L|pk m sig L].
  - eapply KG; eassumption.
  - rewrite seeds_trace in I. eapply KG; eassumption.
  - rewrite <- param_sk in L. apply (import_shape _ HP _ _ _ _ _ L) in I.
    refine (OW _ _ _ _ (root_owned _ HP _ _ _) I).
    exact (proj1 (wf_sk_of_bytes _ HP _ L)).
  - destruct (N.le_gt_cases (nlen ctx) 255) as [Hc|Hc].
    + exact (SG _ _ _ _ _ _ W (try_sign_desc _ HP g sk m ctx hedged (typed_sk _ _ W) Hc) I).
    + unfold trace_of in I. rewrite (try_sign_long _ _ _ _ _ _ _ Hc) in I. destruct I as [I|[]]. discriminate.
  - destruct (N.le_gt_cases (nlen ctx) 255) as [Hc|Hc].
    + exact (SG _ _ _ _ _ _ W (try_hash_sign_desc _ HP g sk m ctx ph hedged (typed_sk _ _ W) Hc) I).
    + unfold trace_of in I. rewrite (try_hash_sign_long _ _ _ _ _ _ _ _ Hc) in I. destruct I as [I|[]]. discriminate.
  - exact (SG _ _ _ _ _ _ W (raw_sign_desc _ HP g sk m hedged (typed_sk _ _ W)) I).
  - apply In_calls in I. rewrite <- param_sig in L. destruct (N.le_gt_cases (nlen ctx) 255) as [Hc|Hc].
    + rewrite (proj2 (runs_verify _ HP pk m sig ctx Hc L)) in I. exact (VR _ _ _ L I).
    + rewrite (proj2 (runs_verify_long _ pk m sig ctx Hc)) in I. destruct I.
  - apply In_calls in I. rewrite <- param_sig in L. destruct (N.le_gt_cases (nlen ctx) 255) as [Hc|Hc].
    + rewrite (proj2 (runs_hash_verify _ HP pk m sig ctx ph Hc L)) in I. exact (VR _ _ _ L I).
    + rewrite (proj2 (runs_hash_verify_long _ pk m sig ctx ph Hc)) in I. destruct I.
  - apply In_calls in I. rewrite <- param_sig in L.
    rewrite (proj2 (runs_raw_verify _ HP pk m sig L)) in I. exact (VR _ _ _ L I).
Qed.

Lemma adr_type l t ty b c d : ty < 4294967296 -> a_type (adr l t ty b c d) = ty.
Proof. intros K. apply of_be4. exact K. Qed.
Lemma adr_word2 l t ty b c d : c < 4294967296 -> a_word2 (adr l t ty b c d) = c.
Proof. intros K. apply of_be4. exact K. Qed.

Lemma shaped_role s q k a i : shaped (param_set s) q (EHash k q a i) ->
  role s a = Some (k, nlen i) /\ Forall (fun x => nlen x = seed_bytes s) i.
Proof.
  intros (k' & l & t & ty & b & c & d & inp & E & Hc & S & F). injection E as -> -> ->. rewrite <- param_n.
  split; [|exact F]. set (j := nlen inp) in *. clearbody j.
  unfold role. unfold slot in S. rewrite adr_word2 by exact Hc.
  assert (Kk : cK (param_set s) = t_k (table2 s)) by (destruct s; reflexivity).
  assert (Kl : cLEN (param_set s) = 2 * t_n (table2 s) + 3) by (destruct s; reflexivity).
  rewrite Kk, Kl in S.
  destruct S as [(-> & -> & ->)|[(-> & -> & ->)|[(-> & -> & ->)|[(-> & -> & -> & ->)|[(-> & Z & -> & ->)|[(-> & -> & ->)|[(-> & -> & ->)|(-> & -> & ->)]]]]]]];
    rewrite adr_type by reflexivity; try reflexivity.
  rewrite (proj2 (N.eqb_neq c 0)) by lia. reflexivity.
Qed.

Lemma ret_val {A} (x y : A) : Val x = Val y -> x = y.
Proof. intros E. injection E as E. exact E. Qed.

Lemma concat_blocks n (l l' : list bytes) : 0 < n -> Forall (fun x => nlen x = n) l -> Forall (fun x => nlen x = n) l' ->
  concat l = concat l' -> l = l'.
Proof.
  intros Hn F F' E. apply concat_diff; [|exact E]. apply (f_equal nlen) in E.
  assert (K : forall m : list bytes, Forall (fun x => nlen x = n) m -> map nlen m = repeat n (length m) /\ nlen (concat m) = n * nlen m).
  { intros m G. induction G as [|x m Lx G [IH1 IH2]]; [split; [reflexivity|symmetry; apply N.mul_0_r]|].
    cbn [map repeat length concat]. rewrite Lx, IH1. split; [reflexivity|]. rewrite nlen_app, Lx, IH2.
    unfold nlen. cbn [length]. lia. }
  destruct (K _ F) as [-> L1]. destruct (K _ F') as [-> L2]. apply f_equal. rewrite L1, L2 in E.
  apply N.mul_cancel_l in E; [|lia]. unfold nlen in E. lia.
Qed.

Lemma prop_hash_calls_separated :
  forall (T : Target) (P : Prims) (s1 s2 : set_name) (t1 t2 : list event) (k1 k2 : hkind)
         (seed1 seed2 : bytes) (a1 a2 : Adrs) (in1 in2 : list bytes),
    any_run s1 t1 -> In (EHash k1 seed1 a1 in1) t1 ->
    any_run s2 t2 -> In (EHash k2 seed2 a2 in2) t2 ->
    (** the address determines the function and the number of inputs, all of n bytes *)
    (role s1 a1 = Some (k1, nlen in1) /\ Forall (fun x => nlen x = seed_bytes s1) in1) /\
    (** the same string is hashed by the same function only in the same call *)
    (seed_bytes s1 = seed_bytes s2 -> nlen seed1 = seed_bytes s1 -> nlen seed2 = seed_bytes s2 ->
     primitive_of s1 k1 = primitive_of s2 k2 ->
     hashed_string s1 k1 seed1 a1 in1 = hashed_string s2 k2 seed2 a2 in2 ->
     k1 = k2 /\ seed1 = seed2 /\ a1 = a2 /\ in1 = in2).
Proof.
  intros T P s1 s2 t1 t2 k1 k2 q1 q2 a1 a2 i1 i2 R1 I1 R2 I2.
  destruct (shaped_role _ _ _ _ _ (any_shaped _ _ _ _ _ _ R1 I1)) as [S1 F1].
  destruct (shaped_role _ _ _ _ _ (any_shaped _ _ _ _ _ _ R2 I2)) as [S2 F2].
  split; [split; assumption|]. intros En L1 L2 Ep E.
  destruct (prop_compressed_addresses_unambiguous T P s1 s2 t1 t2 k1 k2 q1 q2 a1 a2 i1 i2 R1 I1 R2 I2)
    as [(x1 & x2 & X1 & X2 & _ & _ & X) (y1 & y2 & Y1 & Y2 & _ & _ & Y)].
  destruct (any_small _ _ _ _ _ _ R1 I1) as (l1 & u1 & v1 & b1 & c1 & d1 & A1 & _).
  destruct (any_small _ _ _ _ _ _ R2 I2) as (l2 & u2 & v2 & b2 & c2 & d2 & A2 & _).
  assert (W1 : adrs_typed a1) by (rewrite A1; apply adr_typed). assert (W2 : adrs_typed a2) by (rewrite A2; apply adr_typed).
  clear A1 A2.
  rewrite (proj1 (runs_to_22_bytes a1 W1)) in X1. rewrite (proj1 (runs_to_22_bytes a2 W2)) in X2.
  rewrite (proj1 (runs_to_32_bytes a1 W1)) in Y1. rewrite (proj1 (runs_to_32_bytes a2 W2)) in Y2.
  rewrite <- ADRSc_flat in X1, X2 by assumption.
  apply ret_val in X1. apply ret_val in X2. apply ret_val in Y1. apply ret_val in Y2.
  unfold hashed_string in E. change (adrs_bytes a1) with (flat a1) in E. change (adrs_bytes a2) with (flat a2) in E.
  rewrite <- Ep, <- En in E.
  assert (K : q1 = q2 /\ a1 = a2 /\ concat i1 = concat i2).
  { assert (Lq : nlen q1 = nlen q2) by (rewrite L1, L2; exact En).
    destruct (primitive_of s1 k1); apply app_inj_len in E; try exact Lq; destruct E as [Eq E]; (split; [exact Eq|]).
    - apply app_inv_head in E. apply app_inj_len in E; [|rewrite !nlen_ADRSc by assumption; reflexivity].
      destruct E as [Ea Ei]. split; [apply X; rewrite <- X1, <- X2; exact Ea|exact Ei].
    - apply app_inv_head in E. apply app_inj_len in E; [|rewrite !nlen_ADRSc by assumption; reflexivity].
      destruct E as [Ea Ei]. split; [apply X; rewrite <- X1, <- X2; exact Ea|exact Ei].
    - apply app_inj_len in E; [|rewrite !nlen_flat by assumption; reflexivity].
      destruct E as [Ea Ei]. split; [apply Y; rewrite <- Y1, <- Y2; exact Ea|exact Ei]. }
  destruct K as [Kq [Ka Ki]].
  assert (Ei : i1 = i2).
  { apply (concat_blocks (seed_bytes s1)); [destruct s1; reflexivity|exact F1|rewrite En; exact F2|exact Ki]. }
  split; [|split; [exact Kq|split; [exact Ka|exact Ei]]].
  rewrite Ka in S1. unfold role in S1, S2.
  destruct (a_type a2) as [|y]; [congruence|].
  destruct (a_word2 a2 =? 0); repeat (destruct y as [y|y|]; try congruence).
Qed.
